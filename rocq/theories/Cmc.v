(** * The stand-in for the cycles minting canister

    fake-cmc/src: the canister that takes the place of the cycles minting canister
    in the project's tests.  It is put together with the ledger in [csys]. *)
From Verif Require Import Base Types Codec State Ledger Canister.

(** [u128] subtraction in the release profile *)
Definition u128_wrap_sub (a b : N) : N := (a + 2 ^ 128 - b) mod 2 ^ 128.

(** fake-cmc/src/main.rs:29 *)
Definition MIN_CREATE_CYCLES : N := 100000000000.

Section WithEnv.
Context `{Env}.

(** fake-cmc/src/lib.rs:8-12 [State] *)
Record cmc := Cmc { f_last_args : option cmc_args; f_fail_next : option cmc_error }.

(** The end of the first message of [create_canister]: an answer, or a call of the
    management canister.  With it the cycles accepted. *)
Inductive cmc_first := FirstAnswer (r : result cmc_error principal) | FirstCreating.

(** fake-cmc/src/main.rs:27-53 [create_canister], up to the [await].
    [msg_cycles_accept n] takes at most what is attached. *)
Definition cmc_create (s : cmc) (arg : cmc_args) (cycles : N) : cmc * cmc_first * N :=
  if cycles <? MIN_CREATE_CYCLES then (s, FirstAnswer (Err (CmcRefunded cycles)), 0) else
  match f_fail_next s with
  | Some e =>
      (Cmc (Some arg) None, FirstAnswer (Err e),
       match e with
       | CmcRefunded n => N.min cycles (u128_wrap_sub cycles n)
       | CmcRefundFailed => cycles
       end)
  | None => (Cmc (Some arg) None, FirstCreating, cycles)
  end.

(** What the management canister answers to the stand-in: a new canister; that the
    id is taken, in which case the code asks again; or anything else, on which the
    code panics.  fake-cmc/src/main.rs:57-81 *)
Inductive created := Created (p : principal) | IdTaken | NotCreated.

(** ** The ledger and the stand-in *)

(** A canister creation accepted by the ledger: who asked for what, the index of
    the block that burned the cycles, and what the ledger sends to the stand-in.
    [j_canister] is the canister the management canister made for it. *)
Inductive stage :=
| OnTheWay                                (* the request has not arrived *)
| Creating                                (* the stand-in waits for the management canister *)
| Answered (ans : answer) (refund : N)    (* the answer is on its way, with cycles *)
| Told (r : response).                    (* the ledger has handled the answer *)
Record job := Job {
  j_caller : principal; j_call : call; j_block : N;
  j_arg : cmc_args; j_cycles : N;
  j_canister : option principal; j_stage : stage
}.
Definition set_stage (st : stage) (j : job) : job :=
  Job (j_caller j) (j_call j) (j_block j) (j_arg j) (j_cycles j) (j_canister j) st.
Definition set_canister (p : principal) (j : job) : job :=
  Job (j_caller j) (j_call j) (j_block j) (j_arg j) (j_cycles j) (Some p) (j_stage j).

(** [z_jobs] are the creations by the number of the ledger's outgoing call. *)
Record csys := CSys { z_led : world; z_cmc : cmc; z_jobs : gmap N job }.

(** Messages of the two canisters: fake-cmc/src/main.rs and the ledger's events *)
Inductive csys_event :=
| ZCall (now : N) (caller : principal) (c : call) (sync : option sync_error)
| ZLedger (ev : event)              (* anything else that happens to the ledger *)
| ZArm (e : cmc_error)              (* [fail_next_create_canister_with] is called *)
| ZDeliver (n : N)                  (* the request of call [n] reaches the stand-in *)
| ZReject (n : N) (code : option reject_code)  (* the IC rejects it undelivered *)
| ZManagement (n : N) (o : created) (* the management canister answers the stand-in *)
| ZAnswer (now n : N).              (* the answer reaches the ledger *)

(** Update of one record field; no code in /repo *)
Definition set_job (n : N) (j : job) (z : csys) : csys :=
  CSys (z_led z) (z_cmc z) (<[n := j]> (z_jobs z)).

(** One event.  A panic of the stand-in after the [await] rejects the call; the
    cycles it accepted before stay with it. *)
Definition csys_step (z : csys) (ev : csys_event) : csys :=
  match ev with
  | ZCall now caller c sync =>
      match step (z_led z) (EvCall now caller c sync) with
      | (w', RespPending n (OutCmcCreate arg cycles)) =>
          CSys w' (z_cmc z)
            (<[n := Job caller c (nblocks (w_led (z_led z))) arg cycles None OnTheWay]> (z_jobs z))
      | (w', _) => CSys w' (z_cmc z) (z_jobs z)
      end
  | ZLedger ev => CSys (step (z_led z) ev).1 (z_cmc z) (z_jobs z)
  | ZArm e => CSys (z_led z) (Cmc (f_last_args (z_cmc z)) (Some e)) (z_jobs z)
  | ZDeliver n =>
      match z_jobs z !! n with
      | Some j =>
          match j_stage j with
          | OnTheWay =>
              let '(s', first, accepted) := cmc_create (z_cmc z) (j_arg j) (j_cycles j) in
              CSys (z_led z) s'
                (<[n := set_stage (match first with
                                   | FirstAnswer r => Answered (AnsCmc (Ok r)) (j_cycles j - accepted)
                                   | FirstCreating => Creating
                                   end) j]> (z_jobs z))
          | _ => z
          end
      | None => z
      end
  | ZReject n code =>
      match z_jobs z !! n with
      | Some j =>
          match j_stage j with
          | OnTheWay => set_job n (set_stage (Answered (AnsCmc (Err (CECallRejected code))) (j_cycles j)) j) z
          | _ => z
          end
      | None => z
      end
  | ZManagement n o =>
      match z_jobs z !! n with
      | Some j =>
          match j_stage j, o with
          | Creating, Created p =>
              set_job n (set_canister p (set_stage (Answered (AnsCmc (Ok (Ok p))) 0) j)) z
          | Creating, NotCreated =>
              set_job n (set_stage (Answered (AnsCmc (Err (CECallRejected (Some RejCanisterError)))) 0) j) z
          | _, _ => z
          end
      | None => z
      end
  | ZAnswer now n =>
      match z_jobs z !! n with
      | Some j =>
          match j_stage j with
          | Answered ans refund =>
              let (w', r) := step (z_led z) (EvReply now n ans refund) in
              CSys w' (z_cmc z) (<[n := set_stage (Told r) j]> (z_jobs z))
          | _ => z
          end
      | None => z
      end
  end.

(** Which events can happen: as for the ledger alone; only the stand-in answers
    canister creations; the management canister gives the cycles back when it
    rejects [deposit_cycles], and never hands out the same canister twice. *)
Definition csys_ok (z : csys) (ev : csys_event) : Prop :=
  match ev with
  | ZCall now caller c sync => ev_ok (z_led z) (EvCall now caller c sync)
  | ZLedger ev =>
      ev_ok (z_led z) ev
      /\ match ev with
         | EvCall _ _ _ _ => False
         | EvReply _ id (AnsDeposit (Err _)) refund =>
             forall p, w_pend (z_led z) !! id = Some p -> refund = pending_amount p
         | EvReply _ _ (AnsDeposit (Ok _)) _ => True
         | EvReply _ _ (AnsCmc _) _ => False
         | _ => True
         end
  | ZArm (CmcRefunded n) => is_u128 n
  | ZManagement _ (Created p) =>
      wf_principal p /\ forall n j, z_jobs z !! n = Some j -> j_canister j <> Some p
  | ZAnswer now _ => time_ok (z_led z) now
  | _ => True
  end.

(** The ledger in world [w], the stand-in just installed *)
Definition csys_init (w : world) : csys := CSys w (Cmc None None) ∅.

(** The states of the two canisters that can be reached; no code in /repo *)
Inductive csys_run (w : world) : csys -> Prop :=
| crun_init : csys_run w (csys_init w)
| crun_step z ev : csys_run w z -> csys_ok z ev -> csys_run w (csys_step z ev).
End WithEnv.
