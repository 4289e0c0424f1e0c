(** * The depositor canister

    depositor/src: a canister that holds cycles and, when asked, sends some of them
    to the ledger's [deposit].  The two canisters and the messages between them are
    put together in [sys]. *)
From Verif Require Import Base Types Codec State Ledger Canister.

Section WithEnv.
Context `{Env}.

(** depositor/src/endpoints.rs:10-15 [DepositArg] *)
Record dep_arg := DepArg { da_cycles : N; da_to : account; da_memo : option memo }.

(** depositor/src/lib.rs:6-20 [Config], kept on the heap, and the canister's cycles.
    [d_open] are the calls whose code waits for the ledger's answer. *)
Record depositor := Depositor { d_ledger : principal; d_cycles : N; d_open : gset N }.

(** A [deposit] request under way, with the cycles attached *)
Record request := Request { rq_dest : principal; rq_arg : dep_arg }.

(** [y_requests] and [y_answers] are the messages under way, by number of the call;
    an answer is a reply or a rejection ([None]), with the cycles sent back. *)
Record sys := Sys {
  y_id : principal;           (* the depositor's own id *)
  y_ledger : principal;       (* the ledger's id *)
  y_led : world;
  y_dep : depositor;
  y_requests : gmap N request;
  y_answers : gmap N (option reply * N);
  y_next : N
}.

(** Messages of the two canisters: depositor/src/main.rs and the ledger's events *)
Inductive sys_event :=
| YCall (arg : dep_arg) (enqueued : bool)  (* a call of the depositor's [deposit] *)
| YDeliver (now n : N)                     (* the request of call [n] reaches its destination *)
| YReject (n : N)                          (* the IC rejects it undelivered *)
| YAnswer (n : N)                          (* the answer reaches the depositor *)
| YUpgrade                                 (* the depositor is upgraded *)
| YLedger (ev : event)                     (* anything else that happens to the ledger *)
| YConsume (n : N) | YTopUp (n : N).       (* the depositor's cycles are used, are topped up *)

(** What is seen of an event.  [OutAnswer n None]: the call failed. *)
Inductive sys_out :=
| OutStarted (n : N)
| OutRefused
| OutDelivered (r : response)
| OutAnswer (n : N) (r : option reply)
| OutQuiet.

(** Updates of one record field; no code in /repo *)
Definition set_dep (d : depositor) (y : sys) : sys :=
  Sys (y_id y) (y_ledger y) (y_led y) d (y_requests y) (y_answers y) (y_next y).
Definition set_led (w : world) (y : sys) : sys :=
  Sys (y_id y) (y_ledger y) w (y_dep y) (y_requests y) (y_answers y) (y_next y).

(** The destination's part.  The ledger runs [deposit]; a trap is a rejection.  A
    destination other than the ledger is taken to reject: the only other one the
    code names is the management canister, which has no such method.  Cycles not
    accepted go back. *)
Definition serve (now : N) (y : sys) (q : request) : world * response * (option reply * N) :=
  let a := rq_arg q in
  if bool_decide (rq_dest q = y_ledger y) then
    let (w', resp) := step (y_led y)
      (EvCall now (y_id y) (CallDeposit (da_cycles a) (da_to a) (da_memo a)) None) in
    (w', resp, match resp with
               | RespReply r => (Some r, 0)
               | _ => (None, da_cycles a)
               end)
  else (y_led y, RespIgnored, (None, da_cycles a)).

(** depositor/src/main.rs:21-27 [init]; :29-46 [deposit], which traps when the call
    cannot be made ([expect], line 41) or is rejected; no [pre_upgrade] or
    [post_upgrade], so an upgrade puts [Config::default] (lib.rs:14-20). *)
Definition sys_step (y : sys) (ev : sys_event) : sys * sys_out :=
  let d := y_dep y in
  match ev with
  | YCall arg enqueued =>
      if enqueued && (da_cycles arg <=? d_cycles d) then
        (Sys (y_id y) (y_ledger y) (y_led y)
           (Depositor (d_ledger d) (d_cycles d - da_cycles arg) ({[y_next y]} ∪ d_open d))
           (<[y_next y := Request (d_ledger d) arg]> (y_requests y)) (y_answers y) (y_next y + 1),
         OutStarted (y_next y))
      else (y, OutRefused)
  | YDeliver now n =>
      match y_requests y !! n with
      | None => (y, OutQuiet)
      | Some q =>
          let '(w', resp, back) := serve now y q in
          (Sys (y_id y) (y_ledger y) w' d (delete n (y_requests y)) (<[n := back]> (y_answers y)) (y_next y),
           OutDelivered resp)
      end
  | YReject n =>
      match y_requests y !! n with
      | None => (y, OutQuiet)
      | Some q =>
          (Sys (y_id y) (y_ledger y) (y_led y) d (delete n (y_requests y))
             (<[n := (None, da_cycles (rq_arg q))]> (y_answers y)) (y_next y), OutQuiet)
      end
  | YAnswer n =>
      match y_answers y !! n with
      | None => (y, OutQuiet)
      | Some (r, refund) =>
          (Sys (y_id y) (y_ledger y) (y_led y)
             (Depositor (d_ledger d) (d_cycles d + refund) (d_open d ∖ {[n]}))
             (y_requests y) (delete n (y_answers y)) (y_next y),
           if bool_decide (n ∈ d_open d) then OutAnswer n r else OutQuiet)
      end
  | YUpgrade => (set_dep (Depositor MANAGEMENT_CANISTER (d_cycles d) ∅) y, OutQuiet)
  | YLedger ev => (set_led (step (y_led y) ev).1 y, OutQuiet)
  | YConsume n => (set_dep (Depositor (d_ledger d) (d_cycles d - n) (d_open d)) y, OutQuiet)
  | YTopUp n => (set_dep (Depositor (d_ledger d) (d_cycles d + n) (d_open d)) y, OutQuiet)
  end.

(** Which events can happen: as for the ledger; [cycles] is a [u128]. *)
Definition sys_ok (y : sys) (ev : sys_event) : Prop :=
  match ev with
  | YCall arg _ => is_u128 (da_cycles arg) /\ wf_account (da_to arg)
  | YDeliver now _ => time_ok (y_led y) now
  | YLedger ev => ev_ok (y_led y) ev
  | YConsume n => n <= d_cycles (y_dep y)
  | _ => True
  end.

(** The ledger in any state it can be in, the depositor just installed with the
    ledger's id and [cycles]. *)
Definition sys_init (id ledger : principal) (w : world) (cycles : N) : sys :=
  Sys id ledger w (Depositor ledger cycles ∅) ∅ ∅ 0.

(** The histories of the two canisters; no code in /repo *)
Inductive sys_steps : sys -> list (sys_event * sys_out) -> sys -> Prop :=
| sys_nil y : sys_steps y [] y
| sys_snoc y tr y' ev :
    sys_steps y tr y' -> sys_ok y' ev ->
    sys_steps y (tr ++ [(ev, (sys_step y' ev).2)]) (sys_step y' ev).1.
End WithEnv.
