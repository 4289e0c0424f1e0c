(** * A concrete environment and concrete histories

    Used only to show that the hypotheses of the theorems can be met.  The hash
    of [demo_env] is a toy. *)
From Verif Require Import Base Types Codec State Ledger Canister World.

(** ** A toy environment *)
Definition toy_mask : N := 18446744073709551615.
Definition mix (a b : N) : N := N.land (1000003 * a + b + 12345) toy_mask.
Fixpoint string_num (s : string) : N :=
  match s with
  | EmptyString => 1
  | String c s' => mix (string_num s') (Ascii.N_of_ascii c)
  end.
Definition bytes_num (b : list byte) : N := mix (N.of_nat (length b)) (from_be b).
Fixpoint value_num (v : value) : N :=
  match v with
  | VNat64 n => mix 11 n
  | VNat n => mix 12 n
  | VInt z => mix 13 (Z.to_N z)
  | VBlob b => mix 14 (bytes_num b)
  | VText s => mix 15 (string_num s)
  | VArray l => (fix go (l : list value) : N :=
                   match l with [] => 16 | x :: l' => mix (go l') (value_num x) end) l
  | VMap m => (fix go (m : list (string * value)) : N :=
                   match m with
                   | [] => 17
                   | (k, x) :: m' => mix (mix (go m') (string_num k)) (value_num x)
                   end) m
  end.
Definition tree_num (t : gmap string (list byte)) : N :=
  foldr (fun kv acc => mix acc (mix (string_num kv.1) (bytes_num kv.2))) 5 (map_to_list t).
(** Principals are ordered by length, then bytes. *)
Definition demo_prank (p : principal) : N := N.of_nat (length p) * 2 ^ 240 + from_be p.
Global Instance demo_env : Env := {
  vhash v := be_fixed 32 (value_num v);
  troot t := be_fixed 32 (tree_num t);
  prank := demo_prank
}.

(** ** Checking that events are allowed *)
Definition wf_principalb (p : principal) : bool := (length p <=? 29)%nat.
Definition wf_subb (o : option subaccount) : bool :=
  match o with Some s => s <? SUB_MOD | None => true end.
Definition wf_accountb (a : account) : bool := wf_principalb (owner a) && wf_subb (subacct a).
Definition wf_u64b (o : option N) : bool :=
  match o with Some n => n <? U64_MOD | None => true end.
Definition wf_callb (c : call) : bool :=
  match c with
  | CallDeposit cycles to m => (cycles <? U128_MOD) && wf_accountb to
  | CallTransfer sub to amount fee m created => wf_subb sub && wf_accountb to && wf_u64b created
  | CallTransferFrom sub from to amount fee m created =>
      wf_subb sub && wf_accountb from && wf_accountb to && wf_u64b created
  | CallApprove sub spender amount expected expires fee m created =>
      wf_subb sub && wf_accountb spender && wf_u64b expires && wf_u64b created
  | CallWithdraw sub to created amount => wf_subb sub && wf_principalb to && wf_u64b created
  | CallWithdrawFrom sub from to created amount =>
      wf_subb sub && wf_accountb from && wf_principalb to && wf_u64b created
  | CallCreateCanister sub created amount args => wf_subb sub && wf_u64b created
  | CallCreateCanisterFrom from sub created amount args =>
      wf_accountb from && wf_subb sub && wf_u64b created
  end.
Definition late_errorb (e : call_error) : bool :=
  match e with
  | CEInsufficientLiquidCycleBalance => false
  | CECallPerformFailed => false
  | _ => true
  end.
Definition wf_answerb (a : answer) : bool :=
  match a with
  | AnsDeposit (Err e) => late_errorb e
  | AnsDeposit (Ok _) => true
  | AnsCmc (Err e) => late_errorb e
  | AnsCmc (Ok (Ok p)) => wf_principalb p
  | AnsCmc (Ok (Err (CmcRefunded n))) => n <? U128_MOD
  | AnsCmc (Ok (Err CmcRefundFailed)) => true
  end.
Definition wf_ledger_argsb (a : ledger_args) : bool :=
  match a with
  | LInit c =>
      (max_blocks_per_request c <? U64_MOD)
      && forallb (fun e => wf_accountb e.1 && (e.2 <? U128_MOD)) (default [] (initial_balances c))
  | LUpgrade (Some u) => wf_u64b (ua_max_blocks_per_request u)
  | LUpgrade None => true
  end.
Definition ev_okb (w : world) (ev : event) : bool :=
  let t now := (w_clock w <=? now) && (now <? U64_MOD) in
  match ev with
  | EvCall now caller c sync => t now && wf_principalb caller && wf_callb c
  | EvReply now id ans refund =>
      t now && wf_answerb ans &&
      match w_pend w !! id with Some p => refund <=? pending_amount p | None => true end
  | EvUpgrade now args =>
      t now && match args with Some a => wf_ledger_argsb a | None => true end
  | EvConsume _ => true
  | EvTopUp _ => true
  | EvCrash now id refund =>
      t now && match w_pend w !! id with Some p => refund <=? pending_amount p | None => true end
  end.

Lemma wf_principalb_ok p : wf_principalb p = true -> wf_principal p.
Proof. unfold wf_principalb, wf_principal. lia. Qed.
Lemma wf_subb_ok o : wf_subb o = true -> wf_sub o.
Proof. destruct o; simpl; [|done]. lia. Qed.
Lemma wf_accountb_ok a : wf_accountb a = true -> wf_account a.
Proof.
  unfold wf_accountb. intros [H1 H2]%andb_true_iff.
  split; [by apply wf_principalb_ok|by apply wf_subb_ok].
Qed.
Lemma wf_u64b_ok o : wf_u64b o = true -> wf_u64_opt o.
Proof. destruct o; simpl; [|done]. unfold is_u64. lia. Qed.
Local Ltac crush := repeat match goal with
  | H : (_ && _) = true |- _ => apply andb_true_iff in H as [? ?] end;
  repeat match goal with |- _ /\ _ => split end;
  auto using wf_principalb_ok, wf_subb_ok, wf_accountb_ok, wf_u64b_ok.
Lemma wf_callb_ok c : wf_callb c = true -> wf_call c.
Proof. destruct c; simpl; intros; crush. unfold is_u128. lia. Qed.
Lemma wf_answerb_ok a : wf_answerb a = true -> wf_answer a.
Proof.
  destruct a as [[[]|[]]|[[p|[n|]]|[]]]; simpl; try done; try apply wf_principalb_ok.
  unfold is_u128. lia.
Qed.
Lemma wf_ledger_argsb_ok a : wf_ledger_argsb a = true -> wf_ledger_args a.
Proof.
  destruct a as [c|[u|]]; simpl; intros.
  - apply andb_true_iff in H as [H1 H2]. split; [unfold is_u64; lia|].
    rewrite forallb_forall in H2. apply Forall_forall. intros [a n] Hx%elem_of_list_In.
    specialize (H2 _ Hx). simpl in *. apply andb_true_iff in H2 as [Ha Hn].
    split; [by apply wf_accountb_ok|]. unfold is_u128. lia.
  - by apply wf_u64b_ok.
  - done.
Qed.
Lemma ev_okb_ok w ev : ev_okb w ev = true -> ev_ok w ev.
Proof.
  destruct ev; simpl; intros.
  - crush; [split; [lia|unfold is_u64; lia]|by apply wf_callb_ok].
  - crush; [split; [lia|unfold is_u64; lia]|by apply wf_answerb_ok|]. destruct (w_pend w !! id); [lia|done].
  - crush; [split; [lia|unfold is_u64; lia]|]. destruct args; [by apply wf_ledger_argsb_ok|done].
  - done.
  - done.
  - crush; [split; [lia|unfold is_u64; lia]|]. destruct (w_pend w !! id); [lia|done].
Qed.

(** Run a list of events, checking each. *)
Fixpoint run `{Env} (w : world) (evs : list event) : option world :=
  match evs with
  | [] => Some w
  | ev :: evs' => if ev_okb w ev then run (step w ev).1 evs' else None
  end.
Lemma run_reachable `{Env} w evs w' : reachable w -> run w evs = Some w' -> reachable w'.
Proof.
  revert w. induction evs as [|ev evs IH]; intros w Hr; simpl.
  - by intros [= <-].
  - destruct (ev_okb w ev) eqn:E; [|done]. apply IH. constructor; [done|by apply ev_okb_ok].
Qed.
Lemma run_steps `{Env} w evs w' : run w evs = Some w' -> exists tr, steps w tr w'.
Proof.
  revert w. induction evs as [|ev evs IH]; intros w; simpl.
  - intros [= <-]. eexists. constructor.
  - destruct (ev_okb w ev) eqn:E; [|done]. intros Hr. destruct (IH _ Hr) as [tr Htr].
    eexists. constructor; [by apply ev_okb_ok|done].
Qed.
(** Install, then run. *)
Definition history `{Env} (now cycles : N) (args : ledger_args) (evs : list event) : option world :=
  if (now <? U64_MOD) && wf_ledger_argsb args then
    match init_world now cycles args with Some w => run w evs | None => None end
  else None.
Lemma history_reachable `{Env} now cycles args evs w :
  history now cycles args evs = Some w -> reachable w.
Proof.
  unfold history. destruct ((now <? U64_MOD) && wf_ledger_argsb args) eqn:E; [|done].
  apply andb_true_iff in E as [E1 E2]. destruct (init_world now cycles args) as [w0|] eqn:Ei; [|done].
  apply run_reachable. eapply reach_init; [|by apply wf_ledger_argsb_ok|done]. unfold is_u64. lia.
Qed.

(** The world a history leads to ([w0] is a dummy). *)
Definition dummy_world : world := World empty_state 0 ∅ 0 0 0.
Definition the_world (o : option world) : world := default dummy_world o.
Lemma the_world_reachable `{Env} now cycles args evs :
  (match history now cycles args evs with Some _ => true | None => false end) = true ->
  reachable (the_world (history now cycles args evs)).
Proof.
  destruct (history now cycles args evs) as [w|] eqn:E; [|done]. intros _. by eapply history_reachable.
Qed.

(** ** Principals and accounts *)
Definition alice : principal := [Byte.x0a].
Definition bob : principal := [Byte.x0b].
Definition carol : principal := [Byte.x0c].
Definition canister : principal := [Byte.x00; Byte.x05; Byte.x01; Byte.x01].
Definition acct (p : principal) : account := Acct p None.
Definition alice1 : account := Acct alice (Some 1).

Definition T : N := 1000000000000.   (* 10^12 cycles *)
Definition T0 : N := 1700000000000000000.   (* a time in 2023 *)
Definition sec : N := 1000000000.

Definition demo_init : ledger_args := LInit (Config 50 None (Some [(acct carol, 7 * T)])).

(** Deposits, a transfer, approvals, a transfer_from, a withdrawal that
    succeeds, one that fails and is refunded, a canister creation, an upgrade. *)
Definition demo_events : list event :=
  [ EvCall (T0 + 1 * sec) carol (CallDeposit (10 * T) (acct alice) None) None;
    EvCall (T0 + 2 * sec) alice
      (CallTransfer None (acct bob) (2 * T) (Some FEE) (Some [Byte.x01]) (Some (T0 + 2 * sec))) None;
    EvCall (T0 + 3 * sec) alice
      (CallApprove None (acct bob) (5 * T) (Some 0) (Some (T0 + 3600 * sec)) None None None) None;
    EvCall (T0 + 4 * sec) bob
      (CallTransferFrom None (acct alice) (acct carol) T None None None) None;
    EvCall (T0 + 5 * sec) bob (CallWithdrawFrom None (acct alice) canister None T) None;
    EvCall (T0 + 6 * sec) alice (CallCreateCanister None (Some (T0 + 6 * sec)) T None) None;
    EvReply (T0 + 7 * sec) 0 (AnsDeposit (Err (CECallRejected (Some RejDestinationInvalid)))) T;
    EvReply (T0 + 8 * sec) 1 (AnsCmc (Ok (Ok canister))) 0;
    EvCall (T0 + 9 * sec) alice (CallWithdraw None canister None T) None;
    EvReply (T0 + 10 * sec) 2 (AnsDeposit (Ok tt)) 0;
    EvUpgrade (T0 + 11 * sec) (Some (LUpgrade (Some (UpgradeArgs (Some 60) (Some (SetTo bob)))))) ].

Definition demo_world : world := the_world (history T0 (100 * T) demo_init demo_events).
Lemma demo_reachable : reachable demo_world.
Proof. apply the_world_reachable. vm_compute. reflexivity. Qed.

(** The block at an index (a dummy if there is none) *)
Definition dummy_block : block := Blk (Tx (Mint (acct alice) 0 0) None None) 0 None None.
Definition block_at (w : world) (i : nat) : block := default dummy_block (blocks (w_led w) !! i).
