(** * Endpoints (main.rs), error conversions (lib.rs), and the execution of a
    canister on the Internet Computer *)
From Verif Require Import Base Types Codec State Ledger.

Section WithEnv.
Context `{Env}.

(** ** Error conversions of lib.rs *)

(** lib.rs:153-182 *)
Definition t_of_tf (e : transfer_from_error) : transfer_error + trap :=
  match e with
  | TFBadFee f => inl (TBadFee f)
  | TFBadBurn m => inl (TBadBurn m)
  | TFInsufficientFunds b => inl (TInsufficientFunds b)
  | TFInsufficientAllowance _ => inr TrapInsufficientAllowance
  | TFTooOld => inl TTooOld
  | TFCreatedInFuture t => inl (TCreatedInFuture t)
  | TFDuplicate d => inl (TDuplicate d)
  | TFTemporarilyUnavailable => inl TTemporarilyUnavailable
  | TFGenericError c => inl (TGenericError c)
  end.
(** lib.rs:185-219 *)
Definition w_of_wf (e : withdraw_from_error) : withdraw_error + trap :=
  match e with
  | WFInsufficientFunds b => inl (WInsufficientFunds b)
  | WFInsufficientAllowance _ => inr TrapInsufficientAllowance
  | WFTooOld => inl WTooOld
  | WFCreatedInFuture t => inl (WCreatedInFuture t)
  | WFTemporarilyUnavailable => inl WTemporarilyUnavailable
  | WFDuplicate d => inl (WDuplicate d)
  | WFFailedToWithdrawFrom _ refund _ code => inl (WFailedToWithdraw refund code)
  | WFGenericError c => inl (WGenericError c)
  | WFInvalidReceiver r => inl (WInvalidReceiver r)
  end.
(** lib.rs:222-262 *)
Definition c_of_cf (e : create_canister_from_error) : create_canister_error + trap :=
  match e with
  | CFInsufficientFunds b => inl (CInsufficientFunds b)
  | CFInsufficientAllowance _ => inr TrapInsufficientAllowance
  | CFTooOld => inl CTooOld
  | CFCreatedInFuture t => inl (CCreatedInFuture t)
  | CFTemporarilyUnavailable => inl CTemporarilyUnavailable
  | CFDuplicate d c => inl (CDuplicate d c)
  | CFFailedToCreateFrom b r _ _ => inl (CFailedToCreate b r)
  | CFGenericError c => inl (CGenericError c)
  end.

(** ** Update calls *)

(** The update endpoints with their arguments.  [cycles] of [CDeposit] is the
    amount of cycles attached to the call. *)
Inductive call :=
| CallDeposit (cycles : N) (to : account) (m : option memo)
| CallTransfer (from_sub : option subaccount) (to : account) (amount : N) (fee : option N)
    (m : option memo) (created : option N)
| CallTransferFrom (spender_sub : option subaccount) (from to : account) (amount : N)
    (fee : option N) (m : option memo) (created : option N)
| CallApprove (from_sub : option subaccount) (spender : account) (amount : N)
    (expected expires fee : option N) (m : option memo) (created : option N)
| CallWithdraw (from_sub : option subaccount) (to : principal) (created : option N) (amount : N)
| CallWithdrawFrom (spender_sub : option subaccount) (from : account) (to : principal)
    (created : option N) (amount : N)
| CallCreateCanister (from_sub : option subaccount) (created : option N) (amount : N)
    (args : option cmc_args)
| CallCreateCanisterFrom (from : account) (spender_sub : option subaccount)
    (created : option N) (amount : N) (args : option cmc_args).

(** Candid replies of the update endpoints. *)
Inductive reply :=
| RepDeposit (block_index balance : N)
| RepTransfer (r : result transfer_error N)
| RepTransferFrom (r : result transfer_from_error N)
| RepApprove (r : result approve_error N)
| RepWithdraw (r : result withdraw_error N)
| RepWithdrawFrom (r : result withdraw_from_error N)
| RepCreate (r : result create_canister_error (N * principal))
| RepCreateFrom (r : result create_canister_from_error (N * principal)).

(** A call waiting for the reply of another canister: the local variables that
    are live across the [await].  [from_ep] tells whether the [_from] endpoint
    was called. *)
Inductive pending :=
| PWithdraw (from_ep : bool) (from : account) (to : principal) (spender : option account)
    (amount i : N) (old : option N)
| PCreate (from_ep : bool) (from : account) (spender : option account)
    (amount i : N) (old created : option N) (arg : cmc_args).

(** The outgoing call of a pending call: storage.rs:1801-1802 and 1985-1987 *)
Inductive outcall :=
| OutDepositCycles (canister : principal) (cycles : N)
| OutCmcCreate (arg : cmc_args) (cycles : N).
Definition outcall_of (p : pending) : outcall :=
  match p with
  | PWithdraw _ _ to _ amount _ _ => OutDepositCycles to amount
  | PCreate _ _ _ amount _ _ _ arg => OutCmcCreate arg amount
  end.
Definition pending_amount (p : pending) : N :=
  match p with
  | PWithdraw _ _ _ _ amount _ _ => amount
  | PCreate _ _ _ amount _ _ _ _ => amount
  end.

(** What comes back from an outgoing call. *)
Inductive answer :=
| AnsDeposit (r : result call_error unit)
| AnsCmc (r : result call_error (result cmc_error principal)).

(** How a message ends, seen from outside: main.rs:199-454 return a reply or trap; a
    call with an [await] is left waiting with its outgoing call; [RespIgnored] stands
    for events without an answer. *)
Inductive response :=
| RespTrap (t : trap)
| RespReply (r : reply)
| RespPending (id : N) (o : outcall)
| RespIgnored.

(** Turn [Ok]/[Err] into the candid reply. *)
Definition as_reply {E A} (wrap : result E A -> reply) (m : M E A) : M Empty_set reply := fun s =>
  match m s with
  | (s', OOk a) => (s', OOk (wrap (Ok a)))
  | (s', OErr e) => (s', OOk (wrap (Err e)))
  | (s', OTrap t) => (s', OTrap t)
  end.

(** main.rs:314-320, 325-336: the reply of the two withdraw endpoints *)
Definition withdraw_reply (from_ep : bool) (m : M withdraw_from_error N) : M Empty_set reply :=
  if from_ep then as_reply RepWithdrawFrom m
  else as_reply RepWithdraw (map_err_trap w_of_wf m).
(** main.rs:356-372, 376-390 *)
Definition create_reply (from_ep : bool) (m : M create_canister_from_error (N * principal))
  : M Empty_set reply :=
  if from_ep then as_reply RepCreateFrom m
  else as_reply RepCreate (map_err_trap c_of_cf m).

(** main.rs:199-208 [deposit] *)
Definition ep_deposit (now cycles : N) (to : account) (m : option memo) : M Empty_set reply :=
  let! (i, b) := or_trap TrapDepositRejected (deposit to cycles m now) in
  ret (RepDeposit i b).

(** main.rs:210-252 [execute_transfer] *)
Definition execute_transfer (now : N) (from to : account) (spender : option account)
  (amount : N) (fee : option N) (m : option memo) (created : option N)
  : M transfer_from_error N :=
  match nat_to_u128 amount with
  | None => let! b := gets (fun s => balance_of s from) in throw (TFInsufficientFunds b)
  | Some amount =>
      let go (fee : option N) :=
        let! i := transfer from to spender amount m now created fee in
        do! prune now in
        ret i in
      match fee with
      | None => go None
      | Some f =>
          match nat_to_u128 f with
          | None => throw (TFBadFee FEE)
          | Some f => go (Some f)
          end
      end
  end.

(** main.rs:407-454 [icrc2_approve] *)
Definition execute_approve (now : N) (from spender : account) (amount : N)
  (expected expires fee : option N) (m : option memo) (created : option N)
  : M approve_error N :=
  let go2 (expected fee : option N) :=
    let! i := approve from spender (default U128_MAX (nat_to_u128 amount)) m now
                created fee expected expires in
    do! prune now in
    ret i in
  let go1 (expected : option N) :=
    match fee with
    | None => go2 expected None
    | Some f =>
        match nat_to_u128 f with
        | None => throw (ABadFee FEE)
        | Some f => go2 expected (Some f)
        end
    end in
  match expected with
  | None => go1 None
  | Some e =>
      match nat_to_u128 e with
      | None =>
          let! current := gets (fun s => (allowance s from spender now).1) in
          throw (AAllowanceChanged current)
      | Some e => go1 (Some e)
      end
  end.

(** main.rs:295-310 [execute_withdraw], up to the [await] *)
Definition execute_withdraw (now : N) (from_ep : bool) (from : account) (to : principal)
  (spender : option account) (amount : N) (created : option N)
  : M withdraw_from_error pending :=
  match nat_to_u128 amount with
  | None => let! b := gets (fun s => balance_of s from) in throw (WFInsufficientFunds b)
  | Some amount =>
      let! (i, old) := withdraw_start from to spender amount now created in
      ret (PWithdraw from_ep from to spender amount i old)
  end.

(** main.rs:339-353 [execute_create_canister], up to the [await] *)
Definition execute_create (now : N) (from_ep : bool) (caller : principal) (from : account)
  (spender : option account) (amount : N) (created : option N) (arg : option cmc_args)
  : M create_canister_from_error pending :=
  match nat_to_u128 amount with
  | None => let! b := gets (fun s => balance_of s from) in throw (CFInsufficientFunds b)
  | Some amount =>
      let! (i, old) := create_start from spender amount now created in
      ret (PCreate from_ep from spender amount i old created (cmc_argument caller arg))
  end.

(** The rest of a pending call once its answer is there (storage.rs:1803 and
    1991 onwards).  [None]: the answer does not fit the call. *)
Definition resume (now : N) (p : pending) (ans : answer) : option (M Empty_set reply) :=
  match p, ans with
  | PWithdraw from_ep from _ spender amount i old, AnsDeposit r =>
      Some (withdraw_reply from_ep (withdraw_finish from spender amount i old now r))
  | PCreate from_ep from spender amount i old created _, AnsCmc r =>
      Some (create_reply from_ep (create_finish from spender amount i old created now r))
  | _, _ => None
  end.

(** ** Messages *)

(** A trap rolls the state back to the start of the message. *)
Definition commit (s0 : state) (r : state * outcome trap Empty_set reply) : state * response :=
  match r with
  | (s, OOk rep) => (s, RespReply rep)
  | (_, OErr e) => match e with end
  | (_, OTrap t) => (s0, RespTrap t)
  end.

(** The ways in which an outgoing call fails before it is sent; the code then
    continues in the same message. *)
Inductive sync_error := SELiquid | SEPerform.
Definition call_error_of_sync (e : sync_error) : call_error :=
  match e with
  | SELiquid => CEInsufficientLiquidCycleBalance
  | SEPerform => CECallPerformFailed
  end.
Definition sync_answer (p : pending) (e : sync_error) : answer :=
  match p with
  | PWithdraw _ _ _ _ _ _ _ => AnsDeposit (Err (call_error_of_sync e))
  | PCreate _ _ _ _ _ _ _ _ => AnsCmc (Err (call_error_of_sync e))
  end.

(** Result of the first message of a call: finished, or waiting. *)
Inductive msg_result := Done (r : response) | Waiting (p : pending).

(** First message of a withdraw or create call.  [avail] is the cycle balance;
    an outgoing call carrying more than that fails at once, and so may any other
    ([sync]). *)
Definition start_async {E} (now avail : N) (sync : option sync_error)
  (fail : M E pending -> M Empty_set reply) (m : M E pending) (s : state)
  : state * msg_result :=
  match m s with
  | (s1, OOk p) =>
      let sync := match sync with
                  | Some e => Some e
                  | None => if avail <? pending_amount p then Some SELiquid else None
                  end in
      match sync with
      | None => (s1, Waiting p)
      | Some e =>
          match resume now p (sync_answer p e) with
          | Some k => let (s2, r) := commit s (k s1) in (s2, Done r)
          | None => (s, Done RespIgnored)
          end
      end
  | _ => let (s2, r) := commit s (fail m s) in (s2, Done r)
  end.

(** The reply of a withdraw or create call that ends before the [await]. *)
Definition fail_withdraw (from_ep : bool) (m : M withdraw_from_error pending) : M Empty_set reply :=
  withdraw_reply from_ep (let! _ := m in ret 0).
Definition fail_create (from_ep : bool) (m : M create_canister_from_error pending)
  : M Empty_set reply :=
  create_reply from_ep (let! _ := m in ret (0, [])).

(** One update call: main.rs:199-454 *)
Definition exec_call (now avail : N) (caller : principal) (c : call) (sync : option sync_error)
  (s : state) : state * msg_result :=
  let sync_msg (m : M Empty_set reply) :=
    let (s', r) := commit s (m s) in (s', Done r) in
  match c with
  | CallDeposit cycles to m => sync_msg (ep_deposit now cycles to m)
  | CallTransfer sub to amount fee m created =>
      (* main.rs:254-271 *)
      sync_msg (as_reply RepTransfer (map_err_trap t_of_tf
        (execute_transfer now (Acct caller sub) to None amount fee m created)))
  | CallTransferFrom sub from to amount fee m created =>
      (* main.rs:273-288 *)
      sync_msg (as_reply RepTransferFrom
        (execute_transfer now from to (Some (Acct caller sub)) amount fee m created))
  | CallApprove sub spender amount expected expires fee m created =>
      sync_msg (as_reply RepApprove
        (execute_approve now (Acct caller sub) spender amount expected expires fee m created))
  | CallWithdraw sub to created amount =>
      (* main.rs:312-321 *)
      start_async now avail sync (fail_withdraw false)
        (execute_withdraw now false (Acct caller sub) to None amount created) s
  | CallWithdrawFrom sub from to created amount =>
      (* main.rs:323-337 *)
      start_async now avail sync (fail_withdraw true)
        (execute_withdraw now true from to (Some (Acct caller sub)) amount created) s
  | CallCreateCanister sub created amount args =>
      (* main.rs:355-373 *)
      start_async now avail sync (fail_create false)
        (execute_create now false caller (Acct caller sub) None amount created args) s
  | CallCreateCanisterFrom from sub created amount args =>
      (* main.rs:375-391 *)
      start_async now avail sync (fail_create true)
        (execute_create now true caller from (Some (Acct caller sub)) amount created args) s
  end.

(** ** Install and upgrade *)

(** main.rs:36-41: minting of the initial balances *)
Fixpoint mint_initial (now : N) (l : list (account * N)) : M Empty_set unit :=
  match l with
  | [] => ret tt
  | (a, amount) :: l' =>
      do! or_trap TrapInitialBalance (mint a amount None now) in
      mint_initial now l'
  end.

(** main.rs:32-50 [init] *)
Definition init (now : N) (args : ledger_args) : M Empty_set unit :=
  match args with
  | LInit c =>
      do! mint_initial now (default [] (initial_balances c)) in
      modify (set_cfg c)
  | LUpgrade _ => trap_with TrapInitWithUpgradeArg
  end.

(** storage.rs:700-731: the state read back from stable memory.  Certified data
    is kept by the IC; heap logs are lost. *)
Definition reload (s : state) : state :=
  let (ph, tree) := compute_last_block_hash_and_hash_tree (blocks s) in
  State (blocks s) (balances s) (approvals s) (exp_queue s) (tx_hashes s) (tx_timestamps s)
        (cfg s) ph (compute_total_supply (balances s)) tree (certified s) [].

(** main.rs:52-71 [post_upgrade] *)
Definition post_upgrade (args : option ledger_args) : M Empty_set unit :=
  match args with
  | Some (LUpgrade (Some u)) =>
      do! match ua_max_blocks_per_request u with
          | Some n => modify (fun s =>
              set_cfg (Config n (index_id (cfg s)) (initial_balances (cfg s))) s)
          | None => ret tt
          end in
      match ua_change_index_id u with
      | Some ch => modify (fun s =>
          set_cfg (Config (max_blocks_per_request (cfg s))
                     (match ch with Unset => None | SetTo p => Some p end)
                     (initial_balances (cfg s))) s)
      | None => ret tt
      end
  | None => ret tt
  | Some (LUpgrade None) => ret tt
  | Some (LInit _) => trap_with TrapUpgradeWithInitArg
  end.

(** ** The canister on the IC *)

(** [w_clock] is the time of the last message; [w_cycles] the cycle balance;
    [w_used] the cycles consumed so far by execution and storage. *)
Record world := World {
  w_led : state;
  w_clock : N;
  w_pend : gmap N pending;
  w_next : N;
  w_cycles : N;
  w_used : N
}.

(** The events are those of the Internet Computer: messages to the canister (main.rs),
    answers to its outgoing calls (storage.rs:1801-1803, 1982-1991), upgrades, and
    cycles spent or received otherwise.
    [EvCrash] is a call-back that the IC stops midway, at whatever point: nothing it
    did remains, and it is not tried again.  (A call or an upgrade that is stopped
    leaves everything as it was; it needs no event.) *)
Inductive event :=
| EvCall (now : N) (caller : principal) (c : call) (sync : option sync_error)
| EvReply (now id : N) (ans : answer) (refund : N)
| EvUpgrade (now : N) (args : option ledger_args)
| EvConsume (n : N)
| EvTopUp (n : N)
| EvCrash (now id refund : N).

(** Cycles accepted by a call that did not trap (main.rs:201-202). *)
Definition accepted_cycles (c : call) (r : response) : N :=
  match c, r with
  | CallDeposit cycles _ _, RespReply _ => cycles
  | _, _ => 0
  end.

(** One event. *)
Definition step (w : world) (ev : event) : world * response :=
  match ev with
  | EvCall now caller c sync =>
      match exec_call now (w_cycles w) caller c sync (w_led w) with
      | (s', Done r) =>
          (World s' now (w_pend w) (w_next w) (w_cycles w + accepted_cycles c r) (w_used w), r)
      | (s', Waiting p) =>
          (World s' now (<[w_next w := p]> (w_pend w)) (w_next w + 1)
                 (w_cycles w - pending_amount p) (w_used w),
           RespPending (w_next w) (outcall_of p))
      end
  | EvReply now id ans refund =>
      match w_pend w !! id with
      | None => (w, RespIgnored)
      | Some p =>
          match resume now p ans with
          | None => (w, RespIgnored)
          | Some k =>
              let (s', r) := commit (w_led w) (k (w_led w)) in
              (World s' now (delete id (w_pend w)) (w_next w) (w_cycles w + refund) (w_used w), r)
          end
      end
  | EvUpgrade now args =>
      match post_upgrade args (reload (w_led w)) with
      | (s', OOk _) => (World s' now ∅ (w_next w) (w_cycles w) (w_used w), RespIgnored)
      | (_, OErr e) => match e with end
      | (_, OTrap t) =>
          (World (w_led w) now (w_pend w) (w_next w) (w_cycles w) (w_used w), RespTrap t)
      end
  | EvConsume n =>
      (World (w_led w) (w_clock w) (w_pend w) (w_next w) (w_cycles w - n)
             (w_used w + N.min n (w_cycles w)), RespIgnored)
  | EvTopUp n =>
      (World (w_led w) (w_clock w) (w_pend w) (w_next w) (w_cycles w + n) (w_used w), RespIgnored)
  | EvCrash now id refund =>
      match w_pend w !! id with
      | None => (w, RespIgnored)
      | Some _ =>
          (World (w_led w) now (delete id (w_pend w)) (w_next w) (w_cycles w + refund) (w_used w),
           RespTrap TrapSystem)
      end
  end.

(** ** Which events can happen: candid ranges, monotone time, IC call rules *)

(** The ranges of the argument types: endpoints.rs:46-82, 270-294 and the argument types
    of [icrc_ledger_types] (subaccounts of 32 bytes, principals, [u64] times; the
    amounts are candid [nat]s, which have no bound). *)
Definition wf_sub (o : option subaccount) : Prop :=
  match o with Some s => s < SUB_MOD | None => True end.
Definition wf_account (a : account) : Prop := wf_principal (owner a) /\ wf_sub (subacct a).
Definition wf_u64_opt (o : option N) : Prop :=
  match o with Some n => is_u64 n | None => True end.

(** endpoints.rs:46-82, 270-294; [msg_cycles_available] (main.rs:201) is a [u128]. *)
Definition wf_call (c : call) : Prop :=
  match c with
  | CallDeposit cycles to m => is_u128 cycles /\ wf_account to
  | CallTransfer sub to amount fee m created => wf_sub sub /\ wf_account to /\ wf_u64_opt created
  | CallTransferFrom sub from to amount fee m created =>
      wf_sub sub /\ wf_account from /\ wf_account to /\ wf_u64_opt created
  | CallApprove sub spender amount expected expires fee m created =>
      wf_sub sub /\ wf_account spender /\ wf_u64_opt expires /\ wf_u64_opt created
  | CallWithdraw sub to created amount => wf_sub sub /\ wf_principal to /\ wf_u64_opt created
  | CallWithdrawFrom sub from to created amount =>
      wf_sub sub /\ wf_account from /\ wf_principal to /\ wf_u64_opt created
  | CallCreateCanister sub created amount args => wf_sub sub /\ wf_u64_opt created
  | CallCreateCanisterFrom from sub created amount args =>
      wf_account from /\ wf_sub sub /\ wf_u64_opt created
  end.

(** A reply that arrives later is not one of the immediate failures; candid
    limits the CMC's refund to a [nat] that fits [u128] (else decoding fails). *)
Definition wf_answer (a : answer) : Prop :=
  match a with
  | AnsDeposit (Err e) => e <> CEInsufficientLiquidCycleBalance /\ e <> CECallPerformFailed
  | AnsDeposit (Ok _) => True
  | AnsCmc (Err e) => e <> CEInsufficientLiquidCycleBalance /\ e <> CECallPerformFailed
  | AnsCmc (Ok (Ok p)) => wf_principal p
  | AnsCmc (Ok (Err (CmcRefunded n))) => is_u128 n
  | AnsCmc (Ok (Err CmcRefundFailed)) => True
  end.

(** config.rs:24-48, endpoints.rs:17-41: the ranges of the installation and upgrade
    arguments *)
Definition wf_ledger_args (a : ledger_args) : Prop :=
  match a with
  | LInit c =>
      is_u64 (max_blocks_per_request c)
      /\ Forall (fun e => wf_account e.1 /\ is_u128 e.2) (default [] (initial_balances c))
  | LUpgrade (Some u) => wf_u64_opt (ua_max_blocks_per_request u)
  | LUpgrade None => True
  end.

(** Messages have non-decreasing times below 2^64. *)
Definition time_ok (w : world) (now : N) : Prop := w_clock w <= now /\ is_u64 now.

(** The events that can happen next (rules of the Internet Computer, no code in /repo). *)
Definition ev_ok (w : world) (ev : event) : Prop :=
  match ev with
  | EvCall now caller c sync => time_ok w now /\ wf_principal caller /\ wf_call c
  | EvReply now id ans refund =>
      time_ok w now /\ wf_answer ans /\
      match w_pend w !! id with Some p => refund <= pending_amount p | None => True end
  | EvUpgrade now args =>
      time_ok w now /\ match args with Some a => wf_ledger_args a | None => True end
  | EvConsume n => True
  | EvTopUp n => True
  | EvCrash now id refund =>
      time_ok w now /\
      match w_pend w !! id with Some p => refund <= pending_amount p | None => True end
  end.

(** The world after a successful installation at time [now] with [cycles]
    attached. *)
Definition init_world (now cycles : N) (args : ledger_args) : option world :=
  match init now args empty_state with
  | (s, OOk _) => Some (World s now ∅ 0 cycles 0)
  | _ => None
  end.

(** ** Reachable worlds and histories *)
Inductive reachable : world -> Prop :=
| reach_init now cycles args w :
    is_u64 now -> wf_ledger_args args -> init_world now cycles args = Some w -> reachable w
| reach_step w ev :
    reachable w -> ev_ok w ev -> reachable (step w ev).1.

(** [steps w tr w']: from [w] the events of [tr], with these responses, lead to
    [w']. *)
Inductive steps : world -> list (event * response) -> world -> Prop :=
| steps_nil w : steps w [] w
| steps_cons w ev tr w' :
    ev_ok w ev -> steps (step w ev).1 tr w' -> steps w ((ev, (step w ev).2) :: tr) w'.

(** ** Queries.  main.rs *)

(** main.rs:167 *)
Definition icrc1_total_supply (s : state) : N := total_supply s.
(** main.rs:194 *)
Definition icrc1_balance_of (s : state) (a : account) : N := balance_of s a.
(** main.rs:88-91 *)
Definition icrc1_fee : N := FEE.
(** main.rs:393-405 *)
Definition icrc2_allowance (s : state) (now : N) (from spender : account) : N * option N :=
  let a := allowance s from spender now in
  (a.1, if 0 <? a.2 then Some a.2 else None).
(** main.rs:456-476 *)
Definition icrc103_get_allowances (s : state) (now : N) (caller : principal)
  (from : option account) (prev_spender : option account) (take : option N)
  : list allowance_entry :=
  let from := default (Acct caller None) from in
  let max_results :=
    match take with
    | Some t => N.min (default MAX_TAKE_ALLOWANCES (nat_to_u64 t)) MAX_TAKE_ALLOWANCES
    | None => MAX_TAKE_ALLOWANCES
    end in
  get_allowances s from prev_spender max_results now.
(** main.rs:290-293 *)
Definition icrc3_get_blocks (s : state) (args : list (N * N)) : blocks_result := get_blocks s args.
(** main.rs:478-484 *)
Definition icrc106_get_index_principal (s : state) : option principal := index_id (cfg s).
(** main.rs:140-164 *)
Definition icrc3_supported_block_types : list string :=
  ["1burn"; "1mint"; "2xfer"; "2approve"]%string.
(** main.rs:617-620 *)
Definition icrc3_get_archives : list principal := [].
(** main.rs:612-615, storage.rs:623-644: the value certified by the IC and the
    hash tree handed out with it, by its leaves (TipBytes.v has the bytes).  The
    IC's signature is not modelled. *)
Definition icrc3_get_tip_certificate (s : state) : option hash * gmap string (list byte) :=
  (certified s, hash_tree s).

(** main.rs:532-584: gauges of [/metrics] computed from the state, as numbers
    (Http.v has the conversion to [f64]). *)
Record metrics := Metrics {
  m_blocks : N; m_balances : N; m_tx_hashes : N; m_tx_timestamps : N;
  m_approvals : N; m_expirations : N; m_total_supply : N
}.
Definition state_metrics (s : state) : metrics :=
  Metrics (nblocks s) (N.of_nat (size (balances s))) (N.of_nat (size (tx_hashes s)))
    (N.of_nat (size (tx_timestamps s))) (N.of_nat (size (approvals s)))
    (N.of_nat (size (exp_queue s))) (total_supply s).

End WithEnv.
