(** * Specification vocabulary for calls and replies

    What a client reads off its own call and the reply it gets, and how it
    compares the ledger before and after through queries. *)
From Verif Require Import Base Types Codec State Ledger Canister Spec.

(** The [created_at_time] of a call. *)
Definition created_of (c : call) : option N :=
  match c with
  | CallDeposit _ _ _ => None
  | CallTransfer _ _ _ _ _ created => created
  | CallTransferFrom _ _ _ _ _ _ created => created
  | CallApprove _ _ _ _ _ _ _ created => created
  | CallWithdraw _ _ created _ => created
  | CallWithdrawFrom _ _ _ created _ => created
  | CallCreateCanister _ created _ _ => created
  | CallCreateCanisterFrom _ _ created _ _ => created
  end.
(** The same call without [created_at_time]. *)
Definition without_time (c : call) : call :=
  match c with
  | CallDeposit n to m => CallDeposit n to m
  | CallTransfer sub to a f m _ => CallTransfer sub to a f m None
  | CallTransferFrom sub from to a f m _ => CallTransferFrom sub from to a f m None
  | CallApprove sub sp a ea ex f m _ => CallApprove sub sp a ea ex f m None
  | CallWithdraw sub to _ a => CallWithdraw sub to None a
  | CallWithdrawFrom sub from to _ a => CallWithdrawFrom sub from to None a
  | CallCreateCanister sub _ a args => CallCreateCanister sub None a args
  | CallCreateCanisterFrom from sub _ a args => CallCreateCanisterFrom from sub None a args
  end.

(** The transaction a call asks the ledger to record.  Approvals are capped at
    2^128-1; a deposit records what is left after the fee; withdrawals name
    their receiver in the memo. *)
Definition requested (caller : principal) (c : call) : transaction :=
  match c with
  | CallDeposit cycles to m => Tx (Mint to (cycles - icrc1_fee) icrc1_fee) None m
  | CallTransfer sub to amount fee m created =>
      Tx (Transfer (Acct caller sub) to None amount fee) created m
  | CallTransferFrom sub from to amount fee m created =>
      Tx (Transfer from to (Some (Acct caller sub)) amount fee) created m
  | CallApprove sub sp amount expected expires fee m created =>
      Tx (Approve (Acct caller sub) sp (N.min amount (2 ^ 128 - 1)) expected expires fee) created m
  | CallWithdraw sub to created amount =>
      Tx (Burn (Acct caller sub) None amount) created (Some (encode_withdraw_memo to))
  | CallWithdrawFrom sub from to created amount =>
      Tx (Burn from (Some (Acct caller sub)) amount) created (Some (encode_withdraw_memo to))
  | CallCreateCanister sub created amount _ =>
      Tx (Burn (Acct caller sub) None amount) created (Some CREATE_CANISTER_MEMO)
  | CallCreateCanisterFrom from sub created amount _ =>
      Tx (Burn from (Some (Acct caller sub)) amount) created (Some CREATE_CANISTER_MEMO)
  end.

(** The response of a call that was turned down: a trap, or an error reply other
    than the ones saying that an accepted withdrawal or creation failed
    afterwards. *)
Definition rejected (r : response) : bool :=
  match r with
  | RespTrap _ => true
  | RespIgnored => true
  | RespPending _ _ => false
  | RespReply rep =>
      match rep with
      | RepDeposit _ _ => false
      | RepTransfer (Err _) => true
      | RepTransferFrom (Err _) => true
      | RepApprove (Err _) => true
      | RepWithdraw (Err (WFailedToWithdraw _ _)) => false
      | RepWithdraw (Err _) => true
      | RepWithdrawFrom (Err (WFFailedToWithdrawFrom _ _ _ _)) => false
      | RepWithdrawFrom (Err _) => true
      | RepCreate (Err (CFailedToCreate _ _)) => false
      | RepCreate (Err _) => true
      | RepCreateFrom (Err (CFFailedToCreateFrom _ _ _ _)) => false
      | RepCreateFrom (Err _) => true
      | _ => false
      end
  end.

(** The index in a [Duplicate] error. *)
Definition duplicate_of (r : response) : option N :=
  match r with
  | RespReply (RepTransfer (Err (TDuplicate i))) => Some i
  | RespReply (RepTransferFrom (Err (TFDuplicate i))) => Some i
  | RespReply (RepApprove (Err (ADuplicate i))) => Some i
  | RespReply (RepWithdraw (Err (WDuplicate i))) => Some i
  | RespReply (RepWithdrawFrom (Err (WFDuplicate i))) => Some i
  | RespReply (RepCreate (Err (CDuplicate i _))) => Some i
  | RespReply (RepCreateFrom (Err (CFDuplicate i _))) => Some i
  | _ => None
  end.
(** The canister id in a [Duplicate] error. *)
Definition duplicate_canister (r : response) : option principal :=
  match r with
  | RespReply (RepCreate (Err (CDuplicate _ c))) => c
  | RespReply (RepCreateFrom (Err (CFDuplicate _ c))) => c
  | _ => None
  end.
(** Is it a [TooOld] error? *)
Definition too_old (r : response) : bool :=
  match r with
  | RespReply (RepTransfer (Err TTooOld)) => true
  | RespReply (RepTransferFrom (Err TFTooOld)) => true
  | RespReply (RepApprove (Err ATooOld)) => true
  | RespReply (RepWithdraw (Err WTooOld)) => true
  | RespReply (RepWithdrawFrom (Err WFTooOld)) => true
  | RespReply (RepCreate (Err CTooOld)) => true
  | RespReply (RepCreateFrom (Err CFTooOld)) => true
  | _ => false
  end.
(** The ledger time in a [CreatedInFuture] error. *)
Definition created_in_future (r : response) : option N :=
  match r with
  | RespReply (RepTransfer (Err (TCreatedInFuture t))) => Some t
  | RespReply (RepTransferFrom (Err (TFCreatedInFuture t))) => Some t
  | RespReply (RepApprove (Err (ACreatedInFuture t))) => Some t
  | RespReply (RepWithdraw (Err (WCreatedInFuture t))) => Some t
  | RespReply (RepWithdrawFrom (Err (WFCreatedInFuture t))) => Some t
  | RespReply (RepCreate (Err (CCreatedInFuture t))) => Some t
  | RespReply (RepCreateFrom (Err (CFCreatedInFuture t))) => Some t
  | _ => None
  end.

(** The block index in a success reply. *)
Definition ok_index (r : response) : option N :=
  match r with
  | RespReply (RepDeposit i _) => Some i
  | RespReply (RepTransfer (Ok i)) => Some i
  | RespReply (RepTransferFrom (Ok i)) => Some i
  | RespReply (RepApprove (Ok i)) => Some i
  | RespReply (RepWithdraw (Ok i)) => Some i
  | RespReply (RepWithdrawFrom (Ok i)) => Some i
  | RespReply (RepCreate (Ok (i, _))) => Some i
  | RespReply (RepCreateFrom (Ok (i, _))) => Some i
  | _ => None
  end.

(** Nothing changed but the clock: the ledger with all its blocks, balances,
    allowances, deduplication entries, supply and certificate, the calls in
    flight and the ledger's cycles are as before. *)
Definition unchanged (w w' : world) : Prop :=
  w_led w' = w_led w /\ w_pend w' = w_pend w /\ w_next w' = w_next w
  /\ w_cycles w' = w_cycles w /\ w_used w' = w_used w.

(** [n] if [a] and [b] are the same account, else 0. *)
Definition if_acct (a b : account) (n : N) : N := if decide (to_key a = to_key b) then n else 0%N.

(** The log grew by exactly one block, recording [t] at time [now] under index [i]. *)
Definition one_new_block (s s' : state) (now : N) (t : transaction) (i : N) : Prop :=
  exists b, blocks s' = blocks s ++ [b] /\ b_tx b = t /\ b_timestamp b = now
    /\ i = N.of_nat (length (blocks s)).

(** At every time from [now] on, the allowance query answers the same about all
    unexpired allowances other than those of [pair]. *)
Definition other_allowances_kept (s s' : state) (now : N) (pair : option apkey) : Prop :=
  forall tm f p, now <= tm -> pair <> Some (to_key f, to_key p) ->
    unexpired tm (icrc2_allowance s tm f p).2 ->
    icrc2_allowance s' tm f p = icrc2_allowance s tm f p.

(** The allowance that can be used at [now]: what the query reports, or nothing
    if that has expired. *)
Definition usable (s : state) (now : N) (from sp : account) : N * option N :=
  let (a, e) := icrc2_allowance s now from sp in
  if decide (unexpired now e) then (a, e) else (0, None).

(** A refund of [n] to [from], recorded by block [fb] under memo [m].  When the
    spender [sp] of a failed [_from] call gets the allowance back as well, block
    [ab] records that: it costs one fee, and restores [n - fee] on top of what
    is usable.  The expiry is that of the usable allowance if it has one, else
    [old], the expiry of the allowance the failed call had used. *)
Definition refund_effect (s s' : state) (now : N) (from : account) (sp : option account)
  (n : N) (m : memo) (old : option N) (fb : N) (ab : option N) : Prop :=
  fb = N.of_nat (length (blocks s))
  /\ match ab with
     | None =>
         (forall a, icrc1_balance_of s' a = icrc1_balance_of s a + if_acct a from n)
         /\ icrc1_total_supply s' = icrc1_total_supply s + n
         /\ (exists b, blocks s' = blocks s ++ [b] /\ b_timestamp b = now
               /\ b_tx b = Tx (Mint from n 0) None (Some m))
         /\ other_allowances_kept s s' now None
     | Some j =>
         j = fb + 1
         /\ (forall a, icrc1_balance_of s' a + if_acct a from icrc1_fee
                       = icrc1_balance_of s a + if_acct a from n)
         /\ icrc1_total_supply s' + icrc1_fee = icrc1_total_supply s + n
         /\ exists x, sp = Some x
            /\ let cur := usable s now from x in
               let total := N.min (cur.1 + (n - icrc1_fee)) (2 ^ 128 - 1) in
               let expiry := match cur.2 with Some e => Some e | None => old end in
               (exists b1 b2, blocks s' = blocks s ++ [b1; b2]
                  /\ b_timestamp b1 = now /\ b_timestamp b2 = now
                  /\ b_tx b1 = Tx (Mint from n 0) None (Some m)
                  /\ b_tx b2 = Tx (Approve from x total None expiry None) None (Some PENALIZE_MEMO))
               /\ unexpired now expiry
               /\ (forall tm, now <= tm -> unexpired tm expiry ->
                     icrc2_allowance s' tm from x = (total, expiry))
               /\ other_allowances_kept s s' now (Some (to_key from, to_key x))
     end.

(** The approval such a refund of [n] records. *)
Definition restoring (s : state) (now : N) (from x : account) (n : N) (old : option N) : transaction :=
  let cur := usable s now from x in
  let total := N.min (cur.1 + (n - icrc1_fee)) (2 ^ 128 - 1) in
  let expiry := match cur.2 with Some e => Some e | None => old end in
  Tx (Approve from x total None expiry None) None (Some PENALIZE_MEMO).

(** The expiry of the allowance a [_from] call at [now] uses; none when the
    spender is the account itself. *)
Definition used_expiry (s : state) (now : N) (from : account) (sp : option account) : option N :=
  match sp with
  | Some x => if decide (to_key x = to_key from) then None else (icrc2_allowance s now from x).2
  | None => None
  end.

(** An amount [n] drawn by spender [x] from [from] (nothing is drawn when they
    are the same account): an unexpired allowance covered it, and is lowered by
    exactly that. *)
Definition allowance_drawn (s s' : state) (now : N) (from x : account) (n : N) : Prop :=
  (to_key x = to_key from -> other_allowances_kept s s' now None)
  /\ (to_key x <> to_key from ->
      exists a e, icrc2_allowance s now from x = (a, e) /\ unexpired now e /\ n <= a
        /\ (forall tm, now <= tm -> unexpired tm e ->
              icrc2_allowance s' tm from x = (a - n, if a =? n then None else e))
        /\ other_allowances_kept s s' now (Some (to_key from, to_key x))).

(** The calls that send cycles away: the account that pays, the spender if any,
    the amount. *)
Definition outgoing (caller : principal) (c : call) : option (account * option account * N) :=
  match c with
  | CallWithdraw sub _ _ amount => Some (Acct caller sub, None, amount)
  | CallWithdrawFrom sub from _ _ amount => Some (from, Some (Acct caller sub), amount)
  | CallCreateCanister sub _ amount _ => Some (Acct caller sub, None, amount)
  | CallCreateCanisterFrom from sub _ amount _ => Some (from, Some (Acct caller sub), amount)
  | _ => None
  end.

(** [amount] and the fee are burned from [from], recorded by block [i] as [t]. *)
Definition burn_effect (s s' : state) (now : N) (from : account) (sp : option account)
  (amount : N) (t : transaction) (i : N) : Prop :=
  (forall a, icrc1_balance_of s' a + if_acct a from (amount + icrc1_fee) = icrc1_balance_of s a)
  /\ icrc1_total_supply s' + (amount + icrc1_fee) = icrc1_total_supply s
  /\ one_new_block s s' now t i
  /\ match sp with
     | Some x => allowance_drawn s s' now from x (amount + icrc1_fee)
     | None => other_allowances_kept s s' now None
     end.

(** Events between a call and its answer: any calls, other answers, no crash of its own call-back, no
    upgrade. *)
Definition undisturbed (id : N) (tr : list (event * response)) : Prop :=
  Forall (fun er => match er.1 with
                    | EvReply _ id' _ _ => id' <> id
                    | EvCrash _ id' _ => id' <> id
                    | EvUpgrade _ _ => False
                    | _ => True
                    end) tr.

(** The reply saying that an accepted call failed afterwards: [i] is the block of
    the burn, [fb] and [ab] those of the refund. *)
Definition failed_reply (c : call) (i : N) (fb ab : option N) (code : rejection_code) : option reply :=
  match c with
  | CallWithdraw _ _ _ _ => Some (RepWithdraw (Err (WFailedToWithdraw fb code)))
  | CallWithdrawFrom _ _ _ _ _ =>
      Some (RepWithdrawFrom (Err (WFFailedToWithdrawFrom (Some i) fb ab code)))
  | CallCreateCanister _ _ _ _ => Some (RepCreate (Err (CFailedToCreate (Some i) fb)))
  | CallCreateCanisterFrom _ _ _ _ _ =>
      Some (RepCreateFrom (Err (CFFailedToCreateFrom (Some i) fb ab code)))
  | _ => None
  end.

(** What a failure does: if more than the fee came back, all but the fee is
    refunded to [from]; the spender's allowance comes back too when there is more
    than another fee and the allowance the call had used has not expired. *)
Definition failure_refunded (s s' : state) (now : N) (c : call) (from : account)
  (sp : option account) (returned : N) (m : memo) (old : option N) (i : N)
  (code : rejection_code) (resp : response) : Prop :=
  (returned <= icrc1_fee /\ s' = s
   /\ RespReply <$> failed_reply c i None None code = Some resp)
  \/ (icrc1_fee < returned
      /\ exists fb ab, RespReply <$> failed_reply c i (Some fb) ab code = Some resp
         /\ refund_effect s s' now from sp (returned - icrc1_fee) m old fb ab
         /\ (is_Some ab <-> (exists x, sp = Some x /\ to_key x <> to_key from)
                            /\ 2 * icrc1_fee < returned /\ unexpired now old)).

(** The code by which the ledger tells the caller why the outgoing call failed: the
    reject code of the call; [Unknown] if that is none of the known ones;
    [SysTransient] if the call could not be sent; [CanisterError] if the answer
    cannot be read. *)
Definition reported_code (e : call_error) : rejection_code :=
  match e with
  | CEInsufficientLiquidCycleBalance => RSysTransient
  | CECallPerformFailed => RSysTransient
  | CECallRejected (Some RejSysFatal) => RSysFatal
  | CECallRejected (Some RejSysTransient) => RSysTransient
  | CECallRejected (Some RejDestinationInvalid) => RDestinationInvalid
  | CECallRejected (Some RejCanisterReject) => RCanisterReject
  | CECallRejected (Some RejCanisterError) => RCanisterError
  | CECallRejected (Some RejSysUnknown) => RUnknown
  | CECallRejected None => RUnknown
  | CECandidDecodeFailed => RCanisterError
  end.

(** The cycles that came back according to the answer of a failed creation, and
    the code reported; [None] if it succeeded. *)
Definition cmc_returned (amount : N) (r : result call_error (result cmc_error principal))
  : option (N * rejection_code) :=
  match r with
  | Ok (Ok _) => None
  | Ok (Err (CmcRefunded n)) => Some (n, RCanisterError)
  | Ok (Err CmcRefundFailed) => Some (0, RCanisterError)
  | Err e => Some (amount, reported_code e)
  end.

(** The same for both kinds of outgoing calls; a rejected call brings back all
    cycles. *)
Definition answer_returned (amount : N) (ans : answer) : option (N * rejection_code) :=
  match ans with
  | AnsDeposit (Ok _) => None
  | AnsDeposit (Err e) => Some (amount, reported_code e)
  | AnsCmc r => cmc_returned amount r
  end.
