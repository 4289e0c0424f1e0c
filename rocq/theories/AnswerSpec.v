(** * Specification vocabulary for complete answers

    For every update call, the reasons to turn it down in the order in which
    they apply, stated on what the queries and the block log show; and what the
    caller is told. *)
From Verif Require Import Base Types Codec State Ledger Canister Spec ApiSpec.

(** ** Reasons *)
Inductive refusal :=
| NoFunds (balance : N)
| WrongFee
| AlreadyDone (i : N) (canister : option principal)
| Denied
| NoAllowance (allowance : N)
| AllowanceExpired
| CreditOverflow
| LongMemo
| CreatedTooLongAgo
| CreatedLater (ledger_time : N)
| OwnAccount
| OtherAllowance (current : N)
| AlreadyExpired (ledger_time : N)
| BadReceiver (p : principal)
| NothingToWithdraw
| DepositRefused.

(** What the caller of [c] is told; [None] if there is no such answer. *)
Definition answer_of (c : call) (r : refusal) : option response :=
  match c with
  | CallDeposit _ _ _ =>
      match r with
      | DepositRefused => Some (RespTrap TrapDepositRejected)
      | LongMemo => Some (RespTrap TrapMemoTooLong)
      | _ => None
      end
  | CallTransfer _ _ _ _ _ _ =>
      let err e := Some (RespReply (RepTransfer (Err e))) in
      match r with
      | NoFunds b => err (TInsufficientFunds b)
      | WrongFee => err (TBadFee icrc1_fee)
      | AlreadyDone i _ => err (TDuplicate i)
      | Denied => err (TGenericError 100001)
      | CreditOverflow => err (TGenericError 100000)
      | LongMemo => Some (RespTrap TrapMemoTooLong)
      | CreatedTooLongAgo => err TTooOld
      | CreatedLater t => err (TCreatedInFuture t)
      | _ => None
      end
  | CallTransferFrom _ _ _ _ _ _ _ =>
      let err e := Some (RespReply (RepTransferFrom (Err e))) in
      match r with
      | NoFunds b => err (TFInsufficientFunds b)
      | WrongFee => err (TFBadFee icrc1_fee)
      | AlreadyDone i _ => err (TFDuplicate i)
      | Denied => err (TFGenericError 100001)
      | NoAllowance a => err (TFInsufficientAllowance a)
      | AllowanceExpired => err (TFGenericError 100003)
      | CreditOverflow => err (TFGenericError 100000)
      | LongMemo => Some (RespTrap TrapMemoTooLong)
      | CreatedTooLongAgo => err TFTooOld
      | CreatedLater t => err (TFCreatedInFuture t)
      | _ => None
      end
  | CallApprove _ _ _ _ _ _ _ _ =>
      let err e := Some (RespReply (RepApprove (Err e))) in
      match r with
      | NoFunds b => err (AInsufficientFunds b)
      | WrongFee => err (ABadFee icrc1_fee)
      | AlreadyDone i _ => err (ADuplicate i)
      | Denied => err (AGenericError 100001)
      | OwnAccount => Some (RespTrap TrapSelfApproval)
      | OtherAllowance a => err (AAllowanceChanged a)
      | AlreadyExpired t => err (AExpired t)
      | LongMemo => Some (RespTrap TrapMemoTooLong)
      | CreatedTooLongAgo => err ATooOld
      | CreatedLater t => err (ACreatedInFuture t)
      | _ => None
      end
  | CallWithdraw _ _ _ _ =>
      let err e := Some (RespReply (RepWithdraw (Err e))) in
      match r with
      | NoFunds b => err (WInsufficientFunds b)
      | BadReceiver p => err (WInvalidReceiver p)
      | NothingToWithdraw => err (WGenericError 100002)
      | AlreadyDone i _ => err (WDuplicate i)
      | CreatedTooLongAgo => err WTooOld
      | CreatedLater t => err (WCreatedInFuture t)
      | _ => None
      end
  | CallWithdrawFrom _ _ _ _ _ =>
      let err e := Some (RespReply (RepWithdrawFrom (Err e))) in
      match r with
      | NoFunds b => err (WFInsufficientFunds b)
      | BadReceiver p => err (WFInvalidReceiver p)
      | NothingToWithdraw => err (WFGenericError 100002)
      | AlreadyDone i _ => err (WFDuplicate i)
      | NoAllowance a => err (WFInsufficientAllowance a)
      | CreatedTooLongAgo => err WFTooOld
      | CreatedLater t => err (WFCreatedInFuture t)
      | _ => None
      end
  | CallCreateCanister _ _ _ _ =>
      let err e := Some (RespReply (RepCreate (Err e))) in
      match r with
      | NoFunds b => err (CInsufficientFunds b)
      | AlreadyDone i x => err (CDuplicate i x)
      | CreatedTooLongAgo => err CTooOld
      | CreatedLater t => err (CCreatedInFuture t)
      | _ => None
      end
  | CallCreateCanisterFrom _ _ _ _ _ =>
      let err e := Some (RespReply (RepCreateFrom (Err e))) in
      match r with
      | NoFunds b => err (CFInsufficientFunds b)
      | AlreadyDone i x => err (CFDuplicate i x)
      | NoAllowance a => err (CFInsufficientAllowance a)
      | CreatedTooLongAgo => err CFTooOld
      | CreatedLater t => err (CFCreatedInFuture t)
      | _ => None
      end
  end.

(** ** Rules: a condition and the reason it gives.  The first rule whose
    condition holds decides; if none holds, [otherwise] does. *)
Fixpoint decided (rules : list (Prop * (refusal -> Prop))) (told : refusal -> Prop)
  (otherwise : Prop) : Prop :=
  match rules with
  | [] => otherwise
  | (cond, reason) :: rest =>
      (cond -> exists r, reason r /\ told r) /\ (~ cond -> decided rest told otherwise)
  end.

(** The management canister, whose principal is the empty byte string, takes no
    part. *)
Definition may_take_part (a : account) : Prop := owner a <> [].
(** Fees other than the ledger's fee *)
Definition wrong_fee (fee : option N) : Prop := exists f, fee = Some f /\ f <> icrc1_fee.
Definition huge (o : option N) : Prop := exists n, o = Some n /\ 2 ^ 128 <= n.
(** The last approval of the pair recorded in the log has run out. *)
Definition ran_out (s : state) (now : N) (from sp : account) : Prop :=
  exists a e, log_allowance (blocks s) (to_key from, to_key sp) = Some (a, Some e) /\ e <= now.
(** A spender other than the account itself cannot spend [n]. *)
Definition not_allowed (s : state) (now : N) (from : account) (sp : option account) (n : N) : Prop :=
  exists x, sp = Some x /\ to_key x <> to_key from /\ (usable s now from x).1 < n.
Definition long_memo (m : option memo) : Prop := exists b, m = Some b /\ (32 < length b)%nat.
Definition too_long_ago (created : option N) (now : N) : Prop :=
  exists t, created = Some t /\ t + DAY + MINUTE < now.
Definition not_yet (created : option N) (now : N) : Prop :=
  exists t, created = Some t /\ now + MINUTE < t.

(** The last rules of all calls with a [created_at_time] *)
Definition time_rules (created : option N) (now : N) : list (Prop * (refusal -> Prop)) :=
  [ (too_long_ago created now, eq CreatedTooLongAgo);
    (not_yet created now, eq (CreatedLater now)) ].
(** A duplicate, as far as the ledger remembers *)
Definition dup_rule (dup : option (N * option principal)) : Prop * (refusal -> Prop) :=
  (is_Some dup, fun r => exists i x, dup = Some (i, x) /\ r = AlreadyDone i x).

Definition transfer_rules (s : state) (now : N) (dup : option (N * option principal))
  (from to : account) (sp : option account) (amount : N) (fee : option N) (m : option memo)
  (created : option N) : list (Prop * (refusal -> Prop)) :=
  [ (2 ^ 128 <= amount, eq (NoFunds (icrc1_balance_of s from)));
    (huge fee, eq WrongFee);
    dup_rule dup;
    (~ may_take_part from \/ ~ may_take_part to \/ (exists x, sp = Some x /\ ~ may_take_part x),
     eq Denied);
    (wrong_fee fee, eq WrongFee);
    (2 ^ 128 <= amount + icrc1_fee, eq (NoFunds (icrc1_balance_of s from)));
    (not_allowed s now from sp (amount + icrc1_fee),
     fun r => exists x, sp = Some x
       /\ (r = NoAllowance (usable s now from x).1
           \/ (r = AllowanceExpired /\ ran_out s now from x)));
    (icrc1_balance_of s from < amount + icrc1_fee, eq (NoFunds (icrc1_balance_of s from)));
    (2 ^ 128 <= icrc1_balance_of s to + amount, eq CreditOverflow);
    (long_memo m, eq LongMemo) ]
  ++ time_rules created now.

Definition approve_rules (s : state) (now : N) (dup : option (N * option principal))
  (from sp : account) (expected expires fee : option N) (m : option memo)
  (created : option N) : list (Prop * (refusal -> Prop)) :=
  let reported := (icrc2_allowance s now from sp).1 in
  [ (huge expected, eq (OtherAllowance reported));
    (huge fee, eq WrongFee);
    dup_rule dup;
    (owner from = owner sp, eq OwnAccount);
    (~ may_take_part from \/ ~ may_take_part sp, eq Denied);
    (exists e, expected = Some e /\ e <> reported, eq (OtherAllowance reported));
    (wrong_fee fee, eq WrongFee);
    (icrc1_balance_of s from < icrc1_fee, eq (NoFunds (icrc1_balance_of s from)));
    (* without an expiry the approval counts as expiring at the end of time *)
    (default (2 ^ 64 - 1) expires <= now, eq (AlreadyExpired now));
    (long_memo m, eq LongMemo) ]
  ++ time_rules created now.

Definition burn_rules (s : state) (now : N) (dup : option (N * option principal))
  (from : account) (sp : option account) (amount : N) (created : option N)
  : list (Prop * (refusal -> Prop)) :=
  [ dup_rule dup;
    (2 ^ 128 <= amount + icrc1_fee, eq (NoFunds (icrc1_balance_of s from)));
    (not_allowed s now from sp (amount + icrc1_fee),
     fun r => exists x, sp = Some x /\ r = NoAllowance (usable s now from x).1);
    (icrc1_balance_of s from < amount + icrc1_fee, eq (NoFunds (icrc1_balance_of s from))) ]
  ++ time_rules created now.
Definition withdraw_rules (s : state) (now : N) (dup : option (N * option principal))
  (from : account) (sp : option account) (to : principal) (amount : N) (created : option N)
  : list (Prop * (refusal -> Prop)) :=
  [ (2 ^ 128 <= amount, eq (NoFunds (icrc1_balance_of s from)));
    (* a self-authenticating principal: its 29th byte is 2 *)
    (to !! 28%nat = Some Byte.x02, eq (BadReceiver to));
    (amount = 0, eq NothingToWithdraw) ]
  ++ burn_rules s now dup from sp amount created.
Definition create_rules (s : state) (now : N) (dup : option (N * option principal))
  (from : account) (sp : option account) (amount : N) (created : option N)
  : list (Prop * (refusal -> Prop)) :=
  (2 ^ 128 <= amount, eq (NoFunds (icrc1_balance_of s from)))
  :: burn_rules s now dup from sp amount created.

Definition deposit_rules (s : state) (cycles : N) (m : option memo)
  : list (Prop * (refusal -> Prop)) :=
  [ (cycles <= icrc1_fee, eq DepositRefused);
    (2 ^ 128 <= icrc1_total_supply s + (cycles - icrc1_fee), eq DepositRefused);
    (long_memo m, eq LongMemo) ].

(** The rules for each call *)
Definition rules (s : state) (now : N) (caller : principal) (c : call)
  (dup : option (N * option principal)) : list (Prop * (refusal -> Prop)) :=
  match c with
  | CallDeposit cycles to m => deposit_rules s cycles m
  | CallTransfer sub to amount fee m created =>
      transfer_rules s now dup (Acct caller sub) to None amount fee m created
  | CallTransferFrom sub from to amount fee m created =>
      transfer_rules s now dup from to (Some (Acct caller sub)) amount fee m created
  | CallApprove sub sp amount expected expires fee m created =>
      approve_rules s now dup (Acct caller sub) sp expected expires fee m created
  | CallWithdraw sub to created amount =>
      withdraw_rules s now dup (Acct caller sub) None to amount created
  | CallWithdrawFrom sub from to created amount =>
      withdraw_rules s now dup from (Some (Acct caller sub)) to amount created
  | CallCreateCanister sub created amount _ =>
      create_rules s now dup (Acct caller sub) None amount created
  | CallCreateCanisterFrom from sub created amount _ =>
      create_rules s now dup from (Some (Acct caller sub)) amount created
  end.

Section WithEnv.
Context `{Env}.

(** What the ledger remembers of transaction [t]: a remembered block is in the
    log and has that hash; only blocks with a [created_at_time] are remembered, and
    they are remembered at least to the end of their window. *)
Definition remembers (s : state) (now : N) (t : transaction) (dup : option (N * option principal))
  : Prop :=
  match dup with
  | Some (i, _) =>
      (exists b, blocks s !! N.to_nat i = Some b /\ tx_hash (b_tx b) = tx_hash t)
      /\ exists b created, b ∈ blocks s /\ tx_hash (b_tx b) = tx_hash t
           /\ tx_created_at (b_tx b) = Some created
  | None => forall b created, b ∈ blocks s -> tx_hash (b_tx b) = tx_hash t ->
      tx_created_at (b_tx b) = Some created -> created + DAY + MINUTE < now
  end.

End WithEnv.

(** The outgoing call of [c] *)
Definition outgoing_call (caller : principal) (c : call) : option outcall :=
  match c with
  | CallWithdraw _ to _ amount => Some (OutDepositCycles to amount)
  | CallWithdrawFrom _ _ to _ amount => Some (OutDepositCycles to amount)
  | CallCreateCanister _ _ amount args => Some (OutCmcCreate (cmc_argument caller args) amount)
  | CallCreateCanisterFrom _ _ _ amount args => Some (OutCmcCreate (cmc_argument caller args) amount)
  | _ => None
  end.

(** The answer of a call that is not turned down, when [n] is the index of its
    block: at once, or once the outgoing call is answered; if the outgoing call
    cannot be made at once, a failure with the blocks of the refund. *)
Definition told_accepted (w w' : world) (caller : principal) (c : call)
  (sync : option sync_error) (resp : response) : Prop :=
  let n := N.of_nat (length (blocks (w_led w))) in
  match outgoing caller c with
  | None =>
      match c with
      | CallDeposit _ to _ => resp = RespReply (RepDeposit n (icrc1_balance_of (w_led w') to))
      | CallTransfer _ _ _ _ _ _ => resp = RespReply (RepTransfer (Ok n))
      | CallTransferFrom _ _ _ _ _ _ _ => resp = RespReply (RepTransferFrom (Ok n))
      | CallApprove _ _ _ _ _ _ _ _ => resp = RespReply (RepApprove (Ok n))
      | _ => False
      end
  | Some (_, _, amount) =>
      if decide (sync = None /\ amount <= w_cycles w)
      then RespPending (w_next w) <$> outgoing_call caller c = Some resp
      else exists fb ab, RespReply <$> failed_reply c n fb ab RSysTransient = Some resp
  end.
