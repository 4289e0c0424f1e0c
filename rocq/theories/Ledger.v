(** * The ledger's operations: storage.rs *)
From Verif Require Import Base Types Codec State.

Section WithEnv.
Context `{Env}.

(** ** Error conversions *)

(** storage.rs:1331-1343, 1568-1577 *)
Definition tf_of_pt (e : pt_error) : transfer_from_error :=
  match e with
  | PTDuplicate i _ => TFDuplicate i
  | PTTooOld => TFTooOld
  | PTInTheFuture t => TFCreatedInFuture t
  | PTGeneric => TFGenericError UNKNOWN_GENERIC_ERROR
  end.
(** storage.rs:1345-1366 *)
Definition wf_of_pt (e : pt_error) : withdraw_from_error :=
  match e with
  | PTDuplicate i _ => WFDuplicate i
  | PTTooOld => WFTooOld
  | PTInTheFuture t => WFCreatedInFuture t
  | PTGeneric => WFGenericError UNKNOWN_GENERIC_ERROR
  end.
(** storage.rs:1368-1380, 1612-1621 *)
Definition ap_of_pt (e : pt_error) : approve_error :=
  match e with
  | PTDuplicate i _ => ADuplicate i
  | PTTooOld => ATooOld
  | PTInTheFuture t => ACreatedInFuture t
  | PTGeneric => AGenericError UNKNOWN_GENERIC_ERROR
  end.
(** storage.rs:1414-1430, 1601-1610 *)
Definition cf_of_pt (e : pt_error) : create_canister_from_error :=
  match e with
  | PTDuplicate i c => CFDuplicate i c
  | PTTooOld => CFTooOld
  | PTInTheFuture t => CFCreatedInFuture t
  | PTGeneric => CFGenericError UNKNOWN_GENERIC_ERROR
  end.
(** storage.rs:1453-1465 *)
Definition tf_of_ua (e : ua_error) : transfer_from_error :=
  match e with
  | CannotDeduceZero => TFGenericError CANNOT_TRANSFER_FROM_ZERO
  | ExpiredApproval => TFGenericError EXPIRED_APPROVAL
  | UAInsufficientAllowance a => TFInsufficientAllowance a
  end.
(** storage.rs:1467-1481 *)
Definition wf_of_ua (e : ua_error) : withdraw_from_error + trap :=
  match e with
  | CannotDeduceZero => inr TrapCannotDeduceZero
  | ExpiredApproval => inl (WFInsufficientAllowance 0)
  | UAInsufficientAllowance a => inl (WFInsufficientAllowance a)
  end.
(** storage.rs:1483-1499 *)
Definition cf_of_ua (e : ua_error) : create_canister_from_error + trap :=
  match e with
  | CannotDeduceZero => inr TrapCannotDeduceZero
  | ExpiredApproval => inl (CFInsufficientAllowance 0)
  | UAInsufficientAllowance a => inl (CFInsufficientAllowance a)
  end.

(** ** Transactions *)

(** storage.rs:1503-1511 [effective_fee] *)
Definition effective_fee (op : operation) : option N :=
  match op with
  | Mint _ _ _ => Some 0
  | Burn _ _ _ => Some FEE
  | Transfer _ _ _ _ fee => match fee with None => Some FEE | Some _ => None end
  | Approve _ _ _ _ _ fee => match fee with None => Some FEE | Some _ => None end
  end.

(** storage.rs:1513-1536 [check_duplicate] *)
Definition check_duplicate (t : transaction) : M pt_error unit := fun s =>
  match tx_hash t with
  | None => (log_p0 LogTxNotHashable s, OErr PTGeneric)
  | Some th =>
      match tx_hashes s !! th with
      | Some (idx, c) => (s, OErr (PTDuplicate idx c))
      | None => (s, OOk tt)
      end
  end.

(** storage.rs:1623-1642 [validate_created_at_time] *)
Definition validate_created_at_time (created : option N) (now : N) : result pt_error unit :=
  match created with
  | None => Ok tt
  | Some c =>
      if u64_sat_add (u64_sat_add c TRANSACTION_WINDOW) PERMITTED_DRIFT <? now
      then Err PTTooOld
      else if u64_sat_add now PERMITTED_DRIFT <? c then Err (PTInTheFuture now)
      else Ok tt
  end.

(** storage.rs:1538-1560 [process_transaction] *)
Definition process_transaction (t : transaction) (now : N) : M pt_error N :=
  if negb (validate_memo (tx_memo t)) then trap_with TrapMemoTooLong else
  do! lift (fun _ => validate_created_at_time (tx_created_at t) now) in
  let! ph := gets phash in
  do! emit_block (Blk t now ph (effective_fee (tx_op t))) in
  gets (fun s => nblocks s - 1).

(** storage.rs:883-918 [mint] *)
Definition mint (to : account) (amount : N) (m : option memo) (now : N) : M unit N := fun s =>
  match check_credit s to amount with
  | Err _ => (log_p0 LogMintFailed s, OErr tt)
  | Ok _ =>
      (let! i := map_err (fun _ => tt)
                   (process_transaction (Tx (Mint to amount FEE) None m) now) in
       do! or_trap TrapMint (credit to amount) in
       ret i) s
  end.

(** storage.rs:847-881 [deposit]: block index and new balance *)
Definition deposit (to : account) (amount : N) (m : option memo) (now : N)
  : M unit (N * N) :=
  match u128_checked_sub amount FEE with
  | None => throw tt
  | Some 0 => throw tt
  | Some amount_to_mint =>
      let! i := mint to amount_to_mint m now in
      do! prune now in
      let! b := gets (fun s => balance_of s to) in
      ret (i, b)
  end.

(** storage.rs:920-924 [is_denied_account] *)
Definition is_denied (p : principal) : bool := bool_decide (p = MANAGEMENT_CANISTER).

(** [spender != from] under [if let Some(spender) = spender] *)
Definition third_party (from : account) (spender : option account) : option account :=
  match spender with
  | None => None
  | Some sp => if acct_eqb sp from then None else Some sp
  end.

(** [suggested_fee.is_some() && suggested_fee != Some(config::FEE)] *)
Definition bad_fee (fee : option N) : bool :=
  match fee with None => false | Some f => negb (f =? FEE) end.

(** storage.rs:927-1035 [transfer] *)
Definition transfer (from to : account) (spender : option account) (amount : N)
  (m : option memo) (now : N) (created fee : option N) : M transfer_from_error N :=
  let t := Tx (Transfer from to spender amount fee) created m in
  do! map_err tf_of_pt (check_duplicate t) in
  if is_denied (owner from) then throw (TFGenericError DENIED_OWNER) else
  if is_denied (owner to) then throw (TFGenericError DENIED_OWNER) else
  if match spender with Some sp => is_denied (owner sp) | None => false end
  then throw (TFGenericError DENIED_OWNER) else
  if bad_fee fee then throw (TFBadFee FEE) else
  match u128_checked_add amount FEE with
  | None => let! b := gets (fun s => balance_of s from) in throw (TFInsufficientFunds b)
  | Some amount_with_fee =>
      do! match third_party from spender with
          | None => ret tt
          | Some sp =>
              do! map_err tf_of_ua
                    (lift (fun s => check_allowance s from sp amount_with_fee now)) in
              ret tt
          end in
      do! map_err TFInsufficientFunds
            (lift (fun s => check_debit_from_account s from amount_with_fee)) in
      do! map_err (fun _ => TFGenericError UNKNOWN_GENERIC_ERROR)
            (lift (fun s => check_credit_to_account s to amount)) in
      do! map_err (fun _ => TFGenericError UNKNOWN_GENERIC_ERROR)
            (lift (fun s => check_total_supply_decrease s FEE)) in
      let! i := map_err tf_of_pt (process_transaction t now) in
      do! match third_party from spender with
          | None => ret tt
          | Some sp => or_trap TrapTransfer (use_allowance from sp amount_with_fee now)
          end in
      do! or_trap TrapTransfer (debit from amount_with_fee) in
      do! or_trap TrapTransfer (credit to amount) in
      ret i
  end.

(** storage.rs:1038-1129 [approve] *)
Definition approve (from spender : account) (amount : N) (m : option memo) (now : N)
  (created fee expected expires : option N) : M approve_error N :=
  let t := Tx (Approve from spender amount expected expires fee) created m in
  do! map_err ap_of_pt (check_duplicate t) in
  if bool_decide (owner from = owner spender) then trap_with TrapSelfApproval else
  if is_denied (owner from) then throw (AGenericError DENIED_OWNER) else
  if is_denied (owner spender) then throw (AGenericError DENIED_OWNER) else
  let! current := gets (fun s => (allowance s from spender now).1) in
  if match expected with None => false | Some e => negb (e =? current) end
  then throw (AAllowanceChanged current) else
  if bad_fee fee then throw (ABadFee FEE) else
  let! balance := gets (fun s => balance_of s from) in
  if balance <? FEE then throw (AInsufficientFunds balance) else
  if default REMOTE_FUTURE expires <=? now then throw (AExpired now) else
  do! map_err (fun _ => AGenericError UNKNOWN_GENERIC_ERROR)
        (lift (fun s => check_total_supply_decrease s FEE)) in
  let! i := map_err ap_of_pt (process_transaction t now) in
  do! modify (record_approval from spender amount expires) in
  do! or_trap TrapApprove (debit from FEE) in
  ret i.

(** storage.rs:1651-1693 [penalize].  No endpoint calls it. *)
Definition penalize (from : account) (now : N) : M unit (option (N * hash)) :=
  let! balance := gets (fun s => balance_of s from) in
  if balance <? FEE then ret None else
  do! or_trap TrapWithdraw (debit from FEE) in
  let! ph := gets phash in
  let! h := emit_block (Blk (Tx (Burn from None FEE) None (Some PENALIZE_MEMO)) now ph (Some 0)) in
  let! i := gets (fun s => nblocks s - 1) in
  ret (Some (i, h)).

(** storage.rs:2108-2134 [reimburse] *)
Definition reimburse (acc : account) (amount now : N) (m : memo) : M pt_error N :=
  let! i := process_transaction (Tx (Mint acc amount 0) None (Some m)) now in
  do! or_trap TrapReimburse (credit acc amount) in
  do! prune now in
  ret i.

(** storage.rs:2137-2162 [reimburse_approval] *)
Definition reimburse_approval (from spender : account) (amount : N) (old_expires : option N)
  (now : N) : M approve_error N :=
  let! (current, expiry) := gets (fun s => allowance s from spender now) in
  let expires := if 0 <? expiry then Some expiry else old_expires in
  approve from spender (u128_sat_add amount current) (Some PENALIZE_MEMO) now
          None None None expires.

(** ** Outgoing calls *)

(** [ic_cdk::call::RejectCode] *)
Inductive reject_code :=
| RejSysFatal | RejSysTransient | RejDestinationInvalid | RejCanisterReject
| RejCanisterError | RejSysUnknown.
(** [ic_cdk::call::Error]; [None] is a reject code outside the known range. *)
Inductive call_error :=
| CEInsufficientLiquidCycleBalance
| CECallPerformFailed
| CECallRejected (code : option reject_code)
| CECandidDecodeFailed.

(** endpoints.rs:405-416 *)
Definition rejection_of_reject (c : reject_code) : rejection_code :=
  match c with
  | RejSysFatal => RSysFatal
  | RejSysTransient => RSysTransient
  | RejDestinationInvalid => RDestinationInvalid
  | RejCanisterReject => RCanisterReject
  | RejCanisterError => RCanisterError
  | RejSysUnknown => RUnknown
  end.
(** storage.rs:2455-2472 [call_error_to_reject] (reason text dropped) *)
Definition call_error_to_reject (e : call_error) : rejection_code :=
  match e with
  | CEInsufficientLiquidCycleBalance => RSysTransient
  | CECallPerformFailed => RSysTransient
  | CECallRejected (Some c) => rejection_of_reject c
  | CECallRejected None => RUnknown
  | CECandidDecodeFailed => RCanisterError
  end.

(** ** Withdraw *)

(** storage.rs:1696-1704 [is_self_authenticating] *)
Definition is_self_authenticating (p : principal) : bool :=
  match p !! 28%nat with Some b => bool_decide (b = Byte.x02) | None => false end.

(** storage.rs:1743-1753, 1899-1909: the allowance check of withdraw and
    create_canister; the result is [old_expires_at]. *)
Definition old_expiry (expiration : N) : option N :=
  if 0 <? expiration then Some expiration else None.

(** storage.rs:1706-1798: [withdraw] up to the inter-canister call; the result
    is the block index and [old_expires_at]. *)
Definition withdraw_start (from : account) (to : principal) (spender : option account)
  (amount now : N) (created : option N) : M withdraw_from_error (N * option N) :=
  if is_self_authenticating to then throw (WFInvalidReceiver to) else
  if amount =? 0 then throw (WFGenericError CANNOT_TRANSFER_FROM_ZERO) else
  let t := Tx (Burn from spender amount) created (Some (encode_withdraw_memo to)) in
  do! map_err wf_of_pt (check_duplicate t) in
  match u128_checked_add amount FEE with
  | None => let! b := gets (fun s => balance_of s from) in throw (WFInsufficientFunds b)
  | Some amount_with_fee =>
      let! old :=
        match third_party from spender with
        | None => ret None
        | Some sp =>
            let! (_, expiry) := map_err_trap wf_of_ua
              (lift (fun s => check_allowance s from sp amount_with_fee now)) in
            ret (old_expiry expiry)
        end in
      do! map_err WFInsufficientFunds
            (lift (fun s => check_debit_from_account s from amount_with_fee)) in
      do! map_err (fun _ => WFGenericError UNKNOWN_GENERIC_ERROR)
            (lift (fun s => check_total_supply_decrease s amount_with_fee)) in
      let! i := map_err wf_of_pt (process_transaction t now) in
      do! match third_party from spender with
          | None => ret tt
          | Some sp => or_trap TrapWithdraw (use_allowance from sp amount_with_fee now)
          end in
      do! or_trap TrapWithdraw (debit from amount_with_fee) in
      do! prune now in
      ret (i, old)
  end.

(** storage.rs:1824-1825, 2036-2037 [approval_still_valid] *)
Definition approval_still_valid (old : option N) (now : N) : bool :=
  match old with None => true | Some e => now <? e end.

(** storage.rs:1803-1869: [withdraw] after the inter-canister call *)
Definition withdraw_finish (from : account) (spender : option account) (amount i : N)
  (old : option N) (now : N) (res : result call_error unit) : M withdraw_from_error N :=
  match res with
  | Ok _ => ret i
  | Err e =>
      let code := call_error_to_reject e in
      let amount_to_reimburse := u128_sat_sub amount FEE in
      if amount_to_reimburse =? 0 then throw (WFFailedToWithdrawFrom (Some i) None None code) else
      let! fee_block := or_trap TrapReimburse
                          (reimburse from amount_to_reimburse now PENALIZE_MEMO) in
      do! prune now in
      match third_party from spender with
      | Some sp =>
          if (2 * FEE <? amount) && approval_still_valid old now then
            let! approval_block := or_trap TrapReimburseApproval
              (reimburse_approval from sp (u128_sat_sub amount_to_reimburse FEE) old now) in
            throw (WFFailedToWithdrawFrom (Some i) (Some fee_block) (Some approval_block) code)
          else throw (WFFailedToWithdrawFrom (Some i) (Some fee_block) None code)
      | None => throw (WFFailedToWithdrawFrom (Some i) (Some fee_block) None code)
      end
  end.

(** ** Create canister *)

(** [ic_cdk::management_canister::CanisterSettings]: the controllers, and all
    other (optional) settings as an opaque map from field name to encoded
    value. *)
Record canister_settings := Settings {
  cs_controllers : option (list principal);
  cs_other : gmap string (list byte)
}.
(** endpoints.rs:253-265 *)
Inductive subnet_selection :=
| SubnetFilter (subnet_type : option string)
| Subnet (p : principal).
(** endpoints.rs:246-250 *)
Record cmc_args := CmcArgs {
  ca_subnet_selection : option subnet_selection;
  ca_settings : option canister_settings
}.

(** storage.rs:1955-1981: the argument sent to the CMC *)
Definition cmc_argument (caller : principal) (arg : option cmc_args) : cmc_args :=
  match arg with
  | Some a =>
      CmcArgs (ca_subnet_selection a)
        (match ca_settings a with
         | Some st =>
             Some (Settings (Some (default [caller] (cs_controllers st))) (cs_other st))
         | None => Some (Settings (Some [caller]) ∅)
         end)
  | None => CmcArgs None (Some (Settings (Some [caller]) ∅))
  end.

(** The transaction recorded by create_canister.  storage.rs:1881-1889 *)
Definition create_tx (from : account) (spender : option account) (amount : N)
  (created : option N) : transaction :=
  Tx (Burn from spender amount) created (Some CREATE_CANISTER_MEMO).

(** storage.rs:1871-1951: [create_canister] up to the inter-canister call *)
Definition create_start (from : account) (spender : option account) (amount now : N)
  (created : option N) : M create_canister_from_error (N * option N) :=
  let t := create_tx from spender amount created in
  do! map_err cf_of_pt (check_duplicate t) in
  match u128_checked_add amount FEE with
  | None => let! b := gets (fun s => balance_of s from) in throw (CFInsufficientFunds b)
  | Some amount_with_fee =>
      let! old :=
        match third_party from spender with
        | None => ret None
        | Some sp =>
            let! (_, expiry) := map_err_trap cf_of_ua
              (lift (fun s => check_allowance s from sp amount_with_fee now)) in
            ret (old_expiry expiry)
        end in
      do! map_err CFInsufficientFunds
            (lift (fun s => check_debit_from_account s from amount_with_fee)) in
      do! map_err (fun _ => CFGenericError UNKNOWN_GENERIC_ERROR)
            (lift (fun s => check_total_supply_decrease s amount_with_fee)) in
      let! i := map_err cf_of_pt (process_transaction t now) in
      do! match third_party from spender with
          | None => ret tt
          | Some sp => or_trap TrapCreateCanister (use_allowance from sp amount_with_fee now)
          end in
      do! or_trap TrapCreateCanister (debit from amount_with_fee) in
      do! prune now in
      ret (i, old)
  end.

(** endpoints.rs:296-307 [CmcCreateCanisterError] *)
Inductive cmc_error := CmcRefunded (refund_amount : N) | CmcRefundFailed.

(** storage.rs:1995-2017: rejection code and returned amount of a failure *)
Definition flat_create_result (amount : N) (res : result call_error (result cmc_error principal))
  : result (rejection_code * N) principal :=
  match res with
  | Ok (Ok canister) => Ok canister
  | Ok (Err (CmcRefunded n)) => Err (RCanisterError, n)
  | Ok (Err CmcRefundFailed) => Err (RCanisterError, 0)
  | Err e => Err (call_error_to_reject e, amount)
  end.

(** storage.rs:1991-2103: [create_canister] after the inter-canister call *)
Definition create_finish (from : account) (spender : option account) (amount i : N)
  (old created : option N) (now : N) (res : result call_error (result cmc_error principal))
  : M create_canister_from_error (N * principal) :=
  match flat_create_result amount res with
  | Err (code, returned) =>
      let amount_to_reimburse := u128_sat_sub returned FEE in
      if amount_to_reimburse =? 0 then throw (CFFailedToCreateFrom (Some i) None None code) else
      let! refund_block := or_trap TrapReimburse
                             (reimburse from amount_to_reimburse now REFUND_MEMO) in
      do! prune now in
      match third_party from spender with
      | Some sp =>
          if (FEE <? amount_to_reimburse) && approval_still_valid old now then
            let! approval_block := or_trap TrapReimburseApproval
              (reimburse_approval from sp (u128_sat_sub amount_to_reimburse FEE) old now) in
            throw (CFFailedToCreateFrom (Some i) (Some refund_block) (Some approval_block) code)
          else throw (CFFailedToCreateFrom (Some i) (Some refund_block) None code)
      | None => throw (CFFailedToCreateFrom (Some i) (Some refund_block) None code)
      end
  | Ok canister =>
      match tx_hash (create_tx from spender amount created) with
      | None => trap_with TrapTxHash
      | Some th =>
          do! modify (fun s =>
                match tx_hashes s !! th with
                | Some _ => set_tx_hashes (<[th := (i, Some canister)]> (tx_hashes s)) s
                | None => s
                end) in
          ret (i, canister)
      end
  end.

(** ** Queries *)

(** storage.rs:2366-2404 [get_blocks]: block identifiers with their blocks.
    [start + remaining_length.min(length)] wraps. *)
Fixpoint get_blocks_loop (s : state) (max_length : N) (acc : list (N * value))
  (args : list (N * N)) : list (N * value) :=
  match args with
  | [] => acc
  | (start, len) :: args' =>
      let remaining := max_length - N.of_nat (length acc) in
      if remaining =? 0 then acc else
      match nat_to_u64 start with
      | None => get_blocks_loop s max_length acc args'
      | Some start =>
          if nblocks s <=? start then get_blocks_loop s max_length acc args' else
          match nat_to_u64 len with
          | None => get_blocks_loop s max_length acc args'
          | Some len =>
              let end_excluded := N.min (nblocks s) (u64_wrap_add start (N.min remaining len)) in
              let ids := seqN start (end_excluded - start) in
              get_blocks_loop s max_length
                (acc ++ omap (fun id =>
                           match blocks s !! N.to_nat id with
                           | Some b => Some (id, block_to_value b)
                           | None => None   (* unreachable: ids are below the log length *)
                           end) ids)
                args'
          end
      end
  end.
Record blocks_result := BlocksResult { br_log_length : N; br_blocks : list (N * value) }.
Definition get_blocks (s : state) (args : list (N * N)) : blocks_result :=
  BlocksResult (nblocks s) (get_blocks_loop s (max_blocks_per_request (cfg s)) [] args).

(** Key order on approval entries *)
Definition ap_le (a b : apkey * (N * N)) : Prop := lexb (aprank a.1) (aprank b.1) = true.
Global Instance ap_le_dec : RelDecision ap_le.
Proof. intros a b. unfold ap_le. apply _. Defined.
(** [StableBTreeMap::range(k..)]: entries with key at least [k], in key order *)
Definition approvals_from (s : state) (k : apkey) : list (apkey * (N * N)) :=
  filter (fun e => lexb (aprank k) (aprank e.1) = true)
    (merge_sort ap_le (map_to_list (approvals s))).

(** One entry of the answer: from account, spender, amount, expiration *)
Record allowance_entry := AllowanceEntry {
  ae_from : account; ae_spender : account; ae_amount : N; ae_expires : option N
}.

(** storage.rs:2406-2453 [get_allowances] (loop) *)
Fixpoint get_allowances_loop (from : account) (skip : option apkey) (max_results now : N)
  (l : list (apkey * (N * N))) (acc : list allowance_entry) : list allowance_entry :=
  match l with
  | [] => acc
  | (k, (amount, expiration)) :: l' =>
      if match skip with Some k0 => bool_decide (k = k0) | None => false end
      then get_allowances_loop from skip max_results now l' acc
      else if max_results <=? N.of_nat (length acc) then acc
      else if negb (bool_decide (k.1.1 = owner from)) then acc
      else if (0 <? expiration) && (expiration <=? now)
      then get_allowances_loop from skip max_results now l' acc
      else get_allowances_loop from skip max_results now l'
             (acc ++ [AllowanceEntry (of_key k.1) (of_key k.2) amount
                        (if expiration =? 0 then None else Some expiration)])
  end.
Definition get_allowances (s : state) (from : account) (spender : option account)
  (max_results now : N) : list allowance_entry :=
  let start := match spender with
               | Some sp => approval_key from sp
               | None => (to_key from, (([] : principal), 0))
               end in
  get_allowances_loop from (match spender with Some _ => Some start | None => None end)
    max_results now (approvals_from s start) [].

End WithEnv.
