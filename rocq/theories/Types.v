(** * Data types and constants of the ledger *)
From Verif Require Import Base.

(** ** Constants.  [/repo/cycles-ledger/src/config.rs] lines 7-21 *)
Definition FEE : N := 100000000.                          (* config.rs:7 *)
Definition DECIMALS : N := 12.                            (* config.rs:8 *)
Definition MAX_MEMO_LENGTH : N := 32.                     (* config.rs:13 *)
Definition PERMITTED_DRIFT : N := 60000000000.            (* config.rs:14, as nanos *)
Definition TRANSACTION_WINDOW : N := 86400000000000.      (* config.rs:15, as nanos *)
Definition TRANSACTION_PRUNE_LIMIT : nat := N.to_nat 100000. (* config.rs:17 *)
Definition APPROVE_PRUNE_LIMIT : nat := 100.              (* config.rs:19 *)
Definition REMOTE_FUTURE : N := U64_MAX.                  (* config.rs:20 *)
Definition MAX_TAKE_ALLOWANCES : N := 500.                (* config.rs:21 *)

(** ** Principals and accounts (crates [candid] and [icrc_ledger_types]) *)

(** [candid::Principal]: at most 29 bytes.  The bound is the predicate
    [wf_principal], not part of the type. *)
Definition principal := list byte.
Definition wf_principal (p : principal) : Prop := (length p <= 29)%nat.
Definition MANAGEMENT_CANISTER : principal := [].   (* Principal::management_canister() *)

(** A 32-byte subaccount is represented by its big-endian value, a number below
    2^256.  Byte-wise order on 32-byte arrays is numeric order. *)
Definition subaccount := N.
Definition SUB_MOD : N := 2 ^ 256.

(** [icrc_ledger_types::icrc1::account::Account] *)
Record account := Acct { owner : principal; subacct : option subaccount }.

(** storage.rs:58 [AccountKey] *)
Definition akey : Type := principal * subaccount.
(** storage.rs:827-829 [to_account_key]; [Account::effective_subaccount] is the
    all-zero subaccount when none is given. *)
Definition to_key (a : account) : akey :=
  (owner a, match subacct a with Some s => s | None => 0 end).
(** storage.rs:831-841 [to_account_pair] (one component of it) *)
Definition of_key (k : akey) : account := Acct k.1 (Some k.2).

Global Instance account_eq_dec : EqDecision account.
Proof. solve_decision. Defined.

(** [impl PartialEq for Account]: owners and *effective* subaccounts agree. *)
Definition acct_eqb (a b : account) : bool := bool_decide (to_key a = to_key b).

(** storage.rs:68 [ApprovalKey] *)
Definition apkey : Type := akey * akey.

(** [icrc_ledger_types::icrc1::transfer::Memo] *)
Definition memo := list byte.
Definition hash := list byte.   (* storage.rs:72 [Hash = [u8; 32]] *)

(** ** Operations, transactions, blocks *)
(** storage.rs:209-241 *)
Inductive operation :=
| Mint (to : account) (amount fee : N)
| Transfer (from to : account) (spender : option account) (amount : N) (fee : option N)
| Burn (from : account) (spender : option account) (amount : N)
| Approve (from spender : account) (amount : N) (expected_allowance expires_at fee : option N).

(** storage.rs:85-92 *)
Record transaction := Tx {
  tx_op : operation;
  tx_created_at : option N;
  tx_memo : option memo
}.

(** storage.rs:448-459 *)
Record block := Blk {
  b_tx : transaction;
  b_timestamp : N;
  b_phash : option hash;
  b_effective_fee : option N
}.

Global Instance operation_eq_dec : EqDecision operation.
Proof. solve_decision. Defined.
Global Instance transaction_eq_dec : EqDecision transaction.
Proof. solve_decision. Defined.
Global Instance block_eq_dec : EqDecision block.
Proof. solve_decision. Defined.

(** ** Generic ICRC-3 values (crate [icrc_ledger_types], [generic_value::Value]).
    [Map] is a [BTreeMap<String, Value>]: an association list kept sorted by
    key without repetitions. *)
Inductive value :=
| VNat64 (n : N)
| VNat (n : N)
| VInt (z : Z)
| VBlob (b : list byte)
| VText (s : string)
| VArray (l : list value)
| VMap (m : list (string * value)).

(** ** CBOR values (crate [ciborium], [value::Value]).  [CFloat] carries no
    payload: the ledger never produces or accepts floats. *)
Inductive cvalue :=
| CInteger (z : Z)
| CBytes (b : list byte)
| CFloat
| CText (s : string)
| CBool (b : bool)
| CNull
| CTag (t : N) (v : cvalue)
| CArray (l : list cvalue)
| CMap (m : list (cvalue * cvalue)).

(** ** Configuration.  config.rs:24-48 *)
Record config := Config {
  max_blocks_per_request : N;
  index_id : option principal;
  initial_balances : option (list (account * N))
}.
Definition default_config : config := Config 100 None None.

(** endpoints.rs:17-41 *)
Inductive change_index_id := Unset | SetTo (p : principal).
Record upgrade_args := UpgradeArgs {
  ua_max_blocks_per_request : option N;
  ua_change_index_id : option change_index_id
}.
Inductive ledger_args :=
| LInit (c : config)
| LUpgrade (u : option upgrade_args).

(** ** Errors.  Human-readable messages are omitted; error codes are kept. *)

(** storage.rs:1132-1139 [ProcessTransactionError] with
    storage.rs:1563-1566 [CreatedAtTimeValidationError] flattened in. *)
Inductive pt_error :=
| PTDuplicate (duplicate_of : N) (canister_id : option principal)
| PTTooOld
| PTInTheFuture (ledger_time : N)
| PTGeneric.

(** storage.rs:1433-1437 *)
Inductive ua_error :=
| CannotDeduceZero
| ExpiredApproval
| UAInsufficientAllowance (allowance : N).

(** storage.rs:1189-1192 *)
Definition UNKNOWN_GENERIC_ERROR : N := 100000.
Definition DENIED_OWNER : N := 100001.
Definition CANNOT_TRANSFER_FROM_ZERO : N := 100002.
Definition EXPIRED_APPROVAL : N := 100003.

(** [icrc2::transfer_from::TransferFromError] *)
Inductive transfer_from_error :=
| TFBadFee (expected_fee : N)
| TFBadBurn (min_burn_amount : N)
| TFInsufficientFunds (balance : N)
| TFInsufficientAllowance (allowance : N)
| TFTooOld
| TFCreatedInFuture (ledger_time : N)
| TFDuplicate (duplicate_of : N)
| TFTemporarilyUnavailable
| TFGenericError (error_code : N).

(** [icrc1::transfer::TransferError] *)
Inductive transfer_error :=
| TBadFee (expected_fee : N)
| TBadBurn (min_burn_amount : N)
| TInsufficientFunds (balance : N)
| TTooOld
| TCreatedInFuture (ledger_time : N)
| TDuplicate (duplicate_of : N)
| TTemporarilyUnavailable
| TGenericError (error_code : N).

(** [icrc2::approve::ApproveError] *)
Inductive approve_error :=
| ABadFee (expected_fee : N)
| AInsufficientFunds (balance : N)
| AAllowanceChanged (current_allowance : N)
| AExpired (ledger_time : N)
| ATooOld
| ACreatedInFuture (ledger_time : N)
| ADuplicate (duplicate_of : N)
| ATemporarilyUnavailable
| AGenericError (error_code : N).

(** endpoints.rs:395-403 *)
Inductive rejection_code :=
| RNoError | RCanisterError | RSysTransient | RDestinationInvalid
| RUnknown | RSysFatal | RCanisterReject.

(** endpoints.rs:115-144 *)
Inductive withdraw_from_error :=
| WFInsufficientFunds (balance : N)
| WFInsufficientAllowance (allowance : N)
| WFTooOld
| WFCreatedInFuture (ledger_time : N)
| WFTemporarilyUnavailable
| WFDuplicate (duplicate_of : N)
| WFFailedToWithdrawFrom (withdraw_from_block refund_block approval_refund_block : option N)
                         (code : rejection_code)
| WFGenericError (error_code : N)
| WFInvalidReceiver (receiver : principal).

(** endpoints.rs:85-112 *)
Inductive withdraw_error :=
| WBadFee (expected_fee : N)
| WInsufficientFunds (balance : N)
| WTooOld
| WCreatedInFuture (ledger_time : N)
| WTemporarilyUnavailable
| WDuplicate (duplicate_of : N)
| WFailedToWithdraw (fee_block : option N) (code : rejection_code)
| WGenericError (error_code : N)
| WInvalidReceiver (receiver : principal).

(** endpoints.rs:337-364 *)
Inductive create_canister_from_error :=
| CFInsufficientFunds (balance : N)
| CFInsufficientAllowance (allowance : N)
| CFTooOld
| CFCreatedInFuture (ledger_time : N)
| CFTemporarilyUnavailable
| CFDuplicate (duplicate_of : N) (canister_id : option principal)
| CFFailedToCreateFrom (create_from_block refund_block approval_refund_block : option N)
                       (code : rejection_code)
| CFGenericError (error_code : N).

(** endpoints.rs:311-333 *)
Inductive create_canister_error :=
| CInsufficientFunds (balance : N)
| CTooOld
| CCreatedInFuture (ledger_time : N)
| CTemporarilyUnavailable
| CDuplicate (duplicate_of : N) (canister_id : option principal)
| CFailedToCreate (fee_block refund_block : option N)
| CGenericError (error_code : N).

(** Reasons for which message code traps ([ic_cdk::trap], [expect], [unwrap]). *)
Inductive trap :=
| TrapMemoTooLong              (* storage.rs:1541-1543 *)
| TrapSelfApproval             (* storage.rs:1064-1066 *)
| TrapDepositRejected          (* main.rs:204-207 *)
| TrapMint                     (* storage.rs:908-915 *)
| TrapTransfer                 (* storage.rs:1014-1032 *)
| TrapApprove                  (* storage.rs:1123-1126 *)
| TrapWithdraw                 (* storage.rs:1781-1796 *)
| TrapCreateCanister           (* storage.rs:1932-1949 *)
| TrapReimburse                (* storage.rs:1860-1864, 2077-2081, 2126-2129 *)
| TrapReimburseApproval        (* storage.rs:1844-1848, 2059-2066 *)
| TrapTxHash                   (* storage.rs:669, 2093-2096 *)
| TrapCannotDeduceZero         (* storage.rs:1472, 1488-1490 *)
| TrapInsufficientAllowance    (* lib.rs:162-164, 187-189, 227-229 *)
| TrapInitialBalance           (* main.rs:38-39 *)
| TrapInitWithUpgradeArg       (* main.rs:47-48 *)
| TrapUpgradeWithInitArg       (* main.rs:68-69 *)
| TrapSystem.                  (* stopped by the IC: no instructions or memory left *)

(** Messages of log level P0 that report an inconsistency or an anomaly. *)
Inductive p0_msg :=
| LogMintFailed                (* storage.rs:890 *)
| LogTxNotHashable             (* storage.rs:1520 *)
| LogApprovalZero              (* storage.rs:2187 *)
| LogApprovalMissing           (* storage.rs:2280 *)
| LogQueueLargerThanApprovals  (* storage.rs:769-776 *)
| LogPruneBlockMissing         (* storage.rs:2312-2319 *)
| LogPruneHashError            (* storage.rs:2325-2330 *)
| LogPruneHashMissing          (* storage.rs:2336-2340 *)
| LogPruneHashMismatch.        (* storage.rs:2350-2359 *)

(** ** Parameters.  See DESIGN.md.  Every definition and theorem is
    universally quantified over an [Env]. *)
Class Env := {
  (** [Value::hash] of crate [icrc_ledger_types] *)
  vhash : value -> hash;
  (** [RbTree::root_hash] of crate [ic_certified_map] *)
  troot : gmap string (list byte) -> hash;
  (** position of a principal in [Ord for Principal] of crate [candid] *)
  prank : principal -> N
}.
