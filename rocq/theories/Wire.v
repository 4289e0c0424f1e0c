(** * Calls and answers of the ledger on the wire

    The types are those of [/repo/cycles-ledger/cycles-ledger.did], name by name; the
    values are what the derived [CandidType] and [Deserialize] of
    [/repo/cycles-ledger/src/endpoints.rs] and of the crate [icrc_ledger_types] make of
    the arguments and answers.  That the two agree is checked by the code's own test,
    main.rs:649 [test_candid_interface_compatibility]. *)
From Verif Require Import Base Types Codec ValueHash State Ledger Canister Candid IndexerSpec.
Local Open Scope string_scope.
Local Open Scope N_scope.

(** ** Types *)
Definition nat_t := DPrim T_NAT.
Definition nat64_t := DPrim T_NAT64.
Definition text_t := DPrim T_TEXT.
Definition principal_t := DPrim T_PRINCIPAL.
Definition null_t := DPrim T_NULL.

(** cycles-ledger.did:1 *)
Definition account_t := DRec [("owner", principal_t); ("subaccount", DOpt DBlob)].
(** cycles-ledger.did:2 *)
Definition allowance_t := DRec [("allowance", nat_t); ("expires_at", DOpt nat64_t)].

(** a record with one field, as most alternatives of the errors have (cycles-ledger.did) *)
Definition one (n : string) (t : ty) : ty := DRec [(n, t)].
(** [GenericError] of every error type (cycles-ledger.did) *)
Definition generic_error_t := DRec [("message", text_t); ("error_code", nat_t)].
(** [variant { Ok; Err }], cycles-ledger.did:366-393 *)
Definition res_t (a e : ty) : ty := DVar [("Ok", a); ("Err", e)].

(** cycles-ledger.did:15-25 *)
Definition approve_error_t := DVar
  [ ("BadFee", one "expected_fee" nat_t); ("InsufficientFunds", one "balance" nat_t);
    ("AllowanceChanged", one "current_allowance" nat_t); ("Expired", one "ledger_time" nat64_t);
    ("TooOld", null_t); ("CreatedInFuture", one "ledger_time" nat64_t);
    ("Duplicate", one "duplicate_of" nat_t); ("TemporarilyUnavailable", null_t);
    ("GenericError", generic_error_t) ].
(** cycles-ledger.did:30 *)
Definition deposit_result_t := DRec [("balance", nat_t); ("block_index", nat_t)].
(** cycles-ledger.did:31-39 *)
Definition rejection_code_t := DVar
  [ ("NoError", null_t); ("CanisterError", null_t); ("SysTransient", null_t);
    ("DestinationInvalid", null_t); ("Unknown", null_t); ("SysFatal", null_t);
    ("CanisterReject", null_t) ].
(** cycles-ledger.did:46-60 *)
Definition withdraw_error_t := DVar
  [ ("GenericError", generic_error_t); ("TemporarilyUnavailable", null_t);
    ("FailedToWithdraw", DRec [("fee_block", DOpt nat_t); ("rejection_code", rejection_code_t);
                               ("rejection_reason", text_t)]);
    ("Duplicate", one "duplicate_of" nat_t); ("BadFee", one "expected_fee" nat_t);
    ("InvalidReceiver", one "receiver" principal_t);
    ("CreatedInFuture", one "ledger_time" nat64_t); ("TooOld", null_t);
    ("InsufficientFunds", one "balance" nat_t) ].
(** cycles-ledger.did:68-84 *)
Definition withdraw_from_error_t := DVar
  [ ("GenericError", generic_error_t); ("TemporarilyUnavailable", null_t);
    ("FailedToWithdrawFrom",
      DRec [("withdraw_from_block", DOpt nat_t); ("refund_block", DOpt nat_t);
            ("approval_refund_block", DOpt nat_t); ("rejection_code", rejection_code_t);
            ("rejection_reason", text_t)]);
    ("Duplicate", one "duplicate_of" nat_t); ("InvalidReceiver", one "receiver" principal_t);
    ("CreatedInFuture", one "ledger_time" nat64_t); ("TooOld", null_t);
    ("InsufficientFunds", one "balance" nat_t);
    ("InsufficientAllowance", one "allowance" nat_t) ].
(** cycles-ledger.did:95-104 *)
Definition transfer_error_t := DVar
  [ ("BadFee", one "expected_fee" nat_t); ("BadBurn", one "min_burn_amount" nat_t);
    ("InsufficientFunds", one "balance" nat_t); ("TooOld", null_t);
    ("CreatedInFuture", one "ledger_time" nat64_t); ("Duplicate", one "duplicate_of" nat_t);
    ("TemporarilyUnavailable", null_t); ("GenericError", generic_error_t) ].
(** cycles-ledger.did:114-124 *)
Definition transfer_from_error_t := DVar
  [ ("BadFee", one "expected_fee" nat_t); ("BadBurn", one "min_burn_amount" nat_t);
    ("InsufficientFunds", one "balance" nat_t); ("InsufficientAllowance", one "allowance" nat_t);
    ("TooOld", null_t); ("CreatedInFuture", one "ledger_time" nat64_t);
    ("Duplicate", one "duplicate_of" nat_t); ("TemporarilyUnavailable", null_t);
    ("GenericError", generic_error_t) ].
(** cycles-ledger.did:125-133; it refers to itself, as the first named type *)
Definition value_t := DVar
  [ ("Int", DPrim T_INT); ("Map", DVec (DRec [("0", text_t); ("1", DDef 0)])); ("Nat", nat_t);
    ("Nat64", nat64_t); ("Blob", DBlob); ("Text", text_t); ("Array", DVec (DDef 0)) ].
(** cycles-ledger.did:154-169; the second named type *)
Definition get_blocks_args_t := DVec (DRec [("start", nat_t); ("length", nat_t)]).
Definition get_blocks_result_t := DRec
  [ ("log_length", nat_t); ("blocks", DVec (DRec [("id", nat_t); ("block", DDef 0)]));
    ("archived_blocks",
      DVec (DRec [("args", get_blocks_args_t);
                  ("callback", DFun [get_blocks_args_t] [DDef 1] [Byte.x01])])) ].
(** cycles-ledger.did:171-177 *)
Definition certificate_t := DOpt (DRec [("certificate", DBlob); ("hash_tree", DBlob)]).
(** cycles-ledger.did:260-263 *)
Definition create_success_t := DRec [("block_id", nat_t); ("canister_id", principal_t)].
Definition create_duplicate_t :=
  DRec [("duplicate_of", nat_t); ("canister_id", DOpt principal_t)].
(** cycles-ledger.did:265-281 *)
Definition create_error_t := DVar
  [ ("InsufficientFunds", one "balance" nat_t); ("TooOld", null_t);
    ("CreatedInFuture", one "ledger_time" nat64_t); ("TemporarilyUnavailable", null_t);
    ("Duplicate", create_duplicate_t);
    ("FailedToCreate", DRec [("fee_block", DOpt nat_t); ("refund_block", DOpt nat_t);
                             ("error", text_t)]);
    ("GenericError", generic_error_t) ].
(** cycles-ledger.did:283-302 *)
Definition create_from_error_t := DVar
  [ ("InsufficientFunds", one "balance" nat_t); ("InsufficientAllowance", one "allowance" nat_t);
    ("TooOld", null_t); ("CreatedInFuture", one "ledger_time" nat64_t);
    ("TemporarilyUnavailable", null_t); ("Duplicate", create_duplicate_t);
    ("FailedToCreateFrom",
      DRec [("create_from_block", DOpt nat_t); ("refund_block", DOpt nat_t);
            ("approval_refund_block", DOpt nat_t); ("rejection_code", rejection_code_t);
            ("rejection_reason", text_t)]);
    ("GenericError", generic_error_t) ].
(** cycles-ledger.did:329-350 *)
Definition allowances_t := DVec (DRec
  [ ("from_account", account_t); ("to_spender", account_t); ("allowance", nat_t);
    ("expires_at", DOpt nat64_t) ]).
Definition get_allowances_error_t := DVar
  [ ("AccessDenied", one "reason" text_t); ("GenericError", generic_error_t) ].

(** ** Values *)
Definition onev (n : string) (v : cand) : cand := rec_of [(n, v)].
Definition opt_nat (o : option N) : cand := XOpt (XNat <$> o).
Definition time_opt (o : option N) : cand := XOpt (XWord 8 <$> o).
Definition opt_principal (o : option principal) : cand := XOpt (XPrincipal <$> o).

(** cycles-ledger.did:1; crate icrc_ledger_types, [Account] (not in /repo) *)
Definition account_v (a : account) : cand :=
  rec_of [("owner", XPrincipal (owner a));
          ("subaccount", XOpt (XBlob ∘ sub_bytes <$> subacct a))].
(** the fields of [GenericError], e.g. endpoints.rs:105-108 *)
Definition generic_v (code : N) (txt : list byte) : cand :=
  rec_of [("message", XText txt); ("error_code", XNat code)].
Definition res_v {E A} (ok : A -> cand) (err : E -> cand) (r : result E A) : cand :=
  match r with
  | Ok a => alt_of ["Ok"; "Err"] "Ok" (ok a)
  | Err e => alt_of ["Ok"; "Err"] "Err" (err e)
  end.

(** endpoints.rs:395-403 [RejectionCode] *)
Definition rejection_name (c : rejection_code) : string :=
  match c with
  | RNoError => "NoError" | RCanisterError => "CanisterError" | RSysTransient => "SysTransient"
  | RDestinationInvalid => "DestinationInvalid" | RUnknown => "Unknown" | RSysFatal => "SysFatal"
  | RCanisterReject => "CanisterReject"
  end.
(** endpoints.rs:395-403 [RejectionCode] *)
Definition rejection_v (c : rejection_code) : cand :=
  alt_of (alts_of rejection_code_t) (rejection_name c) XNull.

(** Every answer carries at most one text for humans, which the model leaves open:
    [txt]. *)
Definition transfer_error_v (txt : list byte) (e : transfer_error) : cand :=
  let alt := alt_of (alts_of transfer_error_t) in
  match e with
  | TBadFee n => alt "BadFee" (onev "expected_fee" (XNat n))
  | TBadBurn n => alt "BadBurn" (onev "min_burn_amount" (XNat n))
  | TInsufficientFunds n => alt "InsufficientFunds" (onev "balance" (XNat n))
  | TTooOld => alt "TooOld" XNull
  | TCreatedInFuture t => alt "CreatedInFuture" (onev "ledger_time" (XWord 8 t))
  | TDuplicate n => alt "Duplicate" (onev "duplicate_of" (XNat n))
  | TTemporarilyUnavailable => alt "TemporarilyUnavailable" XNull
  | TGenericError c => alt "GenericError" (generic_v c txt)
  end.
(** cycles-ledger.did, [TransferFromError]; crate icrc_ledger_types (not in /repo) *)
Definition transfer_from_error_v (txt : list byte) (e : transfer_from_error) : cand :=
  let alt := alt_of (alts_of transfer_from_error_t) in
  match e with
  | TFBadFee n => alt "BadFee" (onev "expected_fee" (XNat n))
  | TFBadBurn n => alt "BadBurn" (onev "min_burn_amount" (XNat n))
  | TFInsufficientFunds n => alt "InsufficientFunds" (onev "balance" (XNat n))
  | TFInsufficientAllowance n => alt "InsufficientAllowance" (onev "allowance" (XNat n))
  | TFTooOld => alt "TooOld" XNull
  | TFCreatedInFuture t => alt "CreatedInFuture" (onev "ledger_time" (XWord 8 t))
  | TFDuplicate n => alt "Duplicate" (onev "duplicate_of" (XNat n))
  | TFTemporarilyUnavailable => alt "TemporarilyUnavailable" XNull
  | TFGenericError c => alt "GenericError" (generic_v c txt)
  end.
(** cycles-ledger.did, [ApproveError]; crate icrc_ledger_types (not in /repo) *)
Definition approve_error_v (txt : list byte) (e : approve_error) : cand :=
  let alt := alt_of (alts_of approve_error_t) in
  match e with
  | ABadFee n => alt "BadFee" (onev "expected_fee" (XNat n))
  | AInsufficientFunds n => alt "InsufficientFunds" (onev "balance" (XNat n))
  | AAllowanceChanged n => alt "AllowanceChanged" (onev "current_allowance" (XNat n))
  | AExpired t => alt "Expired" (onev "ledger_time" (XWord 8 t))
  | ATooOld => alt "TooOld" XNull
  | ACreatedInFuture t => alt "CreatedInFuture" (onev "ledger_time" (XWord 8 t))
  | ADuplicate n => alt "Duplicate" (onev "duplicate_of" (XNat n))
  | ATemporarilyUnavailable => alt "TemporarilyUnavailable" XNull
  | AGenericError c => alt "GenericError" (generic_v c txt)
  end.
(** endpoints.rs:85-112 [WithdrawError] *)
Definition withdraw_error_v (txt : list byte) (e : withdraw_error) : cand :=
  let alt := alt_of (alts_of withdraw_error_t) in
  match e with
  | WBadFee n => alt "BadFee" (onev "expected_fee" (XNat n))
  | WInsufficientFunds n => alt "InsufficientFunds" (onev "balance" (XNat n))
  | WTooOld => alt "TooOld" XNull
  | WCreatedInFuture t => alt "CreatedInFuture" (onev "ledger_time" (XWord 8 t))
  | WTemporarilyUnavailable => alt "TemporarilyUnavailable" XNull
  | WDuplicate n => alt "Duplicate" (onev "duplicate_of" (XNat n))
  | WFailedToWithdraw f c =>
      alt "FailedToWithdraw"
        (rec_of [("fee_block", opt_nat f); ("rejection_code", rejection_v c);
                 ("rejection_reason", XText txt)])
  | WGenericError c => alt "GenericError" (generic_v c txt)
  | WInvalidReceiver p => alt "InvalidReceiver" (onev "receiver" (XPrincipal p))
  end.
(** endpoints.rs:115-144 [WithdrawFromError] *)
Definition withdraw_from_error_v (txt : list byte) (e : withdraw_from_error) : cand :=
  let alt := alt_of (alts_of withdraw_from_error_t) in
  match e with
  | WFInsufficientFunds n => alt "InsufficientFunds" (onev "balance" (XNat n))
  | WFInsufficientAllowance n => alt "InsufficientAllowance" (onev "allowance" (XNat n))
  | WFTooOld => alt "TooOld" XNull
  | WFCreatedInFuture t => alt "CreatedInFuture" (onev "ledger_time" (XWord 8 t))
  | WFTemporarilyUnavailable => alt "TemporarilyUnavailable" XNull
  | WFDuplicate n => alt "Duplicate" (onev "duplicate_of" (XNat n))
  | WFFailedToWithdrawFrom w r a c =>
      alt "FailedToWithdrawFrom"
        (rec_of [("withdraw_from_block", opt_nat w); ("refund_block", opt_nat r);
                 ("approval_refund_block", opt_nat a); ("rejection_code", rejection_v c);
                 ("rejection_reason", XText txt)])
  | WFGenericError c => alt "GenericError" (generic_v c txt)
  | WFInvalidReceiver p => alt "InvalidReceiver" (onev "receiver" (XPrincipal p))
  end.
(** endpoints.rs:311-364: the fields of [Duplicate] *)
Definition create_duplicate_v (n : N) (x : option principal) : cand :=
  rec_of [("duplicate_of", XNat n); ("canister_id", opt_principal x)].
(** endpoints.rs:311-333 [CreateCanisterError] *)
Definition create_error_v (txt : list byte) (e : create_canister_error) : cand :=
  let alt := alt_of (alts_of create_error_t) in
  match e with
  | CInsufficientFunds n => alt "InsufficientFunds" (onev "balance" (XNat n))
  | CTooOld => alt "TooOld" XNull
  | CCreatedInFuture t => alt "CreatedInFuture" (onev "ledger_time" (XWord 8 t))
  | CTemporarilyUnavailable => alt "TemporarilyUnavailable" XNull
  | CDuplicate n x => alt "Duplicate" (create_duplicate_v n x)
  | CFailedToCreate f r =>
      alt "FailedToCreate"
        (rec_of [("fee_block", opt_nat f); ("refund_block", opt_nat r); ("error", XText txt)])
  | CGenericError c => alt "GenericError" (generic_v c txt)
  end.
(** endpoints.rs:337-364 [CreateCanisterFromError] *)
Definition create_from_error_v (txt : list byte) (e : create_canister_from_error) : cand :=
  let alt := alt_of (alts_of create_from_error_t) in
  match e with
  | CFInsufficientFunds n => alt "InsufficientFunds" (onev "balance" (XNat n))
  | CFInsufficientAllowance n => alt "InsufficientAllowance" (onev "allowance" (XNat n))
  | CFTooOld => alt "TooOld" XNull
  | CFCreatedInFuture t => alt "CreatedInFuture" (onev "ledger_time" (XWord 8 t))
  | CFTemporarilyUnavailable => alt "TemporarilyUnavailable" XNull
  | CFDuplicate n x => alt "Duplicate" (create_duplicate_v n x)
  | CFFailedToCreateFrom f r a c =>
      alt "FailedToCreateFrom"
        (rec_of [("create_from_block", opt_nat f); ("refund_block", opt_nat r);
                 ("approval_refund_block", opt_nat a); ("rejection_code", rejection_v c);
                 ("rejection_reason", XText txt)])
  | CFGenericError c => alt "GenericError" (generic_v c txt)
  end.
(** endpoints.rs:371-374 [CreateCanisterSuccess] *)
Definition create_success_v (x : N * principal) : cand :=
  rec_of [("block_id", XNat x.1); ("canister_id", XPrincipal x.2)].

(** endpoints.rs:52-55 [DepositResult]; the results of the update calls, cycles-ledger.did:366-393 *)
Definition reply_v (txt : list byte) (r : reply) : cand :=
  match r with
  | RepDeposit i b => rec_of [("balance", XNat b); ("block_index", XNat i)]
  | RepTransfer r => res_v XNat (transfer_error_v txt) r
  | RepTransferFrom r => res_v XNat (transfer_from_error_v txt) r
  | RepApprove r => res_v XNat (approve_error_v txt) r
  | RepWithdraw r => res_v XNat (withdraw_error_v txt) r
  | RepWithdrawFrom r => res_v XNat (withdraw_from_error_v txt) r
  | RepCreate r => res_v create_success_v (create_error_v txt) r
  | RepCreateFrom r => res_v create_success_v (create_from_error_v txt) r
  end.

(** A generic value ([icrc_ledger_types::icrc::generic_value::Value]); maps are lists
    of pairs. *)
Definition value_alt := alt_of (alts_of value_t).
Fixpoint value_v (v : value) : cand :=
  match v with
  | VNat64 n => value_alt "Nat64" (XWord 8 n)
  | VNat n => value_alt "Nat" (XNat n)
  | VInt z => value_alt "Int" (XInt z)
  | VBlob b => value_alt "Blob" (XBlob b)
  | VText s => value_alt "Text" (XText (str_bytes s))
  | VArray l => value_alt "Array" (XVec (map value_v l))
  | VMap m =>
      value_alt "Map"
        (XVec (map (fun kv => rec_of [("0", XText (str_bytes kv.1)); ("1", value_v kv.2)]) m))
  end.
(** endpoints.rs:202-241; storage.rs:2399-2403: there are no archives. *)
Definition blocks_v (r : blocks_result) : cand :=
  rec_of [("log_length", XNat (br_log_length r));
          ("blocks", XVec (map (fun b => rec_of [("id", XNat b.1); ("block", value_v b.2)])
                             (br_blocks r)));
          ("archived_blocks", XVec [])].
(** cycles-ledger.did:329-350; main.rs [icrc103_get_allowances] *)
Definition allowance_entry_v (e : allowance_entry) : cand :=
  rec_of [("from_account", account_v (ae_from e)); ("to_spender", account_v (ae_spender e));
          ("allowance", XNat (ae_amount e)); ("expires_at", time_opt (ae_expires e))].

(** ** Answers *)
Inductive method :=
| MDeposit | MTransfer | MTransferFrom | MApprove | MWithdraw | MWithdrawFrom | MCreate
| MCreateFrom | MBalance | MSupply | MFee | MAllowance | MBlocks | MAllowances | MTip.
Inductive answer :=
| AnsReply (r : reply) (txt : list byte)
| AnsNat (n : N)
| AnsAllowance (a : N * option N)
| AnsBlocks (r : blocks_result)
| AnsAllowances (l : list allowance_entry)
| AnsTip (o : option (list byte * list byte)).   (* certificate and hash tree *)

(** cycles-ledger.did:366-393: the types of the answers *)
Definition answer_t (m : method) : ty :=
  match m with
  | MDeposit => deposit_result_t
  | MTransfer => res_t nat_t transfer_error_t
  | MTransferFrom => res_t nat_t transfer_from_error_t
  | MApprove => res_t nat_t approve_error_t
  | MWithdraw => res_t nat_t withdraw_error_t
  | MWithdrawFrom => res_t nat_t withdraw_from_error_t
  | MCreate => res_t create_success_t create_error_t
  | MCreateFrom => res_t create_success_t create_from_error_t
  | MBalance | MSupply | MFee => nat_t
  | MAllowance => allowance_t
  | MBlocks => DDef 1
  | MAllowances => res_t allowances_t get_allowances_error_t
  | MTip => certificate_t
  end.
Definition named (m : method) : list ty :=
  match m with MBlocks => [value_t; get_blocks_result_t] | _ => [] end.
Definition answer_table (m : method) : Z * list tycon := table_of (named m) (answer_t m).

(** endpoints.rs:232-248 [GetBlocksResult], [DataCertificate]; cycles-ledger.did:366-393 *)
Definition answer_v (a : answer) : cand :=
  match a with
  | AnsReply r txt => reply_v txt r
  | AnsNat n => XNat n
  | AnsAllowance a => rec_of [("allowance", XNat a.1); ("expires_at", time_opt a.2)]
  | AnsBlocks r => blocks_v r
  | AnsAllowances l => alt_of ["Ok"; "Err"] "Ok" (XVec (map allowance_entry_v l))
  | AnsTip o =>
      XOpt ((fun ct => rec_of [("certificate", XBlob ct.1); ("hash_tree", XBlob ct.2)]) <$> o)
  end.
(** Which method can give which kind of answer *)
Definition answers (m : method) (a : answer) : Prop :=
  match a with
  | AnsReply (RepDeposit _ _) _ => m = MDeposit
  | AnsReply (RepTransfer _) _ => m = MTransfer
  | AnsReply (RepTransferFrom _) _ => m = MTransferFrom
  | AnsReply (RepApprove _) _ => m = MApprove
  | AnsReply (RepWithdraw _) _ => m = MWithdraw
  | AnsReply (RepWithdrawFrom _) _ => m = MWithdrawFrom
  | AnsReply (RepCreate _) _ => m = MCreate
  | AnsReply (RepCreateFrom _) _ => m = MCreateFrom
  | AnsNat _ => m = MBalance \/ m = MSupply \/ m = MFee
  | AnsAllowance _ => m = MAllowance
  | AnsBlocks _ => m = MBlocks
  | AnsAllowances _ => m = MAllowances
  | AnsTip _ => m = MTip
  end.
(** The bytes of an answer *)
Definition answer_message (m : method) (a : answer) : message :=
  Msg (answer_table m).2 [((answer_table m).1, answer_v a)].
Definition answer_bytes (m : method) (a : answer) : list byte := enc_message (answer_message m a).
