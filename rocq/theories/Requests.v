(** * Arguments of the calls on the wire

    The types are those of [/repo/cycles-ledger/cycles-ledger.did]; the reader is what
    the derived [Deserialize] of the argument types does: it looks for the fields by
    name, ignores fields it does not know, and takes an optional field that is missing
    or null as not given.

    Not modelled: an optional field with a value of another type, which the crate takes
    as not given (here the call is not understood), and the settings of a new canister
    other than its controllers. *)
From Verif Require Import Base Types Codec ValueHash State Ledger Canister Candid Wire.
Local Open Scope string_scope.
Local Open Scope N_scope.

(** ** Types *)
Definition opt_sub_t := DOpt DBlob.
(** cycles-ledger.did:5-14 *)
Definition approve_args_t := DRec
  [ ("from_subaccount", opt_sub_t); ("spender", account_t); ("amount", nat_t);
    ("expected_allowance", DOpt nat_t); ("expires_at", DOpt nat64_t); ("fee", DOpt nat_t);
    ("memo", DOpt DBlob); ("created_at_time", DOpt nat64_t) ].
(** cycles-ledger.did:26-29 *)
Definition deposit_args_t := DRec [("to", account_t); ("memo", DOpt DBlob)].
(** cycles-ledger.did:40-45 *)
Definition withdraw_args_t := DRec
  [ ("amount", nat_t); ("from_subaccount", opt_sub_t); ("to", principal_t);
    ("created_at_time", DOpt nat64_t) ].
(** cycles-ledger.did:61-67 *)
Definition withdraw_from_args_t := DRec
  [ ("spender_subaccount", opt_sub_t); ("from", account_t); ("to", principal_t);
    ("amount", nat_t); ("created_at_time", DOpt nat64_t) ].
(** cycles-ledger.did:87-94 *)
Definition transfer_args_t := DRec
  [ ("from_subaccount", opt_sub_t); ("to", account_t); ("amount", nat_t); ("fee", DOpt nat_t);
    ("memo", DOpt DBlob); ("created_at_time", DOpt nat64_t) ].
(** cycles-ledger.did:105-113 *)
Definition transfer_from_args_t := DRec
  [ ("spender_subaccount", opt_sub_t); ("from", account_t); ("to", account_t); ("amount", nat_t);
    ("fee", DOpt nat_t); ("memo", DOpt DBlob); ("created_at_time", DOpt nat64_t) ].
(** cycles-ledger.did:224-258 *)
Definition settings_t := DRec
  [ ("controllers", DOpt (DVec principal_t)); ("compute_allocation", DOpt nat_t);
    ("memory_allocation", DOpt nat_t); ("freezing_threshold", DOpt nat_t);
    ("reserved_cycles_limit", DOpt nat_t); ("wasm_memory_limit", DOpt nat_t);
    ("wasm_memory_threshold", DOpt nat_t);
    ("log_visibility",
      DOpt (DVar [("controllers", null_t); ("public", null_t); ("allowed_viewers", DVec principal_t)]));
    ("environment_variables", DOpt (DVec (DRec [("name", text_t); ("value", text_t)]))) ].
Definition selection_t := DVar
  [ ("Subnet", one "subnet" principal_t); ("Filter", one "subnet_type" (DOpt text_t)) ].
(** cycles-ledger.did:215-222 *)
Definition cmc_args_t := DRec [("settings", DOpt settings_t); ("subnet_selection", DOpt selection_t)].
(** cycles-ledger.did:200-205 *)
Definition create_args_t := DRec
  [ ("from_subaccount", opt_sub_t); ("created_at_time", DOpt nat64_t); ("amount", nat_t);
    ("creation_args", DOpt cmc_args_t) ].
(** cycles-ledger.did:207-213 *)
Definition create_from_args_t := DRec
  [ ("from", account_t); ("spender_subaccount", opt_sub_t); ("created_at_time", DOpt nat64_t);
    ("amount", nat_t); ("creation_args", DOpt cmc_args_t) ].
(** cycles-ledger.did:3, 323-327 *)
Definition allowance_args_t := DRec [("account", account_t); ("spender", account_t)].
Definition get_allowances_args_t := DRec
  [ ("from_account", DOpt account_t); ("prev_spender", DOpt account_t); ("take", DOpt nat_t) ].

(** ** Requests *)

(** The calls with arguments, updates and queries *)
Inductive request :=
| ReqCall (c : call)
| ReqBalance (a : account)
| ReqAllowance (a spender : account)
| ReqBlocks (ranges : list (N * N))
| ReqAllowances (from prev : option account) (take : option N).
(** cycles-ledger.did:366-393 *)
Definition method_of (q : request) : method :=
  match q with
  | ReqCall (CallDeposit _ _ _) => MDeposit
  | ReqCall (CallTransfer _ _ _ _ _ _) => MTransfer
  | ReqCall (CallTransferFrom _ _ _ _ _ _ _) => MTransferFrom
  | ReqCall (CallApprove _ _ _ _ _ _ _ _) => MApprove
  | ReqCall (CallWithdraw _ _ _ _) => MWithdraw
  | ReqCall (CallWithdrawFrom _ _ _ _ _) => MWithdrawFrom
  | ReqCall (CallCreateCanister _ _ _ _) => MCreate
  | ReqCall (CallCreateCanisterFrom _ _ _ _ _) => MCreateFrom
  | ReqBalance _ => MBalance
  | ReqAllowance _ _ => MAllowance
  | ReqBlocks _ => MBlocks
  | ReqAllowances _ _ _ => MAllowances
  end.
Definition request_t (m : method) : ty :=
  match m with
  | MDeposit => deposit_args_t
  | MTransfer => transfer_args_t
  | MTransferFrom => transfer_from_args_t
  | MApprove => approve_args_t
  | MWithdraw => withdraw_args_t
  | MWithdrawFrom => withdraw_from_args_t
  | MCreate => create_args_t
  | MCreateFrom => create_from_args_t
  | MBalance => account_t
  | MAllowance => allowance_args_t
  | MBlocks => get_blocks_args_t
  | MAllowances => get_allowances_args_t
  | MSupply | MFee | MTip => null_t
  end.

(** *** What a client writes *)
Definition sub_v (o : option subaccount) : cand := XOpt (XBlob ∘ sub_bytes <$> o).
Definition memo_v (o : option memo) : cand := XOpt (XBlob <$> o).
Definition selection_v (s : subnet_selection) : cand :=
  let alt := alt_of (alts_of selection_t) in
  match s with
  | SubnetFilter t => alt "Filter" (onev "subnet_type" (XOpt (XText ∘ str_bytes <$> t)))
  | Subnet p => alt "Subnet" (onev "subnet" (XPrincipal p))
  end.
(** Names of the settings that the reader does not cover: cycles-ledger.did:235-245 *)
Definition other_settings : list string :=
  [ "compute_allocation"; "memory_allocation"; "freezing_threshold"; "reserved_cycles_limit";
    "wasm_memory_limit"; "wasm_memory_threshold"; "log_visibility"; "environment_variables" ].
Definition settings_v (s : canister_settings) : cand :=
  rec_of (("controllers", XOpt ((fun l => XVec (map XPrincipal l)) <$> cs_controllers s))
          :: map (fun n => (n, XOpt None)) other_settings).
Definition cmc_args_v (a : cmc_args) : cand :=
  rec_of [("settings", XOpt (settings_v <$> ca_settings a));
          ("subnet_selection", XOpt (selection_v <$> ca_subnet_selection a))].
Definition request_v (q : request) : cand :=
  match q with
  | ReqCall (CallDeposit _ to m) => rec_of [("to", account_v to); ("memo", memo_v m)]
  | ReqCall (CallTransfer sub to amount fee m created) =>
      rec_of [("from_subaccount", sub_v sub); ("to", account_v to); ("amount", XNat amount);
              ("fee", opt_nat fee); ("memo", memo_v m); ("created_at_time", time_opt created)]
  | ReqCall (CallTransferFrom sub from to amount fee m created) =>
      rec_of [("spender_subaccount", sub_v sub); ("from", account_v from); ("to", account_v to);
              ("amount", XNat amount); ("fee", opt_nat fee); ("memo", memo_v m);
              ("created_at_time", time_opt created)]
  | ReqCall (CallApprove sub spender amount expected expires fee m created) =>
      rec_of [("from_subaccount", sub_v sub); ("spender", account_v spender); ("amount", XNat amount);
              ("expected_allowance", opt_nat expected); ("expires_at", time_opt expires);
              ("fee", opt_nat fee); ("memo", memo_v m); ("created_at_time", time_opt created)]
  | ReqCall (CallWithdraw sub to created amount) =>
      rec_of [("amount", XNat amount); ("from_subaccount", sub_v sub); ("to", XPrincipal to);
              ("created_at_time", time_opt created)]
  | ReqCall (CallWithdrawFrom sub from to created amount) =>
      rec_of [("spender_subaccount", sub_v sub); ("from", account_v from); ("to", XPrincipal to);
              ("amount", XNat amount); ("created_at_time", time_opt created)]
  | ReqCall (CallCreateCanister sub created amount args) =>
      rec_of [("from_subaccount", sub_v sub); ("created_at_time", time_opt created);
              ("amount", XNat amount); ("creation_args", XOpt (cmc_args_v <$> args))]
  | ReqCall (CallCreateCanisterFrom from sub created amount args) =>
      rec_of [("from", account_v from); ("spender_subaccount", sub_v sub);
              ("created_at_time", time_opt created); ("amount", XNat amount);
              ("creation_args", XOpt (cmc_args_v <$> args))]
  | ReqBalance a => account_v a
  | ReqAllowance a s => rec_of [("account", account_v a); ("spender", account_v s)]
  | ReqBlocks l => XVec (map (fun r => rec_of [("start", XNat r.1); ("length", XNat r.2)]) l)
  | ReqAllowances from prev take =>
      rec_of [("from_account", XOpt (account_v <$> from)); ("prev_spender", XOpt (account_v <$> prev));
              ("take", opt_nat take)]
  end.
Definition request_table (m : method) : Z * list tycon := table_of [] (request_t m).
Definition request_message (q : request) : message :=
  Msg (request_table (method_of q)).2 [((request_table (method_of q)).1, request_v q)].
Definition request_bytes (q : request) : list byte := enc_message (request_message q).

(** *** What the ledger reads *)

(** A field by its number; a field that must be there; a field that may be missing *)
Fixpoint arg_at (h : N) (l : list (N * cand)) : option cand :=
  match l with [] => None | (h', x) :: l' => if h' =? h then Some x else arg_at h l' end.
Definition arg {A} (rd : cand -> option A) (n : string) (l : list (N * cand)) : option A :=
  match arg_at (label n) l with Some x => rd x | None => None end.
Definition arg_opt {A} (rd : cand -> option A) (n : string) (l : list (N * cand)) : option (option A) :=
  match arg_at (label n) l with
  | None | Some XNull | Some (XOpt None) => Some None
  | Some (XOpt (Some x)) | Some x => match rd x with Some a => Some (Some a) | None => None end
  end.
Definition fields_of (v : cand) : option (list (N * cand)) :=
  match v with XRecord l => Some l | _ => None end.

(** crate candid: [Nat] *)
Definition rd_nat (v : cand) : option N := match v with XNat n => Some n | _ => None end.
(** a [u64]; a number of eight bytes is always in range *)
Definition rd_time (v : cand) : option N :=
  match v with XWord 8 n => if n <? 2 ^ 64 then Some n else None | _ => None end.
(** crate candid: [Principal], at most 29 bytes *)
Definition rd_principal (v : cand) : option principal :=
  match v with XPrincipal p => if (length p <=? 29)%nat then Some p else None | _ => None end.
(** crate icrc_ledger_types: [Memo], bytes of any number *)
Definition rd_blob (v : cand) : option (list byte) := match v with XBlob b => Some b | _ => None end.
(** crate icrc_ledger_types: [Subaccount], exactly 32 bytes *)
Definition rd_sub (v : cand) : option subaccount :=
  match v with XBlob b => if (length b =? 32)%nat then Some (from_be b) else None | _ => None end.
Definition rd_text (v : cand) : option string :=
  match v with XText b => Some (string_of_list_byte b) | _ => None end.
(** crate icrc_ledger_types: [Account] *)
Definition rd_account (v : cand) : option account :=
  l ← fields_of v;
  o ← arg rd_principal "owner" l;
  s ← arg_opt rd_sub "subaccount" l;
  Some (Acct o s).
Fixpoint rd_all {A} (rd : cand -> option A) (l : list cand) : option (list A) :=
  match l with
  | [] => Some []
  | x :: l' =>
      match rd x, rd_all rd l' with Some a, Some r => Some (a :: r) | _, _ => None end
  end.
Definition rd_vec {A} (rd : cand -> option A) (v : cand) : option (list A) :=
  match v with XVec l => rd_all rd l | _ => None end.
(** endpoints.rs:253-265 [SubnetFilter], [SubnetSelection] *)
Definition rd_selection (v : cand) : option subnet_selection :=
  match v with
  | XVariant _ h x =>
      l ← fields_of x;
      if h =? label "Filter" then
        t ← arg_opt rd_text "subnet_type" l; Some (SubnetFilter t)
      else if h =? label "Subnet" then
        p ← arg rd_principal "subnet" l; Some (Subnet p)
      else None
  | _ => None
  end.
(** crate ic_cdk: [CanisterSettings], the controllers only *)
Definition rd_settings (v : cand) : option canister_settings :=
  l ← fields_of v;
  c ← arg_opt (rd_vec rd_principal) "controllers" l;
  if forallb (fun n => match arg_opt (fun _ => Some tt) n l with Some None => true | _ => false end)
       other_settings
  then Some (Settings c ∅) else None.
(** endpoints.rs:246-250 [CmcCreateCanisterArgs] *)
Definition rd_cmc_args (v : cand) : option cmc_args :=
  l ← fields_of v;
  s ← arg_opt rd_selection "subnet_selection" l;
  t ← arg_opt rd_settings "settings" l;
  Some (CmcArgs s t).
(** cycles-ledger.did:154 [GetBlocksArgs] *)
Definition rd_range (v : cand) : option (N * N) :=
  l ← fields_of v;
  s ← arg rd_nat "start" l;
  n ← arg rd_nat "length" l;
  Some (s, n).

(** The argument types: endpoints.rs:46-82 and 270-294; crate icrc_ledger_types for the
    ICRC calls.  [cycles] are the cycles sent with the message (main.rs:201). *)
Definition rd_request (m : method) (cycles : N) (v : cand) : option request :=
  match m with
  | MDeposit =>
      l ← fields_of v;
      to ← arg rd_account "to" l;
      memo ← arg_opt rd_blob "memo" l;
      Some (ReqCall (CallDeposit cycles to memo))
  | MTransfer =>
      l ← fields_of v;
      sub ← arg_opt rd_sub "from_subaccount" l;
      to ← arg rd_account "to" l;
      amount ← arg rd_nat "amount" l;
      fee ← arg_opt rd_nat "fee" l;
      memo ← arg_opt rd_blob "memo" l;
      created ← arg_opt rd_time "created_at_time" l;
      Some (ReqCall (CallTransfer sub to amount fee memo created))
  | MTransferFrom =>
      l ← fields_of v;
      sub ← arg_opt rd_sub "spender_subaccount" l;
      from ← arg rd_account "from" l;
      to ← arg rd_account "to" l;
      amount ← arg rd_nat "amount" l;
      fee ← arg_opt rd_nat "fee" l;
      memo ← arg_opt rd_blob "memo" l;
      created ← arg_opt rd_time "created_at_time" l;
      Some (ReqCall (CallTransferFrom sub from to amount fee memo created))
  | MApprove =>
      l ← fields_of v;
      sub ← arg_opt rd_sub "from_subaccount" l;
      spender ← arg rd_account "spender" l;
      amount ← arg rd_nat "amount" l;
      expected ← arg_opt rd_nat "expected_allowance" l;
      expires ← arg_opt rd_time "expires_at" l;
      fee ← arg_opt rd_nat "fee" l;
      memo ← arg_opt rd_blob "memo" l;
      created ← arg_opt rd_time "created_at_time" l;
      Some (ReqCall (CallApprove sub spender amount expected expires fee memo created))
  | MWithdraw =>
      l ← fields_of v;
      sub ← arg_opt rd_sub "from_subaccount" l;
      to ← arg rd_principal "to" l;
      created ← arg_opt rd_time "created_at_time" l;
      amount ← arg rd_nat "amount" l;
      Some (ReqCall (CallWithdraw sub to created amount))
  | MWithdrawFrom =>
      l ← fields_of v;
      sub ← arg_opt rd_sub "spender_subaccount" l;
      from ← arg rd_account "from" l;
      to ← arg rd_principal "to" l;
      created ← arg_opt rd_time "created_at_time" l;
      amount ← arg rd_nat "amount" l;
      Some (ReqCall (CallWithdrawFrom sub from to created amount))
  | MCreate =>
      l ← fields_of v;
      sub ← arg_opt rd_sub "from_subaccount" l;
      created ← arg_opt rd_time "created_at_time" l;
      amount ← arg rd_nat "amount" l;
      args ← arg_opt rd_cmc_args "creation_args" l;
      Some (ReqCall (CallCreateCanister sub created amount args))
  | MCreateFrom =>
      l ← fields_of v;
      from ← arg rd_account "from" l;
      sub ← arg_opt rd_sub "spender_subaccount" l;
      created ← arg_opt rd_time "created_at_time" l;
      amount ← arg rd_nat "amount" l;
      args ← arg_opt rd_cmc_args "creation_args" l;
      Some (ReqCall (CallCreateCanisterFrom from sub created amount args))
  | MBalance => a ← rd_account v; Some (ReqBalance a)
  | MAllowance =>
      l ← fields_of v;
      a ← arg rd_account "account" l;
      s ← arg rd_account "spender" l;
      Some (ReqAllowance a s)
  | MBlocks => l ← rd_vec rd_range v; Some (ReqBlocks l)
  | MAllowances =>
      l ← fields_of v;
      from ← arg_opt rd_account "from_account" l;
      prev ← arg_opt rd_account "prev_spender" l;
      take ← arg_opt rd_nat "take" l;
      Some (ReqAllowances from prev take)
  | MSupply | MFee | MTip => None
  end.
(** A message; further arguments are ignored. *)
Definition read_request (m : method) (cycles : N) (b : list byte) : option request :=
  match read_message b with
  | Some (Msg _ ((_, v) :: _)) => rd_request m cycles v
  | _ => None
  end.
