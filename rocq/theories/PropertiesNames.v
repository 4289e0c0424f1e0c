(** * Answers read by name

    C88: a client that looks up the fields of an answer by the names of the interface
    file finds there what the ledger told. *)
From Verif Require Import Base Types Codec ValueHash State Ledger Canister Effects Spec ApiSpec
  Inv Steps World CallFacts CallCases StepFacts AllowFacts AsyncFacts EventFacts AnswerSpec PropertiesLog
  PropertiesQuery PropertiesAnswers Candid CandidProofs IndexerSpec PropertiesIndexer Demo.
From Verif Require PropertiesReceipts.
From Verif Require Import Wire WireFacts WireInj PropertiesWire.
Local Open Scope string_scope.
Local Open Scope N_scope.

(** ** A client *)

(** The field of a record with a number *)
Fixpoint field (h : N) (l : list (N * cand)) : option cand :=
  match l with [] => None | (h', v) :: l' => if h =? h' then Some v else field h l' end.
(** The part of a value at a path of names, of fields and of alternatives *)
Fixpoint get (path : list string) (v : cand) : option cand :=
  match path with
  | [] => Some v
  | n :: path' =>
      match v with
      | XRecord l => match field (label n) l with Some x => get path' x | None => None end
      | XVariant _ h x => if label n =? h then get path' x else None
      | _ => None
      end
  end.
(** The value in a message *)
Definition content (b : list byte) : option cand :=
  match read_message b with Some (Msg _ [(_, v)]) => Some v | _ => None end.

(** What a leaf says; a missing optional value says nothing. *)
Definition say_nat (v : cand) : option N :=
  match v with XNat n | XOpt (Some (XNat n)) => Some n | _ => None end.
Definition say_time (v : cand) : option N :=
  match v with XWord 8 n | XOpt (Some (XWord 8 n)) => Some n | _ => None end.
Definition say_principal (v : cand) : option principal :=
  match v with XPrincipal p | XOpt (Some (XPrincipal p)) => Some p | _ => None end.
Definition say_text (v : cand) : option (list byte) :=
  match v with XText t => Some t | _ => None end.
Definition say_blob (v : cand) : option (list byte) :=
  match v with XBlob t | XOpt (Some (XBlob t)) => Some t | _ => None end.
(** What is said at the first of some paths where something is said *)
Fixpoint first {A} (say : cand -> option A) (paths : list (list string)) (v : cand) : option A :=
  match paths with
  | [] => None
  | p :: paths' =>
      match match get p v with Some x => say x | None => None end with
      | Some a => Some a
      | None => first say paths' v
      end
  end.
Definition ask {A} (say : cand -> option A) (paths : list (list string)) (b : list byte) : option A :=
  match content b with Some v => first say paths v | None => None end.
Definition has (path : list string) (b : list byte) : bool :=
  match content b with Some v => match get path v with Some _ => true | None => false end | None => false end.

(** Where a client looks: names of [/repo/cycles-ledger/cycles-ledger.did] *)
Definition at_block : list (list string) :=
  [ ["block_index"]; ["Ok"]; ["Ok"; "block_id"]; ["Err"; "FailedToWithdrawFrom"; "withdraw_from_block"];
    ["Err"; "FailedToCreate"; "fee_block"]; ["Err"; "FailedToCreateFrom"; "create_from_block"] ].
Definition at_refund : list (list string) :=
  [ ["Err"; "FailedToWithdraw"; "fee_block"]; ["Err"; "FailedToWithdrawFrom"; "refund_block"];
    ["Err"; "FailedToCreate"; "refund_block"]; ["Err"; "FailedToCreateFrom"; "refund_block"] ].
Definition at_approval : list (list string) :=
  [ ["Err"; "FailedToWithdrawFrom"; "approval_refund_block"];
    ["Err"; "FailedToCreateFrom"; "approval_refund_block"] ].
Definition at_duplicate : list (list string) := [ ["Err"; "Duplicate"; "duplicate_of"] ].
Definition at_canister : list (list string) := [ ["Ok"; "canister_id"] ].
Definition at_old_canister : list (list string) := [ ["Err"; "Duplicate"; "canister_id"] ].
Definition at_balance : list (list string) := [ ["balance"]; ["Err"; "InsufficientFunds"; "balance"] ].
Definition at_allowance : list (list string) :=
  [ ["Err"; "InsufficientAllowance"; "allowance"]; ["Err"; "AllowanceChanged"; "current_allowance"] ].
Definition at_fee : list (list string) := [ ["Err"; "BadFee"; "expected_fee"] ].
Definition at_time : list (list string) :=
  [ ["Err"; "CreatedInFuture"; "ledger_time"]; ["Err"; "Expired"; "ledger_time"] ].
Definition at_receiver : list (list string) := [ ["Err"; "InvalidReceiver"; "receiver"] ].
Definition at_code : list (list string) := [ ["Err"; "GenericError"; "error_code"] ].
Definition at_text : list (list string) :=
  [ ["Err"; "GenericError"; "message"]; ["Err"; "FailedToWithdraw"; "rejection_reason"];
    ["Err"; "FailedToWithdrawFrom"; "rejection_reason"]; ["Err"; "FailedToCreate"; "error"];
    ["Err"; "FailedToCreateFrom"; "rejection_reason"] ].
Definition error_names : list string :=
  [ "BadFee"; "BadBurn"; "InsufficientFunds"; "InsufficientAllowance"; "AllowanceChanged"; "Expired"; "TooOld";
    "CreatedInFuture"; "Duplicate"; "TemporarilyUnavailable"; "GenericError"; "InvalidReceiver";
    "FailedToWithdraw"; "FailedToWithdrawFrom"; "FailedToCreate"; "FailedToCreateFrom" ].
Definition failures : list string :=
  [ "FailedToWithdraw"; "FailedToWithdrawFrom"; "FailedToCreateFrom" ].
Definition rejection_names : list string :=
  [ "NoError"; "CanisterError"; "SysTransient"; "DestinationInvalid"; "Unknown"; "SysFatal"; "CanisterReject" ].

(** A vector, element by element *)
Fixpoint all_of {A} (l : list (option A)) : option (list A) :=
  match l with
  | [] => Some []
  | Some x :: l' => match all_of l' with Some xs => Some (x :: xs) | None => None end
  | None :: _ => None
  end.
Definition say_all {A} (say : cand -> option A) (v : cand) : option (list A) :=
  match v with XVec l => all_of (map say l) | _ => None end.
(** A generic value, by the names of its alternatives *)
Fixpoint say_value (v : cand) : option value :=
  match v with
  | XVariant _ h (XWord 8 n) => if h =? label "Nat64" then Some (VNat64 n) else None
  | XVariant _ h (XNat n) => if h =? label "Nat" then Some (VNat n) else None
  | XVariant _ h (XInt z) => if h =? label "Int" then Some (VInt z) else None
  | XVariant _ h (XBlob b) => if h =? label "Blob" then Some (VBlob b) else None
  | XVariant _ h (XText b) => if h =? label "Text" then Some (VText (string_of_list_byte b)) else None
  | XVariant _ h (XVec l) =>
      if h =? label "Array" then
        match (fix go (l : list cand) : option (list value) :=
                 match l with
                 | [] => Some []
                 | x :: l' =>
                     match say_value x, go l' with Some a, Some xs => Some (a :: xs) | _, _ => None end
                 end) l with
        | Some xs => Some (VArray xs)
        | None => None
        end
      else if h =? label "Map" then
        match (fix go (l : list cand) : option (list (string * value)) :=
                 match l with
                 | [] => Some []
                 | XRecord [(0, XText k); (1, x)] :: l' =>
                     match say_value x, go l' with
                     | Some a, Some xs => Some ((string_of_list_byte k, a) :: xs)
                     | _, _ => None
                     end
                 | _ => None
                 end) l with
        | Some xs => Some (VMap xs)
        | None => None
        end
      else None
  | _ => None
  end.
Definition say_block (v : cand) : option (N * value) :=
  match first say_nat [["id"]] v, first say_value [["block"]] v with
  | Some i, Some b => Some (i, b)
  | _, _ => None
  end.
(** An entry of the list of allowances: owner and subaccount of the account, owner and
    subaccount of the spender, allowance, expiry *)
Definition say_allowance (v : cand)
  : option principal * option (list byte) * (option principal * option (list byte)) * option N * option N :=
  (first say_principal [["from_account"; "owner"]] v, first say_blob [["from_account"; "subaccount"]] v,
   (first say_principal [["to_spender"; "owner"]] v, first say_blob [["to_spender"; "subaccount"]] v),
   first say_nat [["allowance"]] v, first say_time [["expires_at"]] v).

(** ** What the ledger told *)
Definition told_error (r : reply) : option string :=
  match r with
  | RepTransfer (Err e) => Some match e with
      | TBadFee _ => "BadFee" | TBadBurn _ => "BadBurn" | TInsufficientFunds _ => "InsufficientFunds"
      | TTooOld => "TooOld" | TCreatedInFuture _ => "CreatedInFuture" | TDuplicate _ => "Duplicate"
      | TTemporarilyUnavailable => "TemporarilyUnavailable" | TGenericError _ => "GenericError" end
  | RepTransferFrom (Err e) => Some match e with
      | TFBadFee _ => "BadFee" | TFBadBurn _ => "BadBurn" | TFInsufficientFunds _ => "InsufficientFunds"
      | TFInsufficientAllowance _ => "InsufficientAllowance"
      | TFTooOld => "TooOld" | TFCreatedInFuture _ => "CreatedInFuture" | TFDuplicate _ => "Duplicate"
      | TFTemporarilyUnavailable => "TemporarilyUnavailable" | TFGenericError _ => "GenericError" end
  | RepApprove (Err e) => Some match e with
      | ABadFee _ => "BadFee" | AInsufficientFunds _ => "InsufficientFunds"
      | AAllowanceChanged _ => "AllowanceChanged" | AExpired _ => "Expired"
      | ATooOld => "TooOld" | ACreatedInFuture _ => "CreatedInFuture" | ADuplicate _ => "Duplicate"
      | ATemporarilyUnavailable => "TemporarilyUnavailable" | AGenericError _ => "GenericError" end
  | RepWithdraw (Err e) => Some match e with
      | WBadFee _ => "BadFee" | WInsufficientFunds _ => "InsufficientFunds"
      | WTooOld => "TooOld" | WCreatedInFuture _ => "CreatedInFuture" | WDuplicate _ => "Duplicate"
      | WTemporarilyUnavailable => "TemporarilyUnavailable" | WFailedToWithdraw _ _ => "FailedToWithdraw"
      | WGenericError _ => "GenericError" | WInvalidReceiver _ => "InvalidReceiver" end
  | RepWithdrawFrom (Err e) => Some match e with
      | WFInsufficientFunds _ => "InsufficientFunds" | WFInsufficientAllowance _ => "InsufficientAllowance"
      | WFTooOld => "TooOld" | WFCreatedInFuture _ => "CreatedInFuture" | WFDuplicate _ => "Duplicate"
      | WFTemporarilyUnavailable => "TemporarilyUnavailable"
      | WFFailedToWithdrawFrom _ _ _ _ => "FailedToWithdrawFrom"
      | WFGenericError _ => "GenericError" | WFInvalidReceiver _ => "InvalidReceiver" end
  | RepCreate (Err e) => Some match e with
      | CInsufficientFunds _ => "InsufficientFunds"
      | CTooOld => "TooOld" | CCreatedInFuture _ => "CreatedInFuture" | CDuplicate _ _ => "Duplicate"
      | CTemporarilyUnavailable => "TemporarilyUnavailable" | CFailedToCreate _ _ => "FailedToCreate"
      | CGenericError _ => "GenericError" end
  | RepCreateFrom (Err e) => Some match e with
      | CFInsufficientFunds _ => "InsufficientFunds" | CFInsufficientAllowance _ => "InsufficientAllowance"
      | CFTooOld => "TooOld" | CFCreatedInFuture _ => "CreatedInFuture" | CFDuplicate _ _ => "Duplicate"
      | CFTemporarilyUnavailable => "TemporarilyUnavailable"
      | CFFailedToCreateFrom _ _ _ _ => "FailedToCreateFrom" | CFGenericError _ => "GenericError" end
  | _ => None
  end.
Definition told_balance (r : reply) : option N :=
  match r with
  | RepDeposit _ b => Some b
  | RepTransfer (Err (TInsufficientFunds n)) | RepTransferFrom (Err (TFInsufficientFunds n))
  | RepApprove (Err (AInsufficientFunds n)) | RepWithdraw (Err (WInsufficientFunds n))
  | RepWithdrawFrom (Err (WFInsufficientFunds n)) | RepCreate (Err (CInsufficientFunds n))
  | RepCreateFrom (Err (CFInsufficientFunds n)) => Some n
  | _ => None
  end.
Definition told_allowance (r : reply) : option N :=
  match r with
  | RepTransferFrom (Err (TFInsufficientAllowance n)) | RepApprove (Err (AAllowanceChanged n))
  | RepWithdrawFrom (Err (WFInsufficientAllowance n)) | RepCreateFrom (Err (CFInsufficientAllowance n)) => Some n
  | _ => None
  end.
Definition told_fee (r : reply) : option N :=
  match r with
  | RepTransfer (Err (TBadFee n)) | RepTransferFrom (Err (TFBadFee n)) | RepApprove (Err (ABadFee n))
  | RepWithdraw (Err (WBadFee n)) => Some n
  | _ => None
  end.
Definition told_time (r : reply) : option N :=
  match r with
  | RepTransfer (Err (TCreatedInFuture n)) | RepTransferFrom (Err (TFCreatedInFuture n))
  | RepApprove (Err (ACreatedInFuture n)) | RepApprove (Err (AExpired n)) | RepWithdraw (Err (WCreatedInFuture n))
  | RepWithdrawFrom (Err (WFCreatedInFuture n)) | RepCreate (Err (CCreatedInFuture n))
  | RepCreateFrom (Err (CFCreatedInFuture n)) => Some n
  | _ => None
  end.
Definition told_code (r : reply) : option N :=
  match r with
  | RepTransfer (Err (TGenericError n)) | RepTransferFrom (Err (TFGenericError n))
  | RepApprove (Err (AGenericError n)) | RepWithdraw (Err (WGenericError n))
  | RepWithdrawFrom (Err (WFGenericError n)) | RepCreate (Err (CGenericError n))
  | RepCreateFrom (Err (CFGenericError n)) => Some n
  | _ => None
  end.
Definition told_receiver (r : reply) : option principal :=
  match r with
  | RepWithdraw (Err (WInvalidReceiver p)) | RepWithdrawFrom (Err (WFInvalidReceiver p)) => Some p
  | _ => None
  end.
Definition told_canister (r : reply) : option principal :=
  match r with RepCreate (Ok (_, p)) | RepCreateFrom (Ok (_, p)) => Some p | _ => None end.
Definition told_rejection (r : reply) : option (string * rejection_code) :=
  match r with
  | RepWithdraw (Err (WFailedToWithdraw _ c)) => Some ("FailedToWithdraw", c)
  | RepWithdrawFrom (Err (WFFailedToWithdrawFrom _ _ _ c)) => Some ("FailedToWithdrawFrom", c)
  | RepCreateFrom (Err (CFFailedToCreateFrom _ _ _ c)) => Some ("FailedToCreateFrom", c)
  | _ => None
  end.
(** Does it carry a text? *)
Definition with_text (r : reply) : bool :=
  match told_error r with
  | Some e => bool_decide (e ∈ ["GenericError"; "FailedToWithdraw"; "FailedToWithdrawFrom"; "FailedToCreate";
                               "FailedToCreateFrom"])
  | None => false
  end.
Definition code_name (c : rejection_code) : string :=
  match c with
  | RNoError => "NoError" | RCanisterError => "CanisterError" | RSysTransient => "SysTransient"
  | RDestinationInvalid => "DestinationInvalid" | RUnknown => "Unknown" | RSysFatal => "SysFatal"
  | RCanisterReject => "CanisterReject"
  end.

(** ** Proof *)
Section WithEnv.
Context `{Env}.

Lemma content_answer w m a : reachable w -> can_answer w m a -> content (answer_bytes m a) = Some (answer_v a).
Proof. intros Hr Ha. unfold content. by rewrite (C86_answers_can_be_read _ _ _ Hr Ha). Qed.

Definition reads_numbers (v : cand) (r : reply) : Prop :=
  first say_nat at_block v = PropertiesReceipts.own_block (RespReply r)
  /\ first say_nat at_refund v = PropertiesReceipts.refund_block (RespReply r)
  /\ first say_nat at_approval v = PropertiesReceipts.approval_block (RespReply r)
  /\ first say_nat at_duplicate v = ApiSpec.duplicate_of (RespReply r)
  /\ first say_nat at_balance v = told_balance r
  /\ first say_nat at_allowance v = told_allowance r
  /\ first say_nat at_fee v = told_fee r
  /\ first say_nat at_code v = told_code r
  /\ first say_time at_time v = told_time r
  /\ first say_principal at_canister v = told_canister r
  /\ first say_principal at_old_canister v = ApiSpec.duplicate_canister (RespReply r)
  /\ first say_principal at_receiver v = told_receiver r.
Definition present (v : cand) (p : list string) : bool := match get p v with Some _ => true | None => false end.

(** The same with the numbers of the names worked out beforehand *)
Fixpoint geth (path : list N) (v : cand) : option cand :=
  match path with
  | [] => Some v
  | n :: path' =>
      match v with
      | XRecord l => match field n l with Some x => geth path' x | None => None end
      | XVariant _ h x => if n =? h then geth path' x else None
      | _ => None
      end
  end.
Fixpoint firsth {A} (say : cand -> option A) (paths : list (list N)) (v : cand) : option A :=
  match paths with
  | [] => None
  | p :: paths' =>
      match match geth p v with Some x => say x | None => None end with
      | Some a => Some a
      | None => firsth say paths' v
      end
  end.
Lemma get_geth p v : get p v = geth (map label p) v.
Proof.
  revert v. induction p as [|n p IH]; intros v; cbn [get geth map]; [done|]. destruct v; try done.
  - destruct (field (label n) l); [apply IH|done].
  - destruct (label n =? h); [apply IH|done].
Qed.
Lemma first_firsth {A} (say : cand -> option A) ps v : first say ps v = firsth say (map (map label) ps) v.
Proof. induction ps as [|p ps IH]; cbn [first firsth map]; [done|]. by rewrite get_geth, IH. Qed.
Definition h_block := Eval vm_compute in map (map label) at_block.
Definition h_refund := Eval vm_compute in map (map label) at_refund.
Definition h_approval := Eval vm_compute in map (map label) at_approval.
Definition h_duplicate := Eval vm_compute in map (map label) at_duplicate.
Definition h_balance := Eval vm_compute in map (map label) at_balance.
Definition h_allowance := Eval vm_compute in map (map label) at_allowance.
Definition h_fee := Eval vm_compute in map (map label) at_fee.
Definition h_code := Eval vm_compute in map (map label) at_code.
Definition h_time := Eval vm_compute in map (map label) at_time.
Definition h_canister := Eval vm_compute in map (map label) at_canister.
Definition h_old_canister := Eval vm_compute in map (map label) at_old_canister.
Definition h_receiver := Eval vm_compute in map (map label) at_receiver.
Definition h_text := Eval vm_compute in map (map label) at_text.
Lemma hh_block : map (map label) at_block = h_block. Proof. vm_compute. reflexivity. Qed.
Lemma hh_refund : map (map label) at_refund = h_refund. Proof. vm_compute. reflexivity. Qed.
Lemma hh_approval : map (map label) at_approval = h_approval. Proof. vm_compute. reflexivity. Qed.
Lemma hh_duplicate : map (map label) at_duplicate = h_duplicate. Proof. vm_compute. reflexivity. Qed.
Lemma hh_balance : map (map label) at_balance = h_balance. Proof. vm_compute. reflexivity. Qed.
Lemma hh_allowance : map (map label) at_allowance = h_allowance. Proof. vm_compute. reflexivity. Qed.
Lemma hh_fee : map (map label) at_fee = h_fee. Proof. vm_compute. reflexivity. Qed.
Lemma hh_code : map (map label) at_code = h_code. Proof. vm_compute. reflexivity. Qed.
Lemma hh_time : map (map label) at_time = h_time. Proof. vm_compute. reflexivity. Qed.
Lemma hh_canister : map (map label) at_canister = h_canister. Proof. vm_compute. reflexivity. Qed.
Lemma hh_old_canister : map (map label) at_old_canister = h_old_canister. Proof. vm_compute. reflexivity. Qed.
Lemma hh_receiver : map (map label) at_receiver = h_receiver. Proof. vm_compute. reflexivity. Qed.
Lemma hh_text : map (map label) at_text = h_text. Proof. vm_compute. reflexivity. Qed.
Definition h_errors := Eval vm_compute in map (fun k => map label ["Err"; k]) error_names.
Lemma hh_errors : map (fun k => map label ["Err"; k]) error_names = h_errors.
Proof. vm_compute. reflexivity. Qed.

Local Ltac calc_value :=
  match goal with |- context [reply_v ?txt ?r] =>
    lazymatch r with
    | context [WFailedToWithdraw] => fail
    | context [WFFailedToWithdrawFrom] => fail
    | context [CFFailedToCreateFrom] => fail
    | _ => let v := eval vm_compute in (reply_v txt r) in
           replace (reply_v txt r) with v by (vm_compute; reflexivity)
    end
  end.
Lemma reads_reply txt r : reads_numbers (reply_v txt r) r.
Proof.
  unfold reads_numbers. rewrite !first_firsth, hh_block, hh_refund, hh_approval, hh_duplicate, hh_balance, hh_allowance, hh_fee, hh_code, hh_time, hh_canister, hh_old_canister, hh_receiver.
  destruct r as [i b|[n|e]|[n|e]|[n|e]|[n|e]|[n|e]|[[n p]|e]|[[n p]|e]]; try destruct e.
  all: try calc_value.
  all: try (repeat split; vm_compute; try reflexivity; repeat match goal with o : option _ |- _ => destruct o end; reflexivity).
  all: cbn [reply_v res_v withdraw_error_v withdraw_from_error_v create_from_error_v].
  all: match goal with |- context [rejection_v ?c] => generalize (rejection_v c); intros rv end.
  all: match goal with |- context [alt_of ["Ok"; "Err"] "Err" ?x] =>
    let v := eval vm_compute in (alt_of ["Ok"; "Err"] "Err" x) in
    replace (alt_of ["Ok"; "Err"] "Err" x) with v by (vm_compute; reflexivity) end.
  all: repeat split; vm_compute; try reflexivity; repeat match goal with o : option _ |- _ => destruct o end; reflexivity.
Qed.
Lemma reads_error txt r :
  map (fun k => present (reply_v txt r) ["Err"; k]) error_names
  = map (fun k => bool_decide (told_error r = Some k)) error_names.
Proof.
  assert (forall v, map (fun k => present v ["Err"; k]) error_names
    = map (fun p => match geth p v with Some _ => true | None => false end) h_errors) as Hv.
  { intros v. rewrite <- hh_errors, map_map. apply map_ext. intros k. unfold present. by rewrite get_geth. }
  rewrite Hv. clear Hv.
  destruct r as [i b|[n|e]|[n|e]|[n|e]|[n|e]|[n|e]|[[n p]|e]|[[n p]|e]]; try destruct e.
  all: try calc_value.
  all: try (vm_compute; reflexivity).
  all: cbn [reply_v res_v withdraw_error_v withdraw_from_error_v create_from_error_v].
  all: match goal with |- context [rejection_v ?c] => generalize (rejection_v c); intros rv end.
  all: match goal with |- context [alt_of ["Ok"; "Err"] "Err" ?x] =>
    let v := eval vm_compute in (alt_of ["Ok"; "Err"] "Err" x) in
    replace (alt_of ["Ok"; "Err"] "Err" x) with v by (vm_compute; reflexivity) end.
  all: vm_compute; reflexivity.
Qed.
Lemma reads_text txt r : first say_text at_text (reply_v txt r) = if with_text r then Some txt else None.
Proof.
  rewrite first_firsth, hh_text.
  destruct r as [i b|[n|e]|[n|e]|[n|e]|[n|e]|[n|e]|[[n p]|e]|[[n p]|e]]; try destruct e.
  all: try calc_value.
  all: try (vm_compute; reflexivity).
  all: cbn [reply_v res_v withdraw_error_v withdraw_from_error_v create_from_error_v].
  all: match goal with |- context [rejection_v ?c] => generalize (rejection_v c); intros rv end.
  all: match goal with |- context [alt_of ["Ok"; "Err"] "Err" ?x] =>
    let v := eval vm_compute in (alt_of ["Ok"; "Err"] "Err" x) in
    replace (alt_of ["Ok"; "Err"] "Err" x) with v by (vm_compute; reflexivity) end.
  all: vm_compute; reflexivity.
Qed.
Lemma reads_rejection txt r f c :
  told_rejection r = Some (f, c) ->
  map (fun k => present (reply_v txt r) ["Err"; f; "rejection_code"; k]) rejection_names
  = map (fun k => bool_decide (k = code_name c)) rejection_names.
Proof.
  intros Hr. destruct r as [i b|[n|e]|[n|e]|[n|e]|[n|e]|[n|e]|[[n p]|e]|[[n p]|e]]; try destruct e; try done;
    cbn [told_rejection] in Hr; injection Hr as <- <-;
    match goal with c : rejection_code |- _ => destruct c end; vm_compute; reflexivity.
Qed.

Lemma nat_map_differ : label "Map" =? label "Array" = false. Proof. vm_compute. reflexivity. Qed.
Lemma tuple_labels x y : rec_of [("0", x); ("1", y)] = XRecord [(0, x); (1, y)].
Proof. reflexivity. Qed.
Lemma text_back t : string_of_list_byte (str_bytes t) = t.
Proof. apply string_of_list_byte_of_string. Qed.
Lemma say_value_back v : say_value (value_v v) = Some v.
Proof.
  induction v as [n|n|z|b|t|l IH|m IH] using value_induction; cbn [value_v]; unfold value_alt, alt_of; cbn [say_value].
  1-5: rewrite N.eqb_refl; rewrite ?text_back; reflexivity.
  - rewrite N.eqb_refl. induction IH as [|v l Hv _ IHl]; [done|]. cbn [map]. rewrite Hv.
    destruct ((fix go (l : list cand) : option (list value) := _) (map value_v l)); [|done].
    by injection IHl as ->.
  - rewrite nat_map_differ, N.eqb_refl. induction IH as [|[k v] m Hv _ IHm]; [done|]. cbn [map fst snd] in *.
    rewrite tuple_labels, Hv.
    destruct ((fix go (l : list cand) : option (list (string * value)) := _) (map _ m)); [|done].
    injection IHm as ->. by rewrite text_back.
Qed.
Lemma all_of_map {A B} (f : A -> option B) (g : A -> B) l :
  (forall x, x ∈ l -> f x = Some (g x)) -> all_of (map f l) = Some (map g l).
Proof.
  induction l as [|x l IH]; intros Hf; [done|]. cbn [map all_of]. rewrite Hf by left.
  rewrite IH; [done|]. intros y Hy. apply Hf. by right.
Qed.
Lemma say_block_back i v : say_block (rec_of [("id", XNat i); ("block", value_v v)]) = Some (i, v).
Proof.
  unfold say_block. rewrite !first_firsth.
  assert (firsth say_nat (map (map label) [["id"]]) (rec_of [("id", XNat i); ("block", value_v v)]) = Some i) as ->.
  { generalize (value_v v). intros x. vm_compute. reflexivity. }
  assert (geth (map label ["block"]) (rec_of [("id", XNat i); ("block", value_v v)]) = Some (value_v v)) as E.
  { generalize (value_v v). intros x. vm_compute. reflexivity. }
  cbn [map firsth]. change (map label ["block"]) with [label "block"] in E. rewrite E, say_value_back. reflexivity.
Qed.
Lemma say_allowance_back e :
  say_allowance (allowance_entry_v e)
  = (Some (owner (ae_from e)), sub_bytes <$> subacct (ae_from e),
     (Some (owner (ae_spender e)), sub_bytes <$> subacct (ae_spender e)),
     Some (ae_amount e), ae_expires e).
Proof.
  destruct e as [[o1 s1] [o2 s2] n x]. unfold say_allowance. rewrite !first_firsth.
  unfold allowance_entry_v, account_v. cbn [ae_from ae_spender ae_amount ae_expires owner subacct].
  assert (forall s : option N, XBlob ∘ sub_bytes <$> s = XBlob <$> (sub_bytes <$> s)) as Hs by (by intros []).
  rewrite !Hs. generalize (sub_bytes <$> s1), (sub_bytes <$> s2). intros b1 b2.
  destruct b1, b2, x; vm_compute; reflexivity.
Qed.

Lemma error_listed r e : told_error r = Some e -> e ∈ error_names.
Proof.
  destruct r as [i b|[n|x]|[n|x]|[n|x]|[n|x]|[n|x]|[[n p]|x]|[[n p]|x]]; cbn [told_error]; try discriminate;
    intros Hte; injection Hte as <-; destruct x; apply (bool_decide_eq_true_1 _); vm_compute; reflexivity.
Qed.

(** ** Theorems *)

(** What a client finds in the answer to an update call, by the names of the interface
    file: the block of the transaction, of the refund and of the approval given back;
    the block and the canister of the earlier transaction; the balance, allowance and fee;
    the time; the code; the canister; the receiver; and the text. *)
Theorem C88_answers_say_by_name w ev r txt m :
  reachable w -> ev_ok w ev -> (step w ev).2 = RespReply r -> Wire.answers m (AnsReply r txt) ->
  let b := answer_bytes m (AnsReply r txt) in
  ask say_nat at_block b = PropertiesReceipts.own_block (RespReply r)
  /\ ask say_nat at_refund b = PropertiesReceipts.refund_block (RespReply r)
  /\ ask say_nat at_approval b = PropertiesReceipts.approval_block (RespReply r)
  /\ ask say_nat at_duplicate b = ApiSpec.duplicate_of (RespReply r)
  /\ ask say_principal at_old_canister b = ApiSpec.duplicate_canister (RespReply r)
  /\ ask say_nat at_balance b = told_balance r
  /\ ask say_nat at_allowance b = told_allowance r
  /\ ask say_nat at_fee b = told_fee r
  /\ ask say_nat at_code b = told_code r
  /\ ask say_time at_time b = told_time r
  /\ ask say_principal at_canister b = told_canister r
  /\ ask say_principal at_receiver b = told_receiver r
  /\ ask say_text at_text b = if with_text r then Some txt else None.
Proof.
  intros Hr Hev He Hm. assert (can_answer w m (AnsReply r txt)) as Ha by (by eapply ans_update).
  cbv zeta. unfold ask. rewrite (content_answer _ _ _ Hr Ha). cbn [answer_v].
  destruct (reads_reply txt r) as (H1 & H2 & H3 & H4 & H5 & H6 & H7 & H8 & H9 & H10 & H11 & H12).
  pose proof (reads_text txt r). done.
Qed.

(** Exactly the error that the ledger gave is there, and exactly the code of the
    rejection. *)
Theorem C88_errors_say_by_name w ev r txt m :
  reachable w -> ev_ok w ev -> (step w ev).2 = RespReply r -> Wire.answers m (AnsReply r txt) ->
  let b := answer_bytes m (AnsReply r txt) in
  (forall e, e ∈ error_names -> has ["Err"; e] b = bool_decide (told_error r = Some e))
  /\ (forall f c k, told_rejection r = Some (f, c) -> k ∈ rejection_names ->
        has ["Err"; f; "rejection_code"; k] b = bool_decide (k = code_name c))
  /\ (forall e, told_error r = Some e -> e ∈ error_names).
Proof.
  intros Hr Hev He Hm. assert (can_answer w m (AnsReply r txt)) as Ha by (by eapply ans_update).
  assert (forall (f g : string -> bool) l, map f l = map g l -> forall x, x ∈ l -> f x = g x) as Hmap.
  { intros f g l. induction l as [|y l IH]; intros E x Hx; [by apply elem_of_nil in Hx|].
    cbn [map] in E. injection E as E1 E2. apply elem_of_cons in Hx as [->|Hx]; [done|auto]. }
  cbv zeta. unfold has. rewrite (content_answer _ _ _ Hr Ha). cbn [answer_v]. split; [|split].
  - exact (Hmap _ _ _ (reads_error txt r)).
  - intros f c k Hf. exact (Hmap _ _ _ (reads_rejection txt r f c Hf) k).
  - intros e. apply error_listed.
Qed.

(** The queries *)
Theorem C88_queries_say_by_name w :
  reachable w ->
  (forall a, ask say_nat [[]] (answer_bytes MBalance (AnsNat (icrc1_balance_of (w_led w) a)))
     = Some (icrc1_balance_of (w_led w) a))
  /\ ask say_nat [[]] (answer_bytes MSupply (AnsNat (icrc1_total_supply (w_led w)))) = Some (icrc1_total_supply (w_led w))
  /\ ask say_nat [[]] (answer_bytes MFee (AnsNat icrc1_fee)) = Some icrc1_fee
  /\ (forall now from sp, let x := icrc2_allowance (w_led w) now from sp in
        let b := answer_bytes MAllowance (AnsAllowance x) in
        ask say_nat [["allowance"]] b = Some x.1 /\ ask say_time [["expires_at"]] b = x.2)
  /\ (forall args, let x := icrc3_get_blocks (w_led w) args in
        let b := answer_bytes MBlocks (AnsBlocks x) in
        ask say_nat [["log_length"]] b = Some (br_log_length x)
        /\ ask (say_all say_block) [["blocks"]] b = Some (br_blocks x)
        /\ ask (say_all (fun _ => None (A := unit))) [["archived_blocks"]] b = Some [])
  /\ (forall now caller from prev take, let x := icrc103_get_allowances (w_led w) now caller from prev take in
        ask (say_all (fun v => Some (say_allowance v))) [["Ok"]] (answer_bytes MAllowances (AnsAllowances x))
        = Some (map (fun e =>
             (Some (owner (ae_from e)), sub_bytes <$> subacct (ae_from e),
              (Some (owner (ae_spender e)), sub_bytes <$> subacct (ae_spender e)),
              Some (ae_amount e), ae_expires e)) x)).
Proof.
  intros Hr. unfold ask. split; [intros a; by rewrite (content_answer _ _ _ Hr (ans_balance _ _))|].
  split; [by rewrite (content_answer _ _ _ Hr (ans_supply _))|].
  split; [by rewrite (content_answer _ _ _ Hr (ans_fee _))|]. split; [|split].
  - intros now from sp. cbv zeta. rewrite (content_answer _ _ _ Hr (ans_allowance _ now from sp)). cbn [answer_v].
    destruct (icrc2_allowance (w_led w) now from sp) as [n x]. cbn [fst snd]. rewrite !first_firsth.
    destruct x; split; vm_compute; reflexivity.
  - intros args. cbv zeta. rewrite (content_answer _ _ _ Hr (ans_blocks _ args)). cbn [answer_v].
    destruct (icrc3_get_blocks (w_led w) args) as [n l]. unfold blocks_v. cbn [br_log_length br_blocks].
    rewrite !first_firsth. set (vs := map _ l). 
    assert (say_all say_block (XVec vs) = Some l) as Hv.
    { cbn [say_all]. subst vs. rewrite map_map. rewrite (all_of_map _ id).
      - by rewrite map_id.
      - intros [i v] _. apply say_block_back. }
    clearbody vs. split; [vm_compute; reflexivity|]. split; [|vm_compute; reflexivity].
    assert (geth (map label ["blocks"]) (rec_of [("log_length", XNat n); ("blocks", XVec vs); ("archived_blocks", XVec [])])
      = Some (XVec vs)) as E by (vm_compute; reflexivity).
    cbn [map firsth]. change (map label ["blocks"]) with [label "blocks"] in E. rewrite E, Hv. reflexivity.
  - intros now caller from prev take. cbv zeta. rewrite (content_answer _ _ _ Hr (ans_allowances _ now caller from prev take)).
    cbn [answer_v]. generalize (icrc103_get_allowances (w_led w) now caller from prev take). intros l.
    assert (forall v, first (say_all (fun v => Some (say_allowance v))) [["Ok"]] (alt_of ["Ok"; "Err"] "Ok" v)
      = say_all (fun v => Some (say_allowance v)) v) as ->.
    { intros v. cbn [first get]. unfold alt_of. cbn [get]. rewrite N.eqb_refl. by destruct (say_all _ v). }
    cbn [say_all]. rewrite map_map. rewrite (all_of_map _ (fun e => say_allowance (allowance_entry_v e))); [|done].
    f_equal. apply map_ext. intros e. apply say_allowance_back.
Qed.
(** The certificate and the hash tree of the tip *)
Theorem C88_tip_says_by_name w c t :
  reachable w ->
  content (answer_bytes MTip (AnsTip None)) = Some (XOpt None)
  /\ exists v, content (answer_bytes MTip (AnsTip (Some (c, t)))) = Some (XOpt (Some v))
       /\ get ["certificate"] v = Some (XBlob c) /\ get ["hash_tree"] v = Some (XBlob t).
Proof.
  intros Hr. rewrite !(content_answer _ _ _ Hr (ans_tip _ _)). split; [done|]. eexists. split; [reflexivity|].
  rewrite !get_geth. split; vm_compute; reflexivity.
Qed.
End WithEnv.

(** ** A case: the running example *)
Example C88_case :
  reachable demo_world
  /\ (let b := answer_bytes MTransfer early_answer in
      ask say_time at_time b = Some (T0 + 20 * sec) /\ has ["Err"; "CreatedInFuture"] b = true
      /\ has ["Err"; "TooOld"] b = false /\ ask say_nat at_block b = None)
  /\ option_map (@length _) (ask (say_all say_block) [["blocks"]]
       (answer_bytes MBlocks (AnsBlocks (icrc3_get_blocks (w_led demo_world) [(2, 3)])))) = Some 3%nat
  /\ map (fun e => e.1.2) (default [] (ask (say_all (fun v => Some (say_allowance v))) [["Ok"]]
       (answer_bytes MAllowances (AnsAllowances
          (icrc103_get_allowances (w_led demo_world) (T0 + 20 * sec) alice None None None)))))
     = [Some (icrc2_allowance (w_led demo_world) (T0 + 20 * sec) (acct alice) (acct bob)).1].
Proof.
  split; [apply demo_reachable|]. split; [cbv zeta; repeat split; vm_compute; reflexivity|].
  split; vm_compute; reflexivity.
Qed.

Print Assumptions C88_answers_say_by_name.
Print Assumptions C88_errors_say_by_name.
Print Assumptions C88_queries_say_by_name.
Print Assumptions C88_tip_says_by_name.
