(** * Answers are well typed, and different answers have different bytes *)
From Verif Require Import Base Types Codec CodecFacts CodecProofs ValueHash State Ledger Canister Candid
  CandidProofs Wire.
Local Open Scope string_scope.
Local Open Scope N_scope.

(** ** Which numbers are written as 64-bit words *)
Definition reply_times (r : reply) : list N :=
  match r with
  | RepTransfer (Err (TCreatedInFuture t)) | RepTransferFrom (Err (TFCreatedInFuture t))
  | RepApprove (Err (AExpired t)) | RepApprove (Err (ACreatedInFuture t))
  | RepWithdraw (Err (WCreatedInFuture t)) | RepWithdrawFrom (Err (WFCreatedInFuture t))
  | RepCreate (Err (CCreatedInFuture t)) | RepCreateFrom (Err (CFCreatedInFuture t)) => [t]
  | _ => []
  end.
Fixpoint value_words (v : value) : Prop :=
  match v with
  | VNat64 n => is_u64 n
  | VArray l => (fix go (l : list value) : Prop := match l with [] => True | x :: l' => value_words x /\ go l' end) l
  | VMap m => (fix go (m : list (string * value)) : Prop :=
                 match m with [] => True | kv :: m' => value_words kv.2 /\ go m' end) m
  | _ => True
  end.
Fixpoint value_depth (v : value) : nat :=
  match v with
  | VArray l => S (fold_right Nat.max O (map value_depth l))
  | VMap m => S (fold_right Nat.max O (map (fun kv => value_depth kv.2) m))
  | _ => 1
  end.
(** Times fit in 64 bits, and values are not nested too deep for the reader. *)
Definition writable (a : answer) : Prop :=
  match a with
  | AnsReply r _ => Forall is_u64 (reply_times r)
  | AnsNat _ | AnsTip _ => True
  | AnsAllowance a => match a.2 with Some t => is_u64 t | None => True end
  | AnsBlocks r => Forall (fun b => value_words b.2 /\ (value_depth b.2 <= 10)%nat) (br_blocks r)
  | AnsAllowances l =>
      Forall (fun e => match ae_expires e with Some t => is_u64 t | None => True end) l
  end.

(** Names and tables are closed terms: they are computed, the rest is left alone. *)
Lemma alt_of_eq alts n v i h :
  place_of (label n) (by_label (map (fun n => (n, tt)) alts)) = i -> label n = h ->
  alt_of alts n v = XVariant i h v.
Proof. by intros <- <-. Qed.
Ltac calc_alts :=
  repeat match goal with
  | |- context [alt_of ?a ?n ?v] =>
      let i := eval vm_compute in (place_of (label n) (by_label (map (fun k => (k, tt)) a))) in
      let h := eval vm_compute in (label n) in
      rewrite (alt_of_eq a n v i h) by (vm_compute; reflexivity)
  end.
Ltac calc_labels :=
  repeat match goal with
  | |- context [label ?s] =>
      let x := eval vm_compute in (label s) in
      replace (label s) with x by (vm_compute; reflexivity)
  end.
Ltac calc_recs :=
  unfold rec_of, by_label; cbn [fold_right fst snd]; calc_labels;
  cbv [insert_by N.ltb N.compare Pos.compare Pos.compare_cont].
Ltac calc_table :=
  repeat match goal with
  | |- context [answer_table ?m] =>
      let x := eval vm_compute in (answer_table m) in
      replace (answer_table m) with x by (vm_compute; reflexivity)
  end.
Ltac calc := unfold value_alt; calc_alts; calc_recs; calc_table; cbn [fst snd].
Ltac by_type := cbn [typed]; unfold type_at; cbn; repeat split; try tauto.

Lemma word8 n : is_u64 n -> word_type 8 = Some T_NAT64 /\ n < 256 ^ N.of_nat 8.
Proof. by split. Qed.

Lemma reply_typed m txt r :
  answers m (AnsReply r txt) -> Forall is_u64 (reply_times r) ->
  typed (answer_table m).2 (answer_table m).1 (reply_v txt r).
Proof.
  intros Hm Ht. destruct r as [i b|[n|e]|[n|e]|[n|e]|[n|e]|[n|e]|[[n p]|e]|[[n p]|e]];
    cbn [answers] in Hm; subst m; cbn [reply_v]; unfold res_v.
  all: try (unfold create_success_v; calc; by_type; fail).
  all: destruct e; cbn [reply_times] in Ht; rewrite ?Forall_singleton in Ht;
    cbn [transfer_error_v transfer_from_error_v approve_error_v withdraw_error_v withdraw_from_error_v
         create_error_v create_from_error_v]; unfold onev, generic_v, create_duplicate_v, opt_nat, opt_principal;
    try match goal with c : rejection_code |- _ =>
          let x := fresh "x" in remember (rejection_v c) as x eqn:Ec end;
    calc; by_type;
    try match goal with o : option _ |- _ => destruct o; done end.
  all: subst; unfold rejection_v; destruct code; cbn [rejection_name]; calc; by_type.
Qed.

(** ** Generic values, blocks, listings *)
Definition value_vec_typed (tbl : list tycon) (r : Z) : list cand -> Prop :=
  fix go (l : list cand) : Prop := match l with [] => True | x :: l' => typed tbl r x /\ go l' end.

Lemma value_induction (P : value -> Prop) :
  (forall n, P (VNat64 n)) -> (forall n, P (VNat n)) -> (forall z, P (VInt z)) ->
  (forall b, P (VBlob b)) -> (forall s, P (VText s)) ->
  (forall l, Forall P l -> P (VArray l)) ->
  (forall m, Forall (fun kv => P kv.2) m -> P (VMap m)) -> forall v, P v.
Proof.
  intros H1 H2 H3 H4 H5 H6 H7. fix IH 1. intros [n|n|z|b|s|l|m].
  - apply H1. - apply H2. - apply H3. - apply H4. - apply H5.
  - apply H6. induction l; constructor; auto.
  - apply H7. induction m as [|kv m IHm]; constructor; auto.
Qed.

Definition blocks_table : list tycon := Eval vm_compute in (answer_table MBlocks).2.
Lemma blocks_table_eq : answer_table MBlocks = (1%Z, blocks_table).
Proof. vm_compute. reflexivity. Qed.

Lemma value_typed v : value_words v -> typed blocks_table 0 (value_v v).
Proof.
  induction v as [n|n|z|b|s|l IH|m IH] using value_induction; intros Hw; cbn [value_v]; unfold value_alt.
  1-5: cbn [value_words] in Hw; calc; by_type.
  - remember (map value_v l) as xs eqn:Ex. calc. cbn [typed]. unfold type_at. cbn.
    split; [done|]. split; [done|]. subst xs. cbn [value_words] in Hw.
    induction l as [|x l IHl]; [exact I|]. apply Forall_cons in IH as [Hx IH]. destruct Hw as [Hw1 Hw2].
    split; [exact (Hx Hw1)|exact (IHl IH Hw2)].
  - remember (map _ m) as xs eqn:Ex. calc. cbn [typed]. unfold type_at. cbn.
    split; [done|]. split; [done|]. subst xs. cbn [value_words] in Hw.
    induction m as [|[k x] m IHm]; [exact I|]. apply Forall_cons in IH as [Hx IH]. destruct Hw as [Hw1 Hw2].
    split; [|exact (IHm IH Hw2)]. cbn [fst snd] in *. specialize (Hx Hw1). revert Hx.
    generalize (value_v x). intros y Hy. calc_recs. by_type.
Qed.
Lemma value_cand_depth v : (depth (value_v v) <= 3 * value_depth v)%nat.
Proof.
  induction v as [n|n|z|b|s|l IH|m IH] using value_induction; cbn [value_v]; unfold value_alt, alt_of.
  1-5: cbn; lia.
  - cbn [depth value_depth].
    assert (fold_right Nat.max 0 (map depth (map value_v l))
            <= 3 * fold_right Nat.max 0 (map value_depth l))%nat; [|lia].
    induction IH as [|x l Hx _ IHl]; cbn [map fold_right]; lia.
  - cbn [depth value_depth].
    match goal with |- (S (S (fold_right Nat.max 0 (map depth ?xs))) <= _)%nat =>
      assert (fold_right Nat.max 0 (map depth xs)
            <= S (3 * fold_right Nat.max 0 (map (fun kv => value_depth kv.2) m)))%nat; [|lia] end.
    induction IH as [|[k x] m Hx _ IHm]; cbn [map fold_right fst snd]; [lia|].
    cbn [snd] in Hx.
    assert (depth (rec_of [("0", XText (str_bytes k)); ("1", value_v x)]) = S (Nat.max 1 (depth (value_v x)))) as ->.
    { remember (value_v x) as y. calc_recs. cbn. lia. }
    pose proof (depth_pos (value_v x)). lia.
Qed.

Lemma blocks_typed r :
  writable (AnsBlocks r) -> typed blocks_table 1 (blocks_v r) /\ (depth (blocks_v r) <= MAX_DEPTH)%nat.
Proof.
  destruct r as [n l]. cbn [writable br_blocks]. intros Hw.
  unfold blocks_v. cbn [br_log_length br_blocks]. remember (map _ l) as xs eqn:Ex. split.
  - calc. cbn [typed]. unfold type_at. cbn. repeat split; try done.
    subst xs. induction Hw as [|[i v] l [Hx _] _ IH]; [exact I|]. split; [|exact IH]. cbn [fst snd] in *.
    remember (value_v v) as y. calc_recs. by_type. subst. by apply value_typed.
  - assert (depth (XVec xs) <= 33)%nat as Hd.
    { cbn [depth]. assert (fold_right Nat.max 0 (map depth xs) <= 32)%nat; [|lia]. subst xs.
      induction Hw as [|[i v] l [_ Hx] _ IH]; cbn [map fold_right fst snd] in *; [lia|].
      assert (depth (rec_of [("id", XNat i); ("block", value_v v)]) = S (Nat.max 1 (depth (value_v v)))) as ->.
      { remember (value_v v) as y. calc_recs. cbn. lia. }
      pose proof (value_cand_depth v). lia. }
    remember (XVec xs) as y. calc_recs. cbn. unfold MAX_DEPTH. lia.
Qed.

(** Depth and size do not depend on the order of the fields. *)
Lemma depth_rec l : depth (rec_of l) = S (fold_right Nat.max O (map (fun f => depth f.2) l)).
Proof.
  unfold rec_of. cbn [depth]. f_equal. induction l as [|[n x] l IH]; [done|].
  unfold by_label in *. cbn [fold_right map fst snd]. rewrite <- IH.
  generalize (fold_right (fun f acc => insert_by (label f.1) f.2 acc) [] l). intros acc. clear.
  induction acc as [|[h y] acc IH]; cbn [insert_by map fold_right fst snd]; [done|].
  destruct (_ <? _); cbn [map fold_right fst snd]; lia.
Qed.
Definition size (v : cand) : nat := length (enc v).
Lemma size_rec l : size (rec_of l) = fold_right Nat.add O (map (fun f => size f.2) l).
Proof.
  unfold rec_of, size. cbn [enc]. induction l as [|[n x] l IH]; [done|].
  unfold by_label in *. cbn [fold_right map fst snd]. rewrite <- IH.
  generalize (fold_right (fun f acc => insert_by (label f.1) f.2 acc) [] l). intros acc. clear.
  induction acc as [|[h y] acc IH]; cbn [insert_by map concat fst snd]; [by rewrite app_length|].
  destruct (_ <? _); cbn [map concat fst snd]; rewrite !app_length in *; lia.
Qed.
Lemma alt_shape alts n v : exists i h, alt_of alts n v = XVariant i h v /\ (i <= length alts)%nat.
Proof.
  unfold alt_of. do 2 eexists. split; [reflexivity|].
  generalize (label n). intros h. etrans; [instantiate (1 := length (by_label (map (fun n => (n, tt)) alts)))|].
  - induction (by_label _) as [|[h' []] l IH]; cbn [place_of length]; [lia|]. destruct (_ =? _); lia.
  - induction alts as [|a alts IH]; [done|]. unfold by_label in *. cbn [map fold_right fst snd length].
    assert (forall h (l : list (N * unit)), length (insert_by h tt l) = S (length l)) as ->; [|lia].
    clear. intros h l. induction l as [|[h' []] l IH]; cbn [insert_by length]; [done|].
    destruct (_ <? _); cbn [length]; lia.
Qed.
Lemma depth_alt alts n v : depth (alt_of alts n v) = S (depth v).
Proof. by destruct (alt_shape alts n v) as (i & h & -> & _). Qed.
Lemma leb_small n : n < 128 -> length (leb128_nat n) = 1%nat.
Proof. intros Hn. unfold leb128_nat. cbn [leb128_write]. destruct (N.ltb_spec n 128); [done|lia]. Qed.
Lemma size_alt alts n v : (length alts < 100)%nat -> size (alt_of alts n v) = S (size v).
Proof.
  intros Hl. destruct (alt_shape alts n v) as (i & h & -> & Hi). unfold size. cbn [enc].
  rewrite app_length, leb_small; lia.
Qed.

Lemma depth_opt (o : option cand) : depth (XOpt o) = S (match o with Some v => depth v | None => O end).
Proof. by destruct o. Qed.
Lemma reply_depth txt r : (depth (reply_v txt r) <= 8)%nat.
Proof.
  destruct r as [i b|[n|e]|[n|e]|[n|e]|[n|e]|[n|e]|[[n p]|e]|[[n p]|e]];
    try (destruct e); cbn [reply_v res_v transfer_error_v transfer_from_error_v approve_error_v withdraw_error_v
      withdraw_from_error_v create_error_v create_from_error_v];
    unfold onev, generic_v, create_duplicate_v, create_success_v, opt_nat, opt_principal, rejection_v;
    repeat rewrite ?depth_alt, ?depth_rec; cbn [map fold_right snd];
    repeat rewrite ?depth_alt, ?depth_rec; cbn [map fold_right snd];
    repeat rewrite ?depth_alt, ?depth_opt; cbn [depth];
    repeat match goal with o : option _ |- _ => destruct o; cbn [fmap option_fmap option_map depth] end;
    lia.
Qed.
Lemma account_depth a : (depth (account_v a) <= 3)%nat.
Proof.
  unfold account_v. rewrite depth_rec. cbn [map fold_right snd]. rewrite depth_opt.
  destruct (subacct a); cbn; lia.
Qed.

Lemma account_typed tbl r ro a :
  type_at tbl r = Some (TRecord [(label "owner", T_PRINCIPAL); (label "subaccount", ro)]) ->
  (exists rb, type_at tbl ro = Some (TOpt rb) /\ type_at tbl rb = Some (TVec T_NAT8)) ->
  typed tbl r (account_v a).
Proof.
  intros Hr (rb & Ho & Hb).
  assert (account_v a = XRecord [(label "owner", XPrincipal (owner a));
      (label "subaccount", XOpt (XBlob ∘ sub_bytes <$> subacct a))]) as ->.
  { unfold account_v. calc_recs. reflexivity. }
  cbn [typed]. rewrite Hr, Ho. repeat split. destruct (subacct a); simpl; [exact Hb|exact I].
Qed.

Lemma allowances_typed l :
  writable (AnsAllowances l) ->
  typed (answer_table MAllowances).2 (answer_table MAllowances).1 (answer_v (AnsAllowances l))
  /\ (depth (answer_v (AnsAllowances l)) <= MAX_DEPTH)%nat.
Proof.
  cbn [writable answer_v]. intros Hw. remember (map _ l) as xs eqn:Ex. split.
  - calc. cbn [typed]. unfold type_at. cbn. split; [done|]. split; [done|]. subst xs.
    induction Hw as [|e l Hx _ IH]; [exact I|]. split; [|exact IH]. unfold allowance_entry_v.
    remember (account_v (ae_from e)) as y1 eqn:E1. remember (account_v (ae_spender e)) as y2 eqn:E2.
    unfold time_opt. calc_recs. cbn [typed]. unfold type_at. cbn. repeat split; subst.
    all: try (eapply account_typed; [vm_compute; reflexivity|eexists; split; vm_compute; reflexivity]).
    destruct (ae_expires e); cbn; [|done]. by apply word8.
  - rewrite depth_alt.
    assert (fold_right Nat.max 0 (map depth xs) <= 4)%nat as Hd.
    { subst xs. clear Hw. induction l as [|e l IH]; cbn [map fold_right]; [lia|].
      unfold allowance_entry_v at 1. rewrite depth_rec. cbn [map fold_right snd]. unfold time_opt. rewrite depth_opt.
      pose proof (account_depth (ae_from e)). pose proof (account_depth (ae_spender e)).
      destruct (ae_expires e); cbn [fmap option_fmap option_map depth]; lia. }
    cbn [depth]. unfold MAX_DEPTH. lia.
Qed.

(** ** All answers *)
Theorem answer_well_typed m a : answers m a -> writable a -> well_typed (answer_message m a).
Proof.
  intros Hm Hw. unfold well_typed, answer_message. cbn [m_table m_args]. rewrite Forall_singleton.
  cbn [fst snd]. destruct a as [r txt|n|[x o]|r|l|o].
  - split; [by apply reply_typed|]. cbn [answer_v]. pose proof (reply_depth txt r). unfold MAX_DEPTH. lia.
  - cbn [answer_v]. split; [|cbn; unfold MAX_DEPTH; lia]. destruct Hm as [-> | [-> | -> ] ]; reflexivity.
  - cbn [answers] in Hm. subst m. cbn [answer_v fst snd]. unfold time_opt. split.
    + calc. cbn [typed]. unfold type_at. cbn. repeat split. destruct o; cbn; [|done]. by apply word8.
    + rewrite depth_rec. cbn [map fold_right snd]. rewrite depth_opt. unfold MAX_DEPTH. destruct o; cbn; lia.
  - cbn [answers] in Hm. subst m. rewrite blocks_table_eq. cbn [fst snd answer_v]. by apply blocks_typed.
  - cbn [answers] in Hm. subst m. by apply allowances_typed.
  - cbn [answers] in Hm. subst m. cbn [answer_v]. split.
    + destruct o as [[c t]|]; cbn [fmap option_fmap option_map]; [|vm_compute; exact I].
      cbn [fst snd]. calc. cbn [typed]. unfold type_at. cbn. repeat split.
    + rewrite depth_opt. destruct o as [[c t]|]; cbn [fmap option_fmap option_map]; [rewrite depth_rec|];
        cbn; unfold MAX_DEPTH; lia.
Qed.
