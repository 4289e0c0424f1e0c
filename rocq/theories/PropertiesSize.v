(** * How long the answers are

    C87 *)
From Verif Require Import Base Types Codec ValueHash State Ledger Canister Effects Spec ApiSpec
  Inv Steps World CallFacts CallCases StepFacts AllowFacts AsyncFacts EventFacts AnswerSpec PropertiesLog
  PropertiesQuery PropertiesAnswers Candid CandidProofs IndexerSpec PropertiesIndexer Demo.
From Verif Require PropertiesReceipts PropertiesPaging PropertiesNamed PropertiesCashOut PropertiesConfig PropertiesUpgrade CreateFacts CodecFacts.
From Verif Require Import Wire WireFacts WireInj PropertiesWire.

(** ** Lengths of values *)
Lemma leb_len_gen f n k : n < 128 ^ N.of_nat (S k) -> (length (leb128_write f n) <= S k)%nat.
Proof.
  revert n k. induction f as [|f IH]; intros n k Hn; cbn [leb128_write length]; [lia|].
  destruct (N.ltb_spec n 128); cbn [length]; [lia|]. destruct k as [|k].
  { change (128 ^ N.of_nat 1) with 128 in Hn. lia. }
  apply le_n_S. apply IH. rewrite Nat2N.inj_succ, N.pow_succ_r' in Hn. apply N.div_lt_upper_bound; lia.
Qed.
Lemma leb_u128 n : n < 2 ^ 128 -> (length (leb128_nat n) <= 19)%nat.
Proof.
  intros Hn. apply (leb_len_gen _ _ 18). eapply N.lt_le_trans; [exact Hn|]. vm_compute. discriminate.
Qed.
Lemma leb_u64 n : n <= 2 ^ 64 -> (length (leb128_nat n) <= 10)%nat.
Proof.
  intros Hn. apply (leb_len_gen _ _ 9). eapply N.le_lt_trans; [exact Hn|]. vm_compute. reflexivity.
Qed.
Lemma size_nat n : size (XNat n) = length (leb128_nat n). Proof. reflexivity. Qed.
Lemma size_word n : size (XWord 8 n) = 8%nat. Proof. reflexivity. Qed.
Lemma size_null : size XNull = 0%nat. Proof. reflexivity. Qed.
Lemma size_text b : size (XText b) = (length (leb128_nat (N.of_nat (length b))) + length b)%nat.
Proof. unfold size. cbn [enc]. unfold sized. by rewrite app_length. Qed.
Lemma size_blob b : size (XBlob b) = (length (leb128_nat (N.of_nat (length b))) + length b)%nat.
Proof. unfold size. cbn [enc]. unfold sized. by rewrite app_length. Qed.
Lemma size_blob32 b : (length b <= 32)%nat -> (size (XBlob b) <= 33)%nat.
Proof. intros Hb. rewrite size_blob, leb_small; lia. Qed.
Lemma size_principal p : (length p <= 29)%nat -> (size (XPrincipal p) <= 31)%nat.
Proof.
  intros Hb. unfold size. cbn [enc length]. unfold sized. rewrite app_length, leb_small; lia.
Qed.
Lemma size_opt (o : option cand) n :
  (forall x, o = Some x -> (size x <= n)%nat) -> (size (XOpt o) <= S n)%nat.
Proof. intros Hx. destruct o as [x|]; unfold size; cbn [enc length]; [|lia]. specialize (Hx x eq_refl). unfold size in Hx. lia. Qed.
Lemma size_vec l : size (XVec l) = (length (leb128_nat (N.of_nat (length l))) + fold_right Nat.add O (map size l))%nat.
Proof.
  unfold size at 1. cbn [enc]. rewrite app_length. f_equal. induction l as [|x l IH]; [done|].
  cbn [map concat fold_right]. rewrite app_length, IH. done.
Qed.
Lemma opt_nat_size o : (forall n, o = Some n -> n < 2 ^ 128) -> (size (opt_nat o) <= 20)%nat.
Proof.
  intros Ho. apply size_opt. intros x. destruct o as [n|]; [|done]. intros [= <-]. rewrite size_nat.
  by apply leb_u128, Ho.
Qed.

(** ** Replies *)
Definition amounts_in (r : reply) : list N :=
  match r with
  | RepDeposit _ b => [b]
  | RepTransfer (Err (TBadFee n)) | RepTransfer (Err (TBadBurn n)) | RepTransfer (Err (TInsufficientFunds n))
  | RepTransfer (Err (TGenericError n)) => [n]
  | RepTransferFrom (Err (TFBadFee n)) | RepTransferFrom (Err (TFBadBurn n)) | RepTransferFrom (Err (TFInsufficientFunds n))
  | RepTransferFrom (Err (TFInsufficientAllowance n)) | RepTransferFrom (Err (TFGenericError n)) => [n]
  | RepApprove (Err (ABadFee n)) | RepApprove (Err (AInsufficientFunds n)) | RepApprove (Err (AAllowanceChanged n))
  | RepApprove (Err (AGenericError n)) => [n]
  | RepWithdraw (Err (WBadFee n)) | RepWithdraw (Err (WInsufficientFunds n)) | RepWithdraw (Err (WGenericError n)) => [n]
  | RepWithdrawFrom (Err (WFInsufficientFunds n)) | RepWithdrawFrom (Err (WFInsufficientAllowance n))
  | RepWithdrawFrom (Err (WFGenericError n)) => [n]
  | RepCreate (Err (CInsufficientFunds n)) | RepCreate (Err (CGenericError n)) => [n]
  | RepCreateFrom (Err (CFInsufficientFunds n)) | RepCreateFrom (Err (CFInsufficientAllowance n))
  | RepCreateFrom (Err (CFGenericError n)) => [n]
  | _ => []
  end.
Definition numbers_in (r : reply) : list N :=
  amounts_in r ++ PropertiesReceipts.given_out (RespReply r) ++ option_list (duplicate_of (RespReply r)).
Definition principals_in (r : reply) : list principal :=
  match r with
  | RepWithdraw (Err (WInvalidReceiver p)) | RepWithdrawFrom (Err (WFInvalidReceiver p)) => [p]
  | RepCreate (Ok (_, p)) | RepCreateFrom (Ok (_, p)) => [p]
  | RepCreate (Err (CDuplicate _ (Some p))) | RepCreateFrom (Err (CFDuplicate _ (Some p))) => [p]
  | _ => []
  end.

Lemma rejection_size c : (size (rejection_v c) <= 1)%nat.
Proof. unfold rejection_v. rewrite size_alt by (cbn; lia). rewrite size_null. lia. Qed.

Lemma forall_option {A} (P : A -> Prop) (o : option A) : Forall P (option_list o) -> forall x, o = Some x -> P x.
Proof. intros Hf x ->. by apply Forall_cons in Hf as [? _]. Qed.

Lemma reply_size txt r :
  Forall (fun n => n < 2 ^ 128) (numbers_in r) -> Forall (fun p => (length p <= 29)%nat) (principals_in r) ->
  N.of_nat (length txt) <= 2 ^ 64 -> (size (reply_v txt r) <= 80 + length txt)%nat.
Proof.
  intros Hn Hp Ht. pose proof (leb_u64 _ Ht) as Htx. unfold numbers_in in Hn.
  assert (forall n, n < 2 ^ 128 -> (size (XNat n) <= 19)%nat) as HN by (intros; by apply leb_u128).
  destruct r as [i b|[n|e]|[n|e]|[n|e]|[n|e]|[n|e]|[[n p]|e]|[[n p]|e]]; try destruct e;
    cbn [amounts_in principals_in] in Hn, Hp;
    unfold PropertiesReceipts.given_out, PropertiesReceipts.own_block, PropertiesReceipts.refund_block,
      PropertiesReceipts.approval_block, ApiSpec.duplicate_of in Hn;
    cbn [reply_v res_v transfer_error_v transfer_from_error_v approve_error_v withdraw_error_v
      withdraw_from_error_v create_error_v create_from_error_v];
    unfold onev, generic_v, create_duplicate_v, create_success_v;
    repeat first [rewrite size_alt by (cbn; lia) | rewrite size_rec]; cbn [map fold_right snd fst];
    rewrite ?size_null, ?size_word, ?size_text;
    repeat match goal with
    | H : Forall _ (_ :: _) |- _ => apply Forall_cons in H as [? H]
    | H : Forall _ (_ ++ _) |- _ => apply Forall_app in H as [? H]
    | H : Forall _ (option_list None) |- _ => clear H
    | H : Forall _ (option_list (Some _)) |- _ => apply (fun H => forall_option _ _ H _ eq_refl) in H
    | H : Forall _ [] |- _ => clear H
    end; cbv beta in *;
    repeat match goal with
    | |- context [size (XNat ?n)] =>
        lazymatch goal with
        | _ : (size (XNat n) <= 19)%nat |- _ => fail
        | _ => pose proof (HN n ltac:(assumption))
        end
    end; try lia.
  all: repeat match goal with
    | |- context [size (rejection_v ?c)] =>
        lazymatch goal with
        | _ : (size (rejection_v c) <= 1)%nat |- _ => fail
        | _ => pose proof (rejection_size c)
        end
    | |- context [size (opt_nat ?o)] =>
        lazymatch goal with
        | _ : (size (opt_nat o) <= 20)%nat |- _ => fail
        | _ => assert (size (opt_nat o) <= 20)%nat by
            (apply opt_nat_size; apply forall_option; assumption)
        end
    | |- context [size (XPrincipal ?p)] =>
        lazymatch goal with
        | _ : (size (XPrincipal p) <= 31)%nat |- _ => fail
        | _ => pose proof (size_principal p ltac:(assumption))
        end
    | |- context [size (opt_principal ?o)] =>
        lazymatch goal with
        | _ : (size (opt_principal o) <= 32)%nat |- _ => fail
        | _ => assert (size (opt_principal o) <= 32)%nat by
            (apply size_opt; intros ?; destruct o; [|done]; intros [= <-]; apply size_principal;
             apply Forall_cons in Hp as [? _]; assumption)
        end
    end; try lia.
Qed.

(** ** Blocks *)
Definition esize (kv : string * value) : nat := (size (XText (str_bytes kv.1)) + size (value_v kv.2))%nat.
Definition total {A} (f : A -> nat) (l : list A) : nat := fold_right Nat.add O (map f l).
Lemma value_alt_size n v : size (value_alt n v) = S (size v).
Proof. unfold value_alt. apply size_alt. cbn. lia. Qed.
Lemma map_size m : size (value_v (VMap m)) = S (length (leb128_nat (N.of_nat (length m))) + total esize m).
Proof.
  cbn [value_v]. rewrite value_alt_size, size_vec, map_length. f_equal. f_equal. unfold total.
  induction m as [|[k v] m IH]; [done|]. cbn [map fold_right fst snd]. rewrite <- IH. f_equal.
  rewrite size_rec. cbn [map fold_right snd]. unfold esize. cbn [fst snd]. lia.
Qed.
Definition bounded (m : list (string * value)) (n s : nat) : Prop := (length m <= n /\ total esize m <= s)%nat.
Lemma bounded_insert k v m n s e :
  (esize (k, v) <= e)%nat -> bounded m n s -> bounded (btree_insert k v m) (S n) (e + s).
Proof.
  intros He [H1 H2].
  assert (length (btree_insert k v m) <= S (length m)
          /\ total esize (btree_insert k v m) <= esize (k, v) + total esize m)%nat as [H3 H4].
  { clear. induction m as [|[k' v'] m IH]; [cbn; lia|]. cbn [btree_insert].
    destruct (String.compare k k'); unfold total in *; cbn [length map fold_right] in *; lia. }
  split; lia.
Qed.
Lemma bounded_opt {A} k (f : A -> value) (o : option A) m n s e :
  (forall x, o = Some x -> (esize (k, f x) <= e)%nat) -> bounded m n s ->
  bounded (opt_insert k (f <$> o) m) (S n) (e + s).
Proof.
  intros He Hm. destruct o as [x|]; [by apply bounded_insert; [apply He|]|].
  destruct Hm. split; cbn [opt_insert fmap option_fmap option_map]; lia.
Qed.
Lemma entry_size k v c e :
  size (XText (str_bytes k)) = c -> (size (value_v v) <= e)%nat -> (esize (k, v) <= c + e)%nat.
Proof. intros <- He. unfold esize. cbn [fst snd]. lia. Qed.
Lemma vnat_size n : n < 2 ^ 128 -> (size (value_v (VNat n)) <= 20)%nat.
Proof. intros Hn. cbn [value_v]. rewrite value_alt_size, size_nat. apply le_n_S. by apply leb_u128. Qed.
Lemma vblob_size b : (length b <= 32)%nat -> (size (value_v (VBlob b)) <= 34)%nat.
Proof. intros Hn. cbn [value_v]. rewrite value_alt_size. apply le_n_S. by apply size_blob32. Qed.
Lemma sub_bytes_length s : length (sub_bytes s) = 32%nat.
Proof. reflexivity. Qed.
Lemma account_size a : wf_account a -> (size (value_v (account_to_value a)) <= 70)%nat.
Proof.
  intros [Hp _]. unfold wf_principal in Hp. unfold account_to_value. cbn [value_v].
  rewrite value_alt_size, size_vec, map_length. destruct (subacct a) as [s|].
  - pose proof (vblob_size (owner a) ltac:(lia)). pose proof (vblob_size (sub_bytes s) ltac:(rewrite sub_bytes_length; lia)).
    cbn [length map fold_right]. change (N.of_nat 2) with 2. rewrite leb_small by lia. lia.
  - pose proof (vblob_size (owner a) ltac:(lia)).
    cbn [length map fold_right]. change (N.of_nat 1) with 1. rewrite leb_small by lia. lia.
Qed.
Lemma u64_u128_lt n : is_u64 n -> n < 2 ^ 128.
Proof. intros Hn. eapply N.lt_le_trans; [exact Hn|]. vm_compute. discriminate. Qed.
Lemma memo_short m : validate_memo m = true -> forall b, m = Some b -> (length b <= 32)%nat.
Proof.
  unfold validate_memo, MAX_MEMO_LENGTH. intros Hm b ->. destruct (N.ltb_spec 32 (N.of_nat (length b))); [done|lia].
Qed.

Ltac key := vm_compute; reflexivity.
Lemma tx_size t : wf_tx t -> (size (value_v (tx_to_value t)) <= 390)%nat.
Proof.
  intros (Ho & Hc & Hm & _). unfold tx_to_value.
  assert (bounded (opt_insert "memo" (VBlob <$> tx_memo t) (opt_insert "ts" (VNat <$> tx_created_at t) [])) 2 62) as H1.
  { change 62%nat with ((5 + 34) + ((3 + 20) + 0))%nat.
    apply bounded_opt; [|apply bounded_opt; [|split; cbn; lia]]; intros x Ex.
    - apply entry_size; [key|]. apply vblob_size. by eapply memo_short.
    - apply entry_size; [key|]. apply vnat_size, u64_u128_lt. by rewrite Ex in Hc. }
  revert H1. generalize (opt_insert "memo" (VBlob <$> tx_memo t) (opt_insert "ts" (VNat <$> tx_created_at t) [])).
  intros m1 H1.
  assert (forall m n s, bounded m n s -> (n < 100)%nat -> (s <= 388)%nat -> (size (value_v (VMap m)) <= 390)%nat) as Hend.
  { intros m n s [H2 H3] Hn Hs. rewrite map_size, leb_small; lia. }
  assert (forall n, is_u128 n -> (size (value_v (VNat n)) <= 20)%nat) as Hnat by (intros; by apply vnat_size).
  destruct (tx_op t) as [to a f|from to sp a f|from sp a|from sp a ea ex f]; cbn [wf_op] in Ho.
  - destruct Ho as (Hto & Ha & Hf). eapply Hend.
    + apply bounded_insert; [apply entry_size; [key|by apply Hnat]|].
      apply bounded_insert; [apply entry_size; [key|by apply Hnat]|].
      apply bounded_insert; [apply entry_size; [key|by apply account_size]|].
      apply bounded_insert; [apply entry_size; [key|instantiate (1 := 20%nat); vm_compute; lia]|exact H1].
    + lia.
    + lia.
  - destruct Ho as (Hfr & Hto & Hsp & Ha & Hf). eapply Hend.
    + apply bounded_opt; [intros x ->; apply entry_size; [key|by apply Hnat]|].
      apply bounded_insert; [apply entry_size; [key|by apply Hnat]|].
      apply bounded_opt; [intros x ->; apply entry_size; [key|by apply account_size]|].
      apply bounded_insert; [apply entry_size; [key|by apply account_size]|].
      apply bounded_insert; [apply entry_size; [key|by apply account_size]|].
      apply bounded_insert; [apply entry_size; [key|instantiate (1 := 6%nat); vm_compute; lia]|exact H1].
    + lia.
    + lia.
  - destruct Ho as (Hfr & Hsp & Ha). eapply Hend.
    + apply bounded_insert; [apply entry_size; [key|by apply Hnat]|].
      apply bounded_opt; [intros x ->; apply entry_size; [key|by apply account_size]|].
      apply bounded_insert; [apply entry_size; [key|by apply account_size]|].
      apply bounded_insert; [apply entry_size; [key|instantiate (1 := 6%nat); vm_compute; lia]|exact H1].
    + lia.
    + lia.
  - destruct Ho as (Hfr & Hsp & Ha & Hea & Hex & Hf). eapply Hend.
    + apply bounded_opt; [intros x ->; apply entry_size; [key|by apply Hnat]|].
      apply bounded_opt; [intros x ->; apply entry_size; [key|by apply vnat_size, u64_u128_lt]|].
      apply bounded_opt; [intros x ->; apply entry_size; [key|by apply Hnat]|].
      apply bounded_insert; [apply entry_size; [key|by apply Hnat]|].
      apply bounded_insert; [apply entry_size; [key|by apply account_size]|].
      apply bounded_insert; [apply entry_size; [key|by apply account_size]|].
      apply bounded_insert; [apply entry_size; [key|instantiate (1 := 9%nat); vm_compute; lia]|exact H1].
    + lia.
    + lia.
Qed.

Section WithEnv.
Context `{Env}.
Hypothesis hash_length : forall x, length (vhash x) = 32%nat.

Lemma total_le {A} (f : A -> nat) l k : Forall (fun x => (f x <= k)%nat) l -> (total f l <= k * length l)%nat.
Proof. unfold total. induction 1 as [|x l Hx _ IH]; cbn [map fold_right length]; lia. Qed.

Lemma block_size w i b :
  reachable w -> blocks (w_led w) !! i = Some b -> (size (value_v (block_to_value b)) <= 485)%nat.
Proof.
  intros Hr Hb. pose proof (reachable_inv _ Hr) as Hi. destruct (inv_blk _ _ Hi _ _ Hb) as [(Hwf & Hts & Hef & _) _].
  pose proof (inv_chain _ _ Hi _ _ Hb) as Hch.
  assert (forall h, b_phash b = Some h -> (length h <= 32)%nat) as Hph.
  { intros h Hh. rewrite Hh in Hch. destruct i as [|j]; [done|]. destruct (blocks (w_led w) !! j); [|done].
    injection Hch as ->. unfold block_hash. rewrite hash_length. lia. }
  assert (forall n, b_effective_fee b = Some n -> n < 2 ^ 128) as Hfe.
  { intros n Hn. rewrite Hn in Hef. destruct Hwf as (Ho & _). revert Hef Ho. unfold effective_fee.
    destruct (tx_op (b_tx b)); intros Hef Ho; cbn [wf_op] in Ho; repeat case_match; simplify_eq; try done; reflexivity. }
  unfold block_to_value. pose proof (tx_size _ Hwf) as Htx. revert Htx. generalize (tx_to_value (b_tx b)). intros tv Htx.
  assert (bounded (opt_insert "fee" (VNat <$> b_effective_fee b) (opt_insert "phash" (VBlob <$> b_phash b)
      (btree_insert "ts" (VNat (b_timestamp b)) (btree_insert "tx" tv [])))) 4
      ((4 + 20) + ((6 + 34) + ((3 + 20) + ((3 + 390) + 0))))) as [H1 H2].
  { apply bounded_opt; [intros x Ex; apply entry_size; [key|]; by apply vnat_size, Hfe|].
    apply bounded_opt; [intros x Ex; apply entry_size; [key|]; by apply vblob_size, Hph|].
    apply bounded_insert; [apply entry_size; [key|]; by apply vnat_size, u64_u128_lt|].
    apply bounded_insert; [apply entry_size; [key|exact Htx]|]. split; cbn; lia. }
  rewrite map_size, leb_small; lia.
Qed.

(** The length of a message is that of its header and of its value. *)
Definition header (m : method) : nat := length (answer_bytes m (AnsNat 0)) - 1.
Lemma answer_length m a : length (answer_bytes m a) = (header m + size (answer_v a))%nat.
Proof.
  assert (forall x, length (answer_bytes m x) = (length (DIDL ++ enc_list enc_tycon (answer_table m).2
    ++ enc_list sleb128_int [(answer_table m).1]) + size (answer_v x))%nat) as Hx.
  { intros x. unfold answer_bytes, enc_message, answer_message. cbn [m_table m_args map fst snd concat].
    rewrite app_nil_r, !app_length. unfold size. lia. }
  unfold header. rewrite (Hx a), (Hx (AnsNat 0)). cbn [answer_v]. rewrite size_nat, leb_small by lia. lia.
Qed.
Lemma header_size m : (header m <= 220)%nat.
Proof. destruct m; vm_compute; lia. Qed.

Lemma blocks_size w args :
  reachable w -> N.of_nat (length (blocks (w_led w))) <= 2 ^ 64 ->
  let r := icrc3_get_blocks (w_led w) args in
  N.of_nat (length (br_blocks r)) <= 2 ^ 64 ->
  (size (blocks_v r) <= 30 + 500 * length (br_blocks r))%nat.
Proof.
  intros Hr Hn r Hl. destruct (C29_served_blocks_are_right w args) as (El & _ & Hs). fold r in El, Hs.
  unfold blocks_v. rewrite size_rec. cbn [map fold_right snd]. rewrite size_nat, !size_vec, map_length.
  pose proof (leb_u64 _ Hl) as H1. assert (length (leb128_nat (br_log_length r)) <= 10)%nat as H2 by (rewrite El; by apply leb_u64).
  change (length (leb128_nat (N.of_nat (length (@nil cand))))) with 1%nat. cbn [map fold_right].
  assert (total size (map (fun b => rec_of [("id"%string, XNat b.1); ("block"%string, value_v b.2)]) (br_blocks r))
    <= 500 * length (br_blocks r))%nat as H3; [|unfold total in H3; lia].
  etrans; [apply (total_le size _ 500)|by rewrite map_length].
  apply Forall_map, Forall_forall. intros [i v] Hi. destruct (Hs i v Hi) as [(b & Hb & ->) _].
  rewrite size_rec. cbn [map fold_right fst snd]. rewrite size_nat. pose proof (block_size _ _ _ Hr Hb).
  apply lookup_lt_Some in Hb. pose proof (leb_u64 i ltac:(lia)). lia.
Qed.

Lemma account_v_size a : wf_account a -> (size (account_v a) <= 65)%nat.
Proof.
  intros [Hp _]. unfold account_v. rewrite size_rec. cbn [map fold_right snd]. pose proof (size_principal _ Hp).
  assert (size (XOpt (XBlob ∘ sub_bytes <$> subacct a)) <= 34)%nat; [|lia].
  apply size_opt. intros x. destruct (subacct a) as [s|]; [|done]. intros [= <-]. unfold compose. apply size_blob32.
  by rewrite sub_bytes_length.
Qed.
Lemma entry_v_size e :
  entry_ok e -> is_u128 (ae_amount e) -> (size (allowance_entry_v e) <= 160)%nat.
Proof.
  intros [H1 H2] Ha. unfold allowance_entry_v. rewrite size_rec. cbn [map fold_right snd]. rewrite size_nat.
  pose proof (account_v_size _ H1). pose proof (account_v_size _ H2). pose proof (leb_u128 _ Ha).
  assert (size (time_opt (ae_expires e)) <= 9)%nat; [|lia].
  apply size_opt. intros x. destruct (ae_expires e); [|done]. by intros [= <-].
Qed.
Lemma allowances_count w now caller from prev take :
  (length (icrc103_get_allowances (w_led w) now caller from prev take) <= 500)%nat.
Proof.
  unfold icrc103_get_allowances, get_allowances. set (mx := match take with Some _ => _ | None => _ end).
  assert (mx <= 500) as Hmx by (unfold mx, MAX_TAKE_ALLOWANCES; destruct take; lia). clearbody mx.
  assert (forall fr skip l acc, (length acc <= 500)%nat ->
    (length (get_allowances_loop fr skip mx now l acc) <= 500)%nat) as Hl; [|apply Hl; cbn; lia].
  intros fr skip l. induction l as [|[k [a x]] l IH]; intros acc Hacc; cbn [get_allowances_loop]; [done|].
  destruct (match skip with Some k0 => bool_decide (k = k0) | None => false end); [by apply IH|].
  destruct (N.leb_spec mx (N.of_nat (length acc))); [done|]. destruct (negb _); [done|].
  destruct (_ && _); [by apply IH|]. apply IH. rewrite app_length. cbn [length]. lia.
Qed.
Lemma allowances_size w now caller from prev take :
  reachable w ->
  (size (answer_v (AnsAllowances (icrc103_get_allowances (w_led w) now caller from prev take)))
   <= 20 + 160 * length (icrc103_get_allowances (w_led w) now caller from prev take))%nat.
Proof.
  intros Hr. cbn [answer_v]. rewrite size_alt by (cbn; lia). rewrite size_vec, map_length.
  pose proof (allowances_count w now caller from prev take) as Hc.
  set (l := icrc103_get_allowances _ _ _ _ _ _) in *.
  pose proof (leb_u64 (N.of_nat (length l)) ltac:(lia)).
  assert (total size (map allowance_entry_v l) <= 160 * length l)%nat as H3; [|unfold total in H3; lia].
  etrans; [apply (total_le size _ 160)|by rewrite map_length].
  apply Forall_map, Forall_forall. intros e He. destruct (listed_ok _ _ _ _ _ _ _ Hr He) as (H1 & H2 & _).
  by apply entry_v_size.
Qed.

(** ** The amounts, blocks and principals of an answer to an update call *)
Lemma reach_history w :
  reachable w ->
  exists now0 cycles args w0 tr, is_u64 now0 /\ wf_ledger_args args
    /\ init_world now0 cycles args = Some w0 /\ steps w0 tr w.
Proof.
  induction 1 as [now cycles args w Hu Ha Hin|w ev Hr (now0 & cycles & args & w0 & tr & H1 & H2 & H3 & H4) Hev].
  - exists now, cycles, args, w, []. do 3 (split; [done|]). constructor.
  - exists now0, cycles, args, w0, (tr ++ [(ev, (step w ev).2)]). do 3 (split; [done|]).
    eapply PropertiesCashOut.steps_app; [exact H4|]. constructor; [done|constructor].
Qed.
Lemma steps_ev_ok w tr w' ev r : steps w tr w' -> (ev, r) ∈ tr -> exists v, ev_ok v ev.
Proof.
  induction 1 as [w|w e tr w' Hev Hs IH]; [by intros ?%elem_of_nil|].
  intros [[= -> ->]|Hin]%elem_of_cons; [by exists w|auto].
Qed.
Lemma named_wf w h i x : reachable w -> tx_hashes (w_led w) !! h = Some (i, Some x) -> wf_principal x.
Proof.
  intros Hr Hx. destruct (reach_history _ Hr) as (now0 & cycles & args & w0 & tr & Hu0 & Hwf0 & Hin & Hs).
  assert (reachable w0) as Hr0 by (by econstructor).
  assert (PropertiesNamed.names_explained [] w0) as H0.
  { unfold init_world in Hin. destruct (init now0 args empty_state) as [s [u|[]|t]] eqn:Ei; [|done].
    injection Hin as <-. split.
    - intros id p. cbn [w_pend]. by rewrite lookup_empty.
    - intros h' i' y Hy. exfalso. by eapply PropertiesNamed.init_named. }
  pose proof (PropertiesNamed.names_steps [] w0 tr w Hr0 Hs H0) as [_ Hn]. cbn [app] in Hn.
  destruct (Hn _ _ _ Hx) as (t & _ & (tr1 & tr2 & now & refund & resp & t0 & caller & c & sync & id & arg & amount & -> & _) & _).
  destruct (steps_ev_ok _ _ _ (EvReply now id (AnsCmc (Ok (Ok x))) refund) resp Hs ltac:(set_solver)) as [v (_ & Hwa & _)].
  exact Hwa.
Qed.

Lemma balance_small w a : reachable w -> icrc1_balance_of (w_led w) a < 2 ^ 128.
Proof.
  intros Hr. pose proof (inv_supply _ _ (reachable_inv _ Hr)) as Hs. pose proof (supply_bal _ (to_key a) Hs) as Hb.
  destruct Hs as [_ Hs]. eapply N.le_lt_trans; [exact Hb|exact Hs].
Qed.
Lemma allowance_small w now from sp : reachable w -> (icrc2_allowance (w_led w) now from sp).1 < 2 ^ 128.
Proof.
  intros Hr. unfold icrc2_allowance, allowance. destruct (approvals (w_led w) !! approval_key from sp) as [[x e]|] eqn:Ex.
  - apply (inv_appr _ _ (reachable_inv _ Hr)) in Ex as (_ & Hx & _). repeat case_match; simplify_eq; done.
  - reflexivity.
Qed.
Lemma usable_small w now from sp : reachable w -> (usable (w_led w) now from sp).1 < 2 ^ 128.
Proof.
  intros Hr. rewrite usable_stored. destruct (approvals (w_led w) !! approval_key from sp) as [[x e]|] eqn:Ex.
  - apply (inv_appr _ _ (reachable_inv _ Hr)) in Ex as (_ & Hx & _). case_match; done.
  - reflexivity.
Qed.

Definition small_refusal (r : refusal) : Prop :=
  match r with
  | NoFunds n | NoAllowance n | OtherAllowance n => n < 2 ^ 128
  | AlreadyDone _ (Some p) | BadReceiver p => (length p <= 29)%nat
  | _ => True
  end.
Lemma rules_small w now caller c cond (reason : refusal -> Prop) r :
  reachable w -> wf_call c ->
  (cond, reason) ∈ rules (w_led w) now caller c (tx_hashes (w_led w) !! txh (requested caller c)) ->
  reason r -> small_refusal r.
Proof.
  intros Hr Hc Hin Hx.
  pose proof (fun a => balance_small w a Hr) as Hb. pose proof (fun a b => allowance_small w now a b Hr) as Ha.
  pose proof (fun a b => usable_small w now a b Hr) as Hu.
  pose proof (fun h i x => named_wf w h i x Hr) as Hn.
  assert (forall dup r, dup = tx_hashes (w_led w) !! txh (requested caller c) ->
    (dup_rule dup).2 r -> small_refusal r) as Hd.
  { intros dup r' -> (i & x & E & ->). destruct x as [x|]; [|exact I]. cbn. by eapply Hn. }
  assert (forall l : list (Prop * (refusal -> Prop)),
    Forall (fun x : Prop * (refusal -> Prop) => forall r, x.2 r -> small_refusal r) l ->
    (cond, reason) ∈ l -> small_refusal r) as Hall.
  { intros l Hl Hi. rewrite Forall_forall in Hl. by apply (Hl _ Hi). }
  clear Hn. revert Hd Hin. generalize (tx_hashes (w_led w) !! txh (requested caller c)). intros dup Hd Hin.
  specialize (fun r => Hd dup r eq_refl).
  destruct c; cbn [rules wf_call] in Hin, Hc; (eapply Hall; [|exact Hin]); clear Hin Hall;
    unfold deposit_rules, transfer_rules, approve_rules, withdraw_rules, create_rules, burn_rules, time_rules;
    cbn [app]; repeat (apply Forall_cons; split); try apply Forall_nil_2; try exact Hd; cbn [snd];
    intros r' Hr'; try (subst r'; cbn; solve [done | apply Hb | apply Ha | apply Hu | by destruct_and?]);
    try (destruct Hr' as (x & _ & [-> | [-> _] ]); cbn; [apply Hu|done]);
    try (destruct Hr' as (x & _ & ->); cbn; apply Hu).
Qed.

Lemma small_stable l ps :
  let P := Forall (fun n => n < 2 ^ 128) l /\ Forall (fun p : principal => (length p <= 29)%nat) ps in ~ ~ P -> P.
Proof.
  intros P Hn. destruct (decide P) as [Hd|Hd]; [done|]. exfalso. by apply Hn.
Qed.

Local Ltac fz := repeat (apply Forall_cons; split); try apply Forall_nil_2; try reflexivity.
Lemma update_small w ev r :
  reachable w -> ev_ok w ev -> (step w ev).2 = RespReply r ->
  Forall (fun n => n < 2 ^ 128) (amounts_in r) /\ Forall (fun p => (length p <= 29)%nat) (principals_in r).
Proof.
  intros Hr Hev He. destruct ev as [now caller c sync|now id ans refund|now args|n|n|now id refund].
  - destruct (step w (EvCall now caller c sync)) as [w' resp] eqn:Hst. cbn [snd] in He. subst resp.
    assert (reachable w') as Hr' by (replace w' with (step w (EvCall now caller c sync)).1 by (by rewrite Hst); by constructor).
    pose proof (answer_stored _ _ _ _ _ _ _ Hr Hev Hst) as Hd.
    destruct Hev as (_ & _ & Hwf). revert Hd. apply decided_elim; [apply small_stable| |].
    + intros cond reason x Hin Hx [Ha _]. pose proof (rules_small _ _ _ _ _ _ _ Hr Hwf Hin Hx) as Ht. clear Hin Hx.
      destruct c, x; cbn [answer_of] in Ha; try done; injection Ha as <-; cbn [amounts_in principals_in];
        cbn [small_refusal] in Ht; repeat case_match; simplify_eq; split; fz; try exact Ht; try done.
    + intros [[_ Ha]|(_ & [t Ht] & _)]; [|done]. unfold told_accepted in Ha.
      destruct (outgoing caller c) as [[[f sp] amount]|].
      * destruct (decide _) as [_|_]; [by destruct (outgoing_call _ _)|]. destruct Ha as (fb & ab & Ha).
        destruct c; cbn in Ha; try done; injection Ha as <-; split; fz.
      * destruct c; try done; injection Ha as ->; split; fz. by apply balance_small.
  - destruct (reply_inv _ _ _ _ _ Hr Hev) as (Hi & Hu & Hans).
    cbn [step] in He. destruct (w_pend w !! id) as [p|]; [|done]. destruct (resume now p ans) as [k|] eqn:Ek; [|done].
    destruct (commit (w_led w) (k (w_led w))) as [s' rr] eqn:Ec. cbn [snd] in He. subst rr.
    pose proof (inv_supply _ _ (reachable_inv _ Hr)) as Hs.
    destruct p as [ep from to sp amount i old|ep from sp amount i old created arg];
      destruct ans as [r0|r0]; cbn [resume] in Ek; try done;
      match type of Ek with Some ?a = _ => assert (k = a) as -> by congruence end; clear Ek.
    + destruct r0 as [[]|e]; [destruct ep; cbn in Ec; injection Ec as _ <-; split; apply Forall_nil_2|].
      destruct (withdraw_rest_eq ep from sp amount i old now e (w_led w) (w_led w) Hs) as [x Hx].
      rewrite Hx in Ec. unfold wd_fail_rest in Ec.
      destruct (amount - FEE =? 0); [injection Ec as _ <-; destruct ep; split; fz|].
      destruct (refund_outcome _ _ _ _ _ _ _) as [[[s2 fb] ab]|]; [|done].
      injection Ec as _ <-; destruct ep; split; fz.
    + destruct (create_rest_eq ep from sp amount i old created now r0 (w_led w) (w_led w) Hs) as [x Hx].
      rewrite Hx in Ec. destruct (flat_create_result amount r0) as [c|[code n]] eqn:Ef.
      { assert (wf_principal c) as Hc.
        { destruct r0 as [[q|[]]|]; cbn in Ef; try done; try (by destruct (create_error _ _)).
          injection Ef as <-. exact Hans. }
        injection Ec as _ <-. destruct ep; split; fz; exact Hc. }
      unfold cr_fail_rest in Ec. destruct (n - FEE =? 0); [injection Ec as _ <-; destruct ep; split; fz|].
      destruct (refund_outcome _ _ _ _ _ _ _) as [[[s2 fb] ab]|]; [|done].
      injection Ec as _ <-; destruct ep; split; fz.
  - cbn [step] in He. destruct (post_upgrade _ _) as [s' [u|[]|t]]; done.
  - done.
  - done.
  - cbn [step] in He. by destruct (w_pend w !! id).
Qed.

Lemma update_blocks w ev r :
  reachable w -> ev_ok w ev -> (step w ev).2 = RespReply r ->
  Forall (fun i => i < N.of_nat (length (blocks (w_led (step w ev).1))))
    (PropertiesReceipts.given_out (RespReply r) ++ option_list (ApiSpec.duplicate_of (RespReply r))).
Proof.
  intros Hr Hev He. pose proof (PropertiesReceipts.step_prefix _ _ Hr Hev) as Hpre.
  apply Forall_app. destruct ev as [now caller c sync|now id ans refund|now args|n|n|now id refund].
  - destruct (step w (EvCall now caller c sync)) as [w' resp] eqn:Hst. cbn [fst snd] in *. subst resp.
    destruct (PropertiesReceipts.call_receipt _ _ _ _ _ _ _ Hr Hev Hst) as ((_ & Hd & _) & _ & Hg). split.
    + apply Forall_forall. intros i Hi. by apply Hg.
    + destruct (ApiSpec.duplicate_of (RespReply r)) as [i|] eqn:Ed; [|apply Forall_nil_2].
      destruct (Hd i eq_refl) as (b & Hb & _). apply lookup_lt_Some in Hb. apply Forall_singleton. lia.
  - destruct (reply_inv _ _ _ _ _ Hr Hev) as (Hi & Hu & Hans).
    destruct (step w (EvReply now id ans refund)) as [w' resp] eqn:Hst. cbn [fst snd] in *. subst resp.
    cbn [step] in Hst. destruct (w_pend w !! id) as [p|] eqn:Ep; [|done].
    destruct (resume now p ans) as [k|] eqn:Ek; [|done].
    destruct (commit (w_led w) (k (w_led w))) as [s' rr] eqn:Ec. injection Hst as <- ->. cbn [w_led] in *.
    destruct (reachable_winv _ Hr) as (_ & _ & Hwp). destruct (Hwp _ _ Ep) as [_ Hpo].
    pose proof (PropertiesReceipts.resume_ended _ _ _ _ _ _ _ _ Hi Hu Hpo (wf_answer_u128 _ Hans) Ek Ec) as Hend.
    pose proof (CreateFacts.pend_block_lt _ _ Hpo) as Hlt.
    destruct (PropertiesReceipts.ended_given_out _ _ _ _ _ _ Hend Hpre Hlt) as [_ Hg]. split.
    + apply Forall_forall. intros i Hi'. by apply Hg.
    + destruct Hend as [[-> _] _]. apply Forall_nil_2.
  - cbn [step] in He. destruct (post_upgrade _ _) as [s' [u|[]|t]]; done.
  - done.
  - done.
  - cbn [step] in He. by destruct (w_pend w !! id).
Qed.

Lemma limit_u64 w : reachable w -> is_u64 (max_blocks_per_request (cfg (w_led w))).
Proof.
  induction 1 as [now cycles args w Hu Ha Hin|w ev Hr IH Hev].
  - unfold init_world, init in Hin. destruct args as [c|u]; [|done]. destruct Ha as [Ha _]. unfold bindM in Hin.
    destruct (mint_initial now _ empty_state) as [s1 [o1|[]|t]]; [|done]. by injection Hin as <-.
  - assert (steps w [(ev, (step w ev).2)] (step w ev).1) as Hs by (constructor; [done|constructor]).
    rewrite (PropertiesConfig.steps_cfg _ _ _ Hr Hs). cbn [map fst]. unfold PropertiesConfig.configured. cbn [foldl].
    destruct ev as [| |t [[|[u|]]|]| | |]; try exact IH. destruct Hev as [_ Hw]. cbn in Hw.
    unfold PropertiesUpgrade.upgraded. cbn [max_blocks_per_request]. by destruct (ua_max_blocks_per_request u).
Qed.

(** ** Theorems *)

(** The answer to an update call is at most 300 bytes long, apart from the text of an
    error. *)
Theorem C87_update_answers_are_small w ev r txt m :
  reachable w -> ev_ok w ev -> (step w ev).2 = RespReply r ->
  N.of_nat (length (blocks (w_led (step w ev).1))) <= 2 ^ 64 -> N.of_nat (length txt) <= 2 ^ 64 ->
  (length (answer_bytes m (AnsReply r txt)) <= 300 + length txt)%nat.
Proof.
  intros Hr Hev He Hn Ht. rewrite answer_length. pose proof (header_size m). cbn [answer_v].
  destruct (update_small _ _ _ Hr Hev He) as [Ha Hp]. pose proof (update_blocks _ _ _ Hr Hev He) as Hb.
  assert (size (reply_v txt r) <= 80 + length txt)%nat; [|lia].
  apply reply_size; [|done|done]. unfold numbers_in. apply Forall_app. split; [done|].
  eapply Forall_impl; [exact Hb|]. intros i Hi. eapply N.lt_le_trans; [exact Hi|]. etrans; [exact Hn|].
  vm_compute. discriminate.
Qed.

(** A page of [icrc3_get_blocks] takes at most 500 bytes for each block that it serves,
    and 250 for everything else; it serves at most as many blocks as the ledger is
    configured to. *)
Theorem C87_blocks_pages_are_bounded w args :
  reachable w -> N.of_nat (length (blocks (w_led w))) <= 2 ^ 64 ->
  let r := icrc3_get_blocks (w_led w) args in
  let limit := max_blocks_per_request (cfg (w_led w)) in
  N.of_nat (length (br_blocks r)) <= limit
  /\ (length (answer_bytes MBlocks (AnsBlocks r)) <= 250 + 500 * length (br_blocks r))%nat
  /\ N.of_nat (length (answer_bytes MBlocks (AnsBlocks r))) <= 250 + 500 * limit.
Proof.
  intros Hr Hn r limit. destruct (C29_served_blocks_are_right w args) as (_ & Hl & _). fold r limit in Hl.
  pose proof (limit_u64 _ Hr) as Hu. fold limit in Hu. split; [done|]. rewrite answer_length.
  pose proof (header_size MBlocks). cbn [answer_v].
  pose proof (blocks_size w args Hr Hn) as Hb. cbv zeta in Hb. fold r in Hb. unfold is_u64, U64_MOD in Hu.
  specialize (Hb ltac:(lia)). lia.
Qed.
(** So a page fits the two megabytes of a message if the configured limit is at most
    4000 blocks. *)
Theorem C87_blocks_pages_fit w args :
  reachable w -> N.of_nat (length (blocks (w_led w))) <= 2 ^ 64 ->
  max_blocks_per_request (cfg (w_led w)) <= 4000 ->
  N.of_nat (length (answer_bytes MBlocks (AnsBlocks (icrc3_get_blocks (w_led w) args)))) < 2 * 2 ^ 20.
Proof.
  intros Hr Hn Hl. destruct (C87_blocks_pages_are_bounded w args Hr Hn) as (_ & _ & Hb).
  change (2 * 2 ^ 20) with 2097152. lia.
Qed.

(** A page of [icrc103_get_allowances] is at most 80,240 bytes long. *)
Theorem C87_allowances_pages_are_bounded w now caller from prev take :
  reachable w ->
  N.of_nat (length (answer_bytes MAllowances
    (AnsAllowances (icrc103_get_allowances (w_led w) now caller from prev take)))) <= 80240.
Proof.
  intros Hr. rewrite answer_length. pose proof (header_size MAllowances).
  pose proof (allowances_size w now caller from prev take Hr).
  pose proof (allowances_count w now caller from prev take). lia.
Qed.

(** The limit itself is not limited: it may be set to any number below [2^64], and with
    a large one there is a page that is longer than any given number of bytes. *)
Definition one_more : call := CallDeposit (icrc1_fee + 1) (Acct [] None) None.
Lemma one_more_block w :
  reachable w -> total_supply (w_led w) + 1 < 2 ^ 128 ->
  let w' := (step w (EvCall (w_clock w) [] one_more None)).1 in
  reachable w' /\ length (blocks (w_led w')) = S (length (blocks (w_led w)))
  /\ total_supply (w_led w') = total_supply (w_led w) + 1 /\ cfg (w_led w') = cfg (w_led w).
Proof.
  intros Hr Hs w'. assert (is_u64 (w_clock w)) as Hu by apply (reachable_winv _ Hr).
  assert (ev_ok w (EvCall (w_clock w) [] one_more None)) as Hev.
  { split; [split; [lia|done]|]. split; [cbn; unfold wf_principal; cbn; lia|]. split; [reflexivity|].
    split; [unfold wf_principal; cbn; lia|done]. }
  split; [by constructor|]. pose proof (PropertiesConfig.step_cfg _ _ Hr Hev) as Hc. fold w' in Hc.
  pose proof (inv_supply _ _ (reachable_inv _ Hr)) as Hso. pose proof (supply_bal _ (to_key (Acct [] None)) Hso) as Hb.
  subst w'. destruct (step w (EvCall (w_clock w) [] one_more None)) as [w' resp] eqn:Hst. cbn [fst] in *.
  apply step_call in Hst as (s' & r & He & El & _). unfold one_more in He. rewrite exec_deposit in He.
  assert (dep_decide (Acct [] None) (icrc1_fee + 1) None (w_led w) = OOk tt) as Hd.
  { unfold dep_decide, mint_decide. change (icrc1_fee + 1 <=? FEE) with false. change (icrc1_fee + 1 - FEE) with 1.
    cbv iota. unfold balance_of. change (2 ^ 128) with U128_MOD in Hs.
    destruct (N.leb_spec U128_MOD (bal (w_led w) (to_key (Acct [] None)) + 1)); [lia|].
    destruct (N.leb_spec U128_MOD (total_supply (w_led w) + 1)); [lia|]. reflexivity. }
  rewrite Hd in He. cbv zeta in He. injection He as <- _. rewrite El.
  change (icrc1_fee + 1 - FEE) with 1 in *. split; [|split].
  - pose proof (prune_nblocks (w_clock w) (tx_effect (w_clock w) (Tx (Mint (Acct [] None) 1 FEE) None None) (w_led w))) as Hn.
    unfold nblocks in Hn. apply Nat2N.inj in Hn. rewrite Hn.
    destruct (tx_effect_fields (w_clock w) (Tx (Mint (Acct [] None) 1 FEE) None None) (w_led w)) as (-> & _).
    rewrite app_length. cbn [length]. lia.
  - destruct (prune_state_core (w_clock w) (tx_effect (w_clock w) (Tx (Mint (Acct [] None) 1 FEE) None None) (w_led w)))
      as (_ & _ & _ & _ & -> & _).
    reflexivity.
  - rewrite <- El. exact Hc.
Qed.
Definition long_limit : ledger_args := LInit (Config (2 ^ 63) None None).
Lemma long_log k :
  N.of_nat k <= 2 ^ 60 ->
  exists w, reachable w /\ length (blocks (w_led w)) = k /\ total_supply (w_led w) = N.of_nat k
    /\ max_blocks_per_request (cfg (w_led w)) = 2 ^ 63.
Proof.
  induction k as [|k IH]; intros Hk.
  - destruct (init_world 0 0 long_limit) as [w|] eqn:E; [|done]. exists w. split.
    { eapply (reach_init 0 0 long_limit); [reflexivity| |exact E]. split; [reflexivity|apply Forall_nil_2]. }
    unfold init_world in E. cbn in E. injection E as <-. done.
  - destruct (IH ltac:(lia)) as (w & Hr & Hl & Hs & Hm).
    destruct (one_more_block w Hr) as (Hr' & Hl' & Hs' & Hc').
    { rewrite Hs. change (2 ^ 60) with 1152921504606846976 in Hk.
      change (2 ^ 128) with 340282366920938463463374607431768211456. lia. }
    eexists. split; [exact Hr'|]. rewrite Hl', Hl, Hs', Hs, Hc'. split; [done|]. split; [lia|done].
Qed.
Theorem C87_blocks_pages_fit_any_limit_refuted n :
  N.of_nat n < 2 ^ 60 ->
  exists w, reachable w /\
    (n < length (answer_bytes MBlocks (AnsBlocks (icrc3_get_blocks (w_led w) [(0%N, N.of_nat (S n))]))))%nat.
Proof.
  intros Hn. destruct (long_log (S n) ltac:(lia)) as (w & Hr & Hl & _ & Hm). exists w. split; [done|].
  pose proof (C29_single_range_partial w 0 (N.of_nat (S n))) as Hs. cbv zeta in Hs. rewrite Hl, Hm in Hs.
  change (2 ^ 60) with 1152921504606846976 in Hn. change (2 ^ 63) with 9223372036854775808 in Hs.
  change (2 ^ 64) with 18446744073709551616 in Hs. specialize (Hs ltac:(lia) ltac:(lia)).
  apply (f_equal length) in Hs. rewrite fmap_length in Hs. unfold seqN in Hs. rewrite map_length, seq_length in Hs.
  rewrite answer_length. cbn [answer_v]. set (r := icrc3_get_blocks _ _) in *. unfold blocks_v. rewrite size_rec.
  cbn [map fold_right snd]. rewrite !size_vec.
  assert (forall l : list (N * value), (length l <= total size
    (map (fun b => rec_of [("id"%string, XNat b.1); ("block"%string, value_v b.2)]) l))%nat) as Ht.
  { unfold total. induction l as [|[i v] l IH]; cbn [map fold_right length]; [lia|].
    assert (1 <= size (rec_of [("id"%string, XNat i); ("block"%string, value_v v)]))%nat; [|cbn [fst snd]; lia].
    rewrite size_rec. cbn [map fold_right snd]. rewrite size_nat.
    assert (1 <= length (leb128_nat i))%nat; [|lia]. unfold leb128_nat. cbn [leb128_write].
    destruct (i <? 128); cbn [length]; lia. }
  specialize (Ht (br_blocks r)). unfold total in Ht. lia.
Qed.
End WithEnv.

(** ** A case

    The running example: a page of its blocks and a page of its allowances, with the
    bounds of the theorems, and the answer to a call. *)
Example C87_case :
  reachable demo_world /\ (forall x : value, length (@vhash demo_env x) = 32%nat)
  /\ length (blocks (w_led demo_world)) = 10%nat
  /\ max_blocks_per_request (cfg (w_led demo_world)) <= 4000
  /\ N.of_nat (length (answer_bytes MBlocks (AnsBlocks (icrc3_get_blocks (w_led demo_world) [(0, 10)])))) = 1438
  /\ ev_ok demo_world early /\ (step demo_world early).2 = RespReply (RepTransfer (Err (TCreatedInFuture (T0 + 20 * sec))))
  /\ N.of_nat (length (answer_bytes MTransfer early_answer)) = 131
  /\ N.of_nat (length (answer_bytes MAllowances
       (AnsAllowances (icrc103_get_allowances (w_led demo_world) (T0 + 20 * sec) alice None None None)))) = 210.
Proof.
  split; [apply demo_reachable|]. split; [intros x; apply CodecFacts.be_fixed_length|]. split; [vm_compute; reflexivity|].
  split; [vm_compute; discriminate|]. split; [vm_compute; reflexivity|].
  split; [apply ev_okb_ok; vm_compute; reflexivity|]. split; [vm_compute; reflexivity|].
  split; vm_compute; reflexivity.
Qed.

Print Assumptions C87_update_answers_are_small.
Print Assumptions C87_blocks_pages_are_bounded.
Print Assumptions C87_blocks_pages_fit.
Print Assumptions C87_allowances_pages_are_bounded.
Print Assumptions C87_blocks_pages_fit_any_limit_refuted.
