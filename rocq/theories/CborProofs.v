(** * Reading back written CBOR bytes *)
From Coq Require Import Strings.String.
From Verif Require Import Base Types Codec CodecFacts Cbor State Ledger Canister Effects Spec Inv Steps
  World QueryFacts CodecProofs.

Section CValueInd2.
  Context (P : cvalue -> Prop).
  Context (Hi : forall z, P (CInteger z)) (Hb : forall b, P (CBytes b)) (Hf : P CFloat)
    (Ht : forall s, P (CText s)) (Hbo : forall b, P (CBool b)) (Hnu : P CNull)
    (Htag : forall t v, P v -> P (CTag t v))
    (Ha : forall l, Forall P l -> P (CArray l))
    (Hm : forall m, Forall (fun kv => P kv.1 /\ P kv.2) m -> P (CMap m)).
  Fixpoint cvalue_full_ind (v : cvalue) : P v :=
    match v with
    | CInteger z => Hi z
    | CBytes b => Hb b
    | CFloat => Hf
    | CText s => Ht s
    | CBool b => Hbo b
    | CNull => Hnu
    | CTag t x => Htag t x (cvalue_full_ind x)
    | CArray l => Ha l ((fix go (l : list cvalue) : Forall P l :=
                           match l with
                           | [] => @List.Forall_nil _ P
                           | x :: l' => @List.Forall_cons _ P x l' (cvalue_full_ind x) (go l')
                           end) l)
    | CMap m => Hm m ((fix go (m : list (cvalue * cvalue)) : Forall (fun kv => P kv.1 /\ P kv.2) m :=
                           match m with
                           | [] => @List.Forall_nil _ _
                           | x :: m' => @List.Forall_cons _ (fun kv => P kv.1 /\ P kv.2) x m'
                                          (conj (cvalue_full_ind x.1) (cvalue_full_ind x.2)) (go m')
                           end) m)
    end.
End CValueInd2.

Definition enc_list (l : list cvalue) : list byte := concat (map cbor_encode l).
Definition unpair (m : list (cvalue * cvalue)) : list cvalue := concat (map (fun kv => [kv.1; kv.2]) m).
Lemma cbor_encode_array l :
  cbor_encode (CArray l) = cbor_head 4 (N.of_nat (length l)) ++ enc_list l.
Proof.
  simpl. f_equal. unfold enc_list. induction l as [|x l IH]; simpl; [done|]. by rewrite IH.
Qed.
Lemma cbor_encode_map m :
  cbor_encode (CMap m) = cbor_head 5 (N.of_nat (length m)) ++ enc_list (unpair m).
Proof.
  simpl. f_equal. unfold enc_list, unpair. induction m as [|[k x] m IH]; simpl; [done|]. by rewrite IH.
Qed.
Lemma unpair_length m : length (unpair m) = (2 * length m)%nat.
Proof. unfold unpair. induction m as [|x m IH]; simpl; lia. Qed.
Lemma pair_up_unpair m : pair_up (unpair m) = m.
Proof. unfold unpair. induction m as [|[k x] m IH]; simpl; [done|]. by rewrite IH. Qed.

(** Values whose integers, tags and lengths fit CBOR heads. *)
Fixpoint cbor_wf (v : cvalue) : Prop :=
  match v with
  | CInteger z => (- 2 ^ 64 <= z < 2 ^ 64)%Z
  | CBytes b => is_u64 (N.of_nat (length b))
  | CText s => is_u64 (N.of_nat (length (text_bytes s)))
  | CArray l => is_u64 (N.of_nat (length l))
      /\ (fix go (l : list cvalue) := match l with [] => True | x :: l' => cbor_wf x /\ go l' end) l
  | CMap m => is_u64 (N.of_nat (length m))
      /\ (fix go (m : list (cvalue * cvalue)) :=
            match m with [] => True | x :: m' => (cbor_wf x.1 /\ cbor_wf x.2) /\ go m' end) m
  | CTag t x => is_u64 t /\ cbor_wf x
  | _ => True
  end.
Lemma cbor_wf_array l :
  cbor_wf (CArray l) <-> is_u64 (N.of_nat (length l)) /\ Forall cbor_wf l.
Proof.
  simpl. apply and_iff_compat_l. induction l as [|x l IH]; [split; [constructor|done]|].
  rewrite Forall_cons, <- IH. done.
Qed.
Definition kv_wf (kv : cvalue * cvalue) : Prop := cbor_wf kv.1 /\ cbor_wf kv.2.
Lemma cbor_wf_map m :
  cbor_wf (CMap m) <-> is_u64 (N.of_nat (length m)) /\ Forall kv_wf m.
Proof.
  simpl. apply and_iff_compat_l. induction m as [|x m IH]; [split; [constructor|done]|].
  rewrite Forall_cons, <- IH. done.
Qed.

(** ** Heads *)
Lemma split_at_app l1 l2 : split_at (length l1) (l1 ++ l2) = Some (l1, l2).
Proof. induction l1 as [|b l1 IH]; simpl; [done|]. by rewrite IH. Qed.
Lemma take_bytes_app l1 l2 : take_bytes (N.of_nat (length l1)) (l1 ++ l2) = Some (l1, l2).
Proof.
  unfold take_bytes. rewrite app_length.
  destruct (N.ltb_spec (N.of_nat (length l1 + length l2)) (N.of_nat (length l1))); [lia|].
  rewrite Nat2N.id. apply split_at_app.
Qed.

Lemma cbor_head_cons major n : exists b l, cbor_head major n = b :: l.
Proof. unfold cbor_head. repeat (destruct (_ <? _); [by eexists _, _|]). by eexists _, _. Qed.

Lemma head_byte major i : major < 8 -> i < 32 ->
  Byte.to_N (byte_of (major * 32 + i)) / 32 = major /\ Byte.to_N (byte_of (major * 32 + i)) mod 32 = i.
Proof.
  intros Hm Hi. rewrite to_N_byte_of, N.mod_small by lia. split.
  - symmetry. apply (N.div_unique _ _ _ i); lia.
  - symmetry. apply (N.mod_unique _ _ major); lia.
Qed.
(** A written head is read back. *)
Lemma read_head major n rest :
  major < 8 -> is_u64 n ->
  exists b l, cbor_head major n ++ rest = b :: l /\ Byte.to_N b / 32 = major
    /\ read_arg (Byte.to_N b mod 32) l = Some (n, rest).
Proof.
  intros Hm Hn. unfold is_u64, U64_MOD in Hn. unfold cbor_head, read_arg.
  assert (forall k (H : n < 256 ^ N.of_nat k), 
    match split_at k (be_fixed k n ++ rest) with Some (x, r) => Some (from_be x, r) | None => None end
    = Some (n, rest)) as Hw.
  { intros k Hk. pose proof (split_at_app (be_fixed k n) rest) as Hs. rewrite be_fixed_length in Hs.
    rewrite Hs. by rewrite from_be_fixed. }
  destruct (N.ltb_spec n 24).
  { destruct (head_byte major n) as [Hb1 Hb2]; [done|lia|]. eexists _, _. split; [reflexivity|].
    rewrite Hb1, Hb2. split; [done|]. destruct (N.ltb_spec n 24); [done|lia]. }
  destruct (N.ltb_spec n (2 ^ 8)).
  { destruct (head_byte major 24) as [Hb1 Hb2]; [done|lia|]. eexists _, _. split; [reflexivity|].
    rewrite Hb1, Hb2. split; [done|]. cbn. apply (Hw 1%nat). done. }
  destruct (N.ltb_spec n (2 ^ 16)).
  { destruct (head_byte major 25) as [Hb1 Hb2]; [done|lia|]. eexists _, _. split; [reflexivity|].
    rewrite Hb1, Hb2. split; [done|]. cbn. apply (Hw 2%nat). done. }
  destruct (N.ltb_spec n (2 ^ 32)).
  { destruct (head_byte major 26) as [Hb1 Hb2]; [done|lia|]. eexists _, _. split; [reflexivity|].
    rewrite Hb1, Hb2. split; [done|]. cbn. apply (Hw 4%nat). done. }
  destruct (head_byte major 27) as [Hb1 Hb2]; [done|lia|]. eexists _, _. split; [reflexivity|].
  rewrite Hb1, Hb2. split; [done|]. cbn. apply (Hw 8%nat). done.
Qed.

(** ** Items *)
Definition reads (v : cvalue) : Prop :=
  forall f rest, (2 * length (cbor_encode v) <= f)%nat ->
    cbor_dec f (cbor_encode v ++ rest) = Some (v, rest).

Lemma cbor_encode_pos v : (1 <= length (cbor_encode v))%nat.
Proof.
  assert (forall m n l, (1 <= length (cbor_head m n ++ l))%nat) as Hh.
  { intros m n l. destruct (cbor_head_cons m n) as (b & l' & ->). simpl. lia. }
  destruct v as [z|b| |s|b| |t x|l|m]; try (cbn; lia); try apply Hh.
  cbn [cbor_encode]. destruct (z <? 0)%Z; rewrite <- (app_nil_r (cbor_head _ _)); apply Hh.
Qed.

Lemma reads_seq l f rest :
  Forall reads l -> (1 + 2 * length (enc_list l) <= f)%nat ->
  cbor_dec_seq f (N.of_nat (length l)) (enc_list l ++ rest) = Some (l, rest).
Proof.
  intros Hl. revert f. induction Hl as [|x l Hx Hl IH]; intros f Hf.
  - destruct f as [|f]; [simpl in Hf; lia|]. done.
  - unfold enc_list in *. cbn [map concat] in *. rewrite app_length in Hf.
    pose proof (cbor_encode_pos x). destruct f as [|f]; [lia|].
    cbn [cbor_dec_seq length]. destruct (N.eqb_spec (N.of_nat (S (length l))) 0); [lia|].
    rewrite <- app_assoc, (Hx f) by lia.
    replace (N.of_nat (S (length l)) - 1) with (N.of_nat (length l)) by lia.
    rewrite IH by lia. done.
Qed.

Lemma cbor_reads v : cbor_wf v -> reads v.
Proof.
  induction v as [z|b| |s|b| |t x IH|l IH|m IH] using cvalue_full_ind; intros Hwf f rest Hf;
    (destruct f as [|f]; [match goal with H : (2 * length (cbor_encode ?v) <= 0)%nat |- _ =>
                          pose proof (cbor_encode_pos v); lia end|]).
  - cbn [cbor_encode] in *. destruct (Z.ltb_spec z 0) as [Hz|Hz].
    + destruct (read_head 1 (Z.to_N (-1 - z)) rest) as (b & l & -> & Hm & Hr);
        [lia|simpl in Hwf; unfold is_u64, U64_MOD; lia|].
      cbn [cbor_dec]. rewrite Hm. cbn. rewrite Hr. cbn. do 2 f_equal. f_equal. lia.
    + destruct (read_head 0 (Z.to_N z) rest) as (b & l & -> & Hm & Hr);
        [lia|simpl in Hwf; unfold is_u64, U64_MOD; lia|].
      cbn [cbor_dec]. rewrite Hm. cbn. rewrite Hr. cbn. do 2 f_equal. f_equal. lia.
  - cbn [cbor_encode cbor_wf] in *. rewrite <- app_assoc.
    destruct (read_head 2 _ (b ++ rest) ltac:(lia) Hwf) as (b0 & l & -> & Hm & Hr).
    cbn [cbor_dec]. rewrite Hm. cbn. rewrite Hr. cbn. by rewrite take_bytes_app.
  - done.
  - cbn [cbor_encode cbor_wf] in *. rewrite <- app_assoc.
    destruct (read_head 3 _ (text_bytes s ++ rest) ltac:(lia) Hwf) as (b0 & l & -> & Hm & Hr).
    cbn [cbor_dec]. rewrite Hm. cbn. rewrite Hr. cbn. rewrite take_bytes_app.
    unfold bytes_text, text_bytes. by rewrite string_of_list_byte_of_string.
  - by destruct b.
  - done.
  - cbn [cbor_encode] in *. destruct Hwf as [Ht Hx]. rewrite <- app_assoc.
    destruct (read_head 6 _ (cbor_encode x ++ rest) ltac:(lia) Ht) as (b0 & l & E & Hm & Hr).
    rewrite E. cbn [cbor_dec]. rewrite Hm. cbn. rewrite Hr. cbn.
    rewrite (IH Hx f); [done|]. rewrite app_length in Hf.
    destruct (cbor_head_cons 6 t) as (? & ? & Eh). rewrite Eh in Hf. simpl in Hf. lia.
  - apply cbor_wf_array in Hwf as [Hl Hwf]. rewrite cbor_encode_array in *. rewrite <- app_assoc.
    destruct (read_head 4 _ (enc_list l ++ rest) ltac:(lia) Hl) as (b0 & l0 & E & Hm & Hr).
    rewrite E. cbn [cbor_dec]. rewrite Hm. cbn. rewrite Hr. cbn.
    rewrite reads_seq; [done| |].
    + apply Forall_forall. intros x Hx. rewrite Forall_forall in IH, Hwf. auto.
    + rewrite app_length in Hf. destruct (cbor_head_cons 4 (N.of_nat (length l))) as (? & ? & Eh).
      rewrite Eh in Hf. simpl in Hf. lia.
  - apply cbor_wf_map in Hwf as [Hl Hwf]. rewrite cbor_encode_map in *. rewrite <- app_assoc.
    destruct (read_head 5 _ (enc_list (unpair m) ++ rest) ltac:(lia) Hl) as (b0 & l0 & E & Hm & Hr).
    rewrite E. cbn [cbor_dec]. rewrite Hm. cbn. rewrite Hr. cbn.
    replace (2 * N.of_nat (length m)) with (N.of_nat (length (unpair m))) by (rewrite unpair_length; lia).
    rewrite reads_seq; [by rewrite pair_up_unpair| |].
    + clear -IH Hwf. unfold unpair. induction IH as [|[k x] m [Hk Hx] IH IHm]; simpl; [constructor|].
      inversion Hwf as [|? ? [W1 W2] Hwf']; subst. repeat constructor; auto.
    + rewrite app_length in Hf. destruct (cbor_head_cons 5 (N.of_nat (length m))) as (? & ? & Eh).
      rewrite Eh in Hf. simpl in Hf. lia.
Qed.

Lemma cbor_decode_encode v rest :
  cbor_wf v -> cbor_decode (cbor_encode v ++ rest) = Some (v, rest).
Proof.
  intros Hwf. unfold cbor_decode. apply cbor_reads; [done|]. rewrite app_length. lia.
Qed.

(** ** Blocks *)
Lemma uint_wf n : is_u128 n -> cbor_wf (uint_to_cbor n).
Proof.
  intros Hn. unfold uint_to_cbor. destruct (N.ltb_spec n U64_MOD) as [Hl|Hl].
  - simpl. unfold U64_MOD in Hl. lia.
  - cbn [cbor_wf]. pose proof (strip_zeros_length (be_fixed 16 n)) as Hs. rewrite be_fixed_length in Hs.
    unfold is_u64, U64_MOD, TAG_BIGNUM. lia.
Qed.
Lemma account_wf a : wf_account a -> cbor_wf (account_to_cbor a).
Proof.
  intros [Ho Hs]. unfold wf_principal in Ho. unfold account_to_cbor, compact_of_account.
  apply cbor_wf_array. unfold is_u64, U64_MOD.
  destruct (subacct a) as [s|]; cbn [map length]; (split; [lia|]);
    repeat (apply Forall_cons_2; [cbn [cbor_wf]; unfold is_u64, U64_MOD|]); try apply Forall_nil_2; try lia.
  unfold sub_bytes. pose proof (be_fixed_length 32 s). lia.
Qed.
Lemma bytes_wf l : (length l <= 32)%nat -> cbor_wf (CBytes l).
Proof. intros. simpl. unfold is_u64, U64_MOD. lia. Qed.

Lemma opt_field_wf {A} (P : A -> Prop) k (f : A -> cvalue) o :
  cbor_wf (CText k) -> (forall x, P x -> cbor_wf (f x)) -> (forall x, o = Some x -> P x) ->
  Forall kv_wf (opt_field k (f <$> o)).
Proof.
  intros Hk Hf Ho. destruct o as [x|]; cbn [fmap option_fmap option_map opt_field].
  - apply Forall_cons_2; [|apply Forall_nil_2]. split; [exact Hk|]. apply Hf. by apply Ho.
  - apply Forall_nil_2.
Qed.
Lemma opt_field_length k o : (length (opt_field k o) <= 1)%nat.
Proof. destruct o; simpl; lia. Qed.

Lemma tx_cbor_wf t :
  wf_op (tx_op t) -> wf_u64_opt (tx_created_at t) -> validate_memo (tx_memo t) = true ->
  cbor_wf (tx_to_cbor t).
Proof.
  intros Hop Hc Hm. pose proof (wf_flat_of_tx t Hop Hc) as (W1 & W2 & W3 & W4 & W5 & W6 & W7 & W8).
  unfold tx_to_cbor, flat_to_cbor. apply cbor_wf_map. split.
  - rewrite !app_length. cbn [length].
    repeat match goal with |- context [length (opt_field ?k ?o)] =>
      let H := fresh in pose proof (opt_field_length k o) as H; 
      generalize dependent (length (opt_field k o)); intros end.
    unfold is_u64, U64_MOD. lia.
  - assert (Ht : forall s, N.of_nat (length (text_bytes s)) < 100 -> cbor_wf (CText s)).
    { intros s Hs. simpl. unfold is_u64, U64_MOD. lia. }
    assert (Hmm : forall x, tx_memo t = Some x -> (length x <= 32)%nat).
    { intros x Ex. rewrite Ex in Hm. simpl in Hm. unfold MAX_MEMO_LENGTH in Hm. lia. }
    repeat apply Forall_app_2.
    + eapply (opt_field_wf is_u128); [by apply Ht|apply uint_wf|]. intros; eapply wf_opt_u64; eassumption.
    + eapply (opt_field_wf (fun x => (length x <= 32)%nat)); [by apply Ht|apply bytes_wf|]. exact Hmm.
    + apply Forall_cons_2; [split; [by apply Ht|]|apply Forall_nil_2]. apply Ht. by destruct t as [[] ? ?].
    + eapply (opt_field_wf wf_account); [by apply Ht|apply account_wf|]. intros; eapply wf_opt_acct; eassumption.
    + eapply (opt_field_wf wf_account); [by apply Ht|apply account_wf|]. intros; eapply wf_opt_acct; eassumption.
    + eapply (opt_field_wf wf_account); [by apply Ht|apply account_wf|]. intros; eapply wf_opt_acct; eassumption.
    + apply Forall_cons_2; [split; [by apply Ht|]|apply Forall_nil_2]. by apply uint_wf.
    + eapply (opt_field_wf is_u128); [by apply Ht|apply uint_wf|]. intros; eapply wf_opt_u128; eassumption.
    + eapply (opt_field_wf is_u128); [by apply Ht|apply uint_wf|]. intros; eapply wf_opt_u128; eassumption.
    + eapply (opt_field_wf is_u128); [by apply Ht|apply uint_wf|]. intros; eapply wf_opt_u64; eassumption.
Qed.

Lemma block_cbor_wf b : wf_block b -> validate_memo (tx_memo (b_tx b)) = true -> cbor_wf (block_to_cbor b).
Proof.
  intros (Hop & Hc & Hts & Hph & Hfee) Hm. unfold block_to_cbor. apply cbor_wf_map.
  assert (Ht : forall s, N.of_nat (length (text_bytes s)) < 100 -> cbor_wf (CText s)).
  { intros s Hs. simpl. unfold is_u64, U64_MOD. lia. }
  split.
  - rewrite !app_length. cbn [length].
    repeat match goal with |- context [length (opt_field ?k ?o)] =>
      let H := fresh in pose proof (opt_field_length k o) as H; 
      generalize dependent (length (opt_field k o)); intros end.
    unfold is_u64, U64_MOD. lia.
  - repeat apply Forall_app_2.
    + apply Forall_cons_2; [split; [by apply Ht|]|apply Forall_nil_2]. by apply tx_cbor_wf.
    + apply Forall_cons_2; [split; [by apply Ht|]|apply Forall_nil_2]. by apply uint_wf, u64_u128.
    + eapply (opt_field_wf (fun x => (length x <= 32)%nat)); [by apply Ht|apply bytes_wf|].
      intros x E. rewrite E in Hph. lia.
    + eapply (opt_field_wf is_u128); [by apply Ht|apply uint_wf|]. intros; eapply wf_opt_u128; eassumption.
Qed.

Lemma block_bytes_round_trip b rest :
  wf_block b -> validate_memo (tx_memo (b_tx b)) = true ->
  block_from_bytes (block_to_bytes b ++ rest) = Some b.
Proof.
  intros Hb Hm. unfold block_from_bytes, block_to_bytes.
  rewrite cbor_decode_encode by by apply block_cbor_wf. by apply block_round_trip.
Qed.
