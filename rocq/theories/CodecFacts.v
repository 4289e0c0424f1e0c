(** * Facts about encodings *)
From Verif Require Import Base Types Codec.

Lemma byte_to_N_lt b : Byte.to_N b < 256.
Proof. pose proof (Byte.to_N_bounded b). lia. Qed.

Lemma byte_of_to_N' b : byte_of (Byte.to_N b) = b.
Proof.
  unfold byte_of. rewrite N.mod_small by (pose proof (byte_to_N_lt b); lia).
  by rewrite byte_of_to_N.
Qed.

Lemma to_N_byte_of n : Byte.to_N (byte_of n) = n mod 256.
Proof.
  unfold byte_of. destruct (Byte.of_N (n mod 256)) eqn:E.
  - by apply Byte.to_of_N in E.
  - exfalso. apply Byte.of_N_None_iff in E.
    pose proof (N.mod_upper_bound n 256). lia.
Qed.

(** ** Big-endian numbers *)
Lemma from_be_app l1 l2 :
  from_be (l1 ++ l2) = from_be l1 * 256 ^ N.of_nat (length l2) + from_be l2.
Proof.
  assert (forall l acc,
    fold_left (fun acc b => acc * 256 + Byte.to_N b) l acc
    = acc * 256 ^ N.of_nat (length l) + from_be l) as Hf.
  { unfold from_be. induction l as [|b l IH]; intros acc; simpl.
    - rewrite N.pow_0_r. lia.
    - rewrite IH. rewrite (IH (0 * 256 + Byte.to_N b)).
      rewrite Nat2N.inj_succ, N.pow_succ_r'. lia. }
  unfold from_be at 1. rewrite fold_left_app. fold (from_be l1). apply Hf.
Qed.

Lemma from_be_cons b l :
  from_be (b :: l) = Byte.to_N b * 256 ^ N.of_nat (length l) + from_be l.
Proof.
  change (b :: l) with ([b] ++ l). rewrite from_be_app.
  unfold from_be at 1. simpl. lia.
Qed.

Lemma from_be_nil : from_be [] = 0.
Proof. reflexivity. Qed.

Lemma from_be_lt l : from_be l < 256 ^ N.of_nat (length l).
Proof.
  induction l as [|b l IH].
  - rewrite from_be_nil. simpl. lia.
  - rewrite from_be_cons. simpl length. rewrite Nat2N.inj_succ, N.pow_succ_r'.
    pose proof (byte_to_N_lt b).
    pose proof (from_be_lt_aux := IH). nia.
Qed.

Lemma be_fixed_length k n : length (be_fixed k n) = k.
Proof.
  revert n. induction k as [|k IH]; intros n; simpl; [done|].
  rewrite app_length, IH. simpl. lia.
Qed.

Lemma from_be_fixed k n : n < 256 ^ N.of_nat k -> from_be (be_fixed k n) = n.
Proof.
  revert n. induction k as [|k IH]; intros n Hn; simpl.
  - rewrite N.pow_0_r in Hn. rewrite from_be_nil. lia.
  - rewrite Nat2N.inj_succ, N.pow_succ_r' in Hn.
    rewrite from_be_app, IH.
    + rewrite from_be_cons, from_be_nil, to_N_byte_of. simpl length.
      rewrite N.pow_0_r. change (N.of_nat 1) with 1. rewrite N.pow_1_r.
      pose proof (N.div_mod n 256). lia.
    + apply N.div_lt_upper_bound; lia.
Qed.

Lemma be_fixed_from_be l : be_fixed (length l) (from_be l) = l.
Proof.
  induction l as [|b l IH] using rev_ind; [done|].
  rewrite app_length, Nat.add_comm. simpl length. simpl.
  rewrite from_be_app, from_be_cons, from_be_nil. simpl length.
  rewrite N.pow_0_r. change (N.of_nat 1) with 1. rewrite N.pow_1_r.
  pose proof (byte_to_N_lt b).
  replace (from_be l * 256 + (Byte.to_N b * 1 + 0)) with (Byte.to_N b + from_be l * 256) by lia.
  rewrite N.div_add, N.div_small by lia. rewrite N.add_0_l, IH. f_equal.
  unfold byte_of. rewrite N.mod_add, N.mod_small by lia. by rewrite byte_of_to_N.
Qed.

Lemma from_be_strip l : from_be (strip_zeros l) = from_be l.
Proof.
  induction l as [|b l IH]; [done|]. simpl. case_bool_decide as E.
  - rewrite IH, from_be_cons. subst b. simpl. lia.
  - done.
Qed.

Lemma strip_zeros_length l : (length (strip_zeros l) <= length l)%nat.
Proof.
  induction l as [|b l IH]; simpl; [done|]. case_bool_decide; simpl; lia.
Qed.

Lemma from_nat_be n : from_be (nat_be n) = n.
Proof.
  unfold nat_be. destruct (N.eqb_spec n 0) as [->|Hn]; [done|].
  rewrite from_be_strip. apply from_be_fixed.
  rewrite <- (N2Nat.id (N.of_nat (N.size_nat n))), Nat2N.id.
  assert (n < 2 ^ N.of_nat (N.size_nat n)) as Hs.
  { destruct n; [lia|]. simpl N.size_nat.
    replace (N.of_nat (Pos.size_nat p)) with (N.size (N.pos p)).
    - apply N.size_gt.
    - simpl. clear. induction p; simpl; lia. }
  eapply N.lt_le_trans; [exact Hs|]. apply N.pow_le_mono_l. lia.
Qed.

Global Arguments be_fixed : simpl never.
Global Arguments strip_zeros : simpl never.
Global Arguments from_be : simpl never.
Global Arguments nat_be : simpl never.
Global Arguments byte_of : simpl never.
Global Arguments sub_bytes : simpl never.

(** ** Every transaction can be hashed *)
Definition cg_ok (depth : N) (v : cvalue) : Prop := exists y, cbor_to_generic depth v = Some y.

Lemma cg_ok_array depth l :
  depth < 64 -> Forall (cg_ok (depth + 1)) l -> cg_ok depth (CArray l).
Proof.
  intros Hd Hl. unfold cg_ok. simpl. unfold VALUE_DEPTH_LIMIT.
  destruct (N.leb_spec 64 depth); [lia|].
  match goal with |- exists _, match ?g l with _ => _ end = _ =>
    assert (exists ys, g l = Some ys) as [ys ->]; [|by eexists] end.
  induction Hl as [|x l [y Hy] Hl [ys IH]]; [by eexists|].
  rewrite Hy, IH. by eexists.
Qed.

Lemma cg_ok_map depth m :
  depth < 64 ->
  Forall (fun kv => (exists s, kv.1 = CText s) /\ cg_ok (depth + 1) kv.2) m ->
  cg_ok depth (CMap m).
Proof.
  intros Hd Hm. unfold cg_ok. simpl. unfold VALUE_DEPTH_LIMIT.
  destruct (N.leb_spec 64 depth); [lia|].
  match goal with |- exists _, match ?g m [] with _ => _ end = _ =>
    assert (forall acc, exists ys, g m acc = Some ys) as Hg end.
  { induction Hm as [|[k x] m [[s Hs] [y Hy]] Hm IH]; intros acc; [by eexists|].
    simpl in Hs, Hy. subst k. rewrite Hy. apply IH. }
  destruct (Hg []) as [ys ->]. by eexists.
Qed.

Lemma cg_ok_uint depth n : depth < 64 -> cg_ok depth (uint_to_cbor n).
Proof.
  intros Hd. unfold cg_ok, uint_to_cbor.
  destruct (n <? U64_MOD); simpl; unfold VALUE_DEPTH_LIMIT;
    destruct (N.leb_spec 64 depth); try lia.
  - destruct (Z.ltb_spec (Z.of_N n) 0); [lia|]. by eexists.
  - simpl. by eexists.
Qed.

Lemma cg_ok_bytes depth b : depth < 64 -> cg_ok depth (CBytes b).
Proof.
  intros Hd. unfold cg_ok. simpl. unfold VALUE_DEPTH_LIMIT.
  destruct (N.leb_spec 64 depth); [lia|]. by eexists.
Qed.

Lemma cg_ok_text depth b : depth < 64 -> cg_ok depth (CText b).
Proof.
  intros Hd. unfold cg_ok. simpl. unfold VALUE_DEPTH_LIMIT.
  destruct (N.leb_spec 64 depth); [lia|]. by eexists.
Qed.

Lemma cg_ok_account depth a : depth + 1 < 64 -> cg_ok depth (account_to_cbor a).
Proof.
  intros Hd. apply cg_ok_array; [lia|].
  apply Forall_forall. intros x (b & -> & _)%elem_of_list_fmap. by apply cg_ok_bytes.
Qed.

Lemma Forall_opt_field {A} (P : cvalue * cvalue -> Prop) k (f : A -> cvalue) o :
  (forall x, P (CText k, f x)) -> Forall P (opt_field k (f <$> o)).
Proof. intros HP. destruct o; simpl; by constructor. Qed.

Lemma tx_hash_value_some t : exists v, tx_hash_value t = Some v.
Proof.
  unfold tx_hash_value, tx_to_cbor, flat_to_cbor. apply cg_ok_map; [lia|].
  repeat first [apply Forall_app_2 | apply Forall_cons_2 | apply Forall_nil_2
               | apply Forall_opt_field; intros ?];
    (split; [by eexists|simpl]);
    first [apply cg_ok_uint | apply cg_ok_bytes | apply cg_ok_text | apply cg_ok_account]; lia.
Qed.

Lemma tx_hash_some `{Env} t : exists h, tx_hash t = Some h.
Proof.
  unfold tx_hash. destruct (tx_hash_value_some t) as [v ->]. by eexists.
Qed.
