(** * What is written in the wire format is read back *)
From Verif Require Import Base Types Codec CodecFacts CodecProofs ValueHash HashProofs Candid.

(** ** Numbers *)
Lemma leb_read_write_aux f n rest :
  n < 128 ^ N.of_nat (S f) -> leb_read (leb128_write (S f) n ++ rest) = Some (n, rest).
Proof.
  revert n. induction f as [|f IH]; intros n Hn.
  - change (128 ^ N.of_nat 1) with 128 in Hn. cbn [leb128_write].
    destruct (N.ltb_spec n 128); [|lia]. cbn [app leb_read]. rewrite byte_small by lia.
    destruct (N.ltb_spec n 128); [done|lia].
  - remember (S f) as f' eqn:Ef. cbn [leb128_write]. destruct (N.ltb_spec n 128).
    + cbn [app leb_read]. rewrite byte_small by lia. destruct (N.ltb_spec n 128); [done|lia].
    + cbn [app leb_read]. pose proof (N.mod_lt n 128 ltac:(lia)). rewrite byte_small by lia.
      destruct (N.ltb_spec (n mod 128 + 128) 128); [lia|]. subst f'. rewrite IH.
      * pose proof (N.div_mod n 128 ltac:(lia)). repeat f_equal. lia.
      * apply N.div_lt_upper_bound; [lia|]. rewrite <- N.pow_succ_r', <- Nat2N.inj_succ. done.
Qed.
Lemma leb_read_nat n rest : leb_read (leb128_nat n ++ rest) = Some (n, rest).
Proof. apply leb_read_write_aux, size_bound. Qed.

Lemma sleb_read_write_aux f z rest :
  (- (64 * 128 ^ Z.of_nat f) <= z < 64 * 128 ^ Z.of_nat f)%Z ->
  sleb_read (sleb128_write (S f) z ++ rest) = Some (z, rest).
Proof.
  revert z. induction f as [|f IH]; intros z Hz.
  - change (128 ^ Z.of_nat 0)%Z with 1%Z in Hz. cbn [sleb128_write].
    pose proof (Z.mod_pos_bound z 128 ltac:(lia)) as Hm. pose proof (Z.div_mod z 128 ltac:(lia)) as Hd.
    generalize dependent (z mod 128)%Z. generalize dependent (z / 128)%Z. intros q r Hr Hd.
    destruct (_ || _) eqn:E; [|lia]. cbn [app sleb_read]. rewrite byte_small by lia.
    rewrite Z2N.id by lia.
    destruct (Z.ltb_spec r 64); [repeat f_equal; lia|]. destruct (Z.ltb_spec r 128); [|lia].
    repeat f_equal; lia.
  - remember (S f) as f' eqn:Ef. cbn [sleb128_write].
    pose proof (Z.mod_pos_bound z 128 ltac:(lia)) as Hm. pose proof (Z.div_mod z 128 ltac:(lia)) as Hd.
    generalize dependent (z mod 128)%Z. generalize dependent (z / 128)%Z. intros q r Hr Hd.
    destruct (_ || _) eqn:E.
    + cbn [app sleb_read]. rewrite byte_small by lia. rewrite Z2N.id by lia.
      destruct (Z.ltb_spec r 64); [repeat f_equal; lia|]. destruct (Z.ltb_spec r 128); [|lia].
      repeat f_equal; lia.
    + cbn [app sleb_read]. rewrite byte_small by lia.
      rewrite N2Z.inj_add, Z2N.id by lia. change (Z.of_N 128) with 128%Z.
      destruct (Z.ltb_spec (r + 128) 64); [lia|]. destruct (Z.ltb_spec (r + 128) 128); [lia|].
      subst f'. rewrite IH; [repeat f_equal; lia|].
      rewrite Nat2Z.inj_succ, Z.pow_succ_r in Hz by lia. lia.
Qed.
Lemma sleb_read_int z rest : sleb_read (sleb128_int z ++ rest) = Some (z, rest).
Proof.
  apply sleb_read_write_aux. pose proof (size_bound (Z.abs_N z)) as Hs.
  assert (Z.abs z < 128 ^ Z.of_nat (S (N.size_nat (Z.abs_N z))))%Z.
  { apply N2Z.inj_lt in Hs. rewrite N2Z.inj_abs_N, N2Z.inj_pow, nat_N_Z in Hs. exact Hs. }
  lia.
Qed.

Lemma take_bytes_app n b rest : length b = n -> take_bytes n (b ++ rest) = Some (b, rest).
Proof.
  intros <-. unfold take_bytes. rewrite app_length.
  destruct (Nat.leb_spec (length b) (length b + length rest)); [|lia].
  by rewrite take_app, drop_app.
Qed.
Lemma le_fixed_length w n : length (le_fixed w n) = w.
Proof. revert n. induction w; intros; simpl; auto. Qed.
Lemma le_fixed_number w n : n < 256 ^ N.of_nat w -> le_number (le_fixed w n) = n.
Proof.
  revert n. induction w as [|w IH]; intros n Hn.
  - change (256 ^ N.of_nat 0) with 1 in Hn. simpl. lia.
  - simpl. rewrite to_N_byte_of, IH.
    + pose proof (N.div_mod n 256 ltac:(lia)). lia.
    + apply N.div_lt_upper_bound; [lia|]. by rewrite <- N.pow_succ_r', <- Nat2N.inj_succ.
Qed.
Lemma read_word_enc w n rest :
  n < 256 ^ N.of_nat w -> read_word w (le_fixed w n ++ rest) = Some (XWord w n, rest).
Proof.
  intros Hn. unfold read_word. rewrite take_bytes_app by apply le_fixed_length.
  by rewrite le_fixed_number.
Qed.
Lemma read_sized_enc b rest : read_sized (sized b ++ rest) = Some (b, rest).
Proof.
  unfold read_sized, sized. rewrite <- app_assoc, leb_read_nat.
  apply take_bytes_app. by rewrite Nat2N.id.
Qed.

(** ** Lists *)
Lemma read_many_enc {A} (e : A -> list byte) (f : reader A) l rest :
  (forall x rest, x ∈ l -> f (e x ++ rest) = Some (x, rest)) ->
  read_many f (length l) (concat (map e l) ++ rest) = Some (l, rest).
Proof.
  induction l as [|x l IH]; intros Hf; [done|]. cbn [length read_many map concat].
  rewrite <- app_assoc, Hf by constructor. rewrite IH; [done|].
  intros y r Hy. apply Hf. by constructor.
Qed.
Lemma read_list_enc {A} (e : A -> list byte) (f : reader A) l rest :
  (forall x rest, x ∈ l -> f (e x ++ rest) = Some (x, rest)) ->
  read_list f (enc_list e l ++ rest) = Some (l, rest).
Proof.
  intros Hf. unfold read_list, enc_list. rewrite <- app_assoc, leb_read_nat, Nat2N.id.
  by apply read_many_enc.
Qed.

(** ** The header *)
Lemma read_field_enc f rest : read_field (enc_field f ++ rest) = Some (f, rest).
Proof.
  destruct f as [h r]. unfold read_field, enc_field. simpl.
  by rewrite <- app_assoc, leb_read_nat, sleb_read_int.
Qed.
Lemma read_tycon_enc t rest : read_tycon (enc_tycon t ++ rest) = Some (t, rest).
Proof.
  unfold read_tycon. destruct t as [r|r|fs|fs|a r n]; cbn [enc_tycon]; rewrite <- !app_assoc, sleb_read_int;
    repeat (rewrite (proj2 (Z.eqb_neq _ _)) by done); rewrite Z.eqb_refl.
  - by rewrite sleb_read_int.
  - by rewrite sleb_read_int.
  - rewrite read_list_enc; [done|]. intros. apply read_field_enc.
  - rewrite read_list_enc; [done|]. intros. apply read_field_enc.
  - rewrite read_list_enc by (intros; apply sleb_read_int).
    rewrite read_list_enc by (intros; apply sleb_read_int). by rewrite read_sized_enc.
Qed.

(** ** Values *)
Lemma depth_vec l d : (depth (XVec l) <= S d)%nat -> forall x, x ∈ l -> (depth x <= d)%nat.
Proof.
  cbn [depth]. intros Hd x Hx. induction Hx; simpl in *; [lia|]. apply IHHx. lia.
Qed.
Lemma depth_pos v : (1 <= depth v)%nat.
Proof. destruct v as [| | | | | | | |[]| | |]; simpl; lia. Qed.

Lemma type_at_nonneg tbl r c : type_at tbl r = Some c -> (r <? 0)%Z = false.
Proof. unfold type_at. by destruct (r <? 0)%Z. Qed.

Theorem dec_enc d tbl r v rest :
  typed tbl r v -> (depth v <= d)%nat -> dec d tbl r (enc v ++ rest) = Some (v, rest).
Proof.
  revert r v rest. induction d as [|d IH]; intros r v rest Ht Hd.
  { pose proof (depth_pos v). lia. }
  destruct v as [| | | |w n| | |b|o|l|l|i h v].
  - cbn in Ht. subst r. reflexivity.
  - cbn in Ht. subst r. by destruct b.
  - cbn in Ht. subst r. cbn [enc]. change (dec (S d) tbl T_NAT ?l) with (mapr XNat (leb_read l)).
    by rewrite leb_read_nat.
  - cbn in Ht. subst r. cbn [enc]. change (dec (S d) tbl T_INT ?l) with (mapr XInt (sleb_read l)).
    by rewrite sleb_read_int.
  - cbn [typed] in Ht. destruct Ht as [Hw Hn]. cbn [enc].
    pose proof (read_word_enc w n rest Hn) as Hr.
    destruct w as [|[|[|[|[|[|[|[|[|w]]]]]]]]]; try discriminate Hw; injection Hw as <-; exact Hr.
  - cbn in Ht. subst r. cbn [enc]. change (dec (S d) tbl T_TEXT ?l) with (mapr XText (read_sized l)).
    by rewrite read_sized_enc.
  - cbn in Ht. subst r. cbn [enc app].
    change (dec (S d) tbl T_PRINCIPAL (Byte.x01 :: ?l)) with (mapr XPrincipal (read_sized l)).
    by rewrite read_sized_enc.
  - cbn [typed] in Ht. cbn [dec enc]. rewrite (type_at_nonneg _ _ _ Ht), Ht.
    by rewrite Z.eqb_refl, read_sized_enc.
  - cbn [typed] in Ht. destruct (type_at tbl r) as [[r'| | | |]|] eqn:Et; try done.
    cbn [dec]. rewrite (type_at_nonneg _ _ _ Et), Et. destruct o as [v|]; cbn [enc app]; [|done].
    rewrite IH; [done|done|]. cbn [depth] in Hd. lia.
  - cbn [typed] in Ht. destruct (type_at tbl r) as [[|r'| | |]|] eqn:Et; try done.
    destruct Ht as [Hr Ht]. cbn [dec]. rewrite (type_at_nonneg _ _ _ Et), Et.
    rewrite (proj2 (Z.eqb_neq _ _) Hr). cbn [enc].
    change (leb128_nat (N.of_nat (length l)) ++ concat (map enc l)) with (enc_list enc l).
    rewrite read_list_enc; [done|]. intros x rest' Hx.
    apply IH; [|by eapply depth_vec]. clear -Ht Hx.
    induction Hx as [x l|x y l Hx IHl]; destruct Ht as [H1 H2]; auto.
  - cbn [typed] in Ht. destruct (type_at tbl r) as [[| |fs| |]|] eqn:Et; try done.
    cbn [dec]. rewrite (type_at_nonneg _ _ _ Et), Et. cbn [enc].
    assert (read_fields (dec d tbl) fs (concat (map (fun f => enc f.2) l) ++ rest) = Some (l, rest)) as ->; [|done].
    clear Et. revert fs Ht. cbn [depth] in Hd. apply le_S_n in Hd.
    induction l as [|[h x] l IHl]; intros [|[h' r'] fs] Ht; try done.
    destruct Ht as [-> [Hx Hl]]. cbn [map concat fold_right snd] in *. rewrite <- app_assoc.
    cbn [read_fields]. rewrite IH; [|done|lia]. rewrite IHl; [done|lia|done].
  - cbn [typed] in Ht. destruct (type_at tbl r) as [[| | |fs|]|] eqn:Et; try done.
    destruct (fs !! i) as [[h' r']|] eqn:Ei; [|done]. destruct Ht as [-> Ht].
    cbn [dec]. rewrite (type_at_nonneg _ _ _ Et), Et. cbn [enc].
    rewrite <- app_assoc, leb_read_nat, Nat2N.id, Ei. rewrite IH; [done|done|].
    cbn [depth] in Hd. lia.
Qed.

(** ** Messages *)
Definition well_typed (m : message) : Prop :=
  Forall (fun a => typed (m_table m) a.1 a.2 /\ (depth a.2 <= MAX_DEPTH)%nat) (m_args m).

Theorem read_enc_message m : well_typed m -> read_message (enc_message m) = Some m.
Proof.
  intros Hw. destruct m as [tbl args]. unfold read_message, enc_message. cbn [m_table m_args] in *.
  change (take 4 (DIDL ++ ?x)) with DIDL. change (drop 4 (DIDL ++ ?x)) with x.
  rewrite bool_decide_true by done.
  rewrite read_list_enc by (intros; apply read_tycon_enc).
  rewrite read_list_enc by (intros; apply sleb_read_int).
  assert (read_args MAX_DEPTH tbl (map fst args) (concat (map (fun a => enc a.2) args)) = Some (args, []))
    as ->; [|done].
  unfold well_typed in Hw. cbn [m_table m_args] in Hw.
  induction args as [|[r x] args IH]; [done|]. apply Forall_cons in Hw as [[Ht Hd] Hw].
  cbn [map concat fst snd read_args]. rewrite dec_enc by done. by rewrite IH.
Qed.
