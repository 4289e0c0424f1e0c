(** * Equal hashes mean equal values, unless SHA-256 collides *)
From Coq Require Import Strings.String.
From Verif Require Import Base Types Codec CodecFacts State Ledger Canister Effects Spec Inv Steps World
  CodecProofs ValueHash HashSpec.

Local Open Scope string_scope.
Local Open Scope list_scope.
Local Open Scope N_scope.

(** ** LEB128 *)
Local Notation uleb := leb_value.
Lemma byte_small n : n < 256 -> Byte.to_N (byte_of n) = n.
Proof. intros. by rewrite to_N_byte_of, N.mod_small. Qed.
Lemma mod_plus n : n < 128 -> (n + 128) mod 128 = n.
Proof. intros. rewrite N.add_mod, N.mod_same, N.add_0_r, N.mod_mod, N.mod_small; lia. Qed.
Lemma uleb_write f n : n < 128 ^ N.of_nat f -> uleb (leb128_write f n) = n.
Proof.
  revert n. induction f as [|f IH]; intros n Hn.
  - change (128 ^ N.of_nat 0) with 1 in Hn. simpl. lia.
  - cbn [leb128_write]. destruct (N.ltb_spec n 128).
    + simpl. rewrite byte_small by lia. rewrite N.mod_small; lia.
    + cbn [uleb foldr]. fold (uleb (leb128_write f (n / 128))).
      pose proof (N.mod_lt n 128 ltac:(lia)). rewrite byte_small by lia.
      rewrite mod_plus by done. rewrite IH.
      * pose proof (N.div_mod n 128 ltac:(lia)). lia.
      * apply N.div_lt_upper_bound; [lia|]. rewrite <- N.pow_succ_r', <- Nat2N.inj_succ. done.
Qed.
Lemma size_bound n : n < 128 ^ N.of_nat (S (N.size_nat n)).
Proof.
  destruct n as [|p]; [reflexivity|]. 
  apply N.lt_le_trans with (2 ^ N.of_nat (S (N.size_nat (N.pos p)))).
  - eapply N.lt_trans; [apply N.size_gt|]. apply N.pow_lt_mono_r; [lia|].
    rewrite Nat2N.inj_succ. simpl.
    assert (N.of_nat (Pos.size_nat p) = N.pos (Pos.size p)) as ->; [|lia].
    induction p; simpl; rewrite ?Nat2N.inj_succ, ?IHp; done.
  - apply N.pow_le_mono_l. lia.
Qed.
Lemma uleb_nat n : uleb (leb128_nat n) = n.
Proof. apply uleb_write, size_bound. Qed.
Lemma uleb_u64 n : is_u64 n -> uleb (leb128_u64 n) = n.
Proof.
  intros Hn. apply uleb_write. eapply N.lt_trans; [exact Hn|]. reflexivity.
Qed.
Lemma uleb_swrite f z : (0 <= z)%Z -> Z.to_N z < 64 * 128 ^ N.of_nat f ->
  uleb (sleb128_write (S f) z) = Z.to_N z.
Proof.
  revert z. induction f as [|f IH]; intros z H0 Hz.
  - change (128 ^ N.of_nat 0) with 1 in Hz. cbn [sleb128_write].
    rewrite Z.div_small, Z.mod_small by lia. destruct (_ || _) eqn:E; [|lia].
    simpl. rewrite byte_small by lia. rewrite N.mod_small; lia.
  - remember (S f) as f' eqn:Ef. cbn [sleb128_write].
    pose proof (Z.mod_pos_bound z 128 ltac:(lia)) as Hm. pose proof (Z.div_mod z 128 ltac:(lia)) as Hd.
    pose proof (Z.div_pos z 128 H0 ltac:(lia)) as Hp.
    generalize dependent (z mod 128)%Z. generalize dependent (z / 128)%Z. intros q Hq r Hr Hd.
    destruct (_ || _) eqn:E.
    + simpl. rewrite byte_small by lia. rewrite N.mod_small; lia.
    + cbn [uleb foldr]. fold (uleb (sleb128_write f' q)). subst f'.
      rewrite byte_small by lia. rewrite mod_plus by lia. rewrite IH.
      * lia.
      * done.
      * rewrite Nat2N.inj_succ, N.pow_succ_r' in Hz. nia.
Qed.
Lemma uleb_int z : (0 <= z)%Z -> uleb (sleb128_int z) = Z.to_N z.
Proof.
  intros Hz. unfold sleb128_int. apply uleb_swrite; [done|].
  replace (Z.abs_N z) with (Z.to_N z) by lia. pose proof (size_bound (Z.to_N z)). lia.
Qed.

Section Hash.
Context `{Sha}.

Definition inj_on (l : list (list byte)) : Prop :=
  forall x y, x ∈ l -> y ∈ l -> sha x = sha y -> x = y.
Lemma inj_or_collision l : inj_on l \/ collision_in l.
Proof.
  destruct (decide (Exists (fun x => Exists (fun y => x <> y /\ sha x = sha y) l) l)) as [He|He].
  - right. apply Exists_exists in He as (x & Hx & (y & Hy & Hne & E)%Exists_exists). exists x, y. done.
  - left. intros x y Hx Hy E. destruct (decide (x = y)) as [|Hne]; [done|]. destruct He.
    apply Exists_exists. exists x. split; [done|]. apply Exists_exists. by exists y.
Qed.
Lemma inj_on_sub l l' : l' ⊆ l -> inj_on l -> inj_on l'.
Proof. intros Hs Hi x y Hx Hy. apply Hi; by apply Hs. Qed.
Lemma collision_sub l l' : l' ⊆ l -> collision_in l' -> collision_in l.
Proof. intros Hs (x & y & Hx & Hy & ?). exists x, y. split; [by apply Hs|]. split; [by apply Hs|done]. Qed.

(** values of shape [S] with the same hash are the same *)
Definition hash_inj (S : value -> Prop) : Prop :=
  forall v1 v2, S v1 -> S v2 -> inj_on (hashed v1 ++ hashed v2) -> rih v1 = rih v2 -> v1 = v2.

Lemma str_bytes_inj s1 s2 : str_bytes s1 = str_bytes s2 -> s1 = s2.
Proof.
  intros E. apply (f_equal string_of_list_byte) in E.
  by rewrite !string_of_list_byte_of_string in E.
Qed.


Lemma hash_inj_nat : hash_inj is_nat.
Proof.
  intros [] [] ? ? Hi E; try done. simpl in Hi, E. apply Hi in E; [|set_solver|set_solver].
  apply (f_equal uleb) in E. rewrite !uleb_nat in E. by subst.
Qed.
Lemma hash_inj_blob : hash_inj is_blob.
Proof. intros [] [] ? ? Hi E; try done. simpl in Hi, E. apply Hi in E; [|set_solver|set_solver]. by subst. Qed.
Lemma hash_inj_text : hash_inj is_text.
Proof.
  intros [] [] ? ? Hi E; try done. simpl in Hi, E. apply Hi in E; [|set_solver|set_solver].
  apply str_bytes_inj in E. by subst.
Qed.
(** numbers in transaction hashes: [Int] below 2^64, [Nat] from there *)
Definition is_num (v : value) : Prop :=
  match v with
  | VInt z => (0 <= z < 2 ^ 64)%Z
  | VNat n => 2 ^ 64 <= n
  | _ => False
  end.
Context (Hsha : sha_ok).
Lemma hash_inj_num : hash_inj is_num.
Proof using Hsha.
  destruct Hsha as [_ Hint]. intros [] [] ? ? Hi E; try done; cbn [hashed rih is_num] in *;
    (apply Hi in E; [|set_solver|set_solver]);
    apply (f_equal uleb) in E; rewrite ?uleb_nat, ?Hint in E by lia.
  - by subst.
  - exfalso. change (2 ^ 64)%Z with (Z.of_N (2 ^ 64)) in *. lia.
  - exfalso. change (2 ^ 64)%Z with (Z.of_N (2 ^ 64)) in *. lia.
  - f_equal. lia.
Qed.

(** equal concatenations of pieces of the same positive length *)
Lemma concat_inj {A} n (l1 l2 : list (list A)) :
  (0 < n)%nat -> Forall (fun x => length x = n) l1 -> Forall (fun x => length x = n) l2 ->
  concat l1 = concat l2 -> l1 = l2.
Proof.
  intros Hn. revert l2. induction l1 as [|x l1 IH]; intros [|y l2] H1 H2 E; simpl in *.
  - done.
  - apply Forall_cons in H2 as [H2 _]. apply (f_equal length) in E. rewrite app_length in E. simpl in E. lia.
  - apply Forall_cons in H1 as [H1 _]. apply (f_equal length) in E. rewrite app_length in E. simpl in E. lia.
  - apply Forall_cons in H1 as [H1 H1']. apply Forall_cons in H2 as [H2 H2'].
    apply app_inj_1 in E as [-> E]; [|lia]. f_equal. by apply IH.
Qed.

Lemma rih_length v : length (rih v) = 32%nat.
Proof using Hsha. destruct v; apply Hsha. Qed.

Lemma hash_inj_array S : hash_inj S -> forall l1 l2, Forall S l1 -> Forall S l2 ->
  inj_on (hashed (VArray l1) ++ hashed (VArray l2)) -> rih (VArray l1) = rih (VArray l2) -> l1 = l2.
Proof using Hsha.
  intros HS l1 l2 H1 H2 Hi E. cbn [hashed rih] in *. apply Hi in E; [|set_solver|set_solver].
  apply (concat_inj 32) in E; [|lia|apply Forall_map, Forall_true; intros; apply rih_length..].
  assert (inj_on (concat (map hashed l1) ++ concat (map hashed l2))) as Hi'.
  { eapply inj_on_sub; [|exact Hi]. set_solver. }
  clear Hi. revert l2 H2 E Hi'. induction H1 as [|x l1 Hx H1 IH]; intros l2 H2 E Hi.
  - by destruct l2.
  - destruct H2 as [|y l2 Hy H2]; [done|]. simpl in E, Hi. injection E as E1 E2.
    f_equal.
    + apply HS; try done. eapply inj_on_sub; [|exact Hi]. set_solver.
    + apply IH; try done. eapply inj_on_sub; [|exact Hi]. set_solver.
Qed.
Lemma hash_inj_blobs : hash_inj is_blobs.
Proof using Hsha.
  intros [] [] H1 H2 Hi E; try done. f_equal. eapply hash_inj_array; [apply hash_inj_blob|done..].
Qed.

Lemma elem_of_hashed_map k v (m : list (string * value)) x :
  (k, v) ∈ m -> x = str_bytes k \/ x ∈ hashed v ->
  x ∈ concat (map (fun kv => str_bytes kv.1 :: hashed kv.2) m).
Proof.
  intros Hin Hx. apply elem_of_list_In, in_concat. exists (str_bytes k :: hashed v). split.
  - apply in_map_iff. exists (k, v). split; [done|]. by apply elem_of_list_In.
  - apply elem_of_list_In. destruct Hx as [->|Hx]; [by left|by right].
Qed.
Lemma sorted_same (m1 m2 : list (string * value)) :
  keys_sorted m1 -> keys_sorted m2 -> (forall x, x ∈ m1 <-> x ∈ m2) -> m1 = m2.
Proof.
  intros S1 S2 Hx.
  assert (forall m, keys_sorted m -> StronglySorted (fun a b : string * value => str_lt a.1 b.1) m) as Hss.
  { clear. unfold keys_sorted. induction m as [|[k v] m IH]; simpl; intros Hs; [constructor|].
    inversion Hs as [|? ? Hs' Hf]; subst. constructor; [by apply IH|].
    apply Forall_forall. intros [k' v'] Hin. simpl. rewrite Forall_forall in Hf. apply Hf.
    apply elem_of_list_fmap. by exists (k', v'). }
  assert (AntiSymm eq (fun a b : string * value => str_lt a.1 b.1)) as Ha.
  { intros a b Hab Hba. exfalso. apply (str_lt_irrefl a.1). by trans b.1. }
  assert (forall m : list (string * value), StronglySorted (fun a b : string * value => str_lt a.1 b.1) m -> NoDup m) as Hnd.
  { clear. induction 1 as [|a m Hs IH Hf]; [constructor|]. apply NoDup_cons. split; [|exact (IH Hs)]. intros Hin.
    rewrite Forall_forall in Hf. by apply (str_lt_irrefl a.1), Hf. }
  apply (StronglySorted_unique (fun a b : string * value => str_lt a.1 b.1)); [by apply Hss..|].
  apply NoDup_Permutation; [by apply Hnd, Hss..|done].
Qed.

Lemma hash_inj_map P : (forall k, hash_inj (P k)) -> hash_inj (is_map P).
Proof using Hsha.
  intros HP [| | | | | |m1] [| | | | | |m2] H1 H2 Hi E; try done.
  destruct H1 as [S1 F1]. destruct H2 as [S2 F2]. f_equal. cbn [hashed rih] in *.
  apply Hi in E; [|set_solver|set_solver].
  set (f := fun kv : string * value => (sha (str_bytes kv.1), rih kv.2)) in *.
  assert (forall m, Forall (fun p : hash * hash => length p.1 = 32%nat /\ length p.2 = 32%nat) (merge_sort pair_le (map f m))) as Hlen.
  { intros m. rewrite merge_sort_Permutation. apply Forall_map, Forall_true. intros kv. simpl.
    split; [apply Hsha|apply rih_length]. }
  apply (concat_inj 64) in E; [|lia| |].
  2-3: apply Forall_map; eapply Forall_impl; [apply Hlen|]; intros p [Hp1 Hp2]; simpl in *; rewrite app_length; etransitivity; [exact (f_equal2 Nat.add Hp1 Hp2)|reflexivity].
  assert (merge_sort pair_le (map f m1) = merge_sort pair_le (map f m2)) as E'.
  { pose proof (Hlen m1) as L1. pose proof (Hlen m2) as L2.
    revert E L1 L2. generalize (merge_sort pair_le (map f m1)) (merge_sort pair_le (map f m2)).
    clear. intros l1. induction l1 as [|[a b] l1 IH]; intros [|[c d] l2] E L1 L2; simpl in *; try done.
    injection E as E1 E2. apply Forall_cons in L1 as [[La Lb] L1]. apply Forall_cons in L2 as [[Lc Ld] L2].
    simpl in *. apply app_inj_1 in E1 as [-> ->]; [|lia]. f_equal. by apply IH. }
  assert (map f m1 ≡ₚ map f m2) as Hperm.
  { rewrite <- (merge_sort_Permutation pair_le (map f m1)), E'. apply merge_sort_Permutation. }
  clear E E' Hlen. rewrite Forall_forall in F1, F2.
  assert (forall m m', map f m ≡ₚ map f m' ->
    (forall x, x ∈ m -> P x.1 x.2) -> (forall x, x ∈ m' -> P x.1 x.2) ->
    inj_on (concat (map (fun kv => str_bytes kv.1 :: hashed kv.2) m) ++
            concat (map (fun kv => str_bytes kv.1 :: hashed kv.2) m')) ->
    forall x, x ∈ m -> x ∈ m') as Hsub.
  { clear Hi S1 S2 Hperm F1 F2 m1 m2. intros m m' Hperm F1 F2 Hi [k v] Hin.
    assert (f (k, v) ∈ map f m') as Hf.
    { rewrite <- Hperm. apply elem_of_list_fmap. by exists (k, v). }
    apply elem_of_list_fmap in Hf as ([k' v'] & Ef & Hin'). unfold f in Ef. simpl in Ef.
    injection Ef as Ek Ev. apply Hi in Ek.
    2: { apply elem_of_app. left. eapply elem_of_hashed_map; [done|by left]. }
    2: { apply elem_of_app. right. eapply elem_of_hashed_map; [done|by left]. }
    apply str_bytes_inj in Ek. subst k'.
    assert (v = v') as ->; [|done].
    apply (HP k); [by apply (F1 (k, v))|by apply (F2 (k, v'))| |done].
    eapply inj_on_sub; [|exact Hi]. intros x [Hx|Hx]%elem_of_app; apply elem_of_app.
    - left. eapply elem_of_hashed_map; [done|by right].
    - right. eapply elem_of_hashed_map; [done|by right]. }
  apply sorted_same; [done..|]. intros x. split; apply Hsub; try done.
  - eapply inj_on_sub; [|exact Hi]. set_solver.
  - eapply inj_on_sub; [|exact Hi]. set_solver.
Qed.

Lemma hash_inj_tx num : hash_inj num -> hash_inj (is_map (tx_field num)).
Proof using Hsha.
  intros Hn. apply hash_inj_map. intros k. unfold tx_field.
  destruct (String.eqb k "op"); [apply hash_inj_text|].
  destruct (String.eqb k "memo"); [apply hash_inj_blob|].
  destruct (_ || _); [apply hash_inj_blobs|done].
Qed.
Lemma hash_inj_block : hash_inj block_shape.
Proof using Hsha.
  apply hash_inj_map. intros k. unfold block_field.
  destruct (String.eqb k "tx"); [apply hash_inj_tx, hash_inj_nat|].
  destruct (String.eqb k "phash"); [apply hash_inj_blob|apply hash_inj_nat].
Qed.
End Hash.

(** ** Shapes of what the ledger hashes *)
Lemma btree_insert_shape (P : string -> value -> Prop) k v m :
  P k v -> Forall (fun kv => P kv.1 kv.2) m -> Forall (fun kv => P kv.1 kv.2) (btree_insert k v m).
Proof.
  intros Hv. induction 1 as [|[k' v'] m Hv' Hf IH]; simpl; [by repeat constructor|].
  destruct (String.compare k k'); repeat constructor; done.
Qed.
Lemma opt_insert_shape (P : string -> value -> Prop) k ov m :
  (forall v, ov = Some v -> P k v) -> Forall (fun kv => P kv.1 kv.2) m ->
  Forall (fun kv => P kv.1 kv.2) (opt_insert k ov m).
Proof. intros Hv Hf. destruct ov; [|done]. apply btree_insert_shape; auto. Qed.
Lemma account_shape a : is_blobs (account_to_value a).
Proof. destruct a as [o [s|]]; simpl; repeat constructor. Qed.

Lemma tx_shape t : is_map (tx_field is_nat) (tx_to_value t).
Proof.
  split; [apply (tx_value_sorted t)|].
  destruct t as [[] c m]; simpl;
    repeat first [ apply (btree_insert_shape (tx_field is_nat)) | apply (opt_insert_shape (tx_field is_nat))
                 | apply List.Forall_nil
                 | (intros ? (? & _ & ->)%fmap_Some) ]; try exact I; apply account_shape.
Qed.
Lemma block_to_value_shape b : block_shape (block_to_value b).
Proof.
  split.
  - change (sorted_map (opt_insert "fee" (VNat <$> b_effective_fee b)
      (opt_insert "phash" (VBlob <$> b_phash b)
        (btree_insert "ts" (VNat (b_timestamp b))
          (btree_insert "tx" (tx_to_value (b_tx b)) []))))). sorted_tac.
  - repeat first [ apply (btree_insert_shape block_field) | apply (opt_insert_shape block_field)
                 | apply List.Forall_nil
                 | (intros ? (? & _ & ->)%fmap_Some) ]; try exact I. apply tx_shape.
Qed.

Lemma cg_map_shape (P : string -> value -> Prop) d m acc r :
  cg_map d m acc = Some r ->
  Forall (fun kv => forall k y, kv.1 = CText k -> cbor_to_generic d kv.2 = Some y -> P k y) m ->
  Forall (fun kv => P kv.1 kv.2) acc -> Forall (fun kv => P kv.1 kv.2) r.
Proof.
  revert acc. induction m as [|[c x] m IH]; intros acc; simpl; [by intros [= <-]|].
  destruct c as [| | |s| | | | |]; try done.
  destruct (cbor_to_generic d x) as [y|] eqn:Ey; [|done]. intros Hm Hf Ha.
  apply Forall_cons in Hf as [Hx Hf]. eapply IH; [exact Hm|done|].
  apply btree_insert_shape; [|done]. by apply Hx.
Qed.
Lemma uint_shape d n y : d < 64 -> is_u128 n -> cbor_to_generic d (uint_to_cbor n) = Some y -> is_num y.
Proof.
  intros Hd Hn. rewrite cg_uint by done. intros [= <-]. unfold U64_MOD.
  destruct (N.ltb_spec n 18446744073709551616); simpl; [|done].
  change (2 ^ 64)%Z with 18446744073709551616%Z. lia.
Qed.
Definition shaped (d : N) (kv : cvalue * cvalue) : Prop :=
  forall k y, kv.1 = CText k -> cbor_to_generic d kv.2 = Some y -> tx_field is_num k y.
Lemma opt_field_shaped {A} d k (f : A -> cvalue) o :
  (forall x y, o = Some x -> cbor_to_generic d (f x) = Some y -> tx_field is_num k y) ->
  Forall (shaped d) (opt_field k (f <$> o)).
Proof.
  intros Hx. destruct o; simpl; repeat constructor. intros k' y. simpl. intros [= <-]. by apply Hx.
Qed.
Lemma one_field_shaped d k x :
  (forall y, cbor_to_generic d x = Some y -> tx_field is_num k y) -> Forall (shaped d) [(CText k, x)].
Proof. intros Hx. repeat constructor. intros k' y. simpl. intros [= <-]. by apply Hx. Qed.
Lemma tx_hash_shape t v :
  wf_op (tx_op t) -> wf_u64_opt (tx_created_at t) ->
  tx_hash_value t = Some v -> is_map (tx_field is_num) v.
Proof.
  intros H1 H2 Hv. pose proof (wf_flat_of_tx t H1 H2) as Hw.
  pose proof (cbor_to_generic_ok _ _ _ Hv) as Hok.
  unfold tx_hash_value, tx_to_cbor, flat_to_cbor in Hv. rewrite cbor_to_generic_map in Hv.
  destruct (64 <=? 0) eqn:E0; [done|].
  destruct (cg_map _ _ _) as [r|] eqn:Er; [|done]. injection Hv as <-.
  apply value_ok_map in Hok as [Hs _]. split; [exact Hs|].
  eapply cg_map_shape; [exact Er| |constructor]. change (Forall (shaped (0 + 1))
    (opt_field "ts" (uint_to_cbor <$> ft_created_at (flat_of_tx t))
     ++ opt_field "memo" (CBytes <$> ft_memo (flat_of_tx t))
     ++ [(CText "op", CText (ft_op (flat_of_tx t)))]
     ++ opt_field "from" (account_to_cbor <$> ft_from (flat_of_tx t))
     ++ opt_field "to" (account_to_cbor <$> ft_to (flat_of_tx t))
     ++ opt_field "spender" (account_to_cbor <$> ft_spender (flat_of_tx t))
     ++ [(CText "amt", uint_to_cbor (ft_amount (flat_of_tx t)))]
     ++ opt_field "fee" (uint_to_cbor <$> ft_fee (flat_of_tx t))
     ++ opt_field "expected_allowance" (uint_to_cbor <$> ft_expected_allowance (flat_of_tx t))
     ++ opt_field "expires_at" (uint_to_cbor <$> ft_expires_at (flat_of_tx t)))).
  destruct Hw as (W1 & _ & _ & _ & W5 & W6 & W7 & W8).
  repeat apply Forall_app_2; (apply opt_field_shaped || apply one_field_shaped); intros.
  all: try match goal with X : cbor_to_generic _ (CText _) = _ |- _ => rewrite cg_text in X by lia; injection X as <-; exact I end.
  all: try match goal with X : cbor_to_generic _ (CBytes _) = _ |- _ => rewrite cg_bytes in X by lia; injection X as <-; exact I end.
  all: try match goal with X : cbor_to_generic _ (account_to_cbor _) = _ |- _ => rewrite cg_account in X by lia; injection X as <-; apply account_shape end.
  all: match goal with X : cbor_to_generic _ (uint_to_cbor _) = _ |- _ => apply uint_shape in X; [exact X|lia|] end.
  - by eapply wf_opt_u64.
  - done.
  - by eapply wf_opt_u128.
  - by eapply wf_opt_u128.
  - by eapply wf_opt_u64.
Qed.

(** ** Witnesses *)
Section Tree.
Context `{Sha}.
Context (Hsha : sha_ok).

Lemma digest_length t : tree_ok t -> length (digest t) = 32%nat.
Proof using Hsha. destruct t; simpl; intros; try apply Hsha; done. Qed.
Lemma app_suffix_inj {A} (k1 k2 l1 l2 : list A) :
  length l1 = length l2 -> k1 ++ l1 = k2 ++ l2 -> k1 = k2 /\ l1 = l2.
Proof. intros Hl E. by apply app_inj_2. Qed.

(** a tree with the digest of a labelled leaf is that leaf, up to pruning *)
Lemma digest_leaf t b :
  tree_ok t -> inj_on (tree_hashed t ++ tree_hashed (HLeaf b)) ->
  digest t = digest (HLeaf b) -> (exists h, t = HPruned h) \/ t = HLeaf b.
Proof using Hsha.
  intros Ht Hi E. destruct t as [|h|l r|k t|b']; [| by left; exists h| | |].
  all: cbn [digest] in E; apply Hi in E; [|cbn [tree_hashed]; set_solver|cbn [tree_hashed]; set_solver].
  all: try discriminate E.
  right. apply app_inv_head in E. by subst.
Qed.
Lemma digest_labeled t k b :
  tree_ok t -> inj_on (tree_hashed t ++ tree_hashed (HLabeled k (HLeaf b))) ->
  digest t = digest (HLabeled k (HLeaf b)) ->
  (exists h, t = HPruned h) \/ (exists h, t = HLabeled k (HPruned h)) \/ t = HLabeled k (HLeaf b).
Proof using Hsha.
  intros Ht Hi E. destruct t as [|h|l r|k' t|b']; [| by left; exists h| | |].
  all: cbn [digest] in E; apply Hi in E; [|cbn [tree_hashed]; set_solver|cbn [tree_hashed]; set_solver].
  all: try discriminate E.
  assert (str_bytes k' ++ digest t = str_bytes k ++ digest (HLeaf b)) as E' by (by injection E).
  apply app_suffix_inj in E' as [Ek Ed]; [apply str_bytes_inj in Ek as ->|].
  - apply digest_leaf in Ed as [[h ->]| ->].
    + right. left. by exists h.
    + by right; right.
    + done.
    + eapply inj_on_sub; [|exact Hi]. cbn [tree_hashed]. set_solver.
  - rewrite digest_length by done. symmetry. apply Hsha.
Qed.

Lemma lookup_pruned_or_labeled k' k t b :
  (exists h, t = HPruned h) \/ (exists h, t = HLabeled k (HPruned h)) \/ t = HLabeled k (HLeaf b) ->
  tree_lookup k' t = None \/ k' = k /\ tree_lookup k' t = Some b.
Proof.
  intros [[h ->]|[[h ->]| ->]]; simpl; [by left..|].
  destruct (String.eqb_spec k' k); [right|left]; done.
Qed.

Lemma digest_witness t h i k b :
  tree_ok t ->
  let T := HFork (HLabeled "last_block_hash" (HLeaf h)) (HLabeled "last_block_index" (HLeaf i)) in
  inj_on (tree_hashed t ++ tree_hashed T) -> digest t = digest T ->
  tree_lookup k t = Some b ->
  k = "last_block_hash" /\ b = h \/ k = "last_block_index" /\ b = i.
Proof using Hsha.
  intros Ht T Hi E Hl. destruct t as [|p|l r|k' t|b']; try done.
  - subst T. destruct Ht as [Hl1 Hr1].
    cbn [digest] in E. apply Hi in E; [|cbn [tree_hashed]; set_solver|cbn [tree_hashed]; set_solver].
    apply app_inv_head in E. apply app_inj_1 in E as [E1 E2].
    2: { rewrite digest_length by done. symmetry. apply Hsha. }
    apply (digest_labeled _ "last_block_hash" h) in E1; [|done|].
    2: { eapply inj_on_sub; [|exact Hi]. cbn [tree_hashed]. set_solver. }
    apply (digest_labeled _ "last_block_index" i) in E2; [|done|].
    2: { eapply inj_on_sub; [|exact Hi]. cbn [tree_hashed]. set_solver. }
    cbn [tree_lookup] in Hl.
    destruct (lookup_pruned_or_labeled k _ _ _ E1) as [X|[-> X]]; rewrite X in Hl.
    + destruct (lookup_pruned_or_labeled k _ _ _ E2) as [Y|[-> Y]]; rewrite Y in Hl; [done|].
      right. by injection Hl as <-.
    + left. by injection Hl as <-.
  - exfalso. cbn [digest] in E. subst T. cbn [digest] in E.
    apply Hi in E; [|cbn [tree_hashed]; set_solver|cbn [tree_hashed]; set_solver]. discriminate E.
Qed.

(** ** The chain of parent hashes *)
Lemma chain_same vs ws :
  chain_ok vs -> chain_ok ws -> length vs = length ws ->
  inj_on (concat (map hashed vs) ++ concat (map hashed ws)) ->
  (rih <$> last vs) = (rih <$> last ws) -> vs = ws.
Proof using Hsha.
  intros C1 C2 Hlen Hi El.
  assert (forall i v w, vs !! i = Some v -> ws !! i = Some w -> rih v = rih w -> v = w) as Hinj.
  { intros i v w Hv Hw E. apply (hash_inj_block Hsha); [by eapply C1|by eapply C2| |done].
    eapply inj_on_sub; [|exact Hi]. apply elem_of_list_lookup_2 in Hv, Hw.
    intros x [Hx|Hx]%elem_of_app; apply elem_of_app; [left|right]; apply elem_of_list_In, in_concat;
      [exists (hashed v)|exists (hashed w)]; (split; [apply in_map|]; by apply elem_of_list_In). }
  assert (forall d i, i + S d = length vs -> vs !! i = ws !! i)%nat as Hd.
  { induction d as [|d IH]; intros i Hid.
    - rewrite !last_lookup in El. rewrite <- Hlen in El.
      replace (Nat.pred (length vs)) with i in El by lia.
      destruct (vs !! i) as [v|] eqn:Hv; [|apply lookup_ge_None in Hv; lia].
      destruct (ws !! i) as [w|] eqn:Hw; [|done].
      f_equal. eapply Hinj; [done|done|]. by injection El.
    - specialize (IH (S i) ltac:(lia)).
      destruct (vs !! S i) as [v|] eqn:Hv; [|apply lookup_ge_None in Hv; lia].
      destruct (C1 _ _ Hv) as (_ & v0 & Hv0 & Hp). destruct (C2 _ _ (eq_sym IH)) as (_ & w0 & Hw0 & Hq).
      rewrite Hv0, Hw0. f_equal. eapply Hinj; [done|done|]. rewrite Hp in Hq. by injection Hq. }
  apply list_eq. intros i. destruct (decide (i < length vs)%nat) as [Hl|Hl].
  - apply (Hd (length vs - S i)%nat). lia.
  - rewrite !lookup_ge_None_2 by lia. done.
Qed.
End Tree.
