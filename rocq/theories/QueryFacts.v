(** * Facts about generic maps and about the block query *)
From Verif Require Import Base Types Codec State Ledger Canister Effects Spec Inv Steps World.

Lemma string_compare_eq a b : String.compare a b = Eq <-> a = b.
Proof.
  split; [apply String.compare_eq_iff|]. intros <-.
  induction a as [|c a IH]; simpl; [done|]. unfold Ascii.compare. by rewrite N.compare_refl.
Qed.

Lemma assoc_insert k v m : assoc k (btree_insert k v m) = Some v.
Proof.
  induction m as [|[k' v'] m IH]; simpl.
  - by rewrite String.eqb_refl.
  - destruct (String.compare k k') eqn:E; simpl.
    + by rewrite String.eqb_refl.
    + by rewrite String.eqb_refl.
    + destruct (String.eqb_spec k k') as [->|]; [|done].
      assert (String.compare k' k' = Eq) by (by apply string_compare_eq). congruence.
Qed.
Lemma assoc_insert_ne k k' v m : k <> k' -> assoc k (btree_insert k' v m) = assoc k m.
Proof.
  intros Hne. induction m as [|[k2 v2] m IH]; simpl.
  - destruct (String.eqb_spec k k'); done.
  - destruct (String.compare k' k2) eqn:E; simpl.
    + apply string_compare_eq in E as <-. destruct (String.eqb_spec k k'); done.
    + destruct (String.eqb_spec k k'); done.
    + by rewrite IH.
Qed.
Lemma assoc_opt_insert k v m : assoc k (opt_insert k (Some v) m) = Some v.
Proof. apply assoc_insert. Qed.
Lemma assoc_opt_insert_ne k k' v m : k <> k' -> assoc k (opt_insert k' v m) = assoc k m.
Proof. intros. destruct v; simpl; [by apply assoc_insert_ne|done]. Qed.

Lemma field_phash b : field "phash" (block_to_value b) = VBlob <$> b_phash b.
Proof.
  unfold block_to_value, field. rewrite assoc_opt_insert_ne by done.
  destruct (b_phash b); done.
Qed.
Lemma field_ts b : field "ts" (block_to_value b) = Some (VNat (b_timestamp b)).
Proof.
  unfold block_to_value, field. rewrite !assoc_opt_insert_ne by done. apply assoc_insert.
Qed.
Lemma field_tx b : field "tx" (block_to_value b) = Some (tx_to_value (b_tx b)).
Proof.
  unfold block_to_value, field. rewrite !assoc_opt_insert_ne by done.
  rewrite assoc_insert_ne by done. apply assoc_insert.
Qed.
Lemma field_fee b : field "fee" (block_to_value b) = VNat <$> b_effective_fee b.
Proof.
  unfold block_to_value, field. destruct (b_effective_fee b); [apply assoc_insert|]. destruct (b_phash b); done.
Qed.

Section WithEnv.
Context `{Env}.

(** What [get_blocks] serves is in the log. *)
Lemma get_blocks_loop_sound s n acc args i v :
  (i, v) ∈ get_blocks_loop s n acc args ->
  (i, v) ∈ acc \/ exists b, blocks s !! N.to_nat i = Some b /\ v = block_to_value b.
Proof.
  revert acc. induction args as [|[start len] args IH]; intros acc; simpl; [by left|].
  destruct (_ =? 0); [by left|]. destruct (nat_to_u64 start) as [st|]; [|apply IH].
  destruct (_ <=? _); [apply IH|]. destruct (nat_to_u64 len) as [ln|]; [|apply IH].
  intros [Hin|?]%IH; [|by right]. apply elem_of_app in Hin as [?|Hin]; [by left|right].
  apply elem_of_list_omap in Hin as (id & _ & Hid).
  destruct (blocks s !! N.to_nat id) as [b|] eqn:Eb; [|done]. injection Hid as <- <-. eauto.
Qed.
Lemma get_blocks_sound s args i v :
  (i, v) ∈ br_blocks (icrc3_get_blocks s args) ->
  exists b, blocks s !! N.to_nat i = Some b /\ v = block_to_value b.
Proof. intros [?%elem_of_nil|?]%get_blocks_loop_sound; done. Qed.

End WithEnv.
