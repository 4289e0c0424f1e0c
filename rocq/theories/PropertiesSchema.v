(** * Served blocks have the form the standard prescribes

    C60 *)
From Verif Require Import Base Types Codec CodecFacts CodecProofs State Ledger Canister Effects Spec ApiSpec
  SchemaSpec IndexerSpec Inv Steps World QueryFacts HashProofs PropertiesCodec PropertiesCalls PropertiesQuery PropertiesIndexer Demo.

Local Open Scope string_scope.
Local Open Scope list_scope.
Local Open Scope N_scope.

Lemma form_account a : wf_account a -> account_form (account_to_value a).
Proof.
  destruct a as [o [s|]]; intros [Ho Hs]; exists (VBlob o); [right|left].
  - exists (VBlob (sub_bytes s)). split; [done|]. split; [by exists o|]. exists (sub_bytes s). split; [done|].
    apply be_fixed_length.
  - split; [done|]. by exists o.
Qed.
Lemma form_amount n : is_u128 n -> amount (VNat n). Proof. intros Hn. by exists n. Qed.
Lemma form_time n : is_u64 n -> nanoseconds (VNat n). Proof. intros Hn. by exists n. Qed.
Lemma form_memo m : validate_memo (Some m) = true -> blob_up_to 32 (VBlob m).
Proof. intros Hm. exists m. split; [done|]. by apply (proj2 (memo_fits_ok (Some m))) in Hm. Qed.

(** ** Maps built by insertions *)
Lemma ins_fields (P : string * value -> Prop) k v m :
  P (k, v) -> Forall P m -> Forall P (btree_insert k v m).
Proof.
  intros Hv. induction 1 as [|[k' v'] m Hv' Hf IH]; simpl; [by repeat constructor|].
  destruct (String.compare k k'); repeat constructor; done.
Qed.
Lemma opt_fields (P : string * value -> Prop) k ov m :
  (forall v, ov = Some v -> P (k, v)) -> Forall P m -> Forall P (opt_insert k ov m).
Proof. intros Hv Hf. destruct ov; [|done]. apply ins_fields; auto. Qed.
Lemma ins_here k v m : (k, v) ∈ btree_insert k v m.
Proof.
  induction m as [|[k' v'] m IH]; simpl; [left|]. destruct (String.compare k k'); [left|left|by right].
Qed.
Lemma ins_keep k v k' x m : k' <> k -> (k', x) ∈ m -> (k', x) ∈ btree_insert k v m.
Proof.
  intros Hne. induction m as [|[k2 v2] m IH]; simpl; [by intros ?%elem_of_nil|].
  intros Hin. destruct (String.compare k k2) eqn:E.
  - apply String.compare_eq_iff in E as ->. apply elem_of_cons in Hin as [[= -> _]|Hin]; [done|by right].
  - by right.
  - apply elem_of_cons in Hin as [[= -> ->]|Hin]; [left|right; auto].
Qed.
Lemma opt_keep k ov k' x m : k' <> k -> (k', x) ∈ m -> (k', x) ∈ opt_insert k ov m.
Proof. destruct ov; [by apply ins_keep|done]. Qed.

Local Ltac find_slot :=
  first [ apply elem_of_list_here | apply elem_of_list_further; find_slot ].
Local Ltac in_slots :=
  lazymatch goal with
  | |- exists s, s ∈ ?l /\ slot_name s = ?k /\ _ =>
      let rec go l :=
        lazymatch l with
        | ?s :: ?l' =>
            first [ (exists s; split; [find_slot|]; split; [reflexivity|]) | go l' ]
        end in go l
  end.
Local Ltac field_form :=
  cbn [slot_form need may snd];
  first [ done | by apply form_account | by apply form_amount | by apply form_time | by apply form_memo ].
Local Ltac fields :=
  repeat first
    [ apply List.Forall_nil
    | apply ins_fields; [unfold common; cbn [fst app]; in_slots; field_form|]
    | apply opt_fields; [intros ? (? & ? & ->)%fmap_Some; subst; unfold common; cbn [fst app]; in_slots; field_form|] ].
Local Ltac required :=
  unfold common; cbn [app];
  repeat first
    [ apply List.Forall_nil
    | apply List.Forall_cons;
      [ cbn [slot_required slot_name need may]; first [discriminate|intros _];
        eexists; repeat first [apply ins_here | apply ins_keep; [done|] | apply opt_keep; [done|]] |] ].
Local Ltac by_form :=
  unfold mint_form, burn_form, xfer_form, approve_form, has_form;
  eexists; split; [reflexivity|]; cbn [tx_op tx_created_at tx_memo]; split; [match goal with |- StronglySorted _ (map fst ?m) => change (sorted_map m) end; sorted_tac|]; split; [fields|required].

Lemma tx_form t ts :
  wf_tx t -> op_static ts (tx_op t) ->
  let v := tx_to_value t in mint_form v \/ burn_form v \/ xfer_form FEE v \/ approve_form FEE v.
Proof.
  destruct t as [op c m]. intros (Hop & Hc & Hm & _) Hst v. subst v. cbn [tx_op tx_created_at tx_memo] in *.
  destruct op as [to a f|from to sp a f|from sp a|from sp a ea ex f]; cbn [wf_op op_static] in *.
  - left. destruct Hop as (? & ? & ?). by_form.
  - right; right; left. destruct Hop as (? & ? & ? & ? & ?). destruct Hst as (_ & _ & _ & [->| ->]); by_form.
  - right; left. destruct Hop as (? & ? & ?). by_form.
  - right; right; right. destruct Hop as (? & ? & ? & ? & ? & ?).
    destruct Hst as (_ & _ & _ & [->| ->] & _); by_form.
Qed.

Section WithEnv.
Context `{Env}.

Lemma blk_form b first :
  blk_ok b -> match b_phash b with Some h => first = false /\ length h = 32%nat | None => first = true end ->
  block_form FEE first (block_to_value b).
Proof.
  intros (Hw & Hu & Hf & Hst & _) Hp. pose proof (tx_form _ _ Hw Hst) as Ht.
  split.
  - unfold block_to_value. rewrite Hf.
    assert (forall f, effective_fee (tx_op (b_tx b)) = Some f -> f = 0 \/ f = FEE) as Hef.
    { intros f. destruct (tx_op (b_tx b)) as [| ? ? ? ? []| | ? ? ? ? ? []]; simpl; intros [=]; subst; auto. }
    set (ef := effective_fee (tx_op (b_tx b))) in *. clearbody ef.
    eexists; split; [reflexivity|]. split; [match goal with |- StronglySorted _ (map fst ?m) => change (sorted_map m) end; sorted_tac|].
    destruct (b_phash b) as [h|]; [destruct Hp as [-> Hp]|subst first]; cbn [app fmap option_fmap option_map].
    + split.
      * repeat first [apply List.Forall_nil|apply ins_fields|apply opt_fields].
        -- intros ? (f & E & ->)%fmap_Some. in_slots. cbn. destruct (Hef f E) as [->| ->]; auto.
        -- in_slots. cbn. by exists h.
        -- in_slots. by apply form_time.
        -- in_slots. exact Ht.
      * required.
    + split.
      * repeat first [apply List.Forall_nil|apply ins_fields|apply opt_fields].
        -- intros ? (f & E & ->)%fmap_Some. in_slots. cbn. destruct (Hef f E) as [->| ->]; auto.
        -- in_slots. by apply form_time.
        -- in_slots. exact Ht.
      * required.
  - rewrite field_tx, tx_op_field, field_fee, tx_fee, Hf.
    destruct (tx_op (b_tx b)) as [| ? ? ? ? []| | ? ? ? ? ? []]; reflexivity.
Qed.

(** Every block that is served, under whatever request, has the form that the
    standard prescribes: a map with exactly the fields of its kind, each of the
    right type and range.  [Value::hash] returns 32 bytes. *)
Theorem C60_served_blocks_have_standard_form w args id v :
  (forall x, length (vhash x) = 32%nat) ->
  reachable w -> (id, v) ∈ br_blocks (icrc3_get_blocks (w_led w) args) ->
  block_form FEE (id =? 0) v.
Proof.
  intros Hh Hr Hin. destruct (C29_served_blocks_are_right w args) as (_ & _ & Hs).
  destruct (Hs _ _ Hin) as [(b & Hb & ->) _]. pose proof (reachable_inv _ Hr) as Hi.
  destruct (inv_blk _ _ Hi _ _ Hb) as [Hok _]. apply blk_form; [done|].
  rewrite (inv_chain _ _ Hi _ _ Hb). destruct (N.to_nat id) as [|j] eqn:Ej; [apply N.eqb_eq; lia|].
  assert (is_Some (blocks (w_led w) !! j)) as [b' Hb'].
  { apply lookup_lt_is_Some. apply lookup_lt_Some in Hb. lia. }
  rewrite Hb'. simpl. split; [apply N.eqb_neq; lia|]. apply Hh.
Qed.

End WithEnv.

(** ** Cases: blocks of every kind are served; the form tells well-formed values
    from others *)
Definition kinds : list string :=
  op_of <$> (br_blocks (icrc3_get_blocks (w_led demo_world) [(0, 20)])).*2.
Example C60_case :
  reachable demo_world /\ (forall v, length (vhash v) = 32%nat)
  /\ length (br_blocks (icrc3_get_blocks (w_led demo_world) [(0, 20)])) = 10%nat
  /\ "mint" ∈ kinds /\ "burn" ∈ kinds /\ "xfer" ∈ kinds /\ "approve" ∈ kinds.
Proof.
  split; [apply demo_reachable|]. split; [exact demo_hash_32|].
  split; [vm_compute; reflexivity|].
  assert (forall k, bool_decide (k ∈ kinds) = true -> k ∈ kinds) as Hk by (intros k; apply bool_decide_eq_true_1).
  split; [apply Hk; vm_compute; reflexivity|]. split; [apply Hk; vm_compute; reflexivity|].
  split; apply Hk; vm_compute; reflexivity.
Qed.
Example C60_form_refuses :
  ~ block_form FEE true (VMap [("ts", VNat 1); ("tx", VMap [("op", VText "burn")])])
  /\ ~ block_form FEE false (VMap [("ts", VNat 1); ("tx", VMap [])])
  /\ ~ account_form (VArray [VBlob []; VBlob [Byte.x00]]).
Proof.
  split; [|split].
  - intros [_ Hf]. cbn in Hf. discriminate.
  - intros [(m & [= <-] & _ & _ & Hr) _]. cbn in Hr. rewrite !List.Forall_cons_iff in Hr. destruct Hr as (_ & _ & _ & Hr & _).
    destruct Hr as [x Hx]; [done|]. cbn in Hx. rewrite !elem_of_cons, elem_of_nil in Hx.
    destruct Hx as [[=]|[[=]|[]]].
  - intros [p [[[=] _]|(s & [= <- <-] & _ & (b & [= <-] & Hl))]]. done.
Qed.

Print Assumptions C60_served_blocks_have_standard_form.
