(** * The deduplication entry of a canister creation keeps the canister id *)
From Verif Require Import Base Types Codec CodecFacts CodecProofs State Ledger Canister Effects Spec ApiSpec
  Inv Steps World CallFacts CallCases StepFacts AllowFacts RefundFacts AsyncFacts DedupFacts PropertiesDedup.

Section WithEnv.
Context `{Env}.

(** No two recorded transactions share a hash without being equal. *)
Definition no_clash (bs : list block) : Prop :=
  forall b1 b2, b1 ∈ bs -> b2 ∈ bs -> ~ hash_clash (b_tx b1) (b_tx b2).
Lemma no_clash_prefix bs bs' : bs `prefix_of` bs' -> no_clash bs' -> no_clash bs.
Proof. intros [k ->] Hn b1 b2 H1 H2. apply Hn; apply elem_of_app; by left. Qed.

Lemma no_clash_same now s i j bi bj :
  inv now s -> no_clash (blocks s) -> blocks s !! i = Some bi -> blocks s !! j = Some bj ->
  txh (b_tx bi) = txh (b_tx bj) -> b_tx bi = b_tx bj.
Proof.
  intros Hi Hn Hbi Hbj E.
  destruct (inv_blk _ _ Hi _ _ Hbi) as [((H1 & H2 & _) & _) _].
  destruct (inv_blk _ _ Hi _ _ Hbj) as [((H3 & H4 & _) & _) _].
  destruct (same_hash _ _ H1 H2 H3 H4 E) as [?|Hc]; [done|].
  exfalso. eapply Hn; [| |exact Hc]; by eapply elem_of_list_lookup_2.
Qed.

(** The entry for block [i] *)
Definition noted (s : state) (i : N) (b : block) (x : option principal) : Prop :=
  blocks s !! N.to_nat i = Some b /\ tx_hashes s !! txh (b_tx b) = Some (i, x).

Lemma noted_tx now t s i b x :
  tx_ok now t s -> noted s i b x -> noted (tx_effect now t s) i b x.
Proof.
  intros (_ & _ & _ & _ & Hn) [Hb Ht]. destruct (tx_effect_fields now t s) as (Hbl & Hth & _).
  split; [rewrite Hbl; by apply lookup_app_l_Some|]. rewrite Hth.
  destruct (tx_created_at t); [|done]. rewrite lookup_insert_ne; [done|].
  intros E. rewrite E, Ht in Hn. by discriminate Hn.
Qed.

Lemma before_window_mono ts now now' :
  now <= now' -> is_before_transaction_window ts now' = false -> is_before_transaction_window ts now = false.
Proof. unfold is_before_transaction_window. rewrite !N.ltb_ge. lia. Qed.

Lemma noted_prune_transactions now limit s i b x ts :
  is_u64 now -> inv now s -> no_clash (blocks s) -> tx_created_at (b_tx b) = Some ts ->
  is_before_transaction_window ts now = false ->
  noted s i b x -> noted (prune_transactions now limit s) i b x.
Proof.
  intros Hu. revert s. induction limit as [|l IH]; intros s Hi Hn Hc Hw [Hb Ht]; [done|].
  cbn [prune_transactions]. destruct (first_timestamp s) as [[ts' j]|] eqn:Ef; [|done].
  destruct (is_before_transaction_window ts' now) eqn:Eb; simpl negb; cbv iota; [|done].
  apply first_timestamp_in in Ef.
  assert (prim now s (drop_tx ts' j s)) as Hp by (by constructor).
  fold (drop_tx ts' j s). destruct (inv_ts _ _ Hi _ _ Ef) as (bj & e & Hbj & Hcj & He).
  assert (blocks (drop_tx ts' j s) = blocks s) as Hbl.
  { unfold drop_tx. destruct (prune_tx_hash_fields j
      (set_tx_timestamps (tx_timestamps s ∖ {[(ts', j)]}) s)) as (-> & _). done. }
  apply IH; [by eapply prim_inv|by rewrite Hbl|done|done|]. split; [by rewrite Hbl|].
  assert (txh (b_tx bj) <> txh (b_tx b)) as Hne.
  { intros E. assert (b_tx bj = b_tx b) as E' by (by eapply no_clash_same). rewrite E' in Hcj. congruence. }
  unfold drop_tx, prune_tx_hash. cbn [blocks set_tx_timestamps]. rewrite Hbj, tx_hash_txh.
  cbn [tx_hashes set_tx_timestamps]. rewrite He. destruct e as [i' c'].
  destruct (i' =? j); cbn [tx_hashes set_tx_hashes log_p0 set_p0]; by rewrite lookup_delete_ne.
Qed.

Lemma noted_core s s' i b x :
  blocks s' = blocks s -> tx_hashes s' = tx_hashes s -> noted s i b x -> noted s' i b x.
Proof. intros H1 H2 [? ?]. split; congruence. Qed.
Lemma prune_approvals_hashes now limit s :
  blocks (prune_approvals now limit s) = blocks s /\ tx_hashes (prune_approvals now limit s) = tx_hashes s.
Proof.
  revert s. induction limit as [|l IH]; intros s; [done|]. cbn [prune_approvals].
  destruct (first_expiry s) as [[t k]|]; [|done]. destruct (now <? t); [done|].
  match goal with |- context[prune_approvals now l ?s2] => destruct (IH s2) as [-> ->] end.
  destruct (approvals s !! k); done.
Qed.

Lemma noted_prune now s i b x ts :
  is_u64 now -> inv now s -> no_clash (blocks s) -> tx_created_at (b_tx b) = Some ts ->
  is_before_transaction_window ts now = false ->
  noted s i b x -> noted (prune_state now s) i b x.
Proof.
  intros Hu Hi Hn Hc Hw Hx. unfold prune_state.
  destruct (prune_approvals_hashes now APPROVE_PRUNE_LIMIT s) as [H1 H2].
  pose proof (prims_inv _ _ _ Hu Hi (prune_approvals_prims now APPROVE_PRUNE_LIMIT s Hu Hi)) as Hi1.
  pose proof (prims_inv _ _ _ Hu Hi1 (prune_transactions_prims now TRANSACTION_PRUNE_LIMIT _ Hu Hi1)) as Hi2.
  rewrite (check_invariants_id now) by done.
  eapply noted_prune_transactions; try done; [by rewrite H1|]. by eapply noted_core.
Qed.

Lemma noted_recorded now t s i b x ts :
  is_u64 now -> inv now s -> tx_ok now t s -> no_clash (blocks (recorded now t s)) ->
  tx_created_at (b_tx b) = Some ts -> is_before_transaction_window ts now = false ->
  noted s i b x -> noted (recorded now t s) i b x.
Proof.
  intros Hu Hi Hok Hn Hc Hw Hx. unfold recorded. eapply noted_prune; try done.
  - eapply prim_inv; [done|exact Hi|]. by constructor.
  - rewrite recorded_blocks in Hn. by destruct (tx_effect_fields now t s) as (-> & _).
  - by apply noted_tx.
Qed.

Lemma noted_refund from sp n m old now s s' fb ab i b x ts :
  inv now s -> is_u64 now -> wf_account from -> wf_acct_opt sp -> is_u128 n ->
  (forall e, old = Some e -> 0 < e /\ is_u64 e) ->
  refund_outcome from sp n m old now s = Some (s', fb, ab) -> no_clash (blocks s') ->
  tx_created_at (b_tx b) = Some ts -> is_before_transaction_window ts now = false ->
  noted s i b x -> noted s' i b x.
Proof.
  intros Hi Hu Hf Hsp Hn Hold. unfold refund_outcome.
  destruct (reimburse_decide from n m s) as [[]| |] eqn:Ed; [|done|done].
  pose proof (reimburse_decide_ok from n m now s Ed Hf Hn) as Hok. fold (refund_tx from n m) in Hok.
  pose proof (refunded_prims _ _ _ _ _ Hi Hu Ed Hf Hn) as Hp.
  pose proof (prims_inv _ _ _ Hu Hi Hp) as Hi1.
  assert (no_clash (blocks (refunded from n m now s)) -> tx_created_at (b_tx b) = Some ts ->
    is_before_transaction_window ts now = false ->
    noted s i b x -> noted (refunded from n m now s) i b x) as Hr.
  { rewrite refunded_recorded. intros H1 H2 H3 H4. 
    assert (no_clash (blocks (recorded now (refund_tx from n m) s))) as H1'.
    { by destruct (prune_state_core now (recorded now (refund_tx from n m) s)) as (<- & _). }
    refine (noted_prune _ _ _ _ _ _ Hu _ H1' H2 H3 _); [by apply recorded_inv|].
    exact (noted_recorded _ _ _ _ _ _ _ Hu Hi Hok H1' H2 H3 H4). }
  destruct (third_party from sp) as [y|] eqn:Ex; [|intros [= <- _ _]; auto].
  destruct ((FEE <? n) && approval_still_valid old now); [|intros [= <- _ _]; auto].
  destruct (restore_decide _ _ _ _ _ _) as [[]| |] eqn:Er; [|done|done].
  intros [= <- _ _] Hnc Hc Hw Hx.
  apply noted_tx.
  - apply restore_tx_ok; try done. apply third_party_Some in Ex as [-> _]. done.
  - apply Hr; try done. eapply no_clash_prefix; [|exact Hnc].
    destruct (tx_effect_fields now (restore_tx from y (n - FEE) old now (refunded from n m now s))
      (refunded from n m now s)) as (-> & _). by apply prefix_app_r.
Qed.

Lemma noted_note now s i b x ts j bj c :
  inv now s -> no_clash (blocks s) -> blocks s !! N.to_nat j = Some bj -> j <> i ->
  tx_created_at (b_tx b) = Some ts ->
  noted s i b x -> noted (note_canister (txh (b_tx bj)) j c s) i b x.
Proof.
  intros Hi Hn Hbj Hne Hc [Hb Ht]. unfold note_canister. destruct (tx_hashes s !! txh (b_tx bj)); [|done].
  split; [done|]. cbn [tx_hashes set_tx_hashes]. rewrite lookup_insert_ne; [done|].
  intros E. apply Hne. apply N2Nat.inj.
  assert (b_tx bj = b_tx b) as E' by (by eapply no_clash_same).
  eapply (inv_unique _ _ Hi); [done|done|done|]. rewrite E'. congruence.
Qed.

(** A finished call *)
Lemma noted_resume now p ans k s s' resp i b x ts :
  inv now s -> is_u64 now -> pend_ok s p -> ans_u128 ans -> resume now p ans = Some k ->
  commit s (k s) = (s', resp) -> no_clash (blocks s') -> pending_block p <> i ->
  tx_created_at (b_tx b) = Some ts -> is_before_transaction_window ts now = false ->
  noted s i b x -> noted s' i b x.
Proof.
  intros Hi Hu Hp Ha Hk Hcm Hn Hne Hc Hw Hx. pose proof (inv_supply _ _ Hi) as Hs.
  destruct p as [ep from to sp amount j old|ep from sp amount j old created arg];
    destruct ans as [r|r]; cbn [resume] in Hk; try done;
    match type of Hk with Some ?a = _ => assert (k = a) as -> by congruence end; clear Hk.
  - destruct Hp as (_ & _ & cr & Hf & Hsp & Hamt & _ & _ & _ & Hold).
    destruct r as [[]|e].
    + assert (s' = s) as ->; [|done]. destruct ep; simpl in Hcm; by injection Hcm as <- _.
    + destruct (withdraw_rest_eq ep from sp amount j old now e s s Hs) as [y Hy].
      rewrite Hy in Hcm. unfold wd_fail_rest in Hcm.
      destruct (amount - FEE =? 0); [by injection Hcm as <- _|].
      destruct (refund_outcome _ _ _ _ _ _ _) as [[[s2 fb] ab]|] eqn:Er; injection Hcm as <- _; [|done].
      eapply (noted_refund from sp (amount - FEE)); try done. unfold is_u128. lia.
  - destruct Hp as (_ & Hf & Hsp & Hamt & (bj & Hbj & Hbt) & _ & _ & Hold).
    destruct (create_rest_eq ep from sp amount j old created now r s s Hs) as [y Hy].
    rewrite Hy in Hcm. destruct (flat_create_result amount r) as [c|[code returned]] eqn:Efl.
    + injection Hcm as <- _. rewrite <- Hbt. eapply noted_note; try done.
      unfold note_canister in Hn. by destruct (tx_hashes s !! _).
    + unfold cr_fail_rest in Hcm.
      destruct (returned - FEE =? 0); [by injection Hcm as <- _|].
      destruct (refund_outcome _ _ _ _ _ _ _) as [[[s2 fb] ab]|] eqn:Er; injection Hcm as <- _; [|done].
      eapply (noted_refund from sp (returned - FEE)); try done.
      eapply is_u128_le; [|eapply wf_refund_n; [| |exact Efl]]; try done; [lia|]. unfold is_u128. lia.
Qed.

(** Waiting calls have different blocks. *)
Lemma pend_block_lt s p : pend_ok s p -> pending_block p < nblocks s.
Proof.
  assert (forall from sp amount i old t, pend_common s from sp amount i old t -> i < nblocks s) as Hc.
  { intros from sp amount i old t (_ & _ & _ & (b & Hb & _) & _). apply lookup_lt_Some in Hb.
    unfold nblocks. lia. }
  destruct p; simpl; [intros (_ & _ & ? & ?)|intros (_ & ?)]; by eapply Hc.
Qed.
Lemma pending_of_block now caller c s p : pending_of now caller c s = Some p -> pending_block p = nblocks s.
Proof. destruct c; simpl; try done; intros [= <-]; done. Qed.

Lemma step_pend_cases w ev id p :
  reachable w -> ev_ok w ev -> w_pend (step w ev).1 !! id = Some p ->
  w_pend w !! id = Some p \/ (id = w_next w /\ pending_block p = nblocks (w_led w)).
Proof.
  intros Hr Hev Hp. destruct ev as [now caller c sync|now id' ans refund|now args|n|n|now id' refund].
  - destruct (step w (EvCall now caller c sync)) as [w1 resp] eqn:Hst. simpl in Hp.
    destruct (rejected resp) eqn:Hrej.
    + destruct (step_rejected _ _ _ _ _ _ _ Hr Hev Hst Hrej) as (_ & Hpe & _). left. by rewrite <- Hpe.
    + destruct (step_accepted _ _ _ _ _ _ _ Hr Hev Hst Hrej) as (_ & r & Ha & Hm).
      destruct Ha as [s1 r1 E Hd|s1 q E Hq Hs Hpo|s1 q e s' r1 E Hq Hs Hpo Hrj _ Hsr].
      * destruct Hm as [_ Hw]. rewrite Hw in Hp. by left.
      * destruct Hm as [_ Hw]. rewrite Hw in Hp. simpl in Hp.
        apply lookup_insert_Some in Hp as [[<- <-]|[_ ?]]; [right|by left].
        split; [done|]. by eapply pending_of_block.
      * destruct Hm as [_ Hw]. rewrite Hw in Hp. by left.
  - cbn [step] in Hp. destruct (w_pend w !! id') as [q|]; [|by left].
    destruct (resume now q ans); [|by left]. destruct (commit _ _). simpl in Hp.
    apply lookup_delete_Some in Hp as [_ ?]. by left.
  - cbn [step] in Hp. destruct (post_upgrade _ _) as [s' [u|[]|t]]; simpl in Hp; [by rewrite lookup_empty in Hp|by left].
  - by left.
  - by left.
  - cbn [step] in Hp. destruct (w_pend w !! id') as [q|]; [|by left]. simpl in Hp.
    apply lookup_delete_Some in Hp as [_ ?]. by left.
Qed.

Lemma pend_distinct w id1 id2 p1 p2 :
  reachable w -> w_pend w !! id1 = Some p1 -> w_pend w !! id2 = Some p2 ->
  pending_block p1 = pending_block p2 -> id1 = id2.
Proof.
  intros Hr. revert id1 id2 p1 p2. induction Hr as [now cycles args w Hu Hwf Hin|w ev Hr IH Hev]; intros id1 id2 p1 p2.
  - unfold init_world in Hin. destruct (init now args empty_state) as [s [u|[]|t]]; [|done].
    injection Hin as <-. simpl. by rewrite lookup_empty.
  - intros H1 H2 E. pose proof (reachable_winv _ Hr) as (_ & _ & Hw).
    destruct (step_pend_cases _ _ _ _ Hr Hev H1) as [H1'|[-> Hb1]];
      destruct (step_pend_cases _ _ _ _ Hr Hev H2) as [H2'|[-> Hb2]].
    + by eapply IH.
    + destruct (Hw _ _ H1') as [_ Hpo%pend_block_lt]. lia.
    + destruct (Hw _ _ H2') as [_ Hpo%pend_block_lt]. lia.
    + done.
Qed.

(** Once a block's entry is there and no call waits for it, it stays. *)
Definition settled (w : world) (i : N) (b : block) (ts : N) (x : option principal) : Prop :=
  blocks (w_led w) !! N.to_nat i = Some b
  /\ (forall id p, w_pend w !! id = Some p -> pending_block p <> i)
  /\ (is_before_transaction_window ts (w_clock w) = false -> noted (w_led w) i b x).

Lemma settled_step w ev i b ts x :
  reachable w -> ev_ok w ev -> no_clash (blocks (w_led (step w ev).1)) ->
  tx_created_at (b_tx b) = Some ts ->
  settled w i b ts x -> settled (step w ev).1 i b ts x.
Proof.
  intros Hr Hev Hn Hc (Hb & Hp & Hx). pose proof (reachable_winv _ Hr) as Hwi.
  destruct (step_ok _ _ Hwi Hev) as [Hwi' Hls].
  pose proof (led_step_prefix _ _ Hwi Hev) as Hpre.
  split; [by eapply prefix_lookup|]. split.
  { intros id p Hq. destruct (step_pend_cases _ _ _ _ Hr Hev Hq) as [H1|[-> ->]]; [by eapply Hp|].
    apply lookup_lt_Some in Hb. unfold nblocks. lia. }
  destruct Hls as [Hclk _]. intros Hw.
  specialize (Hx (before_window_mono _ _ _ Hclk Hw)).
  destruct ev as [now caller c sync|now id ans refund|now args|n|n|now id refund].
  - destruct (call_inv _ _ _ _ _ Hr Hev) as (Hi & Hu & Hcl & Hwf).
    destruct (step w (EvCall now caller c sync)) as [w1 resp] eqn:Hst. simpl in *.
    destruct (rejected resp) eqn:Hrej.
    + destruct (step_rejected _ _ _ _ _ _ _ Hr Hev Hst Hrej) as (-> & _). done.
    + destruct (step_accepted _ _ _ _ _ _ _ Hr Hev Hst Hrej) as (Hok & r & Ha & Hm).
      assert (w_clock w1 = now) as Hnow.
      { destruct r; destruct Hm as [_ Hm']; by rewrite Hm'. }
      rewrite Hnow in Hw.
      remember (w_led w1) as s1' eqn:Es1. clear Hm Es1.
      destruct Ha as [s1 r1 E Hd|s1 q E Hq Hs Hpo|s1 q e s' r1 E Hq Hs Hpo Hrj Hpr Hsr]; subst s1.
      * exact (noted_recorded _ _ _ _ _ _ _ Hu Hi Hok Hn Hc Hw Hx).
      * exact (noted_recorded _ _ _ _ _ _ _ Hu Hi Hok Hn Hc Hw Hx).
      * assert (noted (recorded now (requested caller c) (w_led w)) i b x) as Hx1.
        { refine (noted_recorded _ _ _ _ _ _ _ Hu Hi Hok _ Hc Hw Hx). eapply no_clash_prefix; [eapply prims_prefix; exact Hpr|exact Hn]. }
        pose proof (recorded_inv now (requested caller c) (w_led w) Hu Hi Hok) as Hi1.
        unfold sync_rest in Hsr. destruct (sync_answer_resume now q e) as [k Hk]. rewrite Hk in Hsr.
        set (s1 := recorded now (requested caller c) (w_led w)) in *.
        destruct (k s1) as [s2 o] eqn:Eks.
        assert (exists rep, commit s1 (k s1) = (s', rep)) as [rep Hcm].
        { rewrite Eks. destruct o as [rep|[]|t]; simpl in Hsr; injection Hsr as <- <-; [eauto|done]. }
        eapply noted_resume; [exact Hi1|exact Hu|exact Hpo|apply (sync_answer_u128 q e)|exact Hk|exact Hcm|done| |done|done|done].
        rewrite (pending_of_block _ _ _ _ _ Hq). apply lookup_lt_Some in Hb. unfold nblocks. lia.
  - destruct (reply_inv _ _ _ _ _ Hr Hev) as (Hi & Hu & Ha). cbn [step] in *.
    destruct (w_pend w !! id) as [p|] eqn:Ep; [|done].
    destruct (resume now p ans) as [k|] eqn:Ek; [|done].
    destruct (commit (w_led w) (k (w_led w))) as [s' r] eqn:Ecm. simpl in *.
    destruct Hwi as (_ & _ & Hwp). destruct (Hwp _ _ Ep) as [_ Hpo].
    eapply noted_resume; try done; [by apply wf_answer_u128|by eapply Hp].
  - cbn [step] in *. destruct (post_upgrade args (reload (w_led w))) as [s' o] eqn:Epu.
    pose proof (post_upgrade_cfg _ _ _ _ Epu) as Hcfg. rewrite (reload_eq (w_clock w)) in Hcfg by (by destruct Hwi).
    destruct Hcfg as [cf ->]. destruct o as [u|[]|t]; simpl in *; [|done]. by eapply noted_core.
  - done.
  - done.
  - cbn [step] in *. by destruct (w_pend w !! id).
Qed.

Lemma settled_steps w tr w' i b ts x :
  reachable w -> steps w tr w' -> no_clash (blocks (w_led w')) ->
  tx_created_at (b_tx b) = Some ts ->
  settled w i b ts x -> settled w' i b ts x.
Proof.
  intros Hr Hs. induction Hs as [w|w ev tr w' Hev Hs IH]; intros Hn Hc Hx; [done|].
  assert (reachable (step w ev).1) as Hr1 by (by constructor).
  apply IH; try done. apply settled_step; try done.
  eapply no_clash_prefix; [|exact Hn]. by eapply steps_prefix.
Qed.

End WithEnv.
