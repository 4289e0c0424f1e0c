(** * Pruning of approvals and of remembered transactions

    Properties C20 and C47. *)
From Verif Require Import Base Types Codec CodecFacts State Ledger Canister Effects Spec ApiSpec Inv
  Steps World PropertiesPaging Demo.

Lemma min_elt_least {A} (le : A -> A -> bool) (l : list A) x :
  (forall a b, le a b = true \/ le b a = true) ->
  (forall a b c, le a b = true -> le b c = true -> le a c = true) ->
  min_elt le l = Some x -> forall y, y ∈ l -> le x y = true.
Proof.
  intros Htot Htr. revert x. induction l as [|z l IH]; intros x; simpl; [done|].
  destruct (min_elt le l) as [m|] eqn:Em.
  - intros [= <-] y [->|Hy]%elem_of_cons.
    + destruct (le z m) eqn:E; [by destruct (Htot z z)|]. destruct (Htot z m); congruence.
    + specialize (IH m eq_refl y Hy). destruct (le z m) eqn:E; [by eapply Htr|done].
  - intros [= <-] y [->|Hy]%elem_of_cons; [by destruct (Htot z z)|].
    apply min_elt_None in Em. subst. by apply elem_of_nil in Hy.
Qed.

Section WithEnv.
Context `{Env}.

Lemma first_expiry_least s t k :
  first_expiry s = Some (t, k) -> forall e k', (e, k') ∈ exp_queue s -> t <= e.
Proof.
  intros Hf e k' Hin. unfold first_expiry in Hf.
  pose proof (min_elt_least _ _ _
    (fun a b => lexb_total (qrank a) (qrank b))
    (fun a b c => lexb_trans (qrank a) (qrank b) (qrank c)) Hf (e, k')) as Hle.
  cbv beta in Hle. unfold qrank in Hle. cbn [fst] in Hle.
  eapply lexb_head, Hle. by apply elem_of_elements.
Qed.
Lemma first_expiry_None s e k : first_expiry s = None -> (e, k) ∉ exp_queue s.
Proof.
  intros Hf%min_elt_None Hin. apply elem_of_elements in Hin. rewrite Hf in Hin. by apply elem_of_nil in Hin.
Qed.
Lemma first_timestamp_least s t i :
  first_timestamp s = Some (t, i) -> forall e j, (e, j) ∈ tx_timestamps s -> t <= e.
Proof.
  intros Hf e j Hin. unfold first_timestamp in Hf.
  pose proof (min_elt_least _ _ _
    (fun a b => lexb_total (trank a) (trank b))
    (fun a b c => lexb_trans (trank a) (trank b) (trank c)) Hf (e, j)) as Hle.
  cbv beta in Hle. unfold trank in Hle. cbn [fst] in Hle.
  eapply lexb_head, Hle. by apply elem_of_elements.
Qed.
Lemma first_timestamp_None s e k : first_timestamp s = None -> (e, k) ∉ tx_timestamps s.
Proof.
  intros Hf%min_elt_None Hin. apply elem_of_elements in Hin. rewrite Hf in Hin. by apply elem_of_nil in Hin.
Qed.

(** ** Approvals *)
Lemma prune_approvals_facts now limit s :
  is_u64 now -> inv now s ->
  let s' := prune_approvals now limit s in
  (exists r, (size (approvals s) = r + size (approvals s'))%nat /\ (r <= limit)%nat
     /\ (r = limit \/ forall k a e, approvals s' !! k = Some (a, e) -> e = 0 \/ now < e))
  /\ (forall k a e k2 a2 e2,
        approvals s !! k = Some (a, e) -> approvals s' !! k = None ->
        approvals s' !! k2 = Some (a2, e2) -> 0 < e2 -> e <= e2).
Proof.
  intros Hu. cbv zeta. revert s. induction limit as [|l IH]; intros s Hinv.
  { cbn [prune_approvals]. split; [exists 0%nat; split; [done|]; split; [done|by left]|].
    intros. congruence. }
  cbn [prune_approvals]. destruct (first_expiry s) as [[t k]|] eqn:Ef.
  2:{ split.
      - exists 0%nat. split; [done|]. split; [lia|]. right. intros k a e Hk.
        destruct (decide (e = 0)) as [|He]; [by left|exfalso].
        eapply (first_expiry_None s e k Ef). apply (inv_queue _ _ Hinv). split; [lia|eauto].
      - intros. congruence. }
  destruct (N.ltb_spec now t) as [Hlt|Hge].
  { split.
    - exists 0%nat. split; [done|]. split; [lia|]. right. intros k' a e Hk.
      destruct (decide (e = 0)) as [|He]; [by left|right].
      assert (t <= e); [|lia]. eapply (first_expiry_least s t k Ef e k').
      apply (inv_queue _ _ Hinv). split; [lia|eauto].
    - intros. congruence. }
  pose proof (first_expiry_in _ _ Ef) as Hin. apply (inv_queue _ _ Hinv) in Hin as [Ht [a Ha]].
  rewrite Ha.
  assert (prim now s (drop_approval t k s)) as Hp by (by econstructor).
  pose proof (prim_inv _ _ _ Hu Hinv Hp) as Hinv1.
  unfold drop_approval in *.
  set (s1 := set_exp_queue (exp_queue s ∖ {[(t, k)]}) (set_approvals (delete k (approvals s)) s)) in *.
  change (set_exp_queue (exp_queue (set_approvals (delete k (approvals s)) s) ∖ {[(t, k)]})
            (set_approvals (delete k (approvals s)) s)) with s1.
  destruct (IH s1 Hinv1) as [(r & Hsz & Hr & Hend) Hold]. split.
  - exists (S r). split; [|split; [lia|]].
    + rewrite Nat.add_succ_l, <- Hsz. unfold s1. cbn [approvals set_exp_queue set_approvals].
      rewrite map_size_delete, Ha. simpl.
      assert (size (approvals s) <> 0%nat) by (intros Hz%map_size_empty_inv; by rewrite Hz, lookup_empty in Ha).
      lia.
    + destruct Hend as [->|?]; [by left|by right].
  - intros k1 a1 e1 k2 a2 e2 H1 H2 H3 He2.
    destruct (decide (k1 = k)) as [->|Hne].
    + rewrite Ha in H1. injection H1 as <- <-. apply prune_approvals_sub in H3.
      unfold s1 in H3. cbn [approvals set_exp_queue set_approvals] in H3.
      apply lookup_delete_Some in H3 as [_ H3].
      eapply (first_expiry_least s t k Ef e2 k2). apply (inv_queue _ _ Hinv). split; [done|eauto].
    + eapply Hold; [|exact H2|exact H3|exact He2]. unfold s1. cbn [approvals set_exp_queue set_approvals].
      by rewrite lookup_delete_ne by done.
Qed.

(** ** Transactions *)
Lemma drop_tx_timestamps ts i s : tx_timestamps (drop_tx ts i s) = tx_timestamps s ∖ {[ (ts, i) ]}.
Proof.
  unfold drop_tx. destruct (prune_tx_hash_fields i (set_tx_timestamps (tx_timestamps s ∖ {[(ts, i)]}) s))
    as (_ & _ & _ & _ & Hts & _). exact Hts.
Qed.

Lemma is_before_spec ts now :
  is_u64 now -> is_before_transaction_window ts now = true <-> ts + DAY + MINUTE < now.
Proof.
  unfold is_u64, is_before_transaction_window, u64_sat_add, U64_MAX, U64_MOD, TRANSACTION_WINDOW,
    PERMITTED_DRIFT, DAY, MINUTE. intros Hn.
  change (24 * 60 * 60 * 1000000000) with 86400000000000. change (60 * 1000000000) with 60000000000.
  destruct (N.ltb_spec (ts + 86400000000000) 18446744073709551616);
    match goal with |- context [if ?a <? ?b then _ else _] => destruct (N.ltb_spec a b) end;
    rewrite N.ltb_lt; lia.
Qed.

Lemma prune_transactions_facts now limit s :
  is_u64 now -> inv now s ->
  let s' := prune_transactions now limit s in
  (exists r, (size (tx_timestamps s) = r + size (tx_timestamps s'))%nat /\ (r <= limit)%nat
     /\ (r = limit \/ forall ts i, (ts, i) ∈ tx_timestamps s' -> now <= ts + DAY + MINUTE))
  /\ tx_timestamps s' ⊆ tx_timestamps s
  /\ (forall ts i, (ts, i) ∈ tx_timestamps s -> (ts, i) ∉ tx_timestamps s' -> ts + DAY + MINUTE < now)
  /\ (forall ts i ts2 i2, (ts, i) ∈ tx_timestamps s -> (ts, i) ∉ tx_timestamps s' ->
        (ts2, i2) ∈ tx_timestamps s' -> ts <= ts2).
Proof.
  intros Hu. cbv zeta. revert s. induction limit as [|l IH]; intros s Hinv.
  { cbn [prune_transactions]. split; [exists 0%nat; split; [done|]; split; [done|by left]|].
    split; [done|]. split; done. }
  cbn [prune_transactions]. destruct (first_timestamp s) as [[t k]|] eqn:Ef.
  2:{ split.
      - exists 0%nat. split; [done|]. split; [lia|]. right. intros ts i Hin.
        by apply (first_timestamp_None s ts i Ef) in Hin.
      - split; [done|]. split; done. }
  destruct (is_before_transaction_window t now) eqn:Eb; cbn [negb].
  2:{ split.
      - exists 0%nat. split; [done|]. split; [lia|]. right. intros ts i Hin.
        pose proof (first_timestamp_least s t k Ef ts i Hin) as Hle.
        assert (~ t + DAY + MINUTE < now) as Hn by (rewrite <- is_before_spec by done; congruence). lia.
      - split; [done|]. split; done. }
  pose proof (first_timestamp_in _ _ Ef) as Hin.
  assert (prim now s (drop_tx t k s)) as Hp by (by constructor).
  pose proof (prim_inv _ _ _ Hu Hinv Hp) as Hinv1.
  pose proof (drop_tx_timestamps t k s) as Hts.
  change (prune_tx_hash k (set_tx_timestamps (tx_timestamps s ∖ {[(t, k)]}) s)) with (drop_tx t k s).
  set (s1 := drop_tx t k s) in *. clearbody s1.
  destruct (IH s1 Hinv1) as [(r & Hsz & Hr & Hend) (Hsub & Hold & Hfirst)].
  apply is_before_spec in Eb; [|done].
  assert (forall ts i, (ts, i) ∈ tx_timestamps s -> (ts, i) = (t, k) \/ (ts, i) ∈ tx_timestamps s1) as Hcases.
  { intros ts i Hi. destruct (decide ((ts, i) = (t, k))) as [|Hne]; [by left|right].
    rewrite Hts. apply elem_of_difference. split; [done|]. by rewrite elem_of_singleton. }
  split; [|split; [|split]].
  - exists (S r). split; [|split; [lia|]].
    + rewrite Nat.add_succ_l, <- Hsz, Hts. rewrite size_difference; [|set_solver].
      rewrite size_singleton.
      assert (size (tx_timestamps s) <> 0%nat); [|lia].
      intros Hz%size_empty_inv. set_solver.
    + destruct Hend as [->|?]; [by left|by right].
  - rewrite Hts in Hsub. set_solver.
  - intros ts i Hi Hni. destruct (Hcases ts i Hi) as [[= -> ->]|Hi1]; [done|]. by eapply Hold.
  - intros ts i ts2 i2 Hi Hni H2. destruct (Hcases ts i Hi) as [[= -> ->]|Hi1]; [|by eapply Hfirst].
    eapply (first_timestamp_least s t k Ef ts2 i2). rewrite Hts in Hsub. set_solver.
Qed.

Lemma prune_approvals_tx now limit s :
  tx_timestamps (prune_approvals now limit s) = tx_timestamps s.
Proof.
  revert s. induction limit as [|l IH]; intros s; [done|]. cbn [prune_approvals].
  destruct (first_expiry s) as [[t k]|]; [|done]. destruct (now <? t); [done|]. rewrite IH.
  by destruct (approvals s !! k).
Qed.
Lemma check_invariants_tx s : tx_timestamps (check_invariants s) = tx_timestamps s.
Proof. unfold check_invariants. destruct (_ <? _)%nat; done. Qed.

(** ** C20 *)

(** The expiration queue has exactly one entry for each approval with an expiry:
    the gauges count approvals and, among them, those that can expire. *)
Theorem C20_queue_matches_approvals w :
  reachable w ->
  (forall e k, (e, k) ∈ exp_queue (w_led w) <-> 0 < e /\ exists a, approvals (w_led w) !! k = Some (a, e))
  /\ m_expirations (state_metrics (w_led w))
     = N.of_nat (size (filter (fun kv => 0 < kv.2.2) (approvals (w_led w)))).
Proof.
  intros Hr. pose proof (inv_queue _ _ (reachable_inv _ Hr)) as Hq. split; [exact Hq|].
  cbn [m_expirations state_metrics]. f_equal. revert Hq.
  generalize (approvals (w_led w)) (exp_queue (w_led w)). intros ap q Hq.
  rewrite <- (size_dom (D:=gset apkey)).
  assert (NoDup (snd <$> elements q)) as Hnd.
  { apply NoDup_fmap_2_strong; [|apply NoDup_elements].
    intros [e1 k1] [e2 k2] H1 H2 Heq. simpl in Heq. subst k2.
    apply elem_of_elements, Hq in H1 as [_ [a1 H1]].
    apply elem_of_elements, Hq in H2 as [_ [a2 H2]]. rewrite H1 in H2.
    injection H2 as _ ->. done. }
  transitivity (length (snd <$> elements q)); [by rewrite fmap_length|].
  rewrite <- (size_list_to_set (C:=gset apkey) _ Hnd). f_equal. apply set_eq. intros k.
  rewrite elem_of_list_to_set, elem_of_list_fmap, elem_of_dom. split.
  - intros ([e k'] & -> & Hk). apply elem_of_elements, Hq in Hk as [He [a Ha]]. simpl.
    exists (a, e). by apply map_filter_lookup_Some.
  - intros [[a e] Ha]. apply map_filter_lookup_Some in Ha as [Ha He]. simpl in He.
    exists (e, k). split; [done|]. apply elem_of_elements, Hq. eauto.
Qed.

(** Pruning: only expired approvals go, the ones that expired first before the
    others, at most 100; unless 100 went, no expired approval is left.  Nothing
    else of the ledger changes. *)
Theorem C20_pruning w now :
  reachable w -> w_clock w <= now -> now < 2 ^ 64 ->
  let s := w_led w in
  let s' := prune_state now s in
  (forall k v, approvals s' !! k = Some v -> approvals s !! k = Some v)
  /\ (forall k a e, approvals s !! k = Some (a, e) -> approvals s' !! k = None -> 0 < e <= now)
  /\ (forall k a e k2 a2 e2, approvals s !! k = Some (a, e) -> approvals s' !! k = None ->
        approvals s' !! k2 = Some (a2, e2) -> 0 < e2 -> e <= e2)
  /\ (exists r, (size (approvals s) = r + size (approvals s'))%nat /\ (r <= 100)%nat
        /\ (r = 100%nat \/ forall k a e, approvals s' !! k = Some (a, e) -> e = 0 \/ now < e))
  /\ blocks s' = blocks s /\ balances s' = balances s /\ total_supply s' = total_supply s
  /\ certified s' = certified s /\ hash_tree s' = hash_tree s /\ cfg s' = cfg s.
Proof.
  intros Hr Hc Hu. cbv zeta. pose proof (inv_mono _ _ _ Hc (reachable_inv _ Hr)) as Hinv.
  destruct (prune_approvals_facts now APPROVE_PRUNE_LIMIT (w_led w) Hu Hinv) as [Hn Hold].
  split; [intros k v; apply prune_state_sub|]. split.
  { intros k a e Hk Hk'. destruct (decide (e = 0)) as [->|He].
    - rewrite (prune_state_keep now _ k a 0 Hinv Hu Hk) in Hk'; [done|by left].
    - split; [lia|]. destruct (decide (e <= now)) as [|Hgt]; [done|].
      rewrite (prune_state_keep now _ k a e Hinv Hu Hk) in Hk'; [done|right; lia]. }
  rewrite prune_state_appr. split; [exact Hold|]. split; [exact Hn|].
  by destruct (prune_state_core now (w_led w)) as (? & ? & ? & ? & ? & ? & ?).
Qed.

(** Of the messages the ledger logs about inconsistencies of its tables, only two
    can occur: that an approval is set to nothing, and, if two recorded
    transactions that differ have the same hash, that a hash does not match. *)
Theorem C20_inconsistency_messages_partial w :
  reachable w ->
  Forall (fun m => m = LogApprovalZero
    \/ (m = LogPruneHashMismatch
        /\ exists i j bi bj, blocks (w_led w) !! i = Some bi /\ blocks (w_led w) !! j = Some bj
             /\ b_tx bi <> b_tx bj /\ tx_hash (b_tx bi) = tx_hash (b_tx bj)))
    (p0 (w_led w)).
Proof.
  intros Hr. eapply Forall_impl; [apply (inv_p0 _ _ (reachable_inv _ Hr))|].
  intros m [->|[-> (i & j & bi & bj & Hi & Hj & Hne & Hh)]]; [by left|right].
  split; [done|]. exists i, j, bi, bj. by rewrite !tx_hash_txh, Hh.
Qed.

(** ** C47 *)

(** Each remembered transaction is one entry of both tables. *)
Theorem C47_tables_agree w :
  reachable w ->
  m_tx_hashes (state_metrics (w_led w)) = m_tx_timestamps (state_metrics (w_led w)).
Proof.
  intros Hr. pose proof (reachable_inv _ Hr) as Hinv. cbn [m_tx_hashes m_tx_timestamps state_metrics]. f_equal.
  set (s := w_led w) in *. clearbody s.
  rewrite <- (size_dom (D:=gset hash)).
  set (hash_of (x : N * N) := match blocks s !! N.to_nat x.2 with Some b => txh (b_tx b) | None => [] end).
  assert (NoDup (hash_of <$> elements (tx_timestamps s))) as Hnd.
  { apply NoDup_fmap_2_strong; [|apply NoDup_elements].
    intros [t1 i1] [t2 i2] H1%elem_of_elements H2%elem_of_elements Heq.
    destruct (inv_ts _ _ Hinv _ _ H1) as (b1 & e1 & Hb1 & Hc1 & _).
    destruct (inv_ts _ _ Hinv _ _ H2) as (b2 & e2 & Hb2 & Hc2 & _).
    unfold hash_of in Heq. simpl in Heq. rewrite Hb1, Hb2 in Heq.
    pose proof (inv_ts_inj _ _ Hinv _ _ _ _ _ _ H1 H2 Hb1 Hb2 Heq) as ->.
    rewrite Hb1 in Hb2. injection Hb2 as <-. rewrite Hc1 in Hc2. by injection Hc2 as ->. }
  transitivity (length (hash_of <$> elements (tx_timestamps s))); [|by rewrite fmap_length].
  rewrite <- (size_list_to_set (C:=gset hash) _ Hnd). f_equal. apply set_eq. intros h.
  rewrite elem_of_list_to_set, elem_of_list_fmap, elem_of_dom. split.
  - intros [[i c] Hh]. destruct (inv_hashes _ _ Hinv _ _ _ Hh) as [_ (ts & j & b & Hts & Hb & <-)].
    exists (ts, j). split; [|by apply elem_of_elements]. unfold hash_of. simpl. by rewrite Hb.
  - intros ([ts i] & -> & Hts%elem_of_elements).
    destruct (inv_ts _ _ Hinv _ _ Hts) as (b & e & Hb & _ & He).
    unfold hash_of. simpl. rewrite Hb. by exists e.
Qed.

(** The transactions found by their hash are those ordered by their time: a hash is
    in the one table if and only if a transaction of the log with that hash is in
    the other, under its [created_at_time]. *)
Theorem C47_same_transactions w h :
  reachable w ->
  (exists e, tx_hashes (w_led w) !! h = Some e)
  <-> exists ts i b, (ts, i) ∈ tx_timestamps (w_led w) /\ blocks (w_led w) !! N.to_nat i = Some b
        /\ tx_created_at (b_tx b) = Some ts /\ txh (b_tx b) = h.
Proof.
  intros Hr. pose proof (reachable_inv _ Hr) as Hinv. split.
  - intros [[i c] He]. destruct (inv_hashes _ _ Hinv _ _ _ He) as [_ (ts & j & b & Hts & Hb & Hh)].
    destruct (inv_ts _ _ Hinv _ _ Hts) as (b' & e & Hb' & Hc & _). rewrite Hb in Hb'. injection Hb' as <-.
    by exists ts, j, b.
  - intros (ts & i & b & Hts & Hb & _ & <-). destruct (inv_ts _ _ Hinv _ _ Hts) as (b' & e & Hb' & _ & He).
    rewrite Hb in Hb'. injection Hb' as <-. by exists e.
Qed.

(** Pruning forgets only transactions that have left the window, the oldest
    first, at most 100000; unless 100000 were forgotten, none that has left the window
    is remembered any longer. *)
Theorem C47_pruning w now :
  reachable w -> w_clock w <= now -> now < 2 ^ 64 ->
  let s := w_led w in
  let s' := prune_state now s in
  (exists r, m_tx_timestamps (state_metrics s) = r + m_tx_timestamps (state_metrics s') /\ r <= 100000
     /\ (r = 100000 \/ forall ts i, (ts, i) ∈ tx_timestamps s' -> now <= ts + DAY + MINUTE))
  /\ (forall ts i, (ts, i) ∈ tx_timestamps s' -> (ts, i) ∈ tx_timestamps s)
  /\ (forall ts i, (ts, i) ∈ tx_timestamps s -> (ts, i) ∉ tx_timestamps s' -> ts + DAY + MINUTE < now)
  /\ (forall ts i ts2 i2, (ts, i) ∈ tx_timestamps s -> (ts, i) ∉ tx_timestamps s' ->
        (ts2, i2) ∈ tx_timestamps s' -> ts <= ts2).
Proof.
  intros Hr Hc Hu. cbv zeta. pose proof (inv_mono _ _ _ Hc (reachable_inv _ Hr)) as Hinv.
  pose proof (prims_inv _ _ _ Hu Hinv (prune_approvals_prims now APPROVE_PRUNE_LIMIT _ Hu Hinv)) as Hinv1.
  destruct (prune_transactions_facts now TRANSACTION_PRUNE_LIMIT _ Hu Hinv1) as [(r & Hsz & Hr' & Hend) (Hsub & H3 & H4)].
  rewrite prune_approvals_tx in *. cbn [m_tx_timestamps state_metrics].
  unfold prune_state. rewrite check_invariants_tx.
  set (s' := prune_transactions now TRANSACTION_PRUNE_LIMIT _) in *. clearbody s'.
  split; [|split; [set_solver|done]].
  exists (N.of_nat r). split; [lia|].
  assert (N.of_nat TRANSACTION_PRUNE_LIMIT = 100000) as El.
  { Transparent TRANSACTION_PRUNE_LIMIT. unfold TRANSACTION_PRUNE_LIMIT. apply N2Nat.id. }
  Opaque TRANSACTION_PRUNE_LIMIT.
  split; [lia|]. destruct Hend as [->|?]; [by left|by right].
Qed.

End WithEnv.

(** ** Finding *)

(** An approval of nothing for a spender without allowance logs such a message. *)
Definition zero_approval_events : list event :=
  [ EvCall (T0 + 1 * sec) carol (CallApprove None (acct bob) 0 None None None None None) None ].
Definition zero_approval_world : world := the_world (history T0 (100 * T) demo_init zero_approval_events).
Theorem C20_message_logged_refuted :
  exists w, reachable w /\ p0 (w_led w) = [LogApprovalZero].
Proof.
  exists zero_approval_world. split; [apply the_world_reachable; vm_compute; reflexivity|].
  vm_compute. reflexivity.
Qed.

(** ** Cases that meet the hypotheses *)

(** Two approvals expire, one earlier; a transaction leaves the window. *)
Definition prune_events : list event :=
  [ EvCall (T0 + 1 * sec) carol (CallApprove None (acct bob) 5 None (Some (T0 + 60 * sec)) None None None) None;
    EvCall (T0 + 2 * sec) carol (CallApprove None (acct alice) 6 None (Some (T0 + 50 * sec)) None None None) None;
    EvCall (T0 + 3 * sec) carol (CallApprove None (acct canister) 7 None None None None None) None;
    EvCall (T0 + 4 * sec) carol (CallTransfer None (acct bob) 9 None None (Some (T0 + 4 * sec))) None;
    EvCall (T0 + 4 * sec) carol (CallTransfer None (acct bob) 9 None None (Some (T0 + 30 * sec))) None ].
Definition prune_world : world := the_world (history T0 (100 * T) demo_init prune_events).
Example C20_case :
  reachable prune_world /\ w_clock prune_world <= T0 + 55 * sec /\ T0 + 55 * sec < 2 ^ 64
  /\ size (approvals (w_led prune_world)) = 3%nat
  /\ m_expirations (state_metrics (w_led prune_world)) = 2
  /\ size (approvals (prune_state (T0 + 55 * sec) (w_led prune_world))) = 2%nat
  /\ size (approvals (prune_state (T0 + 60 * sec) (w_led prune_world))) = 1%nat.
Proof.
  split; [apply the_world_reachable; vm_compute; reflexivity|].
  split; [vm_compute; discriminate|]. repeat split; vm_compute; reflexivity.
Qed.
Example C47_case :
  reachable prune_world
  /\ m_tx_timestamps (state_metrics (w_led prune_world)) = 2
  /\ m_tx_timestamps (state_metrics (prune_state (T0 + 4 * sec + DAY + MINUTE) (w_led prune_world))) = 2
  /\ m_tx_timestamps (state_metrics (prune_state (T0 + 5 * sec + DAY + MINUTE) (w_led prune_world))) = 1
  /\ m_tx_hashes (state_metrics (prune_state (T0 + 5 * sec + DAY + MINUTE) (w_led prune_world))) = 1.
Proof. split; [apply the_world_reachable|repeat split]; vm_compute; reflexivity. Qed.

Print Assumptions C20_queue_matches_approvals.
Print Assumptions C20_pruning.
Print Assumptions C20_inconsistency_messages_partial.
Print Assumptions C20_message_logged_refuted.
Print Assumptions C47_tables_agree.
Print Assumptions C47_same_transactions.
Print Assumptions C47_pruning.
