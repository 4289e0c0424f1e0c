(** * Each message does a bounded amount of work

    C73 *)
From Verif Require Import Base Types Codec State Ledger Canister Effects Spec ApiSpec Inv Steps World
  CallFacts CallCases StepFacts AllowFacts RefundFacts AsyncFacts EventFacts PropertiesDedup
  PropertiesPrune PropertiesBacklog PropertiesUpgrade PropertiesCalls Demo.

(** ** Specification *)
(** All but at most [n] of the [k] have the property [P]. *)
Definition all_but {K} (n : N) (P : K -> Prop) : Prop :=
  exists l : list K, N.of_nat (length l) <= n /\ forall k, k ∉ l -> P k.

(** Between [s] and [s'] at most [blk] blocks were added to the log, at most [bal]
    balances, [app] stored approvals and [tx] remembered transactions were written
    or removed, and the two tables of remembered transactions changed in step. *)
Record work_within (blk bal app tx : N) (s s' : state) : Prop := {
  work_blocks : exists new, blocks s' = blocks s ++ new /\ N.of_nat (length new) <= blk;
  work_balances : all_but bal (fun k => balances s' !! k = balances s !! k);
  work_approvals : all_but app (fun k => approvals s' !! k = approvals s !! k);
  work_queue : all_but (2 * app) (fun x => x ∈ exp_queue s' <-> x ∈ exp_queue s);
  work_timestamps : all_but tx (fun x => x ∈ tx_timestamps s' <-> x ∈ tx_timestamps s);
  work_hashes : all_but tx (fun h => tx_hashes s' !! h = tx_hashes s !! h);
}.

(** ** Composition *)
Lemma all_but_0 {K} (n : N) (P : K -> Prop) : (forall k, P k) -> all_but n P.
Proof. intros HP. exists []. split; [simpl; lia|]. auto. Qed.
Lemma all_but_1 {K} (x : K) (P : K -> Prop) : (forall k, k <> x -> P k) -> all_but 1 P.
Proof. intros HP. exists [x]. split; [simpl; lia|]. intros k Hk. apply HP. set_solver. Qed.
Lemma all_but_le {K} (n m : N) (P : K -> Prop) : all_but n P -> n <= m -> all_but m P.
Proof. intros (l & Hl & HP) Hle. exists l. split; [lia|done]. Qed.
Lemma all_but_trans {K} (n m : N) (P Q R : K -> Prop) :
  all_but n P -> all_but m Q -> (forall k, P k -> Q k -> R k) -> all_but (n + m) R.
Proof.
  intros (l1 & H1 & HP) (l2 & H2 & HQ) HR. exists (l1 ++ l2). split; [rewrite app_length; lia|].
  intros k Hk. apply HR; [apply HP|apply HQ]; set_solver.
Qed.

Lemma work_refl s : work_within 0 0 0 0 s s.
Proof. split; [exists []; by rewrite app_nil_r|..]; by apply all_but_0. Qed.
Lemma work_trans b1 l1 a1 t1 b2 l2 a2 t2 s1 s2 s3 :
  work_within b1 l1 a1 t1 s1 s2 -> work_within b2 l2 a2 t2 s2 s3 ->
  work_within (b1 + b2) (l1 + l2) (a1 + a2) (t1 + t2) s1 s3.
Proof.
  intros [(n1 & B1 & Hn1) L1 A1 Q1 T1 H1] [(n2 & B2 & Hn2) L2 A2 Q2 T2 H2]. split.
  - exists (n1 ++ n2). split; [by rewrite B2, B1, app_assoc|]. rewrite app_length. lia.
  - eapply all_but_trans; [exact L1|exact L2|]. cbn. congruence.
  - eapply all_but_trans; [exact A1|exact A2|]. cbn. congruence.
  - rewrite N.mul_add_distr_l. eapply all_but_trans; [exact Q1|exact Q2|]. cbn. tauto.
  - eapply all_but_trans; [exact T1|exact T2|]. cbn. tauto.
  - eapply all_but_trans; [exact H1|exact H2|]. cbn. congruence.
Qed.
Lemma work_le b1 l1 a1 t1 b2 l2 a2 t2 s s' :
  work_within b1 l1 a1 t1 s s' -> b1 <= b2 -> l1 <= l2 -> a1 <= a2 -> t1 <= t2 ->
  work_within b2 l2 a2 t2 s s'.
Proof.
  intros [(n1 & B1 & Hn1) L1 A1 Q1 T1 H1] Hb Hl Ha Ht. split.
  - exists n1. split; [done|lia].
  - by eapply all_but_le.
  - by eapply all_but_le.
  - eapply all_but_le; [done|lia].
  - by eapply all_but_le.
  - by eapply all_but_le.
Qed.

Section WithEnv.
Context `{Env}.

(** ** Pruning *)
Lemma prune_approvals_work now limit s :
  work_within 0 0 (N.of_nat limit) 0 s (prune_approvals now limit s).
Proof.
  revert s. induction limit as [|l IH]; intros s; [apply work_refl|]. cbn [prune_approvals].
  destruct (first_expiry s) as [[t k]|].
  2: { eapply work_le; [apply work_refl|lia..]. }
  destruct (now <? t); [eapply work_le; [apply work_refl|lia..]|].
  set (s1 := match approvals s !! k with None => _ | Some _ => _ end).
  replace (N.of_nat (S l)) with (1 + N.of_nat l) by lia.
  change 0 with (0 + 0). eapply work_trans; [|apply IH].
  assert (approvals s1 = approvals s \/ approvals s1 = delete k (approvals s)) as Ha.
  { unfold s1. destruct (approvals s !! k); [by right|by left]. }
  assert (blocks s1 = blocks s /\ balances s1 = balances s /\ exp_queue s1 = exp_queue s
    /\ tx_timestamps s1 = tx_timestamps s /\ tx_hashes s1 = tx_hashes s) as (Hb & Hl & Hq & Ht & Hh).
  { unfold s1. by destruct (approvals s !! k). }
  clearbody s1. split; cbn.
  - exists []. rewrite app_nil_r. split; [done|]. simpl. lia.
  - apply all_but_0. by rewrite Hl.
  - apply (all_but_1 k). intros k' Hne. destruct Ha as [->| ->]; [done|]. by rewrite lookup_delete_ne.
  - eapply all_but_le; [apply (all_but_1 (t, k))|lia]. intros x Hne. rewrite Hq.
    rewrite elem_of_difference, elem_of_singleton. tauto.
  - apply all_but_0. by rewrite Ht.
  - apply all_but_0. by rewrite Hh.
Qed.

Lemma prune_transactions_work now limit s :
  work_within 0 0 0 (N.of_nat limit) s (prune_transactions now limit s).
Proof.
  revert s. induction limit as [|l IH]; intros s; [apply work_refl|]. cbn [prune_transactions].
  destruct (first_timestamp s) as [[t i]|].
  2: { eapply work_le; [apply work_refl|lia..]. }
  destruct (negb _); [eapply work_le; [apply work_refl|lia..]|].
  replace (N.of_nat (S l)) with (1 + N.of_nat l) by lia.
  change 0 with (0 + 0). eapply work_trans; [|apply IH]. change (0 + 0) with 0.
  set (s0 := set_tx_timestamps (tx_timestamps s ∖ {[(t, i)]}) s).
  destruct (prune_tx_hash_fields i s0) as (Hb & Hl & Ha & Hq & Ht & _).
  split.
  - exists []. rewrite app_nil_r. split; [by rewrite Hb|]. simpl. lia.
  - apply all_but_0. by rewrite Hl.
  - apply all_but_0. by rewrite Ha.
  - apply all_but_0. by rewrite Hq.
  - apply (all_but_1 (t, i)). intros x Hne. rewrite Ht. unfold s0. cbn [tx_timestamps set_tx_timestamps].
    rewrite elem_of_difference, elem_of_singleton. tauto.
  - unfold prune_tx_hash. destruct (blocks s0 !! N.to_nat i) as [b|]; [|by apply all_but_0].
    destruct (tx_hash (b_tx b)) as [th|]; [|by apply all_but_0].
    apply (all_but_1 th). intros h Hne.
    destruct (tx_hashes s0 !! th) as [[j c]|]; [destruct (j =? i)|]; by apply lookup_delete_ne.
Qed.

Lemma prune_state_work now s : work_within 0 0 100 100000 s (prune_state now s).
Proof.
  unfold prune_state. destruct limits as [L1 L2].
  change 0 with (0 + 0) at 1 2. replace 100 with (100 + 0) by done. replace 100000 with (0 + 100000) by done.
  assert (forall x, work_within 0 0 100 100000 s x -> work_within 0 0 100 100000 s (check_invariants x)) as Hc.
  { intros x Hx. unfold check_invariants. destruct (_ <? _)%nat; [|done]. destruct Hx. by split. }
  change (work_within 0 0 100 100000 s (check_invariants (prune_transactions now TRANSACTION_PRUNE_LIMIT (prune_approvals now APPROVE_PRUNE_LIMIT s)))).
  apply Hc. change 0 with (0 + 0). replace 100 with (100 + 0) by done. replace 100000 with (0 + 100000) by done.
  eapply work_trans; [rewrite <- L1; apply prune_approvals_work|rewrite <- L2; apply prune_transactions_work].
Qed.

(** ** Recording a transaction *)
Definition bal_writes (op : operation) : N := match op with Transfer _ _ _ _ _ => 2 | _ => 1 end.
Definition app_writes (op : operation) : N := match op with Mint _ _ _ => 0 | _ => 1 end.
Definition tx_writes (t : transaction) : N := match tx_created_at t with Some _ => 1 | None => 0 end.

(** A change of one approval *)
Definition one_approval (s s' : state) : Prop :=
  all_but 1 (fun k => approvals s' !! k = approvals s !! k)
  /\ all_but 2 (fun x => x ∈ exp_queue s' <-> x ∈ exp_queue s).
Lemma spend_one from sp n s : one_approval s (spend_allowance from sp n s).
Proof.
  unfold spend_allowance. destruct (approvals s !! _) as [[cur e]|]; [|split; by apply all_but_0].
  set (k := approval_key from sp). destruct (cur - n =? 0).
  - split; cbn.
    + apply (all_but_1 k). intros k' Hne. destruct (0 <? e); cbn; by apply lookup_delete_ne.
    + exists [(e, k)]. split; [simpl; lia|]. intros x Hx. destruct (0 <? e); cbn; [|done].
      rewrite elem_of_difference. set_solver.
  - split; cbn; [|by apply all_but_0]. apply (all_but_1 k). intros k' Hne. by apply lookup_insert_ne.
Qed.
Lemma record_one from sp n ex s : one_approval s (record_approval from sp n ex s).
Proof.
  unfold record_approval. set (k := approval_key from sp). set (e := default 0 ex).
  destruct (approvals s !! k) as [[cur e0]|] eqn:Ea.
  - destruct (n =? 0); [|destruct (e =? e0)]; split; cbn.
    + apply (all_but_1 k). intros k' Hne. destruct (0 <? e0); cbn; by apply lookup_delete_ne.
    + exists [(e0, k)]. split; [simpl; lia|]. intros x Hx. destruct (0 <? e0); cbn; [|done].
      rewrite elem_of_difference. set_solver.
    + apply (all_but_1 k). intros k' Hne. by apply lookup_insert_ne.
    + by apply all_but_0.
    + apply (all_but_1 k). intros k' Hne. destruct (0 <? e0), (0 <? e); cbn; by apply lookup_insert_ne.
    + exists [(e0, k); (e, k)]. split; [simpl; lia|]. intros x Hx.
      assert (x <> (e0, k) /\ x <> (e, k)) as [] by set_solver.
      destruct (0 <? e0), (0 <? e); cbn; set_solver.
  - destruct (n =? 0); split; cbn; [by apply all_but_0..| |].
    + apply (all_but_1 k). intros k' Hne. destruct (0 <? e); cbn; by apply lookup_insert_ne.
    + exists [(e, k)]. split; [simpl; lia|]. intros x Hx. destruct (0 <? e); cbn; [|done]. set_solver.
Qed.
Lemma allow_effect_work op s :
  all_but (app_writes op) (fun k => approvals (allow_effect op s) !! k = approvals s !! k)
  /\ all_but (2 * app_writes op) (fun x => x ∈ exp_queue (allow_effect op s) <-> x ∈ exp_queue s).
Proof.
  destruct op as [to n f|from to sp n f|from sp n|from sp n ea ex f]; cbn [app_writes allow_effect].
  - split; by apply all_but_0.
  - destruct (third_party from sp) as [x|]; [apply spend_one|split; by apply all_but_0].
  - destruct (third_party from sp) as [x|]; [apply spend_one|split; by apply all_but_0].
  - apply record_one.
Qed.

Lemma credit_others a n s k : k <> to_key a -> balances (credit_bal a n s) !! k = balances s !! k.
Proof. intros Hne. unfold credit_bal. cbn. by apply lookup_insert_ne. Qed.
Lemma debit_others a n s k : k <> to_key a -> balances (debit_bal a n s) !! k = balances s !! k.
Proof.
  intros Hne. unfold debit_bal. cbn.
  destruct (_ =? 0); [by apply lookup_delete_ne|by apply lookup_insert_ne].
Qed.
Lemma balance_effect_work op s :
  all_but (bal_writes op) (fun k => balances (balance_effect op s) !! k = balances s !! k).
Proof.
  destruct op as [to n f|from to sp n f|from sp n|from sp n ea ex f]; cbn [bal_writes balance_effect].
  - apply (all_but_1 (to_key to)). intros k Hne. by apply credit_others.
  - exists [to_key from; to_key to]. split; [simpl; lia|]. intros k Hk.
    rewrite credit_others by set_solver. apply debit_others. set_solver.
  - apply (all_but_1 (to_key from)). intros k Hne. by apply debit_others.
  - apply (all_but_1 (to_key from)). intros k Hne. by apply debit_others.
Qed.

Lemma tx_effect_work now t s :
  work_within 1 (bal_writes (tx_op t)) (app_writes (tx_op t)) (tx_writes t) s (tx_effect now t s).
Proof.
  destruct (tx_effect_fields now t s) as (Hb & Hh & Ht & _ & _ & _ & _ & Ha & Hq & _).
  destruct (allow_effect_work (tx_op t) s) as [Ha' Hq']. split.
  - eexists. split; [exact Hb|]. simpl. lia.
  - unfold tx_effect. eapply all_but_le; [eapply (all_but_trans _ 0 _ (fun _ => True))|].
    + apply balance_effect_work.
    + by apply all_but_0.
    + intros k Hk _. rewrite Hk.
      by destruct (allow_effect_fields (tx_op t) (push_block (mk_block now t s) s)) as (_ & -> & _).
    + lia.
  - by rewrite Ha.
  - by rewrite Hq.
  - rewrite Ht. unfold tx_writes. destruct (tx_created_at t) as [c|]; [|by apply all_but_0].
    apply (all_but_1 (c, nblocks s)). intros x Hx. set_solver.
  - rewrite Hh. unfold tx_writes. destruct (tx_created_at t) as [c|]; [|by apply all_but_0].
    apply (all_but_1 (txh t)). intros h Hne. by apply lookup_insert_ne.
Qed.
Lemma recorded_work now t s :
  work_within 1 (bal_writes (tx_op t)) (app_writes (tx_op t) + 100) (tx_writes t + 100000) s (recorded now t s).
Proof.
  eapply work_le; [eapply work_trans; [apply tx_effect_work|apply prune_state_work]|lia..].
Qed.

(** ** The end of an outgoing call *)
Lemma refund_work from sp n m old now s s' fb ab :
  refund_outcome from sp n m old now s = Some (s', fb, ab) -> work_within 2 2 201 200000 s s'.
Proof.
  unfold refund_outcome. destruct (reimburse_decide from n m s); [|done..].
  assert (work_within 1 1 200 200000 s (refunded from n m now s)) as Hw.
  { rewrite refunded_recorded.
    eapply work_le; [eapply work_trans; [apply recorded_work|apply prune_state_work]|cbn; lia..]. }
  assert (work_within 2 2 201 200000 s (refunded from n m now s)) as Hw'.
  { eapply work_le; [exact Hw|lia..]. }
  destruct (third_party from sp) as [x|]; [|intros [= <- _ _]; exact Hw'].
  destruct (_ && _); [|intros [= <- _ _]; exact Hw'].
  destruct (restore_decide _ _ _ _ _ _); [|done..]. intros [= <- _ _].
  eapply work_le; [eapply work_trans; [exact Hw|apply tx_effect_work]|cbn; lia..].
Qed.
Lemma note_work h i c s : work_within 0 0 0 1 s (note_canister h i c s).
Proof.
  unfold note_canister. destruct (tx_hashes s !! h); [|eapply work_le; [apply work_refl|lia..]].
  split; cbn; [exists []; by rewrite app_nil_r|by apply all_but_0..|].
  apply (all_but_1 h). intros h' Hne. by apply lookup_insert_ne.
Qed.
Lemma resume_work now p ans k s0 s s' r :
  supply_ok s -> resume now p ans = Some k -> commit s0 (k s) = (s', r) ->
  (exists t, r = RespTrap t /\ s' = s0) \/ work_within 2 2 201 200000 s s'.
Proof.
  intros Hs Hk Hc.
  destruct p as [ep from to sp amount j old|ep from sp amount j old created arg];
    destruct ans as [r0|r0]; cbn [resume] in Hk; try done;
    match type of Hk with Some ?a = _ => assert (k = a) as -> by congruence end; clear Hk.
  - destruct r0 as [[]|e].
    + right. assert (s' = s) as ->; [destruct ep; simpl in Hc; by injection Hc as <- _|].
      eapply work_le; [apply work_refl|lia..].
    + destruct (withdraw_rest_eq ep from sp amount j old now e s0 s Hs) as [y Hy].
      rewrite Hy in Hc. unfold wd_fail_rest in Hc.
      destruct (amount - FEE =? 0).
      { injection Hc as <- _. right. eapply work_le; [apply work_refl|lia..]. }
      destruct (refund_outcome _ _ _ _ _ _ _) as [[[s2 fb] ab]|] eqn:Er; injection Hc as <- <-; [right|by left; eauto].
      by eapply refund_work.
  - destruct (create_rest_eq ep from sp amount j old created now r0 s0 s Hs) as [y Hy].
    rewrite Hy in Hc. destruct (flat_create_result amount r0) as [c|[code returned]] eqn:Efl.
    + injection Hc as <- _. right. eapply work_le; [apply note_work|lia..].
    + unfold cr_fail_rest in Hc. destruct (returned - FEE =? 0).
      { injection Hc as <- _. right. eapply work_le; [apply work_refl|lia..]. }
      destruct (refund_outcome _ _ _ _ _ _ _) as [[[s2 fb] ab]|] eqn:Er; injection Hc as <- <-; [right|by left; eauto].
      by eapply refund_work.
Qed.

(** ** C73 *)

(** However large the ledger is: a call that is turned down changes nothing; an
    accepted call adds one block, changes at most two balances and 101 approvals
    and at most 100001 entries of the deduplication tables, and if its outgoing call
    fails at once, as much again as the refund needs; the end of an outgoing call
    adds at most two blocks and changes two balances, 201 approvals and 200000
    entries; nothing else touches the ledger's data, and a message opens or closes
    at most one waiting call.  (The upgrade forgets all waiting calls.) *)
Theorem C73_message_work w ev w' resp :
  reachable w -> ev_ok w ev -> step w ev = (w', resp) ->
  match ev with
  | EvCall _ _ _ _ =>
      if rejected resp then work_within 0 0 0 0 (w_led w) (w_led w')
      else work_within 1 2 101 100001 (w_led w) (w_led w')
           \/ ((forall id o, resp <> RespPending id o)
               /\ work_within 3 3 302 300001 (w_led w) (w_led w'))
  | EvReply _ _ _ _ => work_within 2 2 201 200000 (w_led w) (w_led w')
  | _ => work_within 0 0 0 0 (w_led w) (w_led w')
  end
  /\ ((exists now args, ev = EvUpgrade now args)
      \/ all_but 1 (fun id => w_pend w' !! id = w_pend w !! id)).
Proof.
  intros Hr Hev Hst. destruct ev as [now caller c sync|now id ans refund|now args|n|n|now id refund].
  - destruct (call_inv _ _ _ _ _ Hr Hev) as (Hi & Hu & _).
    destruct (rejected resp) eqn:Erj.
    { destruct (step_rejected _ _ _ _ _ _ _ Hr Hev Hst Erj) as (-> & -> & _).
      split; [apply work_refl|]. right. by apply all_but_0. }
    destruct (step_accepted _ _ _ _ _ _ _ Hr Hev Hst Erj) as (Hok & r & Ha & Hm). split.
    + assert (work_within 1 2 101 100001 (w_led w) (recorded now (requested caller c) (w_led w))) as Hw.
      { eapply work_le; [apply recorded_work|lia|..].
        - by destruct (tx_op _).
        - destruct (tx_op _); cbn; lia.
        - unfold tx_writes. destruct (tx_created_at _); lia. }
      destruct Ha as [s1 resp' -> _|s1 p -> _ _ _|s1 p e s' resp' -> Hp Hsf Hpo Hrj _ Hsr]; [by left|by left|].
      right. unfold sync_rest in Hsr. destruct Hm as [-> ->].
      destruct (sync_answer_resume now p e) as [k Hk]. rewrite Hk in Hsr.
      destruct (commit (w_led w) (k _)) as [s2 r2] eqn:Ec. injection Hsr as -> ->. split.
      * intros id o ->. unfold commit in Ec. destruct (k _) as [? [?|[]|?]]; congruence.
      * destruct (resume_work _ _ _ _ _ _ _ _ (inv_supply _ _ (recorded_inv _ _ _ Hu Hi Hok)) Hk Ec) as [(t & -> & _)|Hw2]; [done|].
        assert (bal_writes (tx_op (requested caller c)) = 1 /\ app_writes (tx_op (requested caller c)) = 1) as [E1 E2]
          by (by destruct c).
        assert (tx_writes (requested caller c) <= 1) by (unfold tx_writes; destruct (tx_created_at _); lia).
        eapply work_le; [eapply work_trans; [apply recorded_work|exact Hw2]|lia..].
    + right. destruct r as [r|p]; destruct Hm as [-> ->]; [by apply all_but_0|].
      apply (all_but_1 (w_next w)). intros id Hne. cbn [w_pend]. by apply lookup_insert_ne.
  - cbn [step] in Hst.
    assert (work_within 2 2 201 200000 (w_led w) (w_led w)) as H0 by (eapply work_le; [apply work_refl|lia..]).
    destruct (w_pend w !! id) as [p|] eqn:Ep.
    2: { injection Hst as <- _. split; [exact H0|]. right. by apply all_but_0. }
    destruct (resume now p ans) as [k|] eqn:Ek.
    2: { injection Hst as <- _. split; [exact H0|]. right. by apply all_but_0. }
    destruct (commit _ _) as [s' r] eqn:Ec. injection Hst as <- <-. cbn [w_led w_pend]. split.
    + destruct (resume_work _ _ _ _ _ _ _ _ (inv_supply _ _ (reachable_inv _ Hr)) Ek Ec) as [(t & _ & ->)|Hw]; [exact H0|exact Hw].
    + right. apply (all_but_1 id). intros id' Hne. by apply lookup_delete_ne.
  - cbn [step] in Hst. split; [|left; eauto].
    rewrite (reload_eq _ _ (reachable_inv _ Hr)) in Hst.
    destruct (post_upgrade args (set_p0 [] (w_led w))) as [s' o] eqn:E.
    destruct (post_upgrade_cfg _ _ _ _ E) as [c ->].
    destruct o as [[]|[]|t]; injection Hst as <- _; [|apply work_refl].
    cbn [w_led]. destruct (work_refl (w_led w)). by split.
  - injection Hst as <- _. split; [apply work_refl|right; by apply all_but_0].
  - injection Hst as <- _. split; [apply work_refl|right; by apply all_but_0].
  - apply step_crash in Hst as (-> & _ & _ & -> & _). split; [apply work_refl|right].
    apply (all_but_1 id). intros id' Hne. by apply lookup_delete_ne.
Qed.

End WithEnv.

(** ** A case: a withdrawal through an approval that cannot go out is recorded,
    refunded and its allowance restored in one message; three blocks *)
Definition busy_call : event :=
  EvCall (T0 + 4 * sec) bob (CallWithdrawFrom None (acct alice) canister None T) (Some SEPerform).
Example C73_case :
  reachable (demo_at 3) /\ ev_ok (demo_at 3) busy_call
  /\ rejected (step (demo_at 3) busy_call).2 = false
  /\ length (blocks (w_led (step (demo_at 3) busy_call).1)) = (length (blocks (w_led (demo_at 3))) + 3)%nat.
Proof.
  split; [apply demo_at_reachable; vm_compute; reflexivity|].
  split; [apply ev_okb_ok; vm_compute; reflexivity|].
  split; vm_compute; reflexivity.
Qed.

Print Assumptions C73_message_work.
