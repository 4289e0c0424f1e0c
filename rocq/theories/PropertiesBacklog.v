(** * Expired entries are cleared out

    C59 *)
From Verif Require Import Base Types Codec State Ledger Canister Effects Spec ApiSpec Inv Steps World
  CallCases StepFacts AllowFacts PropertiesDedup PropertiesPrune Demo.

(** ** Specification *)
(** Approvals still stored although they had expired by [t]; transactions still
    remembered for deduplication although they had left the window by [t] *)
Definition approval_backlog (t : N) (s : state) : N :=
  N.of_nat (size (filter (fun kv : apkey * (N * N) => 0 < kv.2.2 <= t) (approvals s))).
Definition transaction_backlog (t : N) (s : state) : N :=
  N.of_nat (size (filter (fun x : N * N => x.1 + DAY + MINUTE < t) (tx_timestamps s))).
(** The time of an event, if it has one *)
Definition event_time (ev : event) : option N :=
  match ev with
  | EvCall now _ _ _ => Some now
  | EvReply now _ _ _ => Some now
  | EvUpgrade now _ => Some now
  | EvCrash now _ _ => Some now
  | _ => None
  end.
(** How many calls of a history were accepted *)
Definition accepted (x : event * response) : bool :=
  match x.1 with EvCall _ _ _ _ => negb (rejected x.2) | _ => false end.
Definition accepted_calls (tr : list (event * response)) : N := N.of_nat (length (filter accepted tr)).

(** ** Neither backlog grows *)
Lemma of_nat_le (a b : nat) : (a <= b)%nat -> N.of_nat a <= N.of_nat b.
Proof. lia. Qed.
Lemma filter_size_le (t : N) (m m' : gmap apkey (N * N)) :
  (forall k v, m' !! k = Some v -> 0 < v.2 <= t -> exists v', m !! k = Some v' /\ 0 < v'.2 <= t) ->
  let f := filter (fun kv : apkey * (N * N) => 0 < kv.2.2 <= t) in (size (f m') <= size (f m))%nat.
Proof.
  intros Hsub f. rewrite <- !(size_dom (D := gset apkey)). apply subseteq_size. intros k.
  rewrite !elem_of_dom. intros [v [Hv HP]%map_filter_lookup_Some].
  destruct (Hsub k v Hv HP) as (v' & Hv' & HP'). exists v'. by apply map_filter_lookup_Some.
Qed.

Section WithEnv.
Context `{Env}.

Lemma prim_backlog now s s' t :
  is_u64 now -> prim now s s' -> t <= now ->
  approval_backlog t s' <= approval_backlog t s /\ transaction_backlog t s' <= transaction_backlog t s.
Proof.
  intros Hu Hp Ht. unfold approval_backlog, transaction_backlog. destruct Hp as [tx s Hok|k a e s Hk He Hn|ts i s Hin Hb|i b c s Hb].
  - destruct (tx_effect_fields now tx s) as (_ & _ & Hts & _ & _ & _ & _ & Hap & _). rewrite Hts, Hap. split.
    + apply of_nat_le, filter_size_le.
      intros k [a e]. destruct Hok as (_ & Hst & Hop & _). rewrite (lookup_allow_effect now) by done.
      cbn [snd]. intros Hv He.
      assert (forall n k', (if decide (k = k') then
            match approvals s !! k with
            | Some (cur, e) => if cur - n =? 0 then None else Some (cur - n, e)
            | None => None
            end else approvals s !! k) = Some (a, e) -> exists v', approvals s !! k = Some v' /\ 0 < v'.2 <= t) as Hspend.
      { intros n k'. destruct (decide (k = k')); [|intros E; exists (a, e); done].
        destruct (approvals s !! k) as [[cur e']|]; [|done]. destruct (_ =? 0); [done|]. intros [= <- <-]. by exists (cur, e'). }
      destruct (tx_op tx) as [to x f | from to sp x f | from sp x | from sp x ea ex f].
      * by exists (a, e).
      * destruct (op_spend _) as [[k' n]|]; [by eapply Hspend|by exists (a, e)].
      * destruct (op_spend _) as [[k' n]|]; [by eapply Hspend|by exists (a, e)].
      * destruct (decide _); [|by exists (a, e)]. destruct (x =? 0); [done|]. injection Hv as <- <-.
        destruct Hst as (_ & _ & _ & _ & Hex). destruct ex as [ex|]; simpl in *; lia.
    + destruct Hok as (_ & _ & _ & Hcr & _). destruct (tx_created_at tx) as [c|]; [|done].
      apply of_nat_le, subseteq_size. intros x.
      rewrite !elem_of_filter, elem_of_union, elem_of_singleton. intros [Hx [->|Hin]]; [|done].
      simpl in Hx. apply validate_ok_window in Hcr; [|done]. destruct Hcr. lia.
  - split; [|done]. apply of_nat_le, filter_size_le.
    intros k' v Hv HP. exists v. split; [|done]. cbn in Hv. by apply lookup_delete_Some in Hv as [_ ?].
  - split.
    + unfold drop_tx. destruct (prune_tx_hash_fields i (set_tx_timestamps (tx_timestamps s ∖ {[(ts, i)]}) s))
        as (_ & Hf). destruct_and? Hf. 
      match goal with Hx : approvals _ = _ |- _ => rewrite Hx end. done.
    + rewrite drop_tx_timestamps. apply of_nat_le, subseteq_size.
      intros x. rewrite !elem_of_filter, elem_of_difference. tauto.
  - unfold note_canister. destruct (tx_hashes s !! _); done.
Qed.

Lemma prims_backlog now s s' t :
  is_u64 now -> prims now s s' -> t <= now ->
  approval_backlog t s' <= approval_backlog t s /\ transaction_backlog t s' <= transaction_backlog t s.
Proof.
  intros Hu Hp Ht. induction Hp as [|s s1 s' H1 _ [IHa IHt]]; [done|].
  destruct (prim_backlog _ _ _ t Hu H1 Ht). split; lia.
Qed.

(** ** Pruning takes the oldest first *)
Lemma prune_approval_backlog now s t :
  is_u64 now -> inv now s -> t <= now ->
  approval_backlog t (prune_state now s) <= approval_backlog t s - N.of_nat APPROVE_PRUNE_LIMIT.
Proof.
  intros Hu Hi Ht. unfold approval_backlog.
  pose proof (prune_state_keep now s) as Hkeep. pose proof (prune_state_sub now s) as Hsub.
  rewrite prune_state_appr in *.
  destruct (prune_approvals_facts now APPROVE_PRUNE_LIMIT s Hu Hi) as [(r & Hsz & Hr & Hend) Hold].
  set (m' := approvals (prune_approvals _ _ _)) in *. clearbody m'. set (m := approvals s) in *.
  set (f := filter (fun kv : apkey * (N * N) => 0 < kv.2.2 <= t)).
  destruct (decide (f m' = ∅)) as [He|He]; [rewrite He, map_size_empty; lia|].
  apply map_choose in He as (k2 & [a2 e2] & [Hk2 He2]%map_filter_lookup_Some). simpl in He2.
  destruct Hend as [->|Hend]; [|destruct (Hend _ _ _ Hk2); lia].
  assert ((APPROVE_PRUNE_LIMIT + size (f m') <= size (f m))%nat); [|lia].
  rewrite <- !(size_dom (D := gset apkey)) in *.
  assert ((dom m' : gset apkey) ⊆ (dom m : gset apkey)) as Hd.
  { intros k. rewrite !elem_of_dom. intros [v Hv]. exists v. by apply Hsub. }
  assert (APPROVE_PRUNE_LIMIT = size ((dom m : gset apkey) ∖ (dom m' : gset apkey))) as ->.
  { rewrite size_difference by done. lia. }
  rewrite <- size_union.
  2:{ intros k. rewrite elem_of_difference, !elem_of_dom. intros [_ Hn] [v [Hv _]%map_filter_lookup_Some]. by apply Hn. }
  apply subseteq_size. intros k. rewrite elem_of_union, elem_of_difference, !elem_of_dom.
  intros [[[[a e] Hk] Hn]|[v [Hv HP]%map_filter_lookup_Some]].
  - assert (m' !! k = None) as Hk' by (apply eq_None_not_Some; done).
    exists (a, e). apply map_filter_lookup_Some. split; [done|]. simpl.
    pose proof (Hold _ _ _ _ _ _ Hk Hk' Hk2 ltac:(lia)).
    destruct (decide (e = 0)) as [->|]; [|lia].
    rewrite (Hkeep k a 0 Hi Hu Hk) in Hk'; [done|by left].
  - exists v. apply map_filter_lookup_Some. split; [by apply Hsub|done].
Qed.
Lemma prune_transaction_backlog now s t :
  is_u64 now -> inv now s -> t <= now ->
  transaction_backlog t (prune_state now s) <= transaction_backlog t s - N.of_nat TRANSACTION_PRUNE_LIMIT.
Proof.
  intros Hu Hi Ht. unfold transaction_backlog.
  assert (inv now (prune_approvals now APPROVE_PRUNE_LIMIT s)) as Hinv1.
  { eapply prims_inv; [done|done|]. by apply prune_approvals_prims. }
  destruct (prune_transactions_facts now TRANSACTION_PRUNE_LIMIT _ Hu Hinv1) as [(r & Hsz & Hr & Hend) (Hsub & _ & Hold)].
  unfold prune_state. rewrite check_invariants_tx. rewrite prune_approvals_tx in *.
  set (m' := tx_timestamps (prune_transactions _ _ _)) in *. clearbody m'. set (m := tx_timestamps s) in *.
  set (f := filter (fun x : N * N => x.1 + DAY + MINUTE < t)).
  destruct (decide (f m' ≡ ∅)) as [He|He].
  { apply leibniz_equiv in He. rewrite He, size_empty. lia. }
  apply set_choose in He as ([ts2 i2] & [Hk2 He2]%elem_of_filter). simpl in Hk2.
  destruct Hend as [->|Hend]; [|specialize (Hend _ _ He2); lia].
  assert ((TRANSACTION_PRUNE_LIMIT + size (f m') <= size (f m))%nat); [|lia].
  assert (TRANSACTION_PRUNE_LIMIT = size (m ∖ m')) as ->.
  { rewrite size_difference by done. lia. }
  rewrite <- size_union.
  2:{ intros k. rewrite elem_of_difference. intros [_ Hn] [_ Hv]%elem_of_filter. by apply Hn. }
  apply subseteq_size. intros [ts i]. rewrite elem_of_union, elem_of_difference.
  intros [[Hk Hn]|[HP Hv]%elem_of_filter].
  - apply elem_of_filter. simpl. split; [|done]. pose proof (Hold _ _ _ _ Hk Hn He2). lia.
  - apply elem_of_filter. split; [done|]. by apply Hsub.
Qed.

Lemma limits : N.of_nat APPROVE_PRUNE_LIMIT = 100 /\ N.of_nat TRANSACTION_PRUNE_LIMIT = 100000.
Proof.
  split; [done|]. Transparent TRANSACTION_PRUNE_LIMIT. unfold TRANSACTION_PRUNE_LIMIT. apply N2Nat.id.
Qed.
Opaque TRANSACTION_PRUNE_LIMIT.

Lemma recorded_backlog now tx s t :
  is_u64 now -> inv now s -> tx_ok now tx s -> t <= now ->
  approval_backlog t (recorded now tx s) <= approval_backlog t s - 100
  /\ transaction_backlog t (recorded now tx s) <= transaction_backlog t s - 100000.
Proof.
  intros Hu Hi Hok Ht. unfold recorded.
  assert (prim now s (tx_effect now tx s)) as Hp by (by constructor).
  pose proof (prim_inv _ _ _ Hu Hi Hp) as Hi1.
  destruct (prim_backlog _ _ _ t Hu Hp Ht), limits.
  pose proof (prune_approval_backlog now _ t Hu Hi1 Ht).
  pose proof (prune_transaction_backlog now _ t Hu Hi1 Ht). split; lia.
Qed.

(** ** Histories *)
Lemma step_backlog w ev t :
  reachable w -> ev_ok w ev -> (forall now, event_time ev = Some now -> t <= now) ->
  let k := if accepted (ev, (step w ev).2) then 1 else 0 in
  approval_backlog t (w_led (step w ev).1) <= approval_backlog t (w_led w) - 100 * k
  /\ transaction_backlog t (w_led (step w ev).1) <= transaction_backlog t (w_led w) - 100000 * k.
Proof.
  intros Hr Hev Ht. destruct ev as [now caller c sync|now id ans refund|now args|n|n|now id refund].
  - specialize (Ht now eq_refl). destruct (call_inv _ _ _ _ _ Hr Hev) as (Hi & Hu & _).
    destruct (step w (EvCall now caller c sync)) as [w' resp] eqn:Hst. cbn [fst snd accepted].
    destruct (rejected resp) eqn:Hrej; cbn [negb].
    + destruct (step_rejected _ _ _ _ _ _ _ Hr Hev Hst Hrej) as (-> & _). split; lia.
    + destruct (step_accepted _ _ _ _ _ _ _ Hr Hev Hst Hrej) as (Hok & r & Ha & _).
      destruct (recorded_backlog _ _ _ t Hu Hi Hok Ht) as [Ha1 Ht1].
      destruct Ha as [s1 ? -> _|s1 p -> _ _ _|s1 p e s' resp' -> _ _ _ _ Hp _]; [lia|lia|].
      destruct (prims_backlog _ _ _ t Hu Hp Ht). lia.
  - specialize (Ht now eq_refl). cbn [accepted fst]. rewrite !N.mul_0_r, !N.sub_0_r.
    pose proof (reachable_winv _ Hr) as Hw. destruct (step_ok _ _ Hw Hev) as [(_ & Hu & _) [_ Hl]].
    cbn [step] in *. destruct (w_pend w !! id) as [p|]; [|done].
    destruct (resume now p ans) as [k|]; [|done].
    destruct (commit (w_led w) (k (w_led w))) as [s' r]. cbn [fst w_led w_clock] in *.
    destruct Hl as [Hp|[c ->]]; [by apply (prims_backlog now)|done].
  - specialize (Ht now eq_refl). cbn [accepted fst]. rewrite !N.mul_0_r, !N.sub_0_r.
    pose proof (reachable_winv _ Hr) as Hw. destruct (step_ok _ _ Hw Hev) as [(_ & Hu & _) [_ Hl]].
    cbn [step] in *. destruct (post_upgrade args (reload (w_led w))) as [s' [u|[]|tr]]; [|done].
    cbn [fst w_led w_clock] in *. destruct Hl as [Hp|[c ->]]; [by apply (prims_backlog now)|done].
  - cbn. split; lia.
  - cbn. split; lia.
  - cbn [accepted fst]. rewrite !N.mul_0_r, !N.sub_0_r. cbn [step].
    destruct (w_pend w !! id); cbn [fst w_led]; lia.
Qed.

(** Every accepted call clears out up to 100 expired approvals and up to 100000
    expired transactions, and nothing ever adds to what had expired: after
    [k] accepted calls the backlog of any moment before them is down by
    [100 * k] and [100000 * k], or gone.  What happened in between does not
    matter: rejected calls, answers, upgrades. *)
Theorem C59_backlog_is_cleared w tr w' t :
  reachable w -> steps w tr w' ->
  (forall ev resp now, (ev, resp) ∈ tr -> event_time ev = Some now -> t <= now) ->
  approval_backlog t (w_led w') <= approval_backlog t (w_led w) - 100 * accepted_calls tr
  /\ transaction_backlog t (w_led w') <= transaction_backlog t (w_led w) - 100000 * accepted_calls tr.
Proof.
  intros Hr Hs. induction Hs as [w|w ev tr w' Hev Hs IH]; intros Ht; [change (accepted_calls []) with 0; split; lia|].
  assert (reachable (step w ev).1) as Hr1 by (by constructor).
  destruct IH as [IHa IHt]; [done|intros; eapply Ht; [by right|done]|].
  destruct (step_backlog w ev t Hr Hev) as [Ha1 Ht1]; [intros; eapply Ht; [by left|done]|].
  unfold accepted_calls in *. rewrite filter_cons.
  destruct (accepted (ev, (step w ev).2)); cbn [Is_true] in *.
  - rewrite decide_True by done. cbn [length]. lia.
  - rewrite decide_False by auto. lia.
Qed.

(** So the space that expired entries take is bounded by use: enough accepted
    calls, and none of them is left. *)
Theorem C59_nothing_expired_remains w tr w' t :
  reachable w -> steps w tr w' ->
  (forall ev resp now, (ev, resp) ∈ tr -> event_time ev = Some now -> t <= now) ->
  approval_backlog t (w_led w) <= 100 * accepted_calls tr ->
  transaction_backlog t (w_led w) <= 100000 * accepted_calls tr ->
  (forall k a e, approvals (w_led w') !! k = Some (a, e) -> e = 0 \/ t < e)
  /\ (forall ts i, (ts, i) ∈ tx_timestamps (w_led w') -> t <= ts + DAY + MINUTE).
Proof.
  intros Hr Hs Ht Hka Hkt. destruct (C59_backlog_is_cleared _ _ _ _ Hr Hs Ht) as [Ha1 Ht1].
  unfold approval_backlog at 1 in Ha1. unfold transaction_backlog at 1 in Ht1. split.
  - intros k a e Hk. destruct (decide (e = 0)) as [|Hne]; [by left|right].
    assert (size (filter (fun kv : apkey * (N * N) => 0 < kv.2.2 <= t) (approvals (w_led w'))) = 0%nat) as E by lia.
    apply map_size_empty_inv in E. destruct (decide (t < e)) as [|Hge]; [done|exfalso].
    apply (map_filter_empty_not_lookup _ _ k (a, e) E); [simpl; lia|done].
  - intros ts i Hi. assert (size (filter (fun x : N * N => x.1 + DAY + MINUTE < t) (tx_timestamps (w_led w'))) = 0%nat) as E by lia.
    apply size_empty_inv in E. destruct (decide (ts + DAY + MINUTE < t)) as [Hlt|]; [exfalso|lia].
    assert ((ts, i) ∈ filter (fun x : N * N => x.1 + DAY + MINUTE < t) (tx_timestamps (w_led w'))) as Hin
      by (by apply elem_of_filter).
    apply E in Hin. set_solver.
Qed.

End WithEnv.

(** ** A case: two approvals and two remembered transactions have expired, and one
    call clears them out *)
Definition late : N := T0 + 60 * sec + DAY + MINUTE.
Definition later_call : event := EvCall late carol (CallTransfer None (acct bob) 5 None None None) None.
Example C59_case :
  reachable prune_world
  /\ ev_ok prune_world later_call
  /\ accepted (later_call, (step prune_world later_call).2) = true
  /\ (approval_backlog late (w_led prune_world), transaction_backlog late (w_led prune_world)) = (2, 2)
  /\ (approval_backlog late (w_led (step prune_world later_call).1),
      transaction_backlog late (w_led (step prune_world later_call).1)) = (0, 0).
Proof.
  split; [apply the_world_reachable; vm_compute; reflexivity|].
  split; [apply ev_okb_ok; vm_compute; reflexivity|].
  split; [vm_compute; reflexivity|]. split; vm_compute; reflexivity.
Qed.

Print Assumptions C59_backlog_is_cleared.
Print Assumptions C59_nothing_expired_remains.
