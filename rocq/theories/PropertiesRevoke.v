(** * When a revoked approval stays revoked

    C26 *)
From Verif Require Import Base Types Codec CodecFacts State Ledger Canister Effects Spec ApiSpec
  Inv Steps World CallFacts CallCases StepFacts AllowFacts RefundFacts AsyncFacts EventFacts DedupFacts PropertiesLog
  PropertiesDedup PropertiesCalls PropertiesAuth PropertiesAsync PropertiesRefund Demo.

Section WithEnv.
Context `{Env}.

(** ** Specification *)

(** No withdrawal or creation by [p] from the account [f] waits for its answer. *)
Definition none_in_flight (w : world) (f p : account) : Prop :=
  forall id q x, w_pend w !! id = Some q -> p_spender q = Some x ->
    same_account (p_from q) f -> ~ same_account x p.
(** No accepted call of the history is one of the calls [P]. *)
Definition no_accepted (P : principal -> call -> Prop) (tr : list (event * response)) : Prop :=
  forall now caller c sync resp,
    (EvCall now caller c sync, resp) ∈ tr -> rejected resp = false -> ~ P caller c.

(** ** One event *)
Lemma quiet_step w ev w' resp f p :
  reachable w -> ev_ok w ev -> step w ev = (w', resp) -> none_in_flight w f p ->
  (forall now caller c sync, ev = EvCall now caller c sync -> rejected resp = false ->
     ~ approves caller c f p /\ ~ draws caller c f p) ->
  none_in_flight w' f p
  /\ forall tm, w_clock w' <= tm -> usable (w_led w') tm f p = usable (w_led w) tm f p.
Proof.
  intros Hr Hev Hst Hn Hq. split.
  - destruct ev as [now caller c sync|now id ans refund|now args|n|n|now id refund].
    + destruct (rejected resp) eqn:Erj.
      { destruct (step_rejected _ _ _ _ _ _ _ Hr Hev Hst Erj) as (_ & Hp & _).
        intros id q x. rewrite Hp. apply Hn. }
      destruct (step_accepted _ _ _ _ _ _ _ Hr Hev Hst Erj) as (_ & r & Ha & Hm).
      destruct (Hq _ _ _ _ eq_refl eq_refl) as [_ Hd].
      destruct r as [r|q0]; destruct Hm as [-> ->]; [exact Hn|].
      intros id q x. cbn [w_pend]. rewrite lookup_insert_Some. intros [[_ <-]|[_ Hl]]; [|by eapply Hn].
      intros Hsp Hf Hp. apply Hd.
      assert (pending_of now caller c (w_led w) = Some q0) as Hpo by (inversion Ha; congruence).
      apply pending_outgoing in Hpo. rewrite Hsp in Hpo. unfold draws.
      destruct c; cbn [outgoing spends_from] in *; try done; injection Hpo as E1 E2 _; subst; by eauto 10.
    + cbn [step] in Hst. destruct (w_pend w !! id) as [q0|] eqn:Ep; [|by injection Hst as <- _].
      destruct (resume now q0 ans) as [k|]; [|by injection Hst as <- _].
      destruct (commit _ _) as [s' r]. injection Hst as <- _. intros id' q x. cbn [w_pend].
      intros [_ Hl]%lookup_delete_Some. by eapply Hn.
    + cbn [step] in Hst. destruct (post_upgrade _ _) as [s' [u|[]|t]]; injection Hst as <- _; [|exact Hn].
      intros id q x. cbn [w_pend]. by rewrite lookup_empty.
    + injection Hst as <- _. exact Hn.
    + injection Hst as <- _. exact Hn.
    + apply step_crash in Hst as (_ & _ & _ & Hp & _). intros id' q x. rewrite Hp.
      intros [_ Hl]%lookup_delete_Some. by eapply Hn.
  - intros tm Htm.
    destruct (decide (usable (w_led w') tm f p = usable (w_led w) tm f p)) as [E|E]; [exact E|exfalso].
    pose proof (C26_allowance_changes_partial _ _ _ _ _ _ _ Hr Hev Hst Htm E) as Hc.
    destruct ev as [now caller c sync|now id ans refund|now args|n|n|now id refund]; try done.
    + destruct (rejected resp) eqn:Erj.
      { destruct (step_rejected _ _ _ _ _ _ _ Hr Hev Hst Erj) as (El & _). by rewrite El in E. }
      destruct (Hq _ _ _ _ eq_refl eq_refl). tauto.
    + destruct Hc as (q & x & Hl & Hx & H1 & H2). by eapply Hn.
Qed.

Lemma no_accepted_cons P er tr :
  no_accepted P (er :: tr) -> no_accepted P [er] /\ no_accepted P tr.
Proof.
  intros Hn. split; intros now caller c sync resp Hin; eapply Hn; [|by right].
  apply elem_of_list_singleton in Hin as ->. left.
Qed.

(** ** Histories *)

(** As long as the owner does not approve and the spender does not spend, and no
    call of the spender was in flight, the allowance is what it was. *)
Theorem C26_stays_as_set w tr w' f p :
  reachable w -> steps w tr w' -> none_in_flight w f p ->
  no_accepted (fun caller c => approves caller c f p) tr ->
  no_accepted (fun caller c => draws caller c f p) tr ->
  none_in_flight w' f p
  /\ forall tm, w_clock w' <= tm -> usable (w_led w') tm f p = usable (w_led w) tm f p.
Proof.
  intros Hr Hs. revert Hr. induction Hs as [w|w ev tr w' Hev Hs IH]; intros Hr Hn Ha Hd; [done|].
  apply no_accepted_cons in Ha as [Ha1 Ha2]. apply no_accepted_cons in Hd as [Hd1 Hd2].
  assert (reachable (step w ev).1) as Hr1 by (by constructor).
  destruct (quiet_step w ev (step w ev).1 (step w ev).2 f p Hr Hev (surjective_pairing _) Hn) as [Hn1 Hu1].
  { intros now caller c sync -> Hrj. split; [eapply Ha1|eapply Hd1]; [left|done|left|done]. }
  destruct (IH Hr1 Hn1 Ha2 Hd2) as [Hn2 Hu2]. split; [exact Hn2|].
  intros tm Htm. rewrite (Hu2 tm Htm). apply Hu1. pose proof (steps_clock _ _ _ Hr1 Hs). lia.
Qed.

(** An allowance of nothing stays nothing until the owner approves again: the
    spender cannot spend, and cannot bring it back. *)
Lemma nothing_stays w tr w' f p :
  reachable w -> steps w tr w' -> none_in_flight w f p -> ~ same_account f p ->
  (forall tm, w_clock w <= tm -> (usable (w_led w) tm f p).1 = 0) ->
  no_accepted (fun caller c => approves caller c f p) tr ->
  no_accepted (fun caller c => draws caller c f p) tr
  /\ forall tm, w_clock w' <= tm -> (usable (w_led w') tm f p).1 = 0.
Proof.
  intros Hr Hs. revert Hr. induction Hs as [w|w ev tr w' Hev Hs IH]; intros Hr Hn Hne Hz Ha.
  { split; [|done]. intros ? ? ? ? ? Hin. by apply elem_of_nil in Hin. }
  apply no_accepted_cons in Ha as [Ha1 Ha2].
  assert (reachable (step w ev).1) as Hr1 by (by constructor).
  assert (forall now caller c sync, ev = EvCall now caller c sync -> rejected (step w ev).2 = false ->
    ~ draws caller c f p) as Hd.
  { intros now caller c sync -> Hrj (from & sp & amount & Hsf & Hf & Hp).
    destruct (C18_spending_needs_live_allowance w now caller c sync from sp amount
                (step w (EvCall now caller c sync)).1 (step w (EvCall now caller c sync)).2)
      as (a & e & Hal & Hun & Hle); try done.
    - apply surjective_pairing.
    - intros E. apply Hne. apply key_same. apply same_key in Hf, Hp. congruence.
    - assert (w_clock w <= now) as Hc by (destruct Hev as ((? & _) & _); done).
      specialize (Hz now Hc). unfold usable in Hz.
      assert (icrc2_allowance (w_led w) now f p = icrc2_allowance (w_led w) now from sp) as Ee.
      { rewrite !icrc2_allowance_view. apply same_key in Hf, Hp. unfold approval_key. by rewrite Hf, Hp. }
      rewrite Ee, Hal in Hz. rewrite decide_True in Hz by done. simpl in Hz. unfold icrc1_fee, FEE in Hle. lia. }
  destruct (quiet_step w ev (step w ev).1 (step w ev).2 f p Hr Hev (surjective_pairing _) Hn) as [Hn1 Hu1].
  { intros now caller c sync -> Hrj. split; [eapply Ha1; [left|done]|by eapply Hd]. }
  assert (w_clock w <= w_clock (step w ev).1) as Hck.
  { apply (steps_clock w [(ev, (step w ev).2)]); [done|]. by apply steps_cons, steps_nil. }
  destruct (IH Hr1 Hn1 Hne) as [Hd2 Hz2]; [|exact Ha2|].
  { intros tm Htm. rewrite Hu1 by done. apply Hz. lia. }
  split; [|exact Hz2]. intros now caller c sync resp Hin Hrj.
  apply elem_of_cons in Hin as [[= <- ->]|Hin]; [by eapply Hd|by eapply Hd2].
Qed.

(** The owner revokes an approval while no withdrawal or creation of that spender
    from that account is in flight.  Then until the owner approves again, no
    call of the spender on that account is accepted, and there is nothing the
    spender could use: at no time, whatever else happens. *)
Theorem C26_revocation_sticks w now caller sub sp expected expires fee m created sync w1 i tr w2 :
  let f := Acct caller sub in
  reachable w ->
  ev_ok w (EvCall now caller (CallApprove sub sp 0 expected expires fee m created) sync) ->
  step w (EvCall now caller (CallApprove sub sp 0 expected expires fee m created) sync)
    = (w1, RespReply (RepApprove (Ok i))) ->
  none_in_flight w f sp ->
  steps w1 tr w2 ->
  no_accepted (fun caller c => approves caller c f sp) tr ->
  no_accepted (fun caller c => draws caller c f sp) tr
  /\ forall tm, w_clock w2 <= tm -> (usable (w_led w2) tm f sp).1 = 0.
Proof.
  intros f Hr Hev Hst Hn Hs Ha.
  assert (reachable w1) as Hr1 by (replace w1 with (step w (EvCall now caller (CallApprove sub sp 0 expected expires fee m created) sync)).1 by (by rewrite Hst); by constructor).
  destruct (step_accepted _ _ _ _ _ _ _ Hr Hev Hst eq_refl) as (Hok & r & Hac & Hm).
  destruct (call_inv _ _ _ _ _ Hr Hev) as (Hi & Hu & _).
  assert (w_led w1 = recorded now (requested caller (CallApprove sub sp 0 expected expires fee m created)) (w_led w)) as Hl
    by (clear Hm; destruct Hac as [s1 ? -> _|s1 q -> Hp _ _|s1 q e s' resp' -> Hp _ _ _ _ _]; done).
  assert (~ same_account f sp) as Hne.
  { destruct Hok as (_ & Hstat & _). cbn in Hstat. intros [E _]. by destruct Hstat as (? & _). }
  apply (nothing_stays w1 tr w2 f sp); try done.
  - destruct r as [r|q]; [|by inversion Hac]. destruct Hm as [_ ->]. exact Hn.
  - intros tm _. unfold usable. rewrite icrc2_allowance_view, Hl.
    destruct (approvals (recorded _ _ _) !! approval_key f sp) as [v|] eqn:Ek; [exfalso|].
    2: { cbn [view]. by destruct (decide (unexpired tm None)). }
    unfold recorded in Ek. apply prune_state_sub in Ek. rewrite tx_effect_approvals in Ek.
    rewrite (lookup_allow_effect now) in Ek by (by destruct Hok as (_ & _ & ? & _)).
    cbn [requested tx_op] in Ek. by rewrite decide_True in Ek.
Qed.

End WithEnv.

(** ** A case: alice revokes bob's allowance, nothing being in flight; bob is turned
    down afterwards; with bob's withdrawal in flight the hypothesis fails, and
    [C26_revoked_allowance_returns_refuted] is what can happen then *)
Definition revoke : event :=
  EvCall (T0 + 4 * sec) alice (CallApprove None (acct bob) 0 None None None None None) None.
Definition bob_tries : event :=
  EvCall (T0 + 5 * sec) bob (CallWithdrawFrom None (acct alice) canister None T) None.
Example C26_revoke_case :
  let w1 := (step (demo_at 3) revoke).1 in
  reachable (demo_at 3) /\ ev_ok (demo_at 3) revoke
  /\ 0 < (usable (w_led (demo_at 3)) (T0 + 4 * sec) (acct alice) (acct bob)).1
  /\ (step (demo_at 3) revoke).2 = RespReply (RepApprove (Ok 4))
  /\ none_in_flight (demo_at 3) (acct alice) (acct bob)
  /\ ev_ok w1 bob_tries
  /\ rejected (step w1 bob_tries).2 = true
  /\ rejected (step (demo_at 3) bob_tries).2 = false
  /\ ~ none_in_flight (step (demo_at 3) bob_tries).1 (acct alice) (acct bob).
Proof.
  intros w1. split; [apply demo_at_reachable; vm_compute; reflexivity|].
  split; [apply ev_okb_ok; vm_compute; reflexivity|].
  split; [vm_compute; reflexivity|].
  split; [vm_compute; reflexivity|].
  split. { intros id q x Hl. exfalso. revert Hl. vm_compute. destruct id as [|[]]; discriminate. }
  split; [apply ev_okb_ok; vm_compute; reflexivity|].
  split; [vm_compute; reflexivity|]. split; [vm_compute; reflexivity|].
  intros Hn.
  assert (match w_pend (step (demo_at 3) bob_tries).1 !! 0 with
          | Some q => bool_decide (p_from q = acct alice /\ p_spender q = Some (acct bob))
          | None => false end = true) as Hc by (vm_compute; reflexivity).
  destruct (w_pend (step (demo_at 3) bob_tries).1 !! 0) as [q|] eqn:El; [|done].
  apply bool_decide_eq_true_1 in Hc as [Hf Hs]. generalize (Hn 0 q (acct bob) El Hs). rewrite Hf. intros Hx.
  apply Hx; apply key_same; reflexivity.
Qed.

Print Assumptions C26_stays_as_set.
Print Assumptions C26_revocation_sticks.
