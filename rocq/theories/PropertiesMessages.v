(** * Exactly which messages about inconsistencies are logged

    C20 *)
From Verif Require Import Base Types Codec State Ledger Canister Effects Spec ApiSpec Inv Steps World
  CallFacts CallCases StepFacts AllowFacts RefundFacts AsyncFacts EventFacts DedupFacts PropertiesPrune
  PropertiesCalls PropertiesAsync Demo.

(** ** Specification *)

(** How often the log, as kept since the last upgrade, says that an approval was
    set to nothing *)
Definition zero_messages (s : state) : N :=
  N.of_nat (length (List.filter (fun m => match m with LogApprovalZero => true | _ => false end) (p0 s))).
(** The call approves nothing for a spender for whom nothing is stored. *)
Definition pointless_approval (s : state) (caller : principal) (c : call) : Prop :=
  match c with
  | CallApprove sub spender amount _ _ _ _ _ =>
      amount = 0 /\ approvals s !! approval_key (Acct caller sub) spender = None
  | _ => False
  end.

Section WithEnv.
Context `{Env}.

Lemma zero_messages_p0 s s' : p0 s' = p0 s -> zero_messages s' = zero_messages s.
Proof. unfold zero_messages. by intros ->. Qed.
Lemma prune_approvals_zero now limit s : zero_messages (prune_approvals now limit s) = zero_messages s.
Proof.
  revert s. induction limit as [|limit IH]; intros s; [done|]. cbn [prune_approvals].
  destruct (first_expiry s) as [[t k]|]; [|done]. destruct (now <? t); [done|].
  rewrite IH. by destruct (approvals s !! k).
Qed.
Lemma prune_tx_hash_zero i s : zero_messages (prune_tx_hash i s) = zero_messages s.
Proof. unfold prune_tx_hash. repeat case_match; done. Qed.
Lemma prune_transactions_zero now limit s : zero_messages (prune_transactions now limit s) = zero_messages s.
Proof.
  revert s. induction limit as [|limit IH]; intros s; [done|]. cbn [prune_transactions].
  destruct (first_timestamp s) as [[t k]|]; [|done]. destruct (is_before_transaction_window t now); [|done].
  cbn [negb]. rewrite IH. by rewrite prune_tx_hash_zero.
Qed.
Lemma prune_state_zero now s : zero_messages (prune_state now s) = zero_messages s.
Proof.
  unfold prune_state, check_invariants. rewrite <- (prune_approvals_zero now APPROVE_PRUNE_LIMIT s).
  rewrite <- (prune_transactions_zero now TRANSACTION_PRUNE_LIMIT (prune_approvals _ _ _)).
  generalize (prune_transactions now TRANSACTION_PRUNE_LIMIT (prune_approvals now APPROVE_PRUNE_LIMIT s)).
  intros s'. by destruct (size (approvals s') <? size (exp_queue s'))%nat.
Qed.
Lemma spend_allowance_zero f p n s : zero_messages (spend_allowance f p n s) = zero_messages s.
Proof. apply zero_messages_p0. unfold spend_allowance. repeat case_match; done. Qed.

Definition idle (op : operation) (s : state) : bool :=
  match op with
  | Approve from sp amount _ _ _ =>
      (amount =? 0) && match approvals s !! approval_key from sp with None => true | Some _ => false end
  | _ => false
  end.
Lemma tx_effect_zero now t s :
  zero_messages (tx_effect now t s) = zero_messages s + (if idle (tx_op t) s then 1 else 0).
Proof.
  destruct (tx_effect_fields now t s) as (_ & _ & _ & _ & _ & _ & _ & _ & _ & Hp).
  rewrite (zero_messages_p0 _ _ Hp). unfold idle, allow_effect.
  destruct (tx_op t) as [to x f | from to sp x f | from sp x | from sp x ea ex f].
  - lia.
  - destruct (third_party _ _); [rewrite spend_allowance_zero|]; lia.
  - destruct (third_party _ _); [rewrite spend_allowance_zero|]; lia.
  - unfold record_approval. destruct (approvals s !! _) as [[a e]|].
    + rewrite andb_false_r, N.add_0_r. apply zero_messages_p0. repeat case_match; done.
    + rewrite andb_true_r. destruct (x =? 0).
      * unfold zero_messages. cbn [log_p0 set_p0 p0 List.filter length]. lia.
      * rewrite N.add_0_r. apply zero_messages_p0. repeat case_match; done.
Qed.
Lemma recorded_zero now t s :
  zero_messages (recorded now t s) = zero_messages s + (if idle (tx_op t) s then 1 else 0).
Proof. unfold recorded. by rewrite prune_state_zero, tx_effect_zero. Qed.

Lemma refund_zero from sp n m old now s s' fb ab :
  refund_outcome from sp n m old now s = Some (s', fb, ab) -> zero_messages s' = zero_messages s.
Proof.
  unfold refund_outcome. destruct (reimburse_decide from n m s) as [u| |]; [|done|done].
  assert (zero_messages (refunded from n m now s) = zero_messages s) as Hz.
  { rewrite refunded_recorded, prune_state_zero, recorded_zero. cbn. lia. }
  destruct (third_party from sp) as [x|]; [|intros [= <- _ _]; done].
  destruct (_ && _) eqn:Ec; [|intros [= <- _ _]; done].
  destruct (restore_decide _ _ _ _ _ _); try done. intros [= <- _ _].
  rewrite tx_effect_zero. cbn [tx_op restore_tx idle].
  apply andb_true_iff in Ec as [Ef _].
  assert (restore_amount from x (n - FEE) now (refunded from n m now s) =? 0 = false) as ->.
  { apply N.eqb_neq. rewrite restore_amount_api. lia. }
  simpl. lia.
Qed.
Lemma resume_zero now p ans k s0 s s' r :
  supply_ok s -> resume now p ans = Some k -> commit s0 (k s) = (s', r) ->
  (exists t, r = RespTrap t /\ s' = s0) \/ zero_messages s' = zero_messages s.
Proof.
  intros Hs Hk Hc.
  destruct p as [ep from to sp amount j old|ep from sp amount j old created arg];
    destruct ans as [r0|r0]; cbn [resume] in Hk; try done;
    match type of Hk with Some ?a = _ => assert (k = a) as -> by congruence end; clear Hk.
  - destruct r0 as [[]|e].
    + right. assert (s' = s) as ->; [destruct ep; simpl in Hc; by injection Hc as <- _|done].
    + destruct (withdraw_rest_eq ep from sp amount j old now e s0 s Hs) as [y Hy].
      rewrite Hy in Hc. unfold wd_fail_rest in Hc.
      destruct (amount - FEE =? 0); [injection Hc as <- _; by right|].
      destruct (refund_outcome _ _ _ _ _ _ _) as [[[s2 fb] ab]|] eqn:Er; injection Hc as <- <-; [right|by left; eauto].
      by eapply refund_zero.
  - destruct (create_rest_eq ep from sp amount j old created now r0 s0 s Hs) as [y Hy].
    rewrite Hy in Hc. destruct (flat_create_result amount r0) as [c|[code returned]] eqn:Efl.
    + injection Hc as <- _. right. apply zero_messages_p0. unfold note_canister. by destruct (tx_hashes s !! _).
    + unfold cr_fail_rest in Hc. destruct (returned - FEE =? 0); [injection Hc as <- _; by right|].
      destruct (refund_outcome _ _ _ _ _ _ _) as [[[s2 fb] ab]|] eqn:Er; injection Hc as <- <-; [right|by left; eauto].
      by eapply refund_zero.
Qed.

(** ** C20: exactly when *)

(** The message that an approval is set to nothing is logged exactly by an
    accepted [icrc2_approve] of the amount 0 for a spender for whom nothing is
    stored.  An upgrade that goes through empties the log. *)
Theorem C20_exactly_when w ev w' resp :
  reachable w -> ev_ok w ev -> step w ev = (w', resp) ->
  match ev with
  | EvCall _ caller c _ =>
      (rejected resp = false /\ pointless_approval (w_led w) caller c
       /\ zero_messages (w_led w') = zero_messages (w_led w) + 1)
      \/ (~ (rejected resp = false /\ pointless_approval (w_led w) caller c)
          /\ zero_messages (w_led w') = zero_messages (w_led w))
  | EvUpgrade _ _ =>
      zero_messages (w_led w') = 0
      \/ zero_messages (w_led w') = zero_messages (w_led w) /\ exists t, resp = RespTrap t
  | _ => zero_messages (w_led w') = zero_messages (w_led w)
  end.
Proof.
  intros Hr Hev Hst. destruct ev as [now caller c sync|now id ans refund|now args|n|n|now id refund].
  - destruct (call_inv _ _ _ _ _ Hr Hev) as (Hi & Hu & _).
    destruct (rejected resp) eqn:Erj.
    { right. destruct (step_rejected _ _ _ _ _ _ _ Hr Hev Hst Erj) as (-> & _). split; [by intros []|done]. }
    destruct (step_accepted _ _ _ _ _ _ _ Hr Hev Hst Erj) as (Hok & r & Ha & Hm).
    assert (zero_messages (w_led w') = zero_messages (recorded now (requested caller c) (w_led w))) as ->.
    { destruct Ha as [s1 ? -> _|s1 p -> _ _ _|s1 p e s' resp' -> Hp Hsf Hpo Hrj _ Hsr]; [done|done|].
      unfold sync_rest in Hsr. destruct Hm as [-> ->].
      destruct (sync_answer_resume now p e) as [k Hk]. rewrite Hk in Hsr.
      destruct (commit (w_led w) (k _)) as [s2 r2] eqn:Ec. injection Hsr as -> ->.
      destruct (resume_zero _ _ _ _ _ _ _ _ (inv_supply _ _ (recorded_inv _ _ _ Hu Hi Hok)) Hk Ec) as [(t & -> & _)|Hz]; [done|].
      exact Hz. }
    rewrite recorded_zero.
    destruct c as [| | |sub spender amount expected expires fee m created| | | |];
      cbn [requested tx_op idle pointless_approval]; try (right; split; [by intros []|lia]).
    assert ((N.min amount (2 ^ 128 - 1) =? 0) = (amount =? 0)) as ->.
    { generalize (2 ^ 128 - 1) (eq_refl : (2 ^ 128 - 1 =? 0) = false). intros u Hu0.
      destruct (N.eqb_spec u 0), (N.eqb_spec amount 0), (N.eqb_spec (N.min amount u) 0); try done; lia. }
    destruct (approvals (w_led w) !! _); [|destruct (N.eqb_spec amount 0)]; cbn [andb].
    + rewrite andb_false_r. right. split; [by intros (_ & _ & ?)|lia].
    + by left.
    + right. split; [tauto|lia].
  - cbn [step] in Hst. destruct (w_pend w !! id) as [p|] eqn:Ep; [|by injection Hst as <- _].
    destruct (resume now p ans) as [k|] eqn:Ek; [|by injection Hst as <- _].
    destruct (commit _ _) as [s' r] eqn:Ec. injection Hst as <- <-. simpl.
    destruct (reply_inv _ _ _ _ _ Hr Hev) as (Hi & Hu & Hans).
    by destruct (resume_zero _ _ _ _ _ _ _ _ (inv_supply _ _ Hi) Ek Ec) as [(t & _ & ->)|?].
  - cbn [step] in Hst. rewrite (reload_eq _ _ (reachable_inv _ Hr)) in Hst.
    destruct (post_upgrade args (set_p0 [] (w_led w))) as [s' o] eqn:E.
    destruct (post_upgrade_cfg _ _ _ _ E) as [c ->].
    destruct o as [[]|[]|t]; injection Hst as <- <-; [by left|by right; eauto].
  - by injection Hst as <- _.
  - by injection Hst as <- _.
  - by apply step_crash in Hst as [-> _].
Qed.

End WithEnv.

(** ** A case: one such approval, then one for a spender with an allowance *)
Definition pointless_call : event :=
  EvCall (T0 + 4 * sec) alice (CallApprove None (acct carol) 0 None None None None None) None.
Definition revoking_call : event :=
  EvCall (T0 + 4 * sec) alice (CallApprove None (acct bob) 0 None None None None None) None.
Example C20_case :
  reachable (demo_at 3) /\ ev_ok (demo_at 3) pointless_call /\ ev_ok (demo_at 3) revoking_call
  /\ zero_messages (w_led (demo_at 3)) = 0
  /\ zero_messages (w_led (step (demo_at 3) pointless_call).1) = 1
  /\ zero_messages (w_led (step (demo_at 3) revoking_call).1) = 0
  /\ rejected (step (demo_at 3) revoking_call).2 = false.
Proof.
  split; [apply demo_at_reachable; vm_compute; reflexivity|].
  split; [apply ev_okb_ok; vm_compute; reflexivity|].
  split; [apply ev_okb_ok; vm_compute; reflexivity|].
  vm_compute. repeat split.
Qed.

Print Assumptions C20_exactly_when.

