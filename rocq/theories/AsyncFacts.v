(** * Calls that wait for another canister *)
From Verif Require Import Base Types Codec CodecFacts State Ledger Canister Effects Spec ApiSpec
  Inv Steps World CallFacts CallCases StepFacts AllowFacts RefundFacts.

Lemma reported_code_eq e : reported_code e = call_error_to_reject e.
Proof. by destruct e as [| |[[]|]|]. Qed.

Section WithEnv.
Context `{Env}.

(** The fields of a pending call *)
Definition p_from (p : pending) : account :=
  match p with PWithdraw _ f _ _ _ _ _ => f | PCreate _ f _ _ _ _ _ _ => f end.
Definition p_spender (p : pending) : option account :=
  match p with PWithdraw _ _ _ x _ _ _ => x | PCreate _ _ x _ _ _ _ _ => x end.
Definition p_old (p : pending) : option N :=
  match p with PWithdraw _ _ _ _ _ _ o => o | PCreate _ _ _ _ _ o _ _ => o end.
Definition p_ep (p : pending) : bool :=
  match p with PWithdraw e _ _ _ _ _ _ => e | PCreate e _ _ _ _ _ _ _ => e end.

Lemma outgoing_pending now caller c s from sp amount :
  outgoing caller c = Some (from, sp, amount) ->
  exists p, pending_of now caller c s = Some p
    /\ p_from p = from /\ p_spender p = sp /\ pending_amount p = amount
    /\ pending_block p = nblocks s /\ p_old p = used_expiry s now from sp.
Proof. destruct c; simpl; try done; intros [= <- <- <-]; eexists; done. Qed.

Lemma burn_effect_recorded now caller c s from sp amount :
  inv now s -> is_u64 now -> tx_ok now (requested caller c) s ->
  outgoing caller c = Some (from, sp, amount) ->
  burn_effect s (recorded now (requested caller c) s) now from sp amount (requested caller c) (nblocks s).
Proof.
  intros Hi Hu Hok Ho.
  assert (tx_op (requested caller c) = Burn from sp amount) as Hop.
  { destruct c; simpl in *; try done; injection Ho as <- <- <-; done. }
  set (t := requested caller c) in *. clearbody t.
  split; [|split; [|split]].
  - intros a. pose proof (recorded_balance now t s a Hok) as Hb. rewrite Hop in Hb. simpl in Hb.
    rewrite N.add_0_r in Hb. exact Hb.
  - pose proof (recorded_supply now t s Hi Hok) as Hs. rewrite Hop in Hs.
    cbn [op_burned op_minted] in Hs. rewrite N.add_0_r in Hs. exact Hs.
  - exists (mk_block now t s). by rewrite recorded_blocks.
  - assert (forall tm f p, now <= tm -> op_pair (tx_op t) <> Some (to_key f, to_key p) ->
      unexpired tm (icrc2_allowance s tm f p).2 ->
      icrc2_allowance (recorded now t s) tm f p = icrc2_allowance s tm f p) as Hoth.
    { intros. by apply recorded_untouched. }
    rewrite Hop in Hoth. cbn [op_pair op_spend] in Hoth.
    destruct sp as [x|]; [|exact Hoth]. split.
    + intros E. rewrite (proj2 (third_party_None from (Some x))) in Hoth; [exact Hoth|].
      intros y [= <-]. done.
    + intros E. assert (third_party from (Some x) = Some x) as Htp by (by apply third_party_Some).
      rewrite Htp in Hoth.
      assert (op_spend (tx_op t) = Some (approval_key from x, amount + FEE)) as Hsp.
      { rewrite Hop. cbn [op_spend]. by rewrite Htp. }
      destruct (recorded_spend _ _ _ _ _ _ now Hi Hu Hok (N.le_refl _) Hsp) as (a & e & Ha & Hun & Hle & Hpos & _).
      exists a, e. split; [done|]. split; [done|]. split; [done|]. split; [|exact Hoth].
      intros tm Htm Hune.
      destruct (recorded_spend _ _ _ _ _ _ tm Hi Hu Hok Htm Hsp) as (a' & e' & Ha' & _ & _ & _ & Hv).
      rewrite Ha in Ha'. injection Ha' as <- <-. unfold icrc1_fee. rewrite Hv by done.
      destruct (N.eqb_spec (a - (amount + FEE)) 0), (N.eqb_spec a (amount + FEE)); try done; lia.
Qed.

(** A waiting call stays until its answer. *)
Lemma step_pend w ev id p :
  reachable w -> ev_ok w ev -> w_pend w !! id = Some p ->
  match ev with EvReply _ id' _ _ => id' <> id | EvCrash _ id' _ => id' <> id | EvUpgrade _ _ => False | _ => True end ->
  w_pend (step w ev).1 !! id = Some p.
Proof.
  intros Hr Hev Hp Hu. apply reachable_winv in Hr as (_ & _ & Hpend).
  destruct (Hpend _ _ Hp) as [Hlt _].
  destruct ev as [now caller c sync|now id' ans refund|now args|n|n|now id' refund]; simpl; try done.
  - destruct (exec_call _ _ _ _ _ _) as [s' [r|p']]; simpl; [done|].
    rewrite lookup_insert_ne; [done|lia].
  - destruct (w_pend w !! id') as [p'|]; [|done]. destruct (resume now p' ans); [|done].
    destruct (commit _ _). simpl. by rewrite lookup_delete_ne.
  - destruct (w_pend w !! id') as [p'|]; [|done]. simpl. by rewrite lookup_delete_ne.
Qed.
Lemma steps_pend w tr w' id p :
  reachable w -> steps w tr w' -> undisturbed id tr -> w_pend w !! id = Some p ->
  w_pend w' !! id = Some p.
Proof.
  intros Hr Hs. induction Hs as [w|w ev tr w' Hev Hs IH]; intros Hun Hp; [done|].
  apply Forall_cons in Hun as [Hu Hun]. apply IH; [by constructor|done|]. by apply step_pend.
Qed.

(** The outcome of a failure *)
Lemma wd_fail_facts now ep c from sp amount i old code s s' err :
  inv now s -> is_u64 now -> wf_account from -> wf_acct_opt sp -> is_u128 amount ->
  (forall e, old = Some e -> 0 < e /\ is_u64 e) ->
  wd_fail_rest ep from sp amount i old now code s = Some (s', err) ->
  (forall fb ab, failed_reply c i fb ab code
                 = Some (wd_failed_reply ep (WFFailedToWithdrawFrom (Some i) fb ab code))) ->
  failure_refunded s s' now c from sp amount PENALIZE_MEMO old i code
    (RespReply (wd_failed_reply ep err)).
Proof.
  intros Hi Hu Hf Hsp Ha Hold Hr Hrep. unfold wd_fail_rest in Hr.
  destruct (N.eqb_spec (amount - FEE) 0) as [E|E].
  - injection Hr as <- <-. left. split; [unfold icrc1_fee; lia|]. split; [done|]. by rewrite Hrep.
  - right. split; [unfold icrc1_fee; lia|].
    destruct (refund_outcome _ _ _ _ _ _ _) as [[[s2 fb] ab]|] eqn:Er; [|done]. injection Hr as <- <-.
    exists fb, ab. split; [by rewrite Hrep|].
    apply refund_facts in Er as [H1 H2]; try done.
    2: { eapply is_u128_le; [|exact Ha]. lia. }
    split; [exact H1|]. rewrite H2. unfold is_Some. setoid_rewrite third_party_Some. unfold icrc1_fee.
    split; intros (? & ? & ?); (split; [done|split; [lia|done]]).
Qed.
Lemma cr_fail_facts now ep c from sp returned i old code s s' err :
  inv now s -> is_u64 now -> wf_account from -> wf_acct_opt sp -> is_u128 returned ->
  (forall e, old = Some e -> 0 < e /\ is_u64 e) ->
  cr_fail_rest from sp returned i old now code s = Some (s', err) ->
  (forall fb ab, failed_reply c i fb ab code
                 = Some (cr_failed_reply ep (CFFailedToCreateFrom (Some i) fb ab code))) ->
  failure_refunded s s' now c from sp returned REFUND_MEMO old i code
    (RespReply (cr_failed_reply ep err)).
Proof.
  intros Hi Hu Hf Hsp Ha Hold Hr Hrep. unfold cr_fail_rest in Hr.
  destruct (N.eqb_spec (returned - FEE) 0) as [E|E].
  - injection Hr as <- <-. left. split; [unfold icrc1_fee; lia|]. split; [done|]. by rewrite Hrep.
  - right. split; [unfold icrc1_fee; lia|].
    destruct (refund_outcome _ _ _ _ _ _ _) as [[[s2 fb] ab]|] eqn:Er; [|done]. injection Hr as <- <-.
    exists fb, ab. split; [by rewrite Hrep|].
    apply refund_facts in Er as [H1 H2]; try done.
    2: { eapply is_u128_le; [|exact Ha]. lia. }
    split; [exact H1|]. rewrite H2. unfold is_Some. setoid_rewrite third_party_Some. unfold icrc1_fee.
    split; intros (? & ? & ?); (split; [done|split; [lia|done]]).
Qed.

(** A reply event, in closed form *)
Lemma step_reply w now id ans refund p k s' r :
  w_pend w !! id = Some p -> resume now p ans = Some k ->
  commit (w_led w) (k (w_led w)) = (s', r) ->
  step w (EvReply now id ans refund)
  = (World s' now (delete id (w_pend w)) (w_next w) (w_cycles w + refund) (w_used w), r).
Proof. intros Hp Hk Hc. cbn [step]. rewrite Hp, Hk, Hc. done. Qed.

Lemma reply_inv w now id ans refund :
  reachable w -> ev_ok w (EvReply now id ans refund) ->
  inv now (w_led w) /\ is_u64 now /\ wf_answer ans.
Proof.
  intros Hr ((Hc & Hu) & Ha & _). split; [|done]. eapply inv_mono; [exact Hc|]. by apply reachable_inv.
Qed.

End WithEnv.
