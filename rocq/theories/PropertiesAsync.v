(** * Withdrawals and canister creations

    C22 C23 C24 C28 *)
From Verif Require Import Base Types Codec CodecFacts State Ledger Canister Effects Spec ApiSpec
  Inv Steps World CallFacts CallCases StepFacts AllowFacts RefundFacts AsyncFacts DedupFacts PropertiesDedup
  CreateFacts PropertiesCalls Demo.

Section WithEnv.
Context `{Env}.

(** A call that is left waiting *)
Lemma waiting_facts w now caller c sync w1 id out :
  reachable w -> ev_ok w (EvCall now caller c sync) ->
  step w (EvCall now caller c sync) = (w1, RespPending id out) ->
  tx_ok now (requested caller c) (w_led w)
  /\ exists p, pending_of now caller c (w_led w) = Some p
     /\ w_led w1 = recorded now (requested caller c) (w_led w)
     /\ id = w_next w /\ out = outcall_of p /\ w_pend w1 = <[id := p]> (w_pend w)
     /\ w_cycles w1 + pending_amount p = w_cycles w
     /\ w_pend w1 !! id = Some p /\ pend_ok (w_led w1) p.
Proof.
  intros Hr Hev Hst. destruct (step_accepted _ _ _ _ _ _ _ Hr Hev Hst eq_refl) as (Hok & r & Ha & Hm).
  split; [done|]. destruct Ha as [s1 resp E Hd|s1 p E Hp Hs Hpo|s1 p e s' resp E Hp Hs Hpo Hrej _ Hsr].
  - destruct Hm as [E' _]. subst resp. by destruct c.
  - destruct Hm as [[= -> ->] Hw]. exists p. subst s1. rewrite Hw. simpl. split_and!; try done.
    + unfold sync_fail in Hs. destruct sync; [done|].
      destruct (N.ltb_spec (w_cycles w) (pending_amount p)); [done|]. lia.
    + apply lookup_insert.
  - exfalso. destruct Hm as [E' _]. subst resp. unfold sync_rest in Hsr.
    destruct (resume now p (sync_answer p e)) as [k|]; [|done].
    destruct (k s1) as [s2 [rep|[]|x]]; done.
Qed.

Lemma pending_spender now caller c s p :
  wf_principal caller -> wf_call c -> pending_of now caller c s = Some p ->
  (p_ep p = false -> p_spender p = None).
Proof. destruct c; simpl; try done; intros _ _ [= <-]; simpl; done. Qed.

(** ** C22: burn, then pay *)

(** The outgoing call that belongs to a call *)
Definition sends (caller : principal) (c : call) (amount : N) (out : outcall) : Prop :=
  match c with
  | CallWithdraw _ to _ _ => out = OutDepositCycles to amount
  | CallWithdrawFrom _ _ to _ _ => out = OutDepositCycles to amount
  | CallCreateCanister _ _ _ _ => exists arg, out = OutCmcCreate arg amount
  | CallCreateCanisterFrom _ _ _ _ _ => exists arg, out = OutCmcCreate arg amount
  | _ => False
  end.

(** The message that sends [amount] cycles away has burned [amount] and the fee,
    and the ledger's cycles go down by exactly [amount]. *)
Theorem C22_burn_and_pay w now caller c sync w1 id out :
  reachable w -> ev_ok w (EvCall now caller c sync) ->
  step w (EvCall now caller c sync) = (w1, RespPending id out) ->
  exists from sp amount,
    outgoing caller c = Some (from, sp, amount)
    /\ sends caller c amount out
    /\ w_cycles w1 + amount = w_cycles w
    /\ burn_effect (w_led w) (w_led w1) now from sp amount (requested caller c)
         (N.of_nat (length (blocks (w_led w)))).
Proof.
  intros Hr Hev Hst. destruct (call_inv _ _ _ _ _ Hr Hev) as (Hi & Hu & _ & _).
  destruct (waiting_facts _ _ _ _ _ _ _ _ Hr Hev Hst) as (Hok & p & Hp & Hl & -> & -> & _ & Hc & _).
  destruct (outgoing caller c) as [[[from sp] amount]|] eqn:Eo; [|by destruct c].
  destruct (outgoing_pending now _ _ (w_led w) _ _ _ Eo) as (p' & Hp' & Hf & Hsp & Ha & _).
  assert (p' = p) as -> by congruence.
  exists from, sp, amount. split; [done|]. split; [|split].
  - destruct c; simpl in Hp; try done; injection Hp as <-; simpl in *; subst; eauto.
  - by rewrite <- Ha.
  - rewrite Hl. by apply burn_effect_recorded.
Qed.

(** Conversely, no cycles leave without such a burn: every event but execution
    costs leaves at least as many cycles as before, unless it is one of these. *)
Theorem C22_no_other_payments w ev w1 resp :
  reachable w -> ev_ok w ev -> step w ev = (w1, resp) ->
  (forall n, ev <> EvConsume n) -> (forall id out, resp <> RespPending id out) ->
  w_cycles w <= w_cycles w1.
Proof.
  intros Hr Hev Hst Hnc Hnp. destruct ev as [now caller c sync|now id ans refund|now args|n|n|now id refund].
  - apply step_call in Hst as (s' & r & _ & _ & Hm). destruct r as [resp'|p].
    + destruct Hm as [_ ->]. simpl. lia.
    + destruct Hm as [-> _]. by edestruct Hnp.
  - cbn [step] in Hst. destruct (w_pend w !! id) as [p|]; [|injection Hst as <- <-; lia].
    destruct (resume now p ans); [|injection Hst as <- <-; lia].
    destruct (commit _ _). injection Hst as <- <-. simpl. lia.
  - cbn [step] in Hst. destruct (post_upgrade _ _) as [s' [u|[]|t]]; injection Hst as <- <-; simpl; lia.
  - by edestruct Hnc.
  - injection Hst as <- <-. simpl. lia.
  - cbn [step] in Hst. destruct (w_pend w !! id); injection Hst as <- <-; simpl; lia.
Qed.

(** When delivery succeeds the call is answered with the index of the burn, and
    the ledger does not change any more: in total the account paid [amount] and
    the fee. *)
Definition withdraw_ok (c : call) (i : N) : option response :=
  match c with
  | CallWithdraw _ _ _ _ => Some (RespReply (RepWithdraw (Ok i)))
  | CallWithdrawFrom _ _ _ _ _ => Some (RespReply (RepWithdrawFrom (Ok i)))
  | _ => None
  end.
Theorem C22_delivery_answered w now caller c sync w1 id to amount tr w2 now2 refund w3 resp :
  reachable w -> ev_ok w (EvCall now caller c sync) ->
  step w (EvCall now caller c sync) = (w1, RespPending id (OutDepositCycles to amount)) ->
  steps w1 tr w2 -> undisturbed id tr ->
  ev_ok w2 (EvReply now2 id (AnsDeposit (Ok tt)) refund) ->
  step w2 (EvReply now2 id (AnsDeposit (Ok tt)) refund) = (w3, resp) ->
  withdraw_ok c (N.of_nat (length (blocks (w_led w)))) = Some resp
  /\ w_led w3 = w_led w2 /\ w_pend w3 !! id = None.
Proof.
  intros Hr Hev Hst Hs Hun Hev2 Hst2.
  destruct (waiting_facts _ _ _ _ _ _ _ _ Hr Hev Hst) as (Hok & p & Hp & Hl & Hid & Hout & _ & Hc & Hpend & _).
  assert (reachable w1) as Hr1 by (replace w1 with (step w (EvCall now caller c sync)).1 by (by rewrite Hst); by constructor).
  pose proof (steps_pend _ _ _ _ _ Hr1 Hs Hun Hpend) as Hp2.
  destruct p as [ep from to' sp amount' i old|]; [|done].
  assert (commit (w_led w2) (withdraw_reply ep (withdraw_finish from sp amount' i old now2 (Ok tt)) (w_led w2))
    = (w_led w2, RespReply (if ep then RepWithdrawFrom (Ok i) else RepWithdraw (Ok i)))) as Hcm by (by destruct ep).
  rewrite (step_reply w2 now2 id (AnsDeposit (Ok tt)) refund _ _ _ _ Hp2 eq_refl Hcm) in Hst2.
  injection Hst2 as <- <-. split; [|split; [done|apply lookup_delete]].
  destruct c; simpl in Hp; try done; injection Hp as <- <- <- <- <- <- <-; done.
Qed.

(** An answer is delivered at most once: after it, the call is no longer
    waiting, and another answer would be ignored. *)
Theorem C22_answered_once w now id ans refund w' resp now2 ans2 refund2 :
  reachable w -> step w (EvReply now id ans refund) = (w', resp) -> resp <> RespIgnored ->
  step w' (EvReply now2 id ans2 refund2) = (w', RespIgnored).
Proof.
  intros Hr Hst Hne. cbn [step] in Hst.
  destruct (w_pend w !! id) as [p|] eqn:Ep; [|injection Hst as <- <-; done].
  destruct (resume now p ans) as [k|]; [|injection Hst as <- <-; done].
  destruct (commit _ _) as [s' r]. injection Hst as <- <-. cbn [step w_pend]. by rewrite lookup_delete.
Qed.

(** ** C23: a failed withdrawal is refunded *)

(** A call-back that does not trap; the traps are added in [PropertiesRefund.v]. *)
Lemma failed_delivery_refunded
  w now caller c sync w1 id to amount tr w2 now2 err refund w3 resp :
  reachable w -> ev_ok w (EvCall now caller c sync) ->
  step w (EvCall now caller c sync) = (w1, RespPending id (OutDepositCycles to amount)) ->
  steps w1 tr w2 -> undisturbed id tr ->
  ev_ok w2 (EvReply now2 id (AnsDeposit (Err err)) refund) ->
  step w2 (EvReply now2 id (AnsDeposit (Err err)) refund) = (w3, resp) ->
  (forall t, resp <> RespTrap t) ->
  exists from sp, outgoing caller c = Some (from, sp, amount)
    /\ failure_refunded (w_led w2) (w_led w3) now2 c from sp amount PENALIZE_MEMO
         (used_expiry (w_led w) now from sp) (N.of_nat (length (blocks (w_led w))))
         (reported_code err) resp
    /\ w_pend w3 !! id = None.
Proof.
  intros Hr Hev Hst Hs Hun Hev2 Hst2 Hnt.
  destruct (call_inv _ _ _ _ _ Hr Hev) as (Hi & Hu & Hcl & Hwf).
  destruct (waiting_facts _ _ _ _ _ _ _ _ Hr Hev Hst) as (Hok & p & Hp & Hl & Hid & Hout & _ & Hc & Hpend & Hpo).
  assert (reachable w1) as Hr1 by (replace w1 with (step w (EvCall now caller c sync)).1 by (by rewrite Hst); by constructor).
  pose proof (steps_pend _ _ _ _ _ Hr1 Hs Hun Hpend) as Hp2.
  pose proof (reachable_steps _ _ _ Hr1 Hs) as Hr2.
  destruct (reply_inv _ _ _ _ _ Hr2 Hev2) as (Hi2 & Hu2 & Hans).
  pose proof (pending_spender _ _ _ _ _ Hcl Hwf Hp) as Hep.
  destruct p as [ep from to' sp amount' i old|]; [|done]. injection Hout as -> ->.
  destruct (withdraw_rest_eq ep from sp amount' i old now2 err (w_led w2) (w_led w2) (inv_supply _ _ Hi2)) as [x Hx].
  assert (exists from' sp', outgoing caller c = Some (from', sp', amount') /\ from' = from /\ sp' = sp
     /\ i = nblocks (w_led w) /\ old = used_expiry (w_led w) now from sp
     /\ (forall fb ab, failed_reply c i fb ab (call_error_to_reject err)
          = Some (wd_failed_reply ep (WFFailedToWithdrawFrom (Some i) fb ab (call_error_to_reject err))))) as (? & ? & Ho & -> & -> & Hii & Hold & Hrep).
  { destruct c; simpl in Hp; try done; injection Hp as <- <- <- <- <- <- <-; by repeat eexists. }
  exists from, sp. split; [done|].
  destruct (wd_fail_rest _ _ _ _ _ _ _ _ _) as [[s3 e3]|] eqn:Ef.
  - rewrite (step_reply w2 now2 id (AnsDeposit (Err err)) refund _ _ _ _ Hp2 eq_refl Hx) in Hst2. injection Hst2 as <- <-. simpl.
    split; [|apply lookup_delete]. fold (nblocks (w_led w)). rewrite <- Hii, <- Hold.
    destruct Hpo as (_ & _ & cr & Hf & Hsp & Ha & _ & _ & _ & Ho').
    eapply wd_fail_facts; try done. unfold is_u128. lia.
  - rewrite (step_reply w2 now2 id (AnsDeposit (Err err)) refund _ _ _ _ Hp2 eq_refl Hx) in Hst2. injection Hst2 as <- <-. by edestruct Hnt.
Qed.

(** When the outgoing call cannot even be made, burn and refund happen in one
    message: [s1] is the ledger in between.  No cycles leave. *)
Definition refund_memo (c : call) : memo :=
  match c with
  | CallCreateCanister _ _ _ _ => REFUND_MEMO
  | CallCreateCanisterFrom _ _ _ _ _ => REFUND_MEMO
  | _ => PENALIZE_MEMO
  end.
Theorem C23_immediate_failure_refunded w now caller c sync w' resp from sp amount :
  reachable w -> ev_ok w (EvCall now caller c sync) ->
  step w (EvCall now caller c sync) = (w', resp) -> rejected resp = false ->
  outgoing caller c = Some (from, sp, amount) ->
  (exists id out, resp = RespPending id out)
  \/ exists s1,
       burn_effect (w_led w) s1 now from sp amount (requested caller c)
         (N.of_nat (length (blocks (w_led w))))
       /\ failure_refunded s1 (w_led w') now c from sp amount (refund_memo c)
            (used_expiry (w_led w) now from sp) (N.of_nat (length (blocks (w_led w))))
            RSysTransient resp
       /\ w_cycles w' = w_cycles w /\ w_pend w' = w_pend w.
Proof.
  intros Hr Hev Hst Hrej Ho. destruct (call_inv _ _ _ _ _ Hr Hev) as (Hi & Hu & Hcl & Hwf).
  destruct (step_accepted _ _ _ _ _ _ _ Hr Hev Hst Hrej) as (Hok & r & Ha & Hm).
  remember (w_led w') as s' eqn:Es'.
  destruct Ha as [s1 r1 E Hd|s1 p E Hp Hs Hpo|s1 p e s' r1 E Hp Hs Hpo Hrj Hpr Hsr].
  - by destruct c.
  - left. destruct Hm as [-> _]. eauto.
  - right. destruct Hm as [-> Hw]. exists s1. subst s1.
    split; [by apply burn_effect_recorded|]. split.
    2: { rewrite Hw. simpl. split; [|done]. destruct c; simpl in *; try done; apply N.add_0_r. }
    pose proof (recorded_inv now (requested caller c) (w_led w) Hu Hi Hok) as Hi1.
    set (s1 := recorded now (requested caller c) (w_led w)) in *.
    destruct (outgoing_pending now _ _ (w_led w) _ _ _ Ho) as (p' & Hp' & Hf & Hsp & Ham & Hib & Hold).
    assert (p' = p) as -> by congruence. clear Hp'. fold (nblocks (w_led w)). rewrite <- Hold, <- Hib.
    unfold sync_rest in Hsr. destruct (sync_answer_resume now p e) as [k Hk]. rewrite Hk in Hsr.
    destruct p as [ep from' to' sp' amount' i old|ep from' sp' amount' i old created arg];
      cbn [resume sync_answer] in Hk;
      match type of Hk with Some ?a = _ => assert (k = a) as -> by congruence end; clear Hk;
      cbn [p_from p_spender pending_amount p_old pending_block] in *; subst from' sp' amount'.
    + destruct (withdraw_rest_eq ep from sp amount i old now (call_error_of_sync e) (w_led w) s1
        (inv_supply _ _ Hi1)) as [x Hx]. rewrite Hx in Hsr.
      replace (call_error_to_reject (call_error_of_sync e)) with RSysTransient in Hsr by (by destruct e).
      destruct (wd_fail_rest _ _ _ _ _ _ _ _ _) as [[s3 e3]|] eqn:Ef; injection Hsr as <- <-; [|done].
      destruct Hpo as (_ & _ & cr & Hf & Hsp & Ha & _ & _ & _ & Ho').
      replace (refund_memo c) with PENALIZE_MEMO by (by destruct c).
      eapply wd_fail_facts; try done; [unfold is_u128; lia|].
      destruct c; simpl in Hp; try done; by injection Hp as <- <- <- <- <- <- <-.
    + destruct (create_rest_eq ep from sp amount i old created now (Err (call_error_of_sync e)) (w_led w) s1
        (inv_supply _ _ Hi1)) as [x Hx]. rewrite Hx in Hsr. cbn [flat_create_result] in Hsr.
      replace (call_error_to_reject (call_error_of_sync e)) with RSysTransient in Hsr by (by destruct e).
      destruct (cr_fail_rest _ _ _ _ _ _ _ _) as [[s3 e3]|] eqn:Ef; injection Hsr as <- <-; [|done].
      destruct Hpo as (_ & Hf & Hsp & Ha & _ & _ & _ & Ho').
      replace (refund_memo c) with REFUND_MEMO by (by destruct c).
      eapply cr_fail_facts; try done; [unfold is_u128; lia|].
      destruct c; simpl in Hp; try done; by injection Hp as <- <- <- <- <- <- <- <-.
Qed.

(** ** C24: canister creation *)

(** A failed creation is refunded according to the answer, by a call-back that
    does not trap. *)
Lemma failed_creation_refunded
  w now caller c sync w1 id arg amount tr w2 now2 ans refund returned code w3 resp :
  reachable w -> ev_ok w (EvCall now caller c sync) ->
  step w (EvCall now caller c sync) = (w1, RespPending id (OutCmcCreate arg amount)) ->
  steps w1 tr w2 -> undisturbed id tr ->
  ev_ok w2 (EvReply now2 id (AnsCmc ans) refund) ->
  step w2 (EvReply now2 id (AnsCmc ans) refund) = (w3, resp) ->
  cmc_returned amount ans = Some (returned, code) ->
  (forall t, resp <> RespTrap t) ->
  exists from sp, outgoing caller c = Some (from, sp, amount)
    /\ failure_refunded (w_led w2) (w_led w3) now2 c from sp returned REFUND_MEMO
         (used_expiry (w_led w) now from sp) (N.of_nat (length (blocks (w_led w)))) code resp
    /\ w_pend w3 !! id = None.
Proof.
  intros Hr Hev Hst Hs Hun Hev2 Hst2 Hret Hnt.
  destruct (call_inv _ _ _ _ _ Hr Hev) as (Hi & Hu & Hcl & Hwf).
  destruct (waiting_facts _ _ _ _ _ _ _ _ Hr Hev Hst) as (Hok & p & Hp & Hl & Hid & Hout & _ & Hc & Hpend & Hpo).
  assert (reachable w1) as Hr1 by (replace w1 with (step w (EvCall now caller c sync)).1 by (by rewrite Hst); by constructor).
  pose proof (steps_pend _ _ _ _ _ Hr1 Hs Hun Hpend) as Hp2.
  pose proof (reachable_steps _ _ _ Hr1 Hs) as Hr2.
  destruct (reply_inv _ _ _ _ _ Hr2 Hev2) as (Hi2 & Hu2 & Hans).
  destruct p as [|ep from sp amount' i old created arg']; [done|]. injection Hout as -> ->.
  destruct (create_rest_eq ep from sp amount' i old created now2 ans (w_led w2) (w_led w2) (inv_supply _ _ Hi2)) as [x Hx].
  assert (flat_create_result amount' ans = Err (code, returned)) as Hfl.
  { destruct ans as [[|[]]|]; simpl in *; rewrite ?reported_code_eq in Hret; congruence. }
  rewrite Hfl in Hx.
  assert (exists from' sp', outgoing caller c = Some (from', sp', amount') /\ from' = from /\ sp' = sp
     /\ i = nblocks (w_led w) /\ old = used_expiry (w_led w) now from sp
     /\ (forall fb ab, failed_reply c i fb ab code
          = Some (cr_failed_reply ep (CFFailedToCreateFrom (Some i) fb ab code)))) as (? & ? & Ho & -> & -> & Hii & Hold & Hrep).
  { destruct c; simpl in Hp; try done; injection Hp as <- <- <- <- <- <- <- <-; by repeat eexists. }
  exists from, sp. split; [done|].
  destruct (cr_fail_rest _ _ _ _ _ _ _ _) as [[s3 e3]|] eqn:Ef.
  - rewrite (step_reply w2 now2 id (AnsCmc ans) refund _ _ _ _ Hp2 eq_refl Hx) in Hst2. injection Hst2 as <- <-. simpl.
    split; [|apply lookup_delete]. fold (nblocks (w_led w)). rewrite <- Hii, <- Hold.
    destruct Hpo as (_ & Hf & Hsp & Ha & _ & _ & _ & Ho').
    eapply cr_fail_facts; try done. eapply wf_refund_n; [| |exact Hfl]; [unfold is_u128; lia|].
    destruct ans as [[|[]]|]; done.
  - rewrite (step_reply w2 now2 id (AnsCmc ans) refund _ _ _ _ Hp2 eq_refl Hx) in Hst2. injection Hst2 as <- <-. by edestruct Hnt.
Qed.

(** On success the reply names the block and the canister; nothing a query
    shows changes. *)
Definition create_ok (c : call) (i : N) (x : principal) : option response :=
  match c with
  | CallCreateCanister _ _ _ _ => Some (RespReply (RepCreate (Ok (i, x))))
  | CallCreateCanisterFrom _ _ _ _ _ => Some (RespReply (RepCreateFrom (Ok (i, x))))
  | _ => None
  end.
Lemma create_success w now caller c sync w1 id arg amount tr w2 now2 x refund w3 resp :
  reachable w -> ev_ok w (EvCall now caller c sync) ->
  step w (EvCall now caller c sync) = (w1, RespPending id (OutCmcCreate arg amount)) ->
  steps w1 tr w2 -> undisturbed id tr ->
  ev_ok w2 (EvReply now2 id (AnsCmc (Ok (Ok x))) refund) ->
  step w2 (EvReply now2 id (AnsCmc (Ok (Ok x))) refund) = (w3, resp) ->
  create_ok c (nblocks (w_led w)) x = Some resp
  /\ exists p, w_pend w2 !! id = Some p /\ pending_block p = nblocks (w_led w)
     /\ pend_ok (w_led w2) p /\ reachable w2
     /\ w3 = World (note_canister (txh (requested caller c)) (nblocks (w_led w)) x (w_led w2))
               now2 (delete id (w_pend w2)) (w_next w2) (w_cycles w2 + refund) (w_used w2).
Proof.
  intros Hr Hev Hst Hs Hun Hev2 Hst2.
  destruct (waiting_facts _ _ _ _ _ _ _ _ Hr Hev Hst) as (Hok & p & Hp & Hl & Hid & Hout & _ & Hc & Hpend & Hpo).
  assert (reachable w1) as Hr1 by (replace w1 with (step w (EvCall now caller c sync)).1 by (by rewrite Hst); by constructor).
  pose proof (steps_pend _ _ _ _ _ Hr1 Hs Hun Hpend) as Hp2.
  pose proof (reachable_steps _ _ _ Hr1 Hs) as Hr2.
  destruct (reply_inv _ _ _ _ _ Hr2 Hev2) as (Hi2 & Hu2 & Hans).
  pose proof (pending_of_block _ _ _ _ _ Hp) as Hib.
  destruct p as [|ep from sp amount' i old created arg']; [done|]. injection Hout as -> ->.
  destruct (create_rest_eq ep from sp amount' i old created now2 (Ok (Ok x)) (w_led w2) (w_led w2) (inv_supply _ _ Hi2)) as [y Hx].
  cbn [flat_create_result] in Hx.
  rewrite (step_reply w2 now2 id (AnsCmc (Ok (Ok x))) refund _ _ _ _ Hp2 eq_refl Hx) in Hst2.
  injection Hst2 as <- <-. split.
  { destruct c; simpl in Hp; try done; injection Hp as <- <- <- <- <- <- <- <-; done. }
  exists (PCreate ep from sp amount' i old created arg'). split; [done|]. split; [done|].
  destruct (reachable_winv _ Hr2) as (_ & _ & Hwp). destruct (Hwp _ _ Hp2) as [_ Hpo2].
  split; [done|]. split; [done|]. simpl in Hib. subst i.
  replace (create_tx from sp amount' created) with (requested caller c); [done|].
  destruct c; simpl in Hp; try done; by injection Hp as <- <- <- <- <- <- <-.
Qed.
Theorem C24_success_reply w now caller c sync w1 id arg amount tr w2 now2 x refund w3 resp :
  reachable w -> ev_ok w (EvCall now caller c sync) ->
  step w (EvCall now caller c sync) = (w1, RespPending id (OutCmcCreate arg amount)) ->
  steps w1 tr w2 -> undisturbed id tr ->
  ev_ok w2 (EvReply now2 id (AnsCmc (Ok (Ok x))) refund) ->
  step w2 (EvReply now2 id (AnsCmc (Ok (Ok x))) refund) = (w3, resp) ->
  create_ok c (N.of_nat (length (blocks (w_led w)))) x = Some resp
  /\ blocks (w_led w3) = blocks (w_led w2)
  /\ (forall a, icrc1_balance_of (w_led w3) a = icrc1_balance_of (w_led w2) a)
  /\ icrc1_total_supply (w_led w3) = icrc1_total_supply (w_led w2)
  /\ (forall tm f p, icrc2_allowance (w_led w3) tm f p = icrc2_allowance (w_led w2) tm f p)
  /\ icrc3_get_tip_certificate (w_led w3) = icrc3_get_tip_certificate (w_led w2).
Proof.
  intros Hr Hev Hst Hs Hun Hev2 Hst2.
  destruct (create_success _ _ _ _ _ _ _ _ _ _ _ _ _ _ _ _ Hr Hev Hst Hs Hun Hev2 Hst2)
    as (Hrep & p & _ & _ & _ & _ & ->).
  split; [done|]. simpl. unfold note_canister. destruct (tx_hashes (w_led w2) !! _); done.
Qed.

(** A retry of a successful creation is answered with the same canister: at any
    later time up to the end of the window, and after any events, unless two
    recorded transactions share a hash without being equal. *)
Theorem C24_retry_names_canister
  w now caller c sync w1 id arg amount tr w2 now2 x refund w3 resp tr' w4 now4 sync' w5 resp' created :
  reachable w -> ev_ok w (EvCall now caller c sync) ->
  step w (EvCall now caller c sync) = (w1, RespPending id (OutCmcCreate arg amount)) ->
  steps w1 tr w2 -> undisturbed id tr ->
  ev_ok w2 (EvReply now2 id (AnsCmc (Ok (Ok x))) refund) ->
  step w2 (EvReply now2 id (AnsCmc (Ok (Ok x))) refund) = (w3, resp) ->
  steps w3 tr' w4 -> ev_ok w4 (EvCall now4 caller c sync') ->
  step w4 (EvCall now4 caller c sync') = (w5, resp') ->
  created_of c = Some created -> now4 <= created + DAY + MINUTE ->
  no_clash (blocks (w_led w4)) ->
  unchanged w4 w5 /\ duplicate_of resp' = Some (N.of_nat (length (blocks (w_led w))))
  /\ duplicate_canister resp' = Some x.
Proof.
  intros Hr Hev Hst Hs Hun Hev2 Hst2 Hs3 Hev4 Hst4 Hcr Hwin Hnc.
  destruct (waiting_facts _ _ _ _ _ _ _ _ Hr Hev Hst) as (_ & q & Hq & Hl & Hid & Hout & _).
  destruct (create_success _ _ _ _ _ _ _ _ _ _ _ _ _ _ _ _ Hr Hev Hst Hs Hun Hev2 Hst2)
    as (_ & p & Hp2 & Hpb & Hpo & Hr2 & Ew3).
  assert (reachable w3) as Hr3 by (replace w3 with (step w2 (EvReply now2 id (AnsCmc (Ok (Ok x))) refund)).1 by (by rewrite Hst2); by constructor).
  pose proof (reachable_steps _ _ _ Hr3 Hs3) as Hr4.
  set (i := nblocks (w_led w)) in *. fold i.
  destruct (call_inv _ _ _ _ _ Hr4 Hev4) as (Hi4 & Hu4 & Hcl & Hwf).
  assert (tx_created_at (requested caller c) = Some created) as Hct by (by destruct c).
  assert (reachable w1) as Hr1 by (replace w1 with (step w (EvCall now caller c sync)).1 by (by rewrite Hst); by constructor).
  set (b := mk_block now (requested caller c) (w_led w)).
  assert (blocks (w_led w2) !! N.to_nat i = Some b) as Hb2.
  { eapply prefix_lookup; [|by eapply steps_prefix]. rewrite Hl, recorded_blocks. unfold i, nblocks.
    rewrite Nat2N.id. by apply list_lookup_middle. }
  assert (b_tx b = requested caller c) as Hbt by done.
  assert (blocks (w_led w3) = blocks (w_led w2)) as Hb32.
  { rewrite Ew3. simpl. unfold note_canister. by destruct (tx_hashes (w_led w2) !! _). }
  assert (settled w3 i b created (Some x)) as Hset.
  { split; [by rewrite Hb32|]. split.
    - intros id' p' Hp'. rewrite Ew3 in Hp'. simpl in Hp'. apply lookup_delete_Some in Hp' as [Hne Hp'].
      intros E. apply Hne. eapply (pend_distinct w2); try done. congruence.
    - intros Hbw. split; [by rewrite Hb32|]. rewrite Hbt, Ew3. simpl.
      assert (exists e, tx_hashes (w_led w2) !! txh (requested caller c) = Some e) as [e He].
      { pose proof (reachable_inv _ Hr2) as Hi2.
        destruct (inv_dropped _ _ Hi2 i b created Hb2 Hct) as [Hin|Hout'].
        - destruct (inv_ts _ _ Hi2 _ _ Hin) as (b' & e & Hb' & _ & He).
          assert (b' = b) as -> by congruence. by exists e.
        - exfalso. rewrite Ew3 in Hbw. simpl in Hbw. destruct Hev2 as [[Hclk _] _].
          apply (before_window_mono _ _ _ Hclk) in Hbw. congruence. }
      unfold note_canister. rewrite He. simpl. by rewrite lookup_insert. }
  pose proof (settled_steps w3 tr' w4 i b created (Some x) Hr3 Hs3 Hnc Hct Hset) as (_ & _ & Hn4).
  destruct Hev4 as ((Hclk4 & _) & _). 
  destruct (Hn4 (window_not_before _ _ _ Hclk4 Hu4 Hwin)) as [Hb4 Hh4]. rewrite Hbt in Hh4.
  destruct (inv_blk _ _ Hi4 _ _ Hb4) as [(Hwt & _) _]. rewrite Hbt in Hwt.
  assert (checkable c) as Hch by (by eapply recorded_checkable).
  destruct (exec_known now4 (w_cycles w4) caller c sync' _ _ _ (inv_supply _ _ Hi4) Hch Hh4)
    as (r' & He & Hd & Hrej & Hcan).
  assert (resp' = r') as <-.
  { apply step_call in Hst4 as (s' & r & He' & _ & Hm). rewrite He in He'. injection He' as <- <-.
    by destruct Hm. }
  assert (ev_ok w4 (EvCall now4 caller c sync')) as Hev4 by (split; [split|]; done).
  split; [by eapply step_rejected|]. split; [done|]. apply Hcan.
  destruct q; [done|]. by destruct c.
Qed.

(** ** C28: controllers of created canisters *)
Definition creation_args (c : call) : option (option cmc_args) :=
  match c with
  | CallCreateCanister _ _ _ args => Some args
  | CallCreateCanisterFrom _ _ _ _ args => Some args
  | _ => None
  end.
(** What the caller asked for *)
Definition asked_settings (args : option cmc_args) : option canister_settings := args ≫= ca_settings.
Definition asked_controllers (args : option cmc_args) : option (list principal) :=
  asked_settings args ≫= cs_controllers.

Theorem C28_controllers w now caller c sync w1 id arg amount :
  reachable w -> ev_ok w (EvCall now caller c sync) ->
  step w (EvCall now caller c sync) = (w1, RespPending id (OutCmcCreate arg amount)) ->
  exists args st, creation_args c = Some args /\ ca_settings arg = Some st
    /\ cs_controllers st = Some (match asked_controllers args with
                                 | Some l => l
                                 | None => [caller]
                                 end)
    /\ (forall k, cs_other st !! k = asked_settings args ≫= (fun st0 => cs_other st0 !! k))
    /\ ca_subnet_selection arg = args ≫= ca_subnet_selection.
Proof.
  intros Hr Hev Hst.
  destruct (waiting_facts _ _ _ _ _ _ _ _ Hr Hev Hst) as (_ & p & Hp & _ & _ & Hout & _).
  destruct p as [|ep from sp amount' i old created arg']; [done|]. injection Hout as -> ->.
  assert (exists args, creation_args c = Some args /\ arg' = cmc_argument caller args) as (args & Hc & ->).
  { destruct c; simpl in Hp; try done; injection Hp as <- <- <- <- <- <- <- <-; eauto. }
  exists args. unfold cmc_argument, asked_controllers, asked_settings.
  destruct args as [[sel [[ctl oth]|]]|]; simpl; eexists; split_and!; done.
Qed.

End WithEnv.

(** ** Cases that meet the hypotheses *)
Local Ltac demo :=
  split; [apply demo_at_reachable; vm_compute; reflexivity|];
  split; [apply ev_okb_ok; vm_compute; reflexivity|vm_compute; reflexivity].
(** One event between call and answer *)
Lemma one_step `{Env} w ev : ev_ok w ev -> steps w [(ev, (step w ev).2)] (step w ev).1.
Proof. intros Hok. econstructor; [done|]. constructor. Qed.

(** C22: alice's withdrawal waits, is answered, and its answer is not taken twice. *)
Definition pay_call : event := EvCall (T0 + 9 * sec) alice (CallWithdraw None canister None T) None.
Definition pay_reply : event := EvReply (T0 + 10 * sec) 2 (AnsDeposit (Ok tt)) 0.
Example C22_case :
  answers (demo_at 8) pay_call (RespPending 2 (OutDepositCycles canister T))
  /\ steps (step (demo_at 8) pay_call).1 [] (demo_at 9) /\ undisturbed 2 []
  /\ answers (demo_at 9) pay_reply (RespReply (RepWithdraw (Ok 9)))
  /\ (step (demo_at 10) pay_reply).2 = RespIgnored.
Proof.
  split; [demo|]. split.
  { assert ((step (demo_at 8) pay_call).1 = demo_at 9) as ->; [|constructor].
    assert (forall now cyc args l ev w, history now cyc args l = Some w -> ev_okb w ev = true ->
              history now cyc args (l ++ [ev]) = Some (step w ev).1) as Happ.
    { intros now cyc args l ev w. unfold history. destruct (_ && _); [|done].
      destruct (init_world now cyc args) as [w0|]; [|done]. revert w0.
      induction l as [|e l IH]; intros w0; simpl.
      - intros [= ->] ->. done.
      - destruct (ev_okb w0 e); [|done]. apply IH. }
    unfold demo_at at 2. change (take 9 demo_events) with (take 8 demo_events ++ [pay_call]).
    assert ((match history T0 (100 * T) demo_init (take 8 demo_events) with Some w => ev_okb w pay_call | None => false end) = true) as Hok
      by (vm_compute; reflexivity).
    unfold demo_at. destruct (history T0 (100 * T) demo_init (take 8 demo_events)) as [w|] eqn:E; [|discriminate].
    rewrite (Happ _ _ _ _ _ _ E Hok). reflexivity. }
  split; [constructor|]. split; [demo|]. vm_compute. reflexivity.
Qed.

(** C23: bob's withdraw_from waits while alice creates a canister, then fails.
    The refund is recorded in blocks 7 and 8. *)
Definition wf_ev : event := EvCall (T0 + 5 * sec) bob (CallWithdrawFrom None (acct alice) canister None T) None.
Definition create_ev : event := EvCall (T0 + 6 * sec) alice (CallCreateCanister None (Some (T0 + 6 * sec)) T None) None.
Definition wf_err : call_error := CECallRejected (Some RejDestinationInvalid).
Example C23_case :
  let w := demo_at 4 in let w1 := (step w wf_ev).1 in let w2 := (step w1 create_ev).1 in
  let reply := EvReply (T0 + 7 * sec) 0 (AnsDeposit (Err wf_err)) T in
  answers w wf_ev (RespPending 0 (OutDepositCycles canister T))
  /\ ev_ok w1 create_ev /\ undisturbed 0 [(create_ev, (step w1 create_ev).2)]
  /\ ev_ok w2 reply
  /\ (step w2 reply).2
     = RespReply (RepWithdrawFrom (Err (WFFailedToWithdrawFrom (Some 5) (Some 7) (Some 8)
         (call_error_to_reject wf_err)))).
Proof.
  cbv zeta. split; [demo|]. split; [apply ev_okb_ok; vm_compute; reflexivity|].
  split; [constructor; [exact I|constructor]|]. split; [apply ev_okb_ok; vm_compute; reflexivity|].
  vm_compute. reflexivity.
Qed.
(** The same when the call cannot even be made *)
Example C23_immediate_case :
  answers (demo_at 4)
    (EvCall (T0 + 5 * sec) bob (CallWithdrawFrom None (acct alice) canister None T)
       (Some SEPerform))
    (RespReply (RepWithdrawFrom (Err (WFFailedToWithdrawFrom (Some 5) (Some 6) (Some 7) RSysTransient)))).
Proof. demo. Qed.

(** C24: a creation that fails, one that succeeds, and a retry of it *)
Example C24_case :
  let w := demo_at 5 in let w1 := (step w create_ev).1 in
  let good := EvReply (T0 + 8 * sec) 1 (AnsCmc (Ok (Ok canister))) 0 in
  let bad := EvReply (T0 + 8 * sec) 1 (AnsCmc (Ok (Err (CmcRefunded (T / 2))))) (T / 2) in
  let retry := EvCall (T0 + 86000 * sec) alice (CallCreateCanister None (Some (T0 + 6 * sec)) T None) None in
  (exists out, answers w create_ev (RespPending 1 (OutCmcCreate out T)))
  /\ ev_ok w1 good /\ (step w1 good).2 = RespReply (RepCreate (Ok (6, canister)))
  /\ ev_ok w1 bad /\ (step w1 bad).2 = RespReply (RepCreate (Err (CFailedToCreate (Some 6) (Some 7))))
  /\ cmc_returned T (Ok (Err (CmcRefunded (T / 2)))) = Some (T / 2, RCanisterError)
  /\ ev_ok (step w1 good).1 retry /\ T0 + 86000 * sec <= (T0 + 6 * sec) + DAY + MINUTE
  /\ (step (step w1 good).1 retry).2 = RespReply (RepCreate (Err (CDuplicate 6 (Some canister)))).
Proof.
  cbv zeta. split; [eexists; demo|]. split; [apply ev_okb_ok; vm_compute; reflexivity|].
  split; [vm_compute; reflexivity|]. split; [apply ev_okb_ok; vm_compute; reflexivity|].
  split; [vm_compute; reflexivity|]. split; [vm_compute; reflexivity|].
  split; [apply ev_okb_ok; vm_compute; reflexivity|]. split; [vm_compute; congruence|].
  vm_compute. reflexivity.
Qed.

(** C28: without settings the caller becomes the controller; given controllers
    are kept. *)
Definition bobs_args : cmc_args := CmcArgs None (Some (Settings (Some [bob; carol]) ∅)).
Example C28_case :
  (exists out, answers (demo_at 5) create_ev (RespPending 1 (OutCmcCreate out T))
     /\ (ca_settings out ≫= cs_controllers) = Some [alice])
  /\ (exists out, answers (demo_at 5)
       (EvCall (T0 + 6 * sec) alice (CallCreateCanister None (Some (T0 + 6 * sec)) T (Some bobs_args)) None)
       (RespPending 1 (OutCmcCreate out T))
     /\ (ca_settings out ≫= cs_controllers) = Some [bob; carol]).
Proof. split; eexists; (split; [demo|vm_compute; reflexivity]). Qed.

Print Assumptions C22_burn_and_pay.
Print Assumptions C22_no_other_payments.
Print Assumptions C22_delivery_answered.
Print Assumptions C22_answered_once.
Print Assumptions C23_immediate_failure_refunded.
Print Assumptions C24_success_reply.
Print Assumptions C24_retry_names_canister.
Print Assumptions C28_controllers.
