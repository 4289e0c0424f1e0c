(** * What one event does to balances, supply, allowances and the log *)
From Verif Require Import Base Types Codec CodecFacts State Ledger Canister Effects Spec ApiSpec
  Inv Steps World CallFacts CallCases StepFacts AllowFacts RefundFacts AsyncFacts.

Section WithEnv.
Context `{Env}.

Definition same_money (s s' : state) : Prop :=
  balances s' = balances s /\ total_supply s' = total_supply s
  /\ approvals s' = approvals s /\ blocks s' = blocks s.
Lemma same_money_refl s : same_money s s.
Proof. done. Qed.

Definition p_memo (p : pending) : memo :=
  match p with PWithdraw _ _ _ _ _ _ _ => PENALIZE_MEMO | PCreate _ _ _ _ _ _ _ _ => REFUND_MEMO end.

(** The call-back of a waiting call *)
Definition little_returned (p : pending) (ans : answer) : Prop :=
  forall n code, answer_returned (pending_amount p) ans = Some (n, code) -> n <= FEE.

Lemma resume_outcome now p ans k s0 s s' r :
  inv now s -> is_u64 now -> pend_ok s p -> ans_u128 ans ->
  resume now p ans = Some k -> commit s0 (k s) = (s', r) ->
  (exists t, r = RespTrap t /\ s' = s0)
  \/ (exists rep, r = RespReply rep)
     /\ ((same_money s s' /\ little_returned p ans)
         \/ exists n code fb ab, answer_returned (pending_amount p) ans = Some (n, code) /\ FEE < n
            /\ is_u128 n /\ (is_Some ab -> FEE < n - FEE)
            /\ refund_effect s s' now (p_from p) (p_spender p) (n - FEE) (p_memo p) (p_old p) fb ab).
Proof.
  intros Hi Hu Hpo Hans Hk Hc.
  destruct p as [ep from to sp amount i old|ep from sp amount i old created arg];
    destruct ans as [r0|r0]; cbn [resume] in Hk; try done;
    match type of Hk with Some ?a = _ => assert (k = a) as -> by congruence end; clear Hk;
    cbn [p_from p_spender pending_amount p_old p_memo] in *.
  - destruct Hpo as (_ & _ & cr & Hf & Hsp & Ha & _ & _ & _ & Hold).
    destruct r0 as [[]|e].
    { right. destruct ep; simpl in Hc; injection Hc as <- <-; (split; [eauto|]);
        left; (split; [done|]); intros ? ?; done. }
    destruct (withdraw_rest_eq ep from sp amount i old now e s0 s (inv_supply _ _ Hi)) as [x Hx].
    rewrite Hx in Hc. unfold wd_fail_rest in Hc. destruct (N.eqb_spec (amount - FEE) 0) as [E|E].
    { injection Hc as <- <-. right. split; [eauto|]. left. split; [done|]. intros n code.
      cbn [answer_returned pending_amount]. intros [= <- _]. lia. }
    destruct (refund_outcome _ _ _ _ _ _ _) as [[[s2 fb] ab]|] eqn:Er; injection Hc as <- <-; [|by left; eauto].
    right. split; [eauto|]. right. exists amount, (call_error_to_reject e), fb, ab.
    split; [done|]. split; [lia|]. split; [unfold is_u128; lia|].
    eapply refund_facts in Er as [H1 H2]; try done; [|unfold is_u128; lia].
    split; [|done]. intros Hab. by apply H2 in Hab as (_ & ? & _).
  - destruct Hpo as (_ & Hf & Hsp & Ha & _ & _ & _ & Hold).
    destruct (create_rest_eq ep from sp amount i old created now r0 s0 s (inv_supply _ _ Hi)) as [x Hx].
    rewrite Hx in Hc. destruct (flat_create_result amount r0) as [c|[code n]] eqn:Ef.
    { injection Hc as <- <-. right. split; [eauto|]. left. split.
      - unfold note_canister. by destruct (tx_hashes s !! _).
      - intros n code. destruct r0 as [[|[]]|]; simpl in *; done. }
    assert (answer_returned amount (AnsCmc r0) = Some (n, code)) as Hret.
    { destruct r0 as [[|[]]|]; simpl in *; rewrite ?reported_code_eq; congruence. }
    assert (is_u128 n) as Hn.
    { eapply wf_refund_n; [| |exact Ef]; [unfold is_u128; lia|].
      destruct r0 as [[|[]]|]; done. }
    unfold cr_fail_rest in Hc. destruct (N.eqb_spec (n - FEE) 0) as [E|E].
    { injection Hc as <- <-. right. split; [eauto|]. left. split; [done|]. intros n' code'.
      cbn [pending_amount]. rewrite Hret. intros [= <- _]. lia. }
    destruct (refund_outcome _ _ _ _ _ _ _) as [[[s2 fb] ab]|] eqn:Er; injection Hc as <- <-; [|by left; eauto].
    right. split; [eauto|]. right. exists n, code, fb, ab.
    split; [done|]. split; [lia|]. split; [done|].
    eapply refund_facts in Er as [H1 H2]; try done; [|eapply is_u128_le; [|exact Hn]; lia].
    split; [|done]. intros Hab. by apply H2 in Hab as (_ & ? & _).
Qed.

(** An accepted call records its transaction; if its outgoing call fails at
    once, the refund follows. *)
Lemma accepted_outcome now avail caller c sync s s' r :
  inv now s -> is_u64 now -> tx_ok now (requested caller c) s ->
  accepted_call now avail caller c sync s s' r ->
  let s1 := recorded now (requested caller c) s in
  same_money s1 s'
  \/ exists p fb ab, pending_of now caller c s = Some p /\ FEE < pending_amount p
     /\ is_u128 (pending_amount p) /\ (is_Some ab -> FEE < pending_amount p - FEE)
     /\ refund_effect s1 s' now (p_from p) (p_spender p) (pending_amount p - FEE) (p_memo p) (p_old p) fb ab.
Proof.
  intros Hi Hu Hok Ha s1.
  destruct Ha as [s1' resp -> _|s1' p -> _ _ _|s1' p e s' resp -> Hp Hsf Hpo Hrj _ Hsr]; [by left|by left|].
  fold s1 in Hpo, Hsr. unfold sync_rest in Hsr.
  destruct (sync_answer_resume now p e) as [k Hk]. rewrite Hk in Hsr.
  destruct (commit s (k s1)) as [s2 r2] eqn:Ec. injection Hsr as -> ->.
  assert (inv now s1) as Hi1 by (by apply recorded_inv).
  assert (forall n code, answer_returned (pending_amount p) (sync_answer p e) = Some (n, code) ->
            n = pending_amount p) as Hret.
  { intros n code. destruct p; simpl; congruence. }
  destruct (resume_outcome _ _ _ _ _ _ _ _ Hi1 Hu Hpo (sync_answer_u128 p e) Hk Ec)
    as [(t & -> & _)|[_ [[Hm _]|(n & code & fb & ab & Hn & Hfee & Hn' & Hab & Hre)]]]; [done|by left|].
  right. apply Hret in Hn as ->. by exists p, fb, ab.
Qed.

(** The blocks a refund adds *)
Definition refund_blocks (from : account) (sp : option account) (l : list block) : Prop :=
  l = []
  \/ exists b n m, b_tx b = Tx (Mint from n 0) None (Some m)
     /\ (l = [b]
         \/ exists b2 x a e, sp = Some x
            /\ b_tx b2 = Tx (Approve from x a None e None) None (Some PENALIZE_MEMO) /\ l = [b; b2]).
Lemma refund_effect_blocks s s' now from sp n m old fb ab :
  refund_effect s s' now from sp n m old fb ab ->
  exists l, blocks s' = blocks s ++ l /\ refund_blocks from sp l.
Proof.
  intros [_ Hx]. destruct ab as [j|].
  - destruct Hx as (_ & _ & _ & x & -> & (b1 & b2 & Hb & _ & _ & H1 & H2) & _).
    exists [b1; b2]. split; [done|]. right. exists b1, n, m. split; [done|]. right. by exists b2, x; eauto.
  - destruct Hx as (_ & _ & (b & Hb & _ & H1) & _). exists [b]. split; [done|]. right. exists b, n, m. eauto.
Qed.

Lemma pending_outgoing now caller c s p :
  pending_of now caller c s = Some p ->
  outgoing caller c = Some (p_from p, p_spender p, pending_amount p).
Proof. destruct c; simpl; try done; intros [= <-]; done. Qed.

(** The blocks an event adds *)
Lemma event_blocks w ev w' resp :
  reachable w -> ev_ok w ev -> step w ev = (w', resp) ->
  exists new, blocks (w_led w') = blocks (w_led w) ++ new
    /\ match ev with
       | EvCall now caller c _ =>
           new = [] \/ exists b rest, new = b :: rest /\ b_tx b = requested caller c
             /\ (rest = [] \/ exists from sp amount, outgoing caller c = Some (from, sp, amount)
                               /\ refund_blocks from sp rest)
       | EvReply _ id _ _ =>
           new = [] \/ exists p, w_pend w !! id = Some p /\ refund_blocks (p_from p) (p_spender p) new
       | _ => new = []
       end.
Proof.
  intros Hr Hev Hst. destruct ev as [now caller c sync|now id ans refund|now args|n|n|now id refund].
  - destruct (call_inv _ _ _ _ _ Hr Hev) as (Hi & Hu & _).
    destruct (rejected resp) eqn:Erj.
    { destruct (step_rejected _ _ _ _ _ _ _ Hr Hev Hst Erj) as [-> _]. exists []. rewrite app_nil_r. eauto. }
    destruct (step_accepted _ _ _ _ _ _ _ Hr Hev Hst Erj) as (Hok & r & Ha & _).
    destruct (accepted_outcome _ _ _ _ _ _ _ _ Hi Hu Hok Ha) as [(_ & _ & _ & Hb)|(p & fb & ab & Hp & _ & _ & _ & Hre)].
    + rewrite Hb, recorded_blocks. eexists. split; [done|]. right. eexists _, []. eauto.
    + apply refund_effect_blocks in Hre as (l & Hb & Hl). rewrite recorded_blocks, <- app_assoc in Hb.
      eexists. split; [exact Hb|]. right. eexists _, l. split; [done|]. split; [done|]. right.
      eexists _, _, _. split; [by eapply pending_outgoing|done].
  - cbn [step] in Hst. destruct (w_pend w !! id) as [p|] eqn:Ep.
    2: { injection Hst as <- _. exists []. rewrite app_nil_r. eauto. }
    destruct (resume now p ans) as [k|] eqn:Ek.
    2: { injection Hst as <- _. exists []. rewrite app_nil_r. eauto. }
    destruct (commit _ _) as [s' r] eqn:Ec. injection Hst as <- <-. simpl.
    destruct (reply_inv _ _ _ _ _ Hr Hev) as (Hi & Hu & Hans).
    destruct (reachable_winv _ Hr) as (_ & _ & Hwp). destruct (Hwp _ _ Ep) as [_ Hpo].
    destruct (resume_outcome _ _ _ _ _ _ _ _ Hi Hu Hpo (wf_answer_u128 _ Hans) Ek Ec)
      as [(t & _ & ->)|[_ [[(_ & _ & _ & Hb) _]|(n & code & fb & ab & _ & _ & _ & _ & Hre)]]].
    + exists []. rewrite app_nil_r. eauto.
    + exists []. rewrite app_nil_r. eauto.
    + apply refund_effect_blocks in Hre as (l & Hb & Hl). exists l. split; [done|]. right. eauto.
  - exists []. rewrite app_nil_r. split; [|done]. cbn [step] in Hst.
    rewrite (reload_eq _ _ (reachable_inv _ Hr)) in Hst.
    destruct (post_upgrade args (set_p0 [] (w_led w))) as [s' o] eqn:E.
    destruct (post_upgrade_cfg _ _ _ _ E) as [c ->]. destruct o as [[]|[]|t]; by injection Hst as <- _.
  - exists []. rewrite app_nil_r. injection Hst as <- _. done.
  - exists []. rewrite app_nil_r. injection Hst as <- _. done.
  - exists []. rewrite app_nil_r. apply step_crash in Hst as [-> _]. done.
Qed.

(** Balances: an event that is not a call never lowers one. *)
Lemma refund_effect_balance s s' now from sp n m old fb ab a :
  refund_effect s s' now from sp n m old fb ab -> (is_Some ab -> FEE < n) ->
  icrc1_balance_of s a <= icrc1_balance_of s' a.
Proof.
  intros [_ Hx] Hab. destruct ab as [j|].
  - destruct Hx as (_ & Hb & _). specialize (Hb a). specialize (Hab ltac:(eauto)).
    unfold if_acct, icrc1_fee in Hb. destruct (decide _); lia.
  - destruct Hx as (Hb & _). specialize (Hb a). lia.
Qed.
Lemma same_money_balance s s' a : same_money s s' -> icrc1_balance_of s' a = icrc1_balance_of s a.
Proof. intros (Hb & _). unfold icrc1_balance_of, balance_of, bal. by rewrite Hb. Qed.
Lemma event_balance w ev w' resp a :
  reachable w -> ev_ok w ev -> step w ev = (w', resp) ->
  match ev with EvCall _ _ _ _ => False | _ => True end ->
  icrc1_balance_of (w_led w) a <= icrc1_balance_of (w_led w') a.
Proof.
  intros Hr Hev Hst Hnc. destruct ev as [now caller c sync|now id ans refund|now args|n|n|now id refund]; [done| | | | |].
  - cbn [step] in Hst. destruct (w_pend w !! id) as [p|] eqn:Ep; [|by injection Hst as <- _].
    destruct (resume now p ans) as [k|] eqn:Ek; [|by injection Hst as <- _].
    destruct (commit _ _) as [s' r] eqn:Ec. injection Hst as <- <-. simpl.
    destruct (reply_inv _ _ _ _ _ Hr Hev) as (Hi & Hu & Hans).
    destruct (reachable_winv _ Hr) as (_ & _ & Hwp). destruct (Hwp _ _ Ep) as [_ Hpo].
    destruct (resume_outcome _ _ _ _ _ _ _ _ Hi Hu Hpo (wf_answer_u128 _ Hans) Ek Ec)
      as [(t & _ & ->)|[_ [[Hm _]|(n & code & fb & ab & _ & _ & _ & Hab & Hre)]]].
    + done.
    + rewrite (same_money_balance _ _ _ Hm). done.
    + by eapply refund_effect_balance.
  - cbn [step] in Hst.
    rewrite (reload_eq _ _ (reachable_inv _ Hr)) in Hst.
    destruct (post_upgrade args (set_p0 [] (w_led w))) as [s' o] eqn:E.
    destruct (post_upgrade_cfg _ _ _ _ E) as [c ->]. destruct o as [[]|[]|t]; by injection Hst as <- _.
  - by injection Hst as <- _.
  - by injection Hst as <- _.
  - by apply step_crash in Hst as [-> _].
Qed.

End WithEnv.
