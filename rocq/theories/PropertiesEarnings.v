(** * Where the fees go

    C64 *)
From Verif Require Import Base Types Codec CodecFacts CodecProofs State Ledger Canister Effects Spec ApiSpec
  Inv Steps World CallFacts CallCases StepFacts AllowFacts RefundFacts AsyncFacts EventFacts
  PropertiesLog PropertiesDedup PropertiesCalls PropertiesAuth PropertiesAsync PropertiesRefund Demo.

Section WithEnv.
Context `{Env}.

(** ** Specification *)

(** The cycles the ledger holds, and those it has spent on its own execution, over
    and above the tokens in circulation *)
Definition backing (w : world) : Z :=
  (Z.of_N (w_cycles w) + Z.of_N (w_used w) - Z.of_N (icrc1_total_supply (w_led w)))%Z.
Definition log_length (w : world) : Z := Z.of_nat (length (blocks (w_led w))).

(** What an event brings the ledger apart from fees: a top-up; the difference
    between the cycles that came back with an answer and those it credits; an
    amount not above the fee whose payment failed, since that is not worth a refund. *)
Definition other_income (w : world) (ev : event) (resp : response) (w' : world) (x : Z) : Prop :=
  match ev with
  | EvCall now caller c sync =>
      x = 0%Z
      \/ exists from sp n, outgoing caller c = Some (from, sp, n) /\ x = Z.of_N n /\ n <= icrc1_fee
           /\ rejected resp = false /\ log_length w' = (log_length w + 1)%Z
           /\ forall id out, resp <> RespPending id out
  | EvReply now id ans refund =>
      match w_pend w !! id, resp with
      | Some p, RespReply _ =>
          match answer_returned (pending_amount p) ans with
          | Some (n, _) => x = (Z.of_N refund - Z.of_N (if (icrc1_fee <? n)%N then n else 0%N))%Z
          | None => x = Z.of_N refund
          end
      | Some p, RespTrap _ => x = Z.of_N refund
      | _, _ => x = 0%Z
      end
  | EvTopUp n => x = Z.of_N n
  | EvCrash _ _ refund => match resp with RespTrap _ => x = Z.of_N refund | _ => x = 0%Z end
  | _ => x = 0%Z
  end.

Lemma refund_effect_exact s s' now from sp n m old fb ab :
  refund_effect s s' now from sp n m old fb ab -> (is_Some ab -> FEE < n) ->
  icrc1_total_supply s' + FEE * N.of_nat (length (blocks s'))
  = icrc1_total_supply s + n + FEE * N.of_nat (length (blocks s)) + FEE.
Proof.
  intros [_ Hx] Hab. destruct ab as [j|].
  - destruct Hx as (_ & _ & Hs & x & _ & (b1 & b2 & Hb & _) & _). rewrite Hb, app_length. simpl.
    unfold icrc1_fee in Hs. lia.
  - destruct Hx as (_ & Hs & (b & Hb & _) & _). rewrite Hb, app_length. simpl. lia.
Qed.

Lemma event_earns w ev w' resp :
  reachable w -> ev_ok w ev -> step w ev = (w', resp) ->
  exists x, other_income w ev resp w' x
  /\ backing w' = (backing w + Z.of_N FEE * (log_length w' - log_length w) + x)%Z.
Proof.
  intros Hr Hev Hst. unfold backing, log_length, icrc1_total_supply.
  destruct ev as [now caller c sync|now id ans refund|now args|n|n|now id refund].
  - destruct (call_inv _ _ _ _ _ Hr Hev) as (Hi & Hu & _).
    destruct (rejected resp) eqn:Erj.
    { destruct (step_rejected _ _ _ _ _ _ _ Hr Hev Hst Erj) as (-> & _ & _ & -> & ->).
      exists 0%Z. split; [by left|]. lia. }
    destruct (step_accepted _ _ _ _ _ _ _ Hr Hev Hst Erj) as (Hok & r & Ha & Hm).
    pose proof (recorded_supply _ _ _ Hi Hok) as Hs.
    pose proof (recorded_blocks now (requested caller c) (w_led w)) as Hb.
    assert (w_used w' = w_used w) as Huse by (destruct r; destruct Hm as [_ ->]; done). rewrite Huse.
    remember (w_led w') as s' eqn:Es'.
    destruct Ha as [s1 r1 E Hd|s1 p E Hp Hsf Hpo|s1 p e s2 r1 E Hp Hsf Hpo Hrj Hpr Hsr].
    + destruct Hm as [-> Hw]. assert (w_cycles w' = w_cycles w + accepted_cycles c r1) as -> by (by rewrite Hw).
      exists 0%Z. split; [by left|]. rewrite E. rewrite Hb, app_length.
      assert (op_minted (tx_op (requested caller c)) + FEE
              = accepted_cycles c r1 + op_burned (tx_op (requested caller c))) as Hop.
      { destruct c; cbn [done_reply] in Hd; try discriminate; injection Hd as <-;
          cbn [requested tx_op op_minted op_burned accepted_cycles]; try lia.
        destruct (C21_deposit_effect _ _ _ _ _ _ _ _ _ _ Hr Hev Hst) as [Hf _]. unfold icrc1_fee in *. lia. }
      generalize dependent (total_supply (recorded now (requested caller c) (w_led w))). intros S1 Hs. simpl length. lia.
    + destruct Hm as [-> Hw]. assert (w_cycles w' = w_cycles w - pending_amount p) as -> by (by rewrite Hw).
      exists 0%Z. split; [by left|]. rewrite E. rewrite Hb, app_length.
      generalize dependent (total_supply (recorded now (requested caller c) (w_led w))). intros S1 Hs.
      pose proof (pending_outgoing _ _ _ _ _ Hp) as Ho.
      unfold sync_fail in Hsf. destruct sync; [done|].
      destruct (N.ltb_spec (w_cycles w) (pending_amount p)); [done|].
      destruct (outgoing_burned _ _ _ _ _ Ho) as [Hbu Hmi]. simpl length. lia.
    + destruct Hm as [-> Hw]. assert (w_cycles w' = w_cycles w + accepted_cycles c r1) as -> by (by rewrite Hw).
      pose proof (pending_outgoing _ _ _ _ _ Hp) as Ho.
      assert (accepted_cycles c r1 = 0) as -> by (by destruct c).
      destruct (outgoing_burned _ _ _ _ _ Ho) as [Hbu Hmi].
      pose proof Hsr as Hsr0. unfold sync_rest in Hsr. destruct (sync_answer_resume now p e) as [k Hk]. rewrite Hk in Hsr.
      destruct (commit (w_led w) (k s1)) as [s3 r2] eqn:Ec. injection Hsr as -> ->.
      assert (inv now s1) as Hi1 by (rewrite E; by apply recorded_inv).
      assert (forall n code, answer_returned (pending_amount p) (sync_answer p e) = Some (n, code) ->
                n = pending_amount p) as Hret by (intros n code; destruct p; simpl; congruence).
      assert (exists code, answer_returned (pending_amount p) (sync_answer p e) = Some (pending_amount p, code)) as [code0 Hret0]
        by (destruct p; simpl; eauto).
      destruct (resume_outcome _ _ _ _ _ _ _ _ Hi1 Hu Hpo (sync_answer_u128 p e) Hk Ec)
        as [(t & -> & _)|[_ [[(_ & Hsup & _ & Hbl) Hlit]|(n & code & fb & ab & Hn & Hfee & Hn' & Hab & Hre)]]]; [done| |].
      * exists (Z.of_N (pending_amount p)). split.
        { right. eexists _, _, _. split; [exact Ho|]. split; [done|]. split; [by eapply Hlit|]. split; [done|].
          split; [unfold log_length; rewrite <- Es', Hbl, E, Hb, app_length; simpl; lia|].
          intros id out ->. unfold commit in Ec. destruct (k s1) as [? [?|[]|?]]; congruence. }
        rewrite Hsup, Hbl, E, Hb, app_length.
        generalize dependent (total_supply (recorded now (requested caller c) (w_led w))). intros S1 Hs. simpl length. lia.
      * apply Hret in Hn as ->. exists 0%Z. split; [by left|].
        apply refund_effect_exact in Hre; [|done]. unfold icrc1_total_supply in Hre. rewrite E in Hre.
        rewrite Hb, app_length in Hre. simpl length in Hre.
        generalize dependent (total_supply (recorded now (requested caller c) (w_led w))). intros S1 Hs Hre. lia.
  - cbn [step] in Hst. unfold other_income. destruct (w_pend w !! id) as [p|] eqn:Ep; [|injection Hst as <- _; exists 0%Z; split; [done|lia]].
    destruct (resume now p ans) as [k|] eqn:Ek; [|injection Hst as <- <-; exists 0%Z; split; [done|lia]].
    destruct (commit _ _) as [s' r] eqn:Ec. injection Hst as <- <-. cbn [w_cycles w_used w_led].
    destruct (reply_inv _ _ _ _ _ Hr Hev) as (Hi & Hu & Hans).
    destruct (reachable_winv _ Hr) as (_ & _ & Hwp). destruct (Hwp _ _ Ep) as [_ Hpo].
    destruct (resume_outcome _ _ _ _ _ _ _ _ Hi Hu Hpo (wf_answer_u128 _ Hans) Ek Ec)
      as [(t & -> & ->)|[[rep ->] [[(_ & -> & _ & ->) Hlit]|(n & code & fb & ab & Hn & Hfee & Hn' & Hab & Hre)]]].
    + exists (Z.of_N refund). split; [done|]. lia.
    + exists (Z.of_N refund). split; [|lia].
      destruct (answer_returned (pending_amount p) ans) as [[n code]|] eqn:En; [|done].
      specialize (Hlit n code En). unfold icrc1_fee. destruct (N.ltb_spec FEE n); lia.
    + exists (Z.of_N refund - Z.of_N n)%Z. split.
      * rewrite Hn. unfold icrc1_fee. destruct (N.ltb_spec FEE n); lia.
      * apply refund_effect_exact in Hre; [|done]. unfold icrc1_total_supply in Hre. lia.
  - cbn [step] in Hst. exists 0%Z. split; [done|].
    rewrite (reload_eq _ _ (reachable_inv _ Hr)) in Hst.
    destruct (post_upgrade args (set_p0 [] (w_led w))) as [s' o] eqn:E.
    destruct (post_upgrade_cfg _ _ _ _ E) as [c ->]. destruct o as [[]|[]|t]; injection Hst as <- _; simpl; lia.
  - injection Hst as <- _. exists 0%Z. split; [done|]. simpl. lia.
  - injection Hst as <- _. exists (Z.of_N n). split; [done|]. simpl. lia.
  - cbn [step] in Hst. destruct (w_pend w !! id); injection Hst as <- <-.
    + exists (Z.of_N refund). split; [done|]. simpl. lia.
    + exists 0%Z. split; [done|]. lia.
Qed.

(** ** C64 *)

(** Every block leaves exactly the fee with the ledger; all else an event brings is
    listed in [other_income]. *)
Theorem C64_each_block_earns_the_fee w ev w' resp :
  reachable w -> ev_ok w ev -> step w ev = (w', resp) ->
  exists x, other_income w ev resp w' x
  /\ backing w' = (backing w + Z.of_N icrc1_fee * (log_length w' - log_length w) + x)%Z.
Proof. apply event_earns. Qed.

(** So if answers report no more than what came back, the backing grows by at least
    the fee for every block. *)
Theorem C64_backing_grows w0 w :
  reachable w0 -> truthful_run w0 w ->
  (backing w0 + Z.of_N icrc1_fee * (log_length w - log_length w0) <= backing w)%Z.
Proof.
  intros Hr0 Hrun. unfold icrc1_fee.
  assert (reachable w /\ (backing w0 + Z.of_N FEE * (log_length w - log_length w0) <= backing w)%Z) as [_ Hle]; [|done].
  induction Hrun as [w|w0 w ev Hrun IH Hev Htr]; [split; [done|lia]|].
  destruct (IH Hr0) as [Hr Hle]. split; [by constructor|].
  destruct (step w ev) as [w' resp] eqn:Est. simpl.
  destruct (event_earns _ _ _ _ Hr Hev Est) as (x & Hx & Hb).
  assert (0 <= x)%Z; [|lia]. unfold other_income in Hx. clear Hb.
  destruct ev as [now caller c sync|now id ans refund|now args|n|n|now id refund]; try lia.
  - destruct Hx as [->|(? & ? & n & _ & -> & _)]; lia.
  - destruct (w_pend w !! id) as [p|] eqn:Ep; [|lia]. destruct resp; try lia.
    destruct (answer_returned _ _) as [[n code]|] eqn:En; [|lia].
    specialize (Htr p n code Ep En). destruct (icrc1_fee <? n); lia.
  - destruct resp; lia.
Qed.

End WithEnv.

(** ** Cases *)

(** In the demo history nine blocks follow those of the installation, and no
    answer is exaggerated. *)
Example C64_case : exists w0 w,
  reachable w0 /\ truthful_run w0 w
  /\ (log_length w - log_length w0)%Z = 9%Z
  /\ backing w = (backing w0 + 9 * Z.of_N icrc1_fee)%Z.
Proof.
  set (w0 := the_world (init_world T0 (100 * T) demo_init)).
  assert ((match run_truthful w0 demo_events with Some _ => true | None => false end) = true) as Hr
    by (vm_compute; reflexivity).
  destruct (run_truthful w0 demo_events) as [w|] eqn:E; [|done].
  exists w0, w. split; [apply (the_world_reachable T0 (100 * T) demo_init []); vm_compute; reflexivity|].
  split; [eapply run_truthful_ok; [constructor|exact E]|].
  assert (w = the_world (run_truthful w0 demo_events)) as -> by (by rewrite E).
  split; vm_compute; reflexivity.
Qed.

(** The demo world's ledger cannot pay out 5 cycles at once; they are not worth a
    refund and stay with it. *)
Definition small_failure : event :=
  EvCall (T0 + 20 * sec) alice (CallWithdraw None canister None 5) (Some SEPerform).
Example C64_small_case :
  reachable demo_world /\ ev_ok demo_world small_failure
  /\ rejected (step demo_world small_failure).2 = false
  /\ backing (step demo_world small_failure).1 = (backing demo_world + Z.of_N icrc1_fee + 5)%Z.
Proof.
  split; [apply demo_reachable|]. split; [apply ev_okb_ok; vm_compute; reflexivity|].
  split; vm_compute; reflexivity.
Qed.

Print Assumptions C64_each_block_earns_the_fee.
Print Assumptions C64_backing_grows.
