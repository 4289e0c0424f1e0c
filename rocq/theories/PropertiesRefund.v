(** * Refunds, allowances and the backing of tokens

    C25 C26 C27 *)
From Verif Require Import Base Types Codec CodecFacts State Ledger Canister Effects Spec ApiSpec
  Inv Steps World CallFacts CallCases StepFacts AllowFacts RefundFacts AsyncFacts EventFacts DedupFacts PropertiesLog
  PropertiesDedup PropertiesCalls PropertiesAuth PropertiesAsync PropertiesBacklog Demo.

Section WithEnv.
Context `{Env}.

(** ** C25: refunds that go through *)

(** Unless more than 200 expired approvals are stored, the two prunes of a refund
    remove the one that expires right now. *)
Lemma refunded_small_backlog from n m now s x :
  inv now s -> is_u64 now -> tx_ok now (refund_tx from n m) s ->
  approval_backlog now s <= 200 ->
  (icrc2_allowance (refunded from n m now s) now from x).2 <> Some now.
Proof.
  intros Hi Hu Hok Hb Ha.
  assert (inv now (recorded now (refund_tx from n m) s)) as Hi1.
  { eapply prims_inv; [done|exact Hi|]. apply recorded_prims; done. }
  pose proof (recorded_backlog now _ s now Hu Hi Hok ltac:(lia)) as [H1 _].
  rewrite refunded_recorded in Ha.
  pose proof (prune_approval_backlog now _ now Hu Hi1 ltac:(lia)) as H2.
  assert (N.of_nat APPROVE_PRUNE_LIMIT = 100) as E by (by destruct limits). rewrite E in *.
  set (s2 := prune_state now _) in *.
  assert (approval_backlog now s2 = 0) as E0 by lia. unfold approval_backlog in E0.
  rewrite icrc2_allowance_view in Ha. unfold view in Ha.
  destruct (approvals s2 !! approval_key from x) as [[a e]|] eqn:Ek; [|done].
  destruct ((0 <? e) && (e <? now)); [done|]. unfold exp_opt in Ha. simpl in Ha.
  destruct (N.eqb_spec e 0); [done|]. injection Ha as ->.
  assert (filter (fun kv : apkey * (N * N) => 0 < kv.2.2 <= now) (approvals s2) !! approval_key from x
          = Some (a, now)) as Hf by (apply map_filter_lookup_Some; split; [done|simpl; lia]).
  assert (size (filter (fun kv : apkey * (N * N) => 0 < kv.2.2 <= now) (approvals s2)) = 0%nat) as E1 by lia.
  apply map_size_empty_inv in E1. rewrite E1 in Hf. done.
Qed.

Theorem C25_refund_completes_partial
  w now caller c sync w1 id out tr w2 now2 ans refund w3 resp from sp amount :
  reachable w -> ev_ok w (EvCall now caller c sync) ->
  step w (EvCall now caller c sync) = (w1, RespPending id out) ->
  outgoing caller c = Some (from, sp, amount) ->
  steps w1 tr w2 -> undisturbed id tr ->
  ev_ok w2 (EvReply now2 id ans refund) ->
  step w2 (EvReply now2 id ans refund) = (w3, resp) ->
  (forall returned code, answer_returned amount ans = Some (returned, code) ->
     icrc1_total_supply (w_led w2) + returned < 2 ^ 128
     /\ (forall x, sp = Some x -> to_key x <> to_key from -> 2 * icrc1_fee < returned ->
           unexpired now2 (used_expiry (w_led w) now from sp) ->
           ((icrc2_allowance (w_led w2) now2 from x).2 = Some now2 ->
            approval_backlog now2 (w_led w2) <= 200)
           /\ now2 + 1 < 2 ^ 64
           /\ forall b, b ∈ blocks (w_led w2) ->
                ~ hash_clash (b_tx b) (restoring (w_led w2) now2 from x (returned - icrc1_fee)
                                         (used_expiry (w_led w) now from sp)))) ->
  forall t, resp <> RespTrap t.
Proof.
  intros Hr Hev Hst Ho Hs Hun Hev2 Hst2 Hcond t.
  destruct (call_inv _ _ _ _ _ Hr Hev) as (Hi & Hu & Hcl & Hwf).
  destruct (waiting_facts _ _ _ _ _ _ _ _ Hr Hev Hst) as (Hok & p & Hp & Hl & Hid & Hout & _ & Hc & Hpend & _).
  assert (reachable w1) as Hr1 by (replace w1 with (step w (EvCall now caller c sync)).1 by (by rewrite Hst); by constructor).
  pose proof (steps_pend _ _ _ _ _ Hr1 Hs Hun Hpend) as Hp2.
  pose proof (reachable_steps _ _ _ Hr1 Hs) as Hr2.
  destruct (reply_inv _ _ _ _ _ Hr2 Hev2) as (Hi2 & Hu2 & Hans).
  destruct (reachable_winv _ Hr2) as (_ & _ & Hwp). destruct (Hwp _ _ Hp2) as [_ Hpo].
  destruct (outgoing_pending now _ _ (w_led w) _ _ _ Ho) as (p' & Hp' & Hf & Hsp & Ham & _ & Hold).
  assert (p' = p) as -> by congruence. clear Hp'. rewrite <- Hold in Hcond.
  assert (forall returned code m i old cr, answer_returned amount ans = Some (returned, code) ->
    is_u128 returned -> validate_memo (Some m) = true -> p_old p = old ->
    pend_common (w_led w2) from sp amount i old cr ->
    returned - FEE <> 0 ->
    exists r, refund_outcome from sp (returned - FEE) m old now2 (w_led w2) = Some r) as Hgo.
  { intros returned code m i old cr Hret Hru Hm Eold (Hwf1 & Hwf2 & _ & _ & Hown & _ & Hold') Hnz.
    destruct (Hcond _ _ Hret) as [Hsup Hx]. unfold icrc1_total_supply in Hsup.
    rewrite Eold in Hx. unfold icrc1_fee in Hx. change (2 ^ 128) with U128_MOD in Hsup.
    assert (is_u128 (returned - FEE)) as Hn by (eapply is_u128_le; [|exact Hru]; lia).
    assert (tx_ok now2 (refund_tx from (returned - FEE) m) (w_led w2)) as Hrok.
    { apply reimburse_decide_ok; try done. eapply refund_decide; [done|done|lia]. }
    destruct (refund_total_or_clash_after from sp (returned - FEE) m old now2 (w_led w2))
      as [?|(x & Htp & Hfee & Hunex & Hcl')]; try done.
    - lia.
    - intros x Htp Hfee Hunex. apply third_party_Some in Htp as [Esp Hne].
      destruct (Hx x Esp Hne ltac:(lia) Hunex) as (H1 & H2 & H3). split; [done|].
      destruct (decide ((icrc2_allowance (w_led w2) now2 from x).2 = Some now2)) as [Ha|Ha].
      + apply refunded_small_backlog; auto.
      + by apply refunded_not_now.
    - exfalso. apply third_party_Some in Htp as [Esp Hne].
      destruct (Hx x Esp Hne ltac:(lia) Hunex) as (H1 & H2 & H3). destruct (restore_clash_hash now2 (w_led w2) from x (returned - FEE) old) as (b & Hb & Hh); try done.
      + rewrite Esp in Hwf2. done.
      + by eapply H3. }
  cbn [step] in Hst2. rewrite Hp2 in Hst2.
  destruct p as [ep from' to' sp' amount' i old|ep from' sp' amount' i old created arg];
    cbn [p_from p_spender pending_amount p_old] in *; subst from' sp' amount';
    destruct ans as [r|r]; cbn [resume] in Hst2; try (injection Hst2 as <- <-; done).
  - destruct Hpo as (_ & _ & cr & Hcom). destruct r as [[]|e].
    + destruct ep; simpl in Hst2; injection Hst2 as _ <-; done.
    + destruct (withdraw_rest_eq ep from sp amount i old now2 e (w_led w2) (w_led w2) (inv_supply _ _ Hi2)) as [x Hx].
      rewrite Hx in Hst2. unfold wd_fail_rest in Hst2.
      destruct (N.eqb_spec (amount - FEE) 0) as [E|E]; [injection Hst2 as _ <-; done|].
      destruct (Hgo amount (call_error_to_reject e) PENALIZE_MEMO i old (withdraw_tx from to' sp amount cr)) as [[[s3 fb] ab] Hrf]; try done.
      { destruct Hcom as (_ & _ & Hamt & _). unfold is_u128. lia. }
      rewrite Hrf in Hst2. injection Hst2 as _ <-. done.
  - destruct Hpo as (_ & Hcom).
    destruct (create_rest_eq ep from sp amount i old created now2 r (w_led w2) (w_led w2) (inv_supply _ _ Hi2)) as [x Hx].
    rewrite Hx in Hst2. destruct (flat_create_result amount r) as [cid|[code returned]] eqn:Efl.
    + injection Hst2 as _ <-. done.
    + unfold cr_fail_rest in Hst2.
      destruct (N.eqb_spec (returned - FEE) 0) as [E|E]; [injection Hst2 as _ <-; done|].
      destruct (Hgo returned code REFUND_MEMO i old (create_tx from sp amount created)) as [[[s3 fb] ab] Hrf]; try done.
      { destruct r as [[|[]]|]; simpl in *; rewrite ?reported_code_eq; congruence. }
      { eapply wf_refund_n; [| |exact Efl]; [destruct Hcom as (_ & _ & Hamt & _); unfold is_u128; lia|].
        destruct r as [[|[]]|]; done. }
      rewrite Hrf in Hst2. injection Hst2 as _ <-. done.
Qed.

(** A call-back that traps leaves the ledger as it was and the call is over: what
    it should have refunded is gone. *)
Lemma trapped_reply w now id ans refund p w' t :
  w_pend w !! id = Some p -> step w (EvReply now id ans refund) = (w', RespTrap t) ->
  w_led w' = w_led w /\ w_pend w' = delete id (w_pend w).
Proof.
  intros Hp. cbn [step]. rewrite Hp. destruct (resume now p ans) as [k|]; [|congruence].
  destruct (k (w_led w)) as [s [r|[]|x]]; cbn [commit]; [congruence|].
  intros E. injection E as <- _. done.
Qed.

(** The corner in which a call-back traps: the refund would push the supply to
    [2^128]; or the allowance is restored in the last nanosecond of the 64-bit
    clock, in the very nanosecond in which the current approval of the pair
    expires while more than 200 expired approvals are still stored, or with a transaction that shares its hash with a different one. *)
Definition callback_corner (w2 : world) (now2 : N) (from : account) (sp : option account)
  (returned : N) (old : option N) : Prop :=
  icrc1_fee < returned
  /\ (2 ^ 128 <= icrc1_total_supply (w_led w2) + (returned - icrc1_fee)
      \/ exists x, sp = Some x /\ to_key x <> to_key from /\ 2 * icrc1_fee < returned /\ unexpired now2 old
         /\ (now2 + 1 = 2 ^ 64
             \/ ((icrc2_allowance (w_led w2) now2 from x).2 = Some now2
                 /\ 200 < approval_backlog now2 (w_led w2))
             \/ exists b, b ∈ blocks (w_led w2)
                  /\ hash_clash (b_tx b) (restoring (w_led w2) now2 from x (returned - icrc1_fee) old))).

(** A call-back traps only there; then nothing is refunded. *)
Theorem C25_trap_only_in_corner
  w now caller c sync w1 id out tr w2 now2 ans refund w3 t from sp amount :
  reachable w -> ev_ok w (EvCall now caller c sync) ->
  step w (EvCall now caller c sync) = (w1, RespPending id out) ->
  outgoing caller c = Some (from, sp, amount) ->
  steps w1 tr w2 -> undisturbed id tr ->
  ev_ok w2 (EvReply now2 id ans refund) ->
  step w2 (EvReply now2 id ans refund) = (w3, RespTrap t) ->
  w_led w3 = w_led w2 /\ w_pend w3 = delete id (w_pend w2)
  /\ exists returned code, answer_returned amount ans = Some (returned, code)
     /\ callback_corner w2 now2 from sp returned (used_expiry (w_led w) now from sp).
Proof.
  intros Hr Hev Hst Ho Hs Hun Hev2 Hst2.
  destruct (call_inv _ _ _ _ _ Hr Hev) as (Hi & Hu & Hcl & Hwf).
  destruct (waiting_facts _ _ _ _ _ _ _ _ Hr Hev Hst) as (Hok & p & Hp & Hl & Hid & Hout & _ & Hc & Hpend & _).
  assert (reachable w1) as Hr1 by (replace w1 with (step w (EvCall now caller c sync)).1 by (by rewrite Hst); by constructor).
  pose proof (steps_pend _ _ _ _ _ Hr1 Hs Hun Hpend) as Hp2.
  pose proof (reachable_steps _ _ _ Hr1 Hs) as Hr2.
  destruct (trapped_reply _ _ _ _ _ _ _ _ Hp2 Hst2) as [Hled Hpd]. split; [done|]. split; [done|].
  destruct (reply_inv _ _ _ _ _ Hr2 Hev2) as (Hi2 & Hu2 & Hans).
  destruct (reachable_winv _ Hr2) as (_ & _ & Hwp). destruct (Hwp _ _ Hp2) as [_ Hpo].
  destruct (outgoing_pending now _ _ (w_led w) _ _ _ Ho) as (p' & Hp' & Hf & Hsp & Ham & _ & Hold).
  assert (p' = p) as -> by congruence. clear Hp'. rewrite <- Hold.
  assert (forall returned m i old cr,
    is_u128 returned -> validate_memo (Some m) = true -> p_old p = old ->
    pend_common (w_led w2) from sp amount i old cr ->
    returned - FEE <> 0 ->
    refund_outcome from sp (returned - FEE) m old now2 (w_led w2) = None ->
    callback_corner w2 now2 from sp returned old) as Hgo.
  { intros returned m i old cr Hru Hm Eold (Hwf1 & Hwf2 & _ & _ & Hown & _ & Hold') Hnz Hno.
    unfold callback_corner, icrc1_fee, icrc1_total_supply. change (2 ^ 128) with U128_MOD. change (2 ^ 64) with U64_MOD.
    split; [lia|].
    destruct (N.lt_ge_cases (total_supply (w_led w2) + (returned - FEE)) U128_MOD) as [Hsup|Hsup]; [right|by left].
    destruct (third_party from sp) as [x|] eqn:Htp.
    2: { exfalso. destruct (refund_total from sp (returned - FEE) m old now2 (w_led w2)) as [? Hx]; try done.
         - eapply is_u128_le; [|exact Hru]. lia.
         - intros x Hx. congruence.
         - intros x Hx. congruence.
         - congruence. }
    destruct (proj1 (third_party_Some from sp x) Htp) as [Esp Hne].
    assert (FEE < returned - FEE /\ unexpired now2 old) as [Hfee Hunex].
    { unfold refund_outcome in Hno. rewrite Htp in Hno.
      assert (reimburse_decide from (returned - FEE) m (w_led w2) = OOk tt) as Ed.
      { unfold reimburse_decide. rewrite Hm. simpl.
        pose proof (supply_bal (w_led w2) (to_key from) (inv_supply _ _ Hi2)) as Hb. fold (balance_of (w_led w2) from) in Hb.
        destruct (N.leb_spec U128_MOD (balance_of (w_led w2) from + (returned - FEE))); [lia|].
        destruct (N.leb_spec U128_MOD (total_supply (w_led w2) + (returned - FEE))); [lia|done]. }
      rewrite Ed in Hno. destruct ((FEE <? returned - FEE) && approval_still_valid old now2) eqn:Ec; [|done].
      unfold approval_still_valid in Ec. destruct old; simpl; lia. }
    exists x. split; [done|]. split; [done|]. split; [lia|]. split; [done|].
    destruct (N.lt_ge_cases (now2 + 1) U64_MOD) as [Hl1|Hl1]; [|left; unfold is_u64 in Hu2; lia]. right.
    assert (is_u128 (returned - FEE)) as Hn by (eapply is_u128_le; [|exact Hru]; lia).
    assert (tx_ok now2 (refund_tx from (returned - FEE) m) (w_led w2)) as Hrok.
    { apply reimburse_decide_ok; try done. by eapply refund_decide. }
    assert (((icrc2_allowance (w_led w2) now2 from x).2 = Some now2 /\ 200 < approval_backlog now2 (w_led w2))
            \/ (icrc2_allowance (refunded from (returned - FEE) m now2 (w_led w2)) now2 from x).2 <> Some now2) as [Ha|Ha].
    { destruct (decide ((icrc2_allowance (w_led w2) now2 from x).2 = Some now2)) as [Ha|Ha].
      - destruct (N.lt_ge_cases 200 (approval_backlog now2 (w_led w2))); [by left|right]. by apply refunded_small_backlog.
      - right. by apply refunded_not_now. }
    { by left. }
    right.
    destruct (refund_total_or_clash_after from sp (returned - FEE) m old now2 (w_led w2)) as [[r Hx]|(x' & Hx' & _ & _ & Hcl')]; try done.
    - intros x' Hx'. apply Hown. congruence.
    - intros x' Hx' _ _. assert (x' = x) as -> by congruence. by split.
    - congruence.
    - assert (x' = x) as -> by congruence.
      destruct (restore_clash_hash now2 (w_led w2) from x (returned - FEE) old) as (b & Hb & Hh); try done.
      + rewrite Esp in Hwf2. done.
      + by exists b. }
  cbn [step] in Hst2. rewrite Hp2 in Hst2.
  destruct p as [ep from' to' sp' amount' i old|ep from' sp' amount' i old created arg];
    cbn [p_from p_spender pending_amount p_old] in *; subst from' sp' amount';
    destruct ans as [r|r]; cbn [resume] in Hst2; try discriminate.
  - destruct Hpo as (_ & _ & cr & Hcom). destruct r as [[]|e].
    + destruct ep; simpl in Hst2; discriminate.
    + destruct (withdraw_rest_eq ep from sp amount i old now2 e (w_led w2) (w_led w2) (inv_supply _ _ Hi2)) as [x Hx].
      rewrite Hx in Hst2. unfold wd_fail_rest in Hst2.
      destruct (N.eqb_spec (amount - FEE) 0) as [E|E]; [discriminate|].
      exists amount, (call_error_to_reject e). split; [done|].
      destruct (refund_outcome _ _ _ _ _ _ _) as [[[s3 fb] ab]|] eqn:Hrf; [discriminate|].
      eapply (Hgo amount PENALIZE_MEMO i old); try done.
      destruct Hcom as (_ & _ & Hamt & _). unfold is_u128. lia.
  - destruct Hpo as (_ & Hcom).
    destruct (create_rest_eq ep from sp amount i old created now2 r (w_led w2) (w_led w2) (inv_supply _ _ Hi2)) as [x Hx].
    rewrite Hx in Hst2. destruct (flat_create_result amount r) as [cid|[code returned]] eqn:Efl; [discriminate|].
    unfold cr_fail_rest in Hst2.
    destruct (N.eqb_spec (returned - FEE) 0) as [E|E]; [discriminate|].
    exists returned, code. split; [destruct r as [[|[]]|]; simpl in *; rewrite ?reported_code_eq; congruence|].
    destruct (refund_outcome _ _ _ _ _ _ _) as [[[s3 fb] ab]|] eqn:Hrf; [discriminate|].
    eapply (Hgo returned REFUND_MEMO i old); try done.
    eapply wf_refund_n; [| |exact Efl]; [destruct Hcom as (_ & _ & Hamt & _); unfold is_u128; lia|].
    destruct r as [[|[]]|]; done.
Qed.

(** ** C23, C24: what a failed outgoing call leads to, the trap included *)
Theorem C23_failed_delivery_outcome
  w now caller c sync w1 id to amount tr w2 now2 err refund w3 resp :
  reachable w -> ev_ok w (EvCall now caller c sync) ->
  step w (EvCall now caller c sync) = (w1, RespPending id (OutDepositCycles to amount)) ->
  steps w1 tr w2 -> undisturbed id tr ->
  ev_ok w2 (EvReply now2 id (AnsDeposit (Err err)) refund) ->
  step w2 (EvReply now2 id (AnsDeposit (Err err)) refund) = (w3, resp) ->
  exists from sp, outgoing caller c = Some (from, sp, amount)
    /\ w_pend w3 !! id = None
    /\ let old := used_expiry (w_led w) now from sp in
       failure_refunded (w_led w2) (w_led w3) now2 c from sp amount PENALIZE_MEMO old
         (N.of_nat (length (blocks (w_led w)))) (reported_code err) resp
       \/ ((exists t, resp = RespTrap t) /\ w_led w3 = w_led w2
           /\ callback_corner w2 now2 from sp amount old).
Proof.
  intros Hr Hev Hst Hs Hun Hev2 Hst2.
  destruct (C22_burn_and_pay _ _ _ _ _ _ _ _ Hr Hev Hst) as (from & sp & amount' & Ho & Hsd & _).
  assert (amount' = amount) as -> by (destruct c; simpl in Hsd, Ho; naive_solver).
  assert ((exists t, resp = RespTrap t) \/ (forall t, resp <> RespTrap t)) as [[t ->]|Hnt]
    by (destruct resp; eauto; right; discriminate).
  { exists from, sp. split; [done|].
       destruct (C25_trap_only_in_corner _ _ _ _ _ _ _ _ _ _ _ _ _ _ _ _ _ _ Hr Hev Hst Ho Hs Hun Hev2 Hst2)
         as (H1 & H2 & returned & code & Ha & Hc).
       split; [rewrite H2; apply lookup_delete|]. right. split; [by eexists|]. split; [done|].
       simpl in Ha. injection Ha as <- _. done. }
  destruct (failed_delivery_refunded _ _ _ _ _ _ _ _ _ _ _ _ _ _ _ _ Hr Hev Hst Hs Hun Hev2 Hst2 Hnt)
    as (from' & sp' & Ho' & Hf & Hp).
  exists from', sp'. split; [done|]. split; [done|]. by left.
Qed.

Theorem C24_failed_creation_outcome
  w now caller c sync w1 id arg amount tr w2 now2 ans refund returned code w3 resp :
  reachable w -> ev_ok w (EvCall now caller c sync) ->
  step w (EvCall now caller c sync) = (w1, RespPending id (OutCmcCreate arg amount)) ->
  steps w1 tr w2 -> undisturbed id tr ->
  ev_ok w2 (EvReply now2 id (AnsCmc ans) refund) ->
  step w2 (EvReply now2 id (AnsCmc ans) refund) = (w3, resp) ->
  cmc_returned amount ans = Some (returned, code) ->
  exists from sp, outgoing caller c = Some (from, sp, amount)
    /\ w_pend w3 !! id = None
    /\ let old := used_expiry (w_led w) now from sp in
       failure_refunded (w_led w2) (w_led w3) now2 c from sp returned REFUND_MEMO old
         (N.of_nat (length (blocks (w_led w)))) code resp
       \/ ((exists t, resp = RespTrap t) /\ w_led w3 = w_led w2
           /\ callback_corner w2 now2 from sp returned old).
Proof.
  intros Hr Hev Hst Hs Hun Hev2 Hst2 Hret.
  destruct (C22_burn_and_pay _ _ _ _ _ _ _ _ Hr Hev Hst) as (from & sp & amount' & Ho & Hsd & _).
  assert (amount' = amount) as -> by (destruct c; simpl in Hsd, Ho; naive_solver).
  assert ((exists t, resp = RespTrap t) \/ (forall t, resp <> RespTrap t)) as [[t ->]|Hnt]
    by (destruct resp; eauto; right; discriminate).
  { exists from, sp. split; [done|].
       destruct (C25_trap_only_in_corner _ _ _ _ _ _ _ _ _ _ _ _ _ _ _ _ _ _ Hr Hev Hst Ho Hs Hun Hev2 Hst2)
         as (H1 & H2 & returned' & code' & Ha & Hc).
       split; [rewrite H2; apply lookup_delete|]. right. split; [by eexists|]. split; [done|].
       simpl in Ha. rewrite Hret in Ha. injection Ha as <- _. done. }
  destruct (failed_creation_refunded _ _ _ _ _ _ _ _ _ _ _ _ _ _ _ _ _ _ Hr Hev Hst Hs Hun Hev2 Hst2 Hret Hnt)
    as (from' & sp' & Ho' & Hf & Hp).
  exists from', sp'. split; [done|]. split; [done|]. by left.
Qed.

(** ** C26: who changes an allowance *)

Lemma log_allowance_untouched k bs new :
  (forall b, b ∈ new -> (forall v, approved_by b <> Some (k, v)) /\ (forall n, spent_by b <> Some (k, n))) ->
  log_allowance (bs ++ new) k = log_allowance bs k.
Proof.
  unfold log_allowance. rewrite foldl_app. generalize (foldl (allowance_step k) None bs) as cur.
  induction new as [|b new IH]; intros cur Hn; simpl; [done|].
  assert (allowance_step k cur b = cur) as ->.
  { destruct (Hn b) as [H1 H2]; [by left|]. unfold allowance_step.
    destruct (approved_by b) as [[k' [a x]]|]; [destruct (decide (k = k')) as [<-|]; [by edestruct H1|done]|].
    destruct (spent_by b) as [[k' n]|]; [|done]. destruct (decide (k = k')) as [<-|]; [by edestruct H2|done]. }
  apply IH. intros b' Hb'. apply Hn. by right.
Qed.

(** The pairs a call approves for or draws on *)
Definition approves (caller : principal) (c : call) (f p : account) : Prop :=
  exists sub sp amount ea ex fee m created, c = CallApprove sub sp amount ea ex fee m created
    /\ same_account (Acct caller sub) f /\ same_account sp p.
Definition draws (caller : principal) (c : call) (f p : account) : Prop :=
  exists from sp amount, spends_from caller c = Some (from, sp, amount)
    /\ same_account from f /\ same_account sp p.

Lemma requested_touches caller c b f p :
  b_tx b = requested caller c ->
  (exists v, approved_by b = Some ((to_key f, to_key p), v)) \/ (exists n, spent_by b = Some ((to_key f, to_key p), n)) ->
  approves caller c f p \/ draws caller c f p.
Proof.
  unfold approved_by, spent_by. intros ->. destruct c; cbn [requested tx_op]; intros [[v Hv]|[n Hn]]; try done.
  - destruct (decide _); [done|]. right. eexists _, _, _. split; [done|]. split; apply key_same; congruence.
  - left. do 8 eexists. split; [done|]. split; apply key_same; congruence.
  - destruct (decide _); [done|]. right. eexists _, _, _. split; [done|]. split; apply key_same; congruence.
  - destruct (decide _); [done|]. right. eexists _, _, _. split; [done|]. split; apply key_same; congruence.
Qed.
Lemma refund_touches from sp l b f p :
  refund_blocks from sp l -> b ∈ l ->
  (exists v, approved_by b = Some ((to_key f, to_key p), v)) \/ (exists n, spent_by b = Some ((to_key f, to_key p), n)) ->
  exists x, sp = Some x /\ same_account from f /\ same_account x p.
Proof.
  unfold approved_by, spent_by.
  intros [->|(b1 & n & m & Hb1 & [->|(b2 & x & a & e & -> & Hb2 & ->)])] Hin Ht; [by apply elem_of_nil in Hin| |].
  - apply elem_of_list_singleton in Hin as ->. rewrite Hb1 in Ht. simpl in Ht. naive_solver.
  - apply elem_of_cons in Hin as [->|Hin]; [rewrite Hb1 in Ht; simpl in Ht; naive_solver|].
    apply elem_of_list_singleton in Hin as ->. rewrite Hb2 in Ht. simpl in Ht.
    destruct Ht as [[v Hv]|[k Hk]]; [|done]. exists x. split; [done|]. split; apply key_same; congruence.
Qed.

(** What is missing from the full claim: the answer to a waiting [_from] call of
    this pair. *)
Theorem C26_allowance_changes_partial w ev w' resp tm f p :
  reachable w -> ev_ok w ev -> step w ev = (w', resp) -> w_clock w' <= tm ->
  usable (w_led w') tm f p <> usable (w_led w) tm f p ->
  match ev with
  | EvCall _ caller c _ => approves caller c f p \/ draws caller c f p
  | EvReply _ id _ _ =>
      exists q x, w_pend w !! id = Some q /\ p_spender q = Some x
        /\ same_account (p_from q) f /\ same_account x p
  | _ => False
  end.
Proof.
  intros Hr Hev Hst Htm Hne.
  assert (reachable w') as Hr' by (replace w' with (step w ev).1 by (by rewrite Hst); by constructor).
  assert (w_clock w <= w_clock w') as Hclk.
  { pose proof (steps_cons w ev [] _ Hev (steps_nil _)) as Hs. rewrite Hst in Hs. by eapply steps_clock. }
  rewrite !usable_live in Hne by (done || lia).
  destruct (event_blocks _ _ _ _ Hr Hev Hst) as (new & Hb & Hnew).
  rewrite Hb in Hne. unfold live_allowance in Hne.
  assert (exists b, b ∈ new /\ ((exists v, approved_by b = Some ((to_key f, to_key p), v))
                                \/ (exists n, spent_by b = Some ((to_key f, to_key p), n)))) as (b & Hin & Ht).
  { assert (forall b, Decision ((exists v, approved_by b = Some ((to_key f, to_key p), v))
                                \/ (exists n, spent_by b = Some ((to_key f, to_key p), n)))) as Hdec.
    { intros b. destruct (approved_by b) as [[k v]|].
      - destruct (decide (k = (to_key f, to_key p))) as [->|Hk]; [left; eauto|].
        destruct (spent_by b) as [[k' n]|].
        + destruct (decide (k' = (to_key f, to_key p))) as [->|Hk']; [left; eauto|].
          right. intros [[v' E]|[n' E]]; congruence.
        + right. intros [[v' E]|[n' E]]; congruence.
      - destruct (spent_by b) as [[k' n]|].
        + destruct (decide (k' = (to_key f, to_key p))) as [->|Hk']; [left; eauto|].
          right. intros [[v' E]|[n' E]]; congruence.
        + right. intros [[v' E]|[n' E]]; congruence. }
    destruct (decide (Exists (fun b => (exists v, approved_by b = Some ((to_key f, to_key p), v))
                                \/ (exists n, spent_by b = Some ((to_key f, to_key p), n))) new)) as [He|He].
    - by apply Exists_exists in He.
    - exfalso. apply Hne. rewrite log_allowance_untouched; [done|]. intros b Hin.
      apply not_Exists_Forall in He; [|done]. rewrite Forall_forall in He. specialize (He b Hin).
      split; intros ? E; apply He; eauto. }
  destruct ev as [now caller c sync|now id ans refund|now args|n|n|now id refund];
    try (subst new; by apply elem_of_nil in Hin).
  - destruct Hnew as [->|(b0 & rest & -> & Hb0 & Hrest)]; [by apply elem_of_nil in Hin|].
    apply elem_of_cons in Hin as [->|Hin]; [by eapply requested_touches|].
    destruct Hrest as [->|(from & sp & amount & Ho & Hrb)]; [by apply elem_of_nil in Hin|].
    destruct (refund_touches _ _ _ _ _ _ Hrb Hin Ht) as (x & -> & Hf & Hx).
    right. exists from, x, amount. split; [|done]. destruct c; simpl in *; congruence.
  - destruct Hnew as [->|(q & Hq & Hrb)]; [by apply elem_of_nil in Hin|].
    destruct (refund_touches _ _ _ _ _ _ Hrb Hin Ht) as (x & Hx & Hf & Hp). eauto 10.
Qed.

(** ** C27: every token is backed *)

(** An event is truthful if the cycles that came back with an answer are at least
    those the answer reports. *)
Definition truthful (w : world) (ev : event) : Prop :=
  match ev with
  | EvReply _ id ans refund =>
      forall p n code, w_pend w !! id = Some p ->
        answer_returned (pending_amount p) ans = Some (n, code) -> n <= refund
  | _ => True
  end.
(** Histories of truthful events *)
Inductive truthful_run : world -> world -> Prop :=
| run_nil w : truthful_run w w
| run_snoc w0 w ev : truthful_run w0 w -> ev_ok w ev -> truthful w ev -> truthful_run w0 (step w ev).1.

Lemma refund_effect_supply s s' now from sp n m old fb ab :
  refund_effect s s' now from sp n m old fb ab ->
  icrc1_total_supply s' <= icrc1_total_supply s + n.
Proof.
  intros [_ Hx]. destruct ab as [j|].
  - destruct Hx as (_ & _ & Hs & _). lia.
  - destruct Hx as (_ & Hs & _). lia.
Qed.

Lemma outgoing_burned caller c from sp n :
  outgoing caller c = Some (from, sp, n) ->
  op_burned (tx_op (requested caller c)) = n + FEE /\ op_minted (tx_op (requested caller c)) = 0.
Proof. destruct c; cbn [outgoing]; intros E; try done; injection E as _ _ <-; by split. Qed.

Lemma done_minted caller c i s1 r :
  done_reply caller c i s1 = Some r ->
  op_minted (tx_op (requested caller c)) <= accepted_cycles c r.
Proof.
  destruct c; cbn [done_reply]; intros E; try done; injection E as <-;
    cbn [requested tx_op op_minted accepted_cycles]; [|done..].
  apply N.le_sub_l.
Qed.

Lemma event_backing w ev w' resp :
  reachable w -> ev_ok w ev -> truthful w ev -> step w ev = (w', resp) ->
  icrc1_total_supply (w_led w') + (w_cycles w + w_used w)
  <= icrc1_total_supply (w_led w) + (w_cycles w' + w_used w').
Proof.
  intros Hr Hev Htr Hst. unfold icrc1_total_supply.
  destruct ev as [now caller c sync|now id ans refund|now args|n|n|now id refund].
  - destruct (call_inv _ _ _ _ _ Hr Hev) as (Hi & Hu & _).
    destruct (rejected resp) eqn:Erj.
    { destruct (step_rejected _ _ _ _ _ _ _ Hr Hev Hst Erj) as (-> & _ & _ & -> & ->). lia. }
    destruct (step_accepted _ _ _ _ _ _ _ Hr Hev Hst Erj) as (Hok & r & Ha & Hm).
    pose proof (recorded_supply _ _ _ Hi Hok) as Hs.
    pose proof (accepted_outcome _ _ _ _ _ _ _ _ Hi Hu Hok Ha) as Hout. cbv zeta in Hout.
    assert (w_used w' = w_used w) as Huse by (destruct r; destruct Hm as [_ ->]; done). rewrite Huse.
    remember (w_led w') as s' eqn:Es'.
    destruct Ha as [s1 r1 E Hd|s1 p E Hp Hsf Hpo|s1 p e s2 r1 E Hp Hsf Hpo Hrj Hpr Hsr].
    + destruct Hm as [-> Hw]. assert (w_cycles w' = w_cycles w + accepted_cycles c r1) as -> by (by rewrite Hw).
      rewrite E. clear Hout. generalize dependent (total_supply (recorded now (requested caller c) (w_led w))). intros S1 Hs.
      pose proof (done_minted _ _ _ _ _ Hd). lia.
    + destruct Hm as [-> Hw]. assert (w_cycles w' = w_cycles w - pending_amount p) as -> by (by rewrite Hw).
      rewrite E. clear Hout. generalize dependent (total_supply (recorded now (requested caller c) (w_led w))). intros S1 Hs.
      pose proof (pending_outgoing _ _ _ _ _ Hp) as Ho.
      unfold sync_fail in Hsf. destruct sync; [done|].
      destruct (N.ltb_spec (w_cycles w) (pending_amount p)); [done|].
      destruct (outgoing_burned _ _ _ _ _ Ho) as [Hbu Hmi]. lia.
    + destruct Hm as [-> Hw]. assert (w_cycles w' = w_cycles w + accepted_cycles c r1) as -> by (by rewrite Hw).
      pose proof (pending_outgoing _ _ _ _ _ Hp) as Ho.
      assert (accepted_cycles c r1 = 0) as -> by (by destruct c).
      destruct Hout as [(_ & Hsup & _)|(p' & fb & ab & Hp' & Hfee & _ & _ & Hre)].
      * rewrite Hsup. clear E. generalize dependent (total_supply (recorded now (requested caller c) (w_led w))). intros S1 Hs Hsup.
        destruct (outgoing_burned _ _ _ _ _ Ho) as [Hbu Hmi]. lia.
      * assert (p' = p) as -> by congruence. apply refund_effect_supply in Hre. unfold icrc1_total_supply in Hre.
        generalize dependent (total_supply (recorded now (requested caller c) (w_led w))). intros S1 Hs Hre.
        destruct (outgoing_burned _ _ _ _ _ Ho) as [Hbu Hmi]. lia.
  - cbn [step] in Hst. destruct (w_pend w !! id) as [p|] eqn:Ep; [|injection Hst as <- _; lia].
    destruct (resume now p ans) as [k|] eqn:Ek; [|injection Hst as <- _; lia].
    destruct (commit _ _) as [s' r] eqn:Ec. injection Hst as <- <-. simpl.
    destruct (reply_inv _ _ _ _ _ Hr Hev) as (Hi & Hu & Hans).
    destruct (reachable_winv _ Hr) as (_ & _ & Hwp). destruct (Hwp _ _ Ep) as [_ Hpo].
    destruct (resume_outcome _ _ _ _ _ _ _ _ Hi Hu Hpo (wf_answer_u128 _ Hans) Ek Ec)
      as [(t & _ & ->)|[_ [[(_ & -> & _) _]|(n & code & fb & ab & Hn & _ & _ & _ & Hre)]]]; [lia|lia|].
    apply refund_effect_supply in Hre. unfold icrc1_total_supply in Hre.
    specialize (Htr p n code Ep Hn). lia.
  - cbn [step] in Hst.
    rewrite (reload_eq _ _ (reachable_inv _ Hr)) in Hst.
    destruct (post_upgrade args (set_p0 [] (w_led w))) as [s' o] eqn:E.
    destruct (post_upgrade_cfg _ _ _ _ E) as [c ->]. destruct o as [[]|[]|t]; injection Hst as <- _; simpl; lia.
  - injection Hst as <- _. simpl. lia.
  - injection Hst as <- _. simpl. lia.
  - cbn [step] in Hst. destruct (w_pend w !! id); injection Hst as <- _; simpl; lia.
Qed.

(** From installation on: what the ledger holds and has spent on its own
    execution, minus what it was installed with, covers the supply minus the
    initial supply. *)
Theorem C27_tokens_are_backed now cycles args w0 w :
  is_u64 now -> wf_ledger_args args -> init_world now cycles args = Some w0 ->
  truthful_run w0 w ->
  icrc1_total_supply (w_led w) + cycles
  <= icrc1_total_supply (w_led w0) + (w_cycles w + w_used w).
Proof.
  intros Hu Hwf Hin Hrun.
  assert (w_cycles w0 = cycles /\ w_used w0 = 0) as [Hc Hz].
  { unfold init_world in Hin. destruct (init now args empty_state) as [s [o|[]|t]]; [|done].
    injection Hin as <-. done. }
  assert (reachable w0) as Hr0 by (by econstructor).
  assert (reachable w /\ icrc1_total_supply (w_led w) + (w_cycles w0 + w_used w0)
          <= icrc1_total_supply (w_led w0) + (w_cycles w + w_used w)) as [_ Hle].
  { clear -Hr0 Hrun. induction Hrun as [w|w0 w ev Hrun IH Hev Htr]; [done|].
    destruct (IH Hr0) as [Hr Hle]. split; [by constructor|].
    destruct (step w ev) as [w' resp] eqn:Est. simpl.
    pose proof (event_backing _ _ _ _ Hr Hev Htr Est). lia. }
  lia.
Qed.

End WithEnv.

(** ** The findings *)

(** *** C25: a refund that is lost

    bob's [withdraw_from] of 10 T is in flight when alice replaces the allowance by
    one that expires at [tE].  The call fails and the answer arrives at exactly
    [tE], with enough approvals expiring before [tE] that the replaced one is not
    pruned by the refund itself.  The call-back then asks for an approval that
    expires now, which is an error, and unwraps it: the call-back traps, the
    refund is rolled back and nobody gets the 10 T. *)
Definition tE : N := T0 + 100 * sec.
Definition many_approvals (n : nat) : list event :=
  map (fun i => EvCall (T0 + 10 * sec) alice
    (CallApprove None (Acct carol (Some (N.of_nat i))) 1 None (Some (tE - N.of_nat i)) None None None) None) (seq 1 n).
Definition trap_events : list event :=
  [ EvCall (T0 + 1 * sec) carol (CallDeposit (100 * T) (acct alice) None) None;
    EvCall (T0 + 2 * sec) alice (CallApprove None (acct bob) (50 * T) None None None None None) None;
    EvCall (T0 + 3 * sec) bob (CallWithdrawFrom None (acct alice) canister None (10 * T)) None;
    EvCall (T0 + 4 * sec) alice (CallApprove None (acct bob) (5 * T) None (Some tE) None None None) None ]
  ++ many_approvals 200.
Definition trap_reply : event := EvReply tE 0 (AnsDeposit (Err (CECallRejected None))) (10 * T).

Definition is_trap (r : response) : bool := match r with RespTrap _ => true | _ => false end.
Definition amount_waiting (w : world) (id : N) : option N := pending_amount <$> w_pend w !! id.

Lemma trap_check :
  match history T0 (100 * T) demo_init trap_events with
  | Some w => ev_okb w trap_reply && is_trap (step w trap_reply).2
              && bool_decide (amount_waiting w 0 = Some (10 * T))
  | None => false
  end = true.
Proof. vm_compute. reflexivity. Qed.

Theorem C25_refund_lost_refuted :
  exists (w w' : world) now id p code amount t,
    reachable w /\ w_pend w !! id = Some p /\ pending_amount p = amount /\ amount = 10 * T
    (* the outgoing call failed and all its cycles came back *)
    /\ ev_ok w (EvReply now id (AnsDeposit (Err (CECallRejected code))) amount)
    /\ step w (EvReply now id (AnsDeposit (Err (CECallRejected code))) amount) = (w', RespTrap t)
    (* nothing was refunded, and nothing is in flight any more *)
    /\ w_led w' = w_led w /\ w_pend w' !! id = None /\ w_cycles w' = w_cycles w + amount.
Proof.
  pose proof trap_check as Hc.
  destruct (history T0 (100 * T) demo_init trap_events) as [w|] eqn:Eh; [|done].
  assert (reachable w) as Hr by (eapply history_reachable; exact Eh). clear Eh.
  apply andb_true_iff in Hc as [[Hev Htr]%andb_true_iff Hp].
  apply bool_decide_eq_true_1 in Hp. unfold amount_waiting in Hp.
  destruct (w_pend w !! 0) as [p|] eqn:Ep; [|done]. injection Hp as Hp.
  apply ev_okb_ok in Hev. destruct (step w trap_reply) as [w' r] eqn:Es. simpl in Htr.
  destruct r as [|t| |]; try done. unfold trap_reply in *.
  exists w, w', tE, 0, p, None, (10 * T), t.
  split; [exact Hr|]. do 3 (split; [done|]). split; [done|]. split; [done|].
  destruct (trapped_reply _ _ _ _ _ _ _ _ Ep Es) as [-> ->]. split; [done|].
  split; [apply lookup_delete|]. cbn [step] in Es. rewrite Ep in Es.
  destruct (resume _ _ _); [|done]. destruct (commit _ _). injection Es as <- _. done.
Qed.

(** *** C26: allowances that come back *)

(** alice revokes bob's allowance while bob's [withdraw_from] is in flight; when
    that fails, bob has an allowance again that alice never gave. *)
Theorem C26_revoked_allowance_returns_refuted :
  exists (w w' : world) now id ans refund resp,
    reachable w /\ ev_ok w (EvReply now id ans refund)
    /\ step w (EvReply now id ans refund) = (w', resp)
    (* alice's last word was to set the allowance to 0 *)
    /\ (exists b, last (blocks (w_led w)) = Some b
          /\ tx_op (b_tx b) = Approve (acct alice) (acct bob) 0 None None None)
    /\ icrc2_allowance (w_led w) now (acct alice) (acct bob) = (0, None)
    /\ icrc2_allowance (w_led w') now (acct alice) (acct bob) = (10 * T - 2 * icrc1_fee, None).
Proof.
  set (evs := [ EvCall (T0 + 1 * sec) carol (CallDeposit (100 * T) (acct alice) None) None;
    EvCall (T0 + 2 * sec) alice (CallApprove None (acct bob) (50 * T) None None None None None) None;
    EvCall (T0 + 3 * sec) bob (CallWithdrawFrom None (acct alice) canister None (10 * T)) None;
    EvCall (T0 + 4 * sec) alice (CallApprove None (acct bob) 0 None None None None None) None ]).
  set (w := the_world (history T0 (100 * T) demo_init evs)).
  set (ev := EvReply (T0 + 5 * sec) 0 (AnsDeposit (Err (CECallRejected None))) (10 * T)).
  exists w, (step w ev).1, (T0 + 5 * sec), 0, (AnsDeposit (Err (CECallRejected None))), (10 * T), (step w ev).2.
  split; [apply the_world_reachable; vm_compute; reflexivity|].
  split; [apply ev_okb_ok; vm_compute; reflexivity|]. split; [apply surjective_pairing|].
  split; [|split; vm_compute; reflexivity].
  exists (block_at w 4). split; [vm_compute; reflexivity|]. vm_compute. reflexivity.
Qed.

(** alice gives bob an allowance without expiry while bob's [withdraw_from], which
    used an older allowance expiring at [tE], is in flight; when that fails, all
    of the new allowance expires at [tE]. *)
Theorem C26_new_allowance_expires_refuted :
  exists (w w' : world) now id ans refund resp,
    reachable w /\ ev_ok w (EvReply now id ans refund)
    /\ step w (EvReply now id ans refund) = (w', resp)
    /\ icrc2_allowance (w_led w) now (acct alice) (acct bob) = (20 * T, None)
    /\ icrc2_allowance (w_led w') now (acct alice) (acct bob) = (30 * T - 2 * icrc1_fee, Some tE)
    /\ icrc2_allowance (w_led w') (tE + 1) (acct alice) (acct bob) = (0, None).
Proof.
  set (evs := [ EvCall (T0 + 1 * sec) carol (CallDeposit (100 * T) (acct alice) None) None;
    EvCall (T0 + 2 * sec) alice (CallApprove None (acct bob) (50 * T) None (Some tE) None None None) None;
    EvCall (T0 + 3 * sec) bob (CallWithdrawFrom None (acct alice) canister None (10 * T)) None;
    EvCall (T0 + 4 * sec) alice (CallApprove None (acct bob) (20 * T) None None None None None) None ]).
  set (w := the_world (history T0 (100 * T) demo_init evs)).
  set (ev := EvReply (T0 + 5 * sec) 0 (AnsDeposit (Err (CECallRejected None))) (10 * T)).
  exists w, (step w ev).1, (T0 + 5 * sec), 0, (AnsDeposit (Err (CECallRejected None))), (10 * T), (step w ev).2.
  split; [apply the_world_reachable; vm_compute; reflexivity|].
  split; [apply ev_okb_ok; vm_compute; reflexivity|]. split; [apply surjective_pairing|].
  repeat split; vm_compute; reflexivity.
Qed.

(** *** C27: the cycles behind the tokens depend on the minting canister

    If it reports more cycles as refunded than it sent back, the ledger mints
    tokens nothing backs. *)
Theorem C27_untruthful_answer_refuted :
  exists (w0 w : world) now args tr,
    init_world now (100 * T) args = Some w0 /\ steps w0 tr w
    /\ icrc1_total_supply (w_led w) + 100 * T > icrc1_total_supply (w_led w0) + (w_cycles w + w_used w).
Proof.
  set (evs := [ EvCall (T0 + 1 * sec) carol (CallDeposit (10 * T) (acct alice) None) None;
    EvCall (T0 + 2 * sec) alice (CallCreateCanister None None T None) None;
    EvReply (T0 + 3 * sec) 0 (AnsCmc (Ok (Err (CmcRefunded (5 * T))))) 0 ]).
  set (w0 := the_world (init_world T0 (100 * T) demo_init)).
  assert ((match run w0 evs with Some _ => true | None => false end) = true) as Hr by (vm_compute; reflexivity).
  destruct (run w0 evs) as [w|] eqn:E; [|done]. destruct (run_steps _ _ _ E) as [tr Htr].
  exists w0, w, T0, demo_init, tr. split; [vm_compute; reflexivity|]. split; [done|].
  assert (w = the_world (run w0 evs)) as -> by (by rewrite E). vm_compute. reflexivity.
Qed.

(** ** Cases that meet the hypotheses *)

(** C25: bob's [withdraw_from] in the demo history fails and is refunded. *)
Definition before_wf : world := the_world (history T0 (100 * T) demo_init (take 4 demo_events)).
Definition wf_call_ev : event := EvCall (T0 + 5 * sec) bob (CallWithdrawFrom None (acct alice) canister None T) None.
Definition wf_reply_ev : event :=
  EvReply (T0 + 7 * sec) 0 (AnsDeposit (Err (CECallRejected (Some RejDestinationInvalid)))) T.
Definition no_clashb `{Env} (t1 t2 : transaction) : bool :=
  match tx_hash_value t1, tx_hash_value t2 with
  | Some v1, Some v2 => negb (bool_decide (vhash v1 = vhash v2))
  | _, _ => true
  end.
Lemma no_clashb_ok `{Env} t1 t2 : no_clashb t1 t2 = true -> ~ hash_clash t1 t2.
Proof.
  unfold no_clashb. intros Hb (v1 & v2 & H1 & H2 & _ & Hv). rewrite H1, H2 in Hb.
  by rewrite bool_decide_eq_true_2 in Hb.
Qed.

Lemma no_clash_all `{Env} l t :
  forallb (fun b => no_clashb (b_tx b) t) l = true -> forall b, b ∈ l -> ~ hash_clash (b_tx b) t.
Proof.
  intros Hb b Hin. rewrite forallb_forall in Hb. apply no_clashb_ok, Hb. by apply elem_of_list_In.
Qed.

Example C25_case :
  let w := before_wf in
  let w1 := (step w wf_call_ev).1 in
  let w2 := (step w1 (EvCall (T0 + 6 * sec) alice (CallCreateCanister None (Some (T0 + 6 * sec)) T None) None)).1 in
  let x := acct bob in let from := acct alice in
  reachable w /\ ev_ok w wf_call_ev
  /\ (step w wf_call_ev).2 = RespPending 0 (OutDepositCycles canister T)
  /\ ev_ok w2 wf_reply_ev
  /\ icrc1_total_supply (w_led w2) + T < 2 ^ 128
  /\ to_key x <> to_key from /\ 2 * icrc1_fee < T
  /\ unexpired (T0 + 7 * sec) (used_expiry (w_led w) (T0 + 5 * sec) from (Some x))
  /\ (icrc2_allowance (w_led w2) (T0 + 7 * sec) from x).2 <> Some (T0 + 7 * sec)
  /\ (forall b, b ∈ blocks (w_led w2) ->
        ~ hash_clash (b_tx b) (restoring (w_led w2) (T0 + 7 * sec) from x (T - icrc1_fee)
                                 (used_expiry (w_led w) (T0 + 5 * sec) from (Some x)))).
Proof.
  cbv zeta. split; [apply the_world_reachable; vm_compute; reflexivity|].
  split; [apply ev_okb_ok; vm_compute; reflexivity|]. split; [vm_compute; reflexivity|].
  split; [apply ev_okb_ok; vm_compute; reflexivity|]. split; [vm_compute; reflexivity|].
  split; [vm_compute; congruence|]. split; [vm_compute; reflexivity|]. split; [vm_compute; reflexivity|].
  split; [vm_compute; congruence|].
  apply no_clash_all. vm_compute. reflexivity.
Qed.

(** C26: bob's [transfer_from] in the demo history lowers the allowance. *)
Example C26_case :
  let w := the_world (history T0 (100 * T) demo_init (take 3 demo_events)) in
  let ev := EvCall (T0 + 4 * sec) bob (CallTransferFrom None (acct alice) (acct carol) T None None None) None in
  reachable w /\ ev_ok w ev /\ w_clock (step w ev).1 <= T0 + 4 * sec
  /\ usable (w_led (step w ev).1) (T0 + 4 * sec) (acct alice) (acct bob)
     <> usable (w_led w) (T0 + 4 * sec) (acct alice) (acct bob).
Proof.
  cbv zeta. split; [apply the_world_reachable; vm_compute; reflexivity|].
  split; [apply ev_okb_ok; vm_compute; reflexivity|]. split; vm_compute; congruence.
Qed.

(** C27: the demo history is one of truthful events. *)
Definition truthfulb (w : world) (ev : event) : bool :=
  match ev with
  | EvReply _ id ans refund =>
      match w_pend w !! id with
      | Some p => match answer_returned (pending_amount p) ans with Some (n, _) => n <=? refund | None => true end
      | None => true
      end
  | _ => true
  end.
Lemma truthfulb_ok w ev : truthfulb w ev = true -> truthful w ev.
Proof.
  destruct ev; try done. simpl. intros Hb p n code Hp Hn. rewrite Hp, Hn in Hb. lia.
Qed.
Fixpoint run_truthful `{Env} (w : world) (evs : list event) : option world :=
  match evs with
  | [] => Some w
  | ev :: evs' => if ev_okb w ev && truthfulb w ev then run_truthful (step w ev).1 evs' else None
  end.
Lemma run_truthful_ok `{Env} w0 w evs w' :
  truthful_run w0 w -> run_truthful w evs = Some w' -> truthful_run w0 w'.
Proof.
  revert w. induction evs as [|ev evs IH]; intros w Hr; simpl; [by intros [= <-]|].
  destruct (ev_okb w ev && truthfulb w ev) eqn:E; [|done].
  apply andb_true_iff in E as [E1 E2]. apply IH.
  constructor; [done|by apply ev_okb_ok|by apply truthfulb_ok].
Qed.
Example C27_case : exists w0 w,
  init_world T0 (100 * T) demo_init = Some w0 /\ truthful_run w0 w
  /\ icrc1_total_supply (w_led w0) = 7 * T
  /\ 13 * T < icrc1_total_supply (w_led w) /\ w_cycles w < 110 * T.
Proof.
  set (w0 := the_world (init_world T0 (100 * T) demo_init)).
  assert ((match run_truthful w0 demo_events with Some _ => true | None => false end) = true) as Hr
    by (vm_compute; reflexivity).
  destruct (run_truthful w0 demo_events) as [w|] eqn:E; [|done].
  exists w0, w. split; [vm_compute; reflexivity|].
  split; [eapply run_truthful_ok; [constructor|exact E]|].
  assert (w = the_world (run_truthful w0 demo_events)) as -> by (by rewrite E).
  repeat split; vm_compute; reflexivity.
Qed.

Print Assumptions C23_failed_delivery_outcome.
Print Assumptions C24_failed_creation_outcome.
Print Assumptions C25_trap_only_in_corner.
Print Assumptions C25_refund_completes_partial.
Print Assumptions C25_refund_lost_refuted.
Print Assumptions C26_allowance_changes_partial.
Print Assumptions C26_revoked_allowance_returns_refuted.
Print Assumptions C26_new_allowance_expires_refuted.
Print Assumptions C27_tokens_are_backed.
Print Assumptions C27_untruthful_answer_refuted.
