(** * Outgoing calls can finish in any order

    C63 *)
From Verif Require Import Base Types Codec CodecFacts CodecProofs State Ledger Canister Effects Spec ApiSpec
  Inv Steps World CallFacts CallCases StepFacts AllowFacts RefundFacts AsyncFacts EventFacts
  PropertiesLog PropertiesDedup PropertiesCalls PropertiesAuth PropertiesAsync PropertiesRefund PropertiesExposure Demo.

Section WithEnv.
Context `{Env}.

(** ** Specification *)

(** The waiting call [q] was made on behalf of [p] from the account of [f]. *)
Definition on_behalf (q : pending) (f p : account) : Prop :=
  same_account (p_from q) f /\ exists x, p_spender q = Some x /\ same_account x p.

(** ** What an answer brings, independent of the state it meets *)

(** Does the answer give back an allowance, and how much? *)
Definition regain (now : N) (q : pending) (ans : answer) : option (account * N) :=
  match answer_returned (pending_amount q) ans, third_party (p_from q) (p_spender q) with
  | Some (n, _), Some x =>
      if decide (FEE < n - FEE /\ unexpired now (p_old q)) then Some (x, n - FEE - FEE) else None
  | _, _ => None
  end.
(** What the account gets *)
Definition gain (now : N) (q : pending) (ans : answer) : N :=
  match answer_returned (pending_amount q) ans with
  | Some (n, _) => n - FEE - (if regain now q ans then FEE else 0)
  | None => 0
  end.
Definition new_blocks (now : N) (q : pending) (ans : answer) : nat :=
  match answer_returned (pending_amount q) ans with
  | Some (n, _) => if decide (FEE < n) then if regain now q ans then 2 else 1 else 0
  | None => 0
  end.

Lemma resume_delta now p ans k s0 s s' rep :
  inv now s -> is_u64 now -> pend_ok s p -> ans_u128 ans ->
  resume now p ans = Some k -> commit s0 (k s) = (s', RespReply rep) ->
  (same_money s s' /\ little_returned p ans)
  \/ exists n code fb ab, answer_returned (pending_amount p) ans = Some (n, code) /\ FEE < n
     /\ (is_Some ab <-> is_Some (third_party (p_from p) (p_spender p)) /\ FEE < n - FEE /\ unexpired now (p_old p))
     /\ refund_effect s s' now (p_from p) (p_spender p) (n - FEE) (p_memo p) (p_old p) fb ab.
Proof.
  intros Hi Hu Hpo Hans Hk Hc.
  destruct p as [ep from to sp amount i old|ep from sp amount i old created arg];
    destruct ans as [r0|r0]; cbn [resume] in Hk; try done;
    match type of Hk with Some ?a = _ => assert (k = a) as -> by congruence end; clear Hk;
    cbn [p_from p_spender pending_amount p_old p_memo] in *.
  - destruct Hpo as (_ & _ & cr & Hf & Hsp & Ha & _ & _ & _ & Hold).
    destruct r0 as [[]|e].
    { left. split; [|by intros ? ?]. destruct ep; simpl in Hc; by injection Hc as <- <-. }
    destruct (withdraw_rest_eq ep from sp amount i old now e s0 s (inv_supply _ _ Hi)) as [x Hx].
    rewrite Hx in Hc. unfold wd_fail_rest in Hc. destruct (N.eqb_spec (amount - FEE) 0) as [E|E].
    { injection Hc as <- <-. left. split; [done|]. intros n code.
      cbn [answer_returned pending_amount]. intros [= <- _]. lia. }
    destruct (refund_outcome _ _ _ _ _ _ _) as [[[s2 fb] ab]|] eqn:Er; [|done]. injection Hc as <- <-.
    right. exists amount, (call_error_to_reject e), fb, ab.
    split; [done|]. split; [lia|].
    eapply refund_facts in Er as [H1 H2]; try done. unfold is_u128; lia.
  - destruct Hpo as (_ & Hf & Hsp & Ha & _ & _ & _ & Hold).
    destruct (create_rest_eq ep from sp amount i old created now r0 s0 s (inv_supply _ _ Hi)) as [x Hx].
    rewrite Hx in Hc. destruct (flat_create_result amount r0) as [c|[code n]] eqn:Ef.
    { injection Hc as <- <-. left. split.
      - unfold note_canister. by destruct (tx_hashes s !! _).
      - intros n code. destruct r0 as [[|[]]|]; simpl in *; done. }
    assert (answer_returned amount (AnsCmc r0) = Some (n, code)) as Hret.
    { destruct r0 as [[|[]]|]; simpl in *; rewrite ?reported_code_eq; congruence. }
    assert (is_u128 n) as Hn.
    { eapply wf_refund_n; [| |exact Ef]; [unfold is_u128; lia|].
      destruct r0 as [[|[]]|]; done. }
    unfold cr_fail_rest in Hc. destruct (N.eqb_spec (n - FEE) 0) as [E|E].
    { injection Hc as <- <-. left. split; [done|]. intros n' code'.
      cbn [pending_amount]. rewrite Hret. intros [= <- _]. lia. }
    destruct (refund_outcome _ _ _ _ _ _ _) as [[[s2 fb] ab]|] eqn:Er; [|done]. injection Hc as <- <-.
    right. exists n, code, fb, ab.
    split; [done|]. split; [lia|].
    eapply refund_facts in Er as [H1 H2]; try done. eapply is_u128_le; [|exact Hn]; lia.
Qed.

Definition allowance_after (now : N) (q : pending) (ans : answer) (s : state) (k : apkey) : option (N * option N) :=
  match regain now q ans with
  | Some (x, n) =>
      if decide (k = (to_key (p_from q), to_key x)) then
        let cur := usable s now (p_from q) x in
        Some (N.min (cur.1 + n) (2 ^ 128 - 1), match cur.2 with Some e => Some e | None => p_old q end)
      else log_allowance (blocks s) k
  | None => log_allowance (blocks s) k
  end.

Lemma regain_some now q ans x n :
  regain now q ans = Some (x, n) -> unexpired now (p_old q) /\ p_spender q = Some x.
Proof.
  unfold regain. destruct (answer_returned _ _) as [[m c]|]; [|done].
  destruct (third_party _ _) as [y|] eqn:E; [|done]. case_decide as Hd; [|done].
  intros [= <- <-]. split; [apply Hd|]. by apply third_party_Some in E as [? _].
Qed.

Lemma reply_delta w now id ans refund w' rep q :
  reachable w -> ev_ok w (EvReply now id ans refund) -> w_pend w !! id = Some q ->
  step w (EvReply now id ans refund) = (w', RespReply rep) ->
  w_pend w' = delete id (w_pend w) /\ w_cycles w' = w_cycles w + refund /\ w_clock w' = now
  /\ (forall a, icrc1_balance_of (w_led w') a = icrc1_balance_of (w_led w) a + if_acct a (p_from q) (gain now q ans))
  /\ icrc1_total_supply (w_led w') = icrc1_total_supply (w_led w) + gain now q ans
  /\ length (blocks (w_led w')) = (length (blocks (w_led w)) + new_blocks now q ans)%nat
  /\ (forall k, log_allowance (blocks (w_led w')) k = allowance_after now q ans (w_led w) k).
Proof.
  intros Hr Hev Hq Hst. destruct (reply_inv _ _ _ _ _ Hr Hev) as (Hi & Hu & Hans).
  destruct (reachable_winv _ Hr) as (_ & _ & Hwp). destruct (Hwp _ _ Hq) as [_ Hpo].
  cbn [step] in Hst. rewrite Hq in Hst. destruct (resume now q ans) as [k|] eqn:Ek; [|done].
  destruct (commit _ _) as [s' r] eqn:Ec. injection Hst as <- ->. cbn [w_pend w_cycles w_clock w_led].
  split; [done|]. split; [done|]. split; [done|].
  destruct (resume_delta _ _ _ _ _ _ _ _ Hi Hu Hpo (wf_answer_u128 _ Hans) Ek Ec)
    as [[(Hb1 & Hb2 & Hb3 & Hb4) Hlit]|(n & code & fb & ab & Hret & Hfee & Hab & Hre)].
  - assert (gain now q ans = 0 /\ new_blocks now q ans = 0%nat /\ regain now q ans = None) as (-> & -> & Eg).
    { unfold gain, new_blocks, regain. unfold little_returned in Hlit.
      destruct (answer_returned (pending_amount q) ans) as [[n code]|]; [|done].
      specialize (Hlit n code eq_refl). rewrite decide_False by lia.
      destruct (third_party _ _); [rewrite decide_False by lia|]; (split; [lia|done]). }
    split; [intros a; unfold icrc1_balance_of, balance_of, bal; rewrite Hb1; unfold if_acct; case_decide; lia|].
    split; [unfold icrc1_total_supply; rewrite Hb2; lia|]. split; [rewrite Hb4; lia|].
    intros k0. unfold allowance_after. by rewrite Eg, Hb4.
  - unfold refund_effect in Hre. destruct Hre as [_ Hre].
    destruct ab as [j|].
    + destruct (proj1 Hab ltac:(eauto)) as ([x Hx] & Hn & Hun).
      assert (regain now q ans = Some (x, n - FEE - FEE)) as Eg.
      { unfold regain. rewrite Hret, Hx. by rewrite decide_True. }
      unfold gain, new_blocks, allowance_after. rewrite Hret, Eg. rewrite decide_True by done.
      destruct Hre as (_ & Hbal & Hsup & y & Hy & (b1 & b2 & Hbs & _ & _ & Ht1 & Ht2) & _).
      apply third_party_Some in Hx as [Hx _]. assert (y = x) as -> by congruence.
      unfold icrc1_fee in *.
      split; [intros a; specialize (Hbal a); unfold if_acct in *; case_decide; lia|].
      split; [lia|]. split; [rewrite Hbs, app_length; simpl; lia|].
      intros k0. rewrite Hbs. unfold log_allowance. rewrite foldl_app. cbn [foldl].
      assert (forall cur, allowance_step k0 cur b1 = cur) as ->.
      { intros cur. unfold allowance_step, approved_by, spent_by. by rewrite Ht1. }
      unfold allowance_step, approved_by. rewrite Ht2. cbn [tx_op]. case_decide; [|done].
      assert (FEE = 100000000) as EF by reflexivity.
      destruct (N.eqb_spec (N.min ((usable (w_led w) now (p_from q) x).1 + (n - FEE - FEE)) (2 ^ 128 - 1)) 0) as [E0|]; [|done].
      exfalso. change (2 ^ 128) with U128_MOD in E0. unfold U128_MOD in E0. lia.
    + assert (regain now q ans = None) as Eg.
      { unfold regain. rewrite Hret. destruct (third_party _ _) eqn:Ex; [|done]. rewrite decide_False; [done|].
        intros [H1 H2]. destruct (proj2 Hab) as [? ?]; [split; [eauto|done]|done]. }
      unfold gain, new_blocks, allowance_after. rewrite Hret, Eg. rewrite decide_True by done.
      destruct Hre as (Hbal & Hsup & (b & Hbs & _ & Ht) & _).
      split; [intros a; rewrite (Hbal a); unfold if_acct; case_decide; lia|].
      split; [lia|]. split; [rewrite Hbs, app_length; simpl; lia|].
      intros k0. rewrite Hbs. unfold log_allowance. rewrite foldl_app. cbn [foldl].
      unfold allowance_step, approved_by, spent_by. by rewrite Ht.
Qed.

(** ** C63 *)

(** Two waiting calls get their answers at the same time, in either order. Whatever
    the answers are and whichever accounts the calls concern, as long as no
    call-back traps, the same balances, supply, cycles, waiting calls, number of
    blocks and spendable amounts result. The expiry of an allowance can depend on
    the order only if both calls were made on behalf of the same spender from the
    same account. *)
Theorem C63_order_of_answers w now id1 a1 r1 id2 a2 r2 q1 q2 w1 x1 w12 x2 w2 y2 w21 y1 :
  reachable w -> id1 <> id2 -> w_pend w !! id1 = Some q1 -> w_pend w !! id2 = Some q2 ->
  ev_ok w (EvReply now id1 a1 r1) -> ev_ok w (EvReply now id2 a2 r2) ->
  step w (EvReply now id1 a1 r1) = (w1, RespReply x1) ->
  step w1 (EvReply now id2 a2 r2) = (w12, RespReply x2) ->
  step w (EvReply now id2 a2 r2) = (w2, RespReply y2) ->
  step w2 (EvReply now id1 a1 r1) = (w21, RespReply y1) ->
  (forall a, icrc1_balance_of (w_led w12) a = icrc1_balance_of (w_led w21) a)
  /\ icrc1_total_supply (w_led w12) = icrc1_total_supply (w_led w21)
  /\ w_cycles w12 = w_cycles w21 /\ w_pend w12 = w_pend w21
  /\ length (blocks (w_led w12)) = length (blocks (w_led w21))
  /\ (forall f p, (usable (w_led w12) now f p).1 = (usable (w_led w21) now f p).1)
  /\ (forall tm f p, now <= tm -> ~ (on_behalf q1 f p /\ on_behalf q2 f p) ->
        usable (w_led w12) tm f p = usable (w_led w21) tm f p).
Proof.
  intros Hr Hne Hq1 Hq2 Hev1 Hev2 Hs1 Hs12 Hs2 Hs21.
  destruct (reply_delta _ _ _ _ _ _ _ _ Hr Hev1 Hq1 Hs1) as (P1 & C1 & K1 & B1 & S1 & L1 & A1).
  destruct (reply_delta _ _ _ _ _ _ _ _ Hr Hev2 Hq2 Hs2) as (P2 & C2 & K2 & B2 & S2 & L2 & A2).
  assert (reachable w1) as Hr1 by (replace w1 with (step w (EvReply now id1 a1 r1)).1 by (by rewrite Hs1); by constructor).
  assert (reachable w2) as Hr2 by (replace w2 with (step w (EvReply now id2 a2 r2)).1 by (by rewrite Hs2); by constructor).
  assert (w_pend w1 !! id2 = Some q2) as Hq12 by (by rewrite P1, lookup_delete_ne).
  assert (w_pend w2 !! id1 = Some q1) as Hq21 by (by rewrite P2, lookup_delete_ne).
  assert (ev_ok w1 (EvReply now id2 a2 r2)) as Hev12.
  { destruct Hev2 as ([_ Hu] & Ha & Hrf). rewrite Hq2 in Hrf. split; [split; [rewrite K1; lia|done]|].
    split; [done|]. by rewrite Hq12. }
  assert (ev_ok w2 (EvReply now id1 a1 r1)) as Hev21.
  { destruct Hev1 as ([_ Hu] & Ha & Hrf). rewrite Hq1 in Hrf. split; [split; [rewrite K2; lia|done]|].
    split; [done|]. by rewrite Hq21. }
  destruct (reply_delta _ _ _ _ _ _ _ _ Hr1 Hev12 Hq12 Hs12) as (P12 & C12 & K12 & B12 & S12 & L12 & A12).
  destruct (reply_delta _ _ _ _ _ _ _ _ Hr2 Hev21 Hq21 Hs21) as (P21 & C21 & K21 & B21 & S21 & L21 & A21).
  assert (reachable w12) as Hr12 by (replace w12 with (step w1 (EvReply now id2 a2 r2)).1 by (by rewrite Hs12); by constructor).
  assert (reachable w21) as Hr21 by (replace w21 with (step w2 (EvReply now id1 a1 r1)).1 by (by rewrite Hs21); by constructor).
  split; [intros a; rewrite B12, B21, B1, B2; lia|].
  split; [lia|]. split; [lia|]. split; [by rewrite P12, P21, P1, P2, delete_commute|]. split; [lia|].
  assert (w_clock w <= now) as Hclk by (by destruct Hev1 as ([? _] & _)).
  assert (forall tm f p, now <= tm -> usable (w_led w12) tm f p = live_allowance (blocks (w_led w12)) (to_key f, to_key p) tm) as U12
    by (intros; apply usable_live; [done|lia]).
  assert (forall tm f p, now <= tm -> usable (w_led w21) tm f p = live_allowance (blocks (w_led w21)) (to_key f, to_key p) tm) as U21
    by (intros; apply usable_live; [done|lia]).
  (* what the second answer meets *)
  assert (forall f p, usable (w_led w1) now f p = live_allowance (blocks (w_led w1)) (to_key f, to_key p) now) as U1
    by (intros; apply usable_live; [done|lia]).
  assert (forall f p, usable (w_led w2) now f p = live_allowance (blocks (w_led w2)) (to_key f, to_key p) now) as U2
    by (intros; apply usable_live; [done|lia]).
  assert (forall f p, usable (w_led w) now f p = live_allowance (blocks (w_led w)) (to_key f, to_key p) now) as U0
    by (intros; apply usable_live; [done|lia]).
  set (pair q x := (to_key (p_from q), to_key x) : apkey).
  (* the log's view *)
  assert (forall k, (forall z1 m1 z2 m2, regain now q1 a1 = Some (z1, m1) -> regain now q2 a2 = Some (z2, m2) ->
              ~ (k = pair q1 z1 /\ k = pair q2 z2)) ->
            log_allowance (blocks (w_led w12)) k = log_allowance (blocks (w_led w21)) k) as Hlog.
  { intros k Hk. rewrite A12, A21. unfold allowance_after.
    destruct (regain now q2 a2) as [[z2 m2]|] eqn:G2; destruct (regain now q1 a1) as [[z1 m1]|] eqn:G1.
    - specialize (Hk z1 m1 z2 m2 eq_refl eq_refl). unfold pair in Hk.
      rewrite U1, U2. unfold live_allowance. rewrite A1, A2, (A1 k), (A2 k). unfold allowance_after. rewrite G1, G2.
      destruct (decide (k = (to_key (p_from q2), to_key z2))) as [E2|E2];
        destruct (decide (k = (to_key (p_from q1), to_key z1))) as [E1|E1]; try done.
      + by destruct Hk.
      + subst k. rewrite (decide_False (P := (to_key (p_from q2), to_key z2) = (to_key (p_from q1), to_key z1))) by done.
        rewrite U0. done.
      + subst k. rewrite (decide_False (P := (to_key (p_from q1), to_key z1) = (to_key (p_from q2), to_key z2))) by done.
        rewrite U0. done.
    - rewrite U1. unfold live_allowance. rewrite A1, (A1 k), (A2 k). unfold allowance_after. rewrite G1, G2.
      rewrite U0. done.
    - rewrite U2. unfold live_allowance. rewrite A2, (A1 k), (A2 k). unfold allowance_after. rewrite G1, G2.
      rewrite U0. done.
    - rewrite (A1 k), (A2 k). unfold allowance_after. by rewrite G1, G2. }
  split.
  - intros f p. set (k := (to_key f, to_key p) : apkey).
    rewrite U12, U21 by lia. fold k. unfold live_allowance.
    destruct (regain now q1 a1) as [[z1 m1]|] eqn:G1; [|rewrite (Hlog k); [done|congruence]].
    destruct (regain now q2 a2) as [[z2 m2]|] eqn:G2; [|rewrite (Hlog k); [done|congruence]].
    destruct (decide (k = pair q1 z1)) as [E1|E1]; [|rewrite (Hlog k); [done|intros ? ? ? ? [= <- <-] _ [? _]; done]].
    destruct (decide (k = pair q2 z2)) as [E2|E2]; [|rewrite (Hlog k); [done|intros ? ? ? ? _ [= <- <-] [_ ?]; done]].
    destruct (regain_some _ _ _ _ _ G1) as [X1 _]. destruct (regain_some _ _ _ _ _ G2) as [X2 _].
    rewrite A12, A21. unfold allowance_after. rewrite G1, G2.
    fold (pair q1 z1) (pair q2 z2). rewrite (decide_True _ _ E1), (decide_True _ _ E2).
    rewrite U1, U2. fold (pair q1 z1) (pair q2 z2). rewrite <- E1, <- E2. unfold live_allowance.
    rewrite A1, A2. unfold allowance_after. rewrite G1, G2. fold (pair q1 z1) (pair q2 z2).
    rewrite (decide_True _ _ E1), (decide_True _ _ E2). rewrite !U0. fold (pair q1 z1) (pair q2 z2).
    rewrite <- E1, <- E2.
    assert (unexpired now (live_allowance (blocks (w_led w)) k now).2) as Xc.
    { unfold live_allowance. destruct (log_allowance _ k) as [[c e]|]; [|done]. by case_decide. }
    destruct (live_allowance (blocks (w_led w)) k now) as [c e]. cbn [fst snd] in *.
    destruct e as [e|].
    + rewrite !(decide_True _ _ Xc). cbn [fst snd]. rewrite ?(decide_True _ _ Xc). cbn [fst]. lia.
    + rewrite (decide_True _ _ X1), (decide_True _ _ X2). cbn [fst snd].
      destruct (p_old q1) as [o1|] eqn:O1; destruct (p_old q2) as [o2|] eqn:O2;
        rewrite ?(decide_True _ _ X1), ?(decide_True _ _ X2); cbn [fst]; try lia.
      all: rewrite ?decide_True by done; cbn [fst]; lia.
  - intros tm f p Htm Hno. rewrite U12, U21 by done. unfold live_allowance. rewrite Hlog; [done|].
    intros z1 m1 z2 m2 G1 G2 [E1 E2]. apply Hno. unfold pair in *.
    destruct (regain_some _ _ _ _ _ G1) as [_ Y1]. destruct (regain_some _ _ _ _ _ G2) as [_ Y2].
    assert (to_key f = to_key (p_from q1) /\ to_key p = to_key z1) as [E3 E4] by (by apply pair_equal_spec).
    assert (to_key f = to_key (p_from q2) /\ to_key p = to_key z2) as [E5 E6] by (by apply pair_equal_spec).
    split; (split; [by apply key_same|eexists; split; [done|by apply key_same]]).
Qed.

End WithEnv.

(** ** A case, in which the expiry does depend on the order

    Alice approves Bob until [T0 + 500 s]; Bob uses that up in a withdrawal. Alice
    approves Bob until [T0 + 900 s]; Bob uses that up in another withdrawal. Both fail. *)
Definition two_waiting : world := the_world (history T0 (100 * T) demo_init [
  EvCall T0 canister (CallDeposit (10 * T) (acct alice) None) None;
  EvCall (T0 + sec) alice (CallApprove None (acct bob) (T + FEE) None (Some (T0 + 500 * sec)) None None None) None;
  EvCall (T0 + 2 * sec) bob (CallWithdrawFrom None (acct alice) canister None T) None;
  EvCall (T0 + 3 * sec) alice (CallApprove None (acct bob) (3 * T + FEE) None (Some (T0 + 900 * sec)) None None None) None;
  EvCall (T0 + 4 * sec) bob (CallWithdrawFrom None (acct alice) canister None (3 * T)) None ]).
Definition both_fail : N := T0 + 10 * sec.
Definition fail1 : event := EvReply both_fail 0 (AnsDeposit (Err (CECallRejected None))) T.
Definition fail2 : event := EvReply both_fail 1 (AnsDeposit (Err (CECallRejected None))) (3 * T).
Definition answered (r : response) : bool := match r with RespReply _ => true | _ => false end.
Example C63_case :
  reachable two_waiting
  /\ ev_ok two_waiting fail1 /\ ev_ok two_waiting fail2
  /\ is_Some (w_pend two_waiting !! 0) /\ is_Some (w_pend two_waiting !! 1)
  /\ let w1 := (step two_waiting fail1).1 in let w2 := (step two_waiting fail2).1 in
     let w12 := (step w1 fail2).1 in let w21 := (step w2 fail1).1 in
     forallb answered [(step two_waiting fail1).2; (step w1 fail2).2; (step two_waiting fail2).2; (step w2 fail1).2] = true
  /\ (icrc1_balance_of (w_led w12) (acct alice), icrc1_balance_of (w_led w21) (acct alice))
     = (10 * T - 9 * FEE, 10 * T - 9 * FEE)
  /\ usable (w_led two_waiting) both_fail (acct alice) (acct bob) = (0, None)
  /\ usable (w_led w12) both_fail (acct alice) (acct bob) = (4 * T - 4 * FEE, Some (T0 + 500 * sec))
  /\ usable (w_led w21) both_fail (acct alice) (acct bob) = (4 * T - 4 * FEE, Some (T0 + 900 * sec)).
Proof.
  split; [apply the_world_reachable; vm_compute; reflexivity|].
  split; [apply ev_okb_ok; vm_compute; reflexivity|].
  split; [apply ev_okb_ok; vm_compute; reflexivity|].
  split; [eexists; vm_compute; reflexivity|]. split; [eexists; vm_compute; reflexivity|].
  split; [vm_compute; reflexivity|]. split; [vm_compute; reflexivity|].
  split; [vm_compute; reflexivity|]. split; vm_compute; reflexivity.
Qed.

Print Assumptions C63_order_of_answers.
