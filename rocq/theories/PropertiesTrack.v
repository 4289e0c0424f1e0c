(** * Allowances follow from the calls and their answers

    C84 *)
From Verif Require Import Base Types Codec CodecFacts CodecProofs State Ledger Canister Effects Spec ApiSpec
  Inv Steps World CallFacts CallCases StepFacts AllowFacts RefundFacts AsyncFacts EventFacts CreateFacts
  PropertiesLog PropertiesQuery PropertiesExposure PropertiesHistory PropertiesReceipts PropertiesBooks Demo.

(** ** Specification *)

(** What somebody who sees the calls and the answers writes down about one pair of an
    owner's and a spender's account: the allowance, if any, with its expiry, and for
    each call that draws on it and waits for its outgoing call how much it sends away
    and when the allowance it used expires. *)
Record track := Track {
  t_allowance : option (N * option N);
  t_waiting : gmap N (N * option N)
}.

(** What of [cur] can be used at [now] *)
Definition live_at (now : N) (cur : option (N * option N)) : N * option N :=
  match cur with
  | Some (a, x) => if decide (unexpired now x) then (a, x) else (0, None)
  | None => (0, None)
  end.
Definition allowance_of (a : N) (x : option N) : option (N * option N) :=
  if a =? 0 then None else Some (a, x).

(** How much the accepted call [c] of [caller] draws from the allowance of the pair:
    the amount and the fee if the caller spends for somebody else. *)
Definition draws (own sp : account) (caller : principal) (c : call) : option N :=
  let from_to (from : account) (sub : option subaccount) (amount : N) :=
    if decide (to_key from = to_key own /\ to_key (Acct caller sub) = to_key sp /\ to_key sp <> to_key own)
    then Some (amount + icrc1_fee) else None in
  match c with
  | CallTransferFrom sub from _ amount _ _ _ => from_to from sub amount
  | CallWithdrawFrom sub from _ _ amount => from_to from sub amount
  | CallCreateCanisterFrom from sub _ amount _ => from_to from sub amount
  | _ => None
  end.
(** The allowance after the accepted call *)
Definition after_call (own sp : account) (caller : principal) (c : call) (cur : option (N * option N))
  : option (N * option N) :=
  match c with
  | CallApprove sub x amount _ expires _ _ _ =>
      if decide (to_key (Acct caller sub) = to_key own /\ to_key x = to_key sp)
      then allowance_of (N.min amount (2 ^ 128 - 1)) expires else cur
  | _ =>
      match draws own sp caller c, cur with
      | Some n, Some (a, x) => allowance_of (a - n) x
      | _, _ => cur
      end
  end.
(** The allowance after it was given back for an outgoing call from which [n] cycles
    came back: two fees less than that on top of what can be used, with the expiry of
    what can be used, or else with [old]. *)
Definition after_return (now n : N) (old : option N) (cur : option (N * option N))
  : option (N * option N) :=
  let (a, x) := live_at now cur in
  allowance_of (N.min (a + (n - 2 * icrc1_fee)) (2 ^ 128 - 1)) (match x with Some e => Some e | None => old end).

Definition tracked_step (own sp : account) (t : track) (er : event * response) : track :=
  match er.1 with
  | EvCall now caller c _ =>
      if rejected er.2 then t else
      let old := (live_at now (t_allowance t)).2 in
      let cur := after_call own sp caller c (t_allowance t) in
      match draws own sp caller c with
      | Some n =>
          Track (if approval_block er.2 then after_return now (n - icrc1_fee) old cur else cur)
                (match er.2 with
                 | RespPending id _ => <[id := (n - icrc1_fee, old)]> (t_waiting t)
                 | _ => t_waiting t
                 end)
      | None => Track cur (t_waiting t)
      end
  | EvReply now id _ _ =>
      match t_waiting t !! id, approval_block er.2 with
      | Some (amount, old), Some _ =>
          Track (after_return now (default 0 (came_back er.1 amount)) old (t_allowance t)) (t_waiting t)
      | _, _ => t
      end
  | _ => t
  end.
Definition tracked (own sp : account) (tr : list (event * response)) : track :=
  foldl (tracked_step own sp) (Track None ∅) tr.

Section WithEnv.
Context `{Env}.

(** ** Proofs *)

Lemma live_allowance_at bs k now : live_allowance bs k now = live_at now (log_allowance bs k).
Proof. done. Qed.

Lemma draws_spend own sp caller c n :
  draws own sp caller c = Some n -> op_spend (tx_op (requested caller c)) = Some ((to_key own, to_key sp), n).
Proof.
  assert (forall from x, to_key from = to_key own /\ to_key x = to_key sp /\ to_key sp <> to_key own ->
    third_party from (Some x) = Some x /\ approval_key from x = (to_key own, to_key sp)) as Ht.
  { intros from x (H1 & H2 & H3). split; [|unfold approval_key; congruence].
    apply third_party_Some. split; [done|congruence]. }
  destruct c; cbn [draws]; try done; case_decide as Hd; try done; intros [= <-];
    destruct (Ht _ _ Hd) as [H1 H2]; cbn [requested tx_op op_spend]; rewrite H1, H2; done.
Qed.

Lemma call_tracked now own sp caller c s :
  inv now s -> is_u64 now -> tx_ok now (requested caller c) s ->
  log_allowance (blocks (recorded now (requested caller c) s)) (to_key own, to_key sp)
  = after_call own sp caller c (log_allowance (blocks s) (to_key own, to_key sp)).
Proof.
  intros Hi Hu Hok. rewrite recorded_blocks. unfold log_allowance. rewrite foldl_app. simpl.
  fold (log_allowance (blocks s) (to_key own, to_key sp)).
  generalize (log_allowance (blocks s) (to_key own, to_key sp)) as cur. intros cur.
  assert (fee_of (mk_block now (requested caller c) s) = op_fee (tx_op (requested caller c))) as Hfee.
  { apply fee_of_mk. by destruct Hok as (_ & ? & _). }
  unfold allowance_step, approved_by, spent_by. rewrite Hfee. cbn [mk_block b_tx].
  assert (forall from x n,
    match (if decide (to_key x = to_key from) then None else Some ((to_key from, to_key x), n)) with
    | Some (k', n) =>
        if decide ((to_key own, to_key sp) = k') then
          match cur with
          | Some (a, x) => if (a - n =? 0)%N then None else Some ((a - n)%N, x)
          | None => None
          end
        else cur
    | None => cur
    end
    = match (if decide (to_key from = to_key own /\ to_key x = to_key sp /\ to_key sp <> to_key own)
             then Some n else None), cur with
      | Some n, Some (a, x) => allowance_of (a - n) x
      | _, _ => cur
      end) as Hs.
  { intros from x n. destruct (decide (to_key x = to_key from)) as [E|E].
    - rewrite decide_False; [done|]. intros (? & ? & ?). congruence.
    - destruct (decide ((to_key own, to_key sp) = (to_key from, to_key x))) as [E2|E2].
      + assert (to_key own = to_key from) as E3 by congruence. assert (to_key sp = to_key x) as E4 by congruence.
        rewrite decide_True by (rewrite E3, E4; done). by destruct cur as [[]|].
      + rewrite decide_False; [done|]. intros (? & ? & ?). congruence. }
  destruct c; cbn [requested tx_op op_fee after_call draws]; try done; try apply Hs.
  destruct (decide (to_key (Acct caller _) = _ /\ _)) as [[E1 E2]|E].
  - rewrite decide_True by congruence. done.
  - rewrite decide_False; [done|]. intros E1. apply E. split; congruence.
Qed.

(** The expiry noted for a call that draws on the pair is the one the ledger keeps. *)
Lemma drawn_old now own sp caller c s n :
  inv now s -> is_u64 now -> tx_ok now (requested caller c) s -> draws own sp caller c = Some n ->
  (icrc2_allowance s now own sp).2 = (live_at now (log_allowance (blocks s) (to_key own, to_key sp))).2.
Proof.
  intros Hi Hu Hok Hd%draws_spend.
  destruct (recorded_spend now _ s own sp n now Hi Hu Hok (N.le_refl _) Hd) as (a & e & Ha & Hun & _).
  rewrite <- live_allowance_at, <- (usable_live_inv now) by done. unfold usable. rewrite Ha. by rewrite decide_True.
Qed.

(** What a waiting call is noted as *)
Definition noted (own sp : account) (p : pending) : option (N * option N) :=
  match p_spender p with
  | Some x =>
      if decide (to_key (p_from p) = to_key own /\ to_key x = to_key sp /\ to_key sp <> to_key own)
      then Some (pending_amount p, p_old p) else None
  | None => None
  end.

Lemma pending_noted now own sp caller c s p :
  inv now s -> is_u64 now -> tx_ok now (requested caller c) s -> pending_of now caller c s = Some p ->
  noted own sp p = (fun n => (n - icrc1_fee, (live_at now (log_allowance (blocks s) (to_key own, to_key sp))).2))
                     <$> draws own sp caller c.
Proof.
  intros Hi Hu Hok Hp. pose proof (pending_outgoing _ _ _ _ _ Hp) as Ho.
  destruct (outgoing_pending now _ _ s _ _ _ Ho) as (p' & Hp' & Hf & Hsp & Ha & _ & Hold).
  assert (p' = p) as -> by congruence. clear Hp' Hf Hsp Ha.
  unfold noted. rewrite Hold.
  destruct (draws own sp caller c) as [n|] eqn:Ed; simpl.
  - pose proof (drawn_old _ _ _ _ _ _ _ Hi Hu Hok Ed) as Hx.
    assert (exists x, p_spender p = Some x
      /\ (to_key (p_from p) = to_key own /\ to_key x = to_key sp /\ to_key sp <> to_key own)
      /\ n = pending_amount p + icrc1_fee) as (x & Ex & Hk & ->).
    { destruct c; simpl in Ho, Ed; try done; case_decide as Hd; try done; injection Ed as <-;
        injection Ho as <- <- <-; eauto. }
    rewrite Ex, decide_True by done. unfold used_expiry. destruct Hk as (H1 & H2 & H3).
    rewrite decide_False by congruence.
    rewrite <- Hx. unfold icrc2_allowance, allowance, approval_key. rewrite H1, H2.
    by replace (pending_amount p + icrc1_fee - icrc1_fee) with (pending_amount p) by lia.
  - destruct (p_spender p) as [x|] eqn:Ex; [|done].
    destruct c; simpl in Ho, Ed; try done; injection Ho as <- <- <-; case_decide as Hd; try done;
      by rewrite decide_False.
Qed.

(** The end of an outgoing call *)
Lemma ended_tracked own sp now s s' p ans r :
  inv now s -> ended s s' now p ans r -> ((exists t, r = RespTrap t) -> s' = s) ->
  log_allowance (blocks s') (to_key own, to_key sp)
  = match noted own sp p, approval_block r with
    | Some (amount, old), Some _ =>
        after_return now (default 0 (fst <$> answer_returned amount ans)) old
          (log_allowance (blocks s) (to_key own, to_key sp))
    | _, _ => log_allowance (blocks s) (to_key own, to_key sp)
    end.
Proof.
  intros Hi ([_ Hthird] & _ & [(E1 & E2 & E3)|(n & code & fb & Hn & Hlt & E1 & He)]) Hsame.
  - rewrite E2. assert (blocks s' = blocks s) as ->.
    { destruct E3 as [(_ & _ & _ & E3)|E3]; [done|by rewrite (Hsame E3)]. }
    by destruct (noted own sp p) as [[]|].
  - destruct (approval_block r) as [j|] eqn:Eab.
    + destruct (Hthird j eq_refl) as (x & Ex & Hne).
      destruct He as (_ & _ & _ & _ & x' & Ex' & (b1 & b2 & Hb & _ & _ & T1 & T2) & _).
      assert (x' = x) as -> by congruence. clear Ex'.
      rewrite Hb. unfold log_allowance. rewrite foldl_app. simpl.
      fold (log_allowance (blocks s) (to_key own, to_key sp)).
      unfold allowance_step at 2. unfold approved_by, spent_by. rewrite T1. cbn [tx_op].
      unfold allowance_step, approved_by. rewrite T2. cbn [tx_op].
      unfold noted. rewrite Ex.
      destruct (decide (to_key (p_from p) = to_key own /\ to_key x = to_key sp /\ to_key sp <> to_key own))
        as [(H1 & H2 & H3)|Hd].
      * rewrite decide_True by congruence. rewrite Hn. cbn [fst fmap option_fmap option_map default].
        rewrite (usable_live_inv now) by done. rewrite H1, H2. rewrite live_allowance_at. unfold after_return.
        destruct (live_at now _) as [a e]. cbn [fst snd]. unfold allowance_of.
        replace (n - FEE - icrc1_fee) with (n - 2 * icrc1_fee) by (unfold icrc1_fee in *; lia). done.
      * rewrite decide_False; [done|]. intros E. apply Hd.
        assert (to_key own = to_key (p_from p)) as E3 by congruence. assert (to_key sp = to_key x) as E4 by congruence.
        rewrite E3, E4. done.
    + destruct He as (_ & _ & _ & (b & Hb & _ & T) & _). rewrite Hb. unfold log_allowance. rewrite foldl_app. simpl.
      fold (log_allowance (blocks s) (to_key own, to_key sp)).
      unfold allowance_step, approved_by, spent_by. rewrite T. cbn [tx_op]. by destruct (noted own sp p) as [[]|].
Qed.

Definition tracked_ok (own sp : account) (t : track) (w : world) : Prop :=
  t_allowance t = log_allowance (blocks (w_led w)) (to_key own, to_key sp)
  /\ (forall id x, t_waiting t !! id = Some x -> id < w_next w)
  /\ (forall id p, w_pend w !! id = Some p -> t_waiting t !! id = noted own sp p).

Lemma tracked_ok_step own sp t w ev w' resp :
  reachable w -> ev_ok w ev -> step w ev = (w', resp) ->
  tracked_ok own sp t w -> tracked_ok own sp (tracked_step own sp t (ev, resp)) w'.
Proof.
  intros Hr Hev Hst (Ha & Hw & Hp).
  destruct (reachable_winv _ Hr) as (_ & _ & Hwp).
  destruct ev as [now caller c sync|now id ans refund|now args|n|n|now id refund]; cbn [tracked_step fst snd].
  - destruct (call_inv _ _ _ _ _ Hr Hev) as (Hi & Hu & _).
    destruct (rejected resp) eqn:Erj.
    { destruct (step_rejected _ _ _ _ _ _ _ Hr Hev Hst Erj) as (E1 & E2 & _).
      pose proof (step_next w (EvCall now caller c sync)) as Hnx. rewrite Hst in Hnx. cbn [fst] in Hnx.
      split; [by rewrite E1|]. split; [intros i x Hx; specialize (Hw i x Hx); lia|]. by rewrite E2. }
    destruct (step_accepted _ _ _ _ _ _ _ Hr Hev Hst Erj) as (Hok & r & Hacc & Hm).
    pose proof (call_tracked now own sp _ _ _ Hi Hu Hok) as Hct. rewrite <- Ha in Hct.
    inversion Hacc as [s1 resp1 E1 Hd E2|s1 p E1 Hpd Hsf Hpo E2|s1 p e s2 resp1 E1 Hpd Hsf Hpo _ Hpr Hsr E2]; subst.
    + destruct Hm as [<- Hw']. rewrite <- E1 in Hct.
      assert (approval_block resp = None /\ forall i o, resp <> RespPending i o) as [Hab Hnp].
      { destruct c; simpl in Hd; try done; injection Hd as <-; done. }
      rewrite Hab.
      destruct (draws own sp caller c) as [n|].
      * destruct resp as [?|?|i o|]; [| |by destruct (Hnp i o)|];
          (split; [symmetry; exact Hct|rewrite Hw'; cbn [w_next w_pend t_waiting]; done]).
      * split; [symmetry; exact Hct|]. rewrite Hw'. cbn [w_next w_pend t_waiting]. done.
    + destruct Hm as [-> Hw']. rewrite <- E1 in Hct. cbn [approval_block].
      pose proof (pending_noted now own sp _ _ _ _ Hi Hu Hok Hpd) as Hn. rewrite <- Ha in Hn.
      destruct (draws own sp caller c) as [n|]; simpl in Hn.
      * split; [symmetry; exact Hct|]. rewrite Hw'. cbn [w_next w_pend t_waiting]. split.
        -- intros i x [[<- _]|[_ Hx]]%lookup_insert_Some; [lia|]. specialize (Hw i x Hx). lia.
        -- intros i q [[<- <-]|[Hne Hq]]%lookup_insert_Some; [by rewrite lookup_insert|].
           rewrite lookup_insert_ne by done. by apply Hp.
      * split; [symmetry; exact Hct|]. rewrite Hw'. cbn [w_next w_pend t_waiting]. split.
        -- intros i x Hx. specialize (Hw i x Hx). lia.
        -- intros i q [[<- <-]|[Hne Hq]]%lookup_insert_Some; [|by apply Hp].
           rewrite Hn. destruct (t_waiting t !! w_next w) as [x|] eqn:Ex; [|done].
           specialize (Hw _ _ Ex). lia.
    + destruct Hm as [<- Hw']. unfold sync_rest in Hsr.
      destruct (sync_answer_resume now p e) as [k Hk]. rewrite Hk in Hsr.
      pose proof (pending_noted now own sp _ _ _ _ Hi Hu Hok Hpd) as Hn. rewrite <- Ha in Hn.
      set (s1 := recorded now (requested caller c) (w_led w)) in *.
      destruct (commit (w_led w) (k s1)) as [s2 r2] eqn:Ec. injection Hsr as -> ->.
      assert (inv now s1) as Hi1 by (by apply recorded_inv).
      pose proof (resume_ended _ _ _ _ _ _ _ _ Hi1 Hu Hpo (sync_answer_u128 p e) Hk Ec) as Hend.
      assert (forall i o, resp <> RespPending i o) as Hnp.
      { intros i o ->. by eapply accepted_done_answered. }
      pose proof (ended_tracked own sp _ _ _ _ _ _ Hi1 Hend ltac:(intros [t' ->]; done)) as Het.
      rewrite Hct, Hn in Het.
      assert (forall n old, Some (n, old) = noted own sp p ->
        fst <$> answer_returned n (sync_answer p e) = Some n) as Hret.
      { intros n old E. unfold noted in E. destruct (p_spender p); [|done]. case_decide; [|done].
        injection E as -> _. by destruct p. }
      destruct (draws own sp caller c) as [n|]; simpl in Het, Hn.
      * rewrite (Hret _ _ (eq_sym Hn)) in Het. cbn [default] in Het.
        destruct resp as [?|?|i o|]; [| |by destruct (Hnp i o)|];
          (split; [symmetry; cbn [t_allowance]; rewrite Het; by destruct (approval_block _)
                  |rewrite Hw'; cbn [w_next w_pend t_waiting]; done]).
      * split; [symmetry; exact Het|]. rewrite Hw'. cbn [w_next w_pend t_waiting]. done.
  - cbn [step] in Hst. destruct (w_pend w !! id) as [p|] eqn:Ep.
    2: { injection Hst as <- <-. simpl. by destruct (t_waiting t !! id) as [[]|]. }
    destruct (resume now p ans) as [k|] eqn:Ek.
    2: { injection Hst as <- <-. simpl. by destruct (t_waiting t !! id) as [[]|]. }
    destruct (commit _ _) as [s' r] eqn:Ec. injection Hst as <- <-.
    destruct (reply_inv _ _ _ _ _ Hr Hev) as (Hi & Hu & Hans). destruct (Hwp _ _ Ep) as [_ Hpo].
    pose proof (resume_ended _ _ _ _ _ _ _ _ Hi Hu Hpo (wf_answer_u128 _ Hans) Ek Ec) as Hend.
    assert ((exists t, r = RespTrap t) -> s' = w_led w) as Htrap.
    { intros [t' ->].
      destruct (resume_outcome _ _ _ _ _ _ _ _ Hi Hu Hpo (wf_answer_u128 _ Hans) Ek Ec)
        as [(? & _ & ?)|[[? ?] _]]; done. }
    pose proof (ended_tracked own sp _ _ _ _ _ _ Hi Hend Htrap) as Het. rewrite <- Ha in Het.
    rewrite (Hp _ _ Ep). cbn [came_back].
    assert (tracked_ok own sp (Track (log_allowance (blocks s') (to_key own, to_key sp)) (t_waiting t))
      (World s' now (delete id (w_pend w)) (w_next w) (w_cycles w + refund) (w_used w))) as Hall.
    { split; [done|]. cbn [t_waiting w_next w_pend]. split; [done|].
      intros i q [_ Hq]%lookup_delete_Some. by apply Hp. }
    rewrite Het in Hall. destruct t as [cur wt].
    destruct (noted own sp p) as [[amount old]|]; [|exact Hall].
    destruct (approval_block r); exact Hall.
  - cbn [step] in Hst. rewrite (reload_eq _ _ (reachable_inv _ Hr)) in Hst.
    destruct (post_upgrade args (set_p0 [] (w_led w))) as [s' o] eqn:E.
    destruct (post_upgrade_cfg _ _ _ _ E) as [c ->]. destruct o as [[]|[]|t']; injection Hst as <- _.
    + split; [done|]. split; [done|]. intros i q. cbn [w_pend]. by rewrite lookup_empty.
    + done.
  - injection Hst as <- _. done.
  - injection Hst as <- _. done.
  - pose proof (step_next w (EvCrash now id refund)) as Hnx. rewrite Hst in Hnx. cbn [fst] in Hnx.
    apply step_crash in Hst as (E1 & _ & _ & E2 & _).
    split; [by rewrite E1|]. split; [intros i x Hx; specialize (Hw i x Hx); lia|].
    rewrite E2. intros i q [_ Hq]%lookup_delete_Some. by apply Hp.
Qed.

Lemma tracked_history own sp w tr w' t :
  reachable w -> steps w tr w' -> tracked_ok own sp t w ->
  tracked_ok own sp (foldl (tracked_step own sp) t tr) w' /\ reachable w'.
Proof.
  intros Hr Hs. revert t. induction Hs as [w|w ev tr w' Hev Hs IH]; intros t Ht; [done|].
  destruct (step w ev) as [w1 resp] eqn:Est. cbn [fst snd foldl] in *.
  apply IH; [|by eapply tracked_ok_step].
  replace w1 with (step w ev).1 by (by rewrite Est). by constructor.
Qed.

(** ** C84 *)

(** Whoever sees all calls and answers knows every allowance: what can be used is
    what they have written down, as long as it has not expired; the query reports
    that, except at the very instant of expiry, where it may still show the old one. *)
Theorem C84_allowances_follow now0 cycles args w0 tr w own sp now :
  is_u64 now0 -> wf_ledger_args args -> init_world now0 cycles args = Some w0 -> steps w0 tr w ->
  w_clock w <= now ->
  let cur := t_allowance (tracked own sp tr) in
  usable (w_led w) now own sp = live_at now cur
  /\ (icrc2_allowance (w_led w) now own sp = live_at now cur
      \/ exists a, cur = Some (a, Some now) /\ icrc2_allowance (w_led w) now own sp = (a, Some now)).
Proof.
  intros Hu Hwf Hi Hs Hc cur. assert (reachable w0) as Hr0 by (by econstructor).
  assert (tracked_ok own sp (Track None ∅) w0) as H0.
  { split; [|split].
    - destruct args as [c|u]; [|by rewrite C41_upgrade_argument_refused in Hi].
      destruct (C41_initial_balances now0 cycles c) as [_ H41].
      destruct (H41 w0 Hi) as (_ & _ & Hm & _). cbn [t_allowance]. unfold log_allowance.
      clear -Hm. induction Hm as [|b e bs l [Hb _] _ IH]; [done|]. simpl.
      unfold allowance_step at 2, approved_by, spent_by. by rewrite Hb.
    - intros id x. cbn [t_waiting]. by rewrite lookup_empty.
    - intros id p. unfold init_world in Hi. destruct (init now0 args empty_state) as [s [[]| |]]; [|done|done].
      injection Hi as <-. cbn [w_pend]. by rewrite lookup_empty. }
  destruct (tracked_history own sp w0 tr w _ Hr0 Hs H0) as [(Ha & _ & _) Hr].
  fold (tracked own sp tr) in Ha. fold cur in Ha. rewrite Ha. split.
  - rewrite <- live_allowance_at. apply usable_live_inv with (now := w_clock w); [by apply reachable_inv|done].
  - destruct (C03_log_determines_live_allowances w own sp now Hr Hc) as [E|E]; [by left|by right].
Qed.

End WithEnv.

(** ** A case that meets the hypotheses: Alice's allowance for Bob over the demo
    history: approved, used by a transfer, used by a withdrawal that fails and gives
    it back less two fees. *)
Example C84_case :
  exists w0 tr, is_u64 T0 /\ wf_ledger_args demo_init /\ init_world T0 (100 * T) demo_init = Some w0
    /\ steps w0 tr demo_world /\ map fst tr = demo_events
    /\ t_allowance (tracked (acct alice) (acct bob) tr)
       = Some (5 * T - (T + FEE) - (T + FEE) + (T - 2 * FEE), Some (T0 + 3600 * sec)).
Proof.
  destruct (history_steps T0 (100 * T) demo_init demo_events) as (w0 & tr & H1 & H2 & H3 & H4 & H5);
    [vm_compute; reflexivity|].
  pose proof (steps_run_responses _ _ _ H4) as H6. rewrite H5 in H6.
  eexists w0, tr. split; [exact H1|]. split; [exact H2|]. split; [exact H3|]. split; [exact H4|].
  split; [exact H5|]. clear H4.
  assert (w0 = the_world (init_world T0 (100 * T) demo_init)) as -> by (by rewrite H3).
  assert (tr = zip demo_events (map snd tr)) as E.
  { rewrite <- H5. clear. induction tr as [|[a b] tr IH]; simpl; [done|]. by f_equal. }
  rewrite H6 in E. clear H3 H5 H6. subst tr.
  vm_compute. reflexivity.
Qed.

Print Assumptions C84_allowances_follow.
