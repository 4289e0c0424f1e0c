(** * A client that retries gets its transaction executed exactly once

    C74 *)
From Verif Require Import Base Types Codec CodecFacts State Ledger Canister Effects Spec ApiSpec
  Inv Steps World CallFacts CallCases StepFacts AllowFacts RefundFacts AsyncFacts EventFacts DedupFacts PropertiesLog
  PropertiesDedup PropertiesCalls Demo.

(** ** Specification *)

(** How many blocks carry transaction [t] *)
Definition executions (t : transaction) (bs : list block) : N :=
  N.of_nat (length (filter (fun b => b_tx b = t) bs)).
(** The event is a call by which a client asks for [t]. *)
Definition submits (t : transaction) (ev : event) : Prop :=
  match ev with EvCall _ caller c _ => requested caller c = t | _ => False end.
Global Instance submits_dec t ev : Decision (submits t ev).
Proof. destruct ev; simpl; apply _. Defined.
(** How many submissions of [t] in a history were accepted *)
Definition acceptances (t : transaction) (tr : list (event * response)) : N :=
  N.of_nat (length (filter (fun er => submits t er.1 /\ rejected er.2 = false) tr)).
(** The block a client is pointed to by an answer: as the one just recorded, or
    as the one that recorded the transaction before *)
Definition pointed_to (r : response) : option N :=
  match r with
  | RespReply (RepTransfer (Ok i)) => Some i
  | RespReply (RepTransferFrom (Ok i)) => Some i
  | RespReply (RepApprove (Ok i)) => Some i
  | _ => duplicate_of r
  end.

Section WithEnv.
Context `{Env}.

Lemma executions_app t l1 l2 : executions t (l1 ++ l2) = executions t l1 + executions t l2.
Proof. unfold executions. rewrite filter_app, app_length. lia. Qed.
Lemma executions_none t bs : (forall b, b ∈ bs -> b_tx b <> t) -> executions t bs = 0.
Proof.
  intros Hn. unfold executions. replace (filter (fun b => b_tx b = t) bs) with (@nil block); [done|].
  symmetry. apply elem_of_nil_inv. intros b [Hb Hin]%elem_of_list_filter. by apply (Hn b).
Qed.

Lemma refund_blocks_unstamped from sp l b :
  refund_blocks from sp l -> b ∈ l -> tx_created_at (b_tx b) = None.
Proof.
  intros [->|(b1 & n & m & H1 & [->|(b2 & x & a & e & _ & H2 & ->)])] Hin.
  - by apply elem_of_nil in Hin.
  - apply elem_of_list_singleton in Hin as ->. by rewrite H1.
  - apply elem_of_cons in Hin as [->|Hin]; [by rewrite H1|].
    apply elem_of_list_singleton in Hin as ->. by rewrite H2.
Qed.

Lemma step_executions w ev w' resp t :
  reachable w -> ev_ok w ev -> step w ev = (w', resp) -> tx_created_at t <> None ->
  executions t (blocks (w_led w'))
  = executions t (blocks (w_led w)) + acceptances t [(ev, resp)].
Proof.
  intros Hr Hev Hst Ht. destruct (event_blocks _ _ _ _ Hr Hev Hst) as (new & Hb & Hn).
  rewrite Hb, executions_app. f_equal.
  assert (forall from sp l, refund_blocks from sp l -> executions t l = 0) as Hrf.
  { intros from sp l Hl. apply executions_none. intros b Hin E. apply Ht. rewrite <- E. by eapply refund_blocks_unstamped. }
  assert (forall ev', ~ submits t ev' -> acceptances t [(ev', resp)] = 0) as Hno.
  { intros ev' Hs. unfold acceptances. rewrite filter_cons_False; [done|]. simpl. tauto. }
  destruct ev as [now caller c sync|now id ans refund|now args|n|n|now id refund].
  - destruct (rejected resp) eqn:Erj.
    + destruct (step_rejected _ _ _ _ _ _ _ Hr Hev Hst Erj) as (El & _). rewrite El in Hb.
      assert (new = []) as ->.
      { apply (f_equal length) in Hb. rewrite app_length in Hb. destruct new; [done|simpl in Hb; lia]. }
      unfold acceptances. rewrite filter_cons_False; [done|]. simpl. intros [_ E]. congruence.
    + destruct (step_accepted _ _ _ _ _ _ _ Hr Hev Hst Erj) as (_ & r & Ha & _).
      destruct (call_inv _ _ _ _ _ Hr Hev) as (Hi & _).
      destruct (accepted_block _ _ _ _ _ _ _ _ Hi Ha) as [rest0 Hbs]. rewrite Hb in Hbs.
      apply app_inv_head in Hbs. destruct Hn as [->|(b & rest & -> & Hbt & Hrest)]; [done|].
      change (b :: rest) with ([b] ++ rest). rewrite executions_app.
      assert (executions t rest = 0) as ->.
      { destruct Hrest as [->|(from & sp & amount & _ & Hl)]; [done|by eapply Hrf]. }
      unfold executions, acceptances. destruct (decide (requested caller c = t)) as [E|E].
      * rewrite !filter_cons_True; [done|done|congruence].
      * rewrite !filter_cons_False; [done| |congruence]. simpl. tauto.
  - rewrite Hno by (by intros []). destruct Hn as [->|(p & _ & Hl)]; [done|by eapply Hrf].
  - subst new. by rewrite Hno by (by intros []).
  - subst new. by rewrite Hno by (by intros []).
  - subst new. by rewrite Hno by (by intros []).
  - subst new. by rewrite Hno by (by intros []).
Qed.

Lemma acceptances_cons t er tr : acceptances t (er :: tr) = acceptances t [er] + acceptances t tr.
Proof.
  unfold acceptances. change (er :: tr) with ([er] ++ tr). rewrite filter_app, app_length. lia.
Qed.

(** ** C74 *)

(** Over every history: each accepted submission of a transaction with a
    [created_at_time] is one execution of it, there are no others, and there is
    at most one in all. *)
Theorem C74_one_execution_per_acceptance w tr w' t :
  reachable w -> steps w tr w' -> tx_created_at t <> None ->
  executions t (blocks (w_led w')) = executions t (blocks (w_led w)) + acceptances t tr
  /\ executions t (blocks (w_led w')) <= 1.
Proof.
  intros Hr Hs Ht. split.
  - revert Hr. induction Hs as [w|w ev tr w' Hev Hs IH]; intros Hr; [change (acceptances t []) with 0; lia|].
    assert (reachable (step w ev).1) as Hr1 by (by constructor).
    rewrite acceptances_cons, (IH Hr1), (step_executions w ev _ _ t Hr Hev (surjective_pairing _) Ht). lia.
  - pose proof (reachable_steps _ _ _ Hr Hs) as Hr2. unfold executions.
    destruct (filter (fun b => b_tx b = t) (blocks (w_led w'))) as [|b1 [|b2 l]] eqn:Ef; [simpl; lia|simpl; lia|exfalso].
    assert (forall l' : list block, forall x y r, filter (fun b => b_tx b = t) l' = x :: y :: r ->
      exists i j bi bj, i <> j /\ l' !! i = Some bi /\ l' !! j = Some bj /\ b_tx bi = t /\ b_tx bj = t) as Htwo.
    { clear. induction l' as [|a l' IH]; [done|]. intros x y r. rewrite filter_cons.
      destruct (decide (b_tx a = t)) as [E|E].
      - intros [= -> Hl]. assert (y ∈ filter (fun b => b_tx b = t) l') as Hy by (rewrite Hl; left).
        apply elem_of_list_filter in Hy as [Hy [j Hj]%elem_of_list_lookup].
        exists 0%nat, (S j), x, y. done.
      - intros Hl. destruct (IH _ _ _ Hl) as (i & j & bi & bj & Hne & H1 & H2 & H3 & H4).
        exists (S i), (S j), bi, bj. split; [lia|done]. }
    destruct (Htwo _ _ _ _ Ef) as (i & j & bi & bj & Hne & H1 & H2 & H3 & H4).
    apply Hne, (C07_at_most_once w' i j bi bj); try done; congruence.
Qed.

Lemma resume_points now p ans k s0 s s' r :
  supply_ok s -> resume now p ans = Some k -> commit s0 (k s) = (s', r) -> pointed_to r = None.
Proof.
  intros Hs Hk Hc.
  destruct p as [ep from to sp amount j old|ep from sp amount j old created arg];
    destruct ans as [r0|r0]; cbn [resume] in Hk; try done;
    match type of Hk with Some ?a = _ => assert (k = a) as -> by congruence end; clear Hk.
  - destruct r0 as [[]|e].
    + destruct ep; simpl in Hc; by injection Hc as <- <-.
    + destruct (withdraw_rest_eq ep from sp amount j old now e s0 s Hs) as [y Hy].
      rewrite Hy in Hc. unfold wd_fail_rest in Hc.
      destruct (amount - FEE =? 0); [injection Hc as _ <-; by destruct ep|].
      destruct (refund_outcome _ _ _ _ _ _ _) as [[[s2 fb] ab]|] eqn:Er; injection Hc as _ <-; by try destruct ep.
  - destruct (create_rest_eq ep from sp amount j old created now r0 s0 s Hs) as [y Hy].
    rewrite Hy in Hc. destruct (flat_create_result amount r0) as [c|[code returned]] eqn:Efl.
    + injection Hc as _ <-. by destruct ep.
    + unfold cr_fail_rest in Hc. destruct (returned - FEE =? 0); [injection Hc as _ <-; by destruct ep|].
      destruct (refund_outcome _ _ _ _ _ _ _) as [[[s2 fb] ab]|] eqn:Er; injection Hc as _ <-; by try destruct ep.
Qed.

(** Every answer that points to a block points to the one execution, at once and
    ever after, whatever happens later (or SHA-256 collides on two different
    transactions). *)
Theorem C74_answers_point_to_it w tr w' t ev resp i :
  reachable w -> steps w tr w' -> tx_created_at t <> None ->
  (ev, resp) ∈ tr -> submits t ev -> pointed_to resp = Some i ->
  exists b, blocks (w_led w') !! N.to_nat i = Some b
    /\ (b_tx b = t \/ hash_clash (b_tx b) t).
Proof.
  intros Hr Hs Ht Hin Hsub Hp. revert Hr. induction Hs as [w|w ev0 tr w' Hev Hs IH]; intros Hr.
  { by apply elem_of_nil in Hin. }
  assert (reachable (step w ev0).1) as Hr1 by (by constructor).
  apply elem_of_cons in Hin as [[= -> ->]|Hin]; [|by apply IH].
  destruct ev0 as [now caller c sync|now id ans refund|now args|n|n|now id refund]; try done. simpl in Hsub.
  destruct (step w (EvCall now caller c sync)) as [w1 resp] eqn:Hst. cbn [fst snd] in *.
  destruct (steps_prefix _ _ _ Hr1 Hs) as [rest Hpre].
  destruct (duplicate_of resp) as [j|] eqn:Hd.
  - assert (j = i) as -> by (unfold pointed_to in Hp; repeat case_match; simplify_eq/=; done).
    destruct (C09_duplicate_is_honest _ _ _ _ _ _ _ _ Hr Hev Hst Hd) as [(El & _) (b & Hb & Hx)].
    exists b. rewrite Hpre, El. split; [by apply lookup_app_l_Some|]. by rewrite <- Hsub.
  - assert (rejected resp = false) as Hrj.
    { unfold pointed_to in Hp. rewrite Hd in Hp. by repeat case_match. }
    destruct (step_accepted _ _ _ _ _ _ _ Hr Hev Hst Hrj) as (Hok & r & Ha & Hm).
    destruct (call_inv _ _ _ _ _ Hr Hev) as (Hi & Hu & _).
    destruct (accepted_block _ _ _ _ _ _ _ _ Hi Ha) as [rest0 Hbs].
    assert (i = N.of_nat (length (blocks (w_led w)))) as ->.
    { destruct Ha as [s1 resp' -> Hdr|s1 p -> _ _ _|s1 p e s' resp' -> Hpo _ _ _ _ Hsr]; destruct Hm as [-> _].
      - destruct c; cbn [done_reply] in Hdr; try done; injection Hdr as <-; cbn [pointed_to duplicate_of] in Hp; first [discriminate Hp|by injection Hp as <-].
      - done.
      - exfalso. unfold sync_rest in Hsr. destruct (sync_answer_resume now p e) as [k Hk]. rewrite Hk in Hsr.
        destruct (commit (w_led w) (k _)) as [s2 r2] eqn:Ec. injection Hsr as -> ->.
        rewrite (resume_points _ _ _ _ _ _ _ _ (inv_supply _ _ (recorded_inv _ _ _ Hu Hi Hok)) Hk Ec) in Hp. done. }
    rewrite Nat2N.id. eexists. rewrite Hpre, Hbs, <- app_assoc. split; [by apply list_lookup_middle|].
    left. by cbn.
Qed.

(** Once the window of a transaction that was not executed has passed, it never
    will be: giving up is safe. *)
Theorem C74_giving_up_is_safe w tr w' t created :
  reachable w -> steps w tr w' -> tx_created_at t = Some created ->
  created + DAY + MINUTE < w_clock w ->
  acceptances t tr = 0
  /\ executions t (blocks (w_led w')) = executions t (blocks (w_led w)).
Proof.
  intros Hr Hs Ht Hlate.
  assert (acceptances t tr = 0) as Ha.
  { revert Hr Hlate. induction Hs as [w|w ev tr w' Hev Hs IH]; intros Hr Hlate; [done|].
    assert (reachable (step w ev).1) as Hr1 by (by constructor).
    assert (w_clock w <= w_clock (step w ev).1) as Hck.
    { apply (steps_clock w [(ev, (step w ev).2)]); [done|]. by apply steps_cons, steps_nil. }
    rewrite acceptances_cons, (IH Hr1) by lia. rewrite N.add_0_r. unfold acceptances.
    rewrite filter_cons_False; [done|]. simpl. intros [Hsub Hrj].
    destruct ev as [now caller c sync|now id ans refund|now args|n|n|now id refund]; try done. simpl in Hsub.
    destruct (step w (EvCall now caller c sync)) as [w1 resp] eqn:Hst.
    destruct (C10_outside_window_rejected w now caller c sync created w1 resp Hr Hev) as [E _]; [| |done|].
    - rewrite <- Ht, <- Hsub. by destruct c.
    - destruct Hev as ((Hc & _) & _). unfold in_window. lia.
    - cbn [snd] in Hrj. congruence. }
  split; [done|]. destruct (C74_one_execution_per_acceptance w tr w' t Hr Hs) as [-> _]; [congruence|]. lia.
Qed.

(** One submission at a good moment is enough.  A transfer with a
    [created_at_time] that is submitted when its window is open and the account can
    pay, whether or not it was submitted before, has been executed exactly once
    afterwards (the exception is that of C13, or a collision of SHA-256). *)
Theorem C74_one_good_moment_suffices w now caller sub to amount fee m created sync w' resp :
  let from := Acct caller sub in
  let t := Tx (Transfer from to None amount fee) (Some created) m in
  reachable w ->
  ev_ok w (EvCall now caller (CallTransfer sub to amount fee m (Some created)) sync) ->
  step w (EvCall now caller (CallTransfer sub to amount fee m (Some created)) sync) = (w', resp) ->
  fee = None \/ fee = Some icrc1_fee -> memo_fits m -> in_window created now ->
  permitted from -> permitted to ->
  amount + icrc1_fee <= icrc1_balance_of (w_led w) from ->
  (to_key to = to_key from -> icrc1_balance_of (w_led w) from + amount < 2 ^ 128) ->
  (forall b, b ∈ blocks (w_led w) -> ~ hash_clash (b_tx b) t) ->
  executions t (blocks (w_led w')) = 1 /\ is_Some (pointed_to resp).
Proof.
  intros from t Hr Hev Hst Hfee Hm Hw Hpf Hpt Hbal Hself Hnc.
  assert (tx_created_at t <> None) as Ht by done.
  assert (reachable w') as Hr'.
  { replace w' with (step w (EvCall now caller (CallTransfer sub to amount fee m (Some created)) sync)).1 by (by rewrite Hst).
    by constructor. }
  pose proof (step_executions _ _ _ _ t Hr Hev Hst Ht) as Hx.
  destruct (C74_one_execution_per_acceptance w' [] w' t Hr' (steps_nil _) Ht) as [_ Hle].
  destruct (duplicate_of resp) as [i|] eqn:Hd.
  - destruct (C09_duplicate_is_honest _ _ _ _ _ _ _ _ Hr Hev Hst Hd) as [(El & _) (b & Hb & [E|E])].
    2: { exfalso. eapply Hnc; [by eapply elem_of_list_lookup_2|exact E]. }
    split.
    + assert (0 < executions t (blocks (w_led w'))); [|lia]. rewrite El. unfold executions.
      assert (b ∈ filter (fun b => b_tx b = t) (blocks (w_led w))) as Hin.
      { apply elem_of_list_filter. split; [exact E|by eapply elem_of_list_lookup_2]. }
      destruct (filter _ _); [by apply elem_of_nil in Hin|simpl; lia].
    + exists i. unfold pointed_to. clear -Hd. repeat case_match; done.
  - pose proof (C13_funded_transfer_succeeds_partial w now caller sub to amount fee m (Some created) sync w' resp
      Hr Hev Hst Hfee Hm Hw Hpf Hpt Hbal Hd Hself) as ->.
    split; [|by eexists]. unfold acceptances in Hx. rewrite filter_cons_True in Hx by done.
    cbn [length filter] in Hx. simpl in Hx. lia.
Qed.

End WithEnv.

(** ** A case: a stamped transfer is submitted, something else happens, the client
    repeats it, and repeats it once more after an upgrade; the last attempt comes
    when the window has passed *)
Definition stamped : call := CallTransfer None (acct carol) 5 None None (Some (T0 + 4 * sec)).
Definition stamped_tx : transaction := requested alice stamped.
Definition retry_events : list event :=
  [ EvCall (T0 + 4 * sec) alice stamped None;
    EvCall (T0 + 5 * sec) bob (CallTransfer None (acct carol) 1 None None None) None;
    EvCall (T0 + 6 * sec) alice stamped None;
    EvUpgrade (T0 + 7 * sec) None;
    EvCall (T0 + 8 * sec) alice stamped None;
    EvCall (T0 + 2 * DAY) bob (CallTransfer None (acct carol) 1 None None None) None;
    EvCall (T0 + 2 * DAY) alice stamped None ].
Fixpoint run (w : world) (evs : list event) : list (event * response) * world :=
  match evs with
  | [] => ([], w)
  | ev :: evs' => let (w1, r) := step w ev in let (tr, w2) := run w1 evs' in ((ev, r) :: tr, w2)
  end.
Fixpoint all_ok (w : world) (evs : list event) : bool :=
  match evs with [] => true | ev :: evs' => ev_okb w ev && all_ok (step w ev).1 evs' end.
Lemma run_steps w evs : all_ok w evs = true -> steps w (run w evs).1 (run w evs).2.
Proof.
  revert w. induction evs as [|ev evs IH]; intros w; cbn [all_ok run]; [intros _; constructor|].
  intros [Hev Hall]%andb_true_iff. apply ev_okb_ok in Hev. specialize (IH _ Hall).
  pose proof (steps_cons w ev _ _ Hev IH) as Hs.
  destruct (step w ev) as [w1 r]. cbn [fst snd] in *. destruct (run w1 evs) as [tr w2]. exact Hs.
Qed.
Definition retry_run : list (event * response) * world := run (demo_at 3) retry_events.
Example C74_case :
  reachable (demo_at 3) /\ steps (demo_at 3) retry_run.1 retry_run.2
  /\ retry_run.1.*2 !! 0%nat = Some (RespReply (RepTransfer (Ok 4)))
  /\ retry_run.1.*2 !! 2%nat = Some (RespReply (RepTransfer (Err (TDuplicate 4))))
  /\ retry_run.1.*2 !! 4%nat = Some (RespReply (RepTransfer (Err (TDuplicate 4))))
  /\ retry_run.1.*2 !! 6%nat = Some (RespReply (RepTransfer (Err TTooOld)))
  /\ acceptances stamped_tx retry_run.1 = 1
  /\ executions stamped_tx (blocks (w_led (demo_at 3))) = 0
  /\ executions stamped_tx (blocks (w_led retry_run.2)) = 1.
Proof.
  split; [apply demo_at_reachable; vm_compute; reflexivity|].
  split; [|vm_compute; repeat split].
  apply run_steps; vm_compute; reflexivity.
Qed.

Print Assumptions C74_one_execution_per_acceptance.
Print Assumptions C74_answers_point_to_it.
Print Assumptions C74_giving_up_is_safe.
Print Assumptions C74_one_good_moment_suffices.
