(** * The log is exactly the record of what happened

    C54 *)
From Verif Require Import Base Types Codec CodecFacts CodecProofs State Ledger Canister Effects Spec ApiSpec
  Inv Steps World CallFacts CallCases StepFacts AllowFacts RefundFacts AsyncFacts EventFacts
  PropertiesLog PropertiesDedup PropertiesCalls PropertiesAuth PropertiesQuery Demo.

(** ** Specification *)

(** The memo that marks a refund: 32 bytes 0xFD if a creation failed, 32 bytes 0xFF
    if a withdrawal did. *)
Definition refund_mark (c : call) : memo :=
  match c with
  | CallCreateCanister _ _ _ _ => repeat Byte.xfd 32
  | CallCreateCanisterFrom _ _ _ _ _ => repeat Byte.xfd 32
  | _ => repeat Byte.xff 32
  end.

(** The blocks [l] record at [now] the refund of the failed call [c] that had burned
    from [from] on behalf of [sp], when [returned] cycles came back: all but the fee
    goes to [from], and possibly a block gives the allowance back. *)
Definition refund_recorded (now : N) (c : call) (from : account) (sp : option account) (returned : N)
  (l : list block) : Prop :=
  icrc1_fee < returned
  /\ exists b, b_tx b = Tx (Mint from (returned - icrc1_fee) 0) None (Some (refund_mark c)) /\ b_timestamp b = now
     /\ (l = [b]
         \/ exists b2 x a e, l = [b; b2] /\ sp = Some x /\ b_timestamp b2 = now
            /\ b_tx b2 = Tx (Approve from x a None e None) None (Some (repeat Byte.xff 32))).

(** The blocks that event [er] adds, when [before] is what happened before it. *)
Definition accounts_for (before : list (event * response)) (er : event * response)
  (new : list block) : Prop :=
  match er with
  | (EvCall now caller c _, resp) =>
      (* a call that is turned down adds nothing; else the first block is the
         transaction the caller asked for; a refund follows only if the
         outgoing call failed at once *)
      if rejected resp then new = []
      else exists b rest, new = b :: rest
        /\ b_tx b = requested caller c /\ b_timestamp b = now
        /\ (rest = []
            \/ exists from sp amount, outgoing caller c = Some (from, sp, amount)
               /\ (forall id o, resp <> RespPending id o)
               /\ refund_recorded now c from sp amount rest)
  | (EvReply now id ans _, _) =>
      (* an answer adds nothing, or the refund of the call it answers *)
      new = []
      \/ exists t caller c sync o from sp amount returned code,
           (EvCall t caller c sync, RespPending id o) ∈ before
           /\ outgoing caller c = Some (from, sp, amount)
           /\ answer_returned amount ans = Some (returned, code)
           /\ refund_recorded now c from sp returned new
  | _ => new = []
  end.

Section WithEnv.
Context `{Env}.

Lemma refund_effect_recorded s s' now c from sp n old fb ab :
  FEE < n -> refund_effect s s' now from sp (n - FEE) (refund_mark c) old fb ab ->
  exists l, blocks s' = blocks s ++ l /\ refund_recorded now c from sp n l.
Proof.
  intros Hn [_ Hx]. destruct ab as [j|].
  - destruct Hx as (_ & _ & _ & x & -> & (b1 & b2 & Hb & T1 & T2 & H1 & H2) & _).
    exists [b1; b2]. split; [done|]. split; [done|]. exists b1. split; [done|]. split; [done|].
    right. by exists b2, x; eauto 10.
  - destruct Hx as (_ & _ & (b & Hb & T & H1) & _). exists [b]. split; [done|]. split; [done|].
    exists b. eauto.
Qed.

(** Every waiting call was made by a call in the history. *)
Definition waiting_explained (tr : list (event * response)) (w : world) : Prop :=
  forall id p, w_pend w !! id = Some p ->
    exists t caller c sync o, (EvCall t caller c sync, RespPending id o) ∈ tr
      /\ outgoing caller c = Some (p_from p, p_spender p, pending_amount p) /\ p_memo p = refund_mark c.
Lemma pending_mark now caller c s p : pending_of now caller c s = Some p -> p_memo p = refund_mark c.
Proof. destruct c; simpl; try done; intros [= <-]; done. Qed.

Lemma waiting_step tr w ev w' resp :
  reachable w -> ev_ok w ev -> step w ev = (w', resp) ->
  waiting_explained tr w -> waiting_explained (tr ++ [(ev, resp)]) w'.
Proof.
  intros Hr Hev Hst Hw.
  assert (forall id p, w_pend w !! id = Some p ->
    exists t caller c sync o, (EvCall t caller c sync, RespPending id o) ∈ tr ++ [(ev, resp)]
      /\ outgoing caller c = Some (p_from p, p_spender p, pending_amount p) /\ p_memo p = refund_mark c) as Hw'.
  { intros id p Hp. destruct (Hw id p Hp) as (t & caller & c & sync & o & Hin & Ho).
    exists t, caller, c, sync, o. split; [|done]. apply elem_of_app. by left. }
  destruct ev as [now caller c sync|now id ans refund|now args|n|n|now id refund].
  - destruct (rejected resp) eqn:Erj.
    { destruct (step_rejected _ _ _ _ _ _ _ Hr Hev Hst Erj) as (_ & Hp & _).
      unfold waiting_explained. rewrite Hp. exact Hw'. }
    destruct (step_accepted _ _ _ _ _ _ _ Hr Hev Hst Erj) as (Hok & r & Ha & Hm).
    destruct r as [r|p]; destruct Hm as [-> ->].
    + exact Hw'.
    + intros id p'. cbn [w_pend]. intros [[<- <-]|[Hne Hp]]%lookup_insert_Some; [|by apply Hw'].
      exists now, caller, c, sync, (outcall_of p). split; [apply elem_of_app; right; by left|].
      inversion Ha; subst. split; [by eapply pending_outgoing|by eapply pending_mark].
  - cbn [step] in Hst. destruct (w_pend w !! id) as [p|] eqn:Ep; [|injection Hst as <- _; exact Hw'].
    destruct (resume now p ans) as [k|] eqn:Ek; [|injection Hst as <- _; exact Hw'].
    destruct (commit _ _) as [s' r] eqn:Ec. injection Hst as <- <-.
    intros id' p'. cbn [w_pend]. intros [_ Hp]%lookup_delete_Some. by apply Hw'.
  - cbn [step] in Hst. destruct (post_upgrade args _) as [s' o]. destruct o as [[]|[]|t]; injection Hst as <- <-.
    + intros id p. cbn [w_pend]. by rewrite lookup_empty.
    + exact Hw'.
  - injection Hst as <- _. exact Hw'.
  - injection Hst as <- _. exact Hw'.
  - apply step_crash in Hst as (_ & _ & _ & Hp & _). unfold waiting_explained. rewrite Hp.
    intros id' p' [_ Hp']%lookup_delete_Some. by apply Hw'.
Qed.

Lemma accepted_waiting now avail caller c sync s s' p :
  accepted_call now avail caller c sync s s' (Waiting p) -> s' = recorded now (requested caller c) s.
Proof. intros Ha. by inversion Ha. Qed.
Lemma accepted_done_answered now avail caller c sync s s' id o :
  accepted_call now avail caller c sync s s' (Done (RespPending id o)) -> False.
Proof.
  intros Ha. inversion Ha as [s1 resp _ Hd|s1 p _ _ _ _|s1 p e s2 resp _ _ _ _ _ _ Hsr]; subst.
  - by destruct c.
  - unfold sync_rest in Hsr. destruct (resume _ _ _) as [k|]; [|congruence].
    destruct (commit _ _) as [s2 r2] eqn:Ec. injection Hsr as -> ->.
    unfold commit in Ec. destruct (k _) as [? [?|[]|?]]; congruence.
Qed.

Lemma event_accounts tr w ev w' resp :
  reachable w -> ev_ok w ev -> step w ev = (w', resp) -> waiting_explained tr w ->
  exists new, blocks (w_led w') = blocks (w_led w) ++ new /\ accounts_for tr (ev, resp) new.
Proof.
  intros Hr Hev Hst Hw. destruct ev as [now caller c sync|now id ans refund|now args|n|n|now id refund].
  - destruct (call_inv _ _ _ _ _ Hr Hev) as (Hi & Hu & _). cbn [accounts_for].
    destruct (rejected resp) eqn:Erj.
    { destruct (step_rejected _ _ _ _ _ _ _ Hr Hev Hst Erj) as [-> _]. exists []. by rewrite app_nil_r. }
    destruct (step_accepted _ _ _ _ _ _ _ Hr Hev Hst Erj) as (Hok & r & Ha & Hm).
    destruct (accepted_outcome _ _ _ _ _ _ _ _ Hi Hu Hok Ha) as [(_ & _ & _ & Hb)|(p & fb & ab & Hp & Hfee & _ & _ & Hre)].
    + rewrite Hb, recorded_blocks. eexists. split; [done|]. eexists _, []. eauto.
    + rewrite (pending_mark _ _ _ _ _ Hp) in Hre. apply refund_effect_recorded in Hre as (l & Hb & Hl); [|done].
      rewrite recorded_blocks, <- app_assoc in Hb.
      eexists. split; [exact Hb|]. eexists _, l. split; [done|]. split; [done|]. split; [done|]. right.
      eexists _, _, _. split; [by eapply pending_outgoing|]. split; [|done].
      (* a waiting call has no refund yet *)
      intros id o ->. destruct r as [r|p']; destruct Hm as [E _].
      * subst r. by eapply accepted_done_answered.
      * apply accepted_waiting in Ha. rewrite Ha, recorded_blocks in Hb.
        apply (f_equal length) in Hb. rewrite !app_length in Hb. simpl in Hb.
        destruct Hl as (_ & b & _ & _ & [->|(? & ? & ? & ? & -> & _)]); simpl in Hb; lia.
  - cbn [step] in Hst. cbn [accounts_for]. destruct (w_pend w !! id) as [p|] eqn:Ep.
    2: { injection Hst as <- _. exists []. rewrite app_nil_r. eauto. }
    destruct (resume now p ans) as [k|] eqn:Ek.
    2: { injection Hst as <- _. exists []. rewrite app_nil_r. eauto. }
    destruct (commit _ _) as [s' r] eqn:Ec. injection Hst as <- <-. simpl.
    destruct (reply_inv _ _ _ _ _ Hr Hev) as (Hi & Hu & Hans).
    destruct (reachable_winv _ Hr) as (_ & _ & Hwp). destruct (Hwp _ _ Ep) as [_ Hpo].
    destruct (resume_outcome _ _ _ _ _ _ _ _ Hi Hu Hpo (wf_answer_u128 _ Hans) Ek Ec)
      as [(t & _ & ->)|[_ [[(_ & _ & _ & Hb) _]|(n & code & fb & ab & Hn & Hfee & _ & _ & Hre)]]].
    + exists []. rewrite app_nil_r. eauto.
    + exists []. rewrite app_nil_r. eauto.
    + destruct (Hw _ _ Ep) as (t & caller & c & sync & o & Hin & Ho & Hmk). rewrite Hmk in Hre.
      apply refund_effect_recorded in Hre as (l & Hb & Hl); [|done]. exists l. split; [done|]. right.
      exists t, caller, c, sync, o, (p_from p), (p_spender p), (pending_amount p), n, code. done.
  - exists []. rewrite app_nil_r. split; [|done]. cbn [step] in Hst.
    rewrite (reload_eq _ _ (reachable_inv _ Hr)) in Hst.
    destruct (post_upgrade args (set_p0 [] (w_led w))) as [s' o] eqn:E.
    destruct (post_upgrade_cfg _ _ _ _ E) as [c ->]. destruct o as [[]|[]|t]; by injection Hst as <- _.
  - exists []. rewrite app_nil_r. injection Hst as <- _. done.
  - exists []. rewrite app_nil_r. injection Hst as <- _. done.
  - exists []. rewrite app_nil_r. by apply step_crash in Hst as [-> _].
Qed.

Lemma steps_accounts pre w tr w' :
  reachable w -> steps w tr w' -> waiting_explained pre w ->
  exists news, blocks (w_led w') = blocks (w_led w) ++ concat news /\ length news = length tr
    /\ forall i er new, tr !! i = Some er -> news !! i = Some new ->
         accounts_for (pre ++ take i tr) er new.
Proof.
  intros Hr Hs. revert pre. induction Hs as [w|w ev tr w' Hev Hs IH]; intros pre Hw.
  { exists []. rewrite app_nil_r. done. }
  destruct (step w ev) as [w1 resp] eqn:Est. cbn [fst snd] in *.
  assert (reachable w1) as Hr1 by (replace w1 with (step w ev).1 by (by rewrite Est); by constructor).
  destruct (event_accounts pre w ev w1 resp Hr Hev Est Hw) as (new & Hb & Hnew).
  destruct (IH Hr1 (pre ++ [(ev, resp)]) (waiting_step _ _ _ _ _ Hr Hev Est Hw)) as (news & Hbs & Hlen & Hacc).
  exists (new :: news). split; [by rewrite Hbs, Hb, <- app_assoc|]. split; [simpl; lia|].
  intros [|i] er new' Her Hnew'; simpl in *.
  - rewrite app_nil_r. injection Her as <-. injection Hnew' as <-. done.
  - specialize (Hacc i er new' Her Hnew'). by rewrite <- app_assoc in Hacc.
Qed.

(** ** C54 *)

(** The log is what the installation recorded, followed by the blocks of each
    message in order: for each accepted call its transaction, for each failed
    outgoing call its refund, and nothing else. *)
Theorem C54_log_is_the_history now0 cycles args w0 tr w :
  is_u64 now0 -> wf_ledger_args args -> init_world now0 cycles args = Some w0 -> steps w0 tr w ->
  exists news, blocks (w_led w) = blocks (w_led w0) ++ concat news /\ length news = length tr
    /\ forall i er new, tr !! i = Some er -> news !! i = Some new -> accounts_for (take i tr) er new.
Proof.
  intros Hu Hwf Hi Hs. assert (reachable w0) as Hr by (by econstructor).
  apply (steps_accounts []); [done|done|]. intros id p.
  unfold init_world in Hi. destruct (init now0 args empty_state) as [s [[]| |]]; [|done|done].
  injection Hi as <-. cbn [w_pend]. by rewrite lookup_empty.
Qed.

(** Every block has a cause: it is one of the installation's, or an accepted call at
    its time asked for it, and a transfer, withdrawal or approval was asked for by
    the owner or the spender it names; or it belongs to the refund of an accepted
    call that sends cycles away. *)
Theorem C54_no_block_without_a_call now0 cycles args w0 tr w b :
  is_u64 now0 -> wf_ledger_args args -> init_world now0 cycles args = Some w0 -> steps w0 tr w ->
  b ∈ blocks (w_led w) ->
  b ∈ blocks (w_led w0)
  \/ (exists caller c sync resp,
        (EvCall (b_timestamp b) caller c sync, resp) ∈ tr /\ rejected resp = false
        /\ b_tx b = requested caller c
        /\ match tx_op (b_tx b) with
           | Transfer from _ sp _ _ => caller = owner (default from sp)
           | Burn from sp _ => caller = owner (default from sp)
           | Approve from _ _ _ _ _ => caller = owner from
           | Mint _ _ _ => True
           end)
  \/ (exists t caller c sync resp from sp amount,
        (EvCall t caller c sync, resp) ∈ tr /\ rejected resp = false
        /\ outgoing caller c = Some (from, sp, amount)
        /\ ((exists n, b_tx b = Tx (Mint from n 0) None (Some (refund_mark c)))
            \/ (exists x a e, sp = Some x
                 /\ b_tx b = Tx (Approve from x a None e None) None (Some (repeat Byte.xff 32))))).
Proof.
  intros Hu Hwf Hi Hs Hb.
  destruct (C54_log_is_the_history _ _ _ _ _ _ Hu Hwf Hi Hs) as (news & Hbs & Hlen & Hacc).
  rewrite Hbs in Hb. apply elem_of_app in Hb as [Hb|Hb]; [by left|right].
  apply elem_of_list_In, in_concat in Hb as (new & Hnew & Hin).
  apply elem_of_list_In in Hnew, Hin. apply elem_of_list_lookup_1 in Hnew as [i Hi2].
  destruct (lookup_lt_is_Some_2 tr i) as [er Her].
  { apply lookup_lt_Some in Hi2. lia. }
  specialize (Hacc i er new Her Hi2). pose proof (elem_of_list_lookup_2 _ _ _ Her) as Her'.
  assert (forall now c from sp returned l, b ∈ l -> refund_recorded now c from sp returned l ->
            (exists n, b_tx b = Tx (Mint from n 0) None (Some (refund_mark c)))
            \/ (exists x a e, sp = Some x
                 /\ b_tx b = Tx (Approve from x a None e None) None (Some (repeat Byte.xff 32)))) as Href.
  { intros now c from sp returned l Hbl (_ & b1 & H1 & _ & [->|(b2 & x & a & e & -> & Hx & _ & H2)]).
    - apply elem_of_list_singleton in Hbl as ->. eauto.
    - apply elem_of_cons in Hbl as [->|Hbl]; [eauto|]. apply elem_of_list_singleton in Hbl as ->.
      right. eauto. }
  destruct er as [[now caller c sync|now id ans refund|now u|n|n|now id refund] resp]; cbn [accounts_for] in Hacc;
    try (subst new; by apply elem_of_nil in Hin).
  - destruct (rejected resp) eqn:Erj; [subst new; by apply elem_of_nil in Hin|].
    destruct Hacc as (b1 & rest & -> & Ht & Hts & Hrest). apply elem_of_cons in Hin as [->|Hin].
    + left. exists caller, c, sync, resp. rewrite Hts, Ht. split; [done|]. split; [done|]. split; [done|].
      by destruct c.
    + right. destruct Hrest as [->|(from & sp & amount & Ho & _ & Hre)]; [by apply elem_of_nil in Hin|].
      exists now, caller, c, sync, resp, from, sp, amount. split; [done|]. split; [done|]. split; [done|].
      by eapply Href.
  - destruct Hacc as [->|(t & caller & c & sync & o & from & sp & amount & returned & code & Hc & Ho & _ & Hre)];
      [by apply elem_of_nil in Hin|].
    right. exists t, caller, c, sync, (RespPending id o), from, sp, amount.
    split; [by eapply elem_of_take in Hc as (? & ? & _); eapply elem_of_list_lookup_2|].
    split; [done|]. split; [done|]. by eapply Href.
Qed.

End WithEnv.

(** ** A case that meets the hypotheses: the demo history with its ten blocks *)
Lemma history_steps `{Env} now cycles args evs :
  (match history now cycles args evs with Some _ => true | None => false end) = true ->
  exists w0 tr, is_u64 now /\ wf_ledger_args args /\ init_world now cycles args = Some w0
    /\ steps w0 tr (the_world (history now cycles args evs)) /\ map fst tr = evs.
Proof.
  unfold history. destruct ((now <? U64_MOD) && wf_ledger_argsb args) eqn:E; [|done].
  apply andb_true_iff in E as [E1 E2]. destruct (init_world now cycles args) as [w0|] eqn:Ei; [|done].
  assert (forall evs w w', run w evs = Some w' -> exists tr, steps w tr w' /\ map fst tr = evs) as Hrun.
  { clear. induction evs as [|ev evs IH]; intros w w'; simpl.
    - intros [= <-]. exists []. split; [constructor|done].
    - destruct (ev_okb w ev) eqn:E; [|done]. intros (tr & Hs & Ht)%IH.
      eexists. split; [constructor; [by apply ev_okb_ok|exact Hs]|]. simpl. by rewrite Ht. }
  destruct (run w0 evs) as [w|] eqn:Er; [|done]. intros _. destruct (Hrun _ _ _ Er) as (tr & Hs & Ht).
  exists w0, tr. split; [unfold is_u64; lia|]. split; [by apply wf_ledger_argsb_ok|]. done.
Qed.
Example C54_case :
  exists w0 tr, is_u64 T0 /\ wf_ledger_args demo_init /\ init_world T0 (100 * T) demo_init = Some w0
    /\ steps w0 tr demo_world /\ map fst tr = demo_events
    /\ length (blocks (w_led demo_world)) = 10%nat.
Proof.
  destruct (history_steps T0 (100 * T) demo_init demo_events) as (w0 & tr & H1 & H2 & H3 & H4 & H5);
    [vm_compute; reflexivity|].
  exists w0, tr. split; [exact H1|]. split; [exact H2|]. split; [exact H3|]. split; [exact H4|].
  split; [exact H5|vm_compute; reflexivity].
Qed.

Print Assumptions C54_log_is_the_history.
Print Assumptions C54_no_block_without_a_call.
