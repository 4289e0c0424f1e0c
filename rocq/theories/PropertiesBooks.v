(** * Balances follow from the calls and their answers

    C82 *)
From Verif Require Import Base Types Codec CodecFacts CodecProofs State Ledger Canister Effects Spec ApiSpec
  Inv Steps World CallFacts CallCases StepFacts AllowFacts RefundFacts AsyncFacts EventFacts CreateFacts
  PropertiesHistory PropertiesReceipts Demo.

(** ** Specification *)

(** What account [a] pays for the accepted call [c] of [caller]: the amount and the
    fee; a deposit is paid by its sender's cycles. *)
Definition pays (caller : principal) (c : call) (a : account) : N :=
  match c with
  | CallDeposit _ _ _ => 0
  | CallTransfer sub _ amount _ _ _ => if_acct a (Acct caller sub) (amount + icrc1_fee)
  | CallTransferFrom _ from _ amount _ _ _ => if_acct a from (amount + icrc1_fee)
  | CallApprove sub _ _ _ _ _ _ _ => if_acct a (Acct caller sub) icrc1_fee
  | CallWithdraw sub _ _ amount => if_acct a (Acct caller sub) (amount + icrc1_fee)
  | CallWithdrawFrom _ from _ _ amount => if_acct a from (amount + icrc1_fee)
  | CallCreateCanister sub _ amount _ => if_acct a (Acct caller sub) (amount + icrc1_fee)
  | CallCreateCanisterFrom from _ _ amount _ => if_acct a from (amount + icrc1_fee)
  end.
(** What account [a] gets by it: the amount of a transfer, the cycles of a deposit
    less the fee. *)
Definition gets_paid (c : call) (a : account) : N :=
  match c with
  | CallDeposit cycles to _ => if_acct a to (cycles - icrc1_fee)
  | CallTransfer _ to amount _ _ _ => if_acct a to amount
  | CallTransferFrom _ _ to amount _ _ _ => if_acct a to amount
  | _ => 0
  end.

(** The call that a call-back with identifier [id] belongs to *)
Fixpoint waiting_call (id : N) (before : list (event * response)) : option (principal * call) :=
  match before with
  | [] => None
  | (EvCall _ caller c _, RespPending id' _) :: rest =>
      if id' =? id then Some (caller, c) else waiting_call id rest
  | _ :: rest => waiting_call id rest
  end.
(** The call that the response to [ev] answers *)
Definition answered_call (before : list (event * response)) (ev : event) : option (principal * call) :=
  match ev with
  | EvCall _ caller c _ => Some (caller, c)
  | EvReply _ id _ _ => waiting_call id before
  | _ => None
  end.

(** What account [a] loses and gains by one message, as its answer tells. *)
Definition booked_out (before : list (event * response)) (er : event * response) (a : account) : N :=
  match er.1 with
  | EvCall _ caller c _ => if rejected er.2 then 0 else pays caller c a
  | _ => 0
  end
  + match answered_call before er.1, approval_block er.2 with
    | Some (caller, c), Some _ =>
        (* giving the allowance back costs the account a fee *)
        match outgoing caller c with Some (from, _, _) => if_acct a from icrc1_fee | None => 0 end
    | _, _ => 0
    end.
Definition booked_in (before : list (event * response)) (er : event * response) (a : account) : N :=
  match er.1 with
  | EvCall _ _ c _ => if rejected er.2 then 0 else gets_paid c a
  | _ => 0
  end
  + match answered_call before er.1, refund_block er.2 with
    | Some (caller, c), Some _ =>
        (* what came back, less the fee *)
        match outgoing caller c with
        | Some (from, _, amount) => if_acct a from (default 0 (came_back er.1 amount) - icrc1_fee)
        | None => 0
        end
    | _, _ => 0
    end.
(** The sum over a piece [tr] of the history that follows [before] *)
Fixpoint booked (f : list (event * response) -> event * response -> account -> N)
  (before tr : list (event * response)) (a : account) : N :=
  match tr with
  | [] => 0
  | er :: rest => f before er a + booked f (before ++ [er]) rest a
  end.

Section WithEnv.
Context `{Env}.

(** ** Proofs *)

Lemma pays_taken caller c a : op_taken (tx_op (requested caller c)) (to_key a) = pays caller c a.
Proof. by destruct c. Qed.
Lemma gets_given caller c a : op_given (tx_op (requested caller c)) (to_key a) = gets_paid c a.
Proof. by destruct c. Qed.

Lemma waiting_call_in id before caller c :
  waiting_call id before = Some (caller, c) ->
  exists t sync o, (EvCall t caller c sync, RespPending id o) ∈ before.
Proof.
  induction before as [|[ev r] rest IH]; [done|]. simpl.
  assert (waiting_call id rest = Some (caller, c) ->
    exists t sync o, (EvCall t caller c sync, RespPending id o) ∈ (ev, r) :: rest) as Hrest.
  { intros (t & sync & o & Hin)%IH. exists t, sync, o. by right. }
  destruct ev as [t caller' c' sync| | | | |]; try exact Hrest.
  destruct r as [| |id' o|]; try exact Hrest.
  destruct (N.eqb_spec id' id) as [->|_]; [|exact Hrest]. intros [= -> ->].
  exists t, sync, o. by left.
Qed.
Lemma waiting_call_some id before t caller c sync o :
  (EvCall t caller c sync, RespPending id o) ∈ before -> is_Some (waiting_call id before).
Proof.
  induction before as [|[ev r] rest IH]; [by intros []%elem_of_nil|].
  intros [[= <- <-]|Hin]%elem_of_cons.
  - simpl. rewrite N.eqb_refl. eauto.
  - simpl. destruct ev as [t' caller' c' sync'| | | | |]; try by apply IH.
    destruct r as [| |id' o'|]; try by apply IH.
    destruct (id' =? id); [eauto|by apply IH].
Qed.

Lemma ended_balance s s' now p ans r a n :
  ended s s' now p ans r -> ((exists t, r = RespTrap t) -> s' = s) ->
  fst <$> answer_returned (pending_amount p) ans = n ->
  icrc1_balance_of s' a + (if approval_block r then if_acct a (p_from p) icrc1_fee else 0)
  = icrc1_balance_of s a + (if refund_block r then if_acct a (p_from p) (default 0 n - icrc1_fee) else 0).
Proof.
  intros (_ & _ & [(E1 & E2 & E3)|(n' & code & fb & Hn & _ & E1 & He)]) Hsame <-.
  - rewrite E1, E2. destruct E3 as [E3|E3]; [by rewrite (same_money_balance _ _ _ E3)|by rewrite (Hsame E3)].
  - rewrite E1, Hn. simpl. destruct (approval_block r) as [j|].
    + destruct He as (_ & _ & Hb & _). exact (Hb a).
    + destruct He as (_ & Hb & _). rewrite N.add_0_r. exact (Hb a).
Qed.

Lemma event_booked before w ev w' resp a :
  reachable w -> ev_ok w ev -> step w ev = (w', resp) -> waiting_explained before w -> left_waiting before w ->
  icrc1_balance_of (w_led w') a + booked_out before (ev, resp) a
  = icrc1_balance_of (w_led w) a + booked_in before (ev, resp) a.
Proof.
  intros Hr Hev Hst Hwe Hlw. unfold booked_out, booked_in.
  destruct ev as [now caller c sync|now id ans refund|now args|n|n|now id refund]; cbn [fst snd answered_call came_back].
  - destruct (call_inv _ _ _ _ _ Hr Hev) as (Hi & Hu & _).
    destruct (rejected resp) eqn:Erj.
    { destruct (step_rejected _ _ _ _ _ _ _ Hr Hev Hst Erj) as [-> _].
      destruct (rejected_names _ Erj) as (_ & -> & ->). done. }
    destruct (step_accepted _ _ _ _ _ _ _ Hr Hev Hst Erj) as (Hok & r & Ha & Hm).
    pose proof (recorded_balance now _ _ a Hok) as Hrec. rewrite pays_taken, gets_given in Hrec.
    inversion Ha as [s1 resp1 E1 Hd E2|s1 p E1 Hp Hsf Hpo E2|s1 p e s2 resp1 E1 Hp Hsf Hpo _ Hpr Hsr E2]; subst.
    + destruct Hm as [<- _].
      assert (refund_block resp = None /\ approval_block resp = None) as [-> ->].
      { destruct c; simpl in Hd; try done; injection Hd as <-; done. }
      rewrite !N.add_0_r, E1. exact Hrec.
    + destruct Hm as [-> _]. rewrite !N.add_0_r, E1. exact Hrec.
    + destruct Hm as [<- _]. unfold sync_rest in Hsr.
      destruct (sync_answer_resume now p e) as [k Hk]. rewrite Hk in Hsr.
      set (s1 := recorded now (requested caller c) (w_led w)) in *.
      destruct (commit (w_led w) (k s1)) as [s2 r2] eqn:Ec. injection Hsr as -> ->.
      assert (inv now s1) as Hi1 by (by apply recorded_inv).
      pose proof (resume_ended _ _ _ _ _ _ _ _ Hi1 Hu Hpo (sync_answer_u128 p e) Hk Ec) as Hend.
      assert (fst <$> answer_returned (pending_amount p) (sync_answer p e) = Some (pending_amount p)) as Hret
        by (by destruct p).
      rewrite (pending_outgoing _ _ _ _ _ Hp).
      pose proof (ended_balance _ _ _ _ _ _ a _ Hend ltac:(intros [t ->]; done) Hret) as Hb.
      cbn [default] in Hb. unfold icrc1_balance_of in *.
      revert Hb Hrec. fold s1. destruct (approval_block resp), (refund_block resp); cbv beta iota; cbn [default]; clear; intros; lia.
  - cbn [step] in Hst. destruct (w_pend w !! id) as [p|] eqn:Ep.
    2: { injection Hst as <- <-. simpl. by destruct (waiting_call id before) as [[]|]. }
    destruct (resume now p ans) as [k|] eqn:Ek.
    2: { injection Hst as <- <-. simpl. by destruct (waiting_call id before) as [[]|]. }
    destruct (commit _ _) as [s' r] eqn:Ec. injection Hst as <- <-. cbn [w_led].
    destruct (reply_inv _ _ _ _ _ Hr Hev) as (Hi & Hu & Hans).
    destruct (reachable_winv _ Hr) as (_ & _ & Hwp). destruct (Hwp _ _ Ep) as [_ Hpo].
    pose proof (resume_ended _ _ _ _ _ _ _ _ Hi Hu Hpo (wf_answer_u128 _ Hans) Ek Ec) as Hend.
    destruct (Hwe _ _ Ep) as (t0 & caller0 & c0 & sync0 & o0 & Hin0 & _).
    destruct (waiting_call_some _ _ _ _ _ _ _ Hin0) as [[caller c] Hwc]. rewrite Hwc.
    apply waiting_call_in in Hwc as (t & sync & o & Hin).
    destruct (Hlw _ _ _ _ _ _ Hin) as [_ Hl]. destruct (Hl _ Ep) as (Ho & _). rewrite Ho.
    assert ((exists t, r = RespTrap t) -> s' = w_led w) as Htrap.
    { intros [t' ->].
      destruct (resume_outcome _ _ _ _ _ _ _ _ Hi Hu Hpo (wf_answer_u128 _ Hans) Ek Ec)
        as [(? & _ & ?)|[[? ?] _]]; done. }
    pose proof (ended_balance _ _ _ _ _ _ a _ Hend Htrap eq_refl) as Hb.
    rewrite !N.add_0_l. destruct (approval_block r), (refund_block r); exact Hb.
  - simpl. rewrite !N.add_0_r. cbn [step] in Hst.
    rewrite (reload_eq _ _ (reachable_inv _ Hr)) in Hst.
    destruct (post_upgrade args (set_p0 [] (w_led w))) as [s' o] eqn:E.
    destruct (post_upgrade_cfg _ _ _ _ E) as [c ->]. destruct o as [[]|[]|t]; by injection Hst as <- _.
  - injection Hst as <- _. done.
  - injection Hst as <- _. done.
  - apply step_crash in Hst as [-> _]. done.
Qed.

Lemma steps_booked before w tr w' a :
  reachable w -> steps w tr w' -> waiting_explained before w -> history_ok before w ->
  icrc1_balance_of (w_led w') a + booked booked_out before tr a
  = icrc1_balance_of (w_led w) a + booked booked_in before tr a.
Proof.
  intros Hr Hs. revert before. induction Hs as [w|w ev tr w' Hev Hs IH]; intros before Hwe Hh; [done|].
  destruct (step w ev) as [w1 resp] eqn:Est. cbn [fst snd] in *.
  assert (reachable w1) as Hr1 by (replace w1 with (step w ev).1 by (by rewrite Est); by constructor).
  pose proof (event_booked before w ev w1 resp a Hr Hev Est Hwe (proj1 Hh)) as H1.
  pose proof (IH Hr1 (before ++ [(ev, resp)]) (waiting_step _ _ _ _ _ Hr Hev Est Hwe)
    (history_step _ _ _ _ _ Hr Hev Est Hh)) as H2.
  cbn [booked]. lia.
Qed.

(** ** C82 *)

(** Between any two points of a history the balance of every account changes by
    exactly what the calls and their answers book: what is paid for accepted calls,
    what accepted transfers and deposits bring, the refunds the answers name and the
    fee for each allowance they say was given back. *)
Theorem C82_books now0 cycles args w0 before w tr w' a :
  is_u64 now0 -> wf_ledger_args args -> init_world now0 cycles args = Some w0 ->
  steps w0 before w -> steps w tr w' ->
  icrc1_balance_of (w_led w') a + booked booked_out before tr a
  = icrc1_balance_of (w_led w) a + booked booked_in before tr a.
Proof.
  intros Hu Hwf Hi Hs1 Hs2. assert (reachable w0) as Hr0 by (by econstructor).
  assert (waiting_explained [] w0) as Hwe0.
  { intros id p. unfold init_world in Hi. destruct (init now0 args empty_state) as [s [[]| |]]; [|done|done].
    injection Hi as <-. cbn [w_pend]. by rewrite lookup_empty. }
  assert (reachable w /\ waiting_explained before w) as [Hr Hwe].
  { clear Hs2. change before with ([] ++ before). revert Hr0 Hwe0. generalize (@nil (event * response)) as pre.
    clear Hi. induction Hs1 as [w|w ev tr1 w1 Hev Hs IH]; intros pre Hr Hwe; [by rewrite app_nil_r|].
    destruct (step w ev) as [w2 resp] eqn:Est. cbn [fst snd] in *.
    assert (reachable w2) as Hr1 by (replace w2 with (step w ev).1 by (by rewrite Est); by constructor).
    specialize (IH (pre ++ [(ev, resp)]) Hr1 (waiting_step _ _ _ _ _ Hr Hev Est Hwe)).
    by rewrite <- app_assoc in IH. }
  apply steps_booked; [done..|]. by eapply install_history.
Qed.

(** An account whose owner makes no accepted call that costs it, and on whose behalf
    nobody makes one, never loses anything. *)
Corollary C82_untouched_account now0 cycles args w0 before w tr w' a :
  is_u64 now0 -> wf_ledger_args args -> init_world now0 cycles args = Some w0 ->
  steps w0 before w -> steps w tr w' ->
  (forall now caller c sync resp, (EvCall now caller c sync, resp) ∈ before ++ tr -> rejected resp = false ->
     pays caller c a = 0) ->
  icrc1_balance_of (w_led w) a <= icrc1_balance_of (w_led w') a.
Proof.
  intros Hu Hwf Hi Hs1 Hs2 Hno. pose proof (C82_books _ _ _ _ _ _ _ _ a Hu Hwf Hi Hs1 Hs2) as Hb.
  assert (booked booked_out before tr a = 0) as Hz; [|lia].
  clear -Hno. revert before Hno. induction tr as [|[ev resp] tr IH]; intros before Hno; [done|]. simpl.
  rewrite IH; [|intros ? ? ? ? ? Hin; rewrite <- app_assoc in Hin; by eapply Hno].
  assert (forall now caller c sync resp' from sp amount, (EvCall now caller c sync, resp') ∈ before ++ (ev, resp) :: tr ->
    rejected resp' = false -> outgoing caller c = Some (from, sp, amount) -> if_acct a from icrc1_fee = 0) as Hfee.
  { intros now caller c sync resp' from sp amount Hin Hrj Ho. specialize (Hno _ _ _ _ _ Hin Hrj).
    destruct c; simpl in Ho; try done; injection Ho as <- _ <-; simpl in Hno; unfold if_acct, icrc1_fee in *;
      destruct (decide _); try done; lia. }
  assert ((ev, resp) ∈ before ++ (ev, resp) :: tr) as Hin by (apply elem_of_app; right; by left).
  rewrite N.add_0_r. unfold booked_out. cbn [fst snd].
  destruct ev as [now caller c sync|now id ans refund|now args'|n|n|now id refund]; cbn [answered_call]; try done.
  - destruct (rejected resp) eqn:Erj; [destruct (rejected_names _ Erj) as (_ & _ & ->); done|].
    rewrite (Hno _ _ _ _ _ Hin Erj). destruct (approval_block resp); [|done].
    destruct (outgoing caller c) as [[[from sp] amount]|] eqn:Eo; [|done]. rewrite N.add_0_l. by eapply Hfee.
  - rewrite N.add_0_l. destruct (waiting_call id before) as [[caller c]|] eqn:Ew; [|done].
    destruct (approval_block resp); [|done].
    destruct (outgoing caller c) as [[[from sp] amount]|] eqn:Eo; [|done].
    apply waiting_call_in in Ew as (t & sync & o & Hw). eapply Hfee; [apply elem_of_app; by left|done|done].
Qed.

End WithEnv.

(** ** A case that meets the hypotheses: Alice's books over the demo history.  She
    gets a deposit and the refund of Bob's withdrawal on her behalf, and pays for a
    transfer, an approval, Bob's transfer and withdrawal, the approval given back, a
    creation and a withdrawal. *)
Example C82_case :
  exists w0 tr, is_u64 T0 /\ wf_ledger_args demo_init /\ init_world T0 (100 * T) demo_init = Some w0
    /\ steps w0 tr demo_world /\ map fst tr = demo_events
    /\ booked booked_in [] tr (acct alice) = (10 * T - FEE) + (T - FEE)
    /\ booked booked_out [] tr (acct alice)
       = (2 * T + FEE) + FEE + (T + FEE) + (T + FEE) + (T + FEE) + FEE + (T + FEE).
Proof.
  destruct (history_steps T0 (100 * T) demo_init demo_events) as (w0 & tr & H1 & H2 & H3 & H4 & H5);
    [vm_compute; reflexivity|].
  pose proof (steps_run_responses _ _ _ H4) as H6. rewrite H5 in H6.
  eexists w0, tr. split; [exact H1|]. split; [exact H2|]. split; [exact H3|]. split; [exact H4|].
  split; [exact H5|]. clear H4.
  assert (w0 = the_world (init_world T0 (100 * T) demo_init)) as -> by (by rewrite H3).
  assert (tr = zip demo_events (map snd tr)) as E.
  { rewrite <- H5. clear. induction tr as [|[a b] tr IH]; simpl; [done|]. by f_equal. }
  rewrite H6 in E. clear H3 H5 H6. subst tr.
  split; vm_compute; reflexivity.
Qed.

Print Assumptions C82_books.
Print Assumptions C82_untouched_account.
