(** * Sending the same bytes again

    C92 *)
From Verif Require Import Base Types Codec CodecFacts ValueHash State Ledger Canister Spec ApiSpec
  Inv Steps World PropertiesDedup Candid CandidProofs Demo.
From Verif Require Import Wire WireFacts PropertiesWire PropertiesNames Requests PropertiesRequests Endpoint PropertiesBytes.
From Verif Require PropertiesReceipts PropertiesCashOut.
Local Open Scope string_scope.
Local Open Scope N_scope.
Local Arguments label : simpl never.

Section WithEnv.
Context `{Env}.

(** ** Specification *)

(** The same message once more, at another time *)
Definition again (d : delivery) (now : N) (sync : option sync_error) : delivery :=
  Dlv now (d_caller d) (d_method d) (d_cycles d) (d_bytes d) sync.
(** The bytes that go back to the sender of [d] *)
Definition answer_to (d : delivery) (r : response) (txt : list byte) : option (list byte) :=
  sent_back (d_method d) r txt.

(** ** Proofs *)
Lemma message_ok w d c :
  may_happen w (Message d) -> asked_for d c -> ev_ok w (EvCall (d_now d) (d_caller d) c (d_sync d)).
Proof.
  intros (H1 & H2 & H3) Ha. eapply C89_messages_are_calls; [done..|]. by apply C89_messages_are_read_by_name.
Qed.
Lemma received w d c w' resp :
  asked_for d c -> receive w d = (w', Some resp) ->
  step w (EvCall (d_now d) (d_caller d) c (d_sync d)) = (w', resp).
Proof. intros Ha. rewrite (receive_asked _ _ _ Ha). destruct (step w _). by intros [= <- <-]. Qed.
Lemma read_back w d c w' resp txt b :
  reachable w -> may_happen w (Message d) -> asked_for d c -> receive w d = (w', Some resp) ->
  answer_to d resp txt = Some b ->
  ask say_nat at_block b = PropertiesReceipts.own_block resp /\ ask say_nat at_duplicate b = duplicate_of resp.
Proof.
  intros Hr Hm Ha Hx Hb. pose proof (message_ok _ _ _ Hm Ha) as Hok. pose proof (received _ _ _ _ _ Ha Hx) as Hs.
  destruct resp as [|r| |]; cbn [answer_to sent_back] in Hb; try discriminate. injection Hb as <-.
  assert ((step w (EvCall (d_now d) (d_caller d) c (d_sync d))).2 = RespReply r) as E2 by by rewrite Hs.
  pose proof (call_answers _ _ _ _ _ _ txt E2) as Hw. destruct Ha as (Em & _). rewrite Em in Hw.
  destruct (C88_answers_say_by_name _ _ _ _ _ Hr Hok E2 Hw) as (H1 & _ & _ & H3 & _). split; [exact H1|exact H3].
Qed.

Lemma resent w3 d c created i blk :
  reachable w3 -> may_happen w3 (Message d) -> asked_for d c -> created_of c = Some created ->
  blocks (w_led w3) !! N.to_nat i = Some blk -> b_tx blk = requested (d_caller d) c ->
  exists w4 resp', receive w3 d = (w4, Some resp')
  /\ unchanged w3 w4
  /\ (d_now d <= created + DAY + MINUTE ->
      forall txt', exists b', answer_to d resp' txt' = Some b'
        /\ ask say_nat at_block b' = None
        /\ (ask say_nat at_duplicate b' = Some i
            \/ exists j bj, ask say_nat at_duplicate b' = Some j /\ blocks (w_led w3) !! N.to_nat j = Some bj
                 /\ hash_clash (b_tx bj) (requested (d_caller d) c))).
Proof.
  intros Hr3 Hm Ha Hcr Hblk Htx.
  destruct (step w3 (EvCall (d_now d) (d_caller d) c (d_sync d))) as [w4 resp'] eqn:Hs.
  assert (receive w3 d = (w4, Some resp')) as Hx by (rewrite (receive_asked _ _ _ Ha); by rewrite Hs).
  exists w4, resp'. split; [exact Hx|]. pose proof (message_ok _ _ _ Hm Ha) as Hok. split.
  - eapply (C07_never_accepted_twice w3 (d_now d) (d_caller d) c (d_sync d)); [done|done|exact Hblk|done| |exact Hs].
    by rewrite Hcr.
  - intros Hw txt'.
    destruct (C08_retry_is_duplicate _ _ _ _ _ _ _ _ _ _ Hr3 Hok Hblk Htx Hcr Hw Hs) as (_ & Hrej & Hdup).
    assert (exists b', answer_to d resp' txt' = Some b') as (b' & Hb').
    { destruct resp' as [|r| |]; [|by eexists|..]; by destruct Hdup as [Hdup|(? & ? & Hdup & _)]. }
    exists b'. split; [exact Hb'|].
    destruct (read_back w3 d c w4 resp' txt' b' Hr3 Hm Ha Hx Hb') as [E1 E2].
    split; [rewrite E1; by apply PropertiesReceipts.rejected_names|]. rewrite E2. by rewrite <- Htx.
Qed.

(** A message, laid out in any way, whose call names its time of creation, was answered
    with a block number. Whatever bytes are sent then, the same message sent once more
    by the same sender changes nothing. Within a day and a minute of the time of
    creation it is answered, and the number of the first block stands in the answer
    under "Duplicate" (or the hash function clashes). *)
Theorem C92_resend now0 cycles args w0 hs1 w1 d c created w2 resp txt b i hs2 w3 now sync :
  is_u64 now0 -> wf_ledger_args args -> init_world now0 cycles args = Some w0 -> course w0 hs1 w1 ->
  may_happen w1 (Message d) -> asked_for d c -> created_of c = Some created ->
  receive w1 d = (w2, Some resp) -> answer_to d resp txt = Some b -> ask say_nat at_block b = Some i ->
  course w2 hs2 w3 -> may_happen w3 (Message (again d now sync)) ->
  exists w4 resp', receive w3 (again d now sync) = (w4, Some resp')
  /\ unchanged w3 w4
  /\ (now <= created + DAY + MINUTE ->
      forall txt', exists b', answer_to d resp' txt' = Some b'
        /\ ask say_nat at_block b' = None
        /\ (ask say_nat at_duplicate b' = Some i
            \/ exists j bj, ask say_nat at_duplicate b' = Some j /\ blocks (w_led w3) !! N.to_nat j = Some bj
                 /\ hash_clash (b_tx bj) (requested (d_caller d) c))).
Proof.
  intros Hu Hwa Hi Hc1 Hm Ha Hcr Hx Hb Hn Hc2 Hm'.
  assert (reachable w0) as Hr0 by (by econstructor).
  pose proof (C90_any_bytes_are_safe _ _ _ Hr0 Hc1) as Hr1.
  pose proof (message_ok _ _ _ Hm Ha) as Hok. pose proof (received _ _ _ _ _ Ha Hx) as Hs.
  assert (reachable w2) as Hr2 by (pose proof (reach_step _ _ Hr1 Hok) as Hy; by rewrite Hs in Hy).
  pose proof (C90_any_bytes_are_safe _ _ _ Hr2 Hc2) as Hr3.
  destruct (read_back _ _ _ _ _ _ _ Hr1 Hm Ha Hx Hb) as [Hown _].
  pose proof (eq_trans (eq_sym Hown) Hn) as Hown'. clear Hown.
  destruct (C90_any_bytes _ _ _ Hc1) as (tr1 & Hst1 & _).
  destruct (C90_any_bytes _ _ _ Hc2) as (tr2 & Hst2 & _).
  set (ev := EvCall (d_now d) (d_caller d) c (d_sync d)) in *.
  assert (steps w0 (tr1 ++ (ev, resp) :: tr2) w3) as Hst.
  { eapply PropertiesCashOut.steps_app; [exact Hst1|].
    pose proof (steps_cons w1 ev tr2 w3 Hok) as Hy. rewrite Hs in Hy. by apply Hy. }
  destruct (PropertiesReceipts.C81_receipts_last _ _ _ _ _ _ (length tr1) ev resp (d_now d) (d_caller d) c Hu Hwa Hi Hst)
    as (Hrec & _).
  { by rewrite lookup_app_r, Nat.sub_diag by done. }
  { left. by exists (d_sync d). }
  destruct (Hrec i Hown') as (blk & (Hblk & _) & Htx & _).
  exact (resent w3 (again d now sync) c created i blk Hr3 Hm' Ha Hcr Hblk Htx).
Qed.

(** The same for a call whose answer came after an outgoing call *)
Theorem C92_late_resend now0 cycles args w0 tr w3 k now id ans refund resp t c sync o created txt b i d :
  is_u64 now0 -> wf_ledger_args args -> init_world now0 cycles args = Some w0 -> steps w0 tr w3 ->
  (EvCall t (d_caller d) c sync, RespPending id o) ∈ take k tr -> tr !! k = Some (EvReply now id ans refund, resp) ->
  sent_back (method_of (ReqCall c)) resp txt = Some b -> ask say_nat at_block b = Some i ->
  may_happen w3 (Message d) -> asked_for d c -> created_of c = Some created ->
  exists w4 resp', receive w3 d = (w4, Some resp')
  /\ unchanged w3 w4
  /\ (d_now d <= created + DAY + MINUTE ->
      forall txt', exists b', answer_to d resp' txt' = Some b'
        /\ ask say_nat at_block b' = None
        /\ (ask say_nat at_duplicate b' = Some i
            \/ exists j bj, ask say_nat at_duplicate b' = Some j /\ blocks (w_led w3) !! N.to_nat j = Some bj
                 /\ hash_clash (b_tx bj) (requested (d_caller d) c))).
Proof.
  intros Hu Hwa Hi Hst Hin Hk Hb Hn Hm Ha Hcr.
  assert (reachable w0) as Hr0 by (by econstructor). pose proof (steps_reachable _ _ _ Hr0 Hst) as Hr3.
  destruct (C90_late_receipts _ _ _ _ _ _ _ _ _ _ _ _ _ _ _ _ _ txt b 0 [] Hu Hwa Hi Hst Hin Hk Hb) as (Hown & _).
  pose proof (eq_trans (eq_sym Hown) Hn) as Hown'. clear Hown.
  destruct (PropertiesReceipts.C81_receipts_last _ _ _ _ _ _ k _ _ t (d_caller d) c Hu Hwa Hi Hst Hk) as (Hrec & _).
  { right. by exists now, id, ans, refund, sync, o. }
  destruct (Hrec i Hown') as (blk & (Hblk & _) & Htx & _).
  exact (resent w3 d c created i blk Hr3 Hm Ha Hcr Hblk Htx).
Qed.
End WithEnv.

(** ** A case: carol's transfer of C90's case, sent again three seconds later *)
Example C92_case :
  init_world T0 (100 * T) demo_init = Some start /\ course start [] start
  /\ may_happen start (Message sent) /\ asked_for sent carols /\ created_of carols = Some T0
  /\ (exists b, (receive start sent).2 = Some (RespReply (RepTransfer (Ok 1)))
        /\ answer_to sent (RespReply (RepTransfer (Ok 1))) [] = Some b /\ ask say_nat at_block b = Some 1)
  /\ may_happen (receive start sent).1 (Message (again sent (T0 + 5 * sec) None))
  /\ T0 + 5 * sec <= T0 + DAY + MINUTE
  /\ (receive (receive start sent).1 (again sent (T0 + 5 * sec) None)).2
     = Some (RespReply (RepTransfer (Err (TDuplicate 1)))).
Proof.
  destruct C90_case as (Hi & _ & _ & _ & _ & _ & Hw & (b & H1 & H2 & H3) & _).
  split; [exact Hi|]. split; [apply course_nil|]. split; [apply may_message; vm_compute; reflexivity|]. split.
  { apply C89_messages_are_read_by_name. exact (C89_requests_are_understood _ Hw). }
  split; [reflexivity|]. split.
  { exists b. split; [exact H1|]. split; [|exact H3]. unfold answer_to.
    assert (d_method sent = MTransfer) as E by reflexivity. rewrite E. exact H2. }
  split; [apply may_message; vm_compute; reflexivity|]. split; [unfold DAY, MINUTE, sec; lia|].
  vm_compute. reflexivity.
Qed.

(** A withdrawal with a time of creation, answered after the delivery of its cycles and
    then sent again *)
Definition timed : call := CallWithdraw None canister (Some T0) (2 * T).
Definition timed_ev : event := EvCall (T0 + sec) carol timed None.
Definition timed_world : world := (step (step start timed_ev).1 delivered).1.
Definition resend : delivery :=
  Dlv (T0 + 5 * sec) carol MWithdraw 0 (request_bytes (ReqCall timed)) None.
Example C92_late_case :
  steps start [(timed_ev, (step start timed_ev).2); (delivered, (step (step start timed_ev).1 delivered).2)] timed_world
  /\ (exists o, (step start timed_ev).2 = RespPending 0 o)
  /\ (exists b, sent_back MWithdraw (step (step start timed_ev).1 delivered).2 [] = Some b /\ ask say_nat at_block b = Some 1)
  /\ may_happen timed_world (Message resend) /\ asked_for resend timed /\ created_of timed = Some T0
  /\ (receive timed_world resend).2 = Some (RespReply (RepWithdraw (Err (WDuplicate 1)))).
Proof.
  split.
  { apply steps_cons; [apply ev_okb_ok; vm_compute; reflexivity|].
    apply steps_cons; [apply ev_okb_ok; vm_compute; reflexivity|]. apply steps_nil. }
  split; [eexists; vm_compute; reflexivity|].
  split; [eexists; split; vm_compute; reflexivity|].
  split; [apply may_message; vm_compute; reflexivity|]. split.
  { apply C89_messages_are_read_by_name. apply (C89_requests_are_understood (ReqCall timed)).
    split; [apply wf_callb_ok; vm_compute; reflexivity|exact I]. }
  split; [reflexivity|]. vm_compute. reflexivity.
Qed.

Print Assumptions C92_resend.
Print Assumptions C92_late_resend.
