(** * Bytes in, bytes out

    C90 *)
From Verif Require Import Base Types Codec CodecFacts ValueHash State Ledger Canister Spec ApiSpec
  Inv Steps World Candid CandidProofs Demo.
From Verif Require Import Wire WireFacts WireInj PropertiesWire PropertiesNames Requests PropertiesRequests Endpoint.
From Verif Require PropertiesReceipts PropertiesCashOut CreateFacts.
Local Open Scope string_scope.
Local Open Scope N_scope.
Local Arguments label : simpl never.

Section WithEnv.
Context `{Env}.

(** ** Specification *)

(** What can happen next: a message with any bytes, or something that is not a call
    (an outgoing call ends, an upgrade, cycles are used or come in). *)
Inductive happening := Message (d : delivery) | Other (ev : event).
Definition is_call (ev : event) : bool := match ev with EvCall _ _ _ _ => true | _ => false end.
Definition may_happen (w : world) (h : happening) : Prop :=
  match h with
  | Message d => time_ok w (d_now d) /\ wf_principal (d_caller d) /\ is_u128 (d_cycles d)
  | Other ev => is_call ev = false /\ ev_ok w ev
  end.
Definition after (w : world) (h : happening) : world :=
  match h with Message d => (receive w d).1 | Other ev => (step w ev).1 end.
Inductive course : world -> list happening -> world -> Prop :=
| course_nil w : course w [] w
| course_cons w h hs w' : may_happen w h -> course (after w h) hs w' -> course w (h :: hs) w'.

(** [evs] are the calls that were asked for by name, in the order of the messages, and
    the other events; nothing stands for a message that asks for no call of its method. *)
Definition asked_for (d : delivery) (c : call) : Prop :=
  method_of (ReqCall c) = d_method d /\ sent_with (d_cycles d) (ReqCall c)
  /\ exists v, argument (d_bytes d) = Some v /\ asks v (ReqCall c).
Inductive calls_in : list happening -> list event -> Prop :=
| calls_nil : calls_in [] []
| calls_asked d c hs evs : asked_for d c -> calls_in hs evs ->
    calls_in (Message d :: hs) (EvCall (d_now d) (d_caller d) c (d_sync d) :: evs)
| calls_not d hs evs : (forall c, ~ asked_for d c) -> calls_in hs evs -> calls_in (Message d :: hs) evs
| calls_other ev hs evs : calls_in hs evs -> calls_in (Other ev :: hs) (ev :: evs).

(** ** Proofs *)

Lemma receive_asked w d c :
  asked_for d c ->
  receive w d = let (w', r) := step w (EvCall (d_now d) (d_caller d) c (d_sync d)) in (w', Some r).
Proof. intros Ha%C89_messages_are_read_by_name. unfold receive. by rewrite Ha. Qed.
Lemma receive_not w d : (forall c, ~ asked_for d c) -> receive w d = (w, None).
Proof.
  intros Hn. unfold receive. destruct (read_request _ _ _) as [[c| | | |]|] eqn:E; try done.
  apply C89_messages_are_read_by_name in E. by apply Hn in E.
Qed.
Lemma asked_or_not d : (exists c, asked_for d c) \/ (forall c, ~ asked_for d c).
Proof.
  destruct (read_request (d_method d) (d_cycles d) (d_bytes d)) as [q|] eqn:E.
  - destruct q as [c| | | |]; [left; exists c; by apply C89_messages_are_read_by_name|..];
      right; intros c Ha; apply C89_messages_are_read_by_name in Ha; congruence.
  - right. intros c Ha. apply C89_messages_are_read_by_name in Ha. congruence.
Qed.

(** Whatever bytes are sent to the ledger, what happens to it is what the calls do that
    are in the messages by name. *)
Theorem C90_any_bytes w hs w' :
  course w hs w' -> exists tr, steps w tr w' /\ calls_in hs tr.*1.
Proof.
  induction 1 as [w|w h hs w' Hm _ (tr & Ht & Hc)]; [exists []; split; constructor|].
  destruct h as [d|ev]; cbn [may_happen after] in *.
  - destruct Hm as (H1 & H2 & H3). destruct (asked_or_not d) as [(c & Ha)|Hn].
    + rewrite (receive_asked _ _ _ Ha) in Ht.
      eexists ((EvCall (d_now d) (d_caller d) c (d_sync d), _) :: tr). split.
      * constructor.
        -- eapply C89_messages_are_calls; [done..|]. by apply C89_messages_are_read_by_name.
        -- destruct (step w _) as [w1 r]. exact Ht.
      * cbn [fmap list_fmap fst]. by constructor.
    + rewrite (receive_not _ _ Hn) in Ht. exists tr. split; [exact Ht|]. by constructor.
  - destruct Hm as [_ Hm]. eexists ((ev, _) :: tr). split; [by constructor|].
    cbn [fmap list_fmap fst]. by constructor.
Qed.

(** So every property of the reachable states holds whatever is sent. *)
Theorem C90_any_bytes_are_safe w hs w' : reachable w -> course w hs w' -> reachable w'.
Proof.
  intros Hr (tr & Ht & _)%C90_any_bytes. clear hs. induction Ht as [|w ev tr w' Hok Ht IH]; [done|].
  apply IH. by constructor.
Qed.

(** A message that asks for no call of its method changes nothing and is not answered. *)
Theorem C90_not_understood w d : (forall c, ~ asked_for d c) -> receive w d = (w, None).
Proof. apply receive_not. Qed.

Lemma done_answers now avail caller c sync s s' r txt :
  exec_call now avail caller c sync s = (s', Done (RespReply r)) ->
  Wire.answers (method_of (ReqCall c)) (AnsReply r txt).
Proof.
  assert (forall E A (wrap : result E A -> reply) (m : M E A) s s0 s1 r0,
    commit s0 (as_reply wrap m s) = (s1, RespReply r0) -> exists x, r0 = wrap x) as Has.
  { intros E A wrap m s0 s1 s2 r0. unfold as_reply. destruct (m s0) as [s3 [a|e|t]]; cbn; intros [= _ <-]; eauto. }
  assert (forall fe m s s0 s1 r0, commit s0 (withdraw_reply fe m s) = (s1, RespReply r0) ->
    if fe : bool then exists x, r0 = RepWithdrawFrom x else exists x, r0 = RepWithdraw x) as Hw.
  { intros fe m s0 s1 s2 r0. unfold withdraw_reply. destruct fe; apply Has. }
  assert (forall fe m s s0 s1 r0, commit s0 (create_reply fe m s) = (s1, RespReply r0) ->
    if fe : bool then exists x, r0 = RepCreateFrom x else exists x, r0 = RepCreate x) as Hc.
  { intros fe m s0 s1 s2 r0. unfold create_reply. destruct fe; apply Has. }
  assert (forall fe from to sp amount cr s1,
    (forall s2 p, execute_withdraw now fe from to sp amount cr s1 = (s2, OOk p) ->
       exists a b c d e f, p = PWithdraw fe a b c d e f)) as Hpw.
  { intros fe from to sp amount cr s1 s2 p. unfold execute_withdraw. destruct (nat_to_u128 amount) as [n|]; [|done].
    unfold bindM. destruct (withdraw_start _ _ _ _ _ _ s1) as [s3 [[i o]|e|t]]; intros [= _ <-]; eauto 10. }
  assert (forall fe cl from sp amount cr arg s1,
    (forall s2 p, execute_create now fe cl from sp amount cr arg s1 = (s2, OOk p) ->
       exists a b c d e f g, p = PCreate fe a b c d e f g)) as Hpc.
  { intros fe cl from sp amount cr arg s1 s2 p. unfold execute_create. destruct (nat_to_u128 amount) as [n|]; [|done].
    unfold bindM. destruct (create_start _ _ _ _ _ s1) as [s3 [[i o]|e|t]]; intros [= _ <-]; eauto 10. }
  assert (forall fe from to sp amount cr,
    start_async now avail sync (fail_withdraw fe) (execute_withdraw now fe from to sp amount cr) s = (s', Done (RespReply r)) ->
    if fe : bool then exists x, r = RepWithdrawFrom x else exists x, r = RepWithdraw x) as Haw.
  { intros fe from to sp amount cr. unfold start_async.
    destruct (execute_withdraw now fe from to sp amount cr s) as [s1 [p|e|t]] eqn:E.
    - apply Hpw in E as (? & ? & ? & ? & ? & ? & ->). cbn [sync_answer resume].
      destruct (match sync with Some e => _ | None => _ end) as [e|]; [|done].
      destruct (commit s _) as [s2 r2] eqn:Ec. intros [= <- ->]. by eapply Hw.
    - destruct (commit s _) as [s2 r2] eqn:Ec. intros [= <- ->]. by eapply Hw.
    - destruct (commit s _) as [s2 r2] eqn:Ec. intros [= <- ->]. by eapply Hw. }
  assert (forall fe cl from sp amount cr arg,
    start_async now avail sync (fail_create fe) (execute_create now fe cl from sp amount cr arg) s = (s', Done (RespReply r)) ->
    if fe : bool then exists x, r = RepCreateFrom x else exists x, r = RepCreate x) as Hac.
  { intros fe cl from sp amount cr arg. unfold start_async.
    destruct (execute_create now fe cl from sp amount cr arg s) as [s1 [p|e|t]] eqn:E.
    - apply Hpc in E as (? & ? & ? & ? & ? & ? & ? & ->). cbn [sync_answer resume].
      destruct (match sync with Some e => _ | None => _ end) as [e|]; [|done].
      destruct (commit s _) as [s2 r2] eqn:Ec. intros [= <- ->]. by eapply Hc.
    - destruct (commit s _) as [s2 r2] eqn:Ec. intros [= <- ->]. by eapply Hc.
    - destruct (commit s _) as [s2 r2] eqn:Ec. intros [= <- ->]. by eapply Hc. }
  destruct c; cbn [exec_call method_of].
  - destruct (commit s _) as [s2 r2] eqn:Ec. intros [= <- ->].
    unfold ep_deposit, bindM in Ec. destruct (or_trap _ _ s) as [s3 [[i b]|e|t]]; cbn in Ec; [|done|done].
    injection Ec as _ <-. done.
  - destruct (commit s _) as [s2 r2] eqn:Ec. intros [= <- ->]. apply Has in Ec as (x & ->). done.
  - destruct (commit s _) as [s2 r2] eqn:Ec. intros [= <- ->]. apply Has in Ec as (x & ->). done.
  - destruct (commit s _) as [s2 r2] eqn:Ec. intros [= <- ->]. apply Has in Ec as (x & ->). done.
  - intros (x & ->)%(Haw false). done.
  - intros (x & ->)%(Haw true). done.
  - intros (x & ->)%(Hac false). done.
  - intros (x & ->)%(Hac true). done.
Qed.
Lemma done_not_pending now avail caller c sync s s' id o :
  exec_call now avail caller c sync s <> (s', Done (RespPending id o)).
Proof.
  assert (forall s0 x s1, commit s0 x <> (s1, RespPending id o)) as Hco by (by intros s0 [s1 [a|[]|t]] s2 [=]).
  assert (forall E (fail : M E pending -> M Empty_set reply) (m : M E pending),
    start_async now avail sync fail m s <> (s', Done (RespPending id o))) as Hsa.
  { intros E fail m. unfold start_async. destruct (m s) as [s1 [q|e|t]].
    - destruct (match sync with Some e => _ | None => _ end) as [e|]; [|done].
      destruct (resume now q (sync_answer q e)) as [k|]; [|done].
      destruct (commit s (k s1)) as [s2 r2] eqn:Ec. intros [= <- ->]. by apply Hco in Ec.
    - destruct (commit s _) as [s2 r2] eqn:Ec. intros [= <- ->]. by apply Hco in Ec.
    - destruct (commit s _) as [s2 r2] eqn:Ec. intros [= <- ->]. by apply Hco in Ec. }
  destruct c; cbn [exec_call]; try apply Hsa;
    destruct (commit s _) as [s2 r2] eqn:Ec; intros [= <- ->]; by apply Hco in Ec.
Qed.
Lemma call_answers w now caller c sync r txt :
  (step w (EvCall now caller c sync)).2 = RespReply r ->
  Wire.answers (method_of (ReqCall c)) (AnsReply r txt).
Proof.
  cbn [step]. destruct (exec_call _ _ _ _ _ _) as [s' [r0|p]] eqn:E; cbn [snd]; [|done].
  intros ->. by eapply done_answers.
Qed.

(** A query that is sent by the interface file is answered by what it asks for, and the
    client finds it under the names of the interface file. *)
Theorem C90_queries w now caller :
  reachable w ->
  (forall a, wf_account a ->
     exists b, query w now caller MBalance (request_bytes (ReqBalance a)) = Some b
       /\ ask say_nat [[]] b = Some (icrc1_balance_of (w_led w) a))
  /\ (forall a s, wf_account a -> wf_account s ->
     exists b, query w now caller MAllowance (request_bytes (ReqAllowance a s)) = Some b
       /\ ask say_nat [["allowance"]] b = Some (icrc2_allowance (w_led w) now a s).1
       /\ ask say_time [["expires_at"]] b = (icrc2_allowance (w_led w) now a s).2)
  /\ (forall ranges,
     exists b, query w now caller MBlocks (request_bytes (ReqBlocks ranges)) = Some b
       /\ ask say_nat [["log_length"]] b = Some (br_log_length (icrc3_get_blocks (w_led w) ranges))
       /\ ask (say_all say_block) [["blocks"]] b = Some (br_blocks (icrc3_get_blocks (w_led w) ranges)))
  /\ (forall from prev take, wf_opt_account from -> wf_opt_account prev ->
     exists b, query w now caller MAllowances (request_bytes (ReqAllowances from prev take)) = Some b
       /\ ask (say_all (fun v => Some (say_allowance v))) [["Ok"]] b
          = Some (map (fun e =>
               (Some (owner (ae_from e)), sub_bytes <$> subacct (ae_from e),
                (Some (owner (ae_spender e)), sub_bytes <$> subacct (ae_spender e)),
                Some (ae_amount e), ae_expires e))
              (icrc103_get_allowances (w_led w) now caller from prev take))).
Proof.
  intros Hr. destruct (C88_queries_say_by_name w Hr) as (Hb & _ & _ & Ha & Hl & Hs).
  split; [|split; [|split]].
  - intros a Hwa. eexists. split; [|exact (Hb a)]. unfold query.
    pose proof (C89_requests_are_understood (ReqBalance a) Hwa) as E. cbn [method_of cycles_of] in E. by rewrite E.
  - intros a s Hwa Hws. eexists. split; [|exact (Ha now a s)]. unfold query.
    pose proof (C89_requests_are_understood (ReqAllowance a s) (conj Hwa Hws)) as E. cbn [method_of cycles_of] in E. by rewrite E.
  - intros l. eexists. split; [|split; [exact (proj1 (Hl l))|exact (proj1 (proj2 (Hl l)))]]. unfold query.
    pose proof (C89_requests_are_understood (ReqBlocks l) I) as E. cbn [method_of cycles_of] in E. by rewrite E.
  - intros from prev take Hf Hp. eexists. split; [|exact (Hs now caller from prev take)]. unfold query.
    pose proof (C89_requests_are_understood (ReqAllowances from prev take) (conj Hf Hp)) as E.
    cbn [method_of cycles_of] in E. by rewrite E.
Qed.

(** A client sends a call by the interface file. The call is what is executed, and what
    the client reads in the bytes that come back is what the ledger answered. *)
Theorem C90_calls w now caller c sync w' resp :
  reachable w -> time_ok w now -> wf_principal caller -> wf_request (ReqCall c) ->
  receive w (Dlv now caller (method_of (ReqCall c)) (cycles_of (ReqCall c)) (request_bytes (ReqCall c)) sync)
  = (w', Some resp) ->
  step w (EvCall now caller c sync) = (w', resp)
  /\ forall txt b, sent_back (method_of (ReqCall c)) resp txt = Some b ->
       ask say_nat at_block b = PropertiesReceipts.own_block resp
       /\ ask say_nat at_refund b = PropertiesReceipts.refund_block resp
       /\ ask say_nat at_duplicate b = duplicate_of resp
       /\ exists r, resp = RespReply r
          /\ forall e, e ∈ error_names -> has ["Err"; e] b = bool_decide (told_error r = Some e).
Proof.
  intros Hr Ht Hp Hwf. unfold receive. cbn [d_now d_caller d_method d_cycles d_bytes d_sync].
  rewrite (C89_requests_are_understood _ Hwf). destruct (step w _) as [w1 r1] eqn:E. intros [= <- <-].
  split; [done|]. intros txt b Hb. destruct r1 as [|r| |]; cbn [sent_back] in Hb; try discriminate.
  injection Hb as <-. assert ((step w (EvCall now caller c sync)).2 = RespReply r) as E2 by by rewrite E.
  assert (ev_ok w (EvCall now caller c sync)) as Hok by (destruct Hwf as [Hwf _]; by split).
  pose proof (call_answers _ _ _ _ _ _ txt E2) as Hm.
  destruct (C88_answers_say_by_name _ _ _ _ _ Hr Hok E2 Hm) as (H1 & H2 & _ & H3 & _).
  destruct (C88_errors_say_by_name _ _ _ _ _ Hr Hok E2 Hm) as (H4 & _ & _).
  split; [exact H1|]. split; [exact H2|]. split; [exact H3|]. exists r. split; [done|exact H4].
Qed.

(** The whole way: a client sends a call, reads a block number in the answer, and later,
    whatever bytes others have sent in between, fetches the block with this number. It
    gets one block, and the block says what the client had asked for. *)
Theorem C90_receipts now0 cycles args w0 hs1 w1 now caller c sync w2 resp txt b i hs2 w3 now' caller' :
  is_u64 now0 -> wf_ledger_args args -> init_world now0 cycles args = Some w0 -> course w0 hs1 w1 ->
  time_ok w1 now -> wf_principal caller -> wf_request (ReqCall c) ->
  receive w1 (Dlv now caller (method_of (ReqCall c)) (cycles_of (ReqCall c)) (request_bytes (ReqCall c)) sync)
  = (w2, Some resp) ->
  sent_back (method_of (ReqCall c)) resp txt = Some b -> ask say_nat at_block b = Some i ->
  course w2 hs2 w3 ->
  0 < max_blocks_per_request (cfg (w_led w3)) ->
  br_log_length (icrc3_get_blocks (w_led w3) []) + max_blocks_per_request (cfg (w_led w3)) <= 2 ^ 64 ->
  exists blk b',
    query w3 now' caller' MBlocks (request_bytes (ReqBlocks [(i, 1)])) = Some b'
    /\ ask (say_all say_block) [["blocks"]] b' = Some [(i, block_to_value blk)]
    /\ b_tx blk = requested caller c /\ b_timestamp blk = now.
Proof.
  intros Hu Hwa Hi Hc1 Ht Hp Hwf He Hb Hn Hc2 Hmax Hlen.
  assert (reachable w0) as Hr0 by (by econstructor).
  pose proof (C90_any_bytes_are_safe _ _ _ Hr0 Hc1) as Hr1.
  destruct (C90_calls _ _ _ _ _ _ _ Hr1 Ht Hp Hwf He) as [Hs Hsay].
  destruct (Hsay _ _ Hb) as (Hown & _). rewrite Hn in Hown.
  assert (ev_ok w1 (EvCall now caller c sync)) as Hok by (destruct Hwf as [Hwf _]; by split).
  destruct (C90_any_bytes _ _ _ Hc1) as (tr1 & Hst1 & _).
  destruct (C90_any_bytes _ _ _ Hc2) as (tr2 & Hst2 & _).
  assert (reachable w2) as Hr2.
  { pose proof (reach_step _ _ Hr1 Hok) as Hx. by rewrite Hs in Hx. }
  pose proof (C90_any_bytes_are_safe _ _ _ Hr2 Hc2) as Hr3.
  assert (steps w0 (tr1 ++ (EvCall now caller c sync, resp) :: tr2) w3) as Hst.
  { eapply PropertiesCashOut.steps_app; [exact Hst1|].
    pose proof (steps_cons w1 (EvCall now caller c sync) tr2 w3 Hok) as Hx. rewrite Hs in Hx. by apply Hx. }
  destruct (PropertiesReceipts.C81_receipts_last _ _ _ _ _ _ (length tr1) (EvCall now caller c sync) resp now caller c Hu Hwa Hi Hst)
    as (Hrec & _).
  { by rewrite lookup_app_r, Nat.sub_diag by done. }
  { left. by exists sync. }
  destruct (Hrec i) as (blk & (_ & _ & Hshow) & Htx & Hts); [done|].
  destruct (C90_queries w3 now' caller' Hr3) as (_ & _ & Hq & _).
  destruct (Hq [(i, 1)]) as (b' & Hb' & _ & Hl). exists blk, b'. split; [exact Hb'|].
  split; [|by split]. rewrite Hl. f_equal. by apply Hshow.
Qed.
(** *** Answers that come after an outgoing call *)
Definition pend_method (p : pending) : method :=
  match p with
  | PWithdraw ep _ _ _ _ _ _ => if ep then MWithdrawFrom else MWithdraw
  | PCreate ep _ _ _ _ _ _ _ => if ep then MCreateFrom else MCreate
  end.
Lemma waiting_method now avail caller c sync s s' p :
  exec_call now avail caller c sync s = (s', Waiting p) -> pend_method p = method_of (ReqCall c).
Proof.
  assert (forall E (fail : M E pending -> M Empty_set reply) (m : M E pending),
    start_async now avail sync fail m s = (s', Waiting p) -> exists s1, m s = (s1, OOk p)) as Hsa.
  { intros E fail m. unfold start_async. destruct (m s) as [s1 [q|e|t]].
    - destruct (match sync with Some e => _ | None => _ end) as [e|].
      + destruct (resume now q (sync_answer q e)) as [k|]; [|done]. by destruct (commit s (k s1)).
      + intros [= _ <-]. eauto.
    - by destruct (commit s _).
    - by destruct (commit s _). }
  assert (forall fe from to sp amount cr s1,
    execute_withdraw now fe from to sp amount cr s = (s1, OOk p) ->
    pend_method p = if fe : bool then MWithdrawFrom else MWithdraw) as Hw.
  { intros fe from to sp amount cr s1. unfold execute_withdraw. destruct (nat_to_u128 amount) as [n|]; [|done].
    unfold bindM. destruct (withdraw_start _ _ _ _ _ _ s) as [s3 [[i o]|e|t]]; intros [= _ <-]; done. }
  assert (forall fe cl from sp amount cr arg s1,
    execute_create now fe cl from sp amount cr arg s = (s1, OOk p) ->
    pend_method p = if fe : bool then MCreateFrom else MCreate) as Hc.
  { intros fe cl from sp amount cr arg s1. unfold execute_create. destruct (nat_to_u128 amount) as [n|]; [|done].
    unfold bindM. destruct (create_start _ _ _ _ _ s) as [s3 [[i o]|e|t]]; intros [= _ <-]; done. }
  destruct c; cbn [exec_call method_of]; try (by destruct (commit s _)).
  - intros (s1 & E)%Hsa. exact (Hw _ _ _ _ _ _ _ E).
  - intros (s1 & E)%Hsa. exact (Hw _ _ _ _ _ _ _ E).
  - intros (s1 & E)%Hsa. exact (Hc _ _ _ _ _ _ _ _ E).
  - intros (s1 & E)%Hsa. exact (Hc _ _ _ _ _ _ _ _ E).
Qed.
Lemma resumed_answers now p ans k s0 s s' r txt :
  resume now p ans = Some k -> commit s0 (k s) = (s', RespReply r) ->
  Wire.answers (pend_method p) (AnsReply r txt).
Proof.
  assert (forall E A (wrap : result E A -> reply) (m : M E A),
    commit s0 (as_reply wrap m s) = (s', RespReply r) -> exists x, r = wrap x) as Has.
  { intros E A wrap m. unfold as_reply. destruct (m s) as [s3 [a|e|t]]; cbn; intros [= _ <-]; eauto. }
  destruct p as [ep ? ? ? ? ? ?|ep ? ? ? ? ? ? ?], ans as [x|x]; cbn [resume pend_method]; try done; intros [= <-];
    unfold withdraw_reply, create_reply; destruct ep; intros (y & ->)%Has; done.
Qed.

(** The calls that still wait are kept under the method they came by. *)
Definition methods_kept (tr : list (event * response)) (w : world) : Prop :=
  forall t caller c sync id o, (EvCall t caller c sync, RespPending id o) ∈ tr ->
    id < w_next w /\ forall p, w_pend w !! id = Some p -> pend_method p = method_of (ReqCall c).
Lemma kept_step tr w ev :
  reachable w -> ev_ok w ev -> methods_kept tr w -> methods_kept (tr ++ [(ev, (step w ev).2)]) (step w ev).1.
Proof.
  intros Hr Hev Hk t caller c sync id o [Hin|Hin]%elem_of_app.
  - destruct (Hk _ _ _ _ _ _ Hin) as [Hid Hp]. pose proof (PropertiesReceipts.step_next w ev) as Hnx. split; [lia|].
    intros p Hl. destruct (CreateFacts.step_pend_cases w ev id p Hr Hev Hl) as [Hl'|[-> _]]; [auto|lia].
  - apply elem_of_list_singleton in Hin. injection Hin as <- E. cbn [step] in E |- *.
    destruct (exec_call _ _ _ _ _ _) as [s' [r|p0]] eqn:Ee; cbn [fst snd] in E |- *.
    + subst r. exfalso. revert Ee. apply done_not_pending.
    + injection E as -> _. cbn [w_next w_pend]. split; [lia|]. intros p. rewrite lookup_insert. intros [= <-].
      by eapply waiting_method.
Qed.
Lemma steps_at w tr w' k ev resp :
  steps w tr w' -> tr !! k = Some (ev, resp) ->
  exists wk, steps w (take k tr) wk /\ ev_ok wk ev /\ (step wk ev).2 = resp.
Proof.
  intros Hs. revert k. induction Hs as [w|w ev0 tr w' Hok Hs IH]; intros k Hk; [done|].
  destruct k as [|k]; cbn [lookup list_lookup take] in *.
  - injection Hk as <- <-. exists w. split; [constructor|]. done.
  - destruct (IH k Hk) as (wk & H1 & H2 & H3). exists wk. split; [by constructor|]. done.
Qed.
Lemma steps_reachable w tr w' : reachable w -> steps w tr w' -> reachable w'.
Proof. intros Hr Hs. induction Hs as [|w ev tr w' Hok Hs IH]; [done|]. apply IH. by constructor. Qed.
Lemma steps_kept pre w tr w' : reachable w -> steps w tr w' -> methods_kept pre w -> methods_kept (pre ++ tr) w'.
Proof.
  intros Hr Hs. revert pre. induction Hs as [w|w ev tr w' Hok Hs IH]; intros pre Hk; [by rewrite app_nil_r|].
  specialize (IH (reach_step _ _ Hr Hok) (pre ++ [(ev, (step w ev).2)])%list (kept_step _ _ _ Hr Hok Hk)).
  by rewrite <- app_assoc in IH.
Qed.

(** The answer to a call that had to wait: it goes out as an answer of the method that
    was called, the client reads in it what the ledger answered, and at the end of the
    history fetches the block of its call. *)
Theorem C90_late_receipts now0 cycles args w0 tr w k now id ans refund resp t caller c sync o txt b now' caller' :
  is_u64 now0 -> wf_ledger_args args -> init_world now0 cycles args = Some w0 -> steps w0 tr w ->
  (EvCall t caller c sync, RespPending id o) ∈ take k tr -> tr !! k = Some (EvReply now id ans refund, resp) ->
  sent_back (method_of (ReqCall c)) resp txt = Some b ->
  ask say_nat at_block b = PropertiesReceipts.own_block resp
  /\ ask say_nat at_refund b = PropertiesReceipts.refund_block resp
  /\ ask say_nat at_approval b = PropertiesReceipts.approval_block resp
  /\ forall i, ask say_nat at_block b = Some i ->
       0 < max_blocks_per_request (cfg (w_led w)) ->
       br_log_length (icrc3_get_blocks (w_led w) []) + max_blocks_per_request (cfg (w_led w)) <= 2 ^ 64 ->
       exists blk b',
         query w now' caller' MBlocks (request_bytes (ReqBlocks [(i, 1)])) = Some b'
         /\ ask (say_all say_block) [["blocks"]] b' = Some [(i, block_to_value blk)]
         /\ b_tx blk = requested caller c /\ b_timestamp blk = t.
Proof.
  intros Hu Hwa Hi Hst Hin Hk Hb. assert (reachable w0) as Hr0 by (by econstructor).
  destruct (steps_at _ _ _ _ _ _ Hst Hk) as (wk & Hsk & Hok & He).
  pose proof (steps_reachable _ _ _ Hr0 Hsk) as Hrk.
  assert (methods_kept (take k tr) wk) as Hkept.
  { apply (steps_kept [] w0); [done|done|]. intros ? ? ? ? ? ? []%elem_of_nil. }
  destruct (Hkept _ _ _ _ _ _ Hin) as [_ Hpm].
  destruct resp as [|r| |]; cbn [sent_back] in Hb; try discriminate. injection Hb as <-.
  assert (Wire.answers (method_of (ReqCall c)) (AnsReply r txt)) as Hm.
  { cbn [step] in He. destruct (w_pend wk !! id) as [p|] eqn:Ep; [|done].
    destruct (resume now p ans) as [kk|] eqn:Er; [|done]. destruct (commit _ _) as [s' r'] eqn:Ec.
    cbn [snd] in He. subst r'. rewrite <- (Hpm p eq_refl). by eapply resumed_answers. }
  destruct (C88_answers_say_by_name _ _ _ _ _ Hrk Hok He Hm) as (H1 & H2 & H3 & _).
  split; [exact H1|]. split; [exact H2|]. split; [exact H3|].
  intros i Hn0 Hmax Hlen. pose proof (eq_trans (eq_sym H1) Hn0) as Hn.
  destruct (PropertiesReceipts.C81_receipts_last _ _ _ _ _ _ k _ _ t caller c Hu Hwa Hi Hst Hk) as (Hrec & _).
  { right. by exists now, id, ans, refund, sync, o. }
  destruct (Hrec i Hn) as (blk & (_ & _ & Hshow) & Htx & Hts).
  destruct (C90_queries w now' caller' (steps_reachable _ _ _ Hr0 Hst)) as (_ & _ & Hq & _).
  destruct (Hq [(i, 1)]) as (b' & Hb' & _ & Hl). exists blk, b'. split; [exact Hb'|].
  split; [|by split]. rewrite Hl. f_equal. by apply Hshow.
Qed.
End WithEnv.

(** ** A case

    The ledger is installed with a balance for carol. Somebody sends bytes that are no
    message; carol sends a transfer; bob sends the arguments of a query to [withdraw].
    Carol reads a block number and fetches the block; bob reads his balance. *)
Definition start : world := the_world (init_world T0 (100 * T) demo_init).
Definition carols : call := CallTransfer None (acct bob) (2 * T) None (Some [Byte.x2a]) (Some T0).
Definition noise : delivery := Dlv (T0 + sec) bob MTransfer 0 (str_bytes "DIDLxyz") None.
Definition astray : delivery :=
  Dlv (T0 + 3 * sec) bob MWithdraw 0 (request_bytes (ReqBalance (acct bob))) None.
Definition sent : delivery :=
  Dlv (T0 + 2 * sec) carol (method_of (ReqCall carols)) (cycles_of (ReqCall carols)) (request_bytes (ReqCall carols)) None.
Definition later : world := after (after start (Message noise)) (Message sent).
Lemma may_message w d :
  ((w_clock w <=? d_now d) && (d_now d <? U64_MOD) && wf_principalb (d_caller d) && (d_cycles d <? U128_MOD))%bool = true ->
  may_happen w (Message d).
Proof.
  intros E. apply andb_true_iff in E as [E E4]. apply andb_true_iff in E as [E E3]. apply andb_true_iff in E as [E1 E2].
  split; [split; [by apply N.leb_le|by apply N.ltb_lt]|]. split; [by apply wf_principalb_ok|by apply N.ltb_lt].
Qed.
Example C90_case :
  init_world T0 (100 * T) demo_init = Some start
  /\ course start [Message noise; Message sent; Message astray] later /\ reachable later
  /\ after start (Message noise) = start /\ after later (Message astray) = later
  /\ time_ok start (d_now sent) /\ wf_request (ReqCall carols)
  /\ (exists b, (receive start sent).2 = Some (RespReply (RepTransfer (Ok 1)))
        /\ sent_back MTransfer (RespReply (RepTransfer (Ok 1))) [] = Some b
        /\ ask say_nat at_block b = Some 1)
  /\ max_blocks_per_request (cfg (w_led later)) = 50
  /\ br_log_length (icrc3_get_blocks (w_led later) []) = 2
  /\ (exists b, query later (T0 + 4 * sec) bob MBalance (request_bytes (ReqBalance (acct bob))) = Some b
        /\ ask say_nat [[]] b = Some (2 * T)).
Proof.
  assert (init_world T0 (100 * T) demo_init = Some start) as Hi by (vm_compute; reflexivity).
  assert (reachable start) as Hr.
  { eapply reach_init; [|apply wf_ledger_argsb_ok|exact Hi]; vm_compute; reflexivity. }
  assert (after start (Message noise) = start) as Hn by (vm_compute; reflexivity).
  assert (after later (Message astray) = later) as Ha by (vm_compute; reflexivity).
  assert (course start [Message noise; Message sent; Message astray] later) as Hc.
  { refine (course_cons _ _ _ _ (may_message _ _ _) _); [vm_compute; reflexivity|]. rewrite Hn.
    refine (course_cons _ _ _ _ (may_message _ _ _) _); [vm_compute; reflexivity|].
    refine (course_cons _ _ _ _ (may_message _ _ _) _); [vm_compute; reflexivity|].
    assert (after (after start (Message sent)) (Message astray) = later) as E by (vm_compute; reflexivity).
    rewrite E. apply course_nil. }
  split; [exact Hi|]. split; [exact Hc|]. split; [exact (C90_any_bytes_are_safe _ _ _ Hr Hc)|].
  split; [exact Hn|]. split; [exact Ha|].
  split; [refine (proj1 (may_message start sent _)); vm_compute; reflexivity|].
  split; [split; [apply wf_callb_ok; vm_compute; reflexivity|exact I]|].
  split; [eexists; split; [vm_compute; reflexivity|]; split; [reflexivity|vm_compute; reflexivity]|].
  split; [vm_compute; reflexivity|]. split; [vm_compute; reflexivity|].
  eexists. split; [vm_compute; reflexivity|]. vm_compute. reflexivity.
Qed.

(** A withdrawal of carol that is answered when the cycles have been delivered *)
Definition cash_out : event := EvCall (T0 + sec) carol (CallWithdraw None canister None (2 * T)) None.
Definition delivered : event := EvReply (T0 + 2 * sec) 0 (AnsDeposit (Ok tt)) 0.
Definition asked : world := (step start cash_out).1.
Example C90_late_case :
  steps start [(cash_out, (step start cash_out).2); (delivered, (step asked delivered).2)] (step asked delivered).1
  /\ (exists o, (step start cash_out).2 = RespPending 0 o)
  /\ (exists b, sent_back MWithdraw (step asked delivered).2 [] = Some b /\ ask say_nat at_block b = Some 1)
  /\ max_blocks_per_request (cfg (w_led (step asked delivered).1)) = 50
  /\ br_log_length (icrc3_get_blocks (w_led (step asked delivered).1) []) = 2.
Proof.
  split.
  { apply steps_cons; [apply ev_okb_ok; vm_compute; reflexivity|].
    apply steps_cons; [apply ev_okb_ok; vm_compute; reflexivity|]. apply steps_nil. }
  split; [eexists; vm_compute; reflexivity|].
  split; [eexists; split; vm_compute; reflexivity|].
  split; vm_compute; reflexivity.
Qed.

Print Assumptions C90_any_bytes.
Print Assumptions C90_any_bytes_are_safe.
Print Assumptions C90_not_understood.
Print Assumptions C90_queries.
Print Assumptions C90_calls.
Print Assumptions C90_receipts.
Print Assumptions C90_late_receipts.
