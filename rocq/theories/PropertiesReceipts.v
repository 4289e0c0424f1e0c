(** * The block numbers in answers are lasting receipts

    C81 *)
From Verif Require Import Base Types Codec CodecFacts CodecProofs State Ledger Canister Effects Spec ApiSpec
  Inv Steps World CallFacts CallCases StepFacts AllowFacts RefundFacts AsyncFacts EventFacts CreateFacts
  QueryFacts PropertiesLog PropertiesDedup PropertiesCalls PropertiesAuth PropertiesQuery PropertiesHistory Demo.

(** ** Specification *)

(** The block an answer names as that of the transaction asked for: the one of a
    success, or the one of the burn in the error of a failed withdrawal or creation. *)
Definition own_block (r : response) : option N :=
  match r with
  | RespReply (RepDeposit i _) => Some i
  | RespReply (RepTransfer (Ok i)) => Some i
  | RespReply (RepTransferFrom (Ok i)) => Some i
  | RespReply (RepApprove (Ok i)) => Some i
  | RespReply (RepWithdraw (Ok i)) => Some i
  | RespReply (RepWithdrawFrom (Ok i)) => Some i
  | RespReply (RepWithdrawFrom (Err (WFFailedToWithdrawFrom i _ _ _))) => i
  | RespReply (RepCreate (Ok (i, _))) => Some i
  | RespReply (RepCreate (Err (CFailedToCreate i _))) => i
  | RespReply (RepCreateFrom (Ok (i, _))) => Some i
  | RespReply (RepCreateFrom (Err (CFFailedToCreateFrom i _ _ _))) => i
  | _ => None
  end.
(** The block it names as that of the refund. *)
Definition refund_block (r : response) : option N :=
  match r with
  | RespReply (RepWithdraw (Err (WFailedToWithdraw i _))) => i
  | RespReply (RepWithdrawFrom (Err (WFFailedToWithdrawFrom _ i _ _))) => i
  | RespReply (RepCreate (Err (CFailedToCreate _ i))) => i
  | RespReply (RepCreateFrom (Err (CFFailedToCreateFrom _ i _ _))) => i
  | _ => None
  end.
(** The block it names as that of the approval given back. *)
Definition approval_block (r : response) : option N :=
  match r with
  | RespReply (RepWithdrawFrom (Err (WFFailedToWithdrawFrom _ _ i _))) => i
  | RespReply (RepCreateFrom (Err (CFFailedToCreateFrom _ _ i _))) => i
  | _ => None
  end.
(** All numbers an answer gives out; the number in a [Duplicate] error is not a new one. *)
Definition given_out (r : response) : list N :=
  option_list (own_block r) ++ option_list (refund_block r) ++ option_list (approval_block r).

(** The response to [ev] answers the call [c] that [caller] made at [t]: it is that
    call, or the end of the outgoing call that it left waiting in [before]. *)
Definition answers (before : list (event * response)) (ev : event) (t : N) (caller : principal) (c : call) : Prop :=
  (exists sync, ev = EvCall t caller c sync)
  \/ exists now id ans refund sync o, ev = EvReply now id ans refund
     /\ (EvCall t caller c sync, RespPending id o) ∈ before.
(** When it happened, and how much of [amount] came back. *)
Definition time_of (ev : event) : N :=
  match ev with
  | EvCall now _ _ _ | EvReply now _ _ _ | EvUpgrade now _ | EvCrash now _ _ => now
  | _ => 0
  end.
Definition came_back (ev : event) (amount : N) : option N :=
  match ev with
  | EvCall _ _ _ _ => Some amount
  | EvReply _ _ ans _ => fst <$> answer_returned amount ans
  | _ => None
  end.

Section Shown.
Context `{Env}.
(** Block number [i] of the log is [b]: whoever fetches this number gets [b], and
    asking for it alone returns it, if blocks are served at all. *)
Definition shown (w : world) (i : N) (b : block) : Prop :=
  blocks (w_led w) !! N.to_nat i = Some b
  /\ (forall args v, (i, v) ∈ br_blocks (icrc3_get_blocks (w_led w) args) -> v = block_to_value b)
  /\ (0 < max_blocks_per_request (cfg (w_led w)) ->
      br_log_length (icrc3_get_blocks (w_led w) []) + max_blocks_per_request (cfg (w_led w)) <= 2 ^ 64 ->
      br_blocks (icrc3_get_blocks (w_led w) [(i, 1)]) = [(i, block_to_value b)]).

Lemma shown_intro w i b : blocks (w_led w) !! N.to_nat i = Some b -> shown w i b.
Proof.
  intros Hb. split; [done|].
  assert (forall args v, (i, v) ∈ br_blocks (icrc3_get_blocks (w_led w) args) -> v = block_to_value b) as Hv.
  { intros args v (b' & Hb' & ->)%get_blocks_sound. congruence. }
  split; [done|]. intros Hm Hl.
  assert (br_log_length (icrc3_get_blocks (w_led w) []) = N.of_nat (length (blocks (w_led w)))) as El by done.
  rewrite El in Hl. pose proof (C29_single_range_partial w i 1 Hl ltac:(done)) as Hk.
  apply lookup_lt_Some in Hb.
  assert (seqN i (N.min (max_blocks_per_request (cfg (w_led w)))
    (N.min (N.of_nat (length (blocks (w_led w)))) (i + 1) - i)) = [i]) as Es.
  { replace (N.min _ _) with 1 by lia. unfold seqN. simpl. by rewrite N2Nat.id. }
  rewrite Es in Hk.
  destruct (br_blocks (icrc3_get_blocks (w_led w) [(i, 1)])) as [|[j v] [|]] eqn:E; [done| |done].
  injection Hk as ->. f_equal. f_equal. eapply (Hv [(i, 1)]). rewrite E. by left.
Qed.

(** ** Proofs *)

Lemma refund_block_range s s' now from sp n m old fb ab :
  refund_effect s s' now from sp n m old fb ab ->
  exists b, blocks s' !! N.to_nat fb = Some b /\ b_tx b = Tx (Mint from n 0) None (Some m)
    /\ b_timestamp b = now /\ fb = nblocks s
    /\ match ab with
       | None => True
       | Some j => j = fb + 1 /\ exists b2 x a e, blocks s' !! N.to_nat j = Some b2 /\ sp = Some x
           /\ b_tx b2 = Tx (Approve from x a None e None) None (Some PENALIZE_MEMO) /\ b_timestamp b2 = now
       end.
Proof.
  intros [-> Hx]. unfold nblocks. destruct ab as [j|].
  - destruct Hx as (-> & _ & _ & x & -> & (b1 & b2 & Hb & T1 & T2 & H1 & H2) & _).
    exists b1. rewrite Hb. split; [rewrite lookup_app_r by lia; by replace (_ - _)%nat with 0%nat by lia|].
    split; [done|]. split; [done|]. split; [done|]. split; [done|].
    eexists b2, x, _, _. split; [rewrite lookup_app_r by lia; by replace (_ - _)%nat with 1%nat by lia|]. done.
  - destruct Hx as (_ & _ & (b & Hb & T & H1) & _). exists b. rewrite Hb.
    split; [rewrite lookup_app_r by lia; by replace (_ - _)%nat with 0%nat by lia|]. done.
Qed.

(** The answer that ends a call that waited *)
Definition ended (s s' : state) (now : N) (p : pending) (ans : answer) (r : response) : Prop :=
  (duplicate_of r = None
   /\ forall j, approval_block r = Some j -> exists x, p_spender p = Some x /\ to_key x <> to_key (p_from p))
  /\ (own_block r = None \/ own_block r = Some (pending_block p))
  /\ ((refund_block r = None /\ approval_block r = None
       /\ (same_money s s' \/ exists t, r = RespTrap t))
      \/ exists n code fb, answer_returned (pending_amount p) ans = Some (n, code) /\ FEE < n
           /\ refund_block r = Some fb
           /\ refund_effect s s' now (p_from p) (p_spender p) (n - FEE) (p_memo p) (p_old p) fb (approval_block r)).

Lemma resume_ended now p ans k s0 s s' r :
  inv now s -> is_u64 now -> pend_ok s p -> ans_u128 ans ->
  resume now p ans = Some k -> commit s0 (k s) = (s', r) -> ended s s' now p ans r.
Proof.
  intros Hi Hu Hpo Hans Hk Hc.
  assert (forall t, ended s s' now p ans (RespTrap t)) as Htrap.
  { intros t. split; [done|]. split; [by left|]. left. eauto. }
  destruct p as [ep from to sp amount i old|ep from sp amount i old created arg];
    destruct ans as [r0|r0]; cbn [resume] in Hk; try done;
    match type of Hk with Some ?a = _ => assert (k = a) as -> by congruence end; clear Hk;
    unfold ended; cbn [p_from p_spender pending_amount pending_block p_old p_memo].
  - destruct Hpo as (_ & Hep & cr & Hf & Hsp & Ha & _ & _ & _ & Hold).
    destruct r0 as [[]|e].
    { destruct ep; simpl in Hc; injection Hc as <- <-; (split; [done|]); (split; [by right|]); left; (split; [done|]); (split; [done|]); left; done. }
    destruct (withdraw_rest_eq ep from sp amount i old now e s0 s (inv_supply _ _ Hi)) as [x Hx].
    rewrite Hx in Hc. unfold wd_fail_rest in Hc. destruct (N.eqb_spec (amount - FEE) 0) as [E|E].
    { injection Hc as <- <-. destruct ep; (split; [done|]); (split; [eauto|]); left; (split; [done|]); (split; [done|]); by left. }
    destruct (refund_outcome _ _ _ _ _ _ _) as [[[s2 fb] ab]|] eqn:Er; injection Hc as <- <-; [|apply Htrap].
    eapply refund_facts in Er as [H1 H2]; try done; [|unfold is_u128; lia].
    assert (approval_block (RespReply (wd_failed_reply ep
      (WFFailedToWithdrawFrom (Some i) (Some fb) ab (call_error_to_reject e)))) = ab) as Eab.
    { destruct ep; [done|]. simpl. destruct ab as [j|]; [|done].
      destruct H1 as (_ & _ & _ & _ & y & Hy & _). rewrite (Hep eq_refl) in Hy. done. }
    split.
    { split; [by destruct ep|]. rewrite Eab. intros j ->. destruct (proj1 H2 ltac:(eauto)) as ([y Hy] & _).
      apply third_party_Some in Hy. eauto. }
    split; [destruct ep; eauto|]. right.
    exists amount, (call_error_to_reject e), fb. rewrite Eab.
    split; [by rewrite <- reported_code_eq|]. split; [lia|]. split; [by destruct ep|]. exact H1.
  - destruct Hpo as (Hep & Hf & Hsp & Ha & _ & _ & _ & Hold).
    destruct (create_rest_eq ep from sp amount i old created now r0 s0 s (inv_supply _ _ Hi)) as [x Hx].
    rewrite Hx in Hc. destruct (flat_create_result amount r0) as [c|[code n]] eqn:Ef.
    { injection Hc as <- <-. destruct ep; (split; [done|]); (split; [by right|]); left; (split; [done|]); (split; [done|]); left; unfold note_canister; by destruct (tx_hashes s !! _). }
    assert (answer_returned amount (AnsCmc r0) = Some (n, code)) as Hret.
    { destruct r0 as [[|[]]|]; simpl in *; rewrite ?reported_code_eq; congruence. }
    assert (is_u128 n) as Hn.
    { eapply wf_refund_n; [| |exact Ef]; [unfold is_u128; lia|].
      destruct r0 as [[|[]]|]; done. }
    unfold cr_fail_rest in Hc. destruct (N.eqb_spec (n - FEE) 0) as [E|E].
    { injection Hc as <- <-. destruct ep; (split; [done|]); (split; [eauto|]); left; (split; [done|]); (split; [done|]); by left. }
    destruct (refund_outcome _ _ _ _ _ _ _) as [[[s2 fb] ab]|] eqn:Er; injection Hc as <- <-; [|apply Htrap].
    eapply refund_facts in Er as [H1 H2]; try done; [|eapply is_u128_le; [|exact Hn]; lia].
    assert (approval_block (RespReply (cr_failed_reply ep
      (CFFailedToCreateFrom (Some i) (Some fb) ab code))) = ab) as Eab.
    { destruct ep; [done|]. simpl. destruct ab as [j|]; [|done].
      destruct H1 as (_ & _ & _ & _ & y & Hy & _). rewrite (Hep eq_refl) in Hy. done. }
    split.
    { split; [by destruct ep|]. rewrite Eab. intros j ->. destruct (proj1 H2 ltac:(eauto)) as ([y Hy] & _).
      apply third_party_Some in Hy. eauto. }
    split; [destruct ep; eauto|]. right.
    exists n, code, fb. rewrite Eab.
    split; [done|]. split; [lia|]. split; [by destruct ep|]. exact H1.
Qed.

(** What a receipt says about the log [bs] *)
Definition receipt (bs : list block) (ev : event) (resp : response) (t : N) (caller : principal) (c : call) : Prop :=
  (forall i, own_block resp = Some i -> exists b, bs !! N.to_nat i = Some b
     /\ b_tx b = requested caller c /\ b_timestamp b = t)
  /\ (forall i, duplicate_of resp = Some i -> exists b, bs !! N.to_nat i = Some b
        /\ (b_tx b = requested caller c \/ hash_clash (b_tx b) (requested caller c)))
  /\ (forall i, refund_block resp = Some i -> exists b from sp amount n, bs !! N.to_nat i = Some b
        /\ outgoing caller c = Some (from, sp, amount) /\ came_back ev amount = Some n /\ icrc1_fee < n
        /\ b_tx b = Tx (Mint from (n - icrc1_fee) 0) None (Some (refund_mark c)) /\ b_timestamp b = time_of ev)
  /\ (forall i, approval_block resp = Some i -> exists b from x amount a e, bs !! N.to_nat i = Some b
        /\ outgoing caller c = Some (from, Some x, amount)
        /\ b_tx b = Tx (Approve from x a None e None) None (Some (repeat Byte.xff 32))
        /\ b_timestamp b = time_of ev).

Lemma receipt_mono bs bs' ev resp t caller c :
  bs `prefix_of` bs' -> receipt bs ev resp t caller c -> receipt bs' ev resp t caller c.
Proof.
  intros Hp (H1 & H2 & H3 & H4). split; [|split; [|split]]; intros i Hi.
  - destruct (H1 i Hi) as (b & Hb & ?). exists b. split; [by eapply prefix_lookup|done].
  - destruct (H2 i Hi) as (b & Hb & ?). exists b. split; [by eapply prefix_lookup|done].
  - destruct (H3 i Hi) as (b & f & sp & am & n & Hb & ?). exists b, f, sp, am, n.
    split; [by eapply prefix_lookup|done].
  - destruct (H4 i Hi) as (b & f & x & am & a & e & Hb & ?). exists b, f, x, am, a, e.
    split; [by eapply prefix_lookup|done].
Qed.

Lemma ended_receipt s s' now p ans r ev t caller c :
  ended s s' now p ans r -> blocks s `prefix_of` blocks s' ->
  (exists b, blocks s !! N.to_nat (pending_block p) = Some b /\ b_tx b = requested caller c /\ b_timestamp b = t) ->
  outgoing caller c = Some (p_from p, p_spender p, pending_amount p) -> p_memo p = refund_mark c ->
  time_of ev = now -> came_back ev (pending_amount p) = fst <$> answer_returned (pending_amount p) ans ->
  receipt (blocks s') ev r t caller c.
Proof.
  intros ([Hd _] & Ho & Hr) Hpre (b & Hb & Hbt & Hbs) Hout Hm Ht Hcb. split; [|split; [|split]]; intros i Hi.
  - destruct Ho as [Ho|Ho]; rewrite Ho in Hi; [done|]. injection Hi as <-.
    exists b. split; [by eapply prefix_lookup|done].
  - congruence.
  - destruct Hr as [(Hr & _)|(n & code & fb & Hn & Hf & Hr & He)]; rewrite Hr in Hi; [done|].
    injection Hi as <-. apply refund_block_range in He as (b' & Hb' & Hbt' & Hbs' & _ & _).
    exists b', (p_from p), (p_spender p), (pending_amount p), n. rewrite Hcb, Hn, <- Hm, Ht. done.
  - destruct Hr as [(_ & Hr & _)|(n & code & fb & Hn & Hf & _ & He)]; [congruence|].
    rewrite Hi in He. apply refund_block_range in He as (_ & _ & _ & _ & _ & _ & b2 & x & a & e & Hb2 & Hx & Hbt2 & Hbs2).
    exists b2, (p_from p), x, (pending_amount p), a, e. rewrite Hx in Hout. rewrite Ht. done.
Qed.

(** The numbers it gives out *)
Lemma ended_given_out s s' now p ans r :
  ended s s' now p ans r -> blocks s `prefix_of` blocks s' -> pending_block p < nblocks s ->
  NoDup (given_out r)
  /\ forall i, i ∈ given_out r -> i < nblocks s' /\ (i = pending_block p \/ nblocks s <= i).
Proof.
  intros (_ & Ho & Hr) Hpre Hlt. apply prefix_length in Hpre. unfold given_out.
  assert (NoDup (option_list (own_block r)) /\ forall i, i ∈ option_list (own_block r) -> i = pending_block p) as [Hn1 H1].
  { destruct Ho as [->| ->]; simpl; (split; [|set_solver]); [constructor|apply NoDup_singleton]. }
  assert (NoDup (option_list (refund_block r) ++ option_list (approval_block r))
    /\ forall i, i ∈ option_list (refund_block r) ++ option_list (approval_block r) -> nblocks s <= i < nblocks s') as [Hn2 H2].
  { destruct Hr as [(-> & -> & _)|(n & code & fb & _ & _ & -> & He)].
    { simpl. split; [constructor|set_solver]. }
    apply refund_block_range in He as (b & Hb & _ & _ & -> & Hab). apply lookup_lt_Some in Hb.
    destruct (approval_block r) as [j|]; simpl.
    - destruct Hab as (-> & b2 & _ & _ & _ & Hb2 & _). apply lookup_lt_Some in Hb2. split.
      + apply NoDup_cons. split; [|apply NoDup_singleton]. rewrite elem_of_list_singleton. lia.
      + intros i [->| ->%elem_of_list_singleton]%elem_of_cons; unfold nblocks in *; lia.
    - split; [apply NoDup_singleton|]. intros i ->%elem_of_list_singleton. unfold nblocks in *. lia. }
  split.
  - apply NoDup_app. split; [done|]. split; [|done]. intros i Hi Hi'. apply H1 in Hi. apply H2 in Hi'. lia.
  - intros i [Hi|Hi]%elem_of_app.
    + apply H1 in Hi as ->. split; [|by left]. unfold nblocks in *. lia.
    + apply H2 in Hi. split; [lia|right; lia].
Qed.

(** A refused call names no block but a duplicate's. *)
Lemma rejected_names r : rejected r = true -> own_block r = None /\ refund_block r = None /\ approval_block r = None.
Proof. by destruct r as [|[? ?|[]|[]|[]|[?|[]]|[?|[]]|[[]|[]]|[[]|[]]]| |]. Qed.

(** A call *)
Lemma call_receipt w now caller c sync w' resp :
  reachable w -> ev_ok w (EvCall now caller c sync) -> step w (EvCall now caller c sync) = (w', resp) ->
  receipt (blocks (w_led w')) (EvCall now caller c sync) resp now caller c
  /\ NoDup (given_out resp)
  /\ forall i, i ∈ given_out resp -> nblocks (w_led w) <= i < nblocks (w_led w').
Proof.
  intros Hr Hev Hst. destruct (rejected resp) eqn:Erj.
  { destruct (step_rejected _ _ _ _ _ _ _ Hr Hev Hst Erj) as (Hl & _).
    destruct (rejected_names _ Erj) as (E1 & E2 & E3). unfold given_out. rewrite E1, E2, E3. simpl.
    split; [|split; [constructor|set_solver]].
    split; [|split; [|split]]; intros i Hi; try congruence.
    destruct (C09_duplicate_is_honest _ _ _ _ _ _ _ _ Hr Hev Hst Hi) as [_ Hb]. by rewrite Hl. }
  destruct (call_inv _ _ _ _ _ Hr Hev) as (Hi & Hu & _).
  destruct (step_accepted _ _ _ _ _ _ _ Hr Hev Hst Erj) as (Hok & r & Ha & Hm).
  set (t := requested caller c) in *. set (s := w_led w) in *. set (s' := w_led w') in *.
  assert (blocks (recorded now t s) !! N.to_nat (nblocks s) = Some (mk_block now t s)) as Hnew.
  { rewrite recorded_blocks. unfold nblocks. rewrite lookup_app_r by lia.
    by replace (_ - _)%nat with 0%nat by lia. }
  inversion Ha as [s1 resp1 E1 Hd E2|s1 p E1 Hp Hsf Hpo E2|s1 p e s2 resp1 E1 Hp Hsf Hpo _ Hpr Hsr E2]; subst.
  - destruct Hm as [<- _].
    assert (own_block resp = Some (nblocks s) /\ refund_block resp = None
      /\ approval_block resp = None /\ duplicate_of resp = None) as (O1 & O2 & O3 & O4).
    { destruct c; simpl in Hd; try done; injection Hd as <-; done. }
    unfold given_out. rewrite O1, O2, O3. simpl. split; [|split; [apply NoDup_singleton|]].
    + split; [|split; [|split]]; intros i Hi'; try congruence.
      assert (i = nblocks s) as -> by congruence. exists (mk_block now t s). by rewrite E1.
    + intros i ->%elem_of_list_singleton. fold s'. rewrite E1. unfold nblocks. rewrite recorded_blocks, app_length. simpl. lia.
  - destruct Hm as [-> _]. unfold given_out. simpl. split; [|split; [constructor|set_solver]].
    split; [|split; [|split]]; intros i Hi'; done.
  - destruct Hm as [<- _]. set (s1 := recorded now t s) in *. fold t in Hsr, Hpr, Hpo. fold s1 in Hsr, Hpr, Hpo. unfold sync_rest in Hsr.
    destruct (sync_answer_resume now p e) as [k Hk]. rewrite Hk in Hsr.
    destruct (commit s (k s1)) as [s2 r2] eqn:Ec. injection Hsr as -> ->.
    assert (inv now s1) as Hi1 by (by apply recorded_inv).
    pose proof (resume_ended _ _ _ _ _ _ _ _ Hi1 Hu Hpo (sync_answer_u128 p e) Hk Ec) as Hend.
    assert (blocks s1 `prefix_of` blocks s') as Hpre by (by eapply prims_prefix).
    pose proof (pending_of_block _ _ _ _ _ Hp) as Hpb.
    pose proof (pend_block_lt _ _ Hpo) as Hlt. split.
    + eapply ended_receipt; [exact Hend|done| |by eapply pending_outgoing|by eapply pending_mark|done|].
      * exists (mk_block now t s). by rewrite Hpb.
      * destruct p; done.
    + destruct (ended_given_out _ _ _ _ _ _ Hend Hpre Hlt) as [Hnd Hg]. split; [done|].
      intros i Hin. destruct (Hg i Hin) as [Hi' [->|Hge]]; (split; [|done]).
      * lia.
      * unfold s1, nblocks in Hge. rewrite recorded_blocks, app_length in Hge. unfold nblocks. lia.
Qed.

(** ** Histories *)

(** What is known of each call left waiting in the history: the block its caller
    asked for is in the log; if it still waits, it waits for that block. *)
Definition left_waiting (tr : list (event * response)) (w : world) : Prop :=
  forall t caller c sync id o, (EvCall t caller c sync, RespPending id o) ∈ tr ->
    id < w_next w
    /\ forall p, w_pend w !! id = Some p ->
       outgoing caller c = Some (p_from p, p_spender p, pending_amount p) /\ p_memo p = refund_mark c
       /\ exists b, blocks (w_led w) !! N.to_nat (pending_block p) = Some b
          /\ b_tx b = requested caller c /\ b_timestamp b = t.

Lemma step_next w ev : w_next w <= w_next (step w ev).1.
Proof.
  destruct ev as [now caller c sync|now id ans refund|now args|n|n|now id refund]; cbn [step].
  - destruct (exec_call _ _ _ _ _ _) as [s' [r|p]]; simpl; lia.
  - destruct (w_pend w !! id) as [p|]; [|simpl; lia]. destruct (resume now p ans); [|simpl; lia].
    destruct (commit _ _). simpl. lia.
  - destruct (post_upgrade _ _) as [s' [u|[]|t]]; simpl; lia.
  - simpl. lia.
  - simpl. lia.
  - destruct (w_pend w !! id) as [p|]; simpl; lia.
Qed.

Lemma step_prefix w ev : reachable w -> ev_ok w ev -> blocks (w_led w) `prefix_of` blocks (w_led (step w ev).1).
Proof.
  intros Hr Hev. apply (steps_prefix w [(ev, (step w ev).2)]); [done|]. constructor; [done|constructor].
Qed.

(** What is true of a history *)
Definition history_ok (tr : list (event * response)) (w : world) : Prop :=
  left_waiting tr w
  /\ (forall k ev resp t caller c, tr !! k = Some (ev, resp) -> answers (take k tr) ev t caller c ->
        receipt (blocks (w_led w)) ev resp t caller c)
  /\ NoDup (concat (map (fun er => given_out er.2) tr))
  /\ (forall i, i ∈ concat (map (fun er => given_out er.2) tr) ->
        i < nblocks (w_led w) /\ forall id p, w_pend w !! id = Some p -> pending_block p <> i).

Lemma history_step tr w ev w' resp :
  reachable w -> ev_ok w ev -> step w ev = (w', resp) -> history_ok tr w -> history_ok (tr ++ [(ev, resp)]) w'.
Proof.
  intros Hr Hev Hst (Hlw & Hrc & Hnd & Hgo).
  pose proof (step_prefix _ _ Hr Hev) as Hpre. pose proof (step_next w ev) as Hnx.
  pose proof (fun id p => step_pend_cases w ev id p Hr Hev) as Hpc.
  rewrite Hst in Hpre, Hnx, Hpc. cbn [fst] in *.
  pose proof (prefix_length _ _ Hpre) as Hlen.
  destruct (reachable_winv _ Hr) as (_ & _ & Hwp).
  (* the new answer *)
  assert ((forall t caller c, answers tr ev t caller c -> receipt (blocks (w_led w')) ev resp t caller c)
    /\ NoDup (given_out resp)
    /\ forall i, i ∈ given_out resp -> i < nblocks (w_led w')
         /\ (forall id p, w_pend w' !! id = Some p -> pending_block p <> i)
         /\ i ∉ concat (map (fun er => given_out er.2) tr)) as (HA & HB & HC).
  { assert (given_out resp = [] -> NoDup (given_out resp)
      /\ forall i, i ∈ given_out resp -> i < nblocks (w_led w')
         /\ (forall id p, w_pend w' !! id = Some p -> pending_block p <> i)
         /\ i ∉ concat (map (fun er => given_out er.2) tr)) as Hnone.
    { intros ->. split; [constructor|set_solver]. }
    destruct ev as [now caller c sync|now id ans refund|now args|n|n|now id refund].
    - destruct (call_receipt _ _ _ _ _ _ _ Hr Hev Hst) as (H1 & H2 & H3). split; [|split; [done|]].
      + intros t caller' c' [[sync' [= -> -> -> ->]]|(? & ? & ? & ? & ? & ? & ? & _)]; done.
      + intros i Hi. specialize (H3 i Hi). split; [lia|]. split; [|intros Hin; apply Hgo in Hin; lia].
        intros id p Hp. destruct (Hpc _ _ Hp) as [Hp'|[-> Hb]].
        * destruct (Hwp _ _ Hp') as [_ Hlt%pend_block_lt]. lia.
        * (* a call left waiting gives out nothing yet *)
          assert (rejected resp = false) as Erj.
          { destruct (rejected resp) eqn:E; [|done]. destruct (rejected_names _ E) as (E1 & E2 & E3).
            unfold given_out in Hi. rewrite E1, E2, E3 in Hi. by apply elem_of_nil in Hi. }
          destruct (step_accepted _ _ _ _ _ _ _ Hr Hev Hst Erj) as (_ & r & _ & Hm).
          destruct r as [r|q]; destruct Hm as [-> Hw'].
          -- rewrite Hw' in Hp. cbn [w_pend] in Hp. apply Hwp in Hp as [Hlt _]. lia.
          -- unfold given_out in Hi. simpl in Hi. by apply elem_of_nil in Hi.
    - cbn [step] in Hst. destruct (w_pend w !! id) as [p|] eqn:Ep.
      2: { injection Hst as <- <-. split; [|by apply Hnone]. intros. split; [|split; [|split]]; intros ? ?; done. }
      destruct (resume now p ans) as [k|] eqn:Ek.
      2: { injection Hst as <- <-. split; [|by apply Hnone]. intros. split; [|split; [|split]]; intros ? ?; done. }
      destruct (commit _ _) as [s' r] eqn:Ec. injection Hst as E1 E2. subst r w'. cbn [w_led w_pend w_next] in *.
      destruct (reply_inv _ _ _ _ _ Hr Hev) as (Hi & Hu & Hans). destruct (Hwp _ _ Ep) as [_ Hpo].
      pose proof (resume_ended _ _ _ _ _ _ _ _ Hi Hu Hpo (wf_answer_u128 _ Hans) Ek Ec) as Hend.
      pose proof (pend_block_lt _ _ Hpo) as Hlt.
      destruct (ended_given_out _ _ _ _ _ _ Hend Hpre Hlt) as [H1 H2]. split; [|split; [done|]].
      + intros t caller c [[sync' [=]]|(now' & id' & ans' & refund' & sync & o & [= <- <- <- <-] & Hin)].
        destruct (Hlw _ _ _ _ _ _ Hin) as [_ Hl]. destruct (Hl _ Ep) as (Ho & Hm & Hb).
        by eapply ended_receipt.
      + intros i Hin. destruct (H2 i Hin) as [Hi' Hi2]. split; [done|]. split.
        * intros id' p' [Hne Hp']%lookup_delete_Some E. destruct Hi2 as [->|Hge].
          -- apply Hne. by eapply pend_distinct.
          -- destruct (Hwp _ _ Hp') as [_ Hlt'%pend_block_lt]. lia.
        * intros [Hx Hy]%Hgo. destruct Hi2 as [->|Hge]; [by eapply Hy|lia].
    - cbn [step] in Hst. split.
      { intros t caller c [[? [=]]|(? & ? & ? & ? & ? & ? & [=] & _)]. }
      apply Hnone. destruct (post_upgrade _ _) as [s' [u|[]|t]]; by injection Hst as _ <-.
    - split; [intros t caller c [[? [=]]|(? & ? & ? & ? & ? & ? & [=] & _)]|].
      apply Hnone. by injection Hst as _ <-.
    - split; [intros t caller c [[? [=]]|(? & ? & ? & ? & ? & ? & [=] & _)]|].
      apply Hnone. by injection Hst as _ <-.
    - split; [intros t caller c [[? [=]]|(? & ? & ? & ? & ? & ? & [=] & _)]|].
      apply Hnone. cbn [step] in Hst. destruct (w_pend w !! id); by injection Hst as _ <-. }
  split; [|split; [|split]].
  - (* the calls left waiting *)
    intros t caller c sync id o [Hin|Hin]%elem_of_app.
    + destruct (Hlw _ _ _ _ _ _ Hin) as [Hid Hl]. split; [lia|]. intros p Hp.
      destruct (Hpc _ _ Hp) as [Hp'|[-> _]]; [|lia].
      destruct (Hl _ Hp') as (Ho & Hm & b & Hb & Hbt). split; [done|]. split; [done|].
      exists b. split; [by eapply prefix_lookup|done].
    + apply elem_of_list_singleton in Hin. injection Hin as <- <-.
      destruct (call_inv _ _ _ _ _ Hr Hev) as (Hi & Hu & _).
      destruct (step_accepted _ _ _ _ _ _ _ Hr Hev Hst eq_refl) as (Hok & r & Ha & Hm).
      destruct r as [r|q]; destruct Hm as [E Hw'].
      { subst r. exfalso. by eapply accepted_done_answered. }
      injection E as -> ->. rewrite Hw'. cbn [w_next w_pend w_led]. split; [lia|].
      intros p. rewrite lookup_insert. intros [= ->].
      pose proof (accepted_waiting _ _ _ _ _ _ _ _ Ha) as El. rewrite El.
      inversion Ha as [|s1 p' E1 Hp Hsf Hpo E2|]; subst.
      split; [by eapply pending_outgoing|]. split; [by eapply pending_mark|].
      rewrite (pending_of_block _ _ _ _ _ Hp), recorded_blocks. eexists. split.
      { unfold nblocks. rewrite lookup_app_r by lia. by replace (_ - _)%nat with 0%nat by lia. }
      done.
  - intros k ev' resp' t caller c Hk Ha. apply lookup_app_Some in Hk as [Hk|[Hge Hk]].
    + rewrite take_app_le in Ha by (apply lookup_lt_Some in Hk; lia).
      eapply receipt_mono; [exact Hpre|]. by eapply Hrc.
    + apply list_lookup_singleton_Some in Hk as [E [= <- <-]].
      replace k with (length tr) in Ha by lia. rewrite take_app in Ha. by apply HA.
  - rewrite map_app, concat_app. simpl. rewrite app_nil_r. apply NoDup_app. split; [done|]. split; [|done].
    intros i Hi Hi'. by apply (HC i).
  - rewrite map_app, concat_app. simpl. rewrite app_nil_r. intros i [Hi|Hi]%elem_of_app.
    + destruct (Hgo i Hi) as [Hlt Hne]. split; [unfold nblocks in *; lia|].
      intros id p Hp. destruct (Hpc _ _ Hp) as [Hp'|[_ ->]]; [by eapply Hne|lia].
    + destruct (HC i Hi) as (? & ? & _). done.
Qed.

Lemma steps_history pre w tr w' :
  reachable w -> steps w tr w' -> history_ok pre w -> history_ok (pre ++ tr) w'.
Proof.
  intros Hr Hs. revert pre. induction Hs as [w|w ev tr w' Hev Hs IH]; intros pre Hw.
  { by rewrite app_nil_r. }
  destruct (step w ev) as [w1 resp] eqn:Est. cbn [fst snd] in *.
  assert (reachable w1) as Hr1 by (replace w1 with (step w ev).1 by (by rewrite Est); by constructor).
  specialize (IH Hr1 (pre ++ [(ev, resp)]) (history_step _ _ _ _ _ Hr Hev Est Hw)).
  by rewrite <- app_assoc in IH.
Qed.
Lemma install_history now0 cycles args w0 tr w :
  is_u64 now0 -> wf_ledger_args args -> init_world now0 cycles args = Some w0 -> steps w0 tr w -> history_ok tr w.
Proof.
  intros Hu Hwf Hi Hs. assert (reachable w0) as Hr by (by econstructor).
  apply (steps_history [] w0); [done|done|]. split; [|split; [|split]].
  - intros ? ? ? ? ? ? []%elem_of_nil.
  - intros k ev resp t caller c. by rewrite lookup_nil.
  - constructor.
  - intros i []%elem_of_nil.
Qed.

(** ** C81 *)

(** Every block number that an answer in the history names is, at the end, that of
    the block the answer says it is: the transaction asked for, recorded when the
    call was made; the transaction of which the call is a duplicate (the same one,
    unless the hash function clashes); the refund, for what came back less the fee;
    the approval given back. *)
Theorem C81_receipts_last now0 cycles args w0 tr w k ev resp t caller c :
  is_u64 now0 -> wf_ledger_args args -> init_world now0 cycles args = Some w0 -> steps w0 tr w ->
  tr !! k = Some (ev, resp) -> answers (take k tr) ev t caller c ->
  (forall i, own_block resp = Some i -> exists b, shown w i b
     /\ b_tx b = requested caller c /\ b_timestamp b = t)
  /\ (forall i, duplicate_of resp = Some i -> exists b, shown w i b
        /\ (b_tx b = requested caller c \/ hash_clash (b_tx b) (requested caller c)))
  /\ (forall i, refund_block resp = Some i -> exists b from sp amount n, shown w i b
        /\ outgoing caller c = Some (from, sp, amount) /\ came_back ev amount = Some n /\ icrc1_fee < n
        /\ b_tx b = Tx (Mint from (n - icrc1_fee) 0) None (Some (refund_mark c)) /\ b_timestamp b = time_of ev)
  /\ (forall i, approval_block resp = Some i -> exists b from x amount a e, shown w i b
        /\ outgoing caller c = Some (from, Some x, amount)
        /\ b_tx b = Tx (Approve from x a None e None) None (Some (repeat Byte.xff 32))
        /\ b_timestamp b = time_of ev).
Proof.
  intros Hu Hwf Hi Hs Hk Ha. destruct (install_history _ _ _ _ _ _ Hu Hwf Hi Hs) as (_ & Hrc & _).
  destruct (Hrc _ _ _ _ _ _ Hk Ha) as (H1 & H2 & H3 & H4). split; [|split; [|split]]; intros i Hii.
  - destruct (H1 i Hii) as (b & Hb & ?). exists b. split; [by apply shown_intro|done].
  - destruct (H2 i Hii) as (b & Hb & ?). exists b. split; [by apply shown_intro|done].
  - destruct (H3 i Hii) as (b & f & sp & am & n & Hb & ?). exists b, f, sp, am, n.
    split; [by apply shown_intro|done].
  - destruct (H4 i Hii) as (b & f & x & am & a & e & Hb & ?). exists b, f, x, am, a, e.
    split; [by apply shown_intro|done].
Qed.

(** No block number is given out twice: neither by two answers nor for two purposes
    in one answer. *)
Theorem C81_numbers_given_out_once now0 cycles args w0 tr w :
  is_u64 now0 -> wf_ledger_args args -> init_world now0 cycles args = Some w0 -> steps w0 tr w ->
  NoDup (concat (map (fun er => given_out er.2) tr)).
Proof. intros Hu Hwf Hi Hs. by destruct (install_history _ _ _ _ _ _ Hu Hwf Hi Hs) as (_ & _ & Hnd & _). Qed.

(** The call at place [k] of the history [tr] was told the number [i] of its block,
    at once or when its outgoing call ended. *)
Definition told_number (tr : list (event * response)) (k : nat) (i : N) : Prop :=
  exists now caller c sync resp, tr !! k = Some (EvCall now caller c sync, resp)
    /\ (own_block resp = Some i
        \/ exists id o now' ans refund resp', resp = RespPending id o
           /\ (EvReply now' id ans refund, resp') ∈ tr /\ own_block resp' = Some i).
(** The same, or it still waits and will be told [i]. *)
Definition has_number (tr : list (event * response)) (w : world) (k : nat) (i : N) : Prop :=
  told_number tr k i
  \/ exists now caller c sync id o p, tr !! k = Some (EvCall now caller c sync, RespPending id o)
     /\ w_pend w !! id = Some p /\ pending_block p = i.

Lemma own_given r i : own_block r = Some i -> i ∈ given_out r.
Proof. unfold given_out. intros ->. by left. Qed.

Definition numbers_ok (tr : list (event * response)) (w : world) : Prop :=
  (forall k i, has_number tr w k i -> i < nblocks (w_led w))
  /\ (forall k1 k2 i1 i2, has_number tr w k1 i1 -> has_number tr w k2 i2 -> (k1 < k2)%nat -> i1 < i2).

Lemma has_number_step tr w ev w' resp k i :
  reachable w -> ev_ok w ev -> step w ev = (w', resp) -> left_waiting tr w ->
  (forall id o, (exists now caller c sync, ev = EvCall now caller c sync) -> resp = RespPending id o ->
     forall now' ans refund resp', (EvReply now' id ans refund, resp') ∈ tr -> own_block resp' = None) ->
  has_number (tr ++ [(ev, resp)]) w' k i ->
  ((k < length tr)%nat /\ has_number tr w k i) \/ (k = length tr /\ nblocks (w_led w) <= i < nblocks (w_led w')).
Proof.
  intros Hr Hev Hst Hlw Hfresh Hn.
  pose proof (fun id p => step_pend_cases w ev id p Hr Hev) as Hpc. rewrite Hst in Hpc. cbn [fst] in Hpc.
  assert (forall now caller c sync r0, (tr ++ [(ev, resp)]) !! k = Some (EvCall now caller c sync, r0) ->
    ((k < length tr)%nat /\ tr !! k = Some (EvCall now caller c sync, r0))
    \/ (k = length tr /\ ev = EvCall now caller c sync /\ resp = r0)) as Hk.
  { intros now caller c sync r0 Hk. apply lookup_app_Some in Hk as [Hk|[Hge Hk]].
    - left. split; [by eapply lookup_lt_Some|done].
    - apply list_lookup_singleton_Some in Hk as [E [= -> ->]]. right. split; [lia|done]. }
  destruct Hn as [(now & caller & c & sync & r0 & Hk0 & Hn)|(now & caller & c & sync & id & o & p & Hk0 & Hp & Hb)].
  - destruct (Hk _ _ _ _ _ Hk0) as [[Hlt Hk1]|(-> & -> & ->)].
    + left. split; [done|]. destruct Hn as [Hn|(id & o & now' & ans & refund & r1 & -> & Hin & Hn)].
      { left. eexists _, _, _, _, _. split; [done|]. by left. }
      apply elem_of_app in Hin as [Hin|Hin].
      { left. eexists _, _, _, _, _. split; [done|]. right. by eexists _, _, _, _, _, _. }
      apply elem_of_list_singleton in Hin. injection Hin as <- <-. right.
      cbn [step] in Hst. destruct (w_pend w !! id) as [p|] eqn:Ep; [|by injection Hst as _ <-].
      destruct (resume now' p ans) as [kk|] eqn:Ek; [|by injection Hst as _ <-].
      destruct (commit _ _) as [s' r] eqn:Ec. injection Hst as _ ->.
      destruct (reply_inv _ _ _ _ _ Hr Hev) as (Hi & Hu & Hans).
      destruct (reachable_winv _ Hr) as (_ & _ & Hwp). destruct (Hwp _ _ Ep) as [_ Hpo].
      destruct (resume_ended _ _ _ _ _ _ _ _ Hi Hu Hpo (wf_answer_u128 _ Hans) Ek Ec) as (_ & Ho & _).
      exists now, caller, c, sync, id, o, p. split; [done|]. split; [done|].
      destruct Ho as [Ho|Ho]; rewrite Ho in Hn; [done|]. by injection Hn.
    + right. split; [done|]. destruct Hn as [Hn|(id & o & now' & ans & refund & r1 & -> & Hin & Hn)].
      { destruct (call_receipt _ _ _ _ _ _ _ Hr Hev Hst) as (_ & _ & H3). apply H3. by apply own_given. }
      apply elem_of_app in Hin as [Hin|Hin]; [|by apply elem_of_list_singleton in Hin].
      rewrite (Hfresh id o ltac:(eauto) eq_refl _ _ _ _ Hin) in Hn. done.
  - destruct (Hk _ _ _ _ _ Hk0) as [[Hlt Hk1]|(-> & -> & ->)].
    + left. split; [done|]. right. exists now, caller, c, sync, id, o, p. split; [done|]. split; [|done].
      destruct (Hpc _ _ Hp) as [Hp'|[-> _]]; [done|].
      destruct (Hlw _ _ _ _ _ _ (elem_of_list_lookup_2 _ _ _ Hk1)) as [Hid _]. lia.
    + right. split; [done|]. rewrite <- Hb.
      assert (reachable w') as Hr' by (replace w' with (step w (EvCall now caller c sync)).1 by (by rewrite Hst); by constructor).
      destruct (reachable_winv _ Hr') as (_ & _ & Hwp'). destruct (Hwp' _ _ Hp) as [_ Hpo'%pend_block_lt].
      split; [|done].
      destruct (step_accepted _ _ _ _ _ _ _ Hr Hev Hst eq_refl) as (Hok & r & Ha & Hm).
      destruct r as [r|q]; destruct Hm as [E _].
      { subst r. exfalso. by eapply accepted_done_answered. }
      injection E as -> _. destruct (Hpc _ _ Hp) as [Hp'|[_ ->]]; [|lia].
      destruct (reachable_winv _ Hr) as (_ & _ & Hwp). destruct (Hwp _ _ Hp') as [? _]. lia.
Qed.

(** Answers come for calls that were made before. *)
Definition answered_known (tr : list (event * response)) (w : world) : Prop :=
  forall now id ans refund resp i, (EvReply now id ans refund, resp) ∈ tr -> own_block resp = Some i -> id < w_next w.

Lemma numbers_step tr w ev w' resp :
  reachable w -> ev_ok w ev -> step w ev = (w', resp) ->
  left_waiting tr w -> answered_known tr w -> numbers_ok tr w ->
  answered_known (tr ++ [(ev, resp)]) w' /\ numbers_ok (tr ++ [(ev, resp)]) w'.
Proof.
  intros Hr Hev Hst Hlw Hak [Hlt Hord].
  pose proof (step_prefix _ _ Hr Hev) as Hpre. pose proof (step_next w ev) as Hnx.
  rewrite Hst in Hpre, Hnx. cbn [fst] in *. apply prefix_length in Hpre.
  assert (forall id o, (exists now caller c sync, ev = EvCall now caller c sync) -> resp = RespPending id o ->
     forall now' ans refund resp', (EvReply now' id ans refund, resp') ∈ tr -> own_block resp' = None) as Hfresh.
  { intros id o (now & caller & c & sync & ->) -> now' ans refund resp' Hin.
    destruct (own_block resp') as [i|] eqn:E; [|done]. pose proof (Hak _ _ _ _ _ _ Hin E) as Hid.
    destruct (step_accepted _ _ _ _ _ _ _ Hr Hev Hst eq_refl) as (Hok & r & Ha & Hm).
    destruct r as [r|q]; destruct Hm as [E' _].
    - subst r. exfalso. by eapply accepted_done_answered.
    - injection E' as -> _. lia. }
  split.
  - intros now id ans refund r i [Hin|Hin]%elem_of_app Ho.
    + pose proof (Hak _ _ _ _ _ _ Hin Ho). lia.
    + apply elem_of_list_singleton in Hin. injection Hin as <- <-. cbn [step] in Hst.
      destruct (w_pend w !! id) as [p|] eqn:Ep; [|by injection Hst as _ <-].
      destruct (reachable_winv _ Hr) as (_ & _ & Hwp). destruct (Hwp _ _ Ep) as [? _]. lia.
  - split.
    + intros k i [[_ Hn]|[_ ?]]%(has_number_step tr w ev w' resp k i Hr Hev Hst Hlw Hfresh); [|lia].
      apply Hlt in Hn. unfold nblocks in *. lia.
    + intros k1 k2 i1 i2 Hn1 Hn2 Hk.
      apply (has_number_step tr w ev w' resp k1 i1 Hr Hev Hst Hlw Hfresh) in Hn1 as [[Hk1 Hn1]|[Hk1 Hi1]];
        apply (has_number_step tr w ev w' resp k2 i2 Hr Hev Hst Hlw Hfresh) in Hn2 as [[Hk2 Hn2]|[Hk2 Hi2]]; try lia.
      * by eapply Hord.
      * apply Hlt in Hn1. lia.
Qed.

Lemma steps_numbers pre w tr w' :
  reachable w -> steps w tr w' -> left_waiting pre w -> history_ok pre w -> answered_known pre w -> numbers_ok pre w ->
  numbers_ok (pre ++ tr) w'.
Proof.
  intros Hr Hs. revert pre. induction Hs as [w|w ev tr w' Hev Hs IH]; intros pre Hlw Hh Hak Hn.
  { by rewrite app_nil_r. }
  destruct (step w ev) as [w1 resp] eqn:Est. cbn [fst snd] in *.
  assert (reachable w1) as Hr1 by (replace w1 with (step w ev).1 by (by rewrite Est); by constructor).
  pose proof (history_step _ _ _ _ _ Hr Hev Est Hh) as Hh1.
  destruct (numbers_step _ _ _ _ _ Hr Hev Est Hlw Hak Hn) as [Hak1 Hn1].
  specialize (IH Hr1 (pre ++ [(ev, resp)]) (proj1 Hh1) Hh1 Hak1 Hn1).
  by rewrite <- app_assoc in IH.
Qed.

(** Numbers follow the order in which the calls were made, whatever the order of the
    answers: a call made later is told a larger number. *)
Theorem C81_numbers_follow_the_calls now0 cycles args w0 tr w k1 k2 i1 i2 :
  is_u64 now0 -> wf_ledger_args args -> init_world now0 cycles args = Some w0 -> steps w0 tr w ->
  told_number tr k1 i1 -> told_number tr k2 i2 -> (k1 < k2)%nat -> i1 < i2.
Proof.
  intros Hu Hwf Hi Hs H1 H2 Hk. assert (reachable w0) as Hr by (by econstructor).
  assert (numbers_ok tr w) as [_ Hord].
  { apply (steps_numbers [] w0); [done|done| | | |].
    - intros ? ? ? ? ? ? []%elem_of_nil.
    - eapply install_history; [done..|constructor].
    - intros ? ? ? ? ? ? []%elem_of_nil.
    - assert (forall k i, ~ has_number [] w0 k i) as Hno.
      { intros k i [(? & ? & ? & ? & ? & E & _)|(? & ? & ? & ? & ? & ? & ? & E & _)]; by rewrite lookup_nil in E. }
      split; [intros k i Hn; by apply Hno in Hn|intros ? ? ? ? Hn; by apply Hno in Hn]. }
  eapply Hord; [by left|by left|done].
Qed.

End Shown.

(** ** A case that meets the hypotheses: the demo history and a retry.  Bob's
    withdrawal on behalf of Alice fails: its answer names the burn, the refund and the
    approval given back.  The retry of Alice's transfer names the first one. *)
Definition receipt_events : list event :=
  demo_events
  ++ [EvCall (T0 + 12 * sec) alice
        (CallTransfer None (acct bob) (2 * T) (Some FEE) (Some [Byte.x01]) (Some (T0 + 2 * sec))) None].
Lemma steps_run_responses `{Env} w tr w' :
  steps w tr w' ->
  map snd tr = snd (foldl (fun '(w, l) ev => ((step w ev).1, l ++ [(step w ev).2])) (w, []) (map fst tr)).
Proof.
  intros Hs.
  cut (forall l, l ++ map snd tr
    = snd (foldl (fun '(w, l) ev => ((step w ev).1, l ++ [(step w ev).2])) (w, l) (map fst tr))).
  { intros Hc. exact (Hc []). }
  induction Hs as [w|w ev tr w' Hev Hs IH]; intros l; simpl; [by rewrite app_nil_r|].
  rewrite <- IH, <- app_assoc. done.
Qed.
Example C81_case :
  exists w0 tr w, is_u64 T0 /\ wf_ledger_args demo_init /\ init_world T0 (100 * T) demo_init = Some w0
    /\ steps w0 tr w /\ map fst tr = receipt_events
    /\ map (fun er => (own_block er.2, duplicate_of er.2)) tr
       = [(Some 1, None); (Some 2, None); (Some 3, None); (Some 4, None); (None, None); (None, None);
          (Some 5, None); (Some 6, None); (None, None); (Some 9, None); (None, None); (None, Some 2)]
    /\ (refund_block ∘ snd) <$> tr !! 6%nat = Some (Some 7)
    /\ (approval_block ∘ snd) <$> tr !! 6%nat = Some (Some 8)
    /\ answers (take 6 tr) (EvReply (T0 + 7 * sec) 0 (AnsDeposit (Err (CECallRejected (Some RejDestinationInvalid)))) T)
         (T0 + 5 * sec) bob (CallWithdrawFrom None (acct alice) canister None T)
    /\ told_number tr 4 5 /\ told_number tr 8 9.
Proof.
  destruct (history_steps T0 (100 * T) demo_init receipt_events) as (w0 & tr & H1 & H2 & H3 & H4 & H5);
    [vm_compute; reflexivity|].
  pose proof (steps_run_responses _ _ _ H4) as H6. rewrite H5 in H6.
  eexists w0, tr, _. split; [exact H1|]. split; [exact H2|]. split; [exact H3|]. split; [exact H4|].
  split; [exact H5|]. clear H4.
  assert (w0 = the_world (init_world T0 (100 * T) demo_init)) as -> by (by rewrite H3).
  assert (tr = zip receipt_events (map snd tr)) as E.
  { rewrite <- H5. clear. induction tr as [|[a b] tr IH]; simpl; [done|]. by f_equal. }
  rewrite H6 in E. clear H3 H5 H6. subst tr.
  split; [vm_compute; reflexivity|]. split; [vm_compute; reflexivity|]. split; [vm_compute; reflexivity|].
  split.
  { right. eexists _, _, _, _, None, (OutDepositCycles canister T). split; [reflexivity|].
    apply (elem_of_list_lookup_2 _ 4). vm_compute. reflexivity. }
  split.
  - eexists _, _, _, _, _. split; [vm_compute; reflexivity|]. right. eexists _, _, _, _, _, _.
    split; [reflexivity|]. split; [apply (elem_of_list_lookup_2 _ 6); vm_compute; reflexivity|]. reflexivity.
  - eexists _, _, _, _, _. split; [vm_compute; reflexivity|]. right. eexists _, _, _, _, _, _.
    split; [reflexivity|]. split; [apply (elem_of_list_lookup_2 _ 9); vm_compute; reflexivity|]. reflexivity.
Qed.

Print Assumptions C81_receipts_last.
Print Assumptions C81_numbers_given_out_once.
Print Assumptions C81_numbers_follow_the_calls.
