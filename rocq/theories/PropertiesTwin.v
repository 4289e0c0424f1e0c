(** * The log is all the ledger remembers

    C75 *)
From Verif Require Import Base Types Codec CodecFacts State Ledger Canister Effects Spec ApiSpec AnswerSpec
  Inv Steps World CallFacts CallCases StepFacts AllowFacts RefundFacts AsyncFacts EventFacts DedupFacts
  PropertiesLog PropertiesDedup PropertiesCalls PropertiesAuth PropertiesPrune PropertiesOrder Demo.

(** ** Specification *)

(** Two ledgers with the same log, waiting for the same answers, with the same
    cycles.  Nothing is said about their tables, their caches or their clocks. *)
Record twins (w1 w2 : world) : Prop := Twins {
  tw_log : blocks (w_led w1) = blocks (w_led w2);
  tw_pend : w_pend w1 = w_pend w2;
  tw_next : w_next w1 = w_next w2;
  tw_cycles : w_cycles w1 = w_cycles w2
}.

(** The account and the spender whose allowance a call draws on *)
Definition draws_on (caller : principal) (c : call) : option (account * account) :=
  match c with
  | CallTransferFrom sub from _ _ _ _ _ => Some (from, Acct caller sub)
  | CallWithdrawFrom sub from _ _ _ => Some (from, Acct caller sub)
  | CallCreateCanisterFrom from sub _ _ _ => Some (from, Acct caller sub)
  | _ => None
  end.

(** Two answers to one call say the same: they are equal, except that
    - the [Duplicate] answer to a creation may or may not know the new canister,
    - a transaction from before the window, and
    - a call whose allowance ran out, are refused with one reason or another,
    - both messages trap. *)
Inductive same_answer (bs : list block) (now : N) (caller : principal) (c : call)
  (r1 r2 : response) : Prop :=
| same_equal : r1 = r2 -> same_answer bs now caller c r1 r2
| same_known i : is_create c = true -> duplicate_of r1 = Some i -> duplicate_of r2 = Some i ->
    same_answer bs now caller c r1 r2
| same_old : too_long_ago (created_of c) now -> rejected r1 = true -> rejected r2 = true ->
    same_answer bs now caller c r1 r2
| same_ran_out from x a e : draws_on caller c = Some (from, x) ->
    log_allowance bs (to_key from, to_key x) = Some (a, Some e) -> e <= now ->
    rejected r1 = true -> rejected r2 = true -> same_answer bs now caller c r1 r2
| same_trap t1 t2 : r1 = RespTrap t1 -> r2 = RespTrap t2 -> same_answer bs now caller c r1 r2.
Definition same_response (w : world) (ev : event) (r1 r2 : response) : Prop :=
  match ev with
  | EvCall now caller c _ => same_answer (blocks (w_led w)) now caller c r1 r2
  | _ => r1 = r2 \/ exists t1 t2, r1 = RespTrap t1 /\ r2 = RespTrap t2
  end.

(** When the event happens *)
Definition event_time (ev : event) : option N :=
  match ev with
  | EvCall now _ _ _ => Some now
  | EvReply now _ _ _ => Some now
  | EvUpgrade now _ => Some now
  | EvCrash now _ _ => Some now
  | _ => None
  end.
(** No allowance in the log runs out in the very nanosecond of the event. *)
Definition quiet (w : world) (ev : event) : Prop :=
  forall now k a, event_time ev = Some now -> log_allowance (blocks (w_led w)) k <> Some (a, Some now).
(** No transaction of the log shares its hash with a different one that the event
    asks for or records to restore an allowance. *)
Definition distinct_hashes `{Env} (w : world) (ev : event) : Prop :=
  match ev with
  | EvCall now caller c sync =>
      (forall b, b ∈ blocks (w_led w) -> ~ hash_clash (b_tx b) (requested caller c))
      /\ forall from x amount, outgoing caller c = Some (from, Some x, amount) ->
         (sync <> None \/ w_cycles w < amount) ->
         ~ hash_clash (requested caller c) (given_back (w_led w) now from x)
         /\ forall b, b ∈ blocks (w_led w) -> ~ hash_clash (b_tx b) (given_back (w_led w) now from x)
  | EvReply now id ans _ =>
      forall p x returned code, w_pend w !! id = Some p -> p_spender p = Some x ->
      answer_returned (pending_amount p) ans = Some (returned, code) ->
      forall b, b ∈ blocks (w_led w) ->
      ~ hash_clash (b_tx b) (restoring (w_led w) now (p_from p) x (returned - icrc1_fee) (p_old p))
  | _ => True
  end.

Section WithEnv.
Context `{Env}.

(** ** Two states with the same log *)
Record like (now : N) (s1 s2 : state) : Prop := Like {
  lk1 : inv now s1;
  lk2 : inv now s2;
  lk_log : blocks s1 = blocks s2
}.

Lemma like_bal now s1 s2 a : like now s1 s2 -> balance_of s1 a = balance_of s2 a.
Proof.
  intros [H1 H2 Hl]. unfold balance_of. pose proof (inv_balance _ _ H1 (to_key a)) as E1.
  pose proof (inv_balance _ _ H2 (to_key a)) as E2. rewrite Hl in E1. lia.
Qed.
Lemma like_supply now s1 s2 : like now s1 s2 -> total_supply s1 = total_supply s2.
Proof.
  intros Hk. destruct (inv_supply _ _ (lk1 _ _ _ Hk)) as [-> _]. destruct (inv_supply _ _ (lk2 _ _ _ Hk)) as [-> _].
  set (ks := elements (dom (balances s1) ∪ dom (balances s2))).
  assert (NoDup ks) as Hnd by apply NoDup_elements.
  rewrite (map_sum_keys _ ks Hnd), (map_sum_keys (balances s2) ks Hnd).
  - apply sum_over_ext. intros k _. pose proof (like_bal _ _ _ (of_key k) Hk) as E. unfold balance_of in E.
    destruct k. exact E.
  - intros k Hz. apply elem_of_elements, elem_of_union. right. apply elem_of_dom.
    destruct (balances s2 !! k); [done|]. done.
  - intros k Hz. apply elem_of_elements, elem_of_union. left. apply elem_of_dom.
    destruct (balances s1 !! k); [done|]. done.
Qed.
Lemma like_nblocks now s1 s2 : like now s1 s2 -> nblocks s1 = nblocks s2.
Proof. intros [_ _ Hl]. unfold nblocks. by rewrite Hl. Qed.
Lemma like_block now s1 s2 t : like now s1 s2 -> mk_block now t s1 = mk_block now t s2.
Proof. intros [H1 H2 Hl]. unfold mk_block. by rewrite (inv_phash _ _ H1), (inv_phash _ _ H2), Hl. Qed.

(** The stored allowance of a pair, as far as it can still be used *)
Lemma like_approval now s1 s2 k :
  like now s1 s2 ->
  approvals s1 !! k = approvals s2 !! k
  \/ exists a e, log_allowance (blocks s1) k = Some (a, Some e) /\ e <= now /\ 0 < e
     /\ (approvals s1 !! k = None \/ approvals s1 !! k = Some (a, e))
     /\ (approvals s2 !! k = None \/ approvals s2 !! k = Some (a, e)).
Proof.
  intros [H1 H2 Hl]. destruct (inv_allow _ _ H1 k) as [A1 B1]. destruct (inv_allow _ _ H2 k) as [A2 B2].
  rewrite <- Hl in A2, B2.
  destruct (log_allowance (blocks s1) k) as [[a x]|].
  - destruct (B1 a x eq_refl) as [E1|(E1 & e1 & Ex1 & L1)]; destruct (B2 a x eq_refl) as [E2|(E2 & e2 & Ex & L2)].
    + left. congruence.
    + right. subst x. simpl in E1. pose proof (A1 _ _ E1) as Ee. injection Ee as Ee. unfold exp_opt in Ee.
      exists a, e2. destruct (N.eqb_spec e2 0); [done|]. split; [done|]. split; [done|]. split; [lia|]. split; [by right|by left].
    + right. subst x. simpl in E2. pose proof (A2 _ _ E2) as Ee. injection Ee as Ee. unfold exp_opt in Ee.
      exists a, e1. destruct (N.eqb_spec e1 0); [done|]. split; [done|]. split; [done|]. split; [lia|]. split; [by left|by right].
    + left. congruence.
  - left. destruct (approvals s1 !! k) as [[]|]; [by specialize (A1 _ _ eq_refl)|].
    destruct (approvals s2 !! k) as [[]|]; [by specialize (A2 _ _ eq_refl)|]. done.
Qed.

Lemma like_allowance now s1 s2 f p :
  like now s1 s2 -> (forall a, log_allowance (blocks s1) (to_key f, to_key p) <> Some (a, Some now)) ->
  allowance s1 f p now = allowance s2 f p now.
Proof.
  intros Hk Hq. unfold allowance, approval_key.
  destruct (like_approval _ _ _ (to_key f, to_key p) Hk) as [->|(a & e & Hl & He & H0 & H1 & H2)]; [done|].
  assert (e < now) by (destruct (N.eq_dec e now) as [->|]; [by edestruct Hq|lia]).
  assert ((0 <? e) && (e <? now) = true) as Hx by lia.
  destruct H1 as [->| ->]; destruct H2 as [->| ->]; cbn [default fst snd]; unfold default, id; cbn [snd]; rewrite ?Hx; done.
Qed.

Lemma like_check now s1 s2 f p n :
  like now s1 s2 ->
  check_allowance s1 f p n now = check_allowance s2 f p n now
  \/ ((exists a e, log_allowance (blocks s1) (to_key f, to_key p) = Some (a, Some e) /\ e <= now)
      /\ exists e1 e2, check_allowance s1 f p n now = Err e1 /\ check_allowance s2 f p n now = Err e2).
Proof.
  intros Hk. unfold check_allowance, approval_key. destruct (n =? 0); [by left|].
  destruct (like_approval _ _ _ (to_key f, to_key p) Hk) as [->|(a & e & Hl & He & H0 & H1 & H2)]; [by left|].
  right. split; [by eauto|].
  assert (negb ((e =? 0) || (now <? e)) = true) as Hx by lia.
  destruct H1 as [->| ->]; destruct H2 as [->| ->]; rewrite ?Hx; eauto.
Qed.

(** Deduplication *)
Lemma like_known now s1 s2 t :
  like now s1 s2 -> is_u64 now -> wf_op (tx_op t) -> wf_u64_opt (tx_created_at t) ->
  (forall b, b ∈ blocks s1 -> ~ hash_clash (b_tx b) t) -> ~ too_long_ago (tx_created_at t) now ->
  (tx_hashes s1 !! txh t = None /\ tx_hashes s2 !! txh t = None)
  \/ exists i c1 c2, tx_hashes s1 !! txh t = Some (i, c1) /\ tx_hashes s2 !! txh t = Some (i, c2).
Proof.
  intros [H1 H2 Hl] Hu Hw Hc Hn Hold.
  pose proof (dup_or_old now s1 t H1 Hu Hw Hc Hn) as D1.
  assert (forall b, b ∈ blocks s2 -> ~ hash_clash (b_tx b) t) as Hn2 by (by rewrite <- Hl).
  pose proof (dup_or_old now s2 t H2 Hu Hw Hc Hn2) as D2. rewrite <- Hl in D2.
  assert (forall i b, blocks s1 !! i = Some b -> txh (b_tx b) = txh t -> b_tx b = t) as Heq.
  { intros i b Hb Hh. destruct (inv_blk _ _ H1 _ _ Hb) as [((Hw1 & Hw2 & _) & _) _].
    destruct (same_hash _ _ Hw1 Hw2 Hw Hc Hh) as [?|Hcl]; [done|]. destruct (Hn b); [|done].
    by eapply elem_of_list_lookup_2. }
  destruct (tx_hashes s1 !! txh t) as [[i1 c1]|] eqn:E1; destruct (tx_hashes s2 !! txh t) as [[i2 c2]|] eqn:E2.
  - right. exists i1, c1, c2. split; [done|]. repeat f_equal.
    destruct (inv_hashes _ _ H1 _ _ _ E1) as [(b1 & Hb1 & Hh1) (ts & j & b & Hj & Hb & Hh)].
    destruct (inv_hashes _ _ H2 _ _ _ E2) as [(b2 & Hb2 & Hh2) _]. rewrite <- Hl in Hb2.
    pose proof (Heq _ _ Hb1 Hh1) as T1. pose proof (Heq _ _ Hb2 Hh2) as T2. pose proof (Heq _ _ Hb Hh) as T.
    destruct (inv_ts _ _ H1 _ _ Hj) as (b' & e & Hb' & Ht & _). rewrite Hb in Hb'. injection Hb' as <-.
    pose proof (inv_unique _ _ H1 _ _ _ _ Hb2 Hb1 ltac:(congruence) ltac:(congruence)) as E. lia.
  - exfalso. destruct D1 as [D1 _]. destruct D2 as [_ D2]. destruct D1 as [D|D]; [left; by eexists| |done].
    destruct D2 as [[]|]; [by left|done|done].
  - exfalso. destruct D1 as [_ D1]. destruct D2 as [D2 _]. destruct D2 as [D|D]; [left; by eexists| |done].
    destruct D1 as [[]|]; [by left|done|done].
  - by left.
Qed.

Definition ran_out (bs : list block) (now : N) (from : account) (sp : option account) : Prop :=
  exists x a e, third_party from sp = Some x /\ log_allowance bs (to_key from, to_key x) = Some (a, Some e) /\ e <= now.

Definition known_alike (s1 s2 : state) (t : transaction) : Prop :=
  (tx_hashes s1 !! txh t = None /\ tx_hashes s2 !! txh t = None)
  \/ exists i c1 c2, tx_hashes s1 !! txh t = Some (i, c1) /\ tx_hashes s2 !! txh t = Some (i, c2).

Definition small (o : option N) : Prop := match o with Some f => f < U128_MOD | None => True end.
Lemma small_of o : match o with Some f => U128_MOD <=? f | None => false end = false -> small o.
Proof. destruct o; simpl; [lia|done]. Qed.

Lemma like_xfer now s1 s2 from to sp amount fee m created :
  like now s1 s2 ->
  (amount < U128_MOD /\ small fee -> known_alike s1 s2 (Tx (Transfer from to sp amount fee) created m)) ->
  xfer_decide from to sp amount fee m created now s1 = xfer_decide from to sp amount fee m created now s2
  \/ (ran_out (blocks s1) now from sp
      /\ exists e1 e2, xfer_decide from to sp amount fee m created now s1 = OErr e1
         /\ xfer_decide from to sp amount fee m created now s2 = OErr e2).
Proof.
  intros Hk Hd. unfold xfer_decide. rewrite (like_bal _ _ _ from Hk).
  destruct (N.leb_spec U128_MOD amount); [by left|].
  destruct (match fee with Some f => _ | None => _ end) eqn:Ef; [by left|]. unfold transfer_decide.
  destruct Hd as [[-> ->]|(i & c1 & c2 & -> & ->)]; [split; [done|by apply small_of]| |by left].
  destruct (is_denied (owner from)); [by left|]. destruct (is_denied (owner to)); [by left|].
  destruct (match sp with Some _ => _ | None => _ end); [by left|]. destruct (bad_fee fee); [by left|].
  rewrite (like_bal _ _ _ from Hk), (like_bal _ _ _ to Hk). destruct (_ <=? _); [by left|].
  destruct (third_party from sp) as [x|] eqn:Ex; [|by left].
  destruct (like_check _ _ _ from x (amount + FEE) Hk) as [->|[(a & e & Hl & He) (e1 & e2 & -> & ->)]]; [by left|].
  right. split; [by exists x, a, e|]. eauto.
Qed.

Lemma like_apr now s1 s2 from sp amount expected expires fee m created :
  like now s1 s2 ->
  (small expected /\ small fee ->
   known_alike s1 s2 (Tx (Approve from sp (capped amount) expected expires fee) created m)) ->
  (forall a, log_allowance (blocks s1) (to_key from, to_key sp) <> Some (a, Some now)) ->
  apr_decide from sp amount expected expires fee m created now s1
  = apr_decide from sp amount expected expires fee m created now s2.
Proof.
  intros Hk Hd Hq. unfold apr_decide. rewrite (like_allowance _ _ _ from sp Hk Hq).
  destruct (match expected with Some f => _ | None => _ end) eqn:Ee; [done|].
  destruct (match fee with Some f => _ | None => _ end) eqn:Ef; [done|]. unfold approve_decide. fold (capped amount).
  destruct Hd as [[-> ->]|(i & c1 & c2 & -> & ->)]; [split; by apply small_of| |done].
  by rewrite (like_allowance _ _ _ from sp Hk Hq), (like_bal _ _ _ from Hk).
Qed.

Lemma like_burn {E} (cp : pt_error -> E) cu nf now s1 s2 t from sp amount :
  like now s1 s2 -> known_alike s1 s2 t ->
  burn_decide cp cu nf t from sp amount now s1 = burn_decide cp cu nf t from sp amount now s2
  \/ (exists i c1 c2, burn_decide cp cu nf t from sp amount now s1 = OErr (cp (PTDuplicate i c1))
        /\ burn_decide cp cu nf t from sp amount now s2 = OErr (cp (PTDuplicate i c2)))
  \/ (ran_out (blocks s1) now from sp
      /\ (forall o, burn_decide cp cu nf t from sp amount now s1 <> OOk o)
      /\ (forall o, burn_decide cp cu nf t from sp amount now s2 <> OOk o)).
Proof.
  intros Hk Hd. unfold burn_decide.
  destruct Hd as [[-> ->]|(i & c1 & c2 & -> & ->)]; [|right; left; eauto].
  rewrite (like_bal _ _ _ from Hk). destruct (_ <=? _); [by left|].
  destruct (third_party from sp) as [x|] eqn:Ex; [|by left].
  destruct (like_check _ _ _ from x (amount + FEE) Hk) as [->|[(a & e & Hl & He) (e1 & e2 & -> & ->)]]; [by left|].
  right. right. split; [by exists x, a, e|]. split; intros o; [destruct (cu e1)|destruct (cu e2)]; done.
Qed.

Lemma like_dep now s1 s2 to cycles m : like now s1 s2 -> dep_decide to cycles m s1 = dep_decide to cycles m s2.
Proof.
  intros Hk. unfold dep_decide, mint_decide. by rewrite (like_bal _ _ _ to Hk), (like_supply _ _ _ Hk).
Qed.

Lemma like_recorded now s1 s2 t :
  like now s1 s2 -> is_u64 now -> tx_ok now t s1 -> tx_ok now t s2 ->
  like now (recorded now t s1) (recorded now t s2).
Proof.
  intros Hk Hu T1 T2. constructor.
  - apply recorded_inv; [done|apply Hk|done].
  - apply recorded_inv; [done|apply Hk|done].
  - rewrite !recorded_blocks, (like_block _ _ _ _ Hk). by rewrite (lk_log _ _ _ Hk).
Qed.
Lemma like_prune now s1 s2 : like now s1 s2 -> is_u64 now -> like now (prune_state now s1) (prune_state now s2).
Proof.
  intros [H1 H2 Hl] Hu. constructor.
  - eapply prims_inv; [done|exact H1|]. by apply prune_state_prims.
  - eapply prims_inv; [done|exact H2|]. by apply prune_state_prims.
  - destruct (prune_state_core now s1) as (-> & _). by destruct (prune_state_core now s2) as (-> & _).
Qed.

(** A block that is not an approval expiring now changes no expiry to now. *)
Lemma quiet_step now k bs b :
  (forall a, log_allowance bs k <> Some (a, Some now)) ->
  (forall k' a, approved_by b <> Some (k', (a, Some now))) ->
  forall a, log_allowance (bs ++ [b]) k <> Some (a, Some now).
Proof.
  intros Hq Hb a. unfold log_allowance. rewrite foldl_app. simpl. fold (log_allowance bs k).
  unfold allowance_step. destruct (approved_by b) as [[k' [a' x]]|].
  - case_decide; [|done]. destruct (a' =? 0); [done|]. intros [= -> ->]. by eapply Hb.
  - destruct (spent_by b) as [[k' n]|]; [|done]. case_decide; [|done].
    destruct (log_allowance bs k) as [[a' x]|] eqn:E; [|done].
    destruct (a' - n =? 0); [done|]. intros [= _ ->]. by eapply Hq.
Qed.

(** A transaction without a [created_at_time] is never taken for a known one. *)
Lemma unstamped_unknown now s t :
  inv now s -> is_u64 now -> wf_op (tx_op t) -> tx_created_at t = None ->
  (forall b, b ∈ blocks s -> tx_created_at (b_tx b) <> None -> ~ hash_clash (b_tx b) t) ->
  tx_hashes s !! txh t = None.
Proof.
  intros Hi Hu Hw Hc Hn. destruct (tx_hashes s !! txh t) as [[i c]|] eqn:E; [exfalso|done].
  destruct (inv_hashes _ _ Hi _ _ _ E) as [_ (ts & j & b & Hj & Hb & Hh)].
  destruct (inv_ts _ _ Hi _ _ Hj) as (b' & e & Hb' & Ht & _). rewrite Hb in Hb'. injection Hb' as <-.
  destruct (inv_blk _ _ Hi _ _ Hb) as [((Hw1 & Hw2 & _) & _) _].
  destruct (same_hash (b_tx b) t Hw1 Hw2 Hw) as [Eq|Hcl]; [by rewrite Hc|done| |].
  - rewrite Eq in Ht. congruence.
  - apply (Hn b); [by eapply elem_of_list_lookup_2|by rewrite Ht|done].
Qed.

(** ** Refunds *)
Lemma like_refund now s1 s2 from sp n m old :
  like now s1 s2 -> is_u64 now -> wf_account from -> wf_acct_opt sp -> is_u128 n ->
  (forall e, old = Some e -> 0 < e /\ is_u64 e) ->
  (forall k a, log_allowance (blocks s1) k <> Some (a, Some now)) ->
  (forall x b, third_party from sp = Some x -> FEE < n -> b ∈ blocks s1 ->
     ~ hash_clash (b_tx b) (restoring s1 now from x n old)) ->
  match refund_outcome from sp n m old now s1, refund_outcome from sp n m old now s2 with
  | Some (s1', fb1, ab1), Some (s2', fb2, ab2) => blocks s1' = blocks s2' /\ fb1 = fb2 /\ ab1 = ab2
  | None, None => True
  | _, _ => False
  end.
Proof.
  intros Hk Hu Hf Hsp Hn Hold Hq Hcl. unfold refund_outcome.
  assert (reimburse_decide from n m s1 = reimburse_decide from n m s2) as Ed.
  { unfold reimburse_decide. by rewrite (like_bal _ _ _ from Hk), (like_supply _ _ _ Hk). }
  destruct (reimburse_decide from n m s2) as [[]| |] eqn:E2; rewrite Ed; [|done|done].
  pose proof (reimburse_decide_ok from n m now s1 Ed Hf Hn) as O1. fold (refund_tx from n m) in O1.
  pose proof (reimburse_decide_ok from n m now s2 E2 Hf Hn) as O2. fold (refund_tx from n m) in O2.
  assert (like now (refunded from n m now s1) (refunded from n m now s2)) as Hk1.
  { rewrite !refunded_recorded. apply like_prune; [|done]. by apply like_recorded. }
  pose proof (refunded_blocks from n m now s1) as B1.
  pose proof (refunded_allowance from n m now s1) as Hall.
  assert (forall k a, log_allowance (blocks (refunded from n m now s1)) k <> Some (a, Some now)) as Hq1.
  { intros k. rewrite B1. by apply quiet_step. }
  set (r1 := refunded from n m now s1) in *. set (r2 := refunded from n m now s2) in *. clearbody r1 r2.
  rewrite (like_nblocks _ _ _ Hk), (like_nblocks _ _ _ Hk1).
  pose proof (lk_log _ _ _ Hk1) as Hlog.
  destruct (third_party from sp) as [x|] eqn:Ex; [|done].
  destruct ((FEE <? n) && approval_still_valid old now) eqn:Ec; [|done].
  pose proof (like_allowance _ _ _ from x Hk1 (Hq1 _)) as Ea.
  assert (restore_tx from x (n - FEE) old now r1 = restoring s1 now from x n old) as Ert.
  { unfold restore_tx, restoring. rewrite restore_amount_api, restore_expiry_api.
    destruct (Hall x (lk1 _ _ _ Hk) Hu O1) as [->|[a Ha]]; [done|exfalso].
    rewrite icrc2_allowance_view in Ha. unfold view in Ha.
    destruct (inv_allow _ _ (lk1 _ _ _ Hk1) (approval_key from x)) as [A1 _].
    destruct (approvals r1 !! approval_key from x) as [[a' e']|]; [|done].
    destruct ((0 <? e') && (e' <? now)); [done|]. injection Ha as <- Ee. specialize (A1 _ _ eq_refl). rewrite Ee in A1. by eapply Hq1. }
  assert (restore_tx from x (n - FEE) old now r2 = restore_tx from x (n - FEE) old now r1) as Et.
  { unfold restore_tx, restore_amount, restore_expiry. by rewrite Ea. }
  assert (wf_op (tx_op (restore_tx from x (n - FEE) old now r1))) as Hw.
  { unfold restore_tx. simpl. apply third_party_Some in Ex as [-> _]. split; [done|]. split; [done|].
    split; [apply u128_sat_add_lt|]. split; [done|]. split; [|done].
    unfold restore_expiry. destruct (0 <? (allowance r1 from x now).2); simpl; [apply allowance_u64, (lk1 _ _ _ Hk1)|].
    destruct old as [e|]; [|done]. by apply Hold. }
  assert (forall r, blocks r = blocks r1 -> inv now r ->
    tx_hashes r !! txh (restore_tx from x (n - FEE) old now r1) = None) as Hun.
  { intros r Hb Hi. apply (unstamped_unknown now); [done|done|done|done|].
    intros b Hin Hst. rewrite Hb, B1 in Hin. apply elem_of_app in Hin as [Hin|Hin%elem_of_list_singleton].
    - rewrite Ert. apply Hcl; [done| |done]. lia.
    - by rewrite Hin in Hst. }
  assert (restore_decide from x (n - FEE) old now r1 = restore_decide from x (n - FEE) old now r2) as Er.
  { unfold restore_decide, approve_decide.
    fold (restore_tx from x (n - FEE) old now r1). fold (restore_tx from x (n - FEE) old now r2). rewrite Et.
    rewrite (Hun r1 eq_refl (lk1 _ _ _ Hk1)), (Hun r2 (eq_sym Hlog) (lk2 _ _ _ Hk1)).
    rewrite (like_bal _ _ _ from Hk1). unfold restore_expiry. by rewrite Ea. }
  rewrite Er. destruct (restore_decide from x (n - FEE) old now r2) as [[]| |]; [|done|done].
  split; [|done]. rewrite Et. destruct (tx_effect_fields now (restore_tx from x (n - FEE) old now r1) r1) as (-> & _).
  destruct (tx_effect_fields now (restore_tx from x (n - FEE) old now r1) r2) as (-> & _).
  by rewrite Hlog, (like_block _ _ _ _ Hk1).
Qed.

(** The rest of a message, when its outgoing call has been answered *)
Lemma like_resume now p ans s01 s02 s1 s2 k s1' s2' r1 r2 :
  like now s1 s2 -> is_u64 now -> pend_ok s1 p -> ans_u128 ans -> resume now p ans = Some k ->
  (forall k a, log_allowance (blocks s1) k <> Some (a, Some now)) ->
  (forall x returned code b, third_party (p_from p) (p_spender p) = Some x ->
     answer_returned (pending_amount p) ans = Some (returned, code) -> FEE < returned - FEE -> b ∈ blocks s1 ->
     ~ hash_clash (b_tx b) (restoring s1 now (p_from p) x (returned - FEE) (p_old p))) ->
  commit s01 (k s1) = (s1', r1) -> commit s02 (k s2) = (s2', r2) ->
  (r1 = r2 /\ blocks s1' = blocks s2')
  \/ exists t1 t2, r1 = RespTrap t1 /\ r2 = RespTrap t2 /\ s1' = s01 /\ s2' = s02.
Proof.
  intros Hk Hu Hpo Hans Hre Hq Hcl C1 C2.
  pose proof (inv_supply _ _ (lk1 _ _ _ Hk)) as S1. pose proof (inv_supply _ _ (lk2 _ _ _ Hk)) as S2.
  pose proof (lk_log _ _ _ Hk) as Hl.
  destruct p as [ep from to sp amount i old|ep from sp amount i old created arg];
    destruct ans as [r0|r0]; cbn [resume] in Hre; try done;
    match type of Hre with Some ?a = _ => assert (k = a) as -> by congruence end; clear Hre;
    cbn [p_from p_spender pending_amount p_old] in *.
  - destruct Hpo as (_ & _ & cr & Hf & Hsp & Ha & _ & _ & _ & Hold).
    destruct r0 as [[]|e].
    { left. destruct ep; simpl in C1, C2; injection C1 as <- <-; injection C2 as <- <-; done. }
    destruct (withdraw_rest_eq ep from sp amount i old now e s01 s1 S1) as [x1 X1].
    destruct (withdraw_rest_eq ep from sp amount i old now e s02 s2 S2) as [x2 X2].
    rewrite X1 in C1. rewrite X2 in C2. unfold wd_fail_rest in C1, C2. destruct (N.eqb_spec (amount - FEE) 0) as [E|E].
    { injection C1 as <- <-. injection C2 as <- <-. by left. }
    pose proof (like_refund now s1 s2 from sp (amount - FEE) PENALIZE_MEMO old Hk Hu Hf Hsp) as Hr.
    assert (is_u128 (amount - FEE)) as Hn by (unfold is_u128; lia). specialize (Hr Hn Hold Hq).
    assert (forall x b, third_party from sp = Some x -> FEE < amount - FEE -> b ∈ blocks s1 ->
      ~ hash_clash (b_tx b) (restoring s1 now from x (amount - FEE) old)) as Hcl'.
    { intros x b Hx Hfee Hb. by apply (Hcl x amount (call_error_to_reject e) b). }
    specialize (Hr Hcl').
    destruct (refund_outcome from sp (amount - FEE) PENALIZE_MEMO old now s1) as [[[s1r fb1] ab1]|];
      destruct (refund_outcome from sp (amount - FEE) PENALIZE_MEMO old now s2) as [[[s2r fb2] ab2]|];
      injection C1 as <- <-; injection C2 as <- <-.
    + left. by destruct Hr as (-> & -> & ->).
    + done.
    + done.
    + right. eauto 10.
  - destruct Hpo as (_ & Hf & Hsp & Ha & _ & _ & _ & Hold).
    destruct (create_rest_eq ep from sp amount i old created now r0 s01 s1 S1) as [x1 X1].
    destruct (create_rest_eq ep from sp amount i old created now r0 s02 s2 S2) as [x2 X2].
    rewrite X1 in C1. rewrite X2 in C2. destruct (flat_create_result amount r0) as [c|[code n]] eqn:Ef.
    { injection C1 as <- <-. injection C2 as <- <-. left. split; [done|]. unfold note_canister.
      destruct (tx_hashes s1 !! _); destruct (tx_hashes s2 !! _); exact Hl. }
    assert (answer_returned amount (AnsCmc r0) = Some (n, code)) as Hret.
    { destruct r0 as [[|[]]|]; simpl in *; rewrite ?reported_code_eq; congruence. }
    assert (is_u128 n) as Hn.
    { eapply wf_refund_n; [| |exact Ef]; [unfold is_u128; lia|]. destruct r0 as [[|[]]|]; done. }
    unfold cr_fail_rest in C1, C2. destruct (N.eqb_spec (n - FEE) 0) as [E|E].
    { injection C1 as <- <-. injection C2 as <- <-. by left. }
    pose proof (like_refund now s1 s2 from sp (n - FEE) REFUND_MEMO old Hk Hu Hf Hsp) as Hr.
    assert (is_u128 (n - FEE)) as Hn' by (eapply is_u128_le; [|exact Hn]; lia).
    specialize (Hr Hn' Hold Hq).
    assert (forall x b, third_party from sp = Some x -> FEE < n - FEE -> b ∈ blocks s1 ->
      ~ hash_clash (b_tx b) (restoring s1 now from x (n - FEE) old)) as Hcl'.
    { intros x b Hx Hfee Hb. by apply (Hcl x n code b). }
    specialize (Hr Hcl').
    destruct (refund_outcome from sp (n - FEE) REFUND_MEMO old now s1) as [[[s1r fb1] ab1]|];
      destruct (refund_outcome from sp (n - FEE) REFUND_MEMO old now s2) as [[[s2r fb2] ab2]|];
      injection C1 as <- <-; injection C2 as <- <-.
    + left. by destruct Hr as (-> & -> & ->).
    + done.
    + done.
    + right. eauto 10.
Qed.

(** ** Calls *)
Definition alike (now : N) (caller : principal) (c : call) (s1 s1' s2' : state) (m1 m2 : msg_result) : Prop :=
  blocks s1' = blocks s2'
  /\ ((exists p, m1 = Waiting p /\ m2 = Waiting p)
      \/ exists r1 r2, m1 = Done r1 /\ m2 = Done r2 /\ same_answer (blocks s1) now caller c r1 r2
         /\ accepted_cycles c r1 = accepted_cycles c r2).

(** The outgoing call is sent, or fails at once and is dealt with. *)
Definition continue (now avail : N) (sync : option sync_error) (p : pending) (s0 s : state) : state * msg_result :=
  match sync_fail avail (pending_amount p) sync with
  | None => (s, Waiting p)
  | Some e => sync_rest now p e s0 s
  end.

Lemma like_continue now avail caller c sync s1 s2 p s1' s2' m1 m2 :
  like now s1 s2 -> is_u64 now ->
  tx_ok now (requested caller c) s1 -> tx_ok now (requested caller c) s2 ->
  outgoing caller c = Some (p_from p, p_spender p, pending_amount p) ->
  p_old p = used_expiry s1 now (p_from p) (p_spender p) ->
  pend_ok (recorded now (requested caller c) s1) p ->
  (forall k a, log_allowance (blocks s1) k <> Some (a, Some now)) ->
  (forall x, p_spender p = Some x -> sync_fail avail (pending_amount p) sync <> None ->
     ~ hash_clash (requested caller c) (given_back s1 now (p_from p) x)
     /\ forall b, b ∈ blocks s1 -> ~ hash_clash (b_tx b) (given_back s1 now (p_from p) x)) ->
  continue now avail sync p s1 (recorded now (requested caller c) s1) = (s1', m1) ->
  continue now avail sync p s2 (recorded now (requested caller c) s2) = (s2', m2) ->
  alike now caller c s1 s1' s2' m1 m2.
Proof.
  intros Hk Hu T1 T2 Ho Hold Hpo Hq Hcl C1 C2.
  pose proof (like_recorded _ _ _ _ Hk Hu T1 T2) as Hk1.
  unfold continue in C1, C2. destruct (sync_fail avail (pending_amount p) sync) as [e|] eqn:Esf.
  2: { injection C1 as <- <-. injection C2 as <- <-. split; [apply Hk1|]. left. eauto. }
  unfold sync_rest in C1, C2. destruct (sync_answer_resume now p e) as [k Hre]. rewrite Hre in C1, C2.
  destruct (commit s1 (k (recorded now (requested caller c) s1))) as [s1r r1] eqn:K1.
  destruct (commit s2 (k (recorded now (requested caller c) s2))) as [s2r r2] eqn:K2.
  injection C1 as <- <-. injection C2 as <- <-.
  assert (accepted_cycles c r1 = accepted_cycles c r2) as Hac by (destruct c; done).
  pose proof (like_resume now p (sync_answer p e) s1 s2 _ _ k s1r s2r r1 r2 Hk1 Hu Hpo (sync_answer_u128 p e) Hre) as Hlr.
  edestruct Hlr as [[-> Hb]|(t1 & t2 & -> & -> & -> & ->)]; [| |exact K1|exact K2| |].
  - intros k'. rewrite recorded_blocks. apply quiet_step; [done|]. intros k'' a.
    unfold approved_by. simpl. destruct c; simpl in Ho; try done.
  - intros x returned code b Hx Hret Hfee Hb.
    assert (returned = pending_amount p) as ->.
    { destruct p; simpl in Hret; injection Hret as <- _; done. }
    apply third_party_Some in Hx as [Hx Hne]. rewrite Hx in Ho, Hold.
    rewrite Hold, (restoring_given_back now caller c s1 (p_from p) x (pending_amount p) (lk1 _ _ _ Hk) Hu T1 Ho Hne Hfee).
    destruct (Hcl x Hx ltac:(done)) as [Hc1 Hc2]. rewrite recorded_blocks in Hb.
    apply elem_of_app in Hb as [Hb| ->%elem_of_list_singleton]; [by apply Hc2|done].
  - split; [done|]. right. exists r2, r2. split; [done|]. split; [done|]. split; [|done]. by apply same_equal.
  - split; [apply Hk|]. right. exists (RespTrap t1), (RespTrap t2). split; [done|]. split; [done|]. split; [|done].
    by eapply same_trap.
Qed.

Lemma like_after_withdraw now avail caller c sync ep from to sp amount created s1 s2 s1' s2' m1 m2 :
  like now s1 s2 -> is_u64 now ->
  wf_account from -> wf_acct_opt sp -> wf_u64_opt created -> wf_principal to -> (ep = false -> sp = None) ->
  requested caller c = withdraw_tx from to sp amount created ->
  outgoing caller c = Some (from, sp, amount) ->
  (forall x, sp = Some x -> draws_on caller c = Some (from, x)) ->
  (amount < U128_MOD /\ amount <> 0 /\ is_self_authenticating to = false -> known_alike s1 s2 (requested caller c)) ->
  (forall k a, log_allowance (blocks s1) k <> Some (a, Some now)) ->
  (forall x, sp = Some x -> sync_fail avail amount sync <> None ->
     ~ hash_clash (requested caller c) (given_back s1 now from x)
     /\ forall b, b ∈ blocks s1 -> ~ hash_clash (b_tx b) (given_back s1 now from x)) ->
  after_withdraw now avail ep from to sp amount created sync s1 = (s1', m1) ->
  after_withdraw now avail ep from to sp amount created sync s2 = (s2', m2) ->
  alike now caller c s1 s1' s2' m1 m2.
Proof.
  intros Hk Hu Hf Hsp Hc Hto Hep Hrq Ho Hdr Hd Hq Hcl C1 C2.
  assert (wd_decide from to sp amount created now s1 = wd_decide from to sp amount created now s2
    \/ (ran_out (blocks s1) now from sp
        /\ (forall o, wd_decide from to sp amount created now s1 <> OOk o)
        /\ (forall o, wd_decide from to sp amount created now s2 <> OOk o))) as Hdec.
  { unfold wd_decide. rewrite (like_bal _ _ _ from Hk). destruct (N.leb_spec U128_MOD amount); [by left|].
    unfold withdraw_decide. destruct (is_self_authenticating to); [by left|].
    destruct (N.eqb_spec amount 0); [by left|].
    destruct (like_burn wf_of_pt wf_of_ua WFInsufficientFunds now s1 s2
      (withdraw_tx from to sp amount created) from sp amount Hk) as [E|[(i & c1 & c2 & E1 & E2)|E]].
    - rewrite <- Hrq. by apply Hd.
    - left. exact E.
    - left. unfold withdraw_tx in E1, E2. by rewrite E1, E2.
    - right. exact E. }
  assert (forall r1 r2, accepted_cycles c r1 = accepted_cycles c r2) as Hac by (by destruct c).
  unfold after_withdraw in C1, C2. rewrite <- Hrq in C1, C2.
  fold (recorded now (requested caller c) s1) in C1. fold (recorded now (requested caller c) s2) in C2.
  destruct (wd_decide from to sp amount created now s1) as [o1|e1|x1] eqn:D1.
  - destruct Hdec as [D2|(_ & Hno & _)]; [|by destruct (Hno o1)]. symmetry in D2. rewrite D2 in C2.
    apply wd_decide_ok in D1 as (T1 & P1 & Ha & _ & Eo1); [|apply Hk|done..].
    apply wd_decide_ok in D2 as (T2 & _ & _ & _ & Eo2); [|apply Hk|done..].
    rewrite (like_nblocks _ _ _ Hk) in C1, P1. rewrite <- Hrq in *.
    eapply (like_continue now avail caller c sync s1 s2 (PWithdraw ep from to sp amount (nblocks s2) o1)); try done.
    split; [done|]. split; [done|]. exists created. by rewrite <- Hrq.
  - injection C1 as <- <-.
    assert (exists r2, s2' = s2 /\ m2 = Done r2 /\ same_answer (blocks s1) now caller c (wd_resp ep (OErr e1)) r2)
      as (r2 & -> & -> & Hsa).
    { destruct Hdec as [D2|((x & a & e & Hx & Hl & He) & _ & Hno)].
      - rewrite <- D2 in C2. injection C2 as <- <-. eexists. split; [done|]. split; [done|]. by apply same_equal.
      - apply third_party_Some in Hx as [Hx _].
        destruct (wd_decide from to sp amount created now s2) as [o2|e2|x2] eqn:D2; [by destruct (Hno o2)|..];
          injection C2 as <- <-; (eexists; split; [done|]; split; [done|]);
          eapply same_ran_out; try done; try (by apply Hdr);
          apply wd_resp_rejected; by eapply wd_decide_err. }
    split; [apply Hk|]. right. eauto 10.
  - injection C1 as <- <-.
    assert (exists r2, s2' = s2 /\ m2 = Done r2 /\ same_answer (blocks s1) now caller c (RespTrap x1) r2)
      as (r2 & -> & -> & Hsa).
    { destruct Hdec as [D2|((x & a & e & Hx & Hl & He) & _ & Hno)].
      - rewrite <- D2 in C2. injection C2 as <- <-. eexists. split; [done|]. split; [done|]. by apply same_equal.
      - apply third_party_Some in Hx as [Hx _].
        destruct (wd_decide from to sp amount created now s2) as [o2|e2|x2] eqn:D2; [by destruct (Hno o2)|..];
          injection C2 as <- <-; (eexists; split; [done|]; split; [done|]);
          eapply same_ran_out; try done; try (by apply Hdr);
          apply wd_resp_rejected; by eapply wd_decide_err. }
    split; [apply Hk|]. right. eauto 10.
Qed.

Lemma like_after_create now avail caller c sync ep from sp amount created args s1 s2 s1' s2' m1 m2 :
  like now s1 s2 -> is_u64 now ->
  wf_account from -> wf_acct_opt sp -> wf_u64_opt created -> (ep = false -> sp = None) ->
  requested caller c = create_tx from sp amount created -> is_create c = true ->
  outgoing caller c = Some (from, sp, amount) ->
  (forall x, sp = Some x -> draws_on caller c = Some (from, x)) ->
  (amount < U128_MOD -> known_alike s1 s2 (requested caller c)) ->
  (forall k a, log_allowance (blocks s1) k <> Some (a, Some now)) ->
  (forall x, sp = Some x -> sync_fail avail amount sync <> None ->
     ~ hash_clash (requested caller c) (given_back s1 now from x)
     /\ forall b, b ∈ blocks s1 -> ~ hash_clash (b_tx b) (given_back s1 now from x)) ->
  after_create now avail ep caller from sp amount created args sync s1 = (s1', m1) ->
  after_create now avail ep caller from sp amount created args sync s2 = (s2', m2) ->
  alike now caller c s1 s1' s2' m1 m2.
Proof.
  intros Hk Hu Hf Hsp Hc Hep Hrq Hic Ho Hdr Hd Hq Hcl C1 C2.
  assert (cr_decide from sp amount created now s1 = cr_decide from sp amount created now s2
    \/ (exists i c1 c2, cr_decide from sp amount created now s1 = OErr (CFDuplicate i c1)
          /\ cr_decide from sp amount created now s2 = OErr (CFDuplicate i c2))
    \/ (ran_out (blocks s1) now from sp
        /\ (forall o, cr_decide from sp amount created now s1 <> OOk o)
        /\ (forall o, cr_decide from sp amount created now s2 <> OOk o))) as Hdec.
  { unfold cr_decide. rewrite (like_bal _ _ _ from Hk). destruct (N.leb_spec U128_MOD amount); [by left|].
    unfold create_decide.
    destruct (like_burn cf_of_pt cf_of_ua CFInsufficientFunds now s1 s2
      (create_tx from sp amount created) from sp amount Hk) as [E|[(i & c1 & c2 & E1 & E2)|E]].
    - rewrite <- Hrq. by apply Hd.
    - left. exact E.
    - right. left. rewrite E1, E2. eauto.
    - right. right. exact E. }
  assert (forall r1 r2, accepted_cycles c r1 = accepted_cycles c r2) as Hac by (by destruct c).
  unfold after_create in C1, C2. rewrite <- Hrq in C1, C2.
  fold (recorded now (requested caller c) s1) in C1. fold (recorded now (requested caller c) s2) in C2.
  destruct (cr_decide from sp amount created now s1) as [o1|e1|x1] eqn:D1.
  - destruct Hdec as [D2|[(i & c1 & c2 & D & _)|(_ & Hno & _)]]; [|done|by destruct (Hno o1)].
    symmetry in D2. rewrite D2 in C2.
    apply cr_decide_ok in D1 as (T1 & P1 & Eo1); [|apply Hk|done..].
    apply cr_decide_ok in D2 as (T2 & _ & Eo2); [|apply Hk|done..].
    rewrite (like_nblocks _ _ _ Hk) in C1, P1. rewrite <- Hrq in *.
    eapply (like_continue now avail caller c sync s1 s2
      (PCreate ep from sp amount (nblocks s2) o1 created (cmc_argument caller args))); try done.
    split; [done|]. by rewrite <- Hrq.
  - injection C1 as <- <-.
    assert (exists r2, s2' = s2 /\ m2 = Done r2 /\ same_answer (blocks s1) now caller c (cr_resp ep (OErr e1)) r2)
      as (r2 & -> & -> & Hsa).
    { destruct Hdec as [D2|[(i & c1 & c2 & D & D2)|((x & a & e & Hx & Hl & He) & _ & Hno)]].
      - rewrite <- D2 in C2. injection C2 as <- <-. eexists. split; [done|]. split; [done|]. by apply same_equal.
      - rewrite D2 in C2. injection C2 as <- <-. eexists. split; [done|]. split; [done|]. injection D as ->.
        destruct ep; by apply (same_known _ _ _ _ _ _ i).
      - apply third_party_Some in Hx as [Hx _].
        destruct (cr_decide from sp amount created now s2) as [o2|e2|x2] eqn:D2; [by destruct (Hno o2)|..];
          injection C2 as <- <-; (eexists; split; [done|]; split; [done|]);
          eapply same_ran_out; try done; try (by apply Hdr);
          apply cr_resp_rejected; by eapply cr_decide_err. }
    split; [apply Hk|]. right. eauto 10.
  - injection C1 as <- <-.
    assert (exists r2, s2' = s2 /\ m2 = Done r2 /\ same_answer (blocks s1) now caller c (RespTrap x1) r2)
      as (r2 & -> & -> & Hsa).
    { destruct Hdec as [D2|[(i & c1 & c2 & D & _)|((x & a & e & Hx & Hl & He) & _ & Hno)]]; [|done|].
      - rewrite <- D2 in C2. injection C2 as <- <-. eexists. split; [done|]. split; [done|]. by apply same_equal.
      - apply third_party_Some in Hx as [Hx _].
        destruct (cr_decide from sp amount created now s2) as [o2|e2|x2] eqn:D2; [by destruct (Hno o2)|..];
          injection C2 as <- <-; (eexists; split; [done|]; split; [done|]);
          eapply same_ran_out; try done; try (by apply Hdr);
          apply cr_resp_rejected; by eapply cr_decide_err. }
    split; [apply Hk|]. right. eauto 10.
Qed.

Lemma created_at_requested caller c : tx_created_at (requested caller c) = created_of c.
Proof. by destruct c. Qed.
Lemma ok_not_old now caller c s :
  is_u64 now -> wf_call c -> tx_ok now (requested caller c) s -> ~ too_long_ago (created_of c) now.
Proof.
  intros Hu Hwf (_ & _ & _ & Hv & _) (t & Et & Hlt). rewrite created_at_requested, Et in Hv.
  apply is_before_false in Hv.
  assert (is_before_transaction_window t now = true) as Hb by (by apply is_before_spec). congruence.
Qed.

Lemma like_exec now avail caller c sync s1 s2 s1' s2' m1 m2 :
  like now s1 s2 -> is_u64 now -> wf_principal caller -> wf_call c ->
  (forall k a, log_allowance (blocks s1) k <> Some (a, Some now)) ->
  (forall b, b ∈ blocks s1 -> ~ hash_clash (b_tx b) (requested caller c)) ->
  (forall from x amount, outgoing caller c = Some (from, Some x, amount) -> sync_fail avail amount sync <> None ->
     ~ hash_clash (requested caller c) (given_back s1 now from x)
     /\ forall b, b ∈ blocks s1 -> ~ hash_clash (b_tx b) (given_back s1 now from x)) ->
  exec_call now avail caller c sync s1 = (s1', m1) -> exec_call now avail caller c sync s2 = (s2', m2) ->
  alike now caller c s1 s1' s2' m1 m2.
Proof.
  intros Hk Hu Hcl Hwf Hq Hn Hgb C1 C2.
  assert (too_long_ago (created_of c) now \/ ~ too_long_ago (created_of c) now) as [Hold|Hold].
  { unfold too_long_ago. destruct (created_of c) as [t|]; [|right; by intros (? & ? & _)].
    destruct (N.lt_ge_cases (t + DAY + MINUTE) now); [left; eauto|right; intros (? & [= <-] & ?); lia]. }
  { destruct (exec_call_cases _ _ _ _ _ _ _ _ (lk1 _ _ _ Hk) Hu Hcl Hwf C1) as [(-> & r1 & -> & R1)|[T _]];
      [|by destruct (ok_not_old _ _ _ _ Hu Hwf T)].
    destruct (exec_call_cases _ _ _ _ _ _ _ _ (lk2 _ _ _ Hk) Hu Hcl Hwf C2) as [(-> & r2 & -> & R2)|[T _]];
      [|by destruct (ok_not_old _ _ _ _ Hu Hwf T)].
    split; [apply Hk|]. right. exists r1, r2. split; [done|]. split; [done|]. split; [by apply same_old|].
    destruct c; try done. by destruct Hold as (? & ? & _). }
  assert (checkable c -> known_alike s1 s2 (requested caller c)) as Hd.
  { intros Hch. destruct (checkable_wf caller c Hcl Hwf Hch) as [W1 W2].
    eapply like_known; try done. by rewrite created_at_requested. }
  pose proof (inv_supply _ _ (lk1 _ _ _ Hk)) as S1. pose proof (inv_supply _ _ (lk2 _ _ _ Hk)) as S2.
  assert (forall r, same_answer (blocks s1) now caller c r r) as Hsame by (intros; by apply same_equal).
  destruct c as [cycles to m|sub to amount fee m created|sub from to amount fee m created
    |sub sp amount expected expires fee m created|sub to created amount|sub from to created amount
    |sub created amount args|from sub created amount args]; cbn [wf_call] in Hwf; cbn [checkable] in Hd.
  - rewrite exec_deposit in C1, C2. rewrite (like_dep _ _ _ to cycles m Hk) in C1. destruct Hwf as [Hc Hto].
    destruct (dep_decide to cycles m s2) as [[]|[]|x] eqn:Ed; injection C1 as <- <-; injection C2 as <- <-;
      [|split; [apply Hk|]; right; eauto 10|split; [apply Hk|]; right; eauto 10].
    pose proof Ed as Ed1. rewrite <- (like_dep _ _ _ to cycles m Hk) in Ed1.
    apply (dep_decide_ok _ _ _ now) in Ed as [T2 _]; [|done|done].
    apply (dep_decide_ok _ _ _ now) in Ed1 as [T1 _]; [|done|done].
    pose proof (like_recorded _ _ _ _ Hk Hu T1 T2) as Hk1. unfold recorded in Hk1.
    split; [apply Hk1|]. right. rewrite (like_nblocks _ _ _ Hk), (like_bal _ _ _ to Hk1). eauto 10.
  - rewrite exec_transfer in C1, C2 by done. destruct Hwf as (Hsub & Hto & Hc).
    destruct (like_xfer now s1 s2 (Acct caller sub) to None amount fee m created Hk Hd)
      as [E|[(x & ? & ? & Hx & _) _]]; [|done]. rewrite E in C1.
    destruct (xfer_decide _ _ _ _ _ _ _ _ s2) as [[]|e|x] eqn:D2; injection C1 as <- <-; injection C2 as <- <-;
      [|split; [apply Hk|]; right; eauto 10|split; [apply Hk|]; right; eauto 10].
    apply xfer_decide_ok in D2 as [T2 _]; [|done..]. apply xfer_decide_ok in E as [T1 _]; [|done..].
    split; [apply (like_recorded _ _ _ _ Hk Hu T1 T2)|]. right. rewrite (like_nblocks _ _ _ Hk). eauto 10.
  - rewrite exec_transfer_from in C1, C2 by done. destruct Hwf as (Hsub & Hf & Hto & Hc).
    destruct (like_xfer now s1 s2 from to (Some (Acct caller sub)) amount fee m created Hk Hd)
      as [E|[(x & a & e & Hx & Hl & He) (e1 & e2 & D1 & D2)]].
    + rewrite E in C1.
      destruct (xfer_decide _ _ _ _ _ _ _ _ s2) as [[]|e|x] eqn:D2; injection C1 as <- <-; injection C2 as <- <-;
        [|split; [apply Hk|]; right; eauto 10|split; [apply Hk|]; right; eauto 10].
      apply xfer_decide_ok in D2 as [T2 _]; [|done..]. apply xfer_decide_ok in E as [T1 _]; [|done..].
      split; [apply (like_recorded _ _ _ _ Hk Hu T1 T2)|]. right. rewrite (like_nblocks _ _ _ Hk). eauto 10.
    + rewrite D1 in C1. rewrite D2 in C2. injection C1 as <- <-. injection C2 as <- <-.
      apply third_party_Some in Hx as [Hx _]. injection Hx as <-.
      split; [apply Hk|]. right. do 2 eexists. split; [done|]. split; [done|]. split; [|done].
      by eapply same_ran_out.
  - rewrite exec_approve in C1, C2 by done. destruct Hwf as (Hsub & Hsp & Hx & Hc).
    unfold requested in Hd. rewrite <- capped_min in Hd.
    pose proof (like_apr now s1 s2 (Acct caller sub) sp amount expected expires fee m created Hk Hd (Hq _)) as E.
    rewrite E in C1.
    destruct (apr_decide _ _ _ _ _ _ _ _ _ s2) as [[]|e|x] eqn:D2; injection C1 as <- <-; injection C2 as <- <-;
      [|split; [apply Hk|]; right; eauto 10|split; [apply Hk|]; right; eauto 10].
    apply apr_decide_ok in D2 as T2; [|done..]. apply apr_decide_ok in E as T1; [|done..].
    split; [apply (like_recorded _ _ _ _ Hk Hu T1 T2)|]. right. rewrite (like_nblocks _ _ _ Hk). eauto 10.
  - rewrite exec_withdraw in C1, C2 by done. destruct Hwf as (Hsub & Hto & Hc).
    eapply like_after_withdraw with (5 := Hc) (6 := Hto) (14 := C1) (15 := C2); try done.
  - rewrite exec_withdraw_from in C1, C2 by done. destruct Hwf as (Hsub & Hf & Hto & Hc).
    eapply like_after_withdraw with (5 := Hc) (6 := Hto) (14 := C1) (15 := C2); try done.
    + intros x [= <-]. done.
    + intros x [= <-]. by apply Hgb.
  - rewrite exec_create in C1, C2 by done. destruct Hwf as (Hsub & Hc).
    eapply like_after_create with (5 := Hc) (14 := C1) (15 := C2); try done.
  - rewrite exec_create_from in C1, C2 by done. destruct Hwf as (Hf & Hsub & Hc).
    eapply like_after_create with (5 := Hc) (14 := C1) (15 := C2); try done.
    + intros x [= <-]. done.
    + intros x [= <-]. by apply Hgb.
Qed.

(** ** C75 *)

(** One event: the two ledgers give the same answer and their logs grow by the
    same blocks. *)
Theorem C75_same_log_same_answer w1 w2 ev w1' r1 w2' r2 :
  reachable w1 -> reachable w2 -> twins w1 w2 ->
  ev_ok w1 ev -> ev_ok w2 ev ->
  quiet w1 ev -> distinct_hashes w1 ev ->
  step w1 ev = (w1', r1) -> step w2 ev = (w2', r2) ->
  twins w1' w2' /\ same_response w1 ev r1 r2.
Proof.
  intros R1 R2 [Hlog Hpend Hnext Hcyc] E1 E2 Hq Hd S1 S2.
  destruct ev as [now caller c sync|now id ans refund|now args|n|n|now id refund]; cbn [step] in S1, S2; cbn [same_response].
  - destruct (call_inv _ _ _ _ _ R1 E1) as (I1 & Hu & Hcl & Hwf).
    destruct (call_inv _ _ _ _ _ R2 E2) as (I2 & _).
    assert (like now (w_led w1) (w_led w2)) as Hk by done.
    destruct (exec_call now (w_cycles w1) caller c sync (w_led w1)) as [s1' m1] eqn:X1.
    destruct (exec_call now (w_cycles w2) caller c sync (w_led w2)) as [s2' m2] eqn:X2.
    rewrite <- Hcyc in X2. destruct Hd as [Hd1 Hd2].
    assert (forall from x amount, outgoing caller c = Some (from, Some x, amount) -> sync_fail (w_cycles w1) amount sync <> None ->
      ~ hash_clash (requested caller c) (given_back (w_led w1) now from x)
      /\ forall b, b ∈ blocks (w_led w1) -> ~ hash_clash (b_tx b) (given_back (w_led w1) now from x)) as Hd3.
    { intros from x amount Ho Hsf. apply (Hd2 from x amount Ho). unfold sync_fail in Hsf.
      destruct sync; [by left|right]. by destruct (N.ltb_spec (w_cycles w1) amount). }
    assert (forall k a, log_allowance (blocks (w_led w1)) k <> Some (a, Some now)) as Hq' by (intros k a; by apply Hq).
    destruct (like_exec now (w_cycles w1) caller c sync _ _ _ _ _ _ Hk Hu Hcl Hwf Hq' Hd1 Hd3 X1 X2)
      as [Hb [(p & -> & ->)|(x1 & x2 & -> & -> & Hsa & Hac)]].
    + injection S1 as <- <-. injection S2 as <- <-. split; [|rewrite Hnext; by apply same_equal].
      constructor; cbn [w_led w_pend w_next w_cycles]; [done|by rewrite Hnext, Hpend|by rewrite Hnext|by rewrite Hcyc].
    + injection S1 as <- <-. injection S2 as <- <-. split; [|done].
      constructor; cbn [w_led w_pend w_next w_cycles]; [done|done|done|by rewrite Hcyc, Hac].
  - destruct (reply_inv _ _ _ _ _ R1 E1) as (I1 & Hu & Hans).
    destruct (reply_inv _ _ _ _ _ R2 E2) as (I2 & _).
    assert (like now (w_led w1) (w_led w2)) as Hk by done.
    rewrite <- Hpend in S2. destruct (w_pend w1 !! id) as [p|] eqn:Ep;
      [|injection S1 as <- <-; injection S2 as <- <-; split; [done|by left]].
    destruct (resume now p ans) as [k|] eqn:Hre;
      [|injection S1 as <- <-; injection S2 as <- <-; split; [done|by left]].
    destruct (commit (w_led w1) (k (w_led w1))) as [s1r x1] eqn:K1.
    destruct (commit (w_led w2) (k (w_led w2))) as [s2r x2] eqn:K2.
    injection S1 as <- <-. injection S2 as <- <-.
    destruct (reachable_winv _ R1) as (_ & _ & Hwp). destruct (Hwp _ _ Ep) as [_ Hpo].
    assert (forall k a, log_allowance (blocks (w_led w1)) k <> Some (a, Some now)) as Hq' by (intros k' a; by apply Hq).
    assert (forall x returned code b, third_party (p_from p) (p_spender p) = Some x ->
      answer_returned (pending_amount p) ans = Some (returned, code) -> FEE < returned - FEE -> b ∈ blocks (w_led w1) ->
      ~ hash_clash (b_tx b) (restoring (w_led w1) now (p_from p) x (returned - FEE) (p_old p))) as Hd'.
    { intros x returned code b Hx Hret Hfee Hb. apply (Hd p x returned code Ep); [|done|done].
      unfold third_party in Hx. destruct (p_spender p); [|done]. case_match; congruence. }
    destruct (like_resume now p ans _ _ _ _ k s1r s2r x1 x2 Hk Hu Hpo (wf_answer_u128 _ Hans) Hre Hq' Hd' K1 K2)
      as [[-> Hb]|(t1 & t2 & -> & -> & -> & ->)].
    + split; [|by left]. constructor; cbn [w_led w_pend w_next w_cycles]; congruence.
    + split; [|right; eauto]. constructor; cbn [w_led w_pend w_next w_cycles]; congruence.
  - assert (forall s, (post_upgrade args (reload s)).2 = (post_upgrade args (reload (w_led w1))).2
      /\ blocks (post_upgrade args (reload s)).1 = blocks s) as Hpu.
    { intros s. unfold reload. destruct (compute_last_block_hash_and_hash_tree (blocks s)), (compute_last_block_hash_and_hash_tree (blocks (w_led w1))).
      unfold post_upgrade. destruct args as [[|[[[] []]|]]|]; done. }
    pose proof (Hpu (w_led w1)) as [_ P1]. pose proof (Hpu (w_led w2)) as [P2 P3].
    destruct (post_upgrade args (reload (w_led w1))) as [s1' [[]|[]|t1]];
      destruct (post_upgrade args (reload (w_led w2))) as [s2' [[]|[]|t2]]; try done;
      injection S1 as <- <-; injection S2 as <- <-; cbn [fst snd] in P1, P2, P3.
    + split; [|by left]. constructor; cbn [w_led w_pend w_next w_cycles]; congruence.
    + split; [|right; eauto]. constructor; cbn [w_led w_pend w_next w_cycles]; congruence.
  - injection S1 as <- <-. injection S2 as <- <-. split; [|by left]. constructor; cbn [w_led w_pend w_next w_cycles]; congruence.
  - injection S1 as <- <-. injection S2 as <- <-. split; [|by left]. constructor; cbn [w_led w_pend w_next w_cycles]; congruence.
  - rewrite <- Hpend in S2. destruct (w_pend w1 !! id);
      injection S1 as <- <-; injection S2 as <- <-; (split; [|by left]); [|done].
    constructor; cbn [w_led w_pend w_next w_cycles]; congruence.
Qed.

End WithEnv.

(** The ledger after a sequence of events *)
Fixpoint later `{Env} (w : world) (evs : list event) : world :=
  match evs with [] => w | ev :: evs' => later (step w ev).1 evs' end.
(** Every event of the sequence can happen, in a quiet moment and without two
    transactions that share a hash. *)
Fixpoint smooth `{Env} (w : world) (evs : list event) : Prop :=
  match evs with
  | [] => True
  | ev :: evs' => ev_ok w ev /\ quiet w ev /\ distinct_hashes w ev /\ smooth (step w ev).1 evs'
  end.

Section WithEnv.
Context `{Env}.

Lemma ev_ok_twin w1 w2 ev : twins w1 w2 -> w_clock w2 <= w_clock w1 -> ev_ok w1 ev -> ev_ok w2 ev.
Proof.
  intros [_ Hpend _ _] Hc. unfold ev_ok, time_ok. destruct ev; try done; rewrite <- ?Hpend.
  - intros ((? & ?) & ? & ?). split; [|done]. split; [lia|done].
  - intros ((? & ?) & ? & ?). split; [|done]. split; [lia|done].
  - intros ((? & ?) & ?). split; [|done]. split; [lia|done].
  - intros ((? & ?) & ?). split; [|done]. split; [lia|done].
Qed.
Lemma step_clocks w1 w2 ev :
  twins w1 w2 -> w_clock w2 <= w_clock w1 -> w_clock (step w2 ev).1 <= w_clock (step w1 ev).1.
Proof.
  intros [_ Hpend _ _] Hc. destruct ev as [now caller c sync|now id ans refund|now args|n|n|now id refund]; cbn [step].
  - destruct (exec_call _ _ _ _ _ (w_led w1)) as [? []], (exec_call _ _ _ _ _ (w_led w2)) as [? []]; simpl; lia.
  - rewrite <- Hpend. destruct (w_pend w1 !! id) as [p|]; [|done]. destruct (resume now p ans); [|done].
    destruct (commit _ _), (commit _ _). simpl. lia.
  - destruct (post_upgrade _ (reload (w_led w1))) as [? [|[]|]], (post_upgrade _ (reload (w_led w2))) as [? [|[]|]]; simpl; lia.
  - done.
  - done.
  - rewrite <- Hpend. by destruct (w_pend w1 !! id); simpl.
Qed.

(** All the future: whatever happens next, and next, the two ledgers cannot be
    told apart. *)
Theorem C75_same_log_same_future w1 w2 evs :
  reachable w1 -> reachable w2 -> twins w1 w2 -> w_clock w2 <= w_clock w1 ->
  smooth w1 evs ->
  twins (later w1 evs) (later w2 evs)
  /\ forall n ev, evs !! n = Some ev ->
     let v1 := later w1 (take n evs) in let v2 := later w2 (take n evs) in
     same_response v1 ev (step v1 ev).2 (step v2 ev).2.
Proof.
  revert w1 w2. induction evs as [|ev evs IH]; intros w1 w2 R1 R2 Ht Hc Hsm; [by split; [|intros []]|].
  destruct Hsm as (E1 & Hq & Hd & Hsm). pose proof (ev_ok_twin _ _ _ Ht Hc E1) as E2.
  destruct (C75_same_log_same_answer w1 w2 ev _ _ _ _ R1 R2 Ht E1 E2 Hq Hd
    (surjective_pairing _) (surjective_pairing _)) as [Ht' Hr].
  destruct (IH (step w1 ev).1 (step w2 ev).1) as [HT HR]; [by constructor|by constructor|done|by apply step_clocks|done|].
  split; [exact HT|]. intros [|n] ev' Hev; simpl in Hev.
  - injection Hev as <-. exact Hr.
  - apply (HR n ev' Hev).
Qed.

(** What can be read of the two ledgers is the same. *)
Theorem C75_same_log_same_reads w1 w2 tm :
  reachable w1 -> reachable w2 -> twins w1 w2 -> w_clock w1 <= tm -> w_clock w2 <= tm ->
  (forall a, icrc1_balance_of (w_led w1) a = icrc1_balance_of (w_led w2) a)
  /\ icrc1_total_supply (w_led w1) = icrc1_total_supply (w_led w2)
  /\ (forall f p, usable (w_led w1) tm f p = usable (w_led w2) tm f p)
  /\ (forall f p, (forall a, log_allowance (blocks (w_led w1)) (to_key f, to_key p) <> Some (a, Some tm)) ->
        icrc2_allowance (w_led w1) tm f p = icrc2_allowance (w_led w2) tm f p).
Proof.
  intros R1 R2 [Hlog _ _ _] C1 C2.
  assert (like tm (w_led w1) (w_led w2)) as Hk.
  { constructor; [by apply (inv_mono _ _ _ C1), reachable_inv|by apply (inv_mono _ _ _ C2), reachable_inv|done]. }
  split; [intros a; by apply (like_bal _ _ _ a Hk)|]. split; [by apply (like_supply _ _ _ Hk)|].
  split; [intros f p; rewrite !usable_live by done; by rewrite Hlog|].
  intros f p Hq. unfold icrc2_allowance. by rewrite (like_allowance _ _ _ f p Hk Hq).
Qed.

(** An upgrade while nothing is waiting cannot be noticed afterwards. *)
Theorem C75_upgrade_unnoticed w now args evs :
  reachable w -> ev_ok w (EvUpgrade now args) -> w_pend w = ∅ ->
  smooth (step w (EvUpgrade now args)).1 evs ->
  twins (later (step w (EvUpgrade now args)).1 evs) (later w evs).
Proof.
  intros Hr Hev Hp Hsm. apply C75_same_log_same_future; [by constructor|done| | |done].
  - cbn [step].
    assert (blocks (post_upgrade args (reload (w_led w))).1 = blocks (w_led w)) as Hb.
    { unfold reload. destruct (compute_last_block_hash_and_hash_tree (blocks (w_led w))).
      unfold post_upgrade. destruct args as [[|[[[] []]|]]|]; done. }
    destruct (post_upgrade args (reload (w_led w))) as [s [[]|[]|t]]; cbn [fst snd] in *; constructor; done.
  - destruct Hev as ((Hc & _) & _). cbn [step].
    destruct (post_upgrade args (reload (w_led w))) as [s [[]|[]|t]]; exact Hc.
Qed.

End WithEnv.

(** ** A case

    One ledger has refused a call, has been upgraded with another limit and index,
    and has refused a second call; the other one has only its log in common with
    it. *)
Definition plain_world : world := demo_at 3.
Definition lived_world : world :=
  later plain_world
    [ EvCall (T0 + 3 * sec) bob (CallTransfer None (acct carol) (50 * T) None None None) None;
      EvUpgrade (T0 + 3 * sec) (Some (LUpgrade (Some (UpgradeArgs (Some 9) (Some (SetTo bob))))));
      EvCall (T0 + 3 * sec) carol (CallTransferFrom None (acct alice) (acct bob) T None None None) None ].
(** What happens next: a stamped transfer and its repetition, a payment out of an
    allowance, a withdrawal out of it that fails and is given back, a withdrawal
    that fails at once, and one that comes after the allowance has run out. *)
Definition twin_events : list event :=
  [ EvCall (T0 + 4 * sec) alice (CallTransfer None (acct carol) 5 None None (Some (T0 + 4 * sec))) None;
    EvCall (T0 + 5 * sec) alice (CallTransfer None (acct carol) 5 None None (Some (T0 + 4 * sec))) None;
    EvCall (T0 + 6 * sec) bob (CallTransferFrom None (acct alice) (acct carol) T None None None) None;
    EvCall (T0 + 7 * sec) bob (CallWithdrawFrom None (acct alice) canister None T) None;
    EvReply (T0 + 8 * sec) 0 (AnsDeposit (Err (CECallRejected (Some RejDestinationInvalid)))) T;
    EvCall (T0 + 9 * sec) bob (CallWithdrawFrom None (acct alice) canister None T) (Some SEPerform);
    EvConsume 5;
    EvCall (T0 + 5000 * sec) bob (CallTransferFrom None (acct alice) (acct carol) T None None None) None ].

(** A check of the conditions *)
Lemma log_expiry bs k a e :
  log_allowance bs k = Some (a, Some e) ->
  exists b k' a', b ∈ bs /\ approved_by b = Some (k', (a', Some e)).
Proof.
  unfold log_allowance. revert a. induction bs as [|b bs IH] using rev_ind; intros a; [done|].
  rewrite foldl_app. cbn [foldl].
  assert (forall a0, foldl (allowance_step k) None bs = Some (a0, Some e) ->
    exists b0 k' a', b0 ∈ bs ++ [b] /\ approved_by b0 = Some (k', (a', Some e))) as IH'.
  { intros a0 E. destruct (IH _ E) as (b0 & k' & a' & Hin & Hap). exists b0, k', a'.
    split; [|exact Hap]. apply elem_of_app. by left. }
  unfold allowance_step at 1.
  destruct (approved_by b) as [[k' [a' x]]|] eqn:Hap.
  - destruct (decide (k = k')); [|apply IH']. destruct (a' =? 0); [done|]. intros [= -> ->].
    exists b, k', a. split; [apply elem_of_app; right; by apply elem_of_list_singleton|exact Hap].
  - destruct (spent_by b) as [[k' n]|]; [|apply IH']. destruct (decide (k = k')); [|apply IH'].
    destruct (foldl (allowance_step k) None bs) as [[a0 x]|] eqn:E; [|done].
    destruct (a0 - n =? 0); [done|]. intros [= _ ->]. by apply (IH' a0).
Qed.
Definition quietb (bs : list block) (now : N) : bool :=
  forallb (fun b => match tx_op (b_tx b) with Approve _ _ _ _ (Some e) _ => negb (e =? now) | _ => true end) bs.
Lemma quietb_ok bs now : quietb bs now = true -> forall k a, log_allowance bs k <> Some (a, Some now).
Proof.
  intros Hb k a Hl. destruct (log_expiry _ _ _ _ Hl) as (b & k' & a' & Hin & Hap).
  unfold quietb in Hb. rewrite forallb_forall in Hb. apply elem_of_list_In in Hin. specialize (Hb _ Hin).
  unfold approved_by in Hap. destruct (tx_op (b_tx b)); try done. injection Hap as _ _ ->. lia.
Qed.
Definition apartb (t t' : transaction) : bool := bool_decide (t = t') || negb (bool_decide (tx_hash t = tx_hash t')).
Lemma apartb_ok t t' : apartb t t' = true -> ~ hash_clash t t'.
Proof.
  unfold apartb. intros [E|E]%orb_true_iff.
  - apply bool_decide_eq_true in E as ->. intros (v & v' & E & E' & Hne & _). congruence.
  - apply negb_true_iff, bool_decide_eq_false in E. by apply no_clash_hash.
Qed.
Definition freshb (bs : list block) (t : transaction) : bool := forallb (fun b => apartb (b_tx b) t) bs.
Lemma freshb_ok bs t : freshb bs t = true -> forall b, b ∈ bs -> ~ hash_clash (b_tx b) t.
Proof.
  unfold freshb. rewrite forallb_forall. intros Hf b Hin. apply apartb_ok, Hf. by apply elem_of_list_In.
Qed.
Definition distinctb (w : world) (ev : event) : bool :=
  let bs := blocks (w_led w) in
  match ev with
  | EvCall now caller c sync =>
      freshb bs (requested caller c)
      && match outgoing caller c with
         | Some (from, Some x, _) =>
             let t := given_back (w_led w) now from x in apartb (requested caller c) t && freshb bs t
         | _ => true
         end
  | EvReply now id ans _ =>
      match w_pend w !! id with
      | Some p =>
          match p_spender p, answer_returned (pending_amount p) ans with
          | Some x, Some (returned, _) => freshb bs (restoring (w_led w) now (p_from p) x (returned - icrc1_fee) (p_old p))
          | _, _ => true
          end
      | None => true
      end
  | _ => true
  end.
Lemma distinctb_ok w ev : distinctb w ev = true -> distinct_hashes w ev.
Proof.
  destruct ev as [now caller c sync|now id ans refund| | | |]; cbn [distinctb distinct_hashes]; [| |done|done|done|done].
  - intros [H1 H2]%andb_true_iff. split; [by apply freshb_ok|]. intros from x amount Ho _. rewrite Ho in H2.
    apply andb_true_iff in H2 as [H2 H3]. split; [by apply apartb_ok|by apply freshb_ok].
  - intros Hd p x returned code Hp Hx Ha. rewrite Hp, Hx, Ha in Hd. by apply freshb_ok.
Qed.
Fixpoint smoothb (w : world) (evs : list event) : bool :=
  match evs with
  | [] => true
  | ev :: evs' =>
      ev_okb w ev
      && match event_time ev with Some now => quietb (blocks (w_led w)) now | None => true end
      && distinctb w ev && smoothb (step w ev).1 evs'
  end.
Lemma smoothb_ok w evs : smoothb w evs = true -> smooth w evs.
Proof.
  revert w. induction evs as [|ev evs IH]; intros w; cbn [smoothb smooth]; [done|].
  intros [[[H1 H2]%andb_true_iff H3]%andb_true_iff H4]%andb_true_iff.
  split; [by apply ev_okb_ok|]. split; [|split; [by apply distinctb_ok|by apply IH]].
  intros now k a Hev. rewrite Hev in H2. by apply quietb_ok.
Qed.
Fixpoint replies (w : world) (evs : list event) : list response :=
  match evs with [] => [] | ev :: evs' => (step w ev).2 :: replies (step w ev).1 evs' end.

Example C75_case :
  reachable lived_world /\ reachable plain_world /\ twins lived_world plain_world
  /\ w_clock plain_world <= w_clock lived_world /\ smooth lived_world twin_events
  /\ cfg (w_led lived_world) <> cfg (w_led plain_world)
  /\ length (blocks (w_led (later lived_world twin_events))) = 12%nat
  /\ replies plain_world twin_events
     = [ RespReply (RepTransfer (Ok 4));
         RespReply (RepTransfer (Err (TDuplicate 4)));
         RespReply (RepTransferFrom (Ok 5));
         RespPending 0 (OutDepositCycles canister T);
         RespReply (RepWithdrawFrom (Err (WFFailedToWithdrawFrom (Some 6) (Some 7) (Some 8) RDestinationInvalid)));
         RespReply (RepWithdrawFrom (Err (WFFailedToWithdrawFrom (Some 9) (Some 10) (Some 11) RSysTransient)));
         RespIgnored;
         RespReply (RepTransferFrom (Err (TFGenericError 100003))) ]
  /\ replies lived_world twin_events = replies plain_world twin_events.
Proof.
  split. { unfold lived_world. cbn [later]. do 3 (apply reach_step; [|apply ev_okb_ok; vm_compute; reflexivity]).
    apply demo_at_reachable; vm_compute; reflexivity. }
  split; [apply demo_at_reachable; vm_compute; reflexivity|].
  split; [constructor; vm_compute; reflexivity|].
  split; [vm_compute; discriminate|].
  split; [apply smoothb_ok; vm_compute; reflexivity|].
  split; [vm_compute; discriminate|].
  split; [vm_compute; reflexivity|]. split; [vm_compute; reflexivity|vm_compute; reflexivity].
Qed.

Print Assumptions C75_same_log_same_answer.
Print Assumptions C75_same_log_same_future.
Print Assumptions C75_same_log_same_reads.
Print Assumptions C75_upgrade_unnoticed.
