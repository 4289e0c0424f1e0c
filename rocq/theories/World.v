(** * Every message is a sequence of primitive transitions; reachable worlds
    satisfy the invariant *)
From Verif Require Import Base Types Codec CodecFacts State Ledger Canister Effects Spec Inv Steps.

Section WithEnv.
Context `{Env}.

(** ** Calls in flight *)
Definition pend_common (s : state) (from : account) (sp : option account) (amount i : N)
  (old : option N) (t : transaction) : Prop :=
  wf_account from /\ wf_acct_opt sp /\ amount + FEE < U128_MOD
  /\ (exists b, blocks s !! N.to_nat i = Some b /\ b_tx b = t)
  /\ (forall x, third_party from sp = Some x ->
        owner from <> owner x /\ owner from <> MANAGEMENT_CANISTER /\ owner x <> MANAGEMENT_CANISTER)
  /\ (third_party from sp = None -> old = None)
  /\ (forall e, old = Some e -> 0 < e /\ is_u64 e).
Definition pend_ok (s : state) (p : pending) : Prop :=
  match p with
  | PWithdraw ep from to sp amount i old =>
      amount <> 0 /\ (ep = false -> sp = None)
      /\ exists created, pend_common s from sp amount i old (withdraw_tx from to sp amount created)
  | PCreate ep from sp amount i old created arg =>
      (ep = false -> sp = None)
      /\ pend_common s from sp amount i old (create_tx from sp amount created)
  end.

Lemma pend_common_mono s s' from sp amount i old t :
  blocks s `prefix_of` blocks s' ->
  pend_common s from sp amount i old t -> pend_common s' from sp amount i old t.
Proof.
  intros Hp (H1 & H2 & H3 & (b & Hb & Ht) & H5). split; [done|]. split; [done|]. split; [done|].
  split; [|done]. exists b. split; [|done]. by eapply prefix_lookup.
Qed.
Lemma pend_ok_mono s s' p :
  blocks s `prefix_of` blocks s' -> pend_ok s p -> pend_ok s' p.
Proof.
  intros Hp. destruct p; simpl.
  - intros (? & ? & c & ?). split; [done|]. split; [done|]. exists c. by eapply pend_common_mono.
  - intros (? & ?). split; [done|]. by eapply pend_common_mono.
Qed.

(** The burn at the start of an asynchronous call *)
Lemma burn_pend {E} (cp : pt_error -> E) cu nf t from sp amount now s old :
  inv now s -> is_u64 now ->
  burn_decide cp cu nf t from sp amount now s = OOk old ->
  tx_op t = Burn from sp amount ->
  wf_account from -> wf_acct_opt sp -> is_u128 amount -> wf_u64_opt (tx_created_at t) ->
  burn_memo t ->
  tx_ok now t s /\ pend_common (prune_state now (tx_effect now t s)) from sp amount (nblocks s) old t.
Proof.
  intros Hinv Hu Hd Hop Hf Hsp Ha Hc Hbm.
  destruct (burn_decide_ok _ _ _ _ _ _ _ _ _ _ Hd Hop Hf Hsp Ha Hc Hbm) as (Hok & H1 & H2).
  split; [done|]. split; [done|]. split; [done|]. split.
  { destruct Hok as (_ & _ & Hop' & _). rewrite Hop in Hop'. destruct Hop' as [Hb _].
    pose proof (supply_bal s (to_key from) (inv_supply _ _ Hinv)) as Hsb.
    fold (balance_of s from) in Hsb. destruct (inv_supply _ _ Hinv). lia. }
  split.
  { exists (mk_block now t s). split; [|done].
    destruct (prune_state_core now (tx_effect now t s)) as (-> & _).
    destruct (tx_effect_fields now t s) as (-> & _).
    unfold nblocks. rewrite Nat2N.id. by apply list_lookup_middle. }
  split.
  { intros x Hx. destruct (H1 x Hx) as (cur & e & Hk & _).
    apply (inv_appr _ _ Hinv) in Hk as (_ & _ & _ & ? & ? & ? & _). done. }
  split; [done|].
  intros e He. destruct (third_party from sp) as [x|]; [|by rewrite H2 in He].
  destruct (H1 x eq_refl) as (cur & e' & Hk & ->). unfold old_expiry in He.
  destruct (N.ltb_spec 0 e'); [|done]. injection He as <-. split; [done|].
  by apply (inv_appr _ _ Hinv) in Hk as (_ & _ & ? & _).
Qed.

Lemma allowance_u64 now s from x :
  inv now s -> is_u64 (allowance s from x now).2.
Proof.
  intros Hinv. unfold allowance.
  destruct (approvals s !! approval_key from x) as [[a e]|] eqn:Ek; simpl.
  - apply (inv_appr _ _ Hinv) in Ek as (_ & _ & ? & _). destruct (_ && _); [|done].
    simpl. unfold is_u64, U64_MOD. lia.
  - unfold is_u64, U64_MOD. lia.
Qed.
Lemma u128_sat_add_lt a b : is_u128 (u128_sat_add a b).
Proof.
  unfold u128_sat_add, is_u128, U128_MOD, U128_MAX.
  destruct (N.ltb_spec (a + b) 340282366920938463463374607431768211456); lia.
Qed.

Lemma restore_tx_ok from x n old now s :
  inv now s -> wf_account from -> wf_account x -> (forall e, old = Some e -> 0 < e /\ is_u64 e) ->
  restore_decide from x n old now s = OOk tt -> tx_ok now (restore_tx from x n old now s) s.
Proof.
  intros Hinv Hf Hx Hold Hd. apply approve_decide_ok; try done.
  - apply u128_sat_add_lt.
  - unfold restore_expiry. destruct (0 <? _); simpl; [by apply allowance_u64|].
    destruct old; [|done]. by apply Hold.
Qed.

Lemma refunded_prims from n m now s :
  inv now s -> is_u64 now -> reimburse_decide from n m s = OOk tt -> wf_account from -> is_u128 n ->
  prims now s (refunded from n m now s).
Proof.
  intros Hinv Hu Hd Hf Hn. unfold refunded.
  assert (prim now s (tx_effect now (refund_tx from n m) s)) as Hp.
  { constructor. by apply reimburse_decide_ok. }
  pose proof (prim_inv _ _ _ Hu Hinv Hp) as Hinv1.
  pose proof (prune_state_prims now _ Hu Hinv1) as Hp2.
  pose proof (prims_inv _ _ _ Hu Hinv1 Hp2) as Hinv2.
  pose proof (prune_state_prims now _ Hu Hinv2) as Hp3.
  eapply rtc_l; [done|]. by etrans.
Qed.

Lemma refund_prims from sp n m old now s s' fb ab :
  inv now s -> is_u64 now -> wf_account from -> wf_acct_opt sp -> is_u128 n ->
  (forall e, old = Some e -> 0 < e /\ is_u64 e) ->
  refund_outcome from sp n m old now s = Some (s', fb, ab) -> prims now s s'.
Proof.
  intros Hinv Hu Hf Hsp Hn Hold. unfold refund_outcome.
  destruct (reimburse_decide from n m s) as [[]| |] eqn:Ed; [|done|done].
  pose proof (refunded_prims _ _ _ _ _ Hinv Hu Ed Hf Hn) as Hp.
  pose proof (prims_inv _ _ _ Hu Hinv Hp) as Hinv1.
  destruct (third_party from sp) as [x|] eqn:Ex; [|by intros [= <- _ _]].
  destruct ((FEE <? n) && approval_still_valid old now); [|by intros [= <- _ _]].
  destruct (restore_decide _ _ _ _ _ _) as [[]| |] eqn:Er; [|done|done].
  intros [= <- _ _]. eapply rtc_r; [exact Hp|]. constructor.
  apply restore_tx_ok; try done. apply third_party_Some in Ex as [-> _]. done.
Qed.

(** ** Continuations *)
Lemma commit_prims now s s1 r s' resp :
  prims now s s1 -> commit s (s1, r) = (s', resp) -> prims now s s'.
Proof.
  intros Hp. unfold commit. destruct r as [rep|[]|t]; intros [= <- _]; [done|apply rtc_refl].
Qed.

(** The replies of the two withdraw (create) endpoints for an outcome of the
    shared code. *)
Definition wrep (ep : bool) (o : outcome trap withdraw_from_error N)
  : outcome trap Empty_set reply :=
  match o with
  | OOk v => OOk (if ep then RepWithdrawFrom (Ok v) else RepWithdraw (Ok v))
  | OErr e =>
      if ep then OOk (RepWithdrawFrom (Err e))
      else match w_of_wf e with
           | inl e' => OOk (RepWithdraw (Err e'))
           | inr t => OTrap t
           end
  | OTrap t => OTrap t
  end.
Definition crep (ep : bool) (o : outcome trap create_canister_from_error (N * principal))
  : outcome trap Empty_set reply :=
  match o with
  | OOk v => OOk (if ep then RepCreateFrom (Ok v) else RepCreate (Ok v))
  | OErr e =>
      if ep then OOk (RepCreateFrom (Err e))
      else match c_of_cf e with
           | inl e' => OOk (RepCreate (Err e'))
           | inr t => OTrap t
           end
  | OTrap t => OTrap t
  end.
Lemma withdraw_reply_run ep m s : withdraw_reply ep m s = ((m s).1, wrep ep (m s).2).
Proof.
  unfold withdraw_reply, as_reply, map_err_trap, wrep.
  destruct ep; destruct (m s) as [s1 [v|e|t]]; try done. simpl. destruct (w_of_wf e); done.
Qed.
Lemma create_reply_run ep m s : create_reply ep m s = ((m s).1, crep ep (m s).2).
Proof.
  unfold create_reply, as_reply, map_err_trap, crep.
  destruct ep; destruct (m s) as [s1 [v|e|t]]; try done. simpl. destruct (c_of_cf e); done.
Qed.

Lemma wf_refund_n amount (res : result call_error (result cmc_error principal)) code returned :
  is_u128 amount ->
  match res with Ok (Err (CmcRefunded n)) => is_u128 n | _ => True end ->
  flat_create_result amount res = Err (code, returned) -> is_u128 returned.
Proof.
  intros Ha Hres. unfold flat_create_result.
  destruct res as [[c|[n|]]|e]; simpl in *.
  - done.
  - intros [= _ <-]. done.
  - intros [= _ <-]. unfold is_u128, U128_MOD. lia.
  - intros [= _ <-]. done.
Qed.

(** The refund amount a CMC answer claims fits 128 bits. *)
Definition ans_u128 (ans : answer) : Prop :=
  match ans with AnsCmc (Ok (Err (CmcRefunded n))) => is_u128 n | _ => True end.
Lemma wf_answer_u128 ans : wf_answer ans -> ans_u128 ans.
Proof. destruct ans as [|[[|[]]|]]; simpl; done. Qed.

Lemma is_u128_le n m : n <= m -> is_u128 m -> is_u128 n.
Proof. unfold is_u128. lia. Qed.

(** A continuation run in [s] ends (unless it traps) in a state reached by
    primitive transitions. *)
Lemma resume_prims now p ans k s s1 r :
  inv now s -> is_u64 now -> pend_ok s p -> ans_u128 ans -> resume now p ans = Some k ->
  k s = (s1, r) -> (exists t, r = OTrap t) \/ prims now s s1.
Proof.
  intros Hinv Hu Hp Ha Hres Hk.
  destruct p as [ep from to sp amount i old | ep from sp amount i old created arg];
    destruct ans as [res|res]; simpl in Hres; try done; injection Hres as <-.
  - destruct Hp as (_ & _ & created & Hf & Hsp & Hov & Hb & Htp & Hn & Hold).
    assert (exists o, withdraw_finish from sp amount i old now res s = (s1, o)
              /\ ((exists t, o = OTrap t) -> exists t, r = OTrap t)) as (o & Ho & Hr).
    { rewrite withdraw_reply_run in Hk.
      destruct (withdraw_finish from sp amount i old now res s) as [s2 o]. exists o.
      simpl in Hk. injection Hk as <- <-. split; [done|]. intros [t ->]. simpl. eauto. }
    destruct res as [[]|e].
    + simpl in Ho. injection Ho as <- <-. right. apply rtc_refl.
    + destruct (withdraw_finish_eq from sp amount i old now e s (inv_supply _ _ Hinv))
        as (st & x & Heq). rewrite Heq in Ho.
      destruct (amount - FEE =? 0). { injection Ho as <- <-. right. apply rtc_refl. }
      destruct (refund_outcome _ _ _ _ _ _ _) as [[[s' fb] ab]|] eqn:Er.
      * injection Ho as <- <-. right. refine (refund_prims _ _ _ _ _ _ _ _ _ _ Hinv Hu Hf Hsp _ Hold Er).
        eapply is_u128_le; [|unfold is_u128; exact Hov]. lia.
      * injection Ho as <- <-. left. apply Hr. eauto.
  - destruct Hp as (_ & Hf & Hsp & Hov & (b & Hb & Hbt) & Htp & Hn & Hold).
    assert (exists o, create_finish from sp amount i old created now res s = (s1, o)
              /\ ((exists t, o = OTrap t) -> exists t, r = OTrap t)) as (o & Ho & Hr).
    { rewrite create_reply_run in Hk.
      destruct (create_finish from sp amount i old created now res s) as [s2 o]. exists o.
      simpl in Hk. injection Hk as <- <-. split; [done|]. intros [t ->]. simpl. eauto. }
    destruct (create_finish_eq from sp amount i old created now res s (inv_supply _ _ Hinv))
      as (st & x & Heq). rewrite Heq in Ho.
    destruct (flat_create_result amount res) as [c|[code returned]] eqn:Ef.
    + injection Ho as <- <-. right. apply rtc_once. rewrite <- Hbt. by constructor.
    + destruct (returned - FEE =? 0). { injection Ho as <- <-. right. apply rtc_refl. }
      assert (is_u128 returned) as Hret.
      { eapply wf_refund_n; [|exact Ha|exact Ef]. eapply is_u128_le; [|unfold is_u128; exact Hov]. lia. }
      destruct (refund_outcome _ _ _ _ _ _ _) as [[[s' fb] ab]|] eqn:Er.
      * injection Ho as <- <-. right. refine (refund_prims _ _ _ _ _ _ _ _ _ _ Hinv Hu Hf Hsp _ Hold Er).
        eapply is_u128_le; [|exact Hret]. lia.
      * injection Ho as <- <-. left. apply Hr. eauto.
Qed.

Lemma resume_commit_prims now p ans k s s' r :
  inv now s -> is_u64 now -> pend_ok s p -> ans_u128 ans -> resume now p ans = Some k ->
  commit s (k s) = (s', r) -> prims now s s'.
Proof.
  intros Hinv Hu Hp Ha Hres Hc. destruct (k s) as [s1 o] eqn:Ek.
  destruct (resume_prims _ _ _ _ _ _ _ Hinv Hu Hp Ha Hres Ek) as [[t ->]|Hpr].
  - simpl in Hc. injection Hc as <- _. apply rtc_refl.
  - by eapply commit_prims.
Qed.

(** ** First messages *)
Lemma sync_answer_u128 p e : ans_u128 (sync_answer p e).
Proof. destruct p; done. Qed.
Lemma sync_answer_resume now p e : exists k, resume now p (sync_answer p e) = Some k.
Proof. destruct p; eexists; done. Qed.

Lemma start_async_prims {E} now avail sync (fail : M E pending -> M Empty_set reply)
  (m : M E pending) s s' r s1 o :
  is_u64 now -> inv now s ->
  m s = (s1, o) ->
  (forall p, o = OOk p -> prims now s s1 /\ pend_ok s1 p) ->
  (forall e, o = OErr e -> s1 = s) ->
  (forall s2 rep, (exists e, o = OErr e) -> fail m s = (s2, OOk rep) -> s2 = s) ->
  (forall t, o = OTrap t -> exists s2 t', fail m s = (s2, OTrap t')) ->
  start_async now avail sync fail m s = (s', r) ->
  prims now s s' /\ forall p, r = Waiting p -> pend_ok s' p.
Proof.
  intros Hu Hinv Hm Hok Herr Hfe Hft. unfold start_async. rewrite Hm.
  destruct o as [p|e|t].
  - destruct (Hok p eq_refl) as [Hp Hpend].
    destruct (match sync with Some e => Some e | None =>
                if avail <? pending_amount p then Some SELiquid else None end) as [se|].
    + destruct (sync_answer_resume now p se) as [k Hk]. rewrite Hk.
      pose proof (prims_inv _ _ _ Hu Hinv Hp) as Hinv1.
      destruct (k s1) as [s2 o2] eqn:Ek.
      destruct (resume_prims _ _ _ _ _ _ _ Hinv1 Hu Hpend (sync_answer_u128 p se) Hk Ek) as [[t ->]|Hpr].
      * simpl. intros [= <- <-]. split; [apply rtc_refl|done].
      * assert (prims now s s2) as Hp2 by (by etrans).
        destruct (commit s (s2, o2)) as [s3 r3] eqn:Ec. intros [= <- <-].
        split; [by eapply commit_prims|done].
    + intros [= <- <-]. split; [done|]. intros p' [= <-]. done.
  - destruct (fail m s) as [s2 o2] eqn:Ef. destruct o2 as [rep|[]|t].
    + simpl. intros [= <- <-]. rewrite (Hfe s2 rep); [|eauto|done]. split; [apply rtc_refl|done].
    + simpl. intros [= <- <-]. split; [apply rtc_refl|done].
  - destruct (Hft t eq_refl) as (s2 & t' & ->). simpl. intros [= <- <-].
    split; [apply rtc_refl|done].
Qed.

Lemma fail_withdraw_err ep (m : M withdraw_from_error pending) s s1 e s2 rep :
  m s = (s1, OErr e) -> fail_withdraw ep m s = (s2, OOk rep) -> s2 = s1.
Proof.
  intros Hm. unfold fail_withdraw, withdraw_reply, as_reply, map_err_trap, bindM.
  destruct ep; rewrite Hm; [congruence|]. destruct (w_of_wf e); congruence.
Qed.
Lemma fail_withdraw_trap ep (m : M withdraw_from_error pending) s s1 t :
  m s = (s1, OTrap t) -> fail_withdraw ep m s = (s1, OTrap t).
Proof.
  intros Hm. unfold fail_withdraw, withdraw_reply, as_reply, map_err_trap, bindM.
  destruct ep; rewrite Hm; done.
Qed.
Lemma fail_create_err ep (m : M create_canister_from_error pending) s s1 e s2 rep :
  m s = (s1, OErr e) -> fail_create ep m s = (s2, OOk rep) -> s2 = s1.
Proof.
  intros Hm. unfold fail_create, create_reply, as_reply, map_err_trap, bindM.
  destruct ep; rewrite Hm; [congruence|]. destruct (c_of_cf e); congruence.
Qed.
Lemma fail_create_trap ep (m : M create_canister_from_error pending) s s1 t :
  m s = (s1, OTrap t) -> fail_create ep m s = (s1, OTrap t).
Proof.
  intros Hm. unfold fail_create, create_reply, as_reply, map_err_trap, bindM.
  destruct ep; rewrite Hm; done.
Qed.

Lemma execute_transfer_prims now from to sp amount fee m created s s1 o :
  inv now s -> is_u64 now ->
  wf_account from -> wf_account to -> wf_acct_opt sp -> wf_u64_opt created ->
  execute_transfer now from to sp amount fee m created s = (s1, o) -> prims now s s1.
Proof.
  intros Hinv Hu Hf Ht Hsp Hc. rewrite execute_transfer_eq by apply (inv_supply _ _ Hinv).
  unfold xfer_decide. destruct (N.leb_spec U128_MOD amount) as [|Ha].
  { intros [= <- _]. apply rtc_refl. }
  destruct (match fee with Some f => _ | None => false end).
  { intros [= <- _]. apply rtc_refl. }
  destruct (transfer_decide from to sp amount m now created fee s) as [[]| |] eqn:Ed;
    intros [= <- _]; [|apply rtc_refl|apply rtc_refl].
  assert (prim now s (tx_effect now (Tx (Transfer from to sp amount fee) created m) s)) as Hp.
  { constructor. by apply transfer_decide_ok. }
  eapply rtc_l; [exact Hp|]. apply prune_state_prims; [done|]. by eapply prim_inv.
Qed.

Lemma cap_u128 amount : is_u128 (default U128_MAX (nat_to_u128 amount)).
Proof.
  rewrite nat_to_u128_eq. destruct (N.leb_spec U128_MOD amount); simpl; [|done].
  unfold is_u128, U128_MAX, U128_MOD. lia.
Qed.

Lemma execute_approve_prims now from sp amount expected expires fee m created s s1 o :
  inv now s -> is_u64 now ->
  wf_account from -> wf_account sp -> wf_u64_opt expires -> wf_u64_opt created ->
  execute_approve now from sp amount expected expires fee m created s = (s1, o) -> prims now s s1.
Proof.
  intros Hinv Hu Hf Hsp Hex Hc. rewrite execute_approve_eq by apply (inv_supply _ _ Hinv).
  unfold apr_decide.
  destruct (match expected with Some f => _ | None => false end) eqn:Ee.
  { intros [= <- _]. apply rtc_refl. }
  destruct (match fee with Some f => _ | None => false end).
  { intros [= <- _]. apply rtc_refl. }
  destruct (approve_decide _ _ _ _ _ _ _ _ _ _) as [[]| |] eqn:Ed;
    intros [= <- _]; [|apply rtc_refl|apply rtc_refl].
  match goal with |- prims now s (prune_state now ?x) => assert (prim now s x) as Hp end.
  { constructor. apply approve_decide_ok; try done; [apply cap_u128|].
    destruct expected as [e|]; [|done]. unfold wf_u128_opt, is_u128. lia. }
  eapply rtc_l; [exact Hp|]. apply prune_state_prims; [done|]. by eapply prim_inv.
Qed.

Lemma execute_withdraw_ok now ep from to sp amount created s s1 o :
  inv now s -> is_u64 now -> wf_principal to -> wf_account from -> wf_acct_opt sp -> wf_u64_opt created ->
  (ep = false -> sp = None) ->
  execute_withdraw now ep from to sp amount created s = (s1, o) ->
  (forall p, o = OOk p -> prims now s s1 /\ pend_ok s1 p) /\ (forall e, o = OErr e -> s1 = s).
Proof.
  intros Hinv Hu Hto Hf Hsp Hc Hep. rewrite execute_withdraw_eq by apply (inv_supply _ _ Hinv).
  unfold wd_decide. destruct (N.leb_spec U128_MOD amount) as [|Ha].
  { intros [= <- <-]. done. }
  destruct (withdraw_decide from to sp amount now created s) as [old|e|x] eqn:Ed;
    intros [= <- <-]; [|done|done].
  split; [|done]. intros p [= <-]. unfold withdraw_decide in Ed.
  destruct (is_self_authenticating to) eqn:Esa; [done|]. destruct (N.eqb_spec amount 0); [done|].
  assert (burn_memo (withdraw_tx from to sp amount created)) as Hbm.
  { left. by exists to. }
  destruct (burn_pend _ _ _ _ _ _ _ _ _ _ Hinv Hu Ed eq_refl Hf Hsp Ha Hc Hbm) as [Hok Hpend].
  assert (prim now s (tx_effect now (withdraw_tx from to sp amount created) s)) as Hp by (by constructor).
  split.
  - eapply rtc_l; [exact Hp|]. apply prune_state_prims; [done|]. by eapply prim_inv.
  - simpl. split; [done|]. split; [done|]. exists created. done.
Qed.

Lemma execute_create_ok now ep caller from sp amount created arg s s1 o :
  inv now s -> is_u64 now -> wf_account from -> wf_acct_opt sp -> wf_u64_opt created ->
  (ep = false -> sp = None) ->
  execute_create now ep caller from sp amount created arg s = (s1, o) ->
  (forall p, o = OOk p -> prims now s s1 /\ pend_ok s1 p) /\ (forall e, o = OErr e -> s1 = s).
Proof.
  intros Hinv Hu Hf Hsp Hc Hep. rewrite execute_create_eq by apply (inv_supply _ _ Hinv).
  unfold cr_decide. destruct (N.leb_spec U128_MOD amount) as [|Ha].
  { intros [= <- <-]. done. }
  destruct (create_decide from sp amount now created s) as [old|e|x] eqn:Ed;
    intros [= <- <-]; [|done|done].
  split; [|done]. intros p [= <-]. unfold create_decide in Ed.
  destruct (burn_pend _ _ _ _ _ _ _ _ _ _ Hinv Hu Ed eq_refl Hf Hsp Ha Hc (or_intror eq_refl)) as [Hok Hpend].
  assert (prim now s (tx_effect now (create_tx from sp amount created) s)) as Hp by (by constructor).
  split.
  - eapply rtc_l; [exact Hp|]. apply prune_state_prims; [done|]. by eapply prim_inv.
  - simpl. done.
Qed.

Lemma ep_deposit_prims now cycles to m s s1 o :
  inv now s -> is_u64 now -> wf_account to -> is_u128 cycles ->
  ep_deposit now cycles to m s = (s1, o) -> (exists t, o = OTrap t) \/ prims now s s1.
Proof.
  intros Hinv Hu Hto Hc. destruct (ep_deposit_eq now cycles to m s) as [st ->].
  unfold dep_decide. destruct (N.leb_spec cycles FEE). { intros [= <- <-]. left. eauto. }
  destruct (mint_decide to (cycles - FEE) m s) as [[]|[]|x] eqn:Ed; intros [= <- <-];
    [|left; eauto|left; eauto].
  right.
  match goal with |- prims now s (prune_state now ?x) => assert (prim now s x) as Hp end.
  { constructor. apply mint_decide_ok; try done; [|by right]. eapply is_u128_le; [|exact Hc]. lia. }
  eapply rtc_l; [exact Hp|]. apply prune_state_prims; [done|]. by eapply prim_inv.
Qed.

Lemma as_reply_fst {E A} wrap (m : M E A) s : (as_reply wrap m s).1 = (m s).1.
Proof. unfold as_reply. destruct (m s) as [s1 [a|e|t]]; done. Qed.
Lemma map_err_trap_fst {E E' A} (f : E -> E' + trap) (m : M E A) s :
  (map_err_trap f m s).1 = (m s).1.
Proof. unfold map_err_trap. destruct (m s) as [s1 [a|e|t]]; [done| |done]. destruct (f e); done. Qed.

Lemma sync_msg_prims now (m : M Empty_set reply) s s' (r : response) s1 o :
  m s = (s1, o) -> ((exists t, o = OTrap t) \/ prims now s s1) ->
  commit s (m s) = (s', r) -> prims now s s'.
Proof.
  intros Hm Hp. rewrite Hm. destruct Hp as [[t ->]|Hp].
  - simpl. intros [= <- _]. apply rtc_refl.
  - by eapply commit_prims.
Qed.

Lemma exec_call_prims now avail caller c sync s s' r :
  inv now s -> is_u64 now -> wf_principal caller -> wf_call c ->
  exec_call now avail caller c sync s = (s', r) ->
  prims now s s' /\ forall p, r = Waiting p -> pend_ok s' p.
Proof.
  intros Hinv Hu Hcl Hwf.
  assert (forall sub, wf_sub sub -> wf_account (Acct caller sub)) as Hca by done.
  destruct c; simpl in Hwf; unfold exec_call.
  - destruct (commit s _) as [s2 r2] eqn:Ec. intros [= <- <-]. split; [|done].
    destruct (ep_deposit now cycles to m s) as [s1 o] eqn:Em.
    eapply sync_msg_prims; [exact Em| |by rewrite Em].
    destruct Hwf. by eapply ep_deposit_prims.
  - destruct (commit s _) as [s2 r2] eqn:Ec. intros [= <- <-]. split; [|done].
    destruct (as_reply RepTransfer _ s) as [s1 o] eqn:Em.
    eapply (sync_msg_prims now (fun _ => (s1, o))); [done| |exact Ec]. right.
    pose proof (f_equal fst Em) as Hf. rewrite as_reply_fst, map_err_trap_fst in Hf. simpl in Hf.
    destruct (execute_transfer _ _ _ _ _ _ _ _ s) as [s3 o3] eqn:Ex. simpl in Hf. subst s3.
    destruct Hwf as (? & ? & ?). eapply execute_transfer_prims; [done|done| | | | |exact Ex]; try done.
  - destruct (commit s _) as [s2 r2] eqn:Ec. intros [= <- <-]. split; [|done].
    destruct (as_reply RepTransferFrom _ s) as [s1 o] eqn:Em.
    eapply (sync_msg_prims now (fun _ => (s1, o))); [done| |exact Ec]. right.
    pose proof (f_equal fst Em) as Hf. rewrite as_reply_fst in Hf. simpl in Hf.
    destruct (execute_transfer _ _ _ _ _ _ _ _ s) as [s3 o3] eqn:Ex. simpl in Hf. subst s3.
    destruct Hwf as (? & ? & ? & ?).
    eapply execute_transfer_prims; [done|done| | | | |exact Ex]; try done.
  - destruct (commit s _) as [s2 r2] eqn:Ec. intros [= <- <-]. split; [|done].
    destruct (as_reply RepApprove _ s) as [s1 o] eqn:Em.
    eapply (sync_msg_prims now (fun _ => (s1, o))); [done| |exact Ec]. right.
    pose proof (f_equal fst Em) as Hf. rewrite as_reply_fst in Hf. simpl in Hf.
    destruct (execute_approve _ _ _ _ _ _ _ _ _ s) as [s3 o3] eqn:Ex. simpl in Hf. subst s3.
    destruct Hwf as (? & ? & ? & ?).
    eapply execute_approve_prims; [done|done| | | | |exact Ex]; try done.
  - destruct (execute_withdraw now false (Acct caller from_sub) to None amount created s)
      as [s1 o] eqn:Em. destruct Hwf as (? & ? & ?).
    destruct (execute_withdraw_ok _ _ _ _ _ _ _ _ _ _ Hinv Hu ltac:(done) (Hca _ ltac:(done)) (I : wf_acct_opt None) ltac:(done)
      ltac:(done) Em) as [Hok Herr].
    eapply start_async_prims; try done.
    + intros s2 rep [e ->] Hf. trans s1; [by eapply fail_withdraw_err|by apply (Herr e)].
    + intros t ->. eexists _, _. by eapply fail_withdraw_trap.
  - destruct (execute_withdraw now true from to (Some (Acct caller spender_sub)) amount created s)
      as [s1 o] eqn:Em. destruct Hwf as (? & ? & ? & ?).
    destruct (execute_withdraw_ok _ true _ _ _ _ _ _ _ _ Hinv Hu H2 ltac:(done) (Hca spender_sub ltac:(done) : wf_acct_opt (Some _))
      ltac:(done) ltac:(done) Em) as [Hok Herr].
    eapply start_async_prims; try done.
    + intros s2 rep [e ->] Hf. trans s1; [by eapply fail_withdraw_err|by apply (Herr e)].
    + intros t ->. eexists _, _. by eapply fail_withdraw_trap.
  - destruct (execute_create now false caller (Acct caller from_sub) None amount created args s)
      as [s1 o] eqn:Em. destruct Hwf as (? & ?).
    destruct (execute_create_ok _ _ _ _ _ _ _ _ _ _ _ Hinv Hu (Hca _ ltac:(done)) (I : wf_acct_opt None) ltac:(done)
      ltac:(done) Em) as [Hok Herr].
    eapply start_async_prims; try done.
    + intros s2 rep [e ->] Hf. trans s1; [by eapply fail_create_err|by apply (Herr e)].
    + intros t ->. eexists _, _. by eapply fail_create_trap.
  - destruct (execute_create now true caller from (Some (Acct caller spender_sub)) amount created args s)
      as [s1 o] eqn:Em. destruct Hwf as (? & ? & ?).
    destruct (execute_create_ok _ true _ _ _ _ _ _ _ _ _ Hinv Hu ltac:(done) (Hca spender_sub ltac:(done) : wf_acct_opt (Some _))
      ltac:(done) ltac:(done) Em) as [Hok Herr].
    eapply start_async_prims; try done.
    + intros s2 rep [e ->] Hf. trans s1; [by eapply fail_create_err|by apply (Herr e)].
    + intros t ->. eexists _, _. by eapply fail_create_trap.
Qed.

(** ** Upgrades *)
Lemma foldl_mod (l : list (akey * N)) acc :
  foldl (fun acc kv => (acc + kv.2) mod U128_MOD) acc l mod U128_MOD =
  (acc + foldr (fun kv acc => kv.2 + acc) 0 l) mod U128_MOD.
Proof.
  revert acc. induction l as [|[k v] l IH]; intros acc; simpl.
  - f_equal. lia.
  - rewrite IH. rewrite N.add_mod_idemp_l by done. f_equal. lia.
Qed.
Lemma foldl_mod_lt (l : list (akey * N)) acc :
  acc < U128_MOD -> foldl (fun acc kv => (acc + kv.2) mod U128_MOD) acc l < U128_MOD.
Proof.
  revert acc. induction l as [|[k v] l IH]; intros acc Ha; simpl; [done|].
  apply IH. by apply N.mod_lt.
Qed.
Lemma map_sum_list m : map_sum m = foldr (fun kv acc => kv.2 + acc) 0 (map_to_list m).
Proof.
  unfold map_sum, map_fold, compose. 
  induction (map_to_list m) as [|[k v] l IH]; [done|]. simpl. by rewrite IH.
Qed.
Lemma compute_total_supply_eq m : compute_total_supply m = map_sum m mod U128_MOD.
Proof.
  unfold compute_total_supply. rewrite map_sum_list.
  rewrite <- (N.mod_small (foldl _ _ _) U128_MOD).
  - by rewrite foldl_mod.
  - by apply foldl_mod_lt.
Qed.

Lemma reload_eq clk s : inv clk s -> reload s = set_p0 [] s.
Proof.
  intros Hinv. unfold reload. destruct (compute_last_block_hash_and_hash_tree (blocks s)) as [ph tr] eqn:Ec.
  assert (ph = phash s /\ tr = hash_tree s) as [-> ->].
  { rewrite (inv_phash _ _ Hinv), (inv_tree _ _ Hinv). unfold tree_of.
    unfold compute_last_block_hash_and_hash_tree in Ec.
    destruct (last (blocks s)); injection Ec as <- <-; done. }
  rewrite compute_total_supply_eq. destruct (inv_supply _ _ Hinv) as [<- Hlt].
  rewrite N.mod_small by done. done.
Qed.

Lemma inv_set_p0_nil clk s : inv clk s -> inv clk (set_p0 [] s).
Proof. intros []. constructor; try done. constructor. Qed.

Lemma post_upgrade_cfg args s s' o :
  post_upgrade args s = (s', o) -> exists c, s' = set_cfg c s.
Proof.
  assert (s = set_cfg (cfg s) s) as Hid by (by destruct s).
  unfold post_upgrade. destruct args as [[c|[u|]]|].
  - intros [= <- _]. eauto.
  - unfold bindM. destruct (ua_max_blocks_per_request u), (ua_change_index_id u); simpl;
      intros [= <- _]; eauto.
  - intros [= <- _]. eauto.
  - intros [= <- _]. eauto.
Qed.

(** ** The world invariant *)
Definition winv (w : world) : Prop :=
  inv (w_clock w) (w_led w) /\ is_u64 (w_clock w)
  /\ forall id p, w_pend w !! id = Some p -> id < w_next w /\ pend_ok (w_led w) p.

(** A call-back that crashes leaves the ledger as it was. *)
Lemma step_crash w now id refund w' resp :
  step w (EvCrash now id refund) = (w', resp) ->
  w_led w' = w_led w /\ w_next w' = w_next w /\ w_used w' = w_used w
  /\ w_pend w' = delete id (w_pend w)
  /\ match w_pend w !! id with
     | Some _ => w_clock w' = now /\ w_cycles w' = w_cycles w + refund /\ resp = RespTrap TrapSystem
     | None => w' = w /\ resp = RespIgnored
     end.
Proof.
  cbn [step]. destruct (w_pend w !! id) eqn:E; intros [= <- <-]; simpl; [done|].
  by rewrite delete_notin.
Qed.

(** Relation between the ledger states before and after an event *)
Definition led_step (w : world) (ev : event) : Prop :=
  let w' := (step w ev).1 in
  w_clock w <= w_clock w'
  /\ (prims (w_clock w') (w_led w) (w_led w')
      \/ exists c, w_led w' = set_cfg c (set_p0 [] (w_led w))).

Lemma step_ok w ev : winv w -> ev_ok w ev -> winv (step w ev).1 /\ led_step w ev.
Proof.
  intros (Hinv & Hu & Hpend) Hev. unfold led_step. destruct ev as [now caller c sync|now id ans refund|now args|n|n|now id refund];
    simpl in Hev |- *.
  - destruct Hev as ([Hcl Hnow] & Hca & Hwf).
    apply (inv_mono _ now) in Hinv; [|done].
    destruct (exec_call now (w_cycles w) caller c sync (w_led w)) as [s' r] eqn:Ex.
    destruct (exec_call_prims _ _ _ _ _ _ _ _ Hinv Hnow Hca Hwf Ex) as [Hp Hw].
    pose proof (prims_inv _ _ _ Hnow Hinv Hp) as Hinv'.
    pose proof (prims_prefix _ _ _ Hp) as Hpre.
    destruct r as [r|p]; simpl.
    + split; [|split; [done|by left]]. split; [done|]. split; [done|].
      intros id p Hid. destruct (Hpend _ _ Hid). split; [done|]. by eapply pend_ok_mono.
    + split; [|split; [done|by left]]. split; [done|]. split; [done|].
      intros id p' Hid. simpl in Hid. apply lookup_insert_Some in Hid as [[<- <-]|[Hne Hid]].
      * split; [simpl; lia|]. by apply Hw.
      * destruct (Hpend _ _ Hid). split; [simpl; lia|]. by eapply pend_ok_mono.
  - destruct Hev as ([Hcl Hnow] & Hans & Href).
    destruct (w_pend w !! id) as [p|] eqn:Ep; simpl; [|split; [done|split; [lia|left; apply rtc_refl]]].
    destruct (resume now p ans) as [k|] eqn:Er; simpl; [|split; [done|split; [lia|left; apply rtc_refl]]].
    apply (inv_mono _ now) in Hinv; [|done].
    destruct (commit (w_led w) (k (w_led w))) as [s' r] eqn:Ec. simpl.
    assert (prims now (w_led w) s') as Hp.
    { eapply resume_commit_prims; [done|done| |by apply wf_answer_u128|exact Er|exact Ec].
      by eapply Hpend. }
    pose proof (prims_inv _ _ _ Hnow Hinv Hp) as Hinv'.
    pose proof (prims_prefix _ _ _ Hp) as Hpre.
    split; [|split; [done|by left]]. split; [done|]. split; [done|].
    intros id' p' Hid. simpl in Hid. apply lookup_delete_Some in Hid as [_ Hid].
    destruct (Hpend _ _ Hid). split; [done|]. by eapply pend_ok_mono.
  - destruct Hev as ([Hcl Hnow] & Hargs).
    apply (inv_mono _ now) in Hinv; [|done].
    rewrite (reload_eq _ _ Hinv).
    destruct (post_upgrade args (set_p0 [] (w_led w))) as [s' o] eqn:Epu.
    destruct (post_upgrade_cfg _ _ _ _ Epu) as [c Hc].
    destruct o as [[]|[]|t]; simpl.
    + split; [|split; [done|right; eauto]]. split; [|split; [done|]].
      * rewrite Hc. apply inv_set_p0_nil in Hinv. destruct Hinv. by constructor.
      * intros id p Hid. done.
    + split; [|split; [done|left; apply rtc_refl]]. split; [done|]. split; [done|]. done.
  - split; [|split; [lia|left; apply rtc_refl]]. done.
  - split; [|split; [lia|left; apply rtc_refl]]. done.
  - destruct Hev as ([Hcl Hnow] & Href).
    destruct (w_pend w !! id) as [p|] eqn:Ep; simpl; [|split; [done|split; [lia|left; apply rtc_refl]]].
    split; [|split; [done|left; apply rtc_refl]].
    split; [by eapply inv_mono|]. split; [done|].
    intros id' p' Hid. simpl in Hid. apply lookup_delete_Some in Hid as [_ Hid]. by apply Hpend.
Qed.

(** ** Installation *)
Lemma inv_empty now : inv now empty_state.
Proof.
  constructor; simpl; try done.
  - intros e k. split; [set_solver|]. intros [_ [a Ha]]. by rewrite lookup_empty in Ha.
Qed.

Lemma mint_initial_prims now l s s' o :
  is_u64 now -> inv now s -> Forall (fun e => wf_account e.1 /\ is_u128 e.2) l ->
  mint_initial now l s = (s', OOk o) -> prims now s s'.
Proof.
  intros Hu Hinv Hl. revert s Hinv. induction Hl as [|[a n] l [Ha Hn] Hl IH]; intros s Hinv; simpl.
  - intros [= <- _]. apply rtc_refl.
  - unfold bindM at 1. unfold or_trap. rewrite mint_eq.
    destruct (mint_decide a n None s) as [[]|e|x] eqn:Ed; [|done|done].
    intros Hm. 
    assert (prim now s (tx_effect now (Tx (Mint a n FEE) None None) s)) as Hp.
    { constructor. apply mint_decide_ok; try done. by right. }
    eapply rtc_l; [exact Hp|]. apply IH; [|done]. by eapply prim_inv.
Qed.

Lemma init_prims now args s o :
  is_u64 now -> wf_ledger_args args -> init now args empty_state = (s, OOk o) ->
  exists s1 c, prims now empty_state s1 /\ s = set_cfg c s1.
Proof.
  intros Hu Hwf. unfold init. destruct args as [c|u]; [|done].
  unfold bindM. destruct (mint_initial now _ empty_state) as [s1 [o1|[]|t]] eqn:Em; [|done].
  simpl. intros [= <- _]. destruct Hwf as [_ Hwf].
  pose proof (mint_initial_prims _ _ _ _ _ Hu (inv_empty now) Hwf Em) as Hp.
  by exists s1, c.
Qed.

Lemma init_world_winv now cycles args w :
  is_u64 now -> wf_ledger_args args -> init_world now cycles args = Some w -> winv w.
Proof.
  intros Hu Hwf. unfold init_world. destruct (init now args empty_state) as [s [o|[]|t]] eqn:Ei; [|done].
  intros [= <-]. split; [|split; [done|done]]. simpl.
  destruct (init_prims _ _ _ _ Hu Hwf Ei) as (s1 & c & Hp & ->).
  pose proof (prims_inv _ _ _ Hu (inv_empty now) Hp) as Hi. destruct Hi. by constructor.
Qed.

Theorem reachable_winv w : reachable w -> winv w.
Proof.
  induction 1 as [now cycles args w Hu Hwf Hi|w ev Hr IH Hev].
  - by eapply init_world_winv.
  - by apply step_ok.
Qed.
Lemma reachable_inv w : reachable w -> inv (w_clock w) (w_led w).
Proof. intros Hr. by apply reachable_winv in Hr as [? _]. Qed.

(** Histories *)
Lemma reachable_steps w tr w' : reachable w -> steps w tr w' -> reachable w'.
Proof. intros Hr Hs. induction Hs; [done|]. apply IHHs. by constructor. Qed.
Lemma led_step_prefix w ev :
  winv w -> ev_ok w ev -> blocks (w_led w) `prefix_of` blocks (w_led (step w ev).1).
Proof.
  intros Hw Hev. destruct (step_ok w ev Hw Hev) as [_ [_ [Hp|[c ->]]]]; [|done].
  by eapply prims_prefix.
Qed.
Lemma steps_prefix w tr w' :
  reachable w -> steps w tr w' -> blocks (w_led w) `prefix_of` blocks (w_led w').
Proof.
  intros Hr Hs. induction Hs as [|w ev tr w' Hev Hs IH]; [done|].
  etrans; [apply (led_step_prefix w ev); [by apply reachable_winv|done]|].
  apply IH. by constructor.
Qed.
Lemma steps_clock w tr w' :
  reachable w -> steps w tr w' -> w_clock w <= w_clock w'.
Proof.
  intros Hr Hs. induction Hs as [|w ev tr w' Hev Hs IH]; [done|].
  assert (reachable (step w ev).1) as Hr' by (by constructor).
  destruct (step_ok w ev (reachable_winv _ Hr) Hev) as [_ [Hc _]]. specialize (IH Hr'). lia.
Qed.

End WithEnv.
