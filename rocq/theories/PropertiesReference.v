(** * The ledger behaves like one that is nothing but its log

    C80 *)
From Verif Require Import Base Types Codec CodecFacts State Ledger Canister Effects Spec ApiSpec AnswerSpec
  RefLedger Inv Steps World CallFacts CallCases StepFacts AllowFacts RefundFacts AsyncFacts EventFacts DedupFacts
  PropertiesLog PropertiesDedup PropertiesCalls PropertiesAuth PropertiesPrune PropertiesOrder
  PropertiesAnswers PropertiesIndexer PropertiesExposure PropertiesControl CreateFacts PropertiesTwin Demo.

Section WithEnv.
Context `{Env}.

(** ** The log of a state *)
Lemma write_recorded now t s : inv now s -> blocks (recorded now t s) = write (blocks s) now t.
Proof.
  intros Hi. rewrite recorded_blocks. unfold write, mk_block.
  change (fee_field (tx_op t)) with (effective_fee (tx_op t)).
  pose proof (inv_phash _ _ Hi) as Hp. unfold block_hash in Hp. by rewrite <- Hp.
Qed.
Lemma funds_eq now s a : inv now s -> funds_of (blocks s) a = balance_of s a.
Proof.
  intros Hi. unfold funds_of. rewrite <- (inv_balance _ _ Hi). unfold balance_of. lia.
Qed.

Lemma zsum_change K b :
  NoDup K -> (forall k, k ∈ mentioned b -> k ∈ K) ->
  (zsum (fun k => Z.of_N (given b k)) K - zsum (fun k => Z.of_N (taken b k)) K = supply_change b)%Z.
Proof.
  intros Hnd Hin. unfold supply_change, given, taken, mentioned in *.
  destruct (tx_op (b_tx b)); rewrite ?zsum_zero, ?zsum_if; try done; try (apply Hin; set_solver); lia.
Qed.
Lemma zsum_log K bs :
  NoDup K -> (forall b k, b ∈ bs -> k ∈ mentioned b -> k ∈ K) -> zsum (log_balance bs) K = log_supply bs.
Proof.
  intros Hnd. induction bs as [|b bs IH]; intros Hin.
  - cbn. clear. induction K; done.
  - cbn. fold (log_supply bs). rewrite zsum_add, zsum_sub, IH, zsum_change; [done|done|..].
    + intros k. apply Hin. left.
    + intros b' k Hb'. apply Hin. by right.
Qed.
Lemma supply_eq now s : inv now s -> supply_of (blocks s) = total_supply s.
Proof.
  intros Hi. destruct (inv_supply _ _ Hi) as [Hsum _]. unfold supply_of.
  set (K := remove_dups (concat (map mentioned (blocks s)))).
  assert (forall b k, b ∈ blocks s -> k ∈ mentioned b -> k ∈ K) as HK.
  { intros b k Hb Hk. apply elem_of_remove_dups, elem_of_list_In, in_concat.
    exists (mentioned b). split; [|by apply elem_of_list_In]. apply in_map. by apply elem_of_list_In. }
  rewrite <- (zsum_log K (blocks s) (NoDup_remove_dups _) HK).
  rewrite Hsum, (map_sum_keys (balances s) K (NoDup_remove_dups _)).
  - clear -Hi. assert (zsum (log_balance (blocks s)) K = Z.of_N (sum_over (bal s) K)) as ->; [|apply N2Z.id].
    induction K as [|k K IH]; [done|]. cbn.
    fold (zsum (log_balance (blocks s)) K) (sum_over (bal s) K). rewrite IH, <- (inv_balance _ _ Hi). lia.
  - intros k Hk. destruct (log_balance_mentioned (blocks s) k) as (b & Hb & Hm); [|by eapply HK].
    rewrite <- (inv_balance _ _ Hi). unfold bal. lia.
Qed.

Lemma other_spender_eq from sp : other_spender from sp = third_party from sp.
Proof.
  unfold other_spender, third_party, acct_eqb. destruct sp as [x|]; [|done].
  destruct (decide (to_key x = to_key from)); [by rewrite bool_decide_eq_true_2|by rewrite bool_decide_eq_false_2].
Qed.

(** ** Refunds *)
Lemma still_valid_eq old now : approval_still_valid old now = bool_decide (unexpired now old).
Proof.
  unfold approval_still_valid. destruct old as [e|]; simpl; [|done].
  destruct (N.ltb_spec now e); symmetry; [apply bool_decide_eq_true_2|apply bool_decide_eq_false_2]; lia.
Qed.
Lemma ref_refund now s from sp returned m old :
  inv now s -> is_u64 now -> wf_account from -> wf_acct_opt sp -> is_u128 returned ->
  (forall e, old = Some e -> 0 < e /\ is_u64 e) ->
  (forall x, third_party from sp = Some x ->
     owner from <> owner x /\ owner from <> MANAGEMENT_CANISTER /\ owner x <> MANAGEMENT_CANISTER) ->
  validate_memo (Some m) = true ->
  (forall k a, log_allowance (blocks s) k <> Some (a, Some now)) ->
  (forall x b, third_party from sp = Some x -> FEE < returned - FEE -> b ∈ blocks s ->
     ~ hash_clash (b_tx b) (restoring s now from x (returned - FEE) old)) ->
  returned - FEE <> 0 ->
  match refund_outcome from sp (returned - FEE) m old now s with
  | Some (s', fb, ab) => give_back (blocks s) now from sp returned m old = Some (blocks s', Some fb, ab)
  | None => give_back (blocks s) now from sp returned m old = None
  end.
Proof.
  intros Hi Hu Hf Hsp Hret Hold Hown Hm Hq Hcl Hnz.
  unfold give_back. change 100000000 with FEE.
  destruct (N.leb_spec returned FEE); [lia|]. rewrite (supply_eq _ _ Hi), other_spender_eq.
  set (n := returned - FEE) in *. assert (is_u128 n) as Hn by (eapply is_u128_le; [|exact Hret]; lia).
  unfold refund_outcome. change (2 ^ 128) with U128_MOD.
  assert (reimburse_decide from n m s
          = if U128_MOD <=? total_supply s + n then OTrap TrapReimburse else OOk tt) as Ed.
  { unfold reimburse_decide. rewrite Hm. simpl.
    pose proof (supply_bal s (to_key from) (inv_supply _ _ Hi)) as Hb. fold (balance_of s from) in Hb.
    destruct (N.leb_spec U128_MOD (total_supply s + n)); [by rewrite orb_true_r|].
    destruct (N.leb_spec U128_MOD (balance_of s from + n)); [lia|done]. }
  destruct (U128_MOD <=? total_supply s + n); rewrite Ed; [done|].
  pose proof (reimburse_decide_ok from n m now s Ed Hf Hn) as Hok. fold (refund_tx from n m) in Hok.
  pose proof (prims_inv _ _ _ Hu Hi (refunded_prims _ _ _ _ _ Hi Hu Ed Hf Hn)) as Hi1.
  pose proof (refunded_balance from n m now s from Hok) as Hbal.
  pose proof (refunded_blocks from n m now s) as B1.
  pose proof (refunded_allowance from n m now s) as Hall.
  assert (blocks (refunded from n m now s) = write (blocks s) now (Tx (Mint from n 0) None (Some m))) as Hw1.
  { rewrite <- (write_recorded now _ s Hi), recorded_blocks. exact B1. }
  set (r := refunded from n m now s) in *. clearbody r.
  destruct (third_party from sp) as [x|] eqn:Ex; [|by rewrite Hw1].
  rewrite <- still_valid_eq. destruct ((FEE <? n) && approval_still_valid old now) eqn:Ec; [|by rewrite Hw1].
  assert (FEE < n) as Hfee by lia.
  assert (usable s now from x = allowed (blocks s) now from x) as Hus by (by apply (usable_live_inv now)).
  assert (icrc2_allowance r now from x = usable s now from x) as Ea.
  { destruct (Hall x Hi Hu Hok) as [->|[a Ha]]; [done|exfalso].
    rewrite icrc2_allowance_view in Ha. unfold view in Ha.
    destruct (inv_allow _ _ Hi1 (approval_key from x)) as [A1 _].
    destruct (approvals r !! approval_key from x) as [[a' e']|]; [|done].
    destruct ((0 <? e') && (e' <? now)); [done|]. injection Ha as <- Ee. specialize (A1 _ _ eq_refl). rewrite Ee in A1.
    revert A1. rewrite B1. apply quiet_step; [done|]. intros k' a. done. }
  assert (restore_tx from x (n - FEE) old now r = restoring s now from x n old) as Ert.
  { unfold restore_tx, restoring. by rewrite restore_amount_api, restore_expiry_api, Ea. }
  destruct (Hown x eq_refl) as (Ho1 & Ho2 & Ho3).
  assert (restore_decide from x (n - FEE) old now r
    = if default REMOTE_FUTURE (restore_expiry from x old now r) <=? now then OErr (AExpired now) else OOk tt) as Erd.
  { unfold restore_decide, approve_decide. fold (restore_tx from x (n - FEE) old now r).
    assert (tx_hashes r !! txh (restore_tx from x (n - FEE) old now r) = None) as ->.
    { apply (unstamped_unknown now); [done|done| |done|].
      - unfold restore_tx. simpl. apply third_party_Some in Ex as [-> _]. split; [done|]. split; [done|].
        split; [apply u128_sat_add_lt|]. split; [done|]. split; [|done].
        unfold restore_expiry. destruct (0 <? (allowance r from x now).2); simpl; [by apply allowance_u64|].
        destruct old as [e|]; [|done]. by apply Hold.
      - intros b Hin Hst. rewrite B1 in Hin. apply elem_of_app in Hin as [Hin|Hin%elem_of_list_singleton].
        + rewrite Ert. by apply Hcl.
        + by rewrite Hin in Hst. }
    rewrite bool_decide_eq_false_2 by done.
    assert (forall p, p <> MANAGEMENT_CANISTER -> is_denied p = false) as Hden.
    { intros p Hp'. unfold is_denied. by case_bool_decide. }
    rewrite !Hden by done. simpl.
    assert (if_acct from from n = n) as Ei by (unfold if_acct; by rewrite decide_True).
    rewrite Ei in Hbal. destruct (N.ltb_spec (balance_of r from) FEE); [lia|]. done. }
  rewrite Erd, restore_expiry_api, Ea, Hus. unfold restoring in Ert. rewrite Hus in Ert.
  destruct (allowed (blocks s) now from x) as [a e]. cbn [fst snd] in *.
  change (2 ^ 64 - 1) with REMOTE_FUTURE.
  assert (match e with Some e0 => Some e0 | None => old end = match e with Some _ => e | None => old end) as -> by (by destruct e).
  match goal with |- context [if ?b then OErr _ else OOk _] => destruct b end; [done|]. rewrite Ert, <- Hw1. unfold len, nblocks.
  match goal with |- context [tx_effect now ?t r] => set (t0 := t) end.
  assert (blocks (tx_effect now t0 r) = write (blocks r) now t0) as ->.
  { rewrite <- (write_recorded now t0 r Hi1). symmetry.
    destruct (prune_state_core now (tx_effect now t0 r)) as (E & _). exact E. }
  subst t0. destruct e; reflexivity.
Qed.

(** A waiting call as the ledger keeps it *)
Definition shape (x : waiting) : option pending :=
  let '(Wait caller c i old) := x in
  match c with
  | CallWithdraw sub to _ amount => Some (PWithdraw false (Acct caller sub) to None amount i old)
  | CallWithdrawFrom sub from to _ amount =>
      Some (PWithdraw true from to (Some (Acct caller sub)) amount i old)
  | CallCreateCanister sub created amount args =>
      Some (PCreate false (Acct caller sub) None amount i old created (cmc_argument caller args))
  | CallCreateCanisterFrom from sub created amount args =>
      Some (PCreate true from (Some (Acct caller sub)) amount i old created (cmc_argument caller args))
  | _ => None
  end.

Lemma ref_resume now caller c i old p ans s0 s k s' r :
  inv now s -> is_u64 now -> pend_ok s p -> ans_u128 ans ->
  shape (Wait caller c i old) = Some p -> resume now p ans = Some k ->
  (forall k a, log_allowance (blocks s) k <> Some (a, Some now)) ->
  (forall x returned code b, third_party (p_from p) (p_spender p) = Some x ->
     answer_returned (pending_amount p) ans = Some (returned, code) -> FEE < returned - FEE -> b ∈ blocks s ->
     ~ hash_clash (b_tx b) (restoring s now (p_from p) x (returned - FEE) (p_old p))) ->
  commit s0 (k s) = (s', r) ->
  match answer_returned (pending_amount p) ans with
  | None => r = replied (in_the_end i c ans) /\ blocks s' = blocks s
  | Some (returned, code) =>
      match give_back (blocks s) now (p_from p) (p_spender p) returned (mark_of c) old with
      | Some (bs', fb, ab) => blocks s' = bs' /\ r = replied (failed_reply c i fb ab code)
      | None => s' = s0 /\ exists t, r = RespTrap t
      end
  end.
Proof.
  intros Hi Hu Hpo Hans Hsh Hre Hq Hcl Hc.
  pose proof (inv_supply _ _ Hi) as Hs.
  assert (p_old p = old) as Eold by (destruct c; simpl in Hsh; try done; by injection Hsh as <-).
  destruct p as [ep from to sp amount i' old'|ep from sp amount i' old' created arg];
    destruct ans as [r0|r0]; cbn [resume] in Hre; try done;
    match type of Hre with Some ?a = _ => assert (k = a) as -> by congruence end; clear Hre;
    cbn [p_from p_spender pending_amount p_old] in *; subst old'.
  - destruct Hpo as (_ & _ & cr & Hf & Hsp & Ha & _ & Hown & _ & Hold).
    assert (i' = i /\ mark_of c = PENALIZE_MEMO) as [-> Hmk] by (destruct c; simpl in Hsh; try done; injection Hsh as <- <- <- <- <- <-; done).
    destruct r0 as [[]|e]; cbn [answer_returned].
    { destruct c; simpl in Hsh; try done; injection Hsh as <- <- <- <- <-; simpl in Hc; injection Hc as <- <-; done. }
    destruct (withdraw_rest_eq ep from sp amount i old now e s0 s Hs) as [x Hx].
    rewrite Hx in Hc. unfold wd_fail_rest in Hc. rewrite Hmk.
    assert (forall fb ab, RespReply (wd_failed_reply ep (WFFailedToWithdrawFrom (Some i) fb ab (call_error_to_reject e)))
      = replied (failed_reply c i fb ab (reported_code e))) as Hrep.
    { intros fb ab. rewrite <- reported_code_eq. destruct c; simpl in Hsh; try done; injection Hsh as <- <- <- <- <-; done. }
    destruct (N.eqb_spec (amount - FEE) 0) as [E|E].
    { injection Hc as <- <-. unfold give_back. change 100000000 with FEE. destruct (N.leb_spec amount FEE); [|lia].
      split; [done|]. apply Hrep. }
    pose proof (ref_refund now s from sp amount PENALIZE_MEMO old Hi Hu Hf Hsp) as Hr.
    assert (is_u128 amount) as Hn by (unfold is_u128; lia).
    specialize (Hr Hn Hold Hown eq_refl Hq).
    assert (forall x b, third_party from sp = Some x -> FEE < amount - FEE -> b ∈ blocks s ->
      ~ hash_clash (b_tx b) (restoring s now from x (amount - FEE) old)) as Hcl'.
    { intros y b Hy Hfee Hb. by apply (Hcl y amount (reported_code e) b). }
    specialize (Hr Hcl' E).
    destruct (refund_outcome from sp (amount - FEE) PENALIZE_MEMO old now s) as [[[s2 fb] ab]|];
      rewrite Hr; injection Hc as <- <-; [|eauto]. split; [done|]. apply Hrep.
  - destruct Hpo as (_ & Hf & Hsp & Ha & _ & Hown & _ & Hold).
    assert (i' = i /\ mark_of c = REFUND_MEMO) as [-> Hmk] by (destruct c; simpl in Hsh; try done; injection Hsh as <- <- <- <- <- <- <-; done).
    destruct (create_rest_eq ep from sp amount i old created now r0 s0 s Hs) as [x Hx].
    rewrite Hx in Hc. cbn [answer_returned].
    destruct (flat_create_result amount r0) as [cn|[code n]] eqn:Ef.
    { assert (r0 = Ok (Ok cn)) as -> by (destruct r0 as [[|[]]|]; simpl in *; congruence). cbn [cmc_returned].
      injection Hc as <- <-. split.
      - destruct c; simpl in Hsh; try done; injection Hsh as <- <- <- <- <- <-; done.
      - unfold note_canister. by destruct (tx_hashes s !! _). }
    assert (answer_returned amount (AnsCmc r0) = Some (n, code)) as Hret.
    { destruct r0 as [[|[]]|]; simpl in *; rewrite ?reported_code_eq; congruence. }
    assert (is_u128 n) as Hn.
    { eapply wf_refund_n; [| |exact Ef]; [unfold is_u128; lia|]. destruct r0 as [[|[]]|]; done. }
    cbn [answer_returned] in Hret, Hcl. rewrite Hret, Hmk.
    assert (forall fb ab, RespReply (cr_failed_reply ep (CFFailedToCreateFrom (Some i) fb ab code))
      = replied (failed_reply c i fb ab code)) as Hrep.
    { intros fb ab. destruct c; simpl in Hsh; try done; injection Hsh as <- <- <- <- <- <-; done. }
    unfold cr_fail_rest in Hc. destruct (N.eqb_spec (n - FEE) 0) as [E|E].
    { injection Hc as <- <-. unfold give_back. change 100000000 with FEE. destruct (N.leb_spec n FEE); [|lia].
      split; [done|]. apply Hrep. }
    pose proof (ref_refund now s from sp n REFUND_MEMO old Hi Hu Hf Hsp Hn Hold Hown eq_refl Hq) as Hr.
    assert (forall x b, third_party from sp = Some x -> FEE < n - FEE -> b ∈ blocks s ->
      ~ hash_clash (b_tx b) (restoring s now from x (n - FEE) old)) as Hcl'.
    { intros y b Hy Hfee Hb. by apply (Hcl y n code b). }
    specialize (Hr Hcl' E).
    destruct (refund_outcome from sp (n - FEE) REFUND_MEMO old now s) as [[[s2 fb] ab]|];
      rewrite Hr; injection Hc as <- <-; [|eauto]. split; [done|]. apply Hrep.
Qed.

(** ** Duplicates *)
Lemma done_before_known now s t :
  inv now s -> is_u64 now -> wf_op (tx_op t) -> wf_u64_opt (tx_created_at t) ->
  (forall b, b ∈ blocks s -> ~ hash_clash (b_tx b) t) ->
  match done_before (blocks s) t with
  | Some i => (exists x, tx_hashes s !! txh t = Some (i, x))
              \/ (tx_hashes s !! txh t = None /\ too_long_ago (tx_created_at t) now)
  | None => tx_hashes s !! txh t = None
  end.
Proof.
  intros Hi Hu Hw Hc Hn. unfold done_before.
  assert (forall i b, blocks s !! i = Some b -> txh (b_tx b) = txh t -> b_tx b = t) as Heq.
  { intros i b Hb Hh. destruct (inv_blk _ _ Hi _ _ Hb) as [((Hw1 & Hw2 & _) & _) _].
    destruct (same_hash _ _ Hw1 Hw2 Hw Hc Hh) as [?|Hcl]; [done|]. destruct (Hn b); [|done].
    by eapply elem_of_list_lookup_2. }
  destruct (tx_hashes s !! txh t) as [[i x]|] eqn:E.
  - destruct (inv_hashes _ _ Hi _ _ _ E) as [(b1 & Hb1 & Hh1) (ts & j & b & Hj & Hb & Hh)].
    destruct (inv_ts _ _ Hi _ _ Hj) as (b' & e & Hb' & Ht & _). rewrite Hb in Hb'. injection Hb' as <-.
    pose proof (Heq _ _ Hb Hh) as T. pose proof (Heq _ _ Hb1 Hh1) as T1. rewrite <- T, Ht, T.
    destruct (list_find (fun b => b_tx b = t) (blocks s)) as [[j' b']|] eqn:El.
    + apply list_find_Some in El as (Hb' & T' & _). cbn. left. exists x. repeat f_equal.
      pose proof (inv_unique _ _ Hi _ _ _ _ Hb1 Hb' ltac:(congruence) ltac:(congruence)) as Eu. lia.
    + exfalso. apply list_find_None in El. rewrite Forall_lookup in El. by eapply El.
  - destruct (tx_created_at t) as [ts|] eqn:Et; [|done].
    destruct (list_find (fun b => b_tx b = t) (blocks s)) as [[j' b']|] eqn:El; [|done]. cbn. right. split; [done|].
    apply list_find_Some in El as (Hb' & T' & _).
    pose proof (dup_or_old now s t Hi Hu Hw) as D. rewrite Et in D. specialize (D Hc Hn).
    destruct (proj2 D) as [[? Hx]|]; [|congruence|done]. left. exists b'.
    split; [by eapply elem_of_list_lookup_2|]. done.
Qed.

(** ** Refusals *)
(** What the reference says and what the ledger may say *)
Definition says_like (ran_out : Prop) (r r' : refusal) : Prop :=
  r' = r \/ (r = NoAllowance 0 /\ r' = AllowanceExpired /\ ran_out).
Fixpoint tracks (ran_out old : Prop) (os : list (option refusal)) (rs : list (Prop * (refusal -> Prop))) : Prop :=
  match os, rs with
  | [], [] => True
  | o :: os', (cond, reason) :: rs' =>
      match o with
      | Some r => (cond /\ forall r', reason r' -> says_like ran_out r r') \/ (old /\ exists i x, r = AlreadyDone i x)
      | None => ~ cond /\ tracks ran_out old os' rs'
      end
  | _, _ => False
  end.
Lemma tracks_decided ran_out old os rs (told : refusal -> Prop) (other : Prop) :
  tracks ran_out old os rs -> decided rs told other ->
  match first_refusal os with
  | Some r => (exists r', says_like ran_out r r' /\ told r') \/ (old /\ exists i x, r = AlreadyDone i x)
  | None => other
  end.
Proof.
  revert rs. induction os as [|o os IH]; intros [|[cond reason] rs]; cbn [tracks decided first_refusal]; try done.
  destruct o as [r|].
  - intros [[Hc Hr]|Ho] [D _]; [left|by right]. destruct (D Hc) as (r' & ? & ?). exists r'. auto.
  - intros [Hc Ht] [_ D]. apply (IH rs Ht). by apply D.
Qed.

Lemma tracks_refuse (ran_out old : Prop) (b : bool) (cond : Prop) (r : refusal) os rs :
  (b = true -> cond) -> (b = false -> ~ cond) -> (b = false -> tracks ran_out old os rs) ->
  tracks ran_out old (refuse b r :: os) ((cond, eq r) :: rs).
Proof.
  intros H1 H2 H3. cbn [tracks]. destruct b; cbn [refuse].
  - left. split; [by apply H1|]. intros r' <-. by left.
  - split; [by apply H2|by apply H3].
Qed.
(** The canisters that the ledger remembers *)
Definition known (made : gmap N principal) (s : state) : Prop :=
  forall h i x, tx_hashes s !! h = Some (i, x) -> x = made !! i.
Lemma tracks_repeated ran_out (old : Prop) made now s t os rs :
  inv now s -> known made s -> is_u64 now -> wf_op (tx_op t) -> wf_u64_opt (tx_created_at t) ->
  (forall b, b ∈ blocks s -> ~ hash_clash (b_tx b) t) ->
  (too_long_ago (tx_created_at t) now -> old) -> tracks ran_out old os rs ->
  tracks ran_out old (repeated made (blocks s) t :: os) (dup_rule (tx_hashes s !! txh t) :: rs).
Proof.
  intros Hi Hm Hu Hw Hc Hn Ho Ht. pose proof (done_before_known now s t Hi Hu Hw Hc Hn) as Hd.
  unfold repeated, dup_rule. cbn [tracks].
  destruct (done_before (blocks s) t) as [i|]; cbn [fmap option_fmap option_map].
  - destruct Hd as [[x E]|[E Hold]]; [left|right; eauto]. rewrite E. split; [eauto|].
    intros r' (i' & x' & [= <- <-] & ->). left. by rewrite <- (Hm _ _ _ E).
  - rewrite Hd. split; [by intros []|done].
Qed.
Lemma tracks_window ran_out old now created :
  tracks ran_out old (window_checks now created) (time_rules created now).
Proof.
  unfold window_checks, time_rules, too_long_ago, not_yet, DAY, MINUTE. apply tracks_refuse.
  - destruct created as [t|]; [|done]. intros Hl%N.ltb_lt. eauto.
  - destruct created as [t|]; [|by intros _ (? & ? & _)]. intros Hl%N.ltb_ge (? & [= <-] & ?). lia.
  - intros _. apply tracks_refuse; [| |done].
    + destruct created as [t|]; [|done]. intros Hl%N.ltb_lt. eauto.
    + destruct created as [t|]; [|by intros _ (? & ? & _)]. intros Hl%N.ltb_ge (? & [= <-] & ?). lia.
Qed.

Lemma tracks_allowance (ran_out old : Prop) now s from sp n os rs (reason : refusal -> Prop) :
  inv now s -> 0 < n ->
  (forall x r', sp = Some x -> reason r' ->
     r' = NoAllowance (usable s now from x).1
     \/ (r' = AllowanceExpired /\ AnswerSpec.ran_out s now from x /\ ran_out)) ->
  tracks ran_out old os rs ->
  tracks ran_out old (allowance_short (blocks s) now from sp n :: os) ((not_allowed s now from sp n, reason) :: rs).
Proof.
  intros Hi Hn Hr Ht. unfold allowance_short. rewrite other_spender_eq. cbn [tracks].
  destruct (third_party from sp) as [x|] eqn:Ex.
  - apply third_party_Some in Ex as [-> Hne].
    pose proof (usable_live_inv now s now from x Hi ltac:(lia)) as Hus. fold (allowed (blocks s) now from x) in Hus.
    rewrite <- Hus. destruct (N.ltb_spec (usable s now from x).1 n); cbn [refuse].
    + left. split; [by exists x|]. intros r' Hr'. destruct (Hr x r' eq_refl Hr') as [->|(-> & (a & e & Hl & He) & Hro)]; [by left|].
      right. split; [|done]. rewrite Hus. unfold allowed, live_allowance. rewrite Hl.
      destruct (decide (unexpired now (Some e))) as [Hu|]; [simpl in Hu; lia|done].
    + split; [|done]. intros (y & [= <-] & _ & ?). lia.
  - split; [|done]. intros (x & -> & Hne & _).
    pose proof (proj1 (third_party_None from (Some x)) Ex) as Hx. by apply Hne, Hx.
Qed.

Lemma memo_over_spec m : (memo_over_32 m = true -> long_memo m) /\ (memo_over_32 m = false -> ~ long_memo m).
Proof.
  unfold memo_over_32, long_memo. destruct m as [b|]; [|split; [done|by intros _ (? & ? & _)]].
  destruct (Nat.ltb_spec 32 (length b)); split; try done; [eauto|]. intros _ (? & [= <-] & ?). lia.
Qed.
Lemma over_spec o : (over o (2 ^ 128) = true -> huge o) /\ (over o (2 ^ 128) = false -> ~ huge o).
Proof.
  unfold over, huge. destruct o as [n|]; [|split; [done|by intros _ (? & ? & _)]].
  destruct (N.leb_spec (2 ^ 128) n); split; try done; [eauto|]. intros _ (? & [= <-] & ?). lia.
Qed.
Lemma other_fee_spec fee : (other_fee fee = true -> wrong_fee fee) /\ (other_fee fee = false -> ~ wrong_fee fee).
Proof.
  unfold other_fee, wrong_fee. change icrc1_fee with 100000000. destruct fee as [n|]; [|split; [done|by intros _ (? & ? & _)]].
  destruct (N.eqb_spec n 100000000); cbn [negb]; split; try done; [|eauto]. by intros _ (? & [= <-] & ?).
Qed.
Lemma management_spec a : (management a = true -> ~ may_take_part a) /\ (management a = false -> may_take_part a).
Proof. unfold management, may_take_part. case_bool_decide; split; done || tauto. Qed.

Lemma tracks_burn (ran_out old : Prop) made now s t from sp amount created :
  inv now s -> known made s -> is_u64 now -> wf_op (tx_op t) -> wf_u64_opt (tx_created_at t) ->
  (forall b, b ∈ blocks s -> ~ hash_clash (b_tx b) t) -> tx_created_at t = created ->
  (too_long_ago created now -> old) ->
  tracks ran_out old (burn_checks made (blocks s) now t from sp amount created)
    (burn_rules s now (tx_hashes s !! txh t) from sp amount created).
Proof.
  intros Hi Hm Hu Hw Hc Hn Hcr Ho. unfold burn_checks, burn_rules. cbn [app]. cbv zeta.
  unfold icrc1_balance_of. rewrite (funds_eq now) by done. change icrc1_fee with 100000000.
  apply (tracks_repeated _ _ made now); try done; [by rewrite Hcr|].
  apply tracks_refuse; [lia|lia|intros _].
  apply tracks_allowance; [done|lia| |].
  { intros x r' -> (y & [= <-] & ->). by left. }
  apply tracks_refuse; [lia|lia|intros _]. apply tracks_window.
Qed.

(** The allowance as the approval reports it *)
Lemma allowed_reported now s from x :
  inv now s -> (forall k a, log_allowance (blocks s) k <> Some (a, Some now)) ->
  (icrc2_allowance s now from x) = allowed (blocks s) now from x.
Proof.
  intros Hi Hq. pose proof (usable_live_inv now s now from x Hi ltac:(lia)) as Hus.
  unfold allowed. rewrite <- Hus. unfold usable.
  destruct (decide (unexpired now (icrc2_allowance s now from x).2)) as [Hd|Hd];
    destruct (icrc2_allowance s now from x) as [a0 e0] eqn:Ev; cbn [snd] in Hd; [by rewrite decide_True|exfalso].
  rewrite icrc2_allowance_view in Ev. unfold view in Ev.
  destruct (inv_allow _ _ Hi (approval_key from x)) as [A _].
  destruct (approvals s !! approval_key from x) as [[a e]|]; [|injection Ev as <- <-; by apply Hd].
  specialize (A _ _ eq_refl). destruct ((0 <? e) && (e <? now)) eqn:Ee; injection Ev as <- <-; [by apply Hd|].
  unfold exp_opt in *. destruct (N.eqb_spec e 0); [by apply Hd|]. cbn [unexpired] in Hd.
  apply (Hq (approval_key from x) a). rewrite A. repeat f_equal. lia.
Qed.

Lemma tracks_transfer made now s t from to sp amount fee m created :
  inv now s -> known made s -> is_u64 now ->
  (amount < 2 ^ 128 -> ~ huge fee -> wf_op (tx_op t)) -> wf_u64_opt (tx_created_at t) ->
  (forall b, b ∈ blocks s -> ~ hash_clash (b_tx b) t) -> tx_created_at t = created ->
  tracks (exists x, sp = Some x /\ AnswerSpec.ran_out s now from x) (too_long_ago created now)
    (transfer_checks made (blocks s) now t from to sp amount fee m created)
    (transfer_rules s now (tx_hashes s !! txh t) from to sp amount fee m created).
Proof.
  intros Hi Hm Hu Hw Hc Hn Hcr. unfold transfer_checks, transfer_rules. cbn [app]. cbv zeta.
  unfold icrc1_balance_of. rewrite !(funds_eq now) by done. change icrc1_fee with 100000000.
  apply tracks_refuse; [lia|lia|intros Ha].
  apply tracks_refuse; [apply over_spec|apply over_spec|intros Hf].
  apply (tracks_repeated _ _ made now); try done; [apply Hw; [lia|by apply over_spec]|by rewrite Hcr|].
  apply tracks_refuse.
  { intros [[H1|H1]%orb_true_iff|H1]%orb_true_iff; [left; by apply management_spec|right; left; by apply management_spec|].
    right. right. destruct sp as [x|]; [|done]. exists x. split; [done|]. by apply management_spec. }
  { intros [[H1 H2]%orb_false_iff H3]%orb_false_iff. apply management_spec in H1, H2.
    intros [?|[?|(x & -> & Hx)]]; [done|done|]. cbn in H3. apply management_spec in H3. done. }
  intros _. apply tracks_refuse; [apply other_fee_spec|apply other_fee_spec|intros _].
  apply tracks_refuse; [lia|lia|intros _].
  apply tracks_allowance; [done|lia| |].
  { intros x r' -> (y & [= <-] & [->|[-> Hro]]); [by left|]. right. split; [done|]. split; [done|]. eauto. }
  apply tracks_refuse; [lia|lia|intros _].
  apply tracks_refuse; [lia|lia|intros _].
  apply tracks_refuse; [apply memo_over_spec|apply memo_over_spec|intros _]. apply tracks_window.
Qed.

Lemma tracks_approve (ran_out : Prop) made now s t from sp expected expires fee m created :
  inv now s -> known made s -> is_u64 now ->
  (~ huge expected -> ~ huge fee -> wf_op (tx_op t)) -> wf_u64_opt (tx_created_at t) ->
  (forall b, b ∈ blocks s -> ~ hash_clash (b_tx b) t) -> tx_created_at t = created ->
  (forall k a, log_allowance (blocks s) k <> Some (a, Some now)) ->
  tracks ran_out (too_long_ago created now)
    (approve_checks made (blocks s) now t from sp expected expires fee m created)
    (approve_rules s now (tx_hashes s !! txh t) from sp expected expires fee m created).
Proof.
  intros Hi Hm Hu Hw Hc Hn Hcr Hq. unfold approve_checks, approve_rules. cbn [app]. cbv zeta.
  unfold icrc1_balance_of. rewrite !(funds_eq now) by done. rewrite (allowed_reported now) by done.
  change icrc1_fee with 100000000.
  apply tracks_refuse; [apply over_spec|apply over_spec|intros He].
  apply tracks_refuse; [apply over_spec|apply over_spec|intros Hf].
  apply (tracks_repeated _ _ made now); try done; [apply Hw; by apply over_spec|by rewrite Hcr|].
  apply tracks_refuse; [apply bool_decide_eq_true|apply bool_decide_eq_false|intros _].
  apply tracks_refuse.
  { intros [H1|H1]%orb_true_iff; [left|right]; by apply management_spec. }
  { intros [H1 H2]%orb_false_iff. apply management_spec in H1, H2. intros [?|?]; done. }
  intros _. apply tracks_refuse.
  { destruct expected as [e|]; [|done]. destruct (N.eqb_spec e (allowed (blocks s) now from sp).1); [done|]. eauto. }
  { destruct expected as [e|]; [|by intros _ (? & ? & _)].
    destruct (N.eqb_spec e (allowed (blocks s) now from sp).1); [|done]. by intros _ (? & [= <-] & ?). }
  intros _. apply tracks_refuse; [apply other_fee_spec|apply other_fee_spec|intros _].
  apply tracks_refuse; [lia|lia|intros _].
  apply tracks_refuse; [by intros ?%N.leb_le|by intros ?%N.leb_gt ?%N.le_ngt|intros _].
  apply tracks_refuse; [apply memo_over_spec|apply memo_over_spec|intros _]. apply tracks_window.
Qed.

Lemma tracks_call made now s caller c :
  inv now s -> known made s -> is_u64 now -> wf_principal caller -> wf_call c ->
  (forall k a, log_allowance (blocks s) k <> Some (a, Some now)) ->
  (forall b, b ∈ blocks s -> ~ hash_clash (b_tx b) (requested caller c)) ->
  tracks (exists from x, draws_on caller c = Some (from, x) /\ AnswerSpec.ran_out s now from x)
    (too_long_ago (created_of c) now)
    (checks made (blocks s) now caller c)
    (rules s now caller c (tx_hashes s !! txh (requested caller c))).
Proof.
  intros Hi Hm Hu Hcl Hwf Hq Hn.
  assert (checkable c -> wf_op (tx_op (requested caller c)) /\ wf_u64_opt (tx_created_at (requested caller c))) as Hw.
  { intros Hch. by apply checkable_wf. }
  assert (wf_u64_opt (tx_created_at (requested caller c))) as Hc by (destruct c; [done|apply Hwf..]).
  assert (forall (RO RO' old : Prop) os rs, (RO -> RO') -> tracks RO old os rs -> tracks RO' old os rs) as Hmono.
  { intros RO RO' old os. induction os as [|o os IH]; intros [|[cond reason] rs] HR; try done. cbn [tracks].
    destruct o as [r|].
    - intros [[? Hr]|?]; [left|by right]. split; [done|]. intros r' Hr'.
      destruct (Hr r' Hr') as [?|(? & ? & ?)]; [by left|]. right. auto.
    - intros [? ?]. split; [done|]. by apply IH. }
  destruct c as [cycles to m|sub to amount fee m created|sub from to amount fee m created
    |sub sp amount expected expires fee m created|sub to created amount|sub from to created amount
    |sub created amount args|from sub created amount args]; cbn [checks rules created_of draws_on] in *.
  - unfold deposit_checks, deposit_rules. change icrc1_fee with 100000000. unfold icrc1_total_supply.
    rewrite (supply_eq now) by done.
    apply tracks_refuse; [lia|lia|intros _]. apply tracks_refuse; [lia|lia|intros _].
    apply tracks_refuse; [apply memo_over_spec|apply memo_over_spec|done].
  - eapply Hmono; [|apply tracks_transfer; try done]; [by intros (? & ? & _)|].
    intros Ha Hf. apply Hw. split; [exact Ha|]. destruct fee as [f|]; [|done]. simpl.
    destruct (N.lt_ge_cases f U128_MOD); [done|]. destruct Hf. by exists f.
  - eapply Hmono; [|apply tracks_transfer; try done]; [intros (x & [= <-] & ?); eauto|].
    intros Ha Hf. apply Hw. split; [exact Ha|]. destruct fee as [f|]; [|done]. simpl.
    destruct (N.lt_ge_cases f U128_MOD); [done|]. destruct Hf. by exists f.
  - apply tracks_approve; try done.
    intros He Hf. apply Hw. split.
    + destruct expected as [f|]; [|done]. simpl. destruct (N.lt_ge_cases f U128_MOD); [done|]. destruct He. by exists f.
    + destruct fee as [f|]; [|done]. simpl. destruct (N.lt_ge_cases f U128_MOD); [done|]. destruct Hf. by exists f.
  - unfold withdraw_checks, withdraw_rules. cbn [app]. unfold icrc1_balance_of. rewrite (funds_eq now) by done.
    apply tracks_refuse; [lia|lia|intros Ha].
    apply tracks_refuse; [apply bool_decide_eq_true|apply bool_decide_eq_false|intros Hsa%bool_decide_eq_false].
    apply tracks_refuse; [lia|lia|intros Hz]. apply tracks_burn; try done. apply Hw.
    split; [unfold U128_MOD; lia|]. split; [lia|]. by apply not_self_auth.
  - unfold withdraw_checks, withdraw_rules. cbn [app]. unfold icrc1_balance_of. rewrite (funds_eq now) by done.
    apply tracks_refuse; [lia|lia|intros Ha].
    apply tracks_refuse; [apply bool_decide_eq_true|apply bool_decide_eq_false|intros Hsa%bool_decide_eq_false].
    apply tracks_refuse; [lia|lia|intros Hz]. apply tracks_burn; try done. apply Hw.
    split; [unfold U128_MOD; lia|]. split; [lia|]. by apply not_self_auth.
  - unfold create_checks, create_rules. unfold icrc1_balance_of. rewrite (funds_eq now) by done.
    apply tracks_refuse; [lia|lia|intros Ha]. apply tracks_burn; try done. apply Hw. cbn [checkable]. unfold U128_MOD; lia.
  - unfold create_checks, create_rules. unfold icrc1_balance_of. rewrite (funds_eq now) by done.
    apply tracks_refuse; [lia|lia|intros Ha]. apply tracks_burn; try done. apply Hw. cbn [checkable]. unfold U128_MOD; lia.
Qed.

(** ** The canisters that were created *)
Lemma prune_hashes now s h v : tx_hashes (prune_state now s) !! h = Some v -> tx_hashes s !! h = Some v.
Proof.
  assert (forall limit s, tx_hashes (prune_transactions now limit s) !! h = Some v -> tx_hashes s !! h = Some v) as Hp.
  { clear s. induction limit as [|l IH]; intros s; [done|]. cbn [prune_transactions].
    destruct (first_timestamp s) as [[ts j]|]; [|done]. destruct (negb _); [done|]. intros Hx%IH.
    unfold prune_tx_hash in Hx. cbn [blocks set_tx_timestamps] in Hx.
    destruct (blocks s !! N.to_nat j) as [b|]; [|done]. destruct (tx_hash (b_tx b)) as [th|]; [|done].
    assert (delete th (tx_hashes s) !! h = Some v) as Hd.
    { cbn [tx_hashes set_tx_timestamps] in Hx. destruct (tx_hashes s !! th) as [[f x]|]; [|done].
      by destruct (f =? j). }
    apply lookup_delete_Some in Hd. tauto. }
  unfold prune_state. intros Hx.
  assert (tx_hashes (prune_transactions now TRANSACTION_PRUNE_LIMIT (prune_approvals now APPROVE_PRUNE_LIMIT s)) !! h = Some v) as Hy.
  { revert Hx. generalize (prune_transactions now TRANSACTION_PRUNE_LIMIT (prune_approvals now APPROVE_PRUNE_LIMIT s)).
    intros s1. unfold check_invariants. destruct (_ <? _)%nat; intros Hx; exact Hx. }
  apply Hp in Hy. destruct (prune_approvals_hashes now APPROVE_PRUNE_LIMIT s) as [_ E]. rewrite E in Hy. exact Hy.
Qed.
Lemma known_recorded made now t s :
  known made s -> made !! nblocks s = None -> known made (recorded now t s).
Proof.
  intros Hm Hn h i x Hx. unfold recorded in Hx. apply prune_hashes in Hx.
  destruct (tx_effect_fields now t s) as (_ & Hth & _). rewrite Hth in Hx.
  destruct (tx_created_at t); [|by eapply Hm]. apply lookup_insert_Some in Hx as [[_ [= <- <-]]|[_ Hx]]; [done|by eapply Hm].
Qed.
Lemma refund_hashes from sp n m old now s s' fb ab h v :
  refund_outcome from sp n m old now s = Some (s', fb, ab) ->
  tx_hashes s' !! h = Some v -> tx_hashes s !! h = Some v.
Proof.
  unfold refund_outcome. destruct (reimburse_decide from n m s) as [[]| |]; [|done|done].
  assert (tx_hashes (refunded from n m now s) !! h = Some v -> tx_hashes s !! h = Some v) as Hr.
  { intros Hx. unfold refunded in Hx. apply prune_hashes, prune_hashes in Hx.
    destruct (tx_effect_fields now (refund_tx from n m) s) as (_ & Hth & _). rewrite Hth in Hx. exact Hx. }
  destruct (third_party from sp) as [y|]; [|intros [= <- _ _]; exact Hr].
  destruct ((FEE <? n) && approval_still_valid old now); [|intros [= <- _ _]; exact Hr].
  destruct (restore_decide _ _ _ _ _ _) as [[]| |]; [|done|done]. intros [= <- _ _] Hx. apply Hr.
  destruct (tx_effect_fields now (restore_tx from y (n - FEE) old now (refunded from n m now s))
    (refunded from n m now s)) as (_ & Hth & _). rewrite Hth in Hx. exact Hx.
Qed.
Lemma known_resume made now caller c i old p ans s0 s k s' r :
  inv now s -> pend_ok s p -> shape (Wait caller c i old) = Some p -> resume now p ans = Some k ->
  commit s0 (k s) = (s', r) -> known made s -> known made s0 ->
  known (match new_canister ans with Some q => <[i := q]> made | None => made end) s'.
Proof.
  intros Hi Hpo Hsh Hre Hc Hm Hm0. pose proof (inv_supply _ _ Hi) as Hs.
  destruct p as [ep from to sp amount i' old'|ep from sp amount i' old' created arg];
    destruct ans as [r0|r0]; cbn [resume] in Hre; try done;
    match type of Hre with Some ?a = _ => assert (k = a) as -> by congruence end; clear Hre; cbn [new_canister].
  - destruct r0 as [[]|e].
    { assert (s' = s) as -> by (destruct ep; simpl in Hc; injection Hc as <- <-; done). done. }
    destruct (withdraw_rest_eq ep from sp amount i' old' now e s0 s Hs) as [x Hx].
    rewrite Hx in Hc. unfold wd_fail_rest in Hc. destruct (amount - FEE =? 0); [by injection Hc as <- _|].
    destruct (refund_outcome _ _ _ _ _ _ _) as [[[s2 fb] ab]|] eqn:Er; injection Hc as <- _; [|done].
    intros h j x' Hx'. eapply Hm. by eapply refund_hashes.
  - destruct Hpo as (_ & _ & _ & _ & (b & Hb & Ht) & _).
    assert (i' = i) as -> by (destruct c; simpl in Hsh; try done; injection Hsh as <- <- <- <- <- <- <-; done).
    destruct (create_rest_eq ep from sp amount i old' created now r0 s0 s Hs) as [x Hx]. rewrite Hx in Hc.
    destruct (flat_create_result amount r0) as [cn|[code n]] eqn:Ef.
    { assert (r0 = Ok (Ok cn)) as -> by (destruct r0 as [[|[]]|]; simpl in *; congruence). cbn [cmc_returned].
      injection Hc as <- _. unfold note_canister. rewrite <- Ht.
      destruct (tx_hashes s !! txh (b_tx b)) as [[i0 x0]|] eqn:E.
      - intros h j y Hy. cbn [tx_hashes set_tx_hashes] in Hy. apply lookup_insert_Some in Hy as [[_ [= <- <-]]|[Hne Hy]].
        { by rewrite lookup_insert. }
        rewrite lookup_insert_ne; [by eapply Hm|]. intros ->.
        destruct (inv_hashes _ _ Hi _ _ _ Hy) as [(b' & Hb' & Hh) _]. congruence.
      - intros h j y Hy. rewrite lookup_insert_ne; [by eapply Hm|]. intros ->.
        destruct (inv_hashes _ _ Hi _ _ _ Hy) as [(b' & Hb' & Hh) _]. congruence. }
    assert (new_canister (AnsCmc r0) = None) as Hnc by (destruct r0 as [[|[]]|]; done). cbn [new_canister] in Hnc. rewrite Hnc.
    unfold cr_fail_rest in Hc. destruct (n - FEE =? 0); [by injection Hc as <- _|].
    destruct (refund_outcome _ _ _ _ _ _ _) as [[[s2 fb] ab]|] eqn:Er; injection Hc as <- _; [|done].
    intros h j x' Hx'. eapply Hm. by eapply refund_hashes.
Qed.

(** ** The relation *)
Record keeps (w : world) (k : book) : Prop := Keeps {
  kp_log : bk_log k = blocks (w_led w);
  kp_next : bk_next k = w_next w;
  kp_cycles : bk_cycles k = w_cycles w;
  kp_wait : forall id,
    match bk_wait k !! id with
    | Some x => exists p, shape x = Some p /\ w_pend w !! id = Some p
    | None => w_pend w !! id = None
    end;
  kp_made : known (bk_made k) (w_led w);
  kp_range : forall i, is_Some (bk_made k !! i) -> i < len (blocks (w_led w))
}.

Lemma keeps_same w w' k : keeps w k -> unchanged w w' -> keeps w' k.
Proof.
  intros [H1 H2 H3 H4 H5 H6] (E1 & E2 & E3 & E4 & _). constructor; rewrite ?E1, ?E2, ?E3, ?E4; done.
Qed.

Lemma old_used now s from sp :
  inv now s -> (forall k a, log_allowance (blocks s) k <> Some (a, Some now)) ->
  match other_spender from sp with Some x => (allowed (blocks s) now from x).2 | None => None end
  = used_expiry s now from sp.
Proof.
  intros Hi Hq. unfold other_spender, used_expiry. destruct sp as [x|]; [|done].
  destruct (decide (to_key x = to_key from)); [done|]. by rewrite <- (allowed_reported now s from x).
Qed.

Lemma pending_shape now caller c s p :
  pending_of now caller c s = Some p -> shape (Wait caller c (nblocks s) (p_old p)) = Some p.
Proof. destruct c; simpl; try done; intros [= <-]; done. Qed.

Lemma write_quiet now bs t k :
  (forall a, log_allowance bs k <> Some (a, Some now)) -> (forall f x a e1 e2 fee, tx_op t <> Approve f x a e1 e2 fee) ->
  forall a, log_allowance (write bs now t) k <> Some (a, Some now).
Proof.
  intros Hq Ht. unfold write. apply quiet_step; [done|]. intros k' a. unfold approved_by. cbn [b_tx].
  destruct (tx_op t) eqn:E; try done. by destruct (Ht _ _ _ _ _ _ eq_refl).
Qed.

(** At the end of the clock nothing can be given back to a spender *)
Lemma give_back_late now s t from x amount mark old :
  inv now s -> now + 1 = 2 ^ 64 -> (forall f y a e1 e2 fee, tx_op t <> Approve f y a e1 e2 fee) ->
  to_key x <> to_key from -> 2 * 100000000 < amount ->
  unexpired now old -> (forall e, old = Some e -> e < 2 ^ 64) ->
  give_back (write (blocks s) now t) now from (Some x) amount mark old = None.
Proof.
  intros Hi Hnow Ht Hne Ha Hun Hold.
  assert (old = None) as ->.
  { destruct old as [e|]; [|done]. specialize (Hold e eq_refl). cbn [unexpired] in Hun. lia. }
  assert ((allowed (write (blocks s) now t) now from x).2 = None) as He.
  { unfold allowed, live_allowance. destruct (log_allowance _ _) as [[a [e|]]|] eqn:E; [|by case_decide|done].
    destruct (decide (unexpired now (Some e))) as [Hu|]; [exfalso|done]. cbn [unexpired] in Hu.
    apply log_expiry in E as (b & k' & a' & Hb & Hap). unfold write in Hb.
    apply elem_of_app in Hb as [Hb|Hb%elem_of_list_singleton].
    - apply elem_of_list_lookup in Hb as [j Hb]. destruct (inv_blk _ _ Hi _ _ Hb) as [((Hw & _) & _) _].
      unfold approved_by in Hap. destruct (tx_op (b_tx b)); try done. injection Hap as _ _ ->.
      destruct Hw as (_ & _ & _ & _ & Hx & _). simpl in Hx. unfold is_u64, U64_MOD in Hx. lia.
    - subst b. unfold approved_by in Hap. cbn [b_tx] in Hap. destruct (tx_op t) eqn:Eo; try done. by destruct (Ht _ _ _ _ _ _ eq_refl). }
  unfold give_back. destruct (N.leb_spec amount 100000000); [lia|].
  destruct (2 ^ 128 <=? supply_of _ + _); [done|]. unfold other_spender. rewrite decide_False by done.
  destruct (N.ltb_spec 100000000 (amount - 100000000)); [|lia].
  rewrite bool_decide_eq_true_2 by done. cbn [andb].
  destruct (allowed _ now from x) as [a e]. cbn [snd] in He. subst e. cbv zeta. cbn [default].
  destruct (N.leb_spec (2 ^ 64 - 1) now); [done|lia].
Qed.

End WithEnv.

(** ** Specification *)

(** What the reference says to a call and what the ledger says.  They are equal,
    except for
    - a transaction from before the window that the log records: the reference says
      [Duplicate]; the ledger may have forgotten it, and refuses it all the same;
    - a transfer with an allowance that ran out: the ledger may remember it and say
      so;
    - a trap, whose reason is not compared. *)
Inductive agrees (bs : list block) (now : N) (caller : principal) (c : call) (told real : response) : Prop :=
| agree_equal : real = told -> agrees bs now caller c told real
| agree_old i : too_long_ago (created_of c) now -> duplicate_of told = Some i -> rejected real = true ->
    agrees bs now caller c told real
| agree_ran_out from x a e :
    draws_on caller c = Some (from, x) ->
    log_allowance bs (to_key from, to_key x) = Some (a, Some e) -> e <= now ->
    told = RespReply (RepTransferFrom (Err (TFInsufficientAllowance 0))) ->
    real = RespReply (RepTransferFrom (Err (TFGenericError 100003))) ->
    agrees bs now caller c told real
| agree_trap t : told = RespTrap TrapReimburse -> real = RespTrap t -> agrees bs now caller c told real.
Definition agrees_on (bs : list block) (ev : event) (told real : response) : Prop :=
  match ev with
  | EvCall now caller c _ => agrees bs now caller c told real
  | _ => real = told \/ exists t, told = RespTrap TrapReimburse /\ real = RespTrap t
  end.

Section WithEnv.
Context `{Env}.

Lemma keeps_call w k now caller c sync w' resp :
  reachable w -> ev_ok w (EvCall now caller c sync) -> keeps w k ->
  quiet w (EvCall now caller c sync) -> distinct_hashes w (EvCall now caller c sync) ->
  step w (EvCall now caller c sync) = (w', resp) ->
  keeps w' (act_call k now caller c sync).1
  /\ agrees (blocks (w_led w)) now caller c (act_call k now caller c sync).2 resp.
Proof.
  intros Hr Hev Hk Hq [Hd1 Hd2] Hst.
  destruct (call_inv _ _ _ _ _ Hr Hev) as (Hi & Hu & Hcl & Hwf).
  assert (forall k a, log_allowance (blocks (w_led w)) k <> Some (a, Some now)) as Hq' by (intros k' a; by apply Hq).
  pose proof (tracks_call (bk_made k) now (w_led w) caller c Hi (kp_made _ _ Hk) Hu Hcl Hwf Hq' Hd1) as Htr.
  pose proof (answer_stored w now caller c sync w' resp Hr Hev Hst) as Hans.
  pose proof (tracks_decided _ _ _ _ _ _ Htr Hans) as Hv. clear Htr Hans.
  unfold act_call. cbv zeta. rewrite (kp_log _ _ Hk). unfold why_refused.
  destruct (first_refusal (checks (bk_made k) (blocks (w_led w)) now caller c)) as [r|].
  { destruct Hv as [(r' & Hsay & Hans & Hun)|(Hold & i & x & ->)].
    - split; [by eapply keeps_same|]. destruct Hsay as [->|(-> & -> & from & x & Hdr & a & e & Hl & He)].
      + rewrite Hans. by apply agree_equal.
      + destruct c; cbn [answer_of] in Hans; try done. injection Hans as <-. by eapply agree_ran_out.
    - destruct Hold as (created & Hcr & Hlt).
      destruct (C10_outside_window_rejected w now caller c sync created w' resp Hr Hev Hcr) as (Hrej & Hun & _); [|done|].
      { unfold in_window. lia. }
      split; [by eapply keeps_same|]. apply agree_old with (i := i); [by exists created| |done].
      destruct c; done. }
  destruct Hv as [[Hrej _]|(Hun & [t ->] & from & x & amount & Ho & Hne & Hsync & Hamt & Hcorner)].
  2: { rewrite Ho. destruct Hcorner as [Hnow|(t' & Ht & Hclash)].
    2: { exfalso. destruct (Hd2 from x amount Ho Hsync) as [Hc1 Hc2]. destruct Ht as [->|(b & Hb & ->)]; [done|].
      by eapply Hc2. }
    rewrite (old_used now) by done.
    assert (give_back (write (blocks (w_led w)) now (requested caller c)) now from (Some x) amount (mark_of c)
      (used_expiry (w_led w) now from (Some x)) = None) as Hgb.
    { apply give_back_late; try done.
      - intros f y a e1 e2 fee. destruct c; simpl in Ho; done.
      - rewrite <- (old_used now) by done. unfold other_spender. rewrite decide_False by done.
        unfold allowed, live_allowance. destruct (log_allowance _ _) as [[a e]|]; [|done]. by case_decide.
      - intros e He. unfold used_expiry in He. rewrite decide_False in He by done.
        pose proof (allowance_u64 now (w_led w) from x Hi) as Hx. unfold icrc2_allowance in He.
        destruct (allowance (w_led w) from x now) as [a0 e0]. cbn [snd] in *. destruct (0 <? e0); [|done].
        injection He as <-. exact Hx. }
    rewrite Hgb, (kp_cycles _ _ Hk).
    destruct sync as [e|]; [|destruct Hsync as [|Hlt]; [done|]; destruct (N.ltb_spec (w_cycles w) amount); [|lia]];
      (split; [by eapply keeps_same|by eapply agree_trap]). }
  destruct (step_accepted _ _ _ _ _ _ _ Hr Hev Hst Hrej) as (Hok & r & Hacc & Hres).
  assert (inv now (recorded now (requested caller c) (w_led w))) as Hi1 by (by apply recorded_inv).
  pose proof (write_recorded now (requested caller c) _ Hi) as Hw.
  assert (bk_made k !! nblocks (w_led w) = None) as Hfresh.
  { destruct (bk_made k !! nblocks (w_led w)) eqn:E; [exfalso|done].
    pose proof (kp_range _ _ Hk (nblocks (w_led w)) ltac:(rewrite E; eauto)) as Hlt. unfold len, nblocks in Hlt. lia. }
  pose proof (known_recorded (bk_made k) now (requested caller c) _ (kp_made _ _ Hk) Hfresh) as Hkn.
  assert (forall bs, (blocks (w_led w) `prefix_of` bs) -> forall i, is_Some (bk_made k !! i) -> i < len bs) as Hrange.
  { intros bs Hp%prefix_length i His. pose proof (kp_range _ _ Hk i His). unfold len in *. lia. }
  destruct Hacc as [s1 r1 E Hdone|s1 p E Hp Hsf Hpo|s1 p e s' r1 E Hp Hsf Hpo Hrj Hprims Hsr].
  - destruct Hres as [-> Hw']. destruct (outgoing caller c) as [[[from sp] amount]|] eqn:Ho.
    { destruct c; simpl in Ho, Hdone; done. }
    rewrite Hw', E. split.
    + constructor; cbn [fst bk_log bk_next bk_cycles bk_wait bk_made w_led w_next w_cycles w_pend].
      * by rewrite Hw.
      * apply Hk.
      * rewrite (kp_cycles _ _ Hk). destruct c; simpl in Hdone; try done; injection Hdone as <-; simpl; lia.
      * apply Hk.
      * done.
      * apply Hrange. rewrite recorded_blocks. by apply prefix_app_r.
    + apply agree_equal. cbn [snd]. rewrite <- Hw. change (len (blocks (w_led w))) with (nblocks (w_led w)).
      destruct c; simpl in Hdone; try done; injection Hdone as <-; cbn; try done.
      rewrite E. by rewrite (funds_eq now).
  - destruct Hres as [-> Hw']. rewrite (pending_outgoing _ _ _ _ _ Hp). rewrite (kp_cycles _ _ Hk).
    unfold sync_fail in Hsf. destruct sync; [done|]. destruct (w_cycles w <? pending_amount p) eqn:Elt; [done|].
    rewrite (old_used now) by done.
    assert (p_old p = used_expiry (w_led w) now (p_from p) (p_spender p)) as Eold.
    { destruct (outgoing_pending now caller c (w_led w) _ _ _ (pending_outgoing _ _ _ _ _ Hp)) as (p' & Hp' & _ & _ & _ & _ & <-).
      congruence. }
    pose proof (pending_shape _ _ _ _ _ Hp) as Hsh. rewrite Eold in Hsh.
    rewrite Hw', E. split.
    + constructor; cbn [fst bk_log bk_next bk_cycles bk_wait bk_made w_led w_next w_cycles w_pend].
      * by rewrite Hw.
      * by rewrite (kp_next _ _ Hk).
      * done.
      * intros id. rewrite (kp_next _ _ Hk). destruct (decide (w_next w = id)) as [<-|Hne].
        -- rewrite !lookup_insert. exists p. split; [exact Hsh|done].
        -- rewrite !lookup_insert_ne by done. apply Hk.
      * done.
      * apply Hrange. rewrite recorded_blocks. by apply prefix_app_r.
    + apply agree_equal. cbn [snd]. rewrite (kp_next _ _ Hk). destruct c; simpl in Hp; try done; injection Hp as <-; done.
  - destruct Hres as [-> Hw']. pose proof (pending_outgoing _ _ _ _ _ Hp) as Ho. rewrite Ho, (kp_cycles _ _ Hk).
    rewrite (old_used now) by done.
    destruct (outgoing_pending now caller c (w_led w) _ _ _ Ho) as (p' & Hp' & _ & _ & _ & _ & Eold).
    assert (p' = p) as -> by congruence. clear Hp'.
    unfold sync_rest in Hsr. destruct (sync_answer_resume now p e) as [kk Hre]. rewrite Hre in Hsr.
    destruct (commit (w_led w) (kk s1)) as [s2 r2] eqn:Hcm. injection Hsr as <- <-. subst s1.
    pose proof (pending_shape _ _ _ _ _ Hp) as Hsh.
    assert (sync <> None \/ w_cycles w < pending_amount p) as Hsync.
    { unfold sync_fail in Hsf. destruct sync; [by left|right]. by destruct (N.ltb_spec (w_cycles w) (pending_amount p)). }
    pose proof (ref_resume now caller c (nblocks (w_led w)) (p_old p) p (sync_answer p e) (w_led w) _ kk s2 r2 Hi1 Hu Hpo
      (sync_answer_u128 p e) Hsh Hre) as Hrr.
    assert (answer_returned (pending_amount p) (sync_answer p e) = Some (pending_amount p, RSysTransient)) as Hret.
    { destruct p, e; done. }
    rewrite Hret, Hw in Hrr.
    pose proof (known_resume (bk_made k) now caller c (nblocks (w_led w)) (p_old p) p (sync_answer p e) (w_led w) _ kk s2 r2 Hi1 Hpo
      Hsh Hre Hcm Hkn (kp_made _ _ Hk)) as Hkn2.
    assert (new_canister (sync_answer p e) = None) as Hnc by (by destruct p). rewrite Hnc in Hkn2.
    assert (match give_back (write (blocks (w_led w)) now (requested caller c)) now (p_from p) (p_spender p) (pending_amount p)
        (mark_of c) (p_old p) with
      | Some (bs', fb, ab) => blocks s2 = bs' /\ r2 = replied (failed_reply c (nblocks (w_led w)) fb ab RSysTransient)
      | None => s2 = w_led w /\ exists t, r2 = RespTrap t end) as Hgb.
    { apply Hrr; [| |done].
      - intros k'. apply write_quiet; [by apply Hq'|]. intros. destruct c; simpl in Ho; done.
      - intros x returned code b Hx [= <- <-] Hfee Hb. rewrite <- Hw in Hb.
        apply third_party_Some in Hx as [Hx Hne]. rewrite Hx in Ho, Eold.
        rewrite Eold, (restoring_given_back now caller c (w_led w) (p_from p) x (pending_amount p) Hi Hu Hok Ho Hne Hfee).
        destruct (Hd2 _ _ _ Ho Hsync) as [Hc1 Hc2]. rewrite recorded_blocks in Hb.
        apply elem_of_app in Hb as [Hb| ->%elem_of_list_singleton]; [by apply Hc2|done]. }
    rewrite <- Eold. change (len (blocks (w_led w))) with (nblocks (w_led w)).
    destruct (give_back _ now (p_from p) (p_spender p) (pending_amount p) (mark_of c) (p_old p)) as [[[bs' fb] ab]|];
      [|by destruct Hgb as [_ [t ->]]].
    destruct Hgb as [Hbs ->].
    assert (blocks (w_led w) `prefix_of` bs') as Hpre.
    { rewrite <- Hbs. etransitivity; [|by eapply prims_prefix]. rewrite recorded_blocks. by apply prefix_app_r. }
    assert (keeps w' (Book bs' (bk_made k) (bk_wait k) (bk_next k) (w_cycles w))) as Hkeep.
    { rewrite Hw'. constructor; cbn [fst bk_log bk_next bk_cycles bk_wait bk_made w_led w_next w_cycles w_pend].
      - done.
      - apply Hk.
      - destruct c; simpl in Ho; try done; simpl; lia.
      - apply Hk.
      - done.
      - rewrite Hbs. by apply Hrange. }
    destruct sync as [e'|]; [split; [done|by apply agree_equal]|].
    destruct Hsync as [|Hlt]; [done|]. destruct (N.ltb_spec (w_cycles w) (pending_amount p)); [|lia].
    split; [done|by apply agree_equal].
Qed.

Lemma keeps_reply w k now id ans refund :
  reachable w -> ev_ok w (EvReply now id ans refund) -> keeps w k ->
  quiet w (EvReply now id ans refund) -> distinct_hashes w (EvReply now id ans refund) ->
  keeps (step w (EvReply now id ans refund)).1 (act_reply k now id ans refund).1
  /\ agrees_on (blocks (w_led w)) (EvReply now id ans refund) (act_reply k now id ans refund).2
       (step w (EvReply now id ans refund)).2.
Proof.
  intros Hr Hev Hk Hq Hd. destruct (reply_inv _ _ _ _ _ Hr Hev) as (Hi & Hu & Hans).
  cbn [step agrees_on]. unfold act_reply. pose proof (kp_wait _ _ Hk id) as Hw.
  destruct (bk_wait k !! id) as [[caller c i old]|]; [|rewrite Hw; split; [done|by left]].
  destruct Hw as (p & Hsh & Hp). rewrite Hp.
  destruct (resume now p ans) as [kk|] eqn:Hre.
  2: { assert (answers_to c ans = false) as ->.
       { destruct c; simpl in Hsh; try done; injection Hsh as <-; destruct ans; done. }
       split; [done|by left]. }
  assert (answers_to c ans = true) as ->.
  { destruct c; simpl in Hsh; try done; injection Hsh as <-; destruct ans; done. }
  assert (outgoing caller c = Some (p_from p, p_spender p, pending_amount p)) as Ho.
  { destruct c; simpl in Hsh; try done; injection Hsh as <-; done. }
  assert (p_old p = old /\ pending_block p = i) as [Eold Ei].
  { destruct c; simpl in Hsh; try done; injection Hsh as <-; done. }
  rewrite Ho, (kp_log _ _ Hk), (kp_cycles _ _ Hk), (kp_next _ _ Hk). cbv zeta.
  destruct (reachable_winv _ Hr) as (_ & _ & Hwp). destruct (Hwp _ _ Hp) as [_ Hpo].
  destruct (commit (w_led w) (kk (w_led w))) as [s' r] eqn:Hc. cbn [fst snd].
  assert (forall k a, log_allowance (blocks (w_led w)) k <> Some (a, Some now)) as Hq' by (intros k' a; by apply Hq).
  assert (forall x returned code b, third_party (p_from p) (p_spender p) = Some x ->
    answer_returned (pending_amount p) ans = Some (returned, code) -> FEE < returned - FEE -> b ∈ blocks (w_led w) ->
    ~ hash_clash (b_tx b) (restoring (w_led w) now (p_from p) x (returned - FEE) (p_old p))) as Hd'.
  { intros x returned code b Hx Hret Hfee Hb. apply (Hd p x returned code Hp); [|done|done].
    unfold third_party in Hx. destruct (p_spender p); [|done]. case_match; congruence. }
  pose proof (ref_resume now caller c i old p ans (w_led w) (w_led w) kk s' r Hi Hu Hpo (wf_answer_u128 _ Hans) Hsh Hre Hq' Hd' Hc) as Hrr.
  pose proof (known_resume (bk_made k) now caller c i old p ans (w_led w) (w_led w) kk s' r Hi Hpo Hsh Hre Hc
    (kp_made _ _ Hk) (kp_made _ _ Hk)) as Hkn.
  set (made' := match new_canister ans with Some q => <[i := q]> (bk_made k) | None => bk_made k end) in *.
  assert (blocks (w_led w) `prefix_of` blocks s') as Hpre.
  { destruct (kk (w_led w)) as [s1 o] eqn:Ek.
    destruct (resume_prims _ _ _ _ _ _ _ Hi Hu Hpo (wf_answer_u128 _ Hans) Hre Ek) as [[t ->]|Hps].
    - simpl in Hc. by injection Hc as <- _.
    - unfold commit in Hc. destruct o as [rep|[]|t]; injection Hc as <- _; [by eapply prims_prefix|done]. }
  assert (forall bs, blocks s' = bs -> keeps (World s' now (delete id (w_pend w)) (w_next w) (w_cycles w + refund) (w_used w))
    (Book bs made' (delete id (bk_wait k)) (w_next w) (w_cycles w + refund))) as Hkeep.
  { intros bs Hbs. constructor; cbn [bk_log bk_next bk_cycles bk_wait bk_made w_led w_next w_cycles w_pend].
    - done.
    - done.
    - done.
    - intros id'. destruct (decide (id = id')) as [<-|Hne].
      + by rewrite !lookup_delete.
      + rewrite !lookup_delete_ne by done. apply Hk.
    - done.
    - intros j Hj. apply prefix_length in Hpre. unfold len.
      assert (j < len (blocks (w_led w))) as Hlt; [|unfold len in Hlt; lia].
      unfold made' in Hj. destruct (new_canister ans); [|by apply Hk].
      destruct (decide (i = j)) as [<-|Hne]; [|rewrite lookup_insert_ne in Hj by done; by apply Hk].
      rewrite <- Ei. by apply pend_block_lt. }
  destruct (answer_returned (pending_amount p) ans) as [[returned code]|].
  - destruct (give_back (blocks (w_led w)) now (p_from p) (p_spender p) returned (mark_of c) old) as [[[bs' fb] ab]|].
    + destruct Hrr as [Hbs ->]. split; [by apply Hkeep|by left].
    + destruct Hrr as [-> [t ->]]. split; [by apply Hkeep|right]. by exists t.
  - destruct Hrr as [-> Hbs]. split; [by apply Hkeep|by left].
Qed.

(** One event *)
Lemma keeps_step w k ev :
  reachable w -> ev_ok w ev -> keeps w k -> quiet w ev -> distinct_hashes w ev ->
  keeps (step w ev).1 (act k ev).1 /\ agrees_on (bk_log k) ev (act k ev).2 (step w ev).2.
Proof.
  intros Hr Hev Hk Hq Hd. rewrite (kp_log _ _ Hk).
  destruct ev as [now caller c sync|now id ans refund|now args|n|n|now id refund].
  - cbn [act agrees_on]. by eapply keeps_call; [..|apply surjective_pairing].
  - by apply keeps_reply.
  - assert (blocks (post_upgrade args (reload (w_led w))).1 = blocks (w_led w)
      /\ tx_hashes (post_upgrade args (reload (w_led w))).1 = tx_hashes (w_led w)) as [Hb Hth].
    { unfold reload. destruct (compute_last_block_hash_and_hash_tree (blocks (w_led w))).
      unfold post_upgrade. destruct args as [[|[[[] []]|]]|]; done. }
    assert ((exists c, args = Some (LInit c)) \/ ~ exists c, args = Some (LInit c)) as [[c ->]|Hno].
    { destruct args as [[c|u]|]; [left; eauto|right; by intros [c ?]|right; by intros [c ?]]. }
    { cbn. split; [|by left]. destruct Hk. by constructor. }
    assert (exists s', post_upgrade args (reload (w_led w)) = (s', OOk tt)) as [s' Es].
    { unfold reload. destruct (compute_last_block_hash_and_hash_tree (blocks (w_led w))).
      unfold post_upgrade. destruct args as [[|[[[] []]|]]|]; try (eexists; done); destruct Hno; eauto. }
    cbn [step]. rewrite Es in *. cbn [fst snd] in *.
    assert (act k (EvUpgrade now args) = (Book (bk_log k) (bk_made k) ∅ (bk_next k) (bk_cycles k), RespIgnored)) as ->.
    { cbn [act]. destruct args as [[|]|]; try done; destruct Hno; eauto. }
    split; [|by left]. constructor; cbn [fst bk_log bk_next bk_cycles bk_wait bk_made w_led w_next w_cycles w_pend].
    + by rewrite Hb, (kp_log _ _ Hk).
    + apply Hk.
    + apply Hk.
    + intros id. by rewrite !lookup_empty.
    + intros h i x. rewrite Hth. apply Hk.
    + rewrite Hb. apply Hk.
  - cbn. split; [|by left]. destruct Hk. constructor; cbn; try done. lia.
  - cbn. split; [|by left]. destruct Hk. constructor; cbn; try done. lia.
  - cbn. pose proof (kp_wait _ _ Hk id) as Hw.
    destruct (bk_wait k !! id) as [x|]; [|rewrite Hw; split; [done|by left]].
    destruct Hw as (p & _ & ->). split; [|by left]. destruct Hk as [H1 H2 H3 H4 H5 H6].
    constructor; cbn; try done; [lia|]. intros id'. destruct (decide (id = id')) as [<-|Hne].
    + by rewrite !lookup_delete.
    + rewrite !lookup_delete_ne by done. apply H4.
Qed.

(** Installation *)
Lemma keeps_opening now cycles c w :
  is_u64 now -> wf_ledger_args (LInit c) -> init_world now cycles (LInit c) = Some w -> keeps w (opening now cycles c).
Proof.
  intros Hu [_ Hwf] Hw. unfold init_world, init, bindM in Hw.
  assert (forall l s s' o, inv now s -> Forall (fun e => wf_account e.1 /\ is_u128 e.2) l -> tx_hashes s = ∅ ->
    mint_initial now l s = (s', OOk o) ->
    blocks s' = foldl (fun bs e => write bs now (Tx (Mint e.1 e.2 100000000) None None)) (blocks s) l
    /\ tx_hashes s' = ∅) as Hm.
  { clear -Hu. induction l as [|[a n] l IH]; intros s s' o Hi Hl Hth; cbn [mint_initial foldl].
    - intros [= <- _]. done.
    - inversion Hl as [|? ? [Ha Hn] Hl']; subst. cbn [fst snd] in *.
      unfold bindM at 1. unfold or_trap. rewrite mint_eq.
      destruct (mint_decide a n None s) as [[]|e|x] eqn:Ed; [|done|done]. intros Hm.
      assert (prim now s (tx_effect now (Tx (Mint a n FEE) None None) s)) as Hp.
      { constructor. apply mint_decide_ok; try done. by right. }
      destruct (tx_effect_fields now (Tx (Mint a n FEE) None None) s) as (Hb & Hh & _). cbn [tx_created_at] in Hh.
      assert (blocks (tx_effect now (Tx (Mint a n FEE) None None) s) = write (blocks s) now (Tx (Mint a n 100000000) None None)) as Hb'.
      { rewrite <- (write_recorded now (Tx (Mint a n 100000000) None None) s Hi), recorded_blocks. exact Hb. }
      rewrite <- Hb'. apply (IH _ _ o); [by eapply prim_inv|done|by rewrite Hh|exact Hm]. }
  destruct (mint_initial now (default [] (initial_balances c)) empty_state) as [s1 [o1|[]|t]] eqn:Em; [|done].
  simpl in Hw. injection Hw as <-. destruct (Hm _ _ _ _ (inv_empty now) Hwf eq_refl Em) as [Hb Hth].
  constructor; cbn [fst bk_log bk_next bk_cycles bk_wait bk_made w_led w_next w_cycles w_pend opening].
  - symmetry. exact Hb.
  - done.
  - done.
  - intros id. by rewrite !lookup_empty.
  - intros h i x Hx. cbn in Hx. by rewrite Hth, lookup_empty in Hx.
  - intros i [? Hx]. by rewrite lookup_empty in Hx.
Qed.

End WithEnv.

(** The book after a sequence of events *)
Fixpoint book_after `{Env} (k : book) (evs : list event) : book :=
  match evs with [] => k | ev :: evs' => book_after (act k ev).1 evs' end.

Section WithEnv.
Context `{Env}.

Lemma keeps_later w k evs :
  reachable w -> keeps w k -> smooth w evs ->
  forall n, keeps (later w (take n evs)) (book_after k (take n evs)) /\ reachable (later w (take n evs))
    /\ forall ev, evs !! n = Some ev ->
       agrees_on (bk_log (book_after k (take n evs))) ev
         (act (book_after k (take n evs)) ev).2 (step (later w (take n evs)) ev).2.
Proof.
  revert w k. induction evs as [|ev evs IH]; intros w k Hr Hk Hsm n.
  - rewrite take_nil. split; [done|]. by split.
  - destruct Hsm as (Hev & Hq & Hd & Hsm). destruct (keeps_step w k ev Hr Hev Hk Hq Hd) as [Hk' Ha].
    destruct n as [|n]; cbn [take later book_after].
    + split; [done|]. split; [done|]. intros ev' [= <-]. exact Ha.
    + apply (IH _ _ ltac:(by constructor) Hk' Hsm).
Qed.

(** ** C80 *)
Theorem C80_ledger_is_its_log now cycles c w0 evs :
  is_u64 now -> wf_ledger_args (LInit c) -> init_world now cycles (LInit c) = Some w0 ->
  smooth w0 evs ->
  forall n,
  let w := later w0 (take n evs) in let k := book_after (opening now cycles c) (take n evs) in
  (* the same blocks, byte for byte, the same cycles, the same calls waiting *)
  blocks (w_led w) = bk_log k /\ w_cycles w = bk_cycles k
  /\ (forall id, is_Some (w_pend w !! id) <-> is_Some (bk_wait k !! id))
  (* the same answer to the next event *)
  /\ forall ev, evs !! n = Some ev -> agrees_on (bk_log k) ev (act k ev).2 (step w ev).2.
Proof.
  intros Hu Hwf Hin Hsm n w k. pose proof (keeps_opening now cycles c w0 Hu Hwf Hin) as Hk.
  assert (reachable w0) as Hr by (by eapply reach_init).
  destruct (keeps_later w0 (opening now cycles c) evs Hr Hk Hsm n) as (Hkn & _ & Ha).
  split; [symmetry; apply Hkn|]. split; [symmetry; apply Hkn|]. split; [|exact Ha].
  intros id. pose proof (kp_wait _ _ Hkn id) as Hw. fold w k in Hw.
  destruct (bk_wait k !! id) as [x|].
  - destruct Hw as (p & _ & ->). split; eauto.
  - rewrite Hw. split; intros [? E]; discriminate E.
Qed.

(** What can be read of the ledger is worked out from the book. *)
Theorem C80_reads_from_the_log now cycles c w0 evs :
  is_u64 now -> wf_ledger_args (LInit c) -> init_world now cycles (LInit c) = Some w0 ->
  smooth w0 evs ->
  let w := later w0 evs in let k := book_after (opening now cycles c) evs in
  (forall a, icrc1_balance_of (w_led w) a = funds_of (bk_log k) a)
  /\ icrc1_total_supply (w_led w) = supply_of (bk_log k)
  /\ (forall tm from x, w_clock w <= tm -> usable (w_led w) tm from x = allowed (bk_log k) tm from x).
Proof.
  intros Hu Hwf Hin Hsm w k. pose proof (keeps_opening now cycles c w0 Hu Hwf Hin) as Hk.
  assert (reachable w0) as Hr by (by eapply reach_init).
  destruct (keeps_later w0 (opening now cycles c) evs Hr Hk Hsm (length evs)) as (Hkn & Hrw & _).
  rewrite firstn_all in Hkn, Hrw. fold w k in Hkn, Hrw. rewrite (kp_log _ _ Hkn).
  pose proof (reachable_inv _ Hrw) as Hi.
  split; [intros a; symmetry; by eapply funds_eq|]. split; [symmetry; by eapply supply_eq|].
  intros tm from x Htm. by apply usable_live.
Qed.

End WithEnv.

(** ** Cases *)
(** The answers of the reference *)
Fixpoint told `{Env} (k : book) (evs : list event) : list response :=
  match evs with [] => [] | ev :: evs' => (act k ev).2 :: told (act k ev).1 evs' end.

(** The history of [Demo], the creation of a canister asked for again, a
    withdrawal for a third party that cannot be sent and one whose call-back is
    stopped, then, more than a day later, a transfer with an allowance that ran
    out, a deposit, and the creation once more *)
Definition ref_config : config := Config 50 None (Some [(acct carol, 7 * T)]).
Definition ref_events : list event :=
  demo_events ++
  [ EvCall (T0 + 12 * sec) alice (CallCreateCanister None (Some (T0 + 6 * sec)) T None) None;
    EvCall (T0 + 13 * sec) bob (CallWithdrawFrom None (acct alice) canister None T) (Some SEPerform);
    EvCall (T0 + 14 * sec) alice (CallWithdraw None canister None T) None;
    EvCrash (T0 + 15 * sec) 3 0;
    EvCall (T0 + 16 * sec) alice (CallTransfer None (acct bob) (100 * T) None None None) None;
    EvCall (T0 + 200000 * sec) bob (CallTransferFrom None (acct alice) (acct carol) T None None None) None;
    EvCall (T0 + 200001 * sec) carol (CallDeposit T (acct carol) None) None;
    EvCall (T0 + 200002 * sec) alice (CallCreateCanister None (Some (T0 + 6 * sec)) T None) None ].
Definition ref_world : world := the_world (init_world T0 (100 * T) (LInit ref_config)).

Example C80_case :
  init_world T0 (100 * T) (LInit ref_config) = Some ref_world
  /\ smooth ref_world ref_events
  /\ length (bk_log (book_after (opening T0 (100 * T) ref_config) ref_events)) = 15%nat
  (* the same answers, up to the three last events *)
  /\ take 16 (told (opening T0 (100 * T) ref_config) ref_events) = take 16 (replies ref_world ref_events)
  /\ drop 11 (told (opening T0 (100 * T) ref_config) ref_events)
     = [ RespReply (RepCreate (Err (CDuplicate 6 (Some canister))));
         RespReply (RepWithdrawFrom (Err (WFFailedToWithdrawFrom (Some 10) (Some 11) (Some 12) RSysTransient)));
         RespPending 3 (OutDepositCycles canister T);
         RespTrap TrapSystem;
         RespReply (RepTransfer (Err (TInsufficientFunds 3998700000000)));
         RespReply (RepTransferFrom (Err (TFInsufficientAllowance 0)));
         RespReply (RepDeposit 14 8999900000000);
         RespReply (RepCreate (Err (CDuplicate 6 (Some canister)))) ]
  /\ drop 16 (replies ref_world ref_events)
     = [ RespReply (RepTransferFrom (Err (TFGenericError 100003)));
         RespReply (RepDeposit 14 8999900000000);
         RespReply (RepCreate (Err CTooOld)) ].
Proof.
  split; [vm_compute; reflexivity|].
  split; [apply smoothb_ok; vm_compute; reflexivity|].
  split; [vm_compute; reflexivity|].
  split; [vm_compute; reflexivity|].
  split; [vm_compute; reflexivity|vm_compute; reflexivity].
Qed.

Print Assumptions C80_ledger_is_its_log.
Print Assumptions C80_reads_from_the_log.
