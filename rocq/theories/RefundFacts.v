(** * What a refund does, and when it goes through *)
From Verif Require Import Base Types Codec CodecFacts State Ledger Canister Effects Spec ApiSpec
  Inv Steps World CallFacts CallCases StepFacts AllowFacts.

Section WithEnv.
Context `{Env}.

Lemma refunded_recorded from n m now s :
  refunded from n m now s = prune_state now (recorded now (refund_tx from n m) s).
Proof. done. Qed.

Lemma kept_trans s1 s2 s3 now p :
  other_allowances_kept s1 s2 now None -> other_allowances_kept s2 s3 now p ->
  other_allowances_kept s1 s3 now p.
Proof.
  intros H1 H2 tm f q Ht Hp Hun. specialize (H1 tm f q Ht ltac:(done) Hun).
  rewrite <- H1 in Hun |- *. by apply H2.
Qed.
Lemma prune_kept now s : inv now s -> is_u64 now -> other_allowances_kept s (prune_state now s) now None.
Proof. intros Hi Hu tm f p Ht _ Hun. by apply prune_view. Qed.
Lemma refunded_kept from n m now s :
  inv now s -> is_u64 now -> tx_ok now (refund_tx from n m) s ->
  other_allowances_kept s (refunded from n m now s) now None.
Proof.
  intros Hi Hu Hok. rewrite refunded_recorded. eapply kept_trans.
  - intros tm f p Ht _ Hun. by apply (recorded_untouched now (refund_tx from n m)).
  - apply prune_kept; [by apply recorded_inv|done].
Qed.
Lemma refunded_blocks from n m now s :
  blocks (refunded from n m now s) = blocks s ++ [mk_block now (refund_tx from n m) s].
Proof.
  rewrite refunded_recorded. destruct (prune_state_core now (recorded now (refund_tx from n m) s)) as (-> & _).
  apply recorded_blocks.
Qed.
Lemma refunded_balance from n m now s a :
  tx_ok now (refund_tx from n m) s ->
  balance_of (refunded from n m now s) a = balance_of s a + if_acct a from n.
Proof.
  intros Hok. rewrite refunded_recorded. unfold balance_of at 1. rewrite prune_bal.
  apply (recorded_balance _ _ _ a) in Hok. unfold balance_of in *. simpl in Hok.
  rewrite N.add_0_r in Hok. rewrite Hok. done.
Qed.
Lemma refunded_supply from n m now s :
  inv now s -> tx_ok now (refund_tx from n m) s ->
  total_supply (refunded from n m now s) = total_supply s + n.
Proof.
  intros Hi Hok. rewrite refunded_recorded.
  destruct (prune_state_core now (recorded now (refund_tx from n m) s)) as (_&_&_&_& -> &_).
  pose proof (recorded_supply _ _ _ Hi Hok) as Hs. simpl in Hs. lia.
Qed.

(** What the ledger sees of the current allowance after the refund and its
    prunes: at most an allowance expiring right now shows in addition. *)
Lemma refunded_allowance from n m now s x :
  inv now s -> is_u64 now -> tx_ok now (refund_tx from n m) s ->
  icrc2_allowance (refunded from n m now s) now from x = usable s now from x
  \/ exists a, icrc2_allowance (refunded from n m now s) now from x = (a, Some now).
Proof.
  intros Hi Hu Hok. unfold usable. destruct (icrc2_allowance s now from x) as [a e] eqn:Ea.
  destruct (decide (unexpired now e)) as [Hun|Hun].
  - left. rewrite <- Ea. apply refunded_kept; try done. by rewrite Ea.
  - rewrite icrc2_allowance_view in Ea. unfold view in Ea.
    rewrite icrc2_allowance_view. unfold view.
    destruct (approvals (refunded from n m now s) !! approval_key from x) as [[a' e']|] eqn:Ek'; [|by left].
    assert (approvals s !! approval_key from x = Some (a', e')) as Ek.
    { rewrite refunded_recorded in Ek'. apply prune_state_sub in Ek'. unfold recorded in Ek'.
      apply prune_state_sub in Ek'. rewrite (tx_effect_untouched now) in Ek'; [done| |done].
      by destruct Hok as (_ & _ & ? & _). }
    rewrite Ek in Ea. destruct ((0 <? e') && (e' <? now)) eqn:Eb.
    + by left.
    + right. injection Ea as <- <-. exists a'. unfold exp_opt in *.
      destruct (N.eqb_spec e' 0); [by contradict Hun|]. simpl in Hun. do 2 f_equal. lia.
Qed.

Lemma tx_effect_approve_view now t s from sp a ea ex f tm :
  inv now s -> is_u64 now -> tx_ok now t s -> now <= tm ->
  tx_op t = Approve from sp a ea ex f -> unexpired tm ex ->
  icrc2_allowance (tx_effect now t s) tm from sp = (a, if a =? 0 then None else ex).
Proof.
  intros Hi Hu Hok Ht Hop Hun.
  assert (ex <> Some 0) as Hex.
  { destruct Hok as (_ & Hst & _). rewrite Hop in Hst. destruct Hst as (_ & _ & _ & _ & Hx).
    intros ->. simpl in Hx. lia. }
  assert (approvals (tx_effect now t s) !! approval_key from sp
          = if a =? 0 then None else Some (a, default 0 ex)) as Hk2.
  { rewrite tx_effect_approvals, (lookup_allow_effect now) by (by destruct Hok as (_ & _ & ? & _)).
    rewrite Hop. by rewrite decide_True. }
  rewrite icrc2_allowance_view, Hk2. destruct (N.eqb_spec a 0) as [->|Hne]; simpl; [done|].
  rewrite exp_opt_default by done. destruct ex as [e|]; simpl in *; [|done].
  assert ((0 <? e) && (e <? tm) = false) as -> by lia. done.
Qed.

Lemma restore_expiry_api from x old now s :
  restore_expiry from x old now s
  = match (icrc2_allowance s now from x).2 with Some e => Some e | None => old end.
Proof. unfold restore_expiry, icrc2_allowance. simpl. by destruct (0 <? _). Qed.
Lemma restore_amount_api from x n now s :
  restore_amount from x n now s = N.min ((icrc2_allowance s now from x).1 + n) (2 ^ 128 - 1).
Proof.
  unfold restore_amount, icrc2_allowance, u128_sat_add. simpl fst.
  change (2 ^ 128 - 1) with U128_MAX.
  assert (U128_MAX + 1 = U128_MOD) by done. destruct (N.ltb_spec (n + (allowance s from x now).1) U128_MOD); lia.
Qed.
Lemma restore_ok_expiry from x n old now s :
  is_u64 now -> restore_decide from x n old now s = OOk tt ->
  unexpired now (restore_expiry from x old now s).
Proof.
  intros Hu. unfold restore_decide, approve_decide.
  destruct (tx_hashes _ !! _) as [[]|]; [done|]. case_bool_decide; [done|].
  do 2 (destruct (is_denied _); [done|]). destruct (balance_of _ _ <? _); [done|]. simpl.
  destruct (N.leb_spec (default REMOTE_FUTURE (restore_expiry from x old now s)) now); [done|].
  intros _. by destruct (restore_expiry from x old now s).
Qed.

Lemma refund_facts from sp n m old now s s' fb ab :
  inv now s -> is_u64 now -> wf_account from -> wf_acct_opt sp -> is_u128 n ->
  (forall e, old = Some e -> 0 < e /\ is_u64 e) ->
  refund_outcome from sp n m old now s = Some (s', fb, ab) ->
  refund_effect s s' now from sp n m old fb ab
  /\ (is_Some ab <-> is_Some (third_party from sp) /\ FEE < n /\ unexpired now old).
Proof.
  intros Hi Hu Hf Hsp Hn Hold. unfold refund_outcome.
  destruct (reimburse_decide from n m s) as [[]|e|t] eqn:Ed; [|done|done].
  pose proof (reimburse_decide_ok from n m now s Ed Hf Hn) as Hok. fold (refund_tx from n m) in Hok.
  pose proof (refunded_prims _ _ _ _ _ Hi Hu Ed Hf Hn) as Hp.
  pose proof (prims_inv _ _ _ Hu Hi Hp) as Hi1.
  pose proof (refunded_balance from n m now s) as Hbal.
  pose proof (refunded_supply from n m now s Hi Hok) as Hsup.
  pose proof (refunded_blocks from n m now s) as Hblk.
  pose proof (refunded_kept from n m now s Hi Hu Hok) as Hkept.
  pose proof (refunded_allowance from n m now s) as Hall.
  set (s1 := refunded from n m now s) in *.
  assert (refund_effect s s1 now from sp n m old (nblocks s) None) as Hnone.
  { split; [done|]. split; [intros a; by apply Hbal|]. split; [done|]. split; [|done].
    exists (mk_block now (refund_tx from n m) s). done. }
  destruct (third_party from sp) as [x|] eqn:Ex.
  2: { intros [= <- <- <-]. split; [done|]. split; [intros []; done|intros [[] _]; done]. }
  destruct ((FEE <? n) && approval_still_valid old now) eqn:Ec.
  2: { intros [= <- <- <-]. split; [done|]. split; [intros []; done|]. intros (_ & H1 & H2). exfalso.
       unfold approval_still_valid in Ec. destruct old; simpl in H2; lia. }
  destruct (restore_decide from x (n - FEE) old now s1) as [[]|e|t] eqn:Er; [|done|done].
  intros [= <- <- <-].
  assert (FEE < n /\ unexpired now old) as [Hfee Hun].
  { unfold approval_still_valid in Ec. destruct old; simpl; lia. }
  split; [|split; [|by eexists]].
  2: { intros _. split; [eauto|]. done. }
  apply third_party_Some in Ex as [-> Hne].
  pose proof (restore_tx_ok from x (n - FEE) old now s1 Hi1 Hf Hsp Hold Er) as Hok2.
  pose proof (restore_ok_expiry _ _ _ _ _ _ Hu Er) as Hux.
  assert (icrc2_allowance s1 now from x = usable s now from x) as Eu.
  { destruct (Hall x Hi Hu Hok) as [?|[a Ha]]; [done|exfalso].
    rewrite restore_expiry_api, Ha in Hux. simpl in Hux. lia. }
  assert (tx_op (restore_tx from x (n - FEE) old now s1)
          = Approve from x (restore_amount from x (n - FEE) now s1) None
              (restore_expiry from x old now s1) None) as Hop by done.
  split; [done|]. split. { unfold nblocks. rewrite Hblk, app_length. simpl. lia. }
  split.
  { intros a. pose proof (tx_ok_taken _ _ _ (to_key a) Hok2) as Ht.
    pose proof (tx_effect_bal now (restore_tx from x (n - FEE) old now s1) s1 (to_key a) Ht) as Hb.
    specialize (Hbal a Hok). unfold icrc1_balance_of. unfold balance_of at 1. rewrite Hb.
    rewrite Hop in *. cbn [op_taken op_given] in *. unfold balance_of in *. unfold if_acct at 1.
    fold (icrc1_fee) in *. lia. }
  split.
  { destruct (tx_effect_supply now _ _ (inv_supply _ _ Hi1) Hok2) as [Hs Hle].
    unfold icrc1_total_supply. rewrite Hs. rewrite Hop in *. cbn [op_burned op_minted] in *.
    fold icrc1_fee in *. lia. }
  exists x. split; [done|]. cbv zeta. rewrite <- Eu.
  change (N.min ((icrc2_allowance s1 now from x).1 + (n - icrc1_fee)) (2 ^ 128 - 1))
    with (N.min ((icrc2_allowance s1 now from x).1 + (n - FEE)) (2 ^ 128 - 1)).
  rewrite <- restore_amount_api, <- (restore_expiry_api from x old).
  split.
  { exists (mk_block now (refund_tx from n m) s), (mk_block now (restore_tx from x (n - FEE) old now s1) s1).
    split; [|done]. destruct (tx_effect_fields now (restore_tx from x (n - FEE) old now s1) s1) as (-> & _).
    rewrite Hblk, <- app_assoc. done. }
  split; [done|]. split.
  { intros tm Htm Hut. rewrite (tx_effect_approve_view _ _ _ _ _ _ _ _ _ _ Hi1 Hu Hok2 Htm Hop Hut).
    f_equal. rewrite restore_amount_api. change (2 ^ 128 - 1) with U128_MAX.
    destruct (N.eqb_spec (N.min ((icrc2_allowance s1 now from x).1 + (n - FEE)) U128_MAX) 0); [|done].
    unfold U128_MAX in *. lia. }
  eapply kept_trans; [exact Hkept|]. intros tm f p Htm Hp' Hunx.
  rewrite !icrc2_allowance_view in Hunx |- *. rewrite (tx_effect_untouched now); [by rewrite icrc2_allowance_view| |].
  - by destruct Hok2 as (_ & _ & ? & _).
  - rewrite Hop. exact Hp'.
Qed.

(** When a refund goes through.  [restore_clash]: a recorded transaction has the
    hash of the approval that restores the allowance without being equal to it. *)
Definition restore_clash (s : state) (now : N) (from x : account) (n : N) (old : option N) : Prop :=
  exists b, b ∈ blocks s
    /\ txh (b_tx b) = txh (restoring s now from x n old)
    /\ b_tx b <> restoring s now from x n old.

Lemma refund_decide from n m now s :
  inv now s -> validate_memo (Some m) = true -> total_supply s + n < U128_MOD ->
  reimburse_decide from n m s = OOk tt.
Proof.
  intros Hi Hm Hsup. unfold reimburse_decide. rewrite Hm. simpl.
  pose proof (supply_bal s (to_key from) (inv_supply _ _ Hi)) as Hb. fold (balance_of s from) in Hb.
  destruct (N.leb_spec U128_MOD (balance_of s from + n)); [lia|].
  destruct (N.leb_spec U128_MOD (total_supply s + n)); [lia|done].
Qed.

(** An allowance that does not expire right now does not seem to after the refund. *)
Lemma refunded_not_now from n m now s x :
  inv now s -> is_u64 now -> tx_ok now (refund_tx from n m) s ->
  (icrc2_allowance s now from x).2 <> Some now ->
  (icrc2_allowance (refunded from n m now s) now from x).2 <> Some now.
Proof.
  intros Hi Hu Hok Hx. destruct (refunded_allowance from n m now s x Hi Hu Hok) as [->|[a Ha]].
  - unfold usable. destruct (icrc2_allowance s now from x) as [a e]. destruct (decide _); [done|done].
  - exfalso. rewrite icrc2_allowance_view in Ha, Hx. unfold view in Ha, Hx.
    destruct (approvals (refunded from n m now s) !! approval_key from x) as [[a' e']|] eqn:Ek'; [|done].
    assert (approvals s !! approval_key from x = Some (a', e')) as Ek.
    { rewrite refunded_recorded in Ek'. apply prune_state_sub in Ek'. unfold recorded in Ek'.
      apply prune_state_sub in Ek'. rewrite (tx_effect_untouched now) in Ek'; [done| |done].
      by destruct Hok as (_ & _ & ? & _). }
    rewrite Ek in Hx. rewrite Ha in Hx. done.
Qed.

Lemma refund_total_or_clash_after from sp n m old now s :
  inv now s -> is_u64 now -> wf_account from -> wf_acct_opt sp -> is_u128 n ->
  (forall e, old = Some e -> 0 < e /\ is_u64 e) ->
  (forall x, third_party from sp = Some x ->
     owner from <> owner x /\ owner from <> MANAGEMENT_CANISTER /\ owner x <> MANAGEMENT_CANISTER) ->
  validate_memo (Some m) = true ->
  total_supply s + n < U128_MOD ->
  (forall x, third_party from sp = Some x -> FEE < n -> unexpired now old ->
     now + 1 < U64_MOD
     /\ (icrc2_allowance (refunded from n m now s) now from x).2 <> Some now) ->
  (exists r, refund_outcome from sp n m old now s = Some r)
  \/ exists x, third_party from sp = Some x /\ FEE < n /\ unexpired now old /\ restore_clash s now from x n old.
Proof.
  intros Hi Hu Hf Hsp Hn Hold Hown Hm Hsup Hc.
  pose proof (refund_decide from n m now s Hi Hm Hsup) as Ed.
  unfold refund_outcome. rewrite Ed.
  pose proof (reimburse_decide_ok from n m now s Ed Hf Hn) as Hok. fold (refund_tx from n m) in Hok.
  pose proof (refunded_prims _ _ _ _ _ Hi Hu Ed Hf Hn) as Hp.
  pose proof (prims_inv _ _ _ Hu Hi Hp) as Hi1.
  pose proof (refunded_balance from n m now s from Hok) as Hbal.
  pose proof (refunded_blocks from n m now s) as Hblk.
  pose proof (refunded_allowance from n m now s) as Hall.
  set (s1 := refunded from n m now s) in *.
  destruct (third_party from sp) as [x|] eqn:Ex; [|by left; eexists].
  destruct ((FEE <? n) && approval_still_valid old now) eqn:Ec; [|by left; eexists].
  assert (FEE < n /\ unexpired now old) as [Hfee Hun].
  { unfold approval_still_valid in Ec. destruct old; simpl; lia. }
  destruct (Hc x eq_refl Hfee Hun) as (Hmax & Hex).
  destruct (Hown x eq_refl) as (Ho1 & Ho2 & Ho3).
  assert (restore_tx from x (n - FEE) old now s1 = restoring s now from x n old) as Ert.
  { unfold restore_tx, restoring. rewrite restore_amount_api, restore_expiry_api.
    destruct (Hall x Hi Hu Hok) as [->|[a Ha]]; [done|exfalso].
    rewrite Ha in Hex. done. }
  destruct (tx_hashes s1 !! txh (restore_tx from x (n - FEE) old now s1)) as [[i c]|] eqn:Eh.
  { right. exists x. split; [done|]. split; [done|]. split; [done|]. destruct (inv_hashes _ _ Hi1 _ _ _ Eh) as [_ (ts & j & b & Hin & Hb & Hh)].
    destruct (inv_ts _ _ Hi1 _ _ Hin) as (b' & v & Hb' & Hts & _).
    assert (b' = b) as -> by congruence. rewrite Hblk in Hb.
    apply elem_of_list_lookup_2, elem_of_app in Hb as [Hb|Hb%elem_of_list_singleton].
    - exists b. split; [done|]. rewrite Ert in Hh. split; [exact Hh|]. intros E. by rewrite E in Hts.
    - exfalso. rewrite Hb in Hts. done. }
  left. assert (restore_decide from x (n - FEE) old now s1 = OOk tt) as ->; [|by eexists].
  unfold restore_decide, approve_decide.
  fold (restore_tx from x (n - FEE) old now s1). rewrite Eh.
  rewrite bool_decide_eq_false_2 by done.
  assert (forall p, p <> MANAGEMENT_CANISTER -> is_denied p = false) as Hden.
  { intros p Hp'. unfold is_denied. by case_bool_decide. }
  rewrite !Hden by done. simpl.
  assert (if_acct from from n = n) as Ei by (unfold if_acct; by rewrite decide_True).
  rewrite Ei in Hbal. destruct (N.ltb_spec (balance_of s1 from) FEE); [lia|].
  assert (default REMOTE_FUTURE (restore_expiry from x old now s1) <=? now = false) as ->.
  { apply N.leb_gt. rewrite restore_expiry_api.
    destruct (icrc2_allowance s1 now from x) as [a [e|]] eqn:Ea; simpl in *.
    - rewrite icrc2_allowance_view in Ea. unfold view in Ea.
      destruct (approvals s1 !! approval_key from x) as [[a' e']|]; [|done].
      destruct ((0 <? e') && (e' <? now)) eqn:Eb; [done|]. injection Ea as <- Ee.
      unfold exp_opt in Ee. destruct (N.eqb_spec e' 0); [done|]. injection Ee as <-.
      assert (e' <> now) by congruence. lia.
    - destruct old as [e|]; simpl in *; [done|]. assert (REMOTE_FUTURE + 1 = U64_MOD) by done. lia. }
  done.
Qed.

Lemma refund_total_or_clash from sp n m old now s :
  inv now s -> is_u64 now -> wf_account from -> wf_acct_opt sp -> is_u128 n ->
  (forall e, old = Some e -> 0 < e /\ is_u64 e) ->
  (forall x, third_party from sp = Some x ->
     owner from <> owner x /\ owner from <> MANAGEMENT_CANISTER /\ owner x <> MANAGEMENT_CANISTER) ->
  validate_memo (Some m) = true ->
  total_supply s + n < U128_MOD ->
  (forall x, third_party from sp = Some x -> FEE < n -> unexpired now old ->
     now + 1 < U64_MOD
     /\ (icrc2_allowance s now from x).2 <> Some now) ->
  (exists r, refund_outcome from sp n m old now s = Some r)
  \/ exists x, third_party from sp = Some x /\ FEE < n /\ unexpired now old /\ restore_clash s now from x n old.
Proof.
  intros Hi Hu Hf Hsp Hn Hold Hown Hm Hsup Hc. apply refund_total_or_clash_after; try done.
  intros x H1 H2 H3. destruct (Hc x H1 H2 H3) as [Hmax Hex]. split; [done|].
  apply refunded_not_now; try done. apply reimburse_decide_ok; try done. by eapply refund_decide.
Qed.

Lemma refund_total from sp n m old now s :
  inv now s -> is_u64 now -> wf_account from -> wf_acct_opt sp -> is_u128 n ->
  (forall e, old = Some e -> 0 < e /\ is_u64 e) ->
  (forall x, third_party from sp = Some x ->
     owner from <> owner x /\ owner from <> MANAGEMENT_CANISTER /\ owner x <> MANAGEMENT_CANISTER) ->
  validate_memo (Some m) = true ->
  total_supply s + n < U128_MOD ->
  (forall x, third_party from sp = Some x -> FEE < n -> unexpired now old ->
     ~ restore_clash s now from x n old /\ now + 1 < U64_MOD
     /\ (icrc2_allowance s now from x).2 <> Some now) ->
  exists r, refund_outcome from sp n m old now s = Some r.
Proof.
  intros Hi Hu Hf Hsp Hn Hold Hown Hm Hsup Hc.
  destruct (refund_total_or_clash from sp n m old now s) as [?|(x & H1 & H2 & H3 & H4)]; try done.
  - intros x H1 H2 H3. by destruct (Hc x H1 H2 H3) as (_ & ?).
  - by destruct (Hc x H1 H2 H3).
Qed.

End WithEnv.
