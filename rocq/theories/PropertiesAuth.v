(** * Who can lower a balance, which calls trap, and the identity of accounts

    C15 C32 C39 *)
From Verif Require Import Base Types Codec CodecFacts CodecProofs State Ledger Canister Effects Spec ApiSpec
  Inv Steps World CallFacts CallCases StepFacts AllowFacts RefundFacts AsyncFacts EventFacts
  DedupFacts PropertiesLog PropertiesDedup PropertiesCalls Demo.

Section WithEnv.
Context `{Env}.

(** ** C15: only the owner or an approved spender lowers a balance *)
Lemma key_owner a b : to_key a = to_key b -> owner a = owner b.
Proof. unfold to_key. congruence. Qed.

(** What the transaction of a call takes from [a] is covered by the caller. *)
Lemma taken_authorised w now caller c sync a :
  reachable w -> ev_ok w (EvCall now caller c sync) ->
  tx_ok now (requested caller c) (w_led w) ->
  op_taken (tx_op (requested caller c)) (to_key a) <> 0 ->
  caller = owner a
  \/ exists sub n e, icrc2_allowance (w_led w) now a (Acct caller sub) = (n, e)
     /\ unexpired now e /\ op_taken (tx_op (requested caller c)) (to_key a) <= n.
Proof.
  intros Hr Hev Hok Hne. destruct (call_inv _ _ _ _ _ Hr Hev) as (Hi & Hu & _).
  destruct (op_spend (tx_op (requested caller c))) as [[k n]|] eqn:Esp.
  - assert (exists from sub, k = approval_key from (Acct caller sub)
      /\ forall k', op_taken (tx_op (requested caller c)) k' = if decide (k' = to_key from) then n else 0)
      as (from & sub & -> & Ht).
    { destruct c; cbn [requested tx_op op_spend op_taken] in *; try done;
        try (destruct (third_party from (Some (Acct caller _))) as [x|] eqn:Ex; [|done];
             apply third_party_Some in Ex as [Ex _]; injection Ex as <-; injection Esp as <- <-; eauto). }
    rewrite Ht in Hne |- *. destruct (decide (to_key a = to_key from)) as [Ek|]; [|done].
    destruct (recorded_spend _ _ _ _ _ _ now Hi Hu Hok (N.le_refl _) Esp) as (n' & e & Ha & Hun & Hle & _).
    right. exists sub, n', e. split; [|done]. rewrite <- Ha.
    unfold icrc2_allowance, allowance, approval_key. by rewrite Ek.
  - left. destruct c; cbn [requested tx_op op_spend op_taken] in *; try done;
      (destruct (decide (to_key a = to_key _)) as [Ek|]; [|done]);
      rewrite (key_owner _ _ Ek); try done;
      match goal with |- _ = owner ?f =>
        destruct (third_party f (Some (Acct caller spender_sub))) eqn:Ex; [done|];
        pose proof (proj1 (third_party_None _ _) Ex _ eq_refl) as E; by apply key_owner in E
      end.
Qed.

Theorem C15_only_owner_or_spender_lowers w ev w' resp a :
  reachable w -> ev_ok w ev -> step w ev = (w', resp) ->
  icrc1_balance_of (w_led w') a < icrc1_balance_of (w_led w) a ->
  exists now caller c sync, ev = EvCall now caller c sync
    /\ (caller = owner a
        \/ exists sub n e, icrc2_allowance (w_led w) now a (Acct caller sub) = (n, e)
           /\ unexpired now e
           /\ icrc1_balance_of (w_led w) a <= icrc1_balance_of (w_led w') a + n).
Proof.
  intros Hr Hev Hst Hlt.
  destruct ev as [now caller c sync|now id ans refund|now args|n|n|now id refund];
    try (pose proof (event_balance _ _ _ _ a Hr Hev Hst I); lia).
  exists now, caller, c, sync. split; [done|].
  destruct (rejected resp) eqn:Erj.
  { destruct (step_rejected _ _ _ _ _ _ _ Hr Hev Hst Erj) as [E _]. rewrite E in Hlt. lia. }
  destruct (step_accepted _ _ _ _ _ _ _ Hr Hev Hst Erj) as (Hok & r & Ha & _).
  destruct (call_inv _ _ _ _ _ Hr Hev) as (Hi & Hu & _).
  assert (icrc1_balance_of (recorded now (requested caller c) (w_led w)) a
          <= icrc1_balance_of (w_led w') a) as Hle.
  { destruct (accepted_outcome _ _ _ _ _ _ _ _ Hi Hu Hok Ha) as [Hm|(p & fb & ab & _ & _ & _ & Hab & Hre)].
    - by rewrite (same_money_balance _ _ _ Hm).
    - by eapply refund_effect_balance. }
  pose proof (recorded_balance _ _ _ a Hok) as Hb. unfold icrc1_balance_of in *.
  destruct (taken_authorised _ _ _ _ _ a Hr Hev Hok) as [?|(sub & n & e & H1 & H2 & H3)]; [lia|by left|].
  right. exists sub, n, e. split; [done|]. split; [done|]. lia.
Qed.

(** ** C39: which calls trap *)
Lemma process_trap t now x :
  process_decide t now = OTrap x -> x = TrapMemoTooLong /\ ~ memo_fits (tx_memo t).
Proof.
  unfold process_decide. destruct (validate_memo (tx_memo t)) eqn:E; simpl.
  - by destruct (validate_created_at_time _ _).
  - intros [= <-]. split; [done|]. intros Hf%memo_fits_ok. congruence.
Qed.
Lemma out_map_trap {E E'} (f : E -> E') (o : outcome trap E unit) x :
  out_map f o = OTrap x -> o = OTrap x.
Proof. destruct o; simpl; congruence. Qed.
Lemma xfer_trap from to sp amount fee m created now s x :
  xfer_decide from to sp amount fee m created now s = OTrap x ->
  x = TrapMemoTooLong /\ ~ memo_fits m.
Proof.
  unfold xfer_decide, transfer_decide. intros Hd.
  repeat match type of Hd with (if ?b then _ else _) = _ => destruct b; [done|] end.
  destruct (tx_hashes s !! _) as [[]|]; [done|].
  repeat match type of Hd with (if ?b then _ else _) = _ => destruct b; [done|] end.
  destruct (match third_party from sp with Some _ => _ | None => _ end); [done|].
  repeat match type of Hd with (if ?b then _ else _) = _ => destruct b; [done|] end.
  apply out_map_trap, process_trap in Hd. done.
Qed.
Lemma xfer_err_no_spender from to amount fee m created now s e :
  xfer_decide from to None amount fee m created now s = OErr e ->
  forall a, e <> TFInsufficientAllowance a.
Proof.
  unfold xfer_decide, transfer_decide. intros Hd a ->.
  repeat match type of Hd with (if ?b then _ else _) = _ => destruct b; [done|] end.
  destruct (tx_hashes s !! _) as [[]|]; [done|].
  repeat match type of Hd with (if ?b then _ else _) = _ => destruct b; [done|] end.
  simpl in Hd.
  repeat match type of Hd with (if ?b then _ else _) = _ => destruct b; [done|] end.
  unfold process_decide in Hd. destruct (negb _); [done|].
  destruct (validate_created_at_time _ _) as [[]|[]]; done.
Qed.
Lemma apr_trap from sp amount expected expires fee m created now s x :
  apr_decide from sp amount expected expires fee m created now s = OTrap x ->
  (x = TrapSelfApproval /\ owner from = owner sp) \/ (x = TrapMemoTooLong /\ ~ memo_fits m).
Proof.
  unfold apr_decide, approve_decide. intros Hd.
  do 2 match type of Hd with (if ?b then _ else _) = _ => destruct b; [done|] end.
  destruct (tx_hashes s !! _) as [[]|]; [done|].
  case_bool_decide; [left; split; [congruence|done]|right].
  repeat match type of Hd with (if ?b then _ else _) = _ => destruct b; [done|] end.
  apply out_map_trap, process_trap in Hd. done.
Qed.
Lemma burn_trap {E} (cp : pt_error -> E) cu nf t from sp amount now s x :
  burn_decide cp cu nf t from sp amount now s = OTrap x ->
  (forall e y, cu e = inr y -> e = CannotDeduceZero) ->
  ~ memo_fits (tx_memo t).
Proof.
  unfold burn_decide. intros Hd Hcu. destruct (tx_hashes s !! _) as [[]|]; [done|].
  destruct (_ <=? _); [done|]. destruct (third_party from sp) as [y|].
  - destruct (check_allowance _ _ _ _ _) as [[r e]|e] eqn:Ec.
    + destruct (_ <? _); [done|]. destruct (process_decide t now) eqn:Ep; [done|done|].
      by apply process_trap in Ep as [_ ?].
    + exfalso. destruct (cu e) as [|z] eqn:Ecu; [done|]. apply Hcu in Ecu as ->.
      unfold check_allowance in Ec. destruct (N.eqb_spec (amount + FEE) 0) as [E0|].
      { unfold FEE in E0. lia. }
      destruct (approvals s !! _) as [[]|]; [|done]. destruct (negb _); [done|].
      unfold u128_checked_sub in Ec. by destruct (_ <=? _).
  - destruct (_ <? _); [done|]. destruct (process_decide t now) eqn:Ep; [done|done|].
    by apply process_trap in Ep as [_ ?].
Qed.
Lemma burn_err_no_spender {E} (cp : pt_error -> E) cu nf t from amount now s e :
  burn_decide cp cu nf t from None amount now s = OErr e -> (exists x, e = cp x) \/ (exists x, e = nf x).
Proof.
  unfold burn_decide. destruct (tx_hashes s !! _) as [[i c]|]; [intros [= <-]; eauto|].
  destruct (_ <=? _); [intros [= <-]; eauto|]. simpl.
  destruct (_ <? _); [intros [= <-]; eauto|]. destruct (process_decide t now); intros [= <-]; eauto.
Qed.
Lemma withdraw_memo_fits to : wf_principal to -> memo_fits (Some (encode_withdraw_memo to)).
Proof.
  intros Hp. pose proof (withdraw_memo_length to Hp) as Hl. unfold memo_fits. rewrite Hl. unfold wf_principal in Hp.
  destruct (_ <? _)%nat; lia.
Qed.

Lemma restore_clash_hash now s from x n old :
  inv now s -> is_u64 now -> wf_account from -> wf_account x ->
  (forall e, old = Some e -> 0 < e /\ is_u64 e) -> restore_clash s now from x n old ->
  exists b, b ∈ blocks s /\ hash_clash (b_tx b) (restoring s now from x n old).
Proof.
  intros Hi Hu Hf Hx Hold (b & Hb & Hh & Hne). exists b. split; [done|].
  apply elem_of_list_lookup in Hb as [i Hb].
  destruct (inv_blk _ _ Hi _ _ Hb) as [((H1 & H2 & _) & _) _].
  destruct (same_hash (b_tx b) (restoring s now from x n old)); try done.
  unfold restoring. simpl. split; [done|]. split; [done|]. split; [unfold is_u128; change (2 ^ 128 - 1) with U128_MAX; assert (U128_MAX + 1 = U128_MOD) by done; lia|].
  split; [done|]. split; [|done].
  assert (wf_u64_opt (usable s now from x).2) as Hw.
  { unfold usable, icrc2_allowance. pose proof (allowance_u64 now s from x Hi).
    destruct (0 <? (allowance s from x now).2); case_decide; done. }
  destruct (usable s now from x).2; [done|]. destruct old as [e|]; [|done]. by apply Hold.
Qed.

(** The approval by which a [_from] call whose outgoing call fails at once gives
    the spender its allowance back: the burn, the refund and the approval itself
    each cost one fee. *)
Definition given_back (s : state) (now : N) (from x : account) : transaction :=
  let (a, e) := icrc2_allowance s now from x in
  Tx (Approve from x (a - 3 * icrc1_fee) None e None) None (Some PENALIZE_MEMO).
(** The corner in which an outgoing call that fails at once makes a [_from] call
    trap: the last nanosecond of the 64-bit clock, or that approval shares its
    hash with a transaction it differs from. *)
Definition immediate_failure_corner (w : world) (now : N) (caller : principal) (c : call)
  (sync : option sync_error) : Prop :=
  exists from x amount, outgoing caller c = Some (from, Some x, amount)
    /\ to_key x <> to_key from /\ (sync <> None \/ w_cycles w < amount)
    /\ 2 * icrc1_fee < amount
    /\ (now + 1 = 2 ^ 64
        \/ exists t, (t = requested caller c \/ exists b, b ∈ blocks (w_led w) /\ t = b_tx b)
           /\ hash_clash t (given_back (w_led w) now from x)).

Lemma restoring_given_back now caller c s from x amount :
  inv now s -> is_u64 now -> tx_ok now (requested caller c) s ->
  outgoing caller c = Some (from, Some x, amount) -> to_key x <> to_key from -> FEE < amount - FEE ->
  restoring (recorded now (requested caller c) s) now from x (amount - FEE) (used_expiry s now from (Some x))
  = given_back s now from x.
Proof.
  intros Hi Hu Hok Ho Hne Hfee.
  pose proof (burn_effect_recorded _ _ _ _ _ _ _ Hi Hu Hok Ho) as (_ & _ & _ & Hal).
  destruct Hal as [_ Hal]. destruct (Hal Hne) as (a & e & Ha & Hun & Hcov & Hafter & _).
  unfold restoring, given_back, usable, used_expiry. rewrite decide_False by done. rewrite (Hafter now), Ha by done.
  unfold icrc1_fee in *. simpl in Hcov.
  assert (is_u128 a) as Hau.
  { rewrite icrc2_allowance_view in Ha. unfold view in Ha.
    destruct (approvals s !! _) as [[a' e']|] eqn:Ek; [|injection Ha as <- <-; done].
    apply (inv_appr _ _ Hi) in Ek as (? & ? & ?). destruct (_ && _); injection Ha as <- <-; done. }
  destruct (N.eqb_spec a (amount + FEE)) as [->|Hna]; cbn [fst snd].
  - rewrite decide_True by done. cbn [fst snd]. do 2 f_equal. change (2 ^ 128 - 1) with U128_MAX.
    assert (U128_MAX + 1 = U128_MOD) by done. unfold is_u128 in *. lia.
  - rewrite decide_True by done. cbn [fst snd]. destruct e; do 2 f_equal; change (2 ^ 128 - 1) with U128_MAX;
    assert (U128_MAX + 1 = U128_MOD) by done; unfold is_u128 in *; lia.
Qed.

Lemma sync_refund_total w now caller c sync from sp amount m :
  reachable w -> ev_ok w (EvCall now caller c sync) ->
  tx_ok now (requested caller c) (w_led w) ->
  outgoing caller c = Some (from, sp, amount) ->
  (sync <> None \/ w_cycles w < amount) ->
  wf_account from -> wf_acct_opt sp -> is_u128 (amount - FEE) -> FEE <= amount ->
  (forall e, used_expiry (w_led w) now from sp = Some e -> 0 < e /\ is_u64 e) ->
  (forall x, third_party from sp = Some x ->
     owner from <> owner x /\ owner from <> MANAGEMENT_CANISTER /\ owner x <> MANAGEMENT_CANISTER) ->
  validate_memo (Some m) = true ->
  refund_outcome from sp (amount - FEE) m (used_expiry (w_led w) now from sp) now
    (recorded now (requested caller c) (w_led w)) = None ->
  immediate_failure_corner w now caller c sync.
Proof.
  intros Hr Hev Hok Ho Hsync Hf Hsp Hamt Hle Hold Hown Hm Hnone.
  destruct (call_inv _ _ _ _ _ Hr Hev) as (Hi & Hu & _).
  assert (inv now (recorded now (requested caller c) (w_led w))) as Hi1 by (by apply recorded_inv).
  pose proof (burn_effect_recorded _ _ _ _ _ _ _ Hi Hu Hok Ho) as (_ & Hsup & _ & Hal).
  pose proof (recorded_blocks now (requested caller c) (w_led w)) as Hblk.
  destruct (inv_supply _ _ Hi) as [_ Hlt].
  unfold icrc1_total_supply, icrc1_fee in Hsup.
  assert (total_supply (recorded now (requested caller c) (w_led w)) + (amount - FEE) < U128_MOD) as Hs1 by lia.
  destruct (decide (now + 1 = U64_MOD /\ FEE < amount - FEE /\ is_Some (third_party from sp))) as [(Hnow & Hfee & [x Ex])|Hnot].
  { apply third_party_Some in Ex as [-> Hne]. exists from, x, amount.
    split; [done|]. split; [done|]. split; [done|]. split; [unfold icrc1_fee; lia|]. by left. }
  destruct (refund_total_or_clash from sp (amount - FEE) m (used_expiry (w_led w) now from sp) now
    (recorded now (requested caller c) (w_led w))) as [[r Hr2]|(x & Hx & Hfee & Hunx & Hcl)]; try done; try congruence.
  - intros x Hx Hfee Hunx. split.
    { destruct (N.eq_dec (now + 1) U64_MOD); [|unfold is_u64 in Hu; lia]. destruct Hnot. rewrite Hx. eauto. }
    apply third_party_Some in Hx as [-> Hne].
    destruct Hal as [_ Hal]. destruct (Hal Hne) as (a & e & Ha & Hun & Hcov & Hafter & _).
    rewrite (Hafter now) by done. simpl. destruct (a =? _); [done|]. intros ->. simpl in Hun. lia.
  - apply third_party_Some in Hx as [-> Hne]. exists from, x, amount.
    split; [done|]. split; [done|]. split; [done|]. split; [unfold icrc1_fee; lia|]. right.
    apply restore_clash_hash in Hcl as (b & Hb & Hh); [|done..].
    rewrite Hblk in Hb. exists (b_tx b). split.
    + apply elem_of_app in Hb as [Hb| ->%elem_of_list_singleton]; [right; eauto|by left].
    + erewrite <- restoring_given_back; [exact Hh|try done..].
Qed.

(** The memo the caller passes. *)
Definition memo_of (c : call) : option memo :=
  match c with
  | CallDeposit _ _ m => m
  | CallTransfer _ _ _ _ m _ => m
  | CallTransferFrom _ _ _ _ _ m _ => m
  | CallApprove _ _ _ _ _ _ m _ => m
  | _ => None
  end.

Lemma after_withdraw_trap w now caller c sync ep from to sp amount created s' t :
  reachable w -> ev_ok w (EvCall now caller c sync) ->
  outgoing caller c = Some (from, sp, amount) ->
  requested caller c = withdraw_tx from to sp amount created ->
  (ep = false -> sp = None) -> wf_account from -> wf_acct_opt sp -> wf_u64_opt created -> wf_principal to ->
  after_withdraw now (w_cycles w) ep from to sp amount created sync (w_led w) = (s', Done (RespTrap t)) ->
  immediate_failure_corner w now caller c sync.
Proof.
  intros Hr Hev Ho Hreq Hep Hf Hsp Hc Hto He.
  destruct (call_inv _ _ _ _ _ Hr Hev) as (Hi & Hu & _).
  unfold after_withdraw in He.
  destruct (wd_decide _ _ _ _ _ _ _) as [old|e|x] eqn:Ed.
  - apply wd_decide_ok in Ed as (Hok & Hp & Ha & _ & ->); [|done..].
    destruct (sync_fail (w_cycles w) amount sync) as [e|] eqn:Esf; [|done].
    rewrite <- Hreq in *. fold (recorded now (requested caller c) (w_led w)) in He.
    assert (inv now (recorded now (requested caller c) (w_led w))) as Hi1 by (by apply recorded_inv).
    unfold sync_rest in He. cbn [resume sync_answer] in He.
    destruct (withdraw_rest_eq ep from sp amount (nblocks (w_led w)) (used_expiry (w_led w) now from sp) now
      (call_error_of_sync e) (w_led w) _ (inv_supply _ _ Hi1)) as [x Hx].
    rewrite Hx in He. clear Hx. unfold wd_fail_rest in He.
    destruct (N.eqb_spec (amount - FEE) 0) as [E|E]; [done|].
    destruct (refund_outcome _ _ _ _ _ _ _) as [[[s2 fb] ab]|] eqn:Er; [done|].
    destruct Hp as (_ & _ & Hamt & _ & Hown & _ & Hold).
    eapply (sync_refund_total w now caller c sync from sp amount PENALIZE_MEMO); try done.
    + unfold sync_fail in Esf. destruct sync; [by left|right].
      by destruct (N.ltb_spec (w_cycles w) amount).
    + unfold is_u128. lia.
    + lia.
  - exfalso. unfold wd_resp, wrep in He. destruct ep; simpl in He; [done|].
    rewrite (Hep eq_refl) in *. unfold wd_decide, withdraw_decide in Ed.
    destruct (_ <=? _); [injection Ed as <-; done|]. destruct (is_self_authenticating to); [injection Ed as <-; done|].
    destruct (_ =? _); [injection Ed as <-; done|].
    apply burn_err_no_spender in Ed as [[x ->]|[x ->]]; [by destruct x|done].
  - exfalso. unfold wd_decide, withdraw_decide in Ed.
    destruct (_ <=? _); [done|]. destruct (is_self_authenticating to); [done|]. destruct (_ =? _); [done|].
    apply burn_trap in Ed; [|by intros []]. apply Ed. simpl. by apply withdraw_memo_fits.
Qed.
Lemma after_create_trap w now caller c sync ep from sp amount created args s' t :
  reachable w -> ev_ok w (EvCall now caller c sync) ->
  outgoing caller c = Some (from, sp, amount) ->
  requested caller c = create_tx from sp amount created ->
  (ep = false -> sp = None) -> wf_account from -> wf_acct_opt sp -> wf_u64_opt created ->
  after_create now (w_cycles w) ep caller from sp amount created args sync (w_led w) = (s', Done (RespTrap t)) ->
  immediate_failure_corner w now caller c sync.
Proof.
  intros Hr Hev Ho Hreq Hep Hf Hsp Hc He.
  destruct (call_inv _ _ _ _ _ Hr Hev) as (Hi & Hu & _).
  unfold after_create in He.
  destruct (cr_decide _ _ _ _ _ _) as [old|e|x] eqn:Ed.
  - apply cr_decide_ok in Ed as (Hok & Hp & ->); [|done..].
    destruct (sync_fail (w_cycles w) amount sync) as [e|] eqn:Esf; [|done].
    rewrite <- Hreq in *. fold (recorded now (requested caller c) (w_led w)) in He.
    assert (inv now (recorded now (requested caller c) (w_led w))) as Hi1 by (by apply recorded_inv).
    unfold sync_rest in He. cbn [resume sync_answer] in He.
    destruct (create_rest_eq ep from sp amount (nblocks (w_led w)) (used_expiry (w_led w) now from sp) created now
      (Err (call_error_of_sync e)) (w_led w) _ (inv_supply _ _ Hi1)) as [x Hx].
    rewrite Hx in He. clear Hx. cbn [flat_create_result] in He. unfold cr_fail_rest in He.
    destruct (N.eqb_spec (amount - FEE) 0) as [E|E]; [done|].
    destruct (refund_outcome _ _ _ _ _ _ _) as [[[s2 fb] ab]|] eqn:Er; [done|].
    destruct Hp as (_ & _ & Hamt & _ & Hown & _ & Hold).
    eapply (sync_refund_total w now caller c sync from sp amount REFUND_MEMO); try done.
    + unfold sync_fail in Esf. destruct sync; [by left|right].
      by destruct (N.ltb_spec (w_cycles w) amount).
    + unfold is_u128. lia.
    + lia.
  - exfalso. unfold cr_resp, crep in He. destruct ep; simpl in He; [done|].
    rewrite (Hep eq_refl) in *. unfold cr_decide, create_decide in Ed.
    destruct (_ <=? _); [injection Ed as <-; done|].
    apply burn_err_no_spender in Ed as [[x ->]|[x ->]]; [by destruct x|done].
  - exfalso. unfold cr_decide, create_decide in Ed.
    destruct (_ <=? _); [done|]. apply burn_trap in Ed; [|by intros []]. apply Ed. simpl. lia.
Qed.

Theorem C39_traps w now caller c sync w' t :
  reachable w -> ev_ok w (EvCall now caller c sync) ->
  step w (EvCall now caller c sync) = (w', RespTrap t) ->
  unchanged w w'
  /\ (t = TrapMemoTooLong /\ ~ memo_fits (memo_of c)
      \/ t = TrapSelfApproval /\ (exists sub sp amount ea ex fee m created,
           c = CallApprove sub sp amount ea ex fee m created /\ owner sp = caller)
      \/ t = TrapDepositRejected /\ (exists cycles to m, c = CallDeposit cycles to m
           /\ (cycles <= icrc1_fee
               \/ 2 ^ 128 <= icrc1_total_supply (w_led w) + (cycles - icrc1_fee)))
      \/ immediate_failure_corner w now caller c sync).
Proof.
  intros Hr Hev Hst. split; [by eapply step_rejected|].
  destruct (call_inv _ _ _ _ _ Hr Hev) as (Hi & Hu & Hcl & Hwf). pose proof (inv_supply _ _ Hi) as Hs.
  pose proof Hst as Hst0.
  apply step_call in Hst as (s' & r & He & _ & Hm).
  assert (r = Done (RespTrap t)) as ->.
  { destruct r; destruct Hm as [Hm _]; congruence. } clear Hm.
  destruct c as [cycles to m|sub to amount fee m created|sub from to amount fee m created
    |sub sp amount expected expires fee m created|sub to created amount|sub from to created amount
    |sub created amount args|from sub created amount args]; simpl in Hwf.
  - rewrite exec_deposit in He. unfold dep_decide, mint_decide in He. unfold icrc1_fee, icrc1_total_supply.
    change (2 ^ 128) with U128_MOD.
    pose proof (supply_bal (w_led w) (to_key to) Hs) as Hsb. fold (balance_of (w_led w) to) in Hsb.
    destruct (N.leb_spec cycles FEE).
    { injection He as _ <-. right; right; left. split; [done|]. exists cycles, to, m. eauto. }
    destruct (N.leb_spec U128_MOD (total_supply (w_led w) + (cycles - FEE))) as [Hov|Hov].
    { rewrite orb_true_r in He. injection He as _ <-. right; right; left. split; [done|].
      exists cycles, to, m. eauto. }
    assert (U128_MOD <=? balance_of (w_led w) to + (cycles - FEE) = false) as Eb by (apply N.leb_gt; lia).
    rewrite Eb in He. simpl in He. destruct (validate_memo m) eqn:Em; simpl in He; [done|].
    injection He as _ <-. left. split; [done|]. intros Hf%memo_fits_ok. simpl in Hf. congruence.
  - rewrite exec_transfer in He by done.
    destruct (xfer_decide _ _ _ _ _ _ _ _ _) as [[]|e|x] eqn:Ed; [done| |].
    + exfalso. unfold xfer_resp in He. pose proof (xfer_err_no_spender _ _ _ _ _ _ _ _ _ Ed) as Hne.
      destruct e; simpl in He; try done. by edestruct Hne.
    + injection He as _ <-. left. by apply xfer_trap in Ed.
  - rewrite exec_transfer_from in He by done.
    destruct (xfer_decide _ _ _ _ _ _ _ _ _) as [[]|e|x] eqn:Ed; [done|done|].
    injection He as _ <-. left. by apply xfer_trap in Ed.
  - rewrite exec_approve in He by done.
    destruct (apr_decide _ _ _ _ _ _ _ _ _ _) as [[]|e|x] eqn:Ed; [done|done|].
    injection He as _ <-. apply apr_trap in Ed as [[-> Ho]|?]; [|by left].
    right; left. split; [done|]. repeat eexists. by rewrite <- Ho.
  - destruct Hwf as (Hsub & Hto & Hc). rewrite exec_withdraw in He by done. right; right; right.
    eapply after_withdraw_trap; [exact Hr|exact Hev|reflexivity|reflexivity|..|exact He]; done.
  - destruct Hwf as (Hsub & Hf & Hto & Hc). rewrite exec_withdraw_from in He by done. right; right; right.
    eapply after_withdraw_trap; [exact Hr|exact Hev|reflexivity|reflexivity|..|exact He]; done.
  - destruct Hwf as (Hsub & Hc). rewrite exec_create in He by done. right; right; right.
    eapply after_create_trap; [exact Hr|exact Hev|reflexivity|reflexivity|..|exact He]; done.
  - destruct Hwf as (Hf & Hsub & Hc). rewrite exec_create_from in He by done. right; right; right.
    eapply after_create_trap; [exact Hr|exact Hev|reflexivity|reflexivity|..|exact He]; done.
Qed.

(** In particular the endpoints without a spender never trap on
    [InsufficientAllowance]: [withdraw] and [create_canister] never trap at all,
    [icrc1_transfer] only on an over-long memo. *)
Theorem C39_no_spender_no_trap w now caller c sync w' t :
  reachable w -> ev_ok w (EvCall now caller c sync) ->
  step w (EvCall now caller c sync) = (w', RespTrap t) ->
  match c with
  | CallTransfer _ _ _ _ m _ => t = TrapMemoTooLong /\ ~ memo_fits m
  | CallWithdraw _ _ _ _ => False
  | CallCreateCanister _ _ _ _ => False
  | _ => t <> TrapInsufficientAllowance \/ immediate_failure_corner w now caller c sync
  end.
Proof.
  intros Hr Hev Hst. destruct (C39_traps _ _ _ _ _ _ _ Hr Hev Hst) as [_ Ht].
  destruct c; destruct Ht as [[-> Hm]|[[-> (? & ? & ? & ? & ? & ? & ? & ? & ? & ?)]|[[-> (? & ? & ? & ? & ?)]|Hc]]];
    try done; try (by left); try (by right);
    destruct Hc as (? & ? & ? & Ho & _); simpl in Ho; try done; try congruence; by contradict Hm.
Qed.

(** ** C32: the default subaccount has one identity *)

(** Subaccounts are 32-byte numbers; 0 is the all-zero one. *)
Definition same_sub (x y : option subaccount) : Prop := default 0 x = default 0 y.
Definition same_account (a b : account) : Prop :=
  owner a = owner b /\ same_sub (subacct a) (subacct b).

(** Two calls that differ only in how accounts are written. *)
Definition same_call (c c' : call) : Prop :=
  match c, c' with
  | CallDeposit n to m, CallDeposit n' to' m' => same_account to to' /\ (n, m) = (n', m')
  | CallTransfer sub to a f m t, CallTransfer sub' to' a' f' m' t' =>
      same_sub sub sub' /\ same_account to to' /\ (a, f, m, t) = (a', f', m', t')
  | CallTransferFrom sub from to a f m t, CallTransferFrom sub' from' to' a' f' m' t' =>
      same_sub sub sub' /\ same_account from from' /\ same_account to to'
      /\ (a, f, m, t) = (a', f', m', t')
  | CallApprove sub sp a ea ex f m t, CallApprove sub' sp' a' ea' ex' f' m' t' =>
      same_sub sub sub' /\ same_account sp sp' /\ (a, ea, ex, f, m, t) = (a', ea', ex', f', m', t')
  | CallWithdraw sub to t a, CallWithdraw sub' to' t' a' =>
      same_sub sub sub' /\ (to, t, a) = (to', t', a')
  | CallWithdrawFrom sub from to t a, CallWithdrawFrom sub' from' to' t' a' =>
      same_sub sub sub' /\ same_account from from' /\ (to, t, a) = (to', t', a')
  | CallCreateCanister sub t a args, CallCreateCanister sub' t' a' args' =>
      same_sub sub sub' /\ (t, a, args) = (t', a', args')
  | CallCreateCanisterFrom from sub t a args, CallCreateCanisterFrom from' sub' t' a' args' =>
      same_account from from' /\ same_sub sub sub' /\ (t, a, args) = (t', a', args')
  | _, _ => False
  end.

Lemma key_same a b : to_key a = to_key b -> same_account a b.
Proof. unfold to_key, same_account, same_sub. intros E. injection E as E1 E2. by destruct (subacct a), (subacct b). Qed.
Lemma same_key a b : same_account a b -> to_key a = to_key b.
Proof.
  intros [H1 H2]. unfold to_key. rewrite H1. f_equal. unfold same_sub in H2.
  by destruct (subacct a), (subacct b).
Qed.
Lemma same_caller p x y : same_sub x y -> same_account (Acct p x) (Acct p y).
Proof. done. Qed.

Theorem C32_queries a b c d s now :
  same_account a b -> same_account c d ->
  icrc1_balance_of s a = icrc1_balance_of s b
  /\ icrc2_allowance s now a c = icrc2_allowance s now b d.
Proof.
  intros H1%same_key H2%same_key. unfold icrc1_balance_of, balance_of, icrc2_allowance, allowance, approval_key.
  by rewrite H1, H2.
Qed.

Lemma third_party_same from from' sp sp' :
  same_account from from' -> same_account sp sp' ->
  third_party from (Some sp) = None /\ third_party from' (Some sp') = None
  \/ third_party from (Some sp) = Some sp /\ third_party from' (Some sp') = Some sp'.
Proof.
  intros H1%same_key H2%same_key.
  destruct (decide (to_key sp = to_key from)) as [E|E].
  - left. split; apply third_party_None; intros x [= <-]; congruence.
  - right. split; apply third_party_Some; (split; [done|congruence]).
Qed.
Lemma check_allowance_same s from from' sp sp' n now :
  same_account from from' -> same_account sp sp' ->
  check_allowance s from sp n now = check_allowance s from' sp' n now.
Proof.
  intros H1%same_key H2%same_key. unfold check_allowance, approval_key. by rewrite H1, H2.
Qed.
Lemma balance_same s a b : same_account a b -> balance_of s a = balance_of s b.
Proof. intros H1%same_key. unfold balance_of. by rewrite H1. Qed.

Definition same_spender (x y : option account) : Prop :=
  match x, y with Some a, Some b => same_account a b | None, None => True | _, _ => False end.

Lemma xfer_same from from' to to' sp sp' amount fee m created now s :
  same_account from from' -> same_account to to' -> same_spender sp sp' ->
  (amount < U128_MOD -> match fee with Some f => f < U128_MOD | None => True end ->
     tx_hashes s !! txh (Tx (Transfer from to sp amount fee) created m) = None) ->
  (amount < U128_MOD -> match fee with Some f => f < U128_MOD | None => True end ->
     tx_hashes s !! txh (Tx (Transfer from' to' sp' amount fee) created m) = None) ->
  xfer_decide from to sp amount fee m created now s = xfer_decide from' to' sp' amount fee m created now s.
Proof.
  intros Hf Ht Hs H1 H2. unfold xfer_decide.
  rewrite (balance_same _ _ _ Hf). destruct (N.leb_spec U128_MOD amount) as [|Ha]; [done|].
  destruct (match fee with Some f => _ | None => _ end) eqn:Ef; [done|]. apply small_opt in Ef.
  unfold transfer_decide. rewrite (H1 Ha Ef), (H2 Ha Ef).
  rewrite (balance_same _ _ _ Hf), (balance_same _ _ _ Ht).
  destruct Hf as [Hof Hf'], Ht as [Hot Ht']. rewrite Hof, Hot.
  assert (same_account from from') as Hf by done.
  assert (process_decide (Tx (Transfer from to sp amount fee) created m) now
          = process_decide (Tx (Transfer from' to' sp' amount fee) created m) now) as -> by done.
  destruct sp as [x|], sp' as [y|]; try done. simpl in Hs.
  destruct (third_party_same from from' x y Hf Hs) as [[-> ->]|[-> ->]].
  - destruct Hs as [-> _]. done.
  - rewrite (check_allowance_same s from from' x y _ now Hf Hs). destruct Hs as [-> _]. done.
Qed.
Lemma apr_same from from' sp sp' amount expected expires fee m created now s :
  same_account from from' -> same_account sp sp' ->
  (match expected with Some f => f < U128_MOD | None => True end ->
   match fee with Some f => f < U128_MOD | None => True end ->
     tx_hashes s !! txh (Tx (Approve from sp (capped amount) expected expires fee) created m) = None) ->
  (match expected with Some f => f < U128_MOD | None => True end ->
   match fee with Some f => f < U128_MOD | None => True end ->
     tx_hashes s !! txh (Tx (Approve from' sp' (capped amount) expected expires fee) created m) = None) ->
  apr_decide from sp amount expected expires fee m created now s
  = apr_decide from' sp' amount expected expires fee m created now s.
Proof.
  intros Hf Hs H1 H2. unfold apr_decide. fold (capped amount).
  assert (allowance s from sp now = allowance s from' sp' now) as Hal.
  { unfold allowance, approval_key. by rewrite (same_key _ _ Hf), (same_key _ _ Hs). }
  rewrite Hal. destruct (match expected with Some f => _ | None => _ end) eqn:Ee; [done|].
  destruct (match fee with Some f => _ | None => _ end) eqn:Ef; [done|]. apply small_opt in Ef, Ee.
  unfold approve_decide. rewrite (H1 Ee Ef), (H2 Ee Ef). rewrite (balance_same _ _ _ Hf), Hal.
  destruct Hf as [-> _], Hs as [-> _].
  assert (process_decide (Tx (Approve from sp (capped amount) expected expires fee) created m) now
          = process_decide (Tx (Approve from' sp' (capped amount) expected expires fee) created m) now) as -> by done.
  done.
Qed.
Lemma burn_same {E} (cp : pt_error -> E) cu nf t t' from from' sp sp' amount now s :
  same_account from from' -> same_spender sp sp' ->
  tx_memo t = tx_memo t' -> tx_created_at t = tx_created_at t' ->
  tx_hashes s !! txh t = None -> tx_hashes s !! txh t' = None ->
  burn_decide cp cu nf t from sp amount now s = burn_decide cp cu nf t' from' sp' amount now s.
Proof.
  intros Hf Hs Hm Hc H1 H2. unfold burn_decide. rewrite H1, H2, (balance_same _ _ _ Hf).
  assert (process_decide t now = process_decide t' now) as ->.
  { unfold process_decide. by rewrite Hm, Hc. }
  destruct sp as [x|], sp' as [y|]; try done. simpl in Hs.
  destruct (third_party_same from from' x y Hf Hs) as [[-> ->]|[-> ->]]; [done|].
  by rewrite (check_allowance_same s from from' x y _ now Hf Hs).
Qed.

Definition rejected_result (r : msg_result) : bool :=
  match r with Done resp => rejected resp | Waiting _ => false end.

Lemma exec_same now avail caller c c' s s1 r1 s2 r2 :
  supply_ok s -> same_call c c' ->
  (checkable c -> tx_hashes s !! txh (requested caller c) = None) ->
  (checkable c' -> tx_hashes s !! txh (requested caller c') = None) ->
  (forall from sp n, outgoing caller c = Some (from, sp, n) -> n <= avail) ->
  exec_call now avail caller c None s = (s1, r1) ->
  exec_call now avail caller c' None s = (s2, r2) ->
  (s1 = s /\ s2 = s /\ rejected_result r1 = true /\ rejected_result r2 = true)
  \/ (s1 = recorded now (requested caller c) s /\ s2 = recorded now (requested caller c') s
      /\ rejected_result r1 = false /\ rejected_result r2 = false).
Proof.
  intros Hs Hsame H1 H2 Hav E1 E2.
  assert (forall n, n <= avail -> sync_fail avail n None = None) as Hsf.
  { intros n Hn. unfold sync_fail. destruct (N.ltb_spec avail n); [lia|done]. }
  assert (forall (ep : bool) from from' to sp sp' amount created,
    amount <= avail -> same_account from from' -> same_spender sp sp' ->
    (amount < U128_MOD /\ amount <> 0 /\ is_self_authenticating to = false ->
       tx_hashes s !! txh (withdraw_tx from to sp amount created) = None) ->
    (amount < U128_MOD /\ amount <> 0 /\ is_self_authenticating to = false ->
       tx_hashes s !! txh (withdraw_tx from' to sp' amount created) = None) ->
    after_withdraw now avail ep from to sp amount created None s = (s1, r1) ->
    after_withdraw now avail ep from' to sp' amount created None s = (s2, r2) ->
    (s1 = s /\ s2 = s /\ rejected_result r1 = true /\ rejected_result r2 = true)
    \/ (s1 = recorded now (withdraw_tx from to sp amount created) s
        /\ s2 = recorded now (withdraw_tx from' to sp' amount created) s
        /\ rejected_result r1 = false /\ rejected_result r2 = false)) as Hwd.
  { clear E1 E2 H1 H2. intros ep from from' to sp sp' amount created Ha Hf Hsp H1 H2 E1 E2.
    unfold after_withdraw in E1, E2. rewrite Hsf in E1, E2 by done.
    assert (wd_decide from to sp amount created now s = wd_decide from' to sp' amount created now s) as Ed.
    { unfold wd_decide, withdraw_decide. rewrite (balance_same _ _ _ Hf).
      destruct (N.leb_spec U128_MOD amount); [done|]. destruct (is_self_authenticating to); [done|].
      destruct (N.eqb_spec amount 0); [done|]. by apply burn_same; eauto. }
    rewrite Ed in E1. destruct (wd_decide from' to sp' amount created now s) as [old|e|x] eqn:Ed'.
    - injection E1 as <- <-. injection E2 as <- <-. by right.
    - injection E1 as <- <-. injection E2 as <- <-. left.
      pose proof (wd_resp_rejected ep e (wd_decide_err _ _ _ _ _ _ _ _ Ed')). done.
    - injection E1 as <- <-. injection E2 as <- <-. by left. }
  assert (forall (ep : bool) from from' sp sp' amount created args,
    amount <= avail -> same_account from from' -> same_spender sp sp' ->
    (amount < U128_MOD -> tx_hashes s !! txh (create_tx from sp amount created) = None) ->
    (amount < U128_MOD -> tx_hashes s !! txh (create_tx from' sp' amount created) = None) ->
    after_create now avail ep caller from sp amount created args None s = (s1, r1) ->
    after_create now avail ep caller from' sp' amount created args None s = (s2, r2) ->
    (s1 = s /\ s2 = s /\ rejected_result r1 = true /\ rejected_result r2 = true)
    \/ (s1 = recorded now (create_tx from sp amount created) s
        /\ s2 = recorded now (create_tx from' sp' amount created) s
        /\ rejected_result r1 = false /\ rejected_result r2 = false)) as Hcr.
  { clear E1 E2 H1 H2. intros ep from from' sp sp' amount created args Ha Hf Hsp H1 H2 E1 E2.
    unfold after_create in E1, E2. rewrite Hsf in E1, E2 by done.
    assert (cr_decide from sp amount created now s = cr_decide from' sp' amount created now s) as Ed.
    { unfold cr_decide, create_decide. rewrite (balance_same _ _ _ Hf).
      destruct (N.leb_spec U128_MOD amount); [done|]. by apply burn_same; eauto. }
    rewrite Ed in E1. destruct (cr_decide from' sp' amount created now s) as [old|e|x] eqn:Ed'.
    - injection E1 as <- <-. injection E2 as <- <-. by right.
    - injection E1 as <- <-. injection E2 as <- <-. left.
      pose proof (cr_resp_rejected ep e (cr_decide_err _ _ _ _ _ _ _ Ed')). done.
    - injection E1 as <- <-. injection E2 as <- <-. by left. }
  destruct c as [cycles to m|sub to amount fee m created|sub from to amount fee m created
    |sub sp amount expected expires fee m created|sub to created amount|sub from to created amount
    |sub created amount args|from sub created amount args]; destruct c'; try done; simpl in Hsame.
  - destruct Hsame as [Hto Heq]. injection Heq as <- <-. rewrite exec_deposit in E1, E2.
    assert (dep_decide to cycles m s = dep_decide to0 cycles m s) as Ed.
    { unfold dep_decide, mint_decide. by rewrite (balance_same _ _ _ Hto). }
    rewrite Ed in E1. destruct (dep_decide to0 cycles m s); injection E1 as <- <-; injection E2 as <- <-;
      [by right|by left|by left].
  - destruct Hsame as (Hsub & Hto & Heq). injection Heq as <- <- <- <-. apply (same_caller caller) in Hsub.
    rewrite exec_transfer in E1, E2 by done.
    rewrite (xfer_same _ (Acct caller from_sub) _ to0 _ None) in E1; try done; try (intros; by (apply H1 || apply H2)).
    destruct (xfer_decide _ _ _ _ _ _ _ _ _) as [[]|e|x]; injection E1 as <- <-; injection E2 as <- <-;
      [by right|left|by left]. unfold xfer_resp. by destruct (t_of_tf e).
  - destruct Hsame as (Hsub & Hf & Hto & Heq). injection Heq as <- <- <- <-. apply (same_caller caller) in Hsub.
    rewrite exec_transfer_from in E1, E2 by done.
    rewrite (xfer_same _ from0 _ to0 _ (Some (Acct caller spender_sub))) in E1; try done; try (intros; by (apply H1 || apply H2)).
    destruct (xfer_decide _ _ _ _ _ _ _ _ _) as [[]|e|x]; injection E1 as <- <-; injection E2 as <- <-;
      [by right|by left|by left].
  - destruct Hsame as (Hsub & Hsp & Heq). injection Heq as <- <- <- <- <- <-. apply (same_caller caller) in Hsub.
    rewrite exec_approve in E1, E2 by done. unfold requested in H1, H2 |- *. rewrite <- capped_min in *.
    rewrite (apr_same _ (Acct caller from_sub) _ spender) in E1; try done; try (intros; by (apply H1 || apply H2)).
    destruct (apr_decide _ _ _ _ _ _ _ _ _ _) as [[]|e|x]; injection E1 as <- <-; injection E2 as <- <-;
      [by right|by left|by left].
  - destruct Hsame as (Hsub & Heq). injection Heq as <- <- <-. apply (same_caller caller) in Hsub.
    rewrite exec_withdraw in E1, E2 by done. eapply Hwd; try done. by eapply Hav.
  - destruct Hsame as (Hsub & Hf & Heq). injection Heq as <- <- <-. apply (same_caller caller) in Hsub.
    rewrite exec_withdraw_from in E1, E2 by done. eapply Hwd; try done. by eapply Hav.
  - destruct Hsame as (Hsub & Heq). injection Heq as <- <- <-. apply (same_caller caller) in Hsub.
    rewrite exec_create in E1, E2 by done. eapply Hcr; try done. by eapply Hav.
  - destruct Hsame as (Hf & Hsub & Heq). injection Heq as <- <- <-. apply (same_caller caller) in Hsub.
    rewrite exec_create_from in E1, E2 by done. eapply Hcr; try done. by eapply Hav.
Qed.

(** The usable allowance is what the log says. *)
Lemma usable_live w tm f p :
  reachable w -> w_clock w <= tm ->
  usable (w_led w) tm f p = live_allowance (blocks (w_led w)) (to_key f, to_key p) tm.
Proof.
  intros Hr Htm. unfold usable.
  destruct (C03_log_determines_live_allowances w f p tm Hr Htm) as [E|(a & Hl & E)].
  - rewrite E. unfold live_allowance. destruct (log_allowance _ _) as [[a x]|]; [|done].
    destruct (decide (unexpired tm x)); [|done]. by rewrite decide_True.
  - rewrite E. unfold live_allowance. rewrite Hl. assert (~ unexpired tm (Some tm)) by (simpl; lia).
    by rewrite !decide_False.
Qed.

Lemma same_requested caller c c' now s :
  same_call c c' ->
  let b := mk_block now (requested caller c) s in
  let b' := mk_block now (requested caller c') s in
  (forall k, op_taken (tx_op (requested caller c)) k = op_taken (tx_op (requested caller c')) k
             /\ op_given (tx_op (requested caller c)) k = op_given (tx_op (requested caller c')) k)
  /\ op_burned (tx_op (requested caller c)) = op_burned (tx_op (requested caller c'))
  /\ op_minted (tx_op (requested caller c)) = op_minted (tx_op (requested caller c'))
  /\ approved_by b = approved_by b' /\ spent_by b = spent_by b'.
Proof.
  intros Hsame. destruct c, c'; try done; cbn [same_call] in Hsame; destruct_and?; simplify_eq;
    repeat match goal with
    | H : same_account ?a ?b |- _ => apply same_key in H
    | H : same_sub ?a ?b |- _ => apply (same_caller caller) in H; apply same_key in H
    end;
    unfold approved_by, spent_by, fee_of, mk_block; cbn [b_tx b_effective_fee requested tx_op op_taken op_given op_burned op_minted];
    split_and!; intros; repeat match goal with H : to_key _ = to_key _ |- _ => rewrite ?H; clear H end; done.
Qed.

Theorem C32_default_subaccount w now caller c c' w1 r1 w2 r2 :
  reachable w -> ev_ok w (EvCall now caller c None) -> ev_ok w (EvCall now caller c' None) ->
  same_call c c' ->
  step w (EvCall now caller c None) = (w1, r1) -> step w (EvCall now caller c' None) = (w2, r2) ->
  duplicate_of r1 = None -> duplicate_of r2 = None ->
  (forall from sp n, outgoing caller c = Some (from, sp, n) -> n <= w_cycles w) ->
  rejected r1 = rejected r2
  /\ (forall a, icrc1_balance_of (w_led w1) a = icrc1_balance_of (w_led w2) a)
  /\ icrc1_total_supply (w_led w1) = icrc1_total_supply (w_led w2)
  /\ (forall tm f p, now <= tm -> usable (w_led w1) tm f p = usable (w_led w2) tm f p).
Proof.
  intros Hr Hev Hev' Hsame Hst Hst' Hd1 Hd2 Hav.
  destruct (call_inv _ _ _ _ _ Hr Hev) as (Hi & Hu & Hcl & Hwf).
  destruct (call_inv _ _ _ _ _ Hr Hev') as (_ & _ & _ & Hwf').
  assert (reachable w1) as Hr1 by (replace w1 with (step w (EvCall now caller c None)).1 by (by rewrite Hst); by constructor).
  assert (reachable w2) as Hr2 by (replace w2 with (step w (EvCall now caller c' None)).1 by (by rewrite Hst'); by constructor).
  pose proof Hst as Hst0. pose proof Hst' as Hst0'.
  apply step_call in Hst as (s1 & m1 & E1 & Hl1 & Hm1). apply step_call in Hst' as (s2 & m2 & E2 & Hl2 & Hm2).
  assert (forall c s' m w' r, exec_call now (w_cycles w) caller c None (w_led w) = (s', m) ->
    duplicate_of r = None ->
    match m with Done r' => r = r' /\ w' = World s' now (w_pend w) (w_next w)
                              (w_cycles w + accepted_cycles c r) (w_used w)
    | Waiting p => r = RespPending (w_next w) (outcall_of p)
                   /\ w' = World s' now (<[w_next w := p]> (w_pend w)) (w_next w + 1)
                              (w_cycles w - pending_amount p) (w_used w) end ->
    (checkable c -> tx_hashes (w_led w) !! txh (requested caller c) = None)
    /\ rejected r = rejected_result m /\ w_clock w' = now) as Hx.
  { intros c0 s' m w' r He Hd Hm. split; [|destruct m; destruct Hm as [-> ->]; done].
    intros Hch. destruct (tx_hashes _ !! _) as [[i x]|] eqn:Et; [|done]. exfalso.
    destruct (exec_known now (w_cycles w) caller c0 None (w_led w) i x (inv_supply _ _ Hi) Hch Et) as (r' & He' & Hd' & _).
    rewrite He in He'. injection He' as -> ->. destruct Hm as [-> _]. congruence. }
  destruct (Hx _ _ _ _ _ E1 Hd1 Hm1) as (Ht1 & Hj1 & Hc1).
  destruct (Hx _ _ _ _ _ E2 Hd2 Hm2) as (Ht2 & Hj2 & Hc2). clear Hx.
  destruct (exec_same _ _ _ _ _ _ _ _ _ _ (inv_supply _ _ Hi) Hsame Ht1 Ht2 Hav E1 E2)
    as [(Es1 & Es2 & Hb1 & Hb2)|(Es1 & Es2 & Hb1 & Hb2)].
  - rewrite Hl1, Hl2, Es1, Es2. split; [congruence|]. done.
  - split; [congruence|]. rewrite Hb1 in Hj1. rewrite Hb2 in Hj2.
    destruct (step_accepted _ _ _ _ _ _ _ Hr Hev Hst0 Hj1) as (Hok1 & _).
    destruct (step_accepted _ _ _ _ _ _ _ Hr Hev' Hst0' Hj2) as (Hok2 & _).
    destruct (same_requested caller c c' now (w_led w) Hsame) as (Htg & Hbu & Hmi & Hap & Hspn).
    split; [|split].
    + intros a. pose proof (recorded_balance _ _ _ a Hok1) as B1. pose proof (recorded_balance _ _ _ a Hok2) as B2.
      destruct (Htg (to_key a)) as [T1 T2]. rewrite T1, T2 in B1. rewrite Hl1, Hl2, Es1, Es2.
      unfold icrc1_balance_of. lia.
    + pose proof (recorded_supply _ _ _ Hi Hok1) as B1. pose proof (recorded_supply _ _ _ Hi Hok2) as B2.
      rewrite Hbu, Hmi in B1. rewrite Hl1, Hl2, Es1, Es2. unfold icrc1_total_supply. lia.
    + intros tm f p Htm. rewrite !usable_live by (done || lia). rewrite Hl1, Hl2, Es1, Es2, !recorded_blocks.
      unfold live_allowance, log_allowance. rewrite !foldl_app. simpl. unfold allowance_step at 1 4.
      rewrite Hap, Hspn. done.
Qed.

End WithEnv.

(** ** Cases that meet the hypotheses *)

(** C15: bob's transfer_from lowers alice's balance. *)
Example C15_case :
  answers (demo_at 3)
    (EvCall (T0 + 4 * sec) bob (CallTransferFrom None (acct alice) (acct carol) T None None None) None)
    (RespReply (RepTransferFrom (Ok 4)))
  /\ icrc1_balance_of (w_led (demo_at 4)) (acct alice) < icrc1_balance_of (w_led (demo_at 3)) (acct alice)
  /\ bob <> owner (acct alice).
Proof.
  split; [split; [apply demo_at_reachable; vm_compute; reflexivity|];
          split; [apply ev_okb_ok; vm_compute; reflexivity|vm_compute; reflexivity]|].
  split; [vm_compute; reflexivity|vm_compute; congruence].
Qed.

(** C39: calls that trap *)
Example C39_case :
  answers (demo_at 2)
    (EvCall (T0 + 3 * sec) alice (CallTransfer None (acct bob) T None (Some (replicate 33 Byte.x00)) None) None)
    (RespTrap TrapMemoTooLong)
  /\ answers (demo_at 2)
       (EvCall (T0 + 3 * sec) alice (CallApprove None alice1 T None None None None None) None)
       (RespTrap TrapSelfApproval)
  /\ answers (demo_at 2)
       (EvCall (T0 + 3 * sec) alice (CallDeposit FEE alice1 None) None) (RespTrap TrapDepositRejected).
Proof.
  assert (reachable (demo_at 2)) as Hr by (apply demo_at_reachable; vm_compute; reflexivity).
  split; [split; [exact Hr|]|split; (split; [exact Hr|])];
    (split; [apply ev_okb_ok; vm_compute; reflexivity|vm_compute; reflexivity]).
Qed.

(** C32: the same call with alice's default subaccount written in two ways *)
Example C32_case :
  let c s := CallTransferFrom None (Acct alice s) (acct carol) T None None None in
  let ev s := EvCall (T0 + 4 * sec) bob (c s) None in
  reachable (demo_at 3) /\ ev_ok (demo_at 3) (ev None) /\ ev_ok (demo_at 3) (ev (Some 0))
  /\ same_call (c None) (c (Some 0)) /\ c None <> c (Some 0)
  /\ rejected (step (demo_at 3) (ev None)).2 = false
  /\ (step (demo_at 3) (ev (Some 0))).2 = RespReply (RepTransferFrom (Ok 4)).
Proof.
  cbv zeta. split; [apply demo_at_reachable; vm_compute; reflexivity|].
  split; [apply ev_okb_ok; vm_compute; reflexivity|]. split; [apply ev_okb_ok; vm_compute; reflexivity|].
  split; [repeat split|]. split; [congruence|]. split; vm_compute; reflexivity.
Qed.

Print Assumptions C15_only_owner_or_spender_lowers.
Print Assumptions C39_traps.
Print Assumptions C39_no_spender_no_trap.
Print Assumptions C32_queries.
Print Assumptions C32_default_subaccount.
