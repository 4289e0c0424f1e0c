(** * What update calls do and do not do

    C11 C12 C13 C14 C16 C17 C18 C21 C40 *)
From Verif Require Import Base Types Codec CodecFacts CodecProofs State Ledger Canister Effects Spec ApiSpec
  Inv Steps World CallFacts CallCases StepFacts AllowFacts DedupFacts PropertiesDedup Demo.

Section WithEnv.
Context `{Env}.

(** ** C11: failed calls change nothing *)
Theorem C11_rejected_calls_change_nothing w now caller c sync w' resp :
  reachable w -> ev_ok w (EvCall now caller c sync) ->
  step w (EvCall now caller c sync) = (w', resp) ->
  rejected resp = true -> unchanged w w'.
Proof. apply step_rejected. Qed.

(** Calls that finish in one message *)
Lemma accepted_done w now caller c sync w' resp :
  reachable w -> ev_ok w (EvCall now caller c sync) ->
  step w (EvCall now caller c sync) = (w', resp) -> rejected resp = false ->
  pending_of now caller c (w_led w) = None ->
  inv now (w_led w) /\ is_u64 now
  /\ tx_ok now (requested caller c) (w_led w) /\ w_led w' = recorded now (requested caller c) (w_led w)
  /\ done_reply caller c (nblocks (w_led w)) (w_led w') = Some resp
  /\ w_pend w' = w_pend w /\ w_cycles w' = w_cycles w + accepted_cycles c resp.
Proof.
  intros Hr Hev Hst Hrej Hnp. destruct (call_inv _ _ _ _ _ Hr Hev) as (Hi & Hu & _).
  destruct (step_accepted _ _ _ _ _ _ _ Hr Hev Hst Hrej) as (Hok & r & Ha & Hm).
  split; [done|]. split; [done|]. split; [done|].
  destruct Ha as [s1 resp' Hs1 Hd|s1 p _ Hp|s1 p e s' resp' _ Hp].
  - destruct Hm as [<- ->]. simpl. by split_and!.
  - by rewrite Hnp in Hp.
  - by rewrite Hnp in Hp.
Qed.

Lemma recorded_one_block now t s : one_new_block s (recorded now t s) now t (nblocks s).
Proof. exists (mk_block now t s). by rewrite recorded_blocks. Qed.
Lemma recorded_others now t s :
  inv now s -> is_u64 now -> tx_ok now t s ->
  other_allowances_kept s (recorded now t s) now (op_pair (tx_op t)).
Proof. intros Hi Hu Hok tm f p Ht Hp Hun. by apply recorded_untouched. Qed.

(** ** C12: exact effect of a transfer *)
Theorem C12_transfer_effect w now caller sub to amount fee m created sync w' i :
  reachable w ->
  ev_ok w (EvCall now caller (CallTransfer sub to amount fee m created) sync) ->
  step w (EvCall now caller (CallTransfer sub to amount fee m created) sync)
    = (w', RespReply (RepTransfer (Ok i))) ->
  let from := Acct caller sub in
  (* every balance *)
  (forall a, icrc1_balance_of (w_led w') a + if_acct a from (amount + icrc1_fee)
             = icrc1_balance_of (w_led w) a + if_acct a to amount)
  /\ icrc1_total_supply (w_led w') + icrc1_fee = icrc1_total_supply (w_led w)
  /\ one_new_block (w_led w) (w_led w') now (Tx (Transfer from to None amount fee) created m) i
  /\ other_allowances_kept (w_led w) (w_led w') now None
  /\ w_pend w' = w_pend w /\ w_cycles w' = w_cycles w.
Proof.
  intros Hr Hev Hst. destruct (accepted_done _ _ _ _ _ _ _ Hr Hev Hst)
    as (Hi & Hu & Hok & Hs' & Hd & Hp & Hc); [done|done|].
  simpl in Hd. injection Hd as <-. simpl in Hc. intros from.
  rewrite Hs'. split; [|split; [|split; [|split; [|split; [done|lia]]]]].
  - intros a. apply (recorded_balance _ _ _ a) in Hok. exact Hok.
  - pose proof (recorded_supply _ _ _ Hi Hok) as Hts. cbn [requested tx_op op_burned op_minted] in Hts.
    rewrite N.add_0_r in Hts. exact Hts.
  - apply recorded_one_block.
  - by apply (recorded_others _ _ _ Hi Hu) in Hok.
Qed.

(** ** C13: funded transfers succeed *)
(** not the management canister, whose principal is the empty byte string *)
Definition permitted (a : account) : Prop := owner a <> [].
Definition memo_fits (m : option memo) : Prop :=
  match m with Some b => (length b <= 32)%nat | None => True end.
Definition time_fits (created : option N) (now : N) : Prop :=
  match created with Some c => in_window c now | None => True end.

Lemma memo_fits_ok m : memo_fits m <-> validate_memo m = true.
Proof.
  unfold memo_fits, validate_memo, MAX_MEMO_LENGTH. destruct m; [|done].
  rewrite negb_true_iff, N.ltb_ge. lia.
Qed.
Lemma time_fits_ok created now :
  wf_u64_opt created -> is_u64 now -> time_fits created now ->
  validate_created_at_time created now = Ok tt.
Proof.
  intros Hc Hu Ht. destruct (validate_created_at_time created now) as [[]|e] eqn:E; [done|].
  destruct created as [c|]; [|done]. destruct Ht as [H1 H2].
  destruct (validate_err_cases _ _ _ E) as [->| ->].
  - apply validate_old in E; [lia|done|done].
  - apply validate_future in E; [lia|done|done].
Qed.
Lemma process_fits op m created now :
  memo_fits m -> wf_u64_opt created -> is_u64 now -> time_fits created now ->
  process_decide (Tx op created m) now = OOk tt.
Proof.
  intros Hm Hc Hu Ht. unfold process_decide. simpl. rewrite (proj1 (memo_fits_ok m) Hm). simpl.
  by rewrite time_fits_ok.
Qed.
Lemma is_denied_ok p : p <> MANAGEMENT_CANISTER -> is_denied p = false.
Proof. intros. unfold is_denied. by case_bool_decide. Qed.
Lemma bad_fee_ok fee : fee = None \/ fee = Some FEE -> bad_fee fee = false.
Proof. unfold bad_fee. intros [->| ->]; [done|]. by rewrite N.eqb_refl. Qed.

(** The one exception is a self-transfer by an account holding so much that
    balance plus amount exceeds 2^128-1 (the credit is checked before the
    debit); see [C13_self_transfer_refuted]. *)
Theorem C13_funded_transfer_succeeds_partial w now caller sub to amount fee m created sync w' resp :
  let from := Acct caller sub in
  reachable w ->
  ev_ok w (EvCall now caller (CallTransfer sub to amount fee m created) sync) ->
  step w (EvCall now caller (CallTransfer sub to amount fee m created) sync) = (w', resp) ->
  fee = None \/ fee = Some icrc1_fee -> memo_fits m -> time_fits created now ->
  permitted from -> permitted to ->
  amount + icrc1_fee <= icrc1_balance_of (w_led w) from ->
  duplicate_of resp = None ->
  (to_key to = to_key from -> icrc1_balance_of (w_led w) from + amount < 2 ^ 128) ->
  resp = RespReply (RepTransfer (Ok (N.of_nat (length (blocks (w_led w)))))).
Proof.
  intros from Hr Hev Hst Hfee Hm Ht Hpf Hpt Hbal Hdup Hself.
  destruct (call_inv _ _ _ _ _ Hr Hev) as (Hi & Hu & Hcl & Hwf). destruct Hwf as (Hsub & Hto & Hcr).
  pose proof (inv_supply _ _ Hi) as Hs.
  apply step_call in Hst as (s' & r & He & _ & Hm').
  rewrite exec_transfer in He by done. fold from in He.
  unfold icrc1_balance_of, icrc1_fee in *.
  pose proof (supply_bal (w_led w) (to_key from) Hs) as Hsb. fold (balance_of (w_led w) from) in Hsb.
  assert (total_supply (w_led w) < U128_MOD) as Hts by apply Hs.
  change (2 ^ 128) with U128_MOD in Hself.
  assert (xfer_decide from to None amount fee m created now (w_led w) = OOk tt
          \/ exists i, xfer_decide from to None amount fee m created now (w_led w) = OErr (TFDuplicate i))
    as Hd.
  { unfold xfer_decide. destruct (N.leb_spec U128_MOD amount); [lia|].
    assert (match fee with Some f => U128_MOD <=? f | None => false end = false) as ->.
    { destruct Hfee as [->| ->]; done. }
    unfold transfer_decide. destruct (tx_hashes _ !! _) as [[i x]|]; [right; eauto|left].
    rewrite !is_denied_ok by done. rewrite bad_fee_ok by done.
    destruct (N.leb_spec U128_MOD (amount + FEE)); [lia|]. simpl.
    destruct (N.ltb_spec (balance_of (w_led w) from) (amount + FEE)); [lia|].
    destruct (N.leb_spec U128_MOD (balance_of (w_led w) to + amount)) as [Hov|Hov].
    - exfalso. destruct (decide (to_key to = to_key from)) as [E|Hne].
      + unfold balance_of in *. rewrite E in Hov. specialize (Hself E). lia.
      + pose proof (supply_bal2 (w_led w) _ _ Hs Hne). unfold balance_of in *. lia.
    - by rewrite process_fits. }
  destruct Hd as [Hd|[i Hd]]; rewrite Hd in He; injection He as <- <-; destruct Hm' as [-> _]; done.
Qed.

(** With the duplicate hypothesis stated on the log *)
Corollary C13_new_funded_transfer_succeeds_partial w now caller sub to amount fee m created sync w' resp :
  let from := Acct caller sub in
  reachable w ->
  ev_ok w (EvCall now caller (CallTransfer sub to amount fee m created) sync) ->
  step w (EvCall now caller (CallTransfer sub to amount fee m created) sync) = (w', resp) ->
  fee = None \/ fee = Some icrc1_fee -> memo_fits m -> time_fits created now ->
  permitted from -> permitted to ->
  amount + icrc1_fee <= icrc1_balance_of (w_led w) from ->
  (forall b, b ∈ blocks (w_led w) ->
     b_tx b <> Tx (Transfer from to None amount fee) created m
     /\ ~ hash_clash (b_tx b) (Tx (Transfer from to None amount fee) created m)) ->
  (to_key to = to_key from -> icrc1_balance_of (w_led w) from + amount < 2 ^ 128) ->
  resp = RespReply (RepTransfer (Ok (N.of_nat (length (blocks (w_led w)))))).
Proof.
  intros from Hr Hev Hst Hfee Hm Ht Hpf Hpt Hbal Hnew Hself.
  eapply C13_funded_transfer_succeeds_partial; try done.
  destruct (duplicate_of resp) as [i|] eqn:Ed; [exfalso|done].
  destruct (C09_duplicate_is_honest _ _ _ _ _ _ _ _ Hr Hev Hst Ed) as (_ & b & Hb & Hc).
  destruct (Hnew b) as [H1 H2]; [by eapply elem_of_list_lookup_2|].
  by destruct Hc.
Qed.

(** ** C14: transfer_from spends exactly the allowance it uses *)
Theorem C14_transfer_from_effect w now caller sub from to amount fee m created sync w' i :
  reachable w ->
  ev_ok w (EvCall now caller (CallTransferFrom sub from to amount fee m created) sync) ->
  step w (EvCall now caller (CallTransferFrom sub from to amount fee m created) sync)
    = (w', RespReply (RepTransferFrom (Ok i))) ->
  let sp := Acct caller sub in
  (forall a, icrc1_balance_of (w_led w') a + if_acct a from (amount + icrc1_fee)
             = icrc1_balance_of (w_led w) a + if_acct a to amount)
  /\ icrc1_total_supply (w_led w') + icrc1_fee = icrc1_total_supply (w_led w)
  /\ one_new_block (w_led w) (w_led w') now (Tx (Transfer from to (Some sp) amount fee) created m) i
  /\ (to_key sp = to_key from -> other_allowances_kept (w_led w) (w_led w') now None)
  /\ (to_key sp <> to_key from ->
      exists a e, icrc2_allowance (w_led w) now from sp = (a, e)
        /\ unexpired now e /\ amount + icrc1_fee <= a
        /\ (forall tm, now <= tm -> unexpired tm e ->
              icrc2_allowance (w_led w') tm from sp
              = (a - (amount + icrc1_fee), if a =? amount + icrc1_fee then None else e))
        /\ other_allowances_kept (w_led w) (w_led w') now (Some (to_key from, to_key sp)))
  /\ w_pend w' = w_pend w /\ w_cycles w' = w_cycles w.
Proof.
  intros Hr Hev Hst. destruct (accepted_done _ _ _ _ _ _ _ Hr Hev Hst)
    as (Hi & Hu & Hok & Hs' & Hd & Hp & Hc); [done|done|].
  simpl in Hd. injection Hd as <-. simpl in Hc. intros sp.
  pose proof (recorded_others _ _ _ Hi Hu Hok) as Hoth. cbn [requested tx_op op_pair op_spend] in Hoth.
  fold sp in Hoth.
  rewrite Hs'. split; [|split; [|split; [|split; [|split; [|split; [done|lia]]]]]].
  - intros a. apply (recorded_balance _ _ _ a) in Hok. exact Hok.
  - pose proof (recorded_supply _ _ _ Hi Hok) as Hts. cbn [requested tx_op op_burned op_minted] in Hts.
    rewrite N.add_0_r in Hts. exact Hts.
  - apply recorded_one_block.
  - intros E. rewrite (proj2 (third_party_None from (Some sp))) in Hoth; [exact Hoth|].
    intros x [= <-]. done.
  - intros E. assert (third_party from (Some sp) = Some sp) as Htp by (by apply third_party_Some).
    rewrite Htp in Hoth.
    assert (op_spend (tx_op (requested caller (CallTransferFrom sub from to amount fee m created)))
            = Some (approval_key from sp, amount + FEE)) as Hsp.
    { cbn [requested tx_op op_spend]. fold sp. by rewrite Htp. }
    destruct (recorded_spend _ _ _ _ _ _ now Hi Hu Hok (N.le_refl _) Hsp) as (a & e & Ha & Hun & Hle & Hpos & _).
    exists a, e. split; [done|]. split; [done|]. split; [done|]. split; [|exact Hoth].
    intros tm Htm Hune.
    destruct (recorded_spend _ _ _ _ _ _ tm Hi Hu Hok Htm Hsp) as (a' & e' & Ha' & _ & _ & _ & Hv).
    rewrite Ha in Ha'. injection Ha' as <- <-. unfold icrc1_fee. rewrite Hv by done.
    destruct (N.eqb_spec (a - (amount + FEE)) 0), (N.eqb_spec a (amount + FEE)); try done; lia.
Qed.

(** ** C16: exact effect of approve *)
Theorem C16_approve_effect w now caller sub sp amount expected expires fee m created sync w' i :
  reachable w ->
  ev_ok w (EvCall now caller (CallApprove sub sp amount expected expires fee m created) sync) ->
  step w (EvCall now caller (CallApprove sub sp amount expected expires fee m created) sync)
    = (w', RespReply (RepApprove (Ok i))) ->
  let from := Acct caller sub in
  let n := N.min amount (2 ^ 128 - 1) in
  (forall a, icrc1_balance_of (w_led w') a + if_acct a from icrc1_fee = icrc1_balance_of (w_led w) a)
  /\ icrc1_total_supply (w_led w') + icrc1_fee = icrc1_total_supply (w_led w)
  /\ one_new_block (w_led w) (w_led w') now
       (Tx (Approve from sp n expected expires fee) created m) i
  /\ unexpired now expires
  /\ (forall tm, now <= tm -> unexpired tm expires ->
        icrc2_allowance (w_led w') tm from sp = (n, if amount =? 0 then None else expires))
  /\ other_allowances_kept (w_led w) (w_led w') now (Some (to_key from, to_key sp))
  /\ w_pend w' = w_pend w /\ w_cycles w' = w_cycles w.
Proof.
  intros Hr Hev Hst. destruct (accepted_done _ _ _ _ _ _ _ Hr Hev Hst)
    as (Hi & Hu & Hok & Hs' & Hd & Hp & Hc); [done|done|].
  simpl in Hd. injection Hd as <-. simpl in Hc. intros from n.
  rewrite Hs'. split; [|split; [|split; [|split; [|split; [|split; [|split; [done|lia]]]]]]].
  - intros a. apply (recorded_balance _ _ _ a) in Hok. cbn [requested tx_op op_taken op_given] in Hok.
    rewrite N.add_0_r in Hok. exact Hok.
  - pose proof (recorded_supply _ _ _ Hi Hok) as Hts. cbn [requested tx_op op_burned op_minted] in Hts.
    rewrite N.add_0_r in Hts. exact Hts.
  - apply recorded_one_block.
  - destruct Hok as (_ & Hst' & _). destruct Hst' as (_ & _ & _ & _ & Hx).
    destruct expires; [exact Hx|done].
  - intros tm Htm Hun. erewrite recorded_approve; [|done..]. fold n. f_equal.
    assert (n = 0 <-> amount = 0) as Hn0.
    { unfold n. change (2 ^ 128 - 1) with U128_MAX. unfold U128_MAX. lia. }
    destruct (N.eqb_spec n 0), (N.eqb_spec amount 0); tauto.
  - by apply (recorded_others _ _ _ Hi Hu) in Hok.
Qed.

(** ** C17: expected_allowance *)
Theorem C17_expected_allowance w now caller sub sp amount e expires fee m created sync w' resp :
  reachable w ->
  ev_ok w (EvCall now caller (CallApprove sub sp amount (Some e) expires fee m created) sync) ->
  step w (EvCall now caller (CallApprove sub sp amount (Some e) expires fee m created) sync)
    = (w', resp) ->
  let from := Acct caller sub in
  let reported := (icrc2_allowance (w_led w) now from sp).1 in
  (* it takes effect only if the reported allowance is the expected one *)
  (rejected resp = false -> reported = e)
  /\ (reported <> e ->
      unchanged w w' /\ rejected resp = true
      /\ (duplicate_of resp = None -> owner sp <> caller -> permitted from -> permitted sp ->
          (forall f, fee = Some f -> f < 2 ^ 128) ->
          resp = RespReply (RepApprove (Err (AAllowanceChanged reported)))))
  (* and is never turned down for that reason otherwise *)
  /\ (forall n, resp = RespReply (RepApprove (Err (AAllowanceChanged n))) ->
      n = reported /\ reported <> e).
Proof.
  intros Hr Hev Hst from reported.
  destruct (call_inv _ _ _ _ _ Hr Hev) as (Hi & Hu & Hcl & Hwf).
  pose proof (inv_supply _ _ Hi) as Hs.
  assert (rejected resp = false -> reported = e) as H1.
  { intros Hrej. destruct (accepted_done _ _ _ _ _ _ _ Hr Hev Hst Hrej)
      as (_ & _ & (_ & _ & Hop & _) & _); [done|]. destruct Hop as [_ Hop]. done. }
  split; [done|].
  pose proof Hst as Hst0. apply step_call in Hst as (s' & r & He & _ & Hm').
  rewrite exec_approve in He by done. fold from in He.
  assert (is_u128 reported) as Hrep.
  { unfold reported. rewrite icrc2_allowance_view. unfold view.
    destruct (approvals _ !! _) as [[a x]|] eqn:Ea; [|by unfold is_u128].
    apply (inv_appr _ _ Hi) in Ea as (_ & ? & _). destruct (_ && _); [by unfold is_u128|done]. }
  split.
  - intros Hne. destruct (rejected resp) eqn:Hrej; [|by rewrite H1 in Hne].
    split; [by eapply step_rejected|]. split; [done|]. intros Hdup Hself Hpf Hps Hfee.
    unfold apr_decide in He. change (2 ^ 128) with U128_MOD in Hfee.
    destruct (N.leb_spec U128_MOD e).
    { injection He as <- <-. by destruct Hm' as [-> _]. }
    assert (match fee with Some f => U128_MOD <=? f | None => false end = false) as Ef.
    { destruct fee as [f|]; [|done]. apply N.leb_gt. by apply Hfee. }
    rewrite Ef in He. unfold approve_decide in He.
    destruct (tx_hashes _ !! _) as [[j x]|].
    { injection He as <- <-. destruct Hm' as [-> _]. done. }
    rewrite bool_decide_eq_false_2 in He by (simpl; congruence).
    rewrite !is_denied_ok in He by done.
    change ((allowance (w_led w) from sp now).1) with reported in He.
    destruct (N.eqb_spec e reported); [congruence|]. simpl in He.
    injection He as <- <-. by destruct Hm' as [-> _].
  - intros n ->. unfold apr_decide in He.
    destruct (N.leb_spec U128_MOD e).
    { injection He as <- <-. destruct Hm' as [[= ->] _]. split; [done|]. unfold is_u128 in Hrep. lia. }
    destruct (match fee with Some f => _ | None => _ end).
    { injection He as <- <-. by destruct Hm' as [? _]. }
    destruct (approve_decide _ _ _ _ _ _ _ _ _ _) as [[]|x|x] eqn:Ed; injection He as <- <-;
      destruct Hm' as [Hm' _]; try done. injection Hm' as <-.
    unfold approve_decide in Ed.
    destruct (tx_hashes _ !! _) as [[j x]|]; [done|]. case_bool_decide; [done|].
    destruct (is_denied _); [done|]. destruct (is_denied _); [done|].
    change ((allowance (w_led w) from sp now).1) with reported in Ed.
    destruct (N.eqb_spec e reported) as [->|Hne]; simpl in Ed; [|injection Ed as Ed; split; congruence].
    repeat (match type of Ed with (if ?b then _ else _) = _ => destruct b end; [done|]).
    unfold out_map in Ed. destruct (process_decide _ _) as [|y|]; try done.
    injection Ed as Ed. by destruct y.
Qed.

(** ** C18: expired allowances cannot be spent *)
Definition spends_from (caller : principal) (c : call) : option (account * account * N) :=
  match c with
  | CallTransferFrom sub from _ amount _ _ _ => Some (from, Acct caller sub, amount)
  | CallWithdrawFrom sub from _ _ amount => Some (from, Acct caller sub, amount)
  | CallCreateCanisterFrom from sub _ amount _ => Some (from, Acct caller sub, amount)
  | _ => None
  end.

Theorem C18_spending_needs_live_allowance w now caller c sync from sp amount w' resp :
  reachable w -> ev_ok w (EvCall now caller c sync) ->
  step w (EvCall now caller c sync) = (w', resp) ->
  spends_from caller c = Some (from, sp, amount) -> to_key sp <> to_key from ->
  rejected resp = false ->
  exists a e, icrc2_allowance (w_led w) now from sp = (a, e)
    /\ unexpired now e /\ amount + icrc1_fee <= a.
Proof.
  intros Hr Hev Hst Hsf Hne Hrej.
  destruct (call_inv _ _ _ _ _ Hr Hev) as (Hi & Hu & _).
  destruct (step_accepted _ _ _ _ _ _ _ Hr Hev Hst Hrej) as (Hok & _).
  assert (op_spend (tx_op (requested caller c)) = Some (approval_key from sp, amount + FEE)) as Hsp.
  { assert (third_party from (Some sp) = Some sp) as Htp by (by apply third_party_Some).
    destruct c; cbn [spends_from] in Hsf; try done; injection Hsf as <- <- <-;
      cbn [requested tx_op op_spend]; by rewrite Htp. }
  destruct (recorded_spend _ _ _ _ _ _ now Hi Hu Hok (N.le_refl _) Hsp) as (a & e & Ha & Hun & Hle & _).
  exists a, e. done.
Qed.

(** Stated on the log: when the last approval for the pair has expired, the call
    is turned down, pruned or not. *)
Theorem C18_expired_cannot_be_spent w now caller c sync from sp amount a e w' resp :
  reachable w -> ev_ok w (EvCall now caller c sync) ->
  step w (EvCall now caller c sync) = (w', resp) ->
  spends_from caller c = Some (from, sp, amount) -> to_key sp <> to_key from ->
  log_allowance (blocks (w_led w)) (to_key from, to_key sp) = Some (a, Some e) -> e <= now ->
  rejected resp = true /\ unchanged w w'.
Proof.
  intros Hr Hev Hst Hsf Hne Hlog He.
  destruct (rejected resp) eqn:Hrej; [split; [done|]; by eapply step_rejected|exfalso].
  destruct (C18_spending_needs_live_allowance _ _ _ _ _ _ _ _ _ _ Hr Hev Hst Hsf Hne Hrej)
    as (a' & e' & Ha & Hun & Hle).
  destruct (inv_allow _ _ (reachable_inv _ Hr) (to_key from, to_key sp)) as [Hag _].
  rewrite icrc2_allowance_view in Ha.
  destruct (approvals (w_led w) !! approval_key from sp) as [[x y]|] eqn:Eap; unfold view in Ha.
  - rewrite (Hag x y Eap) in Hlog. assert (exp_opt y = Some e) as Hy by congruence.
    revert Ha Hy. unfold exp_opt. destruct (N.eqb_spec y 0); [done|]. intros Ha [= ->]. revert Ha.
    destruct ((0 <? e) && (e <? now)) eqn:E; intros [= <- <-]; simpl in Hun.
    + unfold icrc1_fee, FEE in Hle. lia.
    + lia.
  - injection Ha as <- <-. unfold icrc1_fee, FEE in Hle. lia.
Qed.

(** And no recorded block ever spent an approval at or after its expiry. *)
Theorem C18_log_spends_unexpired w i b k n :
  reachable w -> blocks (w_led w) !! i = Some b -> spent_by b = Some (k, n) ->
  exists a x, log_allowance (take i (blocks (w_led w))) k = Some (a, x)
    /\ n <= a /\ unexpired (b_timestamp b) x.
Proof. intros Hr. apply (inv_spends _ _ (reachable_inv _ Hr)). Qed.

(** ** C21: deposits *)
Theorem C21_deposit_effect w now caller cycles to m sync w' i balance :
  reachable w -> ev_ok w (EvCall now caller (CallDeposit cycles to m) sync) ->
  step w (EvCall now caller (CallDeposit cycles to m) sync) = (w', RespReply (RepDeposit i balance)) ->
  icrc1_fee < cycles
  /\ (forall a, icrc1_balance_of (w_led w') a
                = icrc1_balance_of (w_led w) a + if_acct a to (cycles - icrc1_fee))
  /\ balance = icrc1_balance_of (w_led w') to
  /\ icrc1_total_supply (w_led w') = icrc1_total_supply (w_led w) + (cycles - icrc1_fee)
  /\ one_new_block (w_led w) (w_led w') now (Tx (Mint to (cycles - icrc1_fee) icrc1_fee) None m) i
  /\ other_allowances_kept (w_led w) (w_led w') now None
  /\ w_pend w' = w_pend w /\ w_cycles w' = w_cycles w + cycles.
Proof.
  intros Hr Hev Hst. destruct (accepted_done _ _ _ _ _ _ _ Hr Hev Hst)
    as (Hi & Hu & Hok & Hs' & Hd & Hp & Hc); [done|done|].
  simpl in Hd. injection Hd as <- <-. simpl in Hc.
  rewrite Hs'. split; [|split; [|split; [done|split; [|split; [|split; [|split; [done|lia]]]]]]].
  - apply step_call in Hst as (s' & r & He & _ & Hm). rewrite exec_deposit in He.
    destruct (dep_decide to cycles m (w_led w)) as [[]|[]|x] eqn:Ed.
    + by destruct Hev as (_ & _ & (Hcy & Hto)); apply (dep_decide_ok _ _ _ now) in Ed as [_ ?].
    + injection He as <- <-. by destruct Hm.
    + injection He as <- <-. by destruct Hm.
  - intros a. apply (recorded_balance _ _ _ a) in Hok. cbn [requested tx_op op_taken op_given] in Hok.
    rewrite N.add_0_r in Hok. exact Hok.
  - pose proof (recorded_supply _ _ _ Hi Hok) as Hts. cbn [requested tx_op op_burned op_minted] in Hts. rewrite N.add_0_r in Hts.
    exact Hts.
  - apply recorded_one_block.
  - by apply (recorded_others _ _ _ Hi Hu) in Hok.
Qed.

(** A deposit either credits or traps; it traps exactly when at most the fee is
    attached, the memo is too long or the supply would reach 2^128; then nothing
    changes and no cycles are kept. *)
Theorem C21_deposit_all_or_nothing w now caller cycles to m sync w' resp :
  reachable w -> ev_ok w (EvCall now caller (CallDeposit cycles to m) sync) ->
  step w (EvCall now caller (CallDeposit cycles to m) sync) = (w', resp) ->
  (icrc1_fee < cycles /\ memo_fits m
   /\ icrc1_total_supply (w_led w) + (cycles - icrc1_fee) < 2 ^ 128
   /\ exists i balance, resp = RespReply (RepDeposit i balance))
  \/ ((cycles <= icrc1_fee \/ ~ memo_fits m
       \/ 2 ^ 128 <= icrc1_total_supply (w_led w) + (cycles - icrc1_fee))
      /\ (exists t, resp = RespTrap t) /\ unchanged w w').
Proof.
  intros Hr Hev Hst. destruct (call_inv _ _ _ _ _ Hr Hev) as (Hi & Hu & Hcl & Hwf).
  pose proof Hst as Hst0.
  apply step_call in Hst as (s' & r & He & _ & Hm). rewrite exec_deposit in He.
  change (2 ^ 128) with U128_MOD. unfold icrc1_total_supply, icrc1_fee.
  pose proof (supply_bal (w_led w) (to_key to) (inv_supply _ _ Hi)) as Hsb.
  fold (balance_of (w_led w) to) in Hsb.
  unfold dep_decide, mint_decide in He.
  destruct (N.leb_spec cycles FEE).
  { injection He as <- <-. destruct Hm as [-> _]. right. split; [by left|]. split; [eauto|].
    by eapply step_rejected. }
  destruct (N.leb_spec U128_MOD (total_supply (w_led w) + (cycles - FEE))) as [Hov|Hov].
  { rewrite orb_true_r in He. injection He as <- <-. destruct Hm as [-> _]. right.
    split; [by do 2 right|]. split; [eauto|]. by eapply step_rejected. }
  assert (U128_MOD <=? balance_of (w_led w) to + (cycles - FEE) = false) as Eb by (apply N.leb_gt; lia).
  rewrite Eb in He. simpl in He.
  destruct (validate_memo m) eqn:Em; simpl in He.
  - injection He as <- <-. destruct Hm as [-> _]. left. split; [done|].
    split; [by apply memo_fits_ok|]. split; [done|]. eauto.
  - injection He as <- <-. destruct Hm as [-> _]. right.
    split; [right; left; intros Hf%memo_fits_ok; congruence|]. split; [eauto|]. by eapply step_rejected.
Qed.

(** ** C40: wrong fees *)
Definition fee_of_call (c : call) : option N :=
  match c with
  | CallTransfer _ _ _ fee _ _ => fee
  | CallTransferFrom _ _ _ _ fee _ _ => fee
  | CallApprove _ _ _ _ _ fee _ _ => fee
  | _ => None
  end.
Theorem C40_wrong_fee_rejected w now caller c sync f w' resp :
  reachable w -> ev_ok w (EvCall now caller c sync) ->
  step w (EvCall now caller c sync) = (w', resp) ->
  fee_of_call c = Some f -> f <> icrc1_fee ->
  rejected resp = true /\ unchanged w w'.
Proof.
  intros Hr Hev Hst Hf Hne.
  destruct (rejected resp) eqn:Hrej; [split; [done|]; by eapply step_rejected|exfalso].
  destruct (step_accepted _ _ _ _ _ _ _ Hr Hev Hst Hrej) as ((_ & Hok & _) & _).
  unfold icrc1_fee in Hne.
  destruct c; simpl in *; subst; try done; destruct_and?;
    match goal with H : fee_ok (Some _) |- _ => destruct H as [?|[= ?]]; done end.
Qed.

(** Between permitted parties the answer to a transfer that is not a duplicate is
    [BadFee], whatever the funds and allowances. *)
Theorem C40_bad_fee_answer w now caller sub to amount f m created sync w' resp :
  reachable w ->
  ev_ok w (EvCall now caller (CallTransfer sub to amount (Some f) m created) sync) ->
  step w (EvCall now caller (CallTransfer sub to amount (Some f) m created) sync) = (w', resp) ->
  f <> icrc1_fee -> amount < 2 ^ 128 -> permitted (Acct caller sub) -> permitted to ->
  duplicate_of resp = None ->
  resp = RespReply (RepTransfer (Err (TBadFee icrc1_fee))) /\ unchanged w w'.
Proof.
  intros Hr Hev Hst Hne Ha Hpf Hpt Hdup.
  destruct (C40_wrong_fee_rejected _ _ _ _ _ f _ _ Hr Hev Hst eq_refl Hne) as [_ Hun].
  split; [|done].
  destruct (call_inv _ _ _ _ _ Hr Hev) as (Hi & _).
  apply step_call in Hst as (s' & r & He & _ & Hm). rewrite exec_transfer in He by apply (inv_supply _ _ Hi).
  unfold xfer_decide in He. change (2 ^ 128) with U128_MOD in Ha.
  destruct (N.leb_spec U128_MOD amount); [lia|].
  destruct (U128_MOD <=? f). { injection He as <- <-. by destruct Hm as [-> _]. }
  unfold transfer_decide in He. destruct (tx_hashes _ !! _) as [[j x]|].
  { injection He as <- <-. by destruct Hm as [-> _]. }
  rewrite !is_denied_ok in He by done. unfold bad_fee in He.
  destruct (N.eqb_spec f FEE); [done|]. simpl in He. injection He as <- <-. by destruct Hm as [-> _].
Qed.
Theorem C40_bad_fee_answer_from w now caller sub from to amount f m created sync w' resp :
  reachable w ->
  ev_ok w (EvCall now caller (CallTransferFrom sub from to amount (Some f) m created) sync) ->
  step w (EvCall now caller (CallTransferFrom sub from to amount (Some f) m created) sync) = (w', resp) ->
  f <> icrc1_fee -> amount < 2 ^ 128 ->
  permitted (Acct caller sub) -> permitted from -> permitted to ->
  duplicate_of resp = None ->
  resp = RespReply (RepTransferFrom (Err (TFBadFee icrc1_fee))) /\ unchanged w w'.
Proof.
  intros Hr Hev Hst Hne Ha Hpf Hps Hpt Hdup.
  destruct (C40_wrong_fee_rejected _ _ _ _ _ f _ _ Hr Hev Hst eq_refl Hne) as [_ Hun].
  split; [|done].
  destruct (call_inv _ _ _ _ _ Hr Hev) as (Hi & _).
  apply step_call in Hst as (s' & r & He & _ & Hm). rewrite exec_transfer_from in He by apply (inv_supply _ _ Hi).
  unfold xfer_decide in He. change (2 ^ 128) with U128_MOD in Ha.
  destruct (N.leb_spec U128_MOD amount); [lia|].
  destruct (U128_MOD <=? f). { injection He as <- <-. by destruct Hm as [-> _]. }
  unfold transfer_decide in He. destruct (tx_hashes _ !! _) as [[j x]|].
  { injection He as <- <-. by destruct Hm as [-> _]. }
  rewrite !is_denied_ok in He by done. unfold bad_fee in He.
  destruct (N.eqb_spec f FEE); [done|]. simpl in He. injection He as <- <-. by destruct Hm as [-> _].
Qed.

End WithEnv.

(** ** Cases that meet the hypotheses *)
Definition demo_at (n : nat) : world := the_world (history T0 (100 * T) demo_init (take n demo_events)).
Lemma demo_at_reachable n :
  (match history T0 (100 * T) demo_init (take n demo_events) with Some _ => true | None => false end) = true ->
  reachable (demo_at n).
Proof. apply the_world_reachable. Qed.
(** The event is allowed, and is answered in this way. *)
Definition answers `{Env} (w : world) (ev : event) (resp : response) : Prop :=
  reachable w /\ ev_ok w ev /\ (step w ev).2 = resp.

Local Ltac demo :=
  split; [apply demo_at_reachable; vm_compute; reflexivity|];
  split; [apply ev_okb_ok; vm_compute; reflexivity|vm_compute; reflexivity].

(** C11: a transfer the sender cannot pay for *)
Example C11_case :
  let ev := EvCall (T0 + 4 * sec) bob (CallTransfer None (acct carol) (50 * T) None None None) None in
  exists resp, answers (demo_at 3) ev resp /\ rejected resp = true
    /\ resp = RespReply (RepTransfer (Err (TInsufficientFunds (2 * T)))).
Proof.
  exists (RespReply (RepTransfer (Err (TInsufficientFunds (2 * T))))).
  split; [demo|]. split; vm_compute; reflexivity.
Qed.

(** C12: alice's transfer to bob *)
Example C12_case :
  answers (demo_at 1)
    (EvCall (T0 + 2 * sec) alice
       (CallTransfer None (acct bob) (2 * T) (Some FEE) (Some [Byte.x01]) (Some (T0 + 2 * sec))) None)
    (RespReply (RepTransfer (Ok 2)))
  /\ icrc1_balance_of (w_led (demo_at 1)) (acct alice) = 10 * T - FEE
  /\ icrc1_balance_of (w_led (demo_at 2)) (acct alice) = 8 * T - 2 * FEE
  /\ icrc1_balance_of (w_led (demo_at 2)) (acct bob) = 2 * T.
Proof. split; [demo|]. repeat split; vm_compute; reflexivity. Qed.

(** C13: the same transfer meets the hypotheses of both theorems *)
Lemma different_hashes `{Env} l t :
  forallb (fun b => match tx_hash_value (b_tx b), tx_hash_value t with
                    | Some v1, Some v2 => negb (bool_decide (vhash v1 = vhash v2))
                    | _, _ => false
                    end) l = true ->
  forall b, b ∈ l -> b_tx b <> t /\ ~ hash_clash (b_tx b) t.
Proof.
  intros Hb b Hin. rewrite forallb_forall in Hb. apply elem_of_list_In in Hin. specialize (Hb b Hin).
  simpl in Hb. destruct (tx_hash_value (b_tx b)) as [v1|] eqn:E1; [|discriminate].
  destruct (tx_hash_value t) as [v2|] eqn:E2; [|discriminate].
  apply negb_true_iff, bool_decide_eq_false_1 in Hb. split.
  - intros Heq. rewrite Heq in E1. congruence.
  - intros (u1 & u2 & H1 & H2 & _ & Hv). congruence.
Qed.
Example C13_case :
  let t := Tx (Transfer (acct alice) (acct bob) None (2 * T) (Some FEE)) (Some (T0 + 2 * sec))
             (Some [Byte.x01]) in
  answers (demo_at 1)
    (EvCall (T0 + 2 * sec) alice
       (CallTransfer None (acct bob) (2 * T) (Some FEE) (Some [Byte.x01]) (Some (T0 + 2 * sec))) None)
    (RespReply (RepTransfer (Ok 2)))
  /\ FEE = icrc1_fee /\ memo_fits (Some [Byte.x01]) /\ time_fits (Some (T0 + 2 * sec)) (T0 + 2 * sec)
  /\ permitted (acct alice) /\ permitted (acct bob)
  /\ 2 * T + icrc1_fee <= icrc1_balance_of (w_led (demo_at 1)) (acct alice)
  /\ (forall b, b ∈ blocks (w_led (demo_at 1)) -> b_tx b <> t /\ ~ hash_clash (b_tx b) t)
  /\ to_key (acct bob) <> to_key (acct alice).
Proof.
  cbv zeta. split; [demo|]. split; [vm_compute; reflexivity|]. split; [simpl; lia|].
  split; [vm_compute; split; congruence|]. split; [vm_compute; congruence|].
  split; [vm_compute; congruence|]. split; [vm_compute; congruence|].
  split; [apply different_hashes; vm_compute; reflexivity|vm_compute; congruence].
Qed.

(** The last hypothesis of C13 is needed: alice holds 2^127 + 2^100 cycles and
    sends 2^127 of them to herself.  She can pay for it, the same transfer to bob
    is accepted, yet the answer is a [GenericError]. *)
Definition rich_world : world :=
  the_world (history T0 0 (LInit (Config 50 None (Some [(acct alice, 2 ^ 127 + 2 ^ 100)]))) []).
Definition rich_transfer (to : account) : event :=
  EvCall (T0 + 1 * sec) alice (CallTransfer None to (2 ^ 127) None None None) None.
Theorem C13_self_transfer_refuted : exists w now caller to amount sync code,
  reachable w
  /\ ev_ok w (EvCall now caller (CallTransfer None to amount None None None) sync)
  /\ permitted to /\ to = Acct caller None
  /\ amount + icrc1_fee <= icrc1_balance_of (w_led w) to
  /\ (step w (EvCall now caller (CallTransfer None to amount None None None) sync)).2
     = RespReply (RepTransfer (Err (TGenericError code)))
  /\ (step w (EvCall now caller (CallTransfer None (acct bob) amount None None None) sync)).2
     = RespReply (RepTransfer (Ok 1)).
Proof.
  exists rich_world, (T0 + 1 * sec), alice, (acct alice), (2 ^ 127), None, 100000.
  split; [apply the_world_reachable; vm_compute; reflexivity|].
  split; [apply ev_okb_ok; vm_compute; reflexivity|]. split; [vm_compute; congruence|].
  split; [reflexivity|]. split; [vm_compute; congruence|]. split; vm_compute; reflexivity.
Qed.

(** C14 and C18: bob's transfer_from, with part of the allowance left *)
Example C14_case :
  answers (demo_at 3)
    (EvCall (T0 + 4 * sec) bob (CallTransferFrom None (acct alice) (acct carol) T None None None) None)
    (RespReply (RepTransferFrom (Ok 4)))
  /\ to_key (acct bob) <> to_key (acct alice)
  /\ icrc2_allowance (w_led (demo_at 3)) (T0 + 4 * sec) (acct alice) (acct bob)
     = (5 * T, Some (T0 + 3600 * sec))
  /\ icrc2_allowance (w_led (demo_at 4)) (T0 + 4 * sec) (acct alice) (acct bob)
     = (4 * T - FEE, Some (T0 + 3600 * sec)).
Proof. split; [demo|]. split; [vm_compute; congruence|]. split; vm_compute; reflexivity. Qed.

(** C16: alice's approval *)
Example C16_case :
  answers (demo_at 2)
    (EvCall (T0 + 3 * sec) alice
       (CallApprove None (acct bob) (5 * T) (Some 0) (Some (T0 + 3600 * sec)) None None None) None)
    (RespReply (RepApprove (Ok 3)))
  /\ unexpired (T0 + 3599 * sec) (Some (T0 + 3600 * sec)).
Proof. split; [demo|]. vm_compute. reflexivity. Qed.

(** C17: the same approval again expects 0, but the allowance is 5 T by now. *)
Example C17_case :
  answers (demo_at 3)
    (EvCall (T0 + 4 * sec) alice
       (CallApprove None (acct bob) (6 * T) (Some 0) (Some (T0 + 3600 * sec)) None None None) None)
    (RespReply (RepApprove (Err (AAllowanceChanged (5 * T)))))
  /\ (icrc2_allowance (w_led (demo_at 3)) (T0 + 4 * sec) (acct alice) (acct bob)).1 <> 0
  /\ owner (acct bob) <> alice /\ permitted (acct alice) /\ permitted (acct bob).
Proof.
  split; [demo|]. repeat split; vm_compute; congruence.
Qed.

(** C18: at the second the approval expires the same call is turned down, and
    the log holds a spending block (block 4). *)
Example C18_case :
  let c := CallTransferFrom None (acct alice) (acct carol) T None None None in
  spends_from bob c = Some (acct alice, acct bob, T)
  /\ log_allowance (blocks (w_led (demo_at 3))) (to_key (acct alice), to_key (acct bob))
     = Some (5 * T, Some (T0 + 3600 * sec))
  /\ reachable (demo_at 3) /\ ev_ok (demo_at 3) (EvCall (T0 + 3600 * sec) bob c None)
  /\ rejected (step (demo_at 3) (EvCall (T0 + 3600 * sec) bob c None)).2 = true
  /\ rejected (step (demo_at 3) (EvCall (T0 + 3599 * sec) bob c None)).2 = false
  /\ spent_by (block_at (demo_at 4) 4) = Some ((to_key (acct alice), to_key (acct bob)), T + FEE).
Proof.
  cbv zeta. split; [vm_compute; reflexivity|]. split; [vm_compute; reflexivity|].
  split; [apply demo_at_reachable; vm_compute; reflexivity|].
  split; [apply ev_okb_ok; vm_compute; reflexivity|]. repeat split; vm_compute; reflexivity.
Qed.

(** C21: a deposit that is credited, and one of exactly the fee that is not *)
Example C21_case :
  answers (demo_at 0) (EvCall (T0 + 1 * sec) carol (CallDeposit (10 * T) (acct alice) None) None)
    (RespReply (RepDeposit 1 (10 * T - FEE)))
  /\ answers (demo_at 0) (EvCall (T0 + 1 * sec) carol (CallDeposit FEE (acct alice) None) None)
       (RespTrap TrapDepositRejected).
Proof. split; demo. Qed.

(** C40: a fee that is one too high *)
Example C40_case :
  answers (demo_at 1)
    (EvCall (T0 + 2 * sec) alice (CallTransfer None (acct bob) (2 * T) (Some (FEE + 1)) None None) None)
    (RespReply (RepTransfer (Err (TBadFee icrc1_fee))))
  /\ answers (demo_at 3)
    (EvCall (T0 + 4 * sec) bob
       (CallTransferFrom None (acct alice) (acct carol) T (Some 0) None None) None)
    (RespReply (RepTransferFrom (Err (TFBadFee icrc1_fee))))
  /\ FEE + 1 <> icrc1_fee /\ 0 <> icrc1_fee.
Proof. split; [demo|]. split; [demo|]. split; vm_compute; congruence. Qed.

Print Assumptions C11_rejected_calls_change_nothing.
Print Assumptions C12_transfer_effect.
Print Assumptions C13_funded_transfer_succeeds_partial.
Print Assumptions C13_new_funded_transfer_succeeds_partial.
Print Assumptions C13_self_transfer_refuted.
Print Assumptions C14_transfer_from_effect.
Print Assumptions C16_approve_effect.
Print Assumptions C17_expected_allowance.
Print Assumptions C18_spending_needs_live_allowance.
Print Assumptions C18_expired_cannot_be_spent.
Print Assumptions C18_log_spends_unexpired.
Print Assumptions C21_deposit_effect.
Print Assumptions C21_deposit_all_or_nothing.
Print Assumptions C40_wrong_fee_rejected.
Print Assumptions C40_bad_fee_answer.
Print Assumptions C40_bad_fee_answer_from.
