(** * Everyone can cash out

    C69 *)
From Verif Require Import Base Types Codec CodecFacts State Ledger Canister Effects Spec ApiSpec
  Inv Steps World CallFacts CallCases StepFacts AsyncFacts DedupFacts AnswerSpec PropertiesDedup PropertiesAsync
  PropertiesRefund PropertiesAnswers Demo.

(** ** Specification *)

(** A request to withdraw [amount] from the caller's subaccount to a canister *)
Record request := Request { rq_caller : principal; rq_sub : option subaccount; rq_to : principal; rq_amount : N }.
Definition rq_account (r : request) : account := Acct (rq_caller r) (rq_sub r).
Definition rq_call (r : request) : call := CallWithdraw (rq_sub r) (rq_to r) None (rq_amount r).

(** The ids exist, the amount is not 0 and the receiver is not a self-authenticating
    principal (its 29th byte is 2) *)
Definition sensible (r : request) : Prop :=
  wf_principal (rq_caller r) /\ wf_sub (rq_sub r) /\ wf_principal (rq_to r)
  /\ rq_amount r <> 0 /\ rq_to r !! 28%nat <> Some Byte.x02.

(** What the requests take from account [a], fees included; what they take from all
    accounts; and what they send away *)
Definition taken (rs : list request) (a : account) : N :=
  foldr (fun r acc => if_acct a (rq_account r) (rq_amount r + icrc1_fee) + acc) 0 rs.
Definition burned (rs : list request) : N := foldr (fun r acc => rq_amount r + icrc1_fee + acc) 0 rs.
Definition sent (rs : list request) : N := foldr (fun r acc => rq_amount r + acc) 0 rs.

(** All are asked for one after the other, and each is under way; the first has
    number [n]. *)
Fixpoint under_way (now n : N) (rs : list request) : list (event * response) :=
  match rs with
  | [] => []
  | r :: rest =>
      (EvCall now (rq_caller r) (rq_call r) None, RespPending n (OutDepositCycles (rq_to r) (rq_amount r)))
      :: under_way now (n + 1) rest
  end.

Section WithEnv.
Context `{Env}.

(** No transaction of the log that is protected against repetition clashes with a request. *)
Definition no_clash (w : world) (r : request) : Prop :=
  forall b, b ∈ blocks (w_led w) -> tx_created_at (b_tx b) <> None ->
    ~ hash_clash (b_tx b) (requested (rq_caller r) (rq_call r)).

Lemma self_auth_no (p : principal) : p !! 28%nat <> Some Byte.x02 -> is_self_authenticating p = false.
Proof.
  unfold is_self_authenticating. destruct (p !! 28%nat) as [b|]; [|done]. intros Hb.
  apply bool_decide_eq_false. congruence.
Qed.

Lemma waiting_next w now r w1 id out :
  let ev := EvCall now (rq_caller r) (rq_call r) None in
  reachable w -> ev_ok w ev -> step w ev = (w1, RespPending id out) ->
  (w_next w1 = w_next w + 1 /\ w_clock w1 = now) /\ length (blocks (w_led w1)) = S (length (blocks (w_led w))).
Proof.
  intros ev Hr Hev Hst. split.
  - destruct (step_accepted _ _ _ _ _ _ _ Hr Hev Hst eq_refl) as (_ & res & Ha & Hm).
    destruct Ha as [s1 resp E Hd|s1 p E Hp Hs Hpo|s1 p e s' resp E Hp Hs Hpo Hrej _ Hsr].
    + destruct Hm as [E' _]. subst resp. done.
    + by destruct Hm as [_ ->].
    + exfalso. destruct Hm as [E' _]. subst resp. unfold sync_rest in Hsr.
      destruct (resume now p (sync_answer p e)) as [k|]; [|done]. by destruct (k s1) as [s2 [rep|[]|x]].
  - destruct (waiting_facts w now (rq_caller r) (rq_call r) None w1 id out Hr Hev Hst) as (_ & p & _ & -> & _).
    rewrite recorded_blocks, app_length. simpl. lia.
Qed.

Lemma one_request w now r :
  reachable w -> time_ok w now -> sensible r -> no_clash w r ->
  rq_amount r + icrc1_fee <= icrc1_balance_of (w_led w) (rq_account r) ->
  rq_amount r <= w_cycles w ->
  let ev := EvCall now (rq_caller r) (rq_call r) None in
  let w' := (step w ev).1 in
  ev_ok w ev /\ (step w ev).2 = RespPending (w_next w) (OutDepositCycles (rq_to r) (rq_amount r))
  /\ w_next w' = w_next w + 1 /\ w_clock w' = now
  /\ (exists b, blocks (w_led w') = blocks (w_led w) ++ [b] /\ tx_created_at (b_tx b) = None)
  /\ (forall a, icrc1_balance_of (w_led w') a + if_acct a (rq_account r) (rq_amount r + icrc1_fee)
                = icrc1_balance_of (w_led w) a)
  /\ icrc1_total_supply (w_led w') + (rq_amount r + icrc1_fee) = icrc1_total_supply (w_led w)
  /\ w_cycles w' + rq_amount r = w_cycles w.
Proof.
  intros Hr Ht (Hw1 & Hw2 & Hw3 & Hne & Hto) Hcl Hbal Hcy ev w'. subst w'.
  assert (ev_ok w ev) as Hev by (split_and!; done).
  destruct (step w ev) as [w' resp] eqn:Hst. cbn [fst snd].
  pose proof (reachable_inv _ Hr) as Hinv.
  assert (icrc1_balance_of (w_led w) (rq_account r) < 2 ^ 128) as Hmax.
  { pose proof (supply_bal _ (to_key (rq_account r)) (inv_supply _ _ Hinv)) as Hb.
    pose proof (proj2 (inv_supply _ _ Hinv)) as Hs. unfold icrc1_balance_of, balance_of. rewrite u128_lit. lia. }
  assert (resp = RespPending (w_next w) (OutDepositCycles (rq_to r) (rq_amount r))) as ->.
  { destruct (C50_answer w now _ _ _ w' resp Hr Hev Hst) as (dup & Hdup & Hdec).
    unfold rules, rq_call, withdraw_rules, burn_rules, time_rules in Hdec. cbn [decided app] in Hdec.
    apply proj2 in Hdec. specialize (Hdec ltac:(lia)).
    apply proj2 in Hdec. specialize (Hdec Hto).
    apply proj2 in Hdec. specialize (Hdec Hne).
    apply proj2 in Hdec. unfold dup_rule in Hdec. cbn [fst snd] in Hdec.
    assert (dup = None) as ->.
    { destruct dup as [[i x]|]; [exfalso|done]. destruct Hdup as [_ (b & created & Hb & Hh & Hc)].
      apply (Hcl b Hb); [congruence|].
      apply elem_of_list_lookup in Hb as [j Hb]. rewrite <- (Nat2N.id j) in Hb.
      destruct (inv_blk _ _ Hinv _ _ Hb) as [((Hwj1 & Hwj2 & _) & _) _].
      assert (txh (b_tx b) = txh (requested (rq_caller r) (rq_call r))) as Hh' by (unfold txh; congruence).
      destruct (checkable_wf (rq_caller r) (rq_call r)) as [Hwr1 Hwr2]; [done|by split_and!|..].
      { split; [rewrite <- u128_lit; lia|]. split; [done|]. by apply self_auth_no. }
      destruct (same_hash _ _ Hwj1 Hwj2 Hwr1 Hwr2 Hh') as [E|E]; [|done]. rewrite E in Hc. done. }
    specialize (Hdec ltac:(by intros [? ?])).
    apply proj2 in Hdec. specialize (Hdec ltac:(lia)).
    apply proj2 in Hdec. specialize (Hdec ltac:(by intros (? & ? & _))).
    apply proj2 in Hdec. specialize (Hdec ltac:(unfold rq_account in *; lia)).
    apply proj2 in Hdec. specialize (Hdec ltac:(by intros (? & ? & _))).
    apply proj2 in Hdec. specialize (Hdec ltac:(by intros (? & ? & _))).
    destruct Hdec as [[_ Hdec]|(_ & _ & Hco)].
    - unfold told_accepted in Hdec. cbn [outgoing] in Hdec. rewrite decide_True in Hdec by done.
      cbn in Hdec. congruence.
    - destruct Hco as (? & ? & ? & [=] & _). }
  destruct (waiting_next w now r w' _ _ Hr Hev Hst) as [[Hn Hc] _].
  destruct (C22_burn_and_pay w now (rq_caller r) (rq_call r) None _ _ _ Hr Hev Hst)
    as (from & sp & amount & [= <- <- <-] & _ & Hcyc & Hb & Hsup & Hblk & _).
  split; [done|]. split; [done|]. split; [done|]. split; [done|].
  split. { destruct Hblk as (b & Hb1 & Hb2 & _). exists b. split; [done|]. by rewrite Hb2. }
  done.
Qed.

Lemma steps_app w tr1 w1 tr2 w2 : steps w tr1 w1 -> steps w1 tr2 w2 -> steps w (tr1 ++ tr2) w2.
Proof. intros H1 H2. induction H1; [done|]. simpl. constructor; auto. Qed.

(** ** C69 *)

(** If the ledger's cycles cover the supply, then whoever holds tokens can withdraw
    them, all of them and all at the same time. *)
Theorem C69_everyone_can_withdraw w now rs :
  reachable w -> time_ok w now ->
  icrc1_total_supply (w_led w) <= w_cycles w ->
  (forall r, r ∈ rs -> sensible r /\ no_clash w r) ->
  (forall a, taken rs a <= icrc1_balance_of (w_led w) a) ->
  exists w', steps w (under_way now (w_next w) rs) w'
    /\ (forall a, icrc1_balance_of (w_led w') a + taken rs a = icrc1_balance_of (w_led w) a)
    /\ icrc1_total_supply (w_led w') + burned rs = icrc1_total_supply (w_led w)
    /\ w_cycles w' + sent rs = w_cycles w
    /\ icrc1_total_supply (w_led w') <= w_cycles w'.
Proof.
  intros Hr Ht Hcov Hrs Hbal. revert w Hr Ht Hcov Hrs Hbal. induction rs as [|r rs IH]; intros w Hr Ht Hcov Hrs Hbal.
  { exists w. split; [constructor|]. cbn. split; [intros a; lia|]. split; [lia|]. split; lia. }
  destruct (Hrs r) as [Hse Hcl]; [by left|].
  assert (rq_amount r + icrc1_fee <= icrc1_balance_of (w_led w) (rq_account r)) as Hb.
  { specialize (Hbal (rq_account r)). cbn [taken foldr] in Hbal. unfold if_acct in Hbal.
    rewrite decide_True in Hbal by done. lia. }
  pose proof (reachable_inv _ Hr) as Hinv.
  assert (icrc1_balance_of (w_led w) (rq_account r) <= icrc1_total_supply (w_led w)) as Hbs.
  { apply (supply_bal _ (to_key (rq_account r)) (inv_supply _ _ Hinv)). }
  destruct (one_request w now r Hr Ht Hse Hcl Hb) as (Hev & Hresp & Hn & Hc & (b & Hblk & Hbc) & Hb' & Hs' & Hcy'); [lia|].
  set (ev := EvCall now (rq_caller r) (rq_call r) None) in *.
  destruct (IH (step w ev).1) as (w' & Hst & Hfb & Hfs & Hfc & Hcov').
  - by constructor.
  - split; [rewrite Hc; done|apply Ht].
  - lia.
  - intros r' Hr'. destruct (Hrs r') as [? Hcl']; [by right|]. split; [done|].
    intros b' Hin Hne. rewrite Hblk in Hin. apply elem_of_app in Hin as [Hin|Hin%elem_of_list_singleton]; [by apply Hcl'|].
    subst b'. congruence.
  - intros a. specialize (Hbal a). specialize (Hb' a). cbn [taken foldr] in Hbal. unfold taken. lia.
  - exists w'. split.
    { cbn [under_way]. fold ev. rewrite <- Hresp, <- Hn. by constructor. }
    split. { intros a. specialize (Hfb a). specialize (Hb' a). cbn [taken foldr]. unfold taken in Hfb. lia. }
    cbn [burned sent foldr]. unfold burned, sent in *. split; [lia|]. split; [lia|done].
Qed.

(** Each of them is told, when the cycles have arrived, the block of the burn, whatever
    else happened in between. *)
Theorem C69_each_is_told w now rs w' k r tr w2 now2 refund w3 resp :
  reachable w -> steps w (under_way now (w_next w) rs) w' -> rs !! k = Some r ->
  let id := w_next w + N.of_nat k in
  steps w' tr w2 -> undisturbed id tr ->
  ev_ok w2 (EvReply now2 id (AnsDeposit (Ok tt)) refund) ->
  step w2 (EvReply now2 id (AnsDeposit (Ok tt)) refund) = (w3, resp) ->
  resp = RespReply (RepWithdraw (Ok (N.of_nat (length (blocks (w_led w)) + k)))).
Proof.
  intros Hr Hst Hk id Htr Hun Hev2 Hst2. subst id. remember (w_next w) as n eqn:Hn.
  revert w n k Hr Hn Hst Hk Hun Hev2 Hst2. induction rs as [|r0 rs IH]; intros w n k Hr Hn Hst Hk Hun Hev2 Hst2; [done|].
  cbn [under_way] in Hst. inversion Hst as [|? ? ? ? Hev Hrest E1 E2]; subst; clear Hst.
  set (ev := EvCall now (rq_caller r0) (rq_call r0) None) in *.
  destruct (step w ev) as [w1 resp1] eqn:Hs. cbn [fst snd] in *. subst resp1.
  destruct k as [|k].
  - replace (w_next w + N.of_nat 0) with (w_next w) in * by lia.
    destruct (C22_delivery_answered w now _ _ _ w1 _ _ _ (under_way now (w_next w + 1) rs ++ tr) w2 now2 refund w3 resp Hr Hev Hs)
      as [Ho _]; [by eapply steps_app| |done|done|].
    + apply Forall_app. split; [|done]. generalize (w_next w + 1). clear. induction rs; intros n; constructor; [done|auto].
    + cbn in Ho. rewrite Nat.add_0_r. congruence.
  - destruct (waiting_next w now r0 w1 _ _ Hr Hev Hs) as [[Hn1 _] Hl1].
    assert (reachable w1) as Hr1 by (replace w1 with (step w ev).1 by (by rewrite Hs); by constructor).
    replace (w_next w + N.of_nat (S k)) with (w_next w1 + N.of_nat k) in * by lia.
    rewrite (IH w1 (w_next w1) k Hr1 eq_refl); [|by rewrite Hn1|done..].
    do 4 f_equal. lia.
Qed.

(** From installation on: if the cycles it was installed with pay for the initial balances
    and for its own execution, and the cycles minting canister reports truthfully, then the
    cycles cover the supply. *)
Theorem C69_cycles_cover_supply now cycles args w0 w :
  is_u64 now -> wf_ledger_args args -> init_world now cycles args = Some w0 ->
  truthful_run w0 w -> icrc1_total_supply (w_led w0) + w_used w <= cycles ->
  icrc1_total_supply (w_led w) <= w_cycles w.
Proof. intros H1 H2 H3 H4 H5. pose proof (C27_tokens_are_backed now cycles args w0 w H1 H2 H3 H4). lia. Qed.

End WithEnv.

(** ** A case that meets the hypotheses *)

(** In the demo ledger everybody takes out everything at once. *)
Definition bank_run : list request :=
  [ Request alice None canister (4999100000000 - FEE); Request bob None canister (2 * T - FEE);
    Request carol None canister (5 * T); Request carol (Some 0) bob (3 * T - 2 * FEE) ].
Definition same_txhb (t1 t2 : transaction) : bool := bool_decide (tx_hash t1 = tx_hash t2).
Lemma hash_differs t1 t2 : same_txhb t1 t2 = false -> ~ hash_clash t1 t2.
Proof.
  intros Hd (v1 & v2 & H1 & H2 & _ & Hv). apply bool_decide_eq_false in Hd. apply Hd.
  unfold tx_hash. rewrite H1, H2. exact (f_equal Some Hv).
Qed.
Example C69_case :
  reachable demo_world /\ time_ok demo_world (T0 + 12 * sec)
  /\ icrc1_total_supply (w_led demo_world) <= w_cycles demo_world
  /\ (forall r, r ∈ bank_run -> sensible r /\ no_clash demo_world r)
  /\ (forall a, taken bank_run a <= icrc1_balance_of (w_led demo_world) a)
  /\ burned bank_run = icrc1_total_supply (w_led demo_world).
Proof.
  split; [apply demo_reachable|]. split; [split; vm_compute; done|]. split; [vm_compute; done|].
  split; [|split; [|vm_compute; reflexivity]].
  - assert (forallb (fun r => forallb (fun b => negb (same_txhb (b_tx b) (requested (rq_caller r) (rq_call r))))
              (blocks (w_led demo_world))) bank_run = true) as Hall by (vm_compute; reflexivity).
    rewrite forallb_forall in Hall. intros r Hin. split.
    + unfold bank_run in Hin. set_unfold in Hin. destruct_or! Hin; subst r;
        (split; [by apply wf_principalb_ok|]; split; [by apply wf_subb_ok|]; split; [by apply wf_principalb_ok|];
         split; [vm_compute; done|vm_compute; done]).
    + intros b Hb _. apply hash_differs. apply elem_of_list_In in Hin, Hb. specialize (Hall r Hin).
      rewrite forallb_forall in Hall. specialize (Hall b Hb). apply negb_true_iff in Hall. exact Hall.
  - intros a. unfold taken, bank_run. cbn [foldr]. unfold if_acct, rq_account. cbn [rq_caller rq_sub rq_amount].
    unfold icrc1_balance_of, balance_of.
    assert (bal (w_led demo_world) (to_key (acct alice)) = 4999100000000) as Ha by (vm_compute; reflexivity).
    assert (bal (w_led demo_world) (to_key (acct bob)) = 2 * T) as Hb by (vm_compute; reflexivity).
    assert (bal (w_led demo_world) (to_key (acct carol)) = 8 * T) as Hc by (vm_compute; reflexivity).
    change (to_key (Acct carol (Some 0))) with (to_key (acct carol)).
    change (Acct alice None) with (acct alice). change (Acct bob None) with (acct bob).
    change (Acct carol None) with (acct carol).
    assert (to_key (acct alice) <> to_key (acct bob)) as N1 by done.
    assert (to_key (acct alice) <> to_key (acct carol)) as N2 by done.
    assert (to_key (acct bob) <> to_key (acct carol)) as N3 by done.
    revert Ha Hb Hc N1 N2 N3. generalize (to_key (acct alice)), (to_key (acct bob)), (to_key (acct carol)), (to_key a).
    generalize (w_led demo_world). intros st kA kB kC k Ha Hb Hc N1 N2 N3.
    unfold icrc1_fee, FEE, T in *. repeat case_decide; subst; try congruence; lia.
Qed.

Print Assumptions C69_everyone_can_withdraw.
Print Assumptions C69_each_is_told.
Print Assumptions C69_cycles_cover_supply.
