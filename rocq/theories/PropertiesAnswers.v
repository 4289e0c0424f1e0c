(** * Every answer is determined by what clients can observe

    C50 *)
From Verif Require Import Base Types Codec CodecFacts CodecProofs State Ledger Canister Effects Spec ApiSpec
  AnswerSpec Inv Steps World CallFacts CallCases StepFacts AllowFacts DedupFacts PropertiesDedup
  PropertiesCalls PropertiesAsync PropertiesAuth Demo.

Section WithEnv.
Context `{Env}.

(** ** The conditions of the rules as the model tests them *)
Lemma u128_lit : 2 ^ 128 = U128_MOD. Proof. reflexivity. Qed.
Lemma huge_spec o :
  (huge o /\ match o with Some f => U128_MOD <=? f | None => false end = true)
  \/ (~ huge o /\ match o with Some f => U128_MOD <=? f | None => false end = false).
Proof.
  destruct o as [f|]; simpl.
  - destruct (N.leb_spec U128_MOD f); [left|right]; (split; [|done]).
    + exists f. rewrite u128_lit. done.
    + intros (n & [= <-] & Hn). rewrite u128_lit in Hn. lia.
  - right. split; [|done]. by intros (n & ? & _).
Qed.
Lemma bad_fee_spec fee :
  (wrong_fee fee /\ bad_fee fee = true) \/ (~ wrong_fee fee /\ bad_fee fee = false).
Proof.
  unfold bad_fee. destruct fee as [f|].
  - destruct (N.eqb_spec f FEE) as [->|Hne]; [right|left]; (split; [|done]).
    + by intros (n & [= <-] & ?).
    + by exists f.
  - right. split; [|done]. by intros (n & ? & _).
Qed.
Lemma denied_spec a :
  (~ may_take_part a /\ is_denied (owner a) = true) \/ (may_take_part a /\ is_denied (owner a) = false).
Proof. unfold may_take_part, is_denied. case_bool_decide; [left|right]; by split; [tauto|]. Qed.
Lemma memo_spec m :
  (long_memo m /\ validate_memo m = false) \/ (~ long_memo m /\ validate_memo m = true).
Proof.
  unfold validate_memo, MAX_MEMO_LENGTH. destruct m as [b|].
  - destruct (N.ltb_spec 32 (N.of_nat (length b))); [left|right]; (split; [|done]).
    + exists b. split; [done|lia].
    + intros (n & [= <-] & ?). lia.
  - right. split; [|done]. by intros (n & ? & _).
Qed.
Lemma time_spec created now :
  is_u64 now -> wf_u64_opt created ->
  (too_long_ago created now /\ validate_created_at_time created now = Err PTTooOld)
  \/ (~ too_long_ago created now /\ not_yet created now
      /\ validate_created_at_time created now = Err (PTInTheFuture now))
  \/ (~ too_long_ago created now /\ ~ not_yet created now
      /\ validate_created_at_time created now = Ok tt).
Proof.
  intros Hu Hc. destruct (validate_created_at_time created now) as [[]|e] eqn:E.
  - right. right. destruct created as [t|].
    + apply validate_ok_window in E as [H1 H2]; [|done..].
      split; [intros (? & [= <-] & ?); lia|]. split; [intros (? & [= <-] & ?); lia|done].
    + split; [by intros (? & ? & ?)|]. split; [by intros (? & ? & ?)|done].
  - destruct created as [t|]; [|done].
    destruct (validate_err_cases _ _ _ E) as [->| ->].
    + left. split; [|done]. apply validate_old in E; [|done|done]. by exists t.
    + right. left. apply validate_future in E; [|done|done].
      split; [intros (? & [= <-] & ?); unfold DAY, MINUTE in *; lia|]. split; [by exists t|done].
Qed.

(** The allowance as the ledger checks it *)
Lemma usable_stored s now from x :
  (usable s now from x).1 =
  match approvals s !! approval_key from x with
  | Some (a, e) => if (e =? 0) || (now <? e) then a else 0
  | None => 0
  end.
Proof.
  unfold usable. rewrite icrc2_allowance_view. unfold view, exp_opt.
  destruct (approvals s !! approval_key from x) as [[a e]|].
  2: { by case_decide. }
  destruct (N.eqb_spec e 0) as [->|Hne]; simpl orb.
  { change ((0 <? 0) && (0 <? now)) with false. cbv iota. case_decide as Hd; [done|]. by destruct Hd. }
  destruct (N.ltb_spec 0 e); [|lia]. simpl andb.
  destruct (N.ltb_spec e now); cbv iota.
  - destruct (N.ltb_spec now e); [lia|]. by case_decide.
  - destruct (N.ltb_spec now e); case_decide as Hd; simpl in Hd; try done; lia.
Qed.
Lemma allowance_spec s now from sp n :
  inv now s -> 0 < n ->
  match third_party from sp with
  | None => ~ not_allowed s now from sp n
  | Some x => sp = Some x /\ to_key x <> to_key from /\
      ((~ not_allowed s now from sp n /\ exists r, check_allowance s from x n now = Ok r)
       \/ (not_allowed s now from sp n
           /\ (check_allowance s from x n now = Err (UAInsufficientAllowance (usable s now from x).1)
               \/ (check_allowance s from x n now = Err ExpiredApproval /\ ran_out s now from x
                   /\ (usable s now from x).1 = 0))))
  end.
Proof.
  intros Hi Hn. destruct (third_party from sp) as [x|] eqn:Ex.
  - apply third_party_Some in Ex as [-> Hne]. split; [done|]. split; [done|].
    pose proof (usable_stored s now from x) as Hus.
    assert (not_allowed s now from (Some x) n <-> (usable s now from x).1 < n) as Hna.
    { split; [by intros (? & [= <-] & _ & ?)|]. intros. by exists x. }
    rewrite Hna. unfold check_allowance. destruct (N.eqb_spec n 0); [lia|].
    destruct (inv_allow _ _ Hi (approval_key from x)) as [Hag _].
    destruct (approvals s !! approval_key from x) as [[a e]|] eqn:Ea.
    + destruct ((e =? 0) || (now <? e)) eqn:El; simpl negb; cbv iota.
      * rewrite Hus. unfold u128_checked_sub. destruct (N.leb_spec n a).
        { left. split; [lia|]. eauto. }
        right. split; [done|]. by left.
      * right. rewrite Hus. split; [lia|]. right. split; [done|]. split; [|done].
        apply orb_false_iff in El as [E1 E2]. apply N.eqb_neq in E1. apply N.ltb_ge in E2.
        exists a, e. split; [|done]. specialize (Hag a e eq_refl). unfold exp_opt in Hag.
        destruct (N.eqb_spec e 0); [done|]. exact Hag.
    + right. rewrite Hus. split; [lia|]. by left.
  - intros (x & -> & Hne & _). pose proof (proj1 (third_party_None from (Some x)) Ex) as Hx.
    by apply Hne, Hx.
Qed.

(** ** The rules and the decisions of the model *)
(** Only a call with a spender is about allowances. *)
Definition fits (sp : option account) (r : refusal) : Prop :=
  match r with NoAllowance _ | AllowanceExpired => sp <> None | _ => True end.
Inductive tf_says : transfer_from_error -> refusal -> Prop :=
| tfs_funds b : tf_says (TFInsufficientFunds b) (NoFunds b)
| tfs_fee : tf_says (TFBadFee FEE) WrongFee
| tfs_dup i x : tf_says (TFDuplicate i) (AlreadyDone i x)
| tfs_denied : tf_says (TFGenericError DENIED_OWNER) Denied
| tfs_allow a : tf_says (TFInsufficientAllowance a) (NoAllowance a)
| tfs_expired : tf_says (TFGenericError EXPIRED_APPROVAL) AllowanceExpired
| tfs_over : tf_says (TFGenericError UNKNOWN_GENERIC_ERROR) CreditOverflow
| tfs_old : tf_says TFTooOld CreatedTooLongAgo
| tfs_future t : tf_says (TFCreatedInFuture t) (CreatedLater t).

Ltac rule := simpl decided; split; [intros Hrule|intros Hrule].

Lemma time_decided created now (told : refusal -> Prop) (otherwise : Prop) :
  is_u64 now -> wf_u64_opt created ->
  match validate_created_at_time created now with
  | Ok _ => otherwise
  | Err PTTooOld => told CreatedTooLongAgo
  | Err (PTInTheFuture t) => told (CreatedLater t)
  | Err _ => True
  end -> decided (time_rules created now) told otherwise.
Proof.
  intros Hu Hc Ho. unfold time_rules. simpl.
  destruct (time_spec created now Hu Hc) as [[Hy E]|[(Hn & Hy & E)|(Hn & Hn' & E)]]; rewrite E in Ho.
  - split; [eauto|]. done.
  - split; [done|]. split; [eauto|done].
  - split; [done|]. split; done.
Qed.

Lemma transfer_decided s now from to sp amount fee m created (told : refusal -> Prop) (otherwise : Prop) :
  inv now s -> is_u64 now -> wf_u64_opt created ->
  match xfer_decide from to sp amount fee m created now s with
  | OOk _ => otherwise
  | OErr e => forall r, tf_says e r -> fits sp r -> told r
  | OTrap x => x = TrapMemoTooLong -> told LongMemo
  end ->
  decided (transfer_rules s now (tx_hashes s !! txh (Tx (Transfer from to sp amount fee) created m))
             from to sp amount fee m created) told otherwise.
Proof.
  intros Hi Hu Hc Ho. unfold transfer_rules. simpl app. rewrite u128_lit.
  unfold xfer_decide in Ho. unfold icrc1_balance_of, icrc1_fee.
  rule. { eexists; split; [reflexivity|]. destruct (N.leb_spec U128_MOD amount); [|lia]. apply Ho; [constructor|done]. }
  destruct (N.leb_spec U128_MOD amount); [done|]. clear Hrule.
  destruct (huge_spec fee) as [[Hy E]|[Hn E]]; rewrite E in Ho; rule; try done.
  { eexists; split; [reflexivity|]. apply Ho; [constructor|done]. }
  clear Hrule. unfold transfer_decide in Ho. rule.
  { destruct Hrule as [[i x] Hd]. rewrite Hd in Ho. exists (AlreadyDone i x). split; [by exists i, x|].
    apply Ho; [constructor|done]. }
  destruct (tx_hashes s !! _) as [[i x]|] eqn:Edup; [by destruct Hrule|]. clear Hrule.
  assert ((~ may_take_part from \/ ~ may_take_part to \/ (exists x, sp = Some x /\ ~ may_take_part x)) /\
          (forall r, tf_says (TFGenericError DENIED_OWNER) r -> fits sp r -> told r)
          \/ ~ (~ may_take_part from \/ ~ may_take_part to \/ (exists x, sp = Some x /\ ~ may_take_part x))
             /\ is_denied (owner from) = false /\ is_denied (owner to) = false
             /\ match sp with Some x => is_denied (owner x) | None => false end = false) as Hden.
  { destruct (denied_spec from) as [[? E1]|[? E1]]; rewrite E1 in Ho; [left; tauto|].
    destruct (denied_spec to) as [[? E2]|[? E2]]; rewrite E2 in Ho; [left; tauto|].
    destruct sp as [x|].
    - destruct (denied_spec x) as [[? E3]|[? E3]]; rewrite E3 in Ho; [left; eauto 10|].
      right. split; [|done]. intros [?|[?|(? & [= <-] & ?)]]; done.
    - right. split; [|done]. intros [?|[?|(? & ? & ?)]]; done. }
  rule.
  { destruct Hden as [[_ Ht]|[Hn' _]]; [|done]. eexists; split; [reflexivity|]. apply Ht; [constructor|done]. }
  destruct Hden as [[? _]|(_ & -> & -> & Esp)] in Ho; [done|]. rewrite Esp in Ho. clear Hrule.
  destruct (bad_fee_spec fee) as [[Hy' E']|[Hn' E']]; rewrite E' in Ho; rule; try done.
  { eexists; split; [reflexivity|]. apply Ho; [constructor|done]. }
  clear Hrule. rule.
  { eexists; split; [reflexivity|]. destruct (N.leb_spec U128_MOD (amount + FEE)); [|lia].
    apply Ho; [constructor|done]. }
  destruct (N.leb_spec U128_MOD (amount + FEE)); [done|]. clear Hrule.
  pose proof (allowance_spec s now from sp (amount + FEE) Hi ltac:(unfold FEE; lia)) as Hal.
  rule.
  { destruct (third_party from sp) as [x|]; [|done]. destruct Hal as (-> & _ & [[? _]|(_ & Hal)]); [done|].
    destruct Hal as [Hal|(Hal & Hro & _)]; rewrite Hal in Ho; simpl in Ho.
    - eexists; split; [exists x; split; [done|left; reflexivity]|]. apply Ho; [constructor|done].
    - eexists; split; [exists x; split; [done|right; split; [reflexivity|done]]|]. apply Ho; [constructor|done]. }
  assert (match third_party from sp with
          | Some sp0 => match check_allowance s from sp0 (amount + FEE) now with
                        | Ok _ => None | Err e => Some (tf_of_ua e) end
          | None => None end = None) as Eal.
  { destruct (third_party from sp) as [x|]; [|done]. destruct Hal as (_ & _ & [[_ [r ->]]|[? _]]); done. }
  rewrite Eal in Ho. clear Hrule Eal Hal. rule.
  { eexists; split; [reflexivity|]. destruct (N.ltb_spec (balance_of s from) (amount + FEE)); [|lia].
    apply Ho; [constructor|done]. }
  destruct (N.ltb_spec (balance_of s from) (amount + FEE)); [done|]. clear Hrule. rule.
  { eexists; split; [reflexivity|]. destruct (N.leb_spec U128_MOD (balance_of s to + amount)); [|lia].
    apply Ho; [constructor|done]. }
  destruct (N.leb_spec U128_MOD (balance_of s to + amount)); [done|]. clear Hrule.
  unfold process_decide in Ho. cbn [tx_memo tx_created_at] in Ho.
  destruct (memo_spec m) as [[Hy Em]|[Hn1 Em]]; rewrite Em in Ho; simpl in Ho; rule; try done.
  { eexists; split; [reflexivity|]. by apply Ho. }
  clear Hrule. fold (decided (time_rules created now) told otherwise).
  apply time_decided; [done|done|].
  destruct (validate_created_at_time created now) as [?|[i x| |t|]]; simpl in Ho; try done;
    apply Ho; (constructor || done).
Qed.

Inductive ap_says : approve_error -> refusal -> Prop :=
| aps_funds b : ap_says (AInsufficientFunds b) (NoFunds b)
| aps_fee : ap_says (ABadFee FEE) WrongFee
| aps_dup i x : ap_says (ADuplicate i) (AlreadyDone i x)
| aps_denied : ap_says (AGenericError DENIED_OWNER) Denied
| aps_changed a : ap_says (AAllowanceChanged a) (OtherAllowance a)
| aps_expired t : ap_says (AExpired t) (AlreadyExpired t)
| aps_old : ap_says ATooOld CreatedTooLongAgo
| aps_future t : ap_says (ACreatedInFuture t) (CreatedLater t).

Lemma approve_decided s now from sp amount expected expires fee m created
  (told : refusal -> Prop) (otherwise : Prop) :
  is_u64 now -> wf_u64_opt created ->
  match apr_decide from sp amount expected expires fee m created now s with
  | OOk _ => otherwise
  | OErr e => forall r, ap_says e r -> told r
  | OTrap x => (x = TrapMemoTooLong -> told LongMemo) /\ (x = TrapSelfApproval -> told OwnAccount)
  end ->
  decided (approve_rules s now
             (tx_hashes s !! txh (Tx (Approve from sp (N.min amount (2 ^ 128 - 1)) expected expires fee) created m))
             from sp expected expires fee m created) told otherwise.
Proof.
  intros Hu Hc Ho. unfold approve_rules. simpl app. cbv zeta.
  unfold apr_decide in Ho. unfold icrc1_balance_of, icrc1_fee.
  rewrite <- capped_min. unfold capped.
  destruct (huge_spec expected) as [[Hy E]|[Hn E]]; rewrite E in Ho; rule; try done.
  { eexists; split; [reflexivity|]. apply Ho. constructor. }
  clear Hrule.
  destruct (huge_spec fee) as [[Hy E']|[Hn' E']]; rewrite E' in Ho; rule; try done.
  { eexists; split; [reflexivity|]. apply Ho. constructor. }
  clear Hrule. unfold approve_decide in Ho. rule.
  { destruct Hrule as [[i x] Hd]. rewrite Hd in Ho. exists (AlreadyDone i x). split; [by exists i, x|].
    apply Ho. constructor. }
  destruct (tx_hashes s !! _) as [[i x]|] eqn:Edup; [by destruct Hrule|]. clear Hrule.
  rule. { eexists; split; [reflexivity|]. rewrite bool_decide_eq_true_2 in Ho by done. by apply Ho. }
  rewrite bool_decide_eq_false_2 in Ho by done. clear Hrule.
  assert ((~ may_take_part from \/ ~ may_take_part sp) /\
          (forall r, ap_says (AGenericError DENIED_OWNER) r -> told r)
          \/ ~ (~ may_take_part from \/ ~ may_take_part sp)
             /\ is_denied (owner from) = false /\ is_denied (owner sp) = false) as Hden.
  { destruct (denied_spec from) as [[? E1]|[? E1]]; rewrite E1 in Ho; [left; tauto|].
    destruct (denied_spec sp) as [[? E2]|[? E2]]; rewrite E2 in Ho; [left; tauto|].
    right. split; [|done]. intros [?|?]; done. }
  rule.
  { destruct Hden as [[_ Ht]|[Hn1 _]]; [|done]. eexists; split; [reflexivity|]. apply Ht. constructor. }
  destruct Hden as [[? _]|(_ & E1 & E2)]; [done|]. rewrite E1, E2 in Ho. clear Hrule.
  rewrite allowance_fst in Ho.
  rule.
  { destruct Hrule as (e & -> & Hne). eexists; split; [reflexivity|].
    destruct (N.eqb_spec e (icrc2_allowance s now from sp).1); [done|]. apply Ho. constructor. }
  assert (match expected with Some e => negb (e =? (icrc2_allowance s now from sp).1) | None => false end = false) as Ee.
  { destruct expected as [e|]; [|done]. destruct (N.eqb_spec e (icrc2_allowance s now from sp).1); [done|].
    destruct Hrule. by exists e. }
  rewrite Ee in Ho. clear Hrule Ee.
  destruct (bad_fee_spec fee) as [[Hy' E'']|[Hn'' E'']]; rewrite E'' in Ho; rule; try done.
  { eexists; split; [reflexivity|]. apply Ho. constructor. }
  clear Hrule. rule.
  { eexists; split; [reflexivity|]. destruct (N.ltb_spec (balance_of s from) FEE); [|lia]. apply Ho. constructor. }
  destruct (N.ltb_spec (balance_of s from) FEE); [done|]. clear Hrule.
  change (2 ^ 64 - 1) with REMOTE_FUTURE. rule.
  { eexists; split; [reflexivity|]. destruct (N.leb_spec (default REMOTE_FUTURE expires) now); [|lia].
    apply Ho. constructor. }
  destruct (N.leb_spec (default REMOTE_FUTURE expires) now); [done|]. clear Hrule.
  unfold process_decide in Ho. cbn [tx_memo tx_created_at] in Ho.
  destruct (memo_spec m) as [[Hy Em]|[Hn1 Em]]; rewrite Em in Ho; simpl in Ho; rule; try done.
  { eexists; split; [reflexivity|]. by apply Ho. }
  clear Hrule. fold (decided (time_rules created now) told otherwise).
  apply time_decided; [done|done|].
  destruct (validate_created_at_time created now) as [?|[i x| |t|]]; simpl in Ho; try done;
    apply Ho; constructor.
Qed.

(** Burns *)
Lemma burn_decided {E} (says : E -> refusal -> Prop) (cp : pt_error -> E) cu nf
  s now t from sp amount created (told : refusal -> Prop) (otherwise : Prop) :
  inv now s -> is_u64 now -> wf_u64_opt created -> tx_created_at t = created ->
  validate_memo (tx_memo t) = true ->
  (forall i x, says (cp (PTDuplicate i x)) (AlreadyDone i x)) ->
  says (cp PTTooOld) CreatedTooLongAgo -> (forall n, says (cp (PTInTheFuture n)) (CreatedLater n)) ->
  (forall b, says (nf b) (NoFunds b)) ->
  (forall a, exists e, cu (UAInsufficientAllowance a) = inl e /\ says e (NoAllowance a)) ->
  (exists e, cu ExpiredApproval = inl e /\ says e (NoAllowance 0)) ->
  match burn_decide cp cu nf t from sp amount now s with
  | OOk _ => otherwise
  | OErr e => forall r, says e r -> fits sp r -> told r
  | OTrap x => True
  end ->
  decided (burn_rules s now (tx_hashes s !! txh t) from sp amount created) told otherwise.
Proof.
  intros Hi Hu Hc Hct Hm Sdup Sold Sfut Snf Sal Sex Ho. unfold burn_rules. simpl app. rewrite u128_lit.
  unfold burn_decide in Ho. unfold icrc1_balance_of, icrc1_fee.
  rule.
  { destruct Hrule as [[i x] Hd]. rewrite Hd in Ho. exists (AlreadyDone i x). split; [by exists i, x|].
    by apply Ho. }
  destruct (tx_hashes s !! _) as [[i x]|] eqn:Edup; [by destruct Hrule|]. clear Hrule.
  rule.
  { eexists; split; [reflexivity|]. destruct (N.leb_spec U128_MOD (amount + FEE)); [|lia]. by apply Ho. }
  destruct (N.leb_spec U128_MOD (amount + FEE)); [done|]. clear Hrule.
  pose proof (allowance_spec s now from sp (amount + FEE) Hi ltac:(unfold FEE; lia)) as Hal.
  rule.
  { destruct (third_party from sp) as [x|]; [|done]. destruct Hal as (-> & _ & [[? _]|(_ & Hal)]); [done|].
    exists (NoAllowance (usable s now from x).1). split; [by exists x|].
    destruct Hal as [Hal|(Hal & _ & Hz)]; rewrite Hal in Ho.
    - destruct (Sal (usable s now from x).1) as (e & Ee & Hs). rewrite Ee in Ho. by apply Ho.
    - destruct Sex as (e & Ee & Hs). rewrite Ee in Ho. rewrite Hz. by apply Ho. }
  assert (exists old, match third_party from sp with
          | Some sp0 => match check_allowance s from sp0 (amount + FEE) now with
                        | Ok (_, e) => OOk (old_expiry e)
                        | Err e => match cu e with inl e' => OErr e' | inr x => OTrap x end end
          | None => OOk None end = OOk old) as [old Eal].
  { destruct (third_party from sp) as [x|]; [|eauto].
    destruct Hal as (_ & _ & [[_ [[r e] ->]]|[? _]]); [eauto|done]. }
  rewrite Eal in Ho. clear Hrule Eal Hal. rule.
  { eexists; split; [reflexivity|]. destruct (N.ltb_spec (balance_of s from) (amount + FEE)); [|lia]. by apply Ho. }
  destruct (N.ltb_spec (balance_of s from) (amount + FEE)); [done|]. clear Hrule.
  unfold process_decide in Ho. rewrite Hm, Hct in Ho. simpl in Ho.
  fold (decided (time_rules created now) told otherwise).
  apply time_decided; [done|done|].
  destruct (validate_created_at_time created now) as [?|[i x| |n|]]; simpl in Ho; try done; by apply Ho.
Qed.

Inductive wf_says : withdraw_from_error -> refusal -> Prop :=
| wfs_funds b : wf_says (WFInsufficientFunds b) (NoFunds b)
| wfs_dup i x : wf_says (WFDuplicate i) (AlreadyDone i x)
| wfs_recv p : wf_says (WFInvalidReceiver p) (BadReceiver p)
| wfs_zero : wf_says (WFGenericError CANNOT_TRANSFER_FROM_ZERO) NothingToWithdraw
| wfs_allow a : wf_says (WFInsufficientAllowance a) (NoAllowance a)
| wfs_old : wf_says WFTooOld CreatedTooLongAgo
| wfs_future t : wf_says (WFCreatedInFuture t) (CreatedLater t).
Inductive cf_says : create_canister_from_error -> refusal -> Prop :=
| cfs_funds b : cf_says (CFInsufficientFunds b) (NoFunds b)
| cfs_dup i x : cf_says (CFDuplicate i x) (AlreadyDone i x)
| cfs_allow a : cf_says (CFInsufficientAllowance a) (NoAllowance a)
| cfs_old : cf_says CFTooOld CreatedTooLongAgo
| cfs_future t : cf_says (CFCreatedInFuture t) (CreatedLater t).

Lemma withdraw_decided s now from to sp amount created (told : refusal -> Prop) (otherwise : Prop) :
  inv now s -> is_u64 now -> wf_u64_opt created -> wf_principal to ->
  match wd_decide from to sp amount created now s with
  | OOk _ => otherwise
  | OErr e => forall r, wf_says e r -> fits sp r -> told r
  | OTrap x => True
  end ->
  decided (withdraw_rules s now
             (tx_hashes s !! txh (Tx (Burn from sp amount) created (Some (encode_withdraw_memo to))))
             from sp to amount created) told otherwise.
Proof.
  intros Hi Hu Hc Hto Ho. unfold withdraw_rules. cbn [app]. unfold wd_decide, withdraw_decide in Ho.
  rewrite u128_lit. unfold icrc1_balance_of.
  rule. { eexists; split; [reflexivity|]. destruct (N.leb_spec U128_MOD amount); [|lia]. apply Ho; [constructor|done]. }
  destruct (N.leb_spec U128_MOD amount); [done|]. clear Hrule. unfold is_self_authenticating in Ho.
  rule. { rewrite Hrule in Ho. eexists; split; [reflexivity|]. apply Ho; [constructor|done]. }
  assert (match to !! 28%nat with Some b => bool_decide (b = Byte.x02) | None => false end = false) as Es.
  { destruct (to !! 28%nat) as [b|]; [|done]. case_bool_decide; [|done]. subst b. by destruct Hrule. }
  rewrite Es in Ho. clear Hrule Es.
  rule. { subst amount. eexists; split; [reflexivity|]. apply Ho; [constructor|done]. }
  destruct (N.eqb_spec amount 0); [done|].
  fold (decided (burn_rules s now (tx_hashes s !! txh (Tx (Burn from sp amount) created (Some (encode_withdraw_memo to))))
                   from sp amount created) told otherwise).
  eapply (burn_decided wf_says wf_of_pt wf_of_ua WFInsufficientFunds); try done.
  - cbn [tx_memo]. apply memo_fits_ok. unfold memo_fits. pose proof (withdraw_memo_length to Hto) as Hl.
    unfold wf_principal in Hto. rewrite Hl. destruct (_ <? _)%nat; lia.
  - constructor.
  - constructor.
  - constructor.
  - constructor.
  - intros a. eexists. split; [reflexivity|constructor].
  - eexists. split; [reflexivity|constructor].
Qed.
Lemma create_decided s now from sp amount created (told : refusal -> Prop) (otherwise : Prop) :
  inv now s -> is_u64 now -> wf_u64_opt created ->
  match cr_decide from sp amount created now s with
  | OOk _ => otherwise
  | OErr e => forall r, cf_says e r -> fits sp r -> told r
  | OTrap x => True
  end ->
  decided (create_rules s now
             (tx_hashes s !! txh (Tx (Burn from sp amount) created (Some CREATE_CANISTER_MEMO)))
             from sp amount created) told otherwise.
Proof.
  intros Hi Hu Hc Ho. unfold create_rules. unfold cr_decide, create_decide in Ho.
  rewrite u128_lit. unfold icrc1_balance_of.
  rule. { eexists; split; [reflexivity|]. destruct (N.leb_spec U128_MOD amount); [|lia]. apply Ho; [constructor|done]. }
  destruct (N.leb_spec U128_MOD amount); [done|]. clear Hrule.
  fold (decided (burn_rules s now (tx_hashes s !! txh (Tx (Burn from sp amount) created (Some CREATE_CANISTER_MEMO)))
                   from sp amount created) told otherwise).
  eapply (burn_decided cf_says cf_of_pt cf_of_ua CFInsufficientFunds); try done.
  - constructor.
  - constructor.
  - constructor.
  - constructor.
  - intros a. eexists. split; [reflexivity|constructor].
  - eexists. split; [reflexivity|constructor].
Qed.

(** What the ledger remembers *)
Lemma remembers_stored s now t :
  inv now s -> is_u64 now -> remembers s now t (tx_hashes s !! txh t).
Proof.
  intros Hi Hu. unfold remembers. destruct (tx_hashes s !! txh t) as [[i x]|] eqn:E.
  - destruct (inv_hashes _ _ Hi _ _ _ E) as [(b & Hb & Hh) (ts & j & b' & Hin & Hb' & Hh')]. split.
    + exists b. split; [done|]. by rewrite !tx_hash_txh, Hh.
    + destruct (inv_ts _ _ Hi _ _ Hin) as (b2 & _ & Hb2 & Hts & _). assert (b2 = b') as -> by congruence.
      exists b', ts. split; [by eapply elem_of_list_lookup_2|]. split; [by rewrite !tx_hash_txh, Hh'|done].
  - intros b created Hb Hh Hc. rewrite !tx_hash_txh in Hh. injection Hh as Hh.
    apply elem_of_list_lookup in Hb as [n Hb]. rewrite <- (Nat2N.id n) in Hb.
    destruct (decide (now <= created + DAY + MINUTE)) as [Hle|]; [|lia].
    destruct (inv_dropped _ _ Hi _ _ _ Hb Hc) as [Hin|Hout].
    + destruct (inv_ts _ _ Hi _ _ Hin) as (b' & e & Hb' & _ & He).
      assert (b' = b) as -> by congruence. rewrite Hh in He. congruence.
    + by rewrite (window_not_before created now) in Hout.
Qed.

(** ** C50 *)
Lemma sync_failed_reply w now caller c sync w' resp from sp amount :
  reachable w -> ev_ok w (EvCall now caller c sync) ->
  step w (EvCall now caller c sync) = (w', resp) -> rejected resp = false ->
  outgoing caller c = Some (from, sp, amount) ->
  told_accepted w w' caller c sync resp.
Proof.
  intros Hr Hev Hst Hrej Ho. unfold told_accepted. rewrite Ho.
  destruct (step_accepted _ _ _ _ _ _ _ Hr Hev Hst Hrej) as (Hok & r & Ha & Hm).
  destruct (C23_immediate_failure_refunded _ _ _ _ _ _ _ _ _ _ Hr Hev Hst Hrej Ho)
    as [(id & out & ->)|(s1 & _ & Href & _)].
  - destruct (waiting_facts _ _ _ _ _ _ _ _ Hr Hev Hst) as (_ & p & Hp & _ & -> & -> & _ & Hc & _).
    destruct Ha as [s1 r1 E Hd|s1 q E Hq Hs Hpo|s1 q e s' r1 E Hq Hs Hpo Hrj Hpr Hsr].
    + destruct Hm as [E' _]. subst r1. by destruct c.
    + assert (q = p) as -> by congruence. unfold sync_fail in Hs. destruct sync; [done|].
      destruct (N.ltb_spec (w_cycles w) (pending_amount p)); [done|].
      assert (pending_amount p = amount /\ outgoing_call caller c = Some (outcall_of p)) as [Ea Eo].
      { destruct c; simpl in Hp, Ho; try done; injection Hp as <-; injection Ho as <- <- <-; done. }
      rewrite Eo. case_decide as Hd; [done|]. exfalso. apply Hd. split; [done|lia].
    + exfalso. destruct Hm as [E' _]. subst r1. unfold sync_rest in Hsr.
      destruct (resume now q (sync_answer q e)) as [k|]; [|done].
      destruct (k s1) as [s2 [rep|[]|x]]; done.
  - assert (exists fb ab, RespReply <$> failed_reply c (N.of_nat (length (blocks (w_led w)))) fb ab RSysTransient
              = Some resp) as Hf.
    { destruct Href as [(_ & _ & Hf)|(_ & fb & ab & Hf & _)]; eauto. }
    case_decide as Hd; [|done]. exfalso. destruct Hd as [-> Hle].
    destruct Ha as [s2 r1 E Hd|s2 q E Hq Hs Hpo|s2 q e s' r1 E Hq Hs Hpo Hrj Hpr Hsr].
    + by destruct c.
    + destruct Hm as [-> _]. destruct Hf as (fb & ab & Hf). by destruct c.
    + unfold sync_fail in Hs. destruct (N.ltb_spec (w_cycles w) (pending_amount q)); [|done].
      assert (pending_amount q = amount) as Ea; [|lia].
      destruct c; simpl in Hq, Ho; try done; injection Hq as <-; injection Ho as <- <- <-; done.
Qed.

Lemma sync_rest_trap now p e s0 s s' resp :
  supply_ok s -> sync_rest now p e s0 s = (s', Done resp) -> rejected resp = true ->
  exists t, resp = RespTrap t.
Proof.
  intros Hs Es Hrej. unfold sync_rest in Es.
  destruct (sync_answer_resume now p e) as [k Hk]. rewrite Hk in Es.
  destruct p as [ep from to sp amount i old|ep from sp amount i old created arg]; cbn [resume sync_answer] in Hk;
    match type of Hk with Some ?a = _ => assert (k = a) as -> by congruence end; clear Hk.
  - destruct (withdraw_rest_eq ep from sp amount i old now (call_error_of_sync e) s0 s Hs) as [x Hx].
    rewrite Hx in Es. unfold wd_fail_rest in Es.
    destruct (amount - FEE =? 0); [injection Es as <- <-; by destruct ep|].
    destruct (refund_outcome _ _ _ _ _ _ _) as [[[s2 fb] ab]|]; injection Es as <- <-; [by destruct ep|eauto].
  - destruct (create_rest_eq ep from sp amount i old created now (Err (call_error_of_sync e)) s0 s Hs)
      as [x Hx].
    rewrite Hx in Es. simpl flat_create_result in Es. cbv beta iota in Es. unfold cr_fail_rest in Es.
    destruct (amount - FEE =? 0); [injection Es as <- <-; by destruct ep|].
    destruct (refund_outcome _ _ _ _ _ _ _) as [[[s2 fb] ab]|]; injection Es as <- <-; [by destruct ep|eauto].
Qed.
Lemma out_trap now avail amount sync p s0 s s' r w w' c resp :
  supply_ok s ->
  match sync_fail avail amount sync with
  | Some e => sync_rest now p e s0 s
  | None => (s, Waiting p)
  end = (s', r) ->
  match r with
  | Done resp' => resp = resp' /\ w' = World s' now (w_pend w) (w_next w)
                                   (w_cycles w + accepted_cycles c resp) (w_used w)
  | Waiting p => resp = RespPending (w_next w) (outcall_of p)
                 /\ w' = World s' now (<[w_next w := p]> (w_pend w)) (w_next w + 1)
                            (w_cycles w - pending_amount p) (w_used w)
  end ->
  rejected resp = true -> exists t, resp = RespTrap t.
Proof.
  intros Hs He Hm Hrej. destruct (sync_fail avail amount sync) as [e|].
  - destruct r as [resp'|q].
    + destruct Hm as [-> _]. by eapply sync_rest_trap.
    + by destruct Hm as [-> _].
  - injection He as <- <-. by destruct Hm as [-> _].
Qed.

Lemma outgoing_final w now caller c sync w' resp from sp amount :
  reachable w -> ev_ok w (EvCall now caller c sync) ->
  step w (EvCall now caller c sync) = (w', resp) -> outgoing caller c = Some (from, sp, amount) ->
  (rejected resp = true -> exists t, resp = RespTrap t) ->
  (rejected resp = false /\ told_accepted w w' caller c sync resp)
  \/ (unchanged w w' /\ (exists t, resp = RespTrap t) /\ immediate_failure_corner w now caller c sync).
Proof.
  intros Hr Hev Hst Ho Ht. destruct (rejected resp) eqn:Hrej.
  - right. destruct Ht as [t ->]; [done|].
    destruct (C39_traps _ _ _ _ _ _ _ Hr Hev Hst) as [Hun Hc]. split; [done|]. split; [eauto|].
    destruct Hc as [[_ Hm]|[(_ & ? & ? & ? & ? & ? & ? & ? & ? & -> & _)|[(_ & ? & ? & ? & -> & _)|Hc]]]; try done.
    destruct c; simpl in *; try done; by destruct Hm.
  - left. split; [done|]. by eapply sync_failed_reply.
Qed.

(** With the ledger's own record of the transaction *)
Lemma answer_stored w now caller c sync w' resp :
  reachable w -> ev_ok w (EvCall now caller c sync) ->
  step w (EvCall now caller c sync) = (w', resp) ->
  decided (rules (w_led w) now caller c (tx_hashes (w_led w) !! txh (requested caller c)))
       (fun r => answer_of c r = Some resp /\ unchanged w w')
       ((rejected resp = false /\ told_accepted w w' caller c sync resp)
        \/ (unchanged w w' /\ (exists t, resp = RespTrap t)
            /\ immediate_failure_corner w now caller c sync)).
Proof.
  intros Hr Hev Hst.
  destruct (call_inv _ _ _ _ _ Hr Hev) as (Hi & Hu & Hcl & Hwf). pose proof (inv_supply _ _ Hi) as Hs.
  pose proof Hst as Hst0. apply step_call in Hst as (s' & r & He & _ & Hm).
  assert (rejected resp = true -> unchanged w w') as Hun by (intros; by eapply step_rejected).
  destruct c as [cycles to m|sub to amount fee m created|sub from to amount fee m created
    |sub sp amount expected expires fee m created|sub to created amount|sub from to created amount
    |sub created amount args|from sub created amount args]; simpl in Hwf.
  - rewrite exec_deposit in He. cbn [rules]. unfold deposit_rules. destruct Hwf as [Hc Hto].
    rewrite u128_lit. unfold icrc1_fee, icrc1_total_supply.
    unfold dep_decide, mint_decide in He.
    rule.
    { destruct (N.leb_spec cycles FEE); [|lia]. injection He as <- <-. destruct Hm as [-> _].
      eexists. split; [reflexivity|]. by split; [|apply Hun]. }
    destruct (N.leb_spec cycles FEE); [done|]. clear Hrule.
    pose proof (supply_bal (w_led w) (to_key to) Hs) as Hb.
    change (bal (w_led w) (to_key to)) with (balance_of (w_led w) to) in Hb.
    rule.
    { assert ((U128_MOD <=? balance_of (w_led w) to + (cycles - FEE))
              || (U128_MOD <=? total_supply (w_led w) + (cycles - FEE)) = true) as E.
      { destruct (N.leb_spec U128_MOD (total_supply (w_led w) + (cycles - FEE))); [|lia]. apply orb_true_r. }
      rewrite E in He. injection He as <- <-. destruct Hm as [-> _].
      eexists. split; [reflexivity|]. by split; [|apply Hun]. }
    assert ((U128_MOD <=? balance_of (w_led w) to + (cycles - FEE))
            || (U128_MOD <=? total_supply (w_led w) + (cycles - FEE)) = false) as E.
    { destruct (N.leb_spec U128_MOD (total_supply (w_led w) + (cycles - FEE))); [done|].
      destruct (N.leb_spec U128_MOD (balance_of (w_led w) to + (cycles - FEE))); [lia|done]. }
    rewrite E in He. clear Hrule E.
    destruct (memo_spec m) as [[Hy Em]|[Hn1 Em]]; rewrite Em in He; simpl in He; rule; try done.
    + injection He as <- <-. destruct Hm as [-> _]. eexists. split; [reflexivity|]. by split; [|apply Hun].
    + injection He as <- <-. destruct Hm as [-> ->]. left. split; [done|]. done.
  - rewrite exec_transfer in He by done. cbn [rules requested]. destruct Hwf as (Hsub & Hto & Hc).
    apply transfer_decided; [done..|].
    destruct (xfer_decide _ _ _ _ _ _ _ _ _) as [[]|e|x] eqn:Ed; injection He as <- <-.
    + left. by destruct Hm as [-> _].
    + intros r Hs' Hf. destruct Hm as [-> _].
      destruct Hs'; (done || (split; [done|by apply Hun])).
    + destruct Hm as [-> _]. intros ->. by split; [|apply Hun].
  - rewrite exec_transfer_from in He by done. cbn [rules requested]. destruct Hwf as (Hsub & Hf & Hto & Hc).
    apply transfer_decided; [done..|].
    destruct (xfer_decide _ _ _ _ _ _ _ _ _) as [[]|e|x] eqn:Ed; injection He as <- <-.
    + left. by destruct Hm as [-> _].
    + intros r Hs' Hft. destruct Hm as [-> _].
      destruct Hs'; (done || (split; [done|by apply Hun])).
    + destruct Hm as [-> _]. intros ->. by split; [|apply Hun].
  - rewrite exec_approve in He by done. cbn [rules requested]. destruct Hwf as (Hsub & Hsp & Hx & Hc).
    apply approve_decided with (amount := amount); [done..|].
    destruct (apr_decide _ _ _ _ _ _ _ _ _ _) as [[]|e|x] eqn:Ed; injection He as <- <-.
    + left. by destruct Hm as [-> _].
    + intros r Hs'. destruct Hm as [-> _]. destruct Hs'; (split; [done|by apply Hun]).
    + destruct Hm as [-> _]. split; intros ->; by split; [|apply Hun].
  - rewrite exec_withdraw in He by done. cbn [rules requested]. destruct Hwf as (Hsub & Hto & Hc).
    unfold after_withdraw in He. apply withdraw_decided; [done..|].
    destruct (wd_decide _ _ _ _ _ _ _) as [old|e|x] eqn:Ed; [|injection He as <- <-|done].
    + eapply (outgoing_final _ _ _ _ _ _ _ (Acct caller sub) None amount); [done..|]. apply wd_decide_ok in Ed as (Hok & _); [|done..].
      eapply out_trap; [|exact He|exact Hm]. by apply (inv_supply now), recorded_inv.
    + intros r Hs' Hft. destruct Hm as [-> _]. destruct Hs'; (done || (split; [done|by apply Hun])).
  - rewrite exec_withdraw_from in He by done. cbn [rules requested]. destruct Hwf as (Hsub & Hf & Hto & Hc).
    unfold after_withdraw in He. apply withdraw_decided; [done..|].
    destruct (wd_decide _ _ _ _ _ _ _) as [old|e|x] eqn:Ed; [|injection He as <- <-|done].
    + eapply (outgoing_final _ _ _ _ _ _ _ from (Some (Acct caller sub)) amount); [done..|]. apply wd_decide_ok in Ed as (Hok & _); [|done..].
      eapply out_trap; [|exact He|exact Hm]. by apply (inv_supply now), recorded_inv.
    + intros r Hs' Hft. destruct Hm as [-> _]. destruct Hs'; (done || (split; [done|by apply Hun])).
  - rewrite exec_create in He by done. cbn [rules requested]. destruct Hwf as (Hsub & Hc).
    unfold after_create in He. apply create_decided; [done..|].
    destruct (cr_decide _ _ _ _ _ _) as [old|e|x] eqn:Ed; [|injection He as <- <-|done].
    + eapply (outgoing_final _ _ _ _ _ _ _ (Acct caller sub) None amount); [done..|]. apply cr_decide_ok in Ed as (Hok & _); [|done..].
      eapply out_trap; [|exact He|exact Hm]. by apply (inv_supply now), recorded_inv.
    + intros r Hs' Hft. destruct Hm as [-> _]. destruct Hs'; (done || (split; [done|by apply Hun])).
  - rewrite exec_create_from in He by done. cbn [rules requested]. destruct Hwf as (Hf & Hsub & Hc).
    unfold after_create in He. apply create_decided; [done..|].
    destruct (cr_decide _ _ _ _ _ _) as [old|e|x] eqn:Ed; [|injection He as <- <-|done].
    + eapply (outgoing_final _ _ _ _ _ _ _ from (Some (Acct caller sub)) amount); [done..|]. apply cr_decide_ok in Ed as (Hok & _); [|done..].
      eapply out_trap; [|exact He|exact Hm]. by apply (inv_supply now), recorded_inv.
    + intros r Hs' Hft. destruct Hm as [-> _]. destruct Hs'; (done || (split; [done|by apply Hun])).
Qed.

(** The answer to every update call.  The only freedom left by the rules is
    whether a transaction outside its window is still remembered, and whether an
    allowance that has run out is called expired or absent.  A call that is not
    turned down is answered as [told_accepted] says, unless it traps and is
    rolled back in the corner described by [immediate_failure_corner]. *)
Theorem C50_answer w now caller c sync w' resp :
  reachable w -> ev_ok w (EvCall now caller c sync) ->
  step w (EvCall now caller c sync) = (w', resp) ->
  exists dup, remembers (w_led w) now (requested caller c) dup
  /\ decided (rules (w_led w) now caller c dup)
       (fun r => answer_of c r = Some resp /\ unchanged w w')
       ((rejected resp = false /\ told_accepted w w' caller c sync resp)
        \/ (unchanged w w' /\ (exists t, resp = RespTrap t)
            /\ immediate_failure_corner w now caller c sync)).
Proof.
  intros Hr Hev Hst. destruct (call_inv _ _ _ _ _ Hr Hev) as (Hi & Hu & Hcl & Hwf).
  exists (tx_hashes (w_led w) !! txh (requested caller c)). split; [by apply remembers_stored|].
  by apply answer_stored.
Qed.

End WithEnv.

(** ** Non-vacuity *)
Local Ltac demo :=
  split; [apply demo_at_reachable; vm_compute; reflexivity|];
  split; [apply ev_okb_ok; vm_compute; reflexivity|]; vm_compute; reflexivity.

(** A call that breaks three rules is told about the first of them only: a
    wrong fee, an amount above the allowance and one above the balance. *)
Example C50_case_order :
  let s := w_led (demo_at 3) in
  let c fee created := CallTransferFrom None (acct alice) (acct carol) (50 * T) fee None created in
  answers (demo_at 3) (EvCall (T0 + 4 * sec) bob (c (Some 1) (Some T0)) None)
    (RespReply (RepTransferFrom (Err (TFBadFee icrc1_fee))))
  /\ answers (demo_at 3) (EvCall (T0 + 4 * sec) bob (c None (Some 0)) None)
       (RespReply (RepTransferFrom (Err (TFInsufficientAllowance (5 * T)))))
  /\ wrong_fee (Some 1)
  /\ not_allowed s (T0 + 4 * sec) (acct alice) (Some (acct bob)) (50 * T + icrc1_fee)
  /\ icrc1_balance_of s (acct alice) < 50 * T + icrc1_fee
  /\ too_long_ago (Some 0) (T0 + 4 * sec).
Proof.
  cbv zeta. split; [demo|]. split; [demo|]. split; [exists 1; by vm_compute|].
  split; [exists (acct bob); split; [done|]; split; [by vm_compute|by vm_compute]|].
  split; [by vm_compute|]. exists 0. by vm_compute.
Qed.

(** Accepted calls: a transfer, a withdrawal that goes out, and one that
    cannot go out and is refunded at once *)
Example C50_case_accepted :
  answers (demo_at 1)
    (EvCall (T0 + 2 * sec) alice (CallTransfer None (acct bob) (2 * T) None None None) None)
    (RespReply (RepTransfer (Ok 2)))
  /\ answers (demo_at 8) (EvCall (T0 + 9 * sec) alice (CallWithdraw None canister None T) None)
       (RespPending 2 (OutDepositCycles canister T))
  /\ rejected
       (step (demo_at 8)
          (EvCall (T0 + 9 * sec) alice (CallWithdraw None canister None T) (Some SEPerform))).2 = false.
Proof. split; [demo|]. split; [demo|]. vm_compute. reflexivity. Qed.

(** Refusals of the other calls *)
Example C50_case_refused :
  answers (demo_at 3)
    (EvCall (T0 + 4 * sec) alice (CallApprove None (Acct alice (Some 7)) T None None None None None) None)
    (RespTrap TrapSelfApproval)
  /\ answers (demo_at 3)
    (EvCall (T0 + 4 * sec) alice (CallApprove None (acct bob) T None (Some T0) None None None) None)
    (RespReply (RepApprove (Err (AExpired (T0 + 4 * sec)))))
  /\ answers (demo_at 3)
    (EvCall (T0 + 4 * sec) alice (CallWithdraw None canister None 0) None)
    (RespReply (RepWithdraw (Err (WGenericError CANNOT_TRANSFER_FROM_ZERO))))
  /\ answers (demo_at 3)
    (EvCall (T0 + 4 * sec) bob (CallCreateCanisterFrom (acct carol) None None T None) None)
    (RespReply (RepCreateFrom (Err (CFInsufficientAllowance 0)))).
Proof. split; [demo|]. split; [demo|]. split; demo. Qed.

Print Assumptions C50_answer.
