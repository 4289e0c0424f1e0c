(** * Which calls are answered [Duplicate], [TooOld] and [CreatedInFuture] *)
From Verif Require Import Base Types Codec CodecFacts CodecProofs State Ledger Canister Effects Spec ApiSpec
  Inv Steps World CallFacts CallCases.

(** The calls that get as far as the duplicate check *)
Definition checkable (c : call) : Prop :=
  let small o := match o with Some f => f < U128_MOD | None => True end in
  match c with
  | CallDeposit _ _ _ => False
  | CallTransfer _ _ amount fee _ _ => amount < U128_MOD /\ small fee
  | CallTransferFrom _ _ _ amount fee _ _ => amount < U128_MOD /\ small fee
  | CallApprove _ _ _ expected _ fee _ _ => small expected /\ small fee
  | CallWithdraw _ to _ amount =>
      amount < U128_MOD /\ amount <> 0 /\ is_self_authenticating to = false
  | CallWithdrawFrom _ _ to _ amount =>
      amount < U128_MOD /\ amount <> 0 /\ is_self_authenticating to = false
  | CallCreateCanister _ _ amount _ => amount < U128_MOD
  | CallCreateCanisterFrom _ _ _ amount _ => amount < U128_MOD
  end.

Lemma checkable_wf caller c :
  wf_principal caller -> wf_call c -> checkable c ->
  wf_op (tx_op (requested caller c)) /\ wf_u64_opt (tx_created_at (requested caller c)).
Proof.
  intros Hcl Hwf Hch.
  assert (forall o, match o with Some f => f < U128_MOD | None => True end -> wf_u128_opt o) as Hs.
  { intros [?|]; done. }
  destruct c; simpl in *; try done; destruct_and?;
    repeat match goal with |- _ /\ _ => split end; try done; auto.
  change (2 ^ 128 - 1) with U128_MAX. unfold is_u128, U128_MOD, U128_MAX. lia.
Qed.

(** A recorded transaction is checkable. *)
Lemma recorded_checkable caller c created :
  wf_call c -> wf_tx (requested caller c) -> tx_created_at (requested caller c) = created ->
  created <> None ->
  checkable c.
Proof.
  intros Hwf (Hop & _ & _ & Hm).
  assert (forall a from sp to, wf_principal to ->
    burn_memo (Tx (Burn from sp a) created (Some (encode_withdraw_memo to))) ->
    a <> 0 /\ is_self_authenticating to = false) as Hb.
  { intros a from sp to Hto [(to' & Hto' & Hw & Hs & Ha)|Hm'].
    - cbn [tx_memo] in Hto'. assert (to = to') as -> by (apply withdraw_memo_inj; [done|done|congruence]). done.
    - exfalso. cbn [tx_memo] in Hm'. assert (encode_withdraw_memo to = CREATE_CANISTER_MEMO) as E by congruence.
      apply (f_equal head) in E. rewrite withdraw_memo_first in E. done. }
  destruct c; cbn [requested tx_op tx_created_at wf_op wf_call checkable] in *; intros Hc Hn; try done;
    subst; destruct_and?;
    repeat match goal with |- _ /\ _ => split end; try done;
    by (eapply Hb; [|exact Hm]).
Qed.

Section WithEnv.
Context `{Env}.

(** A known transaction is answered [Duplicate]. *)
Definition is_create (c : call) : bool :=
  match c with
  | CallCreateCanister _ _ _ _ => true
  | CallCreateCanisterFrom _ _ _ _ _ => true
  | _ => false
  end.
Lemma exec_known now avail caller c sync s i x :
  supply_ok s -> checkable c -> tx_hashes s !! txh (requested caller c) = Some (i, x) ->
  exists resp, exec_call now avail caller c sync s = (s, Done resp)
    /\ duplicate_of resp = Some i /\ rejected resp = true
    /\ (is_create c = true -> duplicate_canister resp = x).
Proof.
  intros Hs Hch Ht.
  assert (forall o, match o with Some f => f < U128_MOD | None => True end ->
            match o with Some f => U128_MOD <=? f | None => false end = false) as Hsm.
  { intros [f|]; [|done]. intros. destruct (N.leb_spec U128_MOD f); [lia|done]. }
  destruct c as [cycles to m|sub to amount fee m created|sub from to amount fee m created
    |sub sp amount expected expires fee m created|sub to created amount|sub from to created amount
    |sub created amount args|from sub created amount args]; simpl in Hch; [done|..];
    unfold requested in Ht.
  - rewrite exec_transfer by done. unfold xfer_decide, transfer_decide. destruct Hch as [Ha Hf].
    destruct (N.leb_spec U128_MOD amount); [lia|]. rewrite Hsm by done. rewrite Ht.
    by eexists.
  - rewrite exec_transfer_from by done. unfold xfer_decide, transfer_decide. destruct Hch as [Ha Hf].
    destruct (N.leb_spec U128_MOD amount); [lia|]. rewrite Hsm by done. rewrite Ht.
    by eexists.
  - rewrite exec_approve by done. unfold apr_decide, approve_decide. destruct Hch as [He Hf].
    rewrite (Hsm expected), (Hsm fee) by done. rewrite <- capped_min in Ht. unfold capped in Ht.
    rewrite Ht. by eexists.
  - rewrite exec_withdraw by done. unfold after_withdraw, wd_decide, withdraw_decide, burn_decide.
    destruct Hch as (Ha & H0 & Hsa). rewrite Hsa.
    destruct (N.leb_spec U128_MOD amount); [lia|]. destruct (N.eqb_spec amount 0); [lia|].
    rewrite Ht. by eexists.
  - rewrite exec_withdraw_from by done. unfold after_withdraw, wd_decide, withdraw_decide, burn_decide.
    destruct Hch as (Ha & H0 & Hsa). rewrite Hsa.
    destruct (N.leb_spec U128_MOD amount); [lia|]. destruct (N.eqb_spec amount 0); [lia|].
    rewrite Ht. by eexists.
  - rewrite exec_create by done. unfold after_create, cr_decide, create_decide, burn_decide, create_tx.
    destruct (N.leb_spec U128_MOD amount); [lia|]. rewrite Ht. by eexists.
  - rewrite exec_create_from by done. unfold after_create, cr_decide, create_decide, burn_decide, create_tx.
    destruct (N.leb_spec U128_MOD amount); [lia|]. rewrite Ht. by eexists.
Qed.

(** What a time error or a [Duplicate] error says *)
Definition time_answer (now : N) (created : option N) (resp : response) : Prop :=
  (too_old resp = true -> validate_created_at_time created now = Err PTTooOld)
  /\ (forall t, created_in_future resp = Some t ->
        t = now /\ validate_created_at_time created now = Err (PTInTheFuture now)).

Lemma process_decide_err t now e :
  process_decide t now = OErr e -> validate_created_at_time (tx_created_at t) now = Err e.
Proof.
  unfold process_decide. destruct (negb _); [done|].
  destruct (validate_created_at_time _ _); [done|]. congruence.
Qed.
Lemma validate_err_cases created now e :
  validate_created_at_time created now = Err e -> e = PTTooOld \/ e = PTInTheFuture now.
Proof.
  unfold validate_created_at_time. destruct created; [|done].
  destruct (_ <? _); [intros [= <-]; by left|]. destruct (_ <? _); [intros [= <-]; by right|done].
Qed.

(** The errors that concern identity and time, classified *)
Inductive err_class := EDup (i : N) (c : option principal) | EOld | EFuture (t : N) | EOther.
Definition pt_class (e : pt_error) : err_class :=
  match e with
  | PTDuplicate i c => EDup i c
  | PTTooOld => EOld
  | PTInTheFuture t => EFuture t
  | PTGeneric => EOther
  end.
Definition class_ok (now : N) (t : transaction) (s : state) (e : err_class) : Prop :=
  match e with
  | EDup i c => tx_hashes s !! txh t = Some (i, c)
  | EOld => validate_created_at_time (tx_created_at t) now = Err PTTooOld
  | EFuture n => n = now /\ validate_created_at_time (tx_created_at t) now = Err (PTInTheFuture now)
  | EOther => True
  end.
Definition tf_class (e : transfer_from_error) : err_class :=
  match e with
  | TFDuplicate i => EDup i None | TFTooOld => EOld | TFCreatedInFuture t => EFuture t | _ => EOther
  end.
Definition ap_class (e : approve_error) : err_class :=
  match e with
  | ADuplicate i => EDup i None | ATooOld => EOld | ACreatedInFuture t => EFuture t | _ => EOther
  end.
Definition wf_class (e : withdraw_from_error) : err_class :=
  match e with
  | WFDuplicate i => EDup i None | WFTooOld => EOld | WFCreatedInFuture t => EFuture t | _ => EOther
  end.
Definition cf_class (e : create_canister_from_error) : err_class :=
  match e with
  | CFDuplicate i c => EDup i c | CFTooOld => EOld | CFCreatedInFuture t => EFuture t | _ => EOther
  end.
(** ... up to the canister id, which only creations report. *)
Definition class_ok' (now : N) (t : transaction) (s : state) (e : err_class) : Prop :=
  match e with
  | EDup i _ => exists c, tx_hashes s !! txh t = Some (i, c)
  | _ => class_ok now t s e
  end.

Lemma process_class t now s e :
  process_decide t now = OErr e -> class_ok now t s (pt_class e).
Proof.
  intros He%process_decide_err. pose proof He as Hc.
  apply validate_err_cases in Hc as [->| ->]; done.
Qed.
Lemma transfer_decide_class from to sp amount m now created fee s e :
  transfer_decide from to sp amount m now created fee s = OErr e ->
  class_ok' now (Tx (Transfer from to sp amount fee) created m) s (tf_class e).
Proof.
  unfold transfer_decide. destruct (tx_hashes s !! _) as [[i c]|] eqn:Et.
  { intros [= <-]. simpl. eauto. }
  repeat (match goal with |- (if ?b then _ else _) = _ -> _ => destruct b end; [by intros [= <-]|]).
  destruct (third_party from sp).
  - destruct (check_allowance _ _ _ _ _) as [|x].
    + repeat (match goal with |- (if ?b then _ else _) = _ -> _ => destruct b end; [by intros [= <-]|]).
      destruct (process_decide _ now) as [|x|] eqn:Ep; intros [= <-].
      apply (process_class _ _ s) in Ep. by destruct x; simpl in *; eauto.
    + intros [= <-]. by destruct x.
  - repeat (match goal with |- (if ?b then _ else _) = _ -> _ => destruct b end; [by intros [= <-]|]).
    destruct (process_decide _ now) as [|x|] eqn:Ep; intros [= <-].
    apply (process_class _ _ s) in Ep. by destruct x; simpl in *; eauto.
Qed.
Lemma approve_decide_class from sp amount m now created fee expected expires s e :
  approve_decide from sp amount m now created fee expected expires s = OErr e ->
  class_ok' now (Tx (Approve from sp amount expected expires fee) created m) s (ap_class e).
Proof.
  unfold approve_decide. destruct (tx_hashes s !! _) as [[i c]|] eqn:Et.
  { intros [= <-]. simpl. eauto. }
  case_bool_decide; [done|].
  repeat (match goal with |- (if ?b then _ else _) = _ -> _ => destruct b end; [by intros [= <-]|]).
  destruct (process_decide _ now) as [|x|] eqn:Ep; intros [= <-].
  apply (process_class _ _ s) in Ep. by destruct x; simpl in *; eauto.
Qed.
Lemma burn_decide_class {E} (cls : E -> err_class) (cp : pt_error -> E) cu nf t from sp amount now s e :
  (forall x, cls (cp x) = pt_class x \/ (exists i c, x = PTDuplicate i c /\ cls (cp x) = EDup i None)) ->
  (forall x e', cu x = inl e' -> cls e' = EOther) -> (forall n, cls (nf n) = EOther) ->
  burn_decide cp cu nf t from sp amount now s = OErr e ->
  class_ok' now t s (cls e).
Proof.
  intros Hcp Hcu Hnf. unfold burn_decide.
  assert (forall x, class_ok now t s (pt_class x) -> class_ok' now t s (cls (cp x))) as Hpt.
  { intros x Hx. destruct (Hcp x) as [->|(i & c & -> & ->)]; [|simpl in *; eauto].
    destruct x; simpl in *; eauto. }
  destruct (tx_hashes s !! _) as [[i c]|] eqn:Et.
  { intros [= <-]. by apply Hpt. }
  destruct (_ <=? _); [intros [= <-]; by rewrite Hnf|].
  destruct (third_party from sp).
  - destruct (check_allowance _ _ _ _ _) as [[r x]|x].
    + destruct (_ <? _); [intros [= <-]; by rewrite Hnf|].
      destruct (process_decide _ now) as [|y|] eqn:Ep; intros [= <-].
      apply (process_class _ _ s) in Ep. by apply Hpt.
    + destruct (cu x) eqn:Ecu; [|done]. intros [= <-]. by rewrite (Hcu _ _ Ecu).
  - destruct (_ <? _); [intros [= <-]; by rewrite Hnf|].
    destruct (process_decide _ now) as [|y|] eqn:Ep; intros [= <-].
    apply (process_class _ _ s) in Ep. by apply Hpt.
Qed.
Lemma withdraw_decide_class from to sp amount created now s e :
  withdraw_decide from to sp amount now created s = OErr e ->
  class_ok' now (withdraw_tx from to sp amount created) s (wf_class e)
  /\ (wf_class e <> EOther -> amount <> 0 /\ is_self_authenticating to = false).
Proof.
  unfold withdraw_decide. destruct (is_self_authenticating to); [by intros [= <-]|].
  destruct (N.eqb_spec amount 0); [by intros [= <-]|]. intros Hd. split; [|done].
  revert Hd. apply burn_decide_class.
  - intros []; simpl; eauto 10.
  - intros [] e'; simpl; try done; by intros [= <-].
  - done.
Qed.
Lemma create_decide_class from sp amount created now s e :
  create_decide from sp amount now created s = OErr e ->
  class_ok' now (create_tx from sp amount created) s (cf_class e).
Proof.
  apply burn_decide_class.
  - intros []; simpl; eauto 10.
  - intros [] e'; simpl; try done; by intros [= <-].
  - done.
Qed.

(** The class of a response *)
Definition resp_class (r : response) : err_class :=
  match duplicate_of r with
  | Some i => EDup i None
  | None => if too_old r then EOld else
            match created_in_future r with Some t => EFuture t | None => EOther end
  end.

Lemma small_opt o :
  match o with Some f => U128_MOD <=? f | None => false end = false ->
  match o with Some f => f < U128_MOD | None => True end.
Proof. destruct o; [|done]. intros. lia. Qed.

Lemma class_resp now t s (k k' : err_class) :
  match k, k' with EDup i _, EDup j _ => i = j | _, _ => k = k' end ->
  class_ok' now t s k -> class_ok' now t s k'.
Proof. destruct k, k'; simpl; intros; simplify_eq; done. Qed.

(** Identity and time errors are truthful. *)
Lemma exec_class now avail caller c sync s s' resp :
  supply_ok s -> exec_call now avail caller c sync s = (s', Done resp) ->
  class_ok' now (requested caller c) s (resp_class resp)
  /\ (resp_class resp <> EOther -> checkable c).
Proof.
  intros Hs He.
  destruct c as [cycles to m|sub to amount fee m created|sub from to amount fee m created
    |sub sp amount expected expires fee m created|sub to created amount|sub from to created amount
    |sub created amount args|from sub created amount args].
  - rewrite exec_deposit in He.
    destruct (dep_decide to cycles m s) as [[]|[]|x]; injection He as <- <-; done.
  - rewrite exec_transfer in He by done. unfold xfer_decide in He.
    destruct (N.leb_spec U128_MOD amount); [injection He as <- <-; done|].
    destruct (match fee with Some f => _ | None => _ end) eqn:Ef; [injection He as <- <-; done|].
    apply small_opt in Ef.
    destruct (transfer_decide _ _ _ _ _ _ _ _ _) as [[]|e|x] eqn:Ed; injection He as <- <-;
      [done| |done].
    apply transfer_decide_class in Ed. split; [|done]. revert Ed. apply class_resp. by destruct e.
  - rewrite exec_transfer_from in He by done. unfold xfer_decide in He.
    destruct (N.leb_spec U128_MOD amount); [injection He as <- <-; done|].
    destruct (match fee with Some f => _ | None => _ end) eqn:Ef; [injection He as <- <-; done|].
    apply small_opt in Ef.
    destruct (transfer_decide _ _ _ _ _ _ _ _ _) as [[]|e|x] eqn:Ed; injection He as <- <-;
      [done| |done].
    apply transfer_decide_class in Ed. split; [|done]. revert Ed. apply class_resp. by destruct e.
  - rewrite exec_approve in He by done. unfold apr_decide in He.
    destruct (match expected with Some f => _ | None => _ end) eqn:Ee; [injection He as <- <-; done|].
    destruct (match fee with Some f => _ | None => _ end) eqn:Ef; [injection He as <- <-; done|].
    apply small_opt in Ef, Ee. fold (capped amount) in He.
    destruct (approve_decide _ _ _ _ _ _ _ _ _) as [[]|e|x] eqn:Ed; injection He as <- <-;
      [done| |done].
    apply approve_decide_class in Ed. rewrite capped_min in Ed. split; [|done].
    revert Ed. apply class_resp. by destruct e.
  - rewrite exec_withdraw in He by done. unfold after_withdraw, wd_decide in He.
    destruct (N.leb_spec U128_MOD amount); [injection He as <- <-; done|].
    destruct (withdraw_decide _ _ _ _ _ _ _) as [old|e|x] eqn:Ed.
    + destruct (sync_fail avail amount sync) as [e|]; [|done].
      unfold sync_rest in He. cbn [resume sync_answer] in He.
      set (sx := prune_state _ _) in He.
      assert (supply_ok sx) as Hsx.
      { apply prune_supply_ok, supply_tx_effect; [done|]. simpl.
        unfold withdraw_decide, burn_decide in Ed.
        destruct (is_self_authenticating to); [done|]. destruct (amount =? 0); [done|].
        destruct (tx_hashes s !! _) as [[]|]; [done|]. destruct (_ <=? _); [done|]. simpl in Ed.
        destruct (N.ltb_spec (balance_of s (Acct caller sub)) (amount + FEE)); [done|]. done. }
      destruct (withdraw_rest_eq false (Acct caller sub) None amount (nblocks s) old now (call_error_of_sync e) s sx Hsx) as [x Hx].
      rewrite Hx in He. unfold wd_fail_rest in He.
      destruct (amount - FEE =? 0); [injection He as <- <-; done|].
      destruct (refund_outcome _ _ _ _ _ _ _) as [[[s2 fb] ab]|]; injection He as <- <-; done.
    + apply withdraw_decide_class in Ed as [Ed Hne]. injection He as <- <-.
      assert (match wf_class e, resp_class (wd_resp false (OErr e)) with
              | EDup i _, EDup j _ => i = j | k, k' => k = k' end) as Hk by (by destruct e).
      split; [revert Ed; apply class_resp; by destruct e|].
      intros Hr. split; [done|]. apply Hne. intros E. rewrite E in Hk. by apply Hr.
    + injection He as <- <-. done.
  - rewrite exec_withdraw_from in He by done. unfold after_withdraw, wd_decide in He.
    destruct (N.leb_spec U128_MOD amount); [injection He as <- <-; done|].
    destruct (withdraw_decide _ _ _ _ _ _ _) as [old|e|x] eqn:Ed.
    + destruct (sync_fail avail amount sync) as [e|]; [|done].
      unfold sync_rest in He. cbn [resume sync_answer] in He.
      set (sx := prune_state _ _) in He.
      assert (supply_ok sx) as Hsx.
      { apply prune_supply_ok, supply_tx_effect; [done|]. simpl.
        unfold withdraw_decide, burn_decide in Ed.
        destruct (is_self_authenticating to); [done|]. destruct (amount =? 0); [done|].
        destruct (tx_hashes s !! _) as [[]|]; [done|]. destruct (_ <=? _); [done|].
        destruct (match third_party _ _ with Some _ => _ | None => _ end); [|done|done].
        destruct (N.ltb_spec (balance_of s from) (amount + FEE)); [done|]. done. }
      destruct (withdraw_rest_eq true from (Some (Acct caller sub)) amount (nblocks s) old now (call_error_of_sync e) s sx Hsx) as [x Hx].
      rewrite Hx in He. unfold wd_fail_rest in He.
      destruct (amount - FEE =? 0); [injection He as <- <-; done|].
      destruct (refund_outcome _ _ _ _ _ _ _) as [[[s2 fb] ab]|]; injection He as <- <-; done.
    + apply withdraw_decide_class in Ed as [Ed Hne]. injection He as <- <-.
      assert (match wf_class e, resp_class (wd_resp true (OErr e)) with
              | EDup i _, EDup j _ => i = j | k, k' => k = k' end) as Hk by (by destruct e).
      split; [revert Ed; apply class_resp; by destruct e|].
      intros Hr. split; [done|]. apply Hne. intros E. rewrite E in Hk. by apply Hr.
    + injection He as <- <-. done.
  - rewrite exec_create in He by done. unfold after_create, cr_decide in He.
    destruct (N.leb_spec U128_MOD amount); [injection He as <- <-; done|].
    destruct (create_decide _ _ _ _ _ _) as [old|e|x] eqn:Ed.
    + destruct (sync_fail avail amount sync) as [e|]; [|done].
      unfold sync_rest in He. cbn [resume sync_answer] in He.
      set (sx := prune_state _ _) in He.
      assert (supply_ok sx) as Hsx.
      { apply prune_supply_ok, supply_tx_effect; [done|]. simpl.
        unfold create_decide, burn_decide in Ed.
        destruct (tx_hashes s !! _) as [[]|]; [done|]. destruct (_ <=? _); [done|]. simpl in Ed.
        destruct (N.ltb_spec (balance_of s (Acct caller sub)) (amount + FEE)); [done|]. done. }
      destruct (create_rest_eq false (Acct caller sub) None amount (nblocks s) old created now (Err (call_error_of_sync e)) s sx Hsx) as [x Hx].
      rewrite Hx in He. cbn [flat_create_result] in He. unfold cr_fail_rest in He.
      destruct (amount - FEE =? 0); [injection He as <- <-; done|].
      destruct (refund_outcome _ _ _ _ _ _ _) as [[[s2 fb] ab]|]; injection He as <- <-; done.
    + apply create_decide_class in Ed. injection He as <- <-.
      split; [revert Ed; apply class_resp; by destruct e|done].
    + injection He as <- <-. done.
  - rewrite exec_create_from in He by done. unfold after_create, cr_decide in He.
    destruct (N.leb_spec U128_MOD amount); [injection He as <- <-; done|].
    destruct (create_decide _ _ _ _ _ _) as [old|e|x] eqn:Ed.
    + destruct (sync_fail avail amount sync) as [e|]; [|done].
      unfold sync_rest in He. cbn [resume sync_answer] in He.
      set (sx := prune_state _ _) in He.
      assert (supply_ok sx) as Hsx.
      { apply prune_supply_ok, supply_tx_effect; [done|]. simpl.
        unfold create_decide, burn_decide in Ed.
        destruct (tx_hashes s !! _) as [[]|]; [done|]. destruct (_ <=? _); [done|].
        destruct (match third_party _ _ with Some _ => _ | None => _ end); [|done|done].
        destruct (N.ltb_spec (balance_of s from) (amount + FEE)); [done|]. done. }
      destruct (create_rest_eq true from (Some (Acct caller sub)) amount (nblocks s) old created now (Err (call_error_of_sync e)) s sx Hsx) as [x Hx].
      rewrite Hx in He. cbn [flat_create_result] in He. unfold cr_fail_rest in He.
      destruct (amount - FEE =? 0); [injection He as <- <-; done|].
      destruct (refund_outcome _ _ _ _ _ _ _) as [[[s2 fb] ab]|]; injection He as <- <-; done.
    + apply create_decide_class in Ed. injection He as <- <-.
      split; [revert Ed; apply class_resp; by destruct e|done].
    + injection He as <- <-. done.
Qed.

End WithEnv.
