(** * A call is either turned down or records the transaction it asks for *)
From Verif Require Import Base Types Codec CodecFacts State Ledger Canister Effects Spec ApiSpec Inv Steps World
  CallFacts.

Section WithEnv.
Context `{Env}.

Lemma capped_min amount : capped amount = N.min amount (2 ^ 128 - 1).
Proof.
  unfold capped. rewrite nat_to_u128_eq. change (2 ^ 128 - 1) with U128_MAX.
  unfold U128_MOD, U128_MAX.
  destruct (N.leb_spec 340282366920938463463374607431768211456 amount); simpl; lia.
Qed.
Lemma capped_u128 amount : is_u128 (capped amount).
Proof. apply cap_u128. Qed.

(** The state after recording [t] and pruning *)
Definition recorded (now : N) (t : transaction) (s : state) : state :=
  prune_state now (tx_effect now t s).

Lemma recorded_inv now t s : is_u64 now -> inv now s -> tx_ok now t s -> inv now (recorded now t s).
Proof.
  intros Hu Hi Ht. unfold recorded. apply prune_state_inv; [done|]. eapply prim_inv; [done|exact Hi|]. by constructor.
Qed.
Lemma recorded_prims now t s :
  is_u64 now -> inv now s -> tx_ok now t s -> prims now s (recorded now t s).
Proof.
  intros Hu Hi Ht. unfold recorded. apply (rtc_l _ _ (tx_effect now t s)); [by constructor|].
  apply prune_state_prims; [done|].
  eapply prim_inv; [done|exact Hi|]. by constructor.
Qed.
Lemma recorded_blocks now t s : blocks (recorded now t s) = blocks s ++ [mk_block now t s].
Proof.
  unfold recorded. destruct (prune_state_core now (tx_effect now t s)) as (-> & _).
  by destruct (tx_effect_fields now t s) as (-> & _).
Qed.

(** The expiry a burn remembers *)
Lemma burn_used {E} (cp : pt_error -> E) cu nf t from sp amount now s old :
  burn_decide cp cu nf t from sp amount now s = OOk old -> old = used_expiry s now from sp.
Proof.
  unfold burn_decide, used_expiry. destruct (tx_hashes s !! _) as [[i c]|]; [done|].
  destruct (_ <=? _); [done|].
  destruct (third_party from sp) as [x|] eqn:Ex.
  - apply third_party_Some in Ex as [-> Hne].
    destruct (check_allowance _ _ _ _ _) as [[r e]|e] eqn:Ec; [|by destruct (cu e)].
    apply check_allowance_ok in Ec as (cur & Hk & He & _).
    destruct (_ <? _); [done|]. destruct (process_decide t now); [|done|done]. intros [= <-].
    rewrite decide_False by done. unfold icrc2_allowance, allowance, old_expiry. rewrite Hk. simpl.
    assert ((0 <? e) && (e <? now) = false) as -> by lia. done.
  - destruct (_ <? _); [done|]. destruct (process_decide t now); [|done|done]. intros [= <-].
    pose proof (proj1 (third_party_None from sp) Ex) as Hn. destruct sp as [x|]; [|done].
    rewrite decide_True; [done|]. by apply Hn.
Qed.

(** Decisions *)
Lemma xfer_decide_ok from to sp amount fee m created now s :
  xfer_decide from to sp amount fee m created now s = OOk tt ->
  wf_account from -> wf_account to -> wf_acct_opt sp -> wf_u64_opt created ->
  tx_ok now (Tx (Transfer from to sp amount fee) created m) s /\ is_u128 amount.
Proof.
  unfold xfer_decide. destruct (N.leb_spec U128_MOD amount); [done|].
  destruct (match fee with Some f => _ | None => _ end); [done|]. intros.
  split; [by apply transfer_decide_ok|done].
Qed.
Lemma apr_decide_ok from sp amount expected expires fee m created now s :
  apr_decide from sp amount expected expires fee m created now s = OOk tt ->
  wf_account from -> wf_account sp -> wf_u64_opt created -> wf_u64_opt expires ->
  tx_ok now (Tx (Approve from sp (capped amount) expected expires fee) created m) s.
Proof.
  unfold apr_decide. destruct (match expected with Some e => _ | None => _ end) eqn:E1; [done|].
  destruct (match fee with Some f => _ | None => _ end); [done|]. intros.
  apply approve_decide_ok; try done; [apply capped_u128|].
  destruct expected; simpl; [|done]. unfold is_u128. lia.
Qed.
Lemma wd_decide_ok from to sp amount created now s old :
  inv now s -> is_u64 now ->
  wd_decide from to sp amount created now s = OOk old ->
  wf_account from -> wf_acct_opt sp -> wf_u64_opt created -> wf_principal to ->
  let t := withdraw_tx from to sp amount created in
  tx_ok now t s /\ pend_common (recorded now t s) from sp amount (nblocks s) old t
  /\ amount <> 0 /\ is_self_authenticating to = false /\ old = used_expiry s now from sp.
Proof.
  unfold wd_decide, withdraw_decide. intros Hi Hu. destruct (N.leb_spec U128_MOD amount); [done|].
  destruct (is_self_authenticating to) eqn:Es; [done|]. destruct (N.eqb_spec amount 0); [done|].
  intros Hd Hf Hsp Hc Hto. simpl. pose proof (burn_used _ _ _ _ _ _ _ _ _ _ Hd) as Hold.
  edestruct (burn_pend _ _ _ _ _ _ _ _ _ _ Hi Hu Hd eq_refl Hf Hsp) as [H1 H2]; try done.
  left. exists to. done.
Qed.
Lemma cr_decide_ok from sp amount created now s old :
  inv now s -> is_u64 now ->
  cr_decide from sp amount created now s = OOk old ->
  wf_account from -> wf_acct_opt sp -> wf_u64_opt created ->
  let t := create_tx from sp amount created in
  tx_ok now t s /\ pend_common (recorded now t s) from sp amount (nblocks s) old t
  /\ old = used_expiry s now from sp.
Proof.
  unfold cr_decide, create_decide. intros Hi Hu. destruct (N.leb_spec U128_MOD amount); [done|].
  intros Hd Hf Hsp Hc. simpl. pose proof (burn_used _ _ _ _ _ _ _ _ _ _ Hd) as Hold.
  edestruct (burn_pend _ _ _ _ _ _ _ _ _ _ Hi Hu Hd eq_refl Hf Hsp) as [H1 H2]; try done. by right.
Qed.
Lemma dep_decide_ok to cycles m now s :
  dep_decide to cycles m s = OOk tt -> wf_account to -> is_u128 cycles ->
  tx_ok now (Tx (Mint to (cycles - FEE) FEE) None m) s /\ FEE < cycles.
Proof.
  unfold dep_decide. destruct (N.leb_spec cycles FEE); [done|].
  destruct (mint_decide to (cycles - FEE) m s) as [[]|[]|] eqn:Ed; [|done|done].
  intros _ Hto Hc. split; [|done]. apply mint_decide_ok; try done; [|by right].
  eapply is_u128_le; [|exact Hc]. lia.
Qed.

(** What the ledger remembers of an accepted call while it waits *)
Definition pending_block (p : pending) : N :=
  match p with PWithdraw _ _ _ _ _ i _ => i | PCreate _ _ _ _ i _ _ _ => i end.
(** The pending call an accepted withdraw or create call turns into *)
Definition pending_of (now : N) (caller : principal) (c : call) (s : state) : option pending :=
  match c with
  | CallWithdraw sub to _ amount =>
      Some (PWithdraw false (Acct caller sub) to None amount (nblocks s) None)
  | CallWithdrawFrom sub from to _ amount =>
      Some (PWithdraw true from to (Some (Acct caller sub)) amount (nblocks s)
              (used_expiry s now from (Some (Acct caller sub))))
  | CallCreateCanister sub created amount args =>
      Some (PCreate false (Acct caller sub) None amount (nblocks s) None created (cmc_argument caller args))
  | CallCreateCanisterFrom from sub created amount args =>
      Some (PCreate true from (Some (Acct caller sub)) amount (nblocks s)
              (used_expiry s now from (Some (Acct caller sub))) created (cmc_argument caller args))
  | _ => None
  end.

(** The reply of a call that ends in the message that records its block *)
Definition done_reply (caller : principal) (c : call) (i : N) (s' : state) : option response :=
  match c with
  | CallDeposit _ to _ => Some (RespReply (RepDeposit i (balance_of s' to)))
  | CallTransfer _ _ _ _ _ _ => Some (RespReply (RepTransfer (Ok i)))
  | CallTransferFrom _ _ _ _ _ _ _ => Some (RespReply (RepTransferFrom (Ok i)))
  | CallApprove _ _ _ _ _ _ _ _ => Some (RespReply (RepApprove (Ok i)))
  | _ => None
  end.

(** The outcome of an accepted call *)
Inductive accepted_call (now avail : N) (caller : principal) (c : call) (sync : option sync_error)
  (s : state) : state -> msg_result -> Prop :=
| acc_done s1 resp :
    s1 = recorded now (requested caller c) s -> done_reply caller c (nblocks s) s1 = Some resp ->
    accepted_call now avail caller c sync s s1 (Done resp)
| acc_wait s1 p :
    s1 = recorded now (requested caller c) s -> pending_of now caller c s = Some p ->
    sync_fail avail (pending_amount p) sync = None -> pend_ok s1 p ->
    accepted_call now avail caller c sync s s1 (Waiting p)
| acc_sync s1 p e s' resp :
    s1 = recorded now (requested caller c) s -> pending_of now caller c s = Some p ->
    sync_fail avail (pending_amount p) sync = Some e -> pend_ok s1 p ->
    rejected resp = false -> prims now s1 s' ->
    sync_rest now p e s s1 = (s', Done resp) ->
    accepted_call now avail caller c sync s s' (Done resp).

Lemma wd_resp_rejected ep e :
  (forall b r a c, e <> WFFailedToWithdrawFrom b r a c) -> rejected (wd_resp ep (OErr e)) = true.
Proof.
  intros Hne. unfold wd_resp, wrep. destruct ep; simpl.
  - destruct e; try done. by edestruct Hne.
  - destruct e; try done. by edestruct Hne.
Qed.
Lemma cr_resp_rejected ep e :
  (forall b r a c, e <> CFFailedToCreateFrom b r a c) -> rejected (cr_resp ep (OErr e)) = true.
Proof.
  intros Hne. unfold cr_resp, crep. destruct ep; simpl.
  - destruct e; try done. by edestruct Hne.
  - destruct e; try done. by edestruct Hne.
Qed.
Lemma burn_decide_err {E} (cp : pt_error -> E) cu nf t from sp amount now s e :
  burn_decide cp cu nf t from sp amount now s = OErr e ->
  (exists x, e = cp x) \/ (exists x, cu x = inl e) \/ (exists x, e = nf x).
Proof.
  unfold burn_decide. destruct (tx_hashes s !! _) as [[i c]|]; [intros [= <-]; eauto|].
  destruct (_ <=? _); [intros [= <-]; eauto|].
  destruct (third_party from sp).
  - destruct (check_allowance _ _ _ _ _) as [[r x]|x].
    + destruct (_ <? _); [intros [= <-]; eauto|].
      destruct (process_decide t now); intros [= <-]. eauto.
    + destruct (cu x) eqn:Ecu; [intros [= <-]; eauto|done].
  - destruct (_ <? _); [intros [= <-]; eauto|].
    destruct (process_decide t now); intros [= <-]. eauto.
Qed.
Lemma wd_decide_err from to sp amount created now s e :
  wd_decide from to sp amount created now s = OErr e ->
  forall b r a c, e <> WFFailedToWithdrawFrom b r a c.
Proof.
  unfold wd_decide, withdraw_decide. destruct (_ <=? _); [by intros [= <-]|].
  destruct (is_self_authenticating to); [by intros [= <-]|]. destruct (_ =? _); [by intros [= <-]|].
  intros [[x ->]|[[x Hx]|[x ->]]]%burn_decide_err; intros; [by destruct x| |done].
  destruct x; simpl in Hx; try done; by injection Hx as <-.
Qed.
Lemma cr_decide_err from sp amount created now s e :
  cr_decide from sp amount created now s = OErr e ->
  forall b r a c, e <> CFFailedToCreateFrom b r a c.
Proof.
  unfold cr_decide, create_decide. destruct (_ <=? _); [by intros [= <-]|].
  intros [[x ->]|[[x Hx]|[x ->]]]%burn_decide_err; intros; [by destruct x| |done].
  destruct x; simpl in Hx; try done; by injection Hx as <-.
Qed.

(** After an immediate failure of the outgoing call: refund or roll back. *)
Lemma sync_rest_cases now p e s0 s :
  inv now s -> is_u64 now -> pend_ok s p ->
  exists s' resp, sync_rest now p e s0 s = (s', Done resp)
    /\ ((s' = s0 /\ rejected resp = true) \/ (rejected resp = false /\ prims now s s')).
Proof.
  intros Hi Hu Hp. destruct (sync_rest now p e s0 s) as [s' r] eqn:Es.
  unfold sync_rest in Es. destruct (sync_answer_resume now p e) as [k Hk]. rewrite Hk in Es.
  assert (exists resp, r = Done resp) as [resp ->].
  { destruct (commit s0 (k s)). injection Es as <- <-. eauto. }
  exists s', resp. split; [done|].
  assert (rejected resp = false -> prims now s s') as Hpr.
  { destruct (k s) as [s2 o2] eqn:Ek.
    destruct (resume_prims _ _ _ _ _ _ _ Hi Hu Hp (sync_answer_u128 p e) Hk Ek) as [[t ->]|Hpr].
    - simpl in Es. injection Es as <- <-. done.
    - unfold commit in Es. destruct o2 as [rep|[]|t]; injection Es as <- <-; done. }
  pose proof (inv_supply _ _ Hi) as Hs.
  destruct p as [ep from to sp amount i old|ep from sp amount i old created arg]; cbn [resume sync_answer] in Hk;
    match type of Hk with Some ?a = _ => assert (k = a) as -> by congruence end; clear Hk.
  - destruct (withdraw_rest_eq ep from sp amount i old now (call_error_of_sync e) s0 s Hs) as [x Hx].
    rewrite Hx in Es. unfold wd_fail_rest in Es.
    destruct Hp as (_ & Hep & _).
    destruct (amount - FEE =? 0).
    { injection Es as <- <-. right. destruct ep; (split; [done|]); by apply Hpr. }
    destruct (refund_outcome _ _ _ _ _ _ _) as [[[s2 fb] ab]|].
    { injection Es as <- <-. right. destruct ep; (split; [done|]); by apply Hpr. }
    injection Es as <- <-. by left.
  - destruct (create_rest_eq ep from sp amount i old created now (Err (call_error_of_sync e)) s0 s Hs)
      as [x Hx].
    rewrite Hx in Es. simpl flat_create_result in Es. cbv beta iota in Es. unfold cr_fail_rest in Es.
    destruct (amount - FEE =? 0).
    { injection Es as <- <-. right. destruct ep; (split; [done|]); by apply Hpr. }
    destruct (refund_outcome _ _ _ _ _ _ _) as [[[s2 fb] ab]|].
    { injection Es as <- <-. right. destruct ep; (split; [done|]); by apply Hpr. }
    injection Es as <- <-. by left.
Qed.

Lemma exec_call_cases now avail caller c sync s s' r :
  inv now s -> is_u64 now -> wf_principal caller -> wf_call c ->
  exec_call now avail caller c sync s = (s', r) ->
  (s' = s /\ exists resp, r = Done resp /\ rejected resp = true)
  \/ (tx_ok now (requested caller c) s /\ accepted_call now avail caller c sync s s' r).
Proof.
  intros Hi Hu Hcl Hwf He. pose proof (inv_supply _ _ Hi) as Hs.
  destruct c as [cycles to m|sub to amount fee m created|sub from to amount fee m created
    |sub sp amount expected expires fee m created|sub to created amount|sub from to created amount
    |sub created amount args|from sub created amount args]; simpl in Hwf.
  - rewrite exec_deposit in He. destruct Hwf as [Hc Hto].
    destruct (dep_decide to cycles m s) as [[]|[]|x] eqn:Ed; injection He as <- <-;
      [|left; eauto|left; eauto].
    right. apply (dep_decide_ok _ _ _ now) in Ed as [Hok _]; [|done|done].
    split; [done|]. by eapply acc_done.
  - rewrite exec_transfer in He by done. destruct Hwf as (Hsub & Hto & Hc).
    destruct (xfer_decide _ _ _ _ _ _ _ _ _) as [[]|e|x] eqn:Ed; injection He as <- <-;
      [|left; split; [done|]; eexists; split; [done|]; unfold xfer_resp; by destruct (t_of_tf e)|left; eauto].
    right. apply xfer_decide_ok in Ed as [Hok _]; [|done|done|done|done].
    split; [done|]. by eapply acc_done.
  - rewrite exec_transfer_from in He by done. destruct Hwf as (Hsub & Hf & Hto & Hc).
    destruct (xfer_decide _ _ _ _ _ _ _ _ _) as [[]|e|x] eqn:Ed; injection He as <- <-;
      [|left; eauto|left; eauto].
    right. apply xfer_decide_ok in Ed as [Hok _]; [|done|done|done|done].
    split; [done|]. by eapply acc_done.
  - rewrite exec_approve in He by done. destruct Hwf as (Hsub & Hsp & Hx & Hc).
    destruct (apr_decide _ _ _ _ _ _ _ _ _ _) as [[]|e|x] eqn:Ed; injection He as <- <-;
      [|left; eauto|left; eauto].
    right. apply apr_decide_ok in Ed as Hok; [|done|done|done|done].
    rewrite capped_min in *. split; [done|]. by eapply acc_done.
  - rewrite exec_withdraw in He by done. destruct Hwf as (Hsub & Hto & Hc).
    unfold after_withdraw in He.
    destruct (wd_decide _ _ _ _ _ _ _) as [old|e|x] eqn:Ed;
      [|injection He as <- <-; left; split; [done|]; eexists; split; [done|];
        apply wd_resp_rejected; by eapply wd_decide_err|injection He as <- <-; left; eauto].
    apply wd_decide_ok in Ed as (Hok & Hp & Ha & _ & ->); [|done|done|done|done|done|done].
    set (s1 := prune_state _ _) in *.
    assert (pend_ok s1 (PWithdraw false (Acct caller sub) to None amount (nblocks s) (used_expiry s now (Acct caller sub) None))) as Hpo.
    { split; [done|]. split; [done|]. by exists created. }
    destruct (sync_fail avail amount sync) as [e|] eqn:Esf.
    + destruct (sync_rest_cases now (PWithdraw false (Acct caller sub) to None amount (nblocks s) (used_expiry s now (Acct caller sub) None)) e s s1)
        as (s2 & resp & Hr & Hcase); [by apply recorded_inv|done|done|].
      rewrite Hr in He. injection He as <- <-. destruct Hcase as [[-> Hrej]|[Hrej Hpr]]; [left; eauto|].
      right. split; [done|]. by eapply acc_sync.
    + injection He as <- <-. right. split; [done|]. by eapply acc_wait.
  - rewrite exec_withdraw_from in He by done. destruct Hwf as (Hsub & Hf & Hto & Hc).
    unfold after_withdraw in He.
    destruct (wd_decide _ _ _ _ _ _ _) as [old|e|x] eqn:Ed;
      [|injection He as <- <-; left; split; [done|]; eexists; split; [done|];
        apply wd_resp_rejected; by eapply wd_decide_err|injection He as <- <-; left; eauto].
    apply wd_decide_ok in Ed as (Hok & Hp & Ha & _ & ->); [|done|done|done|done|done|done].
    set (s1 := prune_state _ _) in *.
    assert (pend_ok s1 (PWithdraw true from to (Some (Acct caller sub)) amount (nblocks s) (used_expiry s now from (Some (Acct caller sub))))) as Hpo.
    { split; [done|]. split; [done|]. by exists created. }
    destruct (sync_fail avail amount sync) as [e|] eqn:Esf.
    + destruct (sync_rest_cases now (PWithdraw true from to (Some (Acct caller sub)) amount (nblocks s) (used_expiry s now from (Some (Acct caller sub)))) e s s1)
        as (s2 & resp & Hr & Hcase); [by apply recorded_inv|done|done|].
      rewrite Hr in He. injection He as <- <-. destruct Hcase as [[-> Hrej]|[Hrej Hpr]]; [left; eauto|].
      right. split; [done|]. by eapply acc_sync.
    + injection He as <- <-. right. split; [done|]. by eapply acc_wait.
  - rewrite exec_create in He by done. destruct Hwf as (Hsub & Hc).
    unfold after_create in He.
    destruct (cr_decide _ _ _ _ _ _) as [old|e|x] eqn:Ed;
      [|injection He as <- <-; left; split; [done|]; eexists; split; [done|];
        apply cr_resp_rejected; by eapply cr_decide_err|injection He as <- <-; left; eauto].
    apply cr_decide_ok in Ed as (Hok & Hp & ->); [|done|done|done|done|done].
    set (s1 := prune_state _ _) in *.
    set (p := PCreate _ _ _ _ _ _ _ _) in *.
    assert (pend_ok s1 p) as Hpo by done.
    destruct (sync_fail avail amount sync) as [e|] eqn:Esf.
    + destruct (sync_rest_cases now p e s s1)
        as (s2 & resp & Hr & Hcase); [by apply recorded_inv|done|done|].
      rewrite Hr in He. injection He as <- <-. destruct Hcase as [[-> Hrej]|[Hrej Hpr]]; [left; eauto|].
      right. split; [done|]. by eapply acc_sync.
    + injection He as <- <-. right. split; [done|]. by eapply acc_wait.
  - rewrite exec_create_from in He by done. destruct Hwf as (Hf & Hsub & Hc).
    unfold after_create in He.
    destruct (cr_decide _ _ _ _ _ _) as [old|e|x] eqn:Ed;
      [|injection He as <- <-; left; split; [done|]; eexists; split; [done|];
        apply cr_resp_rejected; by eapply cr_decide_err|injection He as <- <-; left; eauto].
    apply cr_decide_ok in Ed as (Hok & Hp & ->); [|done|done|done|done|done].
    set (s1 := prune_state _ _) in *.
    set (p := PCreate _ _ _ _ _ _ _ _) in *.
    assert (pend_ok s1 p) as Hpo by done.
    destruct (sync_fail avail amount sync) as [e|] eqn:Esf.
    + destruct (sync_rest_cases now p e s s1)
        as (s2 & resp & Hr & Hcase); [by apply recorded_inv|done|done|].
      rewrite Hr in He. injection He as <- <-. destruct Hcase as [[-> Hrej]|[Hrej Hpr]]; [left; eauto|].
      right. split; [done|]. by eapply acc_sync.
    + injection He as <- <-. right. split; [done|]. by eapply acc_wait.
Qed.

End WithEnv.
