(** * Calls that concern different accounts can come in any order

    C56 *)
From Verif Require Import Base Types Codec CodecFacts CodecProofs State Ledger Canister Effects Spec ApiSpec
  AnswerSpec Inv Steps World CallFacts CallCases StepFacts AllowFacts DedupFacts PropertiesLog PropertiesDedup PropertiesCalls
  PropertiesAuth PropertiesRefund PropertiesPrune PropertiesAnswers PropertiesExposure Demo.

Section WithEnv.
Context `{Env}.

(** ** Specification *)
(** The accounts whose balance or allowances a call depends on or changes *)
Definition concerns (caller : principal) (c : call) : list account :=
  match c with
  | CallDeposit _ to _ => [to]
  | CallTransfer sub to _ _ _ _ => [Acct caller sub; to]
  | CallTransferFrom _ from to _ _ _ _ => [from; to]
  | CallApprove sub _ _ _ _ _ _ _ => [Acct caller sub]
  | CallWithdraw sub _ _ _ => [Acct caller sub]
  | CallWithdrawFrom _ from _ _ _ => [from]
  | CallCreateCanister sub _ _ _ => [Acct caller sub]
  | CallCreateCanisterFrom from _ _ _ _ => [from]
  end.
(** No account concerns both calls. *)
Definition apart (p : principal) (a : call) (q : principal) (b : call) : Prop :=
  forall x y, x ∈ concerns p a -> y ∈ concerns q b -> ~ same_account x y.
(** What a deposit brings in *)
Definition brought (c : call) : N := match c with CallDeposit cycles _ _ => cycles | _ => 0 end.
(** The allowance that [c] compares with an expected one does not expire in
    this very nanosecond. *)
Definition settled (w : world) (now : N) (p : principal) (c : call) : Prop :=
  match c with
  | CallApprove sub sp _ (Some _) _ _ _ _ => (icrc2_allowance (w_led w) now (Acct p sub) sp).2 <> Some now
  | _ => True
  end.

(** ** Proofs *)
Lemma decided_true rs told other (q : bool) :
  decided rs told other -> (forall r, told r -> q = true) -> Exists fst rs -> q = true.
Proof.
  intros Hd Ht He. destruct q; [done|]. exfalso. revert Hd He.
  induction rs as [|[c r] rs IH]; intros Hd He; [by apply Exists_nil in He|].
  destruct Hd as [H1 H2].
  assert (~ c) as Hc. { intros Hc. destruct (H1 Hc) as (x & _ & Hx). by specialize (Ht x Hx). }
  apply Exists_cons in He as [He|He]; [done|]. by apply IH; [apply H2|].
Qed.
Lemma decided_false rs told other :
  decided rs told other -> ~ Exists fst rs -> other.
Proof.
  induction rs as [|[c r] rs IH]; intros Hd He; [done|]. rewrite Exists_cons in He. simpl in *.
  destruct Hd as [_ Hd]. apply IH; [apply Hd|]; tauto.
Qed.
Lemma answer_rejected c r resp : answer_of c r = Some resp -> rejected resp = true.
Proof. destruct c, r; simpl; try discriminate; intros [= <-]; done. Qed.

Definition refused (s : state) (now : N) (p : principal) (c : call) : Prop :=
  Exists fst (rules s now p c (tx_hashes s !! txh (requested p c))).
Lemma verdict w now p c sync w' resp :
  reachable w -> ev_ok w (EvCall now p c sync) -> outgoing p c = None ->
  step w (EvCall now p c sync) = (w', resp) ->
  rejected resp = false <-> ~ refused (w_led w) now p c.
Proof.
  intros Hr Hev Ho Hst. pose proof (answer_stored _ _ _ _ _ _ _ Hr Hev Hst) as Hd. split.
  - intros Hrej He. rewrite (decided_true _ _ _ (rejected resp) Hd) in Hrej; [done| |exact He].
    intros r [Ha _]. by eapply answer_rejected.
  - intros Hn. destruct (decided_false _ _ _ Hd Hn) as [[? _]|(_ & _ & ? & ? & ? & Ho' & _)]; [done|congruence].
Qed.

(** What an accepted call leaves *)
Lemma verdict_accepted w now p c sync w' resp :
  reachable w -> ev_ok w (EvCall now p c sync) -> outgoing p c = None ->
  step w (EvCall now p c sync) = (w', resp) -> rejected resp = false ->
  tx_ok now (requested p c) (w_led w) /\ w_led w' = recorded now (requested p c) (w_led w).
Proof.
  intros Hr Hev Ho Hst Hrej. destruct (step_accepted _ _ _ _ _ _ _ Hr Hev Hst Hrej) as (Hok & r & Ha & _).
  split; [done|]. destruct Ha as [s1 x -> _|s1 x -> Hp _ _|s1 x e s' y -> Hp _ _ _ _ _]; [done| |];
    destruct c; simpl in Ho, Hp; discriminate.
Qed.

(** Whether a transaction is refused as a duplicate or as too old can be read off
    the log. *)
Lemma dup_or_old now s t :
  inv now s -> is_u64 now -> wf_op (tx_op t) -> wf_u64_opt (tx_created_at t) ->
  (forall b, b ∈ blocks s -> ~ hash_clash (b_tx b) t) ->
  is_Some (tx_hashes s !! txh t) \/ too_long_ago (tx_created_at t) now
  <-> (exists b, b ∈ blocks s /\ b_tx b = t /\ tx_created_at t <> None) \/ too_long_ago (tx_created_at t) now.
Proof.
  intros Hi Hu Hw Hc Hn.
  assert (forall i b, blocks s !! i = Some b -> txh (b_tx b) = txh t -> b_tx b = t) as Heq.
  { intros i b Hb Hh. destruct (inv_blk _ _ Hi _ _ Hb) as [((Hw1 & Hw2 & _) & _) _].
    destruct (same_hash _ _ Hw1 Hw2 Hw Hc Hh) as [?|Hcl]; [done|]. destruct (Hn b); [|done].
    by eapply elem_of_list_lookup_2. }
  split; (intros [Hd|?]; [|by right]).
  - destruct Hd as [[i x] Hd]. destruct (inv_hashes _ _ Hi _ _ _ Hd) as [_ (ts & j & b & Hj & Hb & Hh)].
    left. exists b. split; [by eapply elem_of_list_lookup_2|]. pose proof (Heq _ _ Hb Hh) as E. split; [done|].
    destruct (inv_ts _ _ Hi _ _ Hj) as (b2 & e & Hb2 & Ht & _). rewrite Hb in Hb2. injection Hb2 as <-.
    rewrite <- E, Ht. done.
  - destruct Hd as (b & Hb & E & Hs). destruct (tx_created_at t) as [ts|] eqn:Et; [|done].
    apply elem_of_list_lookup in Hb as [i Hb].
    destruct (inv_dropped _ _ Hi (N.of_nat i) b ts) as [Hd|Hd].
    + by rewrite Nat2N.id.
    + by rewrite E.
    + left. destruct (inv_ts _ _ Hi _ _ Hd) as (b2 & e & Hb2 & _ & He). rewrite Nat2N.id, Hb in Hb2.
      injection Hb2 as <-. rewrite E in He. by rewrite He.
    + right. exists ts. split; [done|]. by apply is_before_spec.
Qed.

Local Ltac no_dec := repeat match goal with Hk : forall y, _ -> to_key y <> ?k |- context [decide (?k = to_key ?x)] =>
    rewrite (decide_False (P := k = to_key x)) by (intros ?; apply (Hk x); [set_solver|by symmetry]) end.

(** Recording [t] does not change what concerns other accounts. *)
Lemma op_concerns q b k : outgoing q b = None ->
  (forall y, y ∈ concerns q b -> to_key y <> k) ->
  op_taken (tx_op (requested q b)) k = 0 /\ op_given (tx_op (requested q b)) k = 0
  /\ forall k', op_pair (tx_op (requested q b)) <> Some (k, k').
Proof.
  intros Ho Hk.
  assert (forall from sp (n : N), to_key from <> k -> forall k' : akey,
    fst <$> match third_party from sp with Some x => Some (approval_key from x, n) | None => None end
    <> Some (k, k')) as Hsp.
  { intros from sp n Hf k'. unfold approval_key. destruct (third_party from sp); simpl; [|done].
    intros E. apply Hf. injection E as E. by inversion E. }
  destruct b as [cycles to m|sub to amount fee m created|sub from to amount fee m created
    |sub sp amount expected expires fee m created|sub to created amount|sub from to created amount
    |sub created amount args|from sub created amount args]; simpl in Ho; try discriminate;
    cbn [requested tx_op op_taken op_given op_pair op_spend concerns] in *.
  - no_dec. split; [done|]. split; [done|]. intros k'. discriminate.
  - no_dec. split; [done|]. split; [done|].
    apply Hsp. apply Hk. set_solver.
  - no_dec. split; [done|]. split; [done|].
    apply Hsp. apply Hk. set_solver.
  - no_dec. split; [done|]. split; [done|].
    intros k' E. apply (Hk (Acct q sub)); [by left|]. unfold approval_key in E. injection E as E. by inversion E.
Qed.

Lemma recorded_log now t s k k' :
  tx_ok now t s -> op_pair (tx_op t) <> Some (k, k') ->
  log_allowance (blocks (recorded now t s)) (k, k') = log_allowance (blocks s) (k, k').
Proof.
  intros Hok Hk. rewrite recorded_blocks, log_allowance_untouched; [done|].
  intros b ->%elem_of_list_singleton. destruct Hok as (_ & Hs & _).
  rewrite spent_by_op by (by apply fee_of_mk). unfold approved_by. cbn [mk_block b_tx].
  destruct (tx_op t) eqn:Et; cbn [op_pair] in Hk; (split; [intros v E|intros n E]); try discriminate;
    try (by rewrite E in Hk); injection E as E; subst; by apply Hk.
Qed.
(** The effect of a transaction on an allowance depends on that allowance only. *)
Lemma recorded_log_same now t s s' k :
  tx_ok now t s -> tx_ok now t s' -> log_allowance (blocks s) k = log_allowance (blocks s') k ->
  log_allowance (blocks (recorded now t s)) k = log_allowance (blocks (recorded now t s')) k.
Proof.
  intros (_ & Hs & _) _ E. rewrite !recorded_blocks. unfold log_allowance in *. rewrite !foldl_app, E. simpl.
  unfold allowance_step. rewrite !spent_by_op by (by apply fee_of_mk). done.
Qed.

(** ** Rules that see the same things say the same *)
Lemma refused_same now s s' p a :
  outgoing p a = None ->
  (forall x, x ∈ concerns p a -> icrc1_balance_of s' x = icrc1_balance_of s x) ->
  (forall x y, x ∈ concerns p a -> usable s' now x y = usable s now x y) ->
  (forall sub sp amount expected expires fee m created,
     a = CallApprove sub sp amount (Some expected) expires fee m created ->
     (icrc2_allowance s' now (Acct p sub) sp).1 = (icrc2_allowance s now (Acct p sub) sp).1) ->
  (icrc1_total_supply s + brought a < 2 ^ 128 /\ icrc1_total_supply s' + brought a < 2 ^ 128) ->
  (is_Some (tx_hashes s' !! txh (requested p a)) \/ too_long_ago (tx_created_at (requested p a)) now
   <-> is_Some (tx_hashes s !! txh (requested p a)) \/ too_long_ago (tx_created_at (requested p a)) now) ->
  refused s' now p a <-> refused s now p a.
Proof.
  intros Ho Hbal Hus Hrep Hsup Hdup. unfold refused.
  destruct a as [cycles to m|sub to amount fee m created|sub from to amount fee m created
    |sub sp amount expected expires fee m created|sub to created amount|sub from to created amount
    |sub created amount args|from sub created amount args]; simpl in Ho; try discriminate;
    unfold rules, deposit_rules, transfer_rules, approve_rules, time_rules, dup_rule;
    cbn [app]; rewrite !Exists_cons, !Exists_nil; cbn [fst].
  - simpl in Hsup. intuition lia.
  - cbn [concerns] in Hbal. rewrite !(Hbal (Acct p sub)), !(Hbal to) by set_solver. cbn [requested tx_created_at] in Hdup.
    assert (not_allowed s' now (Acct p sub) None (amount + icrc1_fee)
            <-> not_allowed s now (Acct p sub) None (amount + icrc1_fee)) as Hna.
    { unfold not_allowed. split; intros (? & ? & _); discriminate. }
    tauto.
  - cbn [concerns] in Hbal, Hus. rewrite !(Hbal from), !(Hbal to) by set_solver. cbn [requested tx_created_at] in Hdup.
    assert (not_allowed s' now from (Some (Acct p sub)) (amount + icrc1_fee)
            <-> not_allowed s now from (Some (Acct p sub)) (amount + icrc1_fee)) as Hna.
    { unfold not_allowed. split; intros (x & ? & ? & Hx); exists x; (rewrite Hus in Hx || rewrite Hus); set_solver. }
    tauto.
  - cbn [concerns] in Hbal. rewrite !(Hbal (Acct p sub)) by set_solver. cbn [requested tx_created_at] in Hdup.
    assert ((exists e, expected = Some e /\ e <> (icrc2_allowance s' now (Acct p sub) sp).1)
            <-> (exists e, expected = Some e /\ e <> (icrc2_allowance s now (Acct p sub) sp).1)) as Hex.
    { split; intros (e & -> & He); exists e; (split; [done|]); specialize (Hrep _ _ _ _ _ _ _ _ eq_refl); congruence. }
    tauto.
Qed.

Lemma wf_or_refused now p c : outgoing p c = None -> wf_principal p -> wf_call c ->
  (wf_op (tx_op (requested p c)) /\ wf_u64_opt (tx_created_at (requested p c))) \/ forall s, refused s now p c.
Proof.
  intros Hout Hp Hwf. assert (checkable c -> wf_op (tx_op (requested p c)) /\ wf_u64_opt (tx_created_at (requested p c))) as Hck
    by (by apply checkable_wf).
  assert (forall o, (match o with Some f => f < U128_MOD | None => True end) \/ huge o) as Ho.
  { intros [n|]; [|by left]. destruct (N.ltb_spec n U128_MOD); [by left|right]. exists n. done. }
  destruct c as [cycles to m|sub to amount fee m created|sub from to amount fee m created
    |sub sp amount expected expires fee m created|sub to created amount|sub from to created amount
    |sub created amount args|from sub created amount args]; simpl in Hout; try discriminate; clear Hout;
    unfold refused, rules, transfer_rules, approve_rules; cbn [app];
    [left; destruct Hwf as [Hc Hto]; cbn [requested tx_op tx_created_at wf_op]; unfold is_u128, U128_MOD, icrc1_fee, FEE in *; split; [|done]; split_and!; try done; lia|..].
  - destruct (N.ltb_spec amount U128_MOD) as [?|Ha]; [|by right; intros s; left].
    destruct (Ho fee) as [?|Hf]; [left; by apply Hck|right]. intros s. by right; left.
  - destruct (N.ltb_spec amount U128_MOD) as [?|Ha]; [|by right; intros s; left].
    destruct (Ho fee) as [?|Hf]; [left; by apply Hck|right]. intros s. by right; left.
  - destruct (Ho expected) as [?|He]; [|by right; intros s; left].
    destruct (Ho fee) as [?|Hf]; [left; by apply Hck|right]. intros s. by right; left.
Qed.

Lemma requested_concerns p c :
  match tx_op (requested p c) with
  | Mint x _ _ => x | Transfer x _ _ _ _ => x | Burn x _ _ => x | Approve x _ _ _ _ _ => x
  end ∈ concerns p c.
Proof. destruct c; simpl; set_solver. Qed.

(** No recorded transaction collides with [t]. *)
Definition no_clash (w : world) (t : transaction) : Prop :=
  forall b, b ∈ blocks (w_led w) -> ~ hash_clash (b_tx b) t.

Lemma same_account_key x y : same_account x y <-> to_key x = to_key y.
Proof. split; [apply same_key|apply key_same]. Qed.

(** A world after [c] at [now], as far as the log and the tables go *)
Definition after (w : world) (now : N) (p : principal) (c : call) (rej : bool) (w' : world) : Prop :=
  w_clock w' = now /\
  if rej then w_led w' = w_led w
  else tx_ok now (requested p c) (w_led w) /\ w_led w' = recorded now (requested p c) (w_led w).
Lemma step_after w now p c sync w' resp :
  reachable w -> ev_ok w (EvCall now p c sync) -> outgoing p c = None ->
  step w (EvCall now p c sync) = (w', resp) -> after w now p c (rejected resp) w'.
Proof.
  intros Hr Hev Ho Hst. split.
  - apply step_call in Hst as (s' & r & _ & _ & Hm). destruct r; by destruct Hm as [_ ->].
  - destruct (rejected resp) eqn:E.
    + by destruct (step_rejected _ _ _ _ _ _ _ Hr Hev Hst E) as [? _].
    + by eapply verdict_accepted.
Qed.

(** Whether [a] is turned down does not depend on [b] coming first. *)
Lemma first_or_second w now p a sa wa ra q b sb wb rb wba ra' :
  reachable w -> ev_ok w (EvCall now p a sa) -> ev_ok w (EvCall now q b sb) ->
  outgoing p a = None -> outgoing q b = None -> apart p a q b ->
  icrc1_total_supply (w_led w) + brought a + brought b < 2 ^ 128 ->
  no_clash w (requested p a) -> ~ hash_clash (requested q b) (requested p a) ->
  settled w now p a ->
  step w (EvCall now p a sa) = (wa, ra) ->
  step w (EvCall now q b sb) = (wb, rb) -> step wb (EvCall now p a sa) = (wba, ra') ->
  reachable wb /\ ev_ok wb (EvCall now p a sa) /\ rejected ra' = rejected ra.
Proof.
  intros Hr Heva Hevb Hoa Hob Hap Hsup Hnc Hnc' Hset Ha Hb Hba.
  destruct (call_inv _ _ _ _ _ Hr Heva) as (Hi & Hu & Hcl & Hwf).
  pose proof (step_after _ _ _ _ _ _ _ Hr Hevb Hob Hb) as [Hclk Haf].
  assert (reachable wb) as Hrb. { replace wb with (step w (EvCall now q b sb)).1 by (by rewrite Hb). by constructor. }
  assert (ev_ok wb (EvCall now p a sa)) as Hevb'.
  { destruct Heva as ((_ & _) & Hw). split; [|done]. split; [lia|done]. }
  split; [done|]. split; [done|].
  pose proof (verdict _ _ _ _ _ _ _ Hr Heva Hoa Ha) as Hv.
  pose proof (verdict _ _ _ _ _ _ _ Hrb Hevb' Hoa Hba) as Hv'.
  assert (refused (w_led wb) now p a <-> refused (w_led w) now p a) as Hsame.
  { destruct (wf_or_refused now p a Hoa Hcl Hwf) as [[Hw1 Hw2]|Href]; [|by split].
    destruct (rejected rb); [by rewrite Haf|]. destruct Haf as [Hok Hl].
    assert (forall x, x ∈ concerns p a ->
      op_taken (tx_op (requested q b)) (to_key x) = 0 /\ op_given (tx_op (requested q b)) (to_key x) = 0
      /\ forall k', op_pair (tx_op (requested q b)) <> Some (to_key x, k')) as Hop.
    { intros x Hx. apply op_concerns; [done|]. intros y Hy E. apply (Hap x y Hx Hy). by apply same_account_key. }
    apply refused_same; [done|..].
    - intros x Hx. destruct (Hop x Hx) as (Ht & Hg & _). rewrite Hl.
      pose proof (recorded_balance _ _ _ x Hok). unfold icrc1_balance_of. lia.
    - intros x y Hx. destruct (Hop x Hx) as (_ & _ & Hp).
      rewrite !usable_live by (done || lia || by destruct Heva as ((? & _) & _)).
      unfold live_allowance. rewrite Hl, (recorded_log _ _ _ _ _ Hok); [done|]. apply Hp.
    - intros sub sp amount expected expires fee m created ->. cbn [settled] in Hset.
      rewrite Hl, recorded_untouched; [done..|lia|by apply Hop; left|].
      rewrite icrc2_allowance_view in Hset |- *. unfold view in *.
      destruct (approvals (w_led w) !! _) as [[al e]|]; [|done]. unfold exp_opt in *.
      destruct (N.ltb_spec 0 e), (N.ltb_spec e now); simpl in *; try done;
      destruct (N.eqb_spec e 0); simpl in *; try done; assert (e <> now) by (by intros ->); lia.
    - rewrite Hl. pose proof (recorded_supply _ _ _ Hi Hok) as Hs. unfold icrc1_total_supply in *.
      split; [lia|]. assert (op_minted (tx_op (requested q b)) <= brought b); [|lia].
      destruct b; simpl; lia.
    - destruct (call_inv _ _ _ _ _ Hrb Hevb') as (Hib & _).
      rewrite !(dup_or_old now) by (done || (intros bb Hbb; rewrite ?Hl, ?recorded_blocks in Hbb;
        apply elem_of_app in Hbb as [?| ->%elem_of_list_singleton]; [by apply Hnc|done])).
      rewrite Hl, recorded_blocks. split; intros [(bb & Hbb & E & Hn)|?]; try (by right); left; exists bb; (split; [|done]).
      + apply elem_of_app in Hbb as [?|Hbb]; [done|]. apply elem_of_list_singleton in Hbb. exfalso.
        subst bb. cbn [mk_block b_tx] in E. pose proof (requested_concerns q b) as Hq. pose proof (requested_concerns p a) as Hp.
        rewrite E in Hq. by apply (Hap _ _ Hp Hq).
      + apply elem_of_app. by left. }
  destruct (rejected ra'), (rejected ra); try done; exfalso.
  - assert (true = false) as ?; [|done]. apply Hv'. rewrite Hsame. by apply Hv.
  - assert (true = false) as ?; [|done]. apply Hv. rewrite <- Hsame. by apply Hv'.
Qed.

(** ** C56 *)
Theorem C56_order_is_irrelevant w now p a sa q b sb wa ra wab rb' wb rb wba ra' :
  reachable w -> ev_ok w (EvCall now p a sa) -> ev_ok w (EvCall now q b sb) ->
  (* two deposits, transfers or approvals that concern different accounts *)
  outgoing p a = None -> outgoing q b = None -> apart p a q b ->
  (* none is stopped by the bound on the total supply *)
  icrc1_total_supply (w_led w) + brought a + brought b < 2 ^ 128 ->
  (* no two different transactions have the same hash *)
  no_clash w (requested p a) -> no_clash w (requested q b) ->
  ~ hash_clash (requested p a) (requested q b) ->
  settled w now p a -> settled w now q b ->
  (* [a] first, and [b] first *)
  step w (EvCall now p a sa) = (wa, ra) -> step wa (EvCall now q b sb) = (wab, rb') ->
  step w (EvCall now q b sb) = (wb, rb) -> step wb (EvCall now p a sa) = (wba, ra') ->
  (* each is turned down in both orders or in none *)
  rejected ra' = rejected ra /\ rejected rb' = rejected rb
  (* and the ledger is the same in the end *)
  /\ (forall x, icrc1_balance_of (w_led wab) x = icrc1_balance_of (w_led wba) x)
  /\ icrc1_total_supply (w_led wab) = icrc1_total_supply (w_led wba)
  /\ (forall tm x y, now <= tm -> usable (w_led wab) tm x y = usable (w_led wba) tm x y)
  /\ (b_tx <$> blocks (w_led wab)) ≡ₚ (b_tx <$> blocks (w_led wba)).
Proof.
  intros Hr Heva Hevb Hoa Hob Hap Hsup Hna Hnb Hnab Hsa Hsb Ha Hab Hb Hba.
  assert (apart q b p a) as Hap'. { intros x y Hx Hy E. apply (Hap y x Hy Hx). by rewrite same_account_key in *. }
  assert (~ hash_clash (requested q b) (requested p a)) as Hnba.
  { intros (v1 & v2 & ? & ? & Hne & E). apply Hnab. exists v2, v1. split_and!; [done..|by intros ->|done]. }
  destruct (first_or_second w now p a sa wa ra q b sb wb rb wba ra') as (Hrb & Hevba & Er); try done.
  destruct (first_or_second w now q b sb wb rb p a sa wa ra wab rb') as (Hra & Hevab & Er'); try done; [lia|].
  split; [done|]. split; [done|].
  pose proof (step_after _ _ _ _ _ _ _ Hr Heva Hoa Ha) as [Ca Aa].
  pose proof (step_after _ _ _ _ _ _ _ Hr Hevb Hob Hb) as [Cb Ab].
  pose proof (step_after _ _ _ _ _ _ _ Hra Hevab Hob Hab) as [Cab Aab].
  pose proof (step_after _ _ _ _ _ _ _ Hrb Hevba Hoa Hba) as [Cba Aba].
  rewrite Er in Aba. rewrite Er' in Aab.
  assert (reachable wab) as Hrab. { replace wab with (step wa (EvCall now q b sb)).1 by (by rewrite Hab). by constructor. }
  assert (reachable wba) as Hrba. { replace wba with (step wb (EvCall now p a sa)).1 by (by rewrite Hba). by constructor. }
  pose proof (call_inv _ _ _ _ _ Hr Heva) as (Hi & Hu & _ & _).
  pose proof (call_inv _ _ _ _ _ Hra Hevab) as (Hia & _).
  pose proof (call_inv _ _ _ _ _ Hrb Hevba) as (Hib & _).
  assert (w_led wab = w_led wba
    \/ exists s1 s2, tx_ok now (requested p a) (w_led w) /\ s1 = recorded now (requested p a) (w_led w)
       /\ tx_ok now (requested q b) s1 /\ w_led wab = recorded now (requested q b) s1
       /\ tx_ok now (requested q b) (w_led w) /\ s2 = recorded now (requested q b) (w_led w)
       /\ tx_ok now (requested p a) s2 /\ w_led wba = recorded now (requested p a) s2
       /\ inv now s1 /\ inv now s2) as [->|(s1 & s2 & Ka & E1 & Kb1 & Eab & Kb & E2 & Ka2 & Eba & I1 & I2)].
  { destruct (rejected ra), (rejected rb).
    - left. congruence.
    - left. destruct Aab as [_ ->]. destruct Ab as [_ Ab]. congruence.
    - left. destruct Aba as [_ ->]. destruct Aa as [_ Aa]. congruence.
    - right. destruct Aab as [Kb1 Eab], Aa as [Ka Ea], Aba as [Ka2 Eba], Ab as [Kb Eb].
      exists (w_led wa), (w_led wb). done. }
  { done. }
  assert (forall k, (forall x, x ∈ concerns p a -> to_key x <> k) \/ (forall y, y ∈ concerns q b -> to_key y <> k)) as Hor.
  { intros k. destruct (decide (Forall (fun x => to_key x <> k) (concerns p a))) as [Hf|Hf].
    - left. by apply Forall_forall.
    - right. intros y Hy E. apply Hf, Forall_forall. intros x Hx Ex. apply (Hap x y Hx Hy), same_account_key. congruence. }
  split_and!.
  - intros x. unfold icrc1_balance_of. rewrite Eab, Eba.
    pose proof (recorded_balance _ _ _ x Ka) as B1. rewrite <- E1 in B1. pose proof (recorded_balance _ _ _ x Kb1) as B2.
    pose proof (recorded_balance _ _ _ x Kb) as B3. rewrite <- E2 in B3. pose proof (recorded_balance _ _ _ x Ka2) as B4.
    lia.
  - unfold icrc1_total_supply. rewrite Eab, Eba.
    pose proof (recorded_supply _ _ _ Hi Ka) as B1. rewrite <- E1 in B1. pose proof (recorded_supply _ _ _ I1 Kb1) as B2.
    pose proof (recorded_supply _ _ _ Hi Kb) as B3. rewrite <- E2 in B3. pose proof (recorded_supply _ _ _ I2 Ka2) as B4.
    lia.
  - intros tm x y Htm. rewrite !usable_live by (done || lia). unfold live_allowance.
    assert (log_allowance (blocks (w_led wab)) (to_key x, to_key y)
            = log_allowance (blocks (w_led wba)) (to_key x, to_key y)) as ->; [|done].
    rewrite Eab, Eba. destruct (Hor (to_key x)) as [Hx|Hx].
    + destruct (op_concerns _ _ _ Hoa Hx) as (_ & _ & Hp). rewrite (recorded_log _ _ _ _ _ Ka2 (Hp _)).
      rewrite E2. apply recorded_log_same; [done..|]. rewrite E1. by apply recorded_log.
    + destruct (op_concerns _ _ _ Hob Hx) as (_ & _ & Hp). rewrite (recorded_log _ _ _ _ _ Kb1 (Hp _)).
      rewrite E1. apply recorded_log_same; [done..|]. rewrite E2. symmetry. by apply recorded_log.
  - rewrite Eab, Eba, !recorded_blocks, E1, E2, !recorded_blocks, !fmap_app, <- !app_assoc.
    apply Permutation_app_head. simpl. apply Permutation_swap.
Qed.
End WithEnv.

(** ** Cases *)
Lemma no_clash_hash `{Env} t t' : tx_hash t <> tx_hash t' -> ~ hash_clash t t'.
Proof. intros Hne (v & v' & E & E' & _ & Ev). apply Hne. unfold tx_hash. rewrite E, E'. simpl. by rewrite Ev. Qed.
Definition pay (to : account) (n : N) : call := CallTransfer None to n None None (Some T0).
Definition call_a : call := pay (acct canister) T.
Definition call_b : call := CallApprove None (acct carol) T (Some 0) None None None None.
(** In the sample history after two transfers and an approval: Alice pays a
    canister's account while Bob approves Carol, who has no allowance. *)
Example C56_case :
  reachable (demo_at 3)
  /\ ev_ok (demo_at 3) (EvCall (T0 + 10 * sec) alice call_a None)
  /\ ev_ok (demo_at 3) (EvCall (T0 + 10 * sec) bob call_b None)
  /\ outgoing alice call_a = None /\ outgoing bob call_b = None /\ apart alice call_a bob call_b
  /\ icrc1_total_supply (w_led (demo_at 3)) + brought call_a + brought call_b < 2 ^ 128
  /\ no_clash (demo_at 3) (requested alice call_a) /\ no_clash (demo_at 3) (requested bob call_b)
  /\ ~ hash_clash (requested alice call_a) (requested bob call_b)
  /\ settled (demo_at 3) (T0 + 10 * sec) alice call_a /\ settled (demo_at 3) (T0 + 10 * sec) bob call_b
  /\ rejected (step (demo_at 3) (EvCall (T0 + 10 * sec) alice call_a None)).2 = false
  /\ rejected (step (demo_at 3) (EvCall (T0 + 10 * sec) bob call_b None)).2 = false.
Proof.
  assert (forall t, forallb (fun b => negb (bool_decide (tx_hash (b_tx b) = tx_hash t))) (blocks (w_led (demo_at 3))) = true ->
    no_clash (demo_at 3) t) as Hnc.
  { intros t Hf b Hb. rewrite forallb_forall in Hf. specialize (Hf b).
    apply no_clash_hash. apply elem_of_list_In in Hb. specialize (Hf Hb).
    apply negb_true_iff, bool_decide_eq_false in Hf. done. }
  split; [apply demo_at_reachable; vm_compute; reflexivity|].
  split; [apply ev_okb_ok; vm_compute; reflexivity|].
  split; [apply ev_okb_ok; vm_compute; reflexivity|].
  split; [done|]. split; [done|]. split.
  { intros x y Hx Hy. unfold call_a, call_b, pay in *. simpl in Hx, Hy.
    apply elem_of_list_singleton in Hy as ->.
    rewrite elem_of_cons, elem_of_list_singleton in Hx. destruct Hx as [->| ->]; intros [? _]; discriminate. }
  split; [vm_compute; reflexivity|]. split; [apply Hnc; vm_compute; reflexivity|].
  split; [apply Hnc; vm_compute; reflexivity|].
  split. { apply no_clash_hash. apply (bool_decide_eq_false_1 _). vm_compute. reflexivity. }
  split; [done|]. split; [vm_compute; discriminate|].
  split; vm_compute; reflexivity.
Qed.

(** The condition [settled] is needed: at the nanosecond in which an allowance
    expires it is still compared with [expected_allowance], unless another call
    has just had it removed. *)
Definition expiring_world : world :=
  (step (demo_at 3) (EvCall (T0 + 10 * sec) bob
     (CallApprove None (acct carol) T None (Some (T0 + 20 * sec)) None None None) None)).1.
Definition swap_b : call := CallApprove None (acct carol) (2 * T) (Some T) None None None None.
Theorem C56_expiring_allowance_refuted :
  exists w now p a q b, reachable w /\ ev_ok w (EvCall now p a None) /\ ev_ok w (EvCall now q b None)
  /\ outgoing p a = None /\ outgoing q b = None /\ apart p a q b
  /\ rejected (step w (EvCall now q b None)).2 = false
  /\ rejected (step (step w (EvCall now p a None)).1 (EvCall now q b None)).2 = true.
Proof.
  exists expiring_world, (T0 + 20 * sec), alice, call_a, bob, swap_b.
  split. { apply reach_step; [apply demo_at_reachable; vm_compute; reflexivity|apply ev_okb_ok; vm_compute; reflexivity]. }
  split; [apply ev_okb_ok; vm_compute; reflexivity|].
  split; [apply ev_okb_ok; vm_compute; reflexivity|].
  split; [done|]. split; [done|]. split.
  { intros x y Hx Hy. unfold call_a, swap_b, pay in *. simpl in Hx, Hy.
    apply elem_of_list_singleton in Hy as ->.
    rewrite elem_of_cons, elem_of_list_singleton in Hx. destruct Hx as [->| ->]; intros [? _]; discriminate. }
  split; vm_compute; reflexivity.
Qed.

Print Assumptions C56_expiring_allowance_refuted.
Print Assumptions C56_order_is_irrelevant.
