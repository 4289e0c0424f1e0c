(** * Deduplication and the transaction window

    C07 C08 C09 C10 *)
From Verif Require Import Base Types Codec CodecFacts CodecProofs State Ledger Canister Effects Spec ApiSpec
  Inv Steps World CallFacts CallCases StepFacts DedupFacts Demo.

(** Two different transactions with the same hash *)
Definition hash_clash `{Env} (t1 t2 : transaction) : Prop :=
  exists v1 v2, tx_hash_value t1 = Some v1 /\ tx_hash_value t2 = Some v2
    /\ v1 <> v2 /\ vhash v1 = vhash v2.

Section WithEnv.
Context `{Env}.

(** ** C07: at most once *)
Theorem C07_at_most_once w i j bi bj :
  reachable w ->
  blocks (w_led w) !! i = Some bi -> blocks (w_led w) !! j = Some bj ->
  b_tx bi = b_tx bj -> tx_created_at (b_tx bi) <> None -> i = j.
Proof. intros Hr. apply (inv_unique _ _ (reachable_inv _ Hr)). Qed.

(** A call whose transaction, with a [created_at_time], was recorded before is
    never accepted again, at any later time and after any events. *)
Theorem C07_never_accepted_twice w now caller c sync i b w' resp :
  reachable w -> ev_ok w (EvCall now caller c sync) ->
  blocks (w_led w) !! i = Some b -> b_tx b = requested caller c -> created_of c <> None ->
  step w (EvCall now caller c sync) = (w', resp) ->
  rejected resp = true /\ unchanged w w'.
Proof.
  intros Hr Hev Hb Ht Hc Hst.
  destruct (rejected resp) eqn:Hrej; [split; [done|]; by eapply step_rejected|exfalso].
  destruct (step_accepted _ _ _ _ _ _ _ Hr Hev Hst Hrej) as (_ & r & Ha & _).
  destruct (call_inv _ _ _ _ _ Hr Hev) as (Hi & _).
  destruct (accepted_block _ _ _ _ _ _ _ _ Hi Ha) as [rest Hbs].
  assert (reachable w') as Hr'.
  { replace w' with (step w (EvCall now caller c sync)).1 by (by rewrite Hst). by constructor. }
  assert (blocks (w_led w') !! i = Some b) as Hb'.
  { rewrite Hbs. by apply lookup_app_l_Some. }
  assert (i = length (blocks (w_led w))) as ->.
  { eapply (C07_at_most_once w' _ _ b (mk_block now (requested caller c) (w_led w))); [done|done| |by rewrite Ht|].
    - rewrite Hbs. by apply list_lookup_middle.
    - rewrite Ht. by destruct c. }
  apply lookup_lt_Some in Hb. lia.
Qed.

(** ** C08: retries inside the window *)
Lemma sat_add_cases a b :
  (a + b < U64_MOD /\ u64_sat_add a b = a + b)
  \/ (U64_MOD <= a + b /\ u64_sat_add a b + 1 = U64_MOD).
Proof.
  assert (U64_MAX + 1 = U64_MOD) by reflexivity. unfold u64_sat_add.
  destruct (N.ltb_spec (a + b) U64_MOD); [left|right]; lia.
Qed.
Lemma window_day : TRANSACTION_WINDOW = DAY. Proof. reflexivity. Qed.
Lemma drift_minute : PERMITTED_DRIFT = MINUTE. Proof. reflexivity. Qed.
Local Ltac window_crush :=
  rewrite ?window_day, ?drift_minute in *; unfold is_u64, in_window in *;
  repeat match goal with
    | |- context[u64_sat_add ?a ?b] => destruct (sat_add_cases a b); generalize dependent (u64_sat_add a b); intros
    | H : context[u64_sat_add ?a ?b] |- _ => destruct (sat_add_cases a b); generalize dependent (u64_sat_add a b); intros
    end; lia.
Lemma window_not_before created now clk :
  clk <= now -> is_u64 now -> now <= created + DAY + MINUTE ->
  is_before_transaction_window created clk = false.
Proof.
  unfold is_before_transaction_window. intros. apply N.ltb_ge. window_crush.
Qed.

Lemma same_hash t1 t2 :
  wf_op (tx_op t1) -> wf_u64_opt (tx_created_at t1) ->
  wf_op (tx_op t2) -> wf_u64_opt (tx_created_at t2) ->
  txh t1 = txh t2 -> t1 = t2 \/ hash_clash t1 t2.
Proof.
  intros H1 H1' H2 H2' E.
  destruct (tx_hash_value_some t1) as [v1 Hv1]. destruct (tx_hash_value_some t2) as [v2 Hv2].
  unfold txh, tx_hash in E. rewrite Hv1, Hv2 in E. simpl in E.
  destruct (decide (t1 = t2)) as [->|Hne]; [by left|right].
  exists v1, v2. split_and!; try done. intros ->. apply Hne. apply tx_hash_value_inj; [done..|]. congruence.
Qed.

Theorem C08_retry_is_duplicate w now caller c sync i b created w' resp :
  reachable w -> ev_ok w (EvCall now caller c sync) ->
  blocks (w_led w) !! N.to_nat i = Some b -> b_tx b = requested caller c ->
  created_of c = Some created -> now <= created + DAY + MINUTE ->
  step w (EvCall now caller c sync) = (w', resp) ->
  unchanged w w' /\ rejected resp = true
  /\ (duplicate_of resp = Some i
      \/ exists j bj, duplicate_of resp = Some j /\ blocks (w_led w) !! N.to_nat j = Some bj
           /\ hash_clash (b_tx bj) (b_tx b)).
Proof.
  intros Hr Hev Hb Ht Hc Hwin Hst. destruct Hev as ((Hclk & Hu) & Hcl & Hwf).
  assert (ev_ok w (EvCall now caller c sync)) as Hev by done.
  pose proof (reachable_inv _ Hr) as Hi.
  assert (tx_created_at (requested caller c) = Some created) as Hct by (by destruct c).
  destruct (inv_blk _ _ Hi _ _ Hb) as [(Hwt & _) _]. rewrite Ht in Hwt.
  assert (checkable c) as Hch by (by eapply recorded_checkable).
  destruct (checkable_wf caller c Hcl Hwf Hch) as [Hw1 Hw2].
  assert (exists j x, tx_hashes (w_led w) !! txh (requested caller c) = Some (j, x)) as (j & x & Hj).
  { destruct (inv_dropped _ _ Hi i b created Hb) as [Hin|Hout]; [by rewrite Ht| |].
    - destruct (inv_ts _ _ Hi _ _ Hin) as (b' & [j x] & Hb' & _ & Hx).
      assert (b' = b) as -> by congruence. exists j, x. by rewrite <- Ht.
    - by rewrite (window_not_before created now) in Hout. }
  destruct (exec_known now (w_cycles w) caller c sync _ _ _ (inv_supply _ _ Hi) Hch Hj)
    as (resp' & He & Hd & Hrej & _).
  assert (resp = resp') as <-.
  { apply step_call in Hst as (s' & r & He' & _ & Hm). rewrite He in He'. injection He' as <- <-.
    by destruct Hm. }
  split; [by eapply step_rejected|]. split; [done|].
  destruct (inv_hashes _ _ Hi _ _ _ Hj) as [(bj & Hbj & Hh) _].
  destruct (inv_blk _ _ Hi _ _ Hbj) as [((Hwj1 & Hwj2 & _) & _) _].
  destruct (same_hash _ _ Hwj1 Hwj2 Hw1 Hw2 Hh) as [E|E].
  - left. assert (N.to_nat j = N.to_nat i) by (eapply C07_at_most_once; [done..|congruence|rewrite E; congruence]).
    assert (j = i) as -> by lia. done.
  - right. exists j, bj. rewrite Ht. done.
Qed.

(** If no two different values share a hash, the answer names the block. *)
Corollary C08_retry_names_block w now caller c sync i b created w' resp :
  (forall v1 v2, vhash v1 = vhash v2 -> v1 = v2) ->
  reachable w -> ev_ok w (EvCall now caller c sync) ->
  blocks (w_led w) !! N.to_nat i = Some b -> b_tx b = requested caller c ->
  created_of c = Some created -> now <= created + DAY + MINUTE ->
  step w (EvCall now caller c sync) = (w', resp) ->
  unchanged w w' /\ duplicate_of resp = Some i.
Proof.
  intros Hinj Hr Hev Hb Ht Hc Hwin Hst.
  destruct (C08_retry_is_duplicate _ _ _ _ _ _ _ _ _ _ Hr Hev Hb Ht Hc Hwin Hst)
    as (? & _ & [?|(j & bj & _ & _ & v1 & v2 & _ & _ & Hne & E)]); [done|].
  by apply Hinj in E.
Qed.

(** ** C09: a [Duplicate] answer is honest *)
Theorem C09_duplicate_is_honest w now caller c sync i w' resp :
  reachable w -> ev_ok w (EvCall now caller c sync) ->
  step w (EvCall now caller c sync) = (w', resp) -> duplicate_of resp = Some i ->
  unchanged w w' /\
  exists b, blocks (w_led w) !! N.to_nat i = Some b
    /\ (b_tx b = requested caller c \/ hash_clash (b_tx b) (requested caller c)).
Proof.
  intros Hr Hev Hst Hd. pose proof (reachable_inv _ Hr) as Hi.
  assert (rejected resp = true) as Hrej.
  { clear -Hd. by destruct resp as [|[? ?|[]|[]|[]|[?|[]]|[?|[]]|[[]|[]]|[[]|[]]]| |]. }
  split; [by eapply step_rejected|]. destruct Hev as (_ & Hcl & Hwf).
  apply step_call in Hst as (s' & r & He & _ & Hm).
  destruct r as [resp'|p]; [|by destruct Hm as [-> _]]. destruct Hm as [<- _].
  apply exec_class in He as [Hk Hch]; [|by apply inv_supply in Hi].
  unfold resp_class in Hk, Hch. rewrite Hd in Hk, Hch.
  specialize (Hch ltac:(done)). destruct (checkable_wf caller c Hcl Hwf Hch) as [Hw1 Hw2].
  destruct Hk as [x Hk]. destruct (inv_hashes _ _ Hi _ _ _ Hk) as [(b & Hb & Hh) _].
  exists b. split; [done|].
  destruct (inv_blk _ _ Hi _ _ Hb) as [((Hwj1 & Hwj2 & _) & _) _].
  by apply same_hash.
Qed.

(** Only transactions with a [created_at_time] are ever reported as duplicates,
    again up to clashes. *)
Theorem C09_duplicate_has_created_at w now caller c sync i w' resp :
  reachable w -> ev_ok w (EvCall now caller c sync) ->
  step w (EvCall now caller c sync) = (w', resp) -> duplicate_of resp = Some i ->
  created_of c <> None
  \/ exists j b, blocks (w_led w) !! j = Some b /\ hash_clash (b_tx b) (requested caller c).
Proof.
  intros Hr Hev Hst Hd. pose proof (reachable_inv _ Hr) as Hi.
  destruct Hev as (_ & Hcl & Hwf).
  apply step_call in Hst as (s' & r & He & _ & Hm).
  destruct r as [resp'|p]; [|by destruct Hm as [-> _]]. destruct Hm as [<- _].
  apply exec_class in He as [Hk Hch]; [|by apply inv_supply in Hi].
  unfold resp_class in Hk, Hch. rewrite Hd in Hk, Hch.
  specialize (Hch ltac:(done)). destruct (checkable_wf caller c Hcl Hwf Hch) as [Hw1 Hw2].
  destruct Hk as [x Hk]. destruct (inv_hashes _ _ Hi _ _ _ Hk) as [_ (ts & j & b & Hin & Hb & Hh)].
  destruct (inv_blk _ _ Hi _ _ Hb) as [((Hwj1 & Hwj2 & _) & _) _].
  destruct (same_hash _ _ Hwj1 Hwj2 Hw1 Hw2 Hh) as [E|E]; [left|right; eauto].
  destruct (inv_ts _ _ Hi _ _ Hin) as (b' & _ & Hb' & Hts & _).
  assert (b' = b) as -> by congruence. rewrite E in Hts. destruct c; simpl in *; congruence.
Qed.

(** ** C10: the window *)
Lemma validate_ok_window created now :
  is_u64 now -> validate_created_at_time (Some created) now = Ok tt -> in_window created now.
Proof.
  unfold validate_created_at_time. intros Hu.
  destruct (_ <? _) eqn:E1; [done|]. destruct (u64_sat_add now _ <? _) eqn:E2; [done|]. intros _.
  apply N.ltb_ge in E1, E2. split; window_crush.
Qed.
Lemma validate_old created now :
  is_u64 created -> is_u64 now -> validate_created_at_time (Some created) now = Err PTTooOld ->
  created + DAY + MINUTE < now.
Proof.
  unfold validate_created_at_time. intros Hc Hu.
  destruct (_ <? _) eqn:E1; [intros _|by destruct (_ <? created)].
  apply N.ltb_lt in E1. window_crush.
Qed.
Lemma validate_future created now n :
  is_u64 created -> is_u64 now -> validate_created_at_time (Some created) now = Err (PTInTheFuture n) ->
  now + MINUTE < created.
Proof.
  unfold validate_created_at_time. intros Hc Hu.
  destruct (_ <? _) eqn:E1; [done|]. destruct (u64_sat_add now _ <? _) eqn:E2; [|done]. intros _.
  apply N.ltb_lt in E2. window_crush.
Qed.

Theorem C10_recorded_in_window w i b created :
  reachable w -> blocks (w_led w) !! i = Some b -> tx_created_at (b_tx b) = Some created ->
  in_window created (b_timestamp b).
Proof.
  intros Hr Hb Hc. destruct (inv_blk _ _ (reachable_inv _ Hr) _ _ Hb) as [(_ & Hu & _ & _ & Hv) _].
  rewrite Hc in Hv. by apply validate_ok_window.
Qed.

Theorem C10_time_errors_truthful w now caller c sync w' resp :
  reachable w -> ev_ok w (EvCall now caller c sync) ->
  step w (EvCall now caller c sync) = (w', resp) ->
  (too_old resp = true -> exists created, created_of c = Some created /\ created + DAY + MINUTE < now)
  /\ (forall t, created_in_future resp = Some t ->
        t = now /\ exists created, created_of c = Some created /\ now + MINUTE < created).
Proof.
  intros Hr Hev Hst. pose proof (reachable_inv _ Hr) as Hi.
  destruct Hev as ((_ & Hu) & Hcl & Hwf).
  apply step_call in Hst as (s' & r & He & _ & Hm).
  destruct r as [resp'|p]; [|by destruct Hm as [-> _]]. destruct Hm as [<- _].
  apply exec_class in He as [Hk Hch]; [|by apply inv_supply in Hi].
  unfold resp_class in Hk, Hch.
  assert (tx_created_at (requested caller c) = created_of c) as Hct by (by destruct c).
  split.
  - intros Ho. assert (duplicate_of resp = None) as Hd.
    { clear -Ho. by destruct resp as [|[? ?|[|[]]|[|[]]|[|[]]|[?|[]]|[?|[]]|[[]|[]]|[[]|[]]]| |]. }
    rewrite Hd, Ho in Hk, Hch. simpl in Hk. rewrite Hct in Hk.
    destruct (created_of c) as [created|] eqn:Ec; [|done].
    exists created. split; [done|]. apply validate_old; try done.
    destruct (checkable_wf caller c Hcl Hwf) as [_ Hw]; [by apply Hch|]. rewrite Hct in Hw. simplify_option_eq. done.
  - intros t Hf. assert (duplicate_of resp = None /\ too_old resp = false) as [Hd Ho].
    { clear -Hf. by destruct resp as [|[? ?|[|[]]|[|[]]|[|[]]|[?|[]]|[?|[]]|[[]|[]]|[[]|[]]]| |]. }
    rewrite Hd, Ho, Hf in Hk, Hch. simpl in Hk. rewrite Hct in Hk. destruct Hk as [-> Hk]. split; [done|].
    destruct (created_of c) as [created|] eqn:Ec; [|done].
    exists created. split; [done|]. eapply validate_future; try done.
    destruct (checkable_wf caller c Hcl Hwf) as [_ Hw]; [by apply Hch|]. rewrite Hct in Hw. simplify_option_eq. done.
Qed.

(** Outside the window nothing is accepted; if it is the time only that is
    wrong (the same call without [created_at_time] would be accepted), the
    answer says so, or reports a duplicate. *)
Lemma process_time op m created now :
  process_decide (Tx op None m) now = OOk tt ->
  process_decide (Tx op created m) now =
  match validate_created_at_time created now with Err e => OErr e | Ok _ => OOk tt end.
Proof. unfold process_decide; simpl. destruct (negb _); done. Qed.

Lemma transfer_time from to sp amount m now created fee s e :
  transfer_decide from to sp amount m now None fee s = OOk tt ->
  validate_created_at_time created now = Err e ->
  (exists i, transfer_decide from to sp amount m now created fee s = OErr (TFDuplicate i))
  \/ transfer_decide from to sp amount m now created fee s = OErr (tf_of_pt e).
Proof.
  unfold transfer_decide. intros Hd Hv.
  destruct (tx_hashes s !! txh (Tx _ created m)) as [[i x]|]; [left; eauto|right].
  destruct (tx_hashes s !! txh _) as [[]|]; [done|].
  repeat (match type of Hd with (if ?b then _ else _) = _ => destruct b end; [done|]).
  destruct (match third_party from sp with Some _ => _ | None => _ end); [done|].
  repeat (match type of Hd with (if ?b then _ else _) = _ => destruct b end; [done|]).
  destruct (process_decide _ now) as [[]| |] eqn:Ep in Hd; try done.
  rewrite (process_time _ _ created _ Ep), Hv. done.
Qed.
Lemma approve_time from sp amount m now created fee expected expires s e :
  approve_decide from sp amount m now None fee expected expires s = OOk tt ->
  validate_created_at_time created now = Err e ->
  (exists i, approve_decide from sp amount m now created fee expected expires s = OErr (ADuplicate i))
  \/ approve_decide from sp amount m now created fee expected expires s = OErr (ap_of_pt e).
Proof.
  unfold approve_decide. intros Hd Hv.
  destruct (tx_hashes s !! txh (Tx _ created m)) as [[i x]|]; [left; eauto|right].
  destruct (tx_hashes s !! txh _) as [[]|]; [done|].
  repeat (match type of Hd with (if ?b then _ else _) = _ => destruct b end; [done|]).
  destruct (process_decide _ now) as [[]| |] eqn:Ep in Hd; try done.
  rewrite (process_time _ _ created _ Ep), Hv. done.
Qed.
Lemma burn_time {E} (cp : pt_error -> E) cu nf op m from sp amount now created s e old :
  burn_decide cp cu nf (Tx op None m) from sp amount now s = OOk old ->
  validate_created_at_time created now = Err e ->
  (exists i x, burn_decide cp cu nf (Tx op created m) from sp amount now s = OErr (cp (PTDuplicate i x)))
  \/ burn_decide cp cu nf (Tx op created m) from sp amount now s = OErr (cp e).
Proof.
  unfold burn_decide. intros Hd Hv.
  destruct (tx_hashes s !! txh (Tx _ created m)) as [[i x]|]; [left; eauto|right].
  destruct (tx_hashes s !! txh _) as [[]|]; [done|].
  destruct (_ <=? _); [done|].
  destruct (match third_party from sp with Some _ => _ | None => _ end); [|done|done].
  destruct (_ <? _); [done|].
  destruct (process_decide _ now) as [[]| |] eqn:Ep in Hd; try done.
  rewrite (process_time _ _ created _ Ep), Hv. done.
Qed.

Definition time_reply (now : N) (e : pt_error) (resp : response) : Prop :=
  match e with
  | PTTooOld => too_old resp = true
  | PTInTheFuture _ => created_in_future resp = Some now
  | _ => True
  end.
Lemma exec_time now avail caller c sync s s' r s2 resp e :
  inv now s ->
  exec_call now avail caller (without_time c) sync s = (s', r) ->
  (forall resp', r = Done resp' -> rejected resp' = false) ->
  validate_created_at_time (created_of c) now = Err e ->
  exec_call now avail caller c sync s = (s2, Done resp) ->
  (exists i, duplicate_of resp = Some i) \/ time_reply now e resp.
Proof.
  intros Hi H1 Hrej Hv H2. pose proof (inv_supply _ _ Hi) as Hs.
  assert (e = PTTooOld \/ e = PTInTheFuture now) as He by (by eapply validate_err_cases).
  destruct c as [cycles to m|sub to amount fee m created|sub from to amount fee m created
    |sub sp amount expected expires fee m created|sub to created amount|sub from to created amount
    |sub created amount args|from sub created amount args]; cbn [without_time created_of] in *.
  - done.
  - rewrite exec_transfer in H1, H2 by done. unfold xfer_decide in H1, H2.
    destruct (_ <=? _). { injection H1 as <- <-. by specialize (Hrej _ eq_refl). }
    destruct (match fee with Some f => _ | None => _ end). { injection H1 as <- <-. by specialize (Hrej _ eq_refl). }
    destruct (transfer_decide _ _ _ _ _ _ None _ _) as [[]|e1|x] eqn:Ed.
    + destruct (transfer_time _ _ _ _ _ _ _ _ _ _ Ed Hv) as [[i Hd]|Hd]; rewrite Hd in H2;
        injection H2 as <- <-; [left; eauto|right]. by destruct He as [->| ->].
    + injection H1 as <- <-. specialize (Hrej _ eq_refl). unfold xfer_resp in Hrej.
      by destruct (t_of_tf e1).
    + injection H1 as <- <-. by specialize (Hrej _ eq_refl).
  - rewrite exec_transfer_from in H1, H2 by done. unfold xfer_decide in H1, H2.
    destruct (_ <=? _). { injection H1 as <- <-. by specialize (Hrej _ eq_refl). }
    destruct (match fee with Some f => _ | None => _ end). { injection H1 as <- <-. by specialize (Hrej _ eq_refl). }
    destruct (transfer_decide _ _ _ _ _ _ None _ _) as [[]|e1|x] eqn:Ed.
    + destruct (transfer_time _ _ _ _ _ _ _ _ _ _ Ed Hv) as [[i Hd]|Hd]; rewrite Hd in H2;
        injection H2 as <- <-; [left; eauto|right]. by destruct He as [->| ->].
    + injection H1 as <- <-. by specialize (Hrej _ eq_refl).
    + injection H1 as <- <-. by specialize (Hrej _ eq_refl).
  - rewrite exec_approve in H1, H2 by done. unfold apr_decide in H1, H2.
    destruct (match expected with Some f => _ | None => _ end). { injection H1 as <- <-. by specialize (Hrej _ eq_refl). }
    destruct (match fee with Some f => _ | None => _ end). { injection H1 as <- <-. by specialize (Hrej _ eq_refl). }
    destruct (approve_decide _ _ _ _ _ None _ _ _ _) as [[]|e1|x] eqn:Ed.
    + destruct (approve_time _ _ _ _ _ _ _ _ _ _ _ Ed Hv) as [[i Hd]|Hd]; rewrite Hd in H2;
        injection H2 as <- <-; [left; eauto|right]. by destruct He as [->| ->].
    + injection H1 as <- <-. by specialize (Hrej _ eq_refl).
    + injection H1 as <- <-. by specialize (Hrej _ eq_refl).
  - rewrite exec_withdraw in H1, H2 by done. unfold after_withdraw in H1, H2.
    destruct (wd_decide _ _ _ _ None _ _) as [old|e1|x] eqn:Ed.
    + unfold wd_decide, withdraw_decide in Ed, H2. destruct (_ <=? _); [done|].
      destruct (is_self_authenticating to); [done|]. destruct (amount =? 0); [done|].
      destruct (burn_time _ _ _ _ _ _ _ _ _ _ _ _ _ Ed Hv) as [(i & x & Hd)|Hd]; rewrite Hd in H2;
        injection H2 as <- <-; [left; by exists i|right]. by destruct He as [->| ->].
    + injection H1 as <- <-. specialize (Hrej _ eq_refl). by rewrite wd_resp_rejected in Hrej by (by eapply wd_decide_err).
    + injection H1 as <- <-. by specialize (Hrej _ eq_refl).
  - rewrite exec_withdraw_from in H1, H2 by done. unfold after_withdraw in H1, H2.
    destruct (wd_decide _ _ _ _ None _ _) as [old|e1|x] eqn:Ed.
    + unfold wd_decide, withdraw_decide in Ed, H2. destruct (_ <=? _); [done|].
      destruct (is_self_authenticating to); [done|]. destruct (amount =? 0); [done|].
      destruct (burn_time _ _ _ _ _ _ _ _ _ _ _ _ _ Ed Hv) as [(i & x & Hd)|Hd]; rewrite Hd in H2;
        injection H2 as <- <-; [left; by exists i|right]. by destruct He as [->| ->].
    + injection H1 as <- <-. specialize (Hrej _ eq_refl). by rewrite wd_resp_rejected in Hrej by (by eapply wd_decide_err).
    + injection H1 as <- <-. by specialize (Hrej _ eq_refl).
  - rewrite exec_create in H1, H2 by done. unfold after_create in H1, H2.
    destruct (cr_decide _ _ _ None _ _) as [old|e1|x] eqn:Ed.
    + unfold cr_decide, create_decide in Ed, H2. destruct (_ <=? _); [done|].
      destruct (burn_time _ _ _ _ _ _ _ _ _ _ _ _ _ Ed Hv) as [(i & x & Hd)|Hd]; unfold create_tx in H2; rewrite Hd in H2;
        injection H2 as <- <-; [left; by exists i|right]. by destruct He as [->| ->].
    + injection H1 as <- <-. specialize (Hrej _ eq_refl). by rewrite cr_resp_rejected in Hrej by (by eapply cr_decide_err).
    + injection H1 as <- <-. by specialize (Hrej _ eq_refl).
  - rewrite exec_create_from in H1, H2 by done. unfold after_create in H1, H2.
    destruct (cr_decide _ _ _ None _ _) as [old|e1|x] eqn:Ed.
    + unfold cr_decide, create_decide in Ed, H2. destruct (_ <=? _); [done|].
      destruct (burn_time _ _ _ _ _ _ _ _ _ _ _ _ _ Ed Hv) as [(i & x & Hd)|Hd]; unfold create_tx in H2; rewrite Hd in H2;
        injection H2 as <- <-; [left; by exists i|right]. by destruct He as [->| ->].
    + injection H1 as <- <-. specialize (Hrej _ eq_refl). by rewrite cr_resp_rejected in Hrej by (by eapply cr_decide_err).
    + injection H1 as <- <-. by specialize (Hrej _ eq_refl).
Qed.

Theorem C10_outside_window_rejected w now caller c sync created w' resp :
  reachable w -> ev_ok w (EvCall now caller c sync) ->
  created_of c = Some created -> ~ in_window created now ->
  step w (EvCall now caller c sync) = (w', resp) ->
  rejected resp = true /\ unchanged w w'
  /\ (rejected (step w (EvCall now caller (without_time c) sync)).2 = false ->
      (exists i, duplicate_of resp = Some i)
      \/ (too_old resp = true /\ created + DAY + MINUTE < now)
      \/ (created_in_future resp = Some now /\ now + MINUTE < created)).
Proof.
  intros Hr Hev Hc Hout Hst.
  destruct (call_inv _ _ _ _ _ Hr Hev) as (Hi & Hu & Hcl & Hwf).
  assert (is_u64 created) as Hcu.
  { clear -Hwf Hc. destruct c; simpl in *; subst; by destruct_and?. }
  assert (exists e, validate_created_at_time (Some created) now = Err e) as [e He].
  { destruct (validate_created_at_time (Some created) now) as [[]|e] eqn:E; [|eauto].
    by apply validate_ok_window in E. }
  assert (rejected resp = true) as Hrej.
  { destruct (rejected resp) eqn:Hrej; [done|exfalso].
    destruct (step_accepted _ _ _ _ _ _ _ Hr Hev Hst Hrej) as ((_ & _ & _ & Hv & _) & _).
    assert (tx_created_at (requested caller c) = Some created) as Hct by (by destruct c).
    rewrite Hct in Hv. by rewrite He in Hv. }
  split; [done|]. split; [by eapply step_rejected|].
  intros Hacc. destruct (step w (EvCall now caller (without_time c) sync)) as [w1 resp1] eqn:Hst1.
  simpl in Hacc. apply step_call in Hst as (s2 & r2 & He2 & _ & Hm2).
  apply step_call in Hst1 as (s1 & r1 & He1 & _ & Hm1).
  destruct r2 as [resp2|p]; [|by destruct Hm2 as [-> _]]. destruct Hm2 as [<- _].
  assert (forall resp', r1 = Done resp' -> rejected resp' = false) as Hr1.
  { intros resp' ->. by destruct Hm1 as [<- _]. }
  rewrite <- Hc in He.
  destruct (exec_time _ _ _ _ _ _ _ _ _ _ _ Hi He1 Hr1 He He2) as [?|Ht]; [by left|right].
  rewrite Hc in He. destruct (validate_err_cases _ _ _ He) as [->| ->]; simpl in Ht.
  - left. split; [done|]. by apply validate_old.
  - right. split; [done|]. by eapply validate_future.
Qed.

End WithEnv.

(** ** The hypotheses are met *)
Definition demo_retry : call :=
  CallTransfer None (acct bob) (2 * T) (Some FEE) (Some [Byte.x01]) (Some (T0 + 2 * sec)).
Example demo_retry_recorded :
  blocks (w_led demo_world) !! N.to_nat 2 = Some (block_at demo_world 2)
  /\ b_tx (block_at demo_world 2) = requested alice demo_retry
  /\ ev_ok demo_world (EvCall (T0 + 2 * sec + DAY + MINUTE) alice demo_retry None)
  /\ duplicate_of (step demo_world (EvCall (T0 + 2 * sec + DAY + MINUTE) alice demo_retry None)).2
     = Some 2.
Proof.
  split; [vm_compute; reflexivity|]. split; [vm_compute; reflexivity|].
  split; [apply ev_okb_ok|]; vm_compute; reflexivity.
Qed.
Example demo_late :
  let c := CallTransfer None (acct bob) T None None (Some T0) in
  too_old (step demo_world (EvCall (T0 + DAY + MINUTE + 1) alice c None)).2 = true
  /\ rejected (step demo_world (EvCall (T0 + DAY + MINUTE) alice c None)).2 = false
  /\ rejected (step demo_world (EvCall (T0 + DAY + MINUTE + 1) alice (without_time c) None)).2 = false.
Proof. vm_compute. done. Qed.
Example demo_future :
  let c := CallTransfer None (acct bob) T None None (Some (T0 + 20 * sec + MINUTE + 1)) in
  created_in_future (step demo_world (EvCall (T0 + 20 * sec) alice c None)).2 = Some (T0 + 20 * sec)
  /\ rejected (step demo_world (EvCall (T0 + 20 * sec) alice (without_time c) None)).2 = false.
Proof. vm_compute. done. Qed.

(** ** C45: the default subaccount and deduplication

    Two calls that differ only in writing the default subaccount as absent or as
    32 zero bytes are different transactions for the deduplication: both are
    executed although sender, receiver, amount, memo and [created_at_time] are
    the same. *)
Theorem C45_default_subaccount_not_deduplicated_refuted :
  exists (w : world) i j bi bj from1 from2 to amount created m,
    reachable w /\ i <> j
    /\ blocks (w_led w) !! i = Some bi /\ blocks (w_led w) !! j = Some bj
    /\ b_tx bi = Tx (Transfer from1 to None amount None) (Some created) m
    /\ b_tx bj = Tx (Transfer from2 to None amount None) (Some created) m
    /\ to_key from1 = to_key from2.
Proof.
  set (c sub := CallTransfer sub (acct bob) T None None (Some (T0 + 20 * sec))).
  set (evs := demo_events ++ [EvCall (T0 + 20 * sec) alice (c None) None;
                              EvCall (T0 + 20 * sec) alice (c (Some 0)) None]).
  set (w := the_world (history T0 (100 * T) demo_init evs)).
  exists w, 10%nat, 11%nat, (block_at w 10), (block_at w 11),
    (acct alice), (Acct alice (Some 0)), (acct bob), T, (T0 + 20 * sec), None.
  split; [apply the_world_reachable; vm_compute; reflexivity|]. split; [lia|].
  repeat match goal with |- _ /\ _ => split end; vm_compute; reflexivity.
Qed.

(** ** C46: retrying a refunded withdrawal

    A withdrawal with [created_at_time] that failed and was refunded cannot be
    retried as it is: the retry is answered [Duplicate] with the block of the
    burn although no cycles were delivered. *)
Theorem C46_refunded_withdrawal_retry_refuted :
  exists (w : world) (now : N) (c : call) (i : N),
    reachable w /\ ev_ok w (EvCall now alice c None)
    /\ c = CallWithdraw None canister (Some (T0 + 20 * sec)) T
    (* the burn was undone by the mint of the next block *)
    /\ (exists b, blocks (w_led w) !! N.to_nat i = Some b /\ b_tx b = requested alice c)
    /\ (exists b, blocks (w_led w) !! S (N.to_nat i) = Some b
          /\ tx_op (b_tx b) = Mint (acct alice) (T - FEE) 0)
    /\ duplicate_of (step w (EvCall now alice c None)).2 = Some i.
Proof.
  set (c := CallWithdraw None canister (Some (T0 + 20 * sec)) T).
  set (evs := demo_events ++ [EvCall (T0 + 20 * sec) alice c None;
     EvReply (T0 + 21 * sec) 3 (AnsDeposit (Err (CECallRejected (Some RejDestinationInvalid)))) T]).
  set (w := the_world (history T0 (100 * T) demo_init evs)).
  exists w, (T0 + 22 * sec), c, 10.
  split; [apply the_world_reachable; vm_compute; reflexivity|].
  split; [apply ev_okb_ok; vm_compute; reflexivity|]. split; [reflexivity|].
  split; [exists (block_at w 10); split; vm_compute; reflexivity|].
  split; [exists (block_at w 11); split; vm_compute; reflexivity|].
  vm_compute. reflexivity.
Qed.

Print Assumptions C07_at_most_once.
Print Assumptions C07_never_accepted_twice.
Print Assumptions C08_retry_is_duplicate.
Print Assumptions C08_retry_names_block.
Print Assumptions C09_duplicate_is_honest.
Print Assumptions C09_duplicate_has_created_at.
Print Assumptions C10_recorded_in_window.
Print Assumptions C10_time_errors_truthful.
Print Assumptions C10_outside_window_rejected.
Print Assumptions C45_default_subaccount_not_deduplicated_refuted.
Print Assumptions C46_refunded_withdrawal_retry_refuted.
