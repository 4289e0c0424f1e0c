(** * All of the ledger's memory follows from what it has shown

    C85 *)
From Verif Require Import Base Types Codec CodecFacts State Ledger Canister Effects Spec ApiSpec Inv Steps World
  CallFacts CallCases StepFacts AllowFacts RefundFacts AsyncFacts EventFacts PropertiesUpgrade PropertiesReceipts
  PropertiesTwin Demo.

(** ** Specification *)

(** What users are shown of a history, in order: each block, with whether an answer
    named it as the approval given back, and each canister named as created. *)
Inductive entry :=
| Wrote (b : block) (given_back : bool)
| Created (i : N) (canister : principal).

(** The blocks that an event with response [r] wrote, the first under number [k] *)
Fixpoint wrote (r : response) (k : nat) (l : list block) : list entry :=
  match l with
  | [] => []
  | b :: l' => Wrote b (bool_decide (approval_block r = Some (N.of_nat k))) :: wrote r (S k) l'
  end.
(** The canister a response names as created *)
Definition made (r : response) : list entry :=
  match r with
  | RespReply (RepCreate (Ok (i, c))) => [Created i c]
  | RespReply (RepCreateFrom (Ok (i, c))) => [Created i c]
  | _ => []
  end.
Definition shown_by (w w' : world) (r : response) : list entry :=
  wrote r (length (blocks (w_led w))) (drop (length (blocks (w_led w))) (blocks (w_led w'))) ++ made r.

Section WithEnv.
Context `{Env}.

Fixpoint record (w : world) (evs : list event) : list entry :=
  match evs with
  | [] => []
  | ev :: evs' => shown_by w (step w ev).1 (step w ev).2 ++ record (step w ev).1 evs'
  end.
(** From installation on: [w0] is the installed ledger. *)
Definition full_record (w0 : world) (evs : list event) : list entry :=
  map (fun b => Wrote b false) (blocks (w_led w0)) ++ record w0 evs.

(** The events can happen one after the other. *)
Fixpoint possible (w : world) (evs : list event) : Prop :=
  match evs with [] => True | ev :: evs' => ev_ok w ev /\ possible (step w ev).1 evs' end.

(** ** The ledger rebuilt from the record *)
Definition rebuild1 (s : state) (e : entry) : state :=
  match e with
  | Wrote b back =>
      let s1 := tx_effect (b_timestamp b) (b_tx b) s in
      if back then s1
      else match tx_op (b_tx b) with
           | Mint _ _ fee => if fee =? 0 then prune_state (b_timestamp b) (prune_state (b_timestamp b) s1)
                             else prune_state (b_timestamp b) s1
           | _ => prune_state (b_timestamp b) s1
           end
  | Created i c =>
      match blocks s !! N.to_nat i with
      | Some b => note_canister (txh (b_tx b)) i c s
      | None => s
      end
  end.
Definition rebuild : state -> list entry -> state := foldl rebuild1.

Lemma sim_tx_effect now t s1 s2 : sim s1 s2 -> sim (tx_effect now t s1) (tx_effect now t s2).
Proof.
  intros (c & l & ->)%sim_alt. unfold tx_effect.
  change (mk_block now t (set_cfg c (set_p0 l s1))) with (mk_block now t s1).
  set (b := mk_block now t s1). clearbody b.
  assert (sim (push_block b s1) (push_block b (set_cfg c (set_p0 l s1)))) as Hs by done.
  revert Hs. generalize (push_block b s1), (push_block b (set_cfg c (set_p0 l s1))). clear.
  intros s1 s2 Hs.
  assert (sim (allow_effect (tx_op t) s1) (allow_effect (tx_op t) s2)) as Ha.
  { assert (forall f p n, sim (spend_allowance f p n s1) (spend_allowance f p n s2)) as Hsp.
    { intros f p n. destruct (sim_alt _ _ Hs) as (c & l & ->). unfold spend_allowance.
      cbn [approvals set_cfg set_p0]. destruct (approvals s1 !! _) as [[cur e]|]; [|done].
      destruct (cur - n =? 0); [|done]. by destruct (0 <? e). }
    destruct (tx_op t); simpl; [done| | |].
    - destruct (third_party from spender); done.
    - destruct (third_party from spender); done.
    - destruct (sim_alt _ _ Hs) as (c & l & ->). apply sim_record_approval. }
  revert Ha. generalize (allow_effect (tx_op t) s1), (allow_effect (tx_op t) s2). clear.
  intros s1 s2 (c & l & ->)%sim_alt. destruct (tx_op t); reflexivity.
Qed.
Lemma sim_prune now s1 s2 : sim s1 s2 -> sim (prune_state now s1) (prune_state now s2).
Proof. intros (c & l & ->)%sim_alt. apply sim_prune_state. Qed.
Lemma sim_rebuild1 s1 s2 e : sim s1 s2 -> sim (rebuild1 s1 e) (rebuild1 s2 e).
Proof.
  intros Hs. destruct e as [b back|i c]; unfold rebuild1; cbv zeta.
  - pose proof (sim_tx_effect (b_timestamp b) (b_tx b) _ _ Hs) as He. revert He.
    generalize (tx_effect (b_timestamp b) (b_tx b) s1), (tx_effect (b_timestamp b) (b_tx b) s2).
    intros t1 t2 He. destruct back; [done|].
    destruct (tx_op (b_tx b)); [destruct (_ =? _)| | |]; repeat apply sim_prune; exact He.
  - destruct (sim_alt _ _ Hs) as (c' & l & ->). cbn [blocks set_cfg set_p0].
    destruct (blocks s1 !! _) as [b|]; [|done]. unfold note_canister. cbn [tx_hashes set_cfg set_p0].
    by destruct (tx_hashes s1 !! _).
Qed.
Lemma sim_rebuild l s1 s2 : sim s1 s2 -> sim (rebuild s1 l) (rebuild s2 l).
Proof.
  revert s1 s2. induction l as [|e l IH]; intros s1 s2 Hs; [done|]. simpl. apply IH. by apply sim_rebuild1.
Qed.
Lemma sim_trans s1 s2 s3 : sim s1 s2 -> sim s2 s3 -> sim s1 s3.
Proof. unfold sim. congruence. Qed.
Lemma sim_sym s1 s2 : sim s1 s2 -> sim s2 s1.
Proof. unfold sim. congruence. Qed.

Lemma wrote_app r k l1 l2 : wrote r k (l1 ++ l2) = wrote r k l1 ++ wrote r (k + length l1) l2.
Proof.
  revert k. induction l1 as [|b l1 IH]; intros k; simpl; [by rewrite Nat.add_0_r|].
  rewrite IH. do 3 f_equal. lia.
Qed.

(** A block written by a call *)
Lemma rebuild_recorded now t s :
  match tx_op t with Mint _ _ fee => fee <> 0 | _ => True end ->
  rebuild1 s (Wrote (mk_block now t s) false) = recorded now t s.
Proof.
  intros Ht. unfold rebuild1, recorded. cbn [b_tx b_timestamp mk_block]. cbv zeta.
  destruct (tx_op t); [|done|done|done]. by destruct (N.eqb_spec fee 0).
Qed.
Lemma rebuild_refunded from n m now s :
  rebuild1 s (Wrote (mk_block now (refund_tx from n m) s) false) = refunded from n m now s.
Proof. done. Qed.

Lemma refund_rebuilt from sp n m old now s s' fb ab r k :
  refund_outcome from sp n m old now s = Some (s', fb, ab) -> approval_block r = ab -> k = length (blocks s) ->
  exists new, blocks s' = blocks s ++ new /\ rebuild s (wrote r k new) = s'
    /\ (forall j, ab = Some j -> N.of_nat k < j).
Proof.
  intros Hr Ha ->. unfold refund_outcome in Hr. destruct (reimburse_decide from n m s) as [[]| |]; [|done|done].
  pose proof (refunded_blocks from n m now s) as Hb. cbv zeta in Hr.
  assert (forall s' , s' = refunded from n m now s -> ab = None ->
    exists new, blocks s' = blocks s ++ new /\ rebuild s (wrote r (length (blocks s)) new) = s'
    /\ (forall j, ab = Some j -> N.of_nat (length (blocks s)) < j)) as Hone.
  { intros s2 -> Hn. eexists. split; [exact Hb|]. split; [|by rewrite Hn]. cbn [wrote rebuild foldl].
    rewrite Ha, Hn. rewrite bool_decide_eq_false_2 by done. by rewrite rebuild_refunded. }
  destruct (third_party from sp) as [x|]; [|injection Hr as <- _ <-; by apply Hone].
  destruct ((FEE <? n) && _); [|injection Hr as <- _ <-; by apply Hone]. clear Hone.
  destruct (restore_decide _ _ _ _ _ _); [|done|done].
  assert (nblocks (refunded from n m now s) = N.of_nat (S (length (blocks s)))) as Hn.
  { unfold nblocks. rewrite Hb, app_length. simpl. lia. }
  set (s1 := refunded from n m now s) in *.
  assert (rebuild1 s (Wrote (mk_block now (refund_tx from n m) s) false) = s1) as Hs1 by apply rebuild_refunded.
  clearbody s1. injection Hr as <- _ <-. rewrite Hn in Ha. rewrite Hn.
  exists [mk_block now (refund_tx from n m) s; mk_block now (restore_tx from x (n - FEE) old now s1) s1].
  split; [|split; [|intros j [= <-]; lia]].
  - destruct (tx_effect_fields now (restore_tx from x (n - FEE) old now s1) s1) as (-> & _).
    by rewrite Hb, <- app_assoc.
  - cbn [wrote rebuild foldl]. rewrite Ha. rewrite bool_decide_eq_false_2 by (intros [= E]; lia).
    rewrite bool_decide_eq_true_2 by done. rewrite Hs1. done.
Qed.

(** The call-back of a waiting call *)
Lemma resume_rebuilt now p ans k s0 s s' r :
  inv now s -> is_u64 now -> pend_ok s p -> ans_u128 ans ->
  resume now p ans = Some k -> commit s0 (k s) = (s', r) ->
  (exists t, r = RespTrap t /\ s' = s0)
  \/ exists new, blocks s' = blocks s ++ new /\ rebuild s (wrote r (length (blocks s)) new ++ made r) = s'
       /\ (forall j, approval_block r = Some j -> nblocks s < j).
Proof.
  intros Hi Hu Hpo Hans Hk Hc.
  destruct p as [ep from to sp amount i old|ep from sp amount i old created arg];
    destruct ans as [r0|r0]; cbn [resume] in Hk; try done;
    match type of Hk with Some ?a = _ => assert (k = a) as -> by congruence end; clear Hk.
  - destruct Hpo as (_ & Hep & cr & Hf & Hsp & Ha & _ & _ & _ & Hold).
    destruct r0 as [[]|e].
    { right. exists []. rewrite app_nil_r.
      destruct ep; simpl in Hc; injection Hc as <- <-; (split; [done|]); (split; [done|]); by intros j. }
    destruct (withdraw_rest_eq ep from sp amount i old now e s0 s (inv_supply _ _ Hi)) as [x Hx].
    rewrite Hx in Hc. unfold wd_fail_rest in Hc. destruct (N.eqb_spec (amount - FEE) 0) as [E|E].
    { injection Hc as <- <-. right. exists []. rewrite app_nil_r.
      destruct ep; (split; [done|]); (split; [done|]); by intros j. }
    destruct (refund_outcome _ _ _ _ _ _ _) as [[[s2 fb] ab]|] eqn:Er; injection Hc as <- <-; [|by left; eauto].
    right. set (r := RespReply _).
    assert (approval_block r = ab) as Eab.
    { pose proof Er as Er'. eapply refund_facts in Er' as [H1 H2]; try done; [|unfold is_u128; lia].
      unfold r. destruct ep; [done|]. simpl. destruct ab as [j|]; [|done].
      destruct H1 as (_ & _ & _ & _ & y & Hy & _). rewrite (Hep eq_refl) in Hy. done. }
    assert (made r = []) as -> by (unfold r; by destruct ep).
    destruct (refund_rebuilt _ _ _ _ _ _ _ _ _ _ r _ Er Eab eq_refl) as (new & Hb & Hs & Hj).
    exists new. rewrite app_nil_r, Eab. done.
  - destruct Hpo as (Hep & Hf & Hsp & Ha & Hblk & _ & _ & Hold).
    destruct (create_rest_eq ep from sp amount i old created now r0 s0 s (inv_supply _ _ Hi)) as [x Hx].
    rewrite Hx in Hc. destruct (flat_create_result amount r0) as [c|[code n]] eqn:Ef.
    { injection Hc as <- <-. right. exists [].
      assert (blocks (note_canister (txh (create_tx from sp amount created)) i c s) = blocks s) as Hb.
      { unfold note_canister. by destruct (tx_hashes s !! _). }
      rewrite Hb, app_nil_r. split; [done|].
      destruct Hblk as (b & Hbb & Hbt).
      destruct ep; cbn [made wrote app rebuild foldl rebuild1]; rewrite Hbb, Hbt; (split; [done|]); by intros j. }
    assert (is_u128 n) as Hn.
    { eapply wf_refund_n; [| |exact Ef]; [unfold is_u128; lia|].
      destruct r0 as [[|[]]|]; done. }
    unfold cr_fail_rest in Hc. destruct (N.eqb_spec (n - FEE) 0) as [E|E].
    { injection Hc as <- <-. right. exists []. rewrite app_nil_r.
      destruct ep; (split; [done|]); (split; [done|]); by intros j. }
    destruct (refund_outcome _ _ _ _ _ _ _) as [[[s2 fb] ab]|] eqn:Er; injection Hc as <- <-; [|by left; eauto].
    right. set (r := RespReply _).
    assert (approval_block r = ab) as Eab.
    { pose proof Er as Er'. eapply refund_facts in Er' as [H1 H2]; try done; [|eapply is_u128_le; [|exact Hn]; lia].
      unfold r. destruct ep; [done|]. simpl. destruct ab as [j|]; [|done].
      destruct H1 as (_ & _ & _ & _ & y & Hy & _). rewrite (Hep eq_refl) in Hy. done. }
    assert (made r = []) as -> by (unfold r; by destruct ep).
    destruct (refund_rebuilt _ _ _ _ _ _ _ _ _ _ r _ Er Eab eq_refl) as (new & Hb & Hs & Hj).
    exists new. rewrite app_nil_r, Eab. done.
Qed.

Lemma done_names caller c i s r :
  done_reply caller c i s = Some r -> approval_block r = None /\ made r = [].
Proof. destruct c; simpl; try done; intros [= <-]; done. Qed.

(** One event *)
Lemma step_rebuilt w ev :
  reachable w -> ev_ok w ev ->
  sim (rebuild (w_led w) (shown_by w (step w ev).1 (step w ev).2)) (w_led (step w ev).1).
Proof.
  intros Hr Hev. destruct (step w ev) as [w' resp] eqn:Hst. cbn [fst snd]. unfold shown_by.
  assert (blocks (w_led w') = blocks (w_led w) -> made resp = [] -> sim (w_led w) (w_led w') ->
    sim (rebuild (w_led w) (wrote resp (length (blocks (w_led w)))
      (drop (length (blocks (w_led w))) (blocks (w_led w'))) ++ made resp)) (w_led w')) as Hnone.
  { intros -> -> Hs. rewrite drop_all. done. }
  assert (forall new, blocks (w_led w') = blocks (w_led w) ++ new ->
    drop (length (blocks (w_led w))) (blocks (w_led w')) = new) as Hdrop.
  { intros new ->. by rewrite drop_app. }
  destruct ev as [now caller c sync|now id ans refund|now args|n|n|now id refund].
  - destruct (call_inv _ _ _ _ _ Hr Hev) as (Hi & Hu & _).
    destruct (rejected resp) eqn:Erj.
    { destruct (step_rejected _ _ _ _ _ _ _ Hr Hev Hst Erj) as [El _]. rewrite El in *. apply Hnone; [done| |done].
      by destruct resp as [|[? ?|[]|[]|[]|[?|[]]|[?|[]]|[[]|[]]|[[]|[]]]| |]. }
    destruct (step_accepted _ _ _ _ _ _ _ Hr Hev Hst Erj) as (Hok & r & Ha & Hm).
    set (t := requested caller c) in *. set (s := w_led w) in *. set (s' := w_led w') in *.
    assert (match tx_op t with Mint _ _ fee => fee <> 0 | _ => True end) as Hf by (unfold t; destruct c; done).
    pose proof (recorded_blocks now t s) as Hb1. pose proof (rebuild_recorded now t s Hf) as Hs1.
    inversion Ha as [s1 resp1 E1 Hd E2|s1 p E1 Hp Hsf Hpo E2|s1 p e s2 resp1 E1 Hp Hsf Hpo _ Hpr Hsr E2]; subst.
    + destruct Hm as [<- _].
      destruct (done_names _ _ _ _ _ Hd) as [O1 O2].
      rewrite O2, app_nil_r. fold t in E1. rewrite E1 in Hdrop. rewrite E1, (Hdrop _ Hb1).
      cbn [wrote rebuild foldl]. rewrite O1, bool_decide_eq_false_2 by done. by rewrite Hs1.
    + destruct Hm as [-> _]. cbn [made]. rewrite app_nil_r. fold t in E1. rewrite E1 in Hdrop. rewrite E1, (Hdrop _ Hb1).
      cbn [wrote rebuild foldl approval_block]. rewrite bool_decide_eq_false_2 by done. by rewrite Hs1.
    + destruct Hm as [<- _]. fold t in Hsr, Hpr, Hpo.
      set (s1 := recorded now t s) in *. unfold sync_rest in Hsr.
      destruct (sync_answer_resume now p e) as [k Hk]. rewrite Hk in Hsr.
      destruct (commit s (k s1)) as [s2 r2] eqn:Ec. injection Hsr as -> ->.
      assert (inv now s1) as Hi1 by (by apply recorded_inv).
      destruct (resume_rebuilt _ _ _ _ _ _ _ _ Hi1 Hu Hpo (sync_answer_u128 p e) Hk Ec)
        as [(x & -> & _)|(new & Hb & Hrb & Hj)]; [done|].
      assert (blocks s' = blocks s ++ mk_block now t s :: new) as Hb'.
      { rewrite Hb, Hb1, <- app_assoc. done. }
      rewrite (Hdrop _ Hb'). cbn [wrote app rebuild foldl].
      assert (length (blocks s1) = S (length (blocks s))) as Hlen by (rewrite Hb1, app_length; simpl; lia).
      rewrite bool_decide_eq_false_2.
      2:{ intros Hx%Hj. unfold nblocks in Hx. lia. }
      rewrite Hs1, <- Hlen. fold (rebuild s1). rewrite Hrb. done.
  - cbn [step] in Hst. destruct (w_pend w !! id) as [p|] eqn:Ep.
    2: { injection Hst as <- <-. by apply Hnone. }
    destruct (resume now p ans) as [k|] eqn:Ek.
    2: { injection Hst as <- <-. by apply Hnone. }
    destruct (commit _ _) as [s' r] eqn:Ec. injection Hst as <- <-. cbn [w_led] in *.
    destruct (reply_inv _ _ _ _ _ Hr Hev) as (Hi & Hu & Hans).
    destruct (reachable_winv _ Hr) as (_ & _ & Hwp). destruct (Hwp _ _ Ep) as [_ Hpo].
    destruct (resume_rebuilt _ _ _ _ _ _ _ _ Hi Hu Hpo (wf_answer_u128 _ Hans) Ek Ec)
      as [(t & -> & ->)|(new & Hb & Hrb & _)]; [by apply Hnone|].
    by rewrite (Hdrop _ Hb), Hrb.
  - cbn [step] in Hst. rewrite (reload_eq _ _ (reachable_inv _ Hr)) in Hst.
    destruct (post_upgrade args (set_p0 [] (w_led w))) as [s' o] eqn:E.
    destruct (post_upgrade_cfg _ _ _ _ E) as [c ->]. destruct o as [[]|[]|t]; injection Hst as <- <-; by apply Hnone.
  - injection Hst as <- <-. by apply Hnone.
  - injection Hst as <- <-. by apply Hnone.
  - pose proof Hst as Hst'. apply step_crash in Hst' as [El _]. rewrite El in *. apply Hnone; [done| |done].
    cbn [step] in Hst. destruct (w_pend w !! id); by injection Hst as _ <-.
Qed.

Lemma record_rebuilt w evs :
  reachable w -> possible w evs -> sim (rebuild (w_led w) (record w evs)) (w_led (after w evs)).
Proof.
  revert w. induction evs as [|ev evs IH]; intros w Hr; [done|]. intros [Hev Hp].
  cbn [record after]. unfold rebuild. rewrite foldl_app. fold (rebuild (w_led w) (shown_by w (step w ev).1 (step w ev).2)).
  eapply sim_trans; [|apply IH; [by constructor|done]]. apply sim_rebuild. by apply step_rebuilt.
Qed.

(** Installation *)
Lemma prune_empty now s : exp_queue s = ∅ -> tx_timestamps s = ∅ -> prune_state now s = s.
Proof.
  intros Hq Ht. unfold prune_state.
  assert (forall n, prune_approvals now n s = s) as ->.
  { intros [|n]; [done|]. cbn [prune_approvals]. unfold first_expiry. by rewrite Hq, elements_empty. }
  assert (forall n, prune_transactions now n s = s) as ->.
  { intros [|n]; [done|]. cbn [prune_transactions]. unfold first_timestamp. by rewrite Ht, elements_empty. }
  unfold check_invariants. rewrite Hq, size_empty. destruct (_ <? _)%nat eqn:E; [|done].
  apply Nat.ltb_lt in E. lia.
Qed.
Lemma mint_initial_rebuilt now l s s' o :
  exp_queue s = ∅ -> tx_timestamps s = ∅ -> mint_initial now l s = (s', OOk o) ->
  exists new, blocks s' = blocks s ++ new /\ rebuild s (map (fun b => Wrote b false) new) = s'.
Proof.
  revert s. induction l as [|[a n] l IH]; intros s Hq Ht; simpl.
  - intros [= <- _]. exists []. by rewrite app_nil_r.
  - unfold bindM at 1. unfold or_trap. rewrite mint_eq.
    destruct (mint_decide a n None s) as [[]|e|x] eqn:Ed; [|done|done].
    set (t := Tx (Mint a n FEE) None None). intros Hm.
    assert (exp_queue (tx_effect now t s) = ∅ /\ tx_timestamps (tx_effect now t s) = ∅) as [Hq1 Ht1] by done.
    destruct (IH _ Hq1 Ht1 Hm) as (new & Hb & Hrb).
    exists (mk_block now t s :: new). split.
    + rewrite Hb. destruct (tx_effect_fields now t s) as (-> & _). by rewrite <- app_assoc.
    + cbn [map rebuild foldl]. rewrite rebuild_recorded by done. unfold recorded.
      by rewrite (prune_empty now _ Hq1 Ht1).
Qed.
Lemma install_rebuilt now cycles args w :
  init_world now cycles args = Some w ->
  sim (rebuild empty_state (map (fun b => Wrote b false) (blocks (w_led w)))) (w_led w).
Proof.
  unfold init_world. destruct (init now args empty_state) as [s [o|[]|t]] eqn:Ei; [|done].
  intros [= <-]. cbn [w_led]. unfold init in Ei. destruct args as [c|]; [|done].
  unfold bindM in Ei. destruct (mint_initial now _ empty_state) as [s1 [o1|[]|t1]] eqn:Em; [|done].
  destruct (mint_initial_rebuilt now _ empty_state s1 o1 eq_refl eq_refl Em) as (new & Hb & Hrb).
  injection Ei as <- _. cbn [blocks set_cfg]. rewrite Hb. cbn [blocks empty_state app]. rewrite Hrb. done.
Qed.

Lemma full_rebuilt now cycles args w evs :
  is_u64 now -> wf_ledger_args args -> init_world now cycles args = Some w -> possible w evs ->
  sim (rebuild empty_state (full_record w evs)) (w_led (after w evs)).
Proof.
  intros Hu Hwf Hi Hp. unfold full_record, rebuild. rewrite foldl_app.
  eapply sim_trans; [|apply record_rebuilt; [by econstructor|done]].
  apply sim_rebuild. by eapply install_rebuilt.
Qed.

(** ** C85 *)

(** Two ledgers, however installed and whatever has happened to each, that have shown
    the same record of blocks, approvals given back and created canisters: every
    query about tokens, allowances, blocks and table sizes reads the same, and so do
    all their tables. *)
Theorem C85_record_determines now1 cycles1 args1 v1 evs1 now2 cycles2 args2 v2 evs2 :
  is_u64 now1 -> wf_ledger_args args1 -> init_world now1 cycles1 args1 = Some v1 -> possible v1 evs1 ->
  is_u64 now2 -> wf_ledger_args args2 -> init_world now2 cycles2 args2 = Some v2 -> possible v2 evs2 ->
  full_record v1 evs1 = full_record v2 evs2 ->
  let s1 := w_led (after v1 evs1) in let s2 := w_led (after v2 evs2) in
  same_answers s1 s2
  /\ balances s2 = balances s1 /\ approvals s2 = approvals s1 /\ exp_queue s2 = exp_queue s1
  /\ tx_hashes s2 = tx_hashes s1 /\ tx_timestamps s2 = tx_timestamps s1.
Proof.
  intros U1 W1 I1 P1 U2 W2 I2 P2 Hrec. cbv zeta.
  pose proof (full_rebuilt _ _ _ _ _ U1 W1 I1 P1) as R1. pose proof (full_rebuilt _ _ _ _ _ U2 W2 I2 P2) as R2.
  rewrite <- Hrec in R2. pose proof (sim_trans _ _ _ (sim_sym _ _ R1) R2) as Hs.
  revert Hs. clear. generalize (w_led (after v1 evs1)), (w_led (after v2 evs2)). intros s1 s2 Hs.
  split; [by apply sim_answers|]. by destruct (sim_alt _ _ Hs) as (c & l & ->).
Qed.

(** If moreover they hold the same cycles and wait for the same answers, then every
    later sequence of events, at whatever moment and with whatever hashes, gets the
    same answers from both, to the letter; and they go on to show the same. *)
Theorem C85_same_record_same_future now1 cycles1 args1 v1 evs1 now2 cycles2 args2 v2 evs2 :
  is_u64 now1 -> wf_ledger_args args1 -> init_world now1 cycles1 args1 = Some v1 -> possible v1 evs1 ->
  is_u64 now2 -> wf_ledger_args args2 -> init_world now2 cycles2 args2 = Some v2 -> possible v2 evs2 ->
  full_record v1 evs1 = full_record v2 evs2 ->
  let w1 := after v1 evs1 in let w2 := after v2 evs2 in
  w_pend w1 = w_pend w2 -> w_next w1 = w_next w2 -> w_cycles w1 = w_cycles w2 ->
  forall evs, responses w1 evs = responses w2 evs /\ same_answers (w_led (after w1 evs)) (w_led (after w2 evs)).
Proof.
  intros U1 W1 I1 P1 U2 W2 I2 P2 Hrec. cbv zeta.
  pose proof (full_rebuilt _ _ _ _ _ U1 W1 I1 P1) as R1. pose proof (full_rebuilt _ _ _ _ _ U2 W2 I2 P2) as R2.
  rewrite <- Hrec in R2. pose proof (sim_trans _ _ _ (sim_sym _ _ R1) R2) as Hs. clear R1 R2.
  intros Hp Hn Hc evs.
  destruct (responses_sim 0 (after v1 evs1) (after v2 evs2) evs) as [H1 H2].
  - split; [exact Hs|]. split; [done|]. split; [lia|]. split; [done|]. intros id _. by rewrite Hp.
  - unfold no_old_answers. apply Forall_forall. intros ev _. destruct ev; try exact I; apply N.le_0_l.
  - split; [done|]. apply sim_answers, H2.
Qed.

(** A history in which no answer named an approval given back or a new canister is
    determined by its log alone. *)
Lemma wrote_plain r k l : approval_block r = None -> wrote r k l = map (fun b => Wrote b false) l.
Proof.
  intros Hr. revert k. induction l as [|b l IH]; intros k; simpl; [done|].
  by rewrite Hr, IH.
Qed.
Definition plain_answer (r : response) : Prop := approval_block r = None /\ made r = [].
Lemma plain_record w evs :
  reachable w -> possible w evs -> Forall plain_answer (responses w evs) ->
  map (fun b => Wrote b false) (blocks (w_led w)) ++ record w evs
  = map (fun b => Wrote b false) (blocks (w_led (after w evs))).
Proof.
  revert w. induction evs as [|ev evs IH]; intros w Hr; cbn [possible responses after record].
  { intros _ _. by rewrite app_nil_r. }
  intros [Hev Hp] [[Ha Hm] Hf]%Forall_cons.
  rewrite <- IH; [|by constructor|done|done]. rewrite app_assoc. f_equal.
  unfold shown_by. rewrite (wrote_plain _ _ _ Ha), Hm, app_nil_r, <- map_app.
  destruct (step_prefix w ev Hr Hev) as [new ->]. by rewrite drop_app.
Qed.
Theorem C85_plain_log_determines now1 cycles1 args1 v1 evs1 now2 cycles2 args2 v2 evs2 :
  is_u64 now1 -> wf_ledger_args args1 -> init_world now1 cycles1 args1 = Some v1 -> possible v1 evs1 ->
  is_u64 now2 -> wf_ledger_args args2 -> init_world now2 cycles2 args2 = Some v2 -> possible v2 evs2 ->
  Forall plain_answer (responses v1 evs1) -> Forall plain_answer (responses v2 evs2) ->
  let w1 := after v1 evs1 in let w2 := after v2 evs2 in
  blocks (w_led w1) = blocks (w_led w2) ->
  w_pend w1 = w_pend w2 -> w_next w1 = w_next w2 -> w_cycles w1 = w_cycles w2 ->
  forall evs, responses w1 evs = responses w2 evs /\ same_answers (w_led (after w1 evs)) (w_led (after w2 evs)).
Proof.
  intros U1 W1 I1 P1 U2 W2 I2 P2 F1 F2. cbv zeta. intros Hb.
  apply (C85_same_record_same_future now1 cycles1 args1 v1 evs1 now2 cycles2 args2 v2 evs2); try done.
  assert (reachable v1) as R1 by exact (reach_init _ _ _ _ U1 W1 I1).
  assert (reachable v2) as R2 by exact (reach_init _ _ _ _ U2 W2 I2).
  unfold full_record. rewrite (plain_record _ _ R1 P1 F1), (plain_record _ _ R2 P2 F2). by rewrite Hb.
Qed.

End WithEnv.

(** ** A case

    The first ledger is the one of the running example.  The second one was installed
    with other settings, has refused calls, and was upgraded at another moment and to
    other settings; it has shown the same.  What comes next includes a payment in the
    very nanosecond in which the allowance runs out, and duplicates. *)
Definition other_init : ledger_args := LInit (Config 9 (Some carol) (Some [(acct carol, 7 * T)])).
Definition other_events : list event :=
  firstn 3 demo_events
  ++ [ EvCall (T0 + 3 * sec) bob (CallTransfer None (acct carol) (50 * T) None None None) None;
       EvUpgrade (T0 + 3 * sec) (Some (LUpgrade (Some (UpgradeArgs (Some 9) (Some Unset)))));
       EvCall (T0 + 4 * sec) carol (CallTransferFrom None (acct alice) (acct bob) T None None None) None ]
  ++ firstn 5 (skipn 3 demo_events)
  ++ [ EvCall (T0 + 8 * sec) alice
         (CallTransfer None (acct bob) (2 * T) (Some FEE) (Some [Byte.x01]) (Some (T0 + 2 * sec))) None ]
  ++ firstn 2 (skipn 8 demo_events).
Definition demo_w0 : world := the_world (init_world T0 (100 * T) demo_init).
Definition other_w0 : world := the_world (init_world T0 (100 * T) other_init).
Definition next_events : list event :=
  [ EvCall (T0 + 12 * sec) alice (CallCreateCanister None (Some (T0 + 6 * sec)) T None) None;
    EvCall (T0 + 3600 * sec) alice (CallApprove None (acct bob) 1 (Some 0) None None None None) None;
    EvCall (T0 + 3600 * sec) bob (CallTransferFrom None (acct alice) (acct carol) 1 None None None) None ].
Fixpoint possibleb (w : world) (evs : list event) : bool :=
  match evs with [] => true | ev :: evs' => ev_okb w ev && possibleb (step w ev).1 evs' end.
Lemma possibleb_ok w evs : possibleb w evs = true -> possible w evs.
Proof.
  revert w. induction evs as [|ev evs IH]; intros w; cbn [possibleb possible]; [done|].
  intros [H1 H2]%andb_true_iff. split; [by apply ev_okb_ok|by apply IH].
Qed.
Example C85_case :
  init_world T0 (100 * T) demo_init = Some demo_w0 /\ possible demo_w0 demo_events
  /\ init_world T0 (100 * T) other_init = Some other_w0 /\ possible other_w0 other_events
  /\ full_record demo_w0 demo_events = full_record other_w0 other_events
  /\ length (full_record demo_w0 demo_events) = 11%nat
  /\ cfg (w_led (after demo_w0 demo_events)) <> cfg (w_led (after other_w0 other_events))
  /\ w_pend (after demo_w0 demo_events) = w_pend (after other_w0 other_events)
  /\ w_next (after demo_w0 demo_events) = w_next (after other_w0 other_events)
  /\ w_cycles (after demo_w0 demo_events) = w_cycles (after other_w0 other_events)
  /\ responses (after other_w0 other_events) next_events
     = [ RespReply (RepCreate (Err (CDuplicate 6 (Some canister))));
         RespReply (RepApprove (Err (AAllowanceChanged 3999600000000)));
         RespReply (RepTransferFrom (Err (TFGenericError 100003))) ].
Proof.
  split; [vm_compute; reflexivity|]. split; [apply possibleb_ok; vm_compute; reflexivity|].
  split; [vm_compute; reflexivity|]. split; [apply possibleb_ok; vm_compute; reflexivity|].
  split; [vm_compute; reflexivity|]. split; [vm_compute; reflexivity|]. split; [vm_compute; discriminate|].
  split.
  { transitivity (∅ : gmap N pending); [|symmetry]; apply map_to_list_empty_iff; vm_compute; reflexivity. }
  split; [vm_compute; reflexivity|]. split; [vm_compute; reflexivity|].
  vm_compute. reflexivity.
Qed.

Print Assumptions C85_record_determines.
Print Assumptions C85_same_record_same_future.
Print Assumptions C85_plain_log_determines.
