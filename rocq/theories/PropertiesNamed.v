(** * A canister named in a [Duplicate] answer was created for that transaction

    C62 *)
From Verif Require Import Base Types Codec CodecFacts CodecProofs State Ledger Canister Effects Spec ApiSpec
  Inv Steps World CallFacts CallCases StepFacts AllowFacts RefundFacts AsyncFacts EventFacts DedupFacts CreateFacts
  PropertiesLog PropertiesDedup PropertiesCalls PropertiesAuth PropertiesAsync PropertiesHistory Demo.

(** ** Specification *)

(** In the history [tr], a caller asked for the transaction [t]: the creation of a
    canister. The call to the cycles minting canister was then answered with [x],
    and the caller was told that block [i] records it and that the canister is [x]. *)
Definition created_for (tr : list (event * response)) (t : transaction) (i : N) (x : principal) : Prop :=
  exists tr1 tr2 now refund resp t0 caller c sync id arg amount,
    tr = tr1 ++ (EvReply now id (AnsCmc (Ok (Ok x))) refund, resp) :: tr2
    /\ (EvCall t0 caller c sync, RespPending id (OutCmcCreate arg amount)) ∈ tr1
    /\ requested caller c = t
    /\ create_ok c i x = Some resp.

Section WithEnv.
Context `{Env}.

(** [s'] names no canister that [s] does not name. *)
Definition no_new_names (s s' : state) : Prop :=
  forall h i x, tx_hashes s' !! h = Some (i, Some x) -> tx_hashes s !! h = Some (i, Some x).
Lemma no_new_refl s : no_new_names s s.
Proof. intros h i x. done. Qed.
Lemma no_new_trans s1 s2 s3 : no_new_names s1 s2 -> no_new_names s2 s3 -> no_new_names s1 s3.
Proof. intros H1 H2 h i x Hh. by apply H1, H2. Qed.
Lemma no_new_eq s s' : tx_hashes s' = tx_hashes s -> no_new_names s s'.
Proof. intros E h i x. by rewrite E. Qed.

Lemma no_new_tx now t s : no_new_names s (tx_effect now t s).
Proof.
  intros h i x. destruct (tx_effect_fields now t s) as (_ & Hth & _). rewrite Hth.
  destruct (tx_created_at t); [|done]. intros [[_ E]|[_ E]]%lookup_insert_Some; [done|exact E].
Qed.
Lemma no_new_drop j s : no_new_names s (prune_tx_hash j s).
Proof.
  intros h i x. unfold prune_tx_hash. destruct (blocks s !! _) as [b|]; [|done].
  destruct (tx_hash (b_tx b)); [|done].
  destruct (tx_hashes s !! _) as [[f o]|]; [destruct (f =? j)|];
    cbn [tx_hashes set_tx_hashes log_p0 set_p0]; by intros [_ ?]%lookup_delete_Some.
Qed.
Lemma no_new_prune_transactions now limit s : no_new_names s (prune_transactions now limit s).
Proof.
  revert s. induction limit as [|l IH]; intros s; [apply no_new_refl|]. cbn [prune_transactions].
  destruct (first_timestamp s) as [[ts j]|]; [|apply no_new_refl].
  destruct (negb _); [apply no_new_refl|].
  eapply no_new_trans; [|apply IH]. eapply no_new_trans; [|apply no_new_drop]. by apply no_new_eq.
Qed.
Lemma no_new_prune now s : is_u64 now -> inv now s -> no_new_names s (prune_state now s).
Proof.
  intros Hu Hi. unfold prune_state.
  destruct (prune_approvals_hashes now APPROVE_PRUNE_LIMIT s) as [_ H2].
  pose proof (prims_inv _ _ _ Hu Hi (prune_approvals_prims now APPROVE_PRUNE_LIMIT s Hu Hi)) as Hi1.
  pose proof (prims_inv _ _ _ Hu Hi1 (prune_transactions_prims now TRANSACTION_PRUNE_LIMIT _ Hu Hi1)) as Hi2.
  rewrite (check_invariants_id now) by done.
  eapply no_new_trans; [by apply no_new_eq|]. apply no_new_prune_transactions.
Qed.
Lemma no_new_recorded now t s : is_u64 now -> inv now s -> tx_ok now t s -> no_new_names s (recorded now t s).
Proof.
  intros Hu Hi Hok. unfold recorded. eapply no_new_trans; [apply no_new_tx|].
  apply no_new_prune; [done|]. eapply prim_inv; [done|exact Hi|]. by constructor.
Qed.
Lemma no_new_refund from sp n m old now s s' fb ab :
  inv now s -> is_u64 now -> wf_account from -> is_u128 n ->
  refund_outcome from sp n m old now s = Some (s', fb, ab) -> no_new_names s s'.
Proof.
  intros Hi Hu Hf Hn. unfold refund_outcome.
  destruct (reimburse_decide from n m s) as [[]| |] eqn:Ed; [|done|done].
  pose proof (reimburse_decide_ok from n m now s Ed Hf Hn) as Hok. fold (refund_tx from n m) in Hok.
  assert (no_new_names s (refunded from n m now s)) as Hr.
  { rewrite refunded_recorded. eapply no_new_trans; [by apply no_new_recorded|].
    apply no_new_prune; [done|]. by apply recorded_inv. }
  destruct (third_party from sp) as [y|] eqn:Ex; [|by intros [= <- _ _]].
  destruct ((FEE <? n) && approval_still_valid old now); [|by intros [= <- _ _]].
  destruct (restore_decide _ _ _ _ _ _) as [[]| |] eqn:Er; [|done|done].
  intros [= <- _ _]. eapply no_new_trans; [exact Hr|]. apply no_new_tx.
Qed.

(** Only an answer that names a canister makes the ledger name one. *)
Lemma resume_names now p ans k s s' resp h i x :
  inv now s -> is_u64 now -> pend_ok s p -> ans_u128 ans -> resume now p ans = Some k ->
  commit s (k s) = (s', resp) ->
  tx_hashes s' !! h = Some (i, Some x) ->
  tx_hashes s !! h = Some (i, Some x)
  \/ exists ep from sp amount old created arg,
       p = PCreate ep from sp amount i old created arg /\ ans = AnsCmc (Ok (Ok x))
       /\ h = txh (create_tx from sp amount created)
       /\ resp = RespReply (if ep then RepCreateFrom (Ok (i, x)) else RepCreate (Ok (i, x))).
Proof.
  intros Hi Hu Hp Ha Hk Hcm Hx. pose proof (inv_supply _ _ Hi) as Hs.
  destruct p as [ep from to sp amount j old|ep from sp amount j old created arg];
    destruct ans as [r|r]; cbn [resume] in Hk; try done;
    match type of Hk with Some ?a = _ => assert (k = a) as -> by congruence end; clear Hk.
  - left. destruct Hp as (_ & _ & cr & Hf & Hsp & Hamt & _ & _ & _ & Hold).
    destruct r as [[]|e].
    + assert (s' = s) as ->; [|done]. destruct ep; simpl in Hcm; by injection Hcm as <- _.
    + destruct (withdraw_rest_eq ep from sp amount j old now e s s Hs) as [y Hy].
      rewrite Hy in Hcm. unfold wd_fail_rest in Hcm.
      destruct (amount - FEE =? 0); [by injection Hcm as <- _|].
      destruct (refund_outcome _ _ _ _ _ _ _) as [[[s2 fb] ab]|] eqn:Er; injection Hcm as <- _; [|done].
      eapply (no_new_refund from sp (amount - FEE)); try done. unfold is_u128. lia.
  - destruct Hp as (_ & Hf & Hsp & Hamt & _ & _ & _ & Hold).
    destruct (create_rest_eq ep from sp amount j old created now r s s Hs) as [y Hy].
    rewrite Hy in Hcm. destruct (flat_create_result amount r) as [c|[code returned]] eqn:Efl.
    + injection Hcm as <- <-. unfold note_canister in Hx.
      destruct (tx_hashes s !! txh _) eqn:Eh; [|by left]. cbn [tx_hashes set_tx_hashes] in Hx.
      apply lookup_insert_Some in Hx as [[<- [= <- <-]]|[_ Hx]]; [right|by left].
      exists ep, from, sp, amount, old, created, arg. split; [done|]. split; [|done].
      destruct r as [[?|[]]|]; simpl in Efl; congruence.
    + left. unfold cr_fail_rest in Hcm.
      destruct (returned - FEE =? 0); [by injection Hcm as <- _|].
      destruct (refund_outcome _ _ _ _ _ _ _) as [[[s2 fb] ab]|] eqn:Er; injection Hcm as <- _; [|done].
      refine (no_new_refund _ _ _ _ _ _ _ _ _ _ Hi Hu Hf _ Er _ _ _ Hx).
      eapply is_u128_le; [|eapply wf_refund_n; [| |exact Efl]]; try done; [lia|]. unfold is_u128. lia.
Qed.

(** Every waiting call and every named canister has its place in the history. *)
Definition names_explained (tr : list (event * response)) (w : world) : Prop :=
  (forall id p, w_pend w !! id = Some p ->
     exists t0 caller c sync s0, (EvCall t0 caller c sync, RespPending id (outcall_of p)) ∈ tr
       /\ pending_of t0 caller c s0 = Some p)
  /\ (forall h i x, tx_hashes (w_led w) !! h = Some (i, Some x) ->
        exists t, h = txh t /\ created_for tr t i x
          /\ exists b, blocks (w_led w) !! N.to_nat i = Some b /\ b_tx b = t).

Lemma created_for_app tr er t i x : created_for tr t i x -> created_for (tr ++ er) t i x.
Proof.
  intros (tr1 & tr2 & now & refund & resp & t0 & caller & c & sync & id & arg & amount & -> & Hrest).
  exists tr1, (tr2 ++ er), now, refund, resp, t0, caller, c, sync, id, arg, amount.
  split; [by rewrite <- app_assoc|exact Hrest].
Qed.

Lemma names_step tr w ev w' resp :
  reachable w -> ev_ok w ev -> step w ev = (w', resp) ->
  names_explained tr w -> names_explained (tr ++ [(ev, resp)]) w'.
Proof.
  intros Hr Hev Hst [Hp Hn].
  pose proof (reachable_winv _ Hr) as Hwi. pose proof (led_step_prefix _ _ Hwi Hev) as Hpre.
  rewrite Hst in Hpre. cbn [fst] in Hpre.
  assert (forall id p, w_pend w !! id = Some p ->
     exists t0 caller c sync s0, (EvCall t0 caller c sync, RespPending id (outcall_of p)) ∈ tr ++ [(ev, resp)]
       /\ pending_of t0 caller c s0 = Some p) as Hp'.
  { intros id p Hq. destruct (Hp id p Hq) as (t & caller & c & sync & s0 & Hin & Ho).
    exists t, caller, c, sync, s0. split; [|done]. apply elem_of_app. by left. }
  assert (no_new_names (w_led w) (w_led w') ->
    forall h i x, tx_hashes (w_led w') !! h = Some (i, Some x) ->
      exists t, h = txh t /\ created_for (tr ++ [(ev, resp)]) t i x
        /\ exists b, blocks (w_led w') !! N.to_nat i = Some b /\ b_tx b = t) as Hn'.
  { intros Hno h i x Hx%Hno. destruct (Hn h i x Hx) as (t & -> & Hc & b & Hb & Hbt).
    exists t. split; [done|]. split; [by apply created_for_app|]. exists b. split; [|done].
    by eapply prefix_lookup. }
  destruct ev as [now caller c sync|now id ans refund|now args|n|n|now id refund].
  - destruct (call_inv _ _ _ _ _ Hr Hev) as (Hi & Hu & _).
    destruct (rejected resp) eqn:Erj.
    { destruct (step_rejected _ _ _ _ _ _ _ Hr Hev Hst Erj) as (Hl & Hpe & _).
      split; [by rewrite Hpe|]. apply Hn'. rewrite Hl. apply no_new_refl. }
    destruct (step_accepted _ _ _ _ _ _ _ Hr Hev Hst Erj) as (Hok & r & Ha & Hm).
    split.
    + destruct r as [r|p]; destruct Hm as [-> ->]; [exact Hp'|].
      intros id p'. cbn [w_pend]. intros [[<- <-]|[Hne Hq]]%lookup_insert_Some; [|by apply Hp'].
      inversion Ha; subst.
      exists now, caller, c, sync, (w_led w). split; [apply elem_of_app; right; by left|done].
    + apply Hn'. pose proof (no_new_recorded now (requested caller c) (w_led w) Hu Hi Hok) as Hnr.
      remember (w_led w') as s1' eqn:Es1. clear Hm Es1.
      destruct Ha as [s1 r1 E Hd|s1 q E Hq Hs Hpo|s1 q e s' r1 E Hq Hs Hpo Hrj Hpr Hsr]; subst s1; [done|done|].
      eapply no_new_trans; [exact Hnr|].
      pose proof (recorded_inv now (requested caller c) (w_led w) Hu Hi Hok) as Hi1.
      unfold sync_rest in Hsr. destruct (sync_answer_resume now q e) as [k Hk]. rewrite Hk in Hsr.
      set (s1 := recorded now (requested caller c) (w_led w)) in *.
      destruct (k s1) as [s2 o] eqn:Eks.
      assert (exists rep, commit s1 (k s1) = (s', rep)) as [rep Hcm].
      { rewrite Eks. destruct o as [rep|[]|t]; simpl in Hsr; injection Hsr as <- <-; [eauto|done]. }
      intros h i x Hx.
      destruct (resume_names _ _ _ _ _ _ _ _ _ _ Hi1 Hu Hpo (sync_answer_u128 q e) Hk Hcm Hx)
        as [?|(ep & from & sp & amount & old & created & arg & -> & E & _)]; [done|].
      cbn [sync_answer] in E. discriminate E.
  - destruct (reply_inv _ _ _ _ _ Hr Hev) as (Hi & Hu & Hans). cbn [step] in Hst.
    destruct (w_pend w !! id) as [p|] eqn:Ep.
    2: { injection Hst as <- <-. split; [exact Hp'|]. apply Hn', no_new_refl. }
    destruct (resume now p ans) as [k|] eqn:Ek.
    2: { injection Hst as <- <-. split; [exact Hp'|]. apply Hn', no_new_refl. }
    destruct (commit (w_led w) (k (w_led w))) as [s' r] eqn:Ecm. injection Hst as <- <-.
    cbn [w_led w_pend] in *. destruct Hwi as (_ & _ & Hwp). destruct (Hwp _ _ Ep) as [_ Hpo].
    split.
    { intros id' p'. cbn [w_pend]. intros [_ Hq]%lookup_delete_Some. by apply Hp'. }
    unfold names_explained in *; cbn [w_led].
    intros h i x Hx.
    destruct (resume_names _ _ _ _ _ _ _ _ _ _ Hi Hu Hpo (wf_answer_u128 _ Hans) Ek Ecm Hx)
      as [Hold|(ep & from & sp & amount & old & created & arg & -> & -> & -> & ->)].
    { destruct (Hn h i x Hold) as (t & -> & Hc & b & Hb & Hbt).
      exists t. split; [done|]. split; [by apply created_for_app|]. exists b. split; [|done].
      by eapply prefix_lookup. }
    destruct Hpo as (_ & _ & _ & _ & (b & Hb & Hbt) & _).
    exists (create_tx from sp amount created). split; [done|]. split.
    2: { exists b. split; [by eapply prefix_lookup|done]. }
    destruct (Hp _ _ Ep) as (t0 & caller & c & sync & s0 & Hin & Hpd).
    exists tr, [], now, refund, (RespReply (if ep then RepCreateFrom (Ok (i, x)) else RepCreate (Ok (i, x)))),
      t0, caller, c, sync, id, arg, amount.
    split; [done|]. split; [exact Hin|].
    destruct c; simpl in Hpd; try done; injection Hpd as <- <- <- <- <- <- <- <-; done.
  - cbn [step] in Hst. rewrite (reload_eq _ _ (reachable_inv _ Hr)) in Hst.
    destruct (post_upgrade args _) as [s' o] eqn:E.
    destruct (post_upgrade_cfg _ _ _ _ E) as [cf ->]. destruct o as [[]|[]|t]; injection Hst as <- <-.
    + split; [intros id p; cbn [w_pend]; by rewrite lookup_empty|]. apply Hn'. by apply no_new_eq.
    + split; [exact Hp'|]. apply Hn', no_new_refl.
  - injection Hst as <- <-. split; [exact Hp'|]. apply Hn', no_new_refl.
  - injection Hst as <- <-. split; [exact Hp'|]. apply Hn', no_new_refl.
  - apply step_crash in Hst as (Hl & _ & _ & Hpe & _). split.
    + intros id' p'. rewrite Hpe. intros [_ Hq]%lookup_delete_Some. by apply Hp'.
    + apply Hn'. rewrite Hl. apply no_new_refl.
Qed.

Lemma names_steps pre w tr w' :
  reachable w -> steps w tr w' -> names_explained pre w -> names_explained (pre ++ tr) w'.
Proof.
  intros Hr Hs. revert pre. induction Hs as [w|w ev tr w' Hev Hs IH]; intros pre Hw.
  { by rewrite app_nil_r. }
  destruct (step w ev) as [w1 resp] eqn:Est. cbn [fst snd] in *.
  assert (reachable w1) as Hr1 by (replace w1 with (step w ev).1 by (by rewrite Est); by constructor).
  specialize (IH Hr1 (pre ++ [(ev, resp)]) (names_step _ _ _ _ _ Hr Hev Est Hw)).
  by rewrite <- app_assoc in IH.
Qed.

Lemma init_named now args : is_u64 now -> wf_ledger_args args ->
  forall s u, init now args empty_state = (s, OOk u) ->
  forall h i x, tx_hashes s !! h <> Some (i, Some x).
Proof.
  intros Hu Hwf s u. unfold init. destruct args as [c|?]; [|done]. unfold bindM.
  destruct (mint_initial now _ empty_state) as [s1 [o1|[]|t]] eqn:Em; [|done]. simpl. intros [= <- _].
  assert (forall l s s' o, mint_initial now l s = (s', OOk o) -> no_new_names s s') as Hm.
  { clear. induction l as [|[a n] l IH]; intros s s' o; cbn [mint_initial].
    - intros [= <- _]. apply no_new_refl.
    - unfold bindM at 1. unfold or_trap. rewrite mint_eq.
      destruct (mint_decide a n None s) as [[]|e|x]; [|done|done].
      intros Hm. eapply no_new_trans; [apply no_new_tx|]. by eapply IH. }
  intros h i x Hx. cbn [tx_hashes set_cfg] in Hx. apply (Hm _ _ _ _ Em) in Hx.
  simpl in Hx. by rewrite lookup_empty in Hx.
Qed.

(** Only creations are answered with a canister. *)
Lemma known_unnamed now avail caller c sync s i x s' resp :
  supply_ok s -> checkable c -> tx_hashes s !! txh (requested caller c) = Some (i, x) ->
  exec_call now avail caller c sync s = (s', Done resp) -> is_create c = false ->
  duplicate_canister resp = None.
Proof.
  intros Hs Hch Ht He Hic.
  assert (forall o, match o with Some f => f < U128_MOD | None => True end ->
            match o with Some f => U128_MOD <=? f | None => false end = false) as Hsm.
  { intros [f|]; [|done]. intros. destruct (N.leb_spec U128_MOD f); [lia|done]. }
  destruct c as [cycles to m|sub to amount fee m created|sub from to amount fee m created
    |sub sp amount expected expires fee m created|sub to created amount|sub from to created amount
    |sub created amount args|from sub created amount args]; simpl in Hch; [done|..];
    unfold requested in Ht; revert He; try done.
  - rewrite exec_transfer by done. unfold xfer_decide, transfer_decide. destruct Hch as [Ha Hf].
    destruct (N.leb_spec U128_MOD amount); [lia|]. rewrite Hsm by done. rewrite Ht.
    by intros [= _ <-].
  - rewrite exec_transfer_from by done. unfold xfer_decide, transfer_decide. destruct Hch as [Ha Hf].
    destruct (N.leb_spec U128_MOD amount); [lia|]. rewrite Hsm by done. rewrite Ht.
    by intros [= _ <-].
  - rewrite exec_approve by done. unfold apr_decide, approve_decide. destruct Hch as [He Hf].
    rewrite (Hsm expected), (Hsm fee) by done. rewrite <- capped_min in Ht. unfold capped in Ht.
    rewrite Ht. by intros [= _ <-].
  - rewrite exec_withdraw by done. unfold after_withdraw, wd_decide, withdraw_decide, burn_decide.
    destruct Hch as (Ha & H0 & Hsa). rewrite Hsa.
    destruct (N.leb_spec U128_MOD amount); [lia|]. destruct (N.eqb_spec amount 0); [lia|].
    rewrite Ht. by intros [= _ <-].
  - rewrite exec_withdraw_from by done. unfold after_withdraw, wd_decide, withdraw_decide, burn_decide.
    destruct Hch as (Ha & H0 & Hsa). rewrite Hsa.
    destruct (N.leb_spec U128_MOD amount); [lia|]. destruct (N.eqb_spec amount 0); [lia|].
    rewrite Ht. by intros [= _ <-].
Qed.

(** ** C62 *)

(** A [Duplicate] answer that names a canister is about a creation in the history
    that was answered with this canister. It was for the same transaction, unless
    two different transactions have the same hash. *)
Theorem C62_named_canister_was_created now0 cycles args w0 tr w now caller c sync w' resp x :
  is_u64 now0 -> wf_ledger_args args -> init_world now0 cycles args = Some w0 -> steps w0 tr w ->
  ev_ok w (EvCall now caller c sync) ->
  step w (EvCall now caller c sync) = (w', resp) -> duplicate_canister resp = Some x ->
  exists i t, duplicate_of resp = Some i /\ created_for tr t i x
    /\ (exists b, blocks (w_led w) !! N.to_nat i = Some b /\ b_tx b = t)
    /\ (t = requested caller c \/ hash_clash t (requested caller c)).
Proof.
  intros Hu0 Hwf0 Hin Hs Hev Hst Hd.
  assert (reachable w0) as Hr0 by (by econstructor).
  pose proof (reachable_steps _ _ _ Hr0 Hs) as Hr.
  assert (names_explained [] w0) as H0.
  { unfold init_world in Hin. destruct (init now0 args empty_state) as [s [u|[]|t]] eqn:Ei; [|done].
    injection Hin as <-. split.
    - intros id p. cbn [w_pend]. by rewrite lookup_empty.
    - intros h i y Hy. exfalso. by eapply init_named. }
  pose proof (names_steps [] w0 tr w Hr0 Hs H0) as [_ Hn]. cbn [app] in Hn.
  pose proof (reachable_inv _ Hr) as Hi. destruct Hev as (_ & Hcl & Hwf).
  assert (exists i, duplicate_of resp = Some i) as [i Hdi].
  { clear -Hd. destruct resp as [|[? ?|[]|[]|[]|[?|[]]|[?|[]]|[[]|[]]|[[]|[]]]| |]; simpl in *; try done; eauto. }
  exists i. apply step_call in Hst as (s' & r & He & _ & Hm).
  destruct r as [resp'|p]; [|by destruct Hm as [-> _]]. destruct Hm as [<- _].
  pose proof He as He'.
  apply exec_class in He as [Hk Hch]; [|by apply inv_supply in Hi].
  unfold resp_class in Hk, Hch. rewrite Hdi in Hk, Hch.
  specialize (Hch ltac:(done)). destruct (checkable_wf caller c Hcl Hwf Hch) as [Hw1 Hw2].
  destruct Hk as [o Hk].
  destruct (exec_known now (w_cycles w) caller c sync _ _ _ (inv_supply _ _ Hi) Hch Hk) as (r' & He2 & _ & _ & Hcan).
  rewrite He' in He2. injection He2 as -> <-.
  assert (is_create c = true) as Hic.
  { destruct (is_create c) eqn:E; [done|].
    rewrite (known_unnamed _ _ _ _ _ _ _ _ _ _ (inv_supply _ _ Hi) Hch Hk He' E) in Hd. done. }
  rewrite (Hcan Hic) in Hd. subst o.
  destruct (Hn _ _ _ Hk) as (t & Ht & Hcf & b & Hb & Hbt).
  exists t. split; [done|]. split; [done|]. split; [by exists b|].
  destruct (inv_blk _ _ Hi _ _ Hb) as [((Hwj1 & Hwj2 & _) & _) _]. subst t.
  apply same_hash; done.
Qed.

(** Without an answer from the cycles minting canister that names [x], no answer
    ever names [x]. *)
Theorem C62_no_invented_canister now0 cycles args w0 tr w now caller c sync w' resp x :
  is_u64 now0 -> wf_ledger_args args -> init_world now0 cycles args = Some w0 -> steps w0 tr w ->
  ev_ok w (EvCall now caller c sync) ->
  step w (EvCall now caller c sync) = (w', resp) ->
  (forall t id refund r, (EvReply t id (AnsCmc (Ok (Ok x))) refund, r) ∉ tr) ->
  duplicate_canister resp <> Some x.
Proof.
  intros Hu0 Hwf0 Hin Hs Hev Hst Hno Hd.
  destruct (C62_named_canister_was_created _ _ _ _ _ _ _ _ _ _ _ _ _ Hu0 Hwf0 Hin Hs Hev Hst Hd)
    as (i & t & _ & (tr1 & tr2 & t1 & refund & r & t0 & cl & c0 & sy & id & arg & amount & -> & _) & _).
  apply (Hno t1 id refund r). apply elem_of_app. right. by left.
Qed.

End WithEnv.

(** ** A case that meets the hypotheses: a retry of the creation in the demo *)
Example C62_case :
  let w := demo_at 8 in
  let retry := EvCall (T0 + 3000 * sec) alice (CallCreateCanister None (Some (T0 + 6 * sec)) T None) None in
  exists w0 tr, is_u64 T0 /\ wf_ledger_args demo_init /\ init_world T0 (100 * T) demo_init = Some w0
    /\ steps w0 tr w /\ ev_ok w retry
    /\ duplicate_canister (step w retry).2 = Some canister
    /\ duplicate_of (step w retry).2 = Some 6.
Proof.
  cbv zeta.
  destruct (history_steps T0 (100 * T) demo_init (take 8 demo_events)) as (w0 & tr & H1 & H2 & H3 & H4 & _);
    [vm_compute; reflexivity|].
  exists w0, tr. split; [exact H1|]. split; [exact H2|]. split; [exact H3|]. split; [exact H4|].
  split; [apply ev_okb_ok; vm_compute; reflexivity|]. split; vm_compute; reflexivity.
Qed.

Print Assumptions C62_named_canister_was_created.
Print Assumptions C62_no_invented_canister.
