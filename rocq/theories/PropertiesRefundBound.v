(** * Refunds never exceed what was burned

    C65 *)
From Verif Require Import Base Types Codec CodecFacts CodecProofs State Ledger Canister Effects Spec ApiSpec
  Inv Steps World CallFacts CallCases StepFacts AllowFacts RefundFacts AsyncFacts EventFacts
  PropertiesLog PropertiesDedup PropertiesCalls PropertiesAuth PropertiesAsync PropertiesRefund PropertiesQuery Demo.

Section WithEnv.
Context `{Env}.

(** ** Specification *)

(** A block that refunds is a mint without a fee; deposits and initial balances
    name the fee. *)
Definition refunded_by (a : account) (b : block) : option N :=
  match tx_op (b_tx b) with
  | Mint to n 0 => if decide (to_key a = to_key to) then Some n else None
  | _ => None
  end.
(** A block that burns *)
Definition burned_by (a : account) (b : block) : option N :=
  match tx_op (b_tx b) with
  | Burn from _ n => if decide (to_key a = to_key from) then Some n else None
  | _ => None
  end.
Definition total (f : block -> option N) (l : list block) : N :=
  foldr (fun b acc => default 0 (f b) + acc) 0 l.
Definition how_many (f : block -> option N) (l : list block) : nat :=
  length (filter (fun b => is_Some (f b)) l).

(** An answer is modest if it reports no more cycles for refund than were sent. *)
Definition modest (w : world) (ev : event) : Prop :=
  match ev with
  | EvReply _ id ans _ =>
      forall p n code, w_pend w !! id = Some p ->
        answer_returned (pending_amount p) ans = Some (n, code) -> n <= pending_amount p
  | _ => True
  end.
(** Everything that happened since installation was modest. *)
Inductive modest_world : world -> Prop :=
| modest_init now cycles args w :
    is_u64 now -> wf_ledger_args args -> init_world now cycles args = Some w -> modest_world w
| modest_step w ev : modest_world w -> ev_ok w ev -> modest w ev -> modest_world (step w ev).1.

(** ** The invariant, for a weight [g] of amounts and a reserve [res] of burns that
    are never refunded *)

Section Weight.
Context (g : N -> N).
Definition weight (o : option N) : N := match o with Some n => g n | None => 0 end.
Definition wsum (f : block -> option N) (l : list block) : N := foldr (fun b acc => weight (f b) + acc) 0 l.
Definition waiting (a : account) (m : gmap N pending) : N :=
  map_fold (fun _ p acc => (if decide (to_key a = to_key (p_from p)) then g (pending_amount p) else 0) + acc) 0 m.

Lemma wsum_app f l l' : wsum f (l ++ l') = wsum f l + wsum f l'.
Proof. induction l as [|b l IH]; simpl; [done|]. unfold wsum in *. simpl. rewrite IH. lia. Qed.
Lemma wsum_one f b : wsum f [b] = weight (f b).
Proof. unfold wsum. simpl. lia. Qed.
Lemma wsum_two f b b' : wsum f [b; b'] = weight (f b) + weight (f b').
Proof. unfold wsum. simpl. lia. Qed.
Lemma waiting_insert a id p m :
  m !! id = None ->
  waiting a (<[id := p]> m) = (if decide (to_key a = to_key (p_from p)) then g (pending_amount p) else 0) + waiting a m.
Proof.
  intros Hm. unfold waiting. rewrite map_fold_insert_L; [done| |done]. intros. lia.
Qed.
Lemma waiting_delete a id p m :
  m !! id = Some p ->
  waiting a m = (if decide (to_key a = to_key (p_from p)) then g (pending_amount p) else 0) + waiting a (delete id m).
Proof.
  intros Hm. rewrite <- (insert_delete m id p Hm) at 1. rewrite waiting_insert; [done|]. apply lookup_delete.
Qed.

Context (res : account -> N).
Definition covered (w : world) : Prop :=
  forall a, wsum (refunded_by a) (blocks (w_led w)) + waiting a (w_pend w) + res a
            <= wsum (burned_by a) (blocks (w_led w)).

(** The answer of a waiting call is worth no more than the call. *)
Definition light (w : world) (ev : event) : Prop :=
  match ev with
  | EvReply _ id ans _ =>
      forall p n code, w_pend w !! id = Some p ->
        answer_returned (pending_amount p) ans = Some (n, code) -> FEE < n -> g (n - FEE) <= g (pending_amount p)
  | _ => True
  end.

Lemma refund_sums s s' now from sp n m old fb ab :
  refund_effect s s' now from sp n m old fb ab ->
  forall a, wsum (refunded_by a) (blocks s')
            = wsum (refunded_by a) (blocks s) + (if decide (to_key a = to_key from) then g n else 0)
            /\ wsum (burned_by a) (blocks s') = wsum (burned_by a) (blocks s).
Proof.
  intros [_ Hx] a. destruct ab as [j|].
  - destruct Hx as (_ & _ & _ & x & _ & (b1 & b2 & -> & _ & _ & H1 & H2) & _).
    rewrite !wsum_app, !wsum_two. unfold refunded_by at 2 3, burned_by at 2 3. rewrite H1, H2. simpl.
    case_decide; simpl; lia.
  - destruct Hx as (_ & _ & (b & -> & _ & H1) & _).
    rewrite !wsum_app, !wsum_one. unfold refunded_by at 2, burned_by at 2. rewrite H1. simpl.
    case_decide; simpl; lia.
Qed.

Lemma covered_step (Hg : forall n m, n <= m -> g n <= g m) w ev :
  reachable w -> ev_ok w ev -> light w ev -> covered w -> covered (step w ev).1.
Proof.
  intros Hr Hev Hli Hc a. specialize (Hc a). destruct (step w ev) as [w' resp] eqn:Hst. simpl.
  destruct ev as [now caller c sync|now id ans refund|now args|n|n|now id refund].
  - destruct (call_inv _ _ _ _ _ Hr Hev) as (Hi & Hu & _).
    destruct (rejected resp) eqn:Erj.
    { destruct (step_rejected _ _ _ _ _ _ _ Hr Hev Hst Erj) as (-> & -> & _). done. }
    destruct (step_accepted _ _ _ _ _ _ _ Hr Hev Hst Erj) as (Hok & r & Ha & Hm).
    pose proof (recorded_blocks now (requested caller c) (w_led w)) as Hb.
    remember (w_led w') as s' eqn:Es'.
    destruct Ha as [s1 r1 E Hd|s1 p E Hp Hsf Hpo|s1 p e s2 r1 E Hp Hsf Hpo Hrj Hpr Hsr].
    + destruct Hm as [_ Hw]. assert (w_pend w' = w_pend w) as -> by (by rewrite Hw).
      rewrite E, Hb, !wsum_app, !wsum_one.
      assert (refunded_by a (mk_block now (requested caller c) (w_led w)) = None) as ->.
      { unfold refunded_by. simpl. destruct c; try done. }
      simpl. lia.
    + destruct Hm as [_ Hw]. assert (w_pend w' = <[w_next w := p]> (w_pend w)) as -> by (by rewrite Hw).
      destruct (reachable_winv _ Hr) as (_ & _ & Hwp).
      rewrite waiting_insert.
      2: { destruct (w_pend w !! w_next w) as [q|] eqn:Eq; [|done]. destruct (Hwp _ _ Eq). lia. }
      pose proof (pending_outgoing _ _ _ _ _ Hp) as Ho.
      rewrite E, Hb, !wsum_app, !wsum_one.
      unfold refunded_by at 2, burned_by at 2. simpl.
      destruct c; cbn [outgoing] in Ho; try done; injection Ho as Hf _ Ham; cbn [requested tx_op];
        rewrite <- Hf, <- Ham; simpl; case_decide; simpl; lia.
    + destruct Hm as [_ Hw]. assert (w_pend w' = w_pend w) as -> by (by rewrite Hw).
      pose proof (pending_outgoing _ _ _ _ _ Hp) as Ho.
      assert (wsum (refunded_by a) (blocks s1) = wsum (refunded_by a) (blocks (w_led w))
              /\ wsum (burned_by a) (blocks s1) = wsum (burned_by a) (blocks (w_led w))
                 + (if decide (to_key a = to_key (p_from p)) then g (pending_amount p) else 0)) as [Hs1 Hs2].
      { rewrite E, Hb, !wsum_app, !wsum_one.
        unfold refunded_by at 2, burned_by at 2. simpl.
        destruct c; cbn [outgoing] in Ho; try done; injection Ho as Hf _ Ham; cbn [requested tx_op];
          rewrite <- Hf, <- Ham; simpl; case_decide; simpl; lia. }
      unfold sync_rest in Hsr. destruct (sync_answer_resume now p e) as [k Hk]. rewrite Hk in Hsr.
      destruct (commit (w_led w) (k s1)) as [s3 r2] eqn:Ec. injection Hsr as -> ->.
      assert (inv now s1) as Hi1 by (rewrite E; by apply recorded_inv).
      assert (forall n code, answer_returned (pending_amount p) (sync_answer p e) = Some (n, code) ->
                n = pending_amount p) as Hret by (intros n code; destruct p; simpl; congruence).
      destruct (resume_outcome _ _ _ _ _ _ _ _ Hi1 Hu Hpo (sync_answer_u128 p e) Hk Ec)
        as [(t & -> & _)|[_ [[(_ & _ & _ & Hbl) _]|(n & code & fb & ab & Hn & Hfee & Hn' & Hab & Hre)]]]; [done| |].
      * rewrite Hbl. lia.
      * apply Hret in Hn as ->. destruct (refund_sums _ _ _ _ _ _ _ _ _ _ Hre a) as [-> ->].
        specialize (Hg (pending_amount p - FEE) (pending_amount p) ltac:(lia)). case_decide; lia.
  - cbn [step] in Hst. destruct (w_pend w !! id) as [p|] eqn:Ep; [|by injection Hst as <- _].
    destruct (resume now p ans) as [k|] eqn:Ek; [|by injection Hst as <- _].
    destruct (commit _ _) as [s' r] eqn:Ec. injection Hst as <- <-. cbn [w_pend w_led].
    rewrite (waiting_delete _ _ _ _ Ep) in Hc.
    destruct (reply_inv _ _ _ _ _ Hr Hev) as (Hi & Hu & Hans).
    destruct (reachable_winv _ Hr) as (_ & _ & Hwp). destruct (Hwp _ _ Ep) as [_ Hpo].
    destruct (resume_outcome _ _ _ _ _ _ _ _ Hi Hu Hpo (wf_answer_u128 _ Hans) Ek Ec)
      as [(t & -> & ->)|[_ [[(_ & _ & _ & ->) _]|(n & code & fb & ab & Hn & Hfee & Hn' & Hab & Hre)]]]; [lia|lia|].
    destruct (refund_sums _ _ _ _ _ _ _ _ _ _ Hre a) as [-> ->].
    specialize (Hli p n code Ep Hn Hfee). case_decide; lia.
  - cbn [step] in Hst. rewrite (reload_eq _ _ (reachable_inv _ Hr)) in Hst.
    destruct (post_upgrade args (set_p0 [] (w_led w))) as [s' o] eqn:E.
    destruct (post_upgrade_cfg _ _ _ _ E) as [c ->]. destruct o as [[]|[]|t]; injection Hst as <- _; simpl; [|done..].
    unfold waiting at 1. rewrite map_fold_empty. lia.
  - by injection Hst as <- _.
  - by injection Hst as <- _.
  - cbn [step] in Hst. destruct (w_pend w !! id) as [p|] eqn:Ep; [|by injection Hst as <- _].
    injection Hst as <- _. cbn [w_pend w_led]. rewrite (waiting_delete _ _ _ _ Ep) in Hc. lia.
Qed.

Lemma covered_init now cycles args w :
  (forall a, res a = 0) -> init_world now cycles args = Some w -> covered w.
Proof.
  intros Hres Hin. destruct args as [c|u]; [|by unfold init_world in Hin].
  destruct (C41_initial_balances now cycles c) as [_ Hi].
  destruct (Hi _ Hin) as (_ & _ & Hb & _ & _ & Hp & _). intros a. rewrite Hp, Hres. unfold waiting. rewrite map_fold_empty.
  assert (wsum (refunded_by a) (blocks (w_led w)) = 0) as ->; [|lia].
  clear -Hb. induction Hb as [|b e bs es (Hop & _) _ IH]; [done|]. unfold wsum in *. simpl. rewrite IH.
  unfold refunded_by. by rewrite Hop.
Qed.
End Weight.

Lemma modest_reachable w : modest_world w -> reachable w.
Proof. induction 1; [by econstructor|by constructor]. Qed.

(** ** C65 *)

(** Every account gets back at most what was burned from it, if answers report at
    most what was sent. *)
Theorem C65_refunds_within_burns w a :
  modest_world w -> total (refunded_by a) (blocks (w_led w)) <= total (burned_by a) (blocks (w_led w)).
Proof.
  intros Hm. assert (covered (fun n => n) (fun _ => 0) w) as Hc.
  { induction Hm as [now cycles args w Hu Hwf Hin|w ev Hm IH Hev Hmo]; [by eapply covered_init|].
    apply covered_step; [done|by apply modest_reachable|done| |done].
    destruct ev; try done. intros p n code Hp Hn Hf. specialize (Hmo p n code Hp Hn). lia. }
  specialize (Hc a). cbv beta in Hc. unfold total.
  assert (forall f l, foldr (fun b acc => default 0 (f b) + acc) 0 l = wsum (fun n => n) f l) as ->.
  { intros f l. induction l as [|b l IH]; [done|]. unfold wsum in *. simpl. rewrite IH. by destruct (f b). }
  assert (forall f l, foldr (fun b acc => default 0 (f b) + acc) 0 l = wsum (fun n => n) f l) as ->.
  { intros f l. induction l as [|b l IH]; [done|]. unfold wsum in *. simpl. rewrite IH. by destruct (f b). }
  lia.
Qed.

Lemma wsum_how_many (f : block -> option N) l : wsum (fun _ => 1) f l = N.of_nat (how_many f l).
Proof.
  unfold how_many. induction l as [|b l IH]; [done|]. unfold wsum in *. rewrite filter_cons. simpl. rewrite IH.
  destruct (f b); [rewrite decide_True by eauto|rewrite decide_False by (intros [? ?]; done)]; simpl; lia.
Qed.
Lemma counted w : reachable w -> covered (fun _ => 1) (fun _ => 0) w.
Proof.
  intros Hr. induction Hr as [now cycles args w Hu Hwf Hin|w ev Hr IH Hev]; [by eapply covered_init|].
  apply covered_step; [intros; lia|done|done| |done]. by destruct ev.
Qed.

(** Whatever is answered, there is at most one refund per burn. *)
Theorem C65_one_refund_per_burn w a :
  reachable w -> (how_many (refunded_by a) (blocks (w_led w)) <= how_many (burned_by a) (blocks (w_led w)))%nat.
Proof.
  intros Hr. pose proof (counted w Hr a) as Hc. cbv beta in Hc. rewrite !wsum_how_many in Hc. lia.
Qed.

End WithEnv.

(** ** Cases *)

Definition modestb (w : world) (ev : event) : bool :=
  match ev with
  | EvReply _ id ans _ =>
      match w_pend w !! id with
      | Some p => match answer_returned (pending_amount p) ans with Some (n, _) => n <=? pending_amount p | None => true end
      | None => true
      end
  | _ => true
  end.
Lemma modestb_ok w ev : modestb w ev = true -> modest w ev.
Proof. destruct ev; try done. simpl. intros Hb p n code Hp Hn. rewrite Hp, Hn in Hb. lia. Qed.
Fixpoint run_modest `{Env} (w : world) (evs : list event) : option world :=
  match evs with
  | [] => Some w
  | ev :: evs' => if ev_okb w ev && modestb w ev then run_modest (step w ev).1 evs' else None
  end.
Lemma run_modest_ok `{Env} w evs w' : modest_world w -> run_modest w evs = Some w' -> modest_world w'.
Proof.
  revert w. induction evs as [|ev evs IH]; intros w Hr; simpl; [by intros [= <-]|].
  destruct (ev_okb w ev && modestb w ev) eqn:E; [|done].
  apply andb_true_iff in E as [E1 E2]. apply IH. constructor; [done|by apply ev_okb_ok|by apply modestb_ok].
Qed.
(** In the demo history three burns of alice's cycles and one refund are recorded. *)
Example C65_case : exists w, modest_world w
  /\ (total (refunded_by (acct alice)) (blocks (w_led w)), total (burned_by (acct alice)) (blocks (w_led w)))
     = (T - icrc1_fee, 3 * T)
  /\ (how_many (refunded_by (acct alice)) (blocks (w_led w)), how_many (burned_by (acct alice)) (blocks (w_led w)))
     = (1%nat, 3%nat).
Proof.
  set (w0 := the_world (init_world T0 (100 * T) demo_init)).
  assert ((match run_modest w0 demo_events with Some _ => true | None => false end) = true) as Hr
    by (vm_compute; reflexivity).
  destruct (run_modest w0 demo_events) as [w|] eqn:E; [|done].
  exists w. split.
  { eapply run_modest_ok; [|exact E]. apply (modest_init T0 (100 * T) demo_init).
    - vm_compute. reflexivity.
    - apply wf_ledger_argsb_ok. vm_compute. reflexivity.
    - vm_compute. reflexivity. }
  assert (w = the_world (run_modest w0 demo_events)) as -> by (by rewrite E).
  split; vm_compute; reflexivity.
Qed.

Print Assumptions C65_refunds_within_burns.
Print Assumptions C65_one_refund_per_burn.
