(** * Canister creations with the stand-in for the cycles minting canister

    C68 *)
From Verif Require Import Base Types Codec State Ledger Canister Cmc Effects Spec ApiSpec Inv Steps World
  CallFacts CallCases StepFacts RefundFacts AsyncFacts CreateFacts AnswerSpec EventFacts
  PropertiesAsync PropertiesRefund Demo.

(** ** Specification *)

(** What the caller of [create_canister] or [create_canister_from] is told: the
    block and the canister, or a failure *)
Definition told (r : response) : option (option (N * principal)) :=
  match r with
  | RespReply (RepCreate (Ok x)) => Some (Some x)
  | RespReply (RepCreateFrom (Ok x)) => Some (Some x)
  | RespReply (RepCreate (Err _)) => Some None
  | RespReply (RepCreateFrom (Err _)) => Some None
  | _ => None
  end.

Section WithEnv.
Context `{Env}.

(** The stand-in behaves like the canister it stands for as long as it is not told
    to report a refund larger than what is attached to the call it hits, and the
    management canister does not turn it down once it has accepted the cycles. *)
Definition honest (z : csys) (ev : csys_event) : Prop :=
  match ev with
  | ZDeliver n =>
      forall j amount, z_jobs z !! n = Some j -> j_stage j = OnTheWay ->
        100000000000 <= j_cycles j ->
        f_fail_next (z_cmc z) = Some (CmcRefunded amount) -> amount <= j_cycles j
  | ZManagement _ NotCreated => False
  | _ => True
  end.
Inductive honest_run (w : world) : csys -> Prop :=
| hrun_init : honest_run w (csys_init w)
| hrun_step z ev : honest_run w z -> csys_ok z ev -> honest z ev -> honest_run w (csys_step z ev).

(** ** The invariant *)
Definition canister_of (ans : answer) : option principal :=
  match ans with AnsCmc (Ok (Ok p)) => Some p | _ => None end.
Definition stage_inv (j : job) : Prop :=
  match j_stage j with
  | OnTheWay => j_canister j = None
  | Creating => j_canister j = None
  | Answered ans refund =>
      (exists r, ans = AnsCmc r) /\ wf_answer ans /\ refund <= j_cycles j /\ j_canister j = canister_of ans
  | Told r =>
      match told r with
      | Some (Some (i, p)) => i = j_block j /\ j_canister j = Some p
      | Some None => j_canister j = None
      | None => r = RespIgnored \/ (exists t, r = RespTrap t) /\ j_canister j = None
      end
  end.
Definition is_told (j : job) : Prop := match j_stage j with Told _ => True | _ => False end.

Record job_inv (w : world) (n : N) (j : job) : Prop := JobInv {
  ji_fresh : n < w_next w;
  ji_block : exists b, blocks (w_led w) !! N.to_nat (j_block j) = Some b
               /\ b_tx b = requested (j_caller j) (j_call j);
  ji_sent : outgoing_call (j_caller j) (j_call j) = Some (OutCmcCreate (j_arg j) (j_cycles j));
  ji_u128 : is_u128 (j_cycles j);
  ji_pend : forall p, w_pend w !! n = Some p ->
    outcall_of p = OutCmcCreate (j_arg j) (j_cycles j) /\ pending_block p = j_block j /\ ~ is_told j;
  ji_stage : stage_inv j
}.
Record cmc_inv (z : csys) : Prop := CmcInv {
  ci_reach : reachable (z_led z);
  ci_jobs : forall n j, z_jobs z !! n = Some j -> job_inv (z_led z) n j;
  ci_blocks : forall n n' j j', z_jobs z !! n = Some j -> z_jobs z !! n' = Some j' ->
    j_block j = j_block j' -> n = n';
  ci_canisters : forall n n' j j' p, z_jobs z !! n = Some j -> z_jobs z !! n' = Some j' ->
    j_canister j = Some p -> j_canister j' = Some p -> n = n';
  ci_fail : forall n, f_fail_next (z_cmc z) = Some (CmcRefunded n) -> is_u128 n
}.

(** What an event of the ledger does to the waiting calls *)
Lemma step_next w ev : w_next w <= w_next (step w ev).1.
Proof.
  destruct ev as [now caller c sync|now id ans refund|now args|n|n|now id refund]; cbn [step].
  - destruct (exec_call _ _ _ _ _ _) as [s' [r|p]]; simpl; lia.
  - destruct (w_pend w !! id); [|done]. destruct (resume _ _ _); [|done].
    destruct (commit _ _). done.
  - destruct (post_upgrade _ _) as [s' [u|[]|t]]; done.
  - done.
  - done.
  - by destruct (w_pend w !! id).
Qed.
Lemma step_waiting w ev n p :
  w_pend (step w ev).1 !! n = Some p -> w_pend w !! n = Some p \/ w_next w <= n.
Proof.
  destruct ev as [now caller c sync|now id ans refund|now args|m|m|now id refund]; cbn [step].
  - destruct (exec_call _ _ _ _ _ _) as [s' [r|q]]; simpl; [by left|].
    intros [[<- _]|[_ ?]]%lookup_insert_Some; [by right|by left].
  - destruct (w_pend w !! id); [|by left]. destruct (resume _ _ _); [|by left].
    destruct (commit _ _). simpl. intros [_ ?]%lookup_delete_Some. by left.
  - destruct (post_upgrade _ _) as [s' [u|[]|t]]; simpl; [by rewrite lookup_empty|by left].
  - by left.
  - by left.
  - destruct (w_pend w !! id); [|by left]. simpl. intros [_ ?]%lookup_delete_Some. by left.
Qed.
Lemma job_inv_step w ev n j :
  reachable w -> ev_ok w ev -> job_inv w n j -> job_inv (step w ev).1 n j.
Proof.
  intros Hr Hev [H1 (b & Hb & Ht) H3 H4 H5 H6]. constructor; try done.
  - pose proof (step_next w ev). lia.
  - exists b. split; [|done]. eapply prefix_lookup; [exact Hb|].
    apply led_step_prefix; [by apply reachable_winv|done].
  - intros p Hp. apply step_waiting in Hp as [Hp|?]; [by apply H5|lia].
Qed.

(** The ledger's part of an event *)
Lemma cmc_inv_ledger z w' :
  cmc_inv z -> (exists ev, ev_ok (z_led z) ev /\ w' = (step (z_led z) ev).1) ->
  cmc_inv (CSys w' (z_cmc z) (z_jobs z)).
Proof.
  intros [H1 H2 H3 H4 H5] (ev & Hev & ->). constructor; simpl; try done.
  - by constructor.
  - intros n j Hj. apply job_inv_step; auto.
Qed.
(** A job moves on *)
Lemma cmc_inv_job z n j j' :
  cmc_inv z -> z_jobs z !! n = Some j -> job_inv (z_led z) n j' -> j_block j' = j_block j ->
  (forall p, j_canister j' = Some p -> j_canister j = Some p
             \/ forall m i, z_jobs z !! m = Some i -> j_canister i <> Some p) ->
  cmc_inv (set_job n j' z).
Proof.
  intros [H1 H2 H3 H4 H5] Hj Hj' Hb Hc. constructor; simpl; try done.
  - intros m i [[<- <-]|[_ ?]]%lookup_insert_Some; auto.
  - intros m m' i i' [[<- <-]|[_ Hi]]%lookup_insert_Some [[<- <-]|[_ Hi']]%lookup_insert_Some E; try done.
    + eapply H3; [exact Hj|exact Hi'|congruence].
    + eapply H3; [exact Hi|exact Hj|congruence].
    + by eapply H3.
  - intros m m' i i' p [[<- <-]|[_ Hi]]%lookup_insert_Some [[<- <-]|[_ Hi']]%lookup_insert_Some E E'; try done.
    + destruct (Hc p E) as [E1|E1]; [by eapply H4|]. by destruct (E1 _ _ Hi').
    + destruct (Hc p E') as [E1|E1]; [by eapply H4|]. by destruct (E1 _ _ Hi).
    + by eapply H4.
Qed.
Lemma cmc_inv_stub z s' :
  cmc_inv z -> (forall n, f_fail_next s' = Some (CmcRefunded n) -> is_u128 n) ->
  cmc_inv (CSys (z_led z) s' (z_jobs z)).
Proof. intros [H1 H2 H3 H4 H5] H6. by constructor. Qed.

(** The answer to a waiting creation *)
Lemma creation_answered w now n res refund p w' r :
  reachable w -> ev_ok w (EvReply now n (AnsCmc res) refund) ->
  w_pend w !! n = Some p -> (exists arg cycles, outcall_of p = OutCmcCreate arg cycles) ->
  step w (EvReply now n (AnsCmc res) refund) = (w', r) ->
  w_pend w' = delete n (w_pend w)
  /\ match told r with
     | Some (Some (i, x)) => i = pending_block p /\ res = Ok (Ok x)
     | Some None => canister_of (AnsCmc res) = None
     | None => (exists t, r = RespTrap t) /\ canister_of (AnsCmc res) = None
     end.
Proof.
  intros Hr Hev Hp (arg & cycles & Ho) Hst. destruct (reply_inv _ _ _ _ _ Hr Hev) as (Hi & _ & _).
  destruct p as [|ep from sp amount i old created arg']; [done|].
  destruct (create_rest_eq ep from sp amount i old created now res (w_led w) (w_led w) (inv_supply _ _ Hi)) as [x Hx].
  destruct (flat_create_result amount res) as [c|[code returned]] eqn:Ef.
  - rewrite (step_reply w now n (AnsCmc res) refund _ _ _ _ Hp eq_refl Hx) in Hst. injection Hst as <- <-. split; [done|].
    assert (res = Ok (Ok c)) as ->.
    { destruct res as [[y|[y|]]|y]; simpl in Ef; try done. by injection Ef as ->. }
    by destruct ep.
  - assert (canister_of (AnsCmc res) = None) as Hc.
    { destruct res as [[y|[y|]]|y]; done. }
    destruct (cr_fail_rest from sp returned i old now code (w_led w)) as [[s' err]|] eqn:Er;
      rewrite (step_reply w now n (AnsCmc res) refund _ _ _ _ Hp eq_refl Hx) in Hst; injection Hst as <- <-; (split; [done|]).
    + unfold cr_failed_reply. destruct ep; [done|]. destruct err; done.
    + simpl. eauto.
Qed.

Lemma refund_le z n j ans refund now :
  cmc_inv z -> z_jobs z !! n = Some j -> j_stage j = Answered ans refund -> time_ok (z_led z) now ->
  ev_ok (z_led z) (EvReply now n ans refund).
Proof.
  intros [H1 H2 H3 H4 H5] Hj Hs Ht. destruct (H2 _ _ Hj) as [_ _ _ _ Hp Hst].
  unfold stage_inv in Hst. rewrite Hs in Hst. destruct Hst as ((r & ->) & Hw & Hle & _).
  split; [done|]. split; [done|]. destruct (w_pend (z_led z) !! n) as [p|] eqn:E; [|done].
  destruct (Hp p eq_refl) as (Ho & _). by destruct p; simplify_eq/=.
Qed.

Lemma first_answer s arg cycles s' r accepted :
  is_u128 cycles -> (forall n, f_fail_next s = Some (CmcRefunded n) -> is_u128 n) ->
  cmc_create s arg cycles = (s', FirstAnswer r, accepted) ->
  wf_answer (AnsCmc (Ok r)) /\ canister_of (AnsCmc (Ok r)) = None.
Proof.
  intros Hu Hf. unfold cmc_create. destruct (cycles <? MIN_CREATE_CYCLES); [by intros [= <- <- <-]|].
  destruct (f_fail_next s) as [[n|]|]; intros E; [..|done].
  - assert (r = Err (CmcRefunded n)) as -> by congruence. split; [|done]. by apply Hf.
  - assert (r = Err CmcRefundFailed) as -> by congruence. done.
Qed.
Lemma first_fail s arg cycles s' r accepted :
  cmc_create s arg cycles = (s', r, accepted) ->
  f_fail_next s' = None \/ s' = s.
Proof.
  unfold cmc_create. destruct (cycles <? MIN_CREATE_CYCLES); [intros [= <- _ _]; by right|].
  destruct (f_fail_next s); intros E; assert (s' = Cmc (Some arg) None) as -> by congruence; by left.
Qed.

Lemma job_inv_moved w n j st :
  job_inv w n j -> (forall r, st <> Told r) -> stage_inv (set_stage st j) -> job_inv w n (set_stage st j).
Proof.
  intros [H1 H2 H3 H4 H5 H6] Hst Hs. constructor; simpl; try done.
  intros p Hp. destruct (H5 p Hp) as (? & ? & _). split; [done|]. split; [done|].
  unfold is_told. simpl. destruct st as [| | |x]; [tauto..|]. by destruct (Hst x).
Qed.

Lemma cmc_inv_step z ev : cmc_inv z -> csys_ok z ev -> cmc_inv (csys_step z ev).
Proof.
  intros HI Hok. destruct ev as [now caller c sync|ev|e|n|n code|n o|now n]; cbn [csys_step csys_ok] in *.
  - destruct (step (z_led z) (EvCall now caller c sync)) as [w' r] eqn:Est.
    assert (cmc_inv (CSys w' (z_cmc z) (z_jobs z))) as HI'.
    { apply cmc_inv_ledger; [done|]. exists (EvCall now caller c sync). by rewrite Est. }
    destruct r as [| |n [|arg cycles]|]; try done.
    pose proof (ci_reach _ HI) as Hr.
    destruct (waiting_facts _ _ _ _ _ _ _ _ Hr Hok Est) as (Htx & p & Hp & Hl & Hn & Ho & Hpe & Hcy & Hpn & Hpo).
    destruct HI as [H1 H2 H3 H4 H5]. destruct HI' as [K1 K2 K3 K4 K5]. simpl in *.
    pose proof (pending_of_block _ _ _ _ _ Hp) as Hpb.
    assert (forall m j, z_jobs z !! m = Some j -> j_block j < nblocks (w_led (z_led z)) /\ m < n) as Hold.
    { intros m j Hj. destruct (H2 _ _ Hj) as [Hm (b & Hb & _) _ _ _ _]. apply lookup_lt_Some in Hb.
      unfold nblocks. lia. }
    constructor; simpl; try done.
    + intros m j [[<- <-]|[_ Hj]]%lookup_insert_Some; [|by apply K2]. constructor; simpl.
      * pose proof (step_next (z_led z) (EvCall now caller c sync)) as Hne.
        destruct (reachable_winv _ K1) as (_ & _ & Hwp). by destruct (Hwp _ _ Hpn).
      * exists (mk_block now (requested caller c) (w_led (z_led z))). rewrite Hl, recorded_blocks. split; [|done].
        unfold nblocks. rewrite Nat2N.id. by apply list_lookup_middle.
      * rewrite Ho. destruct c; simpl in Hp; try done; injection Hp as <-; simpl in *; done.
      * destruct p as [|ep from sp amount i old created arg']; [done|]. injection Ho as -> ->.
        destruct Hpo as (_ & _ & _ & Hlt & _). unfold is_u128. revert Hlt. unfold U128_MOD. lia.
      * intros q Hq. assert (q = p) as -> by congruence. split; [done|]. split; [done|]. unfold is_told. simpl. tauto.
      * done.
    + intros m m' j j' [[<- <-]|[_ Hj]]%lookup_insert_Some [[<- <-]|[_ Hj']]%lookup_insert_Some E; try done.
      * simpl in E. destruct (Hold _ _ Hj'). lia.
      * simpl in E. destruct (Hold _ _ Hj). lia.
      * by eapply H3.
    + intros m m' j j' x [[<- <-]|[_ Hj]]%lookup_insert_Some [[<- <-]|[_ Hj']]%lookup_insert_Some E E'; try done.
      by eapply H4.
  - destruct Hok as [Hev _]. apply cmc_inv_ledger; [done|]. by exists ev.
  - apply cmc_inv_stub; [done|]. simpl. intros m [= ->]. done.
  - destruct (z_jobs z !! n) as [j|] eqn:Hj; [|done]. destruct (j_stage j) eqn:Hs; try done.
    destruct (cmc_create (z_cmc z) (j_arg j) (j_cycles j)) as [[s' first] accepted] eqn:Ec.
    pose proof (ci_jobs _ HI _ _ Hj) as Hji.
    assert (j_canister j = None) as Hcn.
    { destruct Hji as [_ _ _ _ _ Hst]. unfold stage_inv in Hst. by rewrite Hs in Hst. }
    set (st := match first with FirstAnswer r => _ | FirstCreating => _ end).
    assert (cmc_inv (set_job n (set_stage st j) z)) as HI'.
    { eapply cmc_inv_job; [done|exact Hj| |done|by left]. apply job_inv_moved; [done|by destruct first|].
      unfold stage_inv, st. simpl. destruct first as [r|]; [|done].
      destruct (first_answer _ _ _ _ _ _ (ji_u128 _ _ _ Hji) (ci_fail _ HI) Ec) as [Hw Hc].
      split; [eauto|]. split; [done|]. split; [lia|]. by rewrite Hc. }
    apply (cmc_inv_stub _ s') in HI'; [done|].
    intros m Hm. destruct (first_fail _ _ _ _ _ _ Ec) as [E| ->]; [congruence|]. by apply (ci_fail _ HI).
  - destruct (z_jobs z !! n) as [j|] eqn:Hj; [|done]. destruct (j_stage j) eqn:Hs; try done.
    pose proof (ci_jobs _ HI _ _ Hj) as Hji.
    eapply cmc_inv_job; [done|exact Hj| |done|by left]. apply job_inv_moved; [done|done|].
    destruct Hji as [_ _ _ _ _ Hst]. unfold stage_inv in *. rewrite Hs in Hst. simpl.
    split; [eauto|]. done.
  - destruct (z_jobs z !! n) as [j|] eqn:Hj; [|done]. destruct (j_stage j) eqn:Hs; try done.
    pose proof (ci_jobs _ HI _ _ Hj) as Hji.
    assert (j_canister j = None) as Hcn.
    { destruct Hji as [_ _ _ _ _ Hst]. unfold stage_inv in Hst. by rewrite Hs in Hst. }
    destruct o as [p| |]; [|done|].
    + destruct Hok as [Hw Hnew]. eapply cmc_inv_job; [done|exact Hj| |done|].
      * destruct Hji as [H1 H2 H3 H4 H5 H6]. constructor; simpl; try done.
        -- intros q Hq. destruct (H5 q Hq) as (? & ? & _). split; [done|]. split; [done|]. unfold is_told. simpl. tauto.
        -- unfold stage_inv. simpl. split; [eauto|]. split; [done|]. split; [lia|done].
      * simpl. intros q [= <-]. by right.
    + eapply cmc_inv_job; [done|exact Hj| |done|by left]. apply job_inv_moved; [done|done|].
      unfold stage_inv. simpl. split; [eauto|]. split; [done|]. split; [lia|done].
  - destruct (z_jobs z !! n) as [j|] eqn:Hj; [|done]. destruct (j_stage j) as [| |ans refund|] eqn:Hs; try done.
    pose proof (refund_le _ _ _ _ _ _ HI Hj Hs Hok) as Hev.
    destruct (step (z_led z) (EvReply now n ans refund)) as [w' r] eqn:Est.
    assert (cmc_inv (CSys w' (z_cmc z) (z_jobs z))) as HI'.
    { apply cmc_inv_ledger; [done|]. exists (EvReply now n ans refund). by rewrite Est. }
    apply (cmc_inv_job (CSys w' (z_cmc z) (z_jobs z)) n j (set_stage (Told r) j) HI' Hj); [|done|by left].
    pose proof (ci_jobs _ HI _ _ Hj) as Hji. pose proof (ci_jobs _ HI' _ _ Hj) as [K1 K2 K3 K4 K5 _].
    cbn [z_led] in K1, K2, K5.
    destruct Hji as [_ _ _ _ H5 Hst]. unfold stage_inv in Hst. rewrite Hs in Hst.
    destruct Hst as ((res & ->) & _ & _ & Hc).
    destruct (w_pend (z_led z) !! n) as [p|] eqn:Ep.
    + destruct (H5 p eq_refl) as (Ho & Hb & _).
      destruct (creation_answered _ _ _ _ _ _ _ _ (ci_reach _ HI) Hev Ep (ex_intro _ _ (ex_intro _ _ Ho)) Est) as [Hd Ht].
      constructor; simpl; try done.
      * intros q Hq. rewrite Hd, lookup_delete in Hq. done.
      * unfold stage_inv. simpl. rewrite Hc. destruct (told r) as [[[i x]|]|]; [|done|by right].
        destruct Ht as [-> ->]. by rewrite Hb.
    + cbn [step] in Est. rewrite Ep in Est. injection Est as <- <-. constructor; simpl; try done.
      * intros q Hq. congruence.
      * unfold stage_inv. simpl. by left.
Qed.
Lemma cmc_inv_run w z : reachable w -> csys_run w z -> cmc_inv z.
Proof.
  intros Hr Hz. induction Hz as [|z ev Hz IH Hok]; [|by apply cmc_inv_step].
  constructor; simpl; try done.
Qed.

(** ** C68: every creation belongs to one burn, and callers are told the truth

    Each creation has a block of its own, which burned what the call asked for, and
    the stand-in got exactly that and the settings asked for.  A caller told of
    success is told that block and the canister made for this call; for a caller
    told of a failure no canister was made.  No canister is made for two calls. *)
Theorem C68_creations_are_exact w z :
  reachable w -> csys_run w z ->
  (forall n j, z_jobs z !! n = Some j ->
     (exists b, blocks (w_led (z_led z)) !! N.to_nat (j_block j) = Some b
        /\ b_tx b = requested (j_caller j) (j_call j))
     /\ outgoing_call (j_caller j) (j_call j) = Some (OutCmcCreate (j_arg j) (j_cycles j))
     /\ forall r, j_stage j = Told r ->
          (forall i x, told r = Some (Some (i, x)) -> i = j_block j /\ j_canister j = Some x)
          /\ (told r = Some None -> j_canister j = None)
          /\ (told r = None -> r = RespIgnored \/ (exists t, r = RespTrap t) /\ j_canister j = None))
  /\ (forall n n' j j', z_jobs z !! n = Some j -> z_jobs z !! n' = Some j' -> n <> n' ->
        j_block j <> j_block j' /\ (is_Some (j_canister j) -> j_canister j <> j_canister j')).
Proof.
  intros Hr Hz. destruct (cmc_inv_run _ _ Hr Hz) as [H1 H2 H3 H4 H5]. split.
  - intros n j Hj. destruct (H2 _ _ Hj) as [_ Hb Ho _ _ Hs]. split; [done|]. split; [done|].
    intros r Er. unfold stage_inv in Hs. rewrite Er in Hs. destruct (told r) as [[[i x]|]|].
    + split; [intros i' x' [= <- <-]; done|done].
    + done.
    + done.
  - intros n n' j j' Hj Hj' Hne. split.
    + intros E. apply Hne. by eapply H3.
    + intros [x E] E'. apply Hne. eapply H4; [exact Hj|exact Hj'|exact E|congruence].
Qed.

(** What a caller was told stays true: nothing happens to the creation afterwards. *)
Theorem C68_told_is_final w z ev n j r :
  reachable w -> csys_run w z -> csys_ok z ev -> z_jobs z !! n = Some j -> j_stage j = Told r ->
  z_jobs (csys_step z ev) !! n = Some j.
Proof.
  intros Hr Hz Hok Hj Hs. pose proof (cmc_inv_run _ _ Hr Hz) as HI.
  destruct ev as [now caller c sync|ev|e|m|m code|m o|now m]; cbn [csys_step]; try done.
  - destruct (step (z_led z) (EvCall now caller c sync)) as [w' x] eqn:Est.
    destruct x as [| |m [|arg cycles]|]; try done. simpl. rewrite lookup_insert_ne; [done|].
    destruct (waiting_facts _ _ _ _ _ _ _ _ (ci_reach _ HI) Hok Est) as (_ & p & _ & _ & -> & _).
    pose proof (ji_fresh _ _ _ (ci_jobs _ HI _ _ Hj)). lia.
  - destruct (z_jobs z !! m) as [i|] eqn:Hm; [|done]. destruct (j_stage i) eqn:Hi; try done.
    destruct (cmc_create _ _ _) as [[s' f] a]. simpl. rewrite lookup_insert_ne; [done|]. congruence.
  - destruct (z_jobs z !! m) as [i|] eqn:Hm; [|done]. destruct (j_stage i) eqn:Hi; try done.
    simpl. rewrite lookup_insert_ne; [done|]. congruence.
  - destruct (z_jobs z !! m) as [i|] eqn:Hm; [|done]. destruct (j_stage i) eqn:Hi; try done.
    destruct o; try done; simpl; (rewrite lookup_insert_ne; [done|]; congruence).
  - destruct (z_jobs z !! m) as [i|] eqn:Hm; [|done]. destruct (j_stage i) eqn:Hi; try done.
    destruct (step _ _) as [w' x]. simpl. rewrite lookup_insert_ne; [done|]. congruence.
Qed.

(** ** C68: with an honest stand-in every token is backed *)
Definition answer_honest (j : job) : Prop :=
  match j_stage j with
  | Answered ans refund => forall n code, answer_returned (j_cycles j) ans = Some (n, code) -> n <= refund
  | _ => True
  end.

Lemma wrap_sub_min M c n : c < M -> n <= c -> N.min c ((c + M - n) mod M) = c - n.
Proof.
  intros Hc Hn. replace (c + M - n) with ((c - n) + 1 * M) by lia.
  rewrite N.mod_add by lia. rewrite N.mod_small by lia. lia.
Qed.

Lemma honest_answers w z :
  reachable w -> honest_run w z ->
  csys_run w z /\ truthful_run w (z_led z) /\ forall n j, z_jobs z !! n = Some j -> answer_honest j.
Proof.
  intros Hr Hz. induction Hz as [|z ev Hz IH Hok Hh].
  { split; [constructor|]. split; [constructor|]. intros n j Hj. simpl in Hj. by apply lookup_empty_Some in Hj. }
  destruct IH as (Hz' & Ht & Ha). split; [by constructor|].
  pose proof (cmc_inv_run _ _ Hr Hz') as HI.
  assert (forall m i st, z_jobs z !! m = Some i -> answer_honest (set_stage st i) ->
    forall n j, <[m := set_stage st i]> (z_jobs z) !! n = Some j -> answer_honest j) as Hset.
  { intros m i st Hm Hi n j [[<- <-]|[_ Hj]]%lookup_insert_Some; [done|by eapply Ha]. }
  destruct ev as [now caller c sync|ev|e|m|m code|m o|now m]; cbn [csys_step csys_ok honest] in *.
  - destruct (step (z_led z) (EvCall now caller c sync)) as [w' x] eqn:Est.
    assert (truthful_run w w') as Ht'.
    { replace w' with (step (z_led z) (EvCall now caller c sync)).1 by (by rewrite Est). by constructor. }
    destruct x as [| |m [|arg cycles]|]; try done. split; [done|]. simpl.
    intros n j [[<- <-]|[_ Hj]]%lookup_insert_Some; [done|by eapply Ha].
  - split; [|done]. destruct Hok as [Hev Hx]. constructor; [done|done|].
    destruct ev as [|now id ans refund| | | |]; try done. destruct ans as [[[]|e]|]; try done.
    intros p n code Hp. simpl. intros [= <- _]. rewrite (Hx p Hp). lia.
  - done.
  - destruct (z_jobs z !! m) as [i|] eqn:Hm; [|done]. destruct (j_stage i) eqn:Hi; try done.
    destruct (cmc_create (z_cmc z) (j_arg i) (j_cycles i)) as [[s' f] a] eqn:Ec. split; [done|].
    apply Hset; [done|]. unfold answer_honest. simpl. destruct f as [r|]; [|done].
    intros n code Hn. revert Ec. unfold cmc_create.
    destruct (N.ltb_spec (j_cycles i) MIN_CREATE_CYCLES) as [Hlt|Hge].
    { intros [= <- <- <-]. simpl in Hn. injection Hn as <- _. lia. }
    destruct (f_fail_next (z_cmc z)) as [[amount|]|] eqn:Ef; [..|done].
    + intros E. assert (r = Err (CmcRefunded amount)) as -> by congruence.
      assert (a = N.min (j_cycles i) (u128_wrap_sub (j_cycles i) amount)) as -> by congruence.
      simpl in Hn. injection Hn as <- _. pose proof (Hh _ _ eq_refl Hi Hge eq_refl) as Hle.
      pose proof (ji_u128 _ _ _ (ci_jobs _ HI _ _ Hm)) as Hu.
      unfold u128_wrap_sub. rewrite wrap_sub_min by done. lia.
    + intros E. assert (r = Err CmcRefundFailed) as -> by congruence. simpl in Hn. injection Hn as <- _. lia.
  - destruct (z_jobs z !! m) as [i|] eqn:Hm; [|done]. destruct (j_stage i) eqn:Hi; try done.
    split; [done|]. apply Hset; [done|]. unfold answer_honest. simpl. intros n c [= <- _]. lia.
  - destruct (z_jobs z !! m) as [i|] eqn:Hm; [|done]. destruct (j_stage i) eqn:Hi; try done.
    destruct o as [x| |]; try done. split; [done|]. simpl.
    intros n j [[<- <-]|[_ Hj]]%lookup_insert_Some; [done|by eapply Ha].
  - destruct (z_jobs z !! m) as [i|] eqn:Hm; [|done]. destruct (j_stage i) as [| |ans refund|] eqn:Hi; try done.
    pose proof (refund_le _ _ _ _ _ _ HI Hm Hi Hok) as Hev.
    destruct (step (z_led z) (EvReply now m ans refund)) as [w' x] eqn:Est. split; [|by apply Hset].
    simpl. replace w' with (step (z_led z) (EvReply now m ans refund)).1 by (by rewrite Est).
    constructor; [done|exact Hev|]. intros p n code Hp Hn.
    destruct (ji_pend _ _ _ (ci_jobs _ HI _ _ Hm) p Hp) as (Ho & _).
    pose proof (Ha _ _ Hm) as Hx. unfold answer_honest in Hx. rewrite Hi in Hx. apply (Hx n code).
    by destruct p; simplify_eq/=.
Qed.

(** From installation on, the cycles the ledger holds and has spent on its own
    execution cover the supply, whatever failures the stand-in is told to simulate. *)
Theorem C68_tokens_are_backed now cycles args w z :
  is_u64 now -> wf_ledger_args args -> init_world now cycles args = Some w -> honest_run w z ->
  icrc1_total_supply (w_led (z_led z)) + cycles
  <= icrc1_total_supply (w_led w) + (w_cycles (z_led z) + w_used (z_led z)).
Proof.
  intros Hu Hwf Hi Hz. assert (reachable w) as Hr by (by econstructor).
  destruct (honest_answers _ _ Hr Hz) as (_ & Ht & _). by eapply C27_tokens_are_backed.
Qed.
End WithEnv.

(** ** Cases that meet the hypotheses *)
Definition csys_okb (z : csys) (ev : csys_event) : bool :=
  match ev with
  | ZCall now caller c sync => ev_okb (z_led z) (EvCall now caller c sync)
  | ZLedger ev =>
      ev_okb (z_led z) ev
      && match ev with
         | EvCall _ _ _ _ => false
         | EvReply _ id (AnsDeposit (Err _)) refund =>
             match w_pend (z_led z) !! id with Some p => refund =? pending_amount p | None => true end
         | EvReply _ _ (AnsDeposit (Ok _)) _ => true
         | EvReply _ _ (AnsCmc _) _ => false
         | _ => true
         end
  | ZArm (CmcRefunded n) => n <? U128_MOD
  | ZManagement _ (Created p) =>
      wf_principalb p
      && forallb (fun e => negb (bool_decide (j_canister e.2 = Some p))) (map_to_list (z_jobs z))
  | ZAnswer now _ => (w_clock (z_led z) <=? now) && (now <? U64_MOD)
  | _ => true
  end.
Lemma csys_okb_ok z ev : csys_okb z ev = true -> csys_ok z ev.
Proof.
  destruct ev as [now caller c sync|ev|[n|]|n|n code|n [p| |]|now n]; cbn [csys_okb csys_ok]; try done.
  - apply ev_okb_ok.
  - intros [H1%ev_okb_ok H2]%andb_true_iff. split; [done|].
    destruct ev as [|now id [[[]|e]|] refund| | | |]; try done.
    intros p Hp. rewrite Hp in H2. by apply N.eqb_eq in H2.
  - intros Hn%N.ltb_lt. exact Hn.
  - intros [H1%wf_principalb_ok H2]%andb_true_iff. split; [done|]. intros n' j Hj E.
    rewrite forallb_forall in H2. specialize (H2 (n', j)). simpl in H2. rewrite bool_decide_eq_true_2 in H2 by done.
    by discriminate H2; apply elem_of_list_In, elem_of_map_to_list.
  - intros [H1%N.leb_le H2%N.ltb_lt]%andb_true_iff. split; [done|exact H2].
Qed.
Definition honestb (z : csys) (ev : csys_event) : bool :=
  match ev with
  | ZDeliver n =>
      match z_jobs z !! n, f_fail_next (z_cmc z) with
      | Some j, Some (CmcRefunded amount) => (j_cycles j <? 100000000000) || (amount <=? j_cycles j)
      | _, _ => true
      end
  | ZManagement _ NotCreated => false
  | _ => true
  end.
Lemma honestb_ok z ev : honestb z ev = true -> honest z ev.
Proof.
  destruct ev as [| | |n| |n []|]; cbn [honestb honest]; try done.
  intros Hb j amount Hj Hs Hm Hf. rewrite Hj, Hf in Hb. apply orb_true_iff in Hb as [?%N.ltb_lt|?%N.leb_le]; lia.
Qed.
Fixpoint crun (strict : bool) (z : csys) (evs : list csys_event) : option csys :=
  match evs with
  | [] => Some z
  | ev :: evs' =>
      if csys_okb z ev && (negb strict || honestb z ev) then crun strict (csys_step z ev) evs' else None
  end.
Lemma crun_ok w b z evs z' : csys_run w z -> crun b z evs = Some z' -> csys_run w z'.
Proof.
  revert z. induction evs as [|ev evs IH]; intros z Hz; simpl; [by intros [= <-]|].
  destruct (csys_okb z ev && _) eqn:E; [|done]. apply andb_true_iff in E as [E _].
  apply IH. constructor; [done|by apply csys_okb_ok].
Qed.
Lemma crun_honest w z evs z' : honest_run w z -> crun true z evs = Some z' -> honest_run w z'.
Proof.
  revert z. induction evs as [|ev evs IH]; intros z Hz; simpl; [by intros [= <-]|].
  destruct (csys_okb z ev && honestb z ev) eqn:E; [|done]. apply andb_true_iff in E as [E1 E2].
  apply IH. constructor; [done|by apply csys_okb_ok|by apply honestb_ok].
Qed.
Definition the_csys (o : option csys) : csys := default (csys_init demo_world) o.

Definition w68 : world := the_world (init_world T0 (100 * T) demo_init).
Lemma w68_init : init_world T0 (100 * T) demo_init = Some w68.
Proof.
  assert ((match init_world T0 (100 * T) demo_init with Some _ => true | None => false end) = true) as Hs
    by (vm_compute; reflexivity).
  unfold w68. by destruct (init_world T0 (100 * T) demo_init).
Qed.
Definition funded : csys_event := ZCall (T0 + 1 * sec) carol (CallDeposit (10 * T) (acct alice) None) None.
Definition ask (t : N) : csys_event := ZCall (T0 + t * sec) alice (CallCreateCanister None None T None) None.

(** A canister is made, a simulated failure is refunded, a small request is sent
    back, a request is lost. *)
Definition evs68 : list csys_event :=
  [ funded; ask 2; ZDeliver 0; ZManagement 0 IdTaken; ZManagement 0 (Created canister); ZAnswer (T0 + 3 * sec) 0;
    ZArm (CmcRefunded (T / 2)); ask 4; ZDeliver 1; ZAnswer (T0 + 5 * sec) 1; ask 6 ].
Definition z68 : csys := the_csys (crun true (csys_init w68) evs68).
Example C68_case :
  init_world T0 (100 * T) demo_init = Some w68 /\ honest_run w68 z68 /\ csys_run w68 z68
  /\ (exists i j, z_jobs z68 !! 0 = Some j /\ j_canister j = Some canister
        /\ j_stage j = Told (RespReply (RepCreate (Ok (i, canister)))) /\ i = j_block j)
  /\ (exists j e, z_jobs z68 !! 1 = Some j /\ j_canister j = None /\ j_stage j = Told (RespReply (RepCreate (Err e))))
  /\ (exists j, z_jobs z68 !! 2 = Some j /\ j_stage j = OnTheWay).
Proof.
  assert ((match crun true (csys_init w68) evs68 with Some _ => true | None => false end) = true) as Hs
    by (vm_compute; reflexivity).
  split; [exact w68_init|]. unfold z68. destruct (crun true (csys_init w68) evs68) as [z|] eqn:E; [|done].
  cbn [the_csys default]. split; [eapply crun_honest; [constructor|exact E]|].
  split; [eapply crun_ok; [constructor|exact E]|].
  assert (z = the_csys (crun true (csys_init w68) evs68)) as -> by (by rewrite E). clear E Hs.
  split; [|split].
  - eexists _, _. split; [vm_compute; reflexivity|]. split; [reflexivity|]. split; reflexivity.
  - eexists _, _. split; [vm_compute; reflexivity|]. split; reflexivity.
  - eexists. split; [vm_compute; reflexivity|]. reflexivity.
Qed.

(** ** Without honesty tokens can lose their backing *)
Definition unbacked (w : world) (z : csys) : Prop :=
  icrc1_total_supply (w_led (z_led z)) + 100 * T
  > icrc1_total_supply (w_led w) + (w_cycles (z_led z) + w_used (z_led z)).
Local Ltac witness evs :=
  let Hs := fresh in let E := fresh in
  assert ((match crun false (csys_init w68) evs with Some _ => true | None => false end) = true) as Hs
    by (vm_compute; reflexivity);
  destruct (crun false (csys_init w68) evs) as [z|] eqn:E; [|done];
  exists w68, z; split; [exact w68_init|]; split; [eapply crun_ok; [constructor|exact E]|];
  assert (z = the_csys (crun false (csys_init w68) evs)) as -> by (by rewrite E); vm_compute; reflexivity.

(** The stand-in subtracts the refund it was told to report from the cycles
    attached; if it is larger the difference wraps, all cycles are kept, and the
    ledger mints the refund it was told of. *)
Theorem C68_overstated_refund_refuted :
  exists (w : world) (z : csys),
    init_world T0 (100 * T) demo_init = Some w /\ csys_run w z /\ unbacked w z.
Proof.
  set (evs := [funded; ZArm (CmcRefunded (5 * T)); ask 2; ZDeliver 0; ZAnswer (T0 + 3 * sec) 0]).
  witness evs.
Qed.
(** It accepts the cycles before it asks the management canister.  If that fails the
    call is rejected, which the ledger takes to mean that the cycles came back. *)
Theorem C68_rejected_after_accepting_refuted :
  exists (w : world) (z : csys),
    init_world T0 (100 * T) demo_init = Some w /\ csys_run w z
    /\ (exists j e, z_jobs z !! 0 = Some j /\ j_canister j = None
          /\ j_stage j = Told (RespReply (RepCreate (Err e))))
    /\ unbacked w z.
Proof.
  set (evs := [funded; ask 2; ZDeliver 0; ZManagement 0 NotCreated; ZAnswer (T0 + 3 * sec) 0]).
  assert ((match crun false (csys_init w68) evs with Some _ => true | None => false end) = true) as Hs
    by (vm_compute; reflexivity).
  destruct (crun false (csys_init w68) evs) as [z|] eqn:E; [|done].
  exists w68, z. split; [exact w68_init|]. split; [eapply crun_ok; [constructor|exact E]|].
  assert (z = the_csys (crun false (csys_init w68) evs)) as -> by (by rewrite E). clear E Hs. split.
  - eexists _, _. split; [vm_compute; reflexivity|]. split; reflexivity.
  - vm_compute. reflexivity.
Qed.

Print Assumptions C68_creations_are_exact.
Print Assumptions C68_told_is_final.
Print Assumptions C68_tokens_are_backed.
Print Assumptions C68_overstated_refund_refuted.
Print Assumptions C68_rejected_after_accepting_refuted.
