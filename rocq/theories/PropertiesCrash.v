(** * Call-backs that are stopped midway

    C79 *)
From Verif Require Import Base Types Codec CodecFacts CodecProofs State Ledger Canister Effects Spec ApiSpec
  Inv Steps World CallFacts CallCases StepFacts AllowFacts RefundFacts AsyncFacts EventFacts
  PropertiesLog PropertiesDedup PropertiesCalls PropertiesAuth PropertiesAsync PropertiesRefund PropertiesQuery
  PropertiesRefundBound PropertiesOnce Demo.

Section WithEnv.
Context `{Env}.

(** ** Specification *)

(** No event of the history is about the waiting call [id]. *)
Definition not_about (id : N) (tr : list (event * response)) : Prop :=
  Forall (fun er => match er.1 with
                    | EvReply _ id' _ _ => id' <> id
                    | EvCrash _ id' _ => id' <> id
                    | _ => True
                    end) tr.

(** ** Proofs *)

(** The second world differs from the first at most in that call [id] no longer
    waits, and in the time. *)
Definition all_but (id : N) (w1 w2 : world) : Prop :=
  w_led w1 = w_led w2 /\ w_next w1 = w_next w2 /\ w_cycles w1 = w_cycles w2 /\ w_used w1 = w_used w2
  /\ w_clock w1 <= w_clock w2 /\ forall id', id' <> id -> w_pend w1 !! id' = w_pend w2 !! id'.

Lemma all_but_ok id w1 w2 ev :
  all_but id w1 w2 ->
  match ev with EvReply _ id' _ _ => id' <> id | EvCrash _ id' _ => id' <> id | _ => True end ->
  ev_ok w2 ev -> ev_ok w1 ev.
Proof.
  intros (El & En & Ec & Eu & Hclk & Hp) Hid. destruct ev as [now caller c sync|now id' ans refund|now args|n|n|now id' refund];
    cbn [ev_ok]; unfold time_ok; [..|done|done|].
  - intros ([? ?] & ?). split; [|done]. split; [lia|done].
  - rewrite (Hp id' Hid). intros ([? ?] & ?). split; [|done]. split; [lia|done].
  - intros ([? ?] & ?). split; [|done]. split; [lia|done].
  - rewrite (Hp id' Hid). intros ([? ?] & ?). split; [|done]. split; [lia|done].
Qed.

Lemma all_but_step id w1 w2 ev :
  all_but id w1 w2 -> id < w_next w1 ->
  match ev with EvReply _ id' _ _ => id' <> id | EvCrash _ id' _ => id' <> id | _ => True end ->
  all_but id (step w1 ev).1 (step w2 ev).1 /\ (step w1 ev).2 = (step w2 ev).2.
Proof.
  intros (El & En & Ec & Eu & Hclk & Hp) Hlt Hid.
  destruct w1 as [s1 k1 p1 n1 c1 u1], w2 as [s2 k2 p2 n2 c2 u2].
  cbn [w_led w_next w_cycles w_used w_clock w_pend] in *. subst s2 n2 c2 u2.
  destruct ev as [now caller c sync|now id' ans refund|now args|n|n|now id' refund]; cbn [step];
    cbn [w_led w_next w_cycles w_used w_clock w_pend].
  - destruct (exec_call now c1 caller c sync s1) as [s' [r|p]]; unfold all_but; cbn; (split; [|done]);
      (split_and!; [done..|]); intros id' Hne; [by apply Hp|].
    destruct (decide (n1 = id')) as [->|Hne']; [by rewrite !lookup_insert|].
    rewrite !lookup_insert_ne by done. by apply Hp.
  - rewrite (Hp id' Hid). destruct (p2 !! id') as [p|]; [|unfold all_but; cbn; done].
    destruct (resume now p ans) as [k|]; [|unfold all_but; cbn; done].
    destruct (commit s1 (k s1)) as [s' r]. unfold all_but; cbn. split; [|done]. split_and!; [done..|].
    intros i Hne. destruct (decide (id' = i)) as [->|Hne']; [by rewrite !lookup_delete|].
    rewrite !lookup_delete_ne by done. by apply Hp.
  - destruct (post_upgrade args (reload s1)) as [s' [u|[]|t]]; unfold all_but; cbn; done.
  - unfold all_but; cbn; done.
  - unfold all_but; cbn; done.
  - rewrite (Hp id' Hid). destruct (p2 !! id') as [p|]; unfold all_but; cbn; [|done].
    split; [|done]. split_and!; [done..|].
    intros i Hne. destruct (decide (id' = i)) as [->|Hne']; [by rewrite !lookup_delete|].
    rewrite !lookup_delete_ne by done. by apply Hp.
Qed.

Lemma next_step w ev : w_next w <= w_next (step w ev).1.
Proof.
  destruct ev as [now caller c sync|now id ans refund|now args|n|n|now id refund]; cbn [step].
  - destruct (exec_call _ _ _ _ _ _) as [s' [r|p]]; simpl; lia.
  - destruct (w_pend w !! id); [|done]. destruct (resume _ _ _); [|done].
    destruct (commit _ _). done.
  - destruct (post_upgrade _ _) as [s' [u|[]|t]]; done.
  - done.
  - done.
  - by destruct (w_pend w !! id).
Qed.

(** A call that does not wait any more never waits again. *)
Lemma gone_step w ev id :
  id < w_next w -> w_pend w !! id = None -> w_pend (step w ev).1 !! id = None.
Proof.
  intros Hlt Hn. destruct ev as [now caller c sync|now id' ans refund|now args|n|n|now id' refund]; cbn [step].
  - destruct (exec_call _ _ _ _ _ _) as [s' [r|p]]; simpl; [done|]. rewrite lookup_insert_ne by lia. done.
  - destruct (w_pend w !! id'); [|done]. destruct (resume _ _ _); [|done].
    destruct (commit _ _). simpl. by apply lookup_delete_None; right.
  - destruct (post_upgrade _ _) as [s' [u|[]|t]]; [|done..]. done.
  - done.
  - done.
  - destruct (w_pend w !! id'); [|done]. simpl. by apply lookup_delete_None; right.
Qed.

(** ** C79 *)

(** At whatever point a call-back is stopped: nothing that was recorded changes,
    every other call goes on waiting, and the ledger keeps what came back. *)
Theorem C79_stopped_midway w now id refund p w' resp :
  reachable w -> ev_ok w (EvCrash now id refund) -> w_pend w !! id = Some p ->
  step w (EvCrash now id refund) = (w', resp) ->
  (exists t, resp = RespTrap t) /\ w_led w' = w_led w /\ w_cycles w' = w_cycles w + refund
  /\ w_pend w' !! id = None /\ forall id', id' <> id -> w_pend w' !! id' = w_pend w !! id'.
Proof.
  intros Hr Hev Hp Hst. pose proof (step_crash _ _ _ _ _ _ Hst) as (Hl & _ & _ & Hpe & Hm).
  rewrite Hp in Hm. destruct Hm as (_ & Hc & Hre). split; [by exists TrapSystem|]. split; [exact Hl|]. split; [exact Hc|].
  rewrite Hpe. split; [apply lookup_delete|]. intros id' Hne. by apply lookup_delete_ne.
Qed.

(** From then on nobody can tell the ledger from one whose call still waits for
    its answer, and that was given the cycles that came back: whatever happens, every
    answer is the same, and so is the ledger afterwards. *)
Theorem C79_nobody_else_notices w now id refund p tr w' :
  reachable w -> ev_ok w (EvCrash now id refund) -> w_pend w !! id = Some p ->
  steps (step w (EvCrash now id refund)).1 tr w' -> not_about id tr ->
  exists w1, steps (step w (EvTopUp refund)).1 tr w1
    /\ w_led w1 = w_led w' /\ w_cycles w1 = w_cycles w'
    /\ forall id', id' <> id -> w_pend w1 !! id' = w_pend w' !! id'.
Proof.
  intros Hr Hev Hp Hs Hna.
  assert (all_but id (step w (EvTopUp refund)).1 (step w (EvCrash now id refund)).1) as Hab.
  { cbn [step]. rewrite Hp. unfold all_but; cbn. split_and!; [done..|by destruct Hev as [[? _] _]|].
    intros id' Hne. by rewrite lookup_delete_ne. }
  assert (id < w_next (step w (EvTopUp refund)).1) as Hlt.
  { destruct (reachable_winv _ Hr) as (_ & _ & Hwp). by destruct (Hwp _ _ Hp). }
  clear Hr Hev Hp. revert Hab Hlt.
  generalize (step w (EvTopUp refund)).1. intros w1.
  induction Hs as [w2|w2 ev tr w' Hev Hs IH] in w1, Hna |- *; intros Hab Hlt.
  { exists w1. split; [constructor|]. destruct Hab as (? & _ & ? & _ & _ & ?). done. }
  apply Forall_cons in Hna as [Hid Hna]. cbn [fst] in Hid.
  destruct (all_but_step id w1 w2 ev Hab Hlt Hid) as [Hab' Hresp].
  destruct (IH Hna (step w1 ev).1 Hab') as (w3 & Hs3 & Hrest).
  { pose proof (next_step w1 ev). lia. }
  exists w3. split; [|done]. rewrite <- Hresp. constructor; [|done]. by eapply all_but_ok.
Qed.

(** The call itself is lost for good: whatever comes for it later is ignored. *)
Theorem C79_never_completed w now id refund p tr w' er :
  reachable w -> ev_ok w (EvCrash now id refund) -> w_pend w !! id = Some p ->
  steps (step w (EvCrash now id refund)).1 tr w' -> er ∈ tr ->
  (exists t ans r, er.1 = EvReply t id ans r) \/ (exists t r, er.1 = EvCrash t id r) ->
  er.2 = RespIgnored.
Proof.
  intros Hr Hev Hp Hs Hin Hid.
  assert (w_pend (step w (EvCrash now id refund)).1 !! id = None) as Hn.
  { cbn [step]. rewrite Hp. apply lookup_delete. }
  assert (id < w_next (step w (EvCrash now id refund)).1) as Hlt.
  { cbn [step]. rewrite Hp. cbn. destruct (reachable_winv _ Hr) as (_ & _ & Hwp). by destruct (Hwp _ _ Hp). }
  clear Hr Hev Hp. revert Hn Hlt. induction Hs as [w2|w2 ev tr w' Hev Hs IH]; intros Hn Hlt.
  { by apply elem_of_nil in Hin. }
  apply elem_of_cons in Hin as [->|Hin].
  - cbn [fst snd] in *. destruct Hid as [(t & ans & r & ->)|(t & r & ->)]; cbn [step]; by rewrite Hn.
  - apply IH; [exact Hin|by apply gone_step|]. pose proof (next_step w2 ev). lia.
Qed.

(** In particular it is never refunded: from then on the account has fewer refunds
    than burns. *)
Theorem C79_never_refunded w now id refund p tr w' :
  reachable w -> ev_ok w (EvCrash now id refund) -> w_pend w !! id = Some p ->
  steps (step w (EvCrash now id refund)).1 tr w' ->
  (how_many (refunded_by (p_from p)) (blocks (w_led w'))
   < how_many (burned_by (p_from p)) (blocks (w_led w')))%nat.
Proof.
  intros Hr Hev Hp Hs. set (a := p_from p).
  set (res := fun b => if decide (to_key b = to_key a) then 1 else 0).
  assert (reachable (step w (EvCrash now id refund)).1) as Hr1 by (by constructor).
  assert (covered (fun _ => 1) res (step w (EvCrash now id refund)).1) as Hc.
  { intros b. pose proof (counted w Hr b) as Hc. cbv beta in Hc. cbn [step]. rewrite Hp. cbn [fst w_led w_pend].
    erewrite waiting_delete in Hc by exact Hp. fold a in Hc. unfold res. lia. }
  assert (covered (fun _ => 1) res w') as Hc'.
  { clear -Hs Hc Hr1. induction Hs as [w2|w2 ev tr w' Hev Hs IH]; [done|]. apply IH; [by constructor|].
    apply covered_step; [intros; lia|done|done| |done]. by destruct ev. }
  specialize (Hc' a). rewrite !wsum_how_many in Hc'. unfold res in Hc'. rewrite decide_True in Hc' by done. lia.
Qed.

End WithEnv.

(** ** Case: the failed [withdraw_from] of the demo history, its call-back stopped
    midway; the [create_canister] that waits with it succeeds afterwards, and a second
    answer to the stopped call is ignored *)
Definition stopped : event := EvCrash (T0 + 7 * sec) 0 T.
Definition after_stopped : list event :=
  [ EvReply (T0 + 8 * sec) 0 (AnsDeposit (Err (CECallRejected None))) T;
    EvReply (T0 + 8 * sec) 1 (AnsCmc (Ok (Ok canister))) 0 ].
Example C79_case :
  let w := demo_at 6 in
  let w1 := (step w stopped).1 in
  reachable w /\ ev_ok w stopped
  /\ (p_from <$> w_pend w !! 0) = Some (acct alice)
  /\ (step w stopped).2 = RespTrap TrapSystem
  /\ steps w1 (PropertiesOnce.run w1 after_stopped).1 (PropertiesOnce.run w1 after_stopped).2
  /\ map snd (PropertiesOnce.run w1 after_stopped).1
     = [RespIgnored; RespReply (RepCreate (Ok (6, canister)))]
  /\ (how_many (refunded_by (acct alice)) (blocks (w_led w)),
      how_many (burned_by (acct alice)) (blocks (w_led w))) = (0%nat, 2%nat).
Proof.
  cbv zeta. split; [apply demo_at_reachable; vm_compute; reflexivity|].
  split; [apply ev_okb_ok; vm_compute; reflexivity|].
  split; [vm_compute; reflexivity|].
  split; [vm_compute; reflexivity|].
  split; [apply PropertiesOnce.run_steps; vm_compute; reflexivity|].
  split; vm_compute; reflexivity.
Qed.

Print Assumptions C79_stopped_midway.
Print Assumptions C79_nobody_else_notices.
Print Assumptions C79_never_completed.
Print Assumptions C79_never_refunded.
