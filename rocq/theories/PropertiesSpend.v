(** * Whoever may spend, can

    C19 C78 *)
From Verif Require Import Base Types Codec CodecFacts State Ledger Canister Effects Spec ApiSpec AnswerSpec
  Inv Steps World CallFacts CallCases StepFacts AllowFacts DedupFacts
  PropertiesLog PropertiesDedup PropertiesCalls PropertiesAuth PropertiesAnswers Demo.

(** ** Specification *)

(** The answers that blame the allowance, and the allowance they name *)
Definition blames_allowance (r : response) : option N :=
  match r with
  | RespReply (RepTransferFrom (Err (TFInsufficientAllowance a))) => Some a
  | RespReply (RepTransferFrom (Err (TFGenericError 100003))) => Some 0
  | RespReply (RepWithdrawFrom (Err (WFInsufficientAllowance a))) => Some a
  | RespReply (RepCreateFrom (Err (CFInsufficientAllowance a))) => Some a
  | _ => None
  end.
(** The spender may draw [n] from [from]; an owner needs no allowance for the account
    the call is made from. *)
Definition may_draw (s : state) (now : N) (from sp : account) (n : N) : Prop :=
  ~ same_account sp from -> n <= (usable s now from sp).1.
(** Where cycles cannot be sent: to a self-authenticating principal, which has 29 bytes the
    last of which is 2. *)
Definition can_receive (p : principal) : Prop := p !! 28%nat <> Some Byte.x02.

(** ** Rules *)
Lemma decided_otherwise rules told P :
  decided rules told P -> Forall (fun r => ~ r.1) rules -> P.
Proof.
  induction rules as [|[cond reason] rules IH]; simpl; [done|].
  intros [_ Hd] [Hc Hf]%Forall_cons. by apply IH; [apply Hd|].
Qed.
Lemma decided_contra rules told (P : Prop) :
  decided rules told P ->
  (forall (cond : Prop) (reason : refusal -> Prop), In (cond, reason) rules -> cond -> forall r, reason r -> told r -> False) ->
  (P -> False) -> False.
Proof.
  induction rules as [|[cond reason] rules IH]; simpl; [by auto|].
  intros [Hd1 Hd2] Hall HP.
  assert (~ cond) as Hnc.
  { intros Hc. destruct (Hd1 Hc) as (r & Hr & Ht). exact (Hall _ _ (or_introl eq_refl) Hc _ Hr Ht). }
  apply IH; [by apply Hd2| |done]. intros c' r' Hin. apply Hall. by right.
Qed.

Lemma blames_rejected r a : blames_allowance r = Some a -> rejected r = true.
Proof.
  destruct r as [|rep| |]; try done.
  destruct rep as [|x|x|x|x|x|x|x]; try done; by destruct x as [?|[]].
Qed.

Section WithEnv.
Context `{Env}.

(** ** C19 *)

(** A refusal that blames the allowance tells the truth: what can be used does not
    cover the amount and the fee, and the number in it is what can be used. *)
Theorem C19_refusals_are_truthful w now caller c sync w' resp from x n a :
  reachable w -> ev_ok w (EvCall now caller c sync) ->
  step w (EvCall now caller c sync) = (w', resp) ->
  spends_from caller c = Some (from, x, n) -> blames_allowance resp = Some a ->
  ~ same_account x from /\ (usable (w_led w) now from x).1 < n + icrc1_fee
  /\ a = (usable (w_led w) now from x).1.
Proof.
  intros Hr Hev Hst Hsf Hbl.
  destruct (C50_answer _ _ _ _ _ _ _ Hr Hev Hst) as (dup & _ & Hd).
  assert (decided (rules (w_led w) now caller c dup)
            (fun r => answer_of c r = Some resp) False) as Hd'.
  { clear -Hd Hbl. assert (forall rs (P Q : Prop), (P -> False) ->
      decided rs (fun r => answer_of c r = Some resp /\ Q) P ->
      decided rs (fun r => answer_of c r = Some resp) False) as Hgo.
    { clear. intros rs P Q HP. induction rs as [|[cond reason] rs IH]; simpl; [done|].
      intros [H1 H2]. split; [|by auto]. intros Hc. destruct (H1 Hc) as (r & ? & ? & _). eauto. }
    eapply Hgo; [|exact Hd].
    intros [[Hrj _]|(_ & [t ->] & _)]; [|done]. by rewrite (blames_rejected _ _ Hbl) in Hrj. }
  set (u := (usable (w_led w) now from x).1) in *.
  assert (~ ~ (to_key x <> to_key from /\ u < n + icrc1_fee /\ a = u)) as Hnn.
  { intros Hno. eapply decided_contra; [exact Hd'| |done].
    intros cond reason Hin Hc r Hrs Ha.
    assert ((exists b, r = NoAllowance b /\ b = a) \/ (r = AllowanceExpired /\ a = 0)) as Hrr.
    { destruct c; try discriminate Hsf; destruct r; try discriminate Ha;
        cbn [answer_of] in Ha; injection Ha as <-; cbn in Hbl; try discriminate Hbl; simplify_eq; eauto. }
    assert (not_allowed (w_led w) now from (Some x) (n + icrc1_fee)
            /\ (a = u \/ (r = AllowanceExpired /\ ran_out (w_led w) now from x))) as [(y & [= <-] & Hne & Hlt) Hau].
    { destruct c as [| |sub from' to amount fee m created| | |sub from' to created amount| |from' sub created amount args];
        try discriminate Hsf; simpl in Hsf; injection Hsf as <- <- <-;
        cbn [rules transfer_rules withdraw_rules create_rules burn_rules time_rules dup_rule app] in Hin;
        cbn [In] in Hin; repeat (destruct Hin as [Hin|Hin]); try done;
        injection Hin as <- <-;
        destruct Hrr as [(b & -> & ->)|[-> Ha0]];
        cbn beta in Hrs;
        repeat match goal with
          | H : eq _ _ |- _ => discriminate H
          | H : exists _, _ |- _ => destruct H as [? ?]
          | H : _ /\ _ |- _ => destruct H as [? ?]
          | H : _ \/ _ |- _ => destruct H as [?|?]
          end; try discriminate; simplify_eq; (split; [done|]); eauto. }
    apply Hno. split; [done|]. split; [done|].
    destruct Hau as [->|[-> (a0 & e & Hl & He)]]; [done|].
    destruct Hrr as [(? & ? & _)|[_ ->]]; [done|].
    unfold u. rewrite usable_live by (done || by destruct Hev as ([? _] & _)).
    unfold live_allowance. rewrite Hl. by rewrite decide_False by (simpl; lia). }
  assert (to_key x <> to_key from /\ u < n + icrc1_fee /\ a = u) as (H1 & H2 & H3).
  { destruct (decide (to_key x = to_key from)), (decide (u < n + icrc1_fee)), (decide (a = u));
      try (exfalso; apply Hnn; intros (? & ? & ?); done). done. }
  split; [|done]. intros E%same_key. done.
Qed.

(** ** C78 *)
Lemma no_time_rule created now : time_fits created now -> Forall (fun r => ~ r.1) (time_rules created now).
Proof.
  intros Ht. unfold time_rules, too_long_ago, not_yet. repeat constructor; simpl.
  - intros (t & -> & ?). destruct Ht as [? ?]. unfold DAY, MINUTE in *. lia.
  - intros (t & -> & ?). destruct Ht as [? ?]. unfold DAY, MINUTE in *. lia.
Qed.
Lemma total_below w : reachable w -> icrc1_total_supply (w_led w) < 2 ^ 128.
Proof. intros Hr. apply (inv_supply _ _ (reachable_inv _ Hr)). Qed.
Lemma balance_below w a : reachable w -> icrc1_balance_of (w_led w) a < 2 ^ 128.
Proof.
  intros Hr. pose proof (total_below w Hr). pose proof (supply_bal _ (to_key a) (inv_supply _ _ (reachable_inv _ Hr))).
  unfold icrc1_balance_of, icrc1_total_supply, balance_of in *. lia.
Qed.

(** A spender to whom enough is allowed can transfer. *)
Theorem C78_transfer_from_succeeds w now caller sub from to amount fee m created sync w' resp :
  let sp := Acct caller sub in
  reachable w ->
  ev_ok w (EvCall now caller (CallTransferFrom sub from to amount fee m created) sync) ->
  step w (EvCall now caller (CallTransferFrom sub from to amount fee m created) sync) = (w', resp) ->
  fee = None \/ fee = Some icrc1_fee -> memo_fits m -> time_fits created now ->
  permitted sp -> permitted from -> permitted to ->
  may_draw (w_led w) now from sp (amount + icrc1_fee) ->
  amount + icrc1_fee <= icrc1_balance_of (w_led w) from ->
  (same_account to from -> icrc1_balance_of (w_led w) from + amount < 2 ^ 128) ->
  duplicate_of resp = None ->
  resp = RespReply (RepTransferFrom (Ok (N.of_nat (length (blocks (w_led w)))))).
Proof.
  intros sp Hr Hev Hst Hfee Hm Ht Hps Hpf Hpt Hal Hbal Hself Hdup.
  destruct (C50_answer _ _ _ _ _ _ _ Hr Hev Hst) as (dup & _ & Hd).
  pose proof (balance_below w from Hr) as Hbf.
  assert (icrc1_balance_of (w_led w) to + amount < 2 ^ 128) as Hov.
  { destruct (decide (to_key to = to_key from)) as [E|Hne].
    - specialize (Hself (key_same _ _ E)). unfold icrc1_balance_of, balance_of in *. rewrite E. lia.
    - pose proof (supply_bal2 (w_led w) _ _ (inv_supply _ _ (reachable_inv _ Hr)) Hne).
      pose proof (total_below w Hr). unfold icrc1_balance_of, icrc1_total_supply, balance_of in *. lia. }
  assert (dup = None) as ->.
  { destruct dup as [[i y]|]; [exfalso|done]. simpl in Hd.
    destruct Hd as [_ Hd]. specialize (Hd ltac:(lia)). destruct Hd as [_ Hd].
    assert (~ huge fee) as Hnh by (intros (f & E & ?); destruct Hfee; simplify_eq; done).
    destruct (Hd Hnh) as [Hd1 _]. destruct Hd1 as (r & (i' & y' & [= <- <-] & ->) & [= <-] & _); [by eexists|]. done. }
  eapply decided_otherwise in Hd.
  { destruct Hd as [[_ Hto]|(_ & _ & (? & ? & ? & Ho & _))]; [|done]. exact Hto. }
  cbn [rules]. unfold transfer_rules. apply Forall_app. split; [|by apply no_time_rule].
  repeat (apply Forall_cons; split); cbn [fst dup_rule]; [..|by apply Forall_nil].
  - lia.
  - intros (f & E & ?). destruct Hfee; simplify_eq; done.
  - by intros [? ?].
  - intros [Hx|[Hx|(x & [= <-] & Hx)]]; by apply Hx.
  - intros (f & E & ?). destruct Hfee; by simplify_eq.
  - lia.
  - intros (x & [= <-] & Hne & Hlt). specialize (Hal (fun E => Hne (same_key _ _ E))). fold sp in Hlt. lia.
  - lia.
  - lia.
  - intros (b & -> & ?). simpl in Hm. lia.
Qed.

(** An approval that is in order is accepted. *)
Theorem C78_approve_succeeds w now caller sub sp amount expected expires fee m created sync w' resp :
  let from := Acct caller sub in
  reachable w ->
  ev_ok w (EvCall now caller (CallApprove sub sp amount expected expires fee m created) sync) ->
  step w (EvCall now caller (CallApprove sub sp amount expected expires fee m created) sync) = (w', resp) ->
  fee = None \/ fee = Some icrc1_fee -> memo_fits m -> time_fits created now ->
  permitted from -> permitted sp -> owner sp <> caller ->
  expected = None \/ expected = Some (icrc2_allowance (w_led w) now from sp).1 ->
  now < default (2 ^ 64 - 1) expires ->
  icrc1_fee <= icrc1_balance_of (w_led w) from ->
  duplicate_of resp = None ->
  resp = RespReply (RepApprove (Ok (N.of_nat (length (blocks (w_led w)))))).
Proof.
  intros from Hr Hev Hst Hfee Hm Ht Hpf Hps Hown Hexp Hex Hbal Hdup.
  destruct (C50_answer _ _ _ _ _ _ _ Hr Hev Hst) as (dup & _ & Hd).
  assert ((icrc2_allowance (w_led w) now from sp).1 < 2 ^ 128) as Hau.
  { unfold icrc2_allowance, allowance. destruct (approvals (w_led w) !! _) as [[a e]|] eqn:E; [|done].
    apply (inv_appr _ _ (reachable_inv _ Hr)) in E as (_ & Ha & _). unfold is_u128 in Ha.
    change (2 ^ 128) with U128_MOD. repeat case_match; simplify_eq/=; done. }
  assert (~ huge expected) as Hnx by (intros (f & E & ?); destruct Hexp; simplify_eq; lia).
  assert (~ huge fee) as Hnh by (intros (f & E & ?); destruct Hfee; simplify_eq; done).
  assert (dup = None) as ->.
  { destruct dup as [[i y]|]; [exfalso|done]. simpl in Hd.
    destruct Hd as [_ Hd]. specialize (Hd Hnx). destruct Hd as [_ Hd].
    destruct (Hd Hnh) as [Hd1 _]. destruct Hd1 as (r & (i' & y' & [= <- <-] & ->) & [= <-] & _); [by eexists|]. done. }
  eapply decided_otherwise in Hd.
  { destruct Hd as [[_ Hto]|(_ & _ & (? & ? & ? & Ho & _))]; [|done]. exact Hto. }
  cbn [rules]. unfold approve_rules. apply Forall_app. split; [|by apply no_time_rule].
  repeat (apply Forall_cons; split); cbn [fst dup_rule]; [..|by apply Forall_nil].
  - done.
  - done.
  - by intros [? ?].
  - intros E. by apply Hown.
  - intros [Hx|Hx]; by apply Hx.
  - intros (e & E & Hne). destruct Hexp as [?|?]; simplify_eq.
  - intros (f & E & ?). destruct Hfee; by simplify_eq.
  - intros Hle. change icrc1_fee with FEE in *. unfold from in *. lia.
  - lia.
  - intros (b & -> & ?). simpl in Hm. lia.
Qed.

(** A withdrawal or creation that is in order is accepted, and if the ledger can send the
    cycles, they are on their way. *)
Theorem C78_outgoing_succeeds w now caller c w' resp from sp amount :
  reachable w -> ev_ok w (EvCall now caller c None) ->
  step w (EvCall now caller c None) = (w', resp) ->
  outgoing caller c = Some (from, sp, amount) ->
  match c with
  | CallWithdraw _ to _ _ => can_receive to /\ amount <> 0
  | CallWithdrawFrom _ _ to _ _ => can_receive to /\ amount <> 0
  | _ => True
  end ->
  time_fits (created_of c) now ->
  (forall x, sp = Some x -> may_draw (w_led w) now from x (amount + icrc1_fee)) ->
  amount + icrc1_fee <= icrc1_balance_of (w_led w) from ->
  duplicate_of resp = None ->
  amount <= w_cycles w ->
  RespPending (w_next w) <$> outgoing_call caller c = Some resp.
Proof.
  intros Hr Hev Hst Ho Hrec Ht Hal Hbal Hdup Hcyc.
  destruct (C50_answer _ _ _ _ _ _ _ Hr Hev Hst) as (dup & _ & Hd).
  pose proof (balance_below w from Hr) as Hbf.
  assert (dup = None -> Forall (fun r => ~ r.1) (burn_rules (w_led w) now dup from sp amount (created_of c))) as Hburn.
  { intros ->. unfold burn_rules. apply Forall_app. split; [|by apply no_time_rule].
    repeat (apply Forall_cons; split); cbn [fst dup_rule]; [..|by apply Forall_nil].
    - by intros [? ?].
    - lia.
    - intros (x & Hx & Hne & Hlt). specialize (Hal x Hx (fun E => Hne (same_key _ _ E))). lia.
    - lia. }
  assert (dup = None) as Hdn.
  { destruct dup as [[i y]|]; [exfalso|done].
    destruct c; try discriminate Ho; simpl in Ho; injection Ho as <- <- <-; simpl in Hd.
    1,2: destruct Hd as [_ Hd]; specialize (Hd ltac:(lia)); destruct Hd as [_ Hd];
         specialize (Hd (proj1 Hrec)); destruct Hd as [_ Hd]; specialize (Hd (proj2 Hrec)).
    3,4: destruct Hd as [_ Hd]; specialize (Hd ltac:(lia)).
    all: destruct Hd as [Hd1 _]; destruct Hd1 as (r & (i' & y' & [= <- <-] & ->) & [= <-] & _); [by eexists|]; done. }
  eapply decided_otherwise in Hd.
  { destruct Hd as [[_ Hto]|(_ & _ & (from' & x & n & Ho' & _ & Hx & _))].
    - unfold told_accepted in Hto. rewrite Ho in Hto. rewrite decide_True in Hto by done. exact Hto.
    - rewrite Ho in Ho'. simplify_eq. destruct Hx; [done|lia]. }
  specialize (Hburn Hdn).
  destruct c; try discriminate Ho; simpl in Ho; injection Ho as <- <- <-; cbn [rules created_of] in *.
  1,2: unfold withdraw_rules; apply Forall_app; split; [|exact Hburn];
    repeat (apply Forall_cons; split); cbn [fst]; [lia|by apply Hrec|by apply Hrec|by apply Forall_nil].
  1,2: unfold create_rules; apply Forall_cons; split; [simpl; lia|exact Hburn].
Qed.

(** A deposit of more than the fee is credited, as long as the supply fits 128 bits. *)
Theorem C78_deposit_succeeds w now caller cycles to m sync w' resp :
  reachable w -> ev_ok w (EvCall now caller (CallDeposit cycles to m) sync) ->
  step w (EvCall now caller (CallDeposit cycles to m) sync) = (w', resp) ->
  icrc1_fee < cycles -> icrc1_total_supply (w_led w) + (cycles - icrc1_fee) < 2 ^ 128 ->
  memo_fits m ->
  resp = RespReply (RepDeposit (N.of_nat (length (blocks (w_led w)))) (icrc1_balance_of (w_led w') to)).
Proof.
  intros Hr Hev Hst Hc Hsup Hm.
  destruct (C50_answer _ _ _ _ _ _ _ Hr Hev Hst) as (dup & _ & Hd).
  eapply decided_otherwise in Hd.
  { destruct Hd as [[_ Hto]|(_ & _ & (? & ? & ? & Ho & _))]; [|done]. exact Hto. }
  cbn [rules]. unfold deposit_rules.
  repeat (apply Forall_cons; split); cbn [fst]; [..|by apply Forall_nil].
  - lia.
  - lia.
  - intros (b & -> & ?). simpl in Hm. lia.
Qed.

End WithEnv.

(** ** Non-vacuity *)
Local Ltac demo :=
  split; [apply demo_at_reachable; vm_compute; reflexivity|];
  split; [apply ev_okb_ok; vm_compute; reflexivity|]; vm_compute; reflexivity.

(** alice has allowed bob 5 T until an hour later.  One cycle more than that allows, and
    the same after the allowance has run out: both refusals are truthful. *)
Example C19_case_refused :
  answers (demo_at 3)
    (EvCall (T0 + 4 * sec) bob
       (CallTransferFrom None (acct alice) (acct carol) (5 * T - icrc1_fee + 1) None None None) None)
    (RespReply (RepTransferFrom (Err (TFInsufficientAllowance (5 * T)))))
  /\ (usable (w_led (demo_at 3)) (T0 + 4 * sec) (acct alice) (acct bob)).1 = 5 * T
  /\ answers (demo_at 3)
    (EvCall (T0 + 3600 * sec) bob
       (CallTransferFrom None (acct alice) (acct carol) 0 None None None) None)
    (RespReply (RepTransferFrom (Err (TFGenericError 100003))))
  /\ (usable (w_led (demo_at 3)) (T0 + 3600 * sec) (acct alice) (acct bob)).1 = 0.
Proof. split; [demo|]. split; [by vm_compute|]. split; [demo|by vm_compute]. Qed.

(** All of the allowance, up to its last moment; everything in the account; an approval
    at the last moment of its life; a withdrawal and a creation *)
Example C78_case :
  answers (demo_at 3)
    (EvCall (T0 + 3600 * sec - 1) bob
       (CallTransferFrom None (acct alice) (acct carol) (5 * T - icrc1_fee) None None None) None)
    (RespReply (RepTransferFrom (Ok 4)))
  /\ may_draw (w_led (demo_at 3)) (T0 + 3600 * sec - 1) (acct alice) (acct bob) (5 * T)
  /\ answers (demo_at 3)
    (EvCall (T0 + 4 * sec) alice
       (CallTransferFrom None (acct alice) (acct carol)
          (icrc1_balance_of (w_led (demo_at 3)) (acct alice) - icrc1_fee) None None None) None)
    (RespReply (RepTransferFrom (Ok 4)))
  /\ may_draw (w_led (demo_at 3)) (T0 + 4 * sec) (acct alice) (acct alice) (100 * T)
  /\ answers (demo_at 3)
    (EvCall (T0 + 4 * sec) alice
       (CallApprove None (acct bob) 7 (Some (5 * T)) (Some (T0 + 4 * sec + 1)) None None None) None)
    (RespReply (RepApprove (Ok 4)))
  /\ answers (demo_at 3)
    (EvCall (T0 + 4 * sec) bob (CallWithdrawFrom None (acct alice) canister None (5 * T - icrc1_fee)) None)
    (RespPending 0 (OutDepositCycles canister (5 * T - icrc1_fee)))
  /\ can_receive canister
  /\ answers (demo_at 3)
    (EvCall (T0 + 4 * sec) bob (CallCreateCanisterFrom (acct alice) None None 0 None) None)
    (RespPending 0 (OutCmcCreate (cmc_argument bob None) 0))
  /\ answers (demo_at 3)
    (EvCall (T0 + 4 * sec) bob (CallDeposit (icrc1_fee + 1) (acct carol) None) None)
    (RespReply (RepDeposit 4 7000000000001)).
Proof.
  split; [demo|]. split; [intros _; by vm_compute|]. split; [demo|].
  split; [intros Hne; exfalso; by apply Hne|]. split; [demo|]. split; [demo|].
  split; [by vm_compute|]. split; demo.
Qed.

Print Assumptions C19_refusals_are_truthful.
Print Assumptions C78_transfer_from_succeeds.
Print Assumptions C78_approve_succeeds.
Print Assumptions C78_outgoing_succeeds.
Print Assumptions C78_deposit_succeeds.
