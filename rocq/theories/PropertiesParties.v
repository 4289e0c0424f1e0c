(** * A message touches only the accounts it names

    C76 *)
From Verif Require Import Base Types Codec CodecFacts CodecProofs State Ledger Canister Effects Spec ApiSpec
  Inv Steps World CallFacts CallCases StepFacts AllowFacts RefundFacts AsyncFacts EventFacts
  PropertiesLog PropertiesDedup PropertiesCalls PropertiesAuth PropertiesQuery PropertiesRefund
  PropertiesHistory Demo.

(** ** Specification *)

(** The accounts whose balance a call may change *)
Definition paid_or_charged (caller : principal) (c : call) : list account :=
  match c with
  | CallDeposit _ to _ => [to]
  | CallTransfer sub to _ _ _ _ => [Acct caller sub; to]
  | CallTransferFrom _ from to _ _ _ _ => [from; to]
  | CallApprove sub _ _ _ _ _ _ _ => [Acct caller sub]
  | CallWithdraw sub _ _ _ => [Acct caller sub]
  | CallWithdrawFrom _ from _ _ _ => [from]
  | CallCreateCanister sub _ _ _ => [Acct caller sub]
  | CallCreateCanisterFrom from _ _ _ _ => [from]
  end.
(** The owner and spender whose allowance a call may change *)
Definition allowance_touched (caller : principal) (c : call) : option (account * account) :=
  match c with
  | CallApprove sub sp _ _ _ _ _ _ => Some (Acct caller sub, sp)
  | CallTransferFrom sub from _ _ _ _ _ => Some (from, Acct caller sub)
  | CallWithdrawFrom sub from _ _ _ => Some (from, Acct caller sub)
  | CallCreateCanisterFrom from sub _ _ _ => Some (from, Acct caller sub)
  | _ => None
  end.

(** The call that a message is about: the call itself, or the earlier call whose
    outgoing call is answered.  An upgrade is about no call. *)
Definition about (before : list (event * response)) (ev : event) (caller : principal) (c : call) : Prop :=
  match ev with
  | EvCall _ caller' c' _ => caller = caller' /\ c = c'
  | EvReply _ id _ _ => exists t sync o, (EvCall t caller c sync, RespPending id o) ∈ before
  | _ => False
  end.

Section WithEnv.
Context `{Env}.

(** Everything a block may touch is what its call named. *)
Definition block_within (caller : principal) (c : call) (b : block) : Prop :=
  (forall k, (forall a, a ∈ paid_or_charged caller c -> to_key a <> k) -> given b k = 0 /\ taken b k = 0)
  /\ (forall k, (forall f p, allowance_touched caller c = Some (f, p) -> (to_key f, to_key p) <> k) ->
        (forall v, approved_by b <> Some (k, v)) /\ (forall n, spent_by b <> Some (k, n))).

Lemma requested_within caller c b : b_tx b = requested caller c -> block_within caller c b.
Proof.
  intros E. unfold block_within, given, taken, approved_by, spent_by. rewrite E.
  split.
  - intros k Hk. destruct c; cbn [requested tx_op paid_or_charged] in *;
      repeat case_decide; subst; try done;
      exfalso; (eapply Hk; [|reflexivity]); set_solver.
  - intros k Hk. destruct c; cbn [requested tx_op allowance_touched] in *;
      (split; [intros v Hv|intros n Hn]); repeat case_decide; simplify_eq; by eapply Hk.
Qed.
Lemma refund_within now caller c from sp amount returned l b :
  outgoing caller c = Some (from, sp, amount) -> refund_recorded now c from sp returned l -> b ∈ l ->
  block_within caller c b.
Proof.
  intros Ho (_ & b1 & H1 & _ & Hl) Hb.
  assert (from ∈ paid_or_charged caller c) as Hin by (destruct c; simplify_eq/=; set_solver).
  assert (forall x, sp = Some x -> allowance_touched caller c = Some (from, x)) as Hat
    by (intros x ->; destruct c; simplify_eq/=; done).
  assert (block_within caller c b1) as Hw1.
  { unfold block_within, given, taken, approved_by, spent_by. rewrite H1. cbn [tx_op]. split; [|done].
    intros k Hk. case_decide; [|done]. subst. by edestruct Hk. }
  destruct Hl as [->|(b2 & x & a & e & -> & -> & _ & H2)].
  { by apply elem_of_list_singleton in Hb as ->. }
  apply elem_of_cons in Hb as [->|Hb]; [done|]. apply elem_of_list_singleton in Hb as ->.
  unfold block_within, given, taken, approved_by, spent_by. rewrite H2. cbn [tx_op]. split.
  - intros k Hk. split; [done|]. case_decide; [|done]. subst. by edestruct Hk.
  - intros k Hk. split; [|done]. intros v Hv. simplify_eq. eapply Hk; [by apply Hat|done].
Qed.

Lemma log_balance_untouched k bs new :
  (forall b, b ∈ new -> given b k = 0 /\ taken b k = 0) -> log_balance (bs ++ new) k = log_balance bs k.
Proof.
  intros Hn. induction bs as [|b bs IH]; simpl; [|by rewrite IH].
  induction new as [|b new IH]; simpl; [done|].
  destruct (Hn b) as [-> ->]; [by left|]. rewrite IH; [done|]. intros b' Hb'. apply Hn. by right.
Qed.

(** ** C76 *)

(** A message changes no balance other than those of the accounts named by the call it
    is about, and no allowance other than the one that call sets or draws on. *)
Theorem C76_only_the_named_accounts now0 cycles args w0 tr w ev w' resp :
  is_u64 now0 -> wf_ledger_args args -> init_world now0 cycles args = Some w0 -> steps w0 tr w ->
  ev_ok w ev -> step w ev = (w', resp) ->
  (forall a,
     (forall caller c x, about tr ev caller c -> x ∈ paid_or_charged caller c -> ~ same_account x a) ->
     icrc1_balance_of (w_led w') a = icrc1_balance_of (w_led w) a)
  /\ (forall tm f p,
        w_clock w' <= tm ->
        (forall caller c x y, about tr ev caller c -> allowance_touched caller c = Some (x, y) ->
           ~ (same_account x f /\ same_account y p)) ->
        usable (w_led w') tm f p = usable (w_led w) tm f p).
Proof.
  intros Hu Hwf Hi Hs Hev Hst. assert (reachable w0) as Hr0 by (by econstructor).
  pose proof (reachable_steps _ _ _ Hr0 Hs) as Hr.
  assert (reachable w') as Hr' by (replace w' with (step w ev).1 by (by rewrite Hst); by constructor).
  assert (waiting_explained tr w) as Hw.
  { assert (forall pre v tr v', reachable v -> steps v tr v' -> waiting_explained pre v ->
              waiting_explained (pre ++ tr) v') as Hgo.
    { clear. intros pre v tr v' Hr Hs. revert pre. induction Hs as [v|v ev tr v' Hev Hs IH]; intros pre Hw.
      - by rewrite app_nil_r.
      - specialize (IH (reach_step _ _ Hr Hev) (pre ++ [(ev, (step v ev).2)])).
        rewrite <- app_assoc in IH. apply IH. apply (waiting_step _ v ev); [done|done| |done].
        by destruct (step v ev). }
    apply (Hgo [] w0); [done|done|]. intros id p.
    unfold init_world in Hi. destruct (init now0 args empty_state) as [s [[]| |]]; [|done|done].
    injection Hi as <-. cbn [w_pend]. by rewrite lookup_empty. }
  destruct (event_accounts _ _ _ _ _ Hr Hev Hst Hw) as (new & Hb & Hacc).
  assert (new = [] \/ exists caller c, about tr ev caller c /\ forall b, b ∈ new -> block_within caller c b)
    as Hnew.
  { destruct ev as [now caller c sync|now id ans refund|now u|n|n|now id refund]; cbn [accounts_for] in Hacc;
      [| |by left|by left|by left|by left].
    - right. exists caller, c. split; [done|].
      destruct (rejected resp); [subst new; intros b Hb0; by apply elem_of_nil in Hb0|].
      destruct Hacc as (b1 & rest & -> & Ht & _ & Hrest). intros b [->|Hbr]%elem_of_cons.
      + by apply requested_within.
      + destruct Hrest as [->|(from & sp & amount & Ho & _ & Hre)]; [by apply elem_of_nil in Hbr|].
        by eapply refund_within.
    - destruct Hacc as [->|(t & caller & c & sync & o & from & sp & amount & returned & code & Hin & Ho & _ & Hre)];
        [by left|right].
      exists caller, c. split; [by exists t, sync, o|]. intros b Hb0. by eapply refund_within. }
  split.
  - intros a Ha. apply N2Z.inj. rewrite !C02_log_determines_balances by done. rewrite Hb.
    destruct Hnew as [->|(caller & c & Hab & Hin)]; [by rewrite app_nil_r|].
    apply log_balance_untouched. intros b Hb0. apply (Hin b Hb0). intros x Hx E.
    by eapply (Ha caller c x); [exact Hab|exact Hx|apply key_same].
  - intros tm f p Htm Hfp.
    assert (w_clock w <= w_clock w') as Hclk.
    { apply (steps_clock _ [(ev, resp)] _ Hr). assert (w' = (step w ev).1 /\ resp = (step w ev).2) as [-> ->]
        by (by rewrite Hst). constructor; [done|constructor]. }
    rewrite !usable_live by (done || lia). unfold live_allowance. rewrite Hb.
    destruct Hnew as [->|(caller & c & Hab & Hin)]; [by rewrite app_nil_r|].
    rewrite log_allowance_untouched; [done|]. intros b Hb0. apply (Hin b Hb0). intros x y Hxy E.
    pose proof (f_equal fst E) as E1. pose proof (f_equal snd E) as E2. eapply (Hfp caller c x y); [done|done|]. split; by apply key_same.
Qed.

End WithEnv.

(** ** A case: the answer to the failed withdrawal of the demo history (the seventh
    message) changes alice's balance and bob's allowance from alice, and nothing of
    carol, who was paid from that allowance earlier, nor of alice's other subaccounts *)
Definition before_answer : world := the_world (history T0 (100 * T) demo_init (take 6 demo_events)).
Definition failed_answer : event :=
  EvReply (T0 + 7 * sec) 0 (AnsDeposit (Err (CECallRejected (Some RejDestinationInvalid)))) T.
Example C76_case :
  exists w0 tr, is_u64 T0 /\ wf_ledger_args demo_init /\ init_world T0 (100 * T) demo_init = Some w0
    /\ steps w0 tr before_answer /\ map fst tr = take 6 demo_events /\ ev_ok before_answer failed_answer
    /\ let w' := (step before_answer failed_answer).1 in
       icrc1_balance_of (w_led w') (acct alice)
         = icrc1_balance_of (w_led before_answer) (acct alice) + T - 2 * 100000000
    /\ icrc1_balance_of (w_led before_answer) (acct carol) = 8 * T
    /\ icrc1_balance_of (w_led w') (acct carol) = 8 * T
    /\ icrc1_balance_of (w_led w') (Acct alice (Some 5)) = 0
    /\ (usable (w_led before_answer) (T0 + 7 * sec) (acct alice) (acct bob)).1
       < (usable (w_led w') (T0 + 7 * sec) (acct alice) (acct bob)).1.
Proof.
  destruct (history_steps T0 (100 * T) demo_init (take 6 demo_events)) as (w0 & tr & H1 & H2 & H3 & H4 & H5);
    [vm_compute; reflexivity|].
  exists w0, tr. split; [exact H1|]. split; [exact H2|]. split; [exact H3|]. split; [exact H4|].
  split; [exact H5|]. split; [apply ev_okb_ok; vm_compute; reflexivity|].
  split; [vm_compute; reflexivity|]. split; [vm_compute; reflexivity|]. split; [vm_compute; reflexivity|].
  split; [vm_compute; reflexivity|]. vm_compute; reflexivity.
Qed.

Print Assumptions C76_only_the_named_accounts.
