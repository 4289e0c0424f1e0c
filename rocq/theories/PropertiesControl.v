(** * Owners stay in control of what they own

    C61 *)
From Verif Require Import Base Types Codec CodecFacts CodecProofs State Ledger Canister Effects Spec ApiSpec
  AnswerSpec Inv Steps World CallFacts CallCases StepFacts AllowFacts DedupFacts PropertiesDedup
  PropertiesCalls PropertiesAsync PropertiesAuth PropertiesAnswers Demo.

(** If no rule applies, the call is accepted. *)
Lemma no_rule rules told otherwise :
  decided rules told otherwise -> Forall (fun r => ~ r.1) rules -> otherwise.
Proof.
  induction rules as [|[c r] rules IH]; simpl; [done|]. intros [_ Hd] Hf.
  apply List.Forall_cons_iff in Hf as [Hc Hf]. by apply IH; [apply Hd|].
Qed.

Section WithEnv.
Context `{Env}.

(** No recorded transaction has the hash of [t] by accident. *)
Definition no_accident (w : world) (t : transaction) : Prop :=
  forall b, b ∈ blocks (w_led w) -> ~ hash_clash (b_tx b) t.

Lemma not_remembered w now caller c sync dup :
  reachable w -> ev_ok w (EvCall now caller c sync) -> created_of c = None -> no_accident w (requested caller c) ->
  checkable c ->
  remembers (w_led w) now (requested caller c) dup -> dup = None.
Proof.
  intros Hr (_ & Hcl & Hwf) Hc Hna Hch Hrem. destruct dup as [[i x]|]; [exfalso|done].
  destruct Hrem as [_ (b & ts & Hb & Hh & Hts)].
  destruct (checkable_wf caller c Hcl Hwf Hch) as [Hw1 Hw2].
  apply elem_of_list_lookup in Hb as [j Hb].
  destruct (inv_blk _ _ (reachable_inv _ Hr) _ _ Hb) as [((Hwj1 & Hwj2 & _) & _) _].
  rewrite !tx_hash_txh in Hh. injection Hh as Hh.
  destruct (same_hash _ _ Hwj1 Hwj2 Hw1 Hw2 Hh) as [E|E].
  - rewrite E in Hts. destruct c; simpl in *; congruence.
  - eapply Hna; [by eapply elem_of_list_lookup_2|done].
Qed.

Lemma balance_supply w a : reachable w -> icrc1_balance_of (w_led w) a <= icrc1_total_supply (w_led w) < 2 ^ 128.
Proof.
  intros Hr. pose proof (inv_supply _ _ (reachable_inv _ Hr)) as Hs.
  split; [exact (supply_bal (w_led w) (to_key a) Hs)|apply Hs].
Qed.

Lemma not_self_auth to : to !! 28%nat <> Some Byte.x02 -> is_self_authenticating to = false.
Proof.
  unfold is_self_authenticating. intros Hne. destruct (to !! 28%nat) as [b|]; [|done].
  case_bool_decide; [|done]. by subst b.
Qed.

(** ** Cycles can be taken out *)
(** As long as the ledger holds the cycles that back the supply, an owner can have
    any part of their balance sent to any canister: the call is never refused,
    the cycles go out at once.  Nobody else's consent or state matters. *)
Theorem C61_owner_can_withdraw w now caller sub to amount w' resp :
  let c := CallWithdraw sub to None amount in
  reachable w -> ev_ok w (EvCall now caller c None) -> step w (EvCall now caller c None) = (w', resp) ->
  0 < amount -> amount + icrc1_fee <= icrc1_balance_of (w_led w) (Acct caller sub) ->
  to !! 28%nat <> Some Byte.x02 ->
  icrc1_total_supply (w_led w) <= w_cycles w -> no_accident w (requested caller c) ->
  resp = RespPending (w_next w) (OutDepositCycles to amount)
  /\ w_cycles w' + amount = w_cycles w.
Proof.
  intros c Hr Hev Hst Ha Hb Hto Hsup Hna.
  destruct (balance_supply w (Acct caller sub) Hr) as [Hbs Hlt].
  destruct (C50_answer _ _ _ _ _ _ _ Hr Hev Hst) as (dup & Hrem & Hd).
  apply (not_remembered _ _ _ _ _ _ Hr Hev eq_refl Hna) in Hrem as ->; [|unfold c; cbn; change U128_MOD with (2 ^ 128);
    split; [lia|split; [lia|by apply not_self_auth]]].
  apply no_rule in Hd.
  - destruct Hd as [[_ Hd]|(_ & _ & Hcorner)].
    + unfold told_accepted in Hd. cbn [outgoing c] in Hd.
      rewrite decide_True in Hd by (split; [done|lia]). cbn in Hd. injection Hd as <-. split; [done|].
      destruct (waiting_facts _ _ _ _ _ _ _ _ Hr Hev Hst) as (_ & p & Hp & _ & _ & _ & _ & Hc & _).
      cbn in Hp. injection Hp as <-. cbn in Hc. lia.
    + by destruct Hcorner as (? & ? & ? & ? & _).
  - cbn [rules c]. unfold withdraw_rules, burn_rules, dup_rule, time_rules. cbn [app].
    repeat (apply List.Forall_cons; [cbn [fst]|]); [lia|done|lia| |lia| |lia| | |apply List.Forall_nil].
    + by intros [? ?].
    + by intros (x & ? & _).
    + by intros (t & ? & _).
    + by intros (t & ? & _).
Qed.

(** The same for the creation of a canister. *)
Theorem C61_owner_can_create w now caller sub amount args w' resp :
  let c := CallCreateCanister sub None amount args in
  reachable w -> ev_ok w (EvCall now caller c None) -> step w (EvCall now caller c None) = (w', resp) ->
  amount + icrc1_fee <= icrc1_balance_of (w_led w) (Acct caller sub) ->
  icrc1_total_supply (w_led w) <= w_cycles w -> no_accident w (requested caller c) ->
  resp = RespPending (w_next w) (OutCmcCreate (cmc_argument caller args) amount)
  /\ w_cycles w' + amount = w_cycles w.
Proof.
  intros c Hr Hev Hst Hb Hsup Hna.
  destruct (balance_supply w (Acct caller sub) Hr) as [Hbs Hlt].
  destruct (C50_answer _ _ _ _ _ _ _ Hr Hev Hst) as (dup & Hrem & Hd).
  apply (not_remembered _ _ _ _ _ _ Hr Hev eq_refl Hna) in Hrem as ->;
    [|unfold c; cbn; change U128_MOD with (2 ^ 128); lia].
  apply no_rule in Hd.
  - destruct Hd as [[_ Hd]|(_ & _ & Hcorner)].
    + unfold told_accepted in Hd. cbn [outgoing c] in Hd.
      rewrite decide_True in Hd by (split; [done|lia]). cbn in Hd. injection Hd as <-. split; [done|].
      destruct (waiting_facts _ _ _ _ _ _ _ _ Hr Hev Hst) as (_ & p & Hp & _ & _ & _ & _ & Hc & _).
      cbn in Hp. injection Hp as <-. cbn in Hc. lia.
    + by destruct Hcorner as (? & ? & ? & ? & _).
  - cbn [rules c]. unfold create_rules, burn_rules, dup_rule, time_rules. cbn [app].
    repeat (apply List.Forall_cons; [cbn [fst]|]); [lia| |lia| |lia| | |apply List.Forall_nil].
    + by intros [? ?].
    + by intros (x & ? & _).
    + by intros (t & ? & _).
    + by intros (t & ? & _).
Qed.

(** ** Permissions can be taken back *)
(** An owner who can pay the fee can always revoke: the allowance is gone as soon
    as the call is answered. *)
Theorem C61_owner_can_revoke w now caller sub sp sync w' resp :
  let c := CallApprove sub sp 0 None None None None None in
  reachable w -> ev_ok w (EvCall now caller c sync) -> step w (EvCall now caller c sync) = (w', resp) ->
  icrc1_fee <= icrc1_balance_of (w_led w) (Acct caller sub) ->
  caller <> owner sp -> permitted (Acct caller sub) -> permitted sp -> now < 2 ^ 64 - 1 ->
  no_accident w (requested caller c) ->
  resp = RespReply (RepApprove (Ok (N.of_nat (length (blocks (w_led w))))))
  /\ forall tm, now <= tm -> icrc2_allowance (w_led w') tm (Acct caller sub) sp = (0, None).
Proof.
  intros c Hr Hev Hst Hb Hne Hp1 Hp2 Hnow Hna.
  destruct (C50_answer _ _ _ _ _ _ _ Hr Hev Hst) as (dup & Hrem & Hd).
  apply (not_remembered _ _ _ _ _ _ Hr Hev eq_refl Hna) in Hrem as ->; [|done].
  apply no_rule in Hd.
  - destruct Hd as [[_ Hd]|(_ & _ & Hcorner)]; [|by destruct Hcorner as (? & ? & ? & ? & _)].
    cbn in Hd. subst resp. split; [done|]. intros tm Htm.
    destruct (C16_approve_effect _ _ _ _ _ _ _ _ _ _ _ _ _ _ Hr Hev Hst) as (_ & _ & _ & _ & Hal & _).
    by apply Hal.
  - cbn [rules c]. unfold approve_rules, dup_rule, time_rules. cbn [app].
    repeat (apply List.Forall_cons; [cbn [fst default]|]);
      [by intros (? & ? & _)|by intros (? & ? & _)|by intros [? ?]|done| |by intros (? & ? & _)
      |by intros (? & ? & _)|lia|lia|by intros (? & ? & _)|by intros (? & ? & _)|by intros (? & ? & _)|apply List.Forall_nil].
    intros [Hx|Hx]; by apply Hx.
Qed.

(** ** Permissions can be used *)
(** A spender with a live allowance can move the owner's cycles up to it. *)
Theorem C61_spender_can_transfer w now caller sub from to amount sync w' resp :
  let c := CallTransferFrom sub from to amount None None None in
  reachable w -> ev_ok w (EvCall now caller c sync) -> step w (EvCall now caller c sync) = (w', resp) ->
  amount + icrc1_fee <= icrc1_balance_of (w_led w) from ->
  amount + icrc1_fee <= (usable (w_led w) now from (Acct caller sub)).1 ->
  permitted from -> permitted to -> permitted (Acct caller sub) ->
  icrc1_balance_of (w_led w) to + amount < 2 ^ 128 ->
  no_accident w (requested caller c) ->
  resp = RespReply (RepTransferFrom (Ok (N.of_nat (length (blocks (w_led w)))))).
Proof.
  intros c Hr Hev Hst Hb Hal Hp1 Hp2 Hp3 Hov Hna.
  destruct (balance_supply w from Hr) as [Hbs Hlt].
  destruct (C50_answer _ _ _ _ _ _ _ Hr Hev Hst) as (dup & Hrem & Hd).
  apply (not_remembered _ _ _ _ _ _ Hr Hev eq_refl Hna) in Hrem as ->;
    [|unfold c; cbn; change U128_MOD with (2 ^ 128); split; [lia|done]].
  apply no_rule in Hd.
  - destruct Hd as [[_ Hd]|(_ & _ & Hcorner)]; [|by destruct Hcorner as (? & ? & ? & ? & _)]. exact Hd.
  - cbn [rules c]. unfold transfer_rules, dup_rule, time_rules. cbn [app].
    repeat (apply List.Forall_cons; [cbn [fst]|]);
      [lia|by intros (? & ? & _)|by intros [? ?]| |by intros (? & ? & _)|lia| |lia|lia
      |by intros (? & ? & _)|by intros (? & ? & _)|by intros (? & ? & _)|apply List.Forall_nil].
    + intros [Hx|[Hx|(x & [= <-] & Hx)]]; by apply Hx.
    + intros (x & [= <-] & _ & Hx). lia.
Qed.
End WithEnv.

(** ** Cases that meet the hypotheses *)
Local Ltac demo :=
  split; [apply demo_at_reachable; vm_compute; reflexivity|];
  split; [apply ev_okb_ok; vm_compute; reflexivity|vm_compute; reflexivity].
Lemma no_accident_ok w t :
  forallb (fun b => match tx_hash_value (b_tx b), tx_hash_value t with
                    | Some v1, Some v2 => negb (bool_decide (vhash v1 = vhash v2))
                    | _, _ => false
                    end) (blocks (w_led w)) = true -> no_accident w t.
Proof. intros Hb b Hin. by apply (different_hashes _ _ Hb b Hin). Qed.

Definition w61 : world := demo_at 3.
Definition t61 : N := T0 + 10 * sec.
(** Alice, who holds cycles and has approved bob, withdraws a part ... *)
Example C61_case_withdraw :
  let c := CallWithdraw None canister None T in
  answers w61 (EvCall t61 alice c None) (RespPending (w_next w61) (OutDepositCycles canister T))
  /\ T + icrc1_fee <= icrc1_balance_of (w_led w61) (acct alice)
  /\ canister !! 28%nat <> Some Byte.x02
  /\ icrc1_total_supply (w_led w61) <= w_cycles w61
  /\ no_accident w61 (requested alice c).
Proof.
  cbv zeta. split; [demo|]. split; [vm_compute; congruence|]. split; [vm_compute; congruence|].
  split; [vm_compute; congruence|]. apply no_accident_ok. vm_compute. reflexivity.
Qed.
(** ... creates a canister ... *)
Example C61_case_create :
  let c := CallCreateCanister None None T None in
  answers w61 (EvCall t61 alice c None)
    (RespPending (w_next w61) (OutCmcCreate (cmc_argument alice None) T))
  /\ T + icrc1_fee <= icrc1_balance_of (w_led w61) (acct alice)
  /\ icrc1_total_supply (w_led w61) <= w_cycles w61
  /\ no_accident w61 (requested alice c).
Proof.
  cbv zeta. split; [demo|]. split; [vm_compute; congruence|].
  split; [vm_compute; congruence|]. apply no_accident_ok. vm_compute. reflexivity.
Qed.
(** ... revokes the approval; bob could have used it before. *)
Example C61_case_revoke :
  let c := CallApprove None (acct bob) 0 None None None None None in
  answers w61 (EvCall t61 alice c None) (RespReply (RepApprove (Ok (N.of_nat (length (blocks (w_led w61)))))))
  /\ icrc1_fee <= icrc1_balance_of (w_led w61) (acct alice)
  /\ alice <> owner (acct bob) /\ permitted (acct alice) /\ permitted (acct bob) /\ t61 < 2 ^ 64 - 1
  /\ 0 < (icrc2_allowance (w_led w61) t61 (acct alice) (acct bob)).1
  /\ no_accident w61 (requested alice c).
Proof.
  cbv zeta. split; [demo|]. split; [vm_compute; congruence|]. split; [vm_compute; congruence|].
  split; [vm_compute; congruence|]. split; [vm_compute; congruence|].
  split; [vm_compute; congruence|]. split; [vm_compute; congruence|]. apply no_accident_ok. vm_compute. reflexivity.
Qed.
Example C61_case_spend :
  let c := CallTransferFrom None (acct alice) (acct carol) 7 None None None in
  answers w61 (EvCall t61 bob c None) (RespReply (RepTransferFrom (Ok (N.of_nat (length (blocks (w_led w61)))))))
  /\ 7 + icrc1_fee <= icrc1_balance_of (w_led w61) (acct alice)
  /\ 7 + icrc1_fee <= (usable (w_led w61) t61 (acct alice) (acct bob)).1
  /\ icrc1_balance_of (w_led w61) (acct carol) + 7 < 2 ^ 128
  /\ no_accident w61 (requested bob c).
Proof.
  cbv zeta. split; [demo|]. split; [vm_compute; congruence|]. split; [vm_compute; congruence|].
  split; [vm_compute; congruence|]. apply no_accident_ok. vm_compute. reflexivity.
Qed.

Print Assumptions C61_owner_can_withdraw.
Print Assumptions C61_owner_can_create.
Print Assumptions C61_owner_can_revoke.
Print Assumptions C61_spender_can_transfer.
