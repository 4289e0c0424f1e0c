(** * Retries and respelled transactions

    C45, C46: the universal statements behind the examples of
    [PropertiesDedup.v]. *)
From Verif Require Import Base Types Codec CodecFacts CodecProofs State Ledger Canister Effects Spec ApiSpec
  Inv Steps World CallFacts CallCases StepFacts DedupFacts PropertiesDedup PropertiesLog PropertiesCalls Demo.

Section WithEnv.
Context `{Env}.

(** ** C45: a transfer that is in the log with its default subaccounts spelled
    one way is executed once more when it is submitted spelled the other way:
    within the window, with enough funds, unless that spelling is in the log as
    well or its hash clashes with one in the log. *)
Theorem C45_respelled_transfer_executes w i b caller sub1 to1 sub2 to2 amount fee m created now sync w' resp :
  let c := CallTransfer sub2 to2 amount fee m (Some created) in
  reachable w -> ev_ok w (EvCall now caller c sync) ->
  (* the first was executed *)
  blocks (w_led w) !! i = Some b ->
  b_tx b = requested caller (CallTransfer sub1 to1 amount fee m (Some created)) ->
  (* the second names the same accounts *)
  to_key (Acct caller sub1) = to_key (Acct caller sub2) -> to_key to1 = to_key to2 ->
  (* and was not executed yet *)
  (forall b', b' ∈ blocks (w_led w) -> b_tx b' <> requested caller c) ->
  in_window created now ->
  amount + icrc1_fee <= icrc1_balance_of (w_led w) (Acct caller sub2) ->
  (to_key to2 = to_key (Acct caller sub2) ->
     icrc1_balance_of (w_led w) (Acct caller sub2) + amount < 2 ^ 128) ->
  step w (EvCall now caller c sync) = (w', resp) ->
  resp = RespReply (RepTransfer (Ok (N.of_nat (length (blocks (w_led w))))))
  \/ exists b', b' ∈ blocks (w_led w) /\ hash_clash (b_tx b') (requested caller c).
Proof.
  intros c Hr Hev Hb Ht Hk1 Hk2 Hnew Hwin Hbal Hself Hst.
  destruct (duplicate_of resp) as [j|] eqn:Ed.
  { right. destruct (C09_duplicate_is_honest _ _ _ _ _ _ _ _ Hr Hev Hst Ed) as (_ & b' & Hb' & [Hx|Hx]).
    - exfalso. by eapply Hnew; [by eapply elem_of_list_lookup_2|].
    - exists b'. split; [by eapply elem_of_list_lookup_2|done]. }
  left. destruct (inv_blk _ _ (reachable_inv _ Hr) _ _ Hb) as [((_ & _ & Hm & _) & _ & _ & Hs & _) _].
  rewrite Ht in Hm, Hs. simpl in Hm, Hs. destruct Hs as (Hp1 & Hp2 & _ & Hfee).
  unfold to_key in Hk1, Hk2. cbn in Hk1.
  eapply C13_funded_transfer_succeeds_partial; try done.
  - by apply memo_fits_ok.
  - unfold permitted. injection Hk2 as Ho _. by rewrite <- Ho.
Qed.

(** ** C46: once a call was accepted, sending it again never executes it again,
    whatever happened in between, including a failed delivery and its refund;
    inside the window the answer is [Duplicate] with the block of the first. *)
Theorem C46_retry_after_any_outcome w now caller c sync w1 resp created tr w2 now2 sync2 w3 resp2 :
  reachable w -> ev_ok w (EvCall now caller c sync) ->
  step w (EvCall now caller c sync) = (w1, resp) ->
  rejected resp = false -> created_of c = Some created ->
  steps w1 tr w2 ->
  ev_ok w2 (EvCall now2 caller c sync2) ->
  step w2 (EvCall now2 caller c sync2) = (w3, resp2) ->
  rejected resp2 = true /\ unchanged w2 w3
  /\ (now2 <= created + DAY + MINUTE ->
      duplicate_of resp2 = Some (N.of_nat (length (blocks (w_led w))))
      \/ exists j bj, duplicate_of resp2 = Some j /\ blocks (w_led w2) !! N.to_nat j = Some bj
           /\ hash_clash (b_tx bj) (requested caller c)).
Proof.
  intros Hr Hev Hst Hrej Hc Hs Hev2 Hst2.
  destruct (step_accepted _ _ _ _ _ _ _ Hr Hev Hst Hrej) as (_ & r & Ha & _).
  destruct (call_inv _ _ _ _ _ Hr Hev) as (Hi & _).
  destruct (accepted_block _ _ _ _ _ _ _ _ Hi Ha) as [rest Hbs].
  assert (reachable w1) as Hr1.
  { replace w1 with (step w (EvCall now caller c sync)).1 by (by rewrite Hst). by constructor. }
  assert (reachable w2) as Hr2 by (by eapply reachable_steps).
  assert (blocks (w_led w2) !! length (blocks (w_led w))
          = Some (mk_block now (requested caller c) (w_led w))) as Hb.
  { eapply prefix_lookup; [|by eapply (steps_prefix w1)]. rewrite Hbs. by apply list_lookup_middle. }
  assert (b_tx (mk_block now (requested caller c) (w_led w)) = requested caller c) as Hbt by done.
  destruct (C07_never_accepted_twice _ _ _ _ _ _ _ _ _ Hr2 Hev2 Hb Hbt ltac:(by rewrite Hc) Hst2) as [H1 H2].
  split; [done|]. split; [done|]. intros Hw.
  destruct (C08_retry_is_duplicate w2 now2 caller c sync2 (N.of_nat (length (blocks (w_led w)))) _ created w3 resp2
    Hr2 Hev2 ltac:(by rewrite Nat2N.id) Hbt Hc Hw Hst2) as (_ & _ & Hd).
  by rewrite Hbt in Hd.
Qed.

End WithEnv.

(** ** Cases that meet the hypotheses *)
(** C45: Alice's transfer, then the same with the zero subaccount written out *)
Definition respell_at : world :=
  the_world (history T0 (100 * T) demo_init
    (demo_events ++ [EvCall (T0 + 20 * sec) alice
       (CallTransfer None (acct bob) T None None (Some (T0 + 20 * sec))) None])).
Example C45_case :
  let c := CallTransfer (Some 0) (acct bob) T None None (Some (T0 + 20 * sec)) in
  reachable respell_at /\ ev_ok respell_at (EvCall (T0 + 21 * sec) alice c None)
  /\ b_tx (block_at respell_at 10)
     = requested alice (CallTransfer None (acct bob) T None None (Some (T0 + 20 * sec)))
  /\ to_key (Acct alice None) = to_key (Acct alice (Some 0))
  /\ in_window (T0 + 20 * sec) (T0 + 21 * sec)
  /\ T + icrc1_fee <= icrc1_balance_of (w_led respell_at) (Acct alice (Some 0))
  /\ (step respell_at (EvCall (T0 + 21 * sec) alice c None)).2 = RespReply (RepTransfer (Ok 11)).
Proof.
  cbv zeta. split; [apply the_world_reachable; vm_compute; reflexivity|].
  split; [apply ev_okb_ok; vm_compute; reflexivity|]. split; [vm_compute; reflexivity|].
  split; [reflexivity|]. split; [split; by vm_compute|]. split; [by vm_compute|]. vm_compute. reflexivity.
Qed.

(** C46: a withdrawal that fails, is refunded and is tried again *)
Example C46_case :
  let c := CallWithdraw None canister (Some (T0 + 20 * sec)) T in
  let call := EvCall (T0 + 20 * sec) alice c None in
  let fails := EvReply (T0 + 21 * sec) 3 (AnsDeposit (Err (CECallRejected (Some RejDestinationInvalid)))) T in
  let w1 := (step demo_world call).1 in
  let w2 := (step w1 fails).1 in
  ev_ok demo_world call /\ rejected (step demo_world call).2 = false
  /\ ev_ok w1 fails /\ (step w1 fails).2 = RespReply (RepWithdraw (Err (WFailedToWithdraw (Some 11) RDestinationInvalid)))
  /\ ev_ok w2 (EvCall (T0 + 22 * sec) alice c None)
  /\ (step w2 (EvCall (T0 + 22 * sec) alice c None)).2 = RespReply (RepWithdraw (Err (WDuplicate 10))).
Proof.
  cbv zeta. split; [apply ev_okb_ok; vm_compute; reflexivity|]. split; [vm_compute; reflexivity|].
  split; [apply ev_okb_ok; vm_compute; reflexivity|]. split; [vm_compute; reflexivity|].
  split; [apply ev_okb_ok; vm_compute; reflexivity|]. vm_compute. reflexivity.
Qed.

Print Assumptions C45_respelled_transfer_executes.
Print Assumptions C46_retry_after_any_outcome.
