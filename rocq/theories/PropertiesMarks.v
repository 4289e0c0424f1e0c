(** * The kind of a block can be read off the block

    C77 *)
From Verif Require Import Base Types Codec CodecFacts CodecProofs State Ledger Canister Effects Spec ApiSpec
  Inv Steps World CallFacts CallCases StepFacts AllowFacts RefundFacts AsyncFacts EventFacts
  PropertiesLog PropertiesDedup PropertiesCodec PropertiesCalls PropertiesAuth PropertiesQuery
  PropertiesHistory Demo.

(** ** Specification: what a reader makes of a block, looking at nothing else *)
Inductive kind :=
| Deposited                          (* a deposit or an initial balance *)
| Refunded (creation : bool)         (* of a failed withdrawal or creation *)
| Withdrawn (receiver : principal)
| CreationPaid
| Transferred
| Approved
| Strange.

(** The receiver that a withdrawal's memo names: a CBOR array of one byte string *)
Definition receiver_in (m : memo) : option principal :=
  match m with
  | Byte.x81 :: h :: rest =>
      let n := Byte.to_N h in
      if (64 <=? n) && (n <? 64 + 24) then
        if N.of_nat (length rest) =? n - 64 then Some rest else None
      else if n =? 88 then
        match rest with
        | k :: rest' => if N.of_nat (length rest') =? Byte.to_N k then Some rest' else None
        | [] => None
        end
      else None
  | _ => None
  end.
Definition kind_of (b : block) : kind :=
  match tx_op (b_tx b), tx_memo (b_tx b) with
  | Mint _ _ fee, m =>
      if fee =? 100000000 then Deposited
      else if bool_decide (fee = 0 /\ m = Some (repeat Byte.xff 32)) then Refunded false
      else if bool_decide (fee = 0 /\ m = Some (repeat Byte.xfd 32)) then Refunded true
      else Strange
  | Burn _ _ _, Some m =>
      if bool_decide (m = repeat Byte.xfe 32) then CreationPaid
      else match receiver_in m with Some to => Withdrawn to | None => Strange end
  | Burn _ _ _, None => Strange
  | Transfer _ _ _ _ _, _ => Transferred
  | Approve _ _ _ _ _ _, _ => Approved
  end.

(** What each kind tells the reader about the history: [before] is the list of messages
    handled so far, [initial] the balances given at installation. *)
Definition creates (c : call) : bool :=
  match c with
  | CallCreateCanister _ _ _ _ => true
  | CallCreateCanisterFrom _ _ _ _ _ => true
  | _ => false
  end.
Definition withdraws_to (c : call) : option principal :=
  match c with
  | CallWithdraw _ to _ _ => Some to
  | CallWithdrawFrom _ _ to _ _ => Some to
  | _ => None
  end.
Definition accepted_in (before : list (event * response)) (now : N) (caller : principal) (c : call) : Prop :=
  exists sync resp, (EvCall now caller c sync, resp) ∈ before /\ rejected resp = false.

Definition kind_means (initial : list (account * N)) (now0 : N) (tr : list (event * response))
  (b : block) : Prop :=
  match kind_of b with
  | Deposited =>
      exists to n, tx_op (b_tx b) = Mint to n 100000000
      /\ ((to, n) ∈ initial /\ b_timestamp b = now0
          \/ exists caller cycles, n = cycles - 100000000
             /\ accepted_in tr (b_timestamp b) caller (CallDeposit cycles to (tx_memo (b_tx b))))
  | Refunded creation =>
      exists from n t caller c sp amount, tx_op (b_tx b) = Mint from n 0
      /\ accepted_in tr t caller c /\ outgoing caller c = Some (from, sp, amount) /\ creates c = creation
  | Withdrawn to =>
      exists from sp amount caller c, tx_op (b_tx b) = Burn from sp amount
      /\ accepted_in tr (b_timestamp b) caller c /\ outgoing caller c = Some (from, sp, amount)
      /\ withdraws_to c = Some to
  | CreationPaid =>
      exists from sp amount caller c, tx_op (b_tx b) = Burn from sp amount
      /\ accepted_in tr (b_timestamp b) caller c /\ outgoing caller c = Some (from, sp, amount)
      /\ creates c = true
  | Transferred =>
      exists caller c from to sp amount fee, tx_op (b_tx b) = Transfer from to sp amount fee
      /\ accepted_in tr (b_timestamp b) caller c
      /\ match c with
         | CallTransfer sub to' amount' fee' m created =>
             from = Acct caller sub /\ sp = None /\ (to, amount, fee) = (to', amount', fee')
             /\ (tx_memo (b_tx b), tx_created_at (b_tx b)) = (m, created)
         | CallTransferFrom sub from' to' amount' fee' m created =>
             from = from' /\ sp = Some (Acct caller sub) /\ (to, amount, fee) = (to', amount', fee')
             /\ (tx_memo (b_tx b), tx_created_at (b_tx b)) = (m, created)
         | _ => False
         end
  | Approved =>
      exists from x amount expected expires fee, tx_op (b_tx b) = Approve from x amount expected expires fee
      /\ ((exists sub asked m created, from = Acct (owner from) sub /\ amount = N.min asked (2 ^ 128 - 1)
            /\ accepted_in tr (b_timestamp b) (owner from)
                 (CallApprove sub x asked expected expires fee m created)
            /\ (tx_memo (b_tx b), tx_created_at (b_tx b)) = (m, created))
          \/ (tx_memo (b_tx b) = Some (repeat Byte.xff 32) /\ tx_created_at (b_tx b) = None
              /\ expected = None /\ fee = None
              /\ exists t c n, accepted_in tr t (owner x) c /\ outgoing (owner x) c = Some (from, Some x, n)))
  | Strange => False
  end.

Section WithEnv.
Context `{Env}.

Lemma receiver_in_memo to : (length to <= 29)%nat -> receiver_in (encode_withdraw_memo to) = Some to.
Proof.
  intros Hp. destruct (C37_memo_bytes to Hp) as [-> _]. unfold receiver_in.
  destruct (Nat.ltb_spec (length to) 24).
  - cbn [app]. rewrite to_N_byte_of, N.mod_small by lia.
    destruct (N.leb_spec 64 (64 + N.of_nat (length to))); [|lia].
    destruct (N.ltb_spec (64 + N.of_nat (length to)) (64 + 24)); [|lia]. cbn [andb].
    destruct (N.eqb_spec (N.of_nat (length to)) (64 + N.of_nat (length to) - 64)); [done|lia].
  - cbn [app]. change (Byte.to_N Byte.x58) with 88.
    change ((64 <=? 88) && (88 <? 64 + 24)) with false. change (88 =? 88) with true. cbv iota.
    rewrite to_N_byte_of, N.mod_small by lia. by rewrite N.eqb_refl.
Qed.

Lemma accepted_wf w0 tr w now caller c sync resp :
  reachable w0 -> steps w0 tr w -> (EvCall now caller c sync, resp) ∈ tr -> wf_principal caller /\ wf_call c.
Proof.
  intros Hr Hs. induction Hs as [|v ev tr v' Hev Hs IH]; intros Hin; [by apply elem_of_nil in Hin|].
  apply elem_of_cons in Hin as [E|Hin]; [|apply IH; [by constructor|done]].
  injection E as <- _. destruct (call_inv _ _ _ _ _ Hr Hev) as (_ & _ & ? & ?). done.
Qed.

(** ** C77 *)
Theorem C77_kind_of_a_block now0 cycles c w0 tr w b :
  is_u64 now0 -> wf_ledger_args (LInit c) -> init_world now0 cycles (LInit c) = Some w0 -> steps w0 tr w ->
  b ∈ blocks (w_led w) -> kind_means (default [] (initial_balances c)) now0 tr b.
Proof.
  intros Hu Hwf Hi Hs Hb. assert (reachable w0) as Hr0 by (by econstructor).
  destruct (C54_no_block_without_a_call _ _ _ _ _ _ _ Hu Hwf Hi Hs Hb)
    as [Hb0|[(caller & k & sync & resp & Hin & Hrj & Ht & _)
            |(t & caller & k & sync & resp & from & sp & amount & Hin & Hrj & Ho & Hcase)]].
  - destruct (C41_initial_balances now0 cycles c) as [_ Hini].
    destruct (Hini w0 Hi) as (_ & _ & Hfa & _).
    apply elem_of_list_lookup_1 in Hb0 as [j Hj].
    destruct (Forall2_lookup_l _ _ _ _ _ Hfa Hj) as ([a n] & Ha & Hop & _ & _ & Hts).
    apply elem_of_list_lookup_2 in Ha. cbn [fst snd] in Hop.
    unfold kind_means, kind_of. rewrite Hop. change (icrc1_fee =? 100000000) with true. cbv iota.
    exists a, n. split; [done|]. by left.
  - assert (accepted_in tr (b_timestamp b) caller k) as Hacc by (by exists sync, resp).
    destruct (accepted_wf _ _ _ _ _ _ _ _ Hr0 Hs Hin) as [Hcl Hwfc].
    unfold kind_means, kind_of. rewrite Ht.
    destruct k as [n to m|sub to a fee m created|sub from to a fee m created
      |sub sp a expected expires fee m created|sub to created a|sub from to created a
      |sub created a args|from sub created a args]; cbn [requested tx_op tx_memo tx_created_at];
      rewrite ?(bool_decide_eq_true_2 (CREATE_CANISTER_MEMO = repeat Byte.xfe 32)) by done.
    + change (icrc1_fee =? 100000000) with true. cbv iota. exists to, (n - icrc1_fee). split; [done|].
      right. by exists caller, n.
    + eexists caller, _, _, _, _, _, _. split; [done|]. split; [exact Hacc|]. done.
    + eexists caller, _, _, _, _, _, _. split; [done|]. split; [exact Hacc|]. done.
    + eexists _, _, _, _, _, _. split; [done|]. left. exists sub, a, m, created. done.
    + assert (length to <= 29)%nat as Hto by apply Hwfc.
      rewrite bool_decide_eq_false_2 by (destruct (C37_withdraw_memo to Hto) as (_ & _ & ? & _); done).
      rewrite receiver_in_memo by done. eexists _, _, _, caller, _. split; [done|]. split; [exact Hacc|]. done.
    + assert (length to <= 29)%nat as Hto by apply Hwfc.
      rewrite bool_decide_eq_false_2 by (destruct (C37_withdraw_memo to Hto) as (_ & _ & ? & _); done).
      rewrite receiver_in_memo by done. eexists _, _, _, caller, _. split; [done|]. split; [exact Hacc|]. done.
    + eexists _, _, _, caller, _. split; [done|]. split; [exact Hacc|]. done.
    + eexists _, _, _, caller, _. split; [done|]. split; [exact Hacc|]. done.
  - assert (accepted_in tr t caller k) as Hacc by (by exists sync, resp).
    unfold kind_means, kind_of. destruct Hcase as [[n ->]|(x & a & e & -> & ->)];
      cbn [tx_op tx_memo tx_created_at].
    + change (0 =? 100000000) with false. cbv iota.
      destruct (creates k) eqn:Ek.
      * assert (refund_mark k = repeat Byte.xfd 32) as -> by (by destruct k).
        rewrite bool_decide_eq_false_2 by (intros [_ E]; discriminate E).
        rewrite bool_decide_eq_true_2 by done.
        exists from, n, t, caller, k, sp, amount. done.
      * assert (refund_mark k = repeat Byte.xff 32) as -> by (by destruct k).
        rewrite bool_decide_eq_true_2 by done.
        exists from, n, t, caller, k, sp, amount. done.
    + eexists _, _, _, _, _, _. split; [done|]. right. split; [done|]. split; [done|]. split; [done|].
      split; [done|]. assert (owner x = caller) as ->.
      { destruct k; simplify_eq/=; done. }
      exists t, k, amount. done.
Qed.

End WithEnv.

(** ** Cases *)

(** The kinds of the ten blocks of the demo history *)
Example C77_case :
  exists w0 tr, is_u64 T0 /\ wf_ledger_args demo_init /\ init_world T0 (100 * T) demo_init = Some w0
    /\ steps w0 tr demo_world /\ map fst tr = demo_events
    /\ map kind_of (blocks (w_led demo_world))
       = [Deposited; Deposited; Transferred; Approved; Transferred; Withdrawn canister; CreationPaid;
          Refunded false; Approved; Withdrawn canister].
Proof.
  destruct C54_case as (w0 & tr & H1 & H2 & H3 & H4 & H5 & _).
  exists w0, tr. split; [exact H1|]. split; [exact H2|]. split; [exact H3|]. split; [exact H4|].
  split; [exact H5|vm_compute; reflexivity].
Qed.

(** A block that gives an allowance back after a failure cannot be told from an approval
    of the owner: anyone may use the memo that marks it. Here no call ever failed. *)
Definition forged_approval : event :=
  EvCall (T0 + 3 * sec) alice
    (CallApprove None (acct bob) (5 * T) None None None (Some (repeat Byte.xff 32)) None) None.
Definition forged_world : world :=
  the_world (history T0 (100 * T) demo_init [EvCall (T0 + 1 * sec) carol (CallDeposit (10 * T) (acct alice) None) None;
                                             forged_approval]).
Theorem C77_restored_allowance_mark_refuted :
  exists w b from x amount, reachable w /\ b ∈ blocks (w_led w)
    /\ b_tx b = Tx (Approve from x amount None None None) None (Some (repeat Byte.xff 32))
    /\ (forall b', b' ∈ blocks (w_led w) -> kind_of b' = Deposited \/ kind_of b' = Approved).
Proof.
  exists forged_world, (block_at forged_world 2), (Acct alice None), (acct bob), (5 * T).
  split; [apply the_world_reachable; vm_compute; reflexivity|].
  split; [apply elem_of_list_lookup; exists 2%nat; vm_compute; reflexivity|].
  split; [vm_compute; reflexivity|].
  assert (forallb (fun b => match kind_of b with Deposited | Approved => true | _ => false end)
            (blocks (w_led forged_world)) = true) as E by (vm_compute; reflexivity).
  rewrite forallb_forall in E. intros b' Hb'%elem_of_list_In%E.
  destruct (kind_of b'); try discriminate Hb'; [by left|by right].
Qed.

Print Assumptions C77_kind_of_a_block.
Print Assumptions C77_restored_allowance_mark_refuted.
