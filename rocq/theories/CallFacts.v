(** * Closed forms of the update calls *)
From Verif Require Import Base Types Codec CodecFacts State Ledger Canister Effects Spec Inv Steps World.

Section WithEnv.
Context `{Env}.

(** The response to a call that ends without an outgoing call *)
Definition xfer_resp (o : outcome trap transfer_from_error N) : response :=
  match o with
  | OOk i => RespReply (RepTransfer (Ok i))
  | OErr e => match t_of_tf e with
              | inl e' => RespReply (RepTransfer (Err e'))
              | inr x => RespTrap x
              end
  | OTrap x => RespTrap x
  end.

Lemma exec_deposit now avail caller cycles to m sync s :
  exec_call now avail caller (CallDeposit cycles to m) sync s =
  match dep_decide to cycles m s with
  | OOk _ =>
      let s' := prune_state now (tx_effect now (Tx (Mint to (cycles - FEE) FEE) None m) s) in
      (s', Done (RespReply (RepDeposit (nblocks s) (balance_of s' to))))
  | OErr _ => (s, Done (RespTrap TrapDepositRejected))
  | OTrap x => (s, Done (RespTrap x))
  end.
Proof.
  unfold exec_call. destruct (ep_deposit_eq now cycles to m s) as [st ->].
  destruct (dep_decide to cycles m s); done.
Qed.

Lemma exec_transfer now avail caller sub to amount fee m created sync s :
  supply_ok s ->
  exec_call now avail caller (CallTransfer sub to amount fee m created) sync s =
  match xfer_decide (Acct caller sub) to None amount fee m created now s with
  | OOk _ => (prune_state now (tx_effect now
                (Tx (Transfer (Acct caller sub) to None amount fee) created m) s),
              Done (RespReply (RepTransfer (Ok (nblocks s)))))
  | OErr e => (s, Done (xfer_resp (OErr e)))
  | OTrap x => (s, Done (RespTrap x))
  end.
Proof.
  intros Hs. unfold exec_call, as_reply, map_err_trap. rewrite execute_transfer_eq by done.
  destruct (xfer_decide _ _ _ _ _ _ _ _ _) as [[]|e|x]; simpl; [done| |done].
  destruct (t_of_tf e); done.
Qed.

Lemma exec_transfer_from now avail caller sub from to amount fee m created sync s :
  supply_ok s ->
  exec_call now avail caller (CallTransferFrom sub from to amount fee m created) sync s =
  match xfer_decide from to (Some (Acct caller sub)) amount fee m created now s with
  | OOk _ => (prune_state now (tx_effect now
                (Tx (Transfer from to (Some (Acct caller sub)) amount fee) created m) s),
              Done (RespReply (RepTransferFrom (Ok (nblocks s)))))
  | OErr e => (s, Done (RespReply (RepTransferFrom (Err e))))
  | OTrap x => (s, Done (RespTrap x))
  end.
Proof.
  intros Hs. unfold exec_call, as_reply. rewrite execute_transfer_eq by done.
  destruct (xfer_decide _ _ _ _ _ _ _ _ _) as [[]|e|x]; done.
Qed.

(** The amount an approve call records. *)
Definition capped (amount : N) : N := default U128_MAX (nat_to_u128 amount).

Lemma exec_approve now avail caller sub sp amount expected expires fee m created sync s :
  supply_ok s ->
  exec_call now avail caller (CallApprove sub sp amount expected expires fee m created) sync s =
  match apr_decide (Acct caller sub) sp amount expected expires fee m created now s with
  | OOk _ => (prune_state now (tx_effect now
                (Tx (Approve (Acct caller sub) sp (capped amount) expected expires fee) created m) s),
              Done (RespReply (RepApprove (Ok (nblocks s)))))
  | OErr e => (s, Done (RespReply (RepApprove (Err e))))
  | OTrap x => (s, Done (RespTrap x))
  end.
Proof.
  intros Hs. unfold exec_call, as_reply. rewrite execute_approve_eq by done.
  destruct (apr_decide _ _ _ _ _ _ _ _ _ _) as [[]|e|x]; done.
Qed.

(** Does the outgoing call fail at once? *)
Definition sync_fail (avail amount : N) (sync : option sync_error) : option sync_error :=
  match sync with
  | Some e => Some e
  | None => if avail <? amount then Some SELiquid else None
  end.
(** The rest of a call whose outgoing call failed at once; [s0] is the state at
    the start of the message. *)
Definition sync_rest (now : N) (p : pending) (e : sync_error) (s0 s : state)
  : state * msg_result :=
  match resume now p (sync_answer p e) with
  | Some k => let (s2, r) := commit s0 (k s) in (s2, Done r)
  | None => (s0, Done RespIgnored)
  end.
Definition wd_resp (ep : bool) (o : outcome trap withdraw_from_error N) : response :=
  match wrep ep o with
  | OOk r => RespReply r
  | OErr e => match e with end
  | OTrap x => RespTrap x
  end.
Definition cr_resp (ep : bool) (o : outcome trap create_canister_from_error (N * principal))
  : response :=
  match crep ep o with
  | OOk r => RespReply r
  | OErr e => match e with end
  | OTrap x => RespTrap x
  end.

Definition after_withdraw (now avail : N) (ep : bool) (from : account) (to : principal)
  (sp : option account) (amount : N) (created : option N) (sync : option sync_error) (s : state)
  : state * msg_result :=
  match wd_decide from to sp amount created now s with
  | OOk old =>
      let s1 := prune_state now (tx_effect now (withdraw_tx from to sp amount created) s) in
      let p := PWithdraw ep from to sp amount (nblocks s) old in
      match sync_fail avail amount sync with
      | None => (s1, Waiting p)
      | Some e => sync_rest now p e s s1
      end
  | OErr e => (s, Done (wd_resp ep (OErr e)))
  | OTrap x => (s, Done (RespTrap x))
  end.

Lemma start_withdraw_eq now avail ep from to sp amount created sync s :
  supply_ok s ->
  start_async now avail sync (fail_withdraw ep)
    (execute_withdraw now ep from to sp amount created) s =
  after_withdraw now avail ep from to sp amount created sync s.
Proof.
  intros Hs. unfold start_async, after_withdraw. pose proof (execute_withdraw_eq now ep from to sp amount created s Hs) as He.
  rewrite He. destruct (wd_decide from to sp amount created now s) as [old|e|x].
  - done.
  - unfold fail_withdraw. rewrite withdraw_reply_run. unfold bindM. rewrite He. cbn [fst snd]. unfold wd_resp.
    destruct (wrep ep (OErr e)) as [r|[]|x]; done.
  - unfold fail_withdraw. rewrite withdraw_reply_run. unfold bindM. rewrite He. done.
Qed.

Definition after_create (now avail : N) (ep : bool) (caller : principal) (from : account)
  (sp : option account) (amount : N) (created : option N) (args : option cmc_args)
  (sync : option sync_error) (s : state) : state * msg_result :=
  match cr_decide from sp amount created now s with
  | OOk old =>
      let s1 := prune_state now (tx_effect now (create_tx from sp amount created) s) in
      let p := PCreate ep from sp amount (nblocks s) old created (cmc_argument caller args) in
      match sync_fail avail amount sync with
      | None => (s1, Waiting p)
      | Some e => sync_rest now p e s s1
      end
  | OErr e => (s, Done (cr_resp ep (OErr e)))
  | OTrap x => (s, Done (RespTrap x))
  end.

Lemma start_create_eq now avail ep caller from sp amount created args sync s :
  supply_ok s ->
  start_async now avail sync (fail_create ep)
    (execute_create now ep caller from sp amount created args) s =
  after_create now avail ep caller from sp amount created args sync s.
Proof.
  intros Hs. unfold start_async, after_create. pose proof (execute_create_eq now ep caller from sp amount created args s Hs) as He.
  rewrite He. destruct (cr_decide from sp amount created now s) as [old|e|x].
  - done.
  - unfold fail_create. rewrite create_reply_run. unfold bindM. rewrite He. cbn [fst snd]. unfold cr_resp.
    destruct ep; simpl; [done|]. destruct (c_of_cf e); done.
  - unfold fail_create. rewrite create_reply_run. unfold bindM. rewrite He. done.
Qed.

Lemma exec_withdraw now avail caller sub to created amount sync s :
  supply_ok s ->
  exec_call now avail caller (CallWithdraw sub to created amount) sync s =
  after_withdraw now avail false (Acct caller sub) to None amount created sync s.
Proof. intros Hs. unfold exec_call. by apply start_withdraw_eq. Qed.
Lemma exec_withdraw_from now avail caller sub from to created amount sync s :
  supply_ok s ->
  exec_call now avail caller (CallWithdrawFrom sub from to created amount) sync s =
  after_withdraw now avail true from to (Some (Acct caller sub)) amount created sync s.
Proof. intros Hs. unfold exec_call. by apply start_withdraw_eq. Qed.
Lemma exec_create now avail caller sub created amount args sync s :
  supply_ok s ->
  exec_call now avail caller (CallCreateCanister sub created amount args) sync s =
  after_create now avail false caller (Acct caller sub) None amount created args sync s.
Proof. intros Hs. unfold exec_call. by apply start_create_eq. Qed.
Lemma exec_create_from now avail caller from sub created amount args sync s :
  supply_ok s ->
  exec_call now avail caller (CallCreateCanisterFrom from sub created amount args) sync s =
  after_create now avail true caller from (Some (Acct caller sub)) amount created args sync s.
Proof. intros Hs. unfold exec_call. by apply start_create_eq. Qed.

(** The rest of a failed withdrawal, when run in [s] with rollback state [s0] *)
Definition wd_fail_rest (ep : bool) (from : account) (sp : option account) (amount i : N)
  (old : option N) (now : N) (code : rejection_code) (s : state)
  : option (state * withdraw_from_error) :=
  if amount - FEE =? 0 then Some (s, WFFailedToWithdrawFrom (Some i) None None code)
  else match refund_outcome from sp (amount - FEE) PENALIZE_MEMO old now s with
       | Some (s', fb, ab) => Some (s', WFFailedToWithdrawFrom (Some i) (Some fb) ab code)
       | None => None
       end.
Definition wd_failed_reply (ep : bool) (e : withdraw_from_error) : reply :=
  if ep then RepWithdrawFrom (Err e)
  else match e with
       | WFFailedToWithdrawFrom _ refund _ code => RepWithdraw (Err (WFailedToWithdraw refund code))
       | _ => RepWithdrawFrom (Err e)
       end.

Lemma withdraw_rest_eq ep from sp amount i old now e s0 s :
  supply_ok s ->
  exists x,
  commit s0 (withdraw_reply ep (withdraw_finish from sp amount i old now (Err e)) s) =
  match wd_fail_rest ep from sp amount i old now (call_error_to_reject e) s with
  | Some (s', err) => (s', RespReply (wd_failed_reply ep err))
  | None => (s0, RespTrap x)
  end.
Proof.
  intros Hs. rewrite withdraw_reply_run.
  destruct (withdraw_finish_eq from sp amount i old now e s Hs) as (st & x & ->).
  exists x. unfold wd_fail_rest. destruct (amount - FEE =? 0).
  - destruct ep; done.
  - destruct (refund_outcome _ _ _ _ _ _ _) as [[[s' fb] ab]|]; [|destruct ep; done].
    destruct ep; done.
Qed.

Definition cr_fail_rest (from : account) (sp : option account) (returned i : N)
  (old : option N) (now : N) (code : rejection_code) (s : state)
  : option (state * create_canister_from_error) :=
  if returned - FEE =? 0 then Some (s, CFFailedToCreateFrom (Some i) None None code)
  else match refund_outcome from sp (returned - FEE) REFUND_MEMO old now s with
       | Some (s', fb, ab) => Some (s', CFFailedToCreateFrom (Some i) (Some fb) ab code)
       | None => None
       end.
Definition cr_failed_reply (ep : bool) (e : create_canister_from_error) : reply :=
  if ep then RepCreateFrom (Err e)
  else match e with
       | CFFailedToCreateFrom b r _ _ => RepCreate (Err (CFailedToCreate b r))
       | _ => RepCreateFrom (Err e)
       end.

Lemma create_rest_eq ep from sp amount i old created now res s0 s :
  supply_ok s ->
  exists x,
  commit s0 (create_reply ep (create_finish from sp amount i old created now res) s) =
  match flat_create_result amount res with
  | Err (code, returned) =>
      match cr_fail_rest from sp returned i old now code s with
      | Some (s', err) => (s', RespReply (cr_failed_reply ep err))
      | None => (s0, RespTrap x)
      end
  | Ok c => (note_canister (txh (create_tx from sp amount created)) i c s,
             RespReply (if ep then RepCreateFrom (Ok (i, c)) else RepCreate (Ok (i, c))))
  end.
Proof.
  intros Hs. rewrite create_reply_run.
  destruct (create_finish_eq from sp amount i old created now res s Hs) as (st & x & ->).
  exists x. destruct (flat_create_result amount res) as [c|[code returned]].
  - destruct ep; done.
  - unfold cr_fail_rest. destruct (returned - FEE =? 0); [destruct ep; done|].
    destruct (refund_outcome _ _ _ _ _ _ _) as [[[s' fb] ab]|]; [|destruct ep; done].
    destruct ep; done.
Qed.

(** ** Observable changes made by one transaction *)
Definition op_taken (op : operation) (k : akey) : N :=
  match op with
  | Mint _ _ _ => 0
  | Transfer from _ _ amount _ => if decide (k = to_key from) then amount + FEE else 0
  | Burn from _ amount => if decide (k = to_key from) then amount + FEE else 0
  | Approve from _ _ _ _ _ => if decide (k = to_key from) then FEE else 0
  end.
Definition op_given (op : operation) (k : akey) : N :=
  match op with
  | Mint to amount _ => if decide (k = to_key to) then amount else 0
  | Transfer _ to _ amount _ => if decide (k = to_key to) then amount else 0
  | _ => 0
  end.
Lemma tx_effect_bal now t s k :
  op_taken (tx_op t) k <= bal s k ->
  bal (tx_effect now t s) k = bal s k - op_taken (tx_op t) k + op_given (tx_op t) k.
Proof.
  unfold tx_effect.
  destruct (allow_effect_balances (tx_op t) (push_block (mk_block now t s) s)) as (Hb & _).
  set (s1 := allow_effect _ _) in *.
  assert (forall k, bal s1 k = bal s k) as Hs1 by (intros k'; by apply bal_same).
  destruct (tx_op t); simpl; rewrite ?bal_credit, ?bal_debit, ?Hs1;
    repeat (destruct (decide _)); lia.
Qed.
Lemma tx_ok_taken now t s k : tx_ok now t s -> op_taken (tx_op t) k <= bal s k.
Proof.
  intros (_ & _ & Hop & _). destruct (tx_op t); simpl in *; try lia;
    (destruct (decide _) as [->|]; [|lia]); unfold balance_of in Hop; lia.
Qed.

Definition op_burned (op : operation) : N :=
  match op with
  | Mint _ _ _ => 0
  | Transfer _ _ _ _ _ => FEE
  | Burn _ _ amount => amount + FEE
  | Approve _ _ _ _ _ _ => FEE
  end.
Definition op_minted (op : operation) : N :=
  match op with Mint _ amount _ => amount | _ => 0 end.
Lemma tx_effect_supply now t s :
  supply_ok s -> tx_ok now t s ->
  total_supply (tx_effect now t s) = total_supply s - op_burned (tx_op t) + op_minted (tx_op t)
  /\ op_burned (tx_op t) <= total_supply s.
Proof.
  intros Hs (_ & _ & Hop & _). unfold tx_effect.
  destruct (allow_effect_balances (tx_op t) (push_block (mk_block now t s) s)) as (_ & Ht & _).
  set (s1 := allow_effect _ _) in *. simpl in Ht.
  destruct (tx_op t); simpl in *; rewrite ?Ht; try (split; lia).
  - pose proof (supply_bal s (to_key from) Hs). unfold balance_of in Hop. lia.
  - pose proof (supply_bal s (to_key from) Hs). unfold balance_of in Hop. lia.
  - pose proof (supply_bal s (to_key from) Hs). unfold balance_of in Hop. lia.
Qed.

End WithEnv.
