(** * A ledger that is nothing but its log

    An executable reference: its state is the list of blocks, the canisters that
    were created, the calls that wait for an answer and the cycles it holds.  Balances, allowances, duplicates and
    the supply are worked out from the blocks each time they are needed.  Nothing
    here uses the tables, caches, queues or helpers of the modelled code; the
    vocabulary is that of [Spec], [ApiSpec] and [AnswerSpec]. *)
From Verif Require Import Base Types Codec State Ledger Canister Spec ApiSpec AnswerSpec.

(** ** What the log says *)
Definition funds_of (bs : list block) (a : account) : N := Z.to_N (log_balance bs (to_key a)).
(** Cycles that block [b] brings into circulation *)
Definition supply_change (b : block) : Z :=
  match tx_op (b_tx b) with
  | Mint _ n _ => Z.of_N n
  | Transfer _ _ _ _ _ => - Z.of_N (fee_of b)
  | Burn _ _ n => - Z.of_N (n + fee_of b)
  | Approve _ _ _ _ _ _ => - Z.of_N (fee_of b)
  end%Z.
Definition log_supply (bs : list block) : Z := foldr (fun b z => supply_change b + z)%Z 0%Z bs.
Definition supply_of (bs : list block) : N := Z.to_N (log_supply bs).
Definition allowed (bs : list block) (now : N) (from x : account) : N * option N :=
  live_allowance bs (to_key from, to_key x) now.
(** The block that already records [t]; a transaction without a
    [created_at_time] may be recorded again. *)
Definition done_before (bs : list block) (t : transaction) : option N :=
  match tx_created_at t with
  | None => None
  | Some _ => (fun ib => N.of_nat ib.1) <$> list_find (fun b => b_tx b = t) bs
  end.
Definition len (bs : list block) : N := N.of_nat (length bs).

(** ** Writing a block: it carries the hash of the last one, and the fee unless the
    transaction names one *)
Definition fee_field (op : operation) : option N :=
  match op with
  | Mint _ _ _ => Some 0
  | Burn _ _ _ => Some 100000000
  | Transfer _ _ _ _ (Some _) => None
  | Transfer _ _ _ _ None => Some 100000000
  | Approve _ _ _ _ _ (Some _) => None
  | Approve _ _ _ _ _ None => Some 100000000
  end.
Definition write `{Env} (bs : list block) (now : N) (t : transaction) : list block :=
  bs ++ [Blk t now ((fun b => vhash (block_to_value b)) <$> last bs) (fee_field (tx_op t))].

(** ** Refusals *)
Definition refuse (cond : bool) (r : refusal) : option refusal := if cond then Some r else None.
Fixpoint first_refusal (l : list (option refusal)) : option refusal :=
  match l with
  | [] => None
  | Some r :: _ => Some r
  | None :: l' => first_refusal l'
  end.

Definition over (o : option N) (limit : N) : bool := match o with Some n => limit <=? n | None => false end.
Definition other_fee (fee : option N) : bool :=
  match fee with Some f => negb (f =? 100000000) | None => false end.
Definition management (a : account) : bool := bool_decide (owner a = []).
Definition memo_over_32 (m : option memo) : bool :=
  match m with Some b => (32 <? length b)%nat | None => false end.
(** The spender, when it is another account *)
Definition other_spender (from : account) (sp : option account) : option account :=
  match sp with
  | Some x => if decide (to_key x = to_key from) then None else Some x
  | None => None
  end.
(** It has a smaller allowance than [n]. *)
Definition allowance_short (bs : list block) (now : N) (from : account) (sp : option account) (n : N)
  : option refusal :=
  match other_spender from sp with
  | Some x => let a := (allowed bs now from x).1 in refuse (a <? n) (NoAllowance a)
  | None => None
  end.
Definition window_checks (now : N) (created : option N) : list (option refusal) :=
  [ refuse (match created with Some t => t + 86400000000000 + 60000000000 <? now | None => false end)
      CreatedTooLongAgo;
    refuse (match created with Some t => now + 60000000000 <? t | None => false end) (CreatedLater now) ].
Definition repeated (made : gmap N principal) (bs : list block) (t : transaction) : option refusal :=
  (fun i => AlreadyDone i (made !! i)) <$> done_before bs t.

Definition transfer_checks (made : gmap N principal) (bs : list block) (now : N) (t : transaction)
  (from to : account) (sp : option account) (amount : N) (fee : option N) (m : option memo)
  (created : option N) : list (option refusal) :=
  let have := funds_of bs from in
  [ refuse (2 ^ 128 <=? amount) (NoFunds have);
    refuse (over fee (2 ^ 128)) WrongFee;
    repeated made bs t;
    refuse (management from || management to || default false (management <$> sp)) Denied;
    refuse (other_fee fee) WrongFee;
    refuse (2 ^ 128 <=? amount + 100000000) (NoFunds have);
    allowance_short bs now from sp (amount + 100000000);
    refuse (have <? amount + 100000000) (NoFunds have);
    refuse (2 ^ 128 <=? funds_of bs to + amount) CreditOverflow;
    refuse (memo_over_32 m) LongMemo ]
  ++ window_checks now created.
Definition approve_checks (made : gmap N principal) (bs : list block) (now : N) (t : transaction)
  (from sp : account) (expected expires fee : option N) (m : option memo)
  (created : option N) : list (option refusal) :=
  let current := (allowed bs now from sp).1 in
  let have := funds_of bs from in
  [ refuse (over expected (2 ^ 128)) (OtherAllowance current);
    refuse (over fee (2 ^ 128)) WrongFee;
    repeated made bs t;
    refuse (bool_decide (owner from = owner sp)) OwnAccount;
    refuse (management from || management sp) Denied;
    refuse (match expected with Some e => negb (e =? current) | None => false end) (OtherAllowance current);
    refuse (other_fee fee) WrongFee;
    refuse (have <? 100000000) (NoFunds have);
    refuse (default (2 ^ 64 - 1) expires <=? now) (AlreadyExpired now);
    refuse (memo_over_32 m) LongMemo ]
  ++ window_checks now created.
Definition burn_checks (made : gmap N principal) (bs : list block) (now : N) (t : transaction)
  (from : account) (sp : option account) (amount : N) (created : option N) : list (option refusal) :=
  let have := funds_of bs from in
  [ repeated made bs t;
    refuse (2 ^ 128 <=? amount + 100000000) (NoFunds have);
    allowance_short bs now from sp (amount + 100000000);
    refuse (have <? amount + 100000000) (NoFunds have) ]
  ++ window_checks now created.
Definition withdraw_checks (made : gmap N principal) (bs : list block) (now : N) (t : transaction)
  (from : account) (sp : option account) (to : principal) (amount : N) (created : option N)
  : list (option refusal) :=
  [ refuse (2 ^ 128 <=? amount) (NoFunds (funds_of bs from));
    refuse (bool_decide (to !! 28%nat = Some Byte.x02)) (BadReceiver to);
    refuse (amount =? 0) NothingToWithdraw ]
  ++ burn_checks made bs now t from sp amount created.
Definition create_checks (made : gmap N principal) (bs : list block) (now : N) (t : transaction)
  (from : account) (sp : option account) (amount : N) (created : option N) : list (option refusal) :=
  refuse (2 ^ 128 <=? amount) (NoFunds (funds_of bs from))
  :: burn_checks made bs now t from sp amount created.
Definition deposit_checks (bs : list block) (cycles : N) (m : option memo) : list (option refusal) :=
  [ refuse (cycles <=? 100000000) DepositRefused;
    refuse (2 ^ 128 <=? supply_of bs + (cycles - 100000000)) DepositRefused;
    refuse (memo_over_32 m) LongMemo ].

Definition checks (made : gmap N principal) (bs : list block) (now : N) (caller : principal) (c : call)
  : list (option refusal) :=
  let t := requested caller c in
  match c with
  | CallDeposit cycles _ m => deposit_checks bs cycles m
  | CallTransfer sub to amount fee m created =>
      transfer_checks made bs now t (Acct caller sub) to None amount fee m created
  | CallTransferFrom sub from to amount fee m created =>
      transfer_checks made bs now t from to (Some (Acct caller sub)) amount fee m created
  | CallApprove sub sp _ expected expires fee m created =>
      approve_checks made bs now t (Acct caller sub) sp expected expires fee m created
  | CallWithdraw sub to created amount =>
      withdraw_checks made bs now t (Acct caller sub) None to amount created
  | CallWithdrawFrom sub from to created amount =>
      withdraw_checks made bs now t from (Some (Acct caller sub)) to amount created
  | CallCreateCanister sub created amount _ =>
      create_checks made bs now t (Acct caller sub) None amount created
  | CallCreateCanisterFrom from sub created amount _ =>
      create_checks made bs now t from (Some (Acct caller sub)) amount created
  end.
(** Why the call is turned down, if it is *)
Definition why_refused (made : gmap N principal) (bs : list block) (now : N) (caller : principal) (c : call)
  : option refusal := first_refusal (checks made bs now caller c).

(** ** Refunds: [returned] cycles came back from a failed call that burned from [from]
    for [sp], using an allowance that expires at [old].  The new log and the
    indices of the refund block and of the approval block; [None]: it cannot be
    done. *)
Definition give_back `{Env} (bs : list block) (now : N) (from : account) (sp : option account)
  (returned : N) (mark : memo) (old : option N) : option (list block * option N * option N) :=
  if returned <=? 100000000 then Some (bs, None, None) else
  let n := returned - 100000000 in
  if 2 ^ 128 <=? supply_of bs + n then None else
  let bs1 := write bs now (Tx (Mint from n 0) None (Some mark)) in
  match other_spender from sp with
  | Some x =>
      if (100000000 <? n) && bool_decide (unexpired now old) then
        let (a, e) := allowed bs now from x in
        let expiry := match e with Some _ => e | None => old end in
        if default (2 ^ 64 - 1) expiry <=? now then None
        else
          let total := N.min (a + (n - 100000000)) (2 ^ 128 - 1) in
          Some (write bs1 now (Tx (Approve from x total None expiry None) None
                                  (Some (repeat Byte.xff 32))),
                Some (len bs), Some (len bs1))
      else Some (bs1, Some (len bs), None)
  | None => Some (bs1, Some (len bs), None)
  end.

(** ** The reference ledger *)

(** A call that waits: who called, the call, its block, and the expiry of the
    allowance it used *)
Record waiting := Wait { wt_caller : principal; wt_call : call; wt_block : N; wt_expiry : option N }.
(** The memo of a refund: 32 times 0xfd for a creation, 0xff for a withdrawal *)
Definition mark_of (c : call) : memo :=
  match c with
  | CallCreateCanister _ _ _ _ => repeat Byte.xfd 32
  | CallCreateCanisterFrom _ _ _ _ _ => repeat Byte.xfd 32
  | _ => repeat Byte.xff 32
  end.

(** [bk_made]: the canister created by the call of a block, once that is known *)
Record book := Book {
  bk_log : list block;
  bk_made : gmap N principal;
  bk_wait : gmap N waiting;
  bk_next : N;
  bk_cycles : N
}.

Definition replied (o : option reply) : response := default RespIgnored (RespReply <$> o).
(** The answer to a recorded call that sends nothing away *)
Definition at_once (bs' : list block) (i : N) (c : call) : option reply :=
  match c with
  | CallDeposit _ to _ => Some (RepDeposit i (funds_of bs' to))
  | CallTransfer _ _ _ _ _ _ => Some (RepTransfer (Ok i))
  | CallTransferFrom _ _ _ _ _ _ _ => Some (RepTransferFrom (Ok i))
  | CallApprove _ _ _ _ _ _ _ _ => Some (RepApprove (Ok i))
  | _ => None
  end.
(** The answer to a withdrawal or creation that succeeded *)
Definition in_the_end (i : N) (c : call) (ans : answer) : option reply :=
  match c, ans with
  | CallWithdraw _ _ _ _, AnsDeposit (Ok _) => Some (RepWithdraw (Ok i))
  | CallWithdrawFrom _ _ _ _ _, AnsDeposit (Ok _) => Some (RepWithdrawFrom (Ok i))
  | CallCreateCanister _ _ _ _, AnsCmc (Ok (Ok p)) => Some (RepCreate (Ok (i, p)))
  | CallCreateCanisterFrom _ _ _ _ _, AnsCmc (Ok (Ok p)) => Some (RepCreateFrom (Ok (i, p)))
  | _, _ => None
  end.
Definition new_canister (ans : answer) : option principal :=
  match ans with AnsCmc (Ok (Ok p)) => Some p | _ => None end.
(** The answer is one to the outgoing call of [c]. *)
Definition answers_to (c : call) (ans : answer) : bool :=
  match c, ans with
  | CallWithdraw _ _ _ _, AnsDeposit _ => true
  | CallWithdrawFrom _ _ _ _ _, AnsDeposit _ => true
  | CallCreateCanister _ _ _ _, AnsCmc _ => true
  | CallCreateCanisterFrom _ _ _ _ _, AnsCmc _ => true
  | _, _ => false
  end.

Section WithEnv.
Context `{Env}.

Definition act_call (k : book) (now : N) (caller : principal) (c : call) (sync : option sync_error)
  : book * response :=
  let bs := bk_log k in
  match why_refused (bk_made k) bs now caller c with
  | Some r => (k, default RespIgnored (answer_of c r))
  | None =>
      let bs1 := write bs now (requested caller c) in
      match outgoing caller c with
      | None =>
          (Book bs1 (bk_made k) (bk_wait k) (bk_next k)
             (bk_cycles k + match c with CallDeposit cycles _ _ => cycles | _ => 0 end),
           replied (at_once bs1 (len bs) c))
      | Some (from, sp, amount) =>
          let old := match other_spender from sp with Some x => (allowed bs now from x).2 | None => None end in
          match sync, bk_cycles k <? amount with
          | None, false =>
              (Book bs1 (bk_made k) (<[bk_next k := Wait caller c (len bs) old]> (bk_wait k)) (bk_next k + 1)
                 (bk_cycles k - amount),
               default RespIgnored (RespPending (bk_next k) <$> outgoing_call caller c))
          | _, _ =>
              match give_back bs1 now from sp amount (mark_of c) old with
              | Some (bs2, fb, ab) =>
                  (Book bs2 (bk_made k) (bk_wait k) (bk_next k) (bk_cycles k),
                   replied (failed_reply c (len bs) fb ab RSysTransient))
              | None => (k, RespTrap TrapReimburse)
              end
          end
      end
  end.
Definition act_reply (k : book) (now id : N) (ans : answer) (refund : N) : book * response :=
  match bk_wait k !! id with
  | None => (k, RespIgnored)
  | Some (Wait caller c i old) =>
      if answers_to c ans then
        let made' := match new_canister ans with Some p => <[i := p]> (bk_made k) | None => bk_made k end in
        let next bs := Book bs made' (delete id (bk_wait k)) (bk_next k) (bk_cycles k + refund) in
        match outgoing caller c with
        | None => (k, RespIgnored)
        | Some (from, sp, amount) =>
            match answer_returned amount ans with
            | None => (next (bk_log k), replied (in_the_end i c ans))
            | Some (returned, code) =>
                match give_back (bk_log k) now from sp returned (mark_of c) old with
                | Some (bs', fb, ab) => (next bs', replied (failed_reply c i fb ab code))
                | None => (next (bk_log k), RespTrap TrapReimburse)
                end
            end
        end
      else (k, RespIgnored)
  end.
(** One event *)
Definition act (k : book) (ev : event) : book * response :=
  match ev with
  | EvCall now caller c sync => act_call k now caller c sync
  | EvReply now id ans refund => act_reply k now id ans refund
  | EvUpgrade _ (Some (LInit _)) => (k, RespTrap TrapUpgradeWithInitArg)
  | EvUpgrade _ _ => (Book (bk_log k) (bk_made k) ∅ (bk_next k) (bk_cycles k), RespIgnored)
  | EvConsume n => (Book (bk_log k) (bk_made k) (bk_wait k) (bk_next k) (bk_cycles k - n), RespIgnored)
  | EvTopUp n => (Book (bk_log k) (bk_made k) (bk_wait k) (bk_next k) (bk_cycles k + n), RespIgnored)
  | EvCrash _ id refund =>
      match bk_wait k !! id with
      | None => (k, RespIgnored)
      | Some _ => (Book (bk_log k) (bk_made k) (delete id (bk_wait k)) (bk_next k) (bk_cycles k + refund),
                   RespTrap TrapSystem)
      end
  end.

(** The book right after installation *)
Definition opening (now cycles : N) (c : config) : book :=
  Book (foldl (fun bs e => write bs now (Tx (Mint e.1 e.2 100000000) None None)) []
              (default [] (initial_balances c))) ∅ ∅ 0 cycles.

End WithEnv.
