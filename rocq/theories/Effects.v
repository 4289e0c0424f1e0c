(** * Closed forms of the ledger operations

    Each operation is shown equal to: a pure decision ("which check fails
    first"), followed by one explicit state change [tx_effect]. *)
From Verif Require Import Base Types Codec CodecFacts State Ledger.

(** ** Sums over balances *)
Definition map_sum (m : gmap akey N) : N := map_fold (fun _ v acc => v + acc) 0 m.

Lemma map_sum_empty : map_sum ∅ = 0.
Proof. apply map_fold_empty. Qed.

Lemma map_sum_insert_new m k v : m !! k = None -> map_sum (<[k:=v]> m) = v + map_sum m.
Proof.
  intros Hk. unfold map_sum. apply (map_fold_insert_L (fun _ (v acc : N) => v + acc)).
  - intros. lia.
  - done.
Qed.

Lemma map_sum_delete m k : map_sum (delete k m) + default 0 (m !! k) = map_sum m.
Proof.
  destruct (m !! k) as [v|] eqn:E; simpl.
  - rewrite <- (insert_delete m k v E) at 2. rewrite map_sum_insert_new; [lia|].
    apply lookup_delete.
  - rewrite delete_notin by done. lia.
Qed.

Lemma map_sum_insert m k v : map_sum (<[k:=v]> m) + default 0 (m !! k) = v + map_sum m.
Proof.
  rewrite <- insert_delete_insert, map_sum_insert_new by apply lookup_delete.
  pose proof (map_sum_delete m k). lia.
Qed.

Lemma map_sum_lookup m k : default 0 (m !! k) <= map_sum m.
Proof. pose proof (map_sum_delete m k). lia. Qed.

Lemma map_sum_lookup2 m k1 k2 :
  k1 <> k2 -> default 0 (m !! k1) + default 0 (m !! k2) <= map_sum m.
Proof.
  intros Hne. pose proof (map_sum_delete m k1). pose proof (map_sum_delete (delete k1 m) k2).
  rewrite lookup_delete_ne in * by done. lia.
Qed.

(** ** Explicit balance changes *)
Definition credit_bal (a : account) (n : N) (s : state) : state :=
  set_balances (<[to_key a := balance_of s a + n]> (balances s))
    (set_total_supply (total_supply s + n) s).
Definition debit_bal (a : account) (n : N) (s : state) : state :=
  set_balances (if balance_of s a - n =? 0 then delete (to_key a) (balances s)
                else <[to_key a := balance_of s a - n]> (balances s))
    (set_total_supply (total_supply s - n) s).

Lemma credit_eq a n s :
  balance_of s a + n < U128_MOD -> total_supply s + n < U128_MOD ->
  credit a n s = (credit_bal a n s, OOk (balance_of s a + n)).
Proof.
  intros H1 H2. unfold credit, u128_checked_add.
  rewrite (proj2 (N.ltb_lt _ _) H1), (proj2 (N.ltb_lt _ _) H2). done.
Qed.

Lemma debit_eq a n s :
  n <= balance_of s a -> n <= total_supply s ->
  debit a n s = (debit_bal a n s, OOk (balance_of s a - n)).
Proof.
  intros H1 H2. unfold debit, u128_checked_sub.
  rewrite (proj2 (N.leb_le _ _) H1), (proj2 (N.leb_le _ _) H2). done.
Qed.

Lemma bal_credit a n s k :
  bal (credit_bal a n s) k = if decide (k = to_key a) then bal s k + n else bal s k.
Proof.
  unfold bal, credit_bal; simpl. destruct (decide (k = to_key a)) as [->|Hne].
  - rewrite lookup_insert. done.
  - rewrite lookup_insert_ne by done. done.
Qed.

Lemma bal_debit a n s k :
  bal (debit_bal a n s) k = if decide (k = to_key a) then bal s k - n else bal s k.
Proof.
  unfold bal, debit_bal; simpl. destruct (decide (k = to_key a)) as [->|Hne].
  - destruct (N.eqb_spec (balance_of s a - n) 0) as [E|E].
    + rewrite lookup_delete. simpl. unfold balance_of, bal in E. lia.
    + rewrite lookup_insert. done.
  - destruct (balance_of s a - n =? 0).
    + rewrite lookup_delete_ne by done. done.
    + rewrite lookup_insert_ne by done. done.
Qed.

(** The cached supply is the sum of the balances. *)
Definition supply_ok (s : state) : Prop :=
  total_supply s = map_sum (balances s) /\ total_supply s < U128_MOD.

Lemma supply_bal s k : supply_ok s -> bal s k <= total_supply s.
Proof. intros [-> _]. apply map_sum_lookup. Qed.
Lemma supply_bal2 s k1 k2 : supply_ok s -> k1 <> k2 -> bal s k1 + bal s k2 <= total_supply s.
Proof. intros [-> _]. apply map_sum_lookup2. Qed.

Lemma supply_ok_credit a n s :
  supply_ok s -> total_supply s + n < U128_MOD -> supply_ok (credit_bal a n s).
Proof.
  intros [H1 H2] Hn. unfold supply_ok, credit_bal; simpl. split; [|lia].
  pose proof (map_sum_insert (balances s) (to_key a) (balance_of s a + n)) as Hs.
  unfold balance_of, bal in *. lia.
Qed.

Lemma supply_ok_debit a n s :
  supply_ok s -> n <= balance_of s a -> supply_ok (debit_bal a n s).
Proof.
  intros [H1 H2] Hn. unfold supply_ok, debit_bal; simpl. split; [|lia].
  destruct (N.eqb_spec (balance_of s a - n) 0) as [E|E].
  - pose proof (map_sum_delete (balances s) (to_key a)) as Hs.
    unfold balance_of, bal in *. lia.
  - pose proof (map_sum_insert (balances s) (to_key a) (balance_of s a - n)) as Hs.
    unfold balance_of, bal in *. lia.
Qed.

Section WithEnv.
Context `{Env}.

(** ** Hashes of transactions *)
Definition txh (t : transaction) : hash := default [] (tx_hash t).
Lemma tx_hash_txh t : tx_hash t = Some (txh t).
Proof. unfold txh. destruct (tx_hash_some t) as [h ->]. done. Qed.

(** ** Recording a block *)
Definition push_block (b : block) (s : state) : state :=
  State (blocks s ++ [b]) (balances s) (approvals s) (exp_queue s)
    (match tx_created_at (b_tx b) with
     | Some _ => <[txh (b_tx b) := (nblocks s, None)]> (tx_hashes s)
     | None => tx_hashes s
     end)
    (match tx_created_at (b_tx b) with
     | Some ts => {[ (ts, nblocks s) ]} ∪ tx_timestamps s
     | None => tx_timestamps s
     end)
    (cfg s) (Some (block_hash b)) (total_supply s)
    (populate_tree (hash_tree s) (nblocks s) (block_hash b))
    (Some (troot (populate_tree (hash_tree s) (nblocks s) (block_hash b))))
    (p0 s).

Lemma nblocks_snoc (bs : list block) (b : block) : N.of_nat (length (bs ++ [b])) - 1 = N.of_nat (length bs).
Proof. rewrite app_length. simpl. lia. Qed.

Lemma emit_block_eq {E} b s : emit_block (E:=E) b s = (push_block b s, OOk (block_hash b)).
Proof.
  unfold emit_block, push_block. rewrite tx_hash_txh. unfold nblocks. simpl.
  rewrite nblocks_snoc. destruct (tx_created_at (b_tx b)); done.
Qed.

Definition mk_block (now : N) (t : transaction) (s : state) : block :=
  Blk t now (phash s) (effective_fee (tx_op t)).

(** The checks of [process_transaction]. *)
Definition process_decide (t : transaction) (now : N) : outcome trap pt_error unit :=
  if negb (validate_memo (tx_memo t)) then OTrap TrapMemoTooLong
  else match validate_created_at_time (tx_created_at t) now with
       | Err e => OErr e
       | Ok _ => OOk tt
       end.

Lemma process_transaction_eq t now s :
  process_transaction t now s =
  match process_decide t now with
  | OOk _ => (push_block (mk_block now t s) s, OOk (nblocks s))
  | OErr e => (s, OErr e)
  | OTrap x => (s, OTrap x)
  end.
Proof.
  unfold process_transaction, process_decide.
  destruct (validate_memo (tx_memo t)); simpl; [|done].
  unfold bindM at 1. unfold lift.
  destruct (validate_created_at_time (tx_created_at t) now) as [[]|e]; [|done].
  unfold bindM, gets. rewrite emit_block_eq. simpl. f_equal. f_equal.
  unfold nblocks, push_block; simpl. apply nblocks_snoc.
Qed.

(** ** Spending an allowance *)
Definition spend_allowance (from sp : account) (n : N) (s : state) : state :=
  let key := approval_key from sp in
  match approvals s !! key with
  | None => s
  | Some (cur, e) =>
      if cur - n =? 0 then
        set_approvals (delete key (approvals s))
          (if 0 <? e then set_exp_queue (exp_queue s ∖ {[ (e, key) ]}) s else s)
      else set_approvals (<[key := (cur - n, e)]> (approvals s)) s
  end.

Lemma use_allowance_eq from sp n now s :
  use_allowance from sp n now s =
  match check_allowance s from sp n now with
  | Ok _ => (spend_allowance from sp n s, OOk tt)
  | Err e => (s, OErr e)
  end.
Proof.
  unfold use_allowance, bindM, lift, spend_allowance.
  destruct (check_allowance s from sp n now) as [[n' e']|e] eqn:E; [|done].
  unfold check_allowance in E.
  destruct (n =? 0); [done|].
  destruct (approvals s !! approval_key from sp) as [[cur e]|] eqn:Ea; [|done].
  destruct (negb _); [done|].
  unfold u128_checked_sub in E. destruct (n <=? cur); [|done].
  injection E as <- <-.
  destruct (cur - n =? 0).
  - destruct (0 <? e); done.
  - done.
Qed.

(** ** The effect of a transaction *)
Definition allow_effect (op : operation) (s : state) : state :=
  match op with
  | Mint _ _ _ => s
  | Transfer from _ spender amount _ =>
      match third_party from spender with
      | Some sp => spend_allowance from sp (amount + FEE) s
      | None => s
      end
  | Burn from spender amount =>
      match third_party from spender with
      | Some sp => spend_allowance from sp (amount + FEE) s
      | None => s
      end
  | Approve from sp amount _ expires _ => record_approval from sp amount expires s
  end.

Definition balance_effect (op : operation) (s : state) : state :=
  match op with
  | Mint to amount _ => credit_bal to amount s
  | Transfer from to _ amount _ => credit_bal to amount (debit_bal from (amount + FEE) s)
  | Burn from _ amount => debit_bal from (amount + FEE) s
  | Approve from _ _ _ _ _ => debit_bal from FEE s
  end.

Definition tx_effect (now : N) (t : transaction) (s : state) : state :=
  balance_effect (tx_op t) (allow_effect (tx_op t) (push_block (mk_block now t s) s)).

(** Fields not touched by a part of the effect. *)
Lemma spend_allowance_balances from sp n s :
  balances (spend_allowance from sp n s) = balances s
  /\ total_supply (spend_allowance from sp n s) = total_supply s
  /\ blocks (spend_allowance from sp n s) = blocks s.
Proof.
  unfold spend_allowance. destruct (approvals s !! _) as [[cur e]|]; [|done].
  destruct (cur - n =? 0); [|done]. destruct (0 <? e); done.
Qed.
Lemma record_approval_balances from sp n e s :
  balances (record_approval from sp n e s) = balances s
  /\ total_supply (record_approval from sp n e s) = total_supply s
  /\ blocks (record_approval from sp n e s) = blocks s.
Proof.
  unfold record_approval.
  destruct (approvals s !! _) as [[cur c]|]; destruct (n =? 0); simpl;
    repeat case_match; done.
Qed.
Lemma allow_effect_balances op s :
  balances (allow_effect op s) = balances s
  /\ total_supply (allow_effect op s) = total_supply s
  /\ blocks (allow_effect op s) = blocks s.
Proof.
  destruct op; simpl; try done.
  - destruct (third_party from spender); [apply spend_allowance_balances|done].
  - destruct (third_party from spender); [apply spend_allowance_balances|done].
  - apply record_approval_balances.
Qed.

Lemma supply_ok_same s s' :
  balances s' = balances s -> total_supply s' = total_supply s -> supply_ok s -> supply_ok s'.
Proof. unfold supply_ok. intros -> ->. done. Qed.
Lemma bal_same s s' k : balances s' = balances s -> bal s' k = bal s k.
Proof. unfold bal. intros ->. done. Qed.

(** ** Decisions *)
Definition check_dup {E} (conv : pt_error -> E) (t : transaction) (s : state) : option E :=
  match tx_hashes s !! txh t with
  | Some (i, c) => Some (conv (PTDuplicate i c))
  | None => None
  end.

Lemma check_duplicate_eq t s :
  check_duplicate t s =
  match check_dup id t s with Some e => (s, OErr e) | None => (s, OOk tt) end.
Proof.
  unfold check_duplicate, check_dup. rewrite tx_hash_txh.
  destruct (tx_hashes s !! txh t) as [[i c]|]; done.
Qed.

Definition out_map {E E'} (f : E -> E') (o : outcome trap E unit) : outcome trap E' unit :=
  match o with OOk a => OOk a | OErr e => OErr (f e) | OTrap t => OTrap t end.

(** What [transfer] decides before it changes anything. *)
Definition transfer_decide (from to : account) (spender : option account) (amount : N)
  (m : option memo) (now : N) (created fee : option N) (s : state)
  : outcome trap transfer_from_error unit :=
  let t := Tx (Transfer from to spender amount fee) created m in
  match tx_hashes s !! txh t with
  | Some (i, _) => OErr (TFDuplicate i)
  | None =>
  if is_denied (owner from) then OErr (TFGenericError DENIED_OWNER) else
  if is_denied (owner to) then OErr (TFGenericError DENIED_OWNER) else
  if match spender with Some sp => is_denied (owner sp) | None => false end
  then OErr (TFGenericError DENIED_OWNER) else
  if bad_fee fee then OErr (TFBadFee FEE) else
  if U128_MOD <=? amount + FEE then OErr (TFInsufficientFunds (balance_of s from)) else
  match (match third_party from spender with
         | None => None
         | Some sp => match check_allowance s from sp (amount + FEE) now with
                      | Err e => Some (tf_of_ua e)
                      | Ok _ => None
                      end
         end) with
  | Some e => OErr e
  | None =>
  if balance_of s from <? amount + FEE then OErr (TFInsufficientFunds (balance_of s from)) else
  if U128_MOD <=? balance_of s to + amount then OErr (TFGenericError UNKNOWN_GENERIC_ERROR) else
  out_map tf_of_pt (process_decide t now)
  end end.

Lemma transfer_eq from to spender amount m now created fee s :
  supply_ok s ->
  transfer from to spender amount m now created fee s =
  match transfer_decide from to spender amount m now created fee s with
  | OOk _ => (tx_effect now (Tx (Transfer from to spender amount fee) created m) s, OOk (nblocks s))
  | OErr e => (s, OErr e)
  | OTrap x => (s, OTrap x)
  end.
Proof.
  intros Hs. unfold transfer, transfer_decide.
  set (t := Tx (Transfer from to spender amount fee) created m).
  unfold bindM at 1. unfold map_err at 1. rewrite check_duplicate_eq. unfold check_dup.
  destruct (tx_hashes s !! txh t) as [[i c]|]; [done|].
  destruct (is_denied (owner from)); [done|].
  destruct (is_denied (owner to)); [done|].
  destruct (match spender with Some sp => is_denied (owner sp) | None => false end); [done|].
  destruct (bad_fee fee); [done|].
  unfold u128_checked_add.
  destruct (N.ltb_spec (amount + FEE) U128_MOD) as [Hov|Hov];
    destruct (N.leb_spec U128_MOD (amount + FEE)); try lia; [|done].
  (* the allowance check *)
  set (chk := match third_party from spender with
              | Some sp => check_allowance s from sp (amount + FEE) now
              | None => Ok (0, 0) end).
  assert ((match third_party from spender with
           | Some sp => bindM (map_err tf_of_ua (lift (fun s0 =>
                check_allowance s0 from sp (amount + FEE) now))) (fun _ => ret tt)
           | None => ret tt end) s
          = match chk with Ok _ => (s, OOk tt) | Err e => (s, OErr (tf_of_ua e)) end) as Hchk.
  { unfold chk. destruct (third_party from spender); [|done].
    unfold bindM, map_err, lift. destruct (check_allowance _ _ _ _ _); done. }
  unfold bindM at 1. rewrite Hchk.
  assert (match third_party from spender with
          | None => None
          | Some sp => match check_allowance s from sp (amount + FEE) now with
                       | Err e => Some (tf_of_ua e) | Ok _ => None end end
          = match chk with Err e => Some (tf_of_ua e) | Ok _ => None end) as Hchk2.
  { unfold chk. destruct (third_party from spender); [|done]. done. }
  rewrite Hchk2. clear Hchk Hchk2.
  destruct chk as [ck|e] eqn:Echk; [|done].
  unfold bindM at 1. unfold map_err at 1. unfold lift at 1.
  unfold check_debit_from_account, u128_checked_sub.
  destruct (N.leb_spec (amount + FEE) (balance_of s from)) as [Hb|Hb];
    destruct (N.ltb_spec (balance_of s from) (amount + FEE)); try lia; [|done].
  unfold bindM at 1. unfold map_err at 1. unfold lift at 1.
  unfold check_credit_to_account, u128_checked_add.
  destruct (N.ltb_spec (balance_of s to + amount) U128_MOD) as [Hc|Hc];
    destruct (N.leb_spec U128_MOD (balance_of s to + amount)); try lia; [|done].
  unfold bindM at 1. unfold map_err at 1. unfold lift at 1.
  unfold check_total_supply_decrease, u128_checked_sub.
  pose proof (supply_bal s (to_key from) Hs) as Hsb. fold (balance_of s from) in Hsb.
  destruct (N.leb_spec FEE (total_supply s)); [|lia].
  unfold bindM at 1. unfold map_err at 1. rewrite process_transaction_eq.
  destruct (process_decide t now) as [[]|e|x]; simpl; [|done|done].
  set (s1 := push_block (mk_block now t s) s).
  assert ((match third_party from spender with
           | Some sp => or_trap TrapTransfer (use_allowance from sp (amount + FEE) now)
           | None => ret tt end) s1
          = (allow_effect (tx_op t) s1, OOk tt (E:=transfer_from_error))) as Hu.
  { simpl. unfold chk in Echk. destruct (third_party from spender); [|done].
    unfold or_trap. rewrite use_allowance_eq.
    replace (check_allowance s1 from a (amount + FEE) now)
      with (check_allowance s from a (amount + FEE) now) by done.
    rewrite Echk. done. }
  unfold bindM at 1. rewrite Hu. clear Hu.
  set (s2 := allow_effect (tx_op t) s1).
  destruct (allow_effect_balances (tx_op t) s1) as (Hb2 & Ht2 & _). fold s2 in Hb2, Ht2.
  assert (supply_ok s2) as Hs2 by (by eapply supply_ok_same).
  assert (balance_of s2 from = balance_of s from) as Hf2 by (by apply bal_same).
  assert (balance_of s2 to = balance_of s to) as Hto2 by (by apply bal_same).
  unfold bindM at 1. unfold or_trap at 1. rewrite debit_eq; [|lia|].
  2:{ rewrite Ht2. simpl. lia. }
  set (s3 := debit_bal from (amount + FEE) s2).
  assert (supply_ok s3) as Hs3 by (apply supply_ok_debit; [done|lia]).
  assert (total_supply s3 = total_supply s - (amount + FEE)) as Ht3.
  { unfold s3, debit_bal. simpl. rewrite Ht2. done. }
  destruct Hs as [_ Hs].
  unfold bindM at 1. unfold or_trap at 1. rewrite credit_eq.
  - done.
  - unfold balance_of, s3. rewrite bal_debit. fold (balance_of s2 to).
    destruct (decide _); lia.
  - rewrite Ht3. lia.
Qed.

(** What [approve] decides. *)
Definition approve_decide (from spender : account) (amount : N) (m : option memo) (now : N)
  (created fee expected expires : option N) (s : state) : outcome trap approve_error unit :=
  let t := Tx (Approve from spender amount expected expires fee) created m in
  match tx_hashes s !! txh t with
  | Some (i, _) => OErr (ADuplicate i)
  | None =>
  if bool_decide (owner from = owner spender) then OTrap TrapSelfApproval else
  if is_denied (owner from) then OErr (AGenericError DENIED_OWNER) else
  if is_denied (owner spender) then OErr (AGenericError DENIED_OWNER) else
  let current := (allowance s from spender now).1 in
  if match expected with None => false | Some e => negb (e =? current) end
  then OErr (AAllowanceChanged current) else
  if bad_fee fee then OErr (ABadFee FEE) else
  if balance_of s from <? FEE then OErr (AInsufficientFunds (balance_of s from)) else
  if default REMOTE_FUTURE expires <=? now then OErr (AExpired now) else
  out_map ap_of_pt (process_decide t now)
  end.

Lemma approve_eq from spender amount m now created fee expected expires s :
  supply_ok s ->
  approve from spender amount m now created fee expected expires s =
  match approve_decide from spender amount m now created fee expected expires s with
  | OOk _ => (tx_effect now (Tx (Approve from spender amount expected expires fee) created m) s,
              OOk (nblocks s))
  | OErr e => (s, OErr e)
  | OTrap x => (s, OTrap x)
  end.
Proof.
  intros Hs. unfold approve, approve_decide.
  set (t := Tx (Approve from spender amount expected expires fee) created m).
  unfold bindM at 1. unfold map_err at 1. rewrite check_duplicate_eq. unfold check_dup.
  destruct (tx_hashes s !! txh t) as [[i c]|]; [done|].
  case_bool_decide; [done|].
  destruct (is_denied (owner from)); [done|].
  destruct (is_denied (owner spender)); [done|].
  unfold bindM at 1. unfold gets at 1.
  destruct (match expected with None => false | Some e =>
              negb (e =? (allowance s from spender now).1) end); [done|].
  destruct (bad_fee fee); [done|].
  unfold bindM at 1. unfold gets at 1.
  destruct (N.ltb_spec (balance_of s from) FEE); [done|].
  destruct (default REMOTE_FUTURE expires <=? now); [done|].
  unfold bindM at 1. unfold map_err at 1. unfold lift at 1.
  unfold check_total_supply_decrease, u128_checked_sub.
  pose proof (supply_bal s (to_key from) Hs) as Hsb. fold (balance_of s from) in Hsb.
  destruct (N.leb_spec FEE (total_supply s)); [|lia].
  unfold bindM at 1. unfold map_err at 1. rewrite process_transaction_eq.
  destruct (process_decide t now) as [[]|e|x]; simpl; [|done|done].
  set (s1 := push_block (mk_block now t s) s).
  unfold bindM at 1. unfold modify at 1.
  destruct (record_approval_balances from spender amount expires s1) as (Hb2 & Ht2 & _).
  set (s2 := record_approval from spender amount expires s1) in *.
  assert (balance_of s2 from = balance_of s from) as Hf2 by (by apply bal_same).
  unfold bindM at 1. unfold or_trap at 1. rewrite debit_eq; [done|lia|].
  rewrite Ht2. simpl. lia.
Qed.

(** [mint] *)
Definition mint_decide (to : account) (amount : N) (m : option memo) (s : state)
  : outcome trap unit unit :=
  if (U128_MOD <=? balance_of s to + amount) || (U128_MOD <=? total_supply s + amount)
  then OErr tt
  else if negb (validate_memo m) then OTrap TrapMemoTooLong
  else OOk tt.

Lemma mint_eq to amount m now s :
  mint to amount m now s =
  match mint_decide to amount m s with
  | OOk _ => (tx_effect now (Tx (Mint to amount FEE) None m) s, OOk (nblocks s))
  | OErr e => (log_p0 LogMintFailed s, OErr e)
  | OTrap x => (s, OTrap x)
  end.
Proof.
  unfold mint, mint_decide, check_credit, check_credit_to_account, check_total_supply_increase,
    u128_checked_add.
  destruct (N.ltb_spec (balance_of s to + amount) U128_MOD) as [H1|H1];
    destruct (N.leb_spec U128_MOD (balance_of s to + amount)); try lia; simpl; [|done].
  destruct (N.ltb_spec (total_supply s + amount) U128_MOD) as [H2|H2];
    destruct (N.leb_spec U128_MOD (total_supply s + amount)); try lia; simpl; [|done].
  unfold bindM at 1. unfold map_err at 1. rewrite process_transaction_eq.
  unfold process_decide. simpl. destruct (validate_memo m); simpl; [|done].
  unfold bindM at 1. unfold or_trap at 1. rewrite credit_eq; done.
Qed.

(** [reimburse], without the final prune *)
Definition reimburse_decide (acc : account) (amount : N) (m : memo) (s : state)
  : outcome trap pt_error unit :=
  if negb (validate_memo (Some m)) then OTrap TrapMemoTooLong
  else if (U128_MOD <=? balance_of s acc + amount) || (U128_MOD <=? total_supply s + amount)
  then OTrap TrapReimburse else OOk tt.

Lemma reimburse_eq acc amount now m s :
  exists s_trap,
  reimburse acc amount now m s =
  match reimburse_decide acc amount m s with
  | OOk _ => (prune_state now (tx_effect now (Tx (Mint acc amount 0) None (Some m)) s),
              OOk (nblocks s))
  | OErr e => (s, OErr e)
  | OTrap x => (s_trap, OTrap x)
  end.
Proof.
  unfold reimburse, reimburse_decide. unfold bindM at 1. rewrite process_transaction_eq.
  unfold process_decide. simpl tx_memo. simpl tx_created_at.
  destruct (validate_memo (Some m)); [|by eexists]. simpl negb. cbv beta iota.
  simpl validate_created_at_time. cbv beta iota.
  set (s1 := push_block _ s).
  unfold bindM at 1. unfold or_trap at 1.
  destruct (N.leb_spec U128_MOD (balance_of s acc + amount)) as [H1|H1]; simpl orb.
  { unfold credit, u128_checked_add.
    replace (balance_of s1 acc) with (balance_of s acc) by done.
    destruct (N.ltb_spec (balance_of s acc + amount) U128_MOD); [lia|]. by eexists. }
  destruct (N.leb_spec U128_MOD (total_supply s + amount)) as [H2|H2].
  { unfold credit, u128_checked_add.
    replace (balance_of s1 acc) with (balance_of s acc) by done.
    replace (total_supply s1) with (total_supply s) by done.
    destruct (N.ltb_spec (balance_of s acc + amount) U128_MOD); [|lia].
    destruct (N.ltb_spec (total_supply s + amount) U128_MOD); [lia|]. by eexists. }
  rewrite credit_eq by done. exists s. done.
Qed.

(** The burn part shared by withdraw and create_canister *)
Definition burn_decide {E} (conv_pt : pt_error -> E) (conv_ua : ua_error -> E + trap)
  (no_funds : N -> E) (t : transaction) (from : account) (spender : option account)
  (amount now : N) (s : state) : outcome trap E (option N) :=
  match tx_hashes s !! txh t with
  | Some (i, c) => OErr (conv_pt (PTDuplicate i c))
  | None =>
  if U128_MOD <=? amount + FEE then OErr (no_funds (balance_of s from)) else
  match (match third_party from spender with
         | None => OOk None
         | Some sp => match check_allowance s from sp (amount + FEE) now with
                      | Err e => match conv_ua e with inl e' => OErr e' | inr x => OTrap x end
                      | Ok (_, e) => OOk (old_expiry e)
                      end
         end) with
  | OErr e => OErr e
  | OTrap x => OTrap x
  | OOk old =>
  if balance_of s from <? amount + FEE then OErr (no_funds (balance_of s from)) else
  match process_decide t now with
  | OOk _ => OOk old
  | OErr e => OErr (conv_pt e)
  | OTrap x => OTrap x
  end end end.

Definition withdraw_decide (from : account) (to : principal) (spender : option account)
  (amount now : N) (created : option N) (s : state)
  : outcome trap withdraw_from_error (option N) :=
  if is_self_authenticating to then OErr (WFInvalidReceiver to) else
  if amount =? 0 then OErr (WFGenericError CANNOT_TRANSFER_FROM_ZERO) else
  burn_decide wf_of_pt wf_of_ua WFInsufficientFunds
    (Tx (Burn from spender amount) created (Some (encode_withdraw_memo to)))
    from spender amount now s.

Ltac burn_tac from spender amount now s t Hs :=
  unfold bindM at 1; unfold map_err at 1; rewrite check_duplicate_eq; unfold check_dup;
  destruct (tx_hashes s !! txh t) as [[i c]|]; [done|];
  unfold u128_checked_add;
  destruct (N.ltb_spec (amount + FEE) U128_MOD) as [Hov|Hov];
    destruct (N.leb_spec U128_MOD (amount + FEE)); try lia; [|done].

Lemma withdraw_start_eq from to spender amount now created s :
  supply_ok s ->
  withdraw_start from to spender amount now created s =
  match withdraw_decide from to spender amount now created s with
  | OOk old =>
      (prune_state now (tx_effect now (Tx (Burn from spender amount) created
                                          (Some (encode_withdraw_memo to))) s),
       OOk (nblocks s, old))
  | OErr e => (s, OErr e)
  | OTrap x => (s, OTrap x)
  end.
Proof.
  intros Hs. unfold withdraw_start, withdraw_decide, burn_decide.
  destruct (is_self_authenticating to); [done|].
  destruct (amount =? 0); [done|].
  set (t := Tx (Burn from spender amount) created (Some (encode_withdraw_memo to))).
  burn_tac from spender amount now s t Hs.
  match goal with |- context [bindM ?m _] =>
    assert (m s = match (match third_party from spender with
         | None => OOk None
         | Some sp => match check_allowance s from sp (amount + FEE) now with
                      | Err e => match wf_of_ua e with inl e' => OErr e' | inr x => OTrap x end
                      | Ok (_, e) => OOk (old_expiry e)
                      end
         end) with OOk o => (s, OOk o) | OErr e => (s, OErr e) | OTrap x => (s, OTrap x) end) as Hm end.
  { destruct (third_party from spender); [|done].
    unfold bindM, map_err_trap, lift. destruct (check_allowance _ _ _ _ _) as [[? ?]|e]; [done|].
    destruct (wf_of_ua e); done. }
  unfold bindM at 1. rewrite Hm. clear Hm.
  destruct (match third_party from spender with
         | None => OOk None
         | Some sp => match check_allowance s from sp (amount + FEE) now with
                      | Err e => match wf_of_ua e with inl e' => OErr e' | inr x => OTrap x end
                      | Ok (_, e) => OOk (old_expiry e)
                      end
         end) as [old|e|x] eqn:Echk; [|done|done].
  unfold bindM at 1. unfold map_err at 1. unfold lift at 1.
  unfold check_debit_from_account, u128_checked_sub.
  destruct (N.leb_spec (amount + FEE) (balance_of s from)) as [Hb|Hb];
    destruct (N.ltb_spec (balance_of s from) (amount + FEE)); try lia; [|done].
  unfold bindM at 1. unfold map_err at 1. unfold lift at 1.
  unfold check_total_supply_decrease, u128_checked_sub.
  pose proof (supply_bal s (to_key from) Hs) as Hsb. fold (balance_of s from) in Hsb.
  destruct (N.leb_spec (amount + FEE) (total_supply s)); [|lia].
  unfold bindM at 1. unfold map_err at 1. rewrite process_transaction_eq.
  destruct (process_decide t now) as [[]|e|x]; simpl; [|done|done].
  set (s1 := push_block (mk_block now t s) s).
  assert ((match third_party from spender with
           | Some sp => or_trap TrapWithdraw (use_allowance from sp (amount + FEE) now)
           | None => ret tt end) s1
          = (allow_effect (tx_op t) s1, OOk tt (E:=withdraw_from_error))) as Hu.
  { simpl. destruct (third_party from spender); [|done].
    unfold or_trap. rewrite use_allowance_eq.
    replace (check_allowance s1 from a (amount + FEE) now)
      with (check_allowance s from a (amount + FEE) now) by done.
    destruct (check_allowance s from a (amount + FEE) now) as [[? ?]|e]; [done|].
    destruct e; done. }
  unfold bindM at 1. rewrite Hu. clear Hu.
  destruct (allow_effect_balances (tx_op t) s1) as (Hb2 & Ht2 & _).
  assert (balance_of (allow_effect (tx_op t) s1) from = balance_of s from) as Hf2
    by (by apply bal_same).
  unfold bindM at 1. unfold or_trap at 1. rewrite debit_eq; [done|lia|].
  rewrite Ht2. simpl. lia.
Qed.

Definition create_decide (from : account) (spender : option account)
  (amount now : N) (created : option N) (s : state)
  : outcome trap create_canister_from_error (option N) :=
  burn_decide cf_of_pt cf_of_ua CFInsufficientFunds
    (create_tx from spender amount created) from spender amount now s.

Lemma create_start_eq from spender amount now created s :
  supply_ok s ->
  create_start from spender amount now created s =
  match create_decide from spender amount now created s with
  | OOk old =>
      (prune_state now (tx_effect now (create_tx from spender amount created) s),
       OOk (nblocks s, old))
  | OErr e => (s, OErr e)
  | OTrap x => (s, OTrap x)
  end.
Proof.
  intros Hs. unfold create_start, create_decide, burn_decide.
  set (t := create_tx from spender amount created).
  burn_tac from spender amount now s t Hs.
  match goal with |- context [bindM ?m _] =>
    assert (m s = match (match third_party from spender with
         | None => OOk None
         | Some sp => match check_allowance s from sp (amount + FEE) now with
                      | Err e => match cf_of_ua e with inl e' => OErr e' | inr x => OTrap x end
                      | Ok (_, e) => OOk (old_expiry e)
                      end
         end) with OOk o => (s, OOk o) | OErr e => (s, OErr e) | OTrap x => (s, OTrap x) end) as Hm end.
  { destruct (third_party from spender); [|done].
    unfold bindM, map_err_trap, lift. destruct (check_allowance _ _ _ _ _) as [[? ?]|e]; [done|].
    destruct (cf_of_ua e); done. }
  unfold bindM at 1. rewrite Hm. clear Hm.
  destruct (match third_party from spender with
         | None => OOk None
         | Some sp => match check_allowance s from sp (amount + FEE) now with
                      | Err e => match cf_of_ua e with inl e' => OErr e' | inr x => OTrap x end
                      | Ok (_, e) => OOk (old_expiry e)
                      end
         end) as [old|e|x] eqn:Echk; [|done|done].
  unfold bindM at 1. unfold map_err at 1. unfold lift at 1.
  unfold check_debit_from_account, u128_checked_sub.
  destruct (N.leb_spec (amount + FEE) (balance_of s from)) as [Hb|Hb];
    destruct (N.ltb_spec (balance_of s from) (amount + FEE)); try lia; [|done].
  unfold bindM at 1. unfold map_err at 1. unfold lift at 1.
  unfold check_total_supply_decrease, u128_checked_sub.
  pose proof (supply_bal s (to_key from) Hs) as Hsb. fold (balance_of s from) in Hsb.
  destruct (N.leb_spec (amount + FEE) (total_supply s)); [|lia].
  unfold bindM at 1. unfold map_err at 1. rewrite process_transaction_eq.
  destruct (process_decide t now) as [[]|e|x]; simpl; [|done|done].
  set (s1 := push_block (mk_block now t s) s).
  assert ((match third_party from spender with
           | Some sp => or_trap TrapCreateCanister (use_allowance from sp (amount + FEE) now)
           | None => ret tt end) s1
          = (allow_effect (tx_op t) s1, OOk tt (E:=create_canister_from_error))) as Hu.
  { simpl. destruct (third_party from spender); [|done].
    unfold or_trap. rewrite use_allowance_eq.
    replace (check_allowance s1 from a (amount + FEE) now)
      with (check_allowance s from a (amount + FEE) now) by done.
    destruct (check_allowance s from a (amount + FEE) now) as [[? ?]|e]; [done|].
    destruct e; done. }
  unfold bindM at 1. rewrite Hu. clear Hu.
  destruct (allow_effect_balances (tx_op t) s1) as (Hb2 & Ht2 & _).
  assert (balance_of (allow_effect (tx_op t) s1) from = balance_of s from) as Hf2
    by (by apply bal_same).
  unfold bindM at 1. unfold or_trap at 1. rewrite debit_eq; [done|lia|].
  rewrite Ht2. simpl. lia.
Qed.

End WithEnv.
