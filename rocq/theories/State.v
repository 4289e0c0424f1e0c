(** * Ledger state, the message monad, and the elementary state operations *)
From Verif Require Import Base Types Codec.

(** ** State.  storage.rs:520-530 with the cache of storage.rs:74-83.

    Stable structures are finite maps; the block log is a list.  [certified] is
    the canister's certified data variable kept by the IC ([None] until it is
    first set); [p0] is the part of the heap-allocated P0 log that matters
    (storage.rs [log!(P0, ...)], newest first).  P1 messages are not modelled. *)
Record state := State {
  blocks : list block;
  balances : gmap akey N;
  approvals : gmap apkey (N * N);
  exp_queue : gset (N * apkey);
  tx_hashes : gmap hash (N * option principal);
  tx_timestamps : gset (N * N);
  cfg : config;
  phash : option hash;
  total_supply : N;
  hash_tree : gmap string (list byte);
  certified : option hash;
  p0 : list p0_msg
}.

(** Field updates. *)
Definition set_blocks v s := State v (balances s) (approvals s) (exp_queue s) (tx_hashes s)
  (tx_timestamps s) (cfg s) (phash s) (total_supply s) (hash_tree s) (certified s) (p0 s).
Definition set_balances v s := State (blocks s) v (approvals s) (exp_queue s) (tx_hashes s)
  (tx_timestamps s) (cfg s) (phash s) (total_supply s) (hash_tree s) (certified s) (p0 s).
Definition set_approvals v s := State (blocks s) (balances s) v (exp_queue s) (tx_hashes s)
  (tx_timestamps s) (cfg s) (phash s) (total_supply s) (hash_tree s) (certified s) (p0 s).
Definition set_exp_queue v s := State (blocks s) (balances s) (approvals s) v (tx_hashes s)
  (tx_timestamps s) (cfg s) (phash s) (total_supply s) (hash_tree s) (certified s) (p0 s).
Definition set_tx_hashes v s := State (blocks s) (balances s) (approvals s) (exp_queue s) v
  (tx_timestamps s) (cfg s) (phash s) (total_supply s) (hash_tree s) (certified s) (p0 s).
Definition set_tx_timestamps v s := State (blocks s) (balances s) (approvals s) (exp_queue s)
  (tx_hashes s) v (cfg s) (phash s) (total_supply s) (hash_tree s) (certified s) (p0 s).
Definition set_cfg v s := State (blocks s) (balances s) (approvals s) (exp_queue s) (tx_hashes s)
  (tx_timestamps s) v (phash s) (total_supply s) (hash_tree s) (certified s) (p0 s).
Definition set_phash v s := State (blocks s) (balances s) (approvals s) (exp_queue s) (tx_hashes s)
  (tx_timestamps s) (cfg s) v (total_supply s) (hash_tree s) (certified s) (p0 s).
Definition set_total_supply v s := State (blocks s) (balances s) (approvals s) (exp_queue s)
  (tx_hashes s) (tx_timestamps s) (cfg s) (phash s) v (hash_tree s) (certified s) (p0 s).
Definition set_hash_tree v s := State (blocks s) (balances s) (approvals s) (exp_queue s)
  (tx_hashes s) (tx_timestamps s) (cfg s) (phash s) (total_supply s) v (certified s) (p0 s).
Definition set_certified v s := State (blocks s) (balances s) (approvals s) (exp_queue s)
  (tx_hashes s) (tx_timestamps s) (cfg s) (phash s) (total_supply s) (hash_tree s) v (p0 s).
Definition set_p0 v s := State (blocks s) (balances s) (approvals s) (exp_queue s) (tx_hashes s)
  (tx_timestamps s) (cfg s) (phash s) (total_supply s) (hash_tree s) (certified s) v.

(** [log!(P0, ...)] *)
Definition log_p0 (m : p0_msg) (s : state) : state := set_p0 (m :: p0 s) s.

(** The state of a freshly installed canister before [init] runs.
    storage.rs:700-731 on empty stable memory. *)
Definition empty_state : state :=
  State [] ∅ ∅ ∅ ∅ ∅ default_config None 0 ∅ None [].

(** ** The message monad: code that reads and writes the state and ends in a
    value, an error ([?] / [return Err]) or a trap. *)
Definition M (E A : Type) : Type := state -> state * outcome trap E A.

(** Return, [Err], trap and sequencing (the [?] operator); no code of its own in /repo *)
Definition ret {E A} (a : A) : M E A := fun s => (s, OOk a).
Definition throw {E A} (e : E) : M E A := fun s => (s, OErr e).
Definition trap_with {E A} (t : trap) : M E A := fun s => (s, OTrap t).
Definition bindM {E A B} (m : M E A) (k : A -> M E B) : M E B := fun s =>
  match m s with
  | (s', OOk a) => k a s'
  | (s', OErr e) => (s', OErr e)
  | (s', OTrap t) => (s', OTrap t)
  end.
Notation "'let!' x ':=' m 'in' k" := (bindM m (fun x => k))
  (at level 200, x pattern, m at level 100, k at level 200, right associativity).
Notation "'do!' m 'in' k" := (bindM m (fun _ => k))
  (at level 200, m at level 100, k at level 200, right associativity).

(** [read_state] / [mutate_state] with total functions *)
Definition gets {E A} (f : state -> A) : M E A := fun s => (s, OOk (f s)).
Definition modify {E} (f : state -> state) : M E unit := fun s => (f s, OOk tt).

(** [map_err] and [?] conversions between error types *)
Definition map_err {E E' A} (f : E -> E') (m : M E A) : M E' A := fun s =>
  match m s with
  | (s', OOk a) => (s', OOk a)
  | (s', OErr e) => (s', OErr (f e))
  | (s', OTrap t) => (s', OTrap t)
  end.
(** as [map_err], for conversions that may themselves trap *)
Definition map_err_trap {E E' A} (f : E -> E' + trap) (m : M E A) : M E' A := fun s =>
  match m s with
  | (s', OOk a) => (s', OOk a)
  | (s', OErr e) =>
      match f e with inl e' => (s', OErr e') | inr t => (s', OTrap t) end
  | (s', OTrap t) => (s', OTrap t)
  end.
(** [if let Err(err) = ... { ic_cdk::trap(...) }] *)
Definition or_trap {E E' A} (t : trap) (m : M E A) : M E' A := fun s =>
  match m s with
  | (s', OOk a) => (s', OOk a)
  | (s', OErr _) => (s', OTrap t)
  | (s', OTrap t') => (s', OTrap t')
  end.
(** lift a [Result] computed from the state *)
Definition lift {E A} (f : state -> result E A) : M E A := fun s =>
  match f s with Ok a => (s, OOk a) | Err e => (s, OErr e) end.

(** ** Balances and total supply.  The [anyhow] error texts are dropped. *)

(** storage.rs:843-845 [balance_of] (on keys) *)
Definition bal (s : state) (k : akey) : N := default 0 (balances s !! k).
Definition balance_of (s : state) (a : account) : N := bal s (to_key a).

(** storage.rs:543-549 *)
Definition check_credit_to_account (s : state) (a : account) (amount : N) : result unit N :=
  match u128_checked_add (balance_of s a) amount with Some n => Ok n | None => Err tt end.
(** storage.rs:553-557 *)
Definition check_total_supply_increase (s : state) (amount : N) : result unit N :=
  match u128_checked_add (total_supply s) amount with Some n => Ok n | None => Err tt end.
(** storage.rs:560-564 *)
Definition check_credit (s : state) (a : account) (amount : N) : result unit unit :=
  match check_credit_to_account s a amount with
  | Err e => Err e
  | Ok _ =>
      match check_total_supply_increase s amount with
      | Err e => Err e
      | Ok _ => Ok tt
      end
  end.
(** storage.rs:569-573 *)
Definition check_debit_from_account (s : state) (a : account) (amount : N) : result N N :=
  match u128_checked_sub (balance_of s a) amount with
  | Some n => Ok n
  | None => Err (balance_of s a)
  end.
(** storage.rs:577-581 *)
Definition check_total_supply_decrease (s : state) (amount : N) : result unit N :=
  match u128_checked_sub (total_supply s) amount with Some n => Ok n | None => Err tt end.

(** storage.rs:590-602 [credit] *)
Definition credit (a : account) (amount : N) : M unit N := fun s =>
  match u128_checked_add (balance_of s a) amount with
  | None => (s, OErr tt)
  | Some new_balance =>
      match u128_checked_add (total_supply s) amount with
      | None => (s, OErr tt)
      | Some ts =>
          (set_balances (<[to_key a := new_balance]> (balances s)) (set_total_supply ts s),
           OOk new_balance)
      end
  end.

(** storage.rs:605-621 [debit] *)
Definition debit (a : account) (amount : N) : M unit N := fun s =>
  match u128_checked_sub (balance_of s a) amount with
  | None => (s, OErr tt)
  | Some new_balance =>
      match u128_checked_sub (total_supply s) amount with
      | None => (s, OErr tt)
      | Some ts =>
          let b' := if new_balance =? 0 then delete (to_key a) (balances s)
                    else <[to_key a := new_balance]> (balances s) in
          (set_balances b' (set_total_supply ts s), OOk new_balance)
      end
  end.

(** storage.rs:691-697 [compute_total_supply]; [+=] on [u128] wraps in the
    release profile. *)
Definition compute_total_supply (m : gmap akey N) : N :=
  foldl (fun acc kv => (acc + kv.2) mod U128_MOD) 0 (map_to_list m).

(** ** Hash tree and certification *)

(** storage.rs:782-791 [populate_last_block_hash_and_hash_tree] *)
Definition populate_tree (tree : gmap string (list byte)) (idx : N) (h : hash)
  : gmap string (list byte) :=
  <["last_block_hash"%string := h]> (<["last_block_index"%string := leb128_u64 idx]> tree).

(** Number of blocks as the u64 returned by [blocks.len()]. *)
Definition nblocks (s : state) : N := N.of_nat (length (blocks s)).

Section WithEnv.
Context `{Env}.

(** storage.rs:653-664 [compute_last_block_hash_and_hash_tree] *)
Definition compute_last_block_hash_and_hash_tree (bs : list block)
  : option hash * gmap string (list byte) :=
  match last bs with
  | None => (None, ∅)
  | Some b =>
      let h := block_hash b in
      (Some h, populate_tree ∅ (N.of_nat (length bs) - 1) h)
  end.

(** storage.rs:666-689 [emit_block].  [append] never fails in the model: the
    block log is unbounded. *)
Definition emit_block {E} (b : block) : M E hash := fun s =>
  let h := block_hash b in
  let s1 := set_phash (Some h) s in
  match tx_hash (b_tx b) with
  | None => (s1, OTrap TrapTxHash)
  | Some th =>
      let s2 := set_blocks (blocks s1 ++ [b]) s1 in
      let idx := nblocks s2 - 1 in
      let s3 := set_hash_tree (populate_tree (hash_tree s2) idx h) s2 in
      let s4 := set_certified (Some (troot (hash_tree s3))) s3 in
      let s5 := match tx_created_at (b_tx b) with
                | None => s4
                | Some ts =>
                    set_tx_timestamps ({[ (ts, idx) ]} ∪ tx_timestamps s4)
                      (set_tx_hashes (<[th := (idx, None)]> (tx_hashes s4)) s4)
                end in
      (s5, OOk h)
  end.

(** ** B-tree key order *)

(** [Ord] on [AccountKey], [ApprovalKey] and [(u64, ApprovalKey)]: tuples are
    compared left to right, principals by [prank], subaccounts as numbers. *)
Definition akrank (k : akey) : list N := [prank k.1; k.2].
Definition aprank (k : apkey) : list N := akrank k.1 ++ akrank k.2.
Definition qrank (k : N * apkey) : list N := k.1 :: aprank k.2.
Definition trank (k : N * N) : list N := [k.1; k.2].

(** [StableBTreeMap::first_key_value] (key only) *)
Definition first_expiry (s : state) : option (N * apkey) :=
  min_elt (fun a b => lexb (qrank a) (qrank b)) (elements (exp_queue s)).
Definition first_timestamp (s : state) : option (N * N) :=
  min_elt (fun a b => lexb (trank a) (trank b)) (elements (tx_timestamps s)).

(** ** Pruning *)

(** storage.rs:2272-2290 [prune_approvals] *)
Fixpoint prune_approvals (now : N) (limit : nat) (s : state) : state :=
  match limit with
  | O => s
  | S limit' =>
      match first_expiry s with
      | None => s
      | Some (t, k) =>
          if now <? t then s else
          let s1 := match approvals s !! k with
                    | None => log_p0 LogApprovalMissing s
                    | Some _ => set_approvals (delete k (approvals s)) s
                    end in
          prune_approvals now limit' (set_exp_queue (exp_queue s1 ∖ {[ (t, k) ]}) s1)
      end
  end.

(** storage.rs:2295-2300 *)
Definition is_before_transaction_window (timestamp now : N) : bool :=
  u64_sat_add (u64_sat_add timestamp TRANSACTION_WINDOW) PERMITTED_DRIFT <? now.

(** storage.rs:2311-2362: drop the hash table entry of a pruned transaction *)
Definition prune_tx_hash (block_idx : N) (s : state) : state :=
  match blocks s !! N.to_nat block_idx with
  | None => log_p0 LogPruneBlockMissing s
  | Some b =>
      match tx_hash (b_tx b) with
      | None => log_p0 LogPruneHashError s
      | Some th =>
          let s1 := set_tx_hashes (delete th (tx_hashes s)) s in
          match tx_hashes s !! th with
          | None => log_p0 LogPruneHashMissing s1
          | Some (found, _) =>
              if found =? block_idx then s1 else log_p0 LogPruneHashMismatch s1
          end
      end
  end.

(** storage.rs:2302-2364 [prune_transactions] *)
Fixpoint prune_transactions (now : N) (limit : nat) (s : state) : state :=
  match limit with
  | O => s
  | S limit' =>
      match first_timestamp s with
      | None => s
      | Some (ts, idx) =>
          if negb (is_before_transaction_window ts now) then s else
          prune_transactions now limit'
            (prune_tx_hash idx (set_tx_timestamps (tx_timestamps s ∖ {[ (ts, idx) ]}) s))
      end
  end.

(** storage.rs:768-777 [check_invariants] *)
Definition check_invariants (s : state) : state :=
  if (size (approvals s) <? size (exp_queue s))%nat
  then log_p0 LogQueueLargerThanApprovals s else s.

(** storage.rs:760-766 [prune] *)
Definition prune_state (now : N) (s : state) : state :=
  check_invariants
    (prune_transactions now TRANSACTION_PRUNE_LIMIT
      (prune_approvals now APPROVE_PRUNE_LIMIT s)).
Definition prune {E} (now : N) : M E unit := modify (prune_state now).

(** ** Allowances *)

(** storage.rs:2165, 2180, 2225, 2258: the key of an approval *)
Definition approval_key (from spender : account) : apkey := (to_key from, to_key spender).

(** storage.rs:2164-2171 [allowance] *)
Definition allowance (s : state) (from spender : account) (now : N) : N * N :=
  let a := default (0, 0) (approvals s !! approval_key from spender) in
  if (0 <? a.2) && (a.2 <? now) then (0, 0) else a.

(** storage.rs:2173-2214 [record_approval] *)
Definition record_approval (from spender : account) (amount : N) (expires_at : option N)
  (s : state) : state :=
  let key := approval_key from spender in
  let expires := default 0 expires_at in
  match approvals s !! key with
  | None =>
      if amount =? 0 then log_p0 LogApprovalZero s
      else
        let s1 := if 0 <? expires
                  then set_exp_queue ({[ (expires, key) ]} ∪ exp_queue s) s else s in
        set_approvals (<[key := (amount, expires)]> (approvals s1)) s1
  | Some (_, current) =>
      if amount =? 0 then
        let s1 := if 0 <? current
                  then set_exp_queue (exp_queue s ∖ {[ (current, key) ]}) s else s in
        set_approvals (delete key (approvals s1)) s1
      else
        let s1 := set_approvals (<[key := (amount, expires)]> (approvals s)) s in
        if expires =? current then s1
        else
          let s2 := if 0 <? current
                    then set_exp_queue (exp_queue s1 ∖ {[ (current, key) ]}) s1 else s1 in
          if 0 <? expires
          then set_exp_queue ({[ (expires, key) ]} ∪ exp_queue s2) s2 else s2
  end.

(** storage.rs:2216-2247 [check_allowance] *)
Definition check_allowance (s : state) (from spender : account) (amount now : N)
  : result ua_error (N * N) :=
  if amount =? 0 then Err CannotDeduceZero else
  match approvals s !! approval_key from spender with
  | None => Err (UAInsufficientAllowance 0)
  | Some (current, expiration) =>
      if negb ((expiration =? 0) || (now <? expiration)) then Err ExpiredApproval
      else match u128_checked_sub current amount with
           | None => Err (UAInsufficientAllowance current)
           | Some n => Ok (n, expiration)
           end
  end.

(** storage.rs:2249-2270 [use_allowance] *)
Definition use_allowance (from spender : account) (amount now : N) : M ua_error unit :=
  let! (n, expiration) := lift (fun s => check_allowance s from spender amount now) in
  let key := approval_key from spender in
  if n =? 0 then
    do! (if 0 <? expiration
         then modify (fun s => set_exp_queue (exp_queue s ∖ {[ (expiration, key) ]}) s)
         else ret tt) in
    modify (fun s => set_approvals (delete key (approvals s)) s)
  else modify (fun s => set_approvals (<[key := (n, expiration)]> (approvals s)) s).

End WithEnv.
