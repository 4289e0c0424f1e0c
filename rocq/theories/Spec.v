(** * Specification vocabulary

    What a reader of the public block log computes from it.  Nothing here uses
    the ledger's own state or helpers; [to_key] is the identity of an account
    (owner and effective subaccount). *)
From Verif Require Import Base Types.

Local Open Scope Z_scope.

(** The fee a block charges: the block's own [fee] field if present, else the
    fee of its transaction (ICRC-3). *)
Definition fee_of (b : block) : N :=
  match b_effective_fee b with
  | Some f => f
  | None =>
      match tx_op (b_tx b) with
      | Transfer _ _ _ _ (Some f) => f
      | Approve _ _ _ _ _ (Some f) => f
      | Mint _ _ f => f
      | _ => 0%N
      end
  end.

(** What a block takes from and gives to account [k]. *)
Definition taken (b : block) (k : akey) : N :=
  match tx_op (b_tx b) with
  | Mint _ _ _ => 0
  | Transfer from _ _ amount _ => if decide (k = to_key from) then amount + fee_of b else 0
  | Burn from _ amount => if decide (k = to_key from) then amount + fee_of b else 0
  | Approve from _ _ _ _ _ => if decide (k = to_key from) then fee_of b else 0
  end%N.
Definition given (b : block) (k : akey) : N :=
  match tx_op (b_tx b) with
  | Mint to amount _ => if decide (k = to_key to) then amount else 0
  | Transfer _ to _ amount _ => if decide (k = to_key to) then amount else 0
  | _ => 0
  end%N.

(** The balance of [k] according to the log. *)
Fixpoint log_balance (bs : list block) (k : akey) : Z :=
  match bs with
  | [] => 0
  | b :: bs' => Z.of_N (given b k) - Z.of_N (taken b k) + log_balance bs' k
  end.

(** The allowance a block uses: the pair (owner account, spender account) and
    the amount drawn, when the spender is a different account. *)
Definition spent_by (b : block) : option (apkey * N) :=
  match tx_op (b_tx b) with
  | Transfer from _ (Some sp) amount _ =>
      if decide (to_key sp = to_key from) then None
      else Some ((to_key from, to_key sp), (amount + fee_of b)%N)
  | Burn from (Some sp) amount =>
      if decide (to_key sp = to_key from) then None
      else Some ((to_key from, to_key sp), (amount + fee_of b)%N)
  | _ => None
  end.
(** The allowance a block sets: pair, amount, expiry. *)
Definition approved_by (b : block) : option (apkey * (N * option N)) :=
  match tx_op (b_tx b) with
  | Approve from sp amount _ expires _ => Some ((to_key from, to_key sp), (amount, expires))
  | _ => None
  end.

(** How block [b] changes the allowance of pair [k]; [None] is no allowance. *)
Definition allowance_step (k : apkey) (cur : option (N * option N)) (b : block)
  : option (N * option N) :=
  match approved_by b with
  | Some (k', (a, x)) =>
      if decide (k = k') then if (a =? 0)%N then None else Some (a, x) else cur
  | None =>
      match spent_by b with
      | Some (k', n) =>
          if decide (k = k') then
            match cur with
            | Some (a, x) => if (a - n =? 0)%N then None else Some ((a - n)%N, x)
            | None => None
            end
          else cur
      | None => cur
      end
  end.
(** The allowance of pair [k] according to the log, expired or not. *)
Definition log_allowance (bs : list block) (k : apkey) : option (N * option N) :=
  foldl (allowance_step k) None bs.

(** An expiry [x] has not been reached at time [now]. *)
Definition unexpired (now : N) (x : option N) : Prop :=
  match x with None => True | Some e => (now < e)%N end.
Global Instance unexpired_dec now x : Decision (unexpired now x).
Proof. destruct x; simpl; apply _. Defined.

(** The live allowance of pair [k] at time [now] according to the log. *)
Definition live_allowance (bs : list block) (k : apkey) (now : N) : N * option N :=
  match log_allowance bs k with
  | Some (a, x) => if decide (unexpired now x) then (a, x) else (0%N, None)
  | None => (0%N, None)
  end.

(** 24 hours and 60 seconds, in nanoseconds. *)
Definition DAY : N := 24 * 60 * 60 * 1000000000.
Definition MINUTE : N := 60 * 1000000000.
(** A [created_at_time] is neither too old nor in the future at [now]. *)
Definition in_window (created now : N) : Prop :=
  (now <= created + DAY + MINUTE /\ created <= now + MINUTE)%N.

(** Sum of a function over a list *)
Definition sum_over {A} (f : A -> N) (l : list A) : N := foldr (fun x acc => f x + acc)%N 0%N l.

(** The field [k] of a generic map. *)
Fixpoint assoc (k : string) (m : list (string * value)) : option value :=
  match m with
  | [] => None
  | (k', v) :: m' => if String.eqb k k' then Some v else assoc k m'
  end.
Definition field (k : string) (v : value) : option value :=
  match v with VMap m => assoc k m | _ => None end.
