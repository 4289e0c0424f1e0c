(** * Machine integers, bytes, outcomes and the message monad *)
From Coq Require Export NArith ZArith Lia ZifyBool ZifyN.
From Coq Require Import Init.Byte Strings.Byte.
From stdpp Require Export base decidable numbers list gmap sorting strings.

Global Open Scope N_scope.
Arguments N.add : simpl never.
Arguments N.sub : simpl never.
Arguments N.mul : simpl never.
Arguments N.pow : simpl never.
Arguments N.div : simpl never.
Arguments N.modulo : simpl never.
Arguments N.of_nat : simpl never.
Arguments N.to_nat : simpl never.
Arguments N.leb : simpl never.
Arguments N.ltb : simpl never.
Arguments N.eqb : simpl never.
Arguments Z.add : simpl never.
Arguments Z.sub : simpl never.
Arguments Z.of_N : simpl never.

(** ** Bytes.  Rust [u8] is Coq's 256-constructor type [Byte.byte]. *)
Notation byte := Byte.byte.

Global Instance byte_eq_dec : EqDecision byte := Byte.byte_eq_dec.

Lemma byte_of_to_N (b : byte) : Byte.of_N (Byte.to_N b) = Some b.
Proof. apply Byte.of_to_N. Qed.

Global Program Instance byte_countable : Countable byte :=
  inj_countable Byte.to_N Byte.of_N byte_of_to_N.

(** [n] truncated to eight bits ([n as u8]). *)
Definition byte_of (n : N) : byte :=
  match Byte.of_N (n mod 256) with Some b => b | None => Byte.x00 end.

(** ** u64 and u128.  Values are [N]; the bounds are explicit. *)
Definition U64_MAX : N := 18446744073709551615.
Definition U128_MAX : N := 340282366920938463463374607431768211455.
Definition U64_MOD : N := 18446744073709551616.
Definition U128_MOD : N := 340282366920938463463374607431768211456.

Definition is_u64 (n : N) : Prop := n < U64_MOD.
Definition is_u128 (n : N) : Prop := n < U128_MOD.

(** [u128::checked_add] *)
Definition u128_checked_add (a b : N) : option N :=
  if a + b <? U128_MOD then Some (a + b) else None.
(** [u128::checked_sub] *)
Definition u128_checked_sub (a b : N) : option N :=
  if b <=? a then Some (a - b) else None.
(** [u128::saturating_add] *)
Definition u128_sat_add (a b : N) : N :=
  if a + b <? U128_MOD then a + b else U128_MAX.
(** [u128::saturating_sub]: [N.sub] truncates at zero. *)
Definition u128_sat_sub (a b : N) : N := a - b.
(** [u64::saturating_add] *)
Definition u64_sat_add (a b : N) : N :=
  if a + b <? U64_MOD then a + b else U64_MAX.
(** [u64] addition in the release profile: no overflow checks are enabled in
    [/repo/Cargo.toml] ([profile.release]), so [+] wraps. *)
Definition u64_wrap_add (a b : N) : N := (a + b) mod U64_MOD.
(** [BigUint::to_u64] / [BigUint::to_u128] on a candid [Nat]. *)
Definition nat_to_u64 (n : N) : option N := if n <? U64_MOD then Some n else None.
Definition nat_to_u128 (n : N) : option N := if n <? U128_MOD then Some n else None.

(** ** Results *)
Inductive result (E A : Type) : Type :=
| Ok (a : A)
| Err (e : E).
Arguments Ok {E A} a.
Arguments Err {E A} e.

(** Result of running a piece of message code: a value, an [Err] (which the
    IC does *not* roll back), or a trap (which it does). *)
Inductive outcome (T E A : Type) : Type :=
| OOk (a : A)
| OErr (e : E)
| OTrap (t : T).
Arguments OOk {T E A} a.
Arguments OErr {T E A} e.
Arguments OTrap {T E A} t.

(** ** Lexicographic order on lists of numbers, used for B-tree keys. *)
Fixpoint lexb (a b : list N) : bool :=
  match a, b with
  | [], _ => true
  | _ :: _, [] => false
  | x :: a', y :: b' => if x <? y then true else if y <? x then false else lexb a' b'
  end.

(** Least element of a list under a boolean order. *)
Fixpoint min_elt {A} (le : A -> A -> bool) (l : list A) : option A :=
  match l with
  | [] => None
  | x :: l' =>
      match min_elt le l' with
      | None => Some x
      | Some y => Some (if le x y then x else y)
      end
  end.

(** The range [start .. start + n]. *)
Definition seqN (start n : N) : list N := map N.of_nat (seq (N.to_nat start) (N.to_nat n)).
