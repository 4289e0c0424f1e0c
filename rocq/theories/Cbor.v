(** * CBOR bytes: what is written to and read from the stable block log *)
From Coq Require Import Strings.String.
From Verif Require Import Base Types Codec.

Local Open Scope list_scope.
Local Open Scope N_scope.

(** The bytes of a Rust [String] and back.  A [string] of the model is a byte
    sequence; that it is valid UTF-8 is not modelled. *)
Definition text_bytes (s : string) : list byte := list_byte_of_string s.
Definition bytes_text (l : list byte) : string := string_of_list_byte l.

(** ** Writing.  [ciborium::ser::into_writer], called from storage.rs:813-817
    ([Cbor::to_bytes]); RFC 8949 with shortest heads and definite lengths.  A
    float carries no payload in the model and is written as a half-precision
    NaN; the ledger never writes one. *)
Fixpoint cbor_encode (v : cvalue) : list byte :=
  match v with
  | CInteger z =>
      if (z <? 0)%Z then cbor_head 1 (Z.to_N (-1 - z)) else cbor_head 0 (Z.to_N z)
  | CBytes b => cbor_head 2 (N.of_nat (length b)) ++ b
  | CText s => cbor_head 3 (N.of_nat (length (text_bytes s))) ++ text_bytes s
  | CArray l =>
      cbor_head 4 (N.of_nat (length l)) ++
      (fix go (l : list cvalue) : list byte :=
         match l with [] => [] | x :: l' => cbor_encode x ++ go l' end) l
  | CMap m =>
      cbor_head 5 (N.of_nat (length m)) ++
      (fix go (m : list (cvalue * cvalue)) : list byte :=
         match m with [] => [] | (k, x) :: m' => cbor_encode k ++ cbor_encode x ++ go m' end) m
  | CTag t x => cbor_head 6 t ++ cbor_encode x
  | CBool b => [if b then Byte.xf5 else Byte.xf4]
  | CNull => [Byte.xf6]
  | CFloat => [Byte.xf9; Byte.x7e; Byte.x00]
  end.

(** ** Reading.  [ciborium::de::from_reader], called from storage.rs:819-821
    ([Cbor::from_bytes]).  Indefinite lengths are rejected (the ledger writes
    none) and the recursion limit of 256 is not modelled (blocks nest four
    deep). *)

(** [n] bytes from the front *)
Fixpoint split_at (n : nat) (l : list byte) : option (list byte * list byte) :=
  match n, l with
  | O, _ => Some ([], l)
  | S n', b :: l' =>
      match split_at n' l' with Some (x, r) => Some (b :: x, r) | None => None end
  | S _, [] => None
  end.
(** The same with a length that may exceed the input. *)
Definition take_bytes (n : N) (l : list byte) : option (list byte * list byte) :=
  if N.of_nat (length l) <? n then None else split_at (N.to_nat n) l.

(** The argument of a head with the given additional information. *)
Definition read_arg (info : N) (l : list byte) : option (N * list byte) :=
  let width k := match split_at k l with Some (x, r) => Some (from_be x, r) | None => None end in
  if info <? 24 then Some (info, l)
  else if info =? 24 then width 1%nat
  else if info =? 25 then width 2%nat
  else if info =? 26 then width 4%nat
  else if info =? 27 then width 8%nat
  else None.

(** The items of a map, two by two (crate [ciborium]) *)
Fixpoint pair_up (l : list cvalue) : list (cvalue * cvalue) :=
  match l with k :: x :: l' => (k, x) :: pair_up l' | _ => [] end.

(** Reading one item: [ciborium::de::from_reader], called at storage.rs:819-820 *)
Fixpoint cbor_dec (fuel : nat) (l : list byte) : option (cvalue * list byte) :=
  match fuel with
  | O => None
  | S f =>
      match l with
      | [] => None
      | b :: l' =>
          let major := Byte.to_N b / 32 in
          let info := Byte.to_N b mod 32 in
          if major =? 7 then
            if info =? 20 then Some (CBool false, l')
            else if info =? 21 then Some (CBool true, l')
            else if (info =? 22) || (info =? 23) then Some (CNull, l')
            else if info =? 25 then
              match split_at 2 l' with Some (_, r) => Some (CFloat, r) | None => None end
            else if info =? 26 then
              match split_at 4 l' with Some (_, r) => Some (CFloat, r) | None => None end
            else if info =? 27 then
              match split_at 8 l' with Some (_, r) => Some (CFloat, r) | None => None end
            else None
          else
            match read_arg info l' with
            | None => None
            | Some (n, r) =>
                if major =? 0 then Some (CInteger (Z.of_N n), r)
                else if major =? 1 then Some (CInteger (-1 - Z.of_N n)%Z, r)
                else if major =? 2 then
                  match take_bytes n r with Some (x, r') => Some (CBytes x, r') | None => None end
                else if major =? 3 then
                  match take_bytes n r with
                  | Some (x, r') => Some (CText (bytes_text x), r')
                  | None => None
                  end
                else if major =? 4 then
                  match cbor_dec_seq f n r with
                  | Some (xs, r') => Some (CArray xs, r')
                  | None => None
                  end
                else if major =? 5 then
                  match cbor_dec_seq f (2 * n) r with
                  | Some (xs, r') => Some (CMap (pair_up xs), r')
                  | None => None
                  end
                else
                  match cbor_dec f r with
                  | Some (x, r') => Some (CTag n x, r')
                  | None => None
                  end
            end
      end
  end
with cbor_dec_seq (fuel : nat) (n : N) (l : list byte) : option (list cvalue * list byte) :=
  match fuel with
  | O => None
  | S f =>
      if n =? 0 then Some ([], l)
      else
        match cbor_dec f l with
        | None => None
        | Some (x, r) =>
            match cbor_dec_seq f (n - 1) r with
            | Some (xs, r') => Some (x :: xs, r')
            | None => None
            end
        end
  end.
(** Twice the input length is enough fuel (CborProofs.v). *)
Definition cbor_decode (l : list byte) : option (cvalue * list byte) := cbor_dec (2 * length l) l.

(** storage.rs:809-825 [impl Storable for Cbor<Block>].  The derived visitor of
    [Block] is run on the decoded value; bytes after the first item are not
    looked at. *)
Definition block_to_bytes (b : block) : list byte := cbor_encode (block_to_cbor b).
Definition block_from_bytes (l : list byte) : option block :=
  match cbor_decode l with Some (v, _) => block_of_cbor v | None => None end.
