(** * The textual form of a principal

    main.rs:188 [index_id.to_text()].  The conversion itself is in the crate
    [ic_principal], outside /repo; it is written here from the Internet Computer's
    specification: the CRC-32 of the bytes (big-endian), then the bytes, in base 32
    (RFC 4648, lower case, without padding), with a dash after every five
    characters. *)
From Coq Require Import Ascii String.
From Verif Require Import Base.

(** ** CRC-32 (ISO 3309) *)
Fixpoint crc_bits (n : nat) (c : N) : N :=
  match n with
  | O => c
  | S n' => crc_bits n' (if N.odd c then N.lxor (c / 2) 3988292384 else c / 2)
  end.
Definition crc_byte (c : N) (b : byte) : N := crc_bits 8 (N.lxor c (Byte.to_N b)).
Definition crc32 (l : list byte) : N := N.lxor (fold_left crc_byte l 4294967295) 4294967295.
Definition byte_at (n i : N) : byte := default Byte.x00 (Byte.of_N ((n / 256 ^ i) mod 256)).
Definition crc32_be (l : list byte) : list byte :=
  let c := crc32 l in [byte_at c 3; byte_at c 2; byte_at c 1; byte_at c 0].

(** ** Base 32 *)
Definition byte_bits (b : byte) : list bool :=
  let '(b0, (b1, (b2, (b3, (b4, (b5, (b6, b7))))))) := Byte.to_bits b in
  [b7; b6; b5; b4; b3; b2; b1; b0].
Definition alphabet : list ascii := list_ascii_of_string "abcdefghijklmnopqrstuvwxyz234567".
Definition digit (b4 b3 b2 b1 b0 : bool) : ascii :=
  let v (b : bool) (n : nat) := if b then n else 0%nat in
  default "a"%char (alphabet !! (v b4 16 + v b3 8 + v b2 4 + v b1 2 + v b0 1)%nat).
(** Five bits at a time, the last group filled up with zeros *)
Fixpoint base32 (l : list bool) : list ascii :=
  match l with
  | [] => []
  | [a] => [digit a false false false false]
  | [a; b] => [digit a b false false false]
  | [a; b; c] => [digit a b c false false]
  | [a; b; c; d] => [digit a b c d false]
  | a :: b :: c :: d :: e :: r => digit a b c d e :: base32 r
  end.

(** ** Groups of five *)
Fixpoint dashed (l : list ascii) : list ascii :=
  match l with
  | a :: b :: c :: d :: e :: ((_ :: _) as r) => a :: b :: c :: d :: e :: "-"%char :: dashed r
  | _ => l
  end.

Definition principal_text (p : list byte) : string :=
  string_of_list_ascii (dashed (base32 (mbind byte_bits (crc32_be p ++ p)))).

(** Test vectors: the management canister, the anonymous principal, and the
    cycles ledger (canister_ids.json) *)
Example text_management : principal_text [] = "aaaaa-aa"%string.
Proof. vm_compute. reflexivity. Qed.
Example text_anonymous : principal_text [Byte.x04] = "2vxsx-fae"%string.
Proof. vm_compute. reflexivity. Qed.
Example text_cycles_ledger :
  principal_text [Byte.x00; Byte.x00; Byte.x00; Byte.x00; Byte.x02; Byte.x10; Byte.x00; Byte.x02; Byte.x01; Byte.x01]
  = "um5iw-rqaaa-aaaaq-qaaba-cai"%string.
Proof. vm_compute. reflexivity. Qed.
