(** * Hash of generic values and certified hash tree

    The rest of the model leaves the two hash functions of [Env] open.  Here
    they are given: the representation-independent hash of the crate
    [icrc_ledger_types] (the ICRC-3 standard) and the hash tree of the crate
    [ic_certified_map] (the hash trees of the IC specification).  Both are built
    on SHA-256, which stays open as [sha], and so does the form in which an
    [Int] is hashed. *)
From Coq Require Import Strings.String.
From Verif Require Import Base Types Codec.

Local Open Scope string_scope.
Local Open Scope list_scope.
Local Open Scope N_scope.

(** The number that bytes in LEB128 form stand for: seven bits each, the lowest first *)
Definition leb_value (l : list byte) : N := foldr (fun b acc => Byte.to_N b mod 128 + 128 * acc) 0 l.

(** SHA-256, and the bytes that are hashed for a [candid::Int].  The standard says
    signed LEB128.  The project's own test of block hashes (storage.rs:2631-2640)
    can only pass if the crate writes the integers from 0 on as it writes a
    [candid::Nat].  Nothing but what both have in common is used: an integer from 0 on
    can be read off its bytes. *)
Class Sha := { sha : list byte -> hash; int_code : Z -> list byte }.
Definition sha_ok `{Sha} : Prop :=
  (forall x, length (sha x) = 32%nat) /\ (forall z, (0 <= z)%Z -> leb_value (int_code z) = Z.to_N z).

(** the UTF-8 bytes of a text *)
Definition str_bytes (s : string) : list byte := list_byte_of_string s.

(** LEB128 of an unbounded [candid::Nat] *)
Definition leb128_nat (n : N) : list byte := leb128_write (S (N.size_nat n)) n.

(** Signed LEB128 of an unbounded [candid::Int]. *)
Fixpoint sleb128_write (fuel : nat) (z : Z) : list byte :=
  match fuel with
  | O => []
  | S f =>
      let b := (z mod 128)%Z in
      let z' := (z / 128)%Z in
      if ((z' =? 0) && (b <? 64) || (z' =? -1) && (64 <=? b))%Z
      then [byte_of (Z.to_N b)]
      else byte_of (Z.to_N b + 128) :: sleb128_write f z'
  end.
Definition sleb128_int (z : Z) : list byte := sleb128_write (S (S (N.size_nat (Z.abs_N z)))) z.

(** Byte-wise order of pairs of hashes, the order of the tuples that
    [sort_unstable] sorts. *)
Definition pair_le (p q : hash * hash) : Prop :=
  lexb (map Byte.to_N (p.1 ++ p.2)) (map Byte.to_N (q.1 ++ q.2)) = true.
Global Instance pair_le_dec p q : Decision (pair_le p q).
Proof. unfold pair_le. apply _. Defined.

Section Hash.
Context `{Sha}.

(** [icrc_ledger_types::icrc::generic_value::Value::hash], called from
    storage.rs:189-193 and storage.rs:492-494. *)
Fixpoint rih (v : value) : hash :=
  match v with
  | VNat64 n => sha (leb128_nat n)
  | VNat n => sha (leb128_nat n)
  | VInt z => sha (int_code z)
  | VBlob b => sha b
  | VText s => sha (str_bytes s)
  | VArray l => sha (concat (map rih l))
  | VMap m =>
      sha (concat (map (fun p => p.1 ++ p.2)
        (merge_sort pair_le (map (fun kv => (sha (str_bytes kv.1), rih kv.2)) m))))
  end.

(** ** Hash trees.  [ic_certified_map::HashTree] *)
Inductive htree :=
| HEmpty
| HPruned (h : hash)
| HFork (l r : htree)
| HLabeled (k : string) (t : htree)
| HLeaf (b : list byte).

(** [ic_certified_map::hashtree::domain_sep] *)
Definition domain_sep (s : string) : list byte :=
  byte_of (N.of_nat (String.length s)) :: str_bytes s.

(** [ic_certified_map::HashTree::reconstruct] *)
Fixpoint digest (t : htree) : hash :=
  match t with
  | HEmpty => sha (domain_sep "ic-hashtree-empty")
  | HPruned h => h
  | HFork l r => sha (domain_sep "ic-hashtree-fork" ++ digest l ++ digest r)
  | HLabeled k t => sha (domain_sep "ic-hashtree-labeled" ++ str_bytes k ++ digest t)
  | HLeaf b => sha (domain_sep "ic-hashtree-leaf" ++ b)
  end.

(** [RbTree::value_range("last_block_hash", "last_block_index")] (storage.rs:634)
    on the tree of storage.rs:782-791.  The tree has no other keys; the index
    is inserted first and becomes the root, the hash, which is smaller, its left
    child.  The root hash (storage.rs:649-651) is the digest of this witness. *)
Definition witness (tree : gmap string (list byte)) : htree :=
  match tree !! "last_block_hash", tree !! "last_block_index" with
  | Some h, Some i =>
      HFork (HLabeled "last_block_hash" (HLeaf h)) (HLabeled "last_block_index" (HLeaf i))
  | Some h, None => HLabeled "last_block_hash" (HLeaf h)
  | None, Some i => HLabeled "last_block_index" (HLeaf i)
  | None, None => HEmpty
  end.

(** The environment with these hash functions. *)
Definition sha_env (rank : principal -> N) : Env := {|
  vhash := rih;
  troot tree := digest (witness tree);
  prank := rank
|}.
End Hash.
