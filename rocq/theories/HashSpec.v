(** * What hashes are taken of, and what a reader of the log can check

    Vocabulary for the theorems about hashes and certificates. *)
From Verif Require Import Base Types Spec Codec ValueHash.

Local Open Scope string_scope.
Local Open Scope list_scope.
Local Open Scope N_scope.

Section Hash.
Context `{Sha}.

(** ** Collisions *)

(** The byte strings SHA-256 is applied to when hashing [v]: one for [v]
    itself, one for each key and all those of its parts. *)
Fixpoint hashed (v : value) : list (list byte) :=
  match v with
  | VNat64 n => [leb128_nat n]
  | VNat n => [leb128_nat n]
  | VInt z => [int_code z]
  | VBlob b => [b]
  | VText s => [str_bytes s]
  | VArray l => concat (map rih l) :: concat (map hashed l)
  | VMap m =>
      concat (map (fun p => p.1 ++ p.2)
        (merge_sort pair_le (map (fun kv => (sha (str_bytes kv.1), rih kv.2)) m)))
      :: concat (map (fun kv => str_bytes kv.1 :: hashed kv.2) m)
  end.
(** The same for a hash tree. *)
Fixpoint tree_hashed (t : htree) : list (list byte) :=
  match t with
  | HEmpty => [domain_sep "ic-hashtree-empty"]
  | HPruned _ => []
  | HFork l r => (domain_sep "ic-hashtree-fork" ++ digest l ++ digest r) :: tree_hashed l ++ tree_hashed r
  | HLabeled k t => (domain_sep "ic-hashtree-labeled" ++ str_bytes k ++ digest t) :: tree_hashed t
  | HLeaf b => [domain_sep "ic-hashtree-leaf" ++ b]
  end.
(** The same for a transaction. *)
Definition tx_hashed (t : transaction) : list (list byte) :=
  match tx_hash_value t with Some v => hashed v | None => [] end.

(** SHA-256 collides on two of these strings. *)
Definition collision_in (l : list (list byte)) : Prop :=
  exists x y, x ∈ l /\ y ∈ l /\ x <> y /\ sha x = sha y.

(** ** The shape of a block that a reader checks *)

(** strictly increasing keys *)
Definition keys_sorted (m : list (string * value)) : Prop :=
  StronglySorted (fun a b => String.compare a b = Lt) (m.*1).
Definition is_nat (v : value) : Prop := match v with VNat _ => True | _ => False end.
Definition is_blob (v : value) : Prop := match v with VBlob _ => True | _ => False end.
Definition is_text (v : value) : Prop := match v with VText _ => True | _ => False end.
Definition is_blobs (v : value) : Prop := match v with VArray l => Forall is_blob l | _ => False end.
Definition is_map (P : string -> value -> Prop) (v : value) : Prop :=
  match v with VMap m => keys_sorted m /\ Forall (fun kv => P kv.1 kv.2) m | _ => False end.

(** Fields of a transaction: texts, byte strings, accounts, and numbers as
    described by [num]. *)
Definition tx_field (num : value -> Prop) (k : string) (v : value) : Prop :=
  if String.eqb k "op" then is_text v
  else if String.eqb k "memo" then is_blob v
  else if String.eqb k "from" || String.eqb k "to" || String.eqb k "spender" then is_blobs v
  else num v.
(** Fields of a block *)
Definition block_field (k : string) (v : value) : Prop :=
  if String.eqb k "tx" then is_map (tx_field is_nat) v
  else if String.eqb k "phash" then is_blob v
  else is_nat v.
Definition block_shape : value -> Prop := is_map block_field.

(** ** What a reader of the log checks *)

(** Each value has the shape of a block and names the hash of the one before. *)
Definition chain_ok (vs : list value) : Prop :=
  forall i v, vs !! i = Some v ->
    block_shape v
    /\ match i with
       | O => field "phash" v = None
       | S j => exists v0, vs !! j = Some v0 /\ field "phash" v = Some (VBlob (rih v0))
       end.

(** Pruned hashes in a witness have 32 bytes. *)
Fixpoint tree_ok (t : htree) : Prop :=
  match t with
  | HPruned h => length h = 32%nat
  | HFork l r => tree_ok l /\ tree_ok r
  | HLabeled _ t => tree_ok t
  | _ => True
  end.
(** The leaf under label [k]. *)
Fixpoint tree_lookup (k : string) (t : htree) : option (list byte) :=
  match t with
  | HFork l r => match tree_lookup k l with Some b => Some b | None => tree_lookup k r end
  | HLabeled k' (HLeaf b) => if String.eqb k k' then Some b else None
  | _ => None
  end.
(** The witness [t] hashes to the certified data [root] and names the last of
    the values [vs]. *)
Definition tip_ok (root : hash) (t : htree) (vs : list value) : Prop :=
  tree_ok t /\ digest t = root
  /\ exists v, last vs = Some v
       /\ tree_lookup "last_block_index" t = Some (leb128_u64 (N.of_nat (length vs) - 1))
       /\ tree_lookup "last_block_hash" t = Some (rih v).
End Hash.
