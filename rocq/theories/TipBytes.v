(** * The bytes of the witness in a tip certificate *)
From Coq Require Import Strings.String.
From Verif Require Import Base Types Codec Cbor State ValueHash.

Local Open Scope list_scope.
Local Open Scope N_scope.

(** [impl Serialize for ic_certified_map::HashTree]: a sequence that starts with a
    number for the kind of node; labels, leaves and hashes are byte strings. *)
Fixpoint tree_to_cbor (t : htree) : cvalue :=
  match t with
  | HEmpty => CArray [CInteger 0]
  | HFork l r => CArray [CInteger 1; tree_to_cbor l; tree_to_cbor r]
  | HLabeled k t => CArray [CInteger 2; CBytes (str_bytes k); tree_to_cbor t]
  | HLeaf b => CArray [CInteger 3; CBytes b]
  | HPruned h => CArray [CInteger 4; CBytes h]
  end.

(** storage.rs:628-640: [hash_tree_buf] of [State::get_tip_certificate], written by
    [ciborium::ser::into_writer].  The [certificate] itself is made by the IC. *)
Definition tip_bytes (s : state) : list byte := cbor_encode (tree_to_cbor (witness (hash_tree s))).
