(** * The form of the blocks that [icrc3_get_blocks] serves

    The ICRC-3 block schema for ICRC-1 and ICRC-2 operations, as a description of
    generic values.  Neither the ledger's state nor its block type is used. *)
From Verif Require Import Base Types Spec.

Local Open Scope string_scope.
Local Open Scope list_scope.
Local Open Scope N_scope.

(** ** Forms of single values *)
Definition number_below (n : N) (v : value) : Prop := exists x, v = VNat x /\ x < n.
Definition exactly (v0 v : value) : Prop := v = v0.
Definition blob_of (n : nat) (v : value) : Prop := exists b, v = VBlob b /\ length b = n.
Definition blob_up_to (n : nat) (v : value) : Prop := exists b, v = VBlob b /\ (length b <= n)%nat.
(** An account is the principal, and the subaccount if one is given. *)
Definition account_form (v : value) : Prop :=
  exists p, v = VArray [p] /\ blob_up_to 29 p
  \/ exists s, v = VArray [p; s] /\ blob_up_to 29 p /\ blob_of 32 s.

(** ** Maps *)
Record slot := Slot { slot_name : string; slot_required : bool; slot_form : value -> Prop }.
Definition need (k : string) (f : value -> Prop) : slot := Slot k true f.
Definition may (k : string) (f : value -> Prop) : slot := Slot k false f.
(** A map with the required fields, no others than those listed, each of its
    form, in strictly ascending order of the names (so none occurs twice) *)
Definition has_form (slots : list slot) (v : value) : Prop :=
  exists m, v = VMap m
    /\ StronglySorted (fun x y => String.compare x y = Lt) (map fst m)
    /\ Forall (fun kx => exists s, s ∈ slots /\ slot_name s = kx.1 /\ slot_form s kx.2) m
    /\ Forall (fun s => slot_required s = true -> exists x, (slot_name s, x) ∈ m) slots.

(** ** Transactions *)
Definition amount : value -> Prop := number_below (2 ^ 128).
Definition nanoseconds : value -> Prop := number_below (2 ^ 64).
Definition common : list slot := [may "ts" nanoseconds; may "memo" (blob_up_to 32)].
Definition mint_form : value -> Prop := has_form
  ([need "op" (exactly (VText "mint")); need "to" account_form; need "amt" amount; need "fee" amount] ++ common).
Definition burn_form : value -> Prop := has_form
  ([need "op" (exactly (VText "burn")); need "from" account_form; may "spender" account_form;
    need "amt" amount] ++ common).
Definition xfer_form (fee : N) : value -> Prop := has_form
  ([need "op" (exactly (VText "xfer")); need "from" account_form; need "to" account_form;
    may "spender" account_form; need "amt" amount; may "fee" (exactly (VNat fee))] ++ common).
Definition approve_form (fee : N) : value -> Prop := has_form
  ([need "op" (exactly (VText "approve")); need "from" account_form; need "spender" account_form;
    need "amt" amount; may "expected_allowance" amount; may "expires_at" nanoseconds;
    may "fee" (exactly (VNat fee))] ++ common).

(** ** Blocks *)
(** The first block has no parent hash, all others do.  The fee of an operation
    is given by the block unless the transaction gives it. *)
Definition block_form (fee : N) (first : bool) (v : value) : Prop :=
  has_form
    ([need "ts" nanoseconds;
      need "tx" (fun t => mint_form t \/ burn_form t \/ xfer_form fee t \/ approve_form fee t);
      may "fee" (fun f => f = VNat 0 \/ f = VNat fee)]
     ++ (if first then [] else [need "phash" (blob_of 32)])) v
  /\ match field "tx" v with
     | Some t => match field "op" t with
                 | Some (VText "mint") => field "fee" v = Some (VNat 0)
                 | Some (VText "burn") => field "fee" v = Some (VNat fee)
                 | _ => field "fee" v = match field "fee" t with Some _ => None | None => Some (VNat fee) end
                 end
     | None => False
     end.
