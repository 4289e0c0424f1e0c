(** * The stored configuration

    config.rs: [impl Storable for Config] writes the configuration as CBOR into a
    stable cell, from which it is read on first use after an upgrade. *)
From Verif Require Import Base Types Codec Cbor.

Local Open Scope list_scope.
Local Open Scope N_scope.

(** ** Writing (config.rs:53-57; serde derives) *)
(** crate [candid], [Principal::serialize] for a binary format *)
Definition principal_to_cbor (p : principal) : cvalue := CBytes p.
(** crate [icrc_ledger_types], [Subaccount = [u8; 32]]: serde writes a fixed-size
    array as a tuple *)
Definition sub_to_cbor (s : subaccount) : cvalue :=
  CArray (map (fun b => CInteger (Z.of_N (Byte.to_N b))) (be_fixed 32 s)).
Definition opt_to_cbor {A} (f : A -> cvalue) (o : option A) : cvalue :=
  match o with Some x => f x | None => CNull end.
(** crate [icrc_ledger_types], derived [Serialize] of [Account] *)
Definition plain_account_to_cbor (a : account) : cvalue :=
  CMap [(CText "owner", principal_to_cbor (owner a));
        (CText "subaccount", opt_to_cbor sub_to_cbor (subacct a))].
Definition balance_to_cbor (e : account * N) : cvalue :=
  CArray [plain_account_to_cbor e.1; uint_to_cbor e.2].
(** config.rs:25-40, derived [Serialize] of [Config], fields in declaration order *)
Definition config_to_cbor (c : config) : cvalue :=
  CMap [(CText "max_blocks_per_request", uint_to_cbor (max_blocks_per_request c));
        (CText "index_id", opt_to_cbor principal_to_cbor (index_id c));
        (CText "initial_balances",
           opt_to_cbor (fun l => CArray (map balance_to_cbor l)) (initial_balances c))].
Definition config_to_bytes (c : config) : list byte := cbor_encode (config_to_cbor c).

(** ** Reading (config.rs:59-62; serde derives).  As for blocks, on inputs the
    ledger never writes the model may reject what ciborium accepts. *)
Definition cbor_to_principal (v : cvalue) : option principal :=
  match v with
  | CBytes b => if (length b <=? 29)%nat then Some b else None
  | _ => None
  end.
Definition cbor_to_byte (v : cvalue) : option byte :=
  match cbor_to_u128 v with Some n => Byte.of_N n | None => None end.
Definition cbor_to_sub (v : cvalue) : option subaccount :=
  match v with
  | CArray l =>
      match all_some (map cbor_to_byte l) with
      | Some b => if (length b =? 32)%nat then Some (from_be b) else None
      | None => None
      end
  | _ => None
  end.
Definition cbor_to_plain_account (v : cvalue) : option account :=
  match v with
  | CMap m =>
      match req_field "owner" cbor_to_principal m with None => None | Some p =>
      match opt_get "subaccount" cbor_to_sub m with None => None | Some s =>
        Some (Acct p s)
      end end
  | _ => None
  end.
Definition cbor_to_balance (v : cvalue) : option (account * N) :=
  match v with
  | CArray [a; n] =>
      match cbor_to_plain_account a, cbor_to_u128 n with
      | Some a, Some n => Some (a, n)
      | _, _ => None
      end
  | _ => None
  end.
Definition cbor_to_balances (v : cvalue) : option (list (account * N)) :=
  match v with CArray l => all_some (map cbor_to_balance l) | _ => None end.
Definition config_of_cbor (v : cvalue) : option config :=
  match v with
  | CMap m =>
      match req_field "max_blocks_per_request" cbor_to_u64 m with None => None | Some n =>
      match opt_get "index_id" cbor_to_principal m with None => None | Some i =>
      match opt_get "initial_balances" cbor_to_balances m with None => None | Some l =>
        Some (Config n i l)
      end end end
  | _ => None
  end.
Definition config_from_bytes (l : list byte) : option config :=
  match cbor_decode l with Some (v, _) => config_of_cbor v | None => None end.
