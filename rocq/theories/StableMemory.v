(** * Stable memory

    The tables of the ledger live in numbered regions of stable memory, which is all
    that survives an upgrade.  Model of storage.rs:45-52 and 700-731. *)
From Verif Require Import Base Types Codec State Ledger Canister Cbor ConfigCodec.

Local Open Scope list_scope.
Local Open Scope N_scope.

(** storage.rs:45-52: the numbers of the regions *)
Definition BLOCK_LOG_INDEX_MEMORY_ID : N := 1.
Definition BLOCK_LOG_DATA_MEMORY_ID : N := 2.
Definition BALANCES_MEMORY_ID : N := 3.
Definition APPROVALS_MEMORY_ID : N := 4.
Definition EXPIRATION_QUEUE_MEMORY_ID : N := 5.
Definition TRANSACTION_HASH_MEMORY_ID : N := 6.
Definition TRANSACTION_TIMESTAMP_MEMORY_ID : N := 7.
Definition CONFIG_MEMORY_ID : N := 8.

(** What a region holds.  The log's data and the configuration are bytes that the
    code of the ledger writes and reads; the index of the log holds for each entry
    where it ends; the layout of the maps is that of the crate ic-stable-structures
    and left out. *)
Inductive region :=
| RIndex (ends : list N)
| RData (bytes : list byte)
| RBalances (m : gmap akey N)
| RApprovals (m : gmap apkey (N * N))
| RExpirations (m : gset (N * apkey))
| RHashes (m : gmap hash (N * option principal))
| RTimestamps (m : gset (N * N))
| RConfig (bytes : list byte).

(** Crate ic-stable-structures, [StableLog::append]: the bytes of the entry go to the
    end of the data, the new end to the end of the index.  Called in storage.rs:671-673. *)
Definition log_append (l : list N * list byte) (entry : list byte) : list N * list byte :=
  (l.1 ++ [N.of_nat (length (l.2 ++ entry))], l.2 ++ entry).
(** The log after the blocks [bs], each written by storage.rs:813-817 *)
Definition log_image (bs : list block) : list N * list byte :=
  foldl log_append ([], []) (map block_to_bytes bs).
(** [StableLog::get] for all entries: each one is the bytes between the end of the one
    before and its own end; storage.rs:819-821 turns them into a block and traps if they
    do not decode ([None]). *)
Fixpoint log_read (start : N) (ends : list N) (data : list byte) : option (list block) :=
  match ends with
  | [] => Some []
  | e :: rest =>
      match block_from_bytes (take (N.to_nat (e - start)) (drop (N.to_nat start) data)) with
      | Some b => match log_read e rest data with Some bs => Some (b :: bs) | None => None end
      | None => None
      end
  end.

Section WithEnv.
Context `{Env}.

(** Stable memory of a ledger in state [s]: storage.rs:705-728 ties each table to its
    region *)
Definition stable_image (s : state) : gmap N region :=
  let (ends, data) := log_image (blocks s) in
  <[BLOCK_LOG_INDEX_MEMORY_ID := RIndex ends]>
  (<[BLOCK_LOG_DATA_MEMORY_ID := RData data]>
  (<[BALANCES_MEMORY_ID := RBalances (balances s)]>
  (<[APPROVALS_MEMORY_ID := RApprovals (approvals s)]>
  (<[EXPIRATION_QUEUE_MEMORY_ID := RExpirations (exp_queue s)]>
  (<[TRANSACTION_HASH_MEMORY_ID := RHashes (tx_hashes s)]>
  (<[TRANSACTION_TIMESTAMP_MEMORY_ID := RTimestamps (tx_timestamps s)]>
  (<[CONFIG_MEMORY_ID := RConfig (config_to_bytes (cfg s))]> ∅))))))).

(** storage.rs:707-711 and 724-727, [init] of each table: a region without anything is an empty table, one with
    something else cannot be read ([None]). *)
Definition read_log (m : gmap N region) : option (list block) :=
  match m !! BLOCK_LOG_INDEX_MEMORY_ID, m !! BLOCK_LOG_DATA_MEMORY_ID with
  | None, None => Some []
  | Some (RIndex ends), Some (RData data) => log_read 0 ends data
  | _, _ => None
  end.
Definition read_balances (m : gmap N region) : option (gmap akey N) :=
  match m !! BALANCES_MEMORY_ID with None => Some ∅ | Some (RBalances t) => Some t | _ => None end.
Definition read_approvals (m : gmap N region) : option (gmap apkey (N * N)) :=
  match m !! APPROVALS_MEMORY_ID with None => Some ∅ | Some (RApprovals t) => Some t | _ => None end.
Definition read_expirations (m : gmap N region) : option (gset (N * apkey)) :=
  match m !! EXPIRATION_QUEUE_MEMORY_ID with None => Some ∅ | Some (RExpirations t) => Some t | _ => None end.
Definition read_hashes (m : gmap N region) : option (gmap hash (N * option principal)) :=
  match m !! TRANSACTION_HASH_MEMORY_ID with None => Some ∅ | Some (RHashes t) => Some t | _ => None end.
Definition read_timestamps (m : gmap N region) : option (gset (N * N)) :=
  match m !! TRANSACTION_TIMESTAMP_MEMORY_ID with None => Some ∅ | Some (RTimestamps t) => Some t | _ => None end.
(** storage.rs:713-714: [ConfigCell::init] with [Config::default()] *)
Definition read_stored_config (m : gmap N region) : option config :=
  match m !! CONFIG_MEMORY_ID with
  | None => Some default_config
  | Some (RConfig bytes) => config_from_bytes bytes
  | _ => None
  end.

(** storage.rs:705-730: the state is built from the regions, the cache is computed
    anew.  The certified data is not in stable memory: the IC keeps it. *)
Definition load_state (m : gmap N region) (certified : option hash) : option state :=
  match read_log m, read_balances m, read_approvals m, read_expirations m, read_hashes m,
        read_timestamps m, read_stored_config m with
  | Some bs, Some bals, Some aps, Some exps, Some hs, Some tss, Some c =>
      let (ph, tree) := compute_last_block_hash_and_hash_tree bs in
      Some (State bs bals aps exps hs tss c ph (compute_total_supply bals) tree certified [])
  | _, _, _, _, _, _, _ => None
  end.

End WithEnv.
