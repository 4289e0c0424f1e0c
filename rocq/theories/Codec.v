(** * Encodings: generic values, CBOR values, transactions, blocks, memos *)
From Verif Require Import Base Types.

Local Open Scope string_scope.
Local Open Scope list_scope.
Local Open Scope N_scope.

(** ** Big-endian byte strings *)

(** The [k] low-order bytes of [n], most significant first
    ([u128::to_be_bytes] for [k = 16]). *)
Fixpoint be_fixed (k : nat) (n : N) : list byte :=
  match k with
  | O => []
  | S k' => be_fixed k' (n / 256) ++ [byte_of n]
  end.

(** [BigUint::from_bytes_be] / [u128::from_be_bytes] *)
Definition from_be (l : list byte) : N :=
  fold_left (fun acc b => acc * 256 + Byte.to_N b) l 0.

(** Leading zero bytes dropped ([BigUint::to_bytes_be], crate [ciborium]) *)
Fixpoint strip_zeros (l : list byte) : list byte :=
  match l with
  | [] => []
  | b :: l' => if bool_decide (b = Byte.x00) then strip_zeros l' else l
  end.

(** [BigUint::to_bytes_be]: minimal, and [[0]] for zero. *)
Definition nat_be (n : N) : list byte :=
  if n =? 0 then [Byte.x00] else strip_zeros (be_fixed (N.size_nat n) n).

(** the 32 bytes of a subaccount *)
Definition sub_bytes (s : subaccount) : list byte := be_fixed 32 s.

(** ** Ordered string maps ([BTreeMap<String, Value>]) *)
Fixpoint btree_insert (k : string) (v : value) (m : list (string * value))
  : list (string * value) :=
  match m with
  | [] => [(k, v)]
  | (k', v') :: m' =>
      match String.compare k k' with
      | Lt => (k, v) :: m
      | Eq => (k, v) :: m'
      | Gt => (k', v') :: btree_insert k v m'
      end
  end.

(** [if let Some(v) = ov { map.insert(k, v) }]: storage.rs:103-181, 473-490 *)
Definition opt_insert (k : string) (ov : option value) (m : list (string * value)) :=
  match ov with Some v => btree_insert k v m | None => m end.

(** ** Transaction and block to generic value *)

(** storage.rs:94-100 [account_to_value] *)
Definition account_to_value (a : account) : value :=
  VArray (VBlob (owner a) ::
          match subacct a with Some s => [VBlob (sub_bytes s)] | None => [] end).

(** storage.rs:103-181 [Transaction::to_value] *)
Definition tx_to_value (t : transaction) : value :=
  let m0 := opt_insert "ts" (VNat <$> tx_created_at t) [] in
  let m1 := opt_insert "memo" (VBlob <$> tx_memo t) m0 in
  VMap
    match tx_op t with
    | Mint to amount fee =>
        btree_insert "fee" (VNat fee)
          (btree_insert "amt" (VNat amount)
            (btree_insert "to" (account_to_value to)
              (btree_insert "op" (VText "mint") m1)))
    | Transfer from to spender amount fee =>
        opt_insert "fee" (VNat <$> fee)
          (btree_insert "amt" (VNat amount)
            (opt_insert "spender" (account_to_value <$> spender)
              (btree_insert "to" (account_to_value to)
                (btree_insert "from" (account_to_value from)
                  (btree_insert "op" (VText "xfer") m1)))))
    | Burn from spender amount =>
        btree_insert "amt" (VNat amount)
          (opt_insert "spender" (account_to_value <$> spender)
            (btree_insert "from" (account_to_value from)
              (btree_insert "op" (VText "burn") m1)))
    | Approve from spender amount expected expires fee =>
        opt_insert "fee" (VNat <$> fee)
          (opt_insert "expires_at" (VNat <$> expires)
            (opt_insert "expected_allowance" (VNat <$> expected)
              (btree_insert "amt" (VNat amount)
                (btree_insert "spender" (account_to_value spender)
                  (btree_insert "from" (account_to_value from)
                    (btree_insert "op" (VText "approve") m1))))))
    end.

(** storage.rs:473-490 [Block::to_value] *)
Definition block_to_value (b : block) : value :=
  VMap
    (opt_insert "fee" (VNat <$> b_effective_fee b)
      (opt_insert "phash" (VBlob <$> b_phash b)
        (btree_insert "ts" (VNat (b_timestamp b))
          (btree_insert "tx" (tx_to_value (b_tx b)) [])))).

(** ** Conversions between CBOR values and generic values *)
Definition VALUE_DEPTH_LIMIT : N := 64.       (* lib.rs:22 *)
Definition TAG_SELF_DESCRIBED : N := 55799.   (* lib.rs:146 *)
Definition TAG_BIGNUM : N := 2.               (* lib.rs:149 *)

(** lib.rs:38-96 [ciborium_to_generic_value].  The error kinds are not
    distinguished: [None] stands for any [ValueDecodingError]. *)
Fixpoint cbor_to_generic (depth : N) (v : cvalue) : option value :=
  if VALUE_DEPTH_LIMIT <=? depth then None else
  match v with
  | CInteger z => if (z <? 0)%Z then None else Some (VInt z)
  | CBytes b => Some (VBlob b)
  | CText s => Some (VText s)
  | CArray l =>
      match
        (fix go (l : list cvalue) : option (list value) :=
           match l with
           | [] => Some []
           | x :: l' =>
               match cbor_to_generic (depth + 1) x with
               | None => None
               | Some y => match go l' with None => None | Some ys => Some (y :: ys) end
               end
           end) l
      with None => None | Some ys => Some (VArray ys) end
  | CMap m =>
      match
        (fix go (m : list (cvalue * cvalue)) (acc : list (string * value))
           : option (list (string * value)) :=
           match m with
           | [] => Some acc
           | (k, x) :: m' =>
               match k with
               | CText ks =>
                   match cbor_to_generic (depth + 1) x with
                   | None => None
                   | Some y => go m' (btree_insert ks y acc)
                   end
               | _ => None
               end
           end) m []
      with None => None | Some ys => Some (VMap ys) end
  | CBool _ => None
  | CNull => None
  | CFloat => None
  | CTag t x =>
      if t =? TAG_SELF_DESCRIBED then cbor_to_generic (depth + 1) x
      else if t =? TAG_BIGNUM then
        match x with
        | CBytes b => Some (VNat (from_be b))
        | _ => None
        end
      else None
  end.

(** lib.rs:98-140 [generic_to_ciborium_value]; [None] is any error. *)
Fixpoint generic_to_cbor (depth : N) (v : value) : option cvalue :=
  if VALUE_DEPTH_LIMIT <=? depth then None else
  match v with
  | VInt z =>
      (* to_u128, then i128::try_from, then ciborium Integer::try_from *)
      if ((0 <=? z) && (z <? 2 ^ 64))%Z then Some (CInteger z) else None
  | VBlob b => Some (CBytes b)
  | VText s => Some (CText s)
  | VArray l =>
      match
        (fix go (l : list value) : option (list cvalue) :=
           match l with
           | [] => Some []
           | x :: l' =>
               match generic_to_cbor (depth + 1) x with
               | None => None
               | Some y => match go l' with None => None | Some ys => Some (y :: ys) end
               end
           end) l
      with None => None | Some ys => Some (CArray ys) end
  | VMap m =>
      match
        (fix go (m : list (string * value)) : option (list (cvalue * cvalue)) :=
           match m with
           | [] => Some []
           | (k, x) :: m' =>
               match generic_to_cbor (depth + 1) x with
               | None => None
               | Some y =>
                   match go m' with None => None | Some ys => Some ((CText k, y) :: ys) end
               end
           end) m
      with None => None | Some ys => Some (CMap ys) end
  | VNat n => Some (CTag TAG_BIGNUM (CBytes (nat_be n)))
  | VNat64 _ => None
  end.

(** ** Compact accounts.  compact_account.rs *)

(** compact_account.rs:19-27 *)
Definition compact_of_account (a : account) : list (list byte) :=
  owner a :: match subacct a with Some s => [sub_bytes s] | None => [] end.

(** compact_account.rs:29-61.  [Principal::try_from] fails on more than 29
    bytes; [Subaccount::try_from] fails unless there are 32. *)
Definition account_of_compact (c : list (list byte)) : option account :=
  match c with
  | [] => None
  | [o] => if (length o <=? 29)%nat then Some (Acct o None) else None
  | [o; s] =>
      if (length o <=? 29)%nat then
        if (length s =? 32)%nat then Some (Acct o (Some (from_be s))) else None
      else None
  | _ => None
  end.

(** ** Flattened transactions.  storage.rs:304-446 *)
Record flat_tx := FlatTx {
  ft_created_at : option N;
  ft_memo : option memo;
  ft_op : string;
  ft_from : option account;
  ft_to : option account;
  ft_spender : option account;
  ft_amount : N;
  ft_fee : option N;
  ft_expected_allowance : option N;
  ft_expires_at : option N
}.

(** storage.rs:345-393 [TryFrom<FlattenedTransaction> for Transaction] *)
Definition tx_of_flat (f : flat_tx) : option transaction :=
  let with_op op := Some (Tx op (ft_created_at f) (ft_memo f)) in
  if bool_decide (ft_op f = "burn") then
    match ft_from f with
    | Some from => with_op (Burn from (ft_spender f) (ft_amount f))
    | None => None
    end
  else if bool_decide (ft_op f = "mint") then
    match ft_to f, ft_fee f with
    | Some to, Some fee => with_op (Mint to (ft_amount f) fee)
    | _, _ => None
    end
  else if bool_decide (ft_op f = "xfer") then
    match ft_from f, ft_to f with
    | Some from, Some to => with_op (Transfer from to (ft_spender f) (ft_amount f) (ft_fee f))
    | _, _ => None
    end
  else if bool_decide (ft_op f = "approve") then
    match ft_from f, ft_spender f with
    | Some from, Some spender =>
        with_op (Approve from spender (ft_amount f) (ft_expected_allowance f)
                         (ft_expires_at f) (ft_fee f))
    | _, _ => None
    end
  else None.

(** storage.rs:395-446 [From<Transaction> for FlattenedTransaction] *)
Definition flat_of_tx (t : transaction) : flat_tx :=
  {| ft_created_at := tx_created_at t;
     ft_memo := tx_memo t;
     ft_op := match tx_op t with
              | Burn _ _ _ => "burn"
              | Mint _ _ _ => "mint"
              | Transfer _ _ _ _ _ => "xfer"
              | Approve _ _ _ _ _ _ => "approve"
              end;
     ft_from := match tx_op t with
                | Transfer from _ _ _ _ => Some from
                | Burn from _ _ => Some from
                | Approve from _ _ _ _ _ => Some from
                | Mint _ _ _ => None
                end;
     ft_to := match tx_op t with
              | Mint to _ _ => Some to
              | Transfer _ to _ _ _ => Some to
              | _ => None
              end;
     ft_spender := match tx_op t with
                   | Transfer _ _ sp _ _ => sp
                   | Approve _ sp _ _ _ _ => Some sp
                   | Burn _ sp _ => sp
                   | Mint _ _ _ => None
                   end;
     ft_amount := match tx_op t with
                  | Burn _ _ a => a
                  | Mint _ a _ => a
                  | Transfer _ _ _ a _ => a
                  | Approve _ _ a _ _ _ => a
                  end;
     ft_fee := match tx_op t with
               | Transfer _ _ _ _ fee => fee
               | Approve _ _ _ _ _ fee => fee
               | Mint _ _ fee => Some fee
               | Burn _ _ _ => None
               end;
     ft_expected_allowance := match tx_op t with
                              | Approve _ _ _ ea _ _ => ea
                              | _ => None
                              end;
     ft_expires_at := match tx_op t with
                      | Approve _ _ _ _ ex _ => ex
                      | _ => None
                      end |}.

(** ** Serialisation to CBOR values (serde derive + crate [ciborium]) *)

(** [impl From<u128> for ciborium::Value]: an integer if it fits 64 bits, else
    a bignum without leading zeros. *)
Definition uint_to_cbor (n : N) : cvalue :=
  if n <? U64_MOD then CInteger (Z.of_N n)
  else CTag TAG_BIGNUM (CBytes (strip_zeros (be_fixed 16 n))).

(** compact_account.rs:63-68, 78-86 *)
Definition account_to_cbor (a : account) : cvalue :=
  CArray (map CBytes (compact_of_account a)).

(** A struct field that is skipped when [None] ([skip_serializing_if]). *)
Definition opt_field (k : string) (ov : option cvalue) : list (cvalue * cvalue) :=
  match ov with Some v => [(CText k, v)] | None => [] end.

(** storage.rs:307-343: [#[derive(Serialize)]] of [FlattenedTransaction], fields
    in declaration order. *)
Definition flat_to_cbor (f : flat_tx) : cvalue :=
  CMap (opt_field "ts" (uint_to_cbor <$> ft_created_at f)
     ++ opt_field "memo" (CBytes <$> ft_memo f)
     ++ [(CText "op", CText (ft_op f))]
     ++ opt_field "from" (account_to_cbor <$> ft_from f)
     ++ opt_field "to" (account_to_cbor <$> ft_to f)
     ++ opt_field "spender" (account_to_cbor <$> ft_spender f)
     ++ [(CText "amt", uint_to_cbor (ft_amount f))]
     ++ opt_field "fee" (uint_to_cbor <$> ft_fee f)
     ++ opt_field "expected_allowance" (uint_to_cbor <$> ft_expected_allowance f)
     ++ opt_field "expires_at" (uint_to_cbor <$> ft_expires_at f)).

(** storage.rs:85-92: [#[serde(into = "FlattenedTransaction")]] *)
Definition tx_to_cbor (t : transaction) : cvalue := flat_to_cbor (flat_of_tx t).

(** storage.rs:448-459: [#[derive(Serialize)]] of [Block] with the [phash]
    module, storage.rs:2809-2820 *)
Definition block_to_cbor (b : block) : cvalue :=
  CMap ([(CText "tx", tx_to_cbor (b_tx b))]
     ++ [(CText "ts", uint_to_cbor (b_timestamp b))]
     ++ opt_field "phash" (CBytes <$> b_phash b)
     ++ opt_field "fee" (uint_to_cbor <$> b_effective_fee b)).

(** ** Deserialisation from CBOR values.

    Modelled from serde's derived visitors and ciborium's [Value]
    deserialiser.  On inputs the ledger never writes (tags around texts or byte
    strings, arrays in place of byte strings, non-text map keys) the model
    rejects where ciborium may accept. *)

(** ciborium: unsigned integer from an [Integer] or a positive bignum of at
    most 16 bytes after dropping leading zeros. *)
Fixpoint skip_to_16 (l : list byte) : list byte :=
  match l with
  | [] => []
  | b :: l' =>
      if (16 <? length l)%nat && bool_decide (b = Byte.x00) then skip_to_16 l' else l
  end.

(** [u128::deserialize] of a [ciborium::Value] *)
Definition cbor_to_u128 (v : cvalue) : option N :=
  match v with
  | CInteger z => if (z <? 0)%Z then None else Some (Z.to_N z)
  | CTag t (CBytes b) =>
      if t =? TAG_BIGNUM then
        let b' := skip_to_16 b in
        if (length b' <=? 16)%nat then Some (from_be b') else None
      else None
  | _ => None
  end.

(** [u64::deserialize] *)
Definition cbor_to_u64 (v : cvalue) : option N :=
  match cbor_to_u128 v with Some n => nat_to_u64 n | None => None end.

(** [ByteBuf::deserialize] (memos, compact accounts, [phash]) *)
Definition cbor_to_bytes (v : cvalue) : option (list byte) :=
  match v with CBytes b => Some b | _ => None end.

(** [String::deserialize] *)
Definition cbor_to_text (v : cvalue) : option string :=
  match v with CText s => Some s | _ => None end.

(** [Vec<ByteBuf>::deserialize]: every element must decode (compact_account.rs:88-99) *)
Fixpoint all_some {A} (l : list (option A)) : option (list A) :=
  match l with
  | [] => Some []
  | Some x :: l' => match all_some l' with Some r => Some (x :: r) | None => None end
  | None :: _ => None
  end.

(** compact_account.rs:70-76, 88-99 *)
Definition cbor_to_account (v : cvalue) : option account :=
  match v with
  | CArray l =>
      match all_some (map cbor_to_bytes l) with
      | Some c => account_of_compact c
      | None => None
      end
  | _ => None
  end.

(** All values stored under text key [k]. *)
Fixpoint field_values (k : string) (m : list (cvalue * cvalue)) : list cvalue :=
  match m with
  | [] => []
  | (CText k', v) :: m' =>
      if bool_decide (k = k') then v :: field_values k m' else field_values k m'
  | _ :: m' => field_values k m'
  end.

(** A required field: present exactly once and decodable. *)
Definition req_field {A} (k : string) (d : cvalue -> option A) (m : list (cvalue * cvalue))
  : option A :=
  match field_values k m with [v] => d v | _ => None end.

(** An optional field: absent or null is [None]; repeated is an error. *)
Definition opt_get {A} (k : string) (d : cvalue -> option A) (m : list (cvalue * cvalue))
  : option (option A) :=
  match field_values k m with
  | [] => Some None
  | [CNull] => Some None
  | [v] => match d v with Some x => Some (Some x) | None => None end
  | _ => None
  end.

(** storage.rs:307-343: [#[derive(Deserialize)]] of [FlattenedTransaction] *)
Definition flat_of_cbor (v : cvalue) : option flat_tx :=
  match v with
  | CMap m =>
      match opt_get "ts" cbor_to_u64 m with None => None | Some ts =>
      match opt_get "memo" cbor_to_bytes m with None => None | Some mm =>
      match req_field "op" cbor_to_text m with None => None | Some op =>
      match opt_get "from" cbor_to_account m with None => None | Some from =>
      match opt_get "to" cbor_to_account m with None => None | Some to =>
      match opt_get "spender" cbor_to_account m with None => None | Some sp =>
      match req_field "amt" cbor_to_u128 m with None => None | Some amt =>
      match opt_get "fee" cbor_to_u128 m with None => None | Some fee =>
      match opt_get "expected_allowance" cbor_to_u128 m with None => None | Some ea =>
      match opt_get "expires_at" cbor_to_u64 m with None => None | Some ex =>
        Some (FlatTx ts mm op from to sp amt fee ea ex)
      end end end end end end end end end end
  | _ => None
  end.

(** storage.rs:86: [#[serde(try_from = "FlattenedTransaction")]] *)
Definition tx_of_cbor (v : cvalue) : option transaction :=
  match flat_of_cbor v with Some f => tx_of_flat f | None => None end.

(** storage.rs:2822-2836 [phash::deserialize] (inner part) *)
Definition cbor_to_hash (v : cvalue) : option hash :=
  match v with
  | CBytes b => if (length b =? 32)%nat then Some b else None
  | _ => None
  end.

(** storage.rs:448-459: [#[derive(Deserialize)]] of [Block] *)
Definition block_of_cbor (v : cvalue) : option block :=
  match v with
  | CMap m =>
      match req_field "tx" tx_of_cbor m with None => None | Some tx =>
      match req_field "ts" cbor_to_u64 m with None => None | Some ts =>
      match opt_get "phash" cbor_to_hash m with None => None | Some ph =>
      match opt_get "fee" cbor_to_u128 m with None => None | Some fee =>
        Some (Blk tx ts ph fee)
      end end end end
  | _ => None
  end.

(** storage.rs:462-471 [Block::from_value] *)
Definition block_from_value (v : value) : option block :=
  match generic_to_cbor 0 v with
  | Some c => block_of_cbor c
  | None => None
  end.

(** ** Transaction hash.  storage.rs:183-194 *)
Definition tx_hash_value (t : transaction) : option value :=
  cbor_to_generic 0 (tx_to_cbor t).
Definition tx_hash `{Env} (t : transaction) : option hash := vhash <$> tx_hash_value t.

(** storage.rs:492-494 [Block::hash] *)
Definition block_hash `{Env} (b : block) : hash := vhash (block_to_value b).

(** ** CBOR heads (RFC 8949 section 3): major type and argument, in the
    shortest form, as written by [minicbor] and [ciborium]. *)
Definition cbor_head (major n : N) : list byte :=
  if n <? 24 then [byte_of (major * 32 + n)]
  else if n <? 2 ^ 8 then byte_of (major * 32 + 24) :: be_fixed 1 n
  else if n <? 2 ^ 16 then byte_of (major * 32 + 25) :: be_fixed 2 n
  else if n <? 2 ^ 32 then byte_of (major * 32 + 26) :: be_fixed 4 n
  else byte_of (major * 32 + 27) :: be_fixed 8 n.

(** ** Memos.  memo.rs *)

(** memo.rs:7-26 [encode_withdraw_memo]: minicbor encodes the struct as an array
    of one element, the receiver's bytes. *)
Definition encode_withdraw_memo (p : principal) : memo :=
  cbor_head 4 1 ++ cbor_head 2 (N.of_nat (length p)) ++ p.

(** memo.rs:28-38 [validate_memo]; [true] is [Ok]. *)
Definition validate_memo (m : option memo) : bool :=
  match m with
  | Some m => negb (MAX_MEMO_LENGTH <? N.of_nat (length m))
  | None => true
  end.

(** storage.rs:1644-1647 *)
Definition PENALIZE_MEMO : memo := repeat Byte.xff 32.
Definition CREATE_CANISTER_MEMO : memo := repeat Byte.xfe 32.
Definition REFUND_MEMO : memo := repeat Byte.xfd 32.

(** ** LEB128 (crate [leb128]) *)

(** [leb128::write::unsigned] on a [u64]; ten rounds suffice
    (storage.rs:780 [MAX_U64_ENCODING_BYTES]). *)
Fixpoint leb128_write (fuel : nat) (n : N) : list byte :=
  match fuel with
  | O => []
  | S f =>
      if n <? 128 then [byte_of n]
      else byte_of (n mod 128 + 128) :: leb128_write f (n / 128)
  end.
Definition leb128_u64 (n : N) : list byte := leb128_write 10 n.

(** [leb128::read::unsigned]: the value and the unread rest; [None] on overflow
    or end of input. *)
Fixpoint leb128_read (shift : N) (l : list byte) : option (N * list byte) :=
  match l with
  | [] => None
  | b :: l' =>
      let n := Byte.to_N b in
      if (shift =? 63) && (1 <? n) then None
      else if n <? 128 then Some (n * 2 ^ shift, l')
      else
        match leb128_read (shift + 7) l' with
        | Some (r, rest) => Some ((n - 128) * 2 ^ shift + r, rest)
        | None => None
        end
  end.
