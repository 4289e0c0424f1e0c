(** * Properties of the encodings: C35 C36 C37 C38 *)
From Verif Require Import Base Types Codec Cbor State Ledger Canister Effects Spec Inv Steps World
  QueryFacts CodecProofs CborProofs Demo.

(** ** C35: stored blocks decode to what was written *)

(** A block whose fields are in the ranges of their Rust types: principals of at
    most 29 bytes, 32-byte subaccounts and hashes, 64- and 128-bit numbers. *)
Definition account_in_range (a : account) : Prop :=
  (length (owner a) <= 29)%nat
  /\ match subacct a with Some s => s < 2 ^ 256 | None => True end.
Definition opt_in_range {A} (P : A -> Prop) (o : option A) : Prop :=
  match o with Some x => P x | None => True end.
Definition op_in_range (op : operation) : Prop :=
  match op with
  | Mint to a f => account_in_range to /\ a < 2 ^ 128 /\ f < 2 ^ 128
  | Transfer from to sp a f =>
      account_in_range from /\ account_in_range to /\ opt_in_range account_in_range sp
      /\ a < 2 ^ 128 /\ opt_in_range (fun f => f < 2 ^ 128) f
  | Burn from sp a => account_in_range from /\ opt_in_range account_in_range sp /\ a < 2 ^ 128
  | Approve from sp a ea ex f =>
      account_in_range from /\ account_in_range sp /\ a < 2 ^ 128
      /\ opt_in_range (fun n => n < 2 ^ 128) ea /\ opt_in_range (fun n => n < 2 ^ 64) ex
      /\ opt_in_range (fun n => n < 2 ^ 128) f
  end.
Definition block_in_range (b : block) : Prop :=
  op_in_range (tx_op (b_tx b))
  /\ opt_in_range (fun n => n < 2 ^ 64) (tx_created_at (b_tx b))
  /\ opt_in_range (fun m => (length m <= 32)%nat) (tx_memo (b_tx b))
  /\ b_timestamp b < 2 ^ 64
  /\ opt_in_range (fun h => length h = 32%nat) (b_phash b)
  /\ opt_in_range (fun n => n < 2 ^ 128) (b_effective_fee b).

Lemma block_in_range_wf b :
  block_in_range b <-> wf_block b /\ validate_memo (tx_memo (b_tx b)) = true.
Proof.
  destruct b as [[op c m] ts ph f]. unfold block_in_range, wf_block. simpl.
  assert (opt_in_range (fun m => (length m <= 32)%nat) m <-> validate_memo m = true) as ->.
  { destruct m; simpl; [|done]. unfold MAX_MEMO_LENGTH. lia. }
  assert (op_in_range op <-> wf_op op) as -> by by destruct op.
  split; intros; destruct_and?; split_and?; try done;
    by destruct c, ph, f.
Qed.

Theorem C35_block_round_trip b rest :
  block_in_range b ->
  block_from_bytes (block_to_bytes b ++ rest) = Some b
  /\ block_from_value (block_to_value b) = Some b.
Proof.
  intros [Hb Hm]%block_in_range_wf. split; [by apply block_bytes_round_trip|by apply block_value_round_trip].
Qed.

(** Every block of every reachable log is in range, so this applies to it
    ([Value::hash] returns 32 bytes). *)
Theorem C35_recorded_blocks_round_trip `{Env} w i b :
  (forall v, length (vhash v) = 32%nat) ->
  reachable w -> blocks (w_led w) !! i = Some b ->
  block_in_range b
  /\ block_from_bytes (block_to_bytes b) = Some b
  /\ block_from_value (block_to_value b) = Some b.
Proof.
  intros Hh Hr Hb. pose proof (reachable_inv _ Hr) as Hi.
  assert (block_in_range b) as Hin.
  { apply block_in_range_wf.
    destruct (inv_blk _ _ Hi _ _ Hb) as [((Hop & Hc & Hm & _) & Hu & Hf & _) _].
    split; [|done]. unfold wf_block. split_and!; try done.
    - rewrite (inv_chain _ _ Hi _ _ Hb). destruct i; [done|].
      destruct (blocks (w_led w) !! i); simpl; [|done]. apply Hh.
    - rewrite Hf. destruct (tx_op (b_tx b)) as [| ? ? ? ? [] | |? ? ? ? ? []]; simpl; done. }
  split; [done|]. destruct (C35_block_round_trip b [] Hin) as [H1 H2]. by rewrite app_nil_r in H1.
Qed.

(** ** C36: generic and CBOR values *)

(** What can be converted at all: no negative numbers, floats, booleans or
    nulls; text keys; no tags but "self-described" and "bignum of bytes"; no
    more than 64 levels ([cbor_supported] and [cbor_depth] in CodecProofs.v). *)
Theorem C36_supported c :
  (exists v, cbor_to_generic 0 c = Some v) <-> cbor_supported c /\ cbor_depth c <= 64.
Proof. rewrite cbor_to_generic_supported. by rewrite N.add_0_l. Qed.

(** CBOR values as the ledger writes them (no redundant tags, minimal bignums,
    sorted distinct keys) survive the way to a generic value and back. *)
Theorem C36_cbor_round_trip c v :
  cbor_canon c -> cbor_to_generic 0 c = Some v -> generic_to_cbor 0 v = Some c.
Proof. apply cbor_generic_cbor. Qed.

(** Any other supported value loses only its redundancies: converting again
    gives the same generic value. *)
Theorem C36_generic_round_trip v c :
  value_ok v -> generic_to_cbor 0 v = Some c -> cbor_to_generic 0 c = Some v.
Proof. apply generic_cbor_generic. Qed.
Theorem C36_converted_is_sorted c v : cbor_to_generic 0 c = Some v -> value_ok v.
Proof. apply cbor_to_generic_ok. Qed.

(** Which generic values can be converted at all: no 64-bit kind, and integers only from
    0 to [2^64 - 1], wherever they stand *)
Fixpoint value_supported (v : value) : Prop :=
  match v with
  | VNat64 _ => False
  | VInt z => (0 <= z < 2 ^ 64)%Z
  | VNat _ | VBlob _ | VText _ => True
  | VArray l =>
      (fix go (l : list value) := match l with [] => True | x :: l' => value_supported x /\ go l' end) l
  | VMap m =>
      (fix go (m : list (string * value)) :=
         match m with [] => True | x :: m' => value_supported x.2 /\ go m' end) m
  end.
(** The number of levels *)
Fixpoint value_depth (v : value) : N :=
  match v with
  | VArray l =>
      1 + (fix go (l : list value) := match l with [] => 0 | x :: l' => N.max (value_depth x) (go l') end) l
  | VMap m =>
      1 + (fix go (m : list (string * value)) :=
             match m with [] => 0 | x :: m' => N.max (value_depth x.2) (go m') end) m
  | _ => 1
  end.

Lemma generic_to_cbor_supported v d :
  (exists c, generic_to_cbor d v = Some c) <-> value_supported v /\ d + value_depth v <= 64.
Proof.
  revert d. induction v as [n|n|z|b|s|l IH|m IH] using value_nested_ind; intros d.
  - simpl. split; [|by intros [[] _]]. intros [c Hc]. revert Hc. unfold generic_to_cbor. by destruct (VALUE_DEPTH_LIMIT <=? d).
  - unfold generic_to_cbor, VALUE_DEPTH_LIMIT. cbn [value_supported value_depth]. destruct (N.leb_spec 64 d).
    + split; [by intros [? ?]|intros [_ ?]; lia].
    + split; [intros _; split; [done|lia]|intros _; by eexists].
  - unfold generic_to_cbor, VALUE_DEPTH_LIMIT. cbn [value_supported value_depth]. destruct (N.leb_spec 64 d).
    + split; [by intros [? ?]|intros [_ ?]; lia].
    + destruct (Z.leb_spec 0 z), (Z.ltb_spec z (2 ^ 64)%Z); cbn [andb].
      * split; [intros _; split; [done|lia]|intros _; by eexists].
      * split; [by intros [? ?]|intros [? _]; lia].
      * split; [by intros [? ?]|intros [? _]; lia].
      * split; [by intros [? ?]|intros [? _]; lia].
  - unfold generic_to_cbor, VALUE_DEPTH_LIMIT. cbn [value_supported value_depth]. destruct (N.leb_spec 64 d).
    + split; [by intros [? ?]|intros [_ ?]; lia].
    + split; [intros _; split; [done|lia]|intros _; by eexists].
  - unfold generic_to_cbor, VALUE_DEPTH_LIMIT. cbn [value_supported value_depth]. destruct (N.leb_spec 64 d).
    + split; [by intros [? ?]|intros [_ ?]; lia].
    + split; [intros _; split; [done|lia]|intros _; by eexists].
  - rewrite generic_to_cbor_array. cbn [value_supported value_depth]. destruct (N.leb_spec 64 d).
    { split; [by intros [? ?]|intros [_ ?]; lia]. }
    assert ((exists ys, gc_list (d + 1) l = Some ys) <->
      (fix go (l : list value) := match l with [] => True | x :: l' => value_supported x /\ go l' end) l
      /\ d + (1 + (fix go (l : list value) := match l with [] => 0 | x :: l' => N.max (value_depth x) (go l') end) l) <= 64)
      as Hl.
    { induction IH as [|x l Hx IH' IHl]; simpl.
      - split; [intros _; split; [done|lia]|intros _; by eexists].
      - specialize (Hx (d + 1)). destruct (generic_to_cbor (d + 1) x) as [y|].
        + destruct Hx as [[Hx1 Hx2] _]; [by eexists|]. destruct (gc_list (d + 1) l) as [ys|].
          * destruct IHl as [[Hl1 Hl2] _]; [by eexists|]. split; [intros _; split; [done|lia]|intros _; by eexists].
          * split; [by intros [? ?]|]. intros [[_ ?] ?]. destruct IHl as [_ [? ?]]; [split; [done|lia]|done].
        + split; [by intros [? ?]|]. intros [[? _] ?]. destruct Hx as [_ [? ?]]; [split; [done|lia]|done]. }
    rewrite <- Hl. destruct (gc_list (d + 1) l).
    + split; intros _; by eexists.
    + split; by intros [? ?].
  - rewrite generic_to_cbor_map. cbn [value_supported value_depth]. destruct (N.leb_spec 64 d).
    { split; [by intros [? ?]|intros [_ ?]; lia]. }
    assert ((exists ys, gc_map (d + 1) m = Some ys) <->
      (fix go (m : list (string * value)) := match m with [] => True | x :: m' => value_supported x.2 /\ go m' end) m
      /\ d + (1 + (fix go (m : list (string * value)) :=
                     match m with [] => 0 | x :: m' => N.max (value_depth x.2) (go m') end) m) <= 64)
      as Hl.
    { induction IH as [|[k x] m Hx IH' IHm]; simpl in *.
      - split; [intros _; split; [done|lia]|intros _; by eexists].
      - specialize (Hx (d + 1)). destruct (generic_to_cbor (d + 1) x) as [y|].
        + destruct Hx as [[Hx1 Hx2] _]; [by eexists|]. destruct (gc_map (d + 1) m) as [ys|].
          * destruct IHm as [[Hl1 Hl2] _]; [by eexists|]. split; [intros _; split; [done|lia]|intros _; by eexists].
          * split; [by intros [? ?]|]. intros [[_ ?] ?]. destruct IHm as [_ [? ?]]; [split; [done|lia]|done].
        + split; [by intros [? ?]|]. intros [[? _] ?]. destruct Hx as [_ [? ?]]; [split; [done|lia]|done]. }
    rewrite <- Hl. destruct (gc_map (d + 1) m).
    + split; intros _; by eexists.
    + split; by intros [? ?].
Qed.

Theorem C36_generic_supported v :
  (exists c, generic_to_cbor 0 v = Some c) <-> value_supported v /\ value_depth v <= 64.
Proof. rewrite generic_to_cbor_supported. by rewrite N.add_0_l. Qed.
(** Both sides of the bounds *)
Example C36_case_generic :
  (exists c, generic_to_cbor 0 (VMap [("a", VArray [VInt (2 ^ 64 - 1); VNat (2 ^ 100)])]%string) = Some c)
  /\ generic_to_cbor 0 (VMap [("a", VArray [VInt (2 ^ 64)])]%string) = None
  /\ (exists c, generic_to_cbor 0 (Nat.iter 63 (fun v => VArray [v]) (VText "x")) = Some c)
  /\ generic_to_cbor 0 (Nat.iter 64 (fun v => VArray [v]) (VText "x")) = None.
Proof.
  split; [eexists; vm_compute; reflexivity|]. split; [vm_compute; reflexivity|].
  split; [eexists; vm_compute; reflexivity|]. vm_compute; reflexivity.
Qed.

(** ** C37: withdraw memos *)

(** The bytes of the memos. A withdrawal has a CBOR array of one element, the bytes of
    the receiver. *)
Theorem C37_memo_bytes p :
  (length p <= 29)%nat ->
  encode_withdraw_memo p =
    Byte.x81 :: (if (length p <? 24)%nat then [byte_of (64 + N.of_nat (length p))]
                 else [Byte.x58; byte_of (N.of_nat (length p))]) ++ p
  /\ CREATE_CANISTER_MEMO = repeat Byte.xfe 32
  /\ REFUND_MEMO = repeat Byte.xfd 32
  /\ PENALIZE_MEMO = repeat Byte.xff 32.
Proof.
  intros Hp. split; [|done]. unfold encode_withdraw_memo, cbor_head.
  destruct (Nat.ltb_spec (length p) 24).
  - destruct (N.ltb_spec (N.of_nat (length p)) 24); [done|lia].
  - destruct (N.ltb_spec (N.of_nat (length p)) 24); [lia|].
    destruct (N.ltb_spec (N.of_nat (length p)) (2 ^ 8)) as [_|Hge]; [done|].
    change (2 ^ 8) with 256 in Hge. lia.
Qed.
Theorem C37_withdraw_memo p :
  (length p <= 29)%nat ->
  (length (encode_withdraw_memo p) <= 32)%nat
  /\ (forall q, (length q <= 29)%nat -> encode_withdraw_memo p = encode_withdraw_memo q -> p = q)
  /\ encode_withdraw_memo p <> CREATE_CANISTER_MEMO
  /\ encode_withdraw_memo p <> REFUND_MEMO
  /\ encode_withdraw_memo p <> PENALIZE_MEMO.
Proof.
  intros Hp. split.
  { rewrite withdraw_memo_length by done. destruct (Nat.ltb_spec (length p) 24); lia. }
  split; [intros q Hq; by apply withdraw_memo_inj|].
  split_and!; intros E; apply (f_equal head) in E; rewrite withdraw_memo_first in E; done.
Qed.

(** In the log: a burn is either a canister creation or names exactly one
    receiver. *)
Theorem C37_burns_name_receiver `{Env} w i b from sp amount :
  reachable w -> blocks (w_led w) !! i = Some b -> tx_op (b_tx b) = Burn from sp amount ->
  tx_memo (b_tx b) = Some CREATE_CANISTER_MEMO
  \/ exists! to, (length to <= 29)%nat /\ tx_memo (b_tx b) = Some (encode_withdraw_memo to).
Proof.
  intros Hr Hb Hop.
  destruct (inv_blk _ _ (reachable_inv _ Hr) _ _ Hb) as [((_ & _ & _ & Hm) & _) _].
  unfold burn_memo in Hm. rewrite Hop in Hm.
  destruct Hm as [(to & Hto & Hwf & _)|Hm]; [right|by left].
  exists to. split; [done|]. intros to' [Hwf' Hto']. rewrite Hto in Hto'.
  apply withdraw_memo_inj; [done|done|congruence].
Qed.

(** ** C38: the certified index is decodable *)
Theorem C38_leb128 n rest :
  n < 2 ^ 64 ->
  leb128_read 0 (leb128_u64 n ++ rest) = Some (n, rest) /\ (length (leb128_u64 n) <= 10)%nat.
Proof. intros Hn. split; [by apply leb128_read_write|apply leb128_write_length]. Qed.

Theorem C38_certified_index `{Env} w :
  reachable w -> blocks (w_led w) <> [] -> N.of_nat (length (blocks (w_led w))) <= 2 ^ 64 ->
  exists bytes,
    (icrc3_get_tip_certificate (w_led w)).2 !! "last_block_index"%string = Some bytes
    /\ leb128_read 0 bytes = Some (N.of_nat (length (blocks (w_led w))) - 1, [])
    /\ (length bytes <= 10)%nat.
Proof.
  intros Hr Hne Hl. exists (leb128_u64 (N.of_nat (length (blocks (w_led w))) - 1)).
  simpl. rewrite (inv_tree _ _ (reachable_inv _ Hr)). unfold tree_of.
  destruct (last (blocks (w_led w))) as [b|] eqn:El; [|by apply last_None in El].
  destruct (C38_leb128 (N.of_nat (length (blocks (w_led w))) - 1) []) as [H1 H2].
  { assert (length (blocks (w_led w)) <> 0%nat) by (by destruct (blocks (w_led w))). lia. }
  rewrite app_nil_r in H1. split; [|done]. unfold populate_tree.
  rewrite lookup_insert_ne by done. by rewrite lookup_insert.
Qed.

(** ** The hypotheses are met *)
Example demo_hash_32 : forall v, length (@vhash demo_env v) = 32%nat.
Proof. intros v. apply CodecFacts.be_fixed_length. Qed.
Example demo_blocks_in_range i b : blocks (w_led demo_world) !! i = Some b -> block_in_range b.
Proof. intros Hb. by eapply (C35_recorded_blocks_round_trip _ i b demo_hash_32 demo_reachable). Qed.
Definition big_block : block :=
  Blk (Tx (Transfer (Acct alice (Some 5)) (acct bob) (Some (acct carol)) (2 ^ 100) (Some FEE))
          (Some T0) (Some (repeat Byte.xff 32))) T0 (Some (repeat Byte.x01 32)) None.
Example big_block_in_range :
  block_in_range big_block /\ block_from_bytes (block_to_bytes big_block) = Some big_block.
Proof.
  split; [|vm_compute; reflexivity].
  unfold block_in_range, op_in_range, account_in_range, opt_in_range. simpl.
  split_and!; try done; lia.
Qed.
Definition sample_cbor : cvalue :=
  CMap [(CText "a", CArray [CInteger 3; CTag 2 (CBytes (nat_be (2 ^ 70)))]); (CText "b", CText "x")].
Example sample_canon : cbor_canon sample_cbor /\ exists v, cbor_to_generic 0 sample_cbor = Some v.
Proof.
  split; [|by eexists]. split; [|by repeat split; try lia; eexists].
  exists ["a"; "b"]%string. split; [done|]. repeat constructor.
Qed.
Example deep_rejected :
  cbor_to_generic 0 (Nat.iter 64 (fun c => CArray [c]) CNull) = None
  /\ cbor_to_generic 0 (Nat.iter 63 (fun c => CArray [c]) (CInteger 1)) <> None
  /\ cbor_to_generic 0 (Nat.iter 64 (fun c => CArray [c]) (CInteger 1)) = None.
Proof. vm_compute. done. Qed.
Example demo_burn :
  exists i b from sp amount, blocks (w_led demo_world) !! i = Some b
    /\ tx_op (b_tx b) = Burn from sp amount /\ tx_memo (b_tx b) = Some (encode_withdraw_memo canister).
Proof. exists 5%nat. vm_compute. eauto 10. Qed.

Print Assumptions C35_block_round_trip.
Print Assumptions C35_recorded_blocks_round_trip.
Print Assumptions C36_supported.
Print Assumptions C36_cbor_round_trip.
Print Assumptions C36_generic_round_trip.
Print Assumptions C36_converted_is_sorted.
Print Assumptions C36_generic_supported.
Print Assumptions C37_memo_bytes.
Print Assumptions C37_withdraw_memo.
Print Assumptions C37_burns_name_receiver.
Print Assumptions C38_leb128.
Print Assumptions C38_certified_index.
