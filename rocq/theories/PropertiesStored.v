(** * The hash of a block does not depend on the form it is kept in: C70

    The ledger hashes a block from the value it serves ([Block::to_value]) and a
    transaction, for deduplication, from its stored CBOR form.  The two forms
    write numbers differently. *)
From Coq Require Import Strings.String.
From Verif Require Import Base Types Codec CodecFacts State Ledger Canister Effects Spec ApiSpec Inv Steps World
  CodecProofs Cbor CborProofs ValueHash HashSpec Sha256 HashProofs QueryFacts Demo PropertiesCodec PropertiesHash.

Local Open Scope string_scope.
Local Open Scope list_scope.
Local Open Scope N_scope.

Section WithSha.
Context `{Sha}.
Context (rank : principal -> N).

(** An integer from 0 on is hashed as the natural number it is. *)
Definition ints_as_nats : Prop := forall z, (0 <= z)%Z -> int_code z = leb128_nat (Z.to_N z).

(** ** Values with the same hashes at the same keys *)
Definition key_hashes (m : list (string * value)) : list (string * hash) := map (fun kv => (kv.1, rih kv.2)) m.
Lemma rih_map_same m1 m2 : key_hashes m1 = key_hashes m2 -> rih (VMap m1) = rih (VMap m2).
Proof.
  intros E. change (rih (VMap m1)) with (sha (concat (map (fun p => p.1 ++ p.2)
        (merge_sort pair_le (map (fun kv => (sha (str_bytes kv.1), rih kv.2)) m1))))).
  change (rih (VMap m2)) with (sha (concat (map (fun p => p.1 ++ p.2)
        (merge_sort pair_le (map (fun kv => (sha (str_bytes kv.1), rih kv.2)) m2))))).
  assert (forall m, map (fun kv : string * value => (sha (str_bytes kv.1), rih kv.2)) m =
                    map (fun kh => (sha (str_bytes kh.1), kh.2)) (key_hashes m)) as Hk.
  { intros m. unfold key_hashes. by rewrite map_map. }
  by rewrite !Hk, E.
Qed.

Definition stored_num (n : N) : value := if n <? U64_MOD then VInt (Z.of_N n) else VNat n.
Lemma rih_stored_num n : ints_as_nats -> rih (stored_num n) = rih (VNat n).
Proof.
  intros Hn. unfold stored_num. destruct (n <? U64_MOD); [|done]. simpl. rewrite Hn by lia. by rewrite N2Z.id.
Qed.

Lemma cg_map_cons d k x y m acc :
  cbor_to_generic d x = Some y -> cg_map d ((CText k, x) :: m) acc = cg_map d m (btree_insert k y acc).
Proof. intros E. simpl. by rewrite E. Qed.

Lemma stored_tx_same d t :
  ints_as_nats -> d < 60 -> wf_op (tx_op t) -> wf_u64_opt (tx_created_at t) ->
  exists v, cbor_to_generic d (tx_to_cbor t) = Some v /\ rih v = rih (tx_to_value t).
Proof.
  intros Hn Hd Ho Hc. pose proof (wf_flat_of_tx t Ho Hc) as Hw.
  unfold tx_to_cbor, flat_to_cbor. rewrite cbor_to_generic_map.
  destruct (N.leb_spec 64 d); [lia|].
  assert (forall n, is_u128 n -> cbor_to_generic (d + 1) (uint_to_cbor n) = Some (stored_num n)) as Hu.
  { intros n Hn'. apply cg_uint; [lia|done]. }
  assert (forall a, cbor_to_generic (d + 1) (account_to_cbor a) = Some (account_to_value a)) as Ha.
  { intros a. apply cg_account. lia. }
  assert (forall a, cbor_to_generic (d + 1) (CText a) = Some (VText a)) as Ht.
  { intros a. apply cg_text. lia. }
  assert (forall a, cbor_to_generic (d + 1) (CBytes a) = Some (VBlob a)) as Hb.
  { intros a. apply cg_bytes. lia. }
  pose proof (fun n => rih_stored_num n Hn) as Hr. clear Hn.
  assert (forall n, is_u64 n -> is_u128 n) as H64 by exact u64_u128.
  destruct Hw as (W1 & _ & _ & _ & W5 & W6 & W7 & W8).
  destruct t as [op c m]. destruct op as [to a f|fr to sp a f|fr sp a|fr sp a ex exp f];
    cbn [flat_of_tx tx_op tx_created_at tx_memo ft_created_at ft_memo ft_op ft_from ft_to ft_spender
         ft_amount ft_fee ft_expected_allowance ft_expires_at wf_u64_opt wf_u128_opt] in *.
  2: destruct sp, f. 6: destruct sp. 8: destruct ex, exp, f.
  all: destruct c, m.
  all: cbn [opt_field fmap option_fmap option_map app wf_u64_opt wf_u128_opt] in *.
  all: erewrite ?cg_map_cons by
    first [apply Ha | apply Ht | apply Hb | apply Hu; first [done|by apply H64]].
  all: eexists; (split; [reflexivity|]).
  all: apply rih_map_same; simpl; by rewrite ?Hr.
Qed.

(** ** C70: one hash for the stored and the served form *)

(** The value read back from the bytes a block is stored in has the hash the ledger
    computes for the block, which is that of the value it serves. *)
Theorem C70_stored_block_hash b :
  ints_as_nats -> block_in_range b ->
  exists cv v, cbor_decode (block_to_bytes b) = Some (cv, []) /\ cbor_to_generic 0 cv = Some v
    /\ rih v = @block_hash (sha_env rank) b /\ rih v = rih (block_to_value b).
Proof.
  intros Hn [Hwf Hm]%block_in_range_wf. exists (block_to_cbor b).
  assert (exists v, cbor_to_generic 0 (block_to_cbor b) = Some v /\ rih v = rih (block_to_value b))
    as (v & Hv & E).
  { destruct Hwf as (Ho & Hc & Hts & _ & Hf).
    destruct (stored_tx_same (0 + 1) (b_tx b) Hn ltac:(lia) Ho Hc) as (v & Hv & Hvh).
    unfold block_to_cbor. rewrite cbor_to_generic_map. change (64 <=? 0) with false. cbn match.
    destruct b as [t ts ph fee]. cbn [b_tx b_timestamp b_phash b_effective_fee] in *.
    assert (forall n, is_u128 n -> cbor_to_generic (0 + 1) (uint_to_cbor n) = Some (stored_num n)) as Hu.
    { intros n Hn'. apply cg_uint; [lia|done]. }
    assert (forall a, cbor_to_generic (0 + 1) (CBytes a) = Some (VBlob a)) as Hb.
    { intros a. apply cg_bytes. lia. }
    pose proof (fun n => rih_stored_num n Hn) as Hr. apply u64_u128 in Hts.
    unfold block_to_value. cbn [b_tx b_timestamp b_phash b_effective_fee].
    destruct ph, fee; cbn [opt_field fmap option_fmap option_map app wf_u128_opt] in *;
      erewrite ?cg_map_cons by first [exact Hv | apply Hb | by apply Hu];
      (eexists; split; [reflexivity|]); apply rih_map_same; generalize dependent (tx_to_value t);
      intros tv Hvh; simpl; by rewrite ?Hr, ?Hvh. }
  exists v. split; [|by rewrite E].
  unfold block_to_bytes. rewrite <- (app_nil_r (cbor_encode _)).
  by rewrite cbor_decode_encode by by apply block_cbor_wf.
Qed.

(** The hash under which the ledger remembers a transaction, to find duplicates, is the
    hash of the field "tx" of the block it serves. *)
Theorem C70_remembered_hash w h i c :
  ints_as_nats -> @reachable (sha_env rank) w -> tx_hashes (w_led w) !! h = Some (i, c) ->
  exists b tx, blocks (w_led w) !! N.to_nat i = Some b
    /\ field "tx" (block_to_value b) = Some tx /\ h = rih tx.
Proof.
  intros Hn Hr Hh. pose proof (reachable_inv _ Hr) as Hi.
  destruct (inv_hashes _ _ Hi _ _ _ Hh) as [(b & Hb & <-) _].
  exists b, (tx_to_value (b_tx b)). split; [done|]. split.
  - unfold field, block_to_value. destruct (b_effective_fee b), (b_phash b); reflexivity.
  - destruct (inv_blk _ _ Hi _ _ Hb) as [((Ho & Hc & _) & _) _].
    destruct (stored_tx_same 0 (b_tx b) Hn ltac:(lia) Ho Hc) as (v & Hv & <-).
    unfold txh, tx_hash, tx_hash_value. by rewrite Hv.
Qed.
End WithSha.

(** ** The hypotheses are met *)
Definition nat_sha : Sha := {| sha := sha256; int_code z := leb128_nat (Z.to_N z) |}.
Example nat_sha_meets : @sha_ok nat_sha /\ @ints_as_nats nat_sha.
Proof.
  split; [split|].
  - exact sha256_length.
  - intros z _. apply uleb_nat.
  - done.
Qed.
(** A ledger that hashes so, after a deposit and a transfer that carries a timestamp:
    it remembers that transaction. *)
Definition two_blocks : world :=
  the_world (@history (@sha_env nat_sha demo_prank) T0 (100 * T) (LInit (Config 50 None None)) (take 2 demo_events)).
Example C70_case :
  @reachable (@sha_env nat_sha demo_prank) two_blocks
  /\ length (blocks (w_led two_blocks)) = 2%nat
  /\ map snd (map_to_list (tx_hashes (w_led two_blocks))) = [(1, None)].
Proof.
  split; [|split; vm_compute; reflexivity]. apply the_world_reachable. vm_compute. reflexivity.
Qed.

(** ** What the hypothesis is for: with signed LEB128, as the standard has it for [Int], the
    hash under which a transaction is remembered is not that of the transaction served.
    (Which of the two the crate does cannot be seen from /repo; C48 and C49 hold for both.) *)
Theorem C70_signed_ints_refuted :
  exists t, tx_in_range t
    /\ @tx_hash (@sha_env real_sha demo_prank) t <> Some (@rih real_sha (tx_to_value t)).
Proof.
  exists (Tx (Mint (acct alice) 64 0) None None). split.
  - split; [|done]. simpl. split_and!; try done; apply wf_accountb_ok; reflexivity.
  - vm_compute. discriminate.
Qed.

Print Assumptions C70_stored_block_hash.
Print Assumptions C70_remembered_hash.
Print Assumptions C70_signed_ints_refuted.
