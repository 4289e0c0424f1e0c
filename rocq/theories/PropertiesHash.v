(** * Hashes and certificates: C48 C49

    For any hash function [sha] with 32-byte results and any code of integers that can be
    read back; [Sha256.v] supplies the
    real one. *)
From Coq Require Import Strings.String.
From Verif Require Import Base Types Codec CodecFacts State Ledger Canister Effects Spec ApiSpec Inv Steps World
  CallFacts CallCases StepFacts DedupFacts CodecProofs ValueHash HashSpec Sha256 HashProofs QueryFacts Demo
  PropertiesCodec PropertiesDedup PropertiesLog.

Local Open Scope string_scope.
Local Open Scope list_scope.
Local Open Scope N_scope.

Section WithSha.
Context `{Sha}.
Context (rank : principal -> N).

(** ** C48: equal hashes mean equal transactions and blocks *)
Definition tx_in_range (t : transaction) : Prop :=
  op_in_range (tx_op t) /\ opt_in_range (fun n => n < 2 ^ 64) (tx_created_at t).

Lemma tx_in_range_wf t : tx_in_range t <-> wf_op (tx_op t) /\ wf_u64_opt (tx_created_at t).
Proof.
  destruct t as [op c m]. unfold tx_in_range. simpl.
  assert (op_in_range op <-> wf_op op) as -> by by destruct op.
  by destruct c.
Qed.

Theorem C48_transaction_hash t1 t2 :
  sha_ok -> tx_in_range t1 -> tx_in_range t2 ->
  @tx_hash (sha_env rank) t1 = @tx_hash (sha_env rank) t2 ->
  t1 = t2 \/ collision_in (tx_hashed t1 ++ tx_hashed t2).
Proof.
  intros Hs [O1 T1]%tx_in_range_wf [O2 T2]%tx_in_range_wf E. unfold tx_hashed.
  destruct (tx_hash_value_some t1) as [v1 Hv1]. destruct (tx_hash_value_some t2) as [v2 Hv2].
  unfold tx_hash in E. rewrite Hv1, Hv2 in *. simpl in E. injection E as E.
  destruct (inj_or_collision (hashed v1 ++ hashed v2)) as [Hi|Hc]; [left|by right].
  apply tx_hash_value_inj; [done..|]. rewrite Hv1, Hv2. f_equal.
  eapply (hash_inj_tx Hs is_num (hash_inj_num Hs));
    [exact (tx_hash_shape t1 v1 O1 T1 Hv1)|exact (tx_hash_shape t2 v2 O2 T2 Hv2)|done..].
Qed.

Theorem C48_block_hash b1 b2 :
  sha_ok -> block_in_range b1 -> block_in_range b2 ->
  @block_hash (sha_env rank) b1 = @block_hash (sha_env rank) b2 ->
  b1 = b2 \/ collision_in (hashed (block_to_value b1) ++ hashed (block_to_value b2)).
Proof.
  intros Hs [H1 _]%block_in_range_wf [H2 _]%block_in_range_wf E.
  destruct (inj_or_collision (hashed (block_to_value b1) ++ hashed (block_to_value b2))) as [Hi|Hc];
    [left|by right].
  assert (block_to_value b1 = block_to_value b2) as Ev.
  { apply (hash_inj_block Hs); [apply block_to_value_shape..|done|exact E]. }
  apply (f_equal block_from_value) in Ev. rewrite !block_value_round_trip in Ev by done.
  by injection Ev.
Qed.

(** A [Duplicate] answer names a block with exactly the requested transaction. *)
Theorem C48_duplicate_is_identical w now caller c sync i w' resp :
  sha_ok -> @reachable (sha_env rank) w -> ev_ok w (EvCall now caller c sync) ->
  @step (sha_env rank) w (EvCall now caller c sync) = (w', resp) -> duplicate_of resp = Some i ->
  exists b, blocks (w_led w) !! N.to_nat i = Some b
    /\ (b_tx b = requested caller c
        \/ collision_in (tx_hashed (b_tx b) ++ tx_hashed (requested caller c))).
Proof.
  intros Hs Hr Hev Hst Hd.
  destruct (C09_duplicate_is_honest _ _ _ _ _ _ _ _ Hr Hev Hst Hd) as (_ & b & Hb & Hor).
  exists b. split; [done|]. destruct Hor as [|(v1 & v2 & E1 & E2 & _ & E)]; [by left|].
  pose proof (reachable_inv _ Hr) as Hi. destruct Hev as (_ & Hcl & Hwf).
  apply step_call in Hst as (s' & r & He & _ & Hm).
  destruct r as [resp'|p]; [|by destruct Hm as [-> _]]. destruct Hm as [<- _].
  apply exec_class in He as [_ Hch]; [|by apply inv_supply in Hi].
  unfold resp_class in Hch. rewrite Hd in Hch. specialize (Hch ltac:(done)).
  destruct (checkable_wf caller c Hcl Hwf Hch) as [Hw1 Hw2].
  destruct (inv_blk _ _ Hi _ _ Hb) as [((Hwj1 & Hwj2 & _) & _) _].
  apply C48_transaction_hash; [done|by apply tx_in_range_wf|by apply tx_in_range_wf|].
  unfold tx_hash. rewrite E1, E2. simpl. f_equal. exact E.
Qed.

(** ** C49: the tip certificate authenticates the whole log *)

(** The values served for the whole log *)
Definition served_log (w : world) : list value := map block_to_value (blocks (w_led w)).

Lemma last_served (bs : list block) : last (map block_to_value bs) = block_to_value <$> last bs.
Proof. exact (fmap_last block_to_value bs). Qed.
Lemma served_chain w : sha_ok -> @reachable (sha_env rank) w -> chain_ok (served_log w).
Proof.
  intros Hs Hr i v Hv. unfold served_log in *. rewrite list_lookup_fmap in Hv.
  apply fmap_Some in Hv as (b & Hb & ->). split; [apply block_to_value_shape|].
  pose proof (C05_hash_chain _ _ _ Hr Hb) as Hc. destruct i as [|j]; [done|].
  destruct Hc as (b0 & Hb0 & Hp). exists (block_to_value b0). split; [|done].
  by rewrite list_lookup_fmap, Hb0.
Qed.

(** Whoever holds a list of values that form a chain and end in the certified
    tip holds exactly the log of the ledger. *)
Theorem C49_certificate_pins_log w root t vs :
  sha_ok -> @reachable (sha_env rank) w ->
  (@icrc3_get_tip_certificate (w_led w)).1 = Some root ->
  N.of_nat (length vs) <= 2 ^ 64 -> N.of_nat (length (blocks (w_led w))) <= 2 ^ 64 ->
  chain_ok vs -> tip_ok root t vs ->
  vs = served_log w
  \/ collision_in (tree_hashed t ++ tree_hashed (witness (icrc3_get_tip_certificate (w_led w)).2)
                   ++ concat (map hashed vs) ++ concat (map hashed (served_log w))).
Proof.
  intros Hs Hr Hroot Hlv Hlw Hc (Htok & Hd & v & Hv & Hix & Hih).
  set (L := tree_hashed t ++ _). destruct (inj_or_collision L) as [Hi|?]; [left|by right].
  pose proof (C06_tip_certificate w Hr) as Ht. unfold icrc3_get_tip_certificate in *.
  simpl in Hroot. cbn [snd] in L. destruct (last (blocks (w_led w))) as [b|] eqn:El.
  2: { destruct Ht as [_ Ht]. congruence. }
  destruct Ht as [Htree Hdata]. assert (root = digest (witness (hash_tree (w_led w)))) as ->.
  { rewrite Hroot in Hdata. injection Hdata as ->. done. }
  pose proof (Htree "last_block_index") as Ti. pose proof (Htree "last_block_hash") as Th.
  simpl in Ti, Th. clear Htree Hdata Hroot.
  assert (witness (hash_tree (w_led w)) =
    HFork (HLabeled "last_block_hash" (HLeaf (rih (block_to_value b))))
          (HLabeled "last_block_index" (HLeaf (leb128_u64 (N.of_nat (length (blocks (w_led w))) - 1))))) as Hw.
  { unfold witness. by rewrite Ti, Th. }
  rewrite Hw in Hd. subst L. rewrite Hw in Hi. 
  assert (blocks (w_led w) <> []) as Hne by (by intros E; rewrite E in El).
  assert (length (blocks (w_led w)) <> 0%nat) as Hne0 by (by destruct (blocks (w_led w))).
  assert (length vs <> 0%nat) as Hnv0 by (by destruct vs).
  assert (length vs = length (blocks (w_led w))) as Hlen.
  { eapply digest_witness in Hix; [|done..| |exact Hd].
    2: { eapply inj_on_sub; [|exact Hi]. intros x. rewrite !elem_of_app. tauto. }
    destruct Hix as [[? _]|[_ E]]; [done|]. apply (f_equal leb_value) in E.
    rewrite !uleb_u64 in E; [lia| |]; unfold is_u64, U64_MOD; change (2 ^ 64) with 18446744073709551616 in *; lia. }
  assert (rih v = rih (block_to_value b)) as Hlast.
  { eapply digest_witness in Hih; [|done..| |exact Hd].
    2: { eapply inj_on_sub; [|exact Hi]. intros x. rewrite !elem_of_app. tauto. }
    destruct Hih as [[_ E]|[? _]]; done. }
  apply (chain_same Hs); [done|by apply served_chain| | |].
  - unfold served_log. by rewrite map_length.
  - eapply inj_on_sub; [|exact Hi]. intros x. rewrite !elem_of_app. tauto.
  - unfold served_log. rewrite Hv, last_served, El. simpl. by rewrite Hlast.
Qed.

(** The ledger's own log and witness pass the check. *)
Theorem C49_log_is_accepted w :
  sha_ok -> @reachable (sha_env rank) w -> blocks (w_led w) <> [] ->
  exists root, (icrc3_get_tip_certificate (w_led w)).1 = Some root
    /\ chain_ok (served_log w)
    /\ tip_ok root (witness (icrc3_get_tip_certificate (w_led w)).2) (served_log w).
Proof.
  intros Hs Hr Hne. pose proof (C06_tip_certificate w Hr) as Ht. unfold icrc3_get_tip_certificate in *.
  destruct (last (blocks (w_led w))) as [b|] eqn:El.
  2: { by apply last_None in El. }
  destruct Ht as [Htree Hdata]. simpl. eexists. split; [exact Hdata|]. split; [by apply served_chain|].
  pose proof (Htree "last_block_index") as Ti. pose proof (Htree "last_block_hash") as Th.
  simpl in Ti, Th.
  assert (witness (hash_tree (w_led w)) =
    HFork (HLabeled "last_block_hash" (HLeaf (rih (block_to_value b))))
          (HLabeled "last_block_index" (HLeaf (leb128_u64 (N.of_nat (length (blocks (w_led w))) - 1))))) as Hw.
  { unfold witness. by rewrite Ti, Th. }
  unfold tip_ok. rewrite Hw. split; [done|]. split; [cbn [troot sha_env]; by rewrite Hw|].
  exists (block_to_value b). unfold served_log. split.
  - by rewrite last_served, El.
  - rewrite map_length. done.
Qed.

(** Two ledgers, or one ledger at two times, with the same certified data have
    the same log. *)
Corollary C49_same_certificate_same_log w1 w2 root :
  sha_ok -> @reachable (sha_env rank) w1 -> @reachable (sha_env rank) w2 ->
  (icrc3_get_tip_certificate (w_led w1)).1 = Some root ->
  (icrc3_get_tip_certificate (w_led w2)).1 = Some root ->
  N.of_nat (length (blocks (w_led w1))) <= 2 ^ 64 -> N.of_nat (length (blocks (w_led w2))) <= 2 ^ 64 ->
  served_log w1 = served_log w2
  \/ collision_in (tree_hashed (witness (icrc3_get_tip_certificate (w_led w1)).2)
                   ++ tree_hashed (witness (icrc3_get_tip_certificate (w_led w2)).2)
                   ++ concat (map hashed (served_log w1)) ++ concat (map hashed (served_log w2))).
Proof.
  intros Hs Hr1 Hr2 E1 E2 L1 L2.
  assert (blocks (w_led w1) <> []) as Hne.
  { intros E. pose proof (C06_tip_certificate w1 Hr1) as Ht. unfold icrc3_get_tip_certificate in *.
    rewrite E in Ht. simpl in *. destruct Ht as [_ Ht]. congruence. }
  destruct (C49_log_is_accepted _ Hs Hr1 Hne) as (root' & Hroot & Hc & Ht).
  assert (root' = root) as -> by congruence.
  eapply C49_certificate_pins_log; try done. unfold served_log. by rewrite map_length.
Qed.

Lemma recorded_tx_in_range w i :
  @reachable (sha_env rank) w -> (i < length (blocks (w_led w)))%nat -> tx_in_range (b_tx (block_at w i)).
Proof.
  intros Hr Hi. unfold block_at. destruct (blocks (w_led w) !! i) as [b|] eqn:Hb.
  - destruct (inv_blk _ _ (reachable_inv _ Hr) _ _ Hb) as [((H1 & H2 & _) & _) _].
    by apply tx_in_range_wf.
  - apply lookup_ge_None in Hb. lia.
Qed.
End WithSha.

(** ** The real SHA-256 *)
Lemma real_sha_meets_sha_ok : @sha_ok real_sha.
Proof. exact real_sha_ok. Qed.

(** Published values: FIPS 180-4 examples and the test vectors of ICRC-3. *)
Example sha256_abc : sha256 (str_bytes "abc") =
  be_fixed 32 0xba7816bf8f01cfea414140de5dae2223b00361a396177a9cb410ff61f20015ad.
Proof. vm_compute. reflexivity. Qed.
Example sha256_two_blocks :
  sha256 (str_bytes "abcdbcdecdefdefgefghfghighijhijkijkljklmklmnlmnomnopnopq") =
  be_fixed 32 0x248d6a61d20638b8e5c026930c3e6039a33ce45964ff2167f6ecedd419db06c1.
Proof. vm_compute. reflexivity. Qed.
Example icrc3_nat : @rih real_sha (VNat 42) =
  be_fixed 32 0x684888c0ebb17f374298b65ee2807526c066094c701bcc7ebbe1c1095f494fc1.
Proof. vm_compute. reflexivity. Qed.
Example icrc3_int : @rih real_sha (VInt (-42)) =
  be_fixed 32 0xde5a6f78116eca62d7fc5ce159d23ae6b889b365a1739ad2cf36f925a140d0cc.
Proof. vm_compute. reflexivity. Qed.
Example icrc3_text : @rih real_sha (VText "Hello, World!") =
  be_fixed 32 0xdffd6021bb2bd5b0af676290809ec3a53191dd81c7f70a4b28688a362182986f.
Proof. vm_compute. reflexivity. Qed.
Example icrc3_blob : @rih real_sha (VBlob (be_fixed 4 0x01020304)) =
  be_fixed 32 0x9f64a747e1b97f131fabb6b447296c9b6f0201e79fb3c5356e6c77e89b6a806a.
Proof. vm_compute. reflexivity. Qed.
Example icrc3_array :
  @rih real_sha (VArray [VNat 3; VText "foo"; VBlob (be_fixed 2 0x0506)]) =
  be_fixed 32 0x514a04011caa503990d446b7dec5d79e19c221ae607fb08b2848c67734d468d6.
Proof. vm_compute. reflexivity. Qed.
Example icrc3_map :
  @rih real_sha (VMap
    [("amount", VNat 42); ("created_at", VNat 1699218263);
     ("from", VBlob (be_fixed 26 0x00abcdef0012340056789a00bcdef000012345678900abcdef01));
     ("memo", VNat 0);
     ("to", VBlob (be_fixed 26 0x00ab0def0012340056789a00bcdef000012345678900abcdef01))]) =
  be_fixed 32 0xc56ece650e1de4269c5bdeff7875949e3e2033f85b2d193c2ff4f7f78bdcfc75.
Proof. vm_compute. reflexivity. Qed.

(** ** The hypotheses are met: a ledger hashing with SHA-256 *)
Definition real_env : Env := @sha_env real_sha demo_prank.
Definition real_world : world := the_world (@history real_env T0 (100 * T) demo_init demo_events).
Example real_reachable : @reachable real_env real_world.
Proof. apply the_world_reachable. vm_compute. reflexivity. Qed.
Example real_log_length : length (blocks (w_led real_world)) = 10%nat.
Proof. vm_compute. reflexivity. Qed.
(** Ten blocks; the certificate, the witness and the values pass the check. *)
Example real_log_accepted :
  exists root, (icrc3_get_tip_certificate (w_led real_world)).1 = Some root
    /\ @chain_ok real_sha (served_log real_world)
    /\ @tip_ok real_sha root (witness (icrc3_get_tip_certificate (w_led real_world)).2)
         (served_log real_world).
Proof.
  apply (@C49_log_is_accepted real_sha demo_prank); [exact real_sha_ok|exact real_reachable|].
  vm_compute. discriminate.
Qed.
(** A witness in which one leaf is pruned is still a witness for the other. *)
Example pruned_witness `{Sha} h i :
  let hash_part := HLabeled "last_block_hash" (HLeaf h) in
  let index_part := HLabeled "last_block_index" (HLeaf i) in
  digest (HFork (HPruned (digest hash_part)) index_part) = digest (HFork hash_part index_part)
  /\ tree_lookup "last_block_index" (HFork (HPruned (digest hash_part)) index_part) = Some i.
Proof. split; reflexivity. Qed.
(** Two transactions of that log, in range, with different hashes *)
Definition real_tx (i : nat) : transaction := b_tx (block_at real_world i).
Example real_txs :
  tx_in_range (real_tx 2) /\ tx_in_range (real_tx 3)
  /\ @tx_hash real_env (real_tx 2) <> @tx_hash real_env (real_tx 3).
Proof.
  split; [eapply recorded_tx_in_range; [exact real_reachable|rewrite real_log_length; lia]|].
  split; [eapply recorded_tx_in_range; [exact real_reachable|rewrite real_log_length; lia]|].
  assert (bool_decide (@tx_hash real_env (real_tx 2) = @tx_hash real_env (real_tx 3)) = false) as E
    by (vm_compute; reflexivity).
  by apply bool_decide_eq_false in E.
Qed.
(** A retry on that ledger, answered [Duplicate] *)
Definition real_retry : event :=
  EvCall (T0 + 12 * sec) alice
    (CallTransfer None (acct bob) (2 * T) (Some FEE) (Some [Byte.x01]) (Some (T0 + 2 * sec))) None.
Example real_retry_is_duplicate :
  ev_ok real_world real_retry /\ duplicate_of (@step real_env real_world real_retry).2 = Some 2.
Proof. split; [apply ev_okb_ok|]; vm_compute; reflexivity. Qed.

Print Assumptions C48_transaction_hash.
Print Assumptions C48_block_hash.
Print Assumptions C48_duplicate_is_identical.
Print Assumptions C49_certificate_pins_log.
Print Assumptions C49_log_is_accepted.
Print Assumptions C49_same_certificate_same_log.
