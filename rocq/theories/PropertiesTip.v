(** * What a client gets out of the bytes of a tip certificate: C72 *)
From Coq Require Import Strings.String.
From Verif Require Import Base Types Codec CodecFacts Cbor State Ledger Canister Effects Spec ApiSpec Inv Steps World
  CodecProofs CborProofs ValueHash HashSpec TipBytes Sha256 HashProofs QueryFacts Demo
  PropertiesCodec PropertiesLog PropertiesHash PropertiesStored.

Local Open Scope string_scope.
Local Open Scope list_scope.
Local Open Scope N_scope.

(** ** The client, written from the IC interface specification

    hash-tree = [0] / [1 hash-tree hash-tree] / [2 bytes hash-tree] / [3 bytes] / [4 bytes],
    a pruned hash having 32 bytes. *)
Fixpoint read_tree (v : cvalue) : option htree :=
  match v with
  | CArray (CInteger z :: args) =>
      if (z =? 0)%Z then match args with [] => Some HEmpty | _ => None end
      else if (z =? 1)%Z then
        match args with
        | [l; r] =>
            match read_tree l, read_tree r with Some l', Some r' => Some (HFork l' r') | _, _ => None end
        | _ => None
        end
      else if (z =? 2)%Z then
        match args with
        | [CBytes k; t] =>
            match read_tree t with Some t' => Some (HLabeled (string_of_list_byte k) t') | None => None end
        | _ => None
        end
      else if (z =? 3)%Z then match args with [CBytes b] => Some (HLeaf b) | _ => None end
      else if (z =? 4)%Z then
        match args with
        | [CBytes h] => if (length h =? 32)%nat then Some (HPruned h) else None
        | _ => None
        end
      else None
  | _ => None
  end.
(** The whole of the bytes is one tree. *)
Definition parse_tree (bytes : list byte) : option htree :=
  match cbor_decode bytes with Some (v, []) => read_tree v | _ => None end.
(** The whole of the bytes is one LEB128 number. *)
Definition parse_index (bytes : list byte) : option N :=
  match leb128_read 0 bytes with Some (n, []) => Some n | _ => None end.

(** A domain separator: its length, then its letters. *)
Definition separator (n : N) (s : string) : list byte := byte_of n :: list_byte_of_string s.

Section WithSha.
Context `{Sha}.
Context (rank : principal -> N).

(** The root hash of a tree *)
Fixpoint client_digest (t : htree) : hash :=
  match t with
  | HEmpty => sha (separator 17 "ic-hashtree-empty")
  | HPruned h => h
  | HFork l r => sha (separator 16 "ic-hashtree-fork" ++ client_digest l ++ client_digest r)
  | HLabeled k t => sha (separator 19 "ic-hashtree-labeled" ++ list_byte_of_string k ++ client_digest t)
  | HLeaf b => sha (separator 16 "ic-hashtree-leaf" ++ b)
  end.
Lemma client_digest_eq t : client_digest t = digest t.
Proof.
  induction t as [|h|l IHl r IHr|k t IH|b]; cbn [client_digest digest]; [done|done| | |done].
  - by rewrite IHl, IHr.
  - by rewrite IH.
Qed.

(** Given the certified data, the client accepts a tree that hashes to it and reads index and
    hash of the last block off its leaves. *)
Definition client_tip (root : hash) (bytes : list byte) : option (N * hash) :=
  match parse_tree bytes with
  | Some t =>
      if bool_decide (client_digest t = root) then
        match tree_lookup "last_block_index" t, tree_lookup "last_block_hash" t with
        | Some i, Some h => match parse_index i with Some n => Some (n, h) | None => None end
        | _, _ => None
        end
      else None
  | None => None
  end.

(** ** Reading what was written *)
Fixpoint tree_small (t : htree) : Prop :=
  match t with
  | HFork l r => tree_small l /\ tree_small r
  | HLabeled k t => N.of_nat (length (str_bytes k)) < 2 ^ 64 /\ tree_small t
  | HLeaf b => N.of_nat (length b) < 2 ^ 64
  | _ => True
  end.
Lemma read_tree_written t : tree_ok t -> read_tree (tree_to_cbor t) = Some t.
Proof.
  induction t as [|h|l IHl r IHr|k t IH|b]; simpl.
  - done.
  - intros ->. done.
  - intros [? ?]. by rewrite IHl, IHr.
  - intros Ht. rewrite IH by done. unfold str_bytes. by rewrite string_of_list_byte_of_string.
  - done.
Qed.
Lemma tree_cbor_wf t : tree_ok t -> tree_small t -> cbor_wf (tree_to_cbor t).
Proof.
  assert (forall n : nat, (n <= 3)%nat -> is_u64 (N.of_nat n)) as H3.
  { intros n Hn. unfold is_u64, U64_MOD. lia. }
  induction t as [|h|l IHl r IHr|k t IH|b]; intros Hok Hs; apply cbor_wf_array;
    (split; [apply H3; simpl; lia|]); repeat constructor; cbn [tree_ok tree_small cbor_wf] in *; try lia.
  all: try (destruct Hok, Hs; by auto).
  all: try (destruct Hs; by auto).
  all: unfold is_u64, U64_MOD; change (2 ^ 64) with 18446744073709551616 in *; lia.
Qed.
Theorem C72_witness_bytes t :
  tree_ok t -> tree_small t -> parse_tree (cbor_encode (tree_to_cbor t)) = Some t.
Proof.
  intros Hok Hs. unfold parse_tree. rewrite <- (app_nil_r (cbor_encode _)).
  rewrite cbor_decode_encode by by apply tree_cbor_wf. by apply read_tree_written.
Qed.
Lemma read_tree_ok t v : read_tree v = Some t -> tree_ok t.
Proof.
  revert v. induction t as [|h|l IHl r IHr|k t IH|b]; intros v Hv; try exact I;
    destruct v as [| | | | | | |args|]; try done; destruct args as [|[z| | | | | | | |] args]; try done;
    cbn [read_tree] in Hv; repeat (case_match; try done); simplify_eq.
  - simpl. by apply Nat.eqb_eq.
  - split; eauto.
  - simpl. eauto.
Qed.

(** ** C72 *)
Lemma last_block_witness w b :
  @reachable (sha_env rank) w -> last (blocks (w_led w)) = Some b ->
  witness (hash_tree (w_led w)) =
    HFork (HLabeled "last_block_hash" (HLeaf (rih (block_to_value b))))
          (HLabeled "last_block_index" (HLeaf (leb128_u64 (N.of_nat (length (blocks (w_led w))) - 1))))
  /\ (@icrc3_get_tip_certificate (w_led w)).1 = Some (digest (witness (hash_tree (w_led w)))).
Proof.
  intros Hr El. pose proof (C06_tip_certificate w Hr) as Ht. unfold icrc3_get_tip_certificate in *.
  rewrite El in Ht. destruct Ht as [Htree Hdata]. split; [|exact Hdata].
  pose proof (Htree "last_block_index") as Ti. pose proof (Htree "last_block_hash") as Th.
  simpl in Ti, Th. unfold witness. by rewrite Ti, Th.
Qed.

(** From the bytes the ledger hands out a client learns the index and the hash of the
    last block. *)
Theorem C72_client_learns_tip w b :
  sha_ok -> @reachable (sha_env rank) w -> last (blocks (w_led w)) = Some b ->
  N.of_nat (length (blocks (w_led w))) <= 2 ^ 64 ->
  exists root, (@icrc3_get_tip_certificate (w_led w)).1 = Some root
    /\ client_tip root (tip_bytes (w_led w))
       = Some (N.of_nat (length (blocks (w_led w))) - 1, rih (block_to_value b)).
Proof.
  intros Hs Hr Hb Hl. destruct (last_block_witness w b Hr Hb) as [Hw Hroot].
  eexists. split; [exact Hroot|]. unfold client_tip, tip_bytes.
  assert (blocks (w_led w) <> []) as Hne by (by intros E; rewrite E in Hb).
  assert (length (blocks (w_led w)) <> 0%nat) as Hne0 by (by destruct (blocks (w_led w))).
  destruct (C38_leb128 (N.of_nat (length (blocks (w_led w))) - 1) []) as [Hread Hlen]; [lia|].
  rewrite app_nil_r in Hread.
  rewrite C72_witness_bytes.
  - rewrite bool_decide_eq_true_2 by (by rewrite client_digest_eq). rewrite Hw. simpl. unfold parse_index. by rewrite Hread.
  - by rewrite Hw.
  - rewrite Hw. cbn [tree_small]. split; split; [reflexivity| |reflexivity|].
    + rewrite (rih_length Hs). reflexivity.
    + change (2 ^ 64) with 18446744073709551616. lia.
Qed.

(** Whoever hands the client other bytes that it accepts makes it learn the same, unless
    SHA-256 collides. *)
Theorem C72_client_is_not_fooled w b root bytes n h :
  sha_ok -> @reachable (sha_env rank) w -> last (blocks (w_led w)) = Some b ->
  N.of_nat (length (blocks (w_led w))) <= 2 ^ 64 ->
  (@icrc3_get_tip_certificate (w_led w)).1 = Some root ->
  client_tip root bytes = Some (n, h) ->
  n = N.of_nat (length (blocks (w_led w))) - 1 /\ h = rih (block_to_value b)
  \/ exists t, parse_tree bytes = Some t
       /\ collision_in (tree_hashed t ++ tree_hashed (witness (icrc3_get_tip_certificate (w_led w)).2)).
Proof.
  intros Hs Hr Hb Hl Hroot Hc. destruct (last_block_witness w b Hr Hb) as [Hw Hroot'].
  rewrite Hroot in Hroot'. injection Hroot' as ->. unfold client_tip in Hc.
  destruct (parse_tree bytes) as [t|] eqn:Hp; [|done].
  destruct (inj_or_collision (tree_hashed t ++ tree_hashed (witness (hash_tree (w_led w))))) as [Hi|Hcol].
  2: { right. by exists t. }
  left. case_bool_decide as Hd; [|done]. rewrite client_digest_eq in Hd.
  assert (tree_ok t) as Hok.
  { unfold parse_tree in Hp. destruct (cbor_decode bytes) as [[v [|]]|]; try done. by eapply read_tree_ok. }
  destruct (tree_lookup "last_block_index" t) as [i'|] eqn:Li; [|done].
  destruct (tree_lookup "last_block_hash" t) as [h'|] eqn:Lh; [|done].
  rewrite Hw in Hi, Hd.
  eapply (digest_witness Hs) in Li; [|done|exact Hi|exact Hd].
  eapply (digest_witness Hs) in Lh; [|done|exact Hi|exact Hd].
  destruct Li as [[? _]|[_ ->]]; [done|]. destruct Lh as [[_ ->]|[? _]]; [|done].
  assert (length (blocks (w_led w)) <> 0%nat) as Hne0.
  { intros E. apply nil_length_inv in E. by rewrite E in Hb. }
  destruct (C38_leb128 (N.of_nat (length (blocks (w_led w))) - 1) []) as [Hread _]; [lia|].
  rewrite app_nil_r in Hread. unfold parse_index in Hc. rewrite Hread in Hc. by injection Hc as <- <-.
Qed.
End WithSha.

(** ** The hypotheses are met: the ledger of two blocks of [PropertiesStored.v], which
    hashes with SHA-256 *)
Example C72_case :
  @sha_ok nat_sha /\ @reachable (@sha_env nat_sha demo_prank) two_blocks
  /\ length (blocks (w_led two_blocks)) = 2%nat
  /\ (exists b, last (blocks (w_led two_blocks)) = Some b)
  /\ length (tip_bytes (w_led two_blocks)) = 79%nat
  /\ match (icrc3_get_tip_certificate (w_led two_blocks)).1 with
     | Some root => (@client_tip nat_sha root (tip_bytes (w_led two_blocks)) ≫= fun p => Some p.1) = Some 1
     | None => False
     end.
Proof.
  split; [exact (proj1 nat_sha_meets)|]. split; [exact (proj1 C70_case)|].
  split; [vm_compute; reflexivity|]. split; [vm_compute; eexists; reflexivity|]. vm_compute. split; reflexivity.
Qed.
(** A tree with other leaves and bytes cut short are not accepted. *)
Example C72_refused :
  match (icrc3_get_tip_certificate (w_led two_blocks)).1 with
  | Some root =>
      @client_tip nat_sha root (cbor_encode (tree_to_cbor
        (HFork (HLabeled "last_block_hash" (HLeaf [])) (HLabeled "last_block_index" (HLeaf [Byte.x05]))))) = None
      /\ @client_tip nat_sha root (take 78 (tip_bytes (w_led two_blocks))) = None
  | None => False
  end.
Proof. vm_compute. split; reflexivity. Qed.

Print Assumptions C72_witness_bytes.
Print Assumptions C72_client_learns_tip.
Print Assumptions C72_client_is_not_fooled.
