(** * What an indexer computes is what the ledger reports

    C51, C52 *)
From Verif Require Import Base Types Codec CodecFacts CodecProofs State Ledger Canister Effects Spec ApiSpec
  HashSpec ValueHash Sha256 HashProofs IndexerSpec Inv Steps World QueryFacts PropertiesLog PropertiesQuery PropertiesHash Demo.

Local Open Scope string_scope.
Local Open Scope list_scope.
Local Open Scope N_scope.

(** ** Reading the value of a block *)
Lemma be_number_eq l : be_number l = from_be l. Proof. reflexivity. Qed.
Lemma be_number_sub s : s < SUB_MOD -> be_number (sub_bytes s) = s.
Proof.
  intros Hs. unfold sub_bytes. rewrite be_number_eq.
  apply from_be_fixed. replace (256 ^ N.of_nat 32) with SUB_MOD by (vm_compute; reflexivity). exact Hs.
Qed.
Lemma read_account_value a : wf_account a -> read_account (account_to_value a) = Some (to_key a).
Proof.
  destruct a as [o [s|]]; intros [_ Hs]; simpl in *; [|done]. unfold to_key. simpl.
  by rewrite be_number_sub.
Qed.
Local Ltac flds :=
  unfold tx_to_value, field; cbn [tx_op tx_created_at tx_memo];
  repeat match goal with
  | |- context [opt_insert ?k (_ <$> ?o)] => is_var o; destruct o
  end; reflexivity.
Lemma tx_amt t :
  field "amt" (tx_to_value t) = Some (VNat match tx_op t with
    | Mint _ a _ => a | Transfer _ _ _ a _ => a | Burn _ _ a => a | Approve _ _ a _ _ _ => a end).
Proof. destruct t as [[] [c|] [m|]]; flds. Qed.
Lemma tx_fee t :
  field "fee" (tx_to_value t) = VNat <$> match tx_op t with
    | Mint _ _ f => Some f | Transfer _ _ _ _ f => f | Burn _ _ _ => None | Approve _ _ _ _ _ f => f end.
Proof. destruct t as [[] [c|] [m|]]; flds. Qed.
Lemma tx_from t :
  field "from" (tx_to_value t) = account_to_value <$> match tx_op t with
    | Mint _ _ _ => None | Transfer f _ _ _ _ => Some f | Burn f _ _ => Some f | Approve f _ _ _ _ _ => Some f end.
Proof. destruct t as [[] [c|] [m|]]; flds. Qed.
Lemma tx_to t :
  field "to" (tx_to_value t) = account_to_value <$> match tx_op t with
    | Mint x _ _ => Some x | Transfer _ x _ _ _ => Some x | _ => None end.
Proof. destruct t as [[] [c|] [m|]]; flds. Qed.
Lemma tx_spender t :
  field "spender" (tx_to_value t) = account_to_value <$> match tx_op t with
    | Mint _ _ _ => None | Transfer _ _ x _ _ => x | Burn _ x _ => x | Approve _ x _ _ _ _ => Some x end.
Proof. destruct t as [[] [c|] [m|]]; flds. Qed.
Lemma tx_expires t :
  field "expires_at" (tx_to_value t) = VNat <$> match tx_op t with
    | Approve _ _ _ _ e _ => e | _ => None end.
Proof. destruct t as [[] [c|] [m|]]; flds. Qed.

Lemma tx_of_block b : tx_of (block_to_value b) = tx_to_value (b_tx b).
Proof. unfold tx_of. by rewrite field_tx. Qed.
Lemma op_of_block b : op_of (block_to_value b) = match tx_op (b_tx b) with
    | Mint _ _ _ => "mint" | Transfer _ _ _ _ _ => "xfer" | Burn _ _ _ => "burn"
    | Approve _ _ _ _ _ _ => "approve" end.
Proof. unfold op_of, txt. by rewrite tx_of_block, tx_op_field. Qed.
Lemma amt_of_block b : amt_of (block_to_value b) = match tx_op (b_tx b) with
    | Mint _ a _ => a | Transfer _ _ _ a _ => a | Burn _ _ a => a | Approve _ _ a _ _ _ => a end.
Proof. unfold amt_of, num. by rewrite tx_of_block, tx_amt. Qed.
Lemma v_fee_block b : v_fee (block_to_value b) = fee_of b.
Proof.
  unfold v_fee, fee_of, num. rewrite field_fee, tx_of_block, tx_fee.
  destruct (b_effective_fee b); [done|]. by destruct (tx_op (b_tx b)) as [| ? ? ? ? []| | ? ? ? ? ? []].
Qed.
Lemma acc_value k v o :
  field k v = account_to_value <$> o -> wf_acct_opt o -> acc k v = to_key <$> o.
Proof.
  unfold acc. intros ->. destruct o; simpl; [|done]. apply read_account_value.
Qed.
Lemma acc_from b : wf_tx (b_tx b) -> acc "from" (tx_of (block_to_value b)) = to_key <$>
  match tx_op (b_tx b) with
    | Mint _ _ _ => None | Transfer f _ _ _ _ => Some f | Burn f _ _ => Some f | Approve f _ _ _ _ _ => Some f end.
Proof.
  intros (Hop & _). rewrite tx_of_block. apply acc_value; [apply tx_from|].
  destruct (tx_op (b_tx b)); simpl in *; tauto.
Qed.
Lemma acc_to b : wf_tx (b_tx b) -> acc "to" (tx_of (block_to_value b)) = to_key <$>
  match tx_op (b_tx b) with Mint x _ _ => Some x | Transfer _ x _ _ _ => Some x | _ => None end.
Proof.
  intros (Hop & _). rewrite tx_of_block. apply acc_value; [apply tx_to|].
  destruct (tx_op (b_tx b)); simpl in *; tauto.
Qed.
Lemma acc_spender b : wf_tx (b_tx b) -> acc "spender" (tx_of (block_to_value b)) = to_key <$>
  match tx_op (b_tx b) with
    | Mint _ _ _ => None | Transfer _ _ x _ _ => x | Burn _ x _ => x | Approve _ x _ _ _ _ => Some x end.
Proof.
  intros (Hop & _). rewrite tx_of_block. apply acc_value; [apply tx_spender|].
  destruct (tx_op (b_tx b)); simpl in *; tauto.
Qed.

Lemma v_given_block b k : wf_tx (b_tx b) -> v_given (block_to_value b) k = given b k.
Proof.
  intros Hw. unfold v_given, given, is_op. rewrite (acc_to b Hw), op_of_block, amt_of_block.
  destruct (tx_op (b_tx b)); cbn; try done; repeat case_decide; congruence.
Qed.
Lemma v_taken_block b k : wf_tx (b_tx b) -> v_taken (block_to_value b) k = taken b k.
Proof.
  intros Hw. unfold v_taken, taken, is_op. rewrite (acc_from b Hw), op_of_block, amt_of_block, v_fee_block.
  destruct (tx_op (b_tx b)); cbn; try done; repeat case_decide; congruence.
Qed.
Lemma v_balance_blocks bs k :
  Forall (fun b => wf_tx (b_tx b)) bs -> v_balance (map block_to_value bs) k = log_balance bs k.
Proof.
  induction 1 as [|b bs Hb _ IH]; [done|]. cbn. fold (v_balance (map block_to_value bs) k).
  by rewrite IH, v_given_block, v_taken_block.
Qed.
Lemma v_allowance_step_block f x cur b :
  wf_tx (b_tx b) ->
  v_allowance_step f x cur (block_to_value b) = allowance_step (f, x) cur b.
Proof.
  intros Hw. unfold v_allowance_step, allowance_step, approved_by, spent_by, is_op, num.
  rewrite (acc_from b Hw), (acc_spender b Hw), op_of_block, amt_of_block, v_fee_block, tx_of_block, tx_expires.
  destruct (tx_op (b_tx b)) as [to a fe|fr to [sp|] a fe|fr [sp|] a|fr sp a ea e fe]; cbn.
  - case_decide; [|done]. naive_solver.
  - repeat (case_decide; try naive_solver).
  - case_decide; [|done]. naive_solver.
  - repeat (case_decide; try naive_solver).
  - case_decide; [|done]. naive_solver.
  - destruct e; repeat (case_decide; try naive_solver).
Qed.
Lemma v_allowance_blocks bs f x now :
  Forall (fun b => wf_tx (b_tx b)) bs ->
  v_allowance (map block_to_value bs) f x now = live_allowance bs (f, x) now.
Proof.
  intros Hbs. unfold v_allowance, live_allowance, log_allowance.
  replace (foldl (v_allowance_step f x) None (map block_to_value bs))
    with (foldl (allowance_step (f, x)) None bs); [done|].
  generalize (@None (N * option N)) as cur. induction Hbs as [|b bs Hb _ IH]; intros cur; [done|].
  cbn. rewrite IH. by rewrite v_allowance_step_block.
Qed.

(** ** The supply *)
Definition mentioned (b : block) : list akey :=
  match tx_op (b_tx b) with
  | Mint to _ _ => [to_key to]
  | Transfer from to _ _ _ => [to_key from; to_key to]
  | Burn from _ _ => [to_key from]
  | Approve from _ _ _ _ _ => [to_key from]
  end.
Definition zsum {A} (f : A -> Z) (l : list A) : Z := foldr (fun x z => f x + z)%Z 0%Z l.
Lemma zsum_if (K : list akey) k0 n :
  NoDup K -> k0 ∈ K ->
  zsum (fun k => Z.of_N (if decide (k = k0) then n else 0)) K = Z.of_N n.
Proof.
  intros Hnd. induction Hnd as [|k K Hk Hnd IH]; intros Hin; [by apply elem_of_nil in Hin|].
  cbn. fold (zsum (fun k => Z.of_N (if decide (k = k0) then n else 0)) K).
  destruct (decide (k = k0)) as [->|Hne].
  - assert (zsum (fun k => Z.of_N (if decide (k = k0) then n else 0)) K = 0%Z) as ->; [|lia].
    clear IH Hin Hnd. induction K as [|k K IH]; [done|]. cbn.
    fold (zsum (fun k => Z.of_N (if decide (k = k0) then n else 0)) K).
    rewrite decide_False; [|intros ->; apply Hk; left]. rewrite IH; [done|]. intros ?. apply Hk. by right.
  - rewrite IH; [lia|]. by apply elem_of_cons in Hin as [->|].
Qed.
Lemma zsum_add {A} (f g : A -> Z) l : zsum (fun x => f x + g x)%Z l = (zsum f l + zsum g l)%Z.
Proof. induction l; cbn; [done|]. fold (zsum (fun x => (f x + g x)%Z) l) (zsum f l) (zsum g l). lia. Qed.
Lemma zsum_sub {A} (f g : A -> Z) l : zsum (fun x => f x - g x)%Z l = (zsum f l - zsum g l)%Z.
Proof. induction l; cbn; [done|]. fold (zsum (fun x => (f x - g x)%Z) l) (zsum f l) (zsum g l). lia. Qed.
Lemma zsum_zero {A} (l : list A) : zsum (fun _ => Z.of_N 0) l = 0%Z.
Proof. induction l; cbn; [done|]. done. Qed.
Lemma zsum_given K b :
  NoDup K -> (forall k, k ∈ mentioned b -> k ∈ K) ->
  (zsum (fun k => Z.of_N (given b k)) K - zsum (fun k => Z.of_N (taken b k)) K
   = Z.of_N (v_minted (block_to_value b)) - Z.of_N (v_burned (block_to_value b)))%Z.
Proof.
  intros Hnd Hin. unfold v_minted, v_burned, is_op, given, taken, mentioned in *.
  rewrite op_of_block, amt_of_block, v_fee_block.
  destruct (tx_op (b_tx b)); cbn;
    rewrite ?zsum_zero, ?zsum_if; try done; try (apply Hin; set_solver); lia.
Qed.
Lemma supply_of_log K bs :
  NoDup K -> (forall b k, b ∈ bs -> k ∈ mentioned b -> k ∈ K) ->
  zsum (log_balance bs) K = v_supply (map block_to_value bs).
Proof.
  intros Hnd. induction bs as [|b bs IH]; intros Hin.
  - cbn. clear. induction K; done.
  - cbn. fold (v_supply (map block_to_value bs)).
    rewrite zsum_add, zsum_sub, IH, zsum_given; [done|done|..].
    + intros k. apply Hin. left.
    + intros b' k Hb'. apply Hin. by right.
Qed.
Lemma log_balance_mentioned bs k :
  log_balance bs k <> 0%Z -> exists b, b ∈ bs /\ k ∈ mentioned b.
Proof.
  induction bs as [|b bs IH]; intros Hne; [done|]. cbn in Hne.
  destruct (decide (k ∈ mentioned b)) as [Hk|Hk]; [exists b; split; [left|done]|].
  destruct IH as (b' & Hb' & Hk'); [|exists b'; split; [by right|done]].
  assert (given b k = 0 /\ taken b k = 0) as [E1 E2]; [|rewrite E1, E2 in Hne; cbn in Hne; done].
  clear Hne. unfold given, taken, mentioned in *. destruct (tx_op (b_tx b)); split; try done;
    (case_decide as Hd; [|done]); exfalso; apply Hk; rewrite Hd, ?elem_of_cons; tauto.
Qed.

Section WithEnv.
Context `{Env}.

(** ** C51: an indexer that has fetched every block knows all balances,
    allowances and the supply. *)

(** [vs] are the blocks 0, 1, ... up to the reported length of the log, each taken
    from some answer of [icrc3_get_blocks]. *)
Definition fetched (w : world) (vs : list value) : Prop :=
  (forall args, br_log_length (icrc3_get_blocks (w_led w) args) = N.of_nat (length vs))
  /\ forall i v, vs !! i = Some v ->
       exists args, (N.of_nat i, v) ∈ br_blocks (icrc3_get_blocks (w_led w) args).

Lemma fetched_log w vs : fetched w vs -> vs = map block_to_value (blocks (w_led w)).
Proof.
  intros [Hl Hv]. destruct (C29_served_blocks_are_right w []) as (Hn & _).
  rewrite (Hl []) in Hn. apply Nat2N.inj in Hn. apply list_eq. intros i.
  change (map block_to_value) with (@fmap list _ block _ block_to_value). rewrite list_lookup_fmap.
  destruct (vs !! i) as [v|] eqn:Hi.
  - destruct (Hv i v Hi) as [args Ha].
    destruct (C29_served_blocks_are_right w args) as (_ & _ & Hs). destruct (Hs _ _ Ha) as [(b & Hb & ->) _].
    rewrite Nat2N.id in Hb. by rewrite Hb.
  - apply lookup_ge_None in Hi. rewrite Hn in Hi. apply lookup_ge_None in Hi. by rewrite Hi.
Qed.
Lemma blocks_wf w : reachable w -> Forall (fun b => wf_tx (b_tx b)) (blocks (w_led w)).
Proof.
  intros Hr. apply Forall_lookup. intros i b Hb.
  by destruct (inv_blk _ _ (reachable_inv _ Hr) _ _ Hb) as [(? & _) _].
Qed.

Lemma log_knows w a :
  reachable w -> let vs := map block_to_value (blocks (w_led w)) in
  Z.of_N (icrc1_balance_of (w_led w) a) = v_balance vs (to_key a)
  /\ Z.of_N (icrc1_total_supply (w_led w)) = v_supply vs
  /\ forall now sp, w_clock w <= now ->
       unexpired now (icrc2_allowance (w_led w) now a sp).2 ->
       icrc2_allowance (w_led w) now a sp = v_allowance vs (to_key a) (to_key sp) now.
Proof.
  intros Hr vs. pose proof (blocks_wf w Hr) as Hwf. split; [|split].
  - unfold vs. rewrite v_balance_blocks by done. by apply C02_log_determines_balances.
  - set (K := remove_dups (concat (map mentioned (blocks (w_led w))))).
    destruct (C01_supply_is_sum_of_balances w Hr) as (_ & _ & Hall).
    assert (forall k, to_key (of_key k) = k) as Hk by (by intros []).
    assert (to_key <$> (of_key <$> K) = K) as HK.
    { rewrite <- list_fmap_compose. rewrite <- (list_fmap_id K) at 2. apply list_fmap_ext. intros ? k _. apply Hk. }
    rewrite (Hall (of_key <$> K)).
    + unfold vs. rewrite <- (supply_of_log K).
      * clear -Hr Hk. induction K as [|k K IH]; [done|]. cbn.
        fold (sum_over (icrc1_balance_of (w_led w)) (of_key <$> K)) (zsum (log_balance (blocks (w_led w))) K).
        rewrite N2Z.inj_add, IH. f_equal. rewrite <- (Hk k) at 2. by apply C02_log_determines_balances.
      * apply NoDup_remove_dups.
      * intros b k Hb Hkb. apply elem_of_remove_dups, elem_of_list_In, in_concat.
        exists (mentioned b). split; [|by apply elem_of_list_In]. apply in_map. by apply elem_of_list_In.
    + rewrite HK. apply NoDup_remove_dups.
    + intros x Hx. rewrite HK. apply elem_of_remove_dups.
      destruct (log_balance_mentioned (blocks (w_led w)) (to_key x)) as (b & Hb & Hkb).
      { rewrite <- C02_log_determines_balances by done. lia. }
      apply elem_of_list_In, in_concat. exists (mentioned b). split; [|by apply elem_of_list_In].
      apply in_map. by apply elem_of_list_In.
  - intros now sp Hn Hu. unfold vs. rewrite v_allowance_blocks by done.
    destruct (C03_log_determines_live_allowances w a sp now Hr Hn) as [|(x & _ & E)]; [done|].
    rewrite E in Hu. simpl in Hu. lia.
Qed.

Theorem C51_fetched_log_determines_balances w vs a :
  reachable w -> fetched w vs ->
  Z.of_N (icrc1_balance_of (w_led w) a) = v_balance vs (to_key a).
Proof. intros Hr ->%fetched_log. by apply log_knows. Qed.
Theorem C51_fetched_log_determines_supply w vs :
  reachable w -> fetched w vs -> Z.of_N (icrc1_total_supply (w_led w)) = v_supply vs.
Proof. intros Hr ->%fetched_log. by apply (log_knows w (Acct [] None)). Qed.
Theorem C51_fetched_log_determines_allowances w vs now from sp :
  reachable w -> fetched w vs -> w_clock w <= now ->
  unexpired now (icrc2_allowance (w_led w) now from sp).2 ->
  icrc2_allowance (w_led w) now from sp = v_allowance vs (to_key from) (to_key sp) now.
Proof. intros Hr ->%fetched_log. by apply log_knows. Qed.

(** All of the log can be fetched, block by block if need be, as long as at
    least one block is served per request. *)
Theorem C51_log_can_be_fetched w :
  let n := N.of_nat (length (blocks (w_led w))) in
  let max := max_blocks_per_request (cfg (w_led w)) in
  0 < max -> n + max <= 2 ^ 64 -> exists vs, fetched w vs.
Proof.
  cbv zeta. intros Hm Hn. exists (map block_to_value (blocks (w_led w))). split.
  - intros args. destruct (C29_served_blocks_are_right w args) as (-> & _). by rewrite map_length.
  - intros i v Hv. change (map block_to_value) with (@fmap list _ block _ block_to_value) in Hv. rewrite list_lookup_fmap in Hv.
    apply fmap_Some in Hv as (b & Hb & ->). exists [(N.of_nat i, 1)].
    pose proof (C29_single_range_partial w (N.of_nat i) 1 Hn ltac:(lia)) as Hs.
    pose proof (lookup_lt_Some _ _ _ Hb) as Hlt.
    replace (N.min _ _) with 1 in Hs by lia.
    assert (N.of_nat i ∈ (br_blocks (icrc3_get_blocks (w_led w) [(N.of_nat i, 1)])).*1) as Hin.
    { rewrite Hs. apply elem_of_seqN. lia. }
    apply elem_of_list_fmap in Hin as ([j v] & Ej & Hin). simpl in Ej. subst j.
    destruct (C29_served_blocks_are_right w [(N.of_nat i, 1)]) as (_ & _ & Hr).
    destruct (Hr _ _ Hin) as [(b' & Hb' & ->) _]. rewrite Nat2N.id in Hb'. by rewrite Hb in Hb'; injection Hb' as <-.
Qed.
End WithEnv.

(** ** C52: the same from a list of values a client got from anywhere, once it
    has checked them against the tip certificate (C49), or SHA-256 collides. *)
Theorem C52_verified_log_determines_ledger `{Sha} (rank : principal -> N) w root t vs :
  sha_ok -> @reachable (sha_env rank) w ->
  (@icrc3_get_tip_certificate (w_led w)).1 = Some root ->
  N.of_nat (length vs) <= 2 ^ 64 -> N.of_nat (length (blocks (w_led w))) <= 2 ^ 64 ->
  chain_ok vs -> tip_ok root t vs ->
  ((forall a, Z.of_N (icrc1_balance_of (w_led w) a) = v_balance vs (to_key a))
   /\ Z.of_N (icrc1_total_supply (w_led w)) = v_supply vs
   /\ forall now a sp, w_clock w <= now -> unexpired now (icrc2_allowance (w_led w) now a sp).2 ->
        icrc2_allowance (w_led w) now a sp = v_allowance vs (to_key a) (to_key sp) now)
  \/ collision_in (tree_hashed t ++ tree_hashed (witness (icrc3_get_tip_certificate (w_led w)).2)
                   ++ concat (map hashed vs) ++ concat (map hashed (served_log w))).
Proof.
  intros Hs Hr Hroot Hl1 Hl2 Hc Ht.
  destruct (C49_certificate_pins_log rank w root t vs Hs Hr Hroot Hl1 Hl2 Hc Ht) as [->|Hx]; [left|by right].
  unfold served_log. split; [|split].
  - intros a. by apply (@log_knows (sha_env rank)).
  - by apply (@log_knows (sha_env rank) w (Acct [] None)).
  - intros now a sp. by apply (@log_knows (sha_env rank)).
Qed.

(** ** Cases that meet the hypotheses *)
Definition demo_fetched : list value := (br_blocks (icrc3_get_blocks (w_led demo_world) [(0, 20)])).*2.
Example C51_case :
  reachable demo_world /\ fetched demo_world demo_fetched
  /\ length demo_fetched = 10%nat
  /\ v_balance demo_fetched (to_key (acct alice)) = Z.of_N (icrc1_balance_of (w_led demo_world) (acct alice))
  /\ (0 < v_balance demo_fetched (to_key (acct alice)) < v_supply demo_fetched)%Z
  /\ v_allowance demo_fetched (to_key (acct alice)) (to_key (acct bob)) (T0 + 20 * sec)
     = icrc2_allowance (w_led demo_world) (T0 + 20 * sec) (acct alice) (acct bob)
  /\ 0 < (v_allowance demo_fetched (to_key (acct alice)) (to_key (acct bob)) (T0 + 20 * sec)).1
  /\ unexpired (T0 + 20 * sec) (icrc2_allowance (w_led demo_world) (T0 + 20 * sec) (acct alice) (acct bob)).2.
Proof.
  split; [apply demo_reachable|].
  assert (length demo_fetched = 10%nat) as Hlen by (vm_compute; reflexivity).
  split.
  - split; [intros args; rewrite Hlen; vm_compute; reflexivity|].
    intros i v Hv. exists [(0, 20)]. unfold demo_fetched in Hv. rewrite list_lookup_fmap in Hv.
    apply fmap_Some in Hv as ([j v'] & Hj & ->). simpl.
    assert (j = N.of_nat i) as ->; [|by eapply elem_of_list_lookup_2].
    assert ((br_blocks (icrc3_get_blocks (w_led demo_world) [(0, 20)])).*1 = seqN 0 10) as Hs
      by (vm_compute; reflexivity).
    assert ((br_blocks (icrc3_get_blocks (w_led demo_world) [(0, 20)])).*1 !! i = Some j) as Hi
      by (by rewrite list_lookup_fmap, Hj).
    rewrite Hs in Hi. unfold seqN in Hi. rewrite list_lookup_fmap in Hi.
    apply fmap_Some in Hi as (x & Hx & ->). apply lookup_seq in Hx. lia.
  - split; [exact Hlen|]. clear Hlen. split; [vm_compute; reflexivity|].
    split; [split; vm_compute; reflexivity|]. split; [vm_compute; reflexivity|].
    split; vm_compute; reflexivity.
Qed.
(** C52: on the ledger of [PropertiesHash.v] that hashes with SHA-256, the served
    log and the ledger's witness pass the checks. *)
Example C52_case :
  @sha_ok real_sha /\ @reachable (@sha_env real_sha demo_prank) real_world
  /\ N.of_nat (length (served_log real_world)) <= 2 ^ 64
  /\ exists root, (icrc3_get_tip_certificate (w_led real_world)).1 = Some root
       /\ @chain_ok real_sha (served_log real_world)
       /\ @tip_ok real_sha root (witness (icrc3_get_tip_certificate (w_led real_world)).2)
            (served_log real_world).
Proof.
  split; [exact real_sha_ok|]. split; [exact real_reachable|]. split; [|exact real_log_accepted].
  unfold served_log. rewrite map_length, real_log_length. discriminate.
Qed.

Print Assumptions C51_fetched_log_determines_balances.
Print Assumptions C51_fetched_log_determines_supply.
Print Assumptions C51_fetched_log_determines_allowances.
Print Assumptions C51_log_can_be_fetched.
Print Assumptions C52_verified_log_determines_ledger.
