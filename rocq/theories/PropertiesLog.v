(** * Properties of the log, the balances and the allowances it records

    C01 C02 C03 C04 C05 C06 C33 C34 C42 *)
From Verif Require Import Base Types Codec State Ledger Canister Effects Spec Inv Steps World
  QueryFacts Demo.

Section WithEnv.
Context `{Env}.

(** ** C01: total supply is the sum of all balances *)
Lemma sum_over_app {A} (f : A -> N) l1 l2 : sum_over f (l1 ++ l2) = sum_over f l1 + sum_over f l2.
Proof. induction l1 as [|x l1 IH]; simpl; [done|]. rewrite IH. lia. Qed.
Lemma sum_over_perm {A} (f : A -> N) l1 l2 : l1 ≡ₚ l2 -> sum_over f l1 = sum_over f l2.
Proof. induction 1; simpl; lia. Qed.
Lemma sum_over_ext {A} (f g : A -> N) l :
  (forall x, x ∈ l -> f x = g x) -> sum_over f l = sum_over g l.
Proof.
  induction l as [|x l IH]; simpl; intros Hfg; [done|].
  rewrite Hfg, IH; [done| |left]. intros y Hy. apply Hfg. by right.
Qed.
Lemma sum_over_fmap {A B} (g : A -> B) (f : B -> N) l :
  sum_over f (g <$> l) = sum_over (fun x => f (g x)) l.
Proof. induction l as [|x l IH]; [done|]. simpl. f_equal. apply IH. Qed.

Lemma map_sum_keys (m : gmap akey N) (ks : list akey) :
  NoDup ks -> (forall k, default 0 (m !! k) <> 0 -> k ∈ ks) ->
  map_sum m = sum_over (fun k => default 0 (m !! k)) ks.
Proof.
  revert m. induction ks as [|k ks IH]; intros m Hnd Hin; simpl.
  - assert (forall k, default 0 (m !! k) = 0) as H0.
    { intros k. destruct (N.eq_dec (default 0 (m !! k)) 0) as [|Hk]; [done|].
      apply Hin in Hk. by apply elem_of_nil in Hk. }
    clear -H0. induction m as [|k v m Hk IH] using map_ind; [done|].
    pose proof (H0 k) as Hv. rewrite lookup_insert in Hv. simpl in Hv.
    rewrite map_sum_insert_new by done. rewrite IH; [lia|].
    intros k'. specialize (H0 k'). destruct (decide (k' = k)) as [->|].
    + by rewrite Hk.
    + by rewrite lookup_insert_ne in H0.
  - apply NoDup_cons in Hnd as [Hk Hnd].
    rewrite <- (map_sum_delete m k). rewrite (IH (delete k m)); [|done|].
    + rewrite N.add_comm. f_equal. apply sum_over_ext. intros k' Hk'.
      rewrite lookup_delete_ne; [done|]. by intros ->.
    + intros k' Hk'. destruct (decide (k' = k)) as [->|Hne].
      * by rewrite lookup_delete in Hk'.
      * rewrite lookup_delete_ne in Hk' by done. apply Hin in Hk'.
        apply elem_of_cons in Hk' as [|]; done.
Qed.

Theorem C01_supply_is_sum_of_balances w :
  reachable w ->
  icrc1_total_supply (w_led w) < 2 ^ 128
  /\ (exists accts : list account,
        NoDup (to_key <$> accts)
        /\ (forall a, icrc1_balance_of (w_led w) a <> 0 -> to_key a ∈ to_key <$> accts)
        /\ icrc1_total_supply (w_led w) = sum_over (icrc1_balance_of (w_led w)) accts)
  /\ (forall accts : list account,
        NoDup (to_key <$> accts) ->
        (forall a, icrc1_balance_of (w_led w) a <> 0 -> to_key a ∈ to_key <$> accts) ->
        icrc1_total_supply (w_led w) = sum_over (icrc1_balance_of (w_led w)) accts).
Proof.
  intros Hr. destruct (inv_supply _ _ (reachable_inv _ Hr)) as [Hsum Hlt].
  assert (forall accts : list account,
        NoDup (to_key <$> accts) ->
        (forall a, icrc1_balance_of (w_led w) a <> 0 -> to_key a ∈ to_key <$> accts) ->
        icrc1_total_supply (w_led w) = sum_over (icrc1_balance_of (w_led w)) accts) as Hall.
  { intros accts Hnd Hin. unfold icrc1_total_supply. rewrite Hsum.
    rewrite (map_sum_keys _ (to_key <$> accts) Hnd).
    - by rewrite sum_over_fmap.
    - intros k Hk. specialize (Hin (of_key k)). destruct k. by apply Hin. }
  split; [exact Hlt|]. split; [|done].
  exists (of_key <$> (map_to_list (balances (w_led w))).*1).
  assert (to_key <$> (of_key <$> (map_to_list (balances (w_led w))).*1)
          = (map_to_list (balances (w_led w))).*1) as Heq.
  { rewrite <- list_fmap_compose. rewrite <- (list_fmap_id ((map_to_list _).*1)) at 2.
    apply list_fmap_ext. intros i [o sub] _. done. }
  assert (NoDup (to_key <$> (of_key <$> (map_to_list (balances (w_led w))).*1))) as Hnd.
  { rewrite Heq. apply NoDup_fst_map_to_list. }
  assert (forall a, icrc1_balance_of (w_led w) a <> 0 ->
     to_key a ∈ to_key <$> (of_key <$> (map_to_list (balances (w_led w))).*1)) as Hin.
  { intros a Ha. rewrite Heq. unfold icrc1_balance_of, balance_of, bal in Ha.
    destruct (balances (w_led w) !! to_key a) as [n|] eqn:E; [|done].
    apply elem_of_list_fmap. exists (to_key a, n). split; [done|]. by apply elem_of_map_to_list. }
  split; [done|]. split; [done|]. by apply Hall.
Qed.

(** ** C02: the log determines every balance *)
Theorem C02_log_determines_balances w a :
  reachable w ->
  Z.of_N (icrc1_balance_of (w_led w) a) = log_balance (blocks (w_led w)) (to_key a).
Proof. intros Hr. apply (inv_balance _ _ (reachable_inv _ Hr)). Qed.

(** ** C03: the log determines every live allowance *)
Lemma allowance_vs_log w now k :
  reachable w -> w_clock w <= now ->
  match log_allowance (blocks (w_led w)) k with
  | None => approvals (w_led w) !! k = None
  | Some (a, x) =>
      approvals (w_led w) !! k = Some (a, default 0 x) /\ x <> Some 0
      \/ (approvals (w_led w) !! k = None /\ exists e, x = Some e /\ e <= now)
  end.
Proof.
  intros Hr Hn. destruct (inv_allow _ _ (reachable_inv _ Hr) k) as [H1 H2].
  destruct (log_allowance _ k) as [[a x]|] eqn:E.
  - destruct (H2 a x eq_refl) as [Hk|(Hk & e & -> & He)].
    + left. split; [done|]. apply H1 in Hk. injection Hk as Hx. rewrite Hx.
      unfold exp_opt. destruct (N.eqb_spec (default 0 x) 0); congruence.
    + right. split; [done|]. exists e. split; [done|lia].
  - destruct (approvals (w_led w) !! k) as [[a e]|] eqn:Ek; [|done].
    specialize (H1 a e eq_refl). done.
Qed.

(** Except at the very instant of expiry, where the answer may still show the
    approval. *)
Theorem C03_log_determines_live_allowances w from spender now :
  reachable w -> w_clock w <= now ->
  icrc2_allowance (w_led w) now from spender =
    live_allowance (blocks (w_led w)) (to_key from, to_key spender) now
  \/ (exists a, log_allowance (blocks (w_led w)) (to_key from, to_key spender) = Some (a, Some now)
        /\ icrc2_allowance (w_led w) now from spender = (a, Some now)).
Proof.
  intros Hr Hn. pose proof (allowance_vs_log w now (approval_key from spender) Hr Hn) as Hk.
  unfold approval_key in Hk.
  unfold live_allowance, icrc2_allowance, allowance, approval_key.
  destruct (log_allowance _ _) as [[a x]|].
  - destruct (decide (unexpired now x)) as [Hu|Hu].
    + destruct Hk as [[-> Hx]|[-> (e & -> & He)]]; simpl in *; [|lia].
      left. destruct x as [e|]; simpl in *; [|done].
      destruct (N.ltb_spec 0 e); [|lia]. destruct (N.ltb_spec e now); [lia|].
      simpl. destruct (N.ltb_spec 0 e); [done|lia].
    + destruct Hk as [[-> Hx]|[-> (e & -> & He)]]; simpl in *; [|by left].
      destruct x as [e|]; simpl in *; [|done].
      destruct (N.ltb_spec 0 e); [|exfalso; apply Hx; f_equal; lia]. simpl.
      destruct (N.ltb_spec e now); simpl; [by left|].
      assert (e = now) as -> by lia. right. exists a. split; [done|].
      destruct (N.ltb_spec 0 now); [done|lia].
  - left. by rewrite Hk.
Qed.

(** ** C04: the log is append-only *)
Theorem C04_log_append_only w tr w' :
  reachable w -> steps w tr w' ->
  blocks (w_led w) `prefix_of` blocks (w_led w')
  /\ (forall args args',
        br_log_length (icrc3_get_blocks (w_led w) args)
          <= br_log_length (icrc3_get_blocks (w_led w') args'))
  /\ (forall args args' i v v',
        (i, v) ∈ br_blocks (icrc3_get_blocks (w_led w) args) ->
        (i, v') ∈ br_blocks (icrc3_get_blocks (w_led w') args') -> v' = v).
Proof.
  intros Hr Hs. pose proof (steps_prefix _ _ _ Hr Hs) as Hp. split; [done|]. split.
  - intros args args'. simpl. unfold nblocks. apply prefix_length in Hp. lia.
  - intros args args' i v v' (b & Hb & ->)%get_blocks_sound (b' & Hb' & ->)%get_blocks_sound.
    rewrite (prefix_lookup _ _ _ _ Hb Hp) in Hb'. by injection Hb' as <-.
Qed.

(** ** C05: the served log is a hash chain *)
Theorem C05_hash_chain w i b :
  reachable w -> blocks (w_led w) !! i = Some b ->
  match i with
  | O => field "phash" (block_to_value b) = None
  | S j => exists b0, blocks (w_led w) !! j = Some b0
             /\ field "phash" (block_to_value b) = Some (VBlob (vhash (block_to_value b0)))
  end.
Proof.
  intros Hr Hb. rewrite field_phash, (inv_chain _ _ (reachable_inv _ Hr) _ _ Hb).
  destruct i as [|j]; [done|].
  destruct (blocks (w_led w) !! j) as [b0|] eqn:E.
  - exists b0. done.
  - apply lookup_ge_None in E. apply lookup_lt_Some in Hb. lia.
Qed.

(** ** C06: the tip certificate describes the last block *)
Theorem C06_tip_certificate w :
  reachable w ->
  let (data, tree) := icrc3_get_tip_certificate (w_led w) in
  match last (blocks (w_led w)) with
  | None => tree = ∅ /\ data = None
  | Some b =>
      (forall k, tree !! k =
         if String.eqb k "last_block_index" then
           Some (leb128_u64 (N.of_nat (length (blocks (w_led w))) - 1))
         else if String.eqb k "last_block_hash" then Some (vhash (block_to_value b))
         else None)
      /\ data = Some (troot tree)
  end.
Proof.
  intros Hr. unfold icrc3_get_tip_certificate.
  rewrite (inv_cert _ _ (reachable_inv _ Hr)), (inv_tree _ _ (reachable_inv _ Hr)).
  unfold tree_of. destruct (last (blocks (w_led w))) as [b|] eqn:El.
  - split; [|by destruct (blocks (w_led w))].
    intros k. unfold populate_tree.
    destruct (String.eqb_spec k "last_block_index") as [->|Hne].
    + rewrite lookup_insert_ne by done. by rewrite lookup_insert.
    + destruct (String.eqb_spec k "last_block_hash") as [->|Hne2]; [by rewrite lookup_insert|].
      rewrite lookup_insert_ne by done. by rewrite lookup_insert_ne.
  - apply last_None in El as ->. done.
Qed.

(** ** C33: the management canister, whose principal is the empty byte string, and
    same-owner allowances *)
Theorem C33_denied_parties w :
  reachable w ->
  (forall i b, blocks (w_led w) !! i = Some b ->
     match tx_op (b_tx b) with
     | Transfer from to sp _ _ =>
         owner from <> [] /\ owner to <> []
         /\ match sp with Some x => owner x <> [] | None => True end
     | Approve from sp _ _ _ _ =>
         owner from <> [] /\ owner sp <> []
         /\ owner from <> owner sp
     | _ => True
     end)
  /\ (forall now from sp, icrc2_allowance (w_led w) now from sp <> (0, None) ->
        owner from <> [] /\ owner sp <> []
        /\ owner from <> owner sp).
Proof.
  intros Hr. split.
  - intros i b Hb. destruct (inv_blk _ _ (reachable_inv _ Hr) _ _ Hb) as [(_ & _ & _ & Hs & _) _].
    destruct (tx_op (b_tx b)); simpl in Hs; naive_solver.
  - intros now from sp. unfold icrc2_allowance, allowance.
    destruct (approvals (w_led w) !! approval_key from sp) as [[a e]|] eqn:E.
    + intros _. apply (inv_appr _ _ (reachable_inv _ Hr)) in E as (_ & _ & _ & ? & ? & ? & _).
      done.
    + simpl. done.
Qed.

(** ** C34: timestamps and well-formedness of blocks *)
Definition charged (op : operation) : N := match op with Mint _ _ _ => 0 | _ => icrc1_fee end.
Theorem C34_blocks_well_formed w :
  reachable w ->
  (forall i j bi bj, (i <= j)%nat -> blocks (w_led w) !! i = Some bi ->
     blocks (w_led w) !! j = Some bj -> b_timestamp bi <= b_timestamp bj)
  /\ (forall i b, blocks (w_led w) !! i = Some b ->
        b_timestamp b <= w_clock w /\ b_timestamp b < 2 ^ 64
        /\ match tx_memo (b_tx b) with Some m => (length m <= 32)%nat | None => True end
        /\ match tx_created_at (b_tx b) with Some c => c < 2 ^ 64 | None => True end
        /\ match tx_op (b_tx b) with
           | Mint _ a f => a < 2 ^ 128 /\ f < 2 ^ 128
           | Transfer _ _ _ a _ => a < 2 ^ 128
           | Burn _ _ a => a < 2 ^ 128
           | Approve _ _ a _ x _ =>
               a < 2 ^ 128 /\ match x with Some e => b_timestamp b < e < 2 ^ 64 | None => True end
           end
        /\ fee_of b = charged (tx_op (b_tx b))).
Proof.
  intros Hr. pose proof (reachable_inv _ Hr) as Hi. split; [apply (inv_time _ _ Hi)|].
  intros i b Hb. destruct (inv_blk _ _ Hi _ _ Hb) as [((Hop & Hc & Hm & _) & Hu & Hf & Hst & _) Hclk].
  split; [done|]. split; [done|]. split.
  { destruct (tx_memo (b_tx b)); [|done]. unfold validate_memo, MAX_MEMO_LENGTH in Hm. lia. }
  split; [done|]. split.
  { destruct (tx_op (b_tx b)) as [| | |from sp a ea ex f]; simpl in Hop, Hst;
      unfold is_u128, U128_MOD in *; change (2 ^ 128) with 340282366920938463463374607431768211456;
      try tauto.
    split; [tauto|]. destruct ex as [e|]; [|done]. simpl in *. unfold is_u64, U64_MOD in *.
    change (2 ^ 64) with 18446744073709551616. tauto. }
  rewrite fee_of_ok by done. unfold charged, op_fee, icrc1_fee. by destruct (tx_op (b_tx b)).
Qed.

(** ** C42: spending through an allowance is bounded by what was approved *)

(** What [b] draws on the allowance of pair [k]. *)
Definition drawn (k : apkey) (b : block) : N :=
  match spent_by b with
  | Some (k', n) => if decide (k' = k) then n else 0
  | None => 0
  end.
Definition sets_allowance (k : apkey) (b : block) : Prop :=
  exists a x, approved_by b = Some (k, (a, x)).

Lemma approved_not_spent b k a x : approved_by b = Some (k, (a, x)) -> spent_by b = None.
Proof. unfold approved_by, spent_by. destruct (tx_op (b_tx b)); done. Qed.

Lemma drawn_bound k bs rest a :
  (forall i b n, rest !! i = Some b -> spent_by b = Some (k, n) ->
     exists a' x', log_allowance (bs ++ take i rest) k = Some (a', x') /\ n <= a') ->
  (forall i b, rest !! i = Some b -> ~ sets_allowance k b) ->
  default 0 (fst <$> log_allowance bs k) <= a ->
  sum_over (drawn k) rest <= a.
Proof.
  revert bs a. induction rest as [|b rest IH]; intros bs a Hsp Hno Ha; simpl; [lia|].
  assert (drawn k b <= default 0 (fst <$> log_allowance bs k)
          /\ default 0 (fst <$> log_allowance (bs ++ [b]) k)
             = default 0 (fst <$> log_allowance bs k) - drawn k b) as [H1 H2].
  { unfold log_allowance at 2. rewrite foldl_app. simpl. fold (log_allowance bs k).
    unfold allowance_step, drawn.
    destruct (approved_by b) as [[k' [a' x']]|] eqn:Ea.
    - rewrite (approved_not_spent _ _ _ _ Ea).
      destruct (decide (k = k')) as [<-|]; [|split; lia].
      exfalso. apply (Hno 0%nat b); [done|]. by exists a', x'.
    - destruct (spent_by b) as [[k' n]|] eqn:Es; [|split; lia].
      destruct (decide (k = k')) as [<-|]; [|rewrite decide_False by congruence; split; lia].
      rewrite decide_True by done.
      destruct (Hsp 0%nat b n eq_refl Es) as (a' & x' & Hl & Hn). simpl in Hl.
      rewrite app_nil_r in Hl. rewrite Hl. simpl. split; [done|].
      destruct (N.eqb_spec (a' - n) 0); simpl; lia. }
  assert (sum_over (drawn k) rest <= a - drawn k b) as Hle; [apply (IH (bs ++ [b]))|].
  - intros i b' n Hi Hs'. destruct (Hsp (S i) b' n Hi Hs') as (a' & x' & Hl & Hn).
    exists a', x'. split; [|done]. simpl in Hl. by rewrite <- app_assoc.
  - intros i b' Hi. by apply (Hno (S i)).
  - rewrite H2. lia.
  - unfold sum_over in *. lia.
Qed.

Theorem C42_spends_bounded_by_approval w k pre b seg post a x :
  reachable w ->
  blocks (w_led w) = pre ++ [b] ++ seg ++ post ->
  approved_by b = Some (k, (a, x)) ->
  (forall b', b' ∈ seg -> ~ sets_allowance k b') ->
  sum_over (drawn k) seg <= a.
Proof.
  intros Hr Hbs Hb Hseg.
  apply (drawn_bound k (pre ++ [b])).
  - intros i b' n Hi Hs.
    destruct (inv_spends _ _ (reachable_inv _ Hr) (length (pre ++ [b]) + i)%nat b' k n)
      as (a' & x' & Hl & Hn & _); [|done|].
    + rewrite Hbs, app_assoc, lookup_app_r by lia.
      replace (length (pre ++ [b]) + i - length (pre ++ [b]))%nat with i by lia.
      apply lookup_app_l_Some. done.
    + exists a', x'. split; [|done]. rewrite Hbs in Hl.
      rewrite app_assoc in Hl. rewrite take_add_app in Hl by done.
      apply lookup_lt_Some in Hi. rewrite take_app_le in Hl by lia. done.
  - intros i b' Hi. apply Hseg. by eapply elem_of_list_lookup_2.
  - unfold log_allowance. rewrite foldl_app. simpl. unfold allowance_step at 1. rewrite Hb.
    rewrite decide_True by done. destruct (N.eqb_spec a 0); simpl; lia.
Qed.

End WithEnv.

(** ** The hypotheses are met *)
Example demo_supply : icrc1_total_supply (w_led demo_world) = 14999100000000.
Proof. vm_compute. reflexivity. Qed.
Example demo_log : length (blocks (w_led demo_world)) = 10%nat.
Proof. vm_compute. reflexivity. Qed.
Example demo_live_allowance :
  live_allowance (blocks (w_led demo_world)) (to_key (acct alice), to_key (acct bob))
    (w_clock demo_world) = (3999600000000, Some (T0 + 3600 * sec)).
Proof. vm_compute. reflexivity. Qed.
Example demo_spend_segment :
  exists pre b seg post a x,
    blocks (w_led demo_world) = pre ++ [b] ++ seg ++ post
    /\ approved_by b = Some ((to_key (acct alice), to_key (acct bob)), (a, x))
    /\ sum_over (drawn (to_key (acct alice), to_key (acct bob))) seg = 2 * (T + FEE).
Proof.
  exists (take 3 (blocks (w_led demo_world))).
  destruct (blocks (w_led demo_world) !! 3%nat) as [b|] eqn:E; [|by vm_compute in E].
  exists b, (take 4 (drop 4 (blocks (w_led demo_world)))), (drop 8 (blocks (w_led demo_world))),
    (5 * T), (Some (T0 + 3600 * sec)).
  vm_compute in E. injection E as <-. split; [|split]; vm_compute; reflexivity.
Qed.

Print Assumptions C01_supply_is_sum_of_balances.
Print Assumptions C02_log_determines_balances.
Print Assumptions C03_log_determines_live_allowances.
Print Assumptions C04_log_append_only.
Print Assumptions C05_hash_chain.
Print Assumptions C06_tip_certificate.
Print Assumptions C33_denied_parties.
Print Assumptions C34_blocks_well_formed.
Print Assumptions C42_spends_bounded_by_approval.
