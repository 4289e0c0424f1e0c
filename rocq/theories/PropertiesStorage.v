(** * Storage is bounded by the log and paid for: C71 *)
From Verif Require Import Base Types Codec State Ledger Canister Effects Spec ApiSpec Inv Steps World
  PropertiesRefund PropertiesEarnings PropertiesExact Demo.

Local Open Scope list_scope.
Local Open Scope N_scope.

(** ** What a reader of the log counts *)

(** The account a block credits *)
Definition credits (b : block) : option account :=
  match tx_op (b_tx b) with
  | Mint to _ _ => Some to
  | Transfer _ to _ _ _ => Some to
  | _ => None
  end.
(** The owner and spender whose approval a block sets *)
Definition approves (b : block) : option (account * account) :=
  match tx_op (b_tx b) with
  | Approve from sp _ _ _ _ => Some (from, sp)
  | _ => None
  end.
(** The time a client stamped the transaction of a block with *)
Definition stamp (b : block) : option N := tx_created_at (b_tx b).
(** Number of blocks for which [f] is defined *)
Definition count {A} (f : block -> option A) (bs : list block) : N := N.of_nat (length (omap f bs)).

Section WithEnv.
Context `{Env}.

Lemma size_le_list `{Countable K} (X : gset K) (l : list K) : (forall k, k ∈ X -> k ∈ l) -> (size X <= length l)%nat.
Proof.
  intros Hin. transitivity (size (list_to_set l : gset K)).
  - apply subseteq_size. intros k Hk. apply elem_of_list_to_set. by apply Hin.
  - clear. induction l as [|x l IH]; [done|]. rewrite list_to_set_cons, size_union_alt, size_singleton. cbn [length].
    assert (size ((list_to_set l : gset K) ∖ {[x]}) <= size (list_to_set l : gset K))%nat;
      [apply subseteq_size; set_solver|lia].
Qed.
Lemma N2Nat_le a b : (a <= b)%nat -> N.of_nat a <= N.of_nat b.
Proof. lia. Qed.
Lemma count_le_length {A} (f : block -> option A) bs : count f bs <= N.of_nat (length bs).
Proof.
  unfold count, omap. induction bs as [|b bs IH]; simpl; [lia|]. destruct (f b); simpl; lia.
Qed.
Lemma count_disjoint {A B} (f : block -> option A) (g : block -> option B) bs :
  (forall b, f b = None \/ g b = None) -> count f bs + count g bs <= N.of_nat (length bs).
Proof.
  intros Hd. unfold count, omap. induction bs as [|b bs IH]; simpl; [lia|].
  destruct (Hd b) as [E|E]; rewrite E; [destruct (g b)|destruct (f b)]; simpl; lia.
Qed.

Lemma not_credited bs k :
  (forall b a, b ∈ bs -> credits b = Some a -> to_key a <> k) -> (log_balance bs k <= 0)%Z.
Proof.
  induction bs as [|b bs IH]; intros Hn; simpl; [lia|].
  assert (given b k = 0) as ->.
  { pose proof (fun a => Hn b a ltac:(constructor)) as Hb. unfold credits in Hb. unfold given.
    destruct (tx_op (b_tx b)); try done; destruct (decide _); [|done| |done]; subst; by edestruct Hb. }
  assert (log_balance bs k <= 0)%Z; [|lia]. apply IH. intros b' a Hb'. apply Hn. by constructor.
Qed.
Lemma credited_stored w k :
  reachable w -> is_Some (balances (w_led w) !! k) ->
  k ∈ omap (fun b => to_key <$> credits b) (blocks (w_led w)).
Proof.
  intros Hr Hk. apply (stored_reachable w Hr) in Hk as [Hb|Hm].
  - destruct (decide (k ∈ omap (fun b => to_key <$> credits b) (blocks (w_led w)))) as [|Hn]; [done|].
    exfalso. assert (log_balance (blocks (w_led w)) k <= 0)%Z as Hle.
    { apply not_credited. intros b a Hin Ha <-. apply Hn. apply elem_of_list_omap.
      exists b. by rewrite Ha. }
    rewrite <- (inv_balance _ _ (reachable_inv _ Hr)) in Hle. lia.
  - unfold last_move in Hm. apply last_Some_elem_of in Hm.
    apply elem_of_list_omap in Hm as (b & Hb & Hm). apply elem_of_list_omap. exists b. split; [done|].
    unfold moved in Hm. unfold credits. destruct (tx_op (b_tx b)); repeat (case_decide; simplify_eq); done.
Qed.
Lemma not_approved bs k o :
  (forall b p, b ∈ bs -> approves b = Some p -> (to_key p.1, to_key p.2) <> k) ->
  foldl (allowance_step k) o bs <> None -> o <> None.
Proof.
  revert o. induction bs as [|b bs IH]; intros o Hn; simpl; [done|]. intros Hl.
  apply IH in Hl; [|intros b' p Hb'; apply Hn; by constructor].
  pose proof (fun p => Hn b p ltac:(constructor)) as Hb. unfold approves in Hb.
  unfold allowance_step, approved_by, spent_by in Hl.
  destruct (tx_op (b_tx b)) as [| ? ? [] | ? [] |]; repeat (case_decide; simplify_eq); try done; try (by destruct o).
  by edestruct Hb.
Qed.
Lemma approved_stored w k :
  reachable w -> is_Some (approvals (w_led w) !! k) ->
  k ∈ omap (fun b => (fun p => (to_key p.1, to_key p.2)) <$> approves b) (blocks (w_led w)).
Proof.
  intros Hr [[a e] Hk].
  destruct (decide (k ∈ omap (fun b => (fun p => (to_key p.1, to_key p.2)) <$> approves b) (blocks (w_led w)))) as [|Hn]; [done|].
  exfalso. destruct (inv_allow _ _ (reachable_inv _ Hr) k) as [Ha _]. apply Ha in Hk.
  eapply (not_approved (blocks (w_led w)) k None); [|unfold log_allowance in Hk; by rewrite Hk|done].
  intros b p Hin Hp <-. apply Hn. apply elem_of_list_omap. exists b. by rewrite Hp.
Qed.
Lemma omap_fmap_length {A B} (f : block -> option A) (g : A -> B) bs :
  length (omap (fun b => g <$> f b) bs) = length (omap f bs).
Proof. unfold omap. induction bs as [|b bs IH]; simpl; [done|]. destruct (f b); simpl; by rewrite ?IH. Qed.
Fixpoint stamps (i : nat) (bs : list block) : list (N * N) :=
  match bs with
  | [] => []
  | b :: bs' => match stamp b with Some ts => [(ts, N.of_nat i)] | None => [] end ++ stamps (S i) bs'
  end.
Lemma stamps_length i bs : length (stamps i bs) = length (omap stamp bs).
Proof.
  unfold omap. revert i. induction bs as [|b bs IH]; intros i; simpl; [done|].
  rewrite app_length, IH. by destruct (stamp b).
Qed.
Lemma elem_of_stamps i bs j b ts :
  bs !! j = Some b -> stamp b = Some ts -> (ts, N.of_nat (i + j)) ∈ stamps i bs.
Proof.
  revert i j. induction bs as [|b' bs IH]; intros i j; [done|]. destruct j as [|j]; simpl.
  - intros [= ->] ->. rewrite Nat.add_0_r. by left.
  - intros Hj Hs. apply elem_of_app. right. replace (i + S j)%nat with (S i + j)%nat by lia. by apply IH.
Qed.

(** ** C71 *)

(** There is at most one balance per block that credits an account, at most one
    approval per block that sets one, and so on; balances and approvals together are no more
    than the blocks. *)
Theorem C71_storage_is_bounded w :
  reachable w ->
  let m := state_metrics (w_led w) in
  let log := blocks (w_led w) in
  m_blocks m = N.of_nat (length log)
  /\ m_balances m <= count credits log
  /\ m_approvals m <= count approves log
  /\ m_balances m + m_approvals m <= m_blocks m
  /\ m_expirations m <= m_approvals m
  /\ m_tx_hashes m <= m_tx_timestamps m
  /\ m_tx_timestamps m <= count stamp log.
Proof.
  intros Hr m log. pose proof (reachable_inv _ Hr) as Hi.
  assert (m_balances m <= count credits log) as Hb.
  { subst m. cbn [m_balances state_metrics]. unfold count.
    rewrite <- (omap_fmap_length credits to_key), <- (size_dom (D := gset akey)).
    apply N2Nat_le, size_le_list. intros k Hk%elem_of_dom. by apply credited_stored. }
  assert (m_approvals m <= count approves log) as Ha.
  { subst m. cbn [m_approvals state_metrics]. unfold count.
    rewrite <- (omap_fmap_length approves (fun p => (to_key p.1, to_key p.2))), <- (size_dom (D := gset apkey)).
    apply N2Nat_le, size_le_list. intros k Hk%elem_of_dom. by apply approved_stored. }
  assert (count credits log + count approves log <= N.of_nat (length log)) as Hd.
  { apply count_disjoint. intros b. unfold credits, approves. destruct (tx_op (b_tx b)); auto. }
  assert (m_blocks m = N.of_nat (length log)) as Hl by done.
  split; [done|]. split; [done|]. split; [done|]. split; [lia|]. clear Hb Ha Hd Hl.
  subst m. cbn [m_expirations m_approvals m_tx_hashes m_tx_timestamps state_metrics]. split; [|split].
  - apply N2Nat_le. change (size (approvals (w_led w))) with (length (map_to_list (approvals (w_led w)))).
    rewrite <- (map_length (fun p => (p.2.2, p.1))). apply size_le_list. intros [e k] Hk.
    apply (inv_queue _ _ Hi) in Hk as (_ & a & Hk). apply elem_of_list_fmap.
    exists (k, (a, e)). split; [done|]. by apply elem_of_map_to_list.
  - apply N2Nat_le. change (size (tx_timestamps (w_led w))) with (length (elements (tx_timestamps (w_led w)))).
    rewrite <- (size_dom (D := gset hash)), <- (map_length (fun p : N * N =>
      match blocks (w_led w) !! N.to_nat p.2 with Some b => txh (b_tx b) | None => [] end)).
    apply size_le_list. intros h [[j c] Hh]%elem_of_dom.
    destruct (inv_hashes _ _ Hi _ _ _ Hh) as [_ (ts & i & b & Hin & Hb & <-)].
    apply elem_of_list_fmap. exists (ts, i). simpl. rewrite Hb. split; [done|]. by apply elem_of_elements.
  - unfold count. rewrite <- (stamps_length 0). apply N2Nat_le, size_le_list. intros [ts j] Hin.
    destruct (inv_ts _ _ Hi _ _ Hin) as (b & _ & Hb & Hts & _).
    pose proof (elem_of_stamps 0 _ _ _ _ Hb Hts) as He. by rewrite Nat.add_0_l, N2Nat.id in He.
Qed.

(** And the fee has been paid for each: as long as no answer from another canister is
    exaggerated, the cycles the ledger holds for itself have grown by the fee for every
    balance and approval it keeps beyond the length of the log at the start. *)
Theorem C71_storage_is_paid_for w0 w :
  reachable w0 -> truthful_run w0 w ->
  let m := state_metrics (w_led w) in
  (backing w0 + Z.of_N icrc1_fee * (Z.of_N (m_balances m + m_approvals m) - log_length w0) <= backing w)%Z.
Proof.
  intros Hr0 Hrun m. pose proof (C64_backing_grows w0 w Hr0 Hrun) as Hg.
  assert (reachable w) as Hr by (clear Hg m; induction Hrun; [done|by constructor; auto]).
  destruct (C71_storage_is_bounded w Hr) as (Hl & _ & _ & Hs & _). fold m in Hl, Hs.
  assert (Z.of_N (m_balances m + m_approvals m) <= log_length w)%Z as Hle by (unfold log_length; lia).
  etransitivity; [|exact Hg]. apply Zplus_le_compat_l, Z.mul_le_mono_nonneg_l; lia.
Qed.
End WithEnv.

(** ** Cases *)

(** Ten blocks, three balances, one approval, two remembered transactions. *)
Example C71_case :
  reachable demo_world
  /\ (let m := state_metrics (w_led demo_world) in
      m_blocks m = 10 /\ m_balances m = 3 /\ m_approvals m = 1 /\ m_expirations m = 1
      /\ m_tx_hashes m = 2 /\ m_tx_timestamps m = 2)
  /\ count credits (blocks (w_led demo_world)) = 5
  /\ count approves (blocks (w_led demo_world)) = 2 /\ count stamp (blocks (w_led demo_world)) = 2.
Proof.
  split; [apply demo_reachable|]. vm_compute. repeat split; reflexivity.
Qed.

Print Assumptions C71_storage_is_bounded.
Print Assumptions C71_storage_is_paid_for.
