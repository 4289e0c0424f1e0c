(** * Upgrades

    Property C31. *)
From Verif Require Import Base Types Codec CodecFacts State Ledger Canister Effects Spec ApiSpec Inv
  Steps World Demo.

(** ** Specification *)
Section WithEnv.
Context `{Env}.

(** Two ledger states that no query about tokens, allowances or blocks tells
    apart; they may differ in configuration. *)
Definition same_answers (s1 s2 : state) : Prop :=
  (forall a, icrc1_balance_of s2 a = icrc1_balance_of s1 a)
  /\ icrc1_total_supply s2 = icrc1_total_supply s1
  /\ (forall now from sp, icrc2_allowance s2 now from sp = icrc2_allowance s1 now from sp)
  /\ (forall now caller from prev n,
        icrc103_get_allowances s2 now caller from prev n = icrc103_get_allowances s1 now caller from prev n)
  /\ blocks s2 = blocks s1
  /\ icrc3_get_tip_certificate s2 = icrc3_get_tip_certificate s1
  /\ state_metrics s2 = state_metrics s1.

(** The configuration an upgrade argument asks for. *)
Definition upgraded (args : option ledger_args) (c : config) : config :=
  match args with
  | Some (LUpgrade (Some u)) =>
      Config (default (max_blocks_per_request c) (ua_max_blocks_per_request u))
        (match ua_change_index_id u with
         | None => index_id c
         | Some Unset => None
         | Some (SetTo p) => Some p
         end)
        (initial_balances c)
  | _ => c
  end.

(** The responses to a sequence of events. *)
Fixpoint responses (w : world) (evs : list event) : list response :=
  match evs with
  | [] => []
  | ev :: evs' => (step w ev).2 :: responses (step w ev).1 evs'
  end.
Fixpoint after (w : world) (evs : list event) : world :=
  match evs with
  | [] => w
  | ev :: evs' => after (step w ev).1 evs'
  end.
(** No event is the answer to an outgoing call made before call number [n]. *)
Definition no_old_answers (n : N) (evs : list event) : Prop :=
  Forall (fun ev => match ev with EvReply _ id _ _ => n <= id | EvCrash _ id _ => n <= id | _ => True end) evs.

(** ** States that differ in configuration and heap log only *)
Definition strip (s : state) : state := set_cfg default_config (set_p0 [] s).
Definition sim (s1 s2 : state) : Prop := strip s1 = strip s2.
Lemma sim_alt s1 s2 : sim s1 s2 -> exists c l, s2 = set_cfg c (set_p0 l s1).
Proof.
  intros Hs. exists (cfg s2), (p0 s2). destruct s1, s2. unfold sim, strip in Hs. cbn in Hs.
  injection Hs as -> -> -> -> -> -> -> -> -> ->. done.
Qed.
Lemma sim_set c l s : sim s (set_cfg c (set_p0 l s)).
Proof. by destruct s. Qed.

Definition msim {E A} (m : M E A) : Prop :=
  forall s c l, sim (m s).1 (m (set_cfg c (set_p0 l s))).1
    /\ (m (set_cfg c (set_p0 l s))).2 = (m s).2.
Lemma msim_sim {E A} (m : M E A) s1 s2 : msim m -> sim s1 s2 -> sim (m s1).1 (m s2).1 /\ (m s2).2 = (m s1).2.
Proof. intros Hm (c & l & ->)%sim_alt. apply Hm. Qed.

Lemma msim_ret {E A} (a : A) : msim (ret (E:=E) a).
Proof. intros s c l. by destruct s. Qed.
Lemma msim_throw {E A} (e : E) : msim (throw (A:=A) e).
Proof. intros s c l. by destruct s. Qed.
Lemma msim_trap {E A} t : msim (trap_with (E:=E) (A:=A) t).
Proof. intros s c l. by destruct s. Qed.
Lemma msim_bind {E A B} (m : M E A) (k : A -> M E B) :
  msim m -> (forall a, msim (k a)) -> msim (bindM m k).
Proof.
  intros Hm Hk s c l. unfold bindM. destruct (Hm s c l) as [H1 H2].
  destruct (m s) as [s1 o1], (m (set_cfg c (set_p0 l s))) as [s2 o2]. simpl in H1, H2. subst o2.
  destruct o1; [|done|done]. by apply msim_sim.
Qed.
Lemma msim_gets {E A} (f : state -> A) :
  (forall s c l, f (set_cfg c (set_p0 l s)) = f s) -> msim (gets (E:=E) f).
Proof. intros Hf s c l. unfold gets. simpl. rewrite Hf. split; [apply sim_set|done]. Qed.
Lemma msim_lift {E A} (f : state -> result E A) :
  (forall s c l, f (set_cfg c (set_p0 l s)) = f s) -> msim (lift f).
Proof.
  intros Hf s c l. unfold lift. rewrite Hf. destruct (f s); (split; [apply sim_set|done]).
Qed.
Lemma msim_modify {E} (f : state -> state) :
  (forall s c l, sim (f s) (f (set_cfg c (set_p0 l s)))) -> msim (modify (E:=E) f).
Proof. intros Hf s c l. unfold modify. simpl. split; [apply Hf|done]. Qed.
Lemma msim_map_err {E E' A} (f : E -> E') (m : M E A) : msim m -> msim (map_err f m).
Proof.
  intros Hm s c l. unfold map_err. destruct (Hm s c l) as [H1 H2].
  destruct (m s) as [s1 o1], (m (set_cfg c (set_p0 l s))) as [s2 o2]. simpl in H1, H2. subst o2.
  by destruct o1.
Qed.
Lemma msim_map_err_trap {E E' A} (f : E -> E' + trap) (m : M E A) : msim m -> msim (map_err_trap f m).
Proof.
  intros Hm s c l. unfold map_err_trap. destruct (Hm s c l) as [H1 H2].
  destruct (m s) as [s1 o1], (m (set_cfg c (set_p0 l s))) as [s2 o2]. simpl in H1, H2. subst o2.
  destruct o1; [done| |done]. by destruct (f e).
Qed.
Lemma msim_or_trap {E E' A} t (m : M E A) : msim m -> msim (or_trap (E':=E') t m).
Proof.
  intros Hm s c l. unfold or_trap. destruct (Hm s c l) as [H1 H2].
  destruct (m s) as [s1 o1], (m (set_cfg c (set_p0 l s))) as [s2 o2]. simpl in H1, H2. subst o2.
  by destruct o1.
Qed.
Lemma msim_as_reply {E A} wrap (m : M E A) : msim m -> msim (as_reply wrap m).
Proof.
  intros Hm s c l. unfold as_reply. destruct (Hm s c l) as [H1 H2].
  destruct (m s) as [s1 o1], (m (set_cfg c (set_p0 l s))) as [s2 o2]. simpl in H1, H2. subst o2.
  by destruct o1.
Qed.
Lemma msim_check_duplicate t : msim (check_duplicate t).
Proof. intros s c l. unfold check_duplicate. destruct (tx_hash t); [|by destruct s]. simpl. by destruct (tx_hashes s !! _) as [[]|]. Qed.
Lemma msim_emit_block {E} b : msim (emit_block (E:=E) b).
Proof. intros s c l. unfold emit_block. destruct (tx_hash (b_tx b)), (tx_created_at (b_tx b)); by destruct s. Qed.
Lemma msim_credit a n : msim (credit a n).
Proof.
  intros s c l. unfold credit. change (balance_of (set_cfg c (set_p0 l s)) a) with (balance_of s a).
  change (total_supply (set_cfg c (set_p0 l s))) with (total_supply s).
  destruct (u128_checked_add (balance_of s a) n), (u128_checked_add (total_supply s) n); done.
Qed.
Lemma msim_debit a n : msim (debit a n).
Proof.
  intros s c l. unfold debit. change (balance_of (set_cfg c (set_p0 l s)) a) with (balance_of s a).
  change (total_supply (set_cfg c (set_p0 l s))) with (total_supply s).
  destruct (u128_checked_sub (balance_of s a) n), (u128_checked_sub (total_supply s) n); done.
Qed.
Lemma sim_record_approval f p n x s c l :
  sim (record_approval f p n x s) (record_approval f p n x (set_cfg c (set_p0 l s))).
Proof.
  unfold record_approval. cbn [approvals set_cfg set_p0].
  destruct (approvals s !! approval_key f p) as [[? cur]|]; repeat case_match; done.
Qed.
Lemma sim_prune_approvals now limit s1 s2 :
  sim s1 s2 -> sim (prune_approvals now limit s1) (prune_approvals now limit s2).
Proof.
  revert s1 s2. induction limit as [|n IH]; intros s1 s2 Hs; [done|].
  destruct (sim_alt _ _ Hs) as (c & l & ->). cbn [prune_approvals].
  change (first_expiry (set_cfg c (set_p0 l s1))) with (first_expiry s1).
  destruct (first_expiry s1) as [[t k]|]; [|done]. destruct (now <? t); [done|].
  apply IH. change (approvals (set_cfg c (set_p0 l s1))) with (approvals s1).
  destruct (approvals s1 !! k); done.
Qed.
Lemma sim_prune_transactions now limit s1 s2 :
  sim s1 s2 -> sim (prune_transactions now limit s1) (prune_transactions now limit s2).
Proof.
  revert s1 s2. induction limit as [|n IH]; intros s1 s2 Hs; [done|].
  destruct (sim_alt _ _ Hs) as (c & l & ->). cbn [prune_transactions].
  change (first_timestamp (set_cfg c (set_p0 l s1))) with (first_timestamp s1).
  destruct (first_timestamp s1) as [[t k]|]; [|done]. destruct (negb _); [done|].
  apply IH. unfold prune_tx_hash. cbn [blocks set_cfg set_p0 set_tx_timestamps tx_hashes tx_timestamps].
  destruct (blocks s1 !! N.to_nat k); [|done]. destruct (tx_hash (b_tx b)); [|done].
  destruct (tx_hashes s1 !! h) as [[]|]; [|done]. destruct (_ =? _); done.
Qed.
Lemma sim_prune_state now s c l : sim (prune_state now s) (prune_state now (set_cfg c (set_p0 l s))).
Proof.
  unfold prune_state.
  pose proof (sim_prune_transactions now TRANSACTION_PRUNE_LIMIT _ _
    (sim_prune_approvals now APPROVE_PRUNE_LIMIT _ _ (sim_set c l s))) as Hs.
  revert Hs. generalize (prune_transactions now TRANSACTION_PRUNE_LIMIT
    (prune_approvals now APPROVE_PRUNE_LIMIT s)).
  generalize (prune_transactions now TRANSACTION_PRUNE_LIMIT
    (prune_approvals now APPROVE_PRUNE_LIMIT (set_cfg c (set_p0 l s)))).
  intros s2 s1 (c' & l' & ->)%sim_alt. unfold check_invariants. cbn [approvals exp_queue set_cfg set_p0].
  destruct (_ <? _)%nat; done.
Qed.

Create HintDb msim discriminated.
Ltac msim1 := match goal with
  | |- forall _, _ => intro
  | |- msim (ret _) => apply msim_ret
  | |- msim (throw _) => apply msim_throw
  | |- msim (trap_with _) => apply msim_trap
  | |- msim (check_duplicate _) => apply msim_check_duplicate
  | |- msim (emit_block _) => apply msim_emit_block
  | |- msim (credit _ _) => apply msim_credit
  | |- msim (debit _ _) => apply msim_debit
  | |- msim (map_err _ _) => apply msim_map_err
  | |- msim (map_err_trap _ _) => apply msim_map_err_trap
  | |- msim (or_trap _ _) => apply msim_or_trap
  | |- msim (as_reply _ _) => apply msim_as_reply
  | |- msim (gets _) => apply msim_gets; reflexivity
  | |- msim (lift _) => apply msim_lift; reflexivity
  | |- msim (modify (prune_state _)) => apply msim_modify; intros; apply sim_prune_state
  | |- msim (modify (record_approval _ _ _ _)) => apply msim_modify; intros; apply sim_record_approval
  | |- msim (modify _) => apply msim_modify; intros; reflexivity
  | |- msim (bindM _ _) => apply msim_bind
  | |- msim (if ?b then _ else _) => destruct b
  | |- msim (match ?x with _ => _ end) => destruct x
  | |- msim (let x := ?v in _) => progress cbv zeta
  | |- msim _ => solve [eauto with msim nocore]
  end.
Ltac msim := repeat msim1.
Lemma msim_prune {E} now : msim (prune (E:=E) now).
Proof. unfold prune. msim. Qed.
Local Hint Resolve msim_prune : msim.
Lemma msim_use_allowance f p n now : msim (use_allowance f p n now).
Proof. unfold use_allowance. msim. Qed.
Local Hint Resolve msim_use_allowance : msim.
Lemma msim_process t now : msim (process_transaction t now).
Proof. unfold process_transaction. msim. Qed.
Local Hint Resolve msim_process : msim.
Lemma msim_mint to n m now : msim (mint to n m now).
Proof.
  intros s c l. unfold mint. change (check_credit (set_cfg c (set_p0 l s)) to n) with (check_credit s to n).
  destruct (check_credit s to n); [|done]. 
  assert (msim (let! i := map_err (fun _ => tt) (process_transaction (Tx (Mint to n FEE) None m) now) in
                do! or_trap TrapMint (credit to n) in ret i)) as Hm by msim.
  apply Hm.
Qed.
Local Hint Resolve msim_mint : msim.
Lemma msim_transfer f t sp n m now cr fee : msim (transfer f t sp n m now cr fee).
Proof. unfold transfer. msim. Qed.
Local Hint Resolve msim_transfer : msim.
Lemma msim_approve f sp n m now cr fee ex exp : msim (approve f sp n m now cr fee ex exp).
Proof. unfold approve. msim. Qed.
Local Hint Resolve msim_approve : msim.
Lemma msim_execute_transfer now f t sp n fee m cr : msim (execute_transfer now f t sp n fee m cr).
Proof. unfold execute_transfer. msim. Qed.
Local Hint Resolve msim_execute_transfer : msim.
Lemma msim_execute_approve now f sp n ex exp fee m cr : msim (execute_approve now f sp n ex exp fee m cr).
Proof. unfold execute_approve. msim. Qed.
Local Hint Resolve msim_execute_approve : msim.
Lemma msim_deposit now n to m : msim (ep_deposit now n to m).
Proof. unfold ep_deposit, deposit. msim. Qed.
Local Hint Resolve msim_deposit : msim.
Lemma msim_execute_withdraw now ep f to sp n cr : msim (execute_withdraw now ep f to sp n cr).
Proof. unfold execute_withdraw, withdraw_start. msim. Qed.
Local Hint Resolve msim_execute_withdraw : msim.
Lemma msim_execute_create now ep ca f sp n cr a : msim (execute_create now ep ca f sp n cr a).
Proof. unfold execute_create, create_start. msim. Qed.
Local Hint Resolve msim_execute_create : msim.
Lemma msim_reimburse a n now m : msim (reimburse a n now m).
Proof. unfold reimburse. msim. Qed.
Local Hint Resolve msim_reimburse : msim.
Lemma msim_reimburse_approval f sp n old now : msim (reimburse_approval f sp n old now).
Proof. unfold reimburse_approval. msim. Qed.
Local Hint Resolve msim_reimburse_approval : msim.
Lemma msim_withdraw_finish f sp n i old now r : msim (withdraw_finish f sp n i old now r).
Proof.
  unfold withdraw_finish. msim.
Qed.
Local Hint Resolve msim_withdraw_finish : msim.
Lemma msim_create_finish f sp n i old cr now r : msim (create_finish f sp n i old cr now r).
Proof.
  unfold create_finish. msim.
  apply msim_modify. intros s c l.
  cbn [tx_hashes set_cfg set_p0]. destruct (tx_hashes s !! _); done.
Qed.
Local Hint Resolve msim_create_finish : msim.
Lemma msim_resume now p ans k : resume now p ans = Some k -> msim k.
Proof.
  unfold resume. destruct p, ans; try done; intros [= <-]; unfold withdraw_reply, create_reply;
    msim.
Qed.

(** ** Events *)
Lemma commit_sim s1 s2 (m : M Empty_set reply) :
  sim s1 s2 -> msim m ->
  sim (commit s1 (m s1)).1 (commit s2 (m s2)).1 /\ (commit s2 (m s2)).2 = (commit s1 (m s1)).2.
Proof.
  intros Hs Hm. destruct (msim_sim m s1 s2 Hm Hs) as [H1 H2].
  destruct (m s1) as [t1 o1], (m s2) as [t2 o2]. simpl in H1, H2. subst o2. destruct o1 as [|[]|]; done.
Qed.
Lemma start_async_sim {E} now avail sync (fail : M E pending -> M Empty_set reply) m s1 s2 :
  sim s1 s2 -> msim m -> msim (fail m) ->
  sim (start_async now avail sync fail m s1).1 (start_async now avail sync fail m s2).1
  /\ (start_async now avail sync fail m s2).2 = (start_async now avail sync fail m s1).2.
Proof.
  intros Hs Hm Hf. unfold start_async. destruct (msim_sim m s1 s2 Hm Hs) as [H1 H2].
  destruct (commit_sim s1 s2 (fail m) Hs Hf) as [F1 F2].
  destruct (m s1) as [t1 o1], (m s2) as [t2 o2]. simpl in H1, H2. subst o2.
  assert (forall x1 x2 : state * response, sim x1.1 x2.1 -> x2.2 = x1.2 ->
    sim (let (a, r) := x1 in (a, Done r)).1 (let (a, r) := x2 in (a, Done r)).1
    /\ (let (a, r) := x2 in (a, Done r)).2 = (let (a, r) := x1 in (a, Done r)).2) as Hpair.
  { intros [a1 r1] [a2 r2]. simpl. by intros ? ->. }
  destruct o1 as [p|e|t]; [|by apply Hpair|by apply Hpair].
  destruct (match sync with Some e => Some e | None => if avail <? pending_amount p then Some SELiquid else None end)
    as [e|]; [|done].
  destruct (resume now p (sync_answer p e)) as [k|] eqn:Ek; [|done].
  apply Hpair; (destruct (msim_sim k t1 t2 (msim_resume _ _ _ _ Ek) H1) as [K1 K2];
    destruct (k t1) as [u1 q1], (k t2) as [u2 q2]; simpl in K1, K2; subst q2; destruct q1 as [|[]|]; done).
Qed.
Lemma exec_call_sim now avail caller c sync s1 s2 :
  sim s1 s2 ->
  sim (exec_call now avail caller c sync s1).1 (exec_call now avail caller c sync s2).1
  /\ (exec_call now avail caller c sync s2).2 = (exec_call now avail caller c sync s1).2.
Proof.
  intros Hs. 
  assert (forall m, msim m ->
    sim (let (s', r) := commit s1 (m s1) in (s', Done r)).1 (let (s', r) := commit s2 (m s2) in (s', Done r)).1
    /\ (let (s', r) := commit s2 (m s2) in (s', Done r)).2 = (let (s', r) := commit s1 (m s1) in (s', Done r)).2) as Hsync.
  { intros m Hm. destruct (commit_sim s1 s2 m Hs Hm) as [H1 H2].
    destruct (commit s1 (m s1)), (commit s2 (m s2)). simpl in *. by subst. }
  unfold exec_call. destruct c.
  - apply Hsync, msim_deposit.
  - apply Hsync, msim_as_reply, msim_map_err_trap, msim_execute_transfer.
  - apply Hsync, msim_as_reply, msim_execute_transfer.
  - apply Hsync, msim_as_reply, msim_execute_approve.
  - apply start_async_sim; [done|apply msim_execute_withdraw|].
    unfold fail_withdraw, withdraw_reply. msim.
  - apply start_async_sim; [done|apply msim_execute_withdraw|].
    unfold fail_withdraw, withdraw_reply. msim.
  - apply start_async_sim; [done|apply msim_execute_create|].
    unfold fail_create, create_reply. msim.
  - apply start_async_sim; [done|apply msim_execute_create|].
    unfold fail_create, create_reply. msim.
Qed.

Definition wsim (n : N) (w1 w2 : world) : Prop :=
  sim (w_led w1) (w_led w2) /\ w_next w2 = w_next w1 /\ n <= w_next w1 /\ w_cycles w2 = w_cycles w1
  /\ forall id, n <= id -> w_pend w2 !! id = w_pend w1 !! id.

Lemma reload_sim s1 s2 : sim s1 s2 -> sim (reload s1) (reload s2).
Proof.
  intros (c & l & ->)%sim_alt. unfold reload. cbn [blocks set_cfg set_p0].
  destruct (compute_last_block_hash_and_hash_tree (blocks s1)). done.
Qed.
Lemma post_upgrade_sim args s1 s2 :
  sim s1 s2 ->
  sim (post_upgrade args s1).1 (post_upgrade args s2).1
  /\ (post_upgrade args s2).2 = (post_upgrade args s1).2.
Proof.
  intros Hs. destruct (post_upgrade args s1) as [t1 o1] eqn:E1, (post_upgrade args s2) as [t2 o2] eqn:E2.
  destruct (post_upgrade_cfg _ _ _ _ E1) as [c1 ->], (post_upgrade_cfg _ _ _ _ E2) as [c2 ->].
  split; [destruct (sim_alt _ _ Hs) as (c & l & ->); done|]. simpl.
  revert E1 E2. unfold post_upgrade, bindM, modify, ret. destruct args as [[c|[u|]]|]; try (intros [= ? <-] [= ? <-]; done).
  destruct (ua_max_blocks_per_request u), (ua_change_index_id u); intros [= ? <-] [= ? <-]; done.
Qed.

Lemma step_sim n w1 w2 ev :
  wsim n w1 w2 -> match ev with EvReply _ id _ _ => n <= id | EvCrash _ id _ => n <= id | _ => True end ->
  wsim n (step w1 ev).1 (step w2 ev).1 /\ (step w2 ev).2 = (step w1 ev).2.
Proof.
  intros (Hs & Hn & Hle & Hc & Hp) Hev. destruct ev as [now caller c sync|now id ans refund|now args|k|k|now id refund].
  - cbn [step]. rewrite Hc.
    destruct (exec_call_sim now (w_cycles w1) caller c sync _ _ Hs) as [H1 H2].
    destruct (exec_call now (w_cycles w1) caller c sync (w_led w1)) as [t1 r1].
    destruct (exec_call now (w_cycles w1) caller c sync (w_led w2)) as [t2 r2]. simpl in H1, H2. subst r2.
    destruct r1 as [r|p].
    + split; [|done]. split; [done|]. split; [done|]. split; [done|]. split; [done|done].
    + rewrite Hn. split; [|done]. split; [done|]. split; [done|]. split; [simpl; lia|].
      split; [done|]. intros id Hid. cbn [fst w_pend].
      destruct (decide (w_next w1 = id)) as [->|Hne]; [by rewrite !lookup_insert|].
      rewrite !lookup_insert_ne by done. by apply Hp.
  - cbn [step]. rewrite (Hp id Hev). destruct (w_pend w1 !! id) as [p|]; [|done].
    destruct (resume now p ans) as [k|] eqn:Ek; [|done].
    destruct (commit_sim _ _ k Hs (msim_resume _ _ _ _ Ek)) as [H1 H2].
    destruct (commit (w_led w1) (k (w_led w1))) as [t1 r1], (commit (w_led w2) (k (w_led w2))) as [t2 r2].
    simpl in H1, H2. subst r2. split; [|done]. split; [done|]. split; [done|]. split; [done|].
    split; [simpl; by rewrite Hc|]. intros id' Hid'. cbn [fst w_pend].
    destruct (decide (id = id')) as [->|Hne]; [by rewrite !lookup_delete|].
    rewrite !lookup_delete_ne by done. by apply Hp.
  - cbn [step]. destruct (post_upgrade_sim args _ _ (reload_sim _ _ Hs)) as [H1 H2].
    destruct (post_upgrade args (reload (w_led w1))) as [t1 o1], (post_upgrade args (reload (w_led w2))) as [t2 o2].
    simpl in H1, H2. subst o2. destruct o1 as [|[]|].
    + split; [|done]. split; [done|]. split; [done|]. split; [done|]. split; [done|done].
    + split; [|done]. split; [done|]. split; [done|]. split; [done|]. split; [done|done].
  - split; [|done]. split; [done|]. split; [done|]. split; [done|]. split; [simpl; by rewrite Hc|done].
  - split; [|done]. split; [done|]. split; [done|]. split; [done|]. split; [simpl; by rewrite Hc|done].
  - cbn [step]. rewrite (Hp id Hev). destruct (w_pend w1 !! id) as [p|]; [|done].
    split; [|done]. split; [done|]. split; [done|]. split; [done|].
    split; [simpl; by rewrite Hc|]. intros id' Hid'. cbn [fst w_pend].
    destruct (decide (id = id')) as [->|Hne]; [by rewrite !lookup_delete|].
    rewrite !lookup_delete_ne by done. by apply Hp.
Qed.
Lemma responses_sim n w1 w2 evs :
  wsim n w1 w2 -> no_old_answers n evs ->
  responses w2 evs = responses w1 evs /\ wsim n (after w1 evs) (after w2 evs).
Proof.
  intros Hw Hevs. revert w1 w2 Hw. induction Hevs as [|ev evs Hev Hevs IH]; intros w1 w2 Hw; [done|].
  destruct (step_sim n w1 w2 ev Hw Hev) as [H1 H2]. cbn [responses after]. rewrite H2.
  destruct (IH _ _ H1) as [-> ?]. done.
Qed.
Lemma sim_answers s1 s2 : sim s1 s2 -> same_answers s1 s2.
Proof. intros (c & l & ->)%sim_alt. done. Qed.

(** ** C31 *)

(** An upgrade keeps every answer about tokens, allowances and blocks, the
    memory of recent transactions, and the cycles; it sets the configuration its
    argument asks for and forgets outgoing calls.  An installation argument is
    refused: then nothing changes. *)
Theorem C31_upgrade_keeps_the_ledger w now args :
  reachable w -> ev_ok w (EvUpgrade now args) ->
  let w' := (step w (EvUpgrade now args)).1 in
  let resp := (step w (EvUpgrade now args)).2 in
  same_answers (w_led w) (w_led w')
  /\ tx_hashes (w_led w') = tx_hashes (w_led w) /\ tx_timestamps (w_led w') = tx_timestamps (w_led w)
  /\ w_cycles w' = w_cycles w
  /\ match args with
     | Some (LInit _) => resp = RespTrap TrapUpgradeWithInitArg
                         /\ w_led w' = w_led w /\ w_pend w' = w_pend w
     | _ => resp = RespIgnored /\ cfg (w_led w') = upgraded args (cfg (w_led w)) /\ w_pend w' = ∅
     end.
Proof.
  intros Hr Hev. cbv zeta. pose proof (reachable_inv _ Hr) as Hinv. cbn [step].
  rewrite (reload_eq _ _ Hinv).
  destruct args as [[c|[u|]]|]; [done| |done|done].
  clear Hr Hev Hinv. unfold post_upgrade, bindM, modify, ret. destruct u as [m i].
  destruct w as [[bs ba ap q th ts [mb ix ib] ph su tr ce p] cl pe nx cy us].
  destruct m, i as [[]|]; (split; [by apply sim_answers|done]).
Qed.

(** After an upgrade the ledger behaves as if there had been none: as long as no
    answer arrives to an outgoing call from before it, every later event gets
    the same response and leads to the same balances, allowances and blocks. *)
Theorem C31_upgrade_is_invisible w now args evs :
  reachable w -> ev_ok w (EvUpgrade now args) ->
  let w' := (step w (EvUpgrade now args)).1 in
  no_old_answers (w_next w) evs ->
  responses w' evs = responses w evs
  /\ same_answers (w_led (after w evs)) (w_led (after w' evs)).
Proof.
  intros Hr Hev. cbv zeta. intros Hold.
  destruct (responses_sim (w_next w) w (step w (EvUpgrade now args)).1 evs) as [H1 H2]; [|done|].
  - pose proof (reachable_winv _ Hr) as (Hinv & _ & Hpend).
    assert (forall id, w_next w <= id -> w_pend w !! id = None) as Hnone.
    { intros id Hid. destruct (w_pend w !! id) as [p|] eqn:Ep; [|done].
      destruct (Hpend id p Ep). lia. }
    cbn [step]. rewrite (reload_eq _ _ Hinv).
    destruct (post_upgrade args (set_p0 [] (w_led w))) as [s' o] eqn:Epu.
    destruct (post_upgrade_cfg _ _ _ _ Epu) as [c ->].
    destruct o as [[]|[]|t].
    + split; [apply sim_set|]. split; [done|]. split; [simpl; lia|]. split; [done|].
      intros id Hid. cbn [fst w_pend]. by rewrite lookup_empty, Hnone.
    + split; [done|]. split; [done|]. split; [simpl; lia|]. split; [done|]. done.
  - split; [done|]. apply sim_answers, H2.
Qed.

End WithEnv.

(** ** Cases that meet the hypotheses *)

(** An upgrade with a pending withdrawal, then a duplicate and a withdrawal. *)
Definition upgrade_events : list event :=
  [ EvCall (T0 + 1 * sec) carol (CallTransfer None (acct bob) T None None (Some (T0 + 1 * sec))) None;
    EvCall (T0 + 2 * sec) carol (CallWithdraw None canister None T) None ].
Definition before_upgrade : world := the_world (history T0 (100 * T) demo_init upgrade_events).
Definition later_events : list event :=
  [ EvCall (T0 + 4 * sec) carol (CallTransfer None (acct bob) T None None (Some (T0 + 1 * sec))) None;
    EvCall (T0 + 5 * sec) carol (CallWithdraw None canister None T) None;
    EvReply (T0 + 6 * sec) 1 (AnsDeposit (Ok tt)) 0 ].
Example C31_case :
  reachable before_upgrade
  /\ ev_ok before_upgrade (EvUpgrade (T0 + 3 * sec) (Some (LUpgrade (Some (UpgradeArgs (Some 9) (Some (SetTo bob)))))))
  /\ w_next before_upgrade = 1 /\ no_old_answers 1 later_events
  /\ responses before_upgrade later_events
     = [ RespReply (RepTransfer (Err (TDuplicate 1)));
         RespPending 1 (OutDepositCycles canister T);
         RespReply (RepWithdraw (Ok 3)) ].
Proof.
  split; [apply the_world_reachable; vm_compute; reflexivity|].
  split; [apply ev_okb_ok; vm_compute; reflexivity|].
  split; [vm_compute; reflexivity|]. split; [|vm_compute; reflexivity].
  repeat constructor. vm_compute. discriminate.
Qed.

Print Assumptions C31_upgrade_keeps_the_ledger.
Print Assumptions C31_upgrade_is_invisible.
