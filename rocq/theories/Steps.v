(** * Messages as sequences of primitive transitions *)
From Verif Require Import Base Types Codec CodecFacts State Ledger Canister Effects Spec Inv.

Lemma min_elt_in {A} (le : A -> A -> bool) l x : min_elt le l = Some x -> x ∈ l.
Proof.
  revert x. induction l as [|y l IH]; intros x; simpl; [done|].
  destruct (min_elt le l) as [z|].
  - intros [= <-]. destruct (le y z); [by left|]. right. by apply IH.
  - intros [= <-]. by left.
Qed.
Lemma min_elt_None {A} (le : A -> A -> bool) l : min_elt le l = None -> l = [].
Proof. destruct l as [|y l]; [done|]. simpl. destruct (min_elt le l); done. Qed.

Global Opaque TRANSACTION_PRUNE_LIMIT APPROVE_PRUNE_LIMIT.

Section WithEnv.
Context `{Env}.

Lemma first_expiry_in s x : first_expiry s = Some x -> x ∈ exp_queue s.
Proof. intros Hx. apply elem_of_elements. by eapply min_elt_in. Qed.
Lemma first_timestamp_in s x : first_timestamp s = Some x -> x ∈ tx_timestamps s.
Proof. intros Hx. apply elem_of_elements. by eapply min_elt_in. Qed.

(** ** Primitive transitions at time [now] *)
Inductive prim (now : N) : state -> state -> Prop :=
| prim_tx t s : tx_ok now t s -> prim now s (tx_effect now t s)
| prim_expire k a e s : approvals s !! k = Some (a, e) -> 0 < e -> e <= now ->
    prim now s (drop_approval e k s)
| prim_drop ts i s : (ts, i) ∈ tx_timestamps s -> is_before_transaction_window ts now = true ->
    prim now s (drop_tx ts i s)
| prim_canister i b c s : blocks s !! N.to_nat i = Some b ->
    prim now s (note_canister (txh (b_tx b)) i c s).

Definition prims (now : N) : state -> state -> Prop := rtc (prim now).

Lemma prim_inv now s s' : is_u64 now -> inv now s -> prim now s s' -> inv now s'.
Proof.
  intros Hu Hinv Hp. destruct Hp.
  - by eapply inv_tx_effect.
  - by eapply inv_drop_approval.
  - by eapply inv_drop_tx.
  - by eapply inv_note_canister.
Qed.
Lemma prims_inv now s s' : is_u64 now -> inv now s -> prims now s s' -> inv now s'.
Proof.
  intros Hu Hinv Hp. induction Hp as [|s1 s2 s3 Hp _ IH]; [done|].
  apply IH. by eapply prim_inv.
Qed.

(** The log only grows. *)
Lemma prim_prefix now s s' : prim now s s' -> blocks s `prefix_of` blocks s'.
Proof.
  intros Hp. destruct Hp.
  - destruct (tx_effect_fields now t s) as (-> & _). by apply prefix_app_r.
  - done.
  - unfold drop_tx. destruct (prune_tx_hash_fields i
      (set_tx_timestamps (tx_timestamps s ∖ {[(ts, i)]}) s)) as (-> & _). done.
  - unfold note_canister. destruct (tx_hashes s !! _); done.
Qed.
Lemma prims_prefix now s s' : prims now s s' -> blocks s `prefix_of` blocks s'.
Proof.
  induction 1 as [|s1 s2 s3 Hp _ IH]; [done|]. etrans; [by eapply prim_prefix|done].
Qed.

(** ** Pruning *)
Lemma prune_approvals_prims now limit s :
  is_u64 now -> inv now s -> prims now s (prune_approvals now limit s).
Proof.
  intros Hu. revert s. induction limit as [|l IH]; intros s Hinv; [apply rtc_refl|].
  simpl. destruct (first_expiry s) as [[t k]|] eqn:Ef; [|apply rtc_refl].
  destruct (N.ltb_spec now t); [apply rtc_refl|].
  apply first_expiry_in in Ef. apply (inv_queue _ _ Hinv) in Ef as [Ht [a Ha]].
  rewrite Ha.
  assert (prim now s (drop_approval t k s)) as Hp by (by econstructor).
  eapply rtc_l; [exact Hp|]. apply IH. by eapply prim_inv.
Qed.
Lemma prune_transactions_prims now limit s :
  is_u64 now -> inv now s -> prims now s (prune_transactions now limit s).
Proof.
  intros Hu. revert s. induction limit as [|l IH]; intros s Hinv; [apply rtc_refl|].
  simpl. destruct (first_timestamp s) as [[ts i]|] eqn:Ef; [|apply rtc_refl].
  destruct (is_before_transaction_window ts now) eqn:Eb; simpl; [|apply rtc_refl].
  apply first_timestamp_in in Ef.
  assert (prim now s (drop_tx ts i s)) as Hp by (by constructor).
  eapply rtc_l; [exact Hp|]. apply IH. by eapply prim_inv.
Qed.
Lemma check_invariants_id now s : inv now s -> check_invariants s = s.
Proof.
  intros Hinv. unfold check_invariants. pose proof (queue_ok_size _ _ (inv_queue _ _ Hinv)).
  destruct (Nat.ltb_spec (size (approvals s)) (size (exp_queue s))); [lia|done].
Qed.
Lemma prune_state_prims now s : is_u64 now -> inv now s -> prims now s (prune_state now s).
Proof.
  intros Hu Hinv. unfold prune_state.
  pose proof (prune_approvals_prims now APPROVE_PRUNE_LIMIT s Hu Hinv) as H1.
  pose proof (prims_inv _ _ _ Hu Hinv H1) as Hinv1.
  pose proof (prune_transactions_prims now TRANSACTION_PRUNE_LIMIT _ Hu Hinv1) as H2.
  pose proof (prims_inv _ _ _ Hu Hinv1 H2) as Hinv2.
  rewrite (check_invariants_id now) by done. by etrans.
Qed.
Lemma prune_state_inv now s : is_u64 now -> inv now s -> inv now (prune_state now s).
Proof. intros Hu Hinv. eapply prims_inv; [done|done|]. by apply prune_state_prims. Qed.

(** Fields pruning leaves alone *)
Definition same_core (s s' : state) : Prop :=
  blocks s' = blocks s /\ balances s' = balances s /\ cfg s' = cfg s /\ phash s' = phash s
  /\ total_supply s' = total_supply s /\ hash_tree s' = hash_tree s /\ certified s' = certified s.
Lemma same_core_refl s : same_core s s. Proof. done. Qed.
Lemma same_core_trans s1 s2 s3 : same_core s1 s2 -> same_core s2 s3 -> same_core s1 s3.
Proof.
  intros (?&?&?&?&?&?&?) (?&?&?&?&?&?&?). repeat split; congruence.
Qed.
Lemma prune_approvals_core now limit s : same_core s (prune_approvals now limit s).
Proof.
  revert s. induction limit as [|l IH]; intros s; [done|]. simpl.
  destruct (first_expiry s) as [[t k]|]; [|done]. destruct (now <? t); [done|].
  eapply same_core_trans; [|apply IH]. destruct (approvals s !! k); done.
Qed.
Lemma prune_transactions_core now limit s : same_core s (prune_transactions now limit s).
Proof.
  revert s. induction limit as [|l IH]; intros s; [done|]. simpl.
  destruct (first_timestamp s) as [[t k]|]; [|done]. destruct (negb _); [done|].
  eapply same_core_trans; [|apply IH].
  destruct (prune_tx_hash_fields k (set_tx_timestamps (tx_timestamps s ∖ {[(t, k)]}) s))
    as (?&?&?&?&?&?&?&?&?&?). done.
Qed.
Lemma check_invariants_core s : same_core s (check_invariants s).
Proof. unfold check_invariants. destruct (_ <? _)%nat; done. Qed.
Lemma check_invariants_appr s : approvals (check_invariants s) = approvals s.
Proof. unfold check_invariants. destruct (_ <? _)%nat; done. Qed.
Lemma prune_state_core now s : same_core s (prune_state now s).
Proof.
  unfold prune_state. eapply same_core_trans; [apply (prune_approvals_core now APPROVE_PRUNE_LIMIT)|].
  eapply same_core_trans; [apply (prune_transactions_core now TRANSACTION_PRUNE_LIMIT)|].
  apply check_invariants_core.
Qed.
Lemma prune_transactions_appr now limit s :
  approvals (prune_transactions now limit s) = approvals s
  /\ exp_queue (prune_transactions now limit s) = exp_queue s.
Proof.
  revert s. induction limit as [|l IH]; intros s; [done|]. simpl.
  destruct (first_timestamp s) as [[t k]|]; [|done]. destruct (negb _); [done|].
  destruct (IH (prune_tx_hash k (set_tx_timestamps (tx_timestamps s ∖ {[(t, k)]}) s))) as [-> ->].
  destruct (prune_tx_hash_fields k (set_tx_timestamps (tx_timestamps s ∖ {[(t, k)]}) s))
    as (_&_&->&->&_). done.
Qed.
(** Pruning only removes approvals that have expired. *)
Lemma prune_approvals_keep now limit s k a e :
  inv now s -> is_u64 now -> approvals s !! k = Some (a, e) -> (e = 0 \/ now < e) ->
  approvals (prune_approvals now limit s) !! k = Some (a, e).
Proof.
  intros Hinv Hu. revert s Hinv. induction limit as [|l IH]; intros s Hinv Hk He; [done|]. simpl.
  destruct (first_expiry s) as [[t k']|] eqn:Ef; [|done].
  destruct (N.ltb_spec now t); [done|].
  apply first_expiry_in in Ef. apply (inv_queue _ _ Hinv) in Ef as [Ht [a' Ha]]. rewrite Ha.
  assert (prim now s (drop_approval t k' s)) as Hp by (by econstructor).
  apply IH; [by eapply prim_inv| |done]. simpl.
  rewrite lookup_delete_ne; [done|]. intros ->. rewrite Hk in Ha. injection Ha as -> ->. lia.
Qed.
Lemma prune_approvals_sub now limit s k v :
  approvals (prune_approvals now limit s) !! k = Some v -> approvals s !! k = Some v.
Proof.
  revert s. induction limit as [|l IH]; intros s; [done|]. simpl.
  destruct (first_expiry s) as [[t k']|]; [|done]. destruct (now <? t); [done|].
  intros Hl. apply IH in Hl. simpl in Hl. destruct (approvals s !! k') eqn:E; simpl in Hl; [|done].
  by apply lookup_delete_Some in Hl as [_ ?].
Qed.
Lemma prune_state_appr now s :
  approvals (prune_state now s) = approvals (prune_approvals now APPROVE_PRUNE_LIMIT s).
Proof.
  unfold prune_state. rewrite check_invariants_appr.
  apply (prune_transactions_appr now TRANSACTION_PRUNE_LIMIT).
Qed.
Lemma prune_state_keep now s k a e :
  inv now s -> is_u64 now -> approvals s !! k = Some (a, e) -> (e = 0 \/ now < e) ->
  approvals (prune_state now s) !! k = Some (a, e).
Proof. intros. rewrite prune_state_appr. by apply prune_approvals_keep. Qed.
Lemma prune_state_sub now s k v :
  approvals (prune_state now s) !! k = Some v -> approvals s !! k = Some v.
Proof. rewrite prune_state_appr. apply prune_approvals_sub. Qed.

Lemma prune_bal now s k : bal (prune_state now s) k = bal s k.
Proof. apply bal_same. by destruct (prune_state_core now s) as (_ & ? & _). Qed.
Lemma prune_supply_ok now s : supply_ok s -> supply_ok (prune_state now s).
Proof.
  destruct (prune_state_core now s) as (_ & Hb & _ & _ & Ht & _). by apply supply_ok_same.
Qed.
Lemma prune_nblocks now s : nblocks (prune_state now s) = nblocks s.
Proof. unfold nblocks. by destruct (prune_state_core now s) as (-> & _). Qed.

(** ** From decisions to valid transactions *)
Lemma process_decide_ok t now :
  process_decide t now = OOk tt ->
  validate_memo (tx_memo t) = true /\ validate_created_at_time (tx_created_at t) now = Ok tt.
Proof.
  unfold process_decide. destruct (validate_memo (tx_memo t)); simpl; [|done].
  destruct (validate_created_at_time _ _) as [[]|]; done.
Qed.
Lemma check_allowance_ok s from x n now r e :
  check_allowance s from x n now = Ok (r, e) ->
  exists cur, approvals s !! approval_key from x = Some (cur, e) /\ (e = 0 \/ now < e)
    /\ n <= cur /\ r = cur - n /\ n <> 0.
Proof.
  unfold check_allowance, u128_checked_sub.
  destruct (N.eqb_spec n 0); [done|].
  destruct (approvals s !! approval_key from x) as [[cur e']|]; [|done].
  destruct (negb _) eqn:Eb; [done|].
  destruct (N.leb_spec n cur); [|done]. intros [= <- <-]. exists cur.
  apply negb_false_iff, orb_true_iff in Eb. split; [done|]. split; [lia|done].
Qed.
Lemma check_allowance_intro s from x n now cur e :
  approvals s !! approval_key from x = Some (cur, e) -> (e = 0 \/ now < e) -> n <= cur -> n <> 0 ->
  check_allowance s from x n now = Ok (cur - n, e).
Proof.
  intros Hk He Hn Hn0. unfold check_allowance, u128_checked_sub.
  destruct (N.eqb_spec n 0); [done|]. rewrite Hk.
  destruct (negb ((e =? 0) || (now <? e))) eqn:E; [lia|].
  destruct (N.leb_spec n cur); [done|lia].
Qed.

Lemma is_denied_false p : is_denied p = false -> p <> MANAGEMENT_CANISTER.
Proof. unfold is_denied. case_bool_decide; done. Qed.
Lemma bad_fee_false f : bad_fee f = false -> fee_ok f.
Proof.
  unfold bad_fee, fee_ok. destruct f as [f|]; [|by left].
  destruct (N.eqb_spec f FEE) as [->|]; [by right|done].
Qed.

Lemma transfer_decide_ok from to sp amount m now created fee s :
  transfer_decide from to sp amount m now created fee s = OOk tt ->
  wf_account from -> wf_account to -> wf_acct_opt sp -> is_u128 amount -> wf_u64_opt created ->
  tx_ok now (Tx (Transfer from to sp amount fee) created m) s.
Proof.
  unfold transfer_decide. intros Hd Hf Ht Hsp Ha Hc.
  destruct (tx_hashes s !! _) as [[i c]|] eqn:Eh; [done|].
  destruct (is_denied (owner from)) eqn:E1; [done|].
  destruct (is_denied (owner to)) eqn:E2; [done|].
  destruct (match sp with Some sp => is_denied (owner sp) | None => false end) eqn:E3; [done|].
  destruct (bad_fee fee) eqn:E4; [done|].
  destruct (N.leb_spec U128_MOD (amount + FEE)); [done|].
  destruct (match third_party from sp with
            | Some sp => match check_allowance s from sp (amount + FEE) now with
                         | Ok _ => None | Err e => Some (tf_of_ua e) end
            | None => None end) eqn:E5; [done|].
  destruct (N.ltb_spec (balance_of s from) (amount + FEE)); [done|].
  destruct (N.leb_spec U128_MOD (balance_of s to + amount)); [done|].
  unfold out_map in Hd. destruct (process_decide _ now) as [[]|e|x] eqn:Ep; try done.
  apply process_decide_ok in Ep as [Hm Hcr]. simpl in Hm, Hcr.
  apply bad_fee_false in E4.
  split; [split; [|done]|].
  { simpl. repeat split; try done; try apply Hf; try apply Ht.
    destruct E4 as [->| ->]; done. }
  split.
  { simpl. split; [by apply is_denied_false|]. split; [by apply is_denied_false|].
    split; [|done]. destruct sp; [by apply is_denied_false|done]. }
  split; [|by split].
  simpl. split; [lia|]. unfold spend_ok. destruct (third_party from sp); [|done].
  destruct (check_allowance _ _ _ _ _) as [[r e]|] eqn:Ec; [|done].
  apply check_allowance_ok in Ec as (cur & ? & ? & ? & _). eauto.
Qed.

Lemma approve_decide_ok from sp amount m now created fee expected expires s :
  approve_decide from sp amount m now created fee expected expires s = OOk tt ->
  wf_account from -> wf_account sp -> is_u128 amount -> wf_u64_opt created ->
  wf_u128_opt expected -> wf_u64_opt expires ->
  tx_ok now (Tx (Approve from sp amount expected expires fee) created m) s.
Proof.
  unfold approve_decide. intros Hd Hf Hsp Ha Hc Hea Hex.
  destruct (tx_hashes s !! _) as [[i c]|] eqn:Eh; [done|].
  case_bool_decide as E0; [done|].
  destruct (is_denied (owner from)) eqn:E1; [done|].
  destruct (is_denied (owner sp)) eqn:E2; [done|].
  destruct (match expected with None => false | Some e => _ end) eqn:E3; [done|].
  destruct (bad_fee fee) eqn:E4; [done|].
  destruct (N.ltb_spec (balance_of s from) FEE); [done|].
  destruct (N.leb_spec (default REMOTE_FUTURE expires) now); [done|].
  unfold out_map in Hd. destruct (process_decide _ now) as [[]|e|x] eqn:Ep; try done.
  apply process_decide_ok in Ep as [Hm Hcr]. simpl in Hm, Hcr.
  apply bad_fee_false in E4. apply is_denied_false in E1, E2.
  split; [split; [|done]|].
  { simpl. repeat split; try done; try apply Hf; try apply Hsp.
    destruct E4 as [->| ->]; done. }
  split; [done|]. split; [|by split].
  simpl. split; [done|]. destruct expected as [e|]; [|done].
  apply negb_false_iff in E3. lia.
Qed.

Lemma mint_decide_ok to amount fee m now s :
  mint_decide to amount m s = OOk tt -> wf_account to -> is_u128 amount ->
  fee = 0 \/ fee = FEE ->
  tx_ok now (Tx (Mint to amount fee) None m) s.
Proof.
  unfold mint_decide. intros Hd Hto Ha Hfee.
  destruct (N.leb_spec U128_MOD (balance_of s to + amount)); [done|].
  destruct (N.leb_spec U128_MOD (total_supply s + amount)); [done|].
  destruct (validate_memo m) eqn:Em; [|done].
  split; [split; [|done]|].
  { simpl. split; [done|]. split; [done|]. destruct Hfee as [->| ->]; done. }
  split; [done|]. split; [done|]. split; done.
Qed.

Lemma reimburse_decide_ok acc amount m now s :
  reimburse_decide acc amount m s = OOk tt -> wf_account acc -> is_u128 amount ->
  tx_ok now (Tx (Mint acc amount 0) None (Some m)) s.
Proof.
  unfold reimburse_decide. intros Hd Hto Ha.
  apply mint_decide_ok; [|done|done|by left]. unfold mint_decide.
  destruct (validate_memo (Some m)); simpl in Hd; [|done]. destruct (_ || _); [done|done].
Qed.

Lemma burn_decide_ok {E} (cp : pt_error -> E) cu nf t from sp amount now s old :
  burn_decide cp cu nf t from sp amount now s = OOk old ->
  tx_op t = Burn from sp amount ->
  wf_account from -> wf_acct_opt sp -> is_u128 amount -> wf_u64_opt (tx_created_at t) ->
  burn_memo t ->
  tx_ok now t s
  /\ (forall x, third_party from sp = Some x -> exists cur e,
        approvals s !! approval_key from x = Some (cur, e) /\ old = old_expiry e)
  /\ (third_party from sp = None -> old = None).
Proof.
  unfold burn_decide. intros Hd Hop Hf Hsp Ha Hc Hbm.
  destruct (tx_hashes s !! _) as [[i c]|] eqn:Eh; [done|].
  destruct (N.leb_spec U128_MOD (amount + FEE)); [done|].
  destruct (match third_party from sp with
            | Some sp => match check_allowance s from sp (amount + FEE) now with
                         | Ok (_, e) => OOk (old_expiry e)
                         | Err e => match cu e with inl e' => OErr e' | inr x => OTrap x end end
            | None => OOk None end) as [old'|e|x] eqn:E5; [|done|done].
  destruct (N.ltb_spec (balance_of s from) (amount + FEE)); [done|].
  destruct (process_decide t now) as [[]|e|x] eqn:Ep; try done.
  injection Hd as ->. apply process_decide_ok in Ep as [Hm Hcr].
  split; [|split].
  - split; [split; [rewrite Hop; done|done]|].
    rewrite Hop. split; [done|]. split; [|done].
    simpl. split; [done|]. unfold spend_ok. destruct (third_party from sp); [|done].
    destruct (check_allowance _ _ _ _ _) as [[r e]|e] eqn:Ec; [|destruct (cu e); done].
    apply check_allowance_ok in Ec as (cur & ? & ? & ? & _). eauto.
  - intros x Hx. rewrite Hx in E5.
    destruct (check_allowance _ _ _ _ _) as [[r e]|e] eqn:Ec; [|destruct (cu e); done].
    injection E5 as <-. apply check_allowance_ok in Ec as (cur & ? & _). eauto.
  - intros Hn. rewrite Hn in E5. by injection E5.
Qed.

(** ** Closed forms of the endpoint bodies *)
Definition xfer_decide (from to : account) (sp : option account) (amount : N)
  (fee : option N) (m : option memo) (created : option N) (now : N) (s : state)
  : outcome trap transfer_from_error unit :=
  if U128_MOD <=? amount then OErr (TFInsufficientFunds (balance_of s from)) else
  if match fee with Some f => U128_MOD <=? f | None => false end then OErr (TFBadFee FEE) else
  transfer_decide from to sp amount m now created fee s.

Lemma nat_to_u128_eq n : nat_to_u128 n = if U128_MOD <=? n then None else Some n.
Proof.
  unfold nat_to_u128. destruct (N.ltb_spec n U128_MOD); destruct (N.leb_spec U128_MOD n); try lia; done.
Qed.

Lemma execute_transfer_eq now from to sp amount fee m created s :
  supply_ok s ->
  execute_transfer now from to sp amount fee m created s =
  match xfer_decide from to sp amount fee m created now s with
  | OOk _ => (prune_state now (tx_effect now (Tx (Transfer from to sp amount fee) created m) s),
              OOk (nblocks s))
  | OErr e => (s, OErr e)
  | OTrap x => (s, OTrap x)
  end.
Proof.
  intros Hs. unfold execute_transfer, xfer_decide. rewrite nat_to_u128_eq.
  destruct (U128_MOD <=? amount); [done|].
  destruct fee as [f|].
  - rewrite nat_to_u128_eq. destruct (U128_MOD <=? f); [done|].
    unfold bindM. rewrite transfer_eq by done.
    destruct (transfer_decide from to sp amount m now created (Some f) s); done.
  - unfold bindM. rewrite transfer_eq by done.
    destruct (transfer_decide from to sp amount m now created None s); done.
Qed.

Definition apr_decide (from sp : account) (amount : N) (expected expires fee : option N)
  (m : option memo) (created : option N) (now : N) (s : state)
  : outcome trap approve_error unit :=
  if match expected with Some e => U128_MOD <=? e | None => false end
  then OErr (AAllowanceChanged (allowance s from sp now).1) else
  if match fee with Some f => U128_MOD <=? f | None => false end then OErr (ABadFee FEE) else
  approve_decide from sp (default U128_MAX (nat_to_u128 amount)) m now created fee expected expires s.

Lemma execute_approve_eq now from sp amount expected expires fee m created s :
  supply_ok s ->
  execute_approve now from sp amount expected expires fee m created s =
  match apr_decide from sp amount expected expires fee m created now s with
  | OOk _ => (prune_state now (tx_effect now
                (Tx (Approve from sp (default U128_MAX (nat_to_u128 amount)) expected expires fee)
                    created m) s), OOk (nblocks s))
  | OErr e => (s, OErr e)
  | OTrap x => (s, OTrap x)
  end.
Proof.
  intros Hs. unfold execute_approve, apr_decide.
  set (am := default U128_MAX (nat_to_u128 amount)). clearbody am.
  assert (forall ex fe,
    (let! i := approve from sp am m now created fe ex expires in do! prune now in ret i) s =
    match approve_decide from sp am m now created fe ex expires s with
    | OOk _ => (prune_state now (tx_effect now (Tx (Approve from sp am ex expires fe) created m) s),
                OOk (nblocks s))
    | OErr e => (s, OErr e)
    | OTrap x => (s, OTrap x)
    end) as Hgo.
  { intros ex fe. unfold bindM. rewrite approve_eq by done.
    destruct (approve_decide from sp am m now created fe ex expires s); done. }
  destruct expected as [e|]; [rewrite nat_to_u128_eq; destruct (U128_MOD <=? e); [done|]|];
    (destruct fee as [f|]; [rewrite nat_to_u128_eq; destruct (U128_MOD <=? f); [done|]|]); apply Hgo.
Qed.

Definition wd_decide (from : account) (to : principal) (sp : option account)
  (amount : N) (created : option N) (now : N) (s : state)
  : outcome trap withdraw_from_error (option N) :=
  if U128_MOD <=? amount then OErr (WFInsufficientFunds (balance_of s from)) else
  withdraw_decide from to sp amount now created s.

Definition withdraw_tx (from : account) (to : principal) (sp : option account) (amount : N)
  (created : option N) : transaction :=
  Tx (Burn from sp amount) created (Some (encode_withdraw_memo to)).

Lemma execute_withdraw_eq now ep from to sp amount created s :
  supply_ok s ->
  execute_withdraw now ep from to sp amount created s =
  match wd_decide from to sp amount created now s with
  | OOk old => (prune_state now (tx_effect now (withdraw_tx from to sp amount created) s),
                OOk (PWithdraw ep from to sp amount (nblocks s) old))
  | OErr e => (s, OErr e)
  | OTrap x => (s, OTrap x)
  end.
Proof.
  intros Hs. unfold execute_withdraw, wd_decide. rewrite nat_to_u128_eq.
  destruct (U128_MOD <=? amount); [done|].
  unfold bindM. rewrite withdraw_start_eq by done.
  destruct (withdraw_decide from to sp amount now created s); done.
Qed.

Definition cr_decide (from : account) (sp : option account)
  (amount : N) (created : option N) (now : N) (s : state)
  : outcome trap create_canister_from_error (option N) :=
  if U128_MOD <=? amount then OErr (CFInsufficientFunds (balance_of s from)) else
  create_decide from sp amount now created s.

Lemma execute_create_eq now ep caller from sp amount created arg s :
  supply_ok s ->
  execute_create now ep caller from sp amount created arg s =
  match cr_decide from sp amount created now s with
  | OOk old => (prune_state now (tx_effect now (create_tx from sp amount created) s),
                OOk (PCreate ep from sp amount (nblocks s) old created (cmc_argument caller arg)))
  | OErr e => (s, OErr e)
  | OTrap x => (s, OTrap x)
  end.
Proof.
  intros Hs. unfold execute_create, cr_decide. rewrite nat_to_u128_eq.
  destruct (U128_MOD <=? amount); [done|].
  unfold bindM. rewrite create_start_eq by done.
  destruct (create_decide from sp amount now created s); done.
Qed.

(** ** Deposits *)
Definition dep_decide (to : account) (cycles : N) (m : option memo) (s : state)
  : outcome trap unit unit :=
  if cycles <=? FEE then OTrap TrapDepositRejected else
  match mint_decide to (cycles - FEE) m s with
  | OOk _ => OOk tt
  | OErr _ => OTrap TrapDepositRejected
  | OTrap x => OTrap x
  end.

Lemma ep_deposit_eq now cycles to m s :
  exists st,
  ep_deposit now cycles to m s =
  match dep_decide to cycles m s with
  | OOk _ =>
      let s' := prune_state now (tx_effect now (Tx (Mint to (cycles - FEE) FEE) None m) s) in
      (s', OOk (RepDeposit (nblocks s) (balance_of s' to)))
  | OErr _ => (s, OTrap TrapDepositRejected)
  | OTrap x => (st, OTrap x)
  end.
Proof.
  unfold ep_deposit, dep_decide, deposit, u128_checked_sub.
  destruct (N.leb_spec FEE cycles) as [H1|H1]; destruct (N.leb_spec cycles FEE) as [H2|H2]; try lia.
  - assert (cycles - FEE = 0) as -> by lia. by eexists.
  - destruct (cycles - FEE) as [|p] eqn:E; [lia|].
    unfold bindM at 1. unfold or_trap. unfold bindM at 1. rewrite mint_eq.
    destruct (mint_decide to (N.pos p) m s) as [[]|[]|x]; [|by eexists|by eexists].
    exists s. unfold bindM, prune, modify, gets, ret. done.
  - by eexists.
Qed.

(** ** Refunds *)
Definition refund_tx (acc : account) (n : N) (m : memo) : transaction :=
  Tx (Mint acc n 0) None (Some m).
(** The approval that restores a spender's allowance *)
Definition restore_amount (from sp : account) (n now : N) (s : state) : N :=
  u128_sat_add n (allowance s from sp now).1.
Definition restore_expiry (from sp : account) (old : option N) (now : N) (s : state) : option N :=
  if 0 <? (allowance s from sp now).2 then Some (allowance s from sp now).2 else old.
Definition restore_tx (from sp : account) (n : N) (old : option N) (now : N) (s : state)
  : transaction :=
  Tx (Approve from sp (restore_amount from sp n now s) None (restore_expiry from sp old now s) None)
     None (Some PENALIZE_MEMO).
Definition restore_decide (from sp : account) (n : N) (old : option N) (now : N) (s : state)
  : outcome trap approve_error unit :=
  approve_decide from sp (restore_amount from sp n now s) (Some PENALIZE_MEMO) now None None None
    (restore_expiry from sp old now s) s.

Lemma reimburse_approval_eq from sp n old now s :
  supply_ok s ->
  reimburse_approval from sp n old now s =
  match restore_decide from sp n old now s with
  | OOk _ => (tx_effect now (restore_tx from sp n old now s) s, OOk (nblocks s))
  | OErr e => (s, OErr e)
  | OTrap x => (s, OTrap x)
  end.
Proof.
  intros Hs. unfold reimburse_approval, restore_decide, restore_tx, restore_amount, restore_expiry.
  unfold bindM, gets. destruct (allowance s from sp now) as [cur e] eqn:Ea. simpl.
  by rewrite approve_eq.
Qed.

(** The state after the refund block and the two prunes that follow it *)
Definition refunded (from : account) (n : N) (m : memo) (now : N) (s : state) : state :=
  prune_state now (prune_state now (tx_effect now (refund_tx from n m) s)).

(** The refund part of a failed call: the new state, the refund block and the
    approval refund block; [None] is a trap. *)
Definition refund_outcome (from : account) (sp : option account) (n : N) (m : memo)
  (old : option N) (now : N) (s : state) : option (state * N * option N) :=
  match reimburse_decide from n m s with
  | OOk _ =>
      let s1 := refunded from n m now s in
      match third_party from sp with
      | Some x =>
          if (FEE <? n) && approval_still_valid old now then
            match restore_decide from x (n - FEE) old now s1 with
            | OOk _ => Some (tx_effect now (restore_tx from x (n - FEE) old now s1) s1,
                             nblocks s, Some (nblocks s1))
            | _ => None
            end
          else Some (s1, nblocks s, None)
      | None => Some (s1, nblocks s, None)
      end
  | _ => None
  end.

Lemma reimburse_supply_ok from n m now s :
  supply_ok s -> reimburse_decide from n m s = OOk tt ->
  supply_ok (tx_effect now (refund_tx from n m) s).
Proof.
  intros Hs Hd. apply supply_tx_effect; [done|]. simpl. unfold reimburse_decide in Hd.
  destruct (validate_memo _); simpl in Hd; [|done].
  destruct (N.leb_spec U128_MOD (balance_of s from + n)); [done|].
  destruct (N.leb_spec U128_MOD (total_supply s + n)); [done|]. done.
Qed.

Lemma refund_monad_eq {E A} from sp n m old now s (t1 t2 : trap)
  (k : N -> option N -> outcome trap E A) (cond : bool) :
  supply_ok s -> cond = (FEE <? n) && approval_still_valid old now ->
  exists st x,
  (let! fee_block := or_trap t1 (reimburse from n now m) in
   do! prune now in
   match third_party from sp with
   | Some x =>
       if cond then
         let! ab := or_trap t2 (reimburse_approval from x (u128_sat_sub n FEE) old now) in
         (fun s => (s, k fee_block (Some ab)))
       else (fun s => (s, k fee_block None))
   | None => (fun s => (s, k fee_block None))
   end) s =
  match refund_outcome from sp n m old now s with
  | Some (s', fb, ab) => (s', k fb ab)
  | None => (st, OTrap x)
  end.
Proof.
  intros Hs ->. unfold refund_outcome. unfold bindM at 1. unfold or_trap at 1.
  destruct (reimburse_eq from n now m s) as [st Hr]. rewrite Hr.
  destruct (reimburse_decide from n m s) as [[]|e|x] eqn:Ed; [|by eexists _, _|by eexists _, _].
  unfold bindM at 1. unfold prune, modify. fold (refund_tx from n m).
  fold (refunded from n m now s). set (s1 := refunded from n m now s).
  assert (supply_ok s1) as Hs1.
  { unfold s1, refunded. do 2 apply prune_supply_ok. by apply reimburse_supply_ok. }
  destruct (third_party from sp) as [x|]; [|by exists s, TrapTxHash].
  destruct ((FEE <? n) && approval_still_valid old now); [|by exists s, TrapTxHash].
  unfold bindM, or_trap, u128_sat_sub. rewrite reimburse_approval_eq by done.
  destruct (restore_decide from x (n - FEE) old now s1) as [[]|e|y];
    [by exists s, TrapTxHash|by eexists _, _|by eexists _, _].
Qed.

Lemma withdraw_finish_eq from sp amount i old now e s :
  supply_ok s ->
  exists st x,
  withdraw_finish from sp amount i old now (Err e) s =
  if amount - FEE =? 0 then
    (s, OErr (WFFailedToWithdrawFrom (Some i) None None (call_error_to_reject e)))
  else match refund_outcome from sp (amount - FEE) PENALIZE_MEMO old now s with
  | Some (s', fb, ab) =>
      (s', OErr (WFFailedToWithdrawFrom (Some i) (Some fb) ab (call_error_to_reject e)))
  | None => (st, OTrap x)
  end.
Proof.
  intros Hs. unfold withdraw_finish, u128_sat_sub at 1.
  destruct (amount - FEE =? 0) eqn:E0; [by exists s, TrapTxHash|].
  destruct (refund_monad_eq from sp (amount - FEE) PENALIZE_MEMO old now s TrapReimburse
    TrapReimburseApproval
    (fun fb ab => OErr (A:=N) (WFFailedToWithdrawFrom (Some i) (Some fb) ab (call_error_to_reject e)))
    ((2 * FEE <? amount) && approval_still_valid old now) Hs) as (st & x & Hm).
  { f_equal. lia. }
  exists st, x. exact Hm.
Qed.

Lemma create_finish_eq from sp amount i old created now res s :
  supply_ok s ->
  exists st x,
  create_finish from sp amount i old created now res s =
  match flat_create_result amount res with
  | Err (code, returned) =>
      if returned - FEE =? 0 then (s, OErr (CFFailedToCreateFrom (Some i) None None code))
      else match refund_outcome from sp (returned - FEE) REFUND_MEMO old now s with
      | Some (s', fb, ab) => (s', OErr (CFFailedToCreateFrom (Some i) (Some fb) ab code))
      | None => (st, OTrap x)
      end
  | Ok c => (note_canister (txh (create_tx from sp amount created)) i c s, OOk (i, c))
  end.
Proof.
  intros Hs. unfold create_finish.
  destruct (flat_create_result amount res) as [c|[code returned]].
  - rewrite tx_hash_txh. exists s, TrapTxHash. unfold bindM, modify, note_canister.
    destruct (tx_hashes s !! _); done.
  - unfold u128_sat_sub at 1.
    destruct (returned - FEE =? 0) eqn:E0; [by exists s, TrapTxHash|].
    destruct (refund_monad_eq from sp (returned - FEE) REFUND_MEMO old now s TrapReimburse
      TrapReimburseApproval
      (fun fb ab => OErr (A:=N * principal) (CFFailedToCreateFrom (Some i) (Some fb) ab code))
      _ Hs eq_refl) as (st & x & Hm).
    exists st, x. exact Hm.
Qed.

End WithEnv.
