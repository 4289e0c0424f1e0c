(** * The invariant of the ledger state and its preservation *)
From Verif Require Import Base Types Codec CodecFacts State Ledger Canister Effects Spec.

(** ** Well-formed data *)
Definition wf_u128_opt (o : option N) : Prop :=
  match o with Some n => is_u128 n | None => True end.
Definition wf_acct_opt (o : option account) : Prop :=
  match o with Some a => wf_account a | None => True end.
Definition wf_key (k : akey) : Prop := wf_principal k.1 /\ k.2 < SUB_MOD.

Definition wf_op (op : operation) : Prop :=
  match op with
  | Mint to a f => wf_account to /\ is_u128 a /\ is_u128 f
  | Transfer from to sp a f =>
      wf_account from /\ wf_account to /\ wf_acct_opt sp /\ is_u128 a /\ wf_u128_opt f
  | Burn from sp a => wf_account from /\ wf_acct_opt sp /\ is_u128 a
  | Approve from sp a ea ex f =>
      wf_account from /\ wf_account sp /\ is_u128 a /\ wf_u128_opt ea /\ wf_u64_opt ex
      /\ wf_u128_opt f
  end.
(** A burn names the receiver of a withdrawal or is a canister creation. *)
Definition burn_memo (t : transaction) : Prop :=
  match tx_op t with
  | Burn _ _ amount =>
      (exists to, tx_memo t = Some (encode_withdraw_memo to) /\ wf_principal to
         /\ is_self_authenticating to = false /\ amount <> 0)
      \/ tx_memo t = Some CREATE_CANISTER_MEMO
  | _ => True
  end.
Definition wf_tx (t : transaction) : Prop :=
  wf_op (tx_op t) /\ wf_u64_opt (tx_created_at t) /\ validate_memo (tx_memo t) = true
  /\ burn_memo t.

Lemma wf_to_key a : wf_account a -> wf_key (to_key a).
Proof.
  intros [H1 H2]. split; [done|]. unfold to_key; simpl. destruct (subacct a); [done|].
  unfold SUB_MOD. lia.
Qed.

Definition fee_ok (f : option N) : Prop := f = None \/ f = Some FEE.

(** Static facts about the operation of a block recorded at [ts]. *)
Definition op_static (ts : N) (op : operation) : Prop :=
  match op with
  | Mint _ _ f => f = 0 \/ f = FEE
  | Transfer from to sp _ f =>
      owner from <> MANAGEMENT_CANISTER /\ owner to <> MANAGEMENT_CANISTER
      /\ match sp with Some x => owner x <> MANAGEMENT_CANISTER | None => True end
      /\ fee_ok f
  | Burn _ _ _ => True
  | Approve from sp _ _ ex f =>
      owner from <> owner sp /\ owner from <> MANAGEMENT_CANISTER
      /\ owner sp <> MANAGEMENT_CANISTER /\ fee_ok f
      /\ ts < default REMOTE_FUTURE ex
  end.

(** What the operation needs from the state. *)
Definition spend_ok (now : N) (from : account) (sp : option account) (n : N) (s : state) : Prop :=
  match third_party from sp with
  | None => True
  | Some x => exists cur e, approvals s !! approval_key from x = Some (cur, e)
                /\ (e = 0 \/ now < e) /\ n <= cur
  end.
Definition op_ok (now : N) (op : operation) (s : state) : Prop :=
  match op with
  | Mint to a _ => balance_of s to + a < U128_MOD /\ total_supply s + a < U128_MOD
  | Transfer from _ sp a _ => a + FEE <= balance_of s from /\ spend_ok now from sp (a + FEE) s
  | Burn from sp a => a + FEE <= balance_of s from /\ spend_ok now from sp (a + FEE) s
  | Approve from sp _ ea _ _ =>
      FEE <= balance_of s from
      /\ match ea with Some e => e = (allowance s from sp now).1 | None => True end
  end.

Definition exp_opt (e : N) : option N := if e =? 0 then None else Some e.

Lemma default_exp_opt e : default 0 (exp_opt e) = e.
Proof. unfold exp_opt. destruct (N.eqb_spec e 0); simpl; lia. Qed.
Lemma exp_opt_default x : x <> Some 0 -> exp_opt (default 0 x) = x.
Proof.
  unfold exp_opt. destruct x as [e|]; simpl; [|done]. intros Hx.
  destruct (N.eqb_spec e 0); [by subst|done].
Qed.

(** ** Approvals and the expiration queue *)
Definition queue_ok (ap : gmap apkey (N * N)) (q : gset (N * apkey)) : Prop :=
  forall e k, (e, k) ∈ q <-> 0 < e /\ exists a, ap !! k = Some (a, e).

Lemma queue_ok_delete ap q k a e :
  queue_ok ap q -> ap !! k = Some (a, e) ->
  queue_ok (delete k ap) (if 0 <? e then q ∖ {[ (e, k) ]} else q).
Proof.
  intros Hq Hk e' k'. split.
  - intros Hin. assert ((e', k') ∈ q /\ k' <> k) as [Hin' Hne].
    { destruct (N.ltb_spec 0 e).
      - apply elem_of_difference in Hin as [Hin Hn]. split; [done|]. intros ->.
        apply Hq in Hin as [_ [a' Ha']]. rewrite Hk in Ha'. injection Ha' as <- <-.
        apply Hn. by apply elem_of_singleton.
      - split; [done|]. intros ->. apply Hq in Hin as [? [a' Ha']].
        rewrite Hk in Ha'. injection Ha' as <- <-. lia. }
    apply Hq in Hin' as [? [a' Ha']]. split; [done|]. exists a'.
    rewrite lookup_delete_ne by done. done.
  - intros [He [a' Ha']]. apply lookup_delete_Some in Ha' as [Hne Ha'].
    assert ((e', k') ∈ q) as Hin by (apply Hq; eauto).
    destruct (0 <? e); [|done]. apply elem_of_difference. split; [done|].
    rewrite elem_of_singleton. intros [= -> ->]. done.
Qed.

Lemma queue_ok_insert ap q k a e :
  queue_ok ap q -> ap !! k = None ->
  queue_ok (<[k := (a, e)]> ap) (if 0 <? e then {[ (e, k) ]} ∪ q else q).
Proof.
  intros Hq Hk e' k'.
  assert ((e', k') ∈ (if 0 <? e then {[ (e, k) ]} ∪ q else q)
          <-> (0 < e /\ e' = e /\ k' = k) \/ (e', k') ∈ q) as ->.
  { destruct (N.ltb_spec 0 e).
    - rewrite elem_of_union, elem_of_singleton. split.
      + intros [[= -> ->]|]; tauto.
      + intros [(_ & -> & ->)|]; tauto.
    - split; [tauto|]. intros [[? _]|]; [lia|done]. }
  rewrite (Hq e' k'). destruct (decide (k' = k)) as [->|Hne].
  - rewrite lookup_insert, Hk. split.
    + intros [(? & -> & _)|[_ [? ?]]]; [|done]. eauto.
    + intros [? [? [= <- <-]]]. left. done.
  - rewrite lookup_insert_ne by done. split.
    + intros [(_ & _ & ?)|]; done.
    + tauto.
Qed.

Lemma queue_ok_update ap q k a a' e :
  queue_ok ap q -> ap !! k = Some (a, e) -> queue_ok (<[k := (a', e)]> ap) q.
Proof.
  intros Hq Hk e' k'. rewrite (Hq e' k'). destruct (decide (k' = k)) as [->|Hne].
  - rewrite lookup_insert, Hk. split; intros [? [? [= <- <-]]]; eauto.
  - rewrite lookup_insert_ne by done. done.
Qed.

Lemma queue_ok_size ap q : queue_ok ap q -> (size q <= size ap)%nat.
Proof.
  intros Hq. rewrite <- (size_dom (D:=gset apkey)).
  unfold size at 1, set_size. simpl. rewrite <- (fmap_length snd (elements q)).
  assert (NoDup (snd <$> elements q)) as Hnd.
  { apply NoDup_fmap_2_strong; [|apply NoDup_elements].
    intros [e1 k1] [e2 k2] H1 H2 Heq. simpl in Heq. subst k2.
    apply elem_of_elements, Hq in H1 as [_ [a1 H1]].
    apply elem_of_elements, Hq in H2 as [_ [a2 H2]]. rewrite H1 in H2.
    injection H2 as _ ->. done. }
  rewrite <- (size_list_to_set (C:=gset apkey) _ Hnd).
  apply subseteq_size. intros k Hk. apply elem_of_list_to_set in Hk.
  apply elem_of_list_fmap in Hk as [[e k'] [-> Hk]]. apply elem_of_elements, Hq in Hk as [_ [a Ha]].
  simpl. apply elem_of_dom. eauto.
Qed.

(** Agreement of a stored approval with the log, at clock [clk]. *)
Definition agree (clk : N) (o : option (N * N)) (l : option (N * option N)) : Prop :=
  (forall a e, o = Some (a, e) -> l = Some (a, exp_opt e))
  /\ (forall a x, l = Some (a, x) ->
        o = Some (a, default 0 x) \/ (o = None /\ exists e, x = Some e /\ e <= clk)).

Definition appr_ok (k : apkey) (a e : N) : Prop :=
  0 < a /\ is_u128 a /\ is_u64 e /\ k.1.1 <> k.2.1
  /\ k.1.1 <> MANAGEMENT_CANISTER /\ k.2.1 <> MANAGEMENT_CANISTER
  /\ wf_key k.1 /\ wf_key k.2.

Section WithEnv.
Context `{Env}.

(** Two recorded transactions that differ but hash alike. *)
Definition tx_collision (bs : list block) : Prop :=
  exists i j bi bj, bs !! i = Some bi /\ bs !! j = Some bj
    /\ b_tx bi <> b_tx bj /\ txh (b_tx bi) = txh (b_tx bj).

Lemma tx_collision_app bs bs' : tx_collision bs -> tx_collision (bs ++ bs').
Proof.
  intros (i & j & bi & bj & Hi & Hj & Hne & Hh). exists i, j, bi, bj.
  split; [by apply lookup_app_l_Some|]. split; [by apply lookup_app_l_Some|]. done.
Qed.

Definition tree_of (bs : list block) : gmap string (list byte) :=
  match last bs with
  | None => ∅
  | Some b => populate_tree ∅ (N.of_nat (length bs) - 1) (block_hash b)
  end.

Definition blk_ok (b : block) : Prop :=
  wf_tx (b_tx b) /\ is_u64 (b_timestamp b)
  /\ b_effective_fee b = effective_fee (tx_op (b_tx b))
  /\ op_static (b_timestamp b) (tx_op (b_tx b))
  /\ validate_created_at_time (tx_created_at (b_tx b)) (b_timestamp b) = Ok tt.

Record inv (clk : N) (s : state) : Prop := Inv {
  inv_supply : supply_ok s;
  inv_phash : phash s = block_hash <$> last (blocks s);
  inv_chain : forall i b, blocks s !! i = Some b ->
    b_phash b = match i with O => None | S j => block_hash <$> blocks s !! j end;
  inv_tree : hash_tree s = tree_of (blocks s);
  inv_cert : certified s = match blocks s with [] => None | _ => Some (troot (hash_tree s)) end;
  inv_appr : forall k a e, approvals s !! k = Some (a, e) -> appr_ok k a e;
  inv_queue : queue_ok (approvals s) (exp_queue s);
  inv_blk : forall i b, blocks s !! i = Some b -> blk_ok b /\ b_timestamp b <= clk;
  inv_time : forall i j bi bj, (i <= j)%nat -> blocks s !! i = Some bi -> blocks s !! j = Some bj ->
    b_timestamp bi <= b_timestamp bj;
  inv_balance : forall k, Z.of_N (bal s k) = log_balance (blocks s) k;
  inv_allow : forall k, agree clk (approvals s !! k) (log_allowance (blocks s) k);
  inv_spends : forall i b k n, blocks s !! i = Some b -> spent_by b = Some (k, n) ->
    exists a x, log_allowance (take i (blocks s)) k = Some (a, x) /\ n <= a
      /\ unexpired (b_timestamp b) x;
  (* deduplication *)
  inv_ts : forall ts i, (ts, i) ∈ tx_timestamps s ->
    exists b e, blocks s !! N.to_nat i = Some b /\ tx_created_at (b_tx b) = Some ts
      /\ tx_hashes s !! txh (b_tx b) = Some e;
  inv_ts_inj : forall ts1 i1 b1 ts2 i2 b2,
    (ts1, i1) ∈ tx_timestamps s -> (ts2, i2) ∈ tx_timestamps s ->
    blocks s !! N.to_nat i1 = Some b1 -> blocks s !! N.to_nat i2 = Some b2 ->
    txh (b_tx b1) = txh (b_tx b2) -> i1 = i2;
  inv_hashes : forall h i c, tx_hashes s !! h = Some (i, c) ->
    (exists b, blocks s !! N.to_nat i = Some b /\ txh (b_tx b) = h)
    /\ exists ts j b, (ts, j) ∈ tx_timestamps s /\ blocks s !! N.to_nat j = Some b
                     /\ txh (b_tx b) = h;
  inv_dropped : forall i b ts, blocks s !! N.to_nat i = Some b -> tx_created_at (b_tx b) = Some ts ->
    (ts, i) ∈ tx_timestamps s \/ is_before_transaction_window ts clk = true;
  inv_unique : forall i j bi bj, blocks s !! i = Some bi -> blocks s !! j = Some bj ->
    b_tx bi = b_tx bj -> tx_created_at (b_tx bi) <> None -> i = j;
  inv_p0 : Forall (fun m => m = LogApprovalZero
                            \/ (m = LogPruneHashMismatch /\ tx_collision (blocks s))) (p0 s)
}.

Lemma u64_sat_add_mono a b c : a <= b -> u64_sat_add a c <= u64_sat_add b c.
Proof.
  intros Hab. unfold u64_sat_add, U64_MAX, U64_MOD.
  destruct (N.ltb_spec (a + c) 18446744073709551616); destruct (N.ltb_spec (b + c) 18446744073709551616); lia.
Qed.

Lemma is_before_mono ts now now' :
  now <= now' -> is_before_transaction_window ts now = true ->
  is_before_transaction_window ts now' = true.
Proof. unfold is_before_transaction_window. lia. Qed.

Lemma agree_mono clk clk' o l : clk <= clk' -> agree clk o l -> agree clk' o l.
Proof.
  intros Hc [H1 H2]. split; [done|]. intros a x Hl.
  destruct (H2 a x Hl) as [?|(? & e & ? & ?)]; [by left|right].
  split; [done|]. exists e. split; [done|lia].
Qed.

Lemma inv_mono clk clk' s : clk <= clk' -> inv clk s -> inv clk' s.
Proof.
  intros Hc []. constructor; try done.
  - intros i b Hb. destruct (inv_blk0 i b Hb). split; [done|lia].
  - intros k. by eapply agree_mono.
  - intros i b ts Hb Hts. destruct (inv_dropped0 i b ts Hb Hts); [by left|right].
    by eapply is_before_mono.
Qed.

(** ** Valid transactions *)
Definition tx_ok (now : N) (t : transaction) (s : state) : Prop :=
  wf_tx t /\ op_static now (tx_op t) /\ op_ok now (tx_op t) s
  /\ validate_created_at_time (tx_created_at t) now = Ok tt
  /\ (tx_created_at t <> None -> tx_hashes s !! txh t = None).

(** Fields after a transaction *)
Lemma balance_effect_fields op s :
  blocks (balance_effect op s) = blocks s /\ approvals (balance_effect op s) = approvals s
  /\ exp_queue (balance_effect op s) = exp_queue s /\ tx_hashes (balance_effect op s) = tx_hashes s
  /\ tx_timestamps (balance_effect op s) = tx_timestamps s /\ cfg (balance_effect op s) = cfg s
  /\ phash (balance_effect op s) = phash s /\ hash_tree (balance_effect op s) = hash_tree s
  /\ certified (balance_effect op s) = certified s /\ p0 (balance_effect op s) = p0 s.
Proof. destruct op; done. Qed.

Lemma allow_effect_fields op s :
  blocks (allow_effect op s) = blocks s /\ balances (allow_effect op s) = balances s
  /\ tx_hashes (allow_effect op s) = tx_hashes s
  /\ tx_timestamps (allow_effect op s) = tx_timestamps s /\ cfg (allow_effect op s) = cfg s
  /\ phash (allow_effect op s) = phash s /\ hash_tree (allow_effect op s) = hash_tree s
  /\ certified (allow_effect op s) = certified s /\ total_supply (allow_effect op s) = total_supply s.
Proof.
  destruct op; simpl; try done;
    unfold spend_allowance, record_approval; repeat case_match; done.
Qed.

Lemma allow_effect_push op b s :
  approvals (allow_effect op (push_block b s)) = approvals (allow_effect op s)
  /\ exp_queue (allow_effect op (push_block b s)) = exp_queue (allow_effect op s)
  /\ p0 (allow_effect op (push_block b s)) = p0 (allow_effect op s).
Proof.
  destruct op; simpl; try done;
    unfold spend_allowance, record_approval; simpl; repeat case_match; done.
Qed.

Lemma tx_effect_fields now t s :
  let s' := tx_effect now t s in
  let b := mk_block now t s in
  blocks s' = blocks s ++ [b]
  /\ tx_hashes s' = (match tx_created_at t with
       | Some _ => <[txh t := (nblocks s, None)]> (tx_hashes s) | None => tx_hashes s end)
  /\ tx_timestamps s' = (match tx_created_at t with
       | Some ts => {[ (ts, nblocks s) ]} ∪ tx_timestamps s | None => tx_timestamps s end)
  /\ cfg s' = cfg s /\ phash s' = Some (block_hash b)
  /\ hash_tree s' = populate_tree (hash_tree s) (nblocks s) (block_hash b)
  /\ certified s' = Some (troot (hash_tree s'))
  /\ approvals s' = approvals (allow_effect (tx_op t) s)
  /\ exp_queue s' = exp_queue (allow_effect (tx_op t) s)
  /\ p0 s' = p0 (allow_effect (tx_op t) s).
Proof.
  intros s' b. unfold s', tx_effect. fold b.
  destruct (balance_effect_fields (tx_op t) (allow_effect (tx_op t) (push_block b s)))
    as (-> & -> & -> & -> & -> & -> & -> & -> & -> & ->).
  destruct (allow_effect_fields (tx_op t) (push_block b s))
    as (-> & _ & -> & -> & -> & -> & -> & -> & _).
  destruct (allow_effect_push (tx_op t) b s) as (-> & -> & ->). done.
Qed.

(** Fee recorded by a new block *)
Definition op_fee (op : operation) : N := match op with Mint _ _ _ => 0 | _ => FEE end.
Lemma fee_of_ok b :
  b_effective_fee b = effective_fee (tx_op (b_tx b)) ->
  op_static (b_timestamp b) (tx_op (b_tx b)) -> fee_of b = op_fee (tx_op (b_tx b)).
Proof.
  unfold fee_of. intros -> Hs. destruct (tx_op (b_tx b)) as [| from to sp a f | | from sp a ea ex f];
    simpl in *; try done.
  - destruct Hs as (_ & _ & _ & [->| ->]); done.
  - destruct Hs as (_ & _ & _ & [->| ->] & _); done.
Qed.
Lemma fee_of_mk now t s : op_static now (tx_op t) -> fee_of (mk_block now t s) = op_fee (tx_op t).
Proof. intros Hs. by apply fee_of_ok. Qed.

(** ** Balances *)
Lemma op_ok_frame now op s s' :
  balances s' = balances s -> total_supply s' = total_supply s -> approvals s' = approvals s ->
  op_ok now op s -> op_ok now op s'.
Proof.
  intros Hb Ht Ha. unfold op_ok, spend_ok, balance_of, bal, allowance. rewrite Hb, Ht, Ha. done.
Qed.

(** Only balances matter for the balance part of [op_ok]. *)
Definition bal_ok (op : operation) (s : state) : Prop :=
  match op with
  | Mint to a _ => balance_of s to + a < U128_MOD /\ total_supply s + a < U128_MOD
  | Transfer from _ _ a _ => a + FEE <= balance_of s from
  | Burn from _ a => a + FEE <= balance_of s from
  | Approve from _ _ _ _ _ => FEE <= balance_of s from
  end.
Lemma op_bal_ok now op s : op_ok now op s -> bal_ok op s.
Proof. destruct op; simpl; tauto. Qed.

Lemma bal_tx_effect now t s k :
  op_static now (tx_op t) -> bal_ok (tx_op t) s ->
  (Z.of_N (bal (tx_effect now t s) k) =
   Z.of_N (bal s k) + Z.of_N (given (mk_block now t s) k) - Z.of_N (taken (mk_block now t s) k))%Z.
Proof.
  intros Hst Hop. unfold tx_effect.
  set (s2 := allow_effect (tx_op t) (push_block (mk_block now t s) s)).
  destruct (allow_effect_fields (tx_op t) (push_block (mk_block now t s) s))
    as (_ & Hb & _ & _ & _ & _ & _ & _ & Ht). fold s2 in Hb, Ht. simpl in Hb, Ht.
  assert (forall k, bal s2 k = bal s k) as Hbal by (intros; by apply bal_same).
  unfold given, taken. rewrite (fee_of_mk now t s Hst). simpl.
  destruct (tx_op t) as [to a f | from to sp a f | from sp a | from sp a ea ex f]; simpl in *.
  - rewrite bal_credit, !Hbal. destruct (decide _); lia.
  - rewrite bal_credit, !bal_debit, !Hbal. unfold balance_of in *.
    destruct (decide (k = to_key to)) as [->|]; destruct (decide _) as [->|]; try lia.
  - rewrite bal_debit, !Hbal. unfold balance_of in *.
    destruct (decide (k = to_key from)); subst; lia.
  - rewrite bal_debit, !Hbal. unfold balance_of in *.
    destruct (decide (k = to_key from)); subst; lia.
Qed.

Lemma supply_tx_effect now t s :
  supply_ok s -> bal_ok (tx_op t) s -> supply_ok (tx_effect now t s).
Proof.
  intros Hs Hop. unfold tx_effect.
  set (s2 := allow_effect (tx_op t) (push_block (mk_block now t s) s)).
  destruct (allow_effect_fields (tx_op t) (push_block (mk_block now t s) s))
    as (_ & Hb & _ & _ & _ & _ & _ & _ & Ht). fold s2 in Hb, Ht. simpl in Hb, Ht.
  assert (supply_ok s2) as Hs2 by (by eapply supply_ok_same).
  assert (forall k, bal s2 k = bal s k) as Hbal by (intros; by apply bal_same).
  clearbody s2.
  destruct (tx_op t) as [to a f | from to sp a f | from sp a | from sp a ea ex f]; simpl in *.
  - apply supply_ok_credit; [done|lia].
  - assert (a + FEE <= balance_of s2 from) by (unfold balance_of; rewrite Hbal; done).
    apply supply_ok_credit; [by apply supply_ok_debit|].
    unfold debit_bal; simpl. pose proof (supply_bal s2 (to_key from) Hs2) as Hf.
    fold (balance_of s2 from) in Hf. destruct Hs2. lia.
  - apply supply_ok_debit; [done|]. unfold balance_of; rewrite Hbal; done.
  - apply supply_ok_debit; [done|]. unfold balance_of; rewrite Hbal; done.
Qed.

(** The total supply after a transaction *)
Lemma total_supply_tx_effect now t s :
  supply_ok s -> bal_ok (tx_op t) s ->
  (Z.of_N (total_supply (tx_effect now t s)) =
   Z.of_N (total_supply s)
   + match tx_op t with
     | Mint _ a _ => Z.of_N a
     | Transfer _ _ _ _ _ => - Z.of_N FEE
     | Burn _ _ a => - Z.of_N (a + FEE)
     | Approve _ _ _ _ _ _ => - Z.of_N FEE
     end)%Z.
Proof.
  intros Hs Hop. unfold tx_effect.
  set (s2 := allow_effect (tx_op t) (push_block (mk_block now t s) s)).
  destruct (allow_effect_fields (tx_op t) (push_block (mk_block now t s) s))
    as (_ & Hb & _ & _ & _ & _ & _ & _ & Ht). fold s2 in Hb, Ht. simpl in Hb, Ht.
  clearbody s2.
  destruct (tx_op t) as [to a f | from to sp a f | from sp a | from sp a ea ex f]; simpl in *;
    unfold debit_bal, credit_bal; simpl; rewrite Ht.
  - lia.
  - pose proof (supply_bal s (to_key from) Hs) as Hf. unfold balance_of in Hop. lia.
  - pose proof (supply_bal s (to_key from) Hs) as Hf. unfold balance_of in Hop. lia.
  - pose proof (supply_bal s (to_key from) Hs) as Hf. unfold balance_of in Hop. lia.
Qed.

Lemma log_balance_app bs bs' k :
  (log_balance (bs ++ bs') k = log_balance bs k + log_balance bs' k)%Z.
Proof. induction bs as [|b bs IH]; simpl; [lia|]. rewrite IH. lia. Qed.

(** ** Allowances *)
Lemma third_party_Some from sp x :
  third_party from sp = Some x <-> sp = Some x /\ to_key x <> to_key from.
Proof.
  unfold third_party, acct_eqb. destruct sp as [y|].
  - case_bool_decide as Hd; split; [done|intros [[= ->] ?]; done|intros [= ->]; done|
      intros [[= ->] ?]; done].
  - split; [done|intros [? _]; done].
Qed.
Lemma third_party_None from sp :
  third_party from sp = None <-> forall x, sp = Some x -> to_key x = to_key from.
Proof.
  unfold third_party, acct_eqb. destruct sp as [y|].
  - case_bool_decide as Hd; split; [intros _ x [= ->]; done|done|done|].
    intros Hx. exfalso. apply Hd. by apply Hx.
  - split; [intros _ x ?; done|done].
Qed.

(** The pair and the amount drawn by an operation *)
Definition op_spend (op : operation) : option (apkey * N) :=
  match op with
  | Transfer from _ sp a _ | Burn from sp a =>
      match third_party from sp with
      | Some x => Some (approval_key from x, a + FEE)
      | None => None
      end
  | _ => None
  end.
Lemma spent_by_op b :
  fee_of b = op_fee (tx_op (b_tx b)) -> spent_by b = op_spend (tx_op (b_tx b)).
Proof.
  unfold spent_by, op_spend, third_party, acct_eqb, approval_key. intros ->.
  destruct (tx_op (b_tx b)) as [to a f | from to sp a f | from sp a | from sp a ea ex f]; simpl; try done.
  - destruct sp as [x|]; [|done]. destruct (decide _); case_bool_decide; done.
  - destruct sp as [x|]; [|done]. destruct (decide _); case_bool_decide; done.
Qed.

Lemma approvals_spend from x n s :
  approvals (spend_allowance from x n s) =
  match approvals s !! approval_key from x with
  | None => approvals s
  | Some (cur, e) =>
      if cur - n =? 0 then delete (approval_key from x) (approvals s)
      else <[approval_key from x := (cur - n, e)]> (approvals s)
  end.
Proof. unfold spend_allowance. repeat case_match; done. Qed.

Lemma approvals_record from sp a ex s :
  approvals (record_approval from sp a ex s) =
  if a =? 0 then delete (approval_key from sp) (approvals s)
  else <[approval_key from sp := (a, default 0 ex)]> (approvals s).
Proof.
  unfold record_approval. destruct (approvals s !! approval_key from sp) as [[cur c]|] eqn:E.
  - destruct (a =? 0); repeat case_match; done.
  - destruct (a =? 0).
    + simpl. by rewrite delete_notin.
    + repeat case_match; done.
Qed.

Lemma queue_spend from x n s cur e :
  approvals s !! approval_key from x = Some (cur, e) ->
  queue_ok (approvals s) (exp_queue s) ->
  queue_ok (approvals (spend_allowance from x n s)) (exp_queue (spend_allowance from x n s)).
Proof.
  intros Hk Hq. unfold spend_allowance. rewrite Hk. destruct (cur - n =? 0).
  - pose proof (queue_ok_delete _ _ _ _ _ Hq Hk) as Hd. destruct (0 <? e); done.
  - simpl. by eapply queue_ok_update.
Qed.

Lemma queue_record from sp a ex s :
  queue_ok (approvals s) (exp_queue s) ->
  queue_ok (approvals (record_approval from sp a ex s)) (exp_queue (record_approval from sp a ex s)).
Proof.
  intros Hq. unfold record_approval.
  destruct (approvals s !! approval_key from sp) as [[cur c]|] eqn:Hk.
  - pose proof (queue_ok_delete _ _ _ _ _ Hq Hk) as Hd.
    destruct (a =? 0).
    + destruct (0 <? c); done.
    + destruct (N.eqb_spec (default 0 ex) c) as [->|Hne].
      * simpl. by eapply queue_ok_update.
      * pose proof (queue_ok_insert _ _ (approval_key from sp) a (default 0 ex) Hd
                      (lookup_delete _ _)) as Hi.
        rewrite insert_delete_insert in Hi. simpl.
        destruct (0 <? c); destruct (0 <? default 0 ex); done.
  - destruct (a =? 0); [done|].
    pose proof (queue_ok_insert _ _ (approval_key from sp) a (default 0 ex) Hq Hk) as Hi.
    simpl. destruct (0 <? default 0 ex); done.
Qed.

(** Lookups after the allowance effect *)
Lemma lookup_allow_effect now op s k :
  op_ok now op s ->
  approvals (allow_effect op s) !! k =
  match op with
  | Approve from sp a _ ex _ =>
      if decide (k = approval_key from sp) then (if a =? 0 then None else Some (a, default 0 ex))
      else approvals s !! k
  | _ =>
      match op_spend op with
      | Some (k', n) =>
          if decide (k = k') then
            match approvals s !! k with
            | Some (cur, e) => if cur - n =? 0 then None else Some (cur - n, e)
            | None => None
            end
          else approvals s !! k
      | None => approvals s !! k
      end
  end.
Proof.
  intros Hop.
  assert (forall from x n cur e, approvals s !! approval_key from x = Some (cur, e) ->
    approvals (spend_allowance from x n s) !! k =
    if decide (k = approval_key from x) then
      match approvals s !! k with
      | Some (cur, e) => if cur - n =? 0 then None else Some (cur - n, e)
      | None => None end
    else approvals s !! k) as Hspend.
  { intros from x n cur e Hk. rewrite approvals_spend, Hk. destruct (decide _) as [->|Hne].
    - rewrite Hk. destruct (cur - n =? 0); [apply lookup_delete|apply lookup_insert].
    - destruct (cur - n =? 0); [by apply lookup_delete_ne|by apply lookup_insert_ne]. }
  destruct op as [to a f | from to sp a f | from sp a | from sp a ea ex f]; simpl in *.
  - done.
  - destruct Hop as [_ Hsp]. unfold spend_ok in Hsp. destruct (third_party from sp); [|done].
    destruct Hsp as (cur & e & Hk & _). by eapply Hspend.
  - destruct Hop as [_ Hsp]. unfold spend_ok in Hsp. destruct (third_party from sp); [|done].
    destruct Hsp as (cur & e & Hk & _). by eapply Hspend.
  - rewrite approvals_record. destruct (decide _) as [->|Hne].
    + destruct (a =? 0); [apply lookup_delete|apply lookup_insert].
    + destruct (a =? 0); [by apply lookup_delete_ne|by apply lookup_insert_ne].
Qed.

Lemma queue_allow_effect now op s :
  op_ok now op s -> queue_ok (approvals s) (exp_queue s) ->
  queue_ok (approvals (allow_effect op s)) (exp_queue (allow_effect op s)).
Proof.
  intros Hop Hq. destruct op as [to a f | from to sp a f | from sp a | from sp a ea ex f]; simpl in *.
  - done.
  - destruct Hop as [_ Hsp]. unfold spend_ok in Hsp. destruct (third_party from sp); [|done].
    destruct Hsp as (cur & e & Hk & _). by eapply queue_spend.
  - destruct Hop as [_ Hsp]. unfold spend_ok in Hsp. destruct (third_party from sp); [|done].
    destruct Hsp as (cur & e & Hk & _). by eapply queue_spend.
  - by apply queue_record.
Qed.

(** The pair an operation draws on has a sufficient unexpired approval. *)
Lemma op_spend_ok now op s k n :
  op_ok now op s -> op_spend op = Some (k, n) ->
  exists cur e, approvals s !! k = Some (cur, e) /\ (e = 0 \/ now < e) /\ n <= cur.
Proof.
  intros Hop Hsp. destruct op as [to a f | from to sp a f | from sp a | from sp a ea ex f];
    simpl in *; try done.
  - unfold spend_ok in Hop. destruct (third_party from sp); [|done]. injection Hsp as <- <-.
    tauto.
  - unfold spend_ok in Hop. destruct (third_party from sp); [|done]. injection Hsp as <- <-.
    tauto.
Qed.

Lemma allowance_step_agree now t s k l :
  op_static now (tx_op t) -> op_ok now (tx_op t) s ->
  agree now (approvals s !! k) l ->
  agree now (approvals (allow_effect (tx_op t) s) !! k) (allowance_step k l (mk_block now t s)).
Proof.
  intros Hst Hop Hag. rewrite (lookup_allow_effect now) by done.
  unfold allowance_step. rewrite spent_by_op by (by apply fee_of_mk). simpl.
  assert (forall k' n, op_spend (tx_op t) = Some (k', n) ->
    agree now
      (if decide (k = k') then
         match approvals s !! k with
         | Some (cur, e) => if cur - n =? 0 then None else Some (cur - n, e)
         | None => None end else approvals s !! k)
      (if decide (k = k') then
         match l with Some (a, x) => if a - n =? 0 then None else Some (a - n, x) | None => None end
       else l)) as Hgen.
  { intros k' n Hsp. destruct (decide (k = k')) as [->|]; [|done].
    destruct (op_spend_ok _ _ _ _ _ Hop Hsp) as (cur & e & Hk & He & Hn).
    destruct Hag as [H1 H2]. rewrite Hk. rewrite (H1 _ _ Hk).
    destruct (cur - n =? 0); [split; done|]. split.
    - intros a e' [= <- <-]. done.
    - intros a x [= <- <-]. left. by rewrite default_exp_opt. }
  destruct (tx_op t) as [to a f | from to sp a f | from sp a | from sp a ea ex f] eqn:Eop;
    unfold approved_by; simpl tx_op; rewrite Eop.
  - done.
  - destruct (op_spend _) as [[k' n]|]; [by apply Hgen|done].
  - destruct (op_spend _) as [[k' n]|]; [by apply Hgen|done].
  - simpl. fold (approval_key from sp). destruct (decide (k = approval_key from sp)); [|done].
    destruct (a =? 0); [split; done|]. destruct Hst as (_ & _ & _ & _ & Hex).
    assert (ex <> Some 0) as Hne by (intros ->; simpl in Hex; lia).
    split.
    + intros a' e' [= <- <-]. by rewrite exp_opt_default.
    + intros a' x [= <- <-]. by left.
Qed.

Lemma appr_ok_allow_effect now op s :
  wf_op op -> op_static now op -> op_ok now op s -> 
  (forall k a e, approvals s !! k = Some (a, e) -> appr_ok k a e) ->
  forall k a e, approvals (allow_effect op s) !! k = Some (a, e) -> appr_ok k a e.
Proof.
  intros Hwf Hst Hop Hap k a e. rewrite (lookup_allow_effect now) by done.
  assert (forall k' n,
      (if decide (k = k') then
         match approvals s !! k with
         | Some (cur, e) => if cur - n =? 0 then None else Some (cur - n, e)
         | None => None end else approvals s !! k) = Some (a, e) -> appr_ok k a e) as Hgen.
  { intros k' n. destruct (decide (k = k')); [|by apply Hap].
    destruct (approvals s !! k) as [[cur e']|] eqn:Ek; [|done].
    destruct (N.eqb_spec (cur - n) 0); [done|]. intros [= <- <-].
    destruct (Hap _ _ _ Ek) as (? & ? & ?). split; [lia|]. split; [|done].
    unfold is_u128 in *. lia. }
  destruct op as [to b f | from to sp b f | from sp b | from sp b ea ex f].
  - simpl. apply Hap.
  - destruct (op_spend _) as [[k' n]|]; [apply Hgen|apply Hap].
  - destruct (op_spend _) as [[k' n]|]; [apply Hgen|apply Hap].
  - destruct (decide (k = approval_key from sp)) as [->|]; [|apply Hap].
    destruct (N.eqb_spec b 0); [done|]. intros [= <- <-].
    destruct Hwf as (Hf & Hs' & Ha & _ & Hex & _). destruct Hst as (? & ? & ? & _ & _).
    repeat split; try done; try (by apply wf_to_key); try lia.
    destruct ex as [x|]; simpl in *; [done|]. unfold is_u64, U64_MOD. lia.
Qed.

(** ** The chain *)
Lemma tree_of_snoc bs b h :
  h = block_hash b -> 
  populate_tree (tree_of bs) (N.of_nat (length bs)) h = tree_of (bs ++ [b]).
Proof.
  intros ->. unfold tree_of. rewrite last_snoc, nblocks_snoc.
  destruct (last bs); [|done]. unfold populate_tree.
  apply map_eq. intros k.
  destruct (decide (k = "last_block_hash"%string)) as [->|H1]; [by rewrite !lookup_insert|].
  rewrite !(lookup_insert_ne _ "last_block_hash"%string) by done.
  destruct (decide (k = "last_block_index"%string)) as [->|H2]; [by rewrite !lookup_insert|].
  rewrite !(lookup_insert_ne _ "last_block_index"%string) by done.
  rewrite !(lookup_insert_ne _ "last_block_hash"%string) by done.
  rewrite !(lookup_insert_ne _ "last_block_index"%string) by done.
  done.
Qed.

Lemma lookup_snoc {A} (l : list A) x i y :
  (l ++ [x]) !! i = Some y -> l !! i = Some y \/ (i = length l /\ y = x).
Proof.
  intros Hl. destruct (lookup_app_Some l [x] i y) as [H1 _]. destruct (H1 Hl) as [?|[Hle Hy]]; [by left|].
  right. apply list_lookup_singleton_Some in Hy as [? ?]. split; [lia|done].
Qed.

Lemma is_before_false c now :
  validate_created_at_time (Some c) now = Ok tt -> is_before_transaction_window c now = false.
Proof.
  unfold validate_created_at_time, is_before_transaction_window.
  destruct (_ <? now); [done|done].
Qed.

(** ** A valid transaction preserves the invariant *)
Lemma inv_tx_effect now clk t s :
  inv clk s -> clk <= now -> is_u64 now -> tx_ok now t s -> inv now (tx_effect now t s).
Proof.
  intros Hinv Hclk Hnow (Hwf & Hst & Hop & Hcr & Hdup).
  apply (inv_mono _ now) in Hinv; [|done]. clear Hclk clk.
  destruct Hinv.
  pose proof (tx_effect_fields now t s) as Hfields. simpl in Hfields.
  set (s' := tx_effect now t s) in *. set (b := mk_block now t s) in *.
  destruct Hfields as (Hbl & Hth & Hts & Hcfg & Hph & Htree & Hcert & Hap & Hq & Hp0).
  assert (fee_of b = op_fee (tx_op (b_tx b))) as Hfee by (by apply fee_of_mk).
  assert (txh (b_tx b) = txh t) as Hbh by done.
  assert (tx_created_at (b_tx b) = tx_created_at t) as Hbc by done.
  (* entries of the new timestamp set *)
  assert (forall ts i, (ts, i) ∈ tx_timestamps s' ->
            (tx_created_at t = Some ts /\ i = nblocks s) \/ (ts, i) ∈ tx_timestamps s) as Hts'.
  { intros ts i. rewrite Hts. destruct (tx_created_at t); [|tauto].
    rewrite elem_of_union, elem_of_singleton. intros [[= -> ->]|]; tauto. }
  assert (forall ts i, (ts, i) ∈ tx_timestamps s -> (ts, i) ∈ tx_timestamps s') as Hts2.
  { intros ts i Hin. rewrite Hts. destruct (tx_created_at t); [|done]. set_solver. }
  assert (forall h e, tx_hashes s !! h = Some e -> tx_hashes s' !! h = Some e) as Hth2.
  { intros h e Hh. rewrite Hth. destruct (tx_created_at t) eqn:Ec; [|done].
    rewrite lookup_insert_ne; [done|]. intros <-. rewrite Hdup in Hh; done. }
  assert (forall i x, blocks s !! i = Some x -> blocks s' !! i = Some x) as Hbl2.
  { intros i x Hi. rewrite Hbl. by apply lookup_app_l_Some. }
  assert (forall i x, blocks s' !! i = Some x ->
            blocks s !! i = Some x \/ (i = length (blocks s) /\ x = b)) as Hbl3.
  { intros i x. rewrite Hbl. apply lookup_snoc. }
  assert (blocks s' !! length (blocks s) = Some b) as Hnew.
  { rewrite Hbl. by apply list_lookup_middle. }
  assert (N.to_nat (nblocks s) = length (blocks s)) as Hnb by (unfold nblocks; lia).
  (* no existing block with created_at has the same transaction *)
  assert (forall i x, blocks s !! i = Some x -> b_tx x = t -> tx_created_at t <> None -> False) as Hfresh.
  { intros i x Hi Hx Hc. destruct (tx_created_at t) as [c|] eqn:Ec; [|done].
    destruct (inv_dropped0 (N.of_nat i) x c) as [Hin|Hold].
    - by rewrite Nat2N.id.
    - by rewrite Hx.
    - destruct (inv_ts0 _ _ Hin) as (x' & e & Hx' & _ & He). rewrite Nat2N.id in Hx'.
      rewrite Hi in Hx'. injection Hx' as <-. rewrite Hx in He. rewrite Hdup in He; done.
    - apply is_before_false in Hcr. congruence. }
  constructor.
  - apply supply_tx_effect; [done|]. by eapply op_bal_ok.
  - rewrite Hph, Hbl, last_snoc. done.
  - intros i x Hi. apply Hbl3 in Hi as [Hi|[-> ->]].
    + rewrite (inv_chain0 i x Hi). destruct i as [|j]; [done|].
      assert (exists y, blocks s !! j = Some y) as [y Hy].
      { apply lookup_lt_is_Some. apply lookup_lt_Some in Hi. lia. }
      rewrite (Hbl2 _ _ Hy), Hy. done.
    + simpl. rewrite inv_phash0. destruct (length (blocks s)) as [|j] eqn:El.
      * apply nil_length_inv in El. rewrite El. done.
      * rewrite last_lookup, El. simpl.
        assert (exists y, blocks s !! j = Some y) as [y Hy].
        { apply lookup_lt_is_Some. lia. }
        rewrite (Hbl2 _ _ Hy), Hy. done.
  - rewrite Htree, inv_tree0, Hbl. by apply tree_of_snoc.
  - rewrite Hcert, Hbl. destruct (blocks s); done.
  - rewrite Hap. destruct Hwf as [Hwf _]. by eapply appr_ok_allow_effect.
  - rewrite Hap, Hq. by eapply queue_allow_effect.
  - intros i x Hi. apply Hbl3 in Hi as [Hi|[-> ->]]; [by eapply inv_blk0|].
    simpl. split; [|lia]. done.
  - intros i j bi bj Hij Hi Hj. apply Hbl3 in Hi as [Hi|[-> ->]]; apply Hbl3 in Hj as [Hj|[-> ->]].
    + by eapply (inv_time0 i j).
    + simpl. by destruct (inv_blk0 _ _ Hi).
    + apply lookup_lt_Some in Hj. lia.
    + lia.
  - intros k. pose proof (bal_tx_effect now t s k Hst (op_bal_ok _ _ _ Hop)) as Hbal.
    fold s' b in Hbal. rewrite Hbal, Hbl, log_balance_app. simpl. rewrite inv_balance0. lia.
  - intros k. rewrite Hap, Hbl. unfold log_allowance. rewrite foldl_app. simpl.
    apply allowance_step_agree; [done|done|]. apply inv_allow0.
  - intros i x k n Hi Hsp. apply Hbl3 in Hi as [Hi|[-> ->]].
    + rewrite Hbl, take_app_le by (apply lookup_lt_Some in Hi; lia). by eapply inv_spends0.
    + rewrite Hbl, take_app. rewrite spent_by_op in Hsp by done. simpl in Hsp.
      destruct (op_spend_ok _ _ _ _ _ Hop Hsp) as (cur & e & Hk & He & Hn).
      destruct (inv_allow0 k) as [H1 _]. exists cur, (exp_opt e).
      split; [by apply H1|]. split; [done|]. unfold exp_opt.
      destruct (N.eqb_spec e 0); simpl; [done|]. lia.
  - intros ts i Hin. apply Hts' in Hin as [[Hc ->]|Hin].
    + exists b, (nblocks s, None). rewrite Hnb. split; [done|]. split; [done|].
      rewrite Hth, Hc, Hbh. by rewrite lookup_insert.
    + destruct (inv_ts0 _ _ Hin) as (x & e & Hx & Hc & He). exists x, e.
      split; [by apply Hbl2|]. split; [done|]. by apply Hth2.
  - intros ts1 i1 b1 ts2 i2 b2 H1 H2 Hb1 Hb2 Hh.
    apply Hts' in H1 as [[Hc1 ->]|H1]; apply Hts' in H2 as [[Hc2 ->]|H2].
    + done.
    + exfalso. destruct (inv_ts0 _ _ H2) as (x & e & Hx & Hc & He).
      pose proof (Hbl2 _ _ Hx) as Hx'. rewrite Hb2 in Hx'. injection Hx' as <-.
      rewrite Hnb, Hnew in Hb1. injection Hb1 as <-. rewrite <- Hh, Hbh in He.
      rewrite Hdup in He; [done|]. by rewrite Hc1.
    + exfalso. destruct (inv_ts0 _ _ H1) as (x & e & Hx & Hc & He).
      pose proof (Hbl2 _ _ Hx) as Hx'. rewrite Hb1 in Hx'. injection Hx' as <-.
      rewrite Hnb, Hnew in Hb2. injection Hb2 as <-. rewrite Hh, Hbh in He.
      rewrite Hdup in He; [done|]. by rewrite Hc2.
    + destruct (inv_ts0 _ _ H1) as (x & e & Hx & _). destruct (inv_ts0 _ _ H2) as (y & e' & Hy & _).
      pose proof (Hbl2 _ _ Hx) as Hx'. pose proof (Hbl2 _ _ Hy) as Hy'.
      rewrite Hb1 in Hx'. rewrite Hb2 in Hy'. injection Hx' as <-. injection Hy' as <-.
      eapply inv_ts_inj0; [exact H1|exact H2|done|done|done].
  - intros h i c Hh.
    assert ((tx_created_at t <> None /\ h = txh t /\ i = nblocks s) \/ tx_hashes s !! h = Some (i, c))
      as [(Hc & -> & ->)|Hold].
    { rewrite Hth in Hh. destruct (tx_created_at t); [|by right].
      apply lookup_insert_Some in Hh as [[<- [= <- <-]]|[? ?]]; [by left|by right]. }
    + split.
      * exists b. rewrite Hnb. done.
      * destruct (tx_created_at t) as [ts|] eqn:Ec; [|done].
        exists ts, (nblocks s), b. rewrite Hnb. split; [|done].
        rewrite Hts. set_solver.
    + destruct (inv_hashes0 _ _ _ Hold) as [(x & Hx & Hxh) (ts & j & y & Hin & Hy & Hyh)].
      split.
      * exists x. split; [by apply Hbl2|done].
      * exists ts, j, y. split; [by apply Hts2|]. split; [by apply Hbl2|done].
  - intros i x ts Hi Hc. apply Hbl3 in Hi as [Hi|[Hi ->]].
    + destruct (inv_dropped0 _ _ _ Hi Hc); [left; by apply Hts2|by right].
    + left. rewrite Hbc in Hc. rewrite Hts, Hc.
      assert (i = nblocks s) as -> by (unfold nblocks; lia). set_solver.
  - intros i j bi bj Hi Hj Heq Hc. apply Hbl3 in Hi as [Hi|[-> ->]]; apply Hbl3 in Hj as [Hj|[-> ->]].
    + by eapply inv_unique0.
    + exfalso. eapply (Hfresh i bi Hi); [done|]. by rewrite Heq in Hc.
    + exfalso. by eapply (Hfresh j bj Hj).
    + done.
  - rewrite Hp0, Hbl.
    assert (Forall (fun m => m = LogApprovalZero
              \/ (m = LogPruneHashMismatch /\ tx_collision (blocks s ++ [b]))) (p0 s)) as Hold.
    { eapply Forall_impl; [done|]. simpl. intros m [?|[? ?]]; [by left|right].
      split; [done|]. by apply tx_collision_app. }
    destruct (tx_op t) as [to a f | from to sp a f | from sp a | from sp a ea ex f]; simpl; try done;
      unfold spend_allowance, record_approval; repeat case_match; simpl; try done;
      try (constructor; [by left|done]).
Qed.

(** ** Other primitive transitions *)

(** Removing an expired approval *)
Definition drop_approval (e : N) (k : apkey) (s : state) : state :=
  set_exp_queue (exp_queue s ∖ {[ (e, k) ]}) (set_approvals (delete k (approvals s)) s).

Lemma inv_drop_approval now k a e s :
  inv now s -> approvals s !! k = Some (a, e) -> 0 < e -> e <= now ->
  inv now (drop_approval e k s).
Proof.
  intros [] Hk He Hnow. constructor; try done.
  - intros k' a' e'. simpl. intros Hl. apply lookup_delete_Some in Hl as [_ Hl].
    by eapply inv_appr0.
  - simpl. pose proof (queue_ok_delete _ _ _ _ _ inv_queue0 Hk) as Hd.
    destruct (N.ltb_spec 0 e); [done|lia].
  - intros k'. simpl. destruct (decide (k' = k)) as [->|Hne].
    + rewrite lookup_delete. destruct (inv_allow0 k) as [H1 H2]. split; [done|].
      intros a' x Hl. right. split; [done|]. destruct (H2 _ _ Hl) as [Ho|[Ho _]].
      * rewrite Hk in Ho. injection Ho as <- ->. destruct x as [e'|]; simpl in *; [|lia]. eauto.
      * congruence.
    + rewrite lookup_delete_ne by done. apply inv_allow0.
Qed.

(** Removing the deduplication entry of an old transaction *)
Definition drop_tx (ts i : N) (s : state) : state :=
  prune_tx_hash i (set_tx_timestamps (tx_timestamps s ∖ {[ (ts, i) ]}) s).

(** Fields not touched by [prune_tx_hash] *)
Lemma prune_tx_hash_fields i s :
  let s' := prune_tx_hash i s in
  blocks s' = blocks s /\ balances s' = balances s /\ approvals s' = approvals s
  /\ exp_queue s' = exp_queue s /\ tx_timestamps s' = tx_timestamps s /\ cfg s' = cfg s
  /\ phash s' = phash s /\ total_supply s' = total_supply s /\ hash_tree s' = hash_tree s
  /\ certified s' = certified s.
Proof. simpl. unfold prune_tx_hash. repeat case_match; done. Qed.

Lemma inv_drop_tx now ts i s :
  inv now s -> (ts, i) ∈ tx_timestamps s -> is_before_transaction_window ts now = true ->
  inv now (drop_tx ts i s).
Proof.
  intros Hinv Hin Hold. unfold drop_tx.
  set (s1 := set_tx_timestamps (tx_timestamps s ∖ {[ (ts, i) ]}) s).
  destruct Hinv. destruct (inv_ts0 _ _ Hin) as (b & [i' c] & Hb & Hc & He).
  assert (prune_tx_hash i s1 =
          (if i' =? i then (fun x => x) else log_p0 LogPruneHashMismatch)
            (set_tx_hashes (delete (txh (b_tx b)) (tx_hashes s)) s1)) as Hp.
  { unfold prune_tx_hash. simpl. rewrite Hb, tx_hash_txh, He. destruct (i' =? i); done. }
  rewrite Hp. clear Hp.
  assert (inv now (set_tx_hashes (delete (txh (b_tx b)) (tx_hashes s)) s1)) as Hinv'.
  { constructor; try done.
    - intros ts' j Hj. simpl in Hj. apply elem_of_difference in Hj as [Hj Hne].
      rewrite elem_of_singleton in Hne.
      destruct (inv_ts0 _ _ Hj) as (x & e & Hx & Hxc & He'). exists x, e.
      split; [done|]. split; [done|]. simpl. rewrite lookup_delete_ne; [done|].
      intros Hh. apply Hne.
      assert (i = j) as -> by (eapply (inv_ts_inj0 ts i b ts' j x); done).
      simpl in Hx. rewrite Hb in Hx. injection Hx as ->. congruence.
    - intros ts1 i1 b1 ts2 i2 b2 H1 H2. simpl in H1, H2.
      apply elem_of_difference in H1 as [H1 _]. apply elem_of_difference in H2 as [H2 _].
      by eapply inv_ts_inj0.
    - intros h j c' Hh. simpl in Hh. apply lookup_delete_Some in Hh as [Hne Hh].
      destruct (inv_hashes0 _ _ _ Hh) as [Hx (ts' & j' & y & Hin' & Hy & Hyh)].
      split; [done|]. exists ts', j', y. simpl. split; [|done].
      apply elem_of_difference. split; [done|]. rewrite elem_of_singleton.
      intros [= -> ->]. rewrite Hb in Hy. injection Hy as ->. done.
    - intros j x ts' Hx Hxc. simpl in Hx. destruct (inv_dropped0 _ _ _ Hx Hxc) as [Hj|?]; [|by right].
      simpl. destruct (decide ((ts', j) = (ts, i))) as [[= -> ->]|Hne]; [by right|].
      left. apply elem_of_difference. split; [done|]. by rewrite elem_of_singleton. }
  destruct (N.eqb_spec i' i) as [->|Hne]; [done|].
  assert (tx_collision (blocks s)) as Hcol.
  { destruct (inv_hashes0 _ _ _ He) as [(x & Hx & Hxh) _].
    exists (N.to_nat i'), (N.to_nat i), x, b. split; [done|]. split; [done|]. split; [|done].
    intros Heq. apply Hne. apply N2Nat.inj. eapply inv_unique0; [done|done|done|]. rewrite Heq. by rewrite Hc. }
  clear -Hinv' Hcol. destruct Hinv'. constructor; try done.
  simpl. constructor; [by right|]. done.
Qed.

(** Recording the canister created by a transaction *)
Definition note_canister (h : hash) (i : N) (c : principal) (s : state) : state :=
  match tx_hashes s !! h with
  | Some _ => set_tx_hashes (<[h := (i, Some c)]> (tx_hashes s)) s
  | None => s
  end.

Lemma inv_note_canister now i b c s :
  inv now s -> blocks s !! N.to_nat i = Some b ->
  inv now (note_canister (txh (b_tx b)) i c s).
Proof.
  intros Hinv Hb. unfold note_canister.
  destruct (tx_hashes s !! txh (b_tx b)) as [[i' c']|] eqn:Eh; [|done].
  destruct Hinv.
  constructor; try done.
  - intros ts j Hj. simpl in Hj. destruct (inv_ts0 _ _ Hj) as (x & e & Hx & Hxc & He).
    simpl. destruct (decide (txh (b_tx x) = txh (b_tx b))) as [Heq|Hne].
    + exists x, (i, Some c). rewrite Heq. by rewrite lookup_insert.
    + exists x, e. by rewrite lookup_insert_ne.
  - intros h j c'' Hh. simpl in Hh. apply lookup_insert_Some in Hh as [[<- [= <- <-]]|[Hne Hh]].
    + destruct (inv_hashes0 _ _ _ Eh) as [_ H2]. split; [|done]. by exists b.
    + by eapply inv_hashes0.
Qed.

End WithEnv.
