(** * What the allowance query shows before and after a transaction *)
From Verif Require Import Base Types Codec CodecFacts State Ledger Canister Effects Spec ApiSpec
  Inv Steps World CallFacts CallCases.

Section WithEnv.
Context `{Env}.

Definition view (o : option (N * N)) (tm : N) : N * option N :=
  match o with
  | None => (0, None)
  | Some (a, e) => if (0 <? e) && (e <? tm) then (0, None) else (a, exp_opt e)
  end.
Lemma icrc2_allowance_view s tm f p :
  icrc2_allowance s tm f p = view (approvals s !! approval_key f p) tm.
Proof.
  unfold icrc2_allowance, allowance, view.
  destruct (approvals s !! approval_key f p) as [[a e]|]; simpl; [|done].
  destruct (N.ltb_spec 0 e); simpl.
  - destruct (N.ltb_spec e tm); simpl; [done|]. unfold exp_opt.
    destruct (N.ltb_spec 0 e); [|lia]. destruct (N.eqb_spec e 0); [lia|done].
  - unfold exp_opt. destruct (N.ltb_spec 0 e); [lia|]. destruct (N.eqb_spec e 0); [done|lia].
Qed.
Lemma allowance_fst s f p now : (allowance s f p now).1 = (icrc2_allowance s now f p).1.
Proof. done. Qed.

(** Pruning does not change what is shown of unexpired allowances. *)
Lemma prune_view now s tm f p :
  inv now s -> is_u64 now -> now <= tm -> unexpired tm (icrc2_allowance s tm f p).2 ->
  icrc2_allowance (prune_state now s) tm f p = icrc2_allowance s tm f p.
Proof.
  intros Hi Hu Ht. rewrite !icrc2_allowance_view. set (k := approval_key f p).
  destruct (approvals s !! k) as [[a e]|] eqn:Ek; simpl.
  - destruct ((0 <? e) && (e <? tm)) eqn:Ee.
    + intros _. destruct (approvals (prune_state now s) !! k) as [[a' e']|] eqn:Ek'; [|done].
      apply prune_state_sub in Ek' as Ek2. rewrite Ek in Ek2. injection Ek2 as <- <-. simpl. by rewrite Ee.
    + unfold exp_opt. destruct (N.eqb_spec e 0) as [->|Hne]; simpl; intros Hun.
      * rewrite (prune_state_keep _ _ _ _ _ Hi Hu Ek); [done|by left].
      * rewrite (prune_state_keep _ _ _ _ _ Hi Hu Ek); [|right; lia]. simpl. rewrite Ee.
        unfold exp_opt. destruct (N.eqb_spec e 0); done.
  - intros _. destruct (approvals (prune_state now s) !! k) as [v|] eqn:Ek'; [|done].
    apply prune_state_sub in Ek'. congruence.
Qed.

(** The pair an operation touches *)
Definition op_pair (op : operation) : option apkey :=
  match op with
  | Approve from sp _ _ _ _ => Some (approval_key from sp)
  | _ => fst <$> op_spend op
  end.
Lemma tx_effect_approvals now t s : approvals (tx_effect now t s) = approvals (allow_effect (tx_op t) s).
Proof. by destruct (tx_effect_fields now t s) as (_&_&_&_&_&_&_&-> & _). Qed.
Lemma tx_effect_untouched now t s k :
  op_ok now (tx_op t) s -> op_pair (tx_op t) <> Some k ->
  approvals (tx_effect now t s) !! k = approvals s !! k.
Proof.
  intros Hop Hk. rewrite tx_effect_approvals, (lookup_allow_effect now) by done.
  destruct (tx_op t) as [to a f | from to sp a f | from sp a | from sp a ea ex f]; simpl in *.
  - done.
  - destruct (third_party from sp); [|done]. simpl in Hk. rewrite decide_False by congruence. done.
  - destruct (third_party from sp); [|done]. simpl in Hk. rewrite decide_False by congruence. done.
  - rewrite decide_False by congruence. done.
Qed.
Lemma recorded_untouched now t s tm f p :
  inv now s -> is_u64 now -> tx_ok now t s -> now <= tm ->
  op_pair (tx_op t) <> Some (approval_key f p) ->
  unexpired tm (icrc2_allowance s tm f p).2 ->
  icrc2_allowance (recorded now t s) tm f p = icrc2_allowance s tm f p.
Proof.
  intros Hi Hu Hok Ht Hk Hun.
  assert (icrc2_allowance (tx_effect now t s) tm f p = icrc2_allowance s tm f p) as E.
  { rewrite !icrc2_allowance_view, (tx_effect_untouched now) by (done || by destruct Hok as (_ & _ & ? & _)).
    done. }
  rewrite <- E in Hun |- *. apply prune_view; [|done..]. eapply prim_inv; [done|exact Hi|]. by constructor.
Qed.

(** A spend lowers the allowance it uses. *)
Lemma recorded_spend now t s from x n tm :
  inv now s -> is_u64 now -> tx_ok now t s -> now <= tm ->
  op_spend (tx_op t) = Some (approval_key from x, n) ->
  exists a e, icrc2_allowance s now from x = (a, e) /\ unexpired now e /\ n <= a /\ 0 < a
    /\ (unexpired tm e ->
        icrc2_allowance (recorded now t s) tm from x = (a - n, if a - n =? 0 then None else e)).
Proof.
  intros Hi Hu Hok Ht Hsp.
  assert (exists cur e, approvals s !! approval_key from x = Some (cur, e)
            /\ (e = 0 \/ now < e) /\ n <= cur) as (a & e & Hk & He & Hn).
  { destruct Hok as (_ & _ & Hop & _). destruct (tx_op t); simpl in *; try done;
      destruct Hop as [_ Hop]; unfold spend_ok in Hop; destruct (third_party _ _); try done;
      destruct Hop as (cur & e & Hc1 & Hc2 & Hc3);
      match type of Hsp with Some (?k1, ?m1) = Some (?k2, ?m2) =>
        assert (k1 = k2) as Hk1 by congruence; assert (m1 = m2) as <- by congruence end;
      exists cur, e; rewrite <- Hk1; done. }
  pose proof (inv_appr _ _ Hi _ _ _ Hk) as (Ha0 & _).
  exists a, (exp_opt e). rewrite (icrc2_allowance_view s now). unfold view at 1. rewrite Hk.
  assert ((0 <? e) && (e <? now) = false) as -> by lia.
  split; [done|]. split. { unfold exp_opt. destruct (N.eqb_spec e 0); simpl; [done|lia]. }
  split; [done|]. split; [done|]. intros Hun.
  assert (inv now (tx_effect now t s)) as Hi2 by (eapply prim_inv; [done|exact Hi|by constructor]).
  assert (approvals (tx_effect now t s) !! approval_key from x
          = if a - n =? 0 then None else Some (a - n, e)) as Hk2.
  { rewrite tx_effect_approvals, (lookup_allow_effect now) by (by destruct Hok as (_ & _ & ? & _)).
    destruct (tx_op t); simpl in *; try done; rewrite Hsp, decide_True by done; by rewrite Hk. }
  unfold recorded. rewrite (prune_view now _ tm from x Hi2 Hu Ht).
  - rewrite icrc2_allowance_view, Hk2. destruct (N.eqb_spec (a - n) 0) as [E|E]; simpl.
    + by rewrite E.
    + unfold exp_opt in *. destruct (N.eqb_spec e 0) as [->|Hne]; simpl in *; [done|].
      assert ((0 <? e) && (e <? tm) = false) as -> by lia. done.
  - rewrite icrc2_allowance_view, Hk2. destruct (N.eqb_spec (a - n) 0) as [E|E]; simpl; [done|].
    unfold exp_opt in *. destruct (N.eqb_spec e 0) as [->|Hne]; simpl in *; [done|].
    assert ((0 <? e) && (e <? tm) = false) as -> by lia. done.
Qed.

(** An approval sets it. *)
Lemma recorded_approve now t s from sp a ea ex f tm :
  inv now s -> is_u64 now -> tx_ok now t s -> now <= tm ->
  tx_op t = Approve from sp a ea ex f -> unexpired tm ex ->
  icrc2_allowance (recorded now t s) tm from sp = (a, if a =? 0 then None else ex).
Proof.
  intros Hi Hu Hok Ht Hop Hun.
  assert (inv now (tx_effect now t s)) as Hi2 by (eapply prim_inv; [done|exact Hi|by constructor]).
  assert (ex <> Some 0) as Hex.
  { destruct Hok as (_ & Hst & _). rewrite Hop in Hst. destruct Hst as (_ & _ & _ & _ & Hx).
    intros ->. simpl in Hx. lia. }
  assert (approvals (tx_effect now t s) !! approval_key from sp
          = if a =? 0 then None else Some (a, default 0 ex)) as Hk2.
  { rewrite tx_effect_approvals, (lookup_allow_effect now) by (by destruct Hok as (_ & _ & ? & _)).
    rewrite Hop. by rewrite decide_True. }
  assert (icrc2_allowance (tx_effect now t s) tm from sp = (a, if a =? 0 then None else ex)) as E.
  { rewrite icrc2_allowance_view, Hk2. destruct (N.eqb_spec a 0) as [->|Hne]; simpl; [done|].
    rewrite exp_opt_default by done. destruct ex as [e|]; simpl in *; [|done].
    assert ((0 <? e) && (e <? tm) = false) as -> by lia. done. }
  unfold recorded. rewrite (prune_view now _ tm from sp Hi2 Hu Ht); [done|]. rewrite E. simpl. by destruct (a =? 0).
Qed.

(** ** Balances, supply and log after recording *)
Lemma recorded_balance now t s a :
  tx_ok now t s ->
  balance_of (recorded now t s) a + op_taken (tx_op t) (to_key a)
  = balance_of s a + op_given (tx_op t) (to_key a).
Proof.
  intros Hok. unfold balance_of, recorded. rewrite prune_bal.
  pose proof (tx_ok_taken now t s (to_key a) Hok). rewrite tx_effect_bal by done. lia.
Qed.
Lemma recorded_supply now t s :
  inv now s -> tx_ok now t s ->
  total_supply (recorded now t s) + op_burned (tx_op t) = total_supply s + op_minted (tx_op t).
Proof.
  intros Hi Hok. unfold recorded. destruct (prune_state_core now (tx_effect now t s)) as (_&_&_&_& -> &_).
  destruct (tx_effect_supply now t s (inv_supply _ _ Hi) Hok) as [-> ?]. lia.
Qed.
Lemma recorded_nblocks now t s : nblocks (recorded now t s) = nblocks s + 1.
Proof. unfold nblocks. rewrite recorded_blocks, app_length. simpl. lia. Qed.

End WithEnv.
