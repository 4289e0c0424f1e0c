(** * What an owner can lose while doing nothing

    C53 *)
From Verif Require Import Base Types Codec CodecFacts CodecProofs State Ledger Canister Effects Spec ApiSpec
  Inv Steps World CallFacts CallCases StepFacts AllowFacts RefundFacts AsyncFacts EventFacts
  PropertiesLog PropertiesDedup PropertiesCalls PropertiesAuth Demo.

(** ** Sums over lists without repetition *)
Lemma sum_over_perm {A} (f : A -> N) l l' : l ≡ₚ l' -> sum_over f l = sum_over f l'.
Proof. induction 1; simpl; unfold sum_over in *; simpl; lia. Qed.
Lemma sum_over_cover `{EqDecision A} (f : A -> N) l l' :
  NoDup l -> (forall x, x ∈ l -> f x <> 0 -> x ∈ l') -> sum_over f l <= sum_over f l'.
Proof.
  intros Hn. revert l'. induction Hn as [|x l Hx Hn IH]; intros l' Hl; [simpl; lia|].
  simpl. destruct (decide (f x = 0)) as [E|E].
  - rewrite E. apply IH. intros y Hy. apply Hl. by right.
  - assert (x ∈ l') as Hin by (apply Hl; [by left|done]).
    apply elem_of_Permutation in Hin as [l2 Hp]. rewrite (sum_over_perm _ _ _ Hp). simpl.
    assert (sum_over f l <= sum_over f l2); [|unfold sum_over in *; lia]. apply IH. intros y Hy Hf.
    assert (y ∈ l') as Hy' by (apply Hl; [by right|done]). rewrite Hp in Hy'.
    apply elem_of_cons in Hy' as [->|]; done.
Qed.
Lemma sum_over_same {A} (f g : A -> N) l :
  (forall x, x ∈ l -> f x = g x) -> sum_over f l = sum_over g l.
Proof.
  induction l as [|x l IH]; intros Hs; [done|]. simpl. rewrite (Hs x) by (by left).
  unfold sum_over in *. rewrite IH; [done|]. intros y Hy. apply Hs. by right.
Qed.
Lemma sum_over_add `{EqDecision A} (f g : A -> N) l x n :
  NoDup l -> (forall y, y <> x -> f y = g y) -> f x <= g x + n ->
  sum_over f l <= sum_over g l + n.
Proof.
  intros Hn Hs Hx. induction Hn as [|y l Hy Hn IH]; [simpl; lia|]. simpl.
  destruct (decide (y = x)) as [->|Hne].
  - assert (sum_over f l = sum_over g l); [|unfold sum_over in *; lia].
    apply sum_over_same. intros z Hz. apply Hs. by intros ->.
  - rewrite (Hs y Hne). unfold sum_over in *. lia.
Qed.
Lemma sum_over_drop `{EqDecision A} (f g : A -> N) l x n :
  NoDup l -> x ∈ l -> (forall y, y <> x -> f y = g y) -> f x + n <= g x ->
  sum_over f l + n <= sum_over g l.
Proof.
  intros Hn Hin Hs Hx. apply elem_of_Permutation in Hin as [l2 Hp].
  rewrite Hp in Hn. apply NoDup_cons in Hn as [Hx2 Hn].
  rewrite !(sum_over_perm _ _ _ Hp). simpl.
  assert (sum_over f l2 = sum_over g l2); [|unfold sum_over in *; lia].
  apply sum_over_same. intros z Hz. apply Hs. by intros ->.
Qed.

Lemma some_pair {A B C} (a a' : A) (b b' : B) (c c' : C) :
  Some ((a, b), c) = Some ((a', b'), c') -> a = a' /\ b = b'.
Proof. by intros [= -> -> _]. Qed.

Section WithEnv.
Context `{Env}.

Lemma to_of_key k : to_key (of_key k) = k.
Proof. by destruct k. Qed.

(** ** The allowances of an account according to the log *)
Definition live_of (bs : list block) (now : N) (ka x : akey) : N := (live_allowance bs (ka, x) now).1.

Lemma usable_live_inv now s tm f p :
  inv now s -> now <= tm ->
  usable s tm f p = live_allowance (blocks s) (to_key f, to_key p) tm.
Proof.
  intros Hi Hn. unfold usable. rewrite icrc2_allowance_view. unfold live_allowance, approval_key.
  destruct (inv_allow _ _ Hi (to_key f, to_key p)) as [H1 H2].
  destruct (log_allowance (blocks s) (to_key f, to_key p)) as [[a x]|] eqn:E.
  - destruct (H2 a x eq_refl) as [Hk|(Hk & e & -> & He)].
    + rewrite Hk. specialize (H1 _ _ Hk). injection H1 as Hx. unfold view, exp_opt.
      destruct (N.eqb_spec (default 0 x) 0) as [E0|E0].
      * unfold exp_opt in Hx. rewrite E0 in Hx |- *. simpl in Hx. subst x. simpl. done.
      * unfold exp_opt in Hx. rewrite (proj2 (N.eqb_neq _ _) E0) in Hx. rewrite Hx. cbn [default from_option id].
        destruct (N.ltb_spec 0 (default 0 x)); [|lia]. simpl andb.
        destruct (N.ltb_spec (default 0 x) tm); simpl.
        -- destruct (decide _) as [Hd|]; [simpl in Hd; lia|done].
        -- done.
    + rewrite Hk. simpl. destruct (decide (_ < e)) as [Hd|]; [lia|]. done.
  - destruct (approvals s !! _) as [[a e]|] eqn:Ek; [|done]. by specialize (H1 a e eq_refl).
Qed.

Lemma live_later bs now now' ka x : now <= now' -> live_of bs now' ka x <= live_of bs now ka x.
Proof.
  intros Hn. unfold live_of, live_allowance. destruct (log_allowance bs _) as [[a e]|]; [|done].
  destruct e as [e|]; simpl; [|done]. destruct (decide (now' < e)), (decide (now < e)); simpl; lia.
Qed.

(** A block changes only the pair it names. *)
Lemma live_snoc_other bs b now ka x :
  (forall v, approved_by b <> Some ((ka, x), v)) -> (forall n, spent_by b <> Some ((ka, x), n)) ->
  live_of (bs ++ [b]) now ka x = live_of bs now ka x.
Proof.
  intros Ha Hs. unfold live_of, live_allowance, log_allowance. rewrite foldl_app. simpl.
  set (cur := foldl _ _ bs). unfold allowance_step.
  destruct (approved_by b) as [[k [n e]]|] eqn:E1.
  - rewrite decide_False; [done|]. intros <-. by eapply Ha.
  - destruct (spent_by b) as [[k n]|] eqn:E2; [|done].
    rewrite decide_False; [done|]. intros <-. by eapply Hs.
Qed.
Lemma live_snoc_spent bs b now ka x n :
  approved_by b = None -> spent_by b = Some ((ka, x), n) ->
  live_of (bs ++ [b]) now ka x = live_of bs now ka x - n.
Proof.
  intros Ha Hs. unfold live_of, live_allowance, log_allowance. rewrite foldl_app. simpl.
  set (cur := foldl _ _ bs). unfold allowance_step. rewrite Ha, Hs, decide_True by done.
  destruct cur as [[a e]|]; [|done]. destruct (N.eqb_spec (a - n) 0) as [E|E].
  - destruct (decide (unexpired now e)); simpl; lia.
  - destruct (decide (unexpired now e)); simpl; lia.
Qed.
Lemma live_snoc_approved bs b now ka x n e :
  approved_by b = Some ((ka, x), (n, e)) -> live_of (bs ++ [b]) now ka x <= n.
Proof.
  intros Ha. unfold live_of, live_allowance, log_allowance. rewrite foldl_app. simpl.
  set (cur := foldl _ _ bs). unfold allowance_step. rewrite Ha, decide_True by done.
  destruct (N.eqb_spec n 0) as [E|E]; simpl; [lia|]. destruct (decide (unexpired now e)); simpl; lia.
Qed.

(** ** One transaction of somebody else *)
Definition spender_key (caller : principal) (c : call) : option akey :=
  match c with
  | CallTransferFrom sub _ _ _ _ _ _ => Some (to_key (Acct caller sub))
  | CallWithdrawFrom sub _ _ _ _ => Some (to_key (Acct caller sub))
  | CallCreateCanisterFrom _ sub _ _ _ => Some (to_key (Acct caller sub))
  | _ => None
  end.

Lemma recorded_exposure now caller c s a D :
  inv now s -> is_u64 now -> tx_ok now (requested caller c) s -> caller <> owner a ->
  NoDup D -> (forall k, spender_key caller c = Some k -> k ∈ D) ->
  let s1 := recorded now (requested caller c) s in
  icrc1_balance_of s a + sum_over (live_of (blocks s1) now (to_key a)) D
  <= icrc1_balance_of s1 a + sum_over (live_of (blocks s) now (to_key a)) D.
Proof.
  intros Hi Hu Hok Hc Hn Hsp s1. pose proof (recorded_balance _ _ _ a Hok) as Hb. fold s1 in Hb.
  unfold icrc1_balance_of in *. set (t := requested caller c) in *.
  assert (blocks s1 = blocks s ++ [mk_block now t s]) as Hbs by apply recorded_blocks.
  set (b := mk_block now t s) in *.
  assert (spent_by b = op_spend (tx_op t)) as Hspent.
  { apply spent_by_op. apply fee_of_mk. by destruct Hok as (_ & ? & _). }
  assert (forall sub, to_key (Acct caller sub) <> to_key a) as Hown.
  { intros sub E. apply Hc. by apply key_owner in E. }
  assert (forall x v, approved_by b <> Some ((to_key a, x), v)) as Hap.
  { intros x v. unfold approved_by, b. cbn [mk_block b_tx]. unfold t.
    destruct c; cbn [requested tx_op]; try done. intros [= E _ _]. by apply (Hown from_sub). }
  destruct (op_spend (tx_op t)) as [[[k x] n]|] eqn:Eop; rewrite ?Eop in Hspent.
  - assert (exists from sub, k = to_key from /\ x = to_key (Acct caller sub)
        /\ spender_key caller c = Some x
        /\ forall k', op_taken (tx_op t) k' = if decide (k' = to_key from) then n else 0)
      as (from & sub & -> & -> & Hk & Ht).
    { unfold t in Eop |- *. destruct c; cbn [requested tx_op op_spend op_taken spender_key] in *; try done;
        try (destruct (third_party from (Some (Acct caller _))) as [y|] eqn:Ex; [|done];
             apply third_party_Some in Ex as [Ex _]; injection Ex as <-; injection Eop as <- <- <-;
             eexists from, _; done). }
    assert (approved_by b = None) as Hab.
    { unfold approved_by, b. cbn [mk_block b_tx]. unfold t in Eop |- *. destruct c; done. }
    destruct (decide (to_key from = to_key a)) as [Ea|Ea].
    + rewrite Ht, decide_True in Hb by done.
      assert (n <= live_of (blocks s) now (to_key a) (to_key (Acct caller sub))) as Hcov.
      { destruct (recorded_spend _ _ _ from (Acct caller sub) n now Hi Hu Hok (N.le_refl _) Eop)
          as (n' & e & Hq & Hun & Hle & _).
        unfold live_of. rewrite <- Ea, <- (usable_live_inv now s now from (Acct caller sub) Hi (N.le_refl _)).
        unfold usable. rewrite Hq, decide_True by done. done. }
      assert (sum_over (live_of (blocks s1) now (to_key a)) D + n
              <= sum_over (live_of (blocks s) now (to_key a)) D) as Hsum.
      { apply (sum_over_drop _ _ _ (to_key (Acct caller sub))); [done|by apply Hsp| |].
        - intros y Hy. rewrite Hbs. apply live_snoc_other; [done|]. intros m. rewrite Hspent.
          intros E%some_pair. apply Hy. by destruct E.
        - rewrite Hbs, (live_snoc_spent _ _ _ _ _ n); [lia|done|]. by rewrite Hspent, Ea. }
      lia.
    + rewrite Ht, decide_False in Hb by (intros E; by apply Ea).
      assert (sum_over (live_of (blocks s1) now (to_key a)) D = sum_over (live_of (blocks s) now (to_key a)) D) as ->.
      { apply sum_over_same. intros y _. rewrite Hbs. apply live_snoc_other; [done|]. intros m.
        rewrite Hspent. intros E%some_pair. apply Ea. by destruct E. }
      lia.
  - assert (op_taken (tx_op t) (to_key a) = 0) as Ht.
    { unfold t in Eop |- *. destruct c; cbn [requested tx_op op_spend op_taken] in *; try done;
        (destruct (decide (to_key a = to_key _)) as [Ek|]; [|done]); exfalso;
        try (by eapply Hown); rewrite Ek in Hown;
        match goal with E : match third_party ?f _ with _ => _ end = None |- _ =>
          destruct (third_party f (Some (Acct caller spender_sub))) eqn:Ex; [done|];
          pose proof (proj1 (third_party_None _ _) Ex _ eq_refl) as E'; by eapply Hown
        end. }
    rewrite Ht in Hb.
    assert (sum_over (live_of (blocks s1) now (to_key a)) D = sum_over (live_of (blocks s) now (to_key a)) D) as ->.
    { apply sum_over_same. intros y _. rewrite Hbs. apply live_snoc_other; [done|]. intros m. by rewrite Hspent. }
    lia.
Qed.

Lemma refund_exposure s s' now from sp n m old fb ab a D :
  inv now s -> (is_Some ab -> FEE < n) -> refund_effect s s' now from sp n m old fb ab -> NoDup D ->
  icrc1_balance_of s a + sum_over (live_of (blocks s') now (to_key a)) D
  <= icrc1_balance_of s' a + sum_over (live_of (blocks s) now (to_key a)) D.
Proof.
  intros Hi Hab [_ Hre] Hn. destruct ab as [j|].
  - destruct Hre as (_ & Hb & _ & x & -> & (b1 & b2 & Hbs & _ & _ & H1 & H2) & Hun & _).
    specialize (Hb a). specialize (Hab ltac:(eauto)). unfold if_acct, icrc1_fee in *.
    assert (forall y, live_of (blocks s') now (to_key a) y = live_of ((blocks s ++ [b1]) ++ [b2]) now (to_key a) y) as Hl.
    { intros y. by rewrite Hbs, <- app_assoc. }
    assert (forall y, live_of (blocks s ++ [b1]) now (to_key a) y = live_of (blocks s) now (to_key a) y) as Hl1.
    { intros y. apply live_snoc_other; unfold approved_by, spent_by; rewrite H1; done. }
    assert (spent_by b2 = None) as Hs2 by (unfold spent_by; by rewrite H2).
    destruct (decide (to_key a = to_key from)) as [Ea|Ea].
    + assert (sum_over (live_of (blocks s') now (to_key a)) D
              <= sum_over (live_of (blocks s) now (to_key a)) D + (n - FEE)) as Hsum; [|lia].
      apply (sum_over_add _ _ _ (to_key x)); [done| |].
      * intros y Hy. rewrite Hl, <- Hl1. apply live_snoc_other; [|by rewrite Hs2].
        intros v. unfold approved_by. rewrite H2. cbn [tx_op].
        intros E%some_pair. apply Hy. by destruct E.
      * rewrite Hl. etransitivity.
        { eapply live_snoc_approved. unfold approved_by. rewrite H2. cbn [tx_op]. by rewrite Ea. }
        unfold live_of. rewrite Ea, <- (usable_live_inv now s now from x Hi (N.le_refl _)). lia.
    + assert (sum_over (live_of (blocks s') now (to_key a)) D = sum_over (live_of (blocks s) now (to_key a)) D) as ->; [|lia].
      apply sum_over_same. intros y _. rewrite Hl, <- Hl1. apply live_snoc_other; [|by rewrite Hs2].
      intros v. unfold approved_by. rewrite H2. cbn [tx_op].
      intros E%some_pair. apply Ea. by destruct E.
  - destruct Hre as (Hb & _ & (b & Hbs & _ & Ht) & _). specialize (Hb a).
    assert (sum_over (live_of (blocks s') now (to_key a)) D = sum_over (live_of (blocks s) now (to_key a)) D) as ->; [|lia].
    apply sum_over_same. intros y _. rewrite Hbs.
    apply live_snoc_other; unfold approved_by, spent_by; rewrite Ht; done.
Qed.

Lemma sum_live_later bs now now' ka D :
  now <= now' -> sum_over (live_of bs now' ka) D <= sum_over (live_of bs now ka) D.
Proof.
  intros Hn. induction D as [|x D IH]; [done|]. simpl. pose proof (live_later bs now now' ka x Hn).
  unfold sum_over in *. lia.
Qed.

(** One event that is not a call by the owner *)
Lemma event_exposure w ev w' resp a D :
  reachable w -> ev_ok w ev -> step w ev = (w', resp) -> NoDup D ->
  match ev with
  | EvCall _ caller c _ => caller <> owner a /\ forall k, spender_key caller c = Some k -> k ∈ D
  | _ => True
  end ->
  icrc1_balance_of (w_led w) a + sum_over (live_of (blocks (w_led w')) (w_clock w') (to_key a)) D
  <= icrc1_balance_of (w_led w') a + sum_over (live_of (blocks (w_led w)) (w_clock w) (to_key a)) D.
Proof.
  intros Hr Hev Hst HD Hnc.
  destruct ev as [now caller c sync|now id ans refund|now args|n|n|now id refund].
  - destruct Hnc as [Hnc Hk]. destruct (call_inv _ _ _ _ _ Hr Hev) as (Hi & Hu & _).
    assert (w_clock w' = now /\ w_clock w <= now) as [-> Hclk].
    { destruct Hev as [[? _] _]. split; [|done].
      destruct (step_call _ _ _ _ _ _ _ Hst) as (s' & r & _ & _ & Hm). destruct r; by destruct Hm as [_ ->]. }
    pose proof (sum_live_later (blocks (w_led w)) _ _ (to_key a) D Hclk) as Hlater.
    destruct (rejected resp) eqn:Erj.
    { destruct (step_rejected _ _ _ _ _ _ _ Hr Hev Hst Erj) as [-> _]. lia. }
    destruct (step_accepted _ _ _ _ _ _ _ Hr Hev Hst Erj) as (Hok & r & Ha & _).
    pose proof (recorded_exposure now caller c (w_led w) a D Hi Hu Hok Hnc HD Hk) as H1. cbv zeta in H1.
    assert (inv now (recorded now (requested caller c) (w_led w))) as Hi1 by (by apply recorded_inv).
    destruct (accepted_outcome _ _ _ _ _ _ _ _ Hi Hu Hok Ha) as [Hm|(p & fb & ab & _ & _ & _ & Hab & Hre)].
    + rewrite (same_money_balance _ _ _ Hm). destruct Hm as (_ & _ & _ & ->). lia.
    + pose proof (refund_exposure _ _ _ _ _ _ _ _ _ _ a D Hi1 Hab Hre HD). lia.
  - cbn [step] in Hst. destruct (w_pend w !! id) as [p|] eqn:Ep; [|injection Hst as <- _; lia].
    destruct (resume now p ans) as [k|] eqn:Ek; [|injection Hst as <- _; lia].
    destruct (commit _ _) as [s' r] eqn:Ec. injection Hst as <- <-. cbn [w_led w_clock].
    destruct (reply_inv _ _ _ _ _ Hr Hev) as (Hi & Hu & Hans).
    assert (w_clock w <= now) as Hclk by (by destruct Hev as [[? _] _]).
    pose proof (sum_live_later (blocks (w_led w)) _ _ (to_key a) D Hclk) as Hlater.
    destruct (reachable_winv _ Hr) as (_ & _ & Hwp). destruct (Hwp _ _ Ep) as [_ Hpo].
    destruct (resume_outcome _ _ _ _ _ _ _ _ Hi Hu Hpo (wf_answer_u128 _ Hans) Ek Ec)
      as [(t & _ & ->)|[_ [[Hm _]|(n & code & fb & ab & _ & _ & _ & Hab & Hre)]]].
    + lia.
    + rewrite (same_money_balance _ _ _ Hm). destruct Hm as (_ & _ & _ & ->). lia.
    + pose proof (refund_exposure _ _ _ _ _ _ _ _ _ _ a D Hi Hab Hre HD). lia.
  - assert (w_clock w <= now) as Hclk by (by destruct Hev as [[? _] _]).
    pose proof (sum_live_later (blocks (w_led w)) _ _ (to_key a) D Hclk) as Hlater.
    cbn [step] in Hst. rewrite (reload_eq _ _ (reachable_inv _ Hr)) in Hst.
    destruct (post_upgrade args (set_p0 [] (w_led w))) as [s' o] eqn:E.
    destruct (post_upgrade_cfg _ _ _ _ E) as [cf ->].
    destruct o as [[]|[]|t]; injection Hst as <- _; cbn [w_led w_clock]; [|lia].
    unfold icrc1_balance_of, balance_of, bal. simpl. lia.
  - injection Hst as <- _. simpl. lia.
  - injection Hst as <- _. simpl. lia.
  - assert (w_clock w <= now) as Hclk by (by destruct Hev as [[? _] _]).
    pose proof (sum_live_later (blocks (w_led w)) _ _ (to_key a) D Hclk) as Hlater.
    cbn [step] in Hst. destruct (w_pend w !! id); injection Hst as <- _; cbn [w_led w_clock]; lia.
Qed.

Lemma steps_exposure w tr w' a D :
  reachable w -> steps w tr w' -> NoDup D ->
  (forall now c sync r, (EvCall now (owner a) c sync, r) ∉ tr) ->
  (forall now caller c sync r k, (EvCall now caller c sync, r) ∈ tr -> spender_key caller c = Some k -> k ∈ D) ->
  icrc1_balance_of (w_led w) a + sum_over (live_of (blocks (w_led w')) (w_clock w') (to_key a)) D
  <= icrc1_balance_of (w_led w') a + sum_over (live_of (blocks (w_led w)) (w_clock w) (to_key a)) D.
Proof.
  intros Hr Hs HD Hno Hk. induction Hs as [w|w ev tr w' Hev Hs IH]; [lia|].
  assert (reachable (step w ev).1) as Hr1 by (by constructor).
  specialize (IH Hr1). destruct (step w ev) as [w1 resp] eqn:Est. cbn [fst snd] in *.
  pose proof (event_exposure w ev w1 resp a D Hr Hev Est HD) as H1.
  specialize (IH (fun now c sync r Hin => Hno now c sync r (elem_of_list_further _ _ _ Hin))
                 (fun now caller c sync r k Hin => Hk now caller c sync r k (elem_of_list_further _ _ _ Hin))).
  assert (match ev with
          | EvCall _ caller c _ => caller <> owner a /\ forall k, spender_key caller c = Some k -> k ∈ D
          | _ => True
          end) as Hc.
  { destruct ev as [now caller c sync| | | | |]; try done. split.
    - intros ->. eapply Hno. by left.
    - intros k. eapply Hk. by left. }
  specialize (H1 Hc). lia.
Qed.

(** ** C53 *)

(** What the spenders [xs] can draw from [a] at [now]. *)
Definition can_draw (s : state) (now : N) (a : account) (xs : list account) : N :=
  sum_over (fun x => (usable s now a x).1) xs.

Lemma can_draw_live w tm a xs :
  reachable w -> w_clock w <= tm ->
  can_draw (w_led w) tm a xs = sum_over (live_of (blocks (w_led w)) tm (to_key a)) (to_key <$> xs).
Proof.
  intros Hr Htm. unfold can_draw. induction xs as [|x xs IH]; [done|]. simpl.
  rewrite usable_live by done. unfold live_of in *. unfold sum_over in *. simpl. by rewrite IH.
Qed.

(** While [a]'s owner makes no call, whatever everybody else does, [a] loses at most
    what its spenders could draw at the beginning, and what it lost plus what any
    spenders can still draw stays within that.  [xs] are the spenders with an
    unexpired allowance at the beginning. *)
Theorem C53_idle_owner_loses_at_most_allowances w tr w' a xs ys :
  reachable w -> steps w tr w' ->
  (forall now c sync r, (EvCall now (owner a) c sync, r) ∉ tr) ->
  (forall x, (usable (w_led w) (w_clock w) a x).1 <> 0 -> to_key x ∈ to_key <$> xs) ->
  NoDup (to_key <$> ys) ->
  icrc1_balance_of (w_led w) a + can_draw (w_led w') (w_clock w') a ys
  <= icrc1_balance_of (w_led w') a + can_draw (w_led w) (w_clock w) a xs.
Proof.
  intros Hr Hs Hno Hxs Hys. pose proof (reachable_steps _ _ _ Hr Hs) as Hr'.
  rewrite !can_draw_live by (done || lia).
  set (callers := omap (fun er : event * response =>
         match er.1 with EvCall _ caller c _ => spender_key caller c | _ => None end) tr).
  set (D := remove_dups ((to_key <$> ys) ++ callers)).
  assert (NoDup D) as HD by apply NoDup_remove_dups.
  pose proof (steps_exposure w tr w' a D Hr Hs HD Hno) as Hm.
  assert (forall now caller c sync r k, (EvCall now caller c sync, r) ∈ tr -> spender_key caller c = Some k -> k ∈ D) as Hk.
  { intros now caller c sync r k Hin Hk. apply elem_of_remove_dups, elem_of_app. right.
    apply elem_of_list_omap. eexists. split; [exact Hin|]. exact Hk. }
  specialize (Hm Hk). clear Hk.
  assert (sum_over (live_of (blocks (w_led w')) (w_clock w') (to_key a)) (to_key <$> ys)
          <= sum_over (live_of (blocks (w_led w')) (w_clock w') (to_key a)) D) as H1.
  { apply sum_over_cover; [done|]. intros k Hk _. apply elem_of_remove_dups, elem_of_app. by left. }
  assert (sum_over (live_of (blocks (w_led w)) (w_clock w) (to_key a)) D
          <= sum_over (live_of (blocks (w_led w)) (w_clock w) (to_key a)) (to_key <$> xs)) as H2.
  { apply sum_over_cover; [done|]. intros k _ Hk. rewrite <- (to_of_key k). apply Hxs.
    rewrite (usable_live w) by (done || lia). by rewrite to_of_key. }
  lia.
Qed.

(** In particular, without approvals a balance never falls while its owner makes
    no call. *)
Theorem C53_no_approvals_no_loss w tr w' a :
  reachable w -> steps w tr w' ->
  (forall now c sync r, (EvCall now (owner a) c sync, r) ∉ tr) ->
  (forall x, (usable (w_led w) (w_clock w) a x).1 = 0) ->
  icrc1_balance_of (w_led w) a <= icrc1_balance_of (w_led w') a.
Proof.
  intros Hr Hs Hno Hx.
  pose proof (C53_idle_owner_loses_at_most_allowances w tr w' a [] [] Hr Hs Hno) as Hm.
  unfold can_draw, sum_over in Hm. simpl in Hm.
  assert (forall x, (usable (w_led w) (w_clock w) a x).1 <> 0 -> to_key x ∈ []) as Hn by (intros x []; apply Hx).
  specialize (Hm Hn NoDup_nil_2). lia.
Qed.

End WithEnv.

(** ** A case that meets the hypotheses: alice has approved only bob; bob spends
    while alice does nothing. *)
Lemma only_spender s now a x0 v :
  map_to_list (approvals s) = [(approval_key a x0, v)] ->
  forall x, (usable s now a x).1 <> 0 -> to_key x ∈ to_key <$> [x0].
Proof.
  intros Hs x. unfold usable. rewrite icrc2_allowance_view.
  destruct (approvals s !! approval_key a x) as [v'|] eqn:E; [|done]. intros _.
  apply elem_of_map_to_list in E. rewrite Hs in E. apply elem_of_list_singleton in E.
  assert (approval_key a x = approval_key a x0) as E' by congruence.
  unfold approval_key in E'. assert (to_key x = to_key x0) as -> by congruence. by left.
Qed.

Definition bob_spends : event :=
  EvCall (T0 + 4 * sec) bob (CallTransferFrom None (acct alice) (acct carol) T None None None) None.
Example C53_case :
  let w := demo_at 3 in
  let w' := (step w bob_spends).1 in
  let tr := [(bob_spends, (step w bob_spends).2)] in
  reachable w /\ steps w tr w'
  /\ (forall now c sync r, (EvCall now (owner (acct alice)) c sync, r) ∉ tr)
  /\ (forall x, (usable (w_led w) (w_clock w) (acct alice) x).1 <> 0 -> to_key x ∈ to_key <$> [acct bob])
  /\ icrc1_balance_of (w_led w') (acct alice) < icrc1_balance_of (w_led w) (acct alice)
  /\ can_draw (w_led w') (w_clock w') (acct alice) [acct bob] <> 0.
Proof.
  cbv zeta. split; [apply demo_at_reachable; vm_compute; reflexivity|].
  split; [constructor; [apply ev_okb_ok; vm_compute; reflexivity|constructor]|].
  split.
  { intros now c sync r Hin. apply elem_of_list_singleton in Hin.
    assert (owner (acct alice) <> bob) as Hne by (vm_compute; congruence).
    apply Hne. unfold bob_spends in Hin.
    assert (forall n p c0 s0 n' p' c' s' (r r' : response),
      (EvCall n p c0 s0, r) = (EvCall n' p' c' s', r') -> p = p') as Hinj by congruence.
    by eapply Hinj. }
  split; [|split; [vm_compute; reflexivity|vm_compute; congruence]].
  apply (only_spender _ _ _ _ (5000000000000, 1700003600000000000)). vm_compute. reflexivity.
Qed.

Print Assumptions C53_idle_owner_loses_at_most_allowances.
Print Assumptions C53_no_approvals_no_loss.
