(** * What the metrics page shows

    C67 *)
From Coq Require Import Ascii.
From Verif Require Import Base Types Codec CodecFacts State Ledger Canister Http Effects Spec ApiSpec
  Inv Steps World CallFacts CallCases StepFacts AllowFacts PropertiesLog PropertiesDedup PropertiesCalls
  PropertiesAuth PropertiesPaging PropertiesPrune PropertiesQuery Demo.

(** ** Specification *)

(** The whole numbers among the double-precision numbers: significand of 53 bits *)
Definition is_double (m : N) : Prop := exists q e, q < 2 ^ 53 /\ m = q * 2 ^ e.
Definition distance (a b : N) : N := (a - b) + (b - a).
(** [m] is the double-precision number nearest to [n]. *)
Definition nearest_double (n m : N) : Prop :=
  is_double m /\ forall d, is_double d -> distance n m <= distance n d.
(** The page has one gauge called [name].  Its value is as close to [n] as a
    double-precision number can be: exact below [2^53] and right to one part in
    [2^53] above. *)
Definition gauge (gs : list (string * N)) (name : string) (n : N) : Prop :=
  exists m, (forall m', (name, m') ∈ gs <-> m' = m)
    /\ nearest_double n m /\ (n < 2 ^ 53 -> m = n) /\ distance n m * 2 ^ 53 <= n.

(** ** Rounding *)
Lemma two_pow_pos e : 0 < 2 ^ e.
Proof. pose proof (N.pow_nonzero 2 e). lia. Qed.

Section Rounding.
Context (n : N) (Hbig : 2 ^ 53 <= n).
Let e := N.log2 n - 52.
Let q := n / 2 ^ e.
Let r := n mod 2 ^ e.

Lemma log2_big : 53 <= N.log2 n.
Proof. change 53 with (N.log2 (2 ^ 53)). by apply N.log2_le_mono. Qed.
Lemma parts : n = q * 2 ^ e + r /\ r < 2 ^ e /\ 2 ^ 52 <= q < 2 ^ 53 /\ 2 ^ e = 2 * 2 ^ (e - 1).
Proof.
  pose proof (two_pow_pos e) as He. pose proof log2_big as Hl.
  assert (n = q * 2 ^ e + r) as E by (unfold q, r; rewrite (N.mul_comm (n / _)); apply N.div_mod; lia).
  assert (r < 2 ^ e) as Hr by (apply N.mod_lt; lia).
  destruct (N.log2_spec n) as [L1 L2]; [pose proof (two_pow_pos 53); lia|].
  assert (2 ^ N.log2 n = 2 ^ 52 * 2 ^ e) as P1 by (rewrite <- N.pow_add_r; f_equal; unfold e; lia).
  assert (2 ^ N.succ (N.log2 n) = 2 ^ 53 * 2 ^ e) as P2 by (rewrite <- N.pow_add_r; f_equal; unfold e; lia).
  split; [done|]. split; [done|]. split; [|rewrite <- N.pow_succ_r'; f_equal; unfold e; lia].
  rewrite P1 in L1. rewrite P2 in L2. split.
  - apply N.div_le_lower_bound; [lia|]. rewrite N.mul_comm. done.
  - apply N.div_lt_upper_bound; [lia|]. rewrite N.mul_comm. done.
Qed.
(** No double-precision number lies strictly between two neighbours. *)
Lemma no_double_between d : is_double d -> d <= q * 2 ^ e \/ (q + 1) * 2 ^ e <= d.
Proof.
  destruct parts as (_ & _ & [Hq _] & _). intros (q' & e' & Hq' & ->).
  destruct (N.le_gt_cases e e') as [He|He].
  - replace (2 ^ e') with (2 ^ (e' - e) * 2 ^ e) by (rewrite <- N.pow_add_r; f_equal; lia).
    rewrite N.mul_assoc. destruct (N.le_gt_cases (q' * 2 ^ (e' - e)) q); [left|right]; apply N.mul_le_mono_r; lia.
  - left. replace (2 ^ e) with (2 ^ (e - e' - 1) * 2 * 2 ^ e').
    2: { rewrite <- (N.pow_1_r 2) at 2. rewrite <- !N.pow_add_r. f_equal. lia. }
    rewrite N.mul_assoc. apply N.mul_le_mono_r. pose proof (two_pow_pos (e - e' - 1)).
    assert (2 ^ 53 = 2 ^ 52 * 2) as E53 by reflexivity.
    generalize dependent (2 ^ 53). generalize dependent (2 ^ 52). generalize dependent (2 ^ (e - e' - 1)). clear. intros. nia.
Qed.
End Rounding.

Lemma rounding_error n m d A P h r :
  n = A + r -> r < P -> P = 2 * h -> (m = A /\ r <= h) \/ (m = A + P /\ h <= r) ->
  distance n m <= h /\ (d <= A \/ A + P <= d -> distance n m <= distance n d).
Proof. unfold distance. intros -> Hr -> Hm. split; [lia|]. intros Hd. destruct Hm as [[-> Hm]|[-> Hm]]; lia. Qed.
Lemma relative_error n dist A P h r q a b :
  n = A + r -> P = 2 * h -> A = q * P -> a <= q -> b = a * 2 -> dist <= h -> dist * b <= n.
Proof.
  intros -> -> -> Ha -> Hd. apply N.le_trans with (q * (2 * h)); [|lia].
  replace (dist * (a * 2)) with (a * (2 * dist)) by lia. apply N.mul_le_mono; lia.
Qed.

Lemma to_f64_spec n :
  nearest_double n (to_f64 n) /\ (n < 2 ^ 53 -> to_f64 n = n) /\ distance n (to_f64 n) * 2 ^ 53 <= n.
Proof.
  unfold to_f64. destruct (N.ltb_spec n (2 ^ 53)) as [Hn|Hn].
  { split; [split|split; [done|]].
    - exists n, 0. split; [done|]. simpl. lia.
    - intros d _. unfold distance. lia.
    - unfold distance. lia. }
  set (e := N.log2 n - 52). set (q := n / 2 ^ e). set (r := n mod 2 ^ e). cbv zeta.
  destruct (parts n Hn) as (E & Hr & Hq & Hhalf). fold e q r in E, Hr, Hq, Hhalf.
  pose proof (no_double_between n Hn) as Hgap. fold e q in Hgap.
  assert (forall m, (m = q * 2 ^ e /\ r <= 2 ^ (e - 1)) \/ (m = (q + 1) * 2 ^ e /\ 2 ^ (e - 1) <= r) ->
    nearest_double n m /\ (n < 2 ^ 53 -> m = n) /\ distance n m * 2 ^ 53 <= n) as Hgoal.
  { intros m Hm. replace ((q + 1) * 2 ^ e) with (q * 2 ^ e + 2 ^ e) in Hm by lia.
    pose proof (fun d => rounding_error n m d _ _ _ _ E Hr Hhalf Hm) as Herr.
    split; [split|split; [intros ?; by destruct (N.lt_irrefl n); eapply N.lt_le_trans|]].
    - destruct Hm as [[-> _]|[-> _]]; [exists q, e; split; [apply Hq|done]|].
      destruct (decide (q + 1 = 2 ^ 53)) as [Eq|Nq].
      + exists (2 ^ 52), (e + 1). split; [reflexivity|]. rewrite N.pow_add_r, N.pow_1_r.
        replace (q * 2 ^ e + 2 ^ e) with ((q + 1) * 2 ^ e) by lia. rewrite Eq.
        change (2 ^ 53) with (2 ^ 52 * 2). rewrite <- N.mul_assoc. f_equal. apply N.mul_comm.
      + exists (q + 1), e. split; [|lia]. destruct Hq as [_ Hq]. revert Hq Nq. generalize (2 ^ 53). clear. lia.
    - intros d Hdd. apply (Herr d). replace (q * 2 ^ e + 2 ^ e) with ((q + 1) * 2 ^ e) by lia. by apply Hgap.
    - eapply (relative_error n _ _ _ _ _ q (2 ^ 52)); [exact E|exact Hhalf|done|apply Hq|done|apply (Herr 0)]. }
  apply Hgoal. destruct (N.ltb_spec r (2 ^ (e - 1))) as [H1|H1]; simpl; [left; split; [done|lia]|].
  destruct (N.eqb_spec r (2 ^ (e - 1))) as [H2|H2]; simpl; [|right; split; [done|lia]].
  destruct (N.even q); [left|right]; (split; [done|lia]).
Qed.

Section WithEnv.
Context `{Env}.

Lemma of_nat_mono (a b : nat) : (a <= b)%nat -> N.of_nat a <= N.of_nat b.
Proof. lia. Qed.
Lemma size_at_least `{Countable K} {A} (m : gmap K A) (l : list K) :
  NoDup l -> (forall k, k ∈ l -> is_Some (m !! k)) -> (length l <= size m)%nat.
Proof.
  intros Hnd Hin. rewrite <- (size_dom (D := gset K)), <- (size_list_to_set (C := gset K) _ Hnd).
  apply subseteq_size. intros k. rewrite elem_of_list_to_set, elem_of_dom. apply Hin.
Qed.

Lemma one_gauge (gs : list (string * N)) name m :
  NoDup gs.*1 -> (name, m) ∈ gs -> forall m', (name, m') ∈ gs <-> m' = m.
Proof.
  intros Hnd Hm m'. split; [|by intros ->]. revert Hnd Hm. induction gs as [|[k v] gs IH]; [by intros _ ?%elem_of_nil|].
  rewrite fmap_cons. intros [Hk Hnd]%NoDup_cons. rewrite !elem_of_cons. cbn [fst] in Hk.
  intros [Hm|Hm] [Hm'|Hm']; [congruence| | |auto]; exfalso; apply Hk; apply elem_of_list_fmap.
  - injection Hm as -> ->. by exists (k, m').
  - injection Hm' as -> ->. by exists (k, m).
Qed.

(** A URL asks for a page if it is its path, or its path followed by a query string. *)
Definition asks_for (url path : string) : Prop :=
  (url = path \/ exists query, url = path ++ "?" ++ query)%string.

Lemma asks_for_path url path : url_path path = path -> asks_for url path <-> url_path url = path.
Proof.
  intros Hp. split.
  - intros [->|[q ->]]; [done|]. revert Hp. induction path as [|c path IH]; [done|].
    change (String c path +:+ "?" +:+ q) with (String c (path +:+ "?" +:+ q)).
    cbn [url_path]. destruct (Ascii.eqb_spec c "?"%char) as [->|_]; [done|].
    intros [= Hp]. f_equal. by apply IH.
  - intros Hu. subst path. clear Hp. induction url as [|c url IH]; [by left|]. cbn [url_path].
    destruct (Ascii.eqb_spec c "?"%char) as [->|_]; [right; by exists url|].
    destruct IH as [IH|[q IH]]; [left; congruence|right; exists q]. rewrite IH at 1. done.
Qed.

(** ** C67 *)

(** The metrics page agrees with what the other interfaces report. *)
Theorem C67_metrics_page w url :
  reachable w -> asks_for url "/metrics" ->
  exists gs, http_request w url = PageMetrics gs
  (* numbers that other interfaces report too *)
  /\ gauge gs "cycles_ledger_total_supply" (icrc1_total_supply (w_led w))
  /\ gauge gs "cycles_ledger_number_of_blocks" (br_log_length (icrc3_get_blocks (w_led w) []))
  /\ gauge gs "cycles_ledger_cycle_balance" (w_cycles w) /\ gauge gs "cycle_balance" (w_cycles w)
  (* every account with funds is counted *)
  /\ (exists n, gauge gs "cycles_ledger_number_of_balances" n
        /\ forall accts, NoDup (to_key <$> accts) -> (forall a, a ∈ accts -> icrc1_balance_of (w_led w) a <> 0) ->
             N.of_nat (length accts) <= n)
  (* every allowance that can be used is counted, and of these those that expire *)
  /\ (exists n m, gauge gs "cycles_ledger_number_of_approvals" n
        /\ gauge gs "cycles_ledger_number_of_approval_expiration_entries" m /\ m <= n
        /\ forall now pairs, w_clock w <= now -> NoDup ((fun x : account * account => (to_key x.1, to_key x.2)) <$> pairs) ->
             (forall f p, (f, p) ∈ pairs -> (usable (w_led w) now f p).1 <> 0) ->
             N.of_nat (length pairs) <= n
             /\ ((forall f p, (f, p) ∈ pairs -> (usable (w_led w) now f p).2 <> None) -> N.of_nat (length pairs) <= m))
  (* every transaction that is still protected against repetition is counted, in both gauges *)
  /\ (exists n, gauge gs "cycles_ledger_number_of_transaction_hashes" n
        /\ gauge gs "cycles_ledger_number_of_transaction_timestamps" n
        /\ forall is, NoDup is ->
             (forall i, i ∈ is -> exists b ts, blocks (w_led w) !! i = Some b
                /\ tx_created_at (b_tx b) = Some ts /\ w_clock w <= ts + DAY + MINUTE) ->
             N.of_nat (length is) <= n).
Proof.
  intros Hr Hu%asks_for_path; [|done]. pose proof (reachable_inv _ Hr) as Hinv. exists (metrics_page w). split; [unfold http_request; by rewrite Hu|].
  assert (forall name n, (forall m', (name, m') ∈ metrics_page w <-> m' = to_f64 n) -> gauge (metrics_page w) name n) as Hg.
  { intros name n Hm. exists (to_f64 n). split; [exact Hm|]. apply to_f64_spec. }
  assert (NoDup (metrics_page w).*1) as Hnd by (apply (bool_decide_eq_true_1 _); vm_compute; reflexivity).
  Local Ltac on_page := apply one_gauge; [assumption|repeat first [apply elem_of_list_here|apply elem_of_list_further]].
  split; [apply Hg; on_page|]. split; [apply Hg; on_page|]. split; [apply Hg; on_page|]. split; [apply Hg; on_page|].
  split; [|split].
  - exists (m_balances (state_metrics (w_led w))). split; [apply Hg; on_page|]. intros accts Hnda Hb.
    cbn [m_balances state_metrics]. rewrite <- (fmap_length to_key accts). apply of_nat_mono, size_at_least; [done|].
    intros k (a & -> & Ha)%elem_of_list_fmap. specialize (Hb a Ha). unfold icrc1_balance_of, balance_of, bal in Hb.
    by destruct (balances (w_led w) !! to_key a).
  - exists (m_approvals (state_metrics (w_led w))), (m_expirations (state_metrics (w_led w))).
    split; [apply Hg; on_page|]. split; [apply Hg; on_page|].
    destruct (C20_queue_matches_approvals w Hr) as [_ ->]. cbn [m_approvals state_metrics].
    split.
    { apply of_nat_mono. rewrite <- !(size_dom (D := gset apkey)). apply subseteq_size. intros k. rewrite !elem_of_dom.
      intros [v [Hv _]%map_filter_lookup_Some]. by exists v. }
    intros now pairs Hnow Hndp Hu'. rewrite <- (fmap_length (fun x : account * account => (to_key x.1, to_key x.2)) pairs).
    assert (forall f p, (f, p) ∈ pairs -> exists v, approvals (w_led w) !! (to_key f, to_key p) = Some v
              /\ (usable (w_led w) now f p).2 = exp_opt v.2) as Hin.
    { intros f p Hfp. specialize (Hu' f p Hfp). destruct (usable (w_led w) now f p) as [n e] eqn:Eu. cbn [fst snd] in *.
      destruct (proj1 (usable_entry w now f p n e Hr) (conj Eu (proj1 (N.neq_0_lt_0 n) Hu'))) as (v & Hv & _ & _ & He).
      exists v. done. }
    split.
    + apply of_nat_mono, size_at_least; [done|]. intros k ([f p] & -> & Hfp)%elem_of_list_fmap.
      destruct (Hin f p Hfp) as (v & Hv & _). by exists v.
    + intros Hex. apply of_nat_mono, size_at_least; [done|]. intros k ([f p] & -> & Hfp)%elem_of_list_fmap.
      destruct (Hin f p Hfp) as (v & Hv & He). exists v. apply map_filter_lookup_Some. split; [done|].
      specialize (Hex f p Hfp). rewrite He in Hex. unfold exp_opt in Hex. cbn [snd]. destruct v as [v1 v2]. cbn [snd] in *.
      destruct (N.eq_dec v2 0) as [->|]; [done|lia].
  - exists (m_tx_hashes (state_metrics (w_led w))). split; [apply Hg; on_page|].
    rewrite (C47_tables_agree w Hr). split; [apply Hg; on_page|]. intros is Hndi His. cbn [m_tx_timestamps state_metrics].
    set (f (i : nat) := (default 0 (b ← blocks (w_led w) !! i; tx_created_at (b_tx b)), N.of_nat i)).
    rewrite <- (fmap_length f is). apply of_nat_mono.
    assert (NoDup (f <$> is)) as Hnd'.
    { apply NoDup_fmap_2; [|done]. intros i j Hij. apply pair_equal_spec in Hij as [_ Hij]. lia. }
    rewrite <- (size_list_to_set (C := gset (N * N)) _ Hnd'). apply subseteq_size. intros x.
    rewrite elem_of_list_to_set. intros (i & -> & Hi)%elem_of_list_fmap.
    destruct (His i Hi) as (b & ts & Hb & Hc & Hw).
    assert (f i = (ts, N.of_nat i)) as -> by (unfold f; rewrite Hb; simpl; by rewrite Hc).
    rewrite <- (Nat2N.id i) in Hb. destruct (inv_dropped _ _ Hinv _ _ _ Hb Hc) as [?|Hd]; [done|].
    apply is_before_spec in Hd; [lia|]. apply (reachable_winv _ Hr).
Qed.

Theorem C67_other_pages w url :
  (~ asks_for url "/metrics" -> ~ asks_for url "/logs" -> http_request w url = PageNotFound)
  /\ (asks_for url "/logs" -> exists n, http_request w url = PageLogs n /\ n <= 1000
        /\ (n = 0 <-> p0 (w_led w) = [])).
Proof.
  unfold http_request. split.
  - rewrite !asks_for_path by done. intros H1 H2. by apply String.eqb_neq in H1 as ->, H2 as ->.
  - rewrite asks_for_path by done. intros ->. eexists. split; [reflexivity|]. split; [lia|]. destruct (p0 (w_led w)); simpl; [done|].
    split; [lia|done].
Qed.

End WithEnv.

(** ** A case that meets the hypotheses *)

(** The page of the demo ledger, asked for with a query string.  The supply of the
    second ledger does not fit 53 bits; it is rounded. *)
Definition rich_world : world :=
  the_world (history T0 (100 * T) (LInit (Config 50 None (Some [(acct alice, 2 ^ 60 + 129)]))) []).
Example C67_case :
  reachable demo_world /\ asks_for "/metrics?x=1" "/metrics"
  /\ http_request demo_world "/metrics?x=1" = PageMetrics (metrics_page demo_world)
  /\ map snd (metrics_page demo_world) = [108 * T; 108 * T; 10; 3; 2; 2; 1; 1; 14999100000000]
  /\ http_request demo_world "/logs" = PageLogs 0 /\ http_request demo_world "/" = PageNotFound
  /\ reachable rich_world
  /\ ("cycles_ledger_total_supply"%string, 2 ^ 60 + 256) ∈ metrics_page rich_world.
Proof.
  split; [apply demo_reachable|]. split; [right; by exists "x=1"%string|]. split; [reflexivity|]. split; [vm_compute; reflexivity|].
  split; [vm_compute; reflexivity|]. split; [reflexivity|].
  split; [apply the_world_reachable; vm_compute; reflexivity|].
  apply elem_of_list_lookup_2 with 8%nat. vm_compute. reflexivity.
Qed.

Print Assumptions C67_metrics_page.
Print Assumptions C67_other_pages.
