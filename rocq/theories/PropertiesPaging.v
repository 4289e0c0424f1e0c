(** * Listing allowances page by page

    C19 C30 *)
From stdpp Require Import sorting.
From Verif Require Import Base Types Codec CodecFacts State Ledger Canister Effects Spec ApiSpec
  Inv Steps World CallFacts CallCases StepFacts AllowFacts DedupFacts PropertiesLog PropertiesDedup
  PropertiesCalls PropertiesAuth Demo.

(** ** The lexicographic order *)
Lemma lexb_refl a : lexb a a = true.
Proof. induction a as [|x a IH]; simpl; [done|]. rewrite N.ltb_irrefl. done. Qed.
Lemma lexb_trans a b c : lexb a b = true -> lexb b c = true -> lexb a c = true.
Proof.
  revert b c. induction a as [|x a IH]; intros [|y b] [|z c]; simpl; try done.
  destruct (N.ltb_spec x y), (N.ltb_spec y x), (N.ltb_spec y z), (N.ltb_spec z y),
    (N.ltb_spec x z), (N.ltb_spec z x); try done; try lia. apply IH.
Qed.
Lemma lexb_total a b : lexb a b = true \/ lexb b a = true.
Proof.
  revert b. induction a as [|x a IH]; intros [|y b]; simpl; try tauto.
  destruct (N.ltb_spec x y), (N.ltb_spec y x); try tauto. apply IH.
Qed.
Lemma lexb_antisym a b : lexb a b = true -> lexb b a = true -> a = b.
Proof.
  revert b. induction a as [|x a IH]; intros [|y b]; simpl; try done.
  destruct (N.ltb_spec x y), (N.ltb_spec y x); try done; try lia. intros. f_equal; [lia|]. by apply IH.
Qed.

Lemma lexb_head x a y b : lexb (x :: a) (y :: b) = true -> x <= y.
Proof. simpl. destruct (N.ltb_spec x y), (N.ltb_spec y x); try done; lia. Qed.

Section Lists.
Context {A : Type}.

(** The first [n] elements that satisfy [P] *)
Lemma filter_sorted_prefix (R : relation A) (P : A -> Prop) `{forall x, Decision (P x)} l :
  StronglySorted R l ->
  (forall x y, R x y -> P y -> P x) ->
  exists l1 l2, l = l1 ++ l2 /\ Forall P l1 /\ Forall (fun x => ~ P x) l2 /\ filter P l = l1.
Proof.
  intros Hs HR. induction Hs as [|x l Hs IH Hx]; [exists [], []; done|].
  destruct (decide (P x)) as [Hp|Hp].
  - destruct IH as (l1 & l2 & -> & H1 & H2 & Hf). exists (x :: l1), l2. split; [done|].
    split; [by constructor|]. split; [done|]. rewrite filter_cons_True by done. by rewrite Hf.
  - exists [], (x :: l). split; [done|]. split; [constructor|].
    assert (Forall (fun x => ~ P x) (x :: l)) as Hall.
    { constructor; [done|]. eapply Forall_impl; [exact Hx|]. intros y Hxy Hy. apply Hp. by eapply HR. }
    split; [done|]. destruct (filter P (x :: l)) as [|y l'] eqn:E; [done|exfalso].
    assert (y ∈ filter P (x :: l)) as Hy by (rewrite E; by left).
    apply elem_of_list_filter in Hy as [Hy Hin]. rewrite Forall_forall in Hall. by eapply Hall.
Qed.

Lemma StronglySorted_filter (R : relation A) (P : A -> Prop) `{forall x, Decision (P x)} l :
  StronglySorted R l -> StronglySorted R (filter P l).
Proof.
  induction 1 as [|x l Hs IH Hx]; [constructor|]. rewrite filter_cons. destruct (decide (P x)); [|done].
  constructor; [done|]. rewrite Forall_forall in *. intros y Hy. apply elem_of_list_filter in Hy as [_ Hy]. auto.
Qed.

(** In a strictly sorted list, what comes after an element is what is larger. *)
Lemma sorted_after (R : relation A) l1 x l2 :
  StronglySorted R (l1 ++ x :: l2) ->
  Forall (fun y => R y x) l1 /\ Forall (fun y => R x y) l2.
Proof.
  induction l1 as [|a l1 IH]; simpl; intros Hs.
  - apply StronglySorted_inv in Hs as [_ Hx]. done.
  - apply StronglySorted_inv in Hs as [Hs Ha]. destruct (IH Hs) as [H1 H2]. split; [|done].
    constructor; [|done]. rewrite Forall_forall in Ha. apply Ha. apply elem_of_app. right. left.
Qed.
End Lists.

(** ** What a client sees *)

(** Principals are totally ordered and the empty one, that of the management
    canister, is the first. *)
Definition principals_ordered `{Env} : Prop :=
  (forall p q, wf_principal p -> wf_principal q -> prank p = prank q -> p = q)
  /\ (forall p, wf_principal p -> prank [] <= prank p).

(** The position of a pair of accounts: owner, subaccount, spender's owner,
    spender's subaccount. *)
Definition position `{Env} (f p : account) : list N :=
  [prank (owner f); (to_key f).2; prank (owner p); (to_key p).2].
Definition before `{Env} (e1 e2 : allowance_entry) : Prop :=
  lexb (position (ae_from e1) (ae_spender e1)) (position (ae_from e2) (ae_spender e2)) = true
  /\ position (ae_from e1) (ae_spender e1) <> position (ae_from e2) (ae_spender e2).

(** The pages a client gets that asks again with the last pair until a page is
    empty. *)
Inductive pages `{Env} (s : state) (now : N) (caller : principal) (take : option N)
  : option account -> option account -> list (list allowance_entry) -> Prop :=
| pages_end from prev :
    icrc103_get_allowances s now caller from prev take = [] ->
    pages s now caller take from prev []
| pages_more from prev page e rest :
    icrc103_get_allowances s now caller from prev take = page -> last page = Some e ->
    pages s now caller take (Some (ae_from e)) (Some (ae_spender e)) rest ->
    pages s now caller take from prev (page :: rest).

(** The page size asked for, at most 500 *)
Definition page_size (take : option N) : N :=
  match take with Some t => N.min t 500 | None => 500 end.

Section WithEnv.
Context `{Env}.

(** ** One page *)

Definition rank_lt (a b : apkey * (N * N)) : Prop :=
  lexb (aprank a.1) (aprank b.1) = true /\ a.1 <> b.1.
Definition live (now : N) (v : N * N) : Prop := v.2 = 0 \/ now < v.2.
Instance live_dec now v : Decision (live now v).
Proof. unfold live. apply _. Defined.
Definition entry (e : apkey * (N * N)) : allowance_entry :=
  AllowanceEntry (of_key e.1.1) (of_key e.1.2) e.2.1 (exp_opt e.2.2).

Definition wanted (own : principal) (now : N) (skip : option apkey) (e : apkey * (N * N)) : Prop :=
  e.1.1.1 = own /\ live now e.2 /\ skip <> Some e.1.
Instance wanted_dec own now skip e : Decision (wanted own now skip e).
Proof. unfold wanted. apply _. Defined.

Lemma live_false now a x : (0 <? x) && (x <=? now) = false -> live now (a, x).
Proof. unfold live. simpl. lia. Qed.
Lemma live_true now a x : (0 <? x) && (x <=? now) = true -> ~ live now (a, x).
Proof. unfold live. simpl. lia. Qed.

(** The loop over entries of the owner followed by entries of others *)
Lemma loop_spec from skip mx now l1 l2 acc :
  Forall (fun e => e.1.1.1 = owner from) l1 -> Forall (fun e => e.1.1.1 <> owner from) l2 ->
  get_allowances_loop from skip mx now (l1 ++ l2) acc
  = acc ++ take (N.to_nat mx - length acc) (map entry (filter (wanted (owner from) now skip) l1)).
Proof.
  intros H1 H2. revert acc. induction l1 as [|[k [a x]] l1 IH]; intros acc; simpl app.
  - change (filter (wanted (owner from) now skip) []) with (@nil (apkey * (N * N))). simpl map. rewrite take_nil, app_nil_r.
    induction H2 as [|[k [a x]] l2 Hk H2 IH]; [done|]. cbn [get_allowances_loop].
    match goal with |- context [if ?b then _ else _] => destruct b; [apply IH|] end.
    destruct (mx <=? _); [done|]. rewrite bool_decide_eq_false_2 by done. done.
  - apply Forall_cons in H1 as [Hk H1]. simpl in Hk. cbn [get_allowances_loop].
    match goal with |- context [if ?b then _ else _] => destruct b eqn:Esk end.
    { rewrite IH by done. rewrite filter_cons_False; [done|].
      intros (_ & _ & Hn). destruct skip as [k0|]; [|done]. apply bool_decide_eq_true_1 in Esk. by subst. }
    assert (skip <> Some k) as Hsk.
    { intros ->. by rewrite bool_decide_eq_true_2 in Esk. }
    destruct (N.leb_spec mx (N.of_nat (length acc))) as [Hle|Hle].
    { replace (N.to_nat mx - length acc)%nat with O by lia. by rewrite take_0, app_nil_r. }
    rewrite bool_decide_eq_true_2 by done. simpl.
    destruct ((0 <? x) && (x <=? now)) eqn:Ex.
    + rewrite IH by done. rewrite filter_cons_False; [done|]. intros (_ & Hl & _). by eapply live_true.
    + rewrite IH by done. rewrite filter_cons_True; [|split; [done|]; split; [by apply live_false|done]].
      simpl map. rewrite app_length. simpl length.
      replace (N.to_nat mx - length acc)%nat with (S (N.to_nat mx - (length acc + 1))) by lia.
      simpl take. rewrite <- app_assoc. done.
Qed.

Definition sorted_approvals (s : state) : list (apkey * (N * N)) :=
  merge_sort ap_le (map_to_list (approvals s)).

Lemma aprank_inj k1 k2 :
  principals_ordered -> wf_key k1.1 -> wf_key k1.2 -> wf_key k2.1 -> wf_key k2.2 ->
  aprank k1 = aprank k2 -> k1 = k2.
Proof.
  intros [Hinj _] [H1 _] [H2 _] [H3 _] [H4 _] E. unfold aprank, akrank in E. simpl in E.
  injection E as E1 E2 E3 E4. destruct k1 as [[p1 s1] [p2 s2]], k2 as [[q1 t1] [q2 t2]]. simpl in *.
  apply Hinj in E1; [|done..]. apply Hinj in E3; [|done..]. by subst.
Qed.

Lemma sorted_approvals_spec w :
  principals_ordered -> reachable w ->
  StronglySorted rank_lt (sorted_approvals (w_led w)) /\ NoDup (sorted_approvals (w_led w))
  /\ (forall k v, (k, v) ∈ sorted_approvals (w_led w) <-> approvals (w_led w) !! k = Some v).
Proof.
  intros Hord Hr. pose proof (reachable_inv _ Hr) as Hi.
  assert (forall k v, (k, v) ∈ sorted_approvals (w_led w) <-> approvals (w_led w) !! k = Some v) as Hin.
  { intros k v. unfold sorted_approvals. rewrite merge_sort_Permutation. apply elem_of_map_to_list. }
  assert (NoDup (fst <$> sorted_approvals (w_led w))) as Hnd.
  { unfold sorted_approvals. rewrite merge_sort_Permutation. apply NoDup_fst_map_to_list. }
  split; [|split; [by eapply NoDup_fmap_1|done]].
  assert (StronglySorted ap_le (sorted_approvals (w_led w))) as Hs.
  { apply StronglySorted_merge_sort.
    - intros a b c. unfold ap_le. apply lexb_trans.
    - intros a b. unfold ap_le. apply lexb_total. }
  clear -Hs Hnd Hin Hord Hi.
  assert (forall e, e ∈ sorted_approvals (w_led w) -> wf_key e.1.1 /\ wf_key e.1.2) as Hwf.
  { intros [k [a x]] He. apply Hin in He. apply (inv_appr _ _ Hi) in He as (_ & _ & _ & _ & _ & _ & ? & ?). done. }
  clear Hin. induction Hs as [|x l Hs IH Hx]; [constructor|].
  simpl in Hnd. apply NoDup_cons in Hnd as [Hnx Hnd]. constructor.
  - apply IH; [done|]. intros e He. apply Hwf. by right.
  - rewrite Forall_forall in Hx |- *. intros y Hy. split; [by apply Hx|].
    intros E. apply Hnx. rewrite E. apply elem_of_list_fmap. eauto.
Qed.

Definition after (s : state) (own : principal) (now : N) (start : apkey) (incl : bool)
  : list (apkey * (N * N)) :=
  filter (fun e => lexb (aprank start) (aprank e.1) = true /\ (incl = true \/ e.1 <> start)
                   /\ e.1.1.1 = own /\ live now e.2) (sorted_approvals s).

(** One page is the first part of what comes after the start. *)
Lemma get_allowances_after w from prev mx now :
  principals_ordered -> reachable w -> wf_principal (owner from) ->
  get_allowances (w_led w) from prev mx now
  = take (N.to_nat mx)
      (map entry (after (w_led w) (owner from) now
         (match prev with Some sp => approval_key from sp | None => (to_key from, ([], 0)) end)
         (match prev with Some _ => false | None => true end))).
Proof.
  intros Hord Hr Hwf. pose proof (reachable_inv _ Hr) as Hi.
  destruct (sorted_approvals_spec w Hord Hr) as (Hs & Hnd & Hin).
  unfold get_allowances. set (start := match prev with Some sp => approval_key from sp | None => _ end).
  assert (start.1.1 = owner from) as Hst by (by destruct prev).
  unfold approvals_from. fold (sorted_approvals (w_led w)).
  set (l := filter (fun e => lexb (aprank start) (aprank e.1) = true) (sorted_approvals (w_led w))).
  assert (forall e, e ∈ l -> wf_principal e.1.1.1 /\ lexb (aprank start) (aprank e.1) = true) as Hl.
  { intros [k [a x]] He. apply elem_of_list_filter in He as [Hge He]. apply Hin in He.
    apply (inv_appr _ _ Hi) in He as (_ & _ & _ & _ & _ & _ & [? _] & ?). done. }
  assert (StronglySorted rank_lt l) as Hsl by (by apply StronglySorted_filter).
  assert (exists l1 l2, l = l1 ++ l2 /\ Forall (fun e => e.1.1.1 = owner from) l1
            /\ Forall (fun e => e.1.1.1 <> owner from) l2
            /\ filter (fun e => e.1.1.1 = owner from) l = l1) as (l1 & l2 & El & H1 & H2 & Hf).
  { assert (StronglySorted (fun x y => rank_lt x y /\ prank (owner from) <= prank x.1.1.1
       /\ wf_principal x.1.1.1) l) as Hs2.
    { clear -Hsl Hl Hst Hord Hwf. induction Hsl as [|x l Hs IH Hx]; [constructor|].
      constructor; [apply IH; intros e He; apply Hl; by right|].
      rewrite Forall_forall in Hx |- *. intros y Hy. split; [by apply Hx|].
      destruct (Hl x) as [Hwx Hge]; [by left|]. split; [|done].
      rewrite <- Hst. exact (lexb_head _ _ _ _ Hge). }
    eapply filter_sorted_prefix; [exact Hs2|].
    intros x y ([Hxy _] & Hle & Hwx) Hy. destruct Hord as [Hinj _].
    apply Hinj; [done|done|]. apply N.le_antisymm; [|done]. rewrite <- Hy. exact (lexb_head _ _ _ _ Hxy). }
  rewrite El, loop_spec by done. simpl app. simpl length. rewrite Nat.sub_0_r. f_equal. f_equal.
  rewrite <- Hf. unfold l, after. rewrite !list_filter_filter. apply list_filter_iff.
  intros e. unfold wanted. generalize (lexb (aprank start) (aprank e.1) = true) as L. intros L.
  clearbody start. destruct prev as [sp|].
  - assert (Some start <> Some e.1 <-> e.1 <> start) as ->; [|naive_solver].
    split; intros Hne E; apply Hne; congruence.
  - naive_solver.
Qed.

Lemma filter_ext_in {A} (P Q : A -> Prop) `{!forall x, Decision (P x)} `{!forall x, Decision (Q x)} (l : list A) :
  (forall x : A, x ∈ l -> P x <-> Q x) -> filter P l = filter Q l.
Proof.
  induction l as [|x l IH]; intros Hx; [done|]. rewrite !filter_cons.
  rewrite IH by (intros y Hy; apply Hx; by right).
  destruct (decide (P x)) as [Hp|Hp], (decide (Q x)) as [Hq|Hq]; try done.
  - exfalso. apply Hq. apply Hx; [by left|done].
  - exfalso. apply Hp. apply Hx; [by left|done].
Qed.

Lemma filter_none {A} (P : A -> Prop) `{!forall x, Decision (P x)} (l : list A) :
  (forall x : A, x ∈ l -> ~ P x) -> filter P l = [].
Proof.
  induction l as [|x l IH]; intros Hx; [done|]. rewrite filter_cons_False by (apply Hx; by left).
  apply IH. intros y Hy. apply Hx. by right.
Qed.
Lemma filter_all {A} (P : A -> Prop) `{!forall x, Decision (P x)} (l : list A) :
  (forall x : A, x ∈ l -> P x) -> filter P l = l.
Proof.
  induction l as [|x l IH]; intros Hx; [done|]. rewrite filter_cons_True by (apply Hx; by left).
  f_equal. apply IH. intros y Hy. apply Hx. by right.
Qed.

Lemma sorted_wf w k v :
  reachable w -> (k, v) ∈ sorted_approvals (w_led w) -> wf_key k.1 /\ wf_key k.2.
Proof.
  intros Hr Hin. unfold sorted_approvals in Hin. rewrite merge_sort_Permutation in Hin.
  apply elem_of_map_to_list in Hin. destruct v as [a x].
  apply (inv_appr _ _ (reachable_inv _ Hr)) in Hin as (_ & _ & _ & _ & _ & _ & ? & ?). done.
Qed.

Lemma after_sorted w own now start incl :
  principals_ordered -> reachable w -> StronglySorted rank_lt (after (w_led w) own now start incl).
Proof. intros Hord Hr. apply StronglySorted_filter. by apply sorted_approvals_spec. Qed.

Lemma after_next w own now start incl l1 x l2 :
  principals_ordered -> reachable w ->
  after (w_led w) own now start incl = l1 ++ x :: l2 ->
  after (w_led w) own now x.1 false = l2.
Proof.
  intros Hord Hr E. pose proof (after_sorted w own now start incl Hord Hr) as Hs.
  assert (x ∈ after (w_led w) own now start incl) as Hx.
  { rewrite E. apply elem_of_app. right. left. }
  apply elem_of_list_filter in Hx as [(Hge & Hi & Ho & Hl) Hxin].
  assert (after (w_led w) own now x.1 false
    = filter (fun e => lexb (aprank x.1) (aprank e.1) = true /\ e.1 <> x.1)
        (after (w_led w) own now start incl)) as ->.
  { unfold after. rewrite list_filter_filter. apply filter_ext_in. intros e He. split.
    - intros (H1 & [H2|H2] & H3 & H4); [done|]. split; [done|]. split; [by eapply lexb_trans|].
      split; [|done]. destruct (decide (e.1 = start)) as [Es|]; [|by right].
      exfalso. apply H2. rewrite Es in *. destruct e as [k v], x as [k' v']. simpl in *.
      destruct (sorted_wf _ _ _ Hr He), (sorted_wf _ _ _ Hr Hxin).
      apply aprank_inj; try done; [by subst|by subst|]. by apply lexb_antisym.
    - intros ([H1 H2] & _ & _ & H3 & H4). split; [done|]. split; [by right|]. done. }
  rewrite E in *. destruct (sorted_after _ _ _ _ Hs) as [H1 H2].
  assert (forall e, e ∈ l1 ++ x :: l2 -> e ∈ sorted_approvals (w_led w)) as Hsub.
  { intros e He. rewrite <- E in He. by apply elem_of_list_filter in He as [_ ?]. }
  rewrite filter_app, filter_cons_False by (by intros [_ ?]).
  rewrite Forall_forall in H1, H2. rewrite filter_none, filter_all; [done| |].
  - intros e He. destruct (H2 e He) as [? ?]. split; [done|congruence].
  - intros e He [Hxe Hne]. destruct (H1 e He) as [Hex _]. apply Hne.
    assert (e ∈ l1 ++ x :: l2) as He' by (apply elem_of_app; by left). apply Hsub in He'.
    destruct e as [k v], x as [k' v']. simpl in *.
    destruct (sorted_wf _ _ _ Hr He'), (sorted_wf _ _ _ Hr Hxin).
    apply aprank_inj; try done. by apply lexb_antisym.
Qed.

Definition max_of (take : option N) : N :=
  match take with
  | Some t => N.min (default MAX_TAKE_ALLOWANCES (nat_to_u64 t)) MAX_TAKE_ALLOWANCES
  | None => MAX_TAKE_ALLOWANCES
  end.
Lemma max_of_page_size take : max_of take = page_size take.
Proof.
  unfold max_of, page_size, nat_to_u64, MAX_TAKE_ALLOWANCES. destruct take as [t|]; [|done].
  assert (500 < U64_MOD) by done. destruct (N.ltb_spec t U64_MOD); simpl; lia.
Qed.

(** Where the listing starts *)
Definition cursor (from : account) (prev : option account) : apkey :=
  match prev with Some sp => approval_key from sp | None => (to_key from, ([], 0)) end.
Definition inclusive (prev : option account) : bool := match prev with Some _ => false | None => true end.

Lemma page_after w now caller from prev take :
  principals_ordered -> reachable w ->
  wf_principal (owner (default (Acct caller None) from)) ->
  icrc103_get_allowances (w_led w) now caller from prev take
  = list.take (N.to_nat (page_size take))
      (map entry (after (w_led w) (owner (default (Acct caller None) from)) now
                    (cursor (default (Acct caller None) from) prev) (inclusive prev))).
Proof.
  intros Hord Hr Hwf. unfold icrc103_get_allowances. fold (max_of take).
  rewrite max_of_page_size. by apply get_allowances_after.
Qed.

Lemma cursor_entry x : cursor (ae_from (entry x)) (Some (ae_spender (entry x))) = x.1.
Proof. destruct x as [[[p1 s1] [p2 s2]] v]. done. Qed.

(** Splitting off one page *)
Lemma page_cases w now caller from prev take L :
  principals_ordered -> reachable w ->
  wf_principal (owner (default (Acct caller None) from)) -> 0 < page_size take ->
  L = after (w_led w) (owner (default (Acct caller None) from)) now
        (cursor (default (Acct caller None) from) prev) (inclusive prev) ->
  let page := icrc103_get_allowances (w_led w) now caller from prev take in
  (L = [] /\ page = [])
  \/ exists l1 x l2, L = (l1 ++ [x]) ++ l2 /\ page = map entry (l1 ++ [x]) /\ last page = Some (entry x)
       /\ (length page <= N.to_nat (page_size take))%nat
       /\ (owner (ae_from (entry x)) = owner (default (Acct caller None) from))
       /\ after (w_led w) (owner (default (Acct caller None) from)) now x.1 false = l2.
Proof.
  intros Hord Hr Hwf Hp EL. cbv zeta. rewrite page_after, <- EL by done.
  set (n := N.to_nat (page_size take)). assert (0 < n)%nat as Hn by (unfold n; lia). clearbody n.
  destruct L as [|y L]; [left; split; [done|by destruct n]|right].
  assert (exists l1 x, list.take n (y :: L) = l1 ++ [x]) as (l1 & x & Et).
  { destruct n as [|n]; [lia|]. simpl. destruct (list.take n L) as [|z l] using rev_ind.
    - exists [], y. done.
    - exists (y :: l), z. done. }
  exists l1, x, (list.drop n (y :: L)).
  rewrite <- (take_drop n (y :: L)) at 1. rewrite Et. split; [done|].
  assert (list.take n (map entry (y :: L)) = map entry (l1 ++ [x])) as ->.
  { change (map entry) with (fmap (M:=list) entry). rewrite <- fmap_take. by rewrite Et. }
  split; [done|]. split; [rewrite map_app; simpl map; apply last_snoc|].
  split. { rewrite map_length, <- Et, take_length. lia. }
  assert (x ∈ after (w_led w) (owner (default (Acct caller None) from)) now
        (cursor (default (Acct caller None) from) prev) (inclusive prev)) as Hx.
  { rewrite <- EL, <- (take_drop n (y :: L)), Et. apply elem_of_app. left. apply elem_of_app. right. by left. }
  apply elem_of_list_filter in Hx as [(_ & _ & Ho & _) _]. split; [done|].
  eapply (after_next w _ now _ _ l1 x); [exact Hord|exact Hr|]. rewrite <- EL.
  rewrite <- (take_drop n (y :: L)) at 1. rewrite Et, <- app_assoc. done.
Qed.

Lemma pages_after w now caller take ps from prev :
  principals_ordered -> reachable w ->
  wf_principal (owner (default (Acct caller None) from)) -> 0 < page_size take ->
  pages (w_led w) now caller take from prev ps ->
  concat ps = map entry (after (w_led w) (owner (default (Acct caller None) from)) now
                (cursor (default (Acct caller None) from) prev) (inclusive prev))
  /\ Forall (fun page => page <> [] /\ (length page <= N.to_nat (page_size take))%nat) ps.
Proof.
  intros Hord Hr Hwf Hp Hpg. induction Hpg as [from prev He|from prev page e rest He Hl Hpg IH].
  - destruct (page_cases w now caller from prev take _ Hord Hr Hwf Hp eq_refl) as [[-> _]|(l1 & x & l2 & _ & Hpage & Hlast & _)].
    + split; [done|constructor].
    + rewrite He in Hlast. done.
  - destruct (page_cases w now caller from prev take _ Hord Hr Hwf Hp eq_refl)
      as [[_ Hn]|(l1 & x & l2 & EL & Hpage & Hlast & Hlen & Ho & Hnext)].
    + rewrite Hn in He. subst page. done.
    + rewrite He in *. rewrite Hl in Hlast. injection Hlast as ->.
      change (default (Acct caller None) (Some (ae_from (entry x)))) with (ae_from (entry x)) in IH. rewrite Ho in IH. destruct (IH Hwf) as [Hc Hf].
      rewrite cursor_entry in Hc. simpl inclusive in Hc. rewrite Hnext in Hc.
      split; [|constructor; [|done]].
      * simpl concat. rewrite Hc, Hpage, EL, (map_app _ (l1 ++ [x]) l2). done.
      * split; [|done]. rewrite Hpage, map_app. simpl. by destruct (map entry l1).
Qed.

Lemma pages_exist w now caller take from prev :
  principals_ordered -> reachable w ->
  wf_principal (owner (default (Acct caller None) from)) -> 0 < page_size take ->
  exists ps, pages (w_led w) now caller take from prev ps.
Proof.
  intros Hord Hr Hwf Hp.
  remember (length (after (w_led w) (owner (default (Acct caller None) from)) now
              (cursor (default (Acct caller None) from) prev) (inclusive prev))) as n eqn:En.
  revert from prev En Hwf. induction n as [n IH] using lt_wf_ind. intros from prev En Hwf.
  destruct (page_cases w now caller from prev take _ Hord Hr Hwf Hp eq_refl)
    as [[_ Hn]|(l1 & x & l2 & EL & Hpage & Hlast & Hlen & Ho & Hnext)].
  - exists []. by constructor.
  - destruct (IH (length l2)) with (from := Some (ae_from (entry x))) (prev := Some (ae_spender (entry x)))
      as [ps Hps].
    + rewrite En, EL, !app_length. simpl. lia.
    + change (default (Acct caller None) (Some (ae_from (entry x)))) with (ae_from (entry x)). rewrite Ho, cursor_entry. simpl inclusive. by rewrite Hnext.
    + change (default (Acct caller None) (Some (ae_from (entry x)))) with (ae_from (entry x)). by rewrite Ho.
    + eexists. eapply pages_more; [reflexivity|exact Hlast|exact Hps].
Qed.

(** An entry is what can be used. *)
Lemma usable_entry w now f p a e :
  reachable w ->
  usable (w_led w) now f p = (a, e) /\ 0 < a
  <-> exists v, approvals (w_led w) !! approval_key f p = Some v /\ live now v
                /\ a = v.1 /\ e = exp_opt v.2.
Proof.
  intros Hr. unfold usable. rewrite icrc2_allowance_view. unfold view.
  destruct (approvals (w_led w) !! approval_key f p) as [[a' x]|] eqn:Ek.
  - apply (inv_appr _ _ (reachable_inv _ Hr)) in Ek as (Hpos & _). unfold live, exp_opt.
    destruct ((0 <? x) && (x <? now)) eqn:Eb; simpl.
    + split; [intros [[= <- <-] ?]; lia|]. intros (v & [= <-] & Hl & -> & ->). simpl in *. lia.
    + destruct (N.eqb_spec x 0) as [->|Hne]; simpl.
      * split; [intros [[= <- <-] ?]|intros (v & [= <-] & Hl & -> & ->); done].
        exists (a', 0). split; [done|]. split; [by left|done].
      * destruct (decide (now < x)) as [Hlt|Hlt].
        -- split; [intros [[= <- <-] ?]|intros (v & [= <-] & Hl & -> & ->); simpl; by destruct (N.eqb_spec x 0)].
           exists (a', x). split; [done|]. split; [by right|]. simpl. by destruct (N.eqb_spec x 0).
        -- split; [intros [[= <- <-] ?]; lia|]. intros (v & [= <-] & [Hl|Hl] & -> & ->); simpl in *; lia.
  - simpl. split; [intros [[= <- <-] ?]; lia|]. intros (v & ? & _). done.
Qed.

Lemma to_of_key k : to_key (of_key k) = k.
Proof. by destruct k. Qed.

(** The entries listed from a start account on *)
Lemma listed_iff w now start f p a e :
  principals_ordered -> reachable w ->
  (exists x, x ∈ map entry (after (w_led w) (owner start) now (cursor start None) true)
     /\ to_key (ae_from x) = to_key f /\ to_key (ae_spender x) = to_key p
     /\ ae_amount x = a /\ ae_expires x = e)
  <-> owner f = owner start /\ (to_key start).2 <= (to_key f).2
      /\ usable (w_led w) now f p = (a, e) /\ 0 < a.
Proof.
  intros Hord Hr. rewrite (usable_entry w now f p a e Hr).
  destruct (sorted_approvals_spec w Hord Hr) as (_ & _ & Hin).
  assert (forall k, wf_key k.2 -> k.1.1 = owner start ->
     lexb (aprank (cursor start None)) (aprank k) = true <-> (to_key start).2 <= k.1.2) as Hlex.
  { intros [[p1 s1] [p2 s2]] [Hw _] Ho. destruct Hord as [_ Hmin]. simpl in Hw, Ho. specialize (Hmin _ Hw).
    subst p1. unfold aprank, akrank. cbn [app cursor fst snd lexb].
    change (to_key start).1 with (owner start). rewrite N.ltb_irrefl.
    destruct (N.ltb_spec (to_key start).2 s1); [split; [lia|done]|].
    destruct (N.ltb_spec s1 (to_key start).2); [split; [done|lia]|].
    split; [lia|intros _]. destruct (N.ltb_spec (prank []) (prank p2)); [done|].
    destruct (N.ltb_spec (prank p2) (prank [])); [lia|].
    destruct (N.ltb_spec 0 s2); [done|]. destruct (N.ltb_spec s2 0); [lia|done]. }
  split.
  - intros (y & Hy & Hf & Hp & Ha & He). apply elem_of_list_In, in_map_iff in Hy as ([k v] & <- & Hy).
    apply elem_of_list_In, elem_of_list_filter in Hy as [(Hge & _ & Ho & Hl) Hy]. cbn [fst snd] in *.
    destruct (sorted_wf _ _ _ Hr Hy) as [Hw1 Hw2]. apply Hin in Hy.
    unfold entry in *. simpl in *. rewrite to_of_key in Hf, Hp.
    assert (k = approval_key f p) as Ek by (destruct k; simpl in *; by subst).
    split; [by rewrite Ek in Ho|]. split. { rewrite Hlex in Hge by done. by rewrite Ek in Hge. }
    exists v. rewrite <- Ek. done.
  - intros (Ho & Hle & v & Hv & Hl & -> & ->). apply Hin in Hv as Hv'.
    destruct (sorted_wf _ _ _ Hr Hv') as [Hw1 Hw2].
    exists (entry (approval_key f p, v)). split.
    + apply elem_of_list_In, in_map. apply elem_of_list_In, elem_of_list_filter. split; [|done].
      split; [|split; [by left|done]]. exact (proj2 (Hlex (approval_key f p) Hw2 Ho) Hle).
    + simpl. rewrite !to_of_key. done.
Qed.

(** ** C30 *)

(** The client gets to an empty page, whatever the positive page size. *)
Theorem C30_paging_ends w now caller from take :
  principals_ordered -> reachable w ->
  wf_principal (owner (default (Acct caller None) from)) -> 0 < page_size take ->
  exists ps, pages (w_led w) now caller take from None ps.
Proof. intros. by apply pages_exist. Qed.

Theorem C30_pages_list_every_live_allowance_once w now caller from take ps :
  principals_ordered -> reachable w ->
  let start := default (Acct caller None) from in
  wf_principal (owner start) -> 0 < page_size take ->
  pages (w_led w) now caller take from None ps ->
  (* in strictly increasing order, so no pair twice *)
  StronglySorted before (concat ps)
  (* exactly the usable allowances of the owner's accounts from the start on *)
  /\ (forall f p a e,
        (exists x, x ∈ concat ps /\ same_account (ae_from x) f /\ same_account (ae_spender x) p
           /\ ae_amount x = a /\ ae_expires x = e)
        <-> owner f = owner start /\ (to_key start).2 <= (to_key f).2
            /\ usable (w_led w) now f p = (a, e) /\ 0 < a)
  (* in pages of the size asked for *)
  /\ Forall (fun page => page <> [] /\ (length page <= N.to_nat (page_size take))%nat) ps.
Proof.
  intros Hord Hr start Hwf Hp Hpg.
  destruct (pages_after w now caller take ps from None Hord Hr Hwf Hp Hpg) as [Hc Hf].
  fold start in Hc. simpl inclusive in Hc. rewrite Hc. split; [|split; [|done]].
  - assert (forall e, e ∈ after (w_led w) (owner start) now (cursor start None) true ->
      wf_key e.1.1 /\ wf_key e.1.2) as Hw.
    { intros [k v] He. apply elem_of_list_filter in He as [_ He]. by eapply sorted_wf. }
    pose proof (after_sorted w (owner start) now (cursor start None) true Hord Hr) as Hs.
    revert Hs Hw. generalize (after (w_led w) (owner start) now (cursor start None) true) as L.
    induction 1 as [|x l Hs IH Hx]; intros Hw; simpl; [constructor|].
    constructor; [apply IH; intros e He; apply Hw; by right|].
    rewrite Forall_forall in Hx. apply Forall_forall. intros y Hy. apply elem_of_list_In, in_map_iff in Hy as (z & <- & Hz).
    apply elem_of_list_In in Hz. destruct (Hx z Hz) as [Hlt Hne].
    destruct (Hw x) as [Hw1 Hw2]; [by left|]. destruct (Hw z) as [Hw3 Hw4]; [by right|].
    split; [exact Hlt|]. intros E. apply Hne. apply aprank_inj; try done.
  - intros f p a e. rewrite <- (listed_iff w now start f p a e Hord Hr).
    split; intros (x & Hx & H1 & H2 & H3); exists x; (split; [done|]); (split; [|split; [|done]]);
      try (by apply same_key); by apply key_same.
Qed.

(** ** C19: the queries and the spending check agree *)

(** What the listing shows of an account is exactly what can be used. *)
Theorem C19_listed_is_usable w now caller f p a e :
  principals_ordered -> reachable w -> wf_principal (owner f) ->
  (exists take ps x, 0 < page_size take /\ pages (w_led w) now caller take (Some f) None ps
     /\ x ∈ concat ps /\ same_account (ae_from x) f /\ same_account (ae_spender x) p
     /\ ae_amount x = a /\ ae_expires x = e)
  <-> usable (w_led w) now f p = (a, e) /\ 0 < a.
Proof.
  intros Hord Hr Hwf. split.
  - intros (take & ps & x & Hp & Hpg & Hx).
    destruct (C30_pages_list_every_live_allowance_once w now caller (Some f) take ps Hord Hr Hwf Hp Hpg) as (_ & Hl & _).
    destruct (Hl f p a e) as [Hl1 _]. destruct Hl1 as (_ & _ & ?); [by exists x|done].
  - intros Hu. destruct (C30_paging_ends w now caller (Some f) None Hord Hr Hwf) as [ps Hps]; [done|].
    destruct (C30_pages_list_every_live_allowance_once w now caller (Some f) None ps Hord Hr Hwf ltac:(done) Hps) as (_ & Hl & _).
    destruct (Hl f p a e) as [_ Hl2]. destruct Hl2 as (x & Hx & ?);
      [split; [done|]; split; [apply N.le_refl|exact Hu]|].
    exists None, ps, x. done.
Qed.

(** What [icrc2_allowance] reports can be used, unless it expires at this very
    moment. *)
Theorem C19_reported_is_usable_partial (w : world) now f p :
  (icrc2_allowance (w_led w) now f p).2 <> Some now ->
  usable (w_led w) now f p = icrc2_allowance (w_led w) now f p.
Proof.
  unfold usable. rewrite icrc2_allowance_view. unfold view.
  destruct (approvals (w_led w) !! approval_key f p) as [[a x]|]; [|done].
  destruct ((0 <? x) && (x <? now)) eqn:Eb; [done|]. unfold exp_opt.
  destruct (N.eqb_spec x 0); [done|]. simpl. intros Hne. destruct (decide (now < x)); [done|].
  exfalso. apply Hne. f_equal. lia.
Qed.

(** A spend that is accepted was covered by what can be used. *)
Theorem C19_spends_are_covered w now caller c sync w' resp from x n :
  reachable w -> ev_ok w (EvCall now caller c sync) ->
  step w (EvCall now caller c sync) = (w', resp) -> rejected resp = false ->
  spends_from caller c = Some (from, x, n) -> ~ same_account x from ->
  n + icrc1_fee <= (usable (w_led w) now from x).1.
Proof.
  intros Hr Hev Hst Hrej Hsf Hne.
  destruct (C18_spending_needs_live_allowance _ _ _ _ _ _ _ _ _ _ Hr Hev Hst Hsf) as (a & e & Ha & Hun & Hle);
    [intros E; by apply Hne, key_same|done|].
  unfold usable. rewrite Ha. by rewrite decide_True.
Qed.

End WithEnv.

(** ** The finding *)

(** At the nanosecond an allowance expires, [icrc2_allowance] still reports it
    although it can no longer be spent and is not listed any more. *)
Theorem C19_reported_at_expiry_refuted :
  exists (w : world) now a,
    reachable w /\ w_clock w <= now
    /\ icrc2_allowance (w_led w) now (acct alice) (acct bob) = (a, Some now) /\ 0 < a
    /\ usable (w_led w) now (acct alice) (acct bob) = (0, None)
    /\ icrc103_get_allowances (w_led w) now alice None None None = []
    /\ let ev := EvCall now bob (CallTransferFrom None (acct alice) (acct carol) 1 None None None) None in
       ev_ok w ev /\ (step w ev).2 = RespReply (RepTransferFrom (Err (TFGenericError 100003))).
Proof.
  exists demo_world, (T0 + 3600 * sec), (4 * T - 4 * FEE).
  split; [apply demo_reachable|]. split; [vm_compute; congruence|]. split; [vm_compute; reflexivity|].
  split; [vm_compute; reflexivity|]. split; [vm_compute; reflexivity|]. split; [vm_compute; reflexivity|].
  cbv zeta. split; [apply ev_okb_ok; vm_compute; reflexivity|vm_compute; reflexivity].
Qed.

(** ** Cases that meet the hypotheses *)
Lemma demo_principals_ordered : principals_ordered.
Proof.
  split.
  - intros p q Hp Hq. unfold wf_principal in *. cbn [prank demo_env]. unfold demo_prank. intros E.
    pose proof (from_be_lt p) as Lp. pose proof (from_be_lt q) as Lq.
    assert (forall l : principal, (length l <= 29)%nat -> 256 ^ N.of_nat (length l) <= 2 ^ 232) as Hb.
    { intros l Hl. change (2 ^ 232) with (256 ^ 29). apply N.pow_le_mono_r; lia. }
    pose proof (Hb p Hp). pose proof (Hb q Hq). assert (2 ^ 232 < 2 ^ 240) by (vm_compute; reflexivity).
    assert (from_be p = from_be q /\ length p = length q) as [E1 E2] by nia.
    rewrite <- (be_fixed_from_be p), <- (be_fixed_from_be q). by rewrite E1, E2.
  - intros p _. cbn [prank demo_env]. unfold demo_prank. rewrite from_be_nil. simpl length. lia.
Qed.

(** alice lists three allowances in pages of two. *)
Definition paging_events : list event :=
  [ EvCall (T0 + 1 * sec) carol (CallDeposit (100 * T) (acct alice) None) None;
    EvCall (T0 + 2 * sec) carol (CallDeposit (100 * T) alice1 None) None;
    EvCall (T0 + 3 * sec) alice (CallApprove None (acct carol) 1 None (Some (T0 + 50 * sec)) None None None) None;
    EvCall (T0 + 3 * sec) alice (CallApprove (Some 1) (acct bob) 2 None None None None None) None;
    EvCall (T0 + 3 * sec) alice (CallApprove None (acct bob) 3 None None None None None) None;
    EvCall (T0 + 3 * sec) alice (CallApprove None (acct canister) 4 None (Some (T0 + 4 * sec)) None None None) None ].
Definition paging_world : world := the_world (history T0 (100 * T) demo_init paging_events).
Definition entry_of (f p : account) (a : N) (e : option N) : allowance_entry :=
  AllowanceEntry (of_key (to_key f)) (of_key (to_key p)) a e.
Example C30_case :
  reachable paging_world
  /\ pages (w_led paging_world) (T0 + 10 * sec) alice (Some 2) None None
       [ [entry_of (acct alice) (acct bob) 3 None; entry_of (acct alice) (acct carol) 1 (Some (T0 + 50 * sec))];
         [entry_of alice1 (acct bob) 2 None] ].
Proof.
  split; [apply the_world_reachable; vm_compute; reflexivity|].
  eapply pages_more; [vm_compute; reflexivity|vm_compute; reflexivity|].
  eapply pages_more; [vm_compute; reflexivity|vm_compute; reflexivity|].
  apply pages_end. vm_compute. reflexivity.
Qed.

Print Assumptions C30_paging_ends.
Print Assumptions C30_pages_list_every_live_allowance_once.
Print Assumptions C19_listed_is_usable.
Print Assumptions C19_reported_is_usable_partial.
Print Assumptions C19_spends_are_covered.
Print Assumptions C19_reported_at_expiry_refuted.
