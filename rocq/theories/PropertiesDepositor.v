(** * Deposits made through the depositor canister

    C58 *)
From Verif Require Import Base Types Codec State Ledger Canister Depositor Effects Spec ApiSpec Inv Steps World
  StepFacts PropertiesLog PropertiesCalls PropertiesHistory Demo.

(** ** Specification: what a history of the two canisters shows *)
Definition trace := list (sys_event * sys_out).
(** Call number [n] of the depositor's [deposit] was made with [arg]. *)
Definition started (tr : trace) (n : N) (arg : dep_arg) : Prop :=
  exists enqueued, (YCall arg enqueued, OutStarted n) ∈ tr.
(** The caller of call [n] was told of success with block [i]; of failure. *)
Definition told_ok (tr : trace) (n i : N) : Prop :=
  exists balance, (YAnswer n, OutAnswer n (Some (RepDeposit i balance))) ∈ tr.
Definition told_failed (tr : trace) (n : N) : Prop := (YAnswer n, OutAnswer n None) ∈ tr.
(** The deposits the ledger made for the depositor: the call and the block *)
Definition credit (x : sys_event * sys_out) : option (N * N) :=
  match x with
  | (YDeliver _ n, OutDelivered (RespReply (RepDeposit i _))) => Some (n, i)
  | _ => None
  end.
Definition credits (tr : trace) : list (N * N) := omap credit tr.
(** What a block of the ledger cost the depositor. *)
Definition block_cost (bs : list block) (i : N) : N :=
  match bs !! N.to_nat i with
  | Some b => match tx_op (b_tx b) with Mint _ amount fee => amount + fee | _ => 0 end
  | None => 0
  end.
Definition topped_up (tr : trace) : N :=
  sum_over (fun x => match x.1 with YTopUp n => n | _ => 0 end) tr.
Definition consumed (tr : trace) : N :=
  sum_over (fun x => match x.1 with YConsume n => n | _ => 0 end) tr.
(** Cycles in requests under way to the ledger, and on their way back *)
Definition outbound (y : sys) : N :=
  sum_over (fun e => da_cycles (rq_arg e.2)) (map_to_list (y_requests y)).
Definition inbound (y : sys) : N := sum_over (fun e => e.2.2) (map_to_list (y_answers y)).

Section WithEnv.
Context `{Env}.

(** ** The invariant *)
Lemma credits_app tr x : credits (tr ++ [x]) = credits tr ++ match credit x with Some c => [c] | None => [] end.
Proof. unfold credits. rewrite omap_app. simpl. by destruct (credit x). Qed.
Lemma started_app tr x n arg : started tr n arg -> started (tr ++ [x]) n arg.
Proof. intros [e He]. exists e. apply elem_of_app. by left. Qed.
Lemma started_snoc tr ev out n arg :
  started (tr ++ [(ev, out)]) n arg <->
  started tr n arg \/ exists e, ev = YCall arg e /\ out = OutStarted n.
Proof.
  unfold started. setoid_rewrite elem_of_app. setoid_rewrite elem_of_list_singleton. split.
  - intros (e & [Ht|[= <- <-]]); [left|right]; eauto.
  - intros [(e & Ht)|(e & -> & ->)]; eauto.
Qed.

Record dep_inv (id ledger : principal) (w0 : world) (cycles : N) (tr : trace) (y : sys) : Prop := DepInv {
  di_id : y_id y = id;
  di_ledger : y_ledger y = ledger;
  di_reach : reachable (y_led y);
  di_prefix : blocks (w_led w0) `prefix_of` blocks (w_led (y_led y));
  di_dest : d_ledger (y_dep y) = ledger \/ d_ledger (y_dep y) = MANAGEMENT_CANISTER;
  di_fresh : forall n arg, started tr n arg -> n < y_next y;
  di_unique : forall n arg arg', started tr n arg -> started tr n arg' -> arg = arg';
  di_wf : forall n arg, started tr n arg -> is_u128 (da_cycles arg) /\ wf_account (da_to arg);
  di_req : forall n q, y_requests y !! n = Some q ->
    started tr n (rq_arg q) /\ n ∉ (credits tr).*1 /\ y_answers y !! n = None
    /\ (rq_dest q = ledger \/ rq_dest q = MANAGEMENT_CANISTER);
  di_ans : forall n r c, y_answers y !! n = Some (r, c) ->
    (exists arg, started tr n arg)
    /\ match r with
       | Some rep => exists i bal, rep = RepDeposit i bal /\ (n, i) ∈ credits tr
       | None => n ∉ (credits tr).*1
       end;
  di_nodup1 : NoDup (credits tr).*1;
  di_nodup2 : NoDup (credits tr).*2;
  di_credit : forall n i, (n, i) ∈ credits tr ->
    N.of_nat (length (blocks (w_led w0))) <= i
    /\ exists arg b, started tr n arg /\ icrc1_fee < da_cycles arg
         /\ blocks (w_led (y_led y)) !! N.to_nat i = Some b
         /\ b_tx b = Tx (Mint (da_to arg) (da_cycles arg - icrc1_fee) icrc1_fee) None (da_memo arg);
  di_ok : forall n r, (YAnswer n, OutAnswer n (Some r)) ∈ tr ->
    exists i bal, r = RepDeposit i bal /\ (n, i) ∈ credits tr;
  di_failed : forall n, told_failed tr n ->
    (exists arg, started tr n arg) /\ n ∉ (credits tr).*1 /\ y_requests y !! n = None;
  di_open : forall n, n ∈ d_open (y_dep y) -> is_Some (y_requests y !! n) \/ is_Some (y_answers y !! n);
  di_cycles : cycles + topped_up tr
    = d_cycles (y_dep y) + outbound y + inbound y + consumed tr
      + sum_over (fun c => block_cost (blocks (w_led (y_led y))) c.2) (credits tr)
}.

Lemma block_cost_prefix bs bs' i b :
  bs `prefix_of` bs' -> bs !! N.to_nat i = Some b -> block_cost bs' i = block_cost bs i.
Proof. intros Hp Hb. unfold block_cost. by rewrite Hb, (prefix_lookup _ _ _ _ Hb Hp). Qed.

Lemma dep_inv_init id ledger w cycles : reachable w -> dep_inv id ledger w cycles [] (sys_init id ledger w cycles).
Proof.
  intros Hr. constructor; simpl; try done.
  - by left.
  - by intros n arg [e He%elem_of_nil].
  - by intros n arg arg' [e He%elem_of_nil].
  - by intros n arg [e He%elem_of_nil].
  - constructor.
  - constructor.
  - by intros n i Hin%elem_of_nil.
  - by intros n r Hin%elem_of_nil.
  - by intros n Hin%elem_of_nil.
  - unfold outbound, inbound, topped_up, consumed. simpl. rewrite !map_to_list_empty. simpl. lia.
Qed.

Lemma quiet_started tr ev out n arg :
  (forall m, out <> OutStarted m) -> started (tr ++ [(ev, out)]) n arg -> started tr n arg.
Proof. intros Ho [Hs|(e & _ & ->)]%started_snoc; [done|]. by destruct (Ho n). Qed.
Lemma quiet_told tr ev out n r :
  (forall m r, out <> OutAnswer m r) -> (YAnswer n, OutAnswer n r) ∈ tr ++ [(ev, out)] -> (YAnswer n, OutAnswer n r) ∈ tr.
Proof. intros Ho [?|Hx%elem_of_list_singleton]%elem_of_app; [done|]. injection Hx as <- <-. by destruct (Ho n r). Qed.

(** Events that neither start, serve, refuse nor finish a deposit *)
Lemma dep_inv_quiet id ledger w0 cycles tr y y' ev out :
  dep_inv id ledger w0 cycles tr y ->
  (forall m, out <> OutStarted m) -> (forall m r, out <> OutAnswer m r) -> credit (ev, out) = None ->
  y_id y' = y_id y -> y_ledger y' = y_ledger y -> reachable (y_led y') ->
  blocks (w_led (y_led y)) `prefix_of` blocks (w_led (y_led y')) ->
  d_ledger (y_dep y') = ledger \/ d_ledger (y_dep y') = MANAGEMENT_CANISTER ->
  y_requests y' = y_requests y -> y_answers y' = y_answers y -> y_next y' = y_next y ->
  d_open (y_dep y') ⊆ d_open (y_dep y) ->
  d_cycles (y_dep y) + topped_up [(ev, out)] = d_cycles (y_dep y') + consumed [(ev, out)] ->
  dep_inv id ledger w0 cycles (tr ++ [(ev, out)]) y'.
Proof.
  intros [] H1 H2 H3 H4 H5 H6 H7 H8 H9 H10 H11 H12 H13.
  assert (credits (tr ++ [(ev, out)]) = credits tr) as Ec by (by rewrite credits_app, H3, app_nil_r).
  constructor; rewrite ?Ec, ?H4, ?H5, ?H9, ?H10, ?H11; try done.
  - by etrans.
  - intros n arg Hs%quiet_started; eauto.
  - intros n arg arg' Hs%quiet_started Hs'%quiet_started; eauto.
  - intros n arg Hs%quiet_started; eauto.
  - intros n q Hq. destruct (di_req0 n q Hq) as (? & ? & ? & ?). split_and!; try done. by apply started_app.
  - intros n r c Hn. destruct (di_ans0 n r c Hn) as [[arg Ha] ?]. split; [|done]. exists arg. by apply started_app.
  - intros n i Hc. destruct (di_credit0 n i Hc) as (Hle & arg & b & Hs & Hf & Hb & Ht). split; [done|].
    exists arg, b. split_and!; try done; [by apply started_app|by eapply prefix_lookup].
  - intros n r Hin%quiet_told; [|done]. by apply di_ok0.
  - intros n Hin%quiet_told; [|done]. destruct (di_failed0 n Hin) as ([arg Ha] & ? & ?). split_and!; try done.
    exists arg. by apply started_app.
  - intros n Hn. by apply di_open0, H12.
  - unfold topped_up, consumed in *. rewrite !sum_over_app.
    assert (outbound y' = outbound y) as -> by (unfold outbound; by rewrite H9).
    assert (inbound y' = inbound y) as -> by (unfold inbound; by rewrite H10).
    rewrite (sum_over_ext (fun c => block_cost (blocks (w_led (y_led y'))) c.2)
               (fun c => block_cost (blocks (w_led (y_led y))) c.2)); [lia|].
    intros [n i] Hin. destruct (di_credit0 n i Hin) as (_ & arg & b & _ & _ & Hb & _).
    by eapply block_cost_prefix.
Qed.

Lemma outbound_insert n q m : m !! n = None ->
  sum_over (fun e => da_cycles (rq_arg e.2)) (map_to_list (<[n := q]> m))
  = da_cycles (rq_arg q) + sum_over (fun e => da_cycles (rq_arg e.2)) (map_to_list (m : gmap N request)).
Proof. intros Hn. by rewrite (sum_over_perm _ _ _ (map_to_list_insert m n q Hn)). Qed.
Lemma outbound_delete n q (m : gmap N request) : m !! n = Some q ->
  sum_over (fun e => da_cycles (rq_arg e.2)) (map_to_list m)
  = da_cycles (rq_arg q) + sum_over (fun e => da_cycles (rq_arg e.2)) (map_to_list (delete n m)).
Proof. intros Hn. by rewrite <- (sum_over_perm _ _ _ (map_to_list_delete m n q Hn)). Qed.
Lemma inbound_insert n (q : option reply * N) m : m !! n = None ->
  sum_over (fun e => e.2.2) (map_to_list (<[n := q]> m))
  = q.2 + sum_over (fun e => e.2.2) (map_to_list (m : gmap N (option reply * N))).
Proof. intros Hn. by rewrite (sum_over_perm _ _ _ (map_to_list_insert m n q Hn)). Qed.
Lemma inbound_delete n q (m : gmap N (option reply * N)) : m !! n = Some q ->
  sum_over (fun e => e.2.2) (map_to_list m) = q.2 + sum_over (fun e => e.2.2) (map_to_list (delete n m)).
Proof. intros Hn. by rewrite <- (sum_over_perm _ _ _ (map_to_list_delete m n q Hn)). Qed.

(** A deposit is started *)
Lemma dep_inv_call id ledger w0 cycles tr y arg e :
  dep_inv id ledger w0 cycles tr y -> sys_ok y (YCall arg e) ->
  dep_inv id ledger w0 cycles (tr ++ [(YCall arg e, (sys_step y (YCall arg e)).2)]) (sys_step y (YCall arg e)).1.
Proof.
  intros HI Hok. simpl. destruct (e && (da_cycles arg <=? d_cycles (y_dep y))) eqn:Ee; simpl.
  2:{ pose proof HI as []. by apply (dep_inv_quiet _ _ _ _ _ y y). }
  destruct HI. apply andb_true_iff in Ee as [-> Hle%N.leb_le].
  assert (forall n arg', started (tr ++ [(YCall arg true, OutStarted (y_next y))]) n arg' ->
            started tr n arg' \/ (n = y_next y /\ arg' = arg)) as Hst.
  { intros n arg' [Hs|(e' & [= <-] & [= <-])]%started_snoc; auto. }
  assert (credits (tr ++ [(YCall arg true, OutStarted (y_next y))]) = credits tr) as Ec
    by (rewrite credits_app; apply app_nil_r).
  assert (y_requests y !! y_next y = None) as Hfr.
  { destruct (y_requests y !! y_next y) as [q|] eqn:E; [|done].
    destruct (di_req0 _ _ E) as (Hs & _). apply di_fresh0 in Hs. lia. }
  assert (y_answers y !! y_next y = None) as Hfa.
  { destruct (y_answers y !! y_next y) as [[r c]|] eqn:E; [|done].
    destruct (di_ans0 _ _ _ E) as ([arg' Hs] & _). apply di_fresh0 in Hs. lia. }
  constructor; simpl; rewrite ?Ec; try done.
  - intros n arg' [Hs|[-> _]]%Hst; [apply di_fresh0 in Hs|]; lia.
  - intros n a1 a2 [H1|[-> ->]]%Hst [H2|[E ->]]%Hst; [by eapply di_unique0| | |done].
    + apply di_fresh0 in H1. lia.
    + apply di_fresh0 in H2. lia.
  - intros n arg' [Hs|[-> ->]]%Hst; [by eapply di_wf0|done].
  - intros n q [[<- <-]|[Hne Hq]]%lookup_insert_Some.
    + split_and!; [|..]; simpl; [|..|done|done].
      * apply started_snoc. right. by exists true.
      * intros ([n i] & E & Hin)%elem_of_list_fmap. simpl in E. subst n.
        destruct (di_credit0 _ _ Hin) as (_ & arg' & b & Hs & _). apply di_fresh0 in Hs. lia.
    + destruct (di_req0 n q Hq) as (? & ? & ? & ?). split_and!; try done. by apply started_app.
  - intros n r c Hn. destruct (di_ans0 n r c Hn) as [[arg' Ha] ?]. split; [|done]. exists arg'. by apply started_app.
  - intros n i Hc. destruct (di_credit0 n i Hc) as (? & arg' & b & Hs & Hf & Hb & Ht). split; [done|].
    exists arg', b. split_and!; try done. by apply started_app.
  - intros n r Hin%quiet_told; [|done]. by apply di_ok0.
  - intros n Hin%quiet_told; [|done]. destruct (di_failed0 n Hin) as ([arg' Ha] & ? & ?). split_and!; [|done|].
    + exists arg'. by apply started_app.
    + rewrite lookup_insert_ne; [done|]. apply di_fresh0 in Ha. lia.
  - intros n [->%elem_of_singleton|Hn]%elem_of_union; [left; by rewrite lookup_insert|].
    destruct (di_open0 n Hn) as [Hs|Hs]; [left|by right].
    rewrite lookup_insert_ne; [done|]. intros <-. rewrite Hfr in Hs. by destruct Hs.
  - unfold outbound, inbound in *. simpl. rewrite outbound_insert by done. simpl.
    unfold topped_up, consumed in *. rewrite !sum_over_app. simpl. lia.
Qed.

(** An answer arrives *)
Lemma dep_inv_answer id ledger w0 cycles tr y n :
  dep_inv id ledger w0 cycles tr y ->
  dep_inv id ledger w0 cycles (tr ++ [(YAnswer n, (sys_step y (YAnswer n)).2)]) (sys_step y (YAnswer n)).1.
Proof.
  intros HI. simpl. destruct (y_answers y !! n) as [[r c]|] eqn:En; simpl.
  2:{ pose proof HI as []. by apply (dep_inv_quiet _ _ _ _ _ y y). }
  set (out := if bool_decide (n ∈ d_open (y_dep y)) then OutAnswer n r else OutQuiet).
  destruct HI. destruct (di_ans0 _ _ _ En) as ([arg Harg] & Hr).
  assert (y_requests y !! n = None) as Hnr.
  { destruct (y_requests y !! n) as [q|] eqn:E; [|done]. destruct (di_req0 _ _ E) as (_ & _ & E' & _). congruence. }
  assert (credits (tr ++ [(YAnswer n, out)]) = credits tr) as Ec
    by (rewrite credits_app; apply app_nil_r).
  assert (forall n' arg', started (tr ++ [(YAnswer n, out)]) n' arg' -> started tr n' arg') as Hst.
  { intros n' arg' [Hs|(e' & [=] & _)]%started_snoc; done. }
  assert (forall n' r', (YAnswer n', OutAnswer n' r') ∈ tr ++ [(YAnswer n, out)] ->
            (YAnswer n', OutAnswer n' r') ∈ tr \/ (n' = n /\ r' = r)) as Htold.
  { intros n' r' [?|Hx%elem_of_list_singleton]%elem_of_app; [by left|]. injection Hx as -> Ho.
    unfold out in Ho. case_bool_decide; [|done]. injection Ho as ->. by right. }
  constructor; simpl; rewrite ?Ec; try done.
  - intros n' arg' Hs%Hst. eauto.
  - intros n' a1 a2 H1%Hst H2%Hst. eauto.
  - intros n' arg' Hs%Hst. eauto.
  - intros n' q Hq. destruct (di_req0 n' q Hq) as (? & ? & E & ?). split_and!; try done; [by apply started_app|].
    apply lookup_delete_None. by right.
  - intros n' r' c' [Hne Hn]%lookup_delete_Some. destruct (di_ans0 n' r' c' Hn) as [[arg' Ha] ?]. split; [|done].
    exists arg'. by apply started_app.
  - intros n' i Hc. destruct (di_credit0 n' i Hc) as (? & arg' & b & Hs & Hf & Hb & Ht). split; [done|].
    exists arg', b. split_and!; try done. by apply started_app.
  - intros n' r' Hin. apply Htold in Hin as [Hin|[-> <-]]; [by apply di_ok0|done].
  - intros n' Hin. apply Htold in Hin as [Hin|[-> <-]].
    + destruct (di_failed0 n' Hin) as ([arg' Ha] & ? & ?). split_and!; try done. exists arg'. by apply started_app.
    + split_and!; try done. exists arg. by apply started_app.
  - intros n' [Hn' Hne%not_elem_of_singleton]%elem_of_difference.
    destruct (di_open0 n' Hn') as [Hs|Hs]; [by left|right]. by rewrite lookup_delete_ne.
  - unfold outbound, inbound in *. simpl. rewrite (inbound_delete _ _ _ En) in di_cycles0. simpl in di_cycles0.
    unfold topped_up, consumed in *. rewrite !sum_over_app. simpl. lia.
Qed.

(** A request is answered *)
Lemma dep_inv_served id ledger w0 cycles tr y n q ev out w' r c :
  dep_inv id ledger w0 cycles tr y -> y_requests y !! n = Some q ->
  (forall m, out <> OutStarted m) -> (forall m r, out <> OutAnswer m r) ->
  topped_up [(ev, out)] = 0 -> consumed [(ev, out)] = 0 ->
  reachable w' -> blocks (w_led (y_led y)) `prefix_of` blocks (w_led w') ->
  match r with
  | None => c = da_cycles (rq_arg q) /\ credit (ev, out) = None
  | Some rep =>
      let i := N.of_nat (length (blocks (w_led (y_led y)))) in
      let a := rq_arg q in
      c = 0 /\ icrc1_fee < da_cycles a
      /\ (exists bal, rep = RepDeposit i bal) /\ credit (ev, out) = Some (n, i)
      /\ exists b, blocks (w_led w') !! N.to_nat i = Some b
           /\ b_tx b = Tx (Mint (da_to a) (da_cycles a - icrc1_fee) icrc1_fee) None (da_memo a)
  end ->
  dep_inv id ledger w0 cycles (tr ++ [(ev, out)])
    (Sys (y_id y) (y_ledger y) w' (y_dep y) (delete n (y_requests y)) (<[n := (r, c)]> (y_answers y)) (y_next y)).
Proof.
  intros [] Hn Ho1 Ho2 Htop Hcon Hreach Hpre Hr.
  destruct (di_req0 n q Hn) as (Hsn & Hnc & Hna & Hdest).
  pose proof (credits_app tr (ev, out)) as Ec.
  assert (forall n' arg', started (tr ++ [(ev, out)]) n' arg' -> started tr n' arg') as Hst.
  { intros n' arg' Hs. by eapply quiet_started. }
  set (i := N.of_nat (length (blocks (w_led (y_led y))))) in *.
  assert (forall n' i', (n', i') ∈ credits tr -> i' < i) as Hlt.
  { intros n' i' Hin. destruct (di_credit0 _ _ Hin) as (_ & arg & b & _ & _ & Hb & _).
    apply lookup_lt_Some in Hb. unfold i. lia. }
  assert (forall n', n' ∈ (credits (tr ++ [(ev, out)])).*1 <->
            n' ∈ (credits tr).*1 \/ (n' = n /\ r <> None)) as Hcr.
  { intros n'. rewrite Ec, fmap_app, elem_of_app. destruct r as [rep|].
    - destruct Hr as (_ & _ & _ & -> & _). simpl. rewrite elem_of_list_singleton.
      split; [intros [?| ->]; [by left|by right]|intros [?|[-> _]]; [by left|by right]].
    - destruct Hr as [_ ->]. simpl. rewrite elem_of_nil. split; [intros [?|[]]; by left|intros [?|[_ []]]; [by left|done]]. }
  assert (forall c', c' ∈ credits tr -> c' ∈ credits (tr ++ [(ev, out)])) as Hsub.
  { intros c' Hin. rewrite Ec. apply elem_of_app. by left. }
  constructor; simpl; try done.
  - by etrans.
  - intros n' arg' Hs%Hst. eauto.
  - intros n' a1 a2 H1%Hst H2%Hst. eauto.
  - intros n' arg' Hs%Hst. eauto.
  - intros n' q' [Hne Hq]%lookup_delete_Some. destruct (di_req0 n' q' Hq) as (? & ? & E & ?).
    split_and!; [by apply started_app| | |done].
    + rewrite Hcr. intros [?|[? _]]; [done|congruence].
    + by rewrite lookup_insert_ne.
  - intros n' r' c' [[<- [= <- <-]]|[Hne Hn']]%lookup_insert_Some.
    + split; [exists (rq_arg q); by apply started_app|]. destruct r as [rep|].
      * destruct Hr as (_ & _ & [bal ->] & Hc & _). exists i, bal. split; [done|].
        rewrite Ec, Hc. apply elem_of_app. right. by apply elem_of_list_singleton.
      * rewrite Hcr. intros [?|[_ ?]]; done.
    + destruct (di_ans0 n' r' c' Hn') as [[arg' Ha] Hr']. split; [exists arg'; by apply started_app|].
      destruct r' as [rep'|].
      * destruct Hr' as (i' & bal & -> & Hin). exists i', bal. split; [done|]. by apply Hsub.
      * rewrite Hcr. intros [?|[? _]]; [done|congruence].
  - rewrite Ec. destruct r as [rep|].
    + destruct Hr as (_ & _ & _ & -> & _). rewrite fmap_app. apply NoDup_app. split_and!; [done| |apply NoDup_singleton].
      intros x Hx ->%elem_of_list_singleton. done.
    + destruct Hr as [_ ->]. by rewrite app_nil_r.
  - rewrite Ec. destruct r as [rep|].
    + destruct Hr as (_ & _ & _ & -> & _). rewrite fmap_app. apply NoDup_app. split_and!; [done| |apply NoDup_singleton].
      intros x Hx ->%elem_of_list_singleton. apply elem_of_list_fmap in Hx as ([n' i'] & E & Hin%Hlt).
      simpl in E. lia.
    + destruct Hr as [_ ->]. by rewrite app_nil_r.
  - intros n' i' Hin. rewrite Ec in Hin. apply elem_of_app in Hin as [Hin|Hin].
    + destruct (di_credit0 n' i' Hin) as (Hle & arg' & b & Hs & Hf & Hb & Ht). split; [done|].
      exists arg', b. split_and!; try done; [by apply started_app|by eapply prefix_lookup].
    + destruct r as [rep|]; [|destruct Hr as [_ E]; rewrite E in Hin; by apply elem_of_nil in Hin].
      destruct Hr as (_ & Hfee & _ & E & b & Hb & Ht). rewrite E in Hin. apply elem_of_list_singleton in Hin.
      injection Hin as -> ->. split.
      * apply prefix_length in di_prefix0. unfold i. lia.
      * exists (rq_arg q), b. split_and!; try done. by apply started_app.
  - intros n' r' Hin%quiet_told; [|done]. destruct (di_ok0 n' r' Hin) as (i' & bal & -> & Hin'). eauto.
  - intros n' Hin. apply quiet_told in Hin; [|done]. destruct (di_failed0 n' Hin) as ([arg' Ha] & Hx & Hy).
    split_and!; [exists arg'; by apply started_app| |].
    + rewrite Hcr. intros [?|[-> _]]; [done|congruence].
    + apply lookup_delete_None. by right.
  - intros n' Hn'. destruct (decide (n' = n)) as [->|Hne]; [right; by rewrite lookup_insert|].
    destruct (di_open0 n' Hn') as [Hs|Hs]; [left; by rewrite lookup_delete_ne|right; by rewrite lookup_insert_ne].
  - unfold outbound, inbound in *. simpl. rewrite inbound_insert by done.
    rewrite (outbound_delete _ _ _ Hn) in di_cycles0. simpl.
    unfold topped_up, consumed in *. rewrite !sum_over_app, Htop, Hcon, Ec, sum_over_app.
    rewrite (sum_over_ext (fun c => block_cost (blocks (w_led w')) c.2)
               (fun c => block_cost (blocks (w_led (y_led y))) c.2) (credits tr)).
    2:{ intros [n' i'] Hin. destruct (di_credit0 n' i' Hin) as (_ & arg & b & _ & _ & Hb & _).
        by eapply block_cost_prefix. }
    destruct r as [rep|].
    + destruct Hr as (-> & Hfee & _ & -> & b & Hb & Ht). simpl. unfold block_cost at 2. rewrite Hb, Ht. simpl.
      unfold icrc1_fee in *. lia.
    + destruct Hr as [-> ->]. simpl. lia.
Qed.

Lemma dep_inv_step id ledger w0 cycles tr y ev :
  wf_principal id -> dep_inv id ledger w0 cycles tr y -> sys_ok y ev ->
  dep_inv id ledger w0 cycles (tr ++ [(ev, (sys_step y ev).2)]) (sys_step y ev).1.
Proof.
  intros Hid HI Hok. destruct ev as [arg e|now n|n|n| |ev|n|n].
  - by apply dep_inv_call.
  - cbn [sys_step]. destruct (y_requests y !! n) as [q|] eqn:En.
    2:{ pose proof HI as []. by apply (dep_inv_quiet _ _ _ _ _ y y). }
    unfold serve. case_bool_decide as Hd.
    + pose proof HI as []. destruct (di_req0 n q En) as (Hs & _). apply di_wf0 in Hs as [Hw1 Hw2].
      set (ev := EvCall now (y_id y) (CallDeposit (da_cycles (rq_arg q)) (da_to (rq_arg q)) (da_memo (rq_arg q))) None).
      assert (ev_ok (y_led y) ev) as Hev.
      { split; [done|]. split; [by rewrite di_id0|]. by split. }
      destruct (step (y_led y) ev) as [w' resp] eqn:Est.
      assert (reachable w') as Hr'.
      { assert (w' = (step (y_led y) ev).1) as -> by (by rewrite Est). by constructor. }
      destruct (C21_deposit_all_or_nothing _ _ _ _ _ _ _ _ _ di_reach0 Hev Est)
        as [(_ & _ & _ & i & bal & ->)|(_ & [t ->] & Hun)].
      * destruct (C21_deposit_effect _ _ _ _ _ _ _ _ _ _ di_reach0 Hev Est)
          as (Hfee & _ & _ & _ & (b & Hbs & Ht & _ & ->) & _).
        cbn [fst snd]. apply (dep_inv_served _ _ _ _ _ y n q); try done.
        -- rewrite Hbs. by apply prefix_app_r.
        -- cbv zeta. split_and!; [done|done|by eexists|done|]. exists b. split; [|done].
           rewrite Hbs, Nat2N.id. apply list_lookup_middle. done.
      * cbn [fst snd]. apply (dep_inv_served _ _ _ _ _ y n q); try done.
        by destruct Hun as (-> & _).
    + cbn [fst snd]. pose proof HI as []. by apply (dep_inv_served _ _ _ _ _ y n q).
  - cbn [sys_step]. destruct (y_requests y !! n) as [q|] eqn:En; cbn [fst snd]; pose proof HI as [].
    + by apply (dep_inv_served _ _ _ _ _ y n q).
    + by apply (dep_inv_quiet _ _ _ _ _ y y).
  - by apply dep_inv_answer.
  - pose proof HI as []. apply (dep_inv_quiet _ _ _ _ _ y); try done. by right.
  - pose proof HI as []. apply (dep_inv_quiet _ _ _ _ _ y); try done.
    + simpl. by constructor.
    + apply led_step_prefix; [by apply reachable_winv|done].
  - pose proof HI as []. apply (dep_inv_quiet _ _ _ _ _ y); try done.
    unfold topped_up, consumed. simpl in *. lia.
  - pose proof HI as []. apply (dep_inv_quiet _ _ _ _ _ y); try done.
    unfold topped_up, consumed. simpl in *. lia.
Qed.
Lemma sys_inv id ledger w cycles tr y :
  wf_principal id -> reachable w -> sys_steps (sys_init id ledger w cycles) tr y ->
  dep_inv id ledger w cycles tr y.
Proof.
  intros Hid Hr Hs. remember (sys_init id ledger w cycles) as y0 eqn:E.
  induction Hs as [y|y tr y' ev Hs IH Hok]; subst.
  - by apply dep_inv_init.
  - apply dep_inv_step; [done|by apply IH|done].
Qed.

(** ** C58 *)
(** Whatever the order of messages, rejections, upgrades of either canister and
    other calls to the ledger: each deposit the ledger made for the depositor is for
    one call, has a block of its own with that call's account, memo and cycles, and
    the callers are told the truth.  No cycles appear or get lost. *)
Theorem C58_deposits_are_exact id ledger w cycles tr y :
  wf_principal id -> reachable w -> sys_steps (sys_init id ledger w cycles) tr y ->
  NoDup (credits tr).*1 /\ NoDup (credits tr).*2
  /\ (forall n i, (n, i) ∈ credits tr ->
        N.of_nat (length (blocks (w_led w))) <= i
        /\ exists arg b, started tr n arg /\ icrc1_fee < da_cycles arg
             /\ blocks (w_led (y_led y)) !! N.to_nat i = Some b
             /\ b_tx b = Tx (Mint (da_to arg) (da_cycles arg - icrc1_fee) icrc1_fee) None (da_memo arg))
  /\ (forall n i, told_ok tr n i -> (n, i) ∈ credits tr)
  /\ (forall n, told_failed tr n -> n ∉ (credits tr).*1 /\ y_requests y !! n = None)
  /\ cycles + topped_up tr
     = d_cycles (y_dep y) + outbound y + inbound y + consumed tr
       + sum_over (fun c => block_cost (blocks (w_led (y_led y))) c.2) (credits tr).
Proof.
  intros Hid Hr Hs. pose proof (sys_inv _ _ _ _ _ _ Hid Hr Hs) as []. split_and!; try done.
  - intros n i [bal Hin]. destruct (di_ok0 _ _ Hin) as (i' & bal' & [= <- <-] & Hc). done.
  - intros n Hf. by apply di_failed0 in Hf as (_ & ? & ?).
Qed.

(** Without upgrades of the depositor: the request of every call goes to the ledger,
    and the caller of every call whose messages have arrived has been told. *)
Lemma no_upgrade id ledger w cycles tr y :
  sys_steps (sys_init id ledger w cycles) tr y -> YUpgrade ∉ tr.*1 ->
  d_ledger (y_dep y) = ledger /\ y_ledger y = ledger
  /\ (forall n q, y_requests y !! n = Some q -> rq_dest q = ledger)
  /\ forall n arg, started tr n arg ->
       n ∈ d_open (y_dep y) \/ exists r, (YAnswer n, OutAnswer n r) ∈ tr.
Proof.
  intros Hs. remember (sys_init id ledger w cycles) as y0 eqn:E.
  induction Hs as [y|y tr y' ev Hs IH Hok]; subst; intros Hup.
  - split_and!; try done. by intros n arg [e He%elem_of_nil].
  - rewrite fmap_app, elem_of_app in Hup. simpl in Hup. rewrite elem_of_list_singleton in Hup.
    destruct (IH eq_refl ltac:(auto)) as (Hd & Hl & Hq & Ho). clear IH.
    assert (forall n arg out, started tr n arg -> n ∈ d_open (y_dep y') \/
              exists r, (YAnswer n, OutAnswer n r) ∈ tr ++ [(ev, out)]) as Ho'.
    { intros n arg out Hst. destruct (Ho n arg Hst) as [?|[r ?]]; [by left|right].
      exists r. apply elem_of_app. by left. }
    destruct ev as [arg e|now n|n|n| |ev|n|n]; cbn [sys_step].
    + destruct (e && _); cbn [fst snd y_ledger y_dep d_ledger d_open y_requests].
      * split_and!; [done|done| |].
        -- intros n q [[<- <-]|[_ Hn]]%lookup_insert_Some; [done|eauto].
        -- intros n arg' [Hst|(e' & _ & [= <-])]%started_snoc; [|left; set_solver].
           destruct (Ho' n arg' (OutStarted (y_next y')) Hst) as [?|?]; [left; set_solver|by right].
      * split_and!; try done. intros n arg' [Hst|(e' & _ & [=])]%started_snoc. eauto.
    + destruct (y_requests y' !! n) as [q|]; cbn [fst snd y_ledger y_dep d_ledger d_open y_requests].
      * destruct (serve now y' q) as [[w' resp] back]. cbn [fst snd y_ledger y_dep d_ledger d_open y_requests]. split_and!; [done|done| |].
        -- intros n' q' [_ Hn']%lookup_delete_Some. eauto.
        -- intros n' arg' [Hst|(e' & _ & [=])]%started_snoc. eauto.
      * split_and!; try done. intros n' arg' [Hst|(e' & _ & [=])]%started_snoc. eauto.
    + destruct (y_requests y' !! n) as [q|]; cbn [fst snd y_ledger y_dep d_ledger d_open y_requests].
      * split_and!; [done|done| |].
        -- intros n' q' [_ Hn']%lookup_delete_Some. eauto.
        -- intros n' arg' [Hst|(e' & _ & [=])]%started_snoc. eauto.
      * split_and!; try done. intros n' arg' [Hst|(e' & _ & [=])]%started_snoc. eauto.
    + destruct (y_answers y' !! n) as [[r c]|]; cbn [fst snd y_ledger y_dep d_ledger d_open y_requests].
      * split_and!; [done|done|done|]. intros n' arg' [Hst|(e' & [=] & _)]%started_snoc.
        case_bool_decide as Hop.
        -- destruct (decide (n' = n)) as [->|Hne].
           ++ right. exists r. apply elem_of_app. right. by apply elem_of_list_singleton.
           ++ destruct (Ho' n' arg' (OutAnswer n r) Hst) as [?|?]; [left; set_solver|by right].
        -- destruct (Ho' n' arg' OutQuiet Hst) as [?|?]; [left; set_solver|by right].
      * split_and!; try done. intros n' arg' [Hst|(e' & _ & [=])]%started_snoc. eauto.
    + destruct Hup. by right.
    + split_and!; try done. intros n' arg' [Hst|(e' & _ & [=])]%started_snoc. simpl. eauto.
    + split_and!; try done. intros n' arg' [Hst|(e' & _ & [=])]%started_snoc. simpl. eauto.
    + split_and!; try done. intros n' arg' [Hst|(e' & _ & [=])]%started_snoc. simpl. eauto.
Qed.

Theorem C58_everyone_is_told id ledger w cycles tr y :
  wf_principal id -> reachable w -> sys_steps (sys_init id ledger w cycles) tr y ->
  YUpgrade ∉ tr.*1 -> y_requests y = ∅ -> y_answers y = ∅ ->
  forall n arg, started tr n arg -> (exists i, told_ok tr n i) \/ told_failed tr n.
Proof.
  intros Hid Hr Hs Hup Hq Ha n arg Hst. destruct (no_upgrade _ _ _ _ _ _ Hs Hup) as (_ & _ & _ & Ho).
  pose proof (sys_inv _ _ _ _ _ _ Hid Hr Hs) as [].
  destruct (Ho n arg Hst) as [Hop|[[r|] Hin]]; [| |by right].
  - apply di_open0 in Hop. rewrite Hq, Ha, !lookup_empty in Hop. by destruct Hop as [[? ?]|[? ?]].
  - left. destruct (di_ok0 n r Hin) as (i & bal & -> & _). exists i, bal. done.
Qed.

(** ... and the ledger credits a request that reaches it exactly when the ledger's
    rules for deposits allow it. *)
Theorem C58_deposit_works id ledger w cycles tr y n q now :
  wf_principal id -> reachable w -> sys_steps (sys_init id ledger w cycles) tr y ->
  YUpgrade ∉ tr.*1 -> y_requests y !! n = Some q -> time_ok (y_led y) now ->
  let a := rq_arg q in
  (exists i balance, (sys_step y (YDeliver now n)).2 = OutDelivered (RespReply (RepDeposit i balance)))
  <-> icrc1_fee < da_cycles a /\ memo_fits (da_memo a)
      /\ icrc1_total_supply (w_led (y_led y)) + (da_cycles a - icrc1_fee) < 2 ^ 128.
Proof.
  intros Hid Hr Hs Hup Hn Hnow. cbv zeta. destruct (no_upgrade _ _ _ _ _ _ Hs Hup) as (_ & Hl & Hq & _).
  pose proof (sys_inv _ _ _ _ _ _ Hid Hr Hs) as []. destruct (di_req0 n q Hn) as (Hst & _).
  apply di_wf0 in Hst as [Hw1 Hw2]. cbn [sys_step]. rewrite Hn. unfold serve.
  rewrite bool_decide_eq_true_2 by (rewrite Hl; eauto).
  set (ev := EvCall now (y_id y) (CallDeposit (da_cycles (rq_arg q)) (da_to (rq_arg q)) (da_memo (rq_arg q))) None).
  assert (ev_ok (y_led y) ev) as Hev. { split; [done|]. split; [by rewrite di_id0|]. by split. }
  destruct (step (y_led y) ev) as [w' resp] eqn:Est.
  destruct (C21_deposit_all_or_nothing _ _ _ _ _ _ _ _ _ di_reach0 Hev Est)
    as [(H1 & H2 & H3 & i & bal & ->)|(Hno & [t ->] & _)]; cbn [fst snd].
  - split; [done|]. eauto.
  - split; [intros (i & bal & [=])|]. intros (H1 & H2 & H3). destruct Hno as [?|[?|?]]; [lia|done|lia].
Qed.

(** *** An upgrade of the depositor forgets the ledger: no call made after it is ever
    credited, and its cycles come back. *)
Lemma sys_steps_last y tr y' : sys_steps y tr y' ->
  (tr = [] /\ y' = y) \/
  exists tr0 y1 ev, tr = tr0 ++ [(ev, (sys_step y1 ev).2)] /\ sys_steps y tr0 y1 /\ sys_ok y1 ev
    /\ y' = (sys_step y1 ev).1.
Proof. destruct 1 as [y|y tr0 y1 ev Hs Hok]; [by left|right]. by exists tr0, y1, ev. Qed.
Lemma sys_steps_app y tr1 tr2 y' :
  sys_steps y (tr1 ++ tr2) y' -> exists ym, sys_steps y tr1 ym /\ sys_steps ym tr2 y'.
Proof.
  revert y'. induction tr2 as [|x tr2 IH] using rev_ind; intros y'.
  - rewrite app_nil_r. intros Hs. exists y'. split; [done|constructor].
  - rewrite app_assoc. intros [[E _]|(tr & y1 & ev & E & Hs & Hok & ->)]%sys_steps_last.
    + by destruct (tr1 ++ tr2).
    + apply app_inj_tail in E as [<- ->]. apply IH in Hs as (ym & H1 & H2). exists ym. split; [done|].
      by constructor.
Qed.
Lemma sys_steps_cons y x tr y' :
  sys_steps y (x :: tr) y' -> sys_ok y x.1 /\ x.2 = (sys_step y x.1).2 /\ sys_steps (sys_step y x.1).1 tr y'.
Proof.
  intros Hs. change (x :: tr) with ([x] ++ tr) in Hs. apply sys_steps_app in Hs as (ym & H1 & H2).
  apply sys_steps_last in H1 as [[E _]|(tr0 & y1 & ev & E & Hs & Hok & ->)]; [done|].
  destruct tr0 as [|? tr0]; [|by destruct tr0]. simpl in E. injection E as ->.
  apply sys_steps_last in Hs as [[_ ->]|(tr1 & ? & ? & E & _)]; [done|by destruct tr1].
Qed.
Lemma forgotten y tr y' :
  y_ledger y <> MANAGEMENT_CANISTER -> d_ledger (y_dep y) = MANAGEMENT_CANISTER ->
  (forall n q, y_requests y !! n = Some q -> n < y_next y) -> sys_steps y tr y' ->
  y_ledger y' = y_ledger y /\ d_ledger (y_dep y') = MANAGEMENT_CANISTER /\ y_next y <= y_next y'
  /\ (forall n q, y_requests y' !! n = Some q -> y_next y <= n -> rq_dest q = MANAGEMENT_CANISTER)
  /\ (forall n i, (n, i) ∈ credits tr -> n < y_next y)
  /\ (forall n arg, started tr n arg -> y_next y <= n).
Proof.
  intros Hne Hd Hq Hs. induction Hs as [y|y tr y' ev Hs IH Hok].
  - split_and!; try done.
    + intros n q Hn Hle. apply Hq in Hn. lia.
    + by intros n i Hin%elem_of_nil.
    + by intros n arg [e He%elem_of_nil].
  - destruct (IH Hne Hd Hq) as (I1 & I2 & I3 & I4 & I5 & I6). clear IH.
    assert (forall n i out, credit (ev, out) = None -> (n, i) ∈ credits (tr ++ [(ev, out)]) -> n < y_next y) as Hc.
    { intros n i out E. rewrite credits_app, E, app_nil_r. eauto. }
    assert (forall n arg out, (forall m, out <> OutStarted m) -> started (tr ++ [(ev, out)]) n arg -> y_next y <= n) as Hst.
    { intros n arg out Ho Hs'%quiet_started; [eauto|done]. }
    destruct ev as [arg e|now n|n|n| |ev|n|n]; cbn [sys_step].
    + destruct (e && _); cbn [fst snd y_ledger y_dep d_ledger y_next y_requests].
      * split_and!; [done|done|lia| | |].
        -- intros n q [[<- <-]|[_ Hn]]%lookup_insert_Some; [done|eauto].
        -- intros n i. by apply Hc.
        -- intros n arg' [Hs'|(e' & _ & [= <-])]%started_snoc; [eauto|lia].
      * split_and!; try done; [intros n i; by apply Hc|intros n arg'; by apply Hst].
    + destruct (y_requests y' !! n) as [q|] eqn:En; cbn [fst snd].
      2:{ split_and!; try done; [intros n' i; by apply Hc|intros n' arg'; by apply Hst]. }
      unfold serve. case_bool_decide as Hdest.
      * destruct (step _ _) as [w' resp]. cbn [fst snd y_ledger y_dep d_ledger y_next y_requests].
        assert (n < y_next y) as Hlt.
        { destruct (N.lt_ge_cases n (y_next y)) as [|Hge]; [done|]. pose proof (I4 n q En Hge). congruence. }
        split_and!; try done.
        -- intros n' q' [_ Hn']%lookup_delete_Some. eauto.
        -- intros n' i. rewrite credits_app, elem_of_app. intros [Hin|Hin]; [eauto|].
           destruct (credit _) as [c|] eqn:Ec; [|by apply elem_of_nil in Hin].
           apply elem_of_list_singleton in Hin as <-. unfold credit in Ec.
           repeat (case_match; simplify_eq/=); done.
        -- intros n' arg'. by apply Hst.
      * cbn [fst snd y_ledger y_dep d_ledger y_next y_requests]. split_and!; try done.
        -- intros n' q' [_ Hn']%lookup_delete_Some. eauto.
        -- intros n' i. by apply Hc.
        -- intros n' arg'. by apply Hst.
    + destruct (y_requests y' !! n) as [q|] eqn:En; cbn [fst snd y_ledger y_dep d_ledger y_next y_requests].
      * split_and!; try done; [|intros n' i; by apply Hc|intros n' arg'; by apply Hst].
        intros n' q' [_ Hn']%lookup_delete_Some. eauto.
      * split_and!; try done; [intros n' i; by apply Hc|intros n' arg'; by apply Hst].
    + destruct (y_answers y' !! n) as [[r c]|] eqn:En; cbn [fst snd y_ledger y_dep d_ledger y_next y_requests];
        (split_and!; try done; [intros n' i; by apply Hc|]); intros n' arg'; apply Hst.
      * intros m. by case_bool_decide.
      * done.
    + split_and!; try done; [intros n' i; by apply Hc|intros n' arg'; by apply Hst].
    + split_and!; try done; [intros n' i; by apply Hc|intros n' arg'; by apply Hst].
    + split_and!; try done; [intros n' i; by apply Hc|intros n' arg'; by apply Hst].
    + split_and!; try done; [intros n' i; by apply Hc|intros n' arg'; by apply Hst].
Qed.
Theorem C58_upgrade_forgets_the_ledger id ledger w cycles tr1 out tr2 y n arg :
  wf_principal id -> reachable w -> ledger <> MANAGEMENT_CANISTER ->
  sys_steps (sys_init id ledger w cycles) (tr1 ++ (YUpgrade, out) :: tr2) y ->
  started tr2 n arg -> forall i, (n, i) ∉ credits (tr1 ++ (YUpgrade, out) :: tr2).
Proof.
  intros Hid Hr Hne Hs Hst i Hin. apply sys_steps_app in Hs as (ym & Hs1 & Hs2).
  pose proof (sys_inv _ _ _ _ _ _ Hid Hr Hs1) as [].
  apply sys_steps_cons in Hs2 as (_ & _ & Hs2). cbn [fst sys_step set_dep] in Hs2.
  apply forgotten in Hs2 as (_ & _ & _ & _ & Hc & Hge); cbn [y_ledger y_dep d_ledger y_next y_requests] in *.
  - assert (y_next ym <= n) as Hle by exact (Hge n arg Hst). unfold credits in Hin. rewrite omap_app in Hin. apply elem_of_app in Hin as [Hin|Hin].
    + destruct (di_credit0 n i Hin) as (_ & arg' & b & Hs' & _). apply di_fresh0 in Hs'. lia.
    + assert (n < y_next ym) by exact (Hc n i Hin). lia.
  - change (y_ledger ym <> MANAGEMENT_CANISTER). by rewrite di_ledger0.
  - done.
  - intros n' q Hn'. change (y_requests ym !! n' = Some q) in Hn'. change (n' < y_next ym). destruct (di_req0 n' q Hn') as (Hs' & _). by apply di_fresh0 in Hs'.
Qed.
End WithEnv.

(** ** A case: a deposit that is credited, one at most the fee, one rejected under
    way, and one after an upgrade of the depositor *)
Section Case.
Context `{Env}.
Fixpoint sys_run (y : sys) (evs : list sys_event) : trace * sys :=
  match evs with
  | [] => ([], y)
  | ev :: evs => let (y1, out) := sys_step y ev in let (tr, y2) := sys_run y1 evs in ((ev, out) :: tr, y2)
  end.
Definition sys_okb (y : sys) (ev : sys_event) : bool :=
  match ev with
  | YCall arg _ => (da_cycles arg <? U128_MOD) && wf_accountb (da_to arg)
  | YDeliver now _ => (w_clock (y_led y) <=? now) && (now <? U64_MOD)
  | YLedger ev => ev_okb (y_led y) ev
  | YConsume n => n <=? d_cycles (y_dep y)
  | _ => true
  end.
Lemma sys_okb_ok y ev : sys_okb y ev = true -> sys_ok y ev.
Proof.
  destruct ev as [arg e|now n|n|n| |ev|n|n]; simpl; try done.
  - intros [H1%N.ltb_lt H2%wf_accountb_ok]%andb_true_iff. done.
  - intros [H1%N.leb_le H2%N.ltb_lt]%andb_true_iff. done.
  - apply ev_okb_ok.
  - apply N.leb_le.
Qed.
Fixpoint sys_run_ok (y : sys) (evs : list sys_event) : bool :=
  match evs with [] => true | ev :: evs => sys_okb y ev && sys_run_ok (sys_step y ev).1 evs end.
Lemma sys_run_from y0 tr0 y evs : sys_steps y0 tr0 y -> sys_run_ok y evs = true ->
  sys_steps y0 (tr0 ++ (sys_run y evs).1) (sys_run y evs).2.
Proof.
  revert tr0 y. induction evs as [|ev evs IH]; intros tr0 y Hs; simpl; [by rewrite app_nil_r|].
  intros [Hok%sys_okb_ok Hev]%andb_true_iff. destruct (sys_step y ev) as [y1 out] eqn:E.
  specialize (IH (tr0 ++ [(ev, out)]) y1). destruct (sys_run y1 evs) as [tr y2]. simpl in *.
  rewrite <- app_assoc in IH. apply IH; [|done].
  pose proof (sys_snoc y0 tr0 y ev Hs Hok) as Hn. by rewrite E in Hn.
Qed.
Lemma sys_run_steps y evs : sys_run_ok y evs = true -> sys_steps y (sys_run y evs).1 (sys_run y evs).2.
Proof. intros Hok. apply (sys_run_from y [] y evs); [constructor|done]. Qed.
End Case.

Definition dep_id : principal := [Byte.x21].
Definition led_id : principal := [Byte.x22].
Definition dep_events : list sys_event :=
  [ YCall (DepArg (2 * T) (acct alice) None) true;
    YCall (DepArg FEE (acct bob) None) true;
    YCall (DepArg T (acct bob) None) true;
    YDeliver (T0 + 20 * sec) 1;
    YReject 2;
    YDeliver (T0 + 21 * sec) 0;
    YAnswer 2; YAnswer 1; YAnswer 0;
    YConsume 5;
    YUpgrade;
    YCall (DepArg T (acct bob) None) true;
    YDeliver (T0 + 22 * sec) 3;
    YAnswer 3 ].
Definition dep_run := sys_run (sys_init dep_id led_id demo_world (5 * T)) dep_events.

Lemma told_at k (tr : trace) n i :
  (match tr !! k with
   | Some (YAnswer n1, OutAnswer n2 (Some (RepDeposit i' _))) => bool_decide (n1 = n /\ n2 = n /\ i' = i)
   | _ => false end) = true -> told_ok tr n i.
Proof.
  destruct (tr !! k) as [[[] []]|] eqn:E; try done. repeat case_match; try done.
  intros (-> & -> & ->)%bool_decide_eq_true. eexists. by eapply elem_of_list_lookup_2.
Qed.
Lemma failed_at k (tr : trace) n : tr !! k = Some (YAnswer n, OutAnswer n None) -> told_failed tr n.
Proof. apply elem_of_list_lookup_2. Qed.
Example C58_case :
  sys_steps (sys_init dep_id led_id demo_world (5 * T)) dep_run.1 dep_run.2
  /\ told_ok dep_run.1 0 10 /\ told_failed dep_run.1 1 /\ told_failed dep_run.1 2 /\ told_failed dep_run.1 3
  /\ credits dep_run.1 = [(0, 10)] /\ d_cycles (y_dep dep_run.2) = 3 * T - 5.
Proof.
  split; [|split; [|split; [|split; [|split; [|split]]]]].
  - refine (sys_run_steps (sys_init dep_id led_id demo_world (5 * T)) dep_events _). vm_compute. reflexivity.
  - apply (told_at 8). vm_compute. reflexivity.
  - apply (failed_at 7). vm_compute. reflexivity.
  - apply (failed_at 6). vm_compute. reflexivity.
  - apply (failed_at 13). vm_compute. reflexivity.
  - vm_compute. reflexivity.
  - vm_compute. reflexivity.
Qed.

Print Assumptions C58_deposits_are_exact.
Print Assumptions C58_everyone_is_told.
Print Assumptions C58_deposit_works.
Print Assumptions C58_upgrade_forgets_the_ledger.
