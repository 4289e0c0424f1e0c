(** * Serving blocks, initial balances, block types, the balance table

    Properties C29, C41, C43 and C44. *)
From Verif Require Import Base Types Codec CodecFacts State Ledger Canister Effects Spec ApiSpec Inv
  Steps World QueryFacts PropertiesLog Demo.

(** ** Specification *)

(** The block identifiers [start, start + 1, ...] of a range, [n] blocks being in
    the log. *)
Definition range_ids (n : N) (r : N * N) : list N :=
  filter (fun i => r.1 <= i /\ i < r.1 + r.2) (N.of_nat <$> seq 0 (N.to_nat n)).
(** What a request for [ranges] asks for, cut at [max] blocks. *)
Definition wanted (n max : N) (ranges : list (N * N)) : list N :=
  take (N.to_nat max) (concat (range_ids n <$> ranges)).

(** The block type of a served block under ICRC-3: the field [btype] or, for
    blocks without it, the operation of the transaction; a transfer with a
    spender is an ICRC-2 transfer. *)
Definition block_type (v : value) : option string :=
  match field "btype" v with
  | Some (VText t) => Some t
  | Some _ => None
  | None =>
      match field "tx" v with
      | Some tx =>
          match field "op" tx with
          | Some (VText op) =>
              if String.eqb op "mint" then Some "1mint"%string
              else if String.eqb op "burn" then Some "1burn"%string
              else if String.eqb op "approve" then Some "2approve"%string
              else if String.eqb op "xfer" then
                match field "spender" tx with
                | Some _ => Some "2xfer"%string
                | None => Some "1xfer"%string
                end
              else None
          | _ => None
          end
      | None => None
      end
  end.

(** A block that credits account [k] with nothing. *)
Definition zero_credit (k : akey) (b : block) : Prop :=
  match tx_op (b_tx b) with
  | Mint to amount _ => to_key to = k /\ amount = 0
  | Transfer _ to _ amount _ => to_key to = k /\ amount = 0
  | _ => False
  end.

(** ** Ranges *)
Lemma seqN_0 start : seqN start 0 = [].
Proof. done. Qed.
Lemma filter_seq_empty (P : N -> Prop) `{forall x, Decision (P x)} a n :
  (forall i, (a <= i < a + n)%nat -> ~ P (N.of_nat i)) ->
  filter P (N.of_nat <$> seq a n) = [].
Proof.
  revert a. induction n as [|n IH]; intros a Hp; [done|]. cbn [seq fmap list_fmap].
  rewrite filter_cons_False; [|apply Hp; lia]. apply IH. intros i Hi. apply Hp. lia.
Qed.
Lemma filter_seq_full (P : N -> Prop) `{forall x, Decision (P x)} a n :
  (forall i, (a <= i < a + n)%nat -> P (N.of_nat i)) ->
  filter P (N.of_nat <$> seq a n) = N.of_nat <$> seq a n.
Proof.
  revert a. induction n as [|n IH]; intros a Hp; [done|]. cbn [seq fmap list_fmap].
  rewrite filter_cons_True; [|apply Hp; lia]. f_equal. apply IH. intros i Hi. apply Hp. lia.
Qed.
Lemma range_ids_eq n start len :
  range_ids n (start, len) = seqN start (N.min n (start + len) - start).
Proof.
  unfold range_ids, seqN. cbn [fst snd].
  set (m := N.min n (start + len) - start).
  destruct (decide (start < n)) as [Hlt|Hge].
  - replace (N.to_nat n) with (N.to_nat start + (N.to_nat m + (N.to_nat n - N.to_nat start - N.to_nat m)))%nat by lia.
    rewrite seq_app, fmap_app, filter_app.
    rewrite (filter_seq_empty _ 0); [|lia].
    rewrite seq_app, fmap_app, filter_app.
    rewrite filter_seq_full; [|intros i Hi; lia].
    rewrite filter_seq_empty; [|intros i Hi; lia].
    rewrite app_nil_r. simpl. done.
  - replace m with 0 by lia. simpl. apply filter_seq_empty. lia.
Qed.
Lemma take_seq a n k : take k (seq a n) = seq a (k `min` n).
Proof. revert a k. induction n as [|n IH]; intros a [|k]; simpl; try done. by rewrite IH. Qed.
Lemma take_seqN start n k : take k (seqN start n) = seqN start (N.min (N.of_nat k) n).
Proof.
  unfold seqN. rewrite <- fmap_take. rewrite take_seq. do 2 f_equal. lia.
Qed.
Lemma seqN_length start n : length (seqN start n) = N.to_nat n.
Proof. unfold seqN. by rewrite map_length, seq_length. Qed.
Lemma elem_of_seqN start n i : i ∈ seqN start n <-> start <= i < start + n.
Proof.
  unfold seqN. rewrite elem_of_list_fmap. split.
  - intros (j & -> & Hj%elem_of_seq). lia.
  - intros Hi. exists (N.to_nat i). split; [lia|]. apply elem_of_seq. lia.
Qed.

Section WithEnv.
Context `{Env}.

(** The blocks with the given identifiers, as served. *)
Definition served (s : state) (ids : list N) : list (N * value) :=
  omap (fun i => (fun b => (i, block_to_value b)) <$> blocks s !! N.to_nat i) ids.
Lemma served_app s l1 l2 : served s (l1 ++ l2) = served s l1 ++ served s l2.
Proof. apply omap_app. Qed.
Lemma served_eq s ids :
  omap (fun id => match blocks s !! N.to_nat id with
                  | Some b => Some (id, block_to_value b) | None => None end) ids = served s ids.
Proof.
  unfold served. apply list_omap_ext. apply Forall2_same_length_lookup. split; [done|].
  intros i x y Hx Hy. rewrite Hx in Hy. injection Hy as <-. by destruct (blocks s !! N.to_nat x).
Qed.
Lemma served_ids s ids :
  Forall (fun i => i < nblocks s) ids -> (served s ids).*1 = ids.
Proof.
  induction 1 as [|i ids Hi Hids IH]; [done|]. unfold served in *. cbn [omap list_omap].
  destruct (lookup_lt_is_Some_2 (blocks s) (N.to_nat i)) as [b Hb]; [unfold nblocks in Hi; lia|].
  rewrite Hb. simpl. f_equal. exact IH.
Qed.
Lemma served_length s ids : Forall (fun i => i < nblocks s) ids -> length (served s ids) = length ids.
Proof. intros Hi%served_ids. by rewrite <- Hi at 2; rewrite fmap_length. Qed.
Lemma served_length_le s ids : (length (served s ids) <= length ids)%nat.
Proof.
  unfold served. induction ids as [|i ids IH]; [done|]. cbn [omap list_omap].
  destruct (_ <$> _); simpl; lia.
Qed.

(** One step of the loop *)
Lemma loop_step s max acc start len args :
  nblocks s + max <= U64_MOD -> (start < nblocks s -> len < U64_MOD) ->
  N.of_nat (length acc) <= max -> nblocks s < U64_MOD ->
  get_blocks_loop s max acc ((start, len) :: args) =
  get_blocks_loop s max
    (acc ++ served s (take (N.to_nat (max - N.of_nat (length acc))) (range_ids (nblocks s) (start, len))))
    args
  \/ (max = N.of_nat (length acc) /\ get_blocks_loop s max acc ((start, len) :: args) = acc).
Proof.
  intros Hmax Hlen Hacc Hn. cbn [get_blocks_loop].
  destruct (N.eqb_spec (max - N.of_nat (length acc)) 0) as [E|E]; [right; split; [lia|done]|left].
  rewrite range_ids_eq, take_seqN.
  unfold nat_to_u64 at 1. destruct (N.ltb_spec start U64_MOD) as [Hs|Hs].
  2:{ replace (N.min (nblocks s) (start + len) - start) with 0 by lia.
      rewrite N.min_0_r. simpl. by rewrite app_nil_r. }
  destruct (N.leb_spec (nblocks s) start) as [Hge|Hlt].
  { replace (N.min (nblocks s) (start + len) - start) with 0 by lia.
    rewrite N.min_0_r. simpl. by rewrite app_nil_r. }
  unfold nat_to_u64. rewrite (proj2 (N.ltb_lt _ _) (Hlen Hlt)).
  rewrite served_eq. do 3 f_equal. unfold u64_wrap_add.
  rewrite N2Nat.id.
  remember (max - N.of_nat (length acc)) as rem eqn:Hrem.
  destruct (decide (start + N.min rem len < U64_MOD)) as [Hw|Hw].
  - rewrite N.mod_small by done. f_equal. lia.
  - exfalso. lia.
Qed.

Lemma get_blocks_spec s max acc args :
  nblocks s + max <= U64_MOD -> nblocks s < U64_MOD -> 
  Forall (fun r => r.1 < nblocks s -> r.2 < U64_MOD) args ->
  N.of_nat (length acc) <= max ->
  get_blocks_loop s max acc args =
  acc ++ served s (take (N.to_nat max - length acc) (concat (range_ids (nblocks s) <$> args))).
Proof.
  intros Hmax Hn Hargs. revert acc. induction Hargs as [|[start len] args Hr Hargs IH]; intros acc Hacc.
  - simpl. rewrite take_nil. simpl. by rewrite app_nil_r.
  - destruct (loop_step s max acc start len args) as [->|[Em ->]]; [done|done|done|done| |].
    + set (ids := take (N.to_nat (max - N.of_nat (length acc))) (range_ids (nblocks s) (start, len))).
      assert (Forall (fun i => i < nblocks s) ids) as Hids.
      { unfold ids. apply Forall_take. rewrite range_ids_eq. apply Forall_forall.
        intros i Hi%elem_of_seqN. lia. }
      assert (length ids <= N.to_nat (max - N.of_nat (length acc)))%nat as Hli
        by (unfold ids; rewrite take_length; lia).
      rewrite IH; [|rewrite app_length, served_length by done; lia].
      rewrite <- app_assoc. f_equal. rewrite <- served_app. f_equal.
      cbn [fmap list_fmap concat]. rewrite firstn_app.
      unfold ids at 1. f_equal; [f_equal; lia|].
      rewrite app_length, served_length by done. f_equal.
      unfold ids. rewrite take_length. lia.
    + replace (N.to_nat max - length acc)%nat with 0%nat by lia. rewrite take_0. simpl. by rewrite app_nil_r.
Qed.

(** ** C29 *)

(** What is served is in the log, was asked for, and is at most the configured
    number of blocks, for every request and configuration. *)
Lemma loop_bounds s max acc args :
  N.of_nat (length acc) <= max ->
  N.of_nat (length (get_blocks_loop s max acc args)) <= max
  /\ forall i v, (i, v) ∈ get_blocks_loop s max acc args ->
       (i, v) ∈ acc \/ exists start len, (start, len) ∈ args /\ start <= i < start + len.
Proof.
  revert acc. induction args as [|[start len] args IH]; intros acc Hacc.
  { split; [done|]. intros i v Hi. by left. }
  cbn [get_blocks_loop].
  assert (N.of_nat (length (get_blocks_loop s max acc args)) <= max
    /\ forall i v, (i, v) ∈ get_blocks_loop s max acc args ->
         (i, v) ∈ acc \/ exists start' len', (start', len') ∈ (start, len) :: args /\ start' <= i < start' + len') as Hskip.
  { destruct (IH acc Hacc) as [H1 H2]. split; [done|]. intros i v [?|(st & ln & Hin & Hr)]%H2; [by left|right].
    exists st, ln. split; [by right|done]. }
  destruct (N.eqb_spec (max - N.of_nat (length acc)) 0) as [E|E].
  { split; [done|]. intros i v Hi. by left. }
  unfold nat_to_u64. destruct (N.ltb_spec start U64_MOD) as [Hs|Hs]; [|done].
  destruct (N.leb_spec (nblocks s) start) as [Hge|Hlt]; [done|].
  destruct (N.ltb_spec len U64_MOD) as [Hl|Hl]; [|done]. clear Hskip.
  rewrite served_eq.
  set (m := N.min (nblocks s) (u64_wrap_add start (N.min (max - N.of_nat (length acc)) len)) - start).
  assert (m <= N.min (max - N.of_nat (length acc)) len) as Hm.
  { unfold m, u64_wrap_add. pose proof (N.mod_le (start + N.min (max - N.of_nat (length acc)) len) U64_MOD) as Hle.
    specialize (Hle ltac:(done)). lia. }
  destruct (IH (acc ++ served s (seqN start m))) as [H1 H2].
  { rewrite app_length. pose proof (served_length_le s (seqN start m)) as Hsl. rewrite seqN_length in Hsl.
    clearbody m. lia. }
  split; [done|]. intros i v Hi. destruct (H2 i v Hi) as [Hin|(st & ln & Hin & Hr)].
  - apply elem_of_app in Hin as [Hin|Hin]; [by left|right].
    exists start, len. split; [by left|].
    unfold served in Hin. apply elem_of_list_omap in Hin as (id & Hid & Hv).
    apply fmap_Some in Hv as (b & _ & Hv). injection Hv as -> ->. apply elem_of_seqN in Hid. lia.
  - right. exists st, ln. split; [by right|done].
Qed.
Theorem C29_served_blocks_are_right (w : world) args :
  let r := icrc3_get_blocks (w_led w) args in
  br_log_length r = N.of_nat (length (blocks (w_led w)))
  /\ N.of_nat (length (br_blocks r)) <= max_blocks_per_request (cfg (w_led w))
  /\ forall i v, (i, v) ∈ br_blocks r ->
       (exists b, blocks (w_led w) !! N.to_nat i = Some b /\ v = block_to_value b)
       /\ exists start len, (start, len) ∈ args /\ start <= i < start + len.
Proof.
  cbv zeta. split; [done|].
  destruct (loop_bounds (w_led w) (max_blocks_per_request (cfg (w_led w))) [] args) as [H1 H2]; [simpl; lia|].
  split; [done|]. intros i v Hi. split; [by eapply get_blocks_sound|].
  destruct (H2 i v Hi) as [?%elem_of_nil|?]; done.
Qed.

(** What is asked for is served, in order, up to the configured number of blocks,
    when the log and the limit are small enough that identifiers do not wrap
    around and no range inside the log is [2^64] or longer. *)
Theorem C29_wanted_blocks_are_served_partial (w : world) args :
  let n := N.of_nat (length (blocks (w_led w))) in
  let max := max_blocks_per_request (cfg (w_led w)) in
  n + max <= 2 ^ 64 ->
  Forall (fun r => r.1 < n -> r.2 < 2 ^ 64) args ->
  (br_blocks (icrc3_get_blocks (w_led w) args)).*1 = wanted n max args.
Proof.
  cbv zeta. intros Hmax Hargs. unfold icrc3_get_blocks, get_blocks. cbn [br_blocks].
  fold (nblocks (w_led w)) in *. change (2 ^ 64) with U64_MOD in *.
  set (s := w_led w) in *. clearbody s.
  remember (max_blocks_per_request (cfg s)) as max eqn:Em. clear Em.
  assert (forall n, Forall (fun i => i < n) (wanted n max args)) as Hw.
  { intros n. unfold wanted. apply Forall_take, Forall_concat, Forall_fmap, Forall_forall.
    intros [st ln] _. simpl. rewrite range_ids_eq. apply Forall_forall. intros i Hi%elem_of_seqN. lia. }
  destruct (decide (max = 0)) as [->|Hm].
  - destruct args as [|[st ln] args]; done.
  - rewrite get_blocks_spec; [|done|lia|done|simpl; lia].
    rewrite app_nil_l. simpl length. rewrite Nat.sub_0_r. apply served_ids. apply Hw.
Qed.
(** A single range: consecutive identifiers from [start] up to the end of the
    range, of the log or of the limit. *)
Corollary C29_single_range_partial (w : world) start len :
  let n := N.of_nat (length (blocks (w_led w))) in
  let max := max_blocks_per_request (cfg (w_led w)) in
  n + max <= 2 ^ 64 -> len < 2 ^ 64 ->
  (br_blocks (icrc3_get_blocks (w_led w) [(start, len)])).*1
  = seqN start (N.min max (N.min n (start + len) - start)).
Proof.
  cbv zeta. intros Hm Hl. rewrite C29_wanted_blocks_are_served_partial; [|done|].
  - unfold wanted. cbn [fmap list_fmap concat]. rewrite app_nil_r, range_ids_eq, take_seqN.
    by rewrite N2Nat.id.
  - constructor; [|constructor]. intros _. exact Hl.
Qed.

(** ** C41 *)
Definition mint_of (now : N) (b : block) (e : account * N) : Prop :=
  tx_op (b_tx b) = Mint e.1 e.2 icrc1_fee /\ tx_memo (b_tx b) = None
  /\ tx_created_at (b_tx b) = None /\ b_timestamp b = now.
Definition initial_of (l : list (account * N)) (k : akey) : N :=
  sum_over (fun e => if decide (to_key e.1 = k) then e.2 else 0) l.

Lemma mint_initial_ok now l s :
  supply_ok s ->
  (total_supply s + sum_over snd l < U128_MOD ->
   exists s', mint_initial now l s = (s', OOk tt))
  /\ (forall s', mint_initial now l s = (s', OOk tt) ->
      total_supply s + sum_over snd l < U128_MOD
      /\ supply_ok s' /\ total_supply s' = total_supply s + sum_over snd l
      /\ (forall k, bal s' k = bal s k + initial_of l k)
      /\ (exists new, blocks s' = blocks s ++ new /\ Forall2 (mint_of now) new l)
      /\ approvals s' = approvals s /\ tx_hashes s' = tx_hashes s /\ tx_timestamps s' = tx_timestamps s).
Proof.
  revert s. induction l as [|[a n] l IH]; intros s Hs.
  { cbn [mint_initial]. unfold initial_of. cbn [sum_over foldr]. split.
    - intros _. by exists s.
    - intros s' E. injection E as <-. split; [destruct Hs; lia|]. split; [done|]. split; [lia|].
      split; [intros k; lia|]. split; [|done]. exists []. rewrite app_nil_r. split; [done|constructor]. }
  cbn [mint_initial]. unfold bindM at 1 2. unfold or_trap. rewrite mint_eq. unfold mint_decide.
  assert (sum_over snd ((a, n) :: l) = n + sum_over snd l) as -> by done.
  pose proof (supply_bal s (to_key a) Hs) as Hb. fold (balance_of s a) in Hb.
  destruct (N.leb_spec U128_MOD (balance_of s a + n)) as [H1|H1];
    destruct (N.leb_spec U128_MOD (total_supply s + n)) as [H2|H2]; cbn [orb validate_memo negb];
    try (split; [lia|intros; discriminate]).
  set (t := Tx (Mint a n FEE) None None). set (s1 := tx_effect now t s).
  assert (op_static now (tx_op t)) as Hst by (by right).
  assert (bal_ok (tx_op t) s) as Hbo by done.
  pose proof (supply_tx_effect now t s Hs Hbo) as Hs1. fold s1 in Hs1.
  pose proof (total_supply_tx_effect now t s Hs Hbo) as Ht1. fold s1 in Ht1. cbn [tx_op t] in Ht1.
  destruct (IH s1 Hs1) as [IH1 IH2]. split.
  - intros Hsum. apply IH1. lia.
  - intros s' E. destruct (IH2 s' E) as (J1 & J2 & J3 & J4 & (new & J5 & J6) & J7 & J8 & J9).
    split; [lia|]. split; [done|]. split; [lia|].
    destruct (tx_effect_fields now t s) as (F1 & F2 & F3 & _ & _ & _ & _ & F8 & _). fold s1 in F1, F2, F3, F8.
    split.
    { intros k. rewrite J4. pose proof (bal_tx_effect now t s k Hst Hbo) as Hbk. fold s1 in Hbk.
      unfold given, taken, t in Hbk. cbn [mk_block b_tx tx_op] in Hbk. unfold initial_of. cbn [sum_over foldr fst snd].
      fold (sum_over (fun e : account * N => if decide (to_key e.1 = k) then e.2 else 0) l).
      destruct (decide (k = to_key a)), (decide (to_key a = k)); try congruence; lia. }
    split; [|by rewrite J7, J8, J9, F8, F2, F3].
    exists (mk_block now t s :: new). rewrite J5, F1, <- app_assoc. split; [done|].
    constructor; [done|exact J6].
Qed.

(** Installation succeeds exactly when the initial balances fit 128 bits
    together.  Each account then holds the sum of its entries, and the log has
    one mint per entry, in order; nothing else is recorded and no fee is taken. *)
Theorem C41_initial_balances now cycles c :
  let l := default [] (initial_balances c) in
  (sum_over snd l < 2 ^ 128 <-> exists w, init_world now cycles (LInit c) = Some w)
  /\ forall w, init_world now cycles (LInit c) = Some w ->
       (forall a, icrc1_balance_of (w_led w) a
                  = sum_over (fun e => if decide (to_key e.1 = to_key a) then e.2 else 0) l)
       /\ icrc1_total_supply (w_led w) = sum_over snd l
       /\ Forall2 (fun b e => tx_op (b_tx b) = Mint e.1 e.2 icrc1_fee /\ tx_memo (b_tx b) = None
                     /\ tx_created_at (b_tx b) = None /\ b_timestamp b = now)
            (blocks (w_led w)) l
       /\ (forall t from sp, icrc2_allowance (w_led w) t from sp = (0, None))
       /\ cfg (w_led w) = c /\ w_pend w = ∅ /\ w_cycles w = cycles.
Proof.
  cbv zeta. set (l := default [] (initial_balances c)).
  assert (supply_ok empty_state) as H0 by done.
  destruct (mint_initial_ok now l empty_state H0) as [Hex Hall].
  unfold init_world, init. fold l. unfold bindM at 1 2.
  split.
  - split.
    + intros Hsum. destruct Hex as [s' Es]; [exact Hsum|]. rewrite Es. by eexists.
    + intros [w Hw]. destruct (mint_initial now l empty_state) as [s' [[]|[]|t]] eqn:Em; [|done].
      destruct (Hall s' eq_refl) as [Hlt _]. exact Hlt.
  - intros w Hw. destruct (mint_initial now l empty_state) as [s' [[]|[]|t]] eqn:Em; [|done].
    destruct (Hall s' eq_refl) as (_ & _ & J3 & J4 & (new & J5 & J6) & J7 & _ & _).
    injection Hw as <-. cbn [w_led w_pend w_cycles].
    split; [intros a; apply J4|]. split; [exact J3|]. split.
    { unfold modify. cbn [fst blocks set_cfg]. rewrite J5. exact J6. }
    split; [|done]. intros t from sp. unfold icrc2_allowance, allowance. cbn [approvals set_cfg]. rewrite J7. done.
Qed.
(** An upgrade argument is refused at installation. *)
Theorem C41_upgrade_argument_refused now cycles u : init_world now cycles (LUpgrade u) = None.
Proof. done. Qed.

(** ** C43 *)
Lemma field_btype b : field "btype" (block_to_value b) = None.
Proof.
  unfold block_to_value, field. destruct (b_effective_fee b), (b_phash b); done.
Qed.
Lemma tx_op_field t :
  field "op" (tx_to_value t) = Some (VText match tx_op t with
    | Mint _ _ _ => "mint" | Transfer _ _ _ _ _ => "xfer" | Burn _ _ _ => "burn"
    | Approve _ _ _ _ _ _ => "approve" end).
Proof.
  unfold tx_to_value, field. destruct t as [[]  [c|] [m|]]; simpl tx_op; cbn [tx_op];
  repeat match goal with
  | |- context [opt_insert ?k (_ <$> ?o)] => is_var o; destruct o
  end; reflexivity.
Qed.
Lemma tx_spender_field from to sp amount fee t :
  tx_op t = Transfer from to sp amount fee ->
  field "spender" (tx_to_value t) = account_to_value <$> sp.
Proof.
  unfold tx_to_value, field. intros ->. destruct t as [op [c|] [m|]], sp, fee; reflexivity.
Qed.
(** The type of a recorded block *)
Lemma block_type_eq b :
  block_type (block_to_value b) = Some match tx_op (b_tx b) with
    | Mint _ _ _ => "1mint" | Transfer _ _ (Some _) _ _ => "2xfer" | Transfer _ _ None _ _ => "1xfer"
    | Burn _ _ _ => "1burn" | Approve _ _ _ _ _ _ => "2approve" end%string.
Proof.
  unfold block_type. rewrite field_btype, field_tx, tx_op_field.
  destruct (tx_op (b_tx b)) as [| from to sp amount fee | |] eqn:E; try reflexivity.
  rewrite (tx_spender_field _ _ _ _ _ _ E). destruct sp; reflexivity.
Qed.
(** Every served block has a type, and it is advertised unless the block is a
    transfer without a spender. *)
Theorem C43_block_types_partial (w : world) args i v :
  (i, v) ∈ br_blocks (icrc3_get_blocks (w_led w) args) ->
  exists t, block_type v = Some t
    /\ (t ∈ icrc3_supported_block_types \/ t = "1xfer"%string).
Proof.
  intros (b & _ & ->)%get_blocks_sound. rewrite block_type_eq. eexists. split; [reflexivity|].
  unfold icrc3_supported_block_types.
  destruct (tx_op (b_tx b)) as [|? ? [] ? ?| |]; [left|left|right|left|left];
    try reflexivity; rewrite !elem_of_cons; tauto.
Qed.

(** ** C44 *)

(** A stored zero comes from a credit of nothing. *)
Definition zeros_ok (s : state) : Prop :=
  forall k, balances s !! k = Some 0 -> exists i b, blocks s !! i = Some b /\ zero_credit k b.
Lemma lookup_credit a n s k :
  balances (credit_bal a n s) !! k =
  if decide (k = to_key a) then Some (balance_of s a + n) else balances s !! k.
Proof.
  unfold credit_bal. simpl. case_decide as Hk; [subst; apply lookup_insert|by rewrite lookup_insert_ne].
Qed.
Lemma lookup_debit_zero a n s k :
  balances (debit_bal a n s) !! k = Some 0 -> k <> to_key a /\ balances s !! k = Some 0.
Proof.
  unfold debit_bal. simpl. destruct (N.eqb_spec (balance_of s a - n) 0) as [E|E].
  - intros [? ?]%lookup_delete_Some. done.
  - intros [[<- ?]|[? ?]]%lookup_insert_Some; [lia|done].
Qed.
Lemma zeros_tx_effect now t s : zeros_ok s -> zeros_ok (tx_effect now t s).
Proof.
  intros Hz k Hk. destruct (tx_effect_fields now t s) as (Hbl & _). rewrite Hbl.
  unfold tx_effect in Hk.
  set (s2 := allow_effect (tx_op t) (push_block (mk_block now t s) s)) in *.
  destruct (allow_effect_fields (tx_op t) (push_block (mk_block now t s) s))
    as (_ & Hb & _). fold s2 in Hb. simpl in Hb.
  assert (balances s !! k = Some 0 -> exists i b, (blocks s ++ [mk_block now t s]) !! i = Some b /\ zero_credit k b)
    as Hold.
  { intros (i & b & Hi & Hc)%Hz. exists i, b. split; [|done]. by apply lookup_app_l_Some. }
  assert (forall i, i = length (blocks s) -> (blocks s ++ [mk_block now t s]) !! i = Some (mk_block now t s)) as Hnew.
  { intros i ->. by rewrite lookup_app_r, Nat.sub_diag by lia. }
  destruct (tx_op t) as [to a f | from to sp a f | from sp a | from sp a ea ex f] eqn:Eop; cbn [balance_effect] in Hk.
  - rewrite lookup_credit in Hk. case_decide as Ek; [|rewrite Hb in Hk; by apply Hold].
    injection Hk as Hk. eexists _, _. split; [by apply Hnew|].
    unfold zero_credit. simpl. rewrite Eop. split; [done|lia].
  - rewrite lookup_credit in Hk. case_decide as Ek.
    + injection Hk as Hk. eexists _, _. split; [by apply Hnew|].
      unfold zero_credit. simpl. rewrite Eop. split; [done|lia].
    + apply lookup_debit_zero in Hk as [_ Hk]. rewrite Hb in Hk. by apply Hold.
  - apply lookup_debit_zero in Hk as [_ Hk]. rewrite Hb in Hk. by apply Hold.
  - apply lookup_debit_zero in Hk as [_ Hk]. rewrite Hb in Hk. by apply Hold.
Qed.
Lemma zeros_prim now s s' : prim now s s' -> zeros_ok s -> zeros_ok s'.
Proof.
  intros Hp. destruct Hp; [apply zeros_tx_effect|done| |].
  - unfold drop_tx. destruct (prune_tx_hash_fields i (set_tx_timestamps (tx_timestamps s ∖ {[(ts, i)]}) s))
      as (Hb & Hbal & _). unfold zeros_ok. rewrite Hb, Hbal. done.
  - unfold note_canister. destruct (tx_hashes s !! _); done.
Qed.
Lemma zeros_prims now s s' : prims now s s' -> zeros_ok s -> zeros_ok s'.
Proof. induction 1 as [|s1 s2 s3 Hp _ IH]; [done|]. intros Hz. apply IH. by eapply zeros_prim. Qed.
Lemma zeros_reachable w : reachable w -> zeros_ok (w_led w).
Proof.
  induction 1 as [now cycles args w Hu Hwf Hi|w ev Hr IH Hev].
  - unfold init_world in Hi. destruct (init now args empty_state) as [s [o|[]|t]] eqn:Ei; [|done].
    injection Hi as <-. simpl. destruct (init_prims _ _ _ _ Hu Hwf Ei) as (s1 & c & Hp & ->).
    assert (zeros_ok s1) as Hz; [|exact Hz]. eapply zeros_prims; [exact Hp|]. intros k Hk.
    cbn [balances empty_state] in Hk. by rewrite lookup_empty in Hk.
  - destruct (step_ok w ev (reachable_winv _ Hr) Hev) as [_ [_ [Hp|[c ->]]]]; [by eapply zeros_prims|done].
Qed.

Lemma nonzero_size (m : gmap akey N) (ks : list akey) :
  NoDup ks -> (forall k, k ∈ ks <-> default 0 (m !! k) <> 0) ->
  (length ks <= size m)%nat /\ ((forall k, m !! k <> Some 0) -> length ks = size m).
Proof.
  intros Hnd Hks.
  assert (list_to_set ks ⊆ dom m) as Hsub.
  { intros k Hk%elem_of_list_to_set. apply Hks in Hk. apply elem_of_dom.
    destruct (m !! k); [by eexists|done]. }
  rewrite <- (size_dom (D:=gset akey) m). rewrite <- (size_list_to_set (C:=gset akey) ks Hnd).
  split; [by apply subseteq_size|]. intros Hz.
  assert (list_to_set ks = dom m) as ->; [|done].
  apply set_eq. intros k. split; [apply Hsub|]. intros [v Hv]%elem_of_dom.
  apply elem_of_list_to_set, Hks. rewrite Hv. simpl. intros ->. by apply (Hz k).
Qed.

(** The number of stored balances is at least the number of accounts with funds,
    and equals it if no block of the log credits an account with nothing. *)
Theorem C44_stored_balances_partial w (accts : list account) :
  reachable w ->
  NoDup (to_key <$> accts) ->
  (forall a, to_key a ∈ to_key <$> accts <-> icrc1_balance_of (w_led w) a <> 0) ->
  N.of_nat (length accts) <= m_balances (state_metrics (w_led w))
  /\ ((forall i b k, blocks (w_led w) !! i = Some b -> ~ zero_credit k b) ->
      m_balances (state_metrics (w_led w)) = N.of_nat (length accts)).
Proof.
  intros Hr Hnd Hks. cbn [m_balances state_metrics].
  assert (forall k : akey, exists a, to_key a = k) as Hsurj.
  { intros [p n]. by exists (Acct p (Some n)). }
  destruct (nonzero_size (balances (w_led w)) (to_key <$> accts) Hnd) as [H1 H2].
  { intros k. destruct (Hsurj k) as [a <-]. apply Hks. }
  rewrite fmap_length in H1, H2. split; [lia|]. intros Hz. rewrite H2; [done|].
  intros k Hk. destruct (zeros_reachable w Hr k Hk) as (i & b & Hi & Hc). by eapply Hz.
Qed.

End WithEnv.

(** ** Findings *)

(** With the largest configurable limit, a request for all blocks from 1 on gets
    nothing although there are such blocks. *)
Definition wide_init : ledger_args :=
  LInit (Config (2 ^ 64 - 1) None (Some [(acct alice, 7 * T); (acct bob, 5 * T)])).
Definition wide_world : world := the_world (history T0 (100 * T) wide_init []).
Theorem C29_wrapping_range_refuted :
  exists w, reachable w
    /\ br_blocks (icrc3_get_blocks (w_led w) [(1, 2 ^ 64 - 1)]) = []
    /\ wanted (N.of_nat (length (blocks (w_led w)))) (max_blocks_per_request (cfg (w_led w)))
         [(1, 2 ^ 64 - 1)] = [1].
Proof.
  exists wide_world. split; [apply the_world_reachable; vm_compute; reflexivity|].
  split; [vm_compute; reflexivity|].
  assert (N.of_nat (length (blocks (w_led wide_world))) = 2) as -> by (vm_compute; reflexivity).
  assert (max_blocks_per_request (cfg (w_led wide_world)) = 2 ^ 64 - 1) as -> by (vm_compute; reflexivity).
  unfold wanted. cbn [fmap list_fmap concat]. rewrite app_nil_r, range_ids_eq, take_seqN.
  rewrite N2Nat.id. vm_compute. reflexivity.
Qed.
(** A range of [2^64] or more blocks is skipped, whatever the limit. *)
Theorem C29_long_range_refuted :
  exists w, reachable w
    /\ br_blocks (icrc3_get_blocks (w_led w) [(0, 2 ^ 64)]) = []
    /\ wanted (N.of_nat (length (blocks (w_led w)))) (max_blocks_per_request (cfg (w_led w)))
         [(0, 2 ^ 64)] <> [].
Proof.
  exists demo_world. split; [apply demo_reachable|]. split; [vm_compute; reflexivity|].
  unfold wanted. cbn [fmap list_fmap concat]. rewrite app_nil_r, range_ids_eq, take_seqN.
  vm_compute. discriminate.
Qed.
(** A transfer without spender is in the log and its type is not advertised. *)
Theorem C43_plain_transfer_refuted :
  exists w i v, reachable w /\ (i, v) ∈ br_blocks (icrc3_get_blocks (w_led w) [(0, 100)])
    /\ block_type v = Some "1xfer"%string /\ "1xfer"%string ∉ icrc3_supported_block_types.
Proof.
  exists demo_world, 2, (block_to_value (block_at demo_world 2)).
  split; [apply demo_reachable|]. split.
  { apply elem_of_list_lookup_2 with 2%nat. vm_compute. reflexivity. }
  split; [vm_compute; reflexivity|].
  unfold icrc3_supported_block_types. rewrite !elem_of_cons, elem_of_nil. intuition discriminate.
Qed.
(** A transfer of nothing makes the receiver occupy the balance table. *)
Definition zero_events : list event :=
  [ EvCall (T0 + 1 * sec) carol (CallTransfer None (acct bob) 0 None None None) None ].
Definition zero_world : world := the_world (history T0 (100 * T) demo_init zero_events).
Lemma two_entries_zero (k k1 k2 : akey) (n : N) :
  default 0 (<[k1 := n]> (<[k2 := 0]> (∅ : gmap akey N)) !! k) <> 0 -> k = k1.
Proof.
  destruct (decide (k = k1)) as [->|Hne]; [done|]. rewrite lookup_insert_ne by done.
  destruct (decide (k = k2)) as [->|Hne']; [by rewrite lookup_insert|].
  by rewrite lookup_insert_ne, lookup_empty.
Qed.
Lemma two_entries (k k1 k2 : akey) (n1 n2 : N) :
  n1 <> 0 -> n2 <> 0 ->
  k ∈ [k2; k1] <-> default 0 (<[k1 := n1]> (<[k2 := n2]> (∅ : gmap akey N)) !! k) <> 0.
Proof.
  intros H1 H2. rewrite !elem_of_cons, elem_of_nil.
  destruct (decide (k = k1)) as [->|Hne].
  - rewrite lookup_insert. tauto.
  - rewrite lookup_insert_ne by done. destruct (decide (k = k2)) as [->|Hne'].
    + rewrite lookup_insert. tauto.
    + rewrite lookup_insert_ne, lookup_empty by done. simpl. tauto.
Qed.
Theorem C44_empty_account_stored_refuted :
  exists w, reachable w
    /\ m_balances (state_metrics (w_led w)) = 2
    /\ forall a, icrc1_balance_of (w_led w) a <> 0 -> to_key a = to_key (acct carol).
Proof.
  exists zero_world. split; [apply the_world_reachable; vm_compute; reflexivity|].
  split; [vm_compute; reflexivity|].
  assert (balances (w_led zero_world)
          = <[to_key (acct carol) := 7 * T - FEE]> (<[to_key (acct bob) := 0]> ∅)) as Hb
    by (apply (bool_decide_eq_true_1 _); vm_compute; reflexivity).
  intros a. unfold icrc1_balance_of, balance_of, bal. rewrite Hb. clear Hb.
  apply two_entries_zero.
Qed.

(** ** Cases that meet the hypotheses *)
Example C29_case :
  N.of_nat (length (blocks (w_led demo_world))) + max_blocks_per_request (cfg (w_led demo_world)) <= 2 ^ 64
  /\ (br_blocks (icrc3_get_blocks (w_led demo_world) [(4, 2); (90, 3); (0, 3); (8, 100)])).*1 = [4; 5; 0; 1; 2; 8; 9].
Proof. split; vm_compute; [discriminate|reflexivity]. Qed.
(** The limit cuts the answer. *)
Example C29_limit_case :
  let w := the_world (history T0 (100 * T)
     (LInit (Config 3 None (Some [(acct alice, 1); (acct bob, 2); (acct carol, 3); (acct bob, 4)]))) []) in
  reachable w
  /\ (br_blocks (icrc3_get_blocks (w_led w) [(2, 2); (0, 4)])).*1 = [2; 3; 0].
Proof. split; [apply the_world_reachable|]; vm_compute; reflexivity. Qed.
Example C41_case :
  let l := [(acct bob, 2); (acct carol, 3); (acct bob, 4)] in
  let w := the_world (init_world T0 5 (LInit (Config 3 None (Some l)))) in
  is_Some (init_world T0 5 (LInit (Config 3 None (Some l))))
  /\ icrc1_balance_of (w_led w) (Acct bob (Some 0)) = 6 /\ icrc1_total_supply (w_led w) = 9.
Proof.
  cbv zeta. split; [apply C41_initial_balances; vm_compute; reflexivity|].
  split; vm_compute; reflexivity.
Qed.
Example C41_overflow_case :
  init_world T0 5 (LInit (Config 3 None (Some [(acct bob, 2 ^ 127); (acct carol, 2 ^ 127)]))) = None.
Proof. vm_compute. reflexivity. Qed.
Example C43_case :
  (block_type <$> (br_blocks (icrc3_get_blocks (w_led demo_world) [(0, 6)])).*2)
  = Some <$> ["1mint"; "1mint"; "1xfer"; "2approve"; "2xfer"; "1burn"]%string.
Proof. vm_compute. reflexivity. Qed.
Lemma no_zero_credit (bs : list block) :
  forallb (fun b => match tx_op (b_tx b) with
     | Mint _ n _ => 0 <? n | Transfer _ _ _ n _ => 0 <? n | _ => true end) bs = true ->
  forall i b k, bs !! i = Some b -> ~ zero_credit k b.
Proof.
  intros Hf i b k Hi Hc. apply elem_of_list_lookup_2, elem_of_list_In in Hi.
  rewrite forallb_forall in Hf. specialize (Hf b Hi). unfold zero_credit in Hc.
  destruct (tx_op (b_tx b)); try done; destruct Hc as [_ ->]; done.
Qed.
Example C44_case :
  reachable wide_world /\ NoDup (to_key <$> [acct alice; acct bob])
  /\ (forall a, to_key a ∈ to_key <$> [acct alice; acct bob] <-> icrc1_balance_of (w_led wide_world) a <> 0)
  /\ (forall i b k, blocks (w_led wide_world) !! i = Some b -> ~ zero_credit k b)
  /\ m_balances (state_metrics (w_led wide_world)) = 2.
Proof.
  split; [apply the_world_reachable; vm_compute; reflexivity|].
  split; [apply (bool_decide_eq_true_1 _); vm_compute; reflexivity|].
  assert (balances (w_led wide_world)
          = <[to_key (acct bob) := 5 * T]> (<[to_key (acct alice) := 7 * T]> ∅)) as Hb
    by (apply (bool_decide_eq_true_1 _); vm_compute; reflexivity).
  split.
  { intros a. unfold icrc1_balance_of, balance_of, bal. rewrite Hb. clear Hb.
    apply two_entries; vm_compute; discriminate. }
  clear Hb.
  split; [|vm_compute; reflexivity].
  apply no_zero_credit. vm_compute. reflexivity.
Qed.

Print Assumptions C29_served_blocks_are_right.
Print Assumptions C29_wanted_blocks_are_served_partial.
Print Assumptions C29_single_range_partial.
Print Assumptions C29_wrapping_range_refuted.
Print Assumptions C29_long_range_refuted.
Print Assumptions C41_initial_balances.
Print Assumptions C41_upgrade_argument_refused.
Print Assumptions C43_block_types_partial.
Print Assumptions C43_plain_transfer_refuted.
Print Assumptions C44_stored_balances_partial.
Print Assumptions C44_empty_account_stored_refuted.
