(** * The corners, exactly

    For some properties of the list that are false in a corner: what happens there
    and nowhere else.

    C13 C19 C29 C44 *)
From Verif Require Import Base Types Codec CodecFacts State Ledger Canister Effects Spec ApiSpec
  Inv Steps World CallFacts CallCases StepFacts AllowFacts DedupFacts
  PropertiesLog PropertiesDedup PropertiesCalls PropertiesAuth PropertiesPaging PropertiesQuery Demo.

(** ** Specification *)

(** C29: the identifiers served for [ranges] when there is [room] for that many
    blocks.  A range is left out if its length does not fit 64 bits, or if the
    identifier after the last one that could be served does not. *)
Fixpoint expected_ids (n room : N) (ranges : list (N * N)) : list N :=
  match ranges with
  | [] => []
  | (start, len) :: rest =>
      let ids := if (2 ^ 64 <=? len) || (2 ^ 64 <=? start + N.min room len) then []
                 else take (N.to_nat room) (range_ids n (start, len)) in
      ids ++ expected_ids n (room - N.of_nat (length ids)) rest
  end.

(** C44: how a block last moved the balance of an account. A transfer to itself
    ends with the credit. *)
Inductive move := Credited | Debited.
Definition moved (k : akey) (b : block) : option move :=
  match tx_op (b_tx b) with
  | Mint to _ _ => if decide (to_key to = k) then Some Credited else None
  | Transfer from to _ _ _ =>
      if decide (to_key to = k) then Some Credited
      else if decide (to_key from = k) then Some Debited else None
  | Burn from _ _ => if decide (to_key from = k) then Some Debited else None
  | Approve from _ _ _ _ _ => if decide (to_key from = k) then Some Debited else None
  end.
Definition last_move (k : akey) (bs : list block) : option move := last (omap (moved k) bs).

Section WithEnv.
Context `{Env}.

(** ** C13 *)

(** A well-formed funded transfer that is not a retry is accepted, except exactly
    when it goes back to the sender and balance plus amount does not fit 128 bits;
    then it is refused and changes nothing. *)
Theorem C13_exactly_when w now caller sub to amount fee m created sync w' resp :
  let from := Acct caller sub in
  reachable w ->
  ev_ok w (EvCall now caller (CallTransfer sub to amount fee m created) sync) ->
  step w (EvCall now caller (CallTransfer sub to amount fee m created) sync) = (w', resp) ->
  fee = None \/ fee = Some icrc1_fee -> memo_fits m -> time_fits created now ->
  permitted from -> permitted to ->
  amount + icrc1_fee <= icrc1_balance_of (w_led w) from ->
  duplicate_of resp = None ->
  (resp = RespReply (RepTransfer (Ok (N.of_nat (length (blocks (w_led w))))))
   /\ (to_key to = to_key from -> icrc1_balance_of (w_led w) from + amount < 2 ^ 128))
  \/ (resp = RespReply (RepTransfer (Err (TGenericError 100000)))
      /\ unchanged w w'
      /\ to_key to = to_key from /\ 2 ^ 128 <= icrc1_balance_of (w_led w) from + amount).
Proof.
  intros from Hr Hev Hst Hfee Hm Ht Hpf Hpt Hbal Hdup.
  destruct (decide (to_key to = to_key from)) as [Ek|Hne].
  2: { left. split; [|done]. by eapply C13_funded_transfer_succeeds_partial. }
  destruct (decide (icrc1_balance_of (w_led w) from + amount < 2 ^ 128)) as [Hlt|Hge].
  { left. split; [|done]. by eapply C13_funded_transfer_succeeds_partial. }
  right.
  assert (resp = RespReply (RepTransfer (Err (TGenericError UNKNOWN_GENERIC_ERROR)))) as E.
  { destruct (call_inv _ _ _ _ _ Hr Hev) as (Hi & Hu & Hcl & Hwf). destruct Hwf as (Hsub & Hto & Hcr).
    pose proof (inv_supply _ _ Hi) as Hs.
    apply step_call in Hst as (s' & r & He & _ & Hm').
    rewrite exec_transfer in He by done. fold from in He.
    unfold icrc1_balance_of, icrc1_fee in *.
    pose proof (supply_bal (w_led w) (to_key from) Hs) as Hsb. fold (balance_of (w_led w) from) in Hsb.
    assert (total_supply (w_led w) < U128_MOD) as Hts by apply Hs.
    change (2 ^ 128) with U128_MOD in Hge.
    assert (xfer_decide from to None amount fee m created now (w_led w) = OErr (TFGenericError UNKNOWN_GENERIC_ERROR)
            \/ exists i, xfer_decide from to None amount fee m created now (w_led w) = OErr (TFDuplicate i)) as Hd.
    { unfold xfer_decide. destruct (N.leb_spec U128_MOD amount); [lia|].
      assert (match fee with Some f => U128_MOD <=? f | None => false end = false) as ->.
      { destruct Hfee as [->| ->]; done. }
      unfold transfer_decide. destruct (tx_hashes _ !! _) as [[i x]|]; [right; eauto|left].
      rewrite !is_denied_ok by done. rewrite bad_fee_ok by done.
      destruct (N.leb_spec U128_MOD (amount + FEE)); [lia|]. simpl.
      destruct (N.ltb_spec (balance_of (w_led w) from) (amount + FEE)); [lia|].
      assert (balance_of (w_led w) to = balance_of (w_led w) from) as -> by (unfold balance_of; by rewrite Ek).
      destruct (N.leb_spec U128_MOD (balance_of (w_led w) from + amount)); [done|lia]. }
    destruct Hd as [Hd|[i Hd]]; rewrite Hd in He; injection He as <- <-; destruct Hm' as [-> _]; done. }
  split; [exact E|]. split; [|split; [done|lia]].
  eapply step_rejected; [exact Hr|exact Hev|exact Hst|by rewrite E].
Qed.

(** ** C19 *)

(** What [icrc2_allowance] reports is usable or expires at this very moment, and
    in that case nothing is usable. *)
Theorem C19_exactly_when (w : world) now f p :
  usable (w_led w) now f p = icrc2_allowance (w_led w) now f p
  \/ ((icrc2_allowance (w_led w) now f p).2 = Some now /\ usable (w_led w) now f p = (0, None)).
Proof.
  destruct (decide ((icrc2_allowance (w_led w) now f p).2 = Some now)) as [E|Hne].
  - right. split; [done|]. unfold usable. destruct (icrc2_allowance (w_led w) now f p) as [a e].
    simpl in E. subst e. rewrite decide_False; [done|]. simpl. lia.
  - left. by apply C19_reported_is_usable_partial.
Qed.

(** ** C29 *)

Lemma expected_ids_lt n room ranges : Forall (fun i => i < n) (expected_ids n room ranges).
Proof.
  revert room. induction ranges as [|[start len] ranges IH]; intros room; [constructor|].
  cbn [expected_ids]. apply Forall_app. split; [|apply IH].
  destruct (_ || _); [constructor|]. apply Forall_take. rewrite range_ids_eq. apply Forall_forall.
  intros i Hi%elem_of_seqN. lia.
Qed.
Lemma expected_none n ranges : expected_ids n 0 ranges = [].
Proof.
  induction ranges as [|[start len] ranges IH]; [done|]. cbn [expected_ids].
  destruct (_ || _); simpl; [exact IH|]. exact IH.
Qed.

Lemma loop_expected s max acc args :
  nblocks s < U64_MOD -> N.of_nat (length acc) <= max ->
  get_blocks_loop s max acc args
  = acc ++ served s (expected_ids (nblocks s) (max - N.of_nat (length acc)) args).
Proof.
  intros Hn. revert acc. induction args as [|[start len] args IH]; intros acc Hacc.
  { cbn [get_blocks_loop expected_ids]. by rewrite app_nil_r. }
  cbn [get_blocks_loop expected_ids]. change (2 ^ 64) with U64_MOD.
  remember (max - N.of_nat (length acc)) as room eqn:Eroom.
  destruct (N.eqb_spec room 0) as [E|E].
  { rewrite E. rewrite take_0.
    assert ((if (U64_MOD <=? len) || (U64_MOD <=? start + N.min 0 len) then @nil N else []) = []) as ->
      by (by destruct (_ || _)).
    cbn [app]. rewrite N.sub_0_l, expected_none. simpl. by rewrite app_nil_r. }
  (* the range is skipped *)
  assert (forall ids, ids = [] ->
    get_blocks_loop s max acc args = acc ++ served s (ids ++ expected_ids (nblocks s) (room - N.of_nat (length ids)) args)) as Hskip.
  { intros ids ->. rewrite IH by done. simpl. rewrite N.sub_0_r. by rewrite Eroom. }
  unfold nat_to_u64 at 1. destruct (N.ltb_spec start U64_MOD) as [Hs|Hs].
  2: { apply Hskip. destruct (N.leb_spec U64_MOD (start + N.min room len)); [by rewrite orb_true_r|lia]. }
  destruct (N.leb_spec (nblocks s) start) as [Hge|Hlt].
  { apply Hskip. destruct (_ || _); [done|]. rewrite range_ids_eq.
    replace (N.min (nblocks s) (start + len) - start) with 0 by lia. by rewrite seqN_0, take_nil. }
  unfold nat_to_u64. destruct (N.ltb_spec len U64_MOD) as [Hl|Hl].
  2: { apply Hskip. destruct (N.leb_spec U64_MOD len); [done|lia]. }
  destruct (N.leb_spec U64_MOD len) as [?|_]; [lia|]. cbn [orb].
  unfold u64_wrap_add. destruct (N.leb_spec U64_MOD (start + N.min room len)) as [Hw|Hw].
  - rewrite <- (Hskip [] eq_refl).
    assert ((start + N.min room len) mod U64_MOD = start + N.min room len - U64_MOD) as ->.
    { symmetry. apply (N.mod_unique _ _ 1); lia. }
    replace (N.min (nblocks s) (start + N.min room len - U64_MOD) - start) with 0 by lia.
    rewrite seqN_0. simpl. by rewrite app_nil_r.
  - rewrite N.mod_small by done. rewrite range_ids_eq, take_seqN, N2Nat.id.
    replace (N.min (nblocks s) (start + N.min room len) - start)
      with (N.min room (N.min (nblocks s) (start + len) - start)) by lia.
    set (m := N.min room (N.min (nblocks s) (start + len) - start)).
    rewrite served_eq. rewrite seqN_length.
    assert (Forall (fun i => i < nblocks s) (seqN start m)) as Hids.
    { apply Forall_forall. intros i Hi%elem_of_seqN. lia. }
    assert (length (served s (seqN start m)) = N.to_nat m) as Hlen by (rewrite served_length by done; by rewrite seqN_length).
    rewrite IH by (rewrite app_length, Hlen; lia).
    rewrite app_length, Hlen, <- app_assoc, <- served_app. do 3 f_equal. f_equal. lia.
Qed.

(** Exactly these blocks are served, for every request and configuration. *)
Theorem C29_exactly_which (w : world) args :
  let n := N.of_nat (length (blocks (w_led w))) in
  n < 2 ^ 64 ->
  (br_blocks (icrc3_get_blocks (w_led w) args)).*1
  = expected_ids n (max_blocks_per_request (cfg (w_led w))) args.
Proof.
  cbv zeta. intros Hn. unfold icrc3_get_blocks, get_blocks. cbn [br_blocks].
  fold (nblocks (w_led w)) in *. change (2 ^ 64) with U64_MOD in Hn.
  rewrite loop_expected; [|done|simpl; lia].
  cbn [app length]. rewrite N.sub_0_r. apply served_ids. apply expected_ids_lt.
Qed.

(** ** C44 *)

Definition stored_ok (s : state) : Prop :=
  forall k, is_Some (balances s !! k) <-> bal s k <> 0 \/ last_move k (blocks s) = Some Credited.

Lemma last_move_snoc k bs b :
  last_move k (bs ++ [b]) = match moved k b with Some x => Some x | None => last_move k bs end.
Proof.
  unfold last_move. rewrite omap_app. cbn [omap list_omap].
  destruct (moved k b); [by rewrite last_snoc|by rewrite app_nil_r].
Qed.

Lemma stored_credit a n s k :
  is_Some (balances (credit_bal a n s) !! k) <-> k = to_key a \/ is_Some (balances s !! k).
Proof.
  rewrite lookup_credit. case_decide as E; [subst; split; [by left|eauto]|]. split; [by right|].
  intros [?|?]; done.
Qed.
Lemma stored_debit a n s k :
  is_Some (balances (debit_bal a n s) !! k)
  <-> (k = to_key a /\ bal (debit_bal a n s) k <> 0) \/ (k <> to_key a /\ is_Some (balances s !! k)).
Proof.
  unfold debit_bal, bal. cbn [balances set_balances set_total_supply].
  destruct (N.eqb_spec (balance_of s a - n) 0) as [E|E].
  - destruct (decide (k = to_key a)) as [->|Hne].
    + rewrite lookup_delete. simpl. split; [intros [? ?]; done|]. intros [[_ ?]|[? _]]; done.
    + rewrite lookup_delete_ne by done. naive_solver.
  - destruct (decide (k = to_key a)) as [->|Hne].
    + rewrite lookup_insert. simpl. split; [by left|eauto].
    + rewrite lookup_insert_ne by done. naive_solver.
Qed.
Lemma bal_debit_other a n s k : k <> to_key a -> bal (debit_bal a n s) k = bal s k.
Proof.
  intros Hne. unfold bal, debit_bal. cbn [balances set_balances set_total_supply].
  destruct (_ =? 0); [by rewrite lookup_delete_ne|by rewrite lookup_insert_ne].
Qed.
Lemma bal_credit_other a n s k : k <> to_key a -> bal (credit_bal a n s) k = bal s k.
Proof.
  intros Hne. unfold bal, credit_bal. cbn [balances set_balances set_total_supply].
  by rewrite lookup_insert_ne.
Qed.

Lemma stored_tx_effect now t s : stored_ok s -> stored_ok (tx_effect now t s).
Proof.
  intros Hz k. destruct (tx_effect_fields now t s) as (Hbl & _). rewrite Hbl, last_move_snoc.
  unfold tx_effect.
  set (s2 := allow_effect (tx_op t) (push_block (mk_block now t s) s)) in *.
  destruct (allow_effect_fields (tx_op t) (push_block (mk_block now t s) s)) as (_ & Hb & _).
  fold s2 in Hb. simpl in Hb.
  assert (bal s2 k = bal s k) as Hb2 by (unfold bal; by rewrite Hb).
  specialize (Hz k). rewrite <- Hb in Hz. rewrite <- Hb2 in Hz. clear Hb Hb2.
  unfold moved. cbn [b_tx mk_block].
  destruct (tx_op t) as [to a f | from to sp a f | from sp a | from sp a ea ex f] eqn:Eop; cbn [balance_effect].
  - rewrite stored_credit. case_decide as E; [subst; intuition|].
    rewrite bal_credit_other by done. rewrite Hz. split; [intros [?|?]; [by subst|done]|by right].
  - rewrite stored_credit, stored_debit. case_decide as E; [subst; intuition|].
    rewrite bal_credit_other by done. case_decide as E2.
    + subst k. split; [intros [?|[[_ ?]|[? _]]]; by (left || subst)|]. intros [?|?]; [|done]. right. by left.
    + rewrite bal_debit_other by done. rewrite Hz. split.
      * intros [?|[[? _]|[_ ?]]]; [by subst|by subst|done].
      * intros ?. right. right. done.
  - rewrite stored_debit. case_decide as E2.
    + subst k. split; [intros [[_ ?]|[? _]]; by (left || subst)|]. intros [?|?]; [|done]. by left.
    + rewrite bal_debit_other by done. rewrite Hz. split; [intros [[? _]|[_ ?]]; [by subst|done]|by right].
  - rewrite stored_debit. case_decide as E2.
    + subst k. split; [intros [[_ ?]|[? _]]; by (left || subst)|]. intros [?|?]; [|done]. by left.
    + rewrite bal_debit_other by done. rewrite Hz. split; [intros [[? _]|[_ ?]]; [by subst|done]|by right].
Qed.
Lemma stored_prims now s s' : prims now s s' -> stored_ok s -> stored_ok s'.
Proof.
  induction 1 as [|s1 s2 s3 Hp _ IH]; [done|]. intros Hz. apply IH. revert Hz. clear IH.
  destruct Hp; [apply stored_tx_effect|done| |].
  - unfold drop_tx. destruct (prune_tx_hash_fields i (set_tx_timestamps (tx_timestamps s ∖ {[(ts, i)]}) s))
      as (Hb & Hbal & _). unfold stored_ok, bal. rewrite Hb, Hbal. done.
  - unfold note_canister. destruct (tx_hashes s !! _); done.
Qed.
Lemma stored_reachable w : reachable w -> stored_ok (w_led w).
Proof.
  induction 1 as [now cycles args w Hu Hwf Hi|w ev Hr IH Hev].
  - unfold init_world in Hi. destruct (init now args empty_state) as [s [o|[]|t]] eqn:Ei; [|done].
    injection Hi as <-. simpl. destruct (init_prims _ _ _ _ Hu Hwf Ei) as (s1 & c & Hp & ->).
    assert (stored_ok s1) as Hz; [|exact Hz]. eapply stored_prims; [exact Hp|]. intros k.
    unfold bal. cbn [balances blocks empty_state]. rewrite lookup_empty. simpl.
    split; [intros [? ?]; done|]. intros [?|?]; done.
  - destruct (step_ok w ev (reachable_winv _ Hr) Hev) as [_ [_ [Hp|[c ->]]]]; [by eapply stored_prims|done].
Qed.

(** The accounts in the balance table are exactly those with funds and those whose
    last movement was a credit (of nothing, if they have no funds). *)
Theorem C44_exactly_which w (accts : list account) :
  reachable w ->
  NoDup (to_key <$> accts) ->
  (forall a, to_key a ∈ to_key <$> accts
     <-> icrc1_balance_of (w_led w) a <> 0 \/ last_move (to_key a) (blocks (w_led w)) = Some Credited) ->
  m_balances (state_metrics (w_led w)) = N.of_nat (length accts).
Proof.
  intros Hr Hnd Hks. cbn [m_balances state_metrics].
  assert (forall k : akey, exists a, to_key a = k) as Hsurj.
  { intros [p n]. by exists (Acct p (Some n)). }
  pose proof (stored_reachable w Hr) as Hst.
  rewrite <- (fmap_length to_key accts).
  rewrite <- (size_dom (D:=gset akey) (balances (w_led w))).
  rewrite <- (size_list_to_set (C:=gset akey) (to_key <$> accts) Hnd).
  do 2 f_equal. apply set_eq. intros k. rewrite elem_of_dom, elem_of_list_to_set.
  destruct (Hsurj k) as [a <-]. rewrite (Hst (to_key a)), Hks. done.
Qed.

End WithEnv.

(** ** Cases *)

(** Both sides of C13: the rich account's transfer to itself and to another. *)
Example C13_exact_case :
  let ev := rich_transfer (acct alice) in let ev' := rich_transfer (acct bob) in
  reachable rich_world /\ ev_ok rich_world ev /\ ev_ok rich_world ev'
  /\ permitted (acct alice) /\ 2 ^ 127 + icrc1_fee <= icrc1_balance_of (w_led rich_world) (acct alice)
  /\ (step rich_world ev).2 = RespReply (RepTransfer (Err (TGenericError UNKNOWN_GENERIC_ERROR)))
  /\ (step rich_world ev').2 = RespReply (RepTransfer (Ok 1)).
Proof.
  cbv zeta. split; [apply the_world_reachable; vm_compute; reflexivity|].
  split; [apply ev_okb_ok; vm_compute; reflexivity|]. split; [apply ev_okb_ok; vm_compute; reflexivity|].
  split; [vm_compute; congruence|]. split; [vm_compute; congruence|]. split; vm_compute; reflexivity.
Qed.
(** A range that is too long between two others *)
Example C29_exact_case :
  N.of_nat (length (blocks (w_led demo_world))) < 2 ^ 64
  /\ (br_blocks (icrc3_get_blocks (w_led demo_world) [(4, 2); (0, 2 ^ 64); (8, 100)])).*1 = [4; 5; 8; 9]
  /\ expected_ids 10 50 [(4, 2); (0, 2 ^ 64); (8, 100)] = [4; 5; 8; 9]
  /\ (br_blocks (icrc3_get_blocks (w_led wide_world) [(1, 2 ^ 64 - 1); (1, 5)])).*1 = [1].
Proof. split; [vm_compute; reflexivity|]. split; [vm_compute; reflexivity|]. split; vm_compute; reflexivity. Qed.
(** The world of [C44_empty_account_stored_refuted] *)
Example C44_exact_case :
  reachable zero_world /\ NoDup (to_key <$> [acct carol; acct bob])
  /\ (forall a, to_key a ∈ to_key <$> [acct carol; acct bob]
        <-> icrc1_balance_of (w_led zero_world) a <> 0
            \/ last_move (to_key a) (blocks (w_led zero_world)) = Some Credited)
  /\ m_balances (state_metrics (w_led zero_world)) = 2.
Proof.
  split; [apply the_world_reachable; vm_compute; reflexivity|].
  split; [apply (bool_decide_eq_true_1 _); vm_compute; reflexivity|]. split; [|vm_compute; reflexivity].
  assert (balances (w_led zero_world)
          = <[to_key (acct carol) := 7 * T - FEE]> (<[to_key (acct bob) := 0]> ∅)) as Hb
    by (apply (bool_decide_eq_true_1 _); vm_compute; reflexivity).
  assert (reachable zero_world) as Hr by (apply the_world_reachable; vm_compute; reflexivity).
  intros a. pose proof (stored_reachable _ Hr (to_key a)) as Hst.
  change (icrc1_balance_of (w_led zero_world) a) with (bal (w_led zero_world) (to_key a)).
  rewrite <- Hst, Hb. clear Hb Hst. generalize (to_key a) as k. intros k.
  cbn [fmap list_fmap]. rewrite !elem_of_cons, elem_of_nil.
  generalize (to_key (acct carol)) (to_key (acct bob)) (7 * T - FEE). intros k1 k2 n.
  destruct (decide (k = k1)) as [->|Hne]; [rewrite lookup_insert; split; [eauto|by left]|].
  rewrite lookup_insert_ne by done.
  destruct (decide (k = k2)) as [->|Hne']; [rewrite lookup_insert; split; [eauto|by right; left]|].
  rewrite lookup_insert_ne, lookup_empty by done. split; [intros [?|[?|?]]; done|intros [? ?]; done].
Qed.

Print Assumptions C13_exactly_when.
Print Assumptions C19_exactly_when.
Print Assumptions C29_exactly_which.
Print Assumptions C44_exactly_which.
