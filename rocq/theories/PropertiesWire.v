(** * Answers on the wire

    C86 *)
From Verif Require Import Base Types Codec ValueHash State Ledger Canister Effects Spec ApiSpec
  Inv Steps World CallFacts CallCases StepFacts AllowFacts AsyncFacts EventFacts AnswerSpec PropertiesLog
  PropertiesQuery PropertiesAnswers Candid CandidProofs IndexerSpec PropertiesIndexer Demo.
From Verif Require PropertiesReceipts PropertiesPaging.
From Verif Require Import Wire WireFacts WireInj.

Section WithEnv.
Context `{Env}.

(** ** Specification *)

(** The answers that a client of the ledger in [w] can see at time [now]: those of the
    queries, and the reply to the update call that is next. [txt] is the text of an
    error message or of a rejection, [cert] and [tree] the certificate of the tip. *)
Inductive can_answer (w : world) : method -> Wire.answer -> Prop :=
| ans_update m ev r txt :
    ev_ok w ev -> (step w ev).2 = RespReply r -> answers m (AnsReply r txt) ->
    can_answer w m (AnsReply r txt)
| ans_balance a : can_answer w MBalance (AnsNat (icrc1_balance_of (w_led w) a))
| ans_supply : can_answer w MSupply (AnsNat (icrc1_total_supply (w_led w)))
| ans_fee : can_answer w MFee (AnsNat icrc1_fee)
| ans_allowance now from sp : can_answer w MAllowance (AnsAllowance (icrc2_allowance (w_led w) now from sp))
| ans_blocks args : can_answer w MBlocks (AnsBlocks (icrc3_get_blocks (w_led w) args))
| ans_allowances now caller from prev take :
    can_answer w MAllowances (AnsAllowances (icrc103_get_allowances (w_led w) now caller from prev take))
| ans_tip o : can_answer w MTip (AnsTip o).

(** ** Proof *)

Lemma decided_elim rules (told : refusal -> Prop) (otherwise P : Prop) :
  (~ ~ P -> P) ->
  (forall cond (reason : refusal -> Prop) r, (cond, reason) ∈ rules -> reason r -> told r -> P) ->
  (otherwise -> P) -> decided rules told otherwise -> P.
Proof.
  intros Hst. induction rules as [|[cond reason] rules IH]; intros Hr Ho Hd; cbn [decided] in Hd; [auto|].
  destruct Hd as [Hy Hn]. apply Hst. intros HP. assert (~ cond) as Hc.
  { intros Hc. destruct (Hy Hc) as (r & H1 & H2). apply HP. apply (Hr cond reason r); [by left|done|done]. }
  apply HP. apply IH; [|done|by apply Hn]. intros c' r' r Hin. apply (Hr c' r' r). by right.
Qed.

Lemma u64_all_stable l : ~ ~ Forall is_u64 l -> Forall is_u64 l.
Proof.
  intros Hn. destruct (decide (Forall (fun n => n < 2 ^ 64) l)) as [Hd|Hd]; [done|]. exfalso. by apply Hn.
Qed.

(** A reason that names a time names the time of the call. *)
Lemma rules_time s now caller c dup cond (reason : refusal -> Prop) r :
  (cond, reason) ∈ rules s now caller c dup -> reason r ->
  match r with CreatedLater t | AlreadyExpired t => t = now | _ => True end.
Proof.
  intros Hin Hr.
  assert (forall l : list (Prop * (refusal -> Prop)),
    Forall (fun x : Prop * (refusal -> Prop) => forall r, x.2 r -> match r with CreatedLater t | AlreadyExpired t => t = now | _ => True end) l ->
    (cond, reason) ∈ l -> match r with CreatedLater t | AlreadyExpired t => t = now | _ => True end) as Hall.
  { intros l Hl Hi. rewrite Forall_forall in Hl. by apply (Hl _ Hi). }
  destruct c; cbn [rules] in Hin; (eapply Hall; [|exact Hin]);
    unfold deposit_rules, transfer_rules, approve_rules, withdraw_rules, create_rules, burn_rules, time_rules, dup_rule;
    cbn [app]; clear; repeat (apply Forall_cons; split); try apply Forall_nil_2; cbn [snd]; intros r Hr; try (by subst r);
    try done.
  all: naive_solver.
Qed.

Lemma update_times w ev r :
  reachable w -> ev_ok w ev -> (step w ev).2 = RespReply r -> Forall is_u64 (reply_times r).
Proof.
  intros Hr Hev He. destruct ev as [now caller c sync|now id ans refund|now args|n|n|now id refund].
  - destruct (step w (EvCall now caller c sync)) as [w' resp] eqn:Hst. cbn [snd] in He. subst resp.
    pose proof (answer_stored _ _ _ _ _ _ _ Hr Hev Hst) as Hd.
    destruct Hev as ([_ Hu] & _). revert Hd. apply decided_elim; [apply u64_all_stable| |].
    + intros cond reason x Hin Hx [Ha _]. pose proof (rules_time _ _ _ _ _ _ _ _ Hin Hx) as Ht.
      destruct c, x; cbn [answer_of] in Ha; try done; injection Ha as <-; cbn [reply_times];
        try apply Forall_nil_2; subst; by apply Forall_singleton.
    + intros [[_ Ha]|(_ & [t Ht] & _)]; [|done]. unfold told_accepted in Ha.
      destruct (outgoing caller c) as [[[f sp] amount]|].
      * destruct (decide _) as [_|_]; [by destruct (outgoing_call _ _)|]. destruct Ha as (fb & ab & Ha).
        destruct c; cbn in Ha; try done; injection Ha as <-; apply Forall_nil_2.
      * destruct c; try done; injection Ha as ->; apply Forall_nil_2.
  - cbn [step] in He. destruct (w_pend w !! id) as [p|]; [|done]. destruct (resume now p ans) as [k|] eqn:Ek; [|done].
    destruct (commit (w_led w) (k (w_led w))) as [s' rr] eqn:Ec. cbn [snd] in He. subst rr.
    pose proof (inv_supply _ _ (reachable_inv _ Hr)) as Hs.
    destruct p as [ep from to sp amount i old|ep from sp amount i old created arg];
      destruct ans as [r0|r0]; cbn [resume] in Ek; try done;
      match type of Ek with Some ?a = _ => assert (k = a) as -> by congruence end; clear Ek.
    + destruct r0 as [[]|e]; [destruct ep; cbn in Ec; injection Ec as _ <-; apply Forall_nil_2|].
      destruct (withdraw_rest_eq ep from sp amount i old now e (w_led w) (w_led w) Hs) as [x Hx].
      rewrite Hx in Ec. unfold wd_fail_rest in Ec.
      destruct (amount - FEE =? 0); [injection Ec as _ <-; destruct ep; apply Forall_nil_2|].
      destruct (refund_outcome _ _ _ _ _ _ _) as [[[s2 fb] ab]|]; [|done].
      injection Ec as _ <-; destruct ep; apply Forall_nil_2.
    + destruct (create_rest_eq ep from sp amount i old created now r0 (w_led w) (w_led w) Hs) as [x Hx].
      rewrite Hx in Ec. destruct (flat_create_result amount r0) as [c|[code n]].
      { injection Ec as _ <-. destruct ep; apply Forall_nil_2. }
      unfold cr_fail_rest in Ec. destruct (n - FEE =? 0); [injection Ec as _ <-; destruct ep; apply Forall_nil_2|].
      destruct (refund_outcome _ _ _ _ _ _ _) as [[[s2 fb] ab]|]; [|done].
      injection Ec as _ <-; destruct ep; apply Forall_nil_2.
  - cbn [step] in He. destruct (post_upgrade _ _) as [s' [u|[]|t]]; done.
  - done.
  - done.
  - cbn [step] in He. by destruct (w_pend w !! id).
Qed.

(** Blocks *)
Definition plain (v : value) : Prop := value_words v /\ (value_depth v <= 2)%nat.
Lemma value_map_words m : value_words (VMap m) <-> Forall (fun kv => value_words kv.2) m.
Proof.
  split.
  - induction m as [|kv m IH]; [constructor|]. intros [H1 H2]. constructor; [done|]. by apply IH.
  - induction 1 as [|kv m H1 _ IH]; [exact I|]. by split.
Qed.
Lemma map_depth n m :
  Forall (fun kv : string * value => (value_depth kv.2 <= n)%nat) m -> (value_depth (VMap m) <= S n)%nat.
Proof.
  intros Hm. cbn [value_depth]. apply le_n_S. induction Hm as [|kv m H1 _ IH]; cbn; lia.
Qed.
Lemma forall_insert (P : string * value -> Prop) k v m :
  P (k, v) -> Forall P m -> Forall P (btree_insert k v m).
Proof.
  intros Hv. induction 1 as [|[k' v'] m H1 H2 IH]; cbn [btree_insert]; [by constructor|].
  destruct (String.compare k k'); [by constructor| |]; constructor; auto; by constructor.
Qed.
Lemma forall_opt {A} (P : string * value -> Prop) k (f : A -> value) (o : option A) m :
  (forall x, P (k, f x)) -> Forall P m -> Forall P (opt_insert k (f <$> o) m).
Proof. intros Hv Hm. destruct o as [x|]; [|exact Hm]. apply forall_insert; [apply Hv|exact Hm]. Qed.
Lemma nat_plain n : plain (VNat n). Proof. split; [exact I|]. cbn. lia. Qed.
Lemma blob_plain b : plain (VBlob b). Proof. split; [exact I|]. cbn. lia. Qed.
Lemma text_plain s : plain (VText s). Proof. split; [exact I|]. cbn. lia. Qed.
Lemma account_plain a : plain (account_to_value a).
Proof.
  unfold plain, account_to_value. destruct (subacct a) as [s|]; [generalize (sub_bytes s); intros b|]; cbn; auto with lia.
Qed.
Lemma tx_map t : exists m, tx_to_value t = VMap m /\ Forall (fun kv => plain kv.2) m.
Proof.
  unfold tx_to_value. eexists. split; [reflexivity|].
  assert (Forall (fun kv => plain kv.2)
    (opt_insert "memo" (VBlob <$> tx_memo t) (opt_insert "ts" (VNat <$> tx_created_at t) []))) as H1.
  { apply forall_opt; [intros; apply blob_plain|]. apply forall_opt; [intros; apply nat_plain|]. constructor. }
  revert H1. generalize (opt_insert "memo" (VBlob <$> tx_memo t) (opt_insert "ts" (VNat <$> tx_created_at t) [])).
  intros m1 H1. destruct (tx_op t) as [to a f|from to sp a f|from sp a|from sp a ea ex f];
    repeat lazymatch goal with
    | |- Forall _ (btree_insert _ _ _) => apply forall_insert
    | |- Forall _ (opt_insert _ _ _) => apply forall_opt; [intros ?|]
    | |- Forall _ m1 => exact H1
    | |- _ => cbn [snd]; first [apply nat_plain|apply text_plain|apply account_plain]
    end.
Qed.
Lemma tx_plain t : value_words (tx_to_value t) /\ (value_depth (tx_to_value t) <= 3)%nat.
Proof.
  destruct (tx_map t) as (m & -> & Hp). split.
  - apply value_map_words. eapply Forall_impl; [exact Hp|]. by intros kv [? _].
  - apply map_depth. eapply Forall_impl; [exact Hp|]. by intros kv [_ ?].
Qed.
Lemma block_map b : exists m, block_to_value b = VMap m
  /\ Forall (fun kv => value_words kv.2 /\ (value_depth kv.2 <= 3)%nat) m.
Proof.
  unfold block_to_value. eexists. split; [reflexivity|].
  pose proof (tx_plain (b_tx b)) as Ht. revert Ht. generalize (tx_to_value (b_tx b)). intros tv Ht.
  assert (forall v, plain v -> value_words v /\ (value_depth v <= 3)%nat) as Hpl by (intros v [? ?]; split; [done|lia]).
  apply forall_opt; [intros x; apply Hpl, nat_plain|]. apply forall_opt; [intros x; apply Hpl, blob_plain|].
  apply forall_insert; [apply Hpl, nat_plain|]. apply forall_insert; [exact Ht|]. constructor.
Qed.
Lemma block_plain b : value_words (block_to_value b) /\ (value_depth (block_to_value b) <= 10)%nat.
Proof.
  destruct (block_map b) as (m & -> & Hp). split.
  - apply value_map_words. eapply Forall_impl; [exact Hp|]. by intros kv [? _].
  - etrans; [apply (map_depth 3)|lia]. eapply Forall_impl; [exact Hp|]. by intros kv [_ ?].
Qed.

(** Listed allowances *)
Lemma allowances_loop from skip mx now l acc :
  forall e, e ∈ get_allowances_loop from skip mx now l acc ->
    e ∈ acc \/ exists x, x ∈ l /\ e = PropertiesPaging.entry x.
Proof.
  revert acc. induction l as [|[k [a x]] l IH]; intros acc e; cbn [get_allowances_loop]; [auto|].
  destruct (match skip with Some k0 => bool_decide (k = k0) | None => false end).
  { intros He. destruct (IH _ _ He) as [?|(y & Hy & ->)]; [auto|]. right. exists y. split; [by right|done]. }
  destruct (mx <=? _); [auto|]. destruct (negb _); [auto|]. destruct (_ && _).
  { intros He. destruct (IH _ _ He) as [?|(y & Hy & ->)]; [auto|]. right. exists y. split; [by right|done]. }
  intros He. destruct (IH _ _ He) as [[Hi|Hi]%elem_of_app|(y & Hy & ->)]; [auto| |].
  - apply elem_of_list_singleton in Hi as ->. right. exists (k, (a, x)). split; [by left|].
    unfold PropertiesPaging.entry, exp_opt. done.
  - right. exists y. split; [by right|done].
Qed.
Lemma listed_ok w now caller from prev take e :
  reachable w -> e ∈ icrc103_get_allowances (w_led w) now caller from prev take ->
  entry_ok e /\ is_u128 (ae_amount e) /\ wf_u64_opt (ae_expires e).
Proof.
  intros Hr. unfold icrc103_get_allowances, get_allowances. intros He.
  apply allowances_loop in He as [He%elem_of_nil|([k [a x]] & Hx & ->)]; [done|].
  unfold approvals_from in Hx. apply elem_of_list_filter in Hx as [_ Hx].
  rewrite sorting.merge_sort_Permutation in Hx. apply elem_of_map_to_list in Hx.
  destruct (inv_appr _ _ (reachable_inv _ Hr) _ _ _ Hx) as (_ & Ha & Hx' & _ & _ & _ & H1 & H2).
  unfold PropertiesPaging.entry, entry_ok. cbn [ae_from ae_spender ae_amount ae_expires fst snd].
  assert (forall k, wf_key k -> wf_account (of_key k)) as Hk.
  { intros k' [Hp Hs]. exact (conj Hp Hs). }
  split; [split; by apply Hk|]. split; [done|]. unfold exp_opt. by destruct (x =? 0).
Qed.

Lemma answer_ok w m a : reachable w -> can_answer w m a -> answers m a /\ writable a /\ accounts_ok a.
Proof.
  intros Hr Ha. destruct Ha as [m ev r txt Hev He Hm|a| | |now from sp|args|now caller from prev take|o];
    cbn [answers writable accounts_ok]; try (by auto).
  - split; [exact Hm|]. split; [|exact I]. by eapply update_times.
  - split; [done|]. split; [|exact I]. unfold icrc2_allowance, allowance. cbn [fst snd].
    destruct (approvals (w_led w) !! approval_key from sp) as [[x e]|] eqn:Ex.
    + apply (inv_appr _ _ (reachable_inv _ Hr)) in Ex as (_ & _ & Hx & _).
      repeat case_match; simplify_eq; cbn [fst snd] in *; try done; simplify_option_eq; done.
    + exact I.
  - split; [done|]. split; [|exact I]. apply Forall_forall. intros [i v] Hi.
    apply (C29_served_blocks_are_right w args) in Hi as [(b & _ & ->) _]. apply block_plain.
  - split; [done|]. split; apply Forall_forall; intros e He;
      by destruct (listed_ok _ _ _ _ _ _ _ Hr He) as (? & ? & ?).
Qed.

(** ** Theorems *)

(** The bytes of every answer can be read back: whoever reads them by the rules of
    Candid gets the table of types of the method and the answer's value, and nothing
    is left over. *)
Theorem C86_answers_can_be_read w m a :
  reachable w -> can_answer w m a -> read_message (answer_bytes m a) = Some (answer_message m a).
Proof.
  intros Hr Ha. destruct (answer_ok _ _ _ Hr Ha) as (H1 & H2 & _). by apply read_enc_message, answer_well_typed.
Qed.

(** No two different answers look alike: answers of the same method with the same
    bytes are the same, in any two worlds, down to the text of an error. *)
Theorem C86_answers_mean_one_thing w1 w2 m a b :
  reachable w1 -> reachable w2 -> can_answer w1 m a -> can_answer w2 m b ->
  answer_bytes m a = answer_bytes m b -> same_answer a b.
Proof.
  intros Hr1 Hr2 Ha Hb E.
  pose proof (C86_answers_can_be_read _ _ _ Hr1 Ha) as Ea. pose proof (C86_answers_can_be_read _ _ _ Hr2 Hb) as Eb.
  rewrite E, Eb in Ea. injection Ea as Ev. destruct (answer_ok _ _ _ Hr1 Ha) as (H1 & _ & H2).
  destruct (answer_ok _ _ _ Hr2 Hb) as (H3 & _ & H4). by eapply answer_inj.
Qed.

End WithEnv.

(** ** The numbers of the names

    The specification of Candid: the number of a name is the sum of its bytes, each times
    223 to the power of how many bytes follow it, modulo 2^32. The fields of a tuple are
    numbered from 0 and have no name; the model writes them "0" and "1". *)
Fixpoint name_sum (bs : list byte) : N :=
  match bs with [] => 0 | b :: r => Byte.to_N b * 223 ^ N.of_nat (length r) + name_sum r end.

Lemma name_fold bs h :
  fold_left (fun h b => (h * 223 + Byte.to_N b) mod 2 ^ 32) bs (h mod 2 ^ 32)
  = (h * 223 ^ N.of_nat (length bs) + name_sum bs) mod 2 ^ 32.
Proof.
  assert (Hz : (2 ^ 32 : N) <> 0) by discriminate.
  revert h. induction bs as [|b bs IH]; intros h; cbn [fold_left name_sum length].
  - f_equal. change (N.of_nat 0) with 0. rewrite N.pow_0_r. lia.
  - replace ((h mod 2 ^ 32 * 223 + Byte.to_N b) mod 2 ^ 32) with ((h * 223 + Byte.to_N b) mod 2 ^ 32).
    + rewrite IH. f_equal. rewrite Nat2N.inj_succ, N.pow_succ_r'. lia.
    + rewrite <- (N.add_mod_idemp_l (h * 223)) by exact Hz.
      rewrite <- (N.add_mod_idemp_l (h mod 2 ^ 32 * 223)) by exact Hz.
      rewrite N.mul_mod_idemp_l by exact Hz. reflexivity.
Qed.

Theorem C86_names_are_numbered s : s <> "0"%string -> s <> "1"%string ->
  label s = name_sum (str_bytes s) mod 2 ^ 32.
Proof.
  intros H0 H1. unfold label. rewrite bool_decide_eq_false_2, bool_decide_eq_false_2 by assumption.
  apply (name_fold (str_bytes s) 0).
Qed.

(** Messages start with the four letters DIDL, and only such messages are read. *)
Theorem C86_messages_start_with_DIDL :
  (forall m a, exists rest, answer_bytes m a = str_bytes "DIDL" ++ rest)
  /\ (forall b msg, read_message b = Some msg -> exists rest, b = str_bytes "DIDL" ++ rest).
Proof.
  split.
  - intros m a. eexists. unfold answer_bytes, enc_message. reflexivity.
  - intros b msg Hr. unfold read_message in Hr. case_bool_decide as Hd; [|discriminate].
    exists (drop 4 b). rewrite <- (take_drop 4 b) at 1. rewrite Hd. reflexivity.
Qed.

(** ** A case

    The running example: the fee, whose bytes are written out; a transfer that is
    refused because its time lies ahead; the allowances and the first block, which a
    reader gets back as they are. *)
Definition early : event :=
  EvCall (T0 + 20 * sec) alice (CallTransfer None (acct bob) T None None (Some (T0 + 100 * sec))) None.
Definition early_answer : Wire.answer := AnsReply (RepTransfer (Err (TCreatedInFuture (T0 + 20 * sec)))) [].
Example C86_case :
  reachable demo_world
  /\ map label ["owner"; "subaccount"; "Ok"; "Err"; "ledger_time"]%string
     = [947296307; 1349681965; 17724; 3456837; 2709806499]
  /\ map Byte.to_N (answer_bytes MFee (AnsNat icrc1_fee)) = [68; 73; 68; 76; 0; 1; 125; 128; 194; 215; 47]
  /\ can_answer demo_world MTransfer early_answer
  /\ map Byte.to_N (answer_bytes MTransfer early_answer)
     = [68; 73; 68; 76; 8; 108; 1; 191; 155; 183; 240; 13; 125; 108; 1; 155; 179; 190; 166; 10; 125;
        108; 1; 156; 186; 182; 156; 2; 125; 108; 1; 163; 187; 145; 140; 10; 120; 108; 1; 139; 189; 242;
        155; 1; 125; 108; 2; 199; 235; 196; 208; 9; 113; 196; 152; 177; 181; 13; 125; 107; 8; 209; 196;
        152; 124; 5; 194; 145; 236; 185; 2; 127; 148; 193; 199; 137; 4; 1; 235; 130; 168; 151; 4; 4;
        161; 195; 235; 253; 7; 0; 240; 135; 230; 219; 9; 3; 147; 229; 190; 200; 12; 127; 235; 156; 219;
        213; 15; 2; 107; 2; 188; 138; 1; 125; 197; 254; 210; 1; 6; 1; 7;
        1; 5; 0; 200; 65; 222; 2; 157; 151; 23]
  /\ length (icrc103_get_allowances (w_led demo_world) (T0 + 20 * sec) alice None None None) = 1%nat
  /\ length (br_blocks (icrc3_get_blocks (w_led demo_world) [(0, 3)])) = 3%nat
  /\ length (answer_bytes MBlocks (AnsBlocks (icrc3_get_blocks (w_led demo_world) [(0, 3)]))) = 451%nat
  /\ read_message (answer_bytes MBlocks (AnsBlocks (icrc3_get_blocks (w_led demo_world) [(0, 3)])))
     = Some (answer_message MBlocks (AnsBlocks (icrc3_get_blocks (w_led demo_world) [(0, 3)]))).
Proof.
  split; [apply demo_reachable|]. split; [vm_compute; reflexivity|]. split; [vm_compute; reflexivity|].
  split.
  { apply (ans_update _ _ early); [apply ev_okb_ok; vm_compute; reflexivity|vm_compute; reflexivity|reflexivity]. }
  split; [vm_compute; reflexivity|]. split; [vm_compute; reflexivity|]. split; [vm_compute; reflexivity|].
  split; [vm_compute; reflexivity|]. vm_compute. reflexivity.
Qed.

Print Assumptions C86_names_are_numbered.
Print Assumptions C86_messages_start_with_DIDL.
Print Assumptions C86_answers_can_be_read.
Print Assumptions C86_answers_mean_one_thing.
