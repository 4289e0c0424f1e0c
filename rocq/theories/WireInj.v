(** * Different answers have different bytes *)
From Verif Require Import Base Types Codec CodecFacts CodecProofs ValueHash State Ledger Canister Candid
  CandidProofs Wire WireFacts IndexerSpec PropertiesIndexer.
Local Open Scope string_scope.
Local Open Scope N_scope.

Lemma alt_inj alts n v n' v' :
  alt_of alts n v = alt_of alts n' v' -> label n = label n' /\ v = v'.
Proof. unfold alt_of. intros [= _ H1 H2]. done. Qed.

Lemma rejection_inj c c' : rejection_v c = rejection_v c' -> c = c'.
Proof.
  unfold rejection_v. intros [E _]%alt_inj. destruct c, c'; vm_compute in E; first [discriminate E | reflexivity].
Qed.

(** Whether the answer comes with a text *)
Definition has_text (r : reply) : bool :=
  match r with
  | RepTransfer (Err (TGenericError _)) | RepTransferFrom (Err (TFGenericError _))
  | RepApprove (Err (AGenericError _))
  | RepWithdraw (Err (WGenericError _)) | RepWithdraw (Err (WFailedToWithdraw _ _))
  | RepWithdrawFrom (Err (WFGenericError _)) | RepWithdrawFrom (Err (WFFailedToWithdrawFrom _ _ _ _))
  | RepCreate (Err (CGenericError _)) | RepCreate (Err (CFailedToCreate _ _))
  | RepCreateFrom (Err (CFGenericError _)) | RepCreateFrom (Err (CFFailedToCreateFrom _ _ _ _)) => true
  | _ => false
  end.

Lemma one_inj n v v' : onev n v = onev n v' -> v = v'.
Proof. unfold onev, rec_of. cbn. congruence. Qed.

Lemma xopt_inj {A} (f : A -> cand) (o o' : option A) :
  (forall x y, f x = f y -> x = y) -> XOpt (f <$> o) = XOpt (f <$> o') -> o = o'.
Proof.
  intros Hf. destruct o, o'; cbn; intros E;
    [injection E as E; f_equal; auto|discriminate E|discriminate E|done].
Qed.
Lemma opt_nat_inj o o' : opt_nat o = opt_nat o' -> o = o'.
Proof. apply xopt_inj. congruence. Qed.
Lemma opt_principal_inj o o' : opt_principal o = opt_principal o' -> o = o'.
Proof. apply xopt_inj. congruence. Qed.
Lemma time_opt_inj o o' : time_opt o = time_opt o' -> o = o'.
Proof. apply xopt_inj. congruence. Qed.

Lemma generic_inj c t c' t' : generic_v c t = generic_v c' t' -> c = c' /\ t = t'.
Proof. unfold generic_v. calc_recs. intros [=]. done. Qed.
Lemma duplicate_inj n x n' x' : create_duplicate_v n x = create_duplicate_v n' x' -> n = n' /\ x = x'.
Proof.
  unfold create_duplicate_v. generalize (opt_principal_inj x x').
  generalize (opt_principal x) (opt_principal x'). intros y y' Hy. calc_recs. intros [=]. auto.
Qed.
Lemma success_inj x x' : create_success_v x = create_success_v x' -> x = x'.
Proof. destruct x, x'. unfold create_success_v. cbn [fst snd]. calc_recs. intros [=]. by subst. Qed.
Lemma failed_withdraw_inj f c t f' c' t' :
  rec_of [("fee_block", opt_nat f); ("rejection_code", rejection_v c); ("rejection_reason", XText t)]
  = rec_of [("fee_block", opt_nat f'); ("rejection_code", rejection_v c'); ("rejection_reason", XText t')] ->
  f = f' /\ c = c' /\ t = t'.
Proof.
  generalize (opt_nat_inj f f') (rejection_inj c c').
  generalize (opt_nat f) (opt_nat f') (rejection_v c) (rejection_v c'). intros ???? Hf Hc.
  calc_recs. intros [=]. auto.
Qed.
Lemma failed_from_inj n f r a c t f' r' a' c' t' :
  n = "withdraw_from_block" \/ n = "create_from_block" ->
  rec_of [(n, opt_nat f); ("refund_block", opt_nat r); ("approval_refund_block", opt_nat a);
          ("rejection_code", rejection_v c); ("rejection_reason", XText t)]
  = rec_of [(n, opt_nat f'); ("refund_block", opt_nat r'); ("approval_refund_block", opt_nat a');
            ("rejection_code", rejection_v c'); ("rejection_reason", XText t')] ->
  f = f' /\ r = r' /\ a = a' /\ c = c' /\ t = t'.
Proof.
  generalize (opt_nat_inj f f') (opt_nat_inj r r') (opt_nat_inj a a') (rejection_inj c c').
  generalize (opt_nat f) (opt_nat f') (opt_nat r) (opt_nat r') (opt_nat a) (opt_nat a') (rejection_v c) (rejection_v c').
  intros ???????? Hf Hr Ha Hc [-> | -> ]; calc_recs; intros [=]; repeat split; auto.
Qed.
Lemma failed_create_inj f r t f' r' t' :
  rec_of [("fee_block", opt_nat f); ("refund_block", opt_nat r); ("error", XText t)]
  = rec_of [("fee_block", opt_nat f'); ("refund_block", opt_nat r'); ("error", XText t')] ->
  f = f' /\ r = r' /\ t = t'.
Proof.
  generalize (opt_nat_inj f f') (opt_nat_inj r r').
  generalize (opt_nat f) (opt_nat f') (opt_nat r) (opt_nat r'). intros ???? Hf Hr.
  calc_recs. intros [=]. auto.
Qed.

Lemma res_inj {E A} (ok : A -> cand) (err err' : E -> cand) r r' :
  res_v ok err r = res_v ok err' r' ->
  match r, r' with
  | Ok a, Ok b => ok a = ok b
  | Err a, Err b => err a = err' b
  | _, _ => False
  end.
Proof.
  destruct r, r'; cbn [res_v]; intros [El Ev]%alt_inj; try exact Ev; vm_compute in El; discriminate El.
Qed.

Ltac err_inj El Ev :=
  lazymatch type of El with
  | label ?a = label ?b =>
      first [constr_eq a b; clear El | vm_compute in El; discriminate El]
  end;
  lazymatch type of Ev with
  | onev _ _ = onev _ _ => apply one_inj in Ev; injection Ev as Ev; subst
  | generic_v _ _ = generic_v _ _ => apply generic_inj in Ev as [? ?]; subst
  | create_duplicate_v _ _ = create_duplicate_v _ _ => apply duplicate_inj in Ev as [? ?]; subst
  | rec_of [_; ("rejection_code", _); _] = _ => apply failed_withdraw_inj in Ev as (? & ? & ?); subst
  | rec_of [_; _; _] = _ => apply failed_create_inj in Ev as (? & ? & ?); subst
  | rec_of [_; _; _; _; _] = _ =>
      apply failed_from_inj in Ev as (? & ? & ? & ? & ?);
      [subst|first [left; reflexivity | right; reflexivity]]
  | _ => idtac
  end; (split; [reflexivity|intros Hx; first [reflexivity|discriminate Hx]]).

Lemma reply_inj m txt r txt' r' :
  answers m (AnsReply r txt) -> answers m (AnsReply r' txt') ->
  reply_v txt r = reply_v txt' r' -> r = r' /\ (has_text r = true -> txt = txt').
Proof.
  destruct r as [i b|r|r|r|r|r|r|r], r' as [i' b'|r'|r'|r'|r'|r'|r'|r']; cbn [answers reply_v];
    try (intros -> [=]; fail); intros _ _.
  { calc_recs. intros [=]. by subst. }
  all: intros Er%res_inj; destruct r as [a|e], r' as [a'|e'];
    lazymatch type of Er with
    | False => destruct Er
    | XNat _ = XNat _ => injection Er as ->; done
    | create_success_v _ = _ => apply success_inj in Er as ->; done
    | _ => idtac
    end.
  all: destruct e, e'; cbn [transfer_error_v transfer_from_error_v approve_error_v withdraw_error_v
      withdraw_from_error_v create_error_v create_from_error_v] in Er.
  all: apply alt_inj in Er as [El Ev]; err_inj El Ev.
Qed.

(** ** Generic values *)
Lemma str_bytes_inj s s' : str_bytes s = str_bytes s' -> s = s'.
Proof.
  unfold str_bytes. intros E. apply (f_equal string_of_list_byte) in E.
  by rewrite !string_of_list_byte_of_string in E.
Qed.
Lemma pair_inj x y x' y' :
  rec_of [("0", x); ("1", y)] = rec_of [("0", x'); ("1", y')] -> x = x' /\ y = y'.
Proof. calc_recs. intros [=]. done. Qed.
Lemma cons_both {A} (x y : A) l k : x :: l = y :: k -> x = y /\ l = k.
Proof. by intros [= -> ->]. Qed.
Lemma value_inj v : forall v', value_v v = value_v v' -> v = v'.
Proof.
  induction v as [n|n|z|b|s|l IH|m IH] using value_induction; intros [n'|n'|z'|b'|s'|l'|m'];
    cbn [value_v]; unfold value_alt; intros [El Ev]%alt_inj;
    match type of El with
    | label ?a = label ?a => clear El
    | _ => vm_compute in El; discriminate El
    end; try (injection Ev as ->; reflexivity).
  - injection Ev as E. f_equal. by apply str_bytes_inj.
  - injection Ev as E. f_equal. revert l' E. induction IH as [|x l Hx _ IHl]; intros [|x' l'] E; try discriminate E.
    + done.
    + cbn [map] in E. apply cons_both in E as [E1 E2]. f_equal; auto.
  - injection Ev as E. f_equal. revert m' E.
    induction IH as [|[k x] m Hx _ IHm]; intros [|[k' x'] m'] E; try discriminate E; [done|].
    cbn [map fst snd] in E. apply cons_both in E as [E1 E2]. apply pair_inj in E1 as [Ek Ex].
    injection Ek as Ek. apply str_bytes_inj in Ek as ->. cbn [snd] in Hx. rewrite (Hx _ Ex). f_equal. auto.
Qed.

Lemma block_entry_inj i v i' v' :
  rec_of [("id", XNat i); ("block", value_v v)] = rec_of [("id", XNat i'); ("block", value_v v')] ->
  i = i' /\ v = v'.
Proof.
  generalize (value_inj v v'). generalize (value_v v) (value_v v'). intros x x' Hx.
  calc_recs. intros [=]. auto.
Qed.
Lemma blocks_inj r r' : blocks_v r = blocks_v r' -> r = r'.
Proof.
  destruct r as [n l], r' as [n' l']. unfold blocks_v. cbn [br_log_length br_blocks]. intros E.
  assert (n = n' /\ map (fun b => rec_of [("id", XNat b.1); ("block", value_v b.2)]) l
                    = map (fun b => rec_of [("id", XNat b.1); ("block", value_v b.2)]) l') as [-> El].
  { revert E. generalize (map (fun b => rec_of [("id", XNat b.1); ("block", value_v b.2)]) l)
      (map (fun b => rec_of [("id", XNat b.1); ("block", value_v b.2)]) l'). intros x x'.
    calc_recs. intros [=]. auto. }
  f_equal. clear E. revert l' El. induction l as [|[i v] l IH]; intros [|[i' v'] l'] E; try discriminate E; [done|].
  cbn [map fst snd] in E. apply cons_both in E as [E1 E2]. apply block_entry_inj in E1 as [-> ->]. f_equal. auto.
Qed.

Lemma account_inj a a' : wf_account a -> wf_account a' -> account_v a = account_v a' -> a = a'.
Proof.
  destruct a as [o s], a' as [o' s']. unfold account_v. cbn [owner subacct]. intros [_ Hs] [_ Hs'] E.
  assert (o = o' /\ XOpt (XBlob ∘ sub_bytes <$> s) = XOpt (XBlob ∘ sub_bytes <$> s')) as [-> Ex].
  { revert E. generalize (XOpt (XBlob ∘ sub_bytes <$> s)) (XOpt (XBlob ∘ sub_bytes <$> s')). intros x x'.
    calc_recs. intros [=]. auto. }
  f_equal. cbn [subacct] in *. clear E. destruct s as [s|], s' as [s'|]; [ |discriminate Ex|discriminate Ex|done].
  pose proof (be_number_sub s Hs) as H1. pose proof (be_number_sub s' Hs') as H2.
  revert Ex H1 H2. cbn [fmap option_fmap option_map]. unfold compose. generalize (sub_bytes s) (sub_bytes s'). clear.
  intros b b' E <- <-. by injection E as ->.
Qed.
Definition entry_ok (e : allowance_entry) : Prop := wf_account (ae_from e) /\ wf_account (ae_spender e).
Lemma entry_inj e e' : entry_ok e -> entry_ok e' -> allowance_entry_v e = allowance_entry_v e' -> e = e'.
Proof.
  destruct e as [f s a x], e' as [f' s' a' x']. unfold allowance_entry_v, entry_ok. cbn [ae_from ae_spender ae_amount ae_expires].
  intros [Hf Hs] [Hf' Hs'].
  generalize (account_inj f f' Hf Hf') (account_inj s s' Hs Hs') (time_opt_inj x x').
  generalize (account_v f) (account_v f') (account_v s) (account_v s') (time_opt x) (time_opt x').
  intros ?????? H1 H2 H3. calc_recs. intros [=]. f_equal; auto.
Qed.

(** The same answer, to the text where there is one *)
Definition same_answer (a b : answer) : Prop :=
  match a, b with
  | AnsReply r t, AnsReply r' t' => r = r' /\ (has_text r = true -> t = t')
  | _, _ => a = b
  end.
Definition accounts_ok (a : answer) : Prop :=
  match a with AnsAllowances l => Forall entry_ok l | _ => True end.

Lemma answer_inj m a b :
  answers m a -> answers m b -> accounts_ok a -> accounts_ok b ->
  answer_v a = answer_v b -> same_answer a b.
Proof.
  intros Ha Hb Oa Ob E.
  destruct a as [r t|n|[x o]|r|l|o], b as [r' t'|n'|[x' o']|r'|l'|o'];
    try (exfalso; cbn [answers] in Ha, Hb;
         repeat match goal with r : reply |- _ => destruct r end; subst;
         repeat match goal with H : _ \/ _ |- _ => destruct H end; congruence).
  - cbn [same_answer]. by eapply reply_inj.
  - cbn in E |- *. congruence.
  - cbn [answer_v fst snd] in E. cbn [same_answer]. revert E.
    generalize (time_opt_inj o o'). generalize (time_opt o) (time_opt o'). intros y y' Hy.
    calc_recs. intros [=]. subst. f_equal. f_equal. auto.
  - cbn [answer_v] in E. cbn [same_answer]. f_equal. by apply blocks_inj.
  - cbn [answer_v] in E. cbn [same_answer]. f_equal. apply alt_inj in E as [_ E]. injection E as E.
    cbn [accounts_ok] in Oa, Ob. clear Ha Hb. revert l' Ob E. induction Oa as [|e l He _ IH]; intros [|e' l'] Ob E; try discriminate E; [done|].
    apply Forall_cons in Ob as [He' Ob]. cbn [map] in E. apply cons_both in E as [E1 E2].
    f_equal; [by apply entry_inj|by apply IH].
  - cbn [answer_v] in E. cbn [same_answer]. f_equal. revert E. apply xopt_inj. intros [c h] [c' h'].
    cbn [fst snd]. calc_recs. intros [=]. by subst.
Qed.
