(** * Requests on the wire

    C89: the ledger reads out of a message the request that is in it by name, and
    nothing else. *)
From Verif Require Import Base Types Codec CodecFacts ValueHash State Ledger Canister
  Candid CandidProofs Demo.
From Verif Require Import Wire WireFacts WireInj PropertiesNames Requests.
Local Open Scope string_scope.
Local Open Scope N_scope.
Local Arguments label : simpl never.

(** ** Specification *)

(** What a value is *)
Definition is_record (x : cand) : Prop := exists l, x = XRecord l.
Definition is_nat (x : cand) (n : N) : Prop := x = XNat n.
Definition is_time (x : cand) (t : N) : Prop := x = XWord 8 t /\ is_u64 t.
Definition is_blob (x : cand) (b : list byte) : Prop := x = XBlob b.
Definition is_text (x : cand) (s : string) : Prop := x = XText (str_bytes s).
Definition is_principal (x : cand) (p : principal) : Prop := x = XPrincipal p /\ wf_principal p.
(** 32 bytes, as a number *)
Definition is_sub (x : cand) (s : subaccount) : Prop :=
  exists b, x = XBlob b /\ length b = 32%nat /\ s = IndexerSpec.be_number b.

(** There is something under a name *)
Definition at_name {A} (P : cand -> A -> Prop) (v : cand) (n : string) (a : A) : Prop :=
  exists x, get [n] v = Some x /\ P x a.
(** There is something under a name, or it is left out or null *)
Definition may_at {A} (P : cand -> A -> Prop) (v : cand) (n : string) (o : option A) : Prop :=
  match get [n] v with
  | None | Some XNull | Some (XOpt None) => o = None
  | Some (XOpt (Some x)) | Some x => exists a, o = Some a /\ P x a
  end.

Definition is_account (x : cand) (a : account) : Prop :=
  is_record x /\ at_name is_principal x "owner" (owner a) /\ may_at is_sub x "subaccount" (subacct a).
Definition is_selection (x : cand) (s : subnet_selection) : Prop :=
  exists y, is_record y
  /\ match s with
     | SubnetFilter t => get ["Filter"] x = Some y /\ may_at is_text y "subnet_type" t
     | Subnet p => get ["Subnet"] x = Some y /\ at_name is_principal y "subnet" p
     end /\ ~ is_record x.
Definition is_settings (x : cand) (s : canister_settings) : Prop :=
  is_record x
  /\ may_at (fun y ps => exists xs, y = XVec xs /\ Forall2 is_principal xs ps) x "controllers" (cs_controllers s)
  /\ cs_other s = ∅
  /\ Forall (fun n => may_at (fun _ (_ : unit) => True) x n None) other_settings.
Definition is_creation (x : cand) (a : cmc_args) : Prop :=
  is_record x /\ may_at is_selection x "subnet_selection" (ca_subnet_selection a)
  /\ may_at is_settings x "settings" (ca_settings a).

(** The argument [v] asks for [q], by the names of
    [/repo/cycles-ledger/cycles-ledger.did]. *)
Definition asks (v : cand) (q : request) : Prop :=
  match q with
  | ReqCall (CallDeposit _ to memo) =>
      is_record v /\ at_name is_account v "to" to /\ may_at is_blob v "memo" memo
  | ReqCall (CallTransfer sub to amount fee memo created) =>
      is_record v /\ may_at is_sub v "from_subaccount" sub /\ at_name is_account v "to" to
      /\ at_name is_nat v "amount" amount /\ may_at is_nat v "fee" fee /\ may_at is_blob v "memo" memo
      /\ may_at is_time v "created_at_time" created
  | ReqCall (CallTransferFrom sub from to amount fee memo created) =>
      is_record v /\ may_at is_sub v "spender_subaccount" sub /\ at_name is_account v "from" from
      /\ at_name is_account v "to" to /\ at_name is_nat v "amount" amount /\ may_at is_nat v "fee" fee
      /\ may_at is_blob v "memo" memo /\ may_at is_time v "created_at_time" created
  | ReqCall (CallApprove sub spender amount expected expires fee memo created) =>
      is_record v /\ may_at is_sub v "from_subaccount" sub /\ at_name is_account v "spender" spender
      /\ at_name is_nat v "amount" amount /\ may_at is_nat v "expected_allowance" expected
      /\ may_at is_time v "expires_at" expires /\ may_at is_nat v "fee" fee
      /\ may_at is_blob v "memo" memo /\ may_at is_time v "created_at_time" created
  | ReqCall (CallWithdraw sub to created amount) =>
      is_record v /\ may_at is_sub v "from_subaccount" sub /\ at_name is_principal v "to" to
      /\ may_at is_time v "created_at_time" created /\ at_name is_nat v "amount" amount
  | ReqCall (CallWithdrawFrom sub from to created amount) =>
      is_record v /\ may_at is_sub v "spender_subaccount" sub /\ at_name is_account v "from" from
      /\ at_name is_principal v "to" to /\ may_at is_time v "created_at_time" created
      /\ at_name is_nat v "amount" amount
  | ReqCall (CallCreateCanister sub created amount args) =>
      is_record v /\ may_at is_sub v "from_subaccount" sub /\ may_at is_time v "created_at_time" created
      /\ at_name is_nat v "amount" amount /\ may_at is_creation v "creation_args" args
  | ReqCall (CallCreateCanisterFrom from sub created amount args) =>
      is_record v /\ at_name is_account v "from" from /\ may_at is_sub v "spender_subaccount" sub
      /\ may_at is_time v "created_at_time" created /\ at_name is_nat v "amount" amount
      /\ may_at is_creation v "creation_args" args
  | ReqBalance a => is_account v a
  | ReqAllowance a s => is_record v /\ at_name is_account v "account" a /\ at_name is_account v "spender" s
  | ReqBlocks ranges =>
      exists xs, v = XVec xs
      /\ Forall2 (fun x r => is_record x /\ at_name is_nat x "start" r.1 /\ at_name is_nat x "length" r.2) xs ranges
  | ReqAllowances from prev take =>
      is_record v /\ may_at is_account v "from_account" from /\ may_at is_account v "prev_spender" prev
      /\ may_at is_nat v "take" take
  end.
(** The cycles that a deposit counts are those that came with the message. *)
Definition sent_with (cycles : N) (q : request) : Prop :=
  match q with ReqCall (CallDeposit c _ _) => c = cycles | _ => True end.
(** The first argument of a message *)
Definition argument (b : list byte) : option cand :=
  match read_message b with Some (Msg _ ((_, v) :: _)) => Some v | _ => None end.

(** ** Proof: the reader *)
Definition sound {A} (rd : cand -> option A) (P : cand -> A -> Prop) : Prop :=
  forall x a, rd x = Some a <-> P x a.

Lemma get_one n l : get [n] (XRecord l) = arg_at (label n) l.
Proof.
  cbn [get]. generalize (label n). intros h. induction l as [|[h' x] l IH]; cbn [field arg_at]; [done|].
  rewrite N.eqb_sym. destruct (h' =? h); [done|exact IH].
Qed.
Lemma arg_sound {A} (rd : cand -> option A) P n l a :
  sound rd P -> arg rd n l = Some a <-> at_name P (XRecord l) n a.
Proof.
  intros Hs. unfold arg, at_name. rewrite get_one. destruct (arg_at (label n) l) as [x|].
  - rewrite (Hs x a). split; [eauto|]. by intros (? & [= <-] & ?).
  - split; [done|]. by intros (? & ? & _).
Qed.
Lemma arg_opt_sound {A} (rd : cand -> option A) P n l o :
  sound rd P -> arg_opt rd n l = Some o <-> may_at P (XRecord l) n o.
Proof.
  intros Hs. unfold arg_opt, may_at. rewrite get_one.
  assert (forall x, match rd x with Some a => Some (Some a) | None => None end = Some o
    <-> exists a, o = Some a /\ P x a) as Hx.
  { intros x. split.
    - destruct (rd x) as [a|] eqn:E; intros [= <-]. exists a. split; [done|]. by apply Hs.
    - intros (a & -> & ->%Hs). done. }
  assert (Some (@None A) = Some o <-> o = None) as Hn by (split; congruence).
  destruct (arg_at (label n) l) as [x|]; [|exact Hn].
  destruct x as [| | | | | | | |[x|]| | |]; first [exact Hn | apply Hx].
Qed.

Lemma nat_sound : sound rd_nat is_nat.
Proof. intros [] a; cbn; unfold is_nat; split; congruence. Qed.
Lemma blob_sound : sound rd_blob is_blob.
Proof. intros [] a; cbn; unfold is_blob; split; congruence. Qed.
Lemma time_sound : sound rd_time is_time.
Proof.
  intros x a. unfold rd_time, is_time. split.
  - destruct x as [| | | |w n| | | | | | |]; try discriminate.
    destruct w as [|[|[|[|[|[|[|[|[|w]]]]]]]]]; try discriminate.
    destruct (N.ltb_spec n (2 ^ 64)) as [Hn|]; [|discriminate]. intros [= <-]. split; [done|exact Hn].
  - intros [-> Ha]. destruct (N.ltb_spec a (2 ^ 64)) as [_|Hn]; [done|]. exfalso. apply (N.lt_irrefl a).
    eapply N.lt_le_trans; [exact Ha|exact Hn].
Qed.
Lemma text_sound : sound rd_text is_text.
Proof.
  intros x s. unfold rd_text, is_text. split.
  - destruct x; try discriminate. intros [= <-]. unfold str_bytes. by rewrite list_byte_of_string_of_list_byte.
  - intros ->. by rewrite text_back.
Qed.
Lemma principal_sound : sound rd_principal is_principal.
Proof.
  intros x p. unfold rd_principal, is_principal, wf_principal. split.
  - destruct x; try discriminate. destruct (Nat.leb_spec (length b) 29); [|discriminate]. by intros [= <-].
  - intros [-> Hp]. by rewrite (proj2 (Nat.leb_le _ _) Hp).
Qed.
Lemma sub_sound : sound rd_sub is_sub.
Proof.
  intros x s. unfold rd_sub, is_sub. split.
  - destruct x; try discriminate. destruct (Nat.eqb_spec (length b) 32); [|discriminate].
    intros [= <-]. exists b. done.
  - intros (b & -> & Hb & ->). rewrite (proj2 (Nat.eqb_eq _ _) Hb). done.
Qed.
Lemma fields_record v l : fields_of v = Some l <-> v = XRecord l.
Proof. destruct v; cbn; split; congruence. Qed.
Lemma vec_sound {A} (rd : cand -> option A) P :
  sound rd P -> sound (rd_vec rd) (fun y l => exists xs, y = XVec xs /\ Forall2 P xs l).
Proof.
  intros Hs x l. assert (forall xs l, rd_all rd xs = Some l <-> Forall2 P xs l) as Hall.
  { clear x l. induction xs as [|x xs IH]; intros l; cbn [rd_all].
    - split; [intros [= <-]; constructor|]. intros H. by inversion H.
    - split.
      + destruct (rd x) as [a|] eqn:Ea; [|discriminate]. destruct (rd_all rd xs) as [r|] eqn:Er; [|discriminate].
        intros [= <-]. constructor; [by apply Hs|]. by apply IH.
      + intros H. inversion H as [|? a ? r H1 H2]; subst. apply Hs in H1 as ->. apply IH in H2 as ->. done. }
  split.
  - destruct x; try discriminate. cbn [rd_vec]. intros H%Hall. eauto.
  - intros (xs & -> & H). by apply Hall.
Qed.

(** Takes a reader apart, in both directions *)
Ltac apart H :=
  repeat match type of H with
  | (_ ≫= _) = Some _ => let y := fresh "y" in let E := fresh "E" in apply bind_Some in H as (y & E & H)
  | fields_of _ = Some _ => apply fields_record in H
  end.
Lemma account_sound : sound rd_account is_account.
Proof.
  intros x [o s]. unfold rd_account, is_account. cbn [owner subacct]. split.
  - intros H. apart H. apply fields_record in E as ->. injection H as -> ->. split; [by eexists|].
    split; [by apply (arg_sound _ _ _ _ _ principal_sound)|by apply (arg_opt_sound _ _ _ _ _ sub_sound)].
  - intros ([l ->] & H1 & H2). apply (arg_sound _ _ _ _ _ principal_sound) in H1.
    apply (arg_opt_sound _ _ _ _ _ sub_sound) in H2. cbn [fields_of mbind option_bind]. rewrite H1.
    cbn [mbind option_bind]. by rewrite H2.
Qed.
Lemma range_sound :
  sound rd_range (fun x r => is_record x /\ at_name is_nat x "start" r.1 /\ at_name is_nat x "length" r.2).
Proof.
  intros x [a b]. unfold rd_range. cbn [fst snd]. split.
  - intros H. apart H. apply fields_record in E as ->. injection H as -> ->. split; [by eexists|].
    split; by apply (arg_sound _ _ _ _ _ nat_sound).
  - intros ([l ->] & H1 & H2). apply (arg_sound _ _ _ _ _ nat_sound) in H1, H2.
    cbn [fields_of mbind option_bind]. rewrite H1. cbn [mbind option_bind]. by rewrite H2.
Qed.
Lemma filter_not_subnet : (label "Filter" =? label "Subnet") = false.
Proof. vm_compute. reflexivity. Qed.
Lemma selection_sound : sound rd_selection is_selection.
Proof.
  pose proof filter_not_subnet as Hne.
  intros x s. unfold rd_selection, is_selection. split.
  - destruct x as [| | | | | | | | | | |i h x]; try discriminate. intros H. apart H. apply fields_record in E as ->.
    exists (XRecord y). split; [by eexists|]. split; [|by intros [? ?]].
    destruct (N.eqb_spec h (label "Filter")) as [->|].
    + apart H. injection H as <-. cbn [get]. rewrite N.eqb_refl. split; [done|].
      by apply (arg_opt_sound _ _ _ _ _ text_sound).
    + destruct (N.eqb_spec h (label "Subnet")) as [->|]; [|discriminate]. apart H. injection H as <-.
      cbn [get]. rewrite N.eqb_refl. split; [done|]. by apply (arg_sound _ _ _ _ _ principal_sound).
  - intros (y & [l ->] & H & Hx).
    destruct x as [| | | | | | | | | |l'|i h x]; try (exfalso; apply Hx; by eexists);
      try (destruct s; cbn [get] in H; by destruct H as [? _]).
    destruct s as [t|p]; cbn [get] in H; destruct H as [Hg Hn].
    + destruct (N.eqb_spec (label "Filter") h) as [<-|]; [|discriminate]. injection Hg as ->.
      apply (arg_opt_sound _ _ _ _ _ text_sound) in Hn. cbn [fields_of mbind option_bind].
      rewrite N.eqb_refl. by rewrite Hn.
    + destruct (N.eqb_spec (label "Subnet") h) as [<-|]; [|discriminate]. injection Hg as ->.
      apply (arg_sound _ _ _ _ _ principal_sound) in Hn. cbn [fields_of mbind option_bind].
      rewrite N.eqb_sym, Hne, N.eqb_refl. by rewrite Hn.
Qed.
Lemma settings_sound : sound rd_settings is_settings.
Proof.
  intros x [c o]. unfold rd_settings, is_settings. cbn [cs_controllers cs_other].
  pose proof (vec_sound _ _ principal_sound) as Hv.
  assert (forall l, Is_true (forallb (fun n => match arg_opt (fun _ => Some tt) n l with Some None => true | _ => false end)
       other_settings) <-> Forall (fun n => may_at (fun _ (_ : unit) => True) (XRecord l) n None) other_settings) as Ho.
  { intros l. assert (sound (fun _ : cand => Some tt) (fun _ (_ : unit) => True)) as Hu by (intros ? []; done).
    generalize other_settings. induction l0 as [|n ns IH]; cbn [forallb]; [split; done|].
    rewrite andb_True, IH, Forall_cons. rewrite <- (arg_opt_sound _ _ n l None Hu).
    destruct (arg_opt _ n l) as [[]|]; cbn; intuition congruence. }
  split.
  - intros H. apart H. apply fields_record in E as ->. specialize (Ho y).
    destruct (forallb _ other_settings) eqn:Ef; [|discriminate]. injection H as <- <-. split; [by eexists|].
    split; [by apply (arg_opt_sound _ _ _ _ _ Hv)|]. split; [done|]. by apply Ho.
  - intros ([l ->] & H1 & -> & H2). apply (arg_opt_sound _ _ _ _ _ Hv) in H1. apply Ho in H2.
    cbn [fields_of mbind option_bind]. rewrite H1. cbn [mbind option_bind]. by destruct (forallb _ other_settings).
Qed.
Lemma creation_sound : sound rd_cmc_args is_creation.
Proof.
  intros x [s t]. unfold rd_cmc_args, is_creation. cbn [ca_subnet_selection ca_settings]. split.
  - intros H. apart H. apply fields_record in E as ->. injection H as -> ->. split; [by eexists|].
    split; [by apply (arg_opt_sound _ _ _ _ _ selection_sound)|by apply (arg_opt_sound _ _ _ _ _ settings_sound)].
  - intros ([l ->] & H1 & H2). apply (arg_opt_sound _ _ _ _ _ selection_sound) in H1.
    apply (arg_opt_sound _ _ _ _ _ settings_sound) in H2. cbn [fields_of mbind option_bind]. rewrite H1.
    cbn [mbind option_bind]. by rewrite H2.
Qed.

Ltac name_it :=
  first [ by apply (arg_sound _ _ _ _ _ nat_sound) | by apply (arg_sound _ _ _ _ _ account_sound)
        | by apply (arg_sound _ _ _ _ _ principal_sound)
        | by apply (arg_opt_sound _ _ _ _ _ nat_sound) | by apply (arg_opt_sound _ _ _ _ _ blob_sound)
        | by apply (arg_opt_sound _ _ _ _ _ time_sound) | by apply (arg_opt_sound _ _ _ _ _ sub_sound)
        | by apply (arg_opt_sound _ _ _ _ _ account_sound) | by apply (arg_opt_sound _ _ _ _ _ creation_sound) ].
Ltac find_it :=
  repeat match goal with
  | H : at_name is_nat _ _ _ |- _ => apply (arg_sound _ _ _ _ _ nat_sound) in H
  | H : at_name is_account _ _ _ |- _ => apply (arg_sound _ _ _ _ _ account_sound) in H
  | H : at_name is_principal _ _ _ |- _ => apply (arg_sound _ _ _ _ _ principal_sound) in H
  | H : may_at is_nat _ _ _ |- _ => apply (arg_opt_sound _ _ _ _ _ nat_sound) in H
  | H : may_at is_blob _ _ _ |- _ => apply (arg_opt_sound _ _ _ _ _ blob_sound) in H
  | H : may_at is_time _ _ _ |- _ => apply (arg_opt_sound _ _ _ _ _ time_sound) in H
  | H : may_at is_sub _ _ _ |- _ => apply (arg_opt_sound _ _ _ _ _ sub_sound) in H
  | H : may_at is_account _ _ _ |- _ => apply (arg_opt_sound _ _ _ _ _ account_sound) in H
  | H : may_at is_creation _ _ _ |- _ => apply (arg_opt_sound _ _ _ _ _ creation_sound) in H
  end;
  cbn [fields_of mbind option_bind];
  repeat match goal with H : _ = Some _ |- _ => rewrite H; clear H; cbn [mbind option_bind] end.

Lemma rd_request_sound m cycles v q :
  rd_request m cycles v = Some q <-> method_of q = m /\ sent_with cycles q /\ asks v q.
Proof.
  split.
  - intros H. destruct m; cbn [rd_request] in H; try discriminate H.
    all: try (apart H; apply fields_record in E as ->; injection H as <-; split; [done|]; split; [done|]; cbn [asks];
      split; [by eexists|]; repeat (split; [name_it|]); name_it).
    + apart H. injection H as <-. split; [done|]. split; [done|]. by apply account_sound.
    + apart H. injection H as <-. split; [done|]. split; [done|]. cbn [asks]. by apply (vec_sound _ _ range_sound).
  - intros (<- & Hs & Ha). destruct q as [[]|a|a s|l|f p t]; cbn [asks sent_with] in Ha, Hs; cbn [method_of rd_request].
    all: try (destruct Ha as [[l' ->] Ha]; destruct_and? Ha; find_it; by rewrite ?Hs).
    + by apply account_sound in Ha as ->.
    + by apply (vec_sound _ _ range_sound) in Ha as ->.
Qed.

(** ** Proof: what a client of the interface file writes *)

(** The requests that can be written: numbers in range (as in [wf_call]), and of the
    settings of a new canister only the controllers. *)
Definition wf_creation (args : option cmc_args) : Prop :=
  match args with
  | None => True
  | Some a =>
      match ca_subnet_selection a with Some (Subnet p) => wf_principal p | _ => True end
      /\ match ca_settings a with
         | Some s => cs_other s = ∅ /\ Forall wf_principal (default [] (cs_controllers s))
         | None => True
         end
  end.
Definition wf_opt_account (o : option account) : Prop := match o with Some a => wf_account a | None => True end.
Definition wf_request (q : request) : Prop :=
  match q with
  | ReqCall c =>
      wf_call c
      /\ match c with
         | CallCreateCanister _ _ _ args | CallCreateCanisterFrom _ _ _ _ args => wf_creation args
         | _ => True
         end
  | ReqBalance a => wf_account a
  | ReqAllowance a s => wf_account a /\ wf_account s
  | ReqBlocks _ => True
  | ReqAllowances from prev _ => wf_opt_account from /\ wf_opt_account prev
  end.
Definition cycles_of (q : request) : N :=
  match q with ReqCall (CallDeposit c _ _) => c | _ => 0 end.

Lemma may_opt {A} (P : cand -> A -> Prop) (f : A -> cand) v n o :
  get [n] v = Some (XOpt (f <$> o)) -> (forall a, o = Some a -> P (f a) a) -> may_at P v n o.
Proof.
  intros E Hp. unfold may_at. rewrite E. destruct o as [a|]; cbn [fmap option_fmap option_map]; [|done].
  exists a. split; [done|]. by apply Hp.
Qed.
Lemma is_sub_of s : s < SUB_MOD -> is_sub (XBlob (sub_bytes s)) s.
Proof.
  intros Hs. exists (sub_bytes s). split; [done|]. split; [apply be_fixed_length|].
  symmetry. by apply PropertiesIndexer.be_number_sub.
Qed.
Lemma may_sub v n o : wf_sub o -> get [n] v = Some (sub_v o) -> may_at is_sub v n o.
Proof. intros Ho E. eapply may_opt; [exact E|]. intros s ->. by apply is_sub_of. Qed.
Lemma may_nat v n o : get [n] v = Some (opt_nat o) -> may_at is_nat v n o.
Proof. intros E. eapply may_opt; [exact E|]. done. Qed.
Lemma may_memo v n o : get [n] v = Some (memo_v o) -> may_at is_blob v n o.
Proof. intros E. eapply may_opt; [exact E|]. done. Qed.
Lemma may_time v n o : wf_u64_opt o -> get [n] v = Some (time_opt o) -> may_at is_time v n o.
Proof. intros Ho E. eapply may_opt; [exact E|]. by intros t ->. Qed.
Lemma nat_here v n a : get [n] v = Some (XNat a) -> at_name is_nat v n a.
Proof. intros E. by exists (XNat a). Qed.
Lemma principal_here v n a : wf_principal a -> get [n] v = Some (XPrincipal a) -> at_name is_principal v n a.
Proof. intros Ha E. by exists (XPrincipal a). Qed.

Ltac hide :=
  repeat match goal with
  | |- context [account_v ?a] => generalize (account_v a); intros ?
  | |- context [sub_v ?a] => generalize (sub_v a); intros ?
  | |- context [memo_v ?a] => generalize (memo_v a); intros ?
  | |- context [opt_nat ?a] => generalize (opt_nat a); intros ?
  | |- context [time_opt ?a] => generalize (time_opt a); intros ?
  | |- context [XOpt (?f <$> ?a)] => generalize (XOpt (f <$> a)); intros ?
  end.
Ltac found := hide; rewrite get_geth; vm_compute; reflexivity.

Lemma is_account_v a : wf_account a -> is_account (account_v a) a.
Proof.
  intros [Ho Hs]. split; [by eexists|]. unfold account_v. fold (sub_v (subacct a)).
  split; [apply principal_here; [done|found]|apply may_sub; [done|found]].
Qed.
Lemma account_here v n a : wf_account a -> get [n] v = Some (account_v a) -> at_name is_account v n a.
Proof. intros Ha E. exists (account_v a). split; [done|]. by apply is_account_v. Qed.
Lemma may_account v n o : wf_opt_account o -> get [n] v = Some (XOpt (account_v <$> o)) -> may_at is_account v n o.
Proof. intros Ho E. eapply may_opt; [exact E|]. intros a ->. by apply is_account_v. Qed.
Lemma is_selection_v s :
  match s with Subnet p => wf_principal p | _ => True end -> is_selection (selection_v s) s.
Proof.
  intros Hs. destruct s as [t|p]; unfold selection_v; cbv zeta.
  - exists (onev "subnet_type" (XOpt (XText ∘ str_bytes <$> t))). split; [by eexists|]. split.
    + split.
      * unfold alt_of. cbn [get]. by rewrite N.eqb_refl.
      * eapply (may_opt _ (XText ∘ str_bytes)); [unfold onev; found|]. by intros x ->.
    + by intros [? ?].
  - exists (onev "subnet" (XPrincipal p)). split; [by eexists|]. split.
    + split.
      * unfold alt_of. cbn [get]. by rewrite N.eqb_refl.
      * apply principal_here; [done|]. unfold onev. found.
    + by intros [? ?].
Qed.
Lemma principals_v l : Forall wf_principal l -> Forall2 is_principal (map XPrincipal l) l.
Proof. induction 1; cbn [map]; constructor; [by split|done]. Qed.
Lemma is_settings_v s :
  cs_other s = ∅ -> Forall wf_principal (default [] (cs_controllers s)) -> is_settings (settings_v s) s.
Proof.
  intros Ho Hc. split; [by eexists|]. unfold settings_v. cbn [map other_settings]. split; [|split; [done|]].
  - eapply (may_opt _ (fun l => XVec (map XPrincipal l))); [found|]. intros l El. rewrite El in Hc.
    exists (map XPrincipal l). split; [done|]. by apply principals_v.
  - hide. unfold other_settings.
    do 8 (apply Forall_cons; split; [unfold may_at; rewrite get_geth; vm_compute; reflexivity|]). apply Forall_nil_2.
Qed.
Lemma is_creation_v a : wf_creation (Some a) -> is_creation (cmc_args_v a) a.
Proof.
  intros [Hs Ht]. split; [by eexists|]. unfold cmc_args_v. split.
  - eapply (may_opt _ selection_v); [found|]. intros s Es. rewrite Es in Hs. apply is_selection_v. destruct s; [exact I|exact Hs].
  - eapply (may_opt _ settings_v); [found|]. intros s Es. rewrite Es in Ht.
    destruct Ht as [H1 H2]. apply is_settings_v; [exact H1|exact H2].
Qed.
Lemma may_creation v n o :
  wf_creation o -> get [n] v = Some (XOpt (cmc_args_v <$> o)) -> may_at is_creation v n o.
Proof. intros Ho E. eapply may_opt; [exact E|]. intros a ->. by apply is_creation_v. Qed.

Ltac put_it :=
  lazymatch goal with
  | |- at_name is_nat _ _ _ => simple apply nat_here; found
  | |- at_name is_account _ _ _ => simple apply account_here; [assumption|found]
  | |- at_name is_principal _ _ _ => simple apply principal_here; [assumption|found]
  | |- may_at is_nat _ _ _ => simple apply may_nat; found
  | |- may_at is_blob _ _ _ => simple apply may_memo; found
  | |- may_at is_time _ _ _ => simple apply may_time; [assumption|found]
  | |- may_at is_sub _ _ _ => simple apply may_sub; [assumption|found]
  | |- may_at is_account _ _ _ => simple apply may_account; [assumption|found]
  | |- may_at is_creation _ _ _ => simple apply may_creation; [assumption|found]
  end.
Lemma request_asks q : wf_request q -> asks (request_v q) q.
Proof.
  intros Hq. destruct q as [c|a|a s|l|f p t]; [destruct c| | | | ]; cbn [wf_request wf_call] in Hq; cbn [asks request_v].
  all: try (destruct_and? Hq; split; [eexists; reflexivity|];
    repeat lazymatch goal with |- _ /\ _ => split; [put_it|] end; put_it).
  - by apply is_account_v.
  - eexists. split; [done|]. induction l as [|[a b] l IH]; cbn [map]; constructor; [|done]. cbn [fst snd].
    split; [by eexists|]. split; put_it.
Qed.

Ltac calc_req :=
  repeat match goal with
  | |- context [request_table ?m] =>
      let x := eval vm_compute in (request_table m) in
      replace (request_table m) with x by (vm_compute; reflexivity)
  end; cbn [fst snd].
Lemma sub_typed tbl r o :
  (exists rb, type_at tbl r = Some (TOpt rb) /\ type_at tbl rb = Some (TVec T_NAT8)) -> typed tbl r (sub_v o).
Proof. intros (rb & Ho & Hb). unfold sub_v. cbn [typed]. rewrite Ho. destruct o; [exact Hb|exact I]. Qed.
Lemma memo_typed tbl r o :
  (exists rb, type_at tbl r = Some (TOpt rb) /\ type_at tbl rb = Some (TVec T_NAT8)) -> typed tbl r (memo_v o).
Proof. intros (rb & Ho & Hb). unfold memo_v. cbn [typed]. rewrite Ho. destruct o; [exact Hb|exact I]. Qed.
Lemma nat_typed tbl r o : type_at tbl r = Some (TOpt T_NAT) -> typed tbl r (opt_nat o).
Proof. intros Ho. unfold opt_nat. cbn [typed]. rewrite Ho. by destruct o. Qed.
Lemma time_typed tbl r o : wf_u64_opt o -> type_at tbl r = Some (TOpt T_NAT64) -> typed tbl r (time_opt o).
Proof. intros Hw Ho. unfold time_opt. cbn [typed]. rewrite Ho. destruct o; [|done]. by apply word8. Qed.
Lemma opt_account_typed tbl r ra ro o :
  type_at tbl r = Some (TOpt ra) ->
  type_at tbl ra = Some (TRecord [(label "owner", T_PRINCIPAL); (label "subaccount", ro)]) ->
  (exists rb, type_at tbl ro = Some (TOpt rb) /\ type_at tbl rb = Some (TVec T_NAT8)) ->
  typed tbl r (XOpt (account_v <$> o)).
Proof. intros H1 H2 H3. cbn [typed]. rewrite H1. destruct o; [by eapply account_typed|exact I]. Qed.
Ltac deep_typed a :=
  let ls := fresh "ls" in
  destruct a as [ [ [ [t|] |p]|] [[[ls|] o]|] ]; unfold cmc_args_v, selection_v, settings_v, onev; cbv zeta;
  cbn [ca_subnet_selection ca_settings cs_controllers fmap option_fmap option_map map other_settings];
  unfold compose; try (generalize (str_bytes t); intros bs); vm_compute; repeat split; try discriminate;
  try (induction ls as [|x ls IH]; [exact I|split; [reflexivity|exact IH]]).
Lemma creation_typed a : typed (request_table MCreate).2 24 (cmc_args_v a).
Proof. deep_typed a. Qed.
Lemma creation_from_typed a : typed (request_table MCreateFrom).2 27 (cmc_args_v a).
Proof. deep_typed a. Qed.
Lemma creation_depth a : (depth (cmc_args_v a) <= 8)%nat.
Proof.
  destruct a as [s t]. unfold cmc_args_v. rewrite depth_rec. cbn [map fold_right snd ca_subnet_selection ca_settings].
  rewrite !depth_opt.
  assert (forall s, depth (selection_v s) <= 4)%nat as Hs.
  { intros [x|p]; unfold selection_v, onev; cbv zeta; rewrite depth_alt, depth_rec; cbn [map fold_right snd];
      rewrite ?depth_opt; [destruct x|]; cbn; lia. }
  assert (forall s, depth (settings_v s) <= 4)%nat as Ht.
  { intros [c o]. unfold settings_v. rewrite depth_rec. cbn [map fold_right snd cs_controllers other_settings].
    rewrite !depth_opt. destruct c as [l|]; cbn [fmap option_fmap option_map]; [|lia].
    assert (depth (XVec (map XPrincipal l)) <= 2)%nat; [|lia]. cbn [depth].
    induction l as [|x l IH]; cbn [map fold_right depth]; lia. }
  destruct s as [s|], t as [t|]; cbn [fmap option_fmap option_map];
    try (pose proof (Hs s)); try (pose proof (Ht t)); lia.
Qed.

Lemma opt_typed tbl r r' (o : option cand) :
  type_at tbl r = Some (TOpt r') -> (forall v, o = Some v -> typed tbl r' v) -> typed tbl r (XOpt o).
Proof. intros E Ho. cbn [typed]. rewrite E. destruct o; [by apply Ho|exact I]. Qed.
Lemma creation_opt_typed o : typed (request_table MCreate).2 25 (XOpt (cmc_args_v <$> o)).
Proof.
  apply (opt_typed _ _ 24); [vm_compute; reflexivity|]. intros v E. destruct o; [|discriminate E]. injection E as <-.
  apply creation_typed.
Qed.
Lemma creation_from_opt_typed o : typed (request_table MCreateFrom).2 28 (XOpt (cmc_args_v <$> o)).
Proof.
  apply (opt_typed _ _ 27); [vm_compute; reflexivity|]. intros v E. destruct o; [|discriminate E]. injection E as <-.
  apply creation_from_typed.
Qed.
Lemma vec_typed tbl r r' l :
  type_at tbl r = Some (TVec r') -> r' <> T_NAT8 -> Forall (typed tbl r') l -> typed tbl r (XVec l).
Proof.
  intros E Hn Hl. cbn [typed]. rewrite E. split; [done|]. clear E. induction Hl as [|x l Hx Hl IH]; [exact I|].
  split; [exact Hx|exact IH].
Qed.

Ltac type_it :=
  lazymatch goal with
  | |- typed _ _ (account_v _) =>
      eapply account_typed; [vm_compute; reflexivity|eexists; split; vm_compute; reflexivity]
  | |- typed _ _ (sub_v _) => apply sub_typed; eexists; split; vm_compute; reflexivity
  | |- typed _ _ (memo_v _) => apply memo_typed; eexists; split; vm_compute; reflexivity
  | |- typed _ _ (opt_nat _) => apply nat_typed; vm_compute; reflexivity
  | |- typed _ _ (time_opt _) => apply time_typed; [assumption|vm_compute; reflexivity]
  | |- typed _ _ (XOpt (account_v <$> _)) =>
      eapply opt_account_typed; [vm_compute; reflexivity|vm_compute; reflexivity|
        eexists; split; vm_compute; reflexivity]
  | |- typed (request_table MCreate).2 _ (XOpt (cmc_args_v <$> _)) => simple apply creation_opt_typed
  | |- typed (request_table MCreateFrom).2 _ (XOpt (cmc_args_v <$> _)) => simple apply creation_from_opt_typed
  | |- typed _ _ _ => vm_compute; repeat split
  end.
(** A record has the types of its fields. *)
Fixpoint fields_typed (tbl : list tycon) (l : list (N * cand)) (fs : list (N * Z)) : Prop :=
  match l, fs with
  | [], [] => True
  | (h, x) :: l', (h', r') :: fs' => h = h' /\ typed tbl r' x /\ fields_typed tbl l' fs'
  | _, _ => False
  end.
Lemma record_typed tbl r l fs :
  type_at tbl r = Some (TRecord fs) -> fields_typed tbl l fs -> typed tbl r (XRecord l).
Proof.
  intros E Hf. cbn [typed]. rewrite E. clear E. revert fs Hf.
  induction l as [|[h x] l IH]; intros [|[h' r'] fs] Hf; cbn [fields_typed] in Hf; try done.
  destruct Hf as (-> & Hx & Hl). split; [done|]. split; [done|]. by apply IH.
Qed.
(** Fields by name in any order *)
Fixpoint named_typed (tbl : list tycon) (l : list (string * cand)) (fs : list (string * Z)) : Prop :=
  match l, fs with
  | [], [] => True
  | (n, x) :: l', (n', r') :: fs' => n = n' /\ typed tbl r' x /\ named_typed tbl l' fs'
  | _, _ => False
  end.
Lemma insert_typed tbl h x r l fs :
  typed tbl r x -> fields_typed tbl l fs -> fields_typed tbl (insert_by h x l) (insert_by h r fs).
Proof.
  intros Hx. revert fs. induction l as [|[h1 x1] l IH]; intros [|[h2 r2] fs] Hf; cbn [fields_typed insert_by] in *; try done.
  destruct Hf as (-> & H1 & H2). destruct (h <? h2); cbn [fields_typed]; auto.
Qed.
Lemma named_by tbl l fs : named_typed tbl l fs -> fields_typed tbl (by_label l) (by_label fs).
Proof.
  revert fs. induction l as [|[n x] l IH]; intros [|[n' r] fs] Hf; cbn [named_typed] in Hf; try done.
  destruct Hf as (-> & Hx & Hl). unfold by_label. cbn [fold_right fst snd]. apply insert_typed; [done|]. by apply IH.
Qed.
Lemma rec_typed tbl r l fs :
  type_at tbl r = Some (TRecord (by_label fs)) -> named_typed tbl l fs -> typed tbl r (rec_of l).
Proof. intros E Hf. eapply record_typed; [exact E|]. by apply named_by. Qed.
Ltac rec_it fs :=
  apply (rec_typed _ _ _ fs); [vm_compute; reflexivity|]; cbn [named_typed];
  repeat lazymatch goal with |- _ /\ _ => split; [first [reflexivity|type_it]|] | |- True => exact I end.
Lemma request_typed q :
  wf_request q -> typed (request_table (method_of q)).2 (request_table (method_of q)).1 (request_v q).
Proof.
  intros Hq. destruct q as [c|a|a s|l|f p t]; [destruct c| | | | ]; cbn [wf_request wf_call] in Hq;
    destruct_and? Hq; cbn [request_v method_of].
  - rec_it [("to", 2%Z); ("memo", 4%Z)].
  - rec_it [("from_subaccount", 1%Z); ("to", 4%Z); ("amount", T_NAT); ("fee", 5%Z); ("memo", 7%Z); ("created_at_time", 8%Z)].
  - rec_it [("spender_subaccount", 1%Z); ("from", 4%Z); ("to", 7%Z); ("amount", T_NAT); ("fee", 8%Z); ("memo", 10%Z);
            ("created_at_time", 11%Z)].
  - rec_it [("from_subaccount", 1%Z); ("spender", 4%Z); ("amount", T_NAT); ("expected_allowance", 5%Z);
            ("expires_at", 6%Z); ("fee", 7%Z); ("memo", 9%Z); ("created_at_time", 10%Z)].
  - rec_it [("amount", T_NAT); ("from_subaccount", 1%Z); ("to", T_PRINCIPAL); ("created_at_time", 2%Z)].
  - rec_it [("spender_subaccount", 1%Z); ("from", 4%Z); ("to", T_PRINCIPAL); ("amount", T_NAT); ("created_at_time", 5%Z)].
  - rec_it [("from_subaccount", 1%Z); ("created_at_time", 2%Z); ("amount", T_NAT); ("creation_args", 25%Z)].
  - rec_it [("from", 2%Z); ("spender_subaccount", 4%Z); ("created_at_time", 5%Z); ("amount", T_NAT);
            ("creation_args", 28%Z)].
  - type_it.
  - rec_it [("account", 2%Z); ("spender", 5%Z)].
  - assert (forall r : N * N, typed (request_table MBlocks).2 0 (rec_of [("start", XNat r.1); ("length", XNat r.2)])) as Hr.
    { intros r. rec_it [("start", T_NAT); ("length", T_NAT)]. }
    apply (vec_typed _ _ 0); [vm_compute; reflexivity|discriminate|]. apply Forall_forall. intros x Hx.
    apply elem_of_list_fmap in Hx as (r & -> & _). apply Hr.
  - rec_it [("from_account", 3%Z); ("prev_spender", 7%Z); ("take", 8%Z)].
Qed.
Lemma request_depth q : (depth (request_v q) <= MAX_DEPTH)%nat.
Proof.
  assert (forall o, depth (sub_v o) <= 2)%nat as H1 by (intros []; cbn; lia).
  assert (forall o, depth (memo_v o) <= 2)%nat as H2 by (intros []; cbn; lia).
  assert (forall o, depth (opt_nat o) <= 2)%nat as H3 by (intros []; cbn; lia).
  assert (forall o, depth (time_opt o) <= 2)%nat as H4 by (intros []; cbn; lia).
  assert (forall o : option cmc_args, depth (XOpt (cmc_args_v <$> o)) <= 9)%nat as H5.
  { intros [a|]; rewrite depth_opt; cbn [fmap option_fmap option_map]; [pose proof (creation_depth a)|]; lia. }
  assert (forall o : option account, depth (XOpt (account_v <$> o)) <= 4)%nat as H6.
  { intros [a|]; rewrite depth_opt; cbn [fmap option_fmap option_map]; [pose proof (account_depth a)|]; lia. }
  pose proof account_depth as H7. unfold MAX_DEPTH.
  destruct q as [c|a|a s|l|f p t]; [destruct c| | | | ]; cbn [request_v];
    try (rewrite depth_rec; cbn [map fold_right snd];
         repeat match goal with
         | |- context [depth (sub_v ?o)] => generalize (H1 o); generalize (depth (sub_v o)); intros
         | |- context [depth (memo_v ?o)] => generalize (H2 o); generalize (depth (memo_v o)); intros
         | |- context [depth (opt_nat ?o)] => generalize (H3 o); generalize (depth (opt_nat o)); intros
         | |- context [depth (time_opt ?o)] => generalize (H4 o); generalize (depth (time_opt o)); intros
         | |- context [depth (account_v ?o)] => generalize (H7 o); generalize (depth (account_v o)); intros
         | |- context [depth (XOpt (cmc_args_v <$> ?o))] =>
             generalize (H5 o); generalize (depth (XOpt (cmc_args_v <$> o))); intros
         | |- context [depth (XOpt (account_v <$> ?o))] =>
             generalize (H6 o); generalize (depth (XOpt (account_v <$> o))); intros
         end; cbn [depth]; lia).
  - specialize (H7 a). lia.
  - set (f := fun r : N * N => rec_of [("start", XNat r.1); ("length", XNat r.2)]).
    assert (forall r, depth (f r) <= 2)%nat as Hf by (intros r; unfold f; rewrite depth_rec; cbn; lia).
    clearbody f. cbn [depth]. assert (fold_right Nat.max 0 (map depth (map f l)) <= 2)%nat; [|lia].
    induction l as [|r l IH]; cbn [map fold_right]; [lia|]. specialize (Hf r). lia.
Qed.

(** ** The theorems *)

(** The ledger takes a message for a request exactly if the request is in it by name:
    whatever the order of the fields and of the table, and whatever other fields there
    are. *)
Theorem C89_messages_are_read_by_name m cycles b q :
  read_request m cycles b = Some q
  <-> method_of q = m /\ sent_with cycles q /\ exists v, argument b = Some v /\ asks v q.
Proof.
  unfold read_request, argument. destruct (read_message b) as [[tbl [|[r v] rest]]|].
  - split; [done|]. by intros (_ & _ & ? & ? & _).
  - rewrite rd_request_sound. split.
    + intros (H1 & H2 & H3). eauto.
    + intros (H1 & H2 & ? & [= <-] & H3). auto.
  - split; [done|]. by intros (_ & _ & ? & ? & _).
Qed.

(** What a client of the interface file writes is read back. *)
Theorem C89_requests_are_understood q :
  wf_request q -> read_request (method_of q) (cycles_of q) (request_bytes q) = Some q.
Proof.
  intros Hq. apply C89_messages_are_read_by_name. split; [done|]. split; [by destruct q as [[]| | | |]|].
  exists (request_v q). split; [|by apply request_asks]. unfold argument, request_bytes.
  rewrite read_enc_message; [done|]. unfold well_typed, request_message. cbn [m_table m_args].
  rewrite Forall_singleton. cbn [fst snd]. split; [by apply request_typed|apply request_depth].
Qed.

(** Different requests have different bytes. *)
Theorem C89_requests_differ q q' :
  wf_request q -> wf_request q' -> method_of q = method_of q' -> cycles_of q = cycles_of q' ->
  request_bytes q = request_bytes q' -> q = q'.
Proof.
  intros Hq Hq' Hm Hc Hb. pose proof (C89_requests_are_understood q Hq) as H1.
  rewrite Hm, Hc, Hb, (C89_requests_are_understood q' Hq') in H1. congruence.
Qed.

(** All names of fields in arguments *)
Definition field_names : list string :=
  [ "to"; "from"; "amount"; "fee"; "memo"; "created_at_time"; "from_subaccount"; "spender_subaccount"; "spender";
    "expected_allowance"; "expires_at"; "creation_args"; "account"; "owner"; "subaccount"; "from_account";
    "prev_spender"; "take" ].
Definition left_out (x : option cand) : Prop := x = None \/ x = Some XNull \/ x = Some (XOpt None).
(** Leaving out a field that is null, and adding fields that the ledger does not know,
    makes no difference. *)
Theorem C89_other_fields_do_not_matter m cycles tbl r l tbl' r' l' :
  well_typed (Msg tbl [(r, XRecord l)]) -> well_typed (Msg tbl' [(r', XRecord l')]) ->
  (forall n, n ∈ field_names ->
     get [n] (XRecord l) = get [n] (XRecord l')
     \/ left_out (get [n] (XRecord l)) /\ left_out (get [n] (XRecord l'))) ->
  read_request m cycles (enc_message (Msg tbl [(r, XRecord l)]))
  = read_request m cycles (enc_message (Msg tbl' [(r', XRecord l')])).
Proof.
  intros Hw Hw' Hn. unfold read_request. rewrite !read_enc_message by done. clear Hw Hw'.
  assert (forall A (rd : cand -> option A) n, n ∈ field_names -> rd XNull = None -> rd (XOpt None) = None ->
    arg rd n l = arg rd n l') as Ha.
  { intros A rd n Hin H0 H1. unfold arg. specialize (Hn n Hin). rewrite !get_one in Hn.
    destruct Hn as [-> |[ [-> |[-> | ->] ] [-> |[-> | ->] ] ] ]; rewrite ?H0, ?H1; done. }
  assert (forall A (rd : cand -> option A) n, n ∈ field_names -> arg_opt rd n l = arg_opt rd n l') as Ho.
  { intros A rd n Hin. unfold arg_opt. specialize (Hn n Hin). rewrite !get_one in Hn.
    destruct Hn as [-> |[ [-> |[-> | ->] ] [-> |[-> | ->] ] ] ]; done. }
  clear Hn. destruct m; cbn [rd_request fields_of mbind option_bind]; try reflexivity;
    unfold rd_account; cbn [fields_of mbind option_bind];
    repeat match goal with
    | |- context [arg ?rd ?n l] => rewrite (Ha _ rd n) by (first [reflexivity | by apply (bool_decide_unpack _)])
    | |- context [arg_opt ?rd ?n l] => rewrite (Ho _ rd n) by (by apply (bool_decide_unpack _))
    end; reflexivity.
Qed.

Section WithEnv.
Context `{Env}.
(** A message that is understood is one of the calls that the other theorems are about:
    all its numbers are in range. *)
Theorem C89_messages_are_calls w now caller m cycles b c sync :
  time_ok w now -> wf_principal caller -> is_u128 cycles ->
  read_request m cycles b = Some (ReqCall c) -> ev_ok w (EvCall now caller c sync).
Proof.
  intros Ht Hp Hc (_ & Hs & v & _ & Ha)%C89_messages_are_read_by_name. split; [done|]. split; [done|].
  assert (forall v n s, may_at is_sub v n s -> wf_sub s) as Hsub.
  { intros v0 n s. unfold may_at. destruct (get [n] v0) as [[| | | | | | | |[x|]| | |]|]; intros H0;
      try (subst s; exact I); destruct H0 as (a & -> & (bs & _ & Hl & ->)); cbn [wf_sub];
      rewrite PropertiesIndexer.be_number_eq; pose proof (from_be_lt bs) as Hlt; rewrite Hl in Hlt; exact Hlt. }
  assert (forall v n t, may_at is_time v n t -> wf_u64_opt t) as Htime.
  { intros v0 n s. unfold may_at. destruct (get [n] v0) as [[| | | | | | | |[x|]| | |]|]; intros H0;
      try (subst s; exact I); destruct H0 as (a & -> & (_ & Hl)); exact Hl. }
  assert (forall v n p, at_name is_principal v n p -> wf_principal p) as Hpr by (intros v0 n p (x & _ & _ & ?); done).
  assert (forall v n a, at_name is_account v n a -> wf_account a) as Hac.
  { intros v0 n a (x & _ & _ & H1 & H2). split; [by eapply Hpr|by eapply Hsub]. }
  destruct c; cbn [asks sent_with wf_call] in *; destruct_and? Ha; subst; eauto 10.
Qed.
End WithEnv.

(** ** Cases *)
Definition some_transfer : request :=
  ReqCall (CallTransfer (Some 7) (acct bob) (3 * T) (Some FEE) (Some [Byte.x2a]) (Some (T0 + 5 * sec))).
Definition some_creation : request :=
  ReqCall (CallCreateCanisterFrom (acct alice) None None (2 * T)
    (Some (CmcArgs (Some (SubnetFilter (Some "fiduciary"))) (Some (Settings (Some [bob; carol]) ∅))))).
(** Another client: it leaves out what it does not need, and sends a field the ledger
    does not know. *)
Definition short_message : message :=
  Msg [TRecord [(label "owner", T_PRINCIPAL)];
       TRecord [(label "to", 0%Z); (label "colour", T_TEXT); (label "amount", T_NAT)]]
      [(1%Z, XRecord [(label "to", XRecord [(label "owner", XPrincipal bob)]);
                      (label "colour", XText (str_bytes "green")); (label "amount", XNat (3 * T))])].
(** A subaccount of 31 bytes *)
Definition short_sub : message :=
  Msg [TVec T_NAT8; TRecord [(label "owner", T_PRINCIPAL); (label "subaccount", 0%Z)]]
      [(1%Z, XRecord [(label "owner", XPrincipal bob); (label "subaccount", XBlob (repeat Byte.x01 31))])].
Example C89_case :
  wf_request some_transfer /\ wf_request some_creation
  /\ read_request MTransfer 0 (request_bytes some_transfer) = Some some_transfer
  /\ read_request MTransfer 0 (enc_message short_message)
     = Some (ReqCall (CallTransfer None (acct bob) (3 * T) None None None))
  /\ read_request MBalance 0 (enc_message short_sub) = None
  /\ read_request MDeposit 5 (request_bytes (ReqBlocks [(0, 5)])) = None
  /\ well_typed short_message.
Proof.
  split; [|split; [|split; [|split; [|split; [|split]]]]].
  - repeat split; vm_compute; first [reflexivity | lia].
  - split; [repeat split; vm_compute; lia|]. split; [exact I|]. split; [reflexivity|].
    repeat (apply Forall_cons; split; [vm_compute; lia|]). apply Forall_nil_2.
  - vm_compute. reflexivity.
  - vm_compute. reflexivity.
  - vm_compute. reflexivity.
  - vm_compute. reflexivity.
  - unfold well_typed, short_message. cbn [m_args m_table]. rewrite Forall_singleton. split; [vm_compute; repeat split|vm_compute; lia].
Qed.

Print Assumptions C89_messages_are_read_by_name.
Print Assumptions C89_requests_are_understood.
Print Assumptions C89_requests_differ.
Print Assumptions C89_other_fields_do_not_matter.
Print Assumptions C89_messages_are_calls.
