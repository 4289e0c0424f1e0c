(** * What the ledger says about itself

    C55 *)
From Verif Require Import Base Types Codec CodecFacts CodecProofs State Ledger Canister PrincipalText TextProofs About Effects Spec ApiSpec
  Inv Steps World CallFacts CallCases StepFacts PropertiesCalls PropertiesAuth PropertiesQuery Demo.

Section WithEnv.
Context `{Env}.

(** ** Specification *)
(** The reply of [icrc1_metadata] has the entry [key] with value [v] and no other
    entry for [key]. *)
Definition advertises (w : world) (key : string) (v : meta_value) : Prop :=
  forall v', (key, v') ∈ icrc1_metadata (w_led w) <-> v' = v.
(** There is no entry for [key]. *)
Definition silent_about (w : world) (key : string) : Prop :=
  forall v', (key, v') ∉ icrc1_metadata (w_led w).
(** The fee the caller says it will pay *)
Definition fee_given (c : call) : option N :=
  match c with
  | CallTransfer _ _ _ fee _ _ => fee
  | CallTransferFrom _ _ _ _ fee _ _ => fee
  | CallApprove _ _ _ _ _ fee _ _ => fee
  | _ => None
  end.
Definition is_mint (b : block) : bool := match tx_op (b_tx b) with Mint _ _ _ => true | _ => false end.

Local Ltac no_entry H := rewrite ?elem_of_app, ?elem_of_cons, ?elem_of_nil in H;
  repeat destruct H as [H|H]; try discriminate; try done.
Local Ltac entries := intros v'; unfold icrc1_metadata; destruct (index_id _) as [ix|];
  (split; [intros Hin; no_entry Hin; by injection Hin|intros ->; set_solver]).

(** ** C55 *)
(** The advertised fee is the one that [icrc1_fee] reports and that every block
    but a mint charged; a call that names another fee is turned down. *)
Theorem C55_fee w : reachable w ->
  exists n, advertises w "icrc1:fee" (MetaNat n) /\ n = icrc1_fee /\ n = 100000000
  /\ (forall b, b ∈ blocks (w_led w) -> is_mint b = false -> fee_of b = n)
  /\ (forall now caller c sync w' resp f,
        ev_ok w (EvCall now caller c sync) -> step w (EvCall now caller c sync) = (w', resp) ->
        fee_given c = Some f -> f <> n -> rejected resp = true /\ unchanged w w').
Proof.
  intros Hr. exists icrc1_fee. split; [entries|]. split; [done|]. split; [done|]. split.
  - intros b Hb Hm. apply elem_of_list_lookup in Hb as [i Hb].
    destruct (inv_blk _ _ (reachable_inv _ Hr) _ _ Hb) as [(_ & _ & He & Hs & _) _].
    rewrite (fee_of_ok b He Hs). unfold is_mint in Hm. unfold op_fee. by destruct (tx_op (b_tx b)).
  - intros now caller c sync w' resp f Hev Hst Hf Hne.
    assert (rejected resp = true) as Hrej; [|split; [done|by eapply step_rejected]].
    destruct (rejected resp) eqn:E; [done|].
    destruct (step_accepted _ _ _ _ _ _ _ Hr Hev Hst E) as [Hok _].
    destruct c; simpl in Hf; try discriminate; subst; exfalso; apply Hne; unfold icrc1_fee;
      destruct Hok as (_ & Hs & _); cbn [requested tx_op op_static] in Hs; destruct_and? Hs;
      match goal with Hf : fee_ok _ |- _ => destruct Hf as [Hf|Hf]; [discriminate|by injection Hf] end.
Qed.

(** A memo of up to the advertised length is never the reason to turn a call
    down, a longer one always is. *)
Theorem C55_memo w : reachable w ->
  exists n, advertises w "icrc1:max_memo_length" (MetaNat n)
  /\ forall now caller c sync w' resp m,
       ev_ok w (EvCall now caller c sync) -> step w (EvCall now caller c sync) = (w', resp) ->
       memo_of c = Some m ->
       (n < N.of_nat (length m) -> rejected resp = true /\ unchanged w w')
       /\ (N.of_nat (length m) <= n -> resp <> RespTrap TrapMemoTooLong).
Proof.
  intros Hr. exists 32. split; [entries|]. intros now caller c sync w' resp m Hev Hst Hm. split.
  - intros Hn. assert (rejected resp = true) as Hrej; [|split; [done|by eapply step_rejected]].
    destruct (rejected resp) eqn:E; [done|].
    destruct (step_accepted _ _ _ _ _ _ _ Hr Hev Hst E) as [((_ & _ & Hml & _) & _) _].
    destruct c; simpl in Hm; try discriminate; subst; cbn [requested tx_memo] in Hml;
      apply memo_fits_ok in Hml; simpl in Hml; lia.
  - intros Hn ->. destruct (C39_traps _ _ _ _ _ _ _ Hr Hev Hst) as [_ Ht].
    rewrite Hm in Ht. unfold memo_fits in Ht.
    destruct Ht as [[_ Ht]|[[? _]|[[? _]|(? & ? & ? & Ho & _)]]]; try discriminate; [lia|].
    destruct c; simpl in Hm, Ho; discriminate.
Qed.

(** No answer of [icrc3_get_blocks] has more blocks than advertised, and a
    request within the log for that many or fewer is answered in full. *)
Theorem C55_blocks_per_request w :
  exists n, advertises w "dfn:max_blocks_per_request" (MetaNat n)
  /\ (forall args, N.of_nat (length (br_blocks (icrc3_get_blocks (w_led w) args))) <= n)
  /\ (forall start len,
        start + len <= N.of_nat (length (blocks (w_led w))) -> len <= n ->
        N.of_nat (length (blocks (w_led w))) + n <= 2 ^ 64 ->
        (br_blocks (icrc3_get_blocks (w_led w) [(start, len)])).*1
          = (fun k => start + N.of_nat k) <$> seq 0 (N.to_nat len)).
Proof.
  exists (max_blocks_per_request (cfg (w_led w))). split; [entries|]. split.
  - intros args. apply C29_served_blocks_are_right.
  - intros start len Hl Hn Hmax. rewrite C29_wanted_blocks_are_served_partial; [|done|].
    + unfold wanted. cbn [fmap list_fmap concat]. rewrite app_nil_r, range_ids_eq, take_seqN.
      unfold seqN. replace (N.min _ _) with len by lia.
      change (map N.of_nat) with (@fmap list _ _ _ N.of_nat).
      apply list_eq. intros k. rewrite !list_lookup_fmap.
      destruct (decide (k < N.to_nat len)%nat) as [Hk|Hk].
      * rewrite !lookup_seq_lt by done. simpl. f_equal. lia.
      * rewrite !lookup_seq_ge by lia. done.
    + apply Forall_singleton. simpl. lia.
Qed.

(** The index canister is advertised exactly if [icrc106_get_index_principal]
    returns it, once by its bytes and once by a text from which a reader gets the
    same principal and no other. *)
Theorem C55_index w :
  match icrc106_get_index_principal (w_led w) with
  | Some p => (exists t, advertises w "icrc106:index_principal" (MetaText t) /\ read_principal t = Some p)
              /\ advertises w "dfn:index_id" (MetaBlob p)
  | None => silent_about w "icrc106:index_principal" /\ silent_about w "dfn:index_id"
  end.
Proof.
  unfold icrc106_get_index_principal. destruct (index_id (cfg (w_led w))) as [p|] eqn:E.
  - split; [exists (principal_text p); split; [|apply principal_text_readable]|];
      intros v'; unfold icrc1_metadata; rewrite E;
      (split; [intros Hin; no_entry Hin; by injection Hin|intros ->; set_solver]).
  - split; intros v' Hin; unfold icrc1_metadata in Hin; rewrite E in Hin; no_entry Hin.
Qed.

(** Name, symbol and decimals are the same wherever they can be asked for, and so
    are the supported standards; there is no minting account. *)
Theorem C55_names w :
  advertises w "icrc1:name" (MetaText icrc1_name)
  /\ advertises w "icrc1:symbol" (MetaText icrc1_symbol)
  /\ advertises w "icrc1:decimals" (MetaNat icrc1_decimals)
  /\ 10 ^ icrc1_decimals = 1000000000000 (* a token is a trillion cycles *)
  /\ (exists logo, advertises w "icrc1:logo" (MetaText logo))
  /\ icrc1_supported_standards = icrc10_supported_standards
  /\ icrc1_minting_account = None
  /\ NoDup (icrc1_metadata (w_led w)).*1.
Proof.
  split; [entries|]. split; [entries|]. split; [entries|]. split; [reflexivity|]. split; [exists TOKEN_LOGO; entries|].
  split; [done|]. split; [done|]. unfold icrc1_metadata.
  destruct (index_id (cfg (w_led w))); cbn [app fmap list_fmap fst];
    apply (bool_decide_unpack _); vm_compute; exact I.
Qed.
End WithEnv.

(** ** Cases *)
(** After the sample history: a fee, a memo bound and a page size are advertised
    and there is an index canister once one is set; a fee off by one and a memo off by one are
    turned down, the bounds themselves are met. *)
Definition b32 : list byte := replicate 32 Byte.x07.
Definition ask (fee : option N) (m : option memo) : event :=
  EvCall (T0 + 10 * sec) alice (CallTransfer None (acct bob) T fee m None) None.
Example C55_case :
  reachable (demo_at 1) /\ ev_okb (demo_at 1) (ask (Some FEE) (Some b32)) = true
  /\ rejected (step (demo_at 1) (ask (Some FEE) (Some b32))).2 = false
  /\ rejected (step (demo_at 1) (ask (Some (FEE + 1)) None)).2 = true
  /\ rejected (step (demo_at 1) (ask None (Some (Byte.x01 :: b32)))).2 = true
  /\ existsb (fun b => negb (is_mint b)) (blocks (w_led demo_world)) = true
  /\ icrc106_get_index_principal (w_led (demo_at 1)) = None
  /\ icrc106_get_index_principal (w_led demo_world) = Some [Byte.x0b]
  /\ read_principal (principal_text [Byte.x0b]) = Some [Byte.x0b]
  /\ read_principal "aaaab-aa" = None
  /\ length (br_blocks (icrc3_get_blocks (w_led demo_world) [(2, 3)])) = 3%nat.
Proof.
  split; [apply demo_at_reachable; vm_compute; reflexivity|].
  do 9 (split; [vm_compute; reflexivity|]). vm_compute. reflexivity.
Qed.

Print Assumptions C55_fee.
Print Assumptions C55_memo.
Print Assumptions C55_blocks_per_request.
Print Assumptions C55_index.
Print Assumptions C55_names.
