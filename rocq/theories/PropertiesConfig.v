(** * The configuration

    C57 *)
From Verif Require Import Base Types Codec CodecFacts CodecProofs Cbor CborProofs ConfigCodec State Ledger Canister
  Effects Spec ApiSpec Inv Steps World PropertiesQuery PropertiesUpgrade PropertiesHistory Demo.

(** ** Specification *)
(** Values of the Rust types: 64- and 128-bit numbers, principals of at most 29
    bytes, subaccounts of 32 bytes, fewer than 2^64 initial balances *)
Definition config_in_range (c : config) : Prop :=
  max_blocks_per_request c < 2 ^ 64
  /\ (forall p, index_id c = Some p -> (length p <= 29)%nat)
  /\ forall l, initial_balances c = Some l ->
       N.of_nat (length l) < 2 ^ 64
       /\ forall a n, (a, n) ∈ l ->
            (length (owner a) <= 29)%nat /\ (forall s, subacct a = Some s -> s < 2 ^ 256) /\ n < 2 ^ 128.

(** ** The stored bytes *)
Lemma all_some_map {A B} (f : A -> B) (d : B -> option A) l :
  (forall x, x ∈ l -> d (f x) = Some x) -> all_some (map d (map f l)) = Some l.
Proof.
  induction l as [|x l IH]; intros Hd; simpl; [done|]. rewrite (Hd x) by (by left).
  rewrite IH; [done|]. intros y Hy. apply Hd. by right.
Qed.
Lemma byte_int_decode b : cbor_to_byte (CInteger (Z.of_N (Byte.to_N b))) = Some b.
Proof.
  unfold cbor_to_byte, cbor_to_u128. destruct (Z.ltb_spec (Z.of_N (Byte.to_N b)) 0); [lia|].
  rewrite N2Z.id. apply byte_of_to_N.
Qed.
Lemma sub_decode s : s < 2 ^ 256 -> cbor_to_sub (sub_to_cbor s) = Some s.
Proof.
  intros Hs. unfold cbor_to_sub, sub_to_cbor. rewrite all_some_map by (intros; apply byte_int_decode).
  rewrite be_fixed_length. simpl. f_equal. by apply from_be_fixed.
Qed.
Lemma opt_field_values {A} (d : cvalue -> option A) (f : A -> cvalue) o k m :
  field_values k m = [opt_to_cbor f o] -> (forall x, f x <> CNull) ->
  (forall x, o = Some x -> d (f x) = Some x) -> opt_get k d m = Some o.
Proof.
  intros E Hnn Hd. unfold opt_get. rewrite E. destruct o as [x|]; cbn [opt_to_cbor]; [|done].
  specialize (Hnn x). rewrite (Hd x) by done. by destruct (f x).
Qed.
Lemma principal_decode p : (length p <= 29)%nat -> cbor_to_principal (principal_to_cbor p) = Some p.
Proof. intros E%Nat.leb_le. unfold principal_to_cbor, cbor_to_principal. by rewrite E. Qed.
Lemma plain_account_decode a :
  (length (owner a) <= 29)%nat -> (forall s, subacct a = Some s -> s < 2 ^ 256) ->
  cbor_to_plain_account (plain_account_to_cbor a) = Some a.
Proof.
  intros Ho Hs. unfold cbor_to_plain_account, plain_account_to_cbor.
  rewrite (req_field_values _ _ _ (principal_to_cbor (owner a))) by reflexivity.
  rewrite principal_decode by done.
  rewrite (opt_field_values _ sub_to_cbor (subacct a)); [by destruct a|reflexivity|done|].
  intros s E. by apply sub_decode, Hs.
Qed.
Lemma balance_decode e :
  (length (owner e.1) <= 29)%nat -> (forall s, subacct e.1 = Some s -> s < 2 ^ 256) -> e.2 < 2 ^ 128 ->
  cbor_to_balance (balance_to_cbor e) = Some e.
Proof.
  intros Ho Hs Hn. unfold cbor_to_balance, balance_to_cbor.
  rewrite plain_account_decode, cbor_to_u128_uint by done. by destruct e.
Qed.
Lemma config_round_trip c : config_in_range c -> config_of_cbor (config_to_cbor c) = Some c.
Proof.
  intros (Hm & Hp & Hl). unfold config_of_cbor, config_to_cbor.
  rewrite (req_field_values _ _ _ (uint_to_cbor (max_blocks_per_request c))) by reflexivity.
  rewrite cbor_to_u64_uint by done.
  rewrite (opt_field_values _ principal_to_cbor (index_id c)); [|reflexivity|done|].
  2:{ intros p Ep. by apply principal_decode, Hp. }
  rewrite (opt_field_values _ (fun l => CArray (map balance_to_cbor l)) (initial_balances c)); [|reflexivity|done|].
  2:{ intros l El. apply all_some_map. intros [a n] Hx. destruct (Hl l El) as [_ Hin].
      destruct (Hin a n Hx) as (? & ? & ?). by apply balance_decode. }
  by destruct c.
Qed.
Lemma kv_text k v : N.of_nat (length (text_bytes k)) < 100 -> cbor_wf v -> kv_wf (CText k, v).
Proof. intros Hk Hv. split; [|done]. cbn [fst cbor_wf]. unfold is_u64, U64_MOD. lia. Qed.
Lemma config_cbor_wf c : config_in_range c -> cbor_wf (config_to_cbor c).
Proof.
  intros (Hm & Hp & Hl). apply cbor_wf_map. split; [by vm_compute|].
  assert (is_u128 (max_blocks_per_request c)) as Hm' by (unfold is_u128, U128_MOD; lia).
  repeat apply Forall_cons_2; [..|apply Forall_nil_2]; (apply kv_text; [by vm_compute|]).
  - by apply uint_wf.
  - destruct (index_id c) as [p|]; [|done]. cbn [opt_to_cbor principal_to_cbor]. apply bytes_wf.
    specialize (Hp p eq_refl). lia.
  - destruct (initial_balances c) as [l|]; [|done]. cbn [opt_to_cbor]. destruct (Hl l eq_refl) as [Hn Hin].
    apply cbor_wf_array. rewrite map_length. split; [done|]. apply Forall_forall. intros v Hv.
    apply elem_of_list_In, in_map_iff in Hv as ([a n] & <- & Ha%elem_of_list_In).
    destruct (Hin a n Ha) as (Ho & Hs & Hn2). unfold balance_to_cbor. apply cbor_wf_array. split; [by vm_compute|].
    repeat apply Forall_cons_2; [| |apply Forall_nil_2].
    + cbn [fst]. unfold plain_account_to_cbor. apply cbor_wf_map. split; [by vm_compute|].
      repeat apply Forall_cons_2; [..|apply Forall_nil_2]; (apply kv_text; [by vm_compute|]).
      * unfold principal_to_cbor. apply bytes_wf. lia.
      * destruct (subacct a) as [s|]; [|done]. cbn [opt_to_cbor]. unfold sub_to_cbor. apply cbor_wf_array.
        rewrite map_length, be_fixed_length. split; [by vm_compute|]. apply Forall_forall.
        intros x Hx. apply elem_of_list_In, in_map_iff in Hx as (b & <- & _). cbn [cbor_wf].
        pose proof (Byte.to_N_bounded b). lia.
    + by apply uint_wf.
Qed.

(** What is written to the stable cell is read back, whatever follows it. *)
Theorem C57_config_survives_storage c rest :
  config_in_range c -> config_from_bytes (config_to_bytes c ++ rest) = Some c.
Proof.
  intros Hc. unfold config_from_bytes, config_to_bytes.
  rewrite cbor_decode_encode by (by apply config_cbor_wf). by apply config_round_trip.
Qed.

Section WithEnv.
Context `{Env}.

(** ** Who sets the configuration *)
Lemma prims_cfg now s s' : prims now s s' -> cfg s' = cfg s.
Proof.
  induction 1 as [|s1 s2 s3 Hp _ IH]; [done|]. rewrite IH. destruct Hp.
  - by destruct (tx_effect_fields now t s) as (_ & Hf); destruct_and? Hf.
  - done.
  - unfold drop_tx. destruct (prune_tx_hash_fields i
      (set_tx_timestamps (tx_timestamps s ∖ {[(ts, i)]}) s)) as (_ & Hf). destruct_and? Hf. done.
  - unfold note_canister. destruct (tx_hashes s !! _); done.
Qed.
Lemma step_cfg w ev : reachable w -> ev_ok w ev ->
  cfg (w_led (step w ev).1) =
    match ev with EvUpgrade _ args => upgraded args (cfg (w_led w)) | _ => cfg (w_led w) end.
Proof.
  intros Hr Hev. pose proof (reachable_winv _ Hr) as (Hinv & Hu & Hpend).
  destruct ev as [now caller c sync|now id ans refund|now args|n|n|now id refund]; [..|done|done|].
  - destruct Hev as ([Hcl Hnow] & Hca & Hwf). apply (inv_mono _ now) in Hinv; [|done]. cbn [step].
    destruct (exec_call now (w_cycles w) caller c sync (w_led w)) as [s' r] eqn:Ex.
    destruct (exec_call_prims _ _ _ _ _ _ _ _ Hinv Hnow Hca Hwf Ex) as [Hp Hw].
    destruct r as [r|p]; simpl; by eapply prims_cfg.
  - destruct Hev as ([Hcl Hnow] & Hans & Href). apply (inv_mono _ now) in Hinv; [|done]. cbn [step].
    destruct (w_pend w !! id) as [p|] eqn:Ep; simpl; [|done].
    destruct (resume now p ans) as [k|] eqn:Er; simpl; [|done].
    destruct (commit (w_led w) (k (w_led w))) as [s' r] eqn:Ec. simpl.
    eapply prims_cfg. eapply resume_commit_prims; [done|done| |by apply wf_answer_u128|exact Er|exact Ec].
    by eapply Hpend.
  - destruct (C31_upgrade_keeps_the_ledger w now args Hr Hev) as (_ & _ & _ & _ & Hm).
    destruct args as [[c|[u|]]|].
    + by destruct Hm as (_ & -> & _).
    + by destruct Hm as (_ & -> & _).
    + by destruct Hm as (_ & -> & _).
    + by destruct Hm as (_ & -> & _).
  - cbn [step]. by destruct (w_pend w !! id).
Qed.

(** The configuration after some events: [c] with the changes that the upgrades
    among them ask for. *)
Definition configured (c : config) (evs : list event) : config :=
  foldl (fun c ev => match ev with EvUpgrade _ args => upgraded args c | _ => c end) c evs.

Lemma steps_cfg w tr w' : reachable w -> steps w tr w' ->
  cfg (w_led w') = configured (cfg (w_led w)) (map fst tr).
Proof.
  intros Hr Hs. revert Hr. induction Hs as [w|w ev tr w2 Hev _ IH]; intros Hr; [done|].
  rewrite IH by (by constructor). rewrite (step_cfg w ev Hr Hev). done.
Qed.

(** No call, answer or time changes the configuration: it is the one given at
    installation with the changes asked for by upgrades.  And it reads back. *)
Theorem C57_config_is_what_was_set now cycles c w tr w' :
  is_u64 now -> wf_ledger_args (LInit c) -> init_world now cycles (LInit c) = Some w -> steps w tr w' ->
  cfg (w_led w') = configured c (map fst tr)
  /\ (config_in_range c ->
      (forall t u p, EvUpgrade t (Some (LUpgrade (Some u))) ∈ map fst tr ->
         ua_change_index_id u = Some (SetTo p) -> (length p <= 29)%nat) ->
      config_from_bytes (config_to_bytes (cfg (w_led w'))) = Some (cfg (w_led w'))).
Proof.
  intros Hu Hwf Hi Hs. assert (reachable w) as Hr by (by econstructor).
  assert (cfg (w_led w) = c) as Hc.
  { unfold init_world, init in Hi. unfold bindM in Hi.
    destruct (mint_initial now _ empty_state) as [s1 [o1|[]|t]]; [|done]. by injection Hi as <-. }
  pose proof (steps_cfg _ _ _ Hr Hs) as E. rewrite Hc in E. split; [done|].
  intros Hin Hix. rewrite <- (app_nil_r (config_to_bytes _)). apply C57_config_survives_storage.
  rewrite E. clear E Hc Hi Hwf.
  assert (forall ev, ev ∈ map fst tr -> match ev with
    | EvUpgrade _ (Some (LUpgrade (Some u))) => wf_u64_opt (ua_max_blocks_per_request u)
    | _ => True end) as Hw.
  { clear -Hs. induction Hs as [w|w ev tr w2 Hev _ IH]; [by intros ? ?%elem_of_nil|].
    simpl. intros ev' [->|Hin]%elem_of_cons; [|by apply IH].
    destruct ev as [| |t [[|[u|]]|]| | |]; try done. by destruct Hev as [_ Hev]. }
  revert c Hin. unfold configured. induction (map fst tr) as [|ev evs IH]; intros c Hin; [done|]. simpl.
  apply IH; [|..].
  - intros t u p Hu'. apply Hix with (t := t). by right.
  - intros ev' Hev'. apply Hw. by right.
  - destruct ev as [| |t [[|[u|]]|]| | |]; try done. destruct Hin as (H1 & H2 & H3).
    specialize (Hw (EvUpgrade t (Some (LUpgrade (Some u)))) (elem_of_list_here _ _)). simpl in Hw.
    unfold upgraded. split_and!; cbn [max_blocks_per_request index_id initial_balances].
    + destruct (ua_max_blocks_per_request u); simpl; [exact Hw|done].
    + destruct (ua_change_index_id u) as [[|q]|] eqn:Ec; [done| |done].
      intros p [= <-]. eapply (Hix t u); [by left|done].
    + done.
Qed.
End WithEnv.

(** ** Cases *)
Example C57_case_bytes :
  let c := Config 100 (Some [Byte.x0b]) (Some [(acct alice, 2 ^ 70); (Acct bob (Some 5), 3)]) in
  config_in_range c /\ config_from_bytes (config_to_bytes c) = Some c.
Proof.
  cbv zeta. split; [|vm_compute; reflexivity]. split; [by vm_compute|]. split.
  - intros p [= <-]. simpl. lia.
  - intros l [= <-]. split; [by vm_compute|]. intros a n Hin. rewrite !elem_of_cons, elem_of_nil in Hin.
    destruct Hin as [[= -> ->]|[[= -> ->]|[]]]; (split; [vm_compute; lia|]); (split; [|by vm_compute]);
      intros s Hs; try discriminate. by injection Hs as <-.
Qed.
Example C57_case :
  cfg (w_led demo_world) <> match demo_init with LInit c => c | _ => default_config end
  /\ icrc106_get_index_principal (w_led demo_world) = Some [Byte.x0b].
Proof. split; [vm_compute; discriminate|vm_compute; reflexivity]. Qed.

Print Assumptions C57_config_survives_storage.
Print Assumptions C57_config_is_what_was_set.
