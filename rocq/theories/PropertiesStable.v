(** * What is in stable memory: C83 *)
From Verif Require Import Base Types Codec State Ledger Canister Cbor ConfigCodec Effects Spec Inv Steps World
  QueryFacts CodecProofs CborProofs StableMemory PropertiesLog PropertiesUpgrade PropertiesCodec PropertiesConfig Demo.

Local Open Scope list_scope.
Local Open Scope N_scope.

(** ** The log *)
Fixpoint ends_from (n : nat) (es : list (list byte)) : list N :=
  match es with
  | [] => []
  | e :: rest => N.of_nat (n + length e) :: ends_from (n + length e) rest
  end.
Lemma log_image_from es ends data :
  foldl log_append (ends, data) es = (ends ++ ends_from (length data) es, data ++ concat es).
Proof.
  revert ends data. induction es as [|e es IH]; intros ends data; simpl.
  - by rewrite !app_nil_r.
  - unfold log_append at 2. cbn [fst snd]. rewrite IH, app_length, <- !app_assoc. done.
Qed.
Lemma log_image_eq bs :
  log_image bs = (ends_from 0 (map block_to_bytes bs), concat (map block_to_bytes bs)).
Proof. unfold log_image. by rewrite log_image_from. Qed.
Lemma log_read_from bs before :
  (forall b, b ∈ bs -> block_from_bytes (block_to_bytes b) = Some b) ->
  log_read (N.of_nat (length before)) (ends_from (length before) (map block_to_bytes bs))
    (before ++ concat (map block_to_bytes bs)) = Some bs.
Proof.
  revert before. induction bs as [|b bs IH]; intros before Hd; [done|].
  cbn [map ends_from log_read concat].
  replace (N.to_nat (N.of_nat (length before + length (block_to_bytes b)) - N.of_nat (length before)))
    with (length (block_to_bytes b)) by lia.
  rewrite Nat2N.id, drop_app, take_app, (Hd b) by (by left).
  rewrite <- app_length, app_assoc, IH; [done|]. intros b' Hb. apply Hd. by right.
Qed.
Lemma ends_from_app n es es' :
  ends_from n (es ++ es') = ends_from n es ++ ends_from (n + length (concat es)) es'.
Proof.
  revert n. induction es as [|e es IH]; intros n; simpl; [by rewrite Nat.add_0_r|].
  rewrite IH, app_length. by replace (n + length e + length (concat es))%nat with
    (n + (length e + length (concat es)))%nat by lia.
Qed.

Section WithEnv.
Context `{Env}.

Lemma load_image s c :
  (forall b, b ∈ blocks s -> block_from_bytes (block_to_bytes b) = Some b) ->
  config_from_bytes (config_to_bytes (cfg s)) = Some (cfg s) ->
  load_state (stable_image s) c =
    let (ph, tree) := compute_last_block_hash_and_hash_tree (blocks s) in
    Some (State (blocks s) (balances s) (approvals s) (exp_queue s) (tx_hashes s) (tx_timestamps s)
            (cfg s) ph (compute_total_supply (balances s)) tree c []).
Proof.
  intros Hb Hc. pose proof (log_read_from (blocks s) [] Hb) as Hl. simpl in Hl.
  unfold stable_image. rewrite log_image_eq.
  generalize dependent (concat (map block_to_bytes (blocks s))). intros data Hl.
  generalize dependent (ends_from 0 (map block_to_bytes (blocks s))). intros ends Hl.
  generalize dependent (config_to_bytes (cfg s)). intros cb Hc.
  cbv beta iota. unfold load_state, read_log, read_balances, read_approvals, read_expirations, read_hashes,
    read_timestamps, read_stored_config.
  repeat first [rewrite lookup_insert | rewrite lookup_insert_ne by done].
  change (N.of_nat 0) with 0 in Hl. rewrite Hl, Hc. done.
Qed.

Lemma recorded_decode w :
  (forall v, length (vhash v) = 32%nat) -> reachable w ->
  forall b, b ∈ blocks (w_led w) -> block_from_bytes (block_to_bytes b) = Some b.
Proof.
  intros Hh Hr b [i Hi]%elem_of_list_lookup.
  by destruct (C35_recorded_blocks_round_trip w i b Hh Hr Hi) as (_ & ? & _).
Qed.

(** What is read from stable memory is the ledger itself, but for the log messages
    kept on the heap ([Value::hash] returns 32 bytes). *)
Theorem C83_stable_memory_is_the_ledger w :
  (forall v, length (vhash v) = 32%nat) ->
  reachable w -> config_in_range (cfg (w_led w)) ->
  load_state (stable_image (w_led w)) (certified (w_led w)) = Some (set_p0 [] (w_led w)).
Proof.
  intros Hh Hr Hc. rewrite load_image.
  - rewrite <- (reload_eq (w_clock w) (w_led w)) by (by apply reachable_inv).
    unfold reload. by destruct (compute_last_block_hash_and_hash_tree _).
  - by apply recorded_decode.
  - rewrite <- (app_nil_r (config_to_bytes _)). by apply C57_config_survives_storage.
Qed.

(** The last message before an upgrade leaves [stable_image]; the new code starts from
    what it reads there, whatever was on the heap. *)
Theorem C83_upgrade_starts_from_stable_memory w now args s :
  (forall v, length (vhash v) = 32%nat) ->
  reachable w -> config_in_range (cfg (w_led w)) ->
  load_state (stable_image (w_led w)) (certified (w_led w)) = Some s ->
  (forall s', post_upgrade args s = (s', OOk tt) -> w_led (step w (EvUpgrade now args)).1 = s')
  /\ (forall s' t, post_upgrade args s = (s', OTrap t) ->
        w_led (step w (EvUpgrade now args)).1 = w_led w).
Proof.
  intros Hh Hr Hc Hl. rewrite (C83_stable_memory_is_the_ledger w Hh Hr Hc) in Hl.
  apply (inj Some) in Hl.
  rewrite <- (reload_eq (w_clock w) (w_led w)) in Hl by (by apply reachable_inv). subst s.
  cbn [step]. split; [intros s' ->|intros s' t ->]; done.
Qed.

(** So it determines the ledger: with the same stable memory go the same blocks,
    balances, allowances, records of transactions, configuration, supply and
    certified data. *)
Theorem C83_stable_memory_determines w1 w2 :
  (forall v, length (vhash v) = 32%nat) ->
  reachable w1 -> reachable w2 ->
  config_in_range (cfg (w_led w1)) -> config_in_range (cfg (w_led w2)) ->
  stable_image (w_led w1) = stable_image (w_led w2) ->
  set_p0 [] (w_led w1) = set_p0 [] (w_led w2).
Proof.
  intros Hh Hr1 Hr2 Hc1 Hc2 E.
  pose proof (C83_stable_memory_is_the_ledger w1 Hh Hr1 Hc1) as L1.
  pose proof (C83_stable_memory_is_the_ledger w2 Hh Hr2 Hc2) as L2.
  assert (certified (w_led w1) = certified (w_led w2)) as Ec.
  { assert (exists s1 s2, load_state (stable_image (w_led w1)) None = Some s1
      /\ load_state (stable_image (w_led w2)) None = Some s2
      /\ blocks s1 = blocks (w_led w1) /\ blocks s2 = blocks (w_led w2)
      /\ hash_tree s1 = hash_tree (w_led w1) /\ hash_tree s2 = hash_tree (w_led w2))
      as (s1 & s2 & E1 & E2 & B1 & B2 & T1 & T2).
    { clear -L1 L2. unfold load_state in *.
      destruct (read_log (stable_image (w_led w1))); [|done].
      destruct (read_balances (stable_image (w_led w1))); [|done].
      destruct (read_approvals (stable_image (w_led w1))); [|done].
      destruct (read_expirations (stable_image (w_led w1))); [|done].
      destruct (read_hashes (stable_image (w_led w1))); [|done].
      destruct (read_timestamps (stable_image (w_led w1))); [|done].
      destruct (read_stored_config (stable_image (w_led w1))); [|done].
      destruct (compute_last_block_hash_and_hash_tree _).
      destruct (read_log (stable_image (w_led w2))); [|done].
      destruct (read_balances (stable_image (w_led w2))); [|done].
      destruct (read_approvals (stable_image (w_led w2))); [|done].
      destruct (read_expirations (stable_image (w_led w2))); [|done].
      destruct (read_hashes (stable_image (w_led w2))); [|done].
      destruct (read_timestamps (stable_image (w_led w2))); [|done].
      destruct (read_stored_config (stable_image (w_led w2))); [|done].
      destruct (compute_last_block_hash_and_hash_tree _).
      eexists _, _. split; [reflexivity|]. split; [reflexivity|].
      injection L1 as B1 _ _ _ _ _ _ _ _ T1. injection L2 as B2 _ _ _ _ _ _ _ _ T2. done. }
    rewrite E in E1. rewrite E1 in E2. injection E2 as <-.
    rewrite (inv_cert _ _ (reachable_inv _ Hr1)), (inv_cert _ _ (reachable_inv _ Hr2)).
    by rewrite <- B1, <- B2, <- T1, <- T2. }
  rewrite E, Ec, L2 in L1. symmetry. by apply (inj Some).
Qed.

(** Nothing written to the log is ever written again: the bytes and the index only
    grow at their ends. *)
Theorem C83_log_bytes_append_only w tr w' :
  reachable w -> steps w tr w' ->
  exists ends data ends' data',
    stable_image (w_led w) !! BLOCK_LOG_INDEX_MEMORY_ID = Some (RIndex ends)
    /\ stable_image (w_led w) !! BLOCK_LOG_DATA_MEMORY_ID = Some (RData data)
    /\ stable_image (w_led w') !! BLOCK_LOG_INDEX_MEMORY_ID = Some (RIndex (ends ++ ends'))
    /\ stable_image (w_led w') !! BLOCK_LOG_DATA_MEMORY_ID = Some (RData (data ++ data')).
Proof.
  intros Hr Hs. destruct (C04_log_append_only w tr w' Hr Hs) as [[more Hm] _].
  unfold stable_image. rewrite !log_image_eq, Hm, map_app, ends_from_app, concat_app.
  eexists _, _, _, _. split_and!;
    repeat first [rewrite lookup_insert | rewrite lookup_insert_ne by done]; reflexivity.
Qed.

(** Stable memory without anything in it is the ledger before installation. *)
Theorem C83_blank_memory : load_state ∅ None = Some empty_state.
Proof. reflexivity. Qed.

End WithEnv.

(** The regions are different ones. *)
Theorem C83_regions_distinct :
  NoDup [BLOCK_LOG_INDEX_MEMORY_ID; BLOCK_LOG_DATA_MEMORY_ID; BALANCES_MEMORY_ID; APPROVALS_MEMORY_ID;
         EXPIRATION_QUEUE_MEMORY_ID; TRANSACTION_HASH_MEMORY_ID; TRANSACTION_TIMESTAMP_MEMORY_ID;
         CONFIG_MEMORY_ID].
Proof. apply (bool_decide_unpack _). by vm_compute. Qed.

(** ** Cases: the demo, with several blocks and an index canister *)
Example C83_case_config : config_in_range (cfg (w_led demo_world)).
Proof.
  split; [|split].
  - vm_compute. reflexivity.
  - vm_compute. intros p [= <-]. lia.
  - intros l Hl. vm_compute in Hl. injection Hl as <-. split; [by vm_compute|].
    intros a n Hin. rewrite elem_of_list_singleton in Hin. injection Hin as -> ->.
    split; [vm_compute; lia|]. split; [intros s' Hs; vm_compute in Hs; discriminate|by vm_compute].
Qed.
Example C83_case :
  load_state (stable_image (w_led demo_world)) (certified (w_led demo_world))
    = Some (set_p0 [] (w_led demo_world)).
Proof. exact (C83_stable_memory_is_the_ledger demo_world demo_hash_32 demo_reachable C83_case_config). Qed.
Example C83_case_size :
  (5 < length (blocks (w_led demo_world)))%nat /\ index_id (cfg (w_led demo_world)) <> None.
Proof. split; [vm_compute; lia|]. vm_compute. discriminate. Qed.
(** Two log entries, their bytes one behind the other *)
Example C83_case_log :
  let b := big_block in
  let n := N.of_nat (length (block_to_bytes b)) in
  log_image [b; b] = ([n; 2 * n], block_to_bytes b ++ block_to_bytes b)
  /\ log_read 0 [n; 2 * n] (block_to_bytes b ++ block_to_bytes b) = Some [b; b]
  /\ log_read 0 [n - 1; 2 * n] (block_to_bytes b ++ block_to_bytes b) = None.
Proof. vm_compute. auto. Qed.

Print Assumptions C83_stable_memory_is_the_ledger.
Print Assumptions C83_upgrade_starts_from_stable_memory.
Print Assumptions C83_stable_memory_determines.
Print Assumptions C83_log_bytes_append_only.
Print Assumptions C83_blank_memory.
Print Assumptions C83_regions_distinct.
