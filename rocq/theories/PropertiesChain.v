(** * The hash chain a client sees

    C05, over what [icrc3_get_blocks] serves *)
From Verif Require Import Base Types Codec State Ledger Canister Effects Spec Inv Steps World
  QueryFacts PropertiesLog Demo.

Section WithEnv.
Context `{Env}.

(** Two neighbouring blocks a client gets, in one answer or in two, at the same
    time or at different times and in either order, are linked by the parent hash. *)
Theorem C05_served_blocks_are_chained w tr w' args args' i v v' :
  reachable w -> steps w tr w' ->
  let first := br_blocks (icrc3_get_blocks (w_led w) args) in
  let later := br_blocks (icrc3_get_blocks (w_led w') args') in
  (i, v) ∈ first ++ later -> (i + 1, v') ∈ first ++ later ->
  field "phash" v' = Some (VBlob (vhash v)).
Proof.
  intros Hr Hs first later Hv Hv'. pose proof (steps_prefix _ _ _ Hr Hs) as Hp.
  assert (forall j x, (j, x) ∈ first ++ later ->
            exists b, blocks (w_led w') !! N.to_nat j = Some b /\ x = block_to_value b) as Hin.
  { intros j x [(b & Hb & ->)%get_blocks_sound|?%get_blocks_sound]%elem_of_app; [|done].
    exists b. split; [by eapply prefix_lookup|done]. }
  destruct (Hin _ _ Hv) as (b & Hb & ->). destruct (Hin _ _ Hv') as (b' & Hb' & ->).
  replace (N.to_nat (i + 1)) with (S (N.to_nat i)) in Hb' by lia.
  destruct (C05_hash_chain _ _ _ (reachable_steps _ _ _ Hr Hs) Hb') as (b0 & Hb0 & E).
  rewrite Hb in Hb0. injection Hb0 as <-. exact E.
Qed.
Theorem C05_first_served_block w args v :
  reachable w -> (0, v) ∈ br_blocks (icrc3_get_blocks (w_led w) args) -> field "phash" v = None.
Proof. intros Hr (b & Hb & ->)%get_blocks_sound. exact (C05_hash_chain _ _ _ Hr Hb). Qed.

End WithEnv.

(** ** A case that meets the hypotheses *)

(** Blocks 1 and 2 are served together with a block of another range. *)
Example C05_served_case :
  reachable demo_world
  /\ (br_blocks (icrc3_get_blocks (w_led demo_world) [(1, 2); (0, 1)])).*1 = [1; 2; 0].
Proof. split; [apply demo_reachable|vm_compute; reflexivity]. Qed.

Print Assumptions C05_served_blocks_are_chained.
Print Assumptions C05_first_served_block.
