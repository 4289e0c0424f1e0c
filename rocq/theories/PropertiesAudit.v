(** * An auditor that has only bytes

    C91 *)
From Verif Require Import Base Types Codec CodecFacts ValueHash State Ledger Canister Spec ApiSpec
  Inv Steps World IndexerSpec PropertiesIndexer Candid CandidProofs Demo.
From Verif Require Import Wire WireFacts PropertiesWire PropertiesNames Requests PropertiesRequests Endpoint PropertiesBytes.
From Verif Require PropertiesCashOut.
Local Open Scope string_scope.
Local Open Scope N_scope.
Local Arguments label : simpl never.

Section WithEnv.
Context `{Env}.

(** ** Specification *)

(** Somebody has downloaded the whole log: the answers to requests for blocks say that
    it has as many blocks as the list [vs], and each value of the list stands, with its
    number, under "blocks" in the bytes of some answer. *)
Definition downloaded (w : world) (vs : list value) : Prop :=
  (exists now caller ranges b,
     query w now caller MBlocks (request_bytes (ReqBlocks ranges)) = Some b
     /\ ask say_nat [["log_length"]] b = Some (N.of_nat (length vs)))
  /\ forall i v, vs !! i = Some v ->
     exists now caller ranges b l,
       query w now caller MBlocks (request_bytes (ReqBlocks ranges)) = Some b
       /\ ask (say_all say_block) [["blocks"]] b = Some l /\ (N.of_nat i, v) ∈ l.

(** ** Proofs *)
Lemma blocks_read w now caller ranges b :
  reachable w -> query w now caller MBlocks (request_bytes (ReqBlocks ranges)) = Some b ->
  ask say_nat [["log_length"]] b = Some (br_log_length (icrc3_get_blocks (w_led w) ranges))
  /\ ask (say_all say_block) [["blocks"]] b = Some (br_blocks (icrc3_get_blocks (w_led w) ranges)).
Proof.
  intros Hr Hq. destruct (C90_queries w now caller Hr) as (_ & _ & Hx & _).
  destruct (Hx ranges) as (b0 & Hb0 & H1 & H2). rewrite Hq in Hb0. injection Hb0 as <-. by split.
Qed.
Lemma downloaded_fetched w vs : reachable w -> downloaded w vs -> fetched w vs.
Proof.
  intros Hr [(now & caller & ranges & b & Hq & Hl) Hv]. split.
  - intros args. destruct (blocks_read _ _ _ _ _ Hr Hq) as [E _]. rewrite E in Hl. injection Hl as Hl. exact Hl.
  - intros i v Hi. destruct (Hv i v Hi) as (n & cl & rs & b' & l & Hq' & Hb & Hin).
    destruct (blocks_read _ _ _ _ _ Hr Hq') as [_ E]. rewrite E in Hb. injection Hb as <-. by exists rs.
Qed.

(** Whatever bytes were sent to the ledger since its installation: who has downloaded
    the log can compute from it every number that the ledger gives in the bytes of its
    answers to queries for balances and allowances, and the supply. *)
Theorem C91_audit now0 cycles args w0 hs w vs :
  is_u64 now0 -> wf_ledger_args args -> init_world now0 cycles args = Some w0 -> course w0 hs w ->
  downloaded w vs ->
  (forall now caller a b n, wf_account a ->
     query w now caller MBalance (request_bytes (ReqBalance a)) = Some b ->
     ask say_nat [[]] b = Some n -> Z.of_N n = v_balance vs (to_key a))
  /\ (forall now caller a sp b n, wf_account a -> wf_account sp -> w_clock w <= now ->
     query w now caller MAllowance (request_bytes (ReqAllowance a sp)) = Some b ->
     unexpired now (ask say_time [["expires_at"]] b) ->
     ask say_nat [["allowance"]] b = Some n ->
     (n, ask say_time [["expires_at"]] b) = v_allowance vs (to_key a) (to_key sp) now)
  /\ (forall n, ask say_nat [[]] (answer_bytes MSupply (AnsNat (icrc1_total_supply (w_led w)))) = Some n ->
     Z.of_N n = v_supply vs).
Proof.
  intros Hu Hwa Hi Hc Hd. assert (reachable w) as Hr.
  { eapply C90_any_bytes_are_safe; [|exact Hc]. by econstructor. }
  pose proof (downloaded_fetched _ _ Hr Hd) as Hf. split; [|split].
  - intros now caller a b n Ha Hq Hn. destruct (C90_queries w now caller Hr) as (Hx & _).
    destruct (Hx a Ha) as (b0 & Hb0 & E). rewrite Hq in Hb0. injection Hb0 as <-. rewrite E in Hn. injection Hn as <-.
    by apply C51_fetched_log_determines_balances.
  - intros now caller a sp b n Ha Hs Ht Hq Hx Hn. destruct (C90_queries w now caller Hr) as (_ & Hy & _).
    destruct (Hy a sp Ha Hs) as (b0 & Hb0 & E1 & E2). rewrite Hq in Hb0. injection Hb0 as <-.
    rewrite E1 in Hn. injection Hn as <-. rewrite E2 in Hx |- *.
    transitivity (icrc2_allowance (w_led w) now a sp).
    + exact (eq_sym (surjective_pairing (icrc2_allowance (w_led w) now a sp))).
    + exact (C51_fetched_log_determines_allowances w vs now a sp Hr Hf Ht Hx).
  - intros n Hn. destruct (C88_queries_say_by_name w Hr) as (_ & E & _). rewrite E in Hn. injection Hn as <-.
    by apply C51_fetched_log_determines_supply.
Qed.

(** The queries are answered, and the log can be downloaded, as long as the ledger
    serves blocks. *)
Theorem C91_can_be_done w now caller :
  reachable w ->
  (forall a, wf_account a -> exists b n, query w now caller MBalance (request_bytes (ReqBalance a)) = Some b
     /\ ask say_nat [[]] b = Some n)
  /\ (forall a sp, wf_account a -> wf_account sp ->
     exists b n, query w now caller MAllowance (request_bytes (ReqAllowance a sp)) = Some b
     /\ ask say_nat [["allowance"]] b = Some n)
  /\ (0 < max_blocks_per_request (cfg (w_led w)) ->
      br_log_length (icrc3_get_blocks (w_led w) []) + max_blocks_per_request (cfg (w_led w)) <= 2 ^ 64 ->
      exists vs, downloaded w vs).
Proof.
  intros Hr. destruct (C90_queries w now caller Hr) as (Hx & Hy & Hz & _). split; [|split].
  - intros a Ha. destruct (Hx a Ha) as (b & Hb & E). eauto.
  - intros a sp Ha Hs. destruct (Hy a sp Ha Hs) as (b & Hb & E & _). eauto.
  - intros Hm Hl. destruct (C51_log_can_be_fetched w Hm Hl) as (vs & Hlen & Hv). exists vs. split.
    + destruct (Hz []) as (b & Hb & E & _). exists now, caller, [], b. split; [done|]. by rewrite E, (Hlen []).
    + intros i v Hi. destruct (Hv i v Hi) as (rs & Hin). destruct (Hz rs) as (b & Hb & _ & E).
      exists now, caller, rs, b, (br_blocks (icrc3_get_blocks (w_led w) rs)). by split.
Qed.
End WithEnv.

(** ** A case: the course of C90's case *)
Example C91_case :
  exists hs vs, is_u64 T0 /\ wf_ledger_args demo_init
  /\ init_world T0 (100 * T) demo_init = Some start /\ course start hs later /\ length hs = 3%nat
  /\ downloaded later vs /\ length vs = 2%nat /\ wf_account (acct bob)
  /\ v_balance vs (to_key (acct bob)) = Z.of_N (2 * T).
Proof.
  destruct C90_case as (Hi & Hc & Hr & _ & _ & _ & _ & _ & Hm & Hl & (b & Hq & Hb)).
  assert (is_u64 T0) as Hu by (vm_compute; reflexivity).
  assert (wf_ledger_args demo_init) as Hw by (apply wf_ledger_argsb_ok; vm_compute; reflexivity).
  assert (wf_account (acct bob)) as Ha by (apply wf_accountb_ok; vm_compute; reflexivity).
  destruct (C91_can_be_done later T0 bob Hr) as (_ & _ & Hd).
  rewrite Hm, Hl in Hd. destruct Hd as (vs & Hd); [lia|lia|].
  exists [Message noise; Message sent; Message astray], vs.
  split; [exact Hu|]. split; [exact Hw|]. split; [exact Hi|]. split; [exact Hc|]. split; [reflexivity|].
  split; [exact Hd|]. split.
  { destruct (downloaded_fetched _ _ Hr Hd) as [E _]. specialize (E []). rewrite Hl in E. lia. }
  split; [exact Ha|]. symmetry.
  destruct (C91_audit _ _ _ _ _ _ _ Hu Hw Hi Hc Hd) as (Hx & _). exact (Hx _ _ _ _ _ Ha Hq Hb).
Qed.

Print Assumptions C91_audit.
Print Assumptions C91_can_be_done.
