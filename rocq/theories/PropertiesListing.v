(** * Listing allowances while they change

    C66 *)
From stdpp Require Import sorting.
From Verif Require Import Base Types Codec CodecFacts State Ledger Canister Effects Spec ApiSpec
  Inv Steps World CallFacts CallCases StepFacts AllowFacts DedupFacts PropertiesLog PropertiesDedup
  PropertiesCalls PropertiesAuth PropertiesPaging Demo.

Section WithEnv.
Context `{Env}.

(** ** Specification *)

(** A client asks for page after page, each time with the last pair of the page
    before, until a page is empty. The requests are answered in the states and at
    the times [vs], which may all differ. *)
Inductive pages_over_time (caller : principal) (take : option N)
  : list (world * N) -> option account -> option account -> list (list allowance_entry) -> Prop :=
| over_end w now from prev :
    icrc103_get_allowances (w_led w) now caller from prev take = [] ->
    pages_over_time caller take [(w, now)] from prev []
| over_more w now vs from prev page e rest :
    icrc103_get_allowances (w_led w) now caller from prev take = page -> last page = Some e ->
    pages_over_time caller take vs (Some (ae_from e)) (Some (ae_spender e)) rest ->
    pages_over_time caller take ((w, now) :: vs) from prev (page :: rest).

(** ** Proof *)

Lemma rank_lt_trans x y z :
  principals_ordered -> wf_key x.1.1 -> wf_key x.1.2 -> wf_key y.1.1 -> wf_key y.1.2 ->
  rank_lt x y -> rank_lt y z -> rank_lt x z.
Proof.
  intros Hord W1 W2 W3 W4 [L1 N1] [L2 N2]. split; [by eapply lexb_trans|]. intros E. apply N1.
  apply aprank_inj; try done. apply lexb_antisym; [done|]. by rewrite E.
Qed.

Definition past (c : apkey) (incl : bool) (k : apkey) : Prop :=
  lexb (aprank c) (aprank k) = true /\ (incl = true \/ k <> c).
Definition keys_ok (l : list (apkey * (N * N))) : Prop := Forall (fun e => wf_key e.1.1 /\ wf_key e.1.2) l.

Lemma over_time_spec caller take vs from prev ps :
  principals_ordered -> Forall (fun v => reachable v.1) vs ->
  wf_principal (owner (default (Acct caller None) from)) -> 0 < page_size take ->
  pages_over_time caller take vs from prev ps ->
  let start := default (Acct caller None) from in
  exists K, concat ps = map entry K /\ StronglySorted rank_lt K /\ keys_ok K
    /\ Forall (fun e => past (cursor start prev) (inclusive prev) e.1) K
    /\ (forall k, k.1.1 = owner start -> past (cursor start prev) (inclusive prev) k ->
          (forall v, v ∈ vs -> exists a, approvals (w_led v.1) !! k = Some a /\ live v.2 a) ->
          exists a, (k, a) ∈ K)
    /\ (forall i page, ps !! i = Some page -> exists v, vs !! i = Some v
          /\ forall x, x ∈ page -> owner (ae_from x) = owner start
             /\ usable (w_led v.1) v.2 (ae_from x) (ae_spender x) = (ae_amount x, ae_expires x) /\ 0 < ae_amount x).
Proof.
  intros Hord Hvs Hwf Hp Hpg. induction Hpg as [w now from prev He|w now vs from prev page e rest He Hl Hpg IH]; cbv zeta.
  - apply Forall_cons in Hvs as [Hr _]. cbn [fst] in Hr.
    destruct (page_cases w now caller from prev take _ Hord Hr Hwf Hp eq_refl) as [[HL _]|(l1 & x & l2 & _ & Hpage & Hlast & _)].
    2: { rewrite He in Hlast. done. }
    exists []. split; [done|]. split; [constructor|]. split; [constructor|]. split; [constructor|]. split; [|done].
    intros k Ho [Hk1 Hk2] Hall. exfalso. destruct (Hall (w, now)) as (a & Ha & Hlv); [by left|]. cbn [fst snd] in *.
    destruct (sorted_approvals_spec w Hord Hr) as (_ & _ & Hin). apply Hin in Ha.
    assert ((k, a) ∈ after (w_led w) (owner (default (Acct caller None) from)) now
      (cursor (default (Acct caller None) from) prev) (inclusive prev)) as Hbad by (apply elem_of_list_filter; done).
    rewrite HL in Hbad. by apply elem_of_nil in Hbad.
  - apply Forall_cons in Hvs as [Hr Hvs]. cbn [fst] in Hr.
    destruct (page_cases w now caller from prev take _ Hord Hr Hwf Hp eq_refl)
      as [[_ Hn]|(l1 & x & l2 & EL & Hpage & Hlast & Hlen & Ho & Hnext)].
    { rewrite Hn in He. subst page. done. }
    rewrite He in *. rewrite Hl in Hlast. injection Hlast as ->.
    set (start := default (Acct caller None) from) in *.
    cbn [default from_option id] in IH. change (default (Acct caller None) (Some (ae_from (entry x)))) with (ae_from (entry x)) in IH.
    rewrite Ho in IH. destruct (IH Hvs Hwf) as (K & Hc & Hs & Hw & Hpast & Hcomp & Hpages).
    rewrite cursor_entry in Hpast, Hcomp. cbn [inclusive] in Hpast, Hcomp.
    pose proof (after_sorted w (owner start) now (cursor start prev) (inclusive prev) Hord Hr) as Hsa. rewrite EL in Hsa.
    assert (forall e, e ∈ l1 ++ [x] -> (wf_key e.1.1 /\ wf_key e.1.2)
              /\ past (cursor start prev) (inclusive prev) e.1 /\ e.1.1.1 = owner start /\ live now e.2
              /\ approvals (w_led w) !! e.1 = Some e.2) as Hl1.
    { intros [k v] Hkv. assert ((k, v) ∈ after (w_led w) (owner start) now (cursor start prev) (inclusive prev)) as Hi
        by (rewrite EL; apply elem_of_app; by left).
      apply elem_of_list_filter in Hi as [(H1 & H2 & H3 & H4) Hi]. cbn [fst snd] in *.
      split; [by eapply sorted_wf|]. split; [done|]. split; [done|]. split; [done|].
      destruct (sorted_approvals_spec w Hord Hr) as (_ & _ & Hin). by apply Hin. }
    assert (forall e, e ∈ K -> rank_lt x e) as HxK.
    { intros e0 He0. unfold keys_ok in *. rewrite Forall_forall in Hpast. destruct (Hpast _ He0) as [H1 [H2|H2]]; [done|].
      split; [done|congruence]. }
    assert (x ∈ l1 ++ [x]) as Hxin by (apply elem_of_app; right; by left).
    exists ((l1 ++ [x]) ++ K). split; [simpl; by rewrite Hc, Hpage, (map_app _ (l1 ++ [x]) K)|]. split; [|split; [|split; [|split]]].
    + assert (StronglySorted rank_lt (l1 ++ [x])) as Hs1.
      { clear -Hsa. revert Hsa. generalize (l1 ++ [x]). intros l. induction l as [|y l IHl]; [constructor|].
        simpl. intros [Hs Hy]%StronglySorted_inv. constructor; [by apply IHl|]. by apply Forall_app in Hy as [? _]. }
      assert (forall e0, e0 ∈ l1 ++ [x] -> Forall (rank_lt e0) K) as Hcross.
      { intros e0 He0. apply Forall_forall. intros z Hz. apply elem_of_app in He0 as [He0|He0].
        - destruct (Hl1 e0) as [[] _]; [apply elem_of_app; by left|]. destruct (Hl1 x Hxin) as [[] _].
          eapply rank_lt_trans; [..|by apply HxK]; try done.
          rewrite <- app_assoc in Hsa. simpl in Hsa. destruct (sorted_after _ _ _ _ Hsa) as [Hb _].
          rewrite Forall_forall in Hb. by apply Hb.
        - apply elem_of_list_singleton in He0 as ->. by apply HxK. }
      clear -Hs1 Hcross Hs. revert Hs1 Hcross. generalize (l1 ++ [x]). intros l. induction l as [|y l IHl]; [done|].
      simpl. intros [Hs1 Hy]%StronglySorted_inv Hcr. constructor; [apply IHl; [done|]; intros e0 He0; apply Hcr; by right|].
      apply Forall_app. split; [done|]. apply Hcr. by left.
    + apply Forall_app. split; [|done]. apply Forall_forall. intros e0 He0. by destruct (Hl1 e0 He0).
    + apply Forall_app. split; [apply Forall_forall; intros e0 He0; by destruct (Hl1 e0 He0) as (_ & ? & _)|].
      apply Forall_forall. intros e0 He0. destruct (HxK e0 He0) as [H1 H2]. destruct (Hl1 x Hxin) as ([W1 W2] & [H3 H4] & _).
      split; [by eapply lexb_trans|]. destruct H4 as [H4|H4]; [by left|right]. intros E.
      unfold keys_ok in Hw. rewrite Forall_forall in Hw. specialize (Hw e0 He0). destruct e0 as [k0 v0]. cbn [fst] in E, Hw, H1, H2. subst k0. destruct Hw as [W3 W4].
      apply H2. cbn [fst]. apply aprank_inj; try done. by apply lexb_antisym.
    + intros k Hko [Hk1 Hk2] Hall. destruct (Hall (w, now)) as (a & Ha & Hlv); [by left|]. cbn [fst snd] in *.
      destruct (sorted_approvals_spec w Hord Hr) as (_ & _ & Hin). apply Hin in Ha.
      assert ((k, a) ∈ after (w_led w) (owner start) now (cursor start prev) (inclusive prev)) as Hk
        by (apply elem_of_list_filter; done).
      rewrite EL in Hk. apply elem_of_app in Hk as [Hk|Hk]; [exists a; apply elem_of_app; by left|].
      rewrite <- Hnext in Hk. apply elem_of_list_filter in Hk as [(H1 & H2 & _) _]. cbn [fst] in *.
      destruct (Hcomp k Hko) as [a' Ha']; [split; [done|]; destruct H2; [done|by right]| |exists a'; apply elem_of_app; by right].
      intros v Hv. apply Hall. by right.
    + intros [|i] pg; simpl.
      * intros [= <-]. exists (w, now). split; [done|]. intros y Hy. rewrite Hpage in Hy.
        apply elem_of_list_In, in_map_iff in Hy as ([k v] & <- & Hy). apply elem_of_list_In in Hy.
        destruct (Hl1 _ Hy) as (_ & _ & Hown & Hlv & Hv). cbn [fst snd entry ae_from ae_spender ae_amount ae_expires] in *.
        split; [destruct k as [[p1 s1] [p2 s2]]; done|].
        apply (usable_entry w now (of_key k.1) (of_key k.2) v.1 (exp_opt v.2) Hr).
        exists v. unfold approval_key. rewrite !to_of_key. destruct k; done.
      * intros Hi. destruct (Hpages i pg Hi) as (v & Hv & Hx). by exists v.
Qed.

(** ** C66 *)

(** However the ledger changes between the requests, no pair is listed twice, every
    entry was right when its page was served, and a pair that has an unexpired
    allowance all along is not missed. *)
Theorem C66_listing_while_changing caller take vs from ps :
  principals_ordered -> Forall (fun v => reachable v.1) vs ->
  let start := default (Acct caller None) from in
  wf_principal (owner start) -> 0 < page_size take ->
  pages_over_time caller take vs from None ps ->
  StronglySorted before (concat ps)
  /\ (forall i page, ps !! i = Some page -> exists w now, vs !! i = Some (w, now)
        /\ forall x, x ∈ page -> owner (ae_from x) = owner start
           /\ usable (w_led w) now (ae_from x) (ae_spender x) = (ae_amount x, ae_expires x) /\ 0 < ae_amount x)
  /\ (forall f p, owner f = owner start -> (to_key start).2 <= (to_key f).2 -> wf_principal (owner p) ->
        (forall w now, (w, now) ∈ vs -> 0 < (usable (w_led w) now f p).1) ->
        exists x, x ∈ concat ps /\ same_account (ae_from x) f /\ same_account (ae_spender x) p).
Proof.
  intros Hord Hvs start Hwf Hp Hpg.
  destruct (over_time_spec _ _ _ _ _ _ Hord Hvs Hwf Hp Hpg) as (K & Hc & Hs & Hw & _ & Hcomp & Hpages).
  fold start in Hcomp, Hpages. cbn [inclusive] in Hcomp. rewrite Hc. split; [|split].
  - clear -Hs Hw Hord. unfold keys_ok in Hw. rewrite Forall_forall in Hw. revert Hw.
    induction Hs as [|x l Hs IH Hx]; intros Hw; simpl; [constructor|].
    constructor; [apply IH; intros e He; apply Hw; by right|].
    rewrite Forall_forall in Hx. apply Forall_forall. intros y Hy. apply elem_of_list_In, in_map_iff in Hy as (z & <- & Hz).
    apply elem_of_list_In in Hz. destruct (Hx z Hz) as [Hlt Hne].
    destruct (Hw x) as [Hw1 Hw2]; [by left|]. destruct (Hw z) as [Hw3 Hw4]; [by right|].
    split; [exact Hlt|]. intros E. apply Hne. apply aprank_inj; try done.
  - intros i page Hi. destruct (Hpages i page Hi) as ([w now] & Hv & Hx). by exists w, now.
  - intros f p Ho Hle Hwp Hall. destruct (Hcomp (approval_key f p)) as [a Ha].
    + done.
    + split; [|by left]. destruct Hord as [_ Hmin]. specialize (Hmin _ Hwp).
      unfold aprank, akrank, approval_key. cbn [app cursor fst snd lexb].
      change (to_key start).1 with (owner start). change (to_key f).1 with (owner f). change (to_key p).1 with (owner p).
      rewrite Ho, N.ltb_irrefl.
      destruct (N.ltb_spec (to_key start).2 (to_key f).2); [done|].
      destruct (N.ltb_spec (to_key f).2 (to_key start).2); [lia|].
      destruct (N.ltb_spec (prank []) (prank (owner p))); [done|].
      destruct (N.ltb_spec (prank (owner p)) (prank [])); [lia|].
      destruct (N.ltb_spec 0 (to_key p).2); [done|]. destruct (N.ltb_spec (to_key p).2 0); [lia|done].
    + intros [w now] Hv. cbn [fst snd]. specialize (Hall w now Hv).
      rewrite Forall_forall in Hvs. specialize (Hvs _ Hv). cbn [fst] in Hvs.
      destruct (usable (w_led w) now f p) as [n e] eqn:Eu. cbn [fst] in Hall.
      destruct (proj1 (usable_entry w now f p n e Hvs) (conj Eu Hall)) as (v & Hv1 & Hv2 & _). by exists v.
    + exists (entry (approval_key f p, a)). split; [by apply elem_of_list_In, in_map, elem_of_list_In|].
      simpl. split; apply key_same; by rewrite to_of_key.
Qed.

End WithEnv.

(** ** A case that meets the hypotheses *)

(** While alice reads page after page, one pair that was listed already is revoked,
    one that is still to come gets a new amount, and one appears too late to be listed. *)
Definition changing_events : list event :=
  [ EvCall (T0 + 11 * sec) alice (CallApprove None (acct bob) 0 None None None None None) None;
    EvCall (T0 + 11 * sec) alice (CallApprove None (acct carol) 9 None None None None None) None;
    EvCall (T0 + 11 * sec) alice (CallApprove None (acct [Byte.x09]) 6 None None None None None) None ].
Definition changed_world : world :=
  the_world (history T0 (100 * T) demo_init (paging_events ++ changing_events)).
Definition listing_views : list (world * N) :=
  [ (paging_world, T0 + 10 * sec); (changed_world, T0 + 12 * sec);
    (changed_world, T0 + 13 * sec); (changed_world, T0 + 14 * sec) ].
Example C66_case :
  principals_ordered
  /\ Forall (fun v => reachable v.1) listing_views
  /\ pages_over_time alice (Some 1) listing_views None None
       [ [entry_of (acct alice) (acct bob) 3 None]; [entry_of (acct alice) (acct carol) 9 None];
         [entry_of alice1 (acct bob) 2 None] ]
  /\ icrc103_get_allowances (w_led changed_world) (T0 + 14 * sec) alice None None (Some 1)
     = [entry_of (acct alice) (acct [Byte.x09]) 6 None].
Proof.
  assert (reachable paging_world) as H1 by (apply the_world_reachable; vm_compute; reflexivity).
  assert (reachable changed_world) as H2 by (apply the_world_reachable; vm_compute; reflexivity).
  split; [apply demo_principals_ordered|].
  split.
  { apply List.Forall_cons; [exact H1|]. apply List.Forall_cons; [exact H2|]. apply List.Forall_cons; [exact H2|].
    apply List.Forall_cons; [exact H2|apply List.Forall_nil]. }
  split; [|vm_compute; reflexivity].
  eapply over_more; [vm_compute; reflexivity|vm_compute; reflexivity|].
  eapply over_more; [vm_compute; reflexivity|vm_compute; reflexivity|].
  eapply over_more; [vm_compute; reflexivity|vm_compute; reflexivity|].
  apply over_end. vm_compute. reflexivity.
Qed.

Print Assumptions C66_listing_while_changing.
