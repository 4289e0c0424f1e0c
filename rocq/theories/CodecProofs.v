(** * Round trips of the encodings *)
From Coq Require Import Structures.OrdersEx.
From Verif Require Import Base Types Codec CodecFacts State Ledger Canister Effects Spec Inv Steps World
  QueryFacts.

(** ** Induction principles for nested values *)
Section ValueInd.
  Context (P : value -> Prop).
  Context (Hn64 : forall n, P (VNat64 n)) (Hn : forall n, P (VNat n)) (Hi : forall z, P (VInt z))
    (Hb : forall b, P (VBlob b)) (Ht : forall s, P (VText s))
    (Ha : forall l, Forall P l -> P (VArray l))
    (Hm : forall m, Forall (fun kv => P kv.2) m -> P (VMap m)).
  Fixpoint value_nested_ind (v : value) : P v :=
    match v with
    | VNat64 n => Hn64 n
    | VNat n => Hn n
    | VInt z => Hi z
    | VBlob b => Hb b
    | VText s => Ht s
    | VArray l => Ha l ((fix go (l : list value) : Forall P l :=
                           match l with
                           | [] => @List.Forall_nil _ P
                           | x :: l' => @List.Forall_cons _ P x l' (value_nested_ind x) (go l')
                           end) l)
    | VMap m => Hm m ((fix go (m : list (string * value)) : Forall (fun kv => P kv.2) m :=
                           match m with
                           | [] => @List.Forall_nil _ _
                           | x :: m' => @List.Forall_cons _ (fun kv => P kv.2) x m' (value_nested_ind x.2) (go m')
                           end) m)
    end.
End ValueInd.
Section CValueInd.
  Context (P : cvalue -> Prop).
  Context (Hi : forall z, P (CInteger z)) (Hb : forall b, P (CBytes b)) (Hf : P CFloat)
    (Ht : forall s, P (CText s)) (Hbo : forall b, P (CBool b)) (Hnu : P CNull)
    (Htag : forall t v, P v -> P (CTag t v))
    (Ha : forall l, Forall P l -> P (CArray l))
    (Hm : forall m, Forall (fun kv => P kv.2) m -> P (CMap m)).
  Fixpoint cvalue_nested_ind (v : cvalue) : P v :=
    match v with
    | CInteger z => Hi z
    | CBytes b => Hb b
    | CFloat => Hf
    | CText s => Ht s
    | CBool b => Hbo b
    | CNull => Hnu
    | CTag t x => Htag t x (cvalue_nested_ind x)
    | CArray l => Ha l ((fix go (l : list cvalue) : Forall P l :=
                           match l with
                           | [] => @List.Forall_nil _ P
                           | x :: l' => @List.Forall_cons _ P x l' (cvalue_nested_ind x) (go l')
                           end) l)
    | CMap m => Hm m ((fix go (m : list (cvalue * cvalue)) : Forall (fun kv => P kv.2) m :=
                           match m with
                           | [] => @List.Forall_nil _ _
                           | x :: m' => @List.Forall_cons _ (fun kv => P kv.2) x m' (cvalue_nested_ind x.2) (go m')
                           end) m)
    end.
End CValueInd.

(** ** The recursive calls of the conversions as list functions *)
Definition cg_list (d : N) :=
  fix cg_list (l : list cvalue) : option (list value) :=
  match l with
  | [] => Some []
  | x :: l' =>
      match cbor_to_generic d x with
      | None => None
      | Some y => match cg_list l' with None => None | Some ys => Some (y :: ys) end
      end
  end.
Definition cg_map (d : N) :=
  fix cg_map (m : list (cvalue * cvalue)) (acc : list (string * value)) : option (list (string * value)) :=
  match m with
  | [] => Some acc
  | (k, x) :: m' =>
      match k with
      | CText ks =>
          match cbor_to_generic d x with
          | None => None
          | Some y => cg_map m' (btree_insert ks y acc)
          end
      | _ => None
      end
  end.
Definition gc_list (d : N) :=
  fix gc_list (l : list value) : option (list cvalue) :=
  match l with
  | [] => Some []
  | x :: l' =>
      match generic_to_cbor d x with
      | None => None
      | Some y => match gc_list l' with None => None | Some ys => Some (y :: ys) end
      end
  end.
Definition gc_map (d : N) :=
  fix gc_map (m : list (string * value)) : option (list (cvalue * cvalue)) :=
  match m with
  | [] => Some []
  | (k, x) :: m' =>
      match generic_to_cbor d x with
      | None => None
      | Some y => match gc_map m' with None => None | Some ys => Some ((CText k, y) :: ys) end
      end
  end.

Lemma cbor_to_generic_array d l :
  cbor_to_generic d (CArray l) =
  if 64 <=? d then None
  else match cg_list (d + 1) l with None => None | Some ys => Some (VArray ys) end.
Proof. reflexivity. Qed.
Lemma cbor_to_generic_map d m :
  cbor_to_generic d (CMap m) =
  if 64 <=? d then None
  else match cg_map (d + 1) m [] with None => None | Some ys => Some (VMap ys) end.
Proof. reflexivity. Qed.
Lemma generic_to_cbor_array d l :
  generic_to_cbor d (VArray l) =
  if 64 <=? d then None
  else match gc_list (d + 1) l with None => None | Some ys => Some (CArray ys) end.
Proof. reflexivity. Qed.
Lemma generic_to_cbor_map d m :
  generic_to_cbor d (VMap m) =
  if 64 <=? d then None
  else match gc_map (d + 1) m with None => None | Some ys => Some (CMap ys) end.
Proof. reflexivity. Qed.

(** ** Sorted maps *)
Definition str_lt (a b : string) : Prop := String.compare a b = Lt.
Global Instance str_lt_trans : Transitive str_lt.
Proof. destruct String_as_OT.lt_strorder as [_ Ht]. exact Ht. Qed.
Lemma str_lt_irrefl a : ~ str_lt a a.
Proof. destruct String_as_OT.lt_strorder as [Hi _]. exact (Hi a). Qed.
Definition sorted_map {A} (m : list (string * A)) : Prop := StronglySorted str_lt (m.*1).

Lemma compare_gt a b : String.compare a b = Gt -> str_lt b a.
Proof. unfold str_lt. rewrite String.compare_antisym. destruct (String.compare b a); done. Qed.

Lemma btree_insert_keys k v m x : x ∈ (btree_insert k v m).*1 -> x = k \/ x ∈ m.*1.
Proof.
  induction m as [|[k' v'] m IH]; simpl.
  - intros [->|[]%elem_of_nil]%elem_of_cons. by left.
  - destruct (String.compare k k'); simpl; intros Hx; apply elem_of_cons in Hx as [->|Hx].
    + by left.
    + right. by right.
    + by left.
    + right. apply elem_of_cons in Hx as [->|?]; [by left|by right].
    + right. by left.
    + apply IH in Hx as [->|?]; [by left|]. right. by right.
Qed.
Lemma btree_insert_sorted k v m : sorted_map m -> sorted_map (btree_insert k v m).
Proof.
  unfold sorted_map. induction m as [|[k' v'] m IH]; simpl; intros Hs.
  - constructor; constructor.
  - inversion Hs as [|? ? Hs' Hf]; subst. destruct (String.compare k k') eqn:E; simpl.
    + apply string_compare_eq in E as ->. done.
    + constructor; [done|]. constructor; [done|]. eapply Forall_impl; [exact Hf|].
      intros x Hx. by trans k'.
    + constructor; [by apply IH|]. apply Forall_forall. intros x Hx.
      apply btree_insert_keys in Hx as [->|Hx]; [by apply compare_gt|].
      rewrite Forall_forall in Hf. by apply Hf.
Qed.
(** inserting a largest key appends it *)
Lemma btree_insert_last k v m :
  Forall (fun x => str_lt x k) (m.*1) -> btree_insert k v m = m ++ [(k, v)].
Proof.
  induction m as [|[k' v'] m IH]; simpl; intros Hf; [done|].
  inversion Hf as [|? ? Hk Hf']; subst. destruct (String.compare k k') eqn:E.
  - apply string_compare_eq in E as ->. by apply str_lt_irrefl in Hk.
  - exfalso. apply (str_lt_irrefl k). by trans k'.
  - by rewrite IH.
Qed.

(** ** C36: generic values to CBOR and back *)

(** All maps in [v] are sorted, as [BTreeMap]s are. *)
Fixpoint value_ok (v : value) : Prop :=
  match v with
  | VArray l => (fix go (l : list value) := match l with [] => True | x :: l' => value_ok x /\ go l' end) l
  | VMap m => sorted_map m
      /\ (fix go (m : list (string * value)) :=
            match m with [] => True | x :: m' => value_ok x.2 /\ go m' end) m
  | _ => True
  end.
Lemma value_ok_array l : value_ok (VArray l) <-> Forall value_ok l.
Proof.
  simpl. induction l as [|x l IH]; [split; [constructor|done]|].
  rewrite Forall_cons, <- IH. done.
Qed.
Lemma value_ok_map m : value_ok (VMap m) <-> sorted_map m /\ Forall (fun kv => value_ok kv.2) m.
Proof.
  simpl. apply and_iff_compat_l. induction m as [|x m IH]; [split; [constructor|done]|].
  rewrite Forall_cons, <- IH. done.
Qed.

Lemma generic_cbor_generic v d c :
  value_ok v -> generic_to_cbor d v = Some c -> cbor_to_generic d c = Some v.
Proof.
  revert d c. induction v as [n|n|z|b|s|l IH|m IH] using value_nested_ind; intros d c Hok.
  - simpl. destruct (_ <=? _); done.
  - simpl. destruct (VALUE_DEPTH_LIMIT <=? d) eqn:Ed; [done|]. intros [= <-]. simpl. rewrite Ed.
    simpl. by rewrite from_nat_be.
  - simpl. destruct (VALUE_DEPTH_LIMIT <=? d) eqn:Ed; [done|].
    destruct (_ && _)%Z eqn:Ez; [|done]. intros [= <-]. simpl. rewrite Ed.
    destruct (Z.ltb_spec z 0); [lia|done].
  - simpl. destruct (VALUE_DEPTH_LIMIT <=? d) eqn:Ed; [done|]. intros [= <-]. simpl. by rewrite Ed.
  - simpl. destruct (VALUE_DEPTH_LIMIT <=? d) eqn:Ed; [done|]. intros [= <-]. simpl. by rewrite Ed.
  - rewrite generic_to_cbor_array. destruct (64 <=? d) eqn:Ed; [done|].
    destruct (gc_list (d + 1) l) as [ys|] eqn:El; [|done]. intros [= <-].
    rewrite cbor_to_generic_array, Ed.
    assert (cg_list (d + 1) ys = Some l) as ->; [|done].
    apply value_ok_array in Hok. clear Ed. revert ys El.
    induction IH as [|x l Hx IH' IHl]; intros ys; simpl; [by intros [= <-]|].
    inversion Hok; subst.
    destruct (generic_to_cbor (d + 1) x) as [y|] eqn:Ey; [|done].
    destruct (gc_list (d + 1) l) as [ys'|]; [|done]. intros [= <-]. simpl.
    rewrite (Hx _ _ ltac:(done) Ey), (IHl ltac:(done) ys' eq_refl). done.
  - rewrite generic_to_cbor_map. destruct (64 <=? d) eqn:Ed; [done|].
    destruct (gc_map (d + 1) m) as [ys|] eqn:El; [|done]. intros [= <-].
    rewrite cbor_to_generic_map, Ed.
    apply value_ok_map in Hok as [Hs Hok]. clear Ed.
    assert (forall acc, StronglySorted str_lt (acc.*1 ++ m.*1) ->
      cg_map (d + 1) ys acc = Some (acc ++ m)) as ->; [|done|done].
    clear Hs. revert ys El. induction IH as [|[k x] m Hx IH' IHm]; intros ys; simpl in *.
    + intros [= <-] acc _. simpl. by rewrite app_nil_r.
    + inversion Hok; subst.
      destruct (generic_to_cbor (d + 1) x) as [y|] eqn:Ey; [|done].
      destruct (gc_map (d + 1) m) as [ys'|]; [|done]. intros [= <-] acc Hs. simpl.
      rewrite (Hx _ _ ltac:(done) Ey).
      assert (btree_insert k x acc = acc ++ [(k, x)]) as Hins.
      { apply btree_insert_last. apply Forall_forall. intros z Hz.
        eapply elem_of_StronglySorted_app; [exact Hs|done|by left]. }
      rewrite Hins, (IHm ltac:(done) ys' eq_refl).
      * by rewrite <- app_assoc.
      * rewrite fmap_app. simpl. by rewrite <- app_assoc.
Qed.

(** CBOR values that are already in the form the ledger writes. *)
Fixpoint cbor_canon (c : cvalue) : Prop :=
  match c with
  | CInteger z => (0 <= z < 2 ^ 64)%Z
  | CBytes _ => True
  | CText _ => True
  | CArray l =>
      (fix go (l : list cvalue) := match l with [] => True | x :: l' => cbor_canon x /\ go l' end) l
  | CMap m =>
      (exists ks, m.*1 = CText <$> ks /\ StronglySorted str_lt ks)
      /\ (fix go (m : list (cvalue * cvalue)) :=
            match m with [] => True | x :: m' => cbor_canon x.2 /\ go m' end) m
  | CTag t x => t = TAG_BIGNUM /\ exists n, x = CBytes (nat_be n)
  | _ => False
  end.
Lemma cbor_canon_array l : cbor_canon (CArray l) <-> Forall cbor_canon l.
Proof.
  simpl. induction l as [|x l IH]; [split; [constructor|done]|].
  rewrite Forall_cons, <- IH. done.
Qed.
Lemma cbor_canon_map m :
  cbor_canon (CMap m) <->
  (exists ks, m.*1 = CText <$> ks /\ StronglySorted str_lt ks) /\ Forall (fun kv => cbor_canon kv.2) m.
Proof.
  simpl. apply and_iff_compat_l. induction m as [|x m IH]; [split; [constructor|done]|].
  rewrite Forall_cons, <- IH. done.
Qed.

Lemma cbor_generic_cbor c d v :
  cbor_canon c -> cbor_to_generic d c = Some v -> generic_to_cbor d v = Some c.
Proof.
  revert d v. induction c as [z|b| |s|b| |t x IH|l IH|m IH] using cvalue_nested_ind;
    intros d v Hok; try done.
  - simpl in *. destruct (VALUE_DEPTH_LIMIT <=? d) eqn:Ed; [done|].
    destruct (Z.ltb_spec z 0); [done|]. intros [= <-]. simpl. rewrite Ed.
    destruct (_ && _)%Z eqn:E; [done|]. lia.
  - simpl in *. destruct (VALUE_DEPTH_LIMIT <=? d) eqn:Ed; [done|].
    intros [= <-]. simpl. by rewrite Ed.
  - simpl in *. destruct (VALUE_DEPTH_LIMIT <=? d) eqn:Ed; [done|].
    intros [= <-]. simpl. by rewrite Ed.
  - destruct Hok as (-> & n & ->). simpl. destruct (VALUE_DEPTH_LIMIT <=? d) eqn:Ed; [done|].
    simpl. intros [= <-]. simpl. rewrite Ed. by rewrite from_nat_be.
  - rewrite cbor_to_generic_array. destruct (64 <=? d) eqn:Ed; [done|].
    destruct (cg_list (d + 1) l) as [ys|] eqn:El; [|done]. intros [= <-].
    rewrite generic_to_cbor_array, Ed.
    assert (gc_list (d + 1) ys = Some l) as ->; [|done].
    apply cbor_canon_array in Hok. clear Ed. revert ys El.
    induction IH as [|x l Hx IH' IHl]; intros ys; simpl; [by intros [= <-]|].
    inversion Hok; subst.
    destruct (cbor_to_generic (d + 1) x) as [y|] eqn:Ey; [|done].
    destruct (cg_list (d + 1) l) as [ys'|]; [|done]. intros [= <-]. simpl.
    rewrite (Hx _ _ ltac:(done) Ey), (IHl ltac:(done) ys' eq_refl). done.
  - rewrite cbor_to_generic_map. destruct (64 <=? d) eqn:Ed; [done|].
    destruct (cg_map (d + 1) m []) as [ys|] eqn:El; [|done]. intros [= <-].
    rewrite generic_to_cbor_map, Ed.
    apply cbor_canon_map in Hok as [(ks & Hks & Hs) Hok]. clear Ed.
    assert (exists ys', ys = [] ++ ys' /\ gc_map (d + 1) ys' = Some m) as (ys' & -> & Hgc); [|simpl; by rewrite Hgc].
    assert (StronglySorted str_lt (([] : list (string * value)).*1 ++ ks)) as Hs' by done. clear Hs.
    revert ks Hks El Hs'. generalize ([] : list (string * value)) as acc.
    induction IH as [|[k x] m Hx IH' IHm]; intros acc ks; simpl in *.
    + intros _ [= <-] _. exists []. by rewrite app_nil_r.
    + inversion Hok; subst. destruct ks as [|k' ks]; [done|]. simpl. intros [= -> Hks].
      destruct (cbor_to_generic (d + 1) x) as [y|] eqn:Ey; [|done]. intros Hc Hs.
      assert (btree_insert k' y acc = acc ++ [(k', y)]) as Hins.
      { apply btree_insert_last. apply Forall_forall. intros z Hz.
        eapply elem_of_StronglySorted_app; [exact Hs|done|by left]. }
      rewrite Hins in Hc.
      destruct (IHm ltac:(done) (acc ++ [(k', y)]) ks) as (ys' & -> & Hy'); [done|done| |].
      { rewrite fmap_app. simpl. by rewrite <- app_assoc. }
      exists ((k', y) :: ys'). rewrite <- app_assoc. split; [done|]. simpl.
      by rewrite (Hx _ _ ltac:(done) Ey), Hy'.
Qed.

(** Values the conversion supports, and their nesting depth. *)
Fixpoint cbor_supported (c : cvalue) : Prop :=
  match c with
  | CInteger z => (0 <= z)%Z
  | CBytes _ => True
  | CText _ => True
  | CArray l =>
      (fix go (l : list cvalue) := match l with [] => True | x :: l' => cbor_supported x /\ go l' end) l
  | CMap m =>
      (fix go (m : list (cvalue * cvalue)) :=
         match m with
         | [] => True
         | x :: m' => (exists k, x.1 = CText k) /\ cbor_supported x.2 /\ go m'
         end) m
  | CTag t x =>
      (t = TAG_SELF_DESCRIBED /\ cbor_supported x) \/ (t = TAG_BIGNUM /\ exists b, x = CBytes b)
  | _ => False
  end.
Fixpoint cbor_depth (c : cvalue) : N :=
  match c with
  | CArray l =>
      1 + (fix go (l : list cvalue) := match l with [] => 0 | x :: l' => N.max (cbor_depth x) (go l') end) l
  | CMap m =>
      1 + (fix go (m : list (cvalue * cvalue)) :=
             match m with [] => 0 | x :: m' => N.max (cbor_depth x.2) (go m') end) m
  | CTag t x => if t =? TAG_SELF_DESCRIBED then 1 + cbor_depth x else 1
  | _ => 1
  end.

Lemma cbor_to_generic_supported c d :
  (exists v, cbor_to_generic d c = Some v) <-> cbor_supported c /\ d + cbor_depth c <= 64.
Proof.
  revert d. induction c as [z|b| |s|b| |t x IH|l IH|m IH] using cvalue_nested_ind; intros d.
  - simpl. unfold VALUE_DEPTH_LIMIT. destruct (N.leb_spec 64 d).
    { split; [intros [? [=]]|lia]. }
    destruct (Z.ltb_spec z 0); split; try (intros [? [=]]); try lia. intros _. by eexists.
  - simpl. unfold VALUE_DEPTH_LIMIT. destruct (N.leb_spec 64 d).
    { split; [intros [? [=]]|lia]. } split; [lia|by eexists].
  - simpl. unfold VALUE_DEPTH_LIMIT. destruct (N.leb_spec 64 d); split; try (intros [? [=]]); naive_solver.
  - simpl. unfold VALUE_DEPTH_LIMIT. destruct (N.leb_spec 64 d).
    { split; [intros [? [=]]|lia]. } split; [lia|by eexists].
  - simpl. unfold VALUE_DEPTH_LIMIT. destruct (N.leb_spec 64 d); split; try (intros [? [=]]); naive_solver.
  - simpl. unfold VALUE_DEPTH_LIMIT. destruct (N.leb_spec 64 d); split; try (intros [? [=]]); naive_solver.
  - simpl. unfold VALUE_DEPTH_LIMIT. destruct (N.leb_spec 64 d) as [Hd|Hd].
    { split; [intros [? [=]]|]. destruct (t =? TAG_SELF_DESCRIBED); lia. }
    destruct (N.eqb_spec t TAG_SELF_DESCRIBED) as [->|Hne].
    + rewrite IH. split.
      * intros [? ?]. split; [by left|lia].
      * intros [[[_ ?]|[? _]] ?]; [split; [done|lia]|done].
    + destruct (N.eqb_spec t TAG_BIGNUM) as [->|Hne2].
      * destruct x; (split; [intros [? Hx]; try discriminate Hx|intros [[[? _]|[_ [? Hx]]] ?]]);
          try discriminate; try done; [|by eexists].
        split; [right; by split; [|eexists]|lia].
      * split; [intros [? [=]]|]. intros [[[? _]|[? _]] _]; done.
  - rewrite cbor_to_generic_array. destruct (N.leb_spec 64 d) as [Hd|Hd].
    { split; [intros [? [=]]|]. simpl. lia. }
    assert ((exists ys, cg_list (d + 1) l = Some ys) <->
            Forall (fun x => cbor_supported x /\ d + 1 + cbor_depth x <= 64) l) as Hl.
    { clear -IH. induction IH as [|x l Hx IH' IHl]; simpl; [split; [constructor|by eexists]|].
      rewrite Forall_cons, <- IHl, <- Hx. split.
      - intros [ys Hys]. destruct (cbor_to_generic _ x); [|done]. destruct (cg_list _ l); [|done].
        split; by eexists.
      - intros [[y ->] [ys ->]]. by eexists. }
    trans (exists ys, cg_list (d + 1) l = Some ys).
    { destruct (cg_list (d + 1) l); split; intros [? [=]]; by eexists. }
    rewrite Hl. simpl. clear -Hd. induction l as [|x l IH].
    + split; [intros _; split; [done|lia]|constructor].
    + rewrite Forall_cons, IH. split; intros; split_and!; try tauto; lia.
  - rewrite cbor_to_generic_map. destruct (N.leb_spec 64 d) as [Hd|Hd].
    { split; [intros [? [=]]|]. simpl. lia. }
    assert (forall acc, (exists ys, cg_map (d + 1) m acc = Some ys) <->
       Forall (fun x => (exists k, x.1 = CText k) /\ cbor_supported x.2 /\ d + 1 + cbor_depth x.2 <= 64) m) as Hl.
    { clear -IH. induction IH as [|[k x] m Hx IH' IHm]; intros acc; simpl; [split; [constructor|by eexists]|].
      rewrite Forall_cons. simpl in *. split.
      - intros [ys Hys]. destruct k; try done. destruct (cbor_to_generic _ x) as [y|] eqn:Ey; [|done].
        split; [split; [by eexists|]; apply Hx; by eexists|]. eapply IHm. by eexists.
      - intros [[[ks ->] [y Hy]%Hx] Hf]. rewrite Hy. by apply IHm. }
    trans (exists ys, cg_map (d + 1) m [] = Some ys).
    { destruct (cg_map (d + 1) m []); split; intros [? [=]]; by eexists. }
    rewrite Hl. simpl. clear -Hd. induction m as [|x m IH].
    + split; [intros _; split; [done|lia]|constructor].
    + rewrite Forall_cons, IH. split; intros; split_and!; try tauto; lia.
Qed.

(** The converted value has sorted maps. *)
Lemma cbor_to_generic_ok c d v : cbor_to_generic d c = Some v -> value_ok v.
Proof.
  revert d v. induction c as [z|b| |s|b| |t x IH|l IH|m IH] using cvalue_nested_ind; intros d v.
  - simpl. destruct (_ <=? _); [done|]. destruct (_ <? _)%Z; [done|]. by intros [= <-].
  - simpl. destruct (_ <=? _); [done|]. by intros [= <-].
  - simpl. destruct (_ <=? _); done.
  - simpl. destruct (_ <=? _); [done|]. by intros [= <-].
  - simpl. destruct (_ <=? _); done.
  - simpl. destruct (_ <=? _); done.
  - simpl. destruct (_ <=? _); [done|]. destruct (t =? _); [apply IH|]. destruct (t =? _); [|done].
    destruct x; try done. by intros [= <-].
  - rewrite cbor_to_generic_array. destruct (64 <=? d); [done|].
    destruct (cg_list (d + 1) l) as [ys|] eqn:El; [|done]. intros [= <-]. apply value_ok_array.
    revert ys El. induction IH as [|x l Hx IH' IHl]; intros ys; simpl; [intros [= <-]; constructor|].
    destruct (cbor_to_generic (d + 1) x) eqn:Ex; [|done]. destruct (cg_list (d + 1) l); [|done].
    intros [= <-]. constructor; [by eapply Hx|by apply IHl].
  - rewrite cbor_to_generic_map. destruct (64 <=? d); [done|].
    destruct (cg_map (d + 1) m []) as [ys|] eqn:El; [|done]. intros [= <-]. apply value_ok_map.
    assert (forall acc, sorted_map acc /\ Forall (fun kv => value_ok kv.2) acc ->
       cg_map (d + 1) m acc = Some ys -> sorted_map ys /\ Forall (fun kv => value_ok kv.2) ys) as Hg.
    { clear El. induction IH as [|[k x] m Hx IH' IHm]; intros acc Hacc; simpl; [by intros [= <-]|].
      destruct k; try done. destruct (cbor_to_generic (d + 1) x) eqn:Ex; [|done].
      intros Hc. eapply IHm; [|exact Hc]. destruct Hacc as [Hs Hf].
      split; [by apply btree_insert_sorted|]. apply Hx in Ex.
      clear -Hf Ex. induction Hf as [|[k' v'] acc Hv' Hf IH]; simpl; [by repeat constructor|].
      destruct (String.compare s k'); repeat constructor; done. }
    eapply Hg; [|exact El]. split; constructor.
Qed.

(** ** Integers *)
Lemma skip_to_16_short l : (length l <= 16)%nat -> skip_to_16 l = l.
Proof.
  destruct l as [|b l]; [done|]. intros Hl. cbn [skip_to_16].
  destruct (Nat.ltb_spec 16 (length (b :: l))); [lia|done].
Qed.
Lemma strip_zeros_head l : match strip_zeros l with [] => True | b :: _ => b <> Byte.x00 end.
Proof.
  induction l as [|b l IH]; [done|].
  change (strip_zeros (b :: l))
    with (if bool_decide (b = Byte.x00) then strip_zeros l else b :: l).
  by case_bool_decide.
Qed.
Lemma strip_zeros_bound l k :
  from_be l < 256 ^ N.of_nat k -> (length (strip_zeros l) <= k)%nat.
Proof.
  rewrite <- from_be_strip. pose proof (strip_zeros_head l) as Hh.
  destruct (strip_zeros l) as [|b l']; [simpl; lia|]. rewrite from_be_cons. intros Hlt. simpl.
  destruct (le_lt_dec (S (length l')) k) as [|Hgt]; [done|exfalso].
  assert (256 ^ N.of_nat k <= 256 ^ N.of_nat (length l')) by (apply N.pow_le_mono_r; lia).
  assert (Byte.to_N b <> 0).
  { intros Hb. apply Hh. apply (f_equal Byte.of_N) in Hb. rewrite Byte.of_to_N in Hb.
    simpl in Hb. congruence. }
  nia.
Qed.
Lemma nat_be_length n : is_u128 n -> (length (nat_be n) <= 16)%nat.
Proof.
  intros Hn. unfold nat_be. destruct (N.eqb_spec n 0) as [->|Hz]; [simpl; lia|].
  apply strip_zeros_bound.
  assert (from_be (be_fixed (N.size_nat n) n) = n) as ->.
  { pose proof (from_nat_be n) as Hb. unfold nat_be in Hb.
    destruct (N.eqb_spec n 0); [done|]. by rewrite from_be_strip in Hb. }
  unfold is_u128, U128_MOD in Hn. exact Hn.
Qed.

Lemma cbor_to_u128_bignum b :
  cbor_to_u128 (CTag TAG_BIGNUM (CBytes b)) =
  if (length (skip_to_16 b) <=? 16)%nat then Some (from_be (skip_to_16 b)) else None.
Proof. reflexivity. Qed.
Lemma cbor_to_u128_uint n : is_u128 n -> cbor_to_u128 (uint_to_cbor n) = Some n.
Proof.
  intros Hn. unfold uint_to_cbor. destruct (n <? U64_MOD) eqn:E.
  - unfold cbor_to_u128. destruct (Z.ltb_spec (Z.of_N n) 0); [lia|]. by rewrite N2Z.id.
  - rewrite cbor_to_u128_bignum.
    pose proof (strip_zeros_length (be_fixed 16 n)) as Hl. rewrite be_fixed_length in Hl.
    rewrite skip_to_16_short by done.
    rewrite (proj2 (Nat.leb_le _ _) Hl). rewrite from_be_strip, from_be_fixed; [done|exact Hn].
Qed.
Lemma cbor_to_u128_nat n :
  is_u128 n -> cbor_to_u128 (CTag TAG_BIGNUM (CBytes (nat_be n))) = Some n.
Proof.
  intros Hn. rewrite cbor_to_u128_bignum.
  pose proof (nat_be_length n Hn) as Hl. rewrite skip_to_16_short by done.
  rewrite (proj2 (Nat.leb_le _ _) Hl). by rewrite from_nat_be.
Qed.
Lemma u64_u128 n : is_u64 n -> is_u128 n.
Proof. unfold is_u64, is_u128, U64_MOD, U128_MOD. lia. Qed.
Lemma cbor_to_u64_uint n : is_u64 n -> cbor_to_u64 (uint_to_cbor n) = Some n.
Proof.
  intros Hn. unfold cbor_to_u64. rewrite cbor_to_u128_uint by by apply u64_u128.
  unfold nat_to_u64. destruct (N.ltb_spec n U64_MOD); [done|]. unfold is_u64 in Hn. lia.
Qed.
Lemma cbor_to_u64_nat n : is_u64 n -> cbor_to_u64 (CTag TAG_BIGNUM (CBytes (nat_be n))) = Some n.
Proof.
  intros Hn. unfold cbor_to_u64. rewrite cbor_to_u128_nat by by apply u64_u128.
  unfold nat_to_u64. destruct (N.ltb_spec n U64_MOD); [done|]. unfold is_u64 in Hn. lia.
Qed.

(** ** Accounts *)
Lemma account_round_trip a : wf_account a -> cbor_to_account (account_to_cbor a) = Some a.
Proof.
  destruct a as [o [s|]]; intros [Ho Hs]; unfold wf_principal in Ho; cbn [owner subacct] in *.
  - change (cbor_to_account (account_to_cbor (Acct o (Some s)))) with
      (if (length o <=? 29)%nat then
        if (length (be_fixed 32 s) =? 32)%nat then Some (Acct o (Some (from_be (be_fixed 32 s)))) else None
       else None).
    rewrite (proj2 (Nat.leb_le _ _) Ho), be_fixed_length, from_be_fixed; [done|exact Hs].
  - change (cbor_to_account (account_to_cbor (Acct o None))) with
      (if (length o <=? 29)%nat then Some (Acct o None) else None).
    by rewrite (proj2 (Nat.leb_le _ _) Ho).
Qed.
Lemma generic_to_cbor_account d a :
  d < 63 -> generic_to_cbor d (account_to_value a) = Some (account_to_cbor a).
Proof.
  intros Hd. destruct a as [o [s|]]; simpl; unfold VALUE_DEPTH_LIMIT.
  - destruct (N.leb_spec 64 d); [lia|]. destruct (N.leb_spec 64 (d + 1)); [lia|]. done.
  - destruct (N.leb_spec 64 d); [lia|]. destruct (N.leb_spec 64 (d + 1)); [lia|]. done.
Qed.

(** ** Transactions and blocks through CBOR values *)
Definition wf_block (b : block) : Prop :=
  wf_op (tx_op (b_tx b)) /\ wf_u64_opt (tx_created_at (b_tx b)) /\ is_u64 (b_timestamp b)
  /\ match b_phash b with Some h => length h = 32%nat | None => True end
  /\ wf_u128_opt (b_effective_fee b).

Lemma field_values_app k l1 l2 :
  field_values k (l1 ++ l2) = field_values k l1 ++ field_values k l2.
Proof.
  induction l1 as [|[c v] l1 IH]; simpl; [done|]. destruct c; try done.
  case_bool_decide; simpl; by rewrite IH.
Qed.
Lemma field_values_opt k k' ov :
  field_values k (opt_field k' ov) = if bool_decide (k = k') then option_list ov else [].
Proof. destruct ov; simpl; by case_bool_decide. Qed.
Lemma field_values_one k k' v :
  field_values k [(CText k', v)] = if bool_decide (k = k') then [v] else [].
Proof. simpl. by case_bool_decide. Qed.

Definition opt_dec {A} (d : cvalue -> option A) (o : option cvalue) : option (option A) :=
  match o with
  | None => Some None
  | Some v => match d v with Some x => Some (Some x) | None => None end
  end.
Lemma opt_get_values {A} k (d : cvalue -> option A) m o :
  field_values k m = option_list o -> o <> Some CNull -> opt_get k d m = opt_dec d o.
Proof.
  unfold opt_get. intros ->. by destruct o as [[]|].
Qed.
Lemma req_field_values {A} k (d : cvalue -> option A) m v :
  field_values k m = [v] -> req_field k d m = d v.
Proof. unfold req_field. by intros ->. Qed.

Lemma uint_not_null n : uint_to_cbor n <> CNull.
Proof. unfold uint_to_cbor. by destruct (_ <? _). Qed.
Lemma fmap_not_null {A} (f : A -> cvalue) o : (forall x, f x <> CNull) -> f <$> o <> Some CNull.
Proof. intros Hf. destruct o; simpl; [|done]. intros [= He]. by eapply Hf. Qed.
Lemma opt_dec_fmap {A} (d : cvalue -> option A) (f : A -> cvalue) o :
  (forall x, o = Some x -> d (f x) = Some x) -> opt_dec d (f <$> o) = Some o.
Proof. intros Hd. destruct o as [x|]; simpl; [|done]. by rewrite (Hd x). Qed.

Ltac fvals :=
  repeat rewrite ?field_values_app, ?field_values_opt, ?field_values_one;
  repeat (rewrite bool_decide_eq_true_2 by done || rewrite bool_decide_eq_false_2 by done);
  simpl; rewrite ?app_nil_r; reflexivity.

Definition wf_flat (f : flat_tx) : Prop :=
  wf_u64_opt (ft_created_at f) /\ wf_acct_opt (ft_from f) /\ wf_acct_opt (ft_to f)
  /\ wf_acct_opt (ft_spender f) /\ is_u128 (ft_amount f) /\ wf_u128_opt (ft_fee f)
  /\ wf_u128_opt (ft_expected_allowance f) /\ wf_u64_opt (ft_expires_at f).

(** A map from which the ten fields of a flattened transaction can be read. *)
Definition flat_fields (g : N -> cvalue) (f : flat_tx) (m : list (cvalue * cvalue)) : Prop :=
  field_values "ts" m = option_list (g <$> ft_created_at f)
  /\ field_values "memo" m = option_list (CBytes <$> ft_memo f)
  /\ field_values "op" m = [CText (ft_op f)]
  /\ field_values "from" m = option_list (account_to_cbor <$> ft_from f)
  /\ field_values "to" m = option_list (account_to_cbor <$> ft_to f)
  /\ field_values "spender" m = option_list (account_to_cbor <$> ft_spender f)
  /\ field_values "amt" m = [g (ft_amount f)]
  /\ field_values "fee" m = option_list (g <$> ft_fee f)
  /\ field_values "expected_allowance" m = option_list (g <$> ft_expected_allowance f)
  /\ field_values "expires_at" m = option_list (g <$> ft_expires_at f).

Definition int_codec (g : N -> cvalue) : Prop :=
  (forall n, is_u128 n -> cbor_to_u128 (g n) = Some n)
  /\ (forall n, is_u64 n -> cbor_to_u64 (g n) = Some n) /\ forall n, g n <> CNull.

Lemma flat_fields_read g f m :
  int_codec g -> wf_flat f -> flat_fields g f m -> flat_of_cbor (CMap m) = Some f.
Proof.
  intros (Hg128 & Hg64 & Hgn) (W1 & W2 & W3 & W4 & W5 & W6 & W7 & W8)
    (F1 & F2 & F3 & F4 & F5 & F6 & F7 & F8 & F9 & F10).
  assert (Hacc : forall a, account_to_cbor a <> CNull) by done.
  unfold flat_of_cbor.
  rewrite (opt_get_values "ts" _ m _ F1) by by apply fmap_not_null.
  rewrite opt_dec_fmap by (intros x E; rewrite E in W1; by apply Hg64).
  rewrite (opt_get_values "memo" _ m _ F2) by by apply fmap_not_null.
  rewrite opt_dec_fmap by done.
  rewrite (req_field_values "op" _ m _ F3). simpl cbor_to_text. cbn match.
  rewrite (opt_get_values "from" _ m _ F4) by by apply fmap_not_null.
  rewrite opt_dec_fmap by (intros x E; rewrite E in W2; by apply account_round_trip).
  rewrite (opt_get_values "to" _ m _ F5) by by apply fmap_not_null.
  rewrite opt_dec_fmap by (intros x E; rewrite E in W3; by apply account_round_trip).
  rewrite (opt_get_values "spender" _ m _ F6) by by apply fmap_not_null.
  rewrite opt_dec_fmap by (intros x E; rewrite E in W4; by apply account_round_trip).
  rewrite (req_field_values "amt" _ m _ F7), Hg128 by done.
  rewrite (opt_get_values "fee" _ m _ F8) by by apply fmap_not_null.
  rewrite opt_dec_fmap by (intros x E; rewrite E in W6; by apply Hg128).
  rewrite (opt_get_values "expected_allowance" _ m _ F9) by by apply fmap_not_null.
  rewrite opt_dec_fmap by (intros x E; rewrite E in W7; by apply Hg128).
  rewrite (opt_get_values "expires_at" _ m _ F10) by by apply fmap_not_null.
  rewrite opt_dec_fmap by (intros x E; rewrite E in W8; by apply Hg64).
  by destruct f.
Qed.

Lemma flat_to_cbor_fields f m : flat_to_cbor f = CMap m -> flat_fields uint_to_cbor f m.
Proof.
  unfold flat_to_cbor. intros E.
  assert (forall x y, CMap x = CMap y -> x = y) as Hinj by (by intros ? ? [=]).
  apply Hinj in E. subst m. unfold flat_fields. split_and!; fvals.
Qed.

Lemma tx_flat_round_trip t : tx_of_flat (flat_of_tx t) = Some t.
Proof. by destruct t as [[] ? ?]. Qed.
Lemma wf_flat_of_tx t : wf_op (tx_op t) -> wf_u64_opt (tx_created_at t) -> wf_flat (flat_of_tx t).
Proof.
  destruct t as [[] c m]; simpl; intros Hop Hc; unfold wf_flat; simpl; tauto.
Qed.
Lemma int_codec_uint : int_codec uint_to_cbor.
Proof.
  split; [apply cbor_to_u128_uint|]. split; [apply cbor_to_u64_uint|apply uint_not_null].
Qed.
Lemma int_codec_nat : int_codec (fun n => CTag TAG_BIGNUM (CBytes (nat_be n))).
Proof. split; [apply cbor_to_u128_nat|]. split; [apply cbor_to_u64_nat|done]. Qed.

Lemma tx_round_trip t :
  wf_op (tx_op t) -> wf_u64_opt (tx_created_at t) -> tx_of_cbor (tx_to_cbor t) = Some t.
Proof.
  intros Hop Hc. unfold tx_of_cbor, tx_to_cbor.
  destruct (flat_to_cbor (flat_of_tx t)) eqn:E; try (by discriminate).
  rewrite (flat_fields_read uint_to_cbor (flat_of_tx t)).
  - apply tx_flat_round_trip.
  - apply int_codec_uint.
  - by apply wf_flat_of_tx.
  - by apply flat_to_cbor_fields.
Qed.

Definition block_fields (g : N -> cvalue) (ctx : cvalue) (b : block) (m : list (cvalue * cvalue)) : Prop :=
  field_values "tx" m = [ctx]
  /\ field_values "ts" m = [g (b_timestamp b)]
  /\ field_values "phash" m = option_list (CBytes <$> b_phash b)
  /\ field_values "fee" m = option_list (g <$> b_effective_fee b).
Lemma block_fields_read g ctx b m :
  int_codec g -> wf_block b -> tx_of_cbor ctx = Some (b_tx b) -> block_fields g ctx b m ->
  block_of_cbor (CMap m) = Some b.
Proof.
  intros (Hg128 & Hg64 & Hgn) (_ & _ & W1 & W2 & W3) Htx (F1 & F2 & F3 & F4). unfold block_of_cbor.
  rewrite (req_field_values "tx" _ m _ F1), Htx.
  rewrite (req_field_values "ts" _ m _ F2), Hg64 by done.
  rewrite (opt_get_values "phash" _ m _ F3) by by apply fmap_not_null.
  rewrite opt_dec_fmap by (intros x E; rewrite E in W2; simpl; by rewrite W2).
  rewrite (opt_get_values "fee" _ m _ F4) by by apply fmap_not_null.
  rewrite opt_dec_fmap by (intros x E; rewrite E in W3; by apply Hg128).
  by destruct b.
Qed.
Lemma block_round_trip b : wf_block b -> block_of_cbor (block_to_cbor b) = Some b.
Proof.
  intros Hb. eapply (block_fields_read uint_to_cbor (tx_to_cbor (b_tx b)) b); [|done| |].
  - apply int_codec_uint.
  - destruct Hb as (? & ? & _). by apply tx_round_trip.
  - unfold block_fields. split_and!; fvals.
Qed.

(** ** Blocks through generic values *)
Lemma assoc_not_in k (m : list (string * value)) : k ∉ m.*1 -> assoc k m = None.
Proof.
  induction m as [|[k' v] m IH]; simpl; [done|]. rewrite not_elem_of_cons. intros [Hk Hm].
  destruct (String.eqb_spec k k'); [done|]. by apply IH.
Qed.
(** Reading a field of the CBOR map made from a sorted generic map. *)
Lemma gc_map_field d m ys k :
  sorted_map m -> gc_map d m = Some ys ->
  field_values k ys = match assoc k m with
                      | Some v => option_list (generic_to_cbor d v)
                      | None => []
                      end.
Proof.
  unfold sorted_map. revert ys. induction m as [|[k' v] m IH]; intros ys Hs; simpl in *.
  { by intros [= <-]. }
  inversion Hs as [|? ? Hs' Hf]; subst.
  destruct (generic_to_cbor d v) as [c|] eqn:Ec; [|done].
  destruct (gc_map d m) as [ys'|]; [|done]. intros [= <-]. simpl.
  rewrite (IH ys') by done. case_bool_decide as Hk; subst.
  - rewrite String.eqb_refl, Ec. simpl. rewrite assoc_not_in; [done|].
    intros Hin. rewrite Forall_forall in Hf. by apply (str_lt_irrefl k'), Hf.
  - destruct (String.eqb_spec k k'); done.
Qed.
Definition gc_ok (d : N) (v : value) : Prop := exists c, generic_to_cbor d v = Some c.
Lemma gc_map_some d m :
  Forall (fun kv => gc_ok d kv.2) m -> exists ys, gc_map d m = Some ys.
Proof.
  induction 1 as [|[k v] m [c Hc] Hf [ys Hys]]; simpl in *; [by eexists|].
  rewrite Hc, Hys. by eexists.
Qed.
Lemma btree_insert_Forall (P : value -> Prop) k v m :
  P v -> Forall (fun kv => P kv.2) m -> Forall (fun kv => P kv.2) (btree_insert k v m).
Proof.
  intros Hv. induction 1 as [|[k' v'] m Hv' Hf IH]; simpl; [by repeat constructor|].
  destruct (String.compare k k'); repeat constructor; done.
Qed.
Lemma opt_insert_Forall (P : value -> Prop) k ov m :
  (forall v, ov = Some v -> P v) -> Forall (fun kv => P kv.2) m ->
  Forall (fun kv => P kv.2) (opt_insert k ov m).
Proof. intros Hv Hf. destruct ov; [|done]. apply btree_insert_Forall; auto. Qed.
Lemma opt_insert_sorted k ov m : sorted_map m -> sorted_map (opt_insert k ov m).
Proof. intros. destruct ov; [by apply btree_insert_sorted|done]. Qed.
Lemma assoc_opt k ov m : assoc k m = None -> assoc k (opt_insert k ov m) = ov.
Proof. intros. destruct ov; [apply assoc_insert|done]. Qed.

Lemma gc_nat d n :
  d < 64 -> generic_to_cbor d (VNat n) = Some (CTag TAG_BIGNUM (CBytes (nat_be n))).
Proof. intros. simpl. unfold VALUE_DEPTH_LIMIT. destruct (N.leb_spec 64 d); [lia|done]. Qed.
Lemma gc_blob d b : d < 64 -> generic_to_cbor d (VBlob b) = Some (CBytes b).
Proof. intros. simpl. unfold VALUE_DEPTH_LIMIT. destruct (N.leb_spec 64 d); [lia|done]. Qed.
Lemma gc_text d b : d < 64 -> generic_to_cbor d (VText b) = Some (CText b).
Proof. intros. simpl. unfold VALUE_DEPTH_LIMIT. destruct (N.leb_spec 64 d); [lia|done]. Qed.

Global Arguments generic_to_cbor : simpl never.
Global Arguments cbor_to_generic : simpl never.

Ltac assocs :=
  repeat first [ rewrite assoc_insert
               | rewrite assoc_insert_ne by done
               | rewrite assoc_opt_insert_ne by done
               | rewrite assoc_opt
               | reflexivity ].
Ltac gc_some :=
  repeat first [ apply (btree_insert_Forall (gc_ok _)) | apply (opt_insert_Forall (gc_ok _)) | apply List.Forall_nil
               | (eexists; (apply gc_nat || apply gc_blob || apply gc_text
                            || apply generic_to_cbor_account); lia)
               | (intros ? (? & _ & ->)%fmap_Some) ].
Ltac sorted_tac :=
  repeat first [ apply btree_insert_sorted | apply opt_insert_sorted | constructor ].

Definition tx_value_map (t : transaction) : list (string * value) :=
  match tx_to_value t with VMap m => m | _ => [] end.
Lemma tx_to_value_map t : tx_to_value t = VMap (tx_value_map t).
Proof. done. Qed.
Lemma tx_value_sorted t : sorted_map (tx_value_map t).
Proof. destruct t as [[] c m]; unfold tx_value_map; simpl; sorted_tac. Qed.

Lemma tx_value_fields t d ys :
  d < 63 -> gc_map d (tx_value_map t) = Some ys ->
  flat_fields (fun n => CTag TAG_BIGNUM (CBytes (nat_be n))) (flat_of_tx t) ys.
Proof.
  intros Hd Hys.
  assert (forall k, field_values k ys = match assoc k (tx_value_map t) with
     | Some v => option_list (generic_to_cbor d v) | None => [] end) as Hf.
  { intros k. apply gc_map_field; [apply tx_value_sorted|done]. }
  clear Hys. unfold flat_fields. rewrite !Hf. clear Hf.
  destruct t as [[to a f|from to sp a f|from sp a|from sp a ea ex f] c mm];
    unfold tx_value_map; simpl;
  (split_and!; assocs;
   repeat match goal with |- context [?x <$> ?o] => is_var o; destruct o; simpl end; try reflexivity;
   rewrite ?gc_nat, ?gc_blob, ?gc_text, ?generic_to_cbor_account by lia; reflexivity).
Qed.

Lemma tx_value_round_trip t d :
  d < 62 -> wf_op (tx_op t) -> wf_u64_opt (tx_created_at t) ->
  exists c, generic_to_cbor d (tx_to_value t) = Some c /\ tx_of_cbor c = Some t.
Proof.
  intros Hd Hop Hc. rewrite tx_to_value_map, generic_to_cbor_map.
  destruct (N.leb_spec 64 d); [lia|].
  destruct (gc_map_some (d + 1) (tx_value_map t)) as [ys Hys].
  { destruct t as [[] ? ?]; unfold tx_value_map; simpl; gc_some. }
  rewrite Hys. eexists. split; [done|]. unfold tx_of_cbor.
  rewrite (flat_fields_read _ (flat_of_tx t) ys int_codec_nat).
  - apply tx_flat_round_trip.
  - by apply wf_flat_of_tx.
  - eapply tx_value_fields; [|exact Hys]. lia.
Qed.

Lemma block_value_round_trip b : wf_block b -> block_from_value (block_to_value b) = Some b.
Proof.
  intros Hb. pose proof Hb as (Hop & Hc & Hrest). unfold block_from_value.
  destruct (tx_value_round_trip (b_tx b) 1) as (ctx & Hctx & Htx); [lia|done|done|].
  unfold block_to_value. rewrite generic_to_cbor_map. change (64 <=? 0) with false. cbn match.
  set (m := opt_insert "fee" _ _).
  assert (sorted_map m) as Hs by (unfold m; sorted_tac).
  destruct (gc_map_some 1 m) as [ys Hys].
  { unfold m.
    repeat first [ apply (btree_insert_Forall (gc_ok _)) | apply (opt_insert_Forall (gc_ok _)) | apply List.Forall_nil
                 | (intros ? (? & _ & ->)%fmap_Some)
                 | (eexists; (apply gc_nat || apply gc_blob); lia) ]. by eexists. }
  change (0 + 1) with 1. rewrite Hys.
  eapply block_fields_read; [apply int_codec_nat|done|exact Htx|].
  assert (forall k, field_values k ys = match assoc k m with
     | Some v => option_list (generic_to_cbor 1 v) | None => [] end) as Hf.
  { intros k. by apply gc_map_field. }
  unfold block_fields. rewrite !Hf. unfold m. split_and!; assocs.
  - by rewrite Hctx.
  - by destruct (b_phash b).
  - by destruct (b_effective_fee b).
Qed.

(** ** The transaction hash is taken of a value that determines the transaction *)
Lemma cg_map_field d m acc r k :
  cg_map d m acc = Some r ->
  assoc k r = match last (field_values k m) with
              | Some x => cbor_to_generic d x
              | None => assoc k acc
              end.
Proof.
  revert acc. induction m as [|[c x] m IH]; intros acc; simpl; [by intros [= <-]|].
  destruct c as [| | |s| | | | |]; try done.
  destruct (cbor_to_generic d x) as [y|] eqn:Ey; [|done]. intros Hm.
  rewrite (IH _ Hm). case_bool_decide as Hk; subst.
  - destruct (field_values s m) as [|z l] eqn:Ez.
    + simpl. by rewrite assoc_insert, Ey.
    + change (last (x :: z :: l)) with (last (z :: l)).
      destruct (last (z :: l)) eqn:El; [done|]. by apply last_None in El.
  - destruct (last (field_values k m)); [done|]. by apply assoc_insert_ne.
Qed.

Lemma cg_uint d n :
  d < 64 -> is_u128 n ->
  cbor_to_generic d (uint_to_cbor n) = Some (if n <? U64_MOD then VInt (Z.of_N n) else VNat n).
Proof.
  intros Hd Hn. unfold uint_to_cbor. destruct (n <? U64_MOD); unfold cbor_to_generic, VALUE_DEPTH_LIMIT.
  - destruct (N.leb_spec 64 d); [lia|]. destruct (Z.ltb_spec (Z.of_N n) 0); [lia|done].
  - destruct (N.leb_spec 64 d); [lia|]. cbn match. change (TAG_BIGNUM =? TAG_SELF_DESCRIBED) with false.
    change (TAG_BIGNUM =? TAG_BIGNUM) with true. cbn match.
    rewrite from_be_strip, from_be_fixed; [done|exact Hn].
Qed.
Lemma cg_uint_inj d n1 n2 :
  d < 64 -> is_u128 n1 -> is_u128 n2 ->
  cbor_to_generic d (uint_to_cbor n1) = cbor_to_generic d (uint_to_cbor n2) -> n1 = n2.
Proof.
  intros Hd H1 H2. rewrite !cg_uint by done. intros [= E].
  destruct (n1 <? U64_MOD), (n2 <? U64_MOD); try done; injection E; lia.
Qed.
Lemma cg_bytes d b : d < 64 -> cbor_to_generic d (CBytes b) = Some (VBlob b).
Proof. intros. unfold cbor_to_generic, VALUE_DEPTH_LIMIT. destruct (N.leb_spec 64 d); [lia|done]. Qed.
Lemma cg_text d b : d < 64 -> cbor_to_generic d (CText b) = Some (VText b).
Proof. intros. unfold cbor_to_generic, VALUE_DEPTH_LIMIT. destruct (N.leb_spec 64 d); [lia|done]. Qed.
Lemma cg_account d a : d < 63 -> cbor_to_generic d (account_to_cbor a) = Some (account_to_value a).
Proof.
  intros Hd. unfold account_to_cbor. rewrite cbor_to_generic_array.
  destruct (N.leb_spec 64 d); [lia|]. destruct a as [o [s|]]; simpl; rewrite !cg_bytes by lia; done.
Qed.
Lemma account_to_value_inj a1 a2 :
  wf_account a1 -> wf_account a2 -> account_to_value a1 = account_to_value a2 -> a1 = a2.
Proof.
  intros H1 H2 E.
  assert (account_to_cbor a1 = account_to_cbor a2) as E'.
  { apply (f_equal (generic_to_cbor 0)) in E. rewrite !generic_to_cbor_account in E by lia.
    congruence. }
  apply (f_equal cbor_to_account) in E'. rewrite !account_round_trip in E' by done. by injection E'.
Qed.

Lemma last_option_list {A} (o : option A) : last (option_list o) = o.
Proof. by destruct o. Qed.

Lemma opt_inj {A} (P : A -> Prop) (f : A -> cvalue) d o1 o2 :
  (forall x y, P x -> P y -> cbor_to_generic d (f x) = cbor_to_generic d (f y) -> x = y) ->
  (forall x, P x -> exists v, cbor_to_generic d (f x) = Some v) ->
  (forall x, o1 = Some x -> P x) -> (forall x, o2 = Some x -> P x) ->
  match f <$> o1 with Some x => cbor_to_generic d x | None => None end =
  match f <$> o2 with Some x => cbor_to_generic d x | None => None end -> o1 = o2.
Proof.
  intros Hinj Hsome H1 H2. destruct o1 as [x|], o2 as [y|]; simpl; intros E; [| | |done].
  - f_equal. eapply Hinj; [by apply H1|by apply H2|done].
  - destruct (Hsome x) as [v Hv]; [by apply H1|]. congruence.
  - destruct (Hsome y) as [v Hv]; [by apply H2|]. congruence.
Qed.

Lemma wf_opt_u64 o x : o = Some x -> wf_u64_opt o -> is_u128 x.
Proof. intros ->. apply u64_u128. Qed.
Lemma wf_opt_u128 o x : o = Some x -> wf_u128_opt o -> is_u128 x.
Proof. by intros ->. Qed.
Lemma wf_opt_acct o x : o = Some x -> wf_acct_opt o -> wf_account x.
Proof. by intros ->. Qed.

Lemma flat_value_inj f1 f2 v :
  wf_flat f1 -> wf_flat f2 ->
  cbor_to_generic 0 (flat_to_cbor f1) = Some v -> cbor_to_generic 0 (flat_to_cbor f2) = Some v -> f1 = f2.
Proof.
  intros W1 W2 E1 E2.
  destruct (flat_to_cbor f1) as [| | | | | | | |m1] eqn:M1; try (by discriminate M1).
  destruct (flat_to_cbor f2) as [| | | | | | | |m2] eqn:M2; try (by discriminate M2).
  apply flat_to_cbor_fields in M1, M2.
  rewrite cbor_to_generic_map in E1, E2. change (64 <=? 0) with false in *. cbn match in *.
  change (0 + 1) with 1 in *.
  destruct (cg_map 1 m1 []) as [r1|] eqn:R1; [|done]. destruct (cg_map 1 m2 []) as [r2|] eqn:R2; [|done].
  assert (r1 = r2) as -> by congruence. clear E1 E2 v.
  assert (forall k, match last (field_values k m1) with Some x => cbor_to_generic 1 x | None => None end
                  = match last (field_values k m2) with Some x => cbor_to_generic 1 x | None => None end) as E.
  { intros k. pose proof (cg_map_field 1 m1 [] r2 k R1) as K1.
    pose proof (cg_map_field 1 m2 [] r2 k R2) as K2. simpl in K1, K2. congruence. }
  clear R1 R2.
  destruct M1 as (F1 & F2 & F3 & F4 & F5 & F6 & F7 & F8 & F9 & F10).
  destruct M2 as (G1 & G2 & G3 & G4 & G5 & G6 & G7 & G8 & G9 & G10).
  destruct W1 as (W1 & W2' & W3 & W4 & W5 & W6 & W7 & W8).
  destruct W2 as (V1 & V2 & V3 & V4 & V5 & V6 & V7 & V8).
  pose proof (E "ts") as X1. rewrite F1, G1, !last_option_list in X1.
  pose proof (E "memo") as X2. rewrite F2, G2, !last_option_list in X2.
  pose proof (E "op") as X3. rewrite F3, G3 in X3. cbn [last] in X3. rewrite !cg_text in X3 by lia.
  pose proof (E "from") as X4. rewrite F4, G4, !last_option_list in X4.
  pose proof (E "to") as X5. rewrite F5, G5, !last_option_list in X5.
  pose proof (E "spender") as X6. rewrite F6, G6, !last_option_list in X6.
  pose proof (E "amt") as X7. rewrite F7, G7 in X7. cbn [last] in X7.
  pose proof (E "fee") as X8. rewrite F8, G8, !last_option_list in X8.
  pose proof (E "expected_allowance") as X9. rewrite F9, G9, !last_option_list in X9.
  pose proof (E "expires_at") as X10. rewrite F10, G10, !last_option_list in X10.
  assert (Hi : forall x y, is_u128 x -> is_u128 y ->
     cbor_to_generic 1 (uint_to_cbor x) = cbor_to_generic 1 (uint_to_cbor y) -> x = y)
    by (intros; eapply (cg_uint_inj 1); [lia|..]; done).
  assert (Hs : forall x, is_u128 x -> exists v, cbor_to_generic 1 (uint_to_cbor x) = Some v)
    by (intros; rewrite cg_uint by (lia || done); by eexists).
  assert (Ha : forall x y, wf_account x -> wf_account y ->
     cbor_to_generic 1 (account_to_cbor x) = cbor_to_generic 1 (account_to_cbor y) -> x = y).
  { intros x y Hx Hy. rewrite !cg_account by lia. intros Ex.
    apply account_to_value_inj; [done|done|congruence]. }
  assert (Hb : forall x, wf_account x -> exists v, cbor_to_generic 1 (account_to_cbor x) = Some v)
    by (intros; rewrite cg_account by lia; by eexists).
  apply (opt_inj is_u128) in X1; [|done|done|intros; eapply wf_opt_u64; eassumption|intros; eapply wf_opt_u64; eassumption].
  apply (opt_inj (fun _ => True)) in X2;
    [|intros ? ? _ _; rewrite !cg_bytes by lia; congruence
     |intros; rewrite cg_bytes by lia; by eexists|done|done].
  apply (opt_inj wf_account) in X4; [|done|done|intros; eapply wf_opt_acct; eassumption|intros; eapply wf_opt_acct; eassumption].
  apply (opt_inj wf_account) in X5; [|done|done|intros; eapply wf_opt_acct; eassumption|intros; eapply wf_opt_acct; eassumption].
  apply (opt_inj wf_account) in X6; [|done|done|intros; eapply wf_opt_acct; eassumption|intros; eapply wf_opt_acct; eassumption].
  apply Hi in X7; [|done|done].
  apply (opt_inj is_u128) in X8; [|done|done|intros; eapply wf_opt_u128; eassumption|intros; eapply wf_opt_u128; eassumption].
  apply (opt_inj is_u128) in X9; [|done|done|intros; eapply wf_opt_u128; eassumption|intros; eapply wf_opt_u128; eassumption].
  apply (opt_inj is_u128) in X10; [|done|done|intros; eapply wf_opt_u64; eassumption|intros; eapply wf_opt_u64; eassumption].
  destruct f1, f2; simpl in *. congruence.
Qed.

Lemma tx_hash_value_inj t1 t2 :
  wf_op (tx_op t1) -> wf_u64_opt (tx_created_at t1) ->
  wf_op (tx_op t2) -> wf_u64_opt (tx_created_at t2) ->
  tx_hash_value t1 = tx_hash_value t2 -> t1 = t2.
Proof.
  intros O1 C1 O2 C2 E. unfold tx_hash_value, tx_to_cbor in E.
  destruct (tx_hash_value_some t1) as [v Hv]. unfold tx_hash_value, tx_to_cbor in Hv.
  assert (flat_of_tx t1 = flat_of_tx t2) as Ef.
  { eapply flat_value_inj; [by apply wf_flat_of_tx|by apply wf_flat_of_tx|exact Hv|congruence]. }
  apply (f_equal tx_of_flat) in Ef. rewrite !tx_flat_round_trip in Ef. by injection Ef.
Qed.

(** ** Memos *)
Lemma cbor_head_small major n : n < 24 -> cbor_head major n = [byte_of (major * 32 + n)].
Proof. intros. unfold cbor_head. destruct (N.ltb_spec n 24); [done|lia]. Qed.
Lemma cbor_head_24 major n :
  24 <= n < 256 -> cbor_head major n = byte_of (major * 32 + 24) :: be_fixed 1 n.
Proof.
  intros. unfold cbor_head. destruct (N.ltb_spec n 24); [lia|].
  destruct (N.ltb_spec n (2 ^ 8)); [done|lia].
Qed.
Lemma withdraw_memo_length p :
  wf_principal p ->
  length (encode_withdraw_memo p) =
  if (length p <? 24)%nat then (2 + length p)%nat else (3 + length p)%nat.
Proof.
  unfold wf_principal. intros Hp. unfold encode_withdraw_memo.
  rewrite !app_length, (cbor_head_small 4 1) by lia.
  destruct (Nat.ltb_spec (length p) 24).
  - rewrite cbor_head_small by lia. simpl. lia.
  - rewrite cbor_head_24 by lia. cbn [length]. rewrite be_fixed_length. lia.
Qed.
Lemma withdraw_memo_inj p q :
  wf_principal p -> wf_principal q -> encode_withdraw_memo p = encode_withdraw_memo q -> p = q.
Proof.
  intros Hp Hq E. pose proof (f_equal length E) as El.
  rewrite !withdraw_memo_length in El by done.
  assert (length p = length q) as Hl.
  { destruct (Nat.ltb_spec (length p) 24), (Nat.ltb_spec (length q) 24); lia. }
  unfold encode_withdraw_memo in E. rewrite Hl in E. by apply app_inv_head, app_inv_head in E.
Qed.
Lemma withdraw_memo_first p : head (encode_withdraw_memo p) = Some Byte.x81.
Proof. reflexivity. Qed.

(** ** LEB128 *)
Lemma leb128_read_write_aux k shift n rest :
  shift + 7 * N.of_nat k = 63 -> n < 2 ^ (7 * N.of_nat k + 1) ->
  leb128_read shift (leb128_write (S k) n ++ rest) = Some (n * 2 ^ shift, rest).
Proof.
  revert shift n. induction k as [|k IH]; intros shift n Hs Hn.
  - assert (n < 2) as Hn2 by exact Hn.
    cbn [leb128_write]. destruct (N.ltb_spec n 128); [|lia]. cbn [leb128_read app].
    rewrite to_N_byte_of, N.mod_small by lia.
    destruct (_ && _) eqn:E; [lia|]. destruct (N.ltb_spec n 128); [done|lia].
  - remember (S k) as k' eqn:Ek. cbn [leb128_write].
    destruct (N.ltb_spec n 128).
    + cbn [leb128_read app]. rewrite to_N_byte_of, N.mod_small by lia.
      destruct (_ && _) eqn:E; [lia|]. destruct (N.ltb_spec n 128); [done|lia].
    + cbn [leb128_read app]. rewrite to_N_byte_of.
      pose proof (N.mod_lt n 128 ltac:(lia)) as Hm.
      rewrite (N.mod_small (n mod 128 + 128)) by lia.
      destruct (_ && _) eqn:E; [lia|]. destruct (N.ltb_spec (n mod 128 + 128) 128); [lia|].
      subst k'. rewrite IH.
      * f_equal. f_equal. rewrite N.pow_add_r. change (2 ^ 7) with 128.
        pose proof (N.div_mod n 128 ltac:(lia)) as Hd. 
        replace (n mod 128 + 128 - 128) with (n mod 128) by lia.
        rewrite Hd at 3. nia.
      * lia.
      * apply N.div_lt_upper_bound; [lia|]. change 128 with (2 ^ 7). rewrite <- N.pow_add_r.
        replace (7 + (7 * N.of_nat k + 1)) with (7 * N.of_nat (S k) + 1) by lia. done.
Qed.
Lemma leb128_read_write n rest :
  is_u64 n -> leb128_read 0 (leb128_u64 n ++ rest) = Some (n, rest).
Proof.
  intros Hn. unfold leb128_u64. rewrite leb128_read_write_aux; [|done|exact Hn].
  by rewrite N.pow_0_r, N.mul_1_r.
Qed.
Lemma leb128_write_length f n : (length (leb128_write f n) <= f)%nat.
Proof.
  revert n. induction f as [|f IH]; intros n; simpl; [done|]. destruct (_ <? _); simpl; [lia|].
  specialize (IH (n / 128)). lia.
Qed.
