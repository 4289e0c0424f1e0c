(** * The wire format of calls and answers (Candid)

    The calls and answers of the canister travel as Candid messages.  The types are
    those of [/repo/cycles-ledger/cycles-ledger.did] and of the Rust types of
    [/repo/cycles-ledger/src/endpoints.rs]; the format is that of the Candid
    specification (crate [candid], whose source is not in [/repo]): the letters
    "DIDL", a table of types, the types of the arguments, the arguments.

    Not modelled: references to functions and services as values (the ledger sends
    none, see [get_blocks]), floats, the check of texts for UTF-8, and the order in
    which the crate lays out the table (the reader here takes any order). *)
From Verif Require Import Base Types Codec ValueHash.

(** ** Types *)

(** A type is referred to by a number: below 0 a primitive type, from 0 on a place in
    the table. *)
Definition T_NULL : Z := -1.
Definition T_BOOL : Z := -2.
Definition T_NAT : Z := -3.
Definition T_INT : Z := -4.
Definition T_NAT8 : Z := -5.
Definition T_NAT16 : Z := -6.
Definition T_NAT32 : Z := -7.
Definition T_NAT64 : Z := -8.
Definition T_TEXT : Z := -15.
Definition T_PRINCIPAL : Z := -24.

Inductive tycon :=
| TOpt (r : Z)
| TVec (r : Z)
| TRecord (fs : list (N * Z))
| TVariant (fs : list (N * Z))
| TFunc (args rets : list Z) (ann : list byte).

(** The number of a field name; the fields of a tuple are numbered from 0. *)
Definition label (s : string) : N :=
  if bool_decide (s = "0"%string) then 0
  else if bool_decide (s = "1"%string) then 1
  else fold_left (fun h b => (h * 223 + Byte.to_N b) mod 2 ^ 32) (str_bytes s) 0.

(** ** Values *)
Inductive cand :=
| XNull
| XBool (b : bool)
| XNat (n : N)
| XInt (z : Z)
| XWord (w : nat) (n : N)               (* nat8, nat16, nat32, nat64: [w] bytes *)
| XText (b : list byte)
| XPrincipal (b : list byte)
| XBlob (b : list byte)                 (* vec nat8 *)
| XOpt (o : option cand)
| XVec (l : list cand)
| XRecord (l : list (N * cand))         (* by field number *)
| XVariant (i : nat) (h : N) (v : cand). (* place among the alternatives, number of the name *)

(** [w] bytes, least significant first *)
Fixpoint le_fixed (w : nat) (n : N) : list byte :=
  match w with O => [] | S w' => byte_of n :: le_fixed w' (n / 256) end.
Definition sized (b : list byte) : list byte := leb128_nat (N.of_nat (length b)) ++ b.

Fixpoint enc (v : cand) : list byte :=
  match v with
  | XNull => []
  | XBool b => [if b then Byte.x01 else Byte.x00]
  | XNat n => leb128_nat n
  | XInt z => sleb128_int z
  | XWord w n => le_fixed w n
  | XText b => sized b
  | XPrincipal b => Byte.x01 :: sized b
  | XBlob b => sized b
  | XOpt None => [Byte.x00]
  | XOpt (Some v) => Byte.x01 :: enc v
  | XVec l => leb128_nat (N.of_nat (length l)) ++ concat (map enc l)
  | XRecord l => concat (map (fun f => enc f.2) l)
  | XVariant i _ v => leb128_nat (N.of_nat i) ++ enc v
  end.

(** *** The header *)
Definition enc_field (f : N * Z) : list byte := leb128_nat f.1 ++ sleb128_int f.2.
Definition enc_list {A} (e : A -> list byte) (l : list A) : list byte :=
  leb128_nat (N.of_nat (length l)) ++ concat (map e l).
Definition enc_tycon (t : tycon) : list byte :=
  match t with
  | TOpt r => sleb128_int (-18) ++ sleb128_int r
  | TVec r => sleb128_int (-19) ++ sleb128_int r
  | TRecord fs => sleb128_int (-20) ++ enc_list enc_field fs
  | TVariant fs => sleb128_int (-21) ++ enc_list enc_field fs
  | TFunc a r n => sleb128_int (-22) ++ enc_list sleb128_int a ++ enc_list sleb128_int r ++ sized n
  end.
Definition DIDL : list byte := [Byte.x44; Byte.x49; Byte.x44; Byte.x4c].

(** A message: the table and the arguments with their types *)
Record message := Msg { m_table : list tycon; m_args : list (Z * cand) }.
Definition enc_message (m : message) : list byte :=
  DIDL ++ enc_list enc_tycon (m_table m)
  ++ enc_list sleb128_int (map fst (m_args m))
  ++ concat (map (fun a => enc a.2) (m_args m)).

(** ** Reading *)

Definition reader (A : Type) := list byte -> option (A * list byte).

Fixpoint leb_read (l : list byte) : option (N * list byte) :=
  match l with
  | [] => None
  | b :: l' =>
      let n := Byte.to_N b in
      if n <? 128 then Some (n, l')
      else match leb_read l' with
           | Some (r, rest) => Some (n - 128 + 128 * r, rest)
           | None => None
           end
  end.
Fixpoint sleb_read (l : list byte) : option (Z * list byte) :=
  match l with
  | [] => None
  | b :: l' =>
      let n := Z.of_N (Byte.to_N b) in
      if (n <? 64)%Z then Some (n, l')
      else if (n <? 128)%Z then Some ((n - 128)%Z, l')
      else match sleb_read l' with
           | Some (r, rest) => Some ((n - 128 + 128 * r)%Z, rest)
           | None => None
           end
  end.
Definition take_bytes (n : nat) (l : list byte) : option (list byte * list byte) :=
  if (n <=? length l)%nat then Some (take n l, drop n l) else None.
Fixpoint le_number (l : list byte) : N :=
  match l with [] => 0 | b :: l' => Byte.to_N b + 256 * le_number l' end.
Definition read_sized : reader (list byte) := fun l =>
  match leb_read l with
  | Some (n, l') => take_bytes (N.to_nat n) l'
  | None => None
  end.
Definition read_word (w : nat) : reader cand := fun l =>
  match take_bytes w l with
  | Some (b, l') => Some (XWord w (le_number b), l')
  | None => None
  end.

Fixpoint read_many {A} (f : reader A) (n : nat) (l : list byte) : option (list A * list byte) :=
  match n with
  | O => Some ([], l)
  | S n' =>
      match f l with
      | None => None
      | Some (x, l1) =>
          match read_many f n' l1 with
          | None => None
          | Some (xs, l2) => Some (x :: xs, l2)
          end
      end
  end.
Definition read_list {A} (f : reader A) : reader (list A) := fun l =>
  match leb_read l with
  | Some (n, l') => read_many f (N.to_nat n) l'
  | None => None
  end.
Fixpoint read_fields (f : Z -> reader cand) (fs : list (N * Z)) (l : list byte)
  : option (list (N * cand) * list byte) :=
  match fs with
  | [] => Some ([], l)
  | (h, r) :: fs' =>
      match f r l with
      | None => None
      | Some (x, l1) =>
          match read_fields f fs' l1 with
          | None => None
          | Some (xs, l2) => Some ((h, x) :: xs, l2)
          end
      end
  end.

Definition mapr {A B} (g : A -> B) (x : option (A * list byte)) : option (B * list byte) :=
  match x with Some (a, l) => Some (g a, l) | None => None end.

(** A primitive value *)
Definition read_prim (r : Z) : reader cand := fun l =>
  if (r =? T_NULL)%Z then Some (XNull, l)
  else if (r =? T_BOOL)%Z then
    match l with
    | Byte.x00 :: l' => Some (XBool false, l')
    | Byte.x01 :: l' => Some (XBool true, l')
    | _ => None
    end
  else if (r =? T_NAT)%Z then mapr XNat (leb_read l)
  else if (r =? T_INT)%Z then mapr XInt (sleb_read l)
  else if (r =? T_NAT8)%Z then read_word 1 l
  else if (r =? T_NAT16)%Z then read_word 2 l
  else if (r =? T_NAT32)%Z then read_word 4 l
  else if (r =? T_NAT64)%Z then read_word 8 l
  else if (r =? T_TEXT)%Z then mapr XText (read_sized l)
  else if (r =? T_PRINCIPAL)%Z then
    match l with
    | Byte.x01 :: l' => mapr XPrincipal (read_sized l')
    | _ => None
    end
  else None.

Definition type_at (tbl : list tycon) (r : Z) : option tycon :=
  if (r <? 0)%Z then None else tbl !! Z.to_nat r.

(** A value of type [r], nested at most [d] deep *)
Fixpoint dec (d : nat) (tbl : list tycon) (r : Z) (l : list byte) {struct d}
  : option (cand * list byte) :=
  match d with
  | O => None
  | S d' =>
      if (r <? 0)%Z then read_prim r l else
      match type_at tbl r with
      | Some (TOpt r') =>
          match l with
          | Byte.x00 :: l' => Some (XOpt None, l')
          | Byte.x01 :: l' => mapr (fun v => XOpt (Some v)) (dec d' tbl r' l')
          | _ => None
          end
      | Some (TVec r') =>
          if (r' =? T_NAT8)%Z then mapr XBlob (read_sized l)
          else mapr XVec (read_list (dec d' tbl r') l)
      | Some (TRecord fs) => mapr XRecord (read_fields (dec d' tbl) fs l)
      | Some (TVariant fs) =>
          match leb_read l with
          | None => None
          | Some (i, l') =>
              match fs !! N.to_nat i with
              | Some (h, r') => mapr (XVariant (N.to_nat i) h) (dec d' tbl r' l')
              | None => None
              end
          end
      | _ => None
      end
  end.

Definition read_field : reader (N * Z) := fun l =>
  match leb_read l with
  | Some (h, l1) => mapr (pair h) (sleb_read l1)
  | None => None
  end.
Definition read_tycon : reader tycon := fun l =>
  match sleb_read l with
  | None => None
  | Some (op, l1) =>
      if (op =? -18)%Z then mapr TOpt (sleb_read l1)
      else if (op =? -19)%Z then mapr TVec (sleb_read l1)
      else if (op =? -20)%Z then mapr TRecord (read_list read_field l1)
      else if (op =? -21)%Z then mapr TVariant (read_list read_field l1)
      else if (op =? -22)%Z then
        match read_list sleb_read l1 with
        | None => None
        | Some (a, l2) =>
            match read_list sleb_read l2 with
            | None => None
            | Some (r, l3) => mapr (TFunc a r) (read_sized l3)
            end
        end
      else None
  end.
Fixpoint read_args (d : nat) (tbl : list tycon) (rs : list Z) (l : list byte)
  : option (list (Z * cand) * list byte) :=
  match rs with
  | [] => Some ([], l)
  | r :: rs' =>
      match dec d tbl r l with
      | None => None
      | Some (x, l1) =>
          match read_args d tbl rs' l1 with
          | None => None
          | Some (xs, l2) => Some ((r, x) :: xs, l2)
          end
      end
  end.
(** How deep a reader goes *)
Definition MAX_DEPTH : nat := 64.
(** A whole message; nothing may be left over *)
Definition read_message (l : list byte) : option message :=
  if bool_decide (take 4 l = DIDL) then
    match read_list read_tycon (drop 4 l) with
    | None => None
    | Some (tbl, l1) =>
        match read_list sleb_read l1 with
        | None => None
        | Some (rs, l2) =>
            match read_args MAX_DEPTH tbl rs l2 with
            | Some (args, []) => Some (Msg tbl args)
            | _ => None
            end
        end
    end
  else None.

(** ** Which values a type has *)
Definition word_type (w : nat) : option Z :=
  match w with
  | 1%nat => Some T_NAT8 | 2%nat => Some T_NAT16 | 4%nat => Some T_NAT32 | 8%nat => Some T_NAT64
  | _ => None
  end.
Fixpoint typed (tbl : list tycon) (r : Z) (v : cand) {struct v} : Prop :=
  match v with
  | XNull => r = T_NULL
  | XBool _ => r = T_BOOL
  | XNat _ => r = T_NAT
  | XInt _ => r = T_INT
  | XWord w n => word_type w = Some r /\ n < 256 ^ N.of_nat w
  | XText _ => r = T_TEXT
  | XPrincipal _ => r = T_PRINCIPAL
  | XBlob _ => type_at tbl r = Some (TVec T_NAT8)
  | XOpt o =>
      match type_at tbl r with
      | Some (TOpt r') => match o with Some v => typed tbl r' v | None => True end
      | _ => False
      end
  | XVec l =>
      match type_at tbl r with
      | Some (TVec r') =>
          r' <> T_NAT8
          /\ (fix go (l : list cand) : Prop :=
                match l with [] => True | x :: l' => typed tbl r' x /\ go l' end) l
      | _ => False
      end
  | XRecord l =>
      match type_at tbl r with
      | Some (TRecord fs) =>
          (fix go (l : list (N * cand)) (fs : list (N * Z)) : Prop :=
             match l, fs with
             | [], [] => True
             | (h, x) :: l', (h', r') :: fs' => h = h' /\ typed tbl r' x /\ go l' fs'
             | _, _ => False
             end) l fs
      | _ => False
      end
  | XVariant i h v =>
      match type_at tbl r with
      | Some (TVariant fs) =>
          match fs !! i with Some (h', r') => h = h' /\ typed tbl r' v | None => False end
      | _ => False
      end
  end.

(** How deep a value is nested *)
Fixpoint depth (v : cand) : nat :=
  match v with
  | XOpt (Some v) | XVariant _ _ v => S (depth v)
  | XVec l => S (fold_right Nat.max O (map depth l))
  | XRecord l => S (fold_right Nat.max O (map (fun f => depth f.2) l))
  | _ => 1
  end.

(** ** Readable types: named fields in any order, compiled to a table *)
Inductive ty :=
| DPrim (r : Z)
| DOpt (t : ty)
| DVec (t : ty)
| DRec (fs : list (string * ty))
| DVar (fs : list (string * ty))
| DFun (args rets : list ty) (ann : list byte)
| DDef (k : nat).                     (* the k-th named type *)
Definition DBlob : ty := DVec (DPrim T_NAT8).

(** Fields are laid out by their numbers *)
Fixpoint insert_by {A} (h : N) (x : A) (l : list (N * A)) : list (N * A) :=
  match l with
  | [] => [(h, x)]
  | (h', y) :: l' => if h <? h' then (h, x) :: l else (h', y) :: insert_by h x l'
  end.
Definition by_label {A} (l : list (string * A)) : list (N * A) :=
  fold_right (fun f acc => insert_by (label f.1) f.2 acc) [] l.

(** The table a type needs: constructors come after the types they refer to. *)
Fixpoint ref_of (t : ty) (tbl : list tycon) {struct t} : Z * list tycon :=
  let fields := fix go (fs : list (string * ty)) (tbl : list tycon) : list (string * Z) * list tycon :=
    match fs with
    | [] => ([], tbl)
    | (n, t) :: fs' =>
        let '(r, tbl1) := ref_of t tbl in
        let '(rs, tbl2) := go fs' tbl1 in ((n, r) :: rs, tbl2)
    end in
  let refs := fix go (ts : list ty) (tbl : list tycon) : list Z * list tycon :=
    match ts with
    | [] => ([], tbl)
    | t :: ts' =>
        let '(r, tbl1) := ref_of t tbl in
        let '(rs, tbl2) := go ts' tbl1 in (r :: rs, tbl2)
    end in
  let add (c : tycon) (tbl : list tycon) := (Z.of_nat (length tbl), tbl ++ [c]) in
  match t with
  | DPrim r => (r, tbl)
  | DDef k => (Z.of_nat k, tbl)
  | DOpt t => let '(r, tbl1) := ref_of t tbl in add (TOpt r) tbl1
  | DVec t => let '(r, tbl1) := ref_of t tbl in add (TVec r) tbl1
  | DRec fs => let '(rs, tbl1) := fields fs tbl in add (TRecord (by_label rs)) tbl1
  | DVar fs => let '(rs, tbl1) := fields fs tbl in add (TVariant (by_label rs)) tbl1
  | DFun a r ann =>
      let '(ra, tbl1) := refs a tbl in
      let '(rr, tbl2) := refs r tbl1 in add (TFunc ra rr ann) tbl2
  end.
(** Named types [defs] take the first places of the table. *)
Definition place_def (tbl : list tycon) (k : nat) (t : ty) : list tycon :=
  let tbl1 := (ref_of t tbl).2 in
  match last tbl1 with
  | Some c => <[k := c]> (removelast tbl1)
  | None => tbl1
  end.
Definition table_of (defs : list ty) (t : ty) : Z * list tycon :=
  ref_of t
    (fold_left (fun tbl kt => place_def tbl kt.1 kt.2)
       (zip (seq 0 (length defs)) defs) (repeat (TVec T_NAT8) (length defs))).

(** ** Values by name *)
Definition rec_of (fs : list (string * cand)) : cand := XRecord (by_label fs).
Fixpoint place_of (h : N) (l : list (N * unit)) : nat :=
  match l with
  | [] => O
  | (h', _) :: l' => if h =? h' then O else S (place_of h l')
  end.
(** The alternative [name] of the variant type with the alternatives [alts] *)
Definition alt_of (alts : list string) (name : string) (v : cand) : cand :=
  XVariant (place_of (label name) (by_label (map (fun n => (n, tt)) alts))) (label name) v.
Definition alts_of (t : ty) : list string :=
  match t with DVar fs => map fst fs | _ => [] end.
