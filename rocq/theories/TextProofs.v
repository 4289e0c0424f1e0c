(** * Reading the textual form of a principal

    A reader that knows the specification only, and the proof that it reads what
    [principal_text] writes. *)
From Coq Require Import Ascii String.
From Verif Require Import Base PrincipalText.

(** ** The reader: drop the dashes, read five bits off each character, take the
    bytes, check the checksum *)
Fixpoint position (c : ascii) (l : list ascii) : option N :=
  match l with
  | [] => None
  | x :: r => if Ascii.eqb c x then Some 0 else (fun n => n + 1) <$> position c r
  end.
Definition five_bits (n : N) : list bool :=
  [N.testbit n 4; N.testbit n 3; N.testbit n 2; N.testbit n 1; N.testbit n 0].
Definition read_char (c : ascii) : option (list bool) :=
  five_bits <$> position c (list_ascii_of_string "abcdefghijklmnopqrstuvwxyz234567").
Definition bit (b : bool) (n : N) : N := if b then n else 0.
Fixpoint read_bytes (l : list bool) : option (list byte) :=
  match l with
  | a :: b :: c :: d :: e :: f :: g :: h :: r =>
      x ← Byte.of_N (bit a 128 + bit b 64 + bit c 32 + bit d 16 + bit e 8 + bit f 4 + bit g 2 + bit h 1);
      xs ← read_bytes r; Some (x :: xs)
  | _ => Some []
  end.
Definition read_principal (t : string) : option (list byte) :=
  bits ← mapM read_char (filter (fun c => c <> "-"%char) (list_ascii_of_string t));
  bytes ← read_bytes (concat bits);
  let p := drop 4 bytes in
  if decide (take 4 bytes = crc32_be p) then Some p else None.

(** ** Correctness *)
Lemma read_digit a b c d e : read_char (digit a b c d e) = Some [a; b; c; d; e].
Proof. by destruct a, b, c, d, e. Qed.
Lemma digit_no_dash a b c d e : digit a b c d e <> "-"%char.
Proof. by destruct a, b, c, d, e. Qed.

(** What is written is the bits and fewer than five zeros. *)
Lemma base32_read l :
  exists z ds, (length z < 5)%nat /\ mapM read_char (base32 l) = Some ds /\ concat ds = l ++ z.
Proof.
  induction l as [l IH] using (induction_ltof1 _ length). unfold ltof in IH.
  destruct l as [|a [|b [|c [|d [|e r]]]]].
  - exists [], []. split; [simpl; lia|done].
  - exists [false; false; false; false], [[a; false; false; false; false]].
    split; [simpl; lia|]. split; [|done]. cbn [base32 mapM]. by rewrite read_digit.
  - exists [false; false; false], [[a; b; false; false; false]].
    split; [simpl; lia|]. split; [|done]. cbn [base32 mapM]. by rewrite read_digit.
  - exists [false; false], [[a; b; c; false; false]].
    split; [simpl; lia|]. split; [|done]. cbn [base32 mapM]. by rewrite read_digit.
  - exists [false], [[a; b; c; d; false]].
    split; [simpl; lia|]. split; [|done]. cbn [base32 mapM]. by rewrite read_digit.
  - destruct (IH r ltac:(simpl; lia)) as (z & ds & Hz & Hm & Hc).
    exists z, ([a; b; c; d; e] :: ds). split; [done|]. split.
    + change (base32 (a :: b :: c :: d :: e :: r)) with (digit a b c d e :: base32 r).
      cbn [mapM]. rewrite read_digit. cbn [mbind option_bind]. by rewrite Hm.
    + cbn [concat app]. by rewrite Hc.
Qed.
Lemma base32_no_dash l : Forall (fun c => c <> "-"%char) (base32 l).
Proof.
  induction l as [l IH] using (induction_ltof1 _ length). unfold ltof in IH.
  destruct l as [|a [|b [|c [|d [|e r]]]]]; cbn [base32]; repeat constructor; try apply digit_no_dash.
  apply IH. simpl. lia.
Qed.
Lemma dashed_filter l :
  Forall (fun c => c <> "-"%char) l -> filter (fun c => c <> "-"%char) (dashed l) = l.
Proof.
  induction l as [l IH] using (induction_ltof1 _ length). unfold ltof in IH. intros Hl.
  assert (forall l', Forall (fun c => c <> "-"%char) l' -> filter (fun c => c <> "-"%char) l' = l') as Hall.
  { induction 1 as [|x l' Hx _ IHl]; [done|]. rewrite filter_cons_True by done. by rewrite IHl. }
  destruct l as [|a [|b [|c [|d [|e [|f r]]]]]]; try (by apply Hall).
  change (dashed (a :: b :: c :: d :: e :: f :: r)) with (a :: b :: c :: d :: e :: "-"%char :: dashed (f :: r)).
  rewrite !Forall_cons in Hl. destruct Hl as (? & ? & ? & ? & ? & Hf).
  do 5 rewrite filter_cons_True by done. rewrite filter_cons_False by auto.
  rewrite IH; [done|simpl; lia|by apply Forall_cons].
Qed.

Lemma read_byte b r :
  read_bytes (byte_bits b ++ r) = (fun xs => b :: xs) <$> read_bytes r.
Proof. destruct b; cbn; by destruct (read_bytes r). Qed.
Lemma read_short z : (length z < 5)%nat -> read_bytes z = Some [].
Proof. destruct z as [|? [|? [|? [|? [|? z]]]]]; simpl; try done. lia. Qed.
Lemma read_all bs z : (length z < 5)%nat -> read_bytes (mbind byte_bits bs ++ z) = Some bs.
Proof.
  intros Hz. induction bs as [|b bs IH]; [by apply read_short|].
  rewrite bind_cons, <- app_assoc, read_byte, IH. done.
Qed.

Lemma string_chars l : list_ascii_of_string (string_of_list_ascii l) = l.
Proof. apply list_ascii_of_string_of_list_ascii. Qed.

Theorem principal_text_readable p : read_principal (principal_text p) = Some p.
Proof.
  unfold read_principal, principal_text. rewrite string_chars, dashed_filter by apply base32_no_dash.
  destruct (base32_read (mbind byte_bits (crc32_be p ++ p))) as (z & ds & Hz & -> & Hc).
  cbn [mbind option_bind]. rewrite Hc, (read_all _ z Hz). cbv zeta.
  assert (drop 4 (crc32_be p ++ p) = p) as Hd by done.
  assert (take 4 (crc32_be p ++ p) = crc32_be p) as Ht by done.
  unfold mbind, option_bind. rewrite Hd, Ht. by rewrite decide_True.
Qed.
