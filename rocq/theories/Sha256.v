(** * SHA-256 (FIPS 180-4)

    The crates hash with SHA-256 (crate [sha2]).  The theorems about hashes hold
    for any function with 32-byte results; this file supplies the real one, so
    that hashes of concrete values can be computed and compared with published
    ones. *)
From Verif Require Import Base Types Codec CodecFacts ValueHash HashProofs.

Local Open Scope N_scope.

(** 32-bit words *)
Definition low32 (x : N) : N := N.land x 4294967295.
Definition add32 (a b : N) : N := low32 (a + b).
Definition rotr (k x : N) : N := N.lor (N.shiftr x k) (low32 (N.shiftl x (32 - k))).
Definition not32 (x : N) : N := 4294967295 - x.

(** FIPS 180-4, section 4.1.2 *)
Definition ch (x y z : N) : N := N.lxor (N.land x y) (N.land (not32 x) z).
Definition maj (x y z : N) : N := N.lxor (N.lxor (N.land x y) (N.land x z)) (N.land y z).
Definition big0 (x : N) : N := N.lxor (N.lxor (rotr 2 x) (rotr 13 x)) (rotr 22 x).
Definition big1 (x : N) : N := N.lxor (N.lxor (rotr 6 x) (rotr 11 x)) (rotr 25 x).
Definition small0 (x : N) : N := N.lxor (N.lxor (rotr 7 x) (rotr 18 x)) (N.shiftr x 3).
Definition small1 (x : N) : N := N.lxor (N.lxor (rotr 17 x) (rotr 19 x)) (N.shiftr x 10).

(** section 4.2.2 and 5.3.3 *)
Definition K256 : list N :=
  [1116352408; 1899447441; 3049323471; 3921009573; 961987163; 1508970993;
   2453635748; 2870763221; 3624381080; 310598401; 607225278; 1426881987;
   1925078388; 2162078206; 2614888103; 3248222580; 3835390401; 4022224774;
   264347078; 604807628; 770255983; 1249150122; 1555081692; 1996064986;
   2554220882; 2821834349; 2952996808; 3210313671; 3336571891; 3584528711;
   113926993; 338241895; 666307205; 773529912; 1294757372; 1396182291;
   1695183700; 1986661051; 2177026350; 2456956037; 2730485921; 2820302411;
   3259730800; 3345764771; 3516065817; 3600352804; 4094571909; 275423344;
   430227734; 506948616; 659060556; 883997877; 958139571; 1322822218;
   1537002063; 1747873779; 1955562222; 2024104815; 2227730452; 2361852424;
   2428436474; 2756734187; 3204031479; 3329325298].
Definition H256 : list N :=
  [1779033703; 3144134277; 1013904242; 2773480762; 1359893119; 2600822924;
   528734635; 1541459225].

(** section 5.1.1: a one bit, zeros, and the length in bits *)
Definition pad (m : list byte) : list byte :=
  m ++ Byte.x80 :: repeat Byte.x00 ((119 - length m mod 64) mod 64)
    ++ be_fixed 8 (8 * N.of_nat (length m)).

(** 32-bit big-endian words *)
Fixpoint words (l : list byte) : list N :=
  match l with
  | a :: b :: c :: d :: l' => from_be [a; b; c; d] :: words l'
  | _ => []
  end.

(** section 6.2.2 step 1, newest word first *)
Definition next_word (w : list N) : N :=
  add32 (add32 (small1 (nth 1 w 0)) (nth 6 w 0)) (add32 (small0 (nth 14 w 0)) (nth 15 w 0)).
Definition schedule (block : list N) : list N :=
  rev (Nat.iter 48 (fun w => next_word w :: w) (rev block)).

(** steps 2 and 3 *)
Definition sha_round (s : list N) (kw : N * N) : list N :=
  match s with
  | [a; b; c; d; e; f; g; h] =>
      let t1 := add32 (add32 h (big1 e)) (add32 (ch e f g) (add32 kw.1 kw.2)) in
      let t2 := add32 (big0 a) (maj a b c) in
      [add32 t1 t2; a; b; c; add32 d t1; e; f; g]
  | _ => s
  end.
(** step 4 *)
Definition sha_block (h : list N) (block : list N) : list N :=
  zip_with add32 h (fold_left sha_round (combine K256 (schedule block)) h).

Fixpoint sha_blocks (fuel : nat) (h : list N) (ws : list N) : list N :=
  match fuel, ws with
  | S f, _ :: _ => sha_blocks f (sha_block h (firstn 16 ws)) (skipn 16 ws)
  | _, _ => h
  end.

Definition sha256 (m : list byte) : hash :=
  let ws := words (pad m) in
  concat (map (be_fixed 4) (sha_blocks (length ws) H256 ws)).

Definition real_sha : Sha := {| sha := sha256; int_code := sleb128_int |}.

(** ** The result has 32 bytes *)
Lemma sha_round_length s kw : length s = 8%nat -> length (sha_round s kw) = 8%nat.
Proof.
  intros Hs. do 8 (destruct s as [|? s]; [done|]). by destruct s.
Qed.
Lemma sha_block_length h b : length h = 8%nat -> length (sha_block h b) = 8%nat.
Proof.
  intros Hh. unfold sha_block. rewrite zip_with_length, Hh.
  assert (forall l s, length s = 8%nat -> length (fold_left sha_round l s) = 8%nat) as Hf.
  { induction l as [|x l IH]; intros s Hs; simpl; [done|]. by apply IH, sha_round_length. }
  by rewrite Hf.
Qed.
Lemma sha_blocks_length f h ws : length h = 8%nat -> length (sha_blocks f h ws) = 8%nat.
Proof.
  revert h ws. induction f as [|f IH]; intros h ws Hh; [done|]. destruct ws as [|w ws]; [done|].
  cbn [sha_blocks]. by apply IH, sha_block_length.
Qed.
Lemma sha256_length m : length (sha256 m) = 32%nat.
Proof.
  unfold sha256. pose proof (sha_blocks_length (length (words (pad m))) H256 (words (pad m)) eq_refl) as Hl.
  revert Hl. generalize (sha_blocks (length (words (pad m))) H256 (words (pad m))). intros l Hl.
  do 8 (destruct l as [|? l]; [done|]). by destruct l.
Qed.
Lemma real_sha_ok : @sha_ok real_sha.
Proof. split; [apply sha256_length|apply uleb_int]. Qed.
