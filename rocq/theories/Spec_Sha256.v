(** SHA-256 and SHA-224 as in FIPS 180-4, on bit strings. *)
From Coq Require Import List ZArith Bool Arith.
From Verif Require Import Spec_Utils Spec_Padding.
Import ListNotations.
Local Open Scope Z_scope.

(** ** constants (4.2.2, 5.3.2, 5.3.3): fractional parts of roots of primes *)
Definition primes64 : list Z := [2;3;5;7;11;13;17;19;23;29;31;37;41;43;47;53;59;61;67;71;73;79;83;89;97;
  101;103;107;109;113;127;131;137;139;149;151;157;163;167;173;179;181;191;193;197;199;211;223;227;229;
  233;239;241;251;257;263;269;271;277;281;283;293;307;311].
(** the integer part of the cube root of [n], below 2^bits *)
Fixpoint cbrt_aux (bits : nat) (acc n : Z) : Z :=
  match bits with
  | O => acc
  | S b => let a := acc + 2 ^ Z.of_nat b in cbrt_aux b (if a * a * a <=? n then a else acc) n
  end.
Definition fips_K : list Z := map (fun p => cbrt_aux 35 0 (p * 2 ^ 96) mod 2 ^ 32) primes64.
Definition fips_H256 : list Z := map (fun p => Z.sqrt (p * 2 ^ 64) mod 2 ^ 32) (firstn 8 primes64).
Definition fips_H224 : list Z := map (fun p => Z.sqrt (p * 2 ^ 128) mod 2 ^ 32) (firstn 8 (skipn 8 primes64)).

(** ** functions on 32-bit words (2.2.2, 3.2, 4.1.2) *)
Definition plus32 (x y : Z) : Z := (x + y) mod 2 ^ 32.
Definition rotr (n x : Z) : Z := x / 2 ^ n + (x mod 2 ^ n) * 2 ^ (32 - n).
Definition shr (n x : Z) : Z := x / 2 ^ n.
Definition bsig0 (x : Z) : Z := Z.lxor (Z.lxor (rotr 2 x) (rotr 13 x)) (rotr 22 x).
Definition bsig1 (x : Z) : Z := Z.lxor (Z.lxor (rotr 6 x) (rotr 11 x)) (rotr 25 x).
Definition ssig0 (x : Z) : Z := Z.lxor (Z.lxor (rotr 7 x) (rotr 18 x)) (shr 3 x).
Definition ssig1 (x : Z) : Z := Z.lxor (Z.lxor (rotr 17 x) (rotr 19 x)) (shr 10 x).
(** bit by bit: y where x is set and z elsewhere *)
Definition fch (x y z : Z) : Z := Z.lxor (Z.land x y) (Z.ldiff z x).
Definition fmaj (x y z : Z) : Z := Z.lxor (Z.lxor (Z.land x y) (Z.land x z)) (Z.land y z).

(** ** compression (6.2.2) *)
Fixpoint schedule (n : nat) (W : list Z) : list Z :=
  match n with
  | O => W
  | S n' =>
      let t := length W in
      let w k := nth (t - k) W 0 in
      schedule n' (W ++ [plus32 (plus32 (plus32 (ssig1 (w 2%nat)) (w 7%nat)) (ssig0 (w 15%nat))) (w 16%nat)])
  end.
Definition fips_step (s : list Z) (kw : Z * Z) : list Z :=
  match s with
  | [a; b; c; d; e; f; g; h] =>
      let T1 := plus32 (plus32 (plus32 (plus32 h (bsig1 e)) (fch e f g)) (fst kw)) (snd kw) in
      let T2 := plus32 (bsig0 a) (fmaj a b c) in
      [plus32 T1 T2; a; b; c; plus32 d T1; e; f; g]
  | _ => s
  end.
Definition fips_compress (H M : list Z) : list Z :=
  map (fun xy => plus32 (fst xy) (snd xy))
    (combine H (fold_left fips_step (combine fips_K (schedule 48 M)) H)).

(** ** padding and iteration (5.1.1, 5.2.1, 6.2.2) *)
Definition block_words (b : list bool) : list Z := map msb_val (words 16 32 b).
Definition word_bits (ws : list Z) : list bool := flat_map (msb_bits 32) ws.
Definition fips_hash (IV : list Z) (m : list bool) : list Z :=
  let padded := m ++ pad_suffix (length m) (Nat.modulo (447 + 511 * length m) 512) in
  fold_left fips_compress (map block_words (words (length padded / 512) 512 padded)) IV.
Definition sha256_bits (m : list bool) : list bool := word_bits (fips_hash fips_H256 m).
Definition sha224_bits (m : list bool) : list bool := firstn 224 (word_bits (fips_hash fips_H224 m)).
(** the bits of a byte string *)
Definition bits_of_bytes (bs : list Z) : list bool := flat_map (msb_bits 8) bs.
(** the bytes [md] are the digest of the bytes [m] *)
Definition is_sha256 (m md : list Z) : Prop := Forall byte md /\ bits_of_bytes md = sha256_bits (bits_of_bytes m).
Definition is_sha224 (m md : list Z) : Prop := Forall byte md /\ bits_of_bytes md = sha224_bits (bits_of_bytes m).
