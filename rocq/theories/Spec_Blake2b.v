(** BLAKE2b as in RFC 7693. *)
From Coq Require Import List ZArith Bool Arith.
From Verif Require Import Spec_Utils Spec_Sha256.
Import ListNotations.
Local Open Scope Z_scope.

(** 2.6: fractional parts of square roots of the first eight primes *)
Definition rfc_IV : list Z := map (fun p => Z.sqrt (p * 2 ^ 128) mod 2 ^ 64) (firstn 8 primes64).
(** 2.7 *)
Definition rfc_SIGMA : list (list nat) := [
  [ 0; 1; 2; 3; 4; 5; 6; 7; 8; 9; 10; 11; 12; 13; 14; 15 ];
  [ 14; 10; 4; 8; 9; 15; 13; 6; 1; 12; 0; 2; 11; 7; 5; 3 ];
  [ 11; 8; 12; 0; 5; 2; 15; 13; 10; 14; 3; 6; 7; 1; 9; 4 ];
  [ 7; 9; 3; 1; 13; 12; 11; 14; 2; 6; 5; 10; 4; 0; 15; 8 ];
  [ 9; 0; 5; 7; 2; 4; 10; 15; 14; 1; 11; 12; 6; 8; 3; 13 ];
  [ 2; 12; 6; 10; 0; 11; 8; 3; 4; 13; 7; 5; 15; 14; 1; 9 ];
  [ 12; 5; 1; 15; 14; 13; 4; 10; 0; 7; 6; 3; 9; 2; 8; 11 ];
  [ 13; 11; 7; 14; 12; 1; 3; 9; 5; 0; 15; 4; 8; 6; 2; 10 ];
  [ 6; 15; 14; 9; 11; 3; 0; 8; 12; 2; 13; 7; 1; 4; 10; 5 ];
  [ 10; 2; 8; 4; 7; 6; 1; 5; 15; 11; 9; 14; 3; 12; 13; 0 ] ]%nat.

Definition plus64 (x y : Z) : Z := (x + y) mod 2 ^ 64.
Definition rotr64 (n x : Z) : Z := x / 2 ^ n + (x mod 2 ^ n) * 2 ^ (64 - n).
(** 3.1: the mixing function on four words *)
Definition rfc_G (q : Z * Z * Z * Z) (x y : Z) : Z * Z * Z * Z :=
  let '(a, b, c, d) := q in
  let a := plus64 (plus64 a b) x in
  let d := rotr64 32 (Z.lxor d a) in
  let c := plus64 c d in
  let b := rotr64 24 (Z.lxor b c) in
  let a := plus64 (plus64 a b) y in
  let d := rotr64 16 (Z.lxor d a) in
  let c := plus64 c d in
  let b := rotr64 63 (Z.lxor b c) in
  (a, b, c, d).
(** one round: columns, then diagonals; [w k] is the message word selected for position [k] *)
Definition rfc_round (w : nat -> Z) (v : list Z) : list Z :=
  match v with
  | [v0; v1; v2; v3; v4; v5; v6; v7; v8; v9; v10; v11; v12; v13; v14; v15] =>
      let '(v0, v4, v8, v12) := rfc_G (v0, v4, v8, v12) (w 0%nat) (w 1%nat) in
      let '(v1, v5, v9, v13) := rfc_G (v1, v5, v9, v13) (w 2%nat) (w 3%nat) in
      let '(v2, v6, v10, v14) := rfc_G (v2, v6, v10, v14) (w 4%nat) (w 5%nat) in
      let '(v3, v7, v11, v15) := rfc_G (v3, v7, v11, v15) (w 6%nat) (w 7%nat) in
      let '(v0, v5, v10, v15) := rfc_G (v0, v5, v10, v15) (w 8%nat) (w 9%nat) in
      let '(v1, v6, v11, v12) := rfc_G (v1, v6, v11, v12) (w 10%nat) (w 11%nat) in
      let '(v2, v7, v8, v13) := rfc_G (v2, v7, v8, v13) (w 12%nat) (w 13%nat) in
      let '(v3, v4, v9, v14) := rfc_G (v3, v4, v9, v14) (w 14%nat) (w 15%nat) in
      [v0; v1; v2; v3; v4; v5; v6; v7; v8; v9; v10; v11; v12; v13; v14; v15]
  | _ => v
  end.
(** the message word at position [k] of round [i], and [n] rounds *)
Definition rfc_word (m : list Z) (i k : nat) : Z := nth (nth k (nth (Nat.modulo i 10) rfc_SIGMA []) 0%nat) m 0.
Definition rfc_rounds (m : list Z) (n : nat) (v : list Z) : list Z := fold_left (fun v i => rfc_round (rfc_word m i) v) (seq 0 n) v.
(** 3.2: the compression function; [m] sixteen words, [t] the number of bytes so far *)
Definition rfc_F (h m : list Z) (t : Z) (f : bool) : list Z :=
  let iv k := nth k rfc_IV 0 in
  let v := h ++ [iv 0%nat; iv 1%nat; iv 2%nat; iv 3%nat; Z.lxor (iv 4%nat) (t mod 2 ^ 64); Z.lxor (iv 5%nat) ((t / 2 ^ 64) mod 2 ^ 64);
                 (if f then 2 ^ 64 - 1 - iv 6%nat else iv 6%nat); iv 7%nat] in
  let v := rfc_rounds m 12 v in
  map (fun k => Z.lxor (Z.lxor (nth k h 0) (nth k v 0)) (nth (k + 8)%nat v 0)) (seq 0 8).
(** little-endian words of a 128-byte block *)
Definition rfc_words (b : list Z) : list Z := map le_val (words 16 8 b).
Definition zeros (n : nat) : list Z := repeat 0 n.
(** 3.3 *)
Fixpoint rfc_blocks (n : nat) (d : list Z) (t : Z) (h : list Z) : list Z :=
  match n with
  | O => rfc_F h (rfc_words (d ++ zeros (128 - length d))) (t + Z.of_nat (length d)) true
  | S n' => rfc_blocks n' (skipn 128 d) (t + 128) (rfc_F h (rfc_words (firstn 128 d)) (t + 128) false)
  end.
Definition le_bytes (k : nat) (w : Z) : list Z := map (fun i => (w / 2 ^ (8 * Z.of_nat i)) mod 256) (seq 0 k).
Definition rfc_blake2b (nn : nat) (key msg : list Z) : list Z :=
  let data := (match key with [] => [] | _ => key ++ zeros (128 - length key) end) ++ msg in
  let h := match rfc_IV with
           | h0 :: r => Z.lxor h0 (0x01010000 + 256 * Z.of_nat (length key) + Z.of_nat nn) :: r
           | [] => []
           end in
  firstn nn (flat_map (le_bytes 8) (rfc_blocks ((length data - 1) / 128) data 0 h)).
