(** Keccak-256 as used by Ethereum: the sponge over Keccak-f[1600] with rate 1088 and the original
    padding 0x01 ... 0x80 (FIPS 202 differs in the padding byte only).  A lane is a [Z] below 2^64, the
    state is the list of lanes A[x, y] at position x + 5 y; bytes are [Z] below 256. *)
From Coq Require Import List ZArith.
Import ListNotations.
Local Open Scope Z_scope.

Definition k_mask : Z := 2 ^ 64 - 1.
Definition k_rot (n x : Z) : Z := Z.lor (Z.land (Z.shiftl x n) k_mask) (Z.shiftr x (64 - n)).

Definition k_rc : list Z :=
  [0x0000000000000001; 0x0000000000008082; 0x800000000000808A; 0x8000000080008000;
   0x000000000000808B; 0x0000000080000001; 0x8000000080008081; 0x8000000000008009;
   0x000000000000008A; 0x0000000000000088; 0x0000000080008009; 0x000000008000000A;
   0x000000008000808B; 0x800000000000008B; 0x8000000000008089; 0x8000000000008003;
   0x8000000000008002; 0x8000000000000080; 0x000000000000800A; 0x800000008000000A;
   0x8000000080008081; 0x8000000000008080; 0x0000000080000001; 0x8000000080008008].
(** rotation offsets of the lanes, and the lane that the step pi moves to each position *)
Definition k_rho : list Z :=
  [0; 1; 62; 28; 27; 36; 44; 6; 55; 20; 3; 10; 43; 25; 39; 41; 45; 15; 21; 8; 18; 2; 61; 56; 14].
Definition k_pi : list nat :=
  [0; 6; 12; 18; 24; 3; 9; 10; 16; 22; 1; 7; 13; 19; 20; 4; 5; 11; 17; 23; 2; 8; 14; 15; 21]%nat.

Definition lane (a : list Z) (i : nat) : Z := nth i a 0.
Definition k_theta (a : list Z) : list Z :=
  let c := map (fun x => Z.lxor (lane a x) (Z.lxor (lane a (x + 5)) (Z.lxor (lane a (x + 10)) (Z.lxor (lane a (x + 15)) (lane a (x + 20)))))) (seq 0 5) in
  let d := map (fun x => Z.lxor (lane c ((x + 4) mod 5)) (k_rot 1 (lane c ((x + 1) mod 5)))) (seq 0 5) in
  map (fun i => Z.lxor (lane a i) (lane d (i mod 5))) (seq 0 25).
Definition k_rho_pi (a : list Z) : list Z := map (fun j => k_rot (lane k_rho j) (lane a j)) k_pi.
Definition k_chi (a : list Z) : list Z :=
  map (fun i => let y := (5 * (i / 5))%nat in let x := (i mod 5)%nat in
                Z.lxor (lane a i) (Z.land (Z.lxor (lane a (y + (x + 1) mod 5)) k_mask) (lane a (y + (x + 2) mod 5)))) (seq 0 25).
Definition k_iota (rc : Z) (a : list Z) : list Z :=
  match a with [] => [] | x :: r => Z.lxor x rc :: r end.
Definition k_round (a : list Z) (rc : Z) : list Z := k_iota rc (k_chi (k_rho_pi (k_theta a))).
Definition keccak_f (a : list Z) : list Z := fold_left k_round k_rc a.

(** bytes and lanes, little-endian *)
Fixpoint le_value (l : list Z) : Z := match l with [] => 0 | b :: r => b + 256 * le_value r end.
Fixpoint le_bytes_of (n : nat) (x : Z) : list Z := match n with O => [] | S n' => x mod 256 :: le_bytes_of n' (x / 256) end.
Fixpoint k_lanes (n : nat) (l : list Z) : list Z :=
  match n with O => [] | S n' => le_value (firstn 8 l) :: k_lanes n' (skipn 8 l) end.
Fixpoint xor_into (a b : list Z) : list Z :=
  match a, b with x :: a', y :: b' => Z.lxor x y :: xor_into a' b' | _, _ => a end.

Definition k_pad (l : list Z) : list Z :=
  let r := (136 - length l mod 136)%nat in
  l ++ match r with
       | 1%nat => [129]
       | _ => 1 :: repeat 0 (r - 2) ++ [128]
       end.
Fixpoint k_absorb (n : nat) (a : list Z) (l : list Z) : list Z :=
  match n with O => a | S n' => k_absorb n' (keccak_f (xor_into a (k_lanes 17 (firstn 136 l)))) (skipn 136 l) end.
Definition keccak256 (l : list Z) : list Z :=
  let p := k_pad l in
  flat_map (le_bytes_of 8) (firstn 4 (k_absorb (length p / 136) (repeat 0 25) p)).
