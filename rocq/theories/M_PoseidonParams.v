(** Model of the derivation of the Poseidon parameters, /repo/src/gadgets/poseidon.hpp:66-131. *)
From Coq Require Import List ZArith Bool Arith.
From Verif Require Import Primes Field Base R1CS M_Bits M_Point M_Utils M_Blake2b M_Poseidon.
Import ListNotations.
Local Open Scope nat_scope.

(** FieldT::size_in_bits() rounded up, in bytes (lines 70-71) *)
Definition output_size : nat := (254 + (8 - 254 mod 8)) / 8.
(** one call [blake2b(output, output_size, NULL, 0, in, inlen)].  Its return value is ignored: on
    rejection [output] would keep its contents.  [c] is whatever the stack holds where blake2b puts its
    context.  Lines 80-81 pass the same array as input and output; blake2b reads the input before it
    writes the output. *)
Definition hash_into (c : bctx) (output inp : list Z) : outcome (list Z) :=
  o <- blake2b c output_size [] inp ;; Ok (match o with Some out => out | None => output end).
(** the loop of lines 78-82 *)
Fixpoint constants_loop (c : bctx) (k : nat) (output : list Z) : outcome (list F) :=
  match k with
  | O => Ok []
  | S k' =>
      output <- hash_into c output output ;;
      x <- bytes_to_FieldT_littleendian output ;;
      r <- constants_loop c k' output ;;
      Ok (x :: r)
  end.
(** poseidon_constants_fill, /repo/src/gadgets/poseidon.hpp:66-84, and poseidon_constants, 87-92.  The
    trip count [n_constants - 1] is computed in [unsigned]. *)
Definition poseidon_constants (c : bctx) (seed : list Z) (n_constants : Z) : outcome (list F) :=
  output <- hash_into c (repeat 0%Z output_size) seed ;;
  x <- bytes_to_FieldT_littleendian output ;;
  r <- constants_loop c (Z.to_nat ((n_constants - 1) mod 2 ^ 32)) output ;;
  Ok (x :: r).
(** poseidon_matrix_fill, /repo/src/gadgets/poseidon.hpp:95-108, and poseidon_matrix, 111-116 *)
Definition poseidon_matrix (c : bctx) (seed : list Z) (t : nat) : outcome (list F) :=
  cs <- poseidon_constants c seed ((Z.of_nat t * 2) mod 2 ^ 32) ;;
  rows <- omapM (fun i => omapM (fun j => a <- idx cs i ;; b <- idx cs (t + j) ;; inverse (Fsub a b)) (seq 0 t)) (seq 0 t) ;;
  Ok (concat rows).
(** the ASCII strings "poseidon_constants" and "poseidon_matrix_0000" *)
Definition seed_constants : list Z := [112;111;115;101;105;100;111;110;95;99;111;110;115;116;97;110;116;115]%Z.
Definition seed_matrix : list Z := [112;111;115;101;105;100;111;110;95;109;97;116;114;105;120;95;48;48;48;48]%Z.
(** poseidon_params, /repo/src/gadgets/poseidon.hpp:119-131 *)
Definition poseidon_params (c : bctx) (t Fr P : nat) : outcome (list F * list F) :=
  C <- poseidon_constants c seed_constants ((Z.of_nat Fr + Z.of_nat P) mod 2 ^ 32) ;;
  M <- poseidon_matrix c seed_matrix t ;;
  Ok (C, M).
