(** Vocabulary for secret sharing. *)
From Coq Require Import List ZArith Bool Arith.
From Verif Require Import Primes Field.
Import ListNotations.
Local Open Scope F_scope.

(** the value at [x] of the polynomial with coefficients [a], constant term first *)
Definition poly_at (a : list F) (x : F) : F :=
  fold_right Fadd F0 (map (fun i => nth i a F0 * Fpow x (Z.of_nat i)) (seq 0 (length a))).
(** the shares of the polynomial at the given places *)
Definition shares (a xs : list F) : list (F * F) := map (fun x => (x, poly_at a x)) xs.
