(** Model of /repo/ethsnarks/shamirspoly.py.  FQ with its default modulus is F; the running values that
    start as the integers 0 and 1 are field elements here (the first operation turns them into FQ). *)
From Coq Require Import List ZArith Bool Arith.
From Verif Require Import Primes Field Base.
Import ListNotations.
Local Open Scope nat_scope.
Local Open Scope F_scope.

(** FQ.__div__, /repo/ethsnarks/field.py:151-154: no exception for a zero divisor *)
Definition fq_div (a b : F) : F := a * Fpow b (p_mod - 2).
(** [shamirs_poly], /repo/ethsnarks/shamirspoly.py:7-21 *)
Fixpoint shamirs_loop (x x_pow_i result : F) (a : list F) : F :=
  match a with [] => result | a_i :: r => shamirs_loop x (x_pow_i * x) (result + a_i * x_pow_i) r end.
Definition shamirs_poly (x : F) (a : list F) : outcome F :=
  if 2 <=? length a then match a with a0 :: r => Ok (shamirs_loop x x a0 r) | [] => Throw end else Throw.
(** the points with their indices, for [range(n)] and [enumerate] *)
Definition enum {A} (l : list A) : list (nat * A) := combine (seq 0 (length l)) l.
(** [g] in [lagrange], /repo/ethsnarks/shamirspoly.py:32-39 *)
Definition lagrange_coef (points : list (F * F)) (x : F) (i : nat) (xi : F) : F :=
  fold_left (fun tot '(j, (xj, _)) => if i =? j then tot else tot * fq_div (x - xj) (xi - xj)) (enum points) F1.
(** [lagrange], 24-42 *)
Definition lagrange (points : list (F * F)) (x : F) : F :=
  fold_left (fun total '(i, (xi, yi)) => total + yi * lagrange_coef points x i xi) (enum points) F0.
(** [inverse_lagrange], 45-52 *)
Definition inverse_lagrange (points : list (F * F)) (y : F) : F :=
  fold_left (fun x '(i, (x_i, y_i)) =>
    x + fold_left (fun x_i '(j, (_, y_j)) => if j =? i then x_i else fq_div (x_i * (y - y_j)) (y_i - y_j)) (enum points) x_i)
    (enum points) F0.
