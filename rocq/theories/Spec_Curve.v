(** The Baby-JubJub twisted Edwards curve and its group, as a specification:
    168700 x^2 + y^2 = 1 + 168696 x^2 y^2. *)
From Coq Require Import List ZArith Bool.
From Verif Require Import Field M_Point.
Import ListNotations.
Local Open Scope F_scope.

Definition on_curve (P : point) : Prop :=
  Fof 168700 * (px P * px P) + py P * py P = F1 + Fof 168696 * (px P * px P) * (py P * py P).

Definition pzero : point := mkpt F0 F1.
Definition pneg (P : point) : point := mkpt (- px P) (py P).
Definition padd (P Q : point) : point :=
  let t := Fof 168696 * (px P * px Q) * (py P * py Q) in
  mkpt ((px P * py Q + py P * px Q) / (F1 + t))
       ((py P * py Q - Fof 168700 * (px P * px Q)) / (F1 - t)).
(** n-fold sum *)
Definition smul (n : N) (P : point) : point := N.iter n (padd P) pzero.
(** little-endian value of a list of bits *)
Fixpoint bits_N (bs : list bool) : N :=
  match bs with [] => 0 | b :: r => N.b2n b + 2 * bits_N r end%N.

(** Montgomery form y^2 = x^3 + 168698 x^2 + x *)
Definition on_mont (M : point) : Prop :=
  py M * py M = px M * px M * px M + Fof 168698 * (px M * px M) + px M.
