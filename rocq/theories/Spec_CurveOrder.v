(** Specification vocabulary for C67, C68: the number of points of a curve and the subgroup generated
    by a point.  Independent of the code's helpers: [on_curve], [padd] and [pzmul] are the curve
    equation, the affine group law and integer multiples of Spec_Curve.v / Spec_Mont.v. *)
From Coq Require Import ZArith List.
From Verif Require Import Field M_Point Spec_Curve Spec_Mont.
Import ListNotations.
Open Scope Z_scope.

(** [n] is the number of points on the curve: some list enumerates each point exactly once and has
    [n] elements. *)
Definition curve_cardinal (n : Z) : Prop :=
  exists l : list point, NoDup l /\ (forall P, In P l <-> on_curve P) /\ Z.of_nat (length l) = n.

(** [P] lies in the cyclic subgroup generated by [G]. *)
Definition in_subgroup (G P : point) : Prop := exists k : Z, P = pzmul k G.
