(** Vocabulary for the Python curve library: what the coordinates of the four classes stand for, and
    what a windowed non-adjacent form is. *)
From Coq Require Import List ZArith Bool.
From Verif Require Import Primes Field Base M_Point Spec_Curve Spec_Mont M_PyJubjub.
Import ListNotations.
Local Open Scope Z_scope.
Local Open Scope F_scope.

(** [(X : Y : Z)] stands for the point (X/Z, Y/Z) *)
Definition proj_of (a : ppoint) (P : point) : Prop :=
  ppz a <> F0 /\ ppx a = px P * ppz a /\ ppy a = py P * ppz a.
(** [(X : Y : T : Z)] stands for the point (X/Z, Y/Z), and T/Z is the product of its coordinates *)
Definition etec_of (a : epoint) (P : point) : Prop :=
  epz a <> F0 /\ epx a = px P * epz a /\ epy a = py P * epz a /\ ept a = px P * py P * epz a.
(** the Montgomery coordinates the library uses for a point of the Edwards curve: the neutral element
    is written (0, 1), which is not on the Montgomery curve, and the point (0, -1) of order two is (0, 0) *)
Definition mont_form (P : point) : mpoint :=
  if Feqb (px P) F0 then (if Feqb (py P) F1 then mkmp F0 F1 else mkmp F0 F0)
  else mkmp (px (to_mont P)) (py (to_mont P)).

(** the integer written by a list of digits, most significant digit first *)
Definition digits_val (ds : list Z) : Z := fold_left (fun v d => (2 * v + d)%Z) ds 0%Z.
(** the digits of a non-adjacent form of width [w]: zero, or odd and below 2^(w-1) in absolute value;
    of any [w] consecutive ones at most one is not zero *)
Definition naf_digit (w d : Z) : Prop := (d = 0 \/ (Z.odd d = true /\ Z.abs d < 2 ^ (w - 1)))%Z.
Definition non_adjacent (w : Z) (ds : list Z) : Prop :=
  forall i j, (i < j < length ds)%nat -> (Z.of_nat (j - i) < w)%Z -> nth i ds 0%Z <> 0%Z -> nth j ds 0%Z = 0%Z.

(** the doubles of [P] never reach the neutral element *)
Definition never_neutral (P : point) : Prop := forall i : Z, (0 <= i)%Z -> pzmul (2 ^ i) P <> pzero.

(** what is required of the square root: a root of a square, and an exception for any other element *)
Definition py_sqrt_ok (sqrt : F -> outcome F) : Prop :=
  forall x, (forall r, r * r = x -> exists s, sqrt x = Ok s /\ s * s = x) /\
            ((forall r, r * r <> x) -> sqrt x = Throw).
(** [b] is an encoding of the point [P] that the decoder accepts: 32 bytes, little endian; the low 255
    bits are the ordinate modulo p, the top bit is the parity of the abscissa (or anything if the abscissa is 0) *)
Definition encodes (b : list Z) (P : point) : Prop :=
  length b = 32%nat /\ Fof (py_little b mod 2 ^ 255) = py P /\
  (px P = F0 \/ (py_little b / 2 ^ 255 = fval (px P) mod 2)%Z).

(** The class [c] implements the group of the curve when its objects are read by [R] *)
Definition implements_group {T} (c : curve_class T) (R : T -> point -> Prop) : Prop :=
  R (cc_infinity c) pzero /\
  (forall a b P Q, on_curve P -> on_curve Q -> R a P -> R b Q -> exists r, cc_add c a b = Ok r /\ R r (padd P Q)) /\
  (forall a P, on_curve P -> R a P -> exists r, cc_double c a = Ok r /\ R r (padd P P)) /\
  (forall a P, on_curve P -> R a P -> R (cc_neg c a) (pneg P)) /\
  (forall a b P Q, on_curve P -> on_curve Q -> R a P -> R b Q -> exists r, cc_sub c a b = Ok r /\ R r (padd P (pneg Q))).
(** [f] multiplies by every non-negative integer *)
Definition multiplies {T} (f : T -> Z -> outcome T) (R : T -> point -> Prop) : Prop :=
  forall a P s, (0 <= s)%Z -> on_curve P -> R a P -> exists r, f a s = Ok r /\ R r (pzmul s P).
