(** What the Groth16 properties refer to. *)
From Coq Require Import List ZArith Bool Arith.
From Verif Require Import Field Base R1CS M_Groth.
Import ListNotations.
Local Open Scope F_scope.

(** The mathematics of a bilinear pairing of groups of order p: [S1] and [S2] are the subgroups of order
    p of the two source groups, in which all honestly generated elements lie. *)
Record pairing_laws (E : pairing) (S1 : G1 E -> Prop) (S2 : G2 E -> Prop) : Prop := {
  l1_zero : S1 (g1_zero E);
  l1_add : forall x y, S1 x -> S1 y -> S1 (g1_add E x y);
  l1_mul : forall k x, S1 x -> S1 (g1_mul E k x);
  l1_wf : forall x, S1 x -> g1_wf E x = true;
  l1_add0 : forall x, S1 x -> g1_add E x (g1_zero E) = x;
  l1_sub : forall x y, S1 x -> S1 y -> g1_add E (g1_sub E x y) y = x;
  l1_subin : forall x y, S1 x -> S1 y -> S1 (g1_sub E x y);
  l1_comm : forall x y, S1 x -> S1 y -> g1_add E x y = g1_add E y x;
  l1_assoc : forall x y z, S1 x -> S1 y -> S1 z -> g1_add E x (g1_add E y z) = g1_add E (g1_add E x y) z;
  l1_mul0 : forall x, S1 x -> g1_mul E F0 x = g1_zero E;
  l1_mul1 : forall x, S1 x -> g1_mul E F1 x = x;
  l1_muladd : forall a b x, S1 x -> g1_mul E (a + b) x = g1_add E (g1_mul E a x) (g1_mul E b x);
  l1_mulmul : forall a b x, S1 x -> g1_mul E (a * b) x = g1_mul E a (g1_mul E b x);
  l2_zero : S2 (g2_zero E);
  l2_add : forall x y, S2 x -> S2 y -> S2 (g2_add E x y);
  l2_mul : forall k x, S2 x -> S2 (g2_mul E k x);
  l2_wf : forall x, S2 x -> g2_wf E x = true;
  l2_mul0 : forall x, S2 x -> g2_mul E F0 x = g2_zero E;
  l2_muladd : forall a b x, S2 x -> g2_mul E (a + b) x = g2_add E (g2_mul E a x) (g2_mul E b x);
  l2_mulmul : forall a b x, S2 x -> g2_mul E (a * b) x = g2_mul E a (g2_mul E b x);
  lt_comm : forall x y, gt_mul E x y = gt_mul E y x;
  lt_assoc : forall x y z, gt_mul E x (gt_mul E y z) = gt_mul E (gt_mul E x y) z;
  lt_inv : forall x y, gt_mul E (gt_mul E y x) (gt_inv E x) = y;
  lt_eqb : forall x y, gt_eqb E x y = true <-> x = y;
  lp_add : forall x y z, S1 x -> S1 y -> S2 z -> pair E (g1_add E x y) z = gt_mul E (pair E x z) (pair E y z);
  lp_mul : forall k x z, S1 x -> S2 z -> pair E x (g2_mul E k z) = pair E (g1_mul E k x) z
}.
(** and it is non-degenerate *)
Definition nondegenerate (E : pairing) (S1 : G1 E -> Prop) (S2 : G2 E -> Prop) : Prop :=
  forall x y z, S1 x -> S1 y -> S2 z -> z <> g2_zero E -> pair E x z = pair E y z -> x = y.

(** An evaluation domain for [n] values: at least [n] distinct points, and as many distinct points
    outside them. *)
Definition domain_ok (d : domain) (n : nat) : Prop :=
  (n <= length (dm_points d))%nat /\ NoDup (dm_points d) /\ NoDup (dm_coset d) /\
  length (dm_coset d) = length (dm_points d) /\ (forall x, In x (dm_coset d) -> ~ In x (dm_points d)).

(** A statement and a witness satisfy the system: every constraint A*B=C holds when ONE is 1 and the
    following variables are the primary input, then the auxiliary input. *)
Definition satisfies (cs : csystem) (primary aux : list F) : Prop :=
  length primary = cs_inputs cs /\ length aux = cs_aux cs /\
  Forall (fun c => holds (fun v => nth v (F1 :: primary ++ aux) F0) c) (cs_constraints cs).
(** the constraints only use declared variables *)
Definition declared (cs : csystem) : Prop :=
  Forall (c_all (fun v => (v <= cs_inputs cs + cs_aux cs)%nat)) (cs_constraints cs).

(** the statement's group element: IC_0 + sum x_i * IC_(i+1) *)
Definition statement_point (E : pairing) (ic0 : G1 E) (ics : list (G1 E)) (x : list F) : G1 E :=
  g1_add E ic0 (fold_right (fun '(k, g) acc => g1_add E (g1_mul E k g) acc) (g1_zero E) (combine x ics)).
(** the verification equation e(A,B) = e(alpha,beta) e(IC(x),gamma) e(C,delta) *)
Definition groth_equation (E : pairing) (alpha : G1 E) (beta gamma delta : G2 E) (ic : G1 E) (A : G1 E) (B : G2 E) (C : G1 E) : Prop :=
  pair E A B = gt_mul E (pair E alpha beta) (gt_mul E (pair E ic gamma) (pair E C delta)).

(** a polynomial, given by its coefficients, at a point *)
Definition poly_at (p : list F) (x : F) : F := fold_right (fun c acc => c + x * acc) F0 p.
(** the polynomial of degree below the size of the domain with the given values on it *)
Definition interpolates (d : domain) (values : nat -> F) (p : list F) : Prop :=
  length p = length (dm_points d) /\
  forall i, (i < length (dm_points d))%nat -> poly_at p (nth i (dm_points d) F0) = values i.
(** the values the QAP gives to A and B: those of the constraints' left and right factors; after them A
    takes ONE and the primary input, and everything else is zero *)
Definition A_value (cs : csystem) (primary aux : list F) (i : nat) : F :=
  match nth_error (cs_constraints cs) i with
  | Some c => ev (fun v => nth v (F1 :: primary ++ aux) F0) (cA c)
  | None => nth (i - length (cs_constraints cs)) (F1 :: primary) F0
  end.
Definition B_value (cs : csystem) (primary aux : list F) (i : nat) : F :=
  match nth_error (cs_constraints cs) i with
  | Some c => ev (fun v => nth v (F1 :: primary ++ aux) F0) (cB c)
  | None => F0
  end.
(** the coefficient of the highest power *)
Definition top (p : list F) : F := last p F0.

(** the pairing in the exponent: all three groups are the field *)
Definition expE : pairing :=
  Pairing F F F Fadd Fsub F0 Fmul (fun _ => true) Fadd F0 Fmul (fun _ => true) Fadd Fopp Feqb Fmul.
