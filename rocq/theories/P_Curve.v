(** The Edwards addition law is complete and gives a commutative group, for any
    square [a] and non-square [d]. *)
From Coq Require Import List ZArith Bool Arith Lia.
From Coq.setoid_ring Require Import Field_tac.
From Verif Require Import Primes Field Base R1CS M_Point Spec_Curve.
Import ListNotations.
Local Open Scope F_scope.

Lemma frac_eq ml mr nl nr xl xr : ml <> F0 -> mr <> F0 -> xl * ml = nl -> xr * mr = nr ->
  nl * mr = nr * ml -> xl = xr.
Proof.
  intros Hl Hr E1 E2 E. apply (Fmul_cancel_l (ml * mr)); [now apply Fmul_nz|].
  transitivity (xl * ml * mr); [ring|]. rewrite E1, E, <- E2. ring.
Qed.

Lemma Fdiv_mul x y : y <> F0 -> x / y * y = x.
Proof. intros H. symmetry. apply (proj1 (Fdiv_eq x y (x / y) H) eq_refl). Qed.

Section Ed.
  Variables a d r : F.
  Hypothesis Ha : r * r = a.
  Hypothesis Hr : r <> F0.
  Hypothesis Hd : forall z, z * z <> d.

  Definition eq_e (x y : F) : F := a * (x * x) + y * y - (F1 + d * (x * x) * (y * y)).

  Lemma Hd' u v : v <> F0 -> u * u = d * (v * v) -> False.
  Proof.
    intros Hv E. apply (Hd (u / v)). apply (Fmul_cancel_l (v * v)); [now apply Fmul_nz|].
    transitivity ((u / v * v) * (u / v * v)); [ring|]. rewrite Fdiv_mul by exact Hv. rewrite E. ring.
  Qed.

  Lemma complete_sq x1 y1 x2 y2 : eq_e x1 y1 = F0 -> eq_e x2 y2 = F0 ->
    d * (x1 * x2) * (y1 * y2) * (d * (x1 * x2) * (y1 * y2)) <> F1.
  Proof.
    intros H1 H2 Ht. set (t := d * (x1 * x2) * (y1 * y2)) in *.
    assert (Hn : x1 <> F0 /\ y1 <> F0 /\ x2 <> F0).
    { repeat split; intros E; apply F1_neq_0; rewrite <- Ht; unfold t; rewrite E; ring. }
    destruct Hn as (Nx1 & Ny1 & Nx2).
    assert (S1 : (r * x1 + t * y1) * (r * x1 + t * y1) = d * ((x1 * y1 * (r * x2 + y2)) * (x1 * y1 * (r * x2 + y2)))).
    { apply Fsub_eq0. transitivity (eq_e x1 y1 - d * (x1 * x1) * (y1 * y1) * eq_e x2 y2 + (t * t - F1) * (y1 * y1 - F1)).
      - unfold eq_e. rewrite <- Ha. unfold t. ring.
      - rewrite H1, H2, Ht. ring. }
    assert (S2 : (r * x1 - t * y1) * (r * x1 - t * y1) = d * ((x1 * y1 * (r * x2 - y2)) * (x1 * y1 * (r * x2 - y2)))).
    { apply Fsub_eq0. transitivity (eq_e x1 y1 - d * (x1 * x1) * (y1 * y1) * eq_e x2 y2 + (t * t - F1) * (y1 * y1 - F1)).
      - unfold eq_e. rewrite <- Ha. unfold t. ring.
      - rewrite H1, H2, Ht. ring. }
    destruct (Feq_dec (r * x2 + y2) F0) as [Z1|Z1].
    2:{ revert S1. apply Hd'. repeat apply Fmul_nz; assumption. }
    destruct (Feq_dec (r * x2 - y2) F0) as [Z2|Z2].
    2:{ revert S2. apply Hd'. repeat apply Fmul_nz; assumption. }
    apply (Fmul_nz (Fof 2) (r * x2)); [apply F2_neq_0|now apply Fmul_nz|].
    transitivity ((r * x2 + y2) + (r * x2 - y2)); [ring|]. rewrite Z1, Z2. ring.
  Qed.

  Lemma complete x1 y1 x2 y2 : eq_e x1 y1 = F0 -> eq_e x2 y2 = F0 ->
    F1 + d * (x1 * x2) * (y1 * y2) <> F0 /\ F1 - d * (x1 * x2) * (y1 * y2) <> F0.
  Proof.
    intros H1 H2. pose proof (complete_sq _ _ _ _ H1 H2) as H. set (t := d * (x1 * x2) * (y1 * y2)) in *.
    split; intros E; apply H; apply Fsub_eq0.
    - transitivity ((F1 + t) * (t - F1)); [ring|]. rewrite E. ring.
    - transitivity ((F1 - t) * (- t - F1)); [ring|]. rewrite E. ring.
  Qed.

  Definition sx x1 y1 x2 y2 := (x1 * y2 + y1 * x2) / (F1 + d * (x1 * x2) * (y1 * y2)).
  Definition sy x1 y1 x2 y2 := (y1 * y2 - a * (x1 * x2)) / (F1 - d * (x1 * x2) * (y1 * y2)).

  Lemma sx_mul x1 y1 x2 y2 : eq_e x1 y1 = F0 -> eq_e x2 y2 = F0 ->
    sx x1 y1 x2 y2 * (F1 + d * (x1 * x2) * (y1 * y2)) = x1 * y2 + y1 * x2.
  Proof. intros H1 H2. apply Fdiv_mul. now apply complete. Qed.
  Lemma sy_mul x1 y1 x2 y2 : eq_e x1 y1 = F0 -> eq_e x2 y2 = F0 ->
    sy x1 y1 x2 y2 * (F1 - d * (x1 * x2) * (y1 * y2)) = y1 * y2 - a * (x1 * x2).
  Proof. intros H1 H2. apply Fdiv_mul. now apply complete. Qed.

  Lemma closed x1 y1 x2 y2 : eq_e x1 y1 = F0 -> eq_e x2 y2 = F0 ->
    eq_e (sx x1 y1 x2 y2) (sy x1 y1 x2 y2) = F0.
  Proof.
    intros H1 H2. destruct (complete _ _ _ _ H1 H2) as [NA NB].
    pose proof (sx_mul _ _ _ _ H1 H2) as EX. pose proof (sy_mul _ _ _ _ H1 H2) as EY.
    set (x := sx x1 y1 x2 y2) in *. set (y := sy x1 y1 x2 y2) in *.
    set (A := F1 + d * (x1 * x2) * (y1 * y2)) in *. set (B := F1 - d * (x1 * x2) * (y1 * y2)) in *.
    apply (Fmul_cancel_l ((A * A) * (B * B))); [repeat apply Fmul_nz; assumption|].
    transitivity (a * ((x * A) * (x * A)) * (B * B) + (y * B) * (y * B) * (A * A)
      - (A * A * (B * B) + d * ((x * A) * (x * A)) * ((y * B) * (y * B)))); [unfold eq_e; ring|].
    rewrite EX, EY.
    transitivity ((F0 + y2*y2*y2*y2 - Fof 2*x2*x2*y2*y2*d + Fof 4*x2*x2*y2*y2*a - Fof 2*x2*x2*y2*y2*y2*y2*a + x2*x2*x2*x2*a*a -
      Fof 2*x2*x2*x2*x2*y2*y2*a*a - x2*x2*x2*x2*y2*y2*y2*y2*d*d + Fof 2*x2*x2*x2*x2*y2*y2*y2*y2*a*d -
      y1*y1*x2*x2*y2*y2*y2*y2*d - y1*y1*x2*x2*x2*x2*y2*y2*a*d + y1*y1*x2*x2*x2*x2*y2*y2*y2*y2*d*d -
      x1*x1*x2*x2*y2*y2*y2*y2*a*d - x1*x1*x2*x2*x2*x2*y2*y2*a*a*d + x1*x1*x2*x2*x2*x2*y2*y2*y2*y2*a*d*d +
      x1*x1*y1*y1*x2*x2*x2*x2*y2*y2*y2*y2*d*d*d) * eq_e x1 y1 +
      (F0 + F1 + y2*y2 + x2*x2*a + x2*x2*y2*y2*d - Fof 2*x2*x2*y2*y2*a - y1*y1*y2*y2 - y1*y1*x2*x2*a - Fof
      2*y1*y1*x2*x2*y2*y2*d + Fof 2*y1*y1*x2*x2*y2*y2*a + y1*y1*y1*y1*x2*x2*y2*y2*d - x1*x1*y2*y2*a -
      x1*x1*x2*x2*a*a - Fof 2*x1*x1*x2*x2*y2*y2*a*d + Fof 2*x1*x1*x2*x2*y2*y2*a*a + x1*x1*x1*x1*x2*x2*y2*y2*a*a*d) * eq_e x2 y2).
    - unfold eq_e, A, B. ring.
    - rewrite H1, H2. ring.
  Qed.

    (** denominators and numerators of a triple sum *)
    Definition tD x1 y1 x2 y2 := (F1 + d * (x1 * x2) * (y1 * y2)) * (F1 - d * (x1 * x2) * (y1 * y2)).
    Definition tE x1 y1 x2 y2 x3 y3 := d * ((x1 * y2 + y1 * x2) * (y1 * y2 - a * (x1 * x2))) * (x3 * y3).
    Definition tX x1 y1 x2 y2 x3 y3 := (x1 * y2 + y1 * x2) * (F1 - d * (x1 * x2) * (y1 * y2)) * y3
        + (y1 * y2 - a * (x1 * x2)) * (F1 + d * (x1 * x2) * (y1 * y2)) * x3.
    Definition tY x1 y1 x2 y2 x3 y3 := (y1 * y2 - a * (x1 * x2)) * (F1 + d * (x1 * x2) * (y1 * y2)) * y3
        - a * ((x1 * y2 + y1 * x2) * (F1 - d * (x1 * x2) * (y1 * y2)) * x3).

  Lemma triple x1 y1 x2 y2 x3 y3 : eq_e x1 y1 = F0 -> eq_e x2 y2 = F0 -> eq_e x3 y3 = F0 ->
    let x := sx x1 y1 x2 y2 in let y := sy x1 y1 x2 y2 in
    (tD x1 y1 x2 y2 + tE x1 y1 x2 y2 x3 y3 <> F0 /\ tD x1 y1 x2 y2 - tE x1 y1 x2 y2 x3 y3 <> F0) /\
    sx x y x3 y3 * (tD x1 y1 x2 y2 + tE x1 y1 x2 y2 x3 y3) = tX x1 y1 x2 y2 x3 y3 /\
    sy x y x3 y3 * (tD x1 y1 x2 y2 - tE x1 y1 x2 y2 x3 y3) = tY x1 y1 x2 y2 x3 y3.
  Proof.
    intros H1 H2 H3 x y. pose proof (closed _ _ _ _ H1 H2) as HC. fold x y in HC.
    destruct (complete _ _ _ _ H1 H2) as [NA NB]. destruct (complete _ _ _ _ HC H3) as [NA' NB'].
    pose proof (sx_mul _ _ _ _ H1 H2) as EX. pose proof (sy_mul _ _ _ _ H1 H2) as EY. fold x in EX. fold y in EY.
    pose proof (sx_mul _ _ _ _ HC H3) as EX'. pose proof (sy_mul _ _ _ _ HC H3) as EY'.
    set (u := sx x y x3 y3) in *. set (v := sy x y x3 y3) in *. unfold tD, tE, tX, tY.
    set (A := F1 + d * (x1 * x2) * (y1 * y2)) in *. set (B := F1 - d * (x1 * x2) * (y1 * y2)) in *.
    assert (P : A * B + d * ((x1 * y2 + y1 * x2) * (y1 * y2 - a * (x1 * x2))) * (x3 * y3) = A * B * (F1 + d * (x * x3) * (y * y3))).
    { rewrite <- EX, <- EY. ring. }
    assert (Q : A * B - d * ((x1 * y2 + y1 * x2) * (y1 * y2 - a * (x1 * x2))) * (x3 * y3) = A * B * (F1 - d * (x * x3) * (y * y3))).
    { rewrite <- EX, <- EY. ring. }
    rewrite P, Q. split; [split; repeat apply Fmul_nz; assumption|]. split.
    - transitivity (A * B * (u * (F1 + d * (x * x3) * (y * y3)))); [ring|]. rewrite EX', <- EX, <- EY. ring.
    - transitivity (A * B * (v * (F1 - d * (x * x3) * (y * y3)))); [ring|]. rewrite EY', <- EX, <- EY. ring.
  Qed.

  Lemma s_comm x1 y1 x2 y2 : sx x1 y1 x2 y2 = sx x2 y2 x1 y1 /\ sy x1 y1 x2 y2 = sy x2 y2 x1 y1.
  Proof. unfold sx, sy. split; f_equal; ring. Qed.

  Lemma assoc_xy x1 y1 x2 y2 x3 y3 : eq_e x1 y1 = F0 -> eq_e x2 y2 = F0 -> eq_e x3 y3 = F0 ->
    sx (sx x1 y1 x2 y2) (sy x1 y1 x2 y2) x3 y3 = sx x1 y1 (sx x2 y2 x3 y3) (sy x2 y2 x3 y3) /\
    sy (sx x1 y1 x2 y2) (sy x1 y1 x2 y2) x3 y3 = sy x1 y1 (sx x2 y2 x3 y3) (sy x2 y2 x3 y3).
  Proof.
    intros H1 H2 H3.
    destruct (triple x1 y1 x2 y2 x3 y3 H1 H2 H3) as ((NL & NL') & EL & EL').
    destruct (triple x2 y2 x3 y3 x1 y1 H2 H3 H1) as ((NR & NR') & ER & ER').
    cbv zeta in *.
    rewrite (proj1 (s_comm x1 y1 (sx x2 y2 x3 y3) (sy x2 y2 x3 y3))), (proj2 (s_comm x1 y1 (sx x2 y2 x3 y3) (sy x2 y2 x3 y3))). split.
    - apply (frac_eq _ _ _ _ _ _ NL NR EL ER). apply Fsub_eq0.
      transitivity ((F0 - y1*x2*y2*y2*y2*y2*x3*x3*y3*d - y1*x2*x2*y2*y2*y2*x3*d + y1*x2*x2*y2*y2*y2*x3*x3*x3*a*d -
      y1*x2*x2*x2*y2*y2*y3*d + y1*x2*x2*x2*y2*y2*y3*y3*y3*d + y1*x2*x2*x2*y2*y2*y2*y2*x3*x3*y3*d*d -
      y1*x2*x2*x2*x2*y2*x3*y3*y3*a*d + y1*x2*x2*x2*x2*y2*y2*y2*x3*y3*y3*d*d + x1*x2*y2*y2*y2*y2*x3*y3*y3*d -
      x1*x2*x2*y2*y2*y2*y3*d + x1*x2*x2*y2*y2*y2*y3*y3*y3*d + x1*x2*x2*x2*y2*y2*x3*a*d -
      x1*x2*x2*x2*y2*y2*x3*x3*x3*a*a*d - x1*x2*x2*x2*y2*y2*y2*y2*x3*y3*y3*d*d - x1*x2*x2*x2*x2*y2*x3*x3*y3*a*a*d +
      x1*x2*x2*x2*x2*y2*y2*y2*x3*x3*y3*a*d*d) * eq_e x1 y1 +
      (F0 + y1*y2*x3 - y1*y2*x3*y3*y3 - y1*y2*x3*x3*x3*a + y1*y2*x3*x3*x3*y3*y3*d + y1*x2*y3 - y1*x2*y3*y3*y3 -
      y1*x2*x3*x3*y3*a + y1*x2*x3*x3*y3*y3*y3*d - y1*x2*y2*y2*x3*x3*y3*d - y1*x2*x2*y2*x3*y3*y3*d - y1*y1*y1*y2*x3 +
      y1*y1*y1*y2*x3*y3*y3 + y1*y1*y1*y2*x3*x3*x3*a - y1*y1*y1*y2*x3*x3*x3*y3*y3*d - y1*y1*y1*x2*y3 +
      y1*y1*y1*x2*y3*y3*y3 + y1*y1*y1*x2*x3*x3*y3*a - y1*y1*y1*x2*x3*x3*y3*y3*y3*d + y1*y1*y1*x2*y2*y2*x3*x3*y3*d +
      y1*y1*y1*x2*x2*y2*x3*y3*y3*d + x1*y2*y3 - x1*y2*y3*y3*y3 - x1*y2*x3*x3*y3*a + x1*y2*x3*x3*y3*y3*y3*d -
      x1*x2*x3*a + x1*x2*x3*y3*y3*a + x1*x2*x3*x3*x3*a*a - x1*x2*x3*x3*x3*y3*y3*a*d + x1*x2*y2*y2*x3*y3*y3*d -
      x1*x2*x2*y2*x3*x3*y3*a*d - x1*y1*y1*y2*y3 + x1*y1*y1*y2*y3*y3*y3 + x1*y1*y1*y2*x3*x3*y3*a -
      x1*y1*y1*y2*x3*x3*y3*y3*y3*d + x1*y1*y1*x2*x3*a - x1*y1*y1*x2*x3*y3*y3*a - x1*y1*y1*x2*x3*x3*x3*a*a +
      x1*y1*y1*x2*x3*x3*x3*y3*y3*a*d - x1*y1*y1*x2*y2*y2*x3*y3*y3*d + x1*y1*y1*x2*y2*y2*x3*x3*x3*y3*y3*d*d +
      x1*y1*y1*x2*x2*y2*x3*x3*y3*a*d - x1*y1*y1*x2*x2*y2*x3*x3*y3*y3*y3*d*d - x1*x1*y1*y2*x3*a +
      x1*x1*y1*y2*x3*y3*y3*a + x1*x1*y1*y2*x3*x3*x3*a*a - x1*x1*y1*y2*x3*x3*x3*y3*y3*a*d - x1*x1*y1*x2*y3*a +
      x1*x1*y1*x2*y3*y3*y3*a + x1*x1*y1*x2*x3*x3*y3*a*a - x1*x1*y1*x2*x3*x3*y3*y3*y3*a*d +
      x1*x1*y1*x2*y2*y2*x3*x3*y3*a*d - x1*x1*y1*x2*y2*y2*x3*x3*y3*y3*y3*d*d + x1*x1*y1*x2*x2*y2*x3*y3*y3*a*d -
      x1*x1*y1*x2*x2*y2*x3*x3*x3*y3*y3*a*d*d - x1*x1*x1*y2*y3*a + x1*x1*x1*y2*y3*y3*y3*a + x1*x1*x1*y2*x3*x3*y3*a*a
      - x1*x1*x1*y2*x3*x3*y3*y3*y3*a*d + x1*x1*x1*x2*x3*a*a - x1*x1*x1*x2*x3*y3*y3*a*a - x1*x1*x1*x2*x3*x3*x3*a*a*a
      + x1*x1*x1*x2*x3*x3*x3*y3*y3*a*a*d - x1*x1*x1*x2*y2*y2*x3*y3*y3*a*d + x1*x1*x1*x2*x2*y2*x3*x3*y3*a*a*d) * eq_e x2 y2 +
      (F0 - y1*y2*x3 + y1*y2*y2*y2*x3 - y1*x2*y3 + y1*x2*y2*y2*y3 + y1*x2*x2*y2*x3*a + y1*x2*x2*x2*y3*a +
      y1*y1*y1*y2*x3 - y1*y1*y1*y2*y2*y2*x3 + y1*y1*y1*x2*y3 - y1*y1*y1*x2*y2*y2*y3 - y1*y1*y1*x2*x2*y2*x3*a -
      y1*y1*y1*x2*x2*x2*y3*a - x1*y2*y3 + x1*y2*y2*y2*y3 + x1*x2*x3*a - x1*x2*y2*y2*x3*a + x1*x2*x2*y2*y3*a -
      x1*x2*x2*x2*x3*a*a + x1*y1*y1*y2*y3 - x1*y1*y1*y2*y2*y2*y3 - x1*y1*y1*x2*x3*a - x1*y1*y1*x2*y2*y2*x3*d +
      x1*y1*y1*x2*y2*y2*x3*a + x1*y1*y1*x2*x2*y2*y3*d - x1*y1*y1*x2*x2*y2*y3*a + x1*y1*y1*x2*x2*x2*x3*a*a +
      x1*x1*y1*y2*x3*a - x1*x1*y1*y2*y2*y2*x3*a + x1*x1*y1*x2*y3*a + x1*x1*y1*x2*y2*y2*y3*d - x1*x1*y1*x2*y2*y2*y3*a
      + x1*x1*y1*x2*x2*y2*x3*a*d - x1*x1*y1*x2*x2*y2*x3*a*a - x1*x1*y1*x2*x2*x2*y3*a*a + x1*x1*x1*y2*y3*a -
      x1*x1*x1*y2*y2*y2*y3*a - x1*x1*x1*x2*x3*a*a + x1*x1*x1*x2*y2*y2*x3*a*a - x1*x1*x1*x2*x2*y2*y3*a*a +
      x1*x1*x1*x2*x2*x2*x3*a*a*a) * eq_e x3 y3).
      + unfold eq_e, tX, tD, tE. ring.
      + rewrite H1, H2, H3. ring.
    - apply (frac_eq _ _ _ _ _ _ NL' NR' EL' ER'). apply Fsub_eq0.
      transitivity ((F0 + y1*x2*y2*y2*y2*y2*x3*y3*y3*d - y1*x2*x2*y2*y2*y2*y3*d + y1*x2*x2*y2*y2*y2*y3*y3*y3*d +
      y1*x2*x2*x2*y2*y2*x3*a*d - y1*x2*x2*x2*y2*y2*x3*x3*x3*a*a*d - y1*x2*x2*x2*y2*y2*y2*y2*x3*y3*y3*d*d -
      y1*x2*x2*x2*x2*y2*x3*x3*y3*a*a*d + y1*x2*x2*x2*x2*y2*y2*y2*x3*x3*y3*a*d*d + x1*x2*y2*y2*y2*y2*x3*x3*y3*a*d +
      x1*x2*x2*y2*y2*y2*x3*a*d - x1*x2*x2*y2*y2*y2*x3*x3*x3*a*a*d + x1*x2*x2*x2*y2*y2*y3*a*d -
      x1*x2*x2*x2*y2*y2*y3*y3*y3*a*d - x1*x2*x2*x2*y2*y2*y2*y2*x3*x3*y3*a*d*d + x1*x2*x2*x2*x2*y2*x3*y3*y3*a*a*d -
      x1*x2*x2*x2*x2*y2*y2*y2*x3*y3*y3*a*d*d) * eq_e x1 y1 +
      (F0 + y1*y2*y3 - y1*y2*y3*y3*y3 - y1*y2*x3*x3*y3*a + y1*y2*x3*x3*y3*y3*y3*d - y1*x2*x3*a + y1*x2*x3*y3*y3*a +
      y1*x2*x3*x3*x3*a*a - y1*x2*x3*x3*x3*y3*y3*a*d + y1*x2*y2*y2*x3*y3*y3*d - y1*x2*x2*y2*x3*x3*y3*a*d -
      y1*y1*y1*y2*y3 + y1*y1*y1*y2*y3*y3*y3 + y1*y1*y1*y2*x3*x3*y3*a - y1*y1*y1*y2*x3*x3*y3*y3*y3*d +
      y1*y1*y1*x2*x3*a - y1*y1*y1*x2*x3*y3*y3*a - y1*y1*y1*x2*x3*x3*x3*a*a + y1*y1*y1*x2*x3*x3*x3*y3*y3*a*d -
      y1*y1*y1*x2*y2*y2*x3*y3*y3*d + y1*y1*y1*x2*x2*y2*x3*x3*y3*a*d - x1*y2*x3*a + x1*y2*x3*y3*y3*a +
      x1*y2*x3*x3*x3*a*a - x1*y2*x3*x3*x3*y3*y3*a*d - x1*x2*y3*a + x1*x2*y3*y3*y3*a + x1*x2*x3*x3*y3*a*a -
      x1*x2*x3*x3*y3*y3*y3*a*d + x1*x2*y2*y2*x3*x3*y3*a*d + x1*x2*x2*y2*x3*y3*y3*a*d + x1*y1*y1*y2*x3*a -
      x1*y1*y1*y2*x3*y3*y3*a - x1*y1*y1*y2*x3*x3*x3*a*a + x1*y1*y1*y2*x3*x3*x3*y3*y3*a*d + x1*y1*y1*x2*y3*a -
      x1*y1*y1*x2*y3*y3*y3*a - x1*y1*y1*x2*x3*x3*y3*a*a + x1*y1*y1*x2*x3*x3*y3*y3*y3*a*d -
      x1*y1*y1*x2*y2*y2*x3*x3*y3*a*d + x1*y1*y1*x2*y2*y2*x3*x3*y3*y3*y3*d*d - x1*y1*y1*x2*x2*y2*x3*y3*y3*a*d +
      x1*y1*y1*x2*x2*y2*x3*x3*x3*y3*y3*a*d*d - x1*x1*y1*y2*y3*a + x1*x1*y1*y2*y3*y3*y3*a + x1*x1*y1*y2*x3*x3*y3*a*a
      - x1*x1*y1*y2*x3*x3*y3*y3*y3*a*d + x1*x1*y1*x2*x3*a*a - x1*x1*y1*x2*x3*y3*y3*a*a - x1*x1*y1*x2*x3*x3*x3*a*a*a
      + x1*x1*y1*x2*x3*x3*x3*y3*y3*a*a*d - x1*x1*y1*x2*y2*y2*x3*y3*y3*a*d + x1*x1*y1*x2*y2*y2*x3*x3*x3*y3*y3*a*d*d +
      x1*x1*y1*x2*x2*y2*x3*x3*y3*a*a*d - x1*x1*y1*x2*x2*y2*x3*x3*y3*y3*y3*a*d*d + x1*x1*x1*y2*x3*a*a -
      x1*x1*x1*y2*x3*y3*y3*a*a - x1*x1*x1*y2*x3*x3*x3*a*a*a + x1*x1*x1*y2*x3*x3*x3*y3*y3*a*a*d + x1*x1*x1*x2*y3*a*a
      - x1*x1*x1*x2*y3*y3*y3*a*a - x1*x1*x1*x2*x3*x3*y3*a*a*a + x1*x1*x1*x2*x3*x3*y3*y3*y3*a*a*d -
      x1*x1*x1*x2*y2*y2*x3*x3*y3*a*a*d - x1*x1*x1*x2*x2*y2*x3*y3*y3*a*a*d) * eq_e x2 y2 +
      (F0 - y1*y2*y3 + y1*y2*y2*y2*y3 + y1*x2*x3*a - y1*x2*y2*y2*x3*a + y1*x2*x2*y2*y3*a - y1*x2*x2*x2*x3*a*a +
      y1*y1*y1*y2*y3 - y1*y1*y1*y2*y2*y2*y3 - y1*y1*y1*x2*x3*a + y1*y1*y1*x2*y2*y2*x3*a - y1*y1*y1*x2*x2*y2*y3*a +
      y1*y1*y1*x2*x2*x2*x3*a*a + x1*y2*x3*a - x1*y2*y2*y2*x3*a + x1*x2*y3*a - x1*x2*y2*y2*y3*a - x1*x2*x2*y2*x3*a*a
      - x1*x2*x2*x2*y3*a*a - x1*y1*y1*y2*x3*a + x1*y1*y1*y2*y2*y2*x3*a - x1*y1*y1*x2*y3*a - x1*y1*y1*x2*y2*y2*y3*d +
      x1*y1*y1*x2*y2*y2*y3*a - x1*y1*y1*x2*x2*y2*x3*a*d + x1*y1*y1*x2*x2*y2*x3*a*a + x1*y1*y1*x2*x2*x2*y3*a*a +
      x1*x1*y1*y2*y3*a - x1*x1*y1*y2*y2*y2*y3*a - x1*x1*y1*x2*x3*a*a - x1*x1*y1*x2*y2*y2*x3*a*d +
      x1*x1*y1*x2*y2*y2*x3*a*a + x1*x1*y1*x2*x2*y2*y3*a*d - x1*x1*y1*x2*x2*y2*y3*a*a + x1*x1*y1*x2*x2*x2*x3*a*a*a -
      x1*x1*x1*y2*x3*a*a + x1*x1*x1*y2*y2*y2*x3*a*a - x1*x1*x1*x2*y3*a*a + x1*x1*x1*x2*y2*y2*y3*a*a +
      x1*x1*x1*x2*x2*y2*x3*a*a*a + x1*x1*x1*x2*x2*x2*y3*a*a*a) * eq_e x3 y3).
      + unfold eq_e, tY, tD, tE. ring.
      + rewrite H1, H2, H3. ring.
  Qed.

  Lemma inv_xy x y : eq_e x y = F0 -> sx x y (- x) y = F0 /\ sy x y (- x) y = F1.
  Proof.
    intros H. assert (H' : eq_e (- x) y = F0) by (rewrite <- H; unfold eq_e; ring).
    destruct (complete _ _ _ _ H H') as [NA NB]. unfold sx, sy. split; apply Fdiv_eq; try assumption.
    - ring.
    - apply Fsub_eq0. transitivity (eq_e x y); [unfold eq_e; ring|exact H].
  Qed.
End Ed.

(** ** the concrete curve *)
Definition sqrt_a : F := Fof 7214280148105020021932206872019688659210616427216992810330019057549499971851.

Lemma sqrt_a_ok : sqrt_a * sqrt_a = Fof 168700.
Proof. apply Feqb_true. vm_compute. reflexivity. Qed.

Lemma sqrt_a_nz : sqrt_a <> F0.
Proof. intros H. apply Feqb_true in H. vm_compute in H. discriminate. Qed.

(** Euler's criterion: 168696 is not a square *)
Lemma d_euler : Fpow (Fof 168696) ((p_mod - 1) / 2) = Fof (-1).
Proof. apply Feqb_true. vm_compute. reflexivity. Qed.

Lemma d_nonsquare z : z * z <> Fof 168696.
Proof.
  intros H. assert (Hz : z <> F0).
  { intros ->. apply (Fof_nz 168696); [vm_compute; discriminate|]. rewrite <- H. ring. }
  pose proof d_euler as E. rewrite <- H, Fpow_mul_base in E by (apply Z.div_pos; [|lia]; vm_compute; discriminate).
  rewrite <- Fpow_add in E by (apply Z.div_pos; [|lia]; vm_compute; discriminate).
  replace ((p_mod - 1) / 2 + (p_mod - 1) / 2)%Z with (p_mod - 1)%Z in E by (vm_compute; reflexivity).
  rewrite F_fermat in E by exact Hz. apply Feqb_true in E. vm_compute in E. discriminate.
Qed.

Definition ca := Fof 168700.
Definition cd := Fof 168696.

Lemma on_curve_eq P : on_curve P <-> eq_e ca cd (px P) (py P) = F0.
Proof. unfold on_curve, eq_e, ca, cd. symmetry. apply Fsub_eq0. Qed.

Lemma padd_eq P Q : padd P Q = mkpt (sx cd (px P) (py P) (px Q) (py Q)) (sy ca cd (px P) (py P) (px Q) (py Q)).
Proof. reflexivity. Qed.

Lemma point_eq P Q : px P = px Q -> py P = py Q -> P = Q.
Proof. destruct P, Q; cbn. congruence. Qed.

Lemma padd_closed P Q : on_curve P -> on_curve Q -> on_curve (padd P Q).
Proof.
  rewrite !on_curve_eq. intros H1 H2. rewrite padd_eq. cbn [px py].
  apply (closed ca cd sqrt_a sqrt_a_ok sqrt_a_nz d_nonsquare); assumption.
Qed.

Lemma padd_denom P Q : on_curve P -> on_curve Q ->
  F1 + Fof 168696 * (px P * px Q) * (py P * py Q) <> F0 /\ F1 - Fof 168696 * (px P * px Q) * (py P * py Q) <> F0.
Proof.
  rewrite !on_curve_eq. intros H1 H2.
  apply (complete ca cd sqrt_a sqrt_a_ok sqrt_a_nz d_nonsquare); assumption.
Qed.

Lemma padd_comm P Q : padd P Q = padd Q P.
Proof. rewrite !padd_eq. f_equal; apply s_comm; exact F0. Qed.

Lemma padd_assoc P Q R : on_curve P -> on_curve Q -> on_curve R -> padd (padd P Q) R = padd P (padd Q R).
Proof.
  rewrite !on_curve_eq. intros H1 H2 H3. rewrite !padd_eq. cbn [px py].
  f_equal; apply (assoc_xy ca cd sqrt_a sqrt_a_ok sqrt_a_nz d_nonsquare); assumption.
Qed.

Lemma pzero_on : on_curve pzero.
Proof. unfold on_curve, pzero. cbn [px py]. ring. Qed.

Lemma pneg_on P : on_curve P -> on_curve (pneg P).
Proof. unfold on_curve, pneg. cbn [px py]. intros H. transitivity (Fof 168700 * (px P * px P) + py P * py P); [ring|]. rewrite H. ring. Qed.

Lemma padd_0_r P : padd P pzero = P.
Proof.
  unfold padd, pzero. cbn [px py]. apply point_eq; cbn [px py]; apply Fdiv_eq; try ring;
    intros H; apply F1_neq_0; rewrite <- H; ring.
Qed.
Lemma padd_0_l P : padd pzero P = P.
Proof. rewrite padd_comm. apply padd_0_r. Qed.

Lemma padd_neg_r P : on_curve P -> padd P (pneg P) = pzero.
Proof.
  rewrite on_curve_eq. intros H. rewrite padd_eq. unfold pneg, pzero. cbn [px py].
  f_equal; apply (inv_xy ca cd sqrt_a sqrt_a_ok sqrt_a_nz d_nonsquare); assumption.
Qed.

(** ** the model's operations *)
Lemma inverse_ok x : x <> F0 -> inverse x = Ok (Finv x).
Proof. intros H. unfold inverse. destruct (Feqb_spec x F0); [contradiction|reflexivity]. Qed.
Lemma inverse_0 : inverse F0 = Abort.
Proof. unfold inverse. now rewrite Feqb_refl. Qed.

Lemma Fdiv_def x y : x / y = x * Finv y.
Proof. exact (Field_theory.Fdiv_def F_field x y). Qed.

Lemma ed_add_ok P Q : on_curve P -> on_curve Q -> ed_add P Q = Ok (padd P Q).
Proof.
  intros H1 H2. destruct (padd_denom P Q H1 H2) as [NA NB]. unfold ed_add.
  replace (F1 + jj_d * px P * px Q * py P * py Q) with (F1 + Fof 168696 * (px P * px Q) * (py P * py Q)) by (unfold jj_d; ring).
  replace (F1 - jj_d * px P * px Q * py P * py Q) with (F1 - Fof 168696 * (px P * px Q) * (py P * py Q)) by (unfold jj_d; ring).
  rewrite (inverse_ok _ NA), (inverse_ok _ NB). cbn [obind]. unfold padd. rewrite !Fdiv_def.
  f_equal. apply point_eq; cbn [px py]; unfold jj_a; [reflexivity|]. f_equal. ring.
Qed.
