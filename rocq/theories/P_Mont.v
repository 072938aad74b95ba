(** The birational map between the Montgomery and Edwards forms, and the chord formula. *)
From Coq Require Import List ZArith NArith Bool Arith Lia.
From Coq.setoid_ring Require Import Field_tac.
From Verif Require Import Field Base R1CS R1CSFacts Gadget Gadget2 M_Lookup P_Lookup M_Bits M_Point M_Jubjub M_Montgomery Spec_Curve Spec_Mont P_Curve P_JubLeaf P_Group.
Import ListNotations.
Local Open Scope F_scope.

Lemma ad_nonsquare z : z * z <> Fof 168700 * Fof 168696.
Proof.
  intros E. apply (d_nonsquare (z / sqrt_a)). pose proof sqrt_a_nz as Hs. pose proof sqrt_a_ok as Hq.
  transitivity (z * z / (sqrt_a * sqrt_a)); [field; exact Hs|]. rewrite E, Hq. 
  field. intros E0. apply Hs. rewrite <- Hq in E0. apply Fmul_integral in E0. tauto.
Qed.

Lemma px_nz_py1 P : on_curve P -> px P <> F0 -> py P <> F1.
Proof.
  intros H Hx E. unfold on_curve in H. rewrite E in H.
  assert (E2 : Fof 4 * (px P * px P) = F0).
  { transitivity (Fof 168700 * (px P * px P) + F1 * F1 - (F1 + Fof 168696 * (px P * px P) * (F1 * F1))).
    - change (Fof 4) with (Fof (168700 - 168696)). rewrite Fof_sub. ring.
    - rewrite H. ring. }
  apply Fmul_integral in E2. destruct E2 as [E2|E2]; [apply (Fof_nz 4); [discriminate|exact E2]|].
  apply Fmul_integral in E2. tauto.
Qed.
Lemma px_nz_py_1 P : on_curve P -> px P <> F0 -> py P <> - F1.
Proof.
  intros H Hx E. apply (px_nz_py1 (mkpt (px P) (- py P))).
  - unfold on_curve in *. cbn [px py]. transitivity (Fof 168700 * (px P * px P) + py P * py P); [ring|]. rewrite H. ring.
  - exact Hx.
  - cbn [px py]. rewrite E. ring.
Qed.
Lemma px_0 P : on_curve P -> px P = F0 -> P = pzero \/ P = mkpt F0 (- F1).
Proof.
  intros H E. unfold on_curve in H. rewrite E in H.
  assert (E2 : (py P - F1) * (py P - - F1) = F0).
  { transitivity (Fof 168700 * (F0 * F0) + py P * py P - (F1 + Fof 168696 * (F0 * F0) * (py P * py P))); [ring|]. rewrite H. ring. }
  apply Fmul_integral in E2. destruct E2 as [E2|E2]; apply (proj1 (Fsub_eq0 _ _)) in E2; [left|right]; apply point_eq; unfold pzero; cbn [px py]; assumption.
Qed.

(** *** on the Montgomery side *)
Lemma A_ad : Fof 168698 - Fof 2 = Fof 168696 /\ Fof 168698 + Fof 2 = Fof 168700.
Proof. rewrite <- Fof_sub, <- Fof_add. split; reflexivity. Qed.

Lemma mont_px_1 M : on_mont M -> px M <> - F1.
Proof.
  intros H E. unfold on_mont in H. rewrite E in H. apply (d_nonsquare (py M)). rewrite H.
  rewrite <- (proj1 A_ad), Fof2. ring.
Qed.
Lemma mont_px1_nz M : on_mont M -> px M + F1 <> F0.
Proof. intros H E. apply (mont_px_1 M H). transitivity (px M + F1 - F1); [ring|]. rewrite E. ring. Qed.

Lemma mont_py_0 M : on_mont M -> py M = F0 -> px M = F0.
Proof.
  intros H E. unfold on_mont in H. rewrite E in H.
  assert (E2 : px M * (px M * px M + Fof 168698 * px M + F1) = F0).
  { transitivity (px M * px M * px M + Fof 168698 * (px M * px M) + px M); [ring|]. rewrite <- H. ring. }
  apply Fmul_integral in E2. destruct E2 as [E2|E2]; [exact E2|]. exfalso.
  apply (ad_nonsquare (Fof 2 * px M + Fof 168698)).
  destruct A_ad as [EA EB]. rewrite <- EA, <- EB.
  transitivity (Fof 4 * (px M * px M + Fof 168698 * px M + F1) + (Fof 168698 * Fof 168698 - Fof 4)).
  - change (Fof 4) with (Fof (2 * 2)). rewrite Fof_mul, Fof2. ring.
  - rewrite E2. change (Fof 4) with (Fof (2 * 2)). rewrite Fof_mul. ring.
Qed.
Lemma mont_px_0 M : on_mont M -> px M = F0 -> py M = F0.
Proof.
  intros H E. unfold on_mont in H. rewrite E in H.
  assert (E2 : py M * py M = F0) by (rewrite H; ring). apply Fmul_integral in E2. tauto.
Qed.

(** *** the maps *)
Lemma Fopp_sub1 y : y <> F1 -> F1 - y <> F0.
Proof. intros H E. apply H. symmetry. exact (proj1 (Fsub_eq0 _ _) E). Qed.

Lemma to_mont_ok P : on_curve P -> px P <> F0 ->
  on_mont (to_mont P) /\ py (to_mont P) <> F0 /\ px (to_mont P) <> F0 /\ of_mont (to_mont P) = P /\ as_montgomery P = Ok (to_mont P).
Proof.
  intros H Hx. pose proof (px_nz_py1 P H Hx) as Hy. pose proof (px_nz_py_1 P H Hx) as Hy'.
  pose proof (Fopp_sub1 _ Hy) as N1.
  assert (N2 : F1 + py P <> F0). { intros E. apply Hy'. transitivity (F1 + py P - F1); [ring|]. rewrite E. ring. }
  assert (NU : (F1 + py P) / (F1 - py P) <> F0).
  { intros E. apply Fdiv_eq in E; [|exact N1]. apply N2. rewrite E. ring. }
  assert (NV : py (to_mont P) <> F0).
  { unfold to_mont. cbn [py]. intros E. apply Fdiv_eq in E; [|exact Hx]. apply NU. rewrite E. ring. }
  split; [|split; [exact NV|split; [exact NU|split]]].
  - unfold on_mont, to_mont. cbn [px py]. unfold on_curve in H.
    set (x := px P) in *. set (y := py P) in *.
    assert (Ex : (Fof 168700 - Fof 168696 * (y * y)) * (x * x) = F1 - y * y).
    { transitivity (Fof 168700 * (x * x) + y * y - Fof 168696 * (x * x) * (y * y) - y * y); [ring|]. rewrite H. ring. }
    assert (E : (F1 + y) * (F1 + y) * ((F1 - y)) =
                ((F1 + y) * (F1 + y) * (F1 + y) + Fof 168698 * ((F1 + y) * (F1 + y)) * (F1 - y) + (F1 + y) * ((F1 - y) * (F1 - y))) * (x * x)).
    { transitivity ((F1 + y) * ((Fof 168700 - Fof 168696 * (y * y)) * (x * x))).
      - rewrite Ex. ring.
      - destruct A_ad as [EA EB]. rewrite <- EA, <- EB, Fof2. ring. }
    assert (E3 : (F1 + y) * (F1 + y) / (F1 - y) / (F1 - y) / (x * x) = 
       ((F1 + y) * (F1 + y) * (F1 + y) + Fof 168698 * ((F1 + y) * (F1 + y)) * (F1 - y) + (F1 + y) * ((F1 - y) * (F1 - y))) / ((F1 - y) * (F1 - y) * (F1 - y))).
    { transitivity ((F1 + y) * (F1 + y) * (F1 - y) / ((F1 - y) * (F1 - y) * (F1 - y) * (x * x))); [field; auto|].
      rewrite E. field. auto. }
    transitivity ((F1 + y) * (F1 + y) / (F1 - y) / (F1 - y) / (x * x)); [field; auto|]. rewrite E3. field. exact N1.
  - unfold of_mont. destruct (Feqb_spec (py (to_mont P)) F0) as [E|_]; [contradiction|].
    unfold to_mont in *. cbn [px py] in *. 
    assert (N3 : (F1 + py P) / (F1 - py P) + F1 <> F0).
    { intros E. assert (E4 : Fof 2 = F0).
      { transitivity (((F1 + py P) / (F1 - py P) + F1) * (F1 - py P)); [rewrite Fof2; field; exact N1|]. rewrite E. ring. }
      exact (F2_neq_0 E4). }
    apply point_eq; cbn [px py].
    + apply Fdiv_eq; [exact NV|]. field. auto.
    + apply Fdiv_eq; [exact N3|]. field. exact N1.
  - unfold as_montgomery.
    destruct (Feqb_spec (px P) F0) as [E|_]; [contradiction|]. destruct (Feqb_spec (py P) F1) as [E|_]; [contradiction|].
    cbn [negb andb oassert obind]. rewrite (inverse_ok _ N1). cbn [obind]. rewrite (inverse_ok _ Hx). cbn [obind].
    f_equal. unfold to_mont. rewrite !Fdiv_def. apply point_eq; cbn [px py]; [reflexivity|]. unfold jj_scale. ring.
Qed.

Lemma as_montgomery_abort P : px P = F0 \/ py P = F1 -> as_montgomery P = Abort.
Proof.
  unfold as_montgomery. intros [E|E]; rewrite E.
  - rewrite Feqb_refl. reflexivity.
  - rewrite (Feqb_refl F1). cbn [negb]. rewrite andb_false_r. reflexivity.
Qed.

Lemma of_mont_nz M : py M <> F0 -> of_mont M = mkpt (px M / py M) ((px M - F1) / (px M + F1)).
Proof. intros H. unfold of_mont. destruct (Feqb_spec (py M) F0); [contradiction|reflexivity]. Qed.

Lemma of_mont_on M : on_mont M -> on_curve (of_mont M).
Proof.
  intros H. unfold of_mont. destruct (Feqb_spec (py M) F0) as [E|E].
  - unfold on_curve. cbn [px py]. ring.
  - pose proof (mont_px1_nz M H) as N. unfold on_mont in H. unfold on_curve. cbn [px py].
    set (u := px M) in *. set (v := py M) in *. destruct A_ad as [EA EB]. rewrite <- EA, <- EB, Fof2.
    assert (E1 : u * u * (u * (u * u + Fof 168698 * u + F1) * Fof 4) = v * v * Fof 4 * u * u).
    { rewrite H. ring. }
    assert (E2 : forall a b : F, (F1 + F1) * a = (F1 + F1) * b -> a = b).
    { intros a b. apply Fmul_cancel_l. rewrite <- Fof2. exact F2_neq_0. }
    transitivity ((((Fof 168698 + (F1 + F1)) * (u * u) * ((u + F1) * (u + F1)) + v * v * ((u - F1) * (u - F1)))) / (v * v * ((u + F1) * (u + F1)))); [field; auto|].
    rewrite H. 
    transitivity (((u * u * u + Fof 168698 * (u * u) + u) * ((u + F1) * (u + F1)) + (Fof 168698 - (F1 + F1)) * (u * u) * ((u - F1) * (u - F1))) / (v * v * ((u + F1) * (u + F1)))); [rewrite H; f_equal; ring|].
    rewrite <- H. field. auto.
Qed.

Lemma of_mont_back M : on_mont M -> py M <> F0 -> px (of_mont M) <> F0 /\ to_mont (of_mont M) = M /\ as_edwards M = Ok (of_mont M).
Proof.
  intros H E. pose proof (mont_px1_nz M H) as N.
  assert (NU : px M <> F0) by (intros E0; apply E; now apply mont_px_0).
  rewrite (of_mont_nz M E). cbn [px py]. split; [|split].
  - intros E0. apply Fdiv_eq in E0; [|exact E]. apply NU. rewrite E0. ring.
  - unfold to_mont. cbn [px py].
    assert (N3 : F1 - (px M - F1) / (px M + F1) <> F0).
    { intros E0. assert (E4 : Fof 2 = F0).
      { transitivity ((F1 - (px M - F1) / (px M + F1)) * (px M + F1)); [rewrite Fof2; field; exact N|]. rewrite E0. ring. }
      exact (F2_neq_0 E4). }
    assert (EU : (F1 + (px M - F1) / (px M + F1)) / (F1 - (px M - F1) / (px M + F1)) = px M).
    { apply Fdiv_eq; [exact N3|]. field. exact N. }
    apply point_eq; cbn [px py]; rewrite EU; [reflexivity|]. field. auto.
  - unfold as_edwards. rewrite (inverse_ok _ E), (inverse_ok _ N). cbn [obind]. f_equal.
    rewrite !Fdiv_def. apply point_eq; cbn [px py]; [unfold jj_scale; ring|reflexivity].
Qed.

(** *** the chord *)
Definition chord (M1 M2 : point) : point :=
  let l := (py M2 - py M1) / (px M2 - px M1) in
  let u := l * l - Fof 168698 - px M1 - px M2 in
  mkpt u (l * (px M1 - u) - py M1).

Section Chord.
Variables u1 v1 u2 v2 A : F.
Hypothesis H1 : v1 * v1 = u1 * u1 * u1 + A * (u1 * u1) + u1.
Hypothesis H2 : v2 * v2 = u2 * u2 * u2 + A * (u2 * u2) + u2.
Let D := u2 - u1.
Let L := v2 - v1.
Let U3 := L * L - (A + u1 + u2) * (D * D).
Let V3 := L * (u1 * (D * D) - U3) - v1 * (D * D * D).

(** numerators: u3 = U3/D^2, v3 = V3/D^3 *)
Lemma chord_on_poly : V3 * V3 = U3 * U3 * U3 + A * (U3 * U3) * (D * D) + U3 * (D * D * (D * D)).
Proof using H1 H2. subst V3 U3 L D. ring [H1 H2]. Qed.
Lemma chord_x_poly : U3 * D * (v1 * v2 * (u1 + F1) * (u2 + F1) + (A - (F1 + F1)) * u1 * u2 * (u1 - F1) * (u2 - F1))
  = V3 * (u1 * (u2 - F1) * v2 * (u1 + F1) + (u1 - F1) * u2 * v1 * (u2 + F1)).
Proof using H1 H2. subst V3 U3 L D. ring [H1 H2]. Qed.
Lemma chord_y_poly : (U3 - D * D) * (v1 * v2 * (u1 + F1) * (u2 + F1) - (A - (F1 + F1)) * u1 * u2 * (u1 - F1) * (u2 - F1))
  = (U3 + D * D) * ((u1 - F1) * (u2 - F1) * v1 * v2 - (A + (F1 + F1)) * u1 * u2 * (u1 + F1) * (u2 + F1)).
Proof using H1 H2. subst V3 U3 L D. ring [H1 H2]. Qed.
End Chord.

Lemma chord_frac M1 M2 : px M2 - px M1 <> F0 ->
  let D := px M2 - px M1 in let L := py M2 - py M1 in
  let U3 := L * L - (Fof 168698 + px M1 + px M2) * (D * D) in
  chord M1 M2 = mkpt (U3 / (D * D)) ((L * (px M1 * (D * D) - U3) - py M1 * (D * D * D)) / (D * D * D)).
Proof.
  intros N D L U3. unfold chord. fold D L.
  assert (EU : L / D * (L / D) - Fof 168698 - px M1 - px M2 = U3 / (D * D)) by (subst U3; field; exact N).
  rewrite EU. apply point_eq; cbn [px py]; [reflexivity|]. field. exact N.
Qed.

Lemma sub_nz (a b : F) : a <> b -> b - a <> F0.
Proof. intros H E. apply H. symmetry. exact (proj1 (Fsub_eq0 _ _) E). Qed.

Lemma chord_on M1 M2 : on_mont M1 -> on_mont M2 -> px M1 <> px M2 -> on_mont (chord M1 M2).
Proof.
  intros H1 H2 N. apply sub_nz in N. rewrite (chord_frac _ _ N). unfold on_mont in *. cbn [px py].
  pose proof (chord_on_poly _ _ _ _ _ H1 H2) as E. cbn zeta in E.
  set (D := px M2 - px M1) in *. set (L := py M2 - py M1) in *.
  set (U3 := L * L - (Fof 168698 + px M1 + px M2) * (D * D)) in *.
  set (V3 := L * (px M1 * (D * D) - U3) - py M1 * (D * D * D)) in *.
  transitivity (V3 * V3 / (D * D * D * (D * D * D))); [field; exact N|]. rewrite E. field. exact N.
Qed.

Lemma of_mont_00 M : on_mont M -> py M = F0 -> M = mkpt F0 F0.
Proof. intros H E. apply point_eq; cbn [px py]; [now apply mont_py_0|exact E]. Qed.

Lemma chord_sum M1 M2 : on_mont M1 -> on_mont M2 -> px M1 <> px M2 ->
  of_mont (chord M1 M2) = padd (of_mont M1) (of_mont M2).
Proof.
  intros H1 H2 N. pose proof (chord_on M1 M2 H1 H2 N) as H3.
  pose proof (of_mont_on _ H1) as O1. pose proof (of_mont_on _ H2) as O2. pose proof (of_mont_on _ H3) as O3.
  pose proof (mont_px1_nz _ H1) as W1. pose proof (mont_px1_nz _ H2) as W2. pose proof (mont_px1_nz _ H3) as W3.
  destruct (Feq_dec (py M1) F0) as [E1|E1]; [|destruct (Feq_dec (py M2) F0) as [E2|E2]].
  - pose proof (of_mont_00 _ H1 E1) as ->. cbn [px py] in *.
    assert (E2 : py M2 <> F0). { intros E2. apply N. symmetry. now apply mont_py_0. }
    apply sub_nz in N. assert (N2 : px M2 <> F0) by (intros E; apply N; rewrite E; ring).
    assert (EC : chord (mkpt F0 F0) M2 = mkpt (F1 / px M2) (- (py M2 / (px M2 * px M2)))).
    { assert (EU : (py M2 - F0) / (px M2 - F0) * ((py M2 - F0) / (px M2 - F0)) - Fof 168698 - F0 - px M2 = F1 / px M2).
      { transitivity (py M2 * py M2 / (px M2 * px M2) - Fof 168698 - px M2); [field; auto|]. 
        unfold on_mont in H2. rewrite H2. field. auto. }
      unfold chord. cbn [px py]. rewrite EU. apply point_eq; cbn [px py]; [reflexivity|]. field. auto. }
    rewrite EC in *. cbn [px py] in *.
    unfold of_mont at 2. cbn [py]. rewrite Feqb_refl.
    rewrite (of_mont_nz M2 E2) in *.
    assert (E3 : - (py M2 / (px M2 * px M2)) <> F0).
    { intros E. apply E2. assert (E4 : py M2 / (px M2 * px M2) = F0) by (transitivity (- - (py M2 / (px M2 * px M2))); [ring|rewrite E; ring]).
      apply Fdiv_eq in E4; [|now apply Fmul_nz]. rewrite E4. ring. }
    rewrite of_mont_nz by exact E3. cbn [px py].
    apply padd_val; [unfold on_curve; cbn [px py]; ring|exact O2|]. cbn [px py]. split.
    + transitivity (F1 / px M2 / (- (py M2 / (px M2 * px M2)))); [ring|]. apply Fdiv_eq; [exact E3|]. field. auto.
    + transitivity ((F1 / px M2 - F1) / (F1 / px M2 + F1)); [ring|]. apply Fdiv_eq; [exact W3|]. field. auto.
  - pose proof (of_mont_00 _ H2 E2) as ->. cbn [px py] in *. 
    apply sub_nz in N. assert (N2 : px M1 <> F0) by (intros E; apply N; rewrite E; ring).
    assert (EC : chord M1 (mkpt F0 F0) = mkpt (F1 / px M1) (- (py M1 / (px M1 * px M1)))).
    { assert (N4 : F0 - px M1 <> F0) by exact N.
      assert (EU : (F0 - py M1) / (F0 - px M1) * ((F0 - py M1) / (F0 - px M1)) - Fof 168698 - px M1 - F0 = F1 / px M1).
      { transitivity (py M1 * py M1 / (px M1 * px M1) - Fof 168698 - px M1); [field; auto|]. 
        unfold on_mont in H1. rewrite H1. field. auto. }
      unfold chord. cbn [px py]. rewrite EU. apply point_eq; cbn [px py]; [reflexivity|]. field. auto. }
    rewrite EC in *. cbn [px py] in *.
    unfold of_mont at 3. cbn [py]. rewrite Feqb_refl.
    rewrite (of_mont_nz M1 E1) in *.
    assert (E3 : - (py M1 / (px M1 * px M1)) <> F0).
    { intros E. apply E1. assert (E4 : py M1 / (px M1 * px M1) = F0) by (transitivity (- - (py M1 / (px M1 * px M1))); [ring|rewrite E; ring]).
      apply Fdiv_eq in E4; [|now apply Fmul_nz]. rewrite E4. ring. }
    rewrite of_mont_nz by exact E3. cbn [px py].
    apply padd_val; [exact O1|unfold on_curve; cbn [px py]; ring|]. cbn [px py]. split.
    + transitivity (F1 / px M1 / (- (py M1 / (px M1 * px M1)))); [ring|]. apply Fdiv_eq; [exact E3|]. field. auto.
    + transitivity ((F1 / px M1 - F1) / (F1 / px M1 + F1)); [ring|]. apply Fdiv_eq; [exact W3|]. field. auto.
  - apply sub_nz in N. rewrite (chord_frac _ _ N) in *. cbn zeta in *.
    unfold on_mont in H1, H2.
    pose proof (chord_x_poly _ _ _ _ _ H1 H2) as EX. pose proof (chord_y_poly _ _ _ _ _ H1 H2) as EY. cbn zeta in EX, EY.
    set (D := px M2 - px M1) in *. set (L := py M2 - py M1) in *.
    set (U3 := L * L - (Fof 168698 + px M1 + px M2) * (D * D)) in *.
    set (V3 := L * (px M1 * (D * D) - U3) - py M1 * (D * D * D)) in *.
    set (M3 := mkpt (U3 / (D * D)) (V3 / (D * D * D))) in *.
    destruct A_ad as [EA EB]. rewrite Fof2 in EA, EB. rewrite EA in EX, EY. rewrite EB in EY.
    rewrite (of_mont_nz M1 E1), (of_mont_nz M2 E2) in *.
    set (u1 := px M1) in *. set (v1 := py M1) in *. set (u2 := px M2) in *. set (v2 := py M2) in *.
    (* y coordinate of the sum *)
    assert (ND : D * D <> F0) by now apply Fmul_nz.
    assert (HY : forall x y, mkpt x y = padd (mkpt (u1 / v1) ((u1 - F1) / (u1 + F1))) (mkpt (u2 / v2) ((u2 - F1) / (u2 + F1))) ->
        y * (U3 + D * D) = U3 - D * D).
    { intros x y E. destruct (padd_denom _ _ O1 O2) as [_ DB]. apply padd_val in E; [|exact O1|exact O2]. destruct E as [_ E]. cbn [px py] in E, DB.
      apply (Fmul_cancel_l (F1 - Fof 168696 * (u1 / v1 * (u2 / v2)) * ((u1 - F1) / (u1 + F1) * ((u2 - F1) / (u2 + F1))))); [exact DB|].
      transitivity ((U3 + D * D) * (y * (F1 - Fof 168696 * (u1 / v1 * (u2 / v2)) * ((u1 - F1) / (u1 + F1) * ((u2 - F1) / (u2 + F1)))))); [ring|].
      rewrite E.
      transitivity ((U3 + D * D) * ((u1 - F1) * (u2 - F1) * v1 * v2 - Fof 168700 * u1 * u2 * (u1 + F1) * (u2 + F1)) / (v1 * v2 * (u1 + F1) * (u2 + F1))).
      - field. repeat split; assumption.
      - rewrite <- EY. field. repeat split; assumption. }
    assert (W3' : U3 + D * D <> F0).
    { intros E. apply W3. unfold M3. cbn [px]. transitivity ((U3 + D * D) / (D * D)); [field; exact N|]. rewrite E. field. exact N. }
    destruct (Feq_dec (py M3) F0) as [E3|E3].
    + (* the sum is the point of order two *)
      assert (EU : U3 = F0).
      { assert (E : px M3 = F0) by now apply mont_py_0. unfold M3 in E. cbn [px] in E. apply Fdiv_eq in E; [|exact ND]. rewrite E. ring. }
      unfold of_mont. rewrite E3, Feqb_refl.
      destruct (padd (mkpt (u1 / v1) ((u1 - F1) / (u1 + F1))) (mkpt (u2 / v2) ((u2 - F1) / (u2 + F1)))) as [x y] eqn:EP.
      symmetry in EP. specialize (HY x y eq_refl).
      assert (EYY : y = - F1). { apply (Fmul_cancel_l (D * D)); [exact ND|]. transitivity (y * (U3 + D * D)); [rewrite EU; ring|]. rewrite HY, EU. ring. }
      assert (HO : on_curve (mkpt x y)) by (rewrite EP; now apply padd_closed).
      destruct (Feq_dec x F0) as [EX0|EX0]; [now rewrite EX0, EYY|]. exfalso. apply (px_nz_py_1 _ HO EX0). exact EYY.
    + rewrite (of_mont_nz M3 E3). apply padd_val; [exact O1|exact O2|]. cbn [px py].
      assert (NV : V3 <> F0). { intros E. apply E3. unfold M3. cbn [py]. rewrite E. field. exact N. }
      split.
      * transitivity (U3 * D * (v1 * v2 * (u1 + F1) * (u2 + F1) + Fof 168696 * u1 * u2 * (u1 - F1) * (u2 - F1)) / (V3 * (v1 * v2 * (u1 + F1) * (u2 + F1)))).
        { unfold M3. cbn [px py]. field. repeat split; assumption. }
        rewrite EX. field. repeat split; assumption.
      * transitivity ((U3 - D * D) * (v1 * v2 * (u1 + F1) * (u2 + F1) - Fof 168696 * u1 * u2 * (u1 - F1) * (u2 - F1)) / ((U3 + D * D) * (v1 * v2 * (u1 + F1) * (u2 + F1)))).
        { unfold M3. cbn [px py]. field. repeat split; assumption. }
        rewrite EY. field. repeat split; assumption.
Qed.

(** *** gadgets *)
Definition lpt (s : assign) (X : lc) (Y : var) : point := mkpt (ev s X) (s Y).

Lemma chord_unique M1 M2 l u v : px M1 <> px M2 ->
  ((px M2 - px M1) * l = py M2 - py M1 /\ l * l = Fof 168698 + px M1 + px M2 + u /\ (px M1 - u) * l = v + py M1
   <-> l = (py M2 - py M1) / (px M2 - px M1) /\ mkpt u v = chord M1 M2).
Proof.
  intros N. apply sub_nz in N. unfold chord.
  split.
  - intros (E1 & E2 & E3).
    assert (EL : l = (py M2 - py M1) / (px M2 - px M1)). { symmetry. apply Fdiv_eq; [exact N|]. rewrite <- E1. ring. }
    split; [exact EL|]. rewrite <- EL.
    assert (EU : u = l * l - Fof 168698 - px M1 - px M2) by (rewrite E2; ring).
    rewrite <- EU. apply point_eq; cbn [px py]; [reflexivity|].
    transitivity (v + py M1 - py M1); [ring|]. rewrite <- E3. ring.
  - intros (EL & EP). rewrite <- EL in EP. injection EP as EU EV.
    split; [|split].
    + rewrite EL. field. exact N.
    + rewrite EU. ring.
    + rewrite EV, <- EU. ring.
Qed.

Lemma madder_sat_iff g s : px (lpt s (ma_X1 g) (ma_Y1 g)) <> px (lpt s (ma_X2 g) (ma_Y2 g)) ->
  (sat s (madder_constraints g) <->
   s (ma_lambda g) = (s (ma_Y2 g) - s (ma_Y1 g)) / (ev s (ma_X2 g) - ev s (ma_X1 g)) /\
   mkpt (s (ma_X3 g)) (s (ma_Y3 g)) = chord (lpt s (ma_X1 g) (ma_Y1 g)) (lpt s (ma_X2 g) (ma_Y2 g))).
Proof.
  intros N. rewrite <- (chord_unique _ _ _ _ _ N). unfold madder_constraints. rewrite !sat_cons. unfold holds.
  cbn [cA cB cC ev lpt px py]. change jj_A with (Fof 168698). split; [intros (A & B & C & _)|intros (A & B & C)]; repeat split; auto. constructor.
Qed.

Lemma lc_ev_ext (dep : var -> Prop) s s' l : lc_all dep l -> (forall v, dep v -> s' v = s v) -> ev s' l = ev s l.
Proof. intros H E. symmetry. eapply ev_ext; [exact H|]. intros v Hv. symmetry. now apply E. Qed.

Lemma madder_gok (dep : var -> Prop) X1 Y1 X2 Y2 n :
  lc_all dep X1 -> dep Y1 -> lc_all dep X2 -> dep Y2 -> (forall v, n <= v < n + 3 -> ~ dep v)%nat ->
  gok (fun v => n <= v < n + 3)%nat dep (madder_constraints (fst (madder_new X1 Y1 X2 Y2 n)))
    (madder_witness (fst (madder_new X1 Y1 X2 Y2 n)))
    (fun s => px (lpt s X1 Y1) <> px (lpt s X2 Y2))
    (fun s => mkpt (s (n + 1)%nat) (s (n + 2)%nat) = chord (lpt s X1 Y1) (lpt s X2 Y2)).
Proof.
  intros HX1 HY1 HX2 HY2 Hd. 
  assert (Hn : forall v : var, dep v -> (v <> n /\ v <> n + 1 /\ v <> n + 2)%nat).
  { intros v Hv. repeat split; intros ->; (eapply Hd; [|exact Hv]; lia). }
  constructor.
  - intros v Hv Hv'. exact (Hd v Hv Hv').
  - intros s s' E H. unfold lpt in *. cbn [px] in *. rewrite !(lc_ev_ext dep s s') by assumption. exact H.
  - unfold madder_constraints. cbn [madder_new fst ma_X1 ma_Y1 ma_X2 ma_Y2 ma_lambda ma_X3 ma_Y3].
    assert (L : forall l, lc_all dep l -> lc_all (fun v => (n <= v < n + 3)%nat \/ dep v) l) by (intros; eapply lc_all_impl; [|eassumption]; cbn; auto).
    unfold cs_all; repeat first [apply Forall_nil | apply Forall_cons]; unfold c_all; cbn [lc_all cA cB cC L1]; repeat match goal with |- _ /\ _ => split end; auto; left; lia.
  - intros s H S. apply madder_sat_iff in S; [|exact H]. exact (proj2 S).
  - intros s H. unfold lpt in H. cbn [px] in H. apply sub_nz in H. unfold madder_witness. cbn [madder_new fst ma_X1 ma_Y1 ma_X2 ma_Y2 ma_lambda ma_X3 ma_Y3].
    rewrite (inverse_ok _ H). cbn [obind].
    eexists. split; [reflexivity|]. split.
    { intros v Hv. rewrite !upd_other by lia. reflexivity. }
    match goal with |- sat ?s' _ => set (sf := s') end.
    assert (Hf : forall v, dep v -> sf v = s v).
    { intros v Hv. destruct (Hn v Hv) as (A & B & C). unfold sf. rewrite !upd_other by auto. reflexivity. }
    pose proof (lc_ev_ext dep s sf X1 HX1 Hf) as EX1. pose proof (lc_ev_ext dep s sf X2 HX2 Hf) as EX2.
    apply madder_sat_iff; cbn [ma_X1 ma_Y1 ma_X2 ma_Y2 ma_lambda ma_X3 ma_Y3]; unfold lpt; cbn [px].
    { rewrite EX1, EX2. intros E. apply H. rewrite E. ring. }
    rewrite EX1, EX2, (Hf Y1), (Hf Y2) by assumption.
    assert (E0 : forall x l, lc_all dep l -> ev (upd s n x) l = ev s l).
    { intros x l Hl. apply (lc_ev_ext dep); [exact Hl|]. intros v Hv. destruct (Hn v Hv) as (A & B & C). now rewrite upd_other by auto. }
    assert (E01 : forall x y l, lc_all dep l -> ev (upd (upd s n x) (n + 1) y) l = ev s l).
    { intros x y l Hl. apply (lc_ev_ext dep); [exact Hl|]. intros v Hv. destruct (Hn v Hv) as (A & B & C). now rewrite !upd_other by auto. }
    destruct (Hn Y1 HY1) as (A1 & A2 & A3). destruct (Hn Y2 HY2) as (B1 & B2 & B3).
    unfold sf. rewrite !E0, !E01 by assumption. 
    rewrite !upd_same. rewrite (upd_other _ (n + 2) _ n), (upd_other _ (n + 1) _ n), upd_same, (upd_other _ (n + 2) _ (n + 1)), upd_same, !(upd_other _ _ _ Y1) by (auto; lia).
    split; [now rewrite Fdiv_def|].
    unfold chord. cbn [px py]. rewrite Fdiv_def. change jj_A with (Fof 168698).
    apply point_eq; cbn [px py]; [reflexivity|]. ring.
Qed.

Lemma m2e_sat_iff g s : s (me_Y1 g) <> F0 -> ev s (me_X1 g) + F1 <> F0 ->
  (sat s (m2e_constraints g) <-> mkpt (s (me_X2 g)) (s (me_Y2 g)) = of_mont (lpt s (me_X1 g) (me_Y1 g))).
Proof.
  intros N1 N2. unfold m2e_constraints. rewrite !sat_cons. unfold holds. cbn [cA cB cC ev].
  rewrite of_mont_nz by exact N1. unfold lpt. cbn [px py]. change jj_scale with F1. change (ev s L1) with F1. split.
  - intros (A & B & _). apply point_eq; cbn [px py]; symmetry; apply Fdiv_eq; auto.
    + transitivity (F1 * ev s (me_X1 g)); [ring|]. rewrite <- A. ring.
    + rewrite <- B. ring.
  - intros E. injection E as EX EY. symmetry in EX, EY. apply Fdiv_eq in EX; [|exact N1]. apply Fdiv_eq in EY; [|exact N2].
    split; [|split; [|constructor]].
    + rewrite EX. ring.
    + rewrite EY. ring.
Qed.

Lemma m2e_gok (dep : var -> Prop) X Y n :
  lc_all dep X -> dep Y -> (forall v, n <= v < n + 2 -> ~ dep v)%nat ->
  gok (fun v => n <= v < n + 2)%nat dep (m2e_constraints (fst (m2e_new X Y n)))
    (m2e_witness (fst (m2e_new X Y n)))
    (fun s => py (lpt s X Y) <> F0 /\ px (lpt s X Y) + F1 <> F0)
    (fun s => mkpt (s n) (s (n + 1)%nat) = of_mont (lpt s X Y)).
Proof.
  intros HX HY Hd. 
  assert (Hn : forall v : var, dep v -> (v <> n /\ v <> n + 1)%nat).
  { intros v Hv. repeat split; intros ->; (eapply Hd; [|exact Hv]; lia). }
  constructor.
  - intros v Hv Hv'. exact (Hd v Hv Hv').
  - intros s s' E H. unfold lpt in *. cbn [px py] in *. rewrite !(lc_ev_ext dep s s'), E by assumption. exact H.
  - unfold m2e_constraints. cbn [m2e_new fst me_X1 me_Y1 me_X2 me_Y2].
    assert (L : forall l, lc_all dep l -> lc_all (fun v => (n <= v < n + 2)%nat \/ dep v) l) by (intros; eapply lc_all_impl; [|eassumption]; cbn; auto).
    unfold cs_all; repeat first [apply Forall_nil | apply Forall_cons]; unfold c_all; cbn [lc_all cA cB cC L1]; repeat match goal with |- _ /\ _ => split end; auto; left; lia.
  - intros s [H1 H2] S. apply m2e_sat_iff in S; [|exact H1|exact H2]. exact S.
  - intros s [H1 H2]. unfold lpt in H1, H2. cbn [px py] in H1, H2. unfold m2e_witness. cbn [m2e_new fst me_X1 me_Y1 me_X2 me_Y2].
    rewrite (inverse_ok _ H1). cbn [obind].
    assert (E0 : forall x, ev (upd s n x) X = ev s X).
    { intros x. apply (lc_ev_ext dep); [exact HX|]. intros v Hv. destruct (Hn v Hv). now rewrite upd_other by auto. }
    rewrite !E0, (inverse_ok _ H2). cbn [obind].
    eexists. split; [reflexivity|]. split.
    { intros v Hv. rewrite !upd_other by lia. reflexivity. }
    match goal with |- sat ?s' _ => set (sf := s') end.
    assert (Hf : forall v, dep v -> sf v = s v).
    { intros v Hv. destruct (Hn v Hv) as (A & B). unfold sf. rewrite !upd_other by auto. reflexivity. }
    pose proof (lc_ev_ext dep s sf X HX Hf) as EX.
    apply m2e_sat_iff; cbn [me_X1 me_Y1 me_X2 me_Y2].
    { rewrite Hf by assumption. exact H1. }
    { rewrite EX. exact H2. }
    unfold lpt. rewrite EX, (Hf Y) by assumption. rewrite of_mont_nz by exact H1. cbn [px py].
    unfold sf. rewrite upd_same, upd_other, upd_same by lia. rewrite !Fdiv_def. change jj_scale with F1.
    apply point_eq; cbn [px py]; [ring|reflexivity].
Qed.
