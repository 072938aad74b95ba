(** Lemmas about the Montgomery points of /repo/ethsnarks/jubjub.py. *)
From Coq Require Import List ZArith NArith Bool Arith Lia Field Ring.
From Verif Require Import Primes Field Base M_Point Spec_Curve Spec_Mont P_Curve P_Group P_Zmul P_Mont P_JubLeaf M_PyJubjub Spec_PyJubjub P_PyJubjub.
Import ListNotations.
Local Open Scope nat_scope.
Local Open Scope Z_scope.
Local Open Scope F_scope.

Section Tangent.
Variables u v A : F.
Hypothesis H : v * v = u * u * u + A * (u * u) + u.
Let D := (F1 + F1) * v.
Let L := (F1 + F1 + F1) * (u * u) + (F1 + F1) * A * u + F1.
Let U3 := L * L - (A + u + u) * (D * D).
Let V3 := L * (u * (D * D) - U3) - v * (D * D * D).
Lemma tangent_on_poly : V3 * V3 = U3 * U3 * U3 + A * (U3 * U3) * (D * D) + U3 * (D * D * (D * D)).
Proof using H. subst V3 U3 L D. ring [H]. Qed.
Lemma tangent_x_poly : U3 * D * (v * v * (u + F1) * (u + F1) + (A - (F1 + F1)) * u * u * (u - F1) * (u - F1))
  = V3 * (u * (u - F1) * v * (u + F1) + (u - F1) * u * v * (u + F1)).
Proof using H. subst V3 U3 L D. ring [H]. Qed.
Lemma tangent_y_poly : (U3 - D * D) * (v * v * (u + F1) * (u + F1) - (A - (F1 + F1)) * u * u * (u - F1) * (u - F1))
  = (U3 + D * D) * ((u - F1) * (u - F1) * v * v - (A + (F1 + F1)) * u * u * (u + F1) * (u + F1)).
Proof using H. subst V3 U3 L D. ring [H]. Qed.
End Tangent.

Definition m2p (a : mpoint) : point := mkpt (mpu a) (mpv a).
Definition p2m (M : point) : mpoint := mkmp (px M) (py M).
Lemma m2p_p2m M : m2p (p2m M) = M.
Proof. now destruct M. Qed.
Lemma p2m_m2p a : p2m (m2p a) = a.
Proof. now destruct a. Qed.

Lemma Finv_0 : Finv F0 = F0.
Proof. apply fval_inj. vm_compute. reflexivity. Qed.
Lemma Fdiv_0_r x : x / F0 = F0.
Proof. rewrite Fdiv_def, Finv_0. ring. Qed.
Lemma Fdiv_0_l x : F0 / x = F0.
Proof. rewrite Fdiv_def. ring. Qed.
Lemma m1_neq_1 : - F1 <> F1.
Proof. intros E. apply F2_neq_0. change (Fof 2) with (Fof (1 + 1)). rewrite Fof_add. change (Fof 1) with F1. transitivity (F1 - - F1); [ring|]. rewrite E. ring. Qed.
Lemma minus1_on : on_curve (mkpt F0 (- F1)).
Proof. unfold on_curve. cbn [px py]. ring. Qed.
Lemma mont00 : on_mont (mkpt F0 F0).
Proof. unfold on_mont. cbn [px py]. ring. Qed.

(** the point of the Montgomery curve for a point that is not the neutral element *)
Lemma mont_form_nz P : on_curve P -> P <> pzero -> on_mont (m2p (mont_form P)) /\ of_mont (m2p (mont_form P)) = P.
Proof.
  intros HP N. unfold mont_form. destruct (Feqb_spec (px P) F0) as [E|E].
  - destruct (px_0 P HP E) as [-> | ->]; [contradiction|]. cbn [px py]. destruct (Feqb_spec (- F1) F1) as [E1|E1]; [now apply m1_neq_1 in E1|].
    unfold m2p. cbn [mpu mpv]. split; [exact mont00|]. unfold of_mont. cbn [py]. now rewrite Feqb_refl.
  - destruct (to_mont_ok P HP E) as (H1 & H2 & H3 & H4 & _).
    unfold m2p. cbn [mpu mpv]. replace (mkpt (px (to_mont P)) (py (to_mont P))) with (to_mont P) by (now destruct (to_mont P)).
    auto.
Qed.
Lemma mont_form_of M : on_mont M -> mont_form (of_mont M) = p2m M.
Proof.
  intros H. destruct (Feq_dec (py M) F0) as [E|E].
  - rewrite (of_mont_00 M H E). unfold of_mont, mont_form. cbn [px py]. rewrite Feqb_refl. cbn [px py]. rewrite Feqb_refl.
    destruct (Feqb_spec (- F1) F1) as [E1|E1]; [now apply m1_neq_1 in E1|reflexivity].
  - destruct (of_mont_back M H E) as (H1 & H2 & _). unfold mont_form. destruct (Feqb_spec (px (of_mont M)) F0); [contradiction|]. rewrite H2. reflexivity.
Qed.
Lemma mont_form_0 : mont_form pzero = mp_infinity.
Proof. unfold mont_form, pzero. cbn [px py]. now rewrite !Feqb_refl. Qed.
Lemma inf_not_mont : ~ on_mont (m2p mp_infinity).
Proof.
  unfold on_mont, m2p, mp_infinity. cbn [mpu mpv px py]. intros H. apply F1_neq_0. transitivity (F1 * F1); [ring|]. rewrite H. ring.
Qed.
Lemma of_mont_not_0 M : on_mont M -> of_mont M <> pzero.
Proof.
  intros H E. assert (E2 := mont_form_of M H). rewrite E, mont_form_0 in E2. apply inf_not_mont. rewrite E2, m2p_p2m. exact H.
Qed.
Lemma mp_eq_true a b : mp_eq a b = true <-> a = b.
Proof.
  unfold mp_eq. rewrite eqb2. destruct a as [a1 a2], b as [b1 b2]. cbn [mpu mpv]. split; [intros [-> ->]; reflexivity|intros E; now inversion E].
Qed.
Lemma mp_eq_inf P : on_curve P -> (mp_eq (mont_form P) mp_infinity = true <-> P = pzero).
Proof.
  intros HP. rewrite mp_eq_true. split.
  - intros E. destruct (Feqb (px P) F0 && Feqb (py P) F1) eqn:E1.
    { apply eqb2 in E1. destruct E1. now apply point_eq. }
    exfalso. destruct (mont_form_nz P HP) as [H _].
    + intros ->. unfold pzero in E1. cbn [px py] in E1. rewrite !Feqb_refl in E1. discriminate.
    + rewrite E in H. now apply inf_not_mont.
  - intros ->. apply mont_form_0.
Qed.

(** doubling *)
Definition tangent (M : point) : point :=
  let l := (F1 + (Fof 2 * (Fof 168698 * px M)) + px M * px M + (px M * px M * Fof 2)) / (Fof 2 * py M) in
  let u := l * l - Fof 168698 - (Fof 2 * px M) in
  mkpt u (- ((u - px M) * l + py M)).
Lemma two_nz : F1 + F1 <> F0.
Proof. replace (F1 + F1) with (Fof 2); [exact F2_neq_0|]. change (Fof 2) with (Fof (1 + 1)). now rewrite Fof_add. Qed.
Lemma Fof_2 : Fof 2 = F1 + F1.
Proof. change (Fof 2) with (Fof (1 + 1)). now rewrite Fof_add. Qed.
Lemma tangent_frac M : py M <> F0 ->
  let D := (F1 + F1) * py M in let L := (F1 + F1 + F1) * (px M * px M) + (F1 + F1) * Fof 168698 * px M + F1 in
  let U3 := L * L - (Fof 168698 + px M + px M) * (D * D) in
  tangent M = mkpt (U3 / (D * D)) ((L * (px M * (D * D) - U3) - py M * (D * D * D)) / (D * D * D)).
Proof.
  intros N D L U3. assert (ND : D <> F0) by (apply Fmul_nz; [exact two_nz|exact N]).
  unfold tangent. rewrite !Fof_2.
  assert (EL : (F1 + (F1 + F1) * (Fof 168698 * px M) + px M * px M + px M * px M * (F1 + F1)) / ((F1 + F1) * py M) = L / D).
  { fold D. f_equal. subst L. ring. }
  rewrite EL. cbv zeta.
  assert (EU : L / D * (L / D) - Fof 168698 - (F1 + F1) * px M = U3 / (D * D)) by (subst U3; field; exact ND).
  rewrite EU. apply point_eq; cbn [px py]; [reflexivity|]. field. exact ND.
Qed.
Lemma tangent_on M : on_mont M -> py M <> F0 -> on_mont (tangent M).
Proof.
  intros H1 N. rewrite (tangent_frac _ N). unfold on_mont in *. cbn [px py].
  pose proof (tangent_on_poly _ _ _ H1) as E. cbn zeta in E.
  set (D := (F1 + F1) * py M) in *. assert (ND : D <> F0) by (apply Fmul_nz; [exact two_nz|exact N]).
  set (L := (F1 + F1 + F1) * (px M * px M) + (F1 + F1) * Fof 168698 * px M + F1) in *.
  set (U3 := L * L - (Fof 168698 + px M + px M) * (D * D)) in *.
  set (V3 := L * (px M * (D * D) - U3) - py M * (D * D * D)) in *.
  transitivity (V3 * V3 / (D * D * D * (D * D * D))); [field; exact ND|]. rewrite E. field. exact ND.
Qed.
Lemma tangent_sum M : on_mont M -> py M <> F0 -> of_mont (tangent M) = padd (of_mont M) (of_mont M).
Proof.
  intros H1 E1. pose proof (tangent_on M H1 E1) as H3.
  pose proof (of_mont_on _ H1) as O1. pose proof (of_mont_on _ H3) as O3.
  pose proof (mont_px1_nz _ H1) as W1. pose proof (mont_px1_nz _ H3) as W3.
  rewrite (tangent_frac _ E1) in *. cbn zeta in *.
  unfold on_mont in H1.
  pose proof (tangent_x_poly _ _ _ H1) as EX. pose proof (tangent_y_poly _ _ _ H1) as EY. cbn zeta in EX, EY.
  set (D := (F1 + F1) * py M) in *. assert (N : D <> F0) by (apply Fmul_nz; [exact two_nz|exact E1]).
  set (L := (F1 + F1 + F1) * (px M * px M) + (F1 + F1) * Fof 168698 * px M + F1) in *.
  set (U3 := L * L - (Fof 168698 + px M + px M) * (D * D)) in *.
  set (V3 := L * (px M * (D * D) - U3) - py M * (D * D * D)) in *.
  set (M3 := mkpt (U3 / (D * D)) (V3 / (D * D * D))) in *.
  destruct A_ad as [EA EB]. rewrite Fof_2 in EA, EB. rewrite EA in EX, EY. rewrite EB in EY.
  rewrite (of_mont_nz M E1) in *.
  set (u1 := px M) in *. set (v1 := py M) in *.
  assert (ND : D * D <> F0) by now apply Fmul_nz.
  assert (HY : forall x y, mkpt x y = padd (mkpt (u1 / v1) ((u1 - F1) / (u1 + F1))) (mkpt (u1 / v1) ((u1 - F1) / (u1 + F1))) ->
      y * (U3 + D * D) = U3 - D * D).
  { intros x y E. destruct (padd_denom _ _ O1 O1) as [_ DB]. apply padd_val in E; [|exact O1|exact O1]. destruct E as [_ E]. cbn [px py] in E, DB.
    apply (Fmul_cancel_l (F1 - Fof 168696 * (u1 / v1 * (u1 / v1)) * ((u1 - F1) / (u1 + F1) * ((u1 - F1) / (u1 + F1))))); [exact DB|].
    transitivity ((U3 + D * D) * (y * (F1 - Fof 168696 * (u1 / v1 * (u1 / v1)) * ((u1 - F1) / (u1 + F1) * ((u1 - F1) / (u1 + F1)))))); [ring|].
    rewrite E.
    transitivity ((U3 + D * D) * ((u1 - F1) * (u1 - F1) * v1 * v1 - Fof 168700 * u1 * u1 * (u1 + F1) * (u1 + F1)) / (v1 * v1 * (u1 + F1) * (u1 + F1))).
    - field. repeat split; assumption.
    - rewrite <- EY. field. repeat split; assumption. }
  assert (W3' : U3 + D * D <> F0).
  { intros E. apply W3. unfold M3. cbn [px]. transitivity ((U3 + D * D) / (D * D)); [field; exact N|]. rewrite E. field. exact N. }
  destruct (Feq_dec (py M3) F0) as [E3|E3].
  + assert (EU : U3 = F0).
    { assert (E : px M3 = F0) by now apply mont_py_0. unfold M3 in E. cbn [px] in E. apply Fdiv_eq in E; [|exact ND]. rewrite E. ring. }
    unfold of_mont. rewrite E3, Feqb_refl.
    destruct (padd (mkpt (u1 / v1) ((u1 - F1) / (u1 + F1))) (mkpt (u1 / v1) ((u1 - F1) / (u1 + F1)))) as [x y] eqn:EP.
    symmetry in EP. specialize (HY x y eq_refl).
    assert (EYY : y = - F1). { apply (Fmul_cancel_l (D * D)); [exact ND|]. transitivity (y * (U3 + D * D)); [rewrite EU; ring|]. rewrite HY, EU. ring. }
    assert (HO : on_curve (mkpt x y)) by (rewrite EP; now apply padd_closed).
    destruct (Feq_dec x F0) as [EX0|EX0]; [now rewrite EX0, EYY|]. exfalso. apply (px_nz_py_1 _ HO EX0). exact EYY.
  + rewrite (of_mont_nz M3 E3). apply padd_val; [exact O1|exact O1|]. cbn [px py].
    assert (NV : V3 <> F0). { intros E. apply E3. unfold M3. cbn [py]. rewrite E. field. exact N. }
    clearbody U3 V3 D L. split.
    * transitivity (U3 * D * (v1 * v1 * (u1 + F1) * (u1 + F1) + Fof 168696 * u1 * u1 * (u1 - F1) * (u1 - F1)) / (V3 * (v1 * v1 * (u1 + F1) * (u1 + F1)))).
      { unfold M3. cbn [px py]. field. repeat split; assumption. }
      rewrite EX. field. repeat split; assumption.
    * transitivity ((U3 - D * D) * (v1 * v1 * (u1 + F1) * (u1 + F1) - Fof 168696 * u1 * u1 * (u1 - F1) * (u1 - F1)) / ((U3 + D * D) * (v1 * v1 * (u1 + F1) * (u1 + F1)))).
      { unfold M3. cbn [px py]. field. repeat split; assumption. }
      rewrite EY. field. repeat split; assumption.
Qed.

Lemma mp_double_ok P : on_curve P -> P <> pzero -> mp_double (mont_form P) = Ok (mont_form (padd P P)).
Proof.
  intros HP N. destruct (mont_form_nz P HP N) as [H1 H2]. unfold mp_double.
  destruct (Feqb_spec (mpv (mont_form P)) F0) as [E|E].
  - assert (EM : m2p (mont_form P) = mkpt F0 F0) by (apply of_mont_00; assumption).
    rewrite EM in H2. unfold of_mont in H2. cbn [py] in H2. rewrite Feqb_refl in H2. rewrite <- H2.
    apply (f_equal Ok). transitivity (mont_form pzero); [symmetry; apply mont_form_0|]. apply (f_equal mont_form).
    rewrite <- (padd_neg_r _ minus1_on). apply (f_equal (padd _)). unfold pneg. cbn [px py]. apply point_eq; cbn [px py]; [ring|reflexivity].
  - cbv zeta. apply (f_equal Ok). transitivity (mont_form (padd (of_mont (m2p (mont_form P))) (of_mont (m2p (mont_form P))))); [|now rewrite H2]. rewrite <- tangent_sum by assumption.
    rewrite mont_form_of by now apply tangent_on. unfold tangent, p2m, m2p, MONT_A. cbn [px py mpu mpv]. reflexivity.
Qed.
Lemma of_mont_neg M : py M <> F0 -> of_mont (mkpt (px M) (- py M)) = pneg (of_mont M).
Proof.
  intros N. assert (N' : - py M <> F0) by (intros E; apply N; transitivity (- - py M); [ring|rewrite E; ring]).
  rewrite !of_mont_nz by assumption. cbn [px py]. unfold pneg. cbn [px py]. apply point_eq; cbn [px py]; [|reflexivity]. field. split; assumption.
Qed.
Lemma mp_add_ok P Q : on_curve P -> on_curve Q -> mp_add (mont_form P) (mont_form Q) = Ok (mont_form (padd P Q)).
Proof.
  intros HP HQ. unfold mp_add.
  destruct (mp_eq (mont_form Q) mp_infinity) eqn:E1.
  { apply mp_eq_inf in E1; [|assumption]. subst Q. now rewrite padd_0_r. }
  destruct (mp_eq (mont_form P) mp_infinity) eqn:E2.
  { apply mp_eq_inf in E2; [|assumption]. subst P. now rewrite padd_0_l. }
  assert (NP : P <> pzero) by (intros E; apply mp_eq_inf in E; [congruence|assumption]).
  assert (NQ : Q <> pzero) by (intros E; apply mp_eq_inf in E; [congruence|assumption]).
  destruct (mont_form_nz P HP NP) as [M1 O1]. destruct (mont_form_nz Q HQ NQ) as [M2 O2].
  destruct (Feqb_spec (mpu (mont_form P)) (mpu (mont_form Q))) as [EU|EU].
  - destruct (Feqb_spec (mpv (mont_form P)) (mpv (mont_form Q))) as [EV|EV].
    + assert (E : m2p (mont_form P) = m2p (mont_form Q)) by (unfold m2p; now rewrite EU, EV).
      assert (P = Q) by (rewrite <- O1, <- O2; now f_equal). subst Q. now apply mp_double_ok.
    + apply (f_equal Ok). rewrite <- mont_form_0. apply (f_equal mont_form).
      assert (EN : mpv (mont_form Q) = - mpv (mont_form P)).
      { unfold on_mont, m2p in M1, M2. cbn [px py] in M1, M2. rewrite <- EU in M2. rewrite <- M2 in M1.
        assert (E : (mpv (mont_form P) - mpv (mont_form Q)) * (mpv (mont_form P) + mpv (mont_form Q)) = F0).
        { transitivity (mpv (mont_form P) * mpv (mont_form P) - mpv (mont_form Q) * mpv (mont_form Q)); [ring|]. rewrite M1. ring. }
        apply Fmul_integral in E. destruct E as [E|E]; [exfalso; exact (EV (proj1 (Fsub_eq0 _ _) E))|].
        transitivity (mpv (mont_form P) + mpv (mont_form Q) - mpv (mont_form P)); [ring|]. rewrite E. ring. }
      assert (NV : mpv (mont_form P) <> F0). { intros E. apply EV. rewrite EN, E. ring. }
      symmetry. rewrite <- O1, <- O2.
      replace (m2p (mont_form Q)) with (mkpt (px (m2p (mont_form P))) (- py (m2p (mont_form P)))).
      2:{ unfold m2p. cbn [px py]. now rewrite <- EN, EU. }
      rewrite of_mont_neg by exact NV. apply padd_neg_r. now apply of_mont_on.
  - cbv zeta. apply (f_equal Ok). transitivity (mont_form (padd (of_mont (m2p (mont_form P))) (of_mont (m2p (mont_form Q))))); [|now rewrite O1, O2]. rewrite <- chord_sum by assumption.
    rewrite mont_form_of by (now apply chord_on). unfold chord, p2m, m2p, MONT_A. cbn [px py mpu mpv].
    f_equal. ring.
Qed.
Lemma mp_neg_ok P : on_curve P -> P <> pzero -> mp_neg (mont_form P) = mont_form (pneg P).
Proof.
  intros HP N. destruct (mont_form_nz P HP N) as [H1 H2].
  assert (HM : on_mont (mkpt (mpu (mont_form P)) (- mpv (mont_form P)))).
  { unfold on_mont, m2p in *. cbn [px py] in *. rewrite <- H1. ring. }
  transitivity (p2m (mkpt (mpu (mont_form P)) (- mpv (mont_form P)))); [reflexivity|].
  rewrite <- mont_form_of by exact HM. f_equal.
  destruct (Feq_dec (mpv (mont_form P)) F0) as [E|E].
  - assert (EM : m2p (mont_form P) = mkpt F0 F0) by (apply of_mont_00; assumption). rewrite EM in H2.
    assert (EU : mpu (mont_form P) = F0) by exact (f_equal px EM). rewrite E, EU. replace (- F0) with F0 by ring.
    rewrite H2. unfold of_mont in H2. cbn [py] in H2. rewrite Feqb_refl in H2. rewrite <- H2. unfold pneg. cbn [px py]. apply point_eq; cbn [px py]; [ring|reflexivity].
  - transitivity (pneg (of_mont (m2p (mont_form P)))); [|now rewrite H2]. rewrite <- of_mont_neg by exact E. reflexivity.
Qed.
Lemma pt_as_mont_ok P : on_curve P -> pt_as_mont P = mont_form P.
Proof.
  intros HP. unfold pt_as_mont, mont_form. destruct (Feqb_spec (py P) F1) as [E|E].
  - destruct (Feqb_spec (px P) F0) as [E1|E1]; [reflexivity|]. exfalso. exact (px_nz_py1 P HP E1 E).
  - destruct (Feqb_spec (px P) F0) as [E1|E1]; reflexivity.
Qed.
Lemma mp_as_point_ok P : on_curve P -> mp_as_point (mont_form P) = if Feqb (px P) F0 then mkpt F0 (- F1) else P.
Proof.
  intros HP. unfold mont_form. destruct (Feqb_spec (px P) F0) as [E|E].
  - assert (EY : (F0 - F1) / (F0 + F1) = - F1) by (apply Fdiv_eq; [intros Z; apply F1_neq_0; rewrite <- Z; ring|ring]).
    destruct (Feqb (py P) F1); unfold mp_as_point; cbn [mpu mpv]; rewrite EY, Fdiv_0_l; reflexivity.
  - destruct (to_mont_ok P HP E) as (H1 & H2 & H3 & H4 & _). unfold mp_as_point. cbn [mpu mpv].
    transitivity (of_mont (to_mont P)); [|assumption].
    rewrite of_mont_nz; [reflexivity|]. assumption.
Qed.
