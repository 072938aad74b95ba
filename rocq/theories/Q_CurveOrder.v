(** Final lemmas for C67, C68 and the exact forms of C24 and C59. *)
From Coq Require Import List ZArith NArith Znumtheory Bool Arith Lia String.
From Verif Require Import Primes Field Base R1CS R1CSFacts M_Point M_Jubjub M_Eddsa Spec_Curve Spec_Mont Spec_CurveOrder Spec_Basepoint Spec_Eddsa
  P_Curve P_JubLeaf P_Group P_Zmul P_Mont Q_Jubjub P_Order P_CurveOrder Q_Eddsa.
Import ListNotations.
Local Open Scope Z_scope.

Lemma curve_order_lemma : curve_cardinal (8 * ord_L).
Proof.
  destruct nL_exists as [nL E]. destruct (curve_list_gen nL E) as [H1 H2].
  exists (map pelem (seq 0 (8 * nL))). split; [exact H1|]. split; [exact H2|]. rewrite map_length, seq_length. lia.
Qed.
Lemma on_curve_comb P : on_curve P -> exists i j, P = pcomb i j.
Proof.
  intros H. destruct nL_exists as [nL E]. destruct (curve_list_gen nL E) as [_ H2]. apply H2 in H.
  apply in_map_iff in H. destruct H as (n & <- & _). unfold pelem. eauto.
Qed.
Lemma pzmul_comb z i j : pzmul z (pcomb i j) = pcomb (z * i) (z * j).
Proof.
  unfold pcomb. rewrite pzmul_padd by (apply gon || apply ton).
  now rewrite <- !pzmul_mul by first [exact exG_on|exact pT_on].
Qed.
Lemma curve_exponent_lemma P : on_curve P -> pzmul (8 * ord_L) P = pzero.
Proof.
  intros H. destruct (on_curve_comb P H) as (i & j & ->). rewrite pzmul_comb. apply pcomb_zero.
  split; [exists (8 * i); ring|exists (ord_L * j); ring].
Qed.
Lemma comb_0 i : pcomb i 0 = pzmul i exG.
Proof. unfold pcomb. cbn [pzmul]. apply padd_0_r. Qed.
Lemma cofactor_lemma P : on_curve P ->
  in_subgroup exG (pzmul 8 P) /\ (pzmul 8 P = pzero \/ exact_order ord_L (pzmul 8 P)).
Proof.
  intros H. destruct (on_curve_comb P H) as (i & j & ->). rewrite pzmul_comb.
  assert (E : pcomb (8 * i) (8 * j) = pzmul (8 * i) exG).
  { rewrite <- comb_0. apply pcomb_inj. split; [exists 0; lia|exists j; lia]. }
  rewrite E. split; [now exists (8 * i)|].
  destruct (Zdivide_dec ord_L (8 * i)) as [D|D]; [left; now apply exG_order|right].
  intros z. rewrite <- pzmul_mul by exact exG_on. rewrite exG_order. split.
  - intros M. rewrite Z.mul_comm in M. apply Gauss in M; [exact M|]. apply prime_rel_prime; [exact ord_L_prime|exact D].
  - intros [q ->]. exists (q * (8 * i)). ring.
Qed.
Lemma subgroup_lemma P : on_curve P -> (in_subgroup exG P <-> pzmul ord_L P = pzero).
Proof.
  intros H. split.
  - intros [k ->]. rewrite <- pzmul_mul by exact exG_on. apply exG_order. exists k. ring.
  - intros E. destruct (on_curve_comb P H) as (i & j & ->). rewrite pzmul_comb in E. apply pcomb_zero in E. destruct E as [_ E].
    exists i. rewrite <- comb_0. apply pcomb_inj. split; [exists 0; lia|]. rewrite Z.sub_0_r.
    apply Gauss in E; [exact E|]. apply Zgcd_1_rel_prime. vm_compute. reflexivity.
Qed.
Lemma order_two_lemma P : on_curve P -> pzmul 2 P = pzero -> P = pzero \/ P = mkpt F0 (- F1)%F.
Proof.
  intros H E. destruct (on_curve_comb P H) as (i & j & ->). rewrite pzmul_comb in E. apply pcomb_zero in E. destruct E as [E1 E2].
  assert (D1 : (ord_L | i)). { apply ord_L_8. destruct E1 as [q E1]. exists (4 * q). lia. }
  destruct E2 as [q E2].
  assert (Ej : pcomb i j = pzmul (4 * q) pT).
  { transitivity (pcomb 0 (4 * q)); [apply pcomb_inj; split; [now rewrite Z.sub_0_r|exists 0; lia]|]. unfold pcomb. cbn [pzmul]. apply padd_0_l. }
  rewrite Ej, (Z.mul_comm 4), pzmul_mul by exact pT_on. rewrite pT_4.
  assert (T2 : pzmul 2 pT4 = pzero). { change 2 with (1 + 1). rewrite pzmul_add by exact pT4_on. rewrite !pzmul_1. symmetry. exact pT8_eq. }
  assert (EM : pT4 = mkpt F0 (- F1)%F). { apply point_eq; apply fval_inj; vm_compute; reflexivity. }
  destruct (Z.Even_or_Odd q) as [[k ->]|[k ->]].
  - left. rewrite (Z.mul_comm 2), pzmul_mul, T2 by exact pT4_on. apply pzmul_zero.
  - right. rewrite pzmul_add, pzmul_1, (Z.mul_comm 2), pzmul_mul, T2, pzmul_zero by exact pT4_on. rewrite padd_0_l. exact EM.
Qed.
(** the abscissa test used by the code: x(8P) = 0 exactly when 8P is the neutral element *)
Lemma low_order_px P : on_curve P -> (px (smul 8 P) = F0 <-> smul 8 P = pzero).
Proof.
  intros H. change 8%N with (Z.to_N 8). assert (E8 : smul (Z.to_N 8) P = pzmul 8 P) by (rewrite <- pzmul_N; reflexivity). rewrite E8.
  split; [|intros ->; reflexivity].
  intros E. assert (O8 : on_curve (pzmul 8 P)) by now apply pzmul_on.
  destruct (px_0 _ O8 E) as [E1|E1]; [exact E1|].
  destruct (cofactor_lemma P H) as [_ [C|C]]; [exact C|exfalso].
  assert (D : (ord_L | 2)).
  { apply C. rewrite E1. assert (EM : pT4 = mkpt F0 (- F1)%F) by (apply point_eq; apply fval_inj; vm_compute; reflexivity).
    rewrite <- EM. change 2 with (1 + 1). rewrite pzmul_add by exact pT4_on. rewrite !pzmul_1. symmetry. exact pT8_eq. }
  apply Z.divide_pos_le in D; [|lia]. assert (2 < ord_L) by reflexivity. lia.
Qed.
Lemma px_nonzero_iff P : on_curve P -> (px (smul 8 P) <> F0 <-> smul 8 P <> pzero).
Proof. intros H. pose proof (low_order_px P H). tauto. Qed.

Lemma validator_exact_lemma X Y n : (X < n)%nat -> (Y < n)%nat ->
  exists g n', validator_new X Y n = (g, n') /\
   (forall s : assign, sat s (validator_constraints g) ->
      on_curve (mkpt (s X) (s Y)) /\ smul 8 (mkpt (s X) (s Y)) <> pzero) /\
   (forall s : assign, on_curve (mkpt (s X) (s Y)) -> smul 8 (mkpt (s X) (s Y)) <> pzero ->
      exists s', validator_witness g s = Ok s' /\ frame n n' s s' /\ sat s' (validator_constraints g)).
Proof.
  intros HX HY. destruct (validator_lemma X Y n HX HY) as (g & n' & E & H1 & H2). exists g, n'. split; [exact E|]. split.
  - intros s Hs. destruct (H1 s Hs) as (A & _ & B). now split.
  - intros s Ho H8. apply H2; [exact Ho|]. now apply px_nonzero_iff.
Qed.
Lemma pure_eddsa_open_exact mkb B A R s msg rbases :
  on_curve B -> on_curve A -> on_curve R -> good_bases mkb "EdDSA_Verify.RAM" (508 + List.length msg) rbases ->
  forall rb ab hb, canonical rb (px R) -> canonical ab (px A) -> canonical hb (pedersen_x rbases (rb ++ ab ++ msg)) ->
  exists b, pure_eddsa_open mkb B A R s msg = Ok b /\
    (b = true <-> smul 8 R <> pzero /\ eddsa_equation B A R (Z.to_N (fval s)) (bits_N hb)).
Proof.
  intros HB HA HR HG rb ab hb D1 D2 D3. destruct (pure_eddsa_open_lemma mkb B A R s msg rbases HB HA HR HG rb ab hb D1 D2 D3) as (b & E & H).
  exists b. split; [exact E|]. rewrite H. now rewrite px_nonzero_iff by exact HR.
Qed.
Lemma eddsa_open_exact mkb B A R s msg mbases rbases :
  on_curve B -> on_curve A -> on_curve R ->
  good_bases mkb "EdDSA_Verify.M" (List.length msg) mbases -> good_bases mkb "EdDSA_Verify.RAM" 762 rbases ->
  forall mb rb ab hb, canonical mb (pedersen_x mbases msg) -> canonical rb (px R) -> canonical ab (px A) ->
  canonical hb (pedersen_x rbases (rb ++ ab ++ mb)) ->
  exists b, eddsa_open mkb B A R s msg = Ok b /\
    (b = true <-> smul 8 R <> pzero /\ eddsa_equation B A R (Z.to_N (fval s)) (bits_N hb)).
Proof.
  intros HB HA HR HM HG mb rb ab hb D0 D1 D2 D3.
  destruct (eddsa_open_lemma mkb B A R s msg mbases rbases HB HA HR HM HG mb rb ab hb D0 D1 D2 D3) as (b & E & H).
  exists b. split; [exact E|]. rewrite H. now rewrite px_nonzero_iff by exact HR.
Qed.
