(** Integer multiples of curve points, and points with equal Montgomery abscissa. *)
From Coq Require Import List ZArith NArith Bool Arith Lia.
From Coq.setoid_ring Require Import Field_tac.
From Verif Require Import Field Base R1CS R1CSFacts M_Point Spec_Curve Spec_Mont P_Curve P_JubLeaf P_Group P_Mont.
Import ListNotations.
Local Open Scope F_scope.

Lemma padd_cancel_l P Q R : on_curve P -> on_curve Q -> on_curve R -> padd P Q = padd P R -> Q = R.
Proof.
  intros HP HQ HR E.
  assert (K : forall X, on_curve X -> padd (pneg P) (padd P X) = X).
  { intros X HX. rewrite <- padd_assoc by auto using pneg_on. rewrite (padd_comm (pneg P) P), padd_neg_r by assumption. apply padd_0_l. }
  rewrite <- (K Q HQ), <- (K R HR), E. reflexivity.
Qed.

Lemma pneg_pneg P : pneg (pneg P) = P.
Proof. apply point_eq; unfold pneg; cbn [px py]; [ring|reflexivity]. Qed.
Lemma pneg_padd P Q : on_curve P -> on_curve Q -> pneg (padd P Q) = padd (pneg P) (pneg Q).
Proof.
  intros HP HQ. apply (padd_cancel_l (padd P Q)); auto using padd_closed, pneg_on.
  rewrite padd_neg_r by auto using padd_closed.
  rewrite padd_swap by auto using pneg_on. rewrite !padd_neg_r by assumption. symmetry. apply padd_0_l.
Qed.
Lemma pneg_0 : pneg pzero = pzero.
Proof. apply point_eq; unfold pneg, pzero; cbn [px py]; [ring|reflexivity]. Qed.

Lemma pzmul_on z P : on_curve P -> on_curve (pzmul z P).
Proof. intros H. destruct z; cbn [pzmul]; auto using pzero_on, pneg_on, smul_on. Qed.
Lemma pzmul_N n P : pzmul (Z.of_N n) P = smul n P.
Proof. destruct n; reflexivity. Qed.
Lemma pzmul_opp z P : pzmul (- z) P = pneg (pzmul z P).
Proof. destruct z; cbn [pzmul Z.opp]; [now rewrite pneg_0|reflexivity|now rewrite pneg_pneg]. Qed.

Lemma pzmul_sub_N a b P : on_curve P -> pzmul (Z.of_N a - Z.of_N b) P = padd (smul a P) (pneg (smul b P)).
Proof.
  intros H. destruct (N.le_ge_cases b a) as [L|L].
  - replace (Z.of_N a - Z.of_N b)%Z with (Z.of_N (a - b)) by lia. rewrite pzmul_N.
    replace (smul a P) with (padd (smul (a - b) P) (smul b P)).
    + rewrite padd_assoc, padd_neg_r, padd_0_r; auto using smul_on, pneg_on.
    + rewrite <- smul_add by assumption. f_equal. lia.
  - replace (Z.of_N a - Z.of_N b)%Z with (- Z.of_N (b - a))%Z by lia. rewrite pzmul_opp, pzmul_N.
    replace (smul b P) with (padd (smul a P) (smul (b - a) P)).
    + rewrite pneg_padd by auto using smul_on. rewrite <- padd_assoc, padd_neg_r, padd_0_l; auto using smul_on, pneg_on.
    + rewrite <- smul_add by assumption. f_equal. lia.
Qed.

Lemma pzmul_add a b P : on_curve P -> pzmul (a + b) P = padd (pzmul a P) (pzmul b P).
Proof.
  intros H.
  assert (D : forall z, exists u v, z = (Z.of_N u - Z.of_N v)%Z).
  { intros z. exists (Z.to_N z), (Z.to_N (- z)). lia. }
  destruct (D a) as (u & v & ->). destruct (D b) as (u' & v' & ->).
  replace (Z.of_N u - Z.of_N v + (Z.of_N u' - Z.of_N v'))%Z with (Z.of_N (u + u') - Z.of_N (v + v'))%Z by lia.
  rewrite !pzmul_sub_N by assumption. rewrite !smul_add by assumption. rewrite pneg_padd by auto using smul_on.
  apply padd_swap; auto using smul_on, pneg_on.
Qed.
Lemma pzmul_sub a b P : on_curve P -> pzmul (a - b) P = padd (pzmul a P) (pneg (pzmul b P)).
Proof. intros H. replace (a - b)%Z with (a + - b)%Z by lia. rewrite pzmul_add by assumption. now rewrite pzmul_opp. Qed.

(** no positive multiple below 2^248 vanishes *)

Lemma large_order_z B z : on_curve B -> large_order B -> (Z.abs z < 2 ^ 248)%Z -> pzmul z B = pzero -> z = 0%Z.
Proof.
  intros H HB Hz E. destruct z as [|q|q]; [reflexivity|exfalso..].
  - apply (HB (Npos q)); [|exact E]. change (2 ^ 248)%N with (Z.to_N (2 ^ 248)). lia.
  - cbn [pzmul] in E. apply (HB (Npos q)).
    + change (2 ^ 248)%N with (Z.to_N (2 ^ 248)). lia.
    + rewrite <- (pneg_pneg (smul _ _)), E. apply pneg_0.
Qed.
Lemma large_order_px B z : on_curve B -> large_order B -> (Z.abs (2 * z) < 2 ^ 248)%Z -> z <> 0%Z -> px (pzmul z B) <> F0.
Proof.
  intros H HB Hz Nz E. apply Nz. assert (E2 : (2 * z)%Z = 0%Z); [|lia].
  apply (large_order_z B); auto. replace (2 * z)%Z with (z + z)%Z by lia. rewrite pzmul_add by assumption.
  destruct (px_0 (pzmul z B) (pzmul_on z B H) E) as [-> | ->].
  - apply padd_0_l.
  - symmetry. apply padd_val; [unfold on_curve; cbn [px py]; ring..|]. cbn [px py]. split; ring.
Qed.

(** equal ordinates *)
Lemma a_dy2 y : Fof 168700 - Fof 168696 * (y * y) <> F0.
Proof.
  intros E. apply (proj1 (Fsub_eq0 _ _)) in E.
  assert (Ny : y <> F0). { intros ->. apply sqrt_a_nz. assert (E2 : sqrt_a * sqrt_a = F0) by (rewrite sqrt_a_ok, E; ring). apply Fmul_integral in E2. tauto. }
  apply (d_nonsquare (sqrt_a / y)). transitivity (sqrt_a * sqrt_a / (y * y)); [field; exact Ny|]. rewrite sqrt_a_ok, E. field. exact Ny.
Qed.
Lemma py_eq P Q : on_curve P -> on_curve Q -> py P = py Q -> P = Q \/ P = pneg Q.
Proof.
  intros HP HQ E. unfold on_curve in *.
  assert (K : forall R, Fof 168700 * (px R * px R) + py R * py R = F1 + Fof 168696 * (px R * px R) * (py R * py R) ->
     (Fof 168700 - Fof 168696 * (py R * py R)) * (px R * px R) = F1 - py R * py R).
  { intros R H. transitivity (Fof 168700 * (px R * px R) + py R * py R - Fof 168696 * (px R * px R) * (py R * py R) - py R * py R); [ring|]. rewrite H. ring. }
  apply K in HP. apply K in HQ. rewrite E in HP. rewrite <- HQ in HP. apply Fmul_cancel_l in HP; [|apply a_dy2].
  assert (E2 : (px P - px Q) * (px P - - px Q) = F0). { transitivity (px P * px P - px Q * px Q); [ring|]. rewrite HP. ring. }
  apply Fmul_integral in E2. destruct E2 as [E2|E2]; apply (proj1 (Fsub_eq0 _ _)) in E2; [left|right]; apply point_eq; unfold pneg; cbn [px py]; assumption.
Qed.
Lemma to_mont_px_eq P Q : on_curve P -> on_curve Q -> px P <> F0 -> px Q <> F0 ->
  px (to_mont P) = px (to_mont Q) -> P = Q \/ P = pneg Q.
Proof.
  intros HP HQ NP NQ E. apply py_eq; auto. unfold to_mont in E. cbn [px] in E.
  pose proof (Fopp_sub1 _ (px_nz_py1 P HP NP)) as N1. pose proof (Fopp_sub1 _ (px_nz_py1 Q HQ NQ)) as N2.
  apply Fdiv_eq in E; [|exact N1].
  assert (E2 : (F1 + py P) * (F1 - py Q) = (F1 + py Q) * (F1 - py P)). { rewrite E. field. exact N2. }
  apply (Fmul_cancel_l (Fof 2)); [exact F2_neq_0|]. rewrite Fof2.
  transitivity ((F1 + py P) * (F1 - py Q) - F1 + py P + py Q + py P * py Q - F1 + F1); [ring|]. rewrite E2. ring.
Qed.
Lemma to_mont_neg P : on_curve P -> px P <> F0 -> to_mont (pneg P) = mkpt (px (to_mont P)) (- py (to_mont P)).
Proof.
  intros H N. pose proof (Fopp_sub1 _ (px_nz_py1 P H N)) as N1. unfold to_mont, pneg. cbn [px py]. apply point_eq; cbn [px py]; [reflexivity|].
  field. repeat split; auto. intros E. apply N. transitivity (- - px P); [ring|]. rewrite E. ring.
Qed.

Lemma chord_to_mont P Q : on_curve P -> on_curve Q -> px P <> F0 -> px Q <> F0 ->
  px (to_mont P) <> px (to_mont Q) -> px (padd P Q) <> F0 ->
  chord (to_mont P) (to_mont Q) = to_mont (padd P Q).
Proof.
  intros HP HQ NP NQ NE NS. destruct (to_mont_ok P HP NP) as (MP & _ & _ & EP & _). destruct (to_mont_ok Q HQ NQ) as (MQ & _ & _ & EQ & _).
  pose proof (chord_on _ _ MP MQ NE) as MC. pose proof (chord_sum _ _ MP MQ NE) as ES. rewrite EP, EQ in ES.
  destruct (Feq_dec (py (chord (to_mont P) (to_mont Q))) F0) as [E|E].
  - exfalso. apply NS. rewrite <- ES. unfold of_mont. rewrite E, Feqb_refl. reflexivity.
  - destruct (of_mont_back _ MC E) as (_ & EB & _). rewrite <- EB, ES. reflexivity.
Qed.
