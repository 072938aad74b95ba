(** Lemmas about the model of /repo/ethsnarks/jubjub.py: the group operations and scalar multiplication. *)
From Coq Require Import List ZArith NArith Bool Arith Lia Field Ring.
From Verif Require Import Primes Field Base M_Point Spec_Curve Spec_Mont P_Curve P_Group P_Zmul P_Mont Spec_CurveOrder P_Order M_PyJubjub Spec_PyJubjub.
Import ListNotations.
Local Open Scope nat_scope.
Local Open Scope Z_scope.
Local Open Scope F_scope.

Lemma eqb2 a b c d : Feqb a b && Feqb c d = true <-> a = b /\ c = d.
Proof. rewrite andb_true_iff, !Feqb_true. reflexivity. Qed.
Lemma zero_not_on_curve : ~ on_curve (mkpt F0 F0).
Proof. unfold on_curve. cbn [px py]. intros H. apply F1_neq_0. transitivity (F1 + Fof 168696 * (F0 * F0) * (F0 * F0)); [ring|]. rewrite <- H. ring. Qed.

Lemma pt_add_ok P Q : on_curve P -> pt_add P Q = Ok (padd P Q).
Proof.
  intros H. unfold pt_add. destruct (Feqb (px P) F0 && Feqb (py P) F0) eqn:E.
  - apply eqb2 in E. destruct E as [E1 E2]. exfalso. apply zero_not_on_curve. destruct P as [x y]. cbn [px py] in *. now subst.
  - cbv zeta. f_equal. unfold padd, JUBJUB_A, JUBJUB_D. cbv zeta. apply point_eq; cbn [px py]; f_equal; ring.
Qed.

(** ** projective coordinates *)
Lemma pp_eq_inf a : pp_eq a pp_infinity = true -> a = pp_infinity.
Proof.
  unfold pp_eq, pp_infinity. rewrite !andb_true_iff, !Feqb_true. destruct a as [x y z]. cbn [ppx ppy ppz]. intros [[-> ->] ->]. reflexivity.
Qed.
Lemma proj_inf : proj_of pp_infinity pzero.
Proof. unfold proj_of, pp_infinity, pzero. cbn. repeat split; try ring. apply F1_neq_0. Qed.
Lemma proj_inf_inv P : proj_of pp_infinity P -> P = pzero.
Proof.
  unfold proj_of, pp_infinity, pzero. cbn [ppx ppy ppz]. intros (_ & E1 & E2). apply point_eq; cbn [px py].
  - rewrite E1. ring.
  - rewrite E2. ring.
Qed.
Lemma pp_add_ok a b P Q : on_curve P -> on_curve Q -> proj_of a P -> proj_of b Q ->
  exists r, pp_add a b = Ok r /\ proj_of r (padd P Q).
Proof.
  intros HP HQ Ha Hb. unfold pp_add. destruct (pp_eq a pp_infinity) eqn:E.
  { apply pp_eq_inf in E. subst a. apply proj_inf_inv in Ha. subst P. exists b. rewrite padd_0_l. auto. }
  eexists. split; [reflexivity|]. clear E.
  destruct Ha as (Z1 & X1 & Y1). destruct Hb as (Z2 & X2 & Y2).
  destruct (padd_denom P Q HP HQ) as [D1 D2].
  unfold proj_of. cbn [ppx ppy ppz]. rewrite X1, X2, Y1, Y2.
  unfold padd, JUBJUB_A, JUBJUB_D. cbn [px py]. cbv zeta.
  set (x1 := px P) in *. set (y1 := py P) in *. set (x2 := px Q) in *. set (y2 := py Q) in *.
  set (z1 := ppz a) in *. set (z2 := ppz b) in *. clearbody x1 x2 y1 y2 z1 z2.
  set (t := Fof 168696 * (x1 * x2) * (y1 * y2)) in *.
  assert (N1 : F1 + t <> F0) by exact D1. assert (N2 : F1 - t <> F0) by exact D2.
  assert (Ef : z1 * z2 * (z1 * z2) - Fof 168696 * (x1 * z1 * (x2 * z2) * (y1 * z1 * (y2 * z2))) = z1 * z2 * (z1 * z2) * (F1 - t)) by (unfold t; ring).
  assert (Eg : z1 * z2 * (z1 * z2) + Fof 168696 * (x1 * z1 * (x2 * z2) * (y1 * z1 * (y2 * z2))) = z1 * z2 * (z1 * z2) * (F1 + t)) by (unfold t; ring).
  rewrite Ef, Eg. clearbody t.
  split; [repeat apply Fmul_nz; assumption|]. split; field; auto.
Qed.
Lemma pp_double_ok a P : on_curve P -> proj_of a P -> exists r, pp_double a = Ok r /\ proj_of r (padd P P).
Proof.
  intros HP Ha. unfold pp_double. destruct (pp_eq a pp_infinity) eqn:E.
  { apply pp_eq_inf in E. subst a. apply proj_inf_inv in Ha. subst P. exists pp_infinity. rewrite padd_0_l. split; [reflexivity|exact proj_inf]. }
  eexists. split; [reflexivity|]. clear E.
  destruct Ha as (Z1 & X1 & Y1).
  destruct (padd_denom P P HP HP) as [D1 D2]. pose proof HP as HC. unfold on_curve in HC.
  unfold proj_of. cbn [ppx ppy ppz]. rewrite X1, Y1. unfold padd, JUBJUB_A. cbn [px py]. cbv zeta.
  set (x := px P) in *. set (y := py P) in *. set (z := ppz a) in *. clearbody x y z.
  set (t := Fof 168696 * (x * x) * (y * y)) in *.
  assert (N1 : F1 + t <> F0) by exact D1. assert (N2 : F1 - t <> F0) by exact D2.
  assert (Eg : Fof 168700 * (x * z * (x * z)) + y * z * (y * z) = z * z * (F1 + t)).
  { rewrite <- HC. ring. }
  rewrite Eg.
  assert (Ef : z * z * (F1 + t) - Fof 2 * (z * z) = - (z * z * (F1 - t))) by ring.
  rewrite Ef. clearbody t. clear HC Eg Ef.
  assert (NN : - (z * z * (F1 - t)) <> F0).
  { intros E. assert (E2 : z * z * (F1 - t) = F0) by (transitivity (- - (z * z * (F1 - t))); [ring|rewrite E; ring]).
    revert E2. repeat apply Fmul_nz; assumption. }
  split; [apply Fmul_nz; [repeat apply Fmul_nz; assumption|exact NN]|].
  split; field; auto.
Qed.
Lemma pp_neg_ok a P : proj_of a P -> proj_of (pp_neg a) (pneg P).
Proof. intros (Hz & Hx & Hy). unfold proj_of, pp_neg, pneg. cbn [ppx ppy ppz px py]. rewrite Hx, Hy. repeat split; try assumption; ring. Qed.
Lemma pp_as_point_ok a P : proj_of a P -> pp_as_point a = Ok P.
Proof.
  intros (Hz & Hx & Hy). unfold pp_as_point. destruct (Feqb_spec (ppz a) F0) as [E|E]; [contradiction|]. cbn [negb py_check obind]. cbv zeta. f_equal.
  apply point_eq; cbn [px py]; rewrite ?Hx, ?Hy.
  - transitivity (px P * (ppz a * Finv (ppz a))); [ring|]. rewrite Finv_r by assumption. ring.
  - transitivity (py P * (ppz a * Finv (ppz a))); [ring|]. rewrite Finv_r by assumption. ring.
Qed.
Lemma pt_as_proj_ok P : proj_of (pt_as_proj P) P.
Proof. unfold proj_of, pt_as_proj. cbn [ppx ppy ppz]. repeat split; try ring. apply F1_neq_0. Qed.

(** ** extended coordinates *)
Lemma ep_eq_inf a : ep_eq a ep_infinity = true -> a = ep_infinity.
Proof.
  unfold ep_eq, ep_infinity. rewrite !andb_true_iff, !Feqb_true. destruct a as [x y t z]. cbn [epx epy ept epz]. intros [[[-> ->] ->] ->]. reflexivity.
Qed.
Lemma etec_inf : etec_of ep_infinity pzero.
Proof. unfold etec_of, ep_infinity, pzero. cbn. repeat split; try ring. apply F1_neq_0. Qed.
Lemma etec_inf_inv P : etec_of ep_infinity P -> P = pzero.
Proof.
  unfold etec_of, ep_infinity, pzero. cbn [epx epy ept epz]. intros (_ & E1 & E2 & _). apply point_eq; cbn [px py].
  - rewrite E1. ring.
  - rewrite E2. ring.
Qed.
Lemma ep_add_ok a b P Q : on_curve P -> on_curve Q -> etec_of a P -> etec_of b Q ->
  exists r, ep_add a b = Ok r /\ etec_of r (padd P Q).
Proof.
  intros HP HQ Ha Hb. unfold ep_add. destruct (ep_eq a ep_infinity) eqn:E.
  { apply ep_eq_inf in E. subst a. apply etec_inf_inv in Ha. subst P. exists b. rewrite padd_0_l. auto. }
  clear E. destruct Ha as (Z1 & X1 & Y1 & T1). destruct Hb as (Z2 & X2 & Y2 & T2).
  destruct (Feqb_spec (epz a) F0); [contradiction|]. destruct (Feqb_spec (epz b) F0); [contradiction|]. cbn [negb py_check obind].
  eexists. split; [reflexivity|].
  destruct (padd_denom P Q HP HQ) as [D1 D2].
  unfold etec_of. cbn [epx epy ept epz]. rewrite X1, X2, Y1, Y2, T1, T2.
  unfold padd, JUBJUB_A, JUBJUB_D. cbn [px py]. cbv zeta.
  set (x1 := px P) in *. set (y1 := py P) in *. set (x2 := px Q) in *. set (y2 := py Q) in *.
  set (z1 := epz a) in *. set (z2 := epz b) in *. clearbody x1 x2 y1 y2 z1 z2.
  set (t := Fof 168696 * (x1 * x2) * (y1 * y2)) in *.
  assert (N1 : F1 + t <> F0) by exact D1. assert (N2 : F1 - t <> F0) by exact D2.
  assert (Ef : z1 * z2 - Fof 168696 * (x1 * y1 * z1) * (x2 * y2 * z2) = z1 * z2 * (F1 - t)) by (unfold t; ring).
  assert (Eg : z1 * z2 + Fof 168696 * (x1 * y1 * z1) * (x2 * y2 * z2) = z1 * z2 * (F1 + t)) by (unfold t; ring).
  rewrite Ef, Eg. clearbody t.
  split; [repeat apply Fmul_nz; assumption|]. split; [|split]; field; auto.
Qed.
Lemma ep_double_ok a P : on_curve P -> etec_of a P -> exists r, ep_double a = Ok r /\ etec_of r (padd P P).
Proof.
  intros HP Ha. unfold ep_double. destruct (ep_eq a ep_infinity) eqn:E.
  { apply ep_eq_inf in E. subst a. apply etec_inf_inv in Ha. subst P. exists ep_infinity. rewrite padd_0_l. split; [reflexivity|exact etec_inf]. }
  eexists. split; [reflexivity|]. clear E.
  destruct Ha as (Z1 & X1 & Y1 & T1).
  destruct (padd_denom P P HP HP) as [D1 D2]. pose proof HP as HC. unfold on_curve in HC.
  unfold etec_of. cbn [epx epy ept epz]. rewrite X1, Y1. unfold padd, JUBJUB_A. cbn [px py]. cbv zeta.
  set (x := px P) in *. set (y := py P) in *. set (z := epz a) in *. clearbody x y z.
  set (t := Fof 168696 * (x * x) * (y * y)) in *.
  assert (N1 : F1 + t <> F0) by exact D1. assert (N2 : F1 - t <> F0) by exact D2.
  assert (Eg : Fof 168700 * (x * z * (x * z)) + y * z * (y * z) = z * z * (F1 + t)).
  { rewrite <- HC. ring. }
  rewrite Eg.
  assert (Ef : z * z * (F1 + t) - z * z * Fof 2 = - (z * z * (F1 - t))) by ring.
  rewrite Ef. clearbody t. clear HC Eg Ef.
  assert (NN : - (z * z * (F1 - t)) <> F0).
  { intros E. assert (E2 : z * z * (F1 - t) = F0) by (transitivity (- - (z * z * (F1 - t))); [ring|rewrite E; ring]).
    revert E2. repeat apply Fmul_nz; assumption. }
  split; [apply Fmul_nz; [exact NN|repeat apply Fmul_nz; assumption]|].
  split; [|split]; field; auto.
Qed.
Lemma ep_neg_ok a P : etec_of a P -> etec_of (ep_neg a) (pneg P).
Proof. intros (Hz & Hx & Hy & Ht). unfold etec_of, ep_neg, pneg. cbn [epx epy ept epz px py]. rewrite Hx, Hy, Ht. repeat split; try assumption; ring. Qed.
Lemma ep_as_point_ok a P : etec_of a P -> ep_as_point a = P.
Proof.
  intros (Hz & Hx & Hy & _). unfold ep_as_point. cbv zeta.
  apply point_eq; cbn [px py]; rewrite ?Hx, ?Hy.
  - transitivity (px P * (epz a * Finv (epz a))); [ring|]. rewrite Finv_r by assumption. ring.
  - transitivity (py P * (epz a * Finv (epz a))); [ring|]. rewrite Finv_r by assumption. ring.
Qed.
Lemma pt_as_etec_ok P : etec_of (pt_as_etec P) P.
Proof. unfold etec_of, pt_as_etec. cbn [epx epy ept epz]. repeat split; try ring. apply F1_neq_0. Qed.
Lemma ep_as_proj_ok a P : etec_of a P -> proj_of (ep_as_proj a) P.
Proof. intros (Hz & Hx & Hy & _). unfold proj_of, ep_as_proj. cbn. auto. Qed.
(** the conversion that is wrong *)
Lemma pp_as_etec_iff a P : proj_of a P -> (etec_of (pp_as_etec a) P <-> ppz a = F1 \/ px P = F0 \/ py P = F0).
Proof.
  intros (Hz & Hx & Hy). unfold etec_of, pp_as_etec. cbn [epx epy ept epz]. split.
  - intros (_ & _ & _ & Ht). rewrite Hx, Hy in Ht.
    assert (E : px P * (py P * (ppz a * (ppz a - F1))) = F0).
    { transitivity (px P * ppz a * (py P * ppz a) - px P * py P * ppz a); [ring|]. rewrite Ht. ring. }
    apply Fmul_integral in E. destruct E as [E|E]; [auto|]. apply Fmul_integral in E. destruct E as [E|E]; [auto|].
    apply Fmul_integral in E. destruct E as [E|E]; [contradiction|]. left. now apply Fsub_eq0.
  - intros D. split; [assumption|]. split; [assumption|]. split; [assumption|]. rewrite Hx, Hy.
    destruct D as [-> |[-> | ->]]; ring.
Qed.

(** ** scalar multiplication *)
Section Generic.
Variable T : Type.
Variable c : curve_class T.
Variable R : T -> point -> Prop.
Variable D : point -> Prop.
Hypothesis Rinf : R (cc_infinity c) pzero.
Hypothesis Radd : forall a b P Q, on_curve P -> on_curve Q -> R a P -> R b Q -> exists r, cc_add c a b = Ok r /\ R r (padd P Q).
Hypothesis Rdbl : forall a P, on_curve P -> D P -> R a P -> exists r, cc_double c a = Ok r /\ R r (padd P P).
Hypothesis Rneg : forall a P, on_curve P -> R a P -> R (cc_neg c a) (pneg P).

Lemma pzmul_1 P : pzmul 1 P = P.
Proof. cbn [pzmul]. apply smul_1. Qed.
Lemma pzmul_dbl P : on_curve P -> pzmul 2 P = padd P P.
Proof. intros H. replace 2%Z with (1 + 1)%Z by reflexivity. rewrite pzmul_add by assumption. now rewrite pzmul_1. Qed.

Lemma mult_loop_ok : forall f v a p A Q, (0 <= v < 2 ^ Z.of_nat f)%Z -> on_curve A -> on_curve Q ->
  (forall i, (0 <= i < Z.of_nat f)%Z -> (2 ^ i <= v)%Z -> D (pzmul (2 ^ i) Q)) -> R a A -> R p Q ->
  exists r, mult_loop c (S f) v a p = Some (Ok r) /\ R r (padd A (pzmul v Q)).
Proof using Radd Rdbl.
  induction f as [|f IH]; intros v a p A Q Hv HA HQ HD Ra Rp.
  - change (2 ^ Z.of_nat 0)%Z with 1%Z in Hv. assert (v = 0%Z) by lia. subst v. cbn [mult_loop Z.eqb].
    exists a. split; [reflexivity|]. cbn [pzmul]. now rewrite padd_0_r.
  - change (mult_loop c (S (S f)) v a p) with
      (if (v =? 0)%Z then Some (Ok a) else match (if negb (Z.land v 1 =? 0)%Z then cc_add c a p else Ok a) with
        | Ok a => match cc_double c p with Ok p => mult_loop c (S f) (v / 2)%Z a p | e => Some e end | e => Some e end).
    destruct (Z.eqb_spec v 0) as [-> |Hnz].
    { exists a. split; [reflexivity|]. cbn [pzmul]. now rewrite padd_0_r. }
    rewrite Nat2Z.inj_succ, Z.pow_succ_r in Hv by lia.
    assert (Hland : Z.land v 1 = (v mod 2)%Z) by (change 1%Z with (Z.ones 1); now rewrite Z.land_ones by lia).
    rewrite Hland.
    pose proof (Z.div_mod v 2 ltac:(lia)) as DM. pose proof (Z.mod_pos_bound v 2 ltac:(lia)) as MB.
    assert (B : (0 <= v / 2 < 2 ^ Z.of_nat f)%Z) by (split; [apply Z.div_pos; lia|apply Z.div_lt_upper_bound; lia]).
    destruct (Rdbl p Q HQ) as (p2 & Ep & Rp2); [|exact Rp|].
    { specialize (HD 0%Z). change (2 ^ 0)%Z with 1%Z in HD. rewrite pzmul_1 in HD. apply HD; lia. }
    assert (HD2 : forall i, (0 <= i < Z.of_nat f)%Z -> (2 ^ i <= v / 2)%Z -> D (pzmul (2 ^ i) (padd Q Q))).
    { intros i Hi Hle. rewrite <- (pzmul_dbl Q HQ). rewrite <- pzmul_mul by assumption. 
      replace (2 ^ i * 2)%Z with (2 ^ (i + 1))%Z by (rewrite Z.pow_add_r by lia; reflexivity).
      apply HD; [lia|]. rewrite Z.pow_add_r by lia. change (2 ^ 1)%Z with 2%Z. lia. }
    assert (HQ2 : on_curve (padd Q Q)) by now apply padd_closed.
    assert (E2 : pzmul (v / 2) (padd Q Q) = pzmul (2 * (v / 2)) Q).
    { rewrite <- (pzmul_dbl Q HQ), <- pzmul_mul by assumption. f_equal. lia. }
    destruct (Z.eqb_spec (v mod 2) 0) as [E|E]; cbn [negb].
    + rewrite Ep. destruct (IH (v / 2)%Z a p2 A (padd Q Q) B HA HQ2 HD2 Ra Rp2) as (r & H1 & H2).
      exists r. split; [exact H1|]. rewrite E2 in H2. replace v with (2 * (v / 2))%Z at 1 by lia. exact H2.
    + destruct (Radd a p A Q HA HQ Ra Rp) as (a2 & Ea & Ra2). rewrite Ea, Ep.
      destruct (IH (v / 2)%Z a2 p2 (padd A Q) (padd Q Q) B) as (r & H1 & H2); try assumption.
      { now apply padd_closed. }
      exists r. split; [exact H1|]. rewrite E2 in H2.
      rewrite padd_assoc in H2 by (try assumption; now apply pzmul_on).
      replace v with (1 + 2 * (v / 2))%Z at 1 by lia. rewrite pzmul_add, pzmul_1 by assumption. exact H2.
Qed.
Lemma mult_fuel_ok v : (0 <= v)%Z -> (0 <= v < 2 ^ Z.of_nat (S (Z.to_nat (Z.log2 v))))%Z.
Proof.
  intros H. split; [assumption|]. rewrite Nat2Z.inj_succ, Z2Nat.id by apply Z.log2_nonneg.
  destruct (Z.eq_dec v 0) as [-> |N]; [reflexivity|]. apply Z.log2_spec. lia.
Qed.
Lemma py_mult_int v p Q : (0 <= v)%Z -> on_curve Q -> (forall i, (0 <= i)%Z -> (2 ^ i <= v)%Z -> D (pzmul (2 ^ i) Q)) -> R p Q ->
  exists r, py_mult c p (SInt v) = Ok r /\ R r (pzmul v Q).
Proof using Radd Rdbl Rinf.
  intros Hv HQ HD Rp. unfold py_mult, mult_fuel.
  destruct (mult_loop_ok _ v (cc_infinity c) p pzero Q (mult_fuel_ok v Hv) pzero_on HQ) as (r & H1 & H2); auto.
  { intros i Hi Hle. apply HD; [lia|assumption]. }
  rewrite H1. exists r. split; [reflexivity|]. now rewrite padd_0_l in H2.
Qed.

(** ** the digits *)
Lemma naf_loop_ok P p : (forall Q, D Q) -> on_curve P -> R p P -> forall ds k a, Forall (fun d => -1 <= d <= 1)%Z ds -> R a (pzmul k P) ->
  exists r, naf_loop c p a ds = Ok r /\ R r (pzmul (fold_left (fun v d => 2 * v + d)%Z ds k) P).
Proof using Radd Rdbl Rneg.
  intros HD HP Rp. induction ds as [|d ds IH]; intros k a HF Ra; [exists a; split; [reflexivity|exact Ra]|].
  inversion HF as [|? ? Hd HF']; subst. cbn [naf_loop fold_left].
  destruct (Rdbl a (pzmul k P) (pzmul_on _ _ HP) (HD _) Ra) as (a2 & E2 & R2). rewrite E2. cbn [obind].
  rewrite <- pzmul_add in R2 by assumption. replace (k + k)%Z with (2 * k)%Z in R2 by lia.
  destruct (Z.eqb_spec d 1) as [-> |N1]; [|destruct (Z.eqb_spec d (-1)) as [-> |N2]].
  - destruct (Radd a2 p _ P (pzmul_on _ _ HP) HP R2 Rp) as (a3 & E3 & R3). rewrite E3. cbn [obind]. apply IH; [assumption|].
    rewrite pzmul_add, pzmul_1 by assumption. exact R3.
  - destruct (Radd a2 (cc_neg c p) _ (pneg P) (pzmul_on _ _ HP) (pneg_on _ HP) R2 (Rneg p P HP Rp)) as (a3 & E3 & R3). rewrite E3. cbn [obind]. apply IH; [assumption|].
    rewrite pzmul_add by assumption. replace (pzmul (-1) P) with (pneg P); [exact R3|].
    change (-1)%Z with (- (1))%Z. now rewrite pzmul_opp, pzmul_1.
  - cbn [obind]. apply IH; [assumption|]. replace d with 0%Z by lia. now rewrite Z.add_0_r.
Qed.
Definition window_good (w : pydict T) (P : point) (m : Z) : Prop :=
  dict_get w 0 = Ok None /\
  forall n, (n = 2 \/ Z.odd n = true)%Z -> (0 < n < m)%Z ->
    (exists t, dict_get w n = Ok (Some t) /\ R t (pzmul n P)) /\ (exists t, dict_get w (- n)%Z = Ok (Some t) /\ R t (pzmul (- n) P)).
Lemma window_step_ok P p n w : (forall Q, D Q) -> on_curve P -> R p P -> (1 <= n)%Z -> window_good w P n ->
  exists w', window_step c p w n = Ok w' /\ window_good w' P (n + 1).
Proof using Radd Rdbl Rneg.
  intros HD HP Rp Hn [W0 W]. unfold window_step.
  destruct (negb (n =? 1)%Z && negb (n =? 2)%Z && (2 <? n)%Z && (n mod 2 =? 0)%Z) eqn:E.
  - exists w. split; [reflexivity|]. split; [assumption|]. intros k Hk Hr.
    rewrite !andb_true_iff, !negb_true_iff in E. destruct E as [[[E1 E2] E3] E4].
    apply Z.eqb_neq in E2. apply Z.eqb_eq in E4.
    apply W; [assumption|]. assert (k <> n); [|lia]. intros ->.
    destruct Hk as [Hk|Hk]; [contradiction|]. rewrite Zmod_odd, Hk in E4. discriminate.
  - assert (K : exists t, (if (n =? 1)%Z then Ok p
          else if (n =? 2)%Z then cc_double c p
          else (q <- dict_point w (n - 2)%Z ;; r <- dict_point w 2 ;; cc_add c q r)) = Ok t /\ R t (pzmul n P)).
    { destruct (Z.eqb_spec n 1) as [-> |N1]; [exists p; split; [reflexivity|now rewrite pzmul_1]|].
      destruct (Z.eqb_spec n 2) as [-> |N2].
      { destruct (Rdbl p P HP (HD _) Rp) as (r & E2 & R2). exists r. split; [assumption|]. now rewrite pzmul_dbl. }
      cbn [negb] in E. assert (L : (2 <? n)%Z = true) by (apply Z.ltb_lt; lia). rewrite L in E. cbn [andb] in E.
      assert (O : Z.odd n = true). { apply Z.eqb_neq in E. rewrite Zmod_odd in E. destruct (Z.odd n); [reflexivity|now contradiction E]. }
      destruct (W (n - 2)%Z) as [(t1 & G1 & R1) _]; [right; rewrite Z.odd_sub, O; reflexivity|lia|].
      destruct (W 2%Z) as [(t2 & G2 & R2) _]; [now left|lia|].
      unfold dict_point. rewrite G1, G2. cbn [obind].
      destruct (Radd t1 t2 _ _ (pzmul_on _ _ HP) (pzmul_on _ _ HP) R1 R2) as (r & E3 & R3). exists r. split; [assumption|].
      rewrite <- pzmul_add in R3 by assumption. now replace (n - 2 + 2)%Z with n in R3 by lia. }
    destruct K as (t & K1 & K2). rewrite K1. cbn [obind]. eexists. split; [reflexivity|].
    assert (G : forall k, dict_get ((- n, Some (cc_neg c t))%Z :: (n, Some t) :: w) k =
      if (k =? - n)%Z then Ok (Some (cc_neg c t)) else if (k =? n)%Z then Ok (Some t) else dict_get w k) by reflexivity.
    split.
    + rewrite G. destruct (Z.eqb_spec 0 (- n)); [lia|]. destruct (Z.eqb_spec 0 n); [lia|assumption].
    + intros k Hk Hr. rewrite !G. destruct (Z.eqb_spec k (- n)); [lia|]. destruct (Z.eqb_spec k n) as [-> |N].
      * split; [now exists t|]. destruct (Z.eqb_spec (- n) (- n)); [|lia]. exists (cc_neg c t). split; [reflexivity|].
        rewrite pzmul_opp. apply Rneg; [now apply pzmul_on|assumption].
      * destruct (Z.eqb_spec (- k) (- n)); [lia|]. destruct (Z.eqb_spec (- k) n); [lia|]. apply W; [assumption|lia].
Qed.
Lemma window_loop_ok P p : (forall Q, D Q) -> on_curve P -> R p P -> forall k s w, (1 <= s)%nat -> window_good w P (Z.of_nat s) ->
  exists w', window_loop c p (map Z.of_nat (seq s k)) w = Ok w' /\ window_good w' P (Z.of_nat (s + k)).
Proof using Radd Rdbl Rneg.
  intros HD HP Rp. induction k as [|k IH]; intros s w Hs HW; cbn [seq map window_loop].
  - exists w. now rewrite Nat.add_0_r.
  - destruct (window_step_ok P p (Z.of_nat s) w HD HP Rp) as (w1 & E1 & W1); [lia|assumption|]. rewrite E1. cbn [obind].
    replace (Z.of_nat s + 1)%Z with (Z.of_nat (S s)) in W1 by lia.
    destruct (IH (S s) w1) as (w2 & E2 & W2); [lia|assumption|]. exists w2. split; [assumption|]. now replace (s + S k)%nat with (S s + k)%nat by lia.
Qed.
Lemma py_naf_window_ok P p w : (forall Q, D Q) -> on_curve P -> R p P -> (1 <= w)%Z ->
  exists d, py_naf_window c p w = Ok d /\ window_good d P (2 ^ (w - 1)).
Proof using Radd Rdbl Rneg.
  intros HD HP Rp Hw. unfold py_naf_window. cbv zeta.
  replace (2 ^ w / 2)%Z with (2 ^ (w - 1))%Z.
  2:{ replace w with (w - 1 + 1)%Z at 2 by lia. rewrite Z.pow_add_r by lia. change (2 ^ 1)%Z with 2%Z. now rewrite Z.div_mul. }
  assert (B : (1 <= 2 ^ (w - 1))%Z) by (assert (0 < 2 ^ (w - 1))%Z by (apply Z.pow_pos_nonneg; lia); lia).
  destruct (window_loop_ok P p HD HP Rp (Z.to_nat (2 ^ (w - 1)) - 1) 1 [(0%Z, None)]) as (d & E & W).
  - lia.
  - split; [reflexivity|]. intros n _ Hn. lia.
  - exists d. split; [assumption|]. replace (Z.of_nat (1 + (Z.to_nat (2 ^ (w - 1)) - 1))) with (2 ^ (w - 1))%Z in W by lia. assumption.
Qed.
Lemma lut_loop_ok P d w : (forall Q, D Q) -> on_curve P -> window_good d P (2 ^ (w - 1)) ->
  forall ds k a, Forall (naf_digit w) ds -> R a (pzmul k P) ->
  exists r, lut_loop c d a ds = Ok r /\ R r (pzmul (fold_left (fun v d => 2 * v + d)%Z ds k) P).
Proof using Radd Rdbl.
  intros HD HP [W0 W]. induction ds as [|x ds IH]; intros k a HF Ra; [exists a; split; [reflexivity|exact Ra]|].
  inversion HF as [|? ? Hx HF']; subst. cbn [lut_loop fold_left].
  destruct (Rdbl a (pzmul k P) (pzmul_on _ _ HP) (HD _) Ra) as (a2 & E2 & R2). rewrite E2. cbn [obind].
  rewrite <- pzmul_add in R2 by assumption. replace (k + k)%Z with (2 * k)%Z in R2 by lia.
  assert (K : x = 0%Z \/ exists t, dict_get d x = Ok (Some t) /\ R t (pzmul x P)).
  { destruct Hx as [Hx|[Hx1 Hx2]]; [now left|]. right.
    assert (x <> 0%Z) by (intros ->; discriminate).
    destruct (Z.abs_spec x) as [[H1 H2]|[H1 H2]].
    - apply W; [now right|lia].
    - replace x with (- (- x))%Z by lia. apply W; [right; now rewrite Z.odd_opp|lia]. }
  destruct K as [-> |(t & Et & Rt)].
  - rewrite W0. cbn [obind]. apply IH; [assumption|]. now rewrite Z.add_0_r.
  - rewrite Et. cbn [obind]. destruct (Radd a2 t _ _ (pzmul_on _ _ HP) (pzmul_on _ _ HP) R2 Rt) as (a3 & E3 & R3). rewrite E3. cbn [obind].
    apply IH; [assumption|]. now rewrite pzmul_add.
Qed.
End Generic.

(** negative scalars: the loop does not end *)
Lemma mult_loop_negative T (c : curve_class T) : (forall a b, exists r, cc_add c a b = Ok r) -> (forall a, exists r, cc_double c a = Ok r) ->
  forall f v a p, (v < 0)%Z -> mult_loop c f v a p = None.
Proof.
  intros HA HD. induction f as [|f IH]; intros v a p Hv; [reflexivity|]. cbn [mult_loop].
  destruct (Z.eqb_spec v 0); [lia|].
  destruct (HD p) as (p2 & E). rewrite E. assert (v / 2 < 0)%Z by (apply Z.div_lt_upper_bound; lia).
  destruct (negb (Z.land v 1 =? 0)%Z); [destruct (HA a p) as (a2 & ->)|]; now apply IH.
Qed.
