(** Lemmas about the model of the JubJub contracts: extended coordinates represent curve points. *)
From Coq Require Import List ZArith NArith Bool Arith Lia Field Ring.
From Verif Require Import Pocklington Primes Field Base M_Point Spec_Curve Spec_Mont P_Curve P_Group P_Zmul M_Evm M_SolJubjub Spec_SolJubjub.
Import ListNotations.
Local Open Scope Z_scope.
Local Open Scope F_scope.

Lemma sol_Q_p : sol_Q = p_mod.
Proof. reflexivity. Qed.
Lemma sol_Q_pos : (0 < sol_Q < wsize)%Z.
Proof. split; reflexivity. Qed.
Lemma mulmod_Q a b : mulmod a b sol_Q = (a * b mod p_mod)%Z.
Proof. reflexivity. Qed.
Lemma addmod_Q a b : addmod a b sol_Q = ((a + b) mod p_mod)%Z.
Proof. reflexivity. Qed.
Lemma Fof_modp z : Fof (z mod p_mod) = Fof z.
Proof. apply Fof_eq_iff. apply Zmod_mod. Qed.
Lemma Fof_mulmod a b : Fof (mulmod a b sol_Q) = Fof a * Fof b.
Proof. rewrite mulmod_Q, Fof_modp. apply Fof_mul. Qed.
Lemma Fof_addmod a b : Fof (addmod a b sol_Q) = Fof a + Fof b.
Proof. rewrite addmod_Q, Fof_modp. apply Fof_add. Qed.
Lemma p_mod_range z : (0 <= z mod p_mod < sol_Q)%Z.
Proof. rewrite sol_Q_p. apply Z.mod_pos_bound. reflexivity. Qed.
Lemma mulmod_range a b : (0 <= mulmod a b sol_Q < sol_Q)%Z.
Proof. rewrite mulmod_Q. apply p_mod_range. Qed.
Lemma Fof_wsub a : (0 <= a <= sol_Q)%Z -> Fof (wsub sol_Q a) = - Fof a.
Proof.
  intros H. pose proof sol_Q_pos as HQ. unfold wsub. rewrite Z.mod_small by lia.
  rewrite Fof_sub, sol_Q_p, Fof_p. ring.
Qed.
Lemma Fof_wsub_mul a b : Fof (wsub sol_Q (mulmod a b sol_Q)) = - (Fof a * Fof b).
Proof. pose proof (mulmod_range a b). rewrite Fof_wsub by lia. now rewrite Fof_mulmod. Qed.

Lemma Fof_mod_inv z : Fof z <> F0 -> Fof (mod_inv z sol_Q) = Finv (Fof z).
Proof.
  intros H. unfold mod_inv, modexp, modexp_precompile.
  replace (wsub sol_Q 2) with (p_mod - 2)%Z by (unfold wsub; rewrite Z.mod_small by (split; vm_compute; congruence); reflexivity).
  change (sol_Q =? 0)%Z with false. cbv iota. change sol_Q with p_mod.
  rewrite powmod_spec by (vm_compute; congruence). rewrite Fof_modp.
  apply (Fmul_cancel_l (Fof z)); [assumption|]. rewrite Finv_r by assumption. rewrite <- Fof_mul.
  rewrite <- Z.pow_succ_r by (vm_compute; congruence). change (Z.succ (p_mod - 2)) with (p_mod - 1)%Z.
  apply Fof_eq_iff. rewrite fermat_unit; [reflexivity|exact prime_p_mod|].
  intros E. apply H. apply Fof_eq_iff. rewrite E. reflexivity.
Qed.
Lemma mod_inv_0 : mod_inv 0 sol_Q = 0%Z.
Proof.
  unfold mod_inv, modexp, modexp_precompile.
  replace (wsub sol_Q 2) with (p_mod - 2)%Z by (unfold wsub; rewrite Z.mod_small by (split; vm_compute; congruence); reflexivity).
  change (sol_Q =? 0)%Z with false. cbv iota. change sol_Q with p_mod.
  rewrite powmod_spec by (vm_compute; congruence). rewrite Z.pow_0_l by reflexivity. reflexivity.
Qed.

(** the extended coordinates [e] represent the point [P] *)
Definition rep (e : etec) (P : point) : Prop :=
  Fof (eZ e) <> F0 /\ Fof (eX e) = px P * Fof (eZ e) /\ Fof (eY e) = py P * Fof (eZ e) /\
  Fof (eT e) = px P * py P * Fof (eZ e).

Lemma rep_point x y : rep (pointToEtec x y sol_Q) (mkpt (Fof x) (Fof y)).
Proof.
  unfold rep, pointToEtec. cbn [eX eY eT eZ px py]. rewrite Fof_mulmod. change (Fof 1) with F1.
  repeat split; try ring. apply F1_neq_0.
Qed.
Lemma rep_identity : rep etec_identity pzero.
Proof.
  unfold rep, etec_identity, pzero. cbn [eX eY eT eZ px py]. change (Fof 1) with F1. change (Fof 0) with F0.
  repeat split; try ring. apply F1_neq_0.
Qed.

Lemma rep_toPoint e P : rep e P -> etecToPoint e sol_Q = (fval (px P), fval (py P)).
Proof.
  intros (Hz & Hx & Hy & _). unfold etecToPoint. cbv zeta.
  assert (K : forall v c, Fof v = c * Fof (eZ e) -> mulmod v (mod_inv (eZ e) sol_Q) sol_Q = fval c).
  { intros v c Hv. rewrite mulmod_Q. rewrite <- fval_Fof. f_equal. rewrite Fof_mul, Hv, Fof_mod_inv by assumption.
    transitivity (c * (Fof (eZ e) * Finv (Fof (eZ e)))); [ring|]. rewrite Finv_r by assumption. ring. }
  f_equal; apply K; assumption.
Qed.

Lemma rep_add e1 e2 P Q : on_curve P -> on_curve Q -> rep e1 P -> rep e2 Q -> rep (jj_etecAdd e1 e2) (padd P Q).
Proof.
  intros HP HQ (Z1 & X1 & Y1 & T1) (Z2 & X2 & Y2 & T2).
  destruct (padd_denom P Q HP HQ) as [D1 D2].
  unfold jj_etecAdd, etecAdd. cbv zeta. unfold rep. cbn [eX eY eT eZ].
  repeat rewrite ?Fof_mulmod, ?Fof_addmod, ?Fof_wsub_mul.
  rewrite X1, X2, Y1, Y2, T1, T2.
  unfold padd. cbn [px py]. cbv zeta.
  set (x1 := px P) in *. set (y1 := py P) in *. set (x2 := px Q) in *. set (y2 := py Q) in *.
  set (z1 := Fof (eZ e1)) in *. set (z2 := Fof (eZ e2)) in *. 
  change (Fof sol_D) with (Fof 168696). change (Fof sol_A) with (Fof 168700).
  clearbody x1 x2 y1 y2 z1 z2.
  set (t := Fof 168696 * (x1 * x2) * (y1 * y2)) in *.
  assert (N1 : F1 + t <> F0) by exact D1. assert (N2 : F1 - t <> F0) by exact D2.
  assert (Ef : z1 * z2 + - (Fof 168696 * (x1 * y1 * z1) * (x2 * y2 * z2)) = z1 * z2 * (F1 - t)) by (unfold t; ring).
  assert (Eg : z1 * z2 + Fof 168696 * (x1 * y1 * z1) * (x2 * y2 * z2) = z1 * z2 * (F1 + t)) by (unfold t; ring).
  rewrite Ef, Eg. clearbody t.
  split; [repeat apply Fmul_nz; assumption|].
  split; [|split]; field; auto.
Qed.

Lemma rep_double e P : on_curve P -> rep e P -> rep (jj_etecDouble e) (padd P P).
Proof.
  intros HP (Z1 & X1 & Y1 & T1).
  destruct (padd_denom P P HP HP) as [D1 D2]. pose proof HP as HC. unfold on_curve in HC.
  unfold jj_etecDouble, etecDouble. cbv zeta. unfold rep. cbn [eX eY eT eZ].
  repeat rewrite ?Fof_mulmod, ?Fof_addmod, ?Fof_wsub_mul.
  rewrite X1, Y1.
  unfold padd. cbn [px py]. cbv zeta.
  set (x := px P) in *. set (y := py P) in *. set (z := Fof (eZ e)) in *.
  change (Fof sol_A) with (Fof 168700).
  clearbody x y z.
  set (t := Fof 168696 * (x * x) * (y * y)) in *.
  assert (N1 : F1 + t <> F0) by exact D1. assert (N2 : F1 - t <> F0) by exact D2.
  assert (Eg : Fof 168700 * (x * z * (x * z)) + y * z * (y * z) = z * z * (F1 + t)).
  { rewrite <- HC. ring. }
  rewrite Eg.
  assert (Ef : z * z * (F1 + t) + - (z * z * Fof 2) = - (z * z * (F1 - t))).
  { ring. }
  rewrite Ef. clearbody t. clear HC Eg Ef.
  split.
  { apply Fmul_nz; [|repeat apply Fmul_nz; assumption]. intros E. assert (E2 : z * z * (F1 - t) = F0) by (rewrite <- (Fof_fval (z * z * (F1 - t))); rewrite Fof_fval; transitivity (- - (z * z * (F1 - t))); [ring|rewrite E; ring]).
    revert E2. repeat apply Fmul_nz; assumption. }
  split; [|split]; field; auto.
Qed.

Lemma rep_neg e P : (0 <= eX e <= sol_Q)%Z -> (0 <= eT e <= sol_Q)%Z -> rep e P -> rep (etecNegate e sol_Q) (pneg P).
Proof.
  intros HX HT (Hz & Hx & Hy & Ht). unfold rep, etecNegate, pneg. cbn [eX eY eT eZ px py].
  rewrite !Fof_wsub, Hx, Hy, Ht by assumption. repeat split; try assumption; ring.
Qed.

(** ** pointAdd and pointDouble *)
Lemma pointAdd_ok P Q : on_curve (aff P) -> on_curve (aff Q) ->
  sol_pointAdd P Q = (fval (px (padd (aff P) (aff Q))), fval (py (padd (aff P) (aff Q)))).
Proof. intros HP HQ. apply rep_toPoint. apply rep_add; try assumption; apply rep_point. Qed.
Lemma pointDouble_ok P : on_curve (aff P) ->
  sol_pointDouble P = (fval (px (padd (aff P) (aff P))), fval (py (padd (aff P) (aff P)))).
Proof. intros HP. apply rep_toPoint. apply rep_double; [assumption|apply rep_point]. Qed.

(** ** scalarMult *)
Lemma sm_loop P : on_curve P -> forall fuel v a p A k, (0 <= v < 2 ^ Z.of_nat fuel)%Z -> on_curve A ->
  rep a A -> rep p (pzmul k P) ->
  exists v' a' p', owhile fuel (fun '(value, _, _) => negb (value =? 0)%Z) sm_body (v, a, p) = Ok (v', a', p') /\
                   rep a' (padd A (pzmul (v * k) P)).
Proof.
  intros HP. induction fuel as [|f IH]; intros v a p A k Hv HA Ra Rp.
  - change (2 ^ Z.of_nat 0)%Z with 1%Z in Hv. assert (v = 0%Z) by lia. subst v. cbn [owhile].
    exists 0%Z, a, p. split; [reflexivity|]. cbn [Z.mul pzmul]. now rewrite padd_0_r.
  - cbn [owhile]. destruct (Z.eqb_spec v 0) as [->|Hnz].
    { exists 0%Z, a, p. split; [reflexivity|]. cbn [Z.mul pzmul]. now rewrite padd_0_r. }
    cbn [negb]. unfold sm_body at 1. cbn [obind]. cbv zeta.
    rewrite Nat2Z.inj_succ, Z.pow_succ_r in Hv by lia.
    assert (Hland : wand v 1 = (v mod 2)%Z) by (unfold wand; change 1%Z with (Z.ones 1); now rewrite Z.land_ones by lia).
    rewrite Hland. change (wdiv v 2) with (v / 2)%Z.
    pose proof (Z.div_mod v 2 ltac:(lia)) as DM. pose proof (Z.mod_pos_bound v 2 ltac:(lia)) as MB.
    assert (Rp' : rep (jj_etecDouble p) (pzmul (2 * k) P)).
    { replace (2 * k)%Z with (k + k)%Z by lia. rewrite pzmul_add by assumption. apply rep_double; [now apply pzmul_on|assumption]. }
    assert (B : (0 <= v / 2 < 2 ^ Z.of_nat f)%Z) by (split; [apply Z.div_pos; lia|apply Z.div_lt_upper_bound; lia]).
    destruct (Z.eqb_spec (v mod 2) 0) as [E|E]; cbn [negb].
    + destruct (IH (v / 2)%Z a (jj_etecDouble p) A (2 * k)%Z B HA Ra Rp') as (v' & a' & p' & H1 & H2).
      exists v', a', p'. split; [exact H1|]. replace (v * k)%Z with (v / 2 * (2 * k))%Z; [assumption|].
      rewrite DM at 2. rewrite E. ring.
    + destruct (IH (v / 2)%Z (jj_etecAdd a p) (jj_etecDouble p) (padd A (pzmul k P)) (2 * k)%Z B) as (v' & a' & p' & H1 & H2).
      { apply padd_closed; [assumption|now apply pzmul_on]. }
      { apply rep_add; try assumption. now apply pzmul_on. }
      { assumption. }
      exists v', a', p'. split; [exact H1|].
      rewrite padd_assoc in H2 by (try assumption; now apply pzmul_on). rewrite <- pzmul_add in H2 by assumption.
      replace (v * k)%Z with (k + v / 2 * (2 * k))%Z; [assumption|].
      rewrite DM at 2. replace (v mod 2)%Z with 1%Z by lia. ring.
Qed.

Lemma scalarMult_ok x y v : is_word v -> on_curve (aff (x, y)) ->
  sol_scalarMult x y v = Ok (fval (px (pzmul v (aff (x, y)))), fval (py (pzmul v (aff (x, y))))).
Proof.
  intros Hv HP. unfold sol_scalarMult.
  destruct (sm_loop (aff (x, y)) HP 256 v etec_identity (pointToEtec x y sol_Q) pzero 1) as (v' & a' & p' & H1 & H2).
  - exact Hv.
  - apply pzero_on.
  - apply rep_identity.
  - cbn [pzmul]. rewrite smul_1. apply rep_point.
  - rewrite H1. cbn [obind]. f_equal. apply rep_toPoint. rewrite Z.mul_1_r, padd_0_l in H2. exact H2.
Qed.
