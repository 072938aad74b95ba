(** Final lemmas for the properties of /repo/ethsnarks/jubjub.py. *)
From Coq Require Import List ZArith Znumtheory Bool Arith Lia Field Ring.
From Verif Require Import Primes Field Base M_Point Spec_Curve Spec_Mont Spec_Basepoint Spec_CurveOrder P_Curve P_Group P_Zmul P_Mont P_Order P_CurveOrder P_Basepoint Q_Jubjub Q_CurveOrder M_Evm M_PyJubjub Spec_PyJubjub P_PyJubjub P_PyMont P_PyNaf P_PyPoint.
Import ListNotations.
Local Open Scope nat_scope.
Local Open Scope Z_scope.

(** ** C113 *)
Lemma group_intro {T} (c : curve_class T) (R : T -> point -> Prop) : R (cc_infinity c) pzero ->
  (forall a b P Q, on_curve P -> on_curve Q -> R a P -> R b Q -> exists r, cc_add c a b = Ok r /\ R r (padd P Q)) ->
  (forall a P, on_curve P -> R a P -> exists r, cc_double c a = Ok r /\ R r (padd P P)) ->
  (forall a P, on_curve P -> R a P -> R (cc_neg c a) (pneg P)) -> implements_group c R.
Proof.
  intros H1 H2 H3 H4. repeat split; try assumption. intros a b P Q HP HQ Ha Hb. unfold cc_sub.
  apply H2; auto. now apply pneg_on.
Qed.
Lemma group_lemma : implements_group cc_point eq /\ implements_group cc_proj proj_of /\ implements_group cc_etec etec_of.
Proof.
  split; [|split]; apply group_intro.
  - reflexivity.
  - intros a b P Q HP HQ -> ->. exists (padd P Q). split; [now apply pt_add_ok|reflexivity].
  - intros a P HP ->. exists (padd P P). split; [now apply pt_add_ok|reflexivity].
  - intros a P HP ->. reflexivity.
  - exact proj_inf.
  - intros a b P Q HP HQ. now apply pp_add_ok.
  - intros a P HP. now apply pp_double_ok.
  - intros a P _. apply pp_neg_ok.
  - exact etec_inf.
  - intros a b P Q HP HQ. now apply ep_add_ok.
  - intros a P HP. now apply ep_double_ok.
  - intros a P _. apply ep_neg_ok.
Qed.
Lemma pt_valid_iff P : pt_valid P = true <-> on_curve P.
Proof. unfold pt_valid, on_curve, JUBJUB_A, JUBJUB_D. cbv zeta. apply Feqb_true. Qed.

(** ** C114 *)
Lemma group_mult {T} (c : curve_class T) R : implements_group c R -> multiplies (fun a s => py_mult c a (SInt s)) R.
Proof.
  intros (H1 & H2 & H3 & H4 & _) a P s Hs HP Ha.
  apply (py_mult_int T c R (fun _ => True)); auto.
Qed.
Lemma group_negative {T} (c : curve_class T) R : implements_group c R -> forall f v a p A Q,
  v < 0 -> on_curve A -> on_curve Q -> R a A -> R p Q -> mult_loop c f v a p = None.
Proof.
  intros (H1 & H2 & H3 & H4 & _). induction f as [|f IH]; intros v a p A Q Hv HA HQ Ra Rp; [reflexivity|].
  cbn [mult_loop]. destruct (Z.eqb_spec v 0) as [E|_]; [lia|].
  assert (G : exists a' A', (if negb (Z.land v 1 =? 0) then cc_add c a p else Ok a) = Ok a' /\ on_curve A' /\ R a' A').
  { destruct (negb _).
    - destruct (H2 a p A Q HA HQ Ra Rp) as (r & E & Hr). exists r, (padd A Q). split; [assumption|]. split; [now apply padd_closed|assumption].
    - exists a, A. auto. }
  destruct G as (a' & A' & -> & HA' & Ra'). destruct (H3 p Q HQ Rp) as (r & -> & Hr).
  apply IH with A' (padd Q Q); auto; [|now apply padd_closed].
  apply Z.div_lt_upper_bound; lia.
Qed.
Lemma mult_lemma : multiplies (fun a s => py_mult cc_point a (SInt s)) eq /\
  multiplies (fun a s => py_mult cc_proj a (SInt s)) proj_of /\ multiplies (fun a s => py_mult cc_etec a (SInt s)) etec_of.
Proof. destruct group_lemma as (G1 & G2 & G3). repeat split; now apply group_mult. Qed.
Lemma mult_negative_lemma : forall f v P, v < 0 -> on_curve P ->
  mult_loop cc_point f v pt_infinity P = None /\
  (forall a, proj_of a P -> mult_loop cc_proj f v pp_infinity a = None) /\
  (forall a, etec_of a P -> mult_loop cc_etec f v ep_infinity a = None).
Proof.
  intros f v P Hv HP. destruct group_lemma as (G1 & G2 & G3). split; [|split].
  - apply (group_negative cc_point eq G1) with pzero P; auto; [exact pzero_on].
  - intros a Ha. apply (group_negative cc_proj proj_of G2) with pzero P; auto; [exact pzero_on|exact proj_inf].
  - intros a Ha. apply (group_negative cc_etec etec_of G3) with pzero P; auto; [exact pzero_on|exact etec_inf].
Qed.
Lemma E_8L : JUBJUB_E = 8 * ord_L.
Proof. reflexivity. Qed.
Lemma fq_scalar P n m : (m = JUBJUB_Q \/ m = JUBJUB_E \/ m = JUBJUB_L) -> on_curve P -> 0 <= n -> py_mult cc_point P (SFQ n m) = Ok (pzmul n P).
Proof.
  intros Hm HP Hn. transitivity (py_mult cc_point P (SInt n)); [|now apply pt_mult_ok].
  unfold py_mult. assert (E : (m =? JUBJUB_Q) || (m =? JUBJUB_E) || (m =? JUBJUB_L) = true).
  { destruct Hm as [-> |[-> | ->]]; rewrite Z.eqb_refl; [reflexivity| |]; now rewrite ?orb_true_r. }
  now rewrite E.
Qed.
Lemma scalar_mod P n m : on_curve P -> pzmul m P = pzero -> m <> 0 -> pzmul (n mod m) P = pzmul n P.
Proof.
  intros HP Hm N. rewrite (Z.div_mod n m N) at 2. rewrite pzmul_add by assumption.
  rewrite (Z.mul_comm m), pzmul_mul by assumption. rewrite Hm, pzmul_zero. now rewrite padd_0_l.
Qed.
Lemma scalar_fields_lemma : forall m P n1 n2, (m = JUBJUB_E \/ m = JUBJUB_L /\ in_subgroup exG P) -> on_curve P -> 0 <= n1 -> 0 <= n2 ->
  exists A B, py_mult cc_point P (SFQ n1 m) = Ok A /\ py_mult cc_point P (SFQ n2 m) = Ok B /\
    py_mult cc_point P (SFQ ((n1 + n2) mod m) m) = pt_add A B /\
    py_mult cc_point P (SFQ ((n1 * n2) mod m) m) = py_mult cc_point A (SFQ n2 m).
Proof.
  intros m P n1 n2 Hm HP H1 H2. exists (pzmul n1 P), (pzmul n2 P).
  assert (Hm' : m = JUBJUB_Q \/ m = JUBJUB_E \/ m = JUBJUB_L) by tauto.
  assert (Hp : 0 < m) by (destruct Hm as [-> |[-> _]]; reflexivity).
  assert (Hz : pzmul m P = pzero).
  { destruct Hm as [-> |[-> HS]]; [rewrite E_8L; now apply curve_exponent_lemma|]. rewrite JUBJUB_L_ok. now apply subgroup_lemma. }
  split; [now apply fq_scalar|]. split; [now apply fq_scalar|]. split.
  - rewrite fq_scalar; auto; [|apply Z.mod_pos_bound; lia]. rewrite scalar_mod by (assumption || lia).
    rewrite pt_add_ok by now apply pzmul_on. now rewrite pzmul_add.
  - rewrite fq_scalar; auto; [|apply Z.mod_pos_bound; lia]. rewrite scalar_mod by (assumption || lia).
    rewrite fq_scalar; auto; [|now apply pzmul_on]. now rewrite (Z.mul_comm n1), pzmul_mul.
Qed.
Lemma scalar_fields_refuted_lemma : exists P n1 n2 A B, on_curve P /\ in_subgroup exG P /\ 0 <= n1 < JUBJUB_Q /\ 0 <= n2 < JUBJUB_Q /\
  py_mult cc_point P (SFQ n1 JUBJUB_Q) = Ok A /\ py_mult cc_point P (SFQ n2 JUBJUB_Q) = Ok B /\
  py_mult cc_point P (SFQ ((n1 + n2) mod JUBJUB_Q) JUBJUB_Q) <> pt_add A B.
Proof.
  exists exG, (JUBJUB_Q - 1), 1, (pzmul (JUBJUB_Q - 1) exG), (pzmul 1 exG).
  split; [exact exG_on|]. split; [exists 1; now rewrite pzmul_1|]. split; [split; [discriminate|reflexivity]|]. split; [split; [discriminate|reflexivity]|].
  split; [apply fq_scalar; [auto|exact exG_on|discriminate]|]. split; [apply fq_scalar; [auto|exact exG_on|discriminate]|].
  replace (JUBJUB_Q - 1 + 1) with JUBJUB_Q by ring. rewrite Z.mod_same by discriminate.
  rewrite fq_scalar; [|auto|exact exG_on|discriminate]. rewrite pt_add_ok by (apply pzmul_on; exact exG_on).
  rewrite <- pzmul_add by exact exG_on. replace (JUBJUB_Q - 1 + 1) with JUBJUB_Q by ring. change (pzmul 0 exG) with pzero. intros H.
  assert (H' : pzmul JUBJUB_Q exG = pzero) by congruence. apply exG_order in H'. apply Z.mod_divide in H'; [|discriminate]. vm_compute in H'. discriminate.
Qed.
Lemma other_modulus_lemma : forall {T} (c : curve_class T) a n m, m <> JUBJUB_Q -> m <> JUBJUB_E -> m <> JUBJUB_L -> py_mult c a (SFQ n m) = Throw.
Proof.
  intros T c a n m H1 H2 H3. unfold py_mult. apply Z.eqb_neq in H1, H2, H3. now rewrite H1, H2, H3.
Qed.

(** ** C115 *)
Lemma wnaf_lemma : forall w k, 2 <= w -> 0 <= k ->
  exists ds, py_wNAF k w = Ok ds /\ digits_val ds = k /\ Forall (naf_digit w) ds /\ non_adjacent w ds.
Proof. intros w k Hw Hk. destruct (py_wNAF_ok w ltac:(lia) k Hk) as (ds & H1 & H2 & H3 & H4). exists ds. auto. Qed.
Lemma group_naf {T} (c : curve_class T) R : implements_group c R -> multiplies (py_mult_naf c) R.
Proof.
  intros (H1 & H2 & H3 & H4 & _) a P s Hs HP Ha. unfold py_mult_naf.
  destruct (wnaf_lemma 2 s ltac:(lia) Hs) as (ds & E & EV & HF & _). rewrite E. cbn [obind].
  destruct (naf_loop_ok T c R (fun _ => True)) with (P := P) (p := a) (ds := ds) (k := 0) (a := cc_infinity c) as (r & Er & Hr); auto.
  - eapply Forall_impl; [|exact HF]. intros d [-> |[O B]]; [lia|]. change (2 ^ (2 - 1)) with 2 in B. lia.
  - exists r. split; [exact Er|]. unfold digits_val in EV. now rewrite EV in Hr.
Qed.
Lemma group_lut {T} (c : curve_class T) R : implements_group c R -> forall w, 2 <= w -> multiplies (fun a s => py_mult_naf_lut c a s w) R.
Proof.
  intros (H1 & H2 & H3 & H4 & _) w Hw a P s Hs HP Ha. unfold py_mult_naf_lut.
  destruct (py_naf_window_ok T c R (fun _ => True)) with (P := P) (p := a) (w := w) as (d & Ed & Hd); auto; [lia|]. rewrite Ed. cbn [obind].
  destruct (wnaf_lemma w s Hw Hs) as (ds & E & EV & HF & _). rewrite E. cbn [obind].
  destruct (lut_loop_ok T c R (fun _ => True)) with (P := P) (d := d) (w := w) (ds := ds) (k := 0) (a := cc_infinity c) as (r & Er & Hr); auto.
  exists r. split; [exact Er|]. unfold digits_val in EV. now rewrite EV in Hr.
Qed.
Lemma mult_naf_lemma : multiplies (py_mult_naf cc_point) eq /\ multiplies (py_mult_naf cc_proj) proj_of /\ multiplies (py_mult_naf cc_etec) etec_of.
Proof. destruct group_lemma as (G1 & G2 & G3). repeat split; now apply group_naf. Qed.
Lemma mult_lut_lemma : forall w, 2 <= w -> multiplies (fun a s => py_mult_naf_lut cc_point a s w) eq /\
  multiplies (fun a s => py_mult_naf_lut cc_proj a s w) proj_of /\ multiplies (fun a s => py_mult_naf_lut cc_etec a s w) etec_of.
Proof. intros w Hw. destruct group_lemma as (G1 & G2 & G3). repeat split; now apply group_lut. Qed.
Lemma naf_negative_lemma : forall {T} (c : curve_class T) a s, s <= 0 -> py_mult_naf c a s = Ok (cc_infinity c).
Proof. intros T c a s Hs. unfold py_mult_naf. rewrite py_wNAF_negative by assumption. reflexivity. Qed.
Lemma digits_zero ds : Forall (fun d => d = 0) ds -> digits_val ds = 0.
Proof.
  unfold digits_val. assert (G : forall ds v, Forall (fun d => d = 0) ds -> v = 0 -> fold_left (fun v d => 2 * v + d) ds v = 0).
  { clear. induction ds as [|d ds IH]; intros v H E; [exact E|]. inversion H; subst. cbn [fold_left]. apply IH; [assumption|reflexivity]. }
  intros H. now apply G.
Qed.
Lemma lut_width1_lemma : forall P s, on_curve P -> 0 < s -> py_mult_naf_lut cc_point P s 1 = Throw.
Proof.
  intros P s HP Hs. unfold py_mult_naf_lut. change (py_naf_window cc_point P 1) with (Ok [(0, @None point)]). cbn [obind].
  destruct (py_wNAF_ok 1 ltac:(lia) s ltac:(lia)) as (ds & E & EV & _). rewrite E. cbn [obind].
  assert (G : forall ds a, on_curve a -> lut_loop cc_point [(0, None)] a ds = Throw \/ Forall (fun d => d = 0) ds).
  { clear. induction ds as [|d ds IH]; intros a Ha; [right; constructor|]. cbn [lut_loop]. cbn [cc_point cc_double]. rewrite pt_add_ok by assumption. cbn [obind dict_get].
    destruct (Z.eqb_spec d 0) as [-> |N]; [|left; reflexivity]. cbn [obind].
    destruct (IH (padd a a)) as [H|H]; [now apply padd_closed|left; exact H|right; now constructor]. }
  destruct (G ds pt_infinity pzero_on) as [H|H]; [exact H|]. apply digits_zero in H. lia.
Qed.
Lemma naf_negative_refuted_lemma : exists P s r, on_curve P /\ s < 0 /\ py_mult_naf cc_point P s = Ok r /\ r <> pzmul s P.
Proof.
  exists exG, (-1), pt_infinity. split; [exact exG_on|]. split; [lia|]. split; [now apply naf_negative_lemma|].
  intros H. symmetry in H. apply exG_order in H. apply Z.mod_divide in H; [|discriminate]. vm_compute in H. discriminate.
Qed.

(** ** C116 *)
Lemma mont_law_lemma : forall P Q, on_curve P -> on_curve Q ->
  mp_add (pt_as_mont P) (pt_as_mont Q) = Ok (pt_as_mont (padd P Q)) /\
  (P <> pzero -> mp_double (pt_as_mont P) = Ok (pt_as_mont (padd P P)) /\
                 mp_neg (pt_as_mont P) = pt_as_mont (pneg P) /\ mp_valid (pt_as_mont P) = true).
Proof.
  intros P Q HP HQ. rewrite !pt_as_mont_ok by auto using padd_closed, pneg_on. split; [now apply mp_add_ok|].
  intros N. split; [now apply mp_double_ok|]. split; [now apply mp_neg_ok|].
  destruct (mont_form_nz P HP N) as [H _]. unfold mp_valid, MONT_A, MONT_B. apply Feqb_true. unfold on_mont, m2p in H. cbn [px py] in H.
  change 3 with (2 + 1). rewrite Fpow_succ by lia. rewrite !Fpow_2. change (Fof 1) with F1.
  transitivity (mpv (mont_form P) * mpv (mont_form P))%F; [ring|]. rewrite H. ring.
Qed.
Lemma mont_round_lemma : forall P, on_curve P -> (mp_as_point (pt_as_mont P) = P <-> P <> pzero).
Proof.
  intros P HP. rewrite pt_as_mont_ok, mp_as_point_ok by assumption. destruct (Feqb_spec (px P) F0) as [E|E].
  - split.
    + intros <- H. apply (f_equal py) in H. cbn [py pzero] in H. exact (m1_neq_1 H).
    + intros N. apply px_0 in E; [|assumption]. destruct E as [E|E]; [contradiction|]. now symmetry.
  - split; [|reflexivity]. intros _ ->. apply E. reflexivity.
Qed.
Lemma mont_mult_gen : forall P s, on_curve P -> 0 <= s -> (forall i, 0 <= i -> 2 ^ i <= s -> pzmul (2 ^ i) P <> pzero) ->
  py_mult cc_mont (pt_as_mont P) (SInt s) = Ok (pt_as_mont (pzmul s P)).
Proof.
  intros P s HP Hs HD.
  destruct (py_mult_int mpoint cc_mont (fun a Q => a = mont_form Q) (fun Q => Q <> pzero)) with (v := s) (p := pt_as_mont P) (Q := P) as (r & E1 & E2); auto.
  - intros a b A B HA HB -> ->. exists (mont_form (padd A B)). split; [now apply mp_add_ok|reflexivity].
  - intros a A HA N ->. exists (mont_form (padd A A)). split; [now apply mp_double_ok|reflexivity].
  - now apply pt_as_mont_ok.
  - rewrite E1, E2. now rewrite pt_as_mont_ok by now apply pzmul_on.
Qed.
Lemma L_not_pow2 i : 0 <= i -> ~ (ord_L | 2 ^ i).
Proof.
  intros Hi. rewrite <- (Z2Nat.id i) by lia. induction (Z.to_nat i) as [|n IH].
  - intros H. apply Z.divide_pos_le in H; [|reflexivity]. assert (1 < ord_L) by reflexivity. change (2 ^ Z.of_nat 0) with 1 in H. lia.
  - rewrite Nat2Z.inj_succ, Z.pow_succ_r by lia. intros H. apply IH. apply Gauss with 2; [exact H|].
    apply Zgcd_1_rel_prime. vm_compute. reflexivity.
Qed.
Lemma mont_mult_lemma : forall P s, on_curve P -> exact_order ord_L P -> 0 <= s ->
  py_mult cc_mont (pt_as_mont P) (SInt s) = Ok (pt_as_mont (pzmul s P)).
Proof.
  intros P s HP HO Hs. apply mont_mult_gen; auto. intros i Hi _ H. apply HO in H. now apply (L_not_pow2 i).
Qed.

(** ** C117 *)
Lemma convert_lemma : forall P, on_curve P ->
  pp_as_point (pt_as_proj P) = Ok P /\ ep_as_point (pt_as_etec P) = P /\ etec_of (pp_as_etec (pt_as_proj P)) P /\
  (forall a, proj_of a P -> pp_as_point a = Ok P) /\
  (forall a, etec_of a P -> ep_as_point a = P /\ proj_of (ep_as_proj a) P).
Proof.
  intros P HP. split; [apply pp_as_point_ok, pt_as_proj_ok|]. split; [apply ep_as_point_ok, pt_as_etec_ok|]. split.
  - apply pp_as_etec_iff; [apply pt_as_proj_ok|left; reflexivity].
  - split; [intros a; apply pp_as_point_ok|]. intros a Ha. split; [now apply ep_as_point_ok|now apply ep_as_proj_ok].
Qed.
Lemma pp_eq_true a b : pp_eq a b = true <-> a = b.
Proof.
  unfold pp_eq. rewrite !andb_true_iff, !Feqb_true. destruct a as [x1 y1 z1], b as [x2 y2 z2]. cbn [ppx ppy ppz]. split; [intros [[-> ->] ->]; reflexivity|intros E; inversion E; auto].
Qed.
Lemma pp_eq_lemma : forall a b P Q, proj_of a P -> proj_of b Q -> (pp_eq a b = true <-> P = Q /\ ppz a = ppz b).
Proof.
  intros a b P Q (Z1 & X1 & Y1) (Z2 & X2 & Y2). rewrite pp_eq_true. split.
  - intros <-. split; [|reflexivity]. apply point_eq; apply (Fmul_cancel_l (ppz a)); try assumption.
    + transitivity (px P * ppz a)%F; [ring|]. rewrite <- X1, X2. ring.
    + transitivity (py P * ppz a)%F; [ring|]. rewrite <- Y1, Y2. ring.
  - intros [-> E]. destruct a as [x1 y1 z1], b as [x2 y2 z2]. cbn [ppx ppy ppz] in *. subst. reflexivity.
Qed.

(** ** C118 *)
Lemma from_x_xsq x : (F1 - jj_d * (x * x))%F <> F0.
Proof.
  intros E. assert (N : x <> F0). { intros ->. apply F1_neq_0. rewrite <- E. ring. }
  apply (d_nonsquare (Finv x)). change (Fof 168696) with jj_d. transitivity ((F1 - (F1 - jj_d * (x * x))) * (Finv x * Finv x))%F; [rewrite E; ring|].
  transitivity (jj_d * ((x * Finv x) * (x * Finv x)))%F; [ring|]. rewrite Finv_r by assumption. ring.
Qed.
Lemma curve_yy x y : on_curve (mkpt x y) <-> (y * y)%F = (Finv (JUBJUB_D * (x * x) - F1) * (JUBJUB_A * (x * x) - F1))%F.
Proof.
  pose proof (from_x_xsq x) as N. assert (N' : (JUBJUB_D * (x * x) - F1)%F <> F0).
  { intros E. apply N. unfold jj_d. fold JUBJUB_D. transitivity (- (JUBJUB_D * (x * x) - F1))%F; [ring|]. rewrite E. ring. }
  unfold on_curve. cbn [px py]. fold JUBJUB_A JUBJUB_D. split.
  - intros H. apply (Fmul_cancel_l (JUBJUB_D * (x * x) - F1)%F); [exact N'|].
    transitivity ((JUBJUB_D * (x * x) - F1) * Finv (JUBJUB_D * (x * x) - F1) * (JUBJUB_A * (x * x) - F1))%F; [|ring]. rewrite Finv_r by exact N'.
    transitivity ((F1 + JUBJUB_D * (x * x) * (y * y)) - F1 - y * y)%F; [ring|]. rewrite <- H. ring.
  - intros H. transitivity (F1 + JUBJUB_D * (x * x) * (y * y) + ((JUBJUB_A * (x * x) - F1) - (JUBJUB_D * (x * x) - F1) * (y * y)))%F; [ring|].
    rewrite H. transitivity (F1 + JUBJUB_D * (x * x) * (Finv (JUBJUB_D * (x * x) - F1) * (JUBJUB_A * (x * x) - F1)) + ((JUBJUB_A * (x * x) - F1) - ((JUBJUB_D * (x * x) - F1) * Finv (JUBJUB_D * (x * x) - F1)) * (JUBJUB_A * (x * x) - F1)))%F; [ring|].
    rewrite Finv_r by exact N'. ring.
Qed.
Lemma from_x_lemma : forall sqrt x, py_sqrt_ok sqrt ->
  (exists P, pt_from_x sqrt x = Ok P /\ on_curve P /\ px P = x) \/ (pt_from_x sqrt x = Throw /\ forall y, ~ on_curve (mkpt x y)).
Proof.
  intros sqrt x HS. unfold pt_from_x. cbv zeta. set (yy := (Finv (JUBJUB_D * (x * x) - F1) * (JUBJUB_A * (x * x) - F1))%F).
  destruct (HS yy) as [H1 H2]. destruct (square_dec yy) as [[r Er]|D].
  - left. destruct (H1 r Er) as (s & -> & Es). cbn [obind]. exists (mkpt x s). split; [reflexivity|]. split; [|reflexivity]. now apply curve_yy.
  - right. rewrite (H2 D). split; [reflexivity|]. intros y Hy. apply curve_yy in Hy. exact (D y Hy).
Qed.
Lemma from_y_lemma : forall sqrt y, py_sqrt_ok sqrt ->
  (exists P, pt_from_y sqrt y None = Ok P /\ on_curve P /\ py P = y /\ larger_root (px P)) \/ (pt_from_y sqrt y None = Throw /\ ~ has_point y).
Proof.
  intros sqrt y HS. destruct (from_y_cases sqrt HS y None) as [[_ [P E]]|[N E]]; [left|right; auto].
  exists P. split; [exact E|]. now apply (from_y_plain sqrt HS).
Qed.
Lemma compress_round_lemma : forall sqrt P, py_sqrt_ok sqrt -> on_curve P ->
  pt_decompress sqrt (pt_compress P) = Ok P /\ length (pt_compress P) = 32%nat /\ Forall (fun d => 0 <= d < 256) (pt_compress P).
Proof.
  intros sqrt P HS HP. assert (HB : Forall (fun d => 0 <= d < 256) (pt_compress P)) by (unfold pt_compress; apply Forall_rev, be_bytes_byte).
  split; [apply decompress_iff; auto; split; [assumption|apply compress_encodes]|]. split; [apply compress_val|assumption].
Qed.
Lemma decompress_lemma : forall sqrt b, py_sqrt_ok sqrt -> Forall (fun d => 0 <= d < 256) b ->
  (forall P, pt_decompress sqrt b = Ok P <-> on_curve P /\ encodes b P) /\
  ((forall P, on_curve P -> ~ encodes b P) -> pt_decompress sqrt b = Throw).
Proof.
  intros sqrt b HS HB. split; [intros P; now apply decompress_iff|now apply decompress_throws].
Qed.

(** ** C119 *)
Lemma py_from_hash_lemma : forall sqrt y, py_sqrt_ok sqrt ->
  exists (i : nat) P, found_at y (Z.of_nat i) P /\ on_curve (pzmul 8 P) /\ in_subgroup exG (pzmul 8 P) /\
    forall fuel, (i < fuel)%nat -> from_hash_loop sqrt fuel y = Some (Ok (pzmul 8 P)).
Proof.
  intros sqrt y HS. destruct (some_point y) as (i & H1 & H2).
  destruct (from_hash_found sqrt HS i y H1 H2) as (P & HF & E). exists i, P. split; [assumption|].
  destruct HF as (HC & _). split; [now apply pzmul_on|]. split; [now apply cofactor_lemma|].
  assert (mono : forall f y r, from_hash_loop sqrt f y = Some r -> from_hash_loop sqrt (S f) y = Some r).
  { clear. induction f as [|f IH]; intros y r H; [discriminate|].
    change (from_hash_loop sqrt (S (S f)) y) with (match pt_from_y sqrt y None with
      | Ok P => Some (P <- py_mult cc_point P (SInt JUBJUB_C) ;; Q <- py_mult cc_point P (SInt JUBJUB_L) ;; _ <- py_check (pt_eq Q pt_infinity) ;; Ok P)
      | _ => from_hash_loop sqrt (S f) (y + F1)%F end).
    cbn [from_hash_loop] in H. destruct (pt_from_y sqrt y None); auto. }
  intros fuel Hf. induction Hf as [|m Hm IH]; [exact E|]. now apply mono.
Qed.

(** ** refutations *)
Lemma Ok_inj {A} (a b : A) : Ok a = Ok b -> a = b.
Proof. congruence. Qed.
Lemma mont_double_refuted_lemma : exists P, on_curve P /\ (forall r, mp_double (pt_as_mont P) = Ok r -> mp_valid r = false) /\
  mp_double (pt_as_mont P) <> Ok (pt_as_mont (padd P P)).
Proof.
  exists pzero. split; [exact pzero_on|].
  assert (E : mp_double (pt_as_mont pzero) = Ok (mkmp ((F1 / Fof 2) * (F1 / Fof 2) - MONT_A)%F (- (((F1 / Fof 2) * (F1 / Fof 2) - MONT_A) * (F1 / Fof 2) + F1))%F)).
  { rewrite pt_as_mont_ok, mont_form_0 by exact pzero_on. unfold mp_double, mp_infinity. cbn [mpu mpv]. destruct (Feqb_spec F1 F0) as [Q|_]; [now apply F1_neq_0 in Q|].
    cbv zeta. assert (Q : ((F1 + Fof 2 * (MONT_A * F0) + F0 * F0 + F0 * F0 * Fof 2) / (Fof 2 * F1) = F1 / Fof 2)%F) by (rewrite !Fdiv_def; replace (Fof 2 * F1)%F with (Fof 2) by ring; ring).
    rewrite Q. apply (f_equal Ok). f_equal; ring. }
  rewrite E. split.
  - intros r H. apply Ok_inj in H. subst r. vm_compute. reflexivity.
  - rewrite padd_0_l, pt_as_mont_ok, mont_form_0 by exact pzero_on. intros H. apply Ok_inj in H. apply (f_equal (fun m => fval (mpu m))) in H. vm_compute in H. discriminate.
Qed.
Lemma cc_mont_ops : cc_add cc_mont = mp_add /\ cc_neg cc_mont = mp_neg /\ cc_double cc_mont = mp_double /\ cc_infinity cc_mont = mp_infinity.
Proof. repeat split. Qed.
Definition ok_u (o : outcome mpoint) : Z := match o with Ok m => fval (mpu m) | _ => -1 end.
Lemma mont_sub_refuted_lemma : exists P Q, on_curve P /\ on_curve Q /\ cc_sub cc_mont (pt_as_mont P) (pt_as_mont Q) <> Ok (pt_as_mont (padd P (pneg Q))).
Proof.
  exists exG, pzero. split; [exact exG_on|]. split; [exact pzero_on|].
  replace (pneg pzero) with pzero by (apply point_eq; cbn [px py pneg pzero]; ring). rewrite padd_0_r. intros H.
  apply (f_equal ok_u) in H. vm_compute in H. discriminate.
Qed.
Lemma mont_mult_refuted_lemma : (exists P s, on_curve P /\ 0 <= s /\ py_mult cc_mont (pt_as_mont P) (SInt s) <> Ok (pt_as_mont (pzmul s P))) /\
  (exists P, on_curve P /\ exact_order ord_L P /\ py_mult_naf cc_mont (pt_as_mont P) 1 <> Ok (pt_as_mont P)).
Proof.
  split.
  - exists (mkpt F0 (- F1)%F), 4. split; [exact minus1_on|]. split; [lia|].
    assert (E : pzmul 4 (mkpt F0 (- F1)%F) = pzero).
    { apply point_eq; apply fval_inj; vm_compute; reflexivity. }
    rewrite E. intros H. apply (f_equal ok_u) in H. vm_compute in H. discriminate.
  - exists exG. split; [exact exG_on|]. split; [exact exG_order|]. intros H. apply (f_equal ok_u) in H. vm_compute in H. discriminate.
Qed.
Lemma proj2_of P : proj_of (mkpp (px P + px P) (py P + py P) (F1 + F1)) P.
Proof.
  unfold proj_of. cbn [ppx ppy ppz]. split; [|split; ring]. intros E. apply m1_neq_1. transitivity (F1 - (F1 + F1))%F; [ring|]. rewrite E. ring.
Qed.
Definition ok_x (o : outcome epoint) : Z := match o with Ok r => fval (px (ep_as_point r)) | _ => -1 end.
Lemma as_etec_refuted_lemma : exists a P Q r, proj_of a P /\ on_curve P /\ on_curve Q /\ in_subgroup exG P /\ in_subgroup exG Q /\
  ep_add (pp_as_etec a) (pt_as_etec Q) = Ok r /\ ep_as_point r <> padd P Q.
Proof.
  set (a := mkpp (px exG + px exG) (py exG + py exG) (F1 + F1)).
  assert (G : exists r, ep_add (pp_as_etec a) (pt_as_etec exG) = Ok r).
  { unfold ep_add. destruct (ep_eq _ _); [eauto|].
    assert (N : Feqb (epz (pp_as_etec a)) F0 = false) by (vm_compute; reflexivity). rewrite N. cbn [negb py_check obind].
    assert (N' : Feqb (epz (pt_as_etec exG)) F0 = false) by (vm_compute; reflexivity). rewrite N'. cbn [negb py_check obind]. cbv zeta. eauto. }
  destruct G as [r E]. exists a, exG, exG, r. split; [apply proj2_of|]. split; [exact exG_on|]. split; [exact exG_on|].
  split; [exists 1; now rewrite pzmul_1|]. split; [exists 1; now rewrite pzmul_1|]. split; [exact E|]. intros H.
  assert (N : (ok_x (ep_add (pp_as_etec a) (pt_as_etec exG)) =? fval (px (padd exG exG))) = false) by (vm_compute; reflexivity).
  rewrite E in N. unfold ok_x in N. rewrite H, Z.eqb_refl in N. discriminate N.
Qed.
Lemma pp_eq_refuted_lemma : forall P, exists a b, proj_of a P /\ proj_of b P /\ pp_eq a b = false.
Proof.
  intros P. exists (pt_as_proj P), (mkpp (px P + px P) (py P + py P) (F1 + F1)). split; [apply pt_as_proj_ok|]. split; [apply proj2_of|].
  apply not_true_is_false. intros H. apply pp_eq_true in H. apply (f_equal ppz) in H. cbn [ppz pt_as_proj] in H.
  apply F1_neq_0. transitivity (F1 + F1 - F1)%F; [ring|]. rewrite <- H. ring.
Qed.
(** every point has a second encoding: p can be added to its ordinate *)
Lemma encoding_refuted_lemma : forall sqrt P, py_sqrt_ok sqrt -> on_curve P ->
  exists b, Forall (fun d => 0 <= d < 256) b /\ b <> pt_compress P /\ pt_decompress sqrt b = Ok P.
Proof.
  intros sqrt P HS HP. set (v := fval (py P) + p_mod + 2 ^ 255 * (fval (px P) mod 2)).
  exists (rev (be_bytes 32 v)).
  pose proof (fval_range (py P)) as B. assert (B2 : 2 * p_mod < 2 ^ 255) by reflexivity. assert (B0 : 0 < p_mod) by reflexivity.
  pose proof (Z.mod_pos_bound (fval (px P)) 2 ltac:(lia)) as MB.
  assert (V : py_little (rev (be_bytes 32 v)) = v).
  { apply py_little_rev. change (256 ^ Z.of_nat 32) with (2 * 2 ^ 255). unfold v. lia. }
  assert (HB : Forall (fun d => 0 <= d < 256) (rev (be_bytes 32 v))) by apply Forall_rev, be_bytes_byte.
  split; [exact HB|]. split.
  - intros H. apply (f_equal py_little) in H. rewrite V, (proj1 (compress_val P)) in H. unfold v in H. lia.
  - apply decompress_iff; [assumption|assumption|]. split; [assumption|]. unfold encodes. rewrite rev_length, be_bytes_len. split; [reflexivity|].
    rewrite V. unfold v. rewrite (Z.mul_comm (2 ^ 255)), Z.mod_add, Z.div_add, Z.mod_small, Z.div_small by lia. split; [|right; reflexivity].
    rewrite Fof_add, Fof_fval, Fof_p. ring.
Qed.
