(** The curve of params.cpp has exactly 8 L points and is the direct sum of the subgroup of order L
    generated by G and a cyclic group of order 8.

    Counting argument: a point is determined by y and one bit, so there are at most 2p points.  The
    multiples of G and of a point T of order 8 give 8L different points, and 16L > 2p, so there is no
    second coset. *)
From Coq Require Import ZArith NArith Znumtheory List Bool Lia.
From Verif Require Import Primes Field M_Point Spec_Curve Spec_Mont Spec_CurveOrder P_Curve P_JubLeaf P_Group P_Zmul Q_Jubjub P_Order.
Import ListNotations.
Open Scope Z_scope.

(** ** A point of order 8 *)
Definition pT : point := mkpt (Fof 17545522957889784193459637215142187266023652151580582754000402781682644312291)
  (Fof 4826523245007015323400664741523384119579596407052839571721035538011798951543).
Definition pT2 : point := mkpt (Fof 2957874849018779266517920829765869116077630550401372566248359756137677864698) F0.
Definition pT4 : point := mkpt F0 (Fof (-1)).
Lemma pT_on : on_curve pT.
Proof. unfold on_curve. apply Feqb_true. vm_compute. reflexivity. Qed.
Lemma pT2_eq : pT2 = padd pT pT.
Proof. apply padd_val; [exact pT_on|exact pT_on|]. split; apply Feqb_true; vm_compute; reflexivity. Qed.
Lemma pT2_on : on_curve pT2.
Proof. rewrite pT2_eq. apply padd_closed; exact pT_on. Qed.
Lemma pT4_eq : pT4 = padd pT2 pT2.
Proof. apply padd_val; [exact pT2_on|exact pT2_on|]. split; apply Feqb_true; vm_compute; reflexivity. Qed.
Lemma pT4_on : on_curve pT4.
Proof. rewrite pT4_eq. apply padd_closed; exact pT2_on. Qed.
Lemma pT8_eq : pzero = padd pT4 pT4.
Proof. apply padd_val; [exact pT4_on|exact pT4_on|]. split; apply Feqb_true; vm_compute; reflexivity. Qed.
Lemma pzmul_1 P : pzmul 1 P = P.
Proof. apply smul_1. Qed.
Lemma pT_4 : pzmul 4 pT = pT4.
Proof.
  change 4 with (1 + 1 + (1 + 1)). rewrite !pzmul_add by exact pT_on. rewrite !pzmul_1.
  now rewrite <- pT2_eq, <- pT4_eq.
Qed.
Lemma pT_8 : pzmul 8 pT = pzero.
Proof. change 8 with (4 + 4). rewrite pzmul_add by exact pT_on. rewrite pT_4. symmetry. exact pT8_eq. Qed.
Lemma pT4_nz : pT4 <> pzero.
Proof. intros H. apply (f_equal py) in H. apply (f_equal fval) in H. vm_compute in H. discriminate. Qed.
Lemma pT_order z : pzmul z pT = pzero <-> (8 | z).
Proof.
  split.
  - intros E. destruct (Z.eq_dec (z mod 8) 0) as [M|M].
    { apply Z.mod_divide; [lia|exact M]. }
    exfalso. apply pT4_nz. rewrite <- pT_4.
    assert (H : exists m q, 4 = m * z + q * 8).
    { pose proof (Z.mod_pos_bound z 8 eq_refl) as B. pose proof (Z.div_mod z 8 ltac:(lia)) as D.
      set (q := z / 8) in *. set (r := z mod 8) in *.
      assert (C : r = 1 \/ r = 2 \/ r = 3 \/ r = 4 \/ r = 5 \/ r = 6 \/ r = 7) by lia.
      destruct C as [C|[C|[C|[C|[C|[C|C]]]]]]; rewrite C in D.
      - exists 4, (- (4 * q)). lia.
      - exists 2, (- (2 * q)). lia.
      - exists 4, (- (4 * q) - 1). lia.
      - exists 1, (- q). lia.
      - exists 4, (- (4 * q) - 2). lia.
      - exists 2, (- (2 * q) - 1). lia.
      - exists 4, (- (4 * q) - 3). lia. }
    destruct H as (m & q & H). rewrite H, pzmul_add, !pzmul_mul, E, pT_8, !pzmul_zero by exact pT_on.
    apply padd_0_r.
  - intros [q ->]. rewrite pzmul_mul by exact pT_on. rewrite pT_8. apply pzmul_zero.
Qed.

(** ** The 8L multiples *)
Lemma gon i : on_curve (pzmul i exG).
Proof. apply pzmul_on. exact exG_on. Qed.
Lemma ton i : on_curve (pzmul i pT).
Proof. apply pzmul_on. exact pT_on. Qed.
Definition pcomb (i j : Z) : point := padd (pzmul i exG) (pzmul j pT).
Lemma pcomb_on i j : on_curve (pcomb i j).
Proof. apply padd_closed; apply pzmul_on; [exact exG_on|exact pT_on]. Qed.
Lemma padd_4 A B C D : on_curve A -> on_curve B -> on_curve C -> on_curve D ->
  padd (padd A B) (padd C D) = padd (padd A C) (padd B D).
Proof.
  intros HA HB HC HD. rewrite !padd_assoc by auto using padd_closed. f_equal.
  rewrite <- !padd_assoc by assumption. f_equal. apply padd_comm.
Qed.
Lemma pcomb_sub i j k l : padd (pcomb i j) (pneg (pcomb k l)) = pcomb (i - k) (j - l).
Proof.
  unfold pcomb. rewrite pneg_padd by (apply gon || apply ton).
  rewrite padd_4 by (try apply pneg_on; apply gon || apply ton).
  rewrite (pzmul_sub i k) by exact exG_on. rewrite (pzmul_sub j l) by exact pT_on. reflexivity.
Qed.
Lemma ord_L_8 i : (ord_L | 8 * i) -> (ord_L | i).
Proof.
  intros H. apply Gauss in H; [exact H|].
  apply prime_rel_prime; [exact ord_L_prime|].
  intros [q Hq]. assert (8 < ord_L) by reflexivity.
  assert (D : (ord_L | 8)) by (exists q; exact Hq). apply Z.divide_pos_le in D; lia.
Qed.
Lemma pzmul_padd z P Q : on_curve P -> on_curve Q -> pzmul z (padd P Q) = padd (pzmul z P) (pzmul z Q).
Proof.
  intros HP HQ. assert (HN : forall n, pzmul (Z.of_N n) (padd P Q) = padd (pzmul (Z.of_N n) P) (pzmul (Z.of_N n) Q)).
  { intros n. induction n as [|n IH] using N.peano_ind; [symmetry; apply padd_0_r|].
    rewrite N2Z.inj_succ. replace (Z.succ (Z.of_N n)) with (1 + Z.of_N n) by lia.
    rewrite !pzmul_add by auto using padd_closed. rewrite IH, !pzmul_1. apply padd_4; auto using pzmul_on. }
  destruct (Z_le_gt_dec 0 z).
  - rewrite <- (Z2N.id z) by lia. apply HN.
  - replace z with (- Z.of_N (Z.to_N (- z))) by lia. rewrite !pzmul_opp, HN. apply pneg_padd; now apply pzmul_on.
Qed.
Lemma pcomb_zero i j : pcomb i j = pzero <-> (ord_L | i) /\ (8 | j).
Proof.
  split.
  - intros E. assert (Hi : (ord_L | i)).
    { apply ord_L_8. apply exG_order. rewrite pzmul_mul by exact exG_on.
      assert (E8 : pzmul 8 (pcomb i j) = pzero) by (rewrite E; apply pzmul_zero).
      unfold pcomb in E8. rewrite pzmul_padd in E8 by (apply gon || apply ton).
      rewrite <- (pzmul_mul 8 j) in E8 by exact pT_on.
      rewrite (proj2 (pT_order (8 * j))) in E8 by (exists j; lia). now rewrite padd_0_r in E8. }
    split; [exact Hi|]. apply pT_order. unfold pcomb in E. rewrite (proj2 (exG_order i) Hi) in E.
    now rewrite padd_0_l in E.
  - intros [Hi Hj]. unfold pcomb. rewrite (proj2 (exG_order i) Hi), (proj2 (pT_order j) Hj). apply padd_0_r.
Qed.
Lemma pcomb_inj i j k l : pcomb i j = pcomb k l <-> (ord_L | i - k) /\ (8 | j - l).
Proof.
  rewrite <- pcomb_zero, <- pcomb_sub. split.
  - intros ->. apply padd_neg_r. apply pcomb_on.
  - intros E. apply (padd_cancel_l (pneg (pcomb k l))); try apply pneg_on; try apply pcomb_on.
    rewrite padd_comm, E, padd_comm. symmetry. apply padd_neg_r. apply pcomb_on.
Qed.

(** ** Counting *)
Definition pkey (P : point) : Z := 2 * fval (py P) + (if fval (px P) <? fval (- px P)%F then 1 else 0).
Lemma Fopp_fix x : fval x = fval (- x)%F -> x = F0.
Proof.
  intros E. apply fval_inj in E.
  assert (H : (Fof 2 * x)%F = F0). { replace (Fof 2) with (F1 + F1)%F by (apply fval_inj; reflexivity). replace ((F1 + F1) * x)%F with (x - - x)%F by ring. now apply Fsub_eq0. }
  apply Fmul_integral in H. destruct H as [H|H]; [|exact H]. now apply F2_neq_0 in H.
Qed.
Lemma pkey_inj P Q : on_curve P -> on_curve Q -> pkey P = pkey Q -> P = Q.
Proof.
  intros HP HQ E. unfold pkey in E.
  assert (Ey : py P = py Q) by (apply fval_inj; destruct (_ <? _), (_ <? _) in E; lia).
  destruct (py_eq P Q HP HQ Ey) as [H|H]; [exact H|].
  assert (Ex : px P = (- px Q)%F) by (rewrite H; reflexivity).
  rewrite Ey, Ex in E. replace (- - px Q)%F with (px Q) in E by ring.
  destruct (Z.ltb_spec (fval (- px Q)%F) (fval (px Q))), (Z.ltb_spec (fval (px Q)) (fval (- px Q)%F)); try lia.
  apply point_eq; [|exact Ey]. rewrite Ex.
  assert (Z0 : px Q = F0) by (apply Fopp_fix; lia). rewrite Z0. ring.
Qed.
Lemma pkey_range P : 0 <= pkey P < 2 * p_mod.
Proof. unfold pkey. pose proof (fval_range (py P)). destruct (_ <? _); lia. Qed.
Lemma NoDup_map_in {A B} (f : A -> B) l : NoDup l -> (forall a b, In a l -> In b l -> f a = f b -> a = b) -> NoDup (map f l).
Proof.
  induction 1 as [|x l N H IH]; intros I; [constructor|]. cbn [map]. constructor.
  - intros M. apply in_map_iff in M. destruct M as (y & E & M). apply I in E; [subst; contradiction|now right|now left].
  - apply IH. intros a b Ha Hb. apply I; now right.
Qed.
Lemma NoDup_app_disj {A} (l m : list A) : NoDup l -> NoDup m -> (forall x, In x l -> In x m -> False) -> NoDup (l ++ m).
Proof.
  induction 1 as [|x l N H IH]; intros M D; [exact M|]. cbn [app]. constructor.
  - intros I. apply in_app_iff in I. destruct I as [I|I]; [contradiction|]. apply (D x); [now left|exact I].
  - apply IH; [exact M|]. intros y Hy. apply D. now right.
Qed.
Lemma points_bound_gen np l : Z.of_nat np = 2 * p_mod -> NoDup l -> Forall on_curve l -> Z.of_nat (length l) <= 2 * p_mod.
Proof.
  intros Hnp N H. rewrite Forall_forall in H.
  assert (N2 : NoDup (map pkey l)) by (apply NoDup_map_in; [exact N|intros; apply pkey_inj; auto]).
  assert (I : incl (map pkey l) (map Z.of_nat (seq 0 np))).
  { intros k Hk. apply in_map_iff in Hk. destruct Hk as (P & <- & HP). pose proof (pkey_range P).
    apply in_map_iff. exists (Z.to_nat (pkey P)). split; [apply Z2Nat.id; lia|]. apply in_seq. lia. }
  pose proof (NoDup_incl_length N2 I) as L. rewrite !map_length, seq_length in L. lia.
Qed.
Lemma points_bound l : NoDup l -> Forall on_curve l -> Z.of_nat (length l) <= 2 * p_mod.
Proof.
  assert (E : exists np, Z.of_nat np = 2 * p_mod).
  { exists (Z.to_nat (2 * p_mod)). apply Z2Nat.id. apply Z.mul_nonneg_nonneg; [lia|]. pose proof (fval_range F0). lia. }
  destruct E as [np E]. exact (points_bound_gen np l E).
Qed.
Definition pelem (n : nat) : point := pcomb (Z.of_nat n / 8) (Z.of_nat n mod 8).
Lemma pelem_inj nL n m : Z.of_nat nL = ord_L -> (n < 8 * nL)%nat -> (m < 8 * nL)%nat -> pelem n = pelem m -> n = m.
Proof.
  intros EL Hn Hm E. unfold pelem in E. apply pcomb_inj in E. destruct E as [E1 E2].
  pose proof (Z.div_mod (Z.of_nat n) 8 ltac:(lia)) as D1. pose proof (Z.div_mod (Z.of_nat m) 8 ltac:(lia)) as D2.
  pose proof (Z.mod_pos_bound (Z.of_nat n) 8 eq_refl) as B1. pose proof (Z.mod_pos_bound (Z.of_nat m) 8 eq_refl) as B2.
  rewrite <- EL in E1. clear EL.
  set (a := Z.of_nat n / 8) in *. set (b := Z.of_nat n mod 8) in *. set (c := Z.of_nat m / 8) in *. set (d := Z.of_nat m mod 8) in *.
  destruct E1 as [q1 E1]. destruct E2 as [q2 E2].
  assert (q2 = 0) by lia.
  assert (q1 = 0) by nia. lia.
Qed.
Lemma pelem_surj nL i j : Z.of_nat nL = ord_L -> exists n, (n < 8 * nL)%nat /\ pelem n = pcomb i j.
Proof.
  intros EL. assert (LP : 0 < ord_L) by reflexivity.
  pose proof (Z.mod_pos_bound i ord_L LP) as B1. pose proof (Z.mod_pos_bound j 8 eq_refl) as B2.
  exists (Z.to_nat (8 * (i mod ord_L) + j mod 8)). split; [lia|].
  unfold pelem. rewrite Z2Nat.id by lia.
  replace (8 * (i mod ord_L) + j mod 8) with (j mod 8 + (i mod ord_L) * 8) by lia.
  rewrite Z.div_add, Z.mod_add by lia. rewrite (Z.div_small (j mod 8) 8), (Z.mod_small (j mod 8) 8) by lia. rewrite Z.add_0_l.
  apply pcomb_inj. split.
  - exists (- (i / ord_L)). pose proof (Z.div_mod i ord_L ltac:(lia)). lia.
  - exists (- (j / 8)). pose proof (Z.div_mod j 8 ltac:(lia)). lia.
Qed.
Lemma point_eq_dec (P Q : point) : {P = Q} + {P <> Q}.
Proof.
  destruct (Feq_dec (px P) (px Q)) as [E1|E1]; [|right; intros ->; contradiction].
  destruct (Feq_dec (py P) (py Q)) as [E2|E2]; [|right; intros ->; contradiction].
  left. now apply point_eq.
Qed.
Lemma nL_exists : exists nL, Z.of_nat nL = ord_L.
Proof. exists (Z.to_nat ord_L). apply Z2Nat.id. discriminate. Qed.
Lemma two_cosets_too_many : 2 * p_mod < 16 * ord_L.
Proof. vm_compute. reflexivity. Qed.
Lemma curve_list_gen nL : Z.of_nat nL = ord_L ->
  NoDup (map pelem (seq 0 (8 * nL))) /\ (forall P, In P (map pelem (seq 0 (8 * nL))) <-> on_curve P).
Proof.
  intros EL. set (H := map pelem (seq 0 (8 * nL))).
  assert (Hin : forall P, In P H <-> exists i j, P = pcomb i j).
  { intros P. split.
    - intros I. apply in_map_iff in I. destruct I as (n & <- & _). unfold pelem. eauto.
    - intros (i & j & ->). destruct (pelem_surj nL i j EL) as (n & Hn & E). apply in_map_iff. exists n.
      split; [exact E|]. apply in_seq. lia. }
  assert (HN : NoDup H).
  { apply NoDup_map_in; [apply seq_NoDup|]. intros a b Ha Hb E. apply in_seq in Ha, Hb.
    apply (pelem_inj nL); [exact EL|lia|lia|exact E]. }
  split; [exact HN|]. intros P. split.
  { intros I. apply Hin in I. destruct I as (i & j & ->). apply pcomb_on. }
  intros HP. destruct (in_dec point_eq_dec P H) as [I|I]; [exact I|exfalso].
  assert (On : forall Q, In Q H -> on_curve Q) by (intros Q HQ; apply Hin in HQ; destruct HQ as (i & j & ->); apply pcomb_on).
  set (l := H ++ map (padd P) H).
  assert (LN : NoDup l).
  { unfold l. apply NoDup_app_disj.
    - exact HN.
    - apply NoDup_map_in; [exact HN|]. intros a b Ha Hb E. apply (padd_cancel_l P); auto.
    - intros Q HQ HQ'. apply in_map_iff in HQ'. destruct HQ' as (R & E & HR). apply I.
      apply Hin in HQ. destruct HQ as (i & j & ->). apply Hin in HR. destruct HR as (k & m & ->).
      apply Hin. exists (i - k), (j - m). rewrite <- pcomb_sub, <- E.
      rewrite padd_assoc by (try apply pneg_on; auto; apply pcomb_on).
      rewrite padd_neg_r by apply pcomb_on. symmetry. apply padd_0_r. }
  assert (LC : Forall on_curve l).
  { apply Forall_forall. intros Q HQ. unfold l in HQ. apply in_app_iff in HQ. destruct HQ as [HQ|HQ]; [auto|].
    apply in_map_iff in HQ. destruct HQ as (R & <- & HR). apply padd_closed; auto. }
  pose proof (points_bound l LN LC) as B. unfold l, H in B.
  rewrite app_length, !map_length, seq_length in B. pose proof two_cosets_too_many. lia.
Qed.
