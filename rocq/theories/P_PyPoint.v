(** Lemmas about points from one coordinate in /repo/ethsnarks/jubjub.py: from_y, compression, hashing. *)
From Coq Require Import List ZArith Znumtheory Bool Arith Lia Field Ring.
From Verif Require Import Primes Field Base M_Point Spec_Curve Spec_Mont Spec_Basepoint Spec_CurveOrder P_Curve P_Group P_Zmul P_Mont P_Order P_CurveOrder P_Basepoint Q_Jubjub M_Evm M_PyJubjub Spec_PyJubjub P_PyJubjub P_PyMont Q_CurveOrder.
Import ListNotations.
Local Open Scope nat_scope.
Local Open Scope Z_scope.

(** ** bytes *)
Lemma py_little_rev n : forall v, 0 <= v < 256 ^ Z.of_nat n -> py_little (rev (be_bytes n v)) = v.
Proof.
  induction n as [|n IH]; intros v Hv.
  - change (256 ^ Z.of_nat 0) with 1 in Hv. assert (v = 0) by lia. subst. reflexivity.
  - rewrite Nat2Z.inj_succ, Z.pow_succ_r in Hv by lia. cbn [be_bytes]. rewrite rev_app_distr. cbn [rev app py_little fold_right].
    fold (py_little (rev (be_bytes n (v / 256)))). rewrite IH.
    + pose proof (Z.div_mod v 256 ltac:(lia)). lia.
    + split; [apply Z.div_pos; lia|apply Z.div_lt_upper_bound; lia].
Qed.
Lemma be_bytes_len n : forall v, length (be_bytes n v) = n.
Proof. induction n as [|n IH]; intros v; [reflexivity|]. cbn [be_bytes]. rewrite app_length, IH. cbn. lia. Qed.
Lemma be_bytes_byte n : forall v, Forall (fun d => 0 <= d < 256) (be_bytes n v).
Proof.
  induction n as [|n IH]; intros v; [constructor|]. cbn [be_bytes]. apply Forall_app. split; [apply IH|].
  constructor; [apply Z.mod_pos_bound; lia|constructor].
Qed.
Lemma py_little_bound b : Forall (fun d => 0 <= d < 256) b -> 0 <= py_little b < 256 ^ Z.of_nat (length b).
Proof.
  induction 1 as [|d b Hd H IH]; [split; reflexivity|]. cbn [length py_little fold_right]. fold (py_little b).
  rewrite Nat2Z.inj_succ, Z.pow_succ_r by lia. lia.
Qed.

(** ** from_y *)
Lemma from_y_xsq y : ((y * y - F1) / (JUBJUB_D * (y * y) - JUBJUB_A))%F = ((y * y - F1) * Finv (jj_d * (y * y) - jj_a))%F.
Proof. rewrite Fdiv_def. unfold JUBJUB_D, JUBJUB_A, jj_d, jj_a. reflexivity. Qed.
Lemma Fneg_sq x : (- x * - x)%F = (x * x)%F.
Proof. ring. Qed.
Lemma sq_eq x x' : (x * x)%F = (x' * x')%F -> x = x' \/ x = (- x')%F.
Proof.
  intros E. assert (E2 : ((x - x') * (x - - x'))%F = F0) by (transitivity (x * x - x' * x')%F; [ring|]; rewrite E; ring).
  apply Fmul_integral in E2. destruct E2 as [E2|E2]; apply (proj1 (Fsub_eq0 _ _)) in E2; auto.
Qed.
Lemma fval_opp x : x <> F0 -> fval (- x)%F = p_mod - fval x.
Proof.
  intros N. pose proof (fval_range x) as B.
  assert (fval x <> 0). { intros E. apply N. apply fval_inj. rewrite E. reflexivity. }
  rewrite <- (Fof_fval x) at 1. rewrite <- Fof_opp, fval_Fof.
  replace (- fval x) with ((p_mod - fval x) + (-1) * p_mod) by ring. rewrite Z.mod_add by (intro Q; vm_compute in Q; discriminate). apply Z.mod_small. lia.
Qed.
Lemma p_odd : p_mod mod 2 = 1.
Proof. reflexivity. Qed.
Lemma parity_opp x : x <> F0 -> fval (- x)%F mod 2 = 1 - fval x mod 2.
Proof.
  intros N. rewrite (fval_opp x N). rewrite Zminus_mod, p_odd. pose proof (Z.mod_pos_bound (fval x) 2 ltac:(lia)).
  assert (fval x mod 2 = 0 \/ fval x mod 2 = 1) as [-> | ->] by lia; reflexivity.
Qed.
Lemma land1 z : Z.land z 1 = z mod 2.
Proof. change 1 with (Z.ones 1). now rewrite Z.land_ones by lia. Qed.

Lemma square_dec xx : (exists r, (r * r)%F = xx) \/ forall r, (r * r)%F <> xx.
Proof.
  destruct (Z.eq_dec (M_Basepoint.mpz_jacobi xx) (-1)) as [J|J].
  - right. intros r Er. apply jacobi_iff in J. apply J. exists r. now symmetry.
  - left. destruct (jacobi_root xx J) as [r Er]. exists r. now symmetry.
Qed.
Section Sqrt.
Variable sqrt : F -> outcome F.
Hypothesis HS : py_sqrt_ok sqrt.

(** with a sign *)
Lemma from_y_sign y s P : (s = 0 \/ s = 1) ->
  (pt_from_y sqrt y (Some s) = Ok P <-> on_curve P /\ py P = y /\ (px P = F0 \/ s = fval (px P) mod 2)).
Proof using HS.
  intros Hs. unfold pt_from_y. cbv zeta. rewrite from_y_xsq.
  set (xx := ((y * y - F1) * Finv (jj_d * (y * y) - jj_a))%F).
  destruct (HS xx) as [HS1 HS2]. split.
  - intros E. destruct (sqrt xx) as [x| | | |] eqn:ES; try discriminate. cbn [obind] in E.
    assert (SQ : (x * x)%F = xx).
    { destruct (Feq_dec (x * x)%F xx) as [Q|Q]; [assumption|]. exfalso.
      destruct (square_dec xx) as [[r Er]|D].
      - destruct (HS1 r Er) as (x' & Ex & Sx). inversion Ex; subst x'. contradiction.
      - discriminate (HS2 D). }
    inversion E as [EP]. clear E. rewrite land1. cbn [px py].
    assert (G : (if negb (fval x mod 2 =? s) then - x else x)%F = x /\ s = fval x mod 2 \/ (if negb (fval x mod 2 =? s) then - x else x)%F = (- x)%F /\ s <> fval x mod 2).
    { destruct (Z.eqb_spec (fval x mod 2) s); cbn [negb]; [left|right]; auto. }
    destruct G as [[-> G]|[-> G]]; cbn [px py].
    + split; [apply curve_xx; exact SQ|]. split; [reflexivity|]. now right.
    + split; [apply curve_xx; rewrite Fneg_sq; exact SQ|]. split; [reflexivity|].
      destruct (Feq_dec x F0) as [Z0|Z0]; [left; rewrite Z0; ring|right].
      rewrite (parity_opp x Z0). pose proof (Z.mod_pos_bound (fval x) 2 ltac:(lia)). lia.
  - intros (HC & HY & HX). destruct P as [x y']. cbn [px py] in *. subst y'. apply curve_xx in HC. fold xx in HC.
    destruct (HS1 x HC) as (x' & Ex & Sx). rewrite Ex. cbn [obind]. apply (f_equal Ok). apply point_eq; cbn [px py]; [|reflexivity].
    rewrite land1. destruct (sq_eq x' x) as [-> | ->]; [now rewrite Sx|..].
    + destruct (Z.eqb_spec (fval x mod 2) s) as [Q|Q]; cbn [negb]; [reflexivity|]. destruct HX as [-> |HX]; [ring|congruence].
    + destruct (Feq_dec x F0) as [-> |N]; [destruct (negb _); ring|]. destruct HX as [HX|HX]; [contradiction|].
      rewrite (parity_opp x N). pose proof (Z.mod_pos_bound (fval x) 2 ltac:(lia)).
      destruct (Z.eqb_spec (1 - fval x mod 2) s); cbn [negb]; [lia|ring].
Qed.
Lemma from_y_cases y sign : (has_point y /\ exists P, pt_from_y sqrt y sign = Ok P) \/ (~ has_point y /\ pt_from_y sqrt y sign = Throw).
Proof using HS.
  unfold pt_from_y. cbv zeta. rewrite from_y_xsq. set (xx := ((y * y - F1) * Finv (jj_d * (y * y) - jj_a))%F).
  destruct (HS xx) as [HS1 HS2]. destruct (square_dec xx) as [[r Er]|D].
  - left. destruct (HS1 r Er) as (x & -> & _). cbn [obind]. split; [|eauto]. exists r. apply curve_xx. exact Er.
  - right. rewrite (HS2 D). split; [|reflexivity]. intros [x Hx]. apply curve_xx in Hx. exact (D x Hx).
Qed.
(** without *)
Lemma from_y_plain y P : pt_from_y sqrt y None = Ok P -> on_curve P /\ py P = y /\ larger_root (px P).
Proof using HS.
  unfold pt_from_y. cbv zeta. rewrite from_y_xsq. set (xx := ((y * y - F1) * Finv (jj_d * (y * y) - jj_a))%F).
  destruct (HS xx) as [HS1 HS2]. destruct (square_dec xx) as [[r Er]|D].
  - destruct (HS1 r Er) as (x & -> & Sx). cbn [obind]. intros E. inversion E. cbn [px py]. clear E.
    split; [|split; [reflexivity|exact (neg_larger x)]]. apply curve_xx. fold xx. rewrite <- Sx. destruct (fq_is_negative x); ring.
  - rewrite (HS2 D). discriminate.
Qed.

(** ** compression *)
Lemma compress_val P : py_little (pt_compress P) = fval (py P) + 2 ^ 255 * (fval (px P) mod 2) /\ length (pt_compress P) = 32%nat.
Proof.
  unfold pt_compress. rewrite rev_length, be_bytes_len. split; [|reflexivity].
  pose proof (fval_range (py P)) as B. assert (p_mod < 2 ^ 254) by reflexivity.
  pose proof (Z.mod_pos_bound (fval (px P)) 2 ltac:(lia)) as MB.
  assert (E : Z.lor (fval (py P)) (Z.shiftl (Z.land (fval (px P)) 1) 255) = fval (py P) + 2 ^ 255 * (fval (px P) mod 2)).
  { rewrite land1, Z.shiftl_mul_pow2 by lia. rewrite <- Z.lxor_lor; [rewrite <- Z.add_nocarry_lxor|].
    - lia.
    - apply Z.bits_inj'. intros n Hn. rewrite Z.land_spec, Z.bits_0.
      destruct (Z.lt_ge_cases n 255) as [L|L].
      + rewrite (Z.mul_pow2_bits_low _ 255 n) by lia. apply andb_false_r.
      + rewrite (Z.bits_above_log2 (fval (py P)) n); [reflexivity|lia|].
        destruct (Z.eq_dec (fval (py P)) 0) as [-> |N]; [cbn; lia|]. apply Z.log2_lt_pow2; [lia|].
        apply Z.lt_le_trans with (2 ^ 254); [lia|]. apply Z.pow_le_mono_r; lia.
    - apply Z.bits_inj'. intros n Hn. rewrite Z.land_spec, Z.bits_0.
      destruct (Z.lt_ge_cases n 255) as [L|L].
      + rewrite (Z.mul_pow2_bits_low _ 255 n) by lia. apply andb_false_r.
      + rewrite (Z.bits_above_log2 (fval (py P)) n); [reflexivity|lia|].
        destruct (Z.eq_dec (fval (py P)) 0) as [-> |N]; [cbn; lia|]. apply Z.log2_lt_pow2; [lia|].
        apply Z.lt_le_trans with (2 ^ 254); [lia|]. apply Z.pow_le_mono_r; lia. }
  rewrite E. apply py_little_rev. change (256 ^ Z.of_nat 32) with (2 * 2 ^ 255). change (2 ^ 255) with (2 * 2 ^ 254) in *. lia.
Qed.
Lemma compress_encodes P : encodes (pt_compress P) P.
Proof.
  destruct (compress_val P) as [V L]. unfold encodes. rewrite V. split; [exact L|].
  pose proof (fval_range (py P)) as B. assert (p_mod < 2 ^ 255) by reflexivity.
  rewrite (Z.mul_comm (2 ^ 255)), Z.mod_add, Z.div_add, Z.mod_small, Z.div_small by lia. split; [apply Fof_fval|]. right. reflexivity.
Qed.
Lemma decompress_iff b P : Forall (fun d => 0 <= d < 256) b -> (pt_decompress sqrt b = Ok P <-> on_curve P /\ encodes b P).
Proof using HS.
  intros HB. unfold pt_decompress, encodes. destruct (Nat.eqb_spec (length b) 32) as [L|L]; cbn [py_check obind].
  2:{ split; [discriminate|]. intros (_ & L' & _). contradiction. }
  cbv zeta. pose proof (py_little_bound b HB) as B. rewrite L in B. change (256 ^ Z.of_nat 32) with (2 * 2 ^ 255) in B.
  rewrite Z.shiftr_div_pow2 by lia. change (Z.shiftl 1 255 - 1) with (Z.ones 255). rewrite Z.land_ones by lia.
  assert (HB2 : 0 <= py_little b / 2 ^ 255 < 2) by (split; [apply Z.div_pos; lia|apply Z.div_lt_upper_bound; lia]).
  rewrite from_y_sign by lia. intuition congruence.
Qed.
Lemma decompress_throws b : Forall (fun d => 0 <= d < 256) b -> (forall P, on_curve P -> ~ encodes b P) -> pt_decompress sqrt b = Throw.
Proof using HS.
  intros HB H. destruct (pt_decompress sqrt b) as [P| | | |] eqn:E; try reflexivity.
  - apply decompress_iff in E; [|assumption]. destruct E as [E1 E2]. exfalso. exact (H P E1 E2).
  - unfold pt_decompress in E. destruct (Nat.eqb (length b) 32); cbn [py_check obind] in E; [|discriminate].
    cbv zeta in E. destruct (from_y_cases (Fof (Z.land (py_little b) (Z.shiftl 1 255 - 1))) (Some (Z.shiftr (py_little b) 255))) as [[_ [P EP]]|[_ EP]]; rewrite EP in E; discriminate.
  - unfold pt_decompress in E. destruct (Nat.eqb (length b) 32); cbn [py_check obind] in E; [|discriminate].
    cbv zeta in E. destruct (from_y_cases (Fof (Z.land (py_little b) (Z.shiftl 1 255 - 1))) (Some (Z.shiftr (py_little b) 255))) as [[_ [P EP]]|[_ EP]]; rewrite EP in E; discriminate.
  - unfold pt_decompress in E. destruct (Nat.eqb (length b) 32); cbn [py_check obind] in E; [|discriminate].
    cbv zeta in E. destruct (from_y_cases (Fof (Z.land (py_little b) (Z.shiftl 1 255 - 1))) (Some (Z.shiftr (py_little b) 255))) as [[_ [P EP]]|[_ EP]]; rewrite EP in E; discriminate.
Qed.

(** ** hashing *)
Lemma JUBJUB_L_ok : JUBJUB_L = ord_L.
Proof. reflexivity. Qed.
Lemma pt_mult_ok P v : on_curve P -> 0 <= v -> py_mult cc_point P (SInt v) = Ok (pzmul v P).
Proof.
  intros HP Hv.
  destruct (py_mult_int point cc_point (fun a Q => a = Q) (fun _ => True)) with (v := v) (p := P) (Q := P) as (r & E1 & E2); auto.
  - intros a b A B HA HB -> ->. exists (padd A B). split; [now apply pt_add_ok|reflexivity].
  - intros a A HA _ ->. exists (padd A A). split; [now apply pt_add_ok|reflexivity].
  - now rewrite E1, E2.
Qed.
Lemma from_hash_found : forall (i : nat) y, has_point (y + Fof (Z.of_nat i))%F -> (forall j, 0 <= j < Z.of_nat i -> ~ has_point (y + Fof j)%F) ->
  exists P, found_at y (Z.of_nat i) P /\ from_hash_loop sqrt (S i) y = Some (Ok (pzmul 8 P)).
Proof using HS.
  induction i as [|i IH]; intros y Hi Hj.
  - cbn [from_hash_loop]. change (Fof (Z.of_nat 0)) with F0 in Hi. replace (y + F0)%F with y in Hi by ring.
    destruct (from_y_cases y None) as [[_ [P EP]]|[N _]]; [|contradiction]. rewrite EP. exists P.
    destruct (from_y_plain y P EP) as (HC & HY & HL). split.
    { split; [assumption|]. split; [|split; [assumption|intros j Q; lia]]. rewrite HY. change (Fof (Z.of_nat 0)) with F0. ring. }
    change (SInt JUBJUB_C) with (SInt 8). rewrite (pt_mult_ok P 8 HC) by lia. cbn [obind].
    rewrite JUBJUB_L_ok, pt_mult_ok; [|now apply pzmul_on|discriminate]. cbn [obind].
    rewrite <- pzmul_mul by assumption. rewrite Z.mul_comm, curve_exponent_lemma by assumption.
    unfold pt_eq, pt_infinity, pzero. cbn [px py]. rewrite !Feqb_refl. reflexivity.
  - change (from_hash_loop sqrt (S (S i)) y) with (match pt_from_y sqrt y None with
      | Ok P => Some (P <- py_mult cc_point P (SInt JUBJUB_C) ;; Q <- py_mult cc_point P (SInt JUBJUB_L) ;; _ <- py_check (pt_eq Q pt_infinity) ;; Ok P)
      | _ => from_hash_loop sqrt (S i) (y + F1)%F end).
    destruct (from_y_cases y None) as [[HP _]|[_ ->]].
    { exfalso. apply (Hj 0); [lia|]. change (Fof 0) with F0. now replace (y + F0)%F with y by ring. }
    destruct (IH (y + F1)%F) as (P & (F1' & F2 & F3 & F4) & E).
    + replace (y + F1 + Fof (Z.of_nat i))%F with (y + Fof (Z.of_nat (S i)))%F; [assumption|]. rewrite Nat2Z.inj_succ. unfold Z.succ. rewrite Fof_add. change (Fof 1) with F1. ring.
    + intros j Hjr Hq. apply (Hj (j + 1)); [lia|]. rewrite Fof_add. change (Fof 1) with F1. now replace (y + (Fof j + F1))%F with (y + F1 + Fof j)%F by ring.
    + exists P. split; [|exact E]. split; [assumption|]. split; [|split; [assumption|exact Hj]].
      rewrite F2. rewrite Nat2Z.inj_succ. unfold Z.succ. rewrite Fof_add. change (Fof 1) with F1. ring.
Qed.
Lemma has_point_dec y : has_point y \/ ~ has_point y.
Proof.
  destruct (square_dec ((y * y - F1) * Finv (jj_d * (y * y) - jj_a))%F) as [[r Er]|D].
  - left. exists r. now apply curve_xx.
  - right. intros [x Hx]. apply curve_xx in Hx. exact (D x Hx).
Qed.
Lemma first_point : forall n y, (exists i, (i < n)%nat /\ has_point (y + Fof (Z.of_nat i))%F) ->
  exists i, (i < n)%nat /\ has_point (y + Fof (Z.of_nat i))%F /\ forall j, 0 <= j < Z.of_nat i -> ~ has_point (y + Fof j)%F.
Proof.
  induction n as [|n IH]; intros y (i & Hi & H); [lia|].
  assert (D : (exists j, (j < n)%nat /\ has_point (y + Fof (Z.of_nat j))%F) \/ forall j, (j < n)%nat -> ~ has_point (y + Fof (Z.of_nat j))%F).
  { clear. induction n as [|n IHn]; [right; intros j Hj; lia|].
    destruct IHn as [(j & Hj & Hp)|N]; [left; exists j; split; [lia|assumption]|].
    destruct (has_point_dec (y + Fof (Z.of_nat n))%F) as [Hp|Hp]; [left; exists n; split; [lia|assumption]|].
    right. intros j Hj. destruct (Nat.eq_dec j n) as [-> |]; [assumption|]. apply N. lia. }
  destruct D as [D|D].
  - destruct (IH y D) as (k & Hk & H1 & H2). exists k. split; [lia|auto].
  - assert (i = n) by (destruct (Nat.eq_dec i n); [assumption|]; exfalso; apply (D i); [lia|assumption]). subst i.
    exists n. split; [lia|]. split; [assumption|]. intros j Hj. rewrite <- (Z2Nat.id j) by lia. apply D. lia.
Qed.
Lemma some_point y : exists i, has_point (y + Fof (Z.of_nat i))%F /\ forall j, 0 <= j < Z.of_nat i -> ~ has_point (y + Fof j)%F.
Proof.
  destruct (first_point (S (Z.to_nat ((1 - fval y) mod p_mod))) y) as (i & _ & H1 & H2); [|now exists i].
  exists (Z.to_nat ((1 - fval y) mod p_mod)). split; [lia|].
  rewrite Z2Nat.id by (apply Z.mod_pos_bound; reflexivity). exists F0.
  replace (y + Fof ((1 - fval y) mod p_mod))%F with F1; [exact pzero_on|].
  assert (E : Fof ((1 - fval y) mod p_mod) = (F1 - y)%F).
  { rewrite <- (Fof_fval y) at 2. change F1 with (Fof 1). rewrite <- Fof_sub. apply Fof_eq_iff. apply Zmod_mod. }
  rewrite E. ring.
Qed.
End Sqrt.
