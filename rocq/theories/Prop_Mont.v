(** Property theorems C28-C32 and C58 (Montgomery form, windowed Pedersen multiplication,
    order of the generator). *)
From Coq Require Import List NArith ZArith Znumtheory Bool Arith Lia.
From Verif Require Import Primes Field Base R1CS R1CSFacts M_Lookup M_Point M_Jubjub M_Montgomery Spec_Curve Spec_Mont
  P_Order Q_Jubjub Q_Mont.
Import ListNotations.
Local Open Scope F_scope.

(** ** C28 *)
Theorem C28_to_montgomery : forall P, on_curve P -> px P <> F0 ->
  exists M, as_montgomery P = Ok M /\ on_mont M /\ as_edwards M = Ok P.
Proof. exact to_montgomery_lemma. Qed.
Print Assumptions C28_to_montgomery.
Theorem C28_from_montgomery : forall M, on_mont M -> py M <> F0 ->
  exists P, as_edwards M = Ok P /\ on_curve P /\ as_montgomery P = Ok M.
Proof. exact from_montgomery_lemma. Qed.
Print Assumptions C28_from_montgomery.
Theorem C28_conversions_abort : forall P M, on_curve P -> on_mont M ->
  (as_montgomery P = Abort <-> P = mkpt F0 F1 \/ P = mkpt F0 (- F1)) /\ (as_edwards M = Abort <-> M = mkpt F0 F0).
Proof. exact conversion_abort_lemma. Qed.
Print Assumptions C28_conversions_abort.
Theorem C28_montgomery_to_edwards_gadget : forall X Y n, lc_all (fun v => v < n)%nat X -> (Y < n)%nat ->
  exists g n', m2e_new X Y n = (g, n') /\ (n <= me_X2 g < n')%nat /\ (n <= me_Y2 g < n')%nat /\
  forall s : assign, on_mont (mkpt (ev s X) (s Y)) -> s Y <> F0 ->
    (sat s (m2e_constraints g) <-> as_edwards (mkpt (ev s X) (s Y)) = Ok (mkpt (s (me_X2 g)) (s (me_Y2 g)))) /\
    exists s', m2e_witness g s = Ok s' /\ frame n n' s s' /\ sat s' (m2e_constraints g).
Proof. exact m2e_lemma. Qed.
Print Assumptions C28_montgomery_to_edwards_gadget.
Example C28_example : on_curve exG /\ px exG <> F0 /\ on_mont exM /\ py exM <> F0.
Proof.
  split; [exact exG_on|]. split; [intros H; apply (f_equal fval) in H; vm_compute in H; discriminate|].
  split; [exact exM_on|]. exact P_Curve.sqrt_a_nz.
Qed.

(** ** C29: the full claim "for every pair of points" is false, see _refuted; the partial theorem
    covers all pairs with different abscissae, and C29_equal_points_unconstrained describes what
    happens when the two points are equal. *)
Theorem C29_montgomery_adder_partial : forall X1 Y1 X2 Y2 n, lc_all (fun v => v < n)%nat X1 -> (Y1 < n)%nat -> lc_all (fun v => v < n)%nat X2 -> (Y2 < n)%nat ->
  exists g n', madder_new X1 Y1 X2 Y2 n = (g, n') /\ (n <= ma_X3 g < n')%nat /\ (n <= ma_Y3 g < n')%nat /\
  forall s : assign, on_mont (mkpt (ev s X1) (s Y1)) -> on_mont (mkpt (ev s X2) (s Y2)) -> ev s X1 <> ev s X2 ->
    (sat s (madder_constraints g) -> on_mont (mkpt (s (ma_X3 g)) (s (ma_Y3 g))) /\
       of_mont (mkpt (s (ma_X3 g)) (s (ma_Y3 g))) = padd (of_mont (mkpt (ev s X1) (s Y1))) (of_mont (mkpt (ev s X2) (s Y2)))) /\
    exists s', madder_witness g s = Ok s' /\ frame n n' s s' /\ sat s' (madder_constraints g).
Proof. exact madder_lemma. Qed.
Print Assumptions C29_montgomery_adder_partial.
Theorem C29_equal_points_unconstrained : forall X1 Y1 X2 Y2 n (s : assign) (l : F), lc_all (fun v => v < n)%nat X1 -> (Y1 < n)%nat -> lc_all (fun v => v < n)%nat X2 -> (Y2 < n)%nat ->
  ev s X1 = ev s X2 -> s Y1 = s Y2 ->
  let g := fst (madder_new X1 Y1 X2 Y2 n) in
  madder_witness g s = Abort /\
  exists s', frame n (n + 3) s s' /\ sat s' (madder_constraints g) /\ s' (ma_X3 g) = l * l - Fof 168698 - ev s X1 - ev s X2.
Proof. exact madder_free_lemma. Qed.
Print Assumptions C29_equal_points_unconstrained.
Theorem C29_montgomery_adder_refuted : exists g n', madder_new (V 0%nat) 1 (V 2%nat) 3 4 = (g, n') /\ exists s : assign,
  on_mont (mkpt (s 0%nat) (s 1%nat)) /\ on_mont (mkpt (s 2%nat) (s 3%nat)) /\ sat s (madder_constraints g) /\
  of_mont (mkpt (s (ma_X3 g)) (s (ma_Y3 g))) <> padd (of_mont (mkpt (s 0%nat) (s 1%nat))) (of_mont (mkpt (s 2%nat) (s 3%nat))).
Proof. exact madder_refuted_lemma. Qed.
Print Assumptions C29_montgomery_adder_refuted.
(** (1, sqrt a) and (0, 0) have different abscissae *)
Example C29_example : let s : assign := fun v => nth v [F1; py exM; F0; F0] F0 in
  on_mont (mkpt (s 0%nat) (s 1%nat)) /\ on_mont (mkpt (s 2%nat) (s 3%nat)) /\ s 0%nat <> s 2%nat.
Proof.
  cbn zeta. cbn [nth]. split; [exact exM_on|]. split; [unfold on_mont; cbn [px py]; ring|]. exact F1_neq_0.
Qed.

(** ** C30 *)
Theorem C30_windowed_pedersen : forall bases sc n,
  Forall on_curve bases -> regular bases (length sc / 3) ->
  (length sc mod 3 = 0)%nat -> (6 <= length sc)%nat -> (length sc <= 186 * length bases)%nat ->
  (basepoints_required (Z.of_nat (length sc)) <= Z.of_nat (length bases))%Z -> Forall (fun v => v < n)%nat sc ->
  exists g n' rx ry cs, zcash_new bases sc n = Ok (g, n') /\ zcash_result g = Ok (rx, ry) /\ zcash_constraints g = Ok cs /\
    forall (s : assign) (bits : list bool), map s sc = map b2F bits -> non_exceptional bases bits ->
      cs_all (fun v => v < n')%nat cs /\
      (sat s cs -> mkpt (s rx) (s ry) = pedersen_sum bases bits) /\
      exists s', zcash_witness g s = Ok s' /\ frame n n' s s' /\ sat s' cs.
Proof. exact windowed_pedersen_lemma. Qed.
Print Assumptions C30_windowed_pedersen.
Theorem C30_large_order_bases : forall bases bits, Forall on_curve bases -> Forall large_order bases ->
  (length bits mod 3 = 0)%nat -> (length bits <= 186 * length bases)%nat ->
  regular bases (length bits / 3) /\ non_exceptional bases bits.
Proof. exact large_order_lemma. Qed.
Print Assumptions C30_large_order_bases.
(** six bits over the generator of params.cpp: 1 - 2 * 16 = -31 *)
Example C30_example : let bases := [mkpt jj_Gx jj_Gy] in let bits := [false; false; false; true; false; true] in
  Forall on_curve bases /\ regular bases (length bits / 3) /\ non_exceptional bases bits /\
  (basepoints_required (Z.of_nat (length bits)) <= Z.of_nat (length bases))%Z /\
  pedersen_sum bases bits = pneg (smul 31 (mkpt jj_Gx jj_Gy)).
Proof.
  intros bases bits.
  assert (H1 : Forall on_curve bases) by (constructor; [exact exG_on|constructor]).
  assert (H2 : Forall large_order bases) by (constructor; [exact exG_large_order|constructor]).
  destruct (C30_large_order_bases bases bits H1 H2 eq_refl ltac:(cbn [length bases bits]; lia)) as [A B].
  split; [exact H1|]. split; [exact A|]. split; [exact B|]. split; [vm_compute; discriminate|].
  unfold bases. cbn [pedersen_sum]. rewrite P_Curve.padd_0_r.
  let v := eval vm_compute in (segment_val 62 bits) in change (segment_val 62 bits) with v. reflexivity.
Qed.

(** ** C31 *)
Theorem C31_window_bookkeeping : forall bases sc n,
  Forall on_curve bases -> (length sc mod 3 = 0)%nat -> (6 <= length sc)%nat -> (length sc <= 186 * length bases)%nat ->
  (basepoints_required (Z.of_nat (length sc)) <= Z.of_nat (length bases))%Z -> Forall (fun v => v < n)%nat sc ->
  (zcash_new bases sc n = Abort /\ ~ regular bases (length sc / 3)) \/
  exists g n' rx ry cs, zcash_new bases sc n = Ok (g, n') /\ zcash_result g = Ok (rx, ry) /\ zcash_constraints g = Ok cs /\
    (n <= rx < n')%nat /\ (n <= ry < n')%nat /\
    length (zc_wy g) = (length sc / 3)%nat /\
    (forall i, (i < length sc / 3)%nat -> exists w ps,
       nth_error (zc_wy g) i = Some w /\ lks_c w = map py ps /\
       lks_b w = [nth (3 * i) sc 0%nat; nth (3 * i + 1) sc 0%nat; nth (3 * i + 2) sc 0%nat] /\
       Forall2 (fun k M => as_montgomery (smul (k * 16 ^ N.of_nat (i mod 62)%nat) (nth (i / 62)%nat bases pzero)) = Ok M) [1; 2; 3; 4]%N ps) /\
    (forall (s : assign) bits, map s sc = map b2F bits -> zcash_witness g s = Abort \/ exists s', zcash_witness g s = Ok s').
Proof. exact window_tables_lemma. Qed.
Print Assumptions C31_window_bookkeeping.
Theorem C31_single_window_is_ub : forall bases B b0 b1 b2 n, on_curve B -> regular (B :: bases) 1 -> zcash_new (B :: bases) [b0; b1; b2] n = UB.
Proof. exact single_window_lemma. Qed.
Print Assumptions C31_single_window_is_ub.
Theorem C31_short_base_list_is_ub : forall bases sc n, Forall on_curve bases -> Forall large_order bases -> bases <> [] ->
  (length sc mod 3 = 0)%nat -> (186 * length bases < length sc)%nat ->
  (basepoints_required (Z.of_nat (length sc)) <= Z.of_nat (length bases))%Z -> zcash_new bases sc n = UB.
Proof. exact short_base_list_lemma. Qed.
Print Assumptions C31_short_base_list_is_ub.
(** 187 windows over four base points: three full segments and one segment with one window *)
Example C31_example : let bases := repeat (mkpt jj_Gx jj_Gy) 4 in let sc := seq 1 561 in
  Forall on_curve bases /\ (length sc mod 3 = 0)%nat /\ (6 <= length sc <= 186 * length bases)%nat /\
  (basepoints_required (Z.of_nat (length sc)) <= Z.of_nat (length bases))%Z /\ Forall (fun v => v < 562)%nat sc.
Proof.
  intros bases sc. split; [unfold bases; cbn [repeat]; repeat constructor; exact exG_on|].
  assert (E : length sc = 561%nat) by apply seq_length. rewrite E. split; [reflexivity|]. split; [cbn [bases repeat length]; lia|].
  split; [vm_compute; discriminate|]. apply Forall_forall. intros v Hv. apply in_seq in Hv. lia.
Qed.
Example C31_single_window_example : on_curve exG /\ regular [exG] 1.
Proof.
  split; [exact exG_on|]. apply (C30_large_order_bases [exG] [false; false; false]).
  - constructor; [exact exG_on|constructor].
  - constructor; [exact exG_large_order|constructor].
  - reflexivity.
  - cbn [length]. lia.
Qed.
(** the constructor's assertion is satisfied with one base point too few *)
Example C31_short_example : exists bases (sc : list var), Forall on_curve bases /\ Forall large_order bases /\ bases <> [] /\
  (length sc mod 3 = 0)%nat /\ (186 * length bases < length sc)%nat /\
  (basepoints_required (Z.of_nat (length sc)) <= Z.of_nat (length bases))%Z.
Proof.
  exists (repeat exG (N.to_nat 360804)), (repeat 0%nat (N.to_nat 67109547)). rewrite !repeat_length.
  split; [apply Forall_forall; intros P HP; apply repeat_spec in HP; subst; exact exG_on|].
  split; [apply Forall_forall; intros P HP; apply repeat_spec in HP; subst; exact exG_large_order|].
  split; [intros E; apply (f_equal (@length _)) in E; rewrite repeat_length in E; cbn [length] in E; lia|].
  rewrite !N_nat_Z. split; [|split; [lia|vm_compute; discriminate]].
  apply Nat2Z.inj. rewrite Nat2Z.inj_mod, N_nat_Z. reflexivity.
Qed.

(** ** C32: exact up to 2^24 bits; beyond, single-precision rounding returns too few base points *)
Theorem C32_basepoints_required_partial : forall n_bits, (0 <= n_bits <= 2 ^ 24)%Z ->
  let k := basepoints_required n_bits in
  (n_bits <= 186 * k)%Z /\ forall k', (0 <= k')%Z -> (n_bits <= 186 * k')%Z -> (k <= k')%Z.
Proof. exact basepoints_required_lemma. Qed.
Print Assumptions C32_basepoints_required_partial.
Theorem C32_basepoints_required_refuted : exists n_bits, (0 < n_bits < 2 ^ 32)%Z /\ (n_bits mod 3 = 0)%Z /\
  (186 * basepoints_required n_bits < n_bits)%Z.
Proof. exact basepoints_required_refuted_lemma. Qed.
Print Assumptions C32_basepoints_required_refuted.
Example C32_example : basepoints_required 186 = 1%Z /\ basepoints_required 187 = 2%Z /\ basepoints_required 762 = 5%Z.
Proof. vm_compute. auto. Qed.

(** ** C58 *)
Theorem C58_generator_order : exists L : Z, L = 2736030358979909402780800718157159386076813972158567259200215660948447373041%Z /\ prime L /\
  forall k : N, smul k (mkpt jj_Gx jj_Gy) = mkpt F0 F1 <-> (L | Z.of_N k)%Z.
Proof. exact generator_order_lemma. Qed.
Print Assumptions C58_generator_order.
Example C58_example : smul 8 (mkpt jj_Gx jj_Gy) <> pzero.
Proof.
  intros E. apply exG_notlow. unfold exG. rewrite E. reflexivity.
Qed.
