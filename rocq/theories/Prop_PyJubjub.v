(** Property theorems C113-C119: the Python curve library /repo/ethsnarks/jubjub.py.
    Vocabulary: Spec_PyJubjub.v ([implements_group], [multiplies], [proj_of], [etec_of], [digits_val],
    [naf_digit], [non_adjacent], [encodes], [py_sqrt_ok]), Spec_Curve.v ([on_curve], [padd], [pneg], [pzero]),
    Spec_Mont.v ([pzmul]), Spec_Basepoint.v ([found_at], [exact_order]), Spec_CurveOrder.v ([in_subgroup]).
    [sqrt] is any function that returns a root of every square and raises for every other element. *)
From Coq Require Import List ZArith Znumtheory Bool Arith Lia.
From Verif Require Import Primes Field Base M_Point M_Utils M_Sha256 M_Basepoint Spec_Utils Spec_Sha256 Spec_Curve Spec_Mont Spec_Basepoint Spec_CurveOrder P_Curve P_Group P_Zmul P_Order P_CurveOrder P_Basepoint Q_Jubjub Q_CurveOrder M_PyJubjub Spec_PyJubjub P_PyJubjub P_PyMont P_PyPoint Q_PyJubjub Q_PyHash.
Import ListNotations.
Local Open Scope nat_scope.
Local Open Scope Z_scope.

(** ** C113: the affine, projective and extended classes implement the group of the curve *)
Theorem C113_python_group : implements_group cc_point eq /\ implements_group cc_proj proj_of /\ implements_group cc_etec etec_of.
Proof. exact group_lemma. Qed.
Print Assumptions C113_python_group.
Theorem C113_python_valid : forall P, pt_valid P = true <-> on_curve P.
Proof. exact pt_valid_iff. Qed.
Print Assumptions C113_python_valid.
(** a projective representative with Z = 2, and the neutral element on either side *)
Example C113_example : on_curve exG /\ proj_of (mkpp (px exG + px exG) (py exG + py exG) (F1 + F1))%F exG /\
  pt_add exG pt_infinity = Ok exG /\ pt_add pt_infinity exG = Ok exG /\ pt_add pT pT = Ok (padd pT pT) /\ padd pT pT <> pT.
Proof.
  split; [exact exG_on|]. split; [apply proj2_of|]. change pt_infinity with pzero.
  rewrite !pt_add_ok by (exact exG_on || exact pT_on || exact pzero_on). rewrite padd_0_r, padd_0_l. repeat split.
  intros H. assert (H1 : pzmul 1 pT = pzmul 2 pT) by (rewrite P_CurveOrder.pzmul_1; change 2 with (1 + 1); rewrite pzmul_add by exact pT_on; now rewrite P_CurveOrder.pzmul_1).
  assert (H2 : pzmul 1 pT = pzero) by (change 1 with (2 - 1); rewrite pzmul_sub by exact pT_on; rewrite <- H1; apply padd_neg_r, pzmul_on; exact pT_on).
  apply pT_order in H2. apply Z.divide_pos_le in H2; lia.
Qed.

(** ** C114: scalar multiplication *)
Theorem C114_python_mult : multiplies (fun a s => py_mult cc_point a (SInt s)) eq /\
  multiplies (fun a s => py_mult cc_proj a (SInt s)) proj_of /\ multiplies (fun a s => py_mult cc_etec a (SInt s)) etec_of.
Proof. exact mult_lemma. Qed.
Print Assumptions C114_python_mult.
Theorem C114_python_mult_negative_diverges : forall f v P, v < 0 -> on_curve P ->
  mult_loop cc_point f v pt_infinity P = None /\
  (forall a, proj_of a P -> mult_loop cc_proj f v pp_infinity a = None) /\
  (forall a, etec_of a P -> mult_loop cc_etec f v ep_infinity a = None).
Proof. exact mult_negative_lemma. Qed.
Print Assumptions C114_python_mult_negative_diverges.
Theorem C114_python_scalar_fields : forall m P n1 n2, (m = JUBJUB_E \/ m = JUBJUB_L /\ in_subgroup exG P) -> on_curve P -> 0 <= n1 -> 0 <= n2 ->
  exists A B, py_mult cc_point P (SFQ n1 m) = Ok A /\ py_mult cc_point P (SFQ n2 m) = Ok B /\
    py_mult cc_point P (SFQ ((n1 + n2) mod m) m) = pt_add A B /\
    py_mult cc_point P (SFQ ((n1 * n2) mod m) m) = py_mult cc_point A (SFQ n2 m).
Proof. exact scalar_fields_lemma. Qed.
Print Assumptions C114_python_scalar_fields.
Theorem C114_python_scalar_field_p_differs : exists P n1 n2 A B, on_curve P /\ in_subgroup exG P /\ 0 <= n1 < JUBJUB_Q /\ 0 <= n2 < JUBJUB_Q /\
  py_mult cc_point P (SFQ n1 JUBJUB_Q) = Ok A /\ py_mult cc_point P (SFQ n2 JUBJUB_Q) = Ok B /\
  py_mult cc_point P (SFQ ((n1 + n2) mod JUBJUB_Q) JUBJUB_Q) <> pt_add A B.
Proof. exact scalar_fields_refuted_lemma. Qed.
Print Assumptions C114_python_scalar_field_p_differs.
Theorem C114_python_other_modulus : forall (c : curve_class point) a n m, m <> JUBJUB_Q -> m <> JUBJUB_E -> m <> JUBJUB_L -> py_mult c a (SFQ n m) = Throw.
Proof. exact (@other_modulus_lemma point). Qed.
Print Assumptions C114_python_other_modulus.
Example C114_example : py_mult cc_point exG (SInt 2) = Ok (padd exG exG) /\ (JUBJUB_L - 1 + 1) mod JUBJUB_L = 0 /\ in_subgroup exG exG.
Proof.
  split; [|split; [reflexivity|exists 1; now rewrite P_CurveOrder.pzmul_1]].
  rewrite pt_mult_ok; [|exact exG_on|lia]. change 2 with (1 + 1). rewrite pzmul_add by exact exG_on. now rewrite P_CurveOrder.pzmul_1.
Qed.

(** ** C115: windowed non-adjacent forms *)
Theorem C115_python_wnaf : forall w k, 2 <= w -> 0 <= k ->
  exists ds, py_wNAF k w = Ok ds /\ digits_val ds = k /\ Forall (naf_digit w) ds /\ non_adjacent w ds.
Proof. exact wnaf_lemma. Qed.
Print Assumptions C115_python_wnaf.
Theorem C115_python_mult_naf : multiplies (py_mult_naf cc_point) eq /\ multiplies (py_mult_naf cc_proj) proj_of /\ multiplies (py_mult_naf cc_etec) etec_of.
Proof. exact mult_naf_lemma. Qed.
Print Assumptions C115_python_mult_naf.
Theorem C115_python_mult_wnaf : forall w, 2 <= w -> multiplies (fun a s => py_mult_naf_lut cc_point a s w) eq /\
  multiplies (fun a s => py_mult_naf_lut cc_proj a s w) proj_of /\ multiplies (fun a s => py_mult_naf_lut cc_etec a s w) etec_of.
Proof. exact mult_lut_lemma. Qed.
Print Assumptions C115_python_mult_wnaf.
Theorem C115_python_width_1_raises : forall P s, on_curve P -> 0 < s -> py_mult_naf_lut cc_point P s 1 = Throw.
Proof. exact lut_width1_lemma. Qed.
Print Assumptions C115_python_width_1_raises.
Theorem C115_python_negative_differs : exists P s r, on_curve P /\ s < 0 /\ py_mult_naf cc_point P s = Ok r /\ r <> pzmul s P.
Proof. exact naf_negative_refuted_lemma. Qed.
Print Assumptions C115_python_negative_differs.
Example C115_example : py_wNAF 59 5 = Ok [1; 0; 0; 0; 0; 0; -5] /\ py_wNAF 59 2 = Ok [1; 0; 0; 0; -1; 0; -1] /\ digits_val [1; 0; 0; 0; -1; 0; -1] = 59.
Proof. repeat split; vm_compute; reflexivity. Qed.

(** ** C116: Montgomery coordinates *)
Theorem C116_mont_law_partial : forall P Q, on_curve P -> on_curve Q ->
  mp_add (pt_as_mont P) (pt_as_mont Q) = Ok (pt_as_mont (padd P Q)) /\
  (P <> pzero -> mp_double (pt_as_mont P) = Ok (pt_as_mont (padd P P)) /\
                 mp_neg (pt_as_mont P) = pt_as_mont (pneg P) /\ mp_valid (pt_as_mont P) = true).
Proof. exact mont_law_lemma. Qed.
Print Assumptions C116_mont_law_partial.
Theorem C116_mont_round_trip_partial : forall P, on_curve P -> (mp_as_point (pt_as_mont P) = P <-> P <> pzero).
Proof. exact mont_round_lemma. Qed.
Print Assumptions C116_mont_round_trip_partial.
Theorem C116_mont_mult_partial : forall P s, on_curve P -> exact_order ord_L P -> 0 <= s ->
  py_mult cc_mont (pt_as_mont P) (SInt s) = Ok (pt_as_mont (pzmul s P)).
Proof. exact mont_mult_lemma. Qed.
Print Assumptions C116_mont_mult_partial.
Theorem C116_mont_mult_general_partial : forall P s, on_curve P -> 0 <= s -> (forall i, 0 <= i -> 2 ^ i <= s -> pzmul (2 ^ i) P <> pzero) ->
  py_mult cc_mont (pt_as_mont P) (SInt s) = Ok (pt_as_mont (pzmul s P)).
Proof. exact mont_mult_gen. Qed.
Print Assumptions C116_mont_mult_general_partial.
Theorem C116_mont_double_refuted : exists P, on_curve P /\ (forall r, mp_double (pt_as_mont P) = Ok r -> mp_valid r = false) /\
  mp_double (pt_as_mont P) <> Ok (pt_as_mont (padd P P)).
Proof. exact mont_double_refuted_lemma. Qed.
Print Assumptions C116_mont_double_refuted.
Theorem C116_mont_sub_refuted : exists P Q, on_curve P /\ on_curve Q /\ cc_sub cc_mont (pt_as_mont P) (pt_as_mont Q) <> Ok (pt_as_mont (padd P (pneg Q))).
Proof. exact mont_sub_refuted_lemma. Qed.
Print Assumptions C116_mont_sub_refuted.
Theorem C116_mont_mult_refuted : (exists P s, on_curve P /\ 0 <= s /\ py_mult cc_mont (pt_as_mont P) (SInt s) <> Ok (pt_as_mont (pzmul s P))) /\
  (exists P, on_curve P /\ exact_order ord_L P /\ py_mult_naf cc_mont (pt_as_mont P) 1 <> Ok (pt_as_mont P)).
Proof. exact mont_mult_refuted_lemma. Qed.
Print Assumptions C116_mont_mult_refuted.
Example C116_example : on_curve exG /\ exact_order ord_L exG /\ exG <> pzero /\ on_curve pT /\ pT <> pzero.
Proof.
  split; [exact exG_on|]. split; [exact exG_order|]. split; [exact exG_nz|]. split; [exact pT_on|].
  intros H. assert (H1 : pzmul 1 pT = pzero) by now rewrite P_CurveOrder.pzmul_1. apply pT_order in H1. apply Z.divide_pos_le in H1; lia.
Qed.

(** ** C117: conversions between the classes, and equality *)
Theorem C117_conversions_partial : forall P, on_curve P ->
  pp_as_point (pt_as_proj P) = Ok P /\ ep_as_point (pt_as_etec P) = P /\ etec_of (pp_as_etec (pt_as_proj P)) P /\
  (forall a, proj_of a P -> pp_as_point a = Ok P) /\
  (forall a, etec_of a P -> ep_as_point a = P /\ proj_of (ep_as_proj a) P).
Proof. exact convert_lemma. Qed.
Print Assumptions C117_conversions_partial.
Theorem C117_as_etec_partial : forall a P, proj_of a P -> (etec_of (pp_as_etec a) P <-> ppz a = F1 \/ px P = F0 \/ py P = F0).
Proof. exact pp_as_etec_iff. Qed.
Print Assumptions C117_as_etec_partial.
Theorem C117_equality_partial : forall a b P Q, proj_of a P -> proj_of b Q -> (pp_eq a b = true <-> P = Q /\ ppz a = ppz b).
Proof. exact pp_eq_lemma. Qed.
Print Assumptions C117_equality_partial.
Theorem C117_as_etec_refuted : exists a P Q r, proj_of a P /\ on_curve P /\ on_curve Q /\ in_subgroup exG P /\ in_subgroup exG Q /\
  ep_add (pp_as_etec a) (pt_as_etec Q) = Ok r /\ ep_as_point r <> padd P Q.
Proof. exact as_etec_refuted_lemma. Qed.
Print Assumptions C117_as_etec_refuted.
Theorem C117_equality_refuted : forall P, exists a b, proj_of a P /\ proj_of b P /\ pp_eq a b = false.
Proof. exact pp_eq_refuted_lemma. Qed.
Print Assumptions C117_equality_refuted.
Example C117_example : proj_of (mkpp (px exG + px exG) (py exG + py exG) (F1 + F1))%F exG /\ (F1 + F1)%F <> F1.
Proof.
  split; [apply proj2_of|]. intros H. apply (f_equal fval) in H. vm_compute in H. discriminate.
Qed.

(** ** C118: points from one coordinate, compression *)
Theorem C118_from_y : forall sqrt y, py_sqrt_ok sqrt ->
  (exists P, pt_from_y sqrt y None = Ok P /\ on_curve P /\ py P = y /\ larger_root (px P)) \/ (pt_from_y sqrt y None = Throw /\ ~ has_point y).
Proof. exact from_y_lemma. Qed.
Print Assumptions C118_from_y.
Theorem C118_from_x : forall sqrt x, py_sqrt_ok sqrt ->
  (exists P, pt_from_x sqrt x = Ok P /\ on_curve P /\ px P = x) \/ (pt_from_x sqrt x = Throw /\ forall y, ~ on_curve (mkpt x y)).
Proof. exact from_x_lemma. Qed.
Print Assumptions C118_from_x.
Theorem C118_compress_round_trip : forall sqrt P, py_sqrt_ok sqrt -> on_curve P ->
  pt_decompress sqrt (pt_compress P) = Ok P /\ length (pt_compress P) = 32%nat /\ Forall (fun d => 0 <= d < 256) (pt_compress P).
Proof. exact compress_round_lemma. Qed.
Print Assumptions C118_compress_round_trip.
Theorem C118_decompress : forall sqrt b, py_sqrt_ok sqrt -> Forall (fun d => 0 <= d < 256) b ->
  (forall P, pt_decompress sqrt b = Ok P <-> on_curve P /\ encodes b P) /\
  ((forall P, on_curve P -> ~ encodes b P) -> pt_decompress sqrt b = Throw).
Proof. exact decompress_lemma. Qed.
Print Assumptions C118_decompress.
Theorem C118_second_encoding : forall sqrt P, py_sqrt_ok sqrt -> on_curve P ->
  exists b, Forall (fun d => 0 <= d < 256) b /\ b <> pt_compress P /\ pt_decompress sqrt b = Ok P.
Proof. exact encoding_refuted_lemma. Qed.
Print Assumptions C118_second_encoding.
(** a function with the required properties exists; the generator has odd abscissa, so the sign bit is set *)
Example C118_example : py_sqrt_ok some_sqrt /\ on_curve exG /\ last (pt_compress exG) 0 / 128 = fval (px exG) mod 2.
Proof. split; [exact some_sqrt_ok|]. split; [exact exG_on|]. vm_compute. reflexivity. Qed.

(** ** C119: hashing to a point *)
Theorem C119_from_hash : forall sqrt y, py_sqrt_ok sqrt ->
  exists (i : nat) P, found_at y (Z.of_nat i) P /\ on_curve (pzmul 8 P) /\ in_subgroup exG (pzmul 8 P) /\
    forall fuel, (i < fuel)%nat -> from_hash_loop sqrt fuel y = Some (Ok (pzmul 8 P)).
Proof. exact py_from_hash_lemma. Qed.
Print Assumptions C119_from_hash.
Theorem C119_agrees_with_cpp : forall s1 s2 ctx bytes, sqrt_ok s1 -> py_sqrt_ok s2 -> length (sc_data ctx) = 16%nat -> Forall byte bytes ->
  exists md, is_sha256 bytes md /\ length md = 32%nat /\
  forall Q, from_hash s1 ctx bytes = Ok Q -> exists n, forall fuel, (n < fuel)%nat -> from_hash_loop s2 fuel (Fof (be_val md)) = Some (Ok Q).
Proof. exact hash_agree_lemma. Qed.
Print Assumptions C119_agrees_with_cpp.
Theorem C119_identity_refuted : forall sqrt, py_sqrt_ok sqrt -> exists y, forall fuel, (0 < fuel)%nat -> from_hash_loop sqrt fuel y = Some (Ok pzero).
Proof. exact from_hash_identity_refuted_lemma. Qed.
Print Assumptions C119_identity_refuted.
(** from ordinate 1 the loop stops at once *)
Example C119_example : py_sqrt_ok some_sqrt /\ has_point F1 /\ from_hash_loop some_sqrt 5 F1 = Some (Ok pzero).
Proof.
  split; [exact some_sqrt_ok|]. split; [exists F0; exact pzero_on|].
  exact (from_hash_one some_sqrt some_sqrt_ok 5 ltac:(lia)).
Qed.
