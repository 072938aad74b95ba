(** Certified evaluation of the base-point derivation.  A certificate holds, for each ordinate that is
    skipped, a root of xx/d (so xx is no square), then the abscissa found and the three doublings. *)
From Coq Require Import List ZArith NArith Znumtheory Bool Arith Lia String.
From Verif Require Import Primes Field Base M_Point M_Utils M_Bits M_Sha256 M_Eddsa M_Montgomery M_Basepoint Spec_Curve Spec_Mont Spec_CurveOrder
  Spec_Basepoint Spec_Utils Spec_Sha256 Spec_Eddsa P_Curve P_JubLeaf P_Group P_Zmul Q_Jubjub P_Order P_CurveOrder P_Basepoint P_Utils Q_Sha256 Q_CurveOrder Q_Basepoint.
Import ListNotations.
Local Open Scope Z_scope.

Record bcert := BC { bc_rs : list Z; bc_x : Z; bc_2 : Z * Z; bc_4 : Z * Z; bc_8 : Z * Z }.
Definition pof (q : Z * Z) : point := mkpt (Fof (fst q)) (Fof (snd q)).
Definition on_curve_b (P : point) : bool :=
  let xx := (px P * px P)%F in let yy := (py P * py P)%F in
  Feqb (jj_a * xx + yy)%F (F1 + jj_d * xx * yy)%F.
Definition dbl_b (P Q : point) : bool :=
  let xx := (px P * px P)%F in let yy := (py P * py P)%F in let t := (jj_d * xx * yy)%F in let xy := (px P * py P)%F in
  Feqb (px Q * (F1 + t))%F (xy + xy)%F && Feqb (py Q * (F1 - t))%F (yy - jj_a * xx)%F.
Definition nonsq_b (y : F) (r : F) : bool :=
  let yy := (y * y)%F in Feqb (yy - F1)%F (jj_d * (r * r) * (jj_d * yy - jj_a))%F && negb (Feqb r F0).
Fixpoint skips_b (y : F) (i : Z) (rs : list Z) : bool :=
  match rs with [] => true | r :: rs' => nonsq_b (y + Fof i)%F (Fof r) && skips_b y (i + 1) rs' end.
Definition bfound (y : F) (c : bcert) : point := mkpt (Fof (bc_x c)) (y + Fof (Z.of_nat (List.length (bc_rs c))))%F.
Definition ycheck (y : F) (c : bcert) : bool :=
  skips_b y 0 (bc_rs c) && (List.length (bc_rs c) <? 100)%nat && on_curve_b (bfound y c) && negb (is_negative (Fof (bc_x c))).
Definition bcheck (y : F) (c : bcert) : bool :=
  ycheck y c && dbl_b (bfound y c) (pof (bc_2 c)) && dbl_b (pof (bc_2 c)) (pof (bc_4 c)) && dbl_b (pof (bc_4 c)) (pof (bc_8 c)) &&
  negb (Feqb (px (pof (bc_8 c))) F0).

Lemma on_curve_b_ok P : on_curve_b P = true -> on_curve P.
Proof. unfold on_curve_b. cbv zeta. intros H. apply Feqb_true in H. exact H. Qed.
Lemma dbl_b_ok P Q : on_curve P -> dbl_b P Q = true -> Q = padd P P.
Proof.
  intros HP H. unfold dbl_b in H. cbv zeta in H. apply andb_prop in H. destruct H as [H1 H2]. apply Feqb_true in H1, H2.
  destruct Q as [x y]. apply padd_val; [exact HP|exact HP|]. cbn [px py] in *. split.
  - etransitivity; [exact H1|]. ring.
  - exact H2.
Qed.
Lemma nonsq_b_ok y r : nonsq_b y r = true -> ~ has_point y.
Proof.
  intros H [x Hx]. unfold nonsq_b in H. cbv zeta in H. apply andb_prop in H. destruct H as [H1 H2]. apply Feqb_true in H1.
  assert (Nr : r <> F0) by (intros ->; now rewrite Feqb_refl in H2).
  apply curve_xx in Hx. rewrite H1 in Hx.
  assert (E : (x * x)%F = (jj_d * (r * r))%F).
  { rewrite Hx. transitivity (jj_d * (r * r) * ((jj_d * (y * y) - jj_a) * Finv (jj_d * (y * y) - jj_a)))%F; [ring|].
    rewrite Finv_r by apply rhs_nz. ring. }
  apply (d_nonsquare (x * Finv r)%F). transitivity ((x * x) * (Finv r * Finv r))%F; [ring|]. rewrite E.
  transitivity (jj_d * ((r * Finv r) * (r * Finv r)))%F; [ring|]. rewrite Finv_r by exact Nr. unfold jj_d. ring.
Qed.
Lemma skips_b_ok y rs : forall i, skips_b y i rs = true -> forall j, i <= j < i + Z.of_nat (List.length rs) -> ~ has_point (y + Fof j)%F.
Proof.
  induction rs as [|r rs IH]; intros i H j Hj; cbn [List.length] in Hj; [lia|]. cbn [skips_b] in H. apply andb_prop in H. destruct H as [H1 H2].
  destruct (Z.eq_dec j i) as [->|N]; [now apply nonsq_b_ok in H1|]. apply (IH (i + 1) H2). lia.
Qed.
Lemma ycheck_found y c : ycheck y c = true -> found_at y (Z.of_nat (List.length (bc_rs c))) (bfound y c) /\ (List.length (bc_rs c) < 100)%nat.
Proof.
  unfold ycheck. rewrite !andb_true_iff. intros [[[H1 H2] H3] H4]. apply Nat.ltb_lt in H2. split; [|exact H2].
  split; [now apply on_curve_b_ok|]. split; [reflexivity|]. split.
  - unfold larger_root, bfound. cbn [px]. unfold is_negative in H4. destruct (Z.ltb_spec (fval (Fof (bc_x c))) (fval (- Fof (bc_x c))%F)); [discriminate|assumption].
  - intros j Hj. apply (skips_b_ok y (bc_rs c) 0 H1). lia.
Qed.
Lemma ycheck_ok sqrt y c : sqrt_ok sqrt -> ycheck y c = true -> from_y_always sqrt y = Ok (bfound y c).
Proof.
  intros HS H. destruct (ycheck_found y c H) as [F L].
  destruct (from_y_always_lemma sqrt y HS) as [(i & P & Hi & E & F')|[E F']].
  - destruct (found_unique y i (Z.of_nat (List.length (bc_rs c))) P (bfound y c)) as [_ ->]; [lia|lia|exact F'|exact F|exact E].
  - exfalso. apply (F' (Z.of_nat (List.length (bc_rs c)))); [lia|]. exists (px (bfound y c)). apply (proj1 F).
Qed.
Lemma bcheck_ok sqrt y c : sqrt_ok sqrt -> bcheck y c = true ->
  (result <- from_y_always sqrt y ;; r2 <- ed_dbl result ;; r4 <- ed_dbl r2 ;; ed_dbl r4) = Ok (pof (bc_8 c)) /\
  on_curve (pof (bc_8 c)) /\ exact_order ord_L (pof (bc_8 c)).
Proof.
  intros HS H. unfold bcheck in H. rewrite !andb_true_iff in H. destruct H as [[[[H0 H1] H2] H3] H4].
  pose proof (ycheck_ok sqrt y c HS H0) as E. rewrite E. cbn [obind].
  destruct (ycheck_found y c H0) as [[HP _] _]. set (P := bfound y c) in *.
  apply dbl_b_ok in H1; [|exact HP]. assert (O2 : on_curve (pof (bc_2 c))) by (rewrite H1; now apply padd_closed).
  apply dbl_b_ok in H2; [|exact O2]. assert (O4 : on_curve (pof (bc_4 c))) by (rewrite H2; now apply padd_closed).
  apply dbl_b_ok in H3; [|exact O4]. assert (O8 : on_curve (pof (bc_8 c))) by (rewrite H3; now apply padd_closed).
  assert (E8 : pzmul 8 P = pof (bc_8 c)) by (rewrite H3, H2, H1; exact (smul_8 P HP)).
  split; [rewrite <- E8; now apply dbl3|]. split; [exact O8|].
  destruct (cofactor_lemma P HP) as [_ [Z|Z]]; rewrite E8 in Z; [exfalso|exact Z].
  rewrite Z in H4. discriminate H4.
Qed.
Definition ctx0 : sctx := SCtx [] 0 0 (repeat 0 16) 0 0.
Lemma sha_ctx c bytes : List.length (sc_data c) = 16%nat -> Forall byte bytes -> SHA256 c bytes = SHA256 ctx0 bytes.
Proof.
  intros L B. destruct (sha256_oneshot c bytes L B) as (md & E & _ & D1 & D2). destruct (sha256_oneshot ctx0 bytes eq_refl B) as (md' & E' & _ & D1' & D2').
  rewrite E, E'. do 2 f_equal. apply bits_inj; [exact D1|exact D1'|]. now rewrite D2, D2'.
Qed.
Definition hcheck (bytes : list Z) (c : bcert) : bool :=
  match SHA256 ctx0 bytes with Ok (Some md) => bcheck (Fof (import_be md)) c | _ => false end.
Definition ncheck (name : string) (i : Z) (c : bcert) : bool :=
  match basepoint_data name i with Ok d => hcheck d c | _ => false end.
Lemma hcheck_ok sqrt ctx bytes c : sqrt_ok sqrt -> List.length (sc_data ctx) = 16%nat -> Forall byte bytes -> hcheck bytes c = true ->
  from_hash sqrt ctx bytes = Ok (pof (bc_8 c)) /\ on_curve (pof (bc_8 c)) /\ exact_order ord_L (pof (bc_8 c)).
Proof.
  intros HS L B H. unfold hcheck in H. unfold from_hash. rewrite (sha_ctx ctx bytes L B).
  destruct (SHA256 ctx0 bytes) as [[md|]| | | |]; try discriminate H. cbn [obind]. now apply bcheck_ok.
Qed.
Lemma ncheck_ok sqrt ctx name i c : sqrt_ok sqrt -> List.length (sc_data ctx) = 16%nat -> 0 <= i -> ncheck name i c = true ->
  make_basepoint sqrt ctx name i = Ok (pof (bc_8 c)) /\ on_curve (pof (bc_8 c)) /\ exact_order ord_L (pof (bc_8 c)).
Proof.
  intros HS L Hi H. unfold ncheck in H. unfold make_basepoint. destruct (basepoint_data name i) as [d| | | |] eqn:E; try discriminate H.
  cbn [obind]. apply hcheck_ok; try assumption. now apply basepoint_data_bytes in E.
Qed.
Fixpoint ncheck_all (name : string) (i : Z) (cs : list bcert) : bool :=
  match cs with [] => true | c :: r => ncheck name i c && ncheck_all name (i + 1) r end.
Lemma ncheck_all_nth name cs : forall i, ncheck_all name i cs = true -> forall k c, nth_error cs k = Some c -> ncheck name (i + Z.of_nat k) c = true.
Proof.
  induction cs as [|c cs IH]; intros i H [|k] d E; try discriminate E; cbn [ncheck_all] in H; apply andb_prop in H; destruct H as [H1 H2]; cbn [nth_error] in E.
  - injection E as <-. now rewrite Z.add_0_r.
  - replace (i + Z.of_nat (S k)) with (i + 1 + Z.of_nat k) by lia. now apply IH.
Qed.
Definition cert_points (cs : list bcert) : list point := map (fun c => pof (bc_8 c)) cs.
(** a certified list gives all base points up to its length *)
Lemma cert_bases sqrt ctx name cs n : sqrt_ok sqrt -> List.length (sc_data ctx) = 16%nat -> ncheck_all name 0 cs = true ->
  (n <= List.length cs)%nat ->
  make_basepoints sqrt ctx name (Z.of_nat n) = Ok (firstn n (cert_points cs)) /\
  Forall on_curve (firstn n (cert_points cs)) /\ Forall (exact_order ord_L) (firstn n (cert_points cs)).
Proof.
  intros HS L H Hn. pose proof (ncheck_all_nth name cs 0 H) as K.
  assert (A : forall c, In c cs -> on_curve (pof (bc_8 c)) /\ exact_order ord_L (pof (bc_8 c))).
  { intros c Hc. apply In_nth_error in Hc. destruct Hc as [k Hk]. apply K in Hk. now apply (ncheck_ok sqrt ctx) in Hk; [|assumption|assumption|lia]. }
  assert (A2 : forall Q, In Q (firstn n (cert_points cs)) -> on_curve Q /\ exact_order ord_L Q).
  { intros Q HQ. assert (HQ2 : In Q (cert_points cs)) by (rewrite <- (firstn_skipn n); apply in_or_app; now left).
    apply in_map_iff in HQ2. destruct HQ2 as (c & <- & Hc). now apply A. }
  split; [|split; apply Forall_forall; intros Q HQ; now apply A2].
  apply make_basepoints_lemma; [lia|]. rewrite firstn_length. unfold cert_points at 1. rewrite map_length. split; [lia|].
  intros i Hi. destruct (nth_error cs (Z.to_nat i)) as [c|] eqn:E; [|apply nth_error_None in E; lia].
  pose proof (K _ _ E) as K'. apply (ncheck_ok sqrt ctx) in K'; [|assumption|assumption|lia]. destruct K' as [K' _].
  replace (0 + Z.of_nat (Z.to_nat i)) with i in K' by lia. rewrite K'. f_equal.
  assert (E3 : forall (l : list point) m k, (k < m)%nat -> nth k (firstn m l) pzero = nth k l pzero).
  { clear. induction l as [|a l IH]; intros [|m] [|k] Hk; try reflexivity; try lia. cbn [firstn nth]. apply IH. lia. }
  rewrite E3 by lia. symmetry. apply nth_error_nth. unfold cert_points. rewrite nth_error_map, E. reflexivity.
Qed.
Lemma exact_order_large P : exact_order ord_L P -> large_order P.
Proof.
  intros H k Hk E. rewrite <- pzmul_N in E. apply H in E. apply Z.divide_pos_le in E; [|lia]. assert (2 ^ 248 < ord_L) by reflexivity.
  change (2 ^ 248)%N with (Z.to_N (2 ^ 248)) in Hk. lia.
Qed.
