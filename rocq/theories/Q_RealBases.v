(** Final lemmas for C69-C71: EdDSA with the base points the code derives itself. *)
From Coq Require Import List ZArith NArith Znumtheory Bool Arith Lia String.
From Verif Require Import Primes Field Base M_Point M_Utils M_Bits M_Sha256 M_Eddsa M_Montgomery M_Basepoint Spec_Curve Spec_Mont Spec_CurveOrder
  Spec_Basepoint Spec_Utils Spec_Sha256 Spec_Eddsa P_Curve P_JubLeaf P_Group P_Zmul Q_Jubjub P_Order P_CurveOrder P_Basepoint P_Utils Q_Sha256 Q_Mont Q_CurveOrder Q_Basepoint
  P_RealBases P_RealCerts Q_Eddsa P_Eddsa2.
Import ListNotations.
Local Open Scope Z_scope.

Definition ram_points : list point := cert_points ram_certs.
Definition m_points : list point := cert_points m_certs.
Definition bases_for (points : list point) (len : nat) : list point := firstn (Z.to_nat (basepoints_required (Z.of_nat len))) points.

Lemma required_range len : (6 <= len <= 930)%nat ->
  let k := Z.to_nat (basepoints_required (Z.of_nat len)) in
  Z.of_nat k = basepoints_required (Z.of_nat len) /\ (k <= 5)%nat /\ (len <= 186 * k)%nat.
Proof.
  intros H k. destruct (basepoints_required_lemma (Z.of_nat len)) as [H1 H2]; [lia|]. cbv zeta in H1, H2.
  specialize (H2 5 ltac:(lia) ltac:(lia)). unfold k. lia.
Qed.
Lemma cert_good sqrt ctx name cs len : sqrt_ok sqrt -> List.length (sc_data ctx) = 16%nat -> ncheck_all name 0 cs = true ->
  List.length cs = 5%nat -> (len mod 3 = 0)%nat -> (6 <= len <= 930)%nat ->
  good_bases (make_basepoints sqrt ctx) name len (bases_for (cert_points cs) len) /\
  Forall (exact_order ord_L) (bases_for (cert_points cs) len).
Proof.
  intros HS HC H5 L5 H3 Hl. destruct (required_range len Hl) as (E & B & C). unfold bases_for.
  set (k := Z.to_nat (basepoints_required (Z.of_nat len))) in *.
  destruct (cert_bases sqrt ctx name cs k HS HC H5 ltac:(lia)) as (A1 & A2 & A3).
  assert (LK : List.length (firstn k (cert_points cs)) = k) by (rewrite firstn_length; unfold cert_points; rewrite map_length; lia).
  split; [|exact A3]. unfold good_bases. rewrite LK, <- E. split; [exact A1|]. split; [exact A2|].
  split; [eapply Forall_impl; [|exact A3]; intros P HP; now apply exact_order_large|]. split; [reflexivity|]. split; [exact H3|lia].
Qed.
Lemma ram_good sqrt ctx len : sqrt_ok sqrt -> List.length (sc_data ctx) = 16%nat -> (len mod 3 = 0)%nat -> (6 <= len <= 930)%nat ->
  good_bases (make_basepoints sqrt ctx) "EdDSA_Verify.RAM" len (bases_for ram_points len) /\
  Forall (exact_order ord_L) (bases_for ram_points len).
Proof. intros. apply cert_good; auto using ram_certs_ok. Qed.
Lemma m_good sqrt ctx len : sqrt_ok sqrt -> List.length (sc_data ctx) = 16%nat -> (len mod 3 = 0)%nat -> (6 <= len <= 930)%nat ->
  good_bases (make_basepoints sqrt ctx) "EdDSA_Verify.M" len (bases_for m_points len) /\
  Forall (exact_order ord_L) (bases_for m_points len).
Proof. intros. apply cert_good; auto using m_certs_ok. Qed.

(** any name: the derived base points are usable as soon as none of them is the neutral element *)
Lemma derived_good_lemma sqrt ctx name len bases : sqrt_ok sqrt -> List.length (sc_data ctx) = 16%nat -> no_nul name ->
  (len mod 3 = 0)%nat -> (6 <= len)%nat -> Z.of_nat len <= 2 ^ 24 ->
  make_basepoints sqrt ctx name (basepoints_required (Z.of_nat len)) = Ok bases -> ~ In pzero bases ->
  good_bases (make_basepoints sqrt ctx) name len bases /\ Forall (exact_order ord_L) bases.
Proof.
  intros HS HC HN H3 H6 HL E NZ. destruct (basepoints_required_lemma (Z.of_nat len)) as [R1 _]; [lia|]. cbv zeta in R1.
  assert (E2 := E). apply make_basepoints_lemma in E2; [|lia]. destruct E2 as [LB HB].
  assert (K : forall P, In P bases -> on_curve P /\ exact_order ord_L P).
  { intros P HP. assert (HP' := HP). apply (In_nth _ _ pzero) in HP. destruct HP as (i & Hi & EP).
    specialize (HB (Z.of_nat i) ltac:(lia)). rewrite Nat2Z.id, EP in HB.
    assert (OKs : (String.length name <= 28)%nat /\ 0 <= Z.of_nat i <= 65535).
    { destruct (le_lt_dec (String.length name) 28) as [A|A]; [destruct (Z_le_gt_dec (Z.of_nat i) 65535) as [B|B]; [lia|]|];
        rewrite make_basepoint_rejects in HB; try discriminate HB; try exact HN; lia. }
    destruct (make_basepoint_lemma sqrt ctx name (Z.of_nat i) HS HC HN (proj1 OKs) (proj2 OKs)) as (md & _ & _ & [(j & Q & _ & _ & EQ & OQ & _ & ZQ)|[EQ _]]);
      rewrite HB in EQ; [|discriminate EQ]. assert (EP2 : P = pzmul 8 Q) by congruence. rewrite EP2 in *. split; [exact OQ|]. destruct ZQ as [ZQ|ZQ]; [rewrite ZQ in HP'; contradiction|exact ZQ]. }
  split; [|apply Forall_forall; intros P HP; now apply K].
  unfold good_bases. rewrite LB. split; [exact E|]. split; [apply Forall_forall; intros P HP; now apply K|].
  split; [apply Forall_forall; intros P HP; apply exact_order_large; now apply K|]. split; [reflexivity|]. split; [exact H3|lia].
Qed.

Lemma pure_eddsa_open_real sqrt ctx B A R s msg : sqrt_ok sqrt -> List.length (sc_data ctx) = 16%nat ->
  on_curve B -> on_curve A -> on_curve R -> (List.length msg mod 3 = 2)%nat -> (List.length msg <= 422)%nat ->
  forall rb ab hb, canonical rb (px R) -> canonical ab (px A) ->
  canonical hb (pedersen_x (bases_for ram_points (508 + List.length msg)) (rb ++ ab ++ msg)) ->
  exists b, pure_eddsa_open (make_basepoints sqrt ctx) B A R s msg = Ok b /\
    (b = true <-> smul 8 R <> pzero /\ eddsa_equation B A R (Z.to_N (fval s)) (bits_N hb)).
Proof.
  intros HS HC HB HA HR H3 HL. apply pure_eddsa_open_exact; try assumption.
  apply ram_good; try assumption; [|lia]. rewrite Nat.add_mod, H3 by lia. reflexivity.
Qed.
Lemma eddsa_open_real sqrt ctx B A R s msg : sqrt_ok sqrt -> List.length (sc_data ctx) = 16%nat ->
  on_curve B -> on_curve A -> on_curve R -> (List.length msg mod 3 = 0)%nat -> (6 <= List.length msg <= 930)%nat ->
  forall mb rb ab hb, canonical mb (pedersen_x (bases_for m_points (List.length msg)) msg) -> canonical rb (px R) -> canonical ab (px A) ->
  canonical hb (pedersen_x ram_points (rb ++ ab ++ mb)) ->
  exists b, eddsa_open (make_basepoints sqrt ctx) B A R s msg = Ok b /\
    (b = true <-> smul 8 R <> pzero /\ eddsa_equation B A R (Z.to_N (fval s)) (bits_N hb)).
Proof.
  intros HS HC HB HA HR H3 HL. apply (eddsa_open_exact _ B A R s msg _ ram_points HB HA HR).
  - now apply m_good.
  - change ram_points with (bases_for ram_points 762). apply ram_good; try assumption; [reflexivity|lia].
Qed.

(** ** s is only determined modulo L *)
Lemma smul_L k P : on_curve P -> pzmul ord_L P = pzero -> smul (k + Z.to_N ord_L) P = smul k P.
Proof.
  intros H E. rewrite smul_add by exact H. rewrite <- (pzmul_N (Z.to_N ord_L)), Z2N.id by discriminate. rewrite E. apply padd_0_r.
Qed.
Lemma malleable_lemma B A R s h : on_curve B -> pzmul ord_L B = pzero -> eddsa_equation B A R s h -> eddsa_equation B A R (s + Z.to_N ord_L) h.
Proof. intros H E Q. unfold eddsa_equation in *. now rewrite smul_L. Qed.
Lemma s_unique_lemma B A R s s' h : on_curve B -> exact_order ord_L B -> eddsa_equation B A R s h ->
  (eddsa_equation B A R s' h <-> (ord_L | Z.of_N s - Z.of_N s')).
Proof.
  intros H E Q. unfold eddsa_equation in *. rewrite <- Q. rewrite <- (E (Z.of_N s - Z.of_N s')%Z). rewrite pzmul_sub, !pzmul_N by exact H. split.
  - intros ->. apply padd_neg_r. now apply smul_on.
  - intros Z. apply (padd_cancel_l (pneg (smul s' B))); try apply pneg_on; try apply smul_on; try exact H.
    rewrite padd_comm, padd_neg_r by now apply smul_on. rewrite padd_comm. now symmetry.
Qed.
Lemma eddsa_malleable_lemma mkb B A R s msg mbases rbases :
  on_curve B -> on_curve A -> on_curve R -> pzmul ord_L B = pzero ->
  good_bases mkb "EdDSA_Verify.M" (List.length msg) mbases -> good_bases mkb "EdDSA_Verify.RAM" 762 rbases ->
  fval s + ord_L < p_mod -> eddsa_open mkb B A R s msg = Ok true ->
  (s + Fof ord_L)%F <> s /\ eddsa_open mkb B A R (s + Fof ord_L)%F msg = Ok true.
Proof.
  intros HB HA HR HL HM HG Hs E. split.
  { intros X. assert (Y : Fof ord_L = F0) by (transitivity (s + Fof ord_L - s)%F; [ring|rewrite X; ring]). apply (f_equal fval) in Y. vm_compute in Y. discriminate. }
  pose proof (P_Eddsa.canonical_bits (pedersen_x mbases msg)) as D0. pose proof (P_Eddsa.canonical_bits (px R)) as D1. pose proof (P_Eddsa.canonical_bits (px A)) as D2.
  match type of D0 with canonical ?x _ => set (mb := x) in * end. match type of D1 with canonical ?x _ => set (rb := x) in * end. match type of D2 with canonical ?x _ => set (ab := x) in * end.
  pose proof (P_Eddsa.canonical_bits (pedersen_x rbases (rb ++ ab ++ mb))) as D3. match type of D3 with canonical ?x _ => set (hb := x) in * end.
  destruct (eddsa_open_exact mkb B A R s msg mbases rbases HB HA HR HM HG mb rb ab hb D0 D1 D2 D3) as (b & E1 & H1).
  destruct (eddsa_open_exact mkb B A R (s + Fof ord_L)%F msg mbases rbases HB HA HR HM HG mb rb ab hb D0 D1 D2 D3) as (b2 & E2 & H2).
  rewrite E in E1. injection E1 as <-. destruct (proj1 H1 eq_refl) as [N Q]. rewrite E2. f_equal. apply H2. split; [exact N|].
  assert (V : fval (s + Fof ord_L)%F = fval s + ord_L).
  { rewrite <- (Fof_fval s), <- Fof_add, Fof_fval. apply fval_Fof_small. pose proof (fval_range s). assert (0 < ord_L) by reflexivity. lia. }
  rewrite V, Z2N.inj_add; [|apply fval_range|discriminate]. now apply malleable_lemma.
Qed.
Lemma eddsa_two_signatures sqrt ctx msg : sqrt_ok sqrt -> List.length (sc_data ctx) = 16%nat ->
  (List.length msg mod 3 = 0)%nat -> (6 <= List.length msg <= 930)%nat ->
  exists A R s s', s <> s' /\ eddsa_open (make_basepoints sqrt ctx) exG A R s msg = Ok true /\
    eddsa_open (make_basepoints sqrt ctx) exG A R s' msg = Ok true.
Proof.
  intros HS HC H3 HL.
  pose proof (proj1 (m_good sqrt ctx (List.length msg) HS HC H3 HL)) as GM.
  pose proof (proj1 (ram_good sqrt ctx 762 HS HC eq_refl ltac:(lia))) as GR.
  set (mbases := bases_for m_points (List.length msg)) in *. set (rbases := bases_for ram_points 762) in *.
  pose proof (P_Eddsa.canonical_bits (pedersen_x mbases msg)) as D0. pose proof (P_Eddsa.canonical_bits (px exG4)) as D1. pose proof (P_Eddsa.canonical_bits (px exG)) as D2.
  match type of D0 with canonical ?x _ => set (mb := x) in * end. match type of D1 with canonical ?x _ => set (rb := x) in * end. match type of D2 with canonical ?x _ => set (ab := x) in * end.
  pose proof (P_Eddsa.canonical_bits (pedersen_x rbases (rb ++ ab ++ mb))) as D3. match type of D3 with canonical ?x _ => set (hb := x) in * end.
  assert (O4 : on_curve exG4) by (rewrite exG4_eq, exG2_eq; apply padd_closed; apply padd_closed; exact exG_on).
  set (s := Fof ((4 + Z.of_N (bits_N hb)) mod ord_L)).
  assert (LP : 0 < ord_L) by reflexivity. assert (LQ : ord_L + ord_L < p_mod) by reflexivity.
  pose proof (Z.mod_pos_bound (4 + Z.of_N (bits_N hb)) ord_L LP) as MB.
  assert (VS : fval s = (4 + Z.of_N (bits_N hb)) mod ord_L) by (apply fval_Fof_small; lia).
  assert (E : eddsa_open (make_basepoints sqrt ctx) exG exG exG4 s msg = Ok true).
  { destruct (eddsa_open_exact _ exG exG exG4 s msg mbases rbases exG_on exG_on O4 GM GR mb rb ab hb D0 D1 D2 D3) as (b & E1 & H1).
    rewrite E1. f_equal. apply H1. split.
    - intros X. assert (E4 : exG4 = pzmul 4 exG).
      { change 4 with (1 + 1 + (1 + 1)). rewrite !pzmul_add by exact exG_on. rewrite !pzmul_1, <- exG2_eq. exact exG4_eq. }
      assert (X2 : pzmul 8 exG4 = pzero) by exact X. rewrite E4, <- pzmul_mul in X2 by exact exG_on. apply exG_order in X2.
      apply Z.divide_pos_le in X2; [|reflexivity]. assert (8 * 4 < ord_L) by reflexivity. lia.
    - unfold eddsa_equation. rewrite VS. rewrite <- pzmul_N, Z2N.id by lia. rewrite <- (pzmul_N (bits_N hb)).
      assert (E4 : exG4 = pzmul 4 exG).
      { change 4 with (1 + 1 + (1 + 1)). rewrite !pzmul_add by exact exG_on. rewrite !pzmul_1, <- exG2_eq. exact exG4_eq. }
      rewrite E4, <- pzmul_add by exact exG_on.
      rewrite (Z.div_mod (4 + Z.of_N (bits_N hb)) ord_L) at 2 by lia.
      rewrite pzmul_add, (Z.mul_comm ord_L), pzmul_mul, exG_times_L, pzmul_zero by exact exG_on. symmetry. apply padd_0_l. }
  exists exG, exG4, s, (s + Fof ord_L)%F.
  destruct (eddsa_malleable_lemma _ exG exG exG4 s msg mbases rbases exG_on exG_on O4 exG_times_L GM GR ltac:(lia) E) as [N E2].
  split; [intros X; apply N; now symmetry|]. now split.
Qed.
(** ** a public key that verifies one signature for every message *)
Lemma low_order_key_lemma sqrt ctx msg : sqrt_ok sqrt -> List.length (sc_data ctx) = 16%nat ->
  (List.length msg mod 3 = 0)%nat -> (6 <= List.length msg <= 930)%nat ->
  on_curve pzero /\ on_curve exG4 /\ eddsa_open (make_basepoints sqrt ctx) exG pzero exG4 (Fof 4) msg = Ok true.
Proof.
  intros HS HC H3 HL. split; [exact pzero_on|]. split; [exact exG4_on|].
  pose proof (proj1 (m_good sqrt ctx (List.length msg) HS HC H3 HL)) as GM.
  pose proof (proj1 (ram_good sqrt ctx 762 HS HC eq_refl ltac:(lia))) as GR.
  set (mbases := bases_for m_points (List.length msg)) in *. set (rbases := bases_for ram_points 762) in *.
  destruct (eddsa_open_exact _ exG pzero exG4 (Fof 4) msg mbases rbases exG_on pzero_on exG4_on GM GR _ _ _ _
    (P_Eddsa.canonical_bits _) (P_Eddsa.canonical_bits _) (P_Eddsa.canonical_bits _) (P_Eddsa.canonical_bits _)) as (b & E & H).
  rewrite E. f_equal. apply H. split.
  - intros X. apply (exG_mul_notlow 4); [split; reflexivity|]. rewrite exG4_smul, X. reflexivity.
  - unfold eddsa_equation. replace (fval (Fof 4)) with 4 by (symmetry; apply fval_Fof_small; split; [discriminate|reflexivity]).
    rewrite smul_zero, padd_0_r. exact exG4_smul.
Qed.
