(** Two openings of one challenge: the 254-bit decomposition of the x coordinate of R in the
    hash of (R, A, M) is not unique, and different decompositions give different challenges. *)
From Coq Require Import List ZArith NArith Bool Arith Lia String Znumtheory.
From Verif Require Import Primes Field Base R1CS R1CSFacts Gadget Gadget2 Gadget3 M_Lookup P_Lookup M_Bits P_Bits Q_Basic M_Point M_Jubjub M_Montgomery M_Eddsa
  Spec_Curve Spec_Mont Spec_Eddsa P_Curve P_JubLeaf P_Group P_Chain P_ScalarMult P_Fbm P_Poseidon P_Zmul P_Zcash P_Zcash2 P_Float Q_Jubjub P_Order P_Eddsa Q_Eddsa.
Import ListNotations.
Local Open Scope F_scope.

Definition T2 : point := mkpt F0 (- F1).
Lemma T2_on : on_curve T2.
Proof. unfold on_curve, T2. cbn [px py]. ring. Qed.
Lemma T2_double : padd T2 T2 = pzero.
Proof. symmetry. apply padd_val; [exact T2_on|exact T2_on|]. unfold T2. cbn [px py]. split; ring. Qed.

Lemma same_px P Q : on_curve P -> on_curve Q -> px P = px Q -> Q = P \/ padd P Q = T2.
Proof.
  destruct P as [x y], Q as [x' y']. unfold on_curve. cbn [px py]. intros HP HQ <-.
  assert (E : (y - y') * (y + y') * (F1 - Fof 168696 * (x * x)) = F0).
  { transitivity ((Fof 168700 * (x * x) + y * y - (F1 + Fof 168696 * (x * x) * (y * y))) - (Fof 168700 * (x * x) + y' * y' - (F1 + Fof 168696 * (x * x) * (y' * y')))); [ring|].
    rewrite HP, HQ. ring. }
  apply Fmul_integral in E. destruct E as [E|E].
  - apply Fmul_integral in E. destruct E as [E|E].
    + left. apply (proj1 (Fsub_eq0 _ _)) in E. now subst.
    + right. assert (Ey : y' = - y) by (transitivity (y + y' - y); [ring|rewrite E; ring]). subst y'. symmetry.
      apply padd_val; [exact HP|exact HQ|]. cbn [px py]. split; [ring|].
      transitivity (- (F1 + Fof 168696 * (x * x) * (y * y))); [ring|]. rewrite <- HP. ring.
  - exfalso. assert (E1 : Fof 168696 * (x * x) = F1) by (symmetry; now apply (proj1 (Fsub_eq0 _ _))).
    rewrite E1 in HP. assert (E2 : Fof 168700 * (x * x) = F1).
    { transitivity (Fof 168700 * (x * x) + y * y - y * y); [ring|]. rewrite HP. ring. }
    assert (E3 : Fof 4 * (x * x) = F0).
    { replace (Fof 4) with (Fof 168700 - Fof 168696) by (rewrite <- Fof_sub; reflexivity).
      transitivity (Fof 168700 * (x * x) - Fof 168696 * (x * x)); [ring|]. rewrite E1, E2. ring. }
    apply Fmul_integral in E3. destruct E3 as [E3|E3].
    + revert E3. apply Fof_nz. vm_compute. discriminate.
    + rewrite E3 in E1. apply F1_neq_0. rewrite <- E1. ring.
Qed.

Local Open Scope Z_scope.
Lemma pzmul_padd z P Q : on_curve P -> on_curve Q -> pzmul z (padd P Q) = padd (pzmul z P) (pzmul z Q).
Proof.
  intros HP HQ. destruct z as [|q|q]; cbn [pzmul].
  - symmetry. apply padd_0_r.
  - now apply smul_padd.
  - rewrite smul_padd, pneg_padd by auto using smul_on. reflexivity.
Qed.

Definition insub (P : point) : Prop := on_curve P /\ pzmul ord_L P = pzero.
Local Opaque pzmul ord_L smul padd.
Lemma insub_zero : insub pzero.
Proof. split; [exact pzero_on|apply pzmul_zero]. Qed.
Lemma insub_add P Q : insub P -> insub Q -> insub (padd P Q).
Proof. intros [H1 H2] [H3 H4]. split; [now apply padd_closed|]. rewrite pzmul_padd by assumption. rewrite H2, H4. apply padd_0_r. Qed.
Lemma insub_mul z P : insub P -> insub (pzmul z P).
Proof. intros [H1 H2]. split; [now apply pzmul_on|]. rewrite <- pzmul_mul by assumption. rewrite Z.mul_comm, pzmul_mul by assumption. rewrite H2. apply pzmul_zero. Qed.
Lemma insub_pedersen bases bs : Forall insub bases -> insub (pedersen_sum bases bs).
Proof.
  intros H. revert bs. induction H as [|B bases HB _ IH]; intros bs; cbn [pedersen_sum]; [exact insub_zero|].
  apply insub_add; [now apply insub_mul|apply IH].
Qed.
Lemma insub_T2 : ~ insub T2.
Proof.
  intros [_ H]. assert (E : pzmul ord_L T2 = T2).
  { assert (K : exists k, ord_L = k * 2 + 1) by (exists (ord_L / 2); reflexivity). destruct K as [k ->].
    assert (E2 : pzmul 2 T2 = pzero) by (rewrite <- T2_double; rewrite <- smul_2; exact (pzmul_N 2 T2)).
    assert (E1 : pzmul 1 T2 = T2) by (rewrite <- (smul_1 T2) at 2; exact (pzmul_N 1 T2)).
    rewrite pzmul_add, pzmul_mul, E2, E1, pzmul_zero, padd_0_l by exact T2_on. reflexivity. }
  rewrite E in H. apply (f_equal py) in H. apply (f_equal fval) in H. clear E. vm_compute in H. lia.
Qed.
Lemma insub_px P Q : insub P -> insub Q -> px P = px Q -> Q = P.
Proof.
  intros HP HQ E. destruct (same_px P Q (proj1 HP) (proj1 HQ) E) as [H|H]; [exact H|].
  exfalso. apply insub_T2. rewrite <- H. now apply insub_add.
Qed.

(** equal hashes of two strings that differ in the first two segments only *)
Lemma collide B0 B1 Q u0 u1 v0 v1 : insub B0 -> insub B1 -> insub Q ->
  px (padd (pzmul u0 B0) (padd (pzmul u1 B1) Q)) = px (padd (pzmul v0 B0) (padd (pzmul v1 B1) Q)) ->
  padd (pzmul (v0 - u0) B0) (pzmul (v1 - u1) B1) = pzero.
Proof.
  intros H0 H1 HQ E.
  pose proof (insub_mul u0 _ H0) as I0. pose proof (insub_mul u1 _ H1) as I1. pose proof (insub_mul v0 _ H0) as J0. pose proof (insub_mul v1 _ H1) as J1.
  apply insub_px in E; [|apply insub_add; [assumption|apply insub_add; assumption]|apply insub_add; [assumption|apply insub_add; assumption]].
  assert (O : on_curve (pzmul (v0 - u0) B0) /\ on_curve (pzmul (v1 - u1) B1)) by (split; apply pzmul_on; [apply H0|apply H1]). destruct O as [O0 O1].
  destruct I0 as [I0 _], I1 as [I1 _], J0 as [J0 _], J1 as [J1 _], HQ as [HQ _].
  replace v0 with (u0 + (v0 - u0)) in E by lia. replace v1 with (u1 + (v1 - u1)) in E by lia.
  rewrite !pzmul_add in E by (apply H0 || apply H1).
  set (X := pzmul (v0 - u0) B0) in *. set (Y := pzmul (v1 - u1) B1) in *.
  assert (E2 : padd (padd (pzmul u0 B0) (padd (pzmul u1 B1) Q)) (padd X Y) = padd (padd (pzmul u0 B0) (padd (pzmul u1 B1) Q)) pzero).
  { rewrite padd_0_r. rewrite <- E at 2. rewrite (padd_swap (pzmul u0 B0)) by auto using padd_closed. f_equal.
    rewrite (padd_assoc (pzmul u1 B1) Y Q), (padd_comm Y Q), <- padd_assoc by assumption. reflexivity. }
  apply padd_cancel_l in E2; auto using padd_closed, pzero_on.
Qed.

Lemma det_zero B0 B1 d0 d1 e0 e1 : insub B0 -> insub B1 -> B1 <> pzero ->
  padd (pzmul d0 B0) (pzmul d1 B1) = pzero -> padd (pzmul e0 B0) (pzmul e1 B1) = pzero -> (ord_L | e0 * d1 - d0 * e1).
Proof.
  intros [H0 _] [H1 HL] HN D E. apply (prime_order ord_L B1 _ ord_L_prime H1 HN HL).
  apply (f_equal (pzmul e0)) in D. apply (f_equal (pzmul d0)) in E.
  rewrite pzmul_padd, pzmul_zero in D, E by now apply pzmul_on.
  rewrite <- !pzmul_mul in D, E by assumption. rewrite (Z.mul_comm d0 e0) in E.
  rewrite pzmul_sub by assumption.
  assert (X : pzmul (e0 * d1) B1 = pzmul (d0 * e1) B1).
  { apply (padd_cancel_l (pzmul (e0 * d0) B0)); auto using pzmul_on. rewrite D, E. reflexivity. }
  rewrite X. apply padd_neg_r. now apply pzmul_on.
Qed.

(** the two candidates for R *)
Definition exG5 : point := mkpt (Fof 6713168844609382350808963833456339787901820778557047205896102121226264159308)
  (Fof 8253048004944111235470351707822307895701245524841349152930196594688990095747).
Lemma exG4_on : on_curve exG4.
Proof. rewrite exG4_eq, exG2_eq. apply padd_closed; apply padd_closed; exact exG_on. Qed.
Lemma exG4_smul : smul 4 exG = exG4.
Proof. rewrite exG4_eq, exG2_eq, <- (smul_2 exG), <- (smul_add 2 2) by exact exG_on. reflexivity. Qed.
Lemma exG5_smul : smul 5 exG = exG5.
Proof.
  change 5%N with (1 + 4)%N. rewrite smul_add, smul_1, exG4_smul by exact exG_on. symmetry.
  apply padd_val; [exact exG_on|exact exG4_on|]. split; apply Feqb_true; vm_compute; reflexivity.
Qed.
Lemma exG_mul_notlow r : (0 < r < 2 ^ 200)%N -> px (smul 8 (smul r exG)) <> F0.
Proof.
  intros Hr. rewrite <- smul_mul by exact exG_on. rewrite <- pzmul_N. apply large_order_px; [exact exG_on|exact exG_large_order|..].
  - change (2 ^ 200)%N with (Z.to_N (2 ^ 200)) in Hr. assert (2 ^ 248 = 2 ^ 200 * 2 ^ 48) by reflexivity. assert (16 < 2 ^ 48) by reflexivity. nia.
  - lia.
Qed.

Definition x4 := 3319134467327838892242282581065647627392741625699997741597868808889985014067.
Definition x5 := 6713168844609382350808963833456339787901820778557047205896102121226264159308.
Definition xG := 16540640123574156134436876038791482806971768689494387082833631921987005038935.
Definition zb (z : Z) : list bool := bits_of_Z 254 z.
Lemma zb_N z : 0 <= z < 2 ^ 254 -> Z.of_N (bits_N (zb z)) = z.
Proof. intros H. unfold zb. rewrite <- natbits_N. apply natbits_bits_small. exact H. Qed.
Lemma zb_decodes z x : 0 <= z < 2 ^ 254 -> Fof z = x -> decodes (zb z) x.
Proof. intros H E. split; [apply bits_of_Z_length|]. now rewrite zb_N. Qed.

Definition ram (z : Z) (M : list bool) : list bool := zb z ++ zb xG ++ M.
Definition sg0 (z : Z) := segment_val 62 (ram z []).
Definition sg1 (z : Z) := segment_val 62 (skipn 186 (ram z [])).

Lemma segment_app k : forall l m, (3 * k <= List.length l)%nat -> segment_val k (l ++ m) = segment_val k l.
Proof.
  induction k as [|k IH]; intros l m H.
  - destruct l, m; reflexivity.
  - destruct l as [|a [|b [|c l]]]; cbn [List.length] in H; try lia. cbn [segment_val app]. rewrite IH by lia. reflexivity.
Qed.
Lemma ram_len z M : List.length (ram z M) = (508 + List.length M)%nat.
Proof. unfold ram, zb. rewrite !app_length, !bits_of_Z_length. lia. Qed.
Lemma ram_app z M : ram z M = ram z [] ++ M.
Proof. unfold ram. rewrite !app_nil_r, !app_assoc. reflexivity. Qed.
Lemma ram_tail z z' M : skipn 372 (ram z M) = skipn 372 (ram z' M).
Proof.
  unfold ram. rewrite !skipn_app. unfold zb at 1 2 4 5. rewrite !bits_of_Z_length. rewrite !skipn_all2 by (rewrite bits_of_Z_length; lia). reflexivity.
Qed.
Lemma ram_sum B0 B1 rest z M : pedersen_sum (B0 :: B1 :: rest) (ram z M) =
  padd (pzmul (sg0 z) B0) (padd (pzmul (sg1 z) B1) (pedersen_sum rest (skipn 372 (ram x4 M)))).
Proof.
  cbn [pedersen_sum]. rewrite ram_app. rewrite segment_app by (rewrite ram_len; cbn [List.length]; lia). fold (sg0 z). f_equal.
Qed.

Lemma det_value : ((sg0 (x5 + p_mod) - sg0 x5) * (sg1 (x4 + p_mod) - sg1 x4) - (sg0 (x4 + p_mod) - sg0 x4) * (sg1 (x5 + p_mod) - sg1 x5)) mod ord_L <> 0.
Proof. vm_compute. discriminate. Qed.

(** for any base points of the prime-order subgroup one of the two candidates gives two hashes *)
Lemma two_hashes rbases M : (2 <= List.length rbases)%nat -> Forall insub rbases -> Forall (fun P => P <> pzero) rbases ->
  pedersen_x rbases (ram x4 M) <> pedersen_x rbases (ram (x4 + p_mod) M) \/ pedersen_x rbases (ram x5 M) <> pedersen_x rbases (ram (x5 + p_mod) M).
Proof.
  intros HL HI HN. destruct rbases as [|B0 [|B1 rest]]; cbn [List.length] in HL; try lia.
  inversion HI as [|? ? I0 HI']; subst. inversion HI' as [|? ? I1 I2]; subst. inversion HN as [|? ? _ HN']; subst. inversion HN' as [|? ? N1 _]; subst.
  unfold pedersen_x. rewrite !ram_sum. set (Q := pedersen_sum rest (skipn 372 (ram x4 M))). assert (IQ : insub Q) by now apply insub_pedersen.
  match goal with |- ?a <> ?b \/ ?c <> ?d => destruct (Feq_dec a b) as [E1|]; [|left; assumption]; destruct (Feq_dec c d) as [E2|]; [|right; assumption] end.
  exfalso. apply collide in E1; auto. apply collide in E2; auto. apply det_value. apply Z.mod_divide; [discriminate|].
  exact (det_zero B0 B1 _ _ _ _ I0 I1 N1 E1 E2).
Qed.

(** ** the two satisfying assignments *)
Definition lay (M sb : list bool) (A R : point) : assign :=
  let m := List.length M in
  let s0 := upds (fun _ => F0) (var_array 1 m) (map b2F M) in
  let s0 := upds s0 (var_array (1 + m) 256) (map b2F sb) in
  let s0 := upd (upd s0 (257 + m)%nat (px A)) (258 + m)%nat (py A) in
  upd (upd s0 (259 + m)%nat (px R)) (260 + m)%nat (py R).
Lemma lay_ok M sb A R : List.length sb = 256%nat -> let m := List.length M in
  map (lay M sb A R) (var_array 1 m) = map b2F M /\ map (lay M sb A R) (var_array (1 + m) 256) = map b2F sb /\
  mkpt (lay M sb A R (257 + m)%nat) (lay M sb A R (258 + m)%nat) = A /\ mkpt (lay M sb A R (259 + m)%nat) (lay M sb A R (260 + m)%nat) = R.
Proof.
  intros Hsb m. unfold lay. fold m. set (mv := var_array 1 m). set (sv := var_array (1 + m) 256).
  set (s1 := upds (fun _ => F0) mv (map b2F M)). set (s2 := upds s1 sv (map b2F sb)).
  match goal with |- context [map ?st mv] => set (s4 := st) end.
  assert (O : forall v, (v < 257 + m)%nat -> s4 v = s2 v). { intros v Hv. unfold s4. rewrite !upd_other by lia. reflexivity. }
  split.
  { rewrite <- (upds_map (fun _ => F0) mv (map b2F M)); [|apply seq_NoDup|unfold mv, var_array; rewrite map_length, seq_length; reflexivity].
    apply map_ext_in. intros v Hv. apply var_array_In in Hv. rewrite O by lia. unfold s2. rewrite upds_other; [reflexivity|].
    intros H. apply var_array_In in H. lia. }
  split.
  { rewrite <- (upds_map s1 sv (map b2F sb)); [|apply seq_NoDup|unfold sv, var_array; rewrite map_length, seq_length; exact Hsb].
    apply map_ext_in. intros v Hv. apply var_array_In in Hv. rewrite O by lia. reflexivity. }
  split; apply point_eq; cbn [px py]; unfold s4.
  - rewrite !upd_other by lia. apply upd_same.
  - rewrite upd_other by lia. rewrite upd_other by lia. apply upd_same.
  - rewrite upd_other by lia. apply upd_same.
  - apply upd_same.
Qed.
Lemma lay_low M sb sb' A R v : List.length sb = 256%nat -> List.length sb' = 256%nat ->
  let m := List.length M in (v < 1 + m \/ 257 + m <= v)%nat -> lay M sb A R v = lay M sb' A R v.
Proof.
  intros H1 H2 m Hv. unfold lay. fold m.
  assert (E : upds (upds (fun _ : nat => F0) (var_array 1 m) (map b2F M)) (var_array (1 + m) 256) (map b2F sb) v =
     upds (upds (fun _ : nat => F0) (var_array 1 m) (map b2F M)) (var_array (1 + m) 256) (map b2F sb') v).
  { assert (NI : ~ In v (var_array (1 + m) 256)) by (intros H; apply var_array_In in H; lia).
    rewrite (upds_other _ _ (map b2F sb) v NI), (upds_other _ _ (map b2F sb') v NI). reflexivity. }
  unfold upd. destruct (v =? 260 + m)%nat; [reflexivity|]. destruct (v =? 259 + m)%nat; [reflexivity|].
  destruct (v =? 258 + m)%nat; [reflexivity|]. destruct (v =? 257 + m)%nat; [reflexivity|]. exact E.
Qed.

Lemma challenge_refuted_lemma mkb rbases M :
  good_bases mkb "EdDSA_Verify.RAM" (508 + List.length M) rbases -> Forall (fun P => P <> pzero /\ pzmul ord_L P = pzero) rbases ->
  let m := List.length M in let mv := var_array 1 m in let sv := var_array (1 + m) 256 in
  let A := {| vp_x := (257 + m)%nat; vp_y := (258 + m)%nat |} in let R := {| vp_x := (259 + m)%nat; vp_y := (260 + m)%nat |} in
  exists g n' cs, pure_eddsa_new mkb (mkpt jj_Gx jj_Gy) A R sv mv (261 + m) = Ok (g, n') /\ pure_eddsa_constraints g = Ok cs /\
  exists s1 s2 : assign, sat s1 cs /\ sat s2 cs /\ map s1 mv = map b2F M /\
    (forall v, In v ([vp_x A; vp_y A; vp_x R; vp_y R] ++ mv) -> s1 v = s2 v) /\
    map s1 (hram_result (pe_hash g)) <> map s2 (hram_result (pe_hash g)).
Proof.
  intros HG Hsub m mv sv A R.
  assert (Fm : Forall (fun v => v < 261 + m)%nat mv) by (apply Forall_forall; intros v Hv; apply var_array_In in Hv; lia).
  assert (Fs : Forall (fun v => v < 261 + m)%nat sv) by (apply Forall_forall; intros v Hv; apply var_array_In in Hv; lia).
  assert (Lm : List.length mv = m) by apply seq_length. assert (Ls : List.length sv = 256%nat) by apply seq_length.
  destruct (pure_eddsa_lemma mkb exG rbases A R sv mv (261 + m) exG_on ltac:(rewrite Ls; reflexivity) ltac:(rewrite Ls; lia) Fs Fm ltac:(rewrite Lm; exact HG)
     ltac:(cbn; lia) ltac:(cbn; lia) ltac:(cbn; lia) ltac:(cbn; lia)) as (g & n' & cs & N & C & H).
  exists g, n', cs. split; [exact N|]. split; [exact C|].
  (* one admissible decomposition of the x coordinate of R gives a satisfying assignment *)
  assert (K : forall r P z, (0 < r < 2 ^ 200)%N -> smul r exG = P -> 0 <= z < 2 ^ 254 -> Fof z = px P ->
     exists s1 sb, List.length sb = 256%nat /\ sat s1 cs /\ (forall v, (v < 261 + m)%nat -> s1 v = lay M sb exG P v) /\
       map s1 (hram_result (pe_hash g)) = map b2F (zb (fval (pedersen_x rbases (ram z M))))).
  { intros r P z Hr EP Hz Ez. set (hb := zb (fval (pedersen_x rbases (ram z M)))).
    pose proof (fval_range (pedersen_x rbases (ram z M))) as Rh. pose proof p_lt_2_254 as Hp.
    set (sb := bits_of_Z 256 (Z.of_N r + fval (pedersen_x rbases (ram z M)))).
    assert (Lsb : List.length sb = 256%nat) by apply bits_of_Z_length.
    destruct (lay_ok M sb exG P Lsb) as (Q1 & Q2 & Q3 & Q4). fold m in Q1, Q2, Q3, Q4.
    destruct (H (lay M sb exG P) sb M Q2 Q1) as [_ K]. { cbn [vp_x vp_y A]. rewrite Q3. exact exG_on. }
    cbn [vp_x vp_y A R] in K. rewrite Q3, Q4 in K.
    destruct K as [K _]. { rewrite <- EP. apply smul_on, exG_on. } { rewrite <- EP. now apply exG_mul_notlow. }
    destruct (K (zb z) (zb xG) hb) as (s1 & Fr & S & Hh).
    - now apply zb_decodes.
    - apply zb_decodes; [split; [discriminate|reflexivity]|reflexivity].
    - unfold hb. fold (ram z M). apply zb_decodes; [lia|apply Fof_fval].
    - unfold eddsa_equation. rewrite <- EP. rewrite <- smul_add by exact exG_on. f_equal.
      apply N2Z.inj. rewrite N2Z.inj_add. unfold hb. rewrite zb_N by lia. unfold sb. rewrite <- natbits_N. apply natbits_bits_small.
      change (2 ^ Z.of_nat 256) with (4 * 2 ^ 254). change (2 ^ 200)%N with (Z.to_N (2 ^ 200)) in Hr. assert (2 ^ 200 < 2 ^ 254) by reflexivity. lia.
    - exists s1, sb. split; [exact Lsb|]. split; [exact S|]. split; [|exact Hh]. intros v Hv. apply Fr. left. exact Hv. }
  assert (K2 : forall r P z, (0 < r < 2 ^ 200)%N -> smul r exG = P -> 0 <= z < 2 ^ 254 - p_mod -> Fof z = px P ->
     pedersen_x rbases (ram z M) <> pedersen_x rbases (ram (z + p_mod) M) ->
     exists s1 s2 : assign, sat s1 cs /\ sat s2 cs /\ map s1 mv = map b2F M /\
       (forall v, In v ([vp_x A; vp_y A; vp_x R; vp_y R] ++ mv) -> s1 v = s2 v) /\
       map s1 (hram_result (pe_hash g)) <> map s2 (hram_result (pe_hash g))).
  { intros r P z Hr EP Hz Ez Hne. assert (0 < p_mod) by reflexivity.
    destruct (K r P z Hr EP ltac:(lia) Ez) as (s1 & sb1 & L1 & S1 & V1 & H1).
    destruct (K r P (z + p_mod) Hr EP ltac:(lia)) as (s2 & sb2 & L2 & S2 & V2 & H2).
    { rewrite Fof_add, Fof_p, Ez. ring. }
    exists s1, s2. split; [exact S1|]. split; [exact S2|]. split.
    { destruct (lay_ok M sb1 exG P L1) as (Q1 & _). fold m mv in Q1. rewrite <- Q1. apply map_ext_in. intros v Hv. apply V1.
      rewrite Forall_forall in Fm. now apply Fm. }
    split.
    { intros v Hv. assert (Hb : (v < 1 + m \/ 257 + m <= v < 261 + m)%nat).
      { apply in_app_or in Hv. destruct Hv as [Hv|Hv]; [cbn in Hv; destruct Hv as [<-|[<-|[<-|[<-|[]]]]]; lia|apply var_array_In in Hv; lia]. }
      rewrite V1, V2 by lia. apply lay_low; auto. fold m. lia. }
    intros E. apply Hne. rewrite H1, H2 in E. apply b2F_map_inj in E.
    assert (E' : fval (pedersen_x rbases (ram z M)) = fval (pedersen_x rbases (ram (z + p_mod) M))).
    { pose proof (fval_range (pedersen_x rbases (ram z M))). pose proof (fval_range (pedersen_x rbases (ram (z + p_mod) M))). pose proof p_lt_2_254.
      rewrite <- (zb_N (fval (pedersen_x rbases (ram z M)))), <- (zb_N (fval (pedersen_x rbases (ram (z + p_mod) M)))) by lia. now rewrite E. }
    now apply fval_inj. }
  destruct HG as (_ & On & _ & _ & _ & Hlen).
  destruct (two_hashes rbases M) as [Hne|Hne].
  - lia.
  - apply Forall_forall. intros P HP. rewrite Forall_forall in On, Hsub. split; [now apply On|]. now apply Hsub.
  - eapply Forall_impl; [|exact Hsub]. cbn. intros P [HP _]. exact HP.
  - apply (K2 4%N exG4 x4); [split; reflexivity|exact exG4_smul|split; [discriminate|reflexivity]|reflexivity|exact Hne].
  - apply (K2 5%N exG5 x5); [split; reflexivity|exact exG5_smul|split; [discriminate|reflexivity]|reflexivity|exact Hne].
Qed.
