(** The properties of the Solidity verifier. *)
From Coq Require Import List ZArith Bool Lia.
From Verif Require Import Field Base FieldQ Primes M_Point M_Groth Spec_Groth P_Groth3 Q_Groth M_Evm M_SolVerifier Spec_SolVerifier P_SolVerifier.
Import ListNotations.
Local Open Scope Z_scope.

Lemma Forall2_len : forall {A B} (R : A -> B -> Prop) l l', Forall2 R l l' -> List.length l = List.length l'.
Proof. induction 1; cbn [List.length]; congruence. Qed.
Lemma flat_length : forall l, List.length (flat_points l) = (2 * List.length l)%nat.
Proof. induction l as [|[x y] l IH]; [reflexivity|]. cbn [flat_points List.length]. rewrite IH. lia. Qed.
Lemma count_ok : forall (n k : nat) e, (e <= 1)%nat -> Z.of_nat n < wsize - 1 ->
  (wsub (Z.of_nat (2 * S n + e) / 2) 1 =? Z.of_nat k) = (n =? k)%nat.
Proof.
  intros n k e He Hn. assert (W : wsize = 2 ^ 256) by reflexivity.
  replace (Z.of_nat (2 * S n + e) / 2) with (Z.of_nat n + 1).
  2:{ apply Z.div_unique with (Z.of_nat e); lia. }
  unfold wsub. rewrite Z.mod_small by lia.
  destruct (Nat.eqb_spec n k); [apply Z.eqb_eq; lia|apply Z.eqb_neq; lia].
Qed.
Lemma count_inv : forall (n k : nat), (wsub (Z.of_nat n / 2) 1 =? Z.of_nat k) = true -> Z.of_nat n < wsize -> Z.of_nat k < wsize - 1 ->
  n = (2 * S k)%nat \/ n = (2 * S k + 1)%nat.
Proof.
  intros n k H Hn Hk. apply Z.eqb_eq in H. assert (W : 0 < wsize) by reflexivity. unfold wsub in H.
  pose proof (Z.div_mod (Z.of_nat n) 2 ltac:(lia)) as D. pose proof (Z.mod_pos_bound (Z.of_nat n) 2 ltac:(lia)) as B.
  set (h := Z.of_nat n / 2) in *. assert (0 <= h) by (apply Z.div_pos; lia).
  destruct (Z.eq_dec h 0) as [->|].
  - rewrite (Z.mod_eq (0 - 1) wsize) in H by lia. replace ((0 - 1) / wsize) with (-1) in H; [lia|]. apply Z.div_unique with (wsize - 1); lia.
  - rewrite Z.mod_small in H by lia. lia.
Qed.

Section Main.
Variables (E : pairing) (S1 : G1 E -> Prop) (S2 : G2 E -> Prop).
Hypothesis L : pairing_laws E S1 S2.
Variable C : codec E.
Hypothesis EC : eip_codec E S1 S2 C.
Notation neg g := (g1_sub E (g1_zero E) g).

(** the second half of Verify *)
Definition finish (v w : list Z) (vx : Z * Z) : outcome bool :=
  out <- pairing_check E C
           [nth 0 w 0; nth 1 w 0; nth 2 w 0; nth 3 w 0; nth 4 w 0; nth 5 w 0]
           [nth 0 v 0; NegateY (nth 1 v 0); nth 2 v 0; nth 3 v 0; nth 4 v 0; nth 5 v 0]
           [fst vx; NegateY (snd vx); nth 6 v 0; nth 7 v 0; nth 8 v 0; nth 9 v 0]
           [nth 6 w 0; NegateY (nth 7 w 0); nth 10 v 0; nth 11 v 0; nth 12 v 0; nth 13 v 0] ;;
  Ok (negb (out =? 0)).
Lemma Verify_eq : forall v abc w inputs, Verify E C v abc w inputs =
  (_ <- orequire (wsub (Z.of_nat (List.length abc) / 2) 1 =? Z.of_nat (List.length inputs)) ;;
   x0 <- sol_idx abc 0 ;; y0 <- sol_idx abc 1 ;;
   vk_x <- vk_x_loop E C abc inputs 2 (x0, y0) ;; finish v w vk_x).
Proof using. reflexivity. Qed.

Lemma finish_complete : forall v w vx al be ga de A B Cc X,
  vk_words E C v al be ga de -> proof_words E C w A B Cc -> dec1 E C (fst vx) (snd vx mod q_mod) = Some X ->
  (al <> g1_zero E -> Cc <> g1_zero E -> X <> g1_zero E ->
     exists b, finish v w vx = Ok b /\ (b = true <-> groth_equation E al be ga de X A B Cc)) /\
  (al = g1_zero E \/ Cc = g1_zero E \/ X = g1_zero E -> finish v w vx = Throw).
Proof using L EC.
  intros v w vx al be ga de A B Cc X
    (a0 & a1 & b0 & b1 & b2 & b3 & c0 & c1 & c2 & c3 & d0 & d1 & d2 & d3 & -> & Hal & Hbe & Hga & Hde)
    (p0 & p1 & r0 & r1 & r2 & r3 & s0 & s1 & -> & HA & HB & HC) HX.
  pose proof (dec_in _ _ _ _ EC _ _ _ Hal) as Ial. pose proof (dec_in _ _ _ _ EC _ _ _ HC) as IC. pose proof (dec_in _ _ _ _ EC _ _ _ HX) as IX.
  pose proof (ec_dec2 _ _ _ _ EC _ _ _ _ _ Hbe) as Ibe. pose proof (ec_dec2 _ _ _ _ EC _ _ _ _ _ Hga) as Iga.
  pose proof (ec_dec2 _ _ _ _ EC _ _ _ _ _ Hde) as Ide.
  unfold finish. cbn [nth]. unfold pairing_check, read_pair. rewrite HA, HB, Hbe, Hga, Hde. split.
  - intros Nal NC NX. rewrite (neg_dec _ _ _ L _ EC _ _ _ Hal Nal), (neg_dec _ _ _ L _ EC _ _ _ HC NC), (neg_dec _ _ _ L _ EC _ _ _ HX NX).
    cbn [obind]. eexists. split; [reflexivity|].
    pose proof (product_one _ _ _ L (pair E A B) (pair E (neg al) be) (pair E (neg X) ga) (pair E (neg Cc) de) (pair E al be) (pair E X ga) (pair E Cc de)
      (pair_neg _ _ _ L _ _ Ial Ibe) (pair_neg _ _ _ L _ _ IX Iga) (pair_neg _ _ _ L _ _ IC Ide)) as P.
    unfold groth_equation. rewrite <- P. rewrite <- (lt_eqb _ _ _ L).
    destruct (gt_eqb E _ _); cbn; split; congruence.
  - intros [-> | [-> | -> ]].
    + rewrite (neg_dec_zero _ _ _ L _ EC _ _ Hal). reflexivity.
    + rewrite (neg_dec_zero _ _ _ L _ EC _ _ HC). destruct (dec1 E C a0 (NegateY a1)); [destruct (dec1 E C (fst vx) (NegateY (snd vx)))|]; reflexivity.
    + rewrite (neg_dec_zero _ _ _ L _ EC _ _ HX). destruct (dec1 E C a0 (NegateY a1)); reflexivity.
Qed.
Lemma len14 : forall v : list Z, List.length v = 14%nat -> exists a0 a1 b0 b1 b2 b3 c0 c1 c2 c3 d0 d1 d2 d3,
  v = [a0; a1; b0; b1; b2; b3; c0; c1; c2; c3; d0; d1; d2; d3].
Proof using. intros v H. do 14 (destruct v as [|? v]; [discriminate H|]). destruct v; [|discriminate H]. repeat eexists. Qed.
Lemma len8 : forall v : list Z, List.length v = 8%nat -> exists a0 a1 b0 b1 b2 b3 c0 c1, v = [a0; a1; b0; b1; b2; b3; c0; c1].
Proof using. intros v H. do 8 (destruct v as [|? v]; [discriminate H|]). destruct v; [|discriminate H]. repeat eexists. Qed.
Lemma finish_inv : forall v w vx b, List.length v = 14%nat -> List.length w = 8%nat -> finish v w vx = Ok b ->
  exists al be ga de A B Cc X, vk_words E C v al be ga de /\ proof_words E C w A B Cc /\
    dec1 E C (fst vx) (snd vx mod q_mod) = Some X /\ al <> g1_zero E /\ Cc <> g1_zero E /\ X <> g1_zero E.
Proof using L EC.
  intros v w vx b Hv Hw. destruct (len14 v Hv) as (a0 & a1 & b0 & b1 & b2 & b3 & c0 & c1 & c2 & c3 & d0 & d1 & d2 & d3 & ->).
  destruct (len8 w Hw) as (p0 & p1 & r0 & r1 & r2 & r3 & s0 & s1 & ->). clear Hv Hw.
  unfold finish. cbn [nth]. unfold pairing_check, read_pair.
  destruct (dec1 E C p0 p1) as [A|] eqn:HA; [|discriminate]. destruct (dec2 E C r0 r1 r2 r3) as [B|] eqn:HB; [|discriminate].
  destruct (dec1 E C a0 (NegateY a1)) as [al|] eqn:Hal; [|discriminate]. destruct (dec2 E C b0 b1 b2 b3) as [be|] eqn:Hbe; [|discriminate].
  destruct (dec1 E C (fst vx) (NegateY (snd vx))) as [X|] eqn:HX; [|discriminate]. destruct (dec2 E C c0 c1 c2 c3) as [ga|] eqn:Hga; [|discriminate].
  destruct (dec1 E C s0 (NegateY s1)) as [Cc|] eqn:HC; [|discriminate]. destruct (dec2 E C d0 d1 d2 d3) as [de|] eqn:Hde; [|discriminate].
  intros _.
  destruct (neg_dec_inv _ _ _ L _ EC _ _ _ Hal) as [Nal Hal']. destruct (neg_dec_inv _ _ _ L _ EC _ _ _ HX) as [NX HX'].
  destruct (neg_dec_inv _ _ _ L _ EC _ _ _ HC) as [NC HC'].
  exists (neg al), be, ga, de, A, B, (neg Cc), (neg X).
  split. { do 14 eexists. split; [reflexivity|]. tauto. }
  split. { do 8 eexists. split; [reflexivity|]. tauto. }
  split; [exact HX'|].
  split; [apply (neg_nonzero _ _ _ L); [eapply dec_in; eassumption|assumption]|].
  split; apply (neg_nonzero _ _ _ L); try assumption; eapply dec_in; eassumption.
Qed.
End Main.

(** ** the decision *)
Lemma contract_decides : forall E S1 S2 C, pairing_laws E S1 S2 -> eip_codec E S1 S2 C ->
  forall v abc w inputs al be ga de ic0 ics A B Cc,
  vk_words E C v al be ga de -> reads E C abc (ic0 :: ics) -> proof_words E C w A B Cc ->
  Forall (fun s => 0 <= s < p_mod) inputs -> List.length inputs = List.length ics -> Z.of_nat (List.length inputs) < wsize - 1 ->
  let X := statement_point E ic0 ics (map Fof inputs) in
  (al <> g1_zero E -> Cc <> g1_zero E -> X <> g1_zero E ->
     exists b, Verify E C v (flat_points abc) w inputs = Ok b /\ (b = true <-> groth_equation E al be ga de X A B Cc)) /\
  (al = g1_zero E \/ Cc = g1_zero E \/ X = g1_zero E -> Verify E C v (flat_points abc) w inputs = Throw).
Proof.
  intros E S1 S2 C L EC v abc w inputs al be ga de ic0 ics A B Cc Hv HR Hw HF Hl Hb X.
  inversion HR as [|[x0 y0] g pts gs H0 HR' E1 E2]; subst. cbn [fst snd] in H0.
  assert (Lp : List.length inputs = List.length pts) by (apply Forall2_len in HR'; congruence).
  rewrite Verify_eq. rewrite flat_length. cbn [List.length].
  replace (2 * S (List.length pts))%nat with (2 * S (List.length pts) + 0)%nat by lia.
  rewrite count_ok by lia. rewrite Lp, Nat.eqb_refl. cbn [orequire obind flat_points].
  rewrite (sol_idx_nth (x0 :: y0 :: flat_points pts) 0 x0 eq_refl : sol_idx _ 0 = _).
  rewrite (sol_idx_nth (x0 :: y0 :: flat_points pts) 1 y0 eq_refl : sol_idx _ 1 = _). cbn [obind].
  destruct (loop_complete E S1 S2 L C EC inputs pts ics (x0 :: y0 :: flat_points pts) 2 [] (x0, y0) ic0 HF Lp HR') as [acc' [Ea Da]];
    [cbn [skipn]; symmetry; apply app_nil_r|exact H0|].
  change (Z.of_nat 2) with 2 in Ea. rewrite Ea. cbn [obind].
  apply (finish_complete E S1 S2 L C EC); try assumption. apply (dec_mod _ _ _ _ EC). exact Da.
Qed.

(** whatever is decided was decided about readable words, and correctly *)
Lemma contract_sound : forall E S1 S2 C, pairing_laws E S1 S2 -> eip_codec E S1 S2 C ->
  forall v abc w inputs b, List.length v = 14%nat -> List.length w = 8%nat ->
  Z.of_nat (List.length abc) < wsize -> Z.of_nat (List.length inputs) < wsize - 1 ->
  Verify E C v abc w inputs = Ok b ->
  exists al be ga de A B Cc pts extra ic0 ics,
    vk_words E C v al be ga de /\ proof_words E C w A B Cc /\
    abc = flat_points pts ++ extra /\ (List.length extra <= 1)%nat /\
    reads E C (map (fun q => (fst q, snd q mod q_mod)) pts) (ic0 :: ics) /\ List.length inputs = List.length ics /\
    Forall (fun s => s < p_mod) inputs /\
    al <> g1_zero E /\ Cc <> g1_zero E /\ statement_point E ic0 ics (map Fof inputs) <> g1_zero E /\
    (b = true <-> groth_equation E al be ga de (statement_point E ic0 ics (map Fof inputs)) A B Cc).
Proof.
  intros E S1 S2 C L EC v abc w inputs b Hv Hw Ha Hi. rewrite Verify_eq.
  destruct (wsub _ 1 =? _) eqn:Hc; [|discriminate]. apply count_inv in Hc; try assumption. cbn [orequire obind].
  destruct abc as [|x0 [|y0 rest]]; cbn [List.length] in Hc; try lia.
  rewrite (sol_idx_nth (x0 :: y0 :: rest) 0 x0 eq_refl : sol_idx _ 0 = _).
  rewrite (sol_idx_nth (x0 :: y0 :: rest) 1 y0 eq_refl : sol_idx _ 1 = _). cbn [obind].
  destruct (vk_x_loop E C (x0 :: y0 :: rest) inputs 2 (x0, y0)) as [acc| | | |] eqn:El; try discriminate. cbn [obind].
  intros Hf. destruct (finish_inv E S1 S2 L C EC v w acc b Hv Hw Hf) as (al & be & ga & de & A & B & Cc & X & HV & HW & HX & N1 & N2 & N3).
  destruct (finish_complete E S1 S2 L C EC v w acc al be ga de A B Cc X HV HW HX) as [K _].
  destruct (K N1 N2 N3) as [b' [Eb Hb]]. assert (b' = b) as -> by congruence.
  destruct (loop_sound E S1 S2 L C EC inputs (x0 :: y0 :: rest) 2 (x0, y0) acc El) as [HF [[-> ->]|[_ [pts [ics [extra [g [K1 [K2 [K3 [K4 K5]]]]]]]]]]].
  - exists al, be, ga, de, A, B, Cc, [(x0, y0)], rest, X, []. cbn [fst snd] in HX.
    split; [exact HV|]. split; [exact HW|]. split; [reflexivity|]. split; [cbn [List.length] in Hc; lia|].
    split; [constructor; [exact HX|constructor]|]. split; [reflexivity|]. split; [exact HF|].
    cbn [map]. rewrite (statement_nil _ _ _ L) by (eapply dec_in; eassumption). tauto.
  - exists al, be, ga, de, A, B, Cc, ((x0, y0) :: pts), extra, g, ics. cbn [fst snd skipn] in *.
    assert (X = statement_point E g ics (map Fof inputs)) as <-.
    { apply (dec_mod _ _ _ _ EC) in K5. congruence. }
    split; [exact HV|]. split; [exact HW|]. split; [cbn [flat_points app]; rewrite K1; reflexivity|].
    split. { rewrite K1, app_length, flat_length in Hc. lia. }
    split. { cbn [map fst snd]. constructor; [cbn [fst snd]; now apply (dec_mod _ _ _ _ EC)|].
      clear - K3 EC. induction K3; cbn [map]; constructor; [cbn [fst snd]; now apply (dec_mod _ _ _ _ EC)|assumption]. }
    split; [apply Forall2_len in K3; congruence|]. tauto.
Qed.

(** ** against the native verifier *)
Lemma contract_agrees : forall E S1 S2 C, pairing_laws E S1 S2 -> eip_codec E S1 S2 C ->
  forall v abc w inputs al be ga de ic0 ics A B Cc,
  vk_words E C v al be ga de -> reads E C abc (ic0 :: ics) -> proof_words E C w A B Cc ->
  Forall (fun s => 0 <= s < p_mod) inputs -> List.length inputs = List.length ics -> Z.of_nat (List.length inputs) < wsize - 1 ->
  al <> g1_zero E -> Cc <> g1_zero E -> statement_point E ic0 ics (map Fof inputs) <> g1_zero E ->
  Verify E C v (flat_points abc) w inputs =
  verifier_strong_IC E (VK E al be ga de (ic0, ics)) (map Fof inputs) (Proof_ E A B Cc).
Proof.
  intros E S1 S2 C L EC v abc w inputs al be ga de ic0 ics A B Cc Hv HR Hw HF Hl Hb N1 N2 N3.
  destruct (contract_decides E S1 S2 C L EC v abc w inputs al be ga de ic0 ics A B Cc Hv HR Hw HF Hl Hb) as [K _].
  destruct (K N1 N2 N3) as [b [-> Hb1]].
  destruct (strong_decides E S1 S2 L (VK E al be ga de (ic0, ics)) (map Fof inputs) (Proof_ E A B Cc)) as [b' [-> Hb2]].
  cbn [vk_alpha_g1 vk_beta_g2 vk_gamma_g2 vk_delta_g2 vk_gamma_ABC_g1 pf_A pf_B pf_C fst snd] in Hb2.
  rewrite map_length in Hb2.
  destruct Hw as (p0 & p1 & r0 & r1 & r2 & r3 & s0 & s1 & _ & HA & HB & HC).
  assert (W : b' = true <-> groth_equation E al be ga de (statement_point E ic0 ics (map Fof inputs)) A B Cc).
  { rewrite Hb2. split; [tauto|]. intros G. split; [exact Hl|].
    split; [apply (l1_wf _ _ _ L); eapply dec_in; eassumption|].
    split; [apply (l2_wf _ _ _ L); eapply ec_dec2; eassumption|].
    split; [apply (l1_wf _ _ _ L); eapply dec_in; eassumption|exact G]. }
  f_equal. destruct b, b'; try reflexivity; [symmetry; apply W, Hb1; reflexivity|apply Hb1, W; reflexivity].
Qed.

(** ** what always reverts *)
Lemma contract_rejects : forall E S1 S2 C, pairing_laws E S1 S2 -> eip_codec E S1 S2 C ->
  forall v abc w inputs, List.length v = 14%nat -> List.length w = 8%nat ->
  Z.of_nat (List.length abc) < wsize -> Z.of_nat (List.length inputs) < wsize - 1 ->
  ((Z.of_nat (List.length abc) / 2 <> Z.of_nat (List.length inputs) + 1) \/ Exists (fun s => p_mod <= s) inputs) ->
  Verify E C v abc w inputs = Throw.
Proof.
  intros E S1 S2 C L EC v abc w inputs Hv Hw Ha Hi H.
  assert (N : forall b, Verify E C v abc w inputs <> Ok b).
  { intros b Hb. destruct (contract_sound E S1 S2 C L EC v abc w inputs b Hv Hw Ha Hi Hb)
      as (al & be & ga & de & A & B & Cc & pts & extra & ic0 & ics & _ & _ & -> & Hx & HR & Hl & HF & _).
    destruct H as [H|H].
    - apply H. apply Forall2_len in HR. rewrite map_length in HR. cbn [List.length] in HR.
      rewrite app_length, flat_length, HR, <- Hl. symmetry. apply Z.div_unique with (Z.of_nat (List.length extra)); lia.
    - apply Exists_exists in H. destruct H as [s [Is Hs]]. rewrite Forall_forall in HF. specialize (HF s Is). lia. }
  revert N. rewrite Verify_eq.
  assert (LT : forall l m acc, (exists acc', vk_x_loop E C abc l m acc = Ok acc') \/ vk_x_loop E C abc l m acc = Throw).
  { assert (SI : forall (l : list Z) i, (exists a, sol_idx l i = Ok a) \/ sol_idx l i = Throw).
    { intros l i. unfold sol_idx. destruct (i <? 0); [now right|]. destruct (nth_error l _) as [a|]; [left; now exists a|now right]. }
    induction l as [|s l IH]; intros m acc; [left; eexists; reflexivity|]. cbn [vk_x_loop].
    destruct (s <? _); [|now right]. cbn [orequire obind].
    destruct (SI abc m) as [[a ->]| -> ]; [|now right]. cbn [obind].
    destruct (SI abc (m + 1)) as [[a' ->]| -> ]; [|now right]. cbn [obind].
    unfold ecmul. destruct (dec1 E C a a') as [g|]; [|now right]. cbn [obind]. unfold ecadd.
    destruct (dec1 E C (fst acc) _); [|now right]. destruct (dec1 E C (fst (enc1 E C _)) _); [|now right]. cbn [obind]. apply IH. }
  destruct (wsub _ 1 =? _); [|reflexivity]. cbn [orequire obind].
  assert (SI : forall i, (exists a, sol_idx abc i = Ok a) \/ sol_idx abc i = Throw).
  { intros i. unfold sol_idx. destruct (i <? 0); [now right|]. destruct (nth_error abc _) as [a|]; [left; now exists a|now right]. }
  destruct (SI 0) as [[x0 ->]| -> ]; [|reflexivity]. cbn [obind].
  destruct (SI 1) as [[y0 ->]| -> ]; [|reflexivity]. cbn [obind].
  destruct (LT inputs 2 (x0, y0)) as [[acc ->]| ->]; [|reflexivity]. cbn [obind].
  unfold finish, pairing_check. intros N.
  repeat match goal with |- context [match read_pair ?e ?c ?l with _ => _ end] => destruct (read_pair e c l) as [[]|] end; try reflexivity.
  exfalso. eapply N. cbn [obind]. reflexivity.
Qed.

(** ** y coordinates only count modulo q *)
Lemma NegateY_shift : forall y, NegateY (y + q_mod) = NegateY y.
Proof.
  intros y. rewrite !NegateY_eq. f_equal. replace (y + q_mod) with (y + 1 * q_mod) by ring. apply Z.mod_add. discriminate.
Qed.
Lemma contract_shift : forall E C v abc inputs a0 a1 b0 b1 b2 b3 c0 c1,
  Verify E C v abc [a0; a1; b0; b1; b2; b3; c0; c1 + q_mod] inputs = Verify E C v abc [a0; a1; b0; b1; b2; b3; c0; c1] inputs.
Proof.
  intros. rewrite !Verify_eq. unfold finish. cbn [nth]. rewrite NegateY_shift. reflexivity.
Qed.

(** ** the instance *)
Lemma half_bounds : 0 < half /\ p_mod = 2 * half + 1 /\ p_mod < q_mod.
Proof. split; [reflexivity|]. split; reflexivity. Qed.
Lemma exp_eip : eip_codec expE (fun _ => True) (fun _ => True) exp_codec.
Proof.
  pose proof half_bounds as [Hh [Hp Hq]].
  assert (ED : forall g, exp_enc1 g = (0, if fval g <=? half then fval g else q_mod - (p_mod - fval g))) by reflexivity.
  constructor; cbn [expE exp_codec dec1 enc1 dec2 G1 G2 g1_zero g1_sub].
  - intros x y g. unfold exp_dec1. rewrite ED. pose proof (fval_range g) as R. split.
    + destruct (Z.eqb_spec x 0) as [->|]; [|discriminate]. cbn [negb].
      destruct (Z.leb_spec 0 y), (Z.leb_spec y half); cbn [andb].
      * intros H1. assert (g = Fof y) as -> by congruence. rewrite fval_Fof_small in * by lia.
        rewrite (proj2 (Z.leb_le y half)) by lia. repeat split; lia || exact I.
      * destruct (Z.leb_spec (q_mod - half) y), (Z.ltb_spec y q_mod); cbn [andb]; try discriminate.
        intros H3. assert (g = Fof (y - q_mod)) as -> by congruence.
        assert (V : fval (Fof (y - q_mod)) = y - q_mod + p_mod).
        { rewrite fval_Fof. rewrite <- (Z.mod_add _ 1) by lia. rewrite Z.mul_1_l. apply Z.mod_small. lia. }
        rewrite V. destruct (Z.leb_spec (y - q_mod + p_mod) half); [lia|]. repeat split; try lia. f_equal. lia.
      * destruct (Z.leb_spec (q_mod - half) y); [lia|]. discriminate.
      * lia.
    + intros [Hx [Hy [_ HE]]]. pose proof (f_equal fst HE) as F0. pose proof (f_equal snd HE) as F1'. cbn [fst snd] in F0, F1'. subst x.
      rewrite Z.eqb_refl. cbn [negb]. destruct (Z.leb_spec (fval g) half).
      * subst y. rewrite (proj2 (Z.leb_le 0 (fval g))) by lia. rewrite (proj2 (Z.leb_le (fval g) half)) by lia. cbn [andb]. now rewrite Fof_fval.
      * assert (H1 : (y <=? half) = false) by (apply Z.leb_gt; lia). rewrite H1, andb_false_r.
        rewrite (proj2 (Z.leb_le (q_mod - half) y)) by lia. rewrite (proj2 (Z.ltb_lt y q_mod)) by lia. cbn [andb]. f_equal.
        apply fval_inj. rewrite fval_Fof. rewrite <- (Z.mod_add _ 1) by lia. rewrite Z.mul_1_l. rewrite Z.mod_small by lia. lia.
  - intros g _. rewrite ED. cbn [fst snd]. pose proof (fval_range g). destruct (Z.leb_spec (fval g) half); lia.
  - reflexivity.
  - intros g _. rewrite ED. cbn [snd]. pose proof (fval_range g). intros H0. apply fval_inj. change (fval F0) with 0.
    destruct (Z.leb_spec (fval g) half); lia.
  - intros g _ N. rewrite !ED. cbn [fst snd]. pose proof (fval_range g) as R.
    assert (NZ : fval g <> 0) by (intros K; apply N; apply fval_inj; exact K).
    assert (V : fval (Fsub F0 g) = p_mod - fval g).
    { replace (Fsub F0 g) with (Fof (p_mod - fval g)); [apply fval_Fof_small; lia|].
      rewrite <- (Fof_fval g) at 2. change F0 with (Fof 0). rewrite <- Fof_sub. apply Fof_eq_iff.
      replace (p_mod - fval g) with (0 - fval g + 1 * p_mod) by ring. apply Z.mod_add. lia. }
    rewrite V. f_equal. destruct (Z.leb_spec (fval g) half), (Z.leb_spec (p_mod - fval g) half); lia.
  - intros. exact I.
Qed.

Definition ex_vk : list Z := [0; 1; 0; 0; 0; 2; 0; 0; 0; 2; 0; 0; 0; 2].
Definition ex_abc : list (Z * Z) := [(0, 1); (0, 3)].
Lemma ex_vk_words : vk_words expE exp_codec ex_vk (Fof 1) (Fof 2) (Fof 2) (Fof 2).
Proof.
  exists 0, 1, 0, 0, 0, 2, 0, 0, 0, 2, 0, 0, 0, 2. repeat split.
Qed.
Lemma ex_abc_reads : reads expE exp_codec ex_abc [Fof 1; Fof 3].
Proof. constructor; [reflexivity|]. constructor; [reflexivity|]. constructor. Qed.
Lemma ex_proof_words : forall a c, 0 <= a <= half -> 0 <= c <= half ->
  proof_words expE exp_codec [0; a; 0; 0; 0; 2; 0; c] (Fof a) (Fof 2) (Fof c).
Proof.
  intros a c Ha Hc. pose proof half_bounds as [Hh [Hp Hq]].
  assert (D : forall y, 0 <= y <= half -> dec1 expE exp_codec 0 y = Some (Fof y)).
  { intros y Hy. cbn [exp_codec dec1]. unfold exp_dec1. change (negb (0 =? 0)) with false. cbv iota.
    rewrite (proj2 (Z.leb_le 0 y)), (proj2 (Z.leb_le y half)) by lia. reflexivity. }
  exists 0, a, 0, 0, 0, 2, 0, c. split; [reflexivity|]. split; [now apply D|]. split; [reflexivity|].
  rewrite Z.mod_small by lia. now apply D.
Qed.

(** the point at infinity as C: accepted natively, but the call of the contract reverts *)
Lemma infinity_refuted : exists E S1 S2 C v abc w inputs al be ga de ic0 ics A B Cc,
  pairing_laws E S1 S2 /\ eip_codec E S1 S2 C /\
  vk_words E C v al be ga de /\ reads E C abc (ic0 :: ics) /\ proof_words E C w A B Cc /\
  Forall (fun s => 0 <= s < p_mod) inputs /\ List.length inputs = List.length ics /\ Z.of_nat (List.length inputs) < wsize - 1 /\
  verifier_strong_IC E (VK E al be ga de (ic0, ics)) (map Fof inputs) (Proof_ E A B Cc) = Ok true /\
  Verify E C v (flat_points abc) w inputs = Throw.
Proof.
  exists expE, (fun _ => True), (fun _ => True), exp_codec, ex_vk, ex_abc, [0; 5; 0; 0; 0; 2; 0; 0], [1],
    (Fof 1), (Fof 2), (Fof 2), (Fof 2), (Fof 1), [Fof 3], (Fof 5), (Fof 2), (Fof 0).
  split; [exact expE_laws|]. split; [exact exp_eip|]. split; [exact ex_vk_words|]. split; [exact ex_abc_reads|].
  split; [apply ex_proof_words; split; discriminate|].
  assert (HF : Forall (fun s => 0 <= s < p_mod) [1]) by (constructor; [split; [discriminate|reflexivity]|constructor]).
  split; [exact HF|]. split; [reflexivity|]. split; [reflexivity|].
  split; [vm_compute; reflexivity|].
  destruct (contract_decides expE _ _ exp_codec expE_laws exp_eip ex_vk ex_abc [0; 5; 0; 0; 0; 2; 0; 0] [1]
    (Fof 1) (Fof 2) (Fof 2) (Fof 2) (Fof 1) [Fof 3] (Fof 5) (Fof 2) (Fof 0)) as [_ K];
    [exact ex_vk_words|exact ex_abc_reads|apply ex_proof_words; split; discriminate|exact HF|reflexivity|reflexivity|].
  apply K. right. left. reflexivity.
Qed.
(** two encodings of the same proof are accepted *)
Lemma encoding_refuted : exists E S1 S2 C v abc w w' inputs A B Cc,
  pairing_laws E S1 S2 /\ eip_codec E S1 S2 C /\ Forall is_word w /\ Forall is_word w' /\ w <> w' /\
  proof_words E C w A B Cc /\ proof_words E C w' A B Cc /\
  Verify E C v abc w inputs = Ok true /\ Verify E C v abc w' inputs = Ok true.
Proof.
  exists expE, (fun _ => True), (fun _ => True), exp_codec, ex_vk, (flat_points ex_abc),
    [0; 6; 0; 0; 0; 2; 0; 1], [0; 6; 0; 0; 0; 2; 0; 1 + q_mod], [1], (Fof 6), (Fof 2), (Fof 1).
  split; [exact expE_laws|]. split; [exact exp_eip|].
  split; [repeat (constructor; [split; [discriminate|reflexivity]|]); constructor|].
  split; [repeat (constructor; [split; [discriminate|reflexivity]|]); constructor|].
  split; [discriminate|].
  split; [apply ex_proof_words; split; discriminate|].
  split. { destruct (ex_proof_words 6 1) as (p0 & p1 & r0 & r1 & r2 & r3 & s0 & s1 & Ew & H); [split; discriminate|split; discriminate|].
    exists p0, p1, r0, r1, r2, r3, s0, (s1 + q_mod). split; [congruence|].
    replace (s1 + q_mod) with (s1 + 1 * q_mod) by ring. rewrite Z.mod_add by discriminate. exact H. }
  rewrite contract_shift.
  assert (K : Verify expE exp_codec ex_vk (flat_points ex_abc) [0; 6; 0; 0; 0; 2; 0; 1] [1] = Ok true) by (vm_compute; reflexivity).
  split; exact K.
Qed.
