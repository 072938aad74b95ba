(** Final lemmas about Poseidon (C17). *)
From Coq Require Import List ZArith Bool Arith Lia.
From Verif Require Import Primes Field Base R1CS R1CSFacts Gadget P_Bits P_Mimc M_Bits M_Poseidon Spec_Poseidon Q_OneOfN Q_Shamir P_Poseidon.
Import ListNotations.
Local Open Scope F_scope.

Lemma fill_upds vs : forall s xs, length vs = length xs -> fill s vs xs = Ok (upds s vs xs).
Proof. induction vs as [|v vs IH]; intros s [|x xs] H; try discriminate; [reflexivity|]. cbn. apply IH. now injection H. Qed.

(** the optional layer of output variables *)
Definition tie (outs : list lc) (n : nat) : list constr :=
  map (fun ix => R1 (snd ix) L1 (V (n + fst ix)%nat)) (combine (seq 0 (length outs)) outs).

Lemma tie_omapM outs n : omapM (fun ix => v <- idx (var_array n (length outs)) (fst ix) ;; Ok (R1 (snd ix) L1 (V v)))
    (combine (seq 0 (length outs)) outs) = Ok (tie outs n).
Proof.
  apply omapM_ok. intros [i o] H. apply in_combine_l in H. apply in_seq in H. cbn [fst snd].
  unfold var_array. rewrite (idx_nth _ _ 0%nat) by (rewrite seq_length; lia). rewrite seq_nth by lia. reflexivity.
Qed.

Lemma tie_sat s outs : forall n, sat s (map (fun ix => R1 (snd ix) L1 (V (fst ix))) (combine (seq n (length outs)) outs)) <->
  map (ev s) outs = map s (seq n (length outs)).
Proof.
  induction outs as [|o outs IH]; intros n; [split; [reflexivity|constructor]|].
  cbn [length seq combine map]. rewrite sat_cons, IH. unfold holds, L1. cbn [cA cB cC ev fst snd]. split.
  - intros [H1 H2]. f_equal; [|exact H2]. rewrite <- H1. ring.
  - intros H. split; [|exact (f_equal (@tl F) H)]. pose proof (f_equal (hd F0) H) as H1. cbn [hd] in H1. rewrite H1. ring.
Qed.

Lemma tie_shift outs n : tie outs n = map (fun ix => R1 (snd ix) L1 (V (fst ix))) (combine (seq n (length outs)) outs).
Proof.
  unfold tie. assert (G : forall a, map (fun ix => R1 (snd ix) L1 (V (n + fst ix)%nat)) (combine (seq a (length outs)) outs) =
     map (fun ix => R1 (snd ix) L1 (V (fst ix))) (combine (seq (n + a) (length outs)) outs)).
  { induction outs as [|o outs IH]; intros a; [reflexivity|]. cbn [length seq combine map fst snd]. f_equal.
    rewrite IH. do 3 f_equal. lia. }
  rewrite G. do 3 f_equal. lia.
Qed.

Lemma tie_ok outs n : Forall (lc_all (fun v => v < n)%nat) outs ->
  gadget_ok n (n + length outs) (tie outs n) (fun s => fill s (var_array n (length outs)) (map (ev s) outs))
    (fun _ => True) (fun s => map s (var_array n (length outs)) = map (ev s) outs).
Proof.
  intros Ho. rewrite tie_shift. constructor.
  - lia.
  - apply stable_true.
  - apply cs_all_map. rewrite Forall_forall. intros [i o] H. unfold c_all. cbn [fst snd cA cB cC lc_all L1].
    pose proof (in_combine_l _ _ _ _ H) as H1. apply in_combine_r in H. apply in_seq in H1.
    rewrite Forall_forall in Ho. split; [|split; [exact I|lia]].
    eapply lc_all_impl; [|apply Ho, H]. cbn. intros; lia.
  - intros s _ H. apply tie_sat in H. unfold var_array. now rewrite H.
  - intros s _. rewrite fill_upds by (unfold var_array; now rewrite map_length, seq_length).
    eexists. split; [reflexivity|].
    assert (Hf : frame n (n + length outs) s (upds s (var_array n (length outs)) (map (ev s) outs))).
    { intros v Hv. apply upds_other. rewrite var_array_In. lia. }
    split; [exact Hf|]. apply tie_sat. fold (var_array n (length outs)).
    rewrite upds_map; [|apply seq_NoDup|unfold var_array; now rewrite map_length, seq_length].
    apply map_ext_in. intros o Hin. apply (ev_ext (fun v => v < n)%nat).
    + rewrite Forall_forall in Ho. now apply Ho.
    + intros v Hv. apply Hf. now left.
Qed.

Lemma oseq_one {A} (f : A -> outcome A) a : oseq [f] a = f a.
Proof. cbn. now destruct (f a). Qed.

Lemma back_any {A} (a b c d : list A) f l : back (f :: a ++ b ++ c ++ [l]) = Ok l.
Proof. rewrite app_comm_cons, !app_assoc. apply back_app. Qed.

Lemma obind_assoc {A B C} (x : outcome A) (f : A -> outcome B) (g : B -> outcome C) :
  obind (obind x f) g = obind x (fun a => obind (f a) g).
Proof. now destruct x. Qed.

Lemma poseidon_ok t c Fr P nI nO constrain C M inputs n :
  (4 <= Fr)%nat -> (1 <= P)%nat -> (c <= t)%nat -> (nI <= t)%nat -> (nO <= t)%nat ->
  length C = (Fr + P)%nat -> length M = (t * t)%nat -> length inputs = nI ->
  Forall (fun v => v < n)%nat inputs ->
  exists g n' rs cs, poseidon_new t c Fr P nI nO constrain C M inputs n = Ok (g, n') /\
    poseidon_results g = Ok rs /\ poseidon_constraints g = Ok cs /\ length rs = nO /\
    Forall (lc_all (fun v => v < n')%nat) rs /\
    gadget_ok n n' cs (poseidon_witness g) (fun _ => True)
      (fun s => map (ev s) rs = poseidon_spec t c Fr P nO C M (map s inputs)).
Proof.
  intros HF HP Hc HI HO HC HM Hin Hv.
  assert (H2 : (2 <= Fr / 2)%nat) by (apply Nat.div_le_lower_bound; lia).
  assert (H3 : (2 * (Fr / 2) <= Fr)%nat) by (apply Nat.mul_div_le; lia).
  assert (HvL : Forall (lc_all (fun v => v < n)%nat) (map V inputs)) by (rewrite Forall_map; exact Hv).
  unfold poseidon_new. rewrite (idx_nth C 0 F0) by lia. cbn [obind].
  destruct (pround_ok t t nI t (nth 0 C F0) M (map V inputs) n) as (r1 & c1 & E1 & K1 & L1' & S1 & G1);
    try (rewrite ?map_length; lia); try assumption.
  rewrite E1. cbn [obind]. set (n1 := (n + 3 * t)%nat) in *.
  unfold make_rounds_range at 1. rewrite (proj2 (Nat.ltb_ge _ _)) by lia.
  destruct (make_rounds_ok t t C M) with (cnt := (Fr / 2 - 1)%nat) (i := 1%nat) (state := pr_outputs r1) (n := n1)
    as (rs2 & n2 & c2 & E2 & N2 & K2 & L2 & S2 & G2); try lia; try assumption.
  rewrite E2. cbn [obind]. destruct (back_outputs rs2 (pr_outputs r1)) as (b2 & B2 & O2).
  { intros ->. cbn [length] in N2. lia. }
  rewrite B2. cbn [obind]. rewrite <- O2 in L2, S2, G2.
  unfold make_rounds_range at 1. rewrite (proj2 (Nat.ltb_ge _ _)) by lia.
  replace (Fr / 2 + P - Fr / 2)%nat with P by lia.
  destruct (make_rounds_ok t c C M) with (cnt := P) (i := (Fr / 2)%nat) (state := pr_outputs b2) (n := n2)
    as (rs3 & n3 & c3 & E3 & N3 & K3 & L3 & S3 & G3); try lia; try assumption.
  rewrite E3. cbn [obind]. destruct (back_outputs rs3 (pr_outputs b2)) as (b3 & B3 & O3).
  { intros ->. cbn [length] in N3. lia. }
  rewrite B3. cbn [obind]. rewrite <- O3 in L3, S3, G3.
  unfold make_rounds_range at 1. rewrite (proj2 (Nat.ltb_ge _ _)) by lia.
  destruct (make_rounds_ok t t C M) with (cnt := (Fr + P - 1 - (Fr / 2 + P))%nat) (i := (Fr / 2 + P)%nat) (state := pr_outputs b3) (n := n3)
    as (rs4 & n4 & c4 & E4 & N4 & K4 & L4 & S4 & G4); try lia; try assumption.
  rewrite E4. cbn [obind]. destruct (back_outputs rs4 (pr_outputs b3)) as (b4 & B4 & O4).
  { intros ->. cbn [length] in N4. lia. }
  rewrite (back_last C F0) by (intros ->; cbn [length] in HC; lia). cbn [obind].
  rewrite B4. cbn [obind]. rewrite <- O4 in L4, S4, G4.
  destruct (pround_ok t t t nO (last C F0) M (pr_outputs b4) n4) as (r5 & c5 & E5 & K5 & L5 & S5 & G5); try lia; try assumption.
  rewrite E5. cbn [obind]. set (n5 := (n4 + 3 * t)%nat) in *.
  set (rounds := r1 :: rs2 ++ rs3 ++ rs4 ++ [r5]).
  assert (KR : omapM pround_constraints rounds = Ok (c1 :: c2 ++ c3 ++ c4 ++ [c5])).
  { change (omapM pround_constraints ([r1] ++ (rs2 ++ rs3 ++ rs4 ++ [r5])) = Ok ([c1] ++ (c2 ++ c3 ++ c4 ++ [c5]))).
    repeat apply omapM_app; try assumption; cbn [omapM]; rewrite ?K1, ?K5; reflexivity. }
  assert (BR : back rounds = Ok r5) by (apply (back_any rs2 rs3 rs4 nil)).
  assert (GR : gadget_ok n n5 (concat (c1 :: c2 ++ c3 ++ c4 ++ [c5])) (oseq (map pround_witness rounds)) (fun _ => True)
     (fun s => map (ev s) (pr_outputs r5) = poseidon_spec t c Fr P nO C M (map s inputs))).
  { cbn [concat]. rewrite !concat_app. cbn [concat]. rewrite app_nil_r.
    pose proof (gadget_seq _ _ _ _ _ _ _ _ _ _ _ (fun s => map (ev s) (pr_outputs r5) =
      firstn nO (round_spec t t M (last C F0) (fold_left (fun st i => round_spec t t M (nth i C F0) st) (seq (Fr / 2 + P) (Fr + P - 1 - (Fr / 2 + P))) (map (ev s) (pr_outputs b3))))) G4 G5 (fun _ _ _ => I)) as G45.
    assert (G45' := G45). clear G45.
    assert (X : forall s, True -> map (ev s) (pr_outputs b4) = fold_left (fun st i => round_spec t t M (nth i C F0) st) (seq (Fr / 2 + P) (Fr + P - 1 - (Fr / 2 + P))) (map (ev s) (pr_outputs b3)) ->
        map (ev s) (pr_outputs r5) = firstn nO (round_spec t t M (last C F0) (pad t (firstn t (map (ev s) (pr_outputs b4))))) ->
        map (ev s) (pr_outputs r5) = firstn nO (round_spec t t M (last C F0) (fold_left (fun st i => round_spec t t M (nth i C F0) st) (seq (Fr / 2 + P) (Fr + P - 1 - (Fr / 2 + P))) (map (ev s) (pr_outputs b3))))).
    { intros s _ A B. rewrite B, <- A. do 2 f_equal. rewrite firstn_all2 by (rewrite map_length; lia).
      apply pad_full. rewrite map_length. exact L4. }
    specialize (G45' X).
    eapply gadget_ext;
      [eapply gadget_seq with (R := fun s => map (ev s) (pr_outputs r5) = poseidon_spec t c Fr P nO C M (map s inputs));
        [exact G1|
         eapply gadget_seq with (R := fun s => map (ev s) (pr_outputs r5) =
            firstn nO (round_spec t t M (last C F0)
             (fold_left (fun st i => round_spec t t M (nth i C F0) st) (seq (Fr / 2 + P) (Fr + P - 1 - (Fr / 2 + P)))
              (fold_left (fun st i => round_spec t c M (nth i C F0) st) (seq (Fr / 2) P)
               (fold_left (fun st i => round_spec t t M (nth i C F0) st) (seq 1 (Fr / 2 - 1)) (map (ev s) (pr_outputs r1)))))));
          [exact G2|
           eapply gadget_seq with (R := fun s => map (ev s) (pr_outputs r5) =
            firstn nO (round_spec t t M (last C F0)
             (fold_left (fun st i => round_spec t t M (nth i C F0) st) (seq (Fr / 2 + P) (Fr + P - 1 - (Fr / 2 + P)))
              (fold_left (fun st i => round_spec t c M (nth i C F0) st) (seq (Fr / 2) P) (map (ev s) (pr_outputs b2))))));
            [exact G3|exact G45'|tauto|]
          |tauto|]
        |tauto|]|].
    - cbn beta. intros s _ A B. now rewrite B, A.
    - cbn beta. intros s _ A B. now rewrite B, A.
    - cbn beta. intros s _ A B. rewrite B, A. unfold poseidon_spec. rewrite (schedule t c Fr P C M) by assumption.
      rewrite (firstn_all2 (round_spec t t M (nth 0 C F0) _)) by (rewrite round_spec_length; lia).
      rewrite (firstn_all2 (n := nI)) by (rewrite !map_length; lia).
      rewrite map_map. reflexivity.
    - intros s. unfold rounds. cbn [map]. rewrite oseq_cons. destruct (pround_witness r1 s) as [s1| | | |]; cbn [obind]; try reflexivity.
      rewrite !map_app. rewrite oseq_app. destruct (oseq (map pround_witness rs2) s1) as [s2| | | |]; cbn [obind]; try reflexivity.
      rewrite oseq_app. destruct (oseq (map pround_witness rs3) s2) as [s3| | | |]; cbn [obind]; try reflexivity.
      rewrite oseq_app. destruct (oseq (map pround_witness rs4) s3) as [s4| | | |]; cbn [obind]; try reflexivity.
      cbn [map]. apply oseq_one. }
  unfold poseidon_results, poseidon_constraints.
  destruct constrain.
  - pose proof (tie_ok (pr_outputs r5) n5 S5) as GT. rewrite L5 in GT.
    eexists _, _, (map V (var_array n5 nO)), _. split; [reflexivity|]. cbn [ps_constrain ps_rounds ps_outvars].
    split; [reflexivity|]. fold rounds. rewrite KR. cbn [obind]. rewrite BR. cbn [obind].
    pose proof (tie_omapM (pr_outputs r5) n5) as TO. rewrite L5 in TO. rewrite L5, TO. cbn [obind]. split; [reflexivity|].
    assert (LV : length (var_array n5 nO) = nO) by apply seq_length. rewrite LV.
    split; [now rewrite map_length|]. split.
    { rewrite Forall_map, Forall_forall. intros v Hin'. apply var_array_In in Hin'. cbn. lia. }
    eapply gadget_ext; [eapply gadget_seq; [exact GR|exact GT|tauto|]|].
    + cbn beta. intros s _ A B. rewrite map_map. cbn [ev]. rewrite <- A, <- B. reflexivity.
    + intros s. unfold poseidon_witness. cbn [ps_constrain ps_rounds ps_outvars]. fold rounds. rewrite BR. reflexivity.
  - eexists _, _, (pr_outputs r5), _. split; [reflexivity|]. cbn [ps_constrain ps_rounds ps_outvars].
    fold rounds. rewrite BR, KR. cbn [obind length]. rewrite Nat.add_0_r. split; [reflexivity|]. split; [reflexivity|].
    split; [exact L5|]. split; [exact S5|].
    eapply gadget_ext; [exact GR|]. intros s. unfold poseidon_witness. cbn [ps_constrain ps_rounds].
    fold rounds. destruct (oseq (map pround_witness rounds) s); reflexivity.
Qed.

(** ** statements used in Prop_Poseidon *)
Lemma poseidon_gadget_lemma t c Fr P nI nO constrain C M inputs n :
  (4 <= Fr)%nat -> (1 <= P)%nat -> (c <= t)%nat -> (nI <= t)%nat -> (nO <= t)%nat ->
  length C = (Fr + P)%nat -> length M = (t * t)%nat -> length inputs = nI ->
  Forall (fun v => v < n)%nat inputs ->
  exists g n' rs cs, poseidon_new t c Fr P nI nO constrain C M inputs n = Ok (g, n') /\
    poseidon_results g = Ok rs /\ poseidon_constraints g = Ok cs /\
    (forall s, sat s cs -> map (ev s) rs = poseidon_spec t c Fr P nO C M (map s inputs)) /\
    (forall s, exists s', poseidon_witness g s = Ok s' /\ sat s' cs /\
       (forall v, (v < n)%nat -> s' v = s v) /\
       map (ev s') rs = poseidon_spec t c Fr P nO C M (map s inputs)).
Proof.
  intros HF HP Hc HI HO HC HM Hin Hv.
  destruct (poseidon_ok t c Fr P nI nO constrain C M inputs n) as (g & n' & rs & cs & E & R & K & _ & _ & G); try assumption.
  exists g, n', rs, cs. repeat (split; [assumption|]). split.
  - intros s Hs. exact (go_sound _ _ _ _ _ _ G s I Hs).
  - intros s. destruct (go_complete _ _ _ _ _ _ G s I) as (s' & W & Hf & Hs). exists s'. split; [exact W|]. split; [exact Hs|].
    assert (Hb : forall v, (v < n)%nat -> s' v = s v) by (intros v Hlt; apply Hf; now left).
    split; [exact Hb|]. rewrite (go_sound _ _ _ _ _ _ G s' I Hs). f_equal. apply map_ext_in. intros v Hin'.
    apply Hb. rewrite Forall_forall in Hv. now apply Hv.
Qed.

Lemma poseidon_permute_lemma t c Fr P nI nO C M inputs :
  (4 <= Fr)%nat -> (1 <= P)%nat -> (c <= t)%nat -> (nI <= t)%nat -> (nO <= t)%nat ->
  length C = (Fr + P)%nat -> length M = (t * t)%nat -> length inputs = nI ->
  poseidon_permute t c Fr P nI nO C M inputs = Ok (poseidon_spec t c Fr P nO C M inputs).
Proof.
  intros HF HP Hc HI HO HC HM Hin. unfold poseidon_permute. rewrite (proj2 (Nat.eqb_eq _ _) Hin). cbn [oassert obind].
  destruct (poseidon_gadget_lemma t c Fr P nI nO true C M (var_array 1 nI) (S nI)) as (g & n' & rs & cs & E & R & K & _ & W); try assumption.
  { apply seq_length. }
  { rewrite Forall_forall. intros v Hv. apply var_array_In in Hv. lia. }
  rewrite E. cbn [obind].
  destruct (W (upds (fun _ => F0) (var_array 1 nI) inputs)) as (s' & Ws & _ & _ & Ev).
  rewrite Ws. cbn [obind]. rewrite R. cbn [obind]. rewrite Ev. rewrite upds_map; [reflexivity|apply seq_NoDup|].
  unfold var_array. now rewrite seq_length.
Qed.

Lemma poseidon_bad_parameters_lemma t c Fr P nI nO constrain C M inputs n :
  (Fr < 4 \/ P = 0)%nat -> is_ok (poseidon_new t c Fr P nI nO constrain C M inputs n) = false.
Proof.
  intros H. unfold poseidon_new.
  destruct (idx C 0) as [c0| | | |]; try reflexivity. cbn [obind].
  destruct (pround_new _ _ _ _ _ _ _ _) as [[r1 n1]| | | |]; try reflexivity. cbn [obind].
  unfold make_rounds_range at 1. destruct (Nat.ltb_spec (Fr / 2) 1) as [Hlt|Hge]; [reflexivity|].
  destruct (Nat.eq_dec (Fr / 2) 1) as [E1|N1].
  { rewrite E1. reflexivity. }
  assert (HP : P = 0%nat).
  { destruct H as [H|H]; [|exact H]. exfalso.
    assert (Fr / 2 <= 3 / 2)%nat by (apply Nat.div_le_mono; lia). change (3 / 2)%nat with 1%nat in H0. lia. }
  subst P. destruct (make_rounds _ _ _ _ _ _ _ _) as [[rs2 n2]| | | |]; try reflexivity. cbn [obind].
  destruct (back rs2) as [b| | | |]; try reflexivity. cbn [obind].
  unfold make_rounds_range at 1. rewrite Nat.add_0_r, Nat.ltb_irrefl, Nat.sub_diag. reflexivity.
Qed.

Lemma omapM_ub {B} (f : nat -> outcome B) : forall k a j, (a <= j < a + k)%nat -> f j = UB ->
  (forall i, (a <= i < j)%nat -> is_ok (f i) = true) -> omapM f (seq a k) = UB.
Proof.
  induction k as [|k IH]; intros a j Hj Hf Hi; [lia|]. cbn [seq omapM].
  destruct (Nat.eq_dec a j) as [->|Hne]; [now rewrite Hf|].
  specialize (Hi a) as Ha. destruct (f a); try (exfalso; assert (false = true) by (apply Ha; lia); discriminate).
  cbn [obind]. rewrite (IH (S a) j); [reflexivity|lia|exact Hf|]. intros; apply Hi; lia.
Qed.

Lemma make_sboxes_at nS n h : (h < nS)%nat -> idx (make_sboxes nS n) h = Ok (sbox_new (n + 3 * h)).
Proof.
  intros Hh. unfold make_sboxes. apply idx_ok.
  rewrite nth_error_map. rewrite (nth_error_nth' _ 0%nat) by (rewrite seq_length; lia).
  cbn [option_map]. rewrite seq_nth by lia. reflexivity.
Qed.

Lemma poseidon_short_inputs_lemma t c Fr P nI nO constrain C M inputs n g n' :
  (length inputs < nI)%nat ->
  poseidon_new t c Fr P nI nO constrain C M inputs n = Ok (g, n') -> poseidon_constraints g = UB.
Proof.
  intros Hs. unfold poseidon_new.
  destruct (idx C 0) as [c0| | | |]; try discriminate. cbn [obind].
  unfold pround_new at 1.
  destruct (omapM _ (seq 0 t)) as [outs| | | |]; try discriminate. cbn [obind].
  destruct (Nat.leb_spec nI t) as [HI|]; [|discriminate]. rewrite Nat.leb_refl. cbn [oassert obind].
  set (r1 := {| pr_nS := t |}).
  destruct (make_rounds_range _ _ 1 _ _ _ _ _) as [[rs2 n2]| | | |]; try discriminate. cbn [obind].
  destruct (back rs2) as [b2| | | |]; try discriminate. cbn [obind].
  destruct (make_rounds_range _ c _ _ _ _ _ _) as [[rs3 n3]| | | |]; try discriminate. cbn [obind].
  destruct (back rs3) as [b3| | | |]; try discriminate. cbn [obind].
  destruct (make_rounds_range _ _ _ _ _ _ _ _) as [[rs4 n4]| | | |]; try discriminate. cbn [obind].
  destruct (back C) as [cl| | | |]; try discriminate. cbn [obind].
  destruct (back rs4) as [b4| | | |]; try discriminate. cbn [obind].
  destruct (pround_new _ _ _ _ _ _ _ _) as [[r5 n5]| | | |]; try discriminate. cbn [obind].
  intros H. apply Ok_inj in H. apply (f_equal fst) in H. cbn [fst] in H. subst g.
  unfold poseidon_constraints. cbn [ps_rounds omapM].
  assert (E : pround_constraints r1 = UB); [|now rewrite E].
  unfold pround_constraints, r1. cbn [pr_nS pr_nI pr_C pr_state pr_sboxes].
  rewrite (omapM_ub _ t 0 (length inputs)); [reflexivity|lia| |].
  - rewrite make_sboxes_at by lia. cbn [obind]. rewrite (proj2 (Nat.ltb_lt _ _) Hs).
    unfold idx. rewrite (proj2 (nth_error_None _ _)); [reflexivity|]. rewrite map_length. lia.
  - intros i Hi. rewrite make_sboxes_at by lia. cbn [obind]. rewrite (proj2 (Nat.ltb_lt _ _)) by lia.
    rewrite (idx_nth _ _ L0) by (rewrite map_length; lia). reflexivity.
Qed.
