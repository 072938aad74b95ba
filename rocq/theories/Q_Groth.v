(** Groth16: completeness, the abort condition of the prover, the verifier's decision. *)
From Coq Require Import List ZArith Bool Arith Lia.
From Verif Require Import Field Base R1CS R1CSFacts M_Point M_Groth Spec_Groth P_Groth P_Groth2 P_Groth3.
Import ListNotations.
Local Open Scope nat_scope.
Local Open Scope F_scope.

Lemma satb_sat : forall s cs, satb s cs = true <-> sat s cs.
Proof.
  intros s cs. unfold satb, sat. rewrite forallb_forall, Forall_forall. unfold holdsb, holds.
  split; intros H c I; specialize (H c I).
  - destruct (Feqb_spec (ev s (cA c) * ev s (cB c)) (ev s (cC c))); [assumption|discriminate].
  - rewrite H. apply Feqb_refl.
Qed.
Lemma qap_H_inv : forall check d cs primary aux H, qap_H check d cs primary aux = Ok H ->
  length primary = cs_inputs cs /\ length aux = cs_aux cs /\
  (check = true -> sat (full (primary ++ aux)) (cs_constraints cs)) /\
  H = Hco d cs (primary ++ aux) ++ [F0].
Proof.
  intros check d cs primary aux H Q. unfold qap_H, is_satisfied in Q.
  destruct (Nat.eqb_spec (length primary) (cs_inputs cs)) as [L1|]; [|discriminate Q]. cbn [oassert obind] in Q.
  destruct (Nat.eqb_spec (length primary + length aux) (cs_vars cs)) as [L2|]; [|discriminate Q]. cbn [oassert obind] in Q.
  unfold cs_vars in L2.
  destruct (satb (full (primary ++ aux)) (cs_constraints cs)) eqn:S.
  - rewrite orb_true_r in Q. cbn [oassert obind] in Q. apply ok_inj in Q.
    split; [exact L1|]. split; [lia|]. split; [|symmetry; exact Q]. intros _. apply satb_sat. exact S.
  - destruct check; [discriminate Q|]. cbn [negb orb oassert obind] in Q. apply ok_inj in Q.
    split; [exact L1|]. split; [lia|]. split; [discriminate|symmetry; exact Q].
Qed.
Lemma range_all : forall {A} (l : list A) n, length l = n -> range l 0 n = Ok l.
Proof.
  intros A l n H. unfold range. rewrite (proj2 (Nat.leb_le 0 n)) by lia. rewrite (proj2 (Nat.leb_le n (length l))) by lia.
  cbn [andb skipn]. rewrite Nat.sub_0_r, <- H, firstn_all. reflexivity.
Qed.
Lemma range_skip : forall {A} (l : list A) a b, length l = b -> a <= b -> range l a b = Ok (skipn a l).
Proof.
  intros A l a b H Hl. unfold range. rewrite (proj2 (Nat.leb_le a b)) by lia. rewrite (proj2 (Nat.leb_le b (length l))) by lia.
  cbn [andb]. rewrite <- (skipn_length a l) in * || idtac.
  replace (b - a)%nat with (length (skipn a l)) by (rewrite skipn_length; lia). rewrite firstn_all. reflexivity.
Qed.
Lemma range_front : forall {A} (l : list A) b, b <= length l -> range l 0 b = Ok (firstn b l).
Proof.
  intros A l b H. unfold range. rewrite (proj2 (Nat.leb_le 0 b)) by lia. rewrite (proj2 (Nat.leb_le b (length l))) by lia.
  cbn [andb skipn]. rewrite Nat.sub_0_r. reflexivity.
Qed.
Lemma Hco_length : forall d cs z, length (dm_coset d) = length (dm_points d) -> length (Hco d cs z) = dm_m d.
Proof. intros d cs z H. unfold Hco. rewrite interpolate_length. exact H. Qed.
Lemma peval_trim : forall p n x, length p = S n -> nth n p F0 = F0 -> peval (firstn n p) x = peval p x.
Proof.
  intros p n x Lp Z. rewrite <- (firstn_skipn n p) at 2.
  assert (E : skipn n p = repeat F0 1).
  { destruct (skipn n p) as [|c r] eqn:K; pose proof (f_equal (@length F) K) as KL; rewrite skipn_length in KL; cbn [length] in KL; [lia|].
    destruct r; cbn [length] in KL; [|lia].
    assert (c = F0); [|subst; reflexivity].
    rewrite <- (firstn_skipn n p), app_nth2 in Z by (rewrite firstn_length; lia).
    rewrite K, firstn_length in Z. replace (n - Nat.min n (length p))%nat with 0%nat in Z by lia. exact Z. }
  rewrite E, peval_app0. reflexivity.
Qed.
Lemma firstn_nth_F : forall (l : list F) n, n < length l -> idx l n = Ok (nth n l F0).
Proof. exact idx_nth. Qed.

(** what a run of generator and prover produces, in the exponent *)
Section Run.
Variables (E : pairing) (S1 : G1 E -> Prop) (S2 : G2 E -> Prop).
Hypothesis L : pairing_laws E S1 S2.
Variables (check : bool) (d : domain) (r1cs : csystem) (x : toxic E) (pk : provkey E) (vk : verifkey E).
Variables (primary aux : list F) (r s : F) (pf : gproof E).
Let cs := swap_AB r1cs.
Let z := primary ++ aux.
Let t := tx_t E x.
Let At := peval (interpolate (dm_points d) (wit_A cs z)) t.
Let Bt := peval (interpolate (dm_points d) (wit_B cs z)) t.
Let Ct := peval (interpolate (dm_points d) (wit_C cs z)) t.
Let Ht := peval (Hco d cs z) t.
Let Zt := vanish (dm_points d) t.
Let e1 := fun k => g1_mul E k (tx_g1 E x).
Let e2 := fun k => g2_mul E k (tx_g2 E x).
Hypothesis Hdom : domain_ok d (length (cs_constraints r1cs) + cs_inputs r1cs + 1).
Hypotheses (I1 : S1 (tx_g1 E x)) (I2 : S2 (tx_g2 E x)).
Hypothesis Hgen : generator E d r1cs x = Ok (pk, vk).

Lemma Hdom' : domain_ok d (length (cs_constraints cs) + cs_inputs cs + 1).
Proof using Hdom. unfold cs. destruct (swap_facts r1cs) as [-> [_ ->]]. exact Hdom. Qed.

Lemma run_exponents : prover E check d pk primary aux r s = Ok pf ->
  length primary = cs_inputs cs /\ length aux = cs_aux cs /\ 2 <= dm_m d /\ cs_below cs = true /\
  tx_gamma E x <> F0 /\ tx_delta E x <> F0 /\
  (check = true -> sat (full z) (cs_constraints cs)) /\
  nth (dm_m d - 2) (Hco d cs z) F0 <> F0 /\ nth (dm_m d - 1) (Hco d cs z) F0 = F0 /\
  exists Sp Sa,
    Sp + Sa = tx_beta E x * At + tx_alpha E x * Bt + Ct /\
    let a := tx_alpha E x + At + r * tx_delta E x in
    let b := tx_beta E x + Bt + s * tx_delta E x in
    let c := Zt * Finv (tx_delta E x) * Ht + Sa * Finv (tx_delta E x) + s * a + r * b - r * s * tx_delta E x in
    pf = Proof_ E (e1 a) (e2 b) (e1 c) /\
    accumulate E (vk_gamma_ABC_g1 E vk) primary = e1 (Sp * Finv (tx_gamma E x)) /\
    vk_alpha_g1 E vk = e1 (tx_alpha E x) /\ vk_beta_g2 E vk = e2 (tx_beta E x) /\
    vk_gamma_g2 E vk = e2 (tx_gamma E x) /\ vk_delta_g2 E vk = e2 (tx_delta E x) /\
    length (snd (vk_gamma_ABC_g1 E vk)) = cs_inputs cs.
Proof using All.
  intros P. destruct (generator_inv _ _ _ _ _ _ Hgen) as [Hg [Hd [q [Q [Hpk Hvk]]]]]. fold cs in Q, Hpk, Hvk. fold t in Q, Hpk.
  destruct (qap_shape _ _ _ _ Q) as [La [Lb [Lc [_ [Hz Hb]]]]].
  assert (Dc : length (dm_coset d) = length (dm_points d)) by apply Hdom.
  unfold prover in P. replace (pk_cs E pk) with cs in P by (rewrite Hpk; reflexivity).
  destruct (qap_H check d cs primary aux) as [H| | | |k] eqn:QH; try discriminate P. cbn [obind] in P.
  destruct (qap_H_inv _ _ _ _ _ _ QH) as [Lp [Lx [Hck HH]]]. fold z in HH, Hck.
  destruct (Nat.ltb_spec (dm_m d) 2) as [|Hm]; [discriminate P|].
  pose proof (Hco_length d cs z Dc) as LH.
  assert (LH2 : length H = S (dm_m d)) by (rewrite HH, app_length, LH; cbn [length]; lia).
  rewrite (idx_nth H (dm_m d - 2)) in P by lia. cbn [obind] in P.
  destruct (Feqb_spec (nth (dm_m d - 2) H F0) F0) as [|N2]; [discriminate P|]. cbn [negb oassert obind] in P.
  rewrite (idx_nth H (dm_m d - 1)) in P by lia. cbn [obind] in P.
  destruct (Feqb_spec (nth (dm_m d - 1) H F0) F0) as [N1|]; [|discriminate P]. cbn [oassert obind] in P.
  rewrite (idx_nth H (dm_m d)) in P by lia. cbn [obind] in P.
  destruct (Feqb_spec (nth (dm_m d) H F0) F0) as [N0|]; [|discriminate P]. cbn [oassert obind] in P.
  rewrite HH, app_nth1 in N2 by lia. rewrite HH, app_nth1 in N1 by lia.
  assert (Lz : length z = cs_vars cs) by (unfold z, cs_vars; rewrite app_length; lia).
  rewrite (range_all (pk_A_query E pk)) in P by (rewrite Hpk; cbn [pk_A_query]; rewrite map_length; lia).
  cbn [obind] in P. fold z in P.
  rewrite (range_all (F1 :: z)) in P by (cbn [length]; lia). cbn [obind] in P.
  rewrite (range_all (pk_B_query E pk)) in P by (rewrite Hpk; cbn [pk_B_query]; rewrite map_length; lia). cbn [obind] in P.
  rewrite (range_all (pk_H_query E pk)) in P by (rewrite Hpk; cbn [pk_H_query]; rewrite map_length, powers_length; lia). cbn [obind] in P.
  rewrite (range_front H) in P by lia. cbn [obind] in P.
  rewrite (range_skip (F1 :: z)) in P by (cbn [length]; unfold cs_vars in *; lia). cbn [obind] in P.
  assert (Sk : skipn (cs_inputs cs + 1) (F1 :: z) = aux).
  { rewrite Nat.add_1_r. cbn [skipn]. unfold z. rewrite <- Lp, skipn_app, skipn_all, Nat.sub_diag. reflexivity. }
  rewrite Sk in P.
  rewrite Hpk in P. cbn [pk_A_query pk_B_query pk_H_query pk_L_query pk_alpha_g1 pk_beta_g1 pk_beta_g2 pk_delta_g1 pk_delta_g2] in P.
  rewrite !map_map in P. cbn [fst snd] in P.
  rewrite <- (map_map (fun h => q_Zt q * Finv (tx_delta E x) * h) (fun k => g1_mul E k (tx_g1 E x))) in P.
  rewrite <- (map_map (fun i => Kq q (tx_alpha E x) (tx_beta E x) i * Finv (tx_delta E x)) (fun k => g1_mul E k (tx_g1 E x))) in P.
  rewrite !(mexp1_exp E S1 S2 L _ _ I1 I2), !(mexp2_exp E S1 S2 L _ _ I1 I2) in P.
  rewrite !(e1_mul E S1 S2 L _ _ I1 I2) in P. rewrite !(e2_mul E S1 S2 L _ _ I1 I2) in P.
  rewrite !(e1_add E S1 S2 L _ _ I1 I2) in P. rewrite !(e2_add E S1 S2 L _ _ I1 I2) in P.
  rewrite !(e1_mul E S1 S2 L _ _ I1 I2) in P. rewrite !(e1_add E S1 S2 L _ _ I1 I2) in P. rewrite (e1_sub E S1 S2 L _ _ I1 I2) in P.
  apply ok_inj in P.
  rewrite (qap_A d cs t z Hdom' Hb Lz q Q), (qap_B d cs t z Hdom' Hb Lz q Q) in P.
  fold At in P. fold Bt in P.
  set (K := Kq q (tx_alpha E x) (tx_beta E x)) in *.
  split; [exact Lp|]. split; [exact Lx|]. split; [exact Hm|]. split; [exact Hb|]. split; [exact Hg|]. split; [exact Hd|].
  split; [exact Hck|]. split; [exact N2|]. split; [exact N1|].
  exists (K 0%nat + dot (map K (seq 1 (cs_inputs cs))) primary), (dot (map K (seq (cs_inputs cs + 1) (cs_aux cs))) aux).
  split.
  { transitivity (dot (map K (seq 0 (S (cs_vars cs)))) (F1 :: z)).
    - cbn [seq map dot]. unfold cs_vars, z. rewrite seq_app, map_app, dot_app by (rewrite map_length, seq_length; lia).
      replace (1 + cs_inputs cs)%nat with (cs_inputs cs + 1)%nat by lia. ring.
    - unfold K. rewrite Kq_dot by assumption.
      rewrite (qap_A d cs t z Hdom' Hb Lz q Q), (qap_B d cs t z Hdom' Hb Lz q Q), (qap_C d cs t z Hdom' Hb Lz q Q). reflexivity. }
  assert (Sc : forall (c : F) (f : nat -> F) l v, dot (map (fun i => f i * c) l) v = dot (map f l) v * c).
  { intros c f. induction l as [|i l IH]; intros [|y v]; cbn [map dot]; try ring. rewrite IH. ring. }
  split.
  { rewrite <- P. unfold e1, e2. f_equal. f_equal. rewrite (Sc (Finv (tx_delta E x)) K).
    assert (HZ : dot (map (fun h => q_Zt q * Finv (tx_delta E x) * h) (powers (dm_m d - 1) F1 t)) (firstn (dm_m d - 1) H)
                 = Zt * Finv (tx_delta E x) * Ht).
    { assert (S' : forall c l v, dot (map (fun h => c * h) l) v = c * dot l v).
      { intros c. induction l as [|i l IH]; intros [|y v]; cbn [map dot]; try ring. rewrite IH. ring. }
      rewrite S', powers_dot by (rewrite firstn_length; lia).
      replace (firstn (dm_m d - 1) H) with (firstn (dm_m d - 1) (Hco d cs z)).
      2:{ rewrite HH, firstn_app. replace (dm_m d - 1 - length (Hco d cs z))%nat with 0%nat by lia. rewrite app_nil_r. reflexivity. }
      rewrite peval_trim by (assumption || lia). rewrite Hz. fold Zt. fold Ht. ring. }
    rewrite HZ. ring. }
  rewrite Hvk. cbn [vk_gamma_ABC_g1 vk_alpha_g1 vk_beta_g2 vk_gamma_g2 vk_delta_g2 snd fst].
  split.
  { unfold accumulate. cbn [fst snd]. rewrite (mexp1_exp E S1 S2 L _ _ I1 I2), (e1_add E S1 S2 L _ _ I1 I2), (Sc (Finv (tx_gamma E x)) K).
    unfold e1. f_equal. ring. }
  rewrite !map_length, seq_length. repeat split; reflexivity.
Qed.

(** the verification equation holds when the QAP identity holds at t *)
Lemma run_equation : prover E check d pk primary aux r s = Ok pf ->
  exists a b, pair E (pf_A E pf) (pf_B E pf) = pair E (e1 a) (tx_g2 E x) /\
    gt_mul E (pair E (vk_alpha_g1 E vk) (vk_beta_g2 E vk))
      (gt_mul E (pair E (accumulate E (vk_gamma_ABC_g1 E vk) primary) (vk_gamma_g2 E vk)) (pair E (pf_C E pf) (vk_delta_g2 E vk)))
    = pair E (e1 b) (tx_g2 E x) /\
    a - b = At * Bt - Ct - Zt * Ht.
Proof using All.
  intros P. destruct (run_exponents P) as [Lp [Lx [Hm [Hb [Hg [Hd [Hck [N2 [N1 [Sp [Sa [HS [Hpf [Hacc [-> [-> [-> [-> Lic]]]]]]]]]]]]]]]]]].
  rewrite Hpf, Hacc. cbn [pf_A pf_B pf_C]. unfold e1, e2.
  rewrite !(pair_exp E S1 S2 L _ _ I1 I2), !(pair_prod E S1 S2 L _ _ I1 I2).
  eexists. eexists. split; [reflexivity|]. split; [reflexivity|].
  set (gi := Finv (tx_gamma E x)). set (di := Finv (tx_delta E x)).
  assert (Gi : tx_gamma E x * gi = F1) by (apply Finv_r; exact Hg).
  assert (Di : tx_delta E x * di = F1) by (apply Finv_r; exact Hd).
  set (de := tx_delta E x) in *. set (ga := tx_gamma E x) in *. set (al := tx_alpha E x) in *. set (be := tx_beta E x) in *.
  transitivity (At * Bt - Ct - Zt * Ht * (de * di) + (be * At + al * Bt + Ct - Sp * (ga * gi) - Sa * (de * di))).
  - ring.
  - rewrite Gi, Di, <- HS. ring.
Qed.
Lemma run_wf : prover E check d pk primary aux r s = Ok pf -> is_well_formed E pf = true.
Proof using All.
  intros P. destruct (run_exponents P) as [Lp [Lx [Hm [Hb [Hg [Hd [Hck [N2 [N1 [Sp [Sa [HS [Hpf _]]]]]]]]]]]]].
  rewrite Hpf. unfold is_well_formed. cbn [pf_A pf_B pf_C]. unfold e1, e2.
  rewrite !(l1_wf _ _ _ L) by (apply (e1_in E S1 S2 L _ _ I1 I2)). rewrite (l2_wf _ _ _ L) by (apply (e2_in E S1 S2 L _ _ I1 I2)). reflexivity.
Qed.
Lemma run_strong : prover E check d pk primary aux r s = Ok pf ->
  exists v, verifier_strong_IC E vk primary pf = Ok v /\
    (At * Bt - Ct = Zt * Ht -> v = true) /\
    (nondegenerate E S1 S2 -> (forall k, e1 k = g1_zero E -> k = F0) -> tx_g2 E x <> g2_zero E -> v = true -> At * Bt - Ct = Zt * Ht).
Proof using All.
  intros P. pose proof (run_wf P) as W. destruct (run_equation P) as [a [b [Ea [Eb Ed]]]].
  destruct (run_exponents P) as [Lp [_ [_ [_ [_ [_ [_ [_ [_ [Sp [Sa [_ [_ [_ [_ [_ [_ [_ Lic]]]]]]]]]]]]]]]]]].
  unfold verifier_strong_IC. replace (length (snd (vk_gamma_ABC_g1 E vk)) =? length primary)%nat with true.
  2:{ symmetry. apply Nat.eqb_eq. lia. }
  cbn [negb].
  destruct (weak_decides E S1 S2 L vk primary pf) as [v [Ev Hv]]; [lia|].
  exists v. split; [exact Ev|]. rewrite Hv. unfold groth_equation. rewrite Ea, Eb. split.
  - intros Hq. split; [exact W|].
    assert (K : a - b = F0) by (rewrite Ed, Hq; ring). apply (proj1 (Fsub_eq0 _ _)) in K. rewrite K. reflexivity.
  - intros ND Z1 Z2 [_ K].
    apply ND in K; [|apply (e1_in E S1 S2 L _ _ I1 I2)|apply (e1_in E S1 S2 L _ _ I1 I2)|exact I2|exact Z2].
    assert (K2 : e1 (a - b) = g1_zero E).
    { unfold e1 in K |- *. rewrite <- (e1_sub E S1 S2 L _ _ I1 I2), K, (e1_sub E S1 S2 L _ _ I1 I2).
      replace (b - b) with F0 by ring. apply (l1_mul0 _ _ _ L). exact I1. }
    apply Z1 in K2. rewrite Ed in K2. apply (proj1 (Fsub_eq0 _ _)) in K2. exact K2.
Qed.
End Run.

(** ** completeness *)
Lemma groth_complete : forall E S1 S2 check d cs x pk vk primary aux r s pf,
  pairing_laws E S1 S2 -> S1 (tx_g1 E x) -> S2 (tx_g2 E x) ->
  domain_ok d (length (cs_constraints cs) + cs_inputs cs + 1) ->
  satisfies cs primary aux ->
  generator E d cs x = Ok (pk, vk) ->
  prover E check d pk primary aux r s = Ok pf ->
  verifier_strong_IC E vk primary pf = Ok true.
Proof.
  intros E S1 S2 check d cs x pk vk primary aux r s pf L I1 I2 D Sa G P.
  destruct (run_strong E S1 S2 L check d cs x pk vk primary aux r s pf D I1 I2 G P) as [v [Ev [Hv _]]].
  rewrite Ev. f_equal. apply Hv.
  destruct (run_exponents E S1 S2 L check d cs x pk vk primary aux r s pf D I1 I2 G P) as [Lp [Lx [Hm [Hb _]]]].
  assert (Lz : length (primary ++ aux) = cs_vars (swap_AB cs)) by (unfold cs_vars; rewrite app_length; lia).
  destruct (Hco_quotient d (swap_AB cs) F0 (primary ++ aux) (Hdom' d cs D)) as [q [EH [_ [_ Hq]]]]; [exact Hb|exact Lz|exact Hm| |].
  - apply swap_sat. destruct Sa as [_ [_ Sa]]. exact Sa.
  - rewrite Hq. rewrite EH. change [F0] with (repeat F0 1). rewrite peval_app0. reflexivity.
Qed.

(** ** when the prover aborts *)
Lemma poly_at_peval : forall p x, poly_at p x = peval p x.
Proof. induction p as [|c p IH]; intros x; [reflexivity|]. cbn [poly_at fold_right peval]. rewrite <- IH. reflexivity. Qed.
Lemma interpolates_unique : forall d vals f p, NoDup (dm_points d) ->
  (forall i, i < length (dm_points d) -> nth i vals F0 = f i) ->
  interpolates d f p -> p = interpolate (dm_points d) vals.
Proof.
  intros d vals f p N Hv [Lp Hp]. apply (agree_eq (dm_points d)); [exact N|exact Lp|apply interpolate_length|].
  intros x Hx. apply (In_nth _ _ F0) in Hx. destruct Hx as [i [Li <-]].
  rewrite interpolate_at by assumption. rewrite <- poly_at_peval, Hp, Hv by exact Li. reflexivity.
Qed.
Lemma A_values : forall cs primary aux i, length primary = cs_inputs cs ->
  nth i (wit_A cs (primary ++ aux)) F0 = A_value cs primary aux i.
Proof.
  intros cs primary aux i Lp. unfold wit_A, A_value.
  destruct (nth_error (cs_constraints cs) i) as [c|] eqn:N.
  - assert (Li : i < length (cs_constraints cs)) by (apply nth_error_Some; congruence).
    rewrite app_nth1 by (rewrite map_length; exact Li).
    apply (map_nth_error (fun c => ev (full (primary ++ aux)) (cA c))) in N. apply nth_error_nth with (d := F0) in N. exact N.
  - apply nth_error_None in N. rewrite app_nth2 by (rewrite map_length; exact N). rewrite map_length.
    rewrite <- Lp, firstn_app, Nat.sub_diag, firstn_all, firstn_O, app_nil_r. reflexivity.
Qed.
Lemma B_values : forall cs primary aux i,
  nth i (wit_B cs (primary ++ aux)) F0 = B_value cs primary aux i.
Proof.
  intros cs primary aux i. unfold wit_B, B_value.
  destruct (nth_error (cs_constraints cs) i) as [c|] eqn:N.
  - apply (map_nth_error (fun c => ev (full (primary ++ aux)) (cB c))) in N. apply nth_error_nth with (d := F0) in N. exact N.
  - apply nth_error_None in N. apply nth_overflow. rewrite map_length. exact N.
Qed.
Lemma satisfies_swap : forall cs primary aux, satisfies cs primary aux ->
  is_satisfied (swap_AB cs) primary aux = Ok true.
Proof.
  intros cs primary aux [Lp [Lx Sa]]. unfold is_satisfied, cs_vars. destruct (swap_facts cs) as [-> [-> _]].
  rewrite Lp, Lx, !Nat.eqb_refl. cbn [oassert obind]. f_equal. apply satb_sat. apply swap_sat. exact Sa.
Qed.
Lemma prover_decides : forall E check d cs x pk vk primary aux r s,
  domain_ok d (length (cs_constraints cs) + cs_inputs cs + 1) -> 2 <= length (dm_points d) ->
  satisfies cs primary aux -> generator E d cs x = Ok (pk, vk) ->
  exists pf, prover E check d pk primary aux r s =
    if Feqb (last (interpolate (dm_points d) (wit_A (swap_AB cs) (primary ++ aux))) F0 *
             last (interpolate (dm_points d) (wit_B (swap_AB cs) (primary ++ aux))) F0) F0 then Abort else Ok pf.
Proof.
  intros E check d r1cs x pk vk primary aux r s Hdom Hm Sa Hgen.
  destruct (generator_inv _ _ _ _ _ _ Hgen) as [Hg [Hd [q [Q [Hpk Hvk]]]]].
  pose proof (satisfies_swap _ _ _ Sa) as IS. destruct Sa as [Lp0 [Lx0 Sa]].
  pose proof (swap_facts r1cs) as SF.
  assert (Ss : sat (full (primary ++ aux)) (cs_constraints (swap_AB r1cs))) by (apply swap_sat; exact Sa).
  pose proof (Hdom' d r1cs Hdom) as HD.
  set (cs := swap_AB r1cs) in *. destruct SF as [SF1 [SF2 _]].
  assert (Lp : length primary = cs_inputs cs) by congruence. assert (Lx : length aux = cs_aux cs) by congruence.
  destruct (qap_shape _ _ _ _ Q) as [La [Lb [Lc [_ [Hz Hb]]]]].
  assert (Dc : length (dm_coset d) = length (dm_points d)) by apply Hdom.
  assert (Lz : length (primary ++ aux) = cs_vars cs) by (unfold cs_vars; rewrite app_length; lia).
  unfold prover. replace (pk_cs E pk) with cs by (rewrite Hpk; reflexivity).
  unfold qap_H. rewrite IS. cbn [obind]. rewrite orb_true_r. cbn [oassert obind].
  change (interpolate (dm_coset d) _) with (Hco d cs (primary ++ aux)).
  pose proof (Hco_length d cs (primary ++ aux) Dc) as LH.
  destruct (Hco_quotient d cs F0 (primary ++ aux) HD Hb Lz Hm Ss) as [h [EH [Lh [Th _]]]].
  set (H := Hco d cs (primary ++ aux) ++ [F0]).
  assert (LH2 : length H = S (dm_m d)) by (unfold H; rewrite app_length, LH; cbn [length]; lia).
  change (length (dm_points d)) with (dm_m d) in Hm.
  destruct (Nat.ltb_spec (dm_m d) 2) as [|_]; [lia|].
  rewrite (idx_nth H (dm_m d - 2)) by lia. cbn [obind].
  assert (E2 : nth (dm_m d - 2) H F0 = last (interpolate (dm_points d) (wit_A cs (primary ++ aux))) F0 * last (interpolate (dm_points d) (wit_B cs (primary ++ aux))) F0).
  { rewrite <- Th. unfold H. rewrite EH, <- app_assoc, app_nth1 by lia. rewrite last_nth. f_equal. lia. }
  assert (E1 : nth (dm_m d - 1) H F0 = F0).
  { unfold H. rewrite EH, <- app_assoc, app_nth2 by lia. rewrite Lh, Nat.sub_diag. reflexivity. }
  assert (E0 : nth (dm_m d) H F0 = F0).
  { unfold H. rewrite app_nth2 by lia. rewrite LH, Nat.sub_diag. reflexivity. }
  rewrite E2. destruct (Feqb _ F0).
  { exists (Proof_ E (g1_zero E) (g2_zero E) (g1_zero E)). reflexivity. }
  cbn [negb oassert obind]. rewrite (idx_nth H (dm_m d - 1)) by lia. cbn [obind]. rewrite E1, Feqb_refl. cbn [oassert obind].
  rewrite (idx_nth H (dm_m d)) by lia. cbn [obind]. rewrite E0, Feqb_refl. cbn [oassert obind].
  rewrite (range_all (pk_A_query E pk)) by (rewrite Hpk; cbn [pk_A_query]; rewrite map_length; lia). cbn [obind].
  rewrite (range_all (F1 :: primary ++ aux)) by (cbn [length]; lia). cbn [obind].
  rewrite (range_all (pk_B_query E pk)) by (rewrite Hpk; cbn [pk_B_query]; rewrite map_length; lia). cbn [obind].
  rewrite (range_all (pk_H_query E pk)) by (rewrite Hpk; cbn [pk_H_query]; rewrite map_length, powers_length; lia). cbn [obind].
  rewrite (range_front H) by lia. cbn [obind].
  rewrite (range_skip (F1 :: primary ++ aux)) by (cbn [length]; unfold cs_vars in *; lia). cbn [obind].
  eexists. reflexivity.
Qed.
Lemma prover_abort_iff : forall E check d cs x pk vk primary aux r s A B,
  domain_ok d (length (cs_constraints cs) + cs_inputs cs + 1) -> 2 <= length (dm_points d) ->
  satisfies cs primary aux -> generator E d cs x = Ok (pk, vk) ->
  interpolates d (A_value (pk_cs E pk) primary aux) A -> interpolates d (B_value (pk_cs E pk) primary aux) B ->
  (top A = F0 \/ top B = F0 -> prover E check d pk primary aux r s = Abort) /\
  (top A <> F0 -> top B <> F0 -> exists pf, prover E check d pk primary aux r s = Ok pf).
Proof.
  intros E check d cs x pk vk primary aux r s A B D M Sa G IA IB.
  destruct (prover_decides E check d cs x pk vk primary aux r s D M Sa G) as [pf P].
  destruct (generator_inv _ _ _ _ _ _ G) as [_ [_ [q [_ [Hpk _]]]]].
  assert (Ecs : pk_cs E pk = swap_AB cs) by (rewrite Hpk; reflexivity). rewrite Ecs in IA, IB.
  assert (N : NoDup (dm_points d)) by apply D. destruct Sa as [Lp [Lx _]].
  assert (Lp' : length primary = cs_inputs (swap_AB cs)) by (destruct (swap_facts cs) as [-> _]; exact Lp).
  apply (interpolates_unique d (wit_A (swap_AB cs) (primary ++ aux))) in IA; [|exact N|intros; apply A_values; exact Lp'].
  apply (interpolates_unique d (wit_B (swap_AB cs) (primary ++ aux))) in IB; [|exact N|intros; apply B_values].
  rewrite <- IA, <- IB in P. unfold top. split.
  - intros K. rewrite P. replace (last A F0 * last B F0) with F0; [rewrite Feqb_refl; reflexivity|].
    destruct K as [-> | ->]; ring.
  - intros KA KB. exists pf. rewrite P. destruct (Feqb_spec (last A F0 * last B F0) F0) as [K|]; [|reflexivity].
    apply Fmul_integral in K. tauto.
Qed.

(** a satisfied system on which the prover aborts, for every key and randomness: x * y = 0 with
    x = y = 0 *)
Definition xy_system : csystem := CSys 1 1 [R1 (V 1) (V 2) L0].
Lemma xy_aborts : forall E check d x pk vk r s,
  domain_ok d 3 -> generator E d xy_system x = Ok (pk, vk) -> prover E check d pk [F0] [F0] r s = Abort.
Proof.
  intros E check d x pk vk r s D G.
  assert (Sa : satisfies xy_system [F0] [F0]).
  { split; [reflexivity|]. split; [reflexivity|]. cbn [xy_system cs_constraints]. constructor; [|constructor].
    unfold holds. cbn [cA cB cC ev nth app]. unfold L0. cbn [ev]. ring. }
  assert (M : 2 <= length (dm_points d)) by (destruct D as [D _]; lia).
  destruct (prover_decides E check d xy_system x pk vk [F0] [F0] r s D M Sa G) as [pf P]. rewrite P.
  assert (Z : Forall (fun c => c = F0) (interpolate (dm_points d) (wit_B (swap_AB xy_system) [F0; F0]))).
  { apply (roots_zero (dm_points d)); [apply D|rewrite interpolate_length; lia|].
    intros y Hy. apply (In_nth _ _ F0) in Hy. destruct Hy as [i [Li <-]]. rewrite interpolate_at by (apply D || exact Li).
    unfold wit_B. change (swap_AB xy_system) with xy_system. cbn [xy_system cs_constraints map cB ev full].
    unfold full. cbn [nth]. destruct i as [|[|i]]; reflexivity. }
  replace (last (interpolate (dm_points d) (wit_B (swap_AB xy_system) ([F0] ++ [F0]))) F0) with F0.
  2:{ symmetry. change ([F0] ++ [F0]) with [F0; F0]. clear - Z. induction Z as [|c l -> Z IH]; [reflexivity|]. destruct l; [reflexivity|exact IH]. }
  replace (_ * F0) with F0 by ring. rewrite Feqb_refl. reflexivity.
Qed.

(** ** the verifier *)
Lemma strong_decides : forall E S1 S2, pairing_laws E S1 S2 -> forall vk input pf,
  exists b, verifier_strong_IC E vk input pf = Ok b /\
    (b = true <-> length input = length (snd (vk_gamma_ABC_g1 E vk)) /\
       g1_wf E (pf_A E pf) = true /\ g2_wf E (pf_B E pf) = true /\ g1_wf E (pf_C E pf) = true /\
       groth_equation E (vk_alpha_g1 E vk) (vk_beta_g2 E vk) (vk_gamma_g2 E vk) (vk_delta_g2 E vk)
         (statement_point E (fst (vk_gamma_ABC_g1 E vk)) (snd (vk_gamma_ABC_g1 E vk)) input) (pf_A E pf) (pf_B E pf) (pf_C E pf)).
Proof.
  intros E S1 S2 L vk input pf. unfold verifier_strong_IC.
  destruct (Nat.eqb_spec (length (snd (vk_gamma_ABC_g1 E vk))) (length input)) as [Le|Ne]; cbn [negb].
  - destruct (weak_decides E S1 S2 L vk input pf) as [b [Eb Hb]]; [lia|]. exists b. split; [exact Eb|].
    rewrite Hb. unfold is_well_formed. rewrite !andb_true_iff.
    rewrite (surjective_pairing (vk_gamma_ABC_g1 E vk)) at 1. rewrite accumulate_statement by lia.
    split; [intros [[[H1 H2] H3] H4]|intros [H0 [H1 [H2 [H3 H4]]]]].
    + split; [lia|]. tauto.
    + tauto.
  - exists false. split; [reflexivity|]. split; [discriminate|]. intros [K _]. congruence.
Qed.
Lemma weak_pads : forall E S1 S2, pairing_laws E S1 S2 -> forall vk input pf,
  Forall S1 (snd (vk_gamma_ABC_g1 E vk)) -> length input <= length (snd (vk_gamma_ABC_g1 E vk)) ->
  verifier_weak_IC E vk input pf =
  verifier_strong_IC E vk (input ++ repeat F0 (length (snd (vk_gamma_ABC_g1 E vk)) - length input)) pf.
Proof.
  intros E S1 S2 L vk input pf HS Hl. unfold verifier_strong_IC.
  rewrite app_length, repeat_length. replace (_ =? _)%nat with true by (symmetry; apply Nat.eqb_eq; lia). cbn [negb].
  unfold verifier_weak_IC. rewrite app_length, repeat_length.
  rewrite (proj2 (Nat.leb_le _ _) Hl). rewrite (proj2 (Nat.leb_le (length input + _) _)) by lia. cbn [oassert obind].
  unfold accumulate. rewrite (mexp1_zeros E S1 S2 L) by assumption. reflexivity.
Qed.

(** ** proofs from a violated system *)
Lemma roots_bound : forall p rs, NoDup rs -> (forall x, In x rs -> peval p x = F0) -> length p <= length rs ->
  forall x, peval p x = F0.
Proof. intros p rs N R Hl x. apply zero_peval. apply (roots_zero rs); assumption. Qed.
Lemma unsat_rare : forall E S1 S2 d cs primary aux ts,
  pairing_laws E S1 S2 -> nondegenerate E S1 S2 ->
  domain_ok d (length (cs_constraints cs) + cs_inputs cs + 1) ->
  length primary = cs_inputs cs -> length aux = cs_aux cs -> ~ satisfies cs primary aux ->
  NoDup ts ->
  (forall t, In t ts -> exists x pk vk r s pf,
     tx_t E x = t /\ S1 (tx_g1 E x) /\ S2 (tx_g2 E x) /\ (forall k, g1_mul E k (tx_g1 E x) = g1_zero E -> k = F0) /\ tx_g2 E x <> g2_zero E /\
     generator E d cs x = Ok (pk, vk) /\ prover E false d pk primary aux r s = Ok pf /\ verifier_strong_IC E vk primary pf = Ok true) ->
  length ts <= 2 * length (dm_points d) - 2.
Proof.
  intros E S1 S2 d cs primary aux ts L ND D Lp Lx NS N H.
  destruct (le_lt_dec (length ts) (2 * length (dm_points d) - 2)) as [|Big]; [assumption|exfalso].
  assert (Dc : length (dm_coset d) = length (dm_points d)) by apply D.
  destruct ts as [|t0 ts']; [cbn [length] in Big; lia|].
  destruct (H t0 (or_introl eq_refl)) as [x0 [pk0 [vk0 [r0 [s0 [pf0 [_ [I10 [I20 [_ [_ [G0 [P0 _]]]]]]]]]]]]].
  destruct (run_exponents E S1 S2 L false d cs x0 pk0 vk0 primary aux r0 s0 pf0 D I10 I20 G0 P0) as [Lp' [Lx' [Hm [Hb [_ [_ [_ [_ [N1 _]]]]]]]]].
  clear x0 pk0 vk0 r0 s0 pf0 I10 I20 G0 P0.
  pose proof (Hdom' d cs D) as D'. set (sw := swap_AB cs) in *. set (z := primary ++ aux).
  assert (Lz : length z = cs_vars sw) by (unfold z, cs_vars; rewrite app_length; lia).
  set (Hp := firstn (dm_m d - 1) (Hco d sw z)).
  pose proof (Hco_length d sw z Dc) as LH.
  assert (LHp : length Hp = (dm_m d - 1)%nat) by (unfold Hp; rewrite firstn_length; lia).
  assert (Ev : forall y, peval Hp y = peval (Hco d sw z) y) by (intros y; apply peval_trim; [lia|exact N1]).
  set (Zp := fold_right pmul_lin [F1] (dm_points d)).
  assert (LZ : length Zp = S (dm_m d)) by (apply prods_length).
  assert (EZ : forall y, peval Zp y = vanish (dm_points d) y) by (intros y; apply peval_prods).
  set (P := padd_ (AB_C d sw z) (pscale (- F1) (pmul Zp Hp))).
  assert (LP : length P <= 2 * dm_m d - 1).
  { unfold P. rewrite padd_length, pscale_length, (AB_C_length d sw F0 z D' Hb Lz Hm).
    rewrite pmul_length by (apply nonempty; lia). lia. }
  assert (EP : forall y, peval P y = (peval (interpolate (dm_points d) (wit_A sw z)) y * peval (interpolate (dm_points d) (wit_B sw z)) y
      - peval (interpolate (dm_points d) (wit_C sw z)) y) - vanish (dm_points d) y * peval (Hco d sw z) y).
  { intros y. unfold P. rewrite peval_padd, peval_pscale, peval_pmul, EZ, Ev, (AB_C_eval d sw F0 z D' Hb Lz). ring. }
  assert (RP : forall y, In y (t0 :: ts') -> peval P y = F0).
  { intros y Hy. destruct (H y Hy) as [x [pk [vk [r [s [pf [Et [I1 [I2 [Z1 [Z2 [G [Pv V]]]]]]]]]]]]].
    destruct (run_strong E S1 S2 L false d cs x pk vk primary aux r s pf D I1 I2 G Pv) as [v [Ev' [_ Hv]]].
    rewrite V in Ev'. apply ok_inj in Ev'. rewrite EP. rewrite <- Et.
    pose proof (Hv ND Z1 Z2 (eq_sym Ev')) as K. fold sw z in K. rewrite K. ring. }
  assert (PZ : forall y, peval P y = F0) by (apply (roots_bound P (t0 :: ts') N RP); unfold dm_m in LP; lia).
  apply NS. split; [exact Lp|]. split; [exact Lx|]. apply swap_sat.
  apply (vanishes_conv d sw F0 z D' Hb Lz). intros y Hy. pose proof (PZ y) as K. rewrite EP, (vanish_root _ _ Hy) in K.
  rewrite <- K. ring.
Qed.

(** ** the pairing in the exponent is an instance *)
Lemma expE_laws : pairing_laws expE (fun _ => True) (fun _ => True).
Proof.
  constructor; intros; cbn [expE G1 G2 GT g1_add g1_sub g1_zero g1_mul g1_wf g2_add g2_zero g2_mul g2_wf gt_mul gt_inv gt_eqb pair] in *;
    try exact I; try reflexivity; try ring.
  destruct (Feqb_spec x y); split; intros; congruence || discriminate.
Qed.
Lemma expE_nondegenerate : nondegenerate expE (fun _ => True) (fun _ => True).
Proof.
  intros x y z _ _ _ Hz. cbn [expE G1 G2 GT pair g2_zero] in *. intros H. apply (Fmul_cancel_l z); [exact Hz|].
  transitivity (x * z); [ring|]. rewrite H. ring.
Qed.
