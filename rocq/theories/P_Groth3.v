(** Keys and proofs in the exponent. *)
From Coq Require Import List ZArith Bool Arith Lia.
From Verif Require Import Field Base R1CS R1CSFacts M_Point M_Groth Spec_Groth P_Groth P_Groth2.
Import ListNotations.
Local Open Scope nat_scope.
Local Open Scope F_scope.

Section Exp.
Variables (E : pairing) (S1 : G1 E -> Prop) (S2 : G2 E -> Prop).
Hypothesis L : pairing_laws E S1 S2.
Variables (g1 : G1 E) (g2 : G2 E).
Hypotheses (I1 : S1 g1) (I2 : S2 g2).
Notation e1 k := (g1_mul E k g1) (only parsing).
Notation e2 k := (g2_mul E k g2) (only parsing).

Lemma e1_in : forall k, S1 (e1 k).
Proof using All. intros. apply (l1_mul _ _ _ L). exact I1. Qed.
Lemma e2_in : forall k, S2 (e2 k).
Proof using All. intros. apply (l2_mul _ _ _ L). exact I2. Qed.
Lemma e1_add : forall a b, g1_add E (e1 a) (e1 b) = e1 (a + b).
Proof using All. intros. symmetry. apply (l1_muladd _ _ _ L). exact I1. Qed.
Lemma e2_add : forall a b, g2_add E (e2 a) (e2 b) = e2 (a + b).
Proof using All. intros. symmetry. apply (l2_muladd _ _ _ L). exact I2. Qed.
Lemma e1_mul : forall k a, g1_mul E k (e1 a) = e1 (k * a).
Proof using All. intros. symmetry. apply (l1_mulmul _ _ _ L). exact I1. Qed.
Lemma e2_mul : forall k a, g2_mul E k (e2 a) = e2 (k * a).
Proof using All. intros. symmetry. apply (l2_mulmul _ _ _ L). exact I2. Qed.
Lemma g1_cancel : forall x y z, S1 x -> S1 y -> g1_add E x (e1 z) = g1_add E y (e1 z) -> x = y.
Proof using All.
  intros x y z Hx Hy H.
  assert (K : forall w, S1 w -> w = g1_add E (g1_add E w (e1 z)) (e1 (- z))).
  { intros w Hw. rewrite <- (l1_assoc _ _ _ L) by (try apply e1_in; exact Hw).
    rewrite e1_add. replace (z + - z) with F0 by ring. cbv beta. rewrite (l1_mul0 _ _ _ L) by exact I1.
    symmetry. apply (l1_add0 _ _ _ L). exact Hw. }
  rewrite (K x Hx), (K y Hy), H. reflexivity.
Qed.
Lemma e1_sub : forall a b, g1_sub E (e1 a) (e1 b) = e1 (a - b).
Proof using All.
  intros a b. apply (g1_cancel _ _ b).
  - apply (l1_subin _ _ _ L); apply e1_in.
  - apply e1_in.
  - rewrite (l1_sub _ _ _ L) by apply e1_in. rewrite e1_add. f_equal. ring.
Qed.
Lemma mexp1_exp : forall ks zs, mexp1 E (map (fun k => e1 k) ks) zs = e1 (dot ks zs).
Proof using All.
  assert (Z : g1_zero E = e1 F0) by (symmetry; apply (l1_mul0 _ _ _ L); exact I1).
  induction ks as [|k ks IH]; intros [|z zs]; cbn [map mexp1 dot]; try exact Z.
  rewrite IH, e1_mul, e1_add. f_equal. ring.
Qed.
Lemma mexp2_exp : forall ks zs, mexp2 E (map (fun k => e2 k) ks) zs = e2 (dot ks zs).
Proof using All.
  assert (Z : g2_zero E = e2 F0) by (symmetry; apply (l2_mul0 _ _ _ L); exact I2).
  induction ks as [|k ks IH]; intros [|z zs]; cbn [map mexp2 dot]; try exact Z.
  rewrite IH, e2_mul, e2_add. f_equal. ring.
Qed.
(** the pairing of multiples of the generators *)
Lemma pair_exp : forall a b, pair E (e1 a) (e2 b) = pair E (e1 (b * a)) g2.
Proof using All.
  intros. rewrite (lp_mul _ _ _ L) by (try apply e1_in; exact I2). rewrite e1_mul. reflexivity.
Qed.
Lemma pair_prod : forall a b, gt_mul E (pair E (e1 a) g2) (pair E (e1 b) g2) = pair E (e1 (a + b)) g2.
Proof using All.
  intros. rewrite <- (lp_add _ _ _ L) by (try apply e1_in; exact I2). rewrite e1_add. reflexivity.
Qed.
End Exp.

(** ** the verifier's decision *)
Section Verify.
Variables (E : pairing) (S1 : G1 E -> Prop) (S2 : G2 E -> Prop).
Hypothesis L : pairing_laws E S1 S2.
Lemma gt_cancel : forall a b c, gt_mul E a (gt_inv E b) = c <-> a = gt_mul E c b.
Proof using All.
  intros a b c. split.
  - intros <-. rewrite <- (lt_assoc _ _ _ L), (lt_comm _ _ _ L (gt_inv E b) b), (lt_assoc _ _ _ L).
    symmetry. apply (lt_inv _ _ _ L).
  - intros ->. apply (lt_inv _ _ _ L).
Qed.
Lemma weak_decides : forall vk input pf,
  length input <= length (snd (vk_gamma_ABC_g1 E vk)) ->
  exists b, verifier_weak_IC E vk input pf = Ok b /\
    (b = true <-> is_well_formed E pf = true /\
       groth_equation E (vk_alpha_g1 E vk) (vk_beta_g2 E vk) (vk_gamma_g2 E vk) (vk_delta_g2 E vk)
         (accumulate E (vk_gamma_ABC_g1 E vk) input) (pf_A E pf) (pf_B E pf) (pf_C E pf)).
Proof using All.
  intros vk input pf Hl. unfold verifier_weak_IC. rewrite (proj2 (Nat.leb_le _ _) Hl). cbn [oassert obind].
  eexists. split; [reflexivity|]. unfold groth_equation.
  set (X := gt_mul E (pair E (pf_A E pf) (pf_B E pf)) _).
  pose proof (lt_eqb _ _ _ L X (pair E (vk_alpha_g1 E vk) (vk_beta_g2 E vk))) as Q. unfold X in Q at 2. rewrite gt_cancel in Q.
  destruct (gt_eqb E X _); cbn [negb].
  - split; [intros ->; split; [reflexivity|apply Q; reflexivity]|tauto].
  - split; [discriminate|]. intros [_ K]. apply Q in K. discriminate K.
Qed.
Lemma affine_weak : forall vk input pf, affine_verifier_weak_IC E vk input pf = verifier_weak_IC E vk input pf.
Proof using All.
  intros. unfold affine_verifier_weak_IC, verifier_weak_IC. destruct (oassert _) as [[]| | | |]; try reflexivity. cbn [obind].
  set (a := pair E (pf_A E pf) (pf_B E pf)). set (b := gt_mul E (pair E (accumulate E _ _) _) _). set (c := pair E (vk_alpha_g1 E vk) _).
  replace (gt_inv E (gt_mul E b (gt_inv E a))) with (gt_mul E a (gt_inv E b)); [reflexivity|].
  apply gt_cancel.
  (* a = inv(b * inv a) * b *)
  assert (X : b = gt_mul E (gt_mul E b (gt_inv E a)) a).
  { rewrite <- (lt_assoc _ _ _ L), (lt_comm _ _ _ L (gt_inv E a)), (lt_assoc _ _ _ L). symmetry. apply (lt_inv _ _ _ L). }
  set (u := gt_mul E b (gt_inv E a)) in *. rewrite X.
  rewrite (lt_comm _ _ _ L (gt_inv E u)). rewrite (lt_comm _ _ _ L u a). symmetry. apply (lt_inv _ _ _ L).
Qed.
Lemma accumulate_statement : forall ic0 ics x, length x <= length ics ->
  accumulate E (ic0, ics) x = statement_point E ic0 ics x.
Proof using.
  intros ic0 ics x. unfold accumulate, statement_point. cbn [fst snd]. intros Hl. f_equal.
  revert ics Hl. induction x as [|k x IH]; intros [|b ics] Hl; cbn [length] in Hl; try lia; cbn [mexp1 combine fold_right]; try reflexivity.
  rewrite IH by lia. reflexivity.
Qed.
(** missing inputs count as zero *)
Lemma mexp1_zeros : forall bases x n, Forall S1 bases -> length x <= length bases ->
  mexp1 E bases (x ++ repeat F0 n) = mexp1 E bases x.
Proof using All.
  induction bases as [|b bases IH]; intros [|k x] n Hb Hl; cbn [length] in Hl; try lia.
  - reflexivity.
  - cbn [app]. clear IH. 
    assert (G : forall bs, Forall S1 bs -> mexp1 E bs (repeat F0 n) = g1_zero E).
    { revert n. induction n as [|n IHn]; intros [|c bs] Hc; cbn [repeat mexp1]; try reflexivity.
      inversion Hc; subst. rewrite IHn by assumption. rewrite (l1_mul0 _ _ _ L) by assumption.
      apply (l1_add0 _ _ _ L). apply (l1_zero _ _ _ L). }
    rewrite G by assumption. reflexivity.
  - cbn [app mexp1]. inversion Hb; subst. rewrite IH by (assumption || lia). reflexivity.
Qed.
End Verify.

(** ** the system after swap_AB_if_beneficial *)
Lemma swap_facts : forall cs, cs_inputs (swap_AB cs) = cs_inputs cs /\ cs_aux (swap_AB cs) = cs_aux cs /\
  length (cs_constraints (swap_AB cs)) = length (cs_constraints cs).
Proof.
  intros cs. unfold swap_AB. destruct (_ <? _)%nat; cbn [cs_inputs cs_aux cs_constraints]; [|tauto].
  rewrite map_length. tauto.
Qed.
Lemma swap_sat : forall cs s, sat s (cs_constraints (swap_AB cs)) <-> sat s (cs_constraints cs).
Proof.
  intros cs s. unfold swap_AB. destruct (_ <? _)%nat; [|tauto]. cbn [cs_constraints]. unfold sat. rewrite Forall_map.
  split; apply Forall_impl; intros c H; unfold holds in *; cbn [cA cB cC] in *; rewrite <- H; ring.
Qed.
Lemma lc_below_all : forall n l, lc_below n l = true <-> lc_all (fun v => v <= n) l.
Proof.
  intros n. induction l as [c|v|a IHa b IHb|a IHa b IHb|c a IHa]; cbn [lc_below lc_all].
  - tauto.
  - apply Nat.leb_le.
  - rewrite andb_true_iff, IHa, IHb. tauto.
  - rewrite andb_true_iff, IHa, IHb. tauto.
  - exact IHa.
Qed.
Lemma declared_below : forall cs, declared cs -> cs_below (swap_AB cs) = true.
Proof.
  intros cs H. unfold cs_below. apply forallb_forall. intros c I.
  destruct (swap_facts cs) as [E1 [E2 _]].
  assert (N : cs_vars (swap_AB cs) = (cs_inputs cs + cs_aux cs)%nat) by (unfold cs_vars; rewrite E1, E2; reflexivity).
  rewrite N. unfold declared in H. rewrite Forall_forall in H.
  unfold swap_AB in I. destruct (_ <? _)%nat in I; cbn [cs_constraints] in I.
  - apply in_map_iff in I. destruct I as [c' [<- I]]. specialize (H c' I). destruct H as [HA [HB HC]].
    cbn [cA cB cC]. rewrite !andb_true_iff, !lc_below_all. tauto.
  - specialize (H c I). destruct H as [HA [HB HC]]. rewrite !andb_true_iff, !lc_below_all. tauto.
Qed.

(** ** the generator *)
Lemma omapM_ok : forall {A B} (f : A -> outcome B) (g : A -> B) l, (forall x, In x l -> f x = Ok (g x)) ->
  omapM_ f l = Ok (map g l).
Proof.
  intros A B f g. induction l as [|x l IH]; intros H; cbn [omapM_ fold_right map]; [reflexivity|].
  rewrite (H x (or_introl eq_refl)). cbn [obind]. fold (omapM_ f l). rewrite IH by (intros; apply H; right; assumption).
  reflexivity.
Qed.
Definition Kq (q : qap_eval) (alpha beta : F) (i : nat) : F :=
  beta * nth i (q_At q) F0 + alpha * nth i (q_Bt q) F0 + nth i (q_Ct q) F0.
Lemma idx_nth : forall (l : list F) i, i < length l -> idx l i = Ok (nth i l F0).
Proof.
  intros l i H. unfold idx. rewrite (nth_error_nth' _ F0 H). reflexivity.
Qed.
Lemma abc_ok : forall q al be i n, length (q_At q) = n -> length (q_Bt q) = n -> length (q_Ct q) = n -> i < n ->
  abc q al be i = Ok (Kq q al be i).
Proof. intros q al be i n H1 H2 H3 H. unfold abc. rewrite !idx_nth by lia. reflexivity. Qed.
Lemma qap_shape : forall d cs t q, qap_instance d cs t = Ok q ->
  length (q_At q) = S (cs_vars cs) /\ length (q_Bt q) = S (cs_vars cs) /\ length (q_Ct q) = S (cs_vars cs) /\
  q_Ht q = powers (S (dm_m d)) F1 t /\ q_Zt q = vanish (dm_points d) t /\ cs_below cs = true.
Proof.
  intros d cs t q H. unfold qap_instance in H. destruct (cs_below cs) eqn:B; cbn [negb] in H; [|discriminate H].
  apply ok_inj in H. subst q. cbn [q_At q_Bt q_Ct q_Ht q_Zt]. rewrite !map_length, seq_length. repeat split; reflexivity.
Qed.
Lemma seq_from : forall a n k, map (fun i => a + i)%nat (seq k n) = seq (a + k) n.
Proof. intros a. induction n as [|n IH]; intros k; cbn [seq map]; [reflexivity|]. rewrite IH, Nat.add_succ_r. reflexivity. Qed.
Lemma generator_inv : forall E d r1cs x pk vk, generator E d r1cs x = Ok (pk, vk) ->
  let cs := swap_AB r1cs in
  tx_gamma E x <> F0 /\ tx_delta E x <> F0 /\
  exists q, qap_instance d cs (tx_t E x) = Ok q /\
  let K := Kq q (tx_alpha E x) (tx_beta E x) in
  let e1 := fun k => g1_mul E k (tx_g1 E x) in
  let e2 := fun k => g2_mul E k (tx_g2 E x) in
  let gi := Finv (tx_gamma E x) in let di := Finv (tx_delta E x) in
  pk = PK E (e1 (tx_alpha E x)) (e1 (tx_beta E x)) (e2 (tx_beta E x)) (e1 (tx_delta E x)) (e2 (tx_delta E x))
         (map e1 (q_At q)) (map (fun b => (e2 b, e1 b)) (q_Bt q))
         (map (fun h => e1 (q_Zt q * di * h)) (powers (dm_m d - 1) F1 (tx_t E x)))
         (map e1 (map (fun i => K i * di) (seq (cs_inputs cs + 1) (cs_aux cs)))) cs /\
  vk = VK E (e1 (tx_alpha E x)) (e2 (tx_beta E x)) (e2 (tx_gamma E x)) (e2 (tx_delta E x))
         (e1 (K 0 * gi), map e1 (map (fun i => K i * gi) (seq 1 (cs_inputs cs)))).
Proof.
  intros E d r1cs x pk vk H cs. unfold generator in H. fold cs in H.
  unfold inverse in H. destruct (Feqb (tx_gamma E x) F0) eqn:Eg; [discriminate H|]. cbn [obind] in H.
  destruct (Feqb (tx_delta E x) F0) eqn:Ed; [discriminate H|]. cbn [obind] in H.
  split; [intros K; rewrite K, Feqb_refl in Eg; discriminate Eg|].
  split; [intros K; rewrite K, Feqb_refl in Ed; discriminate Ed|].
  destruct (qap_instance d cs (tx_t E x)) as [q| | | |n] eqn:Q; try discriminate H. cbn [obind] in H.
  exists q. split; [reflexivity|].
  destruct (qap_shape _ _ _ _ Q) as [La [Lb [Lc [Hh [Hz Hb]]]]].
  rewrite (abc_ok q _ _ 0 (S (cs_vars cs))) in H by (assumption || lia). cbn [obind] in H.
  rewrite (omapM_ok _ (fun i => Kq q (tx_alpha E x) (tx_beta E x) i * Finv (tx_gamma E x))) in H.
  2:{ intros i Hi. apply in_seq in Hi. rewrite (abc_ok q _ _ i (S (cs_vars cs))) by (assumption || (unfold cs_vars; lia)). reflexivity. }
  cbn [obind] in H.
  rewrite (omapM_ok _ (fun i => Kq q (tx_alpha E x) (tx_beta E x) (cs_inputs cs + 1 + i) * Finv (tx_delta E x))) in H.
  2:{ intros i Hi. apply in_seq in Hi. rewrite (abc_ok q _ _ _ (S (cs_vars cs))) by (assumption || (unfold cs_vars in *; lia)). reflexivity. }
  cbn [obind] in H. apply ok_inj in H. apply pair_equal_spec in H. destruct H as [Hp Hv]. rewrite <- Hp, <- Hv.
  split; [|reflexivity]. f_equal.
  - f_equal. rewrite Hh, powers_length. rewrite powers_firstn by lia.
    replace (S (dm_m d) - 2)%nat with (dm_m d - 1)%nat by lia. reflexivity.
  - f_equal. replace (cs_vars cs - cs_inputs cs)%nat with (cs_aux cs) by (unfold cs_vars; lia).
    rewrite <- (Nat.add_0_r (cs_inputs cs + 1)), <- seq_from, map_map, Nat.add_0_r. reflexivity.
Qed.
Lemma generator_total : forall E d r1cs x, declared r1cs -> tx_gamma E x <> F0 -> tx_delta E x <> F0 ->
  exists pk vk, generator E d r1cs x = Ok (pk, vk).
Proof.
  intros E d r1cs x D Hg Hd. unfold generator, inverse.
  destruct (Feqb_spec (tx_gamma E x) F0); [contradiction|]. destruct (Feqb_spec (tx_delta E x) F0); [contradiction|]. cbn [obind].
  set (cs := swap_AB r1cs).
  destruct (qap_instance d cs (tx_t E x)) as [q| | | |k] eqn:Q.
  2-5: unfold qap_instance in Q; unfold cs in Q; rewrite (declared_below _ D) in Q; discriminate Q.
  destruct (qap_shape _ _ _ _ Q) as [La [Lb [Lc [Hh [Hz Hb]]]]]. cbn [obind].
  rewrite (abc_ok q _ _ 0 (S (cs_vars cs))) by (assumption || lia). cbn [obind].
  rewrite (omapM_ok _ (fun i => Kq q (tx_alpha E x) (tx_beta E x) i * Finv (tx_gamma E x))).
  2:{ intros i Hi. apply in_seq in Hi. rewrite (abc_ok q _ _ i (S (cs_vars cs))) by (assumption || (unfold cs_vars; lia)). reflexivity. }
  cbn [obind].
  rewrite (omapM_ok _ (fun i => Kq q (tx_alpha E x) (tx_beta E x) (cs_inputs cs + 1 + i) * Finv (tx_delta E x))).
  2:{ intros i Hi. apply in_seq in Hi. rewrite (abc_ok q _ _ _ (S (cs_vars cs))) by (assumption || (unfold cs_vars in *; lia)). reflexivity. }
  cbn [obind]. eexists. eexists. reflexivity.
Qed.
(** sums over all variables *)
Lemma nth_seq_id : forall (l : list F), map (fun i => nth i l F0) (seq 0 (length l)) = l.
Proof.
  intros l. apply (nth_ext _ _ F0 F0).
  - rewrite map_length, seq_length. reflexivity.
  - intros i H. rewrite map_length, seq_length in H.
    rewrite (nth_indep _ F0 ((fun i => nth i l F0) 0%nat)) by (rewrite map_length, seq_length; exact H).
    rewrite (map_nth (fun i => nth i l F0)), seq_nth by exact H. reflexivity.
Qed.
Lemma Kq_dot : forall q al be n z, length (q_At q) = n -> length (q_Bt q) = n -> length (q_Ct q) = n ->
  dot (map (Kq q al be) (seq 0 n)) z = be * dot (q_At q) z + al * dot (q_Bt q) z + dot (q_Ct q) z.
Proof.
  intros q al be n z Ha Hb Hc.
  change (Kq q al be) with (fun i => (be * nth i (q_At q) F0 + al * nth i (q_Bt q) F0) + nth i (q_Ct q) F0).
  rewrite dot_map_add, (dot_map_add (fun i => be * nth i (q_At q) F0)), !dot_map_scale.
  rewrite <- Ha at 1. rewrite nth_seq_id. rewrite <- Hb at 1. rewrite nth_seq_id. rewrite <- Hc. rewrite nth_seq_id. reflexivity.
Qed.
