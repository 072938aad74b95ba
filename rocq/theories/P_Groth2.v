(** The QAP reduction: evaluations at t and the quotient polynomial. *)
From Coq Require Import List ZArith Bool Arith Lia.
From Verif Require Import Field Base R1CS R1CSFacts M_Point M_Groth Spec_Groth P_Groth.
Import ListNotations.
Local Open Scope nat_scope.
Local Open Scope F_scope.

Lemma ok_inj : forall {T} (a b : T), Ok a = Ok b -> a = b.
Proof. intros T a b H. injection H. auto. Qed.
Lemma dot_nil_r : forall a, dot a [] = F0.
Proof. intros [|? ?]; reflexivity. Qed.
Lemma dot_comm : forall a b, dot a b = dot b a.
Proof. induction a as [|x a IH]; intros [|y b]; cbn [dot]; try reflexivity. rewrite IH. ring. Qed.
Lemma dot_app : forall a b c d, length a = length c -> dot (a ++ b) (c ++ d) = dot a c + dot b d.
Proof.
  induction a as [|x a IH]; intros b [|y c] d L; cbn [length] in L; try lia; cbn [app dot].
  - ring.
  - rewrite IH by lia. ring.
Qed.
(** only the common prefix counts *)
Lemma dot_app_r : forall a c d, length a <= length c -> dot a (c ++ d) = dot a c.
Proof.
  induction a as [|x a IH]; intros [|y c] d L; cbn [length] in L; try lia; cbn [app dot]; try reflexivity.
  rewrite IH by lia. reflexivity.
Qed.
Lemma dot_map_add : forall (f g : nat -> F) l z, dot (map (fun i => f i + g i) l) z = dot (map f l) z + dot (map g l) z.
Proof.
  intros f g. induction l as [|i l IH]; intros [|x z]; cbn [map dot]; try ring. rewrite IH. ring.
Qed.
Lemma dot_map_sub : forall (f g : nat -> F) l z, dot (map (fun i => f i - g i) l) z = dot (map f l) z - dot (map g l) z.
Proof.
  intros f g. induction l as [|i l IH]; intros [|x z]; cbn [map dot]; try ring. rewrite IH. ring.
Qed.
Lemma dot_map_scale : forall c (f : nat -> F) l z, dot (map (fun i => c * f i) l) z = c * dot (map f l) z.
Proof.
  intros c f. induction l as [|i l IH]; intros [|x z]; cbn [map dot]; try ring. rewrite IH. ring.
Qed.
Lemma dot_map_zero : forall l z, dot (map (fun _ : nat => F0) l) z = F0.
Proof. induction l as [|i l IH]; intros [|x z]; cbn [map dot]; try ring. rewrite IH. ring. Qed.
Lemma dot_unit : forall v n k z, k <= v < k + n -> length z = n ->
  dot (map (fun i => if Nat.eqb i v then F1 else F0) (seq k n)) z = nth (v - k) z F0.
Proof.
  intros v. induction n as [|n IH]; intros k [|x z] H L; cbn [length] in L; try lia. cbn [seq map dot].
  destruct (Nat.eqb_spec k v) as [-> | D].
  - rewrite Nat.sub_diag. cbn [nth].
    rewrite (map_ext_in _ (fun _ => F0)).
    + rewrite dot_map_zero. ring.
    + intros i Hi. apply in_seq in Hi. destruct (Nat.eqb_spec i v); [lia|reflexivity].
  - rewrite IH by lia. replace (v - k)%nat with (S (v - S k)) by lia. cbn [nth]. ring.
Qed.
Lemma coef_ev : forall l z, lc_below (length z) l = true ->
  dot (map (coef l) (seq 0 (S (length z)))) (F1 :: z) = ev (full z) l.
Proof.
  induction l as [c | v | a IHa b IHb | a IHa b IHb | c a IHa]; intros z B; cbn [lc_below ev] in *.
  - cbn [coef]. change (fun i => if Nat.eqb i 0 then c else F0) with (coef (LC c)).
    rewrite (map_ext (coef (LC c)) (fun i => c * (if Nat.eqb i 0 then F1 else F0))).
    + rewrite dot_map_scale, dot_unit by (cbn [length]; lia). cbn [Nat.sub nth]. ring.
    + intros i. cbn [coef]. destruct (Nat.eqb i 0); ring.
  - apply Nat.leb_le in B. change (coef (V v)) with (fun i => if Nat.eqb i v then F1 else F0).
    rewrite dot_unit by (cbn [length]; lia). rewrite Nat.sub_0_r. reflexivity.
  - apply andb_true_iff in B. change (coef (LAdd a b)) with (fun i => coef a i + coef b i).
    rewrite dot_map_add, IHa, IHb by tauto. reflexivity.
  - apply andb_true_iff in B. change (coef (LSub a b)) with (fun i => coef a i - coef b i).
    rewrite dot_map_sub, IHa, IHb by tauto. reflexivity.
  - change (coef (LScale c a)) with (fun i => c * coef a i).
    rewrite dot_map_scale, IHa by assumption. reflexivity.
Qed.
Lemma column_dot : forall (sel : constr -> lc) cs u l z,
  dot (map (fun i => dot u (map (fun c => coef (sel c) i) cs)) l) z
  = dot u (map (fun c => dot (map (coef (sel c)) l) z) cs).
Proof.
  intros sel. induction cs as [|c cs IH]; intros u l z; cbn [map].
  - rewrite dot_nil_r. apply dot_map_zero.
  - destruct u as [|y u]; cbn [dot].
    + apply dot_map_zero.
    + rewrite (dot_map_add (fun i => y * coef (sel c) i)), (dot_map_scale y (coef (sel c))), IH. reflexivity.
Qed.
Lemma input_dot : forall v n k z j nin, length z = n ->
  dot (map (fun i => if Nat.leb i nin then nth (j + i) v F0 else F0) (seq k n)) z
  = dotn (firstn (S nin - k) z) (skipn (j + k) v).
Proof.
  intros v. induction n as [|n IH]; intros k [|x z] j nin L; cbn [length] in L; try lia.
  - cbn [seq map dot]. rewrite firstn_nil. 
    assert (Z : forall u, dotn [] u = F0).
    { induction u as [|y0 u0 IH0]; cbn [dotn nth tl]; [reflexivity|]. rewrite IH0. ring. }
    rewrite Z. reflexivity.
  - cbn [seq map dot]. rewrite IH by lia.
    assert (Z : forall u, dotn [] u = F0).
    { induction u as [|y0 u0 IH0]; cbn [dotn nth tl]; [reflexivity|]. rewrite IH0. ring. }
    destruct (Nat.leb_spec k nin) as [H | H].
    + replace (S nin - k)%nat with (S (S nin - S k)) by lia. cbn [firstn].
      replace (j + S k)%nat with (S (j + k)) by lia.
      assert (E : forall (w : list F) m, skipn (S m) w = tl (skipn m w)).
      { induction w as [|a w IHw]; intros m; [destruct m; reflexivity|]. destruct m; [reflexivity|]. exact (IHw m). }
      assert (E2 : forall (w : list F) m, nth m w F0 = nth 0 (skipn m w) F0).
      { induction w as [|a w IHw]; intros m; destruct m; cbn [nth skipn]; try reflexivity. apply IHw. }
      rewrite E2, E. destruct (skipn (j + k) v) as [|y u]; cbn [dotn nth tl].
      * destruct (firstn (S nin - S k) z); cbn [dotn]; ring.
      * ring.
    + replace (S nin - k)%nat with 0%nat by lia. replace (S nin - S k)%nat with 0%nat by lia. cbn [firstn].
      rewrite !Z. ring.
Qed.
Lemma skipn_len : forall (l : list F) n, length (skipn n l) = (length l - n)%nat.
Proof. intros. apply skipn_length. Qed.

Lemma cs_below_sel : forall cs c, cs_below cs = true -> In c (cs_constraints cs) ->
  lc_below (cs_vars cs) (cA c) = true /\ lc_below (cs_vars cs) (cB c) = true /\ lc_below (cs_vars cs) (cC c) = true.
Proof.
  intros cs c H I. unfold cs_below in H. rewrite forallb_forall in H. specialize (H c I).
  apply andb_true_iff in H. destruct H as [H H3]. apply andb_true_iff in H. tauto.
Qed.
Lemma column_eval : forall (sel : constr -> lc) cs u z, 
  (forall c, In c (cs_constraints cs) -> lc_below (cs_vars cs) (sel c) = true) ->
  length z = cs_vars cs ->
  dot (map (fun i => dot u (map (fun c => coef (sel c) i) (cs_constraints cs))) (seq 0 (S (cs_vars cs)))) (F1 :: z)
  = dot u (map (fun c => ev (full z) (sel c)) (cs_constraints cs)).
Proof.
  intros sel cs u z B L. rewrite column_dot. f_equal. apply map_ext_in. intros c I.
  rewrite <- L. apply coef_ev. rewrite L. apply B. exact I.
Qed.

Lemma nonempty : forall (l : list F), 1 <= length l -> l <> [].
Proof. intros [|? ?] H; cbn [length] in H; [lia|congruence]. Qed.
Section QAP.
Variables (d : domain) (cs : csystem) (t : F) (z : list F).
Hypothesis Hdom : domain_ok d (length (cs_constraints cs) + cs_inputs cs + 1).
Hypothesis Hbelow : cs_below cs = true.
Hypothesis Hz : length z = cs_vars cs.
Let A := interpolate (dm_points d) (wit_A cs z).
Let B := interpolate (dm_points d) (wit_B cs z).
Let C := interpolate (dm_points d) (wit_C cs z).

Lemma nin_le : cs_inputs cs <= length z.
Proof using All. rewrite Hz. unfold cs_vars. lia. Qed.
Lemma wit_A_length : length (wit_A cs z) = (length (cs_constraints cs) + cs_inputs cs + 1)%nat.
Proof using All.
  pose proof nin_le as N. unfold wit_A. rewrite app_length, map_length. cbn [length]. rewrite firstn_length. lia.
Qed.
Lemma qap_A : forall q, qap_instance d cs t = Ok q -> dot (q_At q) (F1 :: z) = peval A t.
Proof using All.
  intros q H. unfold qap_instance in H. rewrite Hbelow in H. cbn [negb] in H. apply ok_inj in H. subst q. cbn [q_At].
  rewrite dot_map_add, column_eval; [| |assumption].
  2:{ intros c I. apply (cs_below_sel cs c Hbelow I). }
  rewrite input_dot by (cbn [length]; rewrite Hz; reflexivity).
  unfold A. rewrite peval_interpolate. destruct Hdom as [D _].
  rewrite (dot_dotn _ (wit_A cs z)) by (rewrite wit_A_length, lag_evals_length; exact D).
  set (u := lag_evals (dm_points d) t). assert (Lu : length u = length (dm_points d)) by apply lag_evals_length.
  unfold wit_A. set (ys := map (fun c => ev (full z) (cA c)) (cs_constraints cs)).
  assert (Ly : length ys = length (cs_constraints cs)) by apply map_length.
  rewrite Nat.sub_0_r, Nat.add_0_r. rewrite firstn_cons.
  rewrite dot_dotn.
  2:{ cbn [length]. rewrite firstn_length, skipn_length, Lu. pose proof nin_le. lia. }
  transitivity (dot (firstn (length ys) u ++ skipn (length ys) u) (ys ++ F1 :: firstn (cs_inputs cs) z)).
  2:{ rewrite firstn_skipn. reflexivity. }
  rewrite dot_app by (rewrite firstn_length, Lu; lia).
  rewrite Ly.
  transitivity (dot (skipn (length (cs_constraints cs)) u) (F1 :: firstn (cs_inputs cs) z) + dot (firstn (length (cs_constraints cs)) u ++ skipn (length (cs_constraints cs)) u) (ys ++ [])).
  { rewrite firstn_skipn, app_nil_r. reflexivity. }
  rewrite dot_app by (rewrite firstn_length, Lu; lia). rewrite dot_nil_r. ring.
Qed.
Lemma qap_sel : forall sel, (forall c, In c (cs_constraints cs) -> lc_below (cs_vars cs) (sel c) = true) ->
  dot (map (fun i => dot (lag_evals (dm_points d) t) (map (fun c => coef (sel c) i) (cs_constraints cs))) (seq 0 (S (cs_vars cs)))) (F1 :: z)
  = peval (interpolate (dm_points d) (map (fun c => ev (full z) (sel c)) (cs_constraints cs))) t.
Proof using All.
  intros sel S. rewrite column_eval by assumption. rewrite peval_interpolate. destruct Hdom as [D _].
  rewrite dot_dotn; [reflexivity|]. rewrite map_length, lag_evals_length. lia.
Qed.
Lemma qap_B : forall q, qap_instance d cs t = Ok q -> dot (q_Bt q) (F1 :: z) = peval B t.
Proof using All.
  intros q H. unfold qap_instance in H. rewrite Hbelow in H. cbn [negb] in H. apply ok_inj in H. subst q. cbn [q_Bt].
  apply qap_sel. intros c I. apply (cs_below_sel cs c Hbelow I).
Qed.
Lemma qap_C : forall q, qap_instance d cs t = Ok q -> dot (q_Ct q) (F1 :: z) = peval C t.
Proof using All.
  intros q H. unfold qap_instance in H. rewrite Hbelow in H. cbn [negb] in H. apply ok_inj in H. subst q. cbn [q_Ct].
  apply qap_sel. intros c I. apply (cs_below_sel cs c Hbelow I).
Qed.

(** a satisfying assignment makes A*B-C vanish on the domain *)
Lemma vanishes : sat (full z) (cs_constraints cs) -> forall x, In x (dm_points d) -> peval A x * peval B x - peval C x = F0.
Proof using All.
  intros S x Hx. destruct Hdom as [_ [N _]]. apply (In_nth _ _ F0) in Hx. destruct Hx as [i [Li <-]].
  unfold A, B, C. rewrite !interpolate_at by assumption.
  destruct (lt_dec i (length (cs_constraints cs))) as [L | L].
  - unfold wit_A, wit_B, wit_C. rewrite app_nth1 by (rewrite map_length; exact L).
    unfold sat in S. rewrite Forall_forall in S.
    rewrite (nth_indep _ F0 (ev (full z) (cA (R1 L0 L0 L0)))) by (rewrite map_length; exact L).
    rewrite (map_nth (fun c => ev (full z) (cA c))).
    rewrite (nth_indep (map (fun c => ev (full z) (cB c)) _) F0 (ev (full z) (cB (R1 L0 L0 L0)))) by (rewrite map_length; exact L).
    rewrite (map_nth (fun c => ev (full z) (cB c))).
    rewrite (nth_indep (map (fun c => ev (full z) (cC c)) _) F0 (ev (full z) (cC (R1 L0 L0 L0)))) by (rewrite map_length; exact L).
    rewrite (map_nth (fun c => ev (full z) (cC c))).
    specialize (S (nth i (cs_constraints cs) (R1 L0 L0 L0)) (nth_In _ _ L)). unfold holds in S. rewrite S. ring.
  - unfold wit_B, wit_C. rewrite !(nth_overflow (map _ _)) by (rewrite map_length; lia). ring.
Qed.
(** the converse *)
Lemma vanishes_conv : (forall x, In x (dm_points d) -> peval A x * peval B x - peval C x = F0) -> sat (full z) (cs_constraints cs).
Proof using All.
  intros H. apply Forall_forall. intros c I. apply (In_nth _ _ (R1 L0 L0 L0)) in I. destruct I as [i [L <-]].
  destruct Hdom as [D [N _]].
  assert (Li : i < length (dm_points d)) by lia.
  specialize (H (nth i (dm_points d) F0) (nth_In _ _ Li)).
  unfold A, B, C in H. rewrite !interpolate_at in H by assumption. unfold wit_A, wit_B, wit_C in H. rewrite app_nth1 in H by (rewrite map_length; exact L).
  rewrite (nth_indep _ F0 (ev (full z) (cA (R1 L0 L0 L0)))) in H by (rewrite map_length; exact L).
  rewrite (map_nth (fun c => ev (full z) (cA c))) in H.
  rewrite (nth_indep (map (fun c => ev (full z) (cB c)) _) F0 (ev (full z) (cB (R1 L0 L0 L0)))) in H by (rewrite map_length; exact L).
  rewrite (map_nth (fun c => ev (full z) (cB c))) in H.
  rewrite (nth_indep (map (fun c => ev (full z) (cC c)) _) F0 (ev (full z) (cC (R1 L0 L0 L0)))) in H by (rewrite map_length; exact L).
  rewrite (map_nth (fun c => ev (full z) (cC c))) in H.
  apply (proj1 (Fsub_eq0 _ _)) in H. exact H.
Qed.

Definition AB_C : list F := padd_ (pmul A B) (pscale (- F1) C).
Lemma AB_C_eval : forall x, peval AB_C x = peval A x * peval B x - peval C x.
Proof using All. intros. unfold AB_C. rewrite peval_padd, peval_pmul, peval_pscale. ring. Qed.
Hypothesis Hm : 2 <= dm_m d.
Lemma LA : length A = dm_m d.
Proof using All. apply interpolate_length. Qed.
Lemma LB : length B = dm_m d.
Proof using All. apply interpolate_length. Qed.
Lemma LC_ : length C = dm_m d.
Proof using All. apply interpolate_length. Qed.
Lemma AB_C_length : length AB_C = (2 * dm_m d - 1)%nat.
Proof using All.
  pose proof LA. pose proof LB. pose proof LC_.
  unfold AB_C. rewrite padd_length, pscale_length, pmul_length by (apply nonempty; lia). lia.
Qed.
Lemma AB_C_last : last AB_C F0 = last A F0 * last B F0.
Proof using All.
  pose proof LA. pose proof LB. pose proof LC_.
  rewrite <- pmul_last by (apply nonempty; lia).
  rewrite (last_nth AB_C), AB_C_length. unfold AB_C. rewrite nth_padd, nth_pscale, (nth_overflow C) by lia.
  rewrite last_nth, pmul_length by (apply nonempty; lia).
  replace (length A + length B - 1 - 1)%nat with (2 * dm_m d - 1 - 1)%nat by lia. ring.
Qed.

(** H computed on the coset is the quotient *)
Definition Hco : list F := interpolate (dm_coset d)
  (map (fun x => (peval A x * peval B x - peval C x) * Finv (vanish (dm_points d) x)) (dm_coset d)).
Lemma Hco_quotient : sat (full z) (cs_constraints cs) ->
  exists q, Hco = q ++ [F0] /\ length q = (dm_m d - 1)%nat /\ last q F0 = last A F0 * last B F0 /\
    forall x, peval A x * peval B x - peval C x = vanish (dm_points d) x * peval q x.
Proof using All.
  intros S. destruct Hdom as [D [N [Nc [Lc Dj]]]].
  destruct (divide_roots (dm_points d) AB_C N) as [q [Lq [Eq Hq]]].
  - rewrite AB_C_length. unfold dm_m. unfold dm_m in Hm. lia.
  - intros x Hx. rewrite AB_C_eval. apply vanishes; assumption.
  - exists q. rewrite AB_C_length in Lq. change (length (dm_points d)) with (dm_m d) in Lq.
    split; [|split; [lia|split]].
    + apply (agree_eq (dm_coset d)); [assumption|apply interpolate_length| |].
      * rewrite app_length. cbn [length]. rewrite Lc. change (length (dm_points d)) with (dm_m d). lia.
      * intros x Hx. apply (In_nth _ _ F0) in Hx. destruct Hx as [i [Li <-]].
        unfold Hco. rewrite interpolate_at by assumption.
        rewrite (nth_indep _ F0 ((fun x => (peval A x * peval B x - peval C x) * Finv (vanish (dm_points d) x)) F0)) by (rewrite map_length; exact Li).
        rewrite (map_nth (fun x => (peval A x * peval B x - peval C x) * Finv (vanish (dm_points d) x))).
        set (x := nth i (dm_coset d) F0).
        change [F0] with (repeat F0 1). rewrite peval_app0. rewrite <- AB_C_eval, Hq.
        assert (Z : vanish (dm_points d) x <> F0) by (apply vanish_nz; apply Dj; apply nth_In; exact Li).
        transitivity (peval q x * (vanish (dm_points d) x * Finv (vanish (dm_points d) x))); [ring|]. rewrite Finv_r by exact Z. ring.
    + rewrite Eq. apply AB_C_last.
    + intros x. rewrite <- AB_C_eval. apply Hq.
Qed.
End QAP.

Lemma powers_length : forall n a t, length (powers n a t) = n.
Proof. induction n as [|n IH]; intros a t; cbn [powers length]; [reflexivity|]. rewrite IH; reflexivity. Qed.
Lemma powers_dot : forall q n a t, length q <= n -> dot (powers n a t) q = a * peval q t.
Proof.
  induction q as [|c q IH]; intros n a t L.
  - rewrite dot_nil_r. cbn [peval]. ring.
  - destruct n as [|n]; cbn [length] in L; [lia|]. cbn [powers dot peval]. rewrite IH by lia. ring.
Qed.
Lemma powers_firstn : forall n k a t, k <= n -> firstn k (powers n a t) = powers k a t.
Proof.
  induction n as [|n IH]; intros k a t L.
  - replace k with 0%nat by lia. reflexivity.
  - destruct k as [|k]; [reflexivity|]. cbn [powers firstn]. rewrite IH by lia. reflexivity.
Qed.
