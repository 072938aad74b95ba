(** Polynomials as coefficient lists: evaluation, interpolation, roots, division. *)
From Coq Require Import List ZArith Bool Arith Lia.
From Verif Require Import Field Base R1CS R1CSFacts M_Point M_Groth Spec_Groth.
Import ListNotations.
Local Open Scope nat_scope.
Local Open Scope F_scope.

Lemma peval_padd : forall p q x, peval (padd_ p q) x = peval p x + peval q x.
Proof.
  induction p as [|a p IH]; intros [|b q] x; cbn [padd_ peval]; try ring. rewrite IH; ring.
Qed.
Lemma peval_pscale : forall c p x, peval (pscale c p) x = c * peval p x.
Proof. induction p as [|a p IH]; intros x; cbn; [ring|]. rewrite IH; ring. Qed.
Lemma peval_pmul_lin : forall s p x, peval (pmul_lin s p) x = (x - s) * peval p x.
Proof.
  intros. unfold pmul_lin. rewrite peval_padd, peval_pscale. cbn [peval]. ring.
Qed.
Lemma peval_app0 : forall p n x, peval (p ++ repeat F0 n) x = peval p x.
Proof.
  induction p as [|a p IH]; intros n x; cbn [app peval].
  - induction n as [|n IHn]; cbn [repeat peval]; [reflexivity|]. rewrite IHn; ring.
  - rewrite IH; reflexivity.
Qed.
Lemma padd_length : forall p q, length (padd_ p q) = Nat.max (length p) (length q).
Proof.
  induction p as [|a p IH]; intros [|b q]; cbn [padd_ length]; try lia. rewrite IH; lia.
Qed.
Lemma pscale_length : forall c p, length (pscale c p) = length p.
Proof. intros; apply map_length. Qed.
Lemma pmul_lin_length : forall s p, length (pmul_lin s p) = S (length p).
Proof. intros. unfold pmul_lin. rewrite padd_length, pscale_length. cbn [length]. lia. Qed.
Lemma prods_length : forall l, length (fold_right pmul_lin [F1] l) = S (length l).
Proof. induction l as [|a l IH]; cbn [fold_right length]; [reflexivity|]. rewrite pmul_lin_length, IH; reflexivity. Qed.
Lemma peval_prods : forall l x, peval (fold_right pmul_lin [F1] l) x = fprod (map (fun s => x - s) l).
Proof.
  induction l as [|a l IH]; intros x; cbn [fold_right map].
  - cbn. ring.
  - rewrite peval_pmul_lin, IH. reflexivity.
Qed.
Lemma others_length : forall pts j, j < length pts -> length (others pts j) = (length pts - 1)%nat.
Proof. intros. unfold others. rewrite app_length, firstn_length, skipn_length. lia. Qed.
Lemma lag_poly_length : forall pts j, j < length pts -> length (lag_poly pts j) = length pts.
Proof. intros. unfold lag_poly. rewrite pscale_length, prods_length, others_length by assumption. lia. Qed.
Lemma peval_lag_poly : forall pts j x,
  peval (lag_poly pts j) x = fprod (map (fun s => x - s) (others pts j)) * Finv (lag_den pts j).
Proof. intros. unfold lag_poly. rewrite peval_pscale, peval_prods. ring. Qed.
Lemma lag_evals_length : forall pts t, length (lag_evals pts t) = length pts.
Proof. intros. unfold lag_evals. rewrite map_length, seq_length. reflexivity. Qed.

Lemma fold_padd_length : forall ls n, Forall (fun l => length l = n) ls ->
  length (fold_right padd_ (repeat F0 n) ls) = n.
Proof.
  induction ls as [|l ls IH]; intros n H; cbn [fold_right]; [apply repeat_length|].
  inversion H; subst. rewrite padd_length, IH by assumption. lia.
Qed.
Lemma interpolate_length : forall pts vals, length (interpolate pts vals) = length pts.
Proof.
  intros. unfold interpolate. apply fold_padd_length. apply Forall_forall. intros l H.
  apply in_map_iff in H. destruct H as [j [<- Hj]]. apply in_seq in Hj.
  rewrite pscale_length. apply lag_poly_length. lia.
Qed.
Lemma peval_repeat0 : forall n x, peval (repeat F0 n) x = F0.
Proof. intros. exact (peval_app0 [] n x). Qed.

Fixpoint dotn (vals u : list F) : F := (* values beyond the end count as zero *)
  match u with [] => F0 | y :: u' => nth 0 vals F0 * y + dotn (tl vals) u' end.
Lemma dotn_seq : forall (g : nat -> F) n k vals,
  fsum (map (fun j => nth (j - k) vals F0 * g j) (seq k n)) = dotn vals (map g (seq k n)).
Proof.
  intros g. induction n as [|n IH]; intros k vals; cbn [seq map dotn].
  - reflexivity.
  - unfold fsum; cbn [fold_right]. fold (fsum (map (fun j => nth (j - k) vals F0 * g j) (seq (S k) n))).
    rewrite Nat.sub_diag. rewrite <- (IH (S k) (tl vals)). f_equal. f_equal.
    apply map_ext_in. intros j Hj. apply in_seq in Hj. f_equal.
    replace (j - k)%nat with (S (j - S k)) by lia. destruct vals; cbn [nth tl]; [destruct (j - S k)%nat; reflexivity|reflexivity].
Qed.
Lemma peval_interpolate : forall pts vals x,
  peval (interpolate pts vals) x = dotn vals (lag_evals pts x).
Proof.
  intros. unfold interpolate, lag_evals.
  rewrite <- dotn_seq.
  assert (G : forall l n, peval (fold_right padd_ (repeat F0 n) (map (fun j => pscale (nth j vals F0) (lag_poly pts j)) l)) x
    = fsum (map (fun j => nth (j - 0) vals F0 * (fprod (map (fun s => x - s) (others pts j)) * Finv (lag_den pts j))) l)).
  { induction l as [|j l IH]; intros n; cbn [fold_right map].
    - rewrite peval_repeat0. reflexivity.
    - rewrite peval_padd, IH, peval_pscale, peval_lag_poly. unfold fsum; cbn [fold_right map]. rewrite Nat.sub_0_r. reflexivity. }
  apply G.
Qed.
Lemma dot_dotn : forall u vals, length vals <= length u -> dotn vals u = dot u vals.
Proof.
  induction u as [|y u IH]; intros [|v vals] H; cbn [dotn dot nth tl length] in *; try reflexivity; try lia.
  - assert (Z : forall u, dotn [] u = F0).
    { induction u0 as [|y0 u0 IH0]; cbn [dotn nth tl]; [reflexivity|]. rewrite IH0. ring. }
    rewrite Z. ring.
  - rewrite IH by lia. ring.
Qed.

(** ** roots *)
Lemma fprod_zero : forall l, In F0 l -> fprod l = F0.
Proof.
  induction l as [|a l IH]; intros H; [destruct H|]. unfold fprod; cbn [fold_right]. fold (fprod l).
  destruct H as [-> | H]; [ring|]. rewrite IH by assumption. ring.
Qed.
Lemma fprod_nz : forall l, ~ In F0 l -> fprod l <> F0.
Proof.
  induction l as [|a l IH]; intros H.
  - exact F1_neq_0.
  - unfold fprod; cbn [fold_right]. fold (fprod l). intros E. apply Fmul_integral in E.
    destruct E as [E | E]; [apply H; left; exact E|]. apply IH in E; [exact E|]. intros K; apply H; right; exact K.
Qed.
Lemma vanish_root : forall pts x, In x pts -> vanish pts x = F0.
Proof.
  intros. unfold vanish. apply fprod_zero. apply in_map_iff. exists x. split; [ring|assumption].
Qed.
Lemma vanish_nz : forall pts x, ~ In x pts -> vanish pts x <> F0.
Proof.
  intros pts x H. unfold vanish. apply fprod_nz. intros K. apply in_map_iff in K. destruct K as [s [E Hs]].
  apply (proj1 (Fsub_eq0 _ _)) in E. subst. contradiction.
Qed.
Lemma others_in : forall pts j x, In x (others pts j) -> In x pts.
Proof.
  intros pts j x H. unfold others in H. apply in_app_or in H.
  rewrite <- (firstn_skipn j pts). apply in_or_app. destruct H as [H|H]; [left; exact H|right].
  revert H. generalize dependent j. induction pts as [|a pts IH]; intros j H.
  - destruct j; exact H.
  - destruct j as [|j]; cbn [skipn] in *; [right; exact H|]. apply (IH j H).
Qed.
Lemma others_notin : forall pts j, NoDup pts -> j < length pts -> ~ In (nth j pts F0) (others pts j).
Proof.
  induction pts as [|a pts IH]; intros j N L; cbn [length] in L; [lia|].
  inversion N as [|? ? Na Np]; subst. unfold others in *. destruct j as [|j]; cbn [nth firstn skipn app].
  - exact Na.
  - intros [E | H].
    + apply Na. rewrite E. apply nth_In. lia.
    + exact (IH j Np ltac:(lia) H).
Qed.
Lemma others_other : forall pts i j, i < length pts -> i <> j -> In (nth i pts F0) (others pts j).
Proof.
  induction pts as [|a pts IH]; intros i j L N; cbn [length] in L; [lia|].
  unfold others in *. destruct j as [|j], i as [|i]; cbn [nth firstn skipn app]; try lia.
  - apply nth_In; lia.
  - left; reflexivity.
  - right. apply IH; lia.
Qed.
Lemma lag_den_nz : forall pts j, NoDup pts -> j < length pts -> lag_den pts j <> F0.
Proof.
  intros pts j N L. unfold lag_den. apply (vanish_nz (others pts j) (nth j pts F0)). apply others_notin; assumption.
Qed.
Lemma lag_at : forall pts i j, NoDup pts -> i < length pts -> j < length pts ->
  fprod (map (fun s => nth i pts F0 - s) (others pts j)) * Finv (lag_den pts j) = if Nat.eqb i j then F1 else F0.
Proof.
  intros pts i j N Li Lj. destruct (Nat.eqb_spec i j) as [-> | D].
  - fold (lag_den pts j). apply Finv_r. apply lag_den_nz; assumption.
  - pose proof (vanish_root (others pts j) (nth i pts F0) (others_other _ _ _ Li D)) as V. unfold vanish in V.
    rewrite V. ring.
Qed.
Lemma dotn_indicator : forall n k i vals, k <= i < k + n ->
  dotn vals (map (fun j => if Nat.eqb i j then F1 else F0) (seq k n)) = nth (i - k) vals F0.
Proof.
  induction n as [|n IH]; intros k i vals H; [lia|]. cbn [seq map dotn].
  destruct (Nat.eqb_spec i k) as [-> | D].
  - rewrite Nat.sub_diag. clear IH.
    assert (Z : forall m s v, k < s -> dotn v (map (fun j => if Nat.eqb k j then F1 else F0) (seq s m)) = F0).
    { induction m as [|m IHm]; intros s v Hs; cbn [seq map dotn]; [reflexivity|].
      rewrite IHm by lia. destruct (Nat.eqb_spec k s); [lia|]. ring. }
    rewrite Z by lia. ring.
  - rewrite IH by lia. replace (i - k)%nat with (S (i - S k)) by lia.
    destruct vals; cbn [nth tl]; [destruct (i - S k)%nat; ring|ring].
Qed.
Lemma interpolate_at : forall pts vals i, NoDup pts -> i < length pts ->
  peval (interpolate pts vals) (nth i pts F0) = nth i vals F0.
Proof.
  intros pts vals i N L. rewrite peval_interpolate. unfold lag_evals.
  rewrite (map_ext_in _ (fun j => if Nat.eqb i j then F1 else F0)).
  - rewrite dotn_indicator by lia. rewrite Nat.sub_0_r. reflexivity.
  - intros j Hj. apply in_seq in Hj. apply lag_at; [assumption|assumption|lia].
Qed.

(** ** synthetic division by x - s *)
Fixpoint pdiv (s : F) (p : list F) : list F :=
  match p with
  | [] => []
  | _ :: r => match r with [] => [] | _ => peval r s :: pdiv s r end
  end.
Lemma pdiv_spec : forall s p x, peval p x = peval p s + (x - s) * peval (pdiv s p) x.
Proof.
  intros s. induction p as [|c r IH]; intros x.
  - cbn. ring.
  - cbn [pdiv]. destruct r as [|c' r'].
    + cbn. ring.
    + change (peval (c :: c' :: r') x) with (c + x * peval (c' :: r') x).
      change (peval (c :: c' :: r') s) with (c + s * peval (c' :: r') s).
      change (peval (peval (c' :: r') s :: pdiv s (c' :: r')) x)
        with (peval (c' :: r') s + x * peval (pdiv s (c' :: r')) x).
      rewrite (IH x) at 1. ring.
Qed.
Lemma pdiv_length : forall s p, length (pdiv s p) = (length p - 1)%nat.
Proof.
  intros s. induction p as [|c r IH]; [reflexivity|]. cbn [pdiv]. destruct r as [|c' r']; [reflexivity|].
  change (S (length (pdiv s (c' :: r'))) = S (length (c' :: r')) - 1)%nat. rewrite IH. cbn [length]. lia.
Qed.
Lemma pdiv_last : forall s p, 2 <= length p -> last (pdiv s p) F0 = last p F0.
Proof.
  intros s. induction p as [|c r IH]; intros L; cbn [length] in L; [lia|].
  destruct r as [|c' r']; cbn [length] in L; [lia|].
  cbn [pdiv]. destruct r' as [|c'' r''].
  - cbn. ring.
  - change (last (c :: c' :: c'' :: r'') F0) with (last (c' :: c'' :: r'') F0).
    rewrite <- (IH ltac:(cbn [length]; lia)).
    change (pdiv s (c' :: c'' :: r'')) with (peval (c'' :: r'') s :: pdiv s (c'' :: r'')). reflexivity.
Qed.
Lemma pdiv_zero : forall s p, peval p s = F0 -> Forall (fun c => c = F0) (pdiv s p) -> Forall (fun c => c = F0) p.
Proof.
  intros s. induction p as [|c r IH]; intros R Z; [constructor|].
  cbn [pdiv] in Z. destruct r as [|c' r'].
  - constructor; [|constructor]. cbn in R. rewrite <- R. ring.
  - pose proof (Forall_inv Z) as Z1. pose proof (Forall_inv_tail Z) as Z2. cbv beta in Z1. constructor.
    + change (c + s * peval (c' :: r') s = F0) in R. rewrite Z1 in R. rewrite <- R. ring.
    + apply IH; assumption.
Qed.
Lemma roots_zero : forall rs p, NoDup rs -> length p <= length rs -> (forall x, In x rs -> peval p x = F0) ->
  Forall (fun c => c = F0) p.
Proof.
  induction rs as [|s rs IH]; intros p N L R; cbn [length] in L.
  - destruct p; [constructor|cbn [length] in L; lia].
  - inversion N as [|? ? Ns Nr]; subst. apply (pdiv_zero s); [apply R; left; reflexivity|].
    apply IH; [assumption|rewrite pdiv_length; lia|].
    intros x Hx. pose proof (pdiv_spec s p x) as E. rewrite (R x (or_intror Hx)), (R s (or_introl eq_refl)) in E.
    assert (K : (x - s) * peval (pdiv s p) x = F0) by (symmetry; rewrite E at 1; ring).
    apply Fmul_integral in K. destruct K as [K | K]; [|exact K].
    apply (proj1 (Fsub_eq0 _ _)) in K. subst. contradiction.
Qed.
Lemma zero_peval : forall p x, Forall (fun c => c = F0) p -> peval p x = F0.
Proof. intros p x H. induction H as [|c r -> H IH]; cbn [peval]; [reflexivity|]. rewrite IH. ring. Qed.
(** two polynomials of at most n coefficients that agree on n points are equal *)
Lemma psub_zero : forall p q, length p = length q -> Forall (fun c => c = F0) (padd_ p (pscale (- F1) q)) -> p = q.
Proof.
  induction p as [|a p IH]; intros [|b q] L Z; cbn [length] in L; try lia; [reflexivity|].
  cbn [padd_ pscale map] in Z. inversion Z as [|? ? Z1 Z2]; subst. f_equal.
  - apply (proj1 (Fsub_eq0 _ _)). rewrite <- Z1. ring.
  - apply IH; [lia|exact Z2].
Qed.
Lemma agree_eq : forall pts p q, NoDup pts -> length p = length pts -> length q = length pts ->
  (forall x, In x pts -> peval p x = peval q x) -> p = q.
Proof.
  intros pts p q N Lp Lq A. apply psub_zero; [lia|]. apply (roots_zero pts); [assumption| |].
  - rewrite padd_length, pscale_length. lia.
  - intros x Hx. rewrite peval_padd, peval_pscale, (A x Hx). ring.
Qed.

(** ** division by the vanishing polynomial *)
Lemma divide_roots : forall rs p, NoDup rs -> length rs < length p -> (forall x, In x rs -> peval p x = F0) ->
  exists q, length q = (length p - length rs)%nat /\ last q F0 = last p F0 /\ forall x, peval p x = vanish rs x * peval q x.
Proof.
  induction rs as [|s rs IH]; intros p N L R; cbn [length] in *.
  - exists p. split; [lia|]. split; [reflexivity|]. intros x. unfold vanish; cbn. ring.
  - inversion N as [|? ? Ns Nr]; subst.
    destruct (IH (pdiv s p) Nr) as [q [Lq [Eq H]]].
    + rewrite pdiv_length. lia.
    + intros x Hx. pose proof (pdiv_spec s p x) as E. rewrite (R x (or_intror Hx)), (R s (or_introl eq_refl)) in E.
      assert (K : (x - s) * peval (pdiv s p) x = F0) by (symmetry; rewrite E at 1; ring).
      apply Fmul_integral in K. destruct K as [K | K]; [|exact K].
      apply (proj1 (Fsub_eq0 _ _)) in K. subst. contradiction.
    + exists q. rewrite Lq, pdiv_length. split; [lia|]. split.
      * rewrite Eq. apply pdiv_last. lia.
      * intros x. rewrite (pdiv_spec s p x), (R s (or_introl eq_refl)), H. unfold vanish; cbn [map].
        unfold fprod; cbn [fold_right]. ring.
Qed.

(** ** products *)
Fixpoint pmul (p q : list F) : list F :=
  match p with [] => [] | a :: p' => padd_ (pscale a q) (F0 :: pmul p' q) end.
Lemma peval_pmul : forall p q x, peval (pmul p q) x = peval p x * peval q x.
Proof.
  induction p as [|a p IH]; intros q x; cbn [pmul].
  - cbn. ring.
  - rewrite peval_padd, peval_pscale. cbn [peval]. rewrite IH. ring.
Qed.
Lemma pmul_length : forall p q, p <> [] -> q <> [] -> length (pmul p q) = (length p + length q - 1)%nat.
Proof.
  induction p as [|a p IH]; intros q Hp Hq; [congruence|]. cbn [pmul]. rewrite padd_length, pscale_length. cbn [length].
  destruct p as [|b p].
  - cbn [pmul length]. destruct q; [congruence|]. cbn [length]. lia.
  - rewrite IH by congruence. cbn [length]. lia.
Qed.
Lemma last_nth : forall (p : list F), last p F0 = nth (length p - 1) p F0.
Proof.
  induction p as [|a p IH]; [reflexivity|]. destruct p as [|b p]; [reflexivity|].
  change (last (a :: b :: p) F0) with (last (b :: p) F0). rewrite IH.
  change (length (a :: b :: p)) with (S (length (b :: p))).
  replace (S (length (b :: p)) - 1)%nat with (S (length (b :: p) - 1)) by (cbn [length]; lia). reflexivity.
Qed.
Lemma nth_padd : forall p q i, nth i (padd_ p q) F0 = nth i p F0 + nth i q F0.
Proof.
  induction p as [|a p IH]; intros [|b q] i; cbn [padd_].
  - destruct i; cbn; ring.
  - destruct i; cbn [nth]; ring.
  - destruct i; cbn [nth]; ring.
  - destruct i; cbn [nth]; [ring|apply IH].
Qed.
Lemma nth_pscale : forall c p i, nth i (pscale c p) F0 = c * nth i p F0.
Proof.
  intros c. induction p as [|a p IH]; intros i; destruct i; cbn; try ring. exact (IH i).
Qed.
Lemma pmul_last : forall p q, p <> [] -> q <> [] -> last (pmul p q) F0 = last p F0 * last q F0.
Proof.
  induction p as [|a p IH]; intros q Hp Hq; [congruence|].
  rewrite last_nth, pmul_length by assumption. cbn [pmul length]. rewrite nth_padd, nth_pscale.
  assert (Lq : 1 <= length q) by (destruct q; [congruence|cbn [length]; lia]).
  destruct p as [|b p].
  - cbn [pmul length last]. rewrite (last_nth q). replace (1 + length q - 1 - 1)%nat with (length q - 1)%nat by lia.
    assert (Z : nth (length q - 1) [F0] F0 = F0) by (destruct (length q - 1)%nat as [|[|k]]; reflexivity).
    rewrite Z. ring.
  - change (last (a :: b :: p) F0) with (last (b :: p) F0).
    rewrite <- (IH q ltac:(congruence) Hq). rewrite last_nth, pmul_length by congruence.
    change (S (length p)) with (length (b :: p)).
    replace (S (length (b :: p)) + length q - 1 - 1)%nat with (S (length (b :: p) + length q - 1 - 1)) by (cbn [length]; lia).
    cbn [nth]. rewrite (nth_overflow q) by (cbn [length]; lia). ring.
Qed.
