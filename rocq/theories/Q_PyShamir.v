(** Final lemmas for the properties of /repo/ethsnarks/shamirspoly.py. *)
From Coq Require Import List ZArith Bool Arith Lia.
From Verif Require Import Primes Field Base M_Groth P_Curve P_Groth Q_PyPoseidon M_PyShamir Spec_PyShamir.
Import ListNotations.
Local Open Scope nat_scope.
Local Open Scope F_scope.

Lemma Fpow_S x n : Fpow x (Z.of_nat (S n)) = x * Fpow x (Z.of_nat n).
Proof. rewrite Nat2Z.inj_succ, <- Z.add_1_r, Fpow_succ by lia. ring. Qed.
Lemma poly_peval a x : poly_at a x = peval a x.
Proof.
  unfold poly_at. induction a as [|c a IH]; [reflexivity|]. cbn [length seq map fold_right peval nth]. rewrite <- IH.
  change (Z.of_nat 0) with 0%Z. rewrite Fpow_0. rewrite <- seq_shift, map_map.
  transitivity (c + fold_right Fadd F0 (map (fun i => x * (nth i a F0 * Fpow x (Z.of_nat i))) (seq 0 (length a)))).
  - f_equal; [ring|]. f_equal. apply map_ext. intros i. cbn [nth]. rewrite Fpow_S. ring.
  - f_equal. generalize (seq 0 (length a)) as l. induction l as [|i l IHl]; [cbn [map fold_right]; ring|]. cbn [map fold_right]. rewrite IHl. ring.
Qed.
Lemma shamirs_loop_ok x : forall a xp r, shamirs_loop x xp r a = r + xp * peval a x.
Proof. induction a as [|c a IH]; intros xp r; cbn [shamirs_loop peval]; [ring|]. rewrite IH. ring. Qed.
Lemma shamirs_poly_lemma : forall x a, ((2 <= length a)%nat -> shamirs_poly x a = Ok (poly_at a x)) /\ ((length a < 2)%nat -> shamirs_poly x a = Throw).
Proof.
  intros x a. unfold shamirs_poly. split; intros H.
  - rewrite (proj2 (Nat.leb_le 2 (length a)) H). destruct a as [|a0 r]; [cbn in H; lia|]. rewrite poly_peval, shamirs_loop_ok. reflexivity.
  - rewrite (proj2 (Nat.leb_gt 2 (length a)) H). reflexivity.
Qed.

Lemma coef_fold x xi i : forall (pts : list (F * F)) k tot,
  fold_left (fun tot '(j, (xj, _)) => if i =? j then tot else tot * fq_div (x - xj) (xi - xj)) (combine (seq k (length pts)) pts) tot =
  tot * fprod (map (fun s => fq_div (x - s) (xi - s)) (if i <? k then map fst pts else others (map fst pts) (i - k))).
Proof.
  induction pts as [|[a b] pts IH]; intros k tot.
  - cbn [length seq combine fold_left map]. destruct (i <? k); [unfold fprod; cbn [map fold_right]; ring|]. unfold others. rewrite firstn_nil. cbn [skipn app map]. unfold fprod; cbn [fold_right]. ring.
  - cbn [length seq combine fold_left map fst]. destruct (Nat.eqb_spec i k) as [->|N].
    + rewrite IH. rewrite Nat.ltb_irrefl, Nat.sub_diag. unfold others at 2. cbn [firstn skipn app]. now rewrite (proj2 (Nat.ltb_lt k (S k))) by lia.
    + rewrite IH. destruct (Nat.ltb_spec i k) as [H|H].
      * rewrite (proj2 (Nat.ltb_lt i (S k))) by lia. cbn [map]. unfold fprod. cbn [fold_right]. ring.
      * rewrite (proj2 (Nat.ltb_ge i (S k))) by lia. replace (i - k)%nat with (S (i - S k)) by lia. unfold others. cbn [firstn skipn app map]. unfold fprod. cbn [fold_right]. ring.
Qed.
Lemma coef_prod points x i xi : lagrange_coef points x i xi = fprod (map (fun s => fq_div (x - s) (xi - s)) (others (map fst points) i)).
Proof. unfold lagrange_coef, enum. rewrite coef_fold. cbn [Nat.ltb Nat.leb]. rewrite Nat.sub_0_r. change (i <? 0) with false. cbv iota. ring. Qed.
Lemma coef_quot x xi : forall l, ~ In xi l -> fprod (map (fun s => fq_div (x - s) (xi - s)) l) = fprod (map (fun s => x - s) l) * Finv (fprod (map (fun s => xi - s) l)).
Proof.
  intros l N. assert (NZ : fprod (map (fun s => xi - s) l) <> F0).
  { apply fprod_nz. intros K. apply in_map_iff in K. destruct K as (s & E & Hs). apply (proj1 (Fsub_eq0 _ _)) in E. now subst. }
  assert (E : fprod (map (fun s => fq_div (x - s) (xi - s)) l) * fprod (map (fun s => xi - s) l) = fprod (map (fun s => x - s) l)).
  { clear NZ. induction l as [|s l IH]; [unfold fprod; cbn [map fold_right]; ring|]. cbn [map]. unfold fprod in *. cbn [fold_right]. rewrite <- IH by (intros H; apply N; now right).
    assert (D : xi - s <> F0) by (intros H; apply N; left; symmetry; now apply (proj1 (Fsub_eq0 _ _))).
    unfold fq_div at 1. rewrite inv_pow by exact D.
    transitivity (((xi - s) * Finv (xi - s)) * ((x - s) * (fold_right Fmul F1 (map (fun s0 => fq_div (x - s0) (xi - s0)) l) * fold_right Fmul F1 (map (fun s0 => xi - s0) l)))); [ring|].
    rewrite Finv_r by exact D. ring. }
  rewrite <- E. transitivity (fprod (map (fun s => fq_div (x - s) (xi - s)) l) * (fprod (map (fun s => xi - s) l) * Finv (fprod (map (fun s => xi - s) l)))); [|ring].
  rewrite Finv_r by exact NZ. ring.
Qed.
Lemma total_fold (f : nat -> F -> F) : forall (pts : list (F * F)) k tot,
  fold_left (fun total '(i, (xi, yi)) => total + yi * f i xi) (combine (seq k (length pts)) pts) tot =
  tot + dotn (map snd pts) (map (fun i => f i (nth (i - k) (map fst pts) F0)) (seq k (length pts))).
Proof.
  induction pts as [|[a b] pts IH]; intros k tot; [cbn [length seq combine fold_left map dotn]; ring|]. cbn [length seq combine fold_left map fst snd dotn tl]. rewrite IH, Nat.sub_diag.
  assert (E : map (fun i => f i (nth (i - k) (a :: map fst pts) F0)) (seq (S k) (length pts)) = map (fun i => f i (nth (i - S k) (map fst pts) F0)) (seq (S k) (length pts))).
  { apply map_ext_in. intros i Hi. apply in_seq in Hi. replace (i - k)%nat with (S (i - S k)) by lia. reflexivity. }
  rewrite E. cbn [nth]. ring.
Qed.
Lemma lagrange_interp points x : NoDup (map fst points) -> lagrange points x = peval (interpolate (map fst points) (map snd points)) x.
Proof.
  intros N. unfold lagrange, enum. rewrite (total_fold (lagrange_coef points x)). rewrite peval_interpolate. unfold lag_evals. rewrite map_length.
  replace (map (fun i => lagrange_coef points x i (nth (i - 0) (map fst points) F0)) (seq 0 (length points)))
    with (map (fun j => fprod (map (fun s => x - s) (others (map fst points) j)) * Finv (lag_den (map fst points) j)) (seq 0 (length points))); [ring|].
  apply map_ext_in. intros i Hi. apply in_seq in Hi. rewrite Nat.sub_0_r, coef_prod. symmetry. apply coef_quot. apply others_notin; [exact N|rewrite map_length; lia].
Qed.
Lemma poly_unique p q xs : NoDup xs -> (length p <= length xs)%nat -> (length q <= length xs)%nat -> (forall x, In x xs -> peval p x = peval q x) -> Forall (fun c => c = F0) (padd_ p (pscale (- F1) q)).
Proof.
  intros N Lp Lq H. apply (roots_zero xs); [exact N|rewrite padd_length, pscale_length; lia|]. intros x Hx. rewrite peval_padd, peval_pscale, (H x Hx). ring.
Qed.
Lemma lagrange_lemma : forall a xs x, NoDup xs -> (length a <= length xs)%nat -> lagrange (shares a xs) x = poly_at a x.
Proof.
  intros a xs x N L. unfold shares.
  assert (E1 : map fst (map (fun x => (x, poly_at a x)) xs) = xs) by (rewrite map_map; cbn [fst]; apply map_id).
  assert (E2 : map snd (map (fun x => (x, poly_at a x)) xs) = map (poly_at a) xs) by now rewrite map_map.
  rewrite lagrange_interp by (rewrite E1; exact N). rewrite E1, E2, poly_peval.
  assert (Z := poly_unique (interpolate xs (map (poly_at a) xs)) a xs N). rewrite interpolate_length in Z. specialize (Z (le_n _) L).
  assert (G : peval (padd_ (interpolate xs (map (poly_at a) xs)) (pscale (- F1) a)) x = F0).
  { apply zero_peval. apply Z. intros y Hy. apply (In_nth _ _ F0) in Hy. destruct Hy as (i & Hi & <-). rewrite interpolate_at by assumption.
    rewrite (nth_indep _ F0 (poly_at a F0)) by now rewrite map_length. rewrite map_nth. apply poly_peval. }
  rewrite peval_padd, peval_pscale in G. apply (proj1 (Fsub_eq0 _ _)). rewrite <- G. ring.
Qed.
(** fewer shares than coefficients are consistent with every secret, in exactly one way *)
Lemma secrecy_lemma : forall xs ys s, NoDup xs -> ~ In F0 xs -> length ys = length xs ->
  exists! a, length a = S (length xs) /\ poly_at a F0 = s /\ shares a xs = combine xs ys.
Proof.
  intros xs ys s N N0 L. assert (N' : NoDup (F0 :: xs)) by now constructor.
  exists (interpolate (F0 :: xs) (s :: ys)).
  assert (V : forall i, (i < S (length xs))%nat -> peval (interpolate (F0 :: xs) (s :: ys)) (nth i (F0 :: xs) F0) = nth i (s :: ys) F0).
  { intros i Hi. now apply interpolate_at. }
  split; [split; [apply interpolate_length|split]|].
  - rewrite poly_peval. exact (V 0%nat ltac:(lia)).
  - unfold shares. apply (nth_ext _ _ (F0, F0) (F0, F0)); [rewrite map_length, combine_length; lia|]. intros i Hi. rewrite map_length in Hi.
    rewrite combine_nth by lia. rewrite (nth_indep _ _ ((fun x => (x, poly_at (interpolate (F0 :: xs) (s :: ys)) x)) F0)) by now rewrite map_length.
    rewrite (map_nth (fun x => (x, poly_at (interpolate (F0 :: xs) (s :: ys)) x))). rewrite poly_peval. specialize (V (S i) ltac:(lia)). cbn [nth] in V. now rewrite V.
  - intros b (Lb & Hb & Sb). apply psub_zero; [now rewrite interpolate_length|]. apply (poly_unique _ _ (F0 :: xs)); [exact N'|now rewrite interpolate_length|cbn [length]; lia|].
    intros x Hx. apply (In_nth _ _ F0) in Hx. destruct Hx as (i & Hi & <-). cbn [length] in Hi. rewrite V by lia. destruct i as [|i]; cbn [nth]; [now rewrite <- poly_peval|].
    apply (f_equal (fun l => snd (nth i l (F0, F0)))) in Sb. rewrite combine_nth in Sb by lia. cbn [snd] in Sb. rewrite <- Sb. unfold shares.
    rewrite (nth_indep _ _ ((fun x => (x, poly_at b x)) F0)) by (rewrite map_length; lia). rewrite (map_nth (fun x => (x, poly_at b x))). cbn [snd]. apply poly_peval.
Qed.
(** two shares for the same place are ignored without notice *)
Lemma fq_div_0 a : fq_div a F0 = F0.
Proof. unfold fq_div. rewrite Fpow_base_0 by reflexivity. ring. Qed.
Lemma duplicate_lemma : forall a y1 y2 points x, lagrange ((a, y1) :: (a, y2) :: points) x = lagrange ((a, F0) :: (a, F0) :: points) x.
Proof.
  intros a y1 y2 points x. unfold lagrange, enum. rewrite !(total_fold (lagrange_coef _ x)). cbn [map fst snd].
  assert (E : forall z1 z2 i xi, lagrange_coef ((a, z1) :: (a, z2) :: points) x i xi = lagrange_coef ((a, F0) :: (a, F0) :: points) x i xi) by (intros; now rewrite !coef_prod).
  assert (Z0 : lagrange_coef ((a, F0) :: (a, F0) :: points) x 0 a = F0).
  { rewrite coef_prod. apply fprod_zero. cbn [map fst others firstn skipn app]. left. replace (a - a) with F0 by ring. apply fq_div_0. }
  assert (Z1 : lagrange_coef ((a, F0) :: (a, F0) :: points) x 1 a = F0).
  { rewrite coef_prod. apply fprod_zero. cbn [map fst others firstn skipn app]. left. replace (a - a) with F0 by ring. apply fq_div_0. }
  rewrite (map_ext (fun i => lagrange_coef ((a, y1) :: (a, y2) :: points) x i _) (fun i => lagrange_coef ((a, F0) :: (a, F0) :: points) x i (nth (i - 0) (a :: a :: map fst points) F0))) by (intros i; apply E).
  cbn [length seq map dotn tl]. set (g := fun i => lagrange_coef ((a, F0) :: (a, F0) :: points) x i (nth (i - 0) (a :: a :: map fst points) F0)).
  change (lagrange_coef ((a, F0) :: (a, F0) :: points) x 0 (nth (0 - 0) (a :: a :: map fst points) F0)) with (lagrange_coef ((a, F0) :: (a, F0) :: points) x 0 a).
  change (lagrange_coef ((a, F0) :: (a, F0) :: points) x 1 (nth (1 - 0) (a :: a :: map fst points) F0)) with (lagrange_coef ((a, F0) :: (a, F0) :: points) x 1 a).
  rewrite Z0, Z1. ring.
Qed.
Lemma duplicate_refuted_lemma : exists a xs u v x, length a = 2%nat /\ In u xs /\ In v xs /\ u <> v /\ lagrange (shares a xs) x <> poly_at a x.
Proof.
  exists [Fof 5; F1], [F1; F1; Fof 2], F1, (Fof 2), F0. split; [reflexivity|]. split; [left; reflexivity|]. split; [right; right; left; reflexivity|].
  split; [intros H; apply Feqb_true in H; vm_compute in H; discriminate|].
  rewrite poly_peval. intros H. apply Feqb_true in H. vm_compute in H. discriminate.
Qed.
Lemma inverse_fold i y_i y : forall (pts : list (F * F)) k c,
  fold_left (fun x_i '(j, (_, y_j)) => if j =? i then x_i else fq_div (x_i * (y - y_j)) (y_i - y_j)) (combine (seq k (length pts)) pts) c =
  fold_left (fun tot '(j, (xj, _)) => if i =? j then tot else tot * fq_div (y - xj) (y_i - xj)) (combine (seq k (length pts)) (map (fun '(a, b) => (b, a)) pts)) c.
Proof.
  induction pts as [|[a b] pts IH]; intros k c; [reflexivity|]. cbn [length seq combine map fold_left]. rewrite IH, (Nat.eqb_sym i k). f_equal.
  destruct (k =? i); [reflexivity|]. unfold fq_div. ring.
Qed.
Lemma inverse_lagrange_lemma : forall points y, inverse_lagrange points y = lagrange (map (fun '(a, b) => (b, a)) points) y.
Proof.
  intros points y. unfold inverse_lagrange, lagrange, enum. set (sw := map (fun '(a, b) => (b, a)) points). assert (LS : length sw = length points) by apply map_length.
  assert (H : forall pts k c, 
    fold_left (fun x '(i, (x_i, y_i)) => x + fold_left (fun x_i '(j, (_, y_j)) => if j =? i then x_i else fq_div (x_i * (y - y_j)) (y_i - y_j)) (combine (seq 0 (length points)) points) x_i) (combine (seq k (length pts)) pts) c =
    fold_left (fun total '(i, (xi, yi)) => total + yi * lagrange_coef sw y i xi) (combine (seq k (length pts)) (map (fun '(a, b) => (b, a)) pts)) c).
  { induction pts as [|[a b] pts IH]; intros k c; [reflexivity|]. cbn [length seq combine map fold_left]. rewrite IH. f_equal. f_equal.
    rewrite inverse_fold. fold sw. unfold lagrange_coef, enum. rewrite LS, <- LS. rewrite !coef_fold. ring. }
  rewrite H. fold sw. now rewrite LS.
Qed.
