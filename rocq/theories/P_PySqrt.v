(** Lemmas for C129: the ring F[x]/(x^2 - bx + a) and its Frobenius map. *)
From Coq Require Import List ZArith Bool Lia Arith.
From Verif Require Import Primes Field Base M_Groth P_Groth M_Basepoint P_Basepoint M_PyField M_PySqrt.
Import ListNotations.
Local Open Scope Z_scope.
Local Open Scope nat_scope.
Local Open Scope F_scope.

Section Ring.
Variables a b : F.
Definition R : Type := F * F.
Definition radd (u v : R) : R := (fst u + fst v, snd u + snd v).
Definition rmul (u v : R) : R := (fst u * fst v - a * (snd u * snd v), fst u * snd v + snd u * fst v + b * (snd u * snd v)).
Definition rc (c : F) : R := (c, F0).
Fixpoint rpow (z : R) (n : nat) : R := match n with O => rc F1 | S n' => rmul z (rpow z n') end.
Definition rx : R := (F0, F1).
Definition rdelta : R := (- b, F1 + F1).

Ltac rring := unfold radd, rmul, rc, rx, rdelta; cbn [fst snd]; apply f_equal2; ring.
Lemma radd_comm u v : radd u v = radd v u. Proof. rring. Qed.
Lemma radd_assoc u v w : radd u (radd v w) = radd (radd u v) w. Proof. rring. Qed.
Lemma radd_0 u : radd (rc F0) u = u. Proof. destruct u. rring. Qed.
Lemma rmul_comm u v : rmul u v = rmul v u. Proof. rring. Qed.
Lemma rmul_assoc u v w : rmul u (rmul v w) = rmul (rmul u v) w. Proof. rring. Qed.
Lemma rmul_1 u : rmul (rc F1) u = u. Proof. destruct u. rring. Qed.
Lemma rmul_0 u : rmul u (rc F0) = rc F0. Proof. rring. Qed.
Lemma rmul_add u v w : rmul u (radd v w) = radd (rmul u v) (rmul u w). Proof. rring. Qed.
Lemma rc_mul c d : rmul (rc c) (rc d) = rc (c * d). Proof. rring. Qed.
Lemma rc_add c d : radd (rc c) (rc d) = rc (c + d). Proof. rring. Qed.

Lemma rpow_add z m n : rpow z (m + n) = rmul (rpow z m) (rpow z n).
Proof. induction m as [|m IH]; cbn [rpow Nat.add]; [now rewrite rmul_1|]. now rewrite IH, rmul_assoc. Qed.
Lemma rpow_mulb u v n : rpow (rmul u v) n = rmul (rpow u n) (rpow v n).
Proof.
  induction n as [|n IH]; cbn [rpow]; [now rewrite rmul_1|]. rewrite IH.
  rewrite <- !rmul_assoc. apply f_equal. rewrite !rmul_assoc. apply (f_equal (fun t => rmul t (rpow v n))). apply rmul_comm.
Qed.
Lemma rpow_mul z m n : rpow z (m * n) = rpow (rpow z m) n.
Proof.
  induction n as [|n IH]; [rewrite Nat.mul_0_r; reflexivity|]. rewrite Nat.mul_succ_r, rpow_add, IH. cbn [rpow]. apply rmul_comm.
Qed.
Lemma rpow_rc c n : rpow (rc c) n = rc (Fpow c (Z.of_nat n)).
Proof.
  induction n as [|n IH]; cbn [rpow]; [rewrite Fpow_0; reflexivity|]. rewrite IH, rc_mul, Nat2Z.inj_succ, <- Z.add_1_r, Fpow_succ by apply Nat2Z.is_nonneg. f_equal. ring.
Qed.

Fixpoint reval (p : list F) (t : R) : R := match p with [] => rc F0 | c :: r => radd (rc c) (rmul t (reval r t)) end.
Lemma reval_add : forall p q t, reval (padd_ p q) t = radd (reval p t) (reval q t).
Proof.
  induction p as [|c p IH]; intros q t; cbn [padd_ reval]; [now rewrite radd_0|]. destruct q as [|d q]; cbn [reval].
  - rewrite (radd_comm _ (rc F0)), radd_0. reflexivity.
  - rewrite IH, rmul_add, <- rc_add, <- !radd_assoc. apply f_equal. rewrite !radd_assoc. apply (f_equal (fun z => radd z (rmul t (reval q t)))). apply radd_comm.
Qed.
Lemma reval_app1 : forall p c t, reval (p ++ [c]) t = radd (reval p t) (rmul (rc c) (rpow t (length p))).
Proof.
  induction p as [|d p IH]; intros c t; cbn [app reval length rpow].
  - rewrite rmul_0, radd_0, rc_add, rc_mul. f_equal. ring.
  - rewrite IH, rmul_add, radd_assoc. apply f_equal. rewrite !rmul_assoc. now rewrite (rmul_comm t (rc c)).
Qed.
Lemma peval_app1 : forall p c x, peval (p ++ [c]) x = peval p x + c * Fpow x (Z.of_nat (length p)).
Proof.
  induction p as [|d p IH]; intros c x; cbn [app peval length].
  - change (Z.of_nat 0) with 0%Z. rewrite Fpow_0. ring.
  - rewrite IH, Nat2Z.inj_succ, <- Z.add_1_r, Fpow_succ by apply Nat2Z.is_nonneg. ring.
Qed.
(** (1 + t)^n - t^n *)
Fixpoint qpoly (n : nat) : list F := match n with O => [] | S n' => padd_ (qpoly n' ++ [F1]) (F0 :: qpoly n') end.
Lemma padd_length : forall p q, length (padd_ p q) = Nat.max (length p) (length q).
Proof. induction p as [|c p IH]; intros q; cbn [padd_ length]; [reflexivity|]. destruct q; cbn [length]; [lia|]. rewrite IH. lia. Qed.
Lemma qpoly_length n : length (qpoly n) = n.
Proof. induction n as [|n IH]; cbn [qpoly]; [reflexivity|]. rewrite padd_length, app_length. cbn [length]. lia. Qed.
Lemma qpoly_reval n t : rpow (radd (rc F1) t) n = radd (reval (qpoly n) t) (rpow t n).
Proof.
  induction n as [|n IH]; cbn [qpoly rpow reval]; [now rewrite radd_0|].
  rewrite reval_add, reval_app1, qpoly_length, IH, rmul_1. cbn [reval]. rewrite radd_0.
  generalize (reval (qpoly n) t) (rpow t n). intros q r. rring.
Qed.
Lemma qpoly_peval n x : Fpow (F1 + x) (Z.of_nat n) = peval (qpoly n) x + Fpow x (Z.of_nat n).
Proof.
  induction n as [|n IH]; cbn [qpoly peval]; [change (Z.of_nat 0) with 0%Z; rewrite !Fpow_0; ring|].
  rewrite Nat2Z.inj_succ, <- Z.add_1_r, !Fpow_succ by apply Nat2Z.is_nonneg. rewrite peval_padd, peval_app1, qpoly_length, IH. cbn [peval]. ring.
Qed.

(** the number of elements of the field *)
Variable n : nat.
Hypothesis Hn : Z.of_nat n = p_mod.
Lemma all_nodup : NoDup (map (fun i => Fof (Z.of_nat i)) (seq 0 n)).
Proof.
  assert (G : forall l, (forall i, In i l -> (i < n)%nat) -> NoDup l -> NoDup (map (fun i => Fof (Z.of_nat i)) l)).
  { induction l as [|i l IH]; intros B N; cbn [map]; [constructor|]. inversion_clear N as [|? ? N1 N2]. constructor.
    - intros H. apply in_map_iff in H. destruct H as (j & E & Hj). apply N1. apply Fof_inj_small in E.
      + apply Nat2Z.inj in E. now subst j.
      + pose proof (B j (or_intror Hj)). lia.
      + pose proof (B i (or_introl eq_refl)). lia.
    - apply IH; [|exact N2]. intros j Hj. apply B. now right. }
  apply G; [|apply seq_NoDup]. intros i Hi. apply in_seq in Hi. lia.
Qed.
Lemma frobenius1 t : rpow (radd (rc F1) t) n = radd (rc F1) (rpow t n).
Proof.
  assert (N1 : (1 <= n)%nat) by (pose proof p_mod_pos; lia).
  assert (Z : Forall (fun c => c = F0) (padd_ (qpoly n) [- F1])).
  { apply (roots_zero _ _ all_nodup).
    - rewrite padd_length, qpoly_length, map_length, seq_length. cbn [length]. lia.
    - intros x _. rewrite peval_padd. pose proof (qpoly_peval n x) as E. rewrite Hn, !F_fermat_full in E. cbn [peval].
      transitivity ((peval (qpoly n) x + x) - x - F1); [ring|]. rewrite <- E. ring. }
  assert (E : reval (padd_ (qpoly n) [- F1]) t = rc F0).
  { induction Z as [|c r -> Hr IH]; cbn [reval]; [reflexivity|]. rewrite IH, rmul_0, radd_0. reflexivity. }
  rewrite reval_add in E. cbn [reval] in E. rewrite rmul_0, rc_add in E.
  rewrite qpoly_reval. destruct (reval (qpoly n) t) as [q1 q2]. unfold radd, rc in *. cbn [fst snd] in *.
  assert (E1 : q1 + (- F1 + F0) = F0) by exact (f_equal fst E). assert (E2 : q2 + F0 = F0) by exact (f_equal snd E).
  assert (Q1 : q1 = F1) by (transitivity (q1 + (- F1 + F0) + F1); [ring|rewrite E1; ring]). assert (Q2 : q2 = F0) by (rewrite <- E2; ring).
  rewrite Q1, Q2. reflexivity.
Qed.

Definition disc : F := b * b - (F1 + F1) * (F1 + F1) * a.
Hypothesis HD : ~ exists r, disc = r * r.
Hypothesis Hb : b <> F0.
Lemma disc_half : Fpow disc ((p_mod - 1) / 2) = - F1.
Proof.
  set (e := Fpow disc ((p_mod - 1) / 2)).
  assert (N0 : disc <> F0) by (intros E; apply HD; exists F0; rewrite E; ring).
  assert (E : e * e = F1).
  { unfold e. rewrite <- Fpow_add by exact half_nonneg. replace ((p_mod - 1) / 2 + (p_mod - 1) / 2)%Z with (p_mod - 1)%Z by (vm_compute; reflexivity). now apply F_fermat. }
  assert (K : (e - F1) * (e + F1) = F0) by (transitivity (e * e - F1); [ring|rewrite E; ring]).
  apply Fmul_integral in K. destruct K as [K|K].
  - exfalso. apply HD. apply euler_square. apply (proj1 (Fsub_eq0 _ _)) in K. exact K.
  - transitivity (e + F1 - F1); [ring|]. rewrite K. ring.
Qed.
Lemma delta_pow : rpow rdelta n = rmul (rc (- F1)) rdelta.
Proof.
  destruct (Nat.Even_or_Odd n) as [[h Hh]|[h Hh]].
  { exfalso. assert (Z.even p_mod = false) by (vm_compute; reflexivity). rewrite <- Hn, Hh, Nat2Z.inj_mul, Z.even_mul in H. discriminate. }
  assert (E : Z.of_nat h = ((p_mod - 1) / 2)%Z) by (rewrite <- Hn, Hh; apply Z.div_unique_exact; lia).
  rewrite Hh, rpow_add, rpow_mul. cbn [rpow]. rewrite (rmul_comm rdelta (rc F1)), rmul_1.
  replace (rmul rdelta rdelta) with (rc disc) by (unfold disc; rring). rewrite rpow_rc, E, disc_half. reflexivity.
Qed.
Lemma x_pow : rpow rx n = (b, - F1).
Proof.
  set (i2 := Finv (F1 + F1)). assert (T : (F1 + F1) * i2 = F1). { apply Finv_r. intros E. apply F2_neq_0. change 2%Z with (1 + 1)%Z. rewrite Fof_add. exact E. }
  assert (B : b * Finv b = F1) by (apply Finv_r; exact Hb). set (ib := Finv b) in *.
  assert (X : rx = rmul (rc (b * i2)) (radd (rc F1) (rmul (rc ib) rdelta))).
  { unfold rmul, radd, rc, rx, rdelta. cbn [fst snd]. apply f_equal2.
    - transitivity (b * i2 * (F1 - b * ib)); [rewrite B; ring|ring].
    - transitivity (b * ib * ((F1 + F1) * i2)); [rewrite B, T; ring|ring]. }
  rewrite X, rpow_mulb, frobenius1, rpow_mulb, !rpow_rc, Hn, !F_fermat_full, delta_pow.
  unfold rmul, radd, rc, rdelta. cbn [fst snd]. apply f_equal2.
  - transitivity (b * i2 * (F1 + b * ib)); [ring|]. rewrite B. transitivity (b * ((F1 + F1) * i2)); [ring|]. rewrite T. ring.
  - transitivity (- ((b * ib) * ((F1 + F1) * i2))); [ring|]. rewrite B, T. ring.
Qed.
Lemma root_pow m s : (m + m = S n)%nat -> a = s * s -> a <> F0 -> snd (rpow rx m) = F0 /\ fst (rpow rx m) * fst (rpow rx m) = a.
Proof.
  intros Hm Ha N. assert (E : rmul (rpow rx m) (rpow rx m) = rc a).
  { rewrite <- rpow_add, Hm. cbn [rpow]. rewrite x_pow. rring. }
  destruct (rpow rx m) as [u v]. unfold rmul, rc in E. cbn [fst snd] in *.
  assert (E1 : u * u - a * (v * v) = a) by exact (f_equal fst E). assert (E2 : v * ((F1 + F1) * u + b * v) = F0) by (rewrite <- (f_equal snd E : u * v + v * u + b * (v * v) = F0); ring). clear E.
  apply Fmul_integral in E2. destruct E2 as [E2|E2].
  - rewrite E2 in *. split; [reflexivity|]. rewrite <- E1. ring.
  - destruct (Feq_dec v F0) as [V|V]; [subst v; split; [reflexivity|rewrite <- E1; ring]|]. exfalso. apply HD.
    exists ((F1 + F1) * s * Finv v). assert (VV : v * Finv v = F1) by (apply Finv_r; exact V).
    assert (D4 : disc * (v * v) = (F1 + F1) * (F1 + F1) * a).
    { transitivity ((F1 + F1) * (F1 + F1) * (u * u - a * (v * v))); [|rewrite E1; reflexivity]. unfold disc. transitivity ((F1 + F1) * (F1 + F1) * (u * u - a * (v * v)) - ((F1 + F1) * u + b * v) * ((F1 + F1) * u - b * v)); [ring|]. rewrite E2. ring. }
    transitivity (disc * (v * v) * (Finv v * Finv v)); [transitivity (disc * (v * Finv v) * (v * Finv v)); [rewrite VV; ring|ring]|]. rewrite D4, Ha. ring.
Qed.
End Ring.

(** ** a discriminant that is not a square *)
Lemma bounded_search (P : nat -> bool) : forall k, (exists i, (i < k)%nat /\ P i = true) \/ (forall i, (i < k)%nat -> P i = false).
Proof.
  induction k as [|k [(i & Hi & E)|IH]].
  - right. intros i Hi. lia.
  - left. exists i. split; [lia|exact E].
  - destruct (P k) eqn:E; [left; exists k; split; [lia|exact E]|]. right. intros i Hi. destruct (Nat.eq_dec i k) as [->|]; [exact E|]. apply IH. lia.
Qed.
Definition four_a (a : F) : F := (F1 + F1) * (F1 + F1) * a.
Lemma minus_one_square : exists i, i * i = - F1.
Proof.
  destruct (euler_square (- F1)) as [i Hi]; [|now exists i]. apply Feqb_true. vm_compute. reflexivity.
Qed.
Lemma nonsquare_exists a s : a = s * s -> a <> F0 -> forall n, Z.of_nat n = p_mod ->
  exists i, (i < n)%nat /\ (2 <= i)%nat /\ ~ exists r, Fof (Z.of_nat i) * Fof (Z.of_nat i) - four_a a = r * r.
Proof.
  intros Ha N n Hn. assert (N2 : (2 < n)%nat) by (assert (2 < p_mod)%Z by (vm_compute; reflexivity); lia).
  set (P := fun i => (2 <=? i)%nat && (mpz_jacobi (Fof (Z.of_nat i) * Fof (Z.of_nat i) - four_a a) =? -1)%Z).
  destruct (bounded_search P n) as [(i & Hi & E)|All].
  - exists i. unfold P in E. apply andb_true_iff in E. destruct E as [E1 E2]. apply Nat.leb_le in E1. apply Z.eqb_eq in E2. split; [exact Hi|]. split; [exact E1|]. now apply jacobi_iff.
  - exfalso.
    assert (S1 : forall i, (2 <= i < n)%nat -> exists r, Fof (Z.of_nat i) * Fof (Z.of_nat i) - four_a a = r * r).
    { intros i Hi. apply jacobi_root. intros E. specialize (All i (proj2 Hi)). unfold P in All. apply Z.eqb_eq in E. rewrite E, andb_true_r in All. apply Nat.leb_gt in All. lia. }
    assert (S2 : forall x, exists r, x * x - four_a a = r * r).
    { intros x. pose proof (fval_range x) as B. destruct (Z_lt_le_dec (fval x) 2) as [L|L].
      - assert (C : fval x = 0%Z \/ fval x = 1%Z) by lia. destruct C as [C|C].
        + replace x with F0 by (apply fval_inj; rewrite C; reflexivity). destruct minus_one_square as [j Hj]. exists (j * (F1 + F1) * s).
          unfold four_a. rewrite Ha. transitivity ((- F1) * ((F1 + F1) * (F1 + F1) * (s * s))); [ring|]. rewrite <- Hj. ring.
        + destruct (S1 (n - 1)%nat) as [r Hr]; [lia|]. exists r. rewrite <- Hr.
          replace (Fof (Z.of_nat (n - 1))) with (- F1). { replace x with F1 by (apply fval_inj; rewrite C; reflexivity). ring. }
          rewrite Nat2Z.inj_sub, Hn, Fof_sub, Fof_p by lia. change (Fof (Z.of_nat 1)) with F1. ring.
      - destruct (S1 (Z.to_nat (fval x))) as [r Hr]; [lia|]. rewrite Z2Nat.id, Fof_fval in Hr by lia. now exists r. }
    assert (S3 : forall k : nat, exists r, - (Fof (Z.of_nat k) * four_a a) = r * r).
    { induction k as [|k [r Hr]]; [exists F0; change (Fof (Z.of_nat 0)) with F0; ring|]. destruct (S2 r) as [q Hq]. exists q. rewrite <- Hq, <- Hr, Nat2Z.inj_succ, <- Z.add_1_r, Fof_add. change (Fof 1) with F1. ring. }
    assert (N4 : four_a a <> F0).
    { assert (T : F1 + F1 <> F0) by (intros E; apply F2_neq_0; change 2%Z with (1 + 1)%Z; rewrite Fof_add; exact E). unfold four_a. now repeat apply Fmul_nz. }
    assert (S4 : forall x, exists r, x = r * r).
    { intros x. set (e := - (x * Finv (four_a a))). destruct (S3 (Z.to_nat (fval e))) as [r Hr]. exists r. rewrite <- Hr, Z2Nat.id, Fof_fval by (apply fval_range). unfold e.
      transitivity (x * (four_a a * Finv (four_a a))); [rewrite Finv_r by exact N4; ring|ring]. }
    destruct (S4 (Fof 168696)) as [r Hr]. apply (proj1 (jacobi_iff (Fof 168696))); [|now exists r]. vm_compute. reflexivity.
Qed.
