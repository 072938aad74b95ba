(** Multiples and sums of curve points. *)
From Coq Require Import List NArith ZArith Bool Arith Lia.
From Verif Require Import Field M_Point Spec_Curve P_Curve.
Import ListNotations.
Local Open Scope N_scope.

Lemma smul_0 P : smul 0 P = pzero.
Proof. reflexivity. Qed.
Lemma smul_succ n P : smul (N.succ n) P = padd P (smul n P).
Proof. unfold smul. apply N.iter_succ. Qed.
Lemma smul_1 P : smul 1 P = P.
Proof. change 1 with (N.succ 0). rewrite smul_succ, smul_0. apply padd_0_r. Qed.

Lemma smul_on n P : on_curve P -> on_curve (smul n P).
Proof.
  intros H. induction n using N.peano_ind; [exact pzero_on|]. rewrite smul_succ. now apply padd_closed.
Qed.

Lemma smul_add a b P : on_curve P -> smul (a + b) P = padd (smul a P) (smul b P).
Proof.
  intros H. induction a using N.peano_ind.
  - rewrite N.add_0_l, smul_0. symmetry. apply padd_0_l.
  - rewrite N.add_succ_l, !smul_succ, IHa. symmetry. apply padd_assoc; auto using smul_on.
Qed.

Lemma smul_zero n : smul n pzero = pzero.
Proof. induction n using N.peano_ind; [reflexivity|]. rewrite smul_succ, IHn. apply padd_0_r. Qed.

Lemma smul_mul a b P : on_curve P -> smul (a * b) P = smul a (smul b P).
Proof.
  intros H. induction a using N.peano_ind; [reflexivity|].
  rewrite N.mul_succ_l, N.add_comm, smul_add, smul_succ, IHa; auto.
Qed.

Lemma smul_2 P : smul 2 P = padd P P.
Proof. change 2 with (N.succ 1). now rewrite smul_succ, smul_1. Qed.

Lemma smul_double n P : on_curve P -> padd (smul n P) (smul n P) = smul (2 * n) P.
Proof. intros H. rewrite smul_mul by assumption. now rewrite smul_2. Qed.

Lemma padd_swap A B C D : on_curve A -> on_curve B -> on_curve C -> on_curve D ->
  padd (padd A B) (padd C D) = padd (padd A C) (padd B D).
Proof.
  intros. rewrite !padd_assoc; auto using padd_closed. f_equal.
  rewrite <- !padd_assoc; auto using padd_closed. f_equal. apply padd_comm.
Qed.

Lemma smul_padd n P Q : on_curve P -> on_curve Q -> smul n (padd P Q) = padd (smul n P) (smul n Q).
Proof.
  intros HP HQ. induction n using N.peano_ind.
  - rewrite !smul_0. symmetry. apply padd_0_r.
  - rewrite !smul_succ, IHn. apply padd_swap; auto using smul_on.
Qed.

Lemma bits_N_app a b : bits_N (a ++ b) = bits_N a + 2 ^ N.of_nat (length a) * bits_N b.
Proof.
  induction a as [|x a IH]; cbn [app bits_N length].
  - change (N.of_nat 0) with 0. rewrite N.pow_0_r. lia.
  - rewrite IH. rewrite Nat2N.inj_succ, N.pow_succ_r'. lia.
Qed.

(** sums of lists *)
Definition psum (l : list point) : point := fold_right padd pzero l.
Lemma psum_on l : Forall on_curve l -> on_curve (psum l).
Proof. induction 1; cbn; [exact pzero_on|now apply padd_closed]. Qed.
Lemma psum_app a b : Forall on_curve a -> Forall on_curve b -> psum (a ++ b) = padd (psum a) (psum b).
Proof.
  intros Ha Hb. induction Ha; cbn [app psum fold_right].
  - symmetry. apply padd_0_l.
  - fold (psum (l ++ b)) (psum l). rewrite IHHa. symmetry. apply padd_assoc; auto using psum_on.
Qed.
Lemma psum_snoc a x : Forall on_curve a -> on_curve x -> psum (a ++ [x]) = padd (psum a) x.
Proof.
  intros Ha Hx. rewrite psum_app by auto. cbn [psum fold_right]. now rewrite padd_0_r.
Qed.
