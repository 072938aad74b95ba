(** Lemmas for C129: the function [jacobi] computes the symbol. *)
From Coq Require Import List ZArith Bool Lia Znumtheory.
From Verif Require Import Base Pocklington P_PyJacobi M_PySqrt.
Import ListNotations.
Local Open Scope nat_scope.
Local Open Scope Z_scope.

Lemma strip2_ok : forall a a1 e, strip2 a = (a1, e) -> Zpos a = a1 * 2 ^ e /\ 0 <= e /\ 0 < a1 /\ a1 mod 2 = 1.
Proof.
  induction a as [a IH|a IH|]; intros a1 e; cbn [strip2].
  - intros E. assert (E1 : Zpos (xI a) = a1) by congruence. assert (E2 : 0 = e) by congruence. subst e a1. rewrite Z.pow_0_r, Pos2Z.inj_xI. split; [lia|]. split; [lia|]. split; [lia|].
    rewrite Z.add_comm, Z.mul_comm, Z_mod_plus_full. reflexivity.
  - destruct (strip2 a) as [b f]. intros E. assert (E1 : b = a1) by congruence. assert (E2 : f + 1 = e) by congruence. subst a1 e.
    destruct (IH b f eq_refl) as (I1 & I2 & I3 & I4). rewrite Pos2Z.inj_xO, I1, Z.pow_add_r, Z.pow_1_r by lia. split; [lia|]. split; [lia|]. split; assumption.
  - intros E. assert (E1 : 1 = a1) by congruence. assert (E2 : 0 = e) by congruence. subst. repeat split; lia || reflexivity.
Qed.
Definition sign (b : bool) : Z := if b then -1 else 1.
Lemma gcd_pow2 h e : 0 <= h -> 0 <= e -> Z.gcd (2 ^ e) (2 * h + 1) = 1.
Proof.
  intros H E. apply Zgcd_1_rel_prime. pattern e. apply natlike_ind; [apply rel_prime_1| |exact E]. intros x Hx IH.
  rewrite Z.pow_succ_r by exact Hx. apply rel_prime_sym. apply rel_prime_mult; [|apply rel_prime_sym; exact IH]. apply bezout_rel_prime. apply Bezout_intro with 1 (- h). ring.
Qed.
Lemma J_pow2 h e : 0 <= h -> 0 <= e -> J h (2 ^ e) = Z.odd e && J h 2.
Proof.
  intros H E. pattern e. apply natlike_ind; [apply J_1; exact H| |exact E]. intros x Hx IH.
  rewrite Z.pow_succ_r by exact Hx. rewrite (J_mul h H 2 (2 ^ x) (gcd_pow2 h 1 H ltac:(lia)) (gcd_pow2 h x H Hx)). rewrite IH, Z.odd_succ, <- Z.negb_odd. destruct (Z.odd x), (J h 2); reflexivity.
Qed.

Lemma jacobi_partial : forall fuel a h r, 1 <= h -> Z.gcd a (2 * h + 1) = 1 -> jacobi fuel a (2 * h + 1) = Ok r -> r = sign (J h a).
Proof.
  induction fuel as [|fuel IH]; intros a h r H G; [discriminate|]. cbn [jacobi]. set (n := 2 * h + 1) in *.
  destruct ((3 <=? n) && (n mod 2 =? 1)); [|discriminate].
  assert (GM : Z.gcd (a mod n) n = 1) by (rewrite Z.gcd_mod by (unfold n; lia); now rewrite Z.gcd_comm).
  assert (B : 0 <= a mod n < n) by (apply Z.mod_pos_bound; unfold n; lia).
  rewrite <- (J_mod h a). fold n. set (c := a mod n) in *. clearbody c. clear a G.
  destruct (Z.eqb_spec c 0) as [C0|C0]; [exfalso; subst c; change (Z.gcd 0 n) with (Z.abs n) in GM; unfold n in *; lia|].
  destruct (Z.eqb_spec c 1) as [C1|C1]; [subst c; rewrite J_1 by lia; intros E; cbn [sign]; congruence|].
  destruct (strip2 (Z.to_pos c)) as [a1 e] eqn:ES. destruct (strip2_ok _ _ _ ES) as (S1 & S2 & S3 & S4). rewrite Z2Pos.id in S1 by lia.
  assert (P2 : 0 < 2 ^ e) by (apply Z.pow_pos_nonneg; lia).
  assert (G1 : Z.gcd a1 n = 1).
  { apply Zgcd_1_rel_prime. apply rel_prime_div with c; [now apply Zgcd_1_rel_prime|]. exists (2 ^ e). lia. }
  assert (JJ : J h c = xorb (J h a1) (Z.odd e && J h 2)) by (rewrite S1, (J_mul h ltac:(lia) a1 (2 ^ e) G1 (gcd_pow2 h e ltac:(lia) S2)), J_pow2 by lia; reflexivity).
  assert (SS : (if (e mod 2 =? 0) || (n mod 8 =? 1) || (n mod 8 =? 7) then 1 else -1) = sign (Z.odd e && J h 2)).
  { rewrite J_2 by lia. fold n. rewrite Zmod_odd. destruct (Z.odd e); cbn [Z.eqb orb andb]; [|reflexivity]. destruct ((n mod 8 =? 1) || (n mod 8 =? 7)); reflexivity. }
  rewrite SS, JJ. destruct (Z.eqb_spec a1 1) as [A1|A1].
  - intros E. rewrite A1, J_1 by lia. rewrite xorb_false_l. congruence.
  - set (g := a1 / 2). assert (A2 : a1 = 2 * g + 1) by (pose proof (Z.div_mod a1 2 ltac:(lia)); unfold g; lia). assert (G3 : 1 <= g) by lia.
    destruct (jacobi fuel (n mod a1) a1) as [r'| | | |] eqn:EJ; cbn [obind]; try discriminate.
    assert (R : r' = sign (J g n)).
    { rewrite A2 in EJ. apply IH in EJ; [rewrite <- (J_mod g n); exact EJ|exact G3|]. rewrite Z.gcd_mod by lia. rewrite <- A2. exact G1. }
    pose proof (reciprocity h g ltac:(lia) ltac:(lia)) as RC. fold n in RC. rewrite <- A2 in RC. specialize (RC G1).
    assert (M4 : (n mod 4 =? 3) && (a1 mod 4 =? 3) = Z.odd h && Z.odd g).
    { assert (Q : forall x, (2 * x + 1) mod 4 =? 3 = Z.odd x).
      { intros x. pose proof (Z.div_mod x 2 ltac:(lia)) as D. rewrite Zmod_odd in D. destruct (Z.odd x).
        - rewrite <- (Z.mod_unique (2 * x + 1) 4 (x / 2) 3) by lia. reflexivity.
        - rewrite <- (Z.mod_unique (2 * x + 1) 4 (x / 2) 1) by lia. reflexivity. }
      unfold n. rewrite A2, !Q. reflexivity. }
    rewrite M4, <- RC, R. intros E. assert (E' : (if xorb (J h a1) (J g n) then - sign (Z.odd e && J h 2) else sign (Z.odd e && J h 2)) * sign (J g n) = r) by congruence. rewrite <- E'.
    destruct (J h a1), (J g n), (Z.odd e && J h 2); reflexivity.
Qed.

Lemma jacobi_step fuel a n : 3 <= n -> n mod 2 = 1 ->
  (forall a1, 3 <= a1 -> a1 mod 2 = 1 -> a1 <= a mod n -> exists r, jacobi fuel (n mod a1) a1 = Ok r) -> exists r, jacobi (S fuel) a n = Ok r.
Proof.
  intros N O IH. cbn [jacobi]. destruct (Z.leb_spec 3 n); [|lia]. rewrite O. cbn [Z.eqb Pos.eqb andb].
  pose proof (Z.mod_pos_bound a n ltac:(lia)) as B. set (c := a mod n) in *. clearbody c.
  destruct (Z.eqb_spec c 0); [now eexists|]. destruct (Z.eqb_spec c 1); [now eexists|].
  destruct (strip2 (Z.to_pos c)) as [a1 e] eqn:ES. destruct (strip2_ok _ _ _ ES) as (S1 & S2 & S3 & S4). rewrite Z2Pos.id in S1 by lia.
  destruct (Z.eqb_spec a1 1); [now eexists|]. assert (P2 : 0 < 2 ^ e) by (apply Z.pow_pos_nonneg; lia).
  destruct (IH a1) as [r Er]; [|exact S4|nia|rewrite Er; now eexists].
  assert (a1 <> 2) by (intros ->; discriminate). lia.
Qed.
Lemma jacobi_depth : forall k fuel a n, 3 <= n -> n mod 2 = 1 -> n < 2 ^ Z.of_nat k -> (2 * k <= fuel)%nat -> exists r, jacobi fuel a n = Ok r.
Proof.
  induction k as [|k IH]; intros fuel a n N O F L; [change (2 ^ Z.of_nat 0) with 1 in F; lia|].
  destruct fuel as [|[|fuel]]; [lia|lia|]. rewrite Nat2Z.inj_succ, Z.pow_succ_r in F by lia.
  apply jacobi_step; [exact N|exact O|]. intros a1 A3 AO AL. pose proof (Z.mod_pos_bound a n ltac:(lia)) as B.
  apply jacobi_step; [exact A3|exact AO|]. intros a2 B3 BO BL. rewrite Z.mod_mod in BL by lia.
  apply IH; [exact B3|exact BO| |lia].
  pose proof (Z.mod_pos_bound n a1 ltac:(lia)) as C. pose proof (Z.div_mod n a1 ltac:(lia)) as D.
  assert (1 <= n / a1) by (apply Z.div_le_lower_bound; lia). nia.
Qed.
Lemma jacobi_total : forall fuel a n, 3 <= n -> n mod 2 = 1 -> 2 * Z.log2 n + 2 <= Z.of_nat fuel -> exists r, jacobi fuel a n = Ok r.
Proof.
  intros fuel a n N O F. pose proof (Z.log2_nonneg n). apply (jacobi_depth (Z.to_nat (Z.log2 n + 1))); [exact N|exact O| |lia].
  rewrite Z2Nat.id by lia. pose proof (Z.log2_spec n ltac:(lia)) as [_ L]. exact L.
Qed.

Lemma jacobi_zero : forall fuel a n r, Z.gcd a n <> 1 -> jacobi fuel a n = Ok r -> r = 0.
Proof.
  induction fuel as [|fuel IH]; intros a n r G; [discriminate|]. cbn [jacobi].
  destruct ((3 <=? n) && (n mod 2 =? 1)) eqn:C; [|discriminate]. apply andb_true_iff in C. destruct C as [C1 C2]. apply Z.leb_le in C1. apply Z.eqb_eq in C2.
  assert (GM : Z.gcd (a mod n) n <> 1) by (rewrite Z.gcd_mod by lia; now rewrite Z.gcd_comm).
  pose proof (Z.mod_pos_bound a n ltac:(lia)) as B. set (c := a mod n) in *. clearbody c. clear a G.
  destruct (Z.eqb_spec c 0) as [C0|C0]; [intros E; congruence|].
  destruct (Z.eqb_spec c 1) as [D1|D1]; [exfalso; apply GM; subst c; apply Z.gcd_1_l|].
  destruct (strip2 (Z.to_pos c)) as [a1 e] eqn:ES. destruct (strip2_ok _ _ _ ES) as (S1 & S2 & S3 & S4). rewrite Z2Pos.id in S1 by lia.
  assert (G1 : Z.gcd a1 n <> 1).
  { intros E. apply GM. rewrite S1. apply Zgcd_1_rel_prime. apply rel_prime_sym. apply rel_prime_mult; apply rel_prime_sym; [now apply Zgcd_1_rel_prime|].
    apply Zgcd_1_rel_prime. pose proof (Z.div_mod n 2 ltac:(lia)) as D. rewrite D, C2. apply gcd_pow2; [|exact S2]. apply Z.div_pos; lia. }
  destruct (Z.eqb_spec a1 1) as [A1|A1]; [exfalso; apply G1; rewrite A1; apply Z.gcd_1_l|].
  destruct (jacobi fuel (n mod a1) a1) as [r'| | | |] eqn:EJ; cbn [obind]; try discriminate. apply IH in EJ; [|rewrite Z.gcd_mod by lia; exact G1].
  subst r'. rewrite Z.mul_0_r. intros E. congruence.
Qed.

(** what [jacobi] returns, for all odd moduli from 3 on *)
Lemma jacobi_value fuel a n : 3 <= n -> n mod 2 = 1 -> 2 * Z.log2 n + 2 <= Z.of_nat fuel ->
  (Z.gcd a n = 1 -> jacobi fuel a n = Ok (sign (J (n / 2) a))) /\ (Z.gcd a n <> 1 -> jacobi fuel a n = Ok 0).
Proof.
  intros N O F. destruct (jacobi_total fuel a n N O F) as [r E]. rewrite E. pose proof (Z.div_mod n 2 ltac:(lia)) as D. rewrite O in D. split; intros G.
  - apply (f_equal Ok). apply (jacobi_partial fuel a (n / 2)); [lia|rewrite <- D; exact G|rewrite <- D; exact E].
  - apply (f_equal Ok). now apply jacobi_zero in E.
Qed.
