(** The base field Fq of alt_bn128 (libff's alt_bn128_Fq) and its quadratic extension (alt_bn128_Fq2,
    i.e. Fp2_model with the non-residue -1), in which the coordinates of the G1 and G2 points live. *)
From Coq Require Import ZArith Znumtheory Zpow_facts List Lia Bool.
From Coq Require Import Field Ring.
From Verif Require Import Pocklington Primes Field.
Import ListNotations.
Open Scope Z_scope.

Lemma prime_3557 : prime 3557.
Proof. apply (small_prime 3557 1500); [reflexivity|vm_compute; reflexivity]. Qed.

Lemma prime_911 : prime 911.
Proof. apply (small_prime 911 1500); [reflexivity|vm_compute; reflexivity]. Qed.

Lemma prime_1263766531 : prime 1263766531.
Proof.
  apply (pocklington 1263766531 [(3557,1,2); (911,1,2)]).
  - repeat apply Forall_cons; try apply Forall_nil; [exact prime_3557 | exact prime_911].
  - vm_cast_no_check (eq_refl true).
Qed.

Lemma prime_35385462869 : prime 35385462869.
Proof.
  apply (pocklington 35385462869 [(1263766531,1,2)]).
  - repeat apply Forall_cons; try apply Forall_nil; [exact prime_1263766531].
  - vm_cast_no_check (eq_refl true).
Qed.

Lemma prime_2480874801745591 : prime 2480874801745591.
Proof.
  apply (pocklington 2480874801745591 [(35385462869,1,2)]).
  - repeat apply Forall_cons; try apply Forall_nil; [exact prime_35385462869].
  - vm_cast_no_check (eq_refl true).
Qed.

Lemma prime_13327 : prime 13327.
Proof. apply (small_prime 13327 1500); [reflexivity|vm_compute; reflexivity]. Qed.

Lemma prime_173171039 : prime 173171039.
Proof.
  apply (pocklington 173171039 [(13327,1,2)]).
  - repeat apply Forall_cons; try apply Forall_nil; [exact prime_13327].
  - vm_cast_no_check (eq_refl true).
Qed.

Lemma prime_13427688667394608761327070753331941386769 : prime 13427688667394608761327070753331941386769.
Proof.
  apply (pocklington 13427688667394608761327070753331941386769 [(2480874801745591,1,2); (173171039,1,2)]).
  - repeat apply Forall_cons; try apply Forall_nil; [exact prime_2480874801745591 | exact prime_173171039].
  - vm_cast_no_check (eq_refl true).
Qed.

Definition q_mod : Z := 21888242871839275222246405745257275088696311157297823662689037894645226208583.

Lemma prime_q_mod : prime q_mod.
Proof.
  apply (pocklington q_mod [(13427688667394608761327070753331941386769,1,2)]).
  - repeat apply Forall_cons; try apply Forall_nil; [exact prime_13427688667394608761327070753331941386769].
  - vm_cast_no_check (eq_refl true).
Qed.

Definition Fq : Type := zm q_mod.
Definition Qof (z : Z) : Fq := zof q_mod z.
Definition qval (x : Fq) : Z := zval x.
Definition Q0 : Fq := Qof 0.
Definition Q1 : Fq := Qof 1.
Definition Qadd : Fq -> Fq -> Fq := @zadd q_mod.
Definition Qsub : Fq -> Fq -> Fq := @zsub q_mod.
Definition Qmul : Fq -> Fq -> Fq := @zmul q_mod.
Definition Qopp : Fq -> Fq := @zopp q_mod.
Definition Qinv : Fq -> Fq := @zinv q_mod.
Definition Qdiv : Fq -> Fq -> Fq := @zdiv q_mod.
Definition Qeqb : Fq -> Fq -> bool := @zeqb q_mod.

Declare Scope Q_scope.
Delimit Scope Q_scope with Q.
Bind Scope Q_scope with Fq.
Infix "+" := Qadd : Q_scope.
Infix "-" := Qsub : Q_scope.
Infix "*" := Qmul : Q_scope.
Infix "/" := Qdiv : Q_scope.
Notation "- x" := (Qopp x) : Q_scope.

Lemma Q_field : field_theory Q0 Q1 Qadd Qmul Qsub Qopp Qdiv Qinv eq.
Proof. exact (zm_field prime_q_mod). Qed.
Lemma Q_morph : ring_morph Q0 Q1 Qadd Qmul Qsub Qopp eq
   0%Z 1%Z Z.add Z.mul Z.sub Z.opp Z.eqb Qof.
Proof. exact zm_morph. Qed.
Ltac Q_cst t :=
  match t with
  | Q0 => constr:(0%Z)
  | Q1 => constr:(1%Z)
  | Qof ?z => match isZcst z with true => constr:(z) | _ => constr:(NotConstant) end
  | _ => constr:(NotConstant)
  end.
Add Field Q_field_inst : Q_field (morphism Q_morph, constants [Q_cst]).

Lemma Qeqb_spec (a b : Fq) : reflect (a = b) (Qeqb a b).
Proof. exact (zeqb_spec a b). Qed.
Lemma Qeqb_true (a b : Fq) : Qeqb a b = true <-> a = b.
Proof. destruct (Qeqb_spec a b); split; congruence. Qed.
Lemma Qeq_dec (a b : Fq) : {a = b} + {a <> b}.
Proof. destruct (Qeqb_spec a b); [now left|now right]. Qed.
Lemma Qmul_integral (a b : Fq) : (a * b)%Q = Q0 -> a = Q0 \/ b = Q0.
Proof. exact (zmul_integral prime_q_mod a b). Qed.
Lemma Q1_neq_0 : Q1 <> Q0.
Proof. exact (z1_neq_0 prime_q_mod). Qed.
Lemma qval_range (a : Fq) : 0 <= qval a < q_mod.
Proof. exact (zval_range prime_q_mod a). Qed.

(** -1 is not a square: q = 3 mod 4 *)
Lemma minus_one_nonsquare (t : Fq) : (t * t)%Q <> (- Q1)%Q.
Proof.
  intros E. apply (f_equal (@zval q_mod)) in E.
  assert (E' : (zval t * zval t) mod q_mod = (-1) mod q_mod).
  { transitivity (zval (t * t)%Q); [symmetry; apply zval_zof|]. rewrite E.
    unfold Qopp, zopp. rewrite zval_zof. reflexivity. }
  assert (Hnz : zval t mod q_mod <> 0).
  { intros Z0. rewrite Z.mul_mod, Z0, Z.mul_0_l, Z.mod_0_l in E' by (vm_compute; discriminate).
    vm_compute in E'. discriminate. }
  pose proof (fermat_unit (zval t) q_mod prime_q_mod Hnz) as Ff.
  assert (Hq : q_mod - 1 = 2 * ((q_mod - 1) / 2)) by (vm_compute; reflexivity).
  rewrite Hq, Z.pow_mul_r, Z.pow_2_r in Ff by (vm_compute; discriminate).
  rewrite Zpower_mod, E', <- Zpower_mod in Ff by (vm_compute; reflexivity).
  assert (Ho : (q_mod - 1) / 2 = 2 * ((q_mod - 1) / 4) + 1) by (vm_compute; reflexivity).
  rewrite Ho, Z.pow_add_r, Z.pow_mul_r, Z.pow_1_r in Ff by (vm_compute; discriminate).
  change ((-1) ^ 2) with 1 in Ff. rewrite Z.pow_1_l in Ff by (vm_compute; discriminate).
  vm_compute in Ff. discriminate.
Qed.
Lemma sum_squares_zero (a b : Fq) : (a * a + b * b)%Q = Q0 -> a = Q0 /\ b = Q0.
Proof.
  intros E. destruct (Qeq_dec b Q0) as [->|Hb].
  - split; [|reflexivity]. assert (E1 : (a * a)%Q = Q0) by (rewrite <- E; ring).
    destruct (Qmul_integral _ _ E1); assumption.
  - exfalso. apply (minus_one_nonsquare (a / b)%Q).
    assert (E1 : (a * a)%Q = (- (b * b))%Q).
    { transitivity (a * a + b * b - b * b)%Q; [ring|]. rewrite E. ring. }
    transitivity ((a * a) / (b * b))%Q; [field; exact Hb|]. rewrite E1. field. exact Hb.
Qed.

(** ** the quadratic extension: c0 + c1 u with u^2 = -1 *)
Record Fq2 : Type := mkq2 { c0 : Fq; c1 : Fq }.
Definition Q20 : Fq2 := mkq2 Q0 Q0.
Definition Q21 : Fq2 := mkq2 Q1 Q0.
Definition Q2add (a b : Fq2) : Fq2 := mkq2 (c0 a + c0 b)%Q (c1 a + c1 b)%Q.
Definition Q2sub (a b : Fq2) : Fq2 := mkq2 (c0 a - c0 b)%Q (c1 a - c1 b)%Q.
Definition Q2opp (a : Fq2) : Fq2 := mkq2 (- c0 a)%Q (- c1 a)%Q.
(** libff Fp2_model::operator*, non_residue = -1 *)
Definition Q2mul (a b : Fq2) : Fq2 :=
  mkq2 (c0 a * c0 b - c1 a * c1 b)%Q (c0 a * c1 b + c1 a * c0 b)%Q.
(** libff Fp2_model::inverse: t = 1/(c0^2 + c1^2); (c0 t, - c1 t) *)
Definition Q2inv (a : Fq2) : Fq2 :=
  let t := Qinv (c0 a * c0 a + c1 a * c1 a)%Q in mkq2 (c0 a * t)%Q (- (c1 a * t))%Q.
Definition Q2div (a b : Fq2) : Fq2 := Q2mul a (Q2inv b).
Definition Q2eqb (a b : Fq2) : bool := Qeqb (c0 a) (c0 b) && Qeqb (c1 a) (c1 b).

Declare Scope Q2_scope.
Delimit Scope Q2_scope with Q2.
Bind Scope Q2_scope with Fq2.
Infix "+" := Q2add : Q2_scope.
Infix "-" := Q2sub : Q2_scope.
Infix "*" := Q2mul : Q2_scope.
Infix "/" := Q2div : Q2_scope.
Notation "- x" := (Q2opp x) : Q2_scope.

Lemma Q2_ext a b : c0 a = c0 b -> c1 a = c1 b -> a = b.
Proof. destruct a, b; cbn [c0 c1]; congruence. Qed.
Lemma Q2_norm_nz a : a <> Q20 -> (c0 a * c0 a + c1 a * c1 a)%Q <> Q0.
Proof.
  intros H E. apply H. destruct (sum_squares_zero _ _ E). now apply Q2_ext.
Qed.
Lemma Q2_field : field_theory Q20 Q21 Q2add Q2mul Q2sub Q2opp Q2div Q2inv eq.
Proof.
  constructor.
  - constructor; intros; apply Q2_ext; cbn [Q2add Q2mul Q2sub Q2opp Q20 Q21 c0 c1]; ring.
  - intros E. apply (f_equal c0) in E. exact (Q1_neq_0 E).
  - reflexivity.
  - intros a H. pose proof (Q2_norm_nz a H) as N.
    apply Q2_ext; cbn [Q2mul Q2inv Q21 c0 c1]; field; exact N.
Qed.
Add Field Q2_field_inst : Q2_field.

Lemma Q2eqb_true a b : Q2eqb a b = true <-> a = b.
Proof.
  unfold Q2eqb. rewrite andb_true_iff, !Qeqb_true. split.
  - intros [A B]. now apply Q2_ext.
  - intros ->. split; reflexivity.
Qed.
Lemma Q2eq_dec (a b : Fq2) : {a = b} + {a <> b}.
Proof. destruct (Q2eqb a b) eqn:E; [left; now apply Q2eqb_true|right; intros H; apply Q2eqb_true in H; congruence]. Qed.
Lemma Q2mul_integral (a b : Fq2) : (a * b)%Q2 = Q20 -> a = Q20 \/ b = Q20.
Proof.
  intros E. destruct (Q2eq_dec a Q20) as [|H]; [now left|right].
  transitivity (Q2inv a * (a * b))%Q2; [field; exact H|]. rewrite E. field. exact H.
Qed.
