(** The scalar field of alt_bn128: libff's [Fp_model] instantiated with the
    modulus of Fr, called [FieldT] in /repo/src/ethsnarks.hpp:1-60.

    A field element is its canonical representative together with a boolean
    proof that it is reduced, so that Leibniz equality is field equality.
    (libff stores the Montgomery form; only the value is observable through the
    API, so the representation is abstracted away.) *)
From Coq Require Import ZArith Znumtheory Zpow_facts List Lia Bool Eqdep_dec.
From Coq Require Import Field Ring.
From Verif Require Import Pocklington Primes.
Import ListNotations.
Open Scope Z_scope.

(** ** Integers modulo m, for any m *)

Record zm (m : Z) : Type := mkzm { zval : Z; zok : (zval mod m =? zval) = true }.
Arguments zval {m} _.
Arguments zok {m} _.

(** [z mod m], with the cheap cases taken first *)
Definition fmod (z m : Z) : Z :=
  if z <? m then (if 0 <=? z then z else if 0 <=? z + m then z + m else z mod m)
  else if z - m <? m then z - m else z mod m.

Lemma fmod_mod z m : fmod z m = z mod m.
Proof.
  unfold fmod. destruct (Z.ltb_spec z m).
  - destruct (Z.leb_spec 0 z); [symmetry; apply Z.mod_small; lia|].
    destruct (Z.leb_spec 0 (z + m)); [|reflexivity].
    rewrite <- (Z.mod_add z 1) by lia. symmetry. rewrite Z.mul_1_l. apply Z.mod_small. lia.
  - destruct (Z.ltb_spec (z - m) m); [|reflexivity].
    rewrite <- (Z.mod_add z (-1)) by lia. symmetry. replace (z + -1 * m) with (z - m) by ring.
    apply Z.mod_small. lia.
Qed.

Lemma zof_ok (m z : Z) : (fmod z m mod m =? fmod z m) = true.
Proof. apply Z.eqb_eq. rewrite fmod_mod. apply Zmod_mod. Qed.

Definition zof (m z : Z) : zm m := mkzm m (fmod z m) (zof_ok m z).

Definition zadd {m} (a b : zm m) : zm m := zof m (zval a + zval b).
Definition zsub {m} (a b : zm m) : zm m := zof m (zval a - zval b).
Definition zmul {m} (a b : zm m) : zm m := zof m (zval a * zval b).
Definition zopp {m} (a : zm m) : zm m := zof m (- zval a).
(** libff [Fp_model::operator^] with a non-negative exponent *)
Definition zpow {m} (a : zm m) (e : Z) : zm m := zof m (powmod (zval a) e m).
(** libff [Fp_model::inverse] on non-zero elements; the code asserts [!is_zero()],
    and model functions that call it check that first. *)
Fixpoint egcd (fuel : nat) (r0 r1 s0 s1 : Z) : Z :=
  match fuel with
  | O => 0
  | S f => if r1 =? 0 then s0
           else let (q, r) := Z.div_eucl r0 r1 in egcd f r1 r s1 (s0 - q * s1)
  end.
(** (Euclid's algorithm; the result is checked, with Fermat's exponent as a fallback, so
    that no property of [egcd] is needed) *)
Definition zinv {m} (a : zm m) : zm m :=
  let u := zof m (egcd 400 (zval a) m 1 0) in
  if zval (zmul u a) =? 1 then u else zpow a (m - 2).
Definition zdiv {m} (a b : zm m) : zm m := zmul a (zinv b).
Definition zeqb {m} (a b : zm m) : bool := zval a =? zval b.

Lemma zval_inj {m} (a b : zm m) : zval a = zval b -> a = b.
Proof.
  destruct a as [x hx], b as [y hy]. cbn. intros ->.
  f_equal. apply UIP_dec. apply bool_dec.
Qed.

Lemma zval_zof m z : zval (zof m z) = z mod m.
Proof. apply fmod_mod. Qed.

Lemma zof_zval {m} (a : zm m) : zof m (zval a) = a.
Proof. apply zval_inj. rewrite zval_zof. apply Z.eqb_eq. apply zok. Qed.

Lemma zval_mod {m} (a : zm m) : zval a mod m = zval a.
Proof. apply Z.eqb_eq. apply zok. Qed.

Lemma zeqb_spec {m} (a b : zm m) : reflect (a = b) (zeqb a b).
Proof.
  unfold zeqb. destruct (Z.eqb_spec (zval a) (zval b)) as [H|H]; constructor.
  - now apply zval_inj.
  - congruence.
Qed.

Lemma zof_eq m x y : x mod m = y mod m -> zof m x = zof m y.
Proof. intros H. apply zval_inj. now rewrite !zval_zof. Qed.

Section Ring.
  Context {m : Z}.
  Notation R := (zm m).

  Lemma zof_add x y : zof m (x + y) = zadd (zof m x) (zof m y).
  Proof. apply zval_inj. unfold zadd. rewrite !zval_zof. apply Zplus_mod. Qed.
  Lemma zof_mul x y : zof m (x * y) = zmul (zof m x) (zof m y).
  Proof. apply zval_inj. unfold zmul. rewrite !zval_zof. apply Zmult_mod. Qed.
  Lemma zof_sub x y : zof m (x - y) = zsub (zof m x) (zof m y).
  Proof. apply zval_inj. unfold zsub. rewrite !zval_zof. apply Zminus_mod. Qed.
  Lemma zof_opp x : zof m (- x) = zopp (zof m x).
  Proof. apply zval_inj. unfold zopp. rewrite !zval_zof. change (-x) with (0 - x). change (- (x mod m)) with (0 - x mod m).
    now rewrite Zminus_mod_idemp_r. Qed.

  Ltac lift := repeat match goal with
    | a : R |- _ => rewrite <- (zof_zval a); generalize (zval a); clear a; intro a
    end; rewrite <- ?zof_add, <- ?zof_mul, <- ?zof_sub, <- ?zof_opp;
    repeat (rewrite <- ?zof_add, <- ?zof_mul, <- ?zof_sub, <- ?zof_opp).

  Lemma zm_ring : ring_theory (zof m 0) (zof m 1) (@zadd m) (@zmul m) (@zsub m) (@zopp m) eq.
  Proof.
    constructor; intros; lift; apply zof_eq; f_equal; ring.
  Qed.

  Lemma zm_morph : ring_morph (zof m 0) (zof m 1) (@zadd m) (@zmul m) (@zsub m) (@zopp m) eq
     0%Z 1%Z Z.add Z.mul Z.sub Z.opp Z.eqb (zof m).
  Proof.
    constructor; intros.
    - reflexivity.
    - reflexivity.
    - apply zof_add.
    - apply zof_sub.
    - apply zof_mul.
    - apply zof_opp.
    - apply Z.eqb_eq in H. now subst.
  Qed.

  Lemma zpow_zof (a : R) e : 0 < m -> 0 <= e -> zpow a e = zof m (zval a ^ e).
  Proof.
    intros Hm He. unfold zpow. rewrite powmod_spec by assumption.
    apply zof_eq. apply Zmod_mod.
  Qed.
End Ring.

Section PrimeField.
  Context {m : Z} (Hp : prime m).
  Notation R := (zm m).
  Notation r0 := (zof m 0).
  Notation r1 := (zof m 1).

  Lemma prime_gt1 : 1 < m.
  Proof. destruct Hp; lia. Qed.

  Lemma zval_range (a : R) : 0 <= zval a < m.
  Proof. rewrite <- zval_mod. apply Z.mod_pos_bound. pose proof prime_gt1. lia. Qed.

  Lemma z1_neq_0 : r1 <> r0.
  Proof.
    intros H. apply (f_equal zval) in H. rewrite !zval_zof in H. pose proof prime_gt1.
    rewrite Z.mod_small, Z.mod_0_l in H by lia. lia.
  Qed.

  Lemma zval_nz (a : R) : a <> r0 -> zval a <> 0.
  Proof.
    intros H E. apply H. apply zval_inj. rewrite E, zval_zof. pose proof prime_gt1.
    now rewrite Z.mod_0_l by lia.
  Qed.

  Lemma zinv_l (a : R) : a <> r0 -> zmul (zinv a) a = r1.
  Proof.
    intros Ha. apply zval_nz in Ha. pose proof prime_gt1 as H1.
    pose proof (zval_range a) as Hr.
    unfold zinv. set (u := zof m (egcd _ _ _ _ _)). clearbody u. cbv zeta.
    destruct (Z.eqb_spec (zval (zmul u a)) 1) as [E|_].
    { apply zval_inj. rewrite E, zval_zof. symmetry. apply Z.mod_small. lia. }
    rewrite zpow_zof by lia.
    rewrite <- (zof_zval a) at 2. rewrite <- zof_mul.
    apply zof_eq.
    replace (zval a ^ (m - 2) * zval a) with (zval a ^ (m - 1)).
    - rewrite fermat_unit; [|assumption|rewrite zval_mod; assumption].
      symmetry. apply Z.mod_small. lia.
    - rewrite Z.mul_comm. rewrite <- Z.pow_succ_r by lia. f_equal. lia.
  Qed.

  Local Opaque zinv egcd.
  Lemma zm_field : field_theory r0 r1 (@zadd m) (@zmul m) (@zsub m) (@zopp m) (@zdiv m) (@zinv m) eq.
  Proof.
    constructor.
    - exact zm_ring.
    - exact z1_neq_0.
    - reflexivity.
    - intros a Ha. now apply zinv_l.
  Qed.

  Lemma zmul_integral (a b : R) : zmul a b = r0 -> a = r0 \/ b = r0.
  Proof.
    intros H. destruct (zeqb_spec a r0) as [|Ha]; [now left|right].
    apply (f_equal (zmul (zinv a))) in H.
    pose proof (@zm_ring m) as RT. destruct RT as [? ? ? ? Hmc Hma ? ? ?].
    rewrite Hma in H. rewrite zinv_l in H by assumption.
    rewrite Rmul_1_l in H. rewrite H.
    unfold zmul. rewrite zval_zof. pose proof prime_gt1. rewrite Z.mod_0_l, Z.mul_0_r by lia. reflexivity.
  Qed.
End PrimeField.

(** ** FieldT *)

Definition F : Type := zm p_mod.
Definition Fof (z : Z) : F := zof p_mod z.
Definition fval (x : F) : Z := zval x.
Definition F0 : F := Fof 0.
Definition F1 : F := Fof 1.
Definition Fadd : F -> F -> F := @zadd p_mod.
Definition Fsub : F -> F -> F := @zsub p_mod.
Definition Fmul : F -> F -> F := @zmul p_mod.
Definition Fopp : F -> F := @zopp p_mod.
Global Opaque zinv egcd.
Definition Finv : F -> F := @zinv p_mod.
Definition Fdiv : F -> F -> F := @zdiv p_mod.
Definition Fpow : F -> Z -> F := @zpow p_mod.
Definition Feqb : F -> F -> bool := @zeqb p_mod.

Declare Scope F_scope.
Delimit Scope F_scope with F.
Bind Scope F_scope with F.
Infix "+" := Fadd : F_scope.
Infix "-" := Fsub : F_scope.
Infix "*" := Fmul : F_scope.
Infix "/" := Fdiv : F_scope.
Notation "- x" := (Fopp x) : F_scope.

Lemma F_field : field_theory F0 F1 Fadd Fmul Fsub Fopp Fdiv Finv eq.
Proof. exact (zm_field prime_p_mod). Qed.

Lemma F_ring : ring_theory F0 F1 Fadd Fmul Fsub Fopp eq.
Proof. exact zm_ring. Qed.

Lemma F_morph : ring_morph F0 F1 Fadd Fmul Fsub Fopp eq
   0%Z 1%Z Z.add Z.mul Z.sub Z.opp Z.eqb Fof.
Proof. exact zm_morph. Qed.

Ltac isZcst t :=
  match t with
  | Z0 => constr:(true)
  | Zpos ?p => isPcst p
  | Zneg ?p => isPcst p
  | _ => constr:(false)
  end.
Ltac F_cst t :=
  match t with
  | F0 => constr:(0%Z)
  | F1 => constr:(1%Z)
  | Fof ?z => match isZcst z with true => constr:(z) | _ => constr:(NotConstant) end
  | _ => constr:(NotConstant)
  end.

Add Field F_field_inst : F_field (morphism F_morph, constants [F_cst]).

Lemma Feqb_spec (a b : F) : reflect (a = b) (Feqb a b).
Proof. exact (zeqb_spec a b). Qed.

Lemma Feqb_true (a b : F) : Feqb a b = true <-> a = b.
Proof. destruct (Feqb_spec a b); split; congruence. Qed.

Lemma Feqb_refl (a : F) : Feqb a a = true.
Proof. now apply Feqb_true. Qed.

Lemma Feq_dec (a b : F) : {a = b} + {a <> b}.
Proof. destruct (Feqb_spec a b); [now left|now right]. Qed.

Lemma Fmul_integral (a b : F) : (a * b)%F = F0 -> a = F0 \/ b = F0.
Proof. exact (zmul_integral prime_p_mod a b). Qed.

Lemma Fmul_nz (a b : F) : a <> F0 -> b <> F0 -> (a * b)%F <> F0.
Proof. intros Ha Hb H. apply Fmul_integral in H. tauto. Qed.

Lemma F1_neq_0 : F1 <> F0.
Proof. exact (z1_neq_0 prime_p_mod). Qed.

Lemma fval_range (a : F) : 0 <= fval a < p_mod.
Proof. exact (zval_range prime_p_mod a). Qed.

Lemma fval_inj (a b : F) : fval a = fval b -> a = b.
Proof. exact (zval_inj a b). Qed.

Lemma fval_Fof z : fval (Fof z) = z mod p_mod.
Proof. exact (zval_zof p_mod z). Qed.

Lemma Fof_fval a : Fof (fval a) = a.
Proof. exact (zof_zval a). Qed.

Lemma fval_Fof_small z : 0 <= z < p_mod -> fval (Fof z) = z.
Proof. intros H. rewrite fval_Fof. now apply Z.mod_small. Qed.

Lemma Fof_add x y : Fof (x + y) = (Fof x + Fof y)%F.
Proof. exact (zof_add x y). Qed.
Lemma Fof_sub x y : Fof (x - y) = (Fof x - Fof y)%F.
Proof. exact (zof_sub x y). Qed.
Lemma Fof_mul x y : Fof (x * y) = (Fof x * Fof y)%F.
Proof. exact (zof_mul x y). Qed.
Lemma Fof_opp x : Fof (- x) = (- Fof x)%F.
Proof. exact (zof_opp x). Qed.

Lemma Fof_eq_iff x y : Fof x = Fof y <-> x mod p_mod = y mod p_mod.
Proof.
  split; intros H.
  - apply (f_equal fval) in H. now rewrite !fval_Fof in H.
  - now apply zof_eq.
Qed.

Lemma Fof_inj_small x y : 0 <= x < p_mod -> 0 <= y < p_mod -> Fof x = Fof y -> x = y.
Proof. intros Hx Hy H. apply Fof_eq_iff in H. now rewrite !Z.mod_small in H by assumption. Qed.

Lemma Fof_p : Fof p_mod = F0.
Proof. apply Fof_eq_iff. reflexivity. Qed.

Lemma Fof_nz z : z mod p_mod <> 0 -> Fof z <> F0.
Proof. intros H E. apply H. apply Fof_eq_iff in E. exact E. Qed.

Lemma Fsub_eq0 a b : (a - b)%F = F0 <-> a = b.
Proof.
  split; intros H.
  - replace a with ((a - b) + b)%F by ring. rewrite H. ring.
  - subst. ring.
Qed.

Lemma Fmul_cancel_l a b c : a <> F0 -> (a * b)%F = (a * c)%F -> b = c.
Proof.
  intros Ha H. apply Fsub_eq0. apply Fsub_eq0 in H.
  replace (a * b - a * c)%F with (a * (b - c))%F in H by ring.
  apply Fmul_integral in H. tauto.
Qed.

Lemma Finv_l a : a <> F0 -> (Finv a * a)%F = F1.
Proof. exact (zinv_l prime_p_mod a). Qed.

Lemma Finv_r a : a <> F0 -> (a * Finv a)%F = F1.
Proof. intros H. rewrite <- (Finv_l a H). ring. Qed.

Lemma Finv_nz a : a <> F0 -> Finv a <> F0.
Proof.
  intros Ha H. pose proof (Finv_l a Ha) as E. rewrite H in E.
  apply F1_neq_0. rewrite <- E. ring.
Qed.

(** [a/b = c] iff [a = c*b] *)
Lemma Fdiv_eq a b c : b <> F0 -> ((a / b)%F = c <-> a = (c * b)%F).
Proof.
  intros Hb. split; intros H.
  - rewrite <- H. field. exact Hb.
  - rewrite H. field. exact Hb.
Qed.

(** ** Bits *)
Definition isbit (x : F) : Prop := x = F0 \/ x = F1.
Definition b2F (b : bool) : F := if b then F1 else F0.
Definition b2Z (b : bool) : Z := if b then 1 else 0.

Lemma isbit_iff x : (x * (F1 - x))%F = F0 <-> isbit x.
Proof.
  unfold isbit. split; intros H.
  - apply Fmul_integral in H. destruct H as [H|H]; [now left|right].
    symmetry. now apply Fsub_eq0.
  - destruct H as [->| ->]; ring.
Qed.

Lemma isbit_b2F b : isbit (b2F b).
Proof. destruct b; [now right|now left]. Qed.

Lemma isbit_ex x : isbit x -> exists b, x = b2F b.
Proof. intros [->| ->]; [now exists false|now exists true]. Qed.

Lemma b2F_inj a b : b2F a = b2F b -> a = b.
Proof.
  destruct a, b; cbn; intros H; try reflexivity; exfalso.
  - now apply F1_neq_0.
  - apply F1_neq_0. now symmetry.
Qed.

Lemma Fof_b2Z b : Fof (b2Z b) = b2F b.
Proof. destruct b; reflexivity. Qed.

(** ** Powers *)
Lemma p_mod_pos : 0 < p_mod.
Proof. reflexivity. Qed.

Lemma Fpow_Fof x e : 0 <= e -> Fpow x e = Fof (fval x ^ e).
Proof. intros He. apply (zpow_zof x e); [reflexivity|assumption]. Qed.

Lemma Fpow_0 x : Fpow x 0 = F1.
Proof. rewrite Fpow_Fof by lia. reflexivity. Qed.

Lemma Fpow_1 x : Fpow x 1 = x.
Proof. rewrite Fpow_Fof, Z.pow_1_r by lia. apply Fof_fval. Qed.

Lemma Fpow_add x a b : 0 <= a -> 0 <= b -> Fpow x (a + b) = (Fpow x a * Fpow x b)%F.
Proof. intros Ha Hb. rewrite !Fpow_Fof, Z.pow_add_r by lia. apply Fof_mul. Qed.

Lemma Fof_fval_pow z e : 0 <= e -> Fof (fval (Fof z) ^ e) = Fof (z ^ e).
Proof.
  intros He. rewrite fval_Fof. apply Fof_eq_iff.
  rewrite Zpower_mod by apply p_mod_pos. rewrite Zmod_mod.
  now rewrite <- Zpower_mod by apply p_mod_pos.
Qed.

Lemma Fpow_mul x a b : 0 <= a -> 0 <= b -> Fpow x (a * b) = Fpow (Fpow x a) b.
Proof.
  intros Ha Hb. rewrite (Fpow_Fof (Fpow x a)), (Fpow_Fof x a) by lia.
  rewrite Fof_fval_pow by lia. rewrite Fpow_Fof by nia.
  now rewrite Z.pow_mul_r by lia.
Qed.

Lemma Fpow_mul_base x y e : 0 <= e -> Fpow (x * y)%F e = (Fpow x e * Fpow y e)%F.
Proof.
  intros He. rewrite !Fpow_Fof by lia.
  rewrite <- (Fof_fval x) at 1. rewrite <- (Fof_fval y) at 1.
  rewrite <- Fof_mul, Fof_fval_pow by lia.
  rewrite Z.pow_mul_l. apply Fof_mul.
Qed.

Lemma Fpow_base_1 e : 0 <= e -> Fpow F1 e = F1.
Proof.
  intros He. rewrite Fpow_Fof by lia. unfold F1. rewrite Fof_fval_pow by lia.
  now rewrite Z.pow_1_l by lia.
Qed.

Lemma Fpow_base_0 e : 0 < e -> Fpow F0 e = F0.
Proof.
  intros He. rewrite Fpow_Fof by lia. unfold F0. rewrite Fof_fval_pow by lia.
  now rewrite Z.pow_0_l by lia.
Qed.

Lemma Fpow_succ x e : 0 <= e -> Fpow x (e + 1) = (Fpow x e * x)%F.
Proof. intros He. rewrite Fpow_add, Fpow_1 by lia. reflexivity. Qed.

Lemma F_fermat x : x <> F0 -> Fpow x (p_mod - 1) = F1.
Proof.
  intros Hx. rewrite Fpow_Fof by (vm_compute; discriminate).
  unfold F1. apply Fof_eq_iff. rewrite fermat_unit.
  - reflexivity.
  - exact prime_p_mod.
  - unfold fval. rewrite (zval_mod (m:=p_mod) x). now apply (zval_nz prime_p_mod).
Qed.

Lemma F_fermat_full x : Fpow x p_mod = x.
Proof.
  destruct (Feq_dec x F0) as [->|Hx].
  - apply Fpow_base_0. reflexivity.
  - replace p_mod with ((p_mod - 1) + 1) by ring.
    rewrite Fpow_succ by (vm_compute; discriminate). rewrite F_fermat by assumption. ring.
Qed.

(** Constant-inequality solver: [Fof z <> F0] for literals. *)
Ltac fnz := apply Fof_nz; vm_compute; discriminate.

Lemma F2_neq_0 : Fof 2 <> F0.
Proof. fnz. Qed.

Global Opaque Fadd Fsub Fmul Fopp Finv Fdiv Fpow Fof.
