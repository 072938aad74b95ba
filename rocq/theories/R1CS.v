(** Rank-1 constraint systems as produced by libsnark's [protoboard].
    (libsnark: gadgetlib1/protoboard.hpp, relations/variable.hpp; typedefs in
    /repo/src/ethsnarks.hpp:1-60.) *)
From Coq Require Import List ZArith Lia Bool Arith.
From Verif Require Import Field Base.
Import ListNotations.
Local Open Scope F_scope.

(** A [VariableT] is an index; index 0 is libsnark::ONE. *)
Notation var := nat (only parsing).

(** Linear combinations, as the expression the C++ operators build.
    Simplification: libsnark merges and sorts the terms, which does not change
    the value; the constant term [c*ONE] is written [LC c] (the protoboard fixes
    the value of ONE to 1). *)
Inductive lc : Type :=
| LC (c : F)
| V (v : var)
| LAdd (a b : lc)
| LSub (a b : lc)
| LScale (c : F) (a : lc).

(** An assignment of the protoboard variables ([pb.val]). *)
Definition assign := var -> F.

(** [pb.val(v) = x] *)
Definition upd (s : assign) (v : var) (x : F) : assign :=
  fun w => if Nat.eqb w v then x else s w.

Arguments upd s v%nat_scope x.

(** [pb.lc_val] *)
Fixpoint ev (s : assign) (l : lc) : F :=
  match l with
  | LC c => c
  | V v => s v
  | LAdd a b => ev s a + ev s b
  | LSub a b => ev s a - ev s b
  | LScale c a => c * ev s a
  end.

(** [ConstraintT(A,B,C)], meaning A*B=C *)
Record constr : Type := R1 { cA : lc; cB : lc; cC : lc }.

Definition holds (s : assign) (c : constr) : Prop := ev s (cA c) * ev s (cB c) = ev s (cC c).
Definition holdsb (s : assign) (c : constr) : bool := Feqb (ev s (cA c) * ev s (cB c)) (ev s (cC c)).

(** [pb.is_satisfied()] *)
Definition sat (s : assign) (cs : list constr) : Prop := Forall (holds s) cs.
Definition satb (s : assign) (cs : list constr) : bool := forallb (holdsb s) cs.

(** ** Variables mentioned by constraints *)
Fixpoint lc_all (P : var -> Prop) (l : lc) : Prop :=
  match l with
  | LC _ => True
  | V v => P v
  | LAdd a b => lc_all P a /\ lc_all P b
  | LSub a b => lc_all P a /\ lc_all P b
  | LScale _ a => lc_all P a
  end.
Definition c_all (P : var -> Prop) (c : constr) : Prop :=
  lc_all P (cA c) /\ lc_all P (cB c) /\ lc_all P (cC c).
Definition cs_all (P : var -> Prop) (cs : list constr) : Prop := Forall (c_all P) cs.

(** ** Allocation: [make_variable], [make_var_array]
    (/repo/src/utils.cpp:124-146) *)
Definition var_array (n len : nat) : list var := seq n len.

Arguments var_array (n len)%nat_scope.
Arguments V v%nat_scope.

(** [1 * lc] helper used everywhere in the code: [FieldT::one()] as a linear
    combination. *)
Definition L1 : lc := LC F1.
Definition L0 : lc := LC F0.

(** [libsnark::generate_boolean_r1cs_constraint(pb, x)]: x*(1-x)=0 *)
Definition boolean_c (x : lc) : constr := R1 x (LSub L1 x) L0.

(** values of a variable array *)
Definition vals (s : assign) (vs : list var) : list F := map s vs.

(** [pb_variable_array::fill_with_field_elements]: libsnark asserts equal sizes *)
Fixpoint fill (s : assign) (vs : list var) (xs : list F) : outcome assign :=
  match vs, xs with
  | [], [] => Ok s
  | v :: vs', x :: xs' => fill (upd s v x) vs' xs'
  | _, _ => Abort
  end.

(** bits of a non-negative integer, least significant first *)
Fixpoint bits_of_Z (len : nat) (z : Z) : list bool :=
  match len with
  | O => []
  | S l => Z.odd z :: bits_of_Z l (Z.div2 z)
  end.

(** [bigint::as_ulong]: the low 64-bit limb *)
Definition as_ulong (x : F) : Z := (fval x mod 2 ^ 64)%Z.

(** sets several variables at once, used by models of witness generators *)
Fixpoint upds (s : assign) (vs : list var) (xs : list F) : assign :=
  match vs, xs with
  | v :: vs', x :: xs' => upds (upd s v x) vs' xs'
  | _, _ => s
  end.
