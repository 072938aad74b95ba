(** Model of the lookup gadgets and IsNonZero.  No proofs in this file. *)
From Coq Require Import List ZArith Bool Arith.
From Verif Require Import Field Base R1CS.
Import ListNotations.
Local Open Scope F_scope.

(** [VariableT * FieldT] *)
Definition term (v : var) (c : F) : lc := LScale c (V v).

(** libsnark [pb_variable_array::get_field_element_from_bits]: Horner over the
    bits from the last to the first; asserts that each value is 0 or 1. *)
Fixpoint field_from_bits (s : assign) (vs : list var) : outcome F :=
  match vs with
  | [] => Ok F0
  | v :: vs' =>
      r <- field_from_bits s vs' ;;
      _ <- oassert (Feqb (s v) F0 || Feqb (s v) F1) ;;
      Ok (r + r + s v)
  end.

(** ** lookup_1bit *)

(** /repo/src/gadgets/lookup_1bit.cpp:14-20 *)
Definition lookup1_constraints_fn (c : list F) (b r : var) : outcome (list constr) :=
  c0 <- idx c 0 ;;
  c1 <- idx c 1 ;;
  Ok [R1 (LSub (LAdd (LC c0) (term b c1)) (term b c0)) L1 (V r)].

Record lookup1 := { lk1_c : list F; lk1_b : var; lk1_r : var }.

(** /repo/src/gadgets/lookup_1bit.cpp:23-35 *)
Definition lookup1_new (c : list F) (b : var) (n : nat) : outcome (lookup1 * nat) :=
  _ <- oassert (Nat.eqb (length c) 2) ;;
  Ok ({| lk1_c := c; lk1_b := b; lk1_r := n |}, S n).

(** /repo/src/gadgets/lookup_1bit.cpp:38-40 *)
Definition lookup1_result (g : lookup1) : var := lk1_r g.

(** /repo/src/gadgets/lookup_1bit.cpp:43-46 *)
Definition lookup1_constraints (g : lookup1) : outcome (list constr) :=
  lookup1_constraints_fn (lk1_c g) (lk1_b g) (lk1_r g).

(** [c\[i\]] with [i] an unsigned long *)
Definition idxZ {A} (l : list A) (i : Z) : outcome A :=
  if (i <? Z.of_nat (length l))%Z then idx l (Z.to_nat i) else UB.

(** /repo/src/gadgets/lookup_1bit.cpp:49-53 *)
Definition lookup1_witness (g : lookup1) (s : assign) : outcome assign :=
  x <- idxZ (lk1_c g) (as_ulong (s (lk1_b g))) ;;
  Ok (upd s (lk1_r g) x).

(** ** lookup_2bit *)

(** /repo/src/gadgets/lookup_2bit.cpp:15-32 *)
Definition lookup2_constraints_fn (c : list F) (b : list var) (r : lc) : outcome (list constr) :=
  c0 <- idx c 0 ;; c1 <- idx c 1 ;; c2 <- idx c 2 ;; c3 <- idx c 3 ;;
  b0 <- idx b 0 ;; b1 <- idx b 1 ;;
  let lhs := LAdd (LC (c1 - c0)) (term b1 (c3 - c2 - c1 + c0)) in
  let rhs := LAdd (LAdd (LC (- c0)) r) (term b1 (- c2 + c0)) in
  Ok [R1 lhs (V b0) rhs].

Record lookup2 := { lk2_c : list F; lk2_b : list var; lk2_r : var }.

(** /repo/src/gadgets/lookup_2bit.cpp:35-47 *)
Definition lookup2_new (c : list F) (b : list var) (n : nat) : outcome (lookup2 * nat) :=
  _ <- oassert (Nat.eqb (length c) 4) ;;
  Ok ({| lk2_c := c; lk2_b := b; lk2_r := n |}, S n).

(** /repo/src/gadgets/lookup_2bit.cpp:56-59 *)
Definition lookup2_constraints (g : lookup2) : outcome (list constr) :=
  lookup2_constraints_fn (lk2_c g) (lk2_b g) (V (lk2_r g)).

(** /repo/src/gadgets/lookup_2bit.cpp:62-66 *)
Definition lookup2_witness (g : lookup2) (s : assign) : outcome assign :=
  i <- field_from_bits s (lk2_b g) ;;
  x <- idxZ (lk2_c g) (as_ulong i) ;;
  Ok (upd s (lk2_r g) x).

(** ** lookup_3bit *)
Record lookup3 := { lk3_c : list F; lk3_b : list var; lk3_r : var;
                    lk3_p01 : var; lk3_p02 : var; lk3_p12 : var; lk3_p012 : var }.

(** /repo/src/gadgets/lookup_3bit.cpp:14-30 *)
Definition lookup3_new (c : list F) (b : list var) (n : nat) : outcome (lookup3 * nat) :=
  _ <- oassert (Nat.eqb (length c) 8) ;;
  Ok ({| lk3_c := c; lk3_b := b; lk3_r := n; lk3_p01 := n + 1; lk3_p02 := n + 2;
         lk3_p12 := n + 3; lk3_p012 := n + 4 |}%nat, (n + 5)%nat).

(** /repo/src/gadgets/lookup_3bit.cpp:39-91 *)
Definition lookup3_constraints (g : lookup3) : outcome (list constr) :=
  let c := lk3_c g in let b := lk3_b g in
  b0 <- idx b 0 ;; b1 <- idx b 1 ;; b2 <- idx b 2 ;;
  c0 <- idx c 0 ;; c1 <- idx c 1 ;; c2 <- idx c 2 ;; c3 <- idx c 3 ;;
  c4 <- idx c 4 ;; c5 <- idx c 5 ;; c6 <- idx c 6 ;; c7 <- idx c 7 ;;
  Ok [ R1 (V b0) (V b1) (V (lk3_p01 g));
       R1 (V b0) (V b2) (V (lk3_p02 g));
       R1 (V b1) (V b2) (V (lk3_p12 g));
       R1 (V (lk3_p01 g)) (V b2) (V (lk3_p012 g));
       R1 (LAdd (LAdd (LAdd (LAdd (LAdd (LAdd (LAdd (LAdd (LAdd
             (LC c0)
             (term b0 (- c0)))
             (term b0 c1))
             (term b1 (- c0)))
             (term b1 c2))
             (term (lk3_p01 g) (- c1 + - c2 + c0 + c3)))
             (term b2 (- c0 + c4)))
             (term (lk3_p02 g) (c0 - c1 - c4 + c5)))
             (term (lk3_p12 g) (c0 - c2 - c4 + c6)))
             (term (lk3_p012 g) (- c0 + c1 + c2 - c3 + c4 - c5 - c6 + c7)))
          L1 (V (lk3_r g)) ].

(** /repo/src/gadgets/lookup_3bit.cpp:94-107 *)
Definition lookup3_witness (g : lookup3) (s : assign) : outcome assign :=
  let b := lk3_b g in
  v0 <- idx b 0 ;; v1 <- idx b 1 ;; v2 <- idx b 2 ;;
  let b0 := s v0 in let b1 := s v1 in let b2 := s v2 in
  let s1 := upd s (lk3_p01 g) (b0 * b1) in
  let s2 := upd s1 (lk3_p02 g) (b0 * b2) in
  let s3 := upd s2 (lk3_p12 g) (b1 * b2) in
  let s4 := upd s3 (lk3_p012 g) (b0 * b1 * b2) in
  i <- field_from_bits s4 b ;;
  x <- idxZ (lk3_c g) (as_ulong i) ;;
  Ok (upd s4 (lk3_r g) x).

(** ** lookup_signed_3bit *)

(** /repo/src/gadgets/lookup_signed_3bit.cpp:13-32 *)
Definition lookups_constraints_fn (c : list F) (b : list var) (r b0b1 : var) : outcome (list constr) :=
  c0 <- idx c 0 ;; c1 <- idx c 1 ;; c2 <- idx c 2 ;; c3 <- idx c 3 ;;
  b0 <- idx b 0 ;; b1 <- idx b 1 ;; b2 <- idx b 2 ;;
  let y := LAdd (LAdd (LAdd (LC c0) (term b0 (c1 - c0))) (term b1 (c2 - c0)))
                (term b0b1 (c3 - c2 - c1 + c0)) in
  Ok [ R1 (V b0) (V b1) (V b0b1);
       R1 (LAdd y y) (V b2) (LSub y (V r)) ].

Record lookups := { lks_c : list F; lks_b : list var; lks_b0b1 : var; lks_r : var }.

(** /repo/src/gadgets/lookup_signed_3bit.cpp:35-49 *)
Definition lookups_new (c : list F) (b : list var) (n : nat) : outcome (lookups * nat) :=
  _ <- oassert (Nat.eqb (length c) 4) ;;
  _ <- oassert (Nat.eqb (length b) 3) ;;
  Ok ({| lks_c := c; lks_b := b; lks_b0b1 := n; lks_r := S n |}, S (S n)).

(** /repo/src/gadgets/lookup_signed_3bit.cpp:58-61 *)
Definition lookups_constraints (g : lookups) : outcome (list constr) :=
  lookups_constraints_fn (lks_c g) (lks_b g) (lks_r g) (lks_b0b1 g).

(** /repo/src/gadgets/lookup_signed_3bit.cpp:64-73 *)
Definition lookups_witness (g : lookups) (s : assign) : outcome assign :=
  i <- field_from_bits s (lks_b g) ;;
  x <- idxZ (lks_c g) (Z.land (as_ulong i) 3) ;;
  let res := if (3 <? as_ulong i)%Z then x * Fof (-1) else x in
  v0 <- idx (lks_b g) 0 ;; v1 <- idx (lks_b g) 1 ;;
  let s1 := upd s (lks_b0b1 g) (s v0 * s v1) in
  Ok (upd s1 (lks_r g) res).

(** ** IsNonZero *)
Record isnonzero := { inz_X : var; inz_Y : var; inz_M : var }.

(** /repo/src/gadgets/isnonzero.cpp:13-24 *)
Definition isnonzero_new (x : var) (n : nat) : isnonzero * nat :=
  ({| inz_X := x; inz_Y := n; inz_M := S n |}, S (S n)).

(** /repo/src/gadgets/isnonzero.cpp:27-30 *)
Definition isnonzero_result (g : isnonzero) : var := inz_Y g.

(** /repo/src/gadgets/isnonzero.cpp:33-44 *)
Definition isnonzero_constraints (g : isnonzero) : list constr :=
  [ boolean_c (V (inz_Y g));
    R1 (V (inz_X g)) (LSub L1 (V (inz_Y g))) L0;
    R1 (V (inz_X g)) (V (inz_M g)) (V (inz_Y g)) ].

(** /repo/src/gadgets/isnonzero.cpp:47-59 ([inverse()] is only reached for X<>0) *)
Definition isnonzero_witness (g : isnonzero) (s : assign) : assign :=
  let x := s (inz_X g) in
  if Feqb x F0 then upd (upd s (inz_M g) F0) (inz_Y g) F0
  else upd (upd s (inz_M g) (Finv x)) (inz_Y g) F1.
