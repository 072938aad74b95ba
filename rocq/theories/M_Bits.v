(** Model of the bit-decomposition gadgets: libsnark's packing, disjunction and
    comparison gadgets (as used here), field2bits_strict and subadd_gadget.
    No proofs in this file. *)
From Coq Require Import List ZArith Bool Arith.
From Verif Require Import Field Base R1CS M_Lookup.
Import ListNotations.
Local Open Scope F_scope.

Fixpoint omapM {A B} (f : A -> outcome B) (l : list A) : outcome (list B) :=
  match l with
  | [] => Ok []
  | a :: l' => b <- f a ;; bs <- omapM f l' ;; Ok (b :: bs)
  end.

(** ** libsnark (not in /repo; gadgetlib1/gadgets/basic_gadgets.tcc) *)

(** [pb_packing_sum]: sum of 2^i * b_i *)
Fixpoint pack_from (c : F) (bs : list var) : lc :=
  match bs with
  | [] => LC F0
  | b :: bs' => LAdd (LScale c (V b)) (pack_from (c + c) bs')
  end.
Definition pack_lc (bs : list var) : lc := pack_from F1 bs.

(** [packing_gadget::generate_r1cs_constraints(enforce_bitness)] *)
Definition packing_constraints (enforce : bool) (bits : list var) (packed : lc) : list constr :=
  R1 L1 (pack_lc bits) packed ::
  (if enforce then map (fun b => boolean_c (V b)) bits else []).

(** [bigint::num_bits] *)
Definition num_bits (z : Z) : Z := if (z =? 0)%Z then 0%Z else (Z.log2 z + 1)%Z.

(** [pb_variable_array::fill_with_bits_of_field_element] *)
Definition fill_bits_of (s : assign) (bits : list var) (x : F) : assign :=
  upds s bits (map b2F (bits_of_Z (length bits) (fval x))).

(** [packing_gadget::generate_r1cs_witness_from_packed] *)
Definition packing_witness_from_packed (bits : list var) (packed : lc) (s : assign) : outcome assign :=
  let x := ev s packed in
  _ <- oassert (num_bits (fval x) <=? Z.of_nat (length bits))%Z ;;
  Ok (fill_bits_of s bits x).

Fixpoint sum_lc (vs : list var) : lc :=
  match vs with
  | [] => LC F0
  | v :: vs' => LAdd (V v) (sum_lc vs')
  end.

(** [disjunction_gadget]: inv * sum = out, (1-out) * sum = 0 *)
Definition disjunction_constraints (ins : list var) (out inv : var) : list constr :=
  [ R1 (V inv) (sum_lc ins) (V out);
    R1 (LSub L1 (V out)) (sum_lc ins) L0 ].
Definition disjunction_witness (ins : list var) (out inv : var) (s : assign) : assign :=
  let x := ev s (sum_lc ins) in
  if Feqb x F0 then upd (upd s inv F0) out F0
  else upd (upd s inv (Finv x)) out F1.

(** [comparison_gadget(pb, n, A, B, less, less_or_eq)] *)
Record comparison := { cmp_n : nat; cmp_A : lc; cmp_B : lc; cmp_lt : var; cmp_leq : var;
                       cmp_alpha : list var; cmp_packed : var; cmp_naz : var; cmp_inv : var }.
Definition comparison_new (n : nat) (A B : lc) (lt leq : var) (k : nat) : outcome (comparison * nat) :=
  (* the disjunction_gadget constructor asserts inputs.size() >= 1 *)
  _ <- oassert (Nat.leb 1 n) ;;
  Ok ({| cmp_n := n; cmp_A := A; cmp_B := B; cmp_lt := lt; cmp_leq := leq;
         cmp_alpha := var_array k n; cmp_packed := (k + n)%nat; cmp_naz := (k + n + 1)%nat;
         cmp_inv := (k + n + 2)%nat |}, (k + n + 3)%nat).
Definition comparison_main_lc (g : comparison) : lc :=
  LSub (LAdd (LC (Fpow (Fof 2) (Z.of_nat (cmp_n g)))) (cmp_B g)) (cmp_A g).
Definition comparison_constraints (g : comparison) : list constr :=
  boolean_c (V (cmp_naz g)) ::
  packing_constraints true (cmp_alpha g ++ [cmp_leq g]) (V (cmp_packed g)) ++
  [R1 L1 (comparison_main_lc g) (V (cmp_packed g))] ++
  disjunction_constraints (cmp_alpha g) (cmp_naz g) (cmp_inv g) ++
  [R1 (V (cmp_leq g)) (V (cmp_naz g)) (V (cmp_lt g))].
Definition comparison_witness (g : comparison) (s : assign) : outcome assign :=
  let s1 := upd s (cmp_packed g) (ev s (comparison_main_lc g)) in
  s2 <- packing_witness_from_packed (cmp_alpha g ++ [cmp_leq g]) (V (cmp_packed g)) s1 ;;
  let s3 := disjunction_witness (cmp_alpha g) (cmp_naz g) (cmp_inv g) s2 in
  Ok (upd s3 (cmp_lt g) (s3 (cmp_leq g) * s3 (cmp_naz g))).

(** ** field2bits_strict *)
Record f2b := { f2b_in : var; f2b_bits : list var; f2b_results : list var; f2b_cmps : list lookup1 }.

(** /repo/src/gadgets/field2bits_strict.cpp:20-30 *)
Definition table_cmp_0 : list F := [Fof 0; Fof 1].
Definition table_cmp_1 : list F := [Fof 1; Fof 1].

(** the constructor loop, /repo/src/gadgets/field2bits_strict.cpp:34-43;
    [largest_bits] are the bits of (FieldT(mod)-1).as_bigint(), l.32 *)
Fixpoint f2b_cmps_new (largest_bits : list bool) (bits : list var) (n : nat)
  : outcome (list lookup1 * nat) :=
  match largest_bits, bits with
  | lb :: largest', b :: bits' =>
      ' (g, n1) <- lookup1_new (if lb then table_cmp_1 else table_cmp_0) b n ;;
      ' (gs, n2) <- f2b_cmps_new largest' bits' n1 ;;
      Ok (g :: gs, n2)
  | _, _ => Ok ([], n)
  end.

(** /repo/src/gadgets/field2bits_strict.cpp:10-44.  [w] is FieldT::size_in_bits()
    and [largest] is FieldT(mod)-1; the class is not generic in them, the two
    parameters are fixed to 254 and p-1 in [field2bits_new]. *)
Definition f2b_new_gen (w : nat) (largest : Z) (v : var) (n : nat) : outcome (f2b * nat) :=
  let bits := var_array n w in
  let results := var_array (n + w) (w - 1) in
  ' (cmps, n') <- f2b_cmps_new (bits_of_Z w largest) bits (n + w + (w - 1))%nat ;;
  Ok ({| f2b_in := v; f2b_bits := bits; f2b_results := results; f2b_cmps := cmps |}, n').

Definition field2bits_new (v : var) (n : nat) : outcome (f2b * nat) :=
  f2b_new_gen 254 (fval (Fof Primes.p_mod - F1)) v n.

(** one iteration of the loop in /repo/src/gadgets/field2bits_strict.cpp:58-71 *)
Definition f2b_and_constraint (g : f2b) (last i : nat) : outcome constr :=
  r' <- idx (f2b_results g) (i - 1) ;;
  c' <- idx (f2b_cmps g) (i - 1) ;;
  if Nat.eqb i last then
    c <- idx (f2b_cmps g) i ;;
    Ok (R1 (V (lookup1_result c')) (V (lookup1_result c)) (V r'))
  else
    r <- idx (f2b_results g) i ;;
    Ok (R1 (V (lookup1_result c')) (V r) (V r')).

(** i = last, last-1, ..., 1 *)
Definition countdown (last : nat) : list nat := rev (seq 1 last).

(** /repo/src/gadgets/field2bits_strict.cpp:47-72 *)
Definition f2b_constraints (g : f2b) : outcome (list constr) :=
  let pack := packing_constraints true (f2b_bits g) (V (f2b_in g)) in
  cmps <- omapM lookup1_constraints (f2b_cmps g) ;;
  let last := (length (f2b_bits g) - 1)%nat in
  ands <- omapM (f2b_and_constraint g last) (countdown last) ;;
  Ok (pack ++ concat cmps ++ ands).

(** one iteration of the loop in /repo/src/gadgets/field2bits_strict.cpp:86-97 *)
Definition f2b_and_witness (g : f2b) (last i : nat) (s : assign) : outcome assign :=
  r' <- idx (f2b_results g) (i - 1) ;;
  c' <- idx (f2b_cmps g) (i - 1) ;;
  if Nat.eqb i last then
    c <- idx (f2b_cmps g) i ;;
    Ok (upd s r' (s (lookup1_result c') * s (lookup1_result c)))
  else
    r <- idx (f2b_results g) i ;;
    Ok (upd s r' (s r * s (lookup1_result c'))).

(** /repo/src/gadgets/field2bits_strict.cpp:75-98 *)
Definition f2b_witness (g : f2b) (s : assign) : outcome assign :=
  s1 <- packing_witness_from_packed (f2b_bits g) (V (f2b_in g)) s ;;
  s2 <- oseq (map lookup1_witness (f2b_cmps g)) s1 ;;
  let last := (length (f2b_bits g) - 1)%nat in
  oseq (map (f2b_and_witness g last) (countdown last)) s2.

(** /repo/src/gadgets/field2bits_strict.cpp:101-104 *)
Definition f2b_result (g : f2b) : list var := f2b_bits g.

(** ** subadd_gadget *)
Record subadd := { sa_A : var; sa_B : var; sa_N : var; sa_X : var; sa_Y : var;
                   sa_N_lt_A : var; sa_N_leq_A : var; sa_cmp_N_A : comparison;
                   sa_Y_lt : var; sa_Y_leq : var; sa_cmp_Y : comparison }.

(** FieldT::capacity() of alt_bn128 Fr *)
Definition capacity : nat := 253.

(** /repo/src/gadgets/subadd.cpp:12-40 *)
Definition subadd_new (n_bits : nat) (A B N : var) (k : nat) : outcome (subadd * nat) :=
  let X := k in let Y := (k + 1)%nat in
  let N_lt_A := (k + 2)%nat in let N_leq_A := (k + 3)%nat in
  ' (cmp1, k1) <- comparison_new n_bits (V N) (V A) N_lt_A N_leq_A (k + 4)%nat ;;
  let Y_lt := k1 in let Y_leq := (k1 + 1)%nat in
  ' (cmp2, k2) <- comparison_new (n_bits + 1)%nat (V Y) (LC (Fpow (Fof 2) (Z.of_nat n_bits)))
                     Y_lt Y_leq (k1 + 2)%nat ;;
  _ <- oassert (Nat.leb (n_bits + 1) capacity) ;;
  Ok ({| sa_A := A; sa_B := B; sa_N := N; sa_X := X; sa_Y := Y; sa_N_lt_A := N_lt_A;
         sa_N_leq_A := N_leq_A; sa_cmp_N_A := cmp1; sa_Y_lt := Y_lt; sa_Y_leq := Y_leq;
         sa_cmp_Y := cmp2 |}, k2).

(** /repo/src/gadgets/subadd.cpp:43-66 *)
Definition subadd_constraints (g : subadd) : list constr :=
  comparison_constraints (sa_cmp_N_A g) ++
  comparison_constraints (sa_cmp_Y g) ++
  [ R1 (LSub (V (sa_A g)) (V (sa_N g))) L1 (V (sa_X g));
    R1 (LAdd (V (sa_B g)) (V (sa_N g))) L1 (V (sa_Y g));
    R1 (V (sa_N_leq_A g)) L1 L1;
    R1 (V (sa_Y_lt g)) L1 L1 ].

(** /repo/src/gadgets/subadd.cpp:69-78 *)
Definition subadd_witness (g : subadd) (s : assign) : outcome assign :=
  let s1 := upd s (sa_X g) (s (sa_A g) - s (sa_N g)) in
  let s2 := upd s1 (sa_Y g) (s1 (sa_B g) + s1 (sa_N g)) in
  s3 <- comparison_witness (sa_cmp_N_A g) s2 ;;
  comparison_witness (sa_cmp_Y g) s3.
