(** Model of the Merkle path gadgets: /repo/src/gadgets/merkle_tree.{hpp,cpp}. *)
From Coq Require Import List ZArith Bool Arith.
From Verif Require Import Field Base R1CS M_Mimc.
Import ListNotations.
Local Open Scope F_scope.

(** ** merkle_path_selector *)
Record selector := { sl_input : var; sl_path : var; sl_right_bit : var;
  sl_left_a : var; sl_left_b : var; sl_left : var; sl_right_a : var; sl_right_b : var; sl_right : var }.

(** /repo/src/gadgets/merkle_tree.cpp:11-30 *)
Definition selector_new (input path is_right : var) (n : nat) : selector * nat :=
  ({| sl_input := input; sl_path := path; sl_right_bit := is_right;
      sl_left_a := n; sl_left_b := n + 1; sl_left := n + 2;
      sl_right_a := n + 3; sl_right_b := n + 4; sl_right := n + 5 |}, n + 6)%nat.

(** /repo/src/gadgets/merkle_tree.cpp:32-52 *)
Definition selector_constraints (g : selector) : list constr :=
  [ R1 (LSub L1 (V (sl_right_bit g))) (V (sl_input g)) (V (sl_left_a g));
    R1 (V (sl_right_bit g)) (V (sl_path g)) (V (sl_left_b g));
    R1 (LAdd (V (sl_left_a g)) (V (sl_left_b g))) L1 (V (sl_left g));
    R1 (V (sl_right_bit g)) (V (sl_input g)) (V (sl_right_a g));
    R1 (LSub L1 (V (sl_right_bit g))) (V (sl_path g)) (V (sl_right_b g));
    R1 (LAdd (V (sl_right_a g)) (V (sl_right_b g))) L1 (V (sl_right g)) ].

(** /repo/src/gadgets/merkle_tree.cpp:54-63 *)
Definition selector_witness (g : selector) (s : assign) : assign :=
  let s := upd s (sl_left_a g) ((F1 - s (sl_right_bit g)) * s (sl_input g)) in
  let s := upd s (sl_left_b g) (s (sl_right_bit g) * s (sl_path g)) in
  let s := upd s (sl_left g) (s (sl_left_a g) + s (sl_left_b g)) in
  let s := upd s (sl_right_a g) (s (sl_right_bit g) * s (sl_input g)) in
  let s := upd s (sl_right_b g) ((F1 - s (sl_right_bit g)) * s (sl_path g)) in
  upd s (sl_right g) (s (sl_right_a g) + s (sl_right_b g)).

(** ** The template parameter HashT: constructor (pb, IV, messages), result,
    constraints, witness. *)
Record hash_ops := {
  hg : Type;
  hg_new : var -> list var -> nat -> hg * nat;
  hg_result : hg -> outcome var;
  hg_constraints : hg -> outcome (list constr);
  hg_witness : hg -> assign -> outcome assign
}.

(** MiMC_hash_gadget (= MiyaguchiPreneel_OWF<MiMC_gadget>) as HashT, for either round class *)
Definition mimc_hash_ops (O : round_ops) (C : list F) : hash_ops := {|
  hg := mp_gadget O;
  hg_new := mp_new O C;
  hg_result := mp_result O;
  hg_constraints := mp_constraints O;
  hg_witness := mp_witness O |}.

(** ** merkle_tree_IVs, /repo/src/gadgets/merkle_tree.cpp:74-113: allocates 29 variables
    and fills them with the constants [c]; no constraint is added. *)
Definition merkle_tree_IVs (c : list F) (n : nat) (s : assign) : outcome (list var * nat * assign) :=
  let x := var_array n 29 in
  s' <- fill s x c ;; Ok (x, (n + 29)%nat, s').

(** ** markle_path_compute (sic) *)
Section Merkle.
  Variable H : hash_ops.

  Record mpc := { mpc_levels : list (selector * hg H) }.

  (** the loop of /repo/src/gadgets/merkle_tree.hpp:101-122 from index [i], with [d]
      iterations left; [inp] is in_leaf, then m_hashers\[i-1\].result() *)
  Fixpoint mpc_loop (d i : nat) (addr IVs path : list var) (inp : var) (n : nat)
    : outcome (list (selector * hg H) * nat) :=
    match d with
    | O => Ok ([], n)
    | S d' =>
        p <- idx path i ;;
        a <- idx addr i ;;
        let (sel, n1) := selector_new inp p a n in
        iv <- idx IVs i ;;
        let (h, n2) := hg_new H iv [sl_left sel; sl_right sel] n1 in
        match d' with
        | O => Ok ([(sel, h)], n2)
        | S _ =>
            r <- hg_result H h ;;
            ' (l, n3) <- mpc_loop d' (S i) addr IVs path r n2 ;;
            Ok ((sel, h) :: l, n3)
        end
    end.

  (** /repo/src/gadgets/merkle_tree.hpp:82-123 *)
  Definition mpc_new (depth : nat) (addr IVs : list var) (leaf : var) (path : list var) (n : nat)
    : outcome (mpc * nat) :=
    _ <- oassert (0 <? depth)%nat ;;
    _ <- oassert (length addr =? depth)%nat ;;
    _ <- oassert (depth <=? length IVs)%nat ;;
    ' (l, n') <- mpc_loop depth 0 addr IVs path leaf n ;;
    Ok ({| mpc_levels := l |}, n').

  (** /repo/src/gadgets/merkle_tree.hpp:125-130 *)
  Definition mpc_result (g : mpc) : outcome var :=
    _ <- oassert (0 <? length (mpc_levels g))%nat ;;
    ' (_, h) <- back (mpc_levels g) ;; hg_result H h.

  (** /repo/src/gadgets/merkle_tree.hpp:132-140 *)
  Fixpoint mpc_constraints_l (l : list (selector * hg H)) : outcome (list constr) :=
    match l with
    | [] => Ok []
    | (sel, h) :: l' =>
        c <- hg_constraints H h ;;
        rest <- mpc_constraints_l l' ;;
        Ok (selector_constraints sel ++ c ++ rest)
    end.
  Definition mpc_constraints (g : mpc) : outcome (list constr) := mpc_constraints_l (mpc_levels g).

  (** /repo/src/gadgets/merkle_tree.hpp:142-150 *)
  Fixpoint mpc_witness_l (l : list (selector * hg H)) (s : assign) : outcome assign :=
    match l with
    | [] => Ok s
    | (sel, h) :: l' => s2 <- hg_witness H h (selector_witness sel s) ;; mpc_witness_l l' s2
    end.
  Definition mpc_witness (g : mpc) (s : assign) : outcome assign := mpc_witness_l (mpc_levels g) s.

  (** ** merkle_path_authenticator; the base class subobject is [mpa_base] *)
  Record mpa := { mpa_base : mpc; mpa_root : var }.

  (** /repo/src/gadgets/merkle_tree.hpp:163-175 *)
  Definition mpa_new (depth : nat) (addr IVs : list var) (leaf root : var) (path : list var) (n : nat)
    : outcome (mpa * nat) :=
    ' (b, n') <- mpc_new depth addr IVs leaf path n ;;
    Ok ({| mpa_base := b; mpa_root := root |}, n').

  (** /repo/src/gadgets/merkle_tree.hpp:177-180 *)
  Definition mpa_is_valid (g : mpa) (s : assign) : outcome bool :=
    r <- mpc_result (mpa_base g) ;; Ok (Feqb (s r) (s (mpa_root g))).

  (** /repo/src/gadgets/merkle_tree.hpp:182-190 *)
  Definition mpa_constraints (g : mpa) : outcome (list constr) :=
    c <- mpc_constraints (mpa_base g) ;;
    r <- mpc_result (mpa_base g) ;;
    Ok (c ++ [R1 (V r) L1 (V (mpa_root g))]).

  (** generate_r1cs_witness is inherited *)
  Definition mpa_witness (g : mpa) (s : assign) : outcome assign := mpc_witness (mpa_base g) s.
End Merkle.
