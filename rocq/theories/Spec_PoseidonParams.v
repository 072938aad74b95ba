(** What the Poseidon parameters should be: a chain of BLAKE2b-256 digests read as little-endian field
    elements, and a matrix without non-trivial sparse relations (maximum distance separable, MDS). *)
From Coq Require Import List ZArith Bool Arith.
From Verif Require Import Primes Field Spec_Utils Spec_Blake2b Spec_Poseidon.
Import ListNotations.
Local Open Scope nat_scope.

(** the [i]-th digest of the chain seed, H(seed), H(H(seed)), ... *)
Definition digest (i : nat) (seed : list Z) : list Z := Nat.iter (S i) (rfc_blake2b 32 []) seed.
(** number of non-zero entries *)
Definition weight (v : list F) : nat := length (filter (fun x => negb (Feqb x F0)) v).
Definition mat_vec (t : nat) (M v : list F) : list F := map (fun i => dot (row t M i) v) (seq 0 t).
(** branch number t + 1 *)
Definition mds (t : nat) (M : list F) : Prop :=
  length M = t * t /\
  forall v, length v = t -> (exists x, In x v /\ x <> F0) -> t + 1 <= weight v + weight (mat_vec t M v).
(** the whole permutation: all [t] elements of the state are kept *)
Definition permutation (t c Fr P : nat) (C M st : list F) : list F := poseidon_spec t c Fr P t C M st.
