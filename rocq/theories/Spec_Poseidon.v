(** Specification of the Poseidon permutation (compare
    /repo/ethsnarks/poseidon/permutation.py): zero-padded state of [t] elements; every
    round adds its constant to all elements, raises all (or only the first [c]) to the
    fifth power and multiplies by the matrix; the first [nO] elements are the output. *)
From Coq Require Import List ZArith Arith Bool.
From Verif Require Import Field.
Import ListNotations.
Local Open Scope F_scope.

Fixpoint dot (a b : list F) : F :=
  match a, b with x :: a', y :: b' => x * y + dot a' b' | _, _ => F0 end.

(** row i of a t-column matrix stored by rows *)
Definition row (t : nat) (M : list F) (i : nat) : list F := firstn t (skipn (i * t) M).

Definition sub_words (nS : nat) (C : F) (st : list F) : list F :=
  map (fun x => Fpow (x + C) 5) (firstn nS st) ++ map (fun x => x + C) (skipn nS st).

Definition pad (t : nat) (st : list F) : list F := st ++ repeat F0 (t - length st).

Definition round_spec (t nS : nat) (M : list F) (C : F) (st : list F) : list F :=
  map (fun i => dot (row t M i) (sub_words nS C st)) (seq 0 t).

Definition is_partial (Fr P i : nat) : bool := ((Fr / 2 <=? i) && (i <? Fr / 2 + P))%nat.

Definition poseidon_spec (t c Fr P nO : nat) (C M : list F) (inputs : list F) : list F :=
  firstn nO (fold_left
    (fun st i => round_spec t (if is_partial Fr P i then c else t) M (nth i C F0) st)
    (seq 0 (Fr + P)) (pad t inputs)).
