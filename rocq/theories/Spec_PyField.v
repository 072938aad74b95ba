(** Vocabulary of C128. *)
From Coq Require Import List ZArith.
Import ListNotations.
Local Open Scope Z_scope.
(** how many of the numbers 0, ..., n-1 satisfy [P] *)
Definition count_below (n : nat) (P : Z -> bool) : Z := Z.of_nat (length (filter P (map Z.of_nat (seq 0 n)))).
