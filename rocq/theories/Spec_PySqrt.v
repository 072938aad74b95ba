(** Vocabulary of C129 and C130. *)
From Coq Require Import ZArith.
Local Open Scope Z_scope.
(** [z] is a square modulo [p] *)
Definition is_square_mod (p z : Z) : Prop := exists r, (r * r) mod p = z mod p.
