(** Property theorems C129 and C130: the Jacobi symbol and the modular square root of
    /repo/ethsnarks/numbertheory.py, and FQ.sqrt of /repo/ethsnarks/field.py.
    Vocabulary: Spec_PySqrt.v ([is_square_mod]), Spec_PyJubjub.v ([py_sqrt_ok]). *)
From Coq Require Import List ZArith Bool Lia Arith Znumtheory.
From Verif Require Import Primes Field Base M_PyField M_PySqrt Spec_PySqrt Spec_PyJubjub Q_PySqrt.
Import ListNotations.
Local Open Scope nat_scope.
Local Open Scope Z_scope.

(** ** C129: the Jacobi symbol; [fuel] bounds the depth of the recursion *)
(** defined for all odd moduli from 3 on: depth at most 2 * log2 n + 2, a character, zero exactly at common factors *)
Theorem C129_character : forall fuel n a b, 3 <= n -> n mod 2 = 1 -> 2 * Z.log2 n + 2 <= Z.of_nat fuel ->
  exists x y, jacobi fuel a n = Ok x /\ jacobi fuel b n = Ok y /\ jacobi fuel (a * b) n = Ok (x * y) /\
    (x = 0 <-> Z.gcd a n <> 1) /\ (x = -1 \/ x = 0 \/ x = 1) /\ (a mod n = b mod n -> x = y) /\ (a mod n = 1 -> x = 1).
Proof. exact jacobi_lemma. Qed.
Print Assumptions C129_character.
Theorem C129_reciprocity : forall fuel m n, 3 <= m -> 3 <= n -> m mod 2 = 1 -> n mod 2 = 1 -> Z.gcd m n = 1 -> 2 * Z.log2 m + 2 <= Z.of_nat fuel -> 2 * Z.log2 n + 2 <= Z.of_nat fuel ->
  exists x y, jacobi fuel m n = Ok x /\ jacobi fuel n m = Ok y /\ x * y = if (m mod 4 =? 3) && (n mod 4 =? 3) then -1 else 1.
Proof. exact jacobi_reciprocity_lemma. Qed.
Print Assumptions C129_reciprocity.
(** for the field's modulus: the Legendre symbol, with a recursion depth below Python's limit of 1000 *)
Theorem C129_legendre : forall depth z, (508 <= depth)%nat ->
  exists j, jacobi depth z p_mod = Ok j /\ (j = 0 <-> z mod p_mod = 0) /\ (j = -1 <-> ~ is_square_mod p_mod z).
Proof. exact legendre_lemma. Qed.
Print Assumptions C129_legendre.
Theorem C129_domain : forall fuel a n, n < 3 \/ n mod 2 = 0 -> (0 < fuel)%nat -> jacobi fuel a n = Throw.
Proof. exact jacobi_domain_lemma. Qed.
Print Assumptions C129_domain.
Example C129_example : jacobi 14 1001 9907 = Ok (-1) /\ jacobi 9 19 45 = Ok 1 /\ jacobi 9 (-6) 45 = Ok 0 /\
  jacobi 9 3 8 = Throw /\ 2 * Z.log2 45 + 2 <= 12.
Proof. repeat split; reflexivity || discriminate. Qed.

(** ** C130: square roots; [depth] bounds the recursion of [jacobi], [fuel] the number of candidates tried *)
Theorem C130_square_root : forall depth a, (508 <= depth)%nat -> 0 <= a < p_mod ->
  (is_square_mod p_mod a -> exists n, Z.of_nat n < p_mod /\ forall fuel, (n < fuel)%nat -> exists r, square_root_mod_prime depth fuel a p_mod = Ok r /\ 0 <= r < p_mod /\ (r * r) mod p_mod = a) /\
  (~ is_square_mod p_mod a -> forall fuel, square_root_mod_prime depth fuel a p_mod = Throw).
Proof. exact square_root_lemma. Qed.
Print Assumptions C130_square_root.
(** hence the square root that C118, C119, C121 and C122 are parametrised by *)
Theorem C130_fq_sqrt : forall depth fuel, (508 <= depth)%nat -> p_mod <= Z.of_nat fuel -> py_sqrt_ok (py_sqrt depth fuel).
Proof. exact fq_sqrt_lemma. Qed.
Print Assumptions C130_fq_sqrt.
(** the shorter computation for primes that are 3 modulo 4 *)
Theorem C130_three_mod_four : forall p depth fuel a, prime p -> p mod 4 = 3 -> 2 * Z.log2 p + 2 <= Z.of_nat depth -> 0 <= a < p -> is_square_mod p a ->
  exists r, square_root_mod_prime depth fuel a p = Ok r /\ 0 <= r < p /\ (r * r) mod p = a.
Proof. exact sqrt_three_mod_four_lemma. Qed.
Print Assumptions C130_three_mod_four.
Example C130_example : is_square_mod p_mod 4 /\ square_root_mod_prime 508 1 5 p_mod = Throw /\
  square_root_mod_prime 9 9 13 17 = Ok 8 /\ square_root_mod_prime 9 9 3 17 = Throw /\ square_root_mod_prime 9 9 2 7 = Ok 4 /\ 7 mod 4 = 3 /\ is_square_mod 7 2.
Proof. split; [exists 2; reflexivity|]. repeat split; try (vm_compute; reflexivity). exists 3. reflexivity. Qed.
