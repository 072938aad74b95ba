(** Property theorems C126-C128: the Python number theory and field elements, /repo/ethsnarks/numbertheory.py
    and /repo/ethsnarks/field.py.  [fq_init (Oint a) m] is the expression FQ(a, m).
    Vocabulary: Spec_PyField.v ([count_below]), Spec_Utils.v ([le_val]). *)
From Coq Require Import List ZArith Bool Lia Znumtheory.
From Verif Require Import Base Pocklington Primes Spec_Utils M_PyPoseidon M_PyField Spec_PyField Q_PyField.
Import ListNotations.
Local Open Scope nat_scope.
Local Open Scope Z_scope.

(** ** C126: gcd, lcm and inverses; [fuel] bounds the number of iterations *)
Theorem C126_gcd2 : forall fuel a b, Z.abs a < Z.of_nat fuel ->
  exists g, gcd2 fuel a b = Ok g /\ Z.abs g = Z.gcd a b /\ (0 <= a -> 0 <= b -> g = Z.gcd a b).
Proof. exact gcd2_lemma. Qed.
Print Assumptions C126_gcd2.
Theorem C126_gcd : forall fuel l, Forall (fun x => Z.abs x < Z.of_nat fuel) l -> l <> [] ->
  exists g, py_gcd fuel l = Ok g /\ Z.abs g = fold_right Z.gcd 0 l.
Proof. exact py_gcd_lemma. Qed.
Print Assumptions C126_gcd.
Theorem C126_lcm2 : forall fuel a b, 0 <= a -> 0 <= b -> a < Z.of_nat fuel ->
  lcm2 fuel a b = if (a =? 0) && (b =? 0) then Throw else Ok (Z.lcm a b).
Proof. exact lcm2_lemma. Qed.
Print Assumptions C126_lcm2.
Theorem C126_inverse_mod : forall fuel a m, 1 <= m -> m < Z.of_nat fuel ->
  (Z.gcd a m = 1 -> exists r, inverse_mod fuel a m = Ok r /\ 1 <= r <= m /\ (a * r) mod m = 1 mod m) /\
  (Z.gcd a m <> 1 -> inverse_mod fuel a m = Throw).
Proof. exact inverse_mod_lemma. Qed.
Print Assumptions C126_inverse_mod.
Example C126_example : gcd2 20 12 (-18) = Ok 6 /\ py_gcd 100 [84; 36; 90] = Ok 6 /\ lcm2 20 4 6 = Ok 12 /\
  inverse_mod 30 (-10) 27 = Ok 8 /\ inverse_mod 30 12 27 = Throw /\ inverse_mod 30 5 1 = Ok 1.
Proof. repeat split. Qed.

(** ** C127: field elements *)
Theorem C127_ring : forall m a b A o, fq_init (Oint a) m = Ok A -> o = Oint b \/ (exists B, fq_init (Oint b) m = Ok B /\ o = Ofq B) ->
  fq_add A o = fq_init (Oint (a + b)) m /\ fq_sub A o = fq_init (Oint (a - b)) m /\ fq_rsub A o = fq_init (Oint (b - a)) m /\
  fq_mul A o = fq_init (Oint (a * b)) m /\ fq_neg A = fq_init (Oint (- a)) m /\
  (forall e, 0 <= e -> fq_exp A (Oint e) = fq_init (Oint (a ^ e)) m).
Proof. exact fq_ring_lemma. Qed.
Print Assumptions C127_ring.
Theorem C127_field : forall m a b A B o, prime m -> fq_init (Oint a) m = Ok A -> fq_init (Oint b) m = Ok B -> b mod m <> 0 -> o = Oint b \/ o = Ofq B ->
  exists Q I, fq_divide A o = Ok Q /\ fq_mul Q o = Ok A /\ (forall oa, oa = Oint a \/ oa = Ofq A -> fq_rdivide B oa = Ok Q) /\
    fq_inv B = Ok I /\ fq_mul I (Ofq B) = fq_init (Oint 1) m /\ fq_mul I (Ofq A) = Ok Q.
Proof. exact fq_field_lemma. Qed.
Print Assumptions C127_field.
Theorem C127_equality : forall m a b A B, fq_init (Oint a) m = Ok A -> fq_init (Oint b) m = Ok B ->
  exists r, fq_eq A (Ofq B) = Ok r /\ (r = true <-> fq_sub A (Ofq B) = fq_init (Oint 0) m).
Proof. exact fq_eq_lemma. Qed.
Print Assumptions C127_equality.
Theorem C127_moduli : forall m1 m2 a b A B, m1 <> m2 -> fq_init (Oint a) m1 = Ok A -> fq_init (Oint b) m2 = Ok B ->
  fq_add A (Ofq B) = Throw /\ fq_sub A (Ofq B) = Throw /\ fq_mul A (Ofq B) = Throw /\ fq_divide A (Ofq B) = Throw /\ fq_exp A (Ofq B) = Throw /\ fq_init (Ofq B) m1 = Throw /\
  fq_eq A (Ofq B) = (if b mod m2 =? 0 then Ok (a mod m1 =? 0) else Throw).
Proof. exact fq_moduli_lemma. Qed.
Print Assumptions C127_moduli.
(** a zero divisor does not raise *)
Theorem C127_division_by_zero : forall m a b A o, 2 < m -> fq_init (Oint a) m = Ok A -> b mod m = 0 ->
  o = Oint b \/ (exists B, fq_init (Oint b) m = Ok B /\ o = Ofq B) -> fq_divide A o = fq_init (Oint 0) m.
Proof. exact fq_div_zero_lemma. Qed.
Print Assumptions C127_division_by_zero.
(** an integer that stands for the element need not be equal to it *)
Theorem C127_equality_refuted : exists m a b A, prime m /\ fq_init (Oint a) m = Ok A /\ fq_sub A (Oint b) = fq_init (Oint 0) m /\ fq_eq A (Oint b) = Ok false.
Proof. exact fq_eq_int_lemma. Qed.
Print Assumptions C127_equality_refuted.
(** the modulus of the class FR is not prime: inverses are wrong for all elements that are not 1 modulo 8 *)
Theorem C127_scalar_inverses : forall a A I, a mod 8 <> 1 -> fq_init (Oint a) FR_ORDER = Ok A -> fq_inv A = Ok I -> fq_mul I (Ofq A) <> fq_init (Oint 1) FR_ORDER.
Proof. exact fr_inverse_lemma. Qed.
Print Assumptions C127_scalar_inverses.
Theorem C127_scalar_inverse_refuted : exists a A I, Z.gcd a FR_ORDER = 1 /\ fq_init (Oint a) FR_ORDER = Ok A /\ fq_inv A = Ok I /\ fq_mul I (Ofq A) <> fq_init (Oint 1) FR_ORDER.
Proof. exact fr_unit_lemma. Qed.
Print Assumptions C127_scalar_inverse_refuted.
Example C127_example : prime 7 /\ fq_init (Oint (-4)) 7 = Ok (mkfq 3 7) /\ fq_divide (mkfq 3 7) (Oint 12) = Ok (mkfq 2 7) /\
  fq_mul (mkfq 2 7) (Oint 12) = Ok (mkfq 3 7) /\ fq_inv (mkfq 5 7) = Ok (mkfq 3 7) /\ fq_exp (mkfq 3 7) (Oint 6) = Ok (mkfq 1 7) /\
  fq_divide (mkfq 3 7) (Oint 14) = Ok (mkfq 0 7) /\ fq_eq (mkfq 0 7) (Ofq (mkfq 0 5)) = Ok true /\ fq_eq (mkfq 1 7) (Ofq (mkfq 1 5)) = Throw.
Proof. split; [apply (small_prime 7 10); reflexivity|repeat split]. Qed.

(** ** C128: bytes and random elements *)
Theorem C128_to_bytes : forall m a A, 0 < m -> fq_init (Oint a) m = Ok A ->
  exists l, fq_to_bytes_le A = Ok l /\ fq_to_bytes_be A = Ok (rev l) /\ Z.of_nat (length l) = fq_nbytes m /\ Forall (fun b => 0 <= b < 256) l /\ le_val l = a mod m.
Proof. exact fq_bytes_lemma. Qed.
Print Assumptions C128_to_bytes.
Theorem C128_to_bytes_injective : forall m a b A B l, 0 < m -> fq_init (Oint a) m = Ok A -> fq_init (Oint b) m = Ok B ->
  fq_to_bytes_be A = Ok l -> fq_to_bytes_be B = Ok l -> A = B.
Proof. exact fq_bytes_injective_lemma. Qed.
Print Assumptions C128_to_bytes_injective.
Theorem C128_random : forall m a A, 0 < m -> fq_init (Oint a) m = Ok A ->
  let total := 256 ^ random_bytes m in
  let hits := count_below (Z.to_nat total) (fun draw => match fq_random draw m with Ok X => fn X =? fn A | _ => false end) in
  total / m <= hits <= total / m + 1 /\ 256 <= total / m.
Proof. exact fq_random_lemma. Qed.
Print Assumptions C128_random.
Example C128_example : fq_to_bytes_be (mkfq 258 1000) = Ok [1; 2] /\ fq_nbytes SNARK_SCALAR_FIELD = 32 /\ random_bytes SNARK_SCALAR_FIELD = 33 /\
  count_below 20 (fun draw => match fq_random draw 7 with Ok X => fn X =? 6 | _ => false end) = 2.
Proof. repeat split. Qed.
