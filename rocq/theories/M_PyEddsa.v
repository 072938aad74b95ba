(** Model of /repo/ethsnarks/pedersen.py and /repo/ethsnarks/eddsa.py.

    An exception is [Throw].  [from_hash] stands for [Point.from_hash] on bytes (M_PyJubjub.v, property
    C119); the name of a hash is given as its bytes.  The type checks of the Python code are not
    modelled: the arguments here have the right types. *)
From Coq Require Import List ZArith Bool Arith.
From Verif Require Import Primes Field Base M_Point M_PyJubjub.
Import ListNotations.
Local Open Scope nat_scope.
Local Open Scope Z_scope.

(** ** /repo/ethsnarks/pedersen.py *)
(** ["%04X" % i] for a number below 65536 *)
Definition hex_upper (d : Z) : Z := if d <? 10 then 48 + d else 55 + d.
Definition py_hex4 (i : Z) : list Z := map hex_upper [i / 4096 mod 16; i / 256 mod 16; i / 16 mod 16; i mod 16].

Section Pedersen.
Variable from_hash : list Z -> outcome point.
(** [pedersen_hash_basepoint], /repo/ethsnarks/pedersen.py:13-29 *)
Definition ped_basepoint (name : list Z) (i : Z) : outcome epoint :=
  _ <- py_check (negb ((i <? 0) || (65535 <? i))) ;;
  _ <- py_check (Nat.leb (length name) 28) ;;
  P <- from_hash (name ++ repeat 32 (28 - length name) ++ py_hex4 i) ;;
  Ok (pt_as_etec P).

(** the loop of [pedersen_hash_windows], /repo/ethsnarks/pedersen.py:37-46; [j] counts the windows *)
Fixpoint ped_loop (name : list Z) (j : nat) (current result : epoint) (windows : list Z) : outcome epoint :=
  match windows with
  | [] => Ok result
  | window :: r =>
    current <- (if Nat.eqb (Nat.modulo j 62) 0 then ped_basepoint name (Z.of_nat (Nat.div j 62))
                else (c1 <- ep_double current ;; c2 <- ep_double c1 ;; c3 <- ep_double c2 ;; ep_double c3)) ;;
    segment <- py_mult cc_etec current (SInt (Z.land window 3 + 1)) ;;
    let segment := if 3 <? window then ep_neg segment else segment in
    result <- ep_add result segment ;;
    ped_loop name (S j) current result r
  end.
(** /repo/ethsnarks/pedersen.py:32-47 *)
Definition ped_windows (name : list Z) (windows : list Z) : outcome point :=
  r <- ped_loop name 0 ep_infinity ep_infinity windows ;; Ok (ep_as_point r).

(** [int(bits[i:i+3][::-1], 2)] for i = 0, 3, ..., /repo/ethsnarks/pedersen.py:54 *)
Fixpoint bit_windows (bits : list bool) : list Z :=
  match bits with
  | a :: b :: c :: r => (Z.b2z a + 2 * Z.b2z b + 4 * Z.b2z c) :: bit_windows r
  | [a; b] => [Z.b2z a + 2 * Z.b2z b]
  | [a] => [Z.b2z a]
  | [] => []
  end.
(** /repo/ethsnarks/pedersen.py:50-58 *)
Definition ped_hash_bits (name : list Z) (bits : list bool) : outcome point :=
  _ <- py_check (negb (Nat.eqb (length (bit_windows bits)) 0)) ;; ped_windows name (bit_windows bits).
(** [bin(b)[2:].rjust(8, '0')] *)
Definition byte_bits (b : Z) : list bool := map (fun i => Z.testbit b (Z.of_nat i)) (rev (seq 0 8)).
(** /repo/ethsnarks/pedersen.py:61-74 *)
Definition ped_hash_bytes (name data : list Z) : outcome point :=
  _ <- py_check (negb (Nat.eqb (length data) 0)) ;; ped_hash_bits name (flat_map byte_bits data).
(** [list((s >> i) & 0b111 for i in range(0, s.bit_length(), 3))], /repo/ethsnarks/pedersen.py:103 *)
Definition bit_length (s : Z) : nat := if s =? 0 then O else S (Z.to_nat (Z.log2 (Z.abs s))).
Definition scalar_windows (s : Z) : list Z :=
  map (fun i => Z.land (Z.shiftr s (3 * Z.of_nat i)) 7) (seq 0 (Nat.div (bit_length s + 2) 3)).
(** /repo/ethsnarks/pedersen.py:77-104 *)
Definition ped_hash_scalars (name : list Z) (scalars : list Z) : outcome point :=
  ped_windows name (flat_map scalar_windows scalars).
End Pedersen.

(** ** /repo/ethsnarks/eddsa.py *)
(** [Signature], /repo/ethsnarks/eddsa.py:46-51: S is an FQ of modulus p, an integer is reduced *)
Record pysig := mkps { ps_R : point; ps_S : F }.

Section Scheme.
(** messages before and after [prehash_message] *)
Context {Msg Msg' : Type}.
Variable prehash_message : Msg -> outcome Msg'.
(** the number of the SHA-512 digest in [hash_secret] before it is reduced, of the key and the message *)
Variable secret_digest : Z -> Msg' -> Z.
Variable hash_public : point -> point -> Msg' -> outcome Z.
Variable B : point.
(** /repo/ethsnarks/eddsa.py:131-147 *)
Definition hash_secret (k : Z) (M : Msg') : Z := secret_digest k M mod JUBJUB_L.
(** [sign] with the key [FQ(n, m)], /repo/ethsnarks/eddsa.py:160-178 *)
Definition py_sign (msg : Msg) (n m : Z) : outcome (point * pysig * Msg) :=
  _ <- py_check (negb ((JUBJUB_L <=? n) || (n <=? 0))) ;;
  A <- py_mult cc_point B (SFQ n m) ;;
  M <- prehash_message msg ;;
  let r := hash_secret n M in
  R <- py_mult cc_point B (SInt r) ;;
  t <- hash_public R A M ;;
  let S := (r + n * t) mod JUBJUB_E in
  Ok (A, mkps R (Fof S), msg).
(** /repo/ethsnarks/eddsa.py:180-194 *)
Definition py_verify (A : point) (sig : pysig) (msg : Msg) : outcome bool :=
  lhs <- py_mult cc_point B (SFQ (fval (ps_S sig)) JUBJUB_Q) ;;
  M <- prehash_message msg ;;
  t <- hash_public (ps_R sig) A M ;;
  At <- py_mult cc_point A (SInt t) ;;
  rhs <- pt_add (ps_R sig) At ;;
  Ok (pt_eq lhs rhs).
End Scheme.

(** [FQ.bits], /repo/ethsnarks/field.py:133-137: 254 bits, the least significant one first *)
Definition fq_bits (x : F) : list bool := map (fun i => Z.testbit (fval x) (Z.of_nat i)) (seq 0 254).
(** the name "EdDSA_Verify.RAM", /repo/ethsnarks/eddsa.py:43 *)
Definition ram_name : list Z := [69; 100; 68; 83; 65; 95; 86; 101; 114; 105; 102; 121; 46; 82; 65; 77].
(** [PureEdDSA.hash_public], /repo/ethsnarks/eddsa.py:197-200, for a message of bits ([BitArray]);
    [to_bits], /repo/ethsnarks/eddsa.py:89-108, takes the abscissas of the points *)
Definition pure_hash_public (from_hash : list Z -> outcome point) (R A : point) (M : list bool) : outcome Z :=
  P <- ped_hash_bits from_hash ram_name (fq_bits (px R) ++ fq_bits (px A) ++ M) ;; Ok (fval (px P)).
Definition pure_sign from_hash secret_digest := py_sign (@Ok (list bool)) secret_digest (pure_hash_public from_hash) pt_generator.
Definition pure_verify from_hash := py_verify (@Ok (list bool)) (pure_hash_public from_hash) pt_generator.
(** [EdDSA], /repo/ethsnarks/eddsa.py:203-206: the message of bytes is hashed to a point with the name
    "EdDSA_Verify.M", /repo/ethsnarks/eddsa.py:42, and the point's abscissa is hashed *)
Definition m_name : list Z := [69; 100; 68; 83; 65; 95; 86; 101; 114; 105; 102; 121; 46; 77].
Definition eddsa_hash_public (from_hash : list Z -> outcome point) (R A M : point) : outcome Z :=
  pure_hash_public from_hash R A (fq_bits (px M)).
Definition eddsa_sign from_hash secret_digest := py_sign (ped_hash_bytes from_hash m_name) secret_digest (eddsa_hash_public from_hash) pt_generator.
Definition eddsa_verify from_hash := py_verify (ped_hash_bytes from_hash m_name) (eddsa_hash_public from_hash) pt_generator.
