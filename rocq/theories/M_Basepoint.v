(** Model of the base-point derivation of /repo/src/jubjub/point.cpp: is_negative, from_y_always,
    from_hash, make_basepoint, make_basepoints. *)
From Coq Require Import List ZArith Bool Arith String Ascii.
From Verif Require Import Primes Field Base M_Point M_Utils M_Bits M_Sha256 M_Eddsa.
Import ListNotations.
Local Open Scope Z_scope.

(** is_negative, /repo/src/utils.cpp:216-236: mpz_cmp of the canonical representatives *)
Definition is_negative (v : F) : bool := fval v <? fval (- v)%F.

(** mpz_jacobi(a, p) as called at point.cpp:111.  GMP is not part of the repository; for the odd
    prime p the Jacobi symbol is the Legendre symbol, given here by Euler's criterion. *)
Definition mpz_jacobi (a : F) : Z :=
  if Feqb a F0 then 0 else if Feqb (Fpow a ((p_mod - 1) / 2)) F1 then 1 else -1.

(** from_y_always, /repo/src/jubjub/point.cpp:91-128.  [sqrt] is libff's Fp_model::sqrt (not part of
    the repository), a parameter of everything below.  [n] iterations are left, the next one has
    counter [i].  Simplification: mpz_init/mpz_clear (memory only) are left out. *)
Fixpoint from_y_loop (sqrt : F -> F) (n : nat) (i : Z) (in_y : F) : outcome point :=
  match n with
  | O => Abort
  | S n' =>
    let tmp_y := (in_y + Fof i)%F in
    let ysq := (tmp_y * tmp_y)%F in
    let lhs := (ysq - F1)%F in
    let rhs := (jj_d * ysq - jj_a)%F in
    r <- inverse rhs ;;
    let xx := (lhs * r)%F in
    if mpz_jacobi xx =? -1 then from_y_loop sqrt n' (i + 1) in_y
    else
      let tmp_x := sqrt xx in
      Ok (if is_negative tmp_x then mkpt (- tmp_x)%F tmp_y else mkpt tmp_x tmp_y)
  end.
Definition from_y_always (sqrt : F -> F) (in_y : F) : outcome point := from_y_loop sqrt 100 0 in_y.

(** from_hash, /repo/src/jubjub/point.cpp:57-88, on the [n] bytes [in_bytes]; [ctx] is the
    uninitialised SHA256_CTX on the stack.  SHA256_Final cannot fail for a 32-byte digest
    (C54); a failure would leave the digest uninitialised. *)
Definition from_hash (sqrt : F -> F) (ctx : sctx) (in_bytes : list Z) : outcome point :=
  md <- SHA256 ctx in_bytes ;;
  match md with
  | None => UB
  | Some output_digest =>
    let y := Fof (import_be output_digest) in
    result <- from_y_always sqrt y ;;
    r2 <- ed_dbl result ;;
    r4 <- ed_dbl r2 ;;
    ed_dbl r4
  end.

(** The characters of a C string: up to the first NUL. *)
Fixpoint c_chars (s : string) : list Z :=
  match s with
  | EmptyString => []
  | String c r => if Ascii.eqb c Ascii.zero then [] else Z.of_nat (nat_of_ascii c) :: c_chars r
  end.

(** sprintf's %X: upper-case hexadecimal digits of an unsigned int (at most 8), most significant
    first, at least [width] of them. *)
Definition hex_digit (d : Z) : Z := if d <? 10 then 48 + d else 55 + d.
Fixpoint hex_digits (fuel : nat) (n : Z) : list Z :=
  match fuel with
  | O => []
  | S f => if n =? 0 then [] else hex_digits f (n / 16) ++ [hex_digit (n mod 16)]
  end.
Definition fmt_0X (width : nat) (n : Z) : list Z :=
  let ds := hex_digits 8 n in repeat 48 (width - List.length ds) ++ ds.
(** sprintf's %-28s: the string, padded on the right with spaces to at least [width] characters *)
Definition fmt_left (width : nat) (s : list Z) : list Z := s ++ repeat 32 (width - List.length s).

(** The 32 bytes make_basepoint hashes, /repo/src/jubjub/point.cpp:147-156: sprintf into char
    data[33] (with its terminator), of which 32 bytes are used *)
Definition basepoint_data (name : string) (sequence : Z) : outcome (list Z) :=
  let cs := c_chars name in
  _ <- oassert (List.length cs <=? 28)%nat ;;
  _ <- oassert (sequence <=? 65535) ;;
  let data := fmt_left 28 cs ++ fmt_0X 4 sequence ++ [0] in
  if (List.length data <=? 33)%nat then Ok (firstn 32 data) else UB.
(** make_basepoint, /repo/src/jubjub/point.cpp:145-159 *)
Definition make_basepoint (sqrt : F -> F) (ctx : sctx) (name : string) (sequence : Z) : outcome point :=
  data <- basepoint_data name sequence ;; from_hash sqrt ctx data.

(** make_basepoints, /repo/src/jubjub/point.cpp:162-172; an unsigned int never exceeds 2^32 *)
Definition make_basepoints (sqrt : F -> F) (ctx : sctx) : basepoint_fn :=
  fun name n => omapM (fun i => make_basepoint sqrt ctx name (Z.of_nat i)) (seq 0 (Z.to_nat n)).
