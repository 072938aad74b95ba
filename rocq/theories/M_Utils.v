(** Model of the conversions of /repo/src/utils.cpp.  Bytes, characters and machine words are
    integers; vectors and buffers are lists and every access is range checked. *)
From Coq Require Import List ZArith Bool Arith.
From Verif Require Import Primes Field Base.
Import ListNotations.
Local Open Scope nat_scope.

(** [v\[i\] = x], undefined behaviour out of range *)
Definition wr {A} (l : list A) (i : nat) (x : A) : outcome (list A) :=
  if i <? length l then Ok (firstn i l ++ x :: skipn (S i) l) else UB.
(** for( i = lo; i < lo + n; i++ ) body *)
Fixpoint ofor {S} (lo n : nat) (body : nat -> S -> outcome S) (s : S) : outcome S :=
  match n with
  | O => Ok s
  | Datatypes.S n' => s' <- body lo s ;; ofor (Datatypes.S lo) n' body s'
  end.
(** [1ul << k] on a 64-bit unsigned long; the shift amount is a size_t *)
Definition shl1 (k : Z) : outcome Z := if (0 <=? k)%Z && (k <? 64)%Z then Ok (2 ^ k)%Z else UB.
(** subtraction on size_t *)
Definition usub (a b : Z) : Z := ((a - b) mod 2 ^ 64)%Z.

(** bytes_to_bv, /repo/src/utils.cpp:13-23; [1 << (8-1-j)] is an int shift by at most 7 *)
Definition bytes_to_bv (in_bytes : list Z) : outcome (list bool) :=
  ofor 0 (length in_bytes) (fun i res =>
    ofor 0 8 (fun j res =>
      b <- idx in_bytes i ;;
      wr res (i * 8 + j) (negb (Z.land b (2 ^ Z.of_nat (8 - 1 - j)) =? 0)%Z)) res)
   (repeat false (length in_bytes * 8)).

(** int_list_to_bits, /repo/src/utils.cpp:26-44; dereferencing begin() of an empty list is
    undefined behaviour *)
Definition int_list_to_bits (l wordsizes : list Z) : outcome (list bool) :=
  let total_bits := fold_left (fun t ws => (t + ws) mod 2 ^ 64)%Z wordsizes 0%Z in
  ofor 0 (length l) (fun i res =>
    wordsize <- idx wordsizes 0 ;;
    ofor 0 (Z.to_nat wordsize + i) (fun j res =>
      w <- idx l i ;;
      m <- shl1 (usub (usub wordsize 1) (Z.of_nat j)) ;;
      wr res (i * Z.to_nat wordsize + j) (negb (Z.land w m =? 0)%Z)) res)
   (repeat false (Z.to_nat total_bits)).

(** bit_list_to_ints, /repo/src/utils.cpp:47-68: the body of the outer loop *)
Definition blti_word (bit_list : list bool) (wordsize i : nat) : outcome Z :=
  ofor 0 wordsize (fun j current =>
    if length bit_list =? i * wordsize + j then Ok current (* break *)
    else
      b <- idx bit_list (i * wordsize + j) ;;
      m <- shl1 (Z.of_nat (wordsize - 1 - j)) ;;
      Ok ((current + (if b then m else 0)) mod 2 ^ 64)%Z) 0%Z.
(** division by a word size of zero is undefined behaviour *)
Definition bit_list_to_ints (bit_list : list bool) (wordsize : nat) : outcome (list Z) :=
  if wordsize =? 0 then UB else
  ofor 0 (length bit_list / wordsize) (fun i res =>
    current <- blti_word bit_list wordsize i ;;
    Ok (res ++ [current])) [].

(** bv_to_bytes, /repo/src/utils.cpp:309-314, into a caller's buffer *)
Definition bv_to_bytes (in_bits : list bool) (out_bytes : list Z) : outcome (list Z) :=
  ws <- bit_list_to_ints in_bits 8 ;;
  ' (_, out) <- ofor 0 (length ws) (fun i st =>
      let '(pos, out) := st in
      b <- idx ws i ;;
      out <- wr out pos (b mod 256)%Z ;;
      Ok (S pos, out)) (0, out_bytes) ;;
  Ok out.

(** bytes_to_FieldT, /repo/src/utils.cpp:71-95.  [mpz_import] with order 1 (-1) reads big- (little-)
    endian; libff's FieldT(bigint) reduces modulo p. *)
Definition import_be (bs : list Z) : Z := fold_left (fun acc b => acc * 256 + b)%Z bs 0%Z.
Definition field_bytes : nat := Z.to_nat ((254 + (8 - 254 mod 8)) / 8).
Definition bytes_to_FieldT (in_bytes : list Z) (order : Z) : outcome F :=
  _ <- oassert (length in_bytes <=? field_bytes) ;;
  Ok (Fof (import_be (if (order =? 1)%Z then in_bytes else rev in_bytes))).
(** /repo/src/utils.cpp:98-107 *)
Definition bytes_to_FieldT_bigendian (b : list Z) : outcome F := bytes_to_FieldT b 1.
Definition bytes_to_FieldT_littleendian (b : list Z) : outcome F := bytes_to_FieldT b (-1).

(** char2int, /repo/src/utils.cpp:265-277; throws std::invalid_argument *)
Definition char2int (c : Z) : outcome Z :=
  (if (48 <=? c) && (c <=? 57) then Ok (c - 48)
   else if (65 <=? c) && (c <=? 70) then Ok (c - 65 + 10)
   else if (97 <=? c) && (c <=? 102) then Ok (c - 97 + 10)
   else Throw)%Z.

(** the loop of hex_to_bytes, /repo/src/utils.cpp:297-303; the list is the rest of the C string
    without its terminator, so reading one character past its end reads the terminator *)
Fixpoint hex_loop (fuel : nat) (in_hex : list Z) (pos : nat) (out : list Z) : outcome (list Z) :=
  match fuel, in_hex with
  | _, [] => Ok out
  | O, _ => UB
  | S fuel', hex0 :: r =>
    let hex1 := match r with [] => 0%Z | c :: _ => c end in
    a <- char2int hex0 ;;
    b <- char2int hex1 ;;
    out <- wr out pos ((Z.lor (a * 16) b) mod 256)%Z ;;
    match r with
    | [] => UB (* in_hex is now beyond the terminator *)
    | _ :: r' => hex_loop fuel' r' (S pos) out
    end
  end.
(** hex_to_bytes, /repo/src/utils.cpp:284-306; [in_hex] has no zero characters, the buffer
    [out_bytes] may be larger than [out_sz] *)
Definition hex_to_bytes (in_hex : list Z) (out_bytes : list Z) (out_sz : nat) : outcome (bool * list Z) :=
  if length in_hex <? 2 then Ok (false, out_bytes) else
  let in_hex := match in_hex with
                | a :: b :: r => if (a =? 48)%Z && (b =? 120)%Z then r else in_hex
                | _ => in_hex
                end in
  let hex_sz := length in_hex in
  if negb (hex_sz mod 2 =? 0) || negb (hex_sz / 2 =? out_sz) then Ok (false, out_bytes) else
  out <- hex_loop hex_sz in_hex 0 out_bytes ;;
  Ok (true, out).

(** flatten, /repo/src/utils.cpp:242-261: the loops copy every index in order *)
Definition flatten {A} (d : A) (in_scalars : list (list A)) : outcome (list A) :=
  let total_sz := fold_left (fun t s => t + length s) in_scalars 0 in
  ' (_, result) <- ofor 0 (length in_scalars) (fun k st =>
      scalar <- idx in_scalars k ;;
      ofor 0 (length scalar) (fun i st =>
        let '(offset, result) := st in
        v <- idx scalar i ;;
        result <- wr result offset v ;;
        Ok (S offset, result)) st) (0, repeat d total_sz) ;;
  Ok result.
