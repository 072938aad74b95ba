(** Model of /repo/ethsnarks/field.py and of the parts of /repo/ethsnarks/numbertheory.py that do not
    depend on its [jacobi]: gcd, lcm, inverse_mod.
    Python integers are Z; [%] and [//] are [Z.modulo] and [Z.div], which also round towards minus infinity.
    A raised exception is [Throw].  The operation counters, [__hash__], [__repr__] and [sqrt] are not modelled. *)
From Coq Require Import List ZArith Bool.
From Verif Require Import Base M_PyPoseidon.
Import ListNotations.
Local Open Scope Z_scope.

(** the two fields of an [FQ] object, and what may stand on the other side of an operator *)
Record fq := mkfq { fn : Z; fm : Z }.
Inductive operand := Ofq (x : fq) | Oint (z : Z).

(** [SNARK_SCALAR_FIELD] and [FR_ORDER], field.py:40-43 *)
Definition SNARK_SCALAR_FIELD : Z := 21888242871839275222246405745257275088548364400416034343698204186575808495617.
Definition FR_ORDER : Z := 21888242871839275222246405745257275088614511777268538073601725287587578984328.

(** [FQ.__init__], field.py:69-81 *)
Definition fq_init (n : operand) (m : Z) : outcome fq :=
  match n with
  | Ofq x => if fm x =? m then Ok x else Throw
  | Oint z => if m =? 0 then Throw else Ok (mkfq (z mod m) m)
  end.
(** [_other_n], field.py:89-96 *)
Definition other_n (self : fq) (other : operand) : outcome Z :=
  match other with
  | Ofq x => if fm x =? fm self then Ok (fn x) else Throw
  | Oint z => Ok z
  end.
(** [pow(b, e, m)]; a negative exponent raises, as in Python before 3.8 (later versions return a power of the inverse) *)
Definition pow3 (b e m : Z) : outcome Z := if (m =? 0) || (e <? 0) then Throw else Ok (py_pow b e m).
(** [__add__] (and [__radd__]), [__mul__] (and [__rmul__]), [__rsub__], [__sub__], field.py:98-125 *)
Definition fq_add (self : fq) (other : operand) : outcome fq :=
  on <- other_n self other ;; fq_init (Oint ((fn self + on) mod fm self)) (fm self).
Definition fq_mul (self : fq) (other : operand) : outcome fq :=
  on <- other_n self other ;; fq_init (Oint ((fn self * on) mod fm self)) (fm self).
Definition fq_rsub (self : fq) (other : operand) : outcome fq :=
  on <- other_n self other ;; fq_init (Oint ((on - fn self) mod fm self)) (fm self).
Definition fq_sub (self : fq) (other : operand) : outcome fq :=
  on <- other_n self other ;; fq_init (Oint ((fn self - on) mod fm self)) (fm self).
(** the width [ceil(log2(m))] of [to_bytes], [bits] and [random]; computed in floating point, which is
    exact unless m is within a factor 1 + 2^-53 or so of a power of two *)
Definition fq_nbits (m : Z) : Z := Z.log2_up m.
(** [to_bytes('big')] and [to_bytes('little')], field.py:127-131: raises if the number does not fit *)
Definition fq_nbytes (m : Z) : Z := (fq_nbits m + (8 - fq_nbits m mod 8)) / 8.
Definition fq_to_bytes_le (x : fq) : outcome (list Z) :=
  if (0 <=? fn x) && (fn x <? 256 ^ fq_nbytes (fm x)) then Ok (to_bytes_le (Z.to_nat (fq_nbytes (fm x))) (fn x)) else Throw.
Definition fq_to_bytes_be (x : fq) : outcome (list Z) := b <- fq_to_bytes_le x ;; Ok (rev b).
(** [inv], [exp], [__div__] (and [__floordiv__], [__truediv__]), [__rdiv__] (and [__rtruediv__]), field.py:139-141, 147-170 *)
Definition fq_inv (self : fq) : outcome fq :=
  r <- pow3 (fn self) (fm self - 2) (fm self) ;; fq_init (Oint r) (fm self).
Definition fq_exp (self : fq) (e : operand) : outcome fq :=
  e <- other_n self e ;; r <- pow3 (fn self) e (fm self) ;; fq_init (Oint r) (fm self).
Definition fq_divide (self : fq) (other : operand) : outcome fq :=
  on <- other_n self other ;; r <- pow3 on (fm self - 2) (fm self) ;; fq_init (Oint ((fn self * r) mod fm self)) (fm self).
Definition fq_rdivide (self : fq) (other : operand) : outcome fq :=
  on <- other_n self other ;; r <- pow3 (fn self) (fm self - 2) (fm self) ;; fq_init (Oint ((r * on) mod fm self)) (fm self).
(** [__eq__], field.py:172-176: [other == 0.] of an [FQ] calls this function on it, so a zero of another
    modulus becomes the integer 0 before the moduli are compared *)
Definition fq_eq (self : fq) (other : operand) : outcome bool :=
  let other := match other with Ofq x => if fn x =? 0 then Oint 0 else other | Oint z => Oint z end in
  on <- other_n self other ;; Ok (fn self =? on).
(** [__neg__], field.py:181-183 *)
Definition fq_neg (self : fq) : outcome fq := fq_init (Oint (- fn self)) (fm self).
(** [random], field.py:188-194; the number of bytes drawn, and the element made from the drawn number *)
Definition random_bytes (m : Z) : Z := (fq_nbits m + 7) / 8 + 1.
Definition fq_random (draw m : Z) : outcome fq := fq_init (Oint draw) m.

(** [gcd2], numbertheory.py:211-215; [UB] is running out of [fuel] iterations *)
Fixpoint gcd2 (fuel : nat) (a b : Z) : outcome Z :=
  match fuel with
  | O => UB
  | S n => if a =? 0 then Ok b else gcd2 n (b mod a) a
  end.
(** [gcd] of several arguments, numbertheory.py:218-227 *)
Fixpoint gcd_reduce (fuel : nat) (acc : Z) (l : list Z) : outcome Z :=
  match l with
  | [] => Ok acc
  | x :: r => g <- gcd2 fuel acc x ;; gcd_reduce fuel g r
  end.
Definition py_gcd (fuel : nat) (l : list Z) : outcome Z :=
  match l with [] => Throw | x :: r => gcd_reduce fuel x r end.
(** [lcm2], numbertheory.py:230-233 *)
Definition lcm2 (fuel : nat) (a b : Z) : outcome Z :=
  g <- py_gcd fuel [a; b] ;; if g =? 0 then Throw else Ok (a * b / g).
(** [inverse_mod], numbertheory.py:190-208 *)
Fixpoint inverse_loop (fuel : nat) (c d uc vc ud vd : Z) : outcome (Z * Z) :=
  match fuel with
  | O => UB
  | S n => if c =? 0 then Ok (d, ud)
           else let q := d / c in inverse_loop n (d mod c) c (ud - q * uc) (vd - q * vc) uc vc
  end.
Definition inverse_mod (fuel : nat) (a m : Z) : outcome Z :=
  a <- (if (a <? 0) || (m <=? a) then (if m =? 0 then Throw else Ok (a mod m)) else Ok a) ;;
  ' (d, ud) <- inverse_loop fuel a m 1 0 0 1 ;;
  _ <- (if d =? 1 then Ok tt else Throw) ;;
  if 0 <? ud then Ok ud else Ok (ud + m).
