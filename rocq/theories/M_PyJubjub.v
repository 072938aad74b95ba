(** Model of /repo/ethsnarks/jubjub.py (curve points in four coordinate systems, scalar multiplication,
    windowed non-adjacent forms, compression, hashing to a point).

    A coordinate is an [FQ] object with the default modulus (/repo/ethsnarks/field.py:69-81) and is
    modelled by an element of [F]; the code creates no other coordinates.  [FQ.__div__] computes
    [n * pow(on, m-2, m)], which is 0 for a zero divisor (/repo/ethsnarks/field.py:152-155); so does [/] here.
    A Python exception (also a failed [assert]) is [Throw].  [UB] stands for a loop that does not end. *)
From Coq Require Import List ZArith Bool.
From Verif Require Import Field Base M_Point M_Evm.
Import ListNotations.
Local Open Scope Z_scope.
Local Open Scope F_scope.

(** /repo/ethsnarks/jubjub.py:28-33 *)
Definition JUBJUB_Q : Z := 21888242871839275222246405745257275088548364400416034343698204186575808495617.
Definition JUBJUB_E : Z := 21888242871839275222246405745257275088614511777268538073601725287587578984328.
Definition JUBJUB_C : Z := 8.
Definition JUBJUB_L : Z := (JUBJUB_E / JUBJUB_C)%Z.
Definition JUBJUB_A : F := Fof 168700.
Definition JUBJUB_D : F := Fof 168696.
(** /repo/ethsnarks/jubjub.py:54-55 *)
Definition MONT_A : F := Fof 168698.
Definition MONT_B : F := Fof 1.

(** /repo/ethsnarks/jubjub.py:69-71 *)
Definition fq_is_negative (v : F) : bool := (fval v <? fval (- v))%Z.

(** a Python [assert] or [if ...: raise] *)
Definition py_check (b : bool) : outcome unit := if b then Ok tt else Throw.

(** ** Point: affine coordinates *)
(** /repo/ethsnarks/jubjub.py:314-316 *)
Definition pt_infinity : point := mkpt F0 F1.
(** /repo/ethsnarks/jubjub.py:281-285 *)
Definition pt_neg (P : point) : point := mkpt (- px P) (py P).
(** /repo/ethsnarks/jubjub.py:287-291 *)
Definition pt_generator : point :=
  mkpt (Fof 16540640123574156134436876038791482806971768689494387082833631921987005038935)
       (Fof 20819045374670962167435360035096875258406992893633759881276124905556507972311).
(** /repo/ethsnarks/jubjub.py:294-302 *)
Definition pt_valid (P : point) : bool :=
  let xsq := px P * px P in
  let ysq := py P * py P in
  Feqb (JUBJUB_A * xsq + ysq) (F1 + JUBJUB_D * xsq * ysq).
(** /repo/ethsnarks/jubjub.py:304-312 *)
Definition pt_add (self other : point) : outcome point :=
  if Feqb (px self) F0 && Feqb (py self) F0 then Ok other else
  let u1 := px self in let v1 := py self in
  let u2 := px other in let v2 := py other in
  let u3 := (u1 * v2 + v1 * u2) / (F1 + JUBJUB_D * u1 * u2 * v1 * v2) in
  let v3 := (v1 * v2 - JUBJUB_A * u1 * u2) / (F1 - JUBJUB_D * u1 * u2 * v1 * v2) in
  Ok (mkpt u3 v3).
(** [Point.__eq__], /repo/ethsnarks/jubjub.py:231-232 *)
Definition pt_eq (P Q : point) : bool := Feqb (px P) (px Q) && Feqb (py P) (py Q).

(** ** ProjPoint: projective coordinates *)
Record ppoint := mkpp { ppx : F; ppy : F; ppz : F }.
(** /repo/ethsnarks/jubjub.py:326-327 *)
Definition pp_eq (a b : ppoint) : bool := Feqb (ppx a) (ppx b) && Feqb (ppy a) (ppy b) && Feqb (ppz a) (ppz b).
(** /repo/ethsnarks/jubjub.py:349-351 *)
Definition pp_infinity : ppoint := mkpp F0 F1 F1.
(** /repo/ethsnarks/jubjub.py:353-357 *)
Definition pp_neg (a : ppoint) : ppoint := mkpp (- ppx a) (ppy a) (ppz a).
(** /repo/ethsnarks/jubjub.py:320-321 *)
Definition pp_rescale (a : ppoint) : ppoint := mkpp (ppx a / ppz a) (ppy a / ppz a) F1.
(** /repo/ethsnarks/jubjub.py:341-344 *)
Definition pp_as_point (a : ppoint) : outcome point :=
  _ <- py_check (negb (Feqb (ppz a) F0)) ;;
  let inv_z := Finv (ppz a) in
  Ok (mkpt (ppx a * inv_z) (ppy a * inv_z)).
(** /repo/ethsnarks/jubjub.py:359-388 *)
Definition pp_add (self other : ppoint) : outcome ppoint :=
  if pp_eq self pp_infinity then Ok other else
  let a := ppz self * ppz other in
  let b := a * a in
  let c := ppx self * ppx other in
  let d := ppy self * ppy other in
  let t0 := c * d in
  let e := JUBJUB_D * t0 in
  let f := b - e in
  let g := b + e in
  let t1 := ppx self + ppy self in
  let t2 := ppx other + ppy other in
  let t3 := t1 * t2 in
  let t4 := t3 - c in
  let t5 := t4 - d in
  let t6 := f * t5 in
  let x3 := a * t6 in
  let t7 := JUBJUB_A * c in
  let t8 := d - t7 in
  let t9 := g * t8 in
  let y3 := a * t9 in
  let z3 := f * g in
  Ok (mkpp x3 y3 z3).
(** /repo/ethsnarks/jubjub.py:390-417 *)
Definition pp_double (self : ppoint) : outcome ppoint :=
  if pp_eq self pp_infinity then Ok pp_infinity else
  let t0 := ppx self + ppy self in
  let b := t0 * t0 in
  let c := ppx self * ppx self in
  let d := ppy self * ppy self in
  let e := JUBJUB_A * c in
  let f := e + d in
  let h := ppz self * ppz self in
  let t1 := Fof 2 * h in
  let j := f - t1 in
  let t2 := b - c in
  let t3 := t2 - d in
  let x3 := t3 * j in
  let t4 := e - d in
  let y3 := f * t4 in
  let z3 := f * j in
  Ok (mkpp x3 y3 z3).

(** ** EtecPoint: extended twisted Edwards coordinates *)
Record epoint := mkep { epx : F; epy : F; ept : F; epz : F }.
(** /repo/ethsnarks/jubjub.py:538-539 *)
Definition ep_eq (a b : epoint) : bool :=
  Feqb (epx a) (epx b) && Feqb (epy a) (epy b) && Feqb (ept a) (ept b) && Feqb (epz a) (epz b).
(** /repo/ethsnarks/jubjub.py:565-567 *)
Definition ep_infinity : epoint := mkep F0 F1 F0 F1.
(** /repo/ethsnarks/jubjub.py:569-575 *)
Definition ep_neg (a : epoint) : epoint := mkep (- epx a) (epy a) (- ept a) (epz a).
(** /repo/ethsnarks/jubjub.py:547-554 *)
Definition ep_as_point (a : epoint) : point :=
  let inv_z := Finv (epz a) in
  mkpt (epx a * inv_z) (epy a * inv_z).
(** /repo/ethsnarks/jubjub.py:556-563 *)
Definition ep_as_proj (a : epoint) : ppoint := mkpp (epx a) (epy a) (epz a).
(** /repo/ethsnarks/jubjub.py:580-598 *)
Definition ep_double (self : epoint) : outcome epoint :=
  if ep_eq self ep_infinity then Ok ep_infinity else
  let a := epx self * epx self in
  let b := epy self * epy self in
  let t0 := epz self * epz self in
  let c := t0 * Fof 2 in
  let d := JUBJUB_A * a in
  let t1 := epx self + epy self in
  let t2 := t1 * t1 in
  let t3 := t2 - a in
  let e := t3 - b in
  let g := d + b in
  let f := g - c in
  let h := d - b in
  Ok (mkep (e * f) (g * h) (e * h) (f * g)).
(** /repo/ethsnarks/jubjub.py:600-620 *)
Definition ep_add (self other : epoint) : outcome epoint :=
  if ep_eq self ep_infinity then Ok other else
  _ <- py_check (negb (Feqb (epz self) F0)) ;;
  _ <- py_check (negb (Feqb (epz other) F0)) ;;
  let x1x2 := epx self * epx other in
  let y1y2 := epy self * epy other in
  let dt1t2 := (JUBJUB_D * ept self) * ept other in
  let z1z2 := epz self * epz other in
  let e := (epx self + epy self) * (epx other + epy other) - x1x2 - y1y2 in
  let f := z1z2 - dt1t2 in
  let g := z1z2 + dt1t2 in
  let h := y1y2 - JUBJUB_A * x1x2 in
  Ok (mkep (e * f) (g * h) (e * h) (f * g)).

(** ** Conversions *)
(** [Point.as_proj] and [Point.as_etec], /repo/ethsnarks/jubjub.py:272-276 *)
Definition pt_as_proj (P : point) : ppoint := mkpp (px P) (py P) F1.
Definition pt_as_etec (P : point) : epoint := mkep (px P) (py P) (px P * py P) F1.
(** [ProjPoint.as_etec], /repo/ethsnarks/jubjub.py:332-336 *)
Definition pp_as_etec (a : ppoint) : epoint := mkep (ppx a) (ppy a) (ppx a * ppy a) (ppz a).

(** ** MontPoint: affine Montgomery coordinates *)
Record mpoint := mkmp { mpu : F; mpv : F }.
(** /repo/ethsnarks/jubjub.py:493-494 *)
Definition mp_eq (a b : mpoint) : bool := Feqb (mpu a) (mpu b) && Feqb (mpv a) (mpv b).
(** /repo/ethsnarks/jubjub.py:486-488 *)
Definition mp_infinity : mpoint := mkmp F0 F1.
(** /repo/ethsnarks/jubjub.py:490-491 *)
Definition mp_neg (a : mpoint) : mpoint := mkmp (mpu a) (- mpv a).
(** [MontPoint.from_edwards], that is [Point.as_mont], /repo/ethsnarks/jubjub.py:421-446 and 269-270 *)
Definition pt_as_mont (e : point) : mpoint :=
  if Feqb (py e) F1 then mkmp F0 F1 else
  if Feqb (px e) F0 then mkmp F0 F0 else
  let u := (F1 + py e) / (F1 - py e) in
  let v := u / px e in
  mkmp u v.
(** /repo/ethsnarks/jubjub.py:448-459 *)
Definition mp_as_point (a : mpoint) : point :=
  mkpt (mpu a / mpv a) ((mpu a - F1) / (mpu a + F1)).
(** /repo/ethsnarks/jubjub.py:467-481; the powers are those of [pow] *)
Definition mp_valid (a : mpoint) : bool :=
  Feqb (MONT_B * Fpow (mpv a) 2) (Fpow (mpu a) 3 + MONT_A * Fpow (mpu a) 2 + mpu a).
(** /repo/ethsnarks/jubjub.py:499-512 *)
Definition mp_double (self : mpoint) : outcome mpoint :=
  if Feqb (mpv self) F0 then Ok mp_infinity else
  let usq := mpu self * mpu self in
  let delta := (F1 + (Fof 2 * (MONT_A * mpu self)) + usq + (usq * Fof 2)) / (Fof 2 * mpv self) in
  let x3 := delta * delta - MONT_A - (Fof 2 * mpu self) in
  let y3 := - ((x3 - mpu self) * delta + mpv self) in
  Ok (mkmp x3 y3).
(** /repo/ethsnarks/jubjub.py:514-531 *)
Definition mp_add (self other : mpoint) : outcome mpoint :=
  if mp_eq other mp_infinity then Ok self else
  if mp_eq self mp_infinity then Ok other else
  if Feqb (mpu self) (mpu other) then
    if Feqb (mpv self) (mpv other) then mp_double self else Ok mp_infinity
  else
  let delta := (mpv other - mpv self) / (mpu other - mpu self) in
  let x3 := delta * delta - MONT_A - mpu self - mpu other in
  let y3 := - ((x3 - mpu self) * delta + mpv self) in
  Ok (mkmp x3 y3).

(** ** AbstractCurveOps: the methods all four classes have *)
Record curve_class (T : Type) := mkcc {
  cc_infinity : T;
  cc_add : T -> T -> outcome T;
  cc_double : T -> outcome T;
  cc_neg : T -> T }.
Arguments cc_infinity {T} c.
Arguments cc_add {T} c.
Arguments cc_double {T} c.
Arguments cc_neg {T} c.
(** [Point] inherits [double], /repo/ethsnarks/jubjub.py:87-88 *)
Definition cc_point : curve_class point := mkcc _ pt_infinity pt_add (fun P => pt_add P P) pt_neg.
Definition cc_proj : curve_class ppoint := mkcc _ pp_infinity pp_add pp_double pp_neg.
Definition cc_etec : curve_class epoint := mkcc _ ep_infinity ep_add ep_double ep_neg.
Definition cc_mont : curve_class mpoint := mkcc _ mp_infinity mp_add mp_double mp_neg.

(** [__sub__], /repo/ethsnarks/jubjub.py:81-82 *)
Definition cc_sub {T} (c : curve_class T) (a b : T) : outcome T := cc_add c a (cc_neg c b).

(** The loop of [mult], /repo/ethsnarks/jubjub.py:133-142, for at most [fuel] evaluations of the loop
    condition; [None] if the loop has not ended by then. *)
Fixpoint mult_loop {T} (c : curve_class T) (fuel : nat) (scalar : Z) (a p : T) : option (outcome T) :=
  match fuel with
  | O => None
  | S f =>
    if (scalar =? 0)%Z then Some (Ok a) else
    match (if negb (Z.land scalar 1 =? 0)%Z then cc_add c a p else Ok a) with
    | Ok a =>
      match cc_double c p with
      | Ok p => mult_loop c f (scalar / 2)%Z a p
      | e => Some e
      end
    | e => Some e
    end
  end.
(** the number of bits, and one more evaluation of the condition *)
Definition mult_fuel (scalar : Z) : nat := S (S (Z.to_nat (Z.log2 scalar))).
(** an argument of [mult]: an [int] or an [FQ] object with the value [n] and the modulus [m] *)
Inductive pyscalar := SInt (z : Z) | SFQ (n m : Z).
(** /repo/ethsnarks/jubjub.py:128-142 *)
Definition py_mult {T} (c : curve_class T) (self : T) (scalar : pyscalar) : outcome T :=
  let run z := match mult_loop c (mult_fuel z) z (cc_infinity c) self with Some r => r | None => UB end in
  match scalar with
  | SInt z => run z
  | SFQ n m => if (m =? JUBJUB_Q)%Z || (m =? JUBJUB_E)%Z || (m =? JUBJUB_L)%Z then run n else Throw
  end.

(** ** Windowed non-adjacent form *)
(** one digit, /repo/ethsnarks/jubjub.py:632-640 *)
Definition wnaf_digit (width k : Z) : Z :=
  (let a := 2 ^ width in
   let b := 2 ^ (width - 1) in
   if k mod 2 =? 1 then (let c := k mod a in if b <? c then c - a else c) else 0)%Z.
(** the loop of [wNAF], /repo/ethsnarks/jubjub.py:631-642, least significant digit first *)
Fixpoint wnaf_loop (fuel : nat) (width k : Z) : option (list Z) :=
  match fuel with
  | O => None
  | S f =>
    if (0 <? k)%Z then
      match wnaf_loop f width ((k - wnaf_digit width k) / 2)%Z with
      | Some r => Some (wnaf_digit width k :: r)
      | None => None
      end
    else Some []
  end.
(** /repo/ethsnarks/jubjub.py:623-643, for [width >= 1] (for smaller widths [b] is not an integer) *)
Definition wnaf_fuel (k : Z) : nat := S (S (S (Z.to_nat (Z.log2 k)))).
Definition py_wNAF (k width : Z) : outcome (list Z) :=
  match wnaf_loop (wnaf_fuel k) width k with Some l => Ok (rev l) | None => UB end.

(** A dictionary from integers to points or [None]; the latest entry for a key is the first in the list *)
Definition pydict (T : Type) := list (Z * option T).
Fixpoint dict_get {T} (d : pydict T) (k : Z) : outcome (option T) :=
  match d with
  | [] => Throw
  | (k', v) :: r => if (k =? k')%Z then Ok v else dict_get r k
  end.
(** an entry used as a point: [None] has no [__add__] *)
Definition dict_point {T} (d : pydict T) (k : Z) : outcome T :=
  v <- dict_get d k ;; match v with Some t => Ok t | None => Throw end.
(** the body of the loop of [naf_window], /repo/ethsnarks/jubjub.py:652-662 *)
Definition window_step {T} (c : curve_class T) (pt : T) (res : pydict T) (n : Z) : outcome (pydict T) :=
  if negb (n =? 1)%Z && negb (n =? 2)%Z && (2 <? n)%Z && (n mod 2 =? 0)%Z then Ok res else
  p_n <- (if (n =? 1)%Z then Ok pt
          else if (n =? 2)%Z then cc_double c pt
          else (q <- dict_point res (n - 2)%Z ;; r <- dict_point res 2 ;; cc_add c q r)) ;;
  Ok ((- n, Some (cc_neg c p_n))%Z :: (n, Some p_n) :: res).
Fixpoint window_loop {T} (c : curve_class T) (pt : T) (ns : list Z) (res : pydict T) : outcome (pydict T) :=
  match ns with
  | [] => Ok res
  | n :: r => res <- window_step c pt res n ;; window_loop c pt r res
  end.
(** /repo/ethsnarks/jubjub.py:646-663 *)
Definition py_naf_window {T} (c : curve_class T) (pt : T) (nbits : Z) : outcome (pydict T) :=
  let a := (2 ^ nbits / 2)%Z in
  window_loop c pt (map Z.of_nat (seq 1 (Z.to_nat a - 1))) [(0%Z, None)].

(** the loop of [mult_naf], /repo/ethsnarks/jubjub.py:669-674 *)
Fixpoint naf_loop {T} (c : curve_class T) (pt a : T) (ds : list Z) : outcome T :=
  match ds with
  | [] => Ok a
  | d :: r =>
    a <- cc_double c a ;;
    a <- (if (d =? 1)%Z then cc_add c a pt else if (d =? -1)%Z then cc_add c a (cc_neg c pt) else Ok a) ;;
    naf_loop c pt a r
  end.
(** /repo/ethsnarks/jubjub.py:666-675 *)
Definition py_mult_naf {T} (c : curve_class T) (pt : T) (scalar : Z) : outcome T :=
  ds <- py_wNAF scalar 2 ;; naf_loop c pt (cc_infinity c) ds.
(** the loop of [mult_naf_lut], /repo/ethsnarks/jubjub.py:682-686 *)
Fixpoint lut_loop {T} (c : curve_class T) (w : pydict T) (a : T) (ds : list Z) : outcome T :=
  match ds with
  | [] => Ok a
  | d :: r =>
    a <- cc_double c a ;;
    p <- dict_get w d ;;
    a <- (match p with Some p => cc_add c a p | None => Ok a end) ;;
    lut_loop c w a r
  end.
(** [mult_naf_lut], also [mult_wnaf], /repo/ethsnarks/jubjub.py:678-687 and 125-126 *)
Definition py_mult_naf_lut {T} (c : curve_class T) (pt : T) (scalar width : Z) : outcome T :=
  w <- py_naf_window c pt width ;;
  ds <- py_wNAF scalar width ;;
  lut_loop c w (cc_infinity c) ds.

(** ** Points from one coordinate, and from a hash *)
Section Sqrt.
(** [FQ.sqrt]: a root, or [SquareRootError] ([Throw]); /repo/ethsnarks/field.py:143-145.  The algorithm
    (/repo/ethsnarks/numbertheory.py:154-186) is a parameter here; see M_PySqrt.v and C130. *)
Variable sqrt : F -> outcome F.
(** /repo/ethsnarks/jubjub.py:150-168 *)
Definition pt_from_y (y : F) (sign : option Z) : outcome point :=
  let ysq := y * y in
  let lhs := ysq - F1 in
  let rhs := JUBJUB_D * ysq - JUBJUB_A in
  let xsq := lhs / rhs in
  x <- sqrt xsq ;;
  let x := match sign with
           | Some s => if negb (Z.land (fval x) 1 =? s)%Z then - x else x
           | None => if fq_is_negative x then - x else x
           end in
  Ok (mkpt x y).
(** /repo/ethsnarks/jubjub.py:171-184 *)
Definition pt_from_x (x : F) : outcome point :=
  let xsq := x * x in
  let ax2 := JUBJUB_A * xsq in
  let dxsqm1 := Finv (JUBJUB_D * xsq - F1) in
  let ysq := dxsqm1 * (ax2 - F1) in
  y <- sqrt ysq ;;
  Ok (mkpt x y).
(** [Point.compress], /repo/ethsnarks/jubjub.py:237-240 *)
Definition pt_compress (P : point) : list Z :=
  rev (be_bytes 32 (Z.lor (fval (py P)) (Z.shiftl (Z.land (fval (px P)) 1) 255))).
(** [int.from_bytes(b, "little")] *)
Definition py_little (b : list Z) : Z := fold_right (fun d v => d + 256 * v)%Z 0%Z b.
(** [Point.decompress], /repo/ethsnarks/jubjub.py:243-267 *)
Definition pt_decompress (b : list Z) : outcome point :=
  _ <- py_check (Nat.eqb (length b) 32) ;;
  let y := py_little b in
  let sign := Z.shiftr y 255 in
  let y := Z.land y (Z.shiftl 1 255 - 1) in
  pt_from_y (Fof y) (Some sign).

(** the loop of [Point.from_hash], /repo/ethsnarks/jubjub.py:213-229, for at most [fuel] rounds.  A
    [SquareRootError] is the only exception [from_y] raises here. *)
Fixpoint from_hash_loop (fuel : nat) (y : F) : option (outcome point) :=
  match fuel with
  | O => None
  | S f =>
    match pt_from_y y None with
    | Ok P =>
      Some (P <- py_mult cc_point P (SInt JUBJUB_C) ;;
            Q <- py_mult cc_point P (SInt JUBJUB_L) ;;
            _ <- py_check (pt_eq Q pt_infinity) ;;
            Ok P)
    | _ => from_hash_loop f (y + F1)
    end
  end.
End Sqrt.
