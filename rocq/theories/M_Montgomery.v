(** Model of /repo/src/jubjub/montgomery.cpp and fixed_base_mul_zcash.cpp.

    Simplification: [pb_linear_combination::evaluate] stores the value of a linear
    combination, and [lc_val] reads the stored value.  The model evaluates the linear
    combination when it is read.  fixed_base_mul_zcash calls [evaluate] after the lookups
    and before the adders (fixed_base_mul_zcash.cpp:208-210), and no variable occurring in
    it changes afterwards, so the two readings are the same. *)
From Coq Require Import List ZArith Bool Arith.
From Verif Require Import Field Base R1CS M_Lookup M_Bits M_Point M_Jubjub.
Import ListNotations.
Local Open Scope F_scope.

(** ** MontgomeryAdder *)
Record madder := { ma_X1 : lc; ma_Y1 : var; ma_X2 : lc; ma_Y2 : var; ma_lambda : var; ma_X3 : var; ma_Y3 : var }.
(** /repo/src/jubjub/montgomery.cpp:13-29 *)
Definition madder_new (X1 : lc) (Y1 : var) (X2 : lc) (Y2 : var) (n : nat) : madder * nat :=
  ({| ma_X1 := X1; ma_Y1 := Y1; ma_X2 := X2; ma_Y2 := Y2; ma_lambda := n; ma_X3 := n + 1; ma_Y3 := n + 2 |}%nat, (n + 3)%nat).
(** /repo/src/jubjub/montgomery.cpp:31-42 *)
Definition madder_constraints (g : madder) : list constr :=
  [ R1 (LSub (ma_X2 g) (ma_X1 g)) (V (ma_lambda g)) (LSub (V (ma_Y2 g)) (V (ma_Y1 g)));
    R1 (V (ma_lambda g)) (V (ma_lambda g)) (LAdd (LAdd (LAdd (LC jj_A) (ma_X1 g)) (ma_X2 g)) (V (ma_X3 g)));
    R1 (LSub (ma_X1 g) (V (ma_X3 g))) (V (ma_lambda g)) (LAdd (V (ma_Y3 g)) (V (ma_Y1 g))) ].
(** /repo/src/jubjub/montgomery.cpp:54-59 *)
Definition madder_witness (g : madder) (s : assign) : outcome assign :=
  i <- inverse (ev s (ma_X2 g) - ev s (ma_X1 g)) ;;
  let s := upd s (ma_lambda g) ((s (ma_Y2 g) - s (ma_Y1 g)) * i) in
  let s := upd s (ma_X3 g) (s (ma_lambda g) * s (ma_lambda g) - jj_A - ev s (ma_X1 g) - ev s (ma_X2 g)) in
  Ok (upd s (ma_Y3 g) (- (s (ma_Y1 g) + s (ma_lambda g) * (s (ma_X3 g) - ev s (ma_X1 g))))).

(** ** MontgomeryToEdwards *)
Record m2e := { me_X1 : lc; me_Y1 : var; me_X2 : var; me_Y2 : var }.
(** /repo/src/jubjub/montgomery.cpp:65-77 *)
Definition m2e_new (X : lc) (Y : var) (n : nat) : m2e * nat :=
  ({| me_X1 := X; me_Y1 := Y; me_X2 := n; me_Y2 := n + 1 |}%nat, (n + 2)%nat).
(** /repo/src/jubjub/montgomery.cpp:79-87 *)
Definition m2e_constraints (g : m2e) : list constr :=
  [ R1 (V (me_Y1 g)) (V (me_X2 g)) (LScale jj_scale (me_X1 g));
    R1 (LAdd (me_X1 g) L1) (V (me_Y2 g)) (LSub (me_X1 g) L1) ].
(** /repo/src/jubjub/montgomery.cpp:89-93 *)
Definition m2e_witness (g : m2e) (s : assign) : outcome assign :=
  i <- inverse (s (me_Y1 g)) ;;
  let s := upd s (me_X2 g) (jj_scale * ev s (me_X1 g) * i) in
  j <- inverse (ev s (me_X1 g) + F1) ;;
  Ok (upd s (me_Y2 g) ((ev s (me_X1 g) - F1) * j)).

(** ** fixed_base_mul_zcash *)

(** Round to nearest, ties to even, of the quotient num/den (den > 0). *)
Definition rne (num den : Z) : Z :=
  (let q := num / den in let r := 2 * (num - q * den) in
   if r <? den then q else if den <? r then q + 1 else if Z.even q then q else q + 1)%Z.
(** IEEE single precision value nearest to num/den > 0, as a pair (m, e) meaning m*2^e.
    [e] is chosen with 2^23 <= num/den/2^e < 2^24.  Exponent range limits are not modelled:
    the values here are between 1/186 and 2^64, far from both ends of the range. *)
Definition fexp (num den : Z) : Z :=
  (let e0 := Z.log2 num - Z.log2 den - 24 in
   let scaled_lt := fun e => if 0 <=? e then num <? 2 ^ 24 * (den * 2 ^ e) else num * 2 ^ (- e) <? 2 ^ 24 * den in
   if scaled_lt e0 then e0 else e0 + 1)%Z.
Definition float_of (num den : Z) : Z * Z :=
  (let e := fexp num den in
   if 0 <=? e then (rne num (den * 2 ^ e), e) else (rne (num * 2 ^ (- e)) den, e))%Z.
(** ceilf of m*2^e, converted to size_t *)
Definition float_ceil (f : Z * Z) : Z :=
  (let '(m, e) := f in if 0 <=? e then m * 2 ^ e else - ((- m) / 2 ^ (- e)))%Z.
(** /repo/src/jubjub/fixed_base_mul_zcash.cpp:17-20:
    [ceilf(n_bits / float(186))]; [n_bits] is converted to float first. *)
Definition basepoints_required (n_bits : Z) : Z :=
  (if n_bits =? 0 then 0 else
   let '(m, e) := float_of n_bits 1 in
   let q := if 0 <=? e then float_of (m * 2 ^ e) 186 else float_of m (186 * 2 ^ (- e)) in
   float_ceil q)%Z.

Record zcmul := { zc_ma : list madder; zc_pc : list m2e; zc_ea : list padder; zc_wx : list lc; zc_wy : list lookups }.

(** the loop over [j], /repo/src/jubjub/fixed_base_mul_zcash.cpp:58-72: the four Montgomery
    points and the last [current] *)
Definition zc_table (start : point) : outcome (list point * point) :=
  m1 <- as_montgomery start ;;
  p2 <- ed_add start start ;;
  m2 <- as_montgomery p2 ;;
  p3 <- ed_add p2 start ;;
  m3 <- as_montgomery p3 ;;
  p4 <- ed_add p3 start ;;
  m4 <- as_montgomery p4 ;;
  Ok ([m1; m2; m3; m4], p4).

(** x_lc, /repo/src/jubjub/fixed_base_mul_zcash.cpp:83-89 *)
Definition zc_xlc (t : list F) (b0 b1 b0b1 : var) : outcome lc :=
  c0 <- idx t 0 ;; c1 <- idx t 1 ;; c2 <- idx t 2 ;; c3 <- idx t 3 ;;
  Ok (LAdd (LAdd (LAdd (LC c0) (LScale (c1 - c0) (V b0))) (LScale (c2 - c0) (V b1)))
           (LScale (c3 - c2 - c1 + c0) (V b0b1))).

(** the loop over windows, /repo/src/jubjub/fixed_base_mul_zcash.cpp:38-94; [i] is the window
    index, [cnt] the number of windows left *)
Fixpoint zc_windows (bases : list point) (sc : list var) (start : point) (cnt i : nat) (n : nat)
  : outcome (list lc * list lookups * nat) :=
  match cnt with
  | O => Ok ([], [], n)
  | S cnt' =>
      start <- (if Nat.eqb (i mod 62) 0 then idx bases (i / 62) else Ok start) ;;
      ' (t, current) <- zc_table start ;;
      b0 <- idx sc (3 * i) ;; b1 <- idx sc (3 * i + 1) ;; b2 <- idx sc (3 * i + 2) ;;
      ' (wy, n) <- lookups_new (map py t) [b0; b1; b2] n ;;
      x <- zc_xlc (map px t) b0 b1 (lks_b0b1 wy) ;;
      d <- ed_dbl current ;;
      start' <- ed_dbl d ;;
      ' (xs, ys, n) <- zc_windows bases sc start' cnt' (S i) n ;;
      Ok (x :: xs, wy :: ys, n)
  end.

(** one iteration of the adder loop, /repo/src/jubjub/fixed_base_mul_zcash.cpp:97-133;
    state: adders, converters, next variable *)
Definition zc_step (wx : list lc) (wy : list lookups) (i : nat) (st : list madder * list m2e * nat)
  : outcome (list madder * list m2e * nat) :=
  let '(ma, pc, n) := st in
  if Nat.eqb (i mod 62) 0 then
    if Nat.ltb (i + 1) (length wx) then Ok (ma, pc, n)
    else
      x <- idx wx i ;; y <- idx wy i ;;
      let '(c, n) := m2e_new x (lks_r y) n in
      Ok (ma, pc ++ [c], n)
  else if Nat.eqb (i mod 62) 1 then
    x0 <- idx wx (i - 1) ;; y0 <- idx wy (i - 1) ;; x <- idx wx i ;; y <- idx wy i ;;
    let '(a, n) := madder_new x0 (lks_r y0) x (lks_r y) n in
    Ok (ma ++ [a], pc, n)
  else
    l <- back ma ;; x <- idx wx i ;; y <- idx wy i ;;
    let '(a, n) := madder_new (V (ma_X3 l)) (ma_Y3 l) x (lks_r y) n in
    Ok (ma ++ [a], pc, n).

(** converters, /repo/src/jubjub/fixed_base_mul_zcash.cpp:136-152: for i = 61, 122, ... below the
    number of adders, the adder i-1; then the last adder *)
Definition zc_conv (ma : list madder) (j : nat) (st : list m2e * nat) : outcome (list m2e * nat) :=
  let '(pc, n) := st in
  a <- idx ma (61 * j - 1) ;;
  let '(c, n) := m2e_new (V (ma_X3 a)) (ma_Y3 a) n in
  Ok (pc ++ [c], n).
Definition zc_convs (ma : list madder) (st : list m2e * nat) : outcome (list m2e * nat) :=
  st <- oseq (map (zc_conv ma) (seq 1 ((length ma - 1) / 61))) st ;;
  let '(pc, n) := st in
  a <- back ma ;;
  let '(c, n) := m2e_new (V (ma_X3 a)) (ma_Y3 a) n in
  Ok (pc ++ [c], n).

(** /repo/src/jubjub/fixed_base_mul_zcash.cpp:23-179 (the Edwards adders of 155-178 have the
    shape of [chain_adders]) *)
Definition zcash_new (bases : list point) (sc : list var) (n : nat) : outcome (zcmul * nat) :=
  _ <- oassert (0 <? length sc)%nat ;;
  _ <- oassert (Nat.eqb (length sc mod 3) 0) ;;
  _ <- oassert (basepoints_required (Z.of_nat (length sc)) <=? Z.of_nat (length bases))%Z ;;
  start <- idx bases 0 ;;
  let W := (length sc / 3)%nat in
  ' (wx, wy, n) <- zc_windows bases sc start W 0 n ;;
  ' (ma, pc, n) <- oseq (map (zc_step wx wy) (seq 1 (W - 1))) ([], [], n) ;;
  ' (pc, n) <- zc_convs ma (pc, n) ;;
  ' (ea, n) <- chain_adders (map me_X2 pc) (map me_Y2 pc) n ;;
  Ok ({| zc_ma := ma; zc_pc := pc; zc_ea := ea; zc_wx := wx; zc_wy := wy |}, n).

(** /repo/src/jubjub/fixed_base_mul_zcash.cpp:181-198 *)
Definition zcash_constraints (g : zcmul) : outcome (list constr) :=
  ly <- omapM lookups_constraints (zc_wy g) ;;
  Ok (concat ly ++ concat (map madder_constraints (zc_ma g)) ++ concat (map m2e_constraints (zc_pc g))
      ++ concat (map adder_constraints (zc_ea g))).

(** /repo/src/jubjub/fixed_base_mul_zcash.cpp:200-223 *)
Definition zcash_witness (g : zcmul) (s : assign) : outcome assign :=
  s <- oseq (map lookups_witness (zc_wy g)) s ;;
  s <- oseq (map madder_witness (zc_ma g)) s ;;
  s <- oseq (map m2e_witness (zc_pc g)) s ;;
  oseq (map adder_witness (zc_ea g)) s.

(** result_x and result_y, /repo/src/jubjub/fixed_base_mul_zcash.cpp:225-231 *)
Definition zcash_result (g : zcmul) : outcome (var * var) :=
  match zc_ea g with
  | [] => c <- back (zc_pc g) ;; Ok (me_X2 c, me_Y2 c)
  | _ => a <- back (zc_ea g) ;; Ok (ad_X3 a, ad_Y3 a)
  end.
