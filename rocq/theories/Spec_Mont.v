(** The Montgomery form of the curve, y^2 = x^3 + 168698 x^2 + x, and the windowed
    Pedersen sum, as specifications. *)
From Coq Require Import List ZArith NArith Bool.
From Verif Require Import Field M_Point Spec_Curve.
Import ListNotations.
Local Open Scope F_scope.

(** birational map; the point (0,-1) of order two corresponds to (0,0) *)
Definition of_mont (M : point) : point :=
  if Feqb (py M) F0 then mkpt F0 (- F1) else mkpt (px M / py M) ((px M - F1) / (px M + F1)).
Definition to_mont (P : point) : point :=
  mkpt ((F1 + py P) / (F1 - py P)) ((F1 + py P) / (F1 - py P) / px P).

(** integer multiples *)
Definition pzmul (z : Z) (P : point) : point :=
  match z with
  | Z0 => pzero
  | Zpos q => smul (Npos q) P
  | Zneg q => pneg (smul (Npos q) P)
  end.

(** value of one window of three bits: 1..4, negated by the third bit *)
Definition window_val (b0 b1 b2 : bool) : Z :=
  (let m := 1 + (if b0 then 1 else 0) + 2 * (if b1 then 1 else 0) in if b2 then - m else m)%Z.

(** the windows of one base point: 62 windows with weights 16^0, 16^1, ... *)
Fixpoint segment_val (k : nat) (bs : list bool) : Z :=
  match k, bs with
  | S k', b0 :: b1 :: b2 :: r => window_val b0 b1 b2 + 16 * segment_val k' r
  | _, _ => 0
  end%Z.

(** Pedersen sum: one segment of 62 windows (186 bits) for each base point *)
Fixpoint pedersen_sum (bases : list point) (bs : list bool) : point :=
  match bases with
  | [] => pzero
  | B :: r => padd (pzmul (segment_val 62 bs) B) (pedersen_sum r (skipn 186 bs))
  end.

(** base points for which every table entry k * 16^j * B (k = 1..4) of the first W windows can
    be written in Montgomery form *)
Definition regular (bases : list point) (W : nat) : Prop :=
  forall (i : nat) (k : N), (i < W)%nat -> (1 <= k <= 4)%N ->
  px (smul k (smul (16 ^ N.of_nat (i mod 62)%nat) (nth (i / 62)%nat bases pzero))) <> F0.

(** the point of window i, and the sum of the first j windows of base point q *)
Definition window_point (bases : list point) (bs : list bool) (i : nat) : point :=
  pzmul (window_val (nth (3 * i) bs false) (nth (3 * i + 1) bs false) (nth (3 * i + 2) bs false)
         * 16 ^ Z.of_nat (i mod 62)%nat)%Z (nth (i / 62)%nat bases pzero).
Definition partial_point (bases : list point) (bs : list bool) (q j : nat) : point :=
  pzmul (segment_val j (skipn (186 * q) bs)) (nth q bases pzero).

(** no Montgomery addition meets equal or opposite points or yields the point of order two *)
Definition non_exceptional (bases : list point) (bs : list bool) : Prop :=
  forall q j, (1 <= j < 62)%nat -> (3 * (62 * q + j) < length bs)%nat ->
  partial_point bases bs q j <> window_point bases bs (62 * q + j) /\
  partial_point bases bs q j <> pneg (window_point bases bs (62 * q + j)) /\
  px (padd (partial_point bases bs q j) (window_point bases bs (62 * q + j))) <> F0.

(** a point whose order is at least 2^248 *)
Definition large_order (B : point) : Prop := forall k, (0 < k < 2 ^ 248)%N -> smul k B <> pzero.
