(** Model of /repo/src/jubjub/params.hpp and of the arithmetic part of
    /repo/src/jubjub/point.cpp. *)
From Coq Require Import List ZArith Bool Arith.
From Verif Require Import Field Base R1CS.
Import ListNotations.
Local Open Scope F_scope.

(** Params, /repo/src/jubjub/params.hpp:13-35 *)
Definition jj_Gx : F := Fof 16540640123574156134436876038791482806971768689494387082833631921987005038935.
Definition jj_Gy : F := Fof 20819045374670962167435360035096875258406992893633759881276124905556507972311.
Definition jj_a : F := Fof 168700.
Definition jj_d : F := Fof 168696.
Definition jj_A : F := Fof 168698.
Definition jj_scale : F := Fof 1.

(** EdwardsPoint, /repo/src/jubjub/point.hpp:46-52 *)
Record point := mkpt { px : F; py : F }.

(** libff Fp_model::inverse: asserts that the element is not zero *)
Definition inverse (x : F) : outcome F := if Feqb x F0 then Abort else Ok (Finv x).

(** /repo/src/jubjub/point.cpp:27-30 *)
Definition ed_infinity : point := mkpt F0 F1.
(** /repo/src/jubjub/point.cpp:33-36 *)
Definition ed_neg (P : point) : point := mkpt (- px P) (py P).
(** /repo/src/jubjub/point.cpp:45-54 *)
Definition ed_add (P Q : point) : outcome point :=
  let x3_rhs := F1 + jj_d * px P * px Q * py P * py Q in
  let x3_lhs := px P * py Q + py P * px Q in
  let y3_lhs := py P * py Q - jj_a * px P * px Q in
  let y3_rhs := F1 - jj_d * px P * px Q * py P * py Q in
  i <- inverse x3_rhs ;;
  j <- inverse y3_rhs ;;
  Ok (mkpt (x3_lhs * i) (y3_lhs * j)).
(** /repo/src/jubjub/point.cpp:39-42 *)
Definition ed_dbl (P : point) : outcome point := ed_add P P.

(** /repo/src/jubjub/point.cpp:131-142; a Montgomery point is a pair of coordinates too *)
Definition as_montgomery (P : point) : outcome point :=
  _ <- oassert (negb (Feqb (px P) F0) && negb (Feqb (py P) F1)) ;;
  i <- inverse (F1 - py P) ;;
  let u := (F1 + py P) * i in
  k <- inverse (px P) ;;
  Ok (mkpt u (jj_scale * u * k)).
(** /repo/src/jubjub/point.cpp:192-198 *)
Definition as_edwards (M : point) : outcome point :=
  i <- inverse (py M) ;;
  j <- inverse (px M + F1) ;;
  Ok (mkpt (jj_scale * px M * i) ((px M - F1) * j)).
