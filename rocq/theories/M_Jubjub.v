(** Model of the Edwards-curve gadgets in /repo/src/jubjub. *)
From Coq Require Import List ZArith Bool Arith.
From Verif Require Import Field Base R1CS M_Lookup M_Bits M_Point.
Import ListNotations.
Local Open Scope F_scope.

(** ** PointAdder *)
Record padder := { ad_X1 : var; ad_Y1 : var; ad_X2 : var; ad_Y2 : var; ad_beta : var; ad_gamma : var;
                   ad_delta : var; ad_epsilon : var; ad_tau : var; ad_X3 : var; ad_Y3 : var }.
(** /repo/src/jubjub/adder.cpp:13-36 *)
Definition adder_new (X1 Y1 X2 Y2 : var) (n : nat) : padder * nat :=
  ({| ad_X1 := X1; ad_Y1 := Y1; ad_X2 := X2; ad_Y2 := Y2; ad_beta := n; ad_gamma := n + 1; ad_delta := n + 2;
      ad_epsilon := n + 3; ad_tau := n + 4; ad_X3 := n + 5; ad_Y3 := n + 6 |}%nat, (n + 7)%nat).
(** /repo/src/jubjub/adder.cpp:38-67 *)
Definition adder_constraints (g : padder) : list constr :=
  [ R1 (V (ad_X1 g)) (V (ad_Y2 g)) (V (ad_beta g));
    R1 (V (ad_Y1 g)) (V (ad_X2 g)) (V (ad_gamma g));
    R1 (V (ad_Y1 g)) (V (ad_Y2 g)) (V (ad_delta g));
    R1 (V (ad_X1 g)) (V (ad_X2 g)) (V (ad_epsilon g));
    R1 (V (ad_delta g)) (V (ad_epsilon g)) (V (ad_tau g));
    R1 (V (ad_X3 g)) (LAdd L1 (LScale jj_d (V (ad_tau g)))) (LAdd (V (ad_beta g)) (V (ad_gamma g)));
    R1 (V (ad_Y3 g)) (LSub L1 (LScale jj_d (V (ad_tau g)))) (LAdd (V (ad_delta g)) (LScale (- jj_a) (V (ad_epsilon g)))) ].
(** /repo/src/jubjub/adder.cpp:82-99 *)
Definition adder_witness (g : padder) (s : assign) : outcome assign :=
  let s := upd s (ad_beta g) (s (ad_X1 g) * s (ad_Y2 g)) in
  let s := upd s (ad_gamma g) (s (ad_Y1 g) * s (ad_X2 g)) in
  let s := upd s (ad_delta g) (s (ad_Y1 g) * s (ad_Y2 g)) in
  let s := upd s (ad_epsilon g) (s (ad_X1 g) * s (ad_X2 g)) in
  let s := upd s (ad_tau g) (s (ad_delta g) * s (ad_epsilon g)) in
  x3_rhs <- inverse (F1 + jj_d * s (ad_tau g)) ;;
  let s := upd s (ad_X3 g) ((s (ad_beta g) + s (ad_gamma g)) * x3_rhs) in
  y3_rhs <- inverse (F1 - jj_d * s (ad_tau g)) ;;
  Ok (upd s (ad_Y3 g) ((s (ad_delta g) + (- jj_a) * s (ad_epsilon g)) * y3_rhs)).

(** ** PointDoubler *)
Record pdoubler := { db_X1 : var; db_Y1 : var; db_alpha : var; db_beta : var; db_gamma : var; db_delta : var;
                     db_X3 : var; db_Y3 : var }.
(** /repo/src/jubjub/doubler.cpp:12-31 *)
Definition doubler_new (X1 Y1 : var) (n : nat) : pdoubler * nat :=
  ({| db_X1 := X1; db_Y1 := Y1; db_alpha := n; db_beta := n + 1; db_gamma := n + 2; db_delta := n + 3;
      db_X3 := n + 4; db_Y3 := n + 5 |}%nat, (n + 6)%nat).
(** /repo/src/jubjub/doubler.cpp:33-58 *)
Definition doubler_constraints (g : pdoubler) : list constr :=
  [ R1 (V (db_X1 g)) (V (db_X1 g)) (V (db_alpha g));
    R1 (V (db_Y1 g)) (V (db_Y1 g)) (V (db_beta g));
    R1 (LScale jj_d (V (db_alpha g))) (V (db_beta g)) (V (db_gamma g));
    R1 (LScale (Fof 2) (V (db_X1 g))) (V (db_Y1 g)) (V (db_delta g));
    R1 (LAdd (V (db_gamma g)) L1) (V (db_X3 g)) (V (db_delta g));
    R1 (LSub (V (db_gamma g)) L1) (V (db_Y3 g)) (LSub (LScale jj_a (V (db_alpha g))) (V (db_beta g))) ].
(** /repo/src/jubjub/doubler.cpp:73-89 *)
Definition doubler_witness (g : pdoubler) (s : assign) : outcome assign :=
  let s := upd s (db_alpha g) (s (db_X1 g) * s (db_X1 g)) in
  let s := upd s (db_beta g) (s (db_Y1 g) * s (db_Y1 g)) in
  let s := upd s (db_gamma g) (jj_d * s (db_alpha g) * s (db_beta g)) in
  let s := upd s (db_delta g) (s (db_X1 g) * s (db_Y1 g) * Fof 2) in
  x3_rhs <- inverse (s (db_gamma g) + F1) ;;
  let s := upd s (db_X3 g) (s (db_delta g) * x3_rhs) in
  y3_rhs <- inverse (s (db_gamma g) - F1) ;;
  Ok (upd s (db_Y3 g) ((s (db_alpha g) * jj_a - s (db_beta g)) * y3_rhs)).

(** ** IsOnCurve *)
Record isoncurve := { ic_X : var; ic_Y : var; ic_xx : var; ic_yy : var }.
(** /repo/src/jubjub/isoncurve.cpp:13-28 *)
Definition isoncurve_new (X Y : var) (n : nat) : isoncurve * nat :=
  ({| ic_X := X; ic_Y := Y; ic_xx := n; ic_yy := n + 1 |}%nat, (n + 2)%nat).
(** /repo/src/jubjub/isoncurve.cpp:31-47 *)
Definition isoncurve_constraints (g : isoncurve) : list constr :=
  [ R1 (V (ic_X g)) (V (ic_X g)) (V (ic_xx g));
    R1 (V (ic_Y g)) (V (ic_Y g)) (V (ic_yy g));
    R1 (LScale jj_d (V (ic_xx g))) (V (ic_yy g)) (LSub (LAdd (LScale jj_a (V (ic_xx g))) (V (ic_yy g))) L1) ].
(** /repo/src/jubjub/isoncurve.cpp:50-57 *)
Definition isoncurve_witness (g : isoncurve) (s : assign) : outcome assign :=
  let x := s (ic_X g) in
  let y := s (ic_Y g) in
  Ok (upd (upd s (ic_xx g) (x * x)) (ic_yy g) (y * y)).

(** ** ConditionalPoint *)
Record condpt := { cp_x1 : var; cp_y1 : var; cp_x2 : var; cp_y2 : var; cp_bit : var }.
(** /repo/src/jubjub/conditional_point.cpp:13-28 *)
Definition condpt_new (x1 y1 bit : var) (n : nat) : condpt * nat :=
  ({| cp_x1 := x1; cp_y1 := y1; cp_x2 := n; cp_y2 := n + 1; cp_bit := bit |}%nat, (n + 2)%nat).
(** /repo/src/jubjub/conditional_point.cpp:41-50 *)
Definition condpt_constraints (g : condpt) : list constr :=
  [ R1 (V (cp_x1 g)) (V (cp_bit g)) (V (cp_x2 g));
    R1 (V (cp_y1 g)) (V (cp_bit g)) (LAdd (LSub (V (cp_y2 g)) L1) (V (cp_bit g))) ].
(** /repo/src/jubjub/conditional_point.cpp:53-66 *)
Definition condpt_witness (g : condpt) (s : assign) : outcome assign :=
  let bit_val := s (cp_bit g) in
  let s := upd s (cp_x2 g) (bit_val * s (cp_x1 g)) in
  Ok (upd s (cp_y2 g) (if Feqb bit_val F0 then F1 else s (cp_y1 g))).

(** ** NotLowOrder *)
Record notloworder := { nl_d2 : pdoubler; nl_d4 : pdoubler; nl_d8 : pdoubler; nl_nz : isnonzero }.
(** /repo/src/jubjub/notloworder.cpp:11-25 *)
Definition notloworder_new (X Y : var) (n : nat) : notloworder * nat :=
  let '(d2, n) := doubler_new X Y n in
  let '(d4, n) := doubler_new (db_X3 d2) (db_Y3 d2) n in
  let '(d8, n) := doubler_new (db_X3 d4) (db_Y3 d4) n in
  let '(nz, n) := isnonzero_new (db_X3 d8) n in
  ({| nl_d2 := d2; nl_d4 := d4; nl_d8 := d8; nl_nz := nz |}, n).
(** /repo/src/jubjub/notloworder.cpp:28-39 *)
Definition notloworder_constraints (g : notloworder) : list constr :=
  doubler_constraints (nl_d2 g) ++ doubler_constraints (nl_d4 g) ++ doubler_constraints (nl_d8 g) ++
  isnonzero_constraints (nl_nz g) ++ [ R1 (V (isnonzero_result (nl_nz g))) L1 L1 ].
(** /repo/src/jubjub/notloworder.cpp:42-48 *)
Definition notloworder_witness (g : notloworder) (s : assign) : outcome assign :=
  s <- doubler_witness (nl_d2 g) s ;;
  s <- doubler_witness (nl_d4 g) s ;;
  s <- doubler_witness (nl_d8 g) s ;;
  Ok (isnonzero_witness (nl_nz g) s).

(** ** PointValidator *)
Record validator := { pv_nl : notloworder; pv_ic : isoncurve }.
(** /repo/src/jubjub/validator.cpp:11-22 *)
Definition validator_new (X Y : var) (n : nat) : validator * nat :=
  let '(nl, n) := notloworder_new X Y n in
  let '(ic, n) := isoncurve_new X Y n in
  ({| pv_nl := nl; pv_ic := ic |}, n).
(** /repo/src/jubjub/validator.cpp:26-30 *)
Definition validator_constraints (g : validator) : list constr :=
  isoncurve_constraints (pv_ic g) ++ notloworder_constraints (pv_nl g).
(** /repo/src/jubjub/validator.cpp:33-37 *)
Definition validator_witness (g : validator) (s : assign) : outcome assign :=
  s <- isoncurve_witness (pv_ic g) s ;;
  notloworder_witness (pv_nl g) s.

(** ** ScalarMult *)
Record scalarmult := { sm_dbls : list pdoubler; sm_conds : list condpt; sm_adds : list padder }.
(** one pass of the constructor's loop, /repo/src/jubjub/scalarmult.cpp:29-72 *)
Definition sm_step (X1 Y1 : var) (scalar : list var) (i : nat) (gn : scalarmult * nat) : outcome (scalarmult * nat) :=
  let '(g, n) := gn in
  ' (dbl, n) <- (if (i =? 1)%nat then Ok (doubler_new X1 Y1 n)
                 else prev_dbl <- back (sm_dbls g) ;; Ok (doubler_new (db_X3 prev_dbl) (db_Y3 prev_dbl) n)) ;;
  let dbls := sm_dbls g ++ [dbl] in
  cur_dbl <- back dbls ;;
  b <- idx scalar i ;;
  let '(cond, n) := condpt_new (db_X3 cur_dbl) (db_Y3 cur_dbl) b n in
  let conds := sm_conds g ++ [cond] in
  ' (add, n) <- (if (i =? 1)%nat then
                   cond_a <- idx conds (i - 1) ;;
                   cond_b <- idx conds i ;;
                   Ok (adder_new (cp_x2 cond_a) (cp_y2 cond_a) (cp_x2 cond_b) (cp_y2 cond_b) n)
                 else
                   cond <- idx conds i ;;
                   adder <- back (sm_adds g) ;;
                   Ok (adder_new (ad_X3 adder) (ad_Y3 adder) (cp_x2 cond) (cp_y2 cond) n)) ;;
  Ok ({| sm_dbls := dbls; sm_conds := conds; sm_adds := sm_adds g ++ [add] |}, n).
(** /repo/src/jubjub/scalarmult.cpp:12-73 *)
Definition scalarmult_new (X1 Y1 : var) (scalar : list var) (n : nat) : outcome (scalarmult * nat) :=
  _ <- oassert (1 <? length scalar)%nat ;;
  b <- idx scalar 0 ;;
  let '(cond, n) := condpt_new X1 Y1 b n in
  oseq (map (sm_step X1 Y1 scalar) (seq 1 (length scalar - 1)))
       ({| sm_dbls := []; sm_conds := [cond]; sm_adds := [] |}, n).
(** /repo/src/jubjub/scalarmult.cpp:76-85 *)
Definition scalarmult_result (g : scalarmult) : outcome (var * var) :=
  a <- back (sm_adds g) ;; Ok (ad_X3 a, ad_Y3 a).
(** /repo/src/jubjub/scalarmult.cpp:88-98 *)
Definition scalarmult_constraints (g : scalarmult) : list constr :=
  concat (map doubler_constraints (sm_dbls g)) ++ concat (map condpt_constraints (sm_conds g)) ++
  concat (map adder_constraints (sm_adds g)).
(** /repo/src/jubjub/scalarmult.cpp:101-111 *)
Definition scalarmult_witness (g : scalarmult) (s : assign) : outcome assign :=
  s <- oseq (map doubler_witness (sm_dbls g)) s ;;
  s <- oseq (map condpt_witness (sm_conds g)) s ;;
  oseq (map adder_witness (sm_adds g)) s.

(** ** fixed_base_mul *)
Record fbm := { fb_wx : list lookup2; fb_wy : list lookup2; fb_adds : list padder }.
(** affine addition written out in the constructor, /repo/src/jubjub/fixed_base_mul.cpp:55-64 *)
Definition fbm_add (start cur : point) : outcome point :=
  let x1y2 := px start * py cur in
  let y1x2 := py start * px cur in
  let y1y2 := py start * py cur in
  let x1x2 := px start * px cur in
  let dx1x2y1y2 := jj_d * x1x2 * y1y2 in
  i <- inverse (F1 + dx1x2y1y2) ;;
  j <- inverse (F1 - dx1x2y1y2) ;;
  Ok (mkpt ((x1y2 + y1x2) * i) ((y1y2 - jj_a * x1x2) * j)).
(** the table of one window and the point reached after it, fixed_base_mul.cpp:31-66 with the
    loop over j = 0..3 unrolled *)
Definition fbm_table (start : point) : outcome (list point * point) :=
  let p1 := start in
  p2 <- fbm_add start p1 ;;
  p3 <- fbm_add start p2 ;;
  p4 <- fbm_add start p3 ;;
  Ok ([mkpt (Fof 0) (Fof 1); p1; p2; p3], p4).
(** /repo/src/jubjub/fixed_base_mul.cpp:26-74: the windows, [cnt] of them from window [i] *)
Fixpoint fbm_windows (start : point) (scalar : list var) (cnt i : nat) (n : nat)
  : outcome (list lookup2 * list lookup2 * nat) :=
  match cnt with
  | O => Ok ([], [], n)
  | S cnt' =>
      ' (tab, next) <- fbm_table start ;;
      b0 <- idx scalar (2 * i) ;;
      b1 <- idx scalar (2 * i + 1) ;;
      ' (wx, n) <- lookup2_new (map px tab) [b0; b1] n ;;
      ' (wy, n) <- lookup2_new (map py tab) [b0; b1] n ;;
      ' (wxs, wys, n) <- fbm_windows next scalar cnt' (S i) n ;;
      Ok (wx :: wxs, wy :: wys, n)
  end.
(** chain of adders over the points [xs, ys], /repo/src/jubjub/fixed_base_mul.cpp:78-99 *)
Definition chain_step (xs ys : list var) (i : nat) (gn : list padder * nat) : outcome (list padder * nat) :=
  let '(adds, n) := gn in
  ' (add, n) <- (if (i =? 1)%nat then
                   x0 <- idx xs (i - 1) ;; y0 <- idx ys (i - 1) ;; x1 <- idx xs i ;; y1 <- idx ys i ;;
                   Ok (adder_new x0 y0 x1 y1 n)
                 else
                   a <- idx adds (i - 2) ;; x1 <- idx xs i ;; y1 <- idx ys i ;;
                   Ok (adder_new (ad_X3 a) (ad_Y3 a) x1 y1 n)) ;;
  Ok (adds ++ [add], n).
Definition chain_adders (xs ys : list var) (n : nat) : outcome (list padder * nat) :=
  oseq (map (chain_step xs ys) (seq 1 (length xs - 1))) ([], n).
(** /repo/src/jubjub/fixed_base_mul.cpp:10-100 *)
Definition fbm_new (base : point) (scalar : list var) (n : nat) : outcome (fbm * nat) :=
  _ <- oassert (length scalar mod 2 =? 0)%nat ;;
  ' (wx, wy, n) <- fbm_windows base scalar (length scalar / 2) 0 n ;;
  ' (adds, n) <- chain_adders (map lk2_r wx) (map lk2_r wy) n ;;
  Ok ({| fb_wx := wx; fb_wy := wy; fb_adds := adds |}, n).
(** /repo/src/jubjub/fixed_base_mul.cpp:131-137 *)
Definition fbm_result (g : fbm) : outcome (var * var) :=
  a <- back (fb_adds g) ;; Ok (ad_X3 a, ad_Y3 a).
(** /repo/src/jubjub/fixed_base_mul.cpp:101-114 *)
Definition fbm_constraints (g : fbm) : outcome (list constr) :=
  cx <- omapM lookup2_constraints (fb_wx g) ;;
  cy <- omapM lookup2_constraints (fb_wy g) ;;
  Ok (concat cx ++ concat cy ++ concat (map adder_constraints (fb_adds g))).
(** /repo/src/jubjub/fixed_base_mul.cpp:116-129 *)
Definition fbm_witness (g : fbm) (s : assign) : outcome assign :=
  s <- oseq (map lookup2_witness (fb_wx g)) s ;;
  s <- oseq (map lookup2_witness (fb_wy g)) s ;;
  oseq (map adder_witness (fb_adds g)) s.

(** ** Commitment *)
Record commitment := { cm_mults : list fbm; cm_adds : list padder }.
(** one pass of the loop, /repo/src/jubjub/commitment.cpp:25-61 *)
Definition cm_step (scalars : list (list var)) (ip : nat * point) (gn : commitment * nat) : outcome (commitment * nat) :=
  let '(i, p) := ip in
  let '(g, n) := gn in
  sc <- idx scalars i ;;
  ' (m, n) <- fbm_new p sc n ;;
  let mults := cm_mults g ++ [m] in
  if (i =? 1)%nat then
    ma <- idx mults (i - 1) ;; mb <- idx mults i ;;
    ' (xa, ya) <- fbm_result ma ;; ' (xb, yb) <- fbm_result mb ;;
    let '(a, n) := adder_new xa ya xb yb n in
    Ok ({| cm_mults := mults; cm_adds := cm_adds g ++ [a] |}, n)
  else if (1 <? i)%nat then
    ad <- idx (cm_adds g) (i - 2) ;; mb <- idx mults i ;;
    ' (xb, yb) <- fbm_result mb ;;
    let '(a, n) := adder_new (ad_X3 ad) (ad_Y3 ad) xb yb n in
    Ok ({| cm_mults := mults; cm_adds := cm_adds g ++ [a] |}, n)
  else Ok ({| cm_mults := mults; cm_adds := cm_adds g |}, n).
(** /repo/src/jubjub/commitment.cpp:11-62 *)
Definition commitment_new (points : list point) (scalars : list (list var)) (n : nat) : outcome (commitment * nat) :=
  _ <- oassert (1 <? length points)%nat ;;
  _ <- oassert (length points =? length scalars)%nat ;;
  oseq (map (cm_step scalars) (combine (seq 0 (length points)) points)) ({| cm_mults := []; cm_adds := [] |}, n).
(** /repo/src/jubjub/commitment.cpp:65-74 *)
Definition commitment_result (g : commitment) : outcome (var * var) :=
  a <- back (cm_adds g) ;; Ok (ad_X3 a, ad_Y3 a).
(** /repo/src/jubjub/commitment.cpp:77-86 *)
Definition commitment_constraints (g : commitment) : outcome (list constr) :=
  cm <- omapM fbm_constraints (cm_mults g) ;;
  Ok (concat cm ++ concat (map adder_constraints (cm_adds g))).
(** /repo/src/jubjub/commitment.cpp:89-98 *)
Definition commitment_witness (g : commitment) (s : assign) : outcome assign :=
  s <- oseq (map fbm_witness (cm_mults g)) s ;;
  oseq (map adder_witness (cm_adds g)) s.
