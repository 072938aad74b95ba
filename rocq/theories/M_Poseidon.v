(** Model of /repo/src/gadgets/poseidon.hpp.  The round constants [C] and the matrix [M]
    are parameters: the code derives them with BLAKE2b from fixed seeds
    (poseidon.hpp:66-131), which M_PoseidonParams.v models. *)
From Coq Require Import List ZArith Bool Arith.
From Verif Require Import Field Base R1CS M_Bits.
Import ListNotations.
Local Open Scope F_scope.

(** ** FifthPower_gadget, /repo/src/gadgets/poseidon.hpp:25-63 *)
Record sbox := { sb_x2 : var; sb_x4 : var; sb_x5 : var }.
Definition sbox_new (n : nat) : sbox := {| sb_x2 := n; sb_x4 := n + 1; sb_x5 := n + 2 |}%nat.
Definition sbox_constraints (b : sbox) (x : lc) : list constr :=
  [ R1 x x (V (sb_x2 b)); R1 (V (sb_x2 b)) (V (sb_x2 b)) (V (sb_x4 b)); R1 x (V (sb_x4 b)) (V (sb_x5 b)) ].
Definition sbox_witness (b : sbox) (x : F) (s : assign) : assign :=
  let x2 := x * x in
  let x4 := x2 * x2 in
  let x5 := x4 * x in
  upd (upd (upd s (sb_x2 b) x2) (sb_x4 b) x4) (sb_x5 b) x5.

(** ** Poseidon_Round; the template arguments t, nSBox, nInputs, nOutputs are fields *)
Record pround := { pr_nS : nat; pr_nI : nat; pr_C : F; pr_state : list lc;
                   pr_sboxes : list sbox; pr_outputs : list lc }.

(** make_sboxes, /repo/src/gadgets/poseidon.hpp:154-167 *)
Definition make_sboxes (nS n : nat) : list sbox := map (fun h => sbox_new (n + 3 * h)) (seq 0 nS).

(** sum of linear combinations, left to right *)
Definition lc_sum (z : lc) (l : list lc) : lc := fold_left LAdd l z.

(** one row of make_outputs, /repo/src/gadgets/poseidon.hpp:179-208 *)
Definition make_output (t nS nI : nat) (C : F) (M : list F) (state : list lc) (sboxes : list sbox) (i : nat)
  : outcome lc :=
  let off := (i * t)%nat in
  cs <- omapM (fun j => m <- idx M (off + j) ;; Ok (C * m)) (seq nS (t - nS)) ;;
  let start := if (nS <? t)%nat then LC (fold_left Fadd cs F0) else LC F0 in
  xs <- omapM (fun h => b <- idx sboxes h ;; m <- idx M (off + h) ;; Ok (LScale m (V (sb_x5 b)))) (seq 0 nS) ;;
  ys <- omapM (fun k => st <- idx state k ;; m <- idx M (off + k) ;; Ok (LScale m st)) (seq nS (nI - nS)) ;;
  Ok (lc_sum (lc_sum start xs) ys).

(** /repo/src/gadgets/poseidon.hpp:169-211 and the constructor 223-239 *)
Definition pround_new (t nS nI nO : nat) (C : F) (M : list F) (state : list lc) (n : nat) : outcome (pround * nat) :=
  let sboxes := make_sboxes nS n in
  outs <- omapM (make_output t nS nI C M state sboxes) (seq 0 nO) ;;
  _ <- oassert (nI <=? t)%nat ;;
  _ <- oassert (nO <=? t)%nat ;;
  Ok ({| pr_nS := nS; pr_nI := nI; pr_C := C; pr_state := state; pr_sboxes := sboxes; pr_outputs := outs |},
      (n + 3 * nS)%nat).

(** /repo/src/gadgets/poseidon.hpp:253-264 *)
Definition pround_constraints (r : pround) : outcome (list constr) :=
  l <- omapM (fun h =>
         b <- idx (pr_sboxes r) h ;;
         if (h <? pr_nI r)%nat then st <- idx (pr_state r) h ;; Ok (sbox_constraints b (LAdd st (LC (pr_C r))))
         else Ok (sbox_constraints b (LC (pr_C r)))) (seq 0 (pr_nS r)) ;;
  Ok (concat l).

(** /repo/src/gadgets/poseidon.hpp:241-251 *)
Definition pround_witness (r : pround) (s : assign) : outcome assign :=
  oseq (map (fun h s =>
         b <- idx (pr_sboxes r) h ;;
         if (h <? pr_nI r)%nat then st <- idx (pr_state r) h ;; Ok (sbox_witness b (pr_C r + ev s st) s)
         else Ok (sbox_witness b (pr_C r) s)) (seq 0 (pr_nS r))) s.

(** ** Poseidon_gadget_T *)
Record poseidon := { ps_rounds : list pround; ps_outvars : list var; ps_constrain : bool }.
(** Simplification: first_round, prefix_full_rounds, partial_rounds, suffix_full_rounds and
    last_round are kept in one list, in that order; constraints and witness visit them in
    that order (poseidon.hpp:445-504). *)

(** make_rounds, /repo/src/gadgets/poseidon.hpp:299-317: [cnt] rounds with indices from [i] *)
Fixpoint make_rounds (t nS cnt i : nat) (C M : list F) (state : list lc) (n : nat) : outcome (list pround * nat) :=
  match cnt with
  | O => Ok ([], n)
  | S cnt' =>
      c <- idx C i ;;
      ' (r, n1) <- pround_new t nS t t c M state n ;;
      ' (rs, n2) <- make_rounds t nS cnt' (S i) C M (pr_outputs r) n1 ;;
      Ok (r :: rs, n2)
  end.
(** reserve(n_end - n_begin) in unsigned arithmetic throws when n_end < n_begin *)
Definition make_rounds_range (t nS b e : nat) (C M : list F) (state : list lc) (n : nat) : outcome (list pround * nat) :=
  if (e <? b)%nat then Throw else make_rounds t nS (e - b) b C M state n.

(** constructor, /repo/src/gadgets/poseidon.hpp:391-415; template arguments
    t, c, Fr = param_F, P, nInputs, nOutputs, constrainOutputs *)
Definition poseidon_new (t c Fr P nI nO : nat) (constrain : bool) (C M : list F) (inputs : list var) (n : nat)
  : outcome (poseidon * nat) :=
  let pb := (Fr / 2)%nat in
  let pe := (pb + P)%nat in
  c0 <- idx C 0 ;;
  ' (first, n1) <- pround_new t t nI t c0 M (map V inputs) n ;;
  ' (prefix, n2) <- make_rounds_range t t 1 pb C M (pr_outputs first) n1 ;;
  lp <- back prefix ;;
  ' (partial, n3) <- make_rounds_range t c pb pe C M (pr_outputs lp) n2 ;;
  lq <- back partial ;;
  ' (suffix, n4) <- make_rounds_range t t pe (Fr + P - 1) C M (pr_outputs lq) n3 ;;
  cl <- back C ;;
  ls <- back suffix ;;
  ' (last, n5) <- pround_new t t t nO cl M (pr_outputs ls) n4 ;;
  let outv := if constrain then var_array n5 nO else [] in
  Ok ({| ps_rounds := first :: prefix ++ partial ++ suffix ++ [last]; ps_outvars := outv; ps_constrain := constrain |},
      (n5 + length outv)%nat).

(** results(), /repo/src/gadgets/poseidon.hpp:417-429, as linear combinations *)
Definition poseidon_results (g : poseidon) : outcome (list lc) :=
  if ps_constrain g then Ok (map V (ps_outvars g)) else last <- back (ps_rounds g) ;; Ok (pr_outputs last).

(** /repo/src/gadgets/poseidon.hpp:445-474 *)
Definition poseidon_constraints (g : poseidon) : outcome (list constr) :=
  l <- omapM pround_constraints (ps_rounds g) ;;
  if ps_constrain g then
    last <- back (ps_rounds g) ;;
    o <- omapM (fun ix => v <- idx (ps_outvars g) (fst ix) ;; Ok (R1 (snd ix) L1 (V v)))
               (combine (seq 0 (length (pr_outputs last))) (pr_outputs last)) ;;
    Ok (concat l ++ o)
  else Ok (concat l).

(** /repo/src/gadgets/poseidon.hpp:477-504 *)
Definition poseidon_witness (g : poseidon) (s : assign) : outcome assign :=
  s1 <- oseq (map pround_witness (ps_rounds g)) s ;;
  if ps_constrain g then
    last <- back (ps_rounds g) ;;
    fill s1 (ps_outvars g) (map (ev s1) (pr_outputs last))
  else Ok s1.

(** permute, /repo/src/gadgets/poseidon.hpp:319-389 (constrainOutputs has its default true) *)
Definition poseidon_permute (t c Fr P nI nO : nat) (C M : list F) (inputs : list F) : outcome (list F) :=
  _ <- oassert (length inputs =? nI)%nat ;;
  let vi := var_array 1 nI in
  let s := upds (fun _ => F0) vi inputs in
  ' (g, _) <- poseidon_new t c Fr P nI nO true C M vi (S nI) ;;
  s' <- poseidon_witness g s ;;
  rs <- poseidon_results g ;;
  Ok (map (ev s') rs).
