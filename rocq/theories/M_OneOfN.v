(** Models of /repo/src/gadgets/one_of_n.hpp and /repo/src/gadgets/shamir_poly.hpp. *)
From Coq Require Import List ZArith Bool Arith.
From Verif Require Import Field Base R1CS M_Bits.
Import ListNotations.
Local Open Scope F_scope.

(** ** one_of_n.  [toggles_sum] is a mutable member (the witness generator replaces its
    first variable), so the gadget is threaded through [oon_witness].
    Simplification: [our_item] and [items] are references in the C++ class; the model
    stores the variables themselves. *)
Record one_of_n := { oon_item : var; oon_items : list var; oon_toggles : list var; oon_sums : list var }.

(** /repo/src/gadgets/one_of_n.hpp:54-72 *)
Definition oon_new (item : var) (items : list var) (n : nat) : outcome (one_of_n * nat) :=
  _ <- oassert (0 <? length items)%nat ;;
  Ok ({| oon_item := item; oon_items := items;
         oon_toggles := var_array n (length items);
         oon_sums := var_array (n + length items) (length items) |}, (n + 2 * length items)%nat).

(** /repo/src/gadgets/one_of_n.hpp:83-92, the chain sum\[i-1\]+toggle\[i\]=sum\[i\] *)
Fixpoint oon_chain (prev : var) (toggles sums : list var) : list constr :=
  match toggles, sums with
  | t :: ts, u :: us => R1 (LAdd (V prev) (V t)) L1 (V u) :: oon_chain u ts us
  | _, _ => []
  end.

(** /repo/src/gadgets/one_of_n.hpp:74-110; [s] is the assignment when the constraints are
    generated: [pb.val(our_item)] is read then and becomes a constant *)
Definition oon_constraints (g : one_of_n) (s : assign) : outcome (list constr) :=
  s0 <- idx (oon_sums g) 0 ;;
  last <- idx (oon_sums g) (length (oon_items g) - 1) ;;
  Ok (map (fun t => boolean_c (V t)) (oon_toggles g) ++
      oon_chain s0 (tl (oon_toggles g)) (tl (oon_sums g)) ++
      [R1 (V last) L1 L1] ++
      map (fun it => R1 (V (fst it)) (V (snd it)) (LScale (s (oon_item g)) (V (snd it))))
          (combine (oon_items g) (oon_toggles g))).

(** /repo/src/gadgets/one_of_n.hpp:114-121: first match, then break *)
Fixpoint oon_set (items toggles : list var) (x : F) (s : assign) : assign :=
  match items, toggles with
  | i :: is, t :: ts => if Feqb (s i) x then upd s t F1 else oon_set is ts x s
  | _, _ => s
  end.
(** /repo/src/gadgets/one_of_n.hpp:125-128 *)
Fixpoint oon_sum (prev : var) (toggles sums : list var) (s : assign) : assign :=
  match toggles, sums with
  | t :: ts, u :: us => oon_sum u ts us (upd s u (s prev + s t))
  | _, _ => s
  end.
(** /repo/src/gadgets/one_of_n.hpp:112-129; line 124 assigns the *variable* *)
Definition oon_witness (g : one_of_n) (s : assign) : outcome (one_of_n * assign) :=
  let s1 := oon_set (oon_items g) (oon_toggles g) (s (oon_item g)) s in
  t0 <- idx (oon_toggles g) 0 ;;
  _ <- idx (oon_sums g) 0 ;;
  let g' := {| oon_item := oon_item g; oon_items := oon_items g; oon_toggles := oon_toggles g;
               oon_sums := t0 :: tl (oon_sums g) |} in
  Ok (g', oon_sum t0 (tl (oon_toggles g)) (tl (oon_sums g)) s1).

(** ** shamir_poly *)
Record shamir := { sh_input : var; sh_alpha : list var; sh_sq : list var; sh_tot : list var }.

(** /repo/src/gadgets/shamir_poly.hpp:31-46 *)
Definition sh_new (input : var) (alpha : list var) (n : nat) : outcome (shamir * nat) :=
  let k := length alpha in
  _ <- oassert (2 <=? k)%nat ;;
  Ok ({| sh_input := input; sh_alpha := alpha; sh_sq := var_array n k; sh_tot := var_array (n + k) k |},
      (n + 2 * k)%nat).

(** /repo/src/gadgets/shamir_poly.hpp:48-51 *)
Definition sh_result (g : shamir) : outcome var := idx (sh_tot g) (length (sh_tot g) - 1).

(** body of the loop at /repo/src/gadgets/shamir_poly.hpp:76-127 *)
Definition sh_step (g : shamir) (i : nat) : outcome (list constr) :=
  sq <- match i with
        | O => v <- idx (sh_sq g) 0 ;; Ok [R1 (V v) L1 L1]
        | S O => v <- idx (sh_sq g) 2 ;; Ok [R1 (V (sh_input g)) (V (sh_input g)) (V v)]
        | _ => if (i <? length (sh_alpha g) - 1)%nat
               then v <- idx (sh_sq g) i ;; w <- idx (sh_sq g) (i + 1) ;;
                    Ok [R1 (V (sh_input g)) (V v) (V w)]
               else Ok []
        end ;;
  a <- idx (sh_alpha g) i ;;
  v <- idx (sh_sq g) i ;;
  t <- idx (sh_tot g) i ;;
  match i with
  | O => Ok (sq ++ [R1 (V a) (V v) (V t)])
  | S j => u <- idx (sh_tot g) j ;; Ok (sq ++ [R1 (V a) (V v) (LSub (V t) (V u))])
  end.
(** /repo/src/gadgets/shamir_poly.hpp:74-128 *)
Definition sh_constraints (g : shamir) : outcome (list constr) :=
  l <- omapM (sh_step g) (seq 0 (length (sh_alpha g))) ;; Ok (concat l).

(** /repo/src/gadgets/shamir_poly.hpp:150-168; [total] is the running local *)
Fixpoint sh_wloop (g : shamir) (is : list nat) (total : F) (s : assign) : outcome assign :=
  match is with
  | [] => Ok s
  | i :: is' =>
      v <- idx (sh_sq g) i ;;
      let s1 := upd s v (match i with O => F1 | S _ => Fpow (s (sh_input g)) (Z.of_nat i) end) in
      a <- idx (sh_alpha g) i ;;
      let total := total + s1 a * s1 v in
      t <- idx (sh_tot g) i ;;
      sh_wloop g is' total (upd s1 t total)
  end.
Definition sh_witness (g : shamir) (s : assign) : outcome assign :=
  sh_wloop g (seq 0 (length (sh_alpha g))) F0 s.
