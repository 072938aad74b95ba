(** Model of the modular square root of /repo/ethsnarks/numbertheory.py.
    Polynomials are lists of integers, the constant term first.  A raised exception is [Throw]. *)
From Coq Require Import List ZArith Bool Arith.
From Verif Require Import Primes Field Base M_PyField.
Import ListNotations.
Local Open Scope nat_scope.
Local Open Scope Z_scope.

(** one pass of the inner loop of [polynomial_reduce_mod], numbertheory.py:68-69; the lists are in
    reversed order, without the leading coefficients *)
Fixpoint sub_multiple (p h : Z) (polymod poly : list Z) : list Z :=
  match polymod, poly with
  | m :: polymod', x :: poly' => (x - h * m) mod p :: sub_multiple p h polymod' poly'
  | _, _ => poly
  end.
(** [polynomial_reduce_mod], numbertheory.py:52-72; [rp] and [rm] in reversed order, [n] is at least the length of [rp] *)
Fixpoint reduce_rev (n : nat) (p : Z) (rp rm : list Z) : list Z :=
  match n with
  | O => rp
  | S n' =>
    if (length rm <=? length rp)%nat then
      match rp with
      | [] => []
      | h :: t => reduce_rev n' p (if h =? 0 then t else sub_multiple p h (tl rm) t) rm
      end
    else rp
  end.
Definition polynomial_reduce_mod (poly polymod : list Z) (p : Z) : outcome (list Z) :=
  _ <- (if (last polymod 0 =? 1) && (1 <? length polymod)%nat then Ok tt else Throw) ;;
  Ok (rev (reduce_rev (length poly) p (rev poly) (rev polymod))).
(** [polynomial_multiply_mod], numbertheory.py:76-97: row i of the cross terms is added at offset i *)
Fixpoint add_row (p x : Z) (m2 prod : list Z) : list Z :=
  match m2, prod with
  | y :: m2', z :: prod' => (z + x * y) mod p :: add_row p x m2' prod'
  | _, _ => prod
  end.
Fixpoint cross_terms (p : Z) (m1 m2 prod : list Z) : list Z :=
  match m1 with
  | [] => prod
  | x :: m1' => match add_row p x m2 prod with [] => [] | z :: prod' => z :: cross_terms p m1' m2 prod' end
  end.
Definition polynomial_multiply_mod (m1 m2 polymod : list Z) (p : Z) : outcome (list Z) :=
  polynomial_reduce_mod (cross_terms p m1 m2 (repeat 0 (length m1 + length m2 - 1))) polymod p.
(** [polynomial_exp_mod], numbertheory.py:100-125; [fuel] bounds the iterations, the exponent is below 2 ^ fuel *)
Fixpoint exp_loop (fuel : nat) (k : Z) (G s polymod : list Z) (p : Z) : outcome (list Z) :=
  match fuel with
  | O => UB
  | S n =>
    if 1 <? k then
      let k := k / 2 in
      G <- polynomial_multiply_mod G G polymod p ;;
      s <- (if k mod 2 =? 1 then polynomial_multiply_mod G s polymod p else Ok s) ;;
      exp_loop n k G s polymod p
    else Ok s
  end.
Definition polynomial_exp_mod (base : list Z) (exponent : Z) (polymod : list Z) (p : Z) : outcome (list Z) :=
  _ <- (if exponent <? p then Ok tt else Throw) ;;
  if exponent =? 0 then Ok [1]
  else exp_loop (S (Z.to_nat (Z.log2_up exponent))) exponent base (if exponent mod 2 =? 1 then base else [1]) polymod p.
(** [modular_exp], numbertheory.py:36-41 *)
Definition modular_exp (base exponent modulus : Z) : outcome Z := pow3 base exponent modulus.

(** [jacobi], numbertheory.py:129-150.  [strip2] is the loop of lines 143-145: the odd part and the power of two;
    [UB] is running out of [fuel], a bound on the depth of the recursion *)
Fixpoint strip2 (a : positive) : Z * Z :=
  match a with
  | xO a' => let (a1, e) := strip2 a' in (a1, e + 1)
  | _ => (Zpos a, 0)
  end.
Fixpoint jacobi (fuel : nat) (a n : Z) : outcome Z :=
  match fuel with
  | O => UB
  | S fuel' =>
    if (3 <=? n) && (n mod 2 =? 1) then
      let a := a mod n in
      if a =? 0 then Ok 0
      else if a =? 1 then Ok 1
      else
        let (a1, e) := strip2 (Z.to_pos a) in
        let s := if (e mod 2 =? 0) || (n mod 8 =? 1) || (n mod 8 =? 7) then 1 else -1 in
        if a1 =? 1 then Ok s
        else
          let s := if (n mod 4 =? 3) && (a1 mod 4 =? 3) then - s else s in
          r <- jacobi fuel' (n mod a1) a1 ;; Ok (s * r)
    else Throw
  end.

(** [depth] bounds the recursion of [jacobi], [fuel] the number of values of b tried *)
Section SquareRoot.
Variable depth : nat.
(** the search of lines 180-186, from [b] on *)
Fixpoint root_search (fuel : nat) (a p b : Z) : outcome Z :=
  match fuel with
  | O => UB
  | S n =>
    if b <? p then
      j <- jacobi depth (b * b - 4 * a) p ;;
      if j =? -1 then
        ff <- polynomial_exp_mod [0; 1] ((p + 1) / 2) [a; - b; 1] p ;;
        match ff with
        | f0 :: f1 :: _ => if f1 =? 0 then Ok f0 else Throw
        | _ => Throw
        end
      else root_search n a p (b + 1)
    else Throw
  end.
(** [square_root_mod_prime], numbertheory.py:154-186 *)
Definition square_root_mod_prime (fuel : nat) (a p : Z) : outcome Z :=
  _ <- (if (0 <=? a) && (a <? p) && (1 <? p) then Ok tt else Throw) ;;
  if a =? 0 then Ok 0
  else if p =? 2 then Ok a
  else
    jac <- jacobi depth a p ;;
    if jac =? -1 then Throw
    else if p mod 4 =? 3 then modular_exp a ((p + 1) / 4) p
    else if p mod 8 =? 5 then
      d <- modular_exp a ((p - 1) / 4) p ;;
      if d =? 1 then modular_exp a ((p + 3) / 8) p
      else if d =? p - 1 then r <- modular_exp (4 * a) ((p - 5) / 8) p ;; Ok ((2 * a * r) mod p)
      else Throw
    else root_search fuel a p 2.
End SquareRoot.

(** [FQ.sqrt] for the modulus p, /repo/ethsnarks/field.py:143-145 *)
Definition py_sqrt (depth fuel : nat) (x : F) : outcome F :=
  r <- square_root_mod_prime depth fuel (fval x) p_mod ;; Ok (Fof r).
