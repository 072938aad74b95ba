(** Specification vocabulary for C35, C36 and C67-C71. *)
From Coq Require Import List ZArith String Ascii.
From Verif Require Import Primes Field M_Point Spec_Curve Spec_Mont.
Import ListNotations.
Open Scope Z_scope.

(** What is required of the library's square root: on a square it returns one of the roots (which
    one is left open). *)
Definition sqrt_ok (sqrt : F -> F) : Prop := forall r : F, (sqrt (r * r) * sqrt (r * r))%F = (r * r)%F.

(** some curve point has the ordinate [y] *)
Definition has_point (y : F) : Prop := exists x : F, on_curve (mkpt x y).
(** [x] is the larger of the two representatives of x and -x *)
Definition larger_root (x : F) : Prop := fval (- x)%F <= fval x.
(** [P] is the curve point found from [y]: its ordinate is the first of y, y+1, ... that occurs on
    the curve, at distance [i], and its abscissa is the larger root *)
Definition found_at (y : F) (i : Z) (P : point) : Prop :=
  on_curve P /\ py P = (y + Fof i)%F /\ larger_root (px P) /\ (forall j, 0 <= j < i -> ~ has_point (y + Fof j)%F).

(** a point of order exactly [n] *)
Definition exact_order (n : Z) (P : point) : Prop := forall z, pzmul z P = pzero <-> (n | z).

(** A C string: no NUL characters *)
Fixpoint no_nul (s : string) : Prop :=
  match s with EmptyString => True | String c r => c <> Ascii.zero /\ no_nul r end.
Definition chars (s : string) : list Z := map (fun c => Z.of_nat (nat_of_ascii c)) (list_ascii_of_string s).
(** the characters without trailing spaces *)
Fixpoint rtrim (l : list Z) : list Z :=
  match l with
  | [] => []
  | c :: r => match rtrim r with [] => if c =? 32 then [] else [c] | r' => c :: r' end
  end.

(** The text that is hashed for base point number [seqn] of [name]: the name, spaces up to column 28,
    and four hexadecimal digits. *)
Definition hex_alphabet : list Z := chars "0123456789ABCDEF".
Definition basepoint_text (name : string) (seqn : Z) : list Z :=
  firstn 28 (chars name ++ repeat 32 28) ++
  map (fun d => nth (Z.to_nat d) hex_alphabet 0) [seqn / 4096; seqn / 256 mod 16; seqn / 16 mod 16; seqn mod 16].
