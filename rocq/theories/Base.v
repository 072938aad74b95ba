(** Outcomes of C++ functions. *)
From Coq Require Import List ZArith.
Import ListNotations.

(** Every partial operation of the code has its own observable outcome:
    - [Ok a]       normal return;
    - [Abort]      a failed [assert], or an explicit abort();
    - [UB]         undefined behaviour (out-of-range [vector::operator\[\]],
                   [back()] on an empty vector, shift by too much, ...);
    - [Throw]      a C++ exception leaves the function;
    - [Exit n]     the process calls [exit(n)]. *)
Inductive outcome (A : Type) : Type :=
| Ok (a : A)
| Abort
| UB
| Throw
| Exit (n : Z).
Arguments Ok {A} a.
Arguments Abort {A}.
Arguments UB {A}.
Arguments Throw {A}.
Arguments Exit {A} n.

Definition obind {A B} (o : outcome A) (k : A -> outcome B) : outcome B :=
  match o with
  | Ok a => k a
  | Abort => Abort
  | UB => UB
  | Throw => Throw
  | Exit n => Exit n
  end.

Definition omap {A B} (f : A -> B) (o : outcome A) : outcome B :=
  obind o (fun a => Ok (f a)).

Notation "x <- e ;; k" := (obind e (fun x => k))
  (at level 100, e at next level, right associativity).
Notation "' pat <- e ;; k" := (obind e (fun x => match x with pat => k end))
  (at level 100, pat pattern, e at next level, right associativity).

(** [assert(b)]; *)
Definition oassert (b : bool) : outcome unit := if b then Ok tt else Abort.

(** [v\[i\]] on a std::vector (or pb_variable_array): undefined behaviour when out
    of range. *)
Definition idx {A} (l : list A) (i : nat) : outcome A :=
  match nth_error l i with
  | Some a => Ok a
  | None => UB
  end.

(** [v.back()] *)
Definition back {A} (l : list A) : outcome A :=
  match l with
  | [] => UB
  | _ => match rev l with x :: _ => Ok x | [] => UB end
  end.

(** run a list of partial state transformers in order *)
Fixpoint oseq {A} (fs : list (A -> outcome A)) (a : A) : outcome A :=
  match fs with
  | [] => Ok a
  | f :: fs' => a' <- f a ;; oseq fs' a'
  end.

Definition is_ok {A} (o : outcome A) : bool :=
  match o with Ok _ => true | _ => false end.
