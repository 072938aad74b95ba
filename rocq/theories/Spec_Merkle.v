(** Specification of Merkle paths over an arbitrary hash of (iv, list of inputs). *)
From Coq Require Import List.
From Verif Require Import Field.
Import ListNotations.

(** hash upwards from [leaf]: at each level the sibling is on the left iff the bit is set *)
Fixpoint merkle_spec (H : F -> list F -> F) (ivs path : list F) (bits : list bool) (leaf : F) : F :=
  match ivs, path, bits with
  | iv :: ivs', p :: path', b :: bits' =>
      merkle_spec H ivs' path' bits' (H iv (if b then [p; leaf] else [leaf; p]))
  | _, _, _ => leaf
  end.

(** the (iv, left, right) inputs of the hash at each level, leaf level first *)
Fixpoint path_inputs (H : F -> list F -> F) (ivs path : list F) (bits : list bool) (leaf : F) : list (F * F * F) :=
  match ivs, path, bits with
  | iv :: ivs', p :: path', b :: bits' =>
      let (l, r) := if b then (p, leaf) else (leaf, p) in
      (iv, l, r) :: path_inputs H ivs' path' bits' (H iv [l; r])
  | _, _, _ => []
  end.

(** two lists of hash inputs exhibit a collision: at some level different input pairs
    have the same digest *)
Definition exhibits_collision (H : F -> list F -> F) (a b : list (F * F * F)) : Prop :=
  exists i iv l r iv' l' r', nth_error a i = Some (iv, l, r) /\ nth_error b i = Some (iv', l', r') /\
    (l, r) <> (l', r') /\ H iv [l; r] = H iv' [l'; r'].
