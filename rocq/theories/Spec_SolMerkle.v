(** Specification of the contract's Merkle tree: the value of every node as a function of the list of
    inserted leaves. *)
From Coq Require Import List ZArith Bool.
From Verif Require Import Base M_SolMerkle.
Import ListNotations.
Local Open Scope Z_scope.

Section Spec.
  Variable H : Z -> Z -> Z -> Z.          (* left, right, initialisation vector *)
  Variable filler : Z -> Z -> Z.          (* value of an empty position, from height and position *)
  Variable ivs : list Z.

  (** the node at height [d] and position [i] of the tree over the leaves [ls].  A position with no leaf
      below it has its filler value. *)
  Fixpoint tnode (ls : list Z) (d : nat) (i : Z) : Z :=
    if i * 2 ^ Z.of_nat d <? Z.of_nat (length ls) then
      match d with
      | O => nth (Z.to_nat i) ls 0
      | S d' => H (tnode ls d' (2 * i)) (tnode ls d' (2 * i + 1)) (nth d' ivs 0)
      end
    else filler (Z.of_nat d) i.

  (** the nodes next to the path from leaf [i], from height [d] upwards, and the sides they are on *)
  Fixpoint siblings (ls : list Z) (n d : nat) (i : Z) : list Z :=
    match n with O => [] | S n' => tnode ls d (if Z.odd i then i - 1 else i + 1) :: siblings ls n' (S d) (i / 2) end.
  Fixpoint sides (n : nat) (i : Z) : list bool :=
    match n with O => [] | S n' => Z.odd i :: sides n' (i / 2) end.

  (** the value after [d] levels of hashing upwards from [item], and the pair hashed at level [d] *)
  Fixpoint climb (vs path : list Z) (bits : list bool) (item : Z) (d : nat) {struct d} : Z :=
    match d, vs, path, bits with
    | S d', iv :: vs', p :: path', b :: bits' => climb vs' path' bits' (if b : bool then H p item iv else H item p iv) d'
    | _, _, _, _ => item
    end.
  Definition path_pair (vs path : list Z) (bits : list bool) (item : Z) (d : nat) : Z * Z :=
    if nth d bits false then (nth d path 0, climb vs path bits item d) else (climb vs path bits item d, nth d path 0).
  (** at level [d] the submitted path hashes another pair than the tree to the same value *)
  Definition path_collision (ls : list Z) (path : list Z) (leaf i : Z) (n d : nat) : Prop :=
    let j := i / 2 ^ Z.of_nat (S d) in
    let (l, r) := path_pair ivs path (sides n i) leaf d in
    (l, r) <> (tnode ls d (2 * j), tnode ls d (2 * j + 1)) /\
    H l r (nth d ivs 0) = H (tnode ls d (2 * j)) (tnode ls d (2 * j + 1)) (nth d ivs 0).
  (** at level [d] the submitted path meets the filler value of an empty position *)
  Definition filler_hit (ls : list Z) (path : list Z) (leaf i : Z) (n d : nat) : Prop :=
    let j := i / 2 ^ Z.of_nat d in
    Z.of_nat (length ls) <= j * 2 ^ Z.of_nat d /\ climb ivs path (sides n i) leaf d = filler (Z.of_nat d) j.

  (** no hash is zero, among those of the nodes that are next to a node with leaves *)
  Definition no_zero_node (ls : list Z) : Prop :=
    forall d i, (0 < d < 29)%nat -> 0 <= i -> i * 2 ^ Z.of_nat d < Z.of_nat (length ls) ->
      (Z.even i = true -> (i + 1) * 2 ^ Z.of_nat d < Z.of_nat (length ls)) -> tnode ls d i <> 0.
End Spec.

(** a sequence of insertions *)
Fixpoint inserts (ins : tree -> Z -> outcome (tree * Z * Z)) (t : tree) (ls : list Z) : outcome tree :=
  match ls with
  | [] => Ok t
  | l :: ls' => ' (t', _, _) <- ins t l ;; inserts ins t' ls'
  end.

(** the value that stands for an empty position *)
Definition empty_value (sha256 : list Z -> Z) (d i : Z) : Z := GetUniqueLeaf sha256 d i 0.
