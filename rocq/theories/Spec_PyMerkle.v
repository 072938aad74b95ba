(** Specification of the w-ary Merkle tree. *)
From Coq Require Import List ZArith Bool Arith.
From Verif Require Import Primes Base Spec_Sha256 M_PyMerkle.
Import ListNotations.
Local Open Scope nat_scope.

Section Spec.
  Variable H : nat -> list Z -> Z.     (* level of the children, children *)
  Variable fill : nat -> nat -> Z.     (* value of an empty position, from level and position *)
  Variable w : nat.                    (* children of a node *)

  (** the node at level [d] and position [i] of the tree over the leaves [ls]; positions without a leaf
      below them have their filler value *)
  Fixpoint wnode (ls : list Z) (d i : nat) : Z :=
    match d with
    | O => nth i ls (fill 0 i)
    | S d' => if i * w ^ d <? length ls then H d' (map (fun j => wnode ls d' (w * i + j)) (seq 0 w)) else fill d i
    end.
  (** the children of the node above position [i] of level [d] *)
  Definition children (ls : list Z) (d i : nat) : list Z := map (fun j => wnode ls d (w * (i / w) + j)) (seq 0 w).
  (** and of these the others than the one at [i] *)
  Definition drop_nth (l : list Z) (n : nat) : list Z := firstn n l ++ skipn (S n) l.

  (** the value that the steps of a proof lead to, up to level [d] *)
  Fixpoint climb_to (item : Z) (steps : list (nat * list Z)) (d k : nat) : Z :=
    match k, steps with
    | S k', (a, pf) :: r => climb_to (H d (firstn a pf ++ item :: skipn a pf)) r (S d) k'
    | _, _ => item
    end.
  (** the children that the proof claims at level [k] *)
  Definition claimed (item : Z) (steps : list (nat * list Z)) (k : nat) : list Z :=
    let (a, pf) := nth k steps (0, []) in
    firstn a pf ++ climb_to item steps 0 k :: skipn a pf.
  (** the position of the leaf: the addresses are the digits in base w, lowest first *)
  Fixpoint position (steps : list (nat * list Z)) : nat :=
    match steps with [] => 0 | (a, _) :: r => a + w * position r end.
  (** every step has an address below w and w - 1 others *)
  Definition shaped (steps : list (nat * list Z)) : Prop := Forall (fun s => fst s < w /\ S (length (snd s)) = w) steps.
  (** at level [k] the proof hashes other children than the tree to the same value *)
  Definition w_collision (ls : list Z) (item : Z) (steps : list (nat * list Z)) (k : nat) : Prop :=
    let i := position steps / w ^ k in
    claimed item steps k <> children ls k i /\ H k (claimed item steps k) = H k (children ls k i).
  (** at level [k] the proof meets the filler value of an empty position *)
  Definition w_filler_hit (ls : list Z) (item : Z) (steps : list (nat * list Z)) (k : nat) : Prop :=
    let i := position steps / w ^ k in
    length ls <= i * w ^ k /\ climb_to item steps 0 k = fill k i.
End Spec.

(** ** histories of a tree *)
Inductive op : Type := Add (x : Z) | Put (n : nat) (x : Z).
(** the list of leaves after a history *)
Fixpoint list_after (ls : list Z) (ops : list op) : list Z :=
  match ops with
  | [] => ls
  | Add x :: r => list_after (ls ++ [x]) r
  | Put n x :: r => list_after (firstn n ls ++ x :: skipn (S n) ls) r
  end.
(** appends below the capacity, updates at existing positions, values in the field *)
Fixpoint allowed (n_items : Z) (ls : list Z) (ops : list op) : Prop :=
  match ops with
  | [] => True
  | Add x :: r => (Z.of_nat (length ls) < n_items)%Z /\ (0 <= x < p_mod)%Z /\ allowed n_items (ls ++ [x]) r
  | Put n x :: r => n < length ls /\ (0 <= x < p_mod)%Z /\ allowed n_items (firstn n ls ++ x :: skipn (S n) ls) r
  end.
(** the same history run by the library, from a new tree *)
Fixpoint runs (hash_node : Z -> list Z -> outcome Z) (unique : Z -> Z -> Z) (t : ptree) (ops : list op) : outcome ptree :=
  match ops with
  | [] => Ok t
  | Add x :: r => ' (t', _) <- append hash_node unique t x ;; runs hash_node unique t' r
  | Put n x :: r => t' <- update hash_node unique t (Z.of_nat n) x ;; runs hash_node unique t' r
  end.
Definition built hash_node unique (n_items width : Z) (ops : list op) (t : ptree) : Prop :=
  (t0 <- new_tree n_items width ;; runs hash_node unique t0 ops) = Ok t.
(** the steps as the library writes them *)
Definition z_steps (steps : list (nat * list Z)) : list (Z * list Z) := map (fun s => (Z.of_nat (fst s), snd s)) steps.
(** the hasher object computes [H] on nodes of [w] children below level [D], and [fill] for empty positions *)
Definition hasher_is (hash_node : Z -> list Z -> outcome Z) (unique : Z -> Z -> Z)
    (H : nat -> list Z -> Z) (fill : nat -> nat -> Z) (w D : nat) : Prop :=
  (forall d args, d < D -> length args = w -> hash_node (Z.of_nat d) args = Ok (H d args)) /\
  (forall d i, unique (Z.of_nat d) (Z.of_nat i) = fill d i).
(** between an earlier item equal to the n-th and the n-th itself there are only equal items *)
Definition no_gap (l : list Z) (n : nat) : Prop :=
  forall j k, j < k < n -> nth j l 0%Z = nth n l 0%Z -> nth k l 0%Z = nth n l 0%Z.
(** arguments that the constructor accepts, with the depth [D] that it computes *)
Definition dims (w D : nat) (n_items : Z) : Prop :=
  2 <= w /\ D <> 0 /\ (n_items mod Z.of_nat w = 0)%Z /\ (Z.of_nat (w ^ D) <= n_items < Z.of_nat (w ^ S D))%Z.
(** SHA-256 as a number: the eight words of the digest, first word on top *)
Definition sha256_num (m : list Z) : Z :=
  (fold_left (fun a x => a * 2 ^ 32 + x) (fips_hash fips_H256 (bits_of_bytes m)) 0)%Z.
