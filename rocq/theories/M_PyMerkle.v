(** Model of /repo/ethsnarks/merkletree.py and /repo/ethsnarks/mimc/permutation.py.

    Python integers are [Z]; an exception (failed [assert], IndexError, KeyError, ...) is the outcome
    [Throw].  A single sibling, which the code stores without a list around it, is a list of length
    one here ([MerkleProof.verify] puts it into a list again). *)
From Coq Require Import List ZArith Bool.
From Verif Require Import Primes Base Spec_Keccak M_Evm M_SolMimc.
Import ListNotations.
Local Open Scope Z_scope.

(** ** Python lists *)
(** the position that an index stands for: negative indices count from the end *)
Definition py_index {A} (l : list A) (i : Z) : option nat :=
  let j := if i <? 0 then i + Z.of_nat (length l) else i in
  if (0 <=? j) && (j <? Z.of_nat (length l)) then Some (Z.to_nat j) else None.
(** [l\[i\]] *)
Definition py_get {A} (l : list A) (i : Z) : outcome A :=
  match py_index l i with
  | Some n => match nth_error l n with Some a => Ok a | None => Throw end
  | None => Throw
  end.
Definition set_nth {A} (l : list A) (n : nat) (x : A) : list A := firstn n l ++ x :: skipn (S n) l.
(** [l\[i\] = x] *)
Definition py_set {A} (l : list A) (i : Z) (x : A) : outcome (list A) :=
  match py_index l i with Some n => Ok (set_nth l n x) | None => Throw end.
(** [l.remove(x)]: the first element equal to x *)
Fixpoint py_remove (l : list Z) (x : Z) : list Z :=
  match l with [] => [] | y :: r => if y =? x then r else y :: py_remove r x end.
(** [l.insert(i, x)]: indices beyond the ends are the ends *)
Definition py_insert (l : list Z) (i : Z) (x : Z) : list Z :=
  let j := if i <? 0 then Z.max 0 (i + Z.of_nat (length l)) else Z.min i (Z.of_nat (length l)) in
  firstn (Z.to_nat j) l ++ x :: skipn (Z.to_nat j) l.

(** a list comprehension whose element may raise *)
Fixpoint py_comp {A B} (f : A -> outcome B) (l : list A) : outcome (list B) :=
  match l with [] => Ok [] | a :: r => b <- f a ;; bs <- py_comp f r ;; Ok (b :: bs) end.

(** ** mimc/permutation.py *)
(** mimc_constants, permutation.py:35-51, with [R] rounds to go from the number [seed]; [H] of a number is
    Keccak-256 of its 32 bytes (permutation.py:27-30) *)
Fixpoint py_mimc_constants_from (R : nat) (seed : Z) : list Z :=
  match R with O => [] | S R' => let seed := keccak_word seed in seed :: py_mimc_constants_from R' seed end.
(** for a byte string as the seed, which is hashed first; DEFAULT_SEED is b'mimc' *)
Definition py_mimc_constants (seed : list Z) (R : nat) : list Z :=
  py_mimc_constants_from R (be_value (keccak256 seed)).
(** mimc, permutation.py:54-90 *)
Definition py_mimc (seed : list Z) (p e : Z) (R : nat) (x k : Z) : outcome Z :=
  if (2 <? R)%nat then
    Ok ((fold_left (fun x c_i => ((x + k + c_i) mod p) ^ e mod p) (py_mimc_constants seed R) x + k) mod p)
  else Throw.
(** mimc_hash, permutation.py:93-124 *)
Fixpoint py_mimc_hash (seed : list Z) (p e : Z) (R : nat) (x : list Z) (k : Z) : outcome Z :=
  match x with
  | [] => Ok k
  | x_i :: x' => r <- py_mimc seed p e R x_i k ;; py_mimc_hash seed p e R x' ((k + x_i + r) mod p)
  end.
(** mimc_hash_md, permutation.py:127-146 *)
Fixpoint py_mimc_hash_md (seed : list Z) (p e : Z) (R : nat) (x : list Z) (k : Z) : outcome Z :=
  match x with
  | [] => Ok k
  | x_i :: x' => k <- py_mimc seed p e R x_i k ;; py_mimc_hash_md seed p e R x' k
  end.
Definition DEFAULT_SEED : list Z := [109; 105; 109; 99].
Definition DEFAULT_EXPONENT : Z := 7.
Definition DEFAULT_ROUNDS : nat := 91.

(** ** the hashers *)
Section Hasher.
  (** hashlib.sha256: bytes to the number of the digest, big-endian *)
  Variable sha256 : list Z -> Z.
  (** Abstract_MerkleHasher.unique, merkletree.py:24-34 (the assertion is in [py_leaf] below) *)
  Definition py_unique (depth index : Z) : Z := sha256 (be_bytes 2 depth ++ be_bytes 30 index) mod p_mod.
  (** b'MerkleTree-' and two bytes of [i], little-endian *)
  Definition iv_item (i : nat) : list Z :=
    [77; 101; 114; 107; 108; 101; 84; 114; 101; 101; 45] ++ [Z.of_nat i mod 256; Z.of_nat i / 256].
  (** _make_IVs, merkletree.py:36-44: one hash object is updated on and on, so the i-th digest is that of
      the first i+1 items one after the other *)
  Definition py_IV (i : nat) : Z := sha256 (flat_map iv_item (seq 0 (S i))) mod p_mod.
  Definition py_IVs (tree_depth : nat) : list Z := map py_IV (seq 0 tree_depth).
  (** MerkleHasher_MiMC.hash_node, merkletree.py:58-59 *)
  Definition mimc_hash_node (tree_depth : nat) (depth : Z) (args : list Z) : outcome Z :=
    iv <- py_get (py_IVs tree_depth) depth ;;
    py_mimc_hash DEFAULT_SEED p_mod DEFAULT_EXPONENT DEFAULT_ROUNDS args iv.
End Hasher.

(** ** the tree *)
(** int(math.log(n, w)); the rounding of the floating-point logarithm is not modelled, this is the exact floor *)
Fixpoint floor_log (fuel : nat) (w n : Z) : nat :=
  match fuel with O => O | S f => if n <? w then O else S (floor_log f w (n / w)) end.

Record ptree : Type := PTree {
  pt_width : Z; pt_depth : nat; pt_n_items : Z; pt_cur : Z; pt_leaves : list (list Z) }.

Section Tree.
  (** the hasher object *)
  Variable hash_node : Z -> list Z -> outcome Z.
  Variable unique : Z -> Z -> Z.

  (** MerkleTree.__init__, merkletree.py:106-116.  A width below 2 fails in math.log.  What the hasher's
      constructor demands of the width is left out. *)
  Definition new_tree (n_items width : Z) : outcome ptree :=
    _ <- orequire (width <=? n_items) ;;
    _ <- orequire (2 <=? width) ;;
    _ <- orequire (n_items mod width =? 0) ;;
    let d := floor_log (Z.to_nat (Z.log2 n_items + 1)) width n_items in
    Ok (PTree width d n_items 0 (repeat [] (S d))).

  (** leaf, merkletree.py:191-194 *)
  Definition py_leaf (t : ptree) (depth : nat) (offset : Z) : outcome Z :=
    row <- py_get (pt_leaves t) (Z.of_nat depth) ;;
    if Z.of_nat (length row) <=? offset then
      if (depth <? pt_depth t)%nat then Ok (unique (Z.of_nat depth) offset) else Throw
    else py_get row offset.
  (** _make_node, merkletree.py:159-161 *)
  Definition make_node (t : ptree) (depth : nat) (index : Z) : outcome (list Z) :=
    let node_start := index - index mod pt_width t in
    py_comp (fun j => py_leaf t depth (node_start + Z.of_nat j)) (seq 0 (Z.to_nat (pt_width t))).
  Definition with_leaves (t : ptree) (ls : list (list Z)) : ptree :=
    PTree (pt_width t) (pt_depth t) (pt_n_items t) (pt_cur t) ls.
  (** the loop of _updateTree, merkletree.py:179-189, from level [depth] with [n] levels left *)
  Fixpoint update_levels (n : nat) (depth : nat) (cur_index : Z) (t : ptree) : outcome ptree :=
    match n with
    | O => Ok t
    | S n' =>
        let next_index := cur_index / pt_width t in
        node_items <- make_node t depth cur_index ;;
        node <- hash_node (Z.of_nat depth) node_items ;;
        row <- py_get (pt_leaves t) (Z.of_nat (S depth)) ;;
        row' <- (if Z.of_nat (length row) =? next_index then Ok (row ++ [node]) else py_set row next_index node) ;;
        ls <- py_set (pt_leaves t) (Z.of_nat (S depth)) row' ;;
        update_levels n' (S depth) next_index (with_leaves t ls)
    end.
  Definition updateTree (t : ptree) (cur_index : Z) : outcome ptree := update_levels (pt_depth t) 0 cur_index t.

  (** append, merkletree.py:132-141 (the leaf an integer) *)
  Definition append (t : ptree) (leaf : Z) : outcome (ptree * Z) :=
    _ <- orequire (pt_cur t <? pt_n_items t) ;;
    _ <- orequire ((0 <=? leaf) && (leaf <? p_mod)) ;;
    row <- py_get (pt_leaves t) 0 ;;
    ls <- py_set (pt_leaves t) 0 (row ++ [leaf]) ;;
    t' <- updateTree (with_leaves t ls) (pt_cur t) ;;
    Ok (PTree (pt_width t') (pt_depth t') (pt_n_items t') (pt_cur t' + 1) (pt_leaves t'), pt_cur t').

  (** update and __setitem__, merkletree.py:121-130 and 150-151 *)
  Definition update (t : ptree) (index leaf : Z) : outcome ptree :=
    _ <- orequire ((0 <=? leaf) && (leaf <? p_mod)) ;;
    row <- py_get (pt_leaves t) 0 ;;
    _ <- orequire (negb (Z.of_nat (length row) - 1 <? index)) ;;
    row' <- py_set row index leaf ;;
    ls <- py_set (pt_leaves t) 0 row' ;;
    updateTree (with_leaves t ls) index.

  (** __getitem__, merkletree.py:143-148 *)
  Definition get_item (t : ptree) (key : Z) : outcome Z :=
    _ <- orequire ((0 <=? key) && (key <? pt_cur t)) ;;
    row <- py_get (pt_leaves t) 0 ;; py_get row key.

  (** the loop of proof, merkletree.py:169-176 *)
  Fixpoint proof_levels (n : nat) (depth : nat) (index : Z) (t : ptree) : outcome (list (Z * list Z)) :=
    match n with
    | O => Ok []
    | S n' =>
        proof_items <- make_node t depth index ;;
        x <- py_get proof_items (index mod pt_width t) ;;
        rest <- proof_levels n' (S depth) (index / pt_width t) t ;;
        Ok ((index mod pt_width t, py_remove proof_items x) :: rest)
    end.
  (** proof, merkletree.py:163-177: the leaf, and the pairs of address and path *)
  Definition proof (t : ptree) (index : Z) : outcome (Z * list (Z * list Z)) :=
    leaf <- get_item t index ;;
    _ <- orequire (index <? pt_cur t) ;;
    steps <- proof_levels (pt_depth t) 0 index t ;;
    Ok (leaf, steps).

  (** the loop of MerkleProof.verify, merkletree.py:14-20 *)
  Fixpoint verify_steps (depth : nat) (item : Z) (steps : list (Z * list Z)) : outcome Z :=
    match steps with
    | [] => Ok item
    | (index, pf) :: r =>
        item' <- hash_node (Z.of_nat depth) (py_insert pf index item) ;; verify_steps (S depth) item' r
    end.
  Definition proof_verify (leaf : Z) (steps : list (Z * list Z)) (root : Z) : outcome bool :=
    item <- verify_steps 0 leaf steps ;; Ok (root =? item).

  (** root, merkletree.py:196-200; None is Throw here *)
  Definition root (t : ptree) : outcome Z :=
    if pt_cur t =? 0 then Throw
    else row <- py_get (pt_leaves t) (Z.of_nat (pt_depth t)) ;; py_get row 0.
End Tree.
