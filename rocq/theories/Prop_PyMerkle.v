(** Property theorems C106-C112: the Python Merkle tree and MiMC, /repo/ethsnarks/merkletree.py and
    /repo/ethsnarks/mimc/permutation.py.  Proofs are in P_PyMerkle.v, P_PyMerkle2.v, Q_PyMerkle.v, P_PyIVs.v and
    Q_PyMimc.v.

    Vocabulary (Spec_PyMerkle.v): [dims w D n] are arguments of the constructor that it accepts, with the depth
    it computes; [hasher_is] says which functions the hasher object computes; [op] is an append or an update,
    [list_after] the list of leaves after a history, [built] the tree object after it; [wnode] is the node of the
    w-ary tree over a list of leaves; [children], [claimed], [position], [shaped], [w_collision], [w_filler_hit]
    are as in that file. *)
From Coq Require Import List ZArith Bool Arith Lia.
From Verif Require Import Primes Field Base M_Evm Spec_Keccak Spec_Mimc M_SolMimc M_SolMerkle Spec_SolMerkle Q_SolMerkle2
  M_PyMerkle Spec_PyMerkle Q_PyMerkle P_PyIVs Q_PyMimc.
Import ListNotations.
Local Open Scope nat_scope.

(** ** C106: the tree.  For every hasher, width, size and history of appends and updates the root is the root of
    the w-ary tree over the current leaves, and the leaves read back.  An append gives the number of leaves
    before as its index; it fails exactly for a full tree or a leaf outside of the field. *)
Theorem C106_tree : forall hash_node unique H fill w D n_items ops,
  dims w D n_items -> hasher_is hash_node unique H fill w D -> allowed n_items [] ops ->
  let ls := list_after [] ops in
  exists t, built hash_node unique n_items (Z.of_nat w) ops t /\
    (ls = [] -> root t = Throw) /\
    (ls <> [] -> root t = Ok (wnode H fill w ls D 0)) /\
    (forall i, i < length ls -> get_item t (Z.of_nat i) = Ok (nth i ls 0%Z)).
Proof. exact py_tree_lemma. Qed.
Print Assumptions C106_tree.
Theorem C106_append : forall hash_node unique H fill w D n_items ops t x,
  dims w D n_items -> hasher_is hash_node unique H fill w D -> allowed n_items [] ops ->
  built hash_node unique n_items (Z.of_nat w) ops t ->
  let ls := list_after [] ops in
  ((Z.of_nat (length ls) < n_items)%Z -> (0 <= x < p_mod)%Z ->
     exists t', append hash_node unique t x = Ok (t', Z.of_nat (length ls)) /\ root t' = Ok (wnode H fill w (ls ++ [x]) D 0)) /\
  ((n_items <= Z.of_nat (length ls))%Z \/ ~ (0 <= x < p_mod)%Z -> append hash_node unique t x = Throw).
Proof. exact py_append_lemma. Qed.
Print Assumptions C106_append.
Example C106_case : dims 3 2 9 /\ hasher_is toy_hash toy_unique toy_H toy_fill 3 2 /\
  let ops := [Add 1; Add 2; Put 0 5; Add 3; Add 4]%Z in
  allowed 9 [] ops /\ list_after [] ops = [5; 2; 3; 4]%Z /\
  wnode toy_H toy_fill 3 (list_after [] ops) 1 0 = 7005002003%Z /\ wnode toy_H toy_fill 3 (list_after [] ops) 1 1 = 7004904905%Z /\
  wnode toy_H toy_fill 3 (list_after [] ops) 1 2 = 902%Z.
Proof.
  split; [repeat split; try discriminate; lia|]. split; [apply toy_is|]. cbv zeta.
  split; [cbn [allowed app length firstn skipn]; repeat split; try discriminate; lia|].
  split; [reflexivity|]. split; [reflexivity|]. split; reflexivity.
Qed.

(** ** C107: the tree's own proofs verify.  Partial: for every width when at each level the item proved has no
    earlier equal sibling with a different item in between, and always for width 2.  REFUTED for width 4: with
    leaves A, B, A, C the proof of the third does not verify, for every hash that separates the two lists. *)
Theorem C107_proof_verifies_partial : forall hash_node unique H fill w D n_items ops t i,
  dims w D n_items -> hasher_is hash_node unique H fill w D -> allowed n_items [] ops ->
  built hash_node unique n_items (Z.of_nat w) ops t ->
  let ls := list_after [] ops in
  i < length ls -> i < w ^ D ->
  (forall d, d < D -> no_gap (children H fill w ls d (i / w ^ d)) ((i / w ^ d) mod w)) ->
  exists steps r, root t = Ok r /\ proof unique t (Z.of_nat i) = Ok (nth i ls 0%Z, z_steps steps) /\
    length steps = D /\ shaped w steps /\ proof_verify hash_node (nth i ls 0%Z) (z_steps steps) r = Ok true.
Proof. exact py_proof_lemma. Qed.
Print Assumptions C107_proof_verifies_partial.
Theorem C107_width2 : forall hash_node unique H fill D n_items ops t i,
  dims 2 D n_items -> hasher_is hash_node unique H fill 2 D -> allowed n_items [] ops ->
  built hash_node unique n_items 2 ops t ->
  let ls := list_after [] ops in
  i < length ls -> i < 2 ^ D ->
  exists steps r, root t = Ok r /\ proof unique t (Z.of_nat i) = Ok (nth i ls 0%Z, z_steps steps) /\
    length steps = D /\ shaped 2 steps /\ proof_verify hash_node (nth i ls 0%Z) (z_steps steps) r = Ok true.
Proof. exact py_proof2_lemma. Qed.
Print Assumptions C107_width2.
Theorem C107_duplicate_refuted : forall hash_node unique H fill,
  hasher_is hash_node unique H fill 4 1 -> H 0 [2; 1; 1; 3]%Z <> H 0 [1; 2; 1; 3]%Z ->
  let ops := [Add 1%Z; Add 2%Z; Add 1%Z; Add 3%Z] in
  exists t r steps, built hash_node unique 4 4 ops t /\ root t = Ok r /\
    proof unique t 2 = Ok (nth 2 (list_after [] ops) 0%Z, steps) /\
    proof_verify hash_node (nth 2 (list_after [] ops) 0%Z) steps r = Ok false.
Proof. exact py_gap_refuted_lemma. Qed.
Print Assumptions C107_duplicate_refuted.
Example C107_case : dims 4 2 16 /\ hasher_is toy_hash toy_unique toy_H toy_fill 4 2 /\
  let ops := [Add 1; Add 2; Add 2; Add 3; Add 4]%Z in
  allowed 16 [] ops /\ 2 < length (list_after [] ops) /\ 2 < 4 ^ 2 /\
  (forall d, d < 2 -> no_gap (children toy_H toy_fill 4 (list_after [] ops) d (2 / 4 ^ d)) ((2 / 4 ^ d) mod 4)) /\
  dims 2 3 8 /\ hasher_is toy_hash toy_unique toy_H toy_fill 2 3 /\
  hasher_is toy_hash toy_unique toy_H toy_fill 4 1 /\ toy_H 0 [2; 1; 1; 3]%Z <> toy_H 0 [1; 2; 1; 3]%Z.
Proof.
  split; [repeat split; try discriminate; cbn; lia|]. split; [apply toy_is|]. cbv zeta.
  split; [cbn [allowed app length]; repeat split; try discriminate; lia|]. split; [cbn; lia|]. split; [cbn; lia|].
  split.
  { intros [|[|d]] Hd; [| |lia].
    - cbn. intros j k J E. assert (j = 0) as -> by lia. discriminate E.
    - cbn. intros j k J. lia. }
  split; [repeat split; try discriminate; cbn; lia|]. split; [apply toy_is|]. split; [apply toy_is|discriminate].
Qed.

(** ** C108: update replaces one leaf.  For every existing position the root becomes that of the tree with the
    leaf replaced; positions at or beyond the number of leaves, and leaves outside of the field, are refused.
    REFUTED for negative indices, which are neither refused nor right: after tree\[-1\] = x with three leaves the
    leaf is stored, but the root is another and the tree's own proof of the leaf does not verify. *)
Theorem C108_update : forall hash_node unique H fill w D n_items ops t n x,
  dims w D n_items -> hasher_is hash_node unique H fill w D -> allowed n_items [] ops ->
  built hash_node unique n_items (Z.of_nat w) ops t ->
  let ls := list_after [] ops in
  (n < length ls -> (0 <= x < p_mod)%Z ->
     exists t', update hash_node unique t (Z.of_nat n) x = Ok t' /\
       root t' = Ok (wnode H fill w (firstn n ls ++ x :: skipn (S n) ls) D 0)) /\
  (length ls <= n \/ ~ (0 <= x < p_mod)%Z -> update hash_node unique t (Z.of_nat n) x = Throw).
Proof. exact py_update_lemma. Qed.
Print Assumptions C108_update.
Theorem C108_negative_refuted : exists hash_node unique H fill ops t t' x r steps,
  hasher_is hash_node unique H fill 2 2 /\ allowed 4 [] ops /\ built hash_node unique 4 2 ops t /\
  let ls := list_after [] ops in let last := pred (length ls) in
  update hash_node unique t (-1) x = Ok t' /\ get_item t' (Z.of_nat last) = Ok x /\ root t' = Ok r /\
  r <> wnode H fill 2 (firstn last ls ++ [x]) 2 0 /\
  proof unique t' (Z.of_nat last) = Ok (x, steps) /\ proof_verify hash_node x steps r = Ok false.
Proof. exact py_negative_refuted_lemma. Qed.
Print Assumptions C108_negative_refuted.
Example C108_case : let ops := [Add 1; Add 2; Add 3]%Z in dims 2 2 4 /\ allowed 4 [] ops /\
  hasher_is toy_hash toy_unique toy_H toy_fill 2 2 /\ 2 < length (list_after [] ops) /\
  wnode toy_H toy_fill 2 (firstn 2 (list_after [] ops) ++ 8%Z :: skipn 3 (list_after [] ops)) 1 1 = 7008903%Z.
Proof.
  cbv zeta. split; [repeat split; try discriminate; cbn; lia|]. split; [cbn [allowed app length]; repeat split; try discriminate; lia|].
  split; [apply toy_is|]. split; [cbn; lia|]. reflexivity.
Qed.

(** ** C109: the root commits to every leaf.  Partial: two histories with equally many leaves and the same root
    agree on the first w^D leaves, or exhibit a collision of the hash.  REFUTED when the size is a multiple of the
    width but not a power of it: for a tree of six items of width 2 the fifth leaf is accepted and stored, and
    the root is that of the first four, whatever the fifth.  In general the root depends on the first w^D
    leaves only. *)
Theorem C109_binding_partial : forall hash_node unique H fill w D n_items ops ops' t t' r,
  dims w D n_items -> hasher_is hash_node unique H fill w D -> allowed n_items [] ops -> allowed n_items [] ops' ->
  built hash_node unique n_items (Z.of_nat w) ops t -> built hash_node unique n_items (Z.of_nat w) ops' t' ->
  let ls := list_after [] ops in let ls' := list_after [] ops' in
  root t = Ok r -> root t' = Ok r -> length ls = length ls' ->
  firstn (w ^ D) ls = firstn (w ^ D) ls' \/
  (exists d i, d < D /\ children H fill w ls d i <> children H fill w ls' d i /\
     H d (children H fill w ls d i) = H d (children H fill w ls' d i)).
Proof. exact py_binding_lemma. Qed.
Print Assumptions C109_binding_partial.
Theorem C109_uncovered_refuted : forall hash_node unique H fill, hasher_is hash_node unique H fill 2 2 ->
  let ops := fun x => [Add 1; Add 2; Add 3; Add 4; Add x]%Z in
  (forall x, (0 <= x < p_mod)%Z -> exists t, built hash_node unique 6 2 (ops x) t /\ get_item t 4 = Ok x /\
     root t = Ok (wnode H fill 2 [1; 2; 3; 4]%Z 2 0)).
Proof. exact py_uncovered_refuted_lemma. Qed.
Print Assumptions C109_uncovered_refuted.
Theorem C109_prefix_only : forall hash_node unique H fill w D n_items ops ops' t t',
  dims w D n_items -> hasher_is hash_node unique H fill w D -> allowed n_items [] ops -> allowed n_items [] ops' ->
  built hash_node unique n_items (Z.of_nat w) ops t -> built hash_node unique n_items (Z.of_nat w) ops' t' ->
  let ls := list_after [] ops in let ls' := list_after [] ops' in
  firstn (w ^ D) ls = firstn (w ^ D) ls' -> root t = root t'.
Proof. exact py_prefix_lemma. Qed.
Print Assumptions C109_prefix_only.
Example C109_case : dims 2 2 6 /\ allowed 6 [] [Add 1; Add 2; Add 3; Add 4; Add 5; Add 6]%Z /\
  dims 2 2 4 /\ hasher_is toy_hash toy_unique toy_H toy_fill 2 2 /\
  firstn (2 ^ 2) (list_after [] [Add 1; Add 2; Add 3; Add 4; Add 5]%Z) = firstn (2 ^ 2) (list_after [] [Add 1; Add 2; Add 3; Add 4; Add 9]%Z).
Proof.
  split; [repeat split; try discriminate; cbn; lia|]. split; [cbn [allowed app length]; repeat split; try discriminate; lia|].
  split; [repeat split; try discriminate; cbn; lia|]. split; [apply toy_is|]. reflexivity.
Qed.

(** ** C110: only leaves verify.  Partial: a proof with one step per level, each with an address below the width
    and all the other children, verifies only the leaf at the position that its addresses spell, or it exhibits
    a collision of the hash with a node of the tree, or runs into the filler value of an empty position.
    REFUTED without the condition on the length: the proof without any step verifies the root itself, and for a
    hasher that ignores the level, as the Poseidon one, the tail of every proof verifies an inner node. *)
Theorem C110_sound_partial : forall hash_node unique H fill w D n_items ops t r leaf steps,
  dims w D n_items -> hasher_is hash_node unique H fill w D -> allowed n_items [] ops ->
  built hash_node unique n_items (Z.of_nat w) ops t ->
  let ls := list_after [] ops in
  root t = Ok r -> shaped w steps -> length steps = D -> proof_verify hash_node leaf (z_steps steps) r = Ok true ->
  (position w steps < length ls /\ nth (position w steps) ls 0%Z = leaf) \/
  (exists d, d < D /\ w_collision H fill w ls leaf steps d) \/ (exists d, d < D /\ w_filler_hit H fill w ls leaf steps d).
Proof. exact py_sound_lemma. Qed.
Print Assumptions C110_sound_partial.
Theorem C110_empty_refuted : forall hash_node r, proof_verify hash_node r [] r = Ok true.
Proof. exact py_short_refuted_lemma. Qed.
Print Assumptions C110_empty_refuted.
Theorem C110_inner_refuted : forall hash_node unique H fill w D n_items ops t i r,
  (forall d args, H d args = H 0 args) ->
  dims w (S D) n_items -> hasher_is hash_node unique H fill w (S D) -> allowed n_items [] ops ->
  built hash_node unique n_items (Z.of_nat w) ops t -> root t = Ok r ->
  let ls := list_after [] ops in
  i < length ls -> i < w ^ S D ->
  (forall d, d < S D -> no_gap (children H fill w ls d (i / w ^ d)) ((i / w ^ d) mod w)) ->
  exists steps, proof unique t (Z.of_nat i) = Ok (nth i ls 0%Z, z_steps steps) /\
    proof_verify hash_node (wnode H fill w ls 1 (i / w)) (z_steps (tl steps)) r = Ok true.
Proof. exact py_inner_refuted_lemma. Qed.
Print Assumptions C110_inner_refuted.
Example C110_case : let steps := [(1, [1]%Z); (0, [7003902]%Z)] in
  shaped 2 steps /\ length steps = 2 /\ position 2 steps = 1 /\ claimed toy_H 2 steps 0 = [1; 2]%Z /\
  (forall d args, toy_H d args = toy_H 0 args).
Proof. cbv zeta. split; [repeat constructor|]. split; [reflexivity|]. split; [reflexivity|]. split; reflexivity. Qed.

(** ** C111: MiMC in Python.  For all integers mimc is the circuit's MiMC of the residues, with the same round
    constants, for every seed, exponent and number of rounds above two (two or fewer raise an exception);
    mimc_hash is the Miyaguchi-Preneel chain, and the contract's hash on its domain; mimc_hash_md is the
    Merkle-Damgard chain. *)
Theorem C111_mimc : forall seed e R x k, (2 < R)%nat -> (0 <= e)%Z ->
  py_mimc seed p_mod e R x k = Ok (fval (mimc_spec e (constants_loop R (keccak256 seed)) (Fof x) (Fof k))).
Proof. exact py_mimc_lemma. Qed.
Print Assumptions C111_mimc.
Theorem C111_default : forall x k,
  py_mimc DEFAULT_SEED p_mod DEFAULT_EXPONENT DEFAULT_ROUNDS x k = Ok (fval (mimc_spec 7 (mimc_constants 91) (Fof x) (Fof k))) /\
  py_mimc DEFAULT_SEED p_mod DEFAULT_EXPONENT DEFAULT_ROUNDS x k = Ok (perm_MiMCpe7 x k).
Proof. exact py_default_lemma. Qed.
Print Assumptions C111_default.
Theorem C111_hash : forall ms k, (0 <= k < p_mod)%Z \/ ms <> [] ->
  py_mimc_hash DEFAULT_SEED p_mod DEFAULT_EXPONENT DEFAULT_ROUNDS ms k =
    Ok (fval (mp_spec (mimc_spec 7 (mimc_constants 91)) (Fof k) (map Fof ms))).
Proof. exact py_hash_lemma. Qed.
Print Assumptions C111_hash.
Theorem C111_hash_contract : forall ms k, (0 <= k < p_mod)%Z -> Forall (fun x => 0 <= x < 3 * p_mod)%Z ms ->
  py_mimc_hash DEFAULT_SEED p_mod DEFAULT_EXPONENT DEFAULT_ROUNDS ms k = Ok (MiMCpe7_mp ms k).
Proof. exact py_hash_contract_lemma. Qed.
Print Assumptions C111_hash_contract.
Theorem C111_hash_md : forall ms k, (0 <= k < p_mod)%Z \/ ms <> [] ->
  py_mimc_hash_md DEFAULT_SEED p_mod DEFAULT_EXPONENT DEFAULT_ROUNDS ms k =
    Ok (fval (fold_left (fun h m => mimc_spec 7 (mimc_constants 91) m h) (map Fof ms) (Fof k))).
Proof. exact py_md_lemma. Qed.
Print Assumptions C111_hash_md.
Example C111_case : (2 < 110) /\ (0 <= 5)%Z /\ ([(-3)%Z; (2 * p_mod + 1)%Z] <> []) /\
  Forall (fun x => 0 <= x < 3 * p_mod)%Z [7; p_mod + 7; 3 * p_mod - 1; 0]%Z.
Proof.
  split; [lia|]. split; [discriminate|]. split; [discriminate|].
  repeat (apply Forall_cons; [split; [discriminate|reflexivity]|]). apply Forall_nil.
Qed.

Local Open Scope Z_scope.
(** ** C112: the Python tree and the contract.  The initialisation vectors that merkletree.py derives with SHA-256
    are the 29 literals of the contract (and by C96 of the circuit); for the same leaves, not zero, both trees
    have the same root.  [no_zero_node] is the hypothesis of C95, on the contract's use of zero. *)
Theorem C112_ivs : py_IVs sha256_num 29 = sol_level_IVs.
Proof. exact py_IVs_lemma. Qed.
Print Assumptions C112_ivs.
Theorem C112_same_root : forall ls, ls <> [] -> Forall (fun x => 0 < x < p_mod) ls ->
  no_zero_node HashImpl (empty_value sha256_num) sol_level_IVs ls -> Z.of_nat (length ls) <= 2 ^ 29 ->
  exists t tc r, built (mimc_hash_node sha256_num 29) (py_unique sha256_num) (2 ^ 29) 2 (map Add ls) t /\ root t = Ok r /\
    inserts (Insert HashImpl sha256_num) tree_empty ls = Ok tc /\ GetRoot tc = Ok r.
Proof. exact contract_tree_lemma. Qed.
Print Assumptions C112_same_root.
Example C112_case : [7; 8] <> [] /\ Forall (fun x => 0 < x < p_mod) [7; 8] /\ Z.of_nat (length [7; 8]) <= 2 ^ 29 /\
  no_zero_node HashImpl (empty_value sha256_num) sol_level_IVs [7; 8].
Proof.
  split; [discriminate|]. split; [repeat (apply Forall_cons; [split; reflexivity|]); apply Forall_nil|]. split; [discriminate|].
  intros d i Hd Hi Hb He. exfalso. cbn [length] in *. change (Z.of_nat 2) with 2 in *.
  assert (2 <= 2 ^ Z.of_nat d) as P by (change 2 with (2 ^ 1) at 1; apply Z.pow_le_mono_r; lia).
  assert (i = 0) as -> by nia. specialize (He eq_refl). lia.
Qed.
