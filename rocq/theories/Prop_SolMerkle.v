(** Property theorems C92-C98: the MiMC and Merkle tree contracts, /repo/contracts/{MiMCpe7_generated,
    MiMCpe5_generated,MiMC_permutation,MiMC_hash,MerkleTree}.sol, against the circuit.  Proofs are in P_SolMimc.v,
    Q_SolMimc.v, P_SolMerkle.v, P_SolMerkle2.v, Q_SolMerkle.v and Q_SolMerkle2.v.

    Vocabulary: [mimc_constants n] are the circuit's round constants (M_SolMimc.v, the model of mimc.hpp);
    [mimc_spec], [mp_spec], [merkle_spec] are MiMC, its Miyaguchi-Preneel chain and the value of a Merkle path
    over field elements (Spec_Mimc.v, Spec_Merkle.v); [keccak256] is Spec_Keccak.v; [tnode], [sides],
    [path_collision], [filler_hit], [no_zero_node], [inserts] and [empty_value] are in Spec_SolMerkle.v. *)
From Coq Require Import List ZArith Bool Lia.
From Verif Require Import Primes Field Base R1CS Gadget M_Evm Spec_Keccak Spec_Mimc Spec_Merkle M_Mimc M_Merkle P_Merkle
  M_SolMimc P_SolMimc Q_SolMimc M_SolMerkle Spec_SolMerkle P_SolMerkle P_SolMerkle2 Q_SolMerkle Q_SolMerkle2.
Import ListNotations.
Local Open Scope Z_scope.

(** ** C92: the circuit's round constants are the chain of Keccak digests of "mimc", modulo the field prime,
    and the literals of the generated contracts are the same numbers, reduced. *)
Theorem C92_circuit_constants : forall n, length (mimc_constants n) = n /\ forall i, (i < n)%nat ->
  nth_error (mimc_constants n) i = Some (Fof (be_value (Nat.iter (S i) keccak256 (keccak256 MIMC_SEED)))).
Proof. exact constants_lemma. Qed.
Print Assumptions C92_circuit_constants.
Theorem C92_generated_constants : map Fof pe7_literals = mimc_constants 91 /\ map Fof pe5_literals = mimc_constants 110 /\
  Forall (fun c => 0 <= c < p_mod)%Z (pe7_literals ++ pe5_literals).
Proof. exact literals_lemma. Qed.
Print Assumptions C92_generated_constants.
Example C92_case : length pe7_literals = 91%nat /\ length pe5_literals = 110%nat /\ (90 < 91)%nat /\
  nth 0 pe7_literals 0 = 0x2e2ebbb178296b63d88ec198f0976ad98bc1d4eb0d921ddd2eb86cb7e70a98e5.
Proof. split; [reflexivity|]. split; [reflexivity|]. split; [repeat constructor|reflexivity]. Qed.

(** ** C93: the ciphers.  MiMC_permutation is the circuit's cipher for all words.  The generated contracts
    are REFUTED for all words: their additions wrap around at 2^256.  They agree as long as the sums stay
    below 2^256, in particular for reduced inputs, and differ whenever x + k passes 2^256. *)
Theorem C93_permutation_e7 : forall x k, perm_MiMCpe7 x k = fval (mimc_spec 7 (mimc_constants 91) (Fof x) (Fof k)).
Proof. exact perm7_lemma. Qed.
Print Assumptions C93_permutation_e7.
Theorem C93_permutation_e5 : forall x k, perm_MiMCpe5 x k = fval (mimc_spec 5 (mimc_constants 110) (Fof x) (Fof k)).
Proof. exact perm5_lemma. Qed.
Print Assumptions C93_permutation_e5.
Theorem C93_generated_refuted : exists x k, is_word x /\ is_word k /\
  gen_MiMCpe7 x k <> fval (mimc_spec 7 (mimc_constants 91) (Fof x) (Fof k)) /\
  gen_MiMCpe7 x k <> perm_MiMCpe7 x k.
Proof. exact gen_refuted_lemma. Qed.
Print Assumptions C93_generated_refuted.
Theorem C93_generated_wraps_e7 : forall x k, (0 <= x < 2 ^ 256)%Z -> (0 <= k)%Z -> (2 * p_mod + k <= 2 ^ 256)%Z -> (2 ^ 256 <= x + k)%Z ->
  gen_MiMCpe7 x k = fval (mimc_spec 7 (mimc_constants 91) (Fof (x - 2 ^ 256)) (Fof k)) /\
  gen_MiMCpe7 x k <> fval (mimc_spec 7 (mimc_constants 91) (Fof x) (Fof k)).
Proof. exact gen7_wraps_lemma. Qed.
Print Assumptions C93_generated_wraps_e7.
Theorem C93_generated_wraps_e5 : forall x k, (0 <= x < 2 ^ 256)%Z -> (0 <= k)%Z -> (2 * p_mod + k <= 2 ^ 256)%Z -> (2 ^ 256 <= x + k)%Z ->
  gen_MiMCpe5 x k = fval (mimc_spec 5 (mimc_constants 110) (Fof (x - 2 ^ 256)) (Fof k)) /\
  gen_MiMCpe5 x k <> fval (mimc_spec 5 (mimc_constants 110) (Fof x) (Fof k)).
Proof. exact gen5_wraps_lemma. Qed.
Print Assumptions C93_generated_wraps_e5.
Theorem C93_generated_e7_partial : forall x k, (0 <= x)%Z -> (0 <= k)%Z -> (x + p_mod + k <= 2 ^ 256)%Z -> (2 * p_mod + k <= 2 ^ 256)%Z ->
  gen_MiMCpe7 x k = fval (mimc_spec 7 (mimc_constants 91) (Fof x) (Fof k)).
Proof. exact gen7_lemma. Qed.
Print Assumptions C93_generated_e7_partial.
Theorem C93_generated_e5_partial : forall x k, (0 <= x)%Z -> (0 <= k)%Z -> (x + p_mod + k <= 2 ^ 256)%Z -> (2 * p_mod + k <= 2 ^ 256)%Z ->
  gen_MiMCpe5 x k = fval (mimc_spec 5 (mimc_constants 110) (Fof x) (Fof k)).
Proof. exact gen5_lemma. Qed.
Print Assumptions C93_generated_e5_partial.
Example C93_case : (0 <= p_mod - 1) /\ (p_mod - 1) + p_mod + (p_mod - 1) <= 2 ^ 256 /\ 2 * p_mod + (p_mod - 1) <= 2 ^ 256 /\
  0 <= 2 ^ 256 - 5 < 2 ^ 256 /\ 2 ^ 256 <= (2 ^ 256 - 5) + p_mod.
Proof. repeat split; discriminate. Qed.

(** ** C94: the hashes.  For every message whose elements are below 3p and reduced key, of any length,
    MiMCpe7_mp is the Miyaguchi-Preneel chain of the circuit (and what mimc_hash returns), and MiMCpe7_md is
    the Merkle-Damgard chain.  REFUTED: the hash as a function of words separates x and x + p. *)
Theorem C94_hash_mp : forall ms k, (0 <= k < p_mod)%Z -> Forall (fun x => 0 <= x < 3 * p_mod)%Z ms ->
  MiMCpe7_mp ms k = fval (mp_spec (mimc_spec 7 (mimc_constants 91)) (Fof k) (map Fof ms)).
Proof. exact mp_final. Qed.
Print Assumptions C94_hash_mp.
Theorem C94_hash_md : forall ms k, (0 <= k < p_mod)%Z -> Forall (fun x => 0 <= x < 3 * p_mod)%Z ms ->
  MiMCpe7_md ms k = fval (fold_left (fun h m => mimc_spec 7 (mimc_constants 91) m h) (map Fof ms) (Fof k)).
Proof. exact md_final. Qed.
Print Assumptions C94_hash_md.
Theorem C94_hash_matches_native : forall ms k, ms <> [] -> (0 <= k < p_mod)%Z -> Forall (fun x => 0 <= x < 3 * p_mod)%Z ms ->
  mimc_hash_native (mimc_constants 91) (map Fof ms) (Fof k) = Ok (Fof (MiMCpe7_mp ms k)).
Proof. exact mp_native_lemma. Qed.
Print Assumptions C94_hash_matches_native.
Theorem C94_hash_alias_refuted : exists ms ms' k, ms <> ms' /\ (0 <= k < p_mod)%Z /\ Forall is_word ms /\ Forall is_word ms' /\
  length ms = length ms' /\ MiMCpe7_mp ms k = MiMCpe7_mp ms' k.
Proof. exact mp_alias_lemma. Qed.
Print Assumptions C94_hash_alias_refuted.
Example C94_case : (0 <= p_mod - 1 < p_mod) /\ Forall (fun x => 0 <= x < 3 * p_mod) [7; p_mod + 7; 3 * p_mod - 1; 0].
Proof. split; [split; [discriminate|reflexivity]|]. repeat (constructor; [split; [discriminate|reflexivity]|]). constructor. Qed.

(** ** C95: the tree.  Insert fails exactly for the zero leaf and the full tree.  After any sequence of
    insertions the root, and what Insert returned, is the root of the tree over the inserted leaves, and the
    contract's own proof for every inserted leaf verifies.  For any two-to-one hash; the hypothesis
    [no_zero_node] excludes hashes equal to zero, which the contract takes for empty positions. *)
Theorem C95_insert_accepts : forall H sha t x, 0 <= t_cur t ->
  (x <> 0 -> t_cur t < 2 ^ 29 -> exists t' root, Insert H sha t x = Ok (t', root, t_cur t) /\ t_cur t' = t_cur t + 1) /\
  (x = 0 \/ 2 ^ 29 <= t_cur t -> Insert H sha t x = Throw).
Proof. exact insert_total_lemma. Qed.
Print Assumptions C95_insert_accepts.
Theorem C95_insert_root : forall H sha ls x,
  let node := tnode H (empty_value sha) sol_level_IVs in
  Forall (fun l => l <> 0) (ls ++ [x]) -> no_zero_node H (empty_value sha) sol_level_IVs (ls ++ [x]) ->
  Z.of_nat (length ls) < 2 ^ 29 ->
  exists t t', inserts (Insert H sha) tree_empty ls = Ok t /\
    Insert H sha t x = Ok (t', node (ls ++ [x]) 29%nat 0, Z.of_nat (length ls)) /\
    GetRoot t' = Ok (node (ls ++ [x]) 29%nat 0).
Proof. exact tree_insert_lemma. Qed.
Print Assumptions C95_insert_root.
Theorem C95_proof_verifies : forall H sha ls i,
  let node := tnode H (empty_value sha) sol_level_IVs in
  Forall (fun l => l <> 0) ls -> no_zero_node H (empty_value sha) sol_level_IVs ls ->
  Z.of_nat (length ls) <= 2 ^ 29 -> 0 <= i < Z.of_nat (length ls) ->
  exists t path, inserts (Insert H sha) tree_empty ls = Ok t /\ GetRoot t = Ok (node ls 29%nat 0) /\
    GetProof sha t i = Ok (path, sides 29 i) /\ length path = 29%nat /\
    VerifyPath H t (nth (Z.to_nat i) ls 0) path (sides 29 i) = Ok true.
Proof. exact tree_proof_lemma. Qed.
Print Assumptions C95_proof_verifies.
Example C95_case : let H := fun l r iv => 3 * l + 5 * r + 1 in let sha := fun _ => 5 in
  Forall (fun l => l <> 0) [7; 8; 9] /\ no_zero_node H (empty_value sha) sol_level_IVs [7; 8; 9] /\
  Z.of_nat (length [7; 8; 9]) <= 2 ^ 29 /\ 0 <= 2 < Z.of_nat (length [7; 8; 9]) /\
  tnode H (empty_value sha) sol_level_IVs [7; 8; 9] 1 0 = 62 /\ tnode H (empty_value sha) sol_level_IVs [7; 8; 9] 0 3 = 5 /\
  sides 29 2 = false :: true :: repeat false 27.
Proof.
  split; [repeat (constructor; [discriminate|]); constructor|].
  split; [apply no_zero_three; discriminate|]. split; [discriminate|]. split; [split; [discriminate|reflexivity]|].
  split; [reflexivity|]. split; reflexivity.
Qed.

(** ** C96: the contract computes Merkle paths as the circuit specifies them, with the same level IVs,
    for values below 3p. *)
Theorem C96_contract_path : forall leaf path bits, length path = 29%nat -> length bits = 29%nat ->
  0 <= leaf < 3 * p_mod -> Forall (fun x => 0 <= x < 3 * p_mod) path ->
  ComputePath HashImpl leaf path bits =
    Ok (fval (merkle_spec (mp_spec (mimc_spec 7 (mimc_constants 91))) cpp_level_IVs (map Fof path) bits (Fof leaf))).
Proof. exact compute_spec_lemma. Qed.
Print Assumptions C96_contract_path.
Theorem C96_level_ivs : map Fof sol_level_IVs = cpp_level_IVs /\ length sol_level_IVs = 29%nat /\
  Forall (fun c => 0 <= c < p_mod) sol_level_IVs.
Proof. exact ivs_lemma. Qed.
Print Assumptions C96_level_ivs.
Example C96_case : length (repeat 7 29) = 29%nat /\ length (repeat true 29) = 29%nat /\ 0 <= p_mod + 1 < 3 * p_mod /\
  Forall (fun x => 0 <= x < 3 * p_mod) (repeat 7 29).
Proof.
  split; [reflexivity|]. split; [reflexivity|]. split; [split; [discriminate|reflexivity]|].
  apply Forall_forall. intros x Hx. apply repeat_spec in Hx. subst x. split; [discriminate|reflexivity].
Qed.

(** ** C97: only inserted leaves verify.  REFUTED: the filler value of the position after an odd number of
    leaves verifies, and so does an inserted leaf plus the field prime.  Partial: a verified leaf is the inserted
    leaf at that address up to the prime, unless the path exhibits a collision of the hash with a node of the
    tree or runs into the filler value of an empty position. *)
Theorem C97_only_inserted_refuted : forall sha, exists ls t leaf path bits, Forall (fun l => 0 < l < p_mod) ls /\
  inserts (Insert HashImpl sha) tree_empty ls = Ok t /\ length path = 29%nat /\ length bits = 29%nat /\
  0 <= leaf < p_mod /\ VerifyPath HashImpl t leaf path bits = Ok true /\ ~ In leaf ls.
Proof. exact only_inserted_refuted_lemma. Qed.
Print Assumptions C97_only_inserted_refuted.
Theorem C97_filler_verifies : forall H sha ls, Forall (fun l => l <> 0) ls -> no_zero_node H (empty_value sha) sol_level_IVs ls ->
  Z.odd (Z.of_nat (length ls)) = true -> Z.of_nat (length ls) < 2 ^ 29 ->
  exists t path, inserts (Insert H sha) tree_empty ls = Ok t /\ length path = 29%nat /\
    VerifyPath H t (empty_value sha 0 (Z.of_nat (length ls))) path (sides 29 (Z.of_nat (length ls))) = Ok true.
Proof. exact filler_verifies_lemma. Qed.
Print Assumptions C97_filler_verifies.
Theorem C97_alias_verifies : forall sha ls i, Forall (fun l => 0 < l < p_mod) ls ->
  no_zero_node HashImpl (empty_value sha) sol_level_IVs ls -> Z.of_nat (length ls) <= 2 ^ 29 -> 0 <= i < Z.of_nat (length ls) ->
  exists t path, inserts (Insert HashImpl sha) tree_empty ls = Ok t /\ length path = 29%nat /\
    let leaf := nth (Z.to_nat i) ls 0 + p_mod in
    is_word leaf /\ ~ In leaf ls /\ VerifyPath HashImpl t leaf path (sides 29 i) = Ok true.
Proof. exact alias_verifies_lemma. Qed.
Print Assumptions C97_alias_verifies.
Theorem C97_sound_partial : forall sha ls leaf path bits,
  Forall (fun l => 0 < l < p_mod) ls -> no_zero_node HashImpl (empty_value sha) sol_level_IVs ls -> ls <> [] ->
  Z.of_nat (length ls) <= 2 ^ 29 -> length path = 29%nat -> length bits = 29%nat ->
  0 <= leaf < 3 * p_mod -> Forall (fun x => 0 <= x < 3 * p_mod) path ->
  exists t i, inserts (Insert HashImpl sha) tree_empty ls = Ok t /\ 0 <= i < 2 ^ 29 /\ bits = sides 29 i /\
    (VerifyPath HashImpl t leaf path bits = Ok true ->
     let leaf' := leaf mod p_mod in let path' := map (fun x => x mod p_mod) path in
     (i < Z.of_nat (length ls) /\ leaf' = nth (Z.to_nat i) ls 0) \/
     (exists d, (d < 29)%nat /\ path_collision HashImpl (empty_value sha) sol_level_IVs ls path' leaf' i 29 d) \/
     (exists d, (d <= 29)%nat /\ filler_hit HashImpl (empty_value sha) sol_level_IVs ls path' leaf' i 29 d)).
Proof. exact tree_sound_mimc_lemma. Qed.
Print Assumptions C97_sound_partial.
Theorem C97_sound_any_hash_partial : forall H sha ls leaf path bits,
  Forall (fun l => l <> 0) ls -> no_zero_node H (empty_value sha) sol_level_IVs ls -> ls <> [] ->
  Z.of_nat (length ls) <= 2 ^ 29 -> length path = 29%nat -> length bits = 29%nat ->
  exists t i, inserts (Insert H sha) tree_empty ls = Ok t /\ 0 <= i < 2 ^ 29 /\ bits = sides 29 i /\
    (VerifyPath H t leaf path bits = Ok true ->
     (i < Z.of_nat (length ls) /\ leaf = nth (Z.to_nat i) ls 0) \/
     (exists d, (d < 29)%nat /\ path_collision H (empty_value sha) sol_level_IVs ls path leaf i 29 d) \/
     (exists d, (d <= 29)%nat /\ filler_hit H (empty_value sha) sol_level_IVs ls path leaf i 29 d)).
Proof. exact tree_sound_lemma. Qed.
Print Assumptions C97_sound_any_hash_partial.
Example C97_case : let sha := fun _ => 5 in
  Forall (fun l => 0 < l < p_mod) [7; 8; 9] /\ no_zero_node HashImpl (empty_value sha) sol_level_IVs [7; 8; 9] /\
  Z.odd (Z.of_nat (length [7; 8; 9])) = true.
Proof.
  split; [repeat (constructor; [split; reflexivity|]); constructor|]. split; [|reflexivity].
  apply no_zero_three; vm_compute; discriminate.
Qed.

(** ** C98: the circuit accepts the contract's proofs: with a leaf of the tree, the path and address bits of
    GetProof, the circuit's level IVs and the contract's root, the authenticator's witness satisfies its
    constraints. *)
Theorem C98_contract_proof_satisfies_circuit : forall sha ls i addr IVs leaf root path n s,
  Forall (fun l => 0 < l < p_mod) ls -> no_zero_node HashImpl (empty_value sha) sol_level_IVs ls ->
  Z.of_nat (length ls) <= 2 ^ 29 -> 0 <= i < Z.of_nat (length ls) ->
  length addr = 29%nat -> length IVs = 29%nat -> length path = 29%nat ->
  below n addr -> below n IVs -> below n path -> (leaf < n)%nat -> (root < n)%nat ->
  exists t proof bits r g n' cs,
    inserts (Insert HashImpl sha) tree_empty ls = Ok t /\ GetProof sha t i = Ok (proof, bits) /\ GetRoot t = Ok r /\
    mpa_new (mimc_hash_ops e7_ops (mimc_constants 91)) 29 addr IVs leaf root path n = Ok (g, n') /\
    mpa_constraints (mimc_hash_ops e7_ops (mimc_constants 91)) g = Ok cs /\
    (s leaf = Fof (nth (Z.to_nat i) ls 0) -> map s path = map Fof proof -> map s addr = map b2F bits ->
     map s IVs = cpp_level_IVs -> s root = Fof r ->
     exists s', mpa_witness (mimc_hash_ops e7_ops (mimc_constants 91)) g s = Ok s' /\ sat s' cs).
Proof. exact contract_circuit_lemma. Qed.
Print Assumptions C98_contract_proof_satisfies_circuit.
Example C98_case : let sha := fun _ => 5 in
  no_zero_node HashImpl (empty_value sha) sol_level_IVs [7; 8; 9] /\ 0 <= 1 < Z.of_nat (length [7; 8; 9]) /\
  length (var_array 1 29) = 29%nat /\ below 100 (var_array 1 29) /\ (99 < 100)%nat.
Proof.
  split; [apply C97_case|]. split; [split; [discriminate|reflexivity]|]. split; [reflexivity|].
  split; [|lia]. intros v Hv. unfold var_array in Hv. apply in_seq in Hv. lia.
Qed.
