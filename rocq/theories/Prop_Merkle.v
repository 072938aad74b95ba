(** Property theorems C06-C08, C55, C56: Merkle path gadgets.
    Specification: Spec_Merkle.v.  [hash_ok H h] (P_Merkle.v) is the contract of the
    template parameter HashT: given variables below the counter it allocates, its
    constraints force result = h iv messages and its witness satisfies them. It is
    discharged for the MiMC hash by [mimc_hash_ok]; [below n l]: all variables of l are < n. *)
From Coq Require Import List ZArith Bool Arith.
From Verif Require Import Primes Field Base R1CS R1CSFacts M_Mimc Spec_Mimc P_Mimc M_Merkle Spec_Merkle P_Merkle Q_Merkle.
Import ListNotations.
Local Open Scope F_scope.

(** ** C06 *)
Theorem C06_merkle_selector : forall input path r n, (input < n)%nat -> (path < n)%nat -> (r < n)%nat ->
  exists g, selector_new input path r n = (g, (n + 6)%nat) /\
   (forall s b, sat s (selector_constraints g) -> s r = b2F b ->
      (s (sl_left g), s (sl_right g)) = if b then (s path, s input) else (s input, s path)) /\
   (forall s b, s r = b2F b ->
      (s (sl_left g), s (sl_right g)) = (if b then (s path, s input) else (s input, s path)) ->
      exists s', sat s' (selector_constraints g) /\
        forall v, (v < n \/ n + 6 <= v)%nat \/ v = sl_left g \/ v = sl_right g -> s' v = s v) /\
   (forall s, sat (selector_witness g s) (selector_constraints g) /\ frame n (n + 6) s (selector_witness g s)).
Proof. exact selector_main. Qed.
Print Assumptions C06_merkle_selector.
Example C06_example :
  let g := fst (selector_new 1 2 3 4) in
  let s := selector_witness g (upd (upd (upd (fun _ => F0) 1 (Fof 7)) 2 (Fof 9)) 3 F1) in
  satb s (selector_constraints g) && Feqb (s (sl_left g)) (Fof 9) && Feqb (s (sl_right g)) (Fof 7) = true.
Proof. vm_compute. reflexivity. Qed.

(** ** C07 *)
Theorem C07_merkle_path_compute : forall H h depth addr IVs leaf path n, hash_ok H h ->
  (0 < depth)%nat -> length addr = depth -> (depth <= length IVs)%nat -> (depth <= length path)%nat ->
  below n addr -> below n IVs -> below n path -> (leaf < n)%nat ->
  exists g n' cs r, mpc_new H depth addr IVs leaf path n = Ok (g, n') /\
    mpc_constraints H g = Ok cs /\ mpc_result H g = Ok r /\ (n <= r < n')%nat /\
    (forall s bits, sat s cs -> map s addr = map b2F bits ->
       s r = merkle_spec h (map s IVs) (map s path) bits (s leaf)) /\
    (forall s, exists s', mpc_witness H g s = Ok s' /\ frame n n' s s' /\ sat s' cs).
Proof. exact merkle_compute_main. Qed.
Print Assumptions C07_merkle_path_compute.
Theorem C07_merkle_path_compute_mimc : forall C depth addr IVs leaf path n, C <> [] ->
  (0 < depth)%nat -> length addr = depth -> (depth <= length IVs)%nat -> (depth <= length path)%nat ->
  below n addr -> below n IVs -> below n path -> (leaf < n)%nat ->
  exists g n' cs r, mpc_new (mimc_hash_ops e7_ops C) depth addr IVs leaf path n = Ok (g, n') /\
    mpc_constraints (mimc_hash_ops e7_ops C) g = Ok cs /\ mpc_result (mimc_hash_ops e7_ops C) g = Ok r /\ (n <= r < n')%nat /\
    (forall s bits, sat s cs -> map s addr = map b2F bits ->
       s r = merkle_spec (mp_spec (mimc_spec 7 C)) (map s IVs) (map s path) bits (s leaf)) /\
    (forall s, exists s', mpc_witness (mimc_hash_ops e7_ops C) g s = Ok s' /\ frame n n' s s' /\ sat s' cs).
Proof. exact merkle_compute_mimc. Qed.
Print Assumptions C07_merkle_path_compute_mimc.
Theorem C07_merkle_path_compute_rejects : forall H depth addr IVs leaf path n,
  (depth = 0%nat \/ length addr <> depth \/ (length IVs < depth)%nat -> mpc_new H depth addr IVs leaf path n = Abort) /\
  (forall h, hash_ok H h -> (0 < depth)%nat -> length addr = depth -> (depth <= length IVs)%nat ->
     below n addr -> below n IVs -> below n path -> (leaf < n)%nat ->
     (length path < depth)%nat -> mpc_new H depth addr IVs leaf path n = UB).
Proof. exact merkle_compute_rejects. Qed.
Print Assumptions C07_merkle_path_compute_rejects.
(** the hash contract is satisfiable: MiMC meets it for every non-empty constant list *)
Theorem C07_mimc_meets_hash_contract : forall O e C, round_ok O e -> C <> [] ->
  hash_ok (mimc_hash_ops O C) (mp_spec (mimc_spec e C)).
Proof. exact mimc_hash_ok. Qed.
Print Assumptions C07_mimc_meets_hash_contract.
Example C07_example : [F1] <> [] /\ (0 < 2)%nat /\ length [1; 2]%nat = 2%nat /\ (2 <= length [3; 4; 5]%nat)%nat /\
  (2 <= length [6; 7]%nat)%nat /\ below 9 [1; 2]%nat /\ below 9 [3; 4; 5]%nat /\ below 9 [6; 7]%nat /\
  merkle_spec (mp_spec (mimc_spec 7 [F0])) [F1; F1] [F0; F1] [true; false] F1 =
  mp_spec (mimc_spec 7 [F0]) F1 [mp_spec (mimc_spec 7 [F0]) F1 [F0; F1]; F1].
Proof.
  split; [discriminate|]. split; [repeat constructor|]. split; [reflexivity|]. split; [repeat constructor|].
  split; [repeat constructor|].
  split; [|split; [|split; [|reflexivity]]]; intros v Hv; cbn [In] in Hv;
  repeat (destruct Hv as [<-|Hv]; [repeat constructor|]); contradiction.
Qed.

(** ** C08 *)
Theorem C08_merkle_authenticator : forall H h depth addr IVs leaf root path n, hash_ok H h ->
  (0 < depth)%nat -> length addr = depth -> (depth <= length IVs)%nat -> (depth <= length path)%nat ->
  below n addr -> below n IVs -> below n path -> (leaf < n)%nat -> (root < n)%nat ->
  exists g n' cs, mpa_new H depth addr IVs leaf root path n = Ok (g, n') /\ mpa_constraints H g = Ok cs /\
    (forall s bits, map s addr = map b2F bits ->
       ((exists s', (forall v, v < n -> s' v = s v)%nat /\ sat s' cs) <->
        s root = merkle_spec h (map s IVs) (map s path) bits (s leaf))) /\
    (forall s bits, map s addr = map b2F bits ->
       exists s', mpa_witness H g s = Ok s' /\ frame n n' s s' /\
         (sat s' cs <-> s root = merkle_spec h (map s IVs) (map s path) bits (s leaf)) /\
         (mpa_is_valid H g s' = Ok true <-> s root = merkle_spec h (map s IVs) (map s path) bits (s leaf))).
Proof. exact merkle_auth_main. Qed.
Print Assumptions C08_merkle_authenticator.
Theorem C08_merkle_authenticator_binding : forall H h depth addr IVs leaf root path n g n' cs s1 s2 bits, hash_ok H h ->
  below n addr -> below n IVs -> below n path -> (leaf < n)%nat -> (root < n)%nat ->
  (depth <= length path)%nat ->
  mpa_new H depth addr IVs leaf root path n = Ok (g, n') -> mpa_constraints H g = Ok cs ->
  sat s1 cs -> sat s2 cs -> map s1 addr = map b2F bits -> map s2 addr = map b2F bits -> s1 root = s2 root ->
  s1 leaf = s2 leaf \/
  exhibits_collision h (path_inputs h (map s1 IVs) (map s1 path) bits (s1 leaf))
                       (path_inputs h (map s2 IVs) (map s2 path) bits (s2 leaf)).
Proof. exact merkle_auth_binding. Qed.
Print Assumptions C08_merkle_authenticator_binding.
(** a collision is exhibited only through different inputs with equal digests: two paths
    that differ at the leaf collide at level 0 for a constant hash *)
Example C08_example : exhibits_collision (fun _ _ => F0)
  (path_inputs (fun _ _ => F0) [F0] [F0] [false] F0) (path_inputs (fun _ _ => F0) [F0] [F0] [false] F1).
Proof.
  exists 0%nat, F0, F0, F0, F0, F1, F0. repeat split. intros H. apply (f_equal fst) in H. symmetry in H. exact (F1_neq_0 H).
Qed.

(** ** C55: false of the code; every choice of the 29 IV values has satisfying assignments *)
Theorem C55_merkle_ivs_fixed_refuted : forall C depth addr leaf root path n c s0, C <> [] -> length c = 29%nat ->
  (0 < depth <= 29)%nat -> length addr = depth -> (depth <= length path)%nat ->
  below n addr -> below n path -> (leaf < n)%nat -> (root < n)%nat -> ~ In root path -> ~ In root addr -> root <> leaf ->
  exists ivs s1 g n' cs, merkle_tree_IVs c n s0 = Ok (ivs, (n + 29)%nat, s1) /\ map s1 ivs = c /\
    mpa_new (mimc_hash_ops e7_ops C) depth addr ivs leaf root path (n + 29) = Ok (g, n') /\
    mpa_constraints (mimc_hash_ops e7_ops C) g = Ok cs /\
    forall c', length c' = 29%nat -> exists s, sat s cs /\ map s ivs = c' /\
      forall v, (v < n)%nat -> v <> root -> s v = s0 v.
Proof. exact merkle_ivs_free. Qed.
Print Assumptions C55_merkle_ivs_fixed_refuted.

(** ** C56: false of the code; a leaf that is not in the tree is accepted *)
Theorem C56_merkle_unconstrained_address_refuted : forall C iv L R x, C <> [] -> x + x <> L + R -> x <> L -> x <> R ->
  exists g n' cs s, mpa_new (mimc_hash_ops e7_ops C) 1 [1]%nat [2]%nat 3 4 [5]%nat 6 = Ok (g, n') /\
    mpa_constraints (mimc_hash_ops e7_ops C) g = Ok cs /\ sat s cs /\
    s 2%nat = iv /\ s 4%nat = mp_spec (mimc_spec 7 C) iv [L; R] /\ s 3%nat = x /\ x <> L /\ x <> R.
Proof. exact merkle_forge_refuted. Qed.
Print Assumptions C56_merkle_unconstrained_address_refuted.
Example C56_example : [F1] <> [] /\ Fof 7 + Fof 7 <> F1 + Fof 2 /\ Fof 7 <> F1 /\ Fof 7 <> Fof 2.
Proof. repeat split; intros H; try discriminate; apply (f_equal fval) in H; vm_compute in H; discriminate. Qed.
