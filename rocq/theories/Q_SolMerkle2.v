(** Final lemmas about the Merkle tree contract with its hash, and about the circuit. *)
From Coq Require Import List ZArith Bool Arith Lia.
From Verif Require Import Primes Field Base R1CS Gadget M_Evm Spec_Keccak Spec_Mimc Spec_Merkle M_Mimc M_Merkle P_Mimc P_Merkle Q_Merkle
  M_SolMimc P_SolMimc Q_SolMimc M_SolMerkle Spec_SolMerkle P_SolMerkle P_SolMerkle2 Q_SolMerkle.
Import ListNotations.
Local Open Scope Z_scope.

Notation small := (fun x => 0 <= x < 3 * p_mod).
Definition hash7 : F -> list F -> F := mp_spec (mimc_spec 7 (mimc_constants 91)).

Lemma wmod_Q_range a : 0 <= wmod a mimc_Q < p_mod.
Proof. unfold wmod. change (mimc_Q =? 0) with false. cbv iota. rewrite mQ_p. apply Z.mod_pos_bound. reflexivity. Qed.
Lemma HashImpl_range l r iv : 0 <= HashImpl l r iv < p_mod.
Proof. unfold HashImpl, MiMCpe7_mp. cbn [fold_left]. apply wmod_Q_range. Qed.
Lemma HashImpl_spec l r iv : small l -> small r -> 0 <= iv < p_mod -> Fof (HashImpl l r iv) = hash7 (Fof iv) [Fof l; Fof r].
Proof.
  intros Hl Hr Hi. unfold HashImpl. rewrite mp_lemma; [|assumption|apply Forall_cons; [exact Hl|apply Forall_cons; [exact Hr|apply Forall_nil]]]. rewrite Fof_fval. reflexivity.
Qed.
Lemma sol_ivs_below : Forall (fun c => 0 <= c < p_mod) sol_level_IVs.
Proof. apply below_p_ok. vm_compute. reflexivity. Qed.
Lemma ivs_agree : map Fof sol_level_IVs = cpp_level_IVs.
Proof. reflexivity. Qed.

Lemma climb_range ivs : forall path bits item n, small item -> small (climb HashImpl ivs path bits item n).
Proof.
  induction ivs as [|iv ivs IH]; intros path bits item n Hi; [destruct n; exact Hi|].
  destruct n as [|n]; [exact Hi|]. destruct path as [|p path]; [exact Hi|]. destruct bits as [|b bits]; [exact Hi|].
  cbn [climb]. apply IH. pose proof (HashImpl_range p item iv). pose proof (HashImpl_range item p iv).
  assert (0 < p_mod) by reflexivity. destruct b; lia.
Qed.
Lemma climb_range_p ivs : forall path bits item n, 0 <= item < p_mod -> 0 <= climb HashImpl ivs path bits item n < p_mod.
Proof.
  induction ivs as [|iv ivs IH]; intros path bits item n Hi; [destruct n; exact Hi|].
  destruct n as [|n]; [exact Hi|]. destruct path as [|p path]; [exact Hi|]. destruct bits as [|b bits]; [exact Hi|].
  cbn [climb]. apply IH. destruct b; apply HashImpl_range.
Qed.
Lemma climb_spec ivs : Forall (fun c => 0 <= c < p_mod) ivs -> forall path bits item n, Forall small path -> small item ->
  length ivs = n ->
  Fof (climb HashImpl ivs path bits item n) = merkle_spec hash7 (map Fof ivs) (map Fof path) bits (Fof item).
Proof.
  induction 1 as [|iv ivs Hiv HF IH]; intros path bits item n HP Hi Hn; [subst n; reflexivity|].
  destruct n as [|n]; [discriminate|]. destruct path as [|p path]; [reflexivity|]. destruct bits as [|b bits]; [reflexivity|].
  inversion_clear HP as [|? ? Hp HP']. cbn [climb map merkle_spec]. injection Hn as Hn.
  assert (0 < p_mod) by reflexivity. rewrite IH; [|assumption| |assumption].
  - apply f_equal. destruct b; rewrite HashImpl_spec by assumption; reflexivity.
  - pose proof (HashImpl_range p item iv). pose proof (HashImpl_range item p iv). destruct b; lia.
Qed.
Lemma climb_spec_fval ivs path bits item n : Forall (fun c => 0 <= c < p_mod) ivs -> Forall small path -> small item ->
  length ivs = n -> length path = n -> length bits = n -> n <> O ->
  climb HashImpl ivs path bits item n = fval (merkle_spec hash7 (map Fof ivs) (map Fof path) bits (Fof item)).
Proof.
  intros HI HP Hi Hn1 Hn2 Hn3 Hn. rewrite <- (climb_spec ivs HI path bits item n HP Hi Hn1).
  rewrite fval_Fof. symmetry. apply Z.mod_small. destruct n as [|n]; [congruence|].
  destruct ivs as [|iv ivs]; [discriminate|]. destruct path as [|p path]; [discriminate|]. destruct bits as [|b bits]; [discriminate|].
  cbn [climb]. apply climb_range_p. destruct b; apply HashImpl_range.
Qed.

(** *** C96 *)
Lemma compute_spec_lemma leaf path bits : length path = 29%nat -> length bits = 29%nat ->
  0 <= leaf < 3 * p_mod -> Forall (fun x => 0 <= x < 3 * p_mod) path ->
  ComputePath HashImpl leaf path bits =
    Ok (fval (merkle_spec (mp_spec (mimc_spec 7 (mimc_constants 91))) cpp_level_IVs (map Fof path) bits (Fof leaf))).
Proof.
  intros HP HB Hl HF. rewrite compute_climb by assumption. apply f_equal.
  rewrite (climb_spec_fval sol_level_IVs path bits leaf 29 sol_ivs_below HF Hl eq_refl HP HB ltac:(discriminate)).
  rewrite ivs_agree. reflexivity.
Qed.

Lemma map_mod path : map Fof (map (fun x => x mod p_mod) path) = map Fof path.
Proof. rewrite map_map. apply map_ext. intros x. apply Fof_eq_iff. apply Zmod_mod. Qed.
Lemma small_mod x : small (x mod p_mod).
Proof. assert (0 < p_mod) by reflexivity. pose proof (Z.mod_pos_bound x p_mod H). cbn beta. lia. Qed.
Lemma Forall_small_mod path : Forall small (map (fun x => x mod p_mod) path).
Proof. apply Forall_forall. intros x Hx. apply in_map_iff in Hx. destruct Hx as (y & <- & _). apply small_mod. Qed.

(** the verification depends on the residues only *)
Lemma compute_residues leaf path bits : length path = 29%nat -> length bits = 29%nat -> small leaf -> Forall small path ->
  ComputePath HashImpl leaf path bits = ComputePath HashImpl (leaf mod p_mod) (map (fun x => x mod p_mod) path) bits.
Proof.
  intros HP HB Hl HF. rewrite !compute_spec_lemma; try assumption; rewrite ?map_length; try assumption;
    [|apply small_mod|apply Forall_small_mod].
  rewrite map_mod. assert (E : Fof (leaf mod p_mod) = Fof leaf) by (apply Fof_eq_iff; apply Zmod_mod). rewrite E. reflexivity.
Qed.

(** *** values of the tree *)
Lemma empty_value_range sha d i : 0 <= empty_value sha d i < p_mod.
Proof. unfold empty_value, GetUniqueLeaf. cbn [Z.eqb]. apply wmod_Q_range. Qed.
Lemma tnode_range sha ls : Forall (fun l => 0 <= l < p_mod) ls -> forall d i, 0 <= i ->
  0 <= tnode HashImpl (empty_value sha) sol_level_IVs ls d i < p_mod.
Proof.
  intros HF d i Hi. rewrite node_unfold. destruct (Z.ltb_spec (i * 2 ^ Z.of_nat d) (Z.of_nat (length ls))) as [B|B]; [|apply empty_value_range].
  destruct d as [|d]; [|apply HashImpl_range]. rewrite Forall_forall in HF. apply HF. apply nth_In. change (2 ^ Z.of_nat 0) with 1 in B. lia.
Qed.
Lemma siblings_range sha ls : Forall (fun l => 0 <= l < p_mod) ls -> forall n d i, 0 <= i ->
  Forall (fun l => 0 <= l < p_mod) (siblings HashImpl (empty_value sha) sol_level_IVs ls n d i).
Proof.
  intros HF. induction n as [|n IH]; intros d i Hi; [constructor|]. cbn [siblings]. constructor.
  - apply tnode_range; [assumption|]. destruct (Z.odd i) eqn:E; [|lia]. assert (i <> 0) by (intros ->; discriminate). lia.
  - apply IH. apply Z.div_pos; lia.
Qed.
Lemma p_small l : Forall (fun x => 0 <= x < p_mod) l -> Forall small l.
Proof. assert (0 < p_mod) by reflexivity. apply Forall_impl. intros x Hx. cbn beta in Hx. lia. Qed.

(** *** C97 *)
Lemma verify_ext H t l l' path path' bits : ComputePath H l path bits = ComputePath H l' path' bits ->
  VerifyPath H t l path bits = VerifyPath H t l' path' bits.
Proof. intros E. unfold VerifyPath. rewrite E. reflexivity. Qed.
Lemma alias_verifies_lemma sha ls i : Forall (fun l => 0 < l < p_mod) ls ->
  no_zero_node HashImpl (empty_value sha) sol_level_IVs ls -> Z.of_nat (length ls) <= 2 ^ 29 -> 0 <= i < Z.of_nat (length ls) ->
  exists t path, inserts (Insert HashImpl sha) tree_empty ls = Ok t /\ length path = 29%nat /\
    let leaf := nth (Z.to_nat i) ls 0 + p_mod in
    is_word leaf /\ ~ In leaf ls /\ VerifyPath HashImpl t leaf path (sides 29 i) = Ok true.
Proof.
  intros HF NN Hl Hi.
  assert (NZ : Forall (fun l => l <> 0) ls) by (apply (Forall_impl _ (P := fun l => 0 < l < p_mod)); [intros; lia|assumption]).
  assert (HF0 : Forall (fun l => 0 <= l < p_mod) ls) by (apply (Forall_impl _ (P := fun l => 0 < l < p_mod)); [intros; lia|assumption]).
  assert (Hn : ls <> []) by (intros ->; cbn [length] in Hi; lia).
  destruct (built HashImpl sha ls NZ NN Hn Hl) as (t & E & HG & HR).
  exists t, (siblings HashImpl (empty_value sha) sol_level_IVs ls 29 0 i). split; [exact E|]. split; [apply siblings_len|].
  cbv zeta. set (l := nth (Z.to_nat i) ls 0). assert (Hin : 0 < l < p_mod).
  { pose proof HF as HF1. rewrite Forall_forall in HF1. apply HF1. apply nth_In. lia. }
  assert (W : 5 * p_mod < 2 ^ 256) by reflexivity.
  split; [unfold is_word, wsize; lia|]. split.
  { intros X. pose proof HF as HF1. rewrite Forall_forall in HF1. apply HF1 in X. lia. }
  pose proof (verify_siblings HashImpl sha ls t i HG HR ltac:(lia)) as V.
  assert (B : i / 2 * 2 < Z.of_nat (length ls)) by (pose proof (Z.mul_div_le i 2 ltac:(lia)); lia). specialize (V B).
  assert (Ei : tnode HashImpl (empty_value sha) sol_level_IVs ls 0 i = l).
  { cbn [tnode]. change (2 ^ Z.of_nat 0) with 1. destruct (Z.ltb_spec (i * 1) (Z.of_nat (length ls))); [reflexivity|lia]. }
  rewrite Ei in V. pose proof (p_small _ (siblings_range sha ls HF0 29 0 i ltac:(lia))) as HS.
  revert V HS. generalize (siblings_len HashImpl sha ls 29 0 i).
  generalize (siblings HashImpl (empty_value sha) sol_level_IVs ls 29 0 i). intros path HP V HS.
  assert (C : ComputePath HashImpl (l + p_mod) path (sides 29 i) = ComputePath HashImpl l path (sides 29 i)).
  { rewrite !compute_spec_lemma by (assumption || apply sides_len || lia).
    assert (EF : Fof (l + p_mod) = Fof l) by (apply Fof_eq_iff; rewrite <- (Z.mul_1_l p_mod) at 1; apply Z.mod_add; discriminate).
    rewrite EF. reflexivity. }
  rewrite (verify_ext HashImpl t (l + p_mod) l path path (sides 29 i) C). exact V.
Qed.

Lemma tree_sound_mimc_lemma sha ls leaf path bits :
  Forall (fun l => 0 < l < p_mod) ls -> no_zero_node HashImpl (empty_value sha) sol_level_IVs ls -> ls <> [] ->
  Z.of_nat (length ls) <= 2 ^ 29 -> length path = 29%nat -> length bits = 29%nat ->
  0 <= leaf < 3 * p_mod -> Forall (fun x => 0 <= x < 3 * p_mod) path ->
  exists t i, inserts (Insert HashImpl sha) tree_empty ls = Ok t /\ 0 <= i < 2 ^ 29 /\ bits = sides 29 i /\
    (VerifyPath HashImpl t leaf path bits = Ok true ->
     let leaf' := leaf mod p_mod in let path' := map (fun x => x mod p_mod) path in
     (i < Z.of_nat (length ls) /\ leaf' = nth (Z.to_nat i) ls 0) \/
     (exists d, (d < 29)%nat /\ path_collision HashImpl (empty_value sha) sol_level_IVs ls path' leaf' i 29 d) \/
     (exists d, (d <= 29)%nat /\ filler_hit HashImpl (empty_value sha) sol_level_IVs ls path' leaf' i 29 d)).
Proof.
  intros HF NN Hn Hl HP HB Hleaf HPF.
  assert (NZ : Forall (fun l => l <> 0) ls) by (apply (Forall_impl _ (P := fun l => 0 < l < p_mod)); [intros; lia|assumption]).
  destruct (tree_sound_lemma HashImpl sha ls (leaf mod p_mod) (map (fun x => x mod p_mod) path) bits NZ NN Hn Hl) as (t & i & E & Hi & Eb & S).
  { rewrite map_length. exact HP. } { exact HB. }
  exists t, i. split; [exact E|]. split; [exact Hi|]. split; [exact Eb|]. intros V. cbv zeta. apply S.
  rewrite <- (verify_ext HashImpl t _ _ _ _ bits (compute_residues leaf path bits HP HB Hleaf HPF)). exact V.
Qed.

(** *** C98: the circuit accepts the contract's proofs *)
Lemma contract_circuit_lemma sha ls i addr IVs leaf root path n s :
  Forall (fun l => 0 < l < p_mod) ls -> no_zero_node HashImpl (empty_value sha) sol_level_IVs ls ->
  Z.of_nat (length ls) <= 2 ^ 29 -> 0 <= i < Z.of_nat (length ls) ->
  length addr = 29%nat -> length IVs = 29%nat -> length path = 29%nat ->
  below n addr -> below n IVs -> below n path -> (leaf < n)%nat -> (root < n)%nat ->
  exists t proof bits r g n' cs,
    inserts (Insert HashImpl sha) tree_empty ls = Ok t /\ GetProof sha t i = Ok (proof, bits) /\ GetRoot t = Ok r /\
    mpa_new (mimc_hash_ops e7_ops (mimc_constants 91)) 29 addr IVs leaf root path n = Ok (g, n') /\
    mpa_constraints (mimc_hash_ops e7_ops (mimc_constants 91)) g = Ok cs /\
    (s leaf = Fof (nth (Z.to_nat i) ls 0) -> map s path = map Fof proof -> map s addr = map b2F bits ->
     map s IVs = cpp_level_IVs -> s root = Fof r ->
     exists s', mpa_witness (mimc_hash_ops e7_ops (mimc_constants 91)) g s = Ok s' /\ sat s' cs).
Proof.
  intros HF NN Hl Hi HA HI HP BA BI BP BL BR.
  assert (NZ : Forall (fun l => l <> 0) ls) by (apply (Forall_impl _ (P := fun l => 0 < l < p_mod)); [intros; lia|assumption]).
  assert (HF0 : Forall (fun l => 0 <= l < p_mod) ls) by (apply (Forall_impl _ (P := fun l => 0 < l < p_mod)); [intros; lia|assumption]).
  assert (Hn : ls <> []) by (intros ->; cbn [length] in Hi; lia).
  destruct (built HashImpl sha ls NZ NN Hn Hl) as (t & E & HG & HR).
  assert (HC : mimc_constants 91 <> []) by (apply mimc_constants_nonempty; discriminate).
  destruct (merkle_auth_main (mimc_hash_ops e7_ops (mimc_constants 91)) _ 29 addr IVs leaf root path n
    (mimc_hash_ok e7_ops 7 (mimc_constants 91) e7_ok HC) ltac:(lia) HA ltac:(lia) ltac:(lia) BA BI BP BL BR)
    as (g & n' & cs & Eg & Ec & _ & HW).
  exists t, (siblings HashImpl (empty_value sha) sol_level_IVs ls 29 0 i), (sides 29 i),
    (tnode HashImpl (empty_value sha) sol_level_IVs ls 29 0), g, n', cs.
  split; [exact E|]. split.
  { apply (proof_loop_good HashImpl sha ls t HG NN NZ 29 0 i eq_refl); [unfold MAX_LEAF_COUNT; change (2 ^ 29) with 536870912 in Hl; lia|].
    change (2 ^ Z.of_nat 0) with 1. lia. }
  split; [exact HR|]. split; [exact Eg|]. split; [exact Ec|].
  assert (B : i / 2 * 2 < Z.of_nat (length ls)) by (pose proof (Z.mul_div_le i 2 ltac:(lia)); lia).
  pose proof (verify_siblings HashImpl sha ls t i HG HR ltac:(lia) B) as V.
  assert (Ei : tnode HashImpl (empty_value sha) sol_level_IVs ls 0 i = nth (Z.to_nat i) ls 0).
  { cbn [tnode]. change (2 ^ Z.of_nat 0) with 1. destruct (Z.ltb_spec (i * 1) (Z.of_nat (length ls))); [reflexivity|lia]. }
  rewrite Ei in V. pose proof (p_small _ (siblings_range sha ls HF0 29 0 i ltac:(lia))) as HS.
  assert (Hin : 0 <= nth (Z.to_nat i) ls 0 < p_mod).
  { pose proof HF0 as HF1. rewrite Forall_forall in HF1. apply HF1. apply nth_In. lia. }
  revert V HS HR. generalize (siblings_len HashImpl sha ls 29 0 i). generalize (sides_len 29 i).
  generalize (siblings HashImpl (empty_value sha) sol_level_IVs ls 29 0 i). generalize (sides 29 i).
  generalize (tnode HashImpl (empty_value sha) sol_level_IVs ls 29 0). intros r bits proof HB HPP V HS HR Sl Sp Sa SI Sr.
  destruct (HW s bits Sa) as (s' & W1 & _ & W2 & _). exists s'. split; [exact W1|]. apply W2.
  apply (verify_true HashImpl t _ proof bits r HPP HB HR) in V. rewrite Sr, SI, Sp, Sl, <- V.
  assert (Hs : small (nth (Z.to_nat i) ls 0)) by (assert (0 < p_mod) by reflexivity; cbn beta; lia).
  rewrite (climb_spec_fval sol_level_IVs proof bits _ 29 sol_ivs_below HS Hs eq_refl HPP HB ltac:(discriminate)).
  rewrite ivs_agree, Fof_fval. reflexivity.
Qed.

Lemma no_zero_one H fil ivs x : no_zero_node H fil ivs [x].
Proof.
  intros d i Hd Hi Hb He. exfalso. assert (P : 2 <= 2 ^ Z.of_nat d).
  { change 2 with (2 ^ 1) at 1. apply Z.pow_le_mono_r; lia. }
  cbn [length] in *. assert (i = 0) by nia. subst i. specialize (He eq_refl). lia.
Qed.
Lemma no_zero_three H fil ivs a b c : tnode H fil ivs [a; b; c] 1 0 <> 0 -> tnode H fil ivs [a; b; c] 1 1 <> 0 ->
  no_zero_node H fil ivs [a; b; c].
Proof.
  intros N0 N1 d i Hd Hi Hb He. cbn [length] in *. destruct d as [|[|d]]; [lia| |].
  - change (2 ^ Z.of_nat 1) with 2 in *. assert (C : i = 0 \/ i = 1) by lia. destruct C as [-> | ->]; assumption.
  - exfalso. assert (P : 4 <= 2 ^ Z.of_nat (S (S d))).
    { change 4 with (2 ^ 2). apply Z.pow_le_mono_r; lia. }
    assert (i = 0) by nia. subst i. specialize (He eq_refl). lia.
Qed.
Lemma only_inserted_refuted_lemma sha : exists ls t leaf path bits, Forall (fun l => 0 < l < p_mod) ls /\
  inserts (Insert HashImpl sha) tree_empty ls = Ok t /\ length path = 29%nat /\ length bits = 29%nat /\
  0 <= leaf < p_mod /\ VerifyPath HashImpl t leaf path bits = Ok true /\ ~ In leaf ls.
Proof.
  set (e := empty_value sha 0 1). set (x := if e =? 1 then 2 else 1).
  assert (Hx : 0 < x < p_mod) by (unfold x; destruct (e =? 1); split; reflexivity).
  destruct (filler_verifies_lemma HashImpl sha [x]) as (t & path & E & HP & V).
  - constructor; [lia|constructor].
  - apply no_zero_one.
  - reflexivity.
  - reflexivity.
  - exists [x], t, e, path, (sides 29 1). split; [constructor; [exact Hx|constructor]|]. split; [exact E|]. split; [exact HP|].
    split; [apply sides_len|]. split; [apply empty_value_range|]. split; [exact V|].
    intros [X|[]]. unfold x in X. destruct (Z.eqb_spec e 1); lia.
Qed.

Lemma insert_total_lemma H sha t x : 0 <= t_cur t ->
  (x <> 0 -> t_cur t < 2 ^ 29 -> exists t' root, Insert H sha t x = Ok (t', root, t_cur t) /\ t_cur t' = t_cur t + 1) /\
  (x = 0 \/ 2 ^ 29 <= t_cur t -> Insert H sha t x = Throw).
Proof. exact (insert_total H sha t x). Qed.
Lemma ivs_lemma : map Fof sol_level_IVs = cpp_level_IVs /\ length sol_level_IVs = 29%nat /\
  Forall (fun c => 0 <= c < p_mod) sol_level_IVs.
Proof. split; [exact ivs_agree|]. split; [reflexivity|exact sol_ivs_below]. Qed.
