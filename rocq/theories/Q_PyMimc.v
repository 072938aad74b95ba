(** mimc/permutation.py against the circuit's MiMC, and merkletree.py against MerkleTree.sol. *)
From Coq Require Import List ZArith Bool Arith Lia Ring.
From Verif Require Import Primes Field Base M_Evm Spec_Keccak Spec_Mimc M_SolMimc P_SolMimc Q_SolMimc M_SolMerkle Spec_SolMerkle
  Q_SolMerkle M_PyMerkle Spec_PyMerkle P_PyMerkle P_PyMerkle2 Q_PyMerkle P_PyIVs.
Import ListNotations.
Local Open Scope Z_scope.
Local Open Scope F_scope.

Lemma py_Fof_mod z : Fof (z mod p_mod)%Z = Fof z.
Proof. rewrite <- fval_Fof. apply Fof_fval. Qed.
Lemma py_constants_from R : forall d, map Fof (py_mimc_constants_from R (be_value (keccak256 d))) = constants_loop R (keccak256 d).
Proof.
  induction R as [|R IH]; intros d; [reflexivity|].
  rewrite constants_loop_S. cbn [py_mimc_constants_from]. cbv zeta. rewrite keccak_word_digest. cbn [map]. now rewrite IH.
Qed.
Lemma py_rounds e k C : (0 <= e)%Z -> forall x,
  Fof (fold_left (fun x c_i => ((x + k + c_i) mod p_mod) ^ e mod p_mod)%Z C x) = mimc_rounds e (map Fof C) (Fof x) (Fof k).
Proof.
  intros He. induction C as [|c C IH]; intros x; [reflexivity|]. cbn [fold_left map]. rewrite IH, mimc_rounds_cons.
  apply (f_equal (fun z => mimc_rounds e (map Fof C) z (Fof k))).
  rewrite py_Fof_mod. rewrite <- fval_Fof, <- Fpow_Fof by assumption. apply (f_equal (fun z => Fpow z e)). rewrite !Fof_add. reflexivity.
Qed.
Lemma py_mimc_lemma : forall seed e R x k, (2 < R)%nat -> (0 <= e)%Z ->
  py_mimc seed p_mod e R x k = Ok (fval (mimc_spec e (constants_loop R (keccak256 seed)) (Fof x) (Fof k))).
Proof.
  intros seed e R x k HR He. unfold py_mimc. rewrite (proj2 (Nat.ltb_lt _ _) HR). apply f_equal.
  rewrite <- fval_Fof. apply f_equal. rewrite Fof_add, py_rounds by assumption.
  unfold py_mimc_constants. rewrite py_constants_from. reflexivity.
Qed.
Lemma py_default_lemma : forall x k,
  py_mimc DEFAULT_SEED p_mod DEFAULT_EXPONENT DEFAULT_ROUNDS x k = Ok (fval (mimc_spec 7 (mimc_constants 91) (Fof x) (Fof k))) /\
  py_mimc DEFAULT_SEED p_mod DEFAULT_EXPONENT DEFAULT_ROUNDS x k = Ok (perm_MiMCpe7 x k).
Proof.
  assert (G : forall x k, py_mimc DEFAULT_SEED p_mod DEFAULT_EXPONENT DEFAULT_ROUNDS x k = Ok (fval (mimc_spec 7 (mimc_constants 91) (Fof x) (Fof k)))).
  { intros x k. apply py_mimc_lemma; [unfold DEFAULT_ROUNDS; lia|discriminate]. }
  intros x k. split; [apply G|]. rewrite perm7_lemma. apply G.
Qed.
Lemma mp_spec_cons E iv m ms : mp_spec E iv (m :: ms) = mp_spec E (iv + E m iv + m) ms.
Proof. reflexivity. Qed.
Lemma py_hash_gen seed e R : (2 < R)%nat -> (0 <= e)%Z -> forall ms k, (0 <= k < p_mod)%Z \/ ms <> [] ->
  py_mimc_hash seed p_mod e R ms k = Ok (fval (mp_spec (mimc_spec e (constants_loop R (keccak256 seed))) (Fof k) (map Fof ms))).
Proof.
  intros HR He. induction ms as [|m ms IH]; intros k Hk.
  - cbn [py_mimc_hash map]. apply f_equal. symmetry. apply fval_Fof_small. destruct Hk as [Hk|Hk]; [exact Hk|contradiction].
  - cbn [py_mimc_hash]. rewrite py_mimc_lemma by assumption. cbn [obind]. rewrite IH by (left; apply Z.mod_pos_bound; reflexivity).
    apply f_equal, f_equal. cbn [map]. rewrite mp_spec_cons. set (E := mimc_spec e (constants_loop R (keccak256 seed))).
    apply (f_equal (fun z => mp_spec E z (map Fof ms))). rewrite py_Fof_mod, !Fof_add, Fof_fval. ring.
Qed.
Lemma py_hash_lemma : forall ms k, (0 <= k < p_mod)%Z \/ ms <> [] ->
  py_mimc_hash DEFAULT_SEED p_mod DEFAULT_EXPONENT DEFAULT_ROUNDS ms k =
    Ok (fval (mp_spec (mimc_spec 7 (mimc_constants 91)) (Fof k) (map Fof ms))).
Proof. intros ms k Hk. apply (py_hash_gen MIMC_SEED 7 91); [lia|discriminate|exact Hk]. Qed.
Lemma py_hash_contract_lemma : forall ms k, (0 <= k < p_mod)%Z -> Forall (fun x => 0 <= x < 3 * p_mod)%Z ms ->
  py_mimc_hash DEFAULT_SEED p_mod DEFAULT_EXPONENT DEFAULT_ROUNDS ms k = Ok (MiMCpe7_mp ms k).
Proof. intros ms k Hk Hm. rewrite mp_final by assumption. apply py_hash_lemma. now left. Qed.
Lemma py_md_gen seed e R : (2 < R)%nat -> (0 <= e)%Z -> forall ms k, (0 <= k < p_mod)%Z \/ ms <> [] ->
  py_mimc_hash_md seed p_mod e R ms k =
    Ok (fval (fold_left (fun h m => mimc_spec e (constants_loop R (keccak256 seed)) m h) (map Fof ms) (Fof k))).
Proof.
  intros HR He. induction ms as [|m ms IH]; intros k Hk.
  - cbn [py_mimc_hash_md map fold_left]. apply f_equal. symmetry. apply fval_Fof_small. destruct Hk as [Hk|Hk]; [exact Hk|contradiction].
  - cbn [py_mimc_hash_md]. rewrite py_mimc_lemma by assumption. cbn [obind]. rewrite IH by (left; apply fval_range).
    apply f_equal, f_equal. cbn [map fold_left]. now rewrite Fof_fval.
Qed.
Lemma py_md_lemma : forall ms k, (0 <= k < p_mod)%Z \/ ms <> [] ->
  py_mimc_hash_md DEFAULT_SEED p_mod DEFAULT_EXPONENT DEFAULT_ROUNDS ms k =
    Ok (fval (fold_left (fun h m => mimc_spec 7 (mimc_constants 91) m h) (map Fof ms) (Fof k))).
Proof. intros ms k Hk. apply (py_md_gen MIMC_SEED 7 91); [lia|discriminate|exact Hk]. Qed.

(** ** the trees *)
Local Close Scope F_scope.
Definition py_H (ivs : list Z) (d : nat) (args : list Z) : Z :=
  fval (mp_spec (mimc_spec 7 (mimc_constants 91)) (Fof (nth d ivs 0)) (map Fof args)).
Lemma py_IVs_len sha D : length (py_IVs sha D) = D.
Proof. unfold py_IVs. now rewrite map_length, seq_length. Qed.
Lemma mimc_hasher_is sha D :
  hasher_is (mimc_hash_node sha D) (py_unique sha) (py_H (py_IVs sha D)) (fun d i => py_unique sha (Z.of_nat d) (Z.of_nat i)) 2 D.
Proof.
  split; [|reflexivity]. intros d args Hd Ha. unfold mimc_hash_node. rewrite py_get_nat.
  rewrite (nth_error_nth' _ 0) by (rewrite py_IVs_len; exact Hd). cbn [obind]. apply py_hash_lemma. right. now destruct args.
Qed.
Lemma be_bytes_mod n : forall x, be_bytes n (x mod 256 ^ Z.of_nat n) = be_bytes n x.
Proof.
  induction n as [|n IH]; intros x; [reflexivity|]. cbn [be_bytes].
  rewrite Nat2Z.inj_succ, Z.pow_succ_r by lia.
  assert (0 < 256 ^ Z.of_nat n) as P by (apply Z.pow_pos_nonneg; lia).
  rewrite Z.rem_mul_r by lia. f_equal.
  - rewrite Z.mul_comm, Z.div_add by lia. rewrite (Z.div_small (x mod 256)) by (apply Z.mod_pos_bound; lia). apply IH.
  - f_equal. rewrite Z.mul_comm, Z.mod_add by lia. apply Z.mod_mod. lia.
Qed.
Lemma fill_eq sha d i : py_unique sha d i = empty_value sha d i.
Proof.
  unfold py_unique, empty_value, GetUniqueLeaf. cbn [Z.eqb].
  change (2 ^ 16) with (256 ^ Z.of_nat 2). change (2 ^ 240) with (256 ^ Z.of_nat 30). rewrite !be_bytes_mod. reflexivity.
Qed.
Lemma node_eq sha ls : py_IVs sha 29 = sol_level_IVs -> Forall (fun x => 0 <= x < p_mod) ls -> forall d i, (d <= 29)%nat ->
  wnode (py_H (py_IVs sha 29)) (fun d i => py_unique sha (Z.of_nat d) (Z.of_nat i)) 2 ls d i =
    tnode HashImpl (empty_value sha) sol_level_IVs ls d (Z.of_nat i) /\
  0 <= wnode (py_H (py_IVs sha 29)) (fun d i => py_unique sha (Z.of_nat d) (Z.of_nat i)) 2 ls d i < p_mod.
Proof.
  intros Hiv F. set (H := py_H (py_IVs sha 29)). set (fl := fun d i => py_unique sha (Z.of_nat d) (Z.of_nat i)).
  assert (forall d i, 0 <= fl d i < p_mod) as Fb by (intros d i; unfold fl, py_unique; apply Z.mod_pos_bound; reflexivity).
  assert (forall d i, fl d i = empty_value sha (Z.of_nat d) (Z.of_nat i)) as Fe by (intros d i; apply fill_eq).
  assert (forall d, (d < 29)%nat -> 0 <= nth d sol_level_IVs 0 < p_mod) as Bi.
  { intros d Hd. rewrite <- Hiv. unfold py_IVs. rewrite (nth_indep _ 0 (py_IV sha 0)) by (now rewrite map_length, seq_length).
    rewrite map_nth. unfold py_IV. apply Z.mod_pos_bound. reflexivity. }
  induction d as [|d IH]; intros i Hd.
  - cbn [wnode tnode]. rewrite Z.pow_0_r, Z.mul_1_r. destruct (Z.ltb_spec (Z.of_nat i) (Z.of_nat (length ls))) as [K|K].
    + rewrite Nat2Z.id. rewrite (nth_indep _ _ 0) by lia. split; [reflexivity|].
      rewrite Forall_forall in F. apply F, nth_In. lia.
    + rewrite nth_overflow by lia. split; [apply Fe|apply Fb].
  - cbn [wnode tnode].
    assert (((i * 2 ^ S d <? length ls)%nat = (Z.of_nat i * 2 ^ Z.of_nat (S d) <? Z.of_nat (length ls)))) as ->.
    { assert (Z.of_nat (i * 2 ^ S d) = Z.of_nat i * 2 ^ Z.of_nat (S d)) as E by now rewrite Nat2Z.inj_mul, Nat2Z.inj_pow.
      destruct (Nat.ltb_spec (i * 2 ^ S d) (length ls)); destruct (Z.ltb_spec (Z.of_nat i * 2 ^ Z.of_nat (S d)) (Z.of_nat (length ls))); reflexivity || lia. }
    destruct (Z.of_nat i * 2 ^ Z.of_nat (S d) <? Z.of_nat (length ls)); [|split; [apply Fe|apply Fb]].
    cbn [seq map]. destruct (IH (2 * i + 0)%nat ltac:(lia)) as [E0 B0]. destruct (IH (2 * i + 1)%nat ltac:(lia)) as [E1 B1].
    replace (2 * Z.of_nat i) with (Z.of_nat (2 * i + 0)) by lia. rewrite <- E0.
    replace (Z.of_nat (2 * i + 0) + 1) with (Z.of_nat (2 * i + 1)) by lia. rewrite <- E1.
    split; [|unfold H, py_H; apply fval_range].
    unfold HashImpl. rewrite mp_final.
    + unfold H, py_H. rewrite Hiv. reflexivity.
    + apply Bi. lia.
    + set (a := wnode H fl 2 ls d (2 * i + 0)) in *. set (b := wnode H fl 2 ls d (2 * i + 1)) in *. clearbody a b.
      assert (0 < p_mod) by reflexivity.
      apply Forall_cons; [lia|]. apply Forall_cons; [lia|]. apply Forall_nil.
Qed.

Lemma allowed_adds n_items : forall ls L, Forall (fun x => 0 <= x < p_mod) ls -> Z.of_nat (length L + length ls) <= n_items ->
  allowed n_items L (map Add ls).
Proof.
  induction ls as [|x ls IH]; intros L F K; [exact I|]. inversion F as [|? ? F1 F2]; subst. cbn [length] in K.
  cbn [map allowed]. split; [lia|]. split; [exact F1|]. apply IH; [exact F2|]. rewrite app_length. cbn [length]. lia.
Qed.
Lemma list_after_adds : forall ls L, list_after L (map Add ls) = L ++ ls.
Proof.
  induction ls as [|x ls IH]; intros L; [now rewrite app_nil_r|]. cbn [map list_after]. rewrite IH, <- app_assoc. reflexivity.
Qed.
Lemma dims_pow2 D : D <> 0%nat -> dims 2 D (2 ^ Z.of_nat D).
Proof.
  intros HD. unfold dims. rewrite !Nat2Z.inj_pow. change (Z.of_nat 2) with 2. rewrite Nat2Z.inj_succ, Z.pow_succ_r by lia.
  assert (0 < 2 ^ Z.of_nat D) as P by (apply Z.pow_pos_nonneg; lia).
  split; [lia|]. split; [exact HD|]. split; [|lia].
  destruct D as [|D]; [contradiction|]. rewrite Nat2Z.inj_succ, Z.pow_succ_r, Z.mul_comm by lia. apply Z.mod_mul. lia.
Qed.
Lemma contract_tree_gen sha ls : py_IVs sha 29 = sol_level_IVs -> ls <> [] -> Forall (fun x => 0 < x < p_mod) ls ->
  no_zero_node HashImpl (empty_value sha) sol_level_IVs ls -> Z.of_nat (length ls) <= 2 ^ 29 ->
  exists t tc r, built (mimc_hash_node sha 29) (py_unique sha) (2 ^ 29) 2 (map Add ls) t /\ root t = Ok r /\
    inserts (Insert HashImpl sha) tree_empty ls = Ok tc /\ GetRoot tc = Ok r.
Proof.
  intros Hiv NE F NZ Len.
  assert (Forall (fun x => 0 <= x < p_mod) ls) as F0 by (revert F; apply Forall_impl; intros; lia).
  pose proof (dims_pow2 29 ltac:(discriminate)) as Dm. change (2 ^ Z.of_nat 29) with (2 ^ 29) in Dm.
  destruct (py_tree_lemma _ _ _ _ 2 29 (2 ^ 29) (map Add ls) Dm (mimc_hasher_is sha 29)) as (t & B & _ & R & _).
  { apply allowed_adds; [exact F0|exact Len]. }
  rewrite list_after_adds in R. specialize (R NE).
  destruct (tree_proof_lemma HashImpl sha ls 0) as (tc & path & E & G & _).
  { revert F. apply Forall_impl. intros; lia. }
  { exact NZ. } { exact Len. } { destruct ls; [contradiction|cbn [length]; lia]. }
  exists t, tc. eexists. split; [exact B|]. split; [exact R|]. split; [exact E|]. rewrite G. apply f_equal.
  symmetry. apply (node_eq sha ls Hiv F0 29 0 (Nat.le_refl 29)).
Qed.
Lemma contract_tree_lemma : forall ls, ls <> [] -> Forall (fun x => 0 < x < p_mod) ls ->
  no_zero_node HashImpl (empty_value sha256_num) sol_level_IVs ls -> Z.of_nat (length ls) <= 2 ^ 29 ->
  exists t tc r, built (mimc_hash_node sha256_num 29) (py_unique sha256_num) (2 ^ 29) 2 (map Add ls) t /\ root t = Ok r /\
    inserts (Insert HashImpl sha256_num) tree_empty ls = Ok tc /\ GetRoot tc = Ok r.
Proof. intros ls. apply contract_tree_gen. exact py_IVs_lemma. Qed.
