(** Lemmas about the model of the MiMC contracts. *)
From Coq Require Import List ZArith Bool Arith Lia Field Ring.
From Verif Require Import Primes Field Base M_Evm Spec_Keccak Spec_Mimc M_Mimc P_Mimc M_SolMimc M_SolJubjub P_SolJubjub.
Import ListNotations.
Local Open Scope Z_scope.
Local Open Scope F_scope.

Lemma mQ_p : mimc_Q = p_mod.
Proof. reflexivity. Qed.
Lemma mulmod_m a b : mulmod a b mimc_Q = (a * b mod p_mod)%Z.
Proof. reflexivity. Qed.
Lemma addmod_m a b : addmod a b mimc_Q = ((a + b) mod p_mod)%Z.
Proof. reflexivity. Qed.
Lemma Fof_mulmod_m a b : Fof (mulmod a b mimc_Q) = Fof a * Fof b.
Proof. exact (Fof_mulmod a b). Qed.
Lemma Fof_addmod_m a b : Fof (addmod a b mimc_Q) = Fof a + Fof b.
Proof. exact (Fof_addmod a b). Qed.
Lemma mulmod_m_range a b : (0 <= mulmod a b mimc_Q < p_mod)%Z.
Proof. exact (mulmod_range a b). Qed.
Lemma addmod_m_fval a b : addmod a b mimc_Q = fval (Fof a + Fof b).
Proof. rewrite addmod_m, <- Fof_add, fval_Fof. reflexivity. Qed.
Lemma word_5p : (5 * p_mod < wsize)%Z.
Proof. reflexivity. Qed.

(** *** a round *)
Lemma t7 t : Fof (let a := mulmod t t mimc_Q in mulmod (mulmod a (mulmod a a mimc_Q) mimc_Q) t mimc_Q) = Fpow (Fof t) 7.
Proof. cbv zeta. rewrite !Fof_mulmod_m, Fpow_7. ring. Qed.
Lemma t5 t : Fof (let a := mulmod t t mimc_Q in mulmod (mulmod a a mimc_Q) t mimc_Q) = Fpow (Fof t) 5.
Proof. cbv zeta. rewrite !Fof_mulmod_m, Fpow_5. ring. Qed.

Lemma Fof_wadd3 x c k : (0 <= x)%Z -> (0 <= c)%Z -> (0 <= k)%Z -> (x + c + k < wsize)%Z ->
  Fof (wadd (wadd x c) k) = Fof x + Fof k + Fof c.
Proof.
  intros Hx Hc Hk H. unfold wadd. rewrite (Z.mod_small (x + c)) by lia. rewrite Z.mod_small by lia.
  rewrite !Fof_add. ring.
Qed.
Lemma gen7_round_ok k x c : (0 <= x)%Z -> (0 <= c)%Z -> (0 <= k)%Z -> (x + c + k < wsize)%Z ->
  Fof (gen7_round k x c) = Fpow (Fof x + Fof k + Fof c) 7.
Proof. intros. unfold gen7_round. rewrite t7, Fof_wadd3 by assumption. reflexivity. Qed.
Lemma gen5_round_ok k x c : (0 <= x)%Z -> (0 <= c)%Z -> (0 <= k)%Z -> (x + c + k < wsize)%Z ->
  Fof (gen5_round k x c) = Fpow (Fof x + Fof k + Fof c) 5.
Proof. intros. unfold gen5_round. rewrite t5, Fof_wadd3 by assumption. reflexivity. Qed.
Lemma gen7_round_range k x c : (0 <= gen7_round k x c < p_mod)%Z.
Proof. apply mulmod_m_range. Qed.
Lemma gen5_round_range k x c : (0 <= gen5_round k x c < p_mod)%Z.
Proof. apply mulmod_m_range. Qed.

(** *** the generated rounds, for a list of reduced literals *)
Lemma gen_rounds e rnd : (forall k x c, 0 <= x -> 0 <= c -> 0 <= k -> x + c + k < wsize ->
    Fof (rnd k x c) = Fpow (Fof x + Fof k + Fof c) e)%Z -> (forall k x c, 0 <= rnd k x c < p_mod)%Z ->
  forall ls k x, Forall (fun c => 0 <= c < p_mod)%Z ls -> (0 <= k)%Z -> (0 <= x)%Z ->
  (x + p_mod + k <= wsize)%Z -> (p_mod + p_mod + k <= wsize)%Z ->
  Fof (fold_left (rnd k) ls x) = mimc_rounds e (map Fof ls) (Fof x) (Fof k).
Proof.
  intros R1 R2. induction ls as [|c ls IH]; intros k x HF Hk Hx H1 H2; [reflexivity|].
  inversion_clear HF as [|? ? Hc HF']. cbn [fold_left map]. unfold mimc_rounds. cbn [fold_left].
  pose proof (R2 k x c) as HR. rewrite IH; try assumption; try lia.
  unfold mimc_rounds. rewrite R1 by lia. reflexivity.
Qed.

Definition below_p (l : list Z) : bool := forallb (fun c => (0 <=? c) && (c <? p_mod))%Z l.
Lemma below_p_ok l : below_p l = true -> Forall (fun c => 0 <= c < p_mod)%Z l.
Proof.
  unfold below_p. rewrite forallb_forall, Forall_forall. intros H c Hc. specialize (H c Hc).
  apply andb_prop in H. lia.
Qed.
Lemma pe7_below : Forall (fun c => 0 <= c < p_mod)%Z pe7_literals.
Proof. apply below_p_ok. vm_compute. reflexivity. Qed.
Lemma pe5_below : Forall (fun c => 0 <= c < p_mod)%Z pe5_literals.
Proof. apply below_p_ok. vm_compute. reflexivity. Qed.

(** the cipher with a list of words as constants *)
Lemma gen7_ok x k : (0 <= x)%Z -> (0 <= k)%Z -> (x + p_mod + k <= wsize)%Z -> (p_mod + p_mod + k <= wsize)%Z ->
  gen_MiMCpe7 x k = fval (mimc_spec 7 (map Fof pe7_literals) (Fof x) (Fof k)).
Proof.
  intros Hx Hk H1 H2. unfold gen_MiMCpe7. rewrite addmod_m_fval.
  rewrite (gen_rounds 7 gen7_round gen7_round_ok gen7_round_range pe7_literals k x pe7_below Hk Hx H1 H2). reflexivity.
Qed.
Lemma gen5_ok x k : (0 <= x)%Z -> (0 <= k)%Z -> (x + p_mod + k <= wsize)%Z -> (p_mod + p_mod + k <= wsize)%Z ->
  gen_MiMCpe5 x k = fval (mimc_spec 5 (map Fof pe5_literals) (Fof x) (Fof k)).
Proof.
  intros Hx Hk H1 H2. unfold gen_MiMCpe5. rewrite addmod_m_fval.
  rewrite (gen_rounds 5 gen5_round gen5_round_ok gen5_round_range pe5_literals k x pe5_below Hk Hx H1 H2). reflexivity.
Qed.

(** *** Keccak-256 gives 32 bytes *)
Definition is_bytes (l : list Z) : Prop := Forall (fun b => 0 <= b < 256)%Z l.
Lemma le_bytes_of_len n : forall x, length (le_bytes_of n x) = n.
Proof. induction n as [|n IH]; intros x; cbn [le_bytes_of length]; [reflexivity|]. now rewrite IH. Qed.
Lemma le_bytes_of_bytes n : forall x, is_bytes (le_bytes_of n x).
Proof.
  induction n as [|n IH]; intros x; cbn [le_bytes_of]; constructor; [|apply IH].
  apply Z.mod_pos_bound. reflexivity.
Qed.
Lemma k_round_len a rc : length (k_round a rc) = 25%nat.
Proof.
  unfold k_round, k_iota. destruct (k_chi (k_rho_pi (k_theta a))) as [|x r] eqn:E.
  - apply (f_equal (@length Z)) in E. unfold k_chi in E. rewrite map_length, seq_length in E. discriminate.
  - apply (f_equal (@length Z)) in E. unfold k_chi in E. rewrite map_length, seq_length in E. cbn [length] in *. lia.
Qed.
Lemma keccak_f_len a : length (keccak_f a) = 25%nat.
Proof.
  unfold keccak_f. change k_rc with (firstn 23 k_rc ++ [0x8000000080008008%Z]). rewrite fold_left_app.
  apply k_round_len.
Qed.
Lemma k_absorb_len n : forall a l, length a = 25%nat -> length (k_absorb n a l) = 25%nat.
Proof. induction n as [|n IH]; intros a l H; cbn [k_absorb]; [assumption|]. apply IH. apply keccak_f_len. Qed.
Lemma flat_map_le l : length (flat_map (le_bytes_of 8) l) = (8 * length l)%nat.
Proof. induction l as [|x l IH]; cbn [flat_map length]; [reflexivity|]. rewrite app_length, le_bytes_of_len, IH. lia. Qed.
Lemma keccak256_len l : length (keccak256 l) = 32%nat.
Proof.
  unfold keccak256. rewrite flat_map_le, firstn_length, k_absorb_len by reflexivity. reflexivity.
Qed.
Lemma keccak256_bytes l : is_bytes (keccak256 l).
Proof.
  unfold keccak256. generalize (firstn 4 (k_absorb (length (k_pad l) / 136) (repeat 0%Z 25) (k_pad l))). intros r.
  induction r as [|x r IH]; cbn [flat_map]; [constructor|]. apply Forall_app. split; [apply le_bytes_of_bytes|exact IH].
Qed.

Lemma be_value_snoc l b : be_value (l ++ [b]) = (256 * be_value l + b)%Z.
Proof. unfold be_value. rewrite fold_left_app. reflexivity. Qed.
Lemma be_bytes_value l : is_bytes l -> be_bytes (length l) (be_value l) = l.
Proof.
  induction l as [|b l IH] using rev_ind; intros H; [reflexivity|].
  apply Forall_app in H. destruct H as [H1 H2]. inversion_clear H2 as [|? ? Hb _].
  rewrite app_length. cbn [length]. rewrite Nat.add_1_r. cbn [be_bytes]. rewrite be_value_snoc.
  f_equal.
  - rewrite Z.add_comm, Z.mul_comm, Z.div_add by discriminate. rewrite Z.div_small by lia. rewrite Z.add_0_l. apply IH. exact H1.
  - f_equal. rewrite Z.add_comm, Z.mul_comm, Z.mod_add by discriminate. apply Z.mod_small. lia.
Qed.
Lemma keccak_word_digest d : keccak_word (be_value (keccak256 d)) = be_value (keccak256 (keccak256 d)).
Proof.
  unfold keccak_word. pose proof (be_bytes_value (keccak256 d) (keccak256_bytes d)) as H.
  rewrite keccak256_len in H. rewrite H. reflexivity.
Qed.

(** *** the permutation contract *)
Definition perm_step (rnd : Z -> Z) (x c k : Z) : Z := rnd (addmod (addmod x c mimc_Q) k mimc_Q).
Definition rnd7 (t : Z) : Z := let a := mulmod t t mimc_Q in mulmod (mulmod a (mulmod a a mimc_Q) mimc_Q) t mimc_Q.
Definition rnd5 (t : Z) : Z := let a := mulmod t t mimc_Q in mulmod (mulmod a a mimc_Q) t mimc_Q.
Lemma perm7_loop_S n c x k : perm7_loop (S n) c x k = perm7_loop n (keccak_word c) (perm_step rnd7 x (keccak_word c) k) k.
Proof. reflexivity. Qed.
Lemma perm5_loop_S n c x k : perm5_loop (S n) c x k = perm5_loop n (keccak_word c) (perm_step rnd5 x (keccak_word c) k) k.
Proof. reflexivity. Qed.
Lemma constants_loop_S n d : constants_loop (S n) d = Fof (be_value (keccak256 d)) :: constants_loop n (keccak256 d).
Proof. reflexivity. Qed.
Lemma mimc_rounds_cons e c C x k : mimc_rounds e (c :: C) x k = mimc_rounds e C (Fpow (x + k + c) e) k.
Proof. reflexivity. Qed.
Lemma perm_step_ok e rnd x c k : (forall t, Fof (rnd t) = Fpow (Fof t) e) ->
  Fof (perm_step rnd x c k) = Fpow (Fof x + Fof k + Fof c) e.
Proof. intros R. unfold perm_step. rewrite R, !Fof_addmod_m. apply (f_equal (fun z => Fpow z e)). ring. Qed.
Lemma rnd7_ok t : Fof (rnd7 t) = Fpow (Fof t) 7.
Proof. exact (t7 t). Qed.
Lemma rnd5_ok t : Fof (rnd5 t) = Fpow (Fof t) 5.
Proof. exact (t5 t). Qed.
Lemma perm7_loop_ok k n : forall d x,
  Fof (perm7_loop n (be_value (keccak256 d)) x k) = mimc_rounds 7 (constants_loop n (keccak256 d)) (Fof x) (Fof k).
Proof.
  induction n as [|n IH]; intros d x; [reflexivity|].
  rewrite perm7_loop_S, constants_loop_S, mimc_rounds_cons, keccak_word_digest.
  rewrite IH, (perm_step_ok 7 rnd7 x _ k rnd7_ok). reflexivity.
Qed.
Lemma perm5_loop_ok k n : forall d x,
  Fof (perm5_loop n (be_value (keccak256 d)) x k) = mimc_rounds 5 (constants_loop n (keccak256 d)) (Fof x) (Fof k).
Proof.
  induction n as [|n IH]; intros d x; [reflexivity|].
  rewrite perm5_loop_S, constants_loop_S, mimc_rounds_cons, keccak_word_digest.
  rewrite IH, (perm_step_ok 5 rnd5 x _ k rnd5_ok). reflexivity.
Qed.
Lemma perm_seed_ok : perm_seed = be_value (keccak256 MIMC_SEED).
Proof. vm_compute. reflexivity. Qed.

(** *** the literals are the chain *)
Fixpoint chain_check (ls : list Z) (d : list Z) : bool :=
  match ls with
  | [] => true
  | c :: ls' => let d' := keccak256 d in (be_value d' mod p_mod =? c)%Z && chain_check ls' d'
  end.
Lemma chain_check_ok ls : forall d, chain_check ls d = true -> map Fof ls = constants_loop (length ls) d.
Proof.
  induction ls as [|c ls IH]; intros d H; [reflexivity|]. cbn [chain_check] in H. apply andb_prop in H.
  destruct H as [H1 H2]. cbn [map length constants_loop]. cbv zeta. rewrite (IH _ H2). f_equal.
  apply Z.eqb_eq in H1. rewrite <- H1. apply Fof_modp.
Qed.
Lemma chain_check_firstn n : forall ls d, chain_check ls d = true -> chain_check (firstn n ls) d = true.
Proof.
  induction n as [|n IH]; intros ls d H; [reflexivity|]. destruct ls as [|c ls]; [reflexivity|].
  cbn [chain_check firstn] in *. apply andb_prop in H. destruct H as [H1 H2]. rewrite H1. cbn [andb]. apply IH. exact H2.
Qed.
Lemma pe5_chain : chain_check pe5_literals (keccak256 MIMC_SEED) = true.
Proof. vm_compute. reflexivity. Qed.
Lemma pe7_firstn : firstn 91 pe5_literals = pe7_literals.
Proof. reflexivity. Qed.
Lemma pe5_constants : map Fof pe5_literals = mimc_constants 110.
Proof. apply (chain_check_ok pe5_literals). exact pe5_chain. Qed.
Lemma pe7_constants : map Fof pe7_literals = mimc_constants 91.
Proof. apply (chain_check_ok pe7_literals). rewrite <- pe7_firstn. apply chain_check_firstn. exact pe5_chain. Qed.
