(** Final lemmas about the MiMC contracts. *)
From Coq Require Import List ZArith Bool Arith Lia Field Ring.
From Verif Require Import Primes Field Base M_Evm Spec_Keccak Spec_Mimc M_Mimc P_Mimc Q_Mimc M_SolMimc M_SolJubjub P_SolJubjub P_SolMimc.
Import ListNotations.
Local Open Scope Z_scope.
Local Open Scope F_scope.

(** the n-th digest of the chain *)
Lemma constants_loop_nth n : forall d i, (i < n)%nat ->
  nth_error (constants_loop n d) i = Some (Fof (be_value (Nat.iter (S i) keccak256 d))).
Proof.
  induction n as [|n IH]; intros d i Hi; [lia|]. rewrite constants_loop_S. destruct i as [|i]; [reflexivity|].
  cbn [nth_error]. rewrite IH by lia. do 3 apply f_equal.
  change (keccak256 (Nat.iter i keccak256 (keccak256 d)) = keccak256 (Nat.iter (S i) keccak256 d)). apply f_equal.
  clear IH Hi. induction i as [|i IH]; [reflexivity|]. cbn [Nat.iter nat_rect].
  change (keccak256 (Nat.iter i keccak256 (keccak256 d)) = keccak256 (keccak256 (Nat.iter i keccak256 d))).
  apply f_equal. exact IH.
Qed.
Lemma constants_loop_len n : forall d, length (constants_loop n d) = n.
Proof. induction n as [|n IH]; intros d; [reflexivity|]. rewrite constants_loop_S. cbn [length]. now rewrite IH. Qed.

Lemma constants_lemma n : length (mimc_constants n) = n /\ forall i, (i < n)%nat ->
  nth_error (mimc_constants n) i = Some (Fof (be_value (Nat.iter (S i) keccak256 (keccak256 MIMC_SEED)))).
Proof. split; [apply constants_loop_len|]. intros i Hi. unfold mimc_constants. apply constants_loop_nth. exact Hi. Qed.
Lemma literals_lemma : map Fof pe7_literals = mimc_constants 91 /\ map Fof pe5_literals = mimc_constants 110 /\
  Forall (fun c => 0 <= c < p_mod)%Z (pe7_literals ++ pe5_literals).
Proof.
  split; [exact pe7_constants|]. split; [exact pe5_constants|]. apply Forall_app. split; [exact pe7_below|exact pe5_below].
Qed.

Lemma perm7_lemma x k : perm_MiMCpe7 x k = fval (mimc_spec 7 (mimc_constants 91) (Fof x) (Fof k)).
Proof.
  unfold perm_MiMCpe7. rewrite addmod_m_fval, perm_seed_ok, perm7_loop_ok. reflexivity.
Qed.
Lemma perm5_lemma x k : perm_MiMCpe5 x k = fval (mimc_spec 5 (mimc_constants 110) (Fof x) (Fof k)).
Proof.
  unfold perm_MiMCpe5. rewrite addmod_m_fval, perm_seed_ok, perm5_loop_ok. reflexivity.
Qed.

Lemma gen7_lemma x k : (0 <= x)%Z -> (0 <= k)%Z -> (x + p_mod + k <= 2 ^ 256)%Z -> (2 * p_mod + k <= 2 ^ 256)%Z ->
  gen_MiMCpe7 x k = fval (mimc_spec 7 (mimc_constants 91) (Fof x) (Fof k)).
Proof. intros. rewrite <- pe7_constants. change (2 ^ 256)%Z with wsize in *. apply gen7_ok; lia. Qed.
Lemma gen5_lemma x k : (0 <= x)%Z -> (0 <= k)%Z -> (x + p_mod + k <= 2 ^ 256)%Z -> (2 * p_mod + k <= 2 ^ 256)%Z ->
  gen_MiMCpe5 x k = fval (mimc_spec 5 (mimc_constants 110) (Fof x) (Fof k)).
Proof. intros. rewrite <- pe5_constants. change (2 ^ 256)%Z with wsize in *. apply gen5_ok; lia. Qed.

(** *** wrapping around *)
Lemma wrap_round rnd e x k c : (forall t, Fof (rnd t) = Fpow (Fof t) e) ->
  (0 <= x < wsize)%Z -> (0 <= k < wsize - p_mod)%Z -> (0 <= c < p_mod)%Z -> (wsize <= x + c + k)%Z ->
  Fof (rnd (wadd (wadd x c) k)) = Fpow (Fof (x - wsize) + Fof k + Fof c) e.
Proof.
  intros R Hx Hk Hc H. rewrite R. apply (f_equal (fun z => Fpow z e)).
  assert (E : wadd (wadd x c) k = (x - wsize + c + k)%Z).
  { unfold wadd. rewrite Zplus_mod_idemp_l. replace (x + c + k)%Z with (x - wsize + c + k + 1 * wsize)%Z by lia.
    rewrite Z.mod_add by discriminate. apply Z.mod_small. lia. }
  rewrite E, !Fof_add. ring.
Qed.
Lemma mimc_inj7 C x y k : mimc_spec 7 C x k = mimc_spec 7 C y k -> x = y.
Proof.
  intros H. apply (f_equal (fun z => mimc_inv_spec inv7 C z k)) in H.
  rewrite !mimc_inv_gen in H by (intros z; apply pow7_inv). exact H.
Qed.
Lemma mimc_inj5 C x y k : mimc_spec 5 C x k = mimc_spec 5 C y k -> x = y.
Proof.
  intros H. apply (f_equal (fun z => mimc_inv_spec inv5 C z k)) in H.
  rewrite !mimc_inv_gen in H by (intros z; apply pow5_inv). exact H.
Qed.
Lemma Fof_wsize_nz x : Fof (x - wsize) <> Fof x.
Proof.
  intros E. rewrite Fof_sub in E. apply (f_equal (fun z => Fof x - z)) in E.
  replace (Fof x - (Fof x - Fof wsize)) with (Fof wsize) in E by ring. replace (Fof x - Fof x) with F0 in E by ring.
  revert E. apply Fof_nz. vm_compute. discriminate.
Qed.
Lemma gen_wrap e rnd rn : (forall k x c, rnd k x c = rn (wadd (wadd x c) k)) ->
  (forall t, Fof (rn t) = Fpow (Fof t) e) ->
  (forall k x c, 0 <= x -> 0 <= c -> 0 <= k -> x + c + k < wsize ->
    Fof (rnd k x c) = Fpow (Fof x + Fof k + Fof c) e)%Z -> (forall k x c, 0 <= rnd k x c < p_mod)%Z ->
  forall ls k x, ls <> [] -> Forall (fun c => 0 <= c < p_mod)%Z ls ->
  (0 <= x < wsize)%Z -> (0 <= k)%Z -> (2 * p_mod + k <= wsize)%Z -> (wsize <= x + k)%Z ->
  Fof (fold_left (rnd k) ls x) = mimc_rounds e (map Fof ls) (Fof (x - wsize)) (Fof k).
Proof.
  intros E R R1 R2 [|c ls] k x Hn HF Hx Hk H1 H2; [congruence|].
  inversion_clear HF as [|? ? Hc HF']. cbn [fold_left map]. rewrite mimc_rounds_cons.
  pose proof (R2 k x c) as HR. assert (Hp : (0 < p_mod)%Z) by reflexivity.
  rewrite (gen_rounds e rnd R1 R2 ls k) by (assumption || lia).
  rewrite E. rewrite (wrap_round rn e x k c R) by (assumption || lia). reflexivity.
Qed.
Lemma gen7_wraps_lemma x k : (0 <= x < 2 ^ 256)%Z -> (0 <= k)%Z -> (2 * p_mod + k <= 2 ^ 256)%Z -> (2 ^ 256 <= x + k)%Z ->
  gen_MiMCpe7 x k = fval (mimc_spec 7 (mimc_constants 91) (Fof (x - 2 ^ 256)) (Fof k)) /\
  gen_MiMCpe7 x k <> fval (mimc_spec 7 (mimc_constants 91) (Fof x) (Fof k)).
Proof.
  intros Hx Hk H1 H2. change (2 ^ 256)%Z with wsize in *.
  assert (E : gen_MiMCpe7 x k = fval (mimc_spec 7 (mimc_constants 91) (Fof (x - wsize)) (Fof k))).
  { rewrite <- pe7_constants. unfold gen_MiMCpe7. rewrite addmod_m_fval.
    rewrite (gen_wrap 7 gen7_round rnd7 (fun _ _ _ => eq_refl) rnd7_ok gen7_round_ok gen7_round_range pe7_literals k x
      ltac:(discriminate) pe7_below Hx Hk H1 H2). reflexivity. }
  split; [exact E|]. rewrite E. intros E2. apply fval_inj in E2. apply mimc_inj7 in E2. exact (Fof_wsize_nz x E2).
Qed.
Lemma gen5_wraps_lemma x k : (0 <= x < 2 ^ 256)%Z -> (0 <= k)%Z -> (2 * p_mod + k <= 2 ^ 256)%Z -> (2 ^ 256 <= x + k)%Z ->
  gen_MiMCpe5 x k = fval (mimc_spec 5 (mimc_constants 110) (Fof (x - 2 ^ 256)) (Fof k)) /\
  gen_MiMCpe5 x k <> fval (mimc_spec 5 (mimc_constants 110) (Fof x) (Fof k)).
Proof.
  intros Hx Hk H1 H2. change (2 ^ 256)%Z with wsize in *.
  assert (E : gen_MiMCpe5 x k = fval (mimc_spec 5 (mimc_constants 110) (Fof (x - wsize)) (Fof k))).
  { rewrite <- pe5_constants. unfold gen_MiMCpe5. rewrite addmod_m_fval.
    rewrite (gen_wrap 5 gen5_round rnd5 (fun _ _ _ => eq_refl) rnd5_ok gen5_round_ok gen5_round_range pe5_literals k x
      ltac:(discriminate) pe5_below Hx Hk H1 H2). reflexivity. }
  split; [exact E|]. rewrite E. intros E2. apply fval_inj in E2. apply mimc_inj5 in E2. exact (Fof_wsize_nz x E2).
Qed.
Lemma gen_refuted_lemma : exists x k, is_word x /\ is_word k /\
  gen_MiMCpe7 x k <> fval (mimc_spec 7 (mimc_constants 91) (Fof x) (Fof k)) /\
  gen_MiMCpe7 x k <> perm_MiMCpe7 x k.
Proof.
  exists (2 ^ 256 - 1)%Z, 1%Z.
  assert (W : gen_MiMCpe7 (2 ^ 256 - 1) 1 <> fval (mimc_spec 7 (mimc_constants 91) (Fof (2 ^ 256 - 1)) (Fof 1))).
  { apply gen7_wraps_lemma; [split; [discriminate|reflexivity]|discriminate|discriminate|discriminate]. }
  split; [split; [discriminate|reflexivity]|]. split; [split; [discriminate|reflexivity]|].
  split; [exact W|]. rewrite perm7_lemma. exact W.
Qed.

(** *** the hashes *)
Definition E7 : F -> F -> F := mimc_spec 7 (mimc_constants 91).
Lemma mp_step r x : (0 <= r < p_mod)%Z -> (0 <= x < 3 * p_mod)%Z ->
  wmod (wadd (wadd r x) (gen_MiMCpe7 x r)) mimc_Q = fval (Fof r + E7 (Fof x) (Fof r) + Fof x).
Proof.
  intros Hr Hx. pose proof word_5p as W. assert (Hp : (0 < p_mod)%Z) by reflexivity.
  assert (G : gen_MiMCpe7 x r = fval (E7 (Fof x) (Fof r))) by (apply gen7_lemma; change (2 ^ 256)%Z with wsize; lia).
  rewrite G. pose proof (fval_range (E7 (Fof x) (Fof r))) as HE.
  unfold wadd. rewrite (Z.mod_small (r + x)) by lia. rewrite (Z.mod_small (r + x + _)) by lia.
  unfold wmod. change (mimc_Q =? 0)%Z with false. cbv iota. rewrite mQ_p, <- fval_Fof.
  apply (f_equal fval). rewrite !Fof_add, Fof_fval. ring.
Qed.
Lemma mp_lemma ms : forall k, (0 <= k < p_mod)%Z -> Forall (fun x => 0 <= x < 3 * p_mod)%Z ms ->
  MiMCpe7_mp ms k = fval (mp_spec E7 (Fof k) (map Fof ms)).
Proof.
  induction ms as [|x ms IH]; intros k Hk HF.
  - cbn. symmetry. apply fval_Fof_small. exact Hk.
  - inversion_clear HF as [|? ? Hx HF']. unfold MiMCpe7_mp. cbn [fold_left map].
    rewrite mp_step by assumption. unfold MiMCpe7_mp in IH. rewrite IH; [|apply fval_range|assumption].
    rewrite Fof_fval. reflexivity.
Qed.
Lemma md_gen (g : Z -> Z -> Z) (E : F -> F -> F) :
  (forall x k, 0 <= x < 3 * p_mod -> 0 <= k < p_mod -> g x k = fval (E (Fof x) (Fof k)))%Z ->
  forall ms k, (0 <= k < p_mod)%Z -> Forall (fun x => 0 <= x < 3 * p_mod)%Z ms ->
  fold_left (fun k x => g x k) ms k = fval (fold_left (fun h m => E m h) (map Fof ms) (Fof k)).
Proof.
  intros G. induction ms as [|x ms IH]; intros k Hk HF.
  - cbn [fold_left map]. symmetry. apply fval_Fof_small. exact Hk.
  - inversion_clear HF as [|? ? Hx HF']. cbn [fold_left map]. rewrite G by assumption.
    rewrite IH; [|apply fval_range|assumption]. rewrite Fof_fval. reflexivity.
Qed.
Lemma gen7_small x k : (0 <= x < 3 * p_mod)%Z -> (0 <= k < p_mod)%Z -> gen_MiMCpe7 x k = fval (E7 (Fof x) (Fof k)).
Proof.
  intros Hx Hk. pose proof word_5p as W. assert (Hp : (0 < p_mod)%Z) by reflexivity.
  apply gen7_lemma; change (2 ^ 256)%Z with wsize; lia.
Qed.
Lemma md_lemma ms k : (0 <= k < p_mod)%Z -> Forall (fun x => 0 <= x < 3 * p_mod)%Z ms ->
  MiMCpe7_md ms k = fval (fold_left (fun h m => E7 m h) (map Fof ms) (Fof k)).
Proof. exact (md_gen gen_MiMCpe7 E7 gen7_small ms k). Qed.
Lemma mimc_constants_nonempty n : n <> O -> mimc_constants n <> [].
Proof.
  intros Hn E. apply (f_equal (@length F)) in E. unfold mimc_constants in E. rewrite constants_loop_len in E. exact (Hn E).
Qed.
Lemma mp_native_lemma ms k : ms <> [] -> (0 <= k < p_mod)%Z -> Forall (fun x => 0 <= x < 3 * p_mod)%Z ms ->
  mimc_hash_native (mimc_constants 91) (map Fof ms) (Fof k) = Ok (Fof (MiMCpe7_mp ms k)).
Proof.
  intros Hn Hk HF. rewrite mp_lemma by assumption. rewrite Fof_fval. apply mimc_hash_native_ok.
  - apply mimc_constants_nonempty. discriminate.
  - intros E. destruct ms; [congruence|discriminate].
Qed.
Lemma mp_alias_lemma : exists ms ms' k, ms <> ms' /\ (0 <= k < p_mod)%Z /\ Forall is_word ms /\ Forall is_word ms' /\
  length ms = length ms' /\ MiMCpe7_mp ms k = MiMCpe7_mp ms' k.
Proof.
  exists [7%Z], [(7 + p_mod)%Z], 0%Z. assert (W : Forall (fun x => 0 <= x < 3 * p_mod)%Z [7%Z] /\ Forall (fun x => 0 <= x < 3 * p_mod)%Z [(7 + p_mod)%Z]).
  { split; (constructor; [split; [discriminate|reflexivity]|constructor]). }
  destruct W as [W1 W2].
  split; [discriminate|]. split; [split; [discriminate|reflexivity]|].
  split; [constructor; [split; [discriminate|reflexivity]|constructor]|].
  split; [constructor; [split; [discriminate|reflexivity]|constructor]|]. split; [reflexivity|].
  rewrite !mp_lemma by (assumption || (split; [discriminate|reflexivity])). cbn [map]. rewrite Fof_add, Fof_p.
  replace (Fof 7 + F0) with (Fof 7) by ring. reflexivity.
Qed.
Lemma mp_final ms k : (0 <= k < p_mod)%Z -> Forall (fun x => 0 <= x < 3 * p_mod)%Z ms ->
  MiMCpe7_mp ms k = fval (mp_spec (mimc_spec 7 (mimc_constants 91)) (Fof k) (map Fof ms)).
Proof. exact (mp_lemma ms k). Qed.
Lemma md_final ms k : (0 <= k < p_mod)%Z -> Forall (fun x => 0 <= x < 3 * p_mod)%Z ms ->
  MiMCpe7_md ms k = fval (fold_left (fun h m => mimc_spec 7 (mimc_constants 91) m h) (map Fof ms) (Fof k)).
Proof. exact (md_lemma ms k). Qed.
