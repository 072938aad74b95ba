(** Lemmas for C131 and C132. *)
From Coq Require Import List ZArith Bool Lia Arith.
From Verif Require Import Base M_Evm M_SolMimc P_SolMimc P_PyPoint P_Padding P_Poseidon M_PyEvmasm.
Import ListNotations.
Local Open Scope nat_scope.
Local Open Scope Z_scope.

(** ** bytes *)
Lemma be_value_be n : forall v, 0 <= v < 256 ^ Z.of_nat n -> be_value (be_bytes n v) = v.
Proof.
  induction n as [|n IH]; intros v V; cbn [be_bytes]; [change (256 ^ Z.of_nat 0) with 1 in V; change (be_value []) with 0; lia|].
  rewrite Nat2Z.inj_succ, Z.pow_succ_r in V by lia. rewrite be_value_snoc, IH.
  - pose proof (Z.div_mod v 256 ltac:(lia)). lia.
  - split; [apply Z.div_pos; lia|]. apply Z.div_lt_upper_bound; lia.
Qed.
Lemma be_value_app : forall l2 l1, be_value (l1 ++ l2) = be_value l1 * 256 ^ Z.of_nat (length l2) + be_value l2.
Proof.
  induction l2 as [|b l2 IH] using rev_ind; intros l1; [rewrite app_nil_r; change (256 ^ Z.of_nat (length (@nil Z))) with 1; change (be_value []) with 0; lia|].
  rewrite app_assoc, !be_value_snoc, IH, app_length. cbn [length]. rewrite Nat.add_1_r, Nat2Z.inj_succ, Z.pow_succ_r by lia. ring.
Qed.
Lemma be_value_range l : Forall (fun d => 0 <= d < 256) l -> 0 <= be_value l < 256 ^ Z.of_nat (length l).
Proof.
  induction l as [|b l IH] using rev_ind; intros F; [change (be_value []) with 0; change (256 ^ Z.of_nat (length (@nil Z))) with 1; lia|].
  apply Forall_app in F. destruct F as [F1 F2]. inversion_clear F2 as [|? ? B _]. specialize (IH F1). rewrite be_value_snoc, app_length. cbn [length]. rewrite Nat.add_1_r, Nat2Z.inj_succ, Z.pow_succ_r by lia. lia.
Qed.
Lemma push_width_ok v : 0 <= v < 2 ^ 256 - 1 -> (1 <= push_width v <= 32)%nat /\ v < 256 ^ Z.of_nat (push_width v).
Proof.
  intros V. unfold push_width. destruct (Z.eqb_spec v 0) as [->|N]; [split; [lia|reflexivity]|].
  assert (L0 : 0 <= Z.log2 v) by apply Z.log2_nonneg. assert (L1 : Z.log2 v < 256) by (apply Z.log2_lt_pow2; lia).
  assert (D0 : 0 <= Z.log2 v / 8) by (apply Z.div_pos; lia). assert (D1 : Z.log2 v / 8 < 32) by (apply Z.div_lt_upper_bound; lia).
  split; [lia|]. rewrite Z2Nat.id by lia. pose proof (Z.log2_spec v ltac:(lia)) as [_ S]. change 256 with (2 ^ 8). rewrite <- Z.pow_mul_r by lia.
  eapply Z.lt_le_trans; [exact S|]. apply Z.pow_le_mono_r; [lia|]. pose proof (Z.div_mod (Z.log2 v) 8 ltac:(lia)). pose proof (Z.mod_pos_bound (Z.log2 v) 8 ltac:(lia)). lia.
Qed.
Lemma push_ok_iff v : push_ok v = true <-> 0 <= v < 2 ^ 256 - 1.
Proof. unfold push_ok. rewrite andb_true_iff, Z.leb_le, Z.ltb_lt. reflexivity. Qed.

(** ** the steps *)
Ltac stp := cbn [evm_run]; cbv beta iota delta [exec andb Z.leb Z.compare Pos.compare Pos.compare_cont Z.eqb Pos.eqb].
Section Steps.
Variables code cd : list Z.
Local Notation run n := (evm_run n code cd).
Lemma exec_push w bs l st mem : (1 <= w <= 32)%nat -> length bs = w ->
  exec code cd (0x5f + Z.of_nat w) (bs ++ l) st mem = Go l (be_value bs :: st) mem.
Proof.
  intros W L. unfold exec. destruct (Z.leb_spec 96 (95 + Z.of_nat w)); [|lia]. destruct (Z.leb_spec (95 + Z.of_nat w) 127); [|lia]. cbn [andb].
  replace (Z.to_nat (95 + Z.of_nat w - 95)) with w by lia. rewrite skipn_app, skipn_all2 by lia. replace (w - length bs)%nat with 0%nat by lia. cbn [skipn app].
  rewrite <- app_assoc, firstn_app, firstn_all2 by lia. replace (w - length bs)%nat with 0%nat by lia. cbn [firstn]. now rewrite app_nil_r.
Qed.
Lemma run_raw n w bs l st mem : (1 <= w <= 32)%nat -> length bs = w -> run (S n) (0x5f + Z.of_nat w :: bs ++ l) st mem = run n l (be_value bs :: st) mem.
Proof. intros W L. cbn [evm_run]. now rewrite exec_push. Qed.
Lemma run_push n v l st mem : 0 <= v < 2 ^ 256 - 1 -> run (S n) (push_data v ++ l) st mem = run n l (v :: st) mem.
Proof.
  intros V. destruct (push_width_ok v V) as [W B]. unfold push_data. cbn [evm_run app]. rewrite exec_push; [|exact W|apply be_bytes_len]. now rewrite be_value_be by lia.
Qed.
Lemma run_dup0 n l a st mem : run (S n) (128 :: l) (a :: st) mem = run n l (a :: a :: st) mem. Proof. stp; reflexivity. Qed.
Lemma run_dup1 n l a b st mem : run (S n) (129 :: l) (a :: b :: st) mem = run n l (b :: a :: b :: st) mem. Proof. stp; reflexivity. Qed.
Lemma run_dup2 n l a b c st mem : run (S n) (130 :: l) (a :: b :: c :: st) mem = run n l (c :: a :: b :: c :: st) mem. Proof. stp; reflexivity. Qed.
Lemma run_dup3 n l a b c d st mem : run (S n) (131 :: l) (a :: b :: c :: d :: st) mem = run n l (d :: a :: b :: c :: d :: st) mem. Proof. stp; reflexivity. Qed.
Lemma run_swap3 n l a b c d st mem : run (S n) (146 :: l) (a :: b :: c :: d :: st) mem = run n l (d :: b :: c :: a :: st) mem. Proof. stp; reflexivity. Qed.
Lemma run_addmod n l a b q st mem : q <> 0 -> run (S n) (8 :: l) (a :: b :: q :: st) mem = run n l ((a + b) mod q :: st) mem.
Proof. intros Q. stp. destruct q; [congruence| |]; reflexivity. Qed.
Lemma run_mulmod n l a b q st mem : q <> 0 -> run (S n) (9 :: l) (a :: b :: q :: st) mem = run n l ((a * b) mod q :: st) mem.
Proof. intros Q. stp. destruct q; [congruence| |]; reflexivity. Qed.
Lemma run_sub n l a b st mem : run (S n) (3 :: l) (a :: b :: st) mem = run n l ((a - b) mod 2 ^ 256 :: st) mem. Proof. stp; reflexivity. Qed.
Lemma run_div n l a b st mem : run (S n) (4 :: l) (a :: b :: st) mem = run n l ((if b =? 0 then 0 else a / b) :: st) mem. Proof. stp; reflexivity. Qed.
Lemma run_eq n l a b st mem : run (S n) (20 :: l) (a :: b :: st) mem = run n l ((if a =? b then 1 else 0) :: st) mem. Proof. stp; reflexivity. Qed.
Lemma run_cdcopy n l d o k st mem : run (S n) (55 :: l) (d :: o :: k :: st) mem = run n l st (copy_to mem d o k cd). Proof. stp; reflexivity. Qed.
Lemma run_codesize n l st mem : run (S n) (56 :: l) st mem = run n l (Z.of_nat (length code) :: st) mem. Proof. stp; reflexivity. Qed.
Lemma run_codecopy n l d o k st mem : run (S n) (57 :: l) (d :: o :: k :: st) mem = run n l st (copy_to mem d o k code). Proof. stp; reflexivity. Qed.
Lemma run_mload n l a st mem : run (S n) (81 :: l) (a :: st) mem = run n l (be_value (read mem a 32) :: st) mem. Proof. stp; reflexivity. Qed.
Lemma run_mstore n l a v st mem : run (S n) (82 :: l) (a :: v :: st) mem = run n l st (copy_to mem a 0 32 (be_bytes 32 v)). Proof. stp; reflexivity. Qed.
Lemma run_jumpi n l t c st mem : run (S n) (87 :: l) (t :: c :: st) mem =
  if c =? 0 then run n l st mem else if valid_dest code t then run n (skipn (Z.to_nat t) code) st mem else Throw.
Proof. stp. destruct c; [reflexivity| |]; destruct (valid_dest code t); reflexivity. Qed.
Lemma run_jumpdest n l st mem : run (S n) (91 :: l) st mem = run n l st mem. Proof. stp; reflexivity. Qed.
Lemma run_return n l a k st mem : run (S n) (243 :: l) (a :: k :: st) mem = Ok (read mem a (Z.to_nat k)). Proof. stp; reflexivity. Qed.
Lemma run_invalid n l st mem : run (S n) (254 :: l) st mem = Throw. Proof. stp; reflexivity. Qed.
End Steps.

(** ** memory *)
Lemma read_copy mem d off k src n a : 0 <= off -> d <= a -> a + Z.of_nat n <= d + k -> (Z.to_nat (off + (a - d)) + n <= length src)%nat ->
  read (copy_to mem d off k src) a n = firstn n (skipn (Z.to_nat (off + (a - d))) src).
Proof.
  intros O A B L. set (s := Z.to_nat (off + (a - d))) in *. apply (nth_ext _ _ 0 0).
  - unfold read. rewrite map_length, seq_length, firstn_length, skipn_length. lia.
  - unfold read. rewrite map_length, seq_length. intros i I. rewrite (nth_indep _ 0 ((fun i => copy_to mem d off k src (a + Z.of_nat i)) 0%nat)) by (rewrite map_length, seq_length; exact I).
    rewrite (map_nth (fun i => copy_to mem d off k src (a + Z.of_nat i))), seq_nth by exact I. cbn [Nat.add]. unfold copy_to.
    destruct (Z.leb_spec d (a + Z.of_nat i)); [|lia]. destruct (Z.ltb_spec (a + Z.of_nat i) (d + k)); [|lia]. cbn [andb].
    rewrite nth_firstn_lt by exact I. rewrite nth_skipn. f_equal. unfold s. lia.
Qed.
