(** Final lemmas for the properties of /repo/ethsnarks/poseidon/permutation.py. *)
From Coq Require Import List ZArith Bool Arith Lia.
From Verif Require Import Primes Field Base M_Bits M_Point M_Utils M_Blake2b M_Poseidon M_PoseidonParams Spec_Utils Spec_Blake2b Spec_Poseidon Spec_PoseidonParams P_Utils P_Curve Q_Blake2b Q_Poseidon Q_PoseidonParams M_PyPoseidon P_PyPoseidon.
Import ListNotations.
Local Open Scope nat_scope.
Local Open Scope Z_scope.

Lemma py_poseidon_lemma : forall t Fr P C M inputs, (0 < t)%nat -> (0 < Fr + P)%nat -> length C = (Fr + P)%nat -> length M = t -> Forall (fun r => length r = t) M ->
  ((0 < length inputs <= t)%nat -> py_poseidon_state p_mod 5 t Fr P true C M inputs = Ok (map fval (permutation t 1 Fr P (map Fof C) (map Fof (concat M)) (map Fof inputs)))) /\
  ((0 < length inputs < t)%nat -> py_poseidon p_mod 5 t Fr P C M inputs = Ok (fval (nth 0 (permutation t 1 Fr P (map Fof C) (map Fof (concat M)) (map Fof inputs)) F0))) /\
  (inputs = [] \/ (t < length inputs)%nat -> py_poseidon_state p_mod 5 t Fr P true C M inputs = Throw) /\
  (inputs = [] \/ (t <= length inputs)%nat -> py_poseidon p_mod 5 t Fr P C M inputs = Throw).
Proof.
  intros t Fr P C M inputs Ht HR LC LM HM. split; [|split; [|split]].
  - intros HI. apply py_state_ok; auto.
  - intros HI. unfold py_poseidon. rewrite (py_state_ok t Fr P Ht M LM HM C inputs false) by (auto || lia). cbn [obind].
    assert (L : length (permutation t 1 Fr P (map Fof C) (map Fof (concat M)) (map Fof inputs)) = t).
    { fold (flat M). unfold permutation, poseidon_spec. rewrite firstn_length, firstn_fold; [apply Nat.min_id|]. unfold pad. rewrite app_length, map_length, repeat_length. lia. }
    fold (flat M) in *. destruct (permutation t 1 Fr P (map Fof C) (flat M) (map Fof inputs)) as [|x r]; [cbn in L; lia|]. reflexivity.
  - intros [->|H]; [reflexivity|]. unfold py_poseidon_state. rewrite (proj2 (Nat.ltb_lt 0 (length inputs))) by lia. cbn [obind orb].
    replace (t - length inputs)%nat with 0%nat by lia. cbn [repeat]. rewrite app_nil_r. destruct C as [|c C]; [cbn in LC; lia|]. cbn [py_rounds].
    assert (exists st', py_sbox p_mod 5 Fr P (map (fun x => x + c) inputs) 0 = Ok st' /\ length st' = length inputs) as (st' & E & L).
    { unfold py_sbox. destruct ((0 <? Fr / 2) || (Fr / 2 + P <=? 0))%nat; [eexists; split; [reflexivity|now rewrite !map_length]|].
      destruct inputs as [|x inputs]; [cbn in H; lia|]. cbn [map]. eexists. split; [reflexivity|]. cbn [length]. now rewrite map_length. }
    rewrite E. cbn [obind]. destruct M as [|r M]; [cbn in LM; lia|]. apply Forall_inv in HM. unfold py_mix. cbn [omapM].
    assert (ED : forall r st, (length r < length st)%nat -> py_dot r st = Throw).
    { clear. induction r as [|m r IH]; intros [|x st] H; cbn [length] in H; try lia; [reflexivity|]. cbn [py_dot]. rewrite IH by lia. reflexivity. }
    rewrite ED by lia. reflexivity.
  - intros [->|H]; [reflexivity|]. unfold py_poseidon, py_poseidon_state. destruct (0 <? length inputs)%nat; [|reflexivity]. cbn [obind orb].
    rewrite (proj2 (Nat.ltb_ge (length inputs) t)) by assumption. reflexivity.
Qed.

(** ** the parameters *)
Lemma to_bytes_val : forall bs, Forall byte bs -> to_bytes_le (length bs) (le_val bs) = bs.
Proof.
  induction 1 as [|b bs Hb _ IH]; [reflexivity|]. cbn [length to_bytes_le le_val]. unfold byte in Hb.
  replace (b + 256 * le_val bs) with (b + le_val bs * 256) by ring. rewrite Z.mod_add, Z.mod_small by lia. rewrite Z.div_add, Z.div_small by lia. now rewrite Z.add_0_l, IH.
Qed.
Lemma py_constants_nth : forall n seed, Forall byte seed -> length (py_constants (rfc_blake2b 32 []) p_mod seed n) = n /\
  forall i, (i < n)%nat -> nth i (py_constants (rfc_blake2b 32 []) p_mod seed n) 0 = le_val (digest i seed) mod p_mod.
Proof.
  induction n as [|n IH]; intros seed HB; [split; [reflexivity|lia]|]. cbn [py_constants]. unfold py_H.
  destruct (rfc_blake2b_shape 32 [] seed) as [L1 B1]; [lia|cbn [length]; lia|constructor|exact HB|].
  assert (EB : to_bytes_le 32 (le_val (rfc_blake2b 32 [] seed)) = rfc_blake2b 32 [] seed) by (rewrite <- L1 at 1; now apply to_bytes_val). rewrite EB. destruct (IH _ B1) as [L V]. split; [cbn [length]; now rewrite L|].
  intros [|i] Hi; [reflexivity|]. cbn [nth]. rewrite V by lia. unfold digest. f_equal. f_equal. symmetry. apply iter_r.
Qed.
Lemma py_constants_cpp c seed n : length (bc_b c) = 128%nat -> length (bc_h c) = 8%nat -> Forall byte seed -> 1 <= Z.of_nat n < 2 ^ 32 ->
  poseidon_constants c seed (Z.of_nat n) = Ok (map Fof (py_constants (rfc_blake2b 32 []) p_mod seed n)).
Proof.
  intros H1 H2 HB Hn. destruct (constants_lemma c seed (Z.of_nat n) H1 H2 HB Hn) as (l & E & L & V). rewrite E. apply (f_equal Ok).
  destruct (py_constants_nth n seed HB) as [L2 V2]. apply (nth_ext _ _ F0 (Fof 0)); [rewrite map_length; lia|]. intros i Hi. rewrite map_nth, V2 by lia.
  rewrite <- V by assumption. symmetry. apply Fof_fval.
Qed.
Lemma inv_pow x : x <> F0 -> Fpow x (p_mod - 2) = Finv x.
Proof.
  intros N. assert (E : (Fpow x (p_mod - 2) * x)%F = F1) by (rewrite <- Fpow_succ by discriminate; change (p_mod - 2 + 1) with (p_mod - 1); now apply F_fermat).
  transitivity (Fpow x (p_mod - 2) * (x * Finv x))%F; [rewrite Finv_r by assumption; ring|]. transitivity (Fpow x (p_mod - 2) * x * Finv x)%F; [ring|]. rewrite E. ring.
Qed.

Section Matrix.
Variables (t : nat) (seed : list Z).
Let c := py_constants (rfc_blake2b 32 []) p_mod seed (t * 2).
Let cs := map Fof c.
Lemma py_entry i j : nth j (nth i (py_matrix (rfc_blake2b 32 []) p_mod seed t) []) 0 = (if ((i <? t) && (j <? t))%nat then py_pow ((nth i c 0 - nth (t + j) c 0) mod p_mod) (p_mod - 2) p_mod else 0).
Proof.
  unfold py_matrix. fold c. destruct (Nat.ltb_spec i t) as [Hi|Hi]; cbn [andb]; [|rewrite (nth_overflow (map _ (seq 0 t))) by (rewrite map_length, seq_length; lia); destruct j; reflexivity].
  rewrite nth_map_seq by assumption. destruct (Nat.ltb_spec j t) as [Hj|Hj]; [now rewrite nth_map_seq|]. apply nth_overflow. rewrite map_length, seq_length. lia.
Qed.
Lemma Fof_entry i j : Fof (py_pow ((nth i c 0 - nth (t + j) c 0) mod p_mod) (p_mod - 2) p_mod) = Fpow (nth i cs F0 - nth (t + j) cs F0)%F (p_mod - 2).
Proof. rewrite Fof_pow by discriminate. rewrite Fof_mod, Fof_sub. unfold cs. change F0 with (Fof 0). now rewrite !map_nth. Qed.
Lemma py_matrix_cauchy : ~ clash t cs -> map Fof (concat (py_matrix (rfc_blake2b 32 []) p_mod seed t)) = cauchy t cs.
Proof.
  intros N. rewrite concat_map. unfold py_matrix, cauchy. fold c. f_equal. rewrite map_map. apply map_ext_in. intros i Hi. rewrite map_map. apply map_ext_in. intros j Hj.
  apply in_seq in Hi. apply in_seq in Hj. rewrite Fof_entry. apply inv_pow. apply sub_nz. intros E. apply N. exists i, j. split; [lia|exact E].
Qed.
Lemma py_matrix_clash : clash t cs -> exists i j, (i < t /\ j < t)%nat /\ nth j (nth i (py_matrix (rfc_blake2b 32 []) p_mod seed t) []) 0 = 0.
Proof.
  intros (i & j & H & E). exists i, j. split; [exact H|]. rewrite py_entry. destruct H as [Hi Hj].
  rewrite (proj2 (Nat.ltb_lt i t) Hi), (proj2 (Nat.ltb_lt j t) Hj). cbn [andb]. pose proof (Fof_entry i j) as V. rewrite E in V.
  replace (nth (t + j) cs F0 - nth (t + j) cs F0)%F with F0 in V by ring. rewrite Fpow_base_0 in V by reflexivity.
  apply (f_equal fval) in V. rewrite fval_Fof in V. unfold py_pow in *. rewrite Zmod_mod in V. rewrite V. reflexivity.
Qed.
Lemma clash_dec : clash t cs \/ ~ clash t cs.
Proof.
  destruct (existsb (fun i => existsb (fun j => Feqb (nth i cs F0) (nth (t + j) cs F0)) (seq 0 t)) (seq 0 t)) eqn:E.
  - left. apply existsb_exists in E. destruct E as (i & Hi & E). apply existsb_exists in E. destruct E as (j & Hj & E). apply Feqb_true in E. apply in_seq in Hi. apply in_seq in Hj. exists i, j. split; [lia|exact E].
  - right. intros (i & j & [Hi Hj] & EQ). apply Bool.not_true_iff_false in E. apply E. apply existsb_exists. exists i. split; [apply in_seq; lia|].
    apply existsb_exists. exists j. split; [apply in_seq; lia|]. now apply Feqb_true.
Qed.
Lemma py_matrix_cpp ctx : length (bc_b ctx) = 128%nat -> length (bc_h ctx) = 8%nat -> Forall byte seed -> 1 <= Z.of_nat t < 2 ^ 31 ->
  (~ clash t cs /\ poseidon_matrix ctx seed t = Ok (map Fof (concat (py_matrix (rfc_blake2b 32 []) p_mod seed t)))) \/
  (poseidon_matrix ctx seed t = Abort /\ exists i j, (i < t /\ j < t)%nat /\ nth j (nth i (py_matrix (rfc_blake2b 32 []) p_mod seed t) []) 0 = 0).
Proof.
  intros H1 H2 HB Ht. unfold poseidon_matrix. rewrite Z.mod_small by lia. replace (Z.of_nat t * 2) with (Z.of_nat (t * 2)) by lia.
  rewrite py_constants_cpp by (assumption || lia). cbn [obind]. fold c. fold cs.
  destruct (matrix_of t cs) as [M1 M2]. { unfold cs. rewrite map_length. destruct (py_constants_nth (t * 2) seed HB) as [L _]. unfold c. lia. }
  destruct clash_dec as [K|K].
  - right. split; [exact (M2 K)|now apply py_matrix_clash].
  - left. split; [exact K|]. rewrite py_matrix_cauchy by assumption. exact (M1 K).
Qed.
End Matrix.
Lemma py_params_lemma : forall c t Fr P C M, length (bc_b c) = 128%nat -> length (bc_h c) = 8%nat -> 1 <= Z.of_nat (Fr + P) < 2 ^ 32 -> 1 <= Z.of_nat t < 2 ^ 31 ->
  py_poseidon_params (rfc_blake2b 32 []) p_mod t Fr P = (C, M) ->
  length C = (Fr + P)%nat /\ length M = t /\ Forall (fun r => length r = t) M /\
  (poseidon_params c t Fr P = Ok (map Fof C, map Fof (concat M)) \/ (poseidon_params c t Fr P = Abort /\ exists i j, (i < t /\ j < t)%nat /\ nth j (nth i M []) 0 = 0)).
Proof.
  intros c t Fr P C M H1 H2 HR Ht E. destruct seeds_bytes as [B1 B2]. unfold py_poseidon_params in E. fold seed_constants in E. fold seed_matrix in E.
  assert (EC : C = py_constants (rfc_blake2b 32 []) p_mod seed_constants (Fr + P)) by congruence.
  assert (EM : M = py_matrix (rfc_blake2b 32 []) p_mod seed_matrix t) by congruence. clear E.
  split; [rewrite EC; now apply py_constants_nth|]. split; [rewrite EM; unfold py_matrix; now rewrite map_length, seq_length|].
  split. { rewrite EM. apply Forall_forall. intros r Hr. unfold py_matrix in Hr. apply in_map_iff in Hr. destruct Hr as (i & <- & _). now rewrite map_length, seq_length. }
  unfold poseidon_params. rewrite <- Nat2Z.inj_add, Z.mod_small by lia. rewrite py_constants_cpp by assumption. rewrite <- EC. cbn [obind].
  destruct (py_matrix_cpp t seed_matrix c H1 H2 B2 Ht) as [[_ K]|[K1 K2]].
  - left. rewrite K. cbn [obind]. now rewrite EM.
  - right. rewrite K1. split; [reflexivity|]. rewrite EM. exact K2.
Qed.
(** default parameters, all the way *)
Lemma py_default_lemma : forall c C M inputs, length (bc_b c) = 128%nat -> length (bc_h c) = 8%nat ->
  py_poseidon_params (rfc_blake2b 32 []) p_mod 6 8 57 = (C, M) -> (0 < length inputs < 6)%nat ->
  exists CF MF x, poseidon_params c 6 8 57 = Ok (CF, MF) /\ mds 6 MF /\
    poseidon_permute 6 1 8 57 (length inputs) 1 CF MF (map Fof inputs) = Ok [x] /\ py_poseidon p_mod 5 6 8 57 C M inputs = Ok (fval x).
Proof.
  intros c C M inputs H1 H2 E HI.
  destruct (py_params_lemma c 6 8 57 C M H1 H2 ltac:(lia) ltac:(lia) E) as (LC & LM & HM & D).
  destruct (poseidon128_params_lemma c H1 H2) as (CF & MF & EP & LCF & HMDS & _).
  destruct D as [D|[D _]]; [|rewrite D in EP; discriminate EP]. assert (EE : (CF, MF) = (map Fof C, map Fof (concat M))) by congruence.
  assert (E1 : CF = map Fof C) by congruence. assert (E2 : MF = map Fof (concat M)) by congruence.
  exists CF, MF, (nth 0 (permutation 6 1 8 57 CF MF (map Fof inputs)) F0). split; [exact EP|]. split; [exact HMDS|]. split.
  - rewrite poseidon_permute_lemma; try lia; [|apply HMDS|now rewrite map_length]. apply (f_equal Ok). unfold permutation, poseidon_spec.
    match goal with |- firstn 1 ?l = [nth 0 (firstn 6 ?l') F0] => assert (L : length l = 6%nat) end.
    { rewrite E1, E2. fold (flat M). apply (firstn_fold 6 8 57 M C). unfold pad. rewrite app_length, map_length, repeat_length. lia. }
    match goal with |- firstn 1 ?l = _ => destruct l as [|a l0]; [discriminate L|reflexivity] end.
  - rewrite E1, E2. apply (py_poseidon_lemma 6 8 57 C M inputs ltac:(lia) ltac:(lia) LC LM HM). exact HI.
Qed.
