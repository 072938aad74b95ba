(** Property theorems C53 (BLAKE2b) and C64-C66 (the Poseidon parameters derived with it).  Proofs are
    in Q_Blake2b.v and Q_PoseidonParams.v.

    Vocabulary: [rfc_blake2b nn key msg] (Spec_Blake2b.v) is BLAKE2b of RFC 7693; [digest i seed]
    (Spec_PoseidonParams.v) is the (i+1)-fold BLAKE2b-256 hash of [seed]; [mds t M] says that the t x t
    matrix [M] (by rows) has branch number t + 1; [permutation] is the Poseidon permutation of all [t]
    elements.  [blake2b_stream] is init, any number of updates, final.  Contexts start with arbitrary
    contents, only their array sizes are given. *)
From Coq Require Import List ZArith Bool Arith Lia.
From Verif Require Import Primes Field Base R1CS R1CSFacts M_Utils M_Blake2b M_Poseidon M_PoseidonParams Spec_Utils Spec_Blake2b Spec_Poseidon Spec_PoseidonParams
  P_Utils Q_Blake2b Q_PoseidonParams.
Import ListNotations.
Local Open Scope nat_scope.

(** ** C53 *)
Theorem C53_blake2b_streaming_is_rfc7693 : forall ctx nn key chunks, length (bc_b ctx) = 128 -> length (bc_h ctx) = 8 -> 0 < nn <= 64 -> length key <= 64 ->
  Forall byte key -> Forall (Forall byte) chunks ->
  blake2b_stream ctx nn key chunks = Ok (Some (rfc_blake2b nn key (concat chunks))).
Proof. exact blake2b_stream_ok. Qed.
Print Assumptions C53_blake2b_streaming_is_rfc7693.
Theorem C53_blake2b_chunking_invariant : forall ctx ctx' nn key chunks inp, length (bc_b ctx) = 128 -> length (bc_h ctx) = 8 -> length (bc_b ctx') = 128 -> length (bc_h ctx') = 8 ->
  Forall byte key -> Forall (Forall byte) chunks -> concat chunks = inp ->
  blake2b_stream ctx nn key chunks = blake2b ctx' nn key inp.
Proof. exact blake2b_chunking. Qed.
Print Assumptions C53_blake2b_chunking_invariant.
Theorem C53_blake2b_illegal_parameters : forall ctx nn key chunks, nn = 0 \/ 64 < nn \/ 64 < length key -> blake2b_stream ctx nn key chunks = Ok None.
Proof. exact blake2b_rejects. Qed.
Print Assumptions C53_blake2b_illegal_parameters.
Theorem C53_digest_shape : forall nn key msg, 0 < nn <= 64 -> length key <= 64 -> Forall byte key -> Forall byte msg ->
  length (rfc_blake2b nn key msg) = nn /\ Forall byte (rfc_blake2b nn key msg).
Proof. exact rfc_blake2b_shape. Qed.
Print Assumptions C53_digest_shape.
(** "abc" in two pieces: the RFC's test vector *)
Example C53_example : blake2b_stream (BCtx (repeat 7%Z 128) (repeat 3%Z 8) 5 5 5 5) 64 [] [[97%Z]; [98%Z; 99%Z]] = Ok (Some
  [186; 128; 165; 63; 152; 28; 77; 13; 106; 39; 151; 182; 159; 18; 246; 233; 76; 33; 47; 20; 104; 90; 196; 183; 75; 18; 187; 111;
   219; 255; 162; 209; 125; 135; 197; 57; 42; 171; 121; 45; 194; 82; 213; 222; 69; 51; 204; 149; 24; 211; 138; 168; 219; 241;
   146; 90; 185; 35; 134; 237; 212; 0; 153; 35]%Z).
Proof. vm_compute. reflexivity. Qed.
(** a keyed hash of a message longer than a block is covered *)
Example C53_example_keyed : blake2b_stream (BCtx (repeat 7%Z 128) (repeat 3%Z 8) 5 5 5 5) 32 [1;2;3]%Z [repeat 9%Z 200; repeat 8%Z 100] =
  Ok (Some (rfc_blake2b 32 [1;2;3]%Z (repeat 9%Z 200 ++ repeat 8%Z 100))).
Proof.
  rewrite C53_blake2b_streaming_is_rfc7693; try reflexivity; try (cbn [length]; lia).
  - repeat (apply Forall_cons; [split; [apply Z.leb_le|apply Z.ltb_lt]; reflexivity|]); apply Forall_nil.
  - repeat (apply Forall_cons; [apply Forall_forall; intros x Hx; apply repeat_spec in Hx; rewrite Hx; split; [apply Z.leb_le|apply Z.ltb_lt]; reflexivity|]); apply Forall_nil.
Qed.

(** ** C64 *)
Theorem C64_poseidon_constants : forall c seed n, length (bc_b c) = 128 -> length (bc_h c) = 8 -> Forall byte seed -> (1 <= n < 2 ^ 32)%Z ->
  exists l, poseidon_constants c seed n = Ok l /\ Z.of_nat (length l) = n /\
    forall i, i < length l -> fval (nth i l F0) = (le_val (digest i seed) mod p_mod)%Z.
Proof. exact constants_lemma. Qed.
Print Assumptions C64_poseidon_constants.
(** asking for no constants makes 2^32 of them: the trip count [n_constants - 1] wraps *)
Theorem C64_no_constants_wraps : forall c seed, length (bc_b c) = 128 -> length (bc_h c) = 8 -> Forall byte seed ->
  exists l, poseidon_constants c seed 0 = Ok l /\ Z.of_nat (length l) = (2 ^ 32)%Z.
Proof. exact constants_zero_lemma. Qed.
Print Assumptions C64_no_constants_wraps.
(** the first constant of Poseidon128, as in test_poseidon.cpp *)
Example C64_example : match poseidon_constants (BCtx (repeat 7%Z 128) (repeat 3%Z 8) 5 5 5 5) seed_constants 1 with
  | Ok [x] => fval x = 14397397413755236225575615486459253198602422701513067526754101844196324375522%Z | _ => False end.
Proof. vm_compute. reflexivity. Qed.

(** ** C65 *)
Theorem C65_poseidon_matrix : forall c seed t, length (bc_b c) = 128%nat -> length (bc_h c) = 8%nat -> Forall byte seed -> (1 <= Z.of_nat t < 2 ^ 31)%Z ->
  exists cs, poseidon_constants c seed (2 * Z.of_nat t) = Ok cs /\ length cs = (2 * t)%nat /\
    ((exists i j, (i < t /\ j < t)%nat /\ nth i cs F0 = nth (t + j) cs F0) -> poseidon_matrix c seed t = Abort) /\
    (~ (exists i j, (i < t /\ j < t)%nat /\ nth i cs F0 = nth (t + j) cs F0) ->
       exists M, poseidon_matrix c seed t = Ok M /\ length M = (t * t)%nat /\
         forall i j, (i < t)%nat -> (j < t)%nat -> (nth (i * t + j) M F0 * (nth i cs F0 - nth (t + j) cs F0))%F = F1).
Proof. exact matrix_lemma. Qed.
Print Assumptions C65_poseidon_matrix.
Theorem C65_poseidon_matrix_is_mds : forall c seed t cs, length (bc_b c) = 128%nat -> length (bc_h c) = 8%nat -> Forall byte seed -> (1 <= Z.of_nat t < 2 ^ 31)%Z ->
  poseidon_constants c seed (2 * Z.of_nat t) = Ok cs -> NoDup cs -> exists M, poseidon_matrix c seed t = Ok M /\ mds t M.
Proof. exact matrix_mds_lemma. Qed.
Print Assumptions C65_poseidon_matrix_is_mds.
Example C65_example : exists M, poseidon_matrix ctx0 seed_matrix 6 = Ok M /\ mds 6 M.
Proof.
  assert (D := seed_matrix_distinct).
  destruct (C64_poseidon_constants ctx0 seed_matrix (2 * Z.of_nat 6) eq_refl eq_refl (proj2 seeds_bytes)) as (cs & E & _); [split; [apply Z.leb_le|apply Z.ltb_lt]; reflexivity|].
  apply (C65_poseidon_matrix_is_mds ctx0 seed_matrix 6 cs); [reflexivity|reflexivity|exact (proj2 seeds_bytes)|split; [apply Z.leb_le|apply Z.ltb_lt]; reflexivity|exact E|].
  change (2 * Z.of_nat 6)%Z with 12%Z in E. rewrite E in D. exact (NoDup_map_inv _ _ (nodupb_ok _ D)).
Qed.

(** ** C66 *)
Theorem C66_poseidon128_parameters : forall c, length (bc_b c) = 128%nat -> length (bc_h c) = 8%nat ->
  exists C M, poseidon_params c 6 8 57 = Ok (C, M) /\ length C = 65%nat /\ mds 6 M /\
    (forall i, (i < 65)%nat -> fval (nth i C F0) = (le_val (digest i seed_constants) mod p_mod)%Z).
Proof. exact poseidon128_params_lemma. Qed.
Print Assumptions C66_poseidon128_parameters.
Theorem C66_mds_permutation_injective : forall t c Fr P C M st st', mds t M -> length st = t -> length st' = t ->
  permutation t c Fr P C M st = permutation t c Fr P C M st' -> st = st'.
Proof. exact permutation_injective. Qed.
Print Assumptions C66_mds_permutation_injective.
Theorem C66_poseidon128_gadget_injective : forall c nI constrain inputs n, length (bc_b c) = 128%nat -> length (bc_h c) = 8%nat ->
  (nI <= 6)%nat -> length inputs = nI -> Forall (fun v => v < n)%nat inputs ->
  exists C M g n' rs cs, poseidon_params c 6 8 57 = Ok (C, M) /\
    poseidon_new 6 1 8 57 nI 6 constrain C M inputs n = Ok (g, n') /\ poseidon_results g = Ok rs /\ poseidon_constraints g = Ok cs /\
    (forall s, exists s', poseidon_witness g s = Ok s' /\ sat s' cs /\ forall v, (v < n)%nat -> s' v = s v) /\
    (forall s s', sat s cs -> sat s' cs -> map (ev s) rs = map (ev s') rs -> map s inputs = map s' inputs).
Proof. exact poseidon128_gadget_lemma. Qed.
Print Assumptions C66_poseidon128_gadget_injective.
Example C66_example : exists C M, poseidon_params (BCtx (repeat 7%Z 128) (repeat 3%Z 8) 5 5 5 5) 6 8 57 = Ok (C, M) /\
  permutation 6 1 8 57 C M (map Fof [1; 2; 3; 4; 5; 6]%Z) <> permutation 6 1 8 57 C M (map Fof [2; 1; 3; 4; 5; 6]%Z).
Proof.
  destruct (C66_poseidon128_parameters (BCtx (repeat 7%Z 128) (repeat 3%Z 8) 5 5 5 5) eq_refl eq_refl) as (C & M & E & _ & HM & _).
  exists C, M. split; [exact E|]. intros X. apply C66_mds_permutation_injective in X; [|exact HM|reflexivity|reflexivity].
  apply (f_equal (map fval)) in X. vm_compute in X. discriminate X.
Qed.
