(** Property theorems C75-C80: the gadgets sha256_many and sha256_full_gadget_512.  Proofs are in
    P_ShaGadget5.v, Q_ShaGadget.v, Q_ShaGadget2.v and Q_ShaGadget3.v.

    Vocabulary (Spec_ShaGadget.v, Spec_Sha256.v): [compressor_ok C] is the contract of a compression
    gadget: on Boolean inputs its constraints force the output to be the FIPS 180-4 compression of the
    inputs, and its witness generator satisfies them.  [sha256_bits m] is the FIPS 180-4 digest of the bit
    string [m]; [hash_padded p] the iterated compression of a bit string that is already padded.
    [frame a b s t] says that [s] and [t] agree outside the variables [a .. b-1]. *)
From Coq Require Import List ZArith Bool Arith Lia.
From Verif Require Import Primes Field Base R1CS R1CSFacts Gadget M_Padding P_Bits P_Padding M_Sha256 M_ShaGadget M_ShaGadgets
  Spec_Utils Spec_Padding Spec_Sha256 Spec_ShaGadget P_Utils P_Padding P_Sha256 P_ShaGadget5 P_ShaGadgets Q_ShaGadget Q_ShaGadget2 Q_ShaGadget3.
Import ListNotations.
Local Open Scope nat_scope.

(** ** libsnark's compression gadget meets the contract, so the theorems below apply to it. *)
Theorem C75_libsnark_compression_ok : compressor_ok libsnark_sha256.
Proof. exact libsnark_sha256_ok. Qed.
Print Assumptions C75_libsnark_compression_ok.

(** ** C75: the witness sha256_many generates satisfies its constraints and its result is the SHA-256
    digest of the input bits, for every whole number of bytes. *)
Theorem C75_sha256_many_honest : forall C (xs : list nat) (msg : list bool) n s cs0, compressor_ok C -> length xs mod 8 = 0 -> 0 < length xs ->
  Forall (fun v => v < n) xs -> map s xs = map b2F msg ->
  exists g pb' new cs r s', sha256_many_new C xs (PB n s cs0) = Ok (g, pb') /\ pb_cs pb' = cs0 ++ new /\
    sha256_many_constraints C g = Ok cs /\ sha256_many_result g = Ok r /\ sha256_many_witness C g (pb_val pb') = Ok s' /\
    frame n (pb_next pb') s s' /\ sat s' (new ++ cs) /\ map s' r = map b2F (sha256_bits msg).
Proof. exact many_honest. Qed.
Print Assumptions C75_sha256_many_honest.
Example C75_example : exists g pb' cs r s', sha256_many_new libsnark_sha256 (seq 0 16) (PB 16 (fun v => b2F (Nat.even v)) []) = Ok (g, pb') /\
  sha256_many_constraints libsnark_sha256 g = Ok cs /\ sha256_many_result g = Ok r /\
  sha256_many_witness libsnark_sha256 g (pb_val pb') = Ok s' /\ sat s' (pb_cs pb' ++ cs) /\
  map s' r = map b2F (sha256_bits (map Nat.even (seq 0 16))).
Proof.
  destruct (C75_sha256_many_honest libsnark_sha256 (seq 0 16) (map Nat.even (seq 0 16)) 16 (fun v => b2F (Nat.even v)) [] C75_libsnark_compression_ok)
    as (g & pb' & new & cs & r & s' & H1 & H2 & H3 & H4 & H5 & _ & H6 & H7).
  - reflexivity.
  - rewrite seq_length. lia.
  - apply Forall_forall. intros v Hv. apply in_seq in Hv. lia.
  - symmetry. apply map_map.
  - exists g, pb', cs, r, s'. rewrite H2. exact (conj H1 (conj H3 (conj H4 (conj H5 (conj H6 H7))))).
Qed.

(** ** C76: whatever satisfies the constraints of sha256_many has the digest of the input in the result.
    False: the filler bits of the padding are unconstrained. *)
Theorem C76_sha256_many_sound_refuted : forall C, compressor_ok C -> exists xs msg n s g pb' cs r t,
  sha256_many_new C xs (PB n s []) = Ok (g, pb') /\ sha256_many_constraints C g = Ok cs /\ sha256_many_result g = Ok r /\
  sat t (pb_cs pb' ++ cs) /\ map t xs = map b2F msg /\ map t r <> map b2F (sha256_bits msg).
Proof. exact many_sound_refuted. Qed.
Print Assumptions C76_sha256_many_sound_refuted.
(** Every filler is accepted: for each message there are 2^k - 1 wrong digests to choose from. *)
Theorem C76_sha256_many_filler_free : forall C (xs : list nat) (msg : list bool) n s cs0, compressor_ok C -> length xs mod 8 = 0 -> 0 < length xs ->
  Forall (fun v => v < n) xs -> map s xs = map b2F msg ->
  exists k g pb' new cs r, pad_zeros 512 (length msg) k /\ 0 < k /\ sha256_many_new C xs (PB n s cs0) = Ok (g, pb') /\ pb_cs pb' = cs0 ++ new /\
    sha256_many_constraints C g = Ok cs /\ sha256_many_result g = Ok r /\
    forall filler, length filler = k -> exists t, frame n (pb_next pb') s t /\ sat t (new ++ cs) /\ map t xs = map b2F msg /\
      map t r = map b2F (hash_padded (msg ++ [true] ++ filler ++ msb_bits 64 (Z.of_nat (length msg)))).
Proof. exact many_free. Qed.
Print Assumptions C76_sha256_many_filler_free.
(** What is true: the result is the digest if the filler variables are zero.  Missing: constraints that
    make them zero. *)
Theorem C76_sha256_many_sound_partial : forall C (xs : list nat) (msg : list bool) n s cs0, compressor_ok C -> length xs mod 8 = 0 -> 0 < length xs ->
  Forall (fun v => v < n) xs ->
  exists g pb' new cs r, sha256_many_new C xs (PB n s cs0) = Ok (g, pb') /\ pb_cs pb' = cs0 ++ new /\
    sha256_many_constraints C g = Ok cs /\ sha256_many_result g = Ok r /\
    forall t, sat t (new ++ cs) -> map t xs = map b2F msg ->
      Forall (fun v => t v = F0) (firstn (length (concat (sm_blocks g)) - length xs - 65) (skipn (length xs + 1) (concat (sm_blocks g)))) ->
      map t r = map b2F (sha256_bits msg).
Proof. exact many_sound_partial. Qed.
Print Assumptions C76_sha256_many_sound_partial.

(** ** C77: the witness of sha256_full_gadget_512 satisfies its constraints and the output is the SHA-256
    digest of the 512 bits of the block. *)
Theorem C77_sha256_full_honest : forall C input output (m : list bool) n s cs0, compressor_ok C -> length input = 512 -> length output = 256 -> NoDup output ->
  Forall (fun v => v < n /\ ~ In v output) input -> Forall (fun v => v < n) output -> map s input = map b2F m ->
  exists g pb' s', full_new C input output (PB n s cs0) = Ok (g, pb') /\ pb_cs pb' = cs0 /\ full_witness C g (pb_val pb') = Ok s' /\
    (forall b, sat s' (full_constraints C g b)) /\ (forall v, v < n -> ~ In v output -> s' v = s v) /\ map s' output = map b2F (sha256_bits m).
Proof. exact full_honest. Qed.
Print Assumptions C77_sha256_full_honest.
Example C77_example : exists g pb' s',
  full_new libsnark_sha256 (seq 0 512) (seq 512 256) (PB 768 (fun _ => F0) []) = Ok (g, pb') /\
  full_witness libsnark_sha256 g (pb_val pb') = Ok s' /\ (forall b, sat s' (full_constraints libsnark_sha256 g b)) /\
  map s' (seq 512 256) = map b2F (sha256_bits (repeat false 512)).
Proof.
  destruct seq_io as [A B].
  destruct (C77_sha256_full_honest libsnark_sha256 (seq 0 512) (seq 512 256) (repeat false 512) 768 (fun _ => F0) [] C75_libsnark_compression_ok)
    as (g & pb' & s' & H1 & _ & H3 & H4 & _ & H6);
    [apply seq_length|apply seq_length|apply seq_NoDup|exact A|exact B|reflexivity|].
  exists g, pb', s'. exact (conj H1 (conj H3 (conj H4 H6))).
Qed.

(** ** C78: whatever satisfies the constraints of sha256_full_gadget_512 has the digest of the block in the
    output.  False: the 512 variables of the padding block are unconstrained. *)
Theorem C78_sha256_full_sound_refuted : forall C, compressor_ok C -> exists input output m n s g pb' t,
  full_new C input output (PB n s []) = Ok (g, pb') /\ pb_cs pb' = [] /\ (forall b, sat t (full_constraints C g b)) /\
  map t input = map b2F m /\ map t output <> map b2F (sha256_bits m).
Proof. exact full_sound_refuted. Qed.
Print Assumptions C78_sha256_full_sound_refuted.
Theorem C78_sha256_full_padding_free : forall C input output (m pad : list bool) n s cs0, compressor_ok C -> length input = 512 -> length output = 256 -> NoDup output ->
  Forall (fun v => v < n /\ ~ In v output) input -> Forall (fun v => v < n) output -> map s input = map b2F m -> length pad = 512 ->
  exists g pb' t, full_new C input output (PB n s cs0) = Ok (g, pb') /\ pb_cs pb' = cs0 /\
    (forall b, sat t (full_constraints C g b)) /\ map t input = map b2F m /\ map t output = map b2F (hash_padded (m ++ pad)).
Proof. exact full_free. Qed.
Print Assumptions C78_sha256_full_padding_free.
(** What is true: the output is the digest if these variables hold the padding.  Missing: constraints that
    make them hold it. *)
Theorem C78_sha256_full_sound_partial : forall C input output n s cs0, compressor_ok C -> length input = 512 -> length output = 256 -> NoDup output ->
  Forall (fun v => v < n /\ ~ In v output) input -> Forall (fun v => v < n) output ->
  exists g pb', full_new C input output (PB n s cs0) = Ok (g, pb') /\ pb_cs pb' = cs0 /\
    forall b t m, sat t (full_constraints C g b) -> map t input = map b2F m -> map t (fg_padding g) = map b2F (pad_suffix 512 447) ->
      map t output = map b2F (sha256_bits m).
Proof. exact full_sound_partial. Qed.
Print Assumptions C78_sha256_full_sound_partial.

(** ** C79: the witness overloads of sha256_full_gadget_512 that are given the block satisfy the
    constraints.  False for every block: they never run the final hasher. *)
Theorem C79_full_witness_overloads_refuted : exists input output bytes n s g pb' s', forall c, length (sc_data c) = 16 ->
  length bytes = 64 /\ Forall byte bytes /\ full_new libsnark_sha256 input output (PB n s []) = Ok (g, pb') /\
  full_witness_bytes libsnark_sha256 c g bytes (pb_val pb') = Ok s' /\
  full_witness_expected libsnark_sha256 g (bits_of_bytes bytes) (sha256_bits (bits_of_bytes bytes)) (pb_val pb') = Ok s' /\
  ~ sat s' (full_constraints libsnark_sha256 g true).
Proof. exact full_overloads_refuted. Qed.
Print Assumptions C79_full_witness_overloads_refuted.
Theorem C79_full_witness_expected_never_satisfies : forall input output block expected n s cs0,
  length input = 512 -> length output = 256 -> NoDup input -> NoDup output ->
  Forall (fun v => v < n /\ ~ In v output) input -> Forall (fun v => v < n) output -> length block = 512 -> length expected = 256 ->
  exists g pb' s', full_new libsnark_sha256 input output (PB n s cs0) = Ok (g, pb') /\
    full_witness_expected libsnark_sha256 g block expected (pb_val pb') = Ok s' /\
    map s' input = map b2F block /\ map s' output = map b2F expected /\
    forall b, ~ sat s' (full_constraints libsnark_sha256 g b).
Proof. exact full_expected_refuted. Qed.
Print Assumptions C79_full_witness_expected_never_satisfies.
Theorem C79_full_witness_bytes_never_satisfies : forall c input output bytes n s cs0,
  length (sc_data c) = 16 -> length input = 512 -> length output = 256 -> NoDup input -> NoDup output ->
  Forall (fun v => v < n /\ ~ In v output) input -> Forall (fun v => v < n) output -> length bytes = 64 -> Forall byte bytes ->
  exists g pb' s', full_new libsnark_sha256 input output (PB n s cs0) = Ok (g, pb') /\
    full_witness_bytes libsnark_sha256 c g bytes (pb_val pb') = Ok s' /\
    map s' input = map b2F (bits_of_bytes bytes) /\ map s' output = map b2F (sha256_bits (bits_of_bytes bytes)) /\
    forall b, ~ sat s' (full_constraints libsnark_sha256 g b).
Proof. exact full_bytes_refuted. Qed.
Print Assumptions C79_full_witness_bytes_never_satisfies.

(** ** C80: sha256_many accepts any number of bits.  False: it aborts on every number that is not a
    positive multiple of eight. *)
Theorem C80_sha256_many_any_length_refuted : exists xs : list nat, 0 < length xs /\ forall C pb, sha256_many_new C xs pb = Abort.
Proof. exact many_length_refuted. Qed.
Print Assumptions C80_sha256_many_any_length_refuted.
Theorem C80_sha256_many_aborts : forall C (xs : list nat) pb, length xs mod 8 <> 0 \/ length xs = 0 -> sha256_many_new C xs pb = Abort.
Proof. exact many_any_length_refuted. Qed.
Print Assumptions C80_sha256_many_aborts.
