(** Property theorems C99-C105: the on-chain verifier /repo/contracts/Verifier.sol and the packing functions
    of /repo/contracts/SnarkUtils.sol.  Proofs are in P_SolVerifier.v, Q_SolVerifier.v, P_SolUtils.v,
    P_SolUtils2.v and Q_SolUtils.v.

    Vocabulary: [pairing_laws], [statement_point], [groth_equation] are those of C44-C46 (Spec_Groth.v); [eip_codec]
    says how the precompiled contracts read and write points, [vk_words], [proof_words], [reads] which elements the
    words given to the contract stand for (Spec_SolVerifier.v); [stream_bit], [chunk], [packed] describe
    the bit stream of a list of words (Spec_SolUtils.v).  [Throw] is a revert. *)
From Coq Require Import List ZArith Bool Lia.
From Verif Require Import Primes Field FieldQ Base M_Point M_Groth Spec_Groth Q_Groth M_Evm M_SolVerifier Spec_SolVerifier P_SolVerifier Q_SolVerifier
  M_SolUtils Spec_SolUtils P_SolUtils P_SolUtils2 Q_SolUtils.
Import ListNotations.
Local Open Scope Z_scope.

(** ** C99: on readable words the contract decides the verification equation, except that it reverts when
    alpha, the statement's element or C is the point at infinity; and whenever it answers at all, the words were
    readable and the answer is the equation. *)
Theorem C99_contract_decides : forall E S1 S2 C, pairing_laws E S1 S2 -> eip_codec E S1 S2 C ->
  forall v abc w inputs al be ga de ic0 ics A B Cc,
  vk_words E C v al be ga de -> reads E C abc (ic0 :: ics) -> proof_words E C w A B Cc ->
  Forall (fun s => 0 <= s < p_mod) inputs -> List.length inputs = List.length ics -> Z.of_nat (List.length inputs) < wsize - 1 ->
  let X := statement_point E ic0 ics (map Fof inputs) in
  (al <> g1_zero E -> Cc <> g1_zero E -> X <> g1_zero E ->
     exists b, Verify E C v (flat_points abc) w inputs = Ok b /\ (b = true <-> groth_equation E al be ga de X A B Cc)) /\
  (al = g1_zero E \/ Cc = g1_zero E \/ X = g1_zero E -> Verify E C v (flat_points abc) w inputs = Throw).
Proof. exact contract_decides. Qed.
Print Assumptions C99_contract_decides.
Theorem C99_contract_sound : forall E S1 S2 C, pairing_laws E S1 S2 -> eip_codec E S1 S2 C ->
  forall v abc w inputs b, List.length v = 14%nat -> List.length w = 8%nat ->
  Z.of_nat (List.length abc) < wsize -> Z.of_nat (List.length inputs) < wsize - 1 ->
  Verify E C v abc w inputs = Ok b ->
  exists al be ga de A B Cc pts extra ic0 ics,
    vk_words E C v al be ga de /\ proof_words E C w A B Cc /\
    abc = flat_points pts ++ extra /\ (List.length extra <= 1)%nat /\
    reads E C (map (fun q => (fst q, snd q mod q_mod)) pts) (ic0 :: ics) /\ List.length inputs = List.length ics /\
    Forall (fun s => s < p_mod) inputs /\
    al <> g1_zero E /\ Cc <> g1_zero E /\ statement_point E ic0 ics (map Fof inputs) <> g1_zero E /\
    (b = true <-> groth_equation E al be ga de (statement_point E ic0 ics (map Fof inputs)) A B Cc).
Proof. exact contract_sound. Qed.
Print Assumptions C99_contract_sound.
(** the pairing in the exponent, statement 1: e(A,B) = 12 = 2 + 4*2 + 1*2 *)
Example C99_case :
  pairing_laws expE (fun _ => True) (fun _ => True) /\ eip_codec expE (fun _ => True) (fun _ => True) exp_codec /\
  vk_words expE exp_codec ex_vk (Fof 1) (Fof 2) (Fof 2) (Fof 2) /\ reads expE exp_codec ex_abc [Fof 1; Fof 3] /\
  proof_words expE exp_codec [0; 6; 0; 0; 0; 2; 0; 1] (Fof 6) (Fof 2) (Fof 1) /\
  Verify expE exp_codec ex_vk (flat_points ex_abc) [0; 6; 0; 0; 0; 2; 0; 1] [1] = Ok true /\
  Verify expE exp_codec ex_vk (flat_points ex_abc) [0; 6; 0; 0; 0; 2; 0; 1] [2] = Ok false.
Proof.
  split; [exact expE_laws|]. split; [exact exp_eip|]. split; [exact ex_vk_words|]. split; [exact ex_abc_reads|].
  split; [apply ex_proof_words; split; discriminate|]. vm_compute. split; reflexivity.
Qed.

(** ** C100: agreement with the native verifier.  REFUTED for all proofs: with C = infinity the native
    verifier accepts and the contract reverts.  Proved whenever none of alpha, C and the statement's element is
    the point at infinity. *)
Theorem C100_contract_agrees_partial : forall E S1 S2 C, pairing_laws E S1 S2 -> eip_codec E S1 S2 C ->
  forall v abc w inputs al be ga de ic0 ics A B Cc,
  vk_words E C v al be ga de -> reads E C abc (ic0 :: ics) -> proof_words E C w A B Cc ->
  Forall (fun s => 0 <= s < p_mod) inputs -> List.length inputs = List.length ics -> Z.of_nat (List.length inputs) < wsize - 1 ->
  al <> g1_zero E -> Cc <> g1_zero E -> statement_point E ic0 ics (map Fof inputs) <> g1_zero E ->
  Verify E C v (flat_points abc) w inputs =
  verifier_strong_IC E (VK E al be ga de (ic0, ics)) (map Fof inputs) (Proof_ E A B Cc).
Proof. exact contract_agrees. Qed.
Print Assumptions C100_contract_agrees_partial.
Theorem C100_infinity_refuted : exists E S1 S2 C v abc w inputs al be ga de ic0 ics A B Cc,
  pairing_laws E S1 S2 /\ eip_codec E S1 S2 C /\
  vk_words E C v al be ga de /\ reads E C abc (ic0 :: ics) /\ proof_words E C w A B Cc /\
  Forall (fun s => 0 <= s < p_mod) inputs /\ List.length inputs = List.length ics /\ Z.of_nat (List.length inputs) < wsize - 1 /\
  verifier_strong_IC E (VK E al be ga de (ic0, ics)) (map Fof inputs) (Proof_ E A B Cc) = Ok true /\
  Verify E C v (flat_points abc) w inputs = Throw.
Proof. exact infinity_refuted. Qed.
Print Assumptions C100_infinity_refuted.
Example C100_case : Fof 1 <> g1_zero expE /\ statement_point expE (Fof 1) [Fof 3] (map Fof [1]) <> g1_zero expE /\
  Forall (fun s => 0 <= s < p_mod) [1].
Proof.
  split; [intros K; apply (f_equal fval) in K; vm_compute in K; discriminate K|].
  split; [intros K; apply (f_equal fval) in K; vm_compute in K; discriminate K|].
  constructor; [split; [discriminate|reflexivity]|constructor].
Qed.

(** ** C101: an accepted proof has one encoding.  REFUTED: C's y coordinate only counts modulo q. *)
Theorem C101_encoding_refuted : exists E S1 S2 C v abc w w' inputs A B Cc,
  pairing_laws E S1 S2 /\ eip_codec E S1 S2 C /\ Forall is_word w /\ Forall is_word w' /\ w <> w' /\
  proof_words E C w A B Cc /\ proof_words E C w' A B Cc /\
  Verify E C v abc w inputs = Ok true /\ Verify E C v abc w' inputs = Ok true.
Proof. exact encoding_refuted. Qed.
Print Assumptions C101_encoding_refuted.
Theorem C101_shifted_y_same : forall E C v abc inputs a0 a1 b0 b1 b2 b3 c0 c1,
  Verify E C v abc [a0; a1; b0; b1; b2; b3; c0; c1 + q_mod] inputs = Verify E C v abc [a0; a1; b0; b1; b2; b3; c0; c1] inputs.
Proof. exact contract_shift. Qed.
Print Assumptions C101_shifted_y_same.
Example C101_case : is_word (q_mod - 1 + q_mod) /\ is_word (q_mod - 1 + 4 * q_mod).
Proof. split; (split; [discriminate|reflexivity]). Qed.

(** ** C102: a wrong number of inputs and an input that is not reduced always revert, whatever the other words are. *)
Theorem C102_reverts : forall E S1 S2 C, pairing_laws E S1 S2 -> eip_codec E S1 S2 C ->
  forall v abc w inputs, List.length v = 14%nat -> List.length w = 8%nat ->
  Z.of_nat (List.length abc) < wsize -> Z.of_nat (List.length inputs) < wsize - 1 ->
  ((Z.of_nat (List.length abc) / 2 <> Z.of_nat (List.length inputs) + 1) \/ Exists (fun s => p_mod <= s) inputs) ->
  Verify E C v abc w inputs = Throw.
Proof. exact contract_rejects. Qed.
Print Assumptions C102_reverts.
Example C102_case :
  Verify expE exp_codec ex_vk (flat_points ex_abc) [0; 6; 0; 0; 0; 2; 0; 1] [p_mod + 1] = Throw /\
  Verify expE exp_codec ex_vk (flat_points ex_abc) [0; 6; 0; 0; 0; 2; 0; 1] [1; 0] = Throw /\
  Verify expE exp_codec ex_vk [] [0; 6; 0; 0; 0; 2; 0; 1] [] = Throw.
Proof. vm_compute. repeat split; reflexivity. Qed.

(** ** C103: ReverseBits mirrors the 256 bits of every word, and is its own inverse. *)
Theorem C103_reverse_bits : forall v, is_word v -> exists r, ReverseBits v = Ok r /\ is_word r /\
  forall i, 0 <= i < 256 -> Z.testbit r i = Z.testbit v (255 - i).
Proof. exact reverse_lemma. Qed.
Print Assumptions C103_reverse_bits.
Theorem C103_reverse_involutive : forall v, is_word v -> exists r, ReverseBits v = Ok r /\ ReverseBits r = Ok v.
Proof. exact reverse_involutive. Qed.
Print Assumptions C103_reverse_involutive.
(** the values of test/TestSnarkUtils.sol:14-20 *)
Example C103_case : ReverseBits 0xD294F6E585874FE640BE4CE636E6EF9E3ADC27620AA3221FDCF5C0A7C11C6F67 =
  Ok 0xe6f63883e503af3bf844c55046e43b5c79f7676c67327d0267f2e1a1a76f294b.
Proof. vm_compute. reflexivity. Qed.

(** ** C104: PackWords writes the bits of the input words, most significant bit first, into words of 253
    bits, least significant bit first; the last word is padded with zeros.  It reverts exactly when there is nothing to
    pack, or when an output word would get no bit at all. *)
Theorem C104_pack_words : forall ws n, Forall is_word ws -> ws <> [] -> Z.of_nat (length ws) < 2 ^ 200 ->
  (253 * (Z.of_nat n - 1) < 256 * Z.of_nat (length ws) -> PackWords ws n = Ok (packed ws n)) /\
  (n <> O -> 256 * Z.of_nat (length ws) <= 253 * (Z.of_nat n - 1) -> PackWords ws n = Throw).
Proof. exact pack_lemma. Qed.
Print Assumptions C104_pack_words.
Theorem C104_pack_nothing : forall n, PackWords [] n = Throw.
Proof. exact pack_empty. Qed.
Print Assumptions C104_pack_nothing.
Theorem C104_packed_bits : forall ws n o j, (o < n)%nat -> 0 <= j ->
  Z.testbit (nth o (packed ws n) 0) j = (j <? 253) && stream_bit ws (253 * Z.of_nat o + j).
Proof. exact packed_bits. Qed.
Print Assumptions C104_packed_bits.
Theorem C104_packed_range : forall ws n, Forall (fun d => 0 <= d < 2 ^ 253) (packed ws n).
Proof. exact packed_range. Qed.
Print Assumptions C104_packed_range.
(** the example in the comment of PackWords *)
Example C104_case : PackWords [0xD294F6E585874FE640BE4CE636E6EF9E3ADC27620AA3221FDCF5C0A7C11C6F67] 2 =
  Ok [3148911523101545054735209199478325155464765444384556179543606818372573931851; 7].
Proof. vm_compute. reflexivity. Qed.

(** ** C105: packing loses nothing.  REFUTED for as many output words as input words, which is what the comment
    announces.  Proved for at least 256/253 times as many. *)
Theorem C105_same_length_refuted : forall n, (1 <= n)%nat -> Z.of_nat n < 2 ^ 200 -> exists ws ws' out, Forall is_word ws /\ Forall is_word ws' /\
  length ws = n /\ length ws' = n /\ ws <> ws' /\ PackWords ws n = Ok out /\ PackWords ws' n = Ok out.
Proof. exact pack_lossy. Qed.
Print Assumptions C105_same_length_refuted.
Theorem C105_pack_injective_partial : forall ws ws' n, Forall is_word ws -> Forall is_word ws' -> length ws = length ws' -> ws <> [] ->
  Z.of_nat (length ws) < 2 ^ 200 -> 256 * Z.of_nat (length ws) <= 253 * Z.of_nat n ->
  forall out, PackWords ws n = Ok out -> PackWords ws' n = Ok out -> ws = ws'.
Proof. exact pack_injective. Qed.
Print Assumptions C105_pack_injective_partial.
Example C105_case : 256 * Z.of_nat (length [1; 2]) <= 253 * Z.of_nat 3 /\ PackWords [1; 2] 3 = Ok [0; 4; 16].
Proof. split; [discriminate|]. vm_compute. reflexivity. Qed.
