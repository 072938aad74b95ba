(** Property theorems C41-C43, C72-C74: the JSON exporter and importer, and the verification entry points.
    Proofs are in Q_Export.v and Q_Verify.v.

    Vocabulary (Spec_Export.v): [affine1 P x y], [affine2 P x y]: the affine coordinates of a point in
    Jacobian coordinates; [curve1], [curve2]: the curve and its twist; [denotes s z]: the string [s] is a
    notation of the number [z]; [jtext t s]: [s] is a JSON text of the value [t]; [conforming parse]:
    [parse] reads these texts; [g1_value], [g2_value], [input_value], [key_value], [proof_value]: what a
    JSON value stands for; [accepted]: the proof is valid for the key and the inputs. *)
From Coq Require Import ZArith List Bool Arith Ascii String.
From Verif Require Import Primes Field FieldQ Base M_Groth Spec_Groth M_Export Spec_Export Q_Export Q_Verify P_JsonParser P_ExportEx P_Export2.
Import ListNotations.
Local Open Scope Z_scope.

(** the hypotheses on the parser and on the curve can be met *)
Example conforming_example : conforming parse0.
Proof. exact parse0_conforming. Qed.
Example represents_example : pairing_laws toyE toyS toyS /\ represents toyE toy1 toy2.
Proof. split; [exact toy_laws|exact toy_represents]. Qed.

(** ** C41 *)
Theorem C41_key_round_trip : forall parse, conforming parse -> forall vk, exportable_key vk ->
  exists vk', vk_from_json parse (vk2json vk) = Ok vk' /\ same_key vk vk'.
Proof. exact key_round_trip. Qed.
Print Assumptions C41_key_round_trip.
Theorem C41_affine_key_round_trip : forall parse, conforming parse -> forall vk,
  jZ (alpha_g1 vk) = Q1 -> jZ (beta_g2 vk) = Q21 -> jZ (gamma_g2 vk) = Q21 -> jZ (delta_g2 vk) = Q21 ->
  jZ (gamma_ABC_first vk) = Q1 -> Forall (fun P => jZ P = Q1) (gamma_ABC_rest vk) ->
  vk_from_json parse (vk2json vk) = Ok vk.
Proof. exact affine_key_round_trip. Qed.
Print Assumptions C41_affine_key_round_trip.
Theorem C41_proof_round_trip : forall parse, conforming parse -> forall pf input, exportable_proof pf ->
  exists pf', proof_from_json parse (proof_to_json pf input) = Ok (input, pf') /\ same_proof pf pf'.
Proof. exact proof_round_trip. Qed.
Print Assumptions C41_proof_round_trip.
Theorem C41_affine_proof_round_trip : forall parse, conforming parse -> forall pf input,
  jZ (g_A pf) = Q1 -> jZ (g_B pf) = Q21 -> jZ (g_C pf) = Q1 ->
  proof_from_json parse (proof_to_json pf input) = Ok (input, pf).
Proof. exact affine_proof_round_trip. Qed.
Print Assumptions C41_affine_proof_round_trip.
Example C41_example : exportable_key toy_vk /\ exportable_proof toy_proof /\
  string_of_list_ascii (outputPointG2AffineAsHex (Jac (mkq2 Q1 (Qof 2)) (mkq2 (Qof 3) (Qof 255)) Q21)) =
    "[""0x2"", ""0x1""],
 [""0xff"", ""0x3""]"%string.
Proof.
  split; [|split].
  - unfold exportable_key, handled2. cbn [toy_vk toy_g2 alpha_g1 beta_g2 gamma_g2 delta_g2 gamma_ABC_first gamma_ABC_rest jZ].
    repeat split; auto using Q1_neq_0.
  - unfold exportable_proof, handled2. cbn [toy_proof toy_g2 g_A g_B g_C jZ]. repeat split; auto using Q1_neq_0.
  - vm_compute. reflexivity.
Qed.

(** ** C42: false for representations with one component of Z equal to 0; there the coordinates are
    printed as they are *)
Theorem C42_g2_export_affine_partial : forall P x y, affine2 P x y -> handled2 P ->
  exists t, jtext t ("["%char :: outputPointG2AffineAsHex P ++ ["]"%char]) /\ g2_value t (Jac x y Q21).
Proof. exact g2_normal. Qed.
Print Assumptions C42_g2_export_affine_partial.
Theorem C42_g2_export_exact : forall P x y, affine2 P x y ->
  ((exists t, jtext t ("["%char :: outputPointG2AffineAsHex P ++ ["]"%char]) /\ g2_value t (Jac x y Q21)) <->
   (c0 (jZ P) <> Q0 /\ c1 (jZ P) <> Q0) \/ (jX P = x /\ jY P = y)).
Proof. exact g2_exact. Qed.
Print Assumptions C42_g2_export_exact.
Theorem C42_unnormalised_export_off_curve : forall P x y t Q, affine2 P x y -> curve2 x y ->
  c0 (jZ P) = Q0 \/ c1 (jZ P) = Q0 ->
  jtext t ("["%char :: outputPointG2AffineAsHex P ++ ["]"%char]) -> g2_value t Q ->
  (curve2 (jX Q) (jY Q) <-> (jZ P * jZ P * jZ P * (jZ P * jZ P * jZ P))%Q2 = Q21).
Proof. exact g2_off_curve. Qed.
Print Assumptions C42_unnormalised_export_off_curve.
Theorem C42_g2_export_refuted : exists P x y, affine2 P x y /\ curve2 x y /\
  forall t, jtext t ("["%char :: outputPointG2AffineAsHex P ++ ["]"%char]) -> ~ g2_value t (Jac x y Q21).
Proof. exact g2_refuted. Qed.
Print Assumptions C42_g2_export_refuted.
Example C42_example : affine2 g2_twice g2x g2y /\ curve2 g2x g2y /\ c1 (jZ g2_twice) = Q0 /\
  handled2 (Jac g2x g2y (mkq2 Q1 Q1)).
Proof.
  split; [exact g2_twice_affine|]. split; [exact g2_gen_curve|]. split; [reflexivity|].
  right. cbn [jZ c0 c1]. split; exact Q1_neq_0.
Qed.

(** ** C43: a success is reported exactly for valid proofs; but one kind of key file (an empty list of
    points) makes the importer read before the start of a vector, so "every other path has a
    non-success result" is false *)
Theorem C43_stub_verify_partial : forall parse E S1 S2 e1 e2, pairing_laws E S1 S2 -> represents E e1 e2 -> forall v p,
  stub_verify parse E e1 e2 v p = Ok true <->
  exists v' p', before_nul v v' /\ before_nul p p' /\ valid_texts parse E e1 e2 v' p'.
Proof. exact stub_verify_lemma. Qed.
Print Assumptions C43_stub_verify_partial.
Theorem C43_dll_partial : forall parse E S1 S2 e1 e2, pairing_laws E S1 S2 -> represents E e1 e2 -> forall v p,
  ethsnarks_verify parse E e1 e2 v p = Ok true <->
  exists v' p', before_nul v v' /\ before_nul p p' /\ valid_texts parse E e1 e2 v' p'.
Proof. exact dll_lemma. Qed.
Print Assumptions C43_dll_partial.
Theorem C43_stub_main_partial : forall parse E S1 S2 e1 e2, pairing_laws E S1 S2 -> represents E e1 e2 -> forall file argv,
  stub_main_verify parse E e1 e2 file argv = Ok 0 <->
  exists a0 a1 a2 more v p v' p', argv = a0 :: a1 :: a2 :: more /\ file a1 = Some v /\ file a2 = Some p /\
    before_nul v v' /\ before_nul p p' /\ valid_texts parse E e1 e2 v' p'.
Proof. exact stub_main_lemma. Qed.
Print Assumptions C43_stub_main_partial.
Theorem C43_verify_main_partial : forall parse E S1 S2 e1 e2, pairing_laws E S1 S2 -> represents E e1 e2 -> forall file stdin argv,
  verify_main parse E e1 e2 file stdin argv = Ok 0 <->
  exists a0 a1 a2 more v p, argv = a0 :: a1 :: a2 :: more /\
    ((a1 = T "-" /\ v = stdin) \/ (a1 <> T "-" /\ file a1 = Some v)) /\ file a2 = Some p /\
    valid_texts parse E e1 e2 v p.
Proof. exact verify_main_lemma. Qed.
Print Assumptions C43_verify_main_partial.
Theorem C43_undefined_exactly : forall parse E S1 S2 e1 e2, conforming parse -> pairing_laws E S1 S2 -> represents E e1 e2 -> forall v p,
  stub_verify parse E e1 e2 v p = UB <->
  exists v' tv, before_nul v v' /\ parse v' = Ok tv /\ empty_key tv.
Proof. exact stub_verify_ub. Qed.
Print Assumptions C43_undefined_exactly.
Theorem C43_no_undefined_refuted : exists v, forall parse E e1 e2, conforming parse -> forall p, stub_verify parse E e1 e2 v p = UB.
Proof. exact verify_refuted. Qed.
Print Assumptions C43_no_undefined_refuted.
Example C43_example : exists v p,
  verify_main parse0 toyE toy1 toy2 (fun f => if text_eqb f (T "vk") then Some (vk2json toy_vk)
    else if text_eqb f (T "p") then Some (proof_to_json toy_proof [Fof 5]) else None) []
    [T "verify"; v; p] = Ok 0 /\
  verify_main parse0 toyE toy1 toy2 (fun f => if text_eqb f (T "vk") then Some (vk2json toy_vk) else None) []
    [T "verify"; v; p] = Ok 3.
Proof.
  exists (T "vk"), (T "p").
  unfold verify_main. cbn [idx nth_error obind List.length Nat.ltb Nat.leb].
  change (text_eqb (T "vk") (T "-")) with false. change (text_eqb (T "vk") (T "vk")) with true.
  change (text_eqb (T "p") (T "vk")) with false. change (text_eqb (T "p") (T "p")) with true. cbv iota.
  rewrite (affine_key_round_trip parse0 parse0_conforming)
    by (apply Forall_cons; [reflexivity|apply Forall_nil] || reflexivity). cbn [obind].
  rewrite (affine_proof_round_trip parse0 parse0_conforming) by reflexivity. cbn [obind].
  split; [|reflexivity]. vm_compute. reflexivity.
Qed.

(** ** C72 *)
Theorem C72_input_aliases : forall (x : F) k, 0 <= k -> fval x + k * p_mod < 2 ^ 256 ->
  exists s, denotes s (fval x + k * p_mod) /\ input_value (JStr s) x.
Proof. exact input_aliases. Qed.
Print Assumptions C72_input_aliases.
Theorem C72_canonical_inputs_refuted : exists s s' z z' x, denotes s z /\ denotes s' z' /\ z <> z' /\
  input_value (JStr s) x /\ input_value (JStr s') x.
Proof. exact canonical_refuted. Qed.
Print Assumptions C72_canonical_inputs_refuted.
Example C72_example : 0 <= 4 /\ fval (Fof 7) + 4 * p_mod < 2 ^ 256.
Proof. split; vm_compute; [discriminate|reflexivity]. Qed.

(** ** C73 *)
Theorem C73_infinity_read_back_off_curve : forall P t Q, jZ P = Q0 ->
  jtext t ("["%char :: outputPointG1AffineAsHex P ++ ["]"%char]) -> g1_value t Q ->
  Q = Jac Q0 Q1 Q1 /\ ~ curve1 (jX Q) (jY Q).
Proof. exact infinity_reading. Qed.
Print Assumptions C73_infinity_read_back_off_curve.
Theorem C73_infinity_round_trip_refuted : exists P, jZ P = Q0 /\
  forall t Q, jtext t ("["%char :: outputPointG1AffineAsHex P ++ ["]"%char]) -> g1_value t Q ->
  jZ Q <> Q0 /\ ~ curve1 (jX Q) (jY Q).
Proof. exact infinity_refuted. Qed.
Print Assumptions C73_infinity_round_trip_refuted.
Example C73_example :
  string_of_list_ascii (outputPointG1AffineAsHex (Jac (Qof 5) (Qof 6) Q0)) = """0x0"", ""0x1"""%string.
Proof. vm_compute. reflexivity. Qed.

(** ** C74 *)
Theorem C74_exported_verifies_alike : forall parse E e1 e2, conforming parse -> represents E e1 e2 ->
  forall vk pf input, exportable_key vk -> exportable_proof pf ->
  stub_verify parse E e1 e2 (vk2json vk) (proof_to_json pf input) =
  verifier_strong_IC E
    (VK E (e1 (alpha_g1 vk)) (e2 (beta_g2 vk)) (e2 (gamma_g2 vk)) (e2 (delta_g2 vk))
       (e1 (gamma_ABC_first vk), map e1 (gamma_ABC_rest vk)))
    input (Proof_ E (e1 (g_A pf)) (e2 (g_B pf)) (e1 (g_C pf))).
Proof. exact exported_verify. Qed.
Print Assumptions C74_exported_verifies_alike.
Example C74_example :
  stub_verify parse0 toyE toy1 toy2 (vk2json toy_vk) (proof_to_json toy_proof [Fof 5]) = Ok true /\
  stub_verify parse0 toyE toy1 toy2 (vk2json toy_vk) (proof_to_json toy_proof [Fof 6]) = Ok false.
Proof.
  rewrite !(exported_verify parse0 toyE toy1 toy2 parse0_conforming toy_represents)
    by (exact (proj1 C41_example) || exact (proj1 (proj2 C41_example))).
  split; vm_compute; reflexivity.
Qed.
