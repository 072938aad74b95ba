(** Property theorems C44-C46, C62, C63: the Groth16 scheme of src/r1cs_gg_ppzksnark_zok.  Proofs are in
    Q_Groth.v and Q_Groth2.v.

    Vocabulary (Spec_Groth.v): [pairing_laws E S1 S2] are the laws of a bilinear pairing of groups of
    order p; [domain_ok d n] says that [d] has at least n distinct points and as many distinct points
    outside them; [satisfies cs primary aux] that every constraint holds; [groth_equation] is the
    verification equation and [statement_point] the combination of the key with the inputs. *)
From Coq Require Import List ZArith Bool Arith Lia.
From Verif Require Import Primes Field Base R1CS M_Groth Spec_Groth Q_Groth Q_Groth2 P_Groth3.
Import ListNotations.
Local Open Scope nat_scope.
Local Open Scope F_scope.

(** ** C44 *)
Theorem C44_groth16_completeness : forall E S1 S2 check d cs x pk vk primary aux r s pf,
  pairing_laws E S1 S2 -> S1 (tx_g1 E x) -> S2 (tx_g2 E x) ->
  domain_ok d (length (cs_constraints cs) + cs_inputs cs + 1) ->
  satisfies cs primary aux ->
  generator E d cs x = Ok (pk, vk) ->
  prover E check d pk primary aux r s = Ok pf ->
  verifier_strong_IC E vk primary pf = Ok true.
Proof. exact groth_complete. Qed.
Print Assumptions C44_groth16_completeness.
Theorem C44_generator_total : forall E d r1cs x, declared r1cs -> tx_gamma E x <> F0 -> tx_delta E x <> F0 ->
  exists pk vk, generator E d r1cs x = Ok (pk, vk).
Proof. exact generator_total. Qed.
Print Assumptions C44_generator_total.
(** x*x = y with x = 2 public, a key and any prover randomness *)
Example C44_example : forall r s, exists pk vk pf, generator expE dom3 sq_system toxic1 = Ok (pk, vk) /\
  prover expE true dom3 pk [Fof 2] [Fof 4] r s = Ok pf /\ verifier_strong_IC expE vk [Fof 2] pf = Ok true.
Proof. exact sq_run. Qed.

(** ** C45: refuted; for some satisfied systems the prover aborts whatever the key and the randomness *)
Theorem C45_prover_never_aborts_refuted :
  exists cs primary aux, declared cs /\ satisfies cs primary aux /\
    forall E check d x r s, domain_ok d (length (cs_constraints cs) + cs_inputs cs + 1) ->
      tx_gamma E x <> F0 -> tx_delta E x <> F0 ->
      exists pk vk, generator E d cs x = Ok (pk, vk) /\ prover E check d pk primary aux r s = Abort.
Proof. exact groth_refuted. Qed.
Print Assumptions C45_prover_never_aborts_refuted.
(** What holds: on a satisfied system and a domain of at least two points the prover returns a proof
    exactly when the polynomials A and B both have full degree.  Missing: the other systems. *)
Theorem C45_prover_abort_condition_partial : forall E check d cs x pk vk primary aux r s A B,
  domain_ok d (length (cs_constraints cs) + cs_inputs cs + 1) -> 2 <= length (dm_points d) ->
  satisfies cs primary aux -> generator E d cs x = Ok (pk, vk) ->
  interpolates d (A_value (pk_cs E pk) primary aux) A -> interpolates d (B_value (pk_cs E pk) primary aux) B ->
  (top A = F0 \/ top B = F0 -> prover E check d pk primary aux r s = Abort) /\
  (top A <> F0 -> top B <> F0 -> exists pf, prover E check d pk primary aux r s = Ok pf).
Proof. exact prover_abort_iff. Qed.
Print Assumptions C45_prover_abort_condition_partial.
(** A = 2 - 2s + s^2 and B = 2 - 3s + s^2 for the system of C44_example *)
Example C45_example : interpolates dom3 (A_value sq_system [Fof 2] [Fof 4]) (pts [2; -2; 1]%Z) /\
  interpolates dom3 (B_value sq_system [Fof 2] [Fof 4]) (pts [2; -3; 1]%Z) /\ domain_ok dom3 3.
Proof.
  split; [|split; [|exact dom3_ok]]; (split; [reflexivity|]; intros i Hi; cbn in Hi;
    destruct i as [|[|[|i]]]; [| | |lia]; apply fval_inj; vm_compute; reflexivity).
Qed.

(** ** C46 *)
Theorem C46_strong_verifier_decides : forall E S1 S2, pairing_laws E S1 S2 -> forall vk input pf,
  exists b, verifier_strong_IC E vk input pf = Ok b /\
    (b = true <-> length input = length (snd (vk_gamma_ABC_g1 E vk)) /\
       g1_wf E (pf_A E pf) = true /\ g2_wf E (pf_B E pf) = true /\ g1_wf E (pf_C E pf) = true /\
       groth_equation E (vk_alpha_g1 E vk) (vk_beta_g2 E vk) (vk_gamma_g2 E vk) (vk_delta_g2 E vk)
         (statement_point E (fst (vk_gamma_ABC_g1 E vk)) (snd (vk_gamma_ABC_g1 E vk)) input) (pf_A E pf) (pf_B E pf) (pf_C E pf)).
Proof. exact strong_decides. Qed.
Print Assumptions C46_strong_verifier_decides.
Theorem C46_affine_verifier_agrees : forall E S1 S2, pairing_laws E S1 S2 -> forall vk input pf,
  affine_verifier_weak_IC E vk input pf = verifier_weak_IC E vk input pf.
Proof. exact affine_agrees. Qed.
Print Assumptions C46_affine_verifier_agrees.
(** in the exponent: with inputs \[1\]: e(A,B) = 12, e(alpha,beta) = 2,
    IC = 1 + 1*3 = 4, gamma = 2, C = 1, delta = 2 *)
Example C46_example :
  let vk := VK expE (Fof 1) (Fof 2) (Fof 2) (Fof 2) (Fof 1, [Fof 3]) in
  verifier_strong_IC expE vk [Fof 1] (Proof_ expE (Fof 6) (Fof 2) (Fof 1)) = Ok true /\
  verifier_strong_IC expE vk [Fof 2] (Proof_ expE (Fof 6) (Fof 2) (Fof 1)) = Ok false /\
  verifier_strong_IC expE vk [] (Proof_ expE (Fof 6) (Fof 2) (Fof 1)) = Ok false.
Proof. vm_compute. repeat split; reflexivity. Qed.

(** ** C62: with the library's satisfaction check compiled out, a proof made from a violated system is
    accepted for at most 2m-2 of the p values of the secret point t *)
Theorem C62_violated_system_rejected : forall E S1 S2 d cs primary aux ts,
  pairing_laws E S1 S2 -> nondegenerate E S1 S2 ->
  domain_ok d (length (cs_constraints cs) + cs_inputs cs + 1) ->
  length primary = cs_inputs cs -> length aux = cs_aux cs -> ~ satisfies cs primary aux ->
  NoDup ts ->
  (forall t, In t ts -> exists x pk vk r s pf,
     tx_t E x = t /\ S1 (tx_g1 E x) /\ S2 (tx_g2 E x) /\ (forall k, g1_mul E k (tx_g1 E x) = g1_zero E -> k = F0) /\ tx_g2 E x <> g2_zero E /\
     generator E d cs x = Ok (pk, vk) /\ prover E false d pk primary aux r s = Ok pf /\ verifier_strong_IC E vk primary pf = Ok true) ->
  length ts <= 2 * length (dm_points d) - 2.
Proof. exact unsat_rare. Qed.
Print Assumptions C62_violated_system_rejected.
(** a violated system whose run does not abort and is accepted for t = 4 *)
Example C62_example : ~ satisfies bad_system [F1] [] /\ domain_ok dom4 4 /\ nondegenerate expE (fun _ => True) (fun _ => True) /\
  forall r s, exists pk vk pf, generator expE dom4 bad_system toxic2 = Ok (pk, vk) /\
    prover expE false dom4 pk [F1] [] r s = Ok pf /\ verifier_strong_IC expE vk [F1] pf = Ok true.
Proof. split; [exact bad_unsat|]. split; [exact dom4_ok|]. split; [exact expE_nondegenerate|exact bad_run]. Qed.

(** ** C63 *)
Theorem C63_weak_verifier_pads_with_zeros : forall E S1 S2, pairing_laws E S1 S2 -> forall vk input pf,
  Forall S1 (snd (vk_gamma_ABC_g1 E vk)) -> length input <= length (snd (vk_gamma_ABC_g1 E vk)) ->
  verifier_weak_IC E vk input pf =
  verifier_strong_IC E vk (input ++ repeat F0 (length (snd (vk_gamma_ABC_g1 E vk)) - length input)) pf.
Proof. exact weak_pads. Qed.
Print Assumptions C63_weak_verifier_pads_with_zeros.
Example C63_example :
  let vk := VK expE (Fof 1) (Fof 2) (Fof 2) (Fof 2) (Fof 4, [Fof 3]) in
  verifier_weak_IC expE vk [] (Proof_ expE (Fof 6) (Fof 2) (Fof 1)) = Ok true /\
  verifier_strong_IC expE vk [] (Proof_ expE (Fof 6) (Fof 2) (Fof 1)) = Ok false /\
  verifier_strong_IC expE vk [F0] (Proof_ expE (Fof 6) (Fof 2) (Fof 1)) = Ok true.
Proof. vm_compute. repeat split; reflexivity. Qed.
