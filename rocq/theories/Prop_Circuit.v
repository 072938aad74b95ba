(** Property theorems C47-C52, C60 and C61: the arithmetic-circuit reader of src/pinocchio.  Proofs are
    in Q_Circuit.v, Q_Circuit2.v and Q_Circuit3.v.

    Vocabulary (Spec_Circuit.v): [gate]/[step]/[run] evaluate a circuit on wire values; [arity] gives
    the number of wires of each gate; [plain] gates are all but zerop and the table of eight entries;
    [typed]/[well_typed] say that boolean gates get bits, assertions hold and splits have enough
    outputs; [bool_typed] only that boolean gates get bits; [single_assignment] that no gate overwrites
    a wire already used.  [wire_val rd t w] is the value of wire [w] under the assignment [t] of the
    variables of the protoboard; [input_env is e] keeps only the wires that no gate writes. *)
From Coq Require Import List ZArith Bool Arith Lia.
From Verif Require Import Primes Field Base R1CS M_Circuit Spec_Circuit Q_Circuit Q_Circuit2 Q_Circuit3.
Import ListNotations.
Local Open Scope nat_scope.

(** ** C47 *)
Theorem C47_circuit_witness_satisfies : forall ls inp, Forall line_ok ls -> Forall plain (insts ls) -> single_assignment [] (insts ls) ->
  well_typed (insts ls) (env_of_inputs inp) ->
  exists rd, circuitReader ls (Some inp) = Ok (insts ls, rd) /\
    (forall w, wire_val rd (r_val rd) w = run (insts ls) (env_of_inputs inp) w) /\
    (forall i w, In i (insts ls) -> In w (i_ins i ++ i_outs i) -> exists v, wire_var rd w = Some v) /\
    sat (r_val rd) (r_cs rd).
Proof. exact circuit_complete. Qed.
Print Assumptions C47_circuit_witness_satisfies.
(** 3 * 4 = 12 is split into bits, combined, looked up, packed, added and asserted *)
Definition c47_file : list line :=
  [ LInput 0; LInput 1; LNizk 2; LOutput 9;
    LGate MUL F0 2 [0; 1] 1 [3];
    LGate SPLIT F0 1 [3] 4 [4; 5; 6; 7];
    LGate XOR F0 2 [4; 6] 1 [8];
    LGate OR F0 2 [6; 7] 1 [10];
    LGate PACK F0 2 [6; 7] 1 [11];
    LTable 2 (map Fof [7; 9; 20; 21]%Z) [8; 10] [12];
    LGate CONST_MUL (Fof 5) 1 [12] 1 [13];
    LGate ADD F0 3 [11; 13; 2] 1 [9];
    LGate ASSERT F0 2 [10; 9] 1 [9] ].
Definition c47_inputs : list (wire * F) := [(0, Fof 3); (1, Fof 4); (2, Fof 1)].
Example C47_example : exists rd, circuitReader c47_file (Some c47_inputs) = Ok (insts c47_file, rd) /\
  sat (r_val rd) (r_cs rd) /\ wire_val rd (r_val rd) 9 = Fof 109.
Proof.
  destruct (C47_circuit_witness_satisfies c47_file c47_inputs) as (rd & H1 & H2 & _ & H3).
  - repeat (constructor; [cbn; repeat split; try lia; discriminate|]). constructor.
  - repeat (constructor; [unfold plain, arity; cbn; repeat split; try lia; discriminate|]). constructor.
  - cbn; repeat split; try (intros w; cbn; lia); repeat (constructor; [cbn; lia|]); constructor.
  - apply well_typedb_ok. vm_compute. reflexivity.
  - exists rd. split; [exact H1|]. split; [exact H3|]. rewrite H2. apply Feqb_true. vm_compute. reflexivity.
Qed.

(** ** C48: false when a split has 254 outputs, as a field element then has two decompositions *)
Theorem C48_constraints_determine_refuted : exists ls is rd t, circuitReader ls None = Ok (is, rd) /\ Forall plain is /\ single_assignment [] is /\
  bool_typed is (input_env is (wire_val rd t)) /\ sat t (r_cs rd) /\
  wire_val rd t 1 <> run is (input_env is (wire_val rd t)) 1.
Proof. exact split254_refuted. Qed.
Print Assumptions C48_constraints_determine_refuted.

(** ** C61: true when splits have at most 253 outputs, for key generation and for proving *)
Theorem C61_constraints_determine_outputs : forall ls inputs is rd t, circuitReader ls inputs = Ok (is, rd) -> Forall plain is -> single_assignment [] is ->
  Forall (fun i => i_op i = SPLIT -> length (i_outs i) <= 253) is ->
  bool_typed is (input_env is (wire_val rd t)) -> sat t (r_cs rd) ->
  (forall w, wire_val rd t w = run is (input_env is (wire_val rd t)) w) /\ well_typed is (input_env is (wire_val rd t)).
Proof. exact circuit_sound. Qed.
Print Assumptions C61_constraints_determine_outputs.
Example C61_example : exists rd, circuitReader c47_file None = Ok (insts c47_file, rd) /\
  Forall (fun i => i_op i = SPLIT -> length (i_outs i) <= 253) (insts c47_file) /\
  bool_typed (insts c47_file) (fun w => nth w [Fof 3; Fof 4; Fof 1] F0).
Proof.
  destruct (circuit_keys_ok c47_file) as (rd & H).
  - repeat (constructor; [cbn; repeat split; try lia; discriminate|]). constructor.
  - repeat (constructor; [unfold arity; cbn; repeat split; lia|]). constructor.
  - exists rd. split; [exact H|]. split; [repeat (constructor; [cbn; intros; lia|]); constructor|].
    assert (G : forall is e, well_typed is e -> bool_typed is e).
    { induction is as [|i is IH]; intros e T; [exact I|]. destruct T as [T1 T2]. split; [|now apply IH]. unfold typed in T1. now destruct (i_op i). }
    apply G, well_typedb_ok. vm_compute. reflexivity.
Qed.

(** ** C49: false of the code; the auxiliary variable M of the gate is never assigned, and evaluation
    writes the second output wire while the constraints use the first *)
Theorem C49_zerop_refuted : exists ls inp is rd i a, circuitReader ls (Some inp) = Ok (is, rd) /\ Forall arity is /\ In i is /\ i_op i = ZEROP /\ i_ins i = [a] /\
  wire_val rd (r_val rd) a = Fof 5 /\ ~ sat (r_val rd) (r_cs rd) /\ wire_val rd (r_val rd) (nth 0 (i_outs i) 0) = F0.
Proof. exact zerop_refuted. Qed.
Print Assumptions C49_zerop_refuted.
(** in fact no circuit with a zerop gate on a non-zero value can be proved *)
Theorem C49_zerop_nonzero_never_satisfied : forall ls inp is rd i a, circuitReader ls (Some inp) = Ok (is, rd) -> Forall arity is ->
  In i is -> i_op i = ZEROP -> i_ins i = [a] -> wire_val rd (r_val rd) a <> F0 -> ~ sat (r_val rd) (r_cs rd).
Proof. exact zerop_witness_fails. Qed.
Print Assumptions C49_zerop_nonzero_never_satisfied.
(** what is true: the constraints force the first output wire *)
Theorem C49_zerop_sound_partial : forall ls inputs is rd t i a o o', circuitReader ls inputs = Ok (is, rd) -> Forall arity is -> sat t (r_cs rd) ->
  In i is -> i_op i = ZEROP -> i_ins i = [a] -> i_outs i = [o; o'] ->
  wire_val rd t o = b2F (negb (Feqb (wire_val rd t a) F0)).
Proof. exact zerop_sound. Qed.
Print Assumptions C49_zerop_sound_partial.

(** ** C50: false of the code; the gadget's result variable is neither assigned nor linked to the
    output wire *)
Theorem C50_table8_sound_refuted : exists ls is rd t, circuitReader ls None = Ok (is, rd) /\ Forall arity is /\ sat t (r_cs rd) /\
  is = [Inst TABLE F0 [0; 1; 2] [3] (map Fof [11; 12; 13; 14; 15; 16; 17; 18]%Z)] /\
  wire_val rd t 0 = F1 /\ wire_val rd t 1 = F0 /\ wire_val rd t 2 = F1 /\ wire_val rd t 3 = Fof 99.
Proof. exact table8_sound_refuted. Qed.
Print Assumptions C50_table8_sound_refuted.
Theorem C50_table8_complete_refuted : exists ls inp is rd, circuitReader ls (Some inp) = Ok (is, rd) /\ Forall arity is /\
  is = [Inst TABLE F0 [0; 1; 2] [3] (map Fof [11; 12; 13; 14; 15; 16; 17; 18]%Z)] /\ inp = [(0, F1); (1, F0); (2, F1)] /\ ~ sat (r_val rd) (r_cs rd).
Proof. exact table8_complete_refuted. Qed.
Print Assumptions C50_table8_complete_refuted.
(** in every circuit the output wire of such a gate is free, and the evaluated witness fails whenever
    the selected entry is not zero *)
Theorem C50_table8_output_is_free : forall ls inputs is rd t i a b d o x, circuitReader ls inputs = Ok (is, rd) -> Forall arity is -> sat t (r_cs rd) ->
  In i is -> i_op i = TABLE -> i_ins i = [a; b; d] -> i_outs i = [o] ->
  (forall j, In j is -> ~ In o (i_ins j)) -> (forall j, In j is -> In o (i_outs j) -> j = i) ->
  exists t', sat t' (r_cs rd) /\ (wire_var rd o <> None -> wire_val rd t' o = x) /\ (forall u, u <> o -> wire_val rd t' u = wire_val rd t u).
Proof. exact table8_unlinked. Qed.
Print Assumptions C50_table8_output_is_free.
Theorem C50_table8_never_satisfied : forall ls inp is rd i a b d x y z, circuitReader ls (Some inp) = Ok (is, rd) -> Forall arity is ->
  In i is -> i_op i = TABLE -> i_ins i = [a; b; d] ->
  wire_val rd (r_val rd) a = b2F x -> wire_val rd (r_val rd) b = b2F y -> wire_val rd (r_val rd) d = b2F z ->
  nth (bindex [x; y; z]) (i_table i) F0 <> F0 -> ~ sat (r_val rd) (r_cs rd).
Proof. exact table8_witness_fails. Qed.
Print Assumptions C50_table8_never_satisfied.

(** ** C51: false of the code *)
Theorem C51_outputs_public_refuted : exists ls is rd w, circuitReader ls None = Ok (is, rd) /\ In (LOutput w) ls /\ ~ is_public rd w /\ r_numInputs rd = 2.
Proof. exact output_refuted. Qed.
Print Assumptions C51_outputs_public_refuted.
(** which wires are public: those declared by the first [n] declaration lines, [n] being the number of
    input lines *)
Theorem C51_public_wires_partial : forall ls inputs is rd, circuitReader ls inputs = Ok (is, rd) -> Forall arity is ->
  r_numInputs rd = length (input_wires ls) /\
  forall w, is_public rd w <-> In w (firstn (length (input_wires ls)) (declared ls)).
Proof. exact public_wires. Qed.
Print Assumptions C51_public_wires_partial.

(** ** C60: false of the code when a private input is declared before the last public one *)
Theorem C60_private_inputs_refuted : exists ls is rd w u, circuitReader ls None = Ok (is, rd) /\ In (LNizk w) ls /\ ~ In (LInput w) ls /\ is_public rd w /\ In (LInput u) ls /\ ~ is_public rd u.
Proof. exact nizk_refuted. Qed.
Print Assumptions C60_private_inputs_refuted.
(** true when the input lines come first: then exactly the inputs are public *)
Theorem C60_private_inputs_partial : forall ins rest inputs is rd, input_wires rest = [] -> circuitReader (map LInput ins ++ rest) inputs = Ok (is, rd) -> Forall arity is ->
  forall w, is_public rd w <-> In w ins.
Proof. exact public_inputs_first. Qed.
Print Assumptions C60_private_inputs_partial.

(** ** C52: false of the code for circuits with a zerop gate *)
Theorem C52_same_numbering_refuted : exists ls inp is1 rd1 is2 rd2 w, dependency_order (declared ls) (insts ls) /\ incl (map fst inp) (declared ls) /\
  circuitReader ls None = Ok (is1, rd1) /\ circuitReader ls (Some inp) = Ok (is2, rd2) /\ wire_var rd1 w = Some 4 /\ wire_var rd2 w = Some 3 /\ r_next rd1 = 5 /\ r_next rd2 = 6.
Proof. exact numbering_refuted. Qed.
Print Assumptions C52_same_numbering_refuted.
(** true for the other gates in dependency order *)
Theorem C52_same_numbering_partial : forall ls inp is1 rd1 is2 rd2, Forall plain (insts ls) -> dependency_order (declared ls) (insts ls) -> incl (map fst inp) (declared ls) ->
  circuitReader ls None = Ok (is1, rd1) -> circuitReader ls (Some inp) = Ok (is2, rd2) ->
  is1 = is2 /\ r_next rd1 = r_next rd2 /\ (forall w, wire_var rd1 w = wire_var rd2 w) /\ r_cs rd1 = r_cs rd2 /\ r_numInputs rd1 = r_numInputs rd2.
Proof. exact same_numbering. Qed.
Print Assumptions C52_same_numbering_partial.
Example C52_example : dependency_order (declared c47_file) (insts c47_file) /\ incl (map fst c47_inputs) (declared c47_file).
Proof.
  split.
  - cbn. repeat split; try discriminate; intros; intros w; cbn; lia.
  - intros w; cbn; lia.
Qed.
