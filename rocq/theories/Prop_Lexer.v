(** Property theorems C81-C86: the files of src/pinocchio and its command-line tool.  Proofs are in
    P_Lexer2.v, Q_Lexer.v and Q_Pinocchio.v.

    Vocabulary (Spec_Lexer.v): [written base s v] says that [s] is the numeral of [v]; [line_text s l],
    [circuit_text s ls] and [inputs_text s l] say what a line, a circuit file and an inputs file mean;
    [file_of lines s] cuts a file into lines.  [parseCircuit], [parseInputs] and [circuitReader] are the
    reader on lines, the subject of C47-C52, C60 and C61; [parseCircuit_file], [parse_input_line],
    [circuitReader_files] and [pinocchio_main] the code on characters. *)
From Coq Require Import List ZArith Bool Arith Ascii String Lia.
From Verif Require Import Primes Field Base R1CS Spec_Export M_Circuit Spec_Circuit Q_Circuit Q_Circuit2 Q_Circuit3 M_Export M_Lexer M_Pinocchio Spec_Lexer P_Export P_Lexer2 Q_Lexer Q_Pinocchio.
Import ListNotations.
Local Open Scope list_scope.
Local Open Scope nat_scope.

(** ** C81: the text of a circuit file is read as the lines it says, the text of an inputs file as the
    values it says.  So all theorems about the reader hold of files. *)
Theorem C81_circuit_text_read : forall f ls rd, circuit_text f ls -> parseCircuit_file (Some f) rd = parseCircuit ls rd.
Proof. exact circuit_ok. Qed.
Print Assumptions C81_circuit_text_read.
Theorem C81_inputs_text_read : forall g l rd, inputs_text g l -> parseInputs_file (Some g) rd = Ok (parseInputs l rd).
Proof. exact inputs_ok. Qed.
Print Assumptions C81_inputs_text_read.
Theorem C81_files_read : forall f ls g l, circuit_text f ls -> (match g, l with None, None => True | Some (Some g), Some l => inputs_text g l | _, _ => False end) ->
  circuitReader_files (Some f) g = circuitReader ls l.
Proof. exact reader_ok. Qed.
Print Assumptions C81_files_read.
(** a circuit with a comment, an empty line, a table and a constant, and its inputs *)
Definition c81_lines : list text :=
  [T "total 6"; T "# a comment"; T "input 0"; []; T "input 1"; T "table 1 <7 20> in <0> out <2>";
   T "const-mul-neg-1F in 1 <1> out 1 <3>"; T "add in 3 <1 2  3> out 1 <4>"; T "output 4"].
Definition c81_ls : list line :=
  [LInput 0; LInput 1; LTable 1 [Fof 7; Fof 20] [0] [2]; LGate CONST_MUL_NEG (Fopp (Fof 31)) 1 [1] 1 [3]; LGate ADD F0 3 [1; 2; 3] 1 [4]; LOutput 4].
Definition c81_file : text := flat_map (fun l => l ++ nl) c81_lines.
Definition c81_inputs : text := T "0 1" ++ nl ++ T "1=fF".
Lemma c81_dec s z : s <> [] -> dec_ok s = true -> dec_value s = z -> written 10 s z.
Proof. intros H1 H2 <-. now apply written_dec. Qed.
Lemma c81_wire s w z : s <> [] -> dec_ok s = true -> dec_value s = z -> (z < 2 ^ 32)%Z -> w = Z.to_nat z -> wire_text s w.
Proof. intros H1 H2 H3 H4 H5. exists z. split; [now apply c81_dec|now split]. Qed.
Lemma c81_entry s x z : s <> [] -> dec_ok s = true -> dec_value s = z -> (z < 2 ^ 256)%Z -> x = Fof z -> entry_text s x.
Proof. intros H1 H2 H3 H4 H5. exists z. split; [now apply c81_dec|now split]. Qed.
Ltac wire z := apply (c81_wire _ _ z); [discriminate|reflexivity|reflexivity|lia|reflexivity].
Ltac entry z := apply (c81_entry _ _ z); [discriminate|reflexivity|reflexivity|lia|reflexivity].
Ltac blank := split; [discriminate|repeat (constructor; [now left|]); constructor].
Ltac no_newline := unfold newline_free; cbn; intuition discriminate.
Example C81_circuit : circuit_text c81_file c81_ls.
Proof.
  exists (T "6"), 6%Z, [], (tl c81_lines). split; [apply c81_dec; [discriminate|reflexivity..]|]. split; [exact I|].
  split; [|split; [repeat (constructor; [no_newline|]); constructor|left; reflexivity]].
  apply bt_comment. apply bt_line; [apply (lt_input (T "0") 0 []); [wire 0%Z|exact I]|]. apply bt_empty.
  apply bt_line; [apply (lt_input (T "1") 1 []); [wire 1%Z|exact I]|].
  apply bt_line; [apply (lt_table (T "1") 1 (T "7 20") [Fof 7; Fof 20] (T "0") [0] (T "2") [2] [])|].
  { wire 1%Z. } { apply (it_more _ (T "7") (Fof 7) (T " ") (T "20")); [entry 7%Z|blank|apply it_one; entry 20%Z]. } { apply it_one. wire 0%Z. } { apply it_one. wire 2%Z. }
  apply bt_line; [apply (lt_gate (T "const-mul-neg-1F") CONST_MUL_NEG (Fopp (Fof 31)) (T "1") 1 (T "1") [1] (T "1") 1 (T "3") [3] [])|].
  { apply (gn_mul_neg (T "1F") 31); [|reflexivity|cbn; lia]. apply (w_more 16 [("1")%char] 1 "F" 15); [apply w_one|]; apply digit_spec; (lia || (split; reflexivity)). }
  { wire 1%Z. } { apply it_one. wire 1%Z. } { wire 1%Z. } { apply it_one. wire 3%Z. }
  apply bt_line; [apply (lt_gate (T "add") ADD F0 (T "3") 3 (T "1 2  3") [1; 2; 3] (T "1") 1 (T "4") [4] [])|].
  { apply gn_add. } { wire 3%Z. }
  { apply (it_more _ (T "1") 1 (T " ") (T "2  3")); [wire 1%Z|blank|]. apply (it_more _ (T "2") 2 (T "  ") (T "3")); [wire 2%Z|blank|apply it_one; wire 3%Z]. }
  { wire 1%Z. } { apply it_one. wire 4%Z. }
  apply bt_line; [apply (lt_output (T "4") 4 []); [wire 4%Z|exact I]|]. apply bt_nil.
Qed.
Example C81_inputs : inputs_text c81_inputs [(0, Fof 1); (1, Fof 255)].
Proof.
  exists [T "0 1"; T "1=fF"]. split; [|split; [repeat (constructor; [no_newline|]); constructor|right; exists [T "0 1"], (T "1=fF"); split; [reflexivity|split; [discriminate|reflexivity]]]].
  apply ib_line; [|apply ib_line; [|apply ib_nil]].
  - exists (T "0"), " "%char, (T "1"), 1%Z, []. split; [reflexivity|]. split; [wire 0%Z|]. split; [now left|]. split; [apply w_one; apply digit_spec; (lia || (split; reflexivity))|].
    split; [lia|]. split; [reflexivity|exact I].
  - exists (T "1"), "="%char, (T "fF"), 255%Z, []. split; [reflexivity|]. split; [wire 1%Z|]. split; [now right|].
    split; [apply (w_more 16 ["f"%char] 15 "F" 15); [apply w_one|]; apply digit_spec; (lia || (split; reflexivity))|]. split; [lia|]. split; [reflexivity|exact I].
Qed.
Example C81_example : circuitReader_files (Some c81_file) (Some (Some c81_inputs)) = circuitReader c81_ls (Some [(0, Fof 1); (1, Fof 255)]).
Proof. exact (C81_files_read _ _ (Some (Some c81_inputs)) (Some _) C81_circuit C81_inputs). Qed.

(** ** C82: reading a circuit file is memory safe.  False: a buffer of 200 characters receives the first
    word of a line. *)
Theorem C82_circuit_memory_refuted : exists f, parseCircuit_file (Some f) reader0 = UB.
Proof. exact circuit_overflows. Qed.
Print Assumptions C82_circuit_memory_refuted.
(** Every such line overflows it. *)
Theorem C82_long_word_overflows : forall c t rest st, 199 <= List.length t -> Forall (fun c => ~ space c /\ c <> "000"%char) (c :: t) -> ~ In c (T "#inot") ->
  parse_text_line ((c :: t) ++ rest) st = UB.
Proof. exact long_word_overflows. Qed.
Print Assumptions C82_long_word_overflows.
Example C82_long_example : 199 <= List.length (repeat "a"%char 250) /\ Forall (fun c => ~ space c /\ c <> "000"%char) (repeat "a"%char 251) /\ ~ In "a"%char (T "#inot").
Proof.
  split; [rewrite repeat_length; lia|]. split; [|cbn; intuition discriminate]. apply Forall_forall. intros c Hc. apply repeat_spec in Hc. subst c.
  split; [|discriminate]. intros H. apply isspace_iff in H. discriminate H.
Qed.
(** What is true: long words and numbers of more than 64 digits are the only causes; the buffers for
    wire lists and tables never overflow.  Missing: a bound on the first word and on numbers. *)
Theorem C82_circuit_memory_safe_partial : forall f lines rd, Forall newline_free lines -> file_of lines f -> Forall (fun l => ~ long_word l /\ ~ long_number l) lines -> parseCircuit_file (Some f) rd <> UB.
Proof. exact circuit_safe. Qed.
Print Assumptions C82_circuit_memory_safe_partial.
Example C82_safe_example : Forall newline_free c81_lines /\ file_of c81_lines c81_file /\ Forall (fun l => ~ long_word l /\ ~ long_number l) c81_lines.
Proof.
  split; [repeat (constructor; [no_newline|]); constructor|]. split; [left; reflexivity|].
  assert (X : forall l : text, List.length l <= 64 -> ~ long_word l /\ ~ long_number l).
  { intros l H. split; [intros (b & t & r & -> & _ & _ & L)|intros (a & t & b & -> & _ & L)]; rewrite !app_length in H; lia. }
  repeat (constructor; [apply X; cbn; lia|]). constructor.
Qed.

(** ** C83: different numbers denote different wires.  False from 2^32 on. *)
Theorem C83_wire_numbers_refuted : exists d1 d2 z1 z2, written 10 d1 z1 /\ written 10 d2 z2 /\ z1 <> z2 /\
  forall st, parse_text_line (T "input " ++ d1) st = parse_text_line (T "input " ++ d2) st.
Proof. exact wires_collide. Qed.
Print Assumptions C83_wire_numbers_refuted.
(** The number is reduced modulo 2^32, or becomes 2^32 - 1. *)
Theorem C83_wire_number_wraps : forall d z rest st, written 10 d z -> no_digit_first rest ->
  parse_text_line (T "input " ++ d ++ rest) st = parseLine (LInput (Z.to_nat (if (z <? 2 ^ 64)%Z then z mod 2 ^ 32 else 2 ^ 32 - 1))) st.
Proof. exact wire_wraps. Qed.
Print Assumptions C83_wire_number_wraps.
Example C83_example : written 10 (T "4294967301") 4294967301 /\ no_digit_first [].
Proof. split; [apply c81_dec; [discriminate|reflexivity..]|exact I]. Qed.
(** In a wire list the rest is dropped, and the gate accepted if the count agrees. *)
Theorem C83_wire_list_dropped : forall is rd, parse_text_line (T "pack in 1 <7 4294967296 8> out 1 <9>") (is, rd) = Ok (is ++ [Inst PACK F0 [7] [9] []], rd).
Proof. exact list_dropped. Qed.
Print Assumptions C83_wire_list_dropped.
(** What is true: below 2^32 a line denotes the wires written.  Missing: numbers from 2^32 on. *)
Theorem C83_wire_numbers_partial : forall s l st, line_text s l -> parse_text_line s st = parseLine l st.
Proof. exact text_line_ok. Qed.
Print Assumptions C83_wire_numbers_partial.
Example C83_line_example : line_text (T "output 4294967295" ++ T " # last") (LOutput (Z.to_nat 4294967295)).
Proof. apply (lt_output (T "4294967295") _ (T " # last")); [wire 4294967295%Z|]. intros n H. apply digit_spec in H; [|lia]. destruct H as [H _]. discriminate H. Qed.

(** ** C84: a line of the inputs file sets the wire to the number written, or is rejected.  False: a
    value that is not hexadecimal is silently zero, *)
Theorem C84_inputs_refuted : exists t rd, t = T "5 0x10" /\ parse_input_line t rd = Ok (varSet 5 F0 rd) /\ F0 <> Fof 16.
Proof. exact inputs_refuted. Qed.
Print Assumptions C84_inputs_refuted.
Theorem C84_not_hexadecimal_is_zero : forall d w c h rest x rd, wire_text d w -> separator c -> Forall (fun a => ~ space a /\ a <> "000"%char /\ a <> "="%char) h -> space_first rest ->
  In x h -> (forall n, ~ digit 16 x n) -> x <> "-"%char ->
  parse_input_line (d ++ c :: h ++ rest) rd = Ok (varSet w F0 rd).
Proof. exact not_hex_zero. Qed.
Print Assumptions C84_not_hexadecimal_is_zero.
(** and a second separator overflows a buffer of two characters. *)
Theorem C84_two_separators_overflow : forall d z s1 s2 rest rd, written 10 d z -> separator s1 -> separator s2 ->
  parse_input_line (d ++ s1 :: s2 :: rest) rd = UB.
Proof. exact double_separator. Qed.
Print Assumptions C84_two_separators_overflow.
Example C84_separator_example : written 10 (T "12") 12 /\ separator " "%char /\ separator "="%char.
Proof. split; [apply c81_dec; [discriminate|reflexivity..]|]. split; [now left|now right]. Qed.
(** What is true: one separator and hexadecimal digits set the value; *)
Theorem C84_inputs_line_partial : forall t wx rd, input_text t wx -> parse_input_line t rd = Ok (varSet (fst wx) (snd wx) rd).
Proof. exact input_ok. Qed.
Print Assumptions C84_inputs_line_partial.
(** and separators and numbers of more than 64 digits are the only memory errors. *)
Theorem C84_inputs_memory_safe_partial : forall l rd, ~ two_separators l -> ~ long_number l -> parse_input_line l rd <> UB.
Proof. exact input_safe. Qed.
Print Assumptions C84_inputs_memory_safe_partial.
Example C84_safe_example : ~ two_separators (T "1=fF") /\ ~ long_number (T "1=fF").
Proof.
  split.
  - intros (a & s1 & s2 & b & E & H1 & H2). destruct a as [|x [|y [|z a]]]; [| | |apply (f_equal (@List.length ascii)) in E; rewrite app_length in E; cbn in E; lia];
      injection E as; subst; destruct H1 as [H1|H1], H2 as [H2|H2]; discriminate.
  - intros (a & t & b & E & _ & L). apply (f_equal (@List.length ascii)) in E. rewrite !app_length in E. cbn in E. lia.
Qed.

(** ** C85: eval prints the values the circuit computes on its output wires. *)
Theorem C85_eval_prints_outputs : forall file gk pv tp mv prog arith inputs more cmd f g ls inp, file arith = Some f -> file inputs = Some g -> circuit_text f ls -> inputs_text g inp ->
  Forall line_ok ls -> Forall plain (insts ls) -> single_assignment [] (insts ls) -> well_typed (insts ls) (env_of_inputs inp) -> (cmd = T "eval" \/ cmd = T "trace") ->
  pinocchio_main file gk pv tp mv (prog :: arith :: cmd :: inputs :: more) =
    Ok (0%Z, map (fun w => Printed w (run (insts ls) (env_of_inputs inp) w)) (output_wires ls)).
Proof. exact eval_main. Qed.
Print Assumptions C85_eval_prints_outputs.
Example C85_example : forall gk pv tp mv,
  pinocchio_main (fun n => if text_eqb n (T "c") then Some c81_file else if text_eqb n (T "i") then Some c81_inputs else None) gk pv tp mv
    [T "pinocchio"; T "c"; T "eval"; T "i"] = Ok (0%Z, [Printed 4 (Fof (255 + 20 - 31 * 255))]).
Proof.
  intros gk pv tp mv. rewrite (C85_eval_prints_outputs _ gk pv tp mv (T "pinocchio") (T "c") (T "i") [] (T "eval") c81_file c81_inputs c81_ls [(0, Fof 1); (1, Fof 255)]).
  - cbn [output_wires flat_map c81_ls app map]. do 4 f_equal. apply Feqb_true. vm_compute. reflexivity.
  - reflexivity.
  - reflexivity.
  - exact C81_circuit.
  - exact C81_inputs.
  - repeat (constructor; [cbn; repeat split; try lia; discriminate|]). constructor.
  - repeat (constructor; [unfold plain, arity; cbn; repeat split; try lia; discriminate|]). constructor.
  - cbn; repeat split; try (intros w; cbn; lia); repeat (constructor; [cbn; lia|]); constructor.
  - apply well_typedb_ok. vm_compute. reflexivity.
  - now left.
Qed.

(** ** C86: the exit status tells whether the inputs satisfy the circuit.  False: the tool only prints a
    message. *)
Theorem C86_exit_status_refuted : exists file argv w x, forall gk pv tp mv, pinocchio_main file gk pv tp mv argv = Ok (0%Z, [NotSatisfied; Printed w x]).
Proof. exact status_refuted. Qed.
Print Assumptions C86_exit_status_refuted.
(** The status of eval, trace and prove is always zero if they return. *)
Theorem C86_exit_status_always_zero : forall file gk pv tp mv prog arith cmd inputs more s es, (cmd = T "eval" \/ cmd = T "trace" \/ (cmd = T "prove" /\ 2 <= List.length more)) ->
  pinocchio_main file gk pv tp mv (prog :: arith :: cmd :: inputs :: more) = Ok (s, es) -> s = 0%Z.
Proof. exact status_zero. Qed.
Print Assumptions C86_exit_status_always_zero.
(** In key generation, where the wires have no values, the same message is printed for circuits that
    are in order. *)
Theorem C86_genkeys_warns : forall file gk pv tp mv prog arith pk vk more s es, file arith = Some warn_text ->
  pinocchio_main file gk pv tp mv (prog :: arith :: T "genkeys" :: pk :: vk :: more) = Ok (s, es) -> In NotSatisfied es.
Proof. exact genkeys_warns. Qed.
Print Assumptions C86_genkeys_warns.
Example C86_example : exists ls, circuit_text warn_text ls /\ Forall line_ok ls /\ Forall plain (insts ls) /\ (forall b, well_typed (insts ls) (env_of_inputs [(0, b2F b)])).
Proof.
  exists [LInput 0; LTable 1 [Fof 7; Fof 8] [0] [1]]. split; [|split; [|split]].
  - exists (T "2"), 2%Z, [], [T "input 0"; T "table 1 <7 8> in <0> out <1>"]. split; [apply c81_dec; [discriminate|reflexivity..]|]. split; [exact I|].
    split; [|split; [repeat (constructor; [no_newline|]); constructor|left; reflexivity]].
    apply bt_line; [apply (lt_input (T "0") 0 []); [wire 0%Z|exact I]|].
    apply bt_line; [apply (lt_table (T "1") 1 (T "7 8") [Fof 7; Fof 8] (T "0") [0] (T "1") [1] [])|apply bt_nil].
    { wire 1%Z. } { apply (it_more _ (T "7") (Fof 7) (T " ") (T "8")); [entry 7%Z|blank|apply it_one; entry 8%Z]. } { apply it_one. wire 0%Z. } { apply it_one. wire 1%Z. }
  - repeat (constructor; [cbn; repeat split; try lia; discriminate|]). constructor.
  - repeat (constructor; [unfold plain, arity; cbn; repeat split; try lia; discriminate|]). constructor.
  - intros b. apply well_typedb_ok. destruct b; vm_compute; reflexivity.
Qed.
