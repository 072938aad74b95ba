(** What a circuit file and an inputs file say, independently of how the reader scans them. *)
From Coq Require Import List ZArith Bool Arith Ascii String.
From Verif Require Import Field R1CS M_Circuit M_Export Spec_Export.
Import ListNotations.
Local Open Scope list_scope.
Local Open Scope Z_scope.

(** a number written in a base (digits only) *)
Inductive written (base : Z) : text -> Z -> Prop :=
| w_one c n : digit base c n -> written base [c] n
| w_more s v c n : written base s v -> digit base c n -> written base (s ++ [c]) (base * v + n).
(** a non-empty string of blanks *)
Definition blanks (s : text) : Prop := s <> [] /\ Forall (fun c => c = " "%char \/ c = "009"%char) s.
(** what stands behind a number *)
Definition no_digit_first (s : text) : Prop := match s with [] => True | c :: _ => forall n, ~ digit 10 c n end.
(** items separated by blanks *)
Inductive items {A} (one : text -> A -> Prop) : text -> list A -> Prop :=
| it_one s a : one s a -> items one s [a]
| it_more s a b t l : one s a -> blanks b -> items one t l -> items one (s ++ b ++ t) (a :: l).
Definition wire_text (s : text) (w : wire) : Prop := exists z, written 10 s z /\ z < 2 ^ 32 /\ w = Z.to_nat z.
Definition entry_text (s : text) (x : F) : Prop := exists z, written 10 s z /\ z < 2 ^ 256 /\ x = Fof z.
Definition count_text (s : text) (n : nat) : Prop := exists z, written 10 s z /\ z < 2 ^ 32 /\ n = Z.to_nat z.
(** gate names *)
Inductive gate_name : text -> opcode -> F -> Prop :=
| gn_add : gate_name (T "add") ADD F0
| gn_mul : gate_name (T "mul") MUL F0
| gn_xor : gate_name (T "xor") XOR F0
| gn_or : gate_name (T "or") OR F0
| gn_assert : gate_name (T "assert") ASSERT F0
| gn_pack : gate_name (T "pack") PACK F0
| gn_zerop : gate_name (T "zerop") ZEROP F0
| gn_split : gate_name (T "split") SPLIT F0
| gn_mul_const h v : written 16 h v -> v < 2 ^ 256 -> (List.length h < 190)%nat -> gate_name (T "const-mul-" ++ h) CONST_MUL (Fof v)
| gn_mul_neg h v : written 16 h v -> v < 2 ^ 256 -> (List.length h < 186)%nat -> gate_name (T "const-mul-neg-" ++ h) CONST_MUL_NEG (Fopp (Fof v)).
(** a line of the circuit file; [rest] is what jsnark writes behind it, a tab and a comment *)
Inductive line_text : text -> line -> Prop :=
| lt_input d w rest : wire_text d w -> no_digit_first rest -> line_text (T "input " ++ d ++ rest) (LInput w)
| lt_nizk d w rest : wire_text d w -> no_digit_first rest -> line_text (T "nizkinput " ++ d ++ rest) (LNizk w)
| lt_output d w rest : wire_text d w -> no_digit_first rest -> line_text (T "output " ++ d ++ rest) (LOutput w)
| lt_table d n t table i ins o outs rest : count_text d n -> items entry_text t table -> items wire_text i ins -> items wire_text o outs ->
    line_text (T "table " ++ d ++ T " <" ++ t ++ T "> in <" ++ i ++ T "> out <" ++ o ++ T ">" ++ rest) (LTable n table ins outs)
| lt_gate name op c d n i ins e m o outs rest : gate_name name op c -> count_text d n -> items wire_text i ins -> count_text e m -> items wire_text o outs ->
    line_text (name ++ T " in " ++ d ++ T " <" ++ i ++ T "> out " ++ e ++ T " <" ++ o ++ T ">" ++ rest) (LGate op c n ins m outs).
(** the lines behind the first, with empty ones and comments *)
Inductive body_text : list text -> list line -> Prop :=
| bt_nil : body_text [] []
| bt_empty ts ls : body_text ts ls -> body_text ([] :: ts) ls
| bt_comment r ts ls : body_text ts ls -> body_text (("#"%char :: r) :: ts) ls
| bt_line t l ts ls : line_text t l -> body_text ts ls -> body_text (t :: ts) (l :: ls).
Definition newline_free (t : text) : Prop := ~ In "010"%char t.
(** a file: every line ends with a newline, which the last one may lack *)
Definition file_of (lines : list text) (s : text) : Prop :=
  s = flat_map (fun l => l ++ nl) lines \/ (exists ls l, lines = ls ++ [l] /\ l <> [] /\ s = flat_map (fun l => l ++ nl) ls ++ l).
Definition circuit_text (s : text) (ls : list line) : Prop :=
  exists d z rest ts, written 10 d z /\ no_digit_first rest /\ body_text ts ls /\
    Forall newline_free ((T "total " ++ d ++ rest) :: ts) /\ file_of ((T "total " ++ d ++ rest) :: ts) s.
(** a line of the inputs file: wire, one separator, hexadecimal value, and perhaps something else *)
Definition space_first (s : text) : Prop := match s with [] => True | c :: _ => space c end.
Definition input_text (s : text) (wx : wire * F) : Prop :=
  exists d c h v rest, s = d ++ c :: h ++ rest /\ wire_text d (fst wx) /\ (c = " "%char \/ c = "="%char) /\
    written 16 h v /\ v < 2 ^ 256 /\ snd wx = Fof v /\ space_first rest.
Inductive inputs_body : list text -> list (wire * F) -> Prop :=
| ib_nil : inputs_body [] []
| ib_empty ts l : inputs_body ts l -> inputs_body ([] :: ts) l
| ib_line t wx ts l : input_text t wx -> inputs_body ts l -> inputs_body (t :: ts) (wx :: l).
Definition inputs_text (s : text) (l : list (wire * F)) : Prop :=
  exists ts, inputs_body ts l /\ Forall newline_free ts /\ file_of ts s.
(** the first word of a line has at least 200 characters *)
Definition long_word (l : text) : Prop :=
  exists b t r, l = b ++ t ++ r /\ Forall space b /\ Forall (fun c => ~ space c) t /\ (200 <= List.length t)%nat.
(** more than 64 hexadecimal digits in a row *)
Definition long_number (l : text) : Prop :=
  exists a t b, l = a ++ t ++ b /\ Forall (fun c => exists n, digit 16 c n) t /\ (64 < List.length t)%nat.
(** the wires a circuit outputs *)
Definition output_wires (ls : list line) : list wire :=
  flat_map (fun l => match l with LOutput w => [w] | _ => [] end) ls.
(** two separators in a row *)
Definition separator (c : ascii) : Prop := c = " "%char \/ c = "="%char.
Definition two_separators (l : text) : Prop := exists a s1 s2 b, l = a ++ s1 :: s2 :: b /\ separator s1 /\ separator s2.
