(** Model of the command-line tool, /repo/src/pinocchio/main.cpp.  No proofs in this file. *)
From Coq Require Import List ZArith Bool Arith Ascii String.
From Verif Require Import Field Base R1CS M_Circuit M_Export M_Lexer.
Import ListNotations.
Local Open Scope list_scope.
Local Open Scope nat_scope.

(** what the tool does besides returning a status *)
Inductive event : Type :=
| NotSatisfied                          (* "Error: not satisfied!" on the error stream *)
| TestFailed                            (* "Error: failed to test!" *)
| Printed (w : wire) (x : F)            (* a line wire=value *)
| Written (name contents : text).       (* a file *)

Section Main.
(** the files; [None] when a file cannot be opened *)
Variable file : text -> option text.
(** the stubs of stubs.cpp on the protoboard: M_Groth has the key generator and the prover, M_Export
    the verification.  The first result of the key generator is its status. *)
Variable genkeys_from_pb : reader -> text -> text -> outcome (Z * list event).
Variable prove_from_pb : reader -> text -> outcome text.
Variable test_proof_verify : reader -> outcome bool.
Variable main_verify : list text -> outcome Z.

Definition check (rd : reader) : list event := if satb (r_val rd) (r_cs rd) then [] else [NotSatisfied].
(** main.cpp:21-30 *)
Definition main_genkeys (arith pk vk : text) : outcome (Z * list event) :=
  ' (_, rd) <- circuitReader_files (file arith) None ;;
  ' (status, es) <- genkeys_from_pb rd pk vk ;;
  Ok (status, check rd ++ es).
(** main.cpp:33-50.  Simplification: the proof file can be written. *)
Definition main_prove (arith inputs pk proof : text) : outcome (Z * list event) :=
  ' (_, rd) <- circuitReader_files (file arith) (Some (file inputs)) ;;
  json <- prove_from_pb rd pk ;;
  Ok (0%Z, check rd ++ [Written proof json]).
(** main.cpp:53-63 *)
Definition main_test (arith inputs : text) : outcome (Z * list event) :=
  ' (_, rd) <- circuitReader_files (file arith) (Some (file inputs)) ;;
  b <- test_proof_verify rd ;;
  if negb b then Ok (2%Z, [TestFailed]) else Ok (0%Z, []).
(** main.cpp:66-82; the lines the trace prints are not modelled *)
Fixpoint print_wires (ws : list wire) (rd : reader) : list event :=
  match ws with
  | [] => []
  | w :: r => let (x, rd) := varValue w rd in Printed w x :: print_wires r rd
  end.
Definition main_eval (arith inputs : text) : outcome (Z * list event) :=
  ' (_, rd) <- circuitReader_files (file arith) (Some (file inputs)) ;;
  Ok (0%Z, check rd ++ print_wires (r_outputs rd) rd).
(** main, main.cpp:85-148 *)
Definition pinocchio_main (argv : list text) : outcome (Z * list event) :=
  if List.length argv <? 3 then Ok (1%Z, []) else
  arith <- idx argv 1 ;;
  cmd <- idx argv 2 ;;
  let sub_argv := skipn 3 argv in
  let sub_argc := List.length sub_argv in
  if text_eqb cmd (T "genkeys") then
    if sub_argc <? 2 then Ok (5%Z, []) else
    pk <- idx sub_argv 0 ;; vk <- idx sub_argv 1 ;; main_genkeys arith pk vk
  else if text_eqb cmd (T "prove") then
    if sub_argc <? 3 then Ok (5%Z, []) else
    inputs <- idx sub_argv 0 ;; pk <- idx sub_argv 1 ;; proof <- idx sub_argv 2 ;; main_prove arith inputs pk proof
  else if text_eqb cmd (T "verify") then
    if sub_argc <? 2 then Ok (5%Z, []) else
    status <- main_verify (firstn 3 (skipn 2 argv)) ;; Ok (status, [])
  else if text_eqb cmd (T "test") then
    if sub_argc =? 0 then Ok (5%Z, []) else
    inputs <- idx sub_argv 0 ;; main_test arith inputs
  else if text_eqb cmd (T "eval") || text_eqb cmd (T "trace") then
    if sub_argc =? 0 then Ok (5%Z, []) else
    inputs <- idx sub_argv 0 ;; main_eval arith inputs
  else Ok (2%Z, []).
End Main.
