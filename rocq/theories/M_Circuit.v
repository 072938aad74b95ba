(** Model of the arithmetic-circuit reader, /repo/src/pinocchio/circuit_reader.{hpp,cpp}.  A file is the
    list of its recognised lines; the lexical level (sscanf, hexadecimal and decimal constants, comments)
    is in M_Lexer.  Tracing is off. *)
From Coq Require Import List ZArith Bool Arith.
From Verif Require Import Field Base R1CS M_Lookup M_Utils.
Import ListNotations.
Local Open Scope nat_scope.

(** typedef unsigned int Wire *)
Definition wire := nat.
(** /repo/src/pinocchio/circuit_reader.hpp:36-48 *)
Inductive opcode := ADD | MUL | XOR | OR | ASSERT | ZEROP | SPLIT | PACK | CONST_MUL_NEG | CONST_MUL | TABLE.
(** /repo/src/pinocchio/circuit_reader.hpp:57-67 *)
Record inst : Type := Inst { i_op : opcode; i_const : F; i_ins : list wire; i_outs : list wire; i_table : list F }.

(** a line of the circuit file; the two counts of a gate line are the numbers written before the wire
    lists *)
Inductive line : Type :=
| LInput (w : wire)
| LNizk (w : wire)
| LOutput (w : wire)
| LTable (n_in : nat) (table : list F) (ins outs : list wire)
| LGate (op : opcode) (c : F) (n_in : nat) (ins : list wire) (n_out : nat) (outs : list wire)
| LUnknownGate
| LUnrecognised.

(** the reader and its protoboard *)
Record reader : Type := Rd {
  r_next : nat;                 (* next free variable *)
  r_val : assign;               (* pb.val *)
  r_cs : list constr;           (* constraints added so far *)
  r_map : list (wire * nat);    (* variableMap *)
  r_numInputs : nat;
  r_inputs : list wire; r_nizk : list wire; r_outputs : list wire
}.
(** a fresh protoboard; variable 0 is ONE *)
Definition reader0 : reader := Rd 1 (fun _ => F0) [] [] 0 [] [] [].

Fixpoint assoc (m : list (wire * nat)) (w : wire) : option nat :=
  match m with
  | [] => None
  | (w', v) :: r => if w' =? w then Some v else assoc r w
  end.

(** allocation of one protoboard variable; a fresh value is zero *)
Definition r_alloc (rd : reader) : nat * reader :=
  (r_next rd, Rd (S (r_next rd)) (upd (r_val rd) (r_next rd) F0) (r_cs rd) (r_map rd) (r_numInputs rd) (r_inputs rd) (r_nizk rd) (r_outputs rd)).
Definition r_add (rd : reader) (cs : list constr) : reader :=
  Rd (r_next rd) (r_val rd) (r_cs rd ++ cs) (r_map rd) (r_numInputs rd) (r_inputs rd) (r_nizk rd) (r_outputs rd).
Definition r_bind (rd : reader) (w : wire) (v : nat) : reader :=
  Rd (r_next rd) (r_val rd) (r_cs rd) (match assoc (r_map rd) w with Some _ => r_map rd | None => (w, v) :: r_map rd end)
     (r_numInputs rd) (r_inputs rd) (r_nizk rd) (r_outputs rd).

(** varNew, circuit_reader.cpp:579-585: std::map::emplace keeps an existing entry *)
Definition varNew (w : wire) (rd : reader) : nat * reader :=
  let (v, rd) := r_alloc rd in
  let rd := r_bind rd w v in
  (match assoc (r_map rd) w with Some v' => v' | None => v end, rd).
(** varGet, circuit_reader.cpp:588-594 *)
Definition varGet (w : wire) (rd : reader) : nat * reader :=
  match assoc (r_map rd) w with Some v => (v, rd) | None => varNew w rd end.
(** varValue, circuit_reader.cpp:559-564 *)
Definition varValue (w : wire) (rd : reader) : F * reader :=
  let (v, rd) := varGet w rd in (r_val rd v, rd).
(** varSet, circuit_reader.cpp:567-570 *)
Definition varSet (w : wire) (x : F) (rd : reader) : reader :=
  let (v, rd) := varGet w rd in
  Rd (r_next rd) (upd (r_val rd) v x) (r_cs rd) (r_map rd) (r_numInputs rd) (r_inputs rd) (r_nizk rd) (r_outputs rd).

Fixpoint varValues (ws : list wire) (rd : reader) : list F * reader :=
  match ws with
  | [] => ([], rd)
  | w :: r => let (x, rd) := varValue w rd in let (xs, rd) := varValues r rd in (x :: xs, rd)
  end.
Fixpoint varGets (ws : list wire) (rd : reader) : list nat * reader :=
  match ws with
  | [] => ([], rd)
  | w :: r => let (v, rd) := varGet w rd in let (vs, rd) := varGets r rd in (v :: vs, rd)
  end.

(** the table index, circuit_reader.cpp:206-211, on unsigned int (at most three inputs) *)
Fixpoint table_idx (xs : list F) (i : Z) : outcome Z :=
  match xs with
  | [] => Ok i
  | x :: r =>
    let v := as_ulong x in
    _ <- oassert ((v =? 0) || (v =? 1))%Z ;;
    table_idx r ((i + (i + v)) mod 2 ^ 32)%Z
  end.
(** pack, circuit_reader.cpp:184-190 *)
Fixpoint pack_sum (xs : list F) (two sum : F) : F :=
  match xs with [] => sum | x :: r => pack_sum r (two + two)%F (sum + two * x)%F end.
(** split, circuit_reader.cpp:193-197; bigint::test_bit is false beyond the 256 bits *)
Fixpoint split_set (x : F) (ws : list wire) (i : Z) (rd : reader) : reader :=
  match ws with
  | [] => rd
  | w :: r => split_set x r (i + 1)%Z (varSet w (b2F (Z.testbit (fval x) i)) rd)
  end.

(** evalInstruction, circuit_reader.cpp:152-215 *)
Definition evalInstruction (i : inst) (rd : reader) : outcome reader :=
  let (xs, rd) := varValues (i_ins i) rd in
  match i_op i with
  | ADD => o <- idx (i_outs i) 0 ;; Ok (varSet o (fold_left Fadd xs F0) rd)
  | MUL => o <- idx (i_outs i) 0 ;; a <- idx xs 0 ;; b <- idx xs 1 ;; Ok (varSet o (a * b)%F rd)
  | XOR => o <- idx (i_outs i) 0 ;; a <- idx xs 0 ;; b <- idx xs 1 ;; Ok (varSet o (if Feqb a b then F0 else F1) rd)
  | OR => o <- idx (i_outs i) 0 ;; a <- idx xs 0 ;; b <- idx xs 1 ;;
          Ok (varSet o (if Feqb a F0 && Feqb b F0 then F0 else F1) rd)
  | ASSERT => Ok rd
  | ZEROP => o <- idx (i_outs i) 1 ;; a <- idx xs 0 ;; Ok (varSet o (if Feqb a F0 then F0 else F1) rd)
  | PACK => o <- idx (i_outs i) 0 ;; Ok (varSet o (pack_sum xs F1 F0) rd)
  | SPLIT => a <- idx xs 0 ;; Ok (split_set a (i_outs i) 0 rd)
  | CONST_MUL_NEG | CONST_MUL => o <- idx (i_outs i) 0 ;; a <- idx xs 0 ;; Ok (varSet o (i_const i * a)%F rd)
  | TABLE =>
    k <- table_idx (rev xs) 0 ;;
    o <- idx (i_outs i) 0 ;;
    x <- idxZ (i_table i) k ;;
    Ok (varSet o x rd)
  end.

(** [LinearCombinationT sum] with terms added left to right *)
Definition lc_sum (l : list lc) : lc := fold_left LAdd l L0.
Fixpoint two_terms (vs : list nat) (two : F) : list lc :=
  match vs with [] => [] | v :: r => LScale two (V v) :: two_terms r (two + two)%F end.

(** circuit_reader.cpp:614-621 and 644-651 *)
Definition addMulConstraint (ins outs : list wire) (rd : reader) : outcome reader :=
  a <- idx ins 0 ;; b <- idx ins 1 ;; o <- idx outs 0 ;;
  let (l1, rd) := varGet a rd in let (l2, rd) := varGet b rd in let (l3, rd) := varGet o rd in
  Ok (r_add rd [R1 (V l1) (V l2) (V l3)]).
(** circuit_reader.cpp:624-631 *)
Definition addXorConstraint (ins outs : list wire) (rd : reader) : outcome reader :=
  a <- idx ins 0 ;; b <- idx ins 1 ;; o <- idx outs 0 ;;
  let (l1, rd) := varGet a rd in let (l2, rd) := varGet b rd in let (l3, rd) := varGet o rd in
  Ok (r_add rd [R1 (LScale (Fof 2) (V l1)) (V l2) (LSub (LAdd (V l1) (V l2)) (V l3))]).
(** circuit_reader.cpp:634-641 *)
Definition addOrConstraint (ins outs : list wire) (rd : reader) : outcome reader :=
  a <- idx ins 0 ;; b <- idx ins 1 ;; o <- idx outs 0 ;;
  let (l1, rd) := varGet a rd in let (l2, rd) := varGet b rd in let (l3, rd) := varGet o rd in
  Ok (r_add rd [R1 (V l1) (V l2) (LSub (LAdd (V l1) (V l2)) (V l3))]).
(** circuit_reader.cpp:654-675 *)
Definition addSplitConstraint (ins outs : list wire) (rd : reader) : outcome reader :=
  let (vs, rd) := varGets outs rd in
  let rd := r_add rd (map (fun v => boolean_c (V v)) vs) in
  a <- idx ins 0 ;;
  let (l, rd) := varGet a rd in
  Ok (r_add rd [R1 (V l) L1 (lc_sum (two_terms vs F1))]).
(** circuit_reader.cpp:678-694 *)
Definition addPackConstraint (ins outs : list wire) (rd : reader) : outcome reader :=
  let (vs, rd) := varGets ins rd in
  o <- idx outs 0 ;;
  let (l, rd) := varGet o rd in
  Ok (r_add rd [R1 (V l) L1 (lc_sum (two_terms vs F1))]).
(** circuit_reader.cpp:719-735; zerop_items is never read *)
Definition addNonzeroCheckConstraint (ins outs : list wire) (rd : reader) : outcome reader :=
  a <- idx ins 0 ;; o <- idx outs 0 ;;
  let (X, rd) := varGet a rd in
  let (Y, rd) := varGet o rd in
  let (M, rd) := r_alloc rd in
  Ok (r_add rd [boolean_c (V Y); R1 (V X) (LSub L1 (V Y)) L0; R1 (V X) (V M) (V Y)]).
(** circuit_reader.cpp:738-750 *)
Definition handleAddition (ins outs : list wire) (rd : reader) : outcome reader :=
  o <- idx outs 0 ;;
  let (l, rd) := varGet o rd in
  let (vs, rd) := varGets ins rd in
  Ok (r_add rd [R1 L1 (lc_sum (map V vs)) (V l)]).
(** circuit_reader.cpp:753-770 (both functions) *)
Definition handleMulConst (ins outs : list wire) (c : F) (rd : reader) : outcome reader :=
  a <- idx ins 0 ;; o <- idx outs 0 ;;
  let (A, rd) := varGet a rd in let (C, rd) := varGet o rd in
  Ok (r_add rd [R1 (V A) (LC c) (V C)]).
(** addTableConstraint, circuit_reader.cpp:597-611.  The evaluation order of the two varGet arguments
    of line 600 is unspecified in C++; left to right is chosen here. *)
Definition addTableConstraint (ins outs : list wire) (table : list F) (rd : reader) : outcome reader :=
  if length table =? 2 then
    a <- idx ins 0 ;; o <- idx outs 0 ;;
    let (b, rd) := varGet a rd in let (r, rd) := varGet o rd in
    cs <- lookup1_constraints_fn table b r ;; Ok (r_add rd cs)
  else if length table =? 4 then
    a0 <- idx ins 0 ;; a1 <- idx ins 1 ;; 
    let (b0, rd) := varGet a0 rd in let (b1, rd) := varGet a1 rd in
    o <- idx outs 0 ;;
    let (r, rd) := varGet o rd in
    cs <- lookup2_constraints_fn table [b0; b1] (V r) ;; Ok (r_add rd cs)
  else if length table =? 8 then
    a0 <- idx ins 0 ;; a1 <- idx ins 1 ;; a2 <- idx ins 2 ;;
    let (b0, rd) := varGet a0 rd in let (b1, rd) := varGet a1 rd in let (b2, rd) := varGet a2 rd in
    ' (g, n') <- lookup3_new table [b0; b1; b2] (r_next rd) ;;
    cs <- lookup3_constraints g ;;
    let (_, rd) := r_alloc rd in let (_, rd) := r_alloc rd in let (_, rd) := r_alloc rd in
    let (_, rd) := r_alloc rd in let (_, rd) := r_alloc rd in
    Ok (r_add rd cs)
  else Ok rd.

(** makeConstraints, circuit_reader.cpp:487-539 *)
Definition makeConstraints (i : inst) (rd : reader) : outcome reader :=
  let ni := length (i_ins i) in let no := length (i_outs i) in
  match i_op i with
  | ADD => _ <- oassert (1 <? ni) ;; handleAddition (i_ins i) (i_outs i) rd
  | MUL => _ <- oassert ((ni =? 2) && (no =? 1)) ;; addMulConstraint (i_ins i) (i_outs i) rd
  | XOR => _ <- oassert ((ni =? 2) && (no =? 1)) ;; addXorConstraint (i_ins i) (i_outs i) rd
  | OR => _ <- oassert ((ni =? 2) && (no =? 1)) ;; addOrConstraint (i_ins i) (i_outs i) rd
  | ASSERT => _ <- oassert ((ni =? 2) && (no =? 1)) ;; addMulConstraint (i_ins i) (i_outs i) rd
  | CONST_MUL_NEG | CONST_MUL => _ <- oassert ((ni =? 1) && (no =? 1)) ;; handleMulConst (i_ins i) (i_outs i) (i_const i) rd
  | ZEROP => _ <- oassert ((ni =? 1) && (no =? 2)) ;; addNonzeroCheckConstraint (i_ins i) (i_outs i) rd
  | SPLIT => _ <- oassert (ni =? 1) ;; addSplitConstraint (i_ins i) (i_outs i) rd
  | PACK => _ <- oassert (no =? 1) ;; addPackConstraint (i_ins i) (i_outs i) rd
  | TABLE => addTableConstraint (i_ins i) (i_outs i) (i_table i) rd
  end.

(** one line of parseCircuit, circuit_reader.cpp:257-377 *)
Definition parseLine (l : line) (st : list inst * reader) : outcome (list inst * reader) :=
  let (is, rd) := st in
  match l with
  | LInput w =>
    let (_, rd) := varNew w rd in
    Ok (is, Rd (r_next rd) (r_val rd) (r_cs rd) (r_map rd) (S (r_numInputs rd)) (r_inputs rd ++ [w]) (r_nizk rd) (r_outputs rd))
  | LNizk w =>
    let (_, rd) := varNew w rd in
    Ok (is, Rd (r_next rd) (r_val rd) (r_cs rd) (r_map rd) (r_numInputs rd) (r_inputs rd) (r_nizk rd ++ [w]) (r_outputs rd))
  | LOutput w =>
    let (_, rd) := varNew w rd in
    Ok (is, Rd (r_next rd) (r_val rd) (r_cs rd) (r_map rd) (r_numInputs rd) (r_inputs rd) (r_nizk rd) (r_outputs rd ++ [w]))
  | LTable n table ins outs =>
    if negb (n =? length ins) then Exit 6 else
    if negb (length outs =? 1) then Exit 6 else
    if (n =? 0) || (3 <? n) then Exit 6 else
    if negb (length table =? 2 ^ n) then Exit 6 else
    Ok (is ++ [Inst TABLE F0 ins outs table], rd)
  | LGate op c n ins m outs =>
    if negb (n =? length ins) then Exit 6 else
    if negb (m =? length outs) then Exit 6 else
    match op with TABLE => Exit (-1) | _ => (* "table" is not a gate type of this format *)
    Ok (is ++ [Inst op c ins outs []], rd)
    end
  | LUnknownGate => Exit (-1)
  | LUnrecognised => Abort
  end.
(** parseCircuit, circuit_reader.cpp:218-389 *)
Definition parseCircuit (ls : list line) (rd : reader) : outcome (list inst * reader) :=
  fold_left (fun st l => obind st (parseLine l)) ls (Ok ([], rd)).
(** parseInputs, circuit_reader.cpp:118-149 *)
Definition parseInputs (inp : list (wire * F)) (rd : reader) : reader :=
  fold_left (fun rd '(w, x) => varSet w x rd) inp rd.
(** the constructor, circuit_reader.cpp:83-111; [None] is the null inputs file of key generation.
    The result's first [r_numInputs] variables are the primary input ([set_input_sizes], line 384). *)
Definition circuitReader (ls : list line) (inputs : option (list (wire * F))) : outcome (list inst * reader) :=
  ' (is, rd) <- parseCircuit ls reader0 ;;
  rd <- match inputs with
        | None => Ok rd
        | Some inp => fold_left (fun o i => obind o (evalInstruction i)) is (Ok (parseInputs inp rd))
        end ;;
  rd <- fold_left (fun o i => obind o (makeConstraints i)) is (Ok rd) ;;
  Ok (is, rd).
(** the variable of a wire *)
Definition wire_var (rd : reader) (w : wire) : option nat := assoc (r_map rd) w.
(** the wires' values are public iff their variable is among the first [r_numInputs], counted from 1 *)
Definition is_public (rd : reader) (w : wire) : Prop :=
  exists v, wire_var rd w = Some v /\ 1 <= v <= r_numInputs rd.
