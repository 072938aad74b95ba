(** Model of the text level of the circuit reader, /repo/src/pinocchio/circuit_reader.cpp: sscanf with its
    buffers, the stream readers, and the loops over the two files.  What a recognised line then does is in
    M_Circuit.  No proofs in this file. *)
From Coq Require Import List ZArith Bool Arith Ascii String.
From Verif Require Import Field Base R1CS M_Circuit M_Export.
Import ListNotations.
Local Open Scope list_scope.
Local Open Scope nat_scope.

(** ** the C library *)
Fixpoint span (p : ascii -> bool) (s : text) : text * text :=
  match s with
  | c :: r => if p c then let (a, b) := span p r in (c :: a, b) else ([], s)
  | [] => ([], [])
  end.
Definition isdigit (c : ascii) : bool := (digit_value c <? 10)%Z.
Definition dec_value (s : text) : Z := fold_left (fun a c => (10 * a + digit_value c)%Z) s 0%Z.
(** an optional sign *)
Definition scan_sign (s : text) : bool * text :=
  match s with
  | c :: r => if Ascii.eqb c "-" then (true, r) else if Ascii.eqb c "+" then (false, r) else (false, s)
  | [] => (false, [])
  end.
(** a conversion of a scanf format, or a character to match; [cap] is the size of the buffer *)
Inductive dir : Type :=
| DLit (c : ascii)
| DWs
| DUint (bits : Z)
| DStr (cap : nat)
| DSet (p : ascii -> bool) (cap : nat).
Inductive sval : Type := VU (z : Z) | VS (s : text).
(** glibc converts with strtoul, which saturates at 2^64 - 1, and stores the low bits (the C standard
    leaves numbers that do not fit undefined) *)
Definition glibc_uint (bits : Z) (neg : bool) (v : Z) : Z :=
  ((if v <? 2 ^ 64 then (if neg then (- v) mod 2 ^ 64 else v) else 2 ^ 64 - 1) mod 2 ^ bits)%Z.
(** a buffer receives the characters and a NUL *)
Definition store (cap : nat) (s : text) (k : outcome (list sval)) : outcome (list sval) :=
  match s with
  | [] => Ok []
  | _ => if S (List.length s) <=? cap then vs <- k ;; Ok (VS s :: vs) else UB
  end.
(** the values assigned; sscanf returns their number *)
Fixpoint scan (fmt : list dir) (s : text) : outcome (list sval) :=
  match fmt with
  | [] => Ok []
  | DLit c :: f => match s with c' :: r => if Ascii.eqb c c' then scan f r else Ok [] | [] => Ok [] end
  | DWs :: f => scan f (skip_space s)
  | DUint bits :: f =>
      let (neg, s) := scan_sign (skip_space s) in
      let (ds, r) := span isdigit s in
      match ds with [] => Ok [] | _ => vs <- scan f r ;; Ok (VU (glibc_uint bits neg (dec_value ds)) :: vs) end
  | DStr cap :: f => let (t, r) := span (fun c => negb (isspace c)) (skip_space s) in store cap t (scan f r)
  | DSet p cap :: f => let (t, r) := span p s in store cap t (scan f r)
  end.
Definition sscanf (line : text) (fmt : list dir) : outcome (list sval) := scan fmt (c_str line).
Definition lits (s : string) : list dir := map DLit (T s).
(** strstr(s, pat) is not null *)
Fixpoint starts (pat s : text) : bool :=
  match pat, s with
  | [], _ => true
  | a :: p, b :: r => Ascii.eqb a b && starts p r
  | _ :: _, [] => false
  end.
Fixpoint contains (pat s : text) : bool :=
  starts pat s || match s with [] => false | _ :: r => contains pat r end.

(** std::istream >> unsigned int of libstdc++: a minus negates modulo 2^32; a number that does not fit
    fails *)
Definition stream_uint (s : text) : option (Z * text) :=
  let (neg, s) := scan_sign (skip_space s) in
  let (ds, r) := span isdigit s in
  match ds with
  | [] => None
  | _ => let v := dec_value ds in
         if (v <? 2 ^ 32)%Z then Some ((if neg then (- v) mod 2 ^ 32 else v)%Z, r) else None
  end.
(** readIds, circuit_reader.cpp:52-59; every turn of the loop reads at least a character *)
Fixpoint readIds_loop (fuel : nat) (s : text) : list wire :=
  match fuel with
  | O => []
  | S f => match stream_uint s with Some (v, r) => Z.to_nat v :: readIds_loop f r | None => [] end
  end.
Definition readIds (s : text) : list wire := readIds_loop (S (List.length s)) s.
(** FieldT(const char * ), libff: asserts decimal digits; the number is written to four 64-bit limbs and
    then reduced.  Simplification: a number that fits is taken to need no scratch limb. *)
Definition FieldT_of_string (s : text) : outcome F :=
  match s with
  | [] => UB
  | _ => _ <- oassert (forallb isdigit s) ;;
         if (dec_value s <? 2 ^ 256)%Z then Ok (Fof (dec_value s)) else UB
  end.
(** readTable, circuit_reader.cpp:62-69 *)
Fixpoint readTable_loop (fuel : nat) (s : text) : outcome (list F) :=
  match fuel with
  | O => Ok []
  | S f =>
    let (t, r) := span (fun c => negb (isspace c)) (skip_space s) in
    match t with
    | [] => Ok []
    | _ => x <- FieldT_of_string t ;; xs <- readTable_loop f r ;; Ok (x :: xs)
    end
  end.
Definition readTable (s : text) : outcome (list F) := readTable_loop (S (List.length s)) s.
(** GMP mpz_init_set_str(_, s, 16); the number is zero if the string is not a numeral *)
Definition mpz_init_set_str16 (s : text) : Z :=
  let s1 := skip_space s in
  let '(neg, s2) := match s1 with
                    | c :: r => if Ascii.eqb c "-" then (true, r) else (false, s1)
                    | [] => (false, s1)
                    end in
  match s2 with
  | [] => 0
  | c :: _ => if (digit_value c <? 16)%Z then
                match mpz_digits 16 s2 0 with Some v => if (neg : bool) then (- v)%Z else v | None => 0 end
              else 0
  end%Z.
(** readFieldElementFromHex, circuit_reader.cpp:72-80: the decimal digits, a minus and a NUL go to a buffer
    of 150 characters, which is then read as above *)
Definition readFieldElementFromHex (s : text) : outcome F :=
  let v := mpz_init_set_str16 s in
  if ((10 ^ 149 <=? v) || (v <=? - 10 ^ 148))%Z then UB else
  _ <- oassert (0 <=? v)%Z ;;
  if (v <? 2 ^ 256)%Z then Ok (Fof v) else UB.

(** ** parseCircuit *)
(** the chain of strcmp and strstr, circuit_reader.cpp:330-370; the constant starts at a fixed offset *)
Definition gate_type (type : text) : outcome (option (opcode * F)) :=
  if text_eqb type (T "add") then Ok (Some (ADD, F0))
  else if text_eqb type (T "mul") then Ok (Some (MUL, F0))
  else if text_eqb type (T "xor") then Ok (Some (XOR, F0))
  else if text_eqb type (T "or") then Ok (Some (OR, F0))
  else if text_eqb type (T "assert") then Ok (Some (ASSERT, F0))
  else if text_eqb type (T "pack") then Ok (Some (PACK, F0))
  else if text_eqb type (T "zerop") then Ok (Some (ZEROP, F0))
  else if text_eqb type (T "split") then Ok (Some (SPLIT, F0))
  else if contains (T "const-mul-neg-") type then
    c <- readFieldElementFromHex (skipn 14 type) ;; Ok (Some (CONST_MUL_NEG, (c * Fof (-1))%F))
  else if contains (T "const-mul-") type then
    c <- readFieldElementFromHex (skipn 10 type) ;; Ok (Some (CONST_MUL, c))
  else Ok None.
Definition not_gt (c : ascii) : bool := negb (Ascii.eqb c ">").
(** "table %u <%[^>]> in <%[^>]> out <%[^>]>" and "%s in %u <%[^>]> out %u <%[^>]>" *)
Definition fmt_table (cap : nat) : list dir :=
  lits "table" ++ [DWs; DUint 32; DWs] ++ lits "<" ++ [DSet not_gt cap] ++ lits ">" ++ [DWs] ++ lits "in" ++ [DWs] ++
  lits "<" ++ [DSet not_gt cap] ++ lits ">" ++ [DWs] ++ lits "out" ++ [DWs] ++ lits "<" ++ [DSet not_gt cap] ++ lits ">".
Definition fmt_gate (cap : nat) : list dir :=
  [DStr 200; DWs] ++ lits "in" ++ [DWs; DUint 32; DWs] ++ lits "<" ++ [DSet not_gt cap] ++ lits ">" ++ [DWs] ++
  lits "out" ++ [DWs; DUint 32; DWs] ++ lits "<" ++ [DSet not_gt cap] ++ lits ">".
(** circuit_reader.cpp:280-310, up to the size of the table, which M_Circuit checks *)
Definition lex_table (n : Z) (table ins outs : text) : outcome (option line) :=
  let ins := readIds ins in let outs := readIds outs in
  if negb (n =? Z.of_nat (List.length ins))%Z then Exit 6 else
  if negb (List.length outs =? 1) then Exit 6 else
  if ((n <=? 0) || (3 <? n))%Z then Exit 6 else
  t <- readTable table ;;
  Ok (Some (LTable (Z.to_nat n) t ins outs)).
(** circuit_reader.cpp:311-373 *)
Definition lex_gate (type : text) (n : Z) (ins : text) (m : Z) (outs : text) : outcome (option line) :=
  let ins := readIds ins in let outs := readIds outs in
  if negb (n =? Z.of_nat (List.length ins))%Z then Exit 6 else
  if negb (m =? Z.of_nat (List.length outs))%Z then Exit 6 else
  g <- gate_type type ;;
  match g with
  | Some (op, c) => Ok (Some (LGate op c (Z.to_nat n) ins (Z.to_nat m) outs))
  | None => Ok (Some LUnknownGate)
  end.
(** the recognition of a line, circuit_reader.cpp:249-378; empty lines and comments give [None].  The
    buffers inputStr, outputStr and tableStr have the size of the line. *)
Definition lex_line (l : text) : outcome (option line) :=
  match l with
  | [] => Ok None
  | c0 :: _ =>
    if Ascii.eqb c0 "#" then Ok None else
    let cap := List.length l in
    a <- sscanf l (lits "input" ++ [DWs; DUint 32]) ;;
    match a with [VU w] => Ok (Some (LInput (Z.to_nat w))) | _ =>
    a <- sscanf l (lits "nizkinput" ++ [DWs; DUint 32]) ;;
    match a with [VU w] => Ok (Some (LNizk (Z.to_nat w))) | _ =>
    a <- sscanf l (lits "output" ++ [DWs; DUint 32]) ;;
    match a with [VU w] => Ok (Some (LOutput (Z.to_nat w))) | _ =>
    a <- sscanf l (fmt_table cap) ;;
    match a with [VU n; VS table; VS ins; VS outs] => lex_table n table ins outs | _ =>
    a <- sscanf l (fmt_gate cap) ;;
    match a with [VS type; VU n; VS ins; VU m; VS outs] => lex_gate type n ins m outs | _ =>
    Ok (Some LUnrecognised)
    end end end end end
  end.
(** the lines std::getline returns *)
Fixpoint getlines (s cur : text) : list text :=
  match s with
  | [] => match cur with [] => [] | _ => [cur] end
  | c :: r => if Ascii.eqb c "010" then cur :: getlines r [] else getlines r (cur ++ [c])
  end.
Definition parse_text_line (l : text) (st : list inst * reader) : outcome (list inst * reader) :=
  o <- lex_line l ;; match o with Some x => parseLine x st | None => Ok st end.
(** parseCircuit, circuit_reader.cpp:218-389; [None] is a file that cannot be opened *)
Definition parseCircuit_file (file : option text) (rd : reader) : outcome (list inst * reader) :=
  match file with
  | None => Exit (-1)
  | Some s =>
    let (l0, ls) := match getlines s [] with [] => ([], []) | l :: r => (l, r) end in
    a <- sscanf l0 (lits "total" ++ [DWs; DUint 64]) ;;
    match a with
    | [VU _] => fold_left (fun st l => obind st (parse_text_line l)) ls (Ok ([], rd))
    | _ => Exit (-1)
    end
  end.
(** one line of parseInputs, circuit_reader.cpp:131-145: "%u%[= ]%s" with a separator buffer of two
    characters *)
Definition is_sep (c : ascii) : bool := Ascii.eqb c "=" || Ascii.eqb c " ".
Definition parse_input_line (l : text) (rd : reader) : outcome reader :=
  match l with
  | [] => Ok rd
  | _ =>
    a <- sscanf l [DUint 32; DSet is_sep 2; DStr (List.length l)] ;;
    match a with
    | [VU w; VS _; VS v] => x <- readFieldElementFromHex v ;; Ok (varSet (Z.to_nat w) x rd)
    | _ => Exit (-1)
    end
  end.
(** parseInputs, circuit_reader.cpp:118-149 *)
Definition parseInputs_file (file : option text) (rd : reader) : outcome reader :=
  match file with
  | None => Exit (-1)
  | Some s => fold_left (fun o l => obind o (parse_input_line l)) (getlines s []) (Ok rd)
  end.
(** the constructor, circuit_reader.cpp:83-111 *)
Definition circuitReader_files (arith : option text) (inputs : option (option text)) : outcome (list inst * reader) :=
  ' (is, rd) <- parseCircuit_file arith reader0 ;;
  rd <- match inputs with
        | None => Ok rd
        | Some f => rd <- parseInputs_file f rd ;; fold_left (fun o i => obind o (evalInstruction i)) is (Ok rd)
        end ;;
  rd <- fold_left (fun o i => obind o (makeConstraints i)) is (Ok rd) ;;
  Ok (is, rd).
