(** What an arithmetic circuit computes, following /repo/src/pinocchio/README.md: wires carry field
    elements, a gate reads its input wires and defines its output wires. *)
From Coq Require Import List ZArith Bool Arith.
From Verif Require Import Field Base R1CS M_Circuit.
Import ListNotations.
Local Open Scope nat_scope.

Definition env := wire -> F.
Definition set (e : env) (w : wire) (x : F) : env := fun u => if u =? w then x else e u.
Fixpoint sets (e : env) (ws : list wire) (xs : list F) : env :=
  match ws, xs with w :: ws', x :: xs' => sets (set e w x) ws' xs' | _, _ => e end.

Definition as_bool (x : F) : bool := negb (Feqb x F0).
(** little-endian value of field elements *)
Fixpoint fsum2 (xs : list F) : F := match xs with [] => F0 | x :: r => x + Fof 2 * fsum2 r end%F.
Definition fsum (xs : list F) : F := fold_right Fadd F0 xs.
(** little-endian index *)
Fixpoint bindex (bs : list bool) : nat := match bs with [] => 0 | b :: r => (if b then 1 else 0) + 2 * bindex r end.

(** values of the output wires of a gate; an assertion defines nothing *)
Definition gate (i : inst) (xs : list F) : list F :=
  let x := nth 0 xs F0 in let y := nth 1 xs F0 in
  match i_op i with
  | ADD => [fsum xs]
  | MUL => [x * y]%F
  | XOR => [b2F (xorb (as_bool x) (as_bool y))]
  | OR => [b2F (as_bool x || as_bool y)]
  | ASSERT => []
  | ZEROP => [b2F (as_bool x); b2F (as_bool x)]
  | PACK => [fsum2 xs]
  | SPLIT => map b2F (bits_of_Z (length (i_outs i)) (fval x))
  | CONST_MUL_NEG | CONST_MUL => [i_const i * x]%F
  | TABLE => [nth (bindex (map as_bool xs)) (i_table i) F0]
  end.
Definition step (i : inst) (e : env) : env := sets e (i_outs i) (gate i (map e (i_ins i))).
Definition run (is : list inst) (e : env) : env := fold_left (fun e i => step i e) is e.

(** numbers of wires of each gate *)
Definition arity (i : inst) : Prop :=
  match i_op i with
  | ADD => 2 <= length (i_ins i) /\ length (i_outs i) = 1
  | MUL | XOR | OR | ASSERT => length (i_ins i) = 2 /\ length (i_outs i) = 1
  | CONST_MUL_NEG | CONST_MUL => length (i_ins i) = 1 /\ length (i_outs i) = 1
  | ZEROP => length (i_ins i) = 1 /\ length (i_outs i) = 2
  | SPLIT => length (i_ins i) = 1
  | PACK => length (i_outs i) = 1
  | TABLE => 1 <= length (i_ins i) <= 3 /\ length (i_outs i) = 1 /\ length (i_table i) = 2 ^ length (i_ins i)
  end.
(** the gates covered by C47 and C48: no zerop, no table of eight entries *)
Definition plain (i : inst) : Prop :=
  arity i /\ i_op i <> ZEROP /\ (i_op i = TABLE -> length (i_ins i) <= 2).

Definition bit (x : F) : Prop := x = F0 \/ x = F1.
(** conditions on the values: boolean gates get bits, assertions hold, a split has enough outputs *)
Definition typed (i : inst) (e : env) : Prop :=
  match i_op i with
  | XOR | OR | TABLE => Forall (fun w => bit (e w)) (i_ins i)
  | ASSERT => exists a b c, i_ins i = [a; b] /\ i_outs i = [c] /\ (e a * e b = e c)%F
  | SPLIT => Forall (fun w => fval (e w) < 2 ^ Z.of_nat (length (i_outs i)))%Z (i_ins i)
  | _ => True
  end.
Fixpoint well_typed (is : list inst) (e : env) : Prop :=
  match is with [] => True | i :: r => typed i e /\ well_typed r (step i e) end.
(** only the requirement that boolean gates get bits *)
Fixpoint bool_typed (is : list inst) (e : env) : Prop :=
  match is with
  | [] => True
  | i :: r => (match i_op i with XOR | OR | TABLE => Forall (fun w => bit (e w)) (i_ins i) | _ => True end) /\ bool_typed r (step i e)
  end.
(** the values of the wires that no gate writes *)
Definition input_env (is : list inst) (e : env) : env :=
  fun w => if existsb (Nat.eqb w) (flat_map (fun i => match i_op i with ASSERT => [] | _ => i_outs i end) is) then F0 else e w.
(** the value of a wire under an assignment of the variables; a wire without variable has no value, 0
    by convention *)
Definition wire_val (rd : reader) (t : assign) : env := fun w => match wire_var rd w with Some v => t v | None => F0 end.

(** wires written by a gate *)
Definition writes (i : inst) : list wire := match i_op i with ASSERT => [] | _ => i_outs i end.
(** no gate overwrites a wire that itself or an earlier gate reads or writes *)
Fixpoint single_assignment (used : list wire) (is : list inst) : Prop :=
  match is with
  | [] => True
  | i :: r => NoDup (writes i) /\ (forall w, In w (writes i) -> ~ In w (used ++ i_ins i)) /\
              single_assignment (used ++ i_ins i ++ i_outs i) r
  end.

(** the environment given by an inputs file: the last line for a wire counts, others are zero *)
Definition env_of_inputs (inp : list (wire * F)) : env := fold_left (fun e '(w, x) => set e w x) inp (fun _ => F0).

(** the instructions of a file *)
Fixpoint insts (ls : list line) : list inst :=
  match ls with
  | [] => []
  | LTable _ t ins outs :: r => Inst TABLE F0 ins outs t :: insts r
  | LGate op c _ ins _ outs :: r => Inst op c ins outs [] :: insts r
  | _ :: r => insts r
  end.
(** files the parser accepts *)
Definition line_ok (l : line) : Prop :=
  match l with
  | LInput _ | LNizk _ | LOutput _ => True
  | LTable n t ins outs => n = length ins /\ length outs = 1 /\ 1 <= n <= 3 /\ length t = 2 ^ n
  | LGate op _ n ins m outs => n = length ins /\ m = length outs /\ op <> TABLE
  | LUnknownGate | LUnrecognised => False
  end.
Definition declared (ls : list line) : list wire :=
  flat_map (fun l => match l with LInput w | LNizk w | LOutput w => [w] | _ => [] end) ls.
Definition input_wires (ls : list line) : list wire :=
  flat_map (fun l => match l with LInput w => [w] | _ => [] end) ls.
(** every gate reads wires that are declared or written by an earlier gate *)
Fixpoint dependency_order (known : list wire) (is : list inst) : Prop :=
  match is with
  | [] => True
  | i :: r => incl (i_ins i) known /\ (i_op i = ASSERT -> incl (i_outs i) known) /\ dependency_order (known ++ i_outs i) r
  end.
