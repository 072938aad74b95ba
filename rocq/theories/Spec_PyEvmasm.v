(** Vocabulary of C131. *)
From Coq Require Import ZArith List Arith.
From Verif Require Import M_Evm M_PyEvmasm.
Local Open Scope Z_scope.
(** an instruction without labels: PUSH of a number in range, or an opcode without data *)
Definition plain (i : item) : Prop :=
  match i with Iop c => ~ (0x60 <= c <= 0x7f) | Ipush v => 0 <= v < 2 ^ 256 - 1 | _ => False end.
(** programs whose labels are defined after all jumps to them, and after at least one: [P] are the labels jumped to
    and not defined yet, [D] the ones already defined *)
Fixpoint forward (P D : list nat) (items : list item) : Prop :=
  match items with
  | nil => P = nil
  | cons (Iop c) r => ~ (0x60 <= c <= 0x7f) /\ forward P D r
  | cons (Ipush v) r => 0 <= v < 2 ^ 256 - 1 /\ forward P D r
  | cons (Ijump c None) r => ~ (0x60 <= c <= 0x7f) /\ forward P D r
  | cons (Ijump c (Some t)) r => ~ (0x60 <= c <= 0x7f) /\ ~ In t D /\ forward (cons t P) D r
  | cons (Ipushlabel t) r => ~ In t D /\ forward (cons t P) D r
  | cons (Ilabel t) r => In t P /\ ~ In t D /\ forward (remove Nat.eq_dec t P) (cons t D) r
  end.
(** the bytes of an instruction, when label t is at position [pos t] *)
Definition item_bytes (pos : nat -> nat) (i : item) : list Z :=
  match i with
  | Iop c | Ijump c None => cons c nil
  | Ipush v => push_data v
  | Ijump c (Some t) => app (cons 0x62 (be_bytes 3 (Z.of_nat (pos t)))) (cons c nil)
  | Ipushlabel t => cons 0x62 (be_bytes 3 (Z.of_nat (pos t)))
  | Ilabel _ => cons 0x5b nil
  end.
