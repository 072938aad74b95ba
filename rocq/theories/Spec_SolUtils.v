(** What the properties of SnarkUtils.sol refer to. *)
From Coq Require Import List ZArith Bool.
Import ListNotations.
Local Open Scope Z_scope.

(** the bits of a list of 256-bit words one after the other, most significant bit of a word first; no
    bits after the last word *)
Definition stream_bit (ws : list Z) (k : Z) : bool :=
  Z.testbit (nth (Z.to_nat (k / 256)) ws 0) (255 - k mod 256).
(** the number whose bits, least significant first, are the bits start .. start+count-1 of the stream *)
Fixpoint chunk (ws : list Z) (start : Z) (count : nat) : Z :=
  match count with
  | O => 0
  | S c => (if stream_bit ws start then 1 else 0) + 2 * chunk ws (start + 1) c
  end.
(** the stream cut into n pieces of 253 bits *)
Definition packed (ws : list Z) (n : nat) : list Z :=
  map (fun o => chunk ws (253 * Z.of_nat o) 253) (seq 0 n).
