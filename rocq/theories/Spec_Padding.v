(** Merkle-Damgaard padding of a message (FIPS 180-4, 5.1.1), for a block size in bits. *)
From Coq Require Import List ZArith Bool Arith.
From Verif Require Import Spec_Utils.
Import ListNotations.

(** the bits appended to a message of [len] bits with [k] zero bits *)
Definition pad_suffix (len k : nat) : list bool := true :: repeat false k ++ msb_bits 64 (Z.of_nat len).
(** [k] is the least number of zero bits that fills the last block *)
Definition pad_zeros (block len k : nat) : Prop :=
  (len + 1 + k + 64) mod block = 0 /\ forall k', k' < k -> (len + 1 + k' + 64) mod block <> 0.
