(** Model of /repo/contracts/SnarkUtils.sol. *)
From Coq Require Import List ZArith Bool.
From Verif Require Import Base M_Evm.
Import ListNotations.
Local Open Scope Z_scope.

(** [2**k] on words (EXP) *)
Definition wexp2 (k : Z) : Z := 2 ^ k mod wsize.
(** [/] as Solidity 0.5 compiles it: dividing by zero reverts *)
Definition sol_div (a b : Z) : outcome Z := if b =? 0 then Throw else Ok (a / b).

(** _bits, SnarkUtils.sol:8-13 *)
Definition _bits (self index numBits : Z) : outcome Z :=
  _ <- orequire (wadd index numBits <=? 256) ;;
  d <- sol_div self (wexp2 index) ;;
  Ok (wand d (wsub (wexp2 numBits) 1)).

(** the loop of ReverseBits, SnarkUtils.sol:99-103; [s >>= 1] happens in the loop condition *)
Fixpoint reverse_loop (fuel : nat) (s mask v : Z) : outcome Z :=
  let s := wshr 1 s in
  if 0 <? s then
    match fuel with
    | O => Throw
    | S f =>
        let mask := wxor mask (wshl s mask) in
        let v := wor (wand (wshr s v) mask) (wand (wshl s v) (wnot mask)) in
        reverse_loop f s mask v
    end
  else Ok v.
(** ReverseBits, SnarkUtils.sol:93-106.  The shift amount starts at 256 and is halved, so eight rounds
    are enough. *)
Definition ReverseBits (v : Z) : outcome Z := reverse_loop 8 256 (wnot 0) v.

(** the variables of PackWords: i, source, source_offset *)
Record cursor : Type := Cursor { c_i : Z; c_source : Z; c_offset : Z }.

(** the inner loop of PackWords, SnarkUtils.sol:51-82.  Every round either ends the loop or raises
    [dest_offset]; 254 rounds are enough. *)
Fixpoint pack_inner (fuel : nat) (in_words : list Z) (c : cursor) (dest dest_offset : Z) : outcome (cursor * Z) :=
  if dest_offset <? 253 then
    match fuel with
    | O => Throw
    | S f =>
        let bits_needed := wsub 253 dest_offset in
        let bits_avail := wsub 256 (c_offset c) in
        let bits_to_copy := if bits_needed <? bits_avail then bits_needed else bits_avail in
        b <- _bits (c_source c) (c_offset c) bits_to_copy ;;
        let dest := wor dest (wmul b (wexp2 dest_offset)) in
        let source_offset := wadd (c_offset c) bits_to_copy in
        let dest_offset := wadd dest_offset bits_to_copy in
        if 256 <=? source_offset then
          let i := wadd (c_i c) 1 in
          if Z.of_nat (length in_words) <=? i then Ok (Cursor i (c_source c) source_offset, dest)
          else
            w <- sol_idx in_words i ;;
            source <- ReverseBits w ;;
            pack_inner f in_words (Cursor i source 0) dest dest_offset
        else pack_inner f in_words (Cursor (c_i c) (c_source c) source_offset) dest dest_offset
    end
  else Ok (c, dest).
(** the outer loop, SnarkUtils.sol:49-87: [n] output words are still to be written *)
Fixpoint pack_outer (n : nat) (in_words : list Z) (c : cursor) : outcome (list Z) :=
  match n with
  | O => Ok []
  | S n' =>
      ' (c', dest) <- pack_inner 254 in_words c 0 0 ;;
      rest <- pack_outer n' in_words c' ;;
      Ok (dest :: rest)
  end.
(** PackWords, SnarkUtils.sol:36-88.  [out_words] is only written; [n] is its length. *)
Definition PackWords (in_words : list Z) (n : nat) : outcome (list Z) :=
  w <- sol_idx in_words 0 ;;
  source <- ReverseBits w ;;
  pack_outer n in_words (Cursor 0 source 0).
