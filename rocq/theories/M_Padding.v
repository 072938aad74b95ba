(** Model of bits2blocks_padded, /repo/src/utils.cpp:110-196. *)
From Coq Require Import List ZArith Bool Arith.
From Verif Require Import Field Base R1CS M_Utils.
Import ListNotations.
Local Open Scope nat_scope.

(** the part of libsnark's protoboard a constructor touches: next variable index, values, constraints *)
Record pboard : Type := PB { pb_next : nat; pb_val : assign; pb_cs : list constr }.
(** [x.allocate(pb)]: a fresh index whose value is zero (libsnark protoboard::allocate_var_index) *)
Definition pb_alloc (pb : pboard) : nat * pboard :=
  (pb_next pb, PB (S (pb_next pb)) (upd (pb_val pb) (pb_next pb) F0) (pb_cs pb)).
Definition pb_set (pb : pboard) (v : nat) (x : F) : pboard := PB (pb_next pb) (upd (pb_val pb) v x) (pb_cs pb).
Definition pb_add (pb : pboard) (c : constr) : pboard := PB (pb_next pb) (pb_val pb) (pb_cs pb ++ [c]).

(** while( cond ) body; the fuel bounds the number of iterations and running out of it is UB, so a
    normal return means that the loop ended by itself *)
Fixpoint owhile {S} (fuel : nat) (cond : S -> bool) (body : S -> outcome S) (s : S) : outcome S :=
  if cond s then
    match fuel with O => UB | Datatypes.S f => s' <- body s ;; owhile f cond body s' end
  else Ok s.

Definition length_bits : nat := 64.
(** [off < block_end - length_bits] on size_t *)
Definition lt_wrap (off block_end : nat) : bool :=
  if block_end <? length_bits then true else off <? block_end - length_bits.

(** state of the two inner loops: j, in_bits_offset, block, protoboard *)
Definition bstate := (nat * nat * list nat * pboard)%type.
(** /repo/src/utils.cpp:148-150 *)
Definition copy_bit (in_bits : list nat) (st : bstate) : outcome bstate :=
  let '(j, off, block, pb) := st in
  v <- idx in_bits off ;;
  block <- wr block j v ;;
  Ok (S j, S off, block, pb).
(** /repo/src/utils.cpp:154-170 *)
Definition pad_bit (in_size block_end : nat) (st : bstate) : outcome bstate :=
  let '(j, off, block, pb) := st in
  let (v, pb) := pb_alloc pb in
  block <- wr block j v ;;
  let pb :=
    if off =? in_size then pb_add (pb_set pb v F1) (R1 (V v) L1 L1)
    else if lt_wrap off block_end then pb_add pb (R1 (V v) L0 L0)
    else pb in
  Ok (S j, S off, block, pb).
(** one iteration of the outer loop, /repo/src/utils.cpp:134-171 *)
Definition pad_block (in_bits : list nat) (block_size : nat) (st : nat * list (list nat) * pboard)
  : outcome (nat * list (list nat) * pboard) :=
  let '(off, out_blocks, pb) := st in
  let block := repeat 0 block_size in
  let block_end := off + block_size in
  let bits_end := if length in_bits <? block_end then length in_bits else block_end in
  ' (j, off, block, pb) <-
    (if off <? length in_bits
     then owhile block_size (fun '(_, off, _, _) => off <? bits_end) (copy_bit in_bits) (0, off, block, pb)
     else Ok (0, off, block, pb)) ;;
  ' (j, off, block, pb) <-
    owhile block_size (fun '(_, off, _, _) => off <? block_end) (pad_bit (length in_bits) block_end) (j, off, block, pb) ;;
  Ok (off, out_blocks ++ [block], pb).

(** libff::int_list_to_bits(l, 8), a library function *)
Definition libff_int_list_to_bits8 (l : list Z) : list bool :=
  flat_map (fun w => map (fun j => Z.testbit w (Z.of_nat (7 - j))) (seq 0 8)) l.
(** /repo/src/utils.cpp:176-186 *)
Definition bitlen_bits (bitlen : Z) : list bool :=
  libff_int_list_to_bits8
    (map (fun sh => Z.land (Z.shiftr bitlen sh) 255) [56; 48; 40; 32; 24; 16; 8; 0]%Z).

(** /repo/src/utils.cpp:118-196.  Sizes are natural numbers: the code's [size_t] additions would wrap
    for an input within 577 bits of 2^64.  A zero block size divides by zero. *)
Definition bits2blocks_padded (in_bits : list nat) (block_size : nat) (pb : pboard) : outcome (list (list nat) * pboard) :=
  _ <- oassert (length in_bits mod 8 =? 0) ;;
  _ <- oassert (0 <? length in_bits) ;;
  if block_size =? 0 then UB else
  let total_bits := length in_bits + 1 + length_bits in
  let total_bits :=
    if negb (total_bits mod block_size =? 0) then total_bits + (block_size - total_bits mod block_size) else total_bits in
  let n_blocks := total_bits / block_size in
  ' (_, out_blocks, pb) <- ofor 0 n_blocks (fun _ => pad_block in_bits block_size) (0, [], pb) ;;
  last_block <- back out_blocks ;;
  let lb := bitlen_bits (Z.of_nat (length in_bits)) in
  (* a block size below 64 makes the start index wrap, and the loop does nothing *)
  pb <- (if block_size <? length_bits then Ok pb else
         ofor 0 length_bits (fun k pb =>
           b <- idx lb k ;;
           v <- idx last_block (block_size - length_bits + k) ;;
           let value := b2F b in
           Ok (pb_set (pb_add pb (R1 (V v) L1 (LC value))) v value)) pb) ;;
  Ok (out_blocks, pb).
