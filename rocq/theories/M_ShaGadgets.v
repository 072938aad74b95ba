(** Model of sha256_many and sha256_full_gadget_512, /repo/src/gadgets/sha256_many.cpp and
    /repo/src/gadgets/sha256_full.hpp.  Both are parametric in the compression gadget, which belongs to
    libsnark (modelled in M_ShaGadget.v). *)
From Coq Require Import List ZArith Bool Arith.
From Verif Require Import Field Base R1CS M_Utils M_Bits M_Padding M_Sha256 M_ShaGadget.
Import ListNotations.
Local Open Scope nat_scope.

(** [x.allocate(pb, k)]: fresh variables of value zero *)
Definition pb_alloc_n (k : nat) (pb : pboard) : list nat * pboard :=
  let n := pb_next pb in
  (seq n k, PB (n + k) (fun v => if (n <=? v) && (v <? n + k) then F0 else pb_val pb v) (pb_cs pb)).
(** [x.fill_with_bits(pb, bits)]; libsnark asserts that the sizes agree *)
Definition fill_with_bits (vs : list nat) (bits : list bool) (s : assign) : outcome assign :=
  _ <- oassert (length vs =? length bits) ;;
  Ok (fold_left (fun s vb => upd s (fst vb) (b2F (snd vb))) (combine vs bits) s).
(** digest_variable::generate_r1cs_constraints of libsnark *)
Definition digest_constraints (vs : list nat) : list constr := map (fun v => boolean_c (V v)) vs.

(** libsnark::SHA256_default_IV: the bits of SHA256_H as constants *)
Definition SHA256_H : list Z := [0x6a09e667; 0xbb67ae85; 0x3c6ef372; 0xa54ff53a; 0x510e527f; 0x9b05688c; 0x1f83d9ab; 0x5be0cd19]%Z.
Definition SHA256_default_IV : list lc :=
  flat_map (fun h => map (fun i => LC (b2F (Z.testbit h (Z.of_nat (31 - i))))) (seq 0 32)) SHA256_H.

(** a constructed compression gadget: its first variable, chaining value, block and output *)
Record hasher : Type := Hasher { hs_n : nat; hs_prev : list lc; hs_block : list nat; hs_out : list nat }.
Definition hasher_new (C : compressor) (prev : list lc) (block out : list nat) (pb : pboard) : hasher * pboard :=
  (Hasher (pb_next pb) prev block out, snd (pb_alloc_n (cp_size C) pb)).
Definition hasher_cs (C : compressor) (h : hasher) : list constr := cp_cs C (hs_n h) (hs_prev h) (hs_block h) (hs_out h).
Definition hasher_wit (C : compressor) (h : hasher) : assign -> outcome assign := cp_wit C (hs_n h) (hs_prev h) (hs_block h) (hs_out h).

(** ** sha256_many *)
Record sha256_many : Type := ShaMany { sm_blocks : list (list nat); sm_hashers : list hasher; sm_outputs : list (list nat) }.
(** one iteration of the loop of the constructor, /repo/src/gadgets/sha256_many.cpp:26-42 *)
Definition many_step (C : compressor) (st : list hasher * list (list nat) * pboard) (block : list nat)
  : outcome (list hasher * list (list nat) * pboard) :=
  let '(hashers, outputs, pb) := st in
  let (out, pb) := pb_alloc_n 256 pb in
  prev <- (if length outputs =? 0 then Ok SHA256_default_IV else o <- idx outputs (length outputs - 1) ;; Ok (map V o)) ;;
  let (h, pb) := hasher_new C prev block out pb in
  Ok (hashers ++ [h], outputs ++ [out], pb).
Fixpoint many_loop (C : compressor) (blocks : list (list nat)) (st : list hasher * list (list nat) * pboard)
  : outcome (list hasher * list (list nat) * pboard) :=
  match blocks with [] => Ok st | b :: r => st <- many_step C st b ;; many_loop C r st end.
(** /repo/src/gadgets/sha256_many.cpp:17-43 *)
Definition sha256_many_new (C : compressor) (in_bits : list nat) (pb : pboard) : outcome (sha256_many * pboard) :=
  ' (blocks, pb) <- bits2blocks_padded in_bits 512 pb ;;
  ' (hashers, outputs, pb) <- many_loop C blocks ([], [], pb) ;;
  Ok (ShaMany blocks hashers outputs, pb).
(** /repo/src/gadgets/sha256_many.cpp:46-49 *)
Definition sha256_many_result (g : sha256_many) : outcome (list nat) := idx (sm_outputs g) (length (sm_outputs g) - 1).
(** /repo/src/gadgets/sha256_many.cpp:52-60 *)
Definition sha256_many_constraints (C : compressor) (g : sha256_many) : outcome (list constr) :=
  cs <- omapM (fun i => h <- idx (sm_hashers g) i ;; o <- idx (sm_outputs g) i ;; Ok (hasher_cs C h ++ digest_constraints o))
          (seq 0 (length (sm_hashers g))) ;;
  Ok (concat cs).
(** /repo/src/gadgets/sha256_many.cpp:63-71 *)
Definition sha256_many_witness (C : compressor) (g : sha256_many) : assign -> outcome assign :=
  oseq (map (hasher_wit C) (sm_hashers g)).

(** ** sha256_full_gadget_512 *)
(** /repo/src/gadgets/sha256_full.hpp:35-59 *)
Definition final_padding_512 : list bool :=
  libff_int_list_to_bits8 ([0x80; 0; 0; 0; 0; 0; 0; 0; 0; 0; 0; 0; 0; 0; 0; 0; 0; 0; 0; 0; 0; 0; 0; 0; 0; 0; 0; 0; 0; 0; 0; 0;
     0; 0; 0; 0; 0; 0; 0; 0; 0; 0; 0; 0; 0; 0; 0; 0; 0; 0; 0; 0; 0; 0; 0; 0;
     0; 0; 0; 0; 0; 0; 0x02; 0]%Z).
(** VariableArray_from_bits, /repo/src/utils.cpp:202-211: the variables are filled, not constrained *)
Definition VariableArray_from_bits (bits : list bool) (pb : pboard) : outcome (list nat * pboard) :=
  let (out, pb) := pb_alloc_n (length bits) pb in
  s <- fill_with_bits out bits (pb_val pb) ;;
  Ok (out, PB (pb_next pb) s (pb_cs pb)).
(** /repo/src/gadgets/sha256_full.hpp:69-79 *)
Record full_gadget : Type := Full { fg_inter : list nat; fg_input : list nat; fg_output : list nat;
                                    fg_in : hasher; fg_padding : list nat; fg_fin : hasher }.
(** /repo/src/gadgets/sha256_full.hpp:81-110 *)
Definition full_new (C : compressor) (input output : list nat) (pb : pboard) : outcome (full_gadget * pboard) :=
  let (inter, pb) := pb_alloc_n 256 pb in
  let (hin, pb) := hasher_new C SHA256_default_IV input inter pb in
  ' (padding, pb) <- VariableArray_from_bits final_padding_512 pb ;;
  let (hfin, pb) := hasher_new C (map V inter) padding output pb in
  _ <- oassert (length input =? 512) ;;
  Ok (Full inter input output hin padding hfin, pb).
(** /repo/src/gadgets/sha256_full.hpp:112-117; the flag is ignored *)
Definition full_constraints (C : compressor) (g : full_gadget) (ensure_output_bitness : bool) : list constr :=
  hasher_cs C (fg_in g) ++ hasher_cs C (fg_fin g).
(** /repo/src/gadgets/sha256_full.hpp:119-122 *)
Definition full_witness (C : compressor) (g : full_gadget) (s : assign) : outcome assign :=
  s <- hasher_wit C (fg_in g) s ;; hasher_wit C (fg_fin g) s.
(** /repo/src/gadgets/sha256_full.hpp:125-138 *)
Definition full_witness_expected (C : compressor) (g : full_gadget) (in_block in_expected : list bool) (s : assign) : outcome assign :=
  _ <- oassert (length in_block =? 512) ;;
  _ <- oassert (length in_expected =? 256) ;;
  s <- fill_with_bits (fg_input g) in_block s ;;
  s <- hasher_wit C (fg_in g) s ;;
  fill_with_bits (fg_output g) in_expected s.
(** /repo/src/gadgets/sha256_full.hpp:144-159; [c] is the uninitialised SHA256_CTX on the stack *)
Definition full_witness_bytes (C : compressor) (c : sctx) (g : full_gadget) (in_bytes : list Z) (s : assign) : outcome assign :=
  md <- SHA256 c in_bytes ;;
  match md with
  | Some md => input_bv <- bytes_to_bv in_bytes ;; output_bv <- bytes_to_bv md ;; full_witness_expected C g input_bv output_bv s
  | None => UB
  end.
