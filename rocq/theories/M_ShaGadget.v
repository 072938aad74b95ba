(** Model of libsnark's sha256_compression_function_gadget (gadgetlib1/gadgets/hashes/sha256/
    sha256_gadget.tcc, sha256_components.tcc, sha256_aux.tcc).  libsnark is not in /repo: the two gadgets
    of /repo that use it (M_ShaGadgets) are proved for every gadget that meets the contract of
    Spec_ShaGadget, and this file is the instance that library provides, written from its published
    source.  Simplification: variables are numbered in the order in which the witness is computed;
    the library allocates some of them earlier, which renames them.  No proofs in this file. *)
From Coq Require Import List ZArith Bool Arith.
From Verif Require Import Field Base R1CS M_Lookup M_Bits M_Sha256.
Import ListNotations.
Local Open Scope nat_scope.

(** a gadget under construction: the next variable, the constraints, the steps of the witness generator *)
Record gst : Type := GSt { g_n : nat; g_cs : list constr; g_w : list (assign -> outcome assign) }.

(** a variable with the constraints that define it and the value the witness generator computes *)
Record gate : Type := Gate { gt_cs : nat -> list constr; gt_val : assign -> F }.
Definition alloc_gate (gt : gate) (g : gst) : gst :=
  GSt (S (g_n g)) (g_cs g ++ gt_cs gt (g_n g)) (g_w g ++ [fun s => Ok (upd s (g_n g) (gt_val gt s))]).
Fixpoint alloc_gates (gs : list gate) (g : gst) : gst :=
  match gs with [] => g | gt :: r => alloc_gates r (alloc_gate gt g) end.

(** a variable equal to a linear combination *)
Definition lin (l : lc) : gate := Gate (fun v => [R1 L1 l (V v)]) (fun s => ev s l).
(** pb_packing_sum of linear combinations *)
Fixpoint packl_from (c : F) (l : list lc) : lc :=
  match l with [] => LC F0 | x :: r => LAdd (LScale c x) (packl_from (c + c)%F r) end.
Definition packl (l : list lc) : lc := packl_from F1 l.
(** packing_gadget without bitness, generate_r1cs_witness_from_bits *)
Definition pack (l : list lc) (g : gst) : nat * gst := (g_n g, alloc_gate (lin (packl l)) g).
Definition alloc_lin (l : lc) (g : gst) : nat * gst := (g_n g, alloc_gate (lin l) g).

Definition F2 : F := (F1 + F1)%F.
(** XOR3_gadget with C assumed zero, or its first half *)
Definition xor2 (A B : lc) : gate :=
  Gate (fun v => [R1 (LScale F2 A) B (LSub (LAdd A B) (V v))])
       (fun s => (ev s A + ev s B - F2 * ev s A * ev s B)%F).
(** rotr(W, i+k) *)
Definition rot (W : list lc) (k i : nat) : lc := nth ((i + k) mod 32) W L0.
Definition word_vars (n : nat) : list lc := map V (seq n 32).
(** small_sigma_gadget *)
Definition small_sigma (W : list lc) (r1 r2 sh : nat) (g : gst) : nat * gst :=
  let t := g_n g in
  let g1 := alloc_gates (map (fun i => xor2 (rot W r1 i) (rot W r2 i)) (seq 0 (32 - sh))) g in
  let g2 := alloc_gates (map (fun i => if i + sh <? 32 then xor2 (V (t + i)) (nth (i + sh) W L0)
                                       else xor2 (rot W r1 i) (rot W r2 i)) (seq 0 32)) g1 in
  pack (word_vars (g_n g1)) g2.
(** big_sigma_gadget *)
Definition big_sigma (W : list lc) (r1 r2 r3 : nat) (g : gst) : nat * gst :=
  let t := g_n g in
  let g1 := alloc_gates (map (fun i => xor2 (rot W r1 i) (rot W r2 i)) (seq 0 32)) g in
  let g2 := alloc_gates (map (fun i => xor2 (V (t + i)) (rot W r3 i)) (seq 0 32)) g1 in
  pack (word_vars (g_n g1)) g2.
(** choice_gadget *)
Definition choice_gate (X Y Z : lc) : gate :=
  Gate (fun v => [R1 X (LSub Y Z) (LSub (V v) Z)])
       (fun s => (ev s X * ev s Y + (F1 - ev s X) * ev s Z)%F).
Definition choice (X Y Z : list lc) (g : gst) : nat * gst :=
  let g1 := alloc_gates (map (fun i => choice_gate (nth i X L0) (nth i Y L0) (nth i Z L0)) (seq 0 32)) g in
  pack (word_vars (g_n g)) g1.
(** majority_gadget *)
Definition majority_gate (X Y Z : lc) : gate :=
  Gate (fun v => let d := LSub (LAdd (LAdd X Y) Z) (LScale F2 (V v)) in
                 [boolean_c (V v); R1 d (LSub L1 d) L0])
       (fun s => Fof (as_ulong (ev s X + ev s Y + ev s Z)%F / 2)).
Definition majority (X Y Z : list lc) (g : gst) : nat * gst :=
  let g1 := alloc_gates (map (fun i => majority_gate (nth i X L0) (nth i Y L0) (nth i Z L0)) (seq 0 32)) g in
  pack (word_vars (g_n g)) g1.
(** lastbits_gadget: the bits [fixed] (the low ones, allocated before) and new variables up to [k] bits
    hold the value of [x]; the low 32 are packed *)
Definition unpack (k : nat) (x : nat) (g : gst) : gst :=
  let bits := seq (g_n g) k in
  GSt (g_n g + k) (g_cs g ++ packing_constraints true bits (V x)) (g_w g ++ [packing_witness_from_packed bits (V x)]).
Definition lastbits (k x : nat) (g : gst) : list lc * nat * gst :=
  let W := word_vars (g_n g) in
  let '(pw, g) := pack W (unpack k x g) in (W, pw, g).

(** sha256_message_schedule_gadget; a word and the variable that packs it *)
Definition wordp : Type := list lc * nat.
Definition wp0 : wordp := ([], 0).
Definition sched_step (st : list wordp * gst) : list wordp * gst :=
  let '(ws, g) := st in
  let i := length ws in
  let '(s0, g) := small_sigma (fst (nth (i - 15) ws wp0)) 7 18 3 g in
  let '(s1, g) := small_sigma (fst (nth (i - 2) ws wp0)) 17 19 10 g in
  let '(u, g) := alloc_lin (LAdd (LAdd (LAdd (V s0) (V s1)) (V (snd (nth (i - 16) ws wp0)))) (V (snd (nth (i - 7) ws wp0)))) g in
  let '(W, pw, g) := lastbits 34 u g in
  (ws ++ [(W, pw)], g).
Definition sched_in (st : list wordp * gst) (W : list lc) : list wordp * gst :=
  let '(ws, g) := st in let '(pw, g) := pack W g in (ws ++ [(W, pw)], g).
(** the words of a bit array written most significant bit first, as arrays least significant bit first *)
Fixpoint rwords (k : nat) (l : list lc) : list (list lc) :=
  match k with O => [] | S k' => rev (firstn 32 l) :: rwords k' (skipn 32 l) end.
Fixpoint iter {A} (k : nat) (f : A -> A) (a : A) : A := match k with O => a | S k' => iter k' f (f a) end.
Definition message_schedule (block : list nat) (g : gst) : list wordp * gst :=
  iter 48 sched_step (fold_left sched_in (rwords 16 (map V block)) ([], g)).

(** sha256_round_function_gadget: the packed d, h, new_a, new_e, and the new registers *)
Record round_out : Type := RO { ro_d : nat; ro_h : nat; ro_a : nat; ro_e : nat }.
Record regs8 : Type := R8 { ra : list lc; rb : list lc; rc : list lc; rdd : list lc;
                            re : list lc; rf : list lc; rg : list lc; rh : list lc }.
Definition round_fn (K : Z) (pW : nat) (r : regs8) (g : gst) : round_out * regs8 * gst :=
  let '(s0, g) := big_sigma (ra r) 2 13 22 g in
  let '(s1, g) := big_sigma (re r) 6 11 25 g in
  let '(ch, g) := choice (re r) (rf r) (rg r) g in
  let '(mj, g) := majority (ra r) (rb r) (rc r) g in
  let '(pd, g) := pack (rdd r) g in
  let '(ph, g) := pack (rh r) g in
  let t1 := LAdd (LAdd (LAdd (LAdd (V ph) (V s1)) (V ch)) (LC (Fof K))) (V pW) in
  let '(ua, g) := alloc_lin (LAdd (LAdd t1 (V s0)) (V mj)) g in
  let '(ue, g) := alloc_lin (LAdd (V pd) t1) g in
  let '(na, pa, g) := lastbits 35 ua g in
  let '(ne, pe, g) := lastbits 35 ue g in
  (RO pd ph pa pe, R8 na (ra r) (rb r) (rc r) ne (re r) (rf r) (rg r), g).
Definition round_step (st : list round_out * regs8 * gst) (kw : Z * wordp) : list round_out * regs8 * gst :=
  let '(os, r, g) := st in
  let '(o, r, g) := round_fn (fst kw) (snd (snd kw)) r g in
  (os ++ [o], r, g).

(** unreduced_output *)
Definition ro0 : round_out := RO 0 0 0 0.
Definition unreduced (os : list round_out) : list lc :=
  map (fun i => LAdd (V (ro_d (nth (3 - i) os ro0))) (V (ro_a (nth (63 - i) os ro0)))) (seq 0 4) ++
  map (fun i => LAdd (V (ro_h (nth (3 - i) os ro0))) (V (ro_e (nth (63 - i) os ro0)))) (seq 0 4).
(** reduce_output: lastbits_gadget onto a word of the output digest, with one more bit and the packed
    word as new variables *)
Definition reduce_word (g : gst) (xw : nat * list nat) : gst :=
  let '(x, w) := xw in
  let bits := w ++ [g_n g] in
  let g := GSt (S (g_n g)) (g_cs g ++ packing_constraints true bits (V x)) (g_w g ++ [packing_witness_from_packed bits (V x)]) in
  snd (pack (map V w) g).
Fixpoint rwords_nat (k : nat) (l : list nat) : list (list nat) :=
  match k with O => [] | S k' => rev (firstn 32 l) :: rwords_nat k' (skipn 32 l) end.

Definition regs_of (prev : list lc) : regs8 :=
  let ws := rwords 8 prev in
  let w i := nth i ws [] in R8 (w 0) (w 1) (w 2) (w 3) (w 4) (w 5) (w 6) (w 7).
(** everything up to the unreduced outputs *)
Definition compression_core (prev : list lc) (block : list nat) (n : nat) : nat * gst :=
  let '(ws, g) := message_schedule block (GSt n [] []) in
  let '(os, r, g) := fold_left round_step (combine K256 ws) ([], regs_of prev, g) in
  (g_n g, alloc_gates (map lin (unreduced os)) g).
Definition compression_gst (n : nat) (prev : list lc) (block out : list nat) : gst :=
  let '(u, g) := compression_core prev block n in
  fold_left reduce_word (combine (seq u 8) (rwords_nat 8 out)) g.
Definition compression_constraints (n : nat) (prev : list lc) (block out : list nat) : list constr :=
  g_cs (compression_gst n prev block out).
Definition compression_witness (n : nat) (prev : list lc) (block out : list nat) : assign -> outcome assign :=
  oseq (g_w (compression_gst n prev block out)).
(** the number of variables: 16 packed words of the block, 48 schedule steps, 64 rounds, 8 unreduced
    outputs, and an overflow bit and a packed word for each output word *)
Definition compression_size : nat := 16 + 48 * 153 + 64 * 272 + 8 + 16.

(** a compression gadget: the number of variables it allocates; its constraints and its witness
    generator, given the first of these variables, the chaining value, the block and the output digest *)
Record compressor : Type := Comp {
  cp_size : nat;
  cp_cs : nat -> list lc -> list nat -> list nat -> list constr;
  cp_wit : nat -> list lc -> list nat -> list nat -> assign -> outcome assign }.
Definition libsnark_sha256 : compressor := Comp compression_size compression_constraints compression_witness.
