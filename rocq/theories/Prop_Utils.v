(** Property theorems C12, C13 and C37-C40: message padding and the byte, bit and hexadecimal
    conversions of utils.cpp.  Proofs are in Q_Padding.v and P_Utils.v.

    Vocabulary (Spec_Utils.v, Spec_Padding.v): [msb_bits w z] is [z] in [w] bits, most significant
    first, and [msb_val] the converse; [words n w l] cuts [l] into [n] words of [w]; [be_val]/[le_val]
    are the big/little-endian values of a byte string; [hexstr s bs] says that [s] is hexadecimal
    notation for [bs]; [pad_suffix len k] is 1, [k] zeros and the 64-bit big-endian length;
    [pad_zeros block len k] says that [k] is the least number of zeros that completes a block.
    A buffer is a list; writing outside it is the outcome [UB]. *)
From Coq Require Import List ZArith Bool Arith Lia.
From Verif Require Import Primes Field Base R1CS R1CSFacts M_Utils Spec_Utils P_Utils M_Padding Spec_Padding P_Padding Q_Padding.
Import ListNotations.
Local Open Scope nat_scope.

(** ** C12 *)
Theorem C12_padding_honest : forall (xs : list nat) (msg : list bool) bs n s cs0, 64 <= bs -> length xs mod 8 = 0 -> 0 < length xs ->
  Forall (fun v => v < n) xs -> map s xs = map b2F msg ->
  exists k blocks pb' new, pad_zeros bs (length msg) k /\
    bits2blocks_padded xs bs (PB n s cs0) = Ok (blocks, pb') /\ Forall (fun b => length b = bs) blocks /\
    map (pb_val pb') (concat blocks) = map b2F (msg ++ pad_suffix (length msg) k) /\
    frame n (pb_next pb') s (pb_val pb') /\ pb_cs pb' = cs0 ++ new /\ sat (pb_val pb') new.
Proof. exact padding_honest. Qed.
Print Assumptions C12_padding_honest.
Theorem C12_padding_rejects : forall xs bs pb, length xs mod 8 <> 0 \/ length xs = 0 -> bits2blocks_padded xs bs pb = Abort.
Proof. exact padding_rejects. Qed.
Print Assumptions C12_padding_rejects.
(** a three-byte message in variables 1..24 *)
Example C12_example : exists k blocks pb', pad_zeros 512 24 k /\
  bits2blocks_padded (seq 1 24) 512 (PB 25 (fun _ => F0) []) = Ok (blocks, pb') /\
  map (pb_val pb') (concat blocks) = map b2F (repeat false 24 ++ pad_suffix 24 k).
Proof.
  destruct (C12_padding_honest (seq 1 24) (repeat false 24) 512 25 (fun _ => F0) []) as (k & blocks & pb' & new & H1 & H2 & _ & H3 & _);
    try reflexivity; try (apply Nat.leb_le; reflexivity).
  - apply Forall_forall. intros v Hv. apply in_seq in Hv. lia.
  - exists k, blocks, pb'. split; [exact H1|]. split; [exact H2|exact H3].
Qed.

(** ** C13: false of the code.  The constraint meant to force a padding bit to zero is
    [block[j] * 0 = 0], which every value satisfies. *)
Theorem C13_padding_enforced_refuted : exists (xs : list nat) blocks pb' t t',
  bits2blocks_padded xs 512 (PB (length xs) (fun _ => F0) []) = Ok (blocks, pb') /\
  sat t (pb_cs pb') /\ sat t' (pb_cs pb') /\ map t xs = map t' xs /\
  (exists bits, map t (concat blocks) = map b2F bits) /\ (exists bits, map t' (concat blocks) = map b2F bits) /\
  map t (concat blocks) <> map t' (concat blocks).
Proof. exact padding_refuted. Qed.
Print Assumptions C13_padding_enforced_refuted.
(** the zero bits of the padding of every message can be replaced by any field elements *)
Theorem C13_padding_zeros_are_free : forall (xs : list nat) (msg : list bool) n s cs0, length xs mod 8 = 0 -> 0 < length xs ->
  Forall (fun v => v < n) xs -> map s xs = map b2F msg ->
  exists k blocks pb' new, pad_zeros 512 (length msg) k /\ 0 < k /\
    bits2blocks_padded xs 512 (PB n s cs0) = Ok (blocks, pb') /\ pb_cs pb' = cs0 ++ new /\
    forall zs, length zs = k -> exists t, frame n (pb_next pb') s t /\ sat t new /\
      map t (concat blocks) = map b2F msg ++ [F1] ++ zs ++ map b2F (msb_bits 64 (Z.of_nat (length msg))).
Proof. exact padding_free. Qed.
Print Assumptions C13_padding_zeros_are_free.
(** exactly what the emitted constraints enforce *)
Theorem C13_padding_enforced_partial : forall xs bs n s cs0, 64 <= bs -> length xs mod 8 = 0 -> 0 < length xs ->
  exists k blocks pb' new, pad_zeros bs (length xs) k /\
    bits2blocks_padded xs bs (PB n s cs0) = Ok (blocks, pb') /\
    concat blocks = xs ++ seq n (1 + k + 64) /\ pb_cs pb' = cs0 ++ new /\
    (forall t, sat t new <-> t n = F1 /\ map t (seq (n + 1 + k) 64) = map b2F (msb_bits 64 (Z.of_nat (length xs)))).
Proof. exact padding_enforced. Qed.
Print Assumptions C13_padding_enforced_partial.

(** ** C37 *)
Theorem C37_bytes_bits_bytes : forall bs buf rest, Forall byte bs -> length buf = length bs ->
  exists bits, bytes_to_bv bs = Ok bits /\ bv_to_bytes bits (buf ++ rest) = Ok (bs ++ rest) /\
    length bits = length bs * 8 /\ (forall i, i < length bs -> firstn 8 (skipn (i * 8) bits) = msb_bits 8 (nth i bs 0%Z)).
Proof. exact bytes_bits_bytes. Qed.
Print Assumptions C37_bytes_bits_bytes.
Theorem C37_bits_bytes_bits : forall bits buf rest, length bits mod 8 = 0 -> length buf = length bits / 8 ->
  exists bs, bv_to_bytes bits (buf ++ rest) = Ok (bs ++ rest) /\ length bs = length buf /\ Forall byte bs /\
    bytes_to_bv bs = Ok bits.
Proof. exact bits_bytes_bits. Qed.
Print Assumptions C37_bits_bytes_bits.
(** a last incomplete byte is dropped, a short buffer is overrun *)
Theorem C37_trailing_bits_dropped : forall bits tail buf, length bits mod 8 = 0 -> length tail < 8 -> length bits / 8 <= length buf ->
  bv_to_bytes (bits ++ tail) buf = bv_to_bytes bits buf.
Proof. exact bv_to_bytes_drops. Qed.
Print Assumptions C37_trailing_bits_dropped.
Theorem C37_short_buffer_overrun : forall bits buf, length buf < length bits / 8 -> bv_to_bytes bits buf = UB.
Proof. exact bv_to_bytes_small. Qed.
Print Assumptions C37_short_buffer_overrun.
Example C37_example : bytes_to_bv [1; 128]%Z = Ok [false; false; false; false; false; false; false; true; true; false; false; false; false; false; false; false].
Proof. reflexivity. Qed.

(** ** C38: false of the code, already for the example of its documentation *)
Theorem C38_int_list_to_bits_refuted : exists l ws : list Z, length l = length ws /\ Forall (fun w => 1 <= w <= 64)%Z ws /\
  Forall (fun x => 0 <= x < 2 ^ 64)%Z l /\ int_list_to_bits l ws = UB.
Proof. exact int_list_to_bits_refuted. Qed.
Print Assumptions C38_int_list_to_bits_refuted.
(** in fact every list of two words or more shifts out of range *)
Theorem C38_int_list_to_bits_two_words_undefined : forall l ws, Forall (fun w => 0 <= w < 2 ^ 64)%Z ws -> 2 <= length l -> int_list_to_bits l ws = UB.
Proof. exact int_list_to_bits_ub. Qed.
Print Assumptions C38_int_list_to_bits_two_words_undefined.
(** what is true: a single word is converted correctly, and bit_list_to_ints inverts it *)
Theorem C38_int_list_to_bits_partial : forall x w, (0 <= x < 2 ^ 64)%Z -> (0 <= w <= 64)%Z ->
  int_list_to_bits [x] [w] = Ok (msb_bits (Z.to_nat w) x).
Proof. exact int_list_to_bits_single. Qed.
Print Assumptions C38_int_list_to_bits_partial.
Theorem C38_bit_list_to_ints : forall bits ws, 1 <= ws <= 64 ->
  bit_list_to_ints bits ws = Ok (map msb_val (words (length bits / ws) ws bits)).
Proof. exact bit_list_to_ints_ok. Qed.
Print Assumptions C38_bit_list_to_ints.
Example C38_example : int_list_to_bits [10]%Z [8]%Z = Ok [false; false; false; false; true; false; true; false] /\
  bit_list_to_ints [true; false; true; false; true; true; true] 3 = Ok [5; 3]%Z.
Proof. split; reflexivity. Qed.

(** ** C39 *)
Theorem C39_hex_to_bytes : forall s t buf n, stripped s t -> n <= length buf ->
  (forall bs, 2 <= length s -> hexstr t bs -> length bs = n -> hex_to_bytes s buf n = Ok (true, bs ++ skipn n buf)) /\
  (length s < 2 \/ length t <> 2 * n -> hex_to_bytes s buf n = Ok (false, buf)) /\
  (2 <= length s -> length t = 2 * n -> (forall bs, ~ hexstr t bs) -> hex_to_bytes s buf n = Throw).
Proof. exact hex_to_bytes_main. Qed.
Print Assumptions C39_hex_to_bytes.
Theorem C39_round_trip : forall bs buf rest, Forall byte bs -> length buf = length bs ->
  hex_to_bytes (48 :: 120 :: encode bs)%Z (buf ++ rest) (length bs) = Ok (true, bs ++ rest) /\
  (bs <> [] -> hex_to_bytes (encode bs) (buf ++ rest) (length bs) = Ok (true, bs ++ rest)).
Proof. exact hex_round_trip. Qed.
Print Assumptions C39_round_trip.
Theorem C39_empty : forall buf, hex_to_bytes [] buf 0 = Ok (false, buf) /\ hex_to_bytes [48; 120]%Z buf 0 = Ok (true, buf).
Proof. exact hex_to_bytes_empty. Qed.
Print Assumptions C39_empty.
Example C39_example : (* "0xfF07" into a 3-byte buffer *)
  hex_to_bytes [48; 120; 102; 70; 48; 55]%Z [1; 2; 3]%Z 2 = Ok (true, [255; 7; 3]%Z) /\
  hex_to_bytes [48; 120; 102; 71]%Z [1]%Z 1 = Throw.
Proof. split; reflexivity. Qed.

(** ** C40 *)
Theorem C40_bytes_to_FieldT : forall bs, Forall byte bs ->
  (length bs <= 32 ->
     (exists x, bytes_to_FieldT_bigendian bs = Ok x /\ fval x = be_val bs mod p_mod)%Z /\
     (exists x, bytes_to_FieldT_littleendian bs = Ok x /\ fval x = le_val bs mod p_mod)%Z) /\
  (32 < length bs -> bytes_to_FieldT_bigendian bs = Abort /\ bytes_to_FieldT_littleendian bs = Abort).
Proof. exact bytes_to_FieldT_main. Qed.
Print Assumptions C40_bytes_to_FieldT.
(** 32 bytes of 255 exceed the modulus *)
Example C40_example : exists x, bytes_to_FieldT_bigendian (repeat 255%Z 32) = Ok x /\ fval x = ((2 ^ 256 - 1) mod p_mod)%Z.
Proof.
  destruct (C40_bytes_to_FieldT (repeat 255%Z 32)) as (H & _).
  - apply Forall_forall. intros x Hx. apply repeat_spec in Hx. subst. split; [discriminate|reflexivity].
  - destruct H as ((x & E & V) & _); [rewrite repeat_length; reflexivity|]. exists x. split; [exact E|]. rewrite V. vm_compute. reflexivity.
Qed.
