(** What the SHA-256 gadgets of /repo need of the compression gadget of libsnark, and SHA-256 with an
    arbitrary filler. *)
From Coq Require Import List ZArith Bool Arith.
From Verif Require Import Field Base R1CS M_ShaGadget Spec_Utils Spec_Padding Spec_Sha256.
Import ListNotations.
Local Open Scope nat_scope.

(** the compression function of FIPS 180-4 on bits *)
Definition compress_bits (h m : list bool) : list bool :=
  word_bits (fips_compress (map msb_val (words 8 32 h)) (block_words m)).
(** the hash of a message that is already padded *)
Definition hash_padded (padded : list bool) : list bool :=
  fold_left compress_bits (words (length padded / 512) 512 padded) (word_bits fips_H256).

(** variables of the chaining value and of the block are allocated before, the output digest too, apart
    from them *)
Record well_placed (n : nat) (prev : list lc) (block out : list nat) : Prop := {
  wp_prev : length prev = 256; wp_block : length block = 512; wp_out : length out = 256;
  wp_nodup : NoDup out;
  wp_prev_in : Forall (lc_all (fun v => v < n /\ ~ In v out)) prev;
  wp_block_in : Forall (fun v => v < n /\ ~ In v out) block;
  wp_out_in : Forall (fun v => v < n) out }.
(** the inputs hold the bits [h] and [m] *)
Definition inputs_are (s : assign) (prev : list lc) (block : list nat) (h m : list bool) : Prop :=
  map (ev s) prev = map b2F h /\ map s block = map b2F m.

(** The contract: the constraints mention only the inputs, the output and the gadget's own variables;
    on Boolean inputs they force the output to be the compression of the inputs; the witness generator
    then succeeds, changes only the output and the gadget's own variables, and satisfies them. *)
Record compressor_ok (C : compressor) : Prop := {
  ck_scope : forall n prev block out (P : nat -> Prop), well_placed n prev block out ->
    Forall (lc_all P) prev -> Forall P block -> Forall P out -> (forall v, n <= v < n + cp_size C -> P v) ->
    cs_all P (cp_cs C n prev block out);
  ck_sound : forall n prev block out s h m, well_placed n prev block out -> inputs_are s prev block h m ->
    sat s (cp_cs C n prev block out) -> map s out = map b2F (compress_bits h m);
  ck_complete : forall n prev block out s h m, well_placed n prev block out -> inputs_are s prev block h m ->
    exists s', cp_wit C n prev block out s = Ok s' /\
      (forall v, ~ In v out -> v < n \/ n + cp_size C <= v -> s' v = s v) /\ sat s' (cp_cs C n prev block out) }.
