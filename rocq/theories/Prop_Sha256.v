(** Property theorems C54: SHA-256 and SHA-224 of crypto/sha256.c and crypto/md32_common.h.  Proofs are
    in Q_Sha256.v.

    Vocabulary (Spec_Sha256.v): [is_sha256 m md] / [is_sha224 m md] say that [md] is the digest of the
    byte string [m] under FIPS 180-4, written on bits with constants computed from the roots of primes;
    [pad_zeros] is as in Spec_Padding.v.  [updates] is any sequence of SHA256_Update calls. *)
From Coq Require Import List ZArith Bool Arith Lia.
From Verif Require Import Base M_Utils M_Sha256 Spec_Utils Spec_Padding Spec_Sha256 P_Utils P_Sha256 P_Sha256b P_Sha256c Q_Sha256.
Import ListNotations.
Local Open Scope nat_scope.

(** ** C54: for every message and every way of splitting it, with any rubbish in the context, no access
    leaves the buffer and the digest is the one the standard gives. *)
Theorem C54_sha256_streaming_is_fips : forall c chunks, length (sc_data c) = 16 -> Forall (Forall byte) chunks ->
  exists c' md, updates (SHA256_Init c) chunks = Ok c' /\ SHA256_Final c' = Ok (Some md) /\ length md = 32 /\ is_sha256 (concat chunks) md.
Proof. exact sha256_stream. Qed.
Print Assumptions C54_sha256_streaming_is_fips.
Theorem C54_sha256_oneshot_is_fips : forall c m, length (sc_data c) = 16 -> Forall byte m ->
  exists md, SHA256 c m = Ok (Some md) /\ length md = 32 /\ is_sha256 m md.
Proof. exact sha256_oneshot. Qed.
Print Assumptions C54_sha256_oneshot_is_fips.
Theorem C54_sha256_chunking_invariant : forall c c' chunks chunks', length (sc_data c) = 16 -> length (sc_data c') = 16 ->
  Forall (Forall byte) chunks -> Forall (Forall byte) chunks' -> concat chunks = concat chunks' ->
  exists md, obind (updates (SHA256_Init c) chunks) SHA256_Final = Ok (Some md) /\ obind (updates (SHA256_Init c') chunks') SHA256_Final = Ok (Some md).
Proof. exact sha256_chunking. Qed.
Print Assumptions C54_sha256_chunking_invariant.
Theorem C54_sha224_streaming_is_fips : forall c chunks, length (sc_data c) = 16 -> Forall (Forall byte) chunks ->
  exists c' md, updates (SHA224_Init c) chunks = Ok c' /\ SHA256_Final c' = Ok (Some md) /\ length md = 28 /\ is_sha224 (concat chunks) md.
Proof. exact sha224_stream. Qed.
Print Assumptions C54_sha224_streaming_is_fips.
(** the specification pads with the least number of zeros *)
Theorem C54_fips_padding_is_minimal : forall len, pad_zeros 512 len ((447 + 511 * len) mod 512).
Proof. exact fips_padding. Qed.
Print Assumptions C54_fips_padding_is_minimal.
(** "abc", in two pieces, in a context full of rubbish *)
Example C54_example :
  obind (updates (SHA256_Init (SCtx [] 0 0 (repeat 7%Z 16) 0 0)) [[97%Z]; [98%Z; 99%Z]]) SHA256_Final =
  Ok (Some [186;120;22;191;143;1;207;234;65;65;64;222;93;174;34;35;176;3;97;163;150;23;122;156;180;16;255;97;242;0;21;173]%Z).
Proof. vm_compute. reflexivity. Qed.
Example C54_example_fips : is_sha256 [97;98;99]%Z
  [186;120;22;191;143;1;207;234;65;65;64;222;93;174;34;35;176;3;97;163;150;23;122;156;180;16;255;97;242;0;21;173]%Z.
Proof.
  assert (E := C54_example).
  destruct (C54_sha256_streaming_is_fips (SCtx [] 0 0 (repeat 7%Z 16) 0 0) [[97%Z]; [98%Z; 99%Z]]) as (c'' & md & F1 & F2 & _ & F3).
  - reflexivity.
  - repeat (apply Forall_cons; [repeat (apply Forall_cons; [split; [apply Z.leb_le|apply Z.ltb_lt]; reflexivity|]); apply Forall_nil|]); apply Forall_nil.
  - rewrite F1 in E. cbn beta iota delta [obind] in E. rewrite F2 in E.
    assert (Y := f_equal (fun o => match o with Ok (Some d) => d | _ => [] end) E). cbn beta iota in Y. rewrite <- Y. exact F3.
Qed.
