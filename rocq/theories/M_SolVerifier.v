(** Model of /repo/contracts/Verifier.sol.

    The precompiled contracts 6, 7 and 8 of the virtual machine (EIP-196, EIP-197) work on words.  How
    words stand for group elements is the record [codec]; what it must satisfy to be the encoding
    of those standards is said in Spec_SolVerifier.  The groups and the pairing are the record of
    M_Groth. *)
From Coq Require Import List ZArith Bool.
From Verif Require Import Field Base M_Groth M_Evm.
Import ListNotations.
Local Open Scope Z_scope.

(** Reading and writing of group elements: [dec1 x y] and [dec2 a b c d] are [None] on words the
    precompiles refuse; [enc1] is what contracts 6 and 7 return. *)
Record codec (E : pairing) : Type := Codec {
  dec1 : Z -> Z -> option (G1 E);
  enc1 : G1 E -> Z * Z;
  dec2 : Z -> Z -> Z -> Z -> option (G2 E)
}.

(** the literals of Verifier.sol:12, 19 and 69 *)
Definition sol_scalar_field : Z := 21888242871839275222246405745257275088548364400416034343698204186575808495617.
Definition sol_q : Z := 21888242871839275222246405745257275088696311157297823662689037894645226208583.
(** NegateY, Verifier.sol:16-21 *)
Definition NegateY (Y : Z) : Z := wsub sol_q (wmod Y sol_q).

Section Verify.
Variable E : pairing.
Variable C : codec E.

(** Precompile 6 (ECADD), the [staticcall] and [require( success )] of Verifier.sol:96-100.  The
    call passes 0xc0 bytes; the precompile reads the first 0x80 of them (the four words of [add_input])
    and writes two words. *)
Definition ecadd (x1 y1 x2 y2 : Z) : outcome (Z * Z) :=
  match dec1 E C x1 y1, dec1 E C x2 y2 with
  | Some a, Some b => Ok (enc1 E C (g1_add E a b))
  | _, _ => Throw
  end.
(** Precompile 7 (ECMUL), Verifier.sol:90-94: of the 0x80 bytes passed it reads the three words of
    [mul_input]; the output goes to [add_input\[2\]] and [add_input\[3\]].  The groups have order p, so
    the multiple by a word depends on the word modulo p only. *)
Definition ecmul (x y s : Z) : outcome (Z * Z) :=
  match dec1 E C x y with Some a => Ok (enc1 E C (g1_mul E (Fof s) a)) | None => Throw end.
(** one of the pairs given to precompile 8 *)
Definition read_pair (l : list Z) : option (G1 E * G2 E) :=
  match l with
  | [x; y; a; b; c; d] =>
      match dec1 E C x y, dec2 E C a b c d with Some P, Some Q => Some (P, Q) | _, _ => None end
  | _ => None
  end.
(** the neutral element of the target group *)
Definition gt_one : GT E :=
  let t := pair E (g1_zero E) (g2_zero E) in gt_mul E t (gt_inv E t).
(** Precompile 8 (pairing check) on the 24 words of [input], as four groups of six: fails unless all
    of them can be read; otherwise 1 or 0, according to whether the product of the pairings is one. *)
Definition pairing_check (g1 g2 g3 g4 : list Z) : outcome Z :=
  match read_pair g1, read_pair g2, read_pair g3, read_pair g4 with
  | Some (P1, Q1), Some (P2, Q2), Some (P3, Q3), Some (P4, Q4) =>
      Ok (if gt_eqb E (gt_mul E (gt_mul E (gt_mul E (pair E P1 Q1) (pair E P2 Q2)) (pair E P3 Q3)) (pair E P4 Q4)) gt_one
          then 1 else 0)
  | _, _, _, _ => Throw
  end.

(** the loop of Verifier.sol:82-101; [m] indexes [vk_gammaABC], the state is [add_input\[0..1\]] *)
Fixpoint vk_x_loop (vk_gammaABC : list Z) (proof_inputs : list Z) (m : Z) (acc : Z * Z) : outcome (Z * Z) :=
  match proof_inputs with
  | [] => Ok acc
  | s :: rest =>
      _ <- orequire (s <? sol_scalar_field) ;;
      m0 <- sol_idx vk_gammaABC m ;;
      m1 <- sol_idx vk_gammaABC (m + 1) ;;
      t <- ecmul m0 m1 s ;;
      acc' <- ecadd (fst acc) (snd acc) (fst t) (snd t) ;;
      vk_x_loop vk_gammaABC rest (m + 2) acc'
  end.

(** Verify, Verifier.sol:65-127.  [in_vk] and [in_proof] are arrays of the fixed sizes 14 and 8, indexed
    by constants only, so no access to them fails. *)
Definition Verify (in_vk vk_gammaABC in_proof proof_inputs : list Z) : outcome bool :=
  let vk i := nth i in_vk 0 in
  let pf i := nth i in_proof 0 in
  _ <- orequire (wsub (Z.of_nat (length vk_gammaABC) / 2) 1 =? Z.of_nat (length proof_inputs)) ;;
  x0 <- sol_idx vk_gammaABC 0 ;;
  y0 <- sol_idx vk_gammaABC 1 ;;
  vk_x <- vk_x_loop vk_gammaABC proof_inputs 2 (x0, y0) ;;
  out <- pairing_check
           [pf 0%nat; pf 1%nat; pf 2%nat; pf 3%nat; pf 4%nat; pf 5%nat]
           [vk 0%nat; NegateY (vk 1%nat); vk 2%nat; vk 3%nat; vk 4%nat; vk 5%nat]
           [fst vk_x; NegateY (snd vk_x); vk 6%nat; vk 7%nat; vk 8%nat; vk 9%nat]
           [pf 6%nat; NegateY (pf 7%nat); vk 10%nat; vk 11%nat; vk 12%nat; vk 13%nat] ;;
  Ok (negb (out =? 0)).
End Verify.
