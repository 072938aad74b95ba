(** Model of /repo/ethsnarks/poseidon/permutation.py.
    Python integers are Z.  The assertions of [poseidon_params] that compare security levels in floating
    point (lines 27-66) are not modelled; they do not change what is returned. *)
From Coq Require Import List ZArith Bool Arith.
From Verif Require Import Primes Field Base M_Bits Spec_Utils.
Import ListNotations.
Local Open Scope nat_scope.
Local Open Scope Z_scope.

(** [int.to_bytes(n, 'little')] of a number that fits *)
Fixpoint to_bytes_le (n : nat) (v : Z) : list Z :=
  match n with O => [] | S n' => v mod 256 :: to_bytes_le n' (v / 256) end.
(** [pow(x, e, p)] *)
Definition py_pow (x e p : Z) : Z := x ^ e mod p.

Section Params.
(** pyblake2b.blake2b with digest_size 32 *)
Variable blake : list Z -> list Z.
(** [H], /repo/ethsnarks/poseidon/permutation.py:94-99, of bytes; an int is first written as 32 bytes *)
Definition py_H (arg : list Z) : Z := le_val (blake arg).
(** [poseidon_constants], 102-106: a digest is reduced for the list but not for the next call *)
Fixpoint py_constants (p : Z) (seed : list Z) (n : nat) : list Z :=
  match n with
  | O => []
  | S n' => let h := py_H seed in h mod p :: py_constants p (to_bytes_le 32 h) n'
  end.
(** [poseidon_matrix], 109-117 *)
Definition py_matrix (p : Z) (seed : list Z) (t : nat) : list (list Z) :=
  let c := py_constants p seed (t * 2) in
  map (fun i => map (fun j => py_pow ((nth i c 0 - nth (t + j) c 0) mod p) (p - 2) p) (seq 0 t)) (seq 0 t).
(** [poseidon_params], 25-91, with the constants not given; [seed] is b'poseidon' (line 120) followed
    by b'_constants' and b'_matrix_0000' *)
Definition py_poseidon_params (p : Z) (t Fr P : nat) : list Z * list (list Z) :=
  (py_constants p [112;111;115;101;105;100;111;110;95;99;111;110;115;116;97;110;116;115] (Fr + P),
   py_matrix p [112;111;115;101;105;100;111;110;95;109;97;116;114;105;120;95;48;48;48;48] t).
End Params.

Section Permutation.
Variables (p e : Z) (t Fr P : nat).
(** [poseidon_sbox], 123-138 *)
Definition py_sbox (state : list Z) (i : nat) : outcome (list Z) :=
  let half := (Fr / 2)%nat in
  if ((i <? half) || (half + P <=? i))%nat then Ok (map (fun x => py_pow x e p) state)
  else match state with [] => Throw | x :: r => Ok (py_pow x e p :: r) end.
(** one sum of [poseidon_mix], 141-147; a row shorter than the state is an IndexError *)
Fixpoint py_dot (row state : list Z) : outcome Z :=
  match state, row with
  | [], _ => Ok 0
  | _ :: _, [] => Throw
  | x :: state', m :: row' => r <- py_dot row' state' ;; Ok (m * x + r)
  end.
Definition py_mix (state : list Z) (M : list (list Z)) : outcome (list Z) :=
  omapM (fun row => s <- py_dot row state ;; Ok (s mod p)) M.
(** the loop of [poseidon], 184-190 *)
Fixpoint py_rounds (i : nat) (C : list Z) (M : list (list Z)) (state : list Z) : outcome (list Z) :=
  match C with
  | [] => Ok state
  | c :: C' =>
      state <- py_sbox (map (fun x => x + c) state) i ;;
      state <- py_mix state M ;;
      py_rounds (S i) C' M state
  end.
(** [poseidon], 150-194; lines 182-183 replace the first elements of the state, which gets longer
    than [t] when there are more inputs; [chained=True] returns the state, [chained=False] its first element *)
Definition py_poseidon_state (chained : bool) (C : list Z) (M : list (list Z)) (inputs : list Z) : outcome (list Z) :=
  _ <- (if (0 <? List.length inputs)%nat then Ok tt else Throw) ;;
  _ <- (if chained || (List.length inputs <? t)%nat then Ok tt else Throw) ;;
  py_rounds 0 C M (inputs ++ repeat 0 (t - List.length inputs)).
Definition py_poseidon (C : list Z) (M : list (list Z)) (inputs : list Z) : outcome Z :=
  s <- py_poseidon_state false C M inputs ;;
  match s with [] => Throw | x :: _ => Ok x end.
End Permutation.
