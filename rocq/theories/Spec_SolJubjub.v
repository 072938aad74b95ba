(** Vocabulary for the contracts: curve points given by two words. *)
From Coq Require Import List ZArith.
From Verif Require Import Field M_Point M_Evm M_SolJubjub.
Import ListNotations.
Local Open Scope Z_scope.

(** the point that two words stand for: each is read modulo the field modulus *)
Definition aff (w : Z * Z) : point := mkpt (Fof (fst w)) (Fof (snd w)).
(** the reduced coordinates of a point *)
Definition coords (P : point) : Z * Z := (fval (px P), fval (py P)).
(** the point [JubJub.Generator()] *)
Definition solG : point := aff (sol_Gx, sol_Gy).
(** the challenge of a signature: the hash of R, the public key A and the message, as an integer of 250
    bits *)
Definition sol_challenge (sha256 : list Z -> Z) (R A : Z * Z) (msg : Z) : Z :=
  sha256 (be_bytes 32 (fst R) ++ be_bytes 32 (snd R) ++ be_bytes 32 (fst A) ++ be_bytes 32 (snd A) ++ be_bytes 32 msg) mod 2 ^ 250.
