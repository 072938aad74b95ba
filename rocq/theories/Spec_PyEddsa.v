(** Vocabulary for the Python Pedersen hash and EdDSA. *)
From Coq Require Import List ZArith Bool Arith String.
From Verif Require Import Primes Field Base M_Point Spec_Utils Spec_Sha256 Spec_Curve Spec_Mont Spec_Basepoint M_PyJubjub.
Import ListNotations.
Local Open Scope nat_scope.

(** zeros up to a multiple of three *)
Definition pad3 (bs : list bool) : list bool := bs ++ repeat false ((3 - List.length bs mod 3) mod 3).
(** [from_hash] is [Point.from_hash]: what its loop returns, started from the SHA-256 digest *)
Definition hashes_to_points (sqrt : F -> outcome F) (from_hash : list Z -> outcome point) : Prop :=
  forall data, Forall byte data -> exists md n, is_sha256 data md /\
    forall fuel, n < fuel -> from_hash_loop sqrt fuel (Fof (be_val md)) = Some (from_hash data).
(** the base points of [name] *)
Definition base_points_of (from_hash : list Z -> outcome point) (name : string) (bases : list point) : Prop :=
  String.length name <= 28 /\ (Z.of_nat (List.length bases) <= 65536)%Z /\ Forall on_curve bases /\
  forall i, i < List.length bases -> from_hash (basepoint_text name (Z.of_nat i)) = Ok (nth i bases pzero).
