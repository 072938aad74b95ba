(** What an EdDSA signature over Baby-JubJub with the windowed Pedersen hash is. *)
From Coq Require Import List ZArith NArith Bool String.
From Verif Require Import Field Base M_Point M_Montgomery M_Eddsa Spec_Curve Spec_Mont.
Import ListNotations.
Local Open Scope F_scope.

(** [bs] is a decomposition of [x] into 254 bits, little endian; not necessarily the one below p *)
Definition decodes (bs : list bool) (x : F) : Prop := List.length bs = 254%nat /\ Fof (Z.of_N (bits_N bs)) = x.
(** the decomposition of the representative of [x] between 0 and p-1 *)
Definition canonical (bs : list bool) (x : F) : Prop := List.length bs = 254%nat /\ Z.of_N (bits_N bs) = fval x.

(** the Pedersen hash of a bit string is the x coordinate of the windowed sum *)
Definition pedersen_x (bases : list point) (bs : list bool) : F := px (pedersen_sum bases bs).

(** the verification equation s*B = R + h*A *)
Definition eddsa_equation (B A R : point) (s h : N) : Prop := smul s B = padd R (smul h A).

(** What is required of the base points a Pedersen hash of [len] bits asks for: the generator of
    base points answers, with as many points as asked for, all on the curve and of order at
    least 2^248 (see C35, C36, C58 for the points the code really uses), and the number of bits is one the
    gadget supports. *)
Definition good_bases (mkb : basepoint_fn) (name : string) (len : nat) (bases : list point) : Prop :=
  mkb name (basepoints_required (Z.of_nat len)) = Ok bases /\ Forall on_curve bases /\ Forall large_order bases /\
  Z.of_nat (List.length bases) = basepoints_required (Z.of_nat len) /\
  (len mod 3 = 0 /\ 6 <= len <= 186 * List.length bases)%nat.

