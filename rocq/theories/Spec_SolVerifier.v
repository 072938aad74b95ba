(** What the properties of the Solidity verifier refer to. *)
From Coq Require Import List ZArith Bool.
From Verif Require Import Field Base FieldQ Primes M_Groth Spec_Groth M_Evm M_SolVerifier.
Import ListNotations.
Local Open Scope Z_scope.

(** The encodings of EIP-196 and EIP-197: two coordinates below q for an element of the first group, the
    pair (0,0) for its neutral element and for no other; the opposite of (x,y) is (x,q-y); no other
    element has y = 0 (there are no points of order two).  The second group is only read; what is read lies
    in the subgroup of order p. *)
Record eip_codec (E : pairing) (S1 : G1 E -> Prop) (S2 : G2 E -> Prop) (C : codec E) : Prop := {
  ec_dec1 : forall x y g, dec1 E C x y = Some g <->
     0 <= x < q_mod /\ 0 <= y < q_mod /\ S1 g /\ enc1 E C g = (x, y);
  ec_range : forall g, S1 g -> 0 <= fst (enc1 E C g) < q_mod /\ 0 <= snd (enc1 E C g) < q_mod;
  ec_zero : enc1 E C (g1_zero E) = (0, 0);
  ec_y0 : forall g, S1 g -> snd (enc1 E C g) = 0 -> g = g1_zero E;
  ec_neg : forall g, S1 g -> g <> g1_zero E ->
     enc1 E C (g1_sub E (g1_zero E) g) = (fst (enc1 E C g), q_mod - snd (enc1 E C g));
  ec_dec2 : forall a b c d g, dec2 E C a b c d = Some g -> S2 g
}.

(** the flat list of coordinates of the elements of the key, x before y *)
Fixpoint flat_points (l : list (Z * Z)) : list Z :=
  match l with [] => [] | (x, y) :: r => x :: y :: flat_points r end.
(** the list is read element by element *)
Definition reads (E : pairing) (C : codec E) (l : list (Z * Z)) (gs : list (G1 E)) : Prop :=
  Forall2 (fun w g => dec1 E C (fst w) (snd w) = Some g) l gs.

(** the 14 words of the key stand for alpha, beta, gamma, delta; the y coordinate of alpha only
    counts modulo q *)
Definition vk_words (E : pairing) (C : codec E) (v : list Z) (al : G1 E) (be ga de : G2 E) : Prop :=
  exists a0 a1 b0 b1 b2 b3 c0 c1 c2 c3 d0 d1 d2 d3,
    v = [a0; a1; b0; b1; b2; b3; c0; c1; c2; c3; d0; d1; d2; d3] /\
    dec1 E C a0 (a1 mod q_mod) = Some al /\ dec2 E C b0 b1 b2 b3 = Some be /\
    dec2 E C c0 c1 c2 c3 = Some ga /\ dec2 E C d0 d1 d2 d3 = Some de.
(** the 8 words of the proof stand for A, B, C; the y coordinate of C only counts modulo q *)
Definition proof_words (E : pairing) (C : codec E) (v : list Z) (A : G1 E) (B : G2 E) (C_ : G1 E) : Prop :=
  exists a0 a1 b0 b1 b2 b3 c0 c1,
    v = [a0; a1; b0; b1; b2; b3; c0; c1] /\
    dec1 E C a0 a1 = Some A /\ dec2 E C b0 b1 b2 b3 = Some B /\ dec1 E C c0 (c1 mod q_mod) = Some C_.

(** an encoding for the pairing in the exponent: 0 is (0,0); k and -k are (0,k) and (0,q-k) for
    1 <= k <= (p-1)/2 *)
Definition half : Z := (p_mod - 1) / 2.
Definition exp_enc1 (k : F) : Z * Z := (0, if fval k <=? half then fval k else q_mod - (p_mod - fval k)).
Definition exp_dec1 (x y : Z) : option F :=
  if negb (x =? 0) then None
  else if (0 <=? y) && (y <=? half) then Some (Fof y)
  else if (q_mod - half <=? y) && (y <? q_mod) then Some (Fof (y - q_mod))
  else None.
(** elements of the second group are written with three zero words in front *)
Definition exp_dec2 (a b c d : Z) : option F :=
  if (a =? 0) && (b =? 0) && (c =? 0) && (0 <=? d) && (d <? p_mod) then Some (Fof d) else None.
Definition exp_codec : codec expE := Codec expE exp_dec1 exp_enc1 exp_dec2.
