(** Byte, bit and hexadecimal notation. *)
From Coq Require Import List ZArith Bool.
Import ListNotations.

Definition byte (b : Z) : Prop := (0 <= b < 256)%Z.

(** [k] bits of [z], most significant first *)
Fixpoint msb_bits (k : nat) (z : Z) : list bool :=
  match k with
  | O => []
  | S k' => Z.odd (z / 2 ^ Z.of_nat k') :: msb_bits k' z
  end.
(** the number written by bits, most significant first *)
Fixpoint msb_val (bs : list bool) : Z :=
  match bs with
  | [] => 0
  | b :: r => (if b then 2 ^ Z.of_nat (length r) else 0) + msb_val r
  end%Z.
(** cut into complete words of [w] elements, dropping an incomplete last one *)
Fixpoint words {A} (n w : nat) (l : list A) : list (list A) :=
  match n with
  | O => []
  | S n' => firstn w l :: words n' w (skipn w l)
  end.

(** big-endian and little-endian value of a byte string *)
Fixpoint be_val (bs : list Z) : Z :=
  match bs with [] => 0 | b :: r => b * 256 ^ Z.of_nat (length r) + be_val r end%Z.
Fixpoint le_val (bs : list Z) : Z :=
  match bs with [] => 0 | b :: r => b + 256 * le_val r end%Z.

(** hexadecimal digits: the ASCII codes of 0-9, A-F, a-f *)
Inductive hexdigit : Z -> Z -> Prop :=
| hd_dec c : (48 <= c <= 57)%Z -> hexdigit c (c - 48)
| hd_up c : (65 <= c <= 70)%Z -> hexdigit c (c - 55)
| hd_lo c : (97 <= c <= 102)%Z -> hexdigit c (c - 87).
(** [hexstr s bs]: the characters [s] are the hexadecimal notation of the bytes [bs] *)
Inductive hexstr : list Z -> list Z -> Prop :=
| hs_nil : hexstr [] []
| hs_cons h l a b s bs : hexdigit h a -> hexdigit l b -> hexstr s bs -> hexstr (h :: l :: s) (16 * a + b :: bs)%Z.
(** lower-case encoder *)
Definition digit (d : Z) : Z := (if d <? 10 then 48 + d else 87 + d)%Z.
Fixpoint encode (bs : list Z) : list Z :=
  match bs with [] => [] | b :: r => digit (b / 16) :: digit (b mod 16) :: encode r end%Z.
(** drop an optional 0x *)
Inductive stripped : list Z -> list Z -> Prop :=
| st_prefix s : stripped (48 :: 120 :: s)%Z s
| st_plain s : (forall r, s <> 48 :: 120 :: r)%Z -> stripped s s.
