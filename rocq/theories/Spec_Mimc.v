(** Specification of MiMC and of the Miyaguchi-Preneel chain as functions on field
    elements (independent of the gadgets; compare /repo/ethsnarks/mimc/mimc.py). *)
From Coq Require Import List ZArith.
From Verif Require Import Field.
Import ListNotations.
Local Open Scope F_scope.

(** all rounds but the final key addition: x -> (x + k + c)^e for each constant c *)
Definition mimc_rounds (e : Z) (C : list F) (x k : F) : F :=
  fold_left (fun x c => Fpow (x + k + c) e) C x.

(** MiMC-p/e with round constants [C] *)
Definition mimc_spec (e : Z) (C : list F) (x k : F) : F := mimc_rounds e C x k + k.

(** decryption with exponent [d] *)
Definition mimc_inv_spec (d : Z) (C : list F) (y k : F) : F :=
  fold_left (fun z c => Fpow z d - k - c) (rev C) (y - k).

(** Miyaguchi-Preneel: h_0 = iv, h_i = E(h_{i-1}, m_i) + h_{i-1} + m_i *)
Definition mp_spec (E : F -> F -> F) (iv : F) (ms : list F) : F :=
  fold_left (fun h m => h + E m h + m) ms iv.
