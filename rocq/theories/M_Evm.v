(** The 256-bit arithmetic of the Ethereum virtual machine, as used by the contracts of
    /repo/contracts (Solidity 0.5: arithmetic wraps around silently).

    A word is a [Z] between 0 and 2^256 - 1.  A failed [require], an array index out of range and
    running out of gas revert the call: outcome [Throw].  Gas itself is not modelled; the loops
    below have as much fuel as they can need, and a loop that ran out of it would be a [Throw]. *)
From Coq Require Import List ZArith Bool.
From Verif Require Import Base Pocklington.
Import ListNotations.
Local Open Scope Z_scope.

Definition wsize : Z := 2 ^ 256.
Definition is_word (x : Z) : Prop := 0 <= x < wsize.

(** ADD, SUB, MUL, DIV, MOD *)
Definition wadd (a b : Z) : Z := (a + b) mod wsize.
Definition wsub (a b : Z) : Z := (a - b) mod wsize.
Definition wmul (a b : Z) : Z := (a * b) mod wsize.
Definition wdiv (a b : Z) : Z := if b =? 0 then 0 else a / b.
Definition wmod (a b : Z) : Z := if b =? 0 then 0 else a mod b.
(** ADDMOD, MULMOD: not reduced modulo 2^256 in between *)
Definition addmod (a b m : Z) : Z := if m =? 0 then 0 else (a + b) mod m.
Definition mulmod (a b m : Z) : Z := if m =? 0 then 0 else (a * b) mod m.
(** AND, OR, XOR, NOT, SHL, SHR *)
Definition wand (a b : Z) : Z := Z.land a b.
Definition wor (a b : Z) : Z := Z.lor a b.
Definition wxor (a b : Z) : Z := Z.lxor a b.
Definition wnot (a : Z) : Z := wsize - 1 - a.
Definition wshl (s a : Z) : Z := Z.shiftl a s mod wsize.
Definition wshr (s a : Z) : Z := Z.shiftr a s.

(** [require(b)] *)
Definition orequire (b : bool) : outcome unit := if b then Ok tt else Throw.
(** [a\[i\]] on an array: bounds are checked *)
Definition sol_idx {A} (l : list A) (i : Z) : outcome A :=
  if i <? 0 then Throw else match nth_error l (Z.to_nat i) with Some a => Ok a | None => Throw end.

(** a [while] loop *)
Fixpoint owhile {S} (fuel : nat) (cond : S -> bool) (body : S -> outcome S) (s : S) : outcome S :=
  if cond s then match fuel with O => Throw | S f => s' <- body s ;; owhile f cond body s' end else Ok s.

(** precompiled contract 5 (EIP-198) on three words; assumed to have enough gas *)
Definition modexp_precompile (base exponent modulus : Z) : Z :=
  if modulus =? 0 then 0 else powmod base exponent modulus.
(** ModArith.modexp and ModArith.inv, /repo/contracts/ModArith.sol:8-33 *)
Definition modexp (base exponent modulus : Z) : Z := modexp_precompile base exponent modulus.
Definition mod_inv (value field_modulus : Z) : Z := modexp value (wsub field_modulus 2) field_modulus.

(** a string of bytes from words: [abi.encodePacked] of uint256 values (big-endian) *)
Fixpoint be_bytes (n : nat) (x : Z) : list Z :=
  match n with O => [] | S n' => be_bytes n' (x / 256) ++ [x mod 256] end.
