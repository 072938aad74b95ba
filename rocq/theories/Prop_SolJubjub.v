(** Property theorems C87-C91: the Baby-JubJub and EdDSA contracts, /repo/contracts/{ETEC,JubJub,JubJubPublic,
    wNAF,EdDSA}.sol.  Proofs are in P_SolJubjub.v, P_SolNaf.v and Q_SolJubjub.v.

    Vocabulary: [aff w] is the point that two words stand for, [coords P] are the reduced coordinates of a
    point, [solG] is the contract's generator, [sol_challenge] the hash of a signature (Spec_SolJubjub.v);
    [on_curve], [padd] and [pzmul] are the curve equation, the affine group law and multiples
    (Spec_Curve.v, Spec_Mont.v); [ord_L] is the prime order of the subgroup. *)
From Coq Require Import List ZArith Znumtheory Bool Lia.
From Verif Require Import Primes Field Base M_Point Spec_Curve Spec_Mont Spec_Basepoint P_Curve P_Zmul Q_Jubjub P_Order M_Evm M_SolJubjub Spec_SolJubjub P_SolJubjub Q_SolJubjub.
Import ListNotations.
Local Open Scope Z_scope.

(** ** C87: the contract adds and doubles points as the curve does, also when the coordinates are not
    reduced.  The result is reduced. *)
Theorem C87_contract_point_add : forall P Q, on_curve (aff P) -> on_curve (aff Q) -> sol_pointAdd P Q = coords (padd (aff P) (aff Q)).
Proof. exact sol_pointAdd_lemma. Qed.
Print Assumptions C87_contract_point_add.
Theorem C87_contract_point_double : forall P, on_curve (aff P) -> sol_pointDouble P = coords (padd (aff P) (aff P)).
Proof. exact sol_pointDouble_lemma. Qed.
Print Assumptions C87_contract_point_double.
Example C87_case : on_curve (aff (sol_Gx + sol_Q, sol_Gy)) /\ is_word (sol_Gx + sol_Q) /\ sol_Q <= sol_Gx + sol_Q /\
  on_curve (aff (0, sol_Q - 1)).
Proof. split; [apply fval_inj; vm_compute; reflexivity|]. split; [split; [discriminate|reflexivity]|]. split; [discriminate|]. apply fval_inj. vm_compute. reflexivity. Qed.

(** ** C88: scalarMult multiplies, for every 256-bit scalar *)
Theorem C88_contract_scalar_mult : forall x y v, is_word v -> on_curve (aff (x, y)) -> sol_scalarMult x y v = Ok (coords (pzmul v (aff (x, y)))).
Proof. exact sol_scalarMult_lemma. Qed.
Print Assumptions C88_contract_scalar_mult.
Example C88_case : is_word (2 ^ 256 - 1) /\ on_curve (aff (sol_Gx, sol_Gy)).
Proof. split; [split; [discriminate|reflexivity]|exact solG_on]. Qed.

(** ** C89: scalarMultNAF reverts for zero and for scalars of 256 bits, and multiplies for all others *)
Theorem C89_contract_scalar_mult_naf : forall x y v, is_word v -> 0 <= x < sol_Q -> on_curve (aff (x, y)) ->
  sol_scalarMultNAF x y v = if (v =? 0) || (2 ^ 255 <=? v) then Throw else Ok (coords (pzmul v (aff (x, y)))).
Proof. exact sol_naf_lemma. Qed.
Print Assumptions C89_contract_scalar_mult_naf.
Example C89_case : is_word (2 ^ 255 - 1) /\ 0 <= sol_Gx < sol_Q /\ (2 ^ 255 - 1 =? 0) || (2 ^ 255 <=? 2 ^ 255 - 1) = false /\ on_curve (aff (sol_Gx, sol_Gy)).
Proof. split; [split; [discriminate|reflexivity]|]. split; [split; [discriminate|reflexivity]|]. split; [reflexivity|exact solG_on]. Qed.

(** ** C90: scalarMultNAF5 multiplies.  REFUTED: it does so for the scalars 0, 1 and 3 only.  The other
    odd scalars below 16 give a wrong multiple (the window holds 4P, 5P, ... instead of 5P, 7P, ...), and all
    other scalars up to 2^254 give (0, 0), which is not a point: a digit zero is stored as 16 and not
    recognised (the code compares with 8). *)
Theorem C90_naf5_refuted : exists x y v, 0 <= x < sol_Q /\ on_curve (aff (x, y)) /\ 0 < v < 2 ^ 250 /\
  sol_scalarMultNAF5 x y v <> Ok (coords (pzmul v (aff (x, y)))).
Proof. exact naf5_refuted_lemma. Qed.
Print Assumptions C90_naf5_refuted.
Theorem C90_naf5_returns_zero : forall x y v, 0 < v <= 2 ^ 254 -> v mod 2 = 0 \/ 15 < v ->
  sol_scalarMultNAF5 x y v = Ok (0, 0) /\ ~ on_curve (aff (0, 0)).
Proof. exact sol_naf5_zero_lemma. Qed.
Print Assumptions C90_naf5_returns_zero.
Theorem C90_naf5_wrong_multiple : forall x y k, on_curve (aff (x, y)) -> In k [5; 7; 9; 11; 13; 15] ->
  sol_scalarMultNAF5 x y k = Ok (coords (pzmul ((k + 3) / 2) (aff (x, y)))).
Proof. exact sol_naf5_odd_lemma. Qed.
Print Assumptions C90_naf5_wrong_multiple.
Theorem C90_naf5_partial : forall x y k, on_curve (aff (x, y)) -> In k [0; 1; 3] ->
  sol_scalarMultNAF5 x y k = Ok (coords (pzmul k (aff (x, y)))).
Proof. exact sol_naf5_ok_lemma. Qed.
Print Assumptions C90_naf5_partial.
Example C90_case : 0 < ord_L - 1 <= 2 ^ 254 /\ ((ord_L - 1) mod 2 = 0 \/ 15 < ord_L - 1) /\ In 5 [5; 7; 9; 11; 13; 15].
Proof. split; [split; [reflexivity|discriminate]|]. split; [left; reflexivity|now left]. Qed.

(** ** C91: the contract accepts exactly the signatures with s B = R + t A.  REFUTED: it does not use R.  It
    accepts exactly when s B = t A.  So a signature that satisfies the equation is accepted only if R is
    the neutral element, an honest signature is rejected whatever the key, the nonce and the message, and every
    signature that is accepted gives the secret key away (s = t a modulo the order). *)
Theorem C91_eddsa_refuted : exists sha256 A m R s, (forall l, is_word (sha256 l)) /\ is_word s /\ on_curve (aff A) /\ on_curve (aff R) /\
  pzmul s solG = padd (aff R) (pzmul (sol_challenge sha256 R A m) (aff A)) /\
  sol_eddsa_Verify sha256 A m R s = Ok false.
Proof. exact sol_eddsa_refuted_lemma. Qed.
Print Assumptions C91_eddsa_refuted.
Theorem C91_eddsa_accepts_iff : forall sha256 A m R s, is_word s -> on_curve (aff A) ->
  exists b, sol_eddsa_Verify sha256 A m R s = Ok b /\ (b = true <-> pzmul s solG = pzmul (sol_challenge sha256 R A m) (aff A)).
Proof. exact sol_eddsa_lemma. Qed.
Print Assumptions C91_eddsa_accepts_iff.
Theorem C91_eddsa_valid_rejected : forall sha256 A m R s, is_word s -> on_curve (aff A) -> on_curve (aff R) ->
  pzmul s solG = padd (aff R) (pzmul (sol_challenge sha256 R A m) (aff A)) ->
  (sol_eddsa_Verify sha256 A m R s = Ok true <-> aff R = pzero).
Proof. exact sol_eddsa_signed_lemma. Qed.
Print Assumptions C91_eddsa_valid_rejected.
Theorem C91_eddsa_honest_rejected : forall sha256 a r m s, is_word s -> ~ (ord_L | r) ->
  (ord_L | s - (r + sol_challenge sha256 (coords (pzmul r solG)) (coords (pzmul a solG)) m * a)) ->
  sol_eddsa_Verify sha256 (coords (pzmul a solG)) m (coords (pzmul r solG)) s = Ok false.
Proof. exact sol_eddsa_honest_lemma. Qed.
Print Assumptions C91_eddsa_honest_rejected.
Theorem C91_eddsa_reveals_key : forall sha256 a m R s, is_word s ->
  sol_eddsa_Verify sha256 (coords (pzmul a solG)) m R s = Ok true ->
  (ord_L | s - sol_challenge sha256 R (coords (pzmul a solG)) m * a).
Proof. exact sol_eddsa_leak_lemma. Qed.
Print Assumptions C91_eddsa_reveals_key.
Theorem C91_generator_order : exact_order ord_L solG.
Proof. exact solG_order_lemma. Qed.
Print Assumptions C91_generator_order.
(** an honest signature with the key 5 and the nonce 7, and an accepted one for the same key *)
Definition c91_sha (l : list Z) : Z := fold_left (fun h b => (h * 257 + b) mod 2 ^ 256) l 1.
Definition c91_t (R : Z) : Z := sol_challenge c91_sha (coords (pzmul R solG)) (coords (pzmul 5 solG)) 99.
Lemma c91_word R : 0 <= c91_t R < 2 ^ 250.
Proof. unfold c91_t, sol_challenge. apply Z.mod_pos_bound. reflexivity. Qed.
Example C91_honest : is_word (7 + c91_t 7 * 5) /\ ~ (ord_L | 7) /\
  (ord_L | (7 + c91_t 7 * 5) - (7 + sol_challenge c91_sha (coords (pzmul 7 solG)) (coords (pzmul 5 solG)) 99 * 5)).
Proof.
  pose proof (c91_word 7) as B. split; [unfold is_word, wsize; lia|]. split.
  - intros D. apply Z.divide_pos_le in D; [vm_compute in D; now apply D|reflexivity].
  - exists 0. unfold c91_t. generalize (sol_challenge c91_sha (coords (pzmul 7 solG)) (coords (pzmul 5 solG)) 99). intros t. lia.
Qed.
Example C91_accepted : sol_eddsa_Verify c91_sha (coords (pzmul 5 solG)) 99 (coords (pzmul 7 solG)) (c91_t 7 * 5) = Ok true.
Proof.
  pose proof (c91_word 7) as B.
  destruct (sol_eddsa_lemma c91_sha (coords (pzmul 5 solG)) 99 (coords (pzmul 7 solG)) (c91_t 7 * 5)) as (b & -> & E).
  - unfold is_word, wsize; lia.
  - rewrite aff_coords. apply pzmul_on, solG_on.
  - f_equal. apply E. rewrite aff_coords. unfold c91_t. generalize (sol_challenge c91_sha (coords (pzmul 7 solG)) (coords (pzmul 5 solG)) 99). intros t. exact (pzmul_mul t 5 solG solG_on).
Qed.
