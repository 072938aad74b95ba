(** Property theorems C17 (Poseidon).  The round constants and the matrix are arbitrary, so
    the statements cover the constants the code derives from its seeds. *)
From Coq Require Import List ZArith Bool Arith.
From Verif Require Import Primes Field Base R1CS R1CSFacts M_Poseidon Spec_Poseidon Q_Poseidon.
Import ListNotations.
Local Open Scope F_scope.

(** ** C17 *)
Theorem C17_poseidon_gadget : forall t c Fr P nI nO constrain C M inputs n,
  (4 <= Fr)%nat -> (1 <= P)%nat -> (c <= t)%nat -> (nI <= t)%nat -> (nO <= t)%nat ->
  length C = (Fr + P)%nat -> length M = (t * t)%nat -> length inputs = nI ->
  Forall (fun v => v < n)%nat inputs ->
  exists g n' rs cs, poseidon_new t c Fr P nI nO constrain C M inputs n = Ok (g, n') /\
    poseidon_results g = Ok rs /\ poseidon_constraints g = Ok cs /\
    (forall s, sat s cs -> map (ev s) rs = poseidon_spec t c Fr P nO C M (map s inputs)) /\
    (forall s, exists s', poseidon_witness g s = Ok s' /\ sat s' cs /\
       (forall v, (v < n)%nat -> s' v = s v) /\
       map (ev s') rs = poseidon_spec t c Fr P nO C M (map s inputs)).
Proof. exact poseidon_gadget_lemma. Qed.
Print Assumptions C17_poseidon_gadget.
Theorem C17_poseidon_permute : forall t c Fr P nI nO C M inputs,
  (4 <= Fr)%nat -> (1 <= P)%nat -> (c <= t)%nat -> (nI <= t)%nat -> (nO <= t)%nat ->
  length C = (Fr + P)%nat -> length M = (t * t)%nat -> length inputs = nI ->
  poseidon_permute t c Fr P nI nO C M inputs = Ok (poseidon_spec t c Fr P nO C M inputs).
Proof. exact poseidon_permute_lemma. Qed.
Print Assumptions C17_poseidon_permute.
(** outside the parameter ranges above the gadget is not built *)
Theorem C17_poseidon_bad_parameters : forall t c Fr P nI nO constrain C M inputs n,
  (Fr < 4 \/ P = 0)%nat -> is_ok (poseidon_new t c Fr P nI nO constrain C M inputs n) = false.
Proof. exact poseidon_bad_parameters_lemma. Qed.
Print Assumptions C17_poseidon_bad_parameters.
Theorem C17_poseidon_short_inputs_is_ub : forall t c Fr P nI nO constrain C M inputs n g n',
  (length inputs < nI)%nat ->
  poseidon_new t c Fr P nI nO constrain C M inputs n = Ok (g, n') -> poseidon_constraints g = UB.
Proof. exact poseidon_short_inputs_lemma. Qed.
Print Assumptions C17_poseidon_short_inputs_is_ub.
(** width 2, four full rounds, one partial round on one element *)
Example C17_example :
  let C := map Fof [1; 2; 3; 4; 5]%Z in let M := map Fof [2; 1; 1; 3]%Z in
  (4 <= 4)%nat /\ (1 <= 1)%nat /\ (1 <= 2)%nat /\ length C = (4 + 1)%nat /\ length M = (2 * 2)%nat /\
  match poseidon_permute 2 1 4 1 1 1 C M [Fof 7] with
  | Ok [x] => Feqb x (hd F0 (poseidon_spec 2 1 4 1 1 C M [Fof 7])) && negb (Feqb x F0)
  | _ => false end = true.
Proof. repeat (split; [repeat constructor|]). vm_compute. reflexivity. Qed.
