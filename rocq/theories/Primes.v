(** Primality of the alt_bn128 scalar field modulus (hard-wired in libff's
    alt_bn128_init.cpp; also quoted in /repo/ethsnarks/field.py:41
    as SNARK_SCALAR_FIELD). *)
From Coq Require Import ZArith Znumtheory List.
From Verif Require Import Pocklington.
Import ListNotations.
Open Scope Z_scope.

Lemma prime_1637 : prime 1637.
Proof. apply (small_prime 1637 1500); [reflexivity|vm_compute; reflexivity]. Qed.

Lemma prime_853 : prime 853.
Proof. apply (small_prime 853 1500); [reflexivity|vm_compute; reflexivity]. Qed.

Lemma prime_639533339 : prime 639533339.
Proof.
  apply (pocklington 639533339 [(1637,1,2); (853,1,2)]).
  - repeat apply Forall_cons; try apply Forall_nil; [exact prime_1637 | exact prime_853].
  - vm_cast_no_check (eq_refl true).
Qed.

Lemma prime_65865678001877903 : prime 65865678001877903.
Proof.
  apply (pocklington 65865678001877903 [(639533339,1,2)]).
  - repeat apply Forall_cons; try apply Forall_nil; [exact prime_639533339].
  - vm_cast_no_check (eq_refl true).
Qed.

Lemma prime_13818364434197438864469338081 : prime 13818364434197438864469338081.
Proof.
  apply (pocklington 13818364434197438864469338081 [(65865678001877903,1,2)]).
  - repeat apply Forall_cons; try apply Forall_nil; [exact prime_65865678001877903].
  - vm_cast_no_check (eq_refl true).
Qed.

Lemma prime_93001 : prime 93001.
Proof. apply (small_prime 93001 1500); [reflexivity|vm_compute; reflexivity]. Qed.

Lemma prime_661 : prime 661.
Proof. apply (small_prime 661 1500); [reflexivity|vm_compute; reflexivity]. Qed.

Lemma prime_12048837557 : prime 12048837557.
Proof.
  apply (pocklington 12048837557 [(93001,1,2); (661,1,2)]).
  - repeat apply Forall_cons; try apply Forall_nil; [exact prime_93001 | exact prime_661].
  - vm_cast_no_check (eq_refl true).
Qed.

Lemma prime_5156902474397 : prime 5156902474397.
Proof.
  apply (pocklington 5156902474397 [(12048837557,1,2)]).
  - repeat apply Forall_cons; try apply Forall_nil; [exact prime_12048837557].
  - vm_cast_no_check (eq_refl true).
Qed.

Lemma prime_1670836401704629 : prime 1670836401704629.
Proof.
  apply (pocklington 1670836401704629 [(5156902474397,1,2)]).
  - repeat apply Forall_cons; try apply Forall_nil; [exact prime_5156902474397].
  - vm_cast_no_check (eq_refl true).
Qed.

Definition p_mod : Z := 21888242871839275222246405745257275088548364400416034343698204186575808495617.

Lemma prime_p_mod : prime p_mod.
Proof.
  apply (pocklington p_mod [(13818364434197438864469338081,1,2); (1670836401704629,1,2)]).
  - repeat apply Forall_cons; try apply Forall_nil; [exact prime_13818364434197438864469338081 | exact prime_1670836401704629].
  - vm_cast_no_check (eq_refl true).
Qed.

