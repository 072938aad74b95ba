(** Property theorems C14-C16: MiMC ciphers and the Miyaguchi-Preneel hash.
    Specifications: Spec_Mimc.v (functions on field elements only). *)
From Coq Require Import List ZArith Bool Arith.
From Verif Require Import Primes Field Base R1CS R1CSFacts M_Mimc Spec_Mimc P_Mimc Q_Mimc.
Import ListNotations.
Local Open Scope F_scope.

(** ** C14 *)
Theorem C14_mimc_e5_gadget : forall C x k n, C <> [] -> (x < n)%nat -> (k < n)%nat ->
  exists g n' r, mimc_new e5_ops x k C n = (g, n') /\ mimc_result e5_ops g = Ok r /\ (n <= r < n')%nat /\
    (forall s, sat s (mimc_constraints e5_ops g) -> s r = mimc_spec 5 C (s x) (s k)) /\
    (forall s, frame n n' s (mimc_witness e5_ops g s) /\
       sat (mimc_witness e5_ops g s) (mimc_constraints e5_ops g) /\
       mimc_witness e5_ops g s r = mimc_spec 5 C (s x) (s k)).
Proof. exact mimc_e5_main. Qed.
Print Assumptions C14_mimc_e5_gadget.
Theorem C14_mimc_e7_gadget : forall C x k n, C <> [] -> (x < n)%nat -> (k < n)%nat ->
  exists g n' r, mimc_new e7_ops x k C n = (g, n') /\ mimc_result e7_ops g = Ok r /\ (n <= r < n')%nat /\
    (forall s, sat s (mimc_constraints e7_ops g) -> s r = mimc_spec 7 C (s x) (s k)) /\
    (forall s, frame n n' s (mimc_witness e7_ops g s) /\
       sat (mimc_witness e7_ops g s) (mimc_constraints e7_ops g) /\
       mimc_witness e7_ops g s r = mimc_spec 7 C (s x) (s k)).
Proof. exact mimc_e7_main. Qed.
Print Assumptions C14_mimc_e7_gadget.
Theorem C14_mimc_native : forall C x k,
  (C <> [] -> mimc_native C x k = Ok (mimc_spec 7 C x k)) /\ (C = [] -> mimc_native C x k = UB).
Proof. exact mimc_native_main. Qed.
Print Assumptions C14_mimc_native.
Theorem C14_mimc_no_rounds_is_ub : forall x k n,
  (exists g, mimc_new e5_ops x k [] n = (g, n) /\ mimc_result e5_ops g = UB) /\
  (exists g, mimc_new e7_ops x k [] n = (g, n) /\ mimc_result e7_ops g = UB).
Proof. exact mimc_empty_main. Qed.
Print Assumptions C14_mimc_no_rounds_is_ub.
(** two rounds with constants 0 and 3: ((1+2)^7+2+3)^7+2 *)
Example C14_example : [F0; Fof 3] <> [] /\
  match mimc_native [F0; Fof 3] F1 (Fof 2) with
  | Ok y => Feqb y (Fof ((3 ^ 7 + 5) ^ 7 + 2)) | _ => false end = true.
Proof. split; [discriminate|vm_compute; reflexivity]. Qed.

(** ** C15 *)
Theorem C15_mimc_e5_permutation : forall C k y, exists! x, mimc_spec 5 C x k = y.
Proof. exact mimc_e5_perm. Qed.
Print Assumptions C15_mimc_e5_permutation.
Theorem C15_mimc_e7_permutation : forall C k y, exists! x, mimc_spec 7 C x k = y.
Proof. exact mimc_e7_perm. Qed.
Print Assumptions C15_mimc_e7_permutation.
Theorem C15_mimc_gadget_permutation : forall C x k n, C <> [] -> x <> k -> (x < n)%nat -> (k < n)%nat ->
  (exists g n' r, mimc_new e5_ops x k C n = (g, n') /\ mimc_result e5_ops g = Ok r /\
    (forall key y, exists s, sat s (mimc_constraints e5_ops g) /\ s k = key /\ s r = y) /\
    (forall s1 s2, sat s1 (mimc_constraints e5_ops g) -> sat s2 (mimc_constraints e5_ops g) ->
       s1 k = s2 k -> s1 r = s2 r -> s1 x = s2 x)) /\
  (exists g n' r, mimc_new e7_ops x k C n = (g, n') /\ mimc_result e7_ops g = Ok r /\
    (forall key y, exists s, sat s (mimc_constraints e7_ops g) /\ s k = key /\ s r = y) /\
    (forall s1 s2, sat s1 (mimc_constraints e7_ops g) -> sat s2 (mimc_constraints e7_ops g) ->
       s1 k = s2 k -> s1 r = s2 r -> s1 x = s2 x)).
Proof. exact mimc_gadget_perm. Qed.
Print Assumptions C15_mimc_gadget_permutation.
Example C15_example : [F1] <> [] /\ 1%nat <> 2%nat /\ (1 < 3)%nat /\ (2 < 3)%nat /\
  mimc_spec 5 [F1] F0 F0 <> mimc_spec 5 [F1] F1 F0.
Proof.
  split; [discriminate|]. split; [discriminate|]. split; [repeat constructor|]. split; [repeat constructor|].
  intros H. apply (f_equal fval) in H. vm_compute in H. discriminate.
Qed.

(** ** C16 *)
Theorem C16_mimc_hash_e5 : forall C iv ms n, C <> [] -> ms <> [] -> (iv < n)%nat -> (forall m, In m ms -> (m < n)%nat) ->
  exists g n' r cs, mp_new e5_ops C iv ms n = (g, n') /\ mp_result e5_ops g = Ok r /\
    mp_constraints e5_ops g = Ok cs /\ (n <= r < n')%nat /\
    (forall s, sat s cs -> s r = mp_spec (mimc_spec 5 C) (s iv) (map s ms)) /\
    (forall s, exists s', mp_witness e5_ops g s = Ok s' /\ frame n n' s s' /\ sat s' cs /\
       s' r = mp_spec (mimc_spec 5 C) (s iv) (map s ms)).
Proof. exact mp_e5_main. Qed.
Print Assumptions C16_mimc_hash_e5.
Theorem C16_mimc_hash_e7 : forall C iv ms n, C <> [] -> ms <> [] -> (iv < n)%nat -> (forall m, In m ms -> (m < n)%nat) ->
  exists g n' r cs, mp_new e7_ops C iv ms n = (g, n') /\ mp_result e7_ops g = Ok r /\
    mp_constraints e7_ops g = Ok cs /\ (n <= r < n')%nat /\
    (forall s, sat s cs -> s r = mp_spec (mimc_spec 7 C) (s iv) (map s ms)) /\
    (forall s, exists s', mp_witness e7_ops g s = Ok s' /\ frame n n' s s' /\ sat s' cs /\
       s' r = mp_spec (mimc_spec 7 C) (s iv) (map s ms)).
Proof. exact mp_e7_main. Qed.
Print Assumptions C16_mimc_hash_e7.
Theorem C16_mimc_hash_native : forall C ms k, C <> [] ->
  (ms <> [] -> mimc_hash_native C ms k = Ok (mp_spec (mimc_spec 7 C) k ms)) /\
  (ms = [] -> mimc_hash_native C ms k = UB).
Proof. exact mp_native_main. Qed.
Print Assumptions C16_mimc_hash_native.
Theorem C16_mimc_hash_no_message_is_ub : forall C iv n,
  (exists g n', mp_new e5_ops C iv [] n = (g, n') /\ mp_result e5_ops g = UB) /\
  (exists g n', mp_new e7_ops C iv [] n = (g, n') /\ mp_result e7_ops g = UB).
Proof. exact mp_empty_main. Qed.
Print Assumptions C16_mimc_hash_no_message_is_ub.
(** one round with constant 0, iv 1, messages 2 and 3 *)
Example C16_example :
  let h1 := (1 + ((2 + 1) ^ 7 + 1) + 2)%Z in
  match mimc_hash_native [F0] [Fof 2; Fof 3] F1 with
  | Ok y => Feqb y (Fof (h1 + ((3 + h1) ^ 7 + h1) + 3)) | _ => false end = true.
Proof. vm_compute. reflexivity. Qed.
