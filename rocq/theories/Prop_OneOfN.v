(** Property theorems C09, C57 (one_of_n) and C18, C19 (shamir_poly). *)
From Coq Require Import List ZArith Bool Arith.
From Verif Require Import Primes Field Base R1CS R1CSFacts M_OneOfN Q_OneOfN Q_Shamir.
Import ListNotations.
Local Open Scope F_scope.

(** ** C09: false of the code in both orders of use.
    Constraints generated before the witness: the first running sum is never linked to
    the first toggle, so everything is accepted. *)
Theorem C09_one_of_n_membership_refuted : exists item items n g n' cs s, oon_new item items n = Ok (g, n') /\
  oon_constraints g (fun _ => F0) = Ok cs /\ sat s cs /\ ~ In (s item) (map s items).
Proof. exact oon_refuted. Qed.
Print Assumptions C09_one_of_n_membership_refuted.
Theorem C09_one_of_n_constraints_first_accepts_anything : forall item items n, items <> [] -> (item < n)%nat -> (forall i, In i items -> (i < n)%nat) ->
  exists g n', oon_new item items n = Ok (g, n') /\
  forall sc, exists cs, oon_constraints g sc = Ok cs /\
    forall s, exists s', (forall v, (v < n)%nat -> s' v = s v) /\ sat s' cs.
Proof. exact oon_constraints_first_accepts. Qed.
Print Assumptions C09_one_of_n_constraints_first_accepts_anything.
(** Witness generated first: the constraints contain the value of our_item as a constant
    and do not mention the variable. *)
Theorem C09_one_of_n_witness_first_refuted : exists item items n g n' g1 s1 cs s, oon_new item items n = Ok (g, n') /\
  oon_witness g (fun _ => F0) = Ok (g1, s1) /\ oon_constraints g1 s1 = Ok cs /\ sat s1 cs /\
  sat s cs /\ ~ In (s item) (map s items).
Proof. exact oon_witness_first_refuted. Qed.
Print Assumptions C09_one_of_n_witness_first_refuted.
(** What does hold with the witness first: the value our_item had when the constraints were
    generated is one of the items in every satisfying assignment, and the honest witness
    of a member satisfies the constraints (missing: the variable our_item itself). *)
Theorem C09_one_of_n_witness_first_partial : forall item items n, items <> [] -> (item < n)%nat -> (forall i, In i items -> (i < n)%nat) ->
  exists g n', oon_new item items n = Ok (g, n') /\
  forall s0, exists g1 s1, oon_witness g s0 = Ok (g1, s1) /\ frame n n' s0 s1 /\
   forall sc, exists cs, oon_constraints g1 sc = Ok cs /\
     (forall s, sat s cs -> In (sc item) (map s items)) /\
     ((forall v, (n <= v < n')%nat -> s0 v = F0) -> sc item = s0 item -> In (s0 item) (map s0 items) -> sat s1 cs).
Proof. exact oon_witness_first. Qed.
Print Assumptions C09_one_of_n_witness_first_partial.
Example C09_example : [2; 3]%nat <> [] /\ (1 < 4)%nat /\ (forall i, In i [2; 3]%nat -> (i < 4)%nat) /\
  let s := upd (upd (upd (fun _ => F0) 1 (Fof 9)) 2 (Fof 8)) 3 (Fof 9) in
  match oon_new 1 [2; 3]%nat 4 with
  | Ok (g, _) => match oon_witness g s with
     | Ok (g1, s1) => match oon_constraints g1 s1 with Ok cs => satb s1 cs | _ => false end
     | _ => false end
  | _ => false end = true.
Proof.
  split; [discriminate|]. split; [repeat constructor|]. split.
  - intros i Hi; cbn [In] in Hi; repeat (destruct Hi as [<-|Hi]; [repeat constructor|]); contradiction.
  - vm_compute. reflexivity.
Qed.

(** ** C57: false of the code *)
Theorem C57_one_of_n_honest_constraints_first_refuted : forall item items n, items <> [] -> (item < n)%nat -> (forall i, In i items -> (i < n)%nat) ->
  exists g n', oon_new item items n = Ok (g, n') /\
  forall sc, exists cs, oon_constraints g sc = Ok cs /\
    forall s, (forall v, (n <= v < n')%nat -> s v = F0) -> s item = s (hd 0%nat items) ->
    exists g1 s1, oon_witness g s = Ok (g1, s1) /\ ~ sat s1 cs.
Proof. exact oon_honest_fails. Qed.
Print Assumptions C57_one_of_n_honest_constraints_first_refuted.
Example C57_example : let s := upd (upd (fun _ => F0) 1 (Fof 8)) 2 (Fof 8) in
  s 1%nat = s (hd 0%nat [2; 3]%nat) /\ (forall v, (4 <= v < 8)%nat -> s v = F0) /\
  match oon_new 1 [2; 3]%nat 4 with
  | Ok (g, _) => match oon_constraints g s with
     | Ok cs => match oon_witness g s with Ok (_, s1) => satb s1 cs | _ => true end
     | _ => true end
  | _ => true end = false.
Proof.
  split; [reflexivity|]. split; [|vm_compute; reflexivity].
  intros v [Hv _]. unfold upd. destruct v as [|[|[|v]]]; try reflexivity; exfalso; revert Hv; apply Nat.lt_nge; repeat constructor.
Qed.

(** ** C18 *)
Theorem C18_shamir_honest : forall input alpha n, (3 <= length alpha)%nat -> (input < n)%nat -> (forall a, In a alpha -> (a < n)%nat) ->
  exists g n' cs r, sh_new input alpha n = Ok (g, n') /\ sh_constraints g = Ok cs /\ sh_result g = Ok r /\
    forall s, exists s', sh_witness g s = Ok s' /\ frame n n' s s' /\ sat s' cs /\
      s' r = poly_spec (map s alpha) (s input).
Proof. exact shamir_main. Qed.
Print Assumptions C18_shamir_honest.
Theorem C18_shamir_two_coefficients_is_ub : forall input a0 a1 n, exists g n', sh_new input [a0; a1] n = Ok (g, n') /\ sh_constraints g = UB.
Proof. exact shamir_two. Qed.
Print Assumptions C18_shamir_two_coefficients_is_ub.
Theorem C18_shamir_short_rejected : forall input alpha n, (length alpha < 2)%nat -> sh_new input alpha n = Abort.
Proof. exact shamir_short. Qed.
Print Assumptions C18_shamir_short_rejected.
Example C18_example : (3 <= length [2; 3; 4]%nat)%nat /\ (1 < 5)%nat /\
  poly_spec [Fof 5; Fof 6; Fof 7] (Fof 10) = Fof 765.
Proof. split; [repeat constructor|]. split; [repeat constructor|]. apply fval_inj. vm_compute. reflexivity. Qed.

(** ** C19: false of the code *)
Theorem C19_shamir_sound_refuted : exists input alpha n g n' cs r s, sh_new input alpha n = Ok (g, n') /\
  sh_constraints g = Ok cs /\ sh_result g = Ok r /\ sat s cs /\ s r <> poly_spec (map s alpha) (s input).
Proof. exact shamir_refuted. Qed.
Print Assumptions C19_shamir_sound_refuted.
Theorem C19_shamir_any_result_accepted : forall input alpha n, (3 <= length alpha)%nat -> (input < n)%nat -> (forall a, In a alpha -> (a < n)%nat) ->
  exists g n' cs r, sh_new input alpha n = Ok (g, n') /\ sh_constraints g = Ok cs /\ sh_result g = Ok r /\
    (forall s, sat s cs -> s r = poly_spec (map s alpha) (s input) + s (nth 1 alpha 0%nat) * (s (S n) - s input)) /\
    (forall s y, s (nth 1 alpha 0%nat) <> F0 ->
       exists s', (forall v, (v < n)%nat -> s' v = s v) /\ sat s' cs /\ s' r = y).
Proof. exact shamir_unsound. Qed.
Print Assumptions C19_shamir_any_result_accepted.
(** what holds: soundness when alpha_1 is zero or the second power variable happens to
    equal the input (missing: a constraint forcing the latter) *)
Theorem C19_shamir_sound_partial : forall input alpha n g n' cs r s, (input < n)%nat -> (forall a, In a alpha -> (a < n)%nat) ->
  sh_new input alpha n = Ok (g, n') -> sh_constraints g = Ok cs -> sh_result g = Ok r -> sat s cs ->
  s (nth 1 alpha 0%nat) = F0 \/ s (S n) = s input -> s r = poly_spec (map s alpha) (s input).
Proof. exact shamir_partial. Qed.
Print Assumptions C19_shamir_sound_partial.
