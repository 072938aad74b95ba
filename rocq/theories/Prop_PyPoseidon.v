(** Property theorems C123-C125: the Python Poseidon permutation /repo/ethsnarks/poseidon/permutation.py and
    secret sharing /repo/ethsnarks/shamirspoly.py.
    Vocabulary: Spec_PoseidonParams.v ([permutation], [digest], [mds]), Spec_Blake2b.v ([rfc_blake2b]),
    Spec_PyShamir.v ([poly_at], [shares]). *)
From Coq Require Import List ZArith Bool Arith Lia.
From Verif Require Import Primes Field Base M_Bits M_Point M_Utils M_Blake2b M_Poseidon M_PoseidonParams Spec_Utils Spec_Blake2b Spec_Poseidon Spec_PoseidonParams Q_Poseidon Q_PoseidonParams M_PyPoseidon P_PyPoseidon Q_PyPoseidon M_PyShamir Spec_PyShamir Q_PyShamir.
Import ListNotations.
Local Open Scope nat_scope.
Local Open Scope Z_scope.

(** ** C123: the permutation and its parameters *)
Theorem C123_python_poseidon : forall t Fr P C M inputs, (0 < t)%nat -> (0 < Fr + P)%nat -> length C = (Fr + P)%nat -> length M = t -> Forall (fun r => length r = t) M ->
  ((0 < length inputs <= t)%nat -> py_poseidon_state p_mod 5 t Fr P true C M inputs = Ok (map fval (permutation t 1 Fr P (map Fof C) (map Fof (concat M)) (map Fof inputs)))) /\
  ((0 < length inputs < t)%nat -> py_poseidon p_mod 5 t Fr P C M inputs = Ok (fval (nth 0 (permutation t 1 Fr P (map Fof C) (map Fof (concat M)) (map Fof inputs)) F0))) /\
  (inputs = [] \/ (t < length inputs)%nat -> py_poseidon_state p_mod 5 t Fr P true C M inputs = Throw) /\
  (inputs = [] \/ (t <= length inputs)%nat -> py_poseidon p_mod 5 t Fr P C M inputs = Throw).
Proof. exact py_poseidon_lemma. Qed.
Print Assumptions C123_python_poseidon.
Theorem C123_python_parameters : forall c t Fr P C M, length (bc_b c) = 128%nat -> length (bc_h c) = 8%nat -> 1 <= Z.of_nat (Fr + P) < 2 ^ 32 -> 1 <= Z.of_nat t < 2 ^ 31 ->
  py_poseidon_params (rfc_blake2b 32 []) p_mod t Fr P = (C, M) ->
  length C = (Fr + P)%nat /\ length M = t /\ Forall (fun r => length r = t) M /\
  (poseidon_params c t Fr P = Ok (map Fof C, map Fof (concat M)) \/ (poseidon_params c t Fr P = Abort /\ exists i j, (i < t /\ j < t)%nat /\ nth j (nth i M []) 0 = 0)).
Proof. exact py_params_lemma. Qed.
Print Assumptions C123_python_parameters.
Theorem C123_python_default : forall c C M inputs, length (bc_b c) = 128%nat -> length (bc_h c) = 8%nat ->
  py_poseidon_params (rfc_blake2b 32 []) p_mod 6 8 57 = (C, M) -> (0 < length inputs < 6)%nat ->
  exists CF MF x, poseidon_params c 6 8 57 = Ok (CF, MF) /\ mds 6 MF /\
    poseidon_permute 6 1 8 57 (length inputs) 1 CF MF (map Fof inputs) = Ok [x] /\ py_poseidon p_mod 5 6 8 57 C M inputs = Ok (fval x).
Proof. exact py_default_lemma. Qed.
Print Assumptions C123_python_default.
(** width 2, four full rounds, one partial round; -3 and p-3 are the same input *)
Example C123_example : exists x, py_poseidon p_mod 5 2 4 1 [1; 2; 3; 4; 5] [[1; 2]; [3; 5]] [-3] = Ok x /\
  py_poseidon p_mod 5 2 4 1 [1; 2; 3; 4; 5] [[1; 2]; [3; 5]] [p_mod - 3] = Ok x /\
  py_poseidon p_mod 5 2 4 1 [1; 2; 3; 4; 5] [[1; 2]; [3; 5]] [4; 7] = Throw.
Proof.
  assert (HM : Forall (fun r : list Z => length r = 2%nat) [[1; 2]; [3; 5]]) by (repeat constructor).
  assert (H : forall i : Z, (0 < length [i] < 2)%nat) by (intros; cbn; lia).
  eexists. split; [apply (py_poseidon_lemma 2 4 1 [1; 2; 3; 4; 5] [[1; 2]; [3; 5]] [-3]); (exact HM || exact (H _) || reflexivity || lia)|]. split.
  - rewrite (proj1 (proj2 (py_poseidon_lemma 2 4 1 [1; 2; 3; 4; 5] [[1; 2]; [3; 5]] [p_mod - 3] ltac:(lia) ltac:(lia) eq_refl eq_refl HM)) (H _)).
    cbn [map]. assert (E : Fof (p_mod - 3) = Fof (-3)) by (apply Fof_eq_iff; reflexivity). now rewrite E.
  - reflexivity.
Qed.
Example C123_context : exists c, length (bc_b c) = 128%nat /\ length (bc_h c) = 8%nat.
Proof. exists ctx0. split; reflexivity. Qed.

(** ** C124: sharing and recovering a secret *)
Theorem C124_shamirs_poly : forall x a, ((2 <= length a)%nat -> shamirs_poly x a = Ok (poly_at a x)) /\ ((length a < 2)%nat -> shamirs_poly x a = Throw).
Proof. exact shamirs_poly_lemma. Qed.
Print Assumptions C124_shamirs_poly.
Theorem C124_lagrange_partial : forall a xs x, NoDup xs -> (length a <= length xs)%nat -> lagrange (shares a xs) x = poly_at a x.
Proof. exact lagrange_lemma. Qed.
Print Assumptions C124_lagrange_partial.
Theorem C124_lagrange_duplicates : forall a y1 y2 points x, lagrange ((a, y1) :: (a, y2) :: points) x = lagrange ((a, F0) :: (a, F0) :: points) x.
Proof. exact duplicate_lemma. Qed.
Print Assumptions C124_lagrange_duplicates.
Theorem C124_lagrange_refuted : exists a xs u v x, length a = 2%nat /\ In u xs /\ In v xs /\ u <> v /\ lagrange (shares a xs) x <> poly_at a x.
Proof. exact duplicate_refuted_lemma. Qed.
Print Assumptions C124_lagrange_refuted.
Theorem C124_inverse_lagrange : forall points y, inverse_lagrange points y = lagrange (map (fun '(a, b) => (b, a)) points) y.
Proof. exact inverse_lagrange_lemma. Qed.
Print Assumptions C124_inverse_lagrange.
(** 5 + 3x shared at 1, 2 and 7 *)
Example C124_example : NoDup [F1; Fof 2; Fof 7] /\ lagrange (shares [Fof 5; Fof 3] [F1; Fof 2; Fof 7]) F0 = Fof 5 /\ shamirs_poly (Fof 2) [Fof 5; Fof 3] = Ok (Fof 11).
Proof.
  assert (N : NoDup [F1; Fof 2; Fof 7]).
  { repeat constructor; cbn [In]; intros H; repeat (destruct H as [H|H]; [apply Feqb_true in H; vm_compute in H; discriminate|]); exact H. }
  split; [exact N|]. split.
  - rewrite lagrange_lemma; [|exact N|cbn; lia]. apply Feqb_true. vm_compute. reflexivity.
  - rewrite (proj1 (shamirs_poly_lemma _ _)) by (cbn; lia). apply (f_equal Ok). apply Feqb_true. vm_compute. reflexivity.
Qed.

(** ** C125: too few shares say nothing *)
Theorem C125_sharing_secrecy : forall xs ys s, NoDup xs -> ~ In F0 xs -> length ys = length xs ->
  exists! a, length a = S (length xs) /\ poly_at a F0 = s /\ shares a xs = combine xs ys.
Proof. exact secrecy_lemma. Qed.
Print Assumptions C125_sharing_secrecy.
Example C125_example : NoDup [F1; Fof 2] /\ ~ In F0 [F1; Fof 2] /\ shares [Fof 5; Fof 3; F1] [F1; Fof 2] = combine [F1; Fof 2] [Fof 9; Fof 15].
Proof.
  split; [|split].
  - repeat constructor; cbn [In]; intros H; repeat (destruct H as [H|H]; [apply Feqb_true in H; vm_compute in H; discriminate|]); exact H.
  - cbn [In]; intros H; repeat (destruct H as [H|H]; [apply Feqb_true in H; vm_compute in H; discriminate|]); exact H.
  - unfold shares. cbn [map combine]. assert (E1 : poly_at [Fof 5; Fof 3; F1] F1 = Fof 9) by (apply Feqb_true; vm_compute; reflexivity).
    assert (E2 : poly_at [Fof 5; Fof 3; F1] (Fof 2) = Fof 15) by (apply Feqb_true; vm_compute; reflexivity). now rewrite E1, E2.
Qed.
