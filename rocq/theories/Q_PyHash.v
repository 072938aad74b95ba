(** The Python and C++ hash-to-point functions, and a square root for the examples. *)
From Coq Require Import List ZArith Bool Arith Lia.
From Verif Require Import Primes Field Base M_Point M_Utils M_Sha256 M_Basepoint Spec_Utils Spec_Sha256 Spec_Curve Spec_Mont Spec_Basepoint Spec_CurveOrder P_Curve P_Group P_Basepoint Q_Jubjub Q_Basepoint M_PyJubjub Spec_PyJubjub P_PyJubjub P_PyPoint Q_PyJubjub.
Import ListNotations.
Local Open Scope nat_scope.
Local Open Scope Z_scope.

(** Wherever the C++ function returns a point, the Python one, started from the same digest, returns the same *)
Lemma hash_agree_lemma : forall s1 s2 ctx bytes, sqrt_ok s1 -> py_sqrt_ok s2 -> length (sc_data ctx) = 16%nat -> Forall byte bytes ->
  exists md, is_sha256 bytes md /\ length md = 32%nat /\
  forall Q, from_hash s1 ctx bytes = Ok Q -> exists n, forall fuel, (n < fuel)%nat -> from_hash_loop s2 fuel (Fof (be_val md)) = Some (Ok Q).
Proof.
  intros s1 s2 ctx bytes H1 H2 HC HB. destruct (from_hash_lemma s1 ctx bytes H1 HC HB) as (md & HM & HL & HE).
  exists md. split; [assumption|]. split; [assumption|]. intros Q EQ.
  destruct HE as [(i & P & Hi & HF & E & _)|[E _]]; [|congruence].
  destruct (py_from_hash_lemma s2 (Fof (be_val md)) H2) as (j & P' & HF' & _ & _ & HJ).
  destruct (found_unique _ i (Z.of_nat j) P P' ltac:(lia) ltac:(lia) HF HF') as [_ <-].
  exists j. intros fuel Hf. rewrite HJ by assumption. rewrite E in EQ. now apply Ok_inj in EQ; subst Q.
Qed.

(** ** a square root by search *)
Fixpoint root_below (n : nat) (x : F) : outcome F :=
  match n with
  | O => Throw
  | S n' => if Feqb (Fof (Z.of_nat n') * Fof (Z.of_nat n')) x then Ok (Fof (Z.of_nat n')) else root_below n' x
  end.
Definition some_sqrt (x : F) : outcome F := root_below (Z.to_nat p_mod) x.
Lemma root_below_ok n x : (forall r, (r * r)%F = x -> fval r < Z.of_nat n -> exists s, root_below n x = Ok s /\ (s * s)%F = x) /\
  ((forall r, (r * r)%F <> x) -> root_below n x = Throw).
Proof.
  induction n as [|n [IH1 IH2]]; [split; [intros r _ H; pose proof (fval_range r); lia|reflexivity]|].
  cbn [root_below]. destruct (Feqb_spec (Fof (Z.of_nat n) * Fof (Z.of_nat n))%F x) as [E|E].
  - split; [intros _ _ _; exists (Fof (Z.of_nat n)); auto|]. intros H. exfalso. exact (H _ E).
  - split; [|exact IH2]. intros r Er Hr. apply (IH1 r Er).
    assert (fval r <> Z.of_nat n); [|lia]. intros Q. apply E. rewrite <- Q, Fof_fval. exact Er.
Qed.
Lemma some_sqrt_ok : py_sqrt_ok some_sqrt.
Proof.
  intros x. unfold some_sqrt. destruct (root_below_ok (Z.to_nat p_mod) x) as [H1 H2]. split; [|exact H2].
  intros r Er. apply (H1 r Er). rewrite Z2Nat.id by discriminate. apply fval_range.
Qed.
Lemma from_hash_one sqrt : py_sqrt_ok sqrt -> forall fuel, (0 < fuel)%nat -> from_hash_loop sqrt fuel F1 = Some (Ok pzero).
Proof.
  intros HS. destruct (py_from_hash_lemma sqrt F1 HS) as (i & P & HF & _ & _ & H).
  assert (Ei : i = 0%nat).
  { destruct i as [|i]; [reflexivity|]. exfalso. destruct HF as (_ & _ & _ & N). apply (N 0); [lia|]. change (Fof 0) with F0.
    replace (F1 + F0)%F with F1 by ring. exists F0. exact pzero_on. }
  subst i. assert (EP : P = pzero).
  { destruct HF as (HC & HY & _ & _). destruct P as [x y]. cbn [py] in HY. change (Fof (Z.of_nat 0)) with F0 in HY. replace (F1 + F0)%F with F1 in HY by ring. subst y.
    apply curve_xx in HC. apply point_eq; cbn [px py pzero]; [|reflexivity].
    assert (E : (x * x)%F = F0) by (rewrite HC; ring). apply Fmul_integral in E. tauto. }
  intros fuel Hf. rewrite H by lia. now rewrite EP, P_Order.pzmul_zero.
Qed.
Lemma from_hash_identity_refuted_lemma : forall sqrt, py_sqrt_ok sqrt -> exists y, forall fuel, (0 < fuel)%nat -> from_hash_loop sqrt fuel y = Some (Ok pzero).
Proof.
  intros sqrt HS. exists F1. now apply from_hash_one.
Qed.
