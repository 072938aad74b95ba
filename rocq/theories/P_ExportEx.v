(** A toy pairing whose group elements are read off the coordinates: the hypotheses of the verification
    properties can be met, and the examples can be run. *)
From Coq Require Import ZArith List Bool Arith Ascii String Lia.
From Coq Require Import Field Ring.
From Verif Require Import Primes Field FieldQ Base M_Bits M_Groth Spec_Groth M_Export Spec_Export P_Export P_JsonParser P_Export2 P_Export3 Q_Export Q_Verify.
Import ListNotations.
Local Open Scope Z_scope.

(** an exponent, and whether the coordinates are on the curve *)
Definition toyE : pairing :=
  Pairing (F * bool) (F * bool) F
    (fun x y => (Fadd (fst x) (fst y), snd x && snd y)) (fun x y => (Fsub (fst x) (fst y), snd x && snd y))
    (F0, true) (fun k x => (Fmul k (fst x), snd x)) snd
    (fun x y => (Fadd (fst x) (fst y), snd x && snd y)) (F0, true) (fun k x => (Fmul k (fst x), snd x)) snd
    Fadd Fopp Feqb (fun x y => Fmul (fst x) (fst y)).
Definition toyS (x : F * bool) : Prop := snd x = true.
Lemma toy_laws : pairing_laws toyE toyS toyS.
Proof.
  unfold toyS. constructor; cbn [toyE g1_zero g1_add g1_sub g1_mul g1_wf g2_zero g2_add g2_mul g2_wf gt_mul gt_inv gt_eqb pair G1 G2 GT]; intros;
    repeat match goal with x : (F * bool)%type |- _ => destruct x end; cbn [fst snd] in *; subst; try reflexivity;
    try (f_equal; try reflexivity; ring); try ring.
  apply Feqb_true.
Qed.
Definition curve1b (x y : Fq) : bool := Qeqb (y * y)%Q (x * x * x + Qof 3)%Q.
Definition curve2b (x y : Fq2) : bool := Q2eqb (mkq2 (Qof 9) Q1 * (y * y - x * x * x))%Q2 (mkq2 (Qof 3) Q0).
Definition toy1 (P : G1T) : F * bool :=
  if Qeqb (jZ P) Q0 then (F0, true) else
  let A := if Qeqb (jZ P) Q1 then P else to_affine1 P in (Fof (qval (jX A)), curve1b (jX A) (jY A)).
Definition toy2 (P : G2T) : F * bool :=
  if Q2eqb (jZ P) Q20 then (F0, true) else
  let A := if Q2eqb (jZ P) Q21 then P else to_affine2 P in (Fof (qval (c0 (jX A))), curve2b (jX A) (jY A)).
Lemma toy1_eq P x y : affine1 P x y -> toy1 P = (Fof (qval x), curve1b x y).
Proof.
  intros A. unfold toy1. destruct (Qeqb_spec (jZ P) Q0) as [E|N]; [destruct A; contradiction|].
  destruct (Qeqb_spec (jZ P) Q1) as [E|N1].
  - destruct A as (_ & X & Y). rewrite E in X, Y. cbv zeta.
    replace (jX P) with x by (rewrite X; ring). replace (jY P) with y by (rewrite Y; ring). reflexivity.
  - destruct (affine1_fun P _ _ _ _ A (to_affine1_spec P N)) as [-> ->]. reflexivity.
Qed.
Lemma toy2_eq P x y : affine2 P x y -> toy2 P = (Fof (qval (c0 x)), curve2b x y).
Proof.
  intros A. unfold toy2. destruct (Q2eqb (jZ P) Q20) eqn:E; [apply Q2eqb_true in E; destruct A; contradiction|].
  assert (N : jZ P <> Q20) by (intros K; apply Q2eqb_true in K; congruence).
  destruct (Q2eqb (jZ P) Q21) eqn:E1.
  - apply Q2eqb_true in E1. destruct A as (_ & X & Y). rewrite E1 in X, Y. cbv zeta.
    replace (jX P) with x by (rewrite X; ring). replace (jY P) with y by (rewrite Y; ring). reflexivity.
  - destruct (affine2_fun P _ _ _ _ A (to_affine2_spec P N)) as [-> ->]. reflexivity.
Qed.
Lemma toy_represents : represents toyE toy1 toy2.
Proof.
  split; [|split; [|split]].
  - intros P x y A. rewrite (toy1_eq P x y A). unfold curve1. cbn [toyE g1_wf snd]. apply Qeqb_true.
  - intros P x y A. rewrite (toy2_eq P x y A). unfold curve2. cbn [toyE g2_wf snd]. apply Q2eqb_true.
  - intros P Q (x & y & A & B). rewrite (toy1_eq P x y A), (toy1_eq Q x y B). reflexivity.
  - intros P Q (x & y & A & B). rewrite (toy2_eq P x y A), (toy2_eq Q x y B). reflexivity.
Qed.
(** a key with one input, and a proof for the input 5 *)
Definition toy_g2 : G2T := Jac g2x g2y Q21.
Definition toy_vk : VerificationKeyT :=
  MkVk (Jac Q1 (Qof 2) Q1) toy_g2 toy_g2 toy_g2 (Jac (Qof (p_mod - 6)) Q1 Q1) [Jac Q1 (Qof 2) Q1].
Definition toy_proof : ProofT := MkProof (Jac Q1 (Qof 2) Q1) toy_g2 (Jac Q1 (Qof 2) Q1).
