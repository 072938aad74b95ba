(** Composition of gadgets.

    [gadget_ok n n' cs wit pre R] packages what is proved about a gadget that
    allocated the variables [n, n'), emitted the constraints [cs] and fills its
    variables with [wit]: for assignments meeting [pre] (a condition on earlier
    variables only) every assignment satisfying [cs] meets [R], and the witness
    generator succeeds, writes only [n, n') and satisfies [cs]. *)
From Coq Require Import List ZArith Bool Arith Lia.
From Verif Require Import Field Base R1CS R1CSFacts.
Import ListNotations.
Local Open Scope nat_scope.

Definition stable (n : nat) (pre : assign -> Prop) : Prop :=
  forall s s', (forall v, v < n -> s' v = s v) -> pre s -> pre s'.

Record gadget_ok (n n' : nat) (cs : list constr) (wit : assign -> outcome assign)
  (pre R : assign -> Prop) : Prop := {
  go_le : n <= n';
  go_stable : stable n pre;
  go_scope : cs_all (fun v => v < n') cs;
  go_sound : forall s, pre s -> sat s cs -> R s;
  go_complete : forall s, pre s -> exists s', wit s = Ok s' /\ frame n n' s s' /\ sat s' cs
}.

Lemma stable_true n : stable n (fun _ => True).
Proof. intros s s' _ _. exact I. Qed.

Lemma stable_and n P Q : stable n P -> stable n Q -> stable n (fun s => P s /\ Q s).
Proof. intros HP HQ s s' H [H1 H2]. split; [eapply HP|eapply HQ]; eauto. Qed.

Lemma stable_le n n' P : n <= n' -> stable n P -> stable n' P.
Proof. intros Hn HP s s' H. apply HP. intros v Hv. apply H. lia. Qed.

Lemma cs_all_le n n' cs : n <= n' -> cs_all (fun v => v < n) cs -> cs_all (fun v => v < n') cs.
Proof. intros Hn. apply cs_all_impl. intros; lia. Qed.

Lemma go_pre_after n n' cs wit pre R s s' : gadget_ok n n' cs wit pre R ->
  frame n n' s s' -> pre s -> pre s'.
Proof.
  intros H Hf. apply (go_stable _ _ _ _ _ _ H). intros v Hv. apply Hf. left. exact Hv.
Qed.

(** the completeness part with the conclusion [R] included *)
Lemma go_run n n' cs wit pre R s : gadget_ok n n' cs wit pre R -> pre s ->
  exists s', wit s = Ok s' /\ frame n n' s s' /\ sat s' cs /\ pre s' /\ R s'.
Proof.
  intros H Hs. destruct (go_complete _ _ _ _ _ _ H s Hs) as (s' & Hw & Hf & Hc).
  assert (pre s') by (eapply go_pre_after; eauto).
  exists s'. repeat (split; [assumption|]). eapply go_sound; eauto.
Qed.

Lemma gadget_seq n n1 n2 cs1 cs2 w1 w2 (pre R1 pre2 R2 R : assign -> Prop) :
  gadget_ok n n1 cs1 w1 pre R1 -> gadget_ok n1 n2 cs2 w2 pre2 R2 ->
  (forall s, pre s -> R1 s -> pre2 s) ->
  (forall s, pre s -> R1 s -> R2 s -> R s) ->
  gadget_ok n n2 (cs1 ++ cs2) (fun s => obind (w1 s) w2) pre R.
Proof.
  intros H1 H2 Hp HR. pose proof (go_le _ _ _ _ _ _ H1). pose proof (go_le _ _ _ _ _ _ H2).
  constructor.
  - lia.
  - exact (go_stable _ _ _ _ _ _ H1).
  - rewrite cs_all_app. split.
    + apply cs_all_le with n1; [lia|]. exact (go_scope _ _ _ _ _ _ H1).
    + exact (go_scope _ _ _ _ _ _ H2).
  - intros s Hs Hsat. apply sat_app in Hsat. destruct Hsat as [S1 S2].
    pose proof (go_sound _ _ _ _ _ _ H1 s Hs S1) as Hr1.
    apply HR; [assumption|assumption|]. apply (go_sound _ _ _ _ _ _ H2); auto.
  - intros s Hs. destruct (go_run _ _ _ _ _ _ _ H1 Hs) as (s1 & Hw1 & Hf1 & Hs1 & Hp1 & Hr1).
    destruct (go_complete _ _ _ _ _ _ H2 s1) as (s2 & Hw2 & Hf2 & Hs2); [auto|].
    exists s2. rewrite Hw1. cbn [obind]. split; [exact Hw2|]. split.
    + intros v Hv. rewrite Hf2 by lia. apply Hf1. lia.
    + apply sat_app. split; [|exact Hs2].
      eapply sat_ext; [exact (go_scope _ _ _ _ _ _ H1)| |exact Hs1].
      intros v Hv. cbn in Hv. symmetry. apply Hf2. lia.
Qed.

Lemma gadget_weaken n n' cs wit (pre R pre' R' : assign -> Prop) :
  gadget_ok n n' cs wit pre R -> stable n pre' ->
  (forall s, pre' s -> pre s) -> (forall s, pre' s -> R s -> R' s) ->
  gadget_ok n n' cs wit pre' R'.
Proof.
  intros H Hst Hp HR. constructor.
  - exact (go_le _ _ _ _ _ _ H).
  - exact Hst.
  - exact (go_scope _ _ _ _ _ _ H).
  - intros s Hs Hsat. apply HR; [exact Hs|]. apply (go_sound _ _ _ _ _ _ H); auto.
  - intros s Hs. apply (go_complete _ _ _ _ _ _ H). auto.
Qed.

Lemma gadget_nil n pre : stable n pre -> gadget_ok n n [] (fun s => Ok s) pre (fun _ => True).
Proof.
  intros H. constructor; auto.
  - constructor.
  - intros s _. exists s. repeat split. constructor.
Qed.

(** change the presentation of the witness generator *)
Lemma gadget_ext n n' cs w w' pre R : gadget_ok n n' cs w pre R -> (forall s, w' s = w s) ->
  gadget_ok n n' cs w' pre R.
Proof.
  intros H E. constructor.
  - exact (go_le _ _ _ _ _ _ H).
  - exact (go_stable _ _ _ _ _ _ H).
  - exact (go_scope _ _ _ _ _ _ H).
  - exact (go_sound _ _ _ _ _ _ H).
  - intros s Hs. rewrite E. exact (go_complete _ _ _ _ _ _ H s Hs).
Qed.

(** add a constraint that already follows from the gadget's specification *)
Lemma gadget_assert n n' cs w pre R cs' : gadget_ok n n' cs w pre R ->
  cs_all (fun v => v < n') cs' -> (forall s, pre s -> R s -> sat s cs') ->
  gadget_ok n n' (cs ++ cs') w pre R.
Proof.
  intros H Hc HR. constructor.
  - exact (go_le _ _ _ _ _ _ H).
  - exact (go_stable _ _ _ _ _ _ H).
  - apply cs_all_app. split; [exact (go_scope _ _ _ _ _ _ H)|exact Hc].
  - intros s Hs Hsat. apply sat_app in Hsat. apply (go_sound _ _ _ _ _ _ H); tauto.
  - intros s Hs. destruct (go_run _ _ _ _ _ _ _ H Hs) as (s1 & Hw1 & Hf1 & Hs1 & Hp1 & Hr1).
    exists s1. split; [assumption|]. split; [assumption|]. apply sat_app. split; [assumption|]. now apply HR.
Qed.

(** appending a constraint that restricts the relation *)
Lemma oseq_app {A} (fs gs : list (A -> outcome A)) a : oseq (fs ++ gs) a = obind (oseq fs a) (oseq gs).
Proof.
  revert a. induction fs as [|f fs IH]; intros a; [reflexivity|].
  cbn [app oseq]. destruct (f a); cbn [obind]; auto.
Qed.

Lemma oseq_snoc {A} (fs : list (A -> outcome A)) f a : oseq (fs ++ [f]) a = obind (oseq fs a) f.
Proof.
  rewrite oseq_app. destruct (oseq fs a); cbn [obind oseq]; [|reflexivity..].
  destruct (f a0); reflexivity.
Qed.
