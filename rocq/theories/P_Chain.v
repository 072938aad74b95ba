(** A chain of PointAdders over a family of points. *)
From Coq Require Import List NArith ZArith Bool Arith Lia.
From Verif Require Import Field Base R1CS R1CSFacts Gadget Gadget2 M_Lookup M_Point M_Jubjub Spec_Curve P_Curve P_JubLeaf P_Group.
Import ListNotations.
Local Open Scope nat_scope.

(** running sum: the first point, then the result of the adder at [A i] *)
Definition acc_x (A ux : nat -> nat) (i : nat) : var := if i =? 0 then ux 0 else A i + 5.
Definition acc_y (A uy : nat -> nat) (i : nat) : var := if i =? 0 then uy 0 else A i + 6.
Definition chain_add (A ux uy : nat -> nat) (i : nat) : padder :=
  fst (adder_new (acc_x A ux (i - 1)) (acc_y A uy (i - 1)) (ux i) (uy i) (A i)).
Definition upts (ux uy : nat -> nat) (s : assign) (i : nat) : point := pt s (ux i) (uy i).

Lemma Forall_map_seq (f : nat -> point) a k : (forall i, a <= i < a + k -> on_curve (f i)) ->
  Forall on_curve (map f (seq a k)).
Proof. intros H. apply Forall_map, Forall_forall. intros i Hi. apply in_seq in Hi. now apply H. Qed.

Lemma chain_acc A ux uy s : forall k,
  (forall i, i <= k -> on_curve (upts ux uy s i)) ->
  (forall i, 1 <= i <= k -> pt s (A i + 5) (A i + 6) = padd (pt s (acc_x A ux (i - 1)) (acc_y A uy (i - 1))) (upts ux uy s i)) ->
  pt s (acc_x A ux k) (acc_y A uy k) = psum (map (upts ux uy s) (seq 0 (S k))).
Proof.
  induction k as [|k IH]; intros Hon Hs.
  - cbn [seq map psum fold_right]. rewrite padd_0_r. reflexivity.
  - rewrite seq_S, map_app. cbn [map]. rewrite psum_snoc.
    + rewrite <- IH; [|intros; apply Hon; lia|intros; apply Hs; lia].
      unfold acc_x at 1, acc_y at 1. cbn [Nat.eqb]. rewrite Hs by lia. now rewrite Nat.sub_succ, Nat.sub_0_r.
    + apply Forall_map_seq. intros i Hi. apply Hon. lia.
    + apply Hon. lia.
Qed.

Lemma chain_gok A ux uy k :
  (forall i j, 1 <= i < j -> j <= k -> A i + 7 <= A j) ->
  (forall i j, i <= k -> 1 <= j <= k -> ~ (A j <= ux i < A j + 7) /\ ~ (A j <= uy i < A j + 7)) ->
  gok (fun v => exists i, 1 <= i < 1 + k /\ A i <= v < A i + 7) (fun v => exists i, i <= k /\ (v = ux i \/ v = uy i))
    (concat (map adder_constraints (map (chain_add A ux uy) (seq 1 k))))
    (oseq (map adder_witness (map (chain_add A ux uy) (seq 1 k))))
    (fun s => forall i, i <= k -> on_curve (upts ux uy s i))
    (fun s => pt s (acc_x A ux k) (acc_y A uy k) = psum (map (upts ux uy s) (seq 0 (S k)))).
Proof.
  intros HA HU. rewrite !map_map.
  assert (HAC : forall i, 1 <= i <= k -> forall v, In v [acc_x A ux (i - 1); acc_y A uy (i - 1); ux i; uy i] -> ~ (A i <= v < A i + 7)).
  { intros i Hi v Hv. cbn [In] in Hv.
    destruct (HU i i) as [U1 U2]; [lia|lia|]. destruct (HU 0 i) as [U3 U4]; [lia|lia|].
    unfold acc_x, acc_y in Hv. destruct (Nat.eqb_spec (i - 1) 0) as [E|E].
    - destruct Hv as [<-|[<-|[<-|[<-|[]]]]]; assumption.
    - specialize (HA (i - 1) i). destruct Hv as [<-|[<-|[<-|[<-|[]]]]]; [lia|lia|assumption|assumption]. }
  eapply gok_weaken.
  - apply (gok_family (fun i v => A i <= v < A i + 7) (fun i v => In v [acc_x A ux (i - 1); acc_y A uy (i - 1); ux i; uy i])
      (fun v => exists i, i <= k /\ (v = ux i \/ v = uy i)) (fun i => adder_constraints (chain_add A ux uy i))
      (fun i => adder_witness (chain_add A ux uy i))
      (fun i s => on_curve (pt s (acc_x A ux (i - 1)) (acc_y A uy (i - 1))) /\ on_curve (pt s (ux i) (uy i)))
      (fun i s => pt s (A i + 5) (A i + 6) = padd (pt s (acc_x A ux (i - 1)) (acc_y A uy (i - 1))) (pt s (ux i) (uy i)))
      (fun s => forall i, i <= k -> on_curve (upts ux uy s i)) 1 k).
    + intros i Hi. apply adder_gok. apply HAC. lia.
    + intros s s' E H i Hi. unfold upts, pt. rewrite !E by eauto. exact (H i Hi).
    + intros i s Hi Hs HR. split; [|apply (Hs i); lia].
      rewrite (chain_acc A ux uy s (i - 1)).
      * apply psum_on, Forall_map_seq. intros j Hj. apply Hs. lia.
      * intros j Hj. apply Hs. lia.
      * intros j Hj. apply HR. lia.
    + intros i j v Hi Hj H1 H2. specialize (HA i j). lia.
    + intros i j v Hi Hj H1 H2. cbn [In] in H2.
      destruct (HU i j) as [U1 U2]; [lia|lia|]. destruct (HU 0 j) as [U3 U4]; [lia|lia|].
      unfold acc_x, acc_y in H2. destruct (Nat.eqb_spec (i - 1) 0) as [E|E].
      * destruct H2 as [<-|[<-|[<-|[<-|[]]]]]; auto.
      * pose proof (HA (i - 1) i). pose proof (HA i j). destruct H2 as [<-|[<-|[<-|[<-|[]]]]]; auto; lia.
    + intros i v Hi Hv. cbn [In] in Hv. unfold acc_x, acc_y in Hv. destruct (Nat.eqb_spec (i - 1) 0) as [E|E].
      * destruct Hv as [<-|[<-|[<-|[<-|[]]]]]; left; [exists 0|exists 0|exists i|exists i]; (split; [lia|auto]).
      * destruct Hv as [<-|[<-|[<-|[<-|[]]]]]; [right; exists (i - 1); lia|right; exists (i - 1); lia|left; exists i|left; exists i]; (split; [lia|auto]).
    + intros i v Hi H1 (j & Hj & H2). destruct (HU j i) as [U1 U2]; [lia|lia|]. destruct H2 as [-> | ->]; auto.
  - intros v. reflexivity.
  - auto.
  - intros v (i & Hi & H1) (j & Hj & H2). destruct (HU j i) as [U1 U2]; [lia|lia|]. destruct H2 as [-> | ->]; auto.
  - intros s s' E H i Hi. unfold upts, pt. rewrite !E by eauto. exact (H i Hi).
  - auto.
  - intros s Hs HR. apply chain_acc; [exact Hs|]. intros i Hi. apply HR. lia.
Qed.
