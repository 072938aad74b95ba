(** Composition of gadgets whose variables are not allocated in the order in which the
    witness is generated.  [gok own dep cs wit pre R]: the gadget writes exactly variables
    in [own] and reads variables in [dep] and [own]. *)
From Coq Require Import List ZArith Bool Arith Lia.
From Verif Require Import Field Base R1CS R1CSFacts Gadget.
Import ListNotations.
Local Open Scope nat_scope.

Record gok (own dep : var -> Prop) (cs : list constr) (wit : assign -> outcome assign)
  (pre R : assign -> Prop) : Prop := {
  k_disj : forall v, own v -> dep v -> False;
  k_stable : forall s s', (forall v, dep v -> s' v = s v) -> pre s -> pre s';
  k_scope : cs_all (fun v => own v \/ dep v) cs;
  k_sound : forall s, pre s -> sat s cs -> R s;
  k_complete : forall s, pre s -> exists s', wit s = Ok s' /\ (forall v, ~ own v -> s' v = s v) /\ sat s' cs
}.
Arguments k_disj {own dep cs wit pre R}.
Arguments k_stable {own dep cs wit pre R}.
Arguments k_scope {own dep cs wit pre R}.
Arguments k_sound {own dep cs wit pre R}.
Arguments k_complete {own dep cs wit pre R}.

Lemma k_run own dep cs wit pre R s : gok own dep cs wit pre R -> pre s ->
  exists s', wit s = Ok s' /\ (forall v, ~ own v -> s' v = s v) /\ sat s' cs /\ pre s' /\ R s'.
Proof.
  intros H Hs. destruct (k_complete H s Hs) as (s' & W & Hf & Hc).
  assert (Hp : pre s').
  { apply (k_stable H s); [|exact Hs]. intros v Hv. apply Hf. intros Ho. exact (k_disj H v Ho Hv). }
  exists s'. repeat (split; [assumption|]). exact (k_sound H s' Hp Hc).
Qed.

Lemma gok_seq (own1 dep1 own2 dep2 own dep : var -> Prop) cs1 cs2 w1 w2 (pre R1 pre2 R2 R : assign -> Prop) :
  gok own1 dep1 cs1 w1 pre R1 -> gok own2 dep2 cs2 w2 pre2 R2 ->
  (forall s, pre s -> R1 s -> pre2 s) ->
  (forall s, pre s -> R1 s -> R2 s -> R s) ->
  (forall v, own1 v \/ own2 v <-> own v) ->
  (forall v, dep1 v -> dep v) ->
  (forall v, dep2 v -> dep v \/ own1 v) ->
  (forall v, own2 v -> dep1 v -> False) ->
  (forall v, own2 v -> own1 v -> False) ->
  (forall v, own v -> dep v -> False) ->
  gok own dep (cs1 ++ cs2) (fun s => obind (w1 s) w2) pre R.
Proof.
  intros H1 H2 Hp HR Ho Hd1 Hd2 Hx1 Hx2 Hod. constructor.
  - exact Hod.
  - intros s s' E. apply (k_stable H1). intros v Hv. apply E. now apply Hd1.
  - rewrite cs_all_app. split.
    + eapply cs_all_impl; [|exact (k_scope H1)]. cbn. intros v [Hv|Hv]; [left; apply Ho; now left|right; now apply Hd1].
    + eapply cs_all_impl; [|exact (k_scope H2)]. cbn. intros v [Hv|Hv]; [left; apply Ho; now right|].
      destruct (Hd2 v Hv); [now right|left; apply Ho; now left].
  - intros s Hs Hsat. apply sat_app in Hsat. destruct Hsat as [S1 S2].
    pose proof (k_sound H1 s Hs S1) as Hr1. apply HR; auto. apply (k_sound H2); auto.
  - intros s Hs. destruct (k_run _ _ _ _ _ _ _ H1 Hs) as (s1 & W1 & F1 & S1 & P1 & Q1).
    destruct (k_complete H2 s1) as (s2 & W2 & F2 & S2); [auto|].
    exists s2. rewrite W1. cbn [obind]. split; [exact W2|]. split.
    + intros v Hv. rewrite F2, F1; [reflexivity| |]; intros Hv'; apply Hv, Ho; auto.
    + apply sat_app. split; [|exact S2]. eapply sat_ext; [exact (k_scope H1)| |exact S1].
      cbn. intros v Hv. symmetry. apply F2. intros Hv2. destruct Hv as [Hv|Hv]; [exact (Hx2 v Hv2 Hv)|exact (Hx1 v Hv2 Hv)].
Qed.

Lemma gok_weaken own dep cs w (pre R pre' R' : assign -> Prop) (own' dep' : var -> Prop) :
  gok own dep cs w pre R ->
  (forall v, own v <-> own' v) -> (forall v, dep v -> dep' v) -> (forall v, own' v -> dep' v -> False) ->
  (forall s s', (forall v, dep' v -> s' v = s v) -> pre' s -> pre' s') ->
  (forall s, pre' s -> pre s) -> (forall s, pre' s -> R s -> R' s) ->
  gok own' dep' cs w pre' R'.
Proof.
  intros H Ho Hd Hod Hst Hp HR. constructor.
  - exact Hod.
  - exact Hst.
  - eapply cs_all_impl; [|exact (k_scope H)]. cbn. intros v [Hv|Hv]; [left; now apply Ho|right; now apply Hd].
  - intros s Hs Hsat. apply HR; auto. apply (k_sound H); auto.
  - intros s Hs. destruct (k_complete H s (Hp s Hs)) as (s' & W & Hf & S). exists s'. split; [exact W|]. split; [|exact S].
    intros v Hv. apply Hf. intros Hv'. apply Hv. now apply Ho.
Qed.

Lemma gok_ext own dep cs w w' pre R : gok own dep cs w pre R -> (forall s, w' s = w s) -> gok own dep cs w' pre R.
Proof.
  intros H E. constructor; [exact (k_disj H)|exact (k_stable H)|exact (k_scope H)|exact (k_sound H)|].
  intros s Hs. rewrite E. exact (k_complete H s Hs).
Qed.

Lemma gok_nil (own dep : var -> Prop) (pre : assign -> Prop) :
  (forall v, own v -> False) -> (forall s s', (forall v, dep v -> s' v = s v) -> pre s -> pre s') ->
  gok own dep [] (fun s => Ok s) pre (fun _ => True).
Proof.
  intros Ho Hst. constructor; auto.
  - intros v Hv _. exact (Ho v Hv).
  - constructor.
  - intros s _. exists s. repeat split. constructor.
Qed.

(** a family of gadgets run in index order *)
Lemma gok_family (own dep : nat -> var -> Prop) (D : var -> Prop) (cs : nat -> list constr)
  (w : nat -> assign -> outcome assign) (pre : nat -> assign -> Prop) (R : nat -> assign -> Prop) (P : assign -> Prop) a : forall k,
  (forall i, a <= i < a + k -> gok (own i) (dep i) (cs i) (w i) (pre i) (R i)) ->
  (forall s s', (forall v, D v -> s' v = s v) -> P s -> P s') ->
  (forall i s, a <= i < a + k -> P s -> (forall j, a <= j < i -> R j s) -> pre i s) ->
  (forall i j v, a <= i < j -> j < a + k -> own j v -> own i v -> False) ->
  (forall i j v, a <= i < j -> j < a + k -> own j v -> dep i v -> False) ->
  (forall i v, a <= i < a + k -> dep i v -> D v \/ exists j, a <= j < i /\ own j v) ->
  (forall i v, a <= i < a + k -> own i v -> D v -> False) ->
  gok (fun v => exists i, a <= i < a + k /\ own i v) D (concat (map cs (seq a k))) (oseq (map w (seq a k))) P
      (fun s => forall i, a <= i < a + k -> R i s).
Proof.
  induction k as [|k IH]; intros G Hst Hpre Hoo Hod Hdep HD.
  - cbn [seq map concat oseq]. eapply gok_weaken with (pre := P);
      [apply (gok_nil (fun v => exists i, a <= i < a + 0 /\ own i v) D P)|..]; auto.
    + intros v (i & Hi & _). lia.
    + intros v; tauto.
    + intros v (i & Hi & _). lia.
    + intros s _ _ i Hi. lia.
  - rewrite seq_S, !map_app, concat_app. cbn [map concat]. rewrite app_nil_r.
    assert (Gk : gok (own (a + k)) (dep (a + k)) (cs (a + k)) (w (a + k)) (pre (a + k)) (R (a + k))) by (apply G; lia).
    eapply gok_ext; [eapply gok_seq; [apply IH|exact Gk|..]|]; cbn beta.
    + intros i Hi. apply G. lia.
    + exact Hst.
    + intros i s Hi. apply Hpre. lia.
    + intros i j v Hi Hj. apply Hoo; lia.
    + intros i j v Hi Hj. apply Hod; lia.
    + intros i v Hi. apply Hdep. lia.
    + intros i v Hi. apply HD. lia.
    + intros s Hs HR. apply Hpre; [lia|exact Hs|]. intros j Hj. apply HR. lia.
    + intros s Hs H1 H2 i Hi. destruct (Nat.eq_dec i (a + k)) as [->|Hne]; [exact H2|]. apply H1. lia.
    + intros v. split.
      * intros [(i & Hi & Ho)|Ho]; [exists i; split; [lia|exact Ho]|exists (a + k); split; [lia|exact Ho]].
      * intros (i & Hi & Ho). destruct (Nat.eq_dec i (a + k)) as [->|Hne]; [now right|left; exists i; split; [lia|exact Ho]].
    + auto.
    + intros v Hv. destruct (Hdep (a + k) v) as [Hd|(j & Hj & Ho)]; [lia|exact Hv|now left|right; exists j; split; [lia|exact Ho]].
    + intros v Hv Hd. exact (HD (a + k) v ltac:(lia) Hv Hd).
    + intros v Hv (i & Hi & Ho). exact (Hoo i (a + k) v ltac:(lia) ltac:(lia) Hv Ho).
    + intros v (i & Hi & Ho) Hd. exact (HD i v ltac:(lia) Ho Hd).
    + intros s. apply oseq_snoc.
Qed.

(** an additional constraint over variables of the gadget, implied by its relation *)
Lemma gok_assert own dep cs w pre R cs' : gok own dep cs w pre R ->
  cs_all (fun v => own v \/ dep v) cs' -> (forall s, pre s -> R s -> sat s cs') ->
  gok own dep (cs ++ cs') w pre R.
Proof.
  intros H Hc HR. constructor; [exact (k_disj H)|exact (k_stable H)| | |].
  - apply cs_all_app. split; [exact (k_scope H)|exact Hc].
  - intros s Hs Hsat. apply sat_app in Hsat. apply (k_sound H); tauto.
  - intros s Hs. destruct (k_run _ _ _ _ _ _ _ H Hs) as (s1 & W1 & F1 & S1 & P1 & Q1).
    exists s1. split; [assumption|]. split; [assumption|]. apply sat_app. split; [assumption|]. now apply HR.
Qed.

Lemma gok_gadget_ok own dep n n' cs w pre R : gok own dep cs w pre R -> n <= n' ->
  (forall v, own v -> n <= v < n') -> (forall v, dep v -> v < n) ->
  gadget_ok n n' cs w pre R.
Proof.
  intros H Hn Ho Hd. constructor.
  - exact Hn.
  - intros s s' E. apply (k_stable H). intros v Hv. apply E. now apply Hd.
  - eapply cs_all_impl; [|exact (k_scope H)]. cbn. intros v [Hv|Hv]; [now apply Ho|specialize (Hd v Hv); lia].
  - exact (k_sound H).
  - intros s Hs. destruct (k_complete H s Hs) as (s' & W & Hf & S). exists s'. split; [exact W|]. split; [|exact S].
    intros v Hv. apply Hf. intros Hv'. specialize (Ho v Hv'). lia.
Qed.

Lemma gadget_ok_gok n n' cs w pre R : gadget_ok n n' cs w pre R ->
  gok (fun v => n <= v < n') (fun v => v < n) cs w pre R.
Proof.
  intros H. constructor.
  - intros; lia.
  - exact (go_stable _ _ _ _ _ _ H).
  - pose proof (go_le _ _ _ _ _ _ H). eapply cs_all_impl; [|exact (go_scope _ _ _ _ _ _ H)]. cbn. intros; lia.
  - exact (go_sound _ _ _ _ _ _ H).
  - intros s Hs. destruct (go_complete _ _ _ _ _ _ H s Hs) as (s' & W & Hf & S). exists s'. split; [exact W|]. split; [|exact S].
    intros v Hv. apply Hf. lia.
Qed.
