(** Generic facts about R1CS satisfaction. *)
From Coq Require Import List ZArith Lia Bool Arith.
From Verif Require Import Field Base R1CS.
Import ListNotations.
Local Open Scope F_scope.

Lemma upd_same s v x : upd s v x v = x.
Proof. unfold upd. now rewrite Nat.eqb_refl. Qed.

Lemma upd_other s v x w : w <> v -> upd s v x w = s w.
Proof. intros H. unfold upd. destruct (Nat.eqb_spec w v); congruence. Qed.

Lemma holdsb_spec s c : holdsb s c = true <-> holds s c.
Proof. unfold holdsb, holds. apply Feqb_true. Qed.

Lemma satb_spec s cs : satb s cs = true <-> sat s cs.
Proof.
  unfold satb, sat. rewrite forallb_forall, Forall_forall.
  split; intros H c Hc; apply holdsb_spec; auto.
Qed.

Lemma sat_nil s : sat s [].
Proof. constructor. Qed.

Lemma sat_cons s c cs : sat s (c :: cs) <-> holds s c /\ sat s cs.
Proof. unfold sat. apply Forall_cons_iff. Qed.

Lemma sat_app s a b : sat s (a ++ b) <-> sat s a /\ sat s b.
Proof. unfold sat. apply Forall_app. Qed.

Lemma sat_concat s l : sat s (concat l) <-> Forall (sat s) l.
Proof.
  induction l as [|a l IH]; cbn.
  - split; intros; constructor.
  - rewrite sat_app, Forall_cons_iff, IH. reflexivity.
Qed.

Lemma sat_flat_map {A} s (f : A -> list constr) l :
  sat s (flat_map f l) <-> Forall (fun a => sat s (f a)) l.
Proof.
  induction l as [|a l IH]; cbn.
  - split; intros; constructor.
  - rewrite sat_app, Forall_cons_iff, IH. reflexivity.
Qed.

Lemma sat_map {A} s (f : A -> constr) l :
  sat s (map f l) <-> Forall (fun a => holds s (f a)) l.
Proof.
  unfold sat. apply Forall_map.
Qed.

Lemma sat_in s cs c : sat s cs -> In c cs -> holds s c.
Proof. unfold sat. rewrite Forall_forall. auto. Qed.

(** ** Frame *)
Lemma ev_ext P s s' l : lc_all P l -> (forall v, P v -> s v = s' v) -> ev s l = ev s' l.
Proof.
  intros Hl Hs. induction l as [c|v|a IHa b IHb|a IHa b IHb|c a IHa]; cbn in *.
  - reflexivity.
  - auto.
  - destruct Hl. now rewrite IHa, IHb.
  - destruct Hl. now rewrite IHa, IHb.
  - now rewrite IHa.
Qed.

Lemma holds_ext P s s' c : c_all P c -> (forall v, P v -> s v = s' v) -> holds s c -> holds s' c.
Proof.
  intros (HA & HB & HC) Hs. unfold holds.
  rewrite (ev_ext P s s' (cA c)), (ev_ext P s s' (cB c)), (ev_ext P s s' (cC c)) by assumption.
  auto.
Qed.

Lemma sat_ext P s s' cs : cs_all P cs -> (forall v, P v -> s v = s' v) -> sat s cs -> sat s' cs.
Proof.
  intros Hc Hs. unfold sat, cs_all in *. rewrite !Forall_forall in *.
  intros H c Hin. eapply holds_ext; eauto.
Qed.

Lemma lc_all_impl (P Q : var -> Prop) l : (forall v, P v -> Q v) -> lc_all P l -> lc_all Q l.
Proof. intros H. induction l; cbn; intuition. Qed.

Lemma cs_all_impl (P Q : var -> Prop) cs : (forall v, P v -> Q v) -> cs_all P cs -> cs_all Q cs.
Proof.
  intros H. unfold cs_all. apply Forall_impl. intros c (HA & HB & HC).
  repeat split; eapply lc_all_impl; eauto.
Qed.

Lemma cs_all_app P a b : cs_all P (a ++ b) <-> cs_all P a /\ cs_all P b.
Proof. apply Forall_app. Qed.

Lemma cs_all_cons P c cs : cs_all P (c :: cs) <-> c_all P c /\ cs_all P cs.
Proof. apply Forall_cons_iff. Qed.

Lemma cs_all_nil P : cs_all P [].
Proof. constructor. Qed.

Lemma cs_all_flat_map {A} P (f : A -> list constr) l :
  cs_all P (flat_map f l) <-> Forall (fun a => cs_all P (f a)) l.
Proof.
  induction l as [|a l IH]; cbn.
  - split; intros; constructor.
  - rewrite cs_all_app, Forall_cons_iff, IH. reflexivity.
Qed.

Lemma cs_all_map {A} P (f : A -> constr) l :
  cs_all P (map f l) <-> Forall (fun a => c_all P (f a)) l.
Proof. apply Forall_map. Qed.

(** ** [agree lo hi]: nothing outside the index range [lo,hi) changed *)
Definition frame (lo hi : var) (s s' : assign) : Prop :=
  forall v, (v < lo \/ hi <= v)%nat -> s' v = s v.

Arguments frame (lo hi)%nat_scope s s'.

Lemma frame_refl lo hi s : frame lo hi s s.
Proof. intros v _. reflexivity. Qed.

Lemma frame_trans lo hi s1 s2 s3 : frame lo hi s1 s2 -> frame lo hi s2 s3 -> frame lo hi s1 s3.
Proof. intros H1 H2 v Hv. rewrite H2, H1 by assumption. reflexivity. Qed.

Lemma frame_weaken lo hi lo' hi' s s' :
  (lo' <= lo)%nat -> (hi <= hi')%nat -> frame lo hi s s' -> frame lo' hi' s s'.
Proof. intros Hl Hh H v Hv. apply H. lia. Qed.

Lemma frame_upd lo hi s v x : (lo <= v < hi)%nat -> frame lo hi s (upd s v x).
Proof. intros Hv w Hw. apply upd_other. lia. Qed.

Lemma frame_ev lo hi s s' l : frame lo hi s s' -> lc_all (fun v => v < lo \/ hi <= v)%nat l ->
  ev s' l = ev s l.
Proof. intros Hf Hl. eapply ev_ext; [exact Hl|]. exact Hf. Qed.

Lemma frame_sat lo hi s s' cs : frame lo hi s s' ->
  cs_all (fun v => v < lo \/ hi <= v)%nat cs -> sat s cs -> sat s' cs.
Proof.
  intros Hf Hc. eapply sat_ext; [exact Hc|]. intros v Hv. symmetry. now apply Hf.
Qed.

Lemma frame_sat_below lo hi s s' cs : frame lo hi s s' ->
  cs_all (fun v => v < lo)%nat cs -> sat s cs -> sat s' cs.
Proof.
  intros Hf Hc. eapply frame_sat; [exact Hf|]. eapply cs_all_impl; [|exact Hc].
  cbn. intros v Hv. now left.
Qed.

Lemma frame_ev_below lo hi s s' l : frame lo hi s s' -> lc_all (fun v => v < lo)%nat l ->
  ev s' l = ev s l.
Proof.
  intros Hf Hl. eapply frame_ev; [exact Hf|]. eapply lc_all_impl; [|exact Hl].
  cbn. intros v Hv. now left.
Qed.

(** ** bits *)
Lemma boolean_c_spec s x : holds s (boolean_c x) <-> isbit (ev s x).
Proof. unfold boolean_c, holds. cbn. apply isbit_iff. Qed.

(** outcome inversion *)
Lemma obind_ok {A B} (o : outcome A) (k : A -> outcome B) b :
  obind o k = Ok b <-> exists a, o = Ok a /\ k a = Ok b.
Proof.
  destruct o; cbn; split; intros H; try discriminate;
    try (destruct H as (x & H1 & H2); congruence).
  - eauto.
Qed.

Lemma oassert_ok b : oassert b = Ok tt <-> b = true.
Proof. destruct b; cbn; split; congruence. Qed.

Lemma idx_ok {A} (l : list A) i a : idx l i = Ok a <-> nth_error l i = Some a.
Proof. unfold idx. destruct (nth_error l i); split; congruence. Qed.

Lemma back_app {A} (l : list A) x : back (l ++ [x]) = Ok x.
Proof.
  unfold back. rewrite rev_app_distr. cbn. destruct (l ++ [x]) eqn:E; [|reflexivity].
  now destruct l.
Qed.

Lemma back_last {A} (l : list A) d : l <> [] -> back l = Ok (last l d).
Proof.
  intros H. destruct (exists_last H) as (l' & x & ->).
  rewrite back_app, last_last. reflexivity.
Qed.

(** discharge [cs_all P cs] for literal constraint lists *)
Ltac scope :=
  unfold cs_all; repeat first [apply Forall_nil | apply Forall_cons];
  unfold c_all; cbn [lc_all cA cB cC]; repeat split; auto.

Lemma Ok_inj {A} (a b : A) : Ok a = Ok b -> a = b.
Proof. congruence. Qed.
