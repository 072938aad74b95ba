(** Gadgets whose solution is not unique.  [pg n n' cs wit pre adm R can]: the gadget owns the
    variables n..n'-1; the solutions over given inputs are described by a choice [c] with
    [adm s c] (e.g. which bit decomposition is used), every admissible choice extends to a
    solution, and the witness generator takes the choice [can s]. *)
From Coq Require Import List ZArith Bool Arith Lia.
From Verif Require Import Field Base R1CS R1CSFacts Gadget Gadget2.
Import ListNotations.
Local Open Scope nat_scope.

Definition same (n : nat) (s s' : assign) : Prop := forall v, v < n -> s' v = s v.

Record pg {C : Type} (n n' : nat) (cs : list constr) (wit : assign -> outcome assign)
  (pre : assign -> Prop) (adm R : assign -> C -> Prop) (can : assign -> C) : Prop := {
  p_le : n <= n';
  p_scope : cs_all (fun v => v < n') cs;
  p_pre : forall s s', same n s s' -> pre s -> pre s';
  p_adm : forall s s' c, same n s s' -> adm s c -> adm s' c;
  p_R : forall s s' c, same n' s s' -> R s c -> R s' c;
  p_can : forall s s', same n s s' -> can s' = can s;
  p_sound : forall s, pre s -> sat s cs -> exists c, adm s c /\ R s c;
  p_ext : forall s c, pre s -> adm s c -> exists s', frame n n' s s' /\ sat s' cs /\ R s' c;
  p_wit : forall s, pre s -> exists s', wit s = Ok s' /\ frame n n' s s' /\ sat s' cs /\ R s' (can s)
}.
Arguments p_le {C n n' cs wit pre adm R can}.
Arguments p_scope {C n n' cs wit pre adm R can}.
Arguments p_pre {C n n' cs wit pre adm R can}.
Arguments p_adm {C n n' cs wit pre adm R can}.
Arguments p_R {C n n' cs wit pre adm R can}.
Arguments p_can {C n n' cs wit pre adm R can}.
Arguments p_sound {C n n' cs wit pre adm R can}.
Arguments p_ext {C n n' cs wit pre adm R can}.
Arguments p_wit {C n n' cs wit pre adm R can}.

Lemma frame_same n n' s s' : frame n n' s s' -> same n s s'.
Proof. intros H v Hv. apply H. lia. Qed.
Lemma same_sym n s s' : same n s s' -> same n s' s.
Proof. intros H v Hv. symmetry. now apply H. Qed.
Lemma same_le n m s s' : n <= m -> same m s s' -> same n s s'.
Proof. intros L H v Hv. apply H. lia. Qed.
Lemma frame_trans n m k s s1 s2 : n <= m <= k -> frame n m s s1 -> frame m k s1 s2 -> frame n k s s2.
Proof. intros L H1 H2 v Hv. rewrite H2, H1 by lia. reflexivity. Qed.
Lemma sat_same n s s' cs : cs_all (fun v => v < n) cs -> same n s s' -> sat s cs -> sat s' cs.
Proof. intros Hc E. apply (sat_ext (fun v => v < n)); [exact Hc|]. intros v Hv. symmetry. now apply E. Qed.

Lemma pg_seq {C1 C2 : Type} n n1 n2 cs1 cs2 w1 w2 (pre pre2 : assign -> Prop)
  (adm1 R1 : assign -> C1 -> Prop) (can1 : assign -> C1) (adm2 R2 : assign -> C2 -> Prop) (can2 : assign -> C2)
  (adm : assign -> C1 * C2 -> Prop) (can : assign -> C2) :
  pg n n1 cs1 w1 pre adm1 R1 can1 -> pg n1 n2 cs2 w2 pre2 adm2 R2 can2 ->
  (forall s c1, pre s -> adm1 s c1 -> R1 s c1 -> pre2 s /\ (forall c2, adm s (c1, c2) <-> adm2 s c2)) ->
  (forall s, pre s -> adm1 s (can1 s)) ->
  (forall s, pre s -> R1 s (can1 s) -> can2 s = can s) ->
  (forall s s' c, same n s s' -> adm s c -> adm1 s (fst c) -> adm s' c) ->
  (forall s s', same n s s' -> can s' = can s) ->
  pg n n2 (cs1 ++ cs2) (fun s => obind (w1 s) w2) pre (fun s c => adm1 s (fst c) /\ adm s c)
     (fun s c => R1 s (fst c) /\ R2 s (snd c)) (fun s => (can1 s, can s)).
Proof.
  intros G1 G2 Hp Hc1 Hc2 Hst Hcan. pose proof (p_le G1) as L1. pose proof (p_le G2) as L2. constructor.
  - lia.
  - apply cs_all_app. split; [|exact (p_scope G2)]. eapply cs_all_impl; [|exact (p_scope G1)]. cbn. intros; lia.
  - exact (p_pre G1).
  - intros s s' [c1 c2] E [H1 H2]. split; [exact (p_adm G1 _ _ _ E H1)|]. exact (Hst s s' _ E H2 H1).
  - intros s s' [c1 c2] E [H1 H2]. split; [apply (p_R G1 s); [eapply same_le; [|exact E]; lia|exact H1]|exact (p_R G2 _ _ _ E H2)].
  - intros s s' E. rewrite (p_can G1 _ _ E), (Hcan _ _ E). reflexivity.
  - intros s Hs HS. apply sat_app in HS. destruct HS as [S1 S2].
    destruct (p_sound G1 s Hs S1) as (c1 & A1 & Q1). destruct (Hp s c1 Hs A1 Q1) as [P2 E2].
    destruct (p_sound G2 s P2 S2) as (c2 & A2 & Q2). exists (c1, c2). cbn [fst snd]. repeat split; auto. now apply E2.
  - intros s [c1 c2] Hs [A1 A2]. cbn [fst snd] in *. destruct (p_ext G1 s c1 Hs A1) as (s1 & F1 & S1 & Q1).
    pose proof (frame_same _ _ _ _ F1) as E1.
    destruct (Hp s1 c1 (p_pre G1 _ _ E1 Hs) (p_adm G1 _ _ _ E1 A1) Q1) as [P2 E2].
    destruct (p_ext G2 s1 c2 P2) as (s2 & F2 & S2 & Q2); [apply E2; exact (Hst _ _ _ E1 A2 A1)|].
    exists s2. split; [apply (frame_trans n n1 n2 s s1); auto; lia|]. pose proof (frame_same _ _ _ _ F2) as E3.
    split; [|split; [exact (p_R G1 _ _ _ E3 Q1)|exact Q2]].
    apply sat_app. split; [|exact S2]. exact (sat_same n1 s1 s2 _ (p_scope G1) E3 S1).
  - intros s Hs. destruct (p_wit G1 s Hs) as (s1 & W1 & F1 & S1 & Q1). pose proof (frame_same _ _ _ _ F1) as E1.
    pose proof (p_pre G1 _ _ E1 Hs) as Hs1. rewrite <- (p_can G1 _ _ E1) in Q1.
    destruct (Hp s1 _ Hs1 (Hc1 s1 Hs1) Q1) as [P2 E2].
    destruct (p_wit G2 s1 P2) as (s2 & W2 & F2 & S2 & Q2). exists s2. rewrite W1. cbn [obind].
    split; [exact W2|]. split; [apply (frame_trans n n1 n2 s s1); auto; lia|]. pose proof (frame_same _ _ _ _ F2) as E3.
    split; [|split].
    + apply sat_app. split; [|exact S2]. exact (sat_same n1 s1 s2 _ (p_scope G1) E3 S1).
    + rewrite (p_can G1 _ _ E1) in Q1. exact (p_R G1 _ _ _ E3 Q1).
    + cbn [fst snd]. rewrite (Hc2 s1 Hs1 Q1), (Hcan _ _ E1) in Q2. exact Q2.
Qed.

(** gadgets with a unique solution, parametrised by the (ghost) values of their inputs *)
Lemma pg_of_gok {B : Type} (b0 : B) n n' cs wit (own dep : var -> Prop) (pre : B -> assign -> Prop) (R : B -> assign -> Prop) :
  n <= n' -> (forall v, own v -> n <= v < n') -> (forall v, dep v -> v < n) ->
  cs_all (fun v => own v \/ dep v) cs ->
  (forall b s, pre b s -> gok own dep cs wit (pre b) (R b)) ->
  (forall b s s', same n s s' -> pre b s -> pre b s') ->
  (forall b s s', same n' s s' -> R b s -> R b s') ->
  pg n n' cs wit (fun s => exists b, pre b s) (fun s (_ : unit) => True) (fun s _ => forall b, pre b s -> R b s) (fun _ => tt).
Proof.
  intros L Ho Hd Hsc G Hp HR. constructor.
  - exact L.
  - eapply cs_all_impl; [|exact Hsc]. cbn. intros v [H|H]; [now apply Ho|specialize (Hd v H); lia].
  - intros s s' E [b H]. exists b. exact (Hp b s s' E H).
  - auto.
  - intros s s' _ E H b Hb. apply (HR b s s' E). apply H. apply (Hp b s' s); [|exact Hb]. apply same_sym. eapply same_le; [|exact E]. lia.
  - reflexivity.
  - intros s [b Hb] HS. exists tt. split; [exact I|]. intros b' Hb'. exact (k_sound (G b' s Hb') s Hb' HS).
  - intros s _ [b Hb] _. destruct (k_complete (G b s Hb) s Hb) as (s' & W & Fr & S). exists s'.
    assert (F : frame n n' s s'). { intros v Hv. apply Fr. intros H. specialize (Ho v H). lia. }
    split; [exact F|]. split; [exact S|]. intros b' Hb'. exact (k_sound (G b' s' Hb') s' Hb' S).
  - intros s [b Hb]. destruct (k_complete (G b s Hb) s Hb) as (s' & W & Fr & S). exists s'.
    assert (F : frame n n' s s'). { intros v Hv. apply Fr. intros H. specialize (Ho v H). lia. }
    split; [exact W|]. split; [exact F|]. split; [exact S|]. intros b' Hb'. exact (k_sound (G b' s' Hb') s' Hb' S).
Qed.

Lemma pg_pre {C : Type} n n' cs wit (pre pre' : assign -> Prop) (adm R : assign -> C -> Prop) can :
  pg n n' cs wit pre adm R can -> (forall s s', same n s s' -> pre' s -> pre' s') -> (forall s, pre' s -> pre s) ->
  pg n n' cs wit pre' adm R can.
Proof.
  intros G Hst Hp. constructor; [exact (p_le G)|exact (p_scope G)|exact Hst|exact (p_adm G)|exact (p_R G)|exact (p_can G)|..].
  - intros s Hs. apply (p_sound G). auto.
  - intros s c Hs. apply (p_ext G). auto.
  - intros s Hs. apply (p_wit G). auto.
Qed.

Lemma pg_map {C D : Type} n n' cs wit (pre : assign -> Prop) (adm R : assign -> C -> Prop) can
  (adm' R' : assign -> D -> Prop) (can' : assign -> D) :
  pg n n' cs wit pre adm R can ->
  (forall s c, pre s -> adm s c -> R s c -> exists d, adm' s d /\ R' s d) ->
  (forall s d, pre s -> adm' s d -> exists c, adm s c /\ forall s', same n s s' -> R s' c -> R' s' d) ->
  (forall s s', pre s -> same n s s' -> R s' (can s) -> R' s' (can' s)) ->
  (forall s s' d, same n s s' -> adm' s d -> adm' s' d) ->
  (forall s s' d, same n' s s' -> R' s d -> R' s' d) ->
  (forall s s', same n s s' -> can' s' = can' s) ->
  pg n n' cs wit pre adm' R' can'.
Proof.
  intros G H1 H2 H3 Ha HR Hc. constructor; [exact (p_le G)|exact (p_scope G)|exact (p_pre G)|exact Ha|exact HR|exact Hc|..].
  - intros s Hs HS. destruct (p_sound G s Hs HS) as (c & A & Q). eauto.
  - intros s d Hs Hd. destruct (H2 s d Hs Hd) as (c & A & K). destruct (p_ext G s c Hs A) as (s' & F & S & Q).
    exists s'. split; [exact F|]. split; [exact S|]. apply K; [exact (frame_same _ _ _ _ F)|exact Q].
  - intros s Hs. destruct (p_wit G s Hs) as (s' & W & F & S & Q). exists s'. split; [exact W|]. split; [exact F|]. split; [exact S|].
    apply H3; auto. exact (frame_same _ _ _ _ F).
Qed.
Lemma pg_wit_ext {C : Type} n n' cs wit wit' (pre : assign -> Prop) (adm R : assign -> C -> Prop) can :
  pg n n' cs wit pre adm R can -> (forall s, wit' s = wit s) -> pg n n' cs wit' pre adm R can.
Proof.
  intros G E. constructor; [exact (p_le G)|exact (p_scope G)|exact (p_pre G)|exact (p_adm G)|exact (p_R G)|exact (p_can G)|exact (p_sound G)|exact (p_ext G)|].
  intros s. rewrite E. apply (p_wit G).
Qed.

(** sequencing when one of the two parts has no choice *)
Lemma pg_seq_unit {C : Type} n n1 n2 cs1 cs2 w1 w2 (pre pre1 pre2 : assign -> Prop) (R1 : assign -> unit -> Prop)
  (adm2 R2 : assign -> C -> Prop) (can2 : assign -> C) :
  pg n n1 cs1 w1 pre1 (fun _ _ => True) R1 (fun _ => tt) -> pg n1 n2 cs2 w2 pre2 adm2 R2 can2 ->
  (forall s s', same n s s' -> pre s -> pre s') -> (forall s, pre s -> pre1 s) -> (forall s, pre s -> pre2 s) ->
  (forall s s' c, same n s s' -> adm2 s c -> adm2 s' c) -> (forall s s', same n s s' -> can2 s' = can2 s) ->
  pg n n2 (cs1 ++ cs2) (fun s => obind (w1 s) w2) pre adm2 (fun s c => R1 s tt /\ R2 s c) can2.
Proof.
  intros G1 G2 Hst Hp1 Hp2 Ha Hc. pose proof (p_le G1) as L1. pose proof (p_le G2) as L2. constructor; auto.
  - lia.
  - apply cs_all_app. split; [|exact (p_scope G2)]. eapply cs_all_impl; [|exact (p_scope G1)]. cbn. intros; lia.
  - intros s s' c E [H1 H2]. split; [apply (p_R G1 s); [eapply same_le; [|exact E]; lia|exact H1]|exact (p_R G2 _ _ _ E H2)].
  - intros s Hs HS. apply sat_app in HS. destruct HS as [S1 S2].
    destruct (p_sound G1 s (Hp1 s Hs) S1) as ([] & _ & Q1). destruct (p_sound G2 s (Hp2 s Hs) S2) as (c2 & A2 & Q2). eauto.
  - intros s c Hs A. destruct (p_ext G1 s tt (Hp1 s Hs) I) as (s1 & F1 & S1 & Q1). pose proof (frame_same _ _ _ _ F1) as E1.
    destruct (p_ext G2 s1 c (Hp2 _ (Hst _ _ E1 Hs)) (Ha _ _ _ E1 A)) as (s2 & F2 & S2 & Q2). pose proof (frame_same _ _ _ _ F2) as E3.
    exists s2. split; [apply (frame_trans n n1 n2 s s1); auto; lia|].
    split; [|split; [exact (p_R G1 _ _ _ E3 Q1)|exact Q2]]. apply sat_app. split; [|exact S2]. exact (sat_same n1 s1 s2 _ (p_scope G1) E3 S1).
  - intros s Hs. destruct (p_wit G1 s (Hp1 s Hs)) as (s1 & W1 & F1 & S1 & Q1). pose proof (frame_same _ _ _ _ F1) as E1.
    destruct (p_wit G2 s1 (Hp2 _ (Hst _ _ E1 Hs))) as (s2 & W2 & F2 & S2 & Q2). pose proof (frame_same _ _ _ _ F2) as E3.
    exists s2. rewrite W1. cbn [obind]. split; [exact W2|]. split; [apply (frame_trans n n1 n2 s s1); auto; lia|].
    rewrite (Hc _ _ E1) in Q2.
    split; [|split; [exact (p_R G1 _ _ _ E3 Q1)|exact Q2]]. apply sat_app. split; [|exact S2]. exact (sat_same n1 s1 s2 _ (p_scope G1) E3 S1).
Qed.
Lemma pg_seq_tail {C : Type} n n1 n2 cs1 cs2 w1 w2 (pre pre1 pre2 : assign -> Prop) (adm1 R1 : assign -> C -> Prop) (can1 : assign -> C)
  (R2 : assign -> unit -> Prop) :
  pg n n1 cs1 w1 pre1 adm1 R1 can1 -> pg n1 n2 cs2 w2 pre2 (fun _ _ => True) R2 (fun _ => tt) ->
  (forall s s', same n s s' -> pre s -> pre s') -> (forall s, pre s -> pre1 s) -> (forall s c, pre s -> R1 s c -> pre2 s) ->
  pg n n2 (cs1 ++ cs2) (fun s => obind (w1 s) w2) pre adm1 (fun s c => R1 s c /\ R2 s tt) can1.
Proof.
  intros G1 G2 Hst Hp1 Hp2. pose proof (p_le G1) as L1. pose proof (p_le G2) as L2. constructor; auto.
  - lia.
  - apply cs_all_app. split; [|exact (p_scope G2)]. eapply cs_all_impl; [|exact (p_scope G1)]. cbn. intros; lia.
  - exact (p_adm G1).
  - intros s s' c E [H1 H2]. split; [apply (p_R G1 s); [eapply same_le; [|exact E]; lia|exact H1]|exact (p_R G2 _ _ _ E H2)].
  - exact (p_can G1).
  - intros s Hs HS. apply sat_app in HS. destruct HS as [S1 S2].
    destruct (p_sound G1 s (Hp1 s Hs) S1) as (c & A & Q1). destruct (p_sound G2 s (Hp2 s c Hs Q1) S2) as ([] & _ & Q2). eauto.
  - intros s c Hs A. destruct (p_ext G1 s c (Hp1 s Hs) A) as (s1 & F1 & S1 & Q1). pose proof (frame_same _ _ _ _ F1) as E1.
    destruct (p_ext G2 s1 tt (Hp2 _ c (Hst _ _ E1 Hs) Q1) I) as (s2 & F2 & S2 & Q2). pose proof (frame_same _ _ _ _ F2) as E3.
    exists s2. split; [apply (frame_trans n n1 n2 s s1); auto; lia|].
    split; [|split; [exact (p_R G1 _ _ _ E3 Q1)|exact Q2]]. apply sat_app. split; [|exact S2]. exact (sat_same n1 s1 s2 _ (p_scope G1) E3 S1).
  - intros s Hs. destruct (p_wit G1 s (Hp1 s Hs)) as (s1 & W1 & F1 & S1 & Q1). pose proof (frame_same _ _ _ _ F1) as E1.
    destruct (p_wit G2 s1 (Hp2 _ _ (Hst _ _ E1 Hs) Q1)) as (s2 & W2 & F2 & S2 & Q2). pose proof (frame_same _ _ _ _ F2) as E3.
    exists s2. rewrite W1. cbn [obind]. split; [exact W2|]. split; [apply (frame_trans n n1 n2 s s1); auto; lia|].
    split; [|split; [exact (p_R G1 _ _ _ E3 Q1)|exact Q2]]. apply sat_app. split; [|exact S2]. exact (sat_same n1 s1 s2 _ (p_scope G1) E3 S1).
Qed.
