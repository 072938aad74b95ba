(** The Edwards-curve gadgets without loops: satisfying assignments and witnesses. *)
From Coq Require Import List ZArith Bool Arith Lia.
From Coq.setoid_ring Require Import Field_tac.
From Verif Require Import Field Base R1CS R1CSFacts Gadget Gadget2 M_Lookup P_Lookup M_Point M_Jubjub Spec_Curve P_Curve.
Import ListNotations.
Local Open Scope F_scope.

Definition pt (s : assign) (x y : var) : point := mkpt (s x) (s y).

Ltac updsimp := repeat first [rewrite upd_same | rewrite upd_other by lia].

Lemma padd_val P Q x y : on_curve P -> on_curve Q ->
  let t := Fof 168696 * (px P * px Q) * (py P * py Q) in
  (mkpt x y = padd P Q <-> x * (F1 + t) = px P * py Q + py P * px Q /\
                           y * (F1 - t) = py P * py Q - Fof 168700 * (px P * px Q)).
Proof.
  intros HP HQ t. destruct (padd_denom P Q HP HQ) as [D1 D2]. fold t in D1, D2. unfold padd. fold t. split.
  - intros E. injection E as -> ->. split; apply Fdiv_mul; assumption.
  - intros [E1 E2]. f_equal; symmetry; apply Fdiv_eq; auto.
Qed.

(** *** adder *)
Definition adder_aux (g : padder) (s : assign) : Prop :=
  s (ad_beta g) = s (ad_X1 g) * s (ad_Y2 g) /\ s (ad_gamma g) = s (ad_Y1 g) * s (ad_X2 g) /\
  s (ad_delta g) = s (ad_Y1 g) * s (ad_Y2 g) /\ s (ad_epsilon g) = s (ad_X1 g) * s (ad_X2 g) /\
  s (ad_tau g) = s (ad_delta g) * s (ad_epsilon g).

Lemma adder_sat_iff g s : on_curve (pt s (ad_X1 g) (ad_Y1 g)) -> on_curve (pt s (ad_X2 g) (ad_Y2 g)) ->
  (sat s (adder_constraints g) <->
   adder_aux g s /\ pt s (ad_X3 g) (ad_Y3 g) = padd (pt s (ad_X1 g) (ad_Y1 g)) (pt s (ad_X2 g) (ad_Y2 g))).
Proof.
  intros H1 H2. unfold pt at 1. rewrite (padd_val _ _ _ _ H1 H2). cbn [pt px py].
  unfold adder_constraints, adder_aux. rewrite !sat_cons. unfold holds. cbn [cA cB cC ev L1].
  split.
  - intros (E1 & E2 & E3 & E4 & E5 & E6 & E7 & _).
    split; [repeat split; congruence|].
    rewrite <- E5, <- E4, <- E3 in E6, E7. rewrite <- E2, <- E1 in E6. split.
    + rewrite <- E6. unfold jj_d. ring.
    + transitivity (s (ad_Y3 g) * (F1 - jj_d * (s (ad_Y1 g) * s (ad_Y2 g) * (s (ad_X1 g) * s (ad_X2 g)))));
        [unfold jj_d; ring|]. rewrite E7. unfold jj_a. ring.
  - intros ((E1 & E2 & E3 & E4 & E5) & E6 & E7). rewrite E5, E1, E2, E3, E4. repeat (split; [reflexivity|]).
    split; [rewrite <- E6; unfold jj_d; ring|]. split; [|constructor].
    transitivity (s (ad_Y1 g) * s (ad_Y2 g) - Fof 168700 * (s (ad_X1 g) * s (ad_X2 g))); [rewrite <- E7; unfold jj_d; ring|unfold jj_a; ring].
Qed.

Lemma adder_witness_ok X1 Y1 X2 Y2 n (s : assign) :
  let g := fst (adder_new X1 Y1 X2 Y2 n) in
  (forall v, In v [X1; Y1; X2; Y2] -> ~ (n <= v < n + 7)%nat) ->
  on_curve (pt s X1 Y1) -> on_curve (pt s X2 Y2) ->
  exists s', adder_witness g s = Ok s' /\ (forall v, ~ (n <= v < n + 7)%nat -> s' v = s v) /\ sat s' (adder_constraints g).
Proof.
  intros g Hv H1 H2.
  assert (V1 := Hv X1 ltac:(cbn; auto)). assert (V2 := Hv Y1 ltac:(cbn; auto)).
  assert (V3 := Hv X2 ltac:(cbn; auto)). assert (V4 := Hv Y2 ltac:(cbn; auto)). clear Hv.
  destruct (padd_denom _ _ H1 H2) as [D1 D2]. cbn [pt px py] in D1, D2.
  unfold g, adder_witness. cbn [adder_new fst ad_X1 ad_Y1 ad_X2 ad_Y2 ad_beta ad_gamma ad_delta ad_epsilon ad_tau ad_X3 ad_Y3].
  updsimp.
  assert (E1 : F1 + jj_d * (s Y1 * s Y2 * (s X1 * s X2)) = F1 + Fof 168696 * (s X1 * s X2) * (s Y1 * s Y2)) by (unfold jj_d; ring).
  assert (E2 : F1 - jj_d * (s Y1 * s Y2 * (s X1 * s X2)) = F1 - Fof 168696 * (s X1 * s X2) * (s Y1 * s Y2)) by (unfold jj_d; ring).
  rewrite E1, inverse_ok by assumption. cbn [obind]. updsimp. rewrite E2, inverse_ok by assumption. cbn [obind].
  eexists. split; [reflexivity|]. split.
  - intros v Hv. updsimp. reflexivity.
  - refine (proj2 (adder_sat_iff _ _ _ _) _); cbn [ad_X1 ad_Y1 ad_X2 ad_Y2 ad_X3 ad_Y3]; unfold pt; updsimp; [assumption..|].
    split.
    + unfold adder_aux. cbn [ad_X1 ad_Y1 ad_X2 ad_Y2 ad_X3 ad_Y3 ad_beta ad_gamma ad_delta ad_epsilon ad_tau]. updsimp. repeat split.
    + unfold padd. cbn [px py]. rewrite !Fdiv_def. apply point_eq; cbn [px py]; [reflexivity|]. unfold jj_a. ring.
Qed.

Lemma adder_scope X1 Y1 X2 Y2 n (P : var -> Prop) : P X1 -> P Y1 -> P X2 -> P Y2 ->
  (forall v, (n <= v < n + 7)%nat -> P v) -> cs_all P (adder_constraints (fst (adder_new X1 Y1 X2 Y2 n))).
Proof.
  intros H1 H2 H3 H4 H. unfold adder_constraints. cbn [adder_new fst ad_X1 ad_Y1 ad_X2 ad_Y2 ad_beta ad_gamma ad_delta ad_epsilon ad_tau ad_X3 ad_Y3].
  repeat (apply cs_all_cons; split; [unfold c_all; cbn; repeat split; try assumption; apply H; lia|]). constructor.
Qed.

Lemma pt_ext s s' x y : s' x = s x -> s' y = s y -> pt s' x y = pt s x y.
Proof. unfold pt. now intros -> ->. Qed.

Lemma adder_gok X1 Y1 X2 Y2 n :
  let g := fst (adder_new X1 Y1 X2 Y2 n) in
  (forall v, In v [X1; Y1; X2; Y2] -> ~ (n <= v < n + 7)%nat) ->
  gok (fun v => n <= v < n + 7)%nat (fun v => In v [X1; Y1; X2; Y2]) (adder_constraints g) (adder_witness g)
    (fun s => on_curve (pt s X1 Y1) /\ on_curve (pt s X2 Y2))
    (fun s => pt s (n + 5)%nat (n + 6)%nat = padd (pt s X1 Y1) (pt s X2 Y2)).
Proof.
  intros g Hv. constructor.
  - intros v Ho Hd. exact (Hv v Hd Ho).
  - intros s s' E. unfold pt. rewrite !E by (cbn; auto). auto.
  - apply adder_scope; cbn; auto 8.
  - intros s [H1 H2] Hsat. apply adder_sat_iff in Hsat; [|exact H1|exact H2]. exact (proj2 Hsat).
  - intros s [H1 H2]. exact (adder_witness_ok X1 Y1 X2 Y2 n s Hv H1 H2).
Qed.

(** *** doubler *)
Definition doubler_aux (g : pdoubler) (s : assign) : Prop :=
  s (db_alpha g) = s (db_X1 g) * s (db_X1 g) /\ s (db_beta g) = s (db_Y1 g) * s (db_Y1 g) /\
  s (db_gamma g) = jj_d * s (db_alpha g) * s (db_beta g) /\ s (db_delta g) = Fof 2 * s (db_X1 g) * s (db_Y1 g).

Lemma Fof2 : Fof 2 = F1 + F1.
Proof. now apply fval_inj. Qed.

Lemma doubler_sat_iff g s : on_curve (pt s (db_X1 g) (db_Y1 g)) ->
  (sat s (doubler_constraints g) <->
   doubler_aux g s /\ pt s (db_X3 g) (db_Y3 g) = padd (pt s (db_X1 g) (db_Y1 g)) (pt s (db_X1 g) (db_Y1 g))).
Proof.
  intros H1. unfold pt at 1. rewrite (padd_val _ _ _ _ H1 H1). cbn [pt px py].
  unfold doubler_constraints, doubler_aux. rewrite !sat_cons. unfold holds. cbn [cA cB cC ev L1]. rewrite Fof2.
  split.
  - intros (E1 & E2 & E3 & E4 & E5 & E6 & _). split; [repeat split; congruence|].
    rewrite <- E3, <- E2, <- E1 in E5, E6. rewrite <- E4 in E5. split.
    + transitivity (((F1 + F1) * s (db_X1 g)) * s (db_Y1 g)); [rewrite <- E5; unfold jj_d; ring|ring].
    + transitivity (- ((jj_d * (s (db_X1 g) * s (db_X1 g)) * (s (db_Y1 g) * s (db_Y1 g)) - F1) * s (db_Y3 g))); [unfold jj_d; ring|].
      rewrite E6. unfold jj_a. ring.
  - intros ((E1 & E2 & E3 & E4) & E5 & E6). rewrite E4, E3, E1, E2. repeat (split; [reflexivity|]).
    split.
    + transitivity (s (db_X1 g) * s (db_Y1 g) + s (db_Y1 g) * s (db_X1 g)); [rewrite <- E5; unfold jj_d; ring|ring].
    + split; [|constructor].
      transitivity (- (s (db_Y1 g) * s (db_Y1 g) - Fof 168700 * (s (db_X1 g) * s (db_X1 g)))); [rewrite <- E6; unfold jj_d; ring|unfold jj_a; ring].
Qed.

Lemma doubler_witness_ok X1 Y1 n (s : assign) :
  let g := fst (doubler_new X1 Y1 n) in
  (forall v, In v [X1; Y1] -> ~ (n <= v < n + 6)%nat) ->
  on_curve (pt s X1 Y1) ->
  exists s', doubler_witness g s = Ok s' /\ (forall v, ~ (n <= v < n + 6)%nat -> s' v = s v) /\ sat s' (doubler_constraints g).
Proof.
  intros g Hv H1.
  assert (V1 := Hv X1 ltac:(cbn; auto)). assert (V2 := Hv Y1 ltac:(cbn; auto)). clear Hv.
  destruct (padd_denom _ _ H1 H1) as [D1 D2]. cbn [pt px py] in D1, D2.
  unfold g, doubler_witness. cbn [doubler_new fst db_X1 db_Y1 db_alpha db_beta db_gamma db_delta db_X3 db_Y3].
  updsimp.
  assert (E1 : jj_d * (s X1 * s X1) * (s Y1 * s Y1) + F1 = F1 + Fof 168696 * (s X1 * s X1) * (s Y1 * s Y1)) by (unfold jj_d; ring).
  assert (E2 : jj_d * (s X1 * s X1) * (s Y1 * s Y1) - F1 = - (F1 - Fof 168696 * (s X1 * s X1) * (s Y1 * s Y1))) by (unfold jj_d; ring).
  assert (N2 : jj_d * (s X1 * s X1) * (s Y1 * s Y1) - F1 <> F0).
  { rewrite E2. intros E. apply D2. transitivity (- - (F1 - Fof 168696 * (s X1 * s X1) * (s Y1 * s Y1))); [ring|rewrite E; ring]. }
  rewrite E1, inverse_ok by assumption. cbn [obind]. updsimp. rewrite inverse_ok by assumption. cbn [obind].
  eexists. split; [reflexivity|]. split.
  - intros v Hv. updsimp. reflexivity.
  - refine (proj2 (doubler_sat_iff _ _ _) _); cbn [db_X1 db_Y1 db_X3 db_Y3]; unfold pt; updsimp; [assumption..|].
    split.
    + unfold doubler_aux. cbn [db_X1 db_Y1 db_alpha db_beta db_gamma db_delta]. updsimp. repeat split. ring.
    + apply padd_val; [assumption..|]. cbn [px py]. split.
      * transitivity (s X1 * s Y1 * Fof 2 * (Finv (F1 + Fof 168696 * (s X1 * s X1) * (s Y1 * s Y1)) * (F1 + Fof 168696 * (s X1 * s X1) * (s Y1 * s Y1)))); [ring|].
        rewrite Finv_l by assumption. rewrite Fof2. ring.
      * transitivity (- (s X1 * s X1 * jj_a - s Y1 * s Y1) * (Finv (jj_d * (s X1 * s X1) * (s Y1 * s Y1) - F1) * (jj_d * (s X1 * s X1) * (s Y1 * s Y1) - F1))); [unfold jj_d; ring|].
        rewrite Finv_l by assumption. unfold jj_a. ring.
Qed.

Lemma doubler_gok X1 Y1 n :
  let g := fst (doubler_new X1 Y1 n) in
  (forall v, In v [X1; Y1] -> ~ (n <= v < n + 6)%nat) ->
  gok (fun v => n <= v < n + 6)%nat (fun v => In v [X1; Y1]) (doubler_constraints g) (doubler_witness g)
    (fun s => on_curve (pt s X1 Y1))
    (fun s => pt s (n + 4)%nat (n + 5)%nat = padd (pt s X1 Y1) (pt s X1 Y1)).
Proof.
  intros g Hv. constructor.
  - intros v Ho Hd. exact (Hv v Hd Ho).
  - intros s s' E. unfold pt. rewrite !E by (cbn; auto). auto.
  - unfold g, doubler_constraints. cbn [doubler_new fst db_X1 db_Y1 db_alpha db_beta db_gamma db_delta db_X3 db_Y3].
    repeat (apply cs_all_cons; split; [unfold c_all; cbn; repeat split; first [right; auto; fail|left; lia|idtac]|]). constructor.
  - intros s H1 Hsat. apply doubler_sat_iff in Hsat; [|exact H1]. exact (proj2 Hsat).
  - intros s H1. exact (doubler_witness_ok X1 Y1 n s Hv H1).
Qed.

(** *** IsOnCurve *)
Lemma isoncurve_sat_iff X Y n s :
  let g := fst (isoncurve_new X Y n) in
  sat s (isoncurve_constraints g) <-> s n = s X * s X /\ s (n + 1)%nat = s Y * s Y /\ on_curve (pt s X Y).
Proof.
  cbn zeta. unfold isoncurve_constraints. cbn [isoncurve_new fst ic_X ic_Y ic_xx ic_yy].
  rewrite !sat_cons. unfold holds, on_curve. cbn [cA cB cC ev L1 pt px py].
  split.
  - intros (E1 & E2 & E3 & _). rewrite <- E1, <- E2 in E3. repeat (split; [congruence|]).
    transitivity (F1 + jj_d * (s X * s X) * (s Y * s Y)); [rewrite E3; unfold jj_a; ring|unfold jj_d; ring].
  - intros (E1 & E2 & E3). rewrite E1, E2. repeat (split; [reflexivity|]). split; [|constructor].
    transitivity (Fof 168700 * (s X * s X) + s Y * s Y - F1); [rewrite E3; unfold jj_d; ring|unfold jj_a; ring].
Qed.

Lemma isoncurve_gok X Y n :
  let g := fst (isoncurve_new X Y n) in
  (forall v, In v [X; Y] -> ~ (n <= v < n + 2)%nat) ->
  gok (fun v => n <= v < n + 2)%nat (fun v => In v [X; Y]) (isoncurve_constraints g) (isoncurve_witness g)
    (fun s => on_curve (pt s X Y)) (fun s => True).
Proof.
  intros g Hv. assert (V1 := Hv X ltac:(cbn; auto)). assert (V2 := Hv Y ltac:(cbn; auto)). constructor.
  - intros v Ho Hd. exact (Hv v Hd Ho).
  - intros s s' E. unfold pt. rewrite !E by (cbn; auto). auto.
  - unfold g, isoncurve_constraints. cbn [isoncurve_new fst ic_X ic_Y ic_xx ic_yy].
    repeat (apply cs_all_cons; split; [unfold c_all; cbn; repeat split; first [right; auto; fail|left; lia|idtac]|]). constructor.
  - auto.
  - intros s H1. eexists. split; [reflexivity|]. split.
    + intros v Hv'. unfold g. cbn [isoncurve_new fst ic_X ic_Y ic_xx ic_yy]. updsimp. reflexivity.
    + apply isoncurve_sat_iff. unfold g, pt. cbn [isoncurve_new fst ic_X ic_Y ic_xx ic_yy]. updsimp. auto.
Qed.

(** *** ConditionalPoint *)
Lemma condpt_sat_iff X Y b n s bit :
  let g := fst (condpt_new X Y b n) in s b = b2F bit ->
  (sat s (condpt_constraints g) <-> pt s n (n + 1)%nat = if bit then pt s X Y else pzero).
Proof.
  cbn zeta. intros Hb. unfold condpt_constraints. cbn [condpt_new fst cp_x1 cp_y1 cp_x2 cp_y2 cp_bit].
  rewrite !sat_cons. unfold holds. cbn [cA cB cC ev L1]. rewrite Hb. unfold pt, pzero. destruct bit; cbn [b2F].
  - split.
    + intros (E1 & E2 & _). f_equal; [rewrite <- E1; ring|].
      transitivity (s (n + 1)%nat - F1 + F1); [ring|]. rewrite <- E2. ring.
    + intros E. pose proof (f_equal px E) as E1. pose proof (f_equal py E) as E2. cbn [px py] in E1, E2. rewrite E1, E2.
      split; [ring|]. split; [ring|constructor].
  - split.
    + intros (E1 & E2 & _). f_equal; [rewrite <- E1; ring|].
      transitivity (s (n + 1)%nat - F1 + F0 + F1); [ring|]. rewrite <- E2. ring.
    + intros E. pose proof (f_equal px E) as E1. pose proof (f_equal py E) as E2. cbn [px py] in E1, E2. rewrite E1, E2.
      split; [ring|]. split; [ring|constructor].
Qed.

Lemma condpt_gok X Y b n bit :
  let g := fst (condpt_new X Y b n) in
  (forall v, In v [X; Y; b] -> ~ (n <= v < n + 2)%nat) ->
  gok (fun v => n <= v < n + 2)%nat (fun v => In v [X; Y; b]) (condpt_constraints g) (condpt_witness g)
    (fun s => s b = b2F bit) (fun s => pt s n (n + 1)%nat = if bit then pt s X Y else pzero).
Proof.
  intros g Hv. assert (V1 := Hv X ltac:(cbn; auto)). assert (V2 := Hv Y ltac:(cbn; auto)). assert (V3 := Hv b ltac:(cbn; auto)). constructor.
  - intros v Ho Hd. exact (Hv v Hd Ho).
  - intros s s' E. rewrite !E by (cbn; auto). auto.
  - unfold g, condpt_constraints. cbn [condpt_new fst cp_x1 cp_y1 cp_x2 cp_y2 cp_bit].
    repeat (apply cs_all_cons; split; [unfold c_all; cbn; repeat split; first [right; auto; fail|left; lia|idtac]|]). constructor.
  - intros s Hb. apply (condpt_sat_iff X Y b n s bit Hb).
  - intros s Hb. eexists. split; [reflexivity|]. split.
    + intros v Hv'. unfold g. cbn [condpt_new fst cp_x1 cp_y1 cp_x2 cp_y2 cp_bit]. updsimp. reflexivity.
    + unfold g. apply (condpt_sat_iff X Y b n _ bit).
      * cbn [condpt_new fst cp_x1 cp_y1 cp_x2 cp_y2 cp_bit]. updsimp. exact Hb.
      * unfold pt. cbn [condpt_new fst cp_x1 cp_y1 cp_x2 cp_y2 cp_bit]. updsimp. rewrite Hb. destruct bit; cbn [b2F].
        -- destruct (Feqb_spec F1 F0) as [E|_]; [destruct (F1_neq_0 E)|]. apply point_eq; cbn [px py]; ring.
        -- rewrite Feqb_refl. unfold pzero. apply point_eq; cbn [px py]; ring.
Qed.
