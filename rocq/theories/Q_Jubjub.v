(** Final statements about the Edwards curve and its gadgets. *)
From Coq Require Import List NArith ZArith Bool Arith Lia.
From Coq.setoid_ring Require Import Field_tac.
From Verif Require Import Field Base R1CS R1CSFacts Gadget Gadget2 M_Lookup P_Lookup M_Bits M_Point M_Jubjub Spec_Curve P_Curve P_JubLeaf P_Group P_Chain P_ScalarMult P_Poseidon P_Fbm P_Commit.
Import ListNotations.
Local Open Scope F_scope.

(** *** C20, C21 *)
Lemma ed_complete_lemma P Q : on_curve P -> on_curve Q ->
  (exists R, ed_add P Q = Ok R /\ on_curve R) /\ (exists R, ed_dbl P = Ok R /\ on_curve R).
Proof.
  intros HP HQ. split; [exists (padd P Q)|exists (padd P P)]; split; try (apply padd_closed; assumption).
  - exact (ed_add_ok P Q HP HQ).
  - unfold ed_dbl. exact (ed_add_ok P P HP HP).
Qed.

Lemma ed_group_lemma P Q R : on_curve P -> on_curve Q -> on_curve R ->
  ed_add P Q = ed_add Q P /\
  (x <- ed_add P Q ;; ed_add x R) = (y <- ed_add Q R ;; ed_add P y) /\
  on_curve ed_infinity /\ ed_add P ed_infinity = Ok P /\ ed_add ed_infinity P = Ok P /\
  on_curve (ed_neg P) /\ ed_add P (ed_neg P) = Ok ed_infinity /\
  ed_dbl P = ed_add P P.
Proof.
  intros HP HQ HR. assert (Hi : on_curve ed_infinity) by exact pzero_on. assert (Hn : on_curve (ed_neg P)) by exact (pneg_on P HP).
  rewrite (ed_add_ok P Q HP HQ), (ed_add_ok Q P HQ HP), (ed_add_ok Q R HQ HR), (ed_add_ok P ed_infinity HP Hi), (ed_add_ok ed_infinity P Hi HP), (ed_add_ok P (ed_neg P) HP Hn), (ed_add_ok P P HP HP).
  cbn [obind]. rewrite (ed_add_ok (padd P Q) R), (ed_add_ok P (padd Q R)) by auto using padd_closed.
  split; [f_equal; apply padd_comm|]. split; [f_equal; now apply padd_assoc|]. split; [exact Hi|].
  split; [f_equal; apply padd_0_r|]. split; [f_equal; apply padd_0_l|]. split; [exact Hn|].
  split; [f_equal; now apply padd_neg_r|]. unfold ed_dbl. exact (ed_add_ok P P HP HP).
Qed.

(** *** C22 *)
Lemma adder_lemma X1 Y1 X2 Y2 n : (X1 < n)%nat -> (Y1 < n)%nat -> (X2 < n)%nat -> (Y2 < n)%nat ->
  exists g n', adder_new X1 Y1 X2 Y2 n = (g, n') /\ (n <= ad_X3 g < n')%nat /\ (n <= ad_Y3 g < n')%nat /\
   forall s : assign, on_curve (mkpt (s X1) (s Y1)) -> on_curve (mkpt (s X2) (s Y2)) ->
     let sum := padd (mkpt (s X1) (s Y1)) (mkpt (s X2) (s Y2)) in
     (* the sum is the only possible result *)
     (sat s (adder_constraints g) -> mkpt (s (ad_X3 g)) (s (ad_Y3 g)) = sum) /\
     (* the sum is a possible result *)
     (mkpt (s (ad_X3 g)) (s (ad_Y3 g)) = sum ->
        exists s', (forall v, v = ad_X3 g \/ v = ad_Y3 g \/ (v < n)%nat \/ (n' <= v)%nat -> s' v = s v) /\ sat s' (adder_constraints g)) /\
     exists s', adder_witness g s = Ok s' /\ frame n n' s s' /\ sat s' (adder_constraints g).
Proof.
  intros H1 H2 H3 H4. exists (fst (adder_new X1 Y1 X2 Y2 n)), (n + 7)%nat. split; [reflexivity|].
  split; [cbn; lia|]. split; [cbn; lia|]. intros s C1 C2 sum.
  assert (Hv : forall v, In v [X1; Y1; X2; Y2] -> ~ (n <= v < n + 7)%nat) by (cbn; intros v [<-|[<-|[<-|[<-|[]]]]]; lia).
  destruct (adder_witness_ok X1 Y1 X2 Y2 n s Hv C1 C2) as (s1 & W & Hf & Hs).
  split; [|split].
  - intros Hsat. exact (proj2 (proj1 (adder_sat_iff (fst (adder_new X1 Y1 X2 Y2 n)) s C1 C2) Hsat)).
  - intros E. exists s1. split; [|exact Hs]. intros v Hv'.
    assert (E1 : mkpt (s1 (n + 5)%nat) (s1 (n + 6)%nat) = sum).
    { pose proof (adder_sat_iff (fst (adder_new X1 Y1 X2 Y2 n)) s1) as I. unfold pt in I.
      cbn [adder_new fst ad_X1 ad_Y1 ad_X2 ad_Y2 ad_X3 ad_Y3] in I. rewrite !Hf in I by lia. exact (proj2 (proj1 (I C1 C2) Hs)). }
    rewrite <- E in E1. cbn [adder_new fst ad_X3 ad_Y3] in *. pose proof (f_equal px E1) as Ex. pose proof (f_equal py E1) as Ey. cbn [px py] in Ex, Ey.
    destruct Hv' as [-> | [-> | Hv']]; [exact Ex|exact Ey|]. apply Hf. lia.
  - exists s1. split; [exact W|]. split; [|exact Hs]. intros v Hv'. apply Hf. lia.
Qed.

Lemma doubler_lemma X1 Y1 n : (X1 < n)%nat -> (Y1 < n)%nat ->
  exists g n', doubler_new X1 Y1 n = (g, n') /\ (n <= db_X3 g < n')%nat /\ (n <= db_Y3 g < n')%nat /\
   forall s : assign, on_curve (mkpt (s X1) (s Y1)) ->
     let dbl := padd (mkpt (s X1) (s Y1)) (mkpt (s X1) (s Y1)) in
     (sat s (doubler_constraints g) -> mkpt (s (db_X3 g)) (s (db_Y3 g)) = dbl) /\
     (mkpt (s (db_X3 g)) (s (db_Y3 g)) = dbl ->
        exists s', (forall v, v = db_X3 g \/ v = db_Y3 g \/ (v < n)%nat \/ (n' <= v)%nat -> s' v = s v) /\ sat s' (doubler_constraints g)) /\
     exists s', doubler_witness g s = Ok s' /\ frame n n' s s' /\ sat s' (doubler_constraints g).
Proof.
  intros H1 H2. exists (fst (doubler_new X1 Y1 n)), (n + 6)%nat. split; [reflexivity|].
  split; [cbn; lia|]. split; [cbn; lia|]. intros s C1 dbl.
  assert (Hv : forall v, In v [X1; Y1] -> ~ (n <= v < n + 6)%nat) by (cbn; intros v [<-|[<-|[]]]; lia).
  destruct (doubler_witness_ok X1 Y1 n s Hv C1) as (s1 & W & Hf & Hs).
  split; [|split].
  - intros Hsat. exact (proj2 (proj1 (doubler_sat_iff (fst (doubler_new X1 Y1 n)) s C1) Hsat)).
  - intros E. exists s1. split; [|exact Hs]. intros v Hv'.
    assert (E1 : mkpt (s1 (n + 4)%nat) (s1 (n + 5)%nat) = dbl).
    { pose proof (doubler_sat_iff (fst (doubler_new X1 Y1 n)) s1) as I. unfold pt in I.
      cbn [doubler_new fst db_X1 db_Y1 db_X3 db_Y3] in I. rewrite !Hf in I by lia. exact (proj2 (proj1 (I C1) Hs)). }
    rewrite <- E in E1. cbn [doubler_new fst db_X3 db_Y3] in *. pose proof (f_equal px E1) as Ex. pose proof (f_equal py E1) as Ey. cbn [px py] in Ex, Ey.
    destruct Hv' as [-> | [-> | Hv']]; [exact Ex|exact Ey|]. apply Hf. lia.
  - exists s1. split; [exact W|]. split; [|exact Hs]. intros v Hv'. apply Hf. lia.
Qed.

(** *** C23 *)
Lemma isoncurve_lemma X Y n : (X < n)%nat -> (Y < n)%nat ->
  exists g n', isoncurve_new X Y n = (g, n') /\
   (forall s : assign, sat s (isoncurve_constraints g) -> on_curve (mkpt (s X) (s Y))) /\
   (forall s : assign, exists s', isoncurve_witness g s = Ok s' /\ frame n n' s s' /\
      (sat s' (isoncurve_constraints g) <-> on_curve (mkpt (s X) (s Y)))).
Proof.
  intros HX HY. exists (fst (isoncurve_new X Y n)), (n + 2)%nat. split; [reflexivity|]. split.
  - intros s Hs. apply (proj1 (isoncurve_sat_iff X Y n s)) in Hs. apply Hs.
  - intros s. eexists. split; [reflexivity|]. split.
    + intros v Hv. cbn [isoncurve_new fst ic_X ic_Y ic_xx ic_yy]. updsimp. reflexivity.
    + pose proof (isoncurve_sat_iff X Y n (upd (upd s n (s X * s X)) (n + 1) (s Y * s Y))) as I. unfold pt in I.
      cbn [isoncurve_new fst ic_X ic_Y ic_xx ic_yy] in *. rewrite !(upd_other _ _ _ X), !(upd_other _ _ _ Y) in I by lia.
      rewrite upd_same, upd_other, upd_same in I by lia. rewrite I. tauto.
Qed.

(** *** C24 *)
Lemma smul_8 P : on_curve P -> smul 8 P = (let P2 := padd P P in let P4 := padd P2 P2 in padd P4 P4).
Proof.
  intros H. cbn zeta. change 8%N with (2 * (2 * 2))%N. rewrite !smul_mul by auto using smul_on. now rewrite !smul_2.
Qed.

Lemma isnonzero_gok x n : (x < n)%nat ->
  let g := fst (isnonzero_new x n) in
  gok (fun v => n <= v < n + 2)%nat (fun v => v = x) (isnonzero_constraints g) (fun s => Ok (isnonzero_witness g s))
    (fun s => True) (fun s => s n = (if Feqb (s x) F0 then F0 else F1)).
Proof.
  intros Hx g. constructor.
  - intros v H ->. lia.
  - auto.
  - unfold g, isnonzero_constraints, boolean_c. cbn [isnonzero_new fst inz_X inz_Y inz_M].
    repeat (apply cs_all_cons; split; [unfold c_all; cbn; repeat split; first [right; auto; fail|left; lia|idtac]|]). constructor.
  - intros s _ Hs. pose proof (isnonzero_sat x n s) as H. cbn in H. specialize (H Hs).
    destruct H as [[E1 E2]|[E1 E2]]; unfold isnonzero_result in E2; cbn in E2.
    + rewrite E1, Feqb_refl. exact E2.
    + destruct (Feqb_spec (s x) F0); [contradiction|exact E2].
  - intros s _. eexists. split; [reflexivity|]. pose proof (isnonzero_complete x n s Hx) as H. cbn in H. destruct H as [H1 H2].
    split; [|exact H1]. intros v Hv. apply H2. lia.
Qed.

Lemma notloworder_gok X Y n : (X < n)%nat -> (Y < n)%nat ->
  let g := fst (notloworder_new X Y n) in
  (forall s, on_curve (pt s X Y) -> sat s (notloworder_constraints g) -> px (smul 8 (pt s X Y)) <> F0) /\
  gok (fun v => n <= v < n + 20)%nat (fun v => v = X \/ v = Y) (notloworder_constraints g) (notloworder_witness g)
    (fun s => on_curve (pt s X Y) /\ px (smul 8 (pt s X Y)) <> F0) (fun s => True).
Proof.
  intros HX HY g.
  set (d2 := fst (doubler_new X Y n)). set (d4 := fst (doubler_new (n + 4) (n + 5) (n + 6))%nat).
  set (d8 := fst (doubler_new (n + 10) (n + 11) (n + 12))%nat). set (nz := fst (isnonzero_new (n + 16) (n + 18))%nat).
  assert (Eg : g = {| nl_d2 := d2; nl_d4 := d4; nl_d8 := d8; nl_nz := nz |}).
  { unfold g, notloworder_new. cbn [doubler_new isnonzero_new fst db_X3 db_Y3]. unfold d2, d4, d8, nz. cbn [doubler_new isnonzero_new fst].
    replace (n + 6 + 4)%nat with (n + 10)%nat by lia. replace (n + 6 + 5)%nat with (n + 11)%nat by lia.
    replace (n + 6 + 6)%nat with (n + 12)%nat by lia. replace (n + 12 + 4)%nat with (n + 16)%nat by lia. replace (n + 12 + 6)%nat with (n + 18)%nat by lia. reflexivity. }
  assert (G2 : gok (fun v => n <= v < n + 6)%nat (fun v => In v [X; Y]) (doubler_constraints d2) (doubler_witness d2)
     (fun s => on_curve (pt s X Y)) (fun s => pt s (n + 4)%nat (n + 5)%nat = padd (pt s X Y) (pt s X Y))).
  { apply doubler_gok. cbn. intros v [<-|[<-|[]]]; lia. }
  assert (G4 : gok (fun v => n + 6 <= v < n + 6 + 6)%nat (fun v => In v [n + 4; n + 5]%nat) (doubler_constraints d4) (doubler_witness d4)
     (fun s => on_curve (pt s (n + 4)%nat (n + 5)%nat)) (fun s => pt s (n + 6 + 4)%nat (n + 6 + 5)%nat = padd (pt s (n + 4)%nat (n + 5)%nat) (pt s (n + 4)%nat (n + 5)%nat))).
  { apply doubler_gok. cbn. intros v [<-|[<-|[]]]; lia. }
  assert (G8 : gok (fun v => n + 12 <= v < n + 12 + 6)%nat (fun v => In v [n + 10; n + 11]%nat) (doubler_constraints d8) (doubler_witness d8)
     (fun s => on_curve (pt s (n + 10)%nat (n + 11)%nat)) (fun s => pt s (n + 12 + 4)%nat (n + 12 + 5)%nat = padd (pt s (n + 10)%nat (n + 11)%nat) (pt s (n + 10)%nat (n + 11)%nat))).
  { apply doubler_gok. cbn. intros v [<-|[<-|[]]]; lia. }
  assert (GZ : gok (fun v => n + 18 <= v < n + 18 + 2)%nat (fun v => v = n + 16)%nat (isnonzero_constraints nz) (fun s => Ok (isnonzero_witness nz s))
     (fun s => True) (fun s => s (n + 18)%nat = (if Feqb (s (n + 16)%nat) F0 then F0 else F1))).
  { apply isnonzero_gok. lia. }
  replace (n + 6 + 4)%nat with (n + 10)%nat in G4 by lia. replace (n + 6 + 5)%nat with (n + 11)%nat in G4 by lia.
  replace (n + 12 + 4)%nat with (n + 16)%nat in G8 by lia. replace (n + 12 + 5)%nat with (n + 17)%nat in G8 by lia.
  rewrite Eg. unfold notloworder_constraints, notloworder_witness. cbn [nl_d2 nl_d4 nl_d8 nl_nz].
  change (isnonzero_result nz) with (n + 18)%nat.
  split.
  - intros s Hon Hsat. rewrite !sat_app in Hsat. destruct Hsat as (S2 & S4 & S8 & SZ & SF).
    pose proof (k_sound G2 s Hon S2) as E2. cbn beta in E2.
    assert (O2 : on_curve (pt s (n + 4)%nat (n + 5)%nat)) by (rewrite E2; now apply padd_closed).
    pose proof (k_sound G4 s O2 S4) as E4. cbn beta in E4.
    assert (O4 : on_curve (pt s (n + 10)%nat (n + 11)%nat)) by (rewrite E4; now apply padd_closed).
    pose proof (k_sound G8 s O4 S8) as E8. cbn beta in E8.
    pose proof (k_sound GZ s I SZ) as EZ. cbn beta in EZ.
    apply sat_cons in SF. destruct SF as [SF _]. unfold holds in SF. cbn [cA cB cC ev L1] in SF.
    rewrite smul_8 by exact Hon. cbn zeta. rewrite <- E2, <- E4, <- E8. cbn [pt px].
    intros E0. rewrite E0, Feqb_refl in EZ. rewrite EZ in SF. apply F1_neq_0. rewrite <- SF. ring.
  - eapply gok_ext.
    2:{ intros s. symmetry. exact (eq_refl (obind (doubler_witness d2 s) (fun s => obind (doubler_witness d4 s) (fun s => obind (doubler_witness d8 s) (fun s => Ok (isnonzero_witness nz s)))))). }
    set (PX := fun s => px (smul 8 (pt s X Y)) <> F0).
    eapply gok_weaken with (own := fun v => (n <= v < n + 20)%nat) (dep := fun v => In v [X; Y]) (pre := fun s => on_curve (pt s X Y) /\ PX s) (R := fun s => True).
    2: reflexivity.
    2:{ cbn. intros v [<-|[<-|[]]]; auto. }
    2:{ intros v Hv [-> | ->]; lia. }
    2:{ intros s s' E. unfold pt, PX. rewrite !(E X), !(E Y) by auto. auto. }
    2: auto. 2: auto.
    assert (SP : forall s s' : assign, (forall v, In v [X; Y] -> s' v = s v) -> pt s' X Y = pt s X Y) by (intros s s' E; apply pt_ext; apply E; cbn; auto).
    constructor.
    + intros v Hv [<-|[<-|[]]]; lia.
    + intros s s' E [A1 A2]. unfold PX. rewrite (SP s s' E). auto.
    + rewrite !cs_all_app. repeat split.
      * eapply cs_all_impl; [|exact (k_scope G2)]. cbn beta. intros v [Hv|Hv]; [left; lia|right; exact Hv].
      * eapply cs_all_impl; [|exact (k_scope G4)]. cbn. intros v Hv; left; lia.
      * eapply cs_all_impl; [|exact (k_scope G8)]. cbn. intros v Hv; left; lia.
      * eapply cs_all_impl; [|exact (k_scope GZ)]. cbn. intros v Hv; left; lia.
      * apply cs_all_cons; split; [unfold c_all; cbn; repeat split; left; lia|constructor].
    + auto.
    + intros s [Hon Hpx].
      destruct (k_run _ _ _ _ _ _ _ G2 Hon) as (s2 & W2 & F2 & S2 & _ & E2).
      assert (P2 : pt s2 X Y = pt s X Y) by (apply pt_ext; apply F2; lia). rewrite P2 in E2.
      assert (O2 : on_curve (pt s2 (n + 4)%nat (n + 5)%nat)) by (rewrite E2; now apply padd_closed).
      destruct (k_run _ _ _ _ _ _ _ G4 O2) as (s4 & W4 & F4 & S4 & _ & E4).
      assert (P4 : pt s4 (n + 4)%nat (n + 5)%nat = pt s2 (n + 4)%nat (n + 5)%nat) by (apply pt_ext; apply F4; lia). rewrite P4 in E4.
      assert (O4 : on_curve (pt s4 (n + 10)%nat (n + 11)%nat)) by (rewrite E4; now apply padd_closed).
      destruct (k_run _ _ _ _ _ _ _ G8 O4) as (s8 & W8 & F8 & S8 & _ & E8).
      assert (P8 : pt s8 (n + 10)%nat (n + 11)%nat = pt s4 (n + 10)%nat (n + 11)%nat) by (apply pt_ext; apply F8; lia). rewrite P8 in E8.
      destruct (k_run _ _ _ _ _ _ s8 GZ I) as (sz & WZ & FZ & SZ & _ & EZ).
      exists sz. rewrite W2. cbn [obind]. rewrite W4. cbn [obind]. rewrite W8. cbn [obind]. split; [exact WZ|]. split.
      * intros v Hv. rewrite FZ, F8, F4, F2 by lia. reflexivity.
      * rewrite !sat_app. repeat split.
        -- eapply sat_ext; [exact (k_scope G2)| |exact S2]. cbn beta. intros v Hv. symmetry.
           assert (v < n + 6)%nat by (destruct Hv as [Hv|Hv]; [lia|cbn in Hv; destruct Hv as [<-|[<-|[]]]; lia]).
           rewrite FZ, F8, F4 by lia. reflexivity.
        -- eapply sat_ext; [exact (k_scope G4)| |exact S4]. cbn. intros v Hv. symmetry. rewrite FZ, F8 by lia. reflexivity.
        -- eapply sat_ext; [exact (k_scope G8)| |exact S8]. cbn. intros v Hv. symmetry. rewrite FZ by lia. reflexivity.
        -- exact SZ.
        -- apply sat_cons. split; [|constructor]. unfold holds. cbn [cA cB cC ev L1]. rewrite EZ.
           assert (N : sz (n + 16)%nat <> F0).
           { rewrite FZ by lia. intros E0. apply Hpx. rewrite smul_8 by exact Hon. cbn zeta. rewrite <- E2, <- E4, <- E8. exact E0. }
           destruct (Feqb_spec (sz (n + 16)%nat) F0); [contradiction|]. ring.
Qed.

Lemma validator_lemma X Y n : (X < n)%nat -> (Y < n)%nat ->
  exists g n', validator_new X Y n = (g, n') /\
   (forall s : assign, sat s (validator_constraints g) ->
      on_curve (mkpt (s X) (s Y)) /\ px (smul 8 (mkpt (s X) (s Y))) <> F0 /\ smul 8 (mkpt (s X) (s Y)) <> pzero) /\
   (forall s : assign, on_curve (mkpt (s X) (s Y)) -> px (smul 8 (mkpt (s X) (s Y))) <> F0 ->
      exists s', validator_witness g s = Ok s' /\ frame n n' s s' /\ sat s' (validator_constraints g)).
Proof.
  intros HX HY.
  set (g := {| pv_nl := fst (notloworder_new X Y n); pv_ic := fst (isoncurve_new X Y (n + 20)) |}).
  assert (En : validator_new X Y n = (g, n + 22)%nat).
  { unfold validator_new, g, notloworder_new. cbn [doubler_new isnonzero_new isoncurve_new fst db_X3 db_Y3].
    replace (S (S (n + 6 + 6 + 6))) with (n + 20)%nat by lia. f_equal. lia. }
  destruct (notloworder_gok X Y n HX HY) as [SN GN].
  assert (GI : gok (fun v => n + 20 <= v < n + 20 + 2)%nat (fun v => In v [X; Y]) (isoncurve_constraints (pv_ic g)) (isoncurve_witness (pv_ic g))
    (fun s => on_curve (pt s X Y)) (fun s => True)).
  { apply isoncurve_gok. cbn. intros v [<-|[<-|[]]]; lia. }
  exists g, (n + 22)%nat. split; [exact En|]. split.
  - intros s Hs. unfold validator_constraints in Hs. apply sat_app in Hs. destruct Hs as [S1 S2].
    pose proof (proj1 (isoncurve_sat_iff X Y (n + 20)%nat s) S1) as (_ & _ & Hon). split; [exact Hon|].
    pose proof (SN s Hon S2) as Hp. split; [exact Hp|]. intros E. apply Hp. unfold pt in *. rewrite E. reflexivity.
  - intros s Hon Hp. destruct (k_run _ _ _ _ _ _ s GI Hon) as (s1 & W1 & F1' & S1 & _ & _).
    assert (E : pt s1 X Y = pt s X Y) by (apply pt_ext; apply F1'; lia).
    destruct (k_run _ _ _ _ _ _ s1 GN) as (s2 & W2 & F2 & S2 & _ & _); [rewrite E; split; assumption|].
    exists s2. unfold validator_witness. rewrite W1. cbn [obind]. split; [exact W2|]. split.
    + intros v Hv. rewrite F2, F1' by lia. reflexivity.
    + unfold validator_constraints. apply sat_app. split; [|exact S2]. eapply sat_ext; [exact (k_scope GI)| |exact S1].
      cbn beta. intros v Hv. symmetry. apply F2. destruct Hv as [Hv|Hv]; [lia|cbn in Hv; destruct Hv as [<-|[<-|[]]]; lia].
Qed.

(** *** C25 *)
Lemma scalarmult_lemma X1 Y1 scalar n :
  (1 < length scalar)%nat -> (X1 < n)%nat -> (Y1 < n)%nat -> Forall (fun v => v < n)%nat scalar ->
  exists g n' rx ry, scalarmult_new X1 Y1 scalar n = Ok (g, n') /\ scalarmult_result g = Ok (rx, ry) /\
    cs_all (fun v => v < n')%nat (scalarmult_constraints g) /\
    forall (s : assign) (bits : list bool), on_curve (mkpt (s X1) (s Y1)) -> map s scalar = map b2F bits ->
      (sat s (scalarmult_constraints g) -> mkpt (s rx) (s ry) = smul (bits_N bits) (mkpt (s X1) (s Y1))) /\
      exists s', scalarmult_witness g s = Ok s' /\ frame n n' s s' /\ sat s' (scalarmult_constraints g).
Proof.
  intros HL HX HY Hsc. set (L := length scalar).
  exists (fst (sm_state X1 Y1 n scalar (L - 1))), (n + 2 + 15 * (L - 1))%nat, (sm_B n (L - 1) + 13)%nat, (sm_B n (L - 1) + 14)%nat.
  assert (HL1 : (1 < L)%nat) by exact HL.
  assert (HG : forall bits, length bits = length scalar -> _) by (intros bits Hb; exact (scalarmult_gok X1 Y1 scalar n bits HL Hb HX HY Hsc)).
  split; [rewrite scalarmult_new_closed by assumption; reflexivity|]. split.
  { unfold scalarmult_result, sm_state. cbn [fst sm_adds]. replace (L - 1)%nat with (S (L - 2)) by lia. rewrite back_map_seq. cbn [obind].
    unfold sm_add, chain_add. cbn [adder_new fst ad_X3 ad_Y3]. replace (1 + (L - 2))%nat with (S (L - 2)) by lia. do 2 f_equal; lia. }
  split.
  { destruct (HG (repeat false (length scalar)) (repeat_length _ _)) as [_ _ Hscope _ _]. cbn beta zeta in Hscope. fold L in Hscope.
    eapply cs_all_impl; [|exact Hscope]. cbn. intros; lia. }
  intros s bits Hon Hb. assert (Hlb : length bits = length scalar) by (rewrite <- (map_length b2F), <- Hb; apply map_length).
  pose proof (HG bits Hlb) as G. cbn zeta in G. fold L in G. split.
  - intros Hs. exact (k_sound G s (conj Hon Hb) Hs).
  - destruct (k_complete G s (conj Hon Hb)) as (s' & W & Hf & S). exists s'. split; [exact W|]. split; [|exact S].
    intros v Hv. apply Hf. lia.
Qed.

Lemma scalarmult_short_lemma X1 Y1 scalar n : (length scalar <= 1)%nat -> scalarmult_new X1 Y1 scalar n = Abort.
Proof. intros H. unfold scalarmult_new. destruct (Nat.ltb_spec 1 (length scalar)); [lia|reflexivity]. Qed.

(** *** C26 *)
Lemma fixed_base_mul_lemma base scalar n :
  on_curve base -> (length scalar mod 2 = 0)%nat -> (4 <= length scalar)%nat -> Forall (fun v => v < n)%nat scalar ->
  exists g n' rx ry cs, fbm_new base scalar n = Ok (g, n') /\ fbm_result g = Ok (rx, ry) /\ fbm_constraints g = Ok cs /\
    cs_all (fun v => v < n')%nat cs /\
    forall (s : assign) (bits : list bool), map s scalar = map b2F bits ->
      (sat s cs -> mkpt (s rx) (s ry) = smul (bits_N bits) base) /\
      exists s', fbm_witness g s = Ok s' /\ frame n n' s s' /\ sat s' cs.
Proof.
  intros Hb He HL Hsc. set (W := (length scalar / 2)%nat).
  assert (HW : (2 <= W)%nat) by (pose proof (even_half _ He); unfold W; lia).
  exists (fb_gadget base scalar n), (fb_end n W), (fb_A n W (W - 1) + 5)%nat, (fb_A n W (W - 1) + 6)%nat, (fb_cs (fb_gadget base scalar n)).
  assert (HG : forall bits, length bits = length scalar -> _) by (intros bits Hbs; exact (fbm_gok base scalar n bits Hb He HL Hbs Hsc)).
  split; [now apply fbm_new_closed|]. split.
  { unfold fbm_result, fb_gadget. cbn [fb_adds]. fold W. replace (W - 1)%nat with (S (W - 2)) by lia. rewrite back_map_seq. cbn [obind].
    unfold chain_add. cbn [adder_new fst ad_X3 ad_Y3]. replace (1 + (W - 2))%nat with (S (W - 2)) by lia. reflexivity. }
  destruct (HG (repeat false (length scalar)) (repeat_length _ _)) as [Ec [_ _ Hscope _ _]]. split; [exact Ec|]. split.
  { eapply cs_all_impl; [|exact Hscope]. cbn beta. intros v [Hv|Hv]; [unfold W; lia|]. rewrite Forall_forall in Hsc. specialize (Hsc v Hv). unfold fb_end. lia. }
  intros s bits Hbits. assert (Hlb : length bits = length scalar) by (rewrite <- (map_length b2F), <- Hbits; apply map_length).
  destruct (HG bits Hlb) as [_ G]. split.
  - intros Hs. exact (k_sound G s Hbits Hs).
  - destruct (k_complete G s Hbits) as (s' & W' & Hf & S). exists s'. split; [exact W'|]. split; [|exact S].
    intros v Hv. apply Hf. fold W. lia.
Qed.

(** a scalar of two bits passes the assertion, but there is no adder to take the result from *)
Lemma fixed_base_mul_2bits_lemma base b0 b1 n : on_curve base ->
  exists g n', fbm_new base [b0; b1] n = Ok (g, n') /\ fbm_result g = UB.
Proof.
  intros Hb. exists (fb_gadget base [b0; b1] n), (fb_end n 1). split; [exact (fbm_new_closed base [b0; b1] n Hb eq_refl)|]. reflexivity.
Qed.
Lemma fixed_base_mul_odd_lemma base scalar n : (length scalar mod 2 = 1)%nat -> fbm_new base scalar n = Abort.
Proof. intros H. unfold fbm_new. rewrite H. reflexivity. Qed.

(** *** C27 *)
Lemma commitment_lemma (points : list point) (scalars : list (list var)) n :
  (2 <= length points)%nat -> length scalars = length points -> Forall on_curve points ->
  Forall (fun sc => length sc mod 2 = 0 /\ 4 <= length sc /\ Forall (fun v => v < n) sc)%nat scalars ->
  exists g n' rx ry cs, commitment_new points scalars n = Ok (g, n') /\ commitment_result g = Ok (rx, ry) /\
    commitment_constraints g = Ok cs /\ cs_all (fun v => v < n')%nat cs /\
    forall (s : assign) (bits : list (list bool)), Forall2 (fun sc bs => map s sc = map b2F bs) scalars bits ->
      (sat s cs -> mkpt (s rx) (s ry) =
         fold_right padd pzero (map (fun pb => smul (bits_N (snd pb)) (fst pb)) (combine points bits))) /\
      exists s', commitment_witness g s = Ok s' /\ frame n n' s s' /\ sat s' cs.
Proof.
  intros HK Hlen Hpts Hsc.
  assert (Hp : forall i, (i < length points)%nat -> on_curve (nth i points pzero)).
  { intros i Hi. rewrite Forall_forall in Hpts. apply Hpts, nth_In, Hi. }
  assert (Hs : forall i, (i < length points)%nat -> good_scalar n (nth i scalars [])).
  { intros i Hi. rewrite Forall_forall in Hsc. apply Hsc, nth_In. now rewrite Hlen. }
  set (K := length points).
  exists (fst (cm_state points scalars n K)), (cm_M scalars n K), (cm_A scalars n (K - 1) + 5)%nat, (cm_A scalars n (K - 1) + 6)%nat, (cm_cs (fst (cm_state points scalars n K))).
  assert (HG : forall bits : list (list bool), (forall i, (i < length points)%nat -> length (nth i bits []) = length (nth i scalars [])) -> _)
    by (intros bits Hb; exact (commitment_gok points scalars n Hp Hlen Hs bits HK Hb)).
  split; [rewrite (commitment_new_closed points scalars n Hp Hlen Hs HK); reflexivity|]. split.
  { unfold commitment_result, cm_state. cbn [fst cm_adds]. assert (2 <= K)%nat by exact HK. replace (K - 1)%nat with (S (K - 2)) by lia. rewrite back_map_seq. cbn [obind].
    unfold chain_add. cbn [adder_new fst ad_X3 ad_Y3]. replace (1 + (K - 2))%nat with (S (K - 2)) by lia. reflexivity. }
  destruct (HG (map (fun sc => repeat false (length sc)) scalars)) as [Ec [_ _ Hscope _ _]].
  { intros i Hi. rewrite (nth_indep _ [] (repeat false (length (@nil var)))) by (rewrite map_length; lia).
    rewrite (map_nth (fun sc : list var => repeat false (length sc))). apply repeat_length. }
  split; [exact Ec|]. split.
  { eapply cs_all_impl; [|exact Hscope]. cbn beta. intros v [Hv|(i & Hi & Hv)]; [fold K in Hv; lia|].
    destruct (Hs i Hi) as (_ & _ & H). rewrite Forall_forall in H. specialize (H v Hv).
    pose proof (cm_M_le scalars n 0 K ltac:(lia)) as HM. cbn [cm_M] in HM. lia. }
  intros s bits HF.
  assert (Hlb : length bits = length scalars) by (clear -HF; induction HF; cbn; congruence).
  assert (Hb : forall i, (i < length points)%nat -> map s (nth i scalars []) = map b2F (nth i bits [])).
  { assert (forall i, (i < length scalars)%nat -> map s (nth i scalars []) = map b2F (nth i bits [])).
    { clear -HF. induction HF; intros [|i] Hi; cbn in *; try lia; [exact H|apply IHHF; lia]. }
    intros i Hi. apply H. now rewrite Hlen. }
  destruct (HG bits) as [_ G].
  { intros i Hi. rewrite <- (map_length b2F), <- Hb by exact Hi. apply map_length. }
  assert (ES : fold_right padd pzero (map (fun pb => smul (bits_N (snd pb)) (fst pb)) (combine points bits)) =
     psum (map (fun i => smul (bits_N (nth i bits [])) (nth i points pzero)) (seq 0 K))).
  { unfold psum. f_equal. unfold K. assert (Hl2 : length bits = length points) by congruence. clear -Hl2.
    revert bits Hl2. induction points as [|x l IH]; intros [|b bits] Hl; cbn [length] in *; try discriminate; [reflexivity|].
    cbn [combine map seq nth fst snd]. f_equal. rewrite IH by congruence. rewrite <- seq_shift, map_map. reflexivity. }
  rewrite ES. split.
  - intros Hsat. exact (k_sound G s Hb Hsat).
  - destruct (k_complete G s Hb) as (s' & W' & Hf & S). exists s'. split; [exact W'|]. split; [|exact S].
    intros v Hv. apply Hf. fold K. lia.
Qed.

(** *** concrete curve points used in the examples *)
Definition exG : point := mkpt jj_Gx jj_Gy.
Definition exG2 : point := (mkpt (Fof 17324563846726889236817837922625232543153115346355010501047597319863650987830)
    (Fof 20022170825455209233733649024450576091402881793145646502279487074566492066831)).
Definition exG4 : point := (mkpt (Fof 3319134467327838892242282581065647627392741625699997741597868808889985014067)
    (Fof 14491680315471636907755602413083290121075139985873852266585959448729481987981)).
Definition exG8 : point := (mkpt (Fof 18605436726092546150136095330823666376421016744521990126760589971663129373748)
    (Fof 14395586271040730416694493618727007962632338525061240597393943930456454136836)).
Lemma exG_on : on_curve exG.
Proof. unfold on_curve. apply Feqb_true. vm_compute. reflexivity. Qed.
Lemma exG2_eq : exG2 = padd exG exG.
Proof. apply padd_val; [exact exG_on|exact exG_on|]. split; apply Feqb_true; vm_compute; reflexivity. Qed.
Lemma exG4_eq : exG4 = padd exG2 exG2.
Proof.
  assert (H : on_curve exG2) by (rewrite exG2_eq; apply padd_closed; exact exG_on).
  apply padd_val; [exact H|exact H|]. split; apply Feqb_true; vm_compute; reflexivity.
Qed.
Lemma exG8_eq : exG8 = padd exG4 exG4.
Proof.
  assert (H : on_curve exG4) by (rewrite exG4_eq, exG2_eq; apply padd_closed; apply padd_closed; exact exG_on).
  apply padd_val; [exact H|exact H|]. split; apply Feqb_true; vm_compute; reflexivity.
Qed.
Lemma exG_smul8 : smul 8 exG = exG8.
Proof. rewrite smul_8 by exact exG_on. cbn zeta. now rewrite <- exG2_eq, <- exG4_eq, <- exG8_eq. Qed.
Lemma exG_notlow : px (smul 8 exG) <> F0.
Proof. rewrite exG_smul8. intros H. apply (f_equal fval) in H. vm_compute in H. discriminate. Qed.
