(** Property theorems C20-C27 (Baby-JubJub in Edwards form and its gadgets). *)
From Coq Require Import List NArith ZArith Bool Arith.
From Verif Require Import Primes Field Base R1CS R1CSFacts M_Point M_Jubjub Spec_Curve Q_Jubjub.
Import ListNotations.
Local Open Scope F_scope.

(** ** C20 *)
Theorem C20_edwards_addition_complete : forall P Q, on_curve P -> on_curve Q ->
  (exists R, ed_add P Q = Ok R /\ on_curve R) /\ (exists R, ed_dbl P = Ok R /\ on_curve R).
Proof. exact ed_complete_lemma. Qed.
Print Assumptions C20_edwards_addition_complete.
Example C20_example : on_curve (mkpt jj_Gx jj_Gy) /\ on_curve (padd (mkpt jj_Gx jj_Gy) (mkpt jj_Gx jj_Gy)) /\ mkpt jj_Gx jj_Gy <> mkpt F0 F1.
Proof.
  split; [exact exG_on|]. split; [apply P_Curve.padd_closed; exact exG_on|].
  intros H. apply (f_equal px) in H. apply (f_equal fval) in H. vm_compute in H. discriminate.
Qed.

(** ** C21 *)
Theorem C21_edwards_commutative_group : forall P Q R, on_curve P -> on_curve Q -> on_curve R ->
  ed_add P Q = ed_add Q P /\
  (x <- ed_add P Q ;; ed_add x R) = (y <- ed_add Q R ;; ed_add P y) /\
  on_curve ed_infinity /\ ed_add P ed_infinity = Ok P /\ ed_add ed_infinity P = Ok P /\
  on_curve (ed_neg P) /\ ed_add P (ed_neg P) = Ok ed_infinity /\
  ed_dbl P = ed_add P P.
Proof. exact ed_group_lemma. Qed.
Print Assumptions C21_edwards_commutative_group.
(** three different points: the generator, its double and its eightfold *)
Example C21_example : on_curve exG /\ on_curve exG2 /\ on_curve exG8 /\ exG <> exG2 /\ exG2 <> exG8.
Proof.
  split; [exact exG_on|]. split; [unfold on_curve; apply Feqb_true; vm_compute; reflexivity|].
  split; [unfold on_curve; apply Feqb_true; vm_compute; reflexivity|].
  split; intros H; apply (f_equal px) in H; apply (f_equal fval) in H; vm_compute in H; discriminate.
Qed.

(** ** C22 *)
Theorem C22_point_adder : forall X1 Y1 X2 Y2 n, (X1 < n)%nat -> (Y1 < n)%nat -> (X2 < n)%nat -> (Y2 < n)%nat ->
  exists g n', adder_new X1 Y1 X2 Y2 n = (g, n') /\ (n <= ad_X3 g < n')%nat /\ (n <= ad_Y3 g < n')%nat /\
   forall s : assign, on_curve (mkpt (s X1) (s Y1)) -> on_curve (mkpt (s X2) (s Y2)) ->
     let sum := padd (mkpt (s X1) (s Y1)) (mkpt (s X2) (s Y2)) in
     (* the sum is the only possible result *)
     (sat s (adder_constraints g) -> mkpt (s (ad_X3 g)) (s (ad_Y3 g)) = sum) /\
     (* the sum is a possible result *)
     (mkpt (s (ad_X3 g)) (s (ad_Y3 g)) = sum ->
        exists s', (forall v, v = ad_X3 g \/ v = ad_Y3 g \/ (v < n)%nat \/ (n' <= v)%nat -> s' v = s v) /\ sat s' (adder_constraints g)) /\
     exists s', adder_witness g s = Ok s' /\ frame n n' s s' /\ sat s' (adder_constraints g).
Proof. exact adder_lemma. Qed.
Print Assumptions C22_point_adder.
Theorem C22_point_doubler : forall X1 Y1 n, (X1 < n)%nat -> (Y1 < n)%nat ->
  exists g n', doubler_new X1 Y1 n = (g, n') /\ (n <= db_X3 g < n')%nat /\ (n <= db_Y3 g < n')%nat /\
   forall s : assign, on_curve (mkpt (s X1) (s Y1)) ->
     let dbl := padd (mkpt (s X1) (s Y1)) (mkpt (s X1) (s Y1)) in
     (sat s (doubler_constraints g) -> mkpt (s (db_X3 g)) (s (db_Y3 g)) = dbl) /\
     (mkpt (s (db_X3 g)) (s (db_Y3 g)) = dbl ->
        exists s', (forall v, v = db_X3 g \/ v = db_Y3 g \/ (v < n)%nat \/ (n' <= v)%nat -> s' v = s v) /\ sat s' (doubler_constraints g)) /\
     exists s', doubler_witness g s = Ok s' /\ frame n n' s s' /\ sat s' (doubler_constraints g).
Proof. exact doubler_lemma. Qed.
Print Assumptions C22_point_doubler.
Example C22_example : let s : assign := fun v => nth v [px exG; py exG; px exG2; py exG2] F0 in
  on_curve (mkpt (s 0%nat) (s 1%nat)) /\ on_curve (mkpt (s 2%nat) (s 3%nat)) /\
  padd (mkpt (s 0%nat) (s 1%nat)) (mkpt (s 0%nat) (s 1%nat)) = mkpt (s 2%nat) (s 3%nat).
Proof.
  split; [exact exG_on|]. split; [unfold on_curve; apply Feqb_true; vm_compute; reflexivity|]. symmetry. exact exG2_eq.
Qed.

(** ** C23 *)
Theorem C23_is_on_curve : forall X Y n, (X < n)%nat -> (Y < n)%nat ->
  exists g n', isoncurve_new X Y n = (g, n') /\
   (forall s : assign, sat s (isoncurve_constraints g) -> on_curve (mkpt (s X) (s Y))) /\
   (forall s : assign, exists s', isoncurve_witness g s = Ok s' /\ frame n n' s s' /\
      (sat s' (isoncurve_constraints g) <-> on_curve (mkpt (s X) (s Y)))).
Proof. exact isoncurve_lemma. Qed.
Print Assumptions C23_is_on_curve.
Example C23_example : on_curve exG /\ ~ on_curve (mkpt (Fof 2) (Fof 3)).
Proof. split; [exact exG_on|]. unfold on_curve. intros H. apply Feqb_true in H. vm_compute in H. discriminate. Qed.

(** ** C24 *)
Theorem C24_point_validator : forall X Y n, (X < n)%nat -> (Y < n)%nat ->
  exists g n', validator_new X Y n = (g, n') /\
   (forall s : assign, sat s (validator_constraints g) ->
      on_curve (mkpt (s X) (s Y)) /\ px (smul 8 (mkpt (s X) (s Y))) <> F0 /\ smul 8 (mkpt (s X) (s Y)) <> pzero) /\
   (forall s : assign, on_curve (mkpt (s X) (s Y)) -> px (smul 8 (mkpt (s X) (s Y))) <> F0 ->
      exists s', validator_witness g s = Ok s' /\ frame n n' s s' /\ sat s' (validator_constraints g)).
Proof. exact validator_lemma. Qed.
Print Assumptions C24_point_validator.
Example C24_example : on_curve exG /\ px (smul 8 exG) <> F0.
Proof. split; [exact exG_on|exact exG_notlow]. Qed.

(** ** C25 *)
Theorem C25_scalar_mult : forall X1 Y1 scalar n,
  (1 < length scalar)%nat -> (X1 < n)%nat -> (Y1 < n)%nat -> Forall (fun v => v < n)%nat scalar ->
  exists g n' rx ry, scalarmult_new X1 Y1 scalar n = Ok (g, n') /\ scalarmult_result g = Ok (rx, ry) /\
    cs_all (fun v => v < n')%nat (scalarmult_constraints g) /\
    forall (s : assign) (bits : list bool), on_curve (mkpt (s X1) (s Y1)) -> map s scalar = map b2F bits ->
      (sat s (scalarmult_constraints g) -> mkpt (s rx) (s ry) = smul (bits_N bits) (mkpt (s X1) (s Y1))) /\
      exists s', scalarmult_witness g s = Ok s' /\ frame n n' s s' /\ sat s' (scalarmult_constraints g).
Proof. exact scalarmult_lemma. Qed.
Print Assumptions C25_scalar_mult.
Theorem C25_scalar_mult_short : forall X1 Y1 scalar n, (length scalar <= 1)%nat -> scalarmult_new X1 Y1 scalar n = Abort.
Proof. exact scalarmult_short_lemma. Qed.
Print Assumptions C25_scalar_mult_short.
(** scalar 8 = 0001b little-endian *)
Example C25_example : let s : assign := fun v => nth v [px exG; py exG; F0; F0; F0; F1] F0 in
  let bits := [false; false; false; true] in
  (1 < length [2; 3; 4; 5])%nat /\ Forall (fun v => v < 6)%nat [2; 3; 4; 5]%nat /\
  on_curve (mkpt (s 0%nat) (s 1%nat)) /\ map s [2; 3; 4; 5]%nat = map b2F bits /\
  smul (bits_N bits) (mkpt (s 0%nat) (s 1%nat)) = exG8.
Proof.
  cbn zeta. split; [cbn; repeat constructor|]. split; [repeat constructor|]. split; [exact exG_on|]. split; [reflexivity|]. exact exG_smul8.
Qed.

(** ** C26 *)
Theorem C26_fixed_base_mul : forall base scalar n,
  on_curve base -> (length scalar mod 2 = 0)%nat -> (4 <= length scalar)%nat -> Forall (fun v => v < n)%nat scalar ->
  exists g n' rx ry cs, fbm_new base scalar n = Ok (g, n') /\ fbm_result g = Ok (rx, ry) /\ fbm_constraints g = Ok cs /\
    cs_all (fun v => v < n')%nat cs /\
    forall (s : assign) (bits : list bool), map s scalar = map b2F bits ->
      (sat s cs -> mkpt (s rx) (s ry) = smul (bits_N bits) base) /\
      exists s', fbm_witness g s = Ok s' /\ frame n n' s s' /\ sat s' cs.
Proof. exact fixed_base_mul_lemma. Qed.
Print Assumptions C26_fixed_base_mul.
Theorem C26_two_bit_scalar_is_ub : forall base b0 b1 n, on_curve base ->
  exists g n', fbm_new base [b0; b1] n = Ok (g, n') /\ fbm_result g = UB.
Proof. exact fixed_base_mul_2bits_lemma. Qed.
Print Assumptions C26_two_bit_scalar_is_ub.
Theorem C26_odd_scalar_aborts : forall base scalar n, (length scalar mod 2 = 1)%nat -> fbm_new base scalar n = Abort.
Proof. exact fixed_base_mul_odd_lemma. Qed.
Print Assumptions C26_odd_scalar_aborts.
Example C26_example : let s : assign := fun v => nth v [F0; F0; F0; F1] F0 in
  let bits := [false; false; false; true] in
  on_curve exG /\ (length [0; 1; 2; 3] mod 2 = 0)%nat /\ (4 <= length [0; 1; 2; 3])%nat /\ Forall (fun v => v < 4)%nat [0; 1; 2; 3]%nat /\
  map s [0; 1; 2; 3]%nat = map b2F bits /\ smul (bits_N bits) exG = exG8.
Proof.
  cbn zeta. split; [exact exG_on|]. split; [reflexivity|]. split; [repeat constructor|]. split; [repeat constructor|]. split; [reflexivity|]. exact exG_smul8.
Qed.

(** ** C27 *)
Theorem C27_commitment : forall (points : list point) (scalars : list (list var)) n,
  (2 <= length points)%nat -> length scalars = length points -> Forall on_curve points ->
  Forall (fun sc => length sc mod 2 = 0 /\ 4 <= length sc /\ Forall (fun v => v < n) sc)%nat scalars ->
  exists g n' rx ry cs, commitment_new points scalars n = Ok (g, n') /\ commitment_result g = Ok (rx, ry) /\
    commitment_constraints g = Ok cs /\ cs_all (fun v => v < n')%nat cs /\
    forall (s : assign) (bits : list (list bool)), Forall2 (fun sc bs => map s sc = map b2F bs) scalars bits ->
      (sat s cs -> mkpt (s rx) (s ry) =
         fold_right padd pzero (map (fun pb => smul (bits_N (snd pb)) (fst pb)) (combine points bits))) /\
      exists s', commitment_witness g s = Ok s' /\ frame n n' s s' /\ sat s' cs.
Proof. exact commitment_lemma. Qed.
Print Assumptions C27_commitment.
Example C27_example : let s : assign := fun v => nth v [F0; F0; F0; F1; F1; F0; F0; F0] F0 in
  let points := [exG; exG2] in let scalars := [[0; 1; 2; 3]; [4; 5; 6; 7]]%nat in
  let bits := [[false; false; false; true]; [true; false; false; false]] in
  (2 <= length points)%nat /\ length scalars = length points /\ Forall on_curve points /\
  Forall (fun sc => length sc mod 2 = 0 /\ 4 <= length sc /\ Forall (fun v => v < 8) sc)%nat scalars /\
  Forall2 (fun sc bs => map s sc = map b2F bs) scalars bits.
Proof.
  cbn zeta. split; [repeat constructor|]. split; [reflexivity|].
  split; [constructor; [exact exG_on|constructor; [unfold on_curve; apply Feqb_true; vm_compute; reflexivity|constructor]]|].
  split; repeat (constructor; try reflexivity).
Qed.
