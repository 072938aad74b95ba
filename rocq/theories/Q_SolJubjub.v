(** Final lemmas about the JubJub and EdDSA contracts. *)
From Coq Require Import List ZArith Znumtheory NArith Bool Arith Lia Field Ring.
From Verif Require Import Pocklington Primes Field Base M_Point Spec_Curve Spec_Mont Spec_CurveOrder Spec_Basepoint P_Curve P_Group P_Zmul Q_Jubjub P_Order P_CurveOrder Q_CurveOrder M_Evm M_SolJubjub Spec_SolJubjub P_SolJubjub P_SolNaf.
Import ListNotations.
Local Open Scope Z_scope.

Lemma sol_pointAdd_lemma P Q : on_curve (aff P) -> on_curve (aff Q) -> sol_pointAdd P Q = coords (padd (aff P) (aff Q)).
Proof. apply pointAdd_ok. Qed.
Lemma sol_pointDouble_lemma P : on_curve (aff P) -> sol_pointDouble P = coords (padd (aff P) (aff P)).
Proof. apply pointDouble_ok. Qed.
Lemma sol_scalarMult_lemma x y v : is_word v -> on_curve (aff (x, y)) -> sol_scalarMult x y v = Ok (coords (pzmul v (aff (x, y)))).
Proof. apply scalarMult_ok. Qed.
Lemma sol_naf_lemma x y v : is_word v -> 0 <= x < sol_Q -> on_curve (aff (x, y)) ->
  sol_scalarMultNAF x y v = if (v =? 0) || (2 ^ 255 <=? v) then Throw else Ok (coords (pzmul v (aff (x, y)))).
Proof. apply naf_total. Qed.

Lemma aff_coords P : aff (coords P) = P.
Proof. destruct P as [x y]. unfold aff, coords. cbn [px py fst snd]. now rewrite !Fof_fval. Qed.
Lemma coords_inj P Q : coords P = coords Q -> P = Q.
Proof. intros E. rewrite <- (aff_coords P), E. apply aff_coords. Qed.

(** (0, 0) is not a point *)
Lemma zero_not_on : ~ on_curve (aff (0, 0)).
Proof. unfold on_curve, aff. cbn [px py fst snd]. intros E. apply F1_neq_0. change (Fof 0) with F0 in E. transitivity (F1 + Fof 168696 * (F0 * F0) * (F0 * F0))%F; [ring|]. rewrite <- E. ring. Qed.
Lemma sol_naf5_zero_lemma x y v : 0 < v <= 2 ^ 254 -> v mod 2 = 0 \/ 15 < v ->
  sol_scalarMultNAF5 x y v = Ok (0, 0) /\ ~ on_curve (aff (0, 0)).
Proof. intros H1 H2. split; [now apply naf5_zero|exact zero_not_on]. Qed.
Lemma sol_naf5_odd_lemma x y k : on_curve (aff (x, y)) -> In k [5; 7; 9; 11; 13; 15] ->
  sol_scalarMultNAF5 x y k = Ok (coords (pzmul ((k + 3) / 2) (aff (x, y)))).
Proof.
  intros HP Hk. assert (K : In k [1; 3; 5; 7; 9; 11; 13; 15]) by (cbn [In] in *; tauto).
  rewrite (naf5_odd x y k HP K). replace (k <=? 3) with false by (symmetry; apply Z.leb_gt; cbn [In] in Hk; lia). reflexivity.
Qed.
Lemma sol_naf5_ok_lemma x y k : on_curve (aff (x, y)) -> In k [0; 1; 3] ->
  sol_scalarMultNAF5 x y k = Ok (coords (pzmul k (aff (x, y)))).
Proof.
  intros HP Hk. destruct (Z.eq_dec k 0) as [->|Hne].
  - unfold sol_scalarMultNAF5. assert (E : wnafSequence 0 5 (fun _ => 0) = Ok (255, fun _ => 0)) by reflexivity.
    cbv zeta. rewrite E. cbn [obind].
    rewrite (owhile_step _ _ 255 _ (256, 256, jj_etecDouble etec_identity)); [|reflexivity|apply naf5_body_skip; [lia|reflexivity]].
    rewrite owhile_stop by reflexivity. cbn [obind].
    rewrite (rep_toPoint _ pzero); [reflexivity|].
    rewrite <- (padd_0_l pzero). apply rep_double; [apply pzero_on|apply rep_identity].
  - assert (K : In k [1; 3; 5; 7; 9; 11; 13; 15]) by (cbn [In] in *; intuition lia).
    rewrite (naf5_odd x y k HP K). replace (k <=? 3) with true by (symmetry; apply Z.leb_le; cbn [In] in Hk; lia). reflexivity.
Qed.

(** ** the generator of the contract *)
Lemma solG_on : on_curve solG.
Proof. apply fval_inj. vm_compute. reflexivity. Qed.
Definition solG8 : point := aff (11863189187260637960846485547235618533465842666253988577689634961457615716914, 11916763955632918581445419448161170380922041742717994722843633176679963999681).
Definition solG4 : point := aff (19663403691729413828469651303642208597527185746307373565245352677693140099787, 10039021272026187034945400455086617514441895746258871655943858687877061850190).
Definition solG2 : point := aff (11777464331258161808174820135792881545741016954182491808810054638825402301586, 232034414327135700844593039910132414908905737223595268698869626775462506056).
Lemma padd_check P Q R : on_curve P -> on_curve Q ->
  (px R * (F1 + Fof 168696 * (px P * px Q) * (py P * py Q)) = px P * py Q + py P * px Q)%F ->
  (py R * (F1 - Fof 168696 * (px P * px Q) * (py P * py Q)) = py P * py Q - Fof 168700 * (px P * px Q))%F ->
  padd P Q = R.
Proof.
  intros HP HQ H1 H2. destruct (padd_denom P Q HP HQ) as [D1 D2]. apply point_eq; unfold padd; cbn [px py]; cbv zeta.
  - rewrite <- H1. field. exact D1.
  - rewrite <- H2. field. exact D2.
Qed.
Lemma solG8_on : on_curve solG8.
Proof. apply fval_inj. vm_compute. reflexivity. Qed.
Lemma solG8_dbl : padd solG8 solG8 = solG4.
Proof. apply padd_check; [exact solG8_on..| |]; apply fval_inj; vm_compute; reflexivity. Qed.
Lemma solG4_dbl : padd solG4 solG4 = solG2.
Proof. apply padd_check; [rewrite <- solG8_dbl; apply padd_closed; exact solG8_on..| |]; apply fval_inj; vm_compute; reflexivity. Qed.
Lemma solG4_on : on_curve solG4.
Proof. rewrite <- solG8_dbl. apply padd_closed; exact solG8_on. Qed.
Lemma solG2_on : on_curve solG2.
Proof. rewrite <- solG4_dbl. apply padd_closed; exact solG4_on. Qed.
Lemma solG2_dbl : padd solG2 solG2 = solG.
Proof. apply padd_check; [exact solG2_on..| |]; apply fval_inj; vm_compute; reflexivity. Qed.
Lemma pzmul_2 P : pzmul 2 P = padd P P.
Proof. cbn [pzmul]. apply smul_2. Qed.
Lemma solG_L : pzmul ord_L solG = pzero.
Proof.
  rewrite <- (curve_exponent_lemma solG8 solG8_on). rewrite Z.mul_comm, pzmul_mul by exact solG8_on. apply (f_equal (pzmul ord_L)).
  change 8 with (2 * (2 * 2)). rewrite !(pzmul_mul 2) by exact solG8_on. now rewrite (pzmul_2 solG8), solG8_dbl, (pzmul_2 solG4), solG4_dbl, (pzmul_2 solG2), solG2_dbl.
Qed.
Lemma solG_nz : solG <> pzero.
Proof. intros E. apply (f_equal (fun P => fval (px P))) in E. vm_compute in E. discriminate. Qed.
Lemma solG_order_lemma : exact_order ord_L solG.
Proof. intros z. apply prime_order; [exact ord_L_prime|exact solG_on|exact solG_nz|exact solG_L]. Qed.

(** ** EdDSA *)
Section Eddsa.
  Variable sha256 : list Z -> Z.
  Hypothesis Hsha : forall l, is_word (sha256 l).

  Lemma sol_HashToInt_ok l : sol_HashToInt sha256 l = sha256 l mod 2 ^ 250.
  Proof. unfold sol_HashToInt, wand. cbv zeta. change 1809251394333065553493296640760748560207343510400633813116524750123642650623 with (Z.ones 250). now rewrite Z.land_ones by lia. Qed.
  Lemma sol_challenge_word R A m : is_word (sol_challenge sha256 R A m).
  Proof. unfold sol_challenge, is_word, wsize. pose proof (Z.mod_pos_bound (sha256 (be_bytes 32 (fst R) ++ be_bytes 32 (snd R) ++ be_bytes 32 (fst A) ++ be_bytes 32 (snd A) ++ be_bytes 32 m)) (2 ^ 250) ltac:(lia)). lia. Qed.

  Lemma sol_eddsa_in A m R s : is_word s -> on_curve (aff A) ->
    exists b, sol_eddsa_Verify sha256 A m R s = Ok b /\ (b = true <-> pzmul s solG = pzmul (sol_challenge sha256 R A m) (aff A)).
  Proof.
    intros Hs HA. unfold sol_eddsa_Verify. rewrite (sol_scalarMult_lemma sol_Gx sol_Gy s Hs solG_on). cbn [obind]. cbv zeta.
    rewrite sol_HashToInt_ok. fold (sol_challenge sha256 R A m). destruct A as [ax ay]. cbn [fst snd] in *.
    rewrite (sol_scalarMult_lemma ax ay _ (sol_challenge_word R (ax, ay) m) HA). cbn [obind].
    eexists. split; [reflexivity|]. rewrite andb_true_iff, !Z.eqb_eq. fold solG. split.
    - intros [E1 E2]. apply coords_inj. destruct (coords (pzmul s solG)), (coords (pzmul (sol_challenge sha256 R (ax, ay) m) (aff (ax, ay)))). cbn [fst snd] in *. congruence.
    - intros ->. split; reflexivity.
  Qed.
End Eddsa.

Lemma sol_eddsa_lemma sha256 A m R s : is_word s -> on_curve (aff A) ->
  exists b, sol_eddsa_Verify sha256 A m R s = Ok b /\ (b = true <-> pzmul s solG = pzmul (sol_challenge sha256 R A m) (aff A)).
Proof. apply sol_eddsa_in. Qed.

Lemma sol_eddsa_signed_lemma sha256 A m R s : is_word s -> on_curve (aff A) -> on_curve (aff R) ->
  pzmul s solG = padd (aff R) (pzmul (sol_challenge sha256 R A m) (aff A)) ->
  (sol_eddsa_Verify sha256 A m R s = Ok true <-> aff R = pzero).
Proof.
  intros Hs HA HR E. destruct (sol_eddsa_lemma sha256 A m R s Hs HA) as (b & Hb & Eb). rewrite Hb, E in *. split.
  - intros K. injection K as ->. pose proof (proj1 Eb eq_refl) as E2. rewrite padd_comm in E2.
    apply (padd_cancel_l (pzmul (sol_challenge sha256 R A m) (aff A))); auto using pzmul_on, pzero_on. now rewrite padd_0_r.
  - intros K. f_equal. apply Eb. rewrite K. apply padd_0_l.
Qed.

Lemma sol_eddsa_leak_lemma sha256 a m R s : is_word s ->
  sol_eddsa_Verify sha256 (coords (pzmul a solG)) m R s = Ok true ->
  (ord_L | s - sol_challenge sha256 R (coords (pzmul a solG)) m * a).
Proof.
  intros Hs E. set (A := coords (pzmul a solG)) in *.
  assert (EA : aff A = pzmul a solG) by apply aff_coords.
  destruct (sol_eddsa_lemma sha256 A m R s Hs) as (b & Hb & Eb). { rewrite EA. apply pzmul_on, solG_on. }
  rewrite E in Hb. injection Hb as <-. pose proof (proj1 Eb eq_refl) as K. rewrite EA, <- pzmul_mul in K by exact solG_on.
  apply solG_order_lemma. rewrite pzmul_sub, K by exact solG_on. apply padd_neg_r. apply pzmul_on, solG_on.
Qed.

(** a signature made as the scheme says: with nonce r *)
Lemma sol_eddsa_honest_lemma sha256 a r m s : is_word s -> ~ (ord_L | r) ->
  (ord_L | s - (r + sol_challenge sha256 (coords (pzmul r solG)) (coords (pzmul a solG)) m * a)) ->
  sol_eddsa_Verify sha256 (coords (pzmul a solG)) m (coords (pzmul r solG)) s = Ok false.
Proof.
  intros Hs Hr Hd. destruct (sol_eddsa_lemma sha256 (coords (pzmul a solG)) m (coords (pzmul r solG)) s Hs) as (b & Hb & _).
  { rewrite aff_coords. apply pzmul_on, solG_on. }
  destruct b; [|assumption]. exfalso. apply Hr.
  pose proof (sol_eddsa_leak_lemma sha256 a m (coords (pzmul r solG)) s Hs Hb) as K.
  set (t := sol_challenge _ _ _ _) in *. replace r with ((s - t * a) - (s - (r + t * a))) by ring. now apply Z.divide_sub_r.
Qed.

Lemma sol_eddsa_refuted_lemma : exists sha256 A m R s, (forall l, is_word (sha256 l)) /\ is_word s /\ on_curve (aff A) /\ on_curve (aff R) /\
  pzmul s solG = padd (aff R) (pzmul (sol_challenge sha256 R A m) (aff A)) /\
  sol_eddsa_Verify sha256 A m R s = Ok false.
Proof.
  exists (fun _ => 0), (coords solG), 0, (coords solG), 1. split; [intros l; split; reflexivity|].
  split; [split; [discriminate|reflexivity]|]. rewrite !aff_coords. split; [exact solG_on|]. split; [exact solG_on|].
  assert (E1 : pzmul 1 solG = solG) by (cbn [pzmul]; apply smul_1).
  split; [change (sol_challenge (fun _ => 0) (coords solG) (coords solG) 0) with 0; cbn [pzmul]; rewrite smul_1, padd_0_r; reflexivity|].
  pose proof (sol_eddsa_honest_lemma (fun _ => 0) 1 1 0 1) as K. rewrite E1 in K. apply K; [split; [discriminate|reflexivity]| |].
  - intros D. apply Z.divide_1_r_nonneg in D; [vm_compute in D; discriminate|vm_compute; discriminate].
  - exists 0. change (sol_challenge (fun _ => 0) (coords solG) (coords solG) 0) with 0. reflexivity.
Qed.

Lemma naf5_refuted_lemma : exists x y v, 0 <= x < sol_Q /\ on_curve (aff (x, y)) /\ 0 < v < 2 ^ 250 /\
  sol_scalarMultNAF5 x y v <> Ok (coords (pzmul v (aff (x, y)))).
Proof.
  exists sol_Gx, sol_Gy, 2. split; [split; [discriminate|reflexivity]|]. split; [exact solG_on|]. split; [lia|].
  destruct (sol_naf5_zero_lemma sol_Gx sol_Gy 2) as [-> K]; [lia|now left|]. 
  pose proof (pzmul_on 2 _ solG_on) as O. fold solG. revert O. generalize (pzmul 2 solG). intros X O E. apply K.
  replace (0, 0) with (coords X) by (symmetry; congruence). now rewrite aff_coords.
Qed.
