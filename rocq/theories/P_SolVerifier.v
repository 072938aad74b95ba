(** Facts about the Solidity verifier. *)
From Coq Require Import List ZArith Bool Lia.
From Verif Require Import Field Base FieldQ Primes M_Point M_Groth Spec_Groth P_Groth3 M_Evm M_SolVerifier Spec_SolVerifier.
Import ListNotations.
Local Open Scope Z_scope.

Section Facts.
Variables (E : pairing) (S1 : G1 E -> Prop) (S2 : G2 E -> Prop).
Hypothesis L : pairing_laws E S1 S2.
Variable C : codec E.
Hypothesis EC : eip_codec E S1 S2 C.
Notation neg g := (g1_sub E (g1_zero E) g).

Lemma zero_in : S1 (g1_zero E).
Proof using L. apply (l1_zero _ _ _ L). Qed.
Lemma neg_in : forall g, S1 g -> S1 (neg g).
Proof using L. intros. apply (l1_subin _ _ _ L); [exact zero_in|assumption]. Qed.
Lemma neg_add : forall g, S1 g -> g1_add E (neg g) g = g1_zero E.
Proof using L. intros. apply (l1_sub _ _ _ L); [exact zero_in|assumption]. Qed.
Lemma add_cancel : forall x y z, S1 x -> S1 y -> S1 z -> g1_add E x z = g1_add E y z -> x = y.
Proof using L.
  intros x y z Hx Hy Hz H.
  assert (K : forall w, S1 w -> w = g1_add E (g1_add E w z) (neg z)).
  { intros w Hw. rewrite <- (l1_assoc _ _ _ L) by (assumption || now apply neg_in).
    rewrite (l1_comm _ _ _ L z) by (assumption || now apply neg_in). rewrite neg_add by assumption.
    symmetry. apply (l1_add0 _ _ _ L). exact Hw. }
  rewrite (K x Hx), (K y Hy), H. reflexivity.
Qed.
Lemma neg_neg : forall g, S1 g -> neg (neg g) = g.
Proof using L.
  intros g Hg. apply (add_cancel _ _ (neg g)); try assumption; try (now repeat apply neg_in).
  rewrite neg_add by now apply neg_in. rewrite (l1_comm _ _ _ L) by (assumption || now apply neg_in).
  symmetry. now apply neg_add.
Qed.
Lemma neg_zero : neg (g1_zero E) = g1_zero E.
Proof using L.
  apply (add_cancel _ _ (g1_zero E)); try exact zero_in; [apply neg_in; exact zero_in|].
  rewrite neg_add by exact zero_in. symmetry. apply (l1_add0 _ _ _ L). exact zero_in.
Qed.

(** ** the target group *)
Lemma gt_one_r : forall x, gt_mul E x (gt_one E) = x.
Proof using L. intros. unfold gt_one. rewrite (lt_assoc _ _ _ L). apply (lt_inv _ _ _ L). Qed.
Lemma gt_one_l : forall x, gt_mul E (gt_one E) x = x.
Proof using L. intros. rewrite (lt_comm _ _ _ L). apply gt_one_r. Qed.
Lemma gt_rcancel : forall x y z, gt_mul E x z = gt_mul E y z -> x = y.
Proof using L. intros x y z H. rewrite <- (lt_inv _ _ _ L z x), <- (lt_inv _ _ _ L z y), H. reflexivity. Qed.
Lemma pair_zero : forall Q, S2 Q -> pair E (g1_zero E) Q = gt_one E.
Proof using L.
  intros Q HQ. apply (gt_rcancel _ _ (pair E (g1_zero E) Q)). rewrite gt_one_l.
  rewrite <- (lp_add _ _ _ L) by (assumption || exact zero_in). rewrite (l1_add0 _ _ _ L) by exact zero_in. reflexivity.
Qed.
Lemma pair_neg : forall g Q, S1 g -> S2 Q -> gt_mul E (pair E (neg g) Q) (pair E g Q) = gt_one E.
Proof using L.
  intros g Q Hg HQ. rewrite <- (lp_add _ _ _ L) by (assumption || now apply neg_in).
  rewrite neg_add by assumption. now apply pair_zero.
Qed.
Lemma step : forall u n e v, gt_mul E n e = gt_one E -> gt_mul E (gt_mul E u n) (gt_mul E e v) = gt_mul E u v.
Proof using L.
  intros u n e v H. rewrite (lt_assoc _ _ _ L). rewrite <- (lt_assoc _ _ _ L u n e). rewrite H, gt_one_r. reflexivity.
Qed.
Lemma product_one : forall a na nx nc al x c,
  gt_mul E na al = gt_one E -> gt_mul E nx x = gt_one E -> gt_mul E nc c = gt_one E ->
  gt_mul E (gt_mul E (gt_mul E a na) nx) nc = gt_one E <-> a = gt_mul E al (gt_mul E x c).
Proof using L.
  intros a na nx nc al x c Ha Hx Hc.
  set (P := gt_mul E (gt_mul E (gt_mul E a na) nx) nc).
  assert (T : gt_mul E al (gt_mul E x c) = gt_mul E c (gt_mul E x (gt_mul E al (gt_one E)))).
  { rewrite gt_one_r. rewrite (lt_comm _ _ _ L c). rewrite <- (lt_assoc _ _ _ L). rewrite (lt_comm _ _ _ L x (gt_mul E al c)).
    rewrite <- (lt_assoc _ _ _ L). rewrite (lt_comm _ _ _ L c x). reflexivity. }
  assert (K : gt_mul E P (gt_mul E al (gt_mul E x c)) = a).
  { rewrite T. unfold P. rewrite step by assumption. rewrite step by assumption. rewrite step by assumption. apply gt_one_r. }
  split.
  - intros H. rewrite <- K, H, gt_one_l. reflexivity.
  - intros H. apply (gt_rcancel _ _ (gt_mul E al (gt_mul E x c))). rewrite K, gt_one_l. exact H.
Qed.

(** ** points as words *)
Lemma dec_in : forall x y g, dec1 E C x y = Some g -> S1 g.
Proof using EC. intros x y g H. apply (ec_dec1 _ _ _ _ EC) in H. tauto. Qed.
Lemma dec_enc : forall g, S1 g -> dec1 E C (fst (enc1 E C g)) (snd (enc1 E C g)) = Some g.
Proof using EC.
  intros g Hg. apply (ec_dec1 _ _ _ _ EC). pose proof (ec_range _ _ _ _ EC g Hg). rewrite <- surjective_pairing. tauto.
Qed.
Lemma dec_mod : forall x y g, dec1 E C x y = Some g -> dec1 E C x (y mod q_mod) = Some g.
Proof using EC. intros x y g H. pose proof (proj1 (ec_dec1 _ _ _ _ EC _ _ _) H). rewrite Z.mod_small by lia. exact H. Qed.
Lemma q_pos : 0 < q_mod < wsize.
Proof. split; reflexivity. Qed.
Lemma NegateY_eq : forall y, NegateY y = q_mod - y mod q_mod.
Proof.
  intros y. unfold NegateY, wmod, wsub. change sol_q with q_mod. change (q_mod =? 0) with false. cbv iota.
  apply Z.mod_small. pose proof q_pos. pose proof (Z.mod_pos_bound y q_mod). lia.
Qed.
Lemma neg_dec : forall x y g, dec1 E C x (y mod q_mod) = Some g -> g <> g1_zero E ->
  dec1 E C x (NegateY y) = Some (neg g).
Proof using L EC.
  intros x y g H N. apply (ec_dec1 _ _ _ _ EC) in H. destruct H as [Hx [Hy [Hg He]]].
  apply (ec_dec1 _ _ _ _ EC). rewrite NegateY_eq.
  assert (Y : y mod q_mod <> 0).
  { intros Y. apply N. apply (ec_y0 _ _ _ _ EC g Hg). rewrite He. exact Y. }
  split; [exact Hx|]. split; [lia|]. split; [now apply neg_in|].
  rewrite (ec_neg _ _ _ _ EC) by assumption. rewrite He. reflexivity.
Qed.
Lemma neg_dec_zero : forall x y, dec1 E C x (y mod q_mod) = Some (g1_zero E) -> dec1 E C x (NegateY y) = None.
Proof using L EC.
  intros x y H. apply (ec_dec1 _ _ _ _ EC) in H. destruct H as [Hx [Hy [Hg He]]].
  rewrite (ec_zero _ _ _ _ EC) in He. apply (f_equal snd) in He. cbn [snd] in He.
  destruct (dec1 E C x (NegateY y)) eqn:D; [|reflexivity]. apply (ec_dec1 _ _ _ _ EC) in D. rewrite NegateY_eq in D. lia.
Qed.
Lemma neg_dec_inv : forall x y g', dec1 E C x (NegateY y) = Some g' ->
  g' <> g1_zero E /\ dec1 E C x (y mod q_mod) = Some (neg g').
Proof using L EC.
  intros x y g' H. apply (ec_dec1 _ _ _ _ EC) in H. destruct H as [Hx [Hy [Hg He]]]. rewrite NegateY_eq in *.
  pose proof (Z.mod_pos_bound y q_mod) as B. pose proof q_pos.
  assert (N : g' <> g1_zero E).
  { intros ->. rewrite (ec_zero _ _ _ _ EC) in He. apply (f_equal snd) in He. cbn [snd] in He. lia. }
  split; [exact N|]. apply (ec_dec1 _ _ _ _ EC). split; [exact Hx|]. split; [lia|]. split; [now apply neg_in|].
  rewrite (ec_neg _ _ _ _ EC) by assumption. rewrite He. cbn [fst snd]. f_equal. lia.
Qed.
Lemma neg_nonzero : forall g, S1 g -> g <> g1_zero E -> neg g <> g1_zero E.
Proof using L. intros g Hg N H. apply N. rewrite <- (neg_neg g Hg), H. exact neg_zero. Qed.

(** ** the sum over the inputs *)
Lemma statement_nil : forall g ics, S1 g -> statement_point E g ics [] = g.
Proof using L. intros. unfold statement_point. cbn [combine fold_right]. now apply (l1_add0 _ _ _ L). Qed.
Lemma tail_in : forall ics x, Forall S1 ics ->
  S1 (fold_right (fun '(k, g) acc => g1_add E (g1_mul E k g) acc) (g1_zero E) (combine x ics)).
Proof using L.
  intros ics x H. revert x. induction H as [|g ics Hg H IH]; intros [|k x]; cbn [combine fold_right]; try exact zero_in.
  apply (l1_add _ _ _ L); [now apply (l1_mul _ _ _ L)|apply IH].
Qed.
Lemma statement_in : forall g ics x, S1 g -> Forall S1 ics -> S1 (statement_point E g ics x).
Proof using L. intros. unfold statement_point. apply (l1_add _ _ _ L); [assumption|now apply tail_in]. Qed.
Lemma statement_cons : forall g h ics k x, S1 g -> S1 h -> Forall S1 ics ->
  statement_point E g (h :: ics) (k :: x) = statement_point E (g1_add E g (g1_mul E k h)) ics x.
Proof using L.
  intros. unfold statement_point. cbn [combine fold_right]. apply (l1_assoc _ _ _ L); [assumption|now apply (l1_mul _ _ _ L)|now apply tail_in].
Qed.
Lemma reads_in : forall l gs, reads E C l gs -> Forall S1 gs.
Proof using EC. induction 1; constructor; [eapply dec_in; eassumption|assumption]. Qed.

Lemma sol_idx_nth : forall {A} (l : list A) (n : nat) a, nth_error l n = Some a -> sol_idx l (Z.of_nat n) = Ok a.
Proof.
  intros A l n a H. unfold sol_idx. destruct (Z.ltb_spec (Z.of_nat n) 0); [lia|]. rewrite Nat2Z.id, H. reflexivity.
Qed.
Lemma sol_idx_inv : forall {A} (l : list A) (n : nat) a, sol_idx l (Z.of_nat n) = Ok a -> nth_error l n = Some a.
Proof.
  intros A l n a. unfold sol_idx. destruct (Z.ltb_spec (Z.of_nat n) 0); [lia|]. rewrite Nat2Z.id.
  destruct (nth_error l n); congruence.
Qed.
Lemma nth_error_skipn : forall {A} (l : list A) n k, nth_error (skipn n l) k = nth_error l (n + k).
Proof. intros A l n. revert l. induction n as [|n IH]; intros [|a l] k; cbn [skipn plus nth_error]; try reflexivity; [now destruct k|apply IH]. Qed.
Lemma skipn_two : forall {A} (l : list A) n a b r, skipn n l = a :: b :: r ->
  nth_error l n = Some a /\ nth_error l (S n) = Some b /\ skipn (S (S n)) l = r.
Proof.
  intros A l n a b r H. pose proof (nth_error_skipn l n 0) as H0. pose proof (nth_error_skipn l n 1) as H1. rewrite H in H0, H1.
  cbn [nth_error] in H0, H1. rewrite Nat.add_0_r in H0. rewrite Nat.add_1_r in H1.
  split; [congruence|]. split; [congruence|].
  clear H0 H1. revert l H. induction n as [|n IH]; intros [|c l] H; try discriminate H.
  - destruct l as [|d l]; [discriminate H|]. cbn [skipn] in *. congruence.
  - change (skipn (S (S (S n))) (c :: l)) with (skipn (S (S n)) l). apply IH. exact H.
Qed.

Lemma scalar_eq : sol_scalar_field = p_mod.
Proof. reflexivity. Qed.
Lemma loop_complete : forall inputs pts ics abc m extra acc g,
  Forall (fun s => 0 <= s < p_mod) inputs -> List.length inputs = List.length pts -> reads E C pts ics ->
  skipn m abc = flat_points pts ++ extra -> dec1 E C (fst acc) (snd acc) = Some g ->
  exists acc', vk_x_loop E C abc inputs (Z.of_nat m) acc = Ok acc' /\
    dec1 E C (fst acc') (snd acc') = Some (statement_point E g ics (map Fof inputs)).
Proof using L EC.
  induction inputs as [|s inputs IH]; intros pts ics abc m extra acc g HF Hl HR Hs Hd.
  - exists acc. split; [reflexivity|]. cbn [map]. rewrite statement_nil by (eapply dec_in; eassumption). exact Hd.
  - destruct pts as [|[x y] pts]; [discriminate Hl|]. inversion HR as [|w h pts' ics' Hw HR' E1 E2]; subst. cbn [fst snd] in Hw.
    pose proof (Forall_inv HF) as Hs0. cbv beta in Hs0. apply Forall_inv_tail in HF.
    cbn [flat_points app] in Hs. apply skipn_two in Hs. destruct Hs as [N0 [N1 Sk]].
    cbn [vk_x_loop]. rewrite scalar_eq. rewrite (proj2 (Z.ltb_lt s p_mod)) by lia. cbn [orequire obind].
    rewrite (sol_idx_nth _ _ _ N0). cbn [obind]. replace (Z.of_nat m + 1) with (Z.of_nat (S m)) by lia.
    rewrite (sol_idx_nth _ _ _ N1). cbn [obind]. unfold ecmul. rewrite Hw. cbn [obind].
    pose proof (dec_in _ _ _ Hw) as Ih. pose proof (dec_in _ _ _ Hd) as Ig.
    unfold ecadd. rewrite Hd. rewrite dec_enc by now apply (l1_mul _ _ _ L). cbn [obind].
    replace (Z.of_nat m + 2) with (Z.of_nat (S (S m))) by lia.
    cbn [map]. rewrite statement_cons by (assumption || eapply reads_in; eassumption).
    apply (IH pts ics' abc (S (S m)) extra); try assumption; [cbn [List.length] in Hl; lia|].
    apply dec_enc. apply (l1_add _ _ _ L); [assumption|now apply (l1_mul _ _ _ L)].
Qed.

Lemma loop_sound : forall inputs abc m acc acc',
  vk_x_loop E C abc inputs (Z.of_nat m) acc = Ok acc' ->
  Forall (fun s => s < p_mod) inputs /\
  (inputs = [] /\ acc' = acc \/
   inputs <> [] /\ exists pts ics extra g, skipn m abc = flat_points pts ++ extra /\ List.length inputs = List.length pts /\ reads E C pts ics /\
     dec1 E C (fst acc) (snd acc) = Some g /\
     dec1 E C (fst acc') (snd acc') = Some (statement_point E g ics (map Fof inputs))).
Proof using L EC.
  induction inputs as [|s inputs IH]; intros abc m acc acc' H.
  - split; [constructor|]. left. cbn [vk_x_loop] in H. split; [reflexivity|congruence].
  - cbn [vk_x_loop] in H. rewrite scalar_eq in H.
    destruct (Z.ltb_spec s p_mod) as [Hs|Hs]; [|discriminate H]. cbn [orequire obind] in H.
    destruct (sol_idx abc (Z.of_nat m)) as [m0| | | |] eqn:E0; try discriminate H. cbn [obind] in H.
    replace (Z.of_nat m + 1) with (Z.of_nat (S m)) in H by lia.
    destruct (sol_idx abc (Z.of_nat (S m))) as [m1| | | |] eqn:E1; try discriminate H. cbn [obind] in H.
    unfold ecmul in H. destruct (dec1 E C m0 m1) as [h|] eqn:Dh; [|discriminate H]. cbn [obind] in H.
    pose proof (dec_in _ _ _ Dh) as Ih. unfold ecadd in H.
    destruct (dec1 E C (fst acc) (snd acc)) as [g|] eqn:Dg; [|discriminate H].
    pose proof (dec_in _ _ _ Dg) as Ig. rewrite dec_enc in H by now apply (l1_mul _ _ _ L). cbn [obind] in H.
    replace (Z.of_nat m + 2) with (Z.of_nat (S (S m))) in H by lia.
    apply sol_idx_inv in E0. apply sol_idx_inv in E1.
    assert (Sk : skipn m abc = m0 :: m1 :: skipn (S (S m)) abc).
    { clear - E0 E1. revert abc E0 E1. induction m as [|m IH]; intros [|a abc] E0 E1; try discriminate E0.
      - destruct abc as [|b abc]; [discriminate E1|]. cbn [nth_error] in E0, E1. cbn [skipn]. congruence.
      - cbn [nth_error] in E0, E1. change (skipn (S (S (S m))) (a :: abc)) with (skipn (S (S m)) abc). cbn [skipn]. now apply IH. }
    assert (IA : S1 (g1_add E g (g1_mul E (Fof s) h))) by (apply (l1_add _ _ _ L); [assumption|now apply (l1_mul _ _ _ L)]).
    destruct (IH _ _ _ _ H) as [HF [[-> ->]|[_ [pts [ics [extra [g' [K1 [K2 [K3 [K4 K5]]]]]]]]]]].
    + split; [apply Forall_cons; [exact Hs|exact HF]|]. right. split; [discriminate|]. exists [(m0, m1)], [h], (skipn (S (S m)) abc), g.
      split; [exact Sk|]. split; [reflexivity|]. split; [constructor; [exact Dh|constructor]|]. split; [reflexivity|].
      cbn [map]. rewrite statement_cons by (assumption || constructor). rewrite statement_nil by exact IA.
      now apply dec_enc.
    + split; [apply Forall_cons; [exact Hs|exact HF]|]. right. split; [discriminate|]. exists ((m0, m1) :: pts), (h :: ics), extra, g.
      rewrite dec_enc in K4 by exact IA. assert (g' = g1_add E g (g1_mul E (Fof s) h)) as -> by congruence.
      split; [rewrite Sk, K1; reflexivity|]. split; [cbn [List.length]; congruence|]. split; [now constructor|]. split; [reflexivity|].
      cbn [map]. rewrite statement_cons by (assumption || eapply reads_in; eassumption). exact K5.
Qed.
End Facts.
