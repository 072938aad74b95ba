(** Final lemmas behind the property theorems of Prop_Basic.v. *)
From Coq Require Import List ZArith Bool Arith Lia.
From Verif Require Import Primes Field Base R1CS R1CSFacts M_Lookup P_Lookup M_Bits P_Bits P_Subadd.
Import ListNotations.
Local Open Scope F_scope.

(** *** C01, C02 *)
Lemma f2b_main v n : (v < n)%nat ->
  exists g n' cs, field2bits_new v n = Ok (g, n') /\ f2b_constraints g = Ok cs /\
    NoDup (f2b_result g) /\ (forall u, In u (f2b_result g) -> (n <= u < n')%nat) /\
    (forall s, sat s cs -> exists bs, length bs = 254%nat /\
        map s (f2b_result g) = map b2F bs /\ s v = Fof (natbits bs)) /\
    (forall s, exists s' bs, f2b_witness g s = Ok s' /\ sat s' cs /\ frame n n' s s' /\
        length bs = 254%nat /\ map s' (f2b_result g) = map b2F bs /\ natbits bs = fval (s v)).
Proof.
  intros Hv. destruct (f2b_new_ok 254 (fval (Fof p_mod - F1)) v n) as (g & n' & Hg).
  assert (W : (2 <= 254)%nat) by (apply Nat.leb_le; reflexivity).
  assert (R : forall x : F, (fval x < 2 ^ Z.of_nat 254)%Z).
  { intros x. pose proof (fval_range x). change (2 ^ Z.of_nat 254)%Z with (2 ^ 254)%Z. pose proof p_lt_2_254. lia. }
  destruct (f2b_complete_gen 254 _ v n g n' (fun _ => F0) W Hv Hg (R _)) as (_ & cs & _ & Hcs & _).
  exists g, n', cs. split; [exact Hg|]. split; [exact Hcs|].
  destruct (f2b_new_shape _ _ _ _ _ _ Hg) as [Eg En].
  split; [rewrite Eg; cbn [f2b_result f2b_bits]; apply seq_NoDup|].
  split. { rewrite Eg; cbn [f2b_result f2b_bits]. intros u Hu. apply var_array_In in Hu. lia. }
  split.
  - intros s Hs. destruct (f2b_sound_gen _ _ _ _ _ _ _ _ W Hg Hcs Hs) as (bs & H1 & H2 & H3). eauto.
  - intros s. destruct (f2b_complete_gen 254 _ v n g n' s W Hv Hg (R _)) as (s' & cs' & Hw & Hcs' & Hs & Hf & Hb).
    rewrite Hcs in Hcs'. apply Ok_inj in Hcs'. subst cs'.
    exists s', (bits_of_Z 254 (fval (s v))). split; [exact Hw|]. split; [exact Hs|].
    split; [exact Hf|]. split; [apply bits_of_Z_length|]. split; [exact Hb|].
    apply natbits_bits_small. split; [apply fval_range|apply R].
Qed.

Lemma natbits_mod_p bs x : length bs = 254%nat -> x = Fof (natbits bs) ->
  natbits bs = fval x \/ (natbits bs = fval x + p_mod /\ fval x < 2 ^ 254 - p_mod)%Z.
Proof.
  intros Hl ->. pose proof (natbits_range bs) as Hr. rewrite Hl in Hr.
  change (2 ^ Z.of_nat 254)%Z with (2 ^ 254)%Z in Hr. rewrite fval_Fof.
  assert (2 ^ 254 < 2 * p_mod)%Z by reflexivity.
  destruct (Z_lt_ge_dec (natbits bs) p_mod).
  - left. rewrite Z.mod_small; lia.
  - right. rewrite <- (Z.mod_add _ (-1)) by (intros E; discriminate).
    rewrite Z.mod_small; lia.
Qed.

Lemma f2b_classify v n g n' cs s bs : field2bits_new v n = Ok (g, n') ->
  f2b_constraints g = Ok cs -> sat s cs -> map s (f2b_result g) = map b2F bs ->
  natbits bs = fval (s v) \/ (natbits bs = fval (s v) + p_mod /\ fval (s v) < 2 ^ 254 - p_mod)%Z.
Proof.
  intros Hg Hcs Hs Hb. 
  assert (W : (2 <= 254)%nat) by (apply Nat.leb_le; reflexivity).
  destruct (f2b_sound_gen _ _ _ _ _ _ _ _ W Hg Hcs Hs) as (bs' & H1 & H2 & H3).
  assert (bs' = bs) as ->.
  { rewrite H1 in Hb. clear -Hb. revert bs Hb. induction bs' as [|b bs' IH]; intros [|c bs] H; try discriminate; [reflexivity|].
    cbn in H. injection H as Hc H. apply b2F_inj in Hc. f_equal; auto. }
  now apply natbits_mod_p.
Qed.

Lemma f2b_two_decodings v n g n' cs s : (v < n)%nat -> field2bits_new v n = Ok (g, n') ->
  f2b_constraints g = Ok cs -> (fval (s v) < 2 ^ 254 - p_mod)%Z ->
  exists s1 s2 b1 b2, sat s1 cs /\ sat s2 cs /\ frame n n' s s1 /\ frame n n' s s2 /\
    map s1 (f2b_result g) = map b2F b1 /\ map s2 (f2b_result g) = map b2F b2 /\
    natbits b1 = fval (s v) /\ natbits b2 = (fval (s v) + p_mod)%Z.
Proof.
  intros Hv Hg Hcs Hr.
  assert (W : (2 <= 254)%nat) by (apply Nat.leb_le; reflexivity).
  pose proof (fval_range (s v)) as Hx. pose proof p_lt_2_254 as Hp.
  assert (N1 : natbits (bits_of_Z 254 (fval (s v))) = fval (s v)).
  { apply natbits_bits_small. change (2 ^ Z.of_nat 254)%Z with (2 ^ 254)%Z. lia. }
  assert (N2 : natbits (bits_of_Z 254 (fval (s v) + p_mod)) = (fval (s v) + p_mod)%Z).
  { apply natbits_bits_small. change (2 ^ Z.of_nat 254)%Z with (2 ^ 254)%Z. lia. }
  destruct (f2b_extend_gen 254 _ v n g n' s (bits_of_Z 254 (fval (s v))) W Hv Hg) as (s1 & c1 & E1 & S1 & F1' & M1).
  { apply bits_of_Z_length. }
  { rewrite N1. symmetry. apply Fof_fval. }
  destruct (f2b_extend_gen 254 _ v n g n' s (bits_of_Z 254 (fval (s v) + p_mod)) W Hv Hg) as (s2 & c2 & E2 & S2 & F2' & M2).
  { apply bits_of_Z_length. }
  { rewrite N2. apply fval_inj. rewrite fval_Fof. rewrite <- (Z.mul_1_l p_mod) at 1.
    rewrite Z.mod_add by (intros E; discriminate). symmetry. apply Z.mod_small. exact Hx. }
  rewrite Hcs in E1, E2. apply Ok_inj in E1. apply Ok_inj in E2. subst c1 c2.
  exists s1, s2. eexists. eexists. repeat split; eassumption.
Qed.

Lemma f2b_unique_refuted : exists v n g n' cs s1 s2,
  field2bits_new v n = Ok (g, n') /\ f2b_constraints g = Ok cs /\
  sat s1 cs /\ sat s2 cs /\ s1 v = s2 v /\ map s1 (f2b_result g) <> map s2 (f2b_result g).
Proof.
  assert (Hv : (1 < 2)%nat) by lia.
  destruct (f2b_main 1 2 Hv) as (g & n' & cs & Hg & Hcs & _).
  destruct (f2b_two_decodings 1 2 g n' cs (fun _ => F0) Hv Hg Hcs) as
    (s1 & s2 & b1 & b2 & S1 & S2 & Fr1 & Fr2 & M1 & M2 & N1 & N2); [reflexivity|].
  exists 1%nat, 2%nat, g, n', cs, s1, s2. repeat split; try assumption.
  - rewrite Fr1, Fr2 by lia. reflexivity.
  - rewrite M1, M2. intros E.
    assert (b1 = b2) as ->.
    { clear -E. revert b2 E. induction b1 as [|b bs IH]; intros [|c cs] H; try discriminate; [reflexivity|].
      cbn in H. injection H as Hc H. apply b2F_inj in Hc. f_equal; auto. }
    rewrite N1 in N2. assert (0 < p_mod)%Z by reflexivity. lia.
Qed.

(** *** C03 *)
Lemma lookup1_main c b n : length c = 2%nat -> (b < n)%nat ->
  exists g n' cs, lookup1_new c b n = Ok (g, n') /\ lookup1_constraints g = Ok cs /\
   (n <= lookup1_result g < n')%nat /\
   (forall s (bit : bool), s b = b2F bit ->
      (sat s cs <-> nth_error c (if bit then 1 else 0) = Some (s (lookup1_result g)))) /\
   (forall s (bit : bool), s b = b2F bit ->
      exists s', lookup1_witness g s = Ok s' /\ frame n n' s s' /\ sat s' cs) /\
   (forall s, (2 <= fval (s b) mod 2 ^ 64)%Z -> lookup1_witness g s = UB).
Proof.
  intros Hc Hb. apply Nat.eqb_eq in Hc.
  assert (Hg : lookup1_new c b n = Ok ({| lk1_c := c; lk1_b := b; lk1_r := n |}, S n)).
  { unfold lookup1_new. now rewrite Hc. }
  destruct (lookup1_sat _ _ _ _ _ Hg) as (cs & Hcs & _ & Hall & Hsat).
  exists {| lk1_c := c; lk1_b := b; lk1_r := n |}, (S n), cs.
  repeat split; try assumption; cbn [lookup1_result lk1_r]; try lia.
  - intros H1. apply (Hsat s bit); assumption.
  - intros H1. apply (Hsat s bit); assumption.
  - intros s bit Hs. destruct (lookup1_witness_ok _ _ _ _ _ s bit Hg Hs) as (x & Hx & Hw).
    exists (upd s n x). split; [exact Hw|]. split; [apply frame_upd; lia|].
    apply (Hsat _ bit); [rewrite upd_other by lia; exact Hs|]. cbn [lookup1_result lk1_r].
    rewrite upd_same. exact Hx.
  - intros s Hs. apply (lookup1_witness_oob _ _ _ _ _ s Hg Hs).
Qed.

Lemma lookup2_main c b0 b1 n : length c = 4%nat -> (b0 < n)%nat -> (b1 < n)%nat ->
  exists g n' cs, lookup2_new c [b0; b1] n = Ok (g, n') /\ lookup2_constraints g = Ok cs /\
   (n <= lk2_r g < n')%nat /\
   (forall s x0 x1, s b0 = b2F x0 -> s b1 = b2F x1 ->
      (sat s cs <-> nth_error c (sel2 x0 x1) = Some (s (lk2_r g)))) /\
   (forall s x0 x1, s b0 = b2F x0 -> s b1 = b2F x1 ->
      exists s', lookup2_witness g s = Ok s' /\ frame n n' s s' /\ sat s' cs) /\
   (forall s, ~ isbit (s b0) \/ ~ isbit (s b1) -> lookup2_witness g s = Abort).
Proof.
  intros Hc Hb0 Hb1.
  assert (Hg : lookup2_new c [b0; b1] n = Ok ({| lk2_c := c; lk2_b := [b0; b1]; lk2_r := n |}, S n)).
  { unfold lookup2_new. now rewrite Hc. }
  destruct (lookup2_fn_sat c b0 b1 (V n) Hc) as (cs & Hcs & Hall & Hsat).
  exists {| lk2_c := c; lk2_b := [b0; b1]; lk2_r := n |}, (S n), cs.
  split; [exact Hg|]. split; [exact Hcs|]. cbn [lk2_r]. split; [lia|]. split; [exact Hsat|]. split.
  - intros s x0 x1 H0 H1. destruct (lookup2_witness_ok _ _ _ _ _ _ s x0 x1 Hg H0 H1) as (x & Hx & Hw).
    exists (upd s n x). split; [exact Hw|]. split; [apply frame_upd; lia|].
    apply (Hsat _ x0 x1); try (rewrite upd_other by lia; assumption). cbn [ev]. rewrite upd_same. exact Hx.
  - intros s Hs. apply (lookup2_witness_abort _ _ _ _ _ s Hg).
    destruct Hs; [exists b0|exists b1]; cbn; tauto.
Qed.

(** *** C04 *)
Lemma lookup3_main c b0 b1 b2 n : length c = 8%nat -> (b0 < n)%nat -> (b1 < n)%nat -> (b2 < n)%nat ->
  exists g n' cs, lookup3_new c [b0; b1; b2] n = Ok (g, n') /\ lookup3_constraints g = Ok cs /\
   (n <= lk3_r g < n')%nat /\
   (forall s x0 x1 x2, s b0 = b2F x0 -> s b1 = b2F x1 -> s b2 = b2F x2 ->
      (sat s cs -> nth_error c (sel3 x0 x1 x2) = Some (s (lk3_r g))) /\
      (nth_error c (sel3 x0 x1 x2) = Some (s (lk3_r g)) ->
        exists s', (forall v, v = lk3_r g \/ (v < n)%nat \/ (n' <= v)%nat -> s' v = s v) /\ sat s' cs)) /\
   (forall s x0 x1 x2, s b0 = b2F x0 -> s b1 = b2F x1 -> s b2 = b2F x2 ->
      exists s', lookup3_witness g s = Ok s' /\ frame n n' s s' /\ sat s' cs).
Proof.
  intros Hc L0 L1' L2.
  assert (Hg : exists g, lookup3_new c [b0; b1; b2] n = Ok (g, n + 5)%nat /\ lk3_r g = n).
  { unfold lookup3_new. rewrite Hc. eexists. split; reflexivity. }
  destruct Hg as (g & Hg & Hr).
  destruct (lookup3_sat _ _ _ _ _ _ _ Hg) as (cs & Hcs & _ & Hall & Hsat).
  exists g, (n + 5)%nat, cs. rewrite Hr. split; [exact Hg|]. split; [exact Hcs|].
  split; [lia|]. split.
  - intros s x0 x1 x2 H0 H1 H2. split.
    + intros Hs. apply (Hsat s x0 x1 x2 H0 H1 H2) in Hs. tauto.
    + intros Hx.
      exists (upd (upd (upd (upd s (n + 1) (b2F (x0 && x1))) (n + 2) (b2F (x0 && x2))) (n + 3) (b2F (x1 && x2)))
               (n + 4) (b2F (x0 && x1 && x2))).
      split; [intros v Hv; rewrite !upd_other by lia; reflexivity|].
      apply (Hsat _ x0 x1 x2); rewrite ?upd5 by lia; try assumption.
      rewrite !(upd_other _ _ _ n) by lia. split; [exact Hx|].
      repeat split.
      * rewrite !(upd_other _ _ _ (n + 1)%nat) by lia. apply upd_same.
      * rewrite !(upd_other _ _ _ (n + 2)%nat) by lia. apply upd_same.
      * rewrite !(upd_other _ _ _ (n + 3)%nat) by lia. apply upd_same.
      * apply upd_same.
  - intros s x0 x1 x2 H0 H1 H2.
    destruct (lookup3_witness_ok _ _ _ _ _ _ _ s x0 x1 x2 Hg L0 L1' L2 H0 H1 H2) as (s' & cs' & Hw & Hcs' & Hs & Hf & _).
    rewrite Hcs in Hcs'. apply Ok_inj in Hcs'. subst cs'. eauto.
Qed.

Lemma lookups_main c b0 b1 b2 n : length c = 4%nat -> (b0 < n)%nat -> (b1 < n)%nat -> (b2 < n)%nat ->
  exists g n' cs, lookups_new c [b0; b1; b2] n = Ok (g, n') /\ lookups_constraints g = Ok cs /\
   (n <= lks_r g < n')%nat /\
   (forall s x0 x1 x2, s b0 = b2F x0 -> s b1 = b2F x1 -> s b2 = b2F x2 -> sat s cs ->
      exists x, nth_error c (sel2 x0 x1) = Some x /\ s (lks_r g) = if x2 then - x else x) /\
   (forall s x0 x1 x2 x, s b0 = b2F x0 -> s b1 = b2F x1 -> s b2 = b2F x2 ->
      nth_error c (sel2 x0 x1) = Some x -> s (lks_r g) = (if x2 then - x else x) ->
      exists s', (forall v, v = lks_r g \/ (v < n)%nat \/ (n' <= v)%nat -> s' v = s v) /\ sat s' cs) /\
   (forall s x0 x1 x2, s b0 = b2F x0 -> s b1 = b2F x1 -> s b2 = b2F x2 ->
      exists s', lookups_witness g s = Ok s' /\ frame n n' s s' /\ sat s' cs).
Proof.
  intros Hc L0 L1' L2.
  assert (Hg : exists g, lookups_new c [b0; b1; b2] n = Ok (g, S (S n)) /\ lks_r g = S n /\
     lookups_constraints g = lookups_constraints_fn c [b0; b1; b2] (S n) n).
  { unfold lookups_new. rewrite Hc. eexists. repeat split; reflexivity. }
  destruct Hg as (g & Hg & Hr & Hcsf).
  destruct (lookups_fn_sat c b0 b1 b2 (S n) n Hc) as (cs & Hcs & Hall & Hsat).
  rewrite Hcs in Hcsf.
  exists g, (S (S n)), cs. rewrite Hr. split; [exact Hg|]. split; [exact Hcsf|].
  split; [lia|]. split; [|split].
  - intros s x0 x1 x2 H0 H1 H2 Hs. apply (Hsat s x0 x1 x2 H0 H1 H2) in Hs.
    destruct Hs as (_ & x & Hx & Hv). eauto.
  - intros s x0 x1 x2 x H0 H1 H2 Hx Hv.
    exists (upd s n (b2F (x0 && x1))). split; [intros v Hv'; apply upd_other; lia|].
    apply (Hsat _ x0 x1 x2); try (rewrite upd_other by lia; assumption).
    split; [apply upd_same|]. exists x. split; [exact Hx|]. rewrite upd_other by lia. exact Hv.
  - intros s x0 x1 x2 H0 H1 H2.
    destruct (lookups_witness_ok _ _ _ _ _ _ _ s x0 x1 x2 Hg L0 L1' L2 H0 H1 H2) as (s' & cs' & Hw & Hcs' & Hs & Hf & _).
    rewrite Hcsf in Hcs'. apply Ok_inj in Hcs'. subst cs'. eauto.
Qed.

(** *** C05 *)
Lemma isnonzero_main x n : (x < n)%nat ->
  exists g n', isnonzero_new x n = (g, n') /\ (n <= isnonzero_result g < n')%nat /\
   (forall s, sat s (isnonzero_constraints g) ->
      (s x = F0 /\ s (isnonzero_result g) = F0) \/ (s x <> F0 /\ s (isnonzero_result g) = F1)) /\
   (forall s, s (isnonzero_result g) = (if Feqb (s x) F0 then F0 else F1) ->
      exists s', (forall v, v = isnonzero_result g \/ (v < n)%nat \/ (n' <= v)%nat -> s' v = s v) /\
        sat s' (isnonzero_constraints g)) /\
   (forall s, frame n n' s (isnonzero_witness g s) /\ sat (isnonzero_witness g s) (isnonzero_constraints g)).
Proof.
  intros Hx. eexists. eexists. split; [reflexivity|]. split; [cbn; lia|]. split; [|split].
  - intros s. exact (isnonzero_sat x n s).
  - intros s E. destruct (proj2 (isnonzero_sat_iff x n s Hx) E) as [m Hm].
    exists (upd s (S n) m). split; [|exact Hm]. cbn. intros v Hv. apply upd_other. lia.
  - intros s. pose proof (isnonzero_complete x n s Hx) as H. cbn in H. tauto.
Qed.

(** *** C10, C11 *)
Lemma subadd_new_ok n A B N k : (1 <= n <= 252)%nat -> exists g k', subadd_new n A B N k = Ok (g, k').
Proof.
  intros Hn. unfold subadd_new, comparison_new.
  rewrite (proj2 (Nat.leb_le 1 n)) by lia. cbn [oassert obind].
  rewrite (proj2 (Nat.leb_le 1 (n + 1))) by lia. cbn [oassert obind].
  rewrite (proj2 (Nat.leb_le (n + 1) capacity)) by (unfold capacity; lia). cbn [oassert obind]. eauto.
Qed.

Lemma subadd_new_abort n A B N k : ~ (1 <= n <= 252)%nat -> subadd_new n A B N k = Abort.
Proof.
  intros Hn. unfold subadd_new, comparison_new.
  destruct (Nat.leb_spec 1 n); cbn [oassert obind]; [|reflexivity].
  rewrite (proj2 (Nat.leb_le 1 (n + 1))) by lia. cbn [oassert obind].
  destruct (Nat.leb_spec (n + 1) capacity) as [Hc|Hc]; cbn [oassert obind]; [|reflexivity].
  unfold capacity in Hc. lia.
Qed.

Lemma subadd_main n A B N k g k' s : subadd_new n A B N k = Ok (g, k') ->
  (A < k)%nat -> (B < k)%nat -> (N < k)%nat ->
  (fval (s A) < 2 ^ Z.of_nat n)%Z -> (fval (s B) < 2 ^ Z.of_nat n)%Z -> (fval (s N) < 2 ^ Z.of_nat n)%Z ->
  ((exists s', frame k k' s s' /\ sat s' (subadd_constraints g)) <->
   (fval (s N) <= fval (s A) /\ fval (s B) + fval (s N) < 2 ^ Z.of_nat n)%Z) /\
  (sat s (subadd_constraints g) ->
     fval (s (sa_X g)) = (fval (s A) - fval (s N))%Z /\ fval (s (sa_Y g)) = (fval (s B) + fval (s N))%Z) /\
  (exists s', subadd_witness g s = Ok s' /\ frame k k' s s' /\
    (sat s' (subadd_constraints g) <->
     (fval (s N) <= fval (s A) /\ fval (s B) + fval (s N) < 2 ^ Z.of_nat n)%Z)).
Proof.
  intros Hg LA LB LN HA HB HN.
  destruct (subadd_witness_range _ _ _ _ _ _ _ s Hg LA LB LN HA HB HN) as (s' & Hw & Hf & Hiff).
  split; [|split].
  - split.
    + intros (s2 & Hf2 & Hs2).
      pose proof (subadd_range_sat _ _ _ _ _ _ _ _ Hg Hs2) as H. rewrite !Hf2 in H by lia. tauto.
    + intros H. exists s'. tauto.
  - intros Hs. pose proof (subadd_range_sat _ _ _ _ _ _ _ _ Hg Hs) as H. tauto.
  - exists s'. tauto.
Qed.

(** what remains true without range checks *)
Lemma subadd_unchecked n A B N k g k' s : subadd_new n A B N k = Ok (g, k') ->
  sat s (subadd_constraints g) ->
  (fval (s (sa_X g)) < 2 ^ Z.of_nat n)%Z /\
  s (sa_X g) + s (sa_Y g) = s A + s B /\
  ((fval (s (sa_Y g)) < 2 ^ Z.of_nat n)%Z \/ (p_mod - 2 ^ Z.of_nat n < fval (s (sa_Y g)))%Z).
Proof.
  intros Hg Hs.
  assert (Hn : (n <= 252)%nat) by (apply subadd_shape in Hg; tauto).
  destruct (subadd_sat _ _ _ _ _ _ _ _ Hg Hs) as (x & y & Hx & Hy & EX & EY & E1 & E2).
  destruct (pow_bound n Hn) as [Hp0 Hp].
  split; [rewrite EX, fval_Fof_small; lia|]. split.
  - rewrite EX, EY, <- E1, <- E2. ring.
  - rewrite EY. destruct (Z_lt_ge_dec y 0).
    + right. rewrite fval_Fof, <- (Z.mod_add y 1), Z.mod_small by lia. lia.
    + left. rewrite fval_Fof_small by lia. lia.
Qed.

(** A = 0, B = 0, N = -1: X = 1, Y = p-1 *)
Lemma subadd_unchecked_refuted : exists n A B N k g k' s,
  subadd_new n A B N k = Ok (g, k') /\ (A < k /\ B < k /\ N < k)%nat /\ sat s (subadd_constraints g) /\
  fval (s A) = 0%Z /\ fval (s B) = 0%Z /\
  ~ (fval (s (sa_Y g)) < 2 ^ Z.of_nat n)%Z.
Proof.
  destruct (subadd_new_ok 8 1 2 3 4) as (g & k' & Hg); [lia|].
  set (s0 := upd (fun _ => F0) 3 (Fof (-1))).
  assert (Hw : match subadd_witness g s0 with Ok s' => satb s' (subadd_constraints g) && (255 <? fval (s' (sa_Y g)))%Z &&
     (fval (s' 1%nat) =? 0)%Z && (fval (s' 2%nat) =? 0)%Z | _ => false end = true).
  { pose proof Hg as Hg'. vm_compute in Hg'. apply Ok_inj in Hg'. injection Hg' as <- <-.
    vm_compute. reflexivity. }
  destruct (subadd_witness g s0) as [s'| | | |]; try discriminate.
  apply andb_prop in Hw. destruct Hw as [Hw H2]. apply andb_prop in Hw. destruct Hw as [Hw H1].
  apply andb_prop in Hw. destruct Hw as [Hw H3].
  exists 8%nat, 1%nat, 2%nat, 3%nat, 4%nat, g, k', s'. split; [exact Hg|]. split; [lia|].
  split; [now apply satb_spec|]. apply Z.eqb_eq in H1, H2. apply Z.ltb_lt in H3.
  split; [exact H1|]. split; [exact H2|]. change (2 ^ Z.of_nat 8)%Z with 256%Z. lia.
Qed.
