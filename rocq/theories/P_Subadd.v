(** Lemmas about comparison_gadget and subadd_gadget. *)
From Coq Require Import List ZArith Bool Arith Lia Permutation.
From Verif Require Import Primes Field Base R1CS R1CSFacts M_Lookup P_Lookup M_Bits P_Bits.
Import ListNotations.
Local Open Scope F_scope.

Fixpoint countbits (bs : list bool) : Z :=
  match bs with [] => 0 | b :: bs' => b2Z b + countbits bs' end%Z.

Lemma countbits_range bs : (0 <= countbits bs <= Z.of_nat (length bs))%Z.
Proof. induction bs as [|b bs IH]; cbn [countbits length]; [lia|]. destruct b; cbn [b2Z]; lia. Qed.

Lemma countbits_zero bs : countbits bs = 0%Z <-> natbits bs = 0%Z.
Proof.
  induction bs as [|b bs IH]; cbn [countbits natbits]; [tauto|].
  pose proof (countbits_range bs). pose proof (natbits_range bs). destruct b; cbn [b2Z]; lia.
Qed.

Lemma sum_lc_ev s vs bs : map s vs = map b2F bs -> ev s (sum_lc vs) = Fof (countbits bs).
Proof.
  revert bs. induction vs as [|v vs IH]; intros [|b bs] H; try discriminate; [reflexivity|].
  cbn in H. injection H as Hv Hvs. cbn [sum_lc ev countbits]. rewrite (IH bs Hvs), Hv.
  now rewrite Fof_add, Fof_b2Z.
Qed.

Lemma sum_zero s vs bs : map s vs = map b2F bs -> (Z.of_nat (length bs) < p_mod)%Z ->
  (ev s (sum_lc vs) = F0 <-> natbits bs = 0%Z).
Proof.
  intros H Hl. rewrite (sum_lc_ev _ _ _ H), <- countbits_zero.
  pose proof (countbits_range bs). split; intros E.
  - apply (Fof_inj_small (countbits bs) 0); [lia|split; [lia|reflexivity]|exact E].
  - now rewrite E.
Qed.

Lemma disjunction_sat s ins out inv : sat s (disjunction_constraints ins out inv) ->
  s out = if Feqb (ev s (sum_lc ins)) F0 then F0 else F1.
Proof.
  unfold disjunction_constraints. rewrite !sat_cons. unfold holds. cbn [cA cB cC ev L1 L0].
  intros (H1 & H2 & _). destruct (Feqb_spec (ev s (sum_lc ins)) F0) as [E|E].
  - rewrite <- H1, E. ring.
  - apply Fmul_integral in H2. destruct H2 as [H2|H2]; [|contradiction].
    symmetry. now apply Fsub_eq0.
Qed.

Lemma Fpow2 n : Fpow (Fof 2) (Z.of_nat n) = Fof (2 ^ Z.of_nat n).
Proof. rewrite Fpow_Fof by lia. apply Fof_fval_pow. lia. Qed.

(** Meaning of satisfied comparison constraints: the value 2^n+B-A is
    an (n+1)-bit number whose top bit is [leq] *)
Lemma comparison_sat n A B lt leq k g k' s :
  comparison_new n A B lt leq k = Ok (g, k') -> (Z.of_nat n < p_mod)%Z ->
  sat s (comparison_constraints g) ->
  exists a l, (0 <= a < 2 ^ Z.of_nat n)%Z /\ s leq = b2F l /\
    (Fof (2 ^ Z.of_nat n) + ev s B - ev s A = Fof (a + 2 ^ Z.of_nat n * b2Z l)) /\
    s lt = b2F (l && negb (a =? 0)%Z).
Proof.
  intros Hg Hn. unfold comparison_new in Hg. apply obind_ok in Hg. destruct Hg as (u & _ & Hg).
  apply Ok_inj in Hg. injection Hg as <- <-.
  unfold comparison_constraints. cbn [cmp_n cmp_A cmp_B cmp_lt cmp_leq cmp_alpha cmp_packed cmp_naz cmp_inv].
  rewrite sat_cons, !sat_app, !sat_cons. intros (_ & Hp & (Hm & _) & Hd & Hlt & _).
  apply packing_sat in Hp. destruct Hp as (bs & Hbs & Hpk).
  apply disjunction_sat in Hd.
  rewrite map_app in Hbs. cbn [map] in Hbs.
  destruct bs as [|b0 bs0] using rev_ind; [destruct (map s _); discriminate|clear IHbs0].
  rewrite map_app in Hbs. cbn [map] in Hbs. apply app_inj_tail in Hbs. destruct Hbs as [Hbs Hl].
  assert (Hlen : length bs0 = n).
  { apply (f_equal (@length F)) in Hbs. rewrite !map_length, seq_length in Hbs. lia. }
  exists (natbits bs0), b0. pose proof (natbits_range bs0) as Hr. rewrite Hlen in Hr.
  split; [exact Hr|]. split; [exact Hl|].
  rewrite natbits_app, Hlen in Hpk. cbn [natbits] in Hpk. rewrite Z.mul_0_r, Z.add_0_r in Hpk.
  split.
  - unfold holds, comparison_main_lc in Hm. cbn [cA cB cC ev L1 cmp_n cmp_B cmp_A] in Hm.
    cbn [ev] in Hpk. rewrite Hpk, Fpow2 in Hm. rewrite <- Hm. ring.
  - unfold holds in Hlt. cbn [cA cB cC ev] in Hlt. rewrite <- Hlt, Hl, Hd.
    assert (Hz := sum_zero s _ bs0 Hbs). rewrite Hlen in Hz. specialize (Hz Hn).
    destruct (Feqb_spec (ev s (sum_lc (var_array k n))) F0) as [E|E];
    destruct (Z.eqb_spec (natbits bs0) 0) as [E'|E']; try tauto; destruct b0; cbn; ring.
Qed.

Lemma comparison_scope n A B lt leq k g k' (P : var -> Prop) :
  comparison_new n A B lt leq k = Ok (g, k') ->
  lc_all P A -> lc_all P B -> P lt -> P leq -> (forall v, (k <= v < k')%nat -> P v) ->
  cs_all P (comparison_constraints g).
Proof.
  intros Hg HA HB Hlt Hleq HP. unfold comparison_new in Hg. apply obind_ok in Hg. destruct Hg as (u & _ & Hg).
  apply Ok_inj in Hg. injection Hg as <- <-.
  unfold comparison_constraints. cbn [cmp_n cmp_A cmp_B cmp_lt cmp_leq cmp_alpha cmp_packed cmp_naz cmp_inv].
  rewrite cs_all_cons, !cs_all_app.
  assert (Ha : forall v, In v (var_array k n) -> P v).
  { intros v Hv. apply var_array_In in Hv. apply HP. lia. }
  repeat split.
  - cbn. apply HP. lia.
  - cbn. apply HP. lia.
  - apply packing_all; [|cbn; apply HP; lia]. intros v Hv. apply in_app_or in Hv.
    destruct Hv as [Hv|[<-|[]]]; auto.
  - unfold comparison_main_lc. scope. cbn [cmp_n cmp_A cmp_B]. apply HP. lia.
  - unfold disjunction_constraints. unfold cs_all.
    repeat first [apply Forall_nil|apply Forall_cons]; unfold c_all; cbn [lc_all cA cB cC L1 L0];
    repeat split; try (apply HP; lia); now apply sum_lc_all.
  - scope. apply HP. lia.
Qed.

(** honest witness of the comparison *)
Lemma comparison_witness_ok n A B lt leq lo k g k' s :
  comparison_new n A B lt leq k = Ok (g, k') -> (Z.of_nat n < p_mod)%Z ->
  lc_all (fun v => v < lo)%nat A -> lc_all (fun v => v < lo)%nat B ->
  (lo <= lt < k)%nat -> (lo <= leq < k)%nat -> lt <> leq ->
  let m := fval (Fof (2 ^ Z.of_nat n) + ev s B - ev s A) in
  (m < 2 ^ Z.of_nat (n + 1))%Z ->
  exists s', comparison_witness g s = Ok s' /\ frame lo k' s s' /\
    (forall v, (v < k)%nat -> v <> lt -> v <> leq -> s' v = s v) /\
    sat s' (comparison_constraints g) /\
    s' leq = b2F (2 ^ Z.of_nat n <=? m)%Z /\ s' lt = b2F (2 ^ Z.of_nat n <? m)%Z.
Proof.
  intros Hg Hn HA HB Hlt Hleq Hne m Hm. unfold comparison_new in Hg. apply obind_ok in Hg.
  destruct Hg as (u & _ & Hg). apply Ok_inj in Hg. injection Hg as <- <-.
  set (g := {| cmp_n := n |}).
  assert (Hev : forall s1, (forall v, (v < lo)%nat -> s1 v = s v) ->
     ev s1 (comparison_main_lc g) = Fof (2 ^ Z.of_nat n) + ev s B - ev s A).
  { intros s1 Hs1. unfold comparison_main_lc. cbn [cmp_n cmp_A cmp_B g ev].
    rewrite (ev_ext _ s1 s A HA), (ev_ext _ s1 s B HB) by assumption. now rewrite Fpow2. }
  unfold comparison_witness. cbn [cmp_packed cmp_alpha cmp_leq cmp_naz cmp_inv cmp_lt g].
  rewrite Hev by reflexivity. set (M := Fof (2 ^ Z.of_nat n) + ev s B - ev s A) in *.
  set (s1 := upd s (k + n)%nat M).
  set (bits := var_array k n ++ [leq]).
  assert (Hlenb : length bits = (n + 1)%nat) by (subst bits; rewrite app_length, seq_length; reflexivity).
  assert (Hnd : NoDup bits).
  { subst bits.
    apply (Permutation_NoDup (l := leq :: var_array k n)).
    - apply Permutation_cons_append.
    - constructor; [|apply seq_NoDup]. rewrite var_array_In. lia. }
  rewrite (packing_witness_ok bits _ s1 M) by
    (try (cbn [ev]; subst s1; apply upd_same); rewrite Hlenb; exact Hm).
  cbn [obind].
  set (s2 := fill_bits_of s1 bits M).
  assert (H2 : map s2 bits = map b2F (bits_of_Z (n + 1) m)).
  { subst s2. rewrite fill_bits_spec by assumption. now rewrite Hlenb. }
  assert (H2o : forall v, ~ In v bits -> s2 v = s1 v) by (intros; now apply fill_bits_other).
  (* split the bits *)
  assert (Hmr : (0 <= m < 2 ^ Z.of_nat (n + 1))%Z) by (split; [apply fval_range|exact Hm]).
  destruct (exists_last (l := bits_of_Z (n + 1) m)) as (bs0 & l & Hbits).
  { intros E. apply (f_equal (@length bool)) in E. rewrite bits_of_Z_length in E. cbn in E. lia. }
  assert (Hlen0 : length bs0 = n).
  { apply (f_equal (@length bool)) in Hbits. rewrite bits_of_Z_length, app_length in Hbits. cbn in Hbits. lia. }
  assert (Hmv : m = (natbits bs0 + 2 ^ Z.of_nat n * b2Z l)%Z).
  { rewrite <- (natbits_bits_small (n + 1) m Hmr), Hbits, natbits_app, Hlen0.
    cbn [natbits]. now rewrite Z.mul_0_r, Z.add_0_r. }
  rewrite Hbits in H2. subst bits. rewrite !map_app in H2. cbn [map] in H2.
  apply app_inj_tail in H2. destruct H2 as [Hal Hlq].
  pose proof (natbits_range bs0) as Hr0. rewrite Hlen0 in Hr0.
  assert (Hz := sum_zero s2 _ bs0 Hal). rewrite Hlen0 in Hz. specialize (Hz Hn).
  set (naz := negb (natbits bs0 =? 0)%Z).
  set (inv := if Feqb (ev s2 (sum_lc (var_array k n))) F0 then F0 else Finv (ev s2 (sum_lc (var_array k n)))).
  assert (Hdw : disjunction_witness (var_array k n) (k + n + 1) (k + n + 2) s2 =
    upd (upd s2 (k + n + 2) inv) (k + n + 1) (b2F naz)).
  { unfold disjunction_witness. subst inv naz.
    destruct (Feqb_spec (ev s2 (sum_lc (var_array k n))) F0) as [E|E];
    destruct (Z.eqb_spec (natbits bs0) 0) as [E'|E']; try tauto; reflexivity. }
  rewrite Hdw. set (s3 := upd (upd s2 _ inv) _ (b2F naz)).
  set (s4 := upd s3 lt _).
  assert (H4lt : s4 lt = b2F (l && naz)).
  { subst s4 s3. rewrite upd_same. rewrite upd_other, upd_other by lia. rewrite upd_same, Hlq.
    destruct l, naz; cbn; ring. }
  assert (H4 : forall v, v <> lt -> v <> (k + n + 1)%nat -> v <> (k + n + 2)%nat -> s4 v = s2 v).
  { intros v V1 V2 V3. subst s4 s3. now rewrite !upd_other. }
  assert (H4s : forall v, v <> lt -> (v < k \/ k + n + 3 <= v)%nat -> v <> leq -> s4 v = s v).
  { intros v V1 V2 V3. rewrite H4 by lia. rewrite H2o.
    - subst s1. apply upd_other. lia.
    - rewrite in_app_iff, var_array_In. intros [?|[?|[]]]; [lia|congruence]. }
  assert (Halpha4 : map s4 (var_array k n) = map b2F bs0).
  { rewrite <- Hal. apply map_ext_in. intros v Hv. apply var_array_In in Hv. apply H4; lia. }
  assert (Hleq4 : s4 leq = b2F l) by (rewrite H4 by lia; exact Hlq).
  assert (Hnaz4 : s4 (k + n + 1)%nat = b2F naz).
  { subst s4 s3. rewrite upd_other by lia. apply upd_same. }
  assert (Hinv4 : s4 (k + n + 2)%nat = inv).
  { subst s4 s3. rewrite upd_other, upd_other by lia. apply upd_same. }
  assert (Hpk4 : s4 (k + n)%nat = M).
  { rewrite H4 by lia. rewrite H2o; [apply upd_same|].
    rewrite in_app_iff, var_array_In. intros [?|[?|[]]]; lia. }
  assert (Hsum4 : ev s4 (sum_lc (var_array k n)) = ev s2 (sum_lc (var_array k n))).
  { now rewrite (sum_lc_ev _ _ _ Halpha4), (sum_lc_ev _ _ _ Hal). }
  exists s4. split; [reflexivity|]. split; [|split; [|split; [|split]]].
  - intros v Hv. apply H4s; lia.
  - intros v Hv V1 V2. apply H4s; lia.
  - unfold comparison_constraints. cbn [cmp_n cmp_A cmp_B cmp_lt cmp_leq cmp_alpha cmp_packed cmp_naz cmp_inv g].
    fold g. rewrite sat_cons, !sat_app, !sat_cons. split; [|split; [|split; [|split]]].
    + apply boolean_c_spec. cbn [ev]. rewrite Hnaz4. apply isbit_b2F.
    + apply packing_sat. exists (bs0 ++ [l]). rewrite !map_app. cbn [map ev].
      split; [congruence|]. rewrite Hpk4, natbits_app, Hlen0. cbn [natbits].
      rewrite Z.mul_0_r, Z.add_0_r, <- Hmv. subst m. symmetry. apply Fof_fval.
    + split; [|constructor]. unfold holds. cbn [cA cB cC L1]. rewrite Hev.
      * unfold L1. cbn [ev]. rewrite Hpk4. subst M. ring.
      * intros v Hv. apply H4s; lia.
    + unfold disjunction_constraints. rewrite !sat_cons. unfold holds. cbn [cA cB cC L1 L0 ev].
      rewrite Hnaz4, Hinv4, Hsum4. subst inv naz.
      destruct (Feqb_spec (ev s2 (sum_lc (var_array k n))) F0) as [E|E];
      destruct (Z.eqb_spec (natbits bs0) 0) as [E'|E']; try tauto; cbn [negb b2F].
      * rewrite E. split; [ring|]. split; [ring|constructor].
      * rewrite Finv_l by assumption. split; [reflexivity|]. split; [ring|constructor].
    + split; [|constructor]. unfold holds. cbn [cA cB cC ev]. rewrite Hleq4, Hnaz4, H4lt.
      destruct l, naz; cbn; ring.
  - rewrite Hleq4. f_equal. rewrite Hmv. destruct l; cbn [b2Z]; symmetry; [apply Z.leb_le|apply Z.leb_gt]; lia.
  - rewrite H4lt. f_equal. subst naz. rewrite Hmv.
    destruct l; cbn [b2Z andb].
    + destruct (Z.eqb_spec (natbits bs0) 0); cbn [negb]; symmetry; [apply Z.ltb_ge|apply Z.ltb_lt]; lia.
    + symmetry. apply Z.ltb_ge. lia.
Qed.

(** ** subadd *)
Lemma subadd_shape n A B N k g k' : subadd_new n A B N k = Ok (g, k') ->
  (1 <= n <= 252)%nat /\
  exists c1 c2,
    comparison_new n (V N) (V A) (k + 2) (k + 3) (k + 4) = Ok (c1, k + n + 7)%nat /\
    comparison_new (n + 1) (V (k + 1)) (LC (Fof (2 ^ Z.of_nat n))) (k + n + 7) (k + n + 8) (k + n + 9)
      = Ok (c2, k')%nat /\ k' = (k + n + n + 13)%nat /\
    g = {| sa_A := A; sa_B := B; sa_N := N; sa_X := k; sa_Y := (k + 1)%nat;
           sa_N_lt_A := (k + 2)%nat; sa_N_leq_A := (k + 3)%nat; sa_cmp_N_A := c1;
           sa_Y_lt := (k + n + 7)%nat; sa_Y_leq := (k + n + 8)%nat; sa_cmp_Y := c2 |}.
Proof.
  unfold subadd_new. intros H. apply obind_ok in H. destruct H as ([c1 k1] & H1 & H).
  apply obind_ok in H. destruct H as ([c2 k2] & H2 & H).
  apply obind_ok in H. destruct H as ([] & H3 & H). apply oassert_ok, Nat.leb_le in H3.
  unfold capacity in H3.
  pose proof H1 as H1'. unfold comparison_new in H1'. apply obind_ok in H1'. destruct H1' as ([] & Hn & H1').
  apply oassert_ok, Nat.leb_le in Hn. apply Ok_inj in H1'. injection H1' as _ Hk1.
  assert (k1 = k + n + 7)%nat as -> by lia.
  rewrite Fpow2 in H2.
  pose proof H2 as H2'. unfold comparison_new in H2'. apply obind_ok in H2'. destruct H2' as ([] & _ & H2').
  apply Ok_inj in H2'. injection H2' as _ Hk2.
  apply Ok_inj in H. injection H as <- <-.
  split; [lia|]. exists c1, c2.
  replace (k + n + 7 + 1)%nat with (k + n + 8)%nat in * by lia.
  replace (k + n + 7 + 2)%nat with (k + n + 9)%nat in * by lia.
  repeat split; try assumption. lia.
Qed.

(** what satisfied constraints say with no assumption on the inputs *)
Lemma subadd_sat n A B N k g k' s : subadd_new n A B N k = Ok (g, k') ->
  sat s (subadd_constraints g) ->
  exists x y, (0 <= x < 2 ^ Z.of_nat n)%Z /\ (- 2 ^ Z.of_nat n < y < 2 ^ Z.of_nat n)%Z /\
    s (sa_X g) = Fof x /\ s (sa_Y g) = Fof y /\ s A - s N = Fof x /\ s B + s N = Fof y.
Proof.
  intros Hg Hs. apply subadd_shape in Hg.
  destruct Hg as (Hn & c1 & c2 & H1 & H2 & _ & ->).
  unfold subadd_constraints in Hs. cbn [sa_A sa_B sa_N sa_X sa_Y sa_N_lt_A sa_N_leq_A sa_cmp_N_A sa_Y_lt sa_Y_leq sa_cmp_Y] in *.
  rewrite !sat_app, !sat_cons in Hs. destruct Hs as (S1 & S2 & SX & SY & SL & SO & _).
  unfold holds in SX, SY, SL, SO. cbn [cA cB cC ev L1] in SX, SY, SL, SO.
  assert (Hp1 : (Z.of_nat n < p_mod)%Z) by (apply Z.lt_trans with 253%Z; [lia|reflexivity]).
  assert (Hp2 : (Z.of_nat (n + 1) < p_mod)%Z) by (apply Z.lt_trans with 254%Z; [lia|reflexivity]).
  destruct (comparison_sat _ _ _ _ _ _ _ _ _ H1 Hp1 S1) as (a & l & Ha & Hl & E1 & _).
  destruct (comparison_sat _ _ _ _ _ _ _ _ _ H2 Hp2 S2) as (a' & l' & Ha' & Hl' & E2 & Hlt).
  assert (l = true) as ->.
  { apply b2F_inj. rewrite <- Hl. replace (s (k + 3)%nat) with (s (k + 3)%nat * F1) by ring. exact SL. }
  assert (l' && negb (a' =? 0)%Z = true) as Hll.
  { apply b2F_inj. rewrite <- Hlt. replace (s (k + n + 7)%nat) with (s (k + n + 7)%nat * F1) by ring. exact SO. }
  apply andb_prop in Hll. destruct Hll as [-> Ha0]. apply negb_true_iff, Z.eqb_neq in Ha0.
  cbn [b2Z ev] in E1, E2. rewrite Z.mul_1_r, Fof_add in E1, E2.
  assert (EX : s A - s N = Fof a).
  { replace (s A - s N) with (Fof (2 ^ Z.of_nat n) + s A - s N - Fof (2 ^ Z.of_nat n)) by ring.
    rewrite E1. ring. }
  assert (EY : s (k + 1)%nat = Fof (2 ^ Z.of_nat n - a')).
  { rewrite Fof_sub.
    replace (s (k + 1)%nat) with (Fof (2 ^ Z.of_nat (n + 1)) + Fof (2 ^ Z.of_nat n) -
       (Fof (2 ^ Z.of_nat (n + 1)) + Fof (2 ^ Z.of_nat n) - s (k + 1)%nat)) by ring.
    rewrite E2. ring. }
  exists a, (2 ^ Z.of_nat n - a')%Z. split; [exact Ha|]. split.
  { rewrite Nat2Z.inj_add, Z.pow_add_r in Ha' by lia. cbn [Z.of_nat] in Ha'.
    change (2 ^ Z.of_nat 1)%Z with 2%Z in Ha'. change (2 ^ 1)%Z with 2%Z in Ha'. lia. }
  split; [rewrite <- SX, EX; ring|]. split; [exact EY|]. split; [exact EX|].
  rewrite <- EY, <- SY. ring.
Qed.

Lemma pow_bound n : (n <= 252)%nat -> (0 < 2 ^ Z.of_nat n /\ 3 * 2 ^ Z.of_nat n < p_mod)%Z.
Proof.
  intros Hn. split; [apply Z.pow_pos_nonneg; lia|].
  apply Z.le_lt_trans with (3 * 2 ^ 252)%Z; [|reflexivity].
  assert (2 ^ Z.of_nat n <= 2 ^ 252)%Z by (apply Z.pow_le_mono_r; lia). lia.
Qed.

Lemma subadd_range_sat n A B N k g k' s : subadd_new n A B N k = Ok (g, k') ->
  sat s (subadd_constraints g) ->
  (fval (s A) < 2 ^ Z.of_nat n)%Z -> (fval (s B) < 2 ^ Z.of_nat n)%Z -> (fval (s N) < 2 ^ Z.of_nat n)%Z ->
  (fval (s N) <= fval (s A))%Z /\ (fval (s B) + fval (s N) < 2 ^ Z.of_nat n)%Z /\
  fval (s (sa_X g)) = (fval (s A) - fval (s N))%Z /\
  fval (s (sa_Y g)) = (fval (s B) + fval (s N))%Z.
Proof.
  intros Hg Hs HA HB HN.
  assert (Hn : (n <= 252)%nat) by (apply subadd_shape in Hg; tauto).
  destruct (subadd_sat _ _ _ _ _ _ _ _ Hg Hs) as (x & y & Hx & Hy & EX & EY & E1 & E2).
  destruct (pow_bound n Hn) as [Hp0 Hp].
  pose proof (fval_range (s A)). pose proof (fval_range (s B)). pose proof (fval_range (s N)).
  rewrite <- (Fof_fval (s A)), <- (Fof_fval (s N)), <- Fof_sub in E1.
  rewrite <- (Fof_fval (s B)), <- (Fof_fval (s N)), <- Fof_add in E2.
  apply Fof_eq_iff in E1, E2.
  rewrite (Z.mod_small x), (Z.mod_small (_ + _)) in * by lia.
  assert (X0 : (fval (s A) - fval (s N) = x)%Z).
  { destruct (Z_le_gt_dec 0 (fval (s A) - fval (s N))).
    - rewrite Z.mod_small in E1 by lia. exact E1.
    - rewrite <- (Z.mod_add _ 1), Z.mod_small in E1 by lia. lia. }
  assert (Y0 : (fval (s B) + fval (s N) = y)%Z).
  { destruct (Z_le_gt_dec 0 y).
    - rewrite Z.mod_small in E2 by lia. exact E2.
    - rewrite <- (Z.mod_add y 1), Z.mod_small in E2 by lia. lia. }
  rewrite EX, EY. split; [lia|]. split; [lia|]. rewrite !fval_Fof_small by lia. lia.
Qed.

Lemma subadd_scope n A B N k g k' (P : var -> Prop) : subadd_new n A B N k = Ok (g, k') ->
  P A -> P B -> P N -> (forall v, (k <= v < k')%nat -> P v) -> cs_all P (subadd_constraints g).
Proof.
  intros Hg PA PB PN HP. apply subadd_shape in Hg.
  destruct Hg as (Hn & c1 & c2 & H1 & H2 & Hk & ->).
  unfold subadd_constraints. cbn [sa_A sa_B sa_N sa_X sa_Y sa_N_lt_A sa_N_leq_A sa_cmp_N_A sa_Y_lt sa_Y_leq sa_cmp_Y] in *.
  rewrite !cs_all_app. split; [|split].
  - eapply (comparison_scope _ _ _ _ _ _ _ _ P H1); cbn; auto; try (apply HP; lia).
    intros v Hv. apply HP. lia.
  - eapply (comparison_scope _ _ _ _ _ _ _ _ P H2); cbn; auto; try (apply HP; lia).
    intros v Hv. apply HP. lia.
  - unfold L1. scope; apply HP; lia.
Qed.

(** the honest witness never aborts on range-checked inputs and satisfies the
    constraints exactly when the transfer is possible *)
Lemma subadd_witness_range n A B N k g k' s : subadd_new n A B N k = Ok (g, k') ->
  (A < k)%nat -> (B < k)%nat -> (N < k)%nat ->
  (fval (s A) < 2 ^ Z.of_nat n)%Z -> (fval (s B) < 2 ^ Z.of_nat n)%Z -> (fval (s N) < 2 ^ Z.of_nat n)%Z ->
  exists s', subadd_witness g s = Ok s' /\ frame k k' s s' /\
   (sat s' (subadd_constraints g) <->
     (fval (s N) <= fval (s A))%Z /\ (fval (s B) + fval (s N) < 2 ^ Z.of_nat n)%Z).
Proof.
  intros Hg LA LB LN HA HB HN. pose proof Hg as Hg0.
  apply subadd_shape in Hg. destruct Hg as (Hn & c1 & c2 & H1 & H2 & Hk & ->).
  destruct (pow_bound n (proj2 Hn)) as [Hp0 Hp].
  pose proof (fval_range (s A)). pose proof (fval_range (s B)). pose proof (fval_range (s N)).
  assert (Hp1 : (Z.of_nat n < p_mod)%Z) by (apply Z.lt_trans with 253%Z; [lia|reflexivity]).
  assert (Hp2 : (Z.of_nat (n + 1) < p_mod)%Z) by (apply Z.lt_trans with 254%Z; [lia|reflexivity]).
  set (g := {| sa_A := A |}) in *.
  unfold subadd_witness. cbn [sa_A sa_B sa_N sa_X sa_Y sa_N_lt_A sa_N_leq_A sa_cmp_N_A sa_Y_lt sa_Y_leq sa_cmp_Y g].
  set (s1 := upd s k _). set (s2 := upd s1 (k + 1) _).
  assert (E2 : forall v, (v < k)%nat -> s2 v = s v) by (intros v Hv; subst s2 s1; rewrite !upd_other by lia; reflexivity).
  assert (EY2 : s2 (k + 1)%nat = s B + s N).
  { subst s2 s1. rewrite upd_same. now rewrite !upd_other by lia. }
  assert (EX2 : s2 k = s A - s N).
  { subst s2 s1. rewrite upd_other by lia. apply upd_same. }
  assert (M1 : fval (Fof (2 ^ Z.of_nat n) + ev s2 (V A) - ev s2 (V N)) = (2 ^ Z.of_nat n + fval (s A) - fval (s N))%Z).
  { cbn [ev]. rewrite !E2 by assumption. rewrite <- (Fof_fval (s A)) at 1. rewrite <- (Fof_fval (s N)) at 1.
    rewrite <- Fof_add, <- Fof_sub. apply fval_Fof_small. lia. }
  assert (Hpow1 : (2 ^ Z.of_nat (n + 1) = 2 * 2 ^ Z.of_nat n)%Z).
  { rewrite Nat.add_comm. cbn [Nat.add]. rewrite Nat2Z.inj_succ, Z.pow_succ_r by lia. reflexivity. }
  destruct (comparison_witness_ok n (V N) (V A) (k + 2) (k + 3) (k + 2) (k + 4) c1 _ s2 H1 Hp1) as
    (s3 & W3 & F3 & K3 & S3 & L3 & T3); try (cbn; lia).
  { rewrite M1, Hpow1. lia. }
  rewrite W3. cbn [obind]. rewrite M1 in L3, T3.
  assert (EY3 : s3 (k + 1)%nat = s B + s N) by (rewrite K3 by lia; exact EY2).
  assert (M2 : fval (Fof (2 ^ Z.of_nat (n + 1)) + ev s3 (LC (Fof (2 ^ Z.of_nat n))) - ev s3 (V (k + 1)))
     = (2 ^ Z.of_nat (n + 1) + 2 ^ Z.of_nat n - (fval (s B) + fval (s N)))%Z).
  { cbn [ev]. rewrite EY3. rewrite <- (Fof_fval (s B)) at 1. rewrite <- (Fof_fval (s N)) at 1.
    rewrite <- !Fof_add, <- Fof_sub. apply fval_Fof_small. rewrite Hpow1. lia. }
  destruct (comparison_witness_ok (n + 1) (V (k + 1)) (LC (Fof (2 ^ Z.of_nat n))) (k + n + 7) (k + n + 8)
     (k + n + 7) (k + n + 9) c2 _ s3 H2 Hp2) as
    (s4 & W4 & F4 & K4 & S4 & L4 & T4); try (cbn; lia).
  { rewrite M2. rewrite (Nat.add_comm (n + 1)). cbn [Nat.add]. rewrite Nat2Z.inj_succ, Z.pow_succ_r by lia. rewrite Hpow1. lia. }
  rewrite M2 in L4, T4.
  exists s4. split; [exact W4|]. split.
  { intros v Hv. rewrite F4 by lia. rewrite F3 by lia. subst s2 s1. rewrite !upd_other by lia. reflexivity. }
  assert (Hin : forall v, (v < k)%nat -> s4 v = s v).
  { intros v Hv. rewrite K4, K3 by lia. now apply E2. }
  split.
  - intros Hs. pose proof (subadd_range_sat _ _ _ _ _ _ _ _ Hg0 Hs) as Hr.
    rewrite !Hin in Hr by assumption. tauto.
  - intros [C1 C2]. unfold subadd_constraints.
    cbn [sa_A sa_B sa_N sa_X sa_Y sa_N_lt_A sa_N_leq_A sa_cmp_N_A sa_Y_lt sa_Y_leq sa_cmp_Y g].
    rewrite !sat_app, !sat_cons. split; [|split; [|split; [|split; [|split; [|split]]]]].
    + eapply (sat_ext (fun v => v < k + n + 7)%nat); [|intros v Hv; symmetry; apply K4; lia|exact S3].
      eapply (comparison_scope _ _ _ _ _ _ _ _ _ H1); cbn; lia.
    + exact S4.
    + unfold holds. cbn [cA cB cC ev L1]. rewrite !Hin by assumption.
      rewrite K4, K3, EX2 by lia. ring.
    + unfold holds. cbn [cA cB cC ev L1]. rewrite !Hin by assumption.
      rewrite K4, K3, EY2 by lia. ring.
    + unfold holds. cbn [cA cB cC ev L1]. rewrite K4, L3 by lia.
      rewrite (proj2 (Z.leb_le _ _)) by lia. cbn. ring.
    + unfold holds. cbn [cA cB cC ev L1]. rewrite T4. rewrite (proj2 (Z.ltb_lt _ _)) by (rewrite Hpow1; lia).
      cbn. ring.
    + constructor.
Qed.
