(** The compression gadget: sigma, choice, majority, reduction modulo 2^32. *)
From Coq Require Import List ZArith Bool Arith Lia.
From Verif Require Import Primes Field Base R1CS R1CSFacts M_Lookup P_Lookup M_Bits P_Bits Gadget Gadget2 M_Sha256 M_ShaGadget
  Spec_Utils Spec_Sha256 P_Sha256 P_ShaGadget.
Import ListNotations.
Local Open Scope nat_scope.

(** ** bits of words *)
Lemma tb_lxor x y i : tb (Z.lxor x y) i = xorb (tb x i) (tb y i).
Proof. unfold tb. apply Z.lxor_spec. Qed.
Lemma tb_high x i : w32z x -> 32 <= i -> tb x i = false.
Proof.
  intros Hx Hi. unfold tb. destruct (Z.eq_dec x 0) as [->|N]; [apply Z.testbit_0_l|].
  apply Z.bits_above_log2; [apply Hx|]. apply Z.log2_lt_pow2; [unfold w32z in Hx; lia|].
  eapply Z.lt_le_trans; [apply Hx|]. apply Z.pow_le_mono_r; lia.
Qed.
Lemma tb_shr n x i : (0 <= n)%Z -> tb (shr n x) i = tb x (i + Z.to_nat n).
Proof.
  intros Hn. unfold tb, shr. rewrite <- Z.shiftr_div_pow2, Z.shiftr_spec by lia. f_equal. lia.
Qed.
Lemma tb_rotr n x i : w32z x -> (0 < n < 32)%Z -> i < 32 -> tb (rotr n x) i = tb x ((i + Z.to_nat n) mod 32).
Proof.
  intros Hx Hn Hi. unfold rotr. rewrite Z.add_comm.
  assert (Hlow : (0 <= x / 2 ^ n < 2 ^ (32 - n))%Z).
  { split; [apply Z.div_pos; [apply Hx|apply Z.pow_pos_nonneg; lia]|].
    apply Z.div_lt_upper_bound; [apply Z.pow_pos_nonneg; lia|]. rewrite <- Z.pow_add_r by lia.
    replace (n + (32 - n))%Z with 32%Z by lia. apply Hx. }
  rewrite <- (lor_add _ _ (32 - n)%Z) by (lia || exact Hlow). unfold tb. rewrite Z.lor_spec.
  rewrite <- Z.shiftl_mul_pow2, Z.shiftl_spec by lia.
  rewrite <- Z.shiftr_div_pow2, Z.shiftr_spec by lia.
  destruct (Z_lt_ge_dec (Z.of_nat i) (32 - n)) as [L|L].
  - rewrite (Z.testbit_neg_r _ (Z.of_nat i - (32 - n))) by lia. cbn [orb]. f_equal.
    rewrite Nat.mod_small by lia. lia.
  - replace (i + Z.to_nat n) with ((i + Z.to_nat n - 32) + 1 * 32) by lia. rewrite Nat.mod_add, Nat.mod_small by lia.
    assert (T : Z.testbit x (Z.of_nat i + n) = false).
    { replace (Z.of_nat i + n)%Z with (Z.of_nat (i + Z.to_nat n)) by lia. apply (tb_high x); [exact Hx|lia]. }
    rewrite T, orb_false_r. rewrite Z.mod_pow2_bits_low by lia. f_equal. lia.
Qed.
Lemma w32_lxor x y : w32z x -> w32z y -> w32z (Z.lxor x y).
Proof.
  intros Hx Hy. assert (0 <= Z.lxor x y)%Z by (apply Z.lxor_nonneg; unfold w32z in *; lia).
  split; [assumption|]. destruct (Z.eq_dec (Z.lxor x y) 0) as [->|N]; [reflexivity|].
  apply Z.log2_lt_pow2; [lia|]. eapply Z.le_lt_trans; [apply Z.log2_lxor; unfold w32z in *; lia|].
  assert (B : forall z, w32z z -> (Z.log2 z < 32)%Z).
  { intros z Hz. destruct (Z.eq_dec z 0) as [->|]; [reflexivity|]. apply Z.log2_lt_pow2; unfold w32z in *; lia. }
  apply Z.max_lub_lt; auto.
Qed.
Lemma w32_bits z : (forall i, 32 <= i -> tb z i = false) -> w32z z.
Proof.
  intros H. replace z with (z mod 2 ^ 32)%Z; [apply Z.mod_pos_bound; reflexivity|].
  apply Z.bits_inj'. intros n Hn. destruct (Z_lt_ge_dec n 32) as [L|L]; [now apply Z.mod_pow2_bits_low|].
  rewrite Z.mod_pow2_bits_high by lia. symmetry. replace n with (Z.of_nat (Z.to_nat n)) by lia. apply H. lia.
Qed.
Lemma w32_land x y : w32z x -> w32z y -> w32z (Z.land x y).
Proof.
  intros Hx Hy. apply w32_bits. intros i Hi. unfold tb. rewrite Z.land_spec. fold (tb x i). now rewrite tb_high.
Qed.
Lemma w32_ldiff x y : w32z x -> w32z (Z.ldiff x y).
Proof.
  intros Hx. apply w32_bits. intros i Hi. unfold tb. rewrite Z.ldiff_spec. fold (tb x i). now rewrite tb_high.
Qed.
Lemma w32_rotr n x : w32z x -> (0 < n < 32)%Z -> w32z (rotr n x).
Proof.
  intros Hx Hn. unfold rotr, w32z in *. assert (0 < 2 ^ n)%Z by (apply Z.pow_pos_nonneg; lia).
  assert (0 < 2 ^ (32 - n))%Z by (apply Z.pow_pos_nonneg; lia).
  assert (E : (2 ^ 32 = 2 ^ n * 2 ^ (32 - n))%Z) by (rewrite <- Z.pow_add_r by lia; f_equal; lia).
  assert (0 <= x / 2 ^ n < 2 ^ (32 - n))%Z.
  { split; [apply Z.div_pos; lia|]. apply Z.div_lt_upper_bound; [lia|]. rewrite <- E. lia. }
  pose proof (Z.mod_pos_bound x (2 ^ n)). rewrite E. nia.
Qed.
Lemma w32_shr n x : w32z x -> (0 <= n)%Z -> w32z (shr n x).
Proof.
  intros Hx Hn. unfold shr, w32z in *. assert (0 < 2 ^ n)%Z by (apply Z.pow_pos_nonneg; lia).
  split; [apply Z.div_pos; lia|]. eapply Z.le_lt_trans; [|apply Hx]. apply Z.div_le_upper_bound; [lia|]. nia.
Qed.
Lemma w32_plus x y : w32z (plus32 x y). Proof. unfold w32z, plus32. apply Z.mod_pos_bound. reflexivity. Qed.
Lemma bsig0_w x : w32z x -> w32z (bsig0 x).
Proof. intros H. unfold bsig0. repeat apply w32_lxor; apply w32_rotr; (lia || exact H). Qed.
Lemma bsig1_w x : w32z x -> w32z (bsig1 x).
Proof. intros H. unfold bsig1. repeat apply w32_lxor; apply w32_rotr; (lia || exact H). Qed.
Lemma ssig0_w x : w32z x -> w32z (ssig0 x).
Proof. intros H. unfold ssig0. repeat apply w32_lxor; (apply w32_rotr || apply w32_shr); (lia || exact H). Qed.
Lemma ssig1_w x : w32z x -> w32z (ssig1 x).
Proof. intros H. unfold ssig1. repeat apply w32_lxor; (apply w32_rotr || apply w32_shr); (lia || exact H). Qed.
Lemma fch_w x y z : w32z x -> w32z y -> w32z z -> w32z (fch x y z).
Proof. intros. unfold fch. apply w32_lxor; [now apply w32_land|now apply w32_ldiff]. Qed.
Lemma fmaj_w x y z : w32z x -> w32z y -> w32z z -> w32z (fmaj x y z).
Proof. intros. unfold fmaj. repeat apply w32_lxor; now apply w32_land. Qed.
Lemma tb_fch x y z i : tb (fch x y z) i = chb (tb x i) (tb y i) (tb z i).
Proof.
  unfold fch. rewrite tb_lxor. unfold tb. rewrite Z.land_spec, Z.ldiff_spec. unfold chb.
  destruct (Z.testbit x _), (Z.testbit y _), (Z.testbit z _); reflexivity.
Qed.
Lemma tb_fmaj x y z i : tb (fmaj x y z) i = majb (tb x i) (tb y i) (tb z i).
Proof. unfold fmaj. rewrite !tb_lxor. unfold tb. rewrite !Z.land_spec. reflexivity. Qed.

Lemma rot_wok D n0 g R W z k i : wok D n0 g R W z -> lc_all (kn D n0 g) (rot W k i) /\
  forall s, R s -> ev s (rot W k i) = b2F (tb z ((i + k) mod 32)).
Proof.
  intros [A B C E]. unfold rot. split; [now apply nth_all|]. intros s Hs. apply (E s Hs). apply Nat.mod_upper_bound. lia.
Qed.
Lemma nth_wok D n0 g R W z i : wok D n0 g R W z -> i < 32 -> lc_all (kn D n0 g) (nth i W L0) /\
  forall s, R s -> ev s (nth i W L0) = b2F (tb z i).
Proof. intros [A B C E] Hi. split; [now apply nth_all|]. intros s Hs. now apply (E s Hs). Qed.

(** ** the sigma gadgets *)
Definition tbmod (z : Z) (i k : nat) : bool := tb z ((i + k) mod 32).
Lemma small_sigma_ok D n0 pre g R W z r1 r2 sh y : okg D n0 pre g R -> wok D n0 g R W z -> sh <= 32 -> w32z y ->
  (forall i, i < 32 -> tb y i = xorb (xorb (tbmod z i r1) (tbmod z i r2)) (if i + sh <? 32 then tb z (i + sh) else false)) ->
  exists R', okg D n0 pre (snd (small_sigma W r1 r2 sh g)) R' /\ ext g R (snd (small_sigma W r1 r2 sh g)) R' /\
    g_n (snd (small_sigma W r1 r2 sh g)) = g_n g + (32 - sh) + 33 /\
    vok D n0 (snd (small_sigma W r1 r2 sh g)) R' (fst (small_sigma W r1 r2 sh g)) y.
Proof.
  intros H HW Hsh Hy Hb. unfold small_sigma.
  set (g1 := alloc_gates (map (fun i => xor2 (rot W r1 i) (rot W r2 i)) (seq 0 (32 - sh))) g).
  destruct (gates_bits D n0 pre g R (fun i => xor2 (rot W r1 i) (rot W r2 i)) (fun i => xorb (tbmod z i r1) (tbmod z i r2)) (32 - sh) H)
    as (R1 & H1 & E1 & N1 & B1).
  { intros i n Hi. destruct (rot_wok _ _ _ _ _ _ r1 i HW), (rot_wok _ _ _ _ _ _ r2 i HW). now apply xor2_gate. }
  fold g1 in H1, E1, N1, B1. assert (HW1 := wok_ext _ _ _ _ _ _ _ _ E1 HW).
  set (f2 := fun i => if i + sh <? 32 then xor2 (V (g_n g + i)) (nth (i + sh) W L0) else xor2 (rot W r1 i) (rot W r2 i)).
  set (g2 := alloc_gates (map f2 (seq 0 32)) g1).
  destruct (gates_bits D n0 pre g1 R1 f2 (tb y) 32 H1) as (R2 & H2 & E2 & N2 & B2).
  { intros i n Hi. unfold f2. rewrite (Hb i Hi). destruct (i + sh <? 32) eqn:L.
    - apply Nat.ltb_lt in L. destruct (nth_wok _ _ _ _ _ _ (i + sh) HW1 L). destruct (B1 i); [lia|]. apply xor2_gate; auto.
    - rewrite xorb_false_r. destruct (rot_wok _ _ _ _ _ _ r1 i HW1), (rot_wok _ _ _ _ _ _ r2 i HW1). now apply xor2_gate. }
  fold g2 in H2, E2, N2, B2.
  destruct (pack_ok D n0 pre g2 R2 (word_vars (g_n g1)) y H2) as (R3 & H3 & E3 & N3 & B3).
  { apply word_vars_ok; auto. }
  exists R3. split; [exact H3|]. split; [eapply ext_trans; [exact E1|eapply ext_trans; [exact E2|exact E3]]|].
  split; [rewrite N3, N2, N1; lia|exact B3].
Qed.
Lemma big_sigma_ok D n0 pre g R W z r1 r2 r3 y : okg D n0 pre g R -> wok D n0 g R W z -> w32z y ->
  (forall i, i < 32 -> tb y i = xorb (xorb (tbmod z i r1) (tbmod z i r2)) (tbmod z i r3)) ->
  exists R', okg D n0 pre (snd (big_sigma W r1 r2 r3 g)) R' /\ ext g R (snd (big_sigma W r1 r2 r3 g)) R' /\
    g_n (snd (big_sigma W r1 r2 r3 g)) = g_n g + 65 /\
    vok D n0 (snd (big_sigma W r1 r2 r3 g)) R' (fst (big_sigma W r1 r2 r3 g)) y.
Proof.
  intros H HW Hy Hb. unfold big_sigma.
  set (g1 := alloc_gates (map (fun i => xor2 (rot W r1 i) (rot W r2 i)) (seq 0 32)) g).
  destruct (gates_bits D n0 pre g R (fun i => xor2 (rot W r1 i) (rot W r2 i)) (fun i => xorb (tbmod z i r1) (tbmod z i r2)) 32 H)
    as (R1 & H1 & E1 & N1 & B1).
  { intros i n Hi. destruct (rot_wok _ _ _ _ _ _ r1 i HW), (rot_wok _ _ _ _ _ _ r2 i HW). now apply xor2_gate. }
  fold g1 in H1, E1, N1, B1. assert (HW1 := wok_ext _ _ _ _ _ _ _ _ E1 HW).
  set (f2 := fun i => xor2 (V (g_n g + i)) (rot W r3 i)).
  set (g2 := alloc_gates (map f2 (seq 0 32)) g1).
  destruct (gates_bits D n0 pre g1 R1 f2 (tb y) 32 H1) as (R2 & H2 & E2 & N2 & B2).
  { intros i n Hi. unfold f2. rewrite (Hb i Hi). destruct (rot_wok _ _ _ _ _ _ r3 i HW1). destruct (B1 i Hi). apply xor2_gate; auto. }
  fold g2 in H2, E2, N2, B2.
  destruct (pack_ok D n0 pre g2 R2 (word_vars (g_n g1)) y H2) as (R3 & H3 & E3 & N3 & B3).
  { apply word_vars_ok; auto. }
  exists R3. split; [exact H3|]. split; [eapply ext_trans; [exact E1|eapply ext_trans; [exact E2|exact E3]]|].
  split; [rewrite N3, N2, N1; lia|exact B3].
Qed.
Lemma choice_ok D n0 pre g R X Y Z x y z : okg D n0 pre g R -> wok D n0 g R X x -> wok D n0 g R Y y -> wok D n0 g R Z z ->
  exists R', okg D n0 pre (snd (choice X Y Z g)) R' /\ ext g R (snd (choice X Y Z g)) R' /\
    g_n (snd (choice X Y Z g)) = g_n g + 33 /\
    vok D n0 (snd (choice X Y Z g)) R' (fst (choice X Y Z g)) (fch x y z).
Proof.
  intros H HX HY HZ. unfold choice.
  set (f := fun i => choice_gate (nth i X L0) (nth i Y L0) (nth i Z L0)). set (g1 := alloc_gates (map f (seq 0 32)) g).
  destruct (gates_bits D n0 pre g R f (tb (fch x y z)) 32 H) as (R1 & H1 & E1 & N1 & B1).
  { intros i n Hi. rewrite tb_fch. destruct (nth_wok _ _ _ _ _ _ i HX Hi), (nth_wok _ _ _ _ _ _ i HY Hi), (nth_wok _ _ _ _ _ _ i HZ Hi).
    now apply choice_gate_ok. }
  fold g1 in H1, E1, N1, B1.
  destruct (pack_ok D n0 pre g1 R1 (word_vars (g_n g)) (fch x y z) H1) as (R3 & H3 & E3 & N3 & B3).
  { apply word_vars_ok; auto. apply fch_w; [apply HX|apply HY|apply HZ]. }
  exists R3. split; [exact H3|]. split; [eapply ext_trans; [exact E1|exact E3]|]. split; [rewrite N3, N1; lia|exact B3].
Qed.
Lemma majority_ok D n0 pre g R X Y Z x y z : okg D n0 pre g R -> wok D n0 g R X x -> wok D n0 g R Y y -> wok D n0 g R Z z ->
  exists R', okg D n0 pre (snd (majority X Y Z g)) R' /\ ext g R (snd (majority X Y Z g)) R' /\
    g_n (snd (majority X Y Z g)) = g_n g + 33 /\
    vok D n0 (snd (majority X Y Z g)) R' (fst (majority X Y Z g)) (fmaj x y z).
Proof.
  intros H HX HY HZ. unfold majority.
  set (f := fun i => majority_gate (nth i X L0) (nth i Y L0) (nth i Z L0)). set (g1 := alloc_gates (map f (seq 0 32)) g).
  destruct (gates_bits D n0 pre g R f (tb (fmaj x y z)) 32 H) as (R1 & H1 & E1 & N1 & B1).
  { intros i n Hi. rewrite tb_fmaj. destruct (nth_wok _ _ _ _ _ _ i HX Hi), (nth_wok _ _ _ _ _ _ i HY Hi), (nth_wok _ _ _ _ _ _ i HZ Hi).
    now apply majority_gate_ok. }
  fold g1 in H1, E1, N1, B1.
  destruct (pack_ok D n0 pre g1 R1 (word_vars (g_n g)) (fmaj x y z) H1) as (R3 & H3 & E3 & N3 & B3).
  { apply word_vars_ok; auto. apply fmaj_w; [apply HX|apply HY|apply HZ]. }
  exists R3. split; [exact H3|]. split; [eapply ext_trans; [exact E1|exact E3]|]. split; [rewrite N3, N1; lia|exact B3].
Qed.

(** ** reduction modulo 2^32 *)
Lemma bits_unique (s : assign) (bits : list nat) z : (0 <= z < 2 ^ Z.of_nat (length bits))%Z -> (Z.of_nat (length bits) <= 253)%Z ->
  (exists bs, map s bits = map b2F bs /\ Fof z = Fof (natbits bs)) -> map s bits = map b2F (bits_of_Z (length bits) z).
Proof.
  intros Hz Hk (bs & E & Ez). assert (L : length bs = length bits) by (apply (f_equal (@length F)) in E; now rewrite !map_length in E).
  rewrite E. f_equal. rewrite <- (bits_natbits bs), L. f_equal.
  pose proof (natbits_range bs) as B. rewrite L in B.
  assert (2 ^ Z.of_nat (length bits) <= 2 ^ 253)%Z by (apply Z.pow_le_mono_r; lia).
  assert (2 ^ 253 < p_mod)%Z by reflexivity.
  apply (f_equal fval) in Ez. rewrite !fval_Fof in Ez. rewrite !Z.mod_small in Ez by lia. congruence.
Qed.
Lemma unpack_ok D n0 pre g R k x z : okg D n0 pre g R -> vok D n0 g R x z -> (0 <= z < 2 ^ Z.of_nat k)%Z -> (Z.of_nat k <= 253)%Z ->
  exists R', okg D n0 pre (unpack k x g) R' /\ ext g R (unpack k x g) R' /\
    forall i, i < k -> kn D n0 (unpack k x g) (g_n g + i) /\ forall s, R' s -> s (g_n g + i) = b2F (tb z i).
Proof.
  intros H [Hx Hv] Hz Hk. pose proof (og_le _ _ _ _ _ H).
  exists (fun s => R s /\ map s (seq (g_n g) k) = map b2F (bits_of_Z k z)). unfold unpack.
  assert (Hlow : (2 ^ Z.of_nat k <= 2 ^ 253)%Z) by (apply Z.pow_le_mono_r; lia).
  assert (Hp : (2 ^ 253 < p_mod)%Z) by reflexivity.
  assert (Hkn : forall v, g_n g <= v -> ~ kn D n0 g v). { intros v Hle [K|K]; [apply (og_D _ _ _ _ _ H) in K|]; lia. }
  split; [|split].
  - apply okg_step; [exact H|..].
    + apply packing_all; [|cbn [lc_all]; now left]. intros v Hv'. apply in_seq in Hv'. right. lia.
    + intros s Hs Hc. apply packing_sat in Hc. destruct Hc as (bs & E & Ez). cbn [ev] in Ez. rewrite (Hv s Hs) in Ez.
      assert (X := bits_unique s (seq (g_n g) k) z). rewrite seq_length in X. apply X; eauto.
    + intros s Hs. rewrite (packing_witness_ok _ _ _ (Fof z)).
      * exists (fill_bits_of s (seq (g_n g) k) (Fof z)). split; [reflexivity|]. split.
        -- intros v Hv'. apply fill_bits_other. rewrite in_seq. lia.
        -- apply packing_sat. exists (bits_of_Z k (fval (Fof z))). split.
           ++ rewrite fill_bits_spec by apply seq_NoDup. now rewrite seq_length.
           ++ rewrite fval_Fof, Z.mod_small by lia. rewrite natbits_bits_small by exact Hz. cbn [ev].
              rewrite fill_bits_other; [auto|]. rewrite in_seq. intros Hin. apply (Hkn x); [lia|exact Hx].
      * cbn [ev]. auto.
      * rewrite seq_length, fval_Fof, Z.mod_small by lia. lia.
    + intros s s' E Q. rewrite <- Q. apply map_ext_in. intros v Hv'. apply in_seq in Hv'. apply E. right. lia.
  - split; [cbn [g_n]; lia|tauto].
  - intros i Hi. split; [right; cbn [g_n]; lia|]. intros s [_ E]. rewrite bits_of_Z_tb, map_map in E.
    assert (X := f_equal (fun l => nth i l F0) E). cbn beta in X.
    rewrite (nth_indep _ F0 (s 0)) in X by (now rewrite map_length, seq_length).
    rewrite (map_nth s), seq_nth in X by exact Hi. rewrite X.
    rewrite (nth_indep _ F0 (b2F (tb z 0))) by (now rewrite map_length, seq_length).
    rewrite (map_nth (fun i => b2F (tb z i))), seq_nth by exact Hi. reflexivity.
Qed.
Lemma tb_mod z i : i < 32 -> tb (z mod 2 ^ 32) i = tb z i.
Proof. intros Hi. unfold tb. apply Z.mod_pow2_bits_low. lia. Qed.
Lemma lastbits_ok D n0 pre g R k x z : okg D n0 pre g R -> vok D n0 g R x z -> (0 <= z < 2 ^ Z.of_nat k)%Z -> 32 <= k -> (Z.of_nat k <= 253)%Z ->
  exists W pw g' R', lastbits k x g = (W, pw, g') /\ okg D n0 pre g' R' /\ ext g R g' R' /\ g_n g' = g_n g + k + 1 /\
    wok D n0 g' R' W (z mod 2 ^ 32) /\ vok D n0 g' R' pw (z mod 2 ^ 32).
Proof.
  intros H Hx Hz Hk Hk'. destruct (unpack_ok _ _ _ _ _ _ _ _ H Hx Hz Hk') as (R1 & H1 & E1 & B1).
  assert (Ww : wok D n0 (unpack k x g) R1 (word_vars (g_n g)) (z mod 2 ^ 32)).
  { apply word_vars_ok; [apply Z.mod_pos_bound; reflexivity|]. intros i Hi. rewrite tb_mod by exact Hi. apply B1. lia. }
  destruct (pack_ok D n0 pre _ R1 _ _ H1 Ww) as (R2 & H2 & E2 & N2 & B2).
  unfold lastbits. destruct (pack (word_vars (g_n g)) (unpack k x g)) as [pw g'] eqn:Ep. cbn [fst snd] in *.
  exists (word_vars (g_n g)), pw, g', R2. split; [reflexivity|]. split; [exact H2|].
  split; [eapply ext_trans; eauto|]. split; [rewrite N2; reflexivity|]. split; [eapply wok_ext; eauto|exact B2].
Qed.
