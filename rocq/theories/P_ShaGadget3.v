(** The compression gadget: message schedule and rounds. *)
From Coq Require Import List ZArith Bool Arith Lia.
From Verif Require Import Primes Field Base R1CS R1CSFacts M_Lookup P_Lookup M_Bits P_Bits Gadget Gadget2 M_Sha256 M_ShaGadget
  Spec_Utils Spec_Sha256 Spec_ShaGadget P_Sha256 P_ShaGadget P_ShaGadget2.
Import ListNotations.
Local Open Scope nat_scope.

Definition wpok (D : nat -> Prop) n0 g (R : assign -> Prop) (wp : wordp) (z : Z) : Prop :=
  wok D n0 g R (fst wp) z /\ vok D n0 g R (snd wp) z.
Lemma wpok_ext D n0 g R g' R' wp z : ext g R g' R' -> wpok D n0 g R wp z -> wpok D n0 g' R' wp z.
Proof. intros E [A B]. split; [eapply wok_ext|eapply vok_ext]; eauto. Qed.
Lemma Forall2_nth' {A B} (P : A -> B -> Prop) l l' a b : Forall2 P l l' -> forall i, i < length l -> P (nth i l a) (nth i l' b).
Proof. induction 1; cbn [length]; intros [|i] Hi; try lia; cbn [nth]; auto. apply IHForall2. lia. Qed.

Lemma Forall2_len {A B} (P : A -> B -> Prop) l l' : Forall2 P l l' -> length l = length l'.
Proof. induction 1; cbn [length]; congruence. Qed.

Ltac nx H := let v := fresh "v" in let g := fresh "g" in let E := fresh "Eq" in
  match type of H with okg _ _ _ (snd ?t) _ => destruct t as [v g] eqn:E; cbn [fst snd] in * end.

Definition sched_z (zs : list Z) : Z :=
  let t := length zs in let w k := nth (t - k) zs 0%Z in
  plus32 (plus32 (plus32 (ssig1 (w 2)) (w 7)) (ssig0 (w 15))) (w 16).
Lemma plus32_mod a b : plus32 (a mod 2 ^ 32) b = plus32 a b.
Proof. unfold plus32. apply Zplus_mod_idemp_l. Qed.
Lemma plus32_assoc4 a b c d : plus32 (plus32 (plus32 a b) c) d = ((c + a + d + b) mod 2 ^ 32)%Z.
Proof.
  unfold plus32. rewrite (Zplus_mod_idemp_l (a + b) c), (Zplus_mod_idemp_l (a + b + c) d). f_equal. lia.
Qed.
Lemma plus32_T1 h x y k w : plus32 (plus32 (plus32 (plus32 h x) y) k) w = ((h + x + y + k + w) mod 2 ^ 32)%Z.
Proof.
  unfold plus32. rewrite (Zplus_mod_idemp_l (h + x) y), (Zplus_mod_idemp_l (h + x + y) k), (Zplus_mod_idemp_l (h + x + y + k) w). reflexivity.
Qed.
Lemma ssig0_tb z i : w32z z -> i < 32 -> tb (ssig0 z) i = xorb (xorb (tbmod z i 7) (tbmod z i 18)) (if i + 3 <? 32 then tb z (i + 3) else false).
Proof.
  intros Hz Hi. unfold ssig0, tbmod. rewrite !tb_lxor, !tb_rotr, tb_shr by (lia || assumption).
  change (Z.to_nat 7) with 7. change (Z.to_nat 18) with 18. change (Z.to_nat 3) with 3.
  destruct (i + 3 <? 32) eqn:L; [reflexivity|]. apply Nat.ltb_ge in L. now rewrite (tb_high z (i + 3)).
Qed.
Lemma ssig1_tb z i : w32z z -> i < 32 -> tb (ssig1 z) i = xorb (xorb (tbmod z i 17) (tbmod z i 19)) (if i + 10 <? 32 then tb z (i + 10) else false).
Proof.
  intros Hz Hi. unfold ssig1, tbmod. rewrite !tb_lxor, !tb_rotr, tb_shr by (lia || assumption).
  change (Z.to_nat 17) with 17. change (Z.to_nat 19) with 19. change (Z.to_nat 10) with 10.
  destruct (i + 10 <? 32) eqn:L; [reflexivity|]. apply Nat.ltb_ge in L. now rewrite (tb_high z (i + 10)).
Qed.
Lemma bsig0_tb z i : w32z z -> i < 32 -> tb (bsig0 z) i = xorb (xorb (tbmod z i 2) (tbmod z i 13)) (tbmod z i 22).
Proof. intros Hz Hi. unfold bsig0, tbmod. rewrite !tb_lxor, !tb_rotr by (lia || assumption). reflexivity. Qed.
Lemma bsig1_tb z i : w32z z -> i < 32 -> tb (bsig1 z) i = xorb (xorb (tbmod z i 6) (tbmod z i 11)) (tbmod z i 25).
Proof. intros Hz Hi. unfold bsig1, tbmod. rewrite !tb_lxor, !tb_rotr by (lia || assumption). reflexivity. Qed.

Lemma sched_step_ok D n0 pre ws zs g R : okg D n0 pre g R -> Forall2 (wpok D n0 g R) ws zs -> 16 <= length zs ->
  exists ws' g' R', sched_step (ws, g) = (ws', g') /\ okg D n0 pre g' R' /\ ext g R g' R' /\ g_n g' = g_n g + 153 /\
    Forall2 (wpok D n0 g' R') ws' (zs ++ [sched_z zs]).
Proof.
  intros H HF HL. assert (Hl : length ws = length zs) by (eapply Forall2_len; eauto).
  assert (N : forall k, 1 <= k <= 16 -> wpok D n0 g R (nth (length ws - k) ws wp0) (nth (length zs - k) zs 0%Z)).
  { intros k Hk. rewrite Hl. apply Forall2_nth'; [exact HF|]. rewrite Hl. lia. }
  unfold sched_step.
  destruct (small_sigma_ok D n0 pre g R _ _ 7 18 3 _ H (proj1 (N 15 ltac:(lia))) ltac:(lia) (ssig0_w _ (wk_range _ _ _ _ _ _ (proj1 (N 15 ltac:(lia)))))
     (fun i Hi => ssig0_tb _ i (wk_range _ _ _ _ _ _ (proj1 (N 15 ltac:(lia)))) Hi)) as (R1 & H1 & E1 & N1 & B1). nx H1.
  assert (W2 := wok_ext _ _ _ _ _ _ _ _ E1 (proj1 (N 2 ltac:(lia)))).
  destruct (small_sigma_ok D n0 pre g0 R1 _ _ 17 19 10 _ H1 W2 ltac:(lia) (ssig1_w _ (wk_range _ _ _ _ _ _ W2))
     (fun i Hi => ssig1_tb _ i (wk_range _ _ _ _ _ _ W2) Hi)) as (R2 & H2 & E2 & N2 & B2). nx H2.
  assert (E02 := ext_trans _ _ _ _ _ _ E1 E2).
  assert (V16 := vok_ext _ _ _ _ _ _ _ _ E02 (proj2 (N 16 ltac:(lia)))).
  assert (V7 := vok_ext _ _ _ _ _ _ _ _ E02 (proj2 (N 7 ltac:(lia)))).
  assert (V0 := vok_ext _ _ _ _ _ _ _ _ E2 B1).
  set (z16 := nth (length zs - 16) zs 0%Z) in *. set (z7 := nth (length zs - 7) zs 0%Z) in *.
  set (z15 := nth (length zs - 15) zs 0%Z) in *. set (z2 := nth (length zs - 2) zs 0%Z) in *.
  match goal with |- context[alloc_lin ?l g1] => set (L := l) end.
  destruct (lin_ok D n0 pre g1 R2 L (ssig0 z15 + ssig1 z2 + z16 + z7)%Z H2) as (R3 & H3 & E3 & N3 & B3).
  { unfold L. cbn [lc_all]. repeat split; [apply V0|apply B2|apply V16|apply V7]. }
  { intros s Hs. unfold L. cbn [ev]. rewrite (vk_val _ _ _ _ _ _ V0 s Hs), (vk_val _ _ _ _ _ _ B2 s Hs), (vk_val _ _ _ _ _ _ V16 s Hs), (vk_val _ _ _ _ _ _ V7 s Hs).
    rewrite !Fof_add. ring. }
  nx H3.
  assert (Rng : forall z, w32z z -> (0 <= z < 2 ^ 32)%Z) by (intros z Hz; exact Hz).
  pose proof (ssig0_w _ (wk_range _ _ _ _ _ _ (proj1 (N 15 ltac:(lia))))) as K1. fold z15 in K1.
  pose proof (ssig1_w _ (wk_range _ _ _ _ _ _ (proj1 (N 2 ltac:(lia))))) as K2. fold z2 in K2.
  pose proof (wk_range _ _ _ _ _ _ (proj1 (N 16 ltac:(lia)))) as K3. fold z16 in K3.
  pose proof (wk_range _ _ _ _ _ _ (proj1 (N 7 ltac:(lia)))) as K4. fold z7 in K4.
  destruct (lastbits_ok D n0 pre g2 R3 34 _ _ H3 B3) as (W & pw & g' & R' & E & H4 & E4 & N4 & B4 & B5).
  { unfold w32z in *. change (Z.of_nat 34) with 34%Z. lia. }
  { lia. } { lia. }
  rewrite E. exists (ws ++ [(W, pw)]), g', R'. split; [reflexivity|]. split; [exact H4|].
  assert (E04 : ext g R g' R') by (eapply ext_trans; [exact E02|eapply ext_trans; eauto]).
  split; [exact E04|]. split; [rewrite N4, N3, N2, N1; lia|].
  apply Forall2_app.
  - eapply Forall2_impl'; [|exact HF]. intros a b. now apply wpok_ext.
  - constructor; [|constructor]. unfold sched_z. fold z16 z7 z15 z2. rewrite plus32_assoc4. split; cbn [fst snd]; auto.
Qed.
Lemma schedule_iter k : forall zs, schedule (S k) zs = schedule k (zs ++ [sched_z zs]).
Proof. reflexivity. Qed.
Lemma sched_iter_ok D n0 pre k : forall ws zs g R, okg D n0 pre g R -> Forall2 (wpok D n0 g R) ws zs -> 16 <= length zs ->
  exists ws' g' R', iter k sched_step (ws, g) = (ws', g') /\ okg D n0 pre g' R' /\ ext g R g' R' /\ g_n g' = g_n g + k * 153 /\
    Forall2 (wpok D n0 g' R') ws' (schedule k zs).
Proof.
  induction k as [|k IH]; intros ws zs g R H HF HL.
  - exists ws, g, R. split; [reflexivity|]. split; [exact H|]. split; [apply ext_refl|]. split; [lia|exact HF].
  - destruct (sched_step_ok D n0 pre ws zs g R H HF HL) as (ws1 & g1 & R1 & E1 & H1 & X1 & N1 & F1).
    destruct (IH _ _ _ _ H1 F1) as (ws2 & g2 & R2 & E2 & H2 & X2 & N2 & F2); [rewrite app_length; lia|].
    exists ws2, g2, R2. cbn [iter]. rewrite E1. split; [exact E2|]. split; [exact H2|]. split; [eapply ext_trans; eauto|].
    split; [rewrite N2, N1; lia|]. rewrite schedule_iter. exact F2.
Qed.
Lemma sched_in_ok D n0 pre : forall Ws zs0 ws zs g R, okg D n0 pre g R -> Forall2 (wpok D n0 g R) ws zs -> Forall2 (wok D n0 g R) Ws zs0 ->
  exists ws' g' R', fold_left sched_in Ws (ws, g) = (ws', g') /\ okg D n0 pre g' R' /\ ext g R g' R' /\ g_n g' = g_n g + length Ws /\
    Forall2 (wpok D n0 g' R') ws' (zs ++ zs0).
Proof.
  induction Ws as [|W Ws IH]; intros zs0 ws zs g R H HF HW; inversion HW as [|? z ? zs1 HW1 HW2]; subst.
  - exists ws, g, R. rewrite app_nil_r. split; [reflexivity|]. split; [exact H|]. split; [apply ext_refl|]. split; [cbn; lia|exact HF].
  - destruct (pack_ok D n0 pre g R W z H HW1) as (R1 & H1 & E1 & N1 & B1). cbn [fold_left]. unfold sched_in at 2. nx H1.
    destruct (IH zs1 (ws ++ [(W, v)]) (zs ++ [z]) g0 R1 H1) as (ws' & g' & R' & E & H2 & E2 & N2 & F2).
    { apply Forall2_app; [eapply Forall2_impl'; [|exact HF]; intros a b; now apply wpok_ext|].
      constructor; [|constructor]. split; cbn [fst snd]; [eapply wok_ext; eauto|exact B1]. }
    { eapply Forall2_impl'; [|exact HW2]. intros a b. now apply wok_ext. }
    exists ws', g', R'. split; [exact E|]. split; [exact H2|]. split; [eapply ext_trans; eauto|].
    split; [cbn [length]; lia|]. now rewrite <- app_assoc in F2.
Qed.

(** ** rounds *)
Definition regs_ok D n0 g (R : assign -> Prop) (r : regs8) (st : list Z) : Prop :=
  Forall2 (wok D n0 g R) [ra r; rb r; rc r; rdd r; re r; rf r; rg r; rh r] st.
Record quad : Type := Quad { qd : Z; qh : Z; qa : Z; qe : Z }.
Definition q_of (st st' : list Z) : quad := Quad (nth 3 st 0%Z) (nth 7 st 0%Z) (nth 0 st' 0%Z) (nth 4 st' 0%Z).
Definition qok D n0 g (R : assign -> Prop) (o : round_out) (q : quad) : Prop :=
  vok D n0 g R (ro_d o) (qd q) /\ vok D n0 g R (ro_h o) (qh q) /\ vok D n0 g R (ro_a o) (qa q) /\ vok D n0 g R (ro_e o) (qe q).
Lemma qok_ext D n0 g R g' R' o q : ext g R g' R' -> qok D n0 g R o q -> qok D n0 g' R' o q.
Proof. intros E (A & B & C & F). repeat split; eapply vok_ext; eauto. Qed.

Lemma round_ok' D n0 pre g R r st K pW w : okg D n0 pre g R -> regs_ok D n0 g R r st -> vok D n0 g R pW w -> w32z w -> w32z K ->
  exists o r' g' R', round_fn K pW r g = (o, r', g') /\ okg D n0 pre g' R' /\ ext g R g' R' /\ g_n g' = g_n g + 272 /\
    regs_ok D n0 g' R' r' (fips_step st (K, w)) /\ qok D n0 g' R' o (q_of st (fips_step st (K, w))).
Proof.
  intros H HR HW Kw KK. unfold regs_ok in HR.
  inversion HR as [|? a ? st1 Wa HR1]; subst. inversion HR1 as [|? b ? st2 Wb HR2]; subst. inversion HR2 as [|? c ? st3 Wc HR3]; subst.
  inversion HR3 as [|? d ? st4 Wd HR4]; subst. inversion HR4 as [|? e ? st5 We HR5]; subst. inversion HR5 as [|? f ? st6 Wf HR6]; subst.
  inversion HR6 as [|? q ? st7 Wg HR7]; subst. inversion HR7 as [|? h ? st8 Wh HR8]; subst. inversion HR8; subst. clear HR HR1 HR2 HR3 HR4 HR5 HR6 HR7 HR8.
  unfold round_fn.
  pose proof (wk_range _ _ _ _ _ _ Wa) as Ra. pose proof (wk_range _ _ _ _ _ _ We) as Re.
  pose proof (wk_range _ _ _ _ _ _ Wb) as Rb. pose proof (wk_range _ _ _ _ _ _ Wc) as Rc.
  pose proof (wk_range _ _ _ _ _ _ Wf) as Rf. pose proof (wk_range _ _ _ _ _ _ Wg) as Rg.
  pose proof (wk_range _ _ _ _ _ _ Wd) as Rd. pose proof (wk_range _ _ _ _ _ _ Wh) as Rh.
  destruct (big_sigma_ok D n0 pre g R (ra r) a 2 13 22 (bsig0 a) H Wa (bsig0_w a Ra) (fun i Hi => bsig0_tb a i Ra Hi)) as (R1 & H1 & E1 & N1 & B1). nx H1.
  destruct (big_sigma_ok D n0 pre _ R1 (re r) e 6 11 25 (bsig1 e) H1 (wok_ext _ _ _ _ _ _ _ _ E1 We) (bsig1_w e Re) (fun i Hi => bsig1_tb e i Re Hi)) as (R2 & H2 & E2 & N2 & B2). nx H2.
  assert (X2 := ext_trans _ _ _ _ _ _ E1 E2).
  destruct (choice_ok D n0 pre _ R2 (re r) (rf r) (rg r) e f q H2) as (R3 & H3 & E3 & N3 & B3); try (eapply wok_ext; [exact X2|assumption]). nx H3.
  assert (X3 := ext_trans _ _ _ _ _ _ X2 E3).
  destruct (majority_ok D n0 pre _ R3 (ra r) (rb r) (rc r) a b c H3) as (R4 & H4 & E4 & N4 & B4); try (eapply wok_ext; [exact X3|assumption]). nx H4.
  assert (X4 := ext_trans _ _ _ _ _ _ X3 E4).
  destruct (pack_ok D n0 pre _ R4 (rdd r) d H4 (wok_ext _ _ _ _ _ _ _ _ X4 Wd)) as (R5 & H5 & E5 & N5 & B5). nx H5.
  assert (X5 := ext_trans _ _ _ _ _ _ X4 E5).
  destruct (pack_ok D n0 pre _ R5 (rh r) h H5 (wok_ext _ _ _ _ _ _ _ _ X5 Wh)) as (R6 & H6 & E6 & N6 & B6). nx H6.
  assert (X6 := ext_trans _ _ _ _ _ _ X5 E6).
  assert (C5 := vok_ext _ _ _ _ _ _ _ _ E6 B5). assert (Y56 := ext_trans _ _ _ _ _ _ E5 E6).
  assert (C4 := vok_ext _ _ _ _ _ _ _ _ Y56 B4). assert (Y46 := ext_trans _ _ _ _ _ _ E4 Y56).
  assert (C3 := vok_ext _ _ _ _ _ _ _ _ Y46 B3). assert (Y36 := ext_trans _ _ _ _ _ _ E3 Y46).
  assert (C2 := vok_ext _ _ _ _ _ _ _ _ Y36 B2). assert (Y26 := ext_trans _ _ _ _ _ _ E2 Y36).
  assert (C1 := vok_ext _ _ _ _ _ _ _ _ Y26 B1). assert (CW := vok_ext _ _ _ _ _ _ _ _ X6 HW).
  match goal with |- context[alloc_lin (LAdd (LAdd ?t _) _) _] => set (T1 := t) end.
  set (t1 := (h + bsig1 e + fch e f q + K + w)%Z).
  assert (T1s : lc_all (kn D n0 g5) T1). { unfold T1. cbn [lc_all]. repeat split; [apply B6|apply C2|apply C3|apply CW]. }
  assert (T1v : forall s, R6 s -> ev s T1 = Fof t1).
  { intros s Hs. unfold T1, t1. cbn [ev]. rewrite (vk_val _ _ _ _ _ _ B6 s Hs), (vk_val _ _ _ _ _ _ C2 s Hs), (vk_val _ _ _ _ _ _ C3 s Hs), (vk_val _ _ _ _ _ _ CW s Hs).
    rewrite !Fof_add. ring. }
  destruct (lin_ok D n0 pre _ R6 (LAdd (LAdd T1 (V v)) (V v2)) (t1 + bsig0 a + fmaj a b c)%Z H6) as (R7 & H7 & E7 & N7 & B7).
  { cbn [lc_all]. split; [split; [exact T1s|apply C1]|apply C4]. }
  { intros s Hs. cbn [ev]. rewrite (T1v s Hs), (vk_val _ _ _ _ _ _ C1 s Hs), (vk_val _ _ _ _ _ _ C4 s Hs). rewrite !Fof_add. ring. }
  nx H7. assert (D5 := vok_ext _ _ _ _ _ _ _ _ E7 C5).
  destruct (lin_ok D n0 pre _ R7 (LAdd (V v3) T1) (d + t1)%Z H7) as (R8 & H8 & E8 & N8 & B8).
  { cbn [lc_all]. split; [apply D5|]. eapply lc_all_impl; [|exact T1s]. intros x. apply (kn_ext _ _ _ _ _ _ _ E7). }
  { intros s Hs. cbn [ev]. rewrite (vk_val _ _ _ _ _ _ D5 s Hs), (T1v s (proj2 E7 s Hs)). rewrite !Fof_add. ring. }
  nx H8.
  pose proof (bsig0_w a Ra) as K1. pose proof (bsig1_w e Re) as K2. pose proof (fch_w e f q Re Rf Rg) as K3. pose proof (fmaj_w a b c Ra Rb Rc) as K4.
  destruct (lastbits_ok D n0 pre _ R8 35 _ _ H8 (vok_ext _ _ _ _ _ _ _ _ E8 B7)) as (na & pa & g9 & R9 & Q9 & H9 & E9 & N9 & B9 & P9).
  { unfold w32z, t1 in *. change (Z.of_nat 35) with 35%Z. lia. }
  { lia. } { lia. }
  rewrite Q9.
  destruct (lastbits_ok D n0 pre _ R9 35 _ _ H9 (vok_ext _ _ _ _ _ _ _ _ E9 B8)) as (ne & pe & g10 & R10 & Q10 & H10 & E10 & N10 & B10 & P10).
  { unfold w32z, t1 in *. change (Z.of_nat 35) with 35%Z. lia. }
  { lia. } { lia. }
  rewrite Q10. eexists _, _, g10, R10. split; [reflexivity|]. split; [exact H10|].
  assert (Z68 := ext_trans _ _ _ _ _ _ E7 (ext_trans _ _ _ _ _ _ E8 (ext_trans _ _ _ _ _ _ E9 E10))).
  assert (X10 := ext_trans _ _ _ _ _ _ X6 Z68).
  split; [exact X10|]. split; [rewrite N10, N9, N8, N7, N6, N5, N4, N3, N2, N1; lia|].
  assert (Ea : fips_step [a; b; c; d; e; f; q; h] (K, w) =
    [((t1 + bsig0 a + fmaj a b c) mod 2 ^ 32)%Z; a; b; c; ((d + t1) mod 2 ^ 32)%Z; e; f; q]).
  { cbn [fips_step fst snd]. cbv zeta. rewrite (plus32_T1 h (bsig1 e) (fch e f q) K w). fold t1. unfold plus32.
    rewrite (Zplus_mod_idemp_r (bsig0 a + fmaj a b c)), (Zplus_mod_idemp_l t1), (Zplus_mod_idemp_r t1). rewrite Z.add_assoc. reflexivity. }
  rewrite Ea. split.
  - unfold regs_ok. cbn [ra rb rc rdd re rf rg rh].
    repeat (constructor; [first [exact B10|eapply wok_ext; [exact E10|exact B9]|eapply wok_ext; [exact X10|assumption]]|]). constructor.
  - unfold qok, q_of. cbn [qd qh qa qe nth ro_d ro_h ro_a ro_e]. repeat split; try apply P10.
    + eapply kn_ext; [exact Z68|apply C5].
    + intros s Hs. apply C5. now apply Z68.
    + eapply kn_ext; [exact Z68|apply B6].
    + intros s Hs. apply B6. now apply Z68.
    + eapply kn_ext; [exact E10|apply P9].
    + intros s Hs. apply P9. now apply E10.
Qed.

Fixpoint trace (st : list Z) (kws : list (Z * Z)) : list quad :=
  match kws with [] => [] | kw :: r => let st' := fips_step st kw in q_of st st' :: trace st' r end.
Lemma rounds_ok D n0 pre : forall kws kzs os qs r st g R, okg D n0 pre g R -> regs_ok D n0 g R r st -> Forall2 (qok D n0 g R) os qs ->
  Forall2 (fun kw kz => fst kw = fst kz /\ vok D n0 g R (snd (snd kw)) (snd kz) /\ w32z (fst kz) /\ w32z (snd kz)) kws kzs ->
  exists os' r' g' R', fold_left round_step kws (os, r, g) = (os', r', g') /\ okg D n0 pre g' R' /\ ext g R g' R' /\
    g_n g' = g_n g + length kws * 272 /\ Forall2 (qok D n0 g' R') os' (qs ++ trace st kzs) /\ regs_ok D n0 g' R' r' (fold_left fips_step kzs st).
Proof.
  induction kws as [|[K wp] kws IH]; intros kzs os qs r st g R H HR HO HK; inversion HK as [|? [K' w] ? kzs' (A & B & C & E0) HK']; subst.
  - exists os, r, g, R. cbn [fold_left trace length]. rewrite app_nil_r. split; [reflexivity|]. split; [exact H|]. split; [apply ext_refl|].
    split; [lia|]. split; [exact HO|exact HR].
  - cbn [fst snd] in A, B, C, E0. subst K'.
    destruct (round_ok' D n0 pre g R r st K (snd wp) w H HR B E0 C) as (o & r1 & g1 & R1 & Q1 & H1 & X1 & N1 & P1 & O1).
    destruct (IH kzs' (os ++ [o]) (qs ++ [q_of st (fips_step st (K, w))]) r1 (fips_step st (K, w)) g1 R1 H1 P1) as (os' & r' & g' & R' & Q & H2 & X2 & N2 & O2 & P2).
    { apply Forall2_app; [eapply Forall2_impl'; [|exact HO]; intros ? ?; now apply qok_ext|]. constructor; [exact O1|constructor]. }
    { eapply Forall2_impl'; [|exact HK']. cbn beta. intros x y (I1 & I2 & I3). split; [exact I1|]. split; [eapply vok_ext; eauto|exact I3]. }
    exists os', r', g', R'. cbn [fold_left]. unfold round_step at 2. cbn [fst snd]. rewrite Q1. split; [exact Q|]. split; [exact H2|].
    split; [eapply ext_trans; eauto|]. split; [cbn [length]; lia|]. cbn [trace]. cbn zeta. rewrite <- app_assoc in O2. split; [exact O2|exact P2].
Qed.
