(** The compression gadget meets the contract. *)
From Coq Require Import List ZArith Bool Arith Lia.
From Verif Require Import Primes Field Base R1CS R1CSFacts M_Lookup P_Lookup M_Bits P_Bits Gadget Gadget2 M_Sha256 M_ShaGadget
  Spec_Utils P_Utils Spec_Sha256 Spec_ShaGadget P_Sha256 P_ShaGadget P_ShaGadget2 P_ShaGadget3 P_ShaGadget4.
Import ListNotations.
Local Open Scope nat_scope.

Lemma words_length {A} k w : forall l : list A, length (words k w l) = k.
Proof. induction k; intros l; cbn [words length]; auto. Qed.
Lemma Kw : Forall w32z fips_K.
Proof. apply Forall_forall. intros z Hz. unfold w32z. apply (proj1 (Forall_forall (fun z => (0 <=? z)%Z && (z <? 2 ^ 32)%Z = true) fips_K)) with (x := z) in Hz.
  - apply andb_true_iff in Hz. destruct Hz as [A B]. apply Z.leb_le in A. apply Z.ltb_lt in B. auto.
  - repeat (apply Forall_cons; [reflexivity|]). apply Forall_nil.
Qed.
Lemma Forall2_combine {A B C} (P : A * B -> A * C -> Prop) ks ws zs : length ws = length zs ->
  (forall k w z, In k ks -> In (w, z) (combine ws zs) -> P (k, w) (k, z)) -> Forall2 P (combine ks ws) (combine ks zs).
Proof.
  revert ws zs. induction ks as [|k ks IH]; intros ws zs Hl H; cbn [combine]; [constructor|].
  destruct ws as [|w ws], zs as [|z zs]; try discriminate Hl; [constructor|]. constructor.
  - apply H; now left.
  - apply IH; [now injection Hl|]. intros k' w' z' Hk Hin. apply H; now right.
Qed.
Lemma Forall2_in_combine {A B} (P : A -> B -> Prop) l l' a b : Forall2 P l l' -> In (a, b) (combine l l') -> P a b.
Proof. induction 1 as [|x y l l' Hxy H IH]; cbn [combine]; [intros []|]. intros [E|Hin]; [injection E as <- <-; exact Hxy|auto]. Qed.

Lemma size_sum n : n + 16 + 48 * 153 + 64 * 272 + 8 = n + (16 + 48 * 153 + 64 * 272 + 8).
Proof. rewrite !Nat.add_assoc. reflexivity. Qed.

Lemma unreduced_gates (D : nat -> Prop) n g3 (R3 : assign -> Prop) os T : Forall2 (qok D n g3 R3) os T -> length os = 64 ->
  Forall2 (fun gt x => forall k, g_n g3 <= k -> gate_is (kn D n g3) k R3 gt x) (map lin (unreduced os))
   (map Fof (map (fun i => (qd (nth (3 - i) T q0) + qa (nth (63 - i) T q0))%Z) (seq 0 4) ++
             map (fun i => (qh (nth (3 - i) T q0) + qe (nth (63 - i) T q0))%Z) (seq 0 4))).
Proof.
  intros F3 Los.
  assert (Eq : forall i, i < 64 -> qok D n g3 R3 (nth i os ro0) (nth i T q0)).
  { intros i Hi. apply Forall2_nth'; [exact F3|lia]. }
  assert (Gda : forall i j, i < 64 -> j < 64 -> forall k, g_n g3 <= k -> gate_is (kn D n g3) k R3 (lin (LAdd (V (ro_d (nth i os ro0))) (V (ro_a (nth j os ro0)))))
    (Fof (qd (nth i T q0) + qa (nth j T q0)))).
  { intros i j Hi Hj k Hk. destruct (Eq i Hi) as (A & _). destruct (Eq j Hj) as (_ & _ & B & _). apply lin_gate.
    - cbn [lc_all]. split; [apply A|apply B].
    - intros s Hs. cbn [ev]. now rewrite (vk_val _ _ _ _ _ _ A s Hs), (vk_val _ _ _ _ _ _ B s Hs), Fof_add. }
  assert (Ghe : forall i j, i < 64 -> j < 64 -> forall k, g_n g3 <= k -> gate_is (kn D n g3) k R3 (lin (LAdd (V (ro_h (nth i os ro0))) (V (ro_e (nth j os ro0)))))
    (Fof (qh (nth i T q0) + qe (nth j T q0)))).
  { intros i j Hi Hj k Hk. destruct (Eq i Hi) as (_ & A & _). destruct (Eq j Hj) as (_ & _ & _ & B). apply lin_gate.
    - cbn [lc_all]. split; [apply A|apply B].
    - intros s Hs. cbn [ev]. now rewrite (vk_val _ _ _ _ _ _ A s Hs), (vk_val _ _ _ _ _ _ B s Hs), Fof_add. }
  unfold unreduced. rewrite !map_app, !map_map. apply Forall2_app.
  - cbn [seq map]. repeat (apply Forall2_cons; [apply Gda; lia|]). apply Forall2_nil.
  - cbn [seq map]. repeat (apply Forall2_cons; [apply Ghe; lia|]). apply Forall2_nil.
Qed.

Section Core.
  Variables (n : nat) (prev : list lc) (block out : list nat) (P : nat -> Prop) (h m : list bool).
  Hypothesis WP : well_placed n prev block out.
  Hypothesis HPprev : Forall (lc_all P) prev.
  Hypothesis HPblock : Forall P block.
  Hypothesis Lh : length h = 256.
  Hypothesis Lm : length m = 512.
  Let D v := P v /\ v < n /\ ~ In v out.
  Let pre s := inputs_are s prev block h m.
  Let H0 := map msb_val (words 8 32 h).
  Let kzs := combine fips_K (schedule 48 (block_words m)).

  Lemma prev_D : Forall (lc_all D) prev.
  Proof.
    pose proof (wp_prev_in _ _ _ _ WP) as A. rewrite Forall_forall in *. intros l Hl. specialize (A l Hl). specialize (HPprev l Hl).
    clear - A HPprev. induction l; cbn [lc_all] in *; unfold D; tauto.
  Qed.
  Lemma block_D : Forall D block.
  Proof.
    pose proof (wp_block_in _ _ _ _ WP) as A. rewrite Forall_forall in *. intros v Hv. specialize (A v Hv). unfold D. auto.
  Qed.
  Lemma start : okg D n pre (GSt n [] []) pre.
  Proof.
    apply okg_start; [unfold D; tauto|]. intros s s' E [A B]. split.
    - rewrite <- A. apply map_ext_in. intros l Hl. apply ev_ext with D; [|exact E]. exact (proj1 (Forall_forall _ _) prev_D l Hl).
    - rewrite <- B. apply map_ext_in. intros v Hv. apply E. exact (proj1 (Forall_forall _ _) block_D v Hv).
  Qed.

  Lemma core_ok : exists u g R, compression_core prev block n = (u, g) /\ okg D n pre g R /\
    g_n g = n + (16 + 48 * 153 + 64 * 272 + 8) /\
    forall i, i < 8 -> kn D n g (u + i) /\ forall s, R s -> s (u + i) = Fof (nth i (map (fun xy => (fst xy + snd xy)%Z) (combine H0 (fold_left fips_step kzs H0))) 0%Z).
  Proof.
    assert (HH : length H0 = 8) by (unfold H0; now rewrite map_length, words_length).
    assert (HKZ : length kzs = 64).
    { unfold kzs. rewrite combine_length, schedule_length. unfold block_words. rewrite map_length, words_length. reflexivity. }
    unfold compression_core, message_schedule.
    assert (Wb : Forall2 (wok D n (GSt n [] []) pre) (rwords 16 (map V block)) (block_words m)).
    { unfold block_words. apply rwords_ok.
      - rewrite map_length. apply WP.
      - exact Lm.
      - apply Forall_forall. intros l Hl. apply in_map_iff in Hl. destruct Hl as (v & <- & Hv). cbn [lc_all]. left. exact (proj1 (Forall_forall _ _) block_D v Hv).
      - intros s [_ B]. rewrite map_map. exact B. }
    assert (Wp : Forall2 (wok D n (GSt n [] []) pre) (rwords 8 prev) H0).
    { unfold H0. apply rwords_ok.
      - apply WP.
      - exact Lh.
      - eapply Forall_impl; [|exact prev_D]. intros l. apply lc_all_impl. intros v Hv. now left.
      - intros s [A _]. exact A. }
    destruct (sched_in_ok D n pre _ _ [] [] _ _ start (Forall2_nil _) Wb) as (ws1 & g1 & R1 & Q1 & K1 & X1 & N1 & F1).
    rewrite Q1. rewrite app_nil_l in F1.
    destruct (sched_iter_ok D n pre 48 ws1 _ g1 R1 K1 F1) as (ws & g2 & R2 & Q2 & K2 & X2 & N2 & F2).
    { unfold block_words. rewrite map_length, words_length. lia. }
    rewrite Q2.
    assert (X02 := ext_trans _ _ _ _ _ _ X1 X2).
    assert (Lws : length ws = length (schedule 48 (block_words m))) by (eapply Forall2_len; exact F2).
    destruct (rounds_ok D n pre (combine K256 ws) kzs [] [] (regs_of prev) H0 g2 R2 K2) as (os & r' & g3 & R3 & Q3 & K3 & X3 & N3 & F3 & _).
    { unfold regs_ok, regs_of. cbn [ra rb rc rdd re rf rg rh].
      assert (Lr : length (rwords 8 prev) = 8) by (rewrite (Forall2_len _ _ _ Wp); exact HH).
      destruct (rwords 8 prev) as [|w0 [|w1 [|w2 [|w3 [|w4 [|w5 [|w6 [|w7 [|]]]]]]]]]; try discriminate Lr. cbn [nth].
      eapply Forall2_impl'; [|exact Wp]. intros a b. now apply wok_ext. }
    { constructor. }
    { unfold kzs. rewrite <- K_eq. apply Forall2_combine; [exact Lws|]. intros k w z Hk Hin. cbn [fst snd].
      pose proof (Forall2_in_combine _ _ _ _ _ F2 Hin) as [A B]. repeat split; try apply B; try apply A.
      - apply (proj1 (Forall_forall _ _) Kw k). now rewrite K_eq in Hk |- *.
      - apply (proj1 (Forall_forall _ _) Kw k). now rewrite K_eq in Hk |- *. }
    rewrite Q3. rewrite app_nil_l in F3.
    assert (Los : length os = 64) by (rewrite (Forall2_len _ _ _ F3), trace_length; exact HKZ).
    set (us := map (fun xy => (fst xy + snd xy)%Z) (combine H0 (fold_left fips_step kzs H0))).
    assert (Hgates := unreduced_gates D n g3 R3 os (trace H0 kzs) F3 Los). rewrite (trace_unreduced H0 kzs HH HKZ) in Hgates. fold us in Hgates.
    assert (K4 := okg_gates D n pre _ _ g3 R3 K3 Hgates).
    assert (Lu : length (map lin (unreduced os)) = 8) by reflexivity. rewrite Lu in K4.
    eexists _, _, _. split; [reflexivity|]. split; [exact K4|].
    assert (N4 : g_n (alloc_gates (map lin (unreduced os)) g3) = g_n g3 + 8) by (rewrite g_n_gates, Lu; reflexivity).
    pose proof (og_le _ _ _ _ _ K3) as L3. split; [|].
    - rewrite N4, N3, N2, N1. cbn [g_n]. rewrite combine_length, Lws, schedule_length. unfold block_words at 1. rewrite map_length, words_length.
      rewrite (Forall2_len _ _ _ Wb). unfold block_words. rewrite map_length, words_length. change (length K256) with 64. change (Nat.min 64 (16 + 48)) with 64. apply size_sum.
    - intros i Hi. split; [right; rewrite N4; lia|]. intros s [_ E].
      assert (X := f_equal (fun l => nth i l F0) E). cbn beta in X.
      rewrite (nth_indep _ F0 (s 0)) in X by (now rewrite map_length, seq_length).
      rewrite (map_nth s), seq_nth in X by exact Hi. rewrite X.
      rewrite (nth_indep _ F0 (Fof 0)). { now rewrite (map_nth Fof). }
      rewrite map_length. unfold us. rewrite map_length, combine_length, HH, (steps_length kzs H0 HH). exact Hi.
  Qed.
End Core.

Lemma steps_w32 ks : forall st, length st = 8 -> Forall w32z st -> Forall w32z (fold_left fips_step ks st).
Proof.
  induction ks as [|k ks IH]; intros st L H; cbn [fold_left]; [exact H|]. apply IH; [now apply fips_step_length|].
  destruct (list8 _ L) as (a & b & c & d & e & f & g & h & ->). cbn [fips_step]. cbv zeta.
  repeat match goal with X : Forall w32z (_ :: _) |- _ => inversion X; subst; clear X end.
  repeat (apply Forall_cons; [first [assumption|apply w32_plus]|]). apply Forall_nil.
Qed.
Lemma H0_w32 h : length h = 256 -> Forall w32z (map msb_val (words 8 32 h)).
Proof.
  intros L. assert (X : forall k b, length b = 32 * k -> Forall w32z (map msb_val (words k 32 b))).
  { induction k as [|k IH]; intros b Hb; cbn [words map]; constructor.
    - pose proof (msb_val_range (firstn 32 b)) as B. assert (E : length (firstn 32 b) = 32) by (rewrite firstn_length; lia). rewrite E in B. exact B.
    - apply IH. rewrite skipn_length. lia. }
  apply X. exact L.
Qed.
Lemma sums_range A B : Forall w32z A -> Forall w32z B -> Forall (fun z => 0 <= z < 2 ^ 33)%Z (map (fun xy => (fst xy + snd xy)%Z) (combine A B)).
Proof.
  intros HA. revert B. induction HA as [|a A Ha HA IH]; intros B HB; cbn [combine map]; [constructor|].
  destruct HB as [|b B Hb HB]; cbn [map]; constructor; [cbn [fst snd]; unfold w32z in *; lia|auto].
Qed.
Lemma sums_bits A : forall B, flat_map (msb_bits 32) (map (fun xy => (fst xy + snd xy)%Z) (combine A B)) = word_bits (map (fun xy => plus32 (fst xy) (snd xy)) (combine A B)).
Proof.
  unfold word_bits. induction A as [|a A IH]; intros B; [reflexivity|]. destruct B as [|b B]; [reflexivity|]. cbn [combine map flat_map fst snd]. rewrite IH. f_equal.
  apply msb_bits_mod. unfold plus32. change (Z.of_nat 32) with 32%Z. now rewrite Z.mod_mod.
Qed.

Lemma gst_ok n prev block out (P : nat -> Prop) h m : well_placed n prev block out -> Forall (lc_all P) prev -> Forall P block ->
  length h = 256 -> length m = 512 ->
  exists R O, okr (fun v => P v /\ v < n /\ ~ In v out) n (fun s => inputs_are s prev block h m) (compression_gst n prev block out) R O /\
    (forall v, In v O <-> In v out) /\ g_n (compression_gst n prev block out) = n + compression_size /\
    forall s, R s -> map s out = map b2F (compress_bits h m).
Proof.
  intros WP HP HB Lh Lm. destruct (core_ok n prev block out P h m WP HP HB Lh Lm) as (u & g & R & Q & K & N & U).
  unfold compression_gst. rewrite Q. set (H0 := map msb_val (words 8 32 h)) in *.
  set (F := fold_left fips_step (combine fips_K (schedule 48 (block_words m))) H0) in *.
  assert (HH : length H0 = 8) by (unfold H0; now rewrite map_length, words_length).
  assert (LF : length F = 8) by (apply steps_length; exact HH).
  destruct (reduce_ok _ n _ 8 u out (map (fun xy => (fst xy + snd xy)%Z) (combine H0 F)) g R [] (okg_okr _ _ _ _ _ K)) as (R' & O & K' & I' & N' & V').
  - apply WP.
  - rewrite map_length, combine_length, HH, LF. reflexivity.
  - exact U.
  - apply sums_range; [now apply H0_w32|]. apply steps_w32; [exact HH|now apply H0_w32].
  - apply WP.
  - intros v Hv. split; [exact (proj1 (Forall_forall _ _) (wp_out_in _ _ _ _ WP) v Hv)|tauto].
  - intros v _ [].
  - exists R', O. split; [exact K'|]. split; [intros v; rewrite I'; cbn [In]; tauto|]. split.
    + rewrite N', N. unfold compression_size. rewrite <- Nat.add_assoc. reflexivity.
    + intros s Hs. destruct (V' s Hs) as [_ E]. rewrite E. f_equal. rewrite sums_bits. unfold compress_bits, fips_compress. reflexivity.
Qed.

Lemma inputs_length s prev block h m n out : well_placed n prev block out -> inputs_are s prev block h m -> length h = 256 /\ length m = 512.
Proof.
  intros WP [A B]. apply (f_equal (@length _)) in A, B. rewrite !map_length in A, B. rewrite <- A, <- B. split; apply WP.
Qed.
Lemma libsnark_sha256_ok : compressor_ok libsnark_sha256.
Proof.
  constructor; unfold libsnark_sha256; cbn [cp_size cp_cs cp_wit]; unfold compression_constraints, compression_witness.
  - intros n prev block out P WP H1 H2 H3 H4.
    destruct (gst_ok n prev block out P (repeat false 256) (repeat false 512) WP H1 H2 (repeat_length _ _) (repeat_length _ _)) as (R & O & K & I & N & _).
    eapply cs_all_impl; [|exact (k_scope (or_gok _ _ _ _ _ _ K))]. cbn beta. rewrite N. intros v [[Hv|Hv]|Hv].
    + now apply H4.
    + apply I in Hv. exact (proj1 (Forall_forall _ _) H3 v Hv).
    + tauto.
  - intros n prev block out s h m WP Hi Hs. destruct (inputs_length _ _ _ _ _ _ _ WP Hi) as [Lh Lm].
    destruct (gst_ok n prev block out (fun _ => True) h m WP) as (R & O & K & I & N & V); auto.
    + apply Forall_forall. intros l _. clear. induction l; cbn [lc_all]; auto.
    + apply Forall_forall. auto.
    + apply V. exact (k_sound (or_gok _ _ _ _ _ _ K) s Hi Hs).
  - intros n prev block out s h m WP Hi. destruct (inputs_length _ _ _ _ _ _ _ WP Hi) as [Lh Lm].
    destruct (gst_ok n prev block out (fun _ => True) h m WP) as (R & O & K & I & N & V); auto.
    + apply Forall_forall. intros l _. clear. induction l; cbn [lc_all]; auto.
    + apply Forall_forall. auto.
    + destruct (k_complete (or_gok _ _ _ _ _ _ K) s Hi) as (s' & W & Fr & S). exists s'. split; [exact W|]. split; [|exact S].
      intros v Hv Hr. apply Fr. rewrite N. intros [Hx|Hx]; [lia|]. apply I in Hx. tauto.
Qed.
