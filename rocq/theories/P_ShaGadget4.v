(** The compression gadget: inputs, unreduced outputs, reduction, and the contract. *)
From Coq Require Import List ZArith Bool Arith Lia.
From Verif Require Import Primes Field Base R1CS R1CSFacts M_Lookup P_Lookup M_Bits P_Bits Gadget Gadget2 M_Sha256 M_ShaGadget
  Spec_Utils P_Utils Spec_Sha256 Spec_ShaGadget P_Sha256 P_ShaGadget P_ShaGadget2 P_ShaGadget3.
Import ListNotations.
Local Open Scope nat_scope.

Lemma NoDup_app' {A} (l m : list A) : NoDup l -> NoDup m -> (forall x, In x l -> In x m -> False) -> NoDup (l ++ m).
Proof.
  induction l as [|a l IH]; cbn [app]; intros Hl Hm Hd; [exact Hm|]. inversion Hl as [|? ? H1 H2]; subst. constructor.
  - rewrite in_app_iff. intros [H|H]; [now apply H1|]. apply (Hd a); [now left|exact H].
  - apply IH; auto. intros x Hx. apply Hd. now right.
Qed.
Lemma NoDup_app_inv {A} (l m : list A) : NoDup (l ++ m) -> NoDup l /\ NoDup m /\ forall x, In x l -> In x m -> False.
Proof.
  induction l as [|a l IH]; cbn [app]; intros H; [split; [constructor|split; [exact H|intros x []]]|].
  inversion H as [|? ? H1 H2]; subst. destruct (IH H2) as (I1 & I2 & I3). rewrite in_app_iff in H1. split; [constructor; tauto|].
  split; [exact I2|]. intros x [<-|Hx] Hm; [tauto|]. now apply (I3 x).
Qed.
(** ** the words of the inputs *)
Lemma tb_msb b i : i < length b -> tb (msb_val b) i = nth i (rev b) false.
Proof.
  intros Hi. rewrite <- (msb_bits_val b) at 2. rewrite msb_bits_map, <- map_rev.
  assert (L : length (rev (seq 0 (length b))) = length b) by now rewrite rev_length, seq_length.
  rewrite (nth_indep _ false (Z.testbit (msb_val b) (Z.of_nat (length b - 1 - 0)))) by (now rewrite map_length, L).
  rewrite (map_nth (fun j => Z.testbit (msb_val b) (Z.of_nat (length b - 1 - j)))).
  unfold tb. f_equal. f_equal. rewrite rev_nth by (now rewrite seq_length). rewrite seq_length, seq_nth by lia. lia.
Qed.
Lemma firstn_map' {A B} (f : A -> B) n l : firstn n (map f l) = map f (firstn n l).
Proof. apply firstn_map. Qed.
Lemma rwords_ok (D : nat -> Prop) n0 g (R : assign -> Prop) k : forall l bs, length l = 32 * k -> length bs = 32 * k ->
  Forall (lc_all (kn D n0 g)) l -> (forall s, R s -> map (ev s) l = map b2F bs) ->
  Forall2 (wok D n0 g R) (rwords k l) (map msb_val (words k 32 bs)).
Proof.
  induction k as [|k IH]; intros l bs Hl Hb HF HE; cbn [rwords words map]; [constructor|].
  assert (L1 : length (firstn 32 l) = 32) by (rewrite firstn_length; lia).
  assert (L2 : length (firstn 32 bs) = 32) by (rewrite firstn_length; lia).
  constructor.
  - constructor.
    + pose proof (msb_val_range (firstn 32 bs)) as B. rewrite L2 in B. exact B.
    + now rewrite rev_length.
    + apply Forall_rev. rewrite <- (firstn_skipn 32 l) in HF. now apply Forall_app in HF.
    + intros s Hs i Hi. rewrite tb_msb by lia.
      specialize (HE s Hs). apply (f_equal (firstn 32)) in HE. rewrite !firstn_map in HE.
      apply (f_equal (@rev F)) in HE. rewrite <- !map_rev in HE.
      assert (X := f_equal (fun x => nth i x F0) HE). cbn beta in X.
      rewrite (nth_indep _ F0 (ev s L0)) in X by (rewrite map_length, rev_length; lia).
      rewrite (map_nth (ev s)) in X. rewrite X.
      rewrite (nth_indep _ F0 (b2F false)) by (rewrite map_length, rev_length; lia). now rewrite (map_nth b2F).
  - apply IH.
    + rewrite skipn_length. lia.
    + rewrite skipn_length. lia.
    + rewrite <- (firstn_skipn 32 l) in HF. now apply Forall_app in HF.
    + intros s Hs. rewrite <- !skipn_map. now rewrite (HE s Hs).
Qed.

(** ** the first and last rounds *)
Definition q0 : quad := Quad 0 0 0 0.
Lemma fips_step_length st kw : length st = 8 -> length (fips_step st kw) = 8.
Proof. intros H. do 9 (destruct st as [|? st]; try discriminate H). reflexivity. Qed.
Lemma trace_length kzs : forall st, length (trace st kzs) = length kzs.
Proof. induction kzs; intros st; cbn [trace length]; auto. Qed.
Lemma trace_app ks ks' : forall st, trace st (ks ++ ks') = trace st ks ++ trace (fold_left fips_step ks st) ks'.
Proof. induction ks as [|k ks IH]; intros st; cbn [app trace fold_left]; [reflexivity|]. now rewrite IH. Qed.
Lemma steps_length ks : forall st, length st = 8 -> length (fold_left fips_step ks st) = 8.
Proof. induction ks; intros st H; cbn [fold_left]; auto. apply IHks. now apply fips_step_length. Qed.
Lemma list8 (l : list Z) : length l = 8 -> exists a b c d e f g h, l = [a; b; c; d; e; f; g; h].
Proof.
  intros H. do 8 (destruct l as [|? l]; try discriminate H). destruct l; [|discriminate H]. repeat eexists.
Qed.
Lemma trace_first H kzs i : length H = 8 -> 4 <= length kzs -> i < 4 ->
  qd (nth (3 - i) (trace H kzs) q0) = nth i H 0%Z /\ qh (nth (3 - i) (trace H kzs) q0) = nth (4 + i) H 0%Z.
Proof.
  intros HH Hk Hi. destruct (list8 _ HH) as (a & b & c & d & e & f & g & h & ->).
  destruct kzs as [|k0 [|k1 [|k2 [|k3 r]]]]; cbn [length] in Hk; try lia.
  destruct i as [|[|[|[|i]]]]; try lia; split; reflexivity.
Qed.
Lemma trace_last H kzs i : length H = 8 -> length kzs = 64 -> i < 4 ->
  qa (nth (63 - i) (trace H kzs) q0) = nth i (fold_left fips_step kzs H) 0%Z /\
  qe (nth (63 - i) (trace H kzs) q0) = nth (4 + i) (fold_left fips_step kzs H) 0%Z.
Proof.
  intros HH Hk Hi. rewrite <- (firstn_skipn 60 kzs). set (A := firstn 60 kzs).
  assert (LA : length A = 60) by (unfold A; rewrite firstn_length; lia).
  assert (LB : length (skipn 60 kzs) = 4) by (rewrite skipn_length; lia).
  destruct (skipn 60 kzs) as [|k0 [|k1 [|k2 [|k3 [|]]]]]; try discriminate LB.
  rewrite trace_app, fold_left_app, app_nth2 by (rewrite trace_length; lia). rewrite trace_length, LA.
  destruct (list8 _ (steps_length A H HH)) as (a & b & c & d & e & f & g & h & ->).
  destruct i as [|[|[|[|i]]]]; try lia; split; reflexivity.
Qed.
Lemma trace_unreduced H kzs : length H = 8 -> length kzs = 64 ->
  map (fun i => (qd (nth (3 - i) (trace H kzs) q0) + qa (nth (63 - i) (trace H kzs) q0))%Z) (seq 0 4) ++
  map (fun i => (qh (nth (3 - i) (trace H kzs) q0) + qe (nth (63 - i) (trace H kzs) q0))%Z) (seq 0 4)
  = map (fun xy => (fst xy + snd xy)%Z) (combine H (fold_left fips_step kzs H)).
Proof.
  intros HH Hk.
  rewrite (map_ext_in _ (fun i => (nth i H 0 + nth i (fold_left fips_step kzs H) 0)%Z)).
  2:{ intros i Hi. apply in_seq in Hi. now rewrite (proj1 (trace_first H kzs i HH ltac:(lia) ltac:(lia))), (proj1 (trace_last H kzs i HH Hk ltac:(lia))). }
  rewrite (map_ext_in (fun i => (qh _ + _)%Z) (fun i => (nth (4 + i) H 0 + nth (4 + i) (fold_left fips_step kzs H) 0)%Z)).
  2:{ intros i Hi. apply in_seq in Hi. now rewrite (proj2 (trace_first H kzs i HH ltac:(lia) ltac:(lia))), (proj2 (trace_last H kzs i HH Hk ltac:(lia))). }
  destruct (list8 _ (steps_length kzs H HH)) as (a & b & c & d & e & f & g & h & ->).
  destruct (list8 _ HH) as (a' & b' & c' & d' & e' & f' & g' & h' & ->). reflexivity.
Qed.

(** ** reduction onto the output digest *)
Definition knr (D : nat -> Prop) n0 g (O : list nat) v : Prop := kn D n0 g v \/ In v O.
Record okr (D : nat -> Prop) (n0 : nat) (pre : assign -> Prop) (g : gst) (R : assign -> Prop) (O : list nat) : Prop := {
  or_gok : gok (fun v => n0 <= v < g_n g \/ In v O) D (g_cs g) (oseq (g_w g)) pre R;
  or_stable : forall s s', (forall v, knr D n0 g O v -> s' v = s v) -> R s -> R s';
  or_le : n0 <= g_n g;
  or_D : forall v, D v -> v < n0;
  or_O : forall v, In v O -> v < n0 /\ ~ D v }.
Lemma okg_okr D n0 pre g R : okg D n0 pre g R -> okr D n0 pre g R [].
Proof.
  intros [G S L HD]. constructor; auto.
  - eapply gok_weaken; [exact G|..]; auto.
    + cbn [In]. intros; tauto.
    + cbn [In]. intros v [Hv|[]] Hd. apply HD in Hd. lia.
    + exact (k_stable G).
  - intros s s' E. apply S. intros v Hv. apply E. now left.
  - intros v [].
Qed.
Lemma okr_step D n0 pre g R O W k cs w (R' : assign -> Prop) : okr D n0 pre g R O ->
  (forall v, In v W -> v < n0 /\ ~ D v) -> (forall v, In v W -> ~ In v O) ->
  cs_all (fun v => knr D n0 g O v \/ g_n g <= v < g_n g + k \/ In v W) cs ->
  (forall s, R s -> sat s cs -> R' s) ->
  (forall s, R s -> exists s', w s = Ok s' /\ (forall v, ~ (g_n g <= v < g_n g + k) -> ~ In v W -> s' v = s v) /\ sat s' cs) ->
  (forall s s', (forall v, knr D n0 g O v \/ g_n g <= v < g_n g + k \/ In v W -> s' v = s v) -> R' s -> R' s') ->
  okr D n0 pre (GSt (g_n g + k) (g_cs g ++ cs) (g_w g ++ [w])) (fun s => R s /\ R' s) (O ++ W).
Proof.
  intros H HW HWO Hsc Hsound Hcomp Hst. destruct H as [G S L HD HO].
  assert (E : forall v, knr D n0 (GSt (g_n g + k) (g_cs g ++ cs) (g_w g ++ [w])) (O ++ W) v <-> knr D n0 g O v \/ g_n g <= v < g_n g + k \/ In v W).
  { intros v. unfold knr, kn. cbn [g_n]. rewrite in_app_iff. split.
    - intros [[?|?]|[?|?]]; try tauto. destruct (le_lt_dec (g_n g) v); [right; left; lia|left; left; right; lia].
    - intros [[[?|?]|?]|[?|?]]; try tauto; left; right; lia. }
  constructor; cbn [g_n g_cs g_w]; [|..|lia|exact HD|].
  - apply gok_ext with (w := fun s => obind (oseq (g_w g) s) w); [|intros s; apply oseq_snoc].
    apply gok_seq with (own1 := fun v => n0 <= v < g_n g \/ In v O) (dep1 := D) (own2 := fun v => g_n g <= v < g_n g + k \/ In v W)
      (dep2 := knr D n0 g O) (R1 := R) (pre2 := R) (R2 := fun s => R s /\ R' s).
    + exact G.
    + constructor.
      * intros v [Hv|Hv] [[Hd|Hd]|Hd].
        -- apply HD in Hd; lia.
        -- lia.
        -- apply HO in Hd. lia.
        -- now apply HW in Hv.
        -- apply HW in Hv. lia.
        -- now apply (HWO v).
      * exact S.
      * eapply cs_all_impl; [|exact Hsc]. cbn. tauto.
      * intros s Hs Hc. split; auto.
      * intros s Hs. destruct (Hcomp s Hs) as (s' & A & B & C). exists s'. split; [exact A|]. split; [|exact C].
        intros v Hv. apply B; tauto.
    + auto.
    + auto.
    + intros v. rewrite in_app_iff. split.
      * intros [[?|?]|[?|?]]; try tauto; left; lia.
      * intros [?|[?|?]]; try tauto. destruct (le_lt_dec (g_n g) v); [right; left; lia|left; left; lia].
    + auto.
    + intros v [[Hv|Hv]|Hv]; auto.
    + intros v [Hv|Hv] Hd; [apply HD in Hd; lia|now apply HW in Hv].
    + intros v [Hv|Hv] [Hd|Hd]; [lia|apply HO in Hd; lia|apply HW in Hv; lia|now apply (HWO v)].
    + intros v [Hv|Hv] Hd; [apply HD in Hd; lia|]. apply in_app_iff in Hv. destruct Hv as [Hv|Hv]; [now apply HO in Hv|now apply HW in Hv].
  - intros s s' Es [P Q]. split.
    + apply (S s); [|exact P]. intros v Hv. apply Es, E. now left.
    + apply (Hst s); [|exact Q]. intros v Hv. apply Es, E. exact Hv.
  - intros v Hv. apply in_app_iff in Hv. destruct Hv; auto.
Qed.
Lemma rev_bits_of_Z z : rev (bits_of_Z 32 z) = msb_bits 32 z.
Proof. rewrite bits_of_Z_tb, msb_bits_map, <- map_rev. reflexivity. Qed.

Lemma reduce_word_ok D n0 pre g R O x w z : okr D n0 pre g R O -> length w = 32 -> NoDup w ->
  (forall v, In v w -> v < n0 /\ ~ D v) -> (forall v, In v w -> ~ In v O) ->
  kn D n0 g x -> (forall s, R s -> s x = Fof z) -> (0 <= z < 2 ^ 33)%Z ->
  exists R', okr D n0 pre (reduce_word g (x, w)) R' (O ++ w) /\ g_n (reduce_word g (x, w)) = g_n g + 2 /\
    forall s, R' s -> R s /\ map s w = map b2F (bits_of_Z 32 z).
Proof.
  intros H Hl Hnd Hw HwO Hx Hv Hz. pose proof (or_le _ _ _ _ _ _ H) as Hle.
  assert (Hlen : length (w ++ [g_n g]) = 33) by (rewrite app_length, Hl; reflexivity).
  assert (HND : NoDup (w ++ [g_n g])).
  { apply NoDup_app'; [exact Hnd|constructor; [intros []|constructor]|]. intros v Hv1 [<-|[]]. apply Hw in Hv1. lia. }
  assert (Hxin : ~ In x (w ++ [g_n g])).
  { intros Hin. apply in_app_iff in Hin. destruct Hin as [Hin|[<-|[]]].
    - apply Hw in Hin. destruct Hx as [K|K]; [tauto|lia].
    - destruct Hx as [K|K]; [apply (or_D _ _ _ _ _ _ H) in K|]; lia. }
  assert (Hp : (2 ^ 33 < p_mod)%Z) by reflexivity.
  assert (K1 : okr D n0 pre (GSt (g_n g + 1) (g_cs g ++ packing_constraints true (w ++ [g_n g]) (V x)) (g_w g ++ [packing_witness_from_packed (w ++ [g_n g]) (V x)]))
     (fun s => R s /\ map s (w ++ [g_n g]) = map b2F (bits_of_Z 33 z)) (O ++ w)).
  { apply okr_step; auto.
    - apply packing_all; [|cbn [lc_all]; left; now left]. intros v Hin. apply in_app_iff in Hin. destruct Hin as [Hin|[<-|[]]]; [tauto|right; left; lia].
    - intros s Hs Hc. apply packing_sat in Hc. destruct Hc as (bs & E & Ez). cbn [ev] in Ez. rewrite (Hv s Hs) in Ez.
      assert (X := bits_unique s (w ++ [g_n g]) z). rewrite Hlen in X. apply X; eauto. lia.
    - intros s Hs. rewrite (packing_witness_ok _ _ _ (Fof z)).
      + exists (fill_bits_of s (w ++ [g_n g]) (Fof z)). split; [reflexivity|]. split.
        * intros v Hv1 Hv2. apply fill_bits_other. rewrite in_app_iff. intros [?|[<-|[]]]; [tauto|lia].
        * apply packing_sat. exists (bits_of_Z 33 (fval (Fof z))). split.
          -- rewrite fill_bits_spec by exact HND. now rewrite Hlen.
          -- rewrite fval_Fof, Z.mod_small by lia. rewrite natbits_bits_small by exact Hz. cbn [ev].
             rewrite fill_bits_other by exact Hxin. auto.
      + cbn [ev]. auto.
      + rewrite Hlen, fval_Fof, Z.mod_small by lia. change (Z.of_nat 33) with 33%Z. lia.
    - intros s s' E Q. rewrite <- Q. apply map_ext_in. intros v Hin. apply E. apply in_app_iff in Hin. destruct Hin as [Hin|[<-|[]]]; [tauto|right; left; lia]. }
  set (g1 := GSt (S (g_n g)) (g_cs g ++ packing_constraints true (w ++ [g_n g]) (V x)) (g_w g ++ [packing_witness_from_packed (w ++ [g_n g]) (V x)])) in *.
  assert (En1 : g_n g + 1 = S (g_n g)) by lia. rewrite En1 in K1. fold g1 in K1.
  set (Q := fun s : assign => R s /\ map s (w ++ [g_n g]) = map b2F (bits_of_Z 33 z)) in K1.
  assert (E33 : bits_of_Z 33 z = bits_of_Z 32 z ++ [tb z 32]).
  { rewrite !bits_of_Z_tb. reflexivity. }
  assert (Qw : forall s, Q s -> map s w = map b2F (bits_of_Z 32 z)).
  { intros s [_ E]. rewrite E33, !map_app in E. cbn [map] in E. exact (proj1 (app_inj_tail _ _ _ _ E)). }
  assert (Pk : forall s, Q s -> ev s (packl (map V w)) = Fof (z mod 2 ^ 32)).
  { intros s Hs. apply packl_wd; [now rewrite map_length|apply Z.mod_pos_bound; reflexivity|].
    intros i Hi. rewrite tb_mod by exact Hi. rewrite (nth_indep _ L0 (V 0)) by (rewrite map_length; lia). rewrite (map_nth V). cbn [ev].
    assert (X := f_equal (fun l => nth i l F0) (Qw s Hs)). cbn beta in X. rewrite bits_of_Z_tb, map_map in X.
    rewrite (nth_indep _ F0 (s 0)) in X by (rewrite map_length; lia). rewrite (map_nth s) in X. rewrite X.
    rewrite (nth_indep _ F0 (b2F (tb z 0))) by (rewrite map_length, seq_length; lia).
    now rewrite (map_nth (fun i => b2F (tb z i))), seq_nth by exact Hi. }
  assert (Psc : lc_all (fun v => In v w) (packl (map V w))).
  { apply packl_all. apply Forall_forall. intros l Hin. apply in_map_iff in Hin. destruct Hin as (v & <- & Hin). exact Hin. }
  destruct (lin_gate (fun v => In v w) (g_n g1) Q _ _ Psc Pk) as [A B C E].
  cbn [reduce_word]. fold g1. unfold pack. cbn [snd]. unfold alloc_gate.
  exists (fun s => Q s /\ s (g_n g1) = Fof (z mod 2 ^ 32)). split; [|split].
  - replace (O ++ w) with ((O ++ w) ++ []) by apply app_nil_r. replace (S (g_n g1)) with (g_n g1 + 1) by lia.
    apply okr_step; [exact K1|intros v []|intros v []| |exact B| |].
    + eapply cs_all_impl; [|exact A]. cbn beta. intros v [Hv'| ->]; [left; right; apply in_app_iff; tauto|right; left; lia].
    + intros s Hs. exists (upd s (g_n g1) (gt_val (lin (packl (map V w))) s)). split; [reflexivity|]. split.
      * intros v Hv1 _. apply upd_other. lia.
      * apply C; [|rewrite upd_same; auto]. apply (or_stable _ _ _ _ _ _ K1 s); [|exact Hs].
        intros v Hv'. apply upd_other. intros ->. pose proof (or_le _ _ _ _ _ _ K1). destruct Hv' as [[K|K]|K].
        -- apply (or_D _ _ _ _ _ _ H) in K. lia.
        -- lia.
        -- apply (or_O _ _ _ _ _ _ K1) in K. lia.
    + intros s s' Es P. rewrite Es; [exact P|right; left; lia].
  - cbn [g_n g1]. lia.
  - intros s [Hs _]. split; [apply Hs|auto].
Qed.

Lemma reduce_ok D n0 pre : forall k u out zs g R O, okr D n0 pre g R O -> length out = 32 * k -> length zs = k ->
  (forall i, i < k -> kn D n0 g (u + i) /\ forall s, R s -> s (u + i) = Fof (nth i zs 0%Z)) ->
  Forall (fun z => 0 <= z < 2 ^ 33)%Z zs -> NoDup out -> (forall v, In v out -> v < n0 /\ ~ D v) -> (forall v, In v out -> ~ In v O) ->
  exists R' O', okr D n0 pre (fold_left reduce_word (combine (seq u k) (rwords_nat k out)) g) R' O' /\
    (forall v, In v O' <-> In v O \/ In v out) /\
    g_n (fold_left reduce_word (combine (seq u k) (rwords_nat k out)) g) = g_n g + 2 * k /\
    forall s, R' s -> R s /\ map s out = map b2F (flat_map (msb_bits 32) zs).
Proof.
  induction k as [|k IH]; intros u out zs g R O H Hl Hz Hu HZ Hnd Hout HO.
  - destruct out; [|discriminate Hl]. destruct zs; [|discriminate Hz]. exists R, O. cbn [seq combine fold_left rwords_nat In]. split; [exact H|].
    split; [tauto|]. split; [lia|]. intros s Hs. split; [exact Hs|reflexivity].
  - destruct zs as [|z zs]; [discriminate Hz|]. inversion HZ as [|? ? Z1 Z2]; subst.
    cbn [seq combine rwords_nat fold_left].
    assert (Hsp := firstn_skipn 32 out). set (w := firstn 32 out) in *. set (r := skipn 32 out) in *.
    assert (Lw : length w = 32) by (unfold w; rewrite firstn_length; lia).
    assert (Lr : length r = 32 * k) by (unfold r; rewrite skipn_length; lia).
    assert (Inw : forall v, In v (rev w) -> In v out). { intros v Hv. apply in_rev in Hv. rewrite <- Hsp. apply in_app_iff. tauto. }
    assert (Inr : forall v, In v r -> In v out). { intros v Hv. rewrite <- Hsp. apply in_app_iff. tauto. }
    rewrite <- Hsp in Hnd. destruct (NoDup_app_inv _ _ Hnd) as (N1 & N2 & N3).
    destruct (reduce_word_ok D n0 pre g R O u (rev w) z H) as (R1 & K1 & G1 & V1); auto.
    + now rewrite rev_length.
    + now apply NoDup_rev.
    + specialize (Hu 0 ltac:(lia)). rewrite Nat.add_0_r in Hu. apply Hu.
    + specialize (Hu 0 ltac:(lia)). rewrite Nat.add_0_r in Hu. apply Hu.
    + destruct (IH (S u) r zs (reduce_word g (u, rev w)) R1 (O ++ rev w) K1 Lr) as (R' & O' & K2 & I2 & G2 & V2); auto.
      * intros i Hi. specialize (Hu (S i) ltac:(lia)). replace (u + S i) with (S u + i) in Hu by lia. destruct Hu as [U1 U2]. split.
        -- destruct U1 as [U1|U1]; [now left|right; lia].
        -- intros s Hs. apply U2. now apply V1.
      * intros v Hv Hin. apply in_app_iff in Hin. destruct Hin as [Hin|Hin]; [apply (HO v); auto|]. apply in_rev in Hin. now apply (N3 v).
      * exists R', O'. split; [exact K2|]. split; [|split].
        -- intros v. rewrite I2, in_app_iff, <- in_rev. rewrite <- Hsp. rewrite in_app_iff. tauto.
        -- rewrite G2, G1. lia.
        -- intros s Hs. destruct (V2 s Hs) as [A B]. destruct (V1 s A) as [A1 A2]. split; [exact A1|].
           rewrite <- Hsp, map_app, B. cbn [flat_map]. rewrite map_app. f_equal.
           rewrite map_rev in A2. apply (f_equal (@rev F)) in A2. rewrite rev_involutive in A2. rewrite A2, <- map_rev. f_equal. apply rev_bits_of_Z.
Qed.
