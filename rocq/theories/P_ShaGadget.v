(** The compression gadget: one step at a time. *)
From Coq Require Import List ZArith Bool Arith Lia.
From Verif Require Import Primes Field Base R1CS R1CSFacts M_Lookup P_Lookup M_Bits P_Bits Gadget Gadget2 M_Sha256 M_ShaGadget
  Spec_Utils Spec_Sha256.
Import ListNotations.
Local Open Scope nat_scope.

Lemma Forall2_impl' {A B} (P Q : A -> B -> Prop) l l' : (forall a b, P a b -> Q a b) -> Forall2 P l l' -> Forall2 Q l l'.
Proof. intros H. induction 1; constructor; auto. Qed.

(** variables known so far *)
Definition kn (D : nat -> Prop) (n0 : nat) (g : gst) (v : nat) : Prop := D v \/ n0 <= v < g_n g.
Record okg (D : nat -> Prop) (n0 : nat) (pre : assign -> Prop) (g : gst) (R : assign -> Prop) : Prop := {
  og_gok : gok (fun v => n0 <= v < g_n g) D (g_cs g) (oseq (g_w g)) pre R;
  og_stable : forall s s', (forall v, kn D n0 g v -> s' v = s v) -> R s -> R s';
  og_le : n0 <= g_n g;
  og_D : forall v, D v -> v < n0 }.

Lemma okg_impl D n0 pre g (R R' : assign -> Prop) : okg D n0 pre g R -> (forall s, pre s -> R s -> R' s) ->
  (forall s s', (forall v, kn D n0 g v -> s' v = s v) -> R' s -> R' s') -> okg D n0 pre g R'.
Proof.
  intros [G S L HD] H HS. constructor; auto. destruct G as [a b c d e]. constructor; auto.
Qed.
Lemma okg_pre D n0 pre g R : okg D n0 pre g R -> okg D n0 pre g (fun s => pre s /\ R s).
Proof.
  intros H. apply okg_impl with R; [exact H|auto|]. intros s s' E [P Q]. split.
  - apply (k_stable (og_gok _ _ _ _ _ H) s); [|exact P]. intros v Hv. apply E. now left.
  - apply (og_stable _ _ _ _ _ H s); auto.
Qed.
Lemma okg_start (D : nat -> Prop) n0 (pre : assign -> Prop) : (forall v, D v -> v < n0) ->
  (forall s s', (forall v, D v -> s' v = s v) -> pre s -> pre s') -> okg D n0 pre (GSt n0 [] []) pre.
Proof.
  intros HD HS. constructor; cbn [g_n g_cs g_w]; auto.
  - constructor; cbn [oseq]; auto.
    + intros v H. lia.
    + constructor.
    + intros s Hs. exists s. split; [reflexivity|]. split; [auto|constructor].
  - intros s s' E. apply HS. intros v Hv. apply E. now left.
Qed.

(** a step that writes the variables [n, n + k) *)
Lemma okg_step D n0 pre g R k cs w (R' : assign -> Prop) : okg D n0 pre g R ->
  cs_all (fun v => kn D n0 g v \/ g_n g <= v < g_n g + k) cs ->
  (forall s, R s -> sat s cs -> R' s) ->
  (forall s, R s -> exists s', w s = Ok s' /\ frame (g_n g) (g_n g + k) s s' /\ sat s' cs) ->
  (forall s s', (forall v, kn D n0 g v \/ g_n g <= v < g_n g + k -> s' v = s v) -> R' s -> R' s') ->
  okg D n0 pre (GSt (g_n g + k) (g_cs g ++ cs) (g_w g ++ [w])) (fun s => R s /\ R' s).
Proof.
  intros H Hsc Hsound Hcomp Hst. destruct H as [G S L HD].
  assert (E : forall v, kn D n0 (GSt (g_n g + k) (g_cs g ++ cs) (g_w g ++ [w])) v <-> kn D n0 g v \/ g_n g <= v < g_n g + k).
  { intros v. unfold kn. cbn [g_n]. split; [intros [?|?]|intros [[?|?]|?]]; try tauto; try lia. }
  constructor; cbn [g_n g_cs g_w]; [|..|lia|exact HD].
  - apply gok_ext with (w := fun s => obind (oseq (g_w g) s) w); [|intros s; apply oseq_snoc].
    apply gok_seq with (own1 := fun v => n0 <= v < g_n g) (dep1 := D) (own2 := fun v => g_n g <= v < g_n g + k)
      (dep2 := kn D n0 g) (R1 := R) (pre2 := R) (R2 := fun s => R s /\ R' s).
    + exact G.
    + constructor.
      * intros v Hv [Hd|Hd]; [apply HD in Hd; lia|lia].
      * exact S.
      * eapply cs_all_impl; [|exact Hsc]. cbn. tauto.
      * intros s Hs Hc. split; auto.
      * intros s Hs. destruct (Hcomp s Hs) as (s' & A & B & C). exists s'. split; [exact A|]. split; [|exact C].
        intros v Hv. apply B. lia.
    + auto.
    + auto.
    + intros v. lia.
    + auto.
    + intros v [Hv|Hv]; auto.
    + intros v Hv Hd. apply HD in Hd. lia.
    + intros v Hv Hd. lia.
    + intros v Hv Hd. apply HD in Hd. lia.
  - intros s s' Es [P Q]. split.
    + apply (S s); [|exact P]. intros v Hv. apply Es, E. now left.
    + apply (Hst s); [|exact Q]. intros v Hv. apply Es, E. exact Hv.
Qed.

(** what a gate is given the facts [R]: its constraints force the value [x] *)
Record gate_is (P : nat -> Prop) (n : nat) (R : assign -> Prop) (gt : gate) (x : F) : Prop := {
  ga_scope : cs_all (fun v => P v \/ v = n) (gt_cs gt n);
  ga_sound : forall s, R s -> sat s (gt_cs gt n) -> s n = x;
  ga_complete : forall s, R s -> s n = x -> sat s (gt_cs gt n);
  ga_val : forall s, R s -> gt_val gt s = x }.

Lemma okg_gate D n0 pre g R gt x : okg D n0 pre g R -> gate_is (kn D n0 g) (g_n g) R gt x ->
  okg D n0 pre (alloc_gate gt g) (fun s => R s /\ s (g_n g) = x).
Proof.
  intros H [A B C E]. unfold alloc_gate. replace (S (g_n g)) with (g_n g + 1) by lia.
  assert (Hkn : ~ kn D n0 g (g_n g)). { intros [K|K]; [apply (og_D _ _ _ _ _ H) in K; pose proof (og_le _ _ _ _ _ H)|]; lia. }
  apply okg_step; auto.
  - eapply cs_all_impl; [|exact A]. cbn. intros v [Hv|Hv]; [now left|right; lia].
  - intros s Hs. exists (upd s (g_n g) (gt_val gt s)). split; [reflexivity|]. split; [apply frame_upd; lia|].
    apply C; [|rewrite upd_same; auto]. apply (og_stable _ _ _ _ _ H s); [|exact Hs].
    intros v Hv. apply upd_other. intros ->. tauto.
  - intros s s' Es Q. rewrite Es; [exact Q|right; lia].
Qed.

Lemma g_n_gates gs : forall g, g_n (alloc_gates gs g) = g_n g + length gs.
Proof. induction gs as [|gt gs IH]; intros g; cbn [alloc_gates length]; [lia|]. rewrite IH. cbn [g_n alloc_gate]. lia. Qed.

Lemma gate_is_mono (P Q : nat -> Prop) n (R R' : assign -> Prop) gt x : (forall v, P v -> Q v) -> (forall s, R' s -> R s) ->
  gate_is P n R gt x -> gate_is Q n R' gt x.
Proof.
  intros HP HR [A B C E]. constructor; auto. eapply cs_all_impl; [|exact A]. cbn. intros v [Hv|Hv]; auto.
Qed.

(** a list of gates that only use earlier variables *)
Lemma okg_gates D n0 pre : forall gs xs g R, okg D n0 pre g R ->
  Forall2 (fun gt x => forall n, g_n g <= n -> gate_is (kn D n0 g) n R gt x) gs xs ->
  okg D n0 pre (alloc_gates gs g) (fun s => R s /\ map s (seq (g_n g) (length gs)) = xs).
Proof.
  induction gs as [|gt gs IH]; intros xs g R H HF; inversion HF as [|? x ? xs' H1 H2]; subst.
  - cbn [alloc_gates length seq map]. apply okg_impl with R; auto.
    intros s s' E [Q _]. split; [|reflexivity]. apply (og_stable _ _ _ _ _ H s); auto.
  - cbn [alloc_gates].
    assert (K1 := okg_gate _ _ _ _ _ gt x H (H1 _ (le_n _))).
    specialize (IH xs' _ _ K1). destruct IH as [G S L HD].
    + cbn [g_n alloc_gate]. eapply Forall2_impl'; [|exact H2]. clear. intros gt' x' H n Hn.
      apply gate_is_mono with (P := kn D n0 g) (R := R); [|tauto|apply H; lia].
      intros v [Hv|Hv]; [now left|right; cbn [g_n alloc_gate]; lia].
    + cbn [length seq map]. apply okg_impl with (fun s => (R s /\ s (g_n g) = x) /\ map s (seq (g_n (alloc_gate gt g)) (length gs)) = xs').
      * constructor; auto.
      * intros s _ [[P Q] T]. split; [exact P|]. cbn [g_n alloc_gate] in T. now rewrite Q, T.
      * intros s s' E [P T]. injection T as T1 T2. assert (X := S s s' E). cbn [g_n alloc_gate] in X.
        destruct X as [[X1 X2] X3]; [auto|]. split; [exact X1|]. now rewrite X2, X3.
Qed.

(** ** words *)
Definition tb (z : Z) (i : nat) : bool := Z.testbit z (Z.of_nat i).
Definition w32z (z : Z) : Prop := (0 <= z < 2 ^ 32)%Z.
Definition wd (s : assign) (W : list lc) (z : Z) : Prop := forall i, i < 32 -> ev s (nth i W L0) = b2F (tb z i).

Lemma bits_of_Z_testbit n : forall z k, bits_of_Z n (z / 2 ^ Z.of_nat k) = map (tb z) (seq k n).
Proof.
  induction n as [|n IH]; intros z k; [reflexivity|]. cbn [bits_of_Z seq map]. f_equal.
  - unfold tb. rewrite Z.testbit_odd, Z.shiftr_div_pow2 by lia. reflexivity.
  - rewrite <- IH. f_equal. rewrite Z.div2_div, Z.div_div by (try apply Z.pow_nonzero; lia).
    f_equal. rewrite Nat2Z.inj_succ, Z.pow_succ_r by lia. ring.
Qed.
Lemma bits_of_Z_tb n z : bits_of_Z n z = map (tb z) (seq 0 n).
Proof. rewrite <- (bits_of_Z_testbit n z 0). cbn [Z.of_nat]. now rewrite Z.pow_0_r, Z.div_1_r. Qed.

Lemma map_nth_eq {A B} (f : A -> B) (l : list A) (h : nat -> B) d : (forall i, i < length l -> f (nth i l d) = h i) ->
  map f l = map h (seq 0 (length l)).
Proof.
  revert h. induction l as [|a l IH]; intros h H; [reflexivity|]. cbn [map length seq]. f_equal.
  - apply (H 0). cbn. lia.
  - rewrite <- seq_shift, map_map. apply IH. intros i Hi. apply (H (S i)). cbn. lia.
Qed.

Lemma packl_from_ev s : forall W c bs, map (ev s) W = map b2F bs -> ev s (packl_from c W) = (c * Fof (natbits bs))%F.
Proof.
  induction W as [|v W IH]; intros c [|b bs] H; try discriminate.
  - cbn. ring.
  - cbn in H. injection H as Hv Hvs. cbn [packl_from ev]. rewrite (IH _ bs Hvs), Hv.
    cbn [natbits]. rewrite Fof_add, Fof_mul, Fof_b2Z. ring.
Qed.
Lemma packl_wd s W z : length W = 32 -> w32z z -> wd s W z -> ev s (packl W) = Fof z.
Proof.
  intros L Hz H. unfold packl. rewrite (packl_from_ev s W F1 (bits_of_Z 32 z)).
  - rewrite natbits_bits_small by exact Hz. ring.
  - rewrite bits_of_Z_tb, map_map, <- L. apply map_nth_eq with (d := L0). intros i Hi. apply H. lia.
Qed.
Lemma packl_all (P : nat -> Prop) : forall W c, Forall (lc_all P) W -> lc_all P (packl_from c W).
Proof. induction W as [|v W IH]; intros c H; cbn; [exact I|]. inversion H; subst. auto. Qed.

(** a word or a variable known in the state (g, R) to hold a value *)
Record wok (D : nat -> Prop) (n0 : nat) (g : gst) (R : assign -> Prop) (W : list lc) (z : Z) : Prop := {
  wk_range : w32z z; wk_len : length W = 32; wk_scope : Forall (lc_all (kn D n0 g)) W; wk_wd : forall s, R s -> wd s W z }.
Record vok (D : nat -> Prop) (n0 : nat) (g : gst) (R : assign -> Prop) (v : nat) (z : Z) : Prop := {
  vk_scope : kn D n0 g v; vk_val : forall s, R s -> s v = Fof z }.
Definition ext (g : gst) (R : assign -> Prop) (g' : gst) (R' : assign -> Prop) : Prop :=
  g_n g <= g_n g' /\ forall s, R' s -> R s.
Lemma ext_refl g R : ext g R g R. Proof. split; auto. Qed.
Lemma ext_trans g R g1 R1 g2 R2 : ext g R g1 R1 -> ext g1 R1 g2 R2 -> ext g R g2 R2.
Proof. intros [A B] [C E]. split; [lia|auto]. Qed.
Lemma kn_ext D n0 g R g' R' v : ext g R g' R' -> kn D n0 g v -> kn D n0 g' v.
Proof. intros [A _] [H|H]; [now left|right; lia]. Qed.
Lemma wok_ext D n0 g R g' R' W z : ext g R g' R' -> wok D n0 g R W z -> wok D n0 g' R' W z.
Proof.
  intros E [A B C F]. constructor; auto.
  - eapply Forall_impl; [|exact C]. intros l. apply lc_all_impl. intros v. eapply kn_ext; eauto.
  - intros s Hs. apply F. now apply E.
Qed.
Lemma vok_ext D n0 g R g' R' v z : ext g R g' R' -> vok D n0 g R v z -> vok D n0 g' R' v z.
Proof. intros E [A B]. constructor; [eapply kn_ext; eauto|]. intros s Hs. apply B. now apply E. Qed.

(** ** gates *)
Lemma nth_all (P : nat -> Prop) W i : Forall (lc_all P) W -> lc_all P (nth i W L0).
Proof.
  intros H. destruct (Nat.lt_ge_cases i (length W)) as [L|L].
  - rewrite Forall_forall in H. apply H, nth_In, L.
  - rewrite nth_overflow by exact L. exact I.
Qed.
Lemma lin_gate (P : nat -> Prop) n (R : assign -> Prop) l x : lc_all P l -> (forall s, R s -> ev s l = x) -> gate_is P n R (lin l) x.
Proof.
  intros Hl H. constructor; cbn [lin gt_cs gt_val].
  - constructor; [|constructor]. unfold c_all. cbn [cA cB cC L1 lc_all]. repeat split; auto.
    eapply lc_all_impl; [|exact Hl]. auto.
  - intros s Hs Hc. apply sat_cons in Hc. destruct Hc as [Hc _]. unfold holds in Hc. cbn [cA cB cC L1 ev] in Hc.
    rewrite <- (H s Hs), <- Hc. ring.
  - intros s Hs Hx. apply sat_cons. split; [|constructor]. unfold holds. cbn [cA cB cC L1 ev]. rewrite Hx, (H s Hs). ring.
  - exact H.
Qed.
Lemma xor2_val a b : (b2F a + b2F b - F2 * b2F a * b2F b)%F = b2F (xorb a b).
Proof. destruct a, b; cbn [b2F xorb]; unfold F2; ring. Qed.
Lemma xor2_gate (P : nat -> Prop) n (R : assign -> Prop) A B a b : lc_all P A -> lc_all P B ->
  (forall s, R s -> ev s A = b2F a) -> (forall s, R s -> ev s B = b2F b) -> gate_is P n R (xor2 A B) (b2F (xorb a b)).
Proof.
  intros HA HB Ha Hb. constructor; cbn [xor2 gt_cs gt_val].
  - constructor; [|constructor]. unfold c_all. cbn [cA cB cC lc_all].
    assert (lc_all (fun v => P v \/ v = n) A) by (eapply lc_all_impl; [|exact HA]; auto).
    assert (lc_all (fun v => P v \/ v = n) B) by (eapply lc_all_impl; [|exact HB]; auto). repeat split; auto.
  - intros s Hs Hc. apply sat_cons in Hc. destruct Hc as [Hc _]. unfold holds in Hc. cbn [cA cB cC ev] in Hc.
    rewrite (Ha s Hs), (Hb s Hs) in Hc. rewrite <- xor2_val.
    replace (s n) with (b2F a + b2F b - (b2F a + b2F b - s n))%F by ring. rewrite <- Hc. ring.
  - intros s Hs Hx. apply sat_cons. split; [|constructor]. unfold holds. cbn [cA cB cC ev].
    rewrite (Ha s Hs), (Hb s Hs), Hx, <- xor2_val. ring.
  - intros s Hs. rewrite (Ha s Hs), (Hb s Hs). apply xor2_val.
Qed.
Definition chb (x y z : bool) : bool := if x then y else z.
Definition majb (x y z : bool) : bool := xorb (xorb (x && y) (x && z)) (y && z).
Lemma choice_val x y z : (b2F x * b2F y + (F1 - b2F x) * b2F z)%F = b2F (chb x y z).
Proof. destruct x; cbn [chb b2F]; ring. Qed.
Lemma choice_gate_ok (P : nat -> Prop) n (R : assign -> Prop) X Y Z x y z : lc_all P X -> lc_all P Y -> lc_all P Z ->
  (forall s, R s -> ev s X = b2F x) -> (forall s, R s -> ev s Y = b2F y) -> (forall s, R s -> ev s Z = b2F z) ->
  gate_is P n R (choice_gate X Y Z) (b2F (chb x y z)).
Proof.
  intros HX HY HZ Hx Hy Hz. constructor; cbn [choice_gate gt_cs gt_val].
  - assert (lc_all (fun v => P v \/ v = n) X) by (eapply lc_all_impl; [|exact HX]; auto).
    assert (lc_all (fun v => P v \/ v = n) Y) by (eapply lc_all_impl; [|exact HY]; auto).
    assert (lc_all (fun v => P v \/ v = n) Z) by (eapply lc_all_impl; [|exact HZ]; auto).
    constructor; [|constructor]. unfold c_all. cbn [cA cB cC lc_all]. repeat split; auto.
  - intros s Hs Hc. apply sat_cons in Hc. destruct Hc as [Hc _]. unfold holds in Hc. cbn [cA cB cC ev] in Hc.
    rewrite (Hx s Hs), (Hy s Hs), (Hz s Hs) in Hc. rewrite <- choice_val.
    replace (s n) with ((s n - b2F z) + b2F z)%F by ring. rewrite <- Hc. ring.
  - intros s Hs Hv. apply sat_cons. split; [|constructor]. unfold holds. cbn [cA cB cC ev].
    rewrite (Hx s Hs), (Hy s Hs), (Hz s Hs), Hv, <- choice_val. ring.
  - intros s Hs. rewrite (Hx s Hs), (Hy s Hs), (Hz s Hs). apply choice_val.
Qed.
Lemma majority_val x y z : Fof (as_ulong (b2F x + b2F y + b2F z)%F / 2) = b2F (majb x y z).
Proof. apply Feqb_true. destruct x, y, z; vm_compute; reflexivity. Qed.
Lemma majority_force x y z v : let d := (b2F x + b2F y + b2F z - F2 * b2F v)%F in
  (d * (F1 - d))%F = F0 <-> v = majb x y z.
Proof.
  cbn zeta. split.
  - intros H. apply Feqb_true in H. revert H. destruct x, y, z, v; vm_compute; (reflexivity || discriminate).
  - intros ->. apply Feqb_true. destruct x, y, z; vm_compute; reflexivity.
Qed.
Lemma majority_gate_ok (P : nat -> Prop) n (R : assign -> Prop) X Y Z x y z : lc_all P X -> lc_all P Y -> lc_all P Z ->
  (forall s, R s -> ev s X = b2F x) -> (forall s, R s -> ev s Y = b2F y) -> (forall s, R s -> ev s Z = b2F z) ->
  gate_is P n R (majority_gate X Y Z) (b2F (majb x y z)).
Proof.
  intros HX HY HZ Hx Hy Hz. constructor; cbn [majority_gate gt_cs gt_val].
  - assert (lc_all (fun v => P v \/ v = n) X) by (eapply lc_all_impl; [|exact HX]; auto).
    assert (lc_all (fun v => P v \/ v = n) Y) by (eapply lc_all_impl; [|exact HY]; auto).
    assert (lc_all (fun v => P v \/ v = n) Z) by (eapply lc_all_impl; [|exact HZ]; auto).
    constructor; [|constructor; [|constructor]]; unfold c_all; cbn [boolean_c cA cB cC L0 L1 lc_all]; repeat split; auto.
  - intros s Hs Hc. apply sat_cons in Hc. destruct Hc as [Hb Hc]. apply sat_cons in Hc. destruct Hc as [Hc _].
    apply boolean_c_spec in Hb. cbn [ev] in Hb. apply isbit_ex in Hb. destruct Hb as [v Hv].
    unfold holds in Hc. cbn [cA cB cC L0 L1 ev] in Hc. rewrite (Hx s Hs), (Hy s Hs), (Hz s Hs), Hv in Hc.
    rewrite Hv. f_equal. now apply majority_force.
  - intros s Hs Hv. apply sat_cons. split; [apply boolean_c_spec; cbn [ev]; rewrite Hv; apply isbit_b2F|].
    apply sat_cons. split; [|constructor]. unfold holds. cbn [cA cB cC L0 L1 ev].
    rewrite (Hx s Hs), (Hy s Hs), (Hz s Hs), Hv. now apply majority_force.
  - intros s Hs. rewrite (Hx s Hs), (Hy s Hs), (Hz s Hs). apply majority_val.
Qed.

(** a list of 32 (or fewer) gates whose values are bits *)
Lemma gates_bits D n0 pre g R (f : nat -> gate) (b : nat -> bool) k : okg D n0 pre g R ->
  (forall i n, i < k -> gate_is (kn D n0 g) n R (f i) (b2F (b i))) ->
  let g' := alloc_gates (map f (seq 0 k)) g in
  exists R', okg D n0 pre g' R' /\ ext g R g' R' /\ g_n g' = g_n g + k /\
    forall i, i < k -> kn D n0 g' (g_n g + i) /\ forall s, R' s -> s (g_n g + i) = b2F (b i).
Proof.
  intros H Hf g'. exists (fun s => R s /\ map s (seq (g_n g) (length (map f (seq 0 k)))) = map (fun i => b2F (b i)) (seq 0 k)).
  assert (Hn : g_n g' = g_n g + k) by (unfold g'; now rewrite g_n_gates, map_length, seq_length).
  split; [|split; [|split]].
  - apply okg_gates; [exact H|].
    assert (X : forall l, (forall i, In i l -> i < k) ->
      Forall2 (fun gt x => forall n, g_n g <= n -> gate_is (kn D n0 g) n R gt x) (map f l) (map (fun i => b2F (b i)) l)).
    { induction l as [|i l IH]; intros Hl; [constructor|]. cbn [map]. constructor; [|apply IH; intros; apply Hl; now right].
      intros n _. apply Hf, Hl. now left. }
    apply X. intros i Hi. apply in_seq in Hi. lia.
  - split; [lia|tauto].
  - exact Hn.
  - intros i Hi. split; [right; pose proof (og_le _ _ _ _ _ H); lia|]. intros s [_ E].
    rewrite map_length, seq_length in E.
    assert (X := f_equal (fun l => nth i l F0) E). cbn beta in X.
    rewrite (nth_indep _ F0 (s 0)) in X by (now rewrite map_length, seq_length).
    rewrite (map_nth s), seq_nth in X by exact Hi. rewrite X.
    rewrite (nth_indep _ F0 (b2F (b 0))) by (now rewrite map_length, seq_length).
    rewrite (map_nth (fun i => b2F (b i))), seq_nth by exact Hi. reflexivity.
Qed.

Lemma word_vars_ok (D : nat -> Prop) n0 g (R : assign -> Prop) n z : w32z z -> (forall i, i < 32 -> kn D n0 g (n + i) /\ forall s, R s -> s (n + i) = b2F (tb z i)) ->
  wok D n0 g R (word_vars n) z.
Proof.
  intros Hz H. unfold word_vars. constructor; [exact Hz|now rewrite map_length, seq_length| |].
  - apply Forall_map, Forall_forall. intros v Hv. apply in_seq in Hv. cbn [lc_all].
    replace v with (n + (v - n)) by lia. apply H. lia.
  - intros s Hs i Hi. rewrite (nth_indep _ L0 (V 0)) by (now rewrite map_length, seq_length).
    rewrite map_nth, seq_nth by exact Hi. cbn [ev]. now apply H.
Qed.
Lemma lin_ok (D : nat -> Prop) n0 pre g (R : assign -> Prop) l z : okg D n0 pre g R -> lc_all (kn D n0 g) l -> (forall s, R s -> ev s l = Fof z) ->
  exists R', okg D n0 pre (snd (alloc_lin l g)) R' /\ ext g R (snd (alloc_lin l g)) R' /\
    g_n (snd (alloc_lin l g)) = g_n g + 1 /\ vok D n0 (snd (alloc_lin l g)) R' (fst (alloc_lin l g)) z.
Proof.
  intros H Hl Hz. cbn [alloc_lin fst snd]. exists (fun s => R s /\ s (g_n g) = Fof z).
  split; [apply okg_gate; [exact H|now apply lin_gate]|]. split; [|split].
  - split; [cbn [g_n alloc_gate]; lia|tauto].
  - cbn [g_n alloc_gate]. lia.
  - constructor; [right; pose proof (og_le _ _ _ _ _ H); cbn [g_n alloc_gate]; lia|]. intros s [_ E]. exact E.
Qed.
Lemma pack_ok D n0 pre g R W z : okg D n0 pre g R -> wok D n0 g R W z ->
  exists R', okg D n0 pre (snd (pack W g)) R' /\ ext g R (snd (pack W g)) R' /\
    g_n (snd (pack W g)) = g_n g + 1 /\ vok D n0 (snd (pack W g)) R' (fst (pack W g)) z.
Proof.
  intros H [A B C E]. apply (lin_ok D n0 pre g R (packl W) z H).
  - apply packl_all. exact C.
  - intros s Hs. apply packl_wd; auto.
Qed.
