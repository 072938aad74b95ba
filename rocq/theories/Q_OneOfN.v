(** Lemmas behind Prop_OneOfN.v: one_of_n and shamir_poly. *)
From Coq Require Import List ZArith Bool Arith Lia.
From Coq.setoid_ring Require Import Field_tac.
From Verif Require Import Primes Field Base R1CS R1CSFacts Gadget P_Bits P_Mimc M_Bits M_OneOfN.
Import ListNotations.
Local Open Scope F_scope.

Definition fsum (l : list F) : F := fold_right Fadd F0 l.

Lemma fsum_app a b : fsum (a ++ b) = fsum a + fsum b.
Proof. unfold fsum. induction a as [|x a IH]; cbn [app fold_right]; [ring|]. rewrite IH. ring. Qed.

Lemma fsum_zeros {A} (l : list A) : fold_right Fadd F0 (map (fun _ => F0) l) = F0.
Proof. induction l as [|x l IH]; cbn [map fold_right]; [reflexivity|]. rewrite IH. ring. Qed.

Lemma fsum_nonzero l : (forall x, In x l -> isbit x) -> fsum l <> F0 -> In F1 l.
Proof.
  induction l as [|x l IH]; intros B H; [now destruct H|].
  destruct (B x (or_introl eq_refl)) as [->| ->]; [|now left].
  right. apply IH; [intros; apply B; now right|]. intros E. apply H. unfold fsum in *. cbn [fold_right]. rewrite E. ring.
Qed.

Lemma oon_chain_sum ts : forall p us s, length ts = length us -> sat s (oon_chain p ts us) ->
  s (last us p) = s p + fsum (map s ts).
Proof.
  induction ts as [|t ts IH]; intros p [|u us] s L H; try discriminate.
  - cbn. unfold fsum. cbn [fold_right]. ring.
  - cbn [oon_chain] in H. rewrite sat_cons in H. destruct H as [H1 H2]. injection L as L.
    rewrite last_shift. rewrite (IH u us s L H2). unfold holds, L1 in H1. cbn [cA cB cC ev] in H1.
    rewrite <- H1. unfold fsum. cbn [map fold_right]. ring.
Qed.

Lemma oon_sum_ok ts : forall p us s, length ts = length us -> NoDup us -> ~ In p us ->
  (forall t, In t ts -> ~ In t us) ->
  (forall v, ~ In v us -> oon_sum p ts us s v = s v) /\ sat (oon_sum p ts us s) (oon_chain p ts us).
Proof.
  induction ts as [|t ts IH]; intros p [|u us] s L ND Hp Ht; try discriminate.
  - split; [reflexivity|constructor].
  - cbn [oon_sum oon_chain]. injection L as L. inversion ND as [|? ? Hu ND']; subst.
    destruct (IH u us (upd s u (s p + s t)) L ND' Hu) as [I1 I2].
    { intros x Hx K. apply (Ht x (or_intror Hx)). now right. }
    pose proof (Ht t (or_introl eq_refl)) as Ht0. cbn [In] in Hp, Ht0.
    split.
    + intros v Hv. cbn [In] in Hv. rewrite I1 by tauto. apply upd_other. intros ->. tauto.
    + rewrite sat_cons. split; [|exact I2]. unfold holds, L1. cbn [cA cB cC ev].
      rewrite (I1 p), (I1 t), (I1 u) by tauto. rewrite upd_same, !upd_other by (intros ->; tauto). ring.
Qed.

Lemma oon_set_ok x items : forall toggles s, length items = length toggles -> NoDup toggles ->
  (forall i, In i items -> ~ In i toggles) ->
  (forall t, In t toggles -> s t = F0) -> In x (map s items) ->
  let s1 := oon_set items toggles x s in
  (forall v, ~ In v toggles -> s1 v = s v) /\ (forall t, In t toggles -> isbit (s1 t)) /\
  fsum (map s1 toggles) = F1 /\
  (forall i t, In (i, t) (combine items toggles) -> s1 t = F0 \/ s i = x).
Proof.
  induction items as [|i items IH]; intros [|t ts] s L ND D Z Hin; try discriminate; [destruct Hin|].
  injection L as L. inversion ND as [|? ? Ht ND']; subst. cbn zeta. cbn [oon_set].
  destruct (Feqb (s i) x) eqn:E.
  - apply Feqb_true in E. repeat split.
    + intros v Hv. apply upd_other. intros ->. apply Hv. now left.
    + intros u [<-|Hu]; [rewrite upd_same; now right|]. destruct (Nat.eq_dec u t) as [->|Hne].
      * rewrite upd_same; now right.
      * rewrite upd_other by exact Hne. left. apply Z. now right.
    + cbn [map]. unfold fsum. cbn [fold_right]. rewrite upd_same.
      replace (map (upd s t F1) ts) with (map (fun _ : nat => F0) ts).
      * rewrite fsum_zeros. ring.
      * apply map_ext_in. intros u Hu. rewrite upd_other by (intros ->; contradiction). symmetry. apply Z. now right.
    + intros j u [K|K].
      * injection K as <- <-. now right.
      * left. apply in_combine_r in K. rewrite upd_other by (intros ->; contradiction). apply Z. now right.
  - destruct (IH ts s L ND') as (H1 & H2 & H3 & H4).
    { intros j Hj K. apply (D j (or_intror Hj)). now right. }
    { intros u Hu. apply Z. now right. }
    { destruct Hin as [K|K]; [rewrite K, Feqb_refl in E; discriminate|exact K]. }
    repeat split.
    + intros v Hv. apply H1. intros K. apply Hv. now right.
    + intros u [<-|Hu]; [|now apply H2]. rewrite H1 by exact Ht. left. apply Z. now left.
    + cbn [map]. unfold fsum in *. cbn [fold_right]. rewrite H3, H1 by exact Ht. rewrite Z by now left. ring.
    + intros j u [K|K]; [|now apply H4]. injection K as <- <-. left. rewrite H1 by exact Ht. apply Z. now left.
Qed.

Lemma seq_tl n k : tl (seq n (S k)) = seq (S n) k.
Proof. reflexivity. Qed.

Lemma last_seq n k d : last (seq n (S k)) d = (n + k)%nat.
Proof. rewrite seq_S. apply last_last. Qed.

Lemma idx_seq n k i : (i < k)%nat -> idx (seq n k) i = Ok (n + i)%nat.
Proof. intros H. apply idx_ok. rewrite (nth_error_nth' _ 0%nat) by (rewrite seq_length; lia). f_equal. now apply seq_nth. Qed.

(** the sums list after the witness generator *)
Lemma idx_last_cons (t u : nat) us k : length us = k -> idx (u :: us) (S k - 1) = Ok (last us u).
Proof.
  intros <-. apply idx_ok. replace (S (length us) - 1)%nat with (length us) by lia.
  revert u. induction us as [|v us IH]; intros u; [reflexivity|].
  cbn [length nth_error]. rewrite last_shift. apply IH.
Qed.

(** *** witness first, then constraints *)
Lemma oon_witness_first item items n : items <> [] -> (item < n)%nat -> (forall i, In i items -> (i < n)%nat) ->
  exists g n', oon_new item items n = Ok (g, n') /\
  forall s0, exists g1 s1, oon_witness g s0 = Ok (g1, s1) /\ frame n n' s0 s1 /\
   forall sc, exists cs, oon_constraints g1 sc = Ok cs /\
     (forall s, sat s cs -> In (sc item) (map s items)) /\
     ((forall v, (n <= v < n')%nat -> s0 v = F0) -> sc item = s0 item -> In (s0 item) (map s0 items) -> sat s1 cs).
Proof.
  intros Hne Hit His. destruct items as [|i0 items0]; [congruence|]. set (items := i0 :: items0) in *.
  set (k := length items0). assert (Lk : length items = S k) by reflexivity.
  unfold oon_new. change (0 <? length items)%nat with true. cbn [oassert obind].
  eexists. eexists. split; [reflexivity|]. intros s0. unfold oon_witness.
  cbn [oon_item oon_items oon_toggles oon_sums]. rewrite Lk. unfold var_array.
  rewrite !idx_seq by lia. cbn [obind]. rewrite !seq_tl, Nat.add_0_r.
  eexists. eexists. split; [reflexivity|].
  set (s0' := oon_set items (seq n (S k)) (s0 item) s0).
  assert (DT : forall t, In t (seq (S n) k) -> ~ In t (seq (S (n + S k)) k)).
  { intros t H1 H2. apply in_seq in H1, H2. lia. }
  destruct (oon_sum_ok (seq (S n) k) n (seq (S (n + S k)) k) s0') as [F1' C1].
  { now rewrite !seq_length. } { apply seq_NoDup. } { intros H. apply in_seq in H. lia. } { exact DT. }
  split.
  { intros v Hv. rewrite F1' by (intros H; apply in_seq in H; lia). unfold s0'.
    assert (G : forall its ts s, ~ In v ts -> oon_set its ts (s0 item) s v = s v).
    { clear. induction its as [|i its IH]; intros [|t ts] s H; try reflexivity. cbn [oon_set].
      destruct (Feqb (s i) (s0 item)); [apply upd_other; intros ->; apply H; now left|apply IH; intros K; apply H; now right]. }
    apply G. intros H. apply in_seq in H. lia. }
  intros sc. unfold oon_constraints. cbn [oon_item oon_items oon_toggles oon_sums tl].
  unfold idx at 1. cbn [nth_error obind]. rewrite Lk, (idx_last_cons n) by apply seq_length. cbn [obind].
  rewrite seq_tl. eexists. split; [reflexivity|]. split.
  - intros s Hs. rewrite !sat_app in Hs. destruct Hs as (HB & HC & HL & HI).
    rewrite sat_cons in HL. destruct HL as [HL _]. unfold holds, L1 in HL. cbn [cA cB cC ev] in HL.
    rewrite (oon_chain_sum (seq (S n) k) n) in HL by (assumption || now rewrite !seq_length).
    assert (Hin : In F1 (map s (seq n (S k)))).
    { apply fsum_nonzero.
      - intros x Hx. apply in_map_iff in Hx. destruct Hx as (t & <- & Ht). rewrite sat_map, Forall_forall in HB.
        specialize (HB t Ht). apply boolean_c_spec in HB. exact HB.
      - cbn [seq map]. unfold fsum in *. cbn [fold_right]. intros E.
        rewrite E in HL. apply F1_neq_0. rewrite <- HL. ring. }
    apply in_map_iff in Hin. destruct Hin as (t & Et & Ht). apply in_seq in Ht.
    rewrite sat_map, Forall_forall in HI.
    assert (Hc : In (nth (t - n) items 0%nat, t) (combine items (seq n (S k)))).
    { replace t with (nth (t - n) (seq n (S k)) 0%nat) at 2 by (rewrite seq_nth by lia; lia).
      rewrite <- combine_nth by (rewrite seq_length; exact Lk). apply nth_In. rewrite combine_length, seq_length, Lk. lia. }
    specialize (HI _ Hc). unfold holds in HI. cbn [fst snd cA cB cC ev] in HI. rewrite Et in HI.
    apply in_map_iff. exists (nth (t - n) items 0%nat). split; [|apply nth_In; lia].
    transitivity (s (nth (t - n) items 0%nat) * F1); [ring|]. rewrite HI. ring.
  - intros Z Esc Hin.
    destruct (oon_set_ok (s0 item) items (seq n (S k)) s0) as (G1 & G2 & G3 & G4).
    { now rewrite seq_length. } { apply seq_NoDup. }
    { intros i Hi K. apply His in Hi. apply in_seq in K. lia. }
    { intros t Ht. apply in_seq in Ht. apply Z. lia. } { exact Hin. }
    fold s0' in G1, G2, G3, G4.
    assert (ET : forall t, In t (seq n (S k)) -> oon_sum n (seq (S n) k) (seq (S (n + S k)) k) s0' t = s0' t).
    { intros t Ht. apply F1'. apply in_seq in Ht. intros K. apply in_seq in K. lia. }
    rewrite !sat_app, !sat_map, !Forall_forall. split; [|split; [exact C1|split]].
    + intros t Ht. apply boolean_c_spec. cbn [ev]. rewrite ET by exact Ht. now apply G2.
    + rewrite sat_cons. split; [|constructor]. unfold holds, L1. cbn [cA cB cC ev].
      rewrite (oon_chain_sum (seq (S n) k) n) by (assumption || now rewrite !seq_length).
      rewrite ET by (cbn; tauto).
      replace (map _ (seq (S n) k)) with (map s0' (seq (S n) k)) by
        (apply map_ext_in; intros t Ht; symmetry; apply ET; cbn; tauto).
      cbn [seq map] in G3. unfold fsum in *. cbn [fold_right] in G3. rewrite G3. ring.
    + intros [i t] Hc. unfold holds. cbn [fst snd cA cB cC ev].
      pose proof (in_combine_l _ _ _ _ Hc) as Hi. pose proof (in_combine_r _ _ _ _ Hc) as Ht.
      rewrite (ET t Ht). rewrite F1' by (intros K; apply in_seq in K; apply His in Hi; lia).
      rewrite G1 by (intros K; apply in_seq in K; apply His in Hi; lia).
      destruct (G4 i t Hc) as [->| ->]; [ring|]. rewrite Esc. ring.
Qed.

Lemma oon_new_shape item items n g n' : oon_new item items n = Ok (g, n') ->
  g = {| oon_item := item; oon_items := items; oon_toggles := var_array n (length items);
         oon_sums := var_array (n + length items) (length items) |} /\ n' = (n + 2 * length items)%nat /\ (0 < length items)%nat.
Proof.
  unfold oon_new. destruct (Nat.ltb_spec 0 (length items)); cbn [oassert obind]; [|discriminate].
  intros E. apply Ok_inj in E. injection E as <- <-. auto.
Qed.

(** with either order the constraints never mention our_item: its value is free *)
Lemma oon_item_free item items n g n' s0 g1 s1 sc cs s x :
  (item < n)%nat -> ~ In item items ->
  oon_new item items n = Ok (g, n') -> oon_witness g s0 = Ok (g1, s1) ->
  oon_constraints g1 sc = Ok cs -> sat s cs -> sat (upd s item x) cs.
Proof.
  intros Hn Hni Hg Hw Hc Hs. destruct (oon_new_shape _ _ _ _ _ Hg) as (-> & -> & Hpos). clear Hg.
  destruct (length items) as [|k] eqn:Lk; [lia|]. clear Hpos.
  unfold oon_witness in Hw. cbn [oon_item oon_items oon_toggles oon_sums] in Hw.
  unfold var_array in Hw. rewrite !idx_seq, !seq_tl in Hw by lia. cbn [obind] in Hw.
  apply Ok_inj in Hw. injection Hw as <- _.
  unfold oon_constraints in Hc. cbn [oon_item oon_items oon_toggles oon_sums tl] in Hc.
  unfold idx at 1 in Hc. cbn [nth_error obind] in Hc. rewrite Lk, (idx_last_cons n) in Hc by apply seq_length.
  cbn [obind] in Hc. apply Ok_inj in Hc. subst cs.
  rewrite Nat.add_0_r in *.
  eapply (sat_ext (fun v => v <> item)); [| |exact Hs].
  - assert (CH : forall ts us p, p <> item -> (forall v, In v ts -> v <> item) -> (forall v, In v us -> v <> item) ->
      cs_all (fun v => v <> item) (oon_chain p ts us)).
    { clear. induction ts as [|t ts IH]; intros [|u us] p Hp Ht Hu; try constructor.
      - unfold c_all, L1. cbn [cA cB cC lc_all]. repeat split; auto; [apply Ht; now left|apply Hu; now left].
      - apply IH; [apply Hu; now left|intros; apply Ht; now right|intros; apply Hu; now right]. }
    assert (SQ : forall a b v, (n <= a)%nat -> In v (seq a b) -> v <> item) by (intros a b v Ha Hv; apply in_seq in Hv; lia).
    rewrite !cs_all_app, !cs_all_map, !Forall_forall. split; [|split; [|split]].
    + intros t Ht. unfold c_all, boolean_c, L1, L0. cbn [cA cB cC lc_all]. apply (SQ n (S k)) in Ht; [|lia]. repeat split; auto.
    + apply CH; [lia|intros v; apply SQ; lia|intros v; apply SQ; lia].
    + rewrite cs_all_cons. split; [|constructor]. unfold c_all, L1. cbn [cA cB cC lc_all]. repeat split.
      destruct k; [cbn; lia|]. rewrite last_seq. lia.
    + intros [i t] Hc. cbn [fst snd]. unfold c_all. cbn [cA cB cC lc_all].
      pose proof (in_combine_l _ _ _ _ Hc) as Hi. pose proof (in_combine_r _ _ _ _ Hc) as Ht.
      apply (SQ n (S k)) in Ht; [|lia]. repeat split; auto; intros ->; contradiction.
  - intros v Hv. symmetry. now apply upd_other.
Qed.

(** *** constraints first (the order used with libsnark key generation) *)
Lemma oon_constraints_first_accepts item items n : items <> [] -> (item < n)%nat -> (forall i, In i items -> (i < n)%nat) ->
  exists g n', oon_new item items n = Ok (g, n') /\
  forall sc, exists cs, oon_constraints g sc = Ok cs /\
    forall s, exists s', (forall v, (v < n)%nat -> s' v = s v) /\ sat s' cs.
Proof.
  intros Hne Hit His. destruct items as [|i0 items0]; [congruence|]. set (items := i0 :: items0) in *.
  set (k := length items0). assert (Lk : length items = S k) by reflexivity.
  unfold oon_new. change (0 <? length items)%nat with true. cbn [oassert obind].
  eexists. eexists. split; [reflexivity|]. intros sc. unfold oon_constraints.
  cbn [oon_item oon_items oon_toggles oon_sums]. unfold var_array. rewrite Lk.
  rewrite !idx_seq by lia. cbn [obind]. eexists. split; [reflexivity|].
  intros s. exists (fun v => if (v <? n)%nat then s v else if (v <? n + S k)%nat then F0 else F1).
  assert (T0 : forall t, In t (seq n (S k)) -> (if (t <? n)%nat then s t else if (t <? n + S k)%nat then F0 else F1) = F0).
  { intros t Ht. apply in_seq in Ht. destruct (Nat.ltb_spec t n); [lia|]. destruct (Nat.ltb_spec t (n + S k)); [reflexivity|lia]. }
  assert (T1 : forall t, (n + S k <= t)%nat -> (if (t <? n)%nat then s t else if (t <? n + S k)%nat then F0 else F1) = F1).
  { intros t Ht. destruct (Nat.ltb_spec t n); [lia|]. destruct (Nat.ltb_spec t (n + S k)); [lia|reflexivity]. }
  split. { intros v Hv. destruct (Nat.ltb_spec v n); [reflexivity|lia]. }
  rewrite !sat_app, !sat_map, !Forall_forall. split; [|split; [|split]].
  - intros t Ht. apply boolean_c_spec. cbn [ev]. rewrite T0 by exact Ht. now left.
  - rewrite !seq_tl. assert (CH : forall ts us p, (n + S k <= p)%nat -> (forall v, In v ts -> In v (seq n (S k))) ->
      (forall v, In v us -> (n + S k <= v)%nat) ->
      sat (fun v => if (v <? n)%nat then s v else if (v <? n + S k)%nat then F0 else F1) (oon_chain p ts us)).
    { induction ts as [|t ts IH]; intros [|u us] p Hp Ht Hu; try constructor.
      - unfold holds, L1. cbn [cA cB cC ev]. rewrite (T1 p Hp), (T0 t), (T1 u) by (try apply Ht; try apply Hu; now left). ring.
      - apply IH; [apply Hu; now left|intros; apply Ht; now right|intros; apply Hu; now right]. }
    apply CH; [lia|intros v Hv; cbn [seq In]; tauto|intros v Hv; apply in_seq in Hv; lia].
  - rewrite sat_cons. split; [|constructor]. unfold holds, L1. cbn [cA cB cC ev].
    rewrite T1 by lia. ring.
  - intros [i t] Hc. unfold holds. cbn [fst snd cA cB cC ev].
    pose proof (in_combine_r _ _ _ _ Hc) as Ht. rewrite (T0 t Ht). ring.
Qed.

Lemma oon_refuted : exists item items n g n' cs s, oon_new item items n = Ok (g, n') /\
  oon_constraints g (fun _ => F0) = Ok cs /\ sat s cs /\ ~ In (s item) (map s items).
Proof.
  destruct (oon_constraints_first_accepts 1 [2; 3]%nat 4) as (g & n' & Hg & H).
  { discriminate. } { lia. } { cbn; lia. }
  destruct (H (fun _ => F0)) as (cs & Hcs & K). destruct (K (upd (fun _ => F0) 1 F1)) as (s & E & Hs).
  exists 1%nat, [2; 3]%nat, 4%nat, g, n', cs, s. repeat (split; [assumption|]).
  cbn [map In]. rewrite !E by lia. intros [K'|[K'|[]]]; symmetry in K'; exact (F1_neq_0 K').
Qed.

Lemma oon_witness_first_refuted : exists item items n g n' g1 s1 cs s, oon_new item items n = Ok (g, n') /\
  oon_witness g (fun _ => F0) = Ok (g1, s1) /\ oon_constraints g1 s1 = Ok cs /\ sat s1 cs /\
  sat s cs /\ ~ In (s item) (map s items).
Proof.
  destruct (oon_witness_first 1 [2; 3]%nat 4) as (g & n' & Hg & H).
  { discriminate. } { lia. } { cbn; lia. }
  destruct (H (fun _ => F0)) as (g1 & s1 & Hw & Hf & K). destruct (K s1) as (cs & Hcs & HS & HC).
  assert (S1 : sat s1 cs).
  { apply HC; [reflexivity| |cbn; now left]. rewrite Hf; [reflexivity|lia]. }
  assert (N4 : (4 <= n')%nat). { unfold oon_new in Hg. cbn in Hg. apply Ok_inj in Hg. injection Hg as _ <-. lia. }
  exists 1%nat, [2; 3]%nat, 4%nat, g, n', g1, s1, cs, (upd s1 1 F1). repeat (split; [assumption|]). split.
  - apply (oon_item_free 1 [2; 3]%nat 4 g n' (fun _ => F0) g1 s1 s1 cs s1 F1); auto. cbn [In]. lia.
  - cbn [map In]. rewrite upd_same, !upd_other by lia. rewrite !Hf by lia.
    intros [K'|[K'|[]]]; symmetry in K'; exact (F1_neq_0 K').
Qed.

(** *** C57: honest prover, constraints generated first, our item is the first one *)
Lemma oon_honest_fails item items n : items <> [] -> (item < n)%nat -> (forall i, In i items -> (i < n)%nat) ->
  exists g n', oon_new item items n = Ok (g, n') /\
  forall sc, exists cs, oon_constraints g sc = Ok cs /\
    forall s, (forall v, (n <= v < n')%nat -> s v = F0) -> s item = s (hd 0%nat items) ->
    exists g1 s1, oon_witness g s = Ok (g1, s1) /\ ~ sat s1 cs.
Proof.
  intros Hne Hit His. destruct items as [|i0 items0]; [congruence|]. set (items := i0 :: items0) in *.
  set (k := length items0). assert (Lk : length items = S k) by reflexivity.
  unfold oon_new. change (0 <? length items)%nat with true. cbn [oassert obind].
  eexists. eexists. split; [reflexivity|]. intros sc. unfold oon_constraints.
  cbn [oon_item oon_items oon_toggles oon_sums]. unfold var_array. rewrite Lk.
  rewrite !idx_seq by lia. cbn [obind]. eexists. split; [reflexivity|].
  intros s Z Ei. unfold oon_witness. cbn [oon_item oon_items oon_toggles oon_sums].
  rewrite !idx_seq by lia. cbn [obind]. rewrite !seq_tl. eexists. eexists. split; [reflexivity|].
  assert (E0 : oon_set items (seq n (S k)) (s item) s = upd s n F1).
  { subst items. cbn [seq oon_set]. cbn [hd] in Ei. now rewrite Ei, Feqb_refl. }
  rewrite E0. rewrite !Nat.add_0_r.
  destruct (oon_sum_ok (seq (S n) k) n (seq (S (n + S k)) k) (upd s n F1)) as [F1' C1].
  { now rewrite !seq_length. } { apply seq_NoDup. } { intros H. apply in_seq in H. lia. }
  { intros t H1 H2. apply in_seq in H1, H2. lia. }
  set (s1 := oon_sum n (seq (S n) k) (seq (S (n + S k)) k) (upd s n F1)) in *.
  intros Hs. rewrite !sat_app in Hs. destruct Hs as (_ & HC & HL & _).
  assert (V0 : s1 (n + S k)%nat = F0).
  { rewrite F1' by (intros H; apply in_seq in H; lia). rewrite upd_other by lia. apply Z. lia. }
  assert (V1 : s1 n = F1).
  { rewrite F1' by (intros H; apply in_seq in H; lia). apply upd_same. }
  destruct k as [|k].
  - rewrite sat_cons in HL. destruct HL as [HL _]. unfold holds, L1 in HL. cbn [cA cB cC ev] in HL.
    replace (n + 1 + (1 - 1))%nat with (n + 1)%nat in HL by lia. rewrite V0 in HL.
    apply F1_neq_0. rewrite <- HL. ring.
  - cbn [seq oon_chain] in C1, HC. rewrite sat_cons in C1, HC. destruct C1 as [C1 _]. destruct HC as [HC _].
    unfold holds, L1 in C1, HC. cbn [cA cB cC ev] in C1, HC. rewrite V1 in C1. rewrite V0, <- C1 in HC.
    apply F1_neq_0. transitivity ((F1 + s1 (S n)) * F1 - (F0 + s1 (S n)) * F1); [ring|]. rewrite <- HC. ring.
Qed.
