(** Lemmas about the MiMC gadgets. *)
From Coq Require Import List ZArith Bool Arith Lia.
From Verif Require Import Primes Field Base R1CS R1CSFacts Gadget P_Bits M_Mimc Spec_Mimc.
Import ListNotations.
Local Open Scope F_scope.

Lemma last_shift {A} (x : A) l d : last (x :: l) d = last l x.
Proof.
  revert x d. induction l as [|y l IH]; intros x d; [reflexivity|].
  change (last (x :: y :: l) d) with (last (y :: l) d). now rewrite !IH.
Qed.

(** ** Rounds *)
(** what the proofs need about a round class with exponent [e] *)
Record round_ok (O : round_ops) (e : Z) : Prop := {
  ro_new : forall x k c last n, exists r n', rd_new O x k c last n = (r, n') /\
     (n <= rd_result O r < n')%nat /\
     cs_all (fun v => v = x \/ v = k \/ n <= v < n')%nat (rd_constraints O r) /\
     (forall s, sat s (rd_constraints O r) ->
        s (rd_result O r) = Fpow (s x + s k + c) e + (if last then s k else F0)) /\
     (forall s, (x < n)%nat -> (k < n)%nat ->
        frame n n' s (rd_witness O r s) /\ sat (rd_witness O r s) (rd_constraints O r))
}.

Lemma Fpow_5 x : Fpow x 5 = x * x * x * x * x.
Proof.
  replace 5%Z with (1 + 1 + 1 + 1 + 1)%Z by reflexivity.
  rewrite !Fpow_succ by lia. rewrite Fpow_1. reflexivity.
Qed.
Lemma Fpow_7 x : Fpow x 7 = x * x * x * x * x * x * x.
Proof.
  replace 7%Z with (1 + 1 + 1 + 1 + 1 + 1 + 1)%Z by reflexivity.
  rewrite !Fpow_succ by lia. rewrite Fpow_1. reflexivity.
Qed.

Lemma Fsub_add_r (a b c : F) : a = b - c -> b = a + c.
Proof. intros ->. ring. Qed.

Lemma e5_ok : round_ok e5_ops 5.
Proof.
  constructor. intros x k c last n. cbn [rd_new e5_ops e5_new]. eexists. eexists. split; [reflexivity|].
  cbn [rd_result rd_constraints rd_witness e5_ops e5_c].
  split; [lia|]. split; [|split].
  - unfold e5_constraints, mimc_t. cbn [e5_x e5_k e5_C e5_add e5_a e5_b e5_c].
    destruct last; scope; lia.
  - intros s. unfold e5_constraints, mimc_t. cbn [e5_x e5_k e5_C e5_add e5_a e5_b e5_c].
    rewrite !sat_cons. unfold holds.
    destruct last; cbn [cA cB cC ev]; intros (E1 & E2 & E3 & _).
    + apply Fsub_add_r in E3. rewrite E3, <- E2, <- E1, Fpow_5. ring.
    + rewrite <- E3, <- E2, <- E1, Fpow_5. ring.
  - intros s Hx Hk. unfold e5_witness. cbn [e5_x e5_k e5_C e5_add e5_a e5_b e5_c].
    split; [intros v Hv; rewrite !upd_other by lia; reflexivity|].
    unfold e5_constraints, mimc_t. cbn [e5_x e5_k e5_C e5_add e5_a e5_b e5_c].
    rewrite !sat_cons. unfold holds.
    destruct last; cbn [cA cB cC ev];
    rewrite !(upd_other _ _ _ x), !(upd_other _ _ _ k) by lia;
    rewrite !upd_same, !(upd_other _ _ _ (n + 1)%nat), !(upd_other _ _ _ n) by lia;
    rewrite !upd_same; repeat split; try ring; constructor.
Qed.

Lemma e7_ok : round_ok e7_ops 7.
Proof.
  constructor. intros x k c last n. cbn [rd_new e7_ops e7_new]. eexists. eexists. split; [reflexivity|].
  cbn [rd_result rd_constraints rd_witness e7_ops e7_d].
  split; [lia|]. split; [|split].
  - unfold e7_constraints, mimc_t. cbn [e7_x e7_k e7_C e7_add e7_a e7_b e7_c e7_d].
    destruct last; scope; lia.
  - intros s. unfold e7_constraints, mimc_t. cbn [e7_x e7_k e7_C e7_add e7_a e7_b e7_c e7_d].
    rewrite !sat_cons. unfold holds.
    destruct last; cbn [cA cB cC ev]; intros (E1 & E2 & E3 & E4 & _).
    + apply Fsub_add_r in E4. rewrite E4, <- E3, <- E2, <- E1, Fpow_7. ring.
    + rewrite <- E4, <- E3, <- E2, <- E1, Fpow_7. ring.
  - intros s Hx Hk. unfold e7_witness. cbn [e7_x e7_k e7_C e7_add e7_a e7_b e7_c e7_d].
    split; [intros v Hv; rewrite !upd_other by lia; reflexivity|].
    unfold e7_constraints, mimc_t. cbn [e7_x e7_k e7_C e7_add e7_a e7_b e7_c e7_d].
    rewrite !sat_cons. unfold holds.
    destruct last; cbn [cA cB cC ev];
    rewrite !(upd_other _ _ _ x), !(upd_other _ _ _ k) by lia;
    rewrite !upd_same, !(upd_other _ _ _ (n + 2)%nat), !(upd_other _ _ _ (n + 1)%nat), !(upd_other _ _ _ n) by lia;
    rewrite !upd_same, ?(upd_other _ _ _ (n + 1)%nat), ?(upd_other _ _ _ n), ?upd_same by lia;
    repeat split; try ring; constructor.
Qed.

(** ** The cipher *)
Section Cipher.
  Variables (O : round_ops) (e : Z).
  Hypothesis HO : round_ok O e.

  Lemma mimc_setup_ok C x k n : C <> [] ->
    exists rs n' r, mimc_setup O x k C n = (rs, n') /\ back rs = Ok r /\
     (n < n')%nat /\ (n <= rd_result O r < n')%nat /\
     cs_all (fun v => v = x \/ v = k \/ n <= v < n')%nat (flat_map (rd_constraints O) rs) /\
     (forall s, sat s (flat_map (rd_constraints O) rs) -> s (rd_result O r) = mimc_spec e C (s x) (s k)) /\
     (forall s, (x < n)%nat -> (k < n)%nat ->
        frame n n' s (fold_left (fun s r => rd_witness O r s) rs s) /\
        sat (fold_left (fun s r => rd_witness O r s) rs s) (flat_map (rd_constraints O) rs)).
  Proof.
    revert x n. induction C as [|c C IH]; intros x n HC; [congruence|].
    cbn [mimc_setup]. destruct C as [|c2 C].
    - destruct (ro_new _ _ HO x k c true n) as (r & n1 & Hr & Hres & Hall & Hs & Hw).
      rewrite Hr. cbn [mimc_setup]. exists [r], n1, r. split; [reflexivity|]. split; [reflexivity|].
      split; [lia|]. split; [lia|]. cbn [flat_map]. rewrite app_nil_r. split; [exact Hall|]. split.
      + intros s Hsat. rewrite (Hs s Hsat). reflexivity.
      + intros s Hx Hk. cbn [fold_left]. now apply Hw.
    - destruct (ro_new _ _ HO x k c false n) as (r & n1 & Hr & Hres & Hall & Hs & Hw).
      rewrite Hr.
      destruct (IH (rd_result O r) n1) as (rs & n' & rl & Hrs & Hb & Hn & Hrl & Hall' & Hs' & Hw'); [discriminate|].
      rewrite Hrs. exists (r :: rs), n', rl. split; [reflexivity|]. split.
      { destruct rs as [|r0 rs]; [discriminate|]. unfold back in *. cbn [rev].
        cbn [rev] in Hb. destruct (rev rs ++ [r0]) as [|y l] eqn:E; [discriminate|]. exact Hb. }
      split; [lia|]. split; [lia|]. cbn [flat_map]. split; [|split].
      + rewrite cs_all_app. split.
        * eapply cs_all_impl; [|exact Hall]. cbn. intros; lia.
        * eapply cs_all_impl; [|exact Hall']. cbn. intros; lia.
      + intros s Hsat. apply sat_app in Hsat. destruct Hsat as [S1 S2].
        rewrite (Hs' s S2), (Hs s S1). unfold mimc_spec, mimc_rounds.
        cbn [fold_left]. do 4 f_equal. ring.
      + intros s Hx Hk. cbn [fold_left]. destruct (Hw s Hx Hk) as [Hf Hsat].
        destruct (Hw' (rd_witness O r s)) as [Hf' Hsat']; [lia|lia|]. split.
        * intros v Hv. rewrite Hf' by lia. apply Hf. lia.
        * apply sat_app. split; [|exact Hsat'].
          eapply sat_ext; [exact Hall| |exact Hsat]. intros v Hv. cbn in Hv. symmetry. apply Hf'. lia.
  Qed.

  Lemma mimc_ok C x k n : C <> [] ->
    exists g n' r, mimc_new O x k C n = (g, n') /\ mimc_result O g = Ok r /\
     (n <= r < n')%nat /\
     cs_all (fun v => v = x \/ v = k \/ n <= v < n')%nat (mimc_constraints O g) /\
     (forall s, sat s (mimc_constraints O g) -> s r = mimc_spec e C (s x) (s k)) /\
     (forall s, (x < n)%nat -> (k < n)%nat ->
        frame n n' s (mimc_witness O g s) /\ sat (mimc_witness O g s) (mimc_constraints O g)).
  Proof.
    intros HC. destruct (mimc_setup_ok C x k n HC) as (rs & n' & r & Hrs & Hb & Hn & Hrl & Hall & Hs & Hw).
    unfold mimc_new. rewrite Hrs. eexists. exists n', (rd_result O r). split; [reflexivity|].
    unfold mimc_result, mimc_constraints, mimc_witness. cbn [mm_rounds]. rewrite Hb. cbn [obind].
    split; [reflexivity|]. split; [lia|]. split; [exact Hall|]. split; [exact Hs|exact Hw].
  Qed.

  Lemma mimc_empty x k n : exists g n', mimc_new O x k [] n = (g, n') /\ mimc_result O g = UB.
  Proof. eexists. eexists. split; reflexivity. Qed.

  (** ** Miyaguchi-Preneel *)
  Variable C : list F.
  Hypothesis HC : C <> [].

  Lemma mp_ciphers_new_cons k keys m ms n :
    mp_ciphers_new O C (k :: keys) (m :: ms) n =
    let (c, n1) := mimc_new O m k C n in
    let (cs, n2) := mp_ciphers_new O C keys ms n1 in (c :: cs, n2).
  Proof. reflexivity. Qed.

  Lemma mp_loop_ok ms : forall k outs n,
    length outs = length ms -> NoDup outs -> ~ In k outs ->
    (forall m, In m ms -> ~ In m outs) -> (forall o, In o outs -> o < n)%nat ->
    (k < n)%nat -> (forall m, In m ms -> m < n)%nat ->
    exists cs n' ccs, mp_ciphers_new O C (k :: outs) ms n = (cs, n') /\ (n <= n')%nat /\
      mp_constraints_loop O k cs ms outs = Ok ccs /\
      cs_all (fun v => v = k \/ In v ms \/ In v outs \/ n <= v < n')%nat ccs /\
      (forall s, sat s ccs -> s (last outs k) = mp_spec (mimc_spec e C) (s k) (map s ms)) /\
      (forall s, exists s', mp_witness_loop O k cs ms outs s = Ok s' /\
         (forall v, ~ In v outs -> (v < n \/ n' <= v)%nat -> s' v = s v) /\ sat s' ccs).
  Proof.
    induction ms as [|m ms IH]; intros k outs n Hlen Hnd Hk Hm Ho Hkn Hmn.
    - destruct outs; [|discriminate]. exists [], n, []. split; [reflexivity|]. split; [lia|].
      split; [reflexivity|]. split; [constructor|]. split; [reflexivity|].
      intros s. exists s. repeat split. constructor.
    - destruct outs as [|o outs]; [discriminate|]. injection Hlen as Hlen.
      inversion Hnd as [|? ? Hno Hnd']; subst.
      rewrite mp_ciphers_new_cons.
      destruct (mimc_ok C m k n HC) as (g & n1 & r & Hg & Hr & Hrn & Hall & Hs & Hw).
      rewrite Hg.
      destruct (IH o outs n1) as (cs & n' & ccs & Hcs & Hn & Hccs & Hall' & Hs' & Hw').
      { exact Hlen. } { exact Hnd'. } { exact Hno. }
      { intros x Hx. pose proof (Hm x (or_intror Hx)) as H. cbn in H. tauto. }
      { intros x Hx. pose proof (Ho x (or_intror Hx)). lia. }
      { pose proof (Ho o (or_introl eq_refl)). lia. }
      { intros x Hx. pose proof (Hmn x (or_intror Hx)). lia. }
      assert (Hon : (o < n)%nat) by (apply Ho; now left).
      assert (Hmm : (m < n)%nat) by (apply Hmn; now left).
      assert (Hmo : m <> o /\ ~ In m outs).
      { pose proof (Hm m (or_introl eq_refl)) as H. cbn in H. split; [intros ->; tauto|tauto]. }
      assert (Hko : k <> o /\ ~ In k outs) by (cbn in Hk; split; [intros ->; tauto|tauto]).
      rewrite Hcs. eexists. exists n'. eexists. split; [reflexivity|]. split; [lia|].
      cbn [mp_constraints_loop mp_witness_loop]. rewrite Hr. cbn [obind]. rewrite Hccs. cbn [obind].
      split; [reflexivity|]. split; [|split].
      + rewrite cs_all_app, cs_all_cons. split; [|split].
        * eapply cs_all_impl; [|exact Hall]. cbn. intros v Hv. destruct Hv as [->|[->|Hv]]; auto. right. right. right. lia.
        * unfold c_all. cbn [cA cB cC L1 lc_all In]. repeat split; auto. right. right. right. lia.
        * eapply cs_all_impl; [|exact Hall']. cbn. intros v [->|[Hv|[Hv|Hv]]]; auto. right. right. right. lia.
      + intros s Hsat. rewrite sat_app, sat_cons in Hsat. destruct Hsat as (S1 & S2 & S3).
        apply Hs' in S3. unfold holds in S2. cbn [cA cB cC ev L1] in S2.
        rewrite (Hs s S1) in S2.
        rewrite last_shift.
        rewrite S3. cbn [map mp_spec fold_left]. unfold mp_spec. f_equal.
        rewrite <- S2. ring.
      + intros s. destruct (Hw s Hmm Hkn) as [Hf Hsat].
        set (s1 := mimc_witness O g s) in *. set (s2 := upd s1 o (s1 k + s1 r + s1 m)).
        destruct (Hw' s2) as (s' & Hws & Hfr & Hsat').
        exists s'. split; [exact Hws|]. split.
        * intros v Hv Hv'. cbn [In] in Hv. rewrite Hfr; [|tauto|lia].
          subst s2. rewrite upd_other by (intros ->; tauto). apply Hf. lia.
        * assert (H2 : forall v, v <> o -> ~ In v outs -> (v < n1)%nat -> s' v = s1 v).
          { intros v Hv1 Hv2 Hv3. rewrite Hfr; [|exact Hv2|lia]. subst s2. now apply upd_other. }
          assert (Hout : forall v, (n <= v < n1)%nat -> v <> o /\ ~ In v outs).
          { intros v Hv. split; [lia|]. intros Hin. pose proof (Ho v (or_intror Hin)). lia. }
          rewrite sat_app, sat_cons. split; [|split].
          -- eapply sat_ext; [exact Hall| |exact Hsat]. intros v Hv. cbn in Hv. symmetry.
             destruct Hv as [->|[->|Hv]]; apply H2; try tauto; try lia; apply (Hout v Hv).
          -- unfold holds. cbn [cA cB cC ev L1].
             rewrite (H2 k), (H2 m), (H2 r) by (try tauto; try lia; apply Hout; lia).
             rewrite Hfr; [|exact Hno|lia]. subst s2. rewrite upd_same. ring.
          -- exact Hsat'.
  Qed.

  Lemma mp_ok iv ms n : ms <> [] -> (iv < n)%nat -> (forall m, In m ms -> m < n)%nat ->
    exists g n' r cs, mp_new O C iv ms n = (g, n') /\ mp_result O g = Ok r /\ mp_constraints O g = Ok cs /\
     (n <= r < n')%nat /\
     gadget_ok n n' cs (mp_witness O g) (fun _ => True)
       (fun s => s r = mp_spec (mimc_spec e C) (s iv) (map s ms)).
  Proof.
    intros Hms Hiv Hm. unfold mp_new.
    assert (Hin : forall v, In v (var_array n (length ms)) <-> (n <= v < n + length ms)%nat)
      by (intros v; apply var_array_In).
    destruct (mp_loop_ok ms iv (var_array n (length ms)) (n + length ms)) as
      (cs & n' & ccs & Hcs & Hn & Hccs & Hall & Hs & Hw).
    { apply seq_length. } { apply seq_NoDup. } { rewrite Hin. lia. }
    { intros m H. rewrite Hin. pose proof (Hm m H). lia. }
    { intros o. rewrite Hin. lia. } { lia. } { intros m H. pose proof (Hm m H). lia. }
    rewrite Hcs. eexists. exists n', (n + length ms - 1)%nat, ccs. split; [reflexivity|].
    assert (Hl : (0 < length ms)%nat) by (destruct ms; [congruence|cbn; lia]).
    unfold mp_result, mp_constraints, mp_witness. cbn [mp_outputs mp_IV mp_ciphers mp_messages].
    split.
    { replace (length (var_array n (length ms))) with (length ms) by (symmetry; apply seq_length).
      destruct (var_array n (length ms)) as [|a l] eqn:E.
      - apply (f_equal (@length nat)) in E. unfold var_array in E. rewrite seq_length in E. cbn in E. lia.
      - rewrite <- E. apply idx_ok. unfold var_array. rewrite (nth_error_nth' _ 0%nat) by (rewrite seq_length; lia).
        f_equal. rewrite seq_nth by lia. lia. }
    split; [exact Hccs|]. split; [lia|].
    assert (Hlast : last (var_array n (length ms)) iv = (n + length ms - 1)%nat).
    { unfold var_array. destruct (length ms) as [|l]; [lia|]. rewrite seq_S, last_last. lia. }
    rewrite Hlast in Hs.
    constructor.
    - lia.
    - apply stable_true.
    - eapply cs_all_impl; [|exact Hall]. cbn. intros v [->|[Hv|[Hv|Hv]]]; try lia.
      + pose proof (Hm v Hv). lia.
      + apply Hin in Hv. lia.
    - intros s _ Hsat. now apply Hs.
    - intros s _. destruct (Hw s) as (s' & Hws & Hf & Hsat). exists s'. split; [exact Hws|]. split; [|exact Hsat].
      intros v Hv. apply Hf; [rewrite Hin; lia|lia].
  Qed.

  Lemma mp_empty iv n : exists g n', mp_new O C iv [] n = (g, n') /\ mp_result O g = UB.
  Proof. eexists. eexists. split; reflexivity. Qed.
End Cipher.

(** ** Native functions *)
Lemma mimc_native_ok C x k : C <> [] -> mimc_native C x k = Ok (mimc_spec 7 C x k).
Proof.
  intros HC. unfold mimc_native.
  destruct (mimc_ok e7_ops 7 e7_ok C 1 2 3 HC) as (g & n' & r & Hg & Hr & _ & _ & Hs & Hw).
  rewrite Hg, Hr. cbn [obind]. f_equal.
  destruct (Hw (upd (upd (fun _ => F0) 1 x) 2 k)) as [Hf Hsat]; [lia|lia|].
  rewrite (Hs _ Hsat). rewrite !Hf by lia. reflexivity.
Qed.

Lemma mimc_hash_native_ok C ms k : C <> [] -> ms <> [] ->
  mimc_hash_native C ms k = Ok (mp_spec (mimc_spec 7 C) k ms).
Proof.
  intros HC Hms. unfold mimc_hash_native.
  destruct (mp_ok e7_ops 7 e7_ok C HC (S (length ms)) (var_array 1 (length ms)) (S (S (length ms)))) as
    (g & n' & r & cs & Hg & Hr & Hcs & _ & Hok).
  { destruct ms; [congruence|discriminate]. } { lia. }
  { intros m Hm. apply var_array_In in Hm. lia. }
  rewrite Hg. set (s := upd _ _ _).
  destruct (go_run _ _ _ _ _ _ s Hok I) as (s' & Hw & Hf & _ & _ & HR). rewrite Hw. cbn [obind].
  rewrite Hr. cbn [obind]. f_equal. rewrite HR. rewrite Hf by lia. f_equal.
  - apply upd_same.
  - transitivity (map s (var_array 1 (length ms))).
    + apply map_ext_in. intros v Hv. apply var_array_In in Hv. apply Hf. lia.
    + rewrite <- (upds_map (fun _ => F0) (var_array 1 (length ms)) ms) at 2; [|apply seq_NoDup|symmetry; apply seq_length].
      apply map_ext_in. intros v Hv. apply var_array_In in Hv. apply upd_other. lia.
Qed.

(** ** C15: permutation *)
Lemma Fpow_root e d t x : (0 < e -> 0 < d -> 0 <= t -> e * d = 1 + t * (p_mod - 1))%Z ->
  (0 < e)%Z -> (0 < d)%Z -> (0 <= t)%Z -> Fpow (Fpow x e) d = x.
Proof.
  intros H He Hd Ht. specialize (H He Hd Ht). rewrite <- Fpow_mul by lia. rewrite H.
  assert (Hp : (0 < p_mod - 1)%Z) by reflexivity.
  destruct (Feq_dec x F0) as [->|Hx].
  - apply Fpow_base_0. nia.
  - rewrite Fpow_add, Fpow_1 by nia. rewrite Z.mul_comm, Fpow_mul, F_fermat, Fpow_base_1 by (assumption || lia).
    ring.
Qed.

Lemma mimc_rounds_snoc e C c x k :
  mimc_rounds e (C ++ [c]) x k = Fpow (mimc_rounds e C x k + k + c) e.
Proof. unfold mimc_rounds. now rewrite fold_left_app. Qed.

Lemma mimc_inv_gen e d C x k : (forall z, Fpow (Fpow z e) d = z) ->
  mimc_inv_spec d C (mimc_spec e C x k) k = x.
Proof.
  intros He. unfold mimc_inv_spec, mimc_spec.
  replace (mimc_rounds e C x k + k - k) with (mimc_rounds e C x k) by ring.
  revert x. induction C as [|c C IH] using rev_ind; intros x; [reflexivity|].
  rewrite rev_app_distr, mimc_rounds_snoc. cbn [rev app fold_left]. rewrite He.
  replace (mimc_rounds e C x k + k + c - k - c) with (mimc_rounds e C x k) by ring. apply IH.
Qed.

Lemma mimc_inv_gen2 e d C y k : (forall z, Fpow (Fpow z d) e = z) ->
  mimc_spec e C (mimc_inv_spec d C y k) k = y.
Proof.
  intros He. unfold mimc_inv_spec, mimc_spec.
  enough (H : forall z, mimc_rounds e C (fold_left (fun z c => Fpow z d - k - c) (rev C) z) k = z).
  { rewrite H. ring. }
  induction C as [|c C IH] using rev_ind; intros z; [reflexivity|].
  rewrite rev_app_distr, mimc_rounds_snoc. cbn [rev app fold_left]. rewrite IH.
  replace (Fpow z d - k - c + k + c) with (Fpow z d) by ring. apply He.
Qed.
