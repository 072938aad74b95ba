(** Lemmas behind Prop_OneOfN.v: shamir_poly. *)
From Coq Require Import List ZArith Bool Arith Lia.
From Coq.setoid_ring Require Import Field_tac.
From Verif Require Import Primes Field Base R1CS R1CSFacts P_Bits M_Bits M_OneOfN Q_OneOfN.
Import ListNotations.
Local Open Scope F_scope.

(** specification: sum of alpha_i * x^i *)
Definition poly_spec (alpha : list F) (x : F) : F :=
  fsum (map (fun i => nth i alpha F0 * Fpow x (Z.of_nat i)) (seq 0 (length alpha))).

Lemma fsum1 x : fsum [x] = x.
Proof. unfold fsum. cbn [fold_right]. ring. Qed.

Lemma omapM_ok {A B} (f : A -> outcome B) g l : (forall a, In a l -> f a = Ok (g a)) -> omapM f l = Ok (map g l).
Proof.
  induction l as [|a l IH]; intros H; [reflexivity|]. cbn [omapM map].
  rewrite H by now left. cbn [obind]. rewrite IH by (intros; apply H; now right). reflexivity.
Qed.

Section Shamir.
  Variables (input : nat) (alpha : list nat) (n : nat).
  Let k := length alpha.
  Let g := {| sh_input := input; sh_alpha := alpha; sh_sq := var_array n k; sh_tot := var_array (n + k) k |}.
  Let sq i := (n + i)%nat.
  Let tot i := (n + k + i)%nat.
  Let al i := nth i alpha 0%nat.

  (** the constraints as a total function, for k >= 3 *)
  Definition sh_step' (i : nat) : list constr :=
    (match i with
     | O => [R1 (V (sq 0)) L1 L1]
     | S O => [R1 (V input) (V input) (V (sq 2))]
     | _ => if (i <? k - 1)%nat then [R1 (V input) (V (sq i)) (V (sq (i + 1)))] else []
     end) ++
    [R1 (V (al i)) (V (sq i)) (match i with O => V (tot 0) | S j => LSub (V (tot i)) (V (tot j)) end)].

  Lemma sh_new_ok : (2 <= k)%nat -> sh_new input alpha n = Ok (g, (n + 2 * k)%nat).
  Proof. intros H. unfold sh_new. fold k. rewrite (proj2 (Nat.leb_le _ _) H). reflexivity. Qed.

  Lemma idx_alpha i : (i < k)%nat -> idx alpha i = Ok (al i).
  Proof. intros H. apply idx_ok. apply nth_error_nth'. exact H. Qed.

  Lemma sh_step_ok i : (3 <= k)%nat -> (i < k)%nat -> sh_step g i = Ok (sh_step' i).
  Proof.
    intros Hk Hi. unfold sh_step, sh_step'. cbn [sh_input sh_alpha sh_sq sh_tot g]. unfold var_array. fold k.
    destruct i as [|[|i]].
    - rewrite !(idx_seq n), !(idx_seq (n + k)), idx_alpha by lia. cbn [obind app]. reflexivity.
    - rewrite !(idx_seq n), !(idx_seq (n + k)), idx_alpha by lia. cbn [obind app]. reflexivity.
    - destruct (Nat.ltb_spec (S (S i)) (k - 1)).
      + rewrite !(idx_seq n), !(idx_seq (n + k)), idx_alpha by lia. cbn [obind app]. reflexivity.
      + rewrite !(idx_seq n), !(idx_seq (n + k)), idx_alpha by lia. cbn [obind app]. reflexivity.
  Qed.

  Lemma sh_constraints_ok : (3 <= k)%nat -> sh_constraints g = Ok (concat (map sh_step' (seq 0 k))).
  Proof.
    intros Hk. unfold sh_constraints. cbn [sh_alpha g]. fold k.
    rewrite (omapM_ok _ sh_step'); [reflexivity|]. intros i Hi. apply in_seq in Hi. apply sh_step_ok; lia.
  Qed.

  Lemma sh_sat s : sat s (concat (map sh_step' (seq 0 k))) <-> forall i, (i < k)%nat -> sat s (sh_step' i).
  Proof.
    rewrite sat_concat, Forall_map, Forall_forall. split.
    - intros H i Hi. apply H. apply in_seq. lia.
    - intros H i Hi. apply in_seq in Hi. apply H. lia.
  Qed.

  Definition psum (s : assign) (i : nat) : F := fsum (map (fun j => s (al j) * s (sq j)) (seq 0 i)).
  Lemma psum_S s i : psum s (S i) = psum s i + s (al i) * s (sq i).
  Proof. unfold psum. rewrite seq_S, map_app, fsum_app. cbn [map plus]. unfold fsum at 2. cbn [fold_right]. ring. Qed.

  Lemma sh_semantics s : (3 <= k)%nat ->
    (sat s (concat (map sh_step' (seq 0 k))) <->
     s (sq 0) = F1 /\ (forall i, (2 <= i < k)%nat -> s (sq i) = Fpow (s input) (Z.of_nat i)) /\
     (forall i, (i < k)%nat -> s (tot i) = psum s (S i))).
  Proof.
    intros Hk. rewrite sh_sat. split.
    - intros H. split; [|split].
      + specialize (H 0%nat ltac:(lia)). unfold sh_step' in H. rewrite sat_app, sat_cons in H.
        destruct H as [[H _] _]. unfold holds, L1 in H. cbn [cA cB cC ev] in H. rewrite <- H. ring.
      + intros i [Hi1 Hi2]. induction i as [|i IH]; [lia|]. destruct (Nat.eq_dec i 1) as [->|Hne].
        * specialize (H 1%nat ltac:(lia)). unfold sh_step' in H. rewrite sat_app, sat_cons in H.
          destruct H as [[H _] _]. unfold holds in H. cbn [cA cB cC ev] in H. rewrite <- H.
          change (Z.of_nat 2) with (1 + 1)%Z. rewrite Fpow_succ, Fpow_1 by lia. ring.
        * specialize (IH ltac:(lia) ltac:(lia)). specialize (H i ltac:(lia)). unfold sh_step' in H.
          destruct i as [|[|i]]; [lia|lia|].
          rewrite (proj2 (Nat.ltb_lt (S (S i)) (k - 1)) ltac:(lia)) in H.
          rewrite sat_app, sat_cons in H. destruct H as [[H _] _]. unfold holds in H. cbn [cA cB cC ev] in H.
          replace (sq (S (S (S i)))) with (sq (S (S i) + 1)) by (unfold sq; lia). rewrite <- H, IH.
          rewrite (Nat2Z.inj_succ (S (S i))). unfold Z.succ. rewrite Fpow_succ by lia. ring.
      + intros i. induction i as [|i IH]; intros Hi; specialize (H _ Hi); unfold sh_step' in H;
        rewrite sat_app in H; destruct H as [_ H]; rewrite sat_cons in H; destruct H as [H _]; unfold holds in H; cbn [cA cB cC ev] in H.
        * rewrite <- H, psum_S. unfold psum, fsum. cbn [seq map fold_right]. ring.
        * rewrite psum_S, <- (IH ltac:(lia)), H. ring.
    - intros (H0 & H1 & H2) i Hi. unfold sh_step'. rewrite sat_app. split.
      + destruct i as [|[|i]].
        * rewrite sat_cons. split; [|constructor]. unfold holds, L1. cbn [cA cB cC ev]. rewrite H0. ring.
        * rewrite sat_cons. split; [|constructor]. unfold holds. cbn [cA cB cC ev]. rewrite (H1 2%nat) by lia.
          change (Z.of_nat 2) with (1 + 1)%Z. rewrite Fpow_succ, Fpow_1 by lia. ring.
        * destruct (Nat.ltb_spec (S (S i)) (k - 1)); [|constructor].
          rewrite sat_cons. split; [|constructor]. unfold holds. cbn [cA cB cC ev].
          replace (sq (S (S i) + 1)) with (sq (S (S (S i)))) by (unfold sq; lia).
          rewrite !H1 by lia. rewrite (Nat2Z.inj_succ (S (S i))). unfold Z.succ. rewrite Fpow_succ by lia. ring.
      + rewrite sat_cons. split; [|constructor]. unfold holds. cbn [cA cB cC ev]. destruct i as [|i]; cbn [ev].
        * rewrite H2 by lia. rewrite psum_S. unfold psum, fsum. cbn [seq map fold_right]. ring.
        * rewrite !H2 by lia. rewrite (psum_S s (S i)). ring.
  Qed.

  (** *** witness *)
  Hypothesis Hin : (input < n)%nat.
  Hypothesis Hal : forall a, In a alpha -> (a < n)%nat.

  Lemma al_lt i : (i < k)%nat -> (al i < n)%nat.
  Proof. intros Hi. apply Hal. apply nth_In. exact Hi. Qed.

  Definition sqv (s : assign) (i : nat) : F := Fpow (s input) (Z.of_nat i).

  Lemma sh_wloop_ok s0 d : forall i s, (i + d = k)%nat ->
    (forall v, (v < n)%nat -> s v = s0 v) ->
    (forall v, (n + 2 * k <= v)%nat -> s v = s0 v) ->
    (forall j, (j < i)%nat -> s (sq j) = sqv s0 j) ->
    (forall j, (j < i)%nat -> s (tot j) = fsum (map (fun j => s0 (al j) * sqv s0 j) (seq 0 (S j)))) ->
    exists s', sh_wloop g (seq i d) (fsum (map (fun j => s0 (al j) * sqv s0 j) (seq 0 i))) s = Ok s' /\
      (forall v, (v < n)%nat -> s' v = s0 v) /\
      (forall v, (n + 2 * k <= v)%nat -> s' v = s0 v) /\
      (forall j, (j < k)%nat -> s' (sq j) = sqv s0 j) /\
      (forall j, (j < k)%nat -> s' (tot j) = fsum (map (fun j => s0 (al j) * sqv s0 j) (seq 0 (S j)))).
  Proof.
    induction d as [|d IH]; intros i s Hi E1 E2 E3 E4.
    - exists s. cbn [seq sh_wloop]. split; [reflexivity|]. replace k with i by lia.
      split; [exact E1|]. split; [intros v Hv; apply E2; lia|]. split; assumption.
    - cbn [seq sh_wloop]. cbn [sh_sq sh_input sh_alpha sh_tot g]. unfold var_array.
      rewrite !idx_seq, idx_alpha by lia. cbn [obind].
      assert (Esq : (match i with O => F1 | S _ => Fpow (s input) (Z.of_nat i) end) = sqv s0 i).
      { unfold sqv. rewrite E1 by exact Hin. destruct i; [|reflexivity]. cbn [Z.of_nat]. now rewrite Fpow_0. }
      rewrite Esq. pose proof (al_lt i ltac:(lia)).
      rewrite upd_same, upd_other by lia. rewrite E1 by assumption.
      replace (fsum (map (fun j => s0 (al j) * sqv s0 j) (seq 0 i)) + s0 (al i) * sqv s0 i) with
        (fsum (map (fun j => s0 (al j) * sqv s0 j) (seq 0 (S i)))).
      2:{ rewrite seq_S, map_app, fsum_app. cbn [map plus]. unfold fsum at 2. cbn [fold_right]. ring. }
      apply IH.
      + lia.
      + intros v Hv. rewrite !upd_other by lia. now apply E1.
      + intros v Hv. rewrite !upd_other by lia. now apply E2.
      + intros j Hj. unfold sq. rewrite upd_other by lia. destruct (Nat.eq_dec j i) as [->|Hne].
        * apply upd_same.
        * rewrite upd_other by lia. apply E3. lia.
      + intros j Hj. destruct (Nat.eq_dec j i) as [->|Hne].
        * unfold tot. rewrite upd_same. reflexivity.
        * unfold tot. rewrite !upd_other by lia. apply E4. lia.
  Qed.

  Lemma sh_result_ok : (2 <= k)%nat -> sh_result g = Ok (tot (k - 1)).
  Proof. intros Hk. unfold sh_result. cbn [sh_tot g]. unfold var_array. rewrite seq_length. now rewrite idx_seq by lia. Qed.

  Lemma poly_spec_map s : poly_spec (map s alpha) (s input) = fsum (map (fun j => s (al j) * sqv s j) (seq 0 k)).
  Proof.
    unfold poly_spec. rewrite map_length. fold k. f_equal. apply map_ext_in. intros j Hj. apply in_seq in Hj.
    unfold sqv, al. f_equal. rewrite (nth_indep _ F0 (s 0%nat)) by (rewrite map_length; fold k; lia). apply map_nth.
  Qed.

  Lemma sh_honest s0 : (3 <= k)%nat -> exists s',
    sh_witness g s0 = Ok s' /\ frame n (n + 2 * k) s0 s' /\
    sat s' (concat (map sh_step' (seq 0 k))) /\ s' (tot (k - 1)) = poly_spec (map s0 alpha) (s0 input).
  Proof.
    intros Hk. unfold sh_witness. cbn [sh_alpha g]. fold k.
    destruct (sh_wloop_ok s0 k 0 s0) as (s' & Hw & F1' & F2' & Q & T); try (intros; reflexivity || lia).
    exists s'. split; [exact Hw|]. split.
    { intros v [Hv|Hv]; [now apply F1'|now apply F2']. }
    split.
    - apply sh_semantics; [exact Hk|]. split; [|split].
      + rewrite Q by lia. unfold sqv. cbn [Z.of_nat]. apply Fpow_0.
      + intros i Hi. rewrite Q by lia. unfold sqv. now rewrite F1' by exact Hin.
      + intros i Hi. rewrite T by exact Hi. unfold psum. f_equal. apply map_ext_in. intros j Hj. apply in_seq in Hj.
        rewrite Q by lia. rewrite F1' by (apply al_lt; lia). reflexivity.
    - rewrite T by lia. rewrite poly_spec_map. do 3 f_equal. lia.
  Qed.

  (** *** what the constraints really say *)
  Lemma sh_constraints_meaning s : (3 <= k)%nat -> sat s (concat (map sh_step' (seq 0 k))) ->
    s (tot (k - 1)) = poly_spec (map s alpha) (s input) + s (al 1) * (s (sq 1) - s input).
  Proof.
    intros Hk H. apply sh_semantics in H; [|exact Hk]. destruct H as (H0 & H1 & H2).
    rewrite H2 by lia. rewrite poly_spec_map. unfold psum. replace (S (k - 1)) with k by lia.
    assert (G : forall m, (2 <= m <= k)%nat ->
      fsum (map (fun j => s (al j) * s (sq j)) (seq 0 m)) =
      fsum (map (fun j => s (al j) * sqv s j) (seq 0 m)) + s (al 1) * (s (sq 1) - s input)).
    { induction m as [|m IH]; intros Hm; [lia|]. destruct (Nat.eq_dec m 1) as [->|Hne].
      - unfold fsum. cbn [seq map fold_right]. rewrite H0. unfold sqv. cbn [Z.of_nat]. rewrite Fpow_0.
        change (Z.of_nat 1) with 1%Z. rewrite Fpow_1. ring.
      - rewrite seq_S, !map_app, !fsum_app, IH by lia. cbn [map plus]. rewrite !fsum1, (H1 m) by lia.
        fold (sqv s m). ring. }
    apply G. lia.
  Qed.

  (** every value of the result is attainable as soon as alpha_1 is non-zero *)
  Lemma sh_any_result s y : (3 <= k)%nat -> s (al 1) <> F0 -> exists s',
    (forall v, (v < n)%nat -> s' v = s v) /\ sat s' (concat (map sh_step' (seq 0 k))) /\ s' (tot (k - 1)) = y.
  Proof.
    intros Hk Ha. set (P := poly_spec (map s alpha) (s input)). set (w := s input + (y - P) / s (al 1)).
    set (sqw := fun i => if Nat.eqb i 1 then w else sqv s i).
    set (s' := fun v => if (v <? n)%nat then s v else if (v <? n + k)%nat then sqw (v - n)%nat
               else fsum (map (fun j => s (al j) * sqw j) (seq 0 (S (v - (n + k)))))).
    assert (B : forall v, (v < n)%nat -> s' v = s v).
    { intros v Hv. unfold s'. destruct (Nat.ltb_spec v n); [reflexivity|lia]. }
    assert (Q : forall i, (i < k)%nat -> s' (sq i) = sqw i).
    { intros i Hi. unfold s', sq. destruct (Nat.ltb_spec (n + i) n); [lia|].
      destruct (Nat.ltb_spec (n + i) (n + k)); [|lia]. f_equal. lia. }
    assert (T : forall i, s' (tot i) = fsum (map (fun j => s (al j) * sqw j) (seq 0 (S i)))).
    { intros i. unfold s', tot. destruct (Nat.ltb_spec (n + k + i) n); [lia|].
      destruct (Nat.ltb_spec (n + k + i) (n + k)); [lia|]. do 3 f_equal. lia. }
    assert (S' : sat s' (concat (map sh_step' (seq 0 k)))).
    { apply sh_semantics; [exact Hk|]. split; [|split].
      - rewrite Q by lia. unfold sqw. cbn [Nat.eqb]. unfold sqv. cbn [Z.of_nat]. apply Fpow_0.
      - intros i Hi. rewrite Q by lia. unfold sqw. destruct (Nat.eqb_spec i 1); [lia|]. unfold sqv. now rewrite B by exact Hin.
      - intros i Hi. rewrite T. unfold psum. f_equal. apply map_ext_in. intros j Hj. apply in_seq in Hj.
        rewrite Q by lia. rewrite B by (apply al_lt; lia). reflexivity. }
    exists s'. split; [exact B|]. split; [exact S'|].
    rewrite (sh_constraints_meaning s' Hk S'). rewrite Q by lia. unfold sqw. cbn [Nat.eqb].
    rewrite (B input Hin), (B (al 1)) by (apply al_lt; lia).
    replace (map s' alpha) with (map s alpha) by (apply map_ext_in; intros a Hia; symmetry; apply B, Hal, Hia).
    fold P. unfold w. field. exact Ha.
  Qed.
End Shamir.

Lemma shamir_main input alpha n : (3 <= length alpha)%nat -> (input < n)%nat -> (forall a, In a alpha -> (a < n)%nat) ->
  exists g n' cs r, sh_new input alpha n = Ok (g, n') /\ sh_constraints g = Ok cs /\ sh_result g = Ok r /\
    forall s, exists s', sh_witness g s = Ok s' /\ frame n n' s s' /\ sat s' cs /\
      s' r = poly_spec (map s alpha) (s input).
Proof.
  intros Hk Hi Ha. eexists. eexists. eexists. eexists. split; [apply sh_new_ok; lia|].
  split; [now apply sh_constraints_ok|]. split; [apply sh_result_ok; lia|].
  intros s. now apply sh_honest.
Qed.

Lemma shamir_two input a0 a1 n : exists g n', sh_new input [a0; a1] n = Ok (g, n') /\ sh_constraints g = UB.
Proof. eexists. eexists. split; reflexivity. Qed.

Lemma shamir_short input alpha n : (length alpha < 2)%nat -> sh_new input alpha n = Abort.
Proof. intros H. unfold sh_new. destruct (Nat.leb_spec 2 (length alpha)); [lia|reflexivity]. Qed.

Lemma shamir_unsound input alpha n : (3 <= length alpha)%nat -> (input < n)%nat -> (forall a, In a alpha -> (a < n)%nat) ->
  exists g n' cs r, sh_new input alpha n = Ok (g, n') /\ sh_constraints g = Ok cs /\ sh_result g = Ok r /\
    (forall s, sat s cs -> s r = poly_spec (map s alpha) (s input) + s (nth 1 alpha 0%nat) * (s (S n) - s input)) /\
    (forall s y, s (nth 1 alpha 0%nat) <> F0 ->
       exists s', (forall v, (v < n)%nat -> s' v = s v) /\ sat s' cs /\ s' r = y).
Proof.
  intros Hk Hi Ha. eexists. eexists. eexists. eexists. split; [apply sh_new_ok; lia|].
  split; [now apply sh_constraints_ok|]. split; [apply sh_result_ok; lia|]. split.
  - intros s Hs. rewrite (sh_constraints_meaning input alpha n Hi s Hk Hs). do 4 f_equal. lia.
  - intros s y Hy. now apply sh_any_result.
Qed.

Lemma shamir_refuted : exists input alpha n g n' cs r s, sh_new input alpha n = Ok (g, n') /\
  sh_constraints g = Ok cs /\ sh_result g = Ok r /\ sat s cs /\ s r <> poly_spec (map s alpha) (s input).
Proof.
  destruct (shamir_unsound 1 [2; 3; 4]%nat 5) as (g & n' & cs & r & H1 & H2 & H3 & _ & H).
  { cbn. lia. } { lia. } { cbn. lia. }
  destruct (H (fun _ => F1) F0) as (s & E & Hs & Hr). { exact F1_neq_0. }
  exists 1%nat, [2; 3; 4]%nat, 5%nat, g, n', cs, r, s. repeat (split; [assumption|]).
  rewrite Hr. cbn [map]. rewrite !E by lia. intros K. apply (f_equal fval) in K. vm_compute in K. discriminate.
Qed.

(** the soundness that does hold *)
Lemma shamir_partial input alpha n g n' cs r s : (input < n)%nat -> (forall a, In a alpha -> (a < n)%nat) ->
  sh_new input alpha n = Ok (g, n') -> sh_constraints g = Ok cs -> sh_result g = Ok r -> sat s cs ->
  s (nth 1 alpha 0%nat) = F0 \/ s (S n) = s input -> s r = poly_spec (map s alpha) (s input).
Proof.
  intros Hi Ha Hg Hcs Hr Hs Hor.
  destruct (Nat.le_gt_cases 3 (length alpha)) as [Hk|Hk].
  - destruct (shamir_unsound input alpha n Hk Hi Ha) as (g' & n'' & cs' & r' & H1 & H2 & H3 & H & _).
    rewrite H1 in Hg. apply Ok_inj in Hg. injection Hg as -> ->. rewrite H2 in Hcs. apply Ok_inj in Hcs. subst.
    rewrite H3 in Hr. apply Ok_inj in Hr. subst. rewrite (H s Hs). destruct Hor as [->| ->]; ring.
  - exfalso. destruct alpha as [|a [|b [|c l]]]; cbn [length] in Hk; try lia; try discriminate.
    unfold sh_new in Hg. cbn in Hg. apply Ok_inj in Hg. injection Hg as <- <-. discriminate.
Qed.
