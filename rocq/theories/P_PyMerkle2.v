(** Lemmas on the proofs of merkletree.py. *)
From Coq Require Import List ZArith Bool Arith Lia.
From Verif Require Import Primes Base M_Evm M_PyMerkle Spec_PyMerkle P_PyMerkle.
Import ListNotations.
Local Open Scope nat_scope.

Lemma py_insert_nat l n x : n <= length l -> py_insert l (Z.of_nat n) x = firstn n l ++ x :: skipn n l.
Proof.
  intros Q. unfold py_insert. destruct (Z.ltb_spec (Z.of_nat n) 0) as [V|V]; [lia|].
  rewrite Z.min_l by lia. now rewrite Nat2Z.id.
Qed.

(** removing the first equal item and inserting at the position *)
Lemma py_remove_length : forall l x, In x l -> S (length (py_remove l x)) = length l.
Proof.
  induction l as [|y l IH]; intros x Q; [destruct Q|]. cbn [py_remove]. destruct (Z.eqb_spec y x) as [->|N]; [reflexivity|].
  cbn [length]. rewrite IH; [reflexivity|]. destruct Q; [contradiction|assumption].
Qed.
Lemma insert_const : forall n l x, n <= length l -> (forall j, j < n -> nth j l 0%Z = x) -> firstn n l ++ x :: skipn n l = x :: l.
Proof.
  induction n as [|n IH]; intros l x K Q; [reflexivity|]. destruct l as [|y l]; [cbn in K; lia|].
  cbn [firstn skipn app]. assert (y = x) as -> by exact (Q 0 ltac:(lia)).
  rewrite IH; [reflexivity|cbn in K; lia|]. intros j J. exact (Q (S j) ltac:(lia)).
Qed.
Lemma remove_insert : forall l n, n < length l -> no_gap l n ->
  firstn n (py_remove l (nth n l 0%Z)) ++ nth n l 0%Z :: skipn n (py_remove l (nth n l 0%Z)) = l.
Proof.
  induction l as [|y l IH]; intros n K G; [cbn in K; lia|]. cbn [py_remove]. destruct (Z.eqb_spec y (nth n (y :: l) 0%Z)) as [E|N].
  - destruct n as [|n]; [reflexivity|]. rewrite <- E. rewrite insert_const; [reflexivity|cbn in K; lia|].
    intros j J. destruct (Nat.eq_dec (S j) (S n)) as [Z0|Z0].
    + assert (j = n) as -> by lia. symmetry. exact E.
    + rewrite E. exact (G 0 (S j) ltac:(lia) E).
  - destruct n as [|n]; [contradiction (N eq_refl)|]. cbn [firstn skipn app]. cbn [nth] in *. f_equal. apply IH; [cbn in K; lia|].
    intros j k J E. exact (G (S j) (S k) ltac:(lia) E).
Qed.

Section Proofs.
  Variable H : nat -> list Z -> Z.
  Variable fill : nat -> nat -> Z.
  Variable w : nat.
  Hypothesis w2 : 2 <= w.
  Variable hash_node : Z -> list Z -> outcome Z.
  Variable unique : Z -> Z -> Z.
  Variable D : nat.
  Hypothesis HU : hasher_is hash_node unique H fill w D.
  Notation node := (wnode H fill w).
  Notation kids := (children H fill w).

  Lemma kids_nth L d i : nth (i mod w) (kids L d i) 0%Z = node L d i.
  Proof.
    unfold children. pose proof (Nat.mod_upper_bound i w ltac:(lia)) as B.
    rewrite (nth_indep _ 0%Z (node L d (w * (i / w) + 0))) by (rewrite map_length, seq_length; lia).
    rewrite (map_nth (fun j => node L d (w * (i / w) + j)) (seq 0 w) 0). rewrite seq_nth by lia. rewrite Nat.add_0_l. rewrite <- (Nat.div_mod i w) by lia. reflexivity.
  Qed.
  Lemma kids_H L d i : i * w ^ d < length L -> H d (kids L d i) = node L (S d) (i / w).
  Proof.
    intros Q. rewrite wnode_S; [reflexivity|]. pose proof (pow_pos w w2 d) as P. cbn [Nat.pow].
    pose proof (Nat.mul_div_le i w ltac:(lia)). nia.
  Qed.

  Lemma proof_levels_ok L t idx : inv H fill w D L t -> idx < length L -> (forall d, d < D -> no_gap (kids L d (idx / w ^ d)) ((idx / w ^ d) mod w)) ->
    forall n m, m + n = D ->
    exists steps, proof_levels unique n m (Z.of_nat (idx / w ^ m)) t = Ok (z_steps steps) /\ length steps = n /\ shaped w steps /\
      verify_steps hash_node m (node L m (idx / w ^ m)) (z_steps steps) = Ok (node L D (idx / w ^ D)).
  Proof.
    intros [S0 C] K G. induction n as [|n IH]; intros m E.
    - exists []. assert (m = D) as -> by lia. repeat split. constructor.
    - destruct (IH (S m)) as (steps & P & Len & Sh & V); [lia|]. cbn [proof_levels].
      rewrite (make_node_ok H fill w w2 unique D (proj2 HU) L L D t m _ S0) by lia. cbn [obind].
      rewrite (proj2 (Nat.leb_le m D)) by lia.
      rewrite (proj1 S0), <- Nat2Z.inj_mod, <- Nat2Z.inj_div, <- div_up by assumption.
      set (i := idx / w ^ m) in *.
      pose proof (Nat.mod_upper_bound i w ltac:(lia)) as B.
      rewrite py_get_nat. rewrite (nth_error_nth' _ 0%Z) by (rewrite children_length; assumption). rewrite kids_nth. cbn [obind].
      rewrite P. cbn [obind]. exists ((i mod w, py_remove (kids L m i) (node L m i)) :: steps). split; [reflexivity|].
      split; [cbn [length]; lia|].
      assert (S (length (py_remove (kids L m i) (node L m i))) = w) as LR.
      { rewrite py_remove_length; [apply children_length|]. rewrite <- kids_nth. apply nth_In. rewrite children_length. assumption. }
      split; [apply Forall_cons; [cbn [fst snd]; split; assumption|exact Sh]|].
      cbn [z_steps map fst snd verify_steps]. rewrite py_insert_nat by lia.
      assert (firstn (i mod w) (py_remove (kids L m i) (node L m i)) ++ node L m i :: skipn (i mod w) (py_remove (kids L m i) (node L m i)) = kids L m i) as ->.
      { pose proof (remove_insert (kids L m i) (i mod w)) as R. rewrite kids_nth in R. apply R; [rewrite children_length; assumption|].
        apply G. lia. }
      rewrite (proj1 HU) by (lia || apply children_length). cbn [obind].
      rewrite kids_H by (pose proof (div_le w w2 idx m); unfold i; lia).
      unfold i. rewrite <- div_up by assumption. exact V.
  Qed.

  (** ** soundness *)
  Lemma climb_to_S : forall k item steps d, k < length steps ->
    climb_to H item steps d (S k) = H (d + k) (let (a, pf) := nth k steps (0, []) in firstn a pf ++ climb_to H item steps d k :: skipn a pf).
  Proof.
    induction k as [|k IH]; intros item [|[a pf] r] d Q; try (cbn in Q; lia).
    - cbn [climb_to nth]. rewrite Nat.add_0_r. destruct r; reflexivity.
    - change (climb_to H item ((a, pf) :: r) d (S (S k))) with (climb_to H (H d (firstn a pf ++ item :: skipn a pf)) r (S d) (S k)).
      rewrite IH by (cbn in Q; lia). now replace (S d + k) with (d + S k) by lia.
  Qed.
  Lemma verify_climb : forall steps m item v, shaped w steps -> m + length steps <= D ->
    verify_steps hash_node m item (z_steps steps) = Ok v -> v = climb_to H item steps m (length steps).
  Proof.
    induction steps as [|[a pf] steps IH]; intros m item v Sh B V.
    - cbn in V. cbn [length climb_to]. congruence.
    - inversion Sh as [|? ? [Q1 Q2] Sh']; subst. cbn [fst snd] in *. cbn [length] in B. cbn [z_steps map fst snd verify_steps] in V.
      rewrite py_insert_nat in V by lia.
      rewrite (proj1 HU) in V by (lia || (rewrite app_length, firstn_length; cbn [length]; rewrite skipn_length; lia)).
      cbn [obind] in V. cbn [length climb_to]. apply (IH (S m)); [exact Sh'|lia|exact V].
  Qed.
  Lemma position_bound : forall steps, shaped w steps -> position w steps < w ^ length steps.
  Proof.
    induction steps as [|[a pf] steps IH]; intros Sh; [cbn; lia|]. inversion Sh as [|? ? [Q1 _] Sh']; subst. cbn [fst] in Q1.
    cbn [position length]. rewrite pow_S. pose proof (IH Sh'). nia.
  Qed.
  Lemma position_digit : forall steps k, shaped w steps -> k < length steps -> (position w steps / w ^ k) mod w = fst (nth k steps (0, [])).
  Proof.
    induction steps as [|[a pf] steps IH]; intros k Sh Q; [cbn in Q; lia|]. inversion Sh as [|? ? [Q1 _] Sh']; subst. cbn [fst] in Q1.
    cbn [position]. destruct k as [|k].
    - rewrite Nat.pow_0_r, Nat.div_1_r. cbn [nth fst]. rewrite (Nat.mul_comm w), Nat.mod_add by lia. now apply Nat.mod_small.
    - cbn [nth]. rewrite <- (IH k Sh') by (cbn in Q; lia). f_equal.
      pose proof (pow_pos w w2 k) as P. rewrite pow_S, <- Nat.div_div by lia. f_equal. rewrite (Nat.mul_comm w), Nat.div_add by lia.
      now rewrite Nat.div_small.
  Qed.
  Lemma claimed_nth item steps k : shaped w steps -> k < length steps ->
    nth (fst (nth k steps (0, []))) (claimed H item steps k) 0%Z = climb_to H item steps 0 k.
  Proof.
    intros Sh Q. assert (fst (nth k steps (0, [])) < w /\ S (length (snd (nth k steps (0, [])))) = w) as [B1 B2].
    { unfold shaped in Sh. rewrite Forall_forall in Sh. apply (Sh (nth k steps (0, []))), nth_In, Q. }
    unfold claimed. destruct (nth k steps (0, [])) as [a pf]. cbn [fst snd] in *.
    rewrite app_nth2 by (rewrite firstn_length; lia). rewrite firstn_length, Nat.min_l by lia. now rewrite Nat.sub_diag.
  Qed.
  Lemma sound_down L item steps : shaped w steps -> length steps = D -> L <> [] ->
    climb_to H item steps 0 D = node L D 0 -> forall n k, k + n = D ->
    climb_to H item steps 0 k = node L k (position w steps / w ^ k) \/
    (exists d, d < D /\ w_collision H fill w L item steps d) \/ (exists d, d < D /\ w_filler_hit H fill w L item steps d).
  Proof.
    intros Sh Len NE E. induction n as [|n IH]; intros k Q.
    - left. assert (k = D) as -> by lia. rewrite E. f_equal. symmetry. apply Nat.div_small.
      pose proof (position_bound steps Sh) as B. now rewrite Len in B.
    - destruct (IH (S k)) as [A|A]; [lia| |right; exact A].
      set (i := position w steps) in *.
      destruct (le_lt_dec (length L) (i / w ^ S k * w ^ S k)) as [V|V].
      + destruct (Nat.eq_dec (S k) D) as [X|X].
        * exfalso. assert (i / w ^ S k = 0) as Z0. { rewrite X, <- Len. apply Nat.div_small, position_bound, Sh. }
          rewrite Z0 in V. destruct L; [contradiction|cbn in V; lia].
        * right; right. exists (S k). split; [lia|]. unfold w_filler_hit. fold i. split; [exact V|]. rewrite A. now apply wnode_fill.
      + rewrite climb_to_S in A by lia. rewrite wnode_S in A by assumption. rewrite Nat.add_0_l in A.
        change (H k (claimed H item steps k) = H k (map (fun j => node L k (w * (i / w ^ S k) + j)) (seq 0 w))) in A.
        rewrite div_up in A by assumption. change (H k (claimed H item steps k) = H k (kids L k (i / w ^ k))) in A.
        destruct (list_eq_dec Z.eq_dec (claimed H item steps k) (kids L k (i / w ^ k))) as [X|X].
        * left. rewrite <- (claimed_nth item steps k Sh) by lia. rewrite X, <- (position_digit steps k Sh) by lia. apply kids_nth.
        * right; left. exists k. split; [lia|]. split; assumption.
  Qed.

  (** ** binding *)
  Lemma kids_all L L' d i : kids L d (w * i) = kids L' d (w * i) -> forall j, j < w -> node L d (w * i + j) = node L' d (w * i + j).
  Proof.
    unfold children. replace (w * i / w) with i by (rewrite Nat.mul_comm, Nat.div_mul; lia). intros Q j J.
    apply (f_equal (fun l => nth_error l j)) in Q. rewrite !nth_error_map in Q.
    assert (nth_error (seq 0 w) j = Some j) as E.
    { rewrite (nth_error_nth' _ 0) by (rewrite seq_length; lia). now rewrite seq_nth by lia. }
    rewrite E in Q. cbn in Q. congruence.
  Qed.
  Lemma binding_down L L' : length L = length L' -> forall d i, node L d i = node L' d i ->
    (forall j, i * w ^ d <= j < (i + 1) * w ^ d -> nth_error L j = nth_error L' j) \/
    (exists k j, k < d /\ kids L k j <> kids L' k j /\ H k (kids L k j) = H k (kids L' k j)).
  Proof.
    intros Len. induction d as [|d IH]; intros i E.
    - left. intros j B. rewrite Nat.pow_0_r, !Nat.mul_1_r in B. assert (j = i) as -> by lia. cbn [wnode] in E.
      destruct (lt_dec i (length L)) as [K|K].
      + rewrite (nth_error_nth' _ (fill 0 i)), (nth_error_nth' L' (fill 0 i)) by lia. now rewrite E.
      + now rewrite !(proj2 (nth_error_None _ _)) by lia.
    - pose proof (pow_pos w w2 d) as P.
      destruct (le_lt_dec (length L) (i * w ^ S d)) as [V|V].
      { left. intros j B. now rewrite !(proj2 (nth_error_None _ _)) by lia. }
      rewrite !wnode_S in E by lia.
      assert (forall X, map (fun j => node X d (w * i + j)) (seq 0 w) = kids X d (w * i)) as F.
      { intros X. unfold children. now replace (w * i / w) with i by (rewrite Nat.mul_comm, Nat.div_mul; lia). }
      rewrite !F in E.
      destruct (list_eq_dec Z.eq_dec (kids L d (w * i)) (kids L' d (w * i))) as [X|X].
      + pose proof (kids_all L L' d i X) as A.
        assert (forall n, n <= w -> (forall j, w * i * w ^ d <= j < (w * i + n) * w ^ d -> nth_error L j = nth_error L' j) \/
          (exists k j, k < d /\ kids L k j <> kids L' k j /\ H k (kids L k j) = H k (kids L' k j))) as G.
        { induction n as [|n IHn]; intros B; [left; intros; lia|].
          destruct (IHn ltac:(lia)) as [R|R]; [|right; exact R].
          destruct (IH (w * i + n) (A n ltac:(lia))) as [T|T]; [|right; exact T].
          left. intros j J. destruct (le_lt_dec ((w * i + n) * w ^ d) j) as [Y|Y]; [apply T|apply R]; nia. }
        destruct (G w (Nat.le_refl w)) as [R|(k & j & R1 & R2)].
        * left. intros j J. apply R. rewrite pow_S in J. nia.
        * right. exists k, j. split; [lia|exact R2].
      + right. exists d, (w * i). split; [lia|]. split; assumption.
  Qed.
End Proofs.

(** ** the constructor *)
Lemma floor_log_spec : forall fuel (w : nat) (n : Z), 2 <= w -> (1 <= n)%Z -> (n < 2 ^ Z.of_nat fuel)%Z ->
  (Z.of_nat (w ^ floor_log fuel (Z.of_nat w) n) <= n)%Z /\ (n < Z.of_nat (w ^ S (floor_log fuel (Z.of_nat w) n)))%Z.
Proof.
  induction fuel as [|f IH]; intros w n W N B; [cbn in B; lia|]. cbn [floor_log].
  destruct (Z.ltb_spec n (Z.of_nat w)) as [K|K].
  - rewrite Nat.pow_0_r. cbn [Nat.pow]. lia.
  - assert (1 <= n / Z.of_nat w)%Z as N1 by (apply Z.div_le_lower_bound; lia).
    assert (n / Z.of_nat w < 2 ^ Z.of_nat f)%Z as B1.
    { apply Z.div_lt_upper_bound; [lia|]. rewrite Nat2Z.inj_succ, Z.pow_succ_r in B by lia. nia. }
    destruct (IH w (n / Z.of_nat w)%Z W N1 B1) as [I1 I2]. set (d := floor_log f (Z.of_nat w) (n / Z.of_nat w)) in *.
    rewrite (pow_S w d), (pow_S w (S d)). rewrite !Nat2Z.inj_mul.
    pose proof (Z.mul_div_le n (Z.of_nat w) ltac:(lia)). pose proof (Z.mul_succ_div_gt n (Z.of_nat w) ltac:(lia)). nia.
Qed.
Lemma new_tree_ok H fill (w D : nat) n_items : 2 <= w -> (n_items mod Z.of_nat w = 0)%Z -> D <> 0 ->
  (Z.of_nat (w ^ D) <= n_items < Z.of_nat (w ^ S D))%Z ->
  exists t, new_tree n_items (Z.of_nat w) = Ok t /\ inv H fill w D [] t /\ pt_n_items t = n_items.
Proof.
  intros W M Dn B. unfold new_tree.
  assert (Z.of_nat w <= n_items)%Z as K.
  { destruct D as [|D]; [contradiction|]. rewrite pow_S in B. pose proof (pow_pos w W D). nia. }
  rewrite (proj2 (Z.leb_le _ _) K). cbn [orequire obind].
  replace (2 <=? Z.of_nat w)%Z with true by (symmetry; apply Z.leb_le; lia). cbn [orequire obind].
  rewrite M, Z.eqb_refl. cbn [orequire obind]. cbv zeta.
  pose proof (floor_log_spec (Z.to_nat (Z.log2 n_items + 1)) w n_items W ltac:(lia)) as F.
  assert (n_items < 2 ^ Z.of_nat (Z.to_nat (Z.log2 n_items + 1)))%Z as G.
  { rewrite Z2Nat.id by (pose proof (Z.log2_nonneg n_items); lia). apply Z.log2_spec. lia. }
  destruct (F G) as [F1 F2]. set (d := floor_log (Z.to_nat (Z.log2 n_items + 1)) (Z.of_nat w) n_items) in *.
  assert (d = D) as ->.
  { assert (d < S D). { apply (Nat.pow_lt_mono_r_iff w); lia. } assert (D < S d). { apply (Nat.pow_lt_mono_r_iff w); lia. } lia. }
  eexists. split; [reflexivity|]. split; [|reflexivity]. split; [|reflexivity].
  repeat split; [exact (repeat_length (@nil Z) (S D))|].
  intros e row X. cbn [pt_leaves] in X. apply nth_error_In, repeat_spec in X. subst row.
  replace (if e <=? D then [] else []) with (@nil Z) by (destruct (e <=? D); reflexivity).
  intros i. cbn [length]. rewrite (proj2 (Nat.ltb_ge _ _)) by lia. now destruct i.
Qed.
