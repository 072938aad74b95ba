(** Lemmas on the Merkle tree of merkletree.py. *)
From Coq Require Import List ZArith Bool Arith Lia.
From Verif Require Import Primes Base M_Evm M_PyMerkle Spec_PyMerkle.
Import ListNotations.
Local Open Scope nat_scope.

(** ** Python lists *)
Lemma py_index_nat {A} (l : list A) n : py_index l (Z.of_nat n) = if n <? length l then Some n else None.
Proof.
  unfold py_index. destruct (Z.ltb_spec (Z.of_nat n) 0) as [Q|Q]; [lia|].
  replace (0 <=? Z.of_nat n)%Z with true by (symmetry; apply Z.leb_le; lia). rewrite andb_true_l, Nat2Z.id.
  destruct (Nat.ltb_spec n (length l)); destruct (Z.ltb_spec (Z.of_nat n) (Z.of_nat (length l))); reflexivity || lia.
Qed.
Lemma py_get_nat {A} (l : list A) n : py_get l (Z.of_nat n) = match nth_error l n with Some a => Ok a | None => Throw end.
Proof.
  unfold py_get. rewrite py_index_nat. destruct (Nat.ltb_spec n (length l)) as [Q|Q]; [reflexivity|].
  now rewrite (proj2 (nth_error_None l n) Q).
Qed.
Lemma py_set_nat {A} (l : list A) n x : n < length l -> py_set l (Z.of_nat n) x = Ok (set_nth l n x).
Proof. intros Q. unfold py_set. rewrite py_index_nat. now rewrite (proj2 (Nat.ltb_lt _ _) Q). Qed.
Lemma set_nth_length {A} (l : list A) n x : n < length l -> length (set_nth l n x) = length l.
Proof. intros Q. unfold set_nth. rewrite app_length, firstn_length. cbn [length]. rewrite skipn_length. lia. Qed.
Lemma nth_error_set_nth {A} (l : list A) n x i : n < length l ->
  nth_error (set_nth l n x) i = if i =? n then Some x else nth_error l i.
Proof.
  intros Q. unfold set_nth. assert (length (firstn n l) = n) as E by (rewrite firstn_length; lia).
  destruct (Nat.eqb_spec i n) as [->|N].
  - rewrite nth_error_app2 by lia. rewrite E, Nat.sub_diag. reflexivity.
  - destruct (lt_dec i n) as [K|K].
    + rewrite nth_error_app1 by lia. rewrite <- (firstn_skipn n l) at 2. rewrite nth_error_app1 by lia. reflexivity.
    + rewrite nth_error_app2 by lia. rewrite E. destruct (i - n) as [|k] eqn:G; [lia|]. cbn [nth_error].
      rewrite <- (firstn_skipn (S n) l) at 2. rewrite nth_error_app2 by (rewrite firstn_length; lia).
      rewrite firstn_length. replace (Nat.min (S n) (length l)) with (S n) by lia. now replace (i - S n) with k by lia.
Qed.
Lemma py_comp_ok {A B} (f : A -> outcome B) (g : A -> B) l : (forall a, In a l -> f a = Ok (g a)) -> py_comp f l = Ok (map g l).
Proof.
  induction l as [|a l IH]; intros Q; [reflexivity|]. cbn [py_comp map]. rewrite (Q a (or_introl eq_refl)). cbn [obind].
  rewrite IH by (intros b K; apply Q; now right). reflexivity.
Qed.

Lemma nth_error_ext {A} : forall l l' : list A, (forall i, nth_error l i = nth_error l' i) -> l = l'.
Proof.
  induction l as [|a l IH]; intros [|b l'] Q; [reflexivity|discriminate (Q 0)|discriminate (Q 0)|].
  assert (a = b) as -> by (pose proof (Q 0) as E; cbn in E; congruence). f_equal. apply IH. intros i. exact (Q (S i)).
Qed.

(** ** the levels *)
Section Levels.
  Variable H : nat -> list Z -> Z.
  Variable fill : nat -> nat -> Z.
  Variable w : nat.
  Hypothesis w2 : 2 <= w.
  Notation node := (wnode H fill w).

  Lemma pow_pos d : 0 < w ^ d.
  Proof. apply Nat.neq_0_lt_0, Nat.pow_nonzero. lia. Qed.
  Lemma pow_S d : w ^ S d = w * w ^ d. Proof. reflexivity. Qed.
  Lemma div_up n d : n / w ^ S d = (n / w ^ d) / w.
  Proof. pose proof (pow_pos d). rewrite pow_S, (Nat.mul_comm w), Nat.div_div by lia. reflexivity. Qed.
  Lemma div_le n d : n / w ^ d * w ^ d <= n.
  Proof. pose proof (pow_pos d). rewrite Nat.mul_comm. apply Nat.mul_div_le. lia. Qed.

  Lemma wnode_S L d i : i * w ^ S d < length L -> node L (S d) i = H d (map (fun j => node L d (w * i + j)) (seq 0 w)).
  Proof. intros Q. cbn [wnode]. now rewrite (proj2 (Nat.ltb_lt _ _) Q). Qed.
  Lemma wnode_fill L d i : length L <= i * w ^ d -> node L d i = fill d i.
  Proof.
    intros Q. destruct d as [|d].
    - cbn [wnode]. rewrite Nat.pow_0_r, Nat.mul_1_r in Q. now apply nth_overflow.
    - cbn [wnode]. now rewrite (proj2 (Nat.ltb_ge _ _) Q).
  Qed.

  (** lists that differ at one position only, where the second may be longer by that one *)
  Definition differ_at (L L' : list Z) (idx : nat) : Prop :=
    idx < length L' /\ (length L' = length L \/ length L' = S (length L) /\ idx = length L) /\
    forall i, i <> idx -> nth_error L' i = nth_error L i.
  Lemma differ_bound L L' idx i d : differ_at L L' idx -> i <> idx / w ^ d -> (i * w ^ d < length L' <-> i * w ^ d < length L).
  Proof.
    intros [Q0 [[Q|[Q1 Q2]] _]] N; [now rewrite Q|]. pose proof (pow_pos d). split; intros K; [|lia].
    destruct (Nat.eq_dec (i * w ^ d) (length L)) as [E|E]; [|lia].
    exfalso. apply N. rewrite Q2, <- E. now rewrite Nat.div_mul by lia.
  Qed.
  Lemma wnode_same L L' idx : differ_at L L' idx -> forall d i, i <> idx / w ^ d -> node L' d i = node L d i.
  Proof.
    intros Q. induction d as [|d IH]; intros i N.
    - cbn [wnode]. rewrite Nat.pow_0_r, Nat.div_1_r in N. destruct Q as [_ [_ Q]].
      pose proof (Q i N) as E. destruct (nth_error L i) as [a|] eqn:G.
      + now rewrite (nth_error_nth _ _ _ G), (nth_error_nth _ _ _ E).
      + apply nth_error_None in G, E. now rewrite !nth_overflow by assumption.
    - pose proof (differ_bound L L' idx i (S d) Q N) as B. cbn [wnode].
      destruct (Nat.ltb_spec (i * w ^ S d) (length L')) as [K|K]; destruct (Nat.ltb_spec (i * w ^ S d) (length L)) as [K'|K']; try (exfalso; lia); [|reflexivity].
      apply f_equal, map_ext_in. intros j J. apply in_seq in J. apply IH.
      intros E. apply N. rewrite div_up, <- E, Nat.mul_comm, Nat.div_add_l by lia. rewrite Nat.div_small by lia. lia.
  Qed.

  (** [row] is level [d] of the tree over [L] *)
  Definition row_ok (L : list Z) (d : nat) (row : list Z) : Prop :=
    forall i, nth_error row i = if i * w ^ d <? length L then Some (node L d i) else None.
  Lemma row_len L d row i : row_ok L d row -> (i < length row <-> i * w ^ d < length L).
  Proof.
    intros Q. rewrite <- nth_error_Some, Q. destruct (Nat.ltb_spec (i * w ^ d) (length L)); split; intros K; try discriminate; try lia; contradiction.
  Qed.
  Lemma row_extend L L' idx d row : differ_at L L' idx -> row_ok L d row -> length row = idx / w ^ d ->
    row_ok L' d (row ++ [node L' d (idx / w ^ d)]).
  Proof.
    intros Q R E i. pose proof (row_len L d row i R) as B. pose proof (div_le idx d) as V. pose proof (proj1 Q).
    destruct (Nat.eq_dec i (idx / w ^ d)) as [->|N].
    - rewrite nth_error_app2 by lia. rewrite E, Nat.sub_diag. cbn [nth_error].
      rewrite (proj2 (Nat.ltb_lt _ _)) by lia. reflexivity.
    - pose proof (differ_bound L L' idx i d Q N) as B'. destruct (lt_dec i (length row)) as [K|K].
      + rewrite nth_error_app1 by assumption. rewrite R. rewrite !(proj2 (Nat.ltb_lt _ _)) by lia.
        now rewrite (wnode_same L L' idx Q).
      + rewrite (proj2 (nth_error_None _ _)) by (rewrite app_length; cbn [length]; lia).
        now rewrite (proj2 (Nat.ltb_ge _ _)) by lia.
  Qed.
  Lemma row_replace L L' idx d row : differ_at L L' idx -> row_ok L d row -> idx / w ^ d < length row ->
    row_ok L' d (set_nth row (idx / w ^ d) (node L' d (idx / w ^ d))).
  Proof.
    intros Q R E i. pose proof (div_le idx d) as V. pose proof (proj1 Q). rewrite nth_error_set_nth by assumption.
    destruct (Nat.eqb_spec i (idx / w ^ d)) as [->|N].
    - rewrite (proj2 (Nat.ltb_lt _ _)) by lia. reflexivity.
    - rewrite R. pose proof (differ_bound L L' idx i d Q N) as B'.
      destruct (Nat.ltb_spec (i * w ^ d) (length L)); destruct (Nat.ltb_spec (i * w ^ d) (length L')); try (exfalso; lia); [|reflexivity].
      now rewrite (wnode_same L L' idx Q).
  Qed.
  Lemma row_reach L L' idx d row : differ_at L L' idx -> row_ok L d row -> length row <> idx / w ^ d -> idx / w ^ d < length row.
  Proof.
    intros Q R N. pose proof (row_len L d row (idx / w ^ d) R) as B. pose proof (div_le idx d) as V. pose proof (pow_pos d).
    destruct (lt_dec (idx / w ^ d) (length row)) as [K|K]; [assumption|]. exfalso.
    destruct Q as [Q0 [[Q|[Q1 Q2]] _]]; [lia|].
    (* idx = length L, its block starts there: the row ends just before *)
    assert (idx / w ^ d * w ^ d = length L) as E by lia.
    destruct (idx / w ^ d) as [|k] eqn:G; [lia|].
    pose proof (row_len L d row k R) as B'. cbn [Nat.mul] in E. lia.
  Qed.

  (** ** the library *)
  Variable hash_node : Z -> list Z -> outcome Z.
  Variable unique : Z -> Z -> Z.
  Variable D : nat.
  Hypothesis hash_ok : forall d args, d < D -> length args = w -> hash_node (Z.of_nat d) args = Ok (H d args).
  Hypothesis unique_ok : forall d i, unique (Z.of_nat d) (Z.of_nat i) = fill d i.

  (** levels up to [m] are those of [L'], the others those of [L] *)
  Definition st (L' L : list Z) (m : nat) (t : ptree) : Prop :=
    pt_width t = Z.of_nat w /\ pt_depth t = D /\ length (pt_leaves t) = S D /\
    forall d row, nth_error (pt_leaves t) d = Some row -> row_ok (if d <=? m then L' else L) d row.

  Lemma get_row L' L m t d : st L' L m t -> d <= D ->
    exists row, nth_error (pt_leaves t) d = Some row /\ py_get (pt_leaves t) (Z.of_nat d) = Ok row /\ row_ok (if d <=? m then L' else L) d row.
  Proof.
    intros (_ & _ & Q & R) K. destruct (nth_error (pt_leaves t) d) as [row|] eqn:E.
    - exists row. split; [reflexivity|]. split; [|now apply R]. rewrite py_get_nat, E. reflexivity.
    - apply nth_error_None in E. lia.
  Qed.
  Lemma leaf_ok L' L m t d i : st L' L m t -> d < D -> py_leaf unique t d (Z.of_nat i) = Ok (node (if d <=? m then L' else L) d i).
  Proof.
    intros Q K. destruct (get_row L' L m t d Q (Nat.lt_le_incl _ _ K)) as (row & E & G & R). unfold py_leaf. rewrite G. cbn [obind].
    set (X := if d <=? m then L' else L) in *. pose proof (row_len X d row i R) as B.
    destruct (Z.leb_spec (Z.of_nat (length row)) (Z.of_nat i)) as [V|V].
    - rewrite (proj1 (proj2 Q)), (proj2 (Nat.ltb_lt _ _) K), unique_ok. rewrite wnode_fill by lia. reflexivity.
    - rewrite py_get_nat, R. rewrite (proj2 (Nat.ltb_lt _ _)) by lia. reflexivity.
  Qed.
  Lemma start_eq i : (Z.of_nat i - Z.of_nat i mod Z.of_nat w)%Z = Z.of_nat (w * (i / w)).
  Proof. rewrite <- Nat2Z.inj_mod. pose proof (Nat.div_mod i w ltac:(lia)). lia. Qed.
  Lemma make_node_ok L' L m t d i : st L' L m t -> d < D ->
    make_node unique t d (Z.of_nat i) = Ok (children H fill w (if d <=? m then L' else L) d i).
  Proof.
    intros Q K. unfold make_node, children. rewrite (proj1 Q), start_eq, Nat2Z.id. cbv zeta.
    rewrite (py_comp_ok _ (fun j => node (if d <=? m then L' else L) d (w * (i / w) + j))); [reflexivity|].
    intros j _. rewrite <- Nat2Z.inj_add. now apply (leaf_ok L' L m).
  Qed.
  Lemma children_length L d i : length (children H fill w L d i) = w.
  Proof. unfold children. now rewrite map_length, seq_length. Qed.

  Lemma update_levels_ok L L' idx : differ_at L L' idx -> forall n m t, m + n = D -> st L' L m t ->
    exists t', update_levels hash_node unique n m (Z.of_nat (idx / w ^ m)) t = Ok t' /\ st L' L D t' /\
      pt_cur t' = pt_cur t /\ pt_n_items t' = pt_n_items t.
  Proof.
    intros Q. induction n as [|n IH]; intros m t E S0.
    - exists t. replace m with D in S0 by lia. repeat split; try reflexivity; apply S0.
    - cbn [update_levels]. rewrite (make_node_ok L' L m t m _ S0) by lia. cbn [obind]. rewrite Nat.leb_refl.
      rewrite hash_ok by (apply children_length || lia). cbn [obind].
      assert (H m (children H fill w L' m (idx / w ^ m)) = node L' (S m) (idx / w ^ S m)) as ->.
      { rewrite wnode_S by (pose proof (div_le idx (S m)); pose proof (proj1 Q); lia).
        unfold children. now rewrite (div_up idx m). }
      destruct (get_row L' L m t (S m) S0 ltac:(lia)) as (row & E1 & G & R). rewrite G. cbn [obind].
      rewrite (proj2 (Nat.leb_gt (S m) m)) in R by lia.
      rewrite (proj1 S0). rewrite <- Nat2Z.inj_div, <- div_up.
      assert (exists row', (if (Z.of_nat (length row) =? Z.of_nat (idx / w ^ S m))%Z then Ok (row ++ [node L' (S m) (idx / w ^ S m)])
        else py_set row (Z.of_nat (idx / w ^ S m)) (node L' (S m) (idx / w ^ S m))) = Ok row' /\ row_ok L' (S m) row') as (row' & -> & R').
      { destruct (Z.eqb_spec (Z.of_nat (length row)) (Z.of_nat (idx / w ^ S m))) as [V|V].
        - eexists; split; [reflexivity|]. apply (row_extend L L' idx); [assumption|assumption|lia].
        - assert (idx / w ^ S m < length row) as V' by (apply (row_reach L L' idx (S m) row Q R); lia).
          rewrite py_set_nat by assumption. eexists; split; [reflexivity|]. now apply (row_replace L L' idx). }
      cbn [obind]. assert (S m < length (pt_leaves t)) as B by (rewrite (proj1 (proj2 (proj2 S0))); lia).
      rewrite py_set_nat by assumption. cbn [obind].
      destruct (IH (S m) (with_leaves t (set_nth (pt_leaves t) (S m) row'))) as (t' & U & S' & C1 & C2); [lia| |].
      { destruct S0 as (A1 & A2 & A3 & A4). repeat split; cbn [with_leaves pt_width pt_depth pt_leaves]; [assumption|assumption|now rewrite set_nth_length|].
        intros d r. rewrite nth_error_set_nth by assumption. destruct (Nat.eqb_spec d (S m)) as [->|N].
        - rewrite Nat.leb_refl. intros X. now assert (r = row') as -> by congruence.
        - intros X. pose proof (A4 d r X) as Y. destruct (Nat.leb_spec d m); destruct (Nat.leb_spec d (S m)); try lia; assumption. }
      exists t'. split; [exact U|]. split; [exact S'|]. split; [exact C1|exact C2].
  Qed.

  (** the tree over [L] *)
  Definition inv (L : list Z) (t : ptree) : Prop := st L L D t /\ pt_cur t = Z.of_nat (length L).
  Lemma st_same L L' m t : st L' L D t -> st L' L' m t.
  Proof.
    intros (A1 & A2 & A3 & A4). repeat split; try assumption. intros d row X. pose proof (A4 d row X) as Y.
    assert (d < S D) as B by (rewrite <- A3; apply nth_error_Some; congruence).
    rewrite (proj2 (Nat.leb_le d D)) in Y by lia. destruct (d <=? m); assumption.
  Qed.
  Lemma update_row0 L L' idx t row0' : differ_at L L' idx -> inv L t -> row_ok L' 0 row0' ->
    exists t', updateTree hash_node unique (with_leaves t (set_nth (pt_leaves t) 0 row0')) (Z.of_nat idx) = Ok t' /\ st L' L' D t' /\
      pt_cur t' = pt_cur t /\ pt_n_items t' = pt_n_items t.
  Proof.
    intros Q [(A1 & A2 & A3 & A4) C] R. unfold updateTree. cbn [with_leaves pt_depth]. rewrite A2.
    destruct (update_levels_ok L L' idx Q D 0 (with_leaves t (set_nth (pt_leaves t) 0 row0')) (Nat.add_0_l D)) as (t' & U & S' & C1 & C2).
    - repeat split; cbn [with_leaves pt_width pt_depth pt_leaves]; [assumption|assumption|rewrite set_nth_length by lia; assumption|].
      intros d r. rewrite nth_error_set_nth by lia. destruct (Nat.eqb_spec d 0) as [->|N].
      + intros X. assert (r = row0') as -> by congruence. exact R.
      + intros X. pose proof (A4 d r X) as Y. rewrite (proj2 (Nat.leb_gt d 0)) by lia. destruct (d <=? D); assumption.
    - rewrite Nat.pow_0_r, Nat.div_1_r in U. exists t'. split; [exact U|]. split; [now apply (st_same L)|]. split; assumption.
  Qed.
  Lemma row0 L t : inv L t -> exists row, nth_error (pt_leaves t) 0 = Some row /\ py_get (pt_leaves t) 0 = Ok row /\ row = L.
  Proof.
    intros [S0 _]. destruct (get_row L L D t 0 S0 (Nat.le_0_l D)) as (row & E & G & R). exists row. split; [exact E|]. split; [exact G|].
    apply nth_error_ext. intros i. change (0 <=? D) with true in R. cbn iota in R. rewrite R. cbn [wnode].
    rewrite Nat.pow_0_r, Nat.mul_1_r. destruct (Nat.ltb_spec i (length L)) as [K|K].
    - symmetry. now apply nth_error_nth'.
    - symmetry. now apply nth_error_None.
  Qed.
  Lemma row_ok0 L : row_ok L 0 L.
  Proof.
    intros i. cbn [wnode]. rewrite Nat.pow_0_r, Nat.mul_1_r. destruct (Nat.ltb_spec i (length L)) as [K|K].
    - now apply nth_error_nth'. - now apply nth_error_None.
  Qed.
  Lemma append_ok L t x : inv L t -> (pt_cur t < pt_n_items t)%Z -> (0 <= x < p_mod)%Z ->
    exists t', append hash_node unique t x = Ok (t', Z.of_nat (length L)) /\ inv (L ++ [x]) t' /\ pt_n_items t' = pt_n_items t.
  Proof.
    intros I K X. unfold append. rewrite (proj2 (Z.ltb_lt _ _) K). cbn [orequire obind].
    rewrite (proj2 (Z.leb_le _ _) (proj1 X)), (proj2 (Z.ltb_lt _ _) (proj2 X)). cbn [andb orequire obind].
    destruct (row0 L t I) as (row & E & -> & ->). cbn [obind].
    assert (0 < length (pt_leaves t)) as B by (rewrite (proj1 (proj2 (proj2 (proj1 I)))); lia).
    change 0%Z with (Z.of_nat 0). rewrite py_set_nat by assumption. cbn [obind].
    rewrite (proj2 I).
    destruct (update_row0 L (L ++ [x]) (length L) t (L ++ [x])) as (t' & -> & S' & C1 & C2); [|exact I|apply row_ok0|].
    - split; [rewrite app_length; cbn [length]; lia|]. split; [right; rewrite app_length; cbn [length]; lia|].
      intros i N. destruct (lt_dec i (length L)) as [V|V]; [now rewrite nth_error_app1|].
      rewrite !(proj2 (nth_error_None _ _)); [reflexivity|lia|rewrite app_length; cbn [length]; lia].
    - cbn [obind]. rewrite C1, (proj2 I). eexists. split; [reflexivity|]. split; [|exact C2].
      split; [|cbn [pt_cur]; rewrite app_length; cbn [length]; lia]. exact S'.
  Qed.
  Lemma update_ok L t n x : inv L t -> n < length L -> (0 <= x < p_mod)%Z ->
    exists t', update hash_node unique t (Z.of_nat n) x = Ok t' /\ inv (set_nth L n x) t' /\ pt_n_items t' = pt_n_items t.
  Proof.
    intros I K X. unfold update.
    rewrite (proj2 (Z.leb_le _ _) (proj1 X)), (proj2 (Z.ltb_lt _ _) (proj2 X)). cbn [andb orequire obind].
    destruct (row0 L t I) as (row & E & -> & ->). cbn [obind].
    replace (Z.of_nat (length L) - 1 <? Z.of_nat n)%Z with false by (symmetry; apply Z.ltb_ge; lia). cbn [negb orequire obind].
    rewrite (py_set_nat L) by assumption. cbn [obind].
    assert (0 < length (pt_leaves t)) as B by (rewrite (proj1 (proj2 (proj2 (proj1 I)))); lia).
    change 0%Z with (Z.of_nat 0). rewrite py_set_nat by assumption. cbn [obind].
    destruct (update_row0 L (set_nth L n x) n t (set_nth L n x)) as (t' & -> & S' & C1 & C2); [|exact I|apply row_ok0|].
    - split; [now rewrite set_nth_length|]. split; [left; now rewrite set_nth_length|].
      intros i N. rewrite nth_error_set_nth by assumption. now rewrite (proj2 (Nat.eqb_neq _ _) N).
    - exists t'. split; [reflexivity|]. split; [|exact C2]. split; [exact S'|]. rewrite C1, (proj2 I). now rewrite set_nth_length.
  Qed.
  Lemma root_ok L t : inv L t -> L <> [] -> root t = Ok (node L D 0).
  Proof.
    intros [S0 C] N. unfold root. destruct L as [|x L]; [contradiction|]. rewrite C.
    replace (Z.of_nat (length (x :: L)) =? 0)%Z with false by (symmetry; apply Z.eqb_neq; cbn [length]; lia).
    rewrite (proj1 (proj2 S0)). destruct (get_row _ _ D t D S0 (Nat.le_refl D)) as (row & _ & -> & R). cbn [obind].
    rewrite Nat.leb_refl in R. change 0%Z with (Z.of_nat 0). rewrite py_get_nat, R. cbn [Nat.mul length]. reflexivity.
  Qed.
  Lemma root_empty t : inv [] t -> root t = Throw.
  Proof. intros [S0 C]. unfold root. now rewrite C. Qed.

  Lemma runs_ok : forall ops L t, inv L t -> allowed (pt_n_items t) L ops ->
    exists t', runs hash_node unique t ops = Ok t' /\ inv (list_after L ops) t' /\ pt_n_items t' = pt_n_items t.
  Proof.
    induction ops as [|[x|n x] ops IH]; intros L t I A.
    - exists t. split; [reflexivity|]. split; [exact I|reflexivity].
    - destruct A as (A1 & A2 & A3). cbn [runs list_after].
      destruct (append_ok L t x I) as (t1 & -> & I1 & N1); [rewrite (proj2 I); exact A1|exact A2|]. cbn [obind].
      destruct (IH (L ++ [x]) t1 I1) as (t' & E & I' & N'); [now rewrite N1|].
      exists t'. split; [exact E|]. split; [exact I'|]. now rewrite N'.
    - destruct A as (A1 & A2 & A3). cbn [runs list_after].
      destruct (update_ok L t n x I A1 A2) as (t1 & -> & I1 & N1). cbn [obind].
      destruct (IH (set_nth L n x) t1 I1) as (t' & E & I' & N'); [now rewrite N1|].
      exists t'. split; [exact E|]. split; [exact I'|]. now rewrite N'.
  Qed.
End Levels.
