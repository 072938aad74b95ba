(** Final lemmas on merkletree.py. *)
From Coq Require Import List ZArith Bool Arith Lia.
From Verif Require Import Primes Base M_Evm M_PyMerkle Spec_PyMerkle P_PyMerkle P_PyMerkle2.
Import ListNotations.
Local Open Scope nat_scope.

Lemma built_ok hash_node unique H fill w D n_items ops : dims w D n_items -> hasher_is hash_node unique H fill w D ->
  allowed n_items [] ops ->
  exists t, built hash_node unique n_items (Z.of_nat w) ops t /\ inv H fill w D (list_after [] ops) t /\ pt_n_items t = n_items.
Proof.
  intros (W & Dn & M & B) HU A. destruct (new_tree_ok H fill w D n_items W M Dn B) as (t0 & E & I & N).
  destruct (runs_ok H fill w W hash_node unique D (proj1 HU) (proj2 HU) ops [] t0 I) as (t & R & I' & N'); [now rewrite N|].
  exists t. split; [|split; [exact I'|now rewrite N', N]]. unfold built. now rewrite E.
Qed.
Lemma built_inv hash_node unique H fill w D n_items ops t : dims w D n_items -> hasher_is hash_node unique H fill w D ->
  allowed n_items [] ops -> built hash_node unique n_items (Z.of_nat w) ops t ->
  inv H fill w D (list_after [] ops) t /\ pt_n_items t = n_items.
Proof.
  intros Dm HU A Bt. destruct (built_ok hash_node unique H fill w D n_items ops Dm HU A) as (t' & B' & I).
  unfold built in *. assert (t = t') as -> by congruence. exact I.
Qed.
Lemma get_item_ok H fill w D L t i : 2 <= w -> inv H fill w D L t -> i < length L -> get_item t (Z.of_nat i) = Ok (nth i L 0%Z).
Proof.
  intros W I K. unfold get_item. rewrite (proj2 I).
  replace (0 <=? Z.of_nat i)%Z with true by (symmetry; apply Z.leb_le; lia).
  replace (Z.of_nat i <? Z.of_nat (length L))%Z with true by (symmetry; apply Z.ltb_lt; lia). cbn [andb orequire obind].
  destruct (row0 H fill w W D L t I) as (row & _ & -> & ->). cbn [obind]. rewrite py_get_nat, (nth_error_nth' _ 0%Z) by assumption. reflexivity.
Qed.

Lemma py_tree_lemma : forall hash_node unique H fill w D n_items ops,
  dims w D n_items -> hasher_is hash_node unique H fill w D -> allowed n_items [] ops ->
  let ls := list_after [] ops in
  exists t, built hash_node unique n_items (Z.of_nat w) ops t /\
    (ls = [] -> root t = Throw) /\
    (ls <> [] -> root t = Ok (wnode H fill w ls D 0)) /\
    (forall i, i < length ls -> get_item t (Z.of_nat i) = Ok (nth i ls 0%Z)).
Proof.
  intros hash_node unique H fill w D n_items ops Dm HU A ls.
  destruct (built_ok hash_node unique H fill w D n_items ops Dm HU A) as (t & B & I & N). fold ls in I.
  exists t. split; [exact B|]. split; [intros E; rewrite E in I; apply (root_empty H fill w D t I)|].
  split; [intros E; now apply (root_ok H fill w (proj1 Dm) D)|]. intros i K. apply (get_item_ok H fill w D ls t i (proj1 Dm) I K).
Qed.

Lemma py_append_lemma : forall hash_node unique H fill w D n_items ops t x,
  dims w D n_items -> hasher_is hash_node unique H fill w D -> allowed n_items [] ops ->
  built hash_node unique n_items (Z.of_nat w) ops t ->
  let ls := list_after [] ops in
  ((Z.of_nat (length ls) < n_items)%Z -> (0 <= x < p_mod)%Z ->
     exists t', append hash_node unique t x = Ok (t', Z.of_nat (length ls)) /\ root t' = Ok (wnode H fill w (ls ++ [x]) D 0)) /\
  ((n_items <= Z.of_nat (length ls))%Z \/ ~ (0 <= x < p_mod)%Z -> append hash_node unique t x = Throw).
Proof.
  intros hash_node unique H fill w D n_items ops t x Dm HU A Bt ls.
  destruct (built_inv hash_node unique H fill w D n_items ops t Dm HU A Bt) as [I N]. fold ls in I. split.
  - intros K X. destruct (append_ok H fill w (proj1 Dm) hash_node unique D (proj1 HU) (proj2 HU) ls t x I) as (t' & E & I' & _); [rewrite (proj2 I), N; exact K|exact X|].
    exists t'. split; [exact E|]. apply (root_ok H fill w (proj1 Dm) D); [exact I'|]. now destruct ls.
  - intros K. unfold append. rewrite (proj2 I), N. destruct (Z.ltb_spec (Z.of_nat (length ls)) n_items) as [V|V]; [|reflexivity].
    cbn [orequire obind]. destruct (Z.leb_spec 0 x) as [V1|V1]; [|reflexivity]. destruct (Z.ltb_spec x p_mod) as [V2|V2]; [|reflexivity].
    exfalso. destruct K as [K|K]; [lia|]. apply K. split; assumption.
Qed.

Lemma py_update_lemma : forall hash_node unique H fill w D n_items ops t n x,
  dims w D n_items -> hasher_is hash_node unique H fill w D -> allowed n_items [] ops ->
  built hash_node unique n_items (Z.of_nat w) ops t ->
  let ls := list_after [] ops in
  (n < length ls -> (0 <= x < p_mod)%Z ->
     exists t', update hash_node unique t (Z.of_nat n) x = Ok t' /\
       root t' = Ok (wnode H fill w (firstn n ls ++ x :: skipn (S n) ls) D 0)) /\
  (length ls <= n \/ ~ (0 <= x < p_mod)%Z -> update hash_node unique t (Z.of_nat n) x = Throw).
Proof.
  intros hash_node unique H fill w D n_items ops t n x Dm HU A Bt ls.
  destruct (built_inv hash_node unique H fill w D n_items ops t Dm HU A Bt) as [I N]. fold ls in I. split.
  - intros K X. destruct (update_ok H fill w (proj1 Dm) hash_node unique D (proj1 HU) (proj2 HU) ls t n x I K X) as (t' & E & I' & _).
    exists t'. split; [exact E|]. apply (root_ok H fill w (proj1 Dm) D); [exact I'|]. unfold set_nth. now destruct (firstn n ls).
  - intros K. unfold update. destruct (Z.leb_spec 0 x) as [V1|V1]; [|reflexivity]. destruct (Z.ltb_spec x p_mod) as [V2|V2]; [|reflexivity].
    destruct K as [K|K]; [|exfalso; apply K; split; assumption]. cbn [andb orequire obind].
    destruct (row0 H fill w (proj1 Dm) D ls t I) as (row & _ & -> & ->). cbn [obind].
    replace (Z.of_nat (length ls) - 1 <? Z.of_nat n)%Z with true by (symmetry; apply Z.ltb_lt; lia). reflexivity.
Qed.

Lemma py_proof_lemma : forall hash_node unique H fill w D n_items ops t i,
  dims w D n_items -> hasher_is hash_node unique H fill w D -> allowed n_items [] ops ->
  built hash_node unique n_items (Z.of_nat w) ops t ->
  let ls := list_after [] ops in
  i < length ls -> i < w ^ D ->
  (forall d, d < D -> no_gap (children H fill w ls d (i / w ^ d)) ((i / w ^ d) mod w)) ->
  exists steps r, root t = Ok r /\ proof unique t (Z.of_nat i) = Ok (nth i ls 0%Z, z_steps steps) /\
    length steps = D /\ shaped w steps /\ proof_verify hash_node (nth i ls 0%Z) (z_steps steps) r = Ok true.
Proof.
  intros hash_node unique H fill w D n_items ops t i Dm HU A Bt ls K KD G.
  destruct (built_inv hash_node unique H fill w D n_items ops t Dm HU A Bt) as [I N]. fold ls in I.
  destruct (proof_levels_ok H fill w (proj1 Dm) hash_node unique D HU ls t i I K G D 0 (Nat.add_0_l D)) as (steps & P & Len & Sh & V).
  rewrite Nat.pow_0_r, Nat.div_1_r in P, V. exists steps, (wnode H fill w ls D 0).
  split; [apply (root_ok H fill w (proj1 Dm) D); [exact I|now destruct ls; [cbn in K; lia|]]|].
  split.
  - unfold proof. rewrite (get_item_ok H fill w D ls t i (proj1 Dm) I K). cbn [obind].
    rewrite (proj2 I). replace (Z.of_nat i <? Z.of_nat (length ls))%Z with true by (symmetry; apply Z.ltb_lt; lia). cbn [orequire obind].
    destruct I as [S0 _]. rewrite (proj1 (proj2 S0)), P. reflexivity.
  - split; [exact Len|]. split; [exact Sh|]. unfold proof_verify.
    cbn [wnode] in V. rewrite (nth_indep _ _ 0%Z) in V by assumption. rewrite V. cbn [obind].
    rewrite (Nat.div_small i (w ^ D)) by assumption. now rewrite Z.eqb_refl.
Qed.
Lemma py_proof2_lemma : forall hash_node unique H fill D n_items ops t i,
  dims 2 D n_items -> hasher_is hash_node unique H fill 2 D -> allowed n_items [] ops ->
  built hash_node unique n_items 2 ops t ->
  let ls := list_after [] ops in
  i < length ls -> i < 2 ^ D ->
  exists steps r, root t = Ok r /\ proof unique t (Z.of_nat i) = Ok (nth i ls 0%Z, z_steps steps) /\
    length steps = D /\ shaped 2 steps /\ proof_verify hash_node (nth i ls 0%Z) (z_steps steps) r = Ok true.
Proof.
  intros hash_node unique H fill D n_items ops t i Dm HU A Bt ls K KD.
  apply (py_proof_lemma hash_node unique H fill 2 D n_items ops t i Dm HU A Bt K KD).
  intros d _ j k J. pose proof (Nat.mod_upper_bound (i / 2 ^ d) 2 ltac:(lia)). lia.
Qed.

Lemma climb_to_0 H leaf steps d : climb_to H leaf steps d 0 = leaf.
Proof. now destruct steps. Qed.
Lemma py_sound_lemma : forall hash_node unique H fill w D n_items ops t r leaf steps,
  dims w D n_items -> hasher_is hash_node unique H fill w D -> allowed n_items [] ops ->
  built hash_node unique n_items (Z.of_nat w) ops t ->
  let ls := list_after [] ops in
  root t = Ok r -> shaped w steps -> length steps = D -> proof_verify hash_node leaf (z_steps steps) r = Ok true ->
  (position w steps < length ls /\ nth (position w steps) ls 0%Z = leaf) \/
  (exists d, d < D /\ w_collision H fill w ls leaf steps d) \/ (exists d, d < D /\ w_filler_hit H fill w ls leaf steps d).
Proof.
  intros hash_node unique H fill w D n_items ops t r leaf steps Dm HU A Bt ls R Sh Len V.
  destruct (built_inv hash_node unique H fill w D n_items ops t Dm HU A Bt) as [I N]. fold ls in I.
  assert (ls <> []) as NE. { intros E. rewrite E in I. rewrite (root_empty H fill w D t I) in R. discriminate. }
  rewrite (root_ok H fill w (proj1 Dm) D ls t I NE) in R. assert (r = wnode H fill w ls D 0) as -> by congruence.
  unfold proof_verify in V. destruct (verify_steps hash_node 0 leaf (z_steps steps)) as [v| | | |] eqn:E; try discriminate. cbn [obind] in V.
  pose proof (verify_climb H fill w (proj1 Dm) hash_node unique D HU steps 0 leaf v Sh ltac:(lia) E) as C. rewrite Len in C.
  assert (wnode H fill w ls D 0 = v) as C' by (apply Z.eqb_eq; congruence).
  destruct (sound_down H fill w (proj1 Dm) D ls leaf steps Sh Len NE (eq_trans (eq_sym C) (eq_sym C')) D 0 (Nat.add_0_l D)) as [X|X]; [|right; exact X].
  rewrite Nat.pow_0_r, Nat.div_1_r in X. rewrite climb_to_0 in X. cbn [wnode] in X.
  destruct (lt_dec (position w steps) (length ls)) as [K|K].
  - left. split; [exact K|]. rewrite X. now apply nth_indep.
  - right; right. exists 0. split; [destruct Dm as (_ & Dn & _); lia|]. unfold w_filler_hit. rewrite Nat.pow_0_r, Nat.div_1_r. split; [lia|].
    rewrite climb_to_0. rewrite X. apply nth_overflow. lia.
Qed.

Lemma py_binding_lemma : forall hash_node unique H fill w D n_items ops ops' t t' r,
  dims w D n_items -> hasher_is hash_node unique H fill w D -> allowed n_items [] ops -> allowed n_items [] ops' ->
  built hash_node unique n_items (Z.of_nat w) ops t -> built hash_node unique n_items (Z.of_nat w) ops' t' ->
  let ls := list_after [] ops in let ls' := list_after [] ops' in
  root t = Ok r -> root t' = Ok r -> length ls = length ls' ->
  firstn (w ^ D) ls = firstn (w ^ D) ls' \/
  (exists d i, d < D /\ children H fill w ls d i <> children H fill w ls' d i /\
     H d (children H fill w ls d i) = H d (children H fill w ls' d i)).
Proof.
  intros hash_node unique H fill w D n_items ops ops' t t' r Dm HU A A' Bt Bt' ls ls' R R' Len.
  destruct (built_inv hash_node unique H fill w D n_items ops t Dm HU A Bt) as [I N].
  destruct (built_inv hash_node unique H fill w D n_items ops' t' Dm HU A' Bt') as [I' N']. fold ls in I. fold ls' in I'.
  assert (ls <> []) as NE. { intros E. rewrite E in I. rewrite (root_empty H fill w D t I) in R. discriminate. }
  assert (ls' <> []) as NE'. { intros E. rewrite E in I'. rewrite (root_empty H fill w D t' I') in R'. discriminate. }
  rewrite (root_ok H fill w (proj1 Dm) D ls t I NE) in R. rewrite (root_ok H fill w (proj1 Dm) D ls' t' I' NE') in R'.
  destruct (binding_down H fill w (proj1 Dm) ls ls' Len D 0) as [X|X]; [congruence| |right; exact X].
  left. apply nth_error_ext. intros i. destruct (lt_dec i (w ^ D)) as [K|K].
  - assert (forall L : list Z, nth_error (firstn (w ^ D) L) i = nth_error L i) as F.
    { intros L. rewrite <- (firstn_skipn (w ^ D) L) at 2. destruct (lt_dec i (length (firstn (w ^ D) L))) as [Q|Q]; [now rewrite nth_error_app1|].
      assert (length L <= i) as Q' by (rewrite firstn_length in Q; lia). rewrite (firstn_skipn (w ^ D) L).
      rewrite !(proj2 (nth_error_None _ _)); [reflexivity|assumption|lia]. }
    rewrite !F. apply X. lia.
  - rewrite !(proj2 (nth_error_None _ _)); [reflexivity| |]; rewrite firstn_length; lia.
Qed.

(** ** leaves beyond the tree *)
Lemma wnode_prefix H fill w L L' N : 2 <= w -> (forall j, j < N -> nth_error L j = nth_error L' j) -> forall d i, (i + 1) * w ^ d <= N ->
  wnode H fill w L d i = wnode H fill w L' d i.
Proof.
  intros W Q. induction d as [|d IH]; intros i B.
  - cbn [wnode]. rewrite Nat.pow_0_r in B. pose proof (Q i ltac:(lia)) as E. destruct (nth_error L i) as [a|] eqn:G.
    + now rewrite (nth_error_nth _ _ _ G), (nth_error_nth _ _ _ (eq_sym E)).
    + apply nth_error_None in G. symmetry in E. apply nth_error_None in E. now rewrite !nth_overflow by assumption.
  - cbn [wnode]. pose proof (pow_pos w W (S d)) as P. pose proof (Q (i * w ^ S d) ltac:(lia)) as E.
    assert ((i * w ^ S d <? length L) = (i * w ^ S d <? length L')) as ->.
    { pose proof (proj1 (nth_error_None L (i * w ^ S d))). pose proof (proj1 (nth_error_None L' (i * w ^ S d))).
      pose proof (proj1 (nth_error_Some L (i * w ^ S d))). pose proof (proj1 (nth_error_Some L' (i * w ^ S d))).
      destruct (Nat.ltb_spec (i * w ^ S d) (length L)) as [V|V]; destruct (Nat.ltb_spec (i * w ^ S d) (length L')) as [V'|V']; try reflexivity; exfalso.
      - apply (proj2 (nth_error_Some L (i * w ^ S d)) V). rewrite E. now apply nth_error_None.
      - apply (proj2 (nth_error_Some L' (i * w ^ S d)) V'). rewrite <- E. now apply nth_error_None. }
    destruct (i * w ^ S d <? length L'); [|reflexivity]. apply f_equal, map_ext_in. intros j J. apply in_seq in J. apply IH.
    rewrite pow_S in B. pose proof (pow_pos w W d). nia.
Qed.
Lemma py_prefix_lemma : forall hash_node unique H fill w D n_items ops ops' t t',
  dims w D n_items -> hasher_is hash_node unique H fill w D -> allowed n_items [] ops -> allowed n_items [] ops' ->
  built hash_node unique n_items (Z.of_nat w) ops t -> built hash_node unique n_items (Z.of_nat w) ops' t' ->
  let ls := list_after [] ops in let ls' := list_after [] ops' in
  firstn (w ^ D) ls = firstn (w ^ D) ls' -> root t = root t'.
Proof.
  intros hash_node unique H fill w D n_items ops ops' t t' Dm HU A A' Bt Bt' ls ls' E.
  destruct (built_inv hash_node unique H fill w D n_items ops t Dm HU A Bt) as [I N].
  destruct (built_inv hash_node unique H fill w D n_items ops' t' Dm HU A' Bt') as [I' N']. fold ls in I. fold ls' in I'.
  pose proof (pow_pos w (proj1 Dm) D) as P.
  assert (forall L i, i < w ^ D -> nth_error L i = nth_error (firstn (w ^ D) L) i :> option Z) as F.
  { intros L i K. rewrite <- (firstn_skipn (w ^ D) L) at 1. destruct (lt_dec i (length (firstn (w ^ D) L))) as [Q|Q]; [now rewrite nth_error_app1|].
    assert (length L <= i) as Q' by (rewrite firstn_length in Q; lia). rewrite (firstn_skipn (w ^ D) L).
    rewrite !(proj2 (nth_error_None _ _)); [reflexivity|lia|assumption]. }
  assert (forall j, j < w ^ D -> nth_error ls j = nth_error ls' j) as G by (intros j J; rewrite (F ls j J), (F ls' j J), E; reflexivity).
  destruct ls as [|x l] eqn:E1; destruct ls' as [|x' l'] eqn:E2.
  - now rewrite (root_empty H fill w D t I), (root_empty H fill w D t' I').
  - discriminate (G 0 P).
  - discriminate (G 0 P).
  - rewrite (root_ok H fill w (proj1 Dm) D _ t I), (root_ok H fill w (proj1 Dm) D _ t' I') by discriminate. apply f_equal, (wnode_prefix H fill w _ _ (w ^ D) (proj1 Dm) G). lia.
Qed.

(** ** refutations *)
Lemma py_gap_refuted_lemma : forall hash_node unique H fill,
  hasher_is hash_node unique H fill 4 1 -> H 0 [2; 1; 1; 3]%Z <> H 0 [1; 2; 1; 3]%Z ->
  let ops := [Add 1%Z; Add 2%Z; Add 1%Z; Add 3%Z] in
  exists t r steps, built hash_node unique 4 4 ops t /\ root t = Ok r /\
    proof unique t 2 = Ok (nth 2 (list_after [] ops) 0%Z, steps) /\
    proof_verify hash_node (nth 2 (list_after [] ops) 0%Z) steps r = Ok false.
Proof.
  intros hash_node unique H fill HU NE ops.
  assert (dims 4 1 4) as Dm by (repeat split; try discriminate; repeat constructor).
  assert (allowed 4 [] ops) as A by (repeat split; discriminate).
  destruct (built_ok hash_node unique H fill 4 1 4 ops Dm HU A) as (t & B & I & N). change (Z.of_nat 4) with 4%Z in B.
  exists t, (H 0 [1; 2; 1; 3]%Z), [(2, [2; 1; 3])%Z]. split; [exact B|].
  split; [now rewrite (root_ok H fill 4 (proj1 Dm) 1 _ t I) by discriminate|].
  split.
  - unfold proof. change 2%Z with (Z.of_nat 2). rewrite (get_item_ok H fill 4 1 _ t 2 (proj1 Dm) I) by (cbn; lia). cbn [obind].
    rewrite (proj2 I). change (Z.of_nat 2 <? Z.of_nat (length (list_after [] ops)))%Z with true. cbn [orequire obind].
    destruct I as [S0 _]. rewrite (proj1 (proj2 S0)). cbn [proof_levels].
    rewrite (make_node_ok H fill 4 (proj1 Dm) unique 1 (proj2 HU) _ _ 1 t 0 _ S0) by lia. cbn [obind]. rewrite (proj1 S0). reflexivity.
  - unfold proof_verify. cbn [verify_steps].
    change (py_insert [2; 1; 3]%Z 2 (nth 2 (list_after [] ops) 0%Z)) with [2; 1; 1; 3]%Z.
    rewrite (proj1 HU) by (cbn; lia). cbn [obind]. apply f_equal, Z.eqb_neq. congruence.
Qed.

Definition toy_H (d : nat) (args : list Z) : Z := fold_left (fun a x => 1000 * a + x)%Z args 7%Z.
Definition toy_fill (d i : nat) : Z := (Z.of_nat i + 900)%Z.
Definition toy_hash (d : Z) (args : list Z) : outcome Z := Ok (toy_H (Z.to_nat d) args).
Definition toy_unique (d i : Z) : Z := (i + 900)%Z.
Lemma toy_is w D : hasher_is toy_hash toy_unique toy_H toy_fill w D.
Proof. split; [reflexivity|]. intros d i. reflexivity. Qed.

Lemma py_negative_refuted_lemma : exists hash_node unique H fill ops t t' x r steps,
  hasher_is hash_node unique H fill 2 2 /\ allowed 4 [] ops /\ built hash_node unique 4 2 ops t /\
  let ls := list_after [] ops in let last := pred (length ls) in
  update hash_node unique t (-1) x = Ok t' /\ get_item t' (Z.of_nat last) = Ok x /\ root t' = Ok r /\
  r <> wnode H fill 2 (firstn last ls ++ [x]) 2 0 /\
  proof unique t' (Z.of_nat last) = Ok (x, steps) /\ proof_verify hash_node x steps r = Ok false.
Proof.
  exists toy_hash, toy_unique, toy_H, toy_fill, [Add 1%Z; Add 2%Z; Add 3%Z].
  eexists. eexists. exists 8%Z. eexists. eexists. split; [apply toy_is|]. split; [repeat split; discriminate|].
  split; [vm_compute; reflexivity|]. cbv zeta.
  split; [vm_compute; reflexivity|]. split; [vm_compute; reflexivity|]. split; [vm_compute; reflexivity|]. split; [vm_compute; discriminate|].
  split; vm_compute; reflexivity.
Qed.

Lemma py_uncovered_refuted_lemma : forall hash_node unique H fill, hasher_is hash_node unique H fill 2 2 ->
  let ops := fun x => [Add 1; Add 2; Add 3; Add 4; Add x]%Z in
  (forall x, (0 <= x < p_mod)%Z -> exists t, built hash_node unique 6 2 (ops x) t /\ get_item t 4 = Ok x /\
     root t = Ok (wnode H fill 2 [1; 2; 3; 4]%Z 2 0)).
Proof.
  intros hash_node unique H fill HU ops x X.
  assert (dims 2 2 6) as Dm by (repeat split; try discriminate; repeat constructor).
  assert (allowed 6 [] (ops x)) as A by (unfold ops; cbn [allowed app length]; repeat split; try discriminate; apply X).
  destruct (built_ok hash_node unique H fill 2 2 6 (ops x) Dm HU A) as (t & B & I & N). exists t. split; [exact B|].
  split; [change 4%Z with (Z.of_nat 4); rewrite (get_item_ok H fill 2 2 _ t 4 (proj1 Dm) I) by (cbn; lia); reflexivity|].
  rewrite (root_ok H fill 2 (proj1 Dm) 2 _ t I) by discriminate. apply f_equal.
  apply (wnode_prefix H fill 2 _ _ 4 (proj1 Dm)); [|cbn; lia].
  intros j J. destruct j as [|[|[|[|j]]]]; try reflexivity. lia.
Qed.

(** no path at all "proves" that the root is a leaf; a tail of a proof proves the inner node it starts from *)
Lemma py_short_refuted_lemma : forall hash_node r, proof_verify hash_node r [] r = Ok true.
Proof. intros hash_node r. cbn. now rewrite Z.eqb_refl. Qed.
Lemma py_inner_refuted_lemma : forall hash_node unique H fill w D n_items ops t i r,
  (forall d args, H d args = H 0 args) ->
  dims w (S D) n_items -> hasher_is hash_node unique H fill w (S D) -> allowed n_items [] ops ->
  built hash_node unique n_items (Z.of_nat w) ops t -> root t = Ok r ->
  let ls := list_after [] ops in
  i < length ls -> i < w ^ S D ->
  (forall d, d < S D -> no_gap (children H fill w ls d (i / w ^ d)) ((i / w ^ d) mod w)) ->
  exists steps, proof unique t (Z.of_nat i) = Ok (nth i ls 0%Z, z_steps steps) /\
    proof_verify hash_node (wnode H fill w ls 1 (i / w)) (z_steps (tl steps)) r = Ok true.
Proof.
  intros hash_node unique H fill w D n_items ops t i r Hc Dm HU A Bt R ls K KD G.
  destruct (built_inv hash_node unique H fill w (S D) n_items ops t Dm HU A Bt) as [I N]. fold ls in I.
  rewrite (root_ok H fill w (proj1 Dm) (S D) ls t I) in R by (destruct ls; [cbn in K; lia|discriminate]).
  assert (r = wnode H fill w ls (S D) 0) as -> by congruence.
  destruct (py_proof_lemma hash_node unique H fill w (S D) n_items ops t i Dm HU A Bt K KD G) as (steps & r' & R' & P & Len & Sh & V).
  exists steps. split; [exact P|].
  (* the value reached from level 1 with the levels counted from 0 *)
  assert (forall steps m m' item, shaped w steps -> m + length steps <= S D -> m' + length steps <= S D ->
    verify_steps hash_node m item (z_steps steps) = verify_steps hash_node m' item (z_steps steps)) as Shift.
  { clear - HU Hc Dm. induction steps as [|[a pf] steps IH]; intros m m' item Sh B B'; [reflexivity|].
    inversion Sh as [|? ? [Q1 Q2] Sh']; subst. cbn [fst snd length] in *. cbn [z_steps map fst snd verify_steps].
    rewrite py_insert_nat by lia.
    rewrite !(proj1 HU) by (lia || (rewrite app_length, firstn_length; cbn [length]; rewrite skipn_length; lia)). cbn [obind].
    rewrite (Hc m), (Hc m'). apply IH; [exact Sh'|lia|lia]. }
  destruct (proof_levels_ok H fill w (proj1 Dm) hash_node unique (S D) HU ls t i I K G D 1 eq_refl) as (steps' & P' & Len' & Sh' & V').
  assert (tl steps = steps') as ->.
  { unfold proof in P. rewrite (get_item_ok H fill w (S D) ls t i (proj1 Dm) I K) in P. cbn [obind] in P.
    rewrite (proj2 I) in P. replace (Z.of_nat i <? Z.of_nat (length ls))%Z with true in P by (symmetry; apply Z.ltb_lt; lia). cbn [orequire obind] in P.
    destruct I as [S0 _]. rewrite (proj1 (proj2 S0)) in P. cbn [proof_levels] in P.
    destruct (make_node unique t 0 (Z.of_nat i)) as [pi| | | |]; try discriminate P. cbn [obind] in P.
    destruct (py_get pi (Z.of_nat i mod pt_width t)) as [x| | | |]; try discriminate P. cbn [obind] in P.
    rewrite (proj1 S0), <- Nat2Z.inj_div in P. rewrite Nat.pow_1_r in P'. rewrite P' in P. cbn [obind] in P.
    destruct steps as [|[a pf] steps]; [discriminate Len|]. cbn [tl z_steps map fst snd] in P |- *.
    assert (z_steps steps' = z_steps steps) as E.
    { apply (f_equal (fun o => match o with Ok (_, l) => tl l | _ => [] end)) in P. exact P. }
    clear - E. revert steps' E. induction steps as [|[a pf] s IH]; intros [|[a' pf'] s'] E; try discriminate; [reflexivity|].
    cbn [z_steps map fst snd] in E. assert (a = a' /\ pf = pf') as [-> ->] by (split; [apply Nat2Z.inj|]; congruence).
    f_equal. apply IH. apply (f_equal (@tl _)) in E. exact E. }
  unfold proof_verify. rewrite Nat.pow_1_r in V'. rewrite (Shift steps' 0 1) by (assumption || lia). rewrite V'. cbn [obind].
  rewrite (Nat.div_small i (w ^ S D)) by assumption. now rewrite Z.eqb_refl.
Qed.
