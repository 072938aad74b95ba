(** Final lemmas behind Prop_Merkle.v. *)
From Coq Require Import List ZArith Bool Arith Lia.
From Coq.setoid_ring Require Import Field_tac.
From Verif Require Import Primes Field Base R1CS R1CSFacts Gadget P_Lookup P_Bits M_Mimc Spec_Mimc P_Mimc M_Merkle Spec_Merkle P_Merkle.
Import ListNotations.
Local Open Scope F_scope.

(** *** C06 *)
Lemma selector_main input path r n : (input < n)%nat -> (path < n)%nat -> (r < n)%nat ->
  exists g, selector_new input path r n = (g, (n + 6)%nat) /\
   (forall s b, sat s (selector_constraints g) -> s r = b2F b ->
      (s (sl_left g), s (sl_right g)) = if b then (s path, s input) else (s input, s path)) /\
   (forall s b, s r = b2F b ->
      (s (sl_left g), s (sl_right g)) = (if b then (s path, s input) else (s input, s path)) ->
      exists s', sat s' (selector_constraints g) /\
        forall v, (v < n \/ n + 6 <= v)%nat \/ v = sl_left g \/ v = sl_right g -> s' v = s v) /\
   (forall s, sat (selector_witness g s) (selector_constraints g) /\ frame n (n + 6) s (selector_witness g s)).
Proof.
  intros Hi Hp Hr. exists (fst (selector_new input path r n)). split; [reflexivity|].
  assert (S : forall s b, sat s (selector_constraints (fst (selector_new input path r n))) -> s r = b2F b ->
     (s (sl_left (fst (selector_new input path r n))), s (sl_right (fst (selector_new input path r n)))) =
     if b then (s path, s input) else (s input, s path)).
  { intros s b Hs Hb. destruct (selector_sound _ _ _ _ _ Hs) as [-> ->]. rewrite Hb.
    destruct b; cbn [b2F]; f_equal; ring. }
  split; [exact S|]. split.
  - intros s b Hb E. destruct (selector_complete input path r n s Hi Hp Hr) as [Hf Hs].
    exists (selector_witness (fst (selector_new input path r n)) s). split; [exact Hs|].
    intros v Hv. pose proof (S _ b Hs) as E'. rewrite (Hf r), (Hf path), (Hf input) in E' by lia. specialize (E' Hb).
    rewrite <- E in E'. injection E' as E1 E2. destruct Hv as [Hv|[-> | ->]]; [now apply Hf|exact E1|exact E2].
  - intros s. destruct (selector_complete input path r n s Hi Hp Hr). split; assumption.
Qed.

(** *** C07 *)
Lemma merkle_compute_main H h depth addr IVs leaf path n : hash_ok H h ->
  (0 < depth)%nat -> length addr = depth -> (depth <= length IVs)%nat -> (depth <= length path)%nat ->
  below n addr -> below n IVs -> below n path -> (leaf < n)%nat ->
  exists g n' cs r, mpc_new H depth addr IVs leaf path n = Ok (g, n') /\
    mpc_constraints H g = Ok cs /\ mpc_result H g = Ok r /\ (n <= r < n')%nat /\
    (forall s bits, sat s cs -> map s addr = map b2F bits ->
       s r = merkle_spec h (map s IVs) (map s path) bits (s leaf)) /\
    (forall s, exists s', mpc_witness H g s = Ok s' /\ frame n n' s s' /\ sat s' cs).
Proof.
  intros HH Hd LA LI LP BA BI BP Hl.
  destruct (mpc_ok H h HH depth addr IVs leaf path n Hd LA LI LP BA BI BP Hl) as (g & n' & cs & r & H1 & H2 & H3 & H4 & Hok).
  exists g, n', cs, r. repeat (split; [assumption|]). split.
  - intros s bits Hs Hb. rewrite (go_sound _ _ _ _ _ _ Hok s I Hs), Hb. apply path_val_bits.
  - intros s. exact (go_complete _ _ _ _ _ _ Hok s I).
Qed.

Lemma merkle_compute_mimc C depth addr IVs leaf path n : C <> [] ->
  (0 < depth)%nat -> length addr = depth -> (depth <= length IVs)%nat -> (depth <= length path)%nat ->
  below n addr -> below n IVs -> below n path -> (leaf < n)%nat ->
  exists g n' cs r, mpc_new (mimc_hash_ops e7_ops C) depth addr IVs leaf path n = Ok (g, n') /\
    mpc_constraints (mimc_hash_ops e7_ops C) g = Ok cs /\ mpc_result (mimc_hash_ops e7_ops C) g = Ok r /\ (n <= r < n')%nat /\
    (forall s bits, sat s cs -> map s addr = map b2F bits ->
       s r = merkle_spec (mp_spec (mimc_spec 7 C)) (map s IVs) (map s path) bits (s leaf)) /\
    (forall s, exists s', mpc_witness (mimc_hash_ops e7_ops C) g s = Ok s' /\ frame n n' s s' /\ sat s' cs).
Proof. intros HC. apply merkle_compute_main. now apply mimc_hash_ok with (1 := e7_ok). Qed.

Lemma merkle_compute_rejects H depth addr IVs leaf path n :
  (depth = 0%nat \/ length addr <> depth \/ (length IVs < depth)%nat -> mpc_new H depth addr IVs leaf path n = Abort) /\
  (forall h, hash_ok H h -> (0 < depth)%nat -> length addr = depth -> (depth <= length IVs)%nat ->
     below n addr -> below n IVs -> below n path -> (leaf < n)%nat ->
     (length path < depth)%nat -> mpc_new H depth addr IVs leaf path n = UB).
Proof.
  split.
  - intros Hc. unfold mpc_new. destruct (Nat.ltb_spec 0 depth); cbn [oassert obind]; [|reflexivity].
    destruct (Nat.eqb_spec (length addr) depth); cbn [oassert obind]; [|reflexivity].
    destruct (Nat.leb_spec depth (length IVs)); cbn [oassert obind]; [|reflexivity]. lia.
  - intros h HH Hd LA LI BA BI BP Hl LP. unfold mpc_new.
    rewrite (proj2 (Nat.ltb_lt _ _) Hd), (proj2 (Nat.eqb_eq _ _) LA), (proj2 (Nat.leb_le _ _) LI).
    cbn [oassert obind].
    enough (G : forall d i inp n, (length path < i + d)%nat -> (i + d <= length addr)%nat -> (i + d <= length IVs)%nat ->
      below n addr -> below n IVs -> below n path -> (inp < n)%nat -> (i <= length path)%nat ->
      mpc_loop H d i addr IVs path inp n = UB).
    { rewrite G; try assumption; try lia. reflexivity. }
    clear - HH. induction d as [|d IH]; intros i inp n L1 L2 L3 B1 B2 B3 Hinp Hi; [lia|].
    cbn [mpc_loop]. destruct (Nat.eq_dec i (length path)) as [->|Hne].
    + unfold idx. rewrite (proj2 (nth_error_None path (length path))) by lia. reflexivity.
    + destruct (nth_error path i) as [p|] eqn:Ep; [|apply nth_error_None in Ep; lia].
      destruct (nth_error addr i) as [a|] eqn:Ea; [|apply nth_error_None in Ea; lia].
      destruct (nth_error IVs i) as [iv|] eqn:Ei; [|apply nth_error_None in Ei; lia].
      unfold idx at 1 2 3. rewrite Ep, Ea. cbn [obind]. unfold selector_new. rewrite Ei. cbn [obind].
      assert (Hiv : (iv < n)%nat) by (apply B2; eapply nth_error_In; eauto).
      cbn [sl_left sl_right].
      destruct (HH iv [n + 2; n + 5]%nat (n + 6)%nat) as (g & n2 & r & cs & Hg & Hr & _ & Hrn & Hok);
        [discriminate|lia|cbn [In]; intros; lia|].
      rewrite Hg. destruct d as [|d]; [lia|]. rewrite Hr. cbn [obind].
      pose proof (go_le _ _ _ _ _ _ Hok).
      rewrite IH; try lia; [reflexivity|..]; intros v Hv;
        [specialize (B1 v Hv)|specialize (B2 v Hv)|specialize (B3 v Hv)]; lia.
Qed.

(** *** C08 *)
Lemma mpa_ok H h depth addr IVs leaf root path n : hash_ok H h ->
  (0 < depth)%nat -> length addr = depth -> (depth <= length IVs)%nat -> (depth <= length path)%nat ->
  below n addr -> below n IVs -> below n path -> (leaf < n)%nat -> (root < n)%nat ->
  exists g n' cs r, mpa_new H depth addr IVs leaf root path n = Ok (g, n') /\
    mpa_constraints H g = Ok cs /\ mpc_result H (mpa_base H g) = Ok r /\
    (forall s, sat s cs -> s root = path_val h (map s IVs) (map s path) (map s addr) (s leaf)) /\
    (forall s, exists s', mpa_witness H g s = Ok s' /\ frame n n' s s' /\
        s' r = path_val h (map s IVs) (map s path) (map s addr) (s leaf) /\
        (sat s' cs <-> s root = path_val h (map s IVs) (map s path) (map s addr) (s leaf)) /\
        mpa_is_valid H g s' = Ok (Feqb (s' r) (s root))).
Proof.
  intros HH Hd LA LI LP BA BI BP Hl Hroot.
  destruct (mpc_ok H h HH depth addr IVs leaf path n Hd LA LI LP BA BI BP Hl) as (g & n' & cs & r & H1 & H2 & H3 & H4 & Hok).
  unfold mpa_new. rewrite H1. cbn [obind].
  exists {| mpa_base := g; mpa_root := root |}, n', (cs ++ [R1 (V r) L1 (V root)]), r.
  split; [reflexivity|]. unfold mpa_constraints, mpa_witness, mpa_is_valid. cbn [mpa_base mpa_root].
  rewrite H2, H3. cbn [obind]. split; [reflexivity|]. split; [reflexivity|]. split.
  - intros s Hs. rewrite sat_app, sat_cons in Hs. destruct Hs as (S1 & S2 & _).
    unfold holds, L1 in S2. cbn [cA cB cC ev] in S2.
    rewrite <- (go_sound _ _ _ _ _ _ Hok s I S1), <- S2. ring.
  - intros s. destruct (go_run _ _ _ _ _ _ s Hok I) as (s' & Hw & Hf & Hs & _ & HR).
    exists s'. split; [exact Hw|]. split; [exact Hf|].
    assert (E : forall l, below n l -> map s' l = map s l).
    { intros l Bl. apply map_ext_in. intros v Hv. apply Hf. left. now apply Bl. }
    rewrite (E IVs BI), (E path BP), (E addr BA), (Hf leaf) in HR by lia.
    split; [exact HR|]. split; [|now rewrite (Hf root) by lia].
    rewrite sat_app, sat_cons. unfold holds, L1. cbn [cA cB cC ev]. rewrite HR, (Hf root) by lia. split.
    + intros (_ & E2 & _). rewrite <- E2. ring.
    + intros ->. split; [exact Hs|]. split; [ring|constructor].
Qed.

Lemma merkle_auth_main H h depth addr IVs leaf root path n : hash_ok H h ->
  (0 < depth)%nat -> length addr = depth -> (depth <= length IVs)%nat -> (depth <= length path)%nat ->
  below n addr -> below n IVs -> below n path -> (leaf < n)%nat -> (root < n)%nat ->
  exists g n' cs, mpa_new H depth addr IVs leaf root path n = Ok (g, n') /\ mpa_constraints H g = Ok cs /\
    (forall s bits, map s addr = map b2F bits ->
       ((exists s', (forall v, v < n -> s' v = s v)%nat /\ sat s' cs) <->
        s root = merkle_spec h (map s IVs) (map s path) bits (s leaf))) /\
    (forall s bits, map s addr = map b2F bits ->
       exists s', mpa_witness H g s = Ok s' /\ frame n n' s s' /\
         (sat s' cs <-> s root = merkle_spec h (map s IVs) (map s path) bits (s leaf)) /\
         (mpa_is_valid H g s' = Ok true <-> s root = merkle_spec h (map s IVs) (map s path) bits (s leaf))).
Proof.
  intros HH Hd LA LI LP BA BI BP Hl Hroot.
  destruct (mpa_ok H h depth addr IVs leaf root path n HH Hd LA LI LP BA BI BP Hl Hroot)
    as (g & n' & cs & r & H1 & H2 & H3 & HS & HC).
  exists g, n', cs. split; [exact H1|]. split; [exact H2|]. split.
  - intros s bits Hb. split.
    + intros (s' & Hf & Hs). apply HS in Hs.
      assert (E : forall l, below n l -> map s' l = map s l).
      { intros l Bl. apply map_ext_in. intros v Hv. apply Hf. now apply Bl. }
      rewrite (E IVs BI), (E path BP), (E addr BA), !Hf, Hb, path_val_bits in Hs by assumption. exact Hs.
    + intros E. destruct (HC s) as (s' & _ & Hf & _ & Hiff & _). exists s'. split; [intros v Hv; apply Hf; lia|].
      apply Hiff. rewrite Hb, path_val_bits. exact E.
  - intros s bits Hb. destruct (HC s) as (s' & Hw & Hf & Hr & Hiff & Hv). exists s'.
    rewrite Hb, path_val_bits in Hiff, Hr. repeat (split; [assumption|]).
    rewrite Hv, Hr. split.
    + intros E. apply Ok_inj in E. symmetry. now apply Feqb_true.
    + intros ->. now rewrite Feqb_refl.
Qed.

Lemma merkle_spec_collision h bits : forall ivs path x ivs' path' x',
  (length bits <= length ivs)%nat -> (length bits <= length path)%nat ->
  (length bits <= length ivs')%nat -> (length bits <= length path')%nat ->
  merkle_spec h ivs path bits x = merkle_spec h ivs' path' bits x' ->
  x = x' \/ exhibits_collision h (path_inputs h ivs path bits x) (path_inputs h ivs' path' bits x').
Proof.
  induction bits as [|b bits IH]; intros ivs path x ivs' path' x' L1 L2 L3 L4 E.
  - left. destruct ivs as [|? ?], path as [|? ?], ivs' as [|? ?], path' as [|? ?]; exact E.
  - destruct ivs as [|iv ivs]; [cbn in L1; lia|]. destruct path as [|p path]; [cbn in L2; lia|].
    destruct ivs' as [|iv' ivs']; [cbn in L3; lia|]. destruct path' as [|p' path']; [cbn in L4; lia|].
    cbn [length] in *. cbn [merkle_spec] in E.
    apply IH in E; [|lia|lia|lia|lia]. destruct E as [E|E].
    + cbn [path_inputs].
      destruct b.
      * destruct (Feq_dec x x') as [->|Hx]; [now left|]. right.
        exists 0%nat, iv, p, x, iv', p', x'. cbn [nth_error].
        split; [reflexivity|]. split; [reflexivity|]. split; [intros K; injection K; intros; contradiction|exact E].
      * destruct (Feq_dec x x') as [->|Hx]; [now left|]. right.
        exists 0%nat, iv, x, p, iv', x', p'. cbn [nth_error].
        split; [reflexivity|]. split; [reflexivity|]. split; [intros K; injection K; intros; contradiction|exact E].
    + right. destruct E as (i & a1 & a2 & a3 & a4 & a5 & a6 & E1 & E2 & E3).
      exists (S i), a1, a2, a3, a4, a5, a6. cbn [path_inputs].
      destruct b; cbn [nth_error]; split; try exact E1; split; try exact E2; exact E3.
Qed.

Lemma merkle_auth_binding H h depth addr IVs leaf root path n g n' cs s1 s2 bits : hash_ok H h ->
  below n addr -> below n IVs -> below n path -> (leaf < n)%nat -> (root < n)%nat ->
  (depth <= length path)%nat ->
  mpa_new H depth addr IVs leaf root path n = Ok (g, n') -> mpa_constraints H g = Ok cs ->
  sat s1 cs -> sat s2 cs -> map s1 addr = map b2F bits -> map s2 addr = map b2F bits -> s1 root = s2 root ->
  s1 leaf = s2 leaf \/
  exhibits_collision h (path_inputs h (map s1 IVs) (map s1 path) bits (s1 leaf))
                       (path_inputs h (map s2 IVs) (map s2 path) bits (s2 leaf)).
Proof.
  intros HH BA BI BP Hl Hroot LP Hg Hcs S1 S2 B1 B2 E.
  assert (D : (0 < depth)%nat /\ length addr = depth /\ (depth <= length IVs)%nat).
  { unfold mpa_new, mpc_new in Hg. destruct (Nat.ltb_spec 0 depth); cbn [oassert obind] in Hg; [|discriminate].
    destruct (Nat.eqb_spec (length addr) depth); cbn [oassert obind] in Hg; [|discriminate].
    destruct (Nat.leb_spec depth (length IVs)); cbn [oassert obind] in Hg; [|discriminate]. auto. }
  destruct D as (Hd & LA & LI).
  destruct (mpa_ok H h depth addr IVs leaf root path n HH Hd LA LI LP BA BI BP Hl Hroot)
    as (g' & n'' & cs' & r & H1 & H2 & _ & HS & _).
  rewrite H1 in Hg. apply Ok_inj in Hg. injection Hg as -> ->. rewrite H2 in Hcs. apply Ok_inj in Hcs. subst cs'.
  apply HS in S1, S2. rewrite B1, path_val_bits in S1. rewrite B2, path_val_bits in S2.
  apply merkle_spec_collision; rewrite ?map_length;
    try (rewrite <- (map_length b2F bits), <- B1, map_length); try lia; try congruence.
Qed.

(** *** C55: the IVs are ordinary variables; nothing fixes them *)
Lemma merkle_ivs_free_gen H h depth addr leaf root path n c s0 : hash_ok H h -> length c = 29%nat ->
  (0 < depth <= 29)%nat -> length addr = depth -> (depth <= length path)%nat ->
  below n addr -> below n path -> (leaf < n)%nat -> (root < n)%nat -> ~ In root path -> ~ In root addr -> root <> leaf ->
  exists ivs s1 g n' cs, merkle_tree_IVs c n s0 = Ok (ivs, (n + 29)%nat, s1) /\ map s1 ivs = c /\
    mpa_new H depth addr ivs leaf root path (n + 29) = Ok (g, n') /\ mpa_constraints H g = Ok cs /\
    forall c', length c' = 29%nat -> exists s, sat s cs /\ map s ivs = c' /\
      forall v, (v < n)%nat -> v <> root -> s v = s0 v.
Proof.
  intros HH Lc Hd LA LP BA BP Hl Hroot NR1 NR2 NR3. unfold merkle_tree_IVs.
  assert (Hfill : forall vs xs s, length vs = length xs -> fill s vs xs = Ok (upds s vs xs)).
  { induction vs as [|v vs IH]; intros [|x xs] s L; try discriminate; [reflexivity|]. cbn. apply IH. now injection L. }
  rewrite Hfill by (rewrite Lc; reflexivity). cbn [obind].
  assert (Lv : length (var_array n 29) = 29%nat) by reflexivity.
  assert (BV : below (n + 29) (var_array n 29)) by (intros v Hv; apply var_array_In in Hv; lia).
  destruct (mpa_ok H h depth addr (var_array n 29) leaf root path (n + 29) HH) as (g & n' & cs & r & H1 & H2 & H3 & HS & HC); try lia.
  { intros v Hv. specialize (BA v Hv). lia. } { exact BV. } { intros v Hv. specialize (BP v Hv). lia. }
  exists (var_array n 29), (upds s0 (var_array n 29) c), g, n', cs. split; [reflexivity|].
  split; [apply upds_map; [apply seq_NoDup|now rewrite Lc]|].
  split; [exact H1|]. split; [exact H2|].
  intros c' Lc'. set (s1 := upds s0 (var_array n 29) c').
  set (s2 := upd s1 root (path_val h c' (map s0 path) (map s0 addr) (s0 leaf))).
  assert (E1 : forall v, (v < n)%nat -> s1 v = s0 v).
  { intros v Hv. apply upds_other. intros K. apply var_array_In in K. lia. }
  assert (E2 : forall l, below n l -> ~ In root l -> map s2 l = map s0 l).
  { intros l Bl Nl. apply map_ext_in. intros v Hv. unfold s2. rewrite upd_other by (intros ->; contradiction).
    apply E1. now apply Bl. }
  assert (E3 : map s2 (var_array n 29) = c').
  { transitivity (map s1 (var_array n 29)).
    - apply map_ext_in. intros v Hv. unfold s2. apply upd_other. apply var_array_In in Hv. lia.
    - unfold s1. apply upds_map; [apply seq_NoDup|now rewrite Lc']. }
  destruct (HC s2) as (s' & _ & Hf & _ & Hiff & _). exists s'. split; [|split].
  - apply Hiff. rewrite E3, (E2 path), (E2 addr) by assumption.
    unfold s2 at 2. rewrite upd_other by congruence. rewrite E1 by assumption. unfold s2. apply upd_same.
  - rewrite <- E3. apply map_ext_in. intros v Hv. apply Hf. left. now apply BV.
  - intros v Hv Hvr. rewrite Hf by lia. unfold s2. rewrite upd_other by assumption. now apply E1.
Qed.

Lemma merkle_ivs_free C depth addr leaf root path n c s0 : C <> [] -> length c = 29%nat ->
  (0 < depth <= 29)%nat -> length addr = depth -> (depth <= length path)%nat ->
  below n addr -> below n path -> (leaf < n)%nat -> (root < n)%nat -> ~ In root path -> ~ In root addr -> root <> leaf ->
  exists ivs s1 g n' cs, merkle_tree_IVs c n s0 = Ok (ivs, (n + 29)%nat, s1) /\ map s1 ivs = c /\
    mpa_new (mimc_hash_ops e7_ops C) depth addr ivs leaf root path (n + 29) = Ok (g, n') /\
    mpa_constraints (mimc_hash_ops e7_ops C) g = Ok cs /\
    forall c', length c' = 29%nat -> exists s, sat s cs /\ map s ivs = c' /\
      forall v, (v < n)%nat -> v <> root -> s v = s0 v.
Proof. intros HC. apply merkle_ivs_free_gen with (h := mp_spec (mimc_spec 7 C)). now apply mimc_hash_ok with (1 := e7_ok). Qed.

(** *** C56: without a boolean constraint on the address any leaf is accepted *)
Lemma merkle_forge H h (HH : hash_ok H h) (iv L R x : F) : x + x <> L + R ->
  exists g n' cs s, mpa_new H 1 [1]%nat [2]%nat 3 4 [5]%nat 6 = Ok (g, n') /\ mpa_constraints H g = Ok cs /\
    sat s cs /\ s 2%nat = iv /\ s 4%nat = h iv [L; R] /\ s 3%nat = x.
Proof.
  intros Hx.
  assert (BB : forall v, (v < 6)%nat -> below 6 [v]) by (intros v Hv w [<-|[]]; exact Hv).
  destruct (mpa_ok H h 1 [1]%nat [2]%nat 3 4 [5]%nat 6 HH) as (g & n' & cs & r & H1 & H2 & _ & _ & HC);
    try apply BB; cbn [length]; try lia.
  set (q := L + R - x). set (a := (L - x) / (q - x)).
  set (s := upd (upd (upd (upd (upd (fun _ => F0) 1 a) 2 iv) 3 x) 4 (h iv [L; R])) 5 q).
  destruct (HC s) as (s' & _ & Hf & _ & Hiff & _). exists g, n', cs, s'.
  split; [exact H1|]. split; [exact H2|]. split; [|split; [|split]].
  - apply Hiff. assert (E : q - x <> F0).
    { unfold q. intros K. apply Hx. apply Fsub_eq0. rewrite <- K at 1.
      transitivity (- (L + R - x - x)); [ring|]. rewrite K. ring. }
    change (h iv [L; R] = h iv [sel_l a x q; sel_r a x q]). do 2 f_equal; [|f_equal]; unfold sel_l, sel_r, a, q in *; field; exact E.
  - rewrite Hf by lia. reflexivity.
  - rewrite Hf by lia. reflexivity.
  - rewrite Hf by lia. reflexivity.
Qed.

Lemma merkle_forge_refuted C iv L R x : C <> [] -> x + x <> L + R -> x <> L -> x <> R ->
  exists g n' cs s, mpa_new (mimc_hash_ops e7_ops C) 1 [1]%nat [2]%nat 3 4 [5]%nat 6 = Ok (g, n') /\
    mpa_constraints (mimc_hash_ops e7_ops C) g = Ok cs /\ sat s cs /\
    s 2%nat = iv /\ s 4%nat = mp_spec (mimc_spec 7 C) iv [L; R] /\ s 3%nat = x /\ x <> L /\ x <> R.
Proof.
  intros HC Hx HL HR. destruct (merkle_forge (mimc_hash_ops e7_ops C) (mp_spec (mimc_spec 7 C)) (mimc_hash_ok _ _ _ e7_ok HC) iv L R x Hx)
    as (g & n' & cs & s & K). exists g, n', cs, s. tauto.
Qed.
