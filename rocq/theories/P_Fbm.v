(** fixed_base_mul and Commitment: closed form of what the constructors build, and its meaning. *)
From Coq Require Import List NArith ZArith Bool Arith Lia.
From Verif Require Import Field Base R1CS R1CSFacts Gadget Gadget2 M_Lookup P_Lookup M_Bits M_Point M_Jubjub Spec_Curve P_Curve P_JubLeaf P_Group P_Chain P_ScalarMult P_Poseidon.
Import ListNotations.
Local Open Scope nat_scope.

(** *** one lookup *)
Definition lk2_cs (g : lookup2) : list constr := match lookup2_constraints g with Ok cs => cs | _ => [] end.

Lemma lookup2_gok c b0 b1 r x0 x1 :
  length c = 4 -> b0 <> r -> b1 <> r ->
  let g := {| lk2_c := c; lk2_b := [b0; b1]; lk2_r := r |} in
  lookup2_constraints g = Ok (lk2_cs g) /\
  gok (fun v => v = r) (fun v => In v [b0; b1]) (lk2_cs g) (lookup2_witness g)
    (fun s => s b0 = b2F x0 /\ s b1 = b2F x1) (fun s => nth_error c (sel2 x0 x1) = Some (s r)).
Proof.
  intros Hc H0 H1 g. destruct (lookup2_fn_sat c b0 b1 (V r) Hc) as (cs & E & Hscope & Hsat).
  assert (E' : lookup2_constraints g = Ok cs) by exact E.
  assert (Ecs : lk2_cs g = cs) by (unfold lk2_cs; now rewrite E').
  rewrite Ecs. split; [exact E'|]. constructor.
  - intros v -> [<-|[<-|[]]]; congruence.
  - intros s s' Es [A1 A2]. rewrite !Es by (cbn; auto). auto.
  - apply Hscope; cbn; auto.
  - intros s [A1 A2] S. exact (proj1 (Hsat s x0 x1 A1 A2) S).
  - intros s [A1 A2].
    assert (En : lookup2_new c [b0; b1] r = Ok (g, S r)) by (unfold lookup2_new; rewrite Hc; reflexivity).
    destruct (lookup2_witness_ok c b0 b1 r g (S r) s x0 x1 En A1 A2) as (x & Hx & W).
    exists (upd s r x). split; [exact W|]. split.
    + intros v Hv. now apply upd_other.
    + apply (Hsat _ x0 x1); [rewrite upd_other by auto; exact A1|rewrite upd_other by auto; exact A2|].
      cbn [ev]. rewrite upd_same. exact Hx.
Qed.

(** *** windows *)
Definition wtab (base : point) (i : nat) : list point :=
  map (fun k => smul k (smul (4 ^ N.of_nat i) base)) [0; 1; 2; 3]%N.
Definition fb_look (f : point -> F) (base : point) (sc : list var) (n0 off i : nat) : lookup2 :=
  {| lk2_c := map f (wtab base i); lk2_b := [nth (2 * i) sc 0; nth (2 * i + 1) sc 0]; lk2_r := n0 + 2 * i + off |}.

Lemma fbm_add_ok P Q : on_curve P -> on_curve Q -> fbm_add P Q = Ok (padd P Q).
Proof.
  intros H1 H2. destruct (padd_denom P Q H1 H2) as [NA NB]. unfold fbm_add.
  change jj_d with (Fof 168696). rewrite (inverse_ok _ NA), (inverse_ok _ NB). cbn [obind]. unfold padd. rewrite !Fdiv_def. reflexivity.
Qed.

Lemma fbm_table_ok S : on_curve S ->
  fbm_table S = Ok (map (fun k => smul k S) [0; 1; 2; 3]%N, smul 4 S).
Proof.
  intros H. unfold fbm_table. rewrite fbm_add_ok by assumption. cbn [obind].
  rewrite <- smul_2. rewrite fbm_add_ok; [|exact H|now apply smul_on]. cbn [obind].
  rewrite <- smul_succ. rewrite fbm_add_ok; [|exact H|now apply smul_on]. cbn [obind].
  rewrite <- smul_succ. cbn [map]. rewrite smul_1. reflexivity.
Qed.

Lemma pow4_succ base i : on_curve base -> smul 4 (smul (4 ^ N.of_nat i) base) = smul (4 ^ N.of_nat (S i)) base.
Proof. intros H. rewrite <- smul_mul by assumption. now rewrite Nat2N.inj_succ, N.pow_succ_r'. Qed.

Lemma fbm_windows_closed base sc n0 : on_curve base -> forall cnt i, 2 * (i + cnt) <= length sc ->
  fbm_windows (smul (4 ^ N.of_nat i) base) sc cnt i (n0 + 2 * i) =
  Ok (map (fb_look px base sc n0 0) (seq i cnt), map (fb_look py base sc n0 1) (seq i cnt), n0 + 2 * (i + cnt)).
Proof.
  intros Hb. induction cnt as [|cnt IH]; intros i Hi.
  - cbn [fbm_windows seq map]. rewrite Nat.add_0_r. reflexivity.
  - cbn [fbm_windows]. rewrite fbm_table_ok by now apply smul_on. cbn [obind].
    rewrite !(idx_nth _ _ 0) by lia. cbn [obind]. unfold lookup2_new. rewrite !map_length. cbn [length Nat.eqb oassert obind].
    rewrite pow4_succ by assumption.
    replace (S (S (n0 + 2 * i))) with (n0 + 2 * S i) by lia. rewrite IH by lia. cbn [obind seq map].
    f_equal. f_equal; [|lia]. f_equal; f_equal; unfold fb_look, wtab; f_equal; lia.
Qed.

(** *** the chain of adders *)
Lemma chain_adders_closed ux uy W m :
  chain_adders (map ux (seq 0 W)) (map uy (seq 0 W)) m =
  Ok (map (chain_add (fun i => m + 7 * (i - 1)) ux uy) (seq 1 (W - 1)), m + 7 * (W - 1)).
Proof.
  unfold chain_adders. rewrite map_length, seq_length.
  assert (H : forall k, k <= W - 1 -> oseq (map (chain_step (map ux (seq 0 W)) (map uy (seq 0 W))) (seq 1 k)) ([], m)
    = Ok (map (chain_add (fun i => m + 7 * (i - 1)) ux uy) (seq 1 k), m + 7 * k)).
  { induction k as [|k IH]; intros Hk.
    - cbn [seq map oseq]. rewrite Nat.mul_0_r, Nat.add_0_r. reflexivity.
    - rewrite !(seq_S k 1), !map_app. cbn [map Nat.add]. rewrite oseq_snoc, IH by lia. cbn [obind chain_step].
      destruct k as [|k].
      + cbn [Nat.eqb Nat.sub]. rewrite !idx_map_seq by lia. cbn [obind]. rewrite (adder_eq' (ux 0) (uy 0) (ux 1) (uy 1) (m + 7 * 0) (ux 0) (uy 0) (ux 1) (uy 1) (m + 7 * (1 - 1)) (m + 7 * 1)) by lia.
        cbn [obind]. reflexivity.
      + cbn [Nat.eqb]. replace (S (S k) - 2) with k by lia.
        rewrite (proj2 (idx_ok (map (chain_add (fun i => m + 7 * (i - 1)) ux uy) (seq 1 (S k))) k (chain_add (fun i => m + 7 * (i - 1)) ux uy (1 + k)))).
        2:{ rewrite nth_error_map, (nth_error_nth' _ 0) by (rewrite seq_length; lia). cbn [option_map]. rewrite seq_nth by lia. reflexivity. }
        cbn [obind]. rewrite !idx_map_seq by lia. cbn [obind].
        rewrite (adder_eq' _ _ _ _ _ (acc_x (fun i => m + 7 * (i - 1)) ux (S (S k) - 1)) (acc_y (fun i => m + 7 * (i - 1)) uy (S (S k) - 1)) (ux (S (S k))) (uy (S (S k))) (m + 7 * (S (S k) - 1)) (m + 7 * S (S k))); try lia.
        * reflexivity.
        * unfold acc_x, chain_add. cbn [Nat.sub Nat.eqb adder_new fst ad_X3 ad_Y3 Nat.add]. lia.
        * unfold acc_y, chain_add. cbn [Nat.sub Nat.eqb adder_new fst ad_X3 ad_Y3 Nat.add]. lia. }
  now apply H.
Qed.

Definition fb_A (n W i : nat) : nat := n + 2 * W + 7 * (i - 1).
Definition fb_ux (n i : nat) : nat := n + 2 * i + 0.
Definition fb_uy (n i : nat) : nat := n + 2 * i + 1.
Definition fb_end (n W : nat) : nat := n + 2 * W + 7 * (W - 1).
Definition fb_gadget (base : point) (sc : list var) (n : nat) : fbm :=
  let W := length sc / 2 in
  {| fb_wx := map (fb_look px base sc n 0) (seq 0 W); fb_wy := map (fb_look py base sc n 1) (seq 0 W);
     fb_adds := map (chain_add (fb_A n W) (fb_ux n) (fb_uy n)) (seq 1 (W - 1)) |}.

Lemma even_half (sc : list var) : length sc mod 2 = 0 -> length sc = 2 * (length sc / 2).
Proof. intros H. pose proof (Nat.div_mod (length sc) 2 ltac:(lia)). lia. Qed.

Lemma fbm_new_closed base sc n : on_curve base -> length sc mod 2 = 0 ->
  fbm_new base sc n = Ok (fb_gadget base sc n, fb_end n (length sc / 2)).
Proof.
  intros Hb He. unfold fbm_new. rewrite He. cbn [Nat.eqb oassert obind].
  pose proof (even_half sc He) as HW.
  pose proof (fbm_windows_closed base sc n Hb (length sc / 2) 0 ltac:(lia)) as HC.
  change (4 ^ N.of_nat 0)%N with 1%N in HC. rewrite smul_1, Nat.mul_0_r, Nat.add_0_r, Nat.add_0_l in HC. rewrite HC. cbn [obind].
  rewrite !map_map.
  change (fun x => lk2_r (fb_look px base sc n 0 x)) with (fb_ux n). change (fun x => lk2_r (fb_look py base sc n 1 x)) with (fb_uy n).
  rewrite chain_adders_closed. cbn [obind]. reflexivity.
Qed.

(** *** meaning *)
Definition sel2N (b0 b1 : bool) : N := (N.b2n b0 + 2 * N.b2n b1)%N.
Definition wpt (base : point) (bs : list bool) (i : nat) : point :=
  smul (sel2N (nth (2 * i) bs false) (nth (2 * i + 1) bs false)) (smul (4 ^ N.of_nat i) base).

Lemma wtab_sel (f : point -> F) base i x0 x1 :
  nth_error (map f (wtab base i)) (sel2 x0 x1) = Some (f (smul (sel2N x0 x1) (smul (4 ^ N.of_nat i) base))).
Proof. destruct x0, x1; reflexivity. Qed.

Lemma firstn_snoc_b (bs : list bool) k : k < length bs -> firstn (S k) bs = firstn k bs ++ [nth k bs false].
Proof.
  revert bs. induction k as [|k IHk]; intros [|b bs] Hk; cbn in Hk; try lia; [reflexivity|].
  cbn [firstn nth app]. rewrite <- IHk by lia. reflexivity.
Qed.

Lemma psum_wpt base : on_curve base -> forall bs k, 2 * k <= length bs ->
  psum (map (wpt base bs) (seq 0 k)) = smul (bits_N (firstn (2 * k) bs)) base.
Proof.
  intros H bs. assert (Hw : forall i, on_curve (wpt base bs i)) by (intros; unfold wpt; now repeat apply smul_on).
  induction k as [|k IH]; intros Hk; [reflexivity|].
  rewrite seq_S, map_app. cbn [map]. rewrite psum_snoc; [|apply Forall_map_seq; auto|auto].
  rewrite IH by lia. replace (2 * S k) with (S (S (2 * k))) by lia.
  rewrite !firstn_snoc_b by lia. rewrite <- app_assoc. cbn [app]. rewrite bits_N_app, firstn_length_le by lia.
  rewrite smul_add by assumption. f_equal. unfold wpt. rewrite <- smul_mul by assumption. f_equal.
  cbn [Nat.add]. replace (S (2 * k)) with (2 * k + 1) by lia. unfold sel2N. cbn [bits_N].
  replace (N.of_nat (2 * k)) with (2 * N.of_nat k)%N by lia. rewrite N.pow_mul_r. change (2 ^ 2)%N with 4%N. lia.
Qed.

Definition fb_cs (g : fbm) : list constr := match fbm_constraints g with Ok cs => cs | _ => [] end.

Lemma omapM_all {A B} (f : A -> outcome B) (h : A -> B) l : (forall a, In a l -> f a = Ok (h a)) -> omapM f l = Ok (map h l).
Proof.
  induction l as [|a l IH]; intros H; [reflexivity|]. cbn [omapM map]. rewrite H by now left. cbn [obind].
  rewrite IH; [reflexivity|]. intros; apply H; now right.
Qed.

Lemma fbm_gok base sc n bs :
  on_curve base -> length sc mod 2 = 0 -> 4 <= length sc -> length bs = length sc -> Forall (fun v => v < n) sc ->
  let W := length sc / 2 in let g := fb_gadget base sc n in
  fbm_constraints g = Ok (fb_cs g) /\
  gok (fun v => n <= v < fb_end n W) (fun v => In v sc) (fb_cs g) (fbm_witness g)
    (fun s => map s sc = map b2F bs)
    (fun s => pt s (fb_A n W (W - 1) + 5) (fb_A n W (W - 1) + 6) = smul (bits_N bs) base).
Proof.
  intros Hb He HL Hbs Hsc W g.
  assert (HW : length sc = 2 * W) by now apply even_half. assert (HW2 : 2 <= W) by lia.
  assert (Hnth : forall i, i < length sc -> nth i sc 0 < n).
  { intros i Hi. rewrite Forall_forall in Hsc. apply Hsc, nth_In. exact Hi. }
  assert (Hbit : forall s i, i < length sc -> map s sc = map b2F bs -> s (nth i sc 0) = b2F (nth i bs false)).
  { intros s i Hi E. rewrite <- (map_nth s), (nth_indep _ _ (b2F false)) by (rewrite map_length; exact Hi).
    rewrite E. apply map_nth. }
  assert (Hpre : forall s s' : assign, (forall v, In v sc -> s' v = s v) -> map s sc = map b2F bs -> map s' sc = map b2F bs).
  { intros s s' E <-. apply map_ext_in. intros v Hv. now apply E. }
  assert (HD : forall v, In v sc -> v < n) by (rewrite Forall_forall in Hsc; exact Hsc).
  assert (HG : forall (f : point -> F) off, off < 2 -> forall i, i < W ->
     lookup2_constraints (fb_look f base sc n off i) = Ok (lk2_cs (fb_look f base sc n off i)) /\
     gok (fun v => v = n + 2 * i + off) (fun v => In v [nth (2 * i) sc 0; nth (2 * i + 1) sc 0])
       (lk2_cs (fb_look f base sc n off i)) (lookup2_witness (fb_look f base sc n off i))
       (fun s => s (nth (2 * i) sc 0) = b2F (nth (2 * i) bs false) /\ s (nth (2 * i + 1) sc 0) = b2F (nth (2 * i + 1) bs false))
       (fun s => s (n + 2 * i + off) = f (wpt base bs i))).
  { intros f off Hoff i Hi. pose proof (Hnth (2 * i) ltac:(lia)). pose proof (Hnth (2 * i + 1) ltac:(lia)).
    destruct (lookup2_gok (map f (wtab base i)) (nth (2 * i) sc 0) (nth (2 * i + 1) sc 0) (n + 2 * i + off)
       (nth (2 * i) bs false) (nth (2 * i + 1) bs false)) as [E G]; [reflexivity|lia|lia|].
    split; [exact E|]. eapply gok_weaken; [exact G|reflexivity|auto|exact (k_disj G)|exact (k_stable G)|auto|].
    cbn beta. intros s _ HR. rewrite wtab_sel in HR. injection HR as HR. symmetry. exact HR. }
  (* a family of lookups *)
  assert (HF : forall (f : point -> F) off, off < 2 ->
     gok (fun v => exists i, 0 <= i < 0 + W /\ v = n + 2 * i + off) (fun v => In v sc)
       (concat (map lk2_cs (map (fb_look f base sc n off) (seq 0 W)))) (oseq (map lookup2_witness (map (fb_look f base sc n off) (seq 0 W))))
       (fun s => map s sc = map b2F bs) (fun s => forall i, 0 <= i < 0 + W -> s (n + 2 * i + off) = f (wpt base bs i))).
  { intros f off Hoff. rewrite !map_map.
    apply (gok_family (fun i v => v = n + 2 * i + off) (fun i v => In v [nth (2 * i) sc 0; nth (2 * i + 1) sc 0]) (fun v => In v sc)
      (fun i => lk2_cs (fb_look f base sc n off i)) (fun i => lookup2_witness (fb_look f base sc n off i))
      (fun i s => s (nth (2 * i) sc 0) = b2F (nth (2 * i) bs false) /\ s (nth (2 * i + 1) sc 0) = b2F (nth (2 * i + 1) bs false))
      (fun i s => s (n + 2 * i + off) = f (wpt base bs i)) (fun s => map s sc = map b2F bs) 0 W).
    - intros i Hi. apply HG; lia.
    - exact Hpre.
    - intros i s Hi Hs _. split; apply Hbit; auto; lia.
    - intros; lia.
    - intros i j v Hi Hj -> [E|[E|[]]]; [pose proof (Hnth (2 * i) ltac:(lia))|pose proof (Hnth (2 * i + 1) ltac:(lia))]; lia.
    - intros i v Hi [<-|[<-|[]]]; left; apply nth_In; lia.
    - intros i v Hi -> Hd. apply HD in Hd. lia. }
  assert (Ecs : fbm_constraints g = Ok (concat (map lk2_cs (fb_wx g)) ++ concat (map lk2_cs (fb_wy g)) ++ concat (map adder_constraints (fb_adds g)))).
  { unfold fbm_constraints. rewrite !(omapM_all _ lk2_cs).
    - reflexivity.
    - intros a Ha. apply in_map_iff in Ha. destruct Ha as (i & <- & Hi). apply in_seq in Hi. fold W in Hi. apply HG; lia.
    - intros a Ha. apply in_map_iff in Ha. destruct Ha as (i & <- & Hi). apply in_seq in Hi. fold W in Hi. apply HG; lia. }
  assert (Efb : fb_cs g = concat (map lk2_cs (fb_wx g)) ++ concat (map lk2_cs (fb_wy g)) ++ concat (map adder_constraints (fb_adds g))).
  { unfold fb_cs. now rewrite Ecs. }
  split; [rewrite Efb; exact Ecs|]. rewrite Efb.
  pose proof (chain_gok (fb_A n W) (fb_ux n) (fb_uy n) (W - 1)) as GA.
  specialize (GA ltac:(intros i j Hi Hj; unfold fb_A; lia)).
  specialize (GA ltac:(intros i j Hi Hj; unfold fb_A, fb_ux, fb_uy; lia)).
  assert (EA1 : acc_x (fb_A n W) (fb_ux n) (W - 1) = fb_A n W (W - 1) + 5) by (unfold acc_x; destruct (Nat.eqb_spec (W - 1) 0); lia).
  assert (EA2 : acc_y (fb_A n W) (fb_uy n) (W - 1) = fb_A n W (W - 1) + 6) by (unfold acc_y; destruct (Nat.eqb_spec (W - 1) 0); lia).
  rewrite EA1, EA2 in GA. replace (S (W - 1)) with W in GA by lia.
  assert (Hw : forall i, on_curve (wpt base bs i)) by (intros; unfold wpt; now repeat apply smul_on).
  unfold g, fbm_witness, fb_gadget. cbn [fb_wx fb_wy fb_adds]. fold W.
  set (ownA := fun v => exists i, 1 <= i < 1 + (W - 1) /\ fb_A n W i <= v < fb_A n W i + 7) in GA.
  set (ownX := fun v => exists i, 0 <= i < 0 + W /\ v = n + 2 * i + 0).
  set (ownY := fun v => exists i, 0 <= i < 0 + W /\ v = n + 2 * i + 1).
  eapply gok_seq with (own1 := ownX) (own2 := fun v => ownY v \/ ownA v) (dep2 := fun v => In v sc \/ ownX v)
    (pre2 := fun s => map s sc = map b2F bs /\ forall i, 0 <= i < 0 + W -> s (n + 2 * i + 0) = px (wpt base bs i))
    (R2 := fun s => pt s (fb_A n W (W - 1) + 5) (fb_A n W (W - 1) + 6) = smul (bits_N bs) base).
  - exact (HF px 0 ltac:(lia)).
  - eapply gok_seq with (own1 := ownY) (own2 := ownA) (dep1 := fun v => In v sc \/ ownX v).
    + eapply gok_weaken with (dep' := fun v => In v sc \/ ownX v); [exact (HF py 1 ltac:(lia))|reflexivity|auto| | |intros s [H _]; exact H|intros s _ HR; exact HR].
      * intros v (i & Hi & ->) [Hd|(j & Hj & Hd)]; try apply HD in Hd; lia.
      * intros s s' E [H1 H2]. split; [apply (Hpre s); auto|]. intros i Hi. rewrite E; [auto|]. right. exists i. lia.
    + exact GA.
    + cbn beta. intros s [H1 H2] H3 i Hi. unfold upts, fb_ux, fb_uy, pt. rewrite H2, H3 by lia. specialize (Hw i). destruct (wpt base bs i) as [wx wy]. exact Hw.
    + cbn beta. intros s [H1 H2] H3 H4. rewrite H4. rewrite (map_ext_in _ (wpt base bs)).
      * rewrite psum_wpt by (auto; lia). rewrite <- HW, <- Hbs, firstn_all. reflexivity.
      * intros i Hi. apply in_seq in Hi. unfold upts, fb_ux, fb_uy, pt. rewrite H2, H3 by lia. destruct (wpt base bs i) as [wx wy]. reflexivity.
    + reflexivity.
    + auto.
    + cbn beta. intros v (i & Hi & Hv). unfold fb_ux, fb_uy in Hv. destruct Hv as [-> | ->]; [left; right; exists i; lia|right; exists i; lia].
    + intros v (i & Hi & Ho) [Hd|(j & Hj & Hd)]; try apply HD in Hd; unfold fb_A in *; lia.
    + intros v (i & Hi & Ho) (j & Hj & Hd); unfold fb_A in *; lia.
    + intros v [(i & Hi & Ho)|(i & Hi & Ho)] [Hd|(j & Hj & Hd)]; try apply HD in Hd; unfold fb_A in *; lia.
  - cbn beta. tauto.
  - cbn beta. intros s _ _ H. exact H.
  - intros v. unfold fb_end. split.
    + intros [(i & Hi & Ho)|[(i & Hi & Ho)|(i & Hi & Ho)]]; unfold fb_A in *; lia.
    + intros Hv. destruct (Nat.lt_ge_cases v (n + 2 * W)) as [Hlt|Hge].
      * pose proof (Nat.div_mod (v - n) 2 ltac:(lia)) as E. pose proof (Nat.mod_upper_bound (v - n) 2 ltac:(lia)).
        destruct ((v - n) mod 2) as [|[|?]] eqn:Em; [left|right; left|lia]; exists ((v - n) / 2); lia.
      * right. right. pose proof (Nat.div_mod (v - (n + 2 * W)) 7 ltac:(lia)) as E. pose proof (Nat.mod_upper_bound (v - (n + 2 * W)) 7 ltac:(lia)).
        exists (S ((v - (n + 2 * W)) / 7)). unfold fb_A. lia.
  - auto.
  - cbn beta. tauto.
  - intros v [(i & Hi & Ho)|(i & Hi & Ho)] Hd; apply HD in Hd; unfold fb_A in *; lia.
  - intros v [(i & Hi & Ho)|(i & Hi & Ho)] (j & Hj & Hd); unfold fb_A in *; lia.
  - intros v Hv Hd. apply HD in Hd. lia.
Qed.
