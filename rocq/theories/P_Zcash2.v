(** fixed_base_mul_zcash: the whole gadget. *)
From Coq Require Import List ZArith NArith Bool Arith Lia.
From Verif Require Import Field Base R1CS R1CSFacts Gadget Gadget2 M_Lookup P_Lookup M_Bits M_Point M_Jubjub M_Montgomery
  Spec_Curve Spec_Mont P_Curve P_JubLeaf P_Group P_Chain P_ScalarMult P_Fbm P_Poseidon P_Mont P_Zmul P_Zcash.
Import ListNotations.
Local Open Scope nat_scope.

Lemma segment_small k l : k <= 62 -> (Z.abs (2 * segment_val k l) < 2 ^ 248)%Z.
Proof.
  intros H. pose proof (seg_bound k l) as Hb.
  assert (Hp : (16 ^ Z.of_nat k <= 2 ^ 248)%Z). { change 16%Z with (2 ^ 4)%Z. rewrite <- Z.pow_mul_r by lia. apply Z.pow_le_mono_r; lia. }
  change (2 ^ 248)%Z with 452312848583266388373324160190187140051835877600158453279131187530910662656%Z in *. lia.
Qed.

Lemma large_order_regular bases W : Forall on_curve bases -> Forall large_order bases -> W <= 62 * length bases -> regular bases W.
Proof.
  intros Hon Hlo HB i k Hi Hk.
  assert (Hin : In (nth (i / 62) bases pzero) bases) by (apply nth_In; apply Nat.div_lt_upper_bound; lia).
  pose proof (proj1 (Forall_forall _ _) Hon _ Hin) as H1. pose proof (proj1 (Forall_forall _ _) Hlo _ Hin) as H2.
  rewrite <- smul_mul by assumption. rewrite <- pzmul_N.
  pose proof (pow16_le (i mod 62) ltac:(apply Nat.mod_upper_bound; lia)) as Hp.
  assert (Hq : (0 < 16 ^ Z.of_nat (i mod 62))%Z) by (apply Z.pow_pos_nonneg; lia).
  rewrite N2Z.inj_mul, N2Z.inj_pow, nat_N_Z. change (Z.of_N 16) with 16%Z.
  apply large_order_px; [assumption|assumption| |nia].
  rewrite Z.abs_eq by nia.
  apply Z.le_lt_trans with (8 * 2 ^ 244)%Z; [nia|reflexivity].
Qed.

Lemma large_order_non_exceptional bases bs : Forall on_curve bases -> Forall large_order bases -> length bs <= 186 * length bases ->
  length bs mod 3 = 0 -> non_exceptional bases bs.
Proof.
  intros Hon Hlo HB Hmod q j Hj Hlt.
  assert (HL3 : length bs = 3 * (length bs / 3)) by (pose proof (Nat.div_mod (length bs) 3 ltac:(lia)); lia).
  assert (Hin : In (nth q bases pzero) bases) by (apply nth_In; lia).
  pose proof (proj1 (Forall_forall _ _) Hon _ Hin) as H1. pose proof (proj1 (Forall_forall _ _) Hlo _ Hin) as H2.
  assert (Ed : (62 * q + j) / 62 = q /\ (62 * q + j) mod 62 = j).
  { split; [symmetry; apply (Nat.div_unique _ 62 _ j); lia|symmetry; apply (Nat.mod_unique _ 62 q); lia]. }
  destruct Ed as [Ed Em].
  unfold partial_point, window_point. rewrite Ed, Em. fold (wv bs (62 * q + j)).
  pose proof (seg_bound j (skipn (186 * q) bs)) as Hb.
  pose proof (pow16_le j ltac:(lia)) as Hp.
  assert (Hq : (0 < 16 ^ Z.of_nat j)%Z) by (apply Z.pow_pos_nonneg; lia).
  pose proof (window_val_bound (nth (3 * (62 * q + j)) bs false) (nth (3 * (62 * q + j) + 1) bs false) (nth (3 * (62 * q + j) + 2) bs false)) as Hv.
  fold (wv bs (62 * q + j)) in Hv.
  assert (ES : segment_val (S j) (skipn (186 * q) bs) = (segment_val j (skipn (186 * q) bs) + wv bs (62 * q + j) * 16 ^ Z.of_nat j)%Z).
  { rewrite seg_S by (rewrite skipn_length; lia). rewrite wv_skip. lia. }
  assert (NZ : (segment_val (S j) (skipn (186 * q) bs) <> 0)%Z) by (apply seg_nz; rewrite skipn_length; lia).
  pose proof (segment_small (S j) (skipn (186 * q) bs) ltac:(lia)) as SM.
  set (S1 := segment_val j (skipn (186 * q) bs)) in *. set (p := (16 ^ Z.of_nat j)%Z) in *. set (w := wv bs (62 * q + j)) in *.
  set (B := nth q bases pzero) in *.
  assert (Hwp : (p <= Z.abs (w * p) <= 4 * p)%Z) by (rewrite Z.abs_mul, (Z.abs_eq p) by lia; nia).
  assert (HS : (Z.abs S1 < p)%Z) by lia.
  assert (Hsm : forall z, (Z.abs z <= 5 * p -> Z.abs z < 2 ^ 248)%Z).
  { intros z Hz. apply Z.le_lt_trans with (5 * 2 ^ 244)%Z; [lia|reflexivity]. }
  split; [|split].
  - intros E. assert (E2 : (S1 - w * p = 0)%Z); [|lia]. apply (large_order_z B); auto.
    + apply Hsm. lia.
    + rewrite pzmul_sub by assumption. rewrite E. apply padd_neg_r. now apply pzmul_on.
  - intros E. assert (E2 : (S1 + w * p = 0)%Z); [|lia]. apply (large_order_z B); auto.
    + apply Hsm. lia.
    + rewrite pzmul_add by assumption. rewrite E. rewrite padd_comm. apply padd_neg_r. now apply pzmul_on.
  - rewrite <- pzmul_add by assumption. rewrite <- ES. apply large_order_px; assumption.
Qed.

Definition zc_cs (bases : list point) (sc : list var) (n : nat) : list constr :=
  concat (map lks_cs (map (zwy bases sc n) (seq 0 (length sc / 3)))) ++ concat (map madder_constraints (map (zma bases sc n) (seq 0 (nadd sc))))
  ++ concat (map m2e_constraints (map (zpc bases sc n) (seq 0 (nconv sc)))) ++ concat (map adder_constraints (map (chain_add (zA sc n) (zux sc n) (zuy sc n)) (seq 1 (nconv sc - 1)))).
Definition zc_X (sc : list var) (n : nat) : var := acc_x (zA sc n) (zux sc n) (nconv sc - 1).
Definition zc_Y (sc : list var) (n : nat) : var := acc_y (zA sc n) (zuy sc n) (nconv sc - 1).

Lemma zcash_struct bases sc n :
  Forall on_curve bases -> regular bases (length sc / 3) ->
  length sc mod 3 = 0 -> 6 <= length sc -> length sc <= 186 * length bases ->
  (basepoints_required (Z.of_nat (length sc)) <= Z.of_nat (length bases))%Z ->
  Forall (fun v => v < n) sc ->
  zcash_new bases sc n = Ok (zc_gadget bases sc n, zc_end sc n) /\ zcash_constraints (zc_gadget bases sc n) = Ok (zc_cs bases sc n) /\
    zcash_result (zc_gadget bases sc n) = Ok (zc_X sc n, zc_Y sc n) /\
    n <= zc_X sc n < zc_end sc n /\ n <= zc_Y sc n < zc_end sc n.
Proof.
  intros Hon Hlo Hmod Hge Hbs1 Hbr Hsc.
  assert (Hlen : length sc = 3 * (length sc / 3)) by (pose proof (Nat.div_mod (length sc) 3 ltac:(lia)); lia).
  assert (HW : 2 <= length sc / 3) by lia. assert (HB : length sc / 3 <= 62 * length bases) by lia.
  split; [exact (zcash_new_closed bases sc n Hon Hlo Hlen HB Hsc HW Hbr)|]. split; [|split].
  - destruct (windows_gok bases sc n Hon Hlo Hlen HB Hsc (repeat false (length sc)) (repeat_length _ _)) as [EW _].
    unfold zcash_constraints, zc_gadget. cbn [zc_wy zc_ma zc_pc zc_ea]. rewrite EW. cbn [obind]. reflexivity.
  - unfold zcash_result, zc_gadget, zc_X, zc_Y. cbn [zc_wy zc_ma zc_pc zc_ea].
    assert (Hnc : 1 <= nconv sc) by (unfold nconv; lia).
    set (k := nconv sc - 1). destruct k as [|k'] eqn:Ek.
    + cbn [seq map]. replace (nconv sc) with 1 by lia. cbn [seq map]. reflexivity.
    + pose proof (back_map_seq (chain_add (zA sc n) (zux sc n) (zuy sc n)) 1 k') as EB.
      destruct (map (chain_add (zA sc n) (zux sc n) (zuy sc n)) (seq 1 (S k'))) eqn:Em; [discriminate Em|]. rewrite EB. reflexivity.
  - assert (Hnc : 1 <= nconv sc) by (unfold nconv; lia).
    unfold zc_X, zc_Y, acc_x, acc_y, zc_end, zux, zuy, zA, ze0, zc0, zm0. destruct (Nat.eqb_spec (nconv sc - 1) 0); lia.
Qed.

Lemma zcash_gok bases sc n bs :
  Forall on_curve bases -> regular bases (length sc / 3) -> non_exceptional bases bs ->
  length sc mod 3 = 0 -> 6 <= length sc -> length sc <= 186 * length bases ->
  Forall (fun v => v < n) sc -> length bs = length sc ->
  gok (fun v => n <= v < zc_end sc n) (fun v => In v sc) (zc_cs bases sc n) (zcash_witness (zc_gadget bases sc n))
         (fun s => map s sc = map b2F bs) (fun s => pt s (zc_X sc n) (zc_Y sc n) = pedersen_sum bases bs).
Proof.
  intros Hon Hlo Hnex Hmod Hge Hbs1 Hsc Hbs.
  set (W := length sc / 3).
  assert (Hlen : length sc = 3 * W) by (pose proof (Nat.div_mod (length sc) 3 ltac:(lia)); lia).
  assert (HW : 2 <= W) by lia. assert (HB : W <= 62 * length bases) by lia.
  destruct (windows_gok bases sc n Hon Hlo Hlen HB Hsc bs Hbs) as [EW GW].
  pose proof (adders_gok bases sc n Hon Hlo Hlen HB Hsc bs Hbs Hnex) as GA.
  pose proof (convs_gok bases sc n Hon Hlo Hlen HB Hsc bs Hbs Hnex HW) as GC.
  pose proof (zcp_psum bases sc n Hon Hlo Hlen HB Hsc bs Hbs Hnex HW) as EP.
  pose proof (nconv_eq bases sc n Hon Hlo Hlen HB Hsc bs Hbs Hnex HW) as EN.
  pose proof (zcp_ok bases sc n Hon Hlo Hlen HB Hsc bs Hbs Hnex) as Hcp. fold W in EW, GW, GA, GC, EP, EN, Hcp.
  assert (HX : length bases >= nconv sc /\ length bs <= 186 * nconv sc).
  { rewrite EN. pose proof (Nat.div_mod (W - 1) 62 ltac:(lia)). pose proof (Nat.mod_upper_bound (W - 1) 62 ltac:(lia)). lia. }
  destruct HX as [HX1 HX2].
  rewrite <- (pedersen_sum_trunc bases bs (nconv sc) Hon HX1 HX2) in EP.
  assert (Hnc : 1 <= nconv sc) by lia.
  set (k := nconv sc - 1) in *.
  assert (Sc : forall v, In v sc -> v < n) by (apply Forall_forall; exact Hsc).
  assert (Hm0 : zm0 sc n = n + 2 * W) by reflexivity. assert (Hc0 : zc0 sc n = zm0 sc n + 3 * nadd sc) by reflexivity.
  assert (He0 : ze0 sc n = zc0 sc n + 2 * nconv sc) by reflexivity. assert (Hend : zc_end sc n = ze0 sc n + 7 * k) by reflexivity.
  pose proof (chain_gok (zA sc n) (zux sc n) (zuy sc n) k) as GE.
  specialize (GE ltac:(intros i j Hi Hj; unfold zA; lia)).
  specialize (GE ltac:(intros i j Hi Hj; unfold zA, zux, zuy; lia)).
  assert (OE : forall v, (exists i, 1 <= i < 1 + k /\ zA sc n i <= v < zA sc n i + 7) <-> ze0 sc n <= v < zc_end sc n).
  { intros v. unfold zA. split.
    - intros (i & Hi & Hv). lia.
    - intros Hv. exists (S ((v - ze0 sc n) / 7)). pose proof (Nat.div_mod (v - ze0 sc n) 7 ltac:(lia)). pose proof (Nat.mod_upper_bound (v - ze0 sc n) 7 ltac:(lia)). lia. }
  (* converters and the Edwards chain *)
  pose proof (gok_seq _ _ _ _ (fun v => zc0 sc n <= v < zc_end sc n) (fun v => In v sc \/ n <= v < zc0 sc n) _ _ _ _ _ _ _ _
     (fun s => pt s (acc_x (zA sc n) (zux sc n) k) (acc_y (zA sc n) (zuy sc n) k) = pedersen_sum bases bs) GC GE) as G1.
  specialize (G1 ltac:(intros s _ H i Hi; unfold upts; rewrite H by lia; apply Hcp; assumption)).
  assert (A1 : forall s : assign, (forall t, t < nconv sc -> pt s (zux sc n t) (zuy sc n t) = zcp bases sc bs t) ->
     map (upts (zux sc n) (zuy sc n) s) (seq 0 (S k)) = map (zcp bases sc bs) (seq 0 (nconv sc))).
  { intros s H. replace (S k) with (nconv sc) by lia. apply map_ext_in. intros t Ht. apply in_seq in Ht. apply H. lia. }
  specialize (G1 ltac:(cbn beta; intros s _ H E; rewrite E, (A1 s H); exact EP)).
  specialize (G1 ltac:(cbn beta; intros v; rewrite OE; lia)).
  specialize (G1 ltac:(auto)).
  specialize (G1 ltac:(cbn beta; intros v (i & Hi & [-> | ->]); right; unfold zux, zuy; lia)).
  specialize (G1 ltac:(cbn beta; intros v Hv Hd; apply OE in Hv; destruct Hd as [Hd|Hd]; [apply Sc in Hd; lia|lia])).
  specialize (G1 ltac:(cbn beta; intros v Hv Hd; apply OE in Hv; lia)).
  specialize (G1 ltac:(cbn beta; intros v Hv [Hd|Hd]; [apply Sc in Hd; lia|lia])).
  (* the Montgomery adders *)
  pose proof (gok_seq _ _ _ _ (fun v => zm0 sc n <= v < zc_end sc n) (fun v => In v sc \/ n <= v < zm0 sc n) _ _ _ _ _ _ _ _
     (fun s => pt s (acc_x (zA sc n) (zux sc n) k) (acc_y (zA sc n) (zuy sc n) k) = pedersen_sum bases bs) GA G1) as G2.
  specialize (G2 ltac:(cbn beta; tauto)).
  specialize (G2 ltac:(auto)).
  specialize (G2 ltac:(cbn beta; intros v; lia)).
  specialize (G2 ltac:(auto)).
  specialize (G2 ltac:(cbn beta; intros v [Hd|Hd]; [left; now left|lia])).
  specialize (G2 ltac:(cbn beta; intros v Hv [Hd|Hd]; [apply Sc in Hd; lia|lia])).
  specialize (G2 ltac:(cbn beta; intros v Hv Hd; lia)).
  specialize (G2 ltac:(cbn beta; intros v Hv [Hd|Hd]; [apply Sc in Hd; lia|lia])).
  (* the lookups *)
  pose proof (gok_seq _ _ _ _ (fun v => n <= v < zc_end sc n) (fun v => In v sc) _ _ _ _ _ _ _ _
     (fun s => pt s (acc_x (zA sc n) (zux sc n) k) (acc_y (zA sc n) (zuy sc n) k) = pedersen_sum bases bs) GW G2) as G3.
  specialize (G3 ltac:(cbn beta; tauto)).
  specialize (G3 ltac:(auto)).
  specialize (G3 ltac:(cbn beta; intros v; lia)).
  specialize (G3 ltac:(auto)).
  specialize (G3 ltac:(cbn beta; intros v [Hd|Hd]; [now left|lia])).
  specialize (G3 ltac:(cbn beta; intros v Hv Hd; apply Sc in Hd; lia)).
  specialize (G3 ltac:(cbn beta; intros v Hv Hd; lia)).
  specialize (G3 ltac:(cbn beta; intros v Hv Hd; apply Sc in Hd; lia)).
  eapply gok_ext; [exact G3|]. intros s. unfold zcash_witness, zc_gadget. cbn [zc_wy zc_ma zc_pc zc_ea]. reflexivity.
Qed.

(** *** cases of the constructor *)
Definition stp (bases : list point) (i : nat) : point := smul (16 ^ N.of_nat (i mod 62)) (nth (i / 62) bases pzero).

Lemma zc_table_cases S : on_curve S ->
  (forall k, (1 <= k <= 4)%N -> px (smul k S) <> F0) \/ (zc_table S = Abort /\ exists k, (1 <= k <= 4)%N /\ px (smul k S) = F0).
Proof.
  intros HS.
  assert (E2 : padd S S = smul 2 S) by (symmetry; apply smul_2).
  assert (E3 : padd (smul 2 S) S = smul 3 S) by (rewrite padd_comm, <- smul_succ; reflexivity).
  assert (E4 : padd (smul 3 S) S = smul 4 S) by (rewrite padd_comm, <- smul_succ; reflexivity).
  assert (K : forall k, px (smul k S) <> F0 -> as_montgomery (smul k S) = Ok (to_mont (smul k S))).
  { intros k Hk. apply to_mont_ok; [now apply smul_on|exact Hk]. }
  assert (KA : forall k, px (smul k S) = F0 -> as_montgomery (smul k S) = Abort) by (intros k Hk; apply as_montgomery_abort; now left).
  unfold zc_table.
  destruct (Feq_dec (px (smul 1 S)) F0) as [D1|D1].
  { right. split; [|exists 1%N; split; [lia|exact D1]]. apply KA in D1. rewrite smul_1 in D1. rewrite D1. reflexivity. }
  pose proof (K _ D1) as M1. rewrite smul_1 in M1. rewrite M1, bind_ok, (ed_add_ok S S HS HS), bind_ok, E2.
  destruct (Feq_dec (px (smul 2 S)) F0) as [D2|D2].
  { right. split; [|exists 2%N; split; [lia|exact D2]]. apply KA in D2. rewrite D2. reflexivity. }
  rewrite (K _ D2), bind_ok, (ed_add_ok (smul 2 S) S (smul_on _ _ HS) HS), bind_ok, E3.
  destruct (Feq_dec (px (smul 3 S)) F0) as [D3|D3].
  { right. split; [|exists 3%N; split; [lia|exact D3]]. apply KA in D3. rewrite D3. reflexivity. }
  rewrite (K _ D3), bind_ok, (ed_add_ok (smul 3 S) S (smul_on _ _ HS) HS), bind_ok, E4.
  destruct (Feq_dec (px (smul 4 S)) F0) as [D4|D4].
  { right. split; [|exists 4%N; split; [lia|exact D4]]. apply KA in D4. rewrite D4. reflexivity. }
  left. intros k Hk. assert (k = 1 \/ k = 2 \/ k = 3 \/ k = 4)%N as [-> | [-> | [-> | ->]]] by lia; assumption.
Qed.

Lemma zc_windows_abort bases sc : Forall on_curve bases -> forall cnt i st n, 3 * (i + cnt) <= length sc -> i + cnt <= 62 * length bases ->
  (i mod 62 <> 0 -> st = stp bases i) ->
  (forall j k, i <= j < i + cnt -> (1 <= k <= 4)%N -> px (smul k (stp bases j)) <> F0) \/
  (zc_windows bases sc st cnt i n = Abort /\ exists j k, i <= j < i + cnt /\ (1 <= k <= 4)%N /\ px (smul k (stp bases j)) = F0).
Proof.
  intros Hon. induction cnt as [|cnt IH]; intros i st n Hl Hb Hst; [left; intros; lia|].
  assert (Hin : In (nth (i / 62) bases pzero) bases) by (apply nth_In; apply Nat.div_lt_upper_bound; lia).
  pose proof (proj1 (Forall_forall _ _) Hon _ Hin) as HB.
  assert (HS : on_curve (stp bases i)) by now apply smul_on.
  cbn [zc_windows].
  assert (E : (if i mod 62 =? 0 then idx bases (i / 62) else Ok st) = Ok (stp bases i)).
  { destruct (Nat.eqb_spec (i mod 62) 0) as [E|E].
    - apply idx_ok. unfold stp. rewrite E. change (16 ^ N.of_nat 0)%N with 1%N. rewrite smul_1. apply nth_error_nth'. apply Nat.div_lt_upper_bound; lia.
    - now rewrite Hst. }
  rewrite E, bind_ok.
  destruct (zc_table_cases (stp bases i) HS) as [HR|[HA (k & Hk & Hx)]].
  2:{ right. rewrite HA. split; [reflexivity|]. exists i, k. split; [lia|auto]. }
  rewrite (zc_table_gen _ HS HR), bind_ok.
  rewrite !(idx_nth sc _ 0) by lia. rewrite !bind_ok. cbn [map].
  unfold lookups_new. cbn [length Nat.eqb andb oassert obind]. unfold zc_xlc. cbn [idx nth_error]. rewrite !bind_ok.
  unfold ed_dbl. rewrite (ed_add_ok (smul 4 (stp bases i)) (smul 4 (stp bases i)) (smul_on _ _ HS) (smul_on _ _ HS)), bind_ok.
  set (D := padd (smul 4 (stp bases i)) (smul 4 (stp bases i))). assert (HD : on_curve D) by (apply padd_closed; now apply smul_on).
  rewrite (ed_add_ok D D HD HD), !bind_ok.
  assert (ED : padd D D = smul 16 (stp bases i)).
  { unfold D. rewrite smul_double by assumption. rewrite smul_double by assumption. reflexivity. }
  destruct (IH (S i) (padd D D) (S (S n))) as [HN|[HA (j & k & Hj & Hk & Hx)]]; [lia|lia| | |].
  - intros Hm. rewrite ED. unfold stp.
    assert (E1 : S i / 62 = i / 62 /\ S i mod 62 = S (i mod 62)).
    { pose proof (Nat.div_mod i 62 ltac:(lia)) as D1. pose proof (Nat.mod_upper_bound i 62 ltac:(lia)).
      pose proof (Nat.div_mod (S i) 62 ltac:(lia)) as D2. pose proof (Nat.mod_upper_bound (S i) 62 ltac:(lia)). lia. }
    destruct E1 as [E1 E2]. rewrite E1, E2, Nat2N.inj_succ, N.pow_succ_r'. symmetry. now apply smul_mul.
  - left. intros j k Hj Hk. destruct (Nat.eq_dec j i) as [-> |Hne]; [now apply HR|]. apply HN; [lia|exact Hk].
  - right. split; [rewrite HA; reflexivity|]. exists j, k. split; [lia|auto].
Qed.

Lemma zc_new_cases bases sc n : Forall on_curve bases ->
  length sc mod 3 = 0 -> 6 <= length sc -> length sc <= 186 * length bases ->
  (basepoints_required (Z.of_nat (length sc)) <= Z.of_nat (length bases))%Z ->
  (regular bases (length sc / 3) /\ (Forall (fun v => v < n) sc -> zcash_new bases sc n = Ok (zc_gadget bases sc n, zc_end sc n))) \/
  (zcash_new bases sc n = Abort /\ ~ regular bases (length sc / 3)).
Proof.
  intros Hon Hmod Hge Hbs1 Hbr. set (W := length sc / 3).
  assert (Hlen : length sc = 3 * W) by (pose proof (Nat.div_mod (length sc) 3 ltac:(lia)); lia).
  destruct (zc_windows_abort bases sc Hon W 0 (nth 0 bases pzero) n) as [HR|[HA (j & k & Hj & Hk & Hx)]]; [lia|lia| | |].
  - intros H. exfalso. apply H. reflexivity.
  - left. assert (Hreg : regular bases W) by (intros i k Hi Hk; apply HR; [lia|exact Hk]). split; [exact Hreg|].
    intros Hsc. apply zcash_struct; auto.
  - right. split.
    + unfold zcash_new.
      assert (L1 : (0 <? length sc) = true) by (apply Nat.ltb_lt; lia). rewrite L1. cbn [oassert obind].
      rewrite Hmod. cbn [Nat.eqb oassert obind].
      apply Z.leb_le in Hbr. rewrite Hbr. cbn [oassert obind].
      rewrite (idx_nth bases 0 pzero) by lia. cbn [obind]. fold W. rewrite HA. reflexivity.
    + intros Hreg. apply (Hreg j k); auto. lia.
Qed.

(** *** outcomes that are success or abort *)
Definition okab {A} (o : outcome A) : Prop := o = Abort \/ exists a, o = Ok a.
Lemma bind_total {A B} (o : outcome A) (k : A -> outcome B) : okab o -> (forall a, okab (k a)) -> okab (obind o k).
Proof. intros [-> |[a ->]] H; [left; reflexivity|apply H]. Qed.
Lemma oseq_total {A} (l : list (A -> outcome A)) : (forall f, In f l -> forall a, okab (f a)) -> forall a, okab (oseq l a).
Proof.
  induction l as [|f l IH]; intros H a; [right; eexists; reflexivity|]. rewrite oseq_cons. apply bind_total; [apply H; now left|].
  intros b. apply IH. intros g Hg. apply H. now right.
Qed.
Lemma inverse_total x : okab (inverse x).
Proof. unfold inverse. destruct (Feqb x F0); [left; reflexivity|right; eexists; reflexivity]. Qed.
Lemma madder_total g s : okab (madder_witness g s).
Proof. apply bind_total; [apply inverse_total|]. intros i. right. eexists. reflexivity. Qed.
Lemma m2e_total g s : okab (m2e_witness g s).
Proof. apply bind_total; [apply inverse_total|]. intros i. apply bind_total; [apply inverse_total|]. intros j. right. eexists. reflexivity. Qed.
Lemma adder_total g s : okab (adder_witness g s).
Proof.
  unfold adder_witness. cbv zeta. apply bind_total; [apply inverse_total|]. intros i. apply bind_total; [apply inverse_total|].
  intros j. right. eexists. reflexivity.
Qed.

Lemma zc_windows_short bases sc : Forall on_curve bases -> regular bases (62 * length bases) ->
  forall cnt i st n, 3 * (i + cnt) <= length sc -> i <= 62 * length bases < i + cnt ->
  (i mod 62 <> 0 -> st = stp bases i) -> zc_windows bases sc st cnt i n = UB.
Proof.
  intros Hon Hreg. induction cnt as [|cnt IH]; intros i st n Hl Hb Hst; [lia|].
  cbn [zc_windows]. destruct (Nat.eq_dec i (62 * length bases)) as [-> |Hne].
  { replace (62 * length bases) with (length bases * 62) by lia. rewrite Nat.mod_mul, Nat.div_mul by lia. cbn [Nat.eqb].
    unfold idx. rewrite (proj2 (nth_error_None bases (length bases)) (le_n _)). reflexivity. }
  assert (Hin : In (nth (i / 62) bases pzero) bases) by (apply nth_In; apply Nat.div_lt_upper_bound; lia).
  pose proof (proj1 (Forall_forall _ _) Hon _ Hin) as HB.
  assert (HS : on_curve (stp bases i)) by now apply smul_on.
  assert (E : (if i mod 62 =? 0 then idx bases (i / 62) else Ok st) = Ok (stp bases i)).
  { destruct (Nat.eqb_spec (i mod 62) 0) as [E|E].
    - apply idx_ok. unfold stp. rewrite E. change (16 ^ N.of_nat 0)%N with 1%N. rewrite smul_1. apply nth_error_nth'. apply Nat.div_lt_upper_bound; lia.
    - now rewrite Hst. }
  rewrite E, bind_ok.
  rewrite (zc_table_gen _ HS); [rewrite bind_ok|intros k Hk; apply (Hreg i k); [lia|exact Hk]].
  rewrite !(idx_nth sc _ 0) by lia. rewrite !bind_ok. cbn [map].
  unfold lookups_new. cbn [length Nat.eqb andb oassert obind]. unfold zc_xlc. cbn [idx nth_error]. rewrite !bind_ok.
  unfold ed_dbl. rewrite (ed_add_ok (smul 4 (stp bases i)) (smul 4 (stp bases i)) (smul_on _ _ HS) (smul_on _ _ HS)), bind_ok.
  set (D := padd (smul 4 (stp bases i)) (smul 4 (stp bases i))). assert (HD : on_curve D) by (apply padd_closed; now apply smul_on).
  rewrite (ed_add_ok D D HD HD), !bind_ok.
  assert (ED : padd D D = smul 16 (stp bases i)).
  { unfold D. rewrite smul_double by assumption. rewrite smul_double by assumption. reflexivity. }
  rewrite IH; [reflexivity|lia|lia|].
  intros Hm. rewrite ED. unfold stp.
  assert (E1 : S i / 62 = i / 62 /\ S i mod 62 = S (i mod 62)).
  { pose proof (Nat.div_mod i 62 ltac:(lia)) as D1. pose proof (Nat.mod_upper_bound i 62 ltac:(lia)).
    pose proof (Nat.div_mod (S i) 62 ltac:(lia)) as D2. pose proof (Nat.mod_upper_bound (S i) 62 ltac:(lia)). lia. }
  destruct E1 as [E1 E2]. rewrite E1, E2, Nat2N.inj_succ, N.pow_succ_r'. symmetry. now apply smul_mul.
Qed.

Lemma zc_new_short bases sc n : Forall on_curve bases -> regular bases (62 * length bases) ->
  length sc mod 3 = 0 -> 186 * length bases < length sc -> 1 <= length bases ->
  (basepoints_required (Z.of_nat (length sc)) <= Z.of_nat (length bases))%Z -> zcash_new bases sc n = UB.
Proof.
  intros Hon Hreg Hmod Hlt Hb Hbr.
  assert (Hlen : length sc = 3 * (length sc / 3)) by (pose proof (Nat.div_mod (length sc) 3 ltac:(lia)); lia).
  unfold zcash_new.
  assert (L1 : (0 <? length sc) = true) by (apply Nat.ltb_lt; lia). rewrite L1. cbn [oassert obind].
  rewrite Hmod. cbn [Nat.eqb oassert obind].
  apply Z.leb_le in Hbr. rewrite Hbr. cbn [oassert obind].
  rewrite (idx_nth bases 0 pzero) by lia. cbn [obind].
  rewrite zc_windows_short; [reflexivity|assumption|assumption|lia|lia|]. intros H. exfalso. apply H. reflexivity.
Qed.
