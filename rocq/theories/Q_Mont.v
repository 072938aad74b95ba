(** Final lemmas for C28-C32. *)
From Coq Require Import List ZArith NArith Znumtheory Bool Arith Lia.
From Coq.setoid_ring Require Import Field_tac.
From Verif Require Import Field Base R1CS R1CSFacts Gadget Gadget2 M_Lookup P_Lookup M_Bits M_Point M_Jubjub M_Montgomery
  Spec_Curve Spec_Mont P_Curve P_JubLeaf P_Group P_Chain P_ScalarMult P_Fbm P_Poseidon P_Mont P_Zmul P_Zcash P_Zcash2 P_Float P_Order.
Import ListNotations.
Local Open Scope F_scope.

(** ** C28 *)
Lemma to_montgomery_lemma : forall P, on_curve P -> px P <> F0 ->
  exists M, as_montgomery P = Ok M /\ on_mont M /\ as_edwards M = Ok P.
Proof.
  intros P H Hx. destruct (to_mont_ok P H Hx) as (A & B & _ & D & E). exists (to_mont P). split; [exact E|]. split; [exact A|].
  destruct (of_mont_back _ A B) as (_ & _ & K). rewrite D in K. exact K.
Qed.
Lemma from_montgomery_lemma : forall M, on_mont M -> py M <> F0 ->
  exists P, as_edwards M = Ok P /\ on_curve P /\ as_montgomery P = Ok M.
Proof.
  intros M H Hy. destruct (of_mont_back M H Hy) as (A & B & C). exists (of_mont M). split; [exact C|]. split; [now apply of_mont_on|].
  destruct (to_mont_ok _ (of_mont_on M H) A) as (_ & _ & _ & _ & K). rewrite B in K. exact K.
Qed.
Lemma conversion_abort_lemma : forall P M, on_curve P -> on_mont M ->
  (as_montgomery P = Abort <-> P = mkpt F0 F1 \/ P = mkpt F0 (- F1)) /\ (as_edwards M = Abort <-> M = mkpt F0 F0).
Proof.
  intros P M HP HM. split; split.
  - intros E. destruct (Feq_dec (px P) F0) as [Hx|Hx].
    + destruct (px_0 P HP Hx) as [-> | ->]; [left|right]; reflexivity.
    + destruct (to_mont_ok P HP Hx) as (_ & _ & _ & _ & K). congruence.
  - intros [-> | ->]; apply as_montgomery_abort; left; reflexivity.
  - intros E. destruct (Feq_dec (py M) F0) as [Hy|Hy]; [now apply of_mont_00|].
    destruct (of_mont_back M HM Hy) as (_ & _ & K). congruence.
  - intros ->. unfold as_edwards. cbn [py]. rewrite inverse_0. reflexivity.
Qed.
Lemma m2e_lemma : forall X Y n, lc_all (fun v => v < n)%nat X -> (Y < n)%nat ->
  exists g n', m2e_new X Y n = (g, n') /\ (n <= me_X2 g < n')%nat /\ (n <= me_Y2 g < n')%nat /\
  forall s : assign, on_mont (mkpt (ev s X) (s Y)) -> s Y <> F0 ->
    (sat s (m2e_constraints g) <-> as_edwards (mkpt (ev s X) (s Y)) = Ok (mkpt (s (me_X2 g)) (s (me_Y2 g)))) /\
    exists s', m2e_witness g s = Ok s' /\ frame n n' s s' /\ sat s' (m2e_constraints g).
Proof.
  intros X Y n HX HY. exists (fst (m2e_new X Y n)), (n + 2)%nat. split; [reflexivity|]. cbn [m2e_new fst me_X2 me_Y2].
  split; [lia|]. split; [lia|]. intros s HM HY0.
  destruct (of_mont_back _ HM HY0) as (_ & _ & K). pose proof (mont_px1_nz _ HM) as N. cbn [px] in N. split.
  - rewrite (m2e_sat_iff _ s); [|exact HY0|exact N]. cbn [me_X2 me_Y2 me_X1 me_Y1]. unfold lpt. rewrite K. split; [intros ->; reflexivity|intros E; now inversion E].
  - destruct (k_complete (m2e_gok (fun v => v < n)%nat X Y n HX HY ltac:(cbn beta; intros; lia)) s (conj HY0 N)) as (s' & W1 & W2 & W3).
    exists s'. split; [exact W1|]. split; [|exact W3]. intros v Hv. apply W2. cbn beta. lia.
Qed.

(** ** C29 *)
Lemma madder_lemma : forall X1 Y1 X2 Y2 n, lc_all (fun v => v < n)%nat X1 -> (Y1 < n)%nat -> lc_all (fun v => v < n)%nat X2 -> (Y2 < n)%nat ->
  exists g n', madder_new X1 Y1 X2 Y2 n = (g, n') /\ (n <= ma_X3 g < n')%nat /\ (n <= ma_Y3 g < n')%nat /\
  forall s : assign, on_mont (mkpt (ev s X1) (s Y1)) -> on_mont (mkpt (ev s X2) (s Y2)) -> ev s X1 <> ev s X2 ->
    (sat s (madder_constraints g) -> on_mont (mkpt (s (ma_X3 g)) (s (ma_Y3 g))) /\
       of_mont (mkpt (s (ma_X3 g)) (s (ma_Y3 g))) = padd (of_mont (mkpt (ev s X1) (s Y1))) (of_mont (mkpt (ev s X2) (s Y2)))) /\
    exists s', madder_witness g s = Ok s' /\ frame n n' s s' /\ sat s' (madder_constraints g).
Proof.
  intros X1 Y1 X2 Y2 n H1 H2 H3 H4. exists (fst (madder_new X1 Y1 X2 Y2 n)), (n + 3)%nat. split; [reflexivity|].
  cbn [madder_new fst ma_X3 ma_Y3]. split; [lia|]. split; [lia|]. intros s M1 M2 NE. split.
  - intros HS. apply madder_sat_iff in HS; [|exact NE]. destruct HS as [_ HS]. cbn [ma_X3 ma_Y3 ma_X1 ma_Y1 ma_X2 ma_Y2] in HS. rewrite HS.
    split; [now apply chord_on|now apply chord_sum].
  - destruct (k_complete (madder_gok (fun v => v < n)%nat X1 Y1 X2 Y2 n H1 H2 H3 H4 ltac:(cbn beta; intros; lia)) s NE) as (s' & W1 & W2 & W3).
    exists s'. split; [exact W1|]. split; [|exact W3]. intros v Hv. apply W2. cbn beta. lia.
Qed.

Lemma madder_free_lemma : forall X1 Y1 X2 Y2 n (s : assign) (l : F), lc_all (fun v => v < n)%nat X1 -> (Y1 < n)%nat -> lc_all (fun v => v < n)%nat X2 -> (Y2 < n)%nat ->
  ev s X1 = ev s X2 -> s Y1 = s Y2 ->
  let g := fst (madder_new X1 Y1 X2 Y2 n) in
  madder_witness g s = Abort /\
  exists s', frame n (n + 3) s s' /\ sat s' (madder_constraints g) /\ s' (ma_X3 g) = l * l - Fof 168698 - ev s X1 - ev s X2.
Proof.
  intros X1 Y1 X2 Y2 n s l H1 H2 H3 H4 EX EY g. split.
  { unfold madder_witness, g. cbn [madder_new fst ma_X1 ma_X2]. rewrite EX. replace (ev s X2 - ev s X2) with F0 by ring. rewrite inverse_0. reflexivity. }
  set (s1 := upd s n l). set (x3 := l * l - Fof 168698 - ev s X1 - ev s X2). set (s2 := upd s1 (n + 1) x3).
  set (s3 := upd s2 (n + 2) (l * (ev s X1 - x3) - s Y1)).
  assert (Fr : forall v, (v < n)%nat -> s3 v = s v).
  { intros v Hv. unfold s3, s2, s1. rewrite !upd_other by lia. reflexivity. }
  exists s3. split; [|split].
  - intros v Hv. unfold s3, s2, s1. rewrite !upd_other by lia. reflexivity.
  - assert (E1 : ev s3 X1 = ev s X1) by (apply (lc_ev_ext (fun v => v < n)%nat); auto).
    assert (E2 : ev s3 X2 = ev s X2) by (apply (lc_ev_ext (fun v => v < n)%nat); auto).
    assert (L : s3 n = l) by (unfold s3, s2, s1; rewrite !upd_other by lia; apply upd_same).
    assert (V3 : s3 (n + 1)%nat = x3) by (unfold s3, s2; rewrite upd_other by lia; apply upd_same).
    assert (V4 : s3 (n + 2)%nat = l * (ev s X1 - x3) - s Y1) by (apply upd_same).
    unfold g, madder_constraints. cbn [madder_new fst ma_X1 ma_Y1 ma_X2 ma_Y2 ma_lambda ma_X3 ma_Y3].
    rewrite !sat_cons. unfold holds. cbn [cA cB cC ev]. rewrite E1, E2, L, V3, V4, !Fr, EX, EY by assumption.
    change jj_A with (Fof 168698). repeat split; [ring|unfold x3; rewrite EX; ring|ring|constructor].
  - unfold g. cbn [madder_new fst ma_X3]. unfold s3, s2. rewrite upd_other by lia. rewrite upd_same. reflexivity.
Qed.

Definition exM : point := mkpt F1 sqrt_a.
Lemma exM_on : on_mont exM.
Proof.
  unfold on_mont, exM. cbn [px py]. rewrite sqrt_a_ok. change (Fof 168700) with (Fof (168698 + 1 + 1)). rewrite !Fof_add.
  change (Fof 1) with F1. ring.
Qed.
Definition ex_ma : assign := fun v => nth v [F1; sqrt_a; F1; sqrt_a; F0; - Fof 168700; - sqrt_a] F0.

Lemma madder_refuted_lemma : exists g n', madder_new (V 0%nat) 1 (V 2%nat) 3 4 = (g, n') /\ exists s : assign,
  on_mont (mkpt (s 0%nat) (s 1%nat)) /\ on_mont (mkpt (s 2%nat) (s 3%nat)) /\ sat s (madder_constraints g) /\
  of_mont (mkpt (s (ma_X3 g)) (s (ma_Y3 g))) <> padd (of_mont (mkpt (s 0%nat) (s 1%nat))) (of_mont (mkpt (s 2%nat) (s 3%nat))).
Proof.
  exists (fst (madder_new (V 0%nat) 1 (V 2%nat) 3 4)), 7%nat. split; [reflexivity|]. exists ex_ma.
  split; [exact exM_on|]. split; [exact exM_on|]. split.
  - unfold madder_constraints. cbn [madder_new fst ma_X1 ma_Y1 ma_X2 ma_Y2 ma_lambda ma_X3 ma_Y3 Nat.add].
    rewrite !sat_cons. unfold holds. cbn [cA cB cC ev]. unfold ex_ma. cbn [nth]. change jj_A with (Fof 168698).
    change (Fof 168700) with (Fof (168698 + 1 + 1)). rewrite !Fof_add. change (Fof 1) with F1.
    repeat split; try constructor; ring.
  - cbn [madder_new fst ma_X3 ma_Y3 Nat.add]. unfold ex_ma. cbn [nth].
    (* of_mont of (1, sqrt_a) has py = 0, so its double is (0,-1) *)
    assert (E1 : of_mont (mkpt F1 sqrt_a) = mkpt (F1 / sqrt_a) F0).
    { rewrite of_mont_nz by (cbn [py]; exact sqrt_a_nz). cbn [px py]. apply point_eq; cbn [px py]; [reflexivity|].
      apply Fdiv_eq; [|ring]. intros E. apply F2_neq_0. rewrite <- E. reflexivity. }
    rewrite E1. assert (E2 : py (padd (mkpt (F1 / sqrt_a) F0) (mkpt (F1 / sqrt_a) F0)) = - F1).
    { unfold padd. cbn [px py]. rewrite <- sqrt_a_ok. apply Fdiv_eq; [intros E; apply F1_neq_0; rewrite <- E; ring|].
      assert (E3 : F1 / sqrt_a * sqrt_a = F1) by (apply Fdiv_mul; exact sqrt_a_nz). set (w := F1 / sqrt_a) in *.
      transitivity (- (w * sqrt_a * (w * sqrt_a))); [ring|]. rewrite E3. ring. }
    intros E. apply (f_equal py) in E. rewrite E2 in E.
    assert (Ny : - sqrt_a <> F0). { intros E0. apply sqrt_a_nz. transitivity (- - sqrt_a); [ring|]. rewrite E0. ring. }
    rewrite of_mont_nz in E by (cbn [py]; exact Ny). cbn [px py] in E.
    apply Fdiv_eq in E.
    + assert (E4 : Fof 168700 + Fof 168700 = F0).
      { transitivity (- ((- Fof 168700 - F1) - (- F1 * (- Fof 168700 + F1)))); [ring|]. rewrite E. ring. }
      rewrite <- Fof_add in E4. revert E4. apply Fof_nz. vm_compute. discriminate.
    + intros E4. assert (E5 : Fof 168700 - F1 = F0) by (transitivity (- (- Fof 168700 + F1)); [ring|]; rewrite E4; ring).
      change F1 with (Fof 1) in E5. rewrite <- Fof_sub in E5. revert E5. apply Fof_nz. vm_compute. discriminate.
Qed.

(** ** C30 *)
Lemma windowed_pedersen_lemma : forall bases sc n,
  Forall on_curve bases -> regular bases (length sc / 3) ->
  (length sc mod 3 = 0)%nat -> (6 <= length sc)%nat -> (length sc <= 186 * length bases)%nat ->
  (basepoints_required (Z.of_nat (length sc)) <= Z.of_nat (length bases))%Z -> Forall (fun v => v < n)%nat sc ->
  exists g n' rx ry cs, zcash_new bases sc n = Ok (g, n') /\ zcash_result g = Ok (rx, ry) /\ zcash_constraints g = Ok cs /\
    forall (s : assign) (bits : list bool), map s sc = map b2F bits -> non_exceptional bases bits ->
      cs_all (fun v => v < n')%nat cs /\
      (sat s cs -> mkpt (s rx) (s ry) = pedersen_sum bases bits) /\
      exists s', zcash_witness g s = Ok s' /\ frame n n' s s' /\ sat s' cs.
Proof.
  intros bases sc n H1 H2 H3 H4 H5 H6 H7.
  destruct (zcash_struct bases sc n H1 H2 H3 H4 H5 H6 H7) as (A & B & C & D & E).
  exists (zc_gadget bases sc n), (zc_end sc n), (zc_X sc n), (zc_Y sc n), (zc_cs bases sc n).
  split; [exact A|]. split; [exact C|]. split; [exact B|].
  intros s bits Hb Hn. assert (Hl : length bits = length sc) by (rewrite <- (map_length b2F), <- Hb; apply map_length).
  pose proof (zcash_gok bases sc n bits H1 H2 Hn H3 H4 H5 H7 Hl) as G.
  split.
  { eapply cs_all_impl; [|exact (k_scope G)]. cbn beta. intros v [Hv|Hv]; [lia|]. pose proof (proj1 (Forall_forall _ _) H7 _ Hv). cbn beta in *. lia. }
  split; [intros HS; exact (k_sound G s Hb HS)|].
  destruct (k_complete G s Hb) as (s' & W1 & W2 & W3). exists s'. split; [exact W1|]. split; [|exact W3].
  intros v Hv. apply W2. cbn beta. lia.
Qed.
Lemma large_order_lemma : forall bases bits, Forall on_curve bases -> Forall large_order bases ->
  (length bits mod 3 = 0)%nat -> (length bits <= 186 * length bases)%nat ->
  regular bases (length bits / 3) /\ non_exceptional bases bits.
Proof.
  intros bases bits H1 H2 H3 H4. split.
  - apply large_order_regular; auto. pose proof (Nat.div_mod (length bits) 3 ltac:(lia)). lia.
  - apply large_order_non_exceptional; auto.
Qed.

(** ** C31 *)
Lemma window_tables_lemma : forall bases sc n,
  Forall on_curve bases -> (length sc mod 3 = 0)%nat -> (6 <= length sc)%nat -> (length sc <= 186 * length bases)%nat ->
  (basepoints_required (Z.of_nat (length sc)) <= Z.of_nat (length bases))%Z -> Forall (fun v => v < n)%nat sc ->
  (zcash_new bases sc n = Abort /\ ~ regular bases (length sc / 3)) \/
  exists g n' rx ry cs, zcash_new bases sc n = Ok (g, n') /\ zcash_result g = Ok (rx, ry) /\ zcash_constraints g = Ok cs /\
    (n <= rx < n')%nat /\ (n <= ry < n')%nat /\
    length (zc_wy g) = (length sc / 3)%nat /\
    (forall i, (i < length sc / 3)%nat -> exists w ps,
       nth_error (zc_wy g) i = Some w /\ lks_c w = map py ps /\
       lks_b w = [nth (3 * i) sc 0%nat; nth (3 * i + 1) sc 0%nat; nth (3 * i + 2) sc 0%nat] /\
       Forall2 (fun k M => as_montgomery (smul (k * 16 ^ N.of_nat (i mod 62)%nat) (nth (i / 62)%nat bases pzero)) = Ok M) [1; 2; 3; 4]%N ps) /\
    (forall (s : assign) bits, map s sc = map b2F bits -> zcash_witness g s = Abort \/ exists s', zcash_witness g s = Ok s').
Proof.
  intros bases sc n H1 H3 H4 H5 H6 H7.
  assert (Hlen : length sc = (3 * (length sc / 3))%nat) by (pose proof (Nat.div_mod (length sc) 3 ltac:(lia)); lia).
  destruct (zc_new_cases bases sc n H1 H3 H4 H5 H6) as [[H2 A]|[HA A]]; [right; specialize (A H7)|left; auto].
  destruct (zcash_struct bases sc n H1 H2 H3 H4 H5 H6 H7) as (_ & B & C & D & E).
  exists (zc_gadget bases sc n), (zc_end sc n), (zc_X sc n), (zc_Y sc n), (zc_cs bases sc n).
  split; [exact A|]. split; [exact C|]. split; [exact B|]. split; [exact D|]. split; [exact E|].
  split; [unfold zc_gadget; cbn [zc_wy]; rewrite map_length, seq_length; reflexivity|].
  split.
  - intros i Hi. exists (zwy bases sc n i), (ztab bases i).
    split. { unfold zc_gadget. cbn [zc_wy]. rewrite nth_error_map. rewrite (nth_error_nth' _ 0%nat) by (rewrite seq_length; exact Hi). rewrite seq_nth by exact Hi. reflexivity. }
    split; [reflexivity|]. split; [reflexivity|].
    assert (Hin : In (zB bases i) bases) by (apply nth_In; apply Nat.div_lt_upper_bound; lia).
    pose proof (proj1 (Forall_forall _ _) H1 _ Hin) as HB.
    assert (K : forall k, (1 <= k <= 4)%N -> as_montgomery (smul (k * 16 ^ N.of_nat (i mod 62)%nat) (nth (i / 62)%nat bases pzero)) = Ok (to_mont (smul k (zst bases i)))).
    { intros k Hk. rewrite smul_mul by exact HB. fold (zB bases i) (zst bases i). apply to_mont_ok; [now apply smul_on, smul_on|]. exact (H2 i k Hi Hk). }
    unfold ztab. cbn [map]. repeat constructor; apply K; lia.
  - intros s bits Hb. assert (Hl : length bits = length sc) by (rewrite <- (map_length b2F), <- Hb; apply map_length).
    destruct (windows_gok bases sc n H1 H2 Hlen ltac:(lia) H7 bits Hl) as [_ G].
    destruct (k_complete G s Hb) as (s' & W1 & _). unfold zcash_witness, zc_gadget. cbn [zc_wy zc_ma zc_pc zc_ea]. rewrite W1. cbn [obind].
    apply bind_total; [apply oseq_total; intros f Hf|intros s1; apply bind_total; [apply oseq_total; intros f Hf|intros s2; apply oseq_total; intros f Hf]];
      apply in_map_iff in Hf; destruct Hf as (g & <- & _).
    + apply madder_total.
    + apply m2e_total.
    + apply adder_total.
Qed.
Lemma single_window_lemma : forall bases B b0 b1 b2 n, on_curve B -> regular (B :: bases) 1 -> zcash_new (B :: bases) [b0; b1; b2] n = UB.
Proof.
  intros bases B b0 b1 b2 n HB HR. unfold zcash_new. cbn [length]. cbn [Nat.ltb Nat.leb oassert obind].
  change (Nat.eqb (3 mod 3) 0) with true. cbn [oassert obind].
  change (basepoints_required (Z.of_nat 3)) with 1%Z.
  assert (E : (1 <=? Z.of_nat (S (length bases)))%Z = true) by (apply Z.leb_le; lia). rewrite E. cbn [oassert obind idx nth_error].
  change (3 / 3)%nat with 1%nat. cbn [zc_windows]. change (0 mod 62)%nat with 0%nat. change (0 / 62)%nat with 0%nat. cbn [Nat.eqb idx nth_error]. rewrite bind_ok.
  assert (ET : zc_table B = Ok (map (fun k => to_mont (smul k B)) [1; 2; 3; 4]%N, smul 4 B)).
  { apply zc_table_gen; [exact HB|]. intros k Hk. pose proof (HR 0%nat k ltac:(lia) Hk) as K. change (0 mod 62)%nat with 0%nat in K. change (0 / 62)%nat with 0%nat in K. cbn [nth] in K.
    change (16 ^ N.of_nat 0)%N with 1%N in K. rewrite smul_1 in K. exact K. }
  rewrite ET, bind_ok. cbn [Nat.mul Nat.add idx nth_error]. rewrite !bind_ok. cbn [map].
  unfold lookups_new. cbn [length Nat.eqb andb oassert obind]. unfold zc_xlc. cbn [idx nth_error]. rewrite !bind_ok.
  unfold ed_dbl. rewrite (ed_add_ok (smul 4 B) (smul 4 B) (smul_on _ _ HB) (smul_on _ _ HB)), bind_ok.
  set (D := padd (smul 4 B) (smul 4 B)). assert (HD : on_curve D) by (apply padd_closed; now apply smul_on).
  rewrite (ed_add_ok D D HD HD), !bind_ok. reflexivity.
Qed.

Lemma short_base_list_lemma : forall bases sc n, Forall on_curve bases -> Forall large_order bases -> bases <> [] ->
  (length sc mod 3 = 0)%nat -> (186 * length bases < length sc)%nat ->
  (basepoints_required (Z.of_nat (length sc)) <= Z.of_nat (length bases))%Z -> zcash_new bases sc n = UB.
Proof.
  intros bases sc n H1 H2 H3 H4 H5 H6. apply zc_new_short; auto.
  - apply large_order_regular; auto.
  - destruct bases; [congruence|cbn [length]; lia].
Qed.

(** ** C32 *)
Lemma basepoints_required_lemma : forall n_bits, (0 <= n_bits <= 2 ^ 24)%Z ->
  let k := basepoints_required n_bits in
  (n_bits <= 186 * k)%Z /\ forall k', (0 <= k')%Z -> (n_bits <= 186 * k')%Z -> (k <= k')%Z.
Proof.
  intros n H k. unfold k. rewrite basepoints_required_exact by assumption.
  pose proof (Z.div_mod (n + 185) 186 ltac:(lia)) as E. pose proof (Z.mod_pos_bound (n + 185) 186 ltac:(lia)) as B.
  split; [lia|]. intros k' H0 H1. lia.
Qed.
Lemma basepoints_required_refuted_lemma : exists n_bits, (0 < n_bits < 2 ^ 32)%Z /\ (n_bits mod 3 = 0)%Z /\
  (186 * basepoints_required n_bits < n_bits)%Z.
Proof. exists 67109547%Z. split; [lia|]. split; [reflexivity|]. vm_compute. reflexivity. Qed.

(** ** C58 *)
Lemma generator_order_lemma : exists L : Z, L = 2736030358979909402780800718157159386076813972158567259200215660948447373041%Z /\ prime L /\
  forall k : N, smul k (mkpt jj_Gx jj_Gy) = mkpt F0 F1 <-> (L | Z.of_N k)%Z.
Proof.
  exists ord_L. split; [reflexivity|]. split; [exact ord_L_prime|]. intros k. rewrite <- pzmul_N. exact (exG_order (Z.of_N k)).
Qed.
