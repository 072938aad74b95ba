(** fixed_base_mul_zcash: closed form of what the constructor builds, and its meaning. *)
From Coq Require Import List ZArith NArith Bool Arith Lia.
From Coq.setoid_ring Require Import Field_tac.
From Verif Require Import Field Base R1CS R1CSFacts Gadget Gadget2 M_Lookup P_Lookup M_Bits M_Point M_Jubjub M_Montgomery
  Spec_Curve Spec_Mont P_Curve P_JubLeaf P_Group P_Chain P_ScalarMult P_Fbm P_Poseidon P_Mont P_Zmul.
Import ListNotations.
Local Open Scope nat_scope.

(** *** window and segment values *)
Definition wv (l : list bool) (i : nat) : Z := window_val (nth (3 * i) l false) (nth (3 * i + 1) l false) (nth (3 * i + 2) l false).

Lemma window_val_bound a b c : (1 <= Z.abs (window_val a b c) <= 4)%Z.
Proof. destruct a, b, c; cbn; lia. Qed.

Lemma seg_S k : forall l, 3 * S k <= length l -> (segment_val (S k) l = segment_val k l + 16 ^ Z.of_nat k * wv l k)%Z.
Proof.
  induction k as [|k IH]; intros l Hl.
  - destruct l as [|a [|b [|c l]]]; cbn [length] in Hl; try lia. cbn [segment_val]. unfold wv. cbn [nth Nat.mul Nat.add].
    change (Z.of_nat 0) with 0%Z. rewrite Z.pow_0_r. lia.
  - destruct l as [|a [|b [|c l]]]; cbn [length] in Hl; try lia.
    change (segment_val (S (S k)) (a :: b :: c :: l)) with (window_val a b c + 16 * segment_val (S k) l)%Z.
    change (segment_val (S k) (a :: b :: c :: l)) with (window_val a b c + 16 * segment_val k l)%Z.
    rewrite IH by lia.
    assert (E : wv (a :: b :: c :: l) (S k) = wv l k).
    { unfold wv. replace (3 * S k) with (S (S (S (3 * k)))) by lia. cbn [nth Nat.add]. reflexivity. }
    rewrite E, Nat2Z.inj_succ, Z.pow_succ_r by lia. ring.
Qed.

Lemma seg_stop m : forall k l, length l = 3 * m -> m <= k -> segment_val k l = segment_val m l.
Proof.
  induction m as [|m IH]; intros k l Hl Hk.
  - destruct l; [|discriminate]. destruct k; reflexivity.
  - destruct l as [|a [|b [|c l]]]; cbn [length] in Hl; try lia. destruct k as [|k]; [lia|].
    cbn [segment_val]. rewrite (IH k) by lia. reflexivity.
Qed.

Lemma seg_bound k : forall l, (15 * Z.abs (segment_val k l) <= 4 * (16 ^ Z.of_nat k - 1))%Z.
Proof.
  induction k as [|k IH]; intros l.
  - change (Z.of_nat 0) with 0%Z. rewrite Z.pow_0_r. destruct l; cbn; lia.
  - assert (0 < 16 ^ Z.of_nat k)%Z by (apply Z.pow_pos_nonneg; lia).
    rewrite Nat2Z.inj_succ, Z.pow_succ_r by lia.
    destruct l as [|a [|b [|c l]]]; cbn [segment_val Z.abs]; try lia.
    pose proof (window_val_bound a b c). specialize (IH l). lia.
Qed.

Lemma seg_nz k l : 3 * S k <= length l -> (segment_val (S k) l <> 0)%Z.
Proof.
  intros Hl. rewrite seg_S by assumption. pose proof (seg_bound k l) as Hb.
  assert (Hp : (0 < 16 ^ Z.of_nat k)%Z) by (apply Z.pow_pos_nonneg; lia).
  pose proof (window_val_bound (nth (3 * k) l false) (nth (3 * k + 1) l false) (nth (3 * k + 2) l false)) as Hw. fold (wv l k) in Hw.
  assert (Hm : (16 ^ Z.of_nat k <= Z.abs (16 ^ Z.of_nat k * wv l k))%Z). { rewrite Z.abs_mul, (Z.abs_eq (16 ^ _)) by lia. nia. }
  lia.
Qed.

Lemma nth_skipn {A} m : forall (l : list A) i d, nth i (skipn m l) d = nth (m + i) l d.
Proof. induction m as [|m IH]; intros l i d; [reflexivity|]. destruct l as [|a l]; cbn [skipn Nat.add nth]; [destruct i; reflexivity|apply IH]. Qed.
Lemma wv_skip l q k : wv (skipn (186 * q) l) k = wv l (62 * q + k).
Proof. unfold wv. rewrite !nth_skipn. f_equal; f_equal; lia. Qed.

(** *** signed lookups *)
Definition lks_cs (g : lookups) : list constr := match lookups_constraints g with Ok cs => cs | _ => [] end.

Lemma lookups_gok c b0 b1 b2 n x0 x1 x2 :
  length c = 4 -> b0 < n -> b1 < n -> b2 < n ->
  let g := {| lks_c := c; lks_b := [b0; b1; b2]; lks_b0b1 := n; lks_r := S n |} in
  lookups_constraints g = Ok (lks_cs g) /\
  gok (fun v => n <= v < n + 2) (fun v => In v [b0; b1; b2]) (lks_cs g) (lookups_witness g)
    (fun s => s b0 = b2F x0 /\ s b1 = b2F x1 /\ s b2 = b2F x2)
    (fun s => s n = b2F (x0 && x1) /\ exists x, nth_error c (sel2 x0 x1) = Some x /\ s (S n) = signed x2 x).
Proof.
  intros Hc H0 H1 H2 g. destruct (lookups_fn_sat c b0 b1 b2 (S n) n Hc) as (cs & E & Hscope & Hsat).
  assert (E' : lookups_constraints g = Ok cs) by exact E.
  assert (Ecs : lks_cs g = cs) by (unfold lks_cs; now rewrite E').
  rewrite Ecs. split; [exact E'|]. constructor.
  - intros v Hv [<-|[<-|[<-|[]]]]; lia.
  - intros s s' Es (A1 & A2 & A3). rewrite !Es by (cbn; auto). auto.
  - apply Hscope; cbn; auto; left; lia.
  - intros s (A1 & A2 & A3) S. exact (proj1 (Hsat s x0 x1 x2 A1 A2 A3) S).
  - intros s (A1 & A2 & A3).
    assert (En : lookups_new c [b0; b1; b2] n = Ok (g, S (S n))) by (unfold lookups_new; rewrite Hc; reflexivity).
    destruct (lookups_witness_ok c b0 b1 b2 n g _ s x0 x1 x2 En H0 H1 H2 A1 A2 A3) as (s' & cs' & W & Ec & S & Fr & _ & _).
    rewrite E' in Ec. apply Ok_inj in Ec. subst cs'. exists s'. split; [exact W|]. split; [|exact S].
    intros v Hv. apply Fr. lia.
Qed.

Lemma bind_ok {A B} (a : A) (k : A -> outcome B) : obind (Ok a) k = k a.
Proof. reflexivity. Qed.

Lemma zc_table_gen S : on_curve S -> (forall k, (1 <= k <= 4)%N -> px (smul k S) <> F0) ->
  zc_table S = Ok (map (fun k => to_mont (smul k S)) [1; 2; 3; 4]%N, smul 4 S).
Proof.
  intros HS HP.
  assert (K : forall k, (1 <= k <= 4)%N -> as_montgomery (smul k S) = Ok (to_mont (smul k S))).
  { intros k Hk. apply to_mont_ok; [now apply smul_on|now apply HP]. }
  assert (K1 : as_montgomery S = Ok (to_mont (smul 1 S))) by (rewrite smul_1; rewrite <- (smul_1 S) at 1; rewrite K by lia; now rewrite smul_1).
  assert (E2 : padd S S = smul 2 S) by (symmetry; apply smul_2).
  assert (E3 : padd (smul 2 S) S = smul 3 S) by (rewrite padd_comm, <- smul_succ; reflexivity).
  assert (E4 : padd (smul 3 S) S = smul 4 S) by (rewrite padd_comm, <- smul_succ; reflexivity).
  unfold zc_table. rewrite K1, bind_ok.
  rewrite (ed_add_ok S S HS HS), bind_ok. rewrite E2, (K 2%N) by lia. rewrite bind_ok.
  rewrite (ed_add_ok (smul 2 S) S (smul_on _ _ HS) HS), bind_ok. rewrite E3, (K 3%N) by lia. rewrite bind_ok.
  rewrite (ed_add_ok (smul 3 S) S (smul_on _ _ HS) HS), bind_ok. rewrite E4, (K 4%N) by lia. rewrite bind_ok.
  reflexivity.
Qed.

Lemma pow16_le a : a < 62 -> (16 ^ Z.of_nat a <= 2 ^ 244)%Z.
Proof. intros H. change 16%Z with (2 ^ 4)%Z. rewrite <- Z.pow_mul_r by lia. apply Z.pow_le_mono_r; lia. Qed.

(** *** windows *)
Section Zcash.
Variables (bases : list point) (sc : list var) (n : nat).
Let W := length sc / 3.

Definition zB (i : nat) : point := nth (i / 62) bases pzero.
Definition zst (i : nat) : point := smul (16 ^ N.of_nat (i mod 62)) (zB i).
Definition ztab (i : nat) : list point := map (fun k => to_mont (smul k (zst i))) [1; 2; 3; 4]%N.
Definition zwy (i : nat) : lookups :=
  {| lks_c := map py (ztab i); lks_b := [nth (3 * i) sc 0; nth (3 * i + 1) sc 0; nth (3 * i + 2) sc 0];
     lks_b0b1 := n + 2 * i; lks_r := S (n + 2 * i) |}.
Definition zwx (i : nat) : lc :=
  let c := fun k => px (nth k (ztab i) pzero) in
  (LAdd (LAdd (LAdd (LC (c 0%nat)) (LScale (c 1%nat - c 0%nat) (V (nth (3 * i) sc 0%nat)))) (LScale (c 2%nat - c 0%nat) (V (nth (3 * i + 1) sc 0%nat))))
        (LScale (c 3%nat - c 2%nat - c 1%nat + c 0%nat) (V (n + 2 * i)%nat)))%F.

Hypothesis Hon : Forall on_curve bases.
Hypothesis Hreg : regular bases W.
Hypothesis Hlen : length sc = 3 * W.
Hypothesis Hbases : W <= 62 * length bases.
Hypothesis Hsc : Forall (fun v => v < n) sc.

Lemma zB_in i : i < W -> In (zB i) bases.
Proof using All. intros Hi. apply nth_In. apply Nat.div_lt_upper_bound; lia. Qed.
Lemma zB_on i : i < W -> on_curve (zB i).
Proof using All. intros Hi. exact (proj1 (Forall_forall _ _) Hon _ (zB_in i Hi)). Qed.
Lemma zst_mul k i : i < W -> smul k (zst i) = pzmul (Z.of_N k * 16 ^ Z.of_nat (i mod 62)) (zB i).
Proof using All.
  intros Hi. unfold zst. rewrite <- smul_mul by now apply zB_on. rewrite <- pzmul_N. f_equal.
  rewrite N2Z.inj_mul, N2Z.inj_pow, nat_N_Z. reflexivity.
Qed.

Lemma zst_px k i : i < W -> (1 <= k <= 4)%N -> px (smul k (zst i)) <> F0.
Proof using All. exact (Hreg i k). Qed.

Lemma zc_table_ok i : i < W -> zc_table (zst i) = Ok (ztab i, smul 4 (zst i)).
Proof using All.
  intros Hi. pose proof (smul_on (16 ^ N.of_nat (i mod 62)) _ (zB_on i Hi)) as HS. fold (zst i) in HS.
  apply zc_table_gen; [exact HS|]. intros k Hk. now apply zst_px.
Qed.

Lemma zst_next i : S i < W -> S i mod 62 <> 0 -> zst (S i) = smul 16 (zst i).
Proof using All.
  intros Hi Hm. unfold zst.
  assert (E1 : S i / 62 = i / 62 /\ S i mod 62 = S (i mod 62)).
  { pose proof (Nat.div_mod i 62 ltac:(lia)) as D1. pose proof (Nat.mod_upper_bound i 62 ltac:(lia)).
    pose proof (Nat.div_mod (S i) 62 ltac:(lia)) as D2. pose proof (Nat.mod_upper_bound (S i) 62 ltac:(lia)). lia. }
  destruct E1 as [E1 E2]. unfold zB. rewrite E1, E2, Nat2N.inj_succ, N.pow_succ_r'.
  apply smul_mul. apply (zB_on i). lia.
Qed.
Lemma zst_first i : i < W -> i mod 62 = 0 -> nth_error bases (i / 62) = Some (zst i).
Proof using All.
  intros Hi Hm. unfold zst. rewrite Hm. change (16 ^ N.of_nat 0)%N with 1%N. rewrite smul_1. unfold zB.
  apply nth_error_nth'. apply Nat.div_lt_upper_bound; lia.
Qed.

Lemma zc_windows_closed : forall cnt i st, i + cnt <= W -> (i mod 62 <> 0 -> st = zst i) ->
  zc_windows bases sc st cnt i (n + 2 * i) = Ok (map zwx (seq i cnt), map zwy (seq i cnt), n + 2 * (i + cnt)).
Proof using All.
  induction cnt as [|cnt IH]; intros i st Hi Hst.
  - cbn [zc_windows seq map]. rewrite Nat.add_0_r. reflexivity.
  - cbn [zc_windows].
    assert (E : (if i mod 62 =? 0 then idx bases (i / 62) else Ok st) = Ok (zst i)).
    { destruct (Nat.eqb_spec (i mod 62) 0) as [E|E].
      - apply idx_ok. apply zst_first; [lia|exact E].
      - now rewrite Hst. }
    rewrite E. cbn [obind]. rewrite zc_table_ok by lia. cbn [obind].
    rewrite !(idx_nth _ _ 0) by lia. cbn [obind].
    unfold lookups_new at 1. rewrite map_length. cbn [ztab map length Nat.eqb oassert obind].
    cbn [zc_xlc idx nth_error obind lks_b0b1].
    pose proof (smul_on (16 ^ N.of_nat (i mod 62)) _ (zB_on i ltac:(lia))) as HS. fold (zst i) in HS.
    unfold ed_dbl. rewrite (ed_add_ok _ _ (smul_on 4 _ HS) (smul_on 4 _ HS)). cbn [obind].
    rewrite smul_double by assumption. change (2 * 4)%N with 8%N.
    rewrite (ed_add_ok _ _ (smul_on 8 _ HS) (smul_on 8 _ HS)). cbn [obind].
    rewrite smul_double by assumption. change (2 * 8)%N with 16%N.
    replace (S (S (n + 2 * i))) with (n + 2 * S i) by lia.
    rewrite IH; [|lia|].
    + cbn [obind seq map]. replace (i + S cnt) with (S i + cnt) by lia. reflexivity.
    + intros Hm. destruct cnt as [|cnt].
      * (* no window left: the next start is not used *) 
        unfold zst, zB.
        assert (E1 : S i / 62 = i / 62 /\ S i mod 62 = S (i mod 62)).
        { pose proof (Nat.div_mod i 62 ltac:(lia)) as D1. pose proof (Nat.mod_upper_bound i 62 ltac:(lia)).
          pose proof (Nat.div_mod (S i) 62 ltac:(lia)) as D2. pose proof (Nat.mod_upper_bound (S i) 62 ltac:(lia)). lia. }
        destruct E1 as [E1 E2]. rewrite E1, E2, Nat2N.inj_succ, N.pow_succ_r'. symmetry. apply smul_mul. apply (zB_on i). lia.
      * symmetry. apply zst_next; [lia|exact Hm].
Qed.

(** *** adders *)
Definition zm0 : nat := n + 2 * W.
Definition zX1 (k : nat) : lc := if k mod 61 =? 0 then zwx (62 * (k / 61)) else V (zm0 + 3 * (k - 1) + 1).
Definition zY1 (k : nat) : var := if k mod 61 =? 0 then S (n + 2 * (62 * (k / 61))) else zm0 + 3 * (k - 1) + 2.
Definition zwin (k : nat) : nat := 62 * (k / 61) + k mod 61 + 1.
Definition zma (k : nat) : madder := fst (madder_new (zX1 k) (zY1 k) (zwx (zwin k)) (S (n + 2 * zwin k)) (zm0 + 3 * k)).

Definition single : bool := (W - 1) mod 62 =? 0.
Definition nadd : nat := (W - 1) - (W - 1) / 62.
Definition sgl (k : nat) : bool := (k mod 62 =? 0) && (k =? W - 1).

Lemma madder_eq X1 Y1 X2 Y2 m X1' Y1' X2' Y2' m' e : X1 = X1' -> Y1 = Y1' -> X2 = X2' -> Y2 = Y2' -> m = m' -> e = m + 3 ->
  madder_new X1 Y1 X2 Y2 m = (fst (madder_new X1' Y1' X2' Y2' m'), e).
Proof. intros -> -> -> -> -> ->. reflexivity. Qed.

Lemma zidx {B} (f : nat -> B) i : i < W -> idx (map f (seq 0 W)) i = Ok (f i).
Proof. apply idx_map_seq. Qed.

Lemma zc_steps_closed : 2 <= W -> forall k, k <= W - 1 ->
  oseq (map (zc_step (map zwx (seq 0 W)) (map zwy (seq 0 W))) (seq 1 k)) ([], [], zm0)
  = Ok (map zma (seq 0 (k - k / 62)),
        if (1 <=? k) && sgl k then [fst (m2e_new (zwx (W - 1)) (S (n + 2 * (W - 1))) (zm0 + 3 * (k - k / 62)))] else [],
        zm0 + 3 * (k - k / 62) + (if (1 <=? k) && sgl k then 2 else 0)).
Proof using All.
  intros HW. induction k as [|k IH]; intros Hk.
  - cbn [seq map oseq]. change (0 - 0 / 62) with 0. cbn [seq map Nat.leb andb]. rewrite Nat.mul_0_r, !Nat.add_0_r. reflexivity.
  - rewrite seq_S, map_app. cbn [map Nat.add]. rewrite oseq_snoc, IH by lia. cbn [obind].
    assert (Es : (1 <=? k) && sgl k = false).
    { unfold sgl. destruct (Nat.eqb_spec k (W - 1)); [lia|]. now rewrite !andb_false_r. }
    rewrite Es, Nat.add_0_r. cbn [zc_step].
    pose proof (Nat.div_mod (S k) 62 ltac:(lia)) as D2. pose proof (Nat.mod_upper_bound (S k) 62 ltac:(lia)) as B2.
    pose proof (Nat.div_mod k 62 ltac:(lia)) as D1. pose proof (Nat.mod_upper_bound k 62 ltac:(lia)) as B1.
    change (1 <=? S k) with true. cbn [andb]. unfold sgl.
    destruct (Nat.eqb_spec (S k mod 62) 0) as [E|E].
    + assert (Eq : S k - S k / 62 = k - k / 62) by lia. rewrite Eq. cbn [andb].
      rewrite map_length, seq_length.
      destruct (Nat.eqb_spec (S k) (W - 1)) as [EW|EW].
      * destruct (Nat.ltb_spec (S k + 1) W) as [L|L]; [lia|]. rewrite !zidx by lia. cbn [obind m2e_new app fst lks_r zwy]. rewrite EW. reflexivity.
      * destruct (Nat.ltb_spec (S k + 1) W) as [L|L]; [|lia]. rewrite Nat.add_0_r. reflexivity.
    + assert (Eq : S k - S k / 62 = S (k - k / 62)) by lia. rewrite Eq. cbn [andb]. rewrite seq_S, map_app. cbn [map Nat.add].
      set (a := k - k / 62) in *.
      assert (Ea : a = 61 * (S k / 62) + (S k mod 62 - 1)) by lia.
      assert (Edm : a / 61 = S k / 62 /\ a mod 61 = S k mod 62 - 1).
      { assert (Hu : S k mod 62 - 1 < 61) by lia. split; [symmetry; apply (Nat.div_unique a 61 _ (S k mod 62 - 1)); lia|symmetry; apply (Nat.mod_unique a 61 (S k / 62)); lia]. }
      destruct Edm as [Ed Em].
      assert (Ew : zwin a = S k) by (unfold zwin; rewrite Ed, Em; lia).
      destruct (Nat.eqb_spec (S k mod 62) 1) as [E1|E1].
      * rewrite !zidx by lia. cbn [obind].
        rewrite (madder_eq _ _ _ _ _ (zX1 a) (zY1 a) (zwx (zwin a)) (S (n + 2 * zwin a)) (zm0 + 3 * a) (zm0 + 3 * S a + 0)).
        -- rewrite app_nil_r || idtac. fold (zma a). reflexivity.
        -- unfold zX1. rewrite Em, E1. cbn [Nat.sub Nat.eqb]. rewrite Ed. f_equal. lia.
        -- unfold zY1. rewrite Em, E1. cbn [Nat.sub Nat.eqb lks_r zwy]. rewrite Ed. lia.
        -- now rewrite Ew.
        -- now rewrite Ew.
        -- reflexivity.
        -- lia.
      * assert (Ha : exists a', a = S a') by (exists (a - 1); lia). destruct Ha as [a' Ha].
        assert (Eb : back (map zma (seq 0 a)) = Ok (zma a')). { rewrite Ha. rewrite back_map_seq. f_equal. }
        rewrite Eb. cbn [obind]. rewrite !zidx by lia. cbn [obind].
        rewrite (madder_eq _ _ _ _ _ (zX1 a) (zY1 a) (zwx (zwin a)) (S (n + 2 * zwin a)) (zm0 + 3 * a) (zm0 + 3 * S a + 0)).
        -- fold (zma a). reflexivity.
        -- unfold zX1. rewrite Em. destruct (Nat.eqb_spec (S k mod 62 - 1) 0); [lia|].
           unfold zma. cbn [madder_new fst ma_X3]. f_equal. lia.
        -- unfold zY1. rewrite Em. destruct (Nat.eqb_spec (S k mod 62 - 1) 0); [lia|].
           unfold zma. cbn [madder_new fst ma_Y3]. lia.
        -- now rewrite Ew.
        -- now rewrite Ew.
        -- reflexivity.
        -- lia.
Qed.

(** *** converters *)
Definition zsg : nat := if single then 1 else 0.
Definition zc0 : nat := zm0 + 3 * nadd.
Definition nconv : nat := zsg + (nadd - 1) / 61 + 1.
(** last adder of a segment *)
Definition seg_last (q : nat) : nat := Nat.min (61 * (q + 1)) nadd - 1.
Definition zcX (t : nat) : lc := if single && (t =? 0) then zwx (W - 1) else V (zm0 + 3 * seg_last (t - zsg) + 1).
Definition zcY (t : nat) : var := if single && (t =? 0) then S (n + 2 * (W - 1)) else zm0 + 3 * seg_last (t - zsg) + 2.
Definition zpc (t : nat) : m2e := fst (m2e_new (zcX t) (zcY t) (zc0 + 2 * t)).

Lemma m2e_eq X Y m X' Y' m' e : X = X' -> Y = Y' -> m = m' -> e = m + 2 -> m2e_new X Y m = (fst (m2e_new X' Y' m'), e).
Proof. intros -> -> -> ->. reflexivity. Qed.

Lemma nadd_pos : 2 <= W -> 1 <= nadd.
Proof using All. intros H. unfold nadd. pose proof (Nat.div_mod (W - 1) 62 ltac:(lia)). lia. Qed.

Lemma zc_convs_closed : 2 <= W ->
  zc_convs (map zma (seq 0 nadd)) (map zpc (seq 0 zsg), zc0 + 2 * zsg) = Ok (map zpc (seq 0 nconv), zc0 + 2 * nconv).
Proof using All.
  intros HW. pose proof (nadd_pos HW) as HA. unfold zc_convs. rewrite map_length, seq_length.
  pose proof (Nat.div_mod (nadd - 1) 61 ltac:(lia)) as D1. pose proof (Nat.mod_upper_bound (nadd - 1) 61 ltac:(lia)) as B1.
  assert (HJ : forall j, j <= (nadd - 1) / 61 ->
    oseq (map (zc_conv (map zma (seq 0 nadd))) (seq 1 j)) (map zpc (seq 0 zsg), zc0 + 2 * zsg) = Ok (map zpc (seq 0 (zsg + j)), zc0 + 2 * (zsg + j))).
  { induction j as [|j IH]; intros Hj.
    - cbn [seq map oseq]. rewrite Nat.add_0_r. reflexivity.
    - rewrite (seq_S j 1), map_app. cbn [map Nat.add]. rewrite oseq_snoc, IH by lia. cbn [obind zc_conv].
      rewrite idx_map_seq by lia. cbn [obind].
      rewrite (m2e_eq _ _ _ (zcX (zsg + j)) (zcY (zsg + j)) (zc0 + 2 * (zsg + j)) (zc0 + 2 * (zsg + S j))); [|..|lia].
      + fold (zpc (zsg + j)). replace (zsg + S j) with (S (zsg + j)) by lia. rewrite (seq_S (zsg + j)), map_app. reflexivity.
      + unfold zcX, seg_last. replace (single && (zsg + j =? 0)) with false.
        * unfold zma. cbn [madder_new fst ma_X3]. f_equal. lia.
        * unfold zsg. destruct single; cbn [andb]; [|reflexivity]. now destruct (Nat.eqb_spec (1 + j) 0).
      + unfold zcY, seg_last. replace (single && (zsg + j =? 0)) with false.
        * unfold zma. cbn [madder_new fst ma_Y3]. lia.
        * unfold zsg. destruct single; cbn [andb]; [|reflexivity]. now destruct (Nat.eqb_spec (1 + j) 0).
      + reflexivity. }
  rewrite HJ by lia. cbn [obind].
  assert (Eb : back (map zma (seq 0 nadd)) = Ok (zma (nadd - 1))).
  { replace nadd with (S (nadd - 1)) at 1 by lia. rewrite back_map_seq. reflexivity. }
  rewrite Eb. cbn [obind]. set (J := (nadd - 1) / 61) in *.
  rewrite (m2e_eq _ _ _ (zcX (zsg + J)) (zcY (zsg + J)) (zc0 + 2 * (zsg + J)) (zc0 + 2 * nconv)); [|..].
  - fold (zpc (zsg + J)). unfold nconv. fold J. replace (zsg + J + 1) with (S (zsg + J)) by lia. rewrite (seq_S (zsg + J)), map_app. reflexivity.
  - unfold zcX, seg_last. replace (single && (zsg + J =? 0)) with false.
    + unfold zma. cbn [madder_new fst ma_X3]. f_equal. lia.
    + unfold zsg. destruct single; cbn [andb]; [|reflexivity]. now destruct (Nat.eqb_spec (1 + J) 0).
  - unfold zcY, seg_last. replace (single && (zsg + J =? 0)) with false.
    + unfold zma. cbn [madder_new fst ma_Y3]. lia.
    + unfold zsg. destruct single; cbn [andb]; [|reflexivity]. now destruct (Nat.eqb_spec (1 + J) 0).
  - reflexivity.
  - unfold nconv. fold J. lia.
Qed.

Definition ze0 : nat := zc0 + 2 * nconv.
Definition zux (t : nat) : nat := zc0 + 2 * t.
Definition zuy (t : nat) : nat := zc0 + 2 * t + 1.
Definition zA (i : nat) : nat := ze0 + 7 * (i - 1).
Definition zc_gadget : zcmul :=
  {| zc_ma := map zma (seq 0 nadd); zc_pc := map zpc (seq 0 nconv);
     zc_ea := map (chain_add zA zux zuy) (seq 1 (nconv - 1));
     zc_wx := map zwx (seq 0 W); zc_wy := map zwy (seq 0 W) |}.
Definition zc_end : nat := ze0 + 7 * (nconv - 1).

Lemma zcash_new_closed : 2 <= W -> (basepoints_required (Z.of_nat (length sc)) <= Z.of_nat (length bases))%Z ->
  zcash_new bases sc n = Ok (zc_gadget, zc_end).
Proof using All.
  intros HW Hb. unfold zcash_new.
  assert (L1 : (0 <? length sc) = true) by (apply Nat.ltb_lt; lia). rewrite L1. cbn [oassert obind].
  assert (L2 : length sc mod 3 = 0). { rewrite Hlen. rewrite Nat.mul_comm. apply Nat.mod_mul. lia. } rewrite L2. cbn [Nat.eqb oassert obind].
  apply Z.leb_le in Hb. rewrite Hb. cbn [oassert obind].
  rewrite (idx_nth bases 0 pzero) by lia. cbn [obind]. fold W.
  pose proof (zc_windows_closed W 0 (nth 0 bases pzero) ltac:(lia) ltac:(intros H; exfalso; apply H; reflexivity)) as HC.
  rewrite Nat.mul_0_r, Nat.add_0_r, Nat.add_0_l in HC. rewrite HC. cbn [obind]. fold zm0.
  rewrite (zc_steps_closed HW (W - 1) ltac:(lia)). cbn [obind]. fold nadd.
  assert (ES : (1 <=? W - 1) && sgl (W - 1) = single).
  { unfold sgl, single. rewrite Nat.eqb_refl, andb_true_r. destruct (Nat.leb_spec 1 (W - 1)); [reflexivity|lia]. }
  rewrite ES. fold zc0.
  assert (EP : (if single then [fst (m2e_new (zwx (W - 1)) (S (n + 2 * (W - 1))) zc0)] else []) = map zpc (seq 0 zsg)).
  { unfold zsg. destruct single eqn:E; [|reflexivity]. cbn [seq map]. unfold zpc, zcX, zcY. rewrite E. cbn [andb Nat.eqb]. rewrite Nat.mul_0_r, Nat.add_0_r. reflexivity. }
  rewrite EP.
  assert (EN : zc0 + (if single then 2 else 0) = zc0 + 2 * zsg) by (unfold zsg; destruct single; lia).
  rewrite EN, (zc_convs_closed HW). cbn [obind]. fold ze0.
  rewrite !map_map. change (fun x => me_X2 (zpc x)) with zux. change (fun x => me_Y2 (zpc x)) with zuy.
  rewrite chain_adders_closed. cbn [obind]. reflexivity.
Qed.

(** *** meaning *)
Variable bs : list bool.
Hypothesis Hbs : length bs = length sc.

Definition zw (i : nat) : point := pzmul (wv bs i * 16 ^ Z.of_nat (i mod 62)) (zB i).
Definition bits_ok (s : assign) : Prop := map s sc = map b2F bs.
Definition winok (s : assign) (i : nat) : Prop :=
  s (n + 2 * i) = b2F (nth (3 * i) bs false && nth (3 * i + 1) bs false) /\ s (S (n + 2 * i)) = py (to_mont (zw i)).

Lemma bit_ok s i : bits_ok s -> i < length sc -> s (nth i sc 0) = b2F (nth i bs false).
Proof using All.
  intros E Hi. unfold bits_ok in E. rewrite <- (map_nth s), (nth_indep _ _ (b2F false)) by (rewrite map_length; exact Hi).
  rewrite E. apply map_nth.
Qed.
Lemma bits_stable (D : var -> Prop) s s' : (forall v, In v sc -> D v) -> (forall v, D v -> s' v = s v) -> bits_ok s -> bits_ok s'.
Proof using All. intros HD E H. unfold bits_ok in *. rewrite <- H. apply map_ext_in. intros v Hv. auto. Qed.
Lemma sc_lt v : In v sc -> v < n.
Proof using All. rewrite Forall_forall in Hsc. apply Hsc. Qed.
Lemma nth_sc i : i < length sc -> In (nth i sc 0) sc.
Proof using All. apply nth_In. Qed.

Lemma zw_on i : i < W -> on_curve (zw i).
Proof using All. intros Hi. apply pzmul_on, zB_on; assumption. Qed.
Lemma zw_px i : i < W -> px (zw i) <> F0.
Proof using All.
  intros Hi E. unfold zw, wv, window_val in E.
  set (x0 := nth (3 * i) bs false) in *. set (x1 := nth (3 * i + 1) bs false) in *.
  set (m := (1 + N.b2n x0 + 2 * N.b2n x1)%N).
  assert (Hm : (1 <= m <= 4)%N) by (subst m; destruct x0, x1; cbn; lia).
  apply (zst_px m i Hi Hm). rewrite zst_mul by assumption.
  assert (Em : Z.of_N m = (1 + (if x0 then 1 else 0) + 2 * (if x1 then 1 else 0))%Z) by (subst m; destruct x0, x1; reflexivity).
  rewrite Em. destruct (nth (3 * i + 2) bs false); [|exact E].
  rewrite Z.mul_opp_l, pzmul_opp in E. unfold pneg in E. cbn [px] in E. set (X := px _) in *.
  transitivity (- - X)%F; [ring|]. rewrite E. ring.
Qed.

(** the table entry selected by the bits, with its sign *)
Lemma zw_entry i x0 x1 x2 : i < W -> nth (3 * i) bs false = x0 -> nth (3 * i + 1) bs false = x1 -> nth (3 * i + 2) bs false = x2 ->
  exists M, nth_error (ztab i) (sel2 x0 x1) = Some M /\ to_mont (zw i) = mkpt (px M) (signed x2 (py M)).
Proof using All.
  intros Hi E0 E1 E2. unfold zw, wv. rewrite E0, E1, E2.
  set (m := (1 + N.b2n x0 + 2 * N.b2n x1)%N).
  assert (Hm : (1 <= m <= 4)%N) by (destruct x0, x1; cbn; lia).
  assert (Hon' : on_curve (smul m (zst i))) by (apply smul_on, smul_on, zB_on; assumption).
  exists (to_mont (smul m (zst i))). split; [destruct x0, x1; reflexivity|].
  assert (Em : smul m (zst i) = pzmul (Z.of_N m * 16 ^ Z.of_nat (i mod 62)) (zB i)) by (apply zst_mul; assumption).
  destruct x2; cbn [signed].
  - replace (window_val x0 x1 true * 16 ^ Z.of_nat (i mod 62))%Z with (- (Z.of_N m * 16 ^ Z.of_nat (i mod 62)))%Z
      by (subst m; destruct x0, x1; cbn [window_val N.b2n]; lia).
    rewrite pzmul_opp, <- Em. apply to_mont_neg; [assumption|]. apply zst_px; assumption.
  - replace (window_val x0 x1 false * 16 ^ Z.of_nat (i mod 62))%Z with (Z.of_N m * 16 ^ Z.of_nat (i mod 62))%Z
      by (subst m; destruct x0, x1; cbn [window_val N.b2n]; lia).
    rewrite <- Em. destruct (to_mont (smul m (zst i))); reflexivity.
Qed.

Lemma zwx_ev s i : i < W -> bits_ok s -> winok s i -> lpt s (zwx i) (S (n + 2 * i)) = to_mont (zw i).
Proof using All.
  intros Hi Hb [H1 H2]. unfold lpt. rewrite H2. 
  destruct (zw_entry i _ _ _ Hi eq_refl eq_refl eq_refl) as (M & HM & E). 
  pose proof (bit_ok s (3 * i) Hb ltac:(lia)) as B0. pose proof (bit_ok s (3 * i + 1) Hb ltac:(lia)) as B1.
  rewrite E. apply point_eq; cbn [px py]; [|reflexivity].
  apply (nth_error_nth _ _ pzero) in HM. rewrite <- HM.
  unfold zwx. cbn [ev]. rewrite H1, B0, B1.
  destruct (nth (3 * i) bs false), (nth (3 * i + 1) bs false); cbn [b2F andb]; match goal with |- context [sel2 ?a ?b] => let k := eval compute in (sel2 a b) in change (sel2 a b) with k end; ring.
Qed.

Lemma windows_gok :
  omapM lookups_constraints (map zwy (seq 0 W)) = Ok (map lks_cs (map zwy (seq 0 W))) /\
  gok (fun v => n <= v < zm0) (fun v => In v sc) (concat (map lks_cs (map zwy (seq 0 W)))) (oseq (map lookups_witness (map zwy (seq 0 W))))
    bits_ok (fun s => forall i, i < W -> winok s i).
Proof using All.
  assert (HG : forall i, i < W -> lookups_constraints (zwy i) = Ok (lks_cs (zwy i)) /\
    gok (fun v => n + 2 * i <= v < n + 2 * i + 2) (fun v => In v [nth (3 * i) sc 0; nth (3 * i + 1) sc 0; nth (3 * i + 2) sc 0])
      (lks_cs (zwy i)) (lookups_witness (zwy i))
      (fun s => s (nth (3 * i) sc 0) = b2F (nth (3 * i) bs false) /\ s (nth (3 * i + 1) sc 0) = b2F (nth (3 * i + 1) bs false)
                /\ s (nth (3 * i + 2) sc 0) = b2F (nth (3 * i + 2) bs false))
      (fun s => winok s i)).
  { intros i Hi.
    destruct (lookups_gok (map py (ztab i)) (nth (3 * i) sc 0) (nth (3 * i + 1) sc 0) (nth (3 * i + 2) sc 0) (n + 2 * i)
       (nth (3 * i) bs false) (nth (3 * i + 1) bs false) (nth (3 * i + 2) bs false)) as [E G]; [reflexivity| | | |].
    1-3: match goal with |- nth ?k sc 0 < _ => pose proof (sc_lt _ (nth_sc k ltac:(lia))); lia end.
    split; [exact E|]. eapply gok_weaken; [exact G|reflexivity|auto|exact (k_disj G)|exact (k_stable G)|auto|].
    cbn beta. intros s _ (R1 & x & R2 & R3). split; [exact R1|].
    destruct (zw_entry i _ _ _ Hi eq_refl eq_refl eq_refl) as (M & HM & EM). rewrite EM. cbn [py].
    rewrite nth_error_map, HM in R2. cbn [option_map] in R2. injection R2 as <-. exact R3. }
  split.
  - apply omapM_all. intros a Ha. apply in_map_iff in Ha. destruct Ha as (i & <- & Hi). apply in_seq in Hi. apply HG. lia.
  - rewrite !map_map. eapply gok_weaken.
    + apply (gok_family (fun i v => n + 2 * i <= v < n + 2 * i + 2) (fun i v => In v [nth (3 * i) sc 0; nth (3 * i + 1) sc 0; nth (3 * i + 2) sc 0]) (fun v => In v sc)
        (fun i => lks_cs (zwy i)) (fun i => lookups_witness (zwy i))
        (fun i s => s (nth (3 * i) sc 0) = b2F (nth (3 * i) bs false) /\ s (nth (3 * i + 1) sc 0) = b2F (nth (3 * i + 1) bs false)
                /\ s (nth (3 * i + 2) sc 0) = b2F (nth (3 * i + 2) bs false))
        (fun i s => winok s i) bits_ok 0 W).
      * intros i Hi. apply HG. lia.
      * intros s s' E. apply (bits_stable (fun v => In v sc)); auto.
      * intros i s Hi Hs _. repeat split; apply bit_ok; auto; lia.
      * intros; lia.
      * intros i j v Hi Hj Ho Hd. assert (Hv : In v sc) by (destruct Hd as [<-|[<-|[<-|[]]]]; apply nth_sc; lia). apply sc_lt in Hv. lia.
      * intros i v Hi [<-|[<-|[<-|[]]]]; left; apply nth_sc; lia.
      * intros i v Hi Ho Hd. apply sc_lt in Hd. lia.
    + intros v. split.
      * intros (i & Hi & Ho). unfold zm0. lia.
      * intros Hv. unfold zm0 in Hv. exists ((v - n) / 2). pose proof (Nat.div_mod (v - n) 2 ltac:(lia)). pose proof (Nat.mod_upper_bound (v - n) 2 ltac:(lia)). lia.
    + auto.
    + intros v Hv Hd. apply sc_lt in Hd. lia.
    + intros s s' E. apply (bits_stable (fun v => In v sc)); auto.
    + auto.
    + intros s _ H i Hi. apply H. lia.
Qed.

(** partial sums *)
Definition zsv (q k : nat) : Z := segment_val k (skipn (186 * q) bs).
Definition zpart (k : nat) : point := pzmul (zsv (k / 61) (k mod 61 + 2)) (nth (k / 61) bases pzero).
Definition zleft (k : nat) : point := pzmul (zsv (k / 61) (k mod 61 + 1)) (nth (k / 61) bases pzero).

Lemma zwin_lt k : k < nadd -> zwin k < W.
Proof using All.
  intros Hk. unfold nadd in Hk. unfold zwin.
  pose proof (Nat.div_mod (W - 1) 62 ltac:(lia)) as D1. pose proof (Nat.mod_upper_bound (W - 1) 62 ltac:(lia)) as B1.
  pose proof (Nat.div_mod k 61 ltac:(lia)) as D2. pose proof (Nat.mod_upper_bound k 61 ltac:(lia)) as B2. nia.
Qed.
Lemma zwin_dm k : zwin k / 62 = k / 61 /\ zwin k mod 62 = k mod 61 + 1.
Proof using All.
  unfold zwin. pose proof (Nat.mod_upper_bound k 61 ltac:(lia)) as B2.
  split; [symmetry; apply (Nat.div_unique _ 62 _ (k mod 61 + 1)); lia|symmetry; apply (Nat.mod_unique _ 62 (k / 61)); lia].
Qed.
Lemma zsv_S q k : 62 * q + k < W -> zsv q (S k) = (zsv q k + 16 ^ Z.of_nat k * wv bs (62 * q + k))%Z.
Proof using All. intros H. unfold zsv. rewrite seg_S by (rewrite skipn_length; lia). now rewrite wv_skip. Qed.
Lemma base_q k : k < nadd -> zB (zwin k) = nth (k / 61) bases pzero.
Proof using All. intros _. unfold zB. now rewrite (proj1 (zwin_dm k)). Qed.
Lemma base_q_ok k : k < nadd -> on_curve (nth (k / 61) bases pzero).
Proof using All. intros H. rewrite <- base_q by assumption. pose proof (zwin_lt k H). now apply zB_on. Qed.

Lemma zpart_sum k : k < nadd -> padd (zleft k) (zw (zwin k)) = zpart k.
Proof using All.
  intros H. pose proof (base_q_ok k H) as HB. pose proof (zwin_lt k H) as Hw. unfold zleft, zw, zpart. rewrite base_q by assumption.
  rewrite <- pzmul_add by assumption. f_equal.
  replace (k mod 61 + 2) with (S (k mod 61 + 1)) by lia. rewrite zsv_S by (unfold zwin in Hw; lia).
  destruct (zwin_dm k) as [_ E]. rewrite E. unfold zwin. rewrite Nat.add_assoc. lia.
Qed.

Lemma zleft_eq k : k < nadd -> zleft k = if k mod 61 =? 0 then zw (62 * (k / 61)) else zpart (k - 1).
Proof using All.
  intros H. pose proof (zwin_lt k H) as Hw. pose proof (Nat.mod_upper_bound k 61 ltac:(lia)) as B2. unfold zwin in Hw.
  destruct (Nat.eqb_spec (k mod 61) 0) as [E|E].
  - unfold zleft, zw, zB. rewrite E. replace (62 * (k / 61)) with (k / 61 * 62) by lia. rewrite Nat.div_mul, Nat.mod_mul by lia.
    cbn [Nat.add]. rewrite zsv_S by lia. f_equal. unfold zsv. cbn [segment_val].
    change (Z.of_nat 0) with 0%Z. rewrite Z.pow_0_r. rewrite Nat.add_0_r. replace (62 * (k / 61)) with (k / 61 * 62) by lia. lia.
  - unfold zleft, zpart.
    assert (Ed : (k - 1) / 61 = k / 61 /\ (k - 1) mod 61 = k mod 61 - 1).
    { pose proof (Nat.div_mod k 61 ltac:(lia)) as D2. split; [symmetry; apply (Nat.div_unique _ 61 _ (k mod 61 - 1)); lia|symmetry; apply (Nat.mod_unique _ 61 (k / 61)); lia]. }
    destruct Ed as [-> ->]. f_equal. f_equal. lia.
Qed.

Hypothesis Hnex : non_exceptional bases bs.

Lemma znex k : k < nadd -> zleft k <> zw (zwin k) /\ zleft k <> pneg (zw (zwin k)) /\ px (zpart k) <> F0.
Proof using All.
  intros H. pose proof (zwin_lt k H) as Hw. pose proof (Nat.mod_upper_bound k 61 ltac:(lia)) as B2.
  rewrite <- zpart_sum by assumption.
  destruct (Hnex (k / 61) (k mod 61 + 1)) as (A & B & C); [lia|unfold zwin in Hw; lia|].
  replace (62 * (k / 61) + (k mod 61 + 1)) with (zwin k) in * by (unfold zwin; lia). exact (conj A (conj B C)).
Qed.

Lemma zadd_ok k : k < nadd ->
  on_curve (zleft k) /\ px (zleft k) <> F0 /\ px (zpart k) <> F0 /\ on_curve (zpart k) /\
  chord (to_mont (zleft k)) (to_mont (zw (zwin k))) = to_mont (zpart k) /\ px (to_mont (zleft k)) <> px (to_mont (zw (zwin k))).
Proof using All.
  intros H. pose proof (base_q_ok k H) as HB. pose proof (zwin_lt k H) as Hw.
  assert (O1 : on_curve (zleft k)) by now apply pzmul_on.
  assert (O2 : on_curve (zpart k)) by now apply pzmul_on.
  destruct (znex k H) as (D1 & D2 & N2).
  assert (N1 : px (zleft k) <> F0).
  { rewrite zleft_eq by assumption. destruct (k mod 61 =? 0).
    - apply zw_px. unfold zwin in Hw. lia.
    - apply znex. lia. }
  assert (NE : px (to_mont (zleft k)) <> px (to_mont (zw (zwin k)))).
  { intros E. apply to_mont_px_eq in E; auto using zw_on, zw_px. tauto. }
  repeat split; auto. rewrite <- (zpart_sum k H) in *. apply chord_to_mont; auto using zw_on, zw_px.
Qed.

Lemma zwx_all (D : var -> Prop) i : i < W -> (forall v, In v sc -> D v) -> (forall v, n <= v < zm0 -> D v) -> lc_all D (zwx i).
Proof using All.
  intros Hi H1 H2. unfold zwx. cbn [lc_all]. repeat split; try (apply H1; apply nth_sc; lia). apply H2. unfold zm0. lia.
Qed.

Lemma adders_gok :
  gok (fun v => zm0 <= v < zc0) (fun v => In v sc \/ n <= v < zm0)
    (concat (map madder_constraints (map zma (seq 0 nadd)))) (oseq (map madder_witness (map zma (seq 0 nadd))))
    (fun s => bits_ok s /\ forall i, i < W -> winok s i)
    (fun s => forall k, k < nadd -> pt s (zm0 + 3 * k + 1) (zm0 + 3 * k + 2) = to_mont (zpart k)).
Proof using All.
  rewrite !map_map.
  set (dep := fun k v => In v sc \/ n <= v < zm0 + 3 * k).
  assert (Hst : forall s s' : assign, (forall v, In v sc \/ n <= v < zm0 -> s' v = s v) ->
     bits_ok s /\ (forall i, i < W -> winok s i) -> bits_ok s' /\ (forall i, i < W -> winok s' i)).
  { intros s s' E [H1 H2]. split; [apply (bits_stable _ s s' (fun v Hv => or_introl Hv) E H1)|].
    intros i Hi. destruct (H2 i Hi) as [A B]. unfold winok, zm0 in *. rewrite !E by (right; lia). auto. }
  assert (HX1 : forall k, k < nadd -> lc_all (dep k) (zX1 k) /\ dep k (zY1 k)).
  { intros k Hk. pose proof (zwin_lt k Hk) as Hw. unfold zwin in Hw. unfold zX1, zY1.
    destruct (Nat.eqb_spec (k mod 61) 0) as [E|E].
    - split; [apply zwx_all; [lia|intros v Hv; now left|intros v Hv; right; lia]|]. right. unfold zm0. lia.
    - assert (1 <= k). { destruct k; [exfalso; apply E; reflexivity|lia]. } split; [cbn [lc_all]|]; right; unfold zm0; lia. }
  assert (HG : forall k, k < nadd -> gok (fun v => zm0 + 3 * k <= v < zm0 + 3 * k + 3) (dep k) (madder_constraints (zma k)) (madder_witness (zma k))
     (fun s => lpt s (zX1 k) (zY1 k) = to_mont (zleft k) /\ lpt s (zwx (zwin k)) (S (n + 2 * zwin k)) = to_mont (zw (zwin k)))
     (fun s => pt s (zm0 + 3 * k + 1) (zm0 + 3 * k + 2) = to_mont (zpart k))).
  { intros k Hk. pose proof (zwin_lt k Hk) as Hw. destruct (HX1 k Hk) as [L1 L2].
    assert (L3 : lc_all (dep k) (zwx (zwin k))) by (apply zwx_all; [lia|intros v Hv; now left|intros v Hv; right; lia]).
    assert (L4 : dep k (S (n + 2 * zwin k))) by (right; unfold zm0; lia).
    destruct (zadd_ok k Hk) as (_ & _ & _ & _ & EC & NE).
    eapply gok_weaken.
    - apply (madder_gok (dep k) (zX1 k) (zY1 k) (zwx (zwin k)) (S (n + 2 * zwin k)) (zm0 + 3 * k)); auto.
      intros v Hv [Hd|Hd]; [apply sc_lt in Hd; unfold zm0 in *; lia|lia].
    - reflexivity.
    - auto.
    - intros v Hv [Hd|Hd]; [apply sc_lt in Hd; unfold zm0 in *; lia|lia].
    - intros s s' E [A B]. unfold lpt in *. rewrite !(lc_ev_ext (dep k) s s'), !E by assumption. auto.
    - cbn beta. intros s [A B]. rewrite A, B. exact NE.
    - cbn beta. intros s [A B] R. unfold pt. rewrite R, A, B. exact EC. }
  eapply gok_weaken.
  - apply (gok_family (fun k v => zm0 + 3 * k <= v < zm0 + 3 * k + 3) dep (fun v => In v sc \/ n <= v < zm0)
      (fun k => madder_constraints (zma k)) (fun k => madder_witness (zma k))
      (fun k s => lpt s (zX1 k) (zY1 k) = to_mont (zleft k) /\ lpt s (zwx (zwin k)) (S (n + 2 * zwin k)) = to_mont (zw (zwin k)))
      (fun k s => pt s (zm0 + 3 * k + 1) (zm0 + 3 * k + 2) = to_mont (zpart k))
      (fun s => bits_ok s /\ forall i, i < W -> winok s i) 0 nadd).
    + intros k Hk. apply HG. lia.
    + exact Hst.
    + intros k s Hk [H1 H2] HR. assert (Hk' : k < nadd) by lia. pose proof (zwin_lt k Hk') as Hw. split; [|apply zwx_ev; auto].
      rewrite zleft_eq by assumption. unfold zX1, zY1. unfold zwin in Hw. destruct (Nat.eqb_spec (k mod 61) 0) as [E|E].
      * apply zwx_ev; auto; [lia|]. apply H2. lia.
      * assert (1 <= k). { destruct k; [exfalso; apply E; reflexivity|lia]. } apply (HR (k - 1)). lia.
    + intros; lia.
    + intros i j v Hi Hj Ho [Hd|Hd]; [apply sc_lt in Hd; unfold zm0 in *; lia|lia].
    + intros i v Hi [Hd|Hd]; [left; now left|]. destruct (Nat.lt_ge_cases v zm0) as [L|L]; [left; right; lia|right].
      exists ((v - zm0) / 3). pose proof (Nat.div_mod (v - zm0) 3 ltac:(lia)). pose proof (Nat.mod_upper_bound (v - zm0) 3 ltac:(lia)). lia.
    + intros i v Hi Ho [Hd|Hd]; [apply sc_lt in Hd; unfold zm0 in *; lia|lia].
  - intros v. unfold zc0. split.
    + intros (k & Hk & Ho). lia.
    + intros Hv. exists ((v - zm0) / 3). pose proof (Nat.div_mod (v - zm0) 3 ltac:(lia)). pose proof (Nat.mod_upper_bound (v - zm0) 3 ltac:(lia)). lia.
  - auto.
  - intros v Hv [Hd|Hd]; [apply sc_lt in Hd; unfold zm0 in *; lia|lia].
  - exact Hst.
  - auto.
  - intros s _ H k Hk. apply H. lia.
Qed.

(** converters *)
Definition zcp (t : nat) : point := if single && (t =? 0) then zw (W - 1) else zpart (seg_last (t - zsg)).

Lemma seg_last_lt q : 2 <= W -> seg_last q < nadd.
Proof using All. intros HW. pose proof (nadd_pos HW). unfold seg_last. lia. Qed.

Lemma zcp_ok t : 2 <= W -> on_curve (zcp t) /\ px (zcp t) <> F0.
Proof using All.
  intros HW. unfold zcp. destruct (single && (t =? 0)).
  - split; [apply zw_on; lia|apply zw_px; lia].
  - pose proof (seg_last_lt (t - zsg) HW) as H. destruct (zadd_ok _ H) as (_ & _ & A & B & _). auto.
Qed.

Lemma convs_gok : 2 <= W ->
  gok (fun v => zc0 <= v < ze0) (fun v => In v sc \/ n <= v < zc0)
    (concat (map m2e_constraints (map zpc (seq 0 nconv)))) (oseq (map m2e_witness (map zpc (seq 0 nconv))))
    (fun s => bits_ok s /\ (forall i, i < W -> winok s i) /\
              (forall k, k < nadd -> pt s (zm0 + 3 * k + 1) (zm0 + 3 * k + 2) = to_mont (zpart k)))
    (fun s => forall t, t < nconv -> pt s (zux t) (zuy t) = zcp t).
Proof using All.
  intros HW. rewrite !map_map.
  set (D := fun v => In v sc \/ n <= v < zc0).
  assert (Hm0 : zm0 = n + 2 * W) by reflexivity. assert (Hc0 : zc0 = zm0 + 3 * nadd) by reflexivity.
  assert (Hst : forall s s' : assign, (forall v, D v -> s' v = s v) ->
     bits_ok s /\ (forall i, i < W -> winok s i) /\ (forall k, k < nadd -> pt s (zm0 + 3 * k + 1) (zm0 + 3 * k + 2) = to_mont (zpart k)) ->
     bits_ok s' /\ (forall i, i < W -> winok s' i) /\ (forall k, k < nadd -> pt s' (zm0 + 3 * k + 1) (zm0 + 3 * k + 2) = to_mont (zpart k))).
  { intros s s' E (H1 & H2 & H3). split; [apply (bits_stable _ s s' (fun v Hv => or_introl Hv) E H1)|]. split.
    - intros i Hi. destruct (H2 i Hi) as [A B]. unfold winok in *. rewrite !E by (right; lia). auto.
    - intros k Hk. rewrite <- (H3 k Hk). apply pt_ext; apply E; right; lia. }
  assert (HX : forall t, lc_all D (zcX t) /\ D (zcY t)).
  { intros t. pose proof (seg_last_lt (t - zsg) HW) as HS. unfold zcX, zcY. destruct (single && (t =? 0)).
    - split; [apply zwx_all; [lia|intros v Hv; now left|intros v Hv; right; lia]|right; lia].
    - split; [cbn [lc_all]|]; right; lia. }
  assert (HG : forall t, gok (fun v => zc0 + 2 * t <= v < zc0 + 2 * t + 2) D (m2e_constraints (zpc t)) (m2e_witness (zpc t))
     (fun s => lpt s (zcX t) (zcY t) = to_mont (zcp t)) (fun s => pt s (zux t) (zuy t) = zcp t)).
  { intros t. destruct (HX t) as [L1 L2]. destruct (zcp_ok t HW) as [O1 O2]. destruct (to_mont_ok _ O1 O2) as (M1 & M2 & M3 & M4 & _).
    eapply gok_weaken.
    - apply (m2e_gok D (zcX t) (zcY t) (zc0 + 2 * t)); auto.
      intros v Hv [Hd|Hd]; [apply sc_lt in Hd; lia|lia].
    - reflexivity.
    - auto.
    - intros v Hv [Hd|Hd]; [apply sc_lt in Hd; lia|lia].
    - intros s s' E A. unfold lpt in *. rewrite !(lc_ev_ext D s s'), !E by assumption. exact A.
    - cbn beta. intros s A. rewrite A. split; [exact M2|]. now apply mont_px1_nz.
    - cbn beta. intros s A R. unfold pt, zux, zuy. rewrite R, A. exact M4. }
  eapply gok_weaken.
  - apply (gok_family (fun t v => zc0 + 2 * t <= v < zc0 + 2 * t + 2) (fun _ => D) D
      (fun t => m2e_constraints (zpc t)) (fun t => m2e_witness (zpc t))
      (fun t s => lpt s (zcX t) (zcY t) = to_mont (zcp t)) (fun t s => pt s (zux t) (zuy t) = zcp t)
      (fun s => bits_ok s /\ (forall i, i < W -> winok s i) /\
              (forall k, k < nadd -> pt s (zm0 + 3 * k + 1) (zm0 + 3 * k + 2) = to_mont (zpart k))) 0 nconv).
    + intros t _. apply HG.
    + exact Hst.
    + intros t s Ht (H1 & H2 & H3) _. unfold zcX, zcY, zcp. destruct (single && (t =? 0)).
      * apply zwx_ev; auto; [lia|]. apply H2. lia.
      * apply (H3 (seg_last (t - zsg))). now apply seg_last_lt.
    + intros; lia.
    + intros i j v Hi Hj Ho [Hd|Hd]; [apply sc_lt in Hd; lia|lia].
    + intros i v Hi Hd. now left.
    + intros i v Hi Ho [Hd|Hd]; [apply sc_lt in Hd; lia|lia].
  - intros v. unfold ze0. split.
    + intros (k & Hk & Ho). lia.
    + intros Hv. exists ((v - zc0) / 2). pose proof (Nat.div_mod (v - zc0) 2 ltac:(lia)). pose proof (Nat.mod_upper_bound (v - zc0) 2 ltac:(lia)). lia.
  - auto.
  - intros v Hv [Hd|Hd]; [apply sc_lt in Hd; lia|lia].
  - exact Hst.
  - auto.
  - intros s _ H t Ht. apply H. lia.
Qed.

(** the sum of the converted segment ends *)
Definition zseg (q : nat) : point := pzmul (zsv q 62) (nth q bases pzero).

Lemma nconv_eq : 2 <= W -> nconv = (W - 1) / 62 + 1.
Proof using All.
  intros HW. unfold nconv, zsg, single, nadd.
  pose proof (Nat.div_mod (W - 1) 62 ltac:(lia)) as D1. pose proof (Nat.mod_upper_bound (W - 1) 62 ltac:(lia)) as B1.
  set (Q := (W - 1) / 62) in *. set (r := (W - 1) mod 62) in *.
  destruct (Nat.eqb_spec r 0) as [E|E].
  - replace ((W - 1 - Q - 1) / 61) with (Q - 1); [lia|]. apply (Nat.div_unique _ 61 _ 60); lia.
  - replace ((W - 1 - Q - 1) / 61) with Q; [lia|]. apply (Nat.div_unique _ 61 _ (r - 1)); lia.
Qed.

Lemma zpart_seg q : 2 <= W -> q <= (nadd - 1) / 61 -> zpart (seg_last q) = zseg q.
Proof using All.
  intros HW Hq. pose proof (nadd_pos HW) as HA. unfold zseg, zpart.
  pose proof (Nat.div_mod (nadd - 1) 61 ltac:(lia)) as D1. pose proof (Nat.mod_upper_bound (nadd - 1) 61 ltac:(lia)) as B1.
  destruct (Nat.le_gt_cases (61 * (q + 1)) nadd) as [L|L].
  - assert (E : seg_last q = 61 * q + 60) by (unfold seg_last; lia).
    assert (Ed : seg_last q / 61 = q /\ seg_last q mod 61 = 60).
    { split; [symmetry; apply (Nat.div_unique _ 61 _ 60); lia|symmetry; apply (Nat.mod_unique _ 61 q); lia]. }
    destruct Ed as [-> ->]. reflexivity.
  - assert (E : seg_last q = nadd - 1) by (unfold seg_last; lia).
    assert (Eq : q = (nadd - 1) / 61) by nia.
    rewrite E, <- Eq. f_equal. unfold zsv. symmetry. apply seg_stop; [|lia].
    rewrite skipn_length, Hbs, Hlen. unfold nadd in *.
    pose proof (Nat.div_mod (W - 1) 62 ltac:(lia)) as D2. pose proof (Nat.mod_upper_bound (W - 1) 62 ltac:(lia)) as B2. nia.
Qed.

Lemma zcp_psum : 2 <= W -> psum (map zcp (seq 0 nconv)) = psum (map zseg (seq 0 nconv)).
Proof using All.
  intros HW. assert (HonS : forall q, q < nconv -> on_curve (zseg q)).
  { intros q Hq. apply pzmul_on. rewrite nconv_eq in Hq by assumption.
    apply (proj1 (Forall_forall _ _) Hon). apply nth_In.
    pose proof (Nat.div_mod (W - 1) 62 ltac:(lia)) as D2. pose proof (Nat.mod_upper_bound (W - 1) 62 ltac:(lia)) as B2. nia. }
  unfold zcp. destruct single eqn:Es; cbn [andb].
  - assert (E : nconv = S ((nadd - 1) / 61 + 1)) by (unfold nconv, zsg; rewrite Es; lia).
    rewrite E in *. set (m := (nadd - 1) / 61 + 1) in *.
    assert (ER : map zseg (seq 0 (S m)) = map zseg (seq 0 m) ++ [zseg m]) by (rewrite seq_S, map_app; reflexivity).
    rewrite ER. clear ER.
    cbn [seq map Nat.eqb psum fold_right]. fold (psum (map (fun t => if t =? 0 then zw (W - 1) else zpart (seg_last (t - zsg))) (seq 1 m))).
    rewrite <- seq_shift, map_map.
    rewrite (map_ext_in _ zseg).
    2:{ intros t Ht. apply in_seq in Ht. cbn [Nat.eqb]. replace (S t - zsg) with t by (unfold zsg; rewrite Es; lia). apply zpart_seg; [assumption|lia]. }
    rewrite psum_snoc.
    + rewrite padd_comm. f_equal. 
      assert (Em : m = (W - 1) / 62) by (pose proof (nconv_eq HW); lia).
      unfold single in Es. apply Nat.eqb_eq in Es.
      pose proof (Nat.div_mod (W - 1) 62 ltac:(lia)) as D2.
      unfold zw, zseg, zB. cbn [Nat.add]. rewrite Es, <- Em. f_equal.
      unfold zsv. rewrite (seg_stop 1 62); [|rewrite skipn_length; lia|lia].
      rewrite seg_S by (rewrite skipn_length; lia). rewrite wv_skip. cbn [segment_val].
      change (Z.of_nat 0) with 0%Z. rewrite Z.pow_0_r. replace (62 * m + 0) with (W - 1) by lia. lia.
    + apply Forall_map_seq. intros i Hi. apply HonS. lia.
    + apply HonS. lia.
  - f_equal. apply map_ext_in. intros t Ht. apply in_seq in Ht.
    replace (t - zsg) with t by (unfold zsg; rewrite Es; lia). apply zpart_seg; [assumption|].
    unfold nconv, zsg in Ht. rewrite Es in Ht. lia.
Qed.

End Zcash.

Lemma psum_zeros {A} (f : A -> point) l : (forall a, In a l -> f a = pzero) -> psum (map f l) = pzero.
Proof.
  induction l as [|a l IH]; intros H; [reflexivity|]. cbn [map psum fold_right]. fold (psum (map f l)).
  rewrite (H a (or_introl eq_refl)), IH by (intros b Hb; apply H; now right). apply padd_0_l.
Qed.

Lemma skipn_skipn' {A} a : forall b (l : list A), skipn b (skipn a l) = skipn (a + b) l.
Proof. induction a as [|a IH]; intros b l; [reflexivity|]. destruct l as [|x l]; [now rewrite !skipn_nil|]. cbn [skipn Nat.add]. apply IH. Qed.

Lemma pedersen_sum_psum bases : forall bs,
  pedersen_sum bases bs = psum (map (fun q => pzmul (segment_val 62 (skipn (186 * q) bs)) (nth q bases pzero)) (seq 0 (length bases))).
Proof.
  induction bases as [|B bases IH]; intros bs; [reflexivity|].
  cbn [pedersen_sum length seq map psum fold_right]. rewrite IH.
  rewrite <- seq_shift, map_map. unfold psum.
  rewrite (map_ext (fun q => pzmul (segment_val 62 (skipn (186 * S q) bs)) (nth (S q) (B :: bases) pzero))
                   (fun q => pzmul (segment_val 62 (skipn (186 * q) (skipn 186 bs))) (nth q bases pzero))).
  - rewrite Nat.mul_0_r. reflexivity.
  - intros q. rewrite skipn_skipn'. replace (186 + 186 * q) with (186 * S q) by lia. reflexivity.
Qed.

Lemma pedersen_sum_trunc bases bs T : Forall on_curve bases -> T <= length bases -> length bs <= 186 * T ->
  pedersen_sum bases bs = psum (map (zseg bases bs) (seq 0 T)).
Proof.
  intros HonB HT HL. rewrite pedersen_sum_psum. replace (length bases) with (T + (length bases - T)) by lia.
  rewrite seq_app, map_app. rewrite psum_app.
  - rewrite (psum_zeros _ (seq (0 + T) (length bases - T))).
    + apply padd_0_r.
    + intros q Hq. apply in_seq in Hq. rewrite skipn_all2 by lia. reflexivity.
  - apply Forall_map_seq. intros i Hi. apply pzmul_on. apply (proj1 (Forall_forall _ _) HonB), nth_In. lia.
  - apply Forall_map_seq. intros i Hi. apply pzmul_on. apply (proj1 (Forall_forall _ _) HonB), nth_In. lia.
Qed.
