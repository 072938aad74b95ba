(** The compression function of blake2b.c is that of RFC 7693. *)
From Coq Require Import List ZArith Bool Arith Lia.
From Verif Require Import Base M_Utils M_Blake2b Spec_Utils Spec_Sha256 Spec_Blake2b P_Utils P_Sha256.
Import ListNotations.
Local Open Scope nat_scope.

Definition w64 (x : Z) : Prop := (0 <= x < 2 ^ 64)%Z.
Lemma u64_lt x : w64 (u64 x). Proof. unfold w64, u64. apply Z.mod_pos_bound. reflexivity. Qed.
Lemma plus64_lt x y : w64 (plus64 x y). Proof. apply u64_lt. Qed.
Lemma lxor_lt a b k : (0 <= k -> 0 <= a < 2 ^ k -> 0 <= b < 2 ^ k -> 0 <= Z.lxor a b < 2 ^ k)%Z.
Proof.
  intros Hk Ha Hb. rewrite <- (Z.mod_small a (2 ^ k)), <- (Z.mod_small b (2 ^ k)) by lia.
  rewrite <- !Z.land_ones by lia.
  replace (Z.lxor (Z.land a (Z.ones k)) (Z.land b (Z.ones k))) with (Z.land (Z.lxor a b) (Z.ones k)).
  - rewrite Z.land_ones by lia. apply Z.mod_pos_bound. apply Z.pow_pos_nonneg; lia.
  - apply Z.bits_inj'. intros n Hn. rewrite ?Z.lxor_spec, ?Z.land_spec, ?Z.lxor_spec. destruct (Z.testbit a n), (Z.testbit b n), (Z.testbit (Z.ones k) n); reflexivity.
Qed.
Lemma lxor_w64 a b : w64 a -> w64 b -> w64 (Z.lxor a b).
Proof. apply lxor_lt. lia. Qed.
Lemma lxor_add : forall a b k, (0 <= k -> 0 <= a < 2 ^ k -> Z.lxor a (b * 2 ^ k) = a + b * 2 ^ k)%Z.
Proof.
  intros a b k Hk Ha. symmetry. apply Z.add_nocarry_lxor. apply Z.bits_inj_0. intros n. rewrite Z.land_spec. destruct (Z.ltb_spec n k) as [L|L].
  - rewrite Z.mul_pow2_bits_low by lia. apply andb_false_r.
  - rewrite <- (Z.mod_small a (2 ^ k)) by lia. rewrite Z.mod_pow2_bits_high by lia. reflexivity.
Qed.
Lemma ROTR64_eq x n : w64 x -> (0 < n < 64)%Z -> ROTR64 x n = rotr64 n x.
Proof.
  intros [H0 H1] Hn. unfold ROTR64, rotr64, u64. rewrite Z.shiftr_div_pow2, Z.shiftl_mul_pow2 by lia.
  replace (2 ^ 64)%Z with (2 ^ n * 2 ^ (64 - n))%Z by (rewrite <- Z.pow_add_r by lia; f_equal; lia).
  rewrite Z.mul_mod_distr_r by (apply Z.pow_nonzero; lia).
  apply lxor_add; [lia|]. split; [apply Z.div_pos; [lia|apply Z.pow_pos_nonneg; lia]|].
  apply Z.div_lt_upper_bound; [apply Z.pow_pos_nonneg; lia|]. rewrite <- Z.pow_add_r by lia. replace (n + (64 - n))%Z with 64%Z by lia. lia.
Qed.
Lemma rotr64_lt x n : w64 x -> (0 < n < 64)%Z -> w64 (rotr64 n x).
Proof.
  intros Hx Hn. rewrite <- ROTR64_eq by assumption. unfold ROTR64. apply lxor_w64; [|apply u64_lt].
  unfold w64 in *. rewrite Z.shiftr_div_pow2 by lia. assert (0 < 2 ^ n)%Z by (apply Z.pow_pos_nonneg; lia). split; [apply Z.div_pos; lia|].
  apply Z.div_lt_upper_bound; [lia|]. nia.
Qed.

(** ** one mixing step *)
Definition w4 (q : Z * Z * Z * Z) : Prop := let '(a, b, c, d) := q in w64 a /\ w64 b /\ w64 c /\ w64 d.
Definition mG (a b c d x y : Z) : Z * Z * Z * Z :=
  let a := add64 (add64 a b) x in
  let d := ROTR64 (Z.lxor d a) 32 in
  let c := add64 c d in
  let b := ROTR64 (Z.lxor b c) 24 in
  let a := add64 (add64 a b) y in
  let d := ROTR64 (Z.lxor d a) 16 in
  let c := add64 c d in
  let b := ROTR64 (Z.lxor b c) 63 in
  (a, b, c, d).
Lemma mG_ok a b c d x y : w64 b -> w64 d -> mG a b c d x y = rfc_G (a, b, c, d) x y /\ w4 (rfc_G (a, b, c, d) x y).
Proof.
  intros Hb Hd. unfold mG, rfc_G. change add64 with plus64.
  set (a1 := plus64 (plus64 a b) x). assert (A1 : w64 a1) by apply plus64_lt.
  assert (X1 := lxor_w64 d a1 Hd A1). rewrite (ROTR64_eq _ 32 X1) by lia.
  assert (D1 := rotr64_lt _ 32 X1 ltac:(lia)). set (d1 := rotr64 32 (Z.lxor d a1)) in *.
  set (c1 := plus64 c d1). assert (C1 : w64 c1) by apply plus64_lt.
  assert (X2 := lxor_w64 b c1 Hb C1). rewrite (ROTR64_eq _ 24 X2) by lia.
  assert (B1 := rotr64_lt _ 24 X2 ltac:(lia)). set (b1 := rotr64 24 (Z.lxor b c1)) in *.
  set (a2 := plus64 (plus64 a1 b1) y). assert (A2 : w64 a2) by apply plus64_lt.
  assert (X3 := lxor_w64 d1 a2 D1 A2). rewrite (ROTR64_eq _ 16 X3) by lia.
  assert (D2 := rotr64_lt _ 16 X3 ltac:(lia)). set (d2 := rotr64 16 (Z.lxor d1 a2)) in *.
  set (c2 := plus64 c1 d2). assert (C2 : w64 c2) by apply plus64_lt.
  assert (X4 := lxor_w64 b1 c2 B1 C2). rewrite (ROTR64_eq _ 63 X4) by lia.
  assert (B2 := rotr64_lt _ 63 X4 ltac:(lia)). set (b2 := rotr64 63 (Z.lxor b1 c2)) in *.
  split; [reflexivity|]. cbn [w4]. auto.
Qed.
Section G.
  Variables v0 v1 v2 v3 v4 v5 v6 v7 v8 v9 v10 v11 v12 v13 v14 v15 x y : Z.
  Let v := [v0; v1; v2; v3; v4; v5; v6; v7; v8; v9; v10; v11; v12; v13; v14; v15].
  Lemma Ga : B2B_G 0 4 8 12 x y v = let '(v0, v4, v8, v12) := mG v0 v4 v8 v12 x y in Ok [v0; v1; v2; v3; v4; v5; v6; v7; v8; v9; v10; v11; v12; v13; v14; v15].
  Proof. reflexivity. Qed.
  Lemma Gb : B2B_G 1 5 9 13 x y v = let '(v1, v5, v9, v13) := mG v1 v5 v9 v13 x y in Ok [v0; v1; v2; v3; v4; v5; v6; v7; v8; v9; v10; v11; v12; v13; v14; v15].
  Proof. reflexivity. Qed.
  Lemma Gc : B2B_G 2 6 10 14 x y v = let '(v2, v6, v10, v14) := mG v2 v6 v10 v14 x y in Ok [v0; v1; v2; v3; v4; v5; v6; v7; v8; v9; v10; v11; v12; v13; v14; v15].
  Proof. reflexivity. Qed.
  Lemma Gd : B2B_G 3 7 11 15 x y v = let '(v3, v7, v11, v15) := mG v3 v7 v11 v15 x y in Ok [v0; v1; v2; v3; v4; v5; v6; v7; v8; v9; v10; v11; v12; v13; v14; v15].
  Proof. reflexivity. Qed.
  Lemma Ge : B2B_G 0 5 10 15 x y v = let '(v0, v5, v10, v15) := mG v0 v5 v10 v15 x y in Ok [v0; v1; v2; v3; v4; v5; v6; v7; v8; v9; v10; v11; v12; v13; v14; v15].
  Proof. reflexivity. Qed.
  Lemma Gf : B2B_G 1 6 11 12 x y v = let '(v1, v6, v11, v12) := mG v1 v6 v11 v12 x y in Ok [v0; v1; v2; v3; v4; v5; v6; v7; v8; v9; v10; v11; v12; v13; v14; v15].
  Proof. reflexivity. Qed.
  Lemma Gg : B2B_G 2 7 8 13 x y v = let '(v2, v7, v8, v13) := mG v2 v7 v8 v13 x y in Ok [v0; v1; v2; v3; v4; v5; v6; v7; v8; v9; v10; v11; v12; v13; v14; v15].
  Proof. reflexivity. Qed.
  Lemma Gh : B2B_G 3 4 9 14 x y v = let '(v3, v4, v9, v14) := mG v3 v4 v9 v14 x y in Ok [v0; v1; v2; v3; v4; v5; v6; v7; v8; v9; v10; v11; v12; v13; v14; v15].
  Proof. reflexivity. Qed.
End G.

(** ** one round *)
Definition mround (m : list Z) (i : nat) (v : list Z) : outcome (list Z) :=
    v <- G_at m i 0 0 4 8 12 v ;;
    v <- G_at m i 2 1 5 9 13 v ;;
    v <- G_at m i 4 2 6 10 14 v ;;
    v <- G_at m i 6 3 7 11 15 v ;;
    v <- G_at m i 8 0 5 10 15 v ;;
    v <- G_at m i 10 1 6 11 12 v ;;
    v <- G_at m i 12 2 7 8 13 v ;;
    G_at m i 14 3 4 9 14 v.
Lemma len16 {A} (v : list A) : length v = 16 -> exists v0 v1 v2 v3 v4 v5 v6 v7 v8 v9 v10 v11 v12 v13 v14 v15,
  v = [v0; v1; v2; v3; v4; v5; v6; v7; v8; v9; v10; v11; v12; v13; v14; v15].
Proof.
  intros L. do 16 (destruct v as [|? v]; [discriminate L|]). destruct v; [|discriminate L]. repeat eexists.
Qed.
Lemma len8 {A} (v : list A) : length v = 8 -> exists v0 v1 v2 v3 v4 v5 v6 v7, v = [v0; v1; v2; v3; v4; v5; v6; v7].
Proof.
  intros L. do 8 (destruct v as [|? v]; [discriminate L|]). destruct v; [|discriminate L]. repeat eexists.
Qed.
Ltac winv := repeat match goal with X : Forall w64 (_ :: _) |- _ => let q := fresh "Q" in pose proof (Forall_inv X) as q; apply Forall_inv_tail in X end.
Ltac gstep L a b c d := 
  match goal with |- context [mG ?a0 ?b0 ?c0 ?d0 ?x ?y] =>
    let E := fresh "E" in let W := fresh "W" in
    destruct (mG_ok a0 b0 c0 d0 x y) as [E W]; [assumption|assumption|]; rewrite E;
    destruct (rfc_G (a0, b0, c0, d0) x y) as [[[a b] c] d]; cbn [w4] in W; destruct W as (? & ? & ? & ?); cbn beta iota delta [obind]
  end.
Lemma round_ok m i w v : length v = 16 -> Forall w64 v -> (forall k, k < 16 -> msel m i k = Ok (w k)) ->
  mround m i v = Ok (rfc_round w v) /\ length (rfc_round w v) = 16 /\ Forall w64 (rfc_round w v).
Proof.
  intros L Hv Hm. apply len16 in L as (v0 & v1 & v2 & v3 & v4 & v5 & v6 & v7 & v8 & v9 & v10 & v11 & v12 & v13 & v14 & v15 & ->). winv. clear Hv.
  unfold mround, G_at. rewrite !Hm by (apply Nat.ltb_lt; reflexivity). clear Hm.
  cbn beta iota delta [obind Nat.add rfc_round].
  rewrite Ga. gstep Ga a0 a4 a8 a12.
  rewrite Gb. gstep Gb a1 a5 a9 a13.
  rewrite Gc. gstep Gc a2 a6 a10 a14.
  rewrite Gd. gstep Gd a3 a7 a11 a15.
  rewrite Ge. gstep Ge b0 b5 b10 b15.
  rewrite Gf. gstep Gf b1 b6 b11 b12.
  rewrite Gg. gstep Gg b2 b7 b8 b13.
  rewrite Gh. gstep Gh b3 b4 b9 b14.
  split; [reflexivity|]. split; [reflexivity|]. repeat (apply Forall_cons; [assumption|]). apply Forall_nil.
Qed.

Lemma sigma_row i : i < 12 -> nth_error sigma i = Some (nth (i mod 10) rfc_SIGMA []).
Proof. intros H. do 12 (destruct i as [|i]; [reflexivity|]). lia. Qed.
Lemma sigma_ok : forallb (fun r => (length r =? 16) && forallb (fun s => s <? 16) r) rfc_SIGMA = true.
Proof. reflexivity. Qed.
Lemma msel_ok m i k : length m = 16 -> i < 12 -> k < 16 -> msel m i k = Ok (rfc_word m i k).
Proof.
  intros Lm Hi Hk. unfold msel, rfc_word. unfold idx at 1. rewrite (sigma_row i Hi). cbn [obind].
  assert (R : In (nth (i mod 10) rfc_SIGMA []) rfc_SIGMA) by (apply nth_In; apply Nat.mod_upper_bound; discriminate).
  assert (S := sigma_ok). rewrite forallb_forall in S. specialize (S _ R). apply andb_true_iff in S as [S1 S2].
  apply Nat.eqb_eq in S1. rewrite (idx_nth _ k 0) by lia. cbn [obind]. apply idx_nth.
  rewrite forallb_forall in S2. rewrite Lm. apply Nat.ltb_lt. apply S2. apply nth_In. lia.
Qed.
Lemma rounds_ok m v : length m = 16 -> length v = 16 -> Forall w64 v ->
  ofor 0 12 (mround m) v = Ok (rfc_rounds m 12 v) /\ length (rfc_rounds m 12 v) = 16 /\ Forall w64 (rfc_rounds m 12 v).
Proof.
  intros Lm Lv Hv. destruct (P_Sha256.ofor_inv (fun i s => s = rfc_rounds m i v /\ length s = 16 /\ Forall w64 s) (mround m) 12 0 v) as (s & E & -> & L & F).
  - auto.
  - intros i s Hi (-> & L & F). destruct (round_ok m i (rfc_word m i) (rfc_rounds m i v) L F) as (E & L' & F').
    { intros k Hk. apply msel_ok; [assumption|lia|assumption]. }
    exists (rfc_round (rfc_word m i) (rfc_rounds m i v)). split; [exact E|]. split; [|auto].
    unfold rfc_rounds. rewrite seq_S, fold_left_app. reflexivity.
  - auto.
Qed.

(** ** message words *)
Lemma get64_val a0 a1 a2 a3 a4 a5 a6 a7 : byte a0 -> byte a1 -> byte a2 -> byte a3 -> byte a4 -> byte a5 -> byte a6 -> byte a7 ->
  (Z.lxor (Z.lxor (Z.lxor (Z.lxor (Z.lxor (Z.lxor (Z.lxor a0 (Z.shiftl a1 8)) (Z.shiftl a2 16)) (Z.shiftl a3 24))
        (Z.shiftl a4 32)) (Z.shiftl a5 40)) (Z.shiftl a6 48)) (Z.shiftl a7 56) = le_val [a0; a1; a2; a3; a4; a5; a6; a7])%Z.
Proof.
  unfold byte. intros. rewrite !Z.shiftl_mul_pow2 by lia.
  rewrite (lxor_add a0 a1 8) by lia. rewrite (lxor_add _ a2 16) by lia. rewrite (lxor_add _ a3 24) by lia. rewrite (lxor_add _ a4 32) by lia.
  rewrite (lxor_add _ a5 40) by lia. rewrite (lxor_add _ a6 48) by lia. rewrite (lxor_add _ a7 56) by lia. cbn [le_val]. lia.
Qed.
Lemma words_nth {A} (d : list A) n w : forall i l, i < n -> nth i (words n w l) d = firstn w (skipn (i * w) l).
Proof.
  induction n as [|n IH]; intros i l H; [lia|]. destruct i as [|i]; [reflexivity|]. cbn [words nth]. rewrite IH by lia. rewrite skipn_skipn. do 2 f_equal. lia.
Qed.
Lemma get64_ok b i : length b = 128 -> Forall byte b -> i < 16 -> B2B_GET64 b (8 * i) = Ok (nth i (rfc_words b) 0%Z).
Proof.
  intros L B H. assert (E : nth i (rfc_words b) 0%Z = le_val (firstn 8 (skipn (i * 8) b))).
  { unfold rfc_words. change 0%Z with (le_val []). rewrite map_nth, words_nth by exact H. reflexivity. }
  rewrite E. assert (S : skipn (i * 8) b = map (fun k => nth (8 * i + k) b 0%Z) (seq 0 8) ++ skipn (8 * i + 8) b).
  { rewrite <- (firstn_skipn 8 (skipn (i * 8) b)) at 1. rewrite skipn_skipn. f_equal; [|f_equal; lia].
    apply nth_ext with (d := 0%Z) (d' := 0%Z); rewrite firstn_length, skipn_length; [rewrite map_length, seq_length; lia|].
    intros n Hn. assert (n < 8) by lia. rewrite (nth_indep (map (fun k => nth (8 * i + k) b 0%Z) (seq 0 8)) 0%Z (nth (8 * i + 0) b 0%Z)) by (rewrite map_length, seq_length; lia).
    rewrite (map_nth (fun k => nth (8 * i + k) b 0%Z)), seq_nth by lia. cbn [Nat.add].
    transitivity (nth n (skipn (i * 8) b) 0%Z).
    - rewrite <- (firstn_skipn 8 (skipn (i * 8) b)) at 2. rewrite app_nth1; [reflexivity|]. rewrite firstn_length, skipn_length. lia.
    - rewrite <- (firstn_skipn (i * 8) b) at 2. rewrite app_nth2; rewrite firstn_length, Nat.min_l by lia; [f_equal; lia|lia]. }
  rewrite S. rewrite firstn_app, map_length, seq_length, Nat.sub_diag, firstn_O, app_nil_r, firstn_all2 by (rewrite map_length, seq_length; lia).
  unfold B2B_GET64. rewrite !(idx_nth b _ 0%Z) by lia. cbn [obind]. rewrite get64_val by (apply (Forall_nth0 byte); [exact B|lia]).
  cbn [seq map]. rewrite Nat.add_0_r. reflexivity.
Qed.
Lemma rfc_words_length b : length (rfc_words b) = 16.
Proof. unfold rfc_words. rewrite map_length. apply words_length. Qed.
Lemma message_ok b : length b = 128 -> Forall byte b ->
  ofor 0 16 (fun i m => x <- B2B_GET64 b (8 * i) ;; wr m i x) (repeat 0%Z 16) = Ok (rfc_words b).
Proof.
  intros L B. rewrite (ofor_ext 0 16 _ (fun j res => wr res (0 + j) (nth j (rfc_words b) 0%Z))).
  - assert (OF := ofor_fill (fun j => nth j (rfc_words b) 0%Z) 0 16 [] (repeat 0%Z 16) [] eq_refl eq_refl). rewrite app_nil_l, app_nil_r in OF. rewrite OF. rewrite app_nil_r.
    destruct (len16 _ (rfc_words_length b)) as (v0 & v1 & v2 & v3 & v4 & v5 & v6 & v7 & v8 & v9 & v10 & v11 & v12 & v13 & v14 & v15 & ->). reflexivity.
  - intros i s Hi. rewrite get64_ok by (assumption || lia). reflexivity.
Qed.

(** ** the compression function *)
Lemma IV_eq : rfc_IV = blake2b_iv.
Proof. vm_compute. reflexivity. Qed.
Definition hval64 (h : list Z) : Prop := length h = 8 /\ Forall w64 h.
Lemma iv_w64 : Forall w64 blake2b_iv.
Proof. repeat (apply Forall_cons; [split; [apply Z.leb_le|apply Z.ltb_lt]; reflexivity|]). apply Forall_nil. Qed.
Lemma compress64_ok ctx last : length (bc_b ctx) = 128 -> Forall byte (bc_b ctx) -> hval64 (bc_h ctx) -> w64 (bc_t0 ctx) -> w64 (bc_t1 ctx) ->
  let h' := rfc_F (bc_h ctx) (rfc_words (bc_b ctx)) (bc_t0 ctx + 2 ^ 64 * bc_t1 ctx) last in
  blake2b_compress ctx last = Ok (BCtx (bc_b ctx) h' (bc_t0 ctx) (bc_t1 ctx) (bc_c ctx) (bc_outlen ctx)) /\ hval64 h'.
Proof.
  destruct ctx as [b h t0 t1 c ol]. cbn [bc_b bc_h bc_t0 bc_t1 bc_c bc_outlen]. intros Lb Bb [Lh Hh] T0 T1.
  unfold rfc_F. rewrite IV_eq. assert (IVw := iv_w64).
  replace ((t0 + 2 ^ 64 * t1) mod 2 ^ 64)%Z with t0 by (rewrite Z.mul_comm, Z_mod_plus_full, Z.mod_small; [reflexivity|exact T0]).
  replace ((t0 + 2 ^ 64 * t1) / 2 ^ 64 mod 2 ^ 64)%Z with t1
    by (rewrite Z.mul_comm, Z.div_add, Z.div_small, Z.add_0_l, Z.mod_small; [reflexivity|exact T1|exact T0|discriminate]).
  cbv beta zeta.
  set (f6 := if last then (2 ^ 64 - 1 - nth 6 blake2b_iv 0)%Z else nth 6 blake2b_iv 0%Z).
  set (v0 := h ++ [nth 0 blake2b_iv 0%Z; nth 1 blake2b_iv 0%Z; nth 2 blake2b_iv 0%Z; nth 3 blake2b_iv 0%Z; Z.lxor (nth 4 blake2b_iv 0%Z) t0;
    Z.lxor (nth 5 blake2b_iv 0%Z) t1; f6; nth 7 blake2b_iv 0%Z]).
  assert (Lv : length v0 = 16) by (unfold v0; rewrite app_length, Lh; reflexivity).
  assert (Wv : Forall w64 v0).
  { unfold v0. apply Forall_app. split; [exact Hh|]. repeat (apply Forall_cons; [try (apply (Forall_nth0 w64); [exact IVw|apply Nat.ltb_lt; reflexivity])|]); try apply Forall_nil.
    - apply lxor_w64; [|exact T0]. apply (Forall_nth0 w64); [exact IVw|apply Nat.ltb_lt; reflexivity].
    - apply lxor_w64; [|exact T1]. apply (Forall_nth0 w64); [exact IVw|apply Nat.ltb_lt; reflexivity].
    - unfold f6. destruct last; split; try (apply Z.leb_le; reflexivity); apply Z.ltb_lt; reflexivity. }
  destruct (rounds_ok (rfc_words b) v0 (rfc_words_length b) Lv Wv) as (ER & LR & WR).
  assert (EV : (v <- ofor 0 8 (fun i v => h <- idx h i ;; v <- wr v i h ;; iv <- idx blake2b_iv i ;; wr v (i + 8) iv) (repeat 0%Z 16) ;;
    v12 <- idx v 12 ;; v <- wr v 12 (Z.lxor v12 t0) ;; v13 <- idx v 13 ;; v <- wr v 13 (Z.lxor v13 t1) ;;
    (if last then v14 <- idx v 14 ;; wr v 14 (u64 (Z.lnot v14)) else Ok v)) = Ok v0).
  { unfold v0, f6. destruct (len8 _ Lh) as (h0 & h1 & h2 & h3 & h4 & h5 & h6 & h7 & ->). destruct last; reflexivity. }
  unfold blake2b_compress. cbn [bc_b bc_h bc_t0 bc_t1 bc_c bc_outlen].
  set (rest := fun v => m <- ofor 0 16 (fun i m => x <- B2B_GET64 b (8 * i) ;; wr m i x) (repeat 0%Z 16) ;;
    v <- ofor 0 12 (mround m) v ;;
    h <- ofor 0 8 (fun i h => x <- idx h i ;; y <- idx v i ;; z <- idx v (i + 8) ;; wr h i (Z.lxor x (Z.lxor y z))) h ;;
    Ok (BCtx b h t0 t1 c ol)).
  assert (ERest : rest v0 = Ok (BCtx b (map (fun k => Z.lxor (Z.lxor (nth k h 0%Z) (nth k (rfc_rounds (rfc_words b) 12 v0) 0%Z)) (nth (k + 8) (rfc_rounds (rfc_words b) 12 v0) 0%Z)) (seq 0 8)) t0 t1 c ol)).
  { unfold rest. rewrite (message_ok b Lb Bb). cbn [obind]. rewrite ER. cbn [obind]. clearbody v0. set (r := rfc_rounds _ _ _) in *. clearbody r.
    destruct (len16 _ LR) as (r0 & r1 & r2 & r3 & r4 & r5 & r6 & r7 & r8 & r9 & r10 & r11 & r12 & r13 & r14 & r15 & ->).
    destruct (len8 _ Lh) as (h0 & h1 & h2 & h3 & h4 & h5 & h6 & h7 & ->).
    cbn [seq map nth Nat.add]. rewrite !Z.lxor_assoc. reflexivity. }
  split.
  - rewrite <- ERest. revert EV. 
    generalize (ofor 0 8 (fun i v => h <- idx h i ;; v <- wr v i h ;; iv <- idx blake2b_iv i ;; wr v (i + 8) iv) (repeat 0%Z 16)).
    intros o EV. destruct o as [v| | | |]; cbn [obind] in EV |- *; try discriminate EV.
    destruct (idx v 12) as [v12| | | |]; cbn [obind] in EV |- *; try discriminate EV.
    destruct (wr v 12 (Z.lxor v12 t0)) as [va| | | |]; cbn [obind] in EV |- *; try discriminate EV.
    destruct (idx va 13) as [v13| | | |]; cbn [obind] in EV |- *; try discriminate EV.
    destruct (wr va 13 (Z.lxor v13 t1)) as [vb| | | |]; cbn [obind] in EV |- *; try discriminate EV.
    rewrite EV. reflexivity.
  - split; [reflexivity|]. apply Forall_forall. intros x Hx. apply in_map_iff in Hx as (k & <- & Hk). apply in_seq in Hk.
    apply lxor_w64; [apply lxor_w64|]; apply (Forall_nth0 w64); try assumption; lia.
Qed.
