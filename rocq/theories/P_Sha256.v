(** The compression function of sha256.c is that of FIPS 180-4. *)
From Coq Require Import List ZArith Bool Arith Lia.
From Verif Require Import Base M_Utils M_Sha256 Spec_Utils Spec_Sha256.
Import ListNotations.
Local Open Scope nat_scope.

Definition w32 (x : Z) : Prop := (0 <= x < 2 ^ 32)%Z.

Lemma lor_add : forall a b k, (0 <= k -> 0 <= b < 2 ^ k -> Z.lor (a * 2 ^ k) b = a * 2 ^ k + b)%Z.
Proof.
  intros a b k Hk Hb. assert (E : Z.land (a * 2 ^ k) b = 0%Z).
  { apply Z.bits_inj_0. intros n. rewrite Z.land_spec. destruct (Z.ltb_spec n k) as [L|L].
    - rewrite Z.mul_pow2_bits_low by lia. reflexivity.
    - rewrite <- (Z.mod_small b (2 ^ k)) by lia. rewrite Z.mod_pow2_bits_high by lia. apply andb_false_r. }
  rewrite <- Z.lxor_lor by exact E. symmetry. apply Z.add_nocarry_lxor. exact E.
Qed.
Lemma u32_lt x : w32 (u32 x). Proof. unfold w32, u32. apply Z.mod_pos_bound. reflexivity. Qed.
Lemma u32_id x : w32 x -> u32 x = x. Proof. apply Z.mod_small. Qed.
Lemma add32_lt x y : w32 (add32 x y). Proof. apply u32_lt. Qed.

Lemma ROTATE_rotr x n : w32 x -> (0 < n < 32)%Z -> ROTATE x n = rotr (32 - n) x.
Proof.
  intros [H0 H1] Hn. unfold ROTATE, rotr, u32. replace 0xffffffff%Z with (Z.ones 32) by reflexivity.
  rewrite Z.land_ones by lia. rewrite (Z.mod_small x) by lia.
  rewrite Z.shiftr_div_pow2, Z.shiftl_mul_pow2 by lia.
  replace (2 ^ 32)%Z with (2 ^ (32 - n) * 2 ^ n)%Z by (rewrite <- Z.pow_add_r by lia; f_equal; lia).
  rewrite Z.mul_mod_distr_r by (apply Z.pow_nonzero; lia).
  replace (32 - (32 - n))%Z with n by lia. rewrite lor_add; [lia|lia|].
  split; [apply Z.div_pos; [lia|apply Z.pow_pos_nonneg; lia]|].
  apply Z.div_lt_upper_bound; [apply Z.pow_pos_nonneg; lia|]. rewrite <- Z.pow_add_r by lia. replace (32 - n + n)%Z with 32%Z by lia. lia.
Qed.
Lemma Sigma0_eq x : w32 x -> Sigma0 x = bsig0 x.
Proof. intros H. unfold Sigma0, bsig0. rewrite !ROTATE_rotr by (assumption || lia). reflexivity. Qed.
Lemma Sigma1_eq x : w32 x -> Sigma1 x = bsig1 x.
Proof. intros H. unfold Sigma1, bsig1. rewrite !ROTATE_rotr by (assumption || lia). reflexivity. Qed.
Lemma sigma0_eq x : w32 x -> sigma0 x = ssig0 x.
Proof. intros H. unfold sigma0, ssig0, shr. rewrite !ROTATE_rotr by (assumption || lia). rewrite Z.shiftr_div_pow2 by lia. reflexivity. Qed.
Lemma sigma1_eq x : w32 x -> sigma1 x = ssig1 x.
Proof. intros H. unfold sigma1, ssig1, shr. rewrite !ROTATE_rotr by (assumption || lia). rewrite Z.shiftr_div_pow2 by lia. reflexivity. Qed.
Lemma Ch_eq x y z : w32 z -> Ch x y z = fch x y z.
Proof.
  intros H. unfold Ch, fch, u32. f_equal. rewrite <- Z.land_ones by lia.
  rewrite <- Z.land_assoc, (Z.land_comm (Z.ones 32)), Z.land_ones, Z.mod_small by (assumption || lia).
  rewrite Z.land_comm, Z.ldiff_land. reflexivity.
Qed.
Lemma K_eq : fips_K = K256.
Proof. vm_compute. reflexivity. Qed.

(** ** lists *)
Lemma wr_length {A} (l l' : list A) i x : wr l i x = Ok l' -> length l' = length l.
Proof.
  unfold wr. destruct (Nat.ltb_spec i (length l)) as [L|L]; [|discriminate]. intros E.
  assert (E' : l' = firstn i l ++ x :: skipn (S i) l) by (symmetry; exact (f_equal (fun o => match o with Ok a => a | _ => l' end) E)).
  rewrite E', app_length, firstn_length. cbn [length]. rewrite skipn_length. lia.
Qed.
Lemma wr_ok {A} (l : list A) i x : i < length l -> wr l i x = Ok (firstn i l ++ x :: skipn (S i) l).
Proof. intros H. unfold wr. apply Nat.ltb_lt in H. rewrite H. reflexivity. Qed.
Lemma nth_set {A} (l : list A) i x j d : i < length l -> nth j (firstn i l ++ x :: skipn (S i) l) d = if j =? i then x else nth j l d.
Proof.
  intros H. assert (Lf : length (firstn i l) = i) by (rewrite firstn_length; lia).
  destruct (Nat.eqb_spec j i) as [->|N].
  - rewrite app_nth2 by lia. rewrite Lf, Nat.sub_diag. reflexivity.
  - destruct (le_lt_dec i j) as [G|G].
    + rewrite app_nth2 by lia. rewrite Lf. destruct (j - i) as [|k] eqn:E; [lia|]. cbn [nth].
      rewrite <- (firstn_skipn (S i) l) at 2. rewrite app_nth2 by (rewrite firstn_length; lia). rewrite firstn_length. f_equal. lia.
    + rewrite app_nth1 by lia. rewrite <- (firstn_skipn i l) at 2. rewrite app_nth1 by lia. reflexivity.
Qed.
Lemma idx_nth {A} (l : list A) i d : i < length l -> idx l i = Ok (nth i l d).
Proof. intros H. unfold idx. rewrite (nth_error_nth' l d H). reflexivity. Qed.
Lemma ofor_inv {S} (P : nat -> S -> Prop) body n : forall lo s, P lo s ->
  (forall i s, lo <= i < lo + n -> P i s -> exists s', body i s = Ok s' /\ P (Datatypes.S i) s') ->
  exists s', ofor lo n body s = Ok s' /\ P (lo + n) s'.
Proof.
  induction n as [|n IH]; intros lo s H0 Hs.
  - exists s. rewrite Nat.add_0_r. split; [reflexivity|exact H0].
  - destruct (Hs lo s) as [s1 [E1 P1]]; [lia|exact H0|]. cbn [ofor]. rewrite E1. cbn [obind].
    replace (lo + Datatypes.S n) with (Datatypes.S lo + n) by lia. apply IH; [exact P1|]. intros; apply Hs; [lia|assumption].
Qed.

(** ** one round *)
Definition regs (i : nat) (v : list Z) : list Z := map (fun k => nth (reg k i) v 0%Z) (seq 0 8).

Lemma reg_mod k i : reg k i = (k + 7 * (i mod 8)) mod 8.
Proof. unfold reg. rewrite (Nat.div_mod i 8) at 1 by lia. replace (k + 7 * (8 * (i / 8) + i mod 8)) with (k + 7 * (i mod 8) + (7 * (i / 8)) * 8) by lia. apply Nat.mod_add. lia. Qed.
Lemma reg_S k i : reg k (S i) = (k + 7 + 7 * (i mod 8)) mod 8.
Proof. unfold reg. rewrite (Nat.div_mod i 8) at 1 by lia. replace (k + 7 * S (8 * (i / 8) + i mod 8)) with (k + 7 + 7 * (i mod 8) + (7 * (i / 8)) * 8) by lia. apply Nat.mod_add. lia. Qed.


Lemma round_ok : forall i T1 v, length v = 8 -> Forall w32 v -> i < 64 ->
  exists v', ROUND_00_15 i T1 v = Ok v' /\ length v' = 8 /\ Forall w32 v' /\ regs (S i) v' = fips_step (regs i v) (nth i K256 0%Z, T1).
Proof.
  intros i T1 v Lv Hv Hi. unfold ROUND_00_15, regs. cbn [map seq]. rewrite !reg_S, !reg_mod.
  rewrite (idx_nth K256 i 0%Z) by exact Hi. set (k := nth i K256 0%Z). clearbody k.
  assert (Hr : i mod 8 < 8) by (apply Nat.mod_upper_bound; lia). set (r := i mod 8) in *. clearbody r. clear i Hi.
  destruct v as [|a [|b [|c [|d [|e [|f [|g [|h [|z v]]]]]]]]]; try discriminate Lv. clear Lv.
  repeat match goal with X : Forall w32 (_ :: _) |- _ => let q := fresh "Q" in pose proof (Forall_inv X) as q; apply Forall_inv_tail in X end.
  assert (Main : forall a b c d e f g h, w32 a -> w32 e -> w32 g ->
    add32 (add32 (Sigma0 a) (Maj a b c)) (add32 T1 (add32 (add32 (add32 h (Sigma1 e)) (Ch e f g)) k)) =
    plus32 (plus32 (plus32 (plus32 (plus32 h (bsig1 e)) (fch e f g)) k) T1) (plus32 (bsig0 a) (fmaj a b c)) /\
    add32 d (add32 T1 (add32 (add32 (add32 h (Sigma1 e)) (Ch e f g)) k)) =
    plus32 d (plus32 (plus32 (plus32 (plus32 h (bsig1 e)) (fch e f g)) k) T1)).
  { clear. intros. rewrite Sigma0_eq, Sigma1_eq, Ch_eq by assumption. unfold Maj, fmaj, add32, plus32, u32.
    rewrite (Z.add_comm T1). split; [apply f_equal2; [apply Z.add_comm|reflexivity]|reflexivity]. }
  do 8 (destruct r as [|r]; [cbn [Nat.modulo Nat.divmod Nat.add Nat.mul Nat.sub fst snd idx nth_error obind nth wr length Nat.ltb Nat.leb firstn skipn app];
    eexists; split; [reflexivity|]; split; [reflexivity|]; split;
    [repeat (apply Forall_cons; [first [assumption | apply add32_lt]|]); apply Forall_nil|];
    cbn [nth fips_step fst snd]; match goal with |- [?x; ?a; ?b; ?c; ?y; ?e; ?f; ?g] = [?x'; _; _; _; plus32 ?d (plus32 (plus32 (plus32 (plus32 ?h _) _) _) _); _; _; _] =>
      destruct (Main a b c d e f g h) as [M1 M2]; [assumption|assumption|assumption|]; rewrite M1, M2; reflexivity end|]).
  lia.
Qed.

(** ** the message schedule *)
Definition sched_word (w2 w7 w15 w16 : Z) : Z := plus32 (plus32 (plus32 (ssig1 w2) w7) (ssig0 w15)) w16.
Lemma schedule_length n : forall W, length (schedule n W) = n + length W.
Proof. induction n as [|n IH]; intros W; [reflexivity|]. cbn [schedule]. rewrite IH, app_length. cbn [length]. lia. Qed.
Lemma schedule_prefix n : forall W i, i < length W -> nth i (schedule n W) 0%Z = nth i W 0%Z.
Proof. induction n as [|n IH]; intros W i H; [reflexivity|]. cbn [schedule]. rewrite IH by (rewrite app_length; lia). apply app_nth1. exact H. Qed.
Lemma schedule_rec n : forall W t, 16 <= length W -> length W <= t < n + length W ->
  nth t (schedule n W) 0%Z = sched_word (nth (t - 2) (schedule n W) 0%Z) (nth (t - 7) (schedule n W) 0%Z)
    (nth (t - 15) (schedule n W) 0%Z) (nth (t - 16) (schedule n W) 0%Z).
Proof.
  induction n as [|n IH]; intros W t L Ht; [lia|]. cbn [schedule].
  set (W' := W ++ _). assert (LW' : length W' = S (length W)) by (unfold W'; rewrite app_length; cbn [length]; lia).
  destruct (Nat.eq_dec t (length W)) as [E|N].
  - subst t. rewrite !schedule_prefix by lia. unfold W' at 1. rewrite app_nth2, Nat.sub_diag by lia. cbn [nth].
    unfold sched_word, W'. rewrite !app_nth1 by lia. reflexivity.
  - apply IH; lia.
Qed.
Lemma plus32_lt x y : w32 (plus32 x y). Proof. apply u32_lt. Qed.
Lemma schedule_w32 n : forall W, Forall w32 W -> Forall w32 (schedule n W).
Proof. induction n as [|n IH]; intros W H; [exact H|]. cbn [schedule]. apply IH. apply Forall_app. split; [exact H|]. apply Forall_cons; [apply plus32_lt|apply Forall_nil]. Qed.
Lemma Forall_nth0 (P : Z -> Prop) l i : Forall P l -> i < length l -> P (nth i l 0%Z).
Proof. intros H Hi. rewrite Forall_forall in H. apply H. apply nth_In. exact Hi. Qed.

Lemma sched_code a b c d : w32 a -> w32 b -> add32 c (add32 (add32 (sigma0 b) (sigma1 a)) d) = sched_word a d b c.
Proof.
  intros Ha Hb. rewrite sigma0_eq, sigma1_eq by assumption. unfold sched_word, add32, plus32, u32.
  rewrite ?Z.add_mod_idemp_l, ?Z.add_mod_idemp_r by (intro; discriminate).
  rewrite <- ?Z.add_assoc. rewrite (Z.add_mod_idemp_l _ (_ + c)) by (intro; discriminate). f_equal. lia.
Qed.
Lemma firstn_S_nth {A} (l : list A) t d : t < length l -> firstn (S t) l = firstn t l ++ [nth t l d].
Proof.
  revert t. induction l as [|x l IH]; intros t H; [cbn in H; lia|]. destruct t as [|t]; [reflexivity|].
  cbn [firstn nth app]. rewrite <- IH by (cbn in H; lia). reflexivity.
Qed.
Lemma regs_full v i : length v = 8 -> i mod 8 = 0 -> regs i v = v.
Proof.
  intros L E. unfold regs. cbn [map seq]. rewrite !reg_mod, E.
  destruct v as [|a [|b [|c [|d [|e [|f [|g [|h [|z v]]]]]]]]]; try discriminate L. reflexivity.
Qed.
Lemma land15 n : Nat.land n 15 = n mod 16.
Proof. change 15 with (Nat.ones 4). rewrite Nat.land_ones. reflexivity. Qed.
Lemma land3 n : Nat.land n 3 = n mod 4.
Proof. change 3 with (Nat.ones 2). rewrite Nat.land_ones. reflexivity. Qed.

Lemma compress_ok : forall H M, length H = 8 -> length M = 16 -> Forall w32 H -> Forall w32 M ->
  sha256_words H M = Ok (fips_compress H M) /\ length (fips_compress H M) = 8 /\ Forall w32 (fips_compress H M).
Proof.
  intros H M LH LM WH WM. set (W := schedule 48 M).
  assert (LW : length W = 64) by (unfold W; rewrite schedule_length, LM; reflexivity).
  assert (WW : Forall w32 W) by (apply schedule_w32; exact WM).
  set (KW := combine fips_K W).
  assert (LKW : length KW = 64) by (unfold KW; rewrite combine_length, LW, K_eq; reflexivity).
  assert (NKW : forall t, t < 64 -> nth t KW (0%Z, 0%Z) = (nth t K256 0%Z, nth t W 0%Z)).
  { intros t Ht. unfold KW. rewrite combine_nth by (rewrite LW, K_eq; reflexivity). rewrite K_eq. reflexivity. }
  assert (Fold : forall t v v', t < 64 -> regs t v = fold_left fips_step (firstn t KW) H ->
     regs (S t) v' = fips_step (regs t v) (nth t K256 0%Z, nth t W 0%Z) -> regs (S t) v' = fold_left fips_step (firstn (S t) KW) H).
  { intros t v v' Ht E1 E2. rewrite (firstn_S_nth KW t (0%Z, 0%Z)) by lia. rewrite fold_left_app. cbn [fold_left].
    rewrite <- E1, NKW by exact Ht. exact E2. }
  unfold sha256_words.
  destruct (ofor_inv (fun t st => length (fst st) = 16 /\ length (snd st) = 8 /\ Forall w32 (snd st) /\
      regs t (snd st) = fold_left fips_step (firstn t KW) H /\ forall s, s < t -> nth s (fst st) 0%Z = nth s W 0%Z)
    (fun i st => let '(X, v) := st in w <- idx M i ;; X <- wr X i w ;; v <- ROUND_00_15 i w v ;; Ok (X, v))
    16 0 (repeat 0%Z 16, H)) as [[X v] [E1 [LX [Lv [Wv [Rv HX]]]]]].
  { cbn [fst snd]. split; [reflexivity|]. split; [exact LH|]. split; [exact WH|]. split; [apply regs_full; [exact LH|reflexivity]|]. intros s Hs; lia. }
  { intros i [X v] Hi [LX [Lv [Wv [Rv HX]]]]. cbn [fst snd] in *.
    rewrite (idx_nth M i 0%Z) by lia. cbn [obind]. rewrite wr_ok by lia. cbn [obind].
    destruct (round_ok i (nth i M 0%Z) v Lv Wv) as [v' [Ev [Lv' [Wv' Rv']]]]; [lia|]. rewrite Ev. cbn [obind].
    eexists. split; [reflexivity|]. cbn [fst snd].
    assert (EW : nth i W 0%Z = nth i M 0%Z) by (apply schedule_prefix; lia).
    split; [rewrite app_length, firstn_length; cbn [length]; rewrite skipn_length; lia|].
    split; [exact Lv'|]. split; [exact Wv'|]. split.
    - apply (Fold i v); [lia|exact Rv|]. rewrite EW. exact Rv'.
    - intros s Hs. rewrite nth_set by lia. destruct (Nat.eqb_spec s i) as [->|N]; [symmetry; exact EW|]. apply HX. lia. }
  cbn [fst snd] in *. rewrite E1. cbn [obind].
  destruct (ofor_inv (fun t st => length (fst st) = 16 /\ length (snd st) = 8 /\ Forall w32 (snd st) /\
      regs t (snd st) = fold_left fips_step (firstn t KW) H /\ forall s, t - 16 <= s < t -> nth (s mod 16) (fst st) 0%Z = nth s W 0%Z)
    ROUND_16_63 48 16 (X, v)) as [[X2 v2] [E2 [LX2 [Lv2 [Wv2 [Rv2 HX2]]]]]].
  { cbn [fst snd]. repeat (split; [assumption|]). intros s Hs. rewrite Nat.mod_small by lia. apply HX. lia. }
  { clear E1 X v LX Lv Wv Rv HX. intros i [X v] Hi [LX [Lv [Wv [Rv HX]]]]. cbn [fst snd] in *. unfold ROUND_16_63. rewrite !land15.
    assert (B : forall n, n mod 16 < length X) by (intros n; rewrite LX; apply Nat.mod_upper_bound; lia).
    rewrite !(idx_nth X _ 0%Z) by apply B. cbn [obind]. rewrite wr_ok by apply B. cbn [obind].
    assert (N : forall k, 1 <= k <= 16 -> nth ((i + (16 - k)) mod 16) X 0%Z = nth (i - k) W 0%Z).
    { intros k Hk. rewrite <- (HX (i - k)) by lia. f_equal. replace (i + (16 - k)) with (i - k + 1 * 16) by lia. apply Nat.mod_add. lia. }
    pose proof (N 15 ltac:(lia)) as N15. pose proof (N 2 ltac:(lia)) as N2. pose proof (N 7 ltac:(lia)) as N7. cbn [Nat.sub] in N15, N2, N7. rewrite N15, N2, N7. pose proof (N 16 ltac:(lia)) as N16. rewrite Nat.sub_diag, Nat.add_0_r in N16. rewrite N16.
    rewrite sched_code by (apply Forall_nth0; [exact WW|lia]).
    assert (EW : nth i W 0%Z = sched_word (nth (i - 2) W 0%Z) (nth (i - 7) W 0%Z) (nth (i - 15) W 0%Z) (nth (i - 16) W 0%Z)).
    { apply schedule_rec; lia. }
    rewrite <- EW.
    destruct (round_ok i (nth i W 0%Z) v Lv Wv) as [v' [Ev [Lv' [Wv' Rv']]]]; [lia|]. rewrite Ev. cbn [obind].
    eexists. split; [reflexivity|]. cbn [fst snd].
    split; [rewrite app_length, firstn_length; cbn [length]; rewrite skipn_length; specialize (B i); lia|].
    split; [exact Lv'|]. split; [exact Wv'|]. split; [apply (Fold i v); [lia|exact Rv|exact Rv']|].
    intros s Hs. rewrite nth_set by apply B. destruct (Nat.eqb_spec (s mod 16) (i mod 16)) as [E|N'].
    - replace s with i; [reflexivity|]. pose proof (Nat.div_mod s 16 ltac:(lia)). pose proof (Nat.div_mod i 16 ltac:(lia)).
      pose proof (Nat.mod_upper_bound s 16 ltac:(lia)). pose proof (Nat.mod_upper_bound i 16 ltac:(lia)). rewrite E in *. lia.
    - apply HX. assert (s <> i) by congruence. lia. }
  cbn [fst snd] in *. rewrite E2. cbn [obind]. change (16 + 48) with 64 in Rv2. rewrite (regs_full v2 64 Lv2 eq_refl) in Rv2.
  rewrite firstn_all2 in Rv2 by lia. unfold fips_compress. fold W. fold KW. rewrite <- Rv2. clear - LH Lv2.
  destruct H as [|a [|b [|c [|d [|e [|f [|g [|h [|z H]]]]]]]]]; try discriminate LH.
  destruct v2 as [|a' [|b' [|c' [|d' [|e' [|f' [|g' [|h' [|z' v2]]]]]]]]]; try discriminate Lv2.
  cbn [combine map fst snd]. split; [reflexivity|]. split; [reflexivity|]. repeat (apply Forall_cons; [apply plus32_lt|]). apply Forall_nil.
Qed.
