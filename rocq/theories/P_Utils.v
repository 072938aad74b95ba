(** Loops over arrays, bit and byte conversions (C37-C40). *)
From Coq Require Import List ZArith Bool Arith Lia.
From Verif Require Import Primes Field Base R1CSFacts M_Utils Spec_Utils.
Import ListNotations.
Local Open Scope nat_scope.

Lemma bind_ok {A B} (a : A) (k : A -> outcome B) : obind (Ok a) k = k a.
Proof. reflexivity. Qed.
Lemma skipn_skipn {A} x y (l : list A) : skipn x (skipn y l) = skipn (x + y) l.
Proof.
  revert l; induction y as [|y IH]; intros l; [now rewrite Nat.add_0_r|].
  rewrite Nat.add_succ_r. destruct l; [now rewrite skipn_nil|]. apply IH.
Qed.

Lemma ofor_ext {S} lo n (f g : nat -> S -> outcome S) s :
  (forall i s, lo <= i < lo + n -> f i s = g i s) -> ofor lo n f s = ofor lo n g s.
Proof.
  revert lo s; induction n as [|n IH]; intros lo s H; cbn [ofor]; [reflexivity|].
  rewrite H by lia. destruct (g lo s); cbn [obind]; try reflexivity.
  apply IH. intros i x Hi. apply H. lia.
Qed.

Lemma ofor_inv {S} (I : nat -> S -> Prop) n f : forall lo s, I lo s ->
  (forall i s, lo <= i < lo + n -> I i s -> exists s', f i s = Ok s' /\ I (Datatypes.S i) s') ->
  exists s', ofor lo n f s = Ok s' /\ I (lo + n) s'.
Proof.
  induction n as [|n IH]; intros lo s H0 H; cbn [ofor].
  - exists s. split; [reflexivity|]. now rewrite Nat.add_0_r.
  - destruct (H lo s ltac:(lia) H0) as (s' & E & H1). rewrite E, bind_ok.
    destruct (IH (Datatypes.S lo) s' H1) as (s2 & E2 & H2).
    + intros i x Hi. apply H. lia.
    + exists s2. split; [exact E2|]. now replace (lo + Datatypes.S n) with (Datatypes.S lo + n) by lia.
Qed.

Lemma ofor_ub {S} n (f : nat -> S -> outcome S) k : forall lo s, lo <= k < lo + n ->
  (forall i s, f i s = UB \/ exists s', f i s = Ok s') -> (forall s, f k s = UB) -> ofor lo n f s = UB.
Proof.
  induction n as [|n IH]; intros lo s Hk H Hub; [lia|]. cbn [ofor].
  destruct (Nat.eq_dec lo k) as [-> |N]; [now rewrite Hub|].
  destruct (H lo s) as [-> |(s' & ->)]; [reflexivity|]. rewrite bind_ok. apply IH; [lia|assumption..].
Qed.
Lemma ofor_ok_or_ub {S} n (f : nat -> S -> outcome S) : forall lo s,
  (forall i s, f i s = UB \/ exists s', f i s = Ok s') -> ofor lo n f s = UB \/ exists s', ofor lo n f s = Ok s'.
Proof.
  induction n as [|n IH]; intros lo s H; cbn [ofor]; [eauto|].
  destruct (H lo s) as [-> |(s' & ->)]; [now left|]. rewrite bind_ok. now apply IH.
Qed.

Lemma wr_mid {A} (pre : list A) x suf y i : i = length pre -> wr (pre ++ x :: suf) i y = Ok (pre ++ y :: suf).
Proof.
  intros ->. unfold wr. rewrite app_length. cbn [length].
  replace (length pre <? length pre + S (length suf)) with true by (symmetry; apply Nat.ltb_lt; lia).
  f_equal. f_equal.
  - rewrite firstn_app, Nat.sub_diag, firstn_all. cbn [firstn]. apply app_nil_r.
  - f_equal. rewrite skipn_app, skipn_all2 by lia. replace (S (length pre) - length pre) with 1 by lia. reflexivity.
Qed.
Lemma wr_ub {A} (l : list A) i y : length l <= i -> wr l i y = UB.
Proof. intros H. unfold wr. now rewrite (proj2 (Nat.ltb_ge _ _) H). Qed.
Lemma wr_cases {A} (l : list A) i y : wr l i y = UB \/ exists l', wr l i y = Ok l'.
Proof. unfold wr. destruct (_ <? _); eauto. Qed.
Lemma idx_cases {A} (l : list A) i : idx l i = UB \/ exists x, idx l i = Ok x.
Proof. unfold idx. destruct (nth_error l i); eauto. Qed.
Lemma idx_nth {A} (l : list A) i d : i < length l -> idx l i = Ok (nth i l d).
Proof. intros H. unfold idx. now rewrite (nth_error_nth' l d H). Qed.

(** filling part of an array, element by element *)
Lemma ofor_fill {A} (f : nat -> A) off k pre old suf : length pre = off -> length old = k ->
  ofor 0 k (fun j res => wr res (off + j) (f j)) (pre ++ old ++ suf) = Ok (pre ++ map f (seq 0 k) ++ suf).
Proof.
  intros Hp Ho.
  destruct (ofor_inv (fun i res => res = pre ++ map f (seq 0 i) ++ skipn i old ++ suf) k
    (fun j res => wr res (off + j) (f j)) 0 (pre ++ old ++ suf)) as (s' & E & H).
  - reflexivity.
  - intros i s Hi ->. eexists. split; [|reflexivity].
    destruct (skipn i old) as [|x r] eqn:Es.
    { apply (f_equal (@length A)) in Es. rewrite skipn_length in Es. cbn [length] in Es. lia. }
    rewrite app_assoc. cbn [app]. rewrite wr_mid by (rewrite app_length, map_length, seq_length; lia).
    f_equal. rewrite seq_S, map_app. cbn [map]. rewrite <- !app_assoc. cbn [app]. do 3 f_equal.
    replace (S i) with (1 + i) by lia. rewrite <- skipn_skipn, Es. reflexivity.
  - rewrite E, H. do 3 f_equal. now rewrite skipn_all2 by (cbn; lia).
Qed.

(** ** bits *)
Lemma land_pow2 z k : (0 <= k)%Z -> negb (Z.land z (2 ^ k) =? 0)%Z = Z.testbit z k.
Proof.
  intros Hk. destruct (Z.testbit z k) eqn:E.
  - apply negb_true_iff, Z.eqb_neq. intros H. apply (f_equal (fun a => Z.testbit a k)) in H.
    rewrite Z.land_spec, E, Z.pow2_bits_true, Z.bits_0 in H by assumption. discriminate.
  - apply negb_false_iff, Z.eqb_eq. apply Z.bits_inj'. intros n Hn. rewrite Z.land_spec, Z.bits_0.
    destruct (Z.eq_dec n k) as [-> |N]; [now rewrite E|]. rewrite Z.pow2_bits_false by congruence. apply andb_false_r.
Qed.

Lemma msb_bits_map k z : msb_bits k z = map (fun j => Z.testbit z (Z.of_nat (k - 1 - j))) (seq 0 k).
Proof.
  induction k as [|k IH]; [reflexivity|]. cbn [msb_bits seq map]. f_equal.
  - replace (S k - 1 - 0) with k by lia. rewrite <- Z.bit0_odd, Z.div_pow2_bits by lia. reflexivity.
  - rewrite IH, <- seq_shift, map_map. apply map_ext_in. intros j Hj%in_seq. do 2 f_equal. lia.
Qed.
Lemma msb_bits_length k z : length (msb_bits k z) = k.
Proof. induction k; cbn [msb_bits length]; congruence. Qed.
Lemma msb_val_range bs : (0 <= msb_val bs < 2 ^ Z.of_nat (length bs))%Z.
Proof.
  induction bs as [|b r IH]; cbn [msb_val length]; [lia|].
  rewrite Nat2Z.inj_succ, Z.pow_succ_r by lia. destruct b; lia.
Qed.
Lemma msb_val_bits k z : msb_val (msb_bits k z) = (z mod 2 ^ Z.of_nat k)%Z.
Proof.
  induction k as [|k IH]; [now rewrite Z.mod_1_r|]. cbn [msb_bits msb_val]. rewrite msb_bits_length, IH.
  rewrite Nat2Z.inj_succ, Z.pow_succ_r by lia. rewrite (Z.mul_comm 2). rewrite Z.rem_mul_r by lia.
  rewrite Zmod_odd. destruct (Z.odd _); lia.
Qed.
Lemma msb_bits_mod k z z' : (z mod 2 ^ Z.of_nat k = z' mod 2 ^ Z.of_nat k)%Z -> msb_bits k z = msb_bits k z'.
Proof.
  intros H. rewrite !msb_bits_map. apply map_ext_in. intros j Hj%in_seq.
  rewrite <- (Z.mod_pow2_bits_low z (Z.of_nat k)), <- (Z.mod_pow2_bits_low z' (Z.of_nat k)) by lia. now rewrite H.
Qed.
Lemma msb_bits_val bs : msb_bits (length bs) (msb_val bs) = bs.
Proof.
  induction bs as [|b r IH]; [reflexivity|]. cbn [length msb_bits msb_val]. pose proof (msb_val_range r) as R.
  f_equal.
  - destruct b.
    + rewrite <- (Z.mul_1_l (2 ^ _)) at 1. rewrite Z.div_add_l by lia. now rewrite Z.div_small by lia.
    + rewrite Z.add_0_l. now rewrite Z.div_small by lia.
  - transitivity (msb_bits (length r) (msb_val r)); [|exact IH]. apply msb_bits_mod. destruct b; [|reflexivity].
    rewrite <- (Z.mul_1_l (2 ^ _)) at 1. rewrite Z.add_comm. apply Z.mod_add. lia.
Qed.

(** ** C37 *)
Lemma flat_msb_length k l : length (flat_map (msb_bits k) l) = length l * k.
Proof. induction l; [reflexivity|]. cbn [flat_map length Nat.mul]. now rewrite app_length, msb_bits_length, IHl. Qed.
Lemma bytes_to_bv_ok bs : bytes_to_bv bs = Ok (flat_map (msb_bits 8) bs).
Proof.
  unfold bytes_to_bv.
  destruct (ofor_inv (fun i res => res = flat_map (msb_bits 8) (firstn i bs) ++ repeat false ((length bs - i) * 8))
    (length bs) (fun i res => ofor 0 8 (fun j res => b <- idx bs i ;;
      wr res (i * 8 + j) (negb (Z.land b (2 ^ Z.of_nat (8 - 1 - j)) =? 0)%Z)) res)
    0 (repeat false (length bs * 8))) as (s' & E & H).
  - now rewrite Nat.sub_0_r.
  - intros i s Hi ->. eexists. split; [|reflexivity].
    rewrite (ofor_ext _ _ _ (fun j res => wr res (i * 8 + j) (Z.testbit (nth i bs 0%Z) (Z.of_nat (8 - 1 - j))))).
    2:{ intros j s _. rewrite (idx_nth bs i 0%Z), bind_ok by lia. now rewrite land_pow2 by lia. }
    replace ((length bs - i) * 8) with (8 + (length bs - S i) * 8) by lia. rewrite repeat_app.
    rewrite ofor_fill; [|rewrite flat_msb_length, firstn_length; lia|reflexivity].
    rewrite app_assoc. do 2 f_equal. rewrite <- msb_bits_map.
    rewrite <- (firstn_skipn i bs) at 3.
    destruct (skipn i bs) as [|x r] eqn:Es.
    { apply (f_equal (@length Z)) in Es. rewrite skipn_length in Es. cbn [length] in Es. lia. }
    rewrite firstn_app, firstn_firstn, firstn_length, (Nat.min_r (S i) i), (Nat.min_l i (length bs)) by lia.
    replace (S i - i) with 1 by lia. cbn [firstn]. rewrite flat_map_app. cbn [flat_map]. rewrite app_nil_r.
    do 2 f_equal. replace i with (i + 0) at 1 by lia. rewrite <- (firstn_skipn i bs) at 1.
    rewrite app_nth2; rewrite firstn_length, Nat.min_l by lia; [|lia].
    rewrite Es. now replace (i + 0 - i) with 0 by lia.
  - rewrite E, H. cbn [Nat.add]. now rewrite firstn_all, Nat.sub_diag, app_nil_r.
Qed.

Lemma words_length {A} n w (l : list A) : length (words n w l) = n.
Proof. revert l; induction n; intros; cbn [words length]; [|rewrite IHn]; reflexivity. Qed.
Lemma words_snoc {A} n w (l : list A) : words (S n) w l = words n w l ++ [firstn w (skipn (n * w) l)].
Proof.
  revert l; induction n as [|n IH]; intros l; [reflexivity|].
  cbn [words app]. f_equal. change (words (S n) w (skipn w l) = words n w (skipn w l) ++ [firstn w (skipn (S n * w) l)]).
  rewrite IH. do 3 f_equal. rewrite skipn_skipn. f_equal. cbn [Nat.mul]. lia.
Qed.
Lemma words_concat {A} n w (l : list A) : length l = n * w -> concat (words n w l) = l.
Proof.
  revert l; induction n as [|n IH]; intros l H; cbn [words concat].
  - symmetry. now apply length_zero_iff_nil.
  - rewrite IH; [apply firstn_skipn|]. rewrite skipn_length. cbn [Nat.mul] in H. lia.
Qed.
Lemma words_each {A} n w (l : list A) c : n * w <= length l -> In c (words n w l) -> length c = w.
Proof.
  revert l; induction n as [|n IH]; intros l H; cbn [words]; [easy|]. intros [<- |Hc].
  - apply firstn_length_le. cbn [Nat.mul] in H. lia.
  - apply (IH (skipn w l)); [|assumption]. rewrite skipn_length. cbn [Nat.mul] in H. lia.
Qed.
Lemma words_flat {A} (f : A -> list bool) w l : (forall a, length (f a) = w) ->
  words (length l) w (flat_map f l) = map f l.
Proof.
  intros Hf. induction l as [|a r IH]; [reflexivity|]. cbn [length words map flat_map].
  rewrite firstn_app, Hf, Nat.sub_diag, firstn_all2 by now rewrite Hf. cbn [firstn]. rewrite app_nil_r. f_equal.
  rewrite skipn_app, skipn_all2, Hf, Nat.sub_diag by now rewrite Hf. cbn [app skipn]. exact IH.
Qed.

Lemma shl1_ok k : (0 <= k < 64)%Z -> shl1 k = Ok (2 ^ k)%Z.
Proof.
  intros H. unfold shl1. replace (0 <=? k)%Z with true by (symmetry; apply Z.leb_le; lia).
  now replace (k <? 64)%Z with true by (symmetry; apply Z.ltb_lt; lia).
Qed.
Lemma shl1_ub k : (64 <= k)%Z -> shl1 k = UB.
Proof. intros H. unfold shl1. replace (k <? 64)%Z with false by (symmetry; apply Z.ltb_ge; lia). now rewrite andb_false_r. Qed.
Lemma shl1_cases k : shl1 k = UB \/ exists m, shl1 k = Ok m.
Proof. unfold shl1. destruct (_ && _); eauto. Qed.

Lemma msb_val_app l1 l2 : msb_val (l1 ++ l2) = (msb_val l1 * 2 ^ Z.of_nat (length l2) + msb_val l2)%Z.
Proof.
  induction l1 as [|b r IH]; cbn [app msb_val]; [lia|].
  rewrite IH, app_length, Nat2Z.inj_add, Z.pow_add_r by lia. destruct b; lia.
Qed.

Lemma blti_word_ok bits ws i : 1 <= ws <= 64 -> i * ws + ws <= length bits ->
  blti_word bits ws i = Ok (msb_val (firstn ws (skipn (i * ws) bits))).
Proof.
  intros Hw Hl. unfold blti_word. set (ch := firstn ws (skipn (i * ws) bits)).
  assert (Lc : length ch = ws).
  { unfold ch. apply firstn_length_le. rewrite skipn_length. lia. }
  assert (Hnth : forall j, j < ws -> nth (i * ws + j) bits false = nth j ch false).
  { intros j Hj. unfold ch. rewrite <- (firstn_skipn (i * ws) bits) at 1.
    rewrite app_nth2; rewrite firstn_length, Nat.min_l by lia; [|lia].
    rewrite <- (firstn_skipn ws (skipn (i * ws) bits)) at 1.
    rewrite app_nth1; [f_equal; lia|]. fold ch. lia. }
  match goal with |- ofor 0 ws ?f _ = _ =>
    destruct (ofor_inv (fun j c => c = (msb_val (firstn j ch) * 2 ^ Z.of_nat (ws - j))%Z) ws f 0 0%Z) as (s' & E & H)
  end.
  - reflexivity.
  - intros j s Hj ->.
    replace (length bits =? i * ws + j) with false by (symmetry; apply Nat.eqb_neq; lia).
    rewrite (idx_nth bits _ false), bind_ok, shl1_ok, bind_ok, Hnth by lia.
    eexists. split; [reflexivity|].
    assert (Ef : firstn (S j) ch = firstn j ch ++ [nth j ch false]).
    { rewrite <- (firstn_skipn j ch) at 1. destruct (skipn j ch) as [|x r] eqn:Es.
      { apply (f_equal (@length bool)) in Es. rewrite skipn_length in Es. cbn [length] in Es. lia. }
      rewrite firstn_app, firstn_firstn, firstn_length, (Nat.min_r (S j) j), (Nat.min_l j) by lia.
      replace (S j - j) with 1 by lia. cbn [firstn]. do 2 f_equal.
      rewrite <- (firstn_skipn j ch). rewrite app_nth2; rewrite firstn_length, Nat.min_l by lia; [|lia].
      now rewrite Es, Nat.sub_diag. }
    pose proof (msb_val_range (firstn (S j) ch)) as R.
    rewrite Ef, msb_val_app in R |- *. cbn [length msb_val] in R |- *.
    rewrite app_length, firstn_length, Nat.min_l in R by lia. cbn [length] in R.
    change (2 ^ Z.of_nat 1)%Z with 2%Z in *. change (2 ^ Z.of_nat 0)%Z with 1%Z in *.
    replace (Z.of_nat (ws - j)) with (Z.succ (Z.of_nat (ws - S j))) by lia. rewrite Z.pow_succ_r by lia.
    replace (ws - 1 - j) with (ws - S j) by lia.
    set (m := msb_val (firstn j ch)) in *. set (P := (2 ^ Z.of_nat (ws - S j))%Z).
    replace (m * (2 * P) + (if nth j ch false then P else 0))%Z with ((m * 2 + ((if nth j ch false then 1 else 0) + 0)) * P)%Z
      by (destruct (nth j ch false); ring).
    apply Z.mod_small. split; [apply Z.mul_nonneg_nonneg; [lia|unfold P; apply Z.pow_nonneg; lia]|].
    apply Z.lt_le_trans with (2 ^ Z.of_nat (j + 1) * P)%Z.
    + apply Z.mul_lt_mono_pos_r; [unfold P; apply Z.pow_pos_nonneg; lia|lia].
    + unfold P. rewrite <- Z.pow_add_r by lia. apply Z.pow_le_mono_r; lia.
  - rewrite E, H. cbn [Nat.add]. rewrite Nat.sub_diag, firstn_all2 by lia. now rewrite Z.mul_1_r.
Qed.

Lemma bit_list_to_ints_ok bits ws : 1 <= ws <= 64 ->
  bit_list_to_ints bits ws = Ok (map msb_val (words (length bits / ws) ws bits)).
Proof.
  intros Hw. unfold bit_list_to_ints. replace (ws =? 0) with false by (symmetry; apply Nat.eqb_neq; lia).
  pose proof (Nat.mul_div_le (length bits) ws) as Hd.
  match goal with |- ofor 0 ?n ?f _ = _ =>
    destruct (ofor_inv (fun i res => res = map msb_val (words i ws bits)) n f 0 []) as (s' & E & H) end.
  - reflexivity.
  - intros i s Hi ->. rewrite blti_word_ok, bind_ok; [|lia|nia]. eexists. split; [reflexivity|].
    rewrite words_snoc, map_app. reflexivity.
  - rewrite E, H. reflexivity.
Qed.

Lemma bv_to_bytes_ok bits buf : length bits / 8 <= length buf ->
  bv_to_bytes bits buf = Ok (map msb_val (words (length bits / 8) 8 bits) ++ skipn (length bits / 8) buf).
Proof.
  intros Hb. unfold bv_to_bytes. rewrite bit_list_to_ints_ok, bind_ok by lia.
  set (W := map msb_val (words (length bits / 8) 8 bits)).
  assert (LW : length W = length bits / 8) by (unfold W; rewrite map_length; apply words_length).
  assert (Hby : forall x, In x W -> (x mod 256 = x)%Z).
  { intros x (c & <- & Hc)%in_map_iff. pose proof (msb_val_range c) as R.
    rewrite (words_each (length bits / 8) 8 bits c) in R; [|pose proof (Nat.mul_div_le (length bits) 8); lia|assumption].
    apply Z.mod_small. exact R. }
  match goal with |- obind (ofor 0 ?n ?f _) _ = _ =>
    destruct (ofor_inv (fun i st => st = (i, firstn i W ++ skipn i buf)) n f 0 (0, buf)) as (s' & E & H) end.
  - reflexivity.
  - intros i s Hi ->. rewrite (idx_nth W i 0%Z), bind_ok by lia.
    destruct (skipn i buf) as [|x r] eqn:Es.
    { apply (f_equal (@length Z)) in Es. rewrite skipn_length in Es. cbn [length] in Es. lia. }
    rewrite wr_mid, bind_ok by (rewrite firstn_length, Nat.min_l; lia).
    eexists. split; [reflexivity|]. f_equal.
    rewrite Hby by (apply nth_In; lia).
    rewrite <- (firstn_skipn i W) at 3. destruct (skipn i W) as [|y q] eqn:Ew.
    { apply (f_equal (@length Z)) in Ew. rewrite skipn_length in Ew. cbn [length] in Ew. lia. }
    rewrite firstn_app, firstn_firstn, firstn_length, (Nat.min_r (S i) i), (Nat.min_l i) by lia.
    replace (S i - i) with 1 by lia. cbn [firstn]. rewrite <- app_assoc. cbn [app]. f_equal. f_equal.
    + rewrite <- (firstn_skipn i W). rewrite app_nth2; rewrite firstn_length, Nat.min_l by lia; [|lia].
      now rewrite Ew, Nat.sub_diag.
    + replace (S i) with (1 + i) by lia. rewrite <- skipn_skipn, Es. reflexivity.
  - rewrite E, H, bind_ok. cbn [Nat.add]. rewrite firstn_all, LW. reflexivity.
Qed.

Lemma bytes_bits_bytes bs buf rest : Forall byte bs -> length buf = length bs ->
  exists bits, bytes_to_bv bs = Ok bits /\ bv_to_bytes bits (buf ++ rest) = Ok (bs ++ rest) /\
    length bits = length bs * 8 /\ (forall i, i < length bs -> firstn 8 (skipn (i * 8) bits) = msb_bits 8 (nth i bs 0%Z)).
Proof.
  intros Hb Hl. exists (flat_map (msb_bits 8) bs). split; [apply bytes_to_bv_ok|].
  assert (L : length (flat_map (msb_bits 8) bs) = length bs * 8).
  { apply flat_msb_length. }
  assert (Ld : length (flat_map (msb_bits 8) bs) / 8 = length bs) by (rewrite L; now apply Nat.div_mul).
  split; [|split; [exact L|]].
  - rewrite bv_to_bytes_ok; rewrite Ld; [|rewrite app_length; lia].
    rewrite words_flat by (intros; apply msb_bits_length). rewrite map_map.
    rewrite skipn_app, skipn_all2, <- Hl, Nat.sub_diag by lia. cbn [app skipn]. do 2 f_equal.
    rewrite <- (map_id bs) at 2. apply map_ext_in. intros b Hin. rewrite Forall_forall in Hb.
    rewrite msb_val_bits. apply Z.mod_small. exact (Hb b Hin).
  - clear. induction bs as [|b r IH]; [cbn; lia|]. intros [|i] Hi.
    + reflexivity.
    + cbn [nth flat_map]. replace (S i * 8) with (i * 8 + 8) by lia. rewrite <- skipn_skipn.
      rewrite (skipn_app 8), (skipn_all2 (n:=8) (msb_bits 8 b)), msb_bits_length, Nat.sub_diag by (rewrite msb_bits_length; lia).
      cbn [app]. change (skipn 0 ?l) with l. apply IH. cbn [length] in Hi. lia.
Qed.

Lemma bits_bytes_bits bits buf rest : length bits mod 8 = 0 -> length buf = length bits / 8 ->
  exists bs, bv_to_bytes bits (buf ++ rest) = Ok (bs ++ rest) /\ length bs = length buf /\ Forall byte bs /\
    bytes_to_bv bs = Ok bits.
Proof.
  intros Hm Hl. exists (map msb_val (words (length bits / 8) 8 bits)).
  assert (Hlen : length bits = length bits / 8 * 8) by (pose proof (Nat.div_mod (length bits) 8); lia).
  split; [|split; [|split]].
  - rewrite bv_to_bytes_ok by (rewrite app_length; lia). do 2 f_equal.
    rewrite skipn_app, skipn_all2, Hl, Nat.sub_diag by lia. reflexivity.
  - now rewrite map_length, words_length.
  - apply Forall_forall. intros x (c & <- & Hc)%in_map_iff. pose proof (msb_val_range c) as R.
    rewrite (words_each (length bits / 8) 8 bits c) in R; [exact R|lia|assumption].
  - rewrite bytes_to_bv_ok. f_equal.
    rewrite flat_map_concat_map, map_map. rewrite <- (words_concat (length bits / 8) 8 bits Hlen) at 3. f_equal.
    rewrite <- (map_id (words _ _ _)) at 2. apply map_ext_in. intros c Hc.
    rewrite <- (words_each (length bits / 8) 8 bits c) at 1; [apply msb_bits_val|lia|assumption].
Qed.

(** an incomplete last byte is silently lost, so the condition on the length is needed *)
Lemma bv_to_bytes_drops bits tail buf : length bits mod 8 = 0 -> length tail < 8 -> length bits / 8 <= length buf ->
  bv_to_bytes (bits ++ tail) buf = bv_to_bytes bits buf.
Proof.
  intros Hm Ht Hb.
  assert (Hlen : length bits = length bits / 8 * 8) by (pose proof (Nat.div_mod (length bits) 8); lia).
  assert (E : length (bits ++ tail) / 8 = length bits / 8).
  { rewrite app_length, Hlen at 1. rewrite Nat.div_add_l by lia. rewrite (Nat.div_small (length tail)) by lia. lia. }
  rewrite !bv_to_bytes_ok; rewrite ?E; try lia. do 3 f_equal.
  generalize dependent bits. intros bits _ _ Hlen _. revert Hlen. generalize (length bits / 8). intros n. revert bits.
  induction n as [|n IH]; intros bits H; [reflexivity|]. cbn [words]. cbn [Nat.mul] in H. f_equal.
  - rewrite firstn_app. replace (8 - length bits) with 0 by lia. cbn [firstn]. apply app_nil_r.
  - rewrite skipn_app. replace (8 - length bits) with 0 by lia. change (skipn 0 tail) with tail. apply IH.
    rewrite skipn_length. lia.
Qed.

Lemma bv_to_bytes_small bits buf : length buf < length bits / 8 -> bv_to_bytes bits buf = UB.
Proof.
  intros Hb. unfold bv_to_bytes. rewrite bit_list_to_ints_ok, bind_ok by lia.
  set (W := map msb_val (words (length bits / 8) 8 bits)).
  assert (LW : length W = length bits / 8) by (unfold W; rewrite map_length; apply words_length).
  match goal with |- obind (ofor 0 ?n ?f _) _ = _ =>
    enough (G : forall k lo out, lo + k = n -> length out < n -> lo <= length out -> ofor lo k f (lo, out) = UB)
      by (rewrite (G n 0 buf); lia || reflexivity) end.
  induction k as [|k IH]; intros lo out H1 H2 H3; [lia|].
  cbn [ofor]. rewrite (idx_nth W lo 0%Z), bind_ok by lia.
  destruct (Nat.eq_dec lo (length out)) as [E|N].
  - rewrite wr_ub by lia. reflexivity.
  - unfold wr. rewrite (proj2 (Nat.ltb_lt lo (length out))) by lia. rewrite !bind_ok.
    apply IH; [lia|..]; rewrite app_length; cbn [length]; rewrite firstn_length, skipn_length; lia.
Qed.

(** ** C38 *)
Lemma int_list_to_bits_ub l ws : Forall (fun w => 0 <= w < 2 ^ 64)%Z ws -> 2 <= length l -> int_list_to_bits l ws = UB.
Proof.
  intros Hw Hl. unfold int_list_to_bits.
  apply (ofor_ub _ _ 1); [lia|..].
  - intros i s. destruct (idx_cases ws 0) as [-> |(w & ->)]; [now left|]. rewrite bind_ok.
    apply ofor_ok_or_ub. intros j r. destruct (idx_cases l i) as [-> |(x & ->)]; [now left|]. rewrite bind_ok.
    destruct (shl1_cases (usub (usub w 1) (Z.of_nat j))) as [-> |(m & ->)]; [now left|]. rewrite bind_ok.
    apply wr_cases.
  - intros s. destruct ws as [|w r]; [reflexivity|]. inversion Hw as [|? ? Hr _]; subst. cbn [idx nth_error]. rewrite bind_ok.
    apply (ofor_ub _ _ (Z.to_nat w)); [lia|..].
    + intros j r'. destruct (idx_cases l 1) as [-> |(x & ->)]; [now left|]. rewrite bind_ok.
      destruct (shl1_cases (usub (usub w 1) (Z.of_nat j))) as [-> |(m & ->)]; [now left|]. rewrite bind_ok.
      apply wr_cases.
    + intros r'. destruct (idx_cases l 1) as [-> |(x & ->)]; [reflexivity|]. rewrite bind_ok.
      rewrite shl1_ub; [reflexivity|]. rewrite Z2Nat.id by lia. unfold usub.
      rewrite Zminus_mod_idemp_l. replace (w - 1 - w)%Z with (-1)%Z by lia. now vm_compute.
Qed.

Lemma int_list_to_bits_refuted : exists l ws : list Z, length l = length ws /\ Forall (fun w => 1 <= w <= 64)%Z ws /\
  Forall (fun x => 0 <= x < 2 ^ 64)%Z l /\ int_list_to_bits l ws = UB.
Proof.
  exists [10; 238923]%Z, [8; 16]%Z. split; [reflexivity|]. split; [repeat constructor; lia|].
  split; [repeat constructor; lia|]. apply int_list_to_bits_ub; [repeat constructor; lia|cbn; lia].
Qed.

Lemma int_list_to_bits_single x w : (0 <= x < 2 ^ 64)%Z -> (0 <= w <= 64)%Z ->
  int_list_to_bits [x] [w] = Ok (msb_bits (Z.to_nat w) x).
Proof.
  intros Hx Hw. unfold int_list_to_bits. cbn [length ofor idx nth_error fold_left]. rewrite bind_ok.
  rewrite Z.add_0_l, (Z.mod_small w) by lia. rewrite Nat.add_0_r.
  rewrite (ofor_ext _ _ _ (fun j res => wr res (0 + j) (Z.testbit x (Z.of_nat (Z.to_nat w - 1 - j))))).
  2:{ intros j s Hj. rewrite bind_ok. unfold usub. rewrite Zminus_mod_idemp_l, Z.mod_small by lia.
      rewrite shl1_ok, bind_ok by lia. rewrite land_pow2 by lia.
      replace (w - 1 - Z.of_nat j)%Z with (Z.of_nat (Z.to_nat w - 1 - j)) by lia. reflexivity. }
  pose proof (@ofor_fill bool (fun j => Z.testbit x (Z.of_nat (Z.to_nat w - 1 - j))) 0 (Z.to_nat w) [] (repeat false (Z.to_nat w)) []) as G.
  rewrite app_nil_r in G. cbn [app] in G. rewrite G, bind_ok by (reflexivity || apply repeat_length).
  now rewrite app_nil_r, msb_bits_map.
Qed.

(** ** C40 *)
Lemma import_be_spec bs acc : fold_left (fun acc b => acc * 256 + b)%Z bs acc = (acc * 256 ^ Z.of_nat (length bs) + be_val bs)%Z.
Proof.
  revert acc; induction bs as [|b r IH]; intros acc; cbn [fold_left length be_val]; [lia|].
  rewrite IH, Nat2Z.inj_succ, Z.pow_succ_r by lia. ring.
Qed.
Lemma be_val_app l1 l2 : be_val (l1 ++ l2) = (be_val l1 * 256 ^ Z.of_nat (length l2) + be_val l2)%Z.
Proof.
  induction l1 as [|b r IH]; cbn [app be_val]; [lia|]. rewrite IH, app_length, Nat2Z.inj_add, Z.pow_add_r by lia. ring.
Qed.
Lemma be_val_rev bs : be_val (rev bs) = le_val bs.
Proof. induction bs as [|b r IH]; [reflexivity|]. cbn [rev le_val]. rewrite be_val_app, IH. cbn [be_val length]. change (256 ^ Z.of_nat 1)%Z with 256%Z. change (256 ^ Z.of_nat 0)%Z with 1%Z. ring. Qed.

Lemma field_bytes_eq : field_bytes = 32.
Proof. reflexivity. Qed.

Lemma bytes_to_FieldT_main bs : Forall byte bs ->
  (length bs <= 32 ->
     (exists x, bytes_to_FieldT_bigendian bs = Ok x /\ fval x = be_val bs mod p_mod)%Z /\
     (exists x, bytes_to_FieldT_littleendian bs = Ok x /\ fval x = le_val bs mod p_mod)%Z) /\
  (32 < length bs -> bytes_to_FieldT_bigendian bs = Abort /\ bytes_to_FieldT_littleendian bs = Abort).
Proof.
  intros _. unfold bytes_to_FieldT_bigendian, bytes_to_FieldT_littleendian, bytes_to_FieldT. rewrite field_bytes_eq. split; intros H.
  - rewrite (proj2 (Nat.leb_le _ _) H). cbn [oassert obind Z.eqb]. unfold import_be. rewrite !import_be_spec, !Z.mul_0_l, !Z.add_0_l, be_val_rev.
    split; eexists; (split; [reflexivity|]); apply fval_Fof.
  - rewrite (proj2 (Nat.leb_gt _ _) H). split; reflexivity.
Qed.

(** ** C39 *)
Lemma hexdigit_range c a : hexdigit c a -> (0 <= a < 16)%Z.
Proof. intros []; lia. Qed.
Lemma char2int_hex c a : hexdigit c a -> char2int c = Ok a.
Proof.
  assert (L : forall a b, (a <= b)%Z -> (a <=? b)%Z = true) by (intros; apply Z.leb_le; lia).
  assert (G : forall a b, (b < a)%Z -> (a <=? b)%Z = false) by (intros; apply Z.leb_gt; lia).
  unfold char2int. intros [x H|x H|x H].
  - rewrite !L by lia. reflexivity.
  - rewrite (G x 57%Z), andb_false_r, !L by lia. cbn [andb]. f_equal. lia.
  - rewrite (G x 57%Z), (G x 70%Z), !andb_false_r, !L by lia. cbn [andb]. f_equal. lia.
Qed.
Lemma char2int_cases c : (exists a, hexdigit c a /\ char2int c = Ok a) \/ ((forall a, ~ hexdigit c a) /\ char2int c = Throw).
Proof.
  destruct (Z_le_dec 48 c), (Z_le_dec c 57); try (left; eexists; split; [|apply char2int_hex]; apply hd_dec; lia);
  (destruct (Z_le_dec 65 c), (Z_le_dec c 70); try (left; eexists; split; [|apply char2int_hex]; apply hd_up; lia));
  (destruct (Z_le_dec 97 c), (Z_le_dec c 102); try (left; eexists; split; [|apply char2int_hex]; apply hd_lo; lia));
  right; (split; [intros a Hd; inversion Hd; lia|]); unfold char2int;
  repeat match goal with |- context [(?a <=? ?b)%Z] => destruct (Z.leb_spec a b); try lia end; reflexivity.
Qed.

Lemma nibbles a b : (0 <= a < 16)%Z -> (0 <= b < 16)%Z -> (Z.lor (a * 16) b mod 256 = 16 * a + b)%Z.
Proof.
  intros Ha Hb.
  assert (E : (Z.lor (a * 16) b = 16 * a + b)%Z).
  { assert (L : Z.land (a * 16) b = 0%Z); [|rewrite <- (Z.lxor_lor _ _ L), <- (Z.add_nocarry_lxor _ _ L); lia].
    apply Z.bits_inj'. intros n Hn.
    rewrite Z.land_spec, Z.bits_0. change 16%Z with (2 ^ 4)%Z. rewrite Z.mul_pow2_bits by lia.
    destruct (Z.ltb_spec n 4) as [L|L].
    - rewrite Z.testbit_neg_r by lia. reflexivity.
    - replace (Z.testbit b n) with false; [apply andb_false_r|]. symmetry.
      destruct (Z.eq_dec b 0) as [-> |N]; [apply Z.bits_0|].
      apply Z.bits_above_log2; [lia|]. apply Z.log2_lt_pow2; [lia|].
      apply Z.lt_le_trans with (2 ^ 4)%Z; [lia|]. apply Z.pow_le_mono_r; lia. }
  rewrite E. apply Z.mod_small. lia.
Qed.

Lemma hexstr_length s bs : hexstr s bs -> length s = 2 * length bs.
Proof. induction 1; cbn [length]; lia. Qed.

Lemma hex_loop_ok n : forall s fuel pos pre buf, length s = 2 * n -> length s <= fuel -> pos = length pre -> n <= length buf ->
  (exists bs, hexstr s bs /\ length bs = n /\ hex_loop fuel s pos (pre ++ buf) = Ok (pre ++ bs ++ skipn n buf)) \/
  ((forall bs, ~ hexstr s bs) /\ hex_loop fuel s pos (pre ++ buf) = Throw).
Proof.
  induction n as [|n IH]; intros s fuel pos pre buf Hs Hf Hp Hb.
  - left. exists []. destruct s; [|cbn in Hs; lia]. repeat split; [constructor|]. destruct fuel; reflexivity.
  - destruct s as [|h [|l s]]; cbn [length] in Hs, Hf; try lia.
    destruct fuel as [|fuel]; [lia|]. cbn [hex_loop].
    destruct (char2int_cases h) as [(a & Ha & ->)|(Ha & ->)].
    2:{ right. split; [|reflexivity]. intros bs H. inversion H; subst. eapply Ha; eassumption. }
    rewrite bind_ok. destruct (char2int_cases l) as [(b & Hb' & ->)|(Hb' & ->)].
    2:{ right. split; [|reflexivity]. intros bs H. inversion H; subst. eapply Hb'; eassumption. }
    rewrite bind_ok. destruct buf as [|x buf]; [cbn in Hb; lia|].
    rewrite wr_mid, bind_ok by assumption.
    rewrite nibbles by (eapply hexdigit_range; eassumption).
    cbn [length] in Hb.
    replace (pre ++ (16 * a + b)%Z :: buf) with ((pre ++ [(16 * a + b)%Z]) ++ buf) by (rewrite <- app_assoc; reflexivity).
    destruct (IH s fuel (S pos) (pre ++ [(16 * a + b)%Z]) buf) as [(bs & Hx & Hl & E)|(Hx & E)];
      [lia|lia|rewrite app_length; cbn [length]; lia|lia|..].
    + left. exists ((16 * a + b)%Z :: bs). split; [now constructor|]. split; [cbn [length]; lia|].
      rewrite E, <- app_assoc. reflexivity.
    + right. split; [|exact E]. intros bs' H. inversion H; subst. eapply Hx; eassumption.
Qed.

Lemma strip_eq s t : stripped s t ->
  match s with a :: b :: r => if (a =? 48)%Z && (b =? 120)%Z then r else s | _ => s end = t.
Proof.
  intros [r|r H]; [reflexivity|]. destruct r as [|a [|b q]]; try reflexivity.
  destruct (Z.eqb_spec a 48) as [-> |N]; [|reflexivity]. destruct (Z.eqb_spec b 120) as [-> |N]; [|reflexivity].
  exfalso. now apply (H q).
Qed.
Lemma stripped_total s : exists t, stripped s t.
Proof.
  destruct s as [|a [|b q]]; [eexists; apply st_plain; discriminate| |].
  - eexists; apply st_plain. intros r H. discriminate.
  - destruct (Z.eq_dec a 48) as [-> |N]; [destruct (Z.eq_dec b 120) as [-> |N]|].
    + eexists; apply st_prefix.
    + eexists; apply st_plain. congruence.
    + eexists; apply st_plain. congruence.
Qed.

Lemma hex_to_bytes_main s t buf n : stripped s t -> n <= length buf ->
  (forall bs, 2 <= length s -> hexstr t bs -> length bs = n -> hex_to_bytes s buf n = Ok (true, bs ++ skipn n buf)) /\
  (length s < 2 \/ length t <> 2 * n -> hex_to_bytes s buf n = Ok (false, buf)) /\
  (2 <= length s -> length t = 2 * n -> (forall bs, ~ hexstr t bs) -> hex_to_bytes s buf n = Throw).
Proof.
  intros Hst Hb. unfold hex_to_bytes. rewrite (strip_eq _ _ Hst).
  assert (Hchk : forall m, length t = 2 * m -> negb (length t mod 2 =? 0) || negb (length t / 2 =? m) = false).
  { intros m ->. rewrite Nat.mul_comm, Nat.mod_mul, Nat.div_mul, !Nat.eqb_refl by lia. reflexivity. }
  split; [|split].
  - intros bs H2 Hx Hl. rewrite (proj2 (Nat.ltb_ge _ _) H2).
    rewrite (Hchk n) by (rewrite (hexstr_length _ _ Hx); lia).
    destruct (hex_loop_ok n t (length t) 0 [] buf) as [(bs' & Hx' & Hl' & E)|(H & _)]; try (reflexivity || lia).
    + rewrite (hexstr_length _ _ Hx); lia.
    + cbn [app] in E. rewrite E, bind_ok. do 3 f_equal.
      clear -Hx Hx'. revert bs' Hx'. induction Hx; intros bs' H'; inversion H'; subst; [reflexivity|].
      f_equal; [|now apply IHHx].
      assert (U : forall c x y, hexdigit c x -> hexdigit c y -> x = y).
      { intros c x y Hx' Hy'. apply char2int_hex in Hx'. apply char2int_hex in Hy'. congruence. }
      f_equal; [f_equal|]; eapply U; eassumption.
    + exfalso. eapply H; eassumption.
  - intros H. destruct (length s <? 2) eqn:E; [reflexivity|]. apply Nat.ltb_ge in E.
    destruct H as [H|H]; [lia|]. destruct (length t mod 2 =? 0) eqn:Em; [|reflexivity]. cbn [negb orb].
    apply Nat.eqb_eq in Em. replace (length t / 2 =? n) with false; [reflexivity|]. symmetry. apply Nat.eqb_neq.
    pose proof (Nat.div_mod (length t) 2). lia.
  - intros H2 Hl Hn. rewrite (proj2 (Nat.ltb_ge _ _) H2), (Hchk n Hl).
    destruct (hex_loop_ok n t (length t) 0 [] buf Hl) as [(bs' & Hx' & Hl' & E)|(H & E)]; try (reflexivity || lia).
    + exfalso. now apply (Hn bs').
    + cbn [app] in E. now rewrite E.
Qed.

Lemma digit_hex d : (0 <= d < 16)%Z -> hexdigit (digit d) d.
Proof.
  intros H. unfold digit. destruct (Z.ltb_spec d 10).
  - replace d with (48 + d - 48)%Z at 2 by lia. constructor. lia.
  - replace d with (87 + d - 87)%Z at 2 by lia. apply hd_lo. lia.
Qed.
Lemma encode_hexstr bs : Forall byte bs -> hexstr (encode bs) bs.
Proof.
  induction 1 as [|b r Hb _ IH]; [constructor|]. cbn [encode].
  rewrite (Z.div_mod b 16) at 3 by lia. red in Hb.
  constructor; [apply digit_hex|apply digit_hex|exact IH].
  - split; [apply Z.div_pos; lia|apply Z.div_lt_upper_bound; lia].
  - apply Z.mod_pos_bound. lia.
Qed.

Lemma hex_round_trip bs buf rest : Forall byte bs -> length buf = length bs ->
  hex_to_bytes (48 :: 120 :: encode bs)%Z (buf ++ rest) (length bs) = Ok (true, bs ++ rest) /\
  (bs <> [] -> hex_to_bytes (encode bs) (buf ++ rest) (length bs) = Ok (true, bs ++ rest)).
Proof.
  intros Hb Hl. pose proof (encode_hexstr bs Hb) as He.
  assert (Es : skipn (length bs) (buf ++ rest) = rest).
  { rewrite skipn_app, skipn_all2, Hl, Nat.sub_diag by lia. reflexivity. }
  split.
  - destruct (hex_to_bytes_main (48 :: 120 :: encode bs)%Z (encode bs) (buf ++ rest) (length bs)) as (H & _).
    + constructor.
    + rewrite app_length. lia.
    + rewrite (H bs), Es; [reflexivity|cbn [length]; lia|assumption|reflexivity].
  - intros Hne. destruct (hex_to_bytes_main (encode bs) (encode bs) (buf ++ rest) (length bs)) as (H & _).
    + apply st_plain. intros r E. rewrite E in He. inversion He; subst.
      match goal with H : hexdigit 120 _ |- _ => inversion H; subst; lia end.
    + rewrite app_length. lia.
    + rewrite (H bs), Es; [reflexivity| |assumption|reflexivity].
      rewrite (hexstr_length _ _ He). destruct bs; [congruence|]. cbn [length]. lia.
Qed.

(** the two boundary cases for an empty output *)
Lemma hex_to_bytes_empty buf : hex_to_bytes [] buf 0 = Ok (false, buf) /\ hex_to_bytes [48; 120]%Z buf 0 = Ok (true, buf).
Proof. split; reflexivity. Qed.

(** ** flatten *)
Lemma flatten_ok {A} (d : A) ls : flatten d ls = Ok (concat ls).
Proof.
  unfold flatten.
  assert (T : forall l a, fold_left (fun t (s : list A) => t + length s) l a = a + length (concat l)).
  { induction l as [|x r IH]; intros a; cbn [fold_left concat length]; [lia|]. rewrite IH, app_length. lia. }
  rewrite T, Nat.add_0_l.
  match goal with |- obind (ofor 0 ?n ?f _) _ = _ =>
    destruct (ofor_inv (fun k st => st = (length (concat (firstn k ls)), concat (firstn k ls) ++ repeat d (length (concat (skipn k ls))))) n f 0
       (0, repeat d (length (concat ls)))) as (s' & E & H) end.
  - reflexivity.
  - intros k s Hk ->. rewrite (idx_nth ls k []), bind_ok by lia.
    destruct (skipn k ls) as [|x r] eqn:Es.
    { apply (f_equal (@length _)) in Es. rewrite skipn_length in Es. cbn [length] in Es. lia. }
    assert (Hn : nth k ls [] = x).
    { rewrite <- (firstn_skipn k ls). rewrite app_nth2; rewrite firstn_length, Nat.min_l by lia; [|lia]. now rewrite Es, Nat.sub_diag. }
    assert (Hf : firstn (S k) ls = firstn k ls ++ [x]).
    { rewrite <- (firstn_skipn k ls) at 1. rewrite Es, firstn_app, firstn_firstn, firstn_length, (Nat.min_r (S k) k), (Nat.min_l k) by lia.
      replace (S k - k) with 1 by lia. reflexivity. }
    rewrite Hn, Hf, concat_app. cbn [concat]. rewrite app_nil_r, app_length, repeat_app.
    assert (Hs : skipn (S k) ls = r) by (replace (S k) with (1 + k) by lia; rewrite <- skipn_skipn, Es; reflexivity).
    rewrite Hs. set (pre := concat (firstn k ls)). set (suf := repeat d (length (concat r))).
    match goal with |- exists s', ofor 0 _ ?g _ = _ /\ _ =>
      destruct (ofor_inv (fun i st => st = (length pre + i, (pre ++ firstn i x) ++ repeat d (length x - i) ++ suf)) (length x) g 0
        (length pre, pre ++ repeat d (length x) ++ suf)) as (s2 & E2 & H2) end.
    + f_equal; [lia|]. now rewrite Nat.sub_0_r, app_nil_r.
    + intros i s Hi ->. rewrite (idx_nth x i d), bind_ok by lia.
      replace (length x - i) with (S (length x - S i)) by lia. cbn [repeat app].
      rewrite wr_mid, bind_ok by (rewrite app_length, firstn_length; lia). eexists. split; [reflexivity|].
      f_equal; [lia|]. rewrite <- !app_assoc. f_equal. cbn [app].
      assert (Hx : firstn (S i) x = firstn i x ++ [nth i x d]).
      { clear -Hi. revert i Hi. induction x as [|y x IH]; intros i Hi; [cbn in Hi; lia|]. destruct i as [|i]; [reflexivity|].
        cbn [firstn nth app]. f_equal. apply IH. cbn [length] in Hi. lia. }
      rewrite Hx, <- app_assoc. reflexivity.
    + eexists. split; [exact E2|]. rewrite H2. cbn [Nat.add]. rewrite app_length, firstn_all, Nat.sub_diag. reflexivity.
  - rewrite E, H, bind_ok. cbn [Nat.add]. rewrite firstn_all, skipn_all. cbn. now rewrite app_nil_r.
Qed.
