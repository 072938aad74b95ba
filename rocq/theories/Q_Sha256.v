(** SHA-256 of sha256.c against FIPS 180-4. *)
From Coq Require Import List ZArith Bool Arith Lia.
From Verif Require Import Base M_Utils M_Sha256 Spec_Utils Spec_Padding Spec_Sha256 P_Utils P_Sha256 P_Sha256b P_Sha256c.
Import ListNotations.
Local Open Scope nat_scope.

(** ** bits and bytes *)
Lemma bob_app a b : bits_of_bytes (a ++ b) = bits_of_bytes a ++ bits_of_bytes b.
Proof. apply flat_map_app. Qed.
Lemma bob_length b : length (bits_of_bytes b) = 8 * length b.
Proof. unfold bits_of_bytes. rewrite flat_msb_length. lia. Qed.
Lemma val_word4 a b c d : byte a -> byte b -> byte c -> byte d -> msb_val (bits_of_bytes [a; b; c; d]) = word4 a b c d.
Proof.
  intros Ha Hb Hc Hd. unfold bits_of_bytes. cbn [flat_map]. rewrite !msb_val_app, !app_length, !msb_bits_length, !msb_val_bits. cbn [length msb_val].
  unfold byte in *. change (Z.of_nat 8) with 8%Z. rewrite !Z.mod_small by lia. unfold word4.
  change (Z.of_nat (8 + (8 + (8 + 0)))) with 24%Z. change (Z.of_nat (8 + (8 + 0))) with 16%Z. change (Z.of_nat (8 + 0)) with 8%Z. change (Z.of_nat 0) with 0%Z. lia.
Qed.
Lemma words_pack k : forall b, length b = 4 * k -> Forall byte b -> map msb_val (words k 32 (bits_of_bytes b)) = pack b.
Proof.
  induction k as [|k IH]; intros b L B; [destruct b; [reflexivity|discriminate L]|].
  destruct b as [|a0 [|a1 [|a2 [|a3 b]]]]; cbn [length] in L; try lia.
  change (a0 :: a1 :: a2 :: a3 :: b) with ([a0; a1; a2; a3] ++ b) in *. apply Forall_app in B as [B1 B2].
  rewrite bob_app. change (S k) with (1 + k). rewrite words_app by (rewrite bob_length; reflexivity). rewrite map_app, IH by (assumption || lia).
  cbn [words map app pack]. rewrite firstn_all2 by (rewrite bob_length; cbn [length]; lia). rewrite val_word4; [reflexivity| | | |]; binv; assumption.
Qed.
Lemma block_words_pack b : length b = 64 -> Forall byte b -> block_words (bits_of_bytes b) = pack b.
Proof. intros L B. unfold block_words. apply words_pack; [lia|exact B]. Qed.

Lemma msb_bits_add a b z : msb_bits (a + b) z = msb_bits a (z / 2 ^ Z.of_nat b) ++ msb_bits b z.
Proof.
  induction a as [|a IH]; [reflexivity|]. cbn [Nat.add msb_bits app]. rewrite IH. f_equal. f_equal.
  rewrite Z.div_div by (try apply Z.pow_nonzero; try apply Z.pow_pos_nonneg; lia). rewrite <- Z.pow_add_r by lia. do 2 f_equal. lia.
Qed.
Lemma block_words_last b Nh Nl L : length b = 56 -> Forall byte b -> w32 Nh -> w32 Nl -> (Nh * 2 ^ 32 + Nl = L mod 2 ^ 64)%Z ->
  block_words (bits_of_bytes b ++ msb_bits 64 L) = pack b ++ [Nh; Nl].
Proof.
  intros Lb Bb Hh Hl E. unfold block_words.
  assert (WA : words 16 32 (bits_of_bytes b ++ msb_bits 64 L) = words 14 32 (bits_of_bytes b) ++ words 2 32 (msb_bits 64 L)).
  { apply (words_app 14 32 _ _ 2). rewrite bob_length. lia. }
  rewrite WA. rewrite map_app, words_pack by (assumption || lia). apply f_equal.
  replace (msb_bits 64 L) with (msb_bits 32 (L / 2 ^ Z.of_nat 32) ++ msb_bits 32 L) by (symmetry; exact (msb_bits_add 32 32 L)). cbn [words map].
  set (x := msb_bits 32 (L / 2 ^ Z.of_nat 32)). set (y := msb_bits 32 L).
  assert (Lx : length x = 32) by apply msb_bits_length. assert (Ly : length y = 32) by apply msb_bits_length.
  rewrite firstn_app, skipn_app, Lx, Nat.sub_diag, (firstn_all2 x), (skipn_all2 x) by lia. rewrite firstn_O, app_nil_r. cbn [app].
  rewrite skipn_O, (firstn_all2 y) by lia. unfold x, y. rewrite !msb_val_bits. change (Z.of_nat 32) with 32%Z. unfold w32 in *.
  pose proof (Z.div_mod L (2 ^ 64) ltac:(intro; discriminate)) as D. rewrite <- E in D. set (e := (L / 2 ^ 64)%Z) in *.
  change (2 ^ 64)%Z with (2 ^ 32 * 2 ^ 32)%Z in D.
  assert (D1 : (L / 2 ^ 32 = 2 ^ 32 * e + Nh)%Z) by (symmetry; apply (Z.div_unique _ _ _ Nl); lia).
  f_equal; [|f_equal].
  - rewrite D1. symmetry. apply (Z.mod_unique _ _ e); lia.
  - symmetry. apply (Z.mod_unique _ _ (2 ^ 32 * e + Nh)); lia.
Qed.
Lemma iter_bits n : forall full h, length full = 64 * n -> Forall byte full ->
  iter n full h = fold_left fips_compress (map block_words (words n 512 (bits_of_bytes full))) h.
Proof.
  induction n as [|n IH]; intros f h L B; [destruct f; [reflexivity|discriminate L]|].
  destruct (split_at f 64) as [a [b [-> La]]]; [lia|]. rewrite app_length in L. apply Forall_app in B as [Ba Bb].
  change (S n) with (1 + n). rewrite iter_app by lia. rewrite iter1 by exact La. rewrite IH by (assumption || lia).
  rewrite bob_app, words_app by (rewrite bob_length; lia). rewrite map_app, fold_left_app. cbn [words map fold_left].
  rewrite firstn_all2 by (rewrite bob_length; lia). rewrite block_words_pack by assumption. reflexivity.
Qed.

(** ** padding *)
Lemma repeat_false_bytes z : bits_of_bytes (repeat 0%Z z) = repeat false (8 * z).
Proof.
  induction z as [|z IH]; [reflexivity|]. cbn [repeat]. change (bits_of_bytes (0%Z :: repeat 0%Z z)) with (msb_bits 8 0 ++ bits_of_bytes (repeat 0%Z z)).
  rewrite IH. replace (8 * S z) with (8 + 8 * z) by lia. reflexivity.
Qed.
Lemma pad_bits z L : pad_suffix L (7 + 8 * z) = bits_of_bytes (128%Z :: repeat 0%Z z) ++ msb_bits 64 (Z.of_nat L).
Proof.
  unfold pad_suffix. change (bits_of_bytes (128%Z :: repeat 0%Z z)) with (msb_bits 8 128 ++ bits_of_bytes (repeat 0%Z z)). rewrite repeat_false_bytes, repeat_app.
  reflexivity.
Qed.
Lemma pad_count n t z : t < 64 -> z < 64 -> (t + z = 55 \/ t + z = 119) -> (447 + 511 * (8 * (64 * n + t))) mod 512 = 7 + 8 * z.
Proof.
  intros Ht Hz E. symmetry. apply (Nat.mod_unique _ _ (511 * n + 8 * t + (if t + z =? 55 then 0 else 0) - (if t <=? 55 then 0 else 1) + 0)); [lia|].
  destruct E as [E|E]; [destruct (Nat.leb_spec t 55); [|lia]|destruct (Nat.leb_spec t 55); [lia|]]; destruct (t + z =? 55); lia.
Qed.
Lemma zero_words_ok n : forall i pre old suf, length pre = i -> length old = n -> zero_words i n (pre ++ old ++ suf) = Ok (pre ++ repeat 0%Z n ++ suf).
Proof.
  unfold zero_words. induction n as [|n IH]; intros i pre old suf Hp Ho; [destruct old; [reflexivity|discriminate Ho]|].
  destruct old as [|o old]; [discriminate Ho|]. cbn [ofor app]. rewrite wr_at by (symmetry; exact Hp). cbn [obind repeat app].
  replace (pre ++ 0%Z :: old ++ suf) with ((pre ++ [0%Z]) ++ old ++ suf) by (rewrite <- app_assoc; reflexivity).
  rewrite IH; [rewrite <- app_assoc; reflexivity|rewrite app_length; cbn [length]; lia|cbn [length] in Ho; lia].
Qed.
Lemma pack_zeros m : pack (repeat 0%Z (4 * m)) = repeat 0%Z m.
Proof. induction m as [|m IH]; [reflexivity|]. replace (4 * S m) with (S (S (S (S (4 * m))))) by lia. cbn [repeat pack]. rewrite IH. reflexivity. Qed.
Lemma zeros_byte z : Forall byte (repeat 0%Z z).
Proof. apply Forall_forall. intros x Hx. apply repeat_spec in Hx. subst. exact byte0. Qed.

Lemma final_ok : forall IV msg md c, hval IV -> inv IV msg md c ->
  SHA256_Final c = HASH_MAKE_STRING (fips_hash IV (bits_of_bytes msg)) md /\ hval (fips_hash IV (bits_of_bytes msg)).
Proof.
  intros IV msg md c HIV [[full [tail [junk [n [Em [Lf [Lt [Eh [En [Ed Ld]]]]]]]]]] Bm Hl Hh HL Hmd].
  assert (Bft : Forall byte full /\ Forall byte tail) by (rewrite Em in Bm; apply Forall_app; exact Bm). destruct Bft as [Bf Bt].
  assert (Hhv : hval (sc_h c)) by (rewrite Eh; apply iter_hval; assumption).
  unfold SHA256_Final. rewrite En, Hmd.
  set (w := length tail / 4). assert (Hw : 4 * w <= length tail) by (apply Nat.mul_div_le; lia).
  rewrite land3. set (sc := length tail mod 4).
  assert (Hw' : sc = length tail - 4 * w) by (unfold sc, w; apply Nat.mod_eq; lia).
  assert (Hm : sc < 4) by (apply Nat.mod_upper_bound; lia).
  destruct (split_at tail (4 * w) Hw) as [t1 [t2 [Et L1]]].
  assert (L2 : length t2 = sc) by (rewrite Hw', Et, app_length; lia).
  assert (B12 : Forall byte t1 /\ Forall byte t2) by (rewrite Et in Bt; apply Forall_app; exact Bt). destruct B12 as [B1 B2].
  assert (LP : length (pack t1) = w) by (apply pack_length; exact L1).
  assert (HB : exists x s l0, sc_data c = pack t1 ++ x :: s /\ w + S (length s) = 16 /\
      (if sc =? 0 then Ok 0%Z else idx (sc_data c) w) = Ok l0 /\ holds_word t2 l0).
  { rewrite Ed, Et, (pack_app w) by exact L1. rewrite Ed, Et, (pack_app w) in Ld by exact L1. rewrite !app_length, LP in Ld.
    destruct t2 as [|y t2].
    - cbn [pack app length] in *. rewrite app_nil_r. destruct junk as [|x s]; [cbn [length] in Ld; lia|]. exists x, s, 0%Z. split; [reflexivity|]. split; [cbn [length] in Ld; lia|].
      rewrite <- L2. split; [reflexivity|left; reflexivity].
    - destruct (c2l_p_ok (y :: t2)) as [x [_ Px]]; [cbn [length] in *; lia|exact B2|]. rewrite Px in *. exists x, junk, x.
      rewrite <- app_assoc. split; [reflexivity|]. split; [cbn [length] in Ld; lia|]. rewrite <- L2. cbn [length Nat.eqb]. split; [apply idx_at; symmetry; exact LP|right; exact Px]. }
  destruct HB as [x [s [l0 [Ex [Ls [-> Hl0]]]]]]. cbn [obind].
  set (q := 128%Z :: repeat 0%Z (3 - sc)).
  assert (Lq : length q = 4 - sc) by (unfold q; cbn [length]; rewrite repeat_length; lia).
  assert (Bq : Forall byte q) by (unfold q; apply Forall_cons; [unfold byte; lia|apply zeros_byte]).
  destruct (p_c2l_ok t2 q (repeat 0%Z sc) l0) as [l' [El Pl]]; [lia|lia|exact B2|exact Bq|exact Hl0|].
  replace [128%Z; 0%Z; 0%Z; 0%Z] with (q ++ repeat 0%Z sc) by (unfold q; cbn [app]; rewrite <- repeat_app; replace (3 - sc + sc) with 3 by lia; reflexivity).
  rewrite L2 in El. rewrite El. cbn [obind]. rewrite Ex, wr_at by (symmetry; exact LP). cbn [obind].
  set (LL := Z.of_nat (8 * length msg)).
  assert (HL' : (sc_Nh c * 2 ^ 32 + sc_Nl c = LL mod 2 ^ 64)%Z) by (unfold LL; rewrite HL; f_equal; lia).
  assert (Lmsg : length msg = 64 * n + length tail) by (rewrite Em, app_length; lia).
  (* the padded message for z zero bytes *)
  assert (HP : forall z N, length tail + z = 55 \/ length tail + z = 119 -> z < 64 -> 64 * n + length tail + 9 + z = 64 * (n + N) ->
    fips_hash IV (bits_of_bytes msg) = fold_left fips_compress (map block_words (words N 512 (bits_of_bytes (tail ++ 128%Z :: repeat 0%Z z) ++ msb_bits 64 LL))) (sc_h c)).
  { intros z N Ez Hz HN. unfold fips_hash. rewrite bob_length, Lmsg, (pad_count n (length tail) z) by (assumption || lia). rewrite pad_bits, <- Lmsg.
    fold LL. rewrite app_assoc, <- bob_app, Em, <- app_assoc. rewrite bob_app, <- app_assoc.
    replace (length _ / 512) with (n + N).
    - rewrite words_app by (rewrite bob_length; lia). rewrite map_app, fold_left_app, <- iter_bits by assumption. rewrite Eh. reflexivity.
    - rewrite !app_length, !bob_length, msb_bits_length, app_length. cbn [length]. rewrite repeat_length.
      symmetry. replace (8 * length full + (8 * (length tail + S z) + 64)) with ((n + N) * 512) by lia. apply Nat.div_mul. lia. }
  assert (EP : forall m, pack (tail ++ q ++ repeat 0%Z (4 * m)) = pack t1 ++ [l'] ++ repeat 0%Z m).
  { intros m. rewrite Et, <- app_assoc, (pack_app w t1) by exact L1. rewrite (app_assoc t2), (pack_app 1 (t2 ++ q)) by (rewrite app_length; lia). rewrite Pl, pack_zeros. reflexivity. }
  assert (EQ : forall m, q ++ repeat 0%Z (4 * m) = 128%Z :: repeat 0%Z (3 - sc + 4 * m)) by (intros m; unfold q; cbn [app]; rewrite repeat_app; reflexivity).
  change (16 - 2) with 14. change (16 - 1) with 15.
  destruct (Nat.ltb_spec 14 (w + 1)) as [G|G].
  - (* two blocks *)
    set (m := 15 - w).
    assert (HZ : (if w + 1 <? 16 then wr (pack t1 ++ l' :: s) (w + 1) 0%Z else Ok (pack t1 ++ l' :: s)) = Ok (pack (tail ++ q ++ repeat 0%Z (4 * m)))).
    { rewrite EP. destruct (Nat.ltb_spec (w + 1) 16) as [K|K].
      - assert (m = 1) by (unfold m; lia). rewrite H. destruct s as [|y [|y2 s]]; cbn [length] in Ls; try lia.
        replace (pack t1 ++ l' :: [y]) with ((pack t1 ++ [l']) ++ y :: []) by (rewrite <- app_assoc; reflexivity).
        rewrite wr_at by (rewrite app_length; cbn [length]; lia). rewrite <- app_assoc. reflexivity.
      - assert (m = 0) by (unfold m; lia). rewrite H. destruct s; [reflexivity|cbn [length] in Ls; lia]. }
    rewrite HZ. cbn [obind]. set (b1 := tail ++ q ++ repeat 0%Z (4 * m)).
    assert (Lb1 : length b1 = 64) by (unfold b1; rewrite !app_length, repeat_length; unfold m; lia).
    assert (Bb1 : Forall byte b1) by (unfold b1; apply Forall_app; split; [exact Bt|]; apply Forall_app; split; [exact Bq|apply zeros_byte]).
    destruct (step_hval (sc_h c) b1 Hhv Lb1 Bb1) as [E1 Hh1]. rewrite E1. cbn [obind].
    assert (Lpk : length (pack b1) = 16) by (apply pack_length; lia).
    destruct (split_at (pack b1) 14) as [o [s2 [Eo Lo]]]; [lia|]. assert (Ls2 : length s2 = 2) by (rewrite Eo, app_length in Lpk; lia).
    destruct s2 as [|y1 [|y2 [|y3 s2]]]; try discriminate Ls2.
    rewrite Eo. replace (14 - 0) with 14 by lia. pose proof (zero_words_ok 14 0 [] o [y1; y2] eq_refl Lo) as ZW. cbn [app] in ZW. rewrite ZW. cbn [obind].
    rewrite (wr_at (repeat 0%Z 14) y1 [y2]) by reflexivity. cbn [obind].
    replace (repeat 0%Z 14 ++ [sc_Nh c; y2]) with ((repeat 0%Z 14 ++ [sc_Nh c]) ++ y2 :: []) by (rewrite <- app_assoc; reflexivity).
    rewrite wr_at by reflexivity. cbn [obind].
    replace ((repeat 0%Z 14 ++ [sc_Nh c]) ++ [sc_Nl c]) with (repeat 0%Z 14 ++ [sc_Nh c; sc_Nl c]) by reflexivity.
    assert (E2 : block_words (bits_of_bytes (repeat 0%Z 56) ++ msb_bits 64 LL) = repeat 0%Z 14 ++ [sc_Nh c; sc_Nl c]).
    { rewrite (block_words_last _ (sc_Nh c) (sc_Nl c)); [|reflexivity|apply zeros_byte|exact Hh|exact Hl|exact HL']. change 56 with (4 * 14). rewrite pack_zeros. reflexivity. }
    assert (W2 : hval (fips_compress (fips_compress (sc_h c) (pack b1)) (repeat 0%Z 14 ++ [sc_Nh c; sc_Nl c])) /\
       sha256_words (fips_compress (sc_h c) (pack b1)) (repeat 0%Z 14 ++ [sc_Nh c; sc_Nl c]) = Ok (fips_compress (fips_compress (sc_h c) (pack b1)) (repeat 0%Z 14 ++ [sc_Nh c; sc_Nl c]))).
    { destruct Hh1 as [A1 A2]. destruct (compress_ok (fips_compress (sc_h c) (pack b1)) (repeat 0%Z 14 ++ [sc_Nh c; sc_Nl c])) as [X1 [X2 X3]];
        [exact A1|reflexivity|exact A2| |split; [split; assumption|exact X1]].
      apply Forall_app. split; [|apply Forall_cons; [exact Hh|apply Forall_cons; [exact Hl|apply Forall_nil]]].
      apply Forall_forall. intros z Hz. apply repeat_spec in Hz. subst z. unfold w32. lia. }
    destruct W2 as [W2 W3]. rewrite <- Eo. rewrite W3. cbn [obind].
    assert (HF : fips_hash IV (bits_of_bytes msg) = fips_compress (fips_compress (sc_h c) (pack b1)) (repeat 0%Z 14 ++ [sc_Nh c; sc_Nl c])).
    { rewrite (HP (119 - length tail) 2) by lia.
      replace (tail ++ 128%Z :: repeat 0%Z (119 - length tail)) with (b1 ++ repeat 0%Z 56).
      - rewrite bob_app, <- app_assoc. change 2 with (1 + 1) at 1. rewrite words_app by (rewrite bob_length; lia). rewrite map_app, fold_left_app.
        cbn [words map fold_left]. rewrite !firstn_all2 by (rewrite ?app_length, ?bob_length, ?msb_bits_length; cbn [length repeat]; lia).
        rewrite block_words_pack by assumption. rewrite E2. reflexivity.
      - unfold b1. rewrite EQ, <- app_assoc. cbn [app]. rewrite <- repeat_app. do 3 f_equal. unfold m. lia. }
    rewrite HF. split; [reflexivity|exact W2].
  - (* one block *)
    set (m := 14 - (w + 1)). cbn [obind].
    destruct (split_at s m) as [s1 [s2 [Es Ls1]]]; [unfold m; lia|]. assert (Ls2 : length s = length s1 + length s2) by (rewrite Es, app_length; reflexivity).
    destruct s2 as [|y1 [|y2 [|y3 s2]]]; cbn [length] in Ls2; try (unfold m in *; lia). fold m.
    replace (pack t1 ++ l' :: s) with ((pack t1 ++ [l']) ++ s1 ++ [y1; y2]) by (rewrite Es, <- app_assoc; reflexivity).
    rewrite (zero_words_ok m (w + 1)) by (rewrite ?app_length; cbn [length]; lia). cbn [obind].
    rewrite (app_assoc (pack t1 ++ [l'])). rewrite wr_at by (rewrite !app_length, repeat_length; cbn [length]; unfold m; lia). cbn [obind].
    replace (((pack t1 ++ [l']) ++ repeat 0%Z m) ++ [sc_Nh c; y2]) with ((((pack t1 ++ [l']) ++ repeat 0%Z m) ++ [sc_Nh c]) ++ y2 :: []) by (rewrite <- app_assoc; reflexivity).
    rewrite wr_at by (rewrite !app_length, repeat_length; cbn [length]; unfold m; lia). cbn [obind].
    set (b := tail ++ q ++ repeat 0%Z (4 * m)).
    assert (Lb : length b = 56) by (unfold b; rewrite !app_length, repeat_length; unfold m; lia).
    assert (Bb : Forall byte b) by (unfold b; apply Forall_app; split; [exact Bt|]; apply Forall_app; split; [exact Bq|apply zeros_byte]).
    assert (EB : (((pack t1 ++ [l']) ++ repeat 0%Z m) ++ [sc_Nh c]) ++ [sc_Nl c] = pack b ++ [sc_Nh c; sc_Nl c]) by (unfold b; rewrite EP, <- !app_assoc; reflexivity).
    rewrite EB. destruct Hhv as [A1 A2]. destruct (compress_ok (sc_h c) (pack b ++ [sc_Nh c; sc_Nl c])) as [X1 [X2 X3]];
      [exact A1|rewrite app_length, (pack_length 14) by exact Lb; reflexivity|exact A2| |].
    { apply Forall_app. split; [apply (pack_w32 56); [lia|exact Bb]|apply Forall_cons; [exact Hh|apply Forall_cons; [exact Hl|apply Forall_nil]]]. }
    rewrite X1. cbn [obind].
    assert (HF : fips_hash IV (bits_of_bytes msg) = fips_compress (sc_h c) (pack b ++ [sc_Nh c; sc_Nl c])).
    { rewrite (HP (55 - length tail) 1) by (unfold m in *; lia).
      replace (tail ++ 128%Z :: repeat 0%Z (55 - length tail)) with b.
      - cbn [words map fold_left]. rewrite firstn_all2 by (rewrite ?app_length, ?bob_length, ?msb_bits_length; lia).
        rewrite (block_words_last b (sc_Nh c) (sc_Nl c)) by assumption. reflexivity.
      - unfold b. rewrite EQ. do 3 f_equal. unfold m. lia. }
    rewrite HF. split; [reflexivity|split; assumption].
Qed.

(** ** output *)
Lemma l2c_byte l : Forall byte (HOST_l2c l).
Proof.
  unfold HOST_l2c. change 255%Z with (Z.ones 8). rewrite !Z.land_ones by lia. change (2 ^ 8)%Z with 256%Z. unfold byte.
  repeat (apply Forall_cons; [apply Z.mod_pos_bound; reflexivity|]). apply Forall_nil.
Qed.
Lemma l2c_bits l : bits_of_bytes (HOST_l2c l) = msb_bits 32 l.
Proof.
  unfold HOST_l2c, bits_of_bytes. cbn [flat_map]. rewrite app_nil_r. change 255%Z with (Z.ones 8). rewrite !Z.land_ones by lia. rewrite !Z.shiftr_div_pow2 by lia.
  change 32 with (8 + (8 + (8 + 8))). rewrite !msb_bits_add. change (Z.of_nat (8 + (8 + 8))) with 24%Z. change (Z.of_nat (8 + 8)) with 16%Z. change (Z.of_nat 8) with 8%Z.
  f_equal; [|f_equal; [|f_equal]]; apply msb_bits_mod; change (Z.of_nat 8) with 8%Z; apply Z.mod_mod; intro; discriminate.
Qed.
Lemma make_string_ok h md : md <= 32 -> length h = 8 -> HASH_MAKE_STRING h md = Ok (Some (flat_map HOST_l2c (firstn (md / 4) h))).
Proof.
  intros Hm Lh. unfold HASH_MAKE_STRING. rewrite (proj2 (Nat.ltb_ge 32 md)) by exact Hm.
  assert (Hd : md / 4 <= 8) by (apply (Nat.div_le_upper_bound md 4 8); lia). set (k := md / 4) in *. clearbody k.
  assert (G : forall n i acc, i + n <= 8 -> ofor i n (fun n md => ll <- idx h n ;; Ok (md ++ HOST_l2c ll)) acc = Ok (acc ++ flat_map HOST_l2c (firstn n (skipn i h)))).
  { induction n as [|n IH]; intros i acc Hi; [cbn [ofor firstn flat_map]; rewrite app_nil_r; reflexivity|]. cbn [ofor].
    rewrite (idx_nth h i 0%Z) by lia. cbn [obind]. rewrite IH by lia. f_equal. rewrite <- app_assoc. f_equal.
    assert (K : skipn i h = nth i h 0%Z :: skipn (S i) h).
    { clear - Lh Hi. assert (i < length h) by lia. clear Lh Hi n. revert i H. induction h as [|x h IH]; intros i H; [cbn in H; lia|]. destruct i as [|i]; [reflexivity|].
      cbn [skipn nth]. apply IH. cbn in H. lia. }
    rewrite K. reflexivity. }
  rewrite G by lia. reflexivity.
Qed.
Lemma flat_l2c_bits h : bits_of_bytes (flat_map HOST_l2c h) = word_bits h.
Proof. induction h as [|x h IH]; [reflexivity|]. cbn [flat_map]. rewrite bob_app, IH, l2c_bits. reflexivity. Qed.
Lemma flat_l2c_byte h : Forall byte (flat_map HOST_l2c h).
Proof. induction h as [|x h IH]; [apply Forall_nil|]. cbn [flat_map]. apply Forall_app. split; [apply l2c_byte|exact IH]. Qed.

Lemma H256_eq c : sc_h (SHA256_Init c) = fips_H256. Proof. vm_compute. reflexivity. Qed.
Lemma H224_eq c : sc_h (SHA224_Init c) = fips_H224. Proof. vm_compute. reflexivity. Qed.
Lemma hval_of h : forallb (fun x => (0 <=? x)%Z && (x <? 2 ^ 32)%Z) h = true -> length h = 8 -> hval h.
Proof.
  intros H L. split; [exact L|]. apply Forall_forall. intros x Hx. rewrite forallb_forall in H. apply H in Hx. apply andb_true_iff in Hx as [A B].
  apply Z.leb_le in A. apply Z.ltb_lt in B. split; assumption.
Qed.
Lemma H256_hval : hval fips_H256. Proof. apply hval_of; vm_compute; reflexivity. Qed.
Lemma H224_hval : hval fips_H224. Proof. apply hval_of; vm_compute; reflexivity. Qed.
Lemma init_inv c IV md : length (sc_data c) = 16 -> sc_h c = IV -> sc_Nl c = 0%Z -> sc_Nh c = 0%Z -> sc_num c = 0 -> sc_md_len c = md -> inv IV [] md c.
Proof.
  intros Ld Eh El En Eu Em. constructor.
  - exists [], [], (sc_data c), 0. cbn [app length pack]. repeat (split; [first [reflexivity | assumption | lia]|]). exact Ld.
  - apply Forall_nil.
  - rewrite El. unfold w32. lia.
  - rewrite En. unfold w32. lia.
  - rewrite El, En. reflexivity.
  - exact Em.
Qed.

Lemma sha256_stream : forall c chunks, length (sc_data c) = 16 -> Forall (Forall byte) chunks ->
  exists c' md, updates (SHA256_Init c) chunks = Ok c' /\ SHA256_Final c' = Ok (Some md) /\ length md = 32 /\ is_sha256 (concat chunks) md.
Proof.
  intros c chunks Ld B. destruct (updates_ok fips_H256 32 chunks [] (SHA256_Init c) H256_hval) as [c' [E I]]; [|exact B|].
  { apply init_inv; [exact Ld|apply H256_eq|reflexivity..]. }
  cbn [app] in I. destruct (final_ok _ _ _ _ H256_hval I) as [F [Lh Wh]].
  rewrite make_string_ok in F by (lia || exact Lh). change (32 / 4) with 8 in F. rewrite firstn_all2 in F by lia.
  eexists c', _. split; [exact E|]. split; [exact F|]. split; [|split; [apply flat_l2c_byte|apply flat_l2c_bits]].
  clear - Lh. destruct (fips_hash _ _) as [|a0 [|a1 [|a2 [|a3 [|a4 [|a5 [|a6 [|a7 [|]]]]]]]]]; try discriminate Lh. reflexivity.
Qed.
Lemma firstn_word_bits n : forall h, firstn (n * 32) (word_bits h) = word_bits (firstn n h).
Proof.
  induction n as [|n IH]; intros h; [reflexivity|]. destruct h as [|x h]; [apply firstn_nil|].
  change (word_bits (x :: h)) with (msb_bits 32 x ++ word_bits h). change (word_bits (firstn (S n) (x :: h))) with (msb_bits 32 x ++ word_bits (firstn n h)).
  rewrite firstn_app, msb_bits_length. rewrite firstn_all2 by (rewrite msb_bits_length; lia). f_equal.
  replace (S n * 32 - 32) with (n * 32) by lia. apply IH.
Qed.
Lemma sha224_stream : forall c chunks, length (sc_data c) = 16 -> Forall (Forall byte) chunks ->
  exists c' md, updates (SHA224_Init c) chunks = Ok c' /\ SHA256_Final c' = Ok (Some md) /\ length md = 28 /\ is_sha224 (concat chunks) md.
Proof.
  intros c chunks Ld B. destruct (updates_ok fips_H224 28 chunks [] (SHA224_Init c) H224_hval) as [c' [E I]]; [|exact B|].
  { apply init_inv; [exact Ld|apply H224_eq|reflexivity..]. }
  cbn [app] in I. destruct (final_ok _ _ _ _ H224_hval I) as [F [Lh Wh]].
  rewrite make_string_ok in F by (lia || exact Lh). change (28 / 4) with 7 in F.
  eexists c', _. split; [exact E|]. split; [exact F|]. split; [|split; [apply flat_l2c_byte|]].
  - clear - Lh. destruct (fips_hash _ _) as [|a0 [|a1 [|a2 [|a3 [|a4 [|a5 [|a6 [|a7 [|]]]]]]]]]; try discriminate Lh. reflexivity.
  - rewrite flat_l2c_bits. unfold sha224_bits. change 224 with (7 * 32). rewrite firstn_word_bits. reflexivity.
Qed.
Lemma sha256_oneshot : forall c m, length (sc_data c) = 16 -> Forall byte m ->
  exists md, SHA256 c m = Ok (Some md) /\ length md = 32 /\ is_sha256 m md.
Proof.
  intros c m Ld B. destruct (sha256_stream c [m] Ld) as [c' [md [E [F G]]]]; [apply Forall_cons; [exact B|apply Forall_nil]|].
  exists md. cbn [concat] in G. rewrite app_nil_r in G. split; [|exact G]. unfold SHA256. cbn [updates] in E.
  destruct (SHA256_Update (SHA256_Init c) m); try discriminate E. cbn [obind] in E |- *. injection E as ->. exact F.
Qed.
(** digests are unique *)
Lemma bits_inj : forall a b, Forall byte a -> Forall byte b -> bits_of_bytes a = bits_of_bytes b -> a = b.
Proof.
  induction a as [|x a IH]; intros [|y b] Ba Bb E; [reflexivity| | |].
  - apply (f_equal (@length bool)) in E. rewrite !bob_length in E. cbn [length] in E. lia.
  - apply (f_equal (@length bool)) in E. rewrite !bob_length in E. cbn [length] in E. lia.
  - change (msb_bits 8 x ++ bits_of_bytes a = msb_bits 8 y ++ bits_of_bytes b) in E.
    assert (E1 : msb_bits 8 x = msb_bits 8 y) by (apply (f_equal (firstn 8)) in E; exact E).
    assert (E2 : bits_of_bytes a = bits_of_bytes b) by (apply (f_equal (skipn 8)) in E; exact E).
    binv. apply (f_equal msb_val) in E1. rewrite !msb_val_bits in E1. change (2 ^ Z.of_nat 8)%Z with 256%Z in E1. unfold byte in *. rewrite !Z.mod_small in E1 by lia.
    f_equal; [exact E1|]. apply IH; assumption.
Qed.
Lemma sha256_chunking : forall c c' chunks chunks', length (sc_data c) = 16 -> length (sc_data c') = 16 ->
  Forall (Forall byte) chunks -> Forall (Forall byte) chunks' -> concat chunks = concat chunks' ->
  exists md, obind (updates (SHA256_Init c) chunks) SHA256_Final = Ok (Some md) /\ obind (updates (SHA256_Init c') chunks') SHA256_Final = Ok (Some md).
Proof.
  intros c c' ch ch' L L' B B' E.
  destruct (sha256_stream c ch L B) as [c1 [md [E1 [F1 [_ [Q1 D1]]]]]]. destruct (sha256_stream c' ch' L' B') as [c2 [md' [E2 [F2 [_ [Q2 D2]]]]]].
  exists md. rewrite E1, E2. cbn [obind]. split; [exact F1|]. rewrite F2. do 2 f_equal. apply bits_inj; [exact Q2|exact Q1|]. rewrite D1, D2, E. reflexivity.
Qed.
Lemma fips_padding : forall len, pad_zeros 512 len ((447 + 511 * len) mod 512).
Proof.
  intros len. set (k := (447 + 511 * len) mod 512). assert (Hk : k < 512) by (apply Nat.mod_upper_bound; lia).
  pose proof (Nat.div_mod (447 + 511 * len) 512 ltac:(lia)) as D. fold k in D.
  assert (Z0 : (len + 1 + k + 64) mod 512 = 0).
  { symmetry. apply (Nat.mod_unique _ _ (len + 1 - (447 + 511 * len) / 512)); [lia|]. lia. }
  split; [exact Z0|]. intros k' Hk' C.
  pose proof (Nat.div_mod (len + 1 + k + 64) 512 ltac:(lia)) as D1. pose proof (Nat.div_mod (len + 1 + k' + 64) 512 ltac:(lia)) as D2. rewrite Z0 in D1. rewrite C in D2. lia.
Qed.
