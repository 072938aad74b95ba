(** SHA256_Update keeps the invariant "everything so far", SHA256_Final pads. *)
From Coq Require Import List ZArith Bool Arith Lia.
From Verif Require Import Base M_Utils M_Sha256 Spec_Utils Spec_Padding Spec_Sha256 P_Sha256 P_Sha256b.
Import ListNotations.
Local Open Scope nat_scope.

(** [full] is hashed, [tail] is in the buffer *)
Record inv (IV msg : list Z) (md : nat) (c : sctx) : Prop := Inv {
  iv_split : exists full tail junk n, msg = full ++ tail /\ length full = 64 * n /\ length tail < 64 /\ sc_h c = iter n full IV /\
     sc_num c = length tail /\ sc_data c = pack tail ++ junk /\ length (sc_data c) = 16;
  iv_bytes : Forall byte msg;
  iv_nl : w32 (sc_Nl c); iv_nh : w32 (sc_Nh c);
  iv_len : (sc_Nh c * 2 ^ 32 + sc_Nl c = (8 * Z.of_nat (length msg)) mod 2 ^ 64)%Z;
  iv_md : sc_md_len c = md }.

Lemma len_counter Nl Nh L len : w32 Nl -> w32 Nh -> (0 <= L)%Z -> (0 <= len)%Z -> (Nh * 2 ^ 32 + Nl = (8 * L) mod 2 ^ 64)%Z ->
  let l := u32 (Nl + u32 (Z.shiftl (u32 len) 3)) in
  let Nh1 := if (l <? Nl)%Z then u32 (Nh + 1) else Nh in
  let Nh2 := u32 (Nh1 + Z.shiftr len 29) in
  (Nh2 * 2 ^ 32 + l = (8 * (L + len)) mod 2 ^ 64)%Z.
Proof.
  intros Hl Hh HL Hn E l Nh1 Nh2. unfold w32 in *.
  assert (S3 : u32 (Z.shiftl (u32 len) 3) = ((8 * len) mod 2 ^ 32)%Z).
  { unfold u32. rewrite Z.shiftl_mul_pow2 by lia. rewrite Z.mul_mod_idemp_l by (intro; discriminate). f_equal. lia. }
  set (m := ((8 * len) mod 2 ^ 32)%Z) in *. assert (Hm : (0 <= m < 2 ^ 32)%Z) by (apply Z.mod_pos_bound; reflexivity).
  assert (S4 : (8 * len = Z.shiftr len 29 * 2 ^ 32 + m)%Z).
  { unfold m. rewrite Z.shiftr_div_pow2 by lia. replace (len / 2 ^ 29)%Z with ((8 * len) / 2 ^ 32)%Z.
    - pose proof (Z.div_mod (8 * len) (2 ^ 32) ltac:(intro; discriminate)). lia.
    - replace (2 ^ 32)%Z with (8 * 2 ^ 29)%Z by reflexivity. apply Z.div_mul_cancel_l; [intro; discriminate|lia]. }
  set (q := Z.shiftr len 29) in *.
  (* the carry *)
  assert (C : exists k, (Nl + m = l + k * 2 ^ 32)%Z /\ Nh1 = u32 (Nh + k)).
  { unfold Nh1, l. rewrite S3. unfold u32. destruct (Z.ltb_spec (Nl + m) (2 ^ 32)) as [A|A].
    - rewrite (Z.mod_small (Nl + m)) by lia. exists 0%Z. rewrite (proj2 (Z.ltb_ge _ _)) by lia. split; [lia|]. rewrite Z.add_0_r, Z.mod_small by lia. reflexivity.
    - assert (M1 : ((Nl + m) mod 2 ^ 32 = Nl + m - 2 ^ 32)%Z) by (symmetry; apply (Z.mod_unique _ _ 1); lia). rewrite M1.
      exists 1%Z. rewrite (proj2 (Z.ltb_lt _ _)) by lia. split; [lia|reflexivity]. }
  destruct C as [k [C1 C2]].
  assert (Hl' : (0 <= l < 2 ^ 32)%Z) by apply u32_lt.
  unfold Nh2. rewrite C2. unfold u32. rewrite Z.add_mod_idemp_l by (intro; discriminate).
  pose proof (Z.div_mod (8 * L) (2 ^ 64) ltac:(intro; discriminate)) as D. rewrite <- E in D.
  set (e := (8 * L / 2 ^ 64)%Z) in *. set (r := (Nh + k + q)%Z).
  pose proof (Z.div_mod r (2 ^ 32) ltac:(intro; discriminate)) as D2. pose proof (Z.mod_pos_bound r (2 ^ 32) ltac:(reflexivity)) as D3.
  apply (Z.mod_unique _ _ (e + r / 2 ^ 32)).
  - left. change (2 ^ 64)%Z with (2 ^ 32 * 2 ^ 32)%Z. nia.
  - unfold r in *. rewrite Z.mul_add_distr_l, S4, D. change (2 ^ 64)%Z with (2 ^ 32 * 2 ^ 32)%Z in *. nia.
Qed.

Lemma update_ok : forall IV msg md c d, hval IV -> inv IV msg md c -> Forall byte d ->
  exists c', SHA256_Update c d = Ok c' /\ inv IV (msg ++ d) md c'.
Proof.
  intros IV msg md c d HIV [[full [tail [junk [n [Em [Lf [Lt [Eh [En [Ed Ld]]]]]]]]]] Bm Hl Hh HL Hmd] Bd.
  unfold SHA256_Update.
  destruct (Nat.eqb_spec (length d) 0) as [Z0|NZ].
  { destruct d; [|discriminate Z0]. exists c. split; [reflexivity|]. rewrite app_nil_r. constructor; try assumption.
    exists full, tail, junk, n. repeat (split; [assumption|]). assumption. }
  pose proof (len_counter (sc_Nl c) (sc_Nh c) (Z.of_nat (length msg)) (Z.of_nat (length d)) Hl Hh ltac:(lia) ltac:(lia) HL) as HC. cbv zeta in HC.
  set (Nl' := u32 (sc_Nl c + u32 (Z.shiftl (u32 (Z.of_nat (length d))) 3))) in *.
  set (Nh' := u32 ((if (Nl' <? sc_Nl c)%Z then u32 (sc_Nh c + 1) else sc_Nh c) + Z.shiftr (Z.of_nat (length d)) 29)) in *.
  assert (HNl : w32 Nl') by apply u32_lt. assert (HNh : w32 Nh') by apply u32_lt.
  assert (HC' : (Nh' * 2 ^ 32 + Nl' = (8 * Z.of_nat (length (msg ++ d))) mod 2 ^ 64)%Z) by (rewrite app_length, Nat2Z.inj_add; exact HC).
  clearbody Nl' Nh'. clear HC.
  assert (Bmd : Forall byte (msg ++ d)) by (apply Forall_app; split; assumption).
  assert (Bft : Forall byte full /\ Forall byte tail) by (rewrite Em in Bm; apply Forall_app; exact Bm). destruct Bft as [Bf Bt].
  assert (Hhv : hval (sc_h c)) by (rewrite Eh; apply iter_hval; assumption).
  rewrite En.
  destruct (Nat.eqb_spec (length tail) 0) as [T0|TN]; cbn [negb].
  { (* nothing buffered *)
    destruct tail; [|discriminate T0]. rewrite app_nil_r in Em. cbn [length].
    destruct (update_rest_ok (sc_h c) (sc_data c) d Hhv Ld Bd) as [f2 [t2 [j2 [n2 [E2 [Lf2 [Lt2 [Lp2 U2]]]]]]]].
    rewrite U2. cbn [obind]. eexists. split; [reflexivity|]. constructor; cbn [sc_Nl sc_Nh sc_md_len sc_h sc_num sc_data]; try assumption.
    exists (full ++ f2), t2, j2, (n + n2). split; [rewrite E2, Em, app_assoc; reflexivity|]. split; [rewrite app_length; lia|]. split; [exact Lt2|].
    split; [rewrite iter_app by exact Lf; rewrite Eh; reflexivity|]. split; [reflexivity|]. split; [reflexivity|exact Lp2]. }
  (* the buffer: whole words t1, partial word t2 *)
  set (w := length tail / 4). assert (Hw : 4 * w <= length tail) by (apply Nat.mul_div_le; lia).
  rewrite !land3. set (sc := length tail mod 4).
  assert (Hw' : sc = length tail - 4 * w) by (unfold sc, w; apply Nat.mod_eq; lia).
  assert (Hm : sc < 4) by (apply Nat.mod_upper_bound; lia).
  destruct (split_at tail (4 * w) Hw) as [t1 [t2 [Et L1]]].
  assert (L2 : length t2 = sc) by (rewrite Hw', Et, app_length; lia).
  assert (B12 : Forall byte t1 /\ Forall byte t2) by (rewrite Et in Bt; apply Forall_app; exact Bt). destruct B12 as [B1 B2].
  assert (LP : length (pack t1) = w) by (apply pack_length; exact L1).
  (* the word at position w *)
  assert (HB : exists x s, sc_data c = pack t1 ++ x :: s /\ holds_word t2 x /\ w + S (length s) = 16).
  { rewrite Ed, Et, (pack_app w) by exact L1. rewrite Ed, Et, (pack_app w) in Ld by exact L1. rewrite !app_length, LP in Ld.
    destruct t2 as [|y t2].
    - cbn [pack app length] in *. rewrite app_nil_r. destruct junk as [|x s]; [cbn [length] in Ld; lia|]. exists x, s. split; [reflexivity|]. split; [left; reflexivity|cbn [length] in Ld; lia].
    - destruct (c2l_p_ok (y :: t2)) as [x [_ Px]]; [cbn [length] in *; lia|exact B2|]. rewrite Px in *. exists x, junk.
      rewrite <- app_assoc. split; [reflexivity|]. split; [right; exact Px|]. cbn [length] in Ld. lia. }
  destruct HB as [x [s [Ex [Hx Ls]]]]. rewrite Ex.
  destruct (Nat.leb_spec 64 (length tail + length d)) as [G|G].
  - (* the block is completed *)
    rewrite idx_at by (symmetry; exact LP). cbn [obind].
    destruct (split_at d (64 - length tail)) as [d1 [d2 [Edd Ld1]]]; [lia|].
    destruct (split_at d1 (4 - sc)) as [q [d3 [Eq Lq]]]; [lia|].
    rewrite Edd in Bd. apply Forall_app in Bd as [Bd1 Bd2]. rewrite Eq in Bd1. apply Forall_app in Bd1 as [Bq Bd3].
    destruct (p_c2l_ok t2 q (d3 ++ d2) x) as [l' [El Pl]]; [lia|lia|exact B2|exact Bq|exact Hx|].
    rewrite L2 in El. replace d with (q ++ d3 ++ d2) by (rewrite Edd, Eq, <- app_assoc; reflexivity). rewrite El. cbn [obind].
    rewrite wr_at by (symmetry; exact LP). cbn [obind].
    assert (Ld3 : length d3 = 4 * (16 - (w + 1))) by (rewrite Eq, app_length in Ld1; lia).
    replace (pack t1 ++ l' :: s, d3 ++ d2) with ((pack t1 ++ [l']) ++ s ++ [], d3 ++ d2) by (rewrite <- app_assoc, app_nil_r; reflexivity).
    rewrite (copy_words_ok (16 - (w + 1)) (w + 1) (pack t1 ++ [l']) s [] d3 d2); [|rewrite app_length; cbn [length]; lia|lia|exact Ld3|exact Bd3].
    cbn [obind]. rewrite app_nil_r.
    assert (EP : (pack t1 ++ [l']) ++ pack d3 = pack (tail ++ d1)).
    { rewrite Et, Eq. rewrite <- (app_assoc t1), (pack_app w t1) by exact L1. rewrite (app_assoc t2 q d3), (pack_app 1 (t2 ++ q)) by (rewrite app_length; lia).
      rewrite Pl, <- app_assoc. reflexivity. }
    rewrite EP. assert (Lb : length (tail ++ d1) = 64) by (rewrite app_length; lia).
    assert (Bb : Forall byte (tail ++ d1)) by (apply Forall_app; split; [exact Bt|]; rewrite Eq; apply Forall_app; split; assumption).
    destruct (step_hval (sc_h c) (tail ++ d1) Hhv Lb Bb) as [-> Hh2]. cbn [obind].
    assert (Lpk : length (pack (tail ++ d1)) = 16) by (apply pack_length; lia).
    destruct (update_rest_ok _ (pack (tail ++ d1)) d2 Hh2 Lpk Bd2) as [f2 [tt2 [j2 [n2 [E2 [Lf2 [Lt2 [Lp2 U2]]]]]]]].
    rewrite U2. cbn [obind]. eexists. split; [reflexivity|]. constructor; cbn [sc_Nl sc_Nh sc_md_len sc_h sc_num sc_data]; try assumption.
    all: replace (q ++ d3 ++ d2) with d by (rewrite Edd, Eq, <- app_assoc; reflexivity); try assumption.
    exists (full ++ (tail ++ d1) ++ f2), tt2, j2, (n + (1 + n2)).
    split; [rewrite Em, Edd, E2, <- !app_assoc; reflexivity|]. split; [rewrite !app_length in *; lia|]. split; [exact Lt2|].
    split; [rewrite iter_app by exact Lf; rewrite iter_app by exact Lb; rewrite iter1 by exact Lb; rewrite Eh; reflexivity|].
    split; [reflexivity|]. split; [reflexivity|exact Lp2].
  - destruct (Nat.ltb_spec (sc + length d) 4) as [K|K].
    + (* a few bytes into the same word *)
      rewrite idx_at by (symmetry; exact LP). cbn [obind].
      destruct (p_c2l_p_ok t2 d x) as [l' [El Pl]]; [intros ->; apply NZ; reflexivity|lia|exact B2|exact Bd|exact Hx|].
      rewrite L2 in El. rewrite El. cbn [obind]. rewrite wr_at by (symmetry; exact LP). cbn [obind].
      eexists. split; [reflexivity|]. constructor; cbn [sc_Nl sc_Nh sc_md_len sc_h sc_num sc_data]; try assumption.
      exists full, (tail ++ d), s, n. rewrite app_length.
      split; [rewrite Em, <- app_assoc; reflexivity|]. split; [exact Lf|]. split; [lia|]. split; [exact Eh|]. split; [reflexivity|].
      assert (EP : pack (tail ++ d) = pack t1 ++ [l']) by (rewrite Et, <- (app_assoc t1), (pack_app w) by exact L1; rewrite Pl; reflexivity).
      rewrite EP, <- app_assoc. split; [reflexivity|]. rewrite app_length. cbn [app length]. lia.
    + (* several words, block not completed *)
      destruct (split_at d (4 - sc)) as [q [d3 [Eq Lq]]]; [lia|]. 
      assert (Bqd : Forall byte q /\ Forall byte d3) by (rewrite Eq in Bd; apply Forall_app; exact Bd). destruct Bqd as [Bq Bd3].
      set (num := length tail + length d) in *. set (ew := num / 4). set (ec := num mod 4).
      assert (Hew : num = 4 * ew + ec) by (apply Nat.div_mod; lia). assert (Hec : ec < 4) by (apply Nat.mod_upper_bound; lia).
      assert (Lqd : length d = length q + length d3) by (rewrite Eq, app_length; reflexivity).
      destruct (split_at d3 (4 * (ew - (w + 1)))) as [d4 [d5 [E5 L4]]]; [lia|].
      assert (L5 : length d5 = ec) by (assert (length d3 = length d4 + length d5) by (rewrite E5, app_length; reflexivity); lia).
      rewrite E5 in Bd3. apply Forall_app in Bd3 as [Bd4 Bd5].
      (* the word read is x or irrelevant *)
      assert (HL0 : exists l0, (if sc =? 0 then Ok Nl' else idx (pack t1 ++ x :: s) w) = Ok l0 /\ holds_word t2 l0).
      { destruct (Nat.eqb_spec sc 0) as [S0|S0].
        - exists Nl'. split; [reflexivity|]. left. destruct t2; [reflexivity|cbn [length] in L2; lia].
        - exists x. split; [apply idx_at; symmetry; exact LP|exact Hx]. }
      destruct HL0 as [l0 [-> Hl0]]. cbn [obind].
      destruct (p_c2l_ok t2 q (d4 ++ d5) l0) as [l' [El Pl]]; [lia|lia|exact B2|exact Bq|exact Hl0|].
      rewrite L2 in El. replace d with (q ++ d4 ++ d5) by (rewrite Eq, E5; reflexivity). rewrite El. cbn [obind].
      rewrite wr_at by (symmetry; exact LP). cbn [obind].
      destruct (split_at s (ew - (w + 1))) as [s1 [s2 [Es Ls1]]]; [lia|].
      assert (Ls2 : length s = length s1 + length s2) by (rewrite Es, app_length; reflexivity).
      replace (pack t1 ++ l' :: s, d4 ++ d5) with ((pack t1 ++ [l']) ++ s1 ++ s2, d4 ++ d5) by (rewrite Es, <- app_assoc; reflexivity).
      rewrite (copy_words_ok (ew - (w + 1)) (w + 1) (pack t1 ++ [l']) s1 s2 d4 d5); [|rewrite app_length; cbn [length]; lia|exact Ls1|exact L4|exact Bd4].
      cbn [obind].
      assert (LP4 : length (pack d4) = ew - (w + 1)) by (apply pack_length; exact L4).
      assert (EP : pack (tail ++ q ++ d4 ++ d5) = ((pack t1 ++ [l']) ++ pack d4) ++ pack d5).
      { rewrite Et, <- (app_assoc t1), (pack_app w t1) by exact L1. rewrite (app_assoc t2 q), (pack_app 1 (t2 ++ q)) by (rewrite app_length; lia).
        rewrite Pl, (pack_app (ew - (w + 1)) d4) by exact L4. rewrite <- !app_assoc. reflexivity. }
      assert (HF : exists p j, (if ec =? 0 then Ok ((pack t1 ++ [l']) ++ pack d4 ++ s2) else (l <- HOST_c2l_p d5 ec ;; wr ((pack t1 ++ [l']) ++ pack d4 ++ s2) ew l)) = Ok p /\
         p = pack (tail ++ q ++ d4 ++ d5) ++ j /\ length p = 16).
      { rewrite EP. destruct (Nat.eqb_spec ec 0) as [C0|C0].
        - destruct d5; [|cbn [length] in L5; lia]. cbn [pack]. rewrite app_nil_r. exists ((pack t1 ++ [l']) ++ pack d4 ++ s2), s2. split; [reflexivity|]. split; [rewrite <- !app_assoc; reflexivity|].
          rewrite !app_length. cbn [length]. lia.
        - destruct (c2l_p_ok d5) as [l5 [E5' P5]]; [lia|exact Bd5|]. rewrite L5 in E5'. rewrite E5'. cbn [obind]. rewrite P5.
          destruct s2 as [|y s2]; [cbn [length] in Ls2; lia|]. rewrite app_assoc. rewrite wr_at by (rewrite !app_length; cbn [length]; lia).
          exists (((pack t1 ++ [l']) ++ pack d4) ++ l5 :: s2), s2. split; [reflexivity|]. split; [rewrite <- !app_assoc; reflexivity|]. rewrite !app_length. cbn [length] in *. lia. }
      destruct HF as [p [j [-> [Ep Lp]]]]. cbn [obind]. eexists. split; [reflexivity|].
      constructor; cbn [sc_Nl sc_Nh sc_md_len sc_h sc_num sc_data]; try assumption.
      all: replace (q ++ d4 ++ d5) with d by (rewrite Eq, E5; reflexivity); try assumption.
      exists full, (tail ++ d), j, n. split; [rewrite Em, <- app_assoc; reflexivity|]. split; [exact Lf|]. rewrite app_length. split; [exact G|]. split; [exact Eh|]. split; [reflexivity|].
      split; [rewrite Ep; do 2 f_equal; rewrite Eq, E5; reflexivity|exact Lp].
Qed.
Lemma updates_ok : forall IV md ds msg c, hval IV -> inv IV msg md c -> Forall (Forall byte) ds ->
  exists c', updates c ds = Ok c' /\ inv IV (msg ++ concat ds) md c'.
Proof.
  intros IV md. induction ds as [|d ds IH]; intros msg c HIV I B; cbn [updates concat].
  - exists c. rewrite app_nil_r. split; [reflexivity|exact I].
  - destruct (update_ok IV msg md c d HIV I (Forall_inv B)) as [c1 [-> I1]]. cbn [obind].
    rewrite app_assoc. apply IH; [exact HIV|exact I1|exact (Forall_inv_tail B)].
Qed.
