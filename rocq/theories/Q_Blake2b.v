(** BLAKE2b of blake2b.c against RFC 7693. *)
From Coq Require Import List ZArith Bool Arith Lia.
From Verif Require Import Base M_Utils M_Blake2b Spec_Utils Spec_Sha256 Spec_Blake2b P_Utils P_Sha256 P_Sha256b P_Blake2b.
Import ListNotations.
Local Open Scope nat_scope.

Lemma mod128 t t' : (t mod 2 ^ 128 = t' mod 2 ^ 128 -> t mod 2 ^ 64 = t' mod 2 ^ 64 /\ (t / 2 ^ 64) mod 2 ^ 64 = (t' / 2 ^ 64) mod 2 ^ 64)%Z.
Proof.
  intros E. replace (2 ^ 128)%Z with (2 ^ 64 * 2 ^ 64)%Z in E by reflexivity. rewrite !Z.rem_mul_r in E by (discriminate || reflexivity).
  assert (B1 := Z.mod_pos_bound t (2 ^ 64) eq_refl). assert (B2 := Z.mod_pos_bound t' (2 ^ 64) eq_refl). lia.
Qed.
Lemma rfc_F_mod h m t t' f : (t mod 2 ^ 128 = t' mod 2 ^ 128)%Z -> rfc_F h m t f = rfc_F h m t' f.
Proof. intros E. apply mod128 in E as [E1 E2]. unfold rfc_F. rewrite E1, E2. reflexivity. Qed.

(** ** the chain of non-final blocks *)
Fixpoint chain (n : nat) (d : list Z) (t : Z) (h : list Z) : list Z :=
  match n with
  | O => h
  | S n' => chain n' (skipn 128 d) (t + 128) (rfc_F h (rfc_words (firstn 128 d)) (t + 128) false)
  end.
Lemma split128 n (full : list Z) : length full = 128 * S n -> exists a r, full = a ++ r /\ length a = 128 /\ length r = 128 * n.
Proof.
  intros L. destruct (split_at full 128) as (a & r & -> & La); [lia|]. exists a, r. rewrite app_length in L. repeat split; lia.
Qed.
Lemma fs128 {A} (a r : list A) : length a = 128 -> firstn 128 (a ++ r) = a /\ skipn 128 (a ++ r) = r.
Proof.
  intros L. rewrite <- L. split; [rewrite firstn_app, Nat.sub_diag, firstn_all, firstn_O, app_nil_r|rewrite skipn_app, Nat.sub_diag, skipn_all]; reflexivity.
Qed.
Lemma chain_snoc n : forall full b t h, length full = 128 * n -> length b = 128 ->
  chain (S n) (full ++ b) t h = rfc_F (chain n full t h) (rfc_words b) (t + 128 * Z.of_nat (S n)) false.
Proof.
  induction n as [|n IH]; intros full b t h Lf Lb.
  - destruct full; [|discriminate Lf]. cbn [app chain]. rewrite firstn_all2 by lia. reflexivity.
  - destruct (split128 n full Lf) as (a & r & -> & La & Lr). rewrite <- app_assoc.
    change (chain (S (S n)) (a ++ r ++ b) t h) with (chain (S n) (skipn 128 (a ++ r ++ b)) (t + 128) (rfc_F h (rfc_words (firstn 128 (a ++ r ++ b))) (t + 128) false)).
    change (chain (S n) (a ++ r) t h) with (chain n (skipn 128 (a ++ r)) (t + 128) (rfc_F h (rfc_words (firstn 128 (a ++ r))) (t + 128) false)).
    destruct (fs128 a (r ++ b) La) as [-> ->]. destruct (fs128 a r La) as [-> ->]. rewrite IH by assumption. f_equal. lia.
Qed.
Lemma blocks_split n : forall full buf t h, length full = 128 * n ->
  rfc_blocks n (full ++ buf) t h =
  rfc_F (chain n full t h) (rfc_words (buf ++ zeros (128 - length buf))) (t + 128 * Z.of_nat n + Z.of_nat (length buf)) true.
Proof.
  induction n as [|n IH]; intros full buf t h Lf.
  - destruct full; [|discriminate Lf]. cbn [app chain rfc_blocks]. f_equal. lia.
  - destruct (split128 n full Lf) as (a & r & -> & La & Lr). rewrite <- app_assoc.
    change (rfc_blocks (S n) (a ++ r ++ buf) t h) with (rfc_blocks n (skipn 128 (a ++ r ++ buf)) (t + 128) (rfc_F h (rfc_words (firstn 128 (a ++ r ++ buf))) (t + 128) false)).
    change (chain (S n) (a ++ r) t h) with (chain n (skipn 128 (a ++ r)) (t + 128) (rfc_F h (rfc_words (firstn 128 (a ++ r))) (t + 128) false)).
    destruct (fs128 a (r ++ buf) La) as [-> ->]. destruct (fs128 a r La) as [-> ->]. rewrite IH by assumption. f_equal. lia.
Qed.

(** ** the streaming invariant *)
Inductive binv (h0 data : list Z) (ctx : bctx) : Prop :=
| BInv n full buf junk :
  data = full ++ buf -> length full = 128 * n ->
  bc_c ctx = length buf -> length buf <= 128 -> n = 0 \/ 0 < length buf ->
  bc_b ctx = buf ++ junk -> length (bc_b ctx) = 128 -> Forall byte data ->
  bc_h ctx = chain n full 0 h0 -> hval64 (bc_h ctx) ->
  w64 (bc_t0 ctx) -> w64 (bc_t1 ctx) ->
  (bc_t0 ctx + 2 ^ 64 * bc_t1 ctx = (128 * Z.of_nat n) mod 2 ^ 128)%Z -> binv h0 data ctx.
Lemma count_ok ctx : w64 (bc_t0 ctx) -> w64 (bc_t1 ctx) -> bc_c ctx <= 128 ->
  let c' := count ctx in w64 (bc_t0 c') /\ w64 (bc_t1 c') /\
  (bc_t0 c' + 2 ^ 64 * bc_t1 c' = (bc_t0 ctx + 2 ^ 64 * bc_t1 ctx + Z.of_nat (bc_c ctx)) mod 2 ^ 128)%Z.
Proof.
  destruct ctx as [b h t0 t1 c ol]. cbn [bc_b bc_h bc_t0 bc_t1 bc_c bc_outlen]. intros T0 T1 C. unfold count. cbn [bc_b bc_h bc_t0 bc_t1 bc_c bc_outlen].
  unfold add64. split; [apply u64_lt|]. split; [destruct (_ <? _)%Z; [apply u64_lt|exact T1]|]. unfold w64, u64 in *. set (k := Z.of_nat c). assert (K : (0 <= k <= 128)%Z) by lia. clearbody k.
  change (2 ^ 128)%Z with 340282366920938463463374607431768211456%Z. change (2 ^ 64)%Z with 18446744073709551616%Z in *.
  destruct (Z.ltb_spec (t0 + k) 18446744073709551616%Z) as [L|L].
  - rewrite (Z.mod_small (t0 + k)) by lia. destruct (Z.ltb_spec (t0 + k) k); [lia|]. rewrite Z.mod_small by lia. lia.
  - assert (E : ((t0 + k) mod 18446744073709551616 = t0 + k - 18446744073709551616)%Z).
    { symmetry. apply (Z.mod_unique _ _ 1); lia. }
    rewrite E. destruct (Z.ltb_spec (t0 + k - 18446744073709551616) k); [|lia].
    destruct (Z.eq_dec t1 18446744073709551615) as [->|N].
    + change ((18446744073709551615 + 1) mod 18446744073709551616)%Z with 0%Z. apply (Z.mod_unique _ _ 1); lia.
    + rewrite (Z.mod_small (t1 + 1)) by lia. apply (Z.mod_unique _ _ 0); lia.
Qed.
Lemma update_byte_ok h0 data ctx x : binv h0 data ctx -> byte x ->
  exists ctx', update_byte ctx x = Ok ctx' /\ binv h0 (data ++ [x]) ctx' /\ bc_outlen ctx' = bc_outlen ctx.
Proof.
  intros [n full buf junk D Lf C C128 Ne Eb Lb By Eh Hh T0 T1 T] Bx. unfold update_byte.
  assert (By' : Forall byte (data ++ [x])) by (apply Forall_app; split; [exact By|apply Forall_cons; [exact Bx|apply Forall_nil]]).
  destruct (Nat.eqb_spec (bc_c ctx) 128) as [F|F].
  - assert (J : junk = []). { rewrite Eb, app_length in Lb. destruct junk; [reflexivity|cbn [length] in Lb; lia]. } subst junk. rewrite app_nil_r in Eb.
    destruct (count_ok ctx T0 T1) as (T0' & T1' & T'); [lia|].
    destruct (compress64_ok (count ctx) false) as [E Hv].
    { exact Lb. } { change (bc_b (count ctx)) with (bc_b ctx). rewrite Eb. rewrite D in By. apply Forall_app in By. apply By. } { exact Hh. } { exact T0'. } { exact T1'. }
    rewrite E. cbn [obind]. set (h' := rfc_F _ _ _ _) in *. set (t0 := bc_t0 (count ctx)) in *. set (t1 := bc_t1 (count ctx)) in *.
    unfold set_b. cbn [bc_b bc_h bc_t0 bc_t1 bc_c bc_outlen count]. rewrite Eb.
    destruct buf as [|y buf]; [cbn [length] in C; lia|]. replace (wr (y :: buf) 0 x) with (Ok (x :: buf)) by reflexivity. cbn [obind app].
    eexists. split; [reflexivity|]. split; [|reflexivity].
    apply (BInv _ _ _ (S n) (full ++ y :: buf) [x] buf); cbn [bc_b bc_h bc_t0 bc_t1 bc_c bc_outlen]; try reflexivity; try assumption.
    + rewrite D. reflexivity.
    + rewrite app_length. lia.
    + cbn [length]. lia.
    + right. cbn [length]. lia.
    + rewrite <- Lb, Eb. reflexivity.
    + rewrite chain_snoc by lia. unfold h'. change (bc_h (count ctx)) with (bc_h ctx). change (bc_b (count ctx)) with (bc_b ctx). rewrite Eb, Eh.
      apply rfc_F_mod. rewrite T', T, F, Zplus_mod_idemp_l, Z.mod_mod by discriminate. f_equal. lia.
    + rewrite T', T, F, Zplus_mod_idemp_l. f_equal. lia.
  - cbn [obind]. rewrite Eb. rewrite Eb, app_length in Lb. destruct junk as [|y junk]; [cbn [length] in Lb; lia|].
    rewrite (wr_at buf y junk x) by exact C. cbn [obind]. eexists. split; [reflexivity|]. split; [|reflexivity].
    apply (BInv _ _ _ n full (buf ++ [x]) junk); unfold set_b; cbn [bc_b bc_h bc_t0 bc_t1 bc_c bc_outlen]; try assumption.
    + rewrite D, app_assoc. reflexivity.
    + rewrite app_length. cbn [length]. lia.
    + rewrite app_length. cbn [length]. lia.
    + right. rewrite app_length. cbn [length]. lia.
    + rewrite <- app_assoc. reflexivity.
    + rewrite app_length. cbn [length] in *. lia.
Qed.
Lemma update64_ok h0 inp : forall data ctx, binv h0 data ctx -> Forall byte inp ->
  exists ctx', blake2b_update ctx inp = Ok ctx' /\ binv h0 (data ++ inp) ctx' /\ bc_outlen ctx' = bc_outlen ctx.
Proof.
  induction inp as [|x inp IH]; intros data ctx I B.
  - exists ctx. rewrite app_nil_r. split; [reflexivity|]. split; [exact I|reflexivity].
  - destruct (update_byte_ok h0 data ctx x I (Forall_inv B)) as (c1 & E1 & I1 & O1). cbn [blake2b_update]. rewrite E1. cbn [obind].
    destruct (IH _ c1 I1 (Forall_inv_tail B)) as (c2 & E2 & I2 & O2). exists c2. split; [exact E2|]. split; [|congruence].
    rewrite <- app_assoc in I2. exact I2.
Qed.
Lemma updates64_ok h0 chunks : forall data ctx, binv h0 data ctx -> Forall (Forall byte) chunks ->
  exists ctx', blake2b_updates ctx chunks = Ok ctx' /\ binv h0 (data ++ concat chunks) ctx' /\ bc_outlen ctx' = bc_outlen ctx.
Proof.
  induction chunks as [|x inp IH]; intros data ctx I B.
  - exists ctx. cbn [concat]. rewrite app_nil_r. split; [reflexivity|]. split; [exact I|reflexivity].
  - destruct (update64_ok h0 x data ctx I (Forall_inv B)) as (c1 & E1 & I1 & O1). cbn [blake2b_updates]. rewrite E1. cbn [obind].
    destruct (IH _ c1 I1 (Forall_inv_tail B)) as (c2 & E2 & I2 & O2). exists c2. split; [exact E2|]. split; [|congruence].
    rewrite <- app_assoc in I2. exact I2.
Qed.

(** ** initialisation *)
Lemma fill_zero off k pre old : length pre = off -> length old = k -> ofor off k (fun i b => wr b i 0%Z) (pre ++ old) = Ok (pre ++ zeros k).
Proof.
  revert off pre old. induction k as [|k IH]; intros off pre old Lp Lo.
  - destruct old; [|discriminate Lo]. reflexivity.
  - destruct old as [|y old]; [discriminate Lo|]. cbn [ofor]. rewrite (wr_at pre y old) by lia. cbn [obind].
    replace (pre ++ 0%Z :: old) with ((pre ++ [0%Z]) ++ old) by (rewrite <- app_assoc; reflexivity).
    rewrite IH; [|rewrite app_length; cbn [length]; lia|cbn [length] in Lo; lia]. rewrite <- app_assoc. reflexivity.
Qed.
Lemma fill_key l : forall ctx pre old rest, bc_b ctx = pre ++ old ++ rest -> bc_c ctx = length pre -> length old = length l -> length pre + length l <= 127 ->
  blake2b_update ctx l = Ok (set_b ctx (pre ++ l ++ rest) (length pre + length l)).
Proof.
  induction l as [|x l IH]; intros ctx pre old rest Eb C Lo H.
  - destruct old; [|discriminate Lo]. cbn [blake2b_update length app]. rewrite Nat.add_0_r, <- C. destruct ctx as [b h t0 t1 c ol]. cbn [bc_b] in Eb. rewrite Eb. reflexivity.
  - destruct old as [|y old]; [discriminate Lo|]. cbn [length] in *. cbn [blake2b_update]. unfold update_byte.
    destruct (Nat.eqb_spec (bc_c ctx) 128); [lia|]. cbn [obind]. rewrite Eb. cbn [app]. rewrite (wr_at pre y (old ++ rest) x) by exact C. cbn [obind].
    rewrite (IH _ (pre ++ [x]) old rest).
    + unfold set_b. cbn [bc_b bc_h bc_t0 bc_t1 bc_c bc_outlen]. rewrite app_length, <- app_assoc. cbn [length app]. do 2 f_equal. lia.
    + cbn [set_b bc_b]. rewrite <- app_assoc. reflexivity.
    + cbn [set_b bc_c]. rewrite app_length. cbn [length]. lia.
    + lia.
    + rewrite app_length. cbn [length]. lia.
Qed.
Definition hinit (nn : nat) (key : list Z) : list Z :=
  match rfc_IV with h0 :: r => Z.lxor h0 (0x01010000 + 256 * Z.of_nat (length key) + Z.of_nat nn) :: r | [] => [] end.
Definition keyed (key : list Z) : list Z := match key with [] => [] | _ => key ++ zeros (128 - length key) end.
Lemma param_ok k nn : k <= 64 -> nn <= 64 ->
  (Z.lxor (Z.lxor 0x01010000 (Z.shiftl (Z.of_nat k) 8)) (Z.of_nat nn) = 0x01010000 + 256 * Z.of_nat k + Z.of_nat nn)%Z.
Proof.
  intros Hk Hn. rewrite Z.shiftl_mul_pow2 by lia. rewrite (Z.lxor_comm 0x01010000). replace 0x01010000%Z with (257 * 2 ^ 16)%Z by reflexivity.
  rewrite lxor_add by lia. replace (Z.of_nat k * 2 ^ 8 + 257 * 2 ^ 16)%Z with ((Z.of_nat k + 257 * 2 ^ 8) * 2 ^ 8)%Z by lia.
  rewrite Z.lxor_comm, lxor_add by lia. lia.
Qed.
Lemma zeros_bytes n : Forall byte (zeros n).
Proof. apply Forall_forall. intros x H. apply repeat_spec in H. subst. apply byte0. Qed.
Lemma hinit_hval nn key : length key <= 64 -> nn <= 64 -> hval64 (hinit nn key).
Proof.
  intros Hk Hn. unfold hinit. rewrite IV_eq. assert (W := iv_w64). unfold blake2b_iv in W |- *. split; [reflexivity|].
  apply Forall_cons; [|exact (Forall_inv_tail W)]. apply lxor_w64; [exact (Forall_inv W)|]. split; [lia|]. change (2 ^ 64)%Z with 18446744073709551616%Z. lia.
Qed.
Lemma init64_ok ctx nn key : length (bc_b ctx) = 128 -> length (bc_h ctx) = 8 -> 0 < nn <= 64 -> length key <= 64 -> Forall byte key ->
  exists c, blake2b_init ctx nn key = Ok (Some c) /\ binv (hinit nn key) (keyed key) c /\ bc_outlen c = nn.
Proof.
  intros Lb Lh Hn Hk Bk. unfold blake2b_init.
  replace ((nn =? 0) || (64 <? nn) || (64 <? length key)) with false
    by (symmetry; rewrite !orb_false_iff; repeat split; [apply Nat.eqb_neq|apply Nat.ltb_ge|apply Nat.ltb_ge]; lia).
  assert (EH : ofor 0 8 (fun i h => iv <- idx blake2b_iv i ;; wr h i iv) (bc_h ctx) = Ok blake2b_iv).
  { destruct (len8 _ Lh) as (h0 & h1 & h2 & h3 & h4 & h5 & h6 & h7 & ->). reflexivity. }
  rewrite EH. cbn [obind]. rewrite param_ok by lia.
  assert (EW : (h0 <- idx blake2b_iv 0 ;; wr blake2b_iv 0 (Z.lxor h0 (0x01010000 + 256 * Z.of_nat (length key) + Z.of_nat nn))) = Ok (hinit nn key)).
  { unfold hinit. rewrite IV_eq. reflexivity. }
  destruct (idx blake2b_iv 0) as [x| | | |]; cbn [obind] in EW |- *; try discriminate EW. rewrite EW. cbn [obind]. clear EW EH x.
  assert (Hv := hinit_hval nn key Hk ltac:(lia)).
  destruct (split_at (bc_b ctx) (length key)) as (pre & old & Eb & Lp); [lia|]. rewrite Eb. rewrite Eb, app_length in Lb.
  rewrite fill_zero by lia. cbn [obind].
  destruct key as [|k0 key].
  - cbn [length] in *. destruct pre; [|discriminate Lp]. eexists. split; [reflexivity|]. split; [|reflexivity].
    apply (BInv _ _ _ 0 [] [] (zeros 128)); cbn [bc_b bc_h bc_t0 bc_t1 bc_c bc_outlen keyed length app]; try reflexivity; try (left; reflexivity); try lia; try apply Forall_nil; try exact Hv; unfold w64; lia.
  - assert (P : (0 <? length (k0 :: key)) = true) by reflexivity. rewrite P. set (K := k0 :: key) in *.
    rewrite (fill_key K _ [] pre (zeros (128 - length K))); cbn [bc_b bc_c length app]; [|reflexivity|reflexivity|lia|lia].
    cbn [obind]. eexists. split; [reflexivity|]. split; [|reflexivity].
    assert (EK : keyed K = K ++ zeros (128 - length K)) by reflexivity. rewrite EK.
    apply (BInv _ _ _ 0 [] (K ++ zeros (128 - length K)) []); unfold set_b; cbn [bc_b bc_h bc_t0 bc_t1 bc_c bc_outlen app]; rewrite ?app_nil_r, ?app_length; unfold zeros; rewrite ?repeat_length;
      try reflexivity; try (left; reflexivity); try lia; try exact Hv; try (unfold w64; lia).
    apply Forall_app. split; [exact Bk|apply zeros_bytes].
Qed.

(** ** finalisation *)
Lemma land7 n : Nat.land n 7 = n mod 8.
Proof. exact (Nat.land_ones n 3). Qed.
Definition obyte (h : list Z) (i : nat) : Z := ((nth (i / 8) h 0 / 2 ^ (8 * Z.of_nat (i mod 8))) mod 256)%Z.
Lemma out_bytes h : length h = 8 -> flat_map (le_bytes 8) h = map (obyte h) (seq 0 64).
Proof.
  intros L. destruct (len8 _ L) as (h0 & h1 & h2 & h3 & h4 & h5 & h6 & h7 & ->). reflexivity.
Qed.
Lemma firstn_seq' n m : forall s, n <= m -> firstn n (seq s m) = seq s n.
Proof. revert m. induction n as [|n IH]; intros m s H; [reflexivity|]. destruct m; [lia|]. cbn [seq firstn]. rewrite IH by lia. reflexivity. Qed.
Lemma final64_ok h0 data ctx : binv h0 data ctx -> bc_outlen ctx <= 64 ->
  blake2b_final ctx = Ok (firstn (bc_outlen ctx) (flat_map (le_bytes 8) (rfc_blocks ((length data - 1) / 128) data 0 h0))).
Proof.
  intros [n full buf junk D Lf C C128 Ne Eb Lb By Eh Hh T0 T1 T] Ho. unfold blake2b_final.
  destruct (count_ok ctx T0 T1) as (T0' & T1' & T'); [lia|].
  change (bc_b (count ctx)) with (bc_b ctx). change (bc_c (count ctx)) with (bc_c ctx). rewrite Eb, C. rewrite Eb, app_length in Lb. rewrite fill_zero by lia. cbn [obind].
  set (c1 := set_b (count ctx) (buf ++ zeros (128 - length buf)) (Nat.max (length buf) 128)).
  assert (Bb : Forall byte buf) by (rewrite D in By; apply Forall_app in By; apply By).
  destruct (compress64_ok c1 true) as [E Hv].
  { unfold c1, set_b. cbn [bc_b]. unfold zeros. rewrite app_length, repeat_length. lia. }
  { unfold c1, set_b. cbn [bc_b]. apply Forall_app. split; [exact Bb|apply zeros_bytes]. }
  { exact Hh. } { exact T0'. } { exact T1'. }
  rewrite E. cbn [obind]. cbn [bc_h bc_outlen].
  assert (EN : (length data - 1) / 128 = n).
  { rewrite D, app_length, Lf. symmetry. apply (Nat.div_unique _ 128 n (length buf - 1)); lia. }
  rewrite EN, D, blocks_split by exact Lf. rewrite Z.add_0_l, <- Eh.
  assert (EF : rfc_F (bc_h c1) (rfc_words (bc_b c1)) (bc_t0 c1 + 2 ^ 64 * bc_t1 c1) true =
    rfc_F (bc_h ctx) (rfc_words (buf ++ zeros (128 - length buf))) (128 * Z.of_nat n + Z.of_nat (length buf)) true).
  { change (bc_h c1) with (bc_h ctx). change (bc_b c1) with (buf ++ zeros (128 - length buf)). apply rfc_F_mod.
    change (bc_t0 c1) with (bc_t0 (count ctx)). change (bc_t1 c1) with (bc_t1 (count ctx)). rewrite T', T, C, Zplus_mod_idemp_l, Z.mod_mod by discriminate. reflexivity. }
  rewrite EF in Hv |- *. set (h := rfc_F (bc_h ctx) (rfc_words (buf ++ zeros (128 - length buf))) (128 * Z.of_nat n + Z.of_nat (length buf)) true) in *. change (bc_outlen c1) with (bc_outlen ctx). clearbody h.
  rewrite (out_bytes h) by apply Hv. rewrite firstn_map, firstn_seq' by lia.
  destruct (P_Sha256.ofor_inv (fun i out => out = map (obyte h) (seq 0 i))
    (fun i out => x <- idx h (i / 8) ;; Ok (out ++ [Z.land (Z.shiftr x (8 * Z.of_nat (Nat.land i 7))) 255])) (bc_outlen ctx) 0 []) as (s & E1 & E2).
  - reflexivity.
  - intros i s Hi ->. destruct Hv as [Lh _]. rewrite (P_Sha256.idx_nth h (i / 8) 0%Z) by (rewrite Lh; apply Nat.div_lt_upper_bound; lia). cbn [obind].
    eexists. split; [reflexivity|]. rewrite seq_S, map_app. cbn [map]. do 2 f_equal. cbn [Nat.add]. unfold obyte. rewrite land7.
    rewrite Z.shiftr_div_pow2 by lia. change 255%Z with (Z.ones 8). apply Z.land_ones. lia.
  - rewrite E1, E2. reflexivity.
Qed.

(** ** the final statements *)
Lemma blake2b_stream_ok ctx nn key chunks : length (bc_b ctx) = 128 -> length (bc_h ctx) = 8 -> 0 < nn <= 64 -> length key <= 64 ->
  Forall byte key -> Forall (Forall byte) chunks ->
  blake2b_stream ctx nn key chunks = Ok (Some (rfc_blake2b nn key (concat chunks))).
Proof.
  intros Lb Lh Hn Hk Bk Bc. unfold blake2b_stream. destruct (init64_ok ctx nn key Lb Lh Hn Hk Bk) as (c & E & I & O). rewrite E. cbn [obind].
  destruct (updates64_ok _ chunks _ c I Bc) as (c' & E' & I' & O'). rewrite E'. cbn [obind]. rewrite (final64_ok _ _ _ I') by lia. cbn [obind].
  rewrite O', O. reflexivity.
Qed.
Lemma blake2b_rejects ctx nn key chunks : nn = 0 \/ 64 < nn \/ 64 < length key -> blake2b_stream ctx nn key chunks = Ok None.
Proof.
  intros H. unfold blake2b_stream, blake2b_init.
  replace ((nn =? 0) || (64 <? nn) || (64 <? length key)) with true; [reflexivity|].
  symmetry. rewrite !orb_true_iff. destruct H as [-> | [H|H]]; [left; left; reflexivity|left; right; apply Nat.ltb_lt; exact H|right; apply Nat.ltb_lt; exact H].
Qed.
Lemma blake2b_chunking ctx ctx' nn key chunks inp : length (bc_b ctx) = 128 -> length (bc_h ctx) = 8 -> length (bc_b ctx') = 128 -> length (bc_h ctx') = 8 ->
  Forall byte key -> Forall (Forall byte) chunks -> concat chunks = inp ->
  blake2b_stream ctx nn key chunks = blake2b ctx' nn key inp.
Proof.
  intros Lb Lh Lb' Lh' Bk Bc <-. unfold blake2b.
  destruct (le_lt_dec (length key) 64) as [K|K]; [|rewrite !blake2b_rejects by auto; reflexivity].
  destruct (le_lt_dec nn 64) as [N|N]; [|rewrite !blake2b_rejects by auto; reflexivity].
  destruct nn as [|nn]; [rewrite !blake2b_rejects by auto; reflexivity|].
  rewrite !blake2b_stream_ok; try assumption; try lia.
  - cbn [concat]. rewrite app_nil_r. reflexivity.
  - apply Forall_cons; [|apply Forall_nil]. apply Forall_concat. exact Bc.
Qed.
Lemma rfc_blake2b_shape nn key msg : 0 < nn <= 64 -> length key <= 64 -> Forall byte key -> Forall byte msg ->
  length (rfc_blake2b nn key msg) = nn /\ Forall byte (rfc_blake2b nn key msg).
Proof.
  intros Hn Hk Bk Bm. set (c0 := BCtx (zeros 128) (zeros 8) 0 0 0 0).
  destruct (init64_ok c0 nn key eq_refl eq_refl Hn Hk Bk) as (c & E & I & O).
  destruct (update64_ok _ msg _ c I Bm) as (c' & E' & I' & O'). 
  unfold rfc_blake2b. fold (hinit nn key). fold (keyed key).
  assert (Hv : length (rfc_blocks ((length (keyed key ++ msg) - 1) / 128) (keyed key ++ msg) 0 (hinit nn key)) = 8).
  { destruct I' as [n full buf junk D Lf C C128 Ne Eb Lb By Eh Hh T0 T1 T]. rewrite D.
    assert (EN : (length (full ++ buf) - 1) / 128 = n). { rewrite app_length, Lf. symmetry. apply (Nat.div_unique _ 128 n (length buf - 1)); lia. }
    rewrite EN, blocks_split by exact Lf. unfold rfc_F. rewrite map_length. reflexivity. }
  rewrite out_bytes by exact Hv. rewrite firstn_map, firstn_seq' by lia. rewrite map_length, seq_length. split; [reflexivity|].
  apply Forall_forall. intros x Hx. apply in_map_iff in Hx as (i & <- & _). unfold byte, obyte. apply Z.mod_pos_bound. reflexivity.
Qed.
