(** Facts about SnarkUtils.sol. *)
From Coq Require Import List ZArith Bool Lia.
From Verif Require Import Base M_Evm M_SolUtils Spec_SolUtils.
Import ListNotations.
Local Open Scope Z_scope.

(** ** bits of words *)
Lemma wsize_pow : wsize = 2 ^ 256. Proof. reflexivity. Qed.
Lemma word_high : forall v i, is_word v -> 256 <= i -> Z.testbit v i = false.
Proof.
  intros v i [H0 H1] Hi. destruct (Z.eq_dec v 0) as [->|]; [apply Z.bits_0|].
  apply Z.bits_above_log2; [exact H0|]. apply Z.lt_le_trans with 256; [|exact Hi]. apply Z.log2_lt_pow2; [lia|]. exact H1.
Qed.
Lemma below_high : forall v n i, 0 <= v < 2 ^ n -> 0 <= n <= i -> Z.testbit v i = false.
Proof.
  intros v n i [H0 H1] Hi. destruct (Z.eq_dec v 0) as [->|]; [apply Z.bits_0|].
  apply Z.bits_above_log2; [exact H0|]. apply Z.lt_le_trans with n; [|lia]. apply Z.log2_lt_pow2; lia.
Qed.
Lemma high_below : forall v n, 0 <= v -> 0 <= n -> (forall i, n <= i -> Z.testbit v i = false) -> v < 2 ^ n.
Proof.
  intros v n H0 Hn H. destruct (Z.eq_dec v 0) as [->|]; [apply Z.pow_pos_nonneg; lia|].
  apply Z.log2_lt_pow2; [lia|]. apply Z.nle_gt. intros K.
  specialize (H _ K). rewrite Z.bit_log2 in H by lia. discriminate H.
Qed.

(** ** one round of ReverseBits *)
Definition swap_step (s m v : Z) : Z := wor (wand (wshr s v) m) (wand (wshl s v) (wnot m)).
Lemma reverse_step : forall f s m v, reverse_loop (S f) s m v =
  if 0 <? wshr 1 s then reverse_loop f (wshr 1 s) (wxor m (wshl (wshr 1 s) m)) (swap_step (wshr 1 s) (wxor m (wshl (wshr 1 s) m)) v) else Ok v.
Proof. reflexivity. Qed.
Lemma reverse_stop : forall m v, reverse_loop 0 1 m v = Ok v.
Proof. reflexivity. Qed.
Definition mask_of (s : Z) : Z :=
  match s with
  | 128 => 0xffffffffffffffffffffffffffffffff
  | 64 => 0x0000000000000000ffffffffffffffff0000000000000000ffffffffffffffff
  | 32 => 0x00000000ffffffff00000000ffffffff00000000ffffffff00000000ffffffff
  | 16 => 0x0000ffff0000ffff0000ffff0000ffff0000ffff0000ffff0000ffff0000ffff
  | 8 => 0x00ff00ff00ff00ff00ff00ff00ff00ff00ff00ff00ff00ff00ff00ff00ff00ff
  | 4 => 0x0f0f0f0f0f0f0f0f0f0f0f0f0f0f0f0f0f0f0f0f0f0f0f0f0f0f0f0f0f0f0f0f
  | 2 => 0x3333333333333333333333333333333333333333333333333333333333333333
  | _ => 0x5555555555555555555555555555555555555555555555555555555555555555
  end.
Lemma reverse_rounds : forall v, ReverseBits v =
  Ok (swap_step 1 (mask_of 1) (swap_step 2 (mask_of 2) (swap_step 4 (mask_of 4) (swap_step 8 (mask_of 8)
     (swap_step 16 (mask_of 16) (swap_step 32 (mask_of 32) (swap_step 64 (mask_of 64) (swap_step 128 (mask_of 128) v)))))))).
Proof.
  intros v. unfold ReverseBits.
  assert (R : forall f s m s' m' v0, wshr 1 s = s' -> (0 <? s') = true -> wxor m (wshl s' m) = m' ->
     reverse_loop (S f) s m v0 = reverse_loop f s' m' (swap_step s' m' v0)).
  { intros f s m s' m' v0 <- H <-. rewrite reverse_step, H. reflexivity. }
  rewrite (R 7%nat 256 (wnot 0) 128 (mask_of 128) _ eq_refl eq_refl eq_refl).
  rewrite (R 6%nat 128 (mask_of 128) 64 (mask_of 64) _ eq_refl eq_refl eq_refl).
  rewrite (R 5%nat 64 (mask_of 64) 32 (mask_of 32) _ eq_refl eq_refl eq_refl).
  rewrite (R 4%nat 32 (mask_of 32) 16 (mask_of 16) _ eq_refl eq_refl eq_refl).
  rewrite (R 3%nat 16 (mask_of 16) 8 (mask_of 8) _ eq_refl eq_refl eq_refl).
  rewrite (R 2%nat 8 (mask_of 8) 4 (mask_of 4) _ eq_refl eq_refl eq_refl).
  rewrite (R 1%nat 4 (mask_of 4) 2 (mask_of 2) _ eq_refl eq_refl eq_refl).
  rewrite (R 0%nat 2 (mask_of 2) 1 (mask_of 1) _ eq_refl eq_refl eq_refl).
  apply reverse_stop.
Qed.
(** a mask splits the positions as the round needs it *)
Definition mask_ok (s m : Z) : bool :=
  (0 <=? m) && (m <? wsize) && (0 <? s) &&
  forallb (fun n => let i := Z.of_nat n in
    if Z.testbit m i then (Z.lxor i s =? i + s) && (i + s <? 256) else (Z.lxor i s =? i - s) && (0 <=? i - s)) (seq 0 256).
Lemma mask_ok_inv : forall s m i, mask_ok s m = true -> 0 <= i < 256 ->
  if Z.testbit m i then Z.lxor i s = i + s /\ i + s < 256 else Z.lxor i s = i - s /\ 0 <= i - s.
Proof.
  intros s m i H Hi. unfold mask_ok in H. rewrite !andb_true_iff in H. destruct H as [_ H]. rewrite forallb_forall in H.
  specialize (H (Z.to_nat i)). cbv zeta in H. rewrite Z2Nat.id in H by lia.
  assert (K : In (Z.to_nat i) (seq 0 256)) by (apply in_seq; lia). specialize (H K).
  destruct (Z.testbit m i); apply andb_true_iff in H; destruct H as [H1 H2]; apply Z.eqb_eq in H1;
    [apply Z.ltb_lt in H2|apply Z.leb_le in H2]; split; assumption.
Qed.
Lemma wnot_bit : forall m i, is_word m -> 0 <= i < 256 -> Z.testbit (wnot m) i = negb (Z.testbit m i).
Proof.
  intros m i Hm Hi. assert (E : wnot m = Z.ldiff (Z.ones 256) m).
  { rewrite <- Z.sub_nocarry_ldiff; [reflexivity|]. apply Z.bits_inj'. intros n Hn. rewrite Z.ldiff_spec, Z.bits_0.
    destruct (Z.ltb_spec n 256); [rewrite Z.ones_spec_low by lia; apply andb_false_r|rewrite word_high by (assumption || lia); reflexivity]. }
  rewrite E, Z.ldiff_spec, Z.ones_spec_low by lia. reflexivity.
Qed.
Lemma swap_bit : forall s m v i, mask_ok s m = true -> is_word v -> 0 <= i < 256 ->
  Z.testbit (swap_step s m v) i = Z.testbit v (Z.lxor i s).
Proof.
  intros s m v i Hm Hv Hi. pose proof (mask_ok_inv s m i Hm Hi) as K.
  unfold mask_ok in Hm. rewrite !andb_true_iff in Hm. destruct Hm as [[[M1 M2] M3] _].
  apply Z.leb_le in M1. apply Z.ltb_lt in M2. apply Z.ltb_lt in M3.
  unfold swap_step, wor, wand, wshr, wshl. rewrite Z.lor_spec, !Z.land_spec, wnot_bit by (assumption || split; assumption).
  rewrite Z.shiftr_spec by lia. rewrite wsize_pow. rewrite Z.mod_pow2_bits_low by lia. rewrite Z.shiftl_spec by lia.
  destruct (Z.testbit m i); cbn [negb]; destruct K as [-> _]; [now rewrite andb_true_r, andb_false_r, orb_false_r|now rewrite andb_true_r, andb_false_r].
Qed.
Lemma swap_word : forall s m v, mask_ok s m = true -> is_word v -> is_word (swap_step s m v).
Proof.
  intros s m v Hm [Hv0 Hv1]. unfold mask_ok in Hm. rewrite !andb_true_iff in Hm. destruct Hm as [[[M1 M2] M3] _].
  apply Z.leb_le in M1. apply Z.ltb_lt in M2. apply Z.ltb_lt in M3.
  assert (P : 0 <= swap_step s m v).
  { unfold swap_step, wor, wand, wshr, wshl. apply Z.lor_nonneg. split; apply Z.land_nonneg.
    - left. apply Z.shiftr_nonneg. exact Hv0.
    - left. apply Z.mod_pos_bound. reflexivity. }
  split; [exact P|]. rewrite wsize_pow. apply high_below; [exact P|lia|]. intros i Hi.
  unfold swap_step, wor, wand, wshr, wshl. rewrite Z.lor_spec, !Z.land_spec.
  rewrite (word_high m i) by (lia || (split; assumption)). rewrite wsize_pow. rewrite Z.mod_pow2_bits_high by lia. rewrite andb_false_r. reflexivity.
Qed.
Lemma masks_fine : mask_ok 1 (mask_of 1) = true /\ mask_ok 2 (mask_of 2) = true /\ mask_ok 4 (mask_of 4) = true /\ mask_ok 8 (mask_of 8) = true /\
  mask_ok 16 (mask_of 16) = true /\ mask_ok 32 (mask_of 32) = true /\ mask_ok 64 (mask_of 64) = true /\ mask_ok 128 (mask_of 128) = true.
Proof. vm_compute. repeat split. Qed.
Lemma xor_reverse : forall i, 0 <= i < 256 ->
  Z.lxor (Z.lxor (Z.lxor (Z.lxor (Z.lxor (Z.lxor (Z.lxor (Z.lxor i 1) 2) 4) 8) 16) 32) 64) 128 = 255 - i.
Proof.
  intros i Hi. rewrite !Z.lxor_assoc. 
  match goal with |- Z.lxor i ?x = _ => change x with 255 end.
  change 255 with (Z.ones 8). rewrite (Z.sub_nocarry_ldiff (Z.ones 8) i).
  2:{ apply Z.bits_inj'. intros n Hn. rewrite Z.ldiff_spec, Z.bits_0. destruct (Z.ltb_spec n 8); [rewrite Z.ones_spec_low by lia; apply andb_false_r|].
      rewrite (below_high i 8 n) by (cbn; lia). reflexivity. }
  apply Z.bits_inj'. intros n Hn. rewrite Z.lxor_spec, Z.ldiff_spec. destruct (Z.ltb_spec n 8).
  - rewrite Z.ones_spec_low by lia. now destruct (Z.testbit i n).
  - rewrite Z.ones_spec_high by lia. rewrite (below_high i 8 n) by (cbn; lia). reflexivity.
Qed.
Lemma lxor_below : forall i s, 0 <= i < 256 -> 0 <= s < 256 -> 0 <= Z.lxor i s < 256.
Proof.
  intros i s Hi Hs. assert (P : 0 <= Z.lxor i s) by (apply Z.lxor_nonneg; lia). split; [exact P|].
  change 256 with (2 ^ 8). apply high_below; [exact P|lia|]. intros n Hn. rewrite Z.lxor_spec.
  rewrite (below_high i 8 n), (below_high s 8 n) by (cbn; lia). reflexivity.
Qed.
Lemma reverse_ok : forall v, is_word v -> exists r, ReverseBits v = Ok r /\ is_word r /\
  forall i, 0 <= i < 256 -> Z.testbit r i = Z.testbit v (255 - i).
Proof.
  intros v Hv. rewrite reverse_rounds. destruct masks_fine as (M1 & M2 & M4 & M8 & M16 & M32 & M64 & M128).
  eexists. split; [reflexivity|]. 
  set (m1 := mask_of 1) in *. set (m2 := mask_of 2) in *. set (m4 := mask_of 4) in *. set (m8 := mask_of 8) in *.
  set (m16 := mask_of 16) in *. set (m32 := mask_of 32) in *. set (m64 := mask_of 64) in *. set (m128 := mask_of 128) in *.
  clearbody m1 m2 m4 m8 m16 m32 m64 m128.
  pose proof (swap_word _ _ _ M128 Hv) as W1. pose proof (swap_word _ _ _ M64 W1) as W2. pose proof (swap_word _ _ _ M32 W2) as W3.
  pose proof (swap_word _ _ _ M16 W3) as W4. pose proof (swap_word _ _ _ M8 W4) as W5. pose proof (swap_word _ _ _ M4 W5) as W6.
  pose proof (swap_word _ _ _ M2 W6) as W7. pose proof (swap_word _ _ _ M1 W7) as W8.
  split; [exact W8|]. intros i Hi. rewrite <- (xor_reverse i Hi).
  pose proof (lxor_below _ 1 Hi ltac:(lia)) as B1. pose proof (lxor_below _ 2 B1 ltac:(lia)) as B2. pose proof (lxor_below _ 4 B2 ltac:(lia)) as B3.
  pose proof (lxor_below _ 8 B3 ltac:(lia)) as B4. pose proof (lxor_below _ 16 B4 ltac:(lia)) as B5. pose proof (lxor_below _ 32 B5 ltac:(lia)) as B6.
  pose proof (lxor_below _ 64 B6 ltac:(lia)) as B7.
  rewrite (swap_bit 1) by assumption. rewrite (swap_bit 2) by assumption. rewrite (swap_bit 4) by assumption. rewrite (swap_bit 8) by assumption.
  rewrite (swap_bit 16) by assumption. rewrite (swap_bit 32) by assumption. rewrite (swap_bit 64) by assumption. rewrite (swap_bit 128) by assumption.
  reflexivity.
Qed.
