(** PackWords cuts the bit stream into pieces. *)
From Coq Require Import List ZArith Bool Lia.
From Verif Require Import Base M_Evm M_SolUtils Spec_SolUtils P_SolUtils.
Import ListNotations.
Local Open Scope Z_scope.

Lemma wsize_big : 2 ^ 200 < wsize. Proof. reflexivity. Qed.
Lemma big_big : 1000000 < 2 ^ 200. Proof. reflexivity. Qed.
Lemma wadd_small : forall a b, 0 <= a -> 0 <= b -> a + b < wsize -> wadd a b = a + b.
Proof. intros. unfold wadd. apply Z.mod_small. lia. Qed.
Lemma wsub_small : forall a b, 0 <= b <= a -> a < wsize -> wsub a b = a - b.
Proof. intros. unfold wsub. apply Z.mod_small. lia. Qed.
Lemma wexp2_small : forall k, 0 <= k < 256 -> wexp2 k = 2 ^ k.
Proof. intros k Hk. unfold wexp2. apply Z.mod_small. split; [apply Z.pow_nonneg; lia|]. rewrite wsize_pow. apply Z.pow_lt_mono_r; lia. Qed.
Lemma ones_eq : forall n, 0 <= n -> 2 ^ n - 1 = Z.ones n.
Proof. intros. rewrite Z.ones_equiv. lia. Qed.

Lemma bits_ok : forall src off n, is_word src -> 0 <= off < 256 -> 0 <= n <= 253 -> off + n <= 256 ->
  exists b, _bits src off n = Ok b /\ 0 <= b < 2 ^ n /\ forall j, 0 <= j -> Z.testbit b j = (j <? n) && Z.testbit src (off + j).
Proof.
  intros src off n [Hs0 Hs1] Ho Hn Hl. pose proof wsize_big. pose proof big_big. unfold _bits. rewrite wadd_small by lia.
  rewrite (proj2 (Z.leb_le _ _)) by lia. cbn [orequire obind]. rewrite !wexp2_small by lia.
  assert (P : 0 < 2 ^ off) by (apply Z.pow_pos_nonneg; lia). assert (Q : 0 < 2 ^ n) by (apply Z.pow_pos_nonneg; lia).
  assert (Q2 : 2 ^ n < wsize) by (rewrite wsize_pow; apply Z.pow_lt_mono_r; lia).
  unfold sol_div. rewrite (proj2 (Z.eqb_neq _ _)) by lia. cbn [obind].
  eexists. split; [reflexivity|]. rewrite wsub_small by lia. rewrite ones_eq by lia. unfold wand. split.
  - rewrite Z.land_ones by lia. apply Z.mod_pos_bound. exact Q.
  - intros j Hj. rewrite Z.land_spec, Z.div_pow2_bits by lia.
    destruct (Z.ltb_spec j n); [rewrite Z.ones_spec_low by lia; now rewrite andb_true_r, (Z.add_comm off j)|rewrite Z.ones_spec_high by lia; apply andb_false_r].
Qed.

Definition holds_bits (ws : list Z) (d start n : Z) : Prop :=
  0 <= d /\ forall j, 0 <= j -> Z.testbit d j = (j <? n) && stream_bit ws (start + j).
Lemma chunk_holds : forall ws n start, holds_bits ws (chunk ws start n) start (Z.of_nat n).
Proof.
  intros ws. induction n as [|n IH]; intros start; cbn [chunk].
  - split; [lia|]. intros j Hj. rewrite Z.bits_0. destruct (Z.ltb_spec j (Z.of_nat 0)); [lia|reflexivity].
  - destruct (IH (start + 1)) as [P B]. split; [destruct (stream_bit ws start); lia|]. intros j Hj.
    destruct (Z.eq_dec j 0) as [->|].
    + rewrite (proj2 (Z.ltb_lt _ _)) by lia. cbn [andb]. rewrite Z.add_0_r.
      rewrite Z.bit0_odd, Z.odd_add_mul_2. now destruct (stream_bit ws start).
    + assert (D : ((if stream_bit ws start then 1 else 0) + 2 * chunk ws (start + 1) n) / 2 = chunk ws (start + 1) n).
      { symmetry. apply Z.div_unique with (if stream_bit ws start then 1 else 0); [destruct (stream_bit ws start); lia|lia]. }
      set (a := _ + 2 * _) in *. replace (Z.testbit a j) with (Z.testbit (a / 2 ^ 1) (j - 1)) by (rewrite Z.div_pow2_bits by lia; f_equal; lia).
      change (2 ^ 1) with 2. rewrite D. rewrite B by lia. f_equal; [|f_equal; lia].
      destruct (Z.ltb_spec (j - 1) (Z.of_nat n)), (Z.ltb_spec j (Z.of_nat (S n))); lia || reflexivity.
Qed.
Lemma holds_unique : forall ws d d' start n, holds_bits ws d start n -> holds_bits ws d' start n -> d = d'.
Proof. intros ws d d' start n [_ H] [_ H']. apply Z.bits_inj'. intros j Hj. rewrite H, H' by exact Hj. reflexivity. Qed.

Section Pack.
Variable ws : list Z.
Hypothesis W : Forall is_word ws.
Hypothesis Wl : Z.of_nat (length ws) < 2 ^ 200.
Notation len := (Z.of_nat (length ws)).

(** the cursor stands at a bit of the stream *)
Definition at_bit (c : cursor) (pos : Z) : Prop :=
  0 <= c_i c < len /\ 0 <= c_offset c < 256 /\ 256 * c_i c + c_offset c = pos /\
  ReverseBits (nth (Z.to_nat (c_i c)) ws 0) = Ok (c_source c).
Definition at_end (c : cursor) : Prop := c_i c = len /\ c_offset c = 256 /\ is_word (c_source c).

Lemma nth_word : forall i, is_word (nth i ws 0).
Proof using W.
  intros i. destruct (Nat.lt_ge_cases i (length ws)) as [H|H].
  - rewrite Forall_forall in W. apply W. apply nth_In. exact H.
  - rewrite nth_overflow by lia. split; [lia|reflexivity].
Qed.
Lemma source_bit : forall c pos k, at_bit c pos -> 0 <= k -> c_offset c + k < 256 ->
  Z.testbit (c_source c) (c_offset c + k) = stream_bit ws (pos + k).
Proof using W.
  intros c pos k (Hi & Ho & Hp & Hr) Hk Hl. destruct (reverse_ok _ (nth_word (Z.to_nat (c_i c)))) as [r [Er [_ Hb]]].
  assert (r = c_source c) as <- by congruence. rewrite Hb by lia. unfold stream_bit.
  replace ((pos + k) / 256) with (c_i c) by (apply Z.div_unique with (c_offset c + k); lia).
  replace ((pos + k) mod 256) with (c_offset c + k) by (apply Z.mod_unique with (c_i c); lia). reflexivity.
Qed.
Lemma source_word : forall c pos, at_bit c pos -> is_word (c_source c).
Proof using W.
  intros c pos (_ & _ & _ & Hr). destruct (reverse_ok _ (nth_word (Z.to_nat (c_i c)))) as [r [Er [Hw _]]].
  congruence.
Qed.
Lemma stream_past : forall k, 256 * len <= k -> stream_bit ws k = false.
Proof using.
  intros k Hk. unfold stream_bit. rewrite nth_overflow; [apply Z.bits_0|].
  assert (len <= k / 256) by (apply Z.div_le_lower_bound; lia). lia.
Qed.

(** adding the next bits *)
Lemma extend : forall c pos start d doff n b, at_bit c pos -> pos = start + doff -> 0 <= doff -> 0 <= n -> c_offset c + n <= 256 ->
  doff + n <= 253 -> holds_bits ws d start doff -> 0 <= b < 2 ^ n ->
  (forall j, 0 <= j -> Z.testbit b j = (j <? n) && Z.testbit (c_source c) (c_offset c + j)) ->
  holds_bits ws (wor d (wmul b (wexp2 doff))) start (doff + n).
Proof using W.
  intros c pos start d doff n b HA -> Hd Hn Hl Hl2 [Hp Hb] HB Hbits.
  rewrite wexp2_small by lia.
  assert (M : wmul b (2 ^ doff) = Z.shiftl b doff).
  { rewrite Z.shiftl_mul_pow2 by lia. unfold wmul. apply Z.mod_small. split; [apply Z.mul_nonneg_nonneg; [lia|apply Z.pow_nonneg; lia]|].
    apply Z.lt_trans with (2 ^ n * 2 ^ doff).
    - apply Z.mul_lt_mono_pos_r; [apply Z.pow_pos_nonneg; lia|lia].
    - rewrite <- Z.pow_add_r by lia. rewrite wsize_pow. apply Z.pow_lt_mono_r; lia. }
  rewrite M. unfold wor. split; [apply Z.lor_nonneg; split; [exact Hp|apply Z.shiftl_nonneg; lia]|].
  intros j Hj. rewrite Z.lor_spec, Hb, Z.shiftl_spec by lia.
  destruct (Z.ltb_spec j doff); cbn [andb].
  - rewrite Z.testbit_neg_r by lia. rewrite orb_false_r. rewrite (proj2 (Z.ltb_lt _ _)) by lia. reflexivity.
  - cbn [orb]. rewrite Hbits by lia. destruct (Z.ltb_spec (j - doff) n), (Z.ltb_spec j (doff + n)); try lia; try reflexivity.
    cbn [andb]. rewrite (source_bit c (start + doff)) by (assumption || lia). f_equal. lia.
Qed.
Lemma holds_full : forall d start n, holds_bits ws d start n -> 256 * len <= start + n -> n <= 253 -> holds_bits ws d start 253.
Proof using.
  intros d start n [Hp Hb] He Hn. split; [exact Hp|]. intros j Hj. rewrite Hb by exact Hj.
  destruct (Z.ltb_spec j n), (Z.ltb_spec j 253); try reflexivity; try lia. cbn [andb]. rewrite stream_past by lia. reflexivity.
Qed.
Lemma pack_inner_unfold : forall fuel c d doff, pack_inner fuel ws c d doff =
  if doff <? 253 then
    match fuel with
    | O => Throw
    | S f =>
        let bits_to_copy := if wsub 253 doff <? wsub 256 (c_offset c) then wsub 253 doff else wsub 256 (c_offset c) in
        b <- _bits (c_source c) (c_offset c) bits_to_copy ;;
        let dest := wor d (wmul b (wexp2 doff)) in
        let source_offset := wadd (c_offset c) bits_to_copy in
        let dest_offset := wadd doff bits_to_copy in
        if 256 <=? source_offset then
          let i := wadd (c_i c) 1 in
          if len <=? i then Ok (Cursor i (c_source c) source_offset, dest)
          else
            w <- sol_idx ws i ;;
            source <- ReverseBits w ;;
            pack_inner f ws (Cursor i source 0) dest dest_offset
        else pack_inner f ws (Cursor (c_i c) (c_source c) source_offset) dest dest_offset
    end
  else Ok (c, d).
Proof using. intros [|f]; reflexivity. Qed.

Lemma inner_ok : forall fuel c start d doff, at_bit c (start + doff) -> 0 <= doff <= 253 -> 254 - doff <= Z.of_nat fuel ->
  holds_bits ws d start doff ->
  exists c' d', pack_inner fuel ws c d doff = Ok (c', d') /\ holds_bits ws d' start 253 /\
    (at_bit c' (start + 253) \/ at_end c' /\ 256 * len <= start + 253).
Proof using W Wl.
  pose proof wsize_big as WB. pose proof big_big as BB.
  induction fuel as [|f IH]; intros c start d doff HA Hd Hf HH; rewrite pack_inner_unfold; destruct (Z.ltb_spec doff 253); try lia.
  2:{ assert (doff = 253) as -> by lia. exists c, d. split; [reflexivity|]. split; [exact HH|]. left. exact HA. }
  pose proof (source_word _ _ HA) as SW. destruct HA as (Hi & Ho & Hp & Hr) eqn:HAe. pose proof HA as HA'. clear HAe.
  rewrite !wsub_small by lia. cbv zeta.
  set (n := if 253 - doff <? 256 - c_offset c then 253 - doff else 256 - c_offset c).
  assert (Nn : 1 <= n /\ n <= 253 - doff /\ n <= 256 - c_offset c /\ (n = 253 - doff \/ n = 256 - c_offset c))
    by (unfold n; destruct (Z.ltb_spec (253 - doff) (256 - c_offset c)); lia).
  clearbody n. destruct Nn as [N1 [N2 [N3 N4]]].
  destruct (bits_ok (c_source c) (c_offset c) n) as [b [Eb [Bb Hb]]]; [exact SW|lia|lia|lia|]. rewrite Eb. cbn [obind].
  pose proof (extend c (start + doff) start d doff n b HA' eq_refl ltac:(lia) ltac:(lia) ltac:(lia) ltac:(lia) HH Bb Hb) as HX.
  set (d' := wor d (wmul b (wexp2 doff))) in *. clearbody d'.
  rewrite !wadd_small by lia.
  destruct (Z.leb_spec 256 (c_offset c + n)).
  - destruct (Z.leb_spec len (c_i c + 1)).
    + exists (Cursor (c_i c + 1) (c_source c) (c_offset c + n)), d'. split; [reflexivity|].
      split; [apply (holds_full _ _ (doff + n)); [exact HX|lia|lia]|].
      right. split; [|lia]. split; [cbn [c_i]; lia|]. split; [cbn [c_offset]; lia|exact SW].
    + unfold sol_idx. destruct (Z.ltb_spec (c_i c + 1) 0); [lia|].
      rewrite (nth_error_nth' ws 0) by lia. cbn [obind].
      destruct (reverse_ok _ (nth_word (Z.to_nat (c_i c + 1)))) as [r [Er _]]. rewrite Er. cbn [obind].
      apply (IH (Cursor (c_i c + 1) r 0) start d' (doff + n)); [|lia|lia|exact HX].
      repeat split; cbn [c_i c_offset c_source]; try lia. exact Er.
  - apply (IH (Cursor (c_i c) (c_source c) (c_offset c + n)) start d' (doff + n)); [|lia|lia|exact HX].
    repeat split; cbn [c_i c_offset c_source]; try lia. exact Hr.
Qed.
(** past the last bit the call fails *)
Lemma inner_end : forall c, at_end c -> pack_inner 254 ws c 0 0 = Throw.
Proof using.
  intros c (_ & Ho & _). rewrite pack_inner_unfold. change (0 <? 253) with true. cbv iota. cbv zeta. rewrite Ho. reflexivity.
Qed.
Lemma seq_map_S : forall (g : nat -> Z) n k, map g (seq (S k) n) = map (fun o => g (S o)) (seq k n).
Proof using. intros g n. induction n as [|n IH]; intros k; [reflexivity|]. cbn [seq map]. rewrite IH. reflexivity. Qed.
Lemma outer_ok : forall n c k, at_bit c (253 * Z.of_nat k) ->
  (253 * (Z.of_nat (k + n) - 1) < 256 * len ->
    pack_outer n ws c = Ok (map (fun o => chunk ws (253 * Z.of_nat o) 253) (seq k n))) /\
  (n <> O -> 256 * len <= 253 * (Z.of_nat (k + n) - 1) -> pack_outer n ws c = Throw).
Proof using W Wl.
  induction n as [|n IH]; intros c k HA; [split; [intros; reflexivity|congruence]|].
  cbn [pack_outer].
  destruct (inner_ok 254 c (253 * Z.of_nat k) 0 0) as (c' & d & E & HH & HC).
  { rewrite Z.add_0_r. exact HA. } { lia. } { lia. }
  { split; [lia|]. intros j Hj. rewrite Z.bits_0. destruct (Z.ltb_spec j 0); [lia|reflexivity]. }
  rewrite E. cbn [obind].
  assert (d = chunk ws (253 * Z.of_nat k) 253) as ->.
  { apply (holds_unique ws _ _ (253 * Z.of_nat k) 253); [exact HH|]. apply (chunk_holds ws 253). }
  destruct HC as [HC|[HC He]].
  - replace (253 * Z.of_nat k + 253) with (253 * Z.of_nat (S k)) in HC by lia.
    destruct (IH c' (S k) HC) as [I1 I2]. replace (S k + n)%nat with (k + S n)%nat in I1, I2 by lia. split.
    + intros Hn. rewrite I1 by exact Hn. reflexivity.
    + intros _ Hn. destruct n as [|n]; [|rewrite I2 by (discriminate || exact Hn); reflexivity].
      destruct HA as (Hi & Ho & Hp & _). lia.
  - destruct n as [|n].
    + split; [intros; reflexivity|]. intros _ Hn. destruct HA as (Hi & Ho & Hp & _). lia.
    + cbn [pack_outer]. rewrite (inner_end c' HC). cbn [obind]. split; [intros Hn; lia|reflexivity].
Qed.
End Pack.
