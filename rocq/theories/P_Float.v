(** basepoints_required: the single-precision computation is exact up to 2^24 bits. *)
From Coq Require Import ZArith Lia Bool.
From Verif Require Import M_Montgomery.
Local Open Scope Z_scope.

Lemma rne_1 x : rne x 1 = x.
Proof. unfold rne. rewrite Z.div_1_r. replace (2 * (x - x * 1)) with 0 by lia. reflexivity. Qed.

Lemma rne_mul c d : 0 < d -> rne (c * d) d = c.
Proof.
  intros H. unfold rne. rewrite Z.div_mul by lia. replace (2 * (c * d - c * d)) with 0 by lia.
  replace (0 <? d) with true; [reflexivity|]. symmetry. apply Z.ltb_lt. lia.
Qed.

Lemma rne_near x d : 0 < d -> 2 * Z.abs (rne x d * d - x) <= d.
Proof.
  intros H. unfold rne. pose proof (Z.div_mod x d ltac:(lia)) as E. pose proof (Z.mod_pos_bound x d H) as B.
  set (q := x / d) in *. set (r := x mod d) in *.
  destruct (Z.ltb_spec (2 * (x - q * d)) d); [lia|]. destruct (Z.ltb_spec d (2 * (x - q * d))); [lia|].
  destruct (Z.even q); lia.
Qed.

Lemma fexp_small A D : 0 < A -> 0 < D -> A < 2 ^ 17 * D -> fexp A D <= -7.
Proof.
  intros HA HD H. unfold fexp.
  assert (L : Z.log2 A <= Z.log2 D + 17).
  { assert (Z.log2 A < Z.log2 D + 18); [|lia]. apply Z.log2_lt_pow2; [lia|].
    pose proof (Z.log2_spec D HD) as [_ H2]. unfold Z.succ in H2.
    replace (Z.log2 D + 18) with (17 + (Z.log2 D + 1)) by lia. rewrite Z.pow_add_r by (pose proof (Z.log2_nonneg D); lia).
    lia. }
  set (e0 := Z.log2 A - Z.log2 D - 24). assert (He : e0 <= -7) by (subst e0; lia). cbn zeta.
  destruct (Z.eq_dec e0 (-7)) as [E|E].
  - rewrite E. cbn [Z.leb Z.compare Z.opp].
    assert (Q : (A * 2 ^ 7 <? 2 ^ 24 * D) = true) by (apply Z.ltb_lt; lia).
    change (- -7) with 7. destruct (0 <=? -7) eqn:K; [discriminate K|]. rewrite Q. lia.
  - destruct (0 <=? e0); match goal with |- (if ?b then _ else _) <= _ => destruct b end; lia.
Qed.

Lemma float_ceil_quot num k : 0 < num <= 2 ^ 24 -> 0 <= k ->
  float_ceil (float_of (num * 2 ^ k) (186 * 2 ^ k)) = (num + 185) / 186.
Proof.
  intros Hn Hk. assert (P : 0 < 2 ^ k) by (apply Z.pow_pos_nonneg; lia).
  assert (HE : fexp (num * 2 ^ k) (186 * 2 ^ k) <= -7) by (apply fexp_small; nia).
  unfold float_of. set (e := fexp _ _) in *. destruct (Z.leb_spec 0 e) as [?|_]; [lia|].
  unfold float_ceil. destruct (Z.leb_spec 0 e) as [?|_]; [lia|].
  set (s := - e). assert (Hs : 7 <= s) by (subst s; lia).
  assert (Ps : 128 <= 2 ^ s) by (change 128 with (2 ^ 7); apply Z.pow_le_mono_r; lia).
  set (p := 2 ^ s) in *. set (K := 2 ^ k) in *.
  pose proof (Z.div_mod num 186 ltac:(lia)) as E. pose proof (Z.mod_pos_bound num 186 ltac:(lia)) as B.
  set (c := num / 186) in *. set (f := num mod 186) in *.
  destruct (Z.eq_dec f 0) as [F|F].
  - replace (num * K * p) with (c * p * (186 * K)) by (rewrite E, F; ring). rewrite rne_mul by nia.
    replace ((num + 185) / 186) with c.
    + rewrite <- Z.mul_opp_l, Z.div_mul by lia. lia.
    + apply Z.div_unique with 185; lia.
  - replace ((num + 185) / 186) with (c + 1) by (apply Z.div_unique with (f - 1); lia).
    pose proof (rne_near (num * K * p) (186 * K) ltac:(nia)) as N. set (m := rne _ _) in *.
    assert (N2 : 2 * Z.abs (186 * m - num * p) <= 186).
    { replace (m * (186 * K) - num * K * p) with (K * (186 * m - num * p)) in N by ring.
      rewrite Z.abs_mul, (Z.abs_eq K) in N by lia. nia. }
    assert (Lo : c * p < m) by nia. assert (Hi : m <= (c + 1) * p) by nia.
    enough (- m / p = - (c + 1)) by lia.
    symmetry. apply Z.div_unique with ((c + 1) * p - m); [left|]; lia.
Qed.

Lemma float_of_int num : 0 < num <= 2 ^ 24 ->
  (exists e, 0 <= e /\ exists m, float_of num 1 = (m, e) /\ m * 2 ^ e = num) \/
  (exists k, 0 < k /\ float_of num 1 = (num * 2 ^ k, - k)).
Proof.
  intros H. destruct (Z.eq_dec num (2 ^ 24)) as [-> |Hne].
  - left. exists 1. split; [lia|]. exists (2 ^ 23). split; vm_compute; reflexivity.
  - pose proof (Z.log2_spec num ltac:(lia)) as [L1 L2]. pose proof (Z.log2_nonneg num) as L0. unfold Z.succ in L2.
    assert (L : Z.log2 num <= 23). { assert (Z.log2 num < 24); [|lia]. apply Z.log2_lt_pow2; lia. }
    assert (FE : fexp num 1 = Z.log2 num - 23).
    { unfold fexp. change (Z.log2 1) with 0. set (l := Z.log2 num) in *. cbn zeta.
      destruct (Z.leb_spec 0 (l - 0 - 24)) as [?|_]; [lia|].
      replace (num * 2 ^ (- (l - 0 - 24)) <? 2 ^ 24 * 1) with false; [lia|]. symmetry. apply Z.ltb_ge.
      replace (- (l - 0 - 24)) with (24 - l) by lia. rewrite Z.mul_1_r.
      replace (2 ^ 24) with (2 ^ l * 2 ^ (24 - l)) by (rewrite <- Z.pow_add_r by lia; f_equal; lia).
      apply Z.mul_le_mono_nonneg_r; [|exact L1]. apply Z.pow_nonneg. lia. }
    unfold float_of. rewrite FE. destruct (Z.leb_spec 0 (Z.log2 num - 23)) as [K|K].
    + left. exists 0. split; [lia|]. exists num. replace (Z.log2 num - 23) with 0 by lia. rewrite Z.pow_0_r, Z.mul_1_r, rne_1. split; [reflexivity|lia].
    + right. exists (23 - Z.log2 num). split; [lia|]. rewrite rne_1. f_equal; [f_equal; f_equal|]; lia.
Qed.

Lemma basepoints_required_exact n : 0 <= n <= 2 ^ 24 -> basepoints_required n = (n + 185) / 186.
Proof.
  intros H. unfold basepoints_required. destruct (Z.eqb_spec n 0) as [-> |Hn]; [reflexivity|].
  destruct (float_of_int n ltac:(lia)) as [(e & He & m & E & Em)|(k & Hk & E)]; rewrite E.
  - destruct (Z.leb_spec 0 e) as [_|?]; [|lia]. rewrite Em.
    pose proof (float_ceil_quot n 0 ltac:(lia) ltac:(lia)) as Q. rewrite Z.pow_0_r, !Z.mul_1_r in Q. exact Q.
  - destruct (Z.leb_spec 0 (- k)) as [?|_]; [lia|]. rewrite Z.opp_involutive. apply float_ceil_quot; lia.
Qed.
