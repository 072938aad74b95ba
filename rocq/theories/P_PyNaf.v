(** Lemmas about [wNAF] of /repo/ethsnarks/jubjub.py. *)
From Coq Require Import List ZArith Bool Arith Lia.
From Verif Require Import Field Base M_Point M_PyJubjub Spec_PyJubjub.
Import ListNotations.
Local Open Scope nat_scope.
Local Open Scope Z_scope.

Definition lsb_val (l : list Z) : Z := fold_right (fun d v => d + 2 * v) 0 l.
Lemma digits_val_rev l : digits_val (rev l) = lsb_val l.
Proof.
  unfold digits_val, lsb_val. rewrite <- fold_left_rev_right, rev_involutive.
  induction l as [|d l IH]; [reflexivity|]. cbn [fold_right]. rewrite IH. lia.
Qed.

Section Width.
Variable w : Z.
Hypothesis Hw : 1 <= w.
Lemma pow_w : 2 ^ w = 2 * 2 ^ (w - 1).
Proof using Hw. replace w with (Z.succ (w - 1)) at 1 by lia. apply Z.pow_succ_r. lia. Qed.
Lemma pow_w1 : 0 < 2 ^ (w - 1).
Proof using Hw. apply Z.pow_pos_nonneg; lia. Qed.
Lemma odd_mod k : k mod 2 = 1 -> (k mod 2 ^ w) mod 2 = 1.
Proof using Hw.
  intros H. pose proof pow_w1. rewrite pow_w. rewrite Z.rem_mul_r by lia. rewrite Z.add_mod by lia. rewrite (Z.mul_comm 2), Z.mod_mul, Z.add_0_r, !Z.mod_mod by lia. exact H.
Qed.
Lemma digit_even k : k mod 2 = 0 -> wnaf_digit w k = 0.
Proof. intros H. unfold wnaf_digit. rewrite H. reflexivity. Qed.
Lemma digit_divides k : k mod 2 = 1 -> exists q, k - wnaf_digit w k = q * 2 ^ w.
Proof using Hw.
  intros H. unfold wnaf_digit. cbv zeta. rewrite H. cbn [Z.eqb Pos.eqb]. pose proof pow_w1. pose proof pow_w.
  pose proof (Z.div_mod k (2 ^ w) ltac:(lia)) as DM.
  destruct (2 ^ (w - 1) <? k mod 2 ^ w).
  - exists (k / 2 ^ w + 1). lia.
  - exists (k / 2 ^ w). lia.
Qed.
Lemma digit_odd k : k mod 2 = 1 -> (wnaf_digit w k) mod 2 = 1.
Proof using Hw.
  intros H. pose proof (odd_mod k H) as O. unfold wnaf_digit. cbv zeta. rewrite H. cbn [Z.eqb Pos.eqb]. pose proof pow_w.
  destruct (2 ^ (w - 1) <? k mod 2 ^ w); [|exact O].
  rewrite Zminus_mod, O, H0, (Z.mul_comm 2), Z.mod_mul by lia. reflexivity.
Qed.
Lemma digit_step k : k = wnaf_digit w k + 2 * ((k - wnaf_digit w k) / 2).
Proof using Hw.
  assert (E : (k - wnaf_digit w k) mod 2 = 0).
  { destruct (Z.eq_dec (k mod 2) 0) as [E|E].
    - rewrite (digit_even k E), Z.sub_0_r. exact E.
    - assert (E1 : k mod 2 = 1) by (pose proof (Z.mod_pos_bound k 2 ltac:(lia)); lia).
      rewrite Zminus_mod, (digit_odd k E1), E1. reflexivity. }
  pose proof (Z.div_mod (k - wnaf_digit w k) 2 ltac:(lia)). lia.
Qed.
Lemma digit_naf k : 2 <= w -> naf_digit w (wnaf_digit w k).
Proof using Hw.
  intros H2. unfold naf_digit. destruct (Z.eq_dec (k mod 2) 0) as [E|E]; [left; now apply digit_even|].
  assert (E1 : k mod 2 = 1) by (pose proof (Z.mod_pos_bound k 2 ltac:(lia)); lia).
  pose proof (digit_odd k E1) as O. right. split.
  - rewrite Zmod_odd in O. destruct (Z.odd (wnaf_digit w k)); [reflexivity|discriminate].
  - pose proof pow_w1. pose proof pow_w as PW. pose proof (Z.mod_pos_bound k (2 ^ w) ltac:(lia)) as MB.
    assert (PE : 2 ^ (w - 1) = 2 * 2 ^ (w - 2)) by (replace (w - 1) with (Z.succ (w - 2)) by lia; apply Z.pow_succ_r; lia).
    assert (NE : k mod 2 ^ w <> 2 ^ (w - 1)).
    { intros Q. pose proof (odd_mod k E1) as O2. rewrite Q, PE, Z.mul_comm, Z.mod_mul in O2; lia. }
    clear O. unfold wnaf_digit. cbv zeta. rewrite E1. cbn [Z.eqb Pos.eqb].
    destruct (Z.ltb_spec (2 ^ (w - 1)) (k mod 2 ^ w)); lia.
Qed.
Lemma digit_bound n k : 0 < k <= 2 ^ Z.of_nat (S n) -> 0 <= (k - wnaf_digit w k) / 2 <= 2 ^ Z.of_nat n.
Proof using Hw.
  intros Hk. rewrite Nat2Z.inj_succ, Z.pow_succ_r in Hk by lia.
  assert (K : 0 <= k - wnaf_digit w k <= 2 * 2 ^ Z.of_nat n).
  2:{ split; [apply Z.div_pos; lia|apply Z.div_le_upper_bound; lia]. }
  destruct (Z.eq_dec (k mod 2) 0) as [E|E]; [rewrite (digit_even k E); lia|].
  assert (E1 : k mod 2 = 1) by (pose proof (Z.mod_pos_bound k 2 ltac:(lia)); lia).
  pose proof pow_w1 as P1. pose proof pow_w as PW. pose proof (Z.mod_pos_bound k (2 ^ w) ltac:(lia)) as MB.
  pose proof (Z.mod_le k (2 ^ w) ltac:(lia) ltac:(lia)) as ML.
  destruct (digit_divides k E1) as [q Q]. revert Q. unfold wnaf_digit. cbv zeta. rewrite E1. cbn [Z.eqb Pos.eqb].
  destruct (Z.ltb_spec (2 ^ (w - 1)) (k mod 2 ^ w)); intros Q; [|lia].
  split; [lia|]. 
  assert (W : w <= Z.of_nat (S n)).
  { destruct (Z.le_gt_cases w (Z.of_nat (S n))) as [L|L]; [exact L|exfalso].
    assert (2 ^ Z.of_nat (S n) <= 2 ^ (w - 1)) by (apply Z.pow_le_mono_r; lia).
    rewrite Nat2Z.inj_succ, Z.pow_succ_r in H0 by lia. lia. }
  assert (PP : 2 * 2 ^ Z.of_nat n = 2 ^ (Z.of_nat (S n) - w) * 2 ^ w).
  { rewrite <- Z.pow_add_r by lia. rewrite <- Z.pow_succ_r by lia. f_equal. lia. }
  rewrite PP, Q. apply Z.mul_le_mono_nonneg_r; [lia|].
  assert (q * 2 ^ w < (2 ^ (Z.of_nat (S n) - w) + 1) * 2 ^ w) by lia.
  apply Z.mul_lt_mono_pos_r in H0; lia.
Qed.
Lemma digit_one : wnaf_digit w 1 = 1.
Proof using Hw.
  pose proof pow_w1. pose proof pow_w. unfold wnaf_digit. cbv zeta. change (1 mod 2 =? 1) with true. cbv iota.
  rewrite Z.mod_small by lia. destruct (Z.ltb_spec (2 ^ (w - 1)) 1); lia.
Qed.
Lemma wnaf_loop_ok : forall n k, 0 <= k <= 2 ^ Z.of_nat n ->
  exists l, wnaf_loop (S (S n)) w k = Some l /\ lsb_val l = k /\ (2 <= w -> Forall (naf_digit w) l) /\ (length l <= S n)%nat.
Proof using Hw.
  induction n as [|n IH]; intros k Hk.
  - change (2 ^ Z.of_nat 0) with 1 in Hk. cbn [wnaf_loop]. destruct (Z.ltb_spec 0 k) as [L|L].
    + assert (k = 1) by lia. subst k. rewrite digit_one. change ((1 - 1) / 2) with 0. cbn [Z.ltb Z.compare].
      exists [1]. split; [reflexivity|]. split; [reflexivity|]. split; [|cbn; lia]. intros H2. constructor; [|constructor].
      right. split; [reflexivity|]. change (Z.abs 1) with 1. apply (Z.pow_gt_1 2); lia.
    + exists []. repeat split; try lia; try reflexivity; try constructor. cbn. lia. cbn. lia.
  - change (wnaf_loop (S (S (S n))) w k) with (if 0 <? k then match wnaf_loop (S (S n)) w ((k - wnaf_digit w k) / 2) with
        | Some r => Some (wnaf_digit w k :: r) | None => None end else Some []).
    destruct (Z.ltb_spec 0 k) as [L|L].
    + destruct (IH ((k - wnaf_digit w k) / 2)) as (l & E & V & FA & LE); [apply digit_bound; lia|].
      rewrite E. eexists. split; [reflexivity|]. split; [|split].
      * cbn [lsb_val fold_right]. fold (lsb_val l). rewrite V. symmetry. apply digit_step.
      * intros H2. constructor; [now apply digit_naf|auto].
      * cbn [length]. lia.
    + exists []. repeat split; try constructor; cbn; lia.
Qed.
Lemma wnaf_zeros : forall f m k l, wnaf_loop f w k = Some l -> (exists q, k = q * 2 ^ Z.of_nat m) -> forall i, (i < m)%nat -> nth i l 0 = 0.
Proof.
  induction f as [|f IH]; intros m k l E [q Q] i Hi; cbn [wnaf_loop] in E; [discriminate|].
  destruct (0 <? k); [|inversion E; now destruct i].
  destruct m as [|m]; [lia|].
  rewrite Nat2Z.inj_succ, Z.pow_succ_r in Q by lia.
  assert (EV : k mod 2 = 0) by (rewrite Q; replace (q * (2 * 2 ^ Z.of_nat m)) with (q * 2 ^ Z.of_nat m * 2) by ring; apply Z.mod_mul; lia).
  rewrite (digit_even k EV) in E. destruct (wnaf_loop f w ((k - 0) / 2)) as [r|] eqn:ER; [|discriminate]. inversion E; subst l.
  destruct i as [|i]; [reflexivity|]. cbn [nth]. apply (IH m _ r ER); [|lia]. exists q.
  rewrite Z.sub_0_r, Q. replace (q * (2 * 2 ^ Z.of_nat m)) with (q * 2 ^ Z.of_nat m * 2) by ring. apply Z.div_mul. lia.
Qed.
Lemma wnaf_adjacent : forall f k l, wnaf_loop f w k = Some l ->
  forall i j, (i < j)%nat -> Z.of_nat (j - i) < w -> nth i l 0 <> 0 -> nth j l 0 = 0.
Proof using Hw.
  induction f as [|f IH]; intros k l E i j Hij Hd Hn; cbn [wnaf_loop] in E; [discriminate|].
  destruct (0 <? k); [|inversion E; subst; now destruct j].
  destruct (wnaf_loop f w ((k - wnaf_digit w k) / 2)) as [r|] eqn:ER; [|discriminate]. inversion E; subst l. clear E.
  destruct j as [|j]; [lia|]. cbn [nth]. destruct i as [|i].
  - cbn [nth] in Hn. destruct (Z.eq_dec (k mod 2) 0) as [Z0|Z0]; [rewrite (digit_even k Z0) in Hn; contradiction|].
    assert (E1 : k mod 2 = 1) by (pose proof (Z.mod_pos_bound k 2 ltac:(lia)); lia).
    destruct (digit_divides k E1) as [q Q].
    apply (wnaf_zeros f (Z.to_nat (w - 1)) _ r ER); [|lia]. exists q. rewrite Z2Nat.id by lia. rewrite Q, pow_w.
    replace (q * (2 * 2 ^ (w - 1))) with (q * 2 ^ (w - 1) * 2) by ring. apply Z.div_mul. lia.
  - cbn [nth] in Hn. apply (IH _ r ER i j); [lia|lia|assumption].
Qed.
Lemma py_wNAF_ok k : 0 <= k -> exists ds, py_wNAF k w = Ok ds /\ digits_val ds = k /\ non_adjacent w ds /\ (2 <= w -> Forall (naf_digit w) ds).
Proof using Hw.
  intros Hk. unfold py_wNAF, wnaf_fuel.
  destruct (wnaf_loop_ok (S (Z.to_nat (Z.log2 k))) k) as (l & E & V & FA & _).
  { split; [assumption|]. rewrite Nat2Z.inj_succ, Z2Nat.id by apply Z.log2_nonneg.
    destruct (Z.eq_dec k 0) as [-> |N]; [discriminate|]. pose proof (Z.log2_spec k ltac:(lia)). lia. }
  rewrite E. exists (rev l). split; [reflexivity|]. split; [now rewrite digits_val_rev|]. split.
  - intros i j Hij Hd Hn. rewrite rev_length in Hij. rewrite rev_nth in * by lia.
    destruct (Z.eq_dec (nth (length l - S j) l 0) 0) as [Z0|Z0]; [assumption|exfalso]. apply Hn.
    apply (wnaf_adjacent _ _ _ E (length l - S j) (length l - S i)); [lia|lia|assumption].
  - intros H2. apply Forall_rev. auto.
Qed.
Lemma py_wNAF_negative k : k <= 0 -> py_wNAF k w = Ok [].
Proof. intros H. unfold py_wNAF, wnaf_fuel. cbn [wnaf_loop]. destruct (Z.ltb_spec 0 k); [lia|reflexivity]. Qed.
End Width.
