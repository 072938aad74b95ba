(** Lemmas for /repo/ethsnarks/poseidon/permutation.py. *)
From Coq Require Import List ZArith Bool Arith Lia.
From Verif Require Import Primes Field Base M_Bits M_Point M_Utils M_Bits M_Blake2b M_Poseidon M_PoseidonParams Spec_Utils Spec_Blake2b Spec_Poseidon Spec_PoseidonParams P_Curve Q_Poseidon Q_PoseidonParams M_PyPoseidon.
Import ListNotations.
Local Open Scope nat_scope.
Local Open Scope Z_scope.

Lemma Fof_mod x : Fof (x mod p_mod) = Fof x.
Proof. apply Fof_eq_iff. apply Zmod_mod. Qed.
Lemma Fof_pow x k : 0 <= k -> Fof (py_pow x k p_mod) = Fpow (Fof x) k.
Proof.
  intros Hk. unfold py_pow. rewrite Fof_mod, Fpow_Fof by assumption. symmetry. now apply Fof_fval_pow.
Qed.

Section S.
Variables (t Fr P : nat).
Hypothesis Ht : (0 < t)%nat.
Lemma py_sbox_ok st i c : length st = t -> exists st', py_sbox p_mod 5 Fr P (map (fun x => x + c) st) i = Ok st' /\ length st' = t /\
  map Fof st' = sub_words (if is_partial Fr P i then 1 else t) (Fof c) (map Fof st).
Proof.
  intros L. unfold py_sbox, is_partial.
  assert (E : ((i <? Fr / 2) || (Fr / 2 + P <=? i))%nat = negb ((Fr / 2 <=? i) && (i <? Fr / 2 + P))%nat).
  { rewrite negb_andb. rewrite (Nat.leb_antisym i (Fr / 2)), negb_involutive. f_equal. now rewrite Nat.ltb_antisym, negb_involutive. }
  rewrite E. destruct ((Fr / 2 <=? i) && (i <? Fr / 2 + P))%nat; cbn [negb].
  - destruct st as [|x st]; [cbn [length] in L; lia|]. cbn [map]. eexists. split; [reflexivity|]. split; [cbn [length] in *; now rewrite map_length|].
    unfold sub_words. cbn [map firstn skipn app]. rewrite Fof_pow, Fof_add by lia. f_equal. rewrite !map_map. apply map_ext. intros a. apply Fof_add.
  - eexists. split; [reflexivity|]. split; [now rewrite !map_length|]. unfold sub_words. rewrite firstn_all2, skipn_all2 by (rewrite map_length; lia).
    cbn [map]. rewrite app_nil_r, !map_map. apply map_ext. intros a. rewrite Fof_pow, Fof_add by lia. reflexivity.
Qed.
Lemma py_dot_ok : forall row st, length row = length st -> exists r, py_dot row st = Ok r /\ Fof r = dot (map Fof row) (map Fof st).
Proof.
  induction row as [|m row IH]; intros [|x st] L; try discriminate; [exists 0; split; reflexivity|]. injection L as L.
  destruct (IH st L) as (r & E & H). cbn [py_dot]. rewrite E. cbn [obind]. eexists. split; [reflexivity|]. cbn [map dot]. now rewrite Fof_add, Fof_mul, H.
Qed.
Definition reduced (st : list Z) : Prop := Forall (fun x => 0 <= x < p_mod) st.
Lemma py_mix_ok M st : Forall (fun r => length r = t) M -> length st = t -> exists st', py_mix p_mod st M = Ok st' /\ length st' = length M /\ reduced st' /\
  map Fof st' = map (fun r => dot (map Fof r) (map Fof st)) M.
Proof.
  intros HM L. unfold py_mix. induction HM as [|r M Hr HM (st' & E & L' & R & V)]; [exists []; repeat split; constructor|].
  destruct (py_dot_ok r st ltac:(congruence)) as (d & Ed & Vd). cbn [omapM]. rewrite Ed. cbn [obind]. rewrite E. cbn [obind]. eexists. split; [reflexivity|].
  split; [cbn [length]; congruence|]. split; [constructor; [apply Z.mod_pos_bound; reflexivity|exact R]|]. cbn [map]. now rewrite Fof_mod, Vd, V.
Qed.
Variable M : list (list Z).
Hypothesis LM : length M = t.
Hypothesis HM : Forall (fun r => length r = t) M.
Definition flat : list F := map Fof (concat M).
Lemma flat_rows : flat = concat (map (map Fof) M).
Proof. unfold flat. now rewrite concat_map. Qed.
Lemma flat_len : length flat = (t * t)%nat.
Proof.
  rewrite flat_rows, (concat_length_const t); [now rewrite map_length, LM|]. apply Forall_forall. intros l H. apply in_map_iff in H. destruct H as (r & <- & Hr).
  rewrite map_length. rewrite Forall_forall in HM. auto.
Qed.
Lemma flat_row i : (i < t)%nat -> row t flat i = map Fof (nth i M []).
Proof.
  intros Hi. unfold row. rewrite flat_rows, firstn_skipn_concat; [|apply Forall_forall; intros l H; apply in_map_iff in H; destruct H as (r & <- & Hr); rewrite map_length; rewrite Forall_forall in HM; auto|now rewrite map_length, LM].
  exact (map_nth (map Fof) M [] i).
Qed.
Lemma map_rows {A} (f : list Z -> A) : map f M = map (fun i => f (nth i M [])) (seq 0 t).
Proof.
  rewrite <- LM. clear. induction M as [|r l IH]; [reflexivity|]. cbn [length seq map nth]. f_equal. rewrite <- seq_shift, map_map. exact IH.
Qed.
Lemma py_rounds_ok : forall C C0 i st, length st = t -> (forall k, nth k C 0 = nth (i + k) C0 0) -> (i + length C <= length C0)%nat -> exists st', py_rounds p_mod 5 Fr P i C M st = Ok st' /\
  length st' = t /\ (C <> [] -> reduced st') /\
  map Fof st' = fold_left (fun s k => round_spec t (if is_partial Fr P k then 1%nat else t) flat (nth k (map Fof C0) F0) s) (seq i (length C)) (map Fof st).
Proof.
  induction C as [|c C IH]; intros C0 i st L HC HL; [exists st; repeat split; auto; congruence|]. cbn [py_rounds length seq fold_left].
  destruct (py_sbox_ok st i c L) as (s1 & E1 & L1 & V1). rewrite E1. cbn [obind].
  destruct (py_mix_ok M s1 HM L1) as (s2 & E2 & L2 & R2 & V2). rewrite E2. cbn [obind].
  destruct (IH C0 (S i) s2 ltac:(congruence)) as (s3 & E3 & L3 & R3 & V3); [intros k; specialize (HC (S k)); cbn [nth] in HC; rewrite HC; f_equal; lia|cbn [length] in HL; lia|].
  exists s3. split; [exact E3|]. split; [exact L3|]. split.
  { intros _. destruct C as [|c' C]; [|apply R3; discriminate]. cbn [py_rounds] in E3. congruence. }
  rewrite V3. f_equal. rewrite V2. unfold round_spec. rewrite map_rows. apply map_ext_in. intros k Hk. apply in_seq in Hk. rewrite flat_row by lia.
  f_equal. rewrite V1. f_equal. specialize (HC 0%nat). cbn [nth] in HC. rewrite Nat.add_0_r in HC. change F0 with (Fof 0). rewrite map_nth. now rewrite HC.
Qed.
Lemma reduced_fval st : reduced st -> st = map fval (map Fof st).
Proof. intros H. rewrite map_map. induction H as [|x l Hx _ IH]; [reflexivity|]. cbn [map]. rewrite fval_Fof, Z.mod_small by assumption. now rewrite <- IH. Qed.
Lemma firstn_fold (C : list Z) : forall s l, length s = t ->
  length (fold_left (fun s k => round_spec t (if is_partial Fr P k then 1%nat else t) flat (nth k (map Fof C) F0) s) l s) = t.
Proof. clear. intros s l; revert s. induction l as [|k l IH]; intros s L; [exact L|]. cbn [fold_left]. apply IH. unfold round_spec. now rewrite map_length, seq_length. Qed.
Lemma py_state_ok (C inputs : list Z) chained : (0 < Fr + P)%nat -> length C = (Fr + P)%nat -> (0 < length inputs <= t)%nat -> chained = true \/ (length inputs < t)%nat ->
  py_poseidon_state p_mod 5 t Fr P chained C M inputs = Ok (map fval (permutation t 1 Fr P (map Fof C) flat (map Fof inputs))).
Proof.
  intros HR LC HI HCh. unfold py_poseidon_state. rewrite (proj2 (Nat.ltb_lt 0 (length inputs))) by lia. cbn [obind].
  assert (E : chained || (length inputs <? t)%nat = true) by (destruct HCh as [->|H]; [reflexivity|]; apply Nat.ltb_lt in H; rewrite H; apply orb_true_r).
  rewrite E. cbn [obind]. destruct (py_rounds_ok C C 0 (inputs ++ repeat 0 (t - length inputs))) as (st' & E1 & L1 & R1 & V1);
    [rewrite app_length, repeat_length; lia|reflexivity|lia|].
  rewrite E1. apply (f_equal Ok). rewrite (reduced_fval st') by (apply R1; intros ->; cbn in LC; lia). f_equal. rewrite V1. unfold permutation, poseidon_spec, pad.
  rewrite map_length, LC, map_app. replace (map Fof (repeat 0 (t - length inputs))) with (repeat F0 (t - length inputs)) by (generalize (t - length inputs)%nat as k; induction k as [|k IH]; [reflexivity|]; cbn [repeat map]; now rewrite IH).
  symmetry. apply firstn_all2. rewrite firstn_fold; [lia|]. rewrite app_length, map_length, repeat_length. lia.
Qed.
End S.
