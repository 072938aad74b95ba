(** Final lemmas for C12 and C13. *)
From Coq Require Import List ZArith Bool Arith Lia.
From Verif Require Import Primes Field Base R1CS R1CSFacts M_Utils Spec_Utils P_Utils M_Padding Spec_Padding P_Padding.
Import ListNotations.
Local Open Scope nat_scope.

Lemma app_split {A} (a b c d : list A) : a ++ b = c ++ d -> length a = length c -> a = c /\ b = d.
Proof.
  revert c; induction a as [|x a IH]; intros [|y c] H Hl; cbn in Hl; try discriminate; [now split|].
  cbn [app] in H. injection H as -> H. destruct (IH c H) as [-> ->]; [congruence|]. now split.
Qed.
Lemma map_seq_split {A} (t : nat -> A) n a b l1 l2 : map t (seq n (a + b)) = l1 ++ l2 -> length l1 = a ->
  map t (seq n a) = l1 /\ map t (seq (n + a) b) = l2.
Proof. intros H Hl. rewrite seq_app, map_app in H. apply app_split in H; [exact H|]. now rewrite map_length, seq_length. Qed.

Lemma padding_honest : forall (xs : list nat) (msg : list bool) bs n s cs0, 64 <= bs -> length xs mod 8 = 0 -> 0 < length xs ->
  Forall (fun v => v < n) xs -> map s xs = map b2F msg ->
  exists k blocks pb' new, pad_zeros bs (length msg) k /\
    bits2blocks_padded xs bs (PB n s cs0) = Ok (blocks, pb') /\ Forall (fun b => length b = bs) blocks /\
    map (pb_val pb') (concat blocks) = map b2F (msg ++ pad_suffix (length msg) k) /\
    frame n (pb_next pb') s (pb_val pb') /\ pb_cs pb' = cs0 ++ new /\ sat (pb_val pb') new.
Proof.
  intros xs msg bs n s cs0 Hbs H8 H0 Hxs Hm.
  assert (Lm : length msg = length xs) by (apply (f_equal (@length F)) in Hm; rewrite !map_length in Hm; congruence).
  destruct (padding_main xs bs n s cs0 Hbs H8 H0) as (k & blocks & pb' & new & Hk & E & Hc & Hb & Hn & Hcs & _ & Hf & Hv & Hs).
  rewrite Lm. exists k, blocks, pb', new. split; [exact Hk|]. split; [exact E|]. split; [exact Hb|]. split; [|split; [|split]].
  - rewrite Hc, !map_app, Hv. f_equal. rewrite <- Hm. apply map_ext_in. intros v Hin. apply Hf. left.
    rewrite Forall_forall in Hxs. now apply Hxs.
  - rewrite Hn. exact Hf.
  - exact Hcs.
  - apply Hs. unfold pad_suffix in Hv. cbn [length] in Hv. rewrite app_length, repeat_length, msb_bits_length in Hv.
    replace (S (k + 64)) with (1 + (k + 64)) in Hv by lia.
    change (true :: ?l) with ([true] ++ l) in Hv. rewrite !map_app in Hv.
    apply map_seq_split in Hv; [|reflexivity]. destruct Hv as [H1 Hv].
    apply map_seq_split in Hv; [|now rewrite map_length, repeat_length]. destruct Hv as [_ H2].
    split; [cbn [seq map] in H1; injection H1 as H1; exact H1|exact H2].
Qed.

Lemma padding_enforced : forall xs bs n s cs0, 64 <= bs -> length xs mod 8 = 0 -> 0 < length xs ->
  exists k blocks pb' new, pad_zeros bs (length xs) k /\
    bits2blocks_padded xs bs (PB n s cs0) = Ok (blocks, pb') /\
    concat blocks = xs ++ seq n (1 + k + 64) /\ pb_cs pb' = cs0 ++ new /\
    (forall t, sat t new <-> t n = F1 /\ map t (seq (n + 1 + k) 64) = map b2F (msb_bits 64 (Z.of_nat (length xs)))).
Proof.
  intros xs bs n s cs0 Hbs H8 H0.
  destruct (padding_main xs bs n s cs0 Hbs H8 H0) as (k & blocks & pb' & new & Hk & E & Hc & Hb & Hn & Hcs & _ & Hf & Hv & Hs).
  exists k, blocks, pb', new. split; [exact Hk|]. split; [exact E|]. split; [|split; [exact Hcs|exact Hs]].
  rewrite Hc. do 2 f_equal. unfold pad_suffix. cbn [length]. rewrite app_length, repeat_length, msb_bits_length. lia.
Qed.

Definition override (s : assign) (lo : nat) (zs : list F) : assign :=
  fun v => if (lo <=? v) && (v <? lo + length zs) then nth (v - lo) zs F0 else s v.
Lemma override_in s lo zs : map (override s lo zs) (seq lo (length zs)) = zs.
Proof.
  apply (nth_ext _ _ (override s lo zs 0) F0); rewrite map_length, seq_length; [reflexivity|].
  intros i Hi. rewrite map_nth, seq_nth by exact Hi. unfold override.
  replace (lo <=? lo + i) with true by (symmetry; apply Nat.leb_le; lia).
  replace (lo + i <? lo + length zs) with true by (symmetry; apply Nat.ltb_lt; lia). cbn [andb]. f_equal. lia.
Qed.
Lemma override_out s lo zs v : v < lo \/ lo + length zs <= v -> override s lo zs v = s v.
Proof.
  intros H. unfold override. destruct (Nat.leb_spec lo v), (Nat.ltb_spec v (lo + length zs)); try reflexivity. lia.
Qed.

(** the bits between the first padding bit and the length are free *)
Lemma padding_free : forall (xs : list nat) (msg : list bool) n s cs0, length xs mod 8 = 0 -> 0 < length xs ->
  Forall (fun v => v < n) xs -> map s xs = map b2F msg ->
  exists k blocks pb' new, pad_zeros 512 (length msg) k /\ 0 < k /\
    bits2blocks_padded xs 512 (PB n s cs0) = Ok (blocks, pb') /\ pb_cs pb' = cs0 ++ new /\
    forall zs, length zs = k -> exists t, frame n (pb_next pb') s t /\ sat t new /\
      map t (concat blocks) = map b2F msg ++ [F1] ++ zs ++ map b2F (msb_bits 64 (Z.of_nat (length msg))).
Proof.
  intros xs msg n s cs0 H8 H0 Hxs Hm.
  assert (Lm : length msg = length xs) by (apply (f_equal (@length F)) in Hm; rewrite !map_length in Hm; congruence).
  assert (Hbs : 64 <= 512) by (apply Nat.leb_le; reflexivity).
  destruct (padding_main xs 512 n s cs0 Hbs H8 H0) as (k & blocks & pb' & new & Hk & E & Hc & Hb & Hn & Hcs & _ & Hf & Hv & Hs).
  assert (EK : length (pad_suffix (length xs) k) = 1 + k + 64).
  { unfold pad_suffix. cbn [length]. rewrite app_length, repeat_length, msb_bits_length. lia. }
  rewrite EK in *.
  exists k, blocks, pb', new. rewrite Lm. split; [exact Hk|]. split.
  { destruct k; [|lia]. destruct Hk as [Hk _]. rewrite Nat.add_0_r in Hk. exfalso.
    apply Nat.mod_divide in Hk; [|lia]. destruct Hk as [c Hk]. apply Nat.mod_divide in H8; [|lia]. destruct H8 as [d H8]. lia. }
  split; [exact E|]. split; [exact Hcs|]. intros zs Hz.
  set (body := [F1] ++ zs ++ map b2F (msb_bits 64 (Z.of_nat (length xs)))).
  assert (Lb : length body = 1 + k + 64).
  { unfold body. cbn [length app]. rewrite app_length, map_length, msb_bits_length. lia. }
  exists (override s n body).
  assert (Ev : map (override s n body) (seq n (1 + k + 64)) = body) by (rewrite <- Lb; apply override_in).
  split; [|split].
  - intros v Hv'. apply override_out. lia.
  - apply Hs. replace (1 + k + 64) with (1 + (k + 64)) in Ev by lia. unfold body in Ev at 2.
    apply map_seq_split in Ev; [|reflexivity]. destruct Ev as [E1 Ev].
    apply map_seq_split in Ev; [|exact Hz]. destruct Ev as [_ E2].
    split; [cbn [seq map] in E1; injection E1 as E1; exact E1|exact E2].
  - rewrite Hc, map_app, Ev. f_equal. rewrite <- Hm. apply map_ext_in. intros v Hin. apply override_out. left.
    rewrite Forall_forall in Hxs. now apply Hxs.
Qed.

(** the plain refutation: two assignments agreeing on a message, both accepted, with different blocks *)
Lemma padding_refuted : exists (xs : list nat) blocks pb' t t',
  bits2blocks_padded xs 512 (PB (length xs) (fun _ => F0) []) = Ok (blocks, pb') /\
  sat t (pb_cs pb') /\ sat t' (pb_cs pb') /\ map t xs = map t' xs /\
  (exists bits, map t (concat blocks) = map b2F bits) /\ (exists bits, map t' (concat blocks) = map b2F bits) /\
  map t (concat blocks) <> map t' (concat blocks).
Proof.
  exists (seq 0 8).
  destruct (padding_free (seq 0 8) (repeat false 8) 8 (fun _ => F0) []) as (k & blocks & pb' & new & _ & Hk & E & Hcs & H);
    try reflexivity; [cbn; lia|repeat constructor; lia|].
  destruct (H (repeat (b2F false) k)) as (t & Ft & St & Mt); [apply repeat_length|].
  destruct (H (repeat (b2F true) k)) as (t' & Ft' & St' & Mt'); [apply repeat_length|].
  assert (R : forall b, repeat (b2F b) k = map b2F (repeat b k)) by (intros b; clear; induction k; cbn; congruence).
  exists blocks, pb', t, t'. rewrite seq_length. rewrite Hcs. cbn [app].
  split; [exact E|]. split; [exact St|]. split; [exact St'|]. split; [|split; [|split]].
  - apply map_ext_in. intros v Hv%in_seq. rewrite Ft, Ft' by lia. reflexivity.
  - rewrite Mt, R. exists (repeat false 8 ++ [true] ++ repeat false k ++ msb_bits 64 (Z.of_nat (length (repeat false 8)))).
    rewrite !map_app. reflexivity.
  - rewrite Mt', R. exists (repeat false 8 ++ [true] ++ repeat true k ++ msb_bits 64 (Z.of_nat (length (repeat false 8)))).
    rewrite !map_app. reflexivity.
  - rewrite Mt, Mt'. intros Heq. apply app_inv_head in Heq. cbn [app] in Heq. injection Heq as Heq.
    destruct k; [lia|]. cbn [repeat app b2F] in Heq. apply (f_equal (hd F0)) in Heq. cbn [hd] in Heq. symmetry in Heq. exact (F1_neq_0 Heq).
Qed.
