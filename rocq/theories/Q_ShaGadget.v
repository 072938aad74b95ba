(** sha256_many: final statements. *)
From Coq Require Import List ZArith Bool Arith Lia.
From Verif Require Import Primes Field Base R1CS R1CSFacts M_Utils M_Bits P_Bits Gadget M_Padding P_Padding Q_Padding M_Sha256 M_ShaGadget M_ShaGadgets
  Spec_Utils P_Utils Spec_Padding Spec_Sha256 Spec_ShaGadget P_Sha256 Q_Sha256 P_ShaGadget P_ShaGadget2 P_ShaGadget3 P_ShaGadget4 P_ShaGadget5 P_ShaGadgets.
Import ListNotations.
Local Open Scope nat_scope.

Lemma blocks_words {A B} (f : A -> F) (g : B -> F) k : forall (blocks : list (list A)) (p : list B), Forall (fun b => length b = k) blocks ->
  map f (concat blocks) = map g p -> map (map f) blocks = map (map g) (words (length blocks) k p).
Proof.
  induction blocks as [|b r IH]; intros p HF E; [reflexivity|]. inversion HF as [|? ? Hb HF']; subst. cbn [concat length words map] in *.
  rewrite map_app in E.
  assert (E1 : map f b = map g (firstn (length b) p)).
  { rewrite <- firstn_map, <- E. rewrite firstn_app, map_length, Nat.sub_diag, firstn_O, app_nil_r. rewrite firstn_all2; [reflexivity|]. rewrite map_length. lia. }
  rewrite E1. f_equal. apply IH; [exact HF'|]. rewrite <- skipn_map, <- E, skipn_app, map_length, Nat.sub_diag, skipn_O.
  rewrite skipn_all2; [reflexivity|]. rewrite map_length. lia.
Qed.
Lemma concat_length {A} k : forall (l : list (list A)), Forall (fun b => length b = k) l -> length (concat l) = length l * k.
Proof. induction 1 as [|b l Hb HF IH]; cbn [concat length]; [reflexivity|]. rewrite app_length, IH, Hb. lia. Qed.
Lemma many_cs_eq C blocks hs : sha256_many_constraints C (ShaMany blocks hs (map hs_out hs)) = Ok (concat (map (hcs C) hs)).
Proof.
  unfold sha256_many_constraints. cbn [sm_hashers sm_outputs].
  assert (X : omapM (fun i => h <- idx hs i ;; o <- idx (map hs_out hs) i ;; Ok (hasher_cs C h ++ digest_constraints o)) (seq 0 (length hs)) = Ok (map (hcs C) hs)).
  { apply omapM_Forall2. assert (G : forall l k, (forall i, i < length l -> nth_error hs (k + i) = nth_error l i) ->
      Forall2 (fun a b => (h <- idx hs a ;; o <- idx (map hs_out hs) a ;; Ok (hasher_cs C h ++ digest_constraints o)) = Ok b) (seq k (length l)) (map (hcs C) l)).
    { induction l as [|h l IH]; intros k Hk; cbn [length seq map]; constructor.
      - specialize (Hk 0 ltac:(cbn; lia)). rewrite Nat.add_0_r in Hk. cbn [nth_error] in Hk. unfold idx. rewrite (map_nth_error _ _ _ Hk), Hk. reflexivity.
      - apply IH. intros i Hi. specialize (Hk (S i) ltac:(cbn; lia)). replace (S k + i) with (k + S i) by lia. exact Hk. }
    apply G. intros i _. reflexivity. }
  rewrite X. reflexivity.
Qed.
Lemma chain_nonempty sz n prev blocks : blocks <> [] -> map hs_out (chain sz n prev blocks) <> [].
Proof. destruct blocks; [congruence|]. cbn [chain map]. discriminate. Qed.
Lemma idx_last' {A} (l : list A) d : l <> [] -> idx l (length l - 1) = Ok (last l d).
Proof. intros H. destruct (exists_last H) as (x & a & ->). rewrite last_snoc. apply idx_last. Qed.

(** what the constructor leaves, and what the constraints and the witness generator do with it *)
Lemma many_main C xs n s cs0 : compressor_ok C -> length xs mod 8 = 0 -> 0 < length xs -> Forall (fun v => v < n) xs ->
  exists k g pb' new cs r, sha256_many_new C xs (PB n s cs0) = Ok (g, pb') /\ sha256_many_constraints C g = Ok cs /\ sha256_many_result g = Ok r /\
    pad_zeros 512 (length xs) k /\ concat (sm_blocks g) = xs ++ seq n (1 + k + 64) /\ pb_cs pb' = cs0 ++ new /\
    n + (1 + k + 64) <= pb_next pb' /\ frame n (pb_next pb') s (pb_val pb') /\
    cs_all (fun v => n <= v < n + (1 + k + 64)) new /\
    map (pb_val pb') (seq n (1 + k + 64)) = map b2F (pad_suffix (length xs) k) /\
    (forall t, sat t new <-> t n = F1 /\ map t (seq (n + 1 + k) 64) = map b2F (msb_bits 64 (Z.of_nat (length xs)))) /\
    (forall t padded, sat t cs -> map t (concat (sm_blocks g)) = map b2F padded -> map t r = map b2F (hash_padded padded)) /\
    (forall t padded, map t (concat (sm_blocks g)) = map b2F padded ->
       exists t', sha256_many_witness C g t = Ok t' /\ frame (n + (1 + k + 64)) (pb_next pb') t t' /\ sat t' cs).
Proof.
  intros HC H8 H0 Hxs. assert (Hbs : 64 <= 512) by (apply Nat.leb_le; reflexivity).
  destruct (padding_main xs 512 n s cs0 Hbs H8 H0) as (k & blocks & pb1 & new & Hk & E & Hc & Hb & Hn & Hcs & Hsc & Hf & Hv & Hs).
  assert (EK : length (pad_suffix (length xs) k) = 1 + k + 64).
  { unfold pad_suffix. cbn [length]. rewrite app_length, repeat_length, msb_bits_length. lia. }
  rewrite EK in *.
  destruct (many_loop_eq C blocks [] [] pb1) as (pb' & E2 & N2 & Cs2 & Fr2). cbn [app prev_of] in E2.
  set (hs := chain (cp_size C) (pb_next pb1) SHA256_default_IV blocks) in *.
  assert (Lc : length (concat blocks) = length blocks * 512) by (now apply concat_length).
  assert (Hne : blocks <> []). { intros Eb. rewrite Eb in Hc. apply (f_equal (@length _)) in Hc. cbn [concat length] in Hc. rewrite app_length in Hc. lia. }
  assert (Hin : forall v, In v (concat blocks) -> v < pb_next pb1).
  { intros v Hv'. rewrite Hc in Hv'. apply in_app_iff in Hv'. rewrite Hn. destruct Hv' as [Hv'|Hv'].
    - apply (proj1 (Forall_forall _ _) Hxs) in Hv'. lia.
    - apply in_seq in Hv'. lia. }
  assert (Hbl : Forall (fun b => length b = 512 /\ Forall (fun v => v < pb_next pb1) b) blocks).
  { apply Forall_forall. intros b Hb'. split; [exact (proj1 (Forall_forall _ _) Hb b Hb')|]. apply Forall_forall. intros v Hv'. apply Hin.
    apply in_concat. eauto. }
  assert (HP : forall padded (t : assign), map t (concat blocks) = map b2F padded -> length padded / 512 = length blocks).
  { intros padded t Et. apply (f_equal (@length _)) in Et. rewrite !map_length in Et. rewrite <- Et, Lc. apply Nat.div_mul. lia. }
  exists k, (ShaMany blocks hs (map hs_out hs)), pb', new, (concat (map (hcs C) hs)), (last (map hs_out hs) []).
  split; [unfold sha256_many_new; rewrite E; cbn [obind]; rewrite E2; reflexivity|].
  split; [apply many_cs_eq|].
  split; [unfold sha256_many_result; cbn [sm_outputs]; apply idx_last'; now apply chain_nonempty|].
  cbn [sm_blocks]. split; [exact Hk|]. split; [exact Hc|]. split; [rewrite Cs2; exact Hcs|]. split; [rewrite N2, Hn; lia|].
  split. { intros v Hv'. rewrite Fr2 by (rewrite N2, Hn in *; lia). apply Hf. rewrite N2, Hn in Hv'. lia. }
  split; [exact Hsc|].
  split. { rewrite <- Hv. apply map_ext_in. intros v Hv'. apply in_seq in Hv'. apply Fr2. left. rewrite Hn. lia. }
  split; [exact Hs|]. split.
  - intros t padded Ht Et. unfold hash_padded. rewrite (HP padded t Et).
    apply (chain_sound C HC blocks _ (pb_next pb1) SHA256_default_IV);
      [exact IV_length|apply IV_all|exact Hbl|apply IV_ev|now apply blocks_words|exact Hne|exact Ht].
  - intros t padded Et.
    destruct (chain_complete C HC blocks (words (length blocks) 512 padded) (pb_next pb1) SHA256_default_IV (word_bits fips_H256) t) as (t' & W & Fr & S);
      [exact IV_length|apply IV_all|exact Hbl|apply IV_ev|now apply blocks_words|].
    exists t'. split; [exact W|]. split; [|exact S]. rewrite N2. rewrite <- Hn. exact Fr.
Qed.

Lemma many_honest : forall C (xs : list nat) (msg : list bool) n s cs0, compressor_ok C -> length xs mod 8 = 0 -> 0 < length xs ->
  Forall (fun v => v < n) xs -> map s xs = map b2F msg ->
  exists g pb' new cs r s', sha256_many_new C xs (PB n s cs0) = Ok (g, pb') /\ pb_cs pb' = cs0 ++ new /\
    sha256_many_constraints C g = Ok cs /\ sha256_many_result g = Ok r /\ sha256_many_witness C g (pb_val pb') = Ok s' /\
    frame n (pb_next pb') s s' /\ sat s' (new ++ cs) /\ map s' r = map b2F (sha256_bits msg).
Proof.
  intros C xs msg n s cs0 HC H8 H0 Hxs Em.
  assert (Lm : length msg = length xs) by (apply (f_equal (@length F)) in Em; rewrite !map_length in Em; congruence).
  destruct (many_main C xs n s cs0 HC H8 H0 Hxs) as (k & g & pb' & new & cs & r & E1 & E2 & E3 & Hk & Hc & Hcs & Hle & Hf & Hsc & Hv & Hs & Hsound & Hcomp).
  assert (Ek : k = (447 + 511 * length msg) mod 512).
  { apply (pad_zeros_unique 512 (length xs)); [exact Hk|]. rewrite <- Lm. apply fips_padding. }
  assert (Ev : map (pb_val pb') (concat (sm_blocks g)) = map b2F (msg ++ pad_suffix (length msg) k)).
  { rewrite Hc, !map_app, Hv, Lm. f_equal. rewrite <- Em. apply map_ext_in. intros v Hv'. apply Hf. left. exact (proj1 (Forall_forall _ _) Hxs v Hv'). }
  destruct (Hcomp _ _ Ev) as (s' & W & Fr & S). exists g, pb', new, cs, r, s'.
  assert (Hnew : sat (pb_val pb') new).
  { apply Hs. replace (1 + k + 64) with (1 + (k + 64)) in Hv by lia.
    unfold pad_suffix in Hv. cbn [map] in Hv. rewrite map_app in Hv. change (b2F true :: map b2F (repeat false k) ++ map b2F (msb_bits 64 (Z.of_nat (length xs))))
      with ([F1] ++ (map b2F (repeat false k) ++ map b2F (msb_bits 64 (Z.of_nat (length xs))))) in Hv.
    apply map_seq_split in Hv; [|reflexivity]. destruct Hv as [A B]. apply map_seq_split in B; [|now rewrite map_length, repeat_length]. destruct B as [_ B].
    split; [cbn [seq map] in A; injection A as A; exact A|exact B]. }
  assert (Es' : map s' (concat (sm_blocks g)) = map b2F (msg ++ pad_suffix (length msg) k)).
  { rewrite <- Ev. apply map_ext_in. intros v Hv'. apply Fr. left. rewrite Hc in Hv'. apply in_app_iff in Hv'. destruct Hv' as [Hv'|Hv'].
    - apply (proj1 (Forall_forall _ _) Hxs) in Hv'. lia.
    - apply in_seq in Hv'. lia. }
  repeat (split; [assumption|]). split; [|split].
  - intros v Hv'. rewrite Fr by lia. apply Hf. exact Hv'.
  - apply sat_app. split; [|exact S]. eapply sat_ext; [exact Hsc| |exact Hnew]. intros v Hv'. cbn beta in Hv'. symmetry. apply Fr. lia.
  - rewrite (Hsound s' _ S Es'). rewrite Ek. now rewrite hash_padded_fips.
Qed.

(** soundness, given that the filler between the marker and the length is zero *)
Lemma many_sound_partial : forall C (xs : list nat) (msg : list bool) n s cs0, compressor_ok C -> length xs mod 8 = 0 -> 0 < length xs ->
  Forall (fun v => v < n) xs ->
  exists g pb' new cs r, sha256_many_new C xs (PB n s cs0) = Ok (g, pb') /\ pb_cs pb' = cs0 ++ new /\
    sha256_many_constraints C g = Ok cs /\ sha256_many_result g = Ok r /\
    forall t, sat t (new ++ cs) -> map t xs = map b2F msg ->
      Forall (fun v => t v = F0) (firstn (length (concat (sm_blocks g)) - length xs - 65) (skipn (length xs + 1) (concat (sm_blocks g)))) ->
      map t r = map b2F (sha256_bits msg).
Proof.
  intros C xs msg n s cs0 HC H8 H0 Hxs.
  destruct (many_main C xs n s cs0 HC H8 H0 Hxs) as (k & g & pb' & new & cs & r & E1 & E2 & E3 & Hk & Hc & Hcs & Hle & Hf & Hsc & Hv & Hs & Hsound & Hcomp).
  exists g, pb', new, cs, r. repeat (split; [assumption|]). intros t Ht Em Hz.
  assert (Lm : length msg = length xs) by (apply (f_equal (@length F)) in Em; rewrite !map_length in Em; congruence).
  apply sat_app in Ht. destruct Ht as [Ht1 Ht2]. apply Hs in Ht1. destruct Ht1 as [T1 T2].
  assert (Ek : k = (447 + 511 * length msg) mod 512).
  { apply (pad_zeros_unique 512 (length xs)); [exact Hk|]. rewrite <- Lm. apply fips_padding. }
  rewrite Hc in Hz. rewrite app_length, seq_length in Hz. replace (length xs + (1 + k + 64) - length xs - 65) with k in Hz by lia.
  rewrite skipn_app, skipn_all2, app_nil_l in Hz by lia. replace (length xs + 1 - length xs) with 1 in Hz by lia.
  replace (1 + k + 64) with (S (k + 64)) in Hz, Hc by lia. cbn [seq skipn] in Hz. rewrite seq_app, firstn_app, seq_length, Nat.sub_diag, firstn_O, app_nil_r in Hz.
  rewrite firstn_all2 in Hz by (rewrite seq_length; lia).
  assert (Ef : map t (seq (S n) k) = map b2F (repeat false k)).
  { clear -Hz. revert n Hz. induction k as [|k IH]; intros n Hz; [reflexivity|]. cbn [seq map repeat] in *. inversion Hz; subst. rewrite IH by assumption. f_equal. assumption. }
  rewrite (Hsound t (msg ++ pad_suffix (length msg) k) Ht2).
  - rewrite Ek. now rewrite hash_padded_fips.
  - rewrite Hc, !map_app, Em. f_equal. cbn [seq]. rewrite seq_app. unfold pad_suffix. cbn [map]. rewrite !map_app, T1, Ef. rewrite Lm. rewrite <- T2.
    replace (n + 1 + k) with (S n + k) by lia. reflexivity.
Qed.

(** the filler is free: any bits there give a satisfying assignment whose result is the hash of the
    block with that filler *)
Lemma many_free : forall C (xs : list nat) (msg : list bool) n s cs0, compressor_ok C -> length xs mod 8 = 0 -> 0 < length xs ->
  Forall (fun v => v < n) xs -> map s xs = map b2F msg ->
  exists k g pb' new cs r, pad_zeros 512 (length msg) k /\ 0 < k /\ sha256_many_new C xs (PB n s cs0) = Ok (g, pb') /\ pb_cs pb' = cs0 ++ new /\
    sha256_many_constraints C g = Ok cs /\ sha256_many_result g = Ok r /\
    forall filler, length filler = k -> exists t, frame n (pb_next pb') s t /\ sat t (new ++ cs) /\ map t xs = map b2F msg /\
      map t r = map b2F (hash_padded (msg ++ [true] ++ filler ++ msb_bits 64 (Z.of_nat (length msg)))).
Proof.
  intros C xs msg n s cs0 HC H8 H0 Hxs Em.
  assert (Lm : length msg = length xs) by (apply (f_equal (@length F)) in Em; rewrite !map_length in Em; congruence).
  destruct (many_main C xs n s cs0 HC H8 H0 Hxs) as (k & g & pb' & new & cs & r & E1 & E2 & E3 & Hk & Hc & Hcs & Hle & Hf & Hsc & Hv & Hs & Hsound & Hcomp).
  exists k, g, pb', new, cs, r. rewrite Lm. split; [exact Hk|]. split.
  { destruct k; [|lia]. destruct Hk as [Hk _]. rewrite Nat.add_0_r in Hk. exfalso.
    apply Nat.mod_divide in Hk; [|lia]. destruct Hk as [c Hk]. apply Nat.mod_divide in H8; [|lia]. destruct H8 as [d H8]. lia. }
  repeat (split; [assumption|]). intros filler Lf.
  set (body := [true] ++ filler ++ msb_bits 64 (Z.of_nat (length xs))).
  assert (Lb : length (map b2F body) = 1 + k + 64).
  { unfold body. cbn [length app map]. rewrite map_length, app_length, msb_bits_length. lia. }
  set (t0 := override s n (map b2F body)).
  assert (Ev : map t0 (seq n (1 + k + 64)) = map b2F body) by (unfold t0; rewrite <- Lb; apply override_in).
  assert (Lo : forall v, v < n -> t0 v = s v) by (intros v Hv'; apply override_out; now left).
  assert (Ex : map t0 xs = map b2F msg).
  { rewrite <- Em. apply map_ext_in. intros v Hin. apply Lo. exact (proj1 (Forall_forall _ _) Hxs v Hin). }
  assert (Ec : map t0 (concat (sm_blocks g)) = map b2F (msg ++ body)) by (rewrite Hc, !map_app, Ex, Ev; reflexivity).
  destruct (Hcomp t0 _ Ec) as (t & W & Fr & S). exists t.
  assert (Hin : forall v, In v (concat (sm_blocks g)) -> t v = t0 v).
  { intros v Hv'. apply Fr. left. rewrite Hc in Hv'. apply in_app_iff in Hv'. destruct Hv' as [Hv'|Hv'].
    - apply (proj1 (Forall_forall _ _) Hxs) in Hv'. lia.
    - apply in_seq in Hv'. lia. }
  split; [|split; [|split]].
  - intros v Hv'. rewrite Fr by lia. unfold t0. apply override_out. rewrite Lb. lia.
  - apply sat_app. split; [|exact S]. eapply sat_ext; [exact Hsc| |].
    + intros v Hv'. cbn beta in Hv'. symmetry. apply Fr. lia.
    + apply Hs. replace (1 + k + 64) with (1 + (k + 64)) in Ev by lia. unfold body in Ev at 1. rewrite map_app in Ev.
      apply map_seq_split in Ev; [|reflexivity]. destruct Ev as [A B]. rewrite map_app in B.
      apply map_seq_split in B; [|now rewrite map_length]. destruct B as [_ B].
      split; [cbn [seq map] in A; injection A as A; exact A|exact B].
  - rewrite <- Ex. apply map_ext_in. intros v Hv'. apply Hin. rewrite Hc. apply in_app_iff. now left.
  - apply Hsound; [exact S|]. rewrite <- Ec. apply map_ext_in. intros v Hv'. now apply Hin.
Qed.
