(** sha256_many refuted; sha256_full_gadget_512. *)
From Coq Require Import List ZArith Bool Arith Lia.
From Verif Require Import Primes Field Base R1CS R1CSFacts M_Utils M_Bits P_Bits Gadget M_Padding P_Padding Q_Padding M_Sha256 M_ShaGadget M_ShaGadgets
  Spec_Utils P_Utils Spec_Padding Spec_Sha256 Spec_ShaGadget P_Sha256 Q_Sha256 P_ShaGadget P_ShaGadget2 P_ShaGadget3 P_ShaGadget4 P_ShaGadget5 P_ShaGadgets Q_ShaGadget.
Import ListNotations.
Local Open Scope nat_scope.

Definition bitsb (a b : list bool) : bool := forallb (fun xy => Bool.eqb (fst xy) (snd xy)) (combine a b).
Lemma bitsb_refl a : bitsb a a = true.
Proof. unfold bitsb. induction a as [|x a IH]; [reflexivity|]. cbn [combine forallb fst snd]. now rewrite eqb_reflx, IH. Qed.
Lemma b2F_list_inj : forall a b, map b2F a = map b2F b -> a = b.
Proof.
  induction a as [|x a IH]; intros [|y b] E; try discriminate E; [reflexivity|]. cbn [map] in E.
  assert (E1 : b2F x = b2F y) by congruence. assert (E2 : map b2F a = map b2F b) by congruence.
  rewrite (IH b E2). f_equal. destruct x, y; try reflexivity; exfalso; cbn [b2F] in E1.
  - now apply F1_neq_0.
  - symmetry in E1. now apply F1_neq_0.
Qed.

Definition msg8 : list bool := repeat false 8.
Definition filler8 : list bool := true :: repeat false 438.
Lemma filler_differs : hash_padded (msg8 ++ [true] ++ filler8 ++ msb_bits 64 (Z.of_nat (length msg8))) <> sha256_bits msg8.
Proof.
  intros E. assert (X : bitsb (hash_padded (msg8 ++ [true] ++ filler8 ++ msb_bits 64 (Z.of_nat (length msg8)))) (sha256_bits msg8) = false) by (vm_compute; reflexivity).
  rewrite E, bitsb_refl in X. discriminate X.
Qed.
Lemma many_sound_refuted : forall C, compressor_ok C -> exists xs msg n s g pb' cs r t,
  sha256_many_new C xs (PB n s []) = Ok (g, pb') /\ sha256_many_constraints C g = Ok cs /\ sha256_many_result g = Ok r /\
  sat t (pb_cs pb' ++ cs) /\ map t xs = map b2F msg /\ map t r <> map b2F (sha256_bits msg).
Proof.
  intros C HC. exists (seq 0 8), msg8, 8, (fun _ => F0).
  destruct (many_free C (seq 0 8) msg8 8 (fun _ => F0) [] HC) as (k & g & pb' & new & cs & r & Hk & _ & E1 & E2 & E3 & E4 & H).
  - reflexivity.
  - cbn. lia.
  - apply Forall_forall. intros v Hv. apply in_seq in Hv. lia.
  - reflexivity.
  - assert (Ek : k = 439).
    { apply (pad_zeros_unique 512 8); [exact Hk|]. apply (fips_padding 8). }
    destruct (H filler8) as (t & _ & S & Ex & Er); [rewrite Ek; reflexivity|].
    exists g, pb', cs, r, t. split; [exact E1|]. split; [exact E3|]. split; [exact E4|]. split; [rewrite E2; exact S|]. split; [exact Ex|].
    rewrite Er. intros E. apply b2F_list_inj in E. now apply filler_differs.
Qed.

(** ** sha256_full_gadget_512 *)
Lemma fold_fill_out vs : forall bits s v, ~ In v vs -> fold_left (fun s vb => upd s (fst vb) (b2F (snd vb))) (combine vs bits) s v = s v.
Proof.
  induction vs as [|x vs IH]; intros bits s v Hv; [reflexivity|]. destruct bits as [|b bits]; [reflexivity|]. cbn [combine fold_left fst snd].
  rewrite IH by (intros H; apply Hv; now right). apply upd_other. intros ->. apply Hv. now left.
Qed.
Lemma fold_fill_in vs : forall bits s, NoDup vs -> length vs = length bits ->
  map (fold_left (fun s vb => upd s (fst vb) (b2F (snd vb))) (combine vs bits) s) vs = map b2F bits.
Proof.
  induction vs as [|x vs IH]; intros bits s Hnd Hl; destruct bits as [|b bits]; try discriminate Hl; [reflexivity|].
  inversion Hnd as [|? ? H1 H2]; subst. cbn [combine fold_left map fst snd]. rewrite (fold_fill_out vs) by exact H1. rewrite upd_same. f_equal.
  apply IH; [exact H2|]. now injection Hl.
Qed.
Lemma fill_ok vs bits s : NoDup vs -> length vs = length bits -> exists s', fill_with_bits vs bits s = Ok s' /\
  (forall v, ~ In v vs -> s' v = s v) /\ map s' vs = map b2F bits.
Proof.
  intros Hnd Hl. unfold fill_with_bits. rewrite Hl, Nat.eqb_refl. cbn [oassert obind]. eexists. split; [reflexivity|].
  split; [intros v; apply fold_fill_out|now apply fold_fill_in].
Qed.
Lemma padding_512 : final_padding_512 = pad_suffix 512 447.
Proof. vm_compute. reflexivity. Qed.
Lemma padding_512_length : length final_padding_512 = 512. Proof. reflexivity. Qed.

(** the two hashers: where they are *)
Lemma full_main C input output n s cs0 : compressor_ok C -> length input = 512 -> length output = 256 -> NoDup output ->
  Forall (fun v => v < n /\ ~ In v output) input -> Forall (fun v => v < n) output ->
  let nf := n + 256 + cp_size C + 512 in
  exists pb', full_new C input output (PB n s cs0) =
      Ok (Full (seq n 256) input output (Hasher (n + 256) SHA256_default_IV input (seq n 256)) (seq (n + 256 + cp_size C) 512)
               (Hasher nf (map V (seq n 256)) (seq (n + 256 + cp_size C) 512) output), pb') /\
    pb_cs pb' = cs0 /\ pb_next pb' = nf + cp_size C /\ frame n (pb_next pb') s (pb_val pb') /\
    map (pb_val pb') (seq (n + 256 + cp_size C) 512) = map b2F final_padding_512 /\
    (forall v, nf <= v < nf + cp_size C -> pb_val pb' v = F0) /\
    well_placed (n + 256) SHA256_default_IV input (seq n 256) /\ well_placed nf (map V (seq n 256)) (seq (n + 256 + cp_size C) 512) output.
Proof.
  intros HC Li Lo Hnd Hi Ho nf. unfold full_new. cbn [pb_alloc_n hasher_new pb_next pb_val pb_cs snd].
  unfold VariableArray_from_bits. rewrite padding_512_length. cbn [pb_alloc_n pb_next pb_val pb_cs].
  match goal with |- context[fill_with_bits ?a ?b ?c] => destruct (fill_ok a b c) as (s1 & E & Fr & Fi); [apply seq_NoDup|rewrite seq_length; reflexivity|]; rewrite E end.
  cbn [obind pb_alloc_n pb_next pb_val pb_cs snd hasher_new]. rewrite Li, Nat.eqb_refl. cbn [oassert obind].
  eexists. split; [reflexivity|]. cbn [pb_next pb_val pb_cs]. fold nf.
  split; [reflexivity|]. split; [reflexivity|].
  assert (Out : forall (A : Type) a k v (x y : A), v < a \/ a + k <= v -> (if (a <=? v) && (v <? a + k) then x else y) = y).
  { intros A a k v x y Hv. replace ((a <=? v) && (v <? a + k)) with false; [reflexivity|].
    symmetry. apply andb_false_iff. destruct Hv; [left; apply Nat.leb_gt; lia|right; apply Nat.ltb_ge; lia]. }
  assert (In' : forall (A : Type) a k v (x y : A), a <= v < a + k -> (if (a <=? v) && (v <? a + k) then x else y) = x).
  { intros A a k v x y Hv. replace ((a <=? v) && (v <? a + k)) with true; [reflexivity|].
    symmetry. apply andb_true_iff. split; [apply Nat.leb_le; lia|apply Nat.ltb_lt; lia]. }
  split; [|split; [|split; [|split]]].
  - intros v Hv. unfold nf in Hv. rewrite Out by (unfold nf; lia). rewrite Fr by (rewrite in_seq; lia). rewrite !Out by lia. reflexivity.
  - rewrite <- Fi. apply map_ext_in. intros v Hv. apply in_seq in Hv. apply Out. unfold nf. lia.
  - intros v Hv. apply In'. exact Hv.
  - apply place; [exact IV_length|exact Li|apply IV_all|]. eapply Forall_impl; [|exact Hi]. intros v [A _]; exact A.
  - constructor; [now rewrite map_length, seq_length|now rewrite seq_length|exact Lo|exact Hnd|..].
    + apply Forall_forall. intros l Hl. apply in_map_iff in Hl. destruct Hl as (v & <- & Hv). apply in_seq in Hv. cbn [lc_all]. split; [unfold nf; lia|].
      intros Hv'. apply (proj1 (Forall_forall _ _) Ho) in Hv'. lia.
    + apply Forall_forall. intros v Hv. apply in_seq in Hv. split; [unfold nf; lia|]. intros Hv'. apply (proj1 (Forall_forall _ _) Ho) in Hv'. lia.
    + eapply Forall_impl; [|exact Ho]. intros v Hv. cbn beta in *. unfold nf. lia.
Qed.
Lemma words_two (m pad : list bool) : length m = 512 -> length pad = 512 -> words (length (m ++ pad) / 512) 512 (m ++ pad) = [m; pad].
Proof.
  intros L1 L2. rewrite app_length, L1, L2. change ((512 + 512) / 512) with 2. cbn [words].
  rewrite !firstn_app, !skipn_app, L1, Nat.sub_diag, firstn_O, app_nil_r, skipn_O, (firstn_all2 m), (skipn_all2 m) by lia. rewrite app_nil_l, firstn_all2 by lia. reflexivity.
Qed.
Lemma fl_two {A B} (f : A -> B -> A) a b c : fold_left f [b; c] a = f (f a b) c.
Proof. reflexivity. Qed.
Lemma full_hash m pad : length m = 512 -> length pad = 512 ->
  compress_bits (compress_bits (word_bits fips_H256) m) pad = hash_padded (m ++ pad).
Proof. intros L1 L2. unfold hash_padded. rewrite words_two by assumption. rewrite fl_two. exact (@eq_refl _ _). Qed.

(** soundness of the constraints, for whatever the padding variables hold *)
Lemma full_sound C input output n s cs0 : compressor_ok C -> length input = 512 -> length output = 256 -> NoDup output ->
  Forall (fun v => v < n /\ ~ In v output) input -> Forall (fun v => v < n) output ->
  exists g pb', full_new C input output (PB n s cs0) = Ok (g, pb') /\ pb_cs pb' = cs0 /\
   (forall b t m pad, sat t (full_constraints C g b) -> map t input = map b2F m -> map t (fg_padding g) = map b2F pad ->
      map t output = map b2F (hash_padded (m ++ pad))) /\
   (forall b t m pad, map t input = map b2F m -> map t (fg_padding g) = map b2F pad ->
      exists t', full_witness C g t = Ok t' /\ (forall v, v < n -> ~ In v output -> t' v = t v) /\ (forall v, pb_next pb' <= v -> t' v = t v) /\
        map t' (fg_padding g) = map b2F pad /\ sat t' (full_constraints C g b)) /\
   map (pb_val pb') (fg_padding g) = map b2F final_padding_512 /\ frame n (pb_next pb') s (pb_val pb') /\
   length (fg_padding g) = 512 /\ (forall v, In v (fg_padding g) -> n <= v < pb_next pb') /\ NoDup (fg_padding g).
Proof.
  intros HC Li Lo Hnd Hi Ho. destruct (full_main C input output n s cs0 HC Li Lo Hnd Hi Ho) as (pb' & E & Cs & Nx & Fr & Pv & _ & W1 & W2).
  set (nf := n + 256 + cp_size C + 512) in *. eexists _, pb'. split; [exact E|]. split; [exact Cs|]. cbn [fg_padding].
  assert (S0 : forall t m pad, map t input = map b2F m -> map t (seq (n + 256 + cp_size C) 512) = map b2F pad -> length m = 512 /\ length pad = 512).
  { intros t m pad A B. apply (f_equal (@length _)) in A, B. rewrite !map_length in A, B. rewrite seq_length in B. split; congruence. }
  split; [|split; [|split; [exact Pv|split; [exact Fr|split; [apply seq_length|split; [|apply seq_NoDup]]]]]].
  - intros b t m pad Ht Em Ep. unfold full_constraints in Ht. cbn [fg_in fg_fin] in Ht. apply sat_app in Ht. destruct Ht as [T1 T2].
    unfold hasher_cs in T1, T2. cbn [hs_n hs_prev hs_block hs_out] in T1, T2.
    assert (O1 := ck_sound C HC _ _ _ _ t _ _ W1 (conj (IV_ev t) Em) T1).
    destruct (S0 t m pad Em Ep) as [L1 L2]. rewrite <- (full_hash m pad L1 L2).
    apply (ck_sound C HC _ _ _ _ t _ _ W2); [split; [now rewrite ev_map_V|exact Ep]|exact T2].
  - intros b t m pad Em Ep. unfold full_witness, full_constraints, hasher_wit, hasher_cs. cbn [fg_in fg_fin hs_n hs_prev hs_block hs_out].
    destruct (ck_complete C HC _ _ _ _ t _ _ W1 (conj (IV_ev t) Em)) as (t1 & X1 & F1 & S1). rewrite X1. cbn [obind].
    assert (Em1 : map t1 input = map b2F m).
    { rewrite <- Em. apply map_ext_in. intros v Hv. apply (proj1 (Forall_forall _ _) Hi) in Hv. apply F1; [rewrite in_seq|]; lia. }
    assert (O1 := ck_sound C HC _ _ _ _ t1 _ _ W1 (conj (IV_ev t1) Em1) S1).
    assert (Ep1 : map t1 (seq (n + 256 + cp_size C) 512) = map b2F pad).
    { rewrite <- Ep. apply map_ext_in. intros v Hv. apply in_seq in Hv. apply F1; [rewrite in_seq|]; lia. }
    destruct (ck_complete C HC _ _ _ _ t1 (compress_bits (word_bits fips_H256) m) pad W2) as (t2 & X2 & F2 & S2); [split; [now rewrite ev_map_V|exact Ep1]|].
    exists t2. split; [exact X2|].
    split; [|split; [|split]].
    + intros v Hv Hv'. rewrite F2 by (unfold nf; (exact Hv' || lia)). apply F1; [rewrite in_seq|]; lia.
    + intros v Hv. rewrite Nx in Hv. unfold nf in *. rewrite F2; [apply F1; [rewrite in_seq|]; lia| |lia].
      intros Hv'. apply (proj1 (Forall_forall _ _) Ho) in Hv'. lia.
    + rewrite <- Ep1. apply map_ext_in. intros v Hv. apply in_seq in Hv. apply F2; [|unfold nf; lia].
      intros Hv'. apply (proj1 (Forall_forall _ _) Ho) in Hv'. lia.
    + apply sat_app. split; [|exact S2]. eapply sat_ext; [| |exact S1].
      * apply (ck_scope C HC _ _ _ _ (fun v => v < n + 256 + cp_size C /\ ~ In v output) W1).
        -- apply IV_all.
        -- eapply Forall_impl; [|exact Hi]. intros v [A B]. split; [lia|exact B].
        -- apply Forall_forall. intros v Hv. apply in_seq in Hv. split; [lia|]. intros Hv'. apply (proj1 (Forall_forall _ _) Ho) in Hv'. lia.
        -- intros v Hv. split; [lia|]. intros Hv'. apply (proj1 (Forall_forall _ _) Ho) in Hv'. lia.
      * intros v [A B]. symmetry. apply F2; [exact B|unfold nf; lia].
  - intros v Hv. apply in_seq in Hv. rewrite Nx. unfold nf. lia.
Qed.

Lemma full_honest : forall C input output (m : list bool) n s cs0, compressor_ok C -> length input = 512 -> length output = 256 -> NoDup output ->
  Forall (fun v => v < n /\ ~ In v output) input -> Forall (fun v => v < n) output -> map s input = map b2F m ->
  exists g pb' s', full_new C input output (PB n s cs0) = Ok (g, pb') /\ pb_cs pb' = cs0 /\ full_witness C g (pb_val pb') = Ok s' /\
    (forall b, sat s' (full_constraints C g b)) /\ (forall v, v < n -> ~ In v output -> s' v = s v) /\ map s' output = map b2F (sha256_bits m).
Proof.
  intros C input output m n s cs0 HC Li Lo Hnd Hi Ho Em.
  destruct (full_sound C input output n s cs0 HC Li Lo Hnd Hi Ho) as (g & pb' & E & Cs & Hs & Hc & Pv & Fr & _).
  assert (Em' : map (pb_val pb') input = map b2F m).
  { rewrite <- Em. apply map_ext_in. intros v Hv. apply Fr. left. apply (proj1 (Forall_forall _ _) Hi) in Hv. tauto. }
  destruct (Hc true (pb_val pb') m _ Em' Pv) as (s' & W & F1 & _ & P & S). exists g, pb', s'. split; [exact E|]. split; [exact Cs|]. split; [exact W|].
  split; [exact (fun _ => S)|]. split.
  - intros v Hv Hv'. rewrite F1 by assumption. apply Fr. now left.
  - assert (Lm : length m = 512) by (apply (f_equal (@length _)) in Em; rewrite !map_length in Em; congruence).
    rewrite (Hs true s' m final_padding_512 S); [|rewrite <- Em'; apply map_ext_in; intros v Hv; apply (proj1 (Forall_forall _ _) Hi) in Hv; apply F1; tauto|exact P].
    f_equal. rewrite padding_512. rewrite <- (hash_padded_fips m), Lm. reflexivity.
Qed.
Lemma full_sound_partial : forall C input output n s cs0, compressor_ok C -> length input = 512 -> length output = 256 -> NoDup output ->
  Forall (fun v => v < n /\ ~ In v output) input -> Forall (fun v => v < n) output ->
  exists g pb', full_new C input output (PB n s cs0) = Ok (g, pb') /\ pb_cs pb' = cs0 /\
    forall b t m, sat t (full_constraints C g b) -> map t input = map b2F m -> map t (fg_padding g) = map b2F (pad_suffix 512 447) ->
      map t output = map b2F (sha256_bits m).
Proof.
  intros C input output n s cs0 HC Li Lo Hnd Hi Ho.
  destruct (full_sound C input output n s cs0 HC Li Lo Hnd Hi Ho) as (g & pb' & E & Cs & Hs & _). exists g, pb'. split; [exact E|]. split; [exact Cs|].
  intros b t m Ht Em Ep. rewrite (Hs b t m _ Ht Em Ep). f_equal.
  assert (Lm : length m = 512) by (apply (f_equal (@length _)) in Em; rewrite !map_length in Em; congruence).
  rewrite <- (hash_padded_fips m), Lm. reflexivity.
Qed.
(** the padding block is free: whatever 512 bits it holds, the constraints can be satisfied *)
Lemma full_free : forall C input output (m pad : list bool) n s cs0, compressor_ok C -> length input = 512 -> length output = 256 -> NoDup output ->
  Forall (fun v => v < n /\ ~ In v output) input -> Forall (fun v => v < n) output -> map s input = map b2F m -> length pad = 512 ->
  exists g pb' t, full_new C input output (PB n s cs0) = Ok (g, pb') /\ pb_cs pb' = cs0 /\
    (forall b, sat t (full_constraints C g b)) /\ map t input = map b2F m /\ map t output = map b2F (hash_padded (m ++ pad)).
Proof.
  intros C input output m pad n s cs0 HC Li Lo Hnd Hi Ho Em Lp.
  destruct (full_sound C input output n s cs0 HC Li Lo Hnd Hi Ho) as (g & pb' & E & Cs & Hs & Hc & _ & _ & Lg & Rg & Ng).
  destruct (fill_ok (fg_padding g) pad s) as (t0 & _ & F0 & P0); [exact Ng|congruence|].
  assert (Em0 : map t0 input = map b2F m).
  { rewrite <- Em. apply map_ext_in. intros v Hv. apply F0. intros Hv'. apply Rg in Hv'. apply (proj1 (Forall_forall _ _) Hi) in Hv. lia. }
  destruct (Hc true t0 m pad Em0 P0) as (t & W & F1 & _ & P & S). exists g, pb', t. split; [exact E|]. split; [exact Cs|]. split; [exact (fun _ => S)|].
  assert (Em1 : map t input = map b2F m).
  { rewrite <- Em0. apply map_ext_in. intros v Hv. apply (proj1 (Forall_forall _ _) Hi) in Hv. apply F1; tauto. }
  split; [exact Em1|]. exact (Hs true t m pad S Em1 P).
Qed.
Lemma full_pad_differs : hash_padded (repeat false 512 ++ repeat false 512) <> sha256_bits (repeat false 512).
Proof.
  intros E. assert (X : bitsb (hash_padded (repeat false 512 ++ repeat false 512)) (sha256_bits (repeat false 512)) = false) by (vm_compute; reflexivity).
  rewrite E, bitsb_refl in X. discriminate X.
Qed.
Lemma seq_io : Forall (fun v => v < 768 /\ ~ In v (seq 512 256)) (seq 0 512) /\ Forall (fun v => v < 768) (seq 512 256).
Proof. split; apply Forall_forall; intros v Hv; apply in_seq in Hv; rewrite ?in_seq; lia. Qed.
Lemma full_sound_refuted : forall C, compressor_ok C -> exists input output m n s g pb' t,
  full_new C input output (PB n s []) = Ok (g, pb') /\ pb_cs pb' = [] /\ (forall b, sat t (full_constraints C g b)) /\
  map t input = map b2F m /\ map t output <> map b2F (sha256_bits m).
Proof.
  intros C HC. exists (seq 0 512), (seq 512 256), (repeat false 512), 768, (fun _ => F0). destruct seq_io as [A B].
  destruct (full_free C (seq 0 512) (seq 512 256) (repeat false 512) (repeat false 512) 768 (fun _ => F0) [] HC) as (g & pb' & t & E & Cs & S & Em & Eo);
    [apply seq_length|apply seq_length|apply seq_NoDup|exact A|exact B| |apply repeat_length|].
  - reflexivity.
  - exists g, pb', t. repeat (split; [assumption|]). rewrite Eo. intros X. apply b2F_list_inj in X. now apply full_pad_differs.
Qed.

Lemma many_any_length_refuted : forall C (xs : list nat) pb, length xs mod 8 <> 0 \/ length xs = 0 -> sha256_many_new C xs pb = Abort.
Proof.
  intros C xs pb H. unfold sha256_many_new, bits2blocks_padded. destruct (length xs mod 8 =? 0) eqn:E; cbn [oassert obind]; [|reflexivity].
  apply Nat.eqb_eq in E. destruct H as [H|H]; [contradiction|]. rewrite H. reflexivity.
Qed.
