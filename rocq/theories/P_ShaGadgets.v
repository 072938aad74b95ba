(** sha256_many: the chain of compressions. *)
From Coq Require Import List ZArith Bool Arith Lia.
From Verif Require Import Primes Field Base R1CS R1CSFacts M_Utils M_Bits P_Bits Gadget M_Padding P_Padding Q_Padding M_Sha256 M_ShaGadget M_ShaGadgets
  Spec_Utils P_Utils Spec_Padding Spec_Sha256 Spec_ShaGadget P_Sha256 Q_Sha256 P_ShaGadget P_ShaGadget2 P_ShaGadget3 P_ShaGadget4 P_ShaGadget5.
Import ListNotations.
Local Open Scope nat_scope.

(** ** words and bits *)
Lemma words_word_bits : forall H, Forall w32z H -> map msb_val (words (length H) 32 (word_bits H)) = H.
Proof.
  induction 1 as [|z H Hz HF IH]; [reflexivity|]. unfold word_bits in *. cbn [length words flat_map map].
  rewrite firstn_app, msb_bits_length, Nat.sub_diag, firstn_O, app_nil_r, firstn_all2 by (rewrite msb_bits_length; lia).
  rewrite skipn_app, msb_bits_length, Nat.sub_diag, skipn_O, (skipn_all2 (msb_bits 32 z)) by (rewrite msb_bits_length; lia). cbn [app].
  rewrite IH, msb_val_bits. f_equal. apply Z.mod_small. exact Hz.
Qed.
Lemma fips_compress_length H M : length H = 8 -> length (fips_compress H M) = 8.
Proof. intros L. unfold fips_compress. rewrite map_length, combine_length, (steps_length _ H L), L. reflexivity. Qed.
Lemma fips_compress_w32 H M : Forall w32z (fips_compress H M).
Proof. unfold fips_compress. apply Forall_forall. intros z Hz. apply in_map_iff in Hz. destruct Hz as (xy & <- & _). apply w32_plus. Qed.
Lemma fl_cons {A B} (f : A -> B -> A) l a b : fold_left f (b :: l) a = fold_left f l (f a b).
Proof. reflexivity. Qed.
Lemma hash_fold ms : forall H, length H = 8 -> Forall w32z H ->
  fold_left compress_bits ms (word_bits H) = word_bits (fold_left fips_compress (map block_words ms) H).
Proof.
  induction ms as [|m ms IH]; intros H L HW; [reflexivity|].
  rewrite map_cons, !fl_cons.
  assert (E : compress_bits (word_bits H) m = word_bits (fips_compress H (block_words m))).
  { unfold compress_bits. f_equal. f_equal. pose proof (words_word_bits H HW) as X. rewrite L in X. exact X. }
  rewrite E. apply IH; [now apply fips_compress_length|apply fips_compress_w32].
Qed.
Lemma H256_w32 : Forall w32z fips_H256.
Proof. unfold fips_H256. repeat (apply Forall_cons; [split; [discriminate|reflexivity]|]). apply Forall_nil. Qed.
Lemma hash_padded_fips m : hash_padded (m ++ pad_suffix (length m) ((447 + 511 * length m) mod 512)) = sha256_bits m.
Proof. unfold hash_padded, sha256_bits, fips_hash. apply hash_fold; [reflexivity|exact H256_w32]. Qed.
Lemma pad_zeros_unique b len k k' : pad_zeros b len k -> pad_zeros b len k' -> k = k'.
Proof.
  intros [A B] [A' B']. destruct (lt_eq_lt_dec k k') as [[H|H]|H]; [|exact H|]; exfalso; [now apply (B' k)|now apply (B k')].
Qed.
Lemma compress_bits_length h m : length h = 256 -> length (compress_bits h m) = 256.
Proof.
  intros L. unfold compress_bits, word_bits. rewrite flat_msb_length, fips_compress_length; [reflexivity|]. now rewrite map_length, words_length.
Qed.

Lemma flat_map_map {A B C} (f : B -> C) (g : A -> list B) l : map f (flat_map g l) = flat_map (fun x => map f (g x)) l.
Proof. induction l as [|a l IH]; cbn [flat_map map]; [reflexivity|]. now rewrite map_app, IH. Qed.
Lemma IV_ev s : map (ev s) SHA256_default_IV = map b2F (word_bits fips_H256).
Proof.
  unfold SHA256_default_IV, word_bits. rewrite !flat_map_map. change fips_H256 with SHA256_H. apply flat_map_ext. intros h.
  rewrite msb_bits_map, !map_map. apply map_ext_in. intros i Hi. reflexivity.
Qed.
Lemma IV_all (P : nat -> Prop) : Forall (lc_all P) SHA256_default_IV.
Proof.
  unfold SHA256_default_IV. apply Forall_forall. intros l Hl. apply in_flat_map in Hl. destruct Hl as (h & _ & Hl).
  apply in_map_iff in Hl. destruct Hl as (i & <- & _). exact I.
Qed.
Lemma IV_length : length SHA256_default_IV = 256. Proof. reflexivity. Qed.

(** ** the constructor's loop *)
Fixpoint chain (sz n : nat) (prev : list lc) (blocks : list (list nat)) : list hasher :=
  match blocks with
  | [] => []
  | b :: r => Hasher (n + 256) prev b (seq n 256) :: chain sz (n + 256 + sz) (map V (seq n 256)) r
  end.
Definition prev_of (os : list (list nat)) : list lc := match os with [] => SHA256_default_IV | _ => map V (last os []) end.
Lemma last_snoc {A} (l : list A) a d : last (l ++ [a]) d = a. Proof. apply last_last. Qed.
Lemma idx_last {A} (l : list A) a : idx (l ++ [a]) (length (l ++ [a]) - 1) = Ok a.
Proof.
  rewrite app_length. cbn [length]. replace (length l + 1 - 1) with (length l) by lia.
  induction l as [|x l IH]; [reflexivity|]. exact IH.
Qed.
Lemma many_loop_eq C : forall blocks hs os pb,
  exists pb', many_loop C blocks (hs, os, pb) = Ok (hs ++ chain (cp_size C) (pb_next pb) (prev_of os) blocks,
                                                    os ++ map hs_out (chain (cp_size C) (pb_next pb) (prev_of os) blocks), pb') /\
    pb_next pb' = pb_next pb + length blocks * (256 + cp_size C) /\ pb_cs pb' = pb_cs pb /\
    frame (pb_next pb) (pb_next pb') (pb_val pb) (pb_val pb').
Proof.
  induction blocks as [|b r IH]; intros hs os pb.
  - exists pb. cbn [many_loop chain map length]. rewrite !app_nil_r. split; [reflexivity|]. split; [lia|]. split; [reflexivity|]. intros v _. reflexivity.
  - cbn [many_loop]. unfold many_step at 1. cbn [pb_alloc_n hasher_new].
    assert (E : (if length os =? 0 then Ok SHA256_default_IV else o <- idx os (length os - 1) ;; Ok (map V o)) = Ok (prev_of os)).
    { destruct os as [|o os]; [reflexivity|]. destruct (@exists_last _ (o :: os)) as (l & a & Ea); [discriminate|]. rewrite Ea.
      rewrite idx_last. cbn [obind]. rewrite app_length. cbn [length]. replace (length l + 1 =? 0) with false by (symmetry; apply Nat.eqb_neq; lia).
      f_equal. unfold prev_of. rewrite <- Ea. now rewrite Ea, last_snoc. }
    rewrite E. cbn [obind].
    match goal with |- context[many_loop C r (?h, ?o, ?p)] => destruct (IH h o p) as (pb' & E' & N & Cs & Fr) end.
    rewrite E'. cbn [pb_alloc_n snd pb_next pb_cs pb_val hs_n] in *. exists pb'. cbn [chain map hs_out length].
    assert (Ep : prev_of (os ++ [seq (pb_next pb) 256]) = map V (seq (pb_next pb) 256)).
    { unfold prev_of. destruct (os ++ [seq (pb_next pb) 256]) eqn:Eo; [now destruct os|]. rewrite <- Eo, last_snoc. reflexivity. }
    rewrite Ep, <- !app_assoc. cbn [app]. split; [reflexivity|]. split; [rewrite N; lia|]. split; [exact Cs|].
    intros v Hv. rewrite Fr by lia.
    replace ((pb_next pb + 256 <=? v) && (v <? pb_next pb + 256 + cp_size C)) with false
      by (symmetry; apply andb_false_iff; destruct Hv; [left; apply Nat.leb_gt; lia|right; apply Nat.ltb_ge; lia]).
    replace ((pb_next pb <=? v) && (v <? pb_next pb + 256)) with false
      by (symmetry; apply andb_false_iff; destruct Hv; [left; apply Nat.leb_gt; lia|right; apply Nat.ltb_ge; lia]). reflexivity.
Qed.

(** ** constraints and witness of a chain *)
Definition hcs C (h : hasher) : list constr := hasher_cs C h ++ digest_constraints (hs_out h).
Lemma place n prev block : length prev = 256 -> length block = 512 -> Forall (lc_all (fun v => v < n)) prev -> Forall (fun v => v < n) block ->
  well_placed (n + 256) prev block (seq n 256).
Proof.
  intros L1 L2 H1 H2. constructor; [exact L1|exact L2|apply seq_length|..].
  - apply seq_NoDup.
  - eapply Forall_impl; [|exact H1]. intros l. apply lc_all_impl. intros v Hv. cbn beta in *. rewrite in_seq. lia.
  - eapply Forall_impl; [|exact H2]. intros v Hv. cbn beta in *. rewrite in_seq. lia.
  - apply Forall_forall. intros v Hv. apply in_seq in Hv. lia.
Qed.
Lemma seq_V_all n : Forall (lc_all (fun v => v < n + 256)) (map V (seq n 256)).
Proof. apply Forall_forall. intros l Hl. apply in_map_iff in Hl. destruct Hl as (v & <- & Hv). apply in_seq in Hv. cbn [lc_all]. lia. Qed.
Lemma ev_map_V s vs : map (ev s) (map V vs) = map s vs. Proof. now rewrite map_map. Qed.

Lemma chain_sound C : compressor_ok C -> forall blocks ms n prev h t, length prev = 256 -> Forall (lc_all (fun v => v < n)) prev ->
  Forall (fun b => length b = 512 /\ Forall (fun v => v < n) b) blocks ->
  map (ev t) prev = map b2F h -> map (map t) blocks = map (map b2F) ms -> blocks <> [] ->
  sat t (concat (map (hcs C) (chain (cp_size C) n prev blocks))) ->
  map t (last (map hs_out (chain (cp_size C) n prev blocks)) []) = map b2F (fold_left compress_bits ms h).
Proof.
  intros HC. induction blocks as [|b r IH]; intros ms n prev h t Lp Hp Hb Eh Em Hne Hs; [congruence|].
  destruct ms as [|m ms]; [discriminate|]. cbn [map] in Em. injection Em as Em Ems.
  inversion Hb as [|? ? [Hb1 Hb2] Hb3]; subst. cbn [chain map concat hs_out] in Hs |- *. apply sat_app in Hs. destruct Hs as [Hs1 Hs2].
  unfold hcs in Hs1. apply sat_app in Hs1. destruct Hs1 as [Hs1 _]. cbn [hasher_cs hs_n hs_prev hs_block hs_out] in Hs1.
  assert (S := ck_sound C HC (n + 256) prev b (seq n 256) t h m (place _ _ _ Lp Hb1 Hp Hb2) (conj Eh Em) Hs1).
  rewrite fl_cons. destruct r as [|b' r].
  - apply (f_equal (@length _)) in Ems. rewrite !map_length in Ems. symmetry in Ems. apply length_zero_iff_nil in Ems. subst ms. exact S.
  - assert (X : map t (last (map hs_out (chain (cp_size C) (n + 256 + cp_size C) (map V (seq n 256)) (b' :: r))) []) = map b2F (fold_left compress_bits ms (compress_bits h m)));
      [|rewrite <- X; reflexivity].
    apply IH; [| | | |exact Ems| |exact Hs2].
    + now rewrite map_length, seq_length.
    + eapply Forall_impl; [|apply seq_V_all]. intros l. apply lc_all_impl. intros v Hv. cbn beta in *. lia.
    + eapply Forall_impl; [|exact Hb3]. intros x [X1 X2]. split; [exact X1|]. eapply Forall_impl; [|exact X2]. intros v Hv. cbn beta in *. lia.
    + now rewrite ev_map_V.
    + intros X. discriminate X.
Qed.
Lemma digest_sat s vs bs : map s vs = map b2F bs -> sat s (digest_constraints vs).
Proof.
  intros E. unfold digest_constraints, sat. apply Forall_forall. intros c Hc. apply in_map_iff in Hc. destruct Hc as (v & <- & Hv).
  assert (Hin : In (s v) (map b2F bs)) by (rewrite <- E; apply in_map; exact Hv).
  apply in_map_iff in Hin. destruct Hin as (b & Eb & _). apply boolean_c_spec. cbn [ev]. rewrite <- Eb. unfold isbit. destruct b; [now right|now left].
Qed.

Lemma chain_complete C : compressor_ok C -> forall blocks ms n prev h s, length prev = 256 -> Forall (lc_all (fun v => v < n)) prev ->
  Forall (fun b => length b = 512 /\ Forall (fun v => v < n) b) blocks ->
  map (ev s) prev = map b2F h -> map (map s) blocks = map (map b2F) ms ->
  exists s', oseq (map (hasher_wit C) (chain (cp_size C) n prev blocks)) s = Ok s' /\
    frame n (n + length blocks * (256 + cp_size C)) s s' /\ sat s' (concat (map (hcs C) (chain (cp_size C) n prev blocks))).
Proof.
  intros HC. induction blocks as [|b r IH]; intros ms n prev h s Lp Hp Hb Eh Em.
  - exists s. split; [reflexivity|]. split; [intros v _; reflexivity|constructor].
  - destruct ms as [|m ms]; [discriminate|]. cbn [map] in Em. injection Em as Em Ems.
    inversion Hb as [|? ? [Hb1 Hb2] Hb3]; subst. cbn [chain map concat oseq].
    pose proof (place _ _ _ Lp Hb1 Hp Hb2) as WP.
    destruct (ck_complete C HC (n + 256) prev b (seq n 256) s h m WP (conj Eh Em)) as (s1 & W1 & F1 & S1).
    assert (Fr1 : forall v, v < n \/ n + 256 + cp_size C <= v -> s1 v = s v).
    { intros v Hv. apply F1; [rewrite in_seq; lia|lia]. }
    assert (Eh1 : map (ev s1) prev = map b2F h).
    { rewrite <- Eh. apply map_ext_in. intros l Hl. apply ev_ext with (fun v => v < n); [exact (proj1 (Forall_forall _ _) Hp l Hl)|]. intros v Hv. apply Fr1. now left. }
    assert (Em1 : map s1 b = map b2F m).
    { rewrite <- Em. apply map_ext_in. intros v Hv. apply Fr1. left. exact (proj1 (Forall_forall _ _) Hb2 v Hv). }
    assert (O1 := ck_sound C HC (n + 256) prev b (seq n 256) s1 h m WP (conj Eh1 Em1) S1).
    destruct (IH ms (n + 256 + cp_size C) (map V (seq n 256)) (compress_bits h m) s1) as (s2 & W2 & F2 & S2).
    + now rewrite map_length, seq_length.
    + eapply Forall_impl; [|apply seq_V_all]. intros l. apply lc_all_impl. intros v Hv. cbn beta in *. lia.
    + eapply Forall_impl; [|exact Hb3]. intros x [X1 X2]. split; [exact X1|]. eapply Forall_impl; [|exact X2]. intros v Hv. cbn beta in *. lia.
    + now rewrite ev_map_V.
    + rewrite <- Ems. apply map_ext_in. intros x Hx. apply map_ext_in. intros v Hv. apply Fr1. left.
      destruct (proj1 (Forall_forall _ _) Hb3 x Hx) as [_ Hx2]. exact (proj1 (Forall_forall _ _) Hx2 v Hv).
    + exists s2. split; [|split].
      * unfold hasher_wit at 1. cbn [hs_n hs_prev hs_block hs_out]. rewrite W1. exact W2.
      * intros v Hv. cbn [length] in Hv. rewrite F2 by lia. apply Fr1. lia.
      * apply sat_app. split; [|exact S2].
        assert (X : sat s1 (hcs C (Hasher (n + 256) prev b (seq n 256)))).
        { unfold hcs. apply sat_app. split; [exact S1|]. eapply digest_sat. exact O1. }
        eapply sat_ext; [| |exact X].
        -- unfold hcs. apply cs_all_app. split.
           ++ unfold hasher_cs. cbn [hs_n hs_prev hs_block hs_out]. apply (ck_scope C HC _ _ _ _ (fun v => v < n + 256 + cp_size C) WP).
              ** eapply Forall_impl; [|exact Hp]. intros l. apply lc_all_impl. intros v Hv. cbn beta in *. lia.
              ** eapply Forall_impl; [|exact Hb2]. intros v Hv. cbn beta in *. lia.
              ** apply Forall_forall. intros v Hv. apply in_seq in Hv. lia.
              ** intros v. lia.
           ++ unfold digest_constraints, cs_all. apply Forall_forall. intros c Hc. apply in_map_iff in Hc. destruct Hc as (v & <- & Hv). cbn [hs_out] in Hv.
              apply in_seq in Hv. assert (Hlt : v < n + 256 + cp_size C) by lia. unfold boolean_c, c_all. cbn [cA cB cC lc_all L1 L0]. auto.
        -- intros v Hv. cbn beta in Hv. symmetry. apply F2. lia.
Qed.
