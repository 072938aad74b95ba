(** sha256_full_gadget_512: the witness overloads that are given the digest. *)
From Coq Require Import List ZArith Bool Arith Lia.
From Verif Require Import Primes Field Base R1CS R1CSFacts M_Utils M_Bits P_Bits Gadget M_Padding P_Padding M_Sha256 M_ShaGadget M_ShaGadgets
  Spec_Utils P_Utils Spec_Padding Spec_Sha256 Spec_ShaGadget P_Sha256 Q_Sha256 P_ShaGadget P_ShaGadget5 P_ShaGadgets Q_ShaGadget2 P_Lookup.
Import ListNotations.
Local Open Scope nat_scope.

(** ** every step of the compression gadget only adds constraints *)
Definition grow (g g' : gst) : Prop := incl (g_cs g) (g_cs g').
Lemma grow_refl g : grow g g. Proof. apply incl_refl. Qed.
Lemma grow_trans a b c : grow a b -> grow b c -> grow a c. Proof. apply incl_tran. Qed.
Lemma grow_gst g n l w : grow g (GSt n (g_cs g ++ l) w). Proof. intros x Hx. apply in_or_app. now left. Qed.
Lemma grow_gate gt g : grow g (alloc_gate gt g). Proof. apply grow_gst. Qed.
Lemma grow_gates gs : forall g, grow g (alloc_gates gs g).
Proof. induction gs as [|x gs IH]; intros g; cbn [alloc_gates]; [apply grow_refl|]. eapply grow_trans; [apply grow_gate|apply IH]. Qed.
Lemma grow_pack l g : grow g (snd (pack l g)). Proof. apply grow_gate. Qed.
Lemma grow_lin l g : grow g (snd (alloc_lin l g)). Proof. apply grow_gate. Qed.
Lemma grow_unpack k x g : grow g (unpack k x g). Proof. apply grow_gst. Qed.
Lemma grow_lastbits k x g : grow g (snd (lastbits k x g)).
Proof. unfold lastbits. cbn [pack snd]. eapply grow_trans; [apply grow_unpack|apply grow_gate]. Qed.
Lemma grow_small W a b c g : grow g (snd (small_sigma W a b c g)).
Proof. unfold small_sigma. eapply grow_trans; [|apply grow_pack]. eapply grow_trans; apply grow_gates. Qed.
Lemma grow_big W a b c g : grow g (snd (big_sigma W a b c g)).
Proof. unfold big_sigma. eapply grow_trans; [|apply grow_pack]. eapply grow_trans; apply grow_gates. Qed.
Lemma grow_choice X Y Z g : grow g (snd (choice X Y Z g)).
Proof. unfold choice. eapply grow_trans; [|apply grow_pack]. apply grow_gates. Qed.
Lemma grow_majority X Y Z g : grow g (snd (majority X Y Z g)).
Proof. unfold majority. eapply grow_trans; [|apply grow_pack]. apply grow_gates. Qed.
Lemma grow_sched_step st : grow (snd st) (snd (sched_step st)).
Proof.
  destruct st as [ws g]. unfold sched_step. cbn [snd].
  match goal with |- context[small_sigma ?W 7 18 3 g] => pose proof (grow_small W 7 18 3 g) as H1; destruct (small_sigma W 7 18 3 g) as [s0 g1] end.
  match goal with |- context[small_sigma ?W 17 19 10 g1] => pose proof (grow_small W 17 19 10 g1) as H2; destruct (small_sigma W 17 19 10 g1) as [s1 g2] end.
  match goal with |- context[alloc_lin ?l g2] => pose proof (grow_lin l g2) as H3; destruct (alloc_lin l g2) as [u g3] end.
  pose proof (grow_lastbits 34 u g3) as H4. destruct (lastbits 34 u g3) as [[W pw] g4]. cbn [snd] in *.
  eapply grow_trans; [exact H1|]. eapply grow_trans; [exact H2|]. eapply grow_trans; [exact H3|exact H4].
Qed.
Lemma grow_sched_in st W : grow (snd st) (snd (sched_in st W)).
Proof. destruct st as [ws g]. unfold sched_in. pose proof (grow_pack W g) as H. destruct (pack W g). exact H. Qed.
Lemma grow_iter k : forall st, grow (snd st) (snd (iter k sched_step st)).
Proof. induction k as [|k IH]; intros st; cbn [iter]; [apply grow_refl|]. eapply grow_trans; [apply grow_sched_step|apply IH]. Qed.
Lemma grow_fold_in Ws : forall st, grow (snd st) (snd (fold_left sched_in Ws st)).
Proof. induction Ws as [|W Ws IH]; intros st; cbn [fold_left]; [apply grow_refl|]. eapply grow_trans; [apply grow_sched_in|apply IH]. Qed.
Lemma grow_round K pW r g : grow g (snd (round_fn K pW r g)).
Proof.
  unfold round_fn.
  pose proof (grow_big (ra r) 2 13 22 g) as H1; destruct (big_sigma (ra r) 2 13 22 g) as [s0 g1].
  pose proof (grow_big (re r) 6 11 25 g1) as H2; destruct (big_sigma (re r) 6 11 25 g1) as [s1 g2].
  pose proof (grow_choice (re r) (rf r) (rg r) g2) as H3; destruct (choice (re r) (rf r) (rg r) g2) as [ch g3].
  pose proof (grow_majority (ra r) (rb r) (rc r) g3) as H4; destruct (majority (ra r) (rb r) (rc r) g3) as [mj g4].
  pose proof (grow_pack (rdd r) g4) as H5; destruct (pack (rdd r) g4) as [pd g5].
  pose proof (grow_pack (rh r) g5) as H6; destruct (pack (rh r) g5) as [ph g6].
  match goal with |- context[alloc_lin ?l g6] => pose proof (grow_lin l g6) as H7; destruct (alloc_lin l g6) as [ua g7] end.
  match goal with |- context[alloc_lin ?l g7] => pose proof (grow_lin l g7) as H8; destruct (alloc_lin l g7) as [ue g8] end.
  pose proof (grow_lastbits 35 ua g8) as H9. destruct (lastbits 35 ua g8) as [[na pa] g9].
  pose proof (grow_lastbits 35 ue g9) as H10. destruct (lastbits 35 ue g9) as [[ne pe] g10]. cbn [snd] in *.
  eapply grow_trans; [exact H1|]. eapply grow_trans; [exact H2|]. eapply grow_trans; [exact H3|]. eapply grow_trans; [exact H4|].
  eapply grow_trans; [exact H5|]. eapply grow_trans; [exact H6|]. eapply grow_trans; [exact H7|]. eapply grow_trans; [exact H8|].
  eapply grow_trans; [exact H9|exact H10].
Qed.
Lemma grow_round_step st kw : grow (snd st) (snd (round_step st kw)).
Proof.
  destruct st as [[os r] g]. unfold round_step. pose proof (grow_round (fst kw) (snd (snd kw)) r g) as H.
  destruct (round_fn (fst kw) (snd (snd kw)) r g) as [[o r'] g']. exact H.
Qed.
Lemma grow_rounds l : forall st, grow (snd st) (snd (fold_left round_step l st)).
Proof. induction l as [|x l IH]; intros st; cbn [fold_left]; [apply grow_refl|]. eapply grow_trans; [apply grow_round_step|apply IH]. Qed.
Lemma grow_reduce g xw : grow g (reduce_word g xw).
Proof. destruct xw as [x w]. unfold reduce_word. eapply grow_trans; [|apply grow_pack]. apply grow_gst. Qed.
Lemma grow_reduces l : forall g, grow g (fold_left reduce_word l g).
Proof. induction l as [|x l IH]; intros g; cbn [fold_left]; [apply grow_refl|]. eapply grow_trans; [apply grow_reduce|apply IH]. Qed.

Lemma grow_in g g' x : grow g g' -> In x (g_cs g) -> In x (g_cs g'). Proof. intros H. apply H. Qed.
Lemma rwords_S k l : rwords (S k) l = rev (firstn 32 l) :: rwords k (skipn 32 l). Proof. reflexivity. Qed.
Lemma sched_in_first n W : In (R1 L1 (packl W) (V n)) (g_cs (snd (sched_in ([], GSt n [] []) W))). Proof. left. reflexivity. Qed.
(** the constraint that packs the first word of the block *)
Lemma first_constraint n prev block out :
  In (R1 L1 (packl (rev (firstn 32 (map V block)))) (V n)) (compression_constraints n prev block out).
Proof.
  unfold compression_constraints, compression_gst, compression_core.
  assert (H0 : In (R1 L1 (packl (rev (firstn 32 (map V block)))) (V n)) (g_cs (snd (message_schedule block (GSt n [] []))))).
  { unfold message_schedule. eapply grow_in; [apply grow_iter|]. rewrite rwords_S, fl_cons.
    eapply grow_in; [apply grow_fold_in|]. apply sched_in_first. }
  destruct (message_schedule block (GSt n [] [])) as [ws g]. cbn [snd] in H0.
  pose proof (grow_rounds (combine K256 ws) ([], regs_of prev, g)) as H1. cbn [snd] in H1.
  destruct (fold_left round_step (combine K256 ws) ([], regs_of prev, g)) as [[os r] g1]. cbn [snd] in H1.
  eapply grow_in; [apply grow_reduces|]. eapply grow_in; [apply grow_gates|]. eapply grow_in; [exact H1|exact H0].
Qed.

(** ** the overload that is given the expected digest *)
Lemma pad_first_word : rev (firstn 32 final_padding_512) = repeat false 31 ++ [true]. Proof. reflexivity. Qed.
Lemma libsnark_size_pos : cp_size libsnark_sha256 <> 0.
Proof. unfold libsnark_sha256, cp_size, compression_size. lia. Qed.
Lemma top_bit_nonzero : (F1 * (F1 * Fof (natbits (repeat false 31 ++ [true]))))%F <> F0.
Proof. intros H. apply (f_equal fval) in H. vm_compute in H. discriminate H. Qed.
Lemma first_word_ev s pv : map s pv = map b2F final_padding_512 ->
  ev s (packl (rev (firstn 32 (map V pv)))) = (F1 * Fof (natbits (repeat false 31 ++ [true])))%F.
Proof.
  intros H. rewrite <- pad_first_word. apply packl_from_ev. rewrite !map_rev, <- !firstn_map, ev_map_V, H. exact (@eq_refl _ _).
Qed.
Lemma unsat_core cs nf s pv : In (R1 L1 (packl (rev (firstn 32 (map V pv)))) (V nf)) cs ->
  map s pv = map b2F final_padding_512 -> s nf = F0 -> ~ sat s cs.
Proof.
  intros HF P3 H0 S. apply (proj1 (Forall_forall _ _) S) in HF. unfold holds in HF. cbn [cA cB cC] in HF.
  rewrite (first_word_ev s pv P3) in HF. change (ev s L1) with F1 in HF. change (ev s (V nf)) with (s nf) in HF. rewrite H0 in HF. exact (top_bit_nonzero HF).
Qed.
Lemma full_expected_unsat_gen C input output block expected n s cs0 : compressor_ok C -> cp_size C <> 0 ->
  (forall n prev block out, In (R1 L1 (packl (rev (firstn 32 (map V block)))) (V n)) (cp_cs C n prev block out)) ->
  length input = 512 -> length output = 256 -> NoDup input -> NoDup output ->
  Forall (fun v => v < n /\ ~ In v output) input -> Forall (fun v => v < n) output -> length block = 512 -> length expected = 256 ->
  exists g pb' s', full_new C input output (PB n s cs0) = Ok (g, pb') /\
    full_witness_expected C g block expected (pb_val pb') = Ok s' /\
    map s' input = map b2F block /\ map s' output = map b2F expected /\
    forall b, ~ sat s' (full_constraints C g b).
Proof.
  intros HC Sz HF Li Lo Ni No Hi Ho Lb Le.
  destruct (full_main C input output n s cs0 HC Li Lo No Hi Ho) as (pb' & E & Cs & Nx & Fr & Pv & Z & W1 & W2).
  set (nf := n + 256 + cp_size C + 512) in *.
  destruct (fill_ok input block (pb_val pb') Ni) as (s1 & X1 & G1 & B1); [congruence|].
  destruct (ck_complete C HC _ _ _ _ s1 _ _ W1 (conj (IV_ev s1) B1)) as (s2 & X2 & F2 & _).
  destruct (fill_ok output expected s2 No) as (s3 & X3 & F3 & B3); [congruence|].
  assert (Ni' : forall v, n <= v -> ~ In v input) by (intros v Hv Hv'; apply (proj1 (Forall_forall _ _) Hi) in Hv'; lia).
  assert (No' : forall v, n <= v -> ~ In v output) by (intros v Hv Hv'; apply (proj1 (Forall_forall _ _) Ho) in Hv'; lia).
  assert (K : forall v, n + 256 + cp_size C <= v -> s3 v = pb_val pb' v).
  { intros v Hv. rewrite F3 by (apply No'; lia). rewrite F2 by (rewrite ?in_seq; lia). apply G1. apply Ni'. lia. }
  eexists _, pb', s3. split; [exact E|]. split; [|split; [|split; [exact B3|]]].
  - unfold full_witness_expected, hasher_wit. cbn [fg_input fg_in fg_output hs_n hs_prev hs_block hs_out]. rewrite Lb, Le, !Nat.eqb_refl. cbn [oassert obind].
    rewrite X1. cbn [obind]. rewrite X2. cbn [obind]. exact X3.
  - rewrite <- B1. apply map_ext_in. intros v Hv. apply (proj1 (Forall_forall _ _) Hi) in Hv. rewrite F3 by tauto. apply F2; [rewrite in_seq|]; lia.
  - intros b S. unfold full_constraints, hasher_cs in S. cbn [fg_in fg_fin hs_n hs_prev hs_block hs_out] in S. apply sat_app in S. destruct S as [_ S].
    revert S. apply (unsat_core _ nf s3 (seq (n + 256 + cp_size C) 512)).
    + apply HF.
    + rewrite <- Pv. apply map_ext_in. intros v Hv. apply in_seq in Hv. apply K. lia.
    + rewrite K by (unfold nf; lia). apply Z. lia.
Qed.
Lemma full_expected_refuted : forall input output block expected n s cs0,
  length input = 512 -> length output = 256 -> NoDup input -> NoDup output ->
  Forall (fun v => v < n /\ ~ In v output) input -> Forall (fun v => v < n) output -> length block = 512 -> length expected = 256 ->
  exists g pb' s', full_new libsnark_sha256 input output (PB n s cs0) = Ok (g, pb') /\
    full_witness_expected libsnark_sha256 g block expected (pb_val pb') = Ok s' /\
    map s' input = map b2F block /\ map s' output = map b2F expected /\
    forall b, ~ sat s' (full_constraints libsnark_sha256 g b).
Proof.
  intros input output block expected n s cs0.
  exact (full_expected_unsat_gen libsnark_sha256 input output block expected n s cs0 libsnark_sha256_ok libsnark_size_pos first_constraint).
Qed.
Lemma full_bytes_refuted : forall c input output bytes n s cs0,
  length (sc_data c) = 16 -> length input = 512 -> length output = 256 -> NoDup input -> NoDup output ->
  Forall (fun v => v < n /\ ~ In v output) input -> Forall (fun v => v < n) output -> length bytes = 64 -> Forall byte bytes ->
  exists g pb' s', full_new libsnark_sha256 input output (PB n s cs0) = Ok (g, pb') /\
    full_witness_bytes libsnark_sha256 c g bytes (pb_val pb') = Ok s' /\
    map s' input = map b2F (bits_of_bytes bytes) /\ map s' output = map b2F (sha256_bits (bits_of_bytes bytes)) /\
    forall b, ~ sat s' (full_constraints libsnark_sha256 g b).
Proof.
  intros c input output bytes n s cs0 Hc Li Lo Ni No Hi Ho Lb Hb.
  destruct (sha256_oneshot c bytes Hc Hb) as (md & E & Lm & [_ Hm]).
  destruct (full_expected_refuted input output (bits_of_bytes bytes) (bits_of_bytes md) n s cs0) as (g & pb' & s' & H1 & H2 & H3 & H4 & H5); try assumption.
  - unfold bits_of_bytes. rewrite flat_msb_length, Lb. reflexivity.
  - unfold bits_of_bytes. rewrite flat_msb_length, Lm. reflexivity.
  - exists g, pb', s'. split; [exact H1|]. split; [|rewrite <- Hm; auto].
    unfold full_witness_bytes. rewrite E. cbn [obind]. rewrite !bytes_to_bv_ok. cbn [obind]. exact H2.
Qed.
Lemma full_overloads_refuted : exists input output bytes n s g pb' s', forall c, length (sc_data c) = 16 ->
  length bytes = 64 /\ Forall byte bytes /\ full_new libsnark_sha256 input output (PB n s []) = Ok (g, pb') /\
  full_witness_bytes libsnark_sha256 c g bytes (pb_val pb') = Ok s' /\
  full_witness_expected libsnark_sha256 g (bits_of_bytes bytes) (sha256_bits (bits_of_bytes bytes)) (pb_val pb') = Ok s' /\
  ~ sat s' (full_constraints libsnark_sha256 g true).
Proof.
  destruct seq_io as [A B]. set (bytes := repeat 0%Z 64).
  assert (Hb : Forall byte bytes) by (apply Forall_forall; intros x Hx; apply repeat_spec in Hx; subst x; split; [discriminate|reflexivity]).
  assert (Ll : length bytes = 64) by reflexivity.
  destruct (full_expected_refuted (seq 0 512) (seq 512 256) (bits_of_bytes bytes) (sha256_bits (bits_of_bytes bytes)) 768 (fun _ => F0) []) as (g & pb' & s' & H1 & H2 & H3 & H4 & H5);
    [apply seq_length|apply seq_length|apply seq_NoDup|apply seq_NoDup|exact A|exact B| | |].
  - unfold bits_of_bytes. rewrite flat_msb_length, Ll. reflexivity.
  - destruct (sha256_oneshot (SCtx [] 0 0 (repeat 0%Z 16) 0 0) bytes eq_refl Hb) as (md & _ & Lm & [_ Hm]).
    rewrite <- Hm. unfold bits_of_bytes. rewrite flat_msb_length, Lm. reflexivity.
  - exists (seq 0 512), (seq 512 256), bytes, 768, (fun _ => F0), g, pb', s'. intros c Hc.
    split; [exact Ll|]. split; [exact Hb|]. split; [exact H1|]. split; [|split; [exact H2|exact (H5 true)]].
    destruct (sha256_oneshot c bytes Hc Hb) as (md & E & _ & [_ Hm]).
    unfold full_witness_bytes. rewrite E. cbn [obind]. rewrite !bytes_to_bv_ok. cbn [obind]. fold (bits_of_bytes bytes). fold (bits_of_bytes md). rewrite Hm. exact H2.
Qed.
Lemma many_length_refuted : exists xs : list nat, 0 < length xs /\ forall C pb, sha256_many_new C xs pb = Abort.
Proof. exists (seq 0 7). split; [rewrite seq_length; lia|]. intros C pb. apply many_any_length_refuted. left. discriminate. Qed.
