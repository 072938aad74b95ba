(** Composition of the gadgets of eddsa.cpp. *)
From Coq Require Import List ZArith NArith Bool Arith Lia String.
From Verif Require Import Field Base R1CS R1CSFacts Gadget Gadget2 Gadget3 M_Lookup P_Lookup M_Bits P_Bits Q_Basic M_Point M_Jubjub M_Montgomery M_Eddsa
  Spec_Curve Spec_Mont Spec_Eddsa P_Curve P_JubLeaf P_Group P_Chain P_ScalarMult P_Fbm P_Poseidon P_Zmul P_Zcash P_Zcash2 P_Float Q_Jubjub.
Import ListNotations.
Local Open Scope nat_scope.

Lemma natbits_N bs : natbits bs = Z.of_N (bits_N bs).
Proof. induction bs as [|b bs IH]; [reflexivity|]. cbn [natbits bits_N]. rewrite IH. destruct b; cbn [b2Z N.b2n]; lia. Qed.
Lemma b2F_map_inj a b : map b2F a = map b2F b -> a = b.
Proof.
  revert b. induction a as [|x a IH]; intros [|y b] H; try discriminate; [reflexivity|].
  cbn in H. injection H as Hc H. apply b2F_inj in Hc. f_equal; auto.
Qed.
Lemma canonical_bits x : canonical (bits_of_Z 254 (fval x)) x.
Proof.
  split; [apply bits_of_Z_length|]. rewrite <- natbits_N. apply natbits_bits_small.
  pose proof (fval_range x). pose proof p_lt_2_254. change (2 ^ Z.of_nat 254)%Z with (2 ^ 254)%Z. lia.
Qed.
Lemma canonical_decodes bs x : canonical bs x -> decodes bs x.
Proof. intros [H1 H2]. split; [exact H1|]. rewrite H2. apply Fof_fval. Qed.
Lemma bits_N_inj a b : List.length a = List.length b -> bits_N a = bits_N b -> a = b.
Proof.
  revert b. induction a as [|x a IH]; intros [|y b] HL H; try discriminate; [reflexivity|].
  cbn [bits_N] in H. assert (x = y /\ bits_N a = bits_N b) as [-> E] by (destruct x, y; cbn [N.b2n] in H; split; try reflexivity; lia).
  f_equal. apply IH; [now injection HL|exact E].
Qed.
Lemma canonical_unique a b x : canonical a x -> canonical b x -> a = b.
Proof. intros [H1 H2] [H3 H4]. apply bits_N_inj; [congruence|]. lia. Qed.

(** *** field2bits_strict *)
Lemma f2b_pg v n : v < n ->
  exists g n' cs, field2bits_new v n = Ok (g, n') /\ f2b_constraints g = Ok cs /\ List.length (f2b_result g) = 254 /\
    Forall (fun u => n <= u < n') (f2b_result g) /\
    pg n n' cs (f2b_witness g) (fun _ => True) (fun s bs => decodes bs (s v))
      (fun s bs => map s (f2b_result g) = map b2F bs) (fun s => bits_of_Z 254 (fval (s v))).
Proof.
  intros Hv. destruct (f2b_new_ok 254 (fval (Fof Primes.p_mod - F1)%F) v n) as (g & n' & Hg).
  assert (W : 2 <= 254) by (apply Nat.leb_le; reflexivity).
  assert (Rg : forall x : F, (fval x < 2 ^ Z.of_nat 254)%Z).
  { intros x. pose proof (fval_range x). change (2 ^ Z.of_nat 254)%Z with (2 ^ 254)%Z. pose proof p_lt_2_254. lia. }
  destruct (f2b_complete_gen 254 _ v n g n' (fun _ => F0) W Hv Hg (Rg _)) as (_ & cs & _ & Hcs & _).
  destruct (f2b_new_shape _ _ _ _ _ _ Hg) as [Eg En].
  assert (Er : f2b_result g = var_array n 254) by (rewrite Eg; reflexivity).
  assert (HL : List.length (f2b_result g) = 254) by (rewrite Er; apply seq_length).
  assert (Hn' : n + 254 <= n') by lia.
  assert (HF : Forall (fun u => n <= u < n') (f2b_result g)).
  { rewrite Er. apply Forall_forall. intros u Hu. apply var_array_In in Hu. lia. }
  exists g, n', cs. split; [exact Hg|]. split; [exact Hcs|]. split; [exact HL|]. split; [exact HF|].
  constructor.
  - lia.
  - apply (f2b_scope_gen 254 _ v n g n' cs (fun u => u < n') W Hg Hcs); intros; lia.
  - auto.
  - intros s s' bs E. unfold decodes. rewrite (E v Hv). auto.
  - intros s s' bs E H. rewrite <- H. apply map_ext_in. intros u Hu. apply E. rewrite Forall_forall in HF. apply HF in Hu. lia.
  - intros s s' E. now rewrite (E v Hv).
  - intros s _ HS. destruct (f2b_sound_gen _ _ _ _ _ _ _ _ W Hg Hcs HS) as (bs & H1 & H2 & H3).
    exists bs. split; [|exact H1]. split; [exact H2|]. now rewrite <- natbits_N.
  - intros s bs _ [H1 H2]. destruct (f2b_extend_gen 254 _ v n g n' s bs W Hv Hg H1) as (s' & cs' & E & S & Fr & M).
    { rewrite natbits_N. now symmetry. }
    rewrite Hcs in E. apply Ok_inj in E. subst cs'. exists s'. auto.
  - intros s _. destruct (f2b_complete_gen 254 _ v n g n' s W Hv Hg (Rg _)) as (s' & cs' & Hw & Hcs' & Hs & Hf & Hb).
    rewrite Hcs in Hcs'. apply Ok_inj in Hcs'. subst cs'. exists s'. auto.
Qed.

(** *** the hash *)
Definition bitpre (sc : list var) (bs : list bool) (s : assign) : Prop := map s sc = map b2F bs.
Lemma bitpre_len sc bs s : bitpre sc bs s -> List.length bs = List.length sc.
Proof. unfold bitpre. intros H. rewrite <- (map_length b2F), <- H. apply map_length. Qed.
Lemma bitpre_same n sc bs s s' : Forall (fun v => v < n) sc -> same n s s' -> bitpre sc bs s -> bitpre sc bs s'.
Proof. unfold bitpre. intros Hs E <-. apply map_ext_in. intros v Hv. apply E. rewrite Forall_forall in Hs. auto. Qed.
(** bits of boolean variables can be read back *)
Definition rdb (s : assign) (sc : list var) : list bool := map (fun v => Feqb (s v) F1) sc.
Lemma rdb_pre sc s bs : bitpre sc bs s -> rdb s sc = bs.
Proof.
  intros Hb. apply b2F_map_inj. unfold bitpre in Hb. rewrite <- Hb. unfold rdb. rewrite map_map. apply map_ext_in. intros v Hv.
  assert (Hi : In (s v) (map b2F bs)) by (rewrite <- Hb; now apply in_map). apply in_map_iff in Hi. destruct Hi as (b & E & _).
  rewrite <- E. destruct b; [rewrite Feqb_refl; reflexivity|]. destruct (Feqb_spec (b2F false) F1) as [E'|]; [exfalso; apply F1_neq_0; now symmetry|reflexivity].
Qed.
Lemma rdb_same n sc s s' : Forall (fun v => v < n) sc -> same n s s' -> rdb s' sc = rdb s sc.
Proof. intros Hs E. apply map_ext_in. intros v Hv. rewrite E; [reflexivity|]. rewrite Forall_forall in Hs. auto. Qed.
Lemma pt_same n X Y s s' : X < n -> Y < n -> same n s s' -> pt s' X Y = pt s X Y.
Proof. intros HX HY E. apply pt_ext; apply E; assumption. Qed.

Lemma pedersen_pg mkb name bases sc n :
  good_bases mkb name (List.length sc) bases -> Forall (fun v => v < n) sc ->
  exists g n' cs rx ry, pedersen_new mkb name sc n = Ok (g, n') /\ zcash_constraints g = Ok cs /\ zcash_result g = Ok (rx, ry) /\
    n <= rx < n' /\ n <= ry < n' /\
    pg n n' cs (zcash_witness g) (fun s => exists bs, bitpre sc bs s) (fun _ (_ : unit) => True)
      (fun s _ => forall bs, bitpre sc bs s -> pt s rx ry = pedersen_sum bases bs) (fun _ => tt).
Proof.
  intros (H1 & H2 & H3 & H4 & H5 & H6 & H7) Hsc.
  assert (Hreg : regular bases (List.length sc / 3)).
  { apply large_order_regular; auto. pose proof (Nat.div_mod (List.length sc) 3 ltac:(lia)). lia. }
  destruct (zcash_struct bases sc n H2 Hreg H5 H6 H7 ltac:(lia) Hsc) as (A & B & C & D & E).
  exists (zc_gadget bases sc n), (zc_end sc n), (zc_cs bases sc n), (zc_X sc n), (zc_Y sc n).
  assert (HG : forall bs, List.length bs = List.length sc -> gok (fun v => n <= v < zc_end sc n) (fun v => In v sc) (zc_cs bases sc n) (zcash_witness (zc_gadget bases sc n))
         (fun s => map s sc = map b2F bs) (fun s => pt s (zc_X sc n) (zc_Y sc n) = pedersen_sum bases bs)).
  { intros bs Hbs. apply zcash_gok; auto. apply large_order_non_exceptional; auto; rewrite Hbs; auto. }
  split; [unfold pedersen_new; rewrite H1; cbn [obind]; exact A|]. split; [exact B|]. split; [exact C|]. split; [exact D|]. split; [exact E|].
  apply (pg_of_gok ([] : list bool) n (zc_end sc n) _ _ (fun v => n <= v < zc_end sc n) (fun v => In v sc)
     (bitpre sc) (fun bs s => pt s (zc_X sc n) (zc_Y sc n) = pedersen_sum bases bs)).
  - lia.
  - auto.
  - rewrite Forall_forall in Hsc. exact Hsc.
  - exact (k_scope (HG (repeat false (List.length sc)) (repeat_length _ _))).
  - intros bs s Hb. apply HG. exact (bitpre_len _ _ _ Hb).
  - intros bs s s'. now apply bitpre_same.
  - intros bs s s' Es <-. apply (pt_same (zc_end sc n)); auto; lia.
Qed.

Lemma phb_pg mkb name bases sc n :
  good_bases mkb name (List.length sc) bases -> Forall (fun v => v < n) sc ->
  exists g n' cs, phb_new mkb name sc n = Ok (g, n') /\ phb_constraints g = Ok cs /\ List.length (phb_result g) = 254 /\
    Forall (fun u => n <= u < n') (phb_result g) /\
    pg n n' cs (phb_witness g) (fun s => exists bs, bitpre sc bs s)
      (fun s hb => forall bs, bitpre sc bs s -> decodes hb (pedersen_x bases bs))
      (fun s hb => map s (phb_result g) = map b2F hb)
      (fun s => bits_of_Z 254 (fval (pedersen_x bases (rdb s sc)))).
Proof.
  intros HB Hsc. destruct (pedersen_pg mkb name bases sc n HB Hsc) as (g1 & n1 & c1 & rx & ry & N1 & C1 & R1 & D1 & D2 & G1).
  destruct (f2b_pg rx n1 ltac:(lia)) as (g2 & n2 & c2 & N2 & C2 & L2 & F2 & G2).
  exists {| phb_hash := g1; phb_tobits := g2 |}, n2, (c1 ++ c2).
  split. { unfold phb_new. rewrite N1. cbn [obind]. rewrite R1. cbn [obind]. rewrite N2. reflexivity. }
  split. { unfold phb_constraints. cbn [phb_hash phb_tobits]. rewrite C1. cbn [obind]. rewrite C2. reflexivity. }
  split; [exact L2|]. pose proof (p_le G1) as Le1. pose proof (p_le G2) as Le2.
  split. { unfold phb_result. cbn [phb_tobits]. eapply Forall_impl; [|exact F2]. cbn. intros; lia. }
  assert (Hrd : forall s bs, bitpre sc bs s -> rdb s sc = bs) by (intros; now apply rdb_pre).
  pose proof (pg_seq n n1 n2 c1 c2 (zcash_witness g1) (f2b_witness g2) _ _ _ _ _ _ _ _
    (fun s (c : unit * list bool) => forall bs, bitpre sc bs s -> decodes (snd c) (pedersen_x bases bs))
    (fun s => bits_of_Z 254 (fval (pedersen_x bases (rdb s sc)))) G1 G2) as G.
  assert (G' : pg n n2 (c1 ++ c2) (fun s => obind (zcash_witness g1 s) (f2b_witness g2)) (fun s => exists bs, bitpre sc bs s)
     (fun s (c : unit * list bool) => True /\ forall bs, bitpre sc bs s -> decodes (snd c) (pedersen_x bases bs))
     (fun s (c : unit * list bool) => (forall bs, bitpre sc bs s -> pt s rx ry = pedersen_sum bases bs) /\ map s (f2b_result g2) = map b2F (snd c))
     (fun s => (tt, bits_of_Z 254 (fval (pedersen_x bases (rdb s sc)))))).
  { apply G; clear G.
    - intros s [] [bs Hb] _ Hr. split; [exact I|]. cbn [snd]. intros c2'.
      assert (E : s rx = pedersen_x bases bs) by (unfold pedersen_x; rewrite <- (Hr bs Hb); reflexivity).
      rewrite E. split; [auto|]. intros H bs' Hb'. rewrite <- (Hrd s bs' Hb'), (Hrd s bs Hb). exact H.
    - auto.
    - intros s [bs Hb] Hr. do 2 f_equal. rewrite (Hrd s bs Hb). unfold pedersen_x. rewrite <- (Hr bs Hb). reflexivity.
    - intros s s' c Es H _ bs Hb. apply H. apply (bitpre_same n sc bs s' s Hsc); [now apply same_sym|exact Hb].
    - intros s s' Es. now rewrite (rdb_same n sc s s' Hsc Es). }
  clear G. unfold phb_witness, phb_result. cbn [phb_hash phb_tobits]. constructor.
  - exact (p_le G').
  - exact (p_scope G').
  - exact (p_pre G').
  - intros s s' hb Es H. exact (proj2 (p_adm G' s s' (tt, hb) Es (conj I H))).
  - intros s s' hb Es H. exact (p_R G2 s s' hb Es H).
  - intros s s' Es. now rewrite (rdb_same n sc s s' Hsc Es).
  - intros s Hs HS. destruct (p_sound G' s Hs HS) as ([[] hb] & (_ & H1) & (_ & H2)). exists hb. auto.
  - intros s hb Hs Ha. destruct (p_ext G' s (tt, hb) Hs (conj I Ha)) as (s' & H1 & H2 & (_ & H3)). exists s'. auto.
  - intros s Hs. destruct (p_wit G' s Hs) as (s' & H1 & H2 & H3 & (_ & H4)). exists s'. auto.
Qed.

(** *** EdDSA_HashRAM_gadget *)
Lemma bitpre_app a b ba bb s : bitpre a ba s -> bitpre b bb s -> bitpre (a ++ b) (ba ++ bb) s.
Proof. unfold bitpre. intros H1 H2. now rewrite !map_app, H1, H2. Qed.
Lemma bitpre_split a b bs s : bitpre (a ++ b) bs s -> exists ba bb, bs = ba ++ bb /\ bitpre a ba s /\ bitpre b bb s.
Proof.
  unfold bitpre. intros H. exists (firstn (List.length a) bs), (skipn (List.length a) bs).
  split; [symmetry; apply firstn_skipn|]. rewrite map_app in H.
  pose proof (f_equal (firstn (List.length a)) H) as H1. pose proof (f_equal (skipn (List.length a)) H) as H2.
  rewrite firstn_map in H1. rewrite skipn_map in H2.
  rewrite firstn_app, map_length, Nat.sub_diag, firstn_O, app_nil_r, firstn_all2 in H1 by (rewrite map_length; lia).
  rewrite skipn_app, map_length, Nat.sub_diag, skipn_all2 in H2 by (rewrite map_length; lia). auto.
Qed.
Lemma bitpre_fun sc a b s : bitpre sc a s -> bitpre sc b s -> a = b.
Proof. unfold bitpre. intros H1 H2. apply b2F_map_inj. congruence. Qed.

Lemma hram_pg mkb bases R A msg n :
  good_bases mkb "EdDSA_Verify.RAM" (508 + List.length msg) bases -> vp_x R < n -> vp_x A < n -> Forall (fun v => v < n) msg ->
  exists g n' cs, hram_new mkb R A msg n = Ok (g, n') /\ hram_constraints g = Ok cs /\ List.length (hram_result g) = 254 /\
    Forall (fun u => n <= u < n') (hram_result g) /\
    pg n n' cs (hram_witness g) (fun s => exists M, bitpre msg M s)
      (fun s c => let '(rb, ab, hb) := c in decodes rb (s (vp_x R)) /\ decodes ab (s (vp_x A)) /\
                  forall M, bitpre msg M s -> decodes hb (pedersen_x bases (rb ++ ab ++ M)))
      (fun s c => map s (hram_result g) = map b2F (snd c))
      (fun s => let rb := bits_of_Z 254 (fval (s (vp_x R))) in let ab := bits_of_Z 254 (fval (s (vp_x A))) in
                (rb, ab, bits_of_Z 254 (fval (pedersen_x bases (rb ++ ab ++ rdb s msg))))).
Proof.
  intros HB HR HA Hm.
  destruct (f2b_pg (vp_x R) n HR) as (g1 & n1 & c1 & N1 & C1 & L1 & F1 & G1). pose proof (p_le G1) as Le1.
  destruct (f2b_pg (vp_x A) n1 ltac:(lia)) as (g2 & n2 & c2 & N2 & C2 & L2 & F2 & G2). pose proof (p_le G2) as Le2.
  set (sc := f2b_result g1 ++ f2b_result g2 ++ msg).
  assert (Hlen : List.length sc = 508 + List.length msg) by (unfold sc; rewrite !app_length, L1, L2; lia).
  assert (HF1 : Forall (fun v => v < n1) (f2b_result g1)) by (eapply Forall_impl; [|exact F1]; cbn; intros; lia).
  assert (HF2 : Forall (fun v => v < n2) (f2b_result g2)) by (eapply Forall_impl; [|exact F2]; cbn; intros; lia).
  assert (Hm1 : Forall (fun v => v < n1) msg) by (eapply Forall_impl; [|exact Hm]; cbn; intros; lia).
  assert (Hm2 : Forall (fun v => v < n2) msg) by (eapply Forall_impl; [|exact Hm]; cbn; intros; lia).
  assert (HF12 : Forall (fun v => v < n2) (f2b_result g1)) by (eapply Forall_impl; [|exact F1]; cbn; intros; lia).
  destruct (phb_pg mkb "EdDSA_Verify.RAM" bases sc n2) as (g3 & n3 & c3 & N3 & C3 & L3 & F3 & G3).
  { rewrite Hlen. exact HB. }
  { unfold sc. apply Forall_app. split; [exact HF12|]. apply Forall_app. split; [exact HF2|exact Hm2]. }
  pose proof (p_le G3) as Le3.
  exists {| hr_R := g1; hr_A := g2; hr_hash := g3 |}, n3, (c1 ++ c2 ++ c3).
  split. { unfold hram_new. rewrite N1. cbn [obind]. rewrite N2. cbn [obind]. fold sc. rewrite N3. reflexivity. }
  split. { unfold hram_constraints. cbn [hr_R hr_A hr_hash]. rewrite C1. cbn [obind]. rewrite C2. cbn [obind]. rewrite C3. reflexivity. }
  split; [exact L3|]. split. { unfold hram_result. cbn [hr_hash]. eapply Forall_impl; [|exact F3]. cbn. intros; lia. }
  (* inner: A bits, then hash *)
  set (preI := fun s : assign => (exists rb, bitpre (f2b_result g1) rb s) /\ exists M, bitpre msg M s).
  assert (G2' : pg n1 n2 c2 (f2b_witness g2) preI (fun s bs => decodes bs (s (vp_x A)))
      (fun s bs => map s (f2b_result g2) = map b2F bs) (fun s => bits_of_Z 254 (fval (s (vp_x A))))).
  { apply (pg_pre _ _ _ _ (fun _ => True)); auto. intros s s' E [[rb H1] [M H2]]. split; [exists rb|exists M]; apply (bitpre_same n1 _ _ s); auto. }
  assert (GI : pg n1 n3 (c2 ++ c3) (fun s => obind (f2b_witness g2 s) (phb_witness g3)) preI
      (fun s (c : list bool * list bool) => decodes (fst c) (s (vp_x A)) /\
         forall rb M, bitpre (f2b_result g1) rb s -> bitpre msg M s -> decodes (snd c) (pedersen_x bases (rb ++ fst c ++ M)))
      (fun s (c : list bool * list bool) => map s (f2b_result g2) = map b2F (fst c) /\ map s (phb_result g3) = map b2F (snd c))
      (fun s => (bits_of_Z 254 (fval (s (vp_x A))),
         bits_of_Z 254 (fval (pedersen_x bases (rdb s (f2b_result g1) ++ bits_of_Z 254 (fval (s (vp_x A))) ++ rdb s msg)))))).
  { apply (pg_seq n1 n2 n3 c2 c3 (f2b_witness g2) (phb_witness g3) preI _ _ _ _ _ _ _
       (fun s (c : list bool * list bool) => forall rb M, bitpre (f2b_result g1) rb s -> bitpre msg M s -> decodes (snd c) (pedersen_x bases (rb ++ fst c ++ M)))
       (fun s => bits_of_Z 254 (fval (pedersen_x bases (rdb s (f2b_result g1) ++ bits_of_Z 254 (fval (s (vp_x A))) ++ rdb s msg)))) G2' G3).
    - intros s ab [[rb Hr] [M HM]] Ha Hab. split.
      + exists (rb ++ ab ++ M). unfold sc. apply bitpre_app; [exact Hr|]. apply bitpre_app; [exact Hab|exact HM].
      + intros hb. cbn [fst snd]. split.
        * intros H bs Hbs. unfold sc in Hbs. apply bitpre_split in Hbs. destruct Hbs as (x & y & -> & Hx & Hy).
          apply bitpre_split in Hy. destruct Hy as (y1 & y2 & -> & Hy1 & Hy2).
          rewrite (bitpre_fun _ y1 ab s Hy1 Hab). now apply H.
        * intros H rb' M' Hr' HM'. apply H. unfold sc. apply bitpre_app; [exact Hr'|]. apply bitpre_app; [exact Hab|exact HM'].
    - intros s _. apply canonical_decodes, canonical_bits.
    - intros s [[rb Hr] [M HM]] Hab. do 3 f_equal. unfold sc, rdb. rewrite !map_app. fold (rdb s (f2b_result g1)) (rdb s (f2b_result g2)) (rdb s msg).
      now rewrite (rdb_pre _ s _ Hab).
    - intros s s' c E H _ rb M Hr HM. apply H; apply (bitpre_same n1 _ _ s'); auto using same_sym.
    - intros s s' E. rewrite (E (vp_x A)) by lia. rewrite (rdb_same n1 _ s s' HF1 E), (rdb_same n1 _ s s' Hm1 E). reflexivity. }
  set (preM := fun s : assign => exists M, bitpre msg M s).
  assert (G1' : pg n n1 c1 (f2b_witness g1) preM (fun s bs => decodes bs (s (vp_x R)))
      (fun s bs => map s (f2b_result g1) = map b2F bs) (fun s => bits_of_Z 254 (fval (s (vp_x R))))).
  { apply (pg_pre _ _ _ _ (fun _ => True)); auto. intros s s' E [M H2]. exists M; apply (bitpre_same n _ _ s); auto. }
  assert (GO : pg n n3 (c1 ++ c2 ++ c3) (fun s => obind (f2b_witness g1 s) (fun s => obind (f2b_witness g2 s) (phb_witness g3))) preM
      (fun s (c : list bool * (list bool * list bool)) => decodes (fst c) (s (vp_x R)) /\
         (decodes (fst (snd c)) (s (vp_x A)) /\ forall M, bitpre msg M s -> decodes (snd (snd c)) (pedersen_x bases (fst c ++ fst (snd c) ++ M))))
      (fun s (c : list bool * (list bool * list bool)) => map s (f2b_result g1) = map b2F (fst c) /\
          (map s (f2b_result g2) = map b2F (fst (snd c)) /\ map s (phb_result g3) = map b2F (snd (snd c))))
      (fun s => (bits_of_Z 254 (fval (s (vp_x R))), (bits_of_Z 254 (fval (s (vp_x A))),
         bits_of_Z 254 (fval (pedersen_x bases (bits_of_Z 254 (fval (s (vp_x R))) ++ bits_of_Z 254 (fval (s (vp_x A))) ++ rdb s msg))))))).
  { apply (pg_seq n n1 n3 c1 (c2 ++ c3) (f2b_witness g1) (fun s => obind (f2b_witness g2 s) (phb_witness g3)) preM preI _ _ _ _ _ _
       (fun s (c : list bool * (list bool * list bool)) =>
         (decodes (fst (snd c)) (s (vp_x A)) /\ forall M, bitpre msg M s -> decodes (snd (snd c)) (pedersen_x bases (fst c ++ fst (snd c) ++ M))))
       (fun s => (bits_of_Z 254 (fval (s (vp_x A))),
         bits_of_Z 254 (fval (pedersen_x bases (bits_of_Z 254 (fval (s (vp_x R))) ++ bits_of_Z 254 (fval (s (vp_x A))) ++ rdb s msg))))) G1' GI).
    - intros s rb HM Hd Hrb. split; [split; [exists rb; exact Hrb|exact HM]|]. intros [ab hb]. cbn [fst snd]. split.
      + intros [H1 H2]. split; [exact H1|]. intros rb' M Hr' HM'. rewrite (bitpre_fun _ rb' rb s Hr' Hrb). now apply H2.
      + intros [H1 H2]. split; [exact H1|]. intros M HM'. now apply H2.
    - intros s _. apply canonical_decodes, canonical_bits.
    - intros s _ Hrb. now rewrite (rdb_pre _ s _ Hrb).
    - intros s s' c E [H1 H2] _. split; [rewrite (E (vp_x A)) by lia; exact H1|]. intros M HM. apply H2; apply (bitpre_same n _ _ s'); auto using same_sym.
    - intros s s' E. rewrite (E (vp_x A)), (E (vp_x R)) by lia. rewrite (rdb_same n _ s s' Hm E). reflexivity. }
  unfold hram_witness, hram_result. cbn [hr_R hr_A hr_hash].
  eapply pg_map; [exact GO|..]; cbn beta.
  - intros s (rb & ab & hb) _ (H1 & H2 & H3) (_ & _ & H4). cbn [fst snd] in *. exists (rb, ab, hb). cbn [snd]. auto.
  - intros s [[rb ab] hb] _ (H1 & H2 & H3). exists (rb, (ab, hb)). cbn [fst snd]. split; [auto|]. intros s' _ (_ & _ & H4). exact H4.
  - intros s s' _ _ (_ & _ & H4). exact H4.
  - intros s s' [[rb ab] hb] E (H1 & H2 & H3). rewrite (E (vp_x A)), (E (vp_x R)) by lia. split; [exact H1|]. split; [exact H2|].
    intros M HM. apply H3; apply (bitpre_same n _ _ s'); auto using same_sym.
  - intros s s' c E <-. apply map_ext_in. intros u Hu. apply E. rewrite Forall_forall in F3. apply F3 in Hu. lia.
  - intros s s' E. cbn zeta. rewrite (E (vp_x A)), (E (vp_x R)) by lia. rewrite (rdb_same n _ s s' Hm E). reflexivity.
Qed.

(** *** the two multiplications and the final addition *)
Lemma fbm_pg base sc n : on_curve base -> List.length sc mod 2 = 0 -> 4 <= List.length sc -> Forall (fun v => v < n) sc ->
  exists g n' cs lx ly, fbm_new base sc n = Ok (g, n') /\ fbm_constraints g = Ok cs /\ fbm_result g = Ok (lx, ly) /\
    n <= lx < n' /\ n <= ly < n' /\
    pg n n' cs (fbm_witness g) (fun s => exists bs, bitpre sc bs s) (fun _ (_ : unit) => True)
      (fun s _ => forall bs, bitpre sc bs s -> pt s lx ly = smul (bits_N bs) base) (fun _ => tt).
Proof.
  intros Hb He HL Hsc. set (W := (List.length sc / 2)%nat).
  assert (HW : (2 <= W)%nat) by (pose proof (even_half _ He); unfold W; lia).
  assert (HG : forall bits, List.length bits = List.length sc -> _) by (intros bits Hbs; exact (fbm_gok base sc n bits Hb He HL Hbs Hsc)).
  destruct (HG (repeat false (List.length sc)) (repeat_length _ _)) as [Ec [_ _ Hscope _ _]].
  exists (fb_gadget base sc n), (fb_end n W), (fb_cs (fb_gadget base sc n)), (fb_A n W (W - 1) + 5)%nat, (fb_A n W (W - 1) + 6)%nat.
  split; [now apply fbm_new_closed|]. split; [exact Ec|]. split.
  { unfold fbm_result, fb_gadget. cbn [fb_adds]. fold W. replace (W - 1)%nat with (S (W - 2)) by lia. rewrite back_map_seq. cbn [obind].
    unfold chain_add. cbn [adder_new fst ad_X3 ad_Y3]. replace (1 + (W - 2))%nat with (S (W - 2)) by lia. reflexivity. }
  split; [unfold fb_A, fb_end; lia|]. split; [unfold fb_A, fb_end; lia|].
  apply (pg_of_gok ([] : list bool) n (fb_end n W) _ _ (fun v => n <= v < fb_end n W) (fun v => In v sc)
     (bitpre sc) (fun bs s => pt s (fb_A n W (W - 1) + 5) (fb_A n W (W - 1) + 6) = smul (bits_N bs) base)).
  - unfold fb_end. lia.
  - auto.
  - rewrite Forall_forall in Hsc. exact Hsc.
  - exact Hscope.
  - intros bs s H. exact (proj2 (HG bs (bitpre_len _ _ _ H))).
  - intros bs s s'. now apply bitpre_same.
  - intros bs s s' Es <-. apply (pt_same (fb_end n W)); auto; unfold fb_A, fb_end; lia.
Qed.

Lemma tail_pg Rx Ry Ax Ay sc n : 1 < List.length sc -> Rx < n -> Ry < n -> Ax < n -> Ay < n -> Forall (fun v => v < n) sc ->
  exists gm n1 ax ay ga n2, scalarmult_new Ax Ay sc n = Ok (gm, n1) /\ scalarmult_result gm = Ok (ax, ay) /\ adder_new Rx Ry ax ay n1 = (ga, n2) /\
    n <= ad_X3 ga < n2 /\ n <= ad_Y3 ga < n2 /\
    pg n n2 (scalarmult_constraints gm ++ adder_constraints ga) (fun s => obind (scalarmult_witness gm s) (adder_witness ga))
      (fun s => on_curve (pt s Rx Ry) /\ on_curve (pt s Ax Ay) /\ exists bs, bitpre sc bs s) (fun _ (_ : unit) => True)
      (fun s _ => on_curve (pt s Rx Ry) -> on_curve (pt s Ax Ay) -> forall bs, bitpre sc bs s -> pt s (ad_X3 ga) (ad_Y3 ga) = padd (pt s Rx Ry) (smul (bits_N bs) (pt s Ax Ay)))
      (fun _ => tt).
Proof.
  intros HL HRx HRy HAx HAy Hsc. set (L := List.length sc). assert (HL1 : 1 < L) by exact HL.
  set (gm := fst (sm_state Ax Ay n sc (L - 1))). set (n1 := n + 2 + 15 * (L - 1)).
  set (ax := sm_B n (L - 1) + 13). set (ay := sm_B n (L - 1) + 14). set (ga := fst (adder_new Rx Ry ax ay n1)).
  exists gm, n1, ax, ay, ga, (n1 + 7).
  assert (Hax : n <= ax < n1) by (unfold ax, n1, sm_B; lia). assert (Hay : n <= ay < n1) by (unfold ay, n1, sm_B; lia).
  split; [rewrite scalarmult_new_closed by assumption; reflexivity|]. split.
  { unfold gm, scalarmult_result, sm_state. cbn [fst sm_adds]. replace (L - 1)%nat with (S (L - 2)) by lia. rewrite back_map_seq. cbn [obind].
    unfold sm_add, chain_add. cbn [adder_new fst ad_X3 ad_Y3]. unfold ax, ay. replace (1 + (L - 2))%nat with (L - 1) by lia. do 2 f_equal; lia. }
  split; [reflexivity|]. split; [unfold ga; cbn [adder_new fst ad_X3]; lia|]. split; [unfold ga; cbn [adder_new fst ad_Y3]; lia|].
  set (pre := fun (bs : list bool) (s : assign) => on_curve (pt s Rx Ry) /\ on_curve (pt s Ax Ay) /\ bitpre sc bs s).
  set (RR := fun (bs : list bool) (s : assign) => pt s (ad_X3 ga) (ad_Y3 ga) = padd (pt s Rx Ry) (smul (bits_N bs) (pt s Ax Ay))).
  assert (Hpre : forall bs s s', same n s s' -> pre bs s -> pre bs s').
  { intros bs s s' E (H1 & H2 & H3). unfold pre. rewrite (pt_same n Rx Ry s s'), (pt_same n Ax Ay s s') by assumption. split; [exact H1|]. split; [exact H2|]. apply (bitpre_same n _ _ s); auto. }
  assert (HG : forall bs, List.length bs = List.length sc ->
     gok (fun v => n <= v < n1 + 7) (fun v => v < n) (scalarmult_constraints gm ++ adder_constraints ga)
       (fun s => obind (scalarmult_witness gm s) (adder_witness ga)) (pre bs) (RR bs)).
  { intros bs Hbs. pose proof (scalarmult_gok Ax Ay sc n bs HL Hbs HAx HAy Hsc) as G. cbn zeta in G. fold L gm n1 in G. fold ax ay in G.
    assert (Hva : forall v, In v [Rx; Ry; ax; ay] -> ~ n1 <= v < n1 + 7).
    { intros v Hv. cbn in Hv. unfold n1 in *. destruct Hv as [<-|[<-|[<-|[<-|[]]]]]; lia. }
    pose proof (adder_gok Rx Ry ax ay n1 Hva) as GA. fold ga in GA.
    assert (G' : gok (fun v => n <= v < n1) (fun v => v < n) (scalarmult_constraints gm) (scalarmult_witness gm) (pre bs)
       (fun s => pt s ax ay = smul (bits_N bs) (pt s Ax Ay))).
    { eapply gok_weaken; [exact G|..]; cbn beta; auto; try tauto; try (intros; lia).
      - intros s s' E. apply Hpre. exact E.
      - intros s (H1 & H2 & H3). auto. }
    eapply gok_seq; [exact G'|exact GA|..]; cbn beta.
    - intros s (H1 & H2 & H3) H4. split; [exact H1|]. rewrite H4. now apply smul_on.
    - intros s (H1 & H2 & H3) H4 H5. unfold RR. rewrite <- H4, <- H5. reflexivity.
    - intros v. lia.
    - auto.
    - intros v Hv. cbn in Hv. destruct Hv as [<-|[<-|[<-|[<-|[]]]]]; lia.
    - intros; lia.
    - intros; lia.
    - intros; lia. }
  pose proof (pg_of_gok ([] : list bool) n (n1 + 7) _ _ (fun v => n <= v < n1 + 7) (fun v => v < n) pre RR
    ltac:(unfold n1; lia) ltac:(auto) ltac:(auto) (k_scope (HG (repeat false (List.length sc)) (repeat_length _ _)))
    ltac:(intros bs s (_ & _ & H); apply HG; exact (bitpre_len _ _ _ H)) Hpre) as P.
  eapply pg_pre with (pre := fun s => exists bs, pre bs s).
  - eapply pg_map; [apply P|..]; cbn beta; auto.
    + intros bs s s' E H. unfold RR.
      assert (EP : forall X Y, X < n1 + 7 -> Y < n1 + 7 -> pt s' X Y = pt s X Y) by (intros; now apply (pt_same (n1 + 7))).
      assert (n < n1) by (unfold n1; lia).
      rewrite (EP Rx Ry), (EP Ax Ay), (EP (ad_X3 ga) (ad_Y3 ga)) by (cbn [ga adder_new fst ad_X3 ad_Y3]; lia). exact H.
    + intros s [] _ _ H. exists tt. split; [exact I|]. intros H1 H2 bs H3. apply H. repeat split; auto.
    + intros s [] _ _. exists tt. split; [exact I|]. intros s' _ H H1 H2 bs H3. apply H. repeat split; auto.
    + intros s s' _ _ H H1 H2 bs H3. apply H. repeat split; auto.
    + intros s s' [] E H H1 H2 bs H3.
      assert (EP : forall X Y, X < n1 + 7 -> Y < n1 + 7 -> pt s' X Y = pt s X Y) by (intros; now apply (pt_same (n1 + 7))).
      assert (n < n1) by (unfold n1; lia).
      rewrite (EP Rx Ry) in * by lia. rewrite (EP Ax Ay) in * by lia. rewrite (EP (ad_X3 ga) (ad_Y3 ga)) by (cbn [ga adder_new fst ad_X3 ad_Y3]; lia).
      apply H; auto. apply (bitpre_same n _ _ s'); auto. apply same_sym. apply (same_le n (n1 + 7)); [lia|exact E].
  - intros s s' E (H1 & H2 & bs & H3). rewrite (pt_same n Rx Ry s s'), (pt_same n Ax Ay s s') by assumption. split; [exact H1|]. split; [exact H2|]. exists bs. apply (bitpre_same n _ _ s); auto.
  - intros s (H1 & H2 & bs & H3). exists bs. repeat split; auto.
Qed.
