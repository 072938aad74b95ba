(** Final lemmas for C35, C36. *)
From Coq Require Import List ZArith NArith Znumtheory Bool Arith Lia String ConstructiveEpsilon.
From Verif Require Import Primes Field Base M_Point M_Utils M_Bits M_Sha256 M_Eddsa M_Basepoint Spec_Curve Spec_Mont Spec_CurveOrder
  Spec_Basepoint Spec_Utils Spec_Sha256 P_Curve P_Group P_Zmul Q_Jubjub P_Order P_CurveOrder P_Basepoint P_Utils Q_Sha256 Q_PoseidonParams Q_CurveOrder.
Import ListNotations.
Local Open Scope Z_scope.

Lemma from_y_always_lemma sqrt y : sqrt_ok sqrt ->
  (exists i P, 0 <= i < 100 /\ from_y_always sqrt y = Ok P /\ found_at y i P) \/
  (from_y_always sqrt y = Abort /\ forall j, 0 <= j < 100 -> ~ has_point (y + Fof j)%F).
Proof.
  intros HS. unfold from_y_always. destruct (from_y_loop_ok sqrt HS 100 0 y) as [(k & P & Hk & E & H)|[E H]].
  - left. exists k, P. split; [lia|]. split; [exact E|exact H].
  - right. split; [exact E|]. intros j Hj. apply H. lia.
Qed.
Lemma from_y_always_deterministic sqrt sqrt' y : sqrt_ok sqrt -> sqrt_ok sqrt' -> from_y_always sqrt y = from_y_always sqrt' y.
Proof.
  intros H H'. destruct (from_y_always_lemma sqrt y H) as [(i & P & Hi & E & F)|[E F]];
    destruct (from_y_always_lemma sqrt' y H') as [(i' & P' & Hi' & E' & F')|[E' F']]; rewrite E, E'.
  - destruct (found_unique y i i' P P') as [_ ->]; [lia|lia|exact F|exact F'|reflexivity].
  - exfalso. apply (F' i Hi). destruct F as (F1 & F2 & _). exists (px P). rewrite <- F2. now destruct P.
  - exfalso. apply (F i' Hi'). destruct F' as (F1 & F2 & _). exists (px P'). rewrite <- F2. now destruct P'.
  - reflexivity.
Qed.
Lemma dbl3 P : on_curve P -> (r2 <- ed_dbl P ;; r4 <- ed_dbl r2 ;; ed_dbl r4) = Ok (pzmul 8 P).
Proof.
  intros H. unfold ed_dbl. rewrite ed_add_ok by assumption. cbn [obind].
  assert (H2 : on_curve (padd P P)) by now apply padd_closed.
  rewrite ed_add_ok by assumption. cbn [obind]. assert (H4 : on_curve (padd (padd P P) (padd P P))) by now apply padd_closed.
  rewrite ed_add_ok by assumption. f_equal. symmetry. exact (smul_8 P H).
Qed.
Lemma import_be_val bs : import_be bs = be_val bs.
Proof. unfold import_be. rewrite import_be_spec. lia. Qed.

Lemma from_hash_lemma sqrt ctx bytes : sqrt_ok sqrt -> List.length (sc_data ctx) = 16%nat -> Forall byte bytes ->
  exists md, is_sha256 bytes md /\ List.length md = 32%nat /\
   ((exists i P, 0 <= i < 100 /\ found_at (Fof (be_val md)) i P /\ from_hash sqrt ctx bytes = Ok (pzmul 8 P) /\
       on_curve (pzmul 8 P) /\ in_subgroup exG (pzmul 8 P) /\ (pzmul 8 P = pzero \/ exact_order ord_L (pzmul 8 P))) \/
    (from_hash sqrt ctx bytes = Abort /\ forall j, 0 <= j < 100 -> ~ has_point (Fof (be_val md) + Fof j)%F)).
Proof.
  intros HS HC HB. destruct (sha256_oneshot ctx bytes HC HB) as (md & E & L & D).
  exists md. split; [exact D|]. split; [exact L|]. unfold from_hash. rewrite E. cbn [obind]. rewrite import_be_val.
  destruct (from_y_always_lemma sqrt (Fof (be_val md)) HS) as [(i & P & Hi & EP & F)|[EP F]]; rewrite EP; cbn [obind].
  - left. exists i, P. assert (HP : on_curve P) by apply F. split; [exact Hi|]. split; [exact F|]. split; [now apply dbl3|].
    split; [now apply pzmul_on|]. now apply cofactor_lemma.
  - right. split; [reflexivity|exact F].
Qed.

(** ** make_basepoint *)
Lemma basepoint_data_bytes name seqn d : 0 <= seqn -> basepoint_data name seqn = Ok d -> Forall byte d /\ List.length d = 32%nat.
Proof.
  intros H0. rewrite basepoint_data_ok by exact H0. destruct (Nat.leb_spec (List.length (c_chars name)) 28) as [H|H]; [|discriminate].
  destruct (Z.leb_spec seqn 65535) as [H1|H1]; [|discriminate]. cbn [andb]. intros E. injection E as <-. split.
  - apply Forall_app. split.
    + unfold fmt_left. apply Forall_app. split; [apply c_chars_byte|]. apply Forall_forall. intros c Hc. apply repeat_spec in Hc. subst c. unfold byte. lia.
    + unfold four_hex. apply Forall_forall. intros c Hc. apply in_map_iff in Hc. destruct Hc as (k & <- & _).
      pose proof (Z.mod_pos_bound (seqn / 16 ^ k) 16 eq_refl). unfold hex_digit, byte. destruct (_ <? _); lia.
  - rewrite app_length. unfold fmt_left. rewrite app_length, repeat_length. cbn [four_hex map List.length]. lia.
Qed.
Lemma chars_length name : List.length (chars name) = String.length name.
Proof. unfold chars. rewrite map_length. induction name; cbn; [reflexivity|now f_equal]. Qed.
Lemma hex_alphabet_ok d : 0 <= d < 16 -> hex_digit d = nth (Z.to_nat d) hex_alphabet 0.
Proof.
  intros H. rewrite <- (Z2Nat.id d) at 1 by lia. assert (L : (Z.to_nat d < 16)%nat) by lia. clear H.
  generalize dependent (Z.to_nat d). intros k L. do 16 (destruct k as [|k]; [reflexivity|]). lia.
Qed.
Lemma basepoint_data_text name seqn : no_nul name -> (String.length name <= 28)%nat -> 0 <= seqn <= 65535 ->
  basepoint_data name seqn = Ok (basepoint_text name seqn).
Proof.
  intros HN HL Hs. pose proof (chars_length name) as L.
  rewrite basepoint_data_ok, c_chars_no_nul, L, (proj2 (Nat.leb_le _ _) HL), (proj2 (Z.leb_le _ _)) by (assumption || lia).
  cbn [andb]. f_equal. unfold basepoint_text. f_equal.
  - unfold fmt_left. rewrite firstn_app, firstn_all2, L by lia. f_equal.
    assert (F : forall n m, (n <= m)%nat -> repeat 32 n = firstn n (repeat 32 m)).
    { induction n as [|n IH]; intros [|m] H; try reflexivity; [lia|]. cbn [repeat firstn]. f_equal. apply IH. lia. }
    apply F. lia.
  - unfold four_hex. cbn [map]. change (16 ^ 3) with 4096. change (16 ^ 2) with 256. change (16 ^ 1) with 16. change (16 ^ 0) with 1.
    rewrite Z.div_1_r, !hex_alphabet_ok by (apply Z.mod_pos_bound; lia).
    rewrite (Z.mod_small (seqn / 4096)); [reflexivity|]. split; [apply Z.div_pos; lia|apply Z.div_lt_upper_bound; lia].
Qed.
Lemma make_basepoint_lemma sqrt ctx name seqn : sqrt_ok sqrt -> List.length (sc_data ctx) = 16%nat ->
  no_nul name -> (String.length name <= 28)%nat -> 0 <= seqn <= 65535 ->
  exists md, is_sha256 (basepoint_text name seqn) md /\ List.length md = 32%nat /\
   ((exists i P, 0 <= i < 100 /\ found_at (Fof (be_val md)) i P /\ make_basepoint sqrt ctx name seqn = Ok (pzmul 8 P) /\
       on_curve (pzmul 8 P) /\ in_subgroup exG (pzmul 8 P) /\ (pzmul 8 P = pzero \/ exact_order ord_L (pzmul 8 P))) \/
    (make_basepoint sqrt ctx name seqn = Abort /\ forall j, 0 <= j < 100 -> ~ has_point (Fof (be_val md) + Fof j)%F)).
Proof.
  intros HS HC HN HL Hs. pose proof (basepoint_data_text name seqn HN HL Hs) as E.
  destruct (basepoint_data_bytes name seqn _ ltac:(lia) E) as [HB HD].
  destruct (from_hash_lemma sqrt ctx _ HS HC HB) as (md & D & L & H).
  exists md. split; [exact D|]. split; [exact L|]. unfold make_basepoint. rewrite E. exact H.
Qed.
Lemma make_basepoint_rejects sqrt ctx name seqn : no_nul name -> 0 <= seqn -> (28 < String.length name)%nat \/ 65535 < seqn ->
  make_basepoint sqrt ctx name seqn = Abort.
Proof.
  intros HN H0 H.
  assert (L : List.length (c_chars name) = String.length name).
  { rewrite c_chars_no_nul by exact HN. unfold chars. rewrite map_length. clear. induction name; cbn; [reflexivity|now f_equal]. }
  unfold make_basepoint. rewrite basepoint_data_ok, L by exact H0.
  destruct (Nat.leb_spec (String.length name) 28); [|reflexivity]. destruct (Z.leb_spec seqn 65535); [lia|reflexivity].
Qed.
Lemma basepoint_input_lemma n1 n2 s1 s2 d1 d2 : no_nul n1 -> no_nul n2 -> 0 <= s1 -> 0 <= s2 ->
  basepoint_data n1 s1 = Ok d1 -> basepoint_data n2 s2 = Ok d2 ->
  (d1 = d2 <-> rtrim (chars n1) = rtrim (chars n2) /\ s1 = s2).
Proof.
  intros N1 N2 P1 P2 E1 E2. rewrite basepoint_data_ok in E1, E2 by assumption. rewrite !c_chars_no_nul in * by assumption.
  destruct (Nat.leb_spec (List.length (chars n1)) 28) as [L1|]; [|discriminate E1].
  destruct (Nat.leb_spec (List.length (chars n2)) 28) as [L2|]; [|discriminate E2].
  destruct (Z.leb_spec s1 65535); [|discriminate E1]. destruct (Z.leb_spec s2 65535); [|discriminate E2].
  cbn [andb] in E1, E2. injection E1 as <-. injection E2 as <-. split.
  - intros E. apply app_inv_len in E; [|unfold fmt_left; rewrite !app_length, !repeat_length; lia]. destruct E as [A B].
    split; [now apply pad_eq|]. apply four_hex_inj; [lia|lia|exact B].
  - intros [A ->]. f_equal. now apply pad_eq.
Qed.
Lemma basepoint_input_collision : exists n1 n2, n1 <> n2 /\ no_nul n1 /\ no_nul n2 /\
  forall seqn, 0 <= seqn <= 65535 -> (exists d, basepoint_data n1 seqn = Ok d /\ basepoint_data n2 seqn = Ok d) /\
    forall sqrt ctx, make_basepoint sqrt ctx n1 seqn = make_basepoint sqrt ctx n2 seqn.
Proof.
  exists "EdDSA"%string, "EdDSA "%string. split; [discriminate|].
  assert (N1 : no_nul "EdDSA") by (cbn [no_nul]; intuition discriminate). assert (N2 : no_nul "EdDSA ") by (cbn [no_nul]; intuition discriminate).
  split; [exact N1|]. split; [exact N2|]. intros seqn Hs.
  assert (E : basepoint_data "EdDSA" seqn = basepoint_data "EdDSA " seqn).
  { rewrite !basepoint_data_text; [reflexivity|exact N2|cbn; lia|exact Hs|exact N1|cbn; lia|exact Hs]. }
  split.
  - eexists. rewrite <- E. split; apply basepoint_data_text; try assumption; cbn; lia.
  - intros sqrt ctx. unfold make_basepoint. now rewrite E.
Qed.
Lemma make_basepoints_lemma sqrt ctx name n bases : 0 <= n -> make_basepoints sqrt ctx name n = Ok bases <->
  Z.of_nat (List.length bases) = n /\ forall i, 0 <= i < n -> make_basepoint sqrt ctx name i = Ok (nth (Z.to_nat i) bases pzero).
Proof.
  intros Hn. unfold make_basepoints. remember (Z.to_nat n) as k eqn:Ek. assert (En : n = Z.of_nat k) by lia. clear Ek Hn. subst n.
  assert (G : forall k s bases, omapM (fun i => make_basepoint sqrt ctx name (Z.of_nat i)) (seq s k) = Ok bases <->
    List.length bases = k /\ forall i, (i < k)%nat -> make_basepoint sqrt ctx name (Z.of_nat (s + i)) = Ok (nth i bases pzero)).
  { clear. induction k as [|k IH]; intros s bases; cbn [seq omapM].
    - split; [intros E; injection E as <-; split; [reflexivity|lia]|]. intros [L _]. now destruct bases.
    - split.
      + destruct (make_basepoint sqrt ctx name (Z.of_nat s)) as [b| | | |] eqn:Eb; try discriminate. cbn [obind].
        destruct (omapM _ (seq (S s) k)) as [bs| | | |] eqn:Es; try discriminate. cbn [obind]. intros E. injection E as <-.
        apply IH in Es. destruct Es as [L Es]. split; [cbn [List.length]; now f_equal|]. intros [|i] Hi.
        * rewrite Nat.add_0_r. exact Eb.
        * cbn [nth]. rewrite <- Es by lia. do 2 f_equal. lia.
      + intros [L H]. destruct bases as [|b bs]; [discriminate L|]. cbn [List.length] in L. injection L as L.
        pose proof (H 0%nat ltac:(lia)) as H0. rewrite Nat.add_0_r in H0. rewrite H0. cbn [obind nth].
        rewrite (proj2 (IH (S s) bs)); [reflexivity|]. split; [exact L|]. intros i Hi. specialize (H (S i) ltac:(lia)). cbn [nth] in H. rewrite <- H. do 2 f_equal. lia. }
  rewrite G. split.
  - intros [L H]. split; [lia|]. intros i Hi. rewrite <- H by lia. f_equal. lia.
  - intros [L H]. split; [lia|]. intros i Hi. rewrite H by lia. f_equal. f_equal. lia.
Qed.
(** the hypothesis on the square root can be met *)
Lemma sqrt_exists : exists sqrt, sqrt_ok sqrt.
Proof.
  assert (D : forall x : F, {r : F | (exists t, x = (t * t)%F) -> (r * r)%F = x}).
  { intros x. destruct (Z.eq_dec (mpz_jacobi x) (-1)) as [E|E].
    - exists F0. intros H. exfalso. now apply jacobi_iff in E.
    - assert (S : {n : nat | (Fof (Z.of_nat n) * Fof (Z.of_nat n))%F = x}).
      { apply ConstructiveEpsilon.constructive_indefinite_ground_description_nat.
        - intros n. apply Feq_dec.
        - destruct (jacobi_root x E) as [r ->]. exists (Z.to_nat (fval r)).
          rewrite Z2Nat.id by apply fval_range. now rewrite Fof_fval. }
      destruct S as [n Hn]. exists (Fof (Z.of_nat n)). intros _. exact Hn. }
  exists (fun x => proj1_sig (D x)). intros r. apply (proj2_sig (D (r * r)%F)). now exists r.
Qed.
