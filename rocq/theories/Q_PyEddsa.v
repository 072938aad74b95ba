(** Final lemmas for the properties of /repo/ethsnarks/pedersen.py and /repo/ethsnarks/eddsa.py. *)
From Coq Require Import List ZArith NArith Znumtheory Bool Arith Lia String.
From Verif Require Import Primes Field Base R1CS M_Point M_Utils M_Bits M_Sha256 M_Montgomery M_Eddsa M_Basepoint Spec_Utils Spec_Sha256 Spec_Curve Spec_Mont Spec_Basepoint Spec_CurveOrder Spec_Eddsa
  P_Utils P_Curve P_Group P_Zmul P_Order P_Basepoint P_Eddsa Q_Sha256 Q_Jubjub Q_Basepoint Q_CurveOrder P_RealBases P_RealCerts Q_RealBases M_PyJubjub Spec_PyJubjub P_PyJubjub P_PyPoint Q_PyJubjub Q_PyHash M_PyEddsa Spec_PyEddsa P_PyPed.
Import ListNotations.
Local Open Scope nat_scope.
Local Open Scope Z_scope.

(** ** Pedersen hash *)
Lemma firstn_pad (l : list Z) : (List.length l <= 28)%nat -> firstn 28 (l ++ repeat 32 28) = l ++ repeat 32 (28 - List.length l).
Proof.
  intros H. rewrite firstn_app, firstn_all2 by assumption. f_equal.
  replace 28%nat with ((28 - List.length l) + List.length l)%nat at 2 by lia. rewrite repeat_app, firstn_app, firstn_all2 by (rewrite repeat_length; lia).
  rewrite repeat_length, Nat.sub_diag. cbn [firstn]. apply app_nil_r.
Qed.
Lemma chars_len s : List.length (chars s) = String.length s.
Proof. unfold chars. rewrite map_length. induction s as [|c s IH]; [reflexivity|]. cbn. now rewrite IH. Qed.
Lemma hex_ok d : 0 <= d < 16 -> hex_upper d = nth (Z.to_nat d) hex_alphabet 0.
Proof.
  intros H. assert (E : In d [0;1;2;3;4;5;6;7;8;9;10;11;12;13;14;15]) by (cbn; lia).
  cbn in E. repeat (destruct E as [<- |E]; [vm_compute; reflexivity|]). contradiction.
Qed.
Lemma text_ok name i : (String.length name <= 28)%nat -> 0 <= i <= 65535 ->
  chars name ++ repeat 32 (28 - List.length (chars name)) ++ py_hex4 i = basepoint_text name i.
Proof.
  intros HL Hi. unfold basepoint_text. rewrite firstn_pad by (rewrite chars_len; lia). rewrite <- app_assoc. f_equal. f_equal.
  unfold py_hex4. cbn [map]. rewrite !hex_ok by (apply Z.mod_pos_bound; lia).
  rewrite (Z.mod_small (i / 4096)); [reflexivity|]. split; [apply Z.div_pos; lia|apply Z.div_lt_upper_bound; lia].
Qed.
Lemma basepoint_ok from_hash name bases q : base_points_of from_hash name bases -> (q < List.length bases)%nat ->
  exists e, ped_basepoint from_hash (chars name) (Z.of_nat q) = Ok e /\ etec_of e (nth q bases pzero).
Proof.
  intros (HL & HN & HC & HB) Hq. exists (pt_as_etec (nth q bases pzero)). split; [|apply pt_as_etec_ok]. unfold ped_basepoint.
  assert (E1 : negb ((Z.of_nat q <? 0) || (65535 <? Z.of_nat q)) = true).
  { destruct (Z.ltb_spec (Z.of_nat q) 0); [lia|]. destruct (Z.ltb_spec 65535 (Z.of_nat q)); [lia|]. reflexivity. }
  rewrite E1. cbn [py_check obind]. assert (E2 : Nat.leb (List.length (chars name)) 28 = true) by (apply Nat.leb_le; now rewrite chars_len).
  rewrite E2. cbn [py_check obind]. rewrite text_ok by lia. rewrite HB by assumption. reflexivity.
Qed.
Lemma nth_on bases : Forall on_curve bases -> forall q, on_curve (nth q bases pzero).
Proof.
  intros H q. destruct (Nat.lt_ge_cases q (List.length bases)) as [L|L]; [|rewrite nth_overflow by assumption; exact pzero_on].
  rewrite Forall_forall in H. apply H. now apply nth_In.
Qed.
Lemma ped_windows_bits from_hash name bases bits : base_points_of from_hash name bases -> (List.length bits <= 186 * List.length bases)%nat ->
  ped_windows from_hash (chars name) (bit_windows bits) = Ok (pedersen_sum bases (pad3 bits)).
Proof.
  intros HB HL. pose proof (pad3_len bits) as P3.
  assert (HL' : (List.length (pad3 bits) <= 186 * List.length bases)%nat).
  { unfold pad3 in *. rewrite app_length, repeat_length in *.
    pose proof (Nat.mod_upper_bound (3 - List.length bits mod 3) 3 ltac:(lia)) as M.
    set (k := ((3 - List.length bits mod 3) mod 3)%nat) in *. apply Nat.mod_divides in P3; [|lia]. destruct P3 as [c Hc].
    lia. }
  rewrite <- windows_pad. rewrite (ped_windows_ok from_hash (chars name) (fun q => nth q bases pzero) (List.length bases)).
  - apply (f_equal Ok). change 0%nat with (62 * 0)%nat. apply wsum_sum; auto. apply nth_on. apply HB.
  - apply nth_on. apply HB.
  - intros q Hq. now apply basepoint_ok.
  - pose proof (windows_len (pad3 bits) P3). lia.
Qed.
Lemma ped_bits_lemma : forall from_hash name bases bits, base_points_of from_hash name bases -> bits <> [] -> (List.length bits <= 186 * List.length bases)%nat ->
  ped_hash_bits from_hash (chars name) bits = Ok (pedersen_sum bases (pad3 bits)).
Proof.
  intros from_hash name bases bits HB HN HL. unfold ped_hash_bits. destruct bits as [|a bits]; [contradiction|].
  assert (E : negb (Nat.eqb (List.length (bit_windows (a :: bits))) 0) = true) by (destruct bits as [|b [|c r]]; reflexivity).
  rewrite E. cbn [py_check obind]. now apply ped_windows_bits.
Qed.
Lemma byte_bits_ok b : byte_bits b = msb_bits 8 b.
Proof. rewrite msb_bits_map. reflexivity. Qed.
Lemma ped_bytes_lemma : forall from_hash name bases data, base_points_of from_hash name bases -> data <> [] -> (8 * List.length data <= 186 * List.length bases)%nat ->
  ped_hash_bytes from_hash (chars name) data = Ok (pedersen_sum bases (pad3 (bits_of_bytes data))).
Proof.
  intros from_hash name bases data HB HN HL. unfold ped_hash_bytes. destruct data as [|d data]; [contradiction|]. cbn [List.length Nat.eqb negb py_check obind].
  replace (flat_map byte_bits (d :: data)) with (bits_of_bytes (d :: data)) by (unfold bits_of_bytes; apply flat_map_ext; intros b; symmetry; apply byte_bits_ok).
  apply ped_bits_lemma; auto.
  - unfold bits_of_bytes. cbn [flat_map]. intros H. apply (f_equal (@List.length bool)) in H. rewrite app_length, msb_bits_length in H. discriminate.
  - replace (List.length (bits_of_bytes (d :: data))) with (8 * List.length (d :: data))%nat; [assumption|].
    generalize (d :: data) as l. clear. unfold bits_of_bytes. induction l as [|d l IH]; [reflexivity|]. cbn [flat_map List.length]. rewrite app_length, msb_bits_length, <- IH. lia.
Qed.
Lemma windows_snoc bits : (List.length bits mod 3 <> 0)%nat -> bit_windows (bits ++ [false]) = bit_windows bits.
Proof.
  induction bits as [|a|a b|a b c r IH] using triple_ind; intros H; [contradiction|destruct a; reflexivity|destruct a, b; reflexivity|].
  cbn [app bit_windows]. f_equal. apply IH. cbn [List.length] in H. change (S (S (S (List.length r)))) with (3 + List.length r)%nat in H.
  replace (3 + List.length r)%nat with (List.length r + 1 * 3)%nat in H by lia. now rewrite Nat.mod_add in H.
Qed.
Lemma ped_collision_lemma : forall from_hash name,
  (forall bits, (List.length bits mod 3 <> 0)%nat -> ped_hash_bits from_hash name (bits ++ [false]) = ped_hash_bits from_hash name bits) /\
  ped_hash_scalars from_hash name [1; 1] = ped_hash_scalars from_hash name [9] /\
  (forall l l', ped_hash_scalars from_hash name (l ++ 0 :: l') = ped_hash_scalars from_hash name (l ++ l')).
Proof.
  intros from_hash name. split; [|split].
  - intros bits H. unfold ped_hash_bits. now rewrite windows_snoc.
  - unfold ped_hash_scalars. assert (E : flat_map scalar_windows [1; 1] = flat_map scalar_windows [9]) by (vm_compute; reflexivity). now rewrite E.
  - intros l l'. unfold ped_hash_scalars. now rewrite !flat_map_app.
Qed.

Lemma app_inv_len {A} (a b c d : list A) : List.length a = List.length c -> a ++ b = c ++ d -> a = c /\ b = d.
Proof. revert c. induction a as [|x a IH]; intros [|y c] HL H; try discriminate; [auto|]. cbn in *. injection HL as HL. injection H as -> H. destruct (IH c HL H). subst. auto. Qed.
(** ** the base points are those of the C++ code *)
Lemma Some_inj {A} (a b : A) : Some a = Some b -> a = b.
Proof. intros H. congruence. Qed.
Lemma msb8_inj a b : byte a -> byte b -> msb_bits 8 a = msb_bits 8 b -> a = b.
Proof.
  unfold byte. intros Ha Hb H. apply (f_equal msb_val) in H. rewrite !msb_val_bits in H. change (2 ^ Z.of_nat 8) with 256 in H. rewrite !Z.mod_small in H by lia. exact H.
Qed.
Lemma bits_of_bytes_inj : forall a b, Forall byte a -> Forall byte b -> bits_of_bytes a = bits_of_bytes b -> a = b.
Proof.
  unfold bits_of_bytes. induction a as [|x a IH]; intros b Ha Hb H; destruct b as [|y b]; cbn [flat_map] in H; [reflexivity| | |].
  - apply (f_equal (@List.length bool)) in H. rewrite app_length, msb_bits_length in H. discriminate.
  - apply (f_equal (@List.length bool)) in H. rewrite app_length, msb_bits_length in H. discriminate.
  - inversion Ha; subst. inversion Hb; subst. apply app_inv_len in H; [|now rewrite !msb_bits_length]. destruct H as [K1 K2].
    f_equal; [now apply msb8_inj|now apply IH].
Qed.
Lemma sha_unique m md md' : is_sha256 m md -> is_sha256 m md' -> md = md'.
Proof. intros [H1 H2] [H3 H4]. apply bits_of_bytes_inj; auto. congruence. Qed.
Lemma chars_byte s : Forall byte (chars s).
Proof.
  unfold chars. apply Forall_forall. intros z H. apply in_map_iff in H. destruct H as (c & <- & _).
  pose proof (Ascii.nat_ascii_bounded c). unfold byte. lia.
Qed.
Lemma text_byte name i : (String.length name <= 28)%nat -> 0 <= i <= 65535 -> Forall byte (basepoint_text name i).
Proof.
  intros HL Hi. rewrite <- text_ok by assumption. repeat (apply Forall_app; split).
  - apply chars_byte.
  - apply Forall_forall. intros z H. apply repeat_spec in H. subst. unfold byte. lia.
  - unfold py_hex4. apply Forall_forall. intros z H. apply in_map_iff in H. destruct H as (d & <- & H).
    assert (0 <= d < 16) by (cbn in H; destruct H as [<- |[<- |[<- |[<- |[]]]]]; apply Z.mod_pos_bound; lia).
    unfold hex_upper, byte. destruct (d <? 10); lia.
Qed.
Lemma same_bases_lemma : forall s1 s2 from_hash ctx name n bases, sqrt_ok s1 -> py_sqrt_ok s2 -> hashes_to_points s2 from_hash ->
  List.length (sc_data ctx) = 16%nat -> no_nul name -> (String.length name <= 28)%nat -> 0 <= n <= 65536 ->
  make_basepoints s1 ctx name n = Ok bases -> base_points_of from_hash name bases /\ Z.of_nat (List.length bases) = n.
Proof.
  intros s1 s2 from_hash ctx name n bases H1 H2 HF HC HN HL Hn E. apply make_basepoints_lemma in E; [|lia]. destruct E as [EN HB].
  assert (G : forall i, (i < List.length bases)%nat -> on_curve (nth i bases pzero) /\ from_hash (basepoint_text name (Z.of_nat i)) = Ok (nth i bases pzero)).
  { intros i Hi. specialize (HB (Z.of_nat i) ltac:(lia)). rewrite Nat2Z.id in HB.
    destruct (make_basepoint_lemma s1 ctx name (Z.of_nat i) H1 HC HN HL ltac:(lia)) as (md & HM & _ & [(j & Q & Hj & HQ & EQ & OQ & _)|[EQ _]]); rewrite HB in EQ; [|discriminate EQ].
    apply Ok_inj in EQ. rewrite EQ. split; [exact OQ|].
    destruct (HF (basepoint_text name (Z.of_nat i)) ltac:(apply text_byte; lia)) as (md' & k & HM' & HR).
    rewrite (sha_unique _ _ _ HM' HM) in HR.
    destruct (py_from_hash_lemma s2 (Fof (be_val md)) H2) as (j' & P' & HF' & _ & _ & HJ).
    destruct (found_unique _ j (Z.of_nat j') Q P' ltac:(lia) ltac:(lia) HQ HF') as [_ <-].
    specialize (HR (S (k + j')) ltac:(lia)). rewrite HJ in HR by lia. symmetry. exact (Some_inj _ _ HR). }
  split; [|exact EN]. split; [exact HL|]. split; [lia|]. split; [|intros i Hi; now apply G].
  apply Forall_forall. intros P HP. apply (In_nth _ _ pzero) in HP. destruct HP as (i & Hi & <-). now apply G.
Qed.

(** ** EdDSA *)
Lemma pt_eq_true P Q : pt_eq P Q = true <-> P = Q.
Proof.
  unfold pt_eq. rewrite andb_true_iff, !Feqb_true. split; [intros [H1 H2]; now apply point_eq|intros ->; auto].
Qed.
Lemma verify_lemma : forall (Msg Msg' : Type) (pre : Msg -> outcome Msg') hp B A sig msg M t,
  on_curve B -> on_curve A -> on_curve (ps_R sig) -> pre msg = Ok M -> hp (ps_R sig) A M = Ok t -> 0 <= t ->
  exists b, py_verify pre hp B A sig msg = Ok b /\ (b = true <-> pzmul (fval (ps_S sig)) B = padd (ps_R sig) (pzmul t A)).
Proof.
  intros Msg Msg' pre hp B A sig msg M t HB HA HR EM Et Ht. unfold py_verify.
  rewrite fq_scalar; [|auto|assumption|apply fval_range]. cbn [obind]. rewrite EM. cbn [obind]. rewrite Et. cbn [obind].
  rewrite pt_mult_ok by assumption. cbn [obind]. rewrite pt_add_ok by assumption. cbn [obind].
  eexists. split; [reflexivity|]. apply pt_eq_true.
Qed.
Lemma bool_iff_eq (b : bool) (P : Prop) c : (b = true <-> P) -> (c = true <-> P) -> b = c.
Proof. intros H1 H2. destruct b, c; try reflexivity; [assert (P) by now apply H1|assert (P) by now apply H2]; [now apply H2 in H|now apply H1 in H]. Qed.
Lemma sign_lemma : forall (Msg Msg' : Type) (pre : Msg -> outcome Msg') sd hp B msg M n m t,
  on_curve B -> exact_order ord_L B -> (m = JUBJUB_Q \/ m = JUBJUB_E \/ m = JUBJUB_L) -> 0 < n < ord_L -> pre msg = Ok M ->
  let r := sd n M mod ord_L in hp (pzmul r B) (pzmul n B) M = Ok t -> 0 <= t ->
  exists sig, py_sign pre sd hp B msg n m = Ok (pzmul n B, sig, msg) /\ ps_R sig = pzmul r B /\
    py_verify pre hp B (pzmul n B) sig msg = Ok ((r + n * t) mod (8 * ord_L) <? p_mod).
Proof.
  intros Msg Msg' pre sd hp B msg M n m t HB HO Hm Hn EM r Et Ht. unfold py_sign.
  assert (E1 : negb ((JUBJUB_L <=? n) || (n <=? 0)) = true).
  { rewrite JUBJUB_L_ok. destruct (Z.leb_spec ord_L n); [lia|]. destruct (Z.leb_spec n 0); [lia|]. reflexivity. }
  rewrite E1. cbn [py_check obind]. rewrite fq_scalar by (auto || lia). cbn [obind]. rewrite EM. cbn [obind]. cbv zeta.
  unfold hash_secret. rewrite JUBJUB_L_ok. fold r. assert (Hr : 0 <= r < ord_L) by (apply Z.mod_pos_bound; reflexivity).
  rewrite pt_mult_ok by (assumption || lia). cbn [obind]. rewrite Et. cbn [obind]. rewrite E_8L.
  set (S := (r + n * t) mod (8 * ord_L)). assert (HS : 0 <= S < 8 * ord_L) by (apply Z.mod_pos_bound; reflexivity).
  eexists. split; [reflexivity|]. split; [reflexivity|].
  destruct (verify_lemma Msg Msg' pre hp B (pzmul n B) (mkps (pzmul r B) (Fof S)) msg M t
    HB (pzmul_on n B HB) (pzmul_on r B HB) EM Et Ht) as (b & Eb & Hb).
  rewrite Eb. apply (f_equal Ok). apply (bool_iff_eq _ _ _ Hb). cbn [ps_R ps_S]. rewrite fval_Fof, Z.ltb_lt.
  rewrite <- pzmul_mul by assumption. rewrite <- pzmul_add by assumption.
  assert (EQ : pzmul (r + t * n) B = pzmul S B).
  { unfold S. rewrite (Z.mul_comm n t). symmetry. apply scalar_mod; [assumption| |discriminate]. apply HO. exists 8. ring. }
  rewrite EQ. clear EQ. assert (PP : 8 * ord_L < 2 * p_mod) by reflexivity.
  split.
  - intros Hlt. rewrite Z.mod_small by lia. reflexivity.
  - intros H. destruct (Z.lt_ge_cases S p_mod) as [L|L]; [exact L|]. exfalso.
    assert (EM2 : S mod p_mod = S - p_mod). { symmetry. apply Z.mod_unique with 1; lia. }
    rewrite EM2, pzmul_sub in H by assumption.
    assert (HZ : pzmul p_mod B = pzero).
    { pose proof (pzmul_on S B HB) as O1. pose proof (pzmul_on p_mod B HB) as O2. rewrite <- (padd_0_r (pzmul S B)) in H at 2.
      apply padd_cancel_l in H; [|assumption|now apply pneg_on|exact pzero_on].
      pose proof (padd_neg_r (pzmul p_mod B) O2) as H2. rewrite H, padd_0_r in H2. exact H2. }
    apply HO in HZ. apply Z.mod_divide in HZ; [|discriminate]. vm_compute in HZ. discriminate.
Qed.

Lemma sign_range_lemma : forall (Msg Msg' : Type) (pre : Msg -> outcome Msg') sd hp B msg n m, ~ (0 < n < ord_L) -> py_sign pre sd hp B msg n m = Throw.
Proof.
  intros Msg Msg' pre sd hp B msg n m Hn. unfold py_sign.
  assert (E1 : negb ((JUBJUB_L <=? n) || (n <=? 0)) = false).
  { rewrite JUBJUB_L_ok. destruct (Z.leb_spec ord_L n); [reflexivity|]. destruct (Z.leb_spec n 0); [reflexivity|]. lia. }
  rewrite E1. reflexivity.
Qed.
(** a signature made by [sign] that [verify] rejects *)
Lemma sign_verify_fails_lemma : forall (Msg : Type) (msg : Msg) B, on_curve B -> exact_order ord_L B ->
  exists sig, py_sign (@Ok Msg) (fun _ _ => 1) (fun _ _ _ => Ok (p_mod - 1)) B msg 1 JUBJUB_E = Ok (pzmul 1 B, sig, msg) /\
    py_verify (@Ok Msg) (fun _ _ _ => Ok (p_mod - 1)) B (pzmul 1 B) sig msg = Ok false.
Proof.
  intros Msg msg B HB HO.
  assert (H1 : 0 < 1 < ord_L) by (split; reflexivity). assert (H2 : 0 <= p_mod - 1) by discriminate.
  destruct (sign_lemma Msg Msg (@Ok Msg) (fun _ _ => 1) (fun _ _ _ => Ok (p_mod - 1)) B msg msg 1 JUBJUB_E (p_mod - 1) HB HO (or_intror (or_introl eq_refl)) H1 eq_refl eq_refl H2) as (sig & E1 & _ & E2).
  exists sig. split; [exact E1|]. rewrite E2. apply (f_equal Ok). vm_compute. reflexivity.
Qed.
Lemma malleable_lemma : forall (Msg Msg' : Type) (pre : Msg -> outcome Msg') hp B A R S msg M t,
  on_curve B -> exact_order ord_L B -> on_curve A -> on_curve R -> pre msg = Ok M -> hp R A M = Ok t -> 0 <= t -> fval S + ord_L < p_mod ->
  Fof (fval S + ord_L) <> S /\ py_verify pre hp B A (mkps R (Fof (fval S + ord_L))) msg = py_verify pre hp B A (mkps R S) msg.
Proof.
  intros Msg Msg' pre hp B A R S msg M t HB HO HA HR EM Et Ht HS. pose proof (fval_range S) as RS.
  assert (EV : fval (Fof (fval S + ord_L)) = fval S + ord_L). { rewrite fval_Fof. apply Z.mod_small. split; [|exact HS]. assert (0 < ord_L) by reflexivity. lia. }
  split. { intros H. apply (f_equal fval) in H. rewrite EV in H. assert (0 < ord_L) by reflexivity. lia. }
  destruct (verify_lemma Msg Msg' pre hp B A (mkps R (Fof (fval S + ord_L))) msg M t HB HA HR EM Et Ht) as (b & Eb & Hb).
  destruct (verify_lemma Msg Msg' pre hp B A (mkps R S) msg M t HB HA HR EM Et Ht) as (c & Ec & Hc).
  rewrite Eb, Ec. apply (f_equal Ok). apply (bool_iff_eq _ _ _ Hb). rewrite Hc. cbn [ps_S ps_R]. rewrite EV.
  rewrite pzmul_add by assumption. replace (pzmul ord_L B) with pzero; [|symmetry; apply HO; apply Z.divide_refl]. now rewrite padd_0_r.
Qed.
Lemma neutral_key_lemma : forall (Msg Msg' : Type) (pre : Msg -> outcome Msg') hp B msg M r t, on_curve B -> pre msg = Ok M ->
  0 <= r < p_mod -> hp (pzmul r B) pzero M = Ok t -> 0 <= t -> py_verify pre hp B pzero (mkps (pzmul r B) (Fof r)) msg = Ok true.
Proof.
  intros Msg Msg' pre hp B msg M r t HB EM Hr Et Ht.
  destruct (verify_lemma Msg Msg' pre hp B pzero (mkps (pzmul r B) (Fof r)) msg M t HB pzero_on (pzmul_on r B HB) EM Et Ht) as (b & Eb & Hb).
  rewrite Eb. apply (f_equal Ok). apply Hb. cbn [ps_S ps_R]. rewrite fval_Fof, Z.mod_small by assumption. now rewrite pzmul_zero, padd_0_r.
Qed.

(** ** the two verifiers *)
Lemma bits_map n z : bits_of_Z n z = map (fun i => Z.testbit z (Z.of_nat i)) (seq 0 n).
Proof.
  revert z. induction n as [|n IH]; intros z; [reflexivity|]. cbn [bits_of_Z seq map]. rewrite <- seq_shift, map_map, IH. f_equal.
  apply map_ext. intros i. rewrite Z.div2_spec, Z.shiftr_spec by lia. f_equal. lia.
Qed.
Lemma fq_bits_canonical x : canonical (fq_bits x) x.
Proof. unfold fq_bits. rewrite <- bits_map. apply canonical_bits. Qed.
Lemma pt_gen_exG : pt_generator = exG. Proof. unfold pt_generator, exG, jj_Gx, jj_Gy. reflexivity. Qed.
Lemma pad3_id bits : (List.length bits mod 3 = 0)%nat -> pad3 bits = bits.
Proof. intros H. unfold pad3. rewrite H. apply app_nil_r. Qed.
Lemma ram_chars : chars "EdDSA_Verify.RAM" = ram_name. Proof. vm_compute. reflexivity. Qed.
Lemma m_chars : chars "EdDSA_Verify.M" = m_name. Proof. vm_compute. reflexivity. Qed.
Lemma good_py s1 s2 from_hash ctx name len bases : sqrt_ok s1 -> py_sqrt_ok s2 -> hashes_to_points s2 from_hash ->
  List.length (sc_data ctx) = 16%nat -> no_nul name -> (String.length name <= 28)%nat -> (6 <= len <= 930)%nat ->
  good_bases (make_basepoints s1 ctx) name len bases -> base_points_of from_hash name bases.
Proof.
  intros H1 H2 HF HC HN HL HR (G1 & _ & _ & G4 & _). destruct (required_range len HR) as (K1 & K2 & K3).
  apply (same_bases_lemma s1 s2 from_hash ctx name (basepoints_required (Z.of_nat len)) bases); auto. lia.
Qed.
Lemma ped_good s1 s2 from_hash ctx name len bases bits : sqrt_ok s1 -> py_sqrt_ok s2 -> hashes_to_points s2 from_hash ->
  List.length (sc_data ctx) = 16%nat -> no_nul name -> (String.length name <= 28)%nat -> (6 <= len <= 930)%nat ->
  good_bases (make_basepoints s1 ctx) name len bases -> List.length bits = len -> ped_hash_bits from_hash (chars name) bits = Ok (pedersen_sum bases bits).
Proof.
  intros H1 H2 HF HC HN HL HR HG HB. assert (G2 := HG). destruct G2 as (_ & _ & _ & _ & (G5 & G6)).
  rewrite <- (pad3_id bits) at 2 by (rewrite HB; exact G5). apply ped_bits_lemma; [now apply (good_py s1 s2 from_hash ctx name len)| |lia].
  intros ->. cbn in HB. lia.
Qed.
Lemma fq_bits_len x : List.length (fq_bits x) = 254%nat.
Proof. unfold fq_bits. now rewrite map_length, seq_length. Qed.
Lemma no_nul_ram : no_nul "EdDSA_Verify.RAM". Proof. cbn. repeat (split; [discriminate|]). exact I. Qed.
Lemma no_nul_m : no_nul "EdDSA_Verify.M". Proof. cbn. repeat (split; [discriminate|]). exact I. Qed.

Lemma pure_hash_eq s1 s2 from_hash ctx R A msg : sqrt_ok s1 -> py_sqrt_ok s2 -> hashes_to_points s2 from_hash -> List.length (sc_data ctx) = 16%nat ->
  (List.length msg mod 3 = 2)%nat -> (List.length msg <= 422)%nat ->
  pure_hash_public from_hash R A msg = Ok (fval (pedersen_x (bases_for ram_points (508 + List.length msg)) (fq_bits (px R) ++ fq_bits (px A) ++ msg))).
Proof.
  intros H1 H2 HF HC H3 HL. unfold pure_hash_public. rewrite <- ram_chars.
  rewrite (ped_good s1 s2 from_hash ctx "EdDSA_Verify.RAM" (508 + List.length msg) (bases_for ram_points (508 + List.length msg))); auto using no_nul_ram.
  - cbn; lia.
  - lia.
  - apply ram_good; try assumption; [|lia]. rewrite Nat.add_mod, H3 by lia. reflexivity.
Qed.
Lemma verifiers_lemma B A R s t hb cpp (a b : bool) x : on_curve A -> canonical hb x -> t = fval x ->
  (a = true <-> smul 8 R <> pzero /\ eddsa_equation B A R (Z.to_N (fval s)) (bits_N hb)) ->
  (b = true <-> pzmul (fval s) B = padd R (pzmul t A)) -> cpp = a -> (cpp = true <-> b = true /\ pzmul 8 R <> pzero).
Proof.
  intros HA Hhb -> Ha Hb ->. rewrite Ha, Hb. unfold eddsa_equation. destruct Hhb as [_ EH]. rewrite <- EH.
  pose proof (fval_range s). rewrite <- (Z2N.id (fval s)) at 2 by lia. rewrite !pzmul_N.
  change 8 with (Z.of_N 8). rewrite pzmul_N. apply and_comm.
Qed.
Lemma pure_agree_lemma : forall s1 s2 from_hash ctx A R s msg, sqrt_ok s1 -> py_sqrt_ok s2 -> hashes_to_points s2 from_hash -> List.length (sc_data ctx) = 16%nat ->
  on_curve A -> on_curve R -> (List.length msg mod 3 = 2)%nat -> (List.length msg <= 422)%nat ->
  exists a b, pure_eddsa_open (make_basepoints s1 ctx) exG A R s msg = Ok a /\ pure_verify from_hash A (mkps R s) msg = Ok b /\
    (a = true <-> b = true /\ pzmul 8 R <> pzero).
Proof.
  intros s1 s2 from_hash ctx A R s msg H1 H2 HF HC HA HR H3 HL.
  set (x := pedersen_x (bases_for ram_points (508 + List.length msg)) (fq_bits (px R) ++ fq_bits (px A) ++ msg)).
  destruct (pure_eddsa_open_real s1 ctx exG A R s msg H1 HC exG_on HA HR H3 HL _ _ (fq_bits x) (fq_bits_canonical _) (fq_bits_canonical _) (fq_bits_canonical _)) as (a & Ea & Ha).
  destruct (verify_lemma _ _ (@Ok (list bool)) (pure_hash_public from_hash) exG A (mkps R s) msg msg (fval x) exG_on HA HR eq_refl) as (b & Eb & Hb).
  { cbn [ps_R]. now apply (pure_hash_eq s1 s2 from_hash ctx). } { apply fval_range. }
  exists a, b. split; [exact Ea|]. split. { unfold pure_verify. rewrite pt_gen_exG. exact Eb. }
  cbn [ps_R ps_S] in Hb. exact (verifiers_lemma exG A R s _ _ a a b x HA (fq_bits_canonical x) eq_refl Ha Hb eq_refl).
Qed.
Lemma bytes_bits_len l : List.length (bits_of_bytes l) = (8 * List.length l)%nat.
Proof. unfold bits_of_bytes. induction l as [|d l IH]; [reflexivity|]. cbn [flat_map List.length]. rewrite app_length, msb_bits_length, IH. lia. Qed.
Lemma ram762 : bases_for ram_points 762 = ram_points. Proof. reflexivity. Qed.
Lemma hashed_agree_lemma : forall s1 s2 from_hash ctx A R s data, sqrt_ok s1 -> py_sqrt_ok s2 -> hashes_to_points s2 from_hash -> List.length (sc_data ctx) = 16%nat ->
  on_curve A -> on_curve R -> (List.length data mod 3 = 0)%nat -> (0 < List.length data <= 116)%nat ->
  exists a b, eddsa_open (make_basepoints s1 ctx) exG A R s (bits_of_bytes data) = Ok a /\ eddsa_verify from_hash A (mkps R s) data = Ok b /\
    (a = true <-> b = true /\ pzmul 8 R <> pzero).
Proof.
  intros s1 s2 from_hash ctx A R s data H1 H2 HF HC HA HR H3 HL. pose proof (bytes_bits_len data) as LB.
  assert (HM3 : (List.length (bits_of_bytes data) mod 3 = 0)%nat) by (rewrite LB, Nat.mul_mod, H3 by lia; reflexivity).
  assert (HML : (6 <= List.length (bits_of_bytes data) <= 930)%nat) by lia.
  set (M := pedersen_sum (bases_for m_points (List.length (bits_of_bytes data))) (bits_of_bytes data)).
  assert (EM : ped_hash_bytes from_hash m_name data = Ok M).
  { rewrite <- m_chars. destruct (m_good s1 ctx _ H1 HC HM3 HML) as [G _].
    pose proof (good_py s1 s2 from_hash ctx _ _ _ H1 H2 HF HC no_nul_m ltac:(cbn; lia) HML G) as GP.
    rewrite (ped_bytes_lemma from_hash _ _ data GP); [unfold M; now rewrite pad3_id| |destruct G as (_ & _ & _ & _ & G); lia].
    intros ->. cbn in HL. lia. }
  assert (E3 : (List.length (fq_bits (px M)) mod 3 = 2)%nat) by (rewrite fq_bits_len; reflexivity).
  assert (E4 : (List.length (fq_bits (px M)) <= 422)%nat) by (rewrite fq_bits_len; lia).
  set (x := pedersen_x ram_points (fq_bits (px R) ++ fq_bits (px A) ++ fq_bits (px M))).
  destruct (eddsa_open_real s1 ctx exG A R s (bits_of_bytes data) H1 HC exG_on HA HR HM3 HML (fq_bits (px M)) _ _ (fq_bits x) (fq_bits_canonical _) (fq_bits_canonical _) (fq_bits_canonical _) (fq_bits_canonical _)) as (a & Ea & Ha).
  destruct (verify_lemma _ _ (ped_hash_bytes from_hash m_name) (eddsa_hash_public from_hash) exG A (mkps R s) data M (fval x) exG_on HA HR EM) as (b & Eb & Hb).
  { cbn [ps_R]. unfold eddsa_hash_public. rewrite (pure_hash_eq s1 s2 from_hash ctx) by assumption. rewrite fq_bits_len. change (508 + 254)%nat with 762%nat. now rewrite ram762. }
  { apply fval_range. }
  exists a, b. split; [exact Ea|]. split. { unfold eddsa_verify. rewrite pt_gen_exG. exact Eb. }
  cbn [ps_R ps_S] in Hb. exact (verifiers_lemma exG A R s _ _ a a b x HA (fq_bits_canonical x) eq_refl Ha Hb eq_refl).
Qed.

(** ** there is such a [from_hash] *)
Definition some_from_hash (sqrt : F -> outcome F) (fuel : nat) (ctx : sctx) (data : list Z) : outcome point :=
  match SHA256 ctx data with
  | Ok (Some md) => match from_hash_loop sqrt fuel (Fof (be_val md)) with Some r => r | None => UB end
  | _ => UB
  end.
Lemma some_from_hash_ok sqrt n ctx : py_sqrt_ok sqrt -> Z.of_nat n = p_mod -> List.length (sc_data ctx) = 16%nat -> hashes_to_points sqrt (some_from_hash sqrt n ctx).
Proof.
  intros HS Hn HC data HD. destruct (sha256_oneshot ctx data HC HD) as (md & ES & _ & HM).
  destruct (py_from_hash_lemma sqrt (Fof (be_val md)) HS) as (i & P & HF & _ & _ & HJ).
  exists md, i. split; [exact HM|]. intros fuel Hf. rewrite HJ by assumption. unfold some_from_hash. rewrite ES.
  rewrite HJ; [reflexivity|]. apply Nat2Z.inj_lt. rewrite Hn.
  set (y := Fof (be_val md)) in *. assert (HB := Z.mod_pos_bound (1 - fval y) p_mod ltac:(reflexivity)).
  destruct (Z.lt_ge_cases (Z.of_nat i) p_mod) as [L|L]; [exact L|exfalso].
  destruct HF as (_ & _ & _ & N). apply (N ((1 - fval y) mod p_mod)); [lia|]. exists F0.
  replace (y + Fof ((1 - fval y) mod p_mod))%F with F1; [exact pzero_on|].
  assert (E : Fof ((1 - fval y) mod p_mod) = (F1 - y)%F).
  { rewrite <- (Fof_fval y) at 2. change F1 with (Fof 1). rewrite <- Fof_sub. apply Fof_eq_iff. apply Zmod_mod. }
  rewrite E. ring.
Qed.
Lemma fuel_exists : exists n, Z.of_nat n = p_mod.
Proof. exists (Z.to_nat p_mod). apply Z2Nat.id. discriminate. Qed.
