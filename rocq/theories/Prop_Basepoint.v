(** Property theorems C35, C36 and C67-C71 (order of the curve, base-point derivation, EdDSA with the
    code's own base points) and the exact forms of C24 and C59.
    Vocabulary: Spec_CurveOrder.v ([curve_cardinal], [in_subgroup]) and Spec_Basepoint.v ([sqrt_ok],
    [has_point], [found_at], [exact_order], [basepoint_text], [rtrim]).  [sqrt] is any function that
    returns a root of every square, [ctx] any uninitialised SHA256_CTX. *)
From Coq Require Import List ZArith NArith Znumtheory Bool Arith Lia String.
From Verif Require Import Primes Field Base R1CS R1CSFacts M_Point M_Jubjub M_Utils M_Sha256 M_Montgomery M_Eddsa M_Basepoint Spec_Curve Spec_Mont Spec_CurveOrder
  Spec_Utils Spec_Sha256 Spec_Basepoint Spec_Eddsa P_Curve P_Group P_Zmul Q_Jubjub P_Order P_CurveOrder P_Basepoint Q_CurveOrder Q_Basepoint P_RealBases P_RealCerts Q_RealBases P_Eddsa2.
Import ListNotations.
Local Open Scope Z_scope.

(** ** C67: the curve has exactly 8L points *)
Theorem C67_curve_order : curve_cardinal (8 * ord_L).
Proof. exact curve_order_lemma. Qed.
Print Assumptions C67_curve_order.
Theorem C67_curve_exponent : forall P, on_curve P -> pzmul (8 * ord_L) P = pzero.
Proof. exact curve_exponent_lemma. Qed.
Print Assumptions C67_curve_exponent.
(** a point of order 8, so the cofactor is not superfluous *)
Example C67_example : on_curve pT /\ exact_order 8 pT /\ pzmul ord_L pT <> pzero.
Proof.
  split; [exact pT_on|]. split; [exact pT_order|]. intros H. apply pT_order in H. apply Z.mod_divide in H; [|lia]. vm_compute in H. discriminate.
Qed.

(** ** C68: multiplying by the cofactor gives a point of the prime-order subgroup *)
Theorem C68_cofactor_clears : forall P, on_curve P ->
  in_subgroup exG (pzmul 8 P) /\ (pzmul 8 P = pzero \/ exact_order ord_L (pzmul 8 P)).
Proof. exact cofactor_lemma. Qed.
Print Assumptions C68_cofactor_clears.
Theorem C68_subgroup_test : forall P, on_curve P -> (in_subgroup exG P <-> pzmul ord_L P = pzero).
Proof. exact subgroup_lemma. Qed.
Print Assumptions C68_subgroup_test.
Theorem C68_low_order_test : forall P, on_curve P -> (px (smul 8 P) = F0 <-> smul 8 P = pzero).
Proof. exact low_order_px. Qed.
Print Assumptions C68_low_order_test.
Example C68_example : pzmul 8 exG <> pzero /\ ~ in_subgroup exG pT.
Proof.
  split.
  - intros H. apply exG_order in H. apply Z.divide_pos_le in H; [|lia]. assert (8 < ord_L) by reflexivity. lia.
  - intros H. apply C68_subgroup_test in H; [|exact pT_on]. now apply (proj2 (proj2 C67_example)).
Qed.

(** ** C24 and C59 with the low-order condition in its exact form *)
Theorem C24_point_validator_exact : forall X Y n, (X < n)%nat -> (Y < n)%nat ->
  exists g n', validator_new X Y n = (g, n') /\
   (forall s : assign, sat s (validator_constraints g) ->
      on_curve (mkpt (s X) (s Y)) /\ smul 8 (mkpt (s X) (s Y)) <> pzero) /\
   (forall s : assign, on_curve (mkpt (s X) (s Y)) -> smul 8 (mkpt (s X) (s Y)) <> pzero ->
      exists s', validator_witness g s = Ok s' /\ frame n n' s s' /\ sat s' (validator_constraints g)).
Proof. exact validator_exact_lemma. Qed.
Print Assumptions C24_point_validator_exact.
Theorem C59_pure_eddsa_open_exact : forall mkb B A R s msg rbases,
  on_curve B -> on_curve A -> on_curve R -> good_bases mkb "EdDSA_Verify.RAM" (508 + List.length msg) rbases ->
  forall rb ab hb, canonical rb (px R) -> canonical ab (px A) -> canonical hb (pedersen_x rbases (rb ++ ab ++ msg)) ->
  exists b, pure_eddsa_open mkb B A R s msg = Ok b /\
    (b = true <-> smul 8 R <> pzero /\ eddsa_equation B A R (Z.to_N (fval s)) (bits_N hb)).
Proof. exact pure_eddsa_open_exact. Qed.
Print Assumptions C59_pure_eddsa_open_exact.
Theorem C59_eddsa_open_exact : forall mkb B A R s msg mbases rbases,
  on_curve B -> on_curve A -> on_curve R ->
  good_bases mkb "EdDSA_Verify.M" (List.length msg) mbases -> good_bases mkb "EdDSA_Verify.RAM" 762 rbases ->
  forall mb rb ab hb, canonical mb (pedersen_x mbases msg) -> canonical rb (px R) -> canonical ab (px A) ->
  canonical hb (pedersen_x rbases (rb ++ ab ++ mb)) ->
  exists b, eddsa_open mkb B A R s msg = Ok b /\
    (b = true <-> smul 8 R <> pzero /\ eddsa_equation B A R (Z.to_N (fval s)) (bits_N hb)).
Proof. exact eddsa_open_exact. Qed.
Print Assumptions C59_eddsa_open_exact.

(** ** C35 *)
Theorem C35_from_y_always : forall sqrt y, sqrt_ok sqrt ->
  (exists i P, 0 <= i < 100 /\ from_y_always sqrt y = Ok P /\ found_at y i P) \/
  (from_y_always sqrt y = Abort /\ forall j, 0 <= j < 100 -> ~ has_point (y + Fof j)%F).
Proof. exact from_y_always_lemma. Qed.
Print Assumptions C35_from_y_always.
Theorem C35_choice_of_root_irrelevant : forall sqrt sqrt' y, sqrt_ok sqrt -> sqrt_ok sqrt' -> from_y_always sqrt y = from_y_always sqrt' y.
Proof. exact from_y_always_deterministic. Qed.
Print Assumptions C35_choice_of_root_irrelevant.
Theorem C35_from_hash : forall sqrt ctx bytes, sqrt_ok sqrt -> List.length (sc_data ctx) = 16%nat -> Forall byte bytes ->
  exists md, is_sha256 bytes md /\ List.length md = 32%nat /\
   ((exists i P, 0 <= i < 100 /\ found_at (Fof (be_val md)) i P /\ from_hash sqrt ctx bytes = Ok (pzmul 8 P) /\
       on_curve (pzmul 8 P) /\ in_subgroup exG (pzmul 8 P) /\ (pzmul 8 P = pzero \/ exact_order ord_L (pzmul 8 P))) \/
    (from_hash sqrt ctx bytes = Abort /\ forall j, 0 <= j < 100 -> ~ has_point (Fof (be_val md) + Fof j)%F)).
Proof. exact from_hash_lemma. Qed.
Print Assumptions C35_from_hash.
Theorem C35_make_basepoint : forall sqrt ctx name seqn, sqrt_ok sqrt -> List.length (sc_data ctx) = 16%nat ->
  no_nul name -> (String.length name <= 28)%nat -> 0 <= seqn <= 65535 ->
  exists md, is_sha256 (basepoint_text name seqn) md /\ List.length md = 32%nat /\
   ((exists i P, 0 <= i < 100 /\ found_at (Fof (be_val md)) i P /\ make_basepoint sqrt ctx name seqn = Ok (pzmul 8 P) /\
       on_curve (pzmul 8 P) /\ in_subgroup exG (pzmul 8 P) /\ (pzmul 8 P = pzero \/ exact_order ord_L (pzmul 8 P))) \/
    (make_basepoint sqrt ctx name seqn = Abort /\ forall j, 0 <= j < 100 -> ~ has_point (Fof (be_val md) + Fof j)%F)).
Proof. exact make_basepoint_lemma. Qed.
Print Assumptions C35_make_basepoint.
Theorem C35_make_basepoints : forall sqrt ctx name n bases, 0 <= n -> make_basepoints sqrt ctx name n = Ok bases <->
  Z.of_nat (List.length bases) = n /\ forall i, 0 <= i < n -> make_basepoint sqrt ctx name i = Ok (nth (Z.to_nat i) bases pzero).
Proof. exact make_basepoints_lemma. Qed.
Print Assumptions C35_make_basepoints.
Theorem C35_make_basepoint_rejects : forall sqrt ctx name seqn, no_nul name -> 0 <= seqn -> (28 < String.length name)%nat \/ 65535 < seqn ->
  make_basepoint sqrt ctx name seqn = Abort.
Proof. exact make_basepoint_rejects. Qed.
Print Assumptions C35_make_basepoint_rejects.
(** the repository's own test vectors: an ordinate that has to be incremented, the hash of "test"
    and base point 3 of "test" *)
Example C35_example sqrt ctx : sqrt_ok sqrt -> List.length (sc_data ctx) = 16%nat ->
  from_y_always sqrt (Fof 10592275084648178561464128859907688344447649297734555224341876545305639835998) =
    Ok (mkpt (Fof 20616554786359396897066290204264220576319536076538991133935783866206841138898)
             (Fof 10592275084648178561464128859907688344447649297734555224341876545305639835998 + Fof 1)%F) /\
  make_basepoint sqrt ctx "test" 3 =
    Ok (mkpt (Fof 6325232514758476047657295329562397658895927829648225433723319142523734188126)
             (Fof 14815770185427470544334506238195577620110904285381068559206285331777725695895)).
Proof.
  intros HS HC. split.
  - apply (ycheck_ok sqrt _ (BC [3421995202268774566229394944229461326893945233987033089299446312095889612236]
      20616554786359396897066290204264220576319536076538991133935783866206841138898 (0, 0) (0, 0) (0, 0)) HS).
    vm_compute. reflexivity.
  - apply (ncheck_ok sqrt ctx "test" 3 (BC [10066870397372939414430540945154465633998254300250230411356129021115884456358]
      14880493393337558535790592901937850812797224089360678754016013829383177968893
      (18804201625167066556516446375095176068003249024284190631959016202235978764076, 8817134211064362752531385119650502912311723716375571736579897200891472507983)
      (1794432552266337175259854089802240527223735539737434959364879503275768281220, 12851561215601646055919431499359277382981055650238060359458340371290608709047)
      (6325232514758476047657295329562397658895927829648225433723319142523734188126, 14815770185427470544334506238195577620110904285381068559206285331777725695895)) HS HC); [lia|].
    vm_compute. reflexivity.
Qed.
(** square-root functions as required exist *)
Example C35_roots_exist : exists sqrt, sqrt_ok sqrt.
Proof. exact sqrt_exists. Qed.

(** ** C36: false, a name and the same name followed by a space are hashed alike; true up to
    trailing spaces *)
Theorem C36_basepoint_inputs_refuted : exists n1 n2, n1 <> n2 /\ no_nul n1 /\ no_nul n2 /\
  forall seqn, 0 <= seqn <= 65535 -> (exists d, basepoint_data n1 seqn = Ok d /\ basepoint_data n2 seqn = Ok d) /\
    forall sqrt ctx, make_basepoint sqrt ctx n1 seqn = make_basepoint sqrt ctx n2 seqn.
Proof. exact basepoint_input_collision. Qed.
Print Assumptions C36_basepoint_inputs_refuted.
Theorem C36_basepoint_inputs_partial : forall n1 n2 s1 s2 d1 d2, no_nul n1 -> no_nul n2 -> 0 <= s1 -> 0 <= s2 ->
  basepoint_data n1 s1 = Ok d1 -> basepoint_data n2 s2 = Ok d2 ->
  (d1 = d2 <-> rtrim (chars n1) = rtrim (chars n2) /\ s1 = s2).
Proof. exact basepoint_input_lemma. Qed.
Print Assumptions C36_basepoint_inputs_partial.
Example C36_example : exists d1 d2, basepoint_data "EdDSA_Verify.M" 17 = Ok d1 /\ basepoint_data "EdDSA_Verify.RAM" 17 = Ok d2 /\
  d1 = basepoint_text "EdDSA_Verify.M" 17 /\ skipn 26 d1 = [32; 32; 48; 48; 49; 49] /\ d1 <> d2.
Proof. do 2 eexists. split; [vm_compute; reflexivity|]. split; [vm_compute; reflexivity|]. split; [vm_compute; reflexivity|]. split; [reflexivity|discriminate]. Qed.

(** ** C69: the code's own base points for EdDSA are usable, and what eddsa_open computes with them.
    [ram_points] and [m_points] are literal lists of five points each. *)
Theorem C69_ram_base_points : forall sqrt ctx len, sqrt_ok sqrt -> List.length (sc_data ctx) = 16%nat -> (len mod 3 = 0)%nat -> (6 <= len <= 930)%nat ->
  good_bases (make_basepoints sqrt ctx) "EdDSA_Verify.RAM" len (bases_for ram_points len) /\
  Forall (exact_order ord_L) (bases_for ram_points len).
Proof. exact ram_good. Qed.
Print Assumptions C69_ram_base_points.
Theorem C69_message_base_points : forall sqrt ctx len, sqrt_ok sqrt -> List.length (sc_data ctx) = 16%nat -> (len mod 3 = 0)%nat -> (6 <= len <= 930)%nat ->
  good_bases (make_basepoints sqrt ctx) "EdDSA_Verify.M" len (bases_for m_points len) /\
  Forall (exact_order ord_L) (bases_for m_points len).
Proof. exact m_good. Qed.
Print Assumptions C69_message_base_points.
Theorem C69_other_names : forall sqrt ctx name len bases, sqrt_ok sqrt -> List.length (sc_data ctx) = 16%nat -> no_nul name ->
  (len mod 3 = 0)%nat -> (6 <= len)%nat -> Z.of_nat len <= 2 ^ 24 ->
  make_basepoints sqrt ctx name (basepoints_required (Z.of_nat len)) = Ok bases -> ~ In pzero bases ->
  good_bases (make_basepoints sqrt ctx) name len bases /\ Forall (exact_order ord_L) bases.
Proof. exact derived_good_lemma. Qed.
Print Assumptions C69_other_names.
Theorem C69_pure_eddsa_open : forall sqrt ctx B A R s msg, sqrt_ok sqrt -> List.length (sc_data ctx) = 16%nat ->
  on_curve B -> on_curve A -> on_curve R -> (List.length msg mod 3 = 2)%nat -> (List.length msg <= 422)%nat ->
  forall rb ab hb, canonical rb (px R) -> canonical ab (px A) ->
  canonical hb (pedersen_x (bases_for ram_points (508 + List.length msg)) (rb ++ ab ++ msg)) ->
  exists b, pure_eddsa_open (make_basepoints sqrt ctx) B A R s msg = Ok b /\
    (b = true <-> smul 8 R <> pzero /\ eddsa_equation B A R (Z.to_N (fval s)) (bits_N hb)).
Proof. exact pure_eddsa_open_real. Qed.
Print Assumptions C69_pure_eddsa_open.
Theorem C69_eddsa_open : forall sqrt ctx B A R s msg, sqrt_ok sqrt -> List.length (sc_data ctx) = 16%nat ->
  on_curve B -> on_curve A -> on_curve R -> (List.length msg mod 3 = 0)%nat -> (6 <= List.length msg <= 930)%nat ->
  forall mb rb ab hb, canonical mb (pedersen_x (bases_for m_points (List.length msg)) msg) -> canonical rb (px R) -> canonical ab (px A) ->
  canonical hb (pedersen_x ram_points (rb ++ ab ++ mb)) ->
  exists b, eddsa_open (make_basepoints sqrt ctx) B A R s msg = Ok b /\
    (b = true <-> smul 8 R <> pzero /\ eddsa_equation B A R (Z.to_N (fval s)) (bits_N hb)).
Proof. exact eddsa_open_real. Qed.
Print Assumptions C69_eddsa_open.
Example C69_example : nth 0 ram_points pzero =
  mkpt (Fof 17434558536782967610340762605448133754549234172198748128207635616973179917758) (Fof 13809929214859773185494095338070573446620668786591540427529120055108311408601) /\ List.length (bases_for m_points 930) = 5%nat.
Proof. split; [reflexivity|]. vm_compute. reflexivity. Qed.

(** ** C70: false, the scalar of a signature is only determined modulo L *)
Theorem C70_unique_scalar_refuted : forall sqrt ctx msg, sqrt_ok sqrt -> List.length (sc_data ctx) = 16%nat ->
  (List.length msg mod 3 = 0)%nat -> (6 <= List.length msg <= 930)%nat ->
  exists A R s s', s <> s' /\ eddsa_open (make_basepoints sqrt ctx) exG A R s msg = Ok true /\
    eddsa_open (make_basepoints sqrt ctx) exG A R s' msg = Ok true.
Proof. exact eddsa_two_signatures. Qed.
Print Assumptions C70_unique_scalar_refuted.
Theorem C70_every_signature_is_malleable : forall mkb B A R s msg mbases rbases,
  on_curve B -> on_curve A -> on_curve R -> pzmul ord_L B = pzero ->
  good_bases mkb "EdDSA_Verify.M" (List.length msg) mbases -> good_bases mkb "EdDSA_Verify.RAM" 762 rbases ->
  fval s + ord_L < p_mod -> eddsa_open mkb B A R s msg = Ok true ->
  (s + Fof ord_L)%F <> s /\ eddsa_open mkb B A R (s + Fof ord_L)%F msg = Ok true.
Proof. exact eddsa_malleable_lemma. Qed.
Print Assumptions C70_every_signature_is_malleable.
Theorem C70_unique_scalar_partial : forall B A R s s' h, on_curve B -> exact_order ord_L B -> eddsa_equation B A R s h ->
  (eddsa_equation B A R s' h <-> (ord_L | Z.of_N s - Z.of_N s')).
Proof. exact s_unique_lemma. Qed.
Print Assumptions C70_unique_scalar_partial.
Example C70_example : exact_order ord_L exG /\ eddsa_equation exG exG exG4 7 3 /\ on_curve exG.
Proof.
  split; [exact exG_order|]. split; [|exact exG_on]. unfold eddsa_equation. rewrite <- exG4_smul. rewrite <- smul_add by exact exG_on. reflexivity.
Qed.

(** ** C71: false, one signature under the neutral key is accepted for every message *)
Theorem C71_neutral_key_refuted : forall sqrt ctx msg, sqrt_ok sqrt -> List.length (sc_data ctx) = 16%nat ->
  (List.length msg mod 3 = 0)%nat -> (6 <= List.length msg <= 930)%nat ->
  on_curve pzero /\ on_curve exG4 /\ eddsa_open (make_basepoints sqrt ctx) exG pzero exG4 (Fof 4) msg = Ok true.
Proof. exact low_order_key_lemma. Qed.
Print Assumptions C71_neutral_key_refuted.
Example C71_example : (List.length (repeat true 762) mod 3 = 0)%nat /\ (6 <= List.length (repeat true 762) <= 930)%nat.
Proof. rewrite repeat_length. split; [reflexivity|lia]. Qed.
