(** Property theorems C33, C34 and C59 (EdDSA gadgets and eddsa_open). [mkb] is the function that
    generates the base points of the Pedersen hash; the theorems hold for every such function
    whose points meet [good_bases]. *)
From Coq Require Import List NArith ZArith Znumtheory Bool Arith Lia String.
From Verif Require Import Primes Field Base R1CS R1CSFacts M_Lookup M_Point M_Jubjub M_Montgomery M_Eddsa Spec_Curve Spec_Mont Spec_Eddsa
  P_Group P_Order Q_Jubjub Q_Eddsa P_Eddsa2.
Import ListNotations.
Local Open Scope F_scope.

(** ** C33: soundness, completeness of every admissible opening, and what the honest witness does *)
Theorem C33_pure_eddsa : forall mkb B rbases A R sv msg n,
  on_curve B -> (List.length sv mod 2 = 0)%nat -> (4 <= List.length sv)%nat -> Forall (fun v => v < n)%nat sv -> Forall (fun v => v < n)%nat msg ->
  good_bases mkb "EdDSA_Verify.RAM" (508 + List.length msg) rbases ->
  (vp_x A < n)%nat -> (vp_y A < n)%nat -> (vp_x R < n)%nat -> (vp_y R < n)%nat ->
  exists g n' cs, pure_eddsa_new mkb B A R sv msg n = Ok (g, n') /\ pure_eddsa_constraints g = Ok cs /\
  forall (s : assign) (sb M : list bool), map s sv = map b2F sb -> map s msg = map b2F M ->
    let PA := mkpt (s (vp_x A)) (s (vp_y A)) in let PR := mkpt (s (vp_x R)) (s (vp_y R)) in
    on_curve PA ->
    (sat s cs -> on_curve PR /\ px (smul 8 PR) <> F0 /\
       exists rb ab hb, decodes rb (px PR) /\ decodes ab (px PA) /\ decodes hb (pedersen_x rbases (rb ++ ab ++ M)) /\
         map s (hram_result (pe_hash g)) = map b2F hb /\ eddsa_equation B PA PR (bits_N sb) (bits_N hb)) /\
    (on_curve PR -> px (smul 8 PR) <> F0 ->
       (forall rb ab hb, decodes rb (px PR) -> decodes ab (px PA) -> decodes hb (pedersen_x rbases (rb ++ ab ++ M)) ->
          eddsa_equation B PA PR (bits_N sb) (bits_N hb) ->
          exists s', frame n n' s s' /\ sat s' cs /\ map s' (hram_result (pe_hash g)) = map b2F hb) /\
       (forall rb ab hb, canonical rb (px PR) -> canonical ab (px PA) -> canonical hb (pedersen_x rbases (rb ++ ab ++ M)) ->
          exists s', pure_eddsa_witness g s = Ok s' /\ frame n n' s s' /\ map s' (hram_result (pe_hash g)) = map b2F hb /\
            (sat s' cs <-> eddsa_equation B PA PR (bits_N sb) (bits_N hb)))).
Proof. exact pure_eddsa_lemma. Qed.
Print Assumptions C33_pure_eddsa.
Theorem C33_eddsa : forall mkb B mbases rbases A R sv msg n,
  on_curve B -> (List.length sv mod 2 = 0)%nat -> (4 <= List.length sv)%nat -> Forall (fun v => v < n)%nat sv -> Forall (fun v => v < n)%nat msg ->
  good_bases mkb "EdDSA_Verify.M" (List.length msg) mbases -> good_bases mkb "EdDSA_Verify.RAM" 762 rbases ->
  (vp_x A < n)%nat -> (vp_y A < n)%nat -> (vp_x R < n)%nat -> (vp_y R < n)%nat ->
  exists g n' cs, eddsa_new mkb B A R sv msg n = Ok (g, n') /\ eddsa_constraints g = Ok cs /\
  forall (s : assign) (sb M : list bool), map s sv = map b2F sb -> map s msg = map b2F M ->
    let PA := mkpt (s (vp_x A)) (s (vp_y A)) in let PR := mkpt (s (vp_x R)) (s (vp_y R)) in
    on_curve PA ->
    (sat s cs -> on_curve PR /\ px (smul 8 PR) <> F0 /\
       exists mb rb ab hb, decodes mb (pedersen_x mbases M) /\ decodes rb (px PR) /\ decodes ab (px PA) /\
         decodes hb (pedersen_x rbases (rb ++ ab ++ mb)) /\
         map s (hram_result (pe_hash (ed_ver g))) = map b2F hb /\ eddsa_equation B PA PR (bits_N sb) (bits_N hb)) /\
    (on_curve PR -> px (smul 8 PR) <> F0 ->
       (forall mb rb ab hb, decodes mb (pedersen_x mbases M) -> decodes rb (px PR) -> decodes ab (px PA) ->
          decodes hb (pedersen_x rbases (rb ++ ab ++ mb)) -> eddsa_equation B PA PR (bits_N sb) (bits_N hb) ->
          exists s', frame n n' s s' /\ sat s' cs /\ map s' (hram_result (pe_hash (ed_ver g))) = map b2F hb) /\
       (forall mb rb ab hb, canonical mb (pedersen_x mbases M) -> canonical rb (px PR) -> canonical ab (px PA) ->
          canonical hb (pedersen_x rbases (rb ++ ab ++ mb)) ->
          exists s', eddsa_witness g s = Ok s' /\ frame n n' s s' /\ map s' (hram_result (pe_hash (ed_ver g))) = map b2F hb /\
            (sat s' cs <-> eddsa_equation B PA PR (bits_N sb) (bits_N hb)))).
Proof. exact eddsa_lemma. Qed.
Print Assumptions C33_eddsa.
(** a base-point function meeting the hypotheses, and for every challenge h a signature of the key
    1 with nonce 4 *)
Definition ex_mkb : basepoint_fn := fun _ k => Ok (repeat exG (Z.to_nat k)).
Lemma ex_good name len : (len mod 3 = 0 /\ 6 <= len)%nat -> basepoints_required (Z.of_nat len) = 5%Z -> (len <= 930)%nat ->
  good_bases ex_mkb name len (repeat exG 5).
Proof.
  intros [H1 H2] E H3. unfold good_bases, ex_mkb. rewrite E. change (Z.to_nat 5) with 5%nat. rewrite repeat_length.
  split; [reflexivity|]. split; [apply Forall_forall; intros P HP; apply repeat_spec in HP; subst P; exact exG_on|].
  split; [apply Forall_forall; intros P HP; apply repeat_spec in HP; subst P; exact exG_large_order|].
  split; [reflexivity|]. split; [exact H1|]. lia.
Qed.
Example C33_example : on_curve exG /\ on_curve exG4 /\ px (smul 8 exG4) <> F0 /\
  good_bases ex_mkb "EdDSA_Verify.RAM" 762 (repeat exG 5) /\ good_bases ex_mkb "EdDSA_Verify.M" 762 (repeat exG 5) /\
  (forall h, eddsa_equation exG exG exG4 (4 + h) h) /\ ~ eddsa_equation exG exG exG4 0 0.
Proof.
  split; [exact exG_on|]. split; [exact exG4_on|]. split; [rewrite <- exG4_smul; apply exG_mul_notlow; split; reflexivity|].
  split; [apply ex_good; [split; [reflexivity|lia]|vm_compute; reflexivity|lia]|].
  split; [apply ex_good; [split; [reflexivity|lia]|vm_compute; reflexivity|lia]|].
  split.
  - intros h. unfold eddsa_equation. rewrite smul_add by exact exG_on. now rewrite exG4_smul.
  - unfold eddsa_equation. rewrite !smul_0, P_Curve.padd_0_r. intros H. apply (f_equal px) in H. apply (f_equal fval) in H. vm_compute in H. discriminate.
Qed.

(** ** C34: false; for every message and all base points of the prime-order subgroup there is a
    key and a nonce point with two satisfying assignments that use different challenges *)
Theorem C34_challenge_not_determined_refuted : forall mkb rbases M,
  good_bases mkb "EdDSA_Verify.RAM" (508 + List.length M) rbases -> Forall (fun P => P <> pzero /\ pzmul ord_L P = pzero) rbases ->
  let m := List.length M in let mv := var_array 1 m in let sv := var_array (1 + m) 256 in
  let A := {| vp_x := (257 + m)%nat; vp_y := (258 + m)%nat |} in let R := {| vp_x := (259 + m)%nat; vp_y := (260 + m)%nat |} in
  exists g n' cs, pure_eddsa_new mkb (mkpt jj_Gx jj_Gy) A R sv mv (261 + m) = Ok (g, n') /\ pure_eddsa_constraints g = Ok cs /\
  exists s1 s2 : assign, sat s1 cs /\ sat s2 cs /\ map s1 mv = map b2F M /\
    (forall v, In v ([vp_x A; vp_y A; vp_x R; vp_y R] ++ mv) -> s1 v = s2 v) /\
    map s1 (hram_result (pe_hash g)) <> map s2 (hram_result (pe_hash g)).
Proof. exact challenge_refuted_lemma. Qed.
Print Assumptions C34_challenge_not_determined_refuted.
Example C34_example : let M := repeat true 254 in
  good_bases ex_mkb "EdDSA_Verify.RAM" (508 + List.length M) (repeat exG 5) /\
  Forall (fun P => P <> pzero /\ pzmul ord_L P = pzero) (repeat exG 5).
Proof.
  cbn zeta. split.
  - apply ex_good; [split; [reflexivity|rewrite repeat_length; lia]|vm_compute; reflexivity|rewrite repeat_length; lia].
  - apply Forall_forall. intros P HP. apply repeat_spec in HP. subst P. split; [exact exG_nz|exact exG_times_L].
Qed.

(** ** C59 *)
Theorem C59_pure_eddsa_open : forall mkb B A R s msg rbases,
  on_curve B -> on_curve A -> on_curve R -> good_bases mkb "EdDSA_Verify.RAM" (508 + List.length msg) rbases ->
  forall rb ab hb, canonical rb (px R) -> canonical ab (px A) -> canonical hb (pedersen_x rbases (rb ++ ab ++ msg)) ->
  exists b, pure_eddsa_open mkb B A R s msg = Ok b /\
    (b = true <-> px (smul 8 R) <> F0 /\ eddsa_equation B A R (Z.to_N (fval s)) (bits_N hb)).
Proof. exact pure_eddsa_open_lemma. Qed.
Print Assumptions C59_pure_eddsa_open.
Theorem C59_eddsa_open : forall mkb B A R s msg mbases rbases,
  on_curve B -> on_curve A -> on_curve R ->
  good_bases mkb "EdDSA_Verify.M" (List.length msg) mbases -> good_bases mkb "EdDSA_Verify.RAM" 762 rbases ->
  forall mb rb ab hb, canonical mb (pedersen_x mbases msg) -> canonical rb (px R) -> canonical ab (px A) ->
  canonical hb (pedersen_x rbases (rb ++ ab ++ mb)) ->
  exists b, eddsa_open mkb B A R s msg = Ok b /\
    (b = true <-> px (smul 8 R) <> F0 /\ eddsa_equation B A R (Z.to_N (fval s)) (bits_N hb)).
Proof. exact eddsa_open_lemma. Qed.
Print Assumptions C59_eddsa_open.
Example C59_example : exists mb rb ab hb, canonical mb (pedersen_x (repeat exG 5) (repeat true 762)) /\ canonical rb (px exG4) /\ canonical ab (px exG) /\
  canonical hb (pedersen_x (repeat exG 5) (rb ++ ab ++ mb)) /\
  exists b, eddsa_open ex_mkb exG exG exG4 (Fof (4 + Z.of_N (bits_N hb))) (repeat true 762) = Ok b /\
    (b = true <-> eddsa_equation exG exG exG4 (Z.to_N (fval (Fof (4 + Z.of_N (bits_N hb))))) (bits_N hb)).
Proof.
  do 4 eexists. split; [apply P_Eddsa.canonical_bits|]. split; [apply P_Eddsa.canonical_bits|]. split; [apply P_Eddsa.canonical_bits|].
  split; [apply P_Eddsa.canonical_bits|]. destruct C33_example as (H1 & H2 & H3 & H4 & H5 & _).
  match goal with |- context [eddsa_open ex_mkb exG exG exG4 ?s _] => set (sc := s) end.
  assert (H5' : good_bases ex_mkb "EdDSA_Verify.M" (List.length (repeat true 762)) (repeat exG 5)) by (rewrite repeat_length; exact H5).
  destruct (C59_eddsa_open ex_mkb exG exG exG4 sc (repeat true 762) _ _ H1 H1 H2 H5' H4 _ _ _ _
     (P_Eddsa.canonical_bits _) (P_Eddsa.canonical_bits _) (P_Eddsa.canonical_bits _) (P_Eddsa.canonical_bits _)) as (b & E & Hb).
  exists b. split; [exact E|]. rewrite Hb. split; [intros [_ H]; exact H|intros H; split; [exact H3|exact H]].
Qed.
