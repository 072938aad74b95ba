(** The lemmas behind the properties of the verification entry points. *)
From Coq Require Import ZArith List Bool Arith Ascii String Lia.
From Verif Require Import Primes Field FieldQ Base M_Bits M_Groth Spec_Groth M_Export Spec_Export P_Export P_JsonParser P_Export2 P_Export3 Q_Groth Q_Groth2 Q_Export.
Import ListNotations.
Local Open Scope Z_scope.

Lemma g1_value_affine t P : g1_value t P -> affine1 P (jX P) (jY P).
Proof. intros (a & b & c & d & _ & _ & _ & ->). cbn [jX jY]. apply affine1_one. Qed.
Lemma g2_value_affine t P : g2_value t P -> affine2 P (jX P) (jY P).
Proof. intros (a & b & c & d & e & f & g & h & _ & _ & _ & _ & _ & ->). cbn [jX jY]. apply affine2_one. Qed.

Lemma verify_pair_spec E S1 S2 e1 e2 : pairing_laws E S1 S2 -> represents E e1 e2 ->
  forall tv vk tp input pf, key_value tv vk -> proof_value tp input pf ->
  exists b, verify_pair E e1 e2 vk (input, pf) = Ok b /\ (b = true <-> accepted E e1 e2 vk input pf).
Proof.
  intros PL (R1 & R2 & _) tv vk tp input pf KV PV.
  destruct (strong_decides E S1 S2 PL (embed_vk E e1 e2 vk) input (embed_proof E e1 e2 pf)) as (b & Hb & Hiff).
  exists b. split; [exact Hb|]. rewrite Hiff. unfold accepted, embed_vk, embed_proof.
  cbn [vk_gamma_ABC_g1 vk_alpha_g1 vk_beta_g2 vk_gamma_g2 vk_delta_g2 pf_A pf_B pf_C fst snd]. rewrite map_length.
  destruct PV as (a & bb & c & i & l & _ & _ & _ & _ & _ & VA & VB & VC & _).
  rewrite (R1 _ _ _ (g1_value_affine _ _ VA)), (R2 _ _ _ (g2_value_affine _ _ VB)), (R1 _ _ _ (g1_value_affine _ _ VC)).
  tauto.
Qed.

Lemma both_spec parse E S1 S2 e1 e2 : pairing_laws E S1 S2 -> represents E e1 e2 -> forall v p,
  (vk <- vk_from_json parse v ;; q <- proof_from_json parse p ;; verify_pair E e1 e2 vk q) = Ok true <->
  valid_texts parse E e1 e2 v p.
Proof.
  intros PL R v p. unfold vk_from_json, proof_from_json, valid_texts. split.
  - intros H. apply bind_ok in H. destruct H as (vk & Hv & H). apply bind_ok in Hv. destruct Hv as (tv & Pv & Hv).
    apply bind_ok in H. destruct H as ([input pf] & Hp & H). apply bind_ok in Hp. destruct Hp as (tp & Pp & Hp).
    apply vk_from_tree_ok in Hv. apply proof_from_tree_ok in Hp.
    destruct (verify_pair_spec E S1 S2 e1 e2 PL R tv vk tp input pf Hv Hp) as (b & Hb & Hiff).
    exists tv, tp, vk, input, pf. split; [exact Pv|]. split; [exact Pp|]. split; [exact Hv|]. split; [exact Hp|].
    apply Hiff. congruence.
  - intros (tv & tp & vk & input & pf & Pv & Pp & Hv & Hp & Ha).
    destruct (verify_pair_spec E S1 S2 e1 e2 PL R tv vk tp input pf Hv Hp) as (b & Hb & Hiff).
    apply vk_from_tree_ok in Hv. apply proof_from_tree_ok in Hp.
    rewrite Pv. cbn [obind]. rewrite Hv. cbn [obind]. rewrite Pp. cbn [obind]. rewrite Hp. cbn [obind]. rewrite Hb.
    apply Hiff in Ha. now rewrite Ha.
Qed.
Lemma stub_verify_both parse E e1 e2 v p : stub_verify parse E e1 e2 v p =
  (vk <- vk_from_json parse (c_str v) ;; q <- proof_from_json parse (c_str p) ;; verify_pair E e1 e2 vk q).
Proof.
  unfold stub_verify. destruct (vk_from_json parse (c_str v)); try reflexivity. cbn [obind].
  destruct (proof_from_json parse (c_str p)); try reflexivity. cbn [obind].
  destruct (verify_pair E e1 e2 a a0) as [[|]| | | |]; reflexivity.
Qed.
Lemma stub_verify_lemma : forall parse E S1 S2 e1 e2, pairing_laws E S1 S2 -> represents E e1 e2 -> forall v p,
  stub_verify parse E e1 e2 v p = Ok true <->
  exists v' p', before_nul v v' /\ before_nul p p' /\ valid_texts parse E e1 e2 v' p'.
Proof.
  intros parse E S1 S2 e1 e2 PL R v p. rewrite stub_verify_both, (both_spec parse E S1 S2 e1 e2 PL R). split.
  - intros H. exists (c_str v), (c_str p). split; [apply before_nul_c_str|]. split; [apply before_nul_c_str|exact H].
  - intros (v' & p' & Bv & Bp & H). apply before_nul_eq in Bv, Bp. now subst.
Qed.
Lemma dll_lemma : forall parse E S1 S2 e1 e2, pairing_laws E S1 S2 -> represents E e1 e2 -> forall v p,
  ethsnarks_verify parse E e1 e2 v p = Ok true <->
  exists v' p', before_nul v v' /\ before_nul p p' /\ valid_texts parse E e1 e2 v' p'.
Proof. exact stub_verify_lemma. Qed.
Lemma argv_split (argv : list text) : (3 <= List.length argv)%nat ->
  exists a0 a1 a2 more, argv = a0 :: a1 :: a2 :: more.
Proof.
  destruct argv as [|a0 [|a1 [|a2 more]]]; cbn [List.length]; try lia. intros _. now exists a0, a1, a2, more.
Qed.
Lemma stub_main_lemma : forall parse E S1 S2 e1 e2, pairing_laws E S1 S2 -> represents E e1 e2 -> forall file argv,
  stub_main_verify parse E e1 e2 file argv = Ok 0 <->
  exists a0 a1 a2 more v p v' p', argv = a0 :: a1 :: a2 :: more /\ file a1 = Some v /\ file a2 = Some p /\
    before_nul v v' /\ before_nul p p' /\ valid_texts parse E e1 e2 v' p'.
Proof.
  intros parse E S1 S2 e1 e2 PL R file argv. unfold stub_main_verify. split.
  - destruct (Nat.ltb_spec (List.length argv) 3) as [|L]; [discriminate|].
    destruct (argv_split argv L) as (a0 & a1 & a2 & more & ->). cbn [idx nth_error obind].
    destruct (file a1) as [v|] eqn:F1; [|discriminate]. destruct (file a2) as [p|] eqn:F2; [|discriminate].
    intros H. apply bind_ok in H. destruct H as (b & Hb & H). destruct b; [|discriminate].
    apply (stub_verify_lemma parse E S1 S2 e1 e2 PL R) in Hb. destruct Hb as (v' & p' & Bv & Bp & V).
    exists a0, a1, a2, more, v, p, v', p'. tauto.
  - intros (a0 & a1 & a2 & more & v & p & v' & p' & -> & F1 & F2 & Bv & Bp & V).
    cbn [List.length]. change (Nat.ltb (S (S (S (List.length more)))) 3) with false. cbv iota. cbn [idx nth_error obind].
    rewrite F1, F2. rewrite (proj2 (stub_verify_lemma parse E S1 S2 e1 e2 PL R v p)) by (exists v', p'; auto). reflexivity.
Qed.
Lemma verify_main_lemma : forall parse E S1 S2 e1 e2, pairing_laws E S1 S2 -> represents E e1 e2 -> forall file stdin argv,
  verify_main parse E e1 e2 file stdin argv = Ok 0 <->
  exists a0 a1 a2 more v p, argv = a0 :: a1 :: a2 :: more /\
    ((a1 = T "-" /\ v = stdin) \/ (a1 <> T "-" /\ file a1 = Some v)) /\ file a2 = Some p /\
    valid_texts parse E e1 e2 v p.
Proof.
  intros parse E S1 S2 e1 e2 PL R file stdin argv. unfold verify_main. split.
  - destruct (Nat.ltb_spec (List.length argv) 3) as [|L]; [discriminate|].
    destruct (argv_split argv L) as (a0 & a1 & a2 & more & ->). cbn [idx nth_error obind].
    destruct (if text_eqb a1 (T "-") then Some stdin else file a1) as [v|] eqn:F1; [|discriminate].
    intros H. apply bind_ok in H. destruct H as (vk & Hv & H).
    destruct (file a2) as [p|] eqn:F2; [|discriminate].
    apply bind_ok in H. destruct H as (q & Hq & H). apply bind_ok in H. destruct H as (b & Hb & H). destruct b; [|discriminate].
    exists a0, a1, a2, more, v, p. split; [reflexivity|]. split.
    + unfold text_eqb in F1. destruct (list_eq_dec ascii_dec a1 (T "-")) as [Ea|Na]; [left|right]; (split; [assumption|congruence]).
    + split; [exact F2|]. apply (both_spec parse E S1 S2 e1 e2 PL R). rewrite Hv. cbn [obind]. rewrite Hq. exact Hb.
  - intros (a0 & a1 & a2 & more & v & p & -> & F1 & F2 & V).
    cbn [List.length]. change (Nat.ltb (S (S (S (List.length more)))) 3) with false. cbv iota. cbn [idx nth_error obind].
    replace (if text_eqb a1 (T "-") then Some stdin else file a1) with (Some v).
    2:{ unfold text_eqb. destruct (list_eq_dec ascii_dec a1 (T "-")) as [Ea|Na]; destruct F1 as [[F F']|[F F']]; congruence. }
    apply (both_spec parse E S1 S2 e1 e2 PL R) in V. apply bind_ok in V. destruct V as (vk & Hv & V). rewrite Hv. cbn [obind].
    rewrite F2. apply bind_ok in V. destruct V as (q & Hq & V). rewrite Hq. cbn [obind]. rewrite V. reflexivity.
Qed.

(** undefined behaviour: exactly for a key whose list of points is empty *)
Lemma stub_verify_ub : forall parse E S1 S2 e1 e2, conforming parse -> pairing_laws E S1 S2 -> represents E e1 e2 -> forall v p,
  stub_verify parse E e1 e2 v p = UB <->
  exists v' tv, before_nul v v' /\ parse v' = Ok tv /\ empty_key tv.
Proof.
  intros parse E S1 S2 e1 e2 [_ C] PL R v p. rewrite stub_verify_both. unfold vk_from_json, proof_from_json. split.
  - intros H. step H vk Hv.
    + step H tv Ht. { destruct (C (c_str v)) as [K|[t K]]; congruence. }
      apply vk_from_tree_ub in H. exists (c_str v), tv. split; [apply before_nul_c_str|]. now split.
    + exfalso. apply bind_ok in Hv. destruct Hv as (tv & Ht & Hv). step H q Hq.
      * step H tp Hp. { destruct (C (c_str p)) as [K|[t K]]; congruence. } exact (proof_from_tree_ub _ H).
      * apply bind_ok in Hq. destruct Hq as (tp & Hp & Hq). destruct q as [input pf].
        apply vk_from_tree_ok in Hv. apply proof_from_tree_ok in Hq.
        destruct (verify_pair_spec E S1 S2 e1 e2 PL R tv vk tp input pf Hv Hq) as (b & Hb & _). congruence.
  - intros (v' & tv & Bv & Pv & K). apply before_nul_eq in Bv. subst v'. rewrite Pv. cbn [obind].
    apply vk_from_tree_ub in K. rewrite K. reflexivity.
Qed.

(** a key with an empty list *)
Definition bad_key : text :=
  T "{" ++ quote :: T "alpha" ++ quote :: T ":[" ++ quote :: T "1" ++ quote :: T ", " ++ quote :: T "2" ++ quote :: T "]," ++
  quote :: T "beta" ++ quote :: T ":[[" ++ quote :: T "1" ++ quote :: T ", " ++ quote :: T "2" ++ quote :: T "],[" ++ quote :: T "1" ++ quote :: T ", " ++ quote :: T "2" ++ quote :: T "]]," ++
  quote :: T "gamma" ++ quote :: T ":[[" ++ quote :: T "1" ++ quote :: T ", " ++ quote :: T "2" ++ quote :: T "],[" ++ quote :: T "1" ++ quote :: T ", " ++ quote :: T "2" ++ quote :: T "]]," ++
  quote :: T "delta" ++ quote :: T ":[[" ++ quote :: T "1" ++ quote :: T ", " ++ quote :: T "2" ++ quote :: T "],[" ++ quote :: T "1" ++ quote :: T ", " ++ quote :: T "2" ++ quote :: T "]]," ++
  quote :: T "gammaABC" ++ quote :: T ":[]}".
Definition pair12 : json := JArr [JStr (T "1"); JStr (T "2")].
Definition bad_tree : json :=
  JObj [(T "alpha", pair12); (T "beta", JArr [pair12; pair12]); (T "gamma", JArr [pair12; pair12]);
        (T "delta", JArr [pair12; pair12]); (T "gammaABC", JArr [])].
Lemma bad_pair : jtext pair12 ("["%char :: quote :: T "1" ++ quote :: ","%char :: " "%char :: quote :: T "2" ++ [quote; "]"%char]).
Proof. apply pair_text; apply plain_T; reflexivity. Qed.
Lemma bad_pairs : exists s, jtext (JArr [pair12; pair12]) s /\
  s = T "[[" ++ quote :: T "1" ++ quote :: T ", " ++ quote :: T "2" ++ quote :: T "],[" ++ quote :: T "1" ++ quote :: T ", " ++ quote :: T "2" ++ quote :: T "]]".
Proof.
  eexists. split.
  - apply jt_arr. eapply je_cons with (a := []) (b := []); auto with wsdb; [exact bad_pair|].
    apply je_one with (a := []) (b := []); auto with wsdb. exact bad_pair.
  - reflexivity.
Qed.
Lemma bad_text : jtext bad_tree bad_key.
Proof.
  destruct bad_pairs as (s2 & J2 & E2). unfold bad_tree.
  match goal with |- jtext (JObj ?l) _ => assert (J : exists s, jmems l s /\ ("{"%char :: s ++ ["}"%char]) = bad_key) end.
  { eexists. split.
    - eapply (jm_cons' (T "alpha") _ _ [] [] [] []); auto with wsdb; [apply plain_T; reflexivity|exact bad_pair| ].
      eapply (jm_cons' (T "beta") _ _ [] [] [] []); auto with wsdb; [apply plain_T; reflexivity|exact J2| ].
      eapply (jm_cons' (T "gamma") _ _ [] [] [] []); auto with wsdb; [apply plain_T; reflexivity|exact J2| ].
      eapply (jm_cons' (T "delta") _ _ [] [] [] []); auto with wsdb; [apply plain_T; reflexivity|exact J2| ].
      eapply (jm_one' (T "gammaABC") _ _ [] [] [] []); auto with wsdb; [apply plain_T; reflexivity|apply (jt_arr0 []); apply ws_nil].
    - rewrite E2. reflexivity. }
  destruct J as (s & J & E). rewrite <- E. apply jt_obj; [|exact J]. cbn [map fst]. nodup.
Qed.
Lemma bad_empty : empty_key bad_tree.
Proof.
  apply vk_from_tree_ub. vm_compute. reflexivity.
Qed.
Lemma verify_refuted : exists v, forall parse E e1 e2, conforming parse -> forall p, stub_verify parse E e1 e2 v p = UB.
Proof.
  exists bad_key. intros parse E e1 e2 [C _] p. rewrite stub_verify_both. unfold vk_from_json.
  replace (c_str bad_key) with ([] ++ bad_key ++ []) by (rewrite app_nil_r; vm_compute; reflexivity).
  rewrite (C bad_tree) by (auto with wsdb; exact bad_text). cbn [obind].
  rewrite (proj2 (vk_from_tree_ub bad_tree) bad_empty). reflexivity.
Qed.

Definition nonul (c : ascii) : Prop := c <> "000"%char.
Lemma ws_nonul w : ws w -> Forall nonul w.
Proof.
  intros H. eapply Forall_impl; [|exact H]. intros c Hc. cbn [jspace In] in Hc. unfold nonul.
  destruct Hc as [<-|[<-|[<-|[<-|[]]]]]; discriminate.
Qed.
Lemma plain_nonul w : Forall plain w -> Forall nonul w.
Proof. intros H. eapply Forall_impl; [|exact H]. intros c ([A _] & _) ->. change (nat_of_ascii "000") with 0%nat in A. lia. Qed.
Lemma text_nonul :
  (forall t s, jtext t s -> Forall nonul s) /\ (forall l s, jelems l s -> Forall nonul s) /\ (forall l s, jmems l s -> Forall nonul s).
Proof.
  apply jtext_all; intros; repeat (apply Forall_cons; [discriminate|] || apply Forall_nil || (apply Forall_app; split));
    auto using ws_nonul, plain_nonul.
Qed.
(** an exported key and proof verify through the texts exactly as they do in memory *)
Lemma exported_verify : forall parse E e1 e2, conforming parse -> represents E e1 e2 ->
  forall vk pf input, exportable_key vk -> exportable_proof pf ->
  stub_verify parse E e1 e2 (vk2json vk) (proof_to_json pf input) =
  verifier_strong_IC E
    (VK E (e1 (alpha_g1 vk)) (e2 (beta_g2 vk)) (e2 (gamma_g2 vk)) (e2 (delta_g2 vk))
       (e1 (gamma_ABC_first vk), map e1 (gamma_ABC_rest vk)))
    input (Proof_ E (e1 (g_A pf)) (e2 (g_B pf)) (e1 (g_C pf))).
Proof.
  intros parse E e1 e2 C (_ & _ & R1 & R2) vk pf input (A & B & G & D & H & R) (PA & PB & PC). rewrite stub_verify_both.
  rewrite (c_str_id (vk2json vk)) by exact (proj1 text_nonul _ _ (key_text vk)).
  rewrite (c_str_id (proof_to_json pf input)) by exact (proj1 text_nonul _ _ (proof_text pf input)).
  rewrite parse_key, parse_proof by exact C. cbn [obind]. unfold verify_pair, embed_vk, embed_proof.
  cbn [fst snd read_key read_proof alpha_g1 beta_g2 gamma_g2 delta_g2 gamma_ABC_first gamma_ABC_rest g_A g_B g_C].
  rewrite <- (R1 _ _ (same1_affine _ A)), <- (R1 _ _ (same1_affine _ H)), <- (R1 _ _ (same1_affine _ PA)), <- (R1 _ _ (same1_affine _ PC)).
  rewrite <- (R2 _ _ (same2_printed _ B)), <- (R2 _ _ (same2_printed _ G)), <- (R2 _ _ (same2_printed _ D)), <- (R2 _ _ (same2_printed _ PB)).
  replace (map e1 (map (fun P => Jac (jX (to_affine1 P)) (jY (to_affine1 P)) Q1) (gamma_ABC_rest vk))) with (map e1 (gamma_ABC_rest vk)); [reflexivity|].
  rewrite map_map. clear -R R1. induction R; cbn [map]; [reflexivity|]. rewrite IHR, <- (R1 _ _ (same1_affine _ H)). reflexivity.
Qed.
