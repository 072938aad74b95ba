(** What the importer accepts. *)
From Coq Require Import ZArith List Bool Arith Ascii String Lia.
From Verif Require Import Primes Field FieldQ Base M_Bits M_Groth Spec_Groth M_Export Spec_Export P_Bits P_Export P_JsonParser P_Export2 Q_Groth.
Import ListNotations.
Local Open Scope Z_scope.

Lemma bind_ok {A B} (o : outcome A) (k : A -> outcome B) b :
  obind o k = Ok b <-> exists a, o = Ok a /\ k a = Ok b.
Proof.
  destruct o; cbn [obind]; (split; [intros H|intros (a' & E & H)]); try discriminate.
  - exists a. split; [reflexivity|exact H].
  - congruence.
Qed.
Lemma bind_ub {A B} (o : outcome A) (k : A -> outcome B) :
  obind o k = UB <-> (o = UB \/ exists a, o = Ok a /\ k a = UB).
Proof.
  destruct o; cbn [obind]; split; try (intros [H|(a' & E & H)]; congruence); try discriminate; intros H.
  - right. exists a. split; [reflexivity|exact H].
  - now left.
Qed.
Lemma assert_ok b u : oassert b = Ok u <-> b = true.
Proof. destruct u. destruct b; cbn [oassert]; split; congruence. Qed.
Lemma jstring_ok t s : jstring t = Ok s <-> t = JStr s.
Proof. destruct t; cbn [jstring]; split; congruence. Qed.
Lemma size2 t : jsize t = 2%nat -> (exists a b, t = JArr [a; b]) \/ (exists l, t = JObj l).
Proof.
  destruct t; cbn [jsize]; try discriminate.
  - destruct l as [|a [|b [|c l]]]; try discriminate. intros _. left. now exists a, b.
  - intros _. right. now exists l.
Qed.
Lemma parse_Fq_ok s x : parse_Fq s = Ok x <-> exists z, denotes s z /\ x = Qof z.
Proof. apply denotes_spec. Qed.
Lemma parse_F_ok s x : parse_FieldT s = Ok x <-> exists z, denotes s z /\ x = Fof z.
Proof. apply denotes_spec. Qed.

Lemma create_G1_json_ok t P : create_G1_json t = Ok P <-> g1_value t P.
Proof.
  unfold create_G1_json, g1_value. split.
  - intros H. apply bind_ok in H. destruct H as (u & Hs & H). apply assert_ok in Hs. apply Nat.eqb_eq in Hs.
    destruct (size2 t Hs) as [(a & b & ->)|(l & ->)]; [|discriminate].
    change (jidx (JArr [a; b]) 0) with (Ok a) in H. change (jidx (JArr [a; b]) 1) with (Ok b) in H. cbn [obind] in H.
    apply bind_ok in H. destruct H as (sx & Hx & H). apply bind_ok in H. destruct H as (sy & Hy & H).
    apply jstring_ok in Hx, Hy. subst. unfold create_G1 in H.
    apply bind_ok in H. destruct H as (x & Hx & H). apply bind_ok in H. destruct H as (y & Hy & H).
    apply parse_Fq_ok in Hx, Hy. destruct Hx as (zx & Dx & ->). destruct Hy as (zy & Dy & ->). injection H as <-.
    exists sx, sy, zx, zy. repeat split; assumption.
  - intros (sx & sy & x & y & -> & Dx & Dy & ->). cbn [jsize List.length Nat.eqb oassert obind jidx idx nth_error jstring].
    unfold create_G1. rewrite (proj2 (parse_Fq_ok sx (Qof x))) by (exists x; auto). cbn [obind].
    rewrite (proj2 (parse_Fq_ok sy (Qof y))) by (exists y; auto). reflexivity.
Qed.
Lemma create_G2_json_ok t P : create_G2_json t = Ok P <-> g2_value t P.
Proof.
  unfold create_G2_json, g2_value. split.
  - intros H. apply bind_ok in H. destruct H as (u & Hs & H). apply assert_ok in Hs. apply Nat.eqb_eq in Hs.
    destruct (size2 t Hs) as [(t0 & t1 & ->)|(l & ->)]; [|discriminate].
    change (jidx (JArr [t0; t1]) 0) with (Ok t0) in H. change (jidx (JArr [t0; t1]) 1) with (Ok t1) in H. cbn [obind] in H.
    apply bind_ok in H. destruct H as (u0 & Hs0 & H). apply assert_ok in Hs0. apply Nat.eqb_eq in Hs0.
    apply bind_ok in H. destruct H as (u1 & Hs1 & H). apply assert_ok in Hs1. apply Nat.eqb_eq in Hs1.
    destruct (size2 t0 Hs0) as [(a & b & ->)|(l & ->)]; [|discriminate].
    change (jidx (JArr [a; b]) 0) with (Ok a) in H. change (jidx (JArr [a; b]) 1) with (Ok b) in H. cbn [obind] in H.
    apply bind_ok in H. destruct H as (s1 & H1 & H). apply bind_ok in H. destruct H as (s2 & H2 & H).
    destruct (size2 t1 Hs1) as [(c & d & ->)|(l & ->)]; [|discriminate].
    change (jidx (JArr [c; d]) 0) with (Ok c) in H. change (jidx (JArr [c; d]) 1) with (Ok d) in H. cbn [obind] in H.
    apply bind_ok in H. destruct H as (s3 & H3 & H). apply bind_ok in H. destruct H as (s4 & H4 & H).
    apply jstring_ok in H1, H2, H3, H4. subst. unfold create_G2 in H.
    apply bind_ok in H. destruct H as (x0 & X0 & H). apply bind_ok in H. destruct H as (x1 & X1 & H).
    apply bind_ok in H. destruct H as (y0 & Y0 & H). apply bind_ok in H. destruct H as (y1 & Y1 & H).
    apply parse_Fq_ok in X0, X1, Y0, Y1. destruct X0 as (z1 & D1 & ->). destruct X1 as (z2 & D2 & ->).
    destruct Y0 as (z3 & D3 & ->). destruct Y1 as (z4 & D4 & ->). injection H as <-.
    exists s1, s2, s3, s4, z2, z1, z4, z3. split; [reflexivity|]. repeat (split; [assumption|]). reflexivity.
  - intros (s1 & s0 & s3 & s2 & x1 & x0 & y1 & y0 & -> & D1 & D0 & D3 & D2 & ->).
    cbn [jsize List.length Nat.eqb oassert obind jidx idx nth_error jstring]. unfold create_G2.
    rewrite (proj2 (parse_Fq_ok s0 (Qof x0))) by (exists x0; auto). cbn [obind].
    rewrite (proj2 (parse_Fq_ok s1 (Qof x1))) by (exists x1; auto). cbn [obind].
    rewrite (proj2 (parse_Fq_ok s2 (Qof y0))) by (exists y0; auto). cbn [obind].
    rewrite (proj2 (parse_Fq_ok s3 (Qof y1))) by (exists y1; auto). reflexivity.
Qed.
Lemma jfind_ok l k v : jfind l k = Ok v <-> exists l1 l2, l = l1 ++ (k, v) :: l2 /\ ~ In k (map fst l1).
Proof.
  induction l as [|[k' v'] l IH]; cbn [jfind].
  - split; [discriminate|]. intros ([|] & l2 & E & _); discriminate.
  - unfold text_eqb. destruct (list_eq_dec ascii_dec k k') as [->|N].
    + split.
      * intros E. injection E as ->. exists [], l. split; [reflexivity|intros []].
      * intros ([|[k1 v1] l1] & l2 & E & NI); cbn [app] in E.
        -- injection E as -> _. reflexivity.
        -- exfalso. injection E as -> _ _. apply NI. left. reflexivity.
    + rewrite IH. split.
      * intros (l1 & l2 & -> & NI). exists ((k', v') :: l1), l2. split; [reflexivity|].
        cbn [map fst]. intros [E|I]; [congruence|contradiction].
      * intros ([|[k1 v1] l1] & l2 & E & NI); cbn [app] in E.
        -- injection E as E _ _. congruence.
        -- injection E as _ _ E. exists l1, l2. split; [exact E|]. intros I. apply NI. now right.
Qed.
Lemma jkey_ok t k v : jkey t k = Ok v <-> member t k v.
Proof.
  unfold member. destruct t; cbn [jkey]; try (split; [discriminate|]; intros (l1 & l2 & E & _); discriminate).
  rewrite jfind_ok. split; intros (l1 & l2 & E & N); exists l1, l2; (split; [congruence|exact N]).
Qed.
Lemma omap_ok {A B} (f : A -> outcome B) (R : A -> B -> Prop) : (forall a b, f a = Ok b <-> R a b) ->
  forall l bs, omapM f l = Ok bs <-> Forall2 R l bs.
Proof.
  intros H l bs. rewrite omapM_Forall2. split; intros F; induction F; constructor; try (apply H; assumption); assumption.
Qed.
Lemma g1_not_obj l P : ~ g1_value (JObj l) P.
Proof. intros (a & b & c & d & E & _). discriminate. Qed.
Lemma create_G1_list_ok t Ps : Ps <> [] ->
  (create_G1_list t = Ok Ps <-> exists l, elements t l /\ Forall2 g1_value l Ps).
Proof.
  intros NE. unfold create_G1_list. rewrite (omap_ok _ g1_value create_G1_json_ok). split.
  - intros F. destruct t; cbn [jitems] in F.
    + inversion F; subst. congruence.
    + exfalso. inversion F as [|? ? ? ? V]; subst. destruct V as (? & ? & ? & ? & E & _). discriminate.
    + exfalso. inversion F as [|? ? ? ? V]; subst. destruct V as (? & ? & ? & ? & E & _). discriminate.
    + exfalso. inversion F as [|? ? ? ? V]; subst. destruct V as (? & ? & ? & ? & E & _). discriminate.
    + exists l. split; [constructor|exact F].
    + exists (map snd l). split; [constructor|exact F].
  - intros (l & El & F). destruct El; cbn [jitems]; exact F.
Qed.
Lemma create_G1_list_nil t : create_G1_list t = Ok [] <-> elements t [].
Proof.
  unfold create_G1_list. rewrite (omap_ok _ g1_value create_G1_json_ok). split.
  - intros F. inversion F as [E|]; subst. destruct t; cbn [jitems] in E; try discriminate.
    + constructor.
    + subst. constructor.
    + rewrite E. constructor.
  - intros El. inversion El as [l E1|l E1 E2| |]; subst; cbn [jitems]; try constructor. rewrite E2. constructor.
Qed.
Lemma create_F_list_ok t xs : create_F_list t = Ok xs <-> exists l, elements t l /\ Forall2 input_value l xs.
Proof.
  unfold create_F_list.
  assert (H : forall item x, (s <- jstring item ;; parse_FieldT s) = Ok x <-> input_value item x).
  { intros item x. rewrite bind_ok. unfold input_value. split.
    - intros (s & E & H). apply jstring_ok in E. apply parse_F_ok in H. destruct H as (z & D & ->).
      exists s, z. repeat split; assumption.
    - intros (s & z & E & D & ->). exists s. split; [now apply jstring_ok|]. apply parse_F_ok. exists z. auto. }
  rewrite (omap_ok _ input_value H). split.
  - intros F. destruct t; cbn [jitems] in F.
    + exists []. split; [constructor|exact F].
    + exfalso. inversion F as [|? ? ? ? V]; subst. destruct V as (? & ? & E & _). discriminate.
    + exfalso. inversion F as [|? ? ? ? V]; subst. destruct V as (? & ? & E & _). discriminate.
    + exists [JStr s]. split; [constructor|exact F].
    + exists l. split; [constructor|exact F].
    + exists (map snd l). split; [constructor|exact F].
  - intros (l & El & F). destruct El; cbn [jitems]; exact F.
Qed.
Lemma proof_from_tree_ok t input pf : proof_from_tree t = Ok (input, pf) <-> proof_value t input pf.
Proof.
  unfold proof_from_tree, proof_value. split.
  - intros H. apply bind_ok in H. destruct H as (a & Ka & H). apply bind_ok in H. destruct H as (A & VA & H).
    apply bind_ok in H. destruct H as (b & Kb & H). apply bind_ok in H. destruct H as (B & VB & H).
    apply bind_ok in H. destruct H as (c & Kc & H). apply bind_ok in H. destruct H as (C & VC & H).
    apply bind_ok in H. destruct H as (i & Ki & H). apply bind_ok in H. destruct H as (xs & VI & H).
    injection H as <- <-. apply jkey_ok in Ka, Kb, Kc, Ki. apply create_G1_json_ok in VA, VC. apply create_G2_json_ok in VB.
    apply create_F_list_ok in VI. destruct VI as (l & El & F). exists a, b, c, i, l. cbn [g_A g_B g_C]. tauto.
  - intros (a & b & c & i & l & Ka & Kb & Kc & Ki & El & VA & VB & VC & F).
    apply jkey_ok in Ka, Kb, Kc, Ki. apply create_G1_json_ok in VA, VC. apply create_G2_json_ok in VB.
    rewrite Ka. cbn [obind]. rewrite VA. cbn [obind]. rewrite Kb. cbn [obind]. rewrite VB. cbn [obind].
    rewrite Kc. cbn [obind]. rewrite VC. cbn [obind]. rewrite Ki. cbn [obind].
    rewrite (proj2 (create_F_list_ok i input)) by (exists l; auto). cbn [obind]. destruct pf; reflexivity.
Qed.
Lemma vk_from_tree_ok t vk : vk_from_tree t = Ok vk <-> key_value t vk.
Proof.
  unfold vk_from_tree, key_value. split.
  - intros H. apply bind_ok in H. destruct H as (g & Kg & H). apply bind_ok in H. destruct H as (ps & VG & H).
    apply bind_ok in H. destruct H as (a & Ka & H). apply bind_ok in H. destruct H as (A & VA & H).
    apply bind_ok in H. destruct H as (b & Kb & H). apply bind_ok in H. destruct H as (B & VB & H).
    apply bind_ok in H. destruct H as (c & Kc & H). apply bind_ok in H. destruct H as (C & VC & H).
    apply bind_ok in H. destruct H as (d & Kd & H). apply bind_ok in H. destruct H as (D & VD & H).
    destruct ps as [|f r]; [discriminate|]. injection H as <-.
    apply jkey_ok in Ka, Kb, Kc, Kd, Kg. apply create_G1_json_ok in VA. apply create_G2_json_ok in VB, VC, VD.
    apply create_G1_list_ok in VG; [|discriminate]. destruct VG as (l & El & F).
    exists a, b, c, d, g, l. cbn [alpha_g1 beta_g2 gamma_g2 delta_g2 gamma_ABC_first gamma_ABC_rest]. tauto.
  - intros (a & b & c & d & g & l & Ka & Kb & Kc & Kd & Kg & El & VA & VB & VC & VD & F).
    apply jkey_ok in Ka, Kb, Kc, Kd, Kg. apply create_G1_json_ok in VA. apply create_G2_json_ok in VB, VC, VD.
    rewrite Kg. cbn [obind]. rewrite (proj2 (create_G1_list_ok g (gamma_ABC_first vk :: gamma_ABC_rest vk) ltac:(discriminate))) by (exists l; auto). cbn [obind].
    rewrite Ka. cbn [obind]. rewrite VA. cbn [obind]. rewrite Kb. cbn [obind]. rewrite VB. cbn [obind].
    rewrite Kc. cbn [obind]. rewrite VC. cbn [obind]. rewrite Kd. cbn [obind]. rewrite VD. cbn [obind]. destruct vk; reflexivity.
Qed.

(** ** no other undefined behaviour *)
Lemma jstring_ub t : jstring t <> UB. Proof. destruct t; discriminate. Qed.
Lemma parse_ub m s : parse_bigint m s <> UB.
Proof. unfold parse_bigint. destruct (mpz_set_str (c_str s)) as [z|]; [|discriminate]. destruct ((0 <=? z) && (z <? 2 ^ 256)); discriminate. Qed.
Lemma assert_ub b : oassert b <> UB. Proof. destruct b; discriminate. Qed.
Lemma jfind_ub l k : jfind l k <> UB.
Proof. induction l as [|[k' v'] l IH]; cbn [jfind]; [discriminate|]. destruct (text_eqb k k'); [discriminate|exact IH]. Qed.
Lemma jkey_ub t k : jkey t k <> UB.
Proof. destruct t; cbn [jkey]; try discriminate. apply jfind_ub. Qed.
Lemma idx_ub t i : (i < 2)%nat -> jsize t = 2%nat -> jidx t i <> UB.
Proof.
  intros Hi Hs. destruct (size2 t Hs) as [(a & b & ->)|(l & ->)]; [|discriminate].
  destruct i as [|[|i]]; [discriminate|discriminate|lia].
Qed.
Ltac step H x Hx := apply bind_ub in H; destruct H as [H|(x & Hx & H)].
Lemma create_G1_json_ub t : create_G1_json t <> UB.
Proof.
  intros H. unfold create_G1_json in H. step H u Hs; [exact (assert_ub _ H)|]. apply assert_ok in Hs. apply Nat.eqb_eq in Hs.
  step H a Ha; [exact (idx_ub t 0 ltac:(lia) Hs H)|]. step H x Hx; [exact (jstring_ub _ H)|].
  step H b Hb; [exact (idx_ub t 1 ltac:(lia) Hs H)|]. step H y Hy; [exact (jstring_ub _ H)|].
  unfold create_G1 in H. step H u1 H1; [exact (parse_ub _ _ H)|]. step H u2 H2; [exact (parse_ub _ _ H)|]. discriminate.
Qed.
Lemma create_G2_json_ub t : create_G2_json t <> UB.
Proof.
  intros H. unfold create_G2_json in H. step H u Hs; [exact (assert_ub _ H)|]. apply assert_ok in Hs. apply Nat.eqb_eq in Hs.
  step H t0 Ht0; [exact (idx_ub t 0 ltac:(lia) Hs H)|].
  step H u0 Hs0; [exact (assert_ub _ H)|]. apply assert_ok in Hs0. apply Nat.eqb_eq in Hs0.
  step H t1 Ht1; [exact (idx_ub t 1 ltac:(lia) Hs H)|].
  step H u1 Hs1; [exact (assert_ub _ H)|]. apply assert_ok in Hs1. apply Nat.eqb_eq in Hs1.
  step H a Ha; [exact (idx_ub t0 0 ltac:(lia) Hs0 H)|]. step H x Hx; [exact (jstring_ub _ H)|].
  step H b Hb; [exact (idx_ub t0 1 ltac:(lia) Hs0 H)|]. step H y Hy; [exact (jstring_ub _ H)|].
  step H c Hc; [exact (idx_ub t1 0 ltac:(lia) Hs1 H)|]. step H z Hz; [exact (jstring_ub _ H)|].
  step H d Hd; [exact (idx_ub t1 1 ltac:(lia) Hs1 H)|]. step H w Hw; [exact (jstring_ub _ H)|].
  unfold create_G2 in H. step H v1 H1; [exact (parse_ub _ _ H)|]. step H v2 H2; [exact (parse_ub _ _ H)|].
  step H v3 H3; [exact (parse_ub _ _ H)|]. step H v4 H4; [exact (parse_ub _ _ H)|]. discriminate.
Qed.
Lemma omapM_noub {A B} (f : A -> outcome B) : (forall a, f a <> UB) -> forall l, omapM f l <> UB.
Proof.
  intros Hf l. induction l as [|a l IH]; cbn [omapM]; [discriminate|]. intros H.
  step H x Hx; [exact (Hf a H)|]. step H y Hy; [exact (IH H)|]. discriminate.
Qed.
Lemma proof_from_tree_ub t : proof_from_tree t <> UB.
Proof.
  intros H. unfold proof_from_tree in H.
  step H a Ha; [exact (jkey_ub _ _ H)|]. step H A HA; [exact (create_G1_json_ub _ H)|].
  step H b Hb; [exact (jkey_ub _ _ H)|]. step H B HB; [exact (create_G2_json_ub _ H)|].
  step H c Hc; [exact (jkey_ub _ _ H)|]. step H C HC; [exact (create_G1_json_ub _ H)|].
  step H i Hi; [exact (jkey_ub _ _ H)|]. step H x Hx.
  { revert H. apply omapM_noub. intros item E. step E s Es; [exact (jstring_ub _ E)|]. exact (parse_ub _ _ E). }
  discriminate.
Qed.
Lemma vk_from_tree_ub t : vk_from_tree t = UB <-> empty_key t.
Proof.
  unfold vk_from_tree, empty_key. split.
  - intros H. step H g Hg; [exfalso; exact (jkey_ub _ _ H)|].
    step H ps Hps. { exfalso. revert H. apply omapM_noub. exact create_G1_json_ub. }
    step H a Ha; [exfalso; exact (jkey_ub _ _ H)|]. step H A HA; [exfalso; exact (create_G1_json_ub _ H)|].
    step H b Hb; [exfalso; exact (jkey_ub _ _ H)|]. step H B HB; [exfalso; exact (create_G2_json_ub _ H)|].
    step H c Hc; [exfalso; exact (jkey_ub _ _ H)|]. step H C HC; [exfalso; exact (create_G2_json_ub _ H)|].
    step H d Hd; [exfalso; exact (jkey_ub _ _ H)|]. step H D HD; [exfalso; exact (create_G2_json_ub _ H)|].
    destruct ps; [|discriminate]. exists a, b, c, d, g, A, B, C, D.
    apply jkey_ok in Ha, Hb, Hc, Hd, Hg. apply create_G1_json_ok in HA. apply create_G2_json_ok in HB, HC, HD.
    apply create_G1_list_nil in Hps. tauto.
  - intros (a & b & c & d & g & A & B & C & D & Ka & Kb & Kc & Kd & Kg & VA & VB & VC & VD & El).
    apply jkey_ok in Ka, Kb, Kc, Kd, Kg. apply create_G1_json_ok in VA. apply create_G2_json_ok in VB, VC, VD.
    apply create_G1_list_nil in El. rewrite Kg. cbn [obind]. rewrite El. cbn [obind].
    rewrite Ka. cbn [obind]. rewrite VA. cbn [obind]. rewrite Kb. cbn [obind]. rewrite VB. cbn [obind].
    rewrite Kc. cbn [obind]. rewrite VC. cbn [obind]. rewrite Kd. cbn [obind]. rewrite VD. reflexivity.
Qed.
