(** The lemmas behind the properties of the JSON exporter, importer and verification entry points. *)
From Coq Require Import ZArith List Bool Arith Ascii String Lia.
From Coq Require Import Field Ring.
From Verif Require Import Primes Field FieldQ Base M_Bits M_Groth Spec_Groth M_Export Spec_Export P_Export P_JsonParser P_Export2 P_Export3 Q_Groth.
Import ListNotations.
Local Open Scope Z_scope.

Lemma g1_tree_value x y : g1_value (g1_tree x y) (Jac x y Q1).
Proof.
  exists (hex0x (qval x)), (hex0x (qval y)), (qval x), (qval y).
  split; [reflexivity|]. split; [apply hex_fq|]. split; [apply hex_fq|]. now rewrite !Qof_qval.
Qed.
Lemma g2_tree_value x y : g2_value (g2_tree x y) (Jac x y Q21).
Proof.
  exists (hex0x (qval (c1 x))), (hex0x (qval (c0 x))), (hex0x (qval (c1 y))), (hex0x (qval (c0 y))),
    (qval (c1 x)), (qval (c0 x)), (qval (c1 y)), (qval (c0 y)).
  split; [reflexivity|]. split; [apply hex_fq|]. split; [apply hex_fq|]. split; [apply hex_fq|]. split; [apply hex_fq|].
  rewrite !Qof_qval. destruct x, y. reflexivity.
Qed.
Lemma g1_value_fun t P Q : g1_value t P -> g1_value t Q -> P = Q.
Proof. intros H H'. apply create_G1_json_ok in H, H'. congruence. Qed.
Lemma g2_value_fun t P Q : g2_value t P -> g2_value t Q -> P = Q.
Proof. intros H H'. apply create_G2_json_ok in H, H'. congruence. Qed.

Lemma same1_affine P : jZ P <> Q0 -> same1 P (Jac (jX (to_affine1 P)) (jY (to_affine1 P)) Q1).
Proof. intros H. eexists. eexists. split; [now apply to_affine1_spec|apply affine1_one]. Qed.
Lemma handled_nz P : handled2 P -> jZ P <> Q20.
Proof.
  intros [->|[H _]] E; [exact (Q21_neq_0 E)|]. rewrite E in H. now apply H.
Qed.
Lemma printed2_affine P x y : handled2 P -> affine2 P x y -> jX (printed2 P) = x /\ jY (printed2 P) = y.
Proof.
  intros H A. unfold printed2. destruct H as [E|[H0 H1]].
  - rewrite E. cbn [Q21 c0 c1]. replace (negb (Qeqb Q1 Q0) && negb (Qeqb Q0 Q0)) with false by reflexivity. cbv iota.
    destruct A as (_ & X & Y). rewrite E in X, Y. rewrite X, Y. split; ring.
  - destruct (Qeqb_spec (c0 (jZ P)) Q0); [contradiction|]. destruct (Qeqb_spec (c1 (jZ P)) Q0); [contradiction|]. cbn [negb andb].
    apply (affine2_fun P); [|exact A]. apply to_affine2_spec. apply handled_nz. right. now split.
Qed.
Lemma same2_printed P : handled2 P -> same2 P (Jac (jX (printed2 P)) (jY (printed2 P)) Q21).
Proof.
  intros H. exists (jX (to_affine2 P)), (jY (to_affine2 P)).
  pose proof (to_affine2_spec P (handled_nz P H)) as A. destruct (printed2_affine P _ _ H A) as [-> ->].
  split; [exact A|apply affine2_one].
Qed.

(** ** C41 *)
Definition read_key (vk : VerificationKeyT) : VerificationKeyT :=
  MkVk (Jac (jX (to_affine1 (alpha_g1 vk))) (jY (to_affine1 (alpha_g1 vk))) Q1)
       (Jac (jX (printed2 (beta_g2 vk))) (jY (printed2 (beta_g2 vk))) Q21)
       (Jac (jX (printed2 (gamma_g2 vk))) (jY (printed2 (gamma_g2 vk))) Q21)
       (Jac (jX (printed2 (delta_g2 vk))) (jY (printed2 (delta_g2 vk))) Q21)
       (Jac (jX (to_affine1 (gamma_ABC_first vk))) (jY (to_affine1 (gamma_ABC_first vk))) Q1)
       (map (fun P => Jac (jX (to_affine1 P)) (jY (to_affine1 P)) Q1) (gamma_ABC_rest vk)).
Definition read_proof (pf : ProofT) : ProofT :=
  MkProof (Jac (jX (to_affine1 (g_A pf))) (jY (to_affine1 (g_A pf))) Q1)
          (Jac (jX (printed2 (g_B pf))) (jY (printed2 (g_B pf))) Q21)
          (Jac (jX (to_affine1 (g_C pf))) (jY (to_affine1 (g_C pf))) Q1).
Lemma g1_list_value l : Forall2 g1_value (map (fun Q => g1_tree (jX (to_affine1 Q)) (jY (to_affine1 Q))) l)
  (map (fun P => Jac (jX (to_affine1 P)) (jY (to_affine1 P)) Q1) l).
Proof. induction l; cbn [map]; constructor; [apply g1_tree_value|assumption]. Qed.
Lemma input_list_value l : Forall2 input_value (map (fun v : F => JStr (hex0x (fval v))) l) l.
Proof.
  induction l; cbn [map]; constructor; [|assumption]. exists (hex0x (fval a)), (fval a).
  split; [reflexivity|]. split; [apply hex_f|]. symmetry. exact (zof_zval a).
Qed.
Lemma key_tree_value vk : key_value (key_tree vk) (read_key vk).
Proof.
  do 6 eexists.
  split; [apply jkey_ok; reflexivity|]. split; [apply jkey_ok; reflexivity|]. split; [apply jkey_ok; reflexivity|].
  split; [apply jkey_ok; reflexivity|]. split; [apply jkey_ok; reflexivity|]. split; [constructor|].
  split; [apply g1_tree_value|]. split; [apply g2_tree_value|]. split; [apply g2_tree_value|]. split; [apply g2_tree_value|].
  exact (g1_list_value (gamma_ABC_first vk :: gamma_ABC_rest vk)).
Qed.
Lemma proof_tree_value pf input : proof_value (proof_tree pf input) input (read_proof pf).
Proof.
  do 5 eexists.
  split; [apply jkey_ok; reflexivity|]. split; [apply jkey_ok; reflexivity|]. split; [apply jkey_ok; reflexivity|].
  split; [apply jkey_ok; reflexivity|]. split; [constructor|].
  split; [apply g1_tree_value|]. split; [apply g2_tree_value|]. split; [apply g1_tree_value|].
  apply input_list_value.
Qed.
Lemma parse_key parse vk : conforming parse -> vk_from_json parse (vk2json vk) = Ok (read_key vk).
Proof.
  intros [C _]. unfold vk_from_json.
  pose proof (C _ _ [] [] (Forall_nil _) (Forall_nil _) (key_text vk)) as E. cbn [app] in E. rewrite app_nil_r in E.
  rewrite E. cbn [obind]. apply vk_from_tree_ok. apply key_tree_value.
Qed.
Lemma parse_proof parse pf input : conforming parse ->
  proof_from_json parse (proof_to_json pf input) = Ok (input, read_proof pf).
Proof.
  intros [C _]. unfold proof_from_json.
  pose proof (C _ _ [] [] (Forall_nil _) (Forall_nil _) (proof_text pf input)) as E. cbn [app] in E. rewrite app_nil_r in E.
  rewrite E. cbn [obind]. apply proof_from_tree_ok. apply proof_tree_value.
Qed.
Lemma key_round_trip : forall parse, conforming parse -> forall vk, exportable_key vk ->
  exists vk', vk_from_json parse (vk2json vk) = Ok vk' /\ same_key vk vk'.
Proof.
  intros parse C vk (A & B & G & D & F & R). exists (read_key vk). split; [now apply parse_key|].
  unfold same_key. cbn [read_key alpha_g1 beta_g2 gamma_g2 delta_g2 gamma_ABC_first gamma_ABC_rest].
  split; [now apply same1_affine|]. split; [now apply same2_printed|]. split; [now apply same2_printed|].
  split; [now apply same2_printed|]. split; [now apply same1_affine|].
  induction R; cbn [map]; constructor; [now apply same1_affine|assumption].
Qed.
Lemma proof_round_trip : forall parse, conforming parse -> forall pf input, exportable_proof pf ->
  exists pf', proof_from_json parse (proof_to_json pf input) = Ok (input, pf') /\ same_proof pf pf'.
Proof.
  intros parse C pf input (A & B & G). exists (read_proof pf). split; [now apply parse_proof|].
  split; [now apply same1_affine|]. split; [now apply same2_printed|now apply same1_affine].
Qed.
Lemma affine1_exact P : jZ P = Q1 -> Jac (jX (to_affine1 P)) (jY (to_affine1 P)) Q1 = P.
Proof.
  intros E. assert (NZ : jZ P <> Q0) by (rewrite E; exact Q1_neq_0).
  destruct (to_affine1_spec P NZ) as (_ & X & Y). rewrite E in X, Y. destruct P as [x y z]. cbn [jX jY jZ] in *. subst z.
  f_equal; [rewrite X at 2|rewrite Y at 2]; ring.
Qed.
Lemma affine2_exact P : jZ P = Q21 -> Jac (jX (printed2 P)) (jY (printed2 P)) Q21 = P.
Proof.
  intros E. assert (A : affine2 P (jX P) (jY P)).
  { split; [rewrite E; exact Q21_neq_0|]. rewrite E. split; ring. }
  destruct (printed2_affine P _ _ (or_introl E) A) as [-> ->]. destruct P as [x y z]. cbn [jX jY jZ] in *. congruence.
Qed.
Lemma affine_key_round_trip : forall parse, conforming parse -> forall vk,
  jZ (alpha_g1 vk) = Q1 -> jZ (beta_g2 vk) = Q21 -> jZ (gamma_g2 vk) = Q21 -> jZ (delta_g2 vk) = Q21 ->
  jZ (gamma_ABC_first vk) = Q1 -> Forall (fun P => jZ P = Q1) (gamma_ABC_rest vk) ->
  vk_from_json parse (vk2json vk) = Ok vk.
Proof.
  intros parse C vk A B G D H R. rewrite parse_key by exact C. f_equal. unfold read_key.
  rewrite !affine1_exact, !affine2_exact by assumption.
  replace (map (fun P => Jac (jX (to_affine1 P)) (jY (to_affine1 P)) Q1) (gamma_ABC_rest vk)) with (gamma_ABC_rest vk).
  { destruct vk. reflexivity. }
  induction R; cbn [map]; [reflexivity|]. rewrite affine1_exact by assumption. now rewrite <- IHR.
Qed.

Lemma affine_proof_round_trip : forall parse, conforming parse -> forall pf input,
  jZ (g_A pf) = Q1 -> jZ (g_B pf) = Q21 -> jZ (g_C pf) = Q1 ->
  proof_from_json parse (proof_to_json pf input) = Ok (input, pf).
Proof.
  intros parse C pf input A B D. rewrite parse_proof by exact C. do 2 f_equal. unfold read_proof.
  rewrite !affine1_exact, !affine2_exact by assumption. destruct pf. reflexivity.
Qed.

(** ** C42 *)
Definition g2_text (P : G2T) : text := "["%char :: outputPointG2AffineAsHex P ++ ["]"%char].
Definition g1_text (P : G1T) : text := "["%char :: outputPointG1AffineAsHex P ++ ["]"%char].
Lemma g2_reading P t Q : jtext t ("["%char :: outputPointG2AffineAsHex P ++ ["]"%char]) -> g2_value t Q ->
  Q = Jac (jX (printed2 P)) (jY (printed2 P)) Q21.
Proof.
  intros J V. rewrite (jtext_fun _ _ _ J (out2_text P)) in V. exact (g2_value_fun _ _ _ V (g2_tree_value _ _)).
Qed.
Lemma g2_normal : forall P x y, affine2 P x y -> handled2 P ->
  exists t, jtext t ("["%char :: outputPointG2AffineAsHex P ++ ["]"%char]) /\ g2_value t (Jac x y Q21).
Proof.
  intros P x y A H. destruct (printed2_affine P x y H A) as [<- <-].
  eexists. split; [apply out2_text|apply g2_tree_value].
Qed.
Lemma g2_exact : forall P x y, affine2 P x y ->
  ((exists t, jtext t ("["%char :: outputPointG2AffineAsHex P ++ ["]"%char]) /\ g2_value t (Jac x y Q21)) <->
   (c0 (jZ P) <> Q0 /\ c1 (jZ P) <> Q0) \/ (jX P = x /\ jY P = y)).
Proof.
  intros P x y A. split.
  - intros (t & J & V). pose proof (g2_reading P t _ J V) as E. injection E as EX EY.
    destruct (Qeq_dec (c0 (jZ P)) Q0) as [Z0|Z0]; [|destruct (Qeq_dec (c1 (jZ P)) Q0) as [Z1|Z1]; [|now left]].
    + right. unfold printed2 in EX, EY. rewrite (proj2 (Qeqb_true _ _) Z0) in EX, EY. cbn [negb andb] in EX, EY. now split.
    + right. unfold printed2 in EX, EY. rewrite (proj2 (Qeqb_true _ _) Z1) in EX, EY. rewrite andb_false_r in EX, EY. now split.
  - intros H. destruct (Qeq_dec (c0 (jZ P)) Q0) as [Z0|Z0]; [|destruct (Qeq_dec (c1 (jZ P)) Q0) as [Z1|Z1]].
    + destruct H as [[H _]|[HX HY]]; [contradiction|]. exists (g2_tree (jX (printed2 P)) (jY (printed2 P))).
      split; [apply out2_text|]. unfold printed2. rewrite (proj2 (Qeqb_true _ _) Z0). cbn [negb andb]. rewrite HX, HY. apply g2_tree_value.
    + destruct H as [[_ H]|[HX HY]]; [contradiction|]. exists (g2_tree (jX (printed2 P)) (jY (printed2 P))).
      split; [apply out2_text|]. unfold printed2. rewrite (proj2 (Qeqb_true _ _) Z1), andb_false_r. rewrite HX, HY. apply g2_tree_value.
    + apply g2_normal; [exact A|]. right. now split.
Qed.
(** a point that is not normalised is read back off the twist, unless Z^6 = 1 *)
Definition z6 (z : Fq2) : Fq2 := (z * z * z * (z * z * z))%Q2.
Lemma b2_nz : mkq2 (Qof 3) Q0 <> Q20.
Proof. intros E. apply (f_equal c0) in E. cbn [c0 Q20] in E. apply (f_equal qval) in E. vm_compute in E. discriminate. Qed.
Lemma g2_off_curve : forall P x y t Q, affine2 P x y -> curve2 x y ->
  c0 (jZ P) = Q0 \/ c1 (jZ P) = Q0 ->
  jtext t ("["%char :: outputPointG2AffineAsHex P ++ ["]"%char]) -> g2_value t Q ->
  (curve2 (jX Q) (jY Q) <-> (jZ P * jZ P * jZ P * (jZ P * jZ P * jZ P))%Q2 = Q21).
Proof.
  intros P x y t Q (_ & X & Y) Cv H J V. rewrite (g2_reading P t Q J V). cbn [jX jY].
  assert (EP : printed2 P = P).
  { unfold printed2. destruct H as [H|H]; rewrite (proj2 (Qeqb_true _ _) H); [reflexivity|]. now rewrite andb_false_r. }
  rewrite EP, X, Y. unfold curve2 in *. set (z := jZ P) in *. set (b := mkq2 (Qof 9) Q1) in *. set (three := mkq2 (Qof 3) Q0) in *.
  assert (E : (b * (y * (z * z * z) * (y * (z * z * z)) - x * (z * z) * (x * (z * z)) * (x * (z * z))) = three * (z * z * z * (z * z * z)))%Q2).
  { rewrite <- Cv. ring. }
  rewrite E. split.
  - intros K. transitivity ((three * (z * z * z * (z * z * z))) / three)%Q2; [field; exact b2_nz|]. rewrite K. field. exact b2_nz.
  - intros ->. ring.
Qed.
(** the generator of G2, with Z = 2 *)
Definition g2x : Fq2 := mkq2 (Qof 10857046999023057135944570762232829481370756359578518086990519993285655852781)
                             (Qof 11559732032986387107991004021392285783925812861821192530917403151452391805634).
Definition g2y : Fq2 := mkq2 (Qof 8495653923123431417604973247489272438418190587263600148770280649306958101930)
                             (Qof 4082367875863433681332203403145435568316851327593401208105741076214120093531).
Definition two2 : Fq2 := mkq2 (Qof 2) Q0.
Definition g2_twice : G2T := Jac (g2x * (two2 * two2))%Q2 (g2y * (two2 * two2 * two2))%Q2 two2.
Lemma g2_twice_affine : affine2 g2_twice g2x g2y.
Proof.
  split; [|split; reflexivity]. intros E. apply (f_equal (fun z => qval (c0 z))) in E. vm_compute in E. discriminate.
Qed.
Lemma g2_gen_curve : curve2 g2x g2y.
Proof. unfold curve2. apply Q2eqb_true. vm_compute. reflexivity. Qed.
Lemma g2_refuted : exists P x y, affine2 P x y /\ curve2 x y /\
  forall t, jtext t ("["%char :: outputPointG2AffineAsHex P ++ ["]"%char]) -> ~ g2_value t (Jac x y Q21).
Proof.
  exists g2_twice, g2x, g2y. split; [exact g2_twice_affine|]. split; [exact g2_gen_curve|].
  intros t J V. destruct (proj1 (g2_exact _ _ _ g2_twice_affine) (ex_intro _ t (conj J V))) as [[_ H]|[H _]].
  - now apply H.
  - apply (f_equal (fun z => qval (c0 z))) in H. vm_compute in H. discriminate.
Qed.

(** ** infinity *)
Lemma infinity_reading : forall P t Q, jZ P = Q0 ->
  jtext t ("["%char :: outputPointG1AffineAsHex P ++ ["]"%char]) -> g1_value t Q ->
  Q = Jac Q0 Q1 Q1 /\ ~ curve1 (jX Q) (jY Q).
Proof.
  intros P t Q Z J V. rewrite (jtext_fun _ _ _ J (out1_text P)) in V.
  pose proof (g1_value_fun _ _ _ V (g1_tree_value _ _)) as E. unfold to_affine1 in E.
  rewrite (proj2 (Qeqb_true _ _) Z) in E. cbn [jX jY] in E. split; [exact E|]. rewrite E. cbn [jX jY]. unfold curve1.
  intros K. apply (f_equal qval) in K. vm_compute in K. discriminate.
Qed.
Lemma infinity_refuted : exists P, jZ P = Q0 /\
  forall t Q, jtext t ("["%char :: outputPointG1AffineAsHex P ++ ["]"%char]) -> g1_value t Q ->
  jZ Q <> Q0 /\ ~ curve1 (jX Q) (jY Q).
Proof.
  exists (Jac Q0 Q1 Q0). split; [reflexivity|]. intros t Q J V.
  destruct (infinity_reading (Jac Q0 Q1 Q0) t Q eq_refl J V) as [E N]. split; [|exact N]. rewrite E. exact Q1_neq_0.
Qed.

(** ** aliases of public inputs *)
Lemma input_aliases : forall (x : F) k, 0 <= k -> fval x + k * p_mod < 2 ^ 256 ->
  exists s, denotes s (fval x + k * p_mod) /\ input_value (JStr s) x.
Proof.
  intros x k Hk Hlt. pose proof (zval_range prime_p_mod x) as R. fold (fval x) in R.
  assert (D : denotes (hex0x (fval x + k * p_mod)) (fval x + k * p_mod)) by (apply hex0x_denotes; nia).
  exists (hex0x (fval x + k * p_mod)). split; [exact D|].
  exists (hex0x (fval x + k * p_mod)), (fval x + k * p_mod). split; [reflexivity|]. split; [exact D|].
  apply fval_inj. rewrite fval_Fof, Z.mod_add by (vm_compute; discriminate). symmetry. apply Z.mod_small. exact R.
Qed.
Lemma canonical_refuted : exists s s' z z' x, denotes s z /\ denotes s' z' /\ z <> z' /\
  input_value (JStr s) x /\ input_value (JStr s') x.
Proof.
  destruct (input_aliases F1 0 ltac:(lia) ltac:(reflexivity)) as (s & D & V).
  destruct (input_aliases F1 1 ltac:(lia) ltac:(reflexivity)) as (s' & D' & V').
  exists s, s', (fval F1 + 0 * p_mod), (fval F1 + 1 * p_mod), F1.
  split; [exact D|]. split; [exact D'|]. split; [vm_compute; discriminate|]. split; assumption.
Qed.
