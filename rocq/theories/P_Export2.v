(** The JSON values that the exported texts are, and the values that the importer accepts. *)
From Coq Require Import ZArith List Bool Arith Ascii String Lia.
From Verif Require Import Primes Field FieldQ Base M_Bits M_Groth Spec_Groth M_Export Spec_Export P_Export P_JsonParser.
Import ListNotations.
Local Open Scope Z_scope.

(** ** texts *)
Lemma ws_nil : ws []. Proof. constructor. Qed.
Lemma ws_sp : ws [" "%char]. Proof. constructor; [left; reflexivity|constructor]. Qed.
Lemma ws_sp2 : ws [" "; " "]%char. Proof. constructor; [left; reflexivity|apply ws_sp]. Qed.
Lemma ws_nl : ws nl. Proof. constructor; [right; right; left; reflexivity|constructor]. Qed.
Lemma ws_nlsp : ws ["010"; " "]%char. Proof. constructor; [right; right; left; reflexivity|apply ws_sp]. Qed.
#[global] Hint Resolve ws_nil ws_sp ws_sp2 ws_nl ws_nlsp : wsdb.

Lemma pair_text s1 s2 : Forall plain s1 -> Forall plain s2 ->
  jtext (JArr [JStr s1; JStr s2])
    ("["%char :: quote :: s1 ++ quote :: ","%char :: " "%char :: quote :: s2 ++ [quote; "]"%char]).
Proof.
  intros P1 P2.
  pose proof (jt_arr [JStr s1; JStr s2] ([] ++ (quote :: s1 ++ [quote]) ++ [] ++ ","%char :: ([" "%char] ++ (quote :: s2 ++ [quote]) ++ []))) as H.
  assert (J : jelems [JStr s1; JStr s2] ([] ++ (quote :: s1 ++ [quote]) ++ [] ++ ","%char :: ([" "%char] ++ (quote :: s2 ++ [quote]) ++ []))).
  { apply je_cons; auto with wsdb; [now constructor|]. apply je_one; auto with wsdb. now constructor. }
  specialize (H J). cbn [app] in H. rewrite ?app_nil_r in H. cbn [app] in H.
  rewrite <- ?app_assoc in H. cbn [app] in H. rewrite <- ?app_assoc in H. cbn [app] in H. exact H.
Qed.
Definition g1_tree (x y : Fq) : json := JArr [JStr (hex0x (qval x)); JStr (hex0x (qval y))].
Definition g2_tree (x y : Fq2) : json :=
  JArr [JArr [JStr (hex0x (qval (c1 x))); JStr (hex0x (qval (c0 x)))];
        JArr [JStr (hex0x (qval (c1 y))); JStr (hex0x (qval (c0 y)))]].
(** the coordinates that outputPointG2AffineAsHex prints *)
Definition printed2 (P : G2T) : G2T :=
  if negb (Qeqb (c0 (jZ P)) Q0) && negb (Qeqb (c1 (jZ P)) Q0) then to_affine2 P else P.
Lemma out1_text P : jtext (g1_tree (jX (to_affine1 P)) (jY (to_affine1 P)))
  ("["%char :: outputPointG1AffineAsHex P ++ ["]"%char]).
Proof.
  pose proof (pair_text _ _ (plain_0x (qval (jX (to_affine1 P)))) (plain_0x (qval (jY (to_affine1 P))))) as H.
  unfold outputPointG1AffineAsHex. unfold hex0x in H.
  cbn [T list_ascii_of_string app] in *. rewrite <- ?app_assoc in *. cbn [app] in *. rewrite <- ?app_assoc in *. cbn [app] in *. exact H.
Qed.
Lemma out2_text P : jtext (g2_tree (jX (printed2 P)) (jY (printed2 P)))
  ("["%char :: outputPointG2AffineAsHex P ++ ["]"%char]).
Proof.
  set (x := jX (printed2 P)). set (y := jY (printed2 P)).
  pose proof (pair_text _ _ (plain_0x (qval (c1 x))) (plain_0x (qval (c0 x)))) as HX.
  pose proof (pair_text _ _ (plain_0x (qval (c1 y))) (plain_0x (qval (c0 y)))) as HY.
  assert (J := je_cons _ _ [] [] _ _ ws_nil ws_nil HX (je_one _ _ ["010"; " "]%char [] ws_nlsp ws_nil HY)).
  apply jt_arr in J. unfold outputPointG2AffineAsHex. fold (printed2 P). cbv zeta. fold x. fold y.
  unfold hex0x in J. cbn [T nl list_ascii_of_string app] in *.
  repeat (rewrite <- ?app_assoc in J; cbn [app] in J). rewrite ?app_nil_r in J.
  repeat (rewrite <- ?app_assoc; cbn [app]). exact J.
Qed.
(** an array of point texts *)
Lemma abc_text P rest : jelems (map (fun Q => g1_tree (jX (to_affine1 Q)) (jY (to_affine1 Q))) (P :: rest))
  ("["%char :: outputPointG1AffineAsHex P ++ "]"%char :: abc_list rest).
Proof.
  revert P. induction rest as [|Q rest IH]; intros P; cbn [map abc_list].
  - pose proof (je_one _ _ [] [] ws_nil ws_nil (out1_text P)) as J. cbn [app] in J. rewrite app_nil_r in J. exact J.
  - pose proof (je_cons _ _ [] [] _ _ ws_nil ws_nil (out1_text P) (IH Q)) as J.
    cbn [app map] in J. rewrite <- !app_assoc in J. cbn [app] in J. cbn [T list_ascii_of_string app]. exact J.
Qed.
Lemma inputs_text x r : jelems (map (fun v : F => JStr (hex0x (fval v))) (x :: r)) (input_list (x :: r)).
Proof.
  revert x. induction r as [|y r IH]; intros x; cbn [map input_list].
  - pose proof (je_one _ _ [] [] ws_nil ws_nil (jt_str _ (plain_0x (fval x)))) as J.
    unfold hex0x in J. cbn [app] in J. rewrite app_nil_r in J. cbn [T list_ascii_of_string app]. exact J.
  - specialize (IH y). cbn [map] in IH.
    assert (JJ : jelems (JStr (hex0x (fval y)) :: map (fun v : F => JStr (hex0x (fval v))) r) (" "%char :: input_list (y :: r))).
    { clear -IH. remember (input_list (y :: r)) as s eqn:Es. clear Es.
      destruct r as [|z r]; cbn [map] in IH |- *.
      - inversion IH as [t s0 a b Ha Hb Ht E1 E2|t s0 a b l r0 Ha Hb Ht Hl E1 E2]; subst; [|inversion Hl].
        change (" "%char :: a ++ s0 ++ b) with ((" "%char :: a) ++ s0 ++ b). apply je_one; [constructor; [left; reflexivity|exact Ha]|exact Hb|exact Ht].
      - inversion IH as [|t s0 a b l r0 Ha Hb Ht Hl E1 E2]; subst.
        change (" "%char :: a ++ s0 ++ b ++ ","%char :: r0) with ((" "%char :: a) ++ s0 ++ b ++ ","%char :: r0).
        apply je_cons; [constructor; [left; reflexivity|exact Ha]|exact Hb|exact Ht|exact Hl]. }
    pose proof (je_cons _ _ [] [] _ _ ws_nil ws_nil (jt_str _ (plain_0x (fval x))) JJ) as J.
    unfold hex0x in J. cbn [app] in J. rewrite <- !app_assoc in J. cbn [app] in J.
    cbn [T list_ascii_of_string app]. exact J.
Qed.

Definition proof_tree (pf : ProofT) (input : list F) : json :=
  JObj [(T "A", g1_tree (jX (to_affine1 (g_A pf))) (jY (to_affine1 (g_A pf))));
        (T "B", g2_tree (jX (printed2 (g_B pf))) (jY (printed2 (g_B pf))));
        (T "C", g1_tree (jX (to_affine1 (g_C pf))) (jY (to_affine1 (g_C pf))));
        (T "input", JArr (map (fun v : F => JStr (hex0x (fval v))) input))].
Definition key_tree (vk : VerificationKeyT) : json :=
  JObj [(T "alpha", g1_tree (jX (to_affine1 (alpha_g1 vk))) (jY (to_affine1 (alpha_g1 vk))));
        (T "beta", g2_tree (jX (printed2 (beta_g2 vk))) (jY (printed2 (beta_g2 vk))));
        (T "gamma", g2_tree (jX (printed2 (gamma_g2 vk))) (jY (printed2 (gamma_g2 vk))));
        (T "delta", g2_tree (jX (printed2 (delta_g2 vk))) (jY (printed2 (delta_g2 vk))));
        (T "gammaABC", JArr (map (fun Q => g1_tree (jX (to_affine1 Q)) (jY (to_affine1 Q))) (gamma_ABC_first vk :: gamma_ABC_rest vk)))].

Lemma plain_T s : forallb plainb (T s) = true -> Forall plain (T s).
Proof.
  intros H. apply Forall_forall. intros c I. rewrite forallb_forall in H. specialize (H c I).
  unfold plainb in H. rewrite !andb_true_iff, !negb_true_iff in H. destruct H as (((A & B) & C) & D).
  apply Nat.leb_le in A. apply Nat.ltb_lt in B. apply Ascii.eqb_neq in C, D. repeat split; try assumption; lia.
Qed.
Lemma jm_cons' k t s a b c d l r x : ws a -> ws b -> ws c -> ws d -> Forall plain k -> jtext t s -> jmems l r ->
  x = (a ++ quote :: k ++ quote :: b ++ ":"%char :: c ++ s ++ d ++ ","%char :: r) -> jmems ((k, t) :: l) x.
Proof. intros. subst. now apply jm_cons. Qed.
Lemma jm_one' k t s a b c d x : ws a -> ws b -> ws c -> ws d -> Forall plain k -> jtext t s ->
  x = (a ++ quote :: k ++ quote :: b ++ ":"%char :: c ++ s ++ d) -> jmems [(k, t)] x.
Proof. intros. subst. now apply jm_one. Qed.
Ltac nodup := repeat (apply NoDup_cons; [intros I; cbn [In] in I; repeat (destruct I as [I|I]; [discriminate|]); exact I|]); apply NoDup_nil.

Lemma input_arr_text input : jtext (JArr (map (fun v : F => JStr (hex0x (fval v))) input)) ("["%char :: input_list input ++ ["]"%char]).
Proof.
  destruct input as [|x r].
  - apply (jt_arr0 []). apply ws_nil.
  - apply jt_arr. apply inputs_text.
Qed.
Lemma abc_arr_text P rest : jtext (JArr (map (fun Q => g1_tree (jX (to_affine1 Q)) (jY (to_affine1 Q))) (P :: rest)))
  ("["%char :: ("["%char :: outputPointG1AffineAsHex P ++ "]"%char :: abc_list rest) ++ ["]"%char]).
Proof. apply jt_arr. apply abc_text. Qed.

Ltac txt := cbn [T nl list_ascii_of_string app]; repeat (rewrite <- ?app_assoc; cbn [app]); reflexivity.

Lemma proof_text pf input : jtext (proof_tree pf input) (proof_to_json pf input).
Proof.
  unfold proof_to_json, proof_tree.
  match goal with |- jtext (JObj ?l) _ => assert (J : exists s, jmems l s /\
     ("{"%char :: s ++ ["}"%char]) = proof_to_json pf input) end.
  { eexists. split.
    - eapply (jm_cons' (T "A") _ _ ["010"; " "]%char [" "%char] [] []); auto with wsdb; [apply plain_T; reflexivity|apply out1_text| ].
      eapply (jm_cons' (T "B") _ _ ["010"; " "]%char [" "; " "]%char [] []); auto with wsdb; [apply plain_T; reflexivity|apply out2_text| ].
      eapply (jm_cons' (T "C") _ _ ["010"; " "]%char [" "; " "]%char [] []); auto with wsdb; [apply plain_T; reflexivity|apply out1_text| ].
      eapply (jm_one' (T "input") _ _ ["010"; " "]%char [" "]%char [] nl); auto with wsdb. all: try (apply plain_T; reflexivity). all: try apply input_arr_text.
    - unfold proof_to_json. txt. }
  destruct J as (s & J & E). fold (proof_to_json pf input). rewrite <- E. apply jt_obj; [|exact J].
  cbn [map fst]. nodup.
Qed.
Lemma key_text vk : jtext (key_tree vk) (vk2json vk).
Proof.
  unfold key_tree.
  match goal with |- jtext (JObj ?l) _ => assert (J : exists s, jmems l s /\
     ("{"%char :: s ++ ["}"%char]) = vk2json vk) end.
  { eexists. split.
    - eapply (jm_cons' (T "alpha") _ _ ["010"; " "]%char [" "%char] [] []); auto with wsdb; [apply plain_T; reflexivity|apply out1_text| ].
      eapply (jm_cons' (T "beta") _ _ ["010"; " "]%char [" "; " "]%char [] []); auto with wsdb; [apply plain_T; reflexivity|apply out2_text| ].
      eapply (jm_cons' (T "gamma") _ _ ["010"; " "]%char [" "]%char [] []); auto with wsdb; [apply plain_T; reflexivity|apply out2_text| ].
      eapply (jm_cons' (T "delta") _ _ ["010"; " "]%char [" "]%char [] []); auto with wsdb; [apply plain_T; reflexivity|apply out2_text| ].
      eapply (jm_one' (T "gammaABC") _ _ nl [" "]%char [] []); auto with wsdb. all: try (apply plain_T; reflexivity). all: try apply abc_arr_text.
    - unfold vk2json. txt. }
  destruct J as (s & J & E). rewrite <- E. apply jt_obj; [|exact J].
  cbn [map fst]. nodup.
Qed.
