(** A parser for the JSON texts of Spec_Export.v: the hypothesis "[parse] is a conforming parser" of the
    property theorems can be met, and a text has one reading. *)
From Coq Require Import ZArith List Bool Arith Ascii String Lia.
From Verif Require Import Primes Field FieldQ Base M_Groth Spec_Groth M_Export Spec_Export P_Export.
Import ListNotations.
Local Open Scope nat_scope.

Definition jspaceb (c : ascii) : bool := existsb (Ascii.eqb c) [" "; "009"; "010"; "013"]%char.
Definition plainb (c : ascii) : bool :=
  Nat.leb 32 (nat_of_ascii c) && Nat.ltb (nat_of_ascii c) 128 && negb (Ascii.eqb c quote) && negb (Ascii.eqb c "\").
Fixpoint skipws (s : text) : text :=
  match s with c :: r => if jspaceb c then skipws r else s | [] => [] end.
Fixpoint pstr (s : text) : option (text * text) :=
  match s with
  | [] => None
  | c :: r => if Ascii.eqb c quote then Some ([], r)
              else if plainb c then
                match pstr r with Some (k, r') => Some (c :: k, r') | None => None end
              else None
  end.
(** the rest of the text after a given character *)
Definition expect (c : ascii) (s : text) : option text :=
  match s with d :: r => if Ascii.eqb c d then Some r else None | [] => None end.
Fixpoint pval (fuel : nat) (s : text) : option (json * text) :=
  match fuel with
  | O => None
  | S f =>
      match expect quote s with
      | Some r => match pstr r with Some (k, r') => Some (JStr k, r') | None => None end
      | None =>
      match expect "[" s with
      | Some r =>
          match expect "]" (skipws r) with
          | Some r' => Some (JArr [], r')
          | None => match pelems f r with Some (l, r') => Some (JArr l, r') | None => None end
          end
      | None =>
      match expect "{" s with
      | Some r =>
          match expect "}" (skipws r) with
          | Some r' => Some (JObj [], r')
          | None => match pmems f r with Some (l, r') => Some (JObj l, r') | None => None end
          end
      | None => None
      end end end
  end
with pelems (fuel : nat) (s : text) : option (list json * text) :=
  match fuel with
  | O => None
  | S f =>
      match pval f (skipws s) with
      | Some (t, r) =>
          match expect "]" (skipws r) with
          | Some r' => Some ([t], r')
          | None =>
              match expect "," (skipws r) with
              | Some r' => match pelems f r' with Some (l, r'') => Some (t :: l, r'') | None => None end
              | None => None
              end
          end
      | None => None
      end
  end
with pmems (fuel : nat) (s : text) : option (list (text * json) * text) :=
  match fuel with
  | O => None
  | S f =>
      match expect quote (skipws s) with
      | Some r0 =>
      match pstr r0 with
      | Some (k, r1) =>
      match expect ":" (skipws r1) with
      | Some r2 =>
      match pval f (skipws r2) with
      | Some (t, r) =>
          match expect "}" (skipws r) with
          | Some r' => Some ([(k, t)], r')
          | None =>
              match expect "," (skipws r) with
              | Some r' => match pmems f r' with Some (l, r'') => Some ((k, t) :: l, r'') | None => None end
              | None => None
              end
          end
      | None => None end | None => None end | None => None end | None => None end
  end.
Definition parse0 (s : text) : outcome json :=
  match pval (List.length s) (skipws s) with
  | Some (t, r) => match skipws r with [] => Ok t | _ => Throw end
  | None => Throw
  end.

Lemma jspaceb_iff c : jspaceb c = true <-> jspace c.
Proof.
  unfold jspaceb, jspace. rewrite existsb_exists. split.
  - intros (x & I & E). apply Ascii.eqb_eq in E. now subst.
  - intros I. exists c. split; [exact I|apply Ascii.eqb_refl].
Qed.
Lemma plainb_ok c : plain c -> plainb c = true /\ Ascii.eqb c quote = false.
Proof.
  intros ([A B] & C & D). unfold plainb. apply Ascii.eqb_neq in C, D. rewrite C, D.
  rewrite (proj2 (Nat.leb_le _ _) A), (proj2 (Nat.ltb_lt _ _) B). split; reflexivity.
Qed.
Lemma skipws_app w s : ws w -> skipws (w ++ s) = skipws s.
Proof.
  intros H. induction H as [|c w Hc _ IH]; [reflexivity|]. cbn [app skipws]. apply jspaceb_iff in Hc. now rewrite Hc.
Qed.
Lemma skipws_ws w : ws w -> skipws w = [].
Proof. intros H. rewrite <- (app_nil_r w), skipws_app by exact H. reflexivity. Qed.
Lemma skipws_cons c s : jspaceb c = false -> skipws (c :: s) = c :: s.
Proof. intros H. cbn [skipws]. now rewrite H. Qed.
Lemma pstr_plain k r : Forall plain k -> pstr (k ++ quote :: r) = Some (k, r).
Proof.
  intros H. induction H as [|c k Hc _ IH]; cbn [app pstr].
  - rewrite Ascii.eqb_refl. reflexivity.
  - destruct (plainb_ok c Hc) as [A B]. now rewrite B, A, IH.
Qed.
Lemma expect_yes c r : expect c (c :: r) = Some r.
Proof. cbn [expect]. now rewrite Ascii.eqb_refl. Qed.
Lemma expect_no c d r : Ascii.eqb c d = false -> expect c (d :: r) = None.
Proof. intros H. cbn [expect]. now rewrite H. Qed.

Definition opener (c : ascii) : Prop := c = quote \/ c = "["%char \/ c = "{"%char.
Lemma jtext_head t s : jtext t s -> exists c r, s = c :: r /\ opener c.
Proof. intros H. destruct H; eexists; eexists; (split; [reflexivity|unfold opener; auto]). Qed.
Lemma opener_ok c : opener c -> jspaceb c = false /\ Ascii.eqb "]" c = false /\ Ascii.eqb "}" c = false.
Proof. intros [->|[->| ->]]; vm_compute; auto. Qed.
Lemma jtext_skip t s r : jtext t s -> skipws (s ++ r) = s ++ r.
Proof.
  intros H. destruct (jtext_head t s H) as (c & r' & -> & O). cbn [app]. apply skipws_cons. apply (opener_ok c O).
Qed.

Scheme jtext_mut := Minimality for jtext Sort Prop
  with jelems_mut := Minimality for jelems Sort Prop
  with jmems_mut := Minimality for jmems Sort Prop.
Combined Scheme jtext_all from jtext_mut, jelems_mut, jmems_mut.

Lemma jelems_skip l s r : jelems l s -> exists c s', skipws (s ++ r) = c :: s' /\ opener c.
Proof.
  intros H. destruct H as [t s a b Ha Hb Ht|t s a b l r' Ha Hb Ht _];
    rewrite <- !app_assoc, skipws_app by exact Ha; rewrite (jtext_skip t s _ Ht);
    destruct (jtext_head t s Ht) as (c & s' & -> & O); eexists; eexists; (split; [reflexivity|exact O]).
Qed.
Lemma jmems_skip l s r : jmems l s -> exists s', skipws (s ++ r) = quote :: s'.
Proof.
  intros H. destruct H as [k t s a b c d Ha|k t s a b c d l r' Ha];
    rewrite <- !app_assoc, skipws_app by exact Ha; eexists; reflexivity.
Qed.

Lemma parser_complete :
  (forall t s, jtext t s -> forall f r, List.length s <= f -> pval f (s ++ r) = Some (t, r)) /\
  (forall l s, jelems l s -> forall f r, S (List.length s) <= f -> pelems f (s ++ "]"%char :: r) = Some (l, r)) /\
  (forall l s, jmems l s -> forall f r, S (List.length s) <= f -> pmems f (s ++ "}"%char :: r) = Some (l, r)).
Proof.
  apply jtext_all.
  - intros s P f r L. cbn [List.length] in L. destruct f as [|f]; [lia|]. cbn [pval app].
    rewrite expect_yes, <- app_assoc. cbn [app]. now rewrite pstr_plain.
  - intros w W f r L. cbn [List.length] in L. destruct f as [|f]; [lia|]. cbn [pval app].
    rewrite expect_no by reflexivity. rewrite expect_yes, <- app_assoc. cbn [app].
    rewrite skipws_app by exact W. rewrite skipws_cons by reflexivity. now rewrite expect_yes.
  - intros l s J IH f r L. cbn [List.length] in L. rewrite app_length in L. cbn [List.length] in L.
    destruct f as [|f]; [lia|]. cbn [pval app]. rewrite expect_no by reflexivity. rewrite expect_yes, <- app_assoc. cbn [app].
    destruct (jelems_skip l s ("]"%char :: r) J) as (c & s' & E & O). rewrite E.
    rewrite (expect_no "]" c s') by apply (opener_ok c O). rewrite IH by lia. reflexivity.
  - intros w W f r L. cbn [List.length] in L. destruct f as [|f]; [lia|]. cbn [pval app].
    rewrite !expect_no by reflexivity. rewrite expect_yes, <- app_assoc. cbn [app].
    rewrite skipws_app by exact W. rewrite skipws_cons by reflexivity. now rewrite expect_yes.
  - intros l s ND J IH f r L. cbn [List.length] in L. rewrite app_length in L. cbn [List.length] in L.
    destruct f as [|f]; [lia|]. cbn [pval app]. rewrite !expect_no by reflexivity. rewrite expect_yes, <- app_assoc. cbn [app].
    destruct (jmems_skip l s ("}"%char :: r) J) as (s' & E). rewrite E.
    rewrite (expect_no "}" quote s') by reflexivity. rewrite IH by lia. reflexivity.
  - intros t s a b Ha Hb Ht IH f r L. rewrite !app_length in L. destruct f as [|f]; [lia|]. cbn [pelems].
    rewrite <- !app_assoc, skipws_app by exact Ha. rewrite (jtext_skip t s _ Ht). rewrite IH by lia.
    rewrite skipws_app by exact Hb. rewrite skipws_cons by reflexivity. now rewrite expect_yes.
  - intros t s a b l r' Ha Hb Ht IH Hl IHl f r L. rewrite !app_length in L. cbn [List.length] in L. destruct f as [|f]; [lia|]. cbn [pelems].
    rewrite <- !app_assoc, skipws_app by exact Ha. rewrite (jtext_skip t s _ Ht). rewrite IH by lia.
    rewrite skipws_app by exact Hb. cbn [app]. rewrite skipws_cons by reflexivity. rewrite expect_no by reflexivity.
    rewrite expect_yes. rewrite IHl by lia. reflexivity.
  - intros k t s a b c d Ha Hb Hc Hd Hk Ht IH f r L. rewrite !app_length in L. cbn [List.length] in L. rewrite !app_length in L. cbn [List.length] in L. rewrite !app_length in L. cbn [List.length] in L.
    rewrite !app_length in L.
    destruct f as [|f]; [lia|]. cbn [pmems].
    rewrite <- !app_assoc, skipws_app by exact Ha. cbn [app]. rewrite skipws_cons by reflexivity. rewrite expect_yes.
    rewrite <- !app_assoc. cbn [app]. rewrite pstr_plain by exact Hk.
    rewrite <- !app_assoc. rewrite skipws_app by exact Hb. cbn [app]. rewrite skipws_cons by reflexivity. rewrite expect_yes.
    rewrite <- !app_assoc. rewrite skipws_app by exact Hc. rewrite (jtext_skip t s _ Ht). rewrite IH by lia.
    rewrite skipws_app by exact Hd. rewrite skipws_cons by reflexivity. now rewrite expect_yes.
  - intros k t s a b c d l r' Ha Hb Hc Hd Hk Ht IH Hl IHl f r L. rewrite !app_length in L. cbn [List.length] in L. rewrite !app_length in L. cbn [List.length] in L. rewrite !app_length in L. cbn [List.length] in L.
    rewrite !app_length in L. cbn [List.length] in L.
    destruct f as [|f]; [lia|]. cbn [pmems].
    rewrite <- !app_assoc, skipws_app by exact Ha. cbn [app]. rewrite skipws_cons by reflexivity. rewrite expect_yes.
    rewrite <- !app_assoc. cbn [app]. rewrite pstr_plain by exact Hk.
    rewrite <- !app_assoc. rewrite skipws_app by exact Hb. cbn [app]. rewrite skipws_cons by reflexivity. rewrite expect_yes.
    rewrite <- !app_assoc. rewrite skipws_app by exact Hc. rewrite (jtext_skip t s _ Ht). rewrite IH by lia.
    rewrite skipws_app by exact Hd. cbn [app]. rewrite skipws_cons by reflexivity. rewrite expect_no by reflexivity.
    rewrite expect_yes. rewrite IHl by lia. reflexivity.
Qed.

Lemma parse0_conforming : conforming parse0.
Proof.
  split.
  - intros t s a b Ha Hb Ht. unfold parse0. rewrite skipws_app by exact Ha. rewrite (jtext_skip t s _ Ht).
    rewrite (proj1 parser_complete t s Ht) by (rewrite !app_length; lia).
    now rewrite (skipws_ws b Hb).
  - intros s. unfold parse0. destruct (pval (List.length s) (skipws s)) as [[t r]|]; [|now left].
    destruct (skipws r); [right; now exists t|now left].
Qed.
Lemma jtext_fun t t' s : jtext t s -> jtext t' s -> t = t'.
Proof.
  intros H H'. pose proof (proj1 parse0_conforming t s [] [] (Forall_nil _) (Forall_nil _) H) as E.
  rewrite (proj1 parse0_conforming t' s [] [] (Forall_nil _) (Forall_nil _) H') in E. congruence.
Qed.
