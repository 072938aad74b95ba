(** Circuit and input files, and the command-line tool: final lemmas. *)
From Coq Require Import List ZArith Bool Arith Ascii String Lia.
From Verif Require Import Primes Field Base R1CS R1CSFacts M_Circuit Spec_Circuit Q_Circuit Q_Circuit2 Q_Circuit3 M_Export M_Lexer M_Pinocchio Spec_Export Spec_Lexer P_Export P_Lexer P_Lexer2.
Import ListNotations.
Local Open Scope list_scope.
Local Open Scope nat_scope.

(** ** C83: wire numbers *)
Lemma wire_wraps d z rest st : written 10 d z -> no_digit_first rest ->
  parse_text_line (T "input " ++ d ++ rest) st = parseLine (LInput (Z.to_nat (if (z <? 2 ^ 64)%Z then z mod 2 ^ 32 else 2 ^ 32 - 1))) st.
Proof.
  intros H Hr. unfold parse_text_line, lex_line.
  assert (E : sscanf (T "input " ++ d ++ rest) (lits "input" ++ [DWs; DUint 32]) = Ok [VU (glibc_uint 32 false z)]).
  { unfold sscanf. rewrite c_str_app by (apply nonul_T; reflexivity). rewrite c_str_app by exact (written10_nonul d z H).
    cbn [T list_ascii_of_string lits map app]. do 5 rewrite s_lit. rewrite s_ws1 by apply (dig_stops d z), H.
    rewrite (s_uint 32 [] d z _ H (no_digit_stops _ Hr)). reflexivity. }
  rewrite E. change (T "input " ++ d ++ rest) with ("i"%char :: T "nput " ++ d ++ rest) at 1. cbn iota. change (Ascii.eqb "i" "#") with false. cbn iota. cbn [obind].
  unfold glibc_uint. destruct (z <? 2 ^ 64)%Z; reflexivity.
Qed.
Fixpoint dec_ok (s : text) : bool := match s with [] => true | c :: r => isdigit c && dec_ok r end.
Lemma written_snoc s : s <> [] -> Forall (fun c => (digit_value c < 10)%Z) s -> written 10 s (dec_value s).
Proof.
  intros Hs. induction s as [|c s IH] using rev_ind; [now destruct Hs|]. intros H. apply Forall_app in H. destruct H as [H Hc]. pose proof (Forall_inv Hc) as Hd. cbn beta in Hd.
  assert (D : digit 10 c (digit_value c)) by (apply digit_spec; [lia|]; now split).
  destruct s as [|a s].
  - cbn [app]. unfold dec_value. cbn [fold_left]. change (10 * 0 + digit_value c)%Z with (digit_value c). now constructor.
  - unfold dec_value. rewrite fold_left_app. cbn [fold_left]. apply w_more; [|exact D]. apply IH; [discriminate|exact H].
Qed.
Lemma written_dec s : s <> [] -> dec_ok s = true -> written 10 s (dec_value s).
Proof.
  intros Hs H. apply written_snoc; [exact Hs|]. clear Hs. induction s as [|c s IH]; [constructor|]. cbn [dec_ok] in H. apply andb_prop in H. destruct H as [H1 H2].
  constructor; [now apply isdigit_iff|now apply IH].
Qed.
Lemma wires_collide : exists d1 d2 z1 z2, written 10 d1 z1 /\ written 10 d2 z2 /\ z1 <> z2 /\
  forall st, parse_text_line (T "input " ++ d1) st = parse_text_line (T "input " ++ d2) st.
Proof.
  exists (T "4294967297"), (T "1"), 4294967297%Z, 1%Z.
  assert (W1 : written 10 (T "4294967297") 4294967297) by (apply (written_dec (T "4294967297")); [discriminate|reflexivity]).
  assert (W2 : written 10 (T "1") 1) by (apply (written_dec (T "1")); [discriminate|reflexivity]).
  split; [exact W1|]. split; [exact W2|]. split; [lia|]. intros st.
  pose proof (wire_wraps _ _ [] st W1 I) as X1. pose proof (wire_wraps _ _ [] st W2 I) as X2. rewrite app_nil_r in X1, X2. rewrite X1, X2. reflexivity.
Qed.
(** the rest of a wire list is dropped at a number that does not fit *)
Lemma list_dropped is rd : parse_text_line (T "pack in 1 <7 4294967296 8> out 1 <9>") (is, rd) = Ok (is ++ [Inst PACK F0 [7] [9] []], rd).
Proof. reflexivity. Qed.

(** ** C82: what the scanner writes *)
Definition infix (t s : text) : Prop := exists a b, s = a ++ t ++ b.
Lemma infix_refl s : infix s s. Proof. exists [], []. now rewrite app_nil_r. Qed.
Lemma infix_trans a b c : infix a b -> infix b c -> infix a c.
Proof. intros (x & y & ->) (u & v & ->). exists (u ++ x), (y ++ v). now rewrite !app_assoc. Qed.
Lemma infix_pre a s : infix s (a ++ s). Proof. exists a, []. now rewrite app_nil_r. Qed.
Lemma infix_post a s : infix s (s ++ a). Proof. exists [], a. reflexivity. Qed.
Lemma span_split p s : s = fst (span p s) ++ snd (span p s) /\ Forall (fun c => p c = true) (fst (span p s)).
Proof.
  induction s as [|c s IH]; [split; [reflexivity|constructor]|]. cbn [span]. destruct (p c) eqn:E.
  - destruct (span p s) as [a b]. cbn [fst snd app] in *. destruct IH as [IH1 IH2]. split; [now f_equal|now constructor].
  - split; [reflexivity|constructor].
Qed.
Lemma skip_suffix s : exists b, s = b ++ skip_space s /\ Forall space b.
Proof.
  induction s as [|c s IH]; [exists []; split; [reflexivity|constructor]|]. cbn [skip_space]. destruct (isspace c) eqn:E.
  - destruct IH as (b & IH & Hb). exists (c :: b). split; [cbn [app]; now f_equal|]. constructor; [now apply isspace_iff|exact Hb].
  - exists []. split; [reflexivity|constructor].
Qed.
Lemma sign_suffix s : exists b, s = b ++ snd (scan_sign s).
Proof.
  destruct s as [|c s]; [now exists []|]. cbn [scan_sign]. destruct (Ascii.eqb c "-"); [now exists [c]|]. destruct (Ascii.eqb c "+"); [now exists [c]|now exists []].
Qed.
Lemma c_str_pre s : exists r, s = c_str s ++ r.
Proof.
  induction s as [|c s (r & IH)]; [now exists []|]. cbn [c_str]. destruct (Ascii.eqb c "000"); [now exists (c :: s)|]. exists r. cbn [app]. now f_equal.
Qed.
(** the strings assigned are parts of the input *)
Lemma scan_infix f : forall s vs t, scan f s = Ok vs -> In (VS t) vs -> infix t s.
Proof.
  induction f as [|d f IH]; intros s vs t H Hi; [injection H as <-; destruct Hi|]. destruct d as [c| |bits|cap|p cap]; cbn [scan] in H.
  - destruct s as [|c' r]; [injection H as <-; destruct Hi|]. destruct (Ascii.eqb c c'); [|injection H as <-; destruct Hi].
    apply (infix_trans _ r); [now apply (IH r vs t)|]. apply (infix_pre [c']).
  - destruct (skip_suffix s) as (b & E & _). apply (infix_trans _ (skip_space s)); [now apply (IH _ vs t)|]. rewrite E at 2. apply infix_pre.
  - destruct (skip_suffix s) as (b & E & _). destruct (sign_suffix (skip_space s)) as (b' & E'). destruct (scan_sign (skip_space s)) as [neg s1]. cbn [snd] in E'.
    destruct (span_split isdigit s1) as [E1 _]. destruct (span isdigit s1) as [ds r]. cbn [fst snd] in E1.
    destruct ds as [|x ds]; [injection H as <-; destruct Hi|]. destruct (scan f r) as [vs'| | | |] eqn:Ef; try discriminate H. cbn [obind] in H. injection H as <-.
    destruct Hi as [Hi|Hi]; [discriminate Hi|]. apply (infix_trans _ r); [now apply (IH r vs' t)|]. rewrite E, E', E1. rewrite !app_assoc. apply infix_pre.
  - destruct (skip_suffix s) as (b & E & _). destruct (span_split (fun c => negb (isspace c)) (skip_space s)) as [E1 _].
    destruct (span (fun c => negb (isspace c)) (skip_space s)) as [t' r]. cbn [fst snd] in E1. unfold store in H. destruct t' as [|x t']; [injection H as <-; destruct Hi|].
    destruct (_ <=? cap); [|discriminate H]. destruct (scan f r) as [vs'| | | |] eqn:Ef; try discriminate H. cbn [obind] in H. injection H as <-.
    rewrite E, E1. destruct Hi as [Hi|Hi]; [injection Hi as <-; exists b, r; reflexivity|]. apply (infix_trans _ r); [now apply (IH r vs' t)|]. rewrite app_assoc. apply infix_pre.
  - destruct (span_split p s) as [E1 _]. destruct (span p s) as [t' r]. cbn [fst snd] in E1. unfold store in H. destruct t' as [|x t']; [injection H as <-; destruct Hi|].
    destruct (_ <=? cap); [|discriminate H]. destruct (scan f r) as [vs'| | | |] eqn:Ef; try discriminate H. cbn [obind] in H. injection H as <-.
    rewrite E1. destruct Hi as [Hi|Hi]; [injection Hi as <-; exists [], r; reflexivity|]. apply (infix_trans _ r); [now apply (IH r vs' t)|]. apply infix_pre.
Qed.
(** buffers larger than the rest of the line do not overflow *)
Definition cap_ok (n : nat) (d : dir) : Prop := match d with DStr cap | DSet _ cap => n < cap | _ => True end.
Lemma scan_safe f : forall s, Forall (cap_ok (List.length s)) f -> scan f s <> UB.
Proof.
  assert (M : forall n m f, m <= n -> Forall (cap_ok n) f -> Forall (cap_ok m) f).
  { intros n m g Hm H. eapply Forall_impl; [|exact H]. intros [c| |bits|cap|p cap]; cbn [cap_ok]; trivial; lia. }
  induction f as [|d f IH]; intros s H; [discriminate|]. inversion H as [|? ? Hd Hf]; subst. destruct d as [c| |bits|cap|p cap]; cbn [scan].
  - destruct s as [|c' r]; [discriminate|]. destruct (Ascii.eqb c c'); [|discriminate]. apply IH. apply (M (List.length (c' :: r))); [cbn; lia|exact Hf].
  - destruct (skip_suffix s) as (b & E & _). apply IH. apply (M (List.length s)); [rewrite E at 2; rewrite app_length; lia|exact Hf].
  - destruct (skip_suffix s) as (b & E & _). destruct (sign_suffix (skip_space s)) as (b' & E'). destruct (scan_sign (skip_space s)) as [neg s1]. cbn [snd] in E'.
    destruct (span_split isdigit s1) as [E1 _]. destruct (span isdigit s1) as [ds r]. cbn [fst snd] in E1.
    destruct ds as [|x ds]; [discriminate|]. assert (X : scan f r <> UB). { apply IH. apply (M (List.length s)); [|exact Hf]. rewrite E, E', E1, !app_length. lia. }
    now destruct (scan f r).
  - destruct (skip_suffix s) as (b & E & _). destruct (span_split (fun c => negb (isspace c)) (skip_space s)) as [E1 _].
    destruct (span (fun c => negb (isspace c)) (skip_space s)) as [t' r]. cbn [fst snd] in E1. unfold store. destruct t' as [|x t']; [discriminate|]. cbn [cap_ok] in Hd.
    rewrite E, E1, !app_length in Hd.
    replace (S (List.length (x :: t')) <=? cap) with true by (symmetry; apply Nat.leb_le; lia).
    assert (X : scan f r <> UB). { apply IH. apply (M (List.length s)); [|exact Hf]. rewrite E, E1, !app_length. lia. }
    now destruct (scan f r).
  - destruct (span_split p s) as [E1 _]. destruct (span p s) as [t' r]. cbn [fst snd] in E1. unfold store. destruct t' as [|x t']; [discriminate|]. cbn [cap_ok] in Hd.
    rewrite E1, !app_length in Hd.
    replace (S (List.length (x :: t')) <=? cap) with true by (symmetry; apply Nat.leb_le; lia).
    assert (X : scan f r <> UB). { apply IH. apply (M (List.length s)); [|exact Hf]. rewrite E1, !app_length. lia. }
    now destruct (scan f r).
Qed.
Lemma lits_ok n s f : Forall (cap_ok n) f -> Forall (cap_ok n) (lits s ++ f).
Proof. intros H. apply Forall_app2; [|exact H]. apply Forall_forall. intros d Hd. apply in_map_iff in Hd. destruct Hd as (c & <- & _). exact I. Qed.
Lemma decl_safe l s : sscanf l (lits s ++ [DWs; DUint 32]) <> UB.
Proof. apply scan_safe, lits_ok. repeat constructor. Qed.
Lemma c_str_length l : List.length (c_str l) <= List.length l.
Proof. destruct (c_str_pre l) as (r & E). rewrite E at 2. rewrite app_length. lia. Qed.
Lemma table_safe l : sscanf l (fmt_table (List.length l)) <> UB.
Proof.
  unfold sscanf, fmt_table. rewrite lits_cons. pose proof (c_str_length l) as L. destruct (c_str l) as [|c r]; [discriminate|]. cbn [scan].
  destruct (Ascii.eqb "t" c); [|discriminate]. apply scan_safe. cbn [List.length] in L.
  repeat (first [apply lits_ok | apply Forall_cons | apply Forall_app2 | apply Forall_nil]); cbn [cap_ok]; trivial; try lia; apply lits_ok; constructor.
Qed.
Lemma gate_safe l : ~ long_word l -> sscanf l (fmt_gate (List.length l)) <> UB.
Proof.
  intros Hl. unfold sscanf, fmt_gate. change ([DStr 200; DWs] ++ ?f) with (DStr 200 :: DWs :: f). cbn [scan].
  pose proof (c_str_length l) as L. destruct (c_str_pre l) as (z & Ez). destruct (skip_suffix (c_str l)) as (b & E & Hb).
  destruct (span_split (fun c => negb (isspace c)) (skip_space (c_str l))) as [E1 Ht].
  destruct (span (fun c => negb (isspace c)) (skip_space (c_str l))) as [t r]. cbn [fst snd] in E1, Ht. unfold store. destruct t as [|x t]; [discriminate|].
  destruct (S (List.length (x :: t)) <=? 200) eqn:El.
  - match goal with |- obind ?e _ <> UB => assert (X : e <> UB); [|now destruct e] end. apply (scan_safe (DWs :: _)).
    assert (L2 : List.length r < List.length l) by (rewrite Ez, E, E1, !app_length; cbn [List.length]; lia).
    repeat (first [apply lits_ok | apply Forall_cons | apply Forall_app2 | apply Forall_nil]); cbn [cap_ok]; trivial; try lia; apply lits_ok; constructor.
  - apply Nat.leb_gt in El. exfalso. apply Hl. exists b, (x :: t), (r ++ z). split; [rewrite Ez, E, E1 at 1; now rewrite <- !app_assoc|].
    split; [exact Hb|]. split; [|lia]. eapply Forall_impl; [|exact Ht]. intros c Hc Hs. apply isspace_iff in Hs. cbn beta in Hc. rewrite Hs in Hc. discriminate Hc.
Qed.
(** ** C82: numbers *)
Lemma digits_bound b s : (2 <= b <= 36)%Z -> Forall (fun c => (digit_value c < b)%Z) s -> forall a, (0 <= a)%Z ->
  (0 <= fold_left (fun a c => (b * a + digit_value c)%Z) s a < (a + 1) * b ^ Z.of_nat (List.length s))%Z.
Proof.
  intros Hb H. induction H as [|c s Hc Hs IH]; intros a Ha.
  - cbn [fold_left List.length]. change (Z.of_nat 0) with 0%Z. rewrite Z.pow_0_r. lia.
  - cbn [fold_left List.length]. rewrite Nat2Z.inj_succ, Z.pow_succ_r by lia. pose proof (digit_value_range c) as R.
    assert (P : (0 < b ^ Z.of_nat (List.length s))%Z) by (apply Z.pow_pos_nonneg; lia).
    assert (X : (0 <= b * a + digit_value c)%Z) by nia. specialize (IH _ X). nia.
Qed.
Lemma run_infix t l : infix t l -> Forall (fun c => (digit_value c < 16)%Z) t -> 64 < List.length t -> long_number l.
Proof.
  intros (a & b & ->) H Hl. exists a, t, b. split; [reflexivity|]. split; [|exact Hl]. eapply Forall_impl; [|exact H]. intros c Hc. cbn beta in Hc.
  exists (digit_value c). apply digit_spec; [lia|]. now split.
Qed.
Lemma big_digits b s : (2 <= b <= 16)%Z -> Forall (fun c => (digit_value c < b)%Z) s -> (2 ^ 256 <= fold_left (fun a c => (b * a + digit_value c)%Z) s 0)%Z -> 64 < List.length s.
Proof.
  intros Hb H Hv. destruct (Nat.lt_ge_cases 64 (List.length s)) as [L|L]; [exact L|]. exfalso.
  assert (X := digits_bound b s ltac:(lia) H 0%Z (Z.le_refl 0)). rewrite Z.mul_1_l in X.
  assert (Y : (b ^ Z.of_nat (List.length s) <= 16 ^ 64)%Z).
  { apply (Z.le_trans _ (16 ^ Z.of_nat (List.length s))); [apply Z.pow_le_mono_l; lia|apply Z.pow_le_mono_r; lia]. }
  change (16 ^ 64)%Z with (2 ^ 256)%Z in Y. lia.
Qed.
Lemma FieldT_safe t l : infix t l -> t <> [] -> ~ long_number l -> FieldT_of_string t <> UB.
Proof.
  intros Hi Ht Hn. unfold FieldT_of_string. destruct t as [|c t]; [now destruct Ht|]. destruct (forallb isdigit (c :: t)) eqn:E; [|discriminate]. cbn [oassert obind].
  destruct (dec_value (c :: t) <? 2 ^ 256)%Z eqn:El; [discriminate|]. apply Z.ltb_ge in El. exfalso. apply Hn.
  assert (D : Forall (fun c => (digit_value c < 10)%Z) (c :: t)).
  { apply Forall_forall. intros x Hx. apply isdigit_iff. now apply (proj1 (forallb_forall _ _) E). }
  apply (run_infix (c :: t)); [exact Hi| |apply (big_digits 10); [lia|exact D|exact El]]. eapply Forall_impl; [|exact D]. intros x Hx. cbn beta in Hx. lia.
Qed.
Lemma readTable_safe f : forall s l, infix s l -> ~ long_number l -> readTable_loop f s <> UB.
Proof.
  induction f as [|f IH]; intros s l Hi Hn; [discriminate|]. cbn [readTable_loop].
  destruct (skip_suffix s) as (b & E & _). destruct (span_split (fun c => negb (isspace c)) (skip_space s)) as [E1 _].
  destruct (span (fun c => negb (isspace c)) (skip_space s)) as [t r]. cbn [fst snd] in E1. destruct t as [|x t]; [discriminate|].
  assert (X : FieldT_of_string (x :: t) <> UB).
  { apply (FieldT_safe _ l); [|discriminate|exact Hn]. apply (infix_trans _ s); [|exact Hi]. rewrite E, E1. exists b, r. reflexivity. }
  destruct (FieldT_of_string (x :: t)); try discriminate; [|now destruct X]. cbn [obind].
  assert (Y : readTable_loop f r <> UB).
  { apply (IH r l); [|exact Hn]. apply (infix_trans _ s); [|exact Hi]. rewrite E, E1, app_assoc. apply infix_pre. }
  now destruct (readTable_loop f r).
Qed.
Lemma mpz_all s : Forall (fun c => isspace c = false) s -> forall a v, mpz_digits 16 s a = Some v ->
  Forall (fun c => (digit_value c < 16)%Z) s /\ v = fold_left (fun a c => (16 * a + digit_value c)%Z) s a.
Proof.
  induction 1 as [|c s Hc Hs IH]; intros a v H; cbn [mpz_digits] in H; [injection H as <-; split; [constructor|reflexivity]|]. rewrite Hc in H.
  destruct (digit_value c <? 16)%Z eqn:E; [|discriminate H]. apply IH in H. destruct H as [H1 H2]. split; [constructor; [now apply Z.ltb_lt|exact H1]|exact H2].
Qed.
Lemma hex_safe s l : Forall (fun c => isspace c = false) s -> infix s l -> ~ long_number l -> readFieldElementFromHex s <> UB.
Proof.
  intros Hs Hi Hn. unfold readFieldElementFromHex.
  assert (X : (- 2 ^ 256 < mpz_init_set_str16 s < 2 ^ 256)%Z).
  { unfold mpz_init_set_str16. rewrite skip_stop by (destruct s; [exact I|]; now apply (Forall_inv Hs)).
    cbv zeta. match goal with |- context [match ?m with (_, _) => _ end] => set (p := m) end.
    assert (Y : Forall (fun c => isspace c = false) (snd p) /\ infix (snd p) l).
    { subst p. destruct s as [|c r]; [split; assumption|]. destruct (Ascii.eqb c "-"); cbn [snd]; [|split; assumption]. inversion Hs; subst. split; [assumption|].
      apply (infix_trans _ (c :: r)); [apply (infix_pre [c])|exact Hi]. }
    destruct p as [neg s2]. cbn [snd] in Y. destruct Y as [Y1 Y2]. destruct s2 as [|c r]; [split; reflexivity|].
    destruct (digit_value c <? 16)%Z; [|split; reflexivity]. destruct (mpz_digits 16 (c :: r) 0) as [v|] eqn:Ev; [|split; reflexivity].
    apply (mpz_all _ Y1) in Ev. destruct Ev as [D ->].
    assert (B := digits_bound 16 (c :: r) ltac:(lia) D 0%Z (Z.le_refl 0)).
    destruct (Z.lt_ge_cases (fold_left (fun a c => (16 * a + digit_value c)%Z) (c :: r) 0%Z) (2 ^ 256)) as [L|L].
    - destruct neg; lia.
    - exfalso. apply Hn. apply (run_infix (c :: r)); [exact Y2|exact D|]. apply (big_digits 16); [lia|exact D|exact L]. }
  replace ((10 ^ 149 <=? mpz_init_set_str16 s) || (mpz_init_set_str16 s <=? - 10 ^ 148))%Z with false.
  - destruct (0 <=? mpz_init_set_str16 s)%Z; [|discriminate]. cbn [oassert obind].
    replace (mpz_init_set_str16 s <? 2 ^ 256)%Z with true by (symmetry; apply Z.ltb_lt; lia). discriminate.
  - symmetry. apply orb_false_iff. split; apply Z.leb_gt.
    + apply (Z.lt_trans _ (2 ^ 256)); [lia|reflexivity].
    + apply (Z.lt_trans _ (- 2 ^ 256)); [reflexivity|lia].
Qed.
Lemma skipn_infix n s : infix (skipn n s) s.
Proof. rewrite <- (firstn_skipn n s) at 2. apply infix_pre. Qed.
Lemma Forall_skipn {A} (P : A -> Prop) n l : Forall P l -> Forall P (skipn n l).
Proof. intros H. rewrite <- (firstn_skipn n l) in H. apply Forall_app in H. tauto. Qed.
Lemma gate_type_safe t l : Forall (fun c => isspace c = false) t -> infix t l -> ~ long_number l -> gate_type t <> UB.
Proof.
  intros Hs Hi Hn. unfold gate_type. repeat (match goal with |- (if text_eqb ?a ?b then _ else _) <> UB => destruct (text_eqb a b); [discriminate|] end).
  destruct (contains (T "const-mul-neg-") t).
  - assert (X : readFieldElementFromHex (skipn 14 t) <> UB) by (apply (hex_safe _ l); [now apply Forall_skipn|exact (infix_trans _ t _ (skipn_infix 14 t) Hi)|exact Hn]).
    now destruct (readFieldElementFromHex (skipn 14 t)).
  - destruct (contains (T "const-mul-") t); [|discriminate].
    assert (X : readFieldElementFromHex (skipn 10 t) <> UB) by (apply (hex_safe _ l); [now apply Forall_skipn|exact (infix_trans _ t _ (skipn_infix 10 t) Hi)|exact Hn]).
    now destruct (readFieldElementFromHex (skipn 10 t)).
Qed.
Lemma str_nospace cap f s t vs : scan (DStr cap :: f) s = Ok (VS t :: vs) -> Forall (fun c => isspace c = false) t.
Proof.
  cbn [scan]. destruct (span_split (fun c => negb (isspace c)) (skip_space s)) as [_ H]. destruct (span (fun c => negb (isspace c)) (skip_space s)) as [t' r]. cbn [fst] in H.
  unfold store. destruct t' as [|x t']; [discriminate|]. destruct (_ <=? cap); [|discriminate]. destruct (scan f r); try discriminate. cbn [obind]. intros [= <- _].
  eapply Forall_impl; [|exact H]. intros c Hc. now apply negb_true_iff in Hc.
Qed.
Lemma sscanf_infix l f vs t : sscanf l f = Ok vs -> In (VS t) vs -> infix t l.
Proof.
  intros H Hi. apply (infix_trans _ (c_str l)); [now apply (scan_infix f _ vs)|]. destruct (c_str_pre l) as (r & E). rewrite E at 2. apply infix_post.
Qed.
Lemma lex_safe l : ~ long_word l -> ~ long_number l -> lex_line l <> UB.
Proof.
  intros Hw Hn. unfold lex_line. destruct l as [|c0 l'] eqn:El; [discriminate|]. rewrite <- El in *. destruct (Ascii.eqb c0 "#"); [discriminate|].
  pose proof (decl_safe l "input") as X1. destruct (sscanf l (lits "input" ++ [DWs; DUint 32])) as [v1| | | |]; try discriminate; [|now destruct X1]. cbn [obind].
  pose proof (decl_safe l "nizkinput") as X2. pose proof (decl_safe l "output") as X3. pose proof (table_safe l) as X4. pose proof (gate_safe l Hw) as X5.
  match goal with |- (match v1 with [] => ?e | _ => _ end) <> UB => assert (R : e <> UB) end.
  { destruct (sscanf l (lits "nizkinput" ++ [DWs; DUint 32])) as [v2| | | |]; try discriminate; [|now destruct X2]. cbn [obind].
    match goal with |- (match v2 with [] => ?e | _ => _ end) <> UB => assert (R : e <> UB) end.
    { destruct (sscanf l (lits "output" ++ [DWs; DUint 32])) as [v3| | | |]; try discriminate; [|now destruct X3]. cbn [obind].
      match goal with |- (match v3 with [] => ?e | _ => _ end) <> UB => assert (R : e <> UB) end.
      { destruct (sscanf l (fmt_table (List.length l))) as [v4| | | |] eqn:E4; try discriminate; [|now destruct X4]. cbn [obind].
        match goal with |- (match v4 with [] => ?e | _ => _ end) <> UB => assert (R : e <> UB) end.
        { destruct (sscanf l (fmt_gate (List.length l))) as [v5| | | |] eqn:E5; try discriminate; [|now destruct X5]. cbn [obind].
          destruct v5 as [|[z|t] [|[n|s1] [|[z1|ins] [|[m|s2] [|[z2|outs] [|? ?]]]]]]; try discriminate.
          unfold lex_gate. destruct (negb _); [discriminate|]. destruct (negb _); [discriminate|].
          assert (Y : gate_type t <> UB).
          { apply (gate_type_safe t l); [|apply (sscanf_infix l _ _ t E5); now left|exact Hn]. unfold sscanf, fmt_gate in E5.
            change ([DStr 200; DWs] ++ ?f) with (DStr 200 :: DWs :: f) in E5. exact (str_nospace _ _ _ _ _ E5). }
          destruct (gate_type t) as [[[op c]|]| | | |]; try discriminate. now destruct Y. }
        destruct v4 as [|[n|t0] [|[z|t] [|[z1|ins] [|[z2|outs] [|? ?]]]]]; try exact R.
        unfold lex_table. destruct (negb _); [discriminate|]. destruct (negb _); [discriminate|]. destruct (_ || _); [discriminate|].
        assert (Y : readTable t <> UB) by (apply (readTable_safe _ t l); [apply (sscanf_infix l _ _ t E4); right; now left|exact Hn]).
        destruct (readTable t); try discriminate. now destruct Y. }
      destruct v3 as [|[z|t] [|? ?]]; (discriminate || exact R). }
    destruct v2 as [|[z|t] [|? ?]]; (discriminate || exact R). }
  destruct v1 as [|[z|t] [|? ?]]; (discriminate || exact R).
Qed.
Lemma parseLine_no_ub l st : parseLine l st <> UB.
Proof.
  destruct st as [is rd]. destruct l; cbn [parseLine]; try (destruct (varNew w rd); discriminate); try discriminate;
    repeat (match goal with |- (if ?b then _ else _) <> UB => destruct b; try discriminate end). destruct op; discriminate.
Qed.
Lemma fold_no_ub {A B} (f : A -> B -> outcome A) ls : (forall l a, In l ls -> f a l <> UB) -> forall o, o <> UB -> fold_left (fun o l => obind o (fun a => f a l)) ls o <> UB.
Proof.
  induction ls as [|l ls IH]; intros H o Ho; [exact Ho|]. cbn [fold_left]. apply IH; [intros; apply H; now right|]. destruct o; cbn [obind]; try discriminate; [|now destruct Ho].
  apply H. now left.
Qed.
Lemma circuit_safe f lines rd : Forall newline_free lines -> file_of lines f -> Forall (fun l => ~ long_word l /\ ~ long_number l) lines -> parseCircuit_file (Some f) rd <> UB.
Proof.
  intros Hf Hl Hs. unfold parseCircuit_file. rewrite (getlines_file lines f Hf Hl).
  assert (X : forall l, sscanf l (lits "total" ++ [DWs; DUint 64]) <> UB) by (intros l; apply scan_safe, lits_ok; repeat constructor).
  destruct (match lines with [] => ([], []) | l :: r => (l, r) end) as [l0 ls] eqn:E. specialize (X l0). destruct (sscanf l0 _) as [vs| | | |]; try discriminate; [|now destruct X].
  cbn [obind]. destruct vs as [|[z|t] [|? ?]]; try discriminate.
  apply (fold_no_ub (fun st l => parse_text_line l st)); [|discriminate]. intros l st Hi. unfold parse_text_line.
  assert (Y : In l lines) by (destruct lines; injection E as <- <-; [destruct Hi|now right]). rewrite Forall_forall in Hs. destruct (Hs l Y) as [S1 S2].
  pose proof (lex_safe l S1 S2) as Z. destruct (lex_line l) as [[x|]| | | |]; try discriminate; [apply parseLine_no_ub|now destruct Z].
Qed.
(** every line whose first word is long overflows the buffer *)
Lemma span_len p t r : Forall (fun c => p c = true) t -> List.length t <= List.length (fst (span p (t ++ r))).
Proof. induction 1 as [|c t Hc Ht IH]; [cbn; lia|]. cbn [app span]. rewrite Hc. destruct (span p (t ++ r)). cbn [fst List.length] in *. lia. Qed.
Lemma long_word_overflows c t rest st : 199 <= List.length t -> Forall (fun c => ~ space c /\ c <> "000"%char) (c :: t) -> ~ In c (T "#inot") ->
  parse_text_line ((c :: t) ++ rest) st = UB.
Proof.
  intros Hl Ht Hc. unfold parse_text_line. cbn [app]. rewrite lex_other by (repeat split; intros ->; apply Hc; cbn; tauto).
  unfold gate_part, sscanf, fmt_gate. change ([DStr 200; DWs] ++ ?f) with (DStr 200 :: DWs :: f).
  assert (N : Forall (fun c => negb (isspace c) = true) (c :: t)).
  { eapply Forall_impl; [|exact Ht]. intros a [Ha _]. destruct (isspace a) eqn:E; [|reflexivity]. destruct Ha. now apply isspace_iff. }
  change (c_str (c :: t ++ rest)) with (c_str ((c :: t) ++ rest)). rewrite c_str_app by (eapply Forall_impl; [|exact Ht]; intros a [_ Ha]; exact Ha).
  cbn [scan]. rewrite skip_stop by (cbn [app stops]; apply negb_true_iff; exact (Forall_inv N)).
  pose proof (span_len _ (c :: t) (c_str rest) N) as L. destruct (span (fun c => negb (isspace c)) ((c :: t) ++ c_str rest)) as [a b]. cbn [fst] in L.
  unfold store. cbn [List.length] in L. destruct a as [|x a]; [cbn [List.length] in L; lia|].
  replace (S (List.length (x :: a)) <=? 200) with false by (symmetry; apply Nat.leb_gt; cbn [List.length] in *; lia). reflexivity.
Qed.
Lemma circuit_overflows : exists f, parseCircuit_file (Some f) reader0 = UB.
Proof. exists (T "total 1" ++ nl ++ repeat "a"%char 200). vm_compute. reflexivity. Qed.

(** ** C84: the inputs file *)
Lemma double_separator d z s1 s2 rest rd : written 10 d z -> separator s1 -> separator s2 ->
  parse_input_line (d ++ s1 :: s2 :: rest) rd = UB.
Proof.
  intros Hd H1 H2. destruct (written10 d z Hd) as (c & t & E & _). unfold parse_input_line. destruct (d ++ s1 :: s2 :: rest) as [|x l] eqn:El; [subst d; discriminate El|].
  rewrite <- El. unfold sscanf at 1. change (s1 :: s2 :: rest) with ([s1; s2] ++ rest). rewrite !c_str_app; [|destruct H1 as [-> | ->], H2 as [-> | ->]; repeat constructor; discriminate|exact (written10_nonul d z Hd)].
  rewrite (s_uint 32 _ d z) by (first [exact Hd | destruct H1 as [-> | ->]; reflexivity]).
  cbn [scan]. pose proof (span_len is_sep [s1; s2] (c_str rest)) as L. destruct (span is_sep ([s1; s2] ++ c_str rest)) as [a b]. cbn [fst List.length] in L.
  specialize (L ltac:(destruct H1 as [-> | ->], H2 as [-> | ->]; repeat constructor)).
  destruct a as [|y a]; [cbn [List.length] in L; lia|]. unfold store. replace (S (List.length (y :: a)) <=? 2) with false by (symmetry; apply Nat.leb_gt; lia). reflexivity.
Qed.
Lemma mpz_bad s x : In x s -> isspace x = false -> (16 <= digit_value x)%Z -> forall a, mpz_digits 16 s a = None.
Proof.
  intros Hi Hx Hd. induction s as [|c s IH]; [destruct Hi|]. intros a. cbn [mpz_digits]. destruct Hi as [->|Hi].
  - rewrite Hx. now replace (digit_value x <? 16)%Z with false by (symmetry; apply Z.ltb_ge; lia).
  - destruct (isspace c); [now apply IH|]. destruct (digit_value c <? 16)%Z; [now apply IH|reflexivity].
Qed.
Lemma not_hex_zero d w c h rest x rd : wire_text d w -> separator c -> Forall (fun a => ~ space a /\ a <> "000"%char /\ a <> "="%char) h -> space_first rest ->
  In x h -> (forall n, ~ digit 16 x n) -> x <> "-"%char ->
  parse_input_line (d ++ c :: h ++ rest) rd = Ok (varSet w F0 rd).
Proof.
  intros (z & Hd & Hz & ->) Hc Hh Hr Hx Hn Hm. set (line := d ++ c :: h ++ rest).
  assert (H1 : h <> []) by (now destruct h).
  assert (N : Forall (fun a => isspace a = false) h).
  { eapply Forall_impl; [|exact Hh]. intros a (Ha & _). destruct (isspace a) eqn:E; [|reflexivity]. destruct Ha. now apply isspace_iff. }
  assert (S : sscanf line [DUint 32; DSet is_sep 2; DStr (List.length line)] = Ok [VU z; VS [c]; VS h]).
  { unfold sscanf, line at 2. rewrite c_str_app by exact (written10_nonul d z Hd). change (c :: h ++ rest) with ([c] ++ h ++ rest).
    rewrite c_str_app by (constructor; [destruct Hc as [-> | ->]; discriminate|constructor]).
    rewrite c_str_app by (eapply Forall_impl; [|exact Hh]; intros a (_ & Ha & _); exact Ha).
    rewrite (s_uint32 _ d z) by (first [assumption | destruct Hc as [-> | ->]; reflexivity]).
    rewrite s_set; [|discriminate|constructor; [destruct Hc as [-> | ->]; reflexivity|constructor]| |cbn; lia].
    - rewrite s_str; [reflexivity|exact H1|exact N|now apply space_stops|unfold line; rewrite app_length; cbn [List.length]; rewrite app_length; lia].
    - destruct h as [|a h]; [now destruct H1|]. cbn [app stops]. pose proof (Forall_inv Hh) as (A1 & _ & A3). pose proof (Forall_inv N) as A4. cbn beta in A4. unfold is_sep.
      rewrite eqb_neq by exact A3. rewrite eqb_neq; [reflexivity|]. intros ->. discriminate A4. }
  unfold parse_input_line. destruct line as [|a line'] eqn:El; [destruct d; discriminate El|]. rewrite <- El in *. rewrite S. cbn [obind].
  assert (M : mpz_init_set_str16 h = 0%Z).
  { assert (Dx : (16 <= digit_value x)%Z).
    { destruct (Z.lt_ge_cases (digit_value x) 16) as [L|L]; [|exact L]. exfalso. apply (Hn (digit_value x)). apply digit_spec; [lia|]. now split. }
    assert (Sx : isspace x = false) by (rewrite Forall_forall in N; now apply N).
    unfold mpz_init_set_str16. rewrite skip_stop by (destruct h; [exact I|]; now apply (Forall_inv N)). cbv zeta. clear S.
    destruct h as [|b h]; [now destruct H1|]. destruct (Ascii.eqb b "-") eqn:Eb.
    - apply Ascii.eqb_eq in Eb. subst b. destruct Hx as [<-|Hx]; [now destruct Hm|]. destruct h as [|e h]; [destruct Hx|].
      destruct (digit_value e <? 16)%Z; [|reflexivity]. now rewrite (mpz_bad (e :: h) x Hx Sx Dx).
    - destruct (digit_value b <? 16)%Z; [|reflexivity]. now rewrite (mpz_bad (b :: h) x Hx Sx Dx). }
  unfold readFieldElementFromHex. rewrite M. reflexivity.
Qed.
Lemma inputs_refuted : exists t rd, t = T "5 0x10" /\ parse_input_line t rd = Ok (varSet 5 F0 rd) /\ F0 <> Fof 16.
Proof.
  exists (T "5 0x10"), reader0. split; [reflexivity|]. split; [|intros E; apply (f_equal fval) in E; rewrite fval_Fof in E; discriminate E].
  apply (not_hex_zero (T "5") 5 " "%char (T "0x10") [] "x"%char).
  - exists 5%Z. split; [apply (written_dec (T "5")); [discriminate|reflexivity]|]. split; [lia|reflexivity].
  - now left.
  - repeat constructor; try discriminate; rewrite <- isspace_iff; discriminate.
  - exact I.
  - cbn. tauto.
  - intros n H. apply digit_spec in H; [|lia]. destruct H as [H _]. discriminate H.
  - discriminate.
Qed.
(** nothing else can go wrong in memory *)
Lemma input_safe l rd : ~ two_separators l -> ~ long_number l -> parse_input_line l rd <> UB.
Proof.
  intros Hs0 Hn. assert (Hs : forall s1 s2, separator s1 -> separator s2 -> ~ infix [s1; s2] l).
  { intros s1 s2 H1 H2 (a & b & E). apply Hs0. exists a, s1, s2, b. split; [exact E|now split]. } unfold parse_input_line. destruct l as [|x0 l0] eqn:El; [discriminate|]. rewrite <- El in *.
  assert (X : sscanf l [DUint 32; DSet is_sep 2; DStr (List.length l)] <> UB).
  { unfold sscanf. cbn [scan]. destruct (c_str_pre l) as (y & Ey). destruct (skip_suffix (c_str l)) as (b & E & _). destruct (sign_suffix (skip_space (c_str l))) as (b' & E').
    destruct (scan_sign (skip_space (c_str l))) as [neg s1]. cbn [snd] in E'. destruct (span_split isdigit s1) as [E1 _]. destruct (span isdigit s1) as [ds r]. cbn [fst snd] in E1.
    destruct ds as [|d ds]; [discriminate|]. destruct (span_split is_sep r) as [E2 F2]. destruct (span is_sep r) as [t r2]. cbn [fst snd] in E2, F2.
    unfold store at 1. destruct t as [|c1 [|c2 t]]; [discriminate|..].
    - change (2 <=? 2) with true. cbn [List.length]. cbn iota.
      destruct (skip_suffix r2) as (b3 & E3 & _). destruct (span_split (fun c => negb (isspace c)) (skip_space r2)) as [E4 _].
      destruct (span (fun c => negb (isspace c)) (skip_space r2)) as [v r3]. cbn [fst snd] in E4. unfold store. destruct v as [|v0 v]; [discriminate|].
      replace (S (List.length (v0 :: v)) <=? List.length l) with true; [discriminate|]. symmetry. apply Nat.leb_le. rewrite Ey, E, E', E1, E2, E3, E4, !app_length.
      cbn [List.length]. lia.
    - exfalso. apply (Hs c1 c2).
      + pose proof (Forall_inv F2) as Y. cbn beta in Y. unfold is_sep in Y. apply orb_prop in Y. destruct Y as [Y|Y]; apply Ascii.eqb_eq in Y; unfold separator; tauto.
      + pose proof (Forall_inv (Forall_inv_tail F2)) as Y. cbn beta in Y. unfold is_sep in Y. apply orb_prop in Y. destruct Y as [Y|Y]; apply Ascii.eqb_eq in Y; unfold separator; tauto.
      + exists (b ++ b' ++ d :: ds), (t ++ r2 ++ y). rewrite Ey, E, E', E1, E2. repeat (cbn [app]; rewrite <- ?app_assoc). reflexivity. }
  destruct (sscanf l _) as [vs| | | |] eqn:Es; try discriminate; [|now destruct X]. cbn [obind].
  destruct vs as [|[w|t0] [|[z|t1] [|[z2|v] [|? ?]]]]; try discriminate.
  assert (Y : readFieldElementFromHex v <> UB).
  { apply (hex_safe v l); [|apply (sscanf_infix l _ _ v Es); cbn; tauto|exact Hn].
    unfold sscanf in Es. cbn [scan] in Es. destruct (scan_sign (skip_space (c_str l))) as [neg s1]. destruct (span isdigit s1) as [ds r]. destruct ds; [discriminate Es|].
    destruct (span is_sep r) as [t r2]. unfold store at 1 in Es. destruct t; [discriminate Es|]. destruct (_ <=? 2); [|discriminate Es].
    destruct (span_split (fun c => negb (isspace c)) (skip_space r2)) as [_ Hv]. destruct (span (fun c => negb (isspace c)) (skip_space r2)) as [v' r3]. cbn [fst] in Hv.
    unfold store in Es. destruct v'; [discriminate Es|]. destruct (_ <=? List.length l); [|discriminate Es]. cbn [obind] in Es. injection Es as _ _ <-.
    eapply Forall_impl; [|exact Hv]. intros c Hc. now apply negb_true_iff in Hc. }
  destruct (readFieldElementFromHex v); try discriminate. now destruct Y.
Qed.
