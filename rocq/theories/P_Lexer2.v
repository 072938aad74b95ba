(** The lines of a circuit file are recognised for what they say. *)
From Coq Require Import List ZArith Bool Arith Ascii String Lia.
From Verif Require Import Primes Field Base R1CS M_Circuit M_Export M_Lexer Spec_Export Spec_Lexer P_Export P_Lexer.
Import ListNotations.
Local Open Scope list_scope.
Local Open Scope nat_scope.

Lemma nonul_T s : forallb (fun c => negb (Ascii.eqb c "000")) (T s) = true -> Forall nonul (T s).
Proof. intros H. apply Forall_forall. intros c Hc ->. apply (proj1 (forallb_forall _ _) H) in Hc. discriminate Hc. Qed.
Lemma dv_nonul c : (digit_value c < 36)%Z -> nonul c. Proof. intros H. apply dv_not; [exact H|reflexivity]. Qed.
Lemma written10_nonul d z : written 10 d z -> Forall nonul d.
Proof. intros H. eapply Forall_impl; [|exact (written10_good d z H)]. apply good_nonul. Qed.
Lemma Forall_app2 {A} (P : A -> Prop) l r : Forall P l -> Forall P r -> Forall P (l ++ r).
Proof. intros H1 H2. apply Forall_app. now split. Qed.
Lemma stops_dig (p : ascii -> bool) c r : p c = false -> stops p (c :: r). Proof. trivial. Qed.

(** ** gate names *)
Lemma starts_app_l p a b : starts p (a ++ b) = true -> List.length p <= List.length a -> starts p a = true.
Proof.
  revert a. induction p as [|x p IH]; intros a H Hl; [destruct a; reflexivity|]. destruct a as [|y a]; [cbn in Hl; lia|].
  cbn [app starts] in *. apply andb_prop in H. destruct H as [-> H]. cbn [List.length] in Hl. cbn [andb]. apply IH; [exact H|lia].
Qed.
Lemma contains_in p s c : In c p -> contains p s = true -> In c s.
Proof.
  intros Hc. induction s as [|y s IH]; cbn [contains]; intros H; apply orb_prop in H; destruct H as [H|H].
  - destruct p; [destruct Hc|discriminate H].
  - discriminate H.
  - revert Hc H. generalize (y :: s). clear. induction p as [|a p IH]; intros l Hc H; [destruct Hc|]. destruct l as [|b l]; [discriminate H|].
    cbn [starts] in H. apply andb_prop in H. destruct H as [E H]. apply Ascii.eqb_eq in E. destruct Hc as [->|Hc]; [left; congruence|]. right. now apply IH.
  - right. now apply IH.
Qed.
Lemma contains_pre p s : contains p (p ++ s) = true.
Proof.
  assert (H : starts p (p ++ s) = true) by (induction p as [|a p IH]; [destruct s; reflexivity|]; cbn [app starts]; now rewrite Ascii.eqb_refl, IH).
  destruct (p ++ s); cbn [contains]; now rewrite H.
Qed.
Lemma text_eqb_len a b : List.length b < List.length a -> text_eqb a b = false.
Proof. intros H. unfold text_eqb. destruct (list_eq_dec ascii_dec a b) as [->|_]; [lia|reflexivity]. Qed.
Lemma gate_name_ok t op c : gate_name t op c -> gate_type t = Ok (Some (op, c)).
Proof.
  intros H. destruct H as [| | | | | | | |h v H Hv Hl|h v H Hv Hl]; [reflexivity..| |].
  - unfold gate_type. rewrite !text_eqb_len by (rewrite app_length; cbn; lia).
    destruct (contains (T "const-mul-neg-") (T "const-mul-" ++ h)) eqn:E.
    + exfalso. apply (contains_in _ _ "g"%char) in E; [|cbn; tauto]. apply in_app_or in E. destruct E as [E|E].
      * cbn in E. repeat (destruct E as [E|E]; [discriminate E|]). destruct E.
      * apply written_ok in H; [|lia]. destruct H as (_ & H & _). rewrite Forall_forall in H. specialize (H _ E). cbn beta in H.
        change (digit_value "g") with 16%Z in H. lia.
    + rewrite contains_pre. change (skipn 10 (T "const-mul-" ++ h)) with h. rewrite (hex_ok h v H Hv). reflexivity.
  - unfold gate_type. rewrite !text_eqb_len by (rewrite app_length; cbn; lia).
    rewrite contains_pre. change (skipn 14 (T "const-mul-neg-" ++ h)) with h. rewrite (hex_ok h v H Hv). cbn [obind].
    do 3 f_equal. change (-1)%Z with (- (1))%Z. rewrite Fof_opp. change (Fof 1) with F1. ring.
Qed.

(** ** formats that do not match *)
Lemma f_miss c f a s : c <> a -> sscanf (a :: s) (DLit c :: f) = Ok [].
Proof. intros H. unfold sscanf. cbn [c_str]. destruct (Ascii.eqb a "000"); [reflexivity|]. now apply s_miss. Qed.
Lemma lits_cons c s f : lits (String c s) ++ f = DLit c :: lits s ++ f. Proof. reflexivity. Qed.
Lemma or_miss s f : sscanf ("o"%char :: "r"%char :: s) (lits "output" ++ f) = Ok [].
Proof. reflexivity. Qed.
Definition gate_part (l : text) : outcome (option line) :=
  a <- sscanf l (fmt_gate (List.length l)) ;;
  match a with [VS type; VU n; VS ins; VU m; VS outs] => lex_gate type n ins m outs | _ => Ok (Some LUnrecognised) end.
Definition gate_first (c : ascii) : Prop := c <> "#"%char /\ c <> "i"%char /\ c <> "n"%char /\ c <> "o"%char /\ c <> "t"%char.
Lemma lex_other c s : gate_first c -> lex_line (c :: s) = gate_part (c :: s).
Proof.
  intros (H1 & H2 & H3 & H4 & H5). unfold lex_line. rewrite eqb_neq by exact H1. unfold fmt_table. rewrite !lits_cons.
  rewrite !f_miss by congruence. reflexivity.
Qed.
Lemma lex_or s : lex_line ("o"%char :: "r"%char :: s) = gate_part ("o"%char :: "r"%char :: s).
Proof.
  unfold lex_line. rewrite eqb_neq by discriminate. unfold fmt_table. rewrite or_miss. rewrite !lits_cons. rewrite !f_miss by discriminate. reflexivity.
Qed.
Lemma gate_first_of c : negb (Ascii.eqb c "#" || Ascii.eqb c "i" || Ascii.eqb c "n" || Ascii.eqb c "o" || Ascii.eqb c "t") = true -> gate_first c.
Proof. intros H. apply negb_true_iff in H. repeat (apply orb_false_elim in H; destruct H as [H ?]). repeat split; now apply Ascii.eqb_neq. Qed.
Lemma gate_lex name op c s : gate_name name op c -> lex_line (name ++ s) = gate_part (name ++ s).
Proof.
  intros H. destruct H as [| | | | | | | |h v H Hv Hl|h v H Hv Hl]; 
    match goal with |- lex_line ?l = _ => let l' := eval cbn [T list_ascii_of_string app] in l in change l with l' end;
    first [exact (lex_or s) | apply lex_other; apply gate_first_of; reflexivity].
Qed.
Lemma gate_name_text name op c : gate_name name op c -> name <> [] /\ Forall (fun c => isspace c = false) name /\ Forall nonul name /\ List.length name < 200.
Proof.
  intros H. 
  assert (X : forall s, s <> ""%string -> forallb (fun c => negb (isspace c)) (T s) = true -> forallb (fun c => negb (Ascii.eqb c "000")) (T s) = true ->
    (T s <> [] /\ Forall (fun c => isspace c = false) (T s) /\ Forall nonul (T s))).
  { intros s H0 H1 H2. split; [now destruct s|]. split; [|now apply nonul_T]. apply Forall_forall. intros x Hx.
    apply (proj1 (forallb_forall _ _) H1) in Hx. now apply negb_true_iff in Hx. }
  assert (Y : forall h v, written 16 h v -> Forall (fun c => isspace c = false) h /\ Forall nonul h).
  { intros h v Hh. apply written_ok in Hh; [|lia]. destruct Hh as (_ & Hh & _). split; (eapply Forall_impl; [|exact Hh]); intros a Ha; cbn beta in Ha;
      [apply dv_nospace|apply dv_nonul]; lia. }
  destruct H as [| | | | | | | |h v H Hv Hl|h v H Hv Hl].
  1-8: (match goal with |- T ?s <> _ /\ _ => destruct (X s) as (A & B & C); [discriminate|reflexivity..|] end;
        split; [exact A|]; split; [exact B|]; split; [exact C|]; cbn; lia).
  - destruct (X "const-mul-"%string) as (A & B & C); [discriminate|reflexivity..|]. destruct (Y h v H) as [D E].
    split; [discriminate|]. split; [now apply Forall_app2|]. split; [now apply Forall_app2|]. rewrite app_length. cbn [T list_ascii_of_string List.length]. lia.
  - destruct (X "const-mul-neg-"%string) as (A & B & C); [discriminate|reflexivity..|]. destruct (Y h v H) as [D E].
    split; [discriminate|]. split; [now apply Forall_app2|]. split; [now apply Forall_app2|]. rewrite app_length. cbn [T list_ascii_of_string List.length]. lia.
Qed.

(** ** lines that match *)
Lemma count_parts d n : count_text d n -> exists z, written 10 d z /\ (0 <= z < 2 ^ 32)%Z /\ n = Z.to_nat z.
Proof. intros (z & H & Hz & ->). exists z. destruct (written10 d z H) as (_ & _ & _ & _ & _ & _ & X). repeat split; auto. Qed.
Lemma decl_scan s d w rest : T s <> [] -> Forall nonul (T s) -> wire_text d w -> no_digit_first rest ->
  exists z, sscanf (T s ++ T " " ++ d ++ rest) (lits s ++ [DWs; DUint 32]) = Ok [VU z] /\ w = Z.to_nat z.
Proof.
  intros _ Hn (z & H & Hz & ->) Hr. exists z. split; [|reflexivity]. unfold sscanf. rewrite c_str_app by exact Hn.
  change (T " " ++ d ++ rest) with (" "%char :: d ++ rest).
  cbn [c_str]. change (Ascii.eqb " " "000") with false. cbn iota. rewrite c_str_app by (now apply written10_nonul in H).
  assert (X : forall f r, scan (lits s ++ f) (T s ++ r) = scan f r).
  { intros f r. unfold lits, T. clear. induction s as [|c s IH]; [reflexivity|]. cbn [list_ascii_of_string map app]. rewrite s_lit. exact IH. }
  rewrite X, s_ws1.
  - rewrite (s_uint32 [] d z _ H Hz (no_digit_stops _ Hr)). reflexivity.
  - destruct (written10 d z H) as (c & t & -> & Hc & _). cbn [app]. apply dig_stop. lia.
Qed.
Lemma items_parts {A} (one : text -> A -> Prop) s l : (forall s a, one s a -> s <> [] /\ Forall good s) -> items one s l ->
  s <> [] /\ Forall nonul s /\ Forall (fun c => not_gt c = true) s.
Proof.
  intros H Hi. destruct (items_good one H s l Hi) as [A1 A2]. split; [exact A1|]. split; (eapply Forall_impl; [|exact A2]); intros c; [apply good_nonul|apply good_notgt].
Qed.
Lemma dig_stops d z r : written 10 d z -> stops isspace (d ++ r).
Proof. intros H. destruct (written10 d z H) as (c & t & -> & Hc & _). cbn [app]. apply dig_stop. lia. Qed.
Ltac lit := repeat (rewrite s_lit); repeat (first [rewrite s_ws1 by reflexivity | rewrite s_ws0 by reflexivity | rewrite s_lit]).
Lemma table_scan d n t i o rest cap : written 10 d n -> (n < 2 ^ 32)%Z -> t <> [] -> Forall (fun c => not_gt c = true) t -> List.length t < cap ->
  i <> [] -> Forall (fun c => not_gt c = true) i -> List.length i < cap -> o <> [] -> Forall (fun c => not_gt c = true) o -> List.length o < cap ->
  scan (fmt_table cap) (T "table " ++ d ++ T " <" ++ t ++ T "> in <" ++ i ++ T "> out <" ++ o ++ T ">" ++ rest) = Ok [VU n; VS t; VS i; VS o].
Proof.
  intros Hd Hn Ht1 Ht2 Ht3 Hi1 Hi2 Hi3 Ho1 Ho2 Ho3. unfold fmt_table. cbn [T list_ascii_of_string lits map app].
  do 5 rewrite s_lit. rewrite s_ws1 by (apply (dig_stops d n), Hd). rewrite (s_uint32 _ d n) by (first [assumption|reflexivity]).
  rewrite s_ws1 by reflexivity. rewrite s_lit. rewrite s_set by (first [assumption|reflexivity]). rewrite s_lit.
  rewrite s_ws1 by reflexivity. do 2 rewrite s_lit. rewrite s_ws1 by reflexivity. rewrite s_lit. rewrite s_set by (first [assumption|reflexivity]). rewrite s_lit.
  rewrite s_ws1 by reflexivity. do 3 rewrite s_lit. rewrite s_ws1 by reflexivity. rewrite s_lit. rewrite s_set by (first [assumption|reflexivity]). rewrite s_lit.
  reflexivity.
Qed.
Lemma gate_scan name d n i e m o rest cap : name <> [] -> Forall (fun c => isspace c = false) name -> List.length name < 200 ->
  written 10 d n -> (n < 2 ^ 32)%Z -> written 10 e m -> (m < 2 ^ 32)%Z ->
  i <> [] -> Forall (fun c => not_gt c = true) i -> List.length i < cap -> o <> [] -> Forall (fun c => not_gt c = true) o -> List.length o < cap ->
  scan (fmt_gate cap) (name ++ T " in " ++ d ++ T " <" ++ i ++ T "> out " ++ e ++ T " <" ++ o ++ T ">" ++ rest) = Ok [VS name; VU n; VS i; VU m; VS o].
Proof.
  intros Hm1 Hm2 Hm3 Hd Hn He Hm Hi1 Hi2 Hi3 Ho1 Ho2 Ho3. unfold fmt_gate.
  change ([DStr 200; DWs] ++ ?f) with (DStr 200 :: DWs :: f). cbn [T list_ascii_of_string lits map app].
  rewrite s_str by (first [assumption|reflexivity]).
  rewrite s_ws1 by reflexivity. do 2 rewrite s_lit. rewrite s_ws1 by (apply (dig_stops d n), Hd). rewrite (s_uint32 _ d n) by (first [assumption|reflexivity]).
  rewrite s_ws1 by reflexivity. rewrite s_lit. rewrite s_set by (first [assumption|reflexivity]). rewrite s_lit.
  rewrite s_ws1 by reflexivity. do 3 rewrite s_lit. rewrite s_ws1 by (apply (dig_stops e m), He). rewrite (s_uint32 _ e m) by (first [assumption|reflexivity]).
  rewrite s_ws1 by reflexivity. rewrite s_lit. rewrite s_set by (first [assumption|reflexivity]). rewrite s_lit.
  reflexivity.
Qed.
Lemma count_eq z n : (0 <= z)%Z -> (z =? Z.of_nat n)%Z = (Z.to_nat z =? n).
Proof. intros H. destruct (Z.eqb_spec z (Z.of_nat n)), (Nat.eqb_spec (Z.to_nat z) n); try reflexivity; lia. Qed.
Lemma count_range z : (0 <= z)%Z -> ((z <=? 0) || (3 <? z))%Z = ((Z.to_nat z =? 0) || (3 <? Z.to_nat z)).
Proof.
  intros H. f_equal.
  - destruct (Z.leb_spec z 0), (Nat.eqb_spec (Z.to_nat z) 0); try reflexivity; lia.
  - destruct (Z.ltb_spec 3 z), (Nat.ltb_spec 3 (Z.to_nat z)); try reflexivity; lia.
Qed.
(** a line of the file does what the line it denotes does *)
Lemma text_line_ok s l st : line_text s l -> parse_text_line s st = parseLine l st.
Proof.
  intros H. unfold parse_text_line. destruct H as [d w rest Hd Hr|d w rest Hd Hr|d w rest Hd Hr|d n t table i ins o outs rest Hd Ht Hi Ho|name op c d n i ins e m o outs rest Hg Hd Hi He Ho].
  - change (T "input " ++ d ++ rest) with (T "input" ++ T " " ++ d ++ rest).
    destruct (decl_scan "input" d w rest) as (z & E & ->); [discriminate|now apply nonul_T|exact Hd|exact Hr|].
    unfold lex_line. change (T "input" ++ T " " ++ d ++ rest) with ("i"%char :: T "nput" ++ T " " ++ d ++ rest) at 1. cbn iota.
    change (Ascii.eqb "i" "#") with false. cbn iota. rewrite E. reflexivity.
  - change (T "nizkinput " ++ d ++ rest) with (T "nizkinput" ++ T " " ++ d ++ rest).
    destruct (decl_scan "nizkinput" d w rest) as (z & E & ->); [discriminate|now apply nonul_T|exact Hd|exact Hr|].
    unfold lex_line. change (T "nizkinput" ++ T " " ++ d ++ rest) with ("n"%char :: T "izkinput" ++ T " " ++ d ++ rest) at 1. cbn iota.
    change (Ascii.eqb "n" "#") with false. cbn iota.
    change (sscanf (T "nizkinput" ++ T " " ++ d ++ rest) (lits "input" ++ [DWs; DUint 32])) with (Ok (A:=list sval) []). cbn [obind].
    rewrite E. reflexivity.
  - change (T "output " ++ d ++ rest) with (T "output" ++ T " " ++ d ++ rest).
    destruct (decl_scan "output" d w rest) as (z & E & ->); [discriminate|now apply nonul_T|exact Hd|exact Hr|].
    unfold lex_line. change (T "output" ++ T " " ++ d ++ rest) with ("o"%char :: T "utput" ++ T " " ++ d ++ rest) at 1. cbn iota.
    change (Ascii.eqb "o" "#") with false. cbn iota.
    change (sscanf (T "output" ++ T " " ++ d ++ rest) (lits "input" ++ [DWs; DUint 32])) with (Ok (A:=list sval) []). cbn [obind].
    change (sscanf (T "output" ++ T " " ++ d ++ rest) (lits "nizkinput" ++ [DWs; DUint 32])) with (Ok (A:=list sval) []). cbn [obind].
    rewrite E. reflexivity.
  - destruct (count_parts d n Hd) as (z & Wd & Hz & ->).
    destruct (items_parts entry_text t table entry_good Ht) as (T1 & T2 & T3).
    destruct (items_parts wire_text i ins wire_good Hi) as (I1 & I2 & I3). destruct (items_parts wire_text o outs wire_good Ho) as (O1 & O2 & O3).
    set (line := T "table " ++ d ++ T " <" ++ t ++ T "> in <" ++ i ++ T "> out <" ++ o ++ T ">" ++ rest).
    assert (E : sscanf line (fmt_table (List.length line)) = Ok [VU z; VS t; VS i; VS o]).
    { unfold sscanf, line at 2. rewrite !c_str_app; try (apply nonul_T; reflexivity); try assumption; [|exact (written10_nonul d z Wd)].
      apply table_scan; try assumption; [lia|..]; unfold line; rewrite !app_length; cbn [T list_ascii_of_string List.length]; lia. }
    unfold lex_line. unfold line at 1. change (T "table " ++ ?x) with ("t"%char :: T "able " ++ x) at 1. cbn iota. change (Ascii.eqb "t" "#") with false. cbn iota.
    change (sscanf line (lits "input" ++ [DWs; DUint 32])) with (Ok (A:=list sval) []). cbn [obind].
    change (sscanf line (lits "nizkinput" ++ [DWs; DUint 32])) with (Ok (A:=list sval) []). cbn [obind].
    change (sscanf line (lits "output" ++ [DWs; DUint 32])) with (Ok (A:=list sval) []). cbn [obind].
    rewrite E. cbn [obind]. unfold lex_table. rewrite (readIds_ok i ins Hi), (readIds_ok o outs Ho), (readTable_ok t table Ht). rewrite count_eq, count_range by lia. destruct st as [is rd]. cbn [parseLine].
    destruct (Z.to_nat z =? List.length ins) eqn:E1; [|reflexivity]. destruct (List.length outs =? 1) eqn:E2; [|reflexivity]. cbn [negb].
    destruct ((Z.to_nat z =? 0) || (3 <? Z.to_nat z)) eqn:E3; [reflexivity|]. cbn [obind parseLine]. now rewrite E1, E2, E3.
  - rewrite (gate_lex name op c _ Hg). destruct (count_parts d n Hd) as (z & Wd & Hz & ->). destruct (count_parts e m He) as (y & We & Hy & ->).
    destruct (gate_name_text name op c Hg) as (N1 & N2 & N3 & N4).
    destruct (items_parts wire_text i ins wire_good Hi) as (I1 & I2 & I3). destruct (items_parts wire_text o outs wire_good Ho) as (O1 & O2 & O3).
    unfold gate_part. set (line := name ++ T " in " ++ d ++ T " <" ++ i ++ T "> out " ++ e ++ T " <" ++ o ++ T ">" ++ rest).
    assert (E : sscanf line (fmt_gate (List.length line)) = Ok [VS name; VU z; VS i; VU y; VS o]).
    { unfold sscanf, line at 2. rewrite !c_str_app; try (apply nonul_T; reflexivity); try assumption; [|exact (written10_nonul e y We)|exact (written10_nonul d z Wd)].
      apply gate_scan; try assumption; [lia|lia|..]; unfold line; rewrite !app_length; cbn [T list_ascii_of_string List.length]; lia. }
    rewrite E. cbn [obind]. unfold lex_gate. rewrite (readIds_ok i ins Hi), (readIds_ok o outs Ho), (gate_name_ok name op c Hg). rewrite !count_eq by lia. destruct st as [is rd]. cbn [parseLine].
    destruct (Z.to_nat z =? List.length ins) eqn:E1; [|reflexivity]. destruct (Z.to_nat y =? List.length outs) eqn:E2; [|reflexivity].
    cbn [negb obind parseLine]. now rewrite E1, E2.
Qed.

(** ** the lines of a file *)
Lemma getlines_line l r : newline_free l -> forall cur, getlines (l ++ nl ++ r) cur = (cur ++ l) :: getlines r [].
Proof.
  induction l as [|c l IH]; intros Hl cur.
  - cbn [app nl getlines]. change (Ascii.eqb "010" "010") with true. now rewrite app_nil_r.
  - cbn [app getlines]. rewrite eqb_neq by (intros ->; apply Hl; now left). change (getlines (l ++ nl ++ r) (cur ++ [c]) = (cur ++ c :: l) :: getlines r []).
    rewrite IH by (intros X; apply Hl; now right). now rewrite <- app_assoc.
Qed.
Lemma getlines_end l : newline_free l -> forall cur, cur ++ l <> [] -> getlines l cur = [cur ++ l].
Proof.
  induction l as [|c l IH]; intros Hl cur Hn.
  - rewrite app_nil_r in *. cbn [getlines]. now destruct cur.
  - cbn [getlines]. rewrite eqb_neq by (intros ->; apply Hl; now left). 
    rewrite IH; [now rewrite <- app_assoc|intros X; apply Hl; now right|rewrite <- app_assoc; exact Hn].
Qed.
Lemma getlines_flat ls t : Forall newline_free ls -> getlines (flat_map (fun l => l ++ nl) ls ++ t) [] = ls ++ getlines t [].
Proof.
  induction 1 as [|l ls Hl Hs IH]; [reflexivity|]. cbn [flat_map]. rewrite <- !app_assoc. rewrite getlines_line by exact Hl. cbn [app]. f_equal.
  rewrite <- IH. reflexivity.
Qed.
Lemma getlines_file lines s : Forall newline_free lines -> file_of lines s -> getlines s [] = lines.
Proof.
  intros Hf [->|(ls & l & -> & Hn & ->)].
  - pose proof (getlines_flat lines [] Hf) as X. rewrite app_nil_r in X. rewrite X. cbn [getlines]. apply app_nil_r.
  - apply Forall_app in Hf. destruct Hf as [Hf Hl]. rewrite getlines_flat by exact Hf. rewrite getlines_end; [reflexivity|now inversion Hl|exact Hn].
Qed.
Lemma body_ok ts ls : body_text ts ls -> forall o, fold_left (fun st l => obind st (parse_text_line l)) ts o = fold_left (fun st l => obind st (parseLine l)) ls o.
Proof.
  induction 1 as [|ts ls H IH|r ts ls H IH|t l ts ls Ht H IH]; intros o; cbn [fold_left]; [reflexivity|..].
  - rewrite <- IH. f_equal. destruct o; reflexivity.
  - rewrite <- IH. f_equal. destruct o; reflexivity.
  - rewrite <- IH. f_equal. destruct o as [st| | | |]; cbn [obind]; try reflexivity. now apply text_line_ok.
Qed.
Lemma circuit_ok f ls rd : circuit_text f ls -> parseCircuit_file (Some f) rd = parseCircuit ls rd.
Proof.
  intros (d & z & rest & ts & Hd & Hr & Hb & Hn & Hf). unfold parseCircuit_file. rewrite (getlines_file _ f Hn Hf).
  assert (E : sscanf (T "total " ++ d ++ rest) (lits "total" ++ [DWs; DUint 64]) = Ok [VU (glibc_uint 64 false z)]).
  { unfold sscanf. rewrite c_str_app by (apply nonul_T; reflexivity). rewrite c_str_app by exact (written10_nonul d z Hd).
    cbn [T list_ascii_of_string lits map app]. do 5 rewrite s_lit. rewrite s_ws1 by apply (dig_stops d z), Hd.
    rewrite (s_uint 64 [] d z _ Hd (no_digit_stops _ Hr)). reflexivity. }
  rewrite E. cbn [obind]. apply body_ok. exact Hb.
Qed.
(** ** the inputs file *)
Lemma space_stops s : space_first s -> stops (fun c => negb (isspace c)) (c_str s).
Proof.
  destruct s as [|c s]; [trivial|]. cbn [space_first c_str]. intros H. destruct (Ascii.eqb c "000"); [exact I|]. cbn [stops]. apply isspace_iff in H. now rewrite H.
Qed.
Lemma input_ok t wx rd : input_text t wx -> parse_input_line t rd = Ok (varSet (fst wx) (snd wx) rd).
Proof.
  intros (d & c & h & v & rest & -> & (z & Hd & Hz & E) & Hc & Hh & Hv & -> & Hr). rewrite E.
  assert (Hh' := Hh). apply written_ok in Hh'; [|lia]. destruct Hh' as (H1 & H2 & _).
  set (line := d ++ c :: h ++ rest).
  assert (S : sscanf line [DUint 32; DSet is_sep 2; DStr (List.length line)] = Ok [VU z; VS [c]; VS h]).
  { unfold sscanf, line at 2. rewrite c_str_app by exact (written10_nonul d z Hd). change (c :: h ++ rest) with ([c] ++ h ++ rest).
    rewrite c_str_app by (constructor; [destruct Hc as [-> | ->]; discriminate|constructor]).
    rewrite c_str_app by (eapply Forall_impl; [|exact H2]; intros a Ha; cbn beta in Ha; apply dv_nonul; lia).
    rewrite (s_uint32 _ d z) by (first [assumption | destruct Hc as [-> | ->]; reflexivity]).
    rewrite s_set; [|discriminate|constructor; [destruct Hc as [-> | ->]; reflexivity|constructor]| |cbn; lia].
    - rewrite s_str; [reflexivity|exact H1| |now apply space_stops|unfold line; rewrite app_length; cbn [List.length]; rewrite app_length; lia].
      eapply Forall_impl; [|exact H2]. intros a Ha. cbn beta in Ha. apply dv_nospace. lia.
    - destruct h as [|a h]; [now destruct H1|]. cbn [app stops]. pose proof (Forall_inv H2) as H3. cbn beta in H3. unfold is_sep.
      rewrite !eqb_neq; [reflexivity|apply dv_not; [lia|reflexivity]..]. }
  unfold parse_input_line. destruct line as [|a line'] eqn:El; [destruct d; discriminate El|]. rewrite <- El in *. rewrite S. cbn [obind].
  rewrite (hex_ok h v Hh Hv). reflexivity.
Qed.
Lemma inputs_body_ok ts l : inputs_body ts l -> forall rd, fold_left (fun o l => obind o (parse_input_line l)) ts (Ok rd) = Ok (parseInputs l rd).
Proof.
  unfold parseInputs. induction 1 as [|ts l H IH|t wx ts l Ht H IH]; intros rd; cbn [fold_left]; [reflexivity|..].
  - cbn [obind parse_input_line]. apply IH.
  - cbn [obind]. rewrite (input_ok t wx rd Ht). destruct wx as [w x]. apply IH.
Qed.
Lemma inputs_ok g l rd : inputs_text g l -> parseInputs_file (Some g) rd = Ok (parseInputs l rd).
Proof. intros (ts & Hb & Hn & Hf). unfold parseInputs_file. rewrite (getlines_file ts g Hn Hf). now apply inputs_body_ok. Qed.
Lemma reader_ok f ls g l : circuit_text f ls -> (match g, l with None, None => True | Some (Some g), Some l => inputs_text g l | _, _ => False end) ->
  circuitReader_files (Some f) g = circuitReader ls l.
Proof.
  intros Hf Hg. unfold circuitReader_files, circuitReader. rewrite (circuit_ok f ls reader0 Hf). destruct (parseCircuit ls reader0) as [[is rd]| | | |]; cbn [obind]; try reflexivity.
  destruct g as [[g|]|], l as [l|]; try (now destruct Hg). now rewrite (inputs_ok g l rd Hg).
Qed.
