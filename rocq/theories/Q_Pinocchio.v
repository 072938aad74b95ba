(** The command-line tool: final lemmas. *)
From Coq Require Import List ZArith Bool Arith Ascii String Lia.
From Verif Require Import Primes Field Base R1CS R1CSFacts M_Lookup Spec_Export M_Circuit Spec_Circuit Q_Circuit Q_Circuit2 Q_Circuit3 M_Export M_Lexer M_Pinocchio Spec_Lexer P_Export P_Lexer P_Lexer2 Q_Lexer.
Import ListNotations.
Local Open Scope list_scope.
Local Open Scope nat_scope.

(** ** the list of output wires is that of the file, and each has a variable *)
Definition keeps (rd rd' : reader) : Prop :=
  r_outputs rd' = r_outputs rd /\ forall w v, assoc (r_map rd) w = Some v -> assoc (r_map rd') w = Some v.
Lemma keeps_refl rd : keeps rd rd. Proof. split; [reflexivity|trivial]. Qed.
Lemma keeps_trans a b c : keeps a b -> keeps b c -> keeps a c.
Proof. intros [A1 A2] [B1 B2]. split; [congruence|auto]. Qed.
Lemma keeps_same rd rd' : r_outputs rd' = r_outputs rd -> r_map rd' = r_map rd -> keeps rd rd'.
Proof. intros A B. split; [exact A|]. now rewrite B. Qed.
Lemma varNew_keeps w rd : keeps rd (snd (varNew w rd)) /\ exists v, assoc (r_map (snd (varNew w rd))) w = Some v.
Proof.
  unfold varNew, r_alloc, r_bind. cbn [r_map snd]. destruct (assoc (r_map rd) w) as [v|] eqn:E.
  - split; [apply keeps_same; reflexivity|]. exists v. exact E.
  - split; [split; [reflexivity|]|].
    + cbn [r_map assoc]. intros u v Hv. destruct (Nat.eqb_spec w u) as [->|_]; [congruence|exact Hv].
    + cbn [r_map assoc]. rewrite Nat.eqb_refl. now eexists.
Qed.
Lemma varGet_keeps w rd : keeps rd (snd (varGet w rd)).
Proof. unfold varGet. destruct (assoc (r_map rd) w); [apply keeps_refl|apply varNew_keeps]. Qed.
Lemma varValue_keeps w rd : keeps rd (snd (varValue w rd)).
Proof. unfold varValue. pose proof (varGet_keeps w rd). destruct (varGet w rd). exact H. Qed.
Lemma varSet_keeps w x rd : keeps rd (varSet w x rd).
Proof. unfold varSet. pose proof (varGet_keeps w rd). destruct (varGet w rd). exact H. Qed.
Lemma varValues_keeps ws : forall rd, keeps rd (snd (varValues ws rd)).
Proof.
  induction ws as [|w ws IH]; intros rd; [apply keeps_refl|]. cbn [varValues]. pose proof (varValue_keeps w rd) as H. destruct (varValue w rd) as [x rd1]. cbn [snd] in H.
  specialize (IH rd1). destruct (varValues ws rd1). cbn [snd] in *. exact (keeps_trans _ _ _ H IH).
Qed.
Lemma varGets_keeps ws : forall rd, keeps rd (snd (varGets ws rd)).
Proof.
  induction ws as [|w ws IH]; intros rd; [apply keeps_refl|]. cbn [varGets]. pose proof (varGet_keeps w rd) as H. destruct (varGet w rd) as [x rd1]. cbn [snd] in H.
  specialize (IH rd1). destruct (varGets ws rd1). cbn [snd] in *. exact (keeps_trans _ _ _ H IH).
Qed.
Lemma split_keeps x ws : forall i rd, keeps rd (split_set x ws i rd).
Proof. induction ws as [|w ws IH]; intros i rd; [apply keeps_refl|]. cbn [split_set]. eapply keeps_trans; [apply varSet_keeps|apply IH]. Qed.
Lemma add_keeps rd rd' cs : keeps rd rd' -> keeps rd (r_add rd' cs). Proof. intros H. exact H. Qed.
Ltac steps := repeat (match goal with
  | H : obind ?e _ = Ok _ |- _ => destruct e eqn:?; try discriminate H; cbn [obind] in H
  | H : (let (_, _) := varGet ?w ?rd in _) = Ok _ |- _ => let X := fresh "X" in pose proof (varGet_keeps w rd) as X; destruct (varGet w rd); cbn [snd] in X
  | H : (let (_, _) := varGets ?w ?rd in _) = Ok _ |- _ => let X := fresh "X" in pose proof (varGets_keeps w rd) as X; destruct (varGets w rd); cbn [snd] in X
  | H : (let (_, _) := ?p in _) = Ok _ |- _ => is_var p; destruct p
  | H : (if ?b then _ else _) = Ok _ |- _ => destruct b; try discriminate H
  | H : Ok _ = Ok _ |- _ => injection H as <-
  end).
Ltac chain := repeat (apply add_keeps || (eapply keeps_trans; [eassumption|])); apply keeps_same; reflexivity.
Lemma eval_keeps i rd rd' : evalInstruction i rd = Ok rd' -> keeps rd rd'.
Proof.
  unfold evalInstruction. pose proof (varValues_keeps (i_ins i) rd) as E. destruct (varValues (i_ins i) rd) as [xs rd1]. cbn [snd] in E. intros H.
  eapply keeps_trans; [exact E|]. destruct (i_op i); steps; first [apply varSet_keeps|apply split_keeps|apply keeps_refl].
Qed.
Lemma cons_keeps i rd rd' : makeConstraints i rd = Ok rd' -> keeps rd rd'.
Proof.
  unfold makeConstraints. intros H.
  destruct (i_op i); unfold handleAddition, addMulConstraint, addXorConstraint, addOrConstraint, handleMulConst, addNonzeroCheckConstraint, addSplitConstraint, addPackConstraint, addTableConstraint, r_alloc in H;
    steps; chain.
Qed.
Lemma fold_keeps (f : inst -> reader -> outcome reader) : (forall i rd rd', f i rd = Ok rd' -> keeps rd rd') ->
  forall is rd rd', fold_left (fun o i => obind o (f i)) is (Ok rd) = Ok rd' -> keeps rd rd'.
Proof.
  intros H. assert (N : forall is (o : outcome reader) rd', fold_left (fun o i => obind o (f i)) is o = Ok rd' -> exists rd, o = Ok rd).
  { induction is as [|i is IH]; intros o rd' E; [now exists rd'|]. cbn [fold_left] in E. apply IH in E. destruct E as (rd & E). destruct o; try discriminate E. eauto. }
  induction is as [|i is IH]; intros rd rd' E; [injection E as ->; apply keeps_refl|]. cbn [fold_left obind] in E. destruct (N _ _ _ E) as (rd1 & E1). rewrite E1 in E.
  apply IH in E. apply H in E1. exact (keeps_trans _ _ _ E1 E).
Qed.
Definition outs_ok (ws : list wire) (rd : reader) : Prop := r_outputs rd = ws /\ Forall (fun w => exists v, assoc (r_map rd) w = Some v) ws.
Lemma outs_keeps ws rd rd' : outs_ok ws rd -> keeps rd rd' -> outs_ok ws rd'.
Proof. intros [A B] [C D]. split; [congruence|]. eapply Forall_impl; [|exact B]. intros w (v & Hv). exists v. auto. Qed.
Lemma parse_outs ls : forall is0 rd is rd' ws, outs_ok ws rd -> fold_left (fun st l => obind st (parseLine l)) ls (Ok (is0, rd)) = Ok (is, rd') -> outs_ok (ws ++ output_wires ls) rd'.
Proof.
  assert (N : forall ls (o : outcome (list inst * reader)) rd', fold_left (fun o i => obind o (parseLine i)) ls o = Ok rd' -> exists rd, o = Ok rd).
  { induction ls0 as [|i ls' IH]; intros o rd' E; [now exists rd'|]. cbn [fold_left] in E. apply IH in E. destruct E as (rd & E). destruct o; try discriminate E. eauto. }
  induction ls as [|l ls IH]; intros is0 rd is rd' ws O E; [injection E as <- <-; cbn; now rewrite app_nil_r|]. cbn [fold_left obind] in E.
  destruct (N _ _ _ E) as ((is1 & rd1) & E1). rewrite E1 in E. unfold output_wires. cbn [flat_map].
  assert (X : outs_ok (ws ++ match l with LOutput w => [w] | _ => [] end) rd1).
  { destruct l; cbn [parseLine] in E1;
      try (pose proof (varNew_keeps w rd) as [V [v0 V0]]; destruct (varNew w rd) as [v rd2]; cbn [snd] in V, V0; injection E1 as <- <-);
      try discriminate E1; repeat (match goal with H : (if ?b then _ else _) = Ok _ |- _ => destruct b; try discriminate H end);
      try (destruct op; try discriminate E1); try (injection E1 as <- <-); rewrite ?app_nil_r; try exact O; try exact (outs_keeps _ _ _ O V).
    destruct (outs_keeps _ _ _ O V) as [A B]. split; cbn [r_outputs r_map]; [congruence|]. apply Forall_app2; [exact B|]. constructor; [|constructor]. now exists v0. }
  rewrite app_assoc. exact (IH _ _ _ _ _ X E).
Qed.
Lemma reader_outs ls inp is rd : circuitReader ls inp = Ok (is, rd) -> outs_ok (output_wires ls) rd.
Proof.
  unfold circuitReader, parseCircuit. destruct (fold_left _ ls (Ok ([], reader0))) as [[is1 rd1]| | | |] eqn:E1; try discriminate. cbn [obind].
  assert (P : outs_ok (output_wires ls) rd1) by (apply (parse_outs ls [] reader0 is1 rd1 []); [split; [reflexivity|constructor]|exact E1]). intros H.
  assert (Q : exists rd2, match inp with None => Ok rd1 | Some inp => fold_left (fun o i => obind o (evalInstruction i)) is1 (Ok (parseInputs inp rd1)) end = Ok rd2 /\ outs_ok (output_wires ls) rd2).
  { destruct inp as [l|]; [|exists rd1; split; [reflexivity|exact P]].
    destruct (fold_left _ is1 (Ok (parseInputs l rd1))) as [rd2| | | |] eqn:E2; try discriminate H. exists rd2. split; [reflexivity|].
    apply (fold_keeps evalInstruction eval_keeps) in E2. apply (outs_keeps _ (parseInputs l rd1)); [|exact E2]. apply (outs_keeps _ rd1); [exact P|].
    clear. unfold parseInputs. revert rd1.
    induction l as [|[w x] l IH]; intros rd1; [apply keeps_refl|]. cbn [fold_left]. eapply keeps_trans; [apply varSet_keeps|apply IH]. }
  destruct Q as (rd2 & Q1 & Q2). rewrite Q1 in H. cbn [obind] in H.
  destruct (fold_left _ is1 (Ok rd2)) as [rd3| | | |] eqn:E3; try discriminate H. cbn [obind] in H. injection H as <- <-.
  apply (fold_keeps makeConstraints cons_keeps) in E3. exact (outs_keeps _ _ _ Q2 E3).
Qed.
Lemma print_known ws : forall rd, Forall (fun w => exists v, assoc (r_map rd) w = Some v) ws ->
  print_wires ws rd = map (fun w => Printed w (wire_val rd (r_val rd) w)) ws.
Proof.
  intros rd. induction 1 as [|w ws (v & Hv) H IH]; [reflexivity|]. cbn [print_wires map]. unfold varValue, varGet. rewrite Hv. rewrite IH. unfold wire_val at 2, wire_var. now rewrite Hv.
Qed.
(** ** C85: evaluation prints what the circuit computes *)
Lemma text_eqb_refl t : text_eqb t t = true. Proof. unfold text_eqb. now destruct (list_eq_dec ascii_dec t t). Qed.
Lemma eval_main file gk pv tp mv prog arith inputs more cmd f g ls inp : file arith = Some f -> file inputs = Some g -> circuit_text f ls -> inputs_text g inp ->
  Forall line_ok ls -> Forall plain (insts ls) -> single_assignment [] (insts ls) -> well_typed (insts ls) (env_of_inputs inp) -> (cmd = T "eval" \/ cmd = T "trace") ->
  pinocchio_main file gk pv tp mv (prog :: arith :: cmd :: inputs :: more) =
    Ok (0%Z, map (fun w => Printed w (run (insts ls) (env_of_inputs inp) w)) (output_wires ls)).
Proof.
  intros Ff Fg Hf Hg H1 H2 H3 H4 Hc. destruct (circuit_complete ls inp H1 H2 H3 H4) as (rd & R1 & R2 & _ & R4).
  assert (E : main_eval file arith inputs = Ok (0%Z, map (fun w => Printed w (run (insts ls) (env_of_inputs inp) w)) (output_wires ls))).
  { unfold main_eval. rewrite Ff, Fg. rewrite (reader_ok f ls (Some (Some g)) (Some inp) Hf Hg), R1. cbn [obind].
    unfold check. rewrite (proj2 (satb_spec _ _) R4). cbn [app]. destruct (reader_outs _ _ _ _ R1) as [O1 O2]. rewrite O1, print_known by exact O2.
    do 2 f_equal. apply map_ext. intros w. now rewrite R2. }
  unfold pinocchio_main. replace (List.length (prog :: arith :: cmd :: inputs :: more) <? 3) with false by reflexivity. cbn [idx nth_error obind skipn].
  replace (List.length (inputs :: more) =? 0) with false by reflexivity.
  destruct Hc as [-> | ->]; [exact E|exact E].
Qed.
(** ** C86: the status does not tell whether the inputs satisfy the circuit *)
Definition bad_files (name : text) : option text :=
  if text_eqb name (T "c.arith") then Some (T "total 3" ++ nl ++ T "input 0" ++ nl ++ T "output 2" ++ nl ++ T "zerop in 1 <0> out 2 <1 2>" ++ nl)
  else if text_eqb name (T "c.in") then Some (T "0 5" ++ nl)
  else None.
Lemma status_refuted : exists file argv w x, forall gk pv tp mv, pinocchio_main file gk pv tp mv argv = Ok (0%Z, [NotSatisfied; Printed w x]).
Proof.
  exists bad_files, [T "pinocchio"; T "c.arith"; T "eval"; T "c.in"], 2, (Fof 1). intros gk pv tp mv.
  change (pinocchio_main bad_files gk pv tp mv [T "pinocchio"; T "c.arith"; T "eval"; T "c.in"]) with (main_eval bad_files (T "c.arith") (T "c.in")).
  unfold main_eval.
  set (r := circuitReader_files (bad_files (T "c.arith")) (Some (bad_files (T "c.in")))).
  assert (E : match r with Ok (_, rd) => satb (r_val rd) (r_cs rd) = false /\ (exists v, assoc (r_map rd) 2 = Some v /\ r_val rd v = Fof 1) /\ r_outputs rd = [2] | _ => False end).
  { vm_compute. split; [reflexivity|]. split; [|reflexivity]. eexists. split; reflexivity. }
  destruct r as [[is rd]| | | |]; try now destruct E. destruct E as (E1 & (v & E2 & E3) & E4). cbn [obind]. unfold check. rewrite E1, E4. cbn [app print_wires].
  unfold varValue, varGet. rewrite E2. cbn [r_val]. now rewrite E3.
Qed.
Lemma status_zero file gk pv tp mv prog arith cmd inputs more s es : (cmd = T "eval" \/ cmd = T "trace" \/ (cmd = T "prove" /\ 2 <= List.length more)) ->
  pinocchio_main file gk pv tp mv (prog :: arith :: cmd :: inputs :: more) = Ok (s, es) -> s = 0%Z.
Proof.
  assert (E : forall a b, main_eval file a b = Ok (s, es) -> s = 0%Z).
  { intros a b. unfold main_eval. destruct (circuitReader_files _ _) as [[is rd]| | | |]; try discriminate. cbn [obind]. now intros [= <- _]. }
  intros [-> |[-> |[-> L]]]; [apply E|apply E|]. destruct more as [|pk [|pf more]]; cbn [List.length] in L; try lia.
  change (pinocchio_main file gk pv tp mv (prog :: arith :: T "prove" :: inputs :: pk :: pf :: more)) with (main_prove file pv arith inputs pk pf).
  unfold main_prove. destruct (circuitReader_files _ _) as [[is rd]| | | |]; try discriminate. cbn [obind]. destruct (pv rd pk); try discriminate. cbn [obind]. now intros [= <- _].
Qed.
(** the warning of key generation appears for a circuit every input of which can be proved *)
Definition warn_text : text := T "total 2" ++ nl ++ T "input 0" ++ nl ++ T "table 1 <7 8> in <0> out <1>" ++ nl.
Lemma genkeys_warns file gk pv tp mv prog arith pk vk more s es : file arith = Some warn_text ->
  pinocchio_main file gk pv tp mv (prog :: arith :: T "genkeys" :: pk :: vk :: more) = Ok (s, es) -> In NotSatisfied es.
Proof.
  intros Hf. change (pinocchio_main file gk pv tp mv (prog :: arith :: T "genkeys" :: pk :: vk :: more)) with (main_genkeys file gk arith pk vk).
  unfold main_genkeys. rewrite Hf. set (r := circuitReader_files (Some warn_text) None).
  assert (E : match r with Ok (_, rd) => satb (r_val rd) (r_cs rd) = false | _ => False end) by (vm_compute; reflexivity).
  destruct r as [[is rd]| | | |]; try now destruct E. cbn [obind]. destruct (gk rd pk vk) as [[st e]| | | |]; try discriminate. cbn [obind]. unfold check. rewrite E.
  intros [= _ <-]. now left.
Qed.
