(** The circuit reader: numbering of variables, public wires. *)
From Coq Require Import List ZArith Bool Arith Lia.
From Verif Require Import Primes Field Base R1CS R1CSFacts M_Lookup P_Lookup M_Bits P_Bits M_Utils P_Utils M_Circuit Spec_Circuit P_Circuit P_Circuit2 P_Circuit3 Q_Circuit.
Import ListNotations.
Local Open Scope nat_scope.

Lemma nth_error_firstn_some {A} (l : list A) : forall k j x, nth_error (firstn k l) j = Some x -> nth_error l j = Some x /\ j < k.
Proof.
  induction l as [|a l IH]; intros k j x H; [rewrite firstn_nil in H; destruct j; discriminate|].
  destruct k as [|k]; [destruct j; discriminate|]. destruct j as [|j]; cbn in *; [split; [exact H|lia]|]. apply IH in H. split; [apply H|lia].
Qed.

(** ** numbering of the declared wires *)
Definition numbered (D : list wire) (rd : reader) : Prop :=
  r_next rd = 1 + length D /\
  forall w v, mapped rd w v <-> exists k, v = 1 + k /\ nth_error D k = Some w /\ ~ In w (firstn k D).

Lemma numbered_map D rd w : numbered D rd -> (In w D <-> exists v, mapped rd w v).
Proof.
  intros [_ H]. split.
  - intros Hi. induction D as [|u D IH] using rev_ind; [destruct Hi|]. clear IH.
    destruct (In_nth_error _ _ Hi) as [k Hk]. revert Hk. 
    assert (G : forall k, nth_error (D ++ [u]) k = Some w -> exists j, nth_error (D ++ [u]) j = Some w /\ ~ In w (firstn j (D ++ [u]))).
    { clear. intros k. induction k as [k IH] using lt_wf_ind. intros Hk. destruct (in_dec Nat.eq_dec w (firstn k (D ++ [u]))) as [Hi|Hi]; [|exists k; now split].
      apply In_nth_error in Hi. destruct Hi as [j Hj]. apply nth_error_firstn_some in Hj. apply (IH j); apply Hj. }
    intros Hk. destruct (G k Hk) as (j & J1 & J2). exists (1 + j). apply H. exists j. auto.
  - intros [v Hv]. apply H in Hv. destruct Hv as (k & _ & Hk & _). exact (nth_error_In _ _ Hk).
Qed.

Lemma numbered_new D rd w rd' : numbered D rd -> r_next rd' = S (r_next rd) -> r_map rd' = r_map (snd (varNew w rd)) -> numbered (D ++ [w]) rd'.
Proof.
  intros N En Em. destruct N as [N1 N2] eqn:EN. split; [rewrite En, N1, app_length; cbn; lia|].
  intros u v. unfold mapped. rewrite Em. unfold varNew. cbn [snd r_alloc r_bind r_map].
  destruct (assoc (r_map rd) w) as [v0|] eqn:E0.
  - assert (Hw : In w D) by (apply (numbered_map D rd w N); exists v0; exact E0).
    fold (mapped rd u v). rewrite N2. split.
    + intros (k & -> & Hk & Hn). exists k. split; [reflexivity|]. assert (k < length D) by (apply nth_error_Some; congruence).
      rewrite nth_error_app1, firstn_app by lia. replace (k - length D) with 0 by lia. rewrite firstn_O, app_nil_r. now split.
    + intros (k & -> & Hk & Hn). exists k. split; [reflexivity|]. destruct (Nat.lt_ge_cases k (length D)) as [L|L].
      * rewrite nth_error_app1, firstn_app in * by lia. replace (k - length D) with 0 in Hn by lia. rewrite firstn_O, app_nil_r in Hn. now split.
      * exfalso. rewrite nth_error_app2 in Hk by lia. destruct (k - length D) as [|j] eqn:Ej; [|destruct j; discriminate].
        injection Hk as <-. apply Hn. rewrite firstn_app. replace (k - length D) with 0 by lia. rewrite firstn_O, app_nil_r, firstn_all2 by lia. exact Hw.
  - assert (Hw : ~ In w D).
    { intros Hi. apply (numbered_map D rd w N) in Hi. destruct Hi as [v' Hv']. unfold mapped in Hv'. congruence. }
    cbn [assoc]. destruct (Nat.eqb_spec w u) as [<- |NE].
    + split.
      * intros H. injection H as <-. exists (length D). split; [exact N1|]. split; [rewrite nth_error_app2, Nat.sub_diag by lia; reflexivity|].
        rewrite firstn_app, Nat.sub_diag, firstn_O, app_nil_r, firstn_all. exact Hw.
      * intros (k & -> & Hk & Hn). destruct (Nat.lt_ge_cases k (length D)) as [L|L].
        -- exfalso. rewrite nth_error_app1 in Hk by lia. apply Hw. exact (nth_error_In _ _ Hk).
        -- rewrite nth_error_app2 in Hk by lia. destruct (k - length D) as [|j] eqn:Ej; [|destruct j; discriminate]. f_equal. lia.
    + fold (mapped rd u v). rewrite N2. split.
      * intros (k & -> & Hk & Hn). exists k. split; [reflexivity|]. assert (k < length D) by (apply nth_error_Some; congruence).
        rewrite nth_error_app1, firstn_app by lia. replace (k - length D) with 0 by lia. rewrite firstn_O, app_nil_r. now split.
      * intros (k & -> & Hk & Hn). exists k. split; [reflexivity|]. destruct (Nat.lt_ge_cases k (length D)) as [L|L].
        -- rewrite nth_error_app1, firstn_app in * by lia. replace (k - length D) with 0 in Hn by lia. rewrite firstn_O, app_nil_r in Hn. now split.
        -- exfalso. rewrite nth_error_app2 in Hk by lia. destruct (k - length D) as [|j] eqn:Ej; [|destruct j; discriminate]. injection Hk as <-. now apply NE.
Qed.

Lemma parse_numbered ls : forall D is rd is' rd', numbered D rd ->
  fold_left (fun st l => obind st (parseLine l)) ls (Ok (is, rd)) = Ok (is', rd') ->
  numbered (D ++ declared ls) rd' /\ r_numInputs rd' = r_numInputs rd + length (input_wires ls).
Proof.
  induction ls as [|l ls IH]; intros D is rd is' rd' N E; cbn [fold_left] in E.
  - injection E as <- <-. cbn. rewrite app_nil_r. split; [exact N|lia].
  - destruct (fold_bind_stuck _ _ _ _ E) as [[is1 rd1] Eb]. rewrite Eb in E. rewrite bind_ok in Eb.
    destruct l as [w|w|w|n t ins outs|op c n ins m outs| |]; try discriminate.
    + cbn [parseLine] in Eb. destruct (varNew w rd) as [v0 rd2] eqn:EN. injection Eb as <- <-.
      assert (N' : numbered (D ++ [w]) (Rd (r_next rd2) (r_val rd2) (r_cs rd2) (r_map rd2) (S (r_numInputs rd2)) (r_inputs rd2 ++ [w]) (r_nizk rd2) (r_outputs rd2))).
      { apply (numbered_new D rd w _ N); [|rewrite EN; reflexivity]. unfold varNew in EN. injection EN as _ <-. reflexivity. }
      destruct (IH _ _ _ _ _ N' E) as [I1 I2]. rewrite <- app_assoc in I1. split; [exact I1|]. rewrite I2. cbn [r_numInputs input_wires flat_map app length].
      unfold varNew in EN. injection EN as _ <-. cbn [r_bind r_alloc snd r_numInputs]. unfold input_wires. lia.
    + cbn [parseLine] in Eb. destruct (varNew w rd) as [v0 rd2] eqn:EN. injection Eb as <- <-.
      assert (N' : numbered (D ++ [w]) (Rd (r_next rd2) (r_val rd2) (r_cs rd2) (r_map rd2) (r_numInputs rd2) (r_inputs rd2) (r_nizk rd2 ++ [w]) (r_outputs rd2))).
      { apply (numbered_new D rd w _ N); [|rewrite EN; reflexivity]. unfold varNew in EN. injection EN as _ <-. reflexivity. }
      destruct (IH _ _ _ _ _ N' E) as [I1 I2]. rewrite <- app_assoc in I1. split; [exact I1|]. rewrite I2. cbn [r_numInputs input_wires flat_map app length].
      unfold varNew in EN. injection EN as _ <-. reflexivity.
    + cbn [parseLine] in Eb. destruct (varNew w rd) as [v0 rd2] eqn:EN. injection Eb as <- <-.
      assert (N' : numbered (D ++ [w]) (Rd (r_next rd2) (r_val rd2) (r_cs rd2) (r_map rd2) (r_numInputs rd2) (r_inputs rd2) (r_nizk rd2) (r_outputs rd2 ++ [w]))).
      { apply (numbered_new D rd w _ N); [|rewrite EN; reflexivity]. unfold varNew in EN. injection EN as _ <-. reflexivity. }
      destruct (IH _ _ _ _ _ N' E) as [I1 I2]. rewrite <- app_assoc in I1. split; [exact I1|]. rewrite I2. cbn [r_numInputs input_wires flat_map app length].
      unfold varNew in EN. injection EN as _ <-. reflexivity.
    + assert (rd1 = rd) as ->.
      { cbn [parseLine] in Eb. repeat match type of Eb with (if ?b then _ else _) = _ => destruct b; [discriminate|] end. now injection Eb as _ <-. }
      exact (IH _ _ _ _ _ N E).
    + assert (rd1 = rd) as ->.
      { cbn [parseLine] in Eb. repeat match type of Eb with (if ?b then _ else _) = _ => destruct b; [discriminate|] end. destruct op; try discriminate; now injection Eb as _ <-. }
      exact (IH _ _ _ _ _ N E).
Qed.
Lemma numbered0 : numbered [] reader0.
Proof. split; [reflexivity|]. intros w v. split; [intros H; discriminate|]. intros (k & _ & H & _). destruct k; discriminate. Qed.
Lemma declared_inputs_le ls : length (input_wires ls) <= length (declared ls).
Proof. induction ls as [|l ls IH]; [cbn; lia|]. unfold input_wires, declared in *. destruct l; cbn [flat_map app length]; lia. Qed.

Lemma public_wires ls inputs is rd : circuitReader ls inputs = Ok (is, rd) -> Forall arity is ->
  r_numInputs rd = length (input_wires ls) /\
  forall w, is_public rd w <-> In w (firstn (length (input_wires ls)) (declared ls)).
Proof.
  intros E A. destruct (reader_inv _ _ _ _ E) as (Eis & LO & rd0 & rd1 & Ep & B & S & Hc & W & Em).
  destruct (parse_numbered ls [] [] reader0 _ _ numbered0 Ep) as [[N1 N2] N3]. cbn [app] in *.
  destruct (mkAll_ok _ _ W A) as (rd' & new & ms & E' & G & _). rewrite E' in Em. injection Em as ->.
  assert (NN : r_numInputs rd = length (input_wires ls)) by (rewrite (g_num G), (k_num _ _ S), N3; reflexivity).
  split; [exact NN|]. intros w. unfold is_public, wire_var. rewrite NN. pose proof (declared_inputs_le ls) as LE.
  pose proof (k_next _ _ S). split.
  - intros (v & Hv & Hr). assert (M0 : mapped rd0 w v).
    { destruct (g_newmap G w v Hv) as [M|M]; [|lia]. destruct (k_newmap _ _ S w v M) as [M'|M']; [exact M'|lia]. }
    apply N2 in M0. destruct M0 as (k & -> & Hk & _). set (n := length (input_wires ls)) in *.
    assert (nth_error (firstn n (declared ls)) k = Some w).
    { rewrite <- Hk. rewrite <- (firstn_skipn n (declared ls)) at 2. symmetry. apply nth_error_app1. rewrite firstn_length. lia. }
    eapply nth_error_In; eassumption.
  - intros Hi. set (n := length (input_wires ls)) in *.
    assert (Hd : In w (declared ls)) by (rewrite <- (firstn_skipn n (declared ls)); apply in_app_iff; now left).
    apply (numbered_map (declared ls) rd0 w (conj N1 N2)) in Hd. destruct Hd as [v Hv]. exists v.
    split; [exact (g_ext G _ _ (k_ext _ _ S _ _ Hv))|]. pose proof Hv as Hv'. apply N2 in Hv'. destruct Hv' as (k & -> & Hk & Hn). split; [lia|].
    destruct (Nat.lt_ge_cases k n) as [L|L]; [lia|]. exfalso. apply Hn. rewrite <- (firstn_skipn n (declared ls)), firstn_app. apply in_app_iff. left.
    rewrite firstn_all2; [exact Hi|]. rewrite firstn_length. lia.
Qed.

(** with the inputs first, exactly they are public *)
Lemma public_inputs_first ins rest inputs is rd : input_wires rest = [] -> circuitReader (map LInput ins ++ rest) inputs = Ok (is, rd) -> Forall arity is ->
  forall w, is_public rd w <-> In w ins.
Proof.
  intros R E A w. rewrite (proj2 (public_wires _ _ _ _ E A) w).
  assert (D : declared (map LInput ins ++ rest) = ins ++ declared rest).
  { clear. induction ins as [|x ins IH]; [reflexivity|]. unfold declared in *. cbn [map app flat_map]. now rewrite IH. }
  assert (I : input_wires (map LInput ins ++ rest) = ins).
  { clear - R. induction ins as [|x ins IH]; [exact R|]. unfold input_wires in *. cbn [map app flat_map]. now rewrite IH. }
  rewrite D, I, firstn_app, Nat.sub_diag, firstn_O, app_nil_r, firstn_all. reflexivity.
Qed.

(** ** key generation and proving *)
Definition shape := (nat * list (wire * nat))%type.
Definition shp (rd : reader) : shape := (r_next rd, r_map rd).
Definition sget (s : shape) (w : wire) : shape := match assoc (snd s) w with Some _ => s | None => (S (fst s), (w, fst s) :: snd s) end.
Definition sgets (s : shape) (ws : list wire) : shape := fold_left sget ws s.
Definition known (s : shape) (w : wire) : Prop := assoc (snd s) w <> None.

Lemma varGet_shape w rd : shp (snd (varGet w rd)) = sget (shp rd) w.
Proof.
  unfold varGet, sget, shp. cbn [fst snd]. destruct (assoc (r_map rd) w) eqn:E; [reflexivity|]. unfold varNew. cbn [fst snd r_alloc r_bind r_map r_next]. now rewrite E.
Qed.
Lemma varGet_shape' w rd v rd' : varGet w rd = (v, rd') -> shp rd' = sget (shp rd) w.
Proof. intros E. rewrite <- varGet_shape, E. reflexivity. Qed.
Lemma varGets_shape ws : forall rd vs rd', varGets ws rd = (vs, rd') -> shp rd' = sgets (shp rd) ws.
Proof.
  induction ws as [|w ws IH]; intros rd vs rd' E; cbn [varGets] in E; [injection E as <- <-; reflexivity|].
  destruct (varGet w rd) as [v rd1] eqn:E1. destruct (varGets ws rd1) as [vs1 rd2] eqn:E2. injection E as <- <-.
  unfold sgets. cbn [fold_left]. rewrite <- (varGet_shape' _ _ _ _ E1). exact (IH _ _ _ E2).
Qed.
Lemma varValues_shape ws : forall rd vs rd', varValues ws rd = (vs, rd') -> shp rd' = sgets (shp rd) ws.
Proof.
  induction ws as [|w ws IH]; intros rd vs rd' E; cbn [varValues] in E; [injection E as <- <-; reflexivity|]. unfold varValue in E.
  destruct (varGet w rd) as [v rd1] eqn:E1. destruct (varValues ws rd1) as [vs1 rd2] eqn:E2. injection E as <- <-.
  unfold sgets. cbn [fold_left]. rewrite <- (varGet_shape' _ _ _ _ E1). exact (IH _ _ _ E2).
Qed.
Lemma varSet_shape w x rd : shp (varSet w x rd) = sget (shp rd) w.
Proof. unfold varSet. destruct (varGet w rd) as [v rd1] eqn:E1. rewrite <- (varGet_shape' _ _ _ _ E1). reflexivity. Qed.
Lemma split_shape x ws : forall k rd, shp (split_set x ws k rd) = sgets (shp rd) ws.
Proof. induction ws as [|w ws IH]; intros k rd; cbn [split_set]; [reflexivity|]. rewrite IH, varSet_shape. reflexivity. Qed.
Lemma sgets_app s a b : sgets s (a ++ b) = sgets (sgets s a) b.
Proof. apply fold_left_app. Qed.
Lemma sget_known s w : known s w -> sget s w = s.
Proof. unfold known, sget. destruct (assoc (snd s) w); [reflexivity|congruence]. Qed.
Lemma sgets_known s ws : Forall (known s) ws -> sgets s ws = s.
Proof. intros H. unfold sgets. induction H as [|w ws H _ IH]; [reflexivity|]. cbn [fold_left]. now rewrite (sget_known _ _ H). Qed.
Lemma known_sget s w u : known s u -> known (sget s w) u.
Proof.
  unfold known, sget. destruct (assoc (snd s) w); [auto|]. cbn [snd assoc]. destruct (w =? u); [discriminate|auto].
Qed.
Lemma known_sget_self s w : known (sget s w) w.
Proof. unfold known, sget. destruct (assoc (snd s) w) eqn:E; [congruence|]. cbn [snd assoc]. rewrite Nat.eqb_refl. discriminate. Qed.
Lemma known_sgets ws : forall s u, known s u -> known (sgets s ws) u.
Proof. induction ws as [|w ws IH]; intros s u H; [exact H|]. unfold sgets in *. cbn [fold_left]. apply IH. now apply known_sget. Qed.
Lemma known_sgets_in ws : forall s u, In u ws -> known (sgets s ws) u.
Proof.
  induction ws as [|w ws IH]; intros s u []; unfold sgets in *; cbn [fold_left].
  - subst. apply known_sgets. apply known_sget_self.
  - now apply IH.
Qed.

Lemma eval_shape i rd rd' : plain i -> evalInstruction i rd = Ok rd' -> shp rd' = sgets (shp rd) (i_ins i ++ writes i).
Proof.
  intros (A & NZ & _). unfold evalInstruction. destruct (varValues (i_ins i) rd) as [xs rd1] eqn:E. rewrite sgets_app, <- (varValues_shape _ _ _ _ E).
  unfold writes, arity in *. destruct (i_op i) eqn:Eo; intros H; try congruence.
  all: try (match type of A with _ /\ _ => destruct A as [A1 A2] | _ => idtac end).
  all: repeat match type of H with obind ?o ?k = Ok _ => apply obind_ok in H; destruct H as (? & ? & H) end.
  all: injection H as <-.
  all: try (rewrite varSet_shape).
  all: try (destruct (i_outs i) as [|o [|]]; try discriminate; try (destruct A2; discriminate);
    repeat match goal with Hx : idx [_] 0 = Ok _ |- _ => injection Hx as <- end; reflexivity).
  - now apply split_shape.
Qed.

(** the constraints of a plain instruction, given the variables of the wires *)
Definition csf (i : inst) (lk : wire -> nat) : list constr :=
  let a := lk (nth 0 (i_ins i) 0) in let b := lk (nth 1 (i_ins i) 0) in let o := lk (nth 0 (i_outs i) 0) in
  let c k := nth k (i_table i) F0 in
  match i_op i with
  | ADD => [R1 L1 (lc_sum (map V (map lk (i_ins i)))) (V o)]
  | MUL | ASSERT => [R1 (V a) (V b) (V o)]
  | XOR => [R1 (LScale (Fof 2) (V a)) (V b) (LSub (LAdd (V a) (V b)) (V o))]
  | OR => [R1 (V a) (V b) (LSub (LAdd (V a) (V b)) (V o))]
  | CONST_MUL | CONST_MUL_NEG => [R1 (V a) (LC (i_const i)) (V o)]
  | SPLIT => map (fun v => boolean_c (V v)) (map lk (i_outs i)) ++ [R1 (V a) L1 (lc_sum (two_terms (map lk (i_outs i)) F1))]
  | PACK => [R1 (V o) L1 (lc_sum (two_terms (map lk (i_ins i)) F1))]
  | TABLE =>
    if length (i_table i) =? 2 then [R1 (LSub (LAdd (LC (c 0)) (term a (c 1))) (term a (c 0))) L1 (V o)]
    else [R1 (LAdd (LC (c 1 - c 0)%F) (term b (c 3 - c 2 - c 1 + c 0)%F)) (V a) (LAdd (LAdd (LC (- c 0)%F) (V o)) (term b (- c 2 + c 0)%F))]
  | ZEROP => []
  end.
Definition lkp (rd : reader) (w : wire) : nat := match assoc (r_map rd) w with Some v => v | None => 0 end.
Lemma lkp_mapped rd w v : mapped rd w v -> lkp rd w = v.
Proof. intros H. unfold lkp, mapped in *. now rewrite H. Qed.
Lemma lkp_map rd ws vs : Forall2 (mapped rd) ws vs -> map (lkp rd) ws = vs.
Proof. induction 1 as [|w v ws vs H _ IH]; [reflexivity|]. cbn [map]. now rewrite (lkp_mapped _ _ _ H), IH. Qed.
Lemma csf_ext i lk lk' : plain i -> (forall w, In w (i_ins i ++ i_outs i) -> lk w = lk' w) -> csf i lk = csf i lk'.
Proof.
  intros (A & NZ & TL) Q. unfold csf. destruct i as [op c ins outs tab]. unfold arity in A. cbn [i_op i_const i_ins i_outs i_table] in *.
  assert (MI : map lk ins = map lk' ins) by (apply map_ext_in; intros w Hw; apply Q, in_app_iff; now left).
  assert (MO : map lk outs = map lk' outs) by (apply map_ext_in; intros w Hw; apply Q, in_app_iff; now right).
  rewrite MI, MO.
  assert (NI : forall k, k < length ins -> lk (nth k ins 0) = lk' (nth k ins 0)) by (intros k Hk; apply Q, in_app_iff; left; now apply nth_In).
  assert (NO : forall k, k < length outs -> lk (nth k outs 0) = lk' (nth k outs 0)) by (intros k Hk; apply Q, in_app_iff; right; now apply nth_In).
  destruct op; try congruence.
  1-5: destruct A as [A1 A2]; rewrite ?(NO 0), ?(NI 0), ?(NI 1) by lia; reflexivity.
  - now rewrite (NI 0) by lia.
  - now rewrite (NO 0) by lia.
  - destruct A as [A1 A2]. now rewrite (NI 0), (NO 0) by lia.
  - destruct A as [A1 A2]. now rewrite (NI 0), (NO 0) by lia.
  - destruct A as (A1 & A2 & A3). specialize (TL eq_refl). assert (HL : length ins = 1 \/ length ins = 2) by lia.
    destruct HL as [HL|HL]; rewrite HL in A3; cbn in A3; rewrite A3; cbn [Nat.eqb]; rewrite (NO 0), (NI 0), ?(NI 1) by lia; reflexivity.
Qed.

(** order in which makeConstraints looks wires up *)
Definition order (i : inst) : list wire := match i_op i with ADD | SPLIT => i_outs i ++ i_ins i | _ => i_ins i ++ i_outs i end.

Lemma mk_shape i rd : wfr rd -> plain i -> exists rd', makeConstraints i rd = Ok rd' /\ wfr rd' /\ shp rd' = sgets (shp rd) (order i) /\
  r_cs rd' = r_cs rd ++ csf i (lkp rd') /\ ext rd rd'.
Proof.
  intros W P. pose proof P as (A & NZ & TL). unfold order. destruct i as [op k ins outs tab]. unfold arity in A. cbn [i_op i_const i_ins i_outs i_table] in *.
  unfold makeConstraints, csf. cbn [i_op i_const i_ins i_outs i_table].
  assert (T3 : forall cs0, length ins = 2 -> length outs = 1 -> exists rd',
     (a <- idx ins 0 ;; b <- idx ins 1 ;; o <- idx outs 0 ;;
     (let (l1, rd) := varGet a rd in let (l2, rd) := varGet b rd in let (l3, rd) := varGet o rd in
      Ok (r_add rd (cs0 l1 l2 l3)))) = Ok rd' /\ wfr rd' /\ shp rd' = sgets (shp rd) (ins ++ outs) /\
      r_cs rd' = r_cs rd ++ cs0 (lkp rd' (nth 0 ins 0)) (lkp rd' (nth 1 ins 0)) (lkp rd' (nth 0 outs 0)) /\ ext rd rd').
  { intros cs0 Hi Ho. destruct ins as [|a [|b [|]]]; try discriminate. destruct outs as [|o [|]]; try discriminate.
    cbn [idx nth_error nth]. rewrite !bind_ok.
    destruct (varGet a rd) as [l1 rd1] eqn:E1. destruct (varGet_ok _ _ _ _ W E1) as [G1 M1].
    destruct (varGet b rd1) as [l2 rd2] eqn:E2. destruct (varGet_ok _ _ _ _ (g_wf G1) E2) as [G2 M2].
    destruct (varGet o rd2) as [l3 rd3] eqn:E3. destruct (varGet_ok _ _ _ _ (g_wf G2) E3) as [G3 M3].
    pose proof (grow_trans _ _ _ _ _ G1 (grow_trans _ _ _ _ _ G2 G3)) as G. cbn [app] in G.
    eexists. split; [reflexivity|]. split; [exact (g_wf G3)|]. split.
    { change (shp (r_add rd3 (cs0 l1 l2 l3))) with (shp rd3). rewrite (varGet_shape' _ _ _ _ E3), (varGet_shape' _ _ _ _ E2), (varGet_shape' _ _ _ _ E1). reflexivity. }
    split; [|exact (g_ext G)]. change (lkp (r_add rd3 (cs0 l1 l2 l3))) with (lkp rd3).
    rewrite (lkp_mapped rd3 a l1), (lkp_mapped rd3 b l2), (lkp_mapped rd3 o l3); [|exact M3|apply (g_ext G3); exact M2|apply (g_ext G3), (g_ext G2); exact M1].
    cbn [r_cs r_add]. rewrite (g_cs G), app_nil_r. reflexivity. }
  assert (T2 : forall cs0, length ins = 1 -> length outs = 1 -> exists rd',
     (a <- idx ins 0 ;; o <- idx outs 0 ;;
     (let (l1, rd) := varGet a rd in let (l3, rd) := varGet o rd in
      Ok (r_add rd (cs0 l1 l3)))) = Ok rd' /\ wfr rd' /\ shp rd' = sgets (shp rd) (ins ++ outs) /\
      r_cs rd' = r_cs rd ++ cs0 (lkp rd' (nth 0 ins 0)) (lkp rd' (nth 0 outs 0)) /\ ext rd rd').
  { intros cs0 Hi Ho. destruct ins as [|a [|]]; try discriminate. destruct outs as [|o [|]]; try discriminate.
    cbn [idx nth_error nth]. rewrite !bind_ok.
    destruct (varGet a rd) as [l1 rd1] eqn:E1. destruct (varGet_ok _ _ _ _ W E1) as [G1 M1].
    destruct (varGet o rd1) as [l3 rd3] eqn:E3. destruct (varGet_ok _ _ _ _ (g_wf G1) E3) as [G3 M3].
    pose proof (grow_trans _ _ _ _ _ G1 G3) as G. cbn [app] in G.
    eexists. split; [reflexivity|]. split; [exact (g_wf G3)|]. split.
    { change (shp (r_add rd3 (cs0 l1 l3))) with (shp rd3). rewrite (varGet_shape' _ _ _ _ E3), (varGet_shape' _ _ _ _ E1). reflexivity. }
    split; [|exact (g_ext G)]. change (lkp (r_add rd3 (cs0 l1 l3))) with (lkp rd3).
    rewrite (lkp_mapped rd3 a l1), (lkp_mapped rd3 o l3); [|exact M3|apply (g_ext G3); exact M1].
    cbn [r_cs r_add]. rewrite (g_cs G), app_nil_r. reflexivity. }
  destruct op; try congruence.
  - destruct A as [A1 A2]. replace (1 <? length ins) with true by (symmetry; apply Nat.ltb_lt; lia). cbn [oassert]. rewrite bind_ok.
    destruct outs as [|o [|]]; try discriminate. unfold handleAddition. cbn [idx nth_error nth]. rewrite bind_ok.
    destruct (varGet o rd) as [l rd1] eqn:E1. destruct (varGet_ok _ _ _ _ W E1) as [G1 M1].
    destruct (varGets ins rd1) as [vs rd2] eqn:E2. destruct (varGets_ok _ _ _ _ (g_wf G1) E2) as [G2 M2].
    pose proof (grow_trans _ _ _ _ _ G1 G2) as G. cbn [app] in G.
    eexists. split; [reflexivity|]. split; [exact (g_wf G2)|]. split.
    { change (shp (r_add rd2 ?c)) with (shp rd2). rewrite (varGets_shape _ _ _ _ E2), (varGet_shape' _ _ _ _ E1). reflexivity. }
    split; [|exact (g_ext G)]. match goal with |- context [lkp (r_add rd2 ?c)] => change (lkp (r_add rd2 c)) with (lkp rd2) end.
    rewrite (lkp_map rd2 ins vs M2), (lkp_mapped rd2 o l) by (apply (g_ext G2); exact M1). cbn [r_cs r_add]. rewrite (g_cs G), app_nil_r. reflexivity.
  - destruct A as [A1 A2]. rewrite A1, A2. cbn [Nat.eqb andb oassert]. rewrite bind_ok. exact (T3 (fun l1 l2 l3 => [R1 (V l1) (V l2) (V l3)]) A1 A2).
  - destruct A as [A1 A2]. rewrite A1, A2. cbn [Nat.eqb andb oassert]. rewrite bind_ok.
    exact (T3 (fun l1 l2 l3 => [R1 (LScale (Fof 2) (V l1)) (V l2) (LSub (LAdd (V l1) (V l2)) (V l3))]) A1 A2).
  - destruct A as [A1 A2]. rewrite A1, A2. cbn [Nat.eqb andb oassert]. rewrite bind_ok.
    exact (T3 (fun l1 l2 l3 => [R1 (V l1) (V l2) (LSub (LAdd (V l1) (V l2)) (V l3))]) A1 A2).
  - destruct A as [A1 A2]. rewrite A1, A2. cbn [Nat.eqb andb oassert]. rewrite bind_ok. exact (T3 (fun l1 l2 l3 => [R1 (V l1) (V l2) (V l3)]) A1 A2).
  - rewrite A. cbn [Nat.eqb oassert]. rewrite bind_ok. destruct ins as [|a [|]]; try discriminate.
    unfold addSplitConstraint. destruct (varGets outs rd) as [vs rd1] eqn:E1. destruct (varGets_ok _ _ _ _ W E1) as [G1 M1].
    cbn [idx nth_error nth]. rewrite bind_ok.
    match goal with |- context [r_add rd1 ?c] => set (cs1 := c) end.
    pose proof (r_add_grow rd1 cs1 (g_wf G1)) as G1'.
    destruct (varGet a (r_add rd1 cs1)) as [l rd2] eqn:E2. destruct (varGet_ok _ _ _ _ (g_wf G1') E2) as [G2 M2].
    pose proof (grow_trans _ _ _ _ _ G1 (grow_trans _ _ _ _ _ G1' G2)) as G. cbn [app] in G.
    eexists. split; [reflexivity|]. split; [exact (g_wf G2)|]. split.
    { change (shp (r_add rd2 ?c)) with (shp rd2). rewrite (varGet_shape' _ _ _ _ E2), sgets_app. change (shp (r_add rd1 cs1)) with (shp rd1). rewrite (varGets_shape _ _ _ _ E1). reflexivity. }
    split; [|exact (g_ext G)]. match goal with |- context [lkp (r_add rd2 ?c)] => change (lkp (r_add rd2 c)) with (lkp rd2) end.
    rewrite (lkp_map rd2 outs vs), (lkp_mapped rd2 a l M2).
    2:{ apply (Forall2_ext rd1); [|exact M1]. exact (ext_trans _ _ _ (g_ext G1') (g_ext G2)). }
    cbn [r_cs r_add]. rewrite (g_cs G), app_nil_r. unfold cs1. now rewrite app_assoc.
  - rewrite A. cbn [Nat.eqb oassert]. rewrite bind_ok. destruct outs as [|o [|]]; try discriminate.
    unfold addPackConstraint. destruct (varGets ins rd) as [vs rd1] eqn:E1. destruct (varGets_ok _ _ _ _ W E1) as [G1 M1].
    cbn [idx nth_error nth]. rewrite bind_ok.
    destruct (varGet o rd1) as [l rd2] eqn:E2. destruct (varGet_ok _ _ _ _ (g_wf G1) E2) as [G2 M2].
    pose proof (grow_trans _ _ _ _ _ G1 G2) as G. cbn [app] in G.
    eexists. split; [reflexivity|]. split; [exact (g_wf G2)|]. split.
    { change (shp (r_add rd2 ?c)) with (shp rd2). rewrite (varGet_shape' _ _ _ _ E2), (varGets_shape _ _ _ _ E1), sgets_app. reflexivity. }
    split; [|exact (g_ext G)]. match goal with |- context [lkp (r_add rd2 ?c)] => change (lkp (r_add rd2 c)) with (lkp rd2) end.
    rewrite (lkp_map rd2 ins vs), (lkp_mapped rd2 o l M2) by (apply (Forall2_ext rd1); [exact (g_ext G2)|exact M1]).
    cbn [r_cs r_add]. rewrite (g_cs G), app_nil_r. reflexivity.
  - destruct A as [A1 A2]. rewrite A1, A2. cbn [Nat.eqb andb oassert]. rewrite bind_ok. exact (T2 (fun l1 l3 => [R1 (V l1) (LC k) (V l3)]) A1 A2).
  - destruct A as [A1 A2]. rewrite A1, A2. cbn [Nat.eqb andb oassert]. rewrite bind_ok. exact (T2 (fun l1 l3 => [R1 (V l1) (LC k) (V l3)]) A1 A2).
  - destruct A as (A1 & A2 & A3). unfold addTableConstraint. specialize (TL eq_refl).
    assert (HL : length ins = 1 \/ length ins = 2) by lia.
    destruct HL as [HL|HL]; rewrite HL in A3; cbn [Nat.pow Nat.mul Nat.add] in A3; rewrite A3; cbn [Nat.eqb].
    + destruct tab as [|c0 [|c1 [|]]]; try discriminate.
      exact (T2 (fun b r => [R1 (LSub (LAdd (LC c0) (term b c1)) (term b c0)) L1 (V r)]) HL A2).
    + destruct tab as [|c0 [|c1 [|c2 [|c3 [|]]]]]; try discriminate.
      pose proof (T3 (fun b0 b1 r => [R1 (LAdd (LC (c1 - c0)%F) (term b1 (c3 - c2 - c1 + c0)%F)) (V b0) (LAdd (LAdd (LC (- c0)%F) (V r)) (term b1 (- c2 + c0)%F))]) HL A2) as K.
      clear T3 T2. destruct ins as [|a [|b [|]]]; try discriminate. destruct outs as [|o [|]]; try discriminate.
      cbn [idx nth_error nth] in *. rewrite !bind_ok in *. 
      destruct (varGet a rd) as [b0 rd1] eqn:E1. destruct (varGet b rd1) as [b1 rd2] eqn:E2. rewrite ?bind_ok. destruct (varGet o rd2) as [r rd3] eqn:E3.
      exact K.
Qed.

Lemma mkAll_shape is : forall rd, wfr rd -> Forall plain is -> exists rd', mkAll is (Ok rd) = Ok rd' /\ wfr rd' /\ ext rd rd' /\
  shp rd' = sgets (shp rd) (flat_map order is) /\ r_cs rd' = r_cs rd ++ flat_map (fun i => csf i (lkp rd')) is.
Proof.
  induction is as [|i is IH]; intros rd W P.
  - exists rd. split; [reflexivity|]. split; [exact W|]. split; [apply ext_refl|]. split; [reflexivity|]. cbn. now rewrite app_nil_r.
  - inversion P as [|? ? P1 P2]; subst. destruct (mk_shape i rd W P1) as (rd1 & E1 & W1 & S1 & C1 & X1).
    destruct (IH rd1 W1 P2) as (rd2 & E2 & W2 & X2 & S2 & C2).
    exists rd2. split; [unfold mkAll in *; cbn [fold_left]; rewrite bind_ok, E1; exact E2|]. split; [exact W2|]. split; [exact (ext_trans _ _ _ X1 X2)|].
    split; [cbn [flat_map]; rewrite sgets_app, <- S1; exact S2|]. cbn [flat_map]. rewrite C2, C1, app_assoc. f_equal. f_equal.
    apply csf_ext; [exact P1|]. intros w Hw.
    assert (K : known (shp rd1) w) by (rewrite S1; apply known_sgets_in; unfold order; destruct (i_op i); try exact Hw; apply in_app_iff; apply in_app_iff in Hw; tauto).
    unfold known, shp in K. cbn [snd] in K. destruct (assoc (r_map rd1) w) as [v|] eqn:Ev; [|congruence].
    rewrite (lkp_mapped rd1 w v Ev). symmetry. apply lkp_mapped. exact (X2 _ _ Ev).
Qed.
Lemma evAll_shape is : forall rd rd', Forall plain is -> evAll is (Ok rd) = Ok rd' -> shp rd' = sgets (shp rd) (flat_map (fun i => i_ins i ++ writes i) is).
Proof.
  induction is as [|i is IH]; intros rd rd' P E; unfold evAll in *; cbn [fold_left] in E; [injection E as <-; reflexivity|].
  inversion P as [|? ? P1 P2]; subst. rewrite bind_ok in E. destruct (fold_bind_stuck _ _ _ _ E) as [rd1 Eb]. rewrite Eb in E.
  cbn [flat_map]. rewrite sgets_app, <- (eval_shape i rd rd1 P1 Eb). exact (IH _ _ P2 E).
Qed.

(** in dependency order only the written wires are new *)
Lemma dep_order is : forall kn s, dependency_order kn is -> Forall (known s) kn ->
  sgets s (flat_map order is) = sgets s (flat_map writes is) /\
  sgets s (flat_map (fun i => i_ins i ++ writes i) is) = sgets s (flat_map writes is) /\
  Forall (known (sgets s (flat_map writes is))) (flat_map order is).
Proof.
  induction is as [|i is IH]; intros kn s D K; [split; [reflexivity|split; [reflexivity|constructor]]|]. destruct D as (D1 & D2 & D3). cbn [flat_map].
  assert (KI : Forall (known s) (i_ins i)) by (rewrite Forall_forall in *; intros w Hw; apply K, D1, Hw).
  assert (WO : sgets s (order i) = sgets s (writes i)).
  { unfold order, writes. destruct (i_op i) eqn:Eo; rewrite ?sgets_app, ?(sgets_known s (i_ins i) KI); try reflexivity.
    - rewrite sgets_known; [reflexivity|]. rewrite Forall_forall in *. intros w Hw. apply known_sgets, KI, Hw.
    - rewrite sgets_known; [reflexivity|]. rewrite Forall_forall in *. intros w Hw. apply K, (D2 eq_refl), Hw.
    - rewrite sgets_known; [reflexivity|]. rewrite Forall_forall in *. intros w Hw. apply known_sgets, KI, Hw. }
  assert (KO : Forall (known (sgets s (writes i))) (order i)).
  { rewrite <- WO. apply Forall_forall. intros w Hw. now apply known_sgets_in. }
  assert (K' : Forall (known (sgets s (writes i))) (kn ++ i_outs i)).
  { apply Forall_app. split.
    - rewrite Forall_forall in *. intros w Hw. apply known_sgets, K, Hw.
    - rewrite Forall_forall in *. intros w Hw. apply KO. unfold order. destruct (i_op i); apply in_app_iff; tauto. }
  destruct (IH (kn ++ i_outs i) (sgets s (writes i)) D3 K') as (I1 & I2 & I3).
  rewrite !sgets_app, WO, (sgets_known s (i_ins i) KI). split; [exact I1|]. split; [exact I2|].
  apply Forall_app. split; [|exact I3]. rewrite Forall_forall in *. intros w Hw. apply known_sgets, KO, Hw.
Qed.

Lemma parseInputs_shape inp : forall rd, Forall (known (shp rd)) (map fst inp) -> shp (parseInputs inp rd) = shp rd.
Proof.
  induction inp as [|[w x] inp IH]; intros rd K; [reflexivity|]. inversion K as [|? ? K1 K2]; subst. unfold parseInputs in *. cbn [fold_left].
  assert (S : shp (varSet w x rd) = shp rd) by (rewrite varSet_shape; now apply sget_known). rewrite IH; [exact S|]. rewrite S. exact K2.
Qed.

Lemma same_numbering ls inp is1 rd1 is2 rd2 : Forall plain (insts ls) -> dependency_order (declared ls) (insts ls) -> incl (map fst inp) (declared ls) ->
  circuitReader ls None = Ok (is1, rd1) -> circuitReader ls (Some inp) = Ok (is2, rd2) ->
  is1 = is2 /\ r_next rd1 = r_next rd2 /\ (forall w, wire_var rd1 w = wire_var rd2 w) /\ r_cs rd1 = r_cs rd2 /\ r_numInputs rd1 = r_numInputs rd2.
Proof.
  intros P D Q E1 E2.
  assert (A : Forall arity (insts ls)) by (eapply Forall_impl; [|exact P]; intros i Hi; apply Hi).
  destruct (reader_inv _ _ _ _ E1) as (I1 & LO & _). destruct (reader_inv _ _ _ _ E2) as (I2 & _). subst is1 is2. split; [reflexivity|].
  assert (NUM : r_numInputs rd1 = r_numInputs rd2) by (rewrite (proj1 (public_wires _ _ _ _ E1 A)), (proj1 (public_wires _ _ _ _ E2 A)); reflexivity).
  destruct (parse_ok ls [] reader0 LO blank0) as (rd0 & Ep & B & X & Dd). cbn [app] in Ep.
  unfold circuitReader, parseCircuit in E1, E2. rewrite Ep in E1, E2. rewrite !bind_ok in E1. rewrite bind_ok in E2.
  change (fold_left _ (insts ls) (Ok rd0)) with (mkAll (insts ls) (Ok rd0)) in E1.
  apply obind_ok in E1. destruct E1 as (q1 & E1 & E1'). injection E1' as ->.
  apply obind_ok in E2. destruct E2 as (r2 & E2 & E2'). apply obind_ok in E2'. destruct E2' as (q2 & E2' & E3). injection E3 as ->.
  change (evAll (insts ls) (Ok (parseInputs inp rd0)) = Ok r2) in E2. change (mkAll (insts ls) (Ok r2) = Ok rd2) in E2'.
  assert (KD : Forall (known (shp rd0)) (declared ls)).
  { apply Forall_forall. intros w Hw. destruct (Dd w Hw) as [v Hv]. unfold known, shp, mapped in *. cbn [snd]. congruence. }
  destruct (dep_order _ _ _ D KD) as (O1 & O2 & O3).
  assert (SI : shp (parseInputs inp rd0) = shp rd0).
  { apply parseInputs_shape. rewrite Forall_forall in *. intros w Hw. apply KD, Q, Hw. }
  assert (SE : shp r2 = sgets (shp rd0) (flat_map writes (insts ls))) by (rewrite (evAll_shape _ _ _ P E2), SI; exact O2).
  pose proof (parseInputs_okstep inp rd0 (proj1 B)) as K1. pose proof (evAll_okstep _ _ _ (k_wf _ _ K1) E2) as K2.
  destruct (mkAll_shape _ rd0 (proj1 B) P) as (z1 & F1 & _ & _ & S1 & C1). rewrite F1 in E1. injection E1 as ->.
  destruct (mkAll_shape _ r2 (k_wf _ _ K2) P) as (z2 & F2 & _ & _ & S2 & C2). rewrite F2 in E2'. injection E2' as ->.
  rewrite O1 in S1. rewrite SE in S2. rewrite (sgets_known _ _ O3) in S2. assert (SS : shp rd1 = shp rd2) by congruence.
  unfold shp in SS. injection SS as SN SM. split; [exact SN|]. split; [intros w; unfold wire_var; now rewrite SM|]. split; [|exact NUM].
  rewrite C1, C2, (k_cs _ _ K2), (k_cs _ _ K1). f_equal. apply flat_map_ext. intros i. unfold lkp. now rewrite SM.
Qed.
