(** The circuit reader: what every successful run guarantees; gates against constraints. *)
From Coq Require Import List ZArith Bool Arith Lia.
From Verif Require Import Primes Field Base R1CS R1CSFacts M_Lookup P_Lookup M_Bits P_Bits M_Utils P_Utils M_Circuit Spec_Circuit P_Circuit P_Circuit2.
Import ListNotations.
Local Open Scope nat_scope.

(** ** invariants of successful runs, without typing hypotheses *)
Record okstep (rd rd' : reader) : Prop := {
  k_wf : wfr rd'; k_ext : ext rd rd'; k_cs : r_cs rd' = r_cs rd; k_num : r_numInputs rd' = r_numInputs rd;
  k_next : r_next rd <= r_next rd'; k_newmap : forall w v, mapped rd' w v -> mapped rd w v \/ r_next rd <= v
}.
Lemma okstep_refl rd : wfr rd -> okstep rd rd.
Proof. intros W. constructor; auto using ext_refl. Qed.
Lemma okstep_trans a b c : okstep a b -> okstep b c -> okstep a c.
Proof.
  intros S T. destruct S, T. constructor; auto; try congruence; try lia.
  - eapply ext_trans; eassumption.
  - intros w v H. destruct (k_newmap1 w v H) as [H1|H1]; [apply k_newmap0; exact H1|right; lia].
Qed.
Lemma okstep_grow rd rd' : grow rd rd' [] -> okstep rd rd'.
Proof. intros G. destruct G. constructor; auto. now rewrite g_cs, app_nil_r. Qed.
Lemma varSet_okstep w x rd : wfr rd -> okstep rd (varSet w x rd).
Proof.
  intros W. unfold varSet. destruct (varGet w rd) as [v rd1] eqn:E. destruct (varGet_ok _ _ _ _ W E) as [G _].
  apply okstep_grow in G. destruct G. constructor; auto.
Qed.
Lemma varValues_okstep ws : forall rd xs rd', wfr rd -> varValues ws rd = (xs, rd') -> okstep rd rd' /\ (forall w, In w ws -> exists v, mapped rd' w v).
Proof.
  induction ws as [|w ws IH]; intros rd xs rd' W E; cbn [varValues] in E.
  - injection E as <- <-. split; [now apply okstep_refl|intros w []].
  - unfold varValue in E. destruct (varGet w rd) as [v rd1] eqn:E1. destruct (varValues ws rd1) as [ys rd2] eqn:E2. injection E as <- <-.
    destruct (varGet_ok _ _ _ _ W E1) as [G M]. apply okstep_grow in G.
    destruct (IH _ _ _ (k_wf _ _ G) E2) as [G2 M2]. split; [exact (okstep_trans _ _ _ G G2)|].
    intros u [<- |Hu]; [exists v; exact (k_ext _ _ G2 _ _ M)|exact (M2 u Hu)].
Qed.
Lemma split_okstep x ws : forall k rd, wfr rd -> okstep rd (split_set x ws k rd).
Proof.
  induction ws as [|w ws IH]; intros k rd W; cbn [split_set]; [now apply okstep_refl|].
  pose proof (varSet_okstep w (b2F (Z.testbit (fval x) k)) rd W) as S. eapply okstep_trans; [exact S|]. apply IH. exact (k_wf _ _ S).
Qed.
Lemma eval_okstep i rd rd' : wfr rd -> evalInstruction i rd = Ok rd' -> okstep rd rd'.
Proof.
  intros W. unfold evalInstruction. destruct (varValues (i_ins i) rd) as [xs rd1] eqn:E.
  destruct (varValues_okstep _ _ _ _ W E) as [S1 _]. intros H. apply (okstep_trans _ _ _ S1). pose proof (k_wf _ _ S1) as W1.
  assert (K : forall (o : outcome reader), (exists w x, o = Ok (varSet w x rd1)) -> o = Ok rd' -> okstep rd1 rd').
  { intros o (w & x & ->) E'. injection E' as <-. now apply varSet_okstep. }
  destruct (i_op i);
    repeat match type of H with obind ?o ?k = Ok _ => apply obind_ok in H; destruct H as (? & ? & H) end;
    try (injection H as <-; now apply varSet_okstep).
  - injection H as <-. now apply okstep_refl.
  - injection H as <-. now apply split_okstep.
Qed.
Definition evAll (is : list inst) (o : outcome reader) : outcome reader := fold_left (fun o i => obind o (evalInstruction i)) is o.
Lemma fold_bind_stuck {A B} (f : A -> B -> outcome B) l (o : outcome B) r :
  fold_left (fun o i => obind o (f i)) l o = Ok r -> exists b, o = Ok b.
Proof.
  revert o; induction l as [|x l IH]; intros o H; cbn [fold_left] in H; [now exists r|].
  apply IH in H. destruct H as [b H]. apply obind_ok in H. destruct H as (c & -> & _). now exists c.
Qed.
Lemma evAll_okstep is : forall rd rd', wfr rd -> evAll is (Ok rd) = Ok rd' -> okstep rd rd'.
Proof.
  induction is as [|i is IH]; intros rd rd' W E; unfold evAll in *; cbn [fold_left] in E.
  - injection E as <-. now apply okstep_refl.
  - rewrite bind_ok in E. destruct (fold_bind_stuck _ _ _ _ E) as [b Eb]. rewrite Eb in E.
    pose proof (eval_okstep _ _ _ W Eb) as S. eapply okstep_trans; [exact S|]. apply IH; [exact (k_wf _ _ S)|exact E].
Qed.
Lemma parseInputs_okstep inp : forall rd, wfr rd -> okstep rd (parseInputs inp rd).
Proof.
  induction inp as [|[w x] inp IH]; intros rd W; [now apply okstep_refl|]. unfold parseInputs in *. cbn [fold_left].
  pose proof (varSet_okstep w x rd W) as S. eapply okstep_trans; [exact S|]. apply IH. exact (k_wf _ _ S).
Qed.

Lemma parse_inv ls : forall is rd is' rd', fold_left (fun st l => obind st (parseLine l)) ls (Ok (is, rd)) = Ok (is', rd') -> Forall line_ok ls.
Proof.
  induction ls as [|l ls IH]; intros is rd is' rd' E; cbn [fold_left] in E; [constructor|].
  destruct (fold_bind_stuck _ _ _ _ E) as [[is1 rd1] Eb]. rewrite Eb in E. constructor; [|exact (IH _ _ _ _ E)].
  rewrite bind_ok in Eb. clear E IH. destruct l as [w|w|w|n t ins outs|op c n ins m outs| |]; cbn [line_ok]; auto; try discriminate.
  - cbn [parseLine] in Eb. destruct (Nat.eqb_spec n (length ins)) as [-> |]; [|discriminate]. cbn [negb] in Eb.
    destruct (Nat.eqb_spec (length outs) 1) as [Ho|]; [|discriminate]. cbn [negb] in Eb.
    destruct ((length ins =? 0) || (3 <? length ins)) eqn:E3; [discriminate|]. apply orb_false_iff in E3. destruct E3 as [E3 E4].
    apply Nat.eqb_neq in E3. apply Nat.ltb_ge in E4.
    destruct (Nat.eqb_spec (length t) (2 ^ length ins)) as [Ht|]; [|discriminate]. split; [reflexivity|]. split; [exact Ho|]. split; [lia|exact Ht].
  - cbn [parseLine] in Eb. destruct (Nat.eqb_spec n (length ins)) as [-> |]; [|discriminate]. cbn [negb] in Eb.
    destruct (Nat.eqb_spec m (length outs)) as [-> |]; [|discriminate]. cbn [negb] in Eb.
    split; [reflexivity|]. split; [reflexivity|]. intros ->. discriminate.
Qed.

(** anatomy of a successful run *)
Lemma reader_inv ls inputs is rd : circuitReader ls inputs = Ok (is, rd) ->
  is = insts ls /\ Forall line_ok ls /\ exists rd0 rd1, parseCircuit ls reader0 = Ok (is, rd0) /\ blank rd0 /\ okstep rd0 rd1 /\ r_cs rd1 = [] /\ wfr rd1 /\
    mkAll is (Ok rd1) = Ok rd.
Proof.
  unfold circuitReader, parseCircuit. intros H. apply obind_ok in H. destruct H as ([is0 rd0] & Ep & H).
  pose proof (parse_inv _ _ _ _ _ Ep) as LO.
  destruct (parse_ok ls [] reader0 LO blank0) as (rd0' & Ep' & B & X & D). rewrite Ep' in Ep. injection Ep as <- <-. cbn [app] in *.
  apply obind_ok in H. destruct H as (rd1 & E1 & H). apply obind_ok in H. destruct H as (rd2 & E2 & H). injection H as <- <-.
  split; [reflexivity|]. split; [exact LO|]. exists rd0', rd1. split; [exact Ep'|]. split; [exact B|].
  assert (S : okstep rd0' rd1).
  { destruct inputs as [inp|]; [|injection E1 as <-; apply okstep_refl, B].
    pose proof (parseInputs_okstep inp rd0' (proj1 B)) as S1. eapply okstep_trans; [exact S1|]. exact (evAll_okstep _ _ _ (k_wf _ _ S1) E1). }
  split; [exact S|]. split; [rewrite (k_cs _ _ S); apply B|]. split; [exact (k_wf _ _ S)|exact E2].
Qed.

(** meaning of all constraints of a successful run *)
Lemma reader_sat ls inputs is rd : circuitReader ls inputs = Ok (is, rd) -> Forall arity is ->
  exists ms, length ms = length is /\
   Forall2 (fun i m => 1 <= m /\ m + naux i <= r_next rd /\ (forall k, m <= k < m + naux i -> r_val rd k = F0) /\ forall w v, mapped rd w v -> ~ (m <= v < m + naux i)) is ms /\
   (forall w, In w (flat_map touched is) -> exists v, mapped rd w v) /\ wfr rd /\
   (forall t, sat t (r_cs rd) <-> Forall2 (fun i m => crel i (env_of rd t) (map t (seq m (naux i)))) is ms).
Proof.
  intros E A. destruct (reader_inv _ _ _ _ E) as (-> & LO & rd0 & rd1 & Ep & B & S & Hc & W & Em).
  destruct (mkAll_ok _ _ W A) as (rd' & new & ms & E' & G & L & F & T & S'). rewrite E' in Em. injection Em as ->.
  exists ms. split; [exact L|]. split; [|split; [exact T|split; [exact (g_wf G)|]]].
  - clear - F G W. pose proof (proj1 W). revert F. generalize (insts ls) as l. induction ms as [|m ms IH]; intros l F; inversion F as [|? ? ? ? H1 H2]; subst; constructor.
    + destruct H1 as (B1 & B2 & B3). split; [lia|]. split; [exact B2|]. split; [|exact B3]. intros k Hk. apply (g_new G). lia.
    + apply IH; assumption.
  - intros t. rewrite (g_cs G), Hc. cbn [app]. apply S'.
Qed.

(** ** gates against constraints *)
Lemma set_same e w x : set e w x w = x.
Proof. unfold set. now rewrite Nat.eqb_refl. Qed.
Lemma set_other e w x u : u <> w -> set e w x u = e u.
Proof. intros N. unfold set. apply Nat.eqb_neq in N. now rewrite N. Qed.
Lemma sets_other ws : forall xs e u, ~ In u ws -> sets e ws xs u = e u.
Proof.
  induction ws as [|w ws IH]; intros xs e u N; [reflexivity|]. destruct xs as [|x xs]; [reflexivity|]. cbn [sets].
  rewrite IH by (intros H; apply N; now right). apply set_other. intros ->. apply N. now left.
Qed.
Lemma sets_map ws : forall xs e, NoDup ws -> length xs = length ws -> map (sets e ws xs) ws = xs.
Proof.
  induction ws as [|w ws IH]; intros xs e N L; destruct xs as [|x xs]; try discriminate; [reflexivity|]. cbn [sets map].
  inversion N as [|? ? N1 N2]; subst. f_equal; [|apply IH; [exact N2|now injection L]]. rewrite sets_other by exact N1. apply set_same.
Qed.
Lemma sets_id ws : forall xs e, xs = map e ws -> forall u, sets e ws xs u = e u.
Proof.
  induction ws as [|w ws IH]; intros xs e E u; [subst; reflexivity|]. destruct xs as [|x xs]; [discriminate|]. cbn [map] in E.
  pose proof (f_equal (hd F0) E) as E1. pose proof (f_equal (@tl _) E) as E2. cbn [hd tl] in E1, E2. cbn [sets].
  assert (Q : forall v, set e w x v = e v) by (intros v; unfold set; destruct (Nat.eqb_spec v w) as [-> |]; auto).
  rewrite IH; [apply Q|]. rewrite E2. apply map_ext. intros a. symmetry. apply Q.
Qed.
Lemma step_other i e u : ~ In u (writes i) -> step i e u = e u.
Proof.
  intros N. unfold step. destruct (i_op i) eqn:Eo; unfold writes in N; rewrite Eo in N; try (now apply sets_other).
  unfold gate. rewrite Eo. destruct (i_outs i); reflexivity.
Qed.
Lemma gate_length i e : plain i -> i_op i <> ASSERT -> length (gate i (map e (i_ins i))) = length (i_outs i).
Proof.
  intros (A & NZ & _) NA. unfold arity in A. unfold gate. destruct (i_op i) eqn:Eo; cbn [length]; try congruence;
    try (now rewrite map_length, bits_of_Z_length); intuition lia.
Qed.
Lemma step_outs i e : plain i -> i_op i <> ASSERT -> NoDup (writes i) -> map (step i e) (i_outs i) = gate i (map e (i_ins i)).
Proof. intros P NA N. unfold step. apply sets_map; [destruct (i_op i) eqn:Eo; unfold writes in N; rewrite Eo in N; congruence|now apply gate_length]. Qed.

Lemma fsum2_bits_raw bs : fsum2 (map b2F bs) = Fof (natbits bs).
Proof.
  induction bs as [|b r IH]; [reflexivity|]. cbn [map fsum2 natbits]. rewrite IH, Fof_add, Fof_mul. f_equal. symmetry. apply Fof_b2Z.
Qed.
Lemma isbit_bit x : isbit x <-> bit x.
Proof. reflexivity. Qed.
Lemma bits_exist (e : env) (ws : list wire) : Forall (fun w => isbit (e w)) ws -> exists bs : list bool, map e ws = map b2F bs /\ length bs = length ws.
Proof.
  induction ws as [|w ws IH]; intros H; [now exists []|]. inversion H as [|? ? H1 H2]; subst. destruct (IH H2) as (bs & E & L).
  destruct (bit_bool _ H1) as [b Hb]. exists (b :: bs). cbn [map length]. now rewrite Hb, E, L.
Qed.

Lemma crel_ext i e e' aux : arity i -> (forall w, In w (touched i) -> e w = e' w) -> crel i e aux -> crel i e' aux.
Proof.
  intros A. destruct i as [op c ins outs tab]. unfold arity, touched, crel in *. cbn [i_op i_const i_ins i_outs i_table] in *.
  assert (MI : forall ws (Q : forall w, In w ws -> e w = e' w), map e ws = map e' ws) by (intros ws Q; apply map_ext_in; exact Q).
  destruct op; intros Q.
  - destruct A as [A1 A2]. destruct outs as [|o [|]]; try discriminate. cbn [nth]. rewrite (MI ins), (Q o); auto; [apply in_app_iff; right; now left|].
    intros w Hw. apply Q. apply in_app_iff. now left.
  - destruct A as [A1 A2]. destruct outs as [|o [|]], ins as [|a [|b [|]]]; try discriminate. cbn [nth].
    rewrite (Q a), (Q b), (Q o); auto; cbn; auto.
  - destruct A as [A1 A2]. destruct outs as [|o [|]], ins as [|a [|b [|]]]; try discriminate. cbn [nth].
    rewrite (Q a), (Q b), (Q o); auto; cbn; auto.
  - destruct A as [A1 A2]. destruct outs as [|o [|]], ins as [|a [|b [|]]]; try discriminate. cbn [nth].
    rewrite (Q a), (Q b), (Q o); auto; cbn; auto.
  - destruct A as [A1 A2]. destruct outs as [|o [|]], ins as [|a [|b [|]]]; try discriminate. cbn [nth].
    rewrite (Q a), (Q b), (Q o); auto; cbn; auto.
  - destruct A as [A1 A2]. destruct ins as [|a [|]]; try discriminate. cbn [nth app] in *.
    rewrite (Q a), (Q (nth 0 outs 0)); auto; cbn; auto.
  - destruct ins as [|a [|]]; try discriminate. cbn [nth app] in *. intros [H1 H2]. split.
    + rewrite Forall_forall in *. intros w Hw. rewrite <- Q by (now right). now apply H1.
    + rewrite <- Q by (now left). rewrite H2. f_equal. apply MI. intros w Hw. apply Q. now right.
  - destruct outs as [|o [|]]; try discriminate. cbn [nth]. rewrite (MI ins), (Q o); auto; [apply in_app_iff; right; now left|].
    intros w Hw. apply Q. apply in_app_iff. now left.
  - destruct A as [A1 A2]. destruct outs as [|o [|]], ins as [|a [|]]; try discriminate. cbn [nth].
    rewrite (Q a), (Q o); auto; cbn; auto.
  - destruct A as [A1 A2]. destruct outs as [|o [|]], ins as [|a [|]]; try discriminate. cbn [nth].
    rewrite (Q a), (Q o); auto; cbn; auto.
  - destruct A as (A1 & A2 & A3). destruct outs as [|o [|]]; try discriminate.
    destruct ins as [|a [|b [|d [|]]]]; cbn [length] in *; try lia; cbn [nth Nat.eqb app] in *.
    + rewrite (Q a), (Q o); auto; cbn; auto.
    + rewrite (Q a), (Q b), (Q o); auto; cbn; auto.
    + rewrite (Q a), (Q b), (Q d); auto; cbn; auto.
Qed.

Lemma xor_field x y : (Fof 2 * b2F x * b2F y)%F = (b2F x + b2F y - b2F (xorb x y))%F.
Proof. change (Fof 2) with (Fof (1 + 1)). rewrite Fof_add. change (Fof 1) with F1. destruct x, y; cbn [b2F xorb]; ring. Qed.
Lemma or_field x y : (b2F x * b2F y)%F = (b2F x + b2F y - b2F (x || y))%F.
Proof. destruct x, y; cbn [b2F orb]; ring. Qed.
Lemma sub_swap a b c : (c = a - b)%F <-> (b = a - c)%F.
Proof. split; intros ->; ring. Qed.

(** the relation of a gate says that its outputs are those of the gate (and assertions hold, splits fit) *)
Lemma crel_gate i e : plain i -> (i_op i = SPLIT -> length (i_outs i) <= 253) ->
  match i_op i with XOR | OR | TABLE => Forall (fun w => bit (e w)) (i_ins i) | _ => True end ->
  crel i e [] -> typed i e /\ (i_op i <> ASSERT -> map e (i_outs i) = gate i (map e (i_ins i))).
Proof.
  intros (A & NZ & TL) SL T. destruct i as [op c ins outs tab]. unfold arity, crel, typed, gate in *. cbn [i_op i_const i_ins i_outs i_table] in *.
  destruct op; try congruence.
  - destruct A as [A1 A2]. destruct outs as [|o [|]]; try discriminate. cbn [nth map]. intros ->. split; [exact I|reflexivity].
  - destruct A as [A1 A2]. destruct outs as [|o [|]], ins as [|a [|b [|]]]; try discriminate. cbn [nth map]. intros ->. split; [exact I|reflexivity].
  - destruct A as [A1 A2]. destruct outs as [|o [|]], ins as [|a [|b [|]]]; try discriminate. cbn [nth map].
    split; [exact T|]. intros _. inversion T as [|? ? Ta T']; subst. inversion T' as [|? ? Tb _]; subst.
    destruct (bit_bool _ Ta) as [x Hx], (bit_bool _ Tb) as [y Hy]. rewrite Hx, Hy, !as_bool_b2F in *. f_equal.
    rewrite xor_field in H. apply sub_swap in H. rewrite H. ring.
  - destruct A as [A1 A2]. destruct outs as [|o [|]], ins as [|a [|b [|]]]; try discriminate. cbn [nth map].
    split; [exact T|]. intros _. inversion T as [|? ? Ta T']; subst. inversion T' as [|? ? Tb _]; subst.
    destruct (bit_bool _ Ta) as [x Hx], (bit_bool _ Tb) as [y Hy]. rewrite Hx, Hy, !as_bool_b2F in *. f_equal.
    rewrite or_field in H. apply sub_swap in H. rewrite H. ring.
  - destruct A as [A1 A2]. destruct outs as [|o [|]], ins as [|a [|b [|]]]; try discriminate. cbn [nth map]. intros H.
    split; [exists a, b, o; repeat split; exact H|congruence].
  - destruct ins as [|a [|]]; try discriminate. cbn [nth map]. intros [H1 H2].
    destruct (bits_exist e outs H1) as (bs & Eb & Lb). rewrite Eb, fsum2_bits_raw in H2.
    pose proof (natbits_range bs) as R. pose proof p_lt_2_254 as P.
    assert (B : (natbits bs < p_mod)%Z).
    { specialize (SL eq_refl). apply Z.lt_le_trans with (2 ^ Z.of_nat (length bs))%Z; [lia|]. rewrite Lb.
      apply Z.le_trans with (2 ^ 253)%Z; [apply Z.pow_le_mono_r; lia|]. apply Z.lt_le_incl. reflexivity. }
    assert (V : fval (e a) = natbits bs) by (rewrite H2; apply fval_Fof_small; lia). split.
    + constructor; [|constructor]. rewrite V, <- Lb. lia.
    + intros _. rewrite V, <- Lb, bits_natbits. exact Eb.
  - destruct outs as [|o [|]]; try discriminate. cbn [nth map]. intros ->. split; [exact I|reflexivity].
  - destruct A as [A1 A2]. destruct outs as [|o [|]], ins as [|a [|]]; try discriminate. cbn [nth map]. intros <-. split; [exact I|]. intros _. f_equal. ring.
  - destruct A as [A1 A2]. destruct outs as [|o [|]], ins as [|a [|]]; try discriminate. cbn [nth map]. intros <-. split; [exact I|]. intros _. f_equal. ring.
  - destruct A as (A1 & A2 & A3). destruct outs as [|o [|]]; try discriminate. specialize (TL eq_refl).
    destruct ins as [|a [|b [|]]]; cbn [length] in *; try lia; cbn [nth map bindex].
    + inversion T as [|? ? Ta _]; subst. destruct (bit_bool _ Ta) as [x Hx]. rewrite Hx, as_bool_b2F. intros H. split; [exact T|]. intros _. f_equal.
      rewrite <- H. destruct x; cbn [b2F Nat.add Nat.mul nth]; ring.
    + inversion T as [|? ? Ta T']; subst. inversion T' as [|? ? Tb _]; subst.
      destruct (bit_bool _ Ta) as [x Hx], (bit_bool _ Tb) as [y Hy]. rewrite Hx, Hy, !as_bool_b2F. intros H. split; [exact T|]. intros _. f_equal.
      assert (K : e o = ((nth 1 tab F0 - nth 0 tab F0 + b2F y * (nth 3 tab F0 - nth 2 tab F0 - nth 1 tab F0 + nth 0 tab F0)) * b2F x + nth 0 tab F0 - b2F y * (nth 0 tab F0 - nth 2 tab F0))%F)
        by (rewrite H; ring).
      rewrite K. destruct x, y; cbn [b2F Nat.add Nat.mul]; ring.
Qed.

(** conversely the gate's outputs satisfy the relation *)
Lemma gate_crel i e : plain i -> typed i e -> (i_op i <> ASSERT -> map e (i_outs i) = gate i (map e (i_ins i))) -> crel i e [].
Proof.
  intros (A & NZ & TL) T G. destruct i as [op c ins outs tab]. unfold arity, crel, typed, gate in *. cbn [i_op i_const i_ins i_outs i_table] in *.
  destruct op; try congruence; try (specialize (G ltac:(discriminate))).
  - destruct A as [A1 A2]. destruct outs as [|o [|]]; try discriminate. cbn [nth map] in *. now apply (f_equal (hd F0)) in G.
  - destruct A as [A1 A2]. destruct outs as [|o [|]], ins as [|a [|b [|]]]; try discriminate. cbn [nth map] in *. now apply (f_equal (hd F0)) in G.
  - destruct A as [A1 A2]. destruct outs as [|o [|]], ins as [|a [|b [|]]]; try discriminate. cbn [nth map] in *. apply (f_equal (hd F0)) in G. cbn [hd] in G.
    inversion T as [|? ? Ta T']; subst. inversion T' as [|? ? Tb _]; subst.
    destruct (bit_bool _ Ta) as [x Hx], (bit_bool _ Tb) as [y Hy]. rewrite G, Hx, Hy, !as_bool_b2F. apply xor_field.
  - destruct A as [A1 A2]. destruct outs as [|o [|]], ins as [|a [|b [|]]]; try discriminate. cbn [nth map] in *. apply (f_equal (hd F0)) in G. cbn [hd] in G.
    inversion T as [|? ? Ta T']; subst. inversion T' as [|? ? Tb _]; subst.
    destruct (bit_bool _ Ta) as [x Hx], (bit_bool _ Tb) as [y Hy]. rewrite G, Hx, Hy, !as_bool_b2F. apply or_field.
  - destruct T as (a & b & o & -> & -> & H). exact H.
  - destruct ins as [|a [|]]; try discriminate. cbn [nth map] in *. inversion T as [|? ? Ta _]; subst. rewrite G, fsum2_bits_raw. split.
    + assert (Q : Forall isbit (map e outs)) by (rewrite G; apply Forall_forall; intros x Hx; apply in_map_iff in Hx; destruct Hx as ([|] & <- & _); [right|left]; reflexivity).
      rewrite Forall_map in Q. exact Q.
    + rewrite natbits_bits_small; [symmetry; apply Fof_fval|]. pose proof (fval_range (e a)). lia.
  - destruct outs as [|o [|]]; try discriminate. cbn [nth map] in *. now apply (f_equal (hd F0)) in G.
  - destruct A as [A1 A2]. destruct outs as [|o [|]], ins as [|a [|]]; try discriminate. cbn [nth map] in *. apply (f_equal (hd F0)) in G. cbn [hd] in G. rewrite G. ring.
  - destruct A as [A1 A2]. destruct outs as [|o [|]], ins as [|a [|]]; try discriminate. cbn [nth map] in *. apply (f_equal (hd F0)) in G. cbn [hd] in G. rewrite G. ring.
  - destruct A as (A1 & A2 & A3). destruct outs as [|o [|]]; try discriminate. specialize (TL eq_refl). cbn [map] in G. apply (f_equal (hd F0)) in G. cbn [hd] in G.
    destruct ins as [|a [|b [|]]]; cbn [length] in *; try lia; cbn [nth map bindex] in *.
    + inversion T as [|? ? Ta _]; subst. destruct (bit_bool _ Ta) as [x Hx]. rewrite G, Hx, as_bool_b2F. destruct x; cbn [b2F Nat.add Nat.mul]; ring.
    + inversion T as [|? ? Ta T']; subst. inversion T' as [|? ? Tb _]; subst.
      destruct (bit_bool _ Ta) as [x Hx], (bit_bool _ Tb) as [y Hy]. rewrite G, Hx, Hy, !as_bool_b2F. destruct x, y; cbn [b2F Nat.add Nat.mul]; ring.
Qed.

(** ** circuits in single-assignment form *)
Lemma run_used is : forall used e w, single_assignment used is -> In w used -> run is e w = e w.
Proof.
  induction is as [|i is IH]; intros used e w S Hw; [reflexivity|]. destruct S as (N & D & S). unfold run in *. cbn [fold_left].
  rewrite (IH _ _ w S) by (apply in_app_iff; now left). apply step_other. intros Hi. apply (D w Hi). apply in_app_iff. now left.
Qed.
Lemma single_weaken is : forall used used', (forall w, In w used' -> In w used) -> single_assignment used is -> single_assignment used' is.
Proof.
  induction is as [|i is IH]; intros used used' H S; [exact I|]. destruct S as (N & D & S). split; [exact N|]. split.
  - intros w Hw Hi. apply (D w Hw). apply in_app_iff in Hi. apply in_app_iff. destruct Hi as [Hi|Hi]; auto.
  - apply (IH (used ++ i_ins i ++ i_outs i)); [|exact S]. intros w Hw. apply in_app_iff in Hw. apply in_app_iff. destruct Hw as [Hw|Hw]; auto.
Qed.
Lemma typed_ext i e e' : arity i -> (forall w, In w (i_ins i ++ i_outs i) -> e w = e' w) -> typed i e -> typed i e'.
Proof.
  intros A Q. unfold typed. destruct (i_op i) eqn:Eo; auto; try (rewrite !Forall_forall; intros H w Hw; rewrite <- Q; [auto|apply in_app_iff; now left]).
  intros (a & b & c & H1 & H2 & H3). exists a, b, c. split; [exact H1|]. split; [exact H2|]. rewrite <- !Q; [exact H3| | |]; rewrite H1, H2; cbn; auto.
Qed.

(** final values of a well-typed evaluation satisfy the relation of every gate *)
Lemma run_crel is : forall used e, Forall plain is -> single_assignment used is -> well_typed is e ->
  Forall (fun i => crel i (run is e) []) is.
Proof.
  induction is as [|i is IH]; intros used e P S T; [constructor|]. inversion P as [|? ? P1 P2]; subst. destruct S as (N & D & S). destruct T as [T1 T2].
  unfold run in *. cbn [fold_left]. constructor; [|exact (IH _ _ P2 S T2)].
  assert (FI : forall w, In w (i_ins i ++ i_outs i) -> fold_left (fun e i => step i e) is (step i e) w = step i e w).
  { intros w Hw. apply (run_used is _ (step i e) w S). apply in_app_iff. now right. }
  assert (SI : forall w, In w (i_ins i) -> step i e w = e w).
  { intros w Hw. apply step_other. intros Hi. apply (D w Hi). apply in_app_iff. now right. }
  assert (TI : forall w, In w (touched i) -> In w (i_ins i ++ i_outs i)).
  { intros w Hw. destruct P1 as (A & NZ & TL). unfold touched in Hw. unfold arity in A. destruct (i_op i) eqn:Eo; auto; try congruence.
    specialize (TL eq_refl). destruct (Nat.eqb_spec (length (i_ins i)) 3); [lia|exact Hw]. }
  apply (crel_ext i (step i e)); [apply P1|intros w Hw; symmetry; apply FI, TI, Hw|].
  assert (T1' : typed i (step i e)).
  { destruct (i_op i) eqn:Eo.
    5:{ apply (typed_ext i e); [apply P1| |exact T1]. intros w Hw. symmetry. apply step_other. unfold writes. rewrite Eo. intros []. }
    all: unfold typed in *; rewrite Eo in *; auto; rewrite Forall_forall in *; intros w Hw; rewrite (SI w Hw); auto. }
  apply gate_crel; [exact P1|exact T1'|]. intros NA. rewrite (step_outs i e P1 NA N). f_equal. apply map_ext_in. intros w Hw. symmetry. now apply SI.
Qed.

(** an assignment of the wires that satisfies the relations is the evaluation of its inputs *)
Lemma crel_run is : forall used cur e, Forall plain is -> single_assignment used is ->
  Forall (fun i => i_op i = SPLIT -> length (i_outs i) <= 253) is ->
  Forall (fun i => crel i e []) is ->
  (forall w, ~ In w (flat_map writes is) -> cur w = e w) -> bool_typed is cur ->
  (forall w, run is cur w = e w) /\ well_typed is cur.
Proof.
  induction is as [|i is IH]; intros used cur e P S SP C Q T; [split; [intros w; apply Q; intros []|exact I]|].
  inversion P as [|? ? P1 P2]; subst. inversion SP as [|? ? SP1 SP2]; subst. inversion C as [|? ? C1 C2]; subst. destruct S as (N & D & S). destruct T as [T1 T2].
  assert (NU : forall w us l, single_assignment us l -> In w us -> ~ In w (flat_map writes l)).
  { clear. intros w us l. revert us. induction l as [|i l IH]; intros us S Hw; cbn [flat_map]; [intros []|]. destruct S as (N & D & S).
    rewrite in_app_iff. intros [H|H]; [apply (D w H), in_app_iff; now left|]. apply (IH (us ++ i_ins i ++ i_outs i)); [exact S|apply in_app_iff; now left|exact H]. }
  assert (CI : forall w, In w (i_ins i) -> cur w = e w).
  { intros w Hw. apply Q. cbn [flat_map]. rewrite in_app_iff. intros [H|H]; [apply (D w H), in_app_iff; now right|].
    apply (NU w _ _ S); [|exact H]. apply in_app_iff. right. apply in_app_iff. now left. }
  assert (T1' : match i_op i with XOR | OR | TABLE => Forall (fun w => bit (e w)) (i_ins i) | _ => True end).
  { destruct (i_op i); auto; rewrite Forall_forall in *; intros w Hw; rewrite <- (CI w Hw); auto. }
  destruct (crel_gate i e P1 SP1 T1' C1) as [TY GA].
  assert (ST : forall w, ~ In w (flat_map writes is) -> step i cur w = e w).
  { intros w Hw. destruct (in_dec Nat.eq_dec w (writes i)) as [Hi|Hi].
    - assert (NA : i_op i <> ASSERT) by (intros Eo; unfold writes in Hi; rewrite Eo in Hi; destruct Hi).
      assert (WO : writes i = i_outs i) by (unfold writes; destruct (i_op i); congruence). rewrite WO in Hi.
      assert (EQ : map (step i cur) (i_outs i) = map e (i_outs i)).
      { rewrite (step_outs i cur P1 NA N), (GA NA). f_equal. apply map_ext_in. exact CI. }
      clear - EQ Hi. revert EQ Hi. generalize (step i cur) as f. intros f. induction (i_outs i) as [|u l IHl]; intros EQ []; cbn [map] in EQ.
      + subst. now apply (f_equal (hd F0)) in EQ.
      + apply IHl; [|assumption]. now apply (f_equal (@tl _)) in EQ.
    - rewrite step_other by exact Hi. apply Q. cbn [flat_map]. rewrite in_app_iff. tauto. }
  destruct (IH _ (step i cur) e P2 S SP2 C2 ST T2) as [R1' R2']. split.
  - intros w. unfold run in *. cbn [fold_left]. apply R1'.
  - split; [|exact R2']. destruct (i_op i) eqn:Eo.
    5:{ apply (typed_ext i e); [apply P1| |exact TY]. intros w Hw. symmetry. apply Q. cbn [flat_map]. rewrite in_app_iff. intros [H|H].
        - unfold writes in H. rewrite Eo in H. destruct H.
        - apply (NU w _ _ S); [|exact H]. apply in_app_iff. now right. }
    all: unfold typed in *; rewrite Eo in *; auto; rewrite Forall_forall in *; intros w Hw; rewrite (CI w Hw); auto.
Qed.
