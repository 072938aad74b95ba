(** The circuit reader: meaning of the constraints of each instruction and of the whole system. *)
From Coq Require Import List ZArith Bool Arith Lia.
From Verif Require Import Primes Field Base R1CS R1CSFacts M_Lookup M_Utils P_Utils M_Circuit Spec_Circuit P_Circuit.
Import ListNotations.
Local Open Scope nat_scope.

Lemma F_1_r x : (x * F1)%F = x.
Proof. ring. Qed.
Lemma F_1_l x : (F1 * x)%F = x.
Proof. ring. Qed.
(** number of auxiliary variables of an instruction *)
Definition naux (i : inst) : nat :=
  match i_op i with ZEROP => 1 | TABLE => if length (i_ins i) =? 3 then 5 else 0 | _ => 0 end.
(** relation enforced by the constraints of an instruction *)
Definition crel (i : inst) (e : env) (aux : list F) : Prop :=
  let x := e (nth 0 (i_ins i) 0) in let y := e (nth 1 (i_ins i) 0) in let z := e (nth 2 (i_ins i) 0) in
  let o := e (nth 0 (i_outs i) 0) in
  let c k := nth k (i_table i) F0 in
  let a k := nth k aux F0 in
  match i_op i with
  | ADD => o = fsum (map e (i_ins i))
  | MUL | ASSERT => (x * y = o)%F
  | XOR => (Fof 2 * x * y = x + y - o)%F
  | OR => (x * y = x + y - o)%F
  | CONST_MUL | CONST_MUL_NEG => (x * i_const i = o)%F
  | ZEROP => isbit o /\ (x * (F1 - o) = F0)%F /\ (x * a 0 = o)%F
  | SPLIT => Forall (fun w => isbit (e w)) (i_outs i) /\ x = fsum2 (map e (i_outs i))
  | PACK => o = fsum2 (map e (i_ins i))
  | TABLE =>
    match length (i_ins i) with
    | 1 => (c 0 + x * (c 1 - c 0) = o)%F
    | 2 => ((c 1 - c 0 + y * (c 3 - c 2 - c 1 + c 0)) * x = o - c 0 + y * (c 0 - c 2))%F
    | 3 => (x * y = a 1 /\ x * z = a 2 /\ y * z = a 3 /\ a 1 * z = a 4 /\
            c 0 - c 0 * x + c 1 * x - c 0 * y + c 2 * y + (- c 1 + - c 2 + c 0 + c 3) * a 1 + (- c 0 + c 4) * z
            + (c 0 - c 1 - c 4 + c 5) * a 2 + (c 0 - c 2 - c 4 + c 6) * a 3
            + (- c 0 + c 1 + c 2 - c 3 + c 4 - c 5 - c 6 + c 7) * a 4 = a 0)%F
    | _ => False
    end
  end.

Lemma ev_lc_sum t l : forall a, ev t (fold_left LAdd l a) = (ev t a + fsum (map (ev t) l))%F.
Proof. unfold fsum. induction l as [|x l IH]; intros a; cbn [fold_left map fold_right]; [ring|]. rewrite IH. cbn [ev]. ring. Qed.
Lemma ev_lc_sum_V t vs : ev t (lc_sum (map V vs)) = fsum (map t vs).
Proof. unfold lc_sum. rewrite ev_lc_sum, map_map. cbn [ev L0]. change (ev t L0) with F0. change (fun x => ev t (V x)) with (fun x => t x). replace (map (fun x => t x) vs) with (map t vs) by reflexivity. ring. Qed.
Lemma ev_two t vs : forall two, fsum (map (ev t) (two_terms vs two)) = (two * fsum2 (map t vs))%F.
Proof.
  unfold fsum. induction vs as [|v vs IH]; intros two; cbn [two_terms map fold_right fsum2]; [ring|]. rewrite IH. cbn [ev].
  replace (two + two)%F with (Fof 2 * two)%F; [ring|]. change (Fof 2) with (Fof (1 + 1)). rewrite Fof_add. change (Fof 1) with F1. ring.
Qed.
Lemma ev_lc_two t vs : ev t (lc_sum (two_terms vs F1)) = fsum2 (map t vs).
Proof. unfold lc_sum. rewrite ev_lc_sum, ev_two. change (ev t L0) with F0. ring. Qed.

Lemma isbit_map rd t ws vs : Forall2 (mapped rd) ws vs -> (sat t (map (fun v => boolean_c (V v)) vs) <-> Forall (fun w => isbit (env_of rd t w)) ws).
Proof.
  induction 1 as [|w v ws vs H _ IH]; cbn [map]; [split; [constructor|intros; apply sat_nil]|].
  rewrite sat_cons, boolean_c_spec, IH. cbn [ev]. rewrite <- (env_of_mapped _ t _ _ H). split.
  - intros [H1 H2]. now constructor.
  - intros H1. inversion H1; subst. now split.
Qed.

Ltac get1 W E G M := 
  match goal with |- context [varGet ?w ?rd] => destruct (varGet w rd) as [?l ?rd1] eqn:E; destruct (varGet_ok _ _ _ _ W E) as [G M] end.

Lemma sat1 t a b c : sat t [R1 a b c] <-> (ev t a * ev t b = ev t c)%F.
Proof. rewrite sat_cons. unfold holds. cbn [cA cB cC]. split; [tauto|]. intros H. split; [exact H|apply sat_nil]. Qed.

Lemma three_ok i rd cs0 : wfr rd -> length (i_ins i) = 2 -> length (i_outs i) = 1 -> naux i = 0 ->
  (forall l1 l2 l3 t x y o, t l1 = x -> t l2 = y -> t l3 = o -> forall e, e (nth 0 (i_ins i) 0) = x -> e (nth 1 (i_ins i) 0) = y -> e (nth 0 (i_outs i) 0) = o ->
     (sat t (cs0 l1 l2 l3) <-> crel i e [])) ->
  exists rd' new m,
    (a <- idx (i_ins i) 0 ;; b <- idx (i_ins i) 1 ;; o <- idx (i_outs i) 0 ;;
     (let (l1, rd) := varGet a rd in let (l2, rd) := varGet b rd in let (l3, rd) := varGet o rd in
      Ok (r_add rd (cs0 l1 l2 l3)))) = Ok rd' /\ grow rd rd' new /\ r_next rd <= m /\ m + naux i <= r_next rd' /\
    (forall w v, mapped rd' w v -> ~ (m <= v < m + naux i)) /\
    (forall w, In w (i_ins i ++ i_outs i) -> exists v, mapped rd' w v) /\
    forall rdf t, ext rd' rdf -> (sat t new <-> crel i (env_of rdf t) (map t (seq m (naux i)))).
Proof.
  intros W Hi Ho Hn HC. rewrite Hn. destruct i as [op k ins outs tab]. cbn [i_ins i_outs] in *.
  destruct ins as [|a [|b [|]]]; try discriminate. destruct outs as [|o [|]]; try discriminate.
  cbn [idx nth_error]. rewrite !bind_ok. cbn [nth] in HC.
  destruct (varGet a rd) as [l1 rd1] eqn:E1. destruct (varGet_ok _ _ _ _ W E1) as [G1 M1].
  destruct (varGet b rd1) as [l2 rd2] eqn:E2. destruct (varGet_ok _ _ _ _ (g_wf G1) E2) as [G2 M2].
  destruct (varGet o rd2) as [l3 rd3] eqn:E3. destruct (varGet_ok _ _ _ _ (g_wf G2) E3) as [G3 M3].
  assert (M1' : mapped rd3 a l1) by (apply (g_ext G3), (g_ext G2); exact M1).
  assert (M2' : mapped rd3 b l2) by (apply (g_ext G3); exact M2).
  pose proof (grow_trans _ _ _ _ _ G1 (grow_trans _ _ _ _ _ G2 (grow_trans _ _ _ _ _ G3 (r_add_grow rd3 (cs0 l1 l2 l3) (g_wf G3))))) as G.
  cbn [app] in G. exists (r_add rd3 (cs0 l1 l2 l3)), (cs0 l1 l2 l3), (r_next (r_add rd3 (cs0 l1 l2 l3))).
  split; [reflexivity|]. split; [exact G|]. split; [exact (g_next G)|]. split; [lia|]. split; [intros; lia|]. split.
  { intros w [<- |[<- |[<- |[]]]]; eexists; eassumption. }
  intros rdf t X. cbn [seq map].
  apply (HC l1 l2 l3 t _ _ _ eq_refl eq_refl eq_refl); apply env_of_mapped; apply X; assumption.
Qed.

Lemma two_ok i rd cs0 : wfr rd -> length (i_ins i) = 1 -> length (i_outs i) = 1 -> naux i = 0 ->
  (forall l1 l3 t x o, t l1 = x -> t l3 = o -> forall e, e (nth 0 (i_ins i) 0) = x -> e (nth 0 (i_outs i) 0) = o ->
     (sat t (cs0 l1 l3) <-> crel i e [])) ->
  exists rd' new m,
    (a <- idx (i_ins i) 0 ;; o <- idx (i_outs i) 0 ;;
     (let (l1, rd) := varGet a rd in let (l3, rd) := varGet o rd in
      Ok (r_add rd (cs0 l1 l3)))) = Ok rd' /\ grow rd rd' new /\ r_next rd <= m /\ m + naux i <= r_next rd' /\
    (forall w v, mapped rd' w v -> ~ (m <= v < m + naux i)) /\
    (forall w, In w (i_ins i ++ i_outs i) -> exists v, mapped rd' w v) /\
    forall rdf t, ext rd' rdf -> (sat t new <-> crel i (env_of rdf t) (map t (seq m (naux i)))).
Proof.
  intros W Hi Ho Hn HC. rewrite Hn. destruct i as [op k ins outs tab]. cbn [i_ins i_outs] in *.
  destruct ins as [|a [|]]; try discriminate. destruct outs as [|o [|]]; try discriminate.
  cbn [idx nth_error]. rewrite !bind_ok. cbn [nth] in HC.
  destruct (varGet a rd) as [l1 rd1] eqn:E1. destruct (varGet_ok _ _ _ _ W E1) as [G1 M1].
  destruct (varGet o rd1) as [l3 rd3] eqn:E3. destruct (varGet_ok _ _ _ _ (g_wf G1) E3) as [G3 M3].
  assert (M1' : mapped rd3 a l1) by (apply (g_ext G3); exact M1).
  pose proof (grow_trans _ _ _ _ _ G1 (grow_trans _ _ _ _ _ G3 (r_add_grow rd3 (cs0 l1 l3) (g_wf G3)))) as G.
  cbn [app] in G. exists (r_add rd3 (cs0 l1 l3)), (cs0 l1 l3), (r_next (r_add rd3 (cs0 l1 l3))).
  split; [reflexivity|]. split; [exact G|]. split; [exact (g_next G)|]. split; [lia|]. split; [intros; lia|]. split.
  { intros w [<- |[<- |[]]]; eexists; eassumption. }
  intros rdf t X. cbn [seq map].
  apply (HC l1 l3 t _ _ eq_refl eq_refl); apply env_of_mapped; apply X; assumption.
Qed.

(** wires that makeConstraints looks up *)
Definition touched (i : inst) : list wire :=
  match i_op i with
  | ZEROP => i_ins i ++ [nth 0 (i_outs i) 0]
  | TABLE => if length (i_ins i) =? 3 then i_ins i else i_ins i ++ i_outs i
  | _ => i_ins i ++ i_outs i
  end.

Lemma In_Forall2 rd ws vs w : Forall2 (mapped rd) ws vs -> In w ws -> exists v, mapped rd w v.
Proof. induction 1 as [|a v ws vs H _ IH]; intros []; [subst; eauto|auto]. Qed.

Lemma mk_ok i rd : wfr rd -> arity i ->
  exists rd' new m, makeConstraints i rd = Ok rd' /\ grow rd rd' new /\ r_next rd <= m /\ m + naux i <= r_next rd' /\
  (forall w v, mapped rd' w v -> ~ (m <= v < m + naux i)) /\
  (forall w, In w (touched i) -> exists v, mapped rd' w v) /\
  forall rdf t, ext rd' rdf -> (sat t new <-> crel i (env_of rdf t) (map t (seq m (naux i)))).
Proof.
  intros W A. destruct i as [op k ins outs tab]. unfold arity in A. cbn [i_op i_const i_ins i_outs i_table] in A.
  unfold makeConstraints. cbn [i_op i_const i_ins i_outs i_table].
  destruct op.
  - destruct A as [A1 A2]. replace (1 <? length ins) with true by (symmetry; apply Nat.ltb_lt; lia). cbn [oassert]. rewrite bind_ok.
    destruct outs as [|o [|]]; try discriminate. unfold handleAddition. cbn [idx nth_error]. rewrite bind_ok.
    destruct (varGet o rd) as [l rd1] eqn:E1. destruct (varGet_ok _ _ _ _ W E1) as [G1 M1].
    destruct (varGets ins rd1) as [vs rd2] eqn:E2. destruct (varGets_ok _ _ _ _ (g_wf G1) E2) as [G2 M2].
    pose proof (grow_trans _ _ _ _ _ G1 (grow_trans _ _ _ _ _ G2 (r_add_grow rd2 [R1 L1 (lc_sum (map V vs)) (V l)] (g_wf G2)))) as G.
    eexists _, _, _. split; [reflexivity|]. split; [exact G|]. split; [exact (g_next G)|]. cbn [naux i_op seq map touched i_ins i_outs].
    split; [lia|]. split; [intros; lia|]. split.
    { intros w Hw. apply in_app_iff in Hw. destruct Hw as [Hw|[<- |[]]]; [exact (In_Forall2 _ _ _ _ M2 Hw)|]. exists l. apply (g_ext G2). exact M1. }
    intros rdf t X. cbn [app]. rewrite sat1, ev_lc_sum_V. cbn [ev]. unfold crel. cbn [i_op i_ins i_outs nth].
    rewrite (env_of_mapped rdf t o l) by (apply X, (g_ext G2); exact M1). rewrite (env_of_map rdf t ins vs) by (apply (Forall2_ext rd2); [exact X|exact M2]).
    change (ev t L1) with F1. rewrite F_1_l. split; congruence.
  - destruct A as [A1 A2]. rewrite A1, A2. cbn [Nat.eqb andb oassert]. rewrite bind_ok.
    apply (three_ok (Inst MUL k ins outs tab) rd (fun l1 l2 l3 => [R1 (V l1) (V l2) (V l3)]) W A1 A2 eq_refl).
    intros l1 l2 l3 t x y o <- <- <- e H1 H2 H3. rewrite sat1. unfold crel. cbn [i_op i_ins i_outs] in *. rewrite H1, H2, H3. reflexivity.
  - destruct A as [A1 A2]. rewrite A1, A2. cbn [Nat.eqb andb oassert]. rewrite bind_ok.
    apply (three_ok (Inst XOR k ins outs tab) rd (fun l1 l2 l3 => [R1 (LScale (Fof 2) (V l1)) (V l2) (LSub (LAdd (V l1) (V l2)) (V l3))]) W A1 A2 eq_refl).
    intros l1 l2 l3 t x y o <- <- <- e H1 H2 H3. rewrite sat1. unfold crel. cbn [i_op i_ins i_outs] in *. rewrite H1, H2, H3. reflexivity.
  - destruct A as [A1 A2]. rewrite A1, A2. cbn [Nat.eqb andb oassert]. rewrite bind_ok.
    apply (three_ok (Inst OR k ins outs tab) rd (fun l1 l2 l3 => [R1 (V l1) (V l2) (LSub (LAdd (V l1) (V l2)) (V l3))]) W A1 A2 eq_refl).
    intros l1 l2 l3 t x y o <- <- <- e H1 H2 H3. rewrite sat1. unfold crel. cbn [i_op i_ins i_outs] in *. rewrite H1, H2, H3. reflexivity.
  - destruct A as [A1 A2]. rewrite A1, A2. cbn [Nat.eqb andb oassert]. rewrite bind_ok.
    apply (three_ok (Inst ASSERT k ins outs tab) rd (fun l1 l2 l3 => [R1 (V l1) (V l2) (V l3)]) W A1 A2 eq_refl).
    intros l1 l2 l3 t x y o <- <- <- e H1 H2 H3. rewrite sat1. unfold crel. cbn [i_op i_ins i_outs] in *. rewrite H1, H2, H3. reflexivity.
  - destruct A as [A1 A2]. rewrite A1, A2. cbn [Nat.eqb andb oassert]. rewrite bind_ok.
    destruct ins as [|a [|]]; try discriminate. destruct outs as [|o [|o1 [|]]]; try discriminate.
    unfold addNonzeroCheckConstraint. cbn [idx nth_error]. rewrite !bind_ok.
    destruct (varGet a rd) as [l1 rd1] eqn:E1. destruct (varGet_ok _ _ _ _ W E1) as [G1 M1].
    destruct (varGet o rd1) as [l2 rd2] eqn:E2. destruct (varGet_ok _ _ _ _ (g_wf G1) E2) as [G2 M2].
    destruct (r_alloc rd2) as [M rd3] eqn:E3. destruct (r_alloc_ok _ _ _ (g_wf G2) E3) as (G3 & HM & N3).
    match goal with |- context [r_add rd3 ?c] => set (cs := c) end.
    pose proof (grow_trans _ _ _ _ _ G1 (grow_trans _ _ _ _ _ G2 (grow_trans _ _ _ _ _ G3 (r_add_grow rd3 cs (g_wf G3))))) as G.
    cbn [app] in G. exists (r_add rd3 cs), cs, M. split; [reflexivity|]. split; [exact G|]. pose proof (g_next G1). pose proof (g_next G2).
    cbn [naux i_op i_ins i_outs touched]. split; [lia|]. split; [cbn [r_next r_add]; lia|]. split; [|split].
    { intros w v Hv. change (mapped rd3 w v) in Hv. unfold r_alloc in E3. injection E3 as _ <-. change (mapped rd2 w v) in Hv.
      apply (proj1 (proj2 (g_wf G2))) in Hv. lia. }
    { intros w [<- |[<- |[]]]; eexists; apply (g_ext G3); [apply (g_ext G2)|]; eassumption. }
    intros rdf t X. unfold cs. rewrite !sat_cons, boolean_c_spec. unfold crel. cbn [i_op i_ins i_outs nth seq map].
    rewrite (env_of_mapped rdf t a l1) by (apply X, (g_ext G3), (g_ext G2); exact M1).
    rewrite (env_of_mapped rdf t o l2) by (apply X, (g_ext G3); exact M2).
    unfold holds. cbn [cA cB cC ev]. change (ev t L1) with F1. change (ev t L0) with F0.
    pose proof (sat_nil t). tauto.
  - rewrite A. cbn [Nat.eqb oassert]. rewrite bind_ok. destruct ins as [|a [|]]; try discriminate.
    unfold addSplitConstraint. destruct (varGets outs rd) as [vs rd1] eqn:E1. destruct (varGets_ok _ _ _ _ W E1) as [G1 M1].
    cbn [idx nth_error]. rewrite bind_ok.
    match goal with |- context [r_add rd1 ?c] => set (cs1 := c) end.
    pose proof (r_add_grow rd1 cs1 (g_wf G1)) as G1'.
    destruct (varGet a (r_add rd1 cs1)) as [l rd2] eqn:E2. destruct (varGet_ok _ _ _ _ (g_wf G1') E2) as [G2 M2].
    pose proof (grow_trans _ _ _ _ _ G1 (grow_trans _ _ _ _ _ G1' (grow_trans _ _ _ _ _ G2 (r_add_grow rd2 [R1 (V l) L1 (lc_sum (two_terms vs F1))] (g_wf G2))))) as G.
    cbn [app] in G. eexists _, _, _. split; [reflexivity|]. split; [exact G|]. split; [exact (g_next G)|]. cbn [naux i_op seq map touched i_ins i_outs].
    split; [lia|]. split; [intros; lia|].
    assert (M1' : Forall2 (mapped rd2) outs vs).
    { apply (Forall2_ext rd1); [|exact M1]. exact (ext_trans _ _ _ (g_ext G1') (g_ext G2)). } split.
    { intros w [<- |Hw]; [exists l; exact M2|exact (In_Forall2 _ _ _ _ M1' Hw)]. }
    intros rdf t X. rewrite sat_app, sat1, ev_lc_two. cbn [ev]. unfold crel. cbn [i_op i_ins i_outs nth].
    rewrite (env_of_mapped rdf t a l) by (apply X; exact M2).
    assert (M1f : Forall2 (mapped rdf) outs vs) by (apply (Forall2_ext rd2); [exact X|exact M1']).
    rewrite (env_of_map rdf t outs vs M1f). unfold cs1. rewrite (isbit_map rdf t outs vs M1f). change (ev t L1) with F1. rewrite F_1_r. reflexivity.
  - rewrite A. cbn [Nat.eqb oassert]. rewrite bind_ok. destruct outs as [|o [|]]; try discriminate.
    unfold addPackConstraint. destruct (varGets ins rd) as [vs rd1] eqn:E1. destruct (varGets_ok _ _ _ _ W E1) as [G1 M1].
    cbn [idx nth_error]. rewrite bind_ok.
    destruct (varGet o rd1) as [l rd2] eqn:E2. destruct (varGet_ok _ _ _ _ (g_wf G1) E2) as [G2 M2].
    pose proof (grow_trans _ _ _ _ _ G1 (grow_trans _ _ _ _ _ G2 (r_add_grow rd2 [R1 (V l) L1 (lc_sum (two_terms vs F1))] (g_wf G2)))) as G.
    cbn [app] in G. eexists _, _, _. split; [reflexivity|]. split; [exact G|]. split; [exact (g_next G)|]. cbn [naux i_op seq map touched i_ins i_outs].
    split; [lia|]. split; [intros; lia|].
    assert (M1' : Forall2 (mapped rd2) ins vs).
    { apply (Forall2_ext rd1); [|exact M1]. exact (g_ext G2). } split.
    { intros w Hw. apply in_app_iff in Hw. destruct Hw as [Hw|[<- |[]]]; [exact (In_Forall2 _ _ _ _ M1' Hw)|exists l; exact M2]. }
    intros rdf t X. rewrite sat1, ev_lc_two. cbn [ev]. unfold crel. cbn [i_op i_ins i_outs nth].
    rewrite (env_of_mapped rdf t o l) by (apply X; exact M2).
    rewrite (env_of_map rdf t ins vs) by (apply (Forall2_ext rd2); [exact X|exact M1']). change (ev t L1) with F1. rewrite F_1_r. reflexivity.
  - destruct A as [A1 A2]. rewrite A1, A2. cbn [Nat.eqb andb oassert]. rewrite bind_ok.
    apply (two_ok (Inst CONST_MUL_NEG k ins outs tab) rd (fun l1 l3 => [R1 (V l1) (LC k) (V l3)]) W A1 A2 eq_refl).
    intros l1 l3 t x o <- <- e H1 H3. rewrite sat1. unfold crel. cbn [i_op i_ins i_outs i_const] in *. rewrite H1, H3. reflexivity.
  - destruct A as [A1 A2]. rewrite A1, A2. cbn [Nat.eqb andb oassert]. rewrite bind_ok.
    apply (two_ok (Inst CONST_MUL k ins outs tab) rd (fun l1 l3 => [R1 (V l1) (LC k) (V l3)]) W A1 A2 eq_refl).
    intros l1 l3 t x o <- <- e H1 H3. rewrite sat1. unfold crel. cbn [i_op i_ins i_outs i_const] in *. rewrite H1, H3. reflexivity.
  - destruct A as (A1 & A2 & A3). unfold addTableConstraint.
    assert (HL : length ins = 1 \/ length ins = 2 \/ length ins = 3) by lia.
    destruct HL as [HL|[HL|HL]]; rewrite HL in A3; cbn [Nat.pow Nat.mul Nat.add] in A3; rewrite A3; cbn [Nat.eqb].
    + destruct tab as [|c0 [|c1 [|]]]; try discriminate.
      assert (N0 : naux (Inst TABLE k ins outs [c0; c1]) = 0) by (unfold naux; cbn [i_op i_ins]; rewrite HL; reflexivity).
      assert (T0 : touched (Inst TABLE k ins outs [c0; c1]) = ins ++ outs) by (unfold touched; cbn [i_op i_ins i_outs]; rewrite HL; reflexivity).
      rewrite T0.
      apply (two_ok (Inst TABLE k ins outs [c0; c1]) rd (fun b r => [R1 (LSub (LAdd (LC c0) (term b c1)) (term b c0)) L1 (V r)]) W HL A2 N0).
      intros l1 l3 t x o <- <- e H1 H3. rewrite sat1. unfold crel. cbn [i_op i_ins i_outs i_const i_table nth] in *. rewrite HL, H1, H3.
      unfold term. cbn [ev]. change (ev t L1) with F1. rewrite F_1_r. 
      replace (c0 + c1 * t l1 - c0 * t l1)%F with (c0 + t l1 * (c1 - c0))%F by ring. reflexivity.
    + destruct tab as [|c0 [|c1 [|c2 [|c3 [|]]]]]; try discriminate.
      assert (N0 : naux (Inst TABLE k ins outs [c0; c1; c2; c3]) = 0) by (unfold naux; cbn [i_op i_ins]; rewrite HL; reflexivity).
      assert (T0 : touched (Inst TABLE k ins outs [c0; c1; c2; c3]) = ins ++ outs) by (unfold touched; cbn [i_op i_ins i_outs]; rewrite HL; reflexivity).
      rewrite T0.
      assert (K := three_ok (Inst TABLE k ins outs [c0; c1; c2; c3]) rd
        (fun b0 b1 r => [R1 (LAdd (LC (c1 - c0)%F) (term b1 (c3 - c2 - c1 + c0)%F)) (V b0) (LAdd (LAdd (LC (- c0)%F) (V r)) (term b1 (- c2 + c0)%F))]) W HL A2 N0).
      destruct ins as [|a [|b [|]]]; try discriminate. destruct outs as [|o [|]]; try discriminate.
      cbn [idx nth_error i_ins i_outs] in *. rewrite !bind_ok in *. 
      destruct (varGet a rd) as [b0 rd1] eqn:E1. destruct (varGet b rd1) as [b1 rd2] eqn:E2. rewrite ?bind_ok. destruct (varGet o rd2) as [r rd3] eqn:E3.
      unfold lookup2_constraints_fn. cbn [idx nth_error]. rewrite !bind_ok. apply K.
      intros l1 l2 l3 t x y z <- <- <- e H1 H2 H3. rewrite sat1. unfold crel. cbn [i_op i_ins i_outs i_const i_table nth length] in *. rewrite H1, H2, H3.
      unfold term. cbn [ev].
      replace (c1 - c0 + (c3 - c2 - c1 + c0) * t l2)%F with (c1 - c0 + t l2 * (c3 - c2 - c1 + c0))%F by ring.
      replace (- c0 + t l3 + (- c2 + c0) * t l2)%F with (t l3 - c0 + t l2 * (c0 - c2))%F by ring. reflexivity.
    + destruct tab as [|c0 [|c1 [|c2 [|c3 [|c4 [|c5 [|c6 [|c7 [|]]]]]]]]]; try discriminate.
      assert (N0 : naux (Inst TABLE k ins outs [c0; c1; c2; c3; c4; c5; c6; c7]) = 5) by (unfold naux; cbn [i_op i_ins]; rewrite HL; reflexivity).
      assert (T0 : touched (Inst TABLE k ins outs [c0; c1; c2; c3; c4; c5; c6; c7]) = ins) by (unfold touched; cbn [i_op i_ins i_outs]; rewrite HL; reflexivity).
      rewrite T0, N0. clear T0 N0.
      destruct ins as [|a [|b [|d [|]]]]; try discriminate. destruct outs as [|o [|]]; try discriminate.
      cbn [idx nth_error]. rewrite !bind_ok.
      destruct (varGet a rd) as [b0 rd1] eqn:E1. destruct (varGet_ok _ _ _ _ W E1) as [G1 M1].
      destruct (varGet b rd1) as [b1 rd2] eqn:E2. destruct (varGet_ok _ _ _ _ (g_wf G1) E2) as [G2 M2].
      destruct (varGet d rd2) as [b2 rd3] eqn:E3. destruct (varGet_ok _ _ _ _ (g_wf G2) E3) as [G3 M3].
      unfold lookup3_new. cbn [length Nat.eqb oassert]. rewrite !bind_ok.
      unfold lookup3_constraints. cbn [lk3_b lk3_c lk3_r lk3_p01 lk3_p02 lk3_p12 lk3_p012 idx nth_error]. rewrite !bind_ok.
      destruct (r_alloc rd3) as [u1 q1] eqn:D1. destruct (r_alloc_ok _ _ _ (g_wf G3) D1) as (J1 & _ & L1').
      destruct (r_alloc q1) as [u2 q2] eqn:D2. destruct (r_alloc_ok _ _ _ (g_wf J1) D2) as (J2 & _ & L2').
      destruct (r_alloc q2) as [u3 q3] eqn:D3. destruct (r_alloc_ok _ _ _ (g_wf J2) D3) as (J3 & _ & L3').
      destruct (r_alloc q3) as [u4 q4] eqn:D4. destruct (r_alloc_ok _ _ _ (g_wf J3) D4) as (J4 & _ & L4').
      destruct (r_alloc q4) as [u5 q5] eqn:D5. destruct (r_alloc_ok _ _ _ (g_wf J4) D5) as (J5 & _ & L5').
      match goal with |- context [r_add q5 ?c] => set (cs := c) end.
      pose proof (grow_trans _ _ _ _ _ G1 (grow_trans _ _ _ _ _ G2 (grow_trans _ _ _ _ _ G3 (grow_trans _ _ _ _ _ J1 (grow_trans _ _ _ _ _ J2
        (grow_trans _ _ _ _ _ J3 (grow_trans _ _ _ _ _ J4 (grow_trans _ _ _ _ _ J5 (r_add_grow q5 cs (g_wf J5)))))))))) as G.
      cbn [app] in G.
      assert (MM : r_map q5 = r_map rd3).
      { unfold r_alloc in *. injection D1 as _ <-. injection D2 as _ <-. injection D3 as _ <-. injection D4 as _ <-. injection D5 as _ <-. reflexivity. }
      exists (r_add q5 cs), cs, (r_next rd3). split; [reflexivity|]. split; [exact G|]. pose proof (g_next G1). pose proof (g_next G2). pose proof (g_next G3).
      split; [lia|]. split; [cbn [r_next r_add]; lia|].
      assert (X0 : ext rd3 (r_add q5 cs)) by (intros w v Hv; unfold mapped in *; cbn [r_map r_add]; rewrite MM; exact Hv).
      assert (M1' : mapped rd3 a b0) by (apply (g_ext G3), (g_ext G2); exact M1).
      assert (M2' : mapped rd3 b b1) by (apply (g_ext G3); exact M2).
      split; [|split].
      { intros w v Hv. unfold mapped in Hv. cbn [r_map r_add] in Hv. rewrite MM in Hv. change (mapped rd3 w v) in Hv.
        apply (proj1 (proj2 (g_wf G3))) in Hv. lia. }
      { intros w [<- |[<- |[<- |[]]]]; eexists; apply X0; eassumption. }
      intros rdf t X. unfold cs. unfold crel. cbn [i_op i_ins i_outs nth seq map length i_table].
      rewrite (env_of_mapped rdf t a b0) by (apply X, X0; exact M1').
      rewrite (env_of_mapped rdf t b b1) by (apply X, X0; exact M2').
      rewrite (env_of_mapped rdf t d b2) by (apply X, X0; exact M3).
      rewrite !sat_cons. unfold holds, term. cbn [cA cB cC ev]. change (ev t L1) with F1.
      replace (r_next rd3 + 1) with (S (r_next rd3)) by lia. replace (r_next rd3 + 2) with (S (S (r_next rd3))) by lia.
      replace (r_next rd3 + 3) with (S (S (S (r_next rd3)))) by lia. replace (r_next rd3 + 4) with (S (S (S (S (r_next rd3))))) by lia.
      pose proof (sat_nil t).
      match goal with |- context [((?big) * F1 = t (r_next rd3))%F] => set (B := big) end.
      match goal with |- context [(?big = t (r_next rd3))%F] => match big with Fmul _ F1 => fail 1 | _ => replace big with (B * F1)%F by (unfold B; ring) end end.
      tauto.
Qed.

(** the whole constraint system *)
Definition mkAll (is : list inst) (o : outcome reader) : outcome reader := fold_left (fun o i => obind o (makeConstraints i)) is o.
Lemma mkAll_ok is : forall rd, wfr rd -> Forall arity is ->
  exists rd' new ms, mkAll is (Ok rd) = Ok rd' /\ grow rd rd' new /\ length ms = length is /\
  Forall2 (fun i m => r_next rd <= m /\ m + naux i <= r_next rd' /\ forall w v, mapped rd' w v -> ~ (m <= v < m + naux i)) is ms /\
  (forall w, In w (flat_map touched is) -> exists v, mapped rd' w v) /\
  (forall t, sat t new <-> Forall2 (fun i m => crel i (env_of rd' t) (map t (seq m (naux i)))) is ms).
Proof.
  intros rd W A.
  assert (Gen : exists rd' new ms, mkAll is (Ok rd) = Ok rd' /\ grow rd rd' new /\ length ms = length is /\
    Forall2 (fun i m => r_next rd <= m /\ m + naux i <= r_next rd' /\ forall w v, mapped rd' w v -> ~ (m <= v < m + naux i)) is ms /\
    (forall w, In w (flat_map touched is) -> exists v, mapped rd' w v) /\
    (forall rdf t, ext rd' rdf -> (sat t new <-> Forall2 (fun i m => crel i (env_of rdf t) (map t (seq m (naux i)))) is ms))).
  { revert rd W A. induction is as [|i is IH]; intros rd W A.
    - exists rd, [], []. split; [reflexivity|]. split; [now apply grow_refl|]. split; [reflexivity|]. split; [constructor|]. split; [intros w []|].
      intros rdf t _. split; [constructor|intros; apply sat_nil].
    - inversion A as [|? ? A1 A2]; subst. destruct (mk_ok i rd W A1) as (rd1 & n1 & m & E1 & G1 & B1 & B2 & B3 & T1 & S1).
      destruct (IH rd1 (g_wf G1) A2) as (rd2 & n2 & ms & E2 & G2 & L2 & F2 & T2 & S2).
      exists rd2, (n1 ++ n2), (m :: ms). split; [unfold mkAll in *; cbn [fold_left]; rewrite bind_ok, E1; exact E2|].
      pose proof (g_next G1) as N1. pose proof (g_next G2) as N2.
      split; [exact (grow_trans _ _ _ _ _ G1 G2)|]. split; [cbn [length]; now rewrite L2|]. split; [|split].
      + constructor.
        * split; [exact B1|]. split; [lia|]. intros w v Hv. destruct (g_newmap G2 w v Hv) as [H|H]; [exact (B3 w v H)|lia].
        * clear - F2 N1. induction F2 as [|x y l l' H _ IH]; constructor; [destruct H as (H1 & H2 & H3); split; [lia|split; [exact H2|exact H3]]|exact IH].
      + intros w Hw. cbn [flat_map] in Hw. apply in_app_iff in Hw. destruct Hw as [Hw|Hw]; [|exact (T2 w Hw)].
        destruct (T1 w Hw) as [v Hv]. exists v. exact (g_ext G2 _ _ Hv).
      + intros rdf t X. rewrite sat_app, (S1 rdf t (ext_trans _ _ _ (g_ext G2) X)), (S2 rdf t X). split.
        * intros [H1 H2]. constructor; assumption.
        * intros H. inversion H; subst. now split. }
  destruct Gen as (rd' & new & ms & E & G & L & B & T & S). exists rd', new, ms.
  split; [exact E|]. split; [exact G|]. split; [exact L|]. split; [exact B|]. split; [exact T|]. intros t. apply S. apply ext_refl.
Qed.
