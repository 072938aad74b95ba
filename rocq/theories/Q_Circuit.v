(** The circuit reader: final lemmas. *)
From Coq Require Import List ZArith Bool Arith Lia.
From Verif Require Import Primes Field Base R1CS R1CSFacts M_Lookup P_Lookup M_Bits P_Bits M_Utils P_Utils M_Circuit Spec_Circuit P_Circuit P_Circuit2 P_Circuit3.
Import ListNotations.
Local Open Scope nat_scope.

Lemma wire_val_env rd t w : wire_val rd t w = env_of rd t w.
Proof. reflexivity. Qed.

Lemma Forall2_crel (l : list inst) ms e t : Forall plain l -> length ms = length l ->
  (Forall2 (fun i m => crel i e (map t (seq m (naux i)))) l ms <-> Forall (fun i => crel i e []) l).
Proof.
  revert ms. induction l as [|i l IH]; intros ms P L; destruct ms as [|m ms]; try discriminate.
  - split; constructor.
  - inversion P as [|? ? P1 P2]; subst. injection L as L. specialize (IH ms P2 L).
    assert (N0 : naux i = 0).
    { destruct P1 as (A & NZ & TL). unfold naux. destruct (i_op i) eqn:Eo; auto; try congruence.
      destruct (Nat.eqb_spec (length (i_ins i)) 3); [specialize (TL eq_refl); lia|reflexivity]. }
    split; intros H; inversion H; subst; constructor; try tauto; rewrite N0 in *; assumption.
Qed.

Lemma evAll_ok is : forall rd e, wfr rd -> Inv rd e -> Forall plain is -> well_typed is e ->
  exists rd', evAll is (Ok rd) = Ok rd' /\ estep rd rd' (run is e).
Proof.
  induction is as [|i is IH]; intros rd e W I P T.
  - exists rd. split; [reflexivity|]. constructor; auto using ext_refl.
  - inversion P as [|? ? P1 P2]; subst. destruct T as [T1 T2].
    destruct (eval_ok i rd e W I (proj1 P1) (or_intror T1) (proj1 (proj2 P1))) as (rd1 & E1 & S1).
    destruct (IH rd1 (step i e) (e_wf _ _ _ S1) (e_inv _ _ _ S1) P2 T2) as (rd2 & E2 & S2).
    exists rd2. split; [unfold evAll in *; cbn [fold_left]; rewrite bind_ok, E1; exact E2|].
    unfold run in *. cbn [fold_left]. exact (estep_trans _ _ _ _ _ S1 S2).
Qed.

Lemma circuit_complete ls inp : Forall line_ok ls -> Forall plain (insts ls) -> single_assignment [] (insts ls) ->
  well_typed (insts ls) (env_of_inputs inp) ->
  exists rd, circuitReader ls (Some inp) = Ok (insts ls, rd) /\
    (forall w, wire_val rd (r_val rd) w = run (insts ls) (env_of_inputs inp) w) /\
    (forall i w, In i (insts ls) -> In w (i_ins i ++ i_outs i) -> exists v, wire_var rd w = Some v) /\
    sat (r_val rd) (r_cs rd).
Proof.
  intros LO P SA T. destruct (parse_ok ls [] reader0 LO blank0) as (rd0 & Ep & (B1 & B2 & B3) & X & D). cbn [app] in Ep.
  pose proof (parseInputs_ok inp rd0 _ B1 B2) as S0. fold (env_of_inputs inp) in S0.
  destruct (evAll_ok (insts ls) _ _ (e_wf _ _ _ S0) (e_inv _ _ _ S0) P T) as (rd1 & E1 & S1).
  assert (A : Forall arity (insts ls)) by (eapply Forall_impl; [|exact P]; intros i Hi; apply Hi).
  destruct (mkAll_ok (insts ls) rd1 (e_wf _ _ _ S1) A) as (rd2 & new & ms & E2 & G & L & F & TC & S).
  assert (E : circuitReader ls (Some inp) = Ok (insts ls, rd2)).
  { unfold circuitReader, parseCircuit. rewrite Ep, bind_ok. change (fold_left _ (insts ls) (Ok (parseInputs inp rd0))) with (evAll (insts ls) (Ok (parseInputs inp rd0))).
    rewrite E1, bind_ok. change (fold_left _ (insts ls) (Ok rd1)) with (mkAll (insts ls) (Ok rd1)). rewrite E2, bind_ok. reflexivity. }
  exists rd2. split; [exact E|].
  assert (I2 : Inv rd2 (run (insts ls) (env_of_inputs inp))) by (exact (grow_inv _ _ _ _ (e_wf _ _ _ S1) G (e_inv _ _ _ S1))).
  split; [exact I2|]. split.
  - intros i w Hi Hw. apply (TC w). apply in_flat_map. exists i. split; [exact Hi|]. rewrite Forall_forall in P. destruct (P i Hi) as (A1 & NZ & TL).
    unfold touched. destruct (i_op i) eqn:Eo; auto; try congruence. destruct (Nat.eqb_spec (length (i_ins i)) 3); [specialize (TL eq_refl); lia|exact Hw].
  - rewrite (g_cs G), (e_cs _ _ _ S1), (e_cs _ _ _ S0), B3. cbn [app]. apply S. apply Forall2_crel; [exact P|exact L|].
    pose proof (run_crel _ _ _ P SA T) as R. rewrite Forall_forall in *. intros i Hi.
    apply (crel_ext i (run (insts ls) (env_of_inputs inp))); [apply A, Hi| |apply R, Hi]. intros w _. symmetry. apply I2.
Qed.

Lemma circuit_sound ls inputs is rd t : circuitReader ls inputs = Ok (is, rd) -> Forall plain is -> single_assignment [] is ->
  Forall (fun i => i_op i = SPLIT -> length (i_outs i) <= 253) is ->
  bool_typed is (input_env is (wire_val rd t)) -> sat t (r_cs rd) ->
  (forall w, wire_val rd t w = run is (input_env is (wire_val rd t)) w) /\ well_typed is (input_env is (wire_val rd t)).
Proof.
  intros E P SA SP BT H. assert (A : Forall arity is) by (eapply Forall_impl; [|exact P]; intros i Hi; apply Hi).
  destruct (reader_sat _ _ _ _ E A) as (ms & L & _ & _ & _ & S). apply S in H. apply Forall2_crel in H; [|exact P|exact L].
  destruct (crel_run is [] (input_env is (wire_val rd t)) (wire_val rd t) P SA SP H) as [R1' R2']; [|exact BT|split; [intros w; symmetry; apply R1'|exact R2']].
  intros w Hw. unfold input_env. change (flat_map _ is) with (flat_map writes is).
  destruct (existsb (Nat.eqb w) (flat_map writes is)) eqn:Ex; [|reflexivity]. apply existsb_exists in Ex. destruct Ex as (u & Hu & Eu).
  apply Nat.eqb_eq in Eu. subst u. contradiction.
Qed.

(** ** zerop *)
Lemma Forall2_In {A B} (R : A -> B -> Prop) l l' a : Forall2 R l l' -> In a l -> exists b, In b l' /\ R a b.
Proof. induction 1 as [|x y l l' H _ IH]; intros []; [subst; exists y; split; [now left|exact H]|]. destruct (IH H0) as (b & Hb & HR). exists b. split; [now right|exact HR]. Qed.
Lemma Forall2_both {A B} (R S : A -> B -> Prop) l l' : Forall2 R l l' -> Forall2 S l l' -> Forall2 (fun a b => R a b /\ S a b) l l'.
Proof. induction 1; intros H1; inversion H1; subst; constructor; auto. Qed.

Lemma zerop_sound ls inputs is rd t i a o o' : circuitReader ls inputs = Ok (is, rd) -> Forall arity is -> sat t (r_cs rd) ->
  In i is -> i_op i = ZEROP -> i_ins i = [a] -> i_outs i = [o; o'] ->
  wire_val rd t o = b2F (negb (Feqb (wire_val rd t a) F0)).
Proof.
  intros E A H Hi Eo Ei Eo'. destruct (reader_sat _ _ _ _ E A) as (ms & L & _ & _ & _ & S). apply S in H.
  destruct (Forall2_In _ _ _ _ H Hi) as (m & _ & C). unfold crel in C. rewrite Eo, Ei, Eo' in C. cbn [nth] in C. destruct C as (B & C1 & C2).
  change (wire_val rd t) with (env_of rd t). set (x := env_of rd t a) in *. set (y := env_of rd t o) in *. clearbody x y.
  destruct (Feqb_spec x F0) as [-> |N]; cbn [negb b2F].
  - rewrite <- C2. ring.
  - apply Fmul_integral in C1. destruct C1 as [C1|C1]; [contradiction|]. apply (proj1 (Fsub_eq0 _ _)) in C1. now symmetry.
Qed.

Lemma zerop_witness_fails ls inp is rd i a : circuitReader ls (Some inp) = Ok (is, rd) -> Forall arity is ->
  In i is -> i_op i = ZEROP -> i_ins i = [a] -> wire_val rd (r_val rd) a <> F0 -> ~ sat (r_val rd) (r_cs rd).
Proof.
  intros E A Hi Eo Ei NZ H. destruct (reader_sat _ _ _ _ E A) as (ms & L & B & _ & _ & S). apply S in H.
  destruct (Forall2_In _ _ _ _ (Forall2_both _ _ _ _ B H) Hi) as (m & _ & (_ & _ & Z & _) & C).
  unfold crel in C. unfold naux in *. rewrite Eo in *. rewrite Ei in C. cbn [nth seq map] in C. destruct C as (_ & C1 & C2).
  rewrite Z in C2 by lia. rewrite wire_val_env in NZ. apply NZ.
  assert (O : env_of rd (r_val rd) (nth 0 (i_outs i) 0) = F0) by (rewrite <- C2; ring). rewrite O in C1.
  rewrite <- C1. ring.
Qed.

(** ** tables of eight entries *)
Lemma table8_rel i e aux a b d x y z : i_op i = TABLE -> i_ins i = [a; b; d] -> e a = b2F x -> e b = b2F y -> e d = b2F z -> crel i e aux ->
  nth 0 aux F0 = nth (bindex [x; y; z]) (i_table i) F0.
Proof.
  intros Eo Ei Ha Hb Hd. unfold crel. rewrite Eo, Ei. cbn [length nth]. rewrite Ha, Hb, Hd.
  intros (C1 & C2 & C3 & C4 & C5). rewrite <- C4, <- C1, <- C2, <- C3 in C5. rewrite <- C5. unfold bindex.
  destruct x, y, z; cbn [b2F Nat.add Nat.mul]; ring.
Qed.
Lemma table8_witness_fails ls inp is rd i a b d x y z : circuitReader ls (Some inp) = Ok (is, rd) -> Forall arity is ->
  In i is -> i_op i = TABLE -> i_ins i = [a; b; d] ->
  wire_val rd (r_val rd) a = b2F x -> wire_val rd (r_val rd) b = b2F y -> wire_val rd (r_val rd) d = b2F z ->
  nth (bindex [x; y; z]) (i_table i) F0 <> F0 -> ~ sat (r_val rd) (r_cs rd).
Proof.
  intros E A Hi Eo Ei Ha Hb Hd NZ H. destruct (reader_sat _ _ _ _ E A) as (ms & L & B & _ & _ & S). apply S in H.
  destruct (Forall2_In _ _ _ _ (Forall2_both _ _ _ _ B H) Hi) as (m & _ & (_ & _ & Z & _) & C).
  apply NZ. rewrite <- (table8_rel i _ _ a b d x y z Eo Ei Ha Hb Hd C).
  unfold naux in *. rewrite Eo, Ei in *. cbn [length Nat.eqb seq map nth] in *. apply Z. lia.
Qed.

(** a wire that no constraint mentions may take any value *)
Lemma untouched_free ls inputs is rd t w x : circuitReader ls inputs = Ok (is, rd) -> Forall arity is -> sat t (r_cs rd) ->
  (forall i, In i is -> ~ In w (touched i)) ->
  exists t', sat t' (r_cs rd) /\ (wire_var rd w <> None -> wire_val rd t' w = x) /\ (forall u, u <> w -> wire_val rd t' u = wire_val rd t u).
Proof.
  intros E A H N. destruct (wire_var rd w) as [v|] eqn:Ev.
  2:{ exists t. split; [exact H|]. split; [congruence|reflexivity]. }
  destruct (reader_sat _ _ _ _ E A) as (ms & L & B & _ & W & S). exists (upd t v x).
  assert (O : forall u, u <> w -> env_of rd (upd t v x) u = env_of rd t u).
  { intros u Hu. unfold env_of. destruct (assoc (r_map rd) u) as [v'|] eqn:Eu; [|reflexivity]. apply upd_other. intros ->. apply Hu.
    exact (proj2 (proj2 W) u w v Eu Ev). }
  split; [|split; [intros _; unfold wire_val; rewrite Ev; apply upd_same|exact O]].
  apply S in H. apply S. clear S L. pose proof (Forall2_both _ _ _ _ B H) as BH. clear B H.
  revert BH A N. generalize is as l. clear E. intros l BH. induction BH as [|i m l ms ((_ & _ & _ & B4) & C) _ IH]; intros A N; constructor.
  - inversion A as [|? ? A1 A2]; subst.
    replace (map (upd t v x) (seq m (naux i))) with (map t (seq m (naux i))).
    + apply (crel_ext i (env_of rd t)); [exact A1| |exact C]. intros u Hu. symmetry. apply O. intros ->. apply (N i); [now left|exact Hu].
    + apply map_ext_in. intros k Hk. symmetry. apply upd_other. intros ->. apply in_seq in Hk. exact (B4 w v Ev Hk).
  - inversion A; subst. apply IH; [assumption|]. intros j Hj. apply N. now right.
Qed.
Lemma table8_unlinked ls inputs is rd t i a b d o x : circuitReader ls inputs = Ok (is, rd) -> Forall arity is -> sat t (r_cs rd) ->
  In i is -> i_op i = TABLE -> i_ins i = [a; b; d] -> i_outs i = [o] ->
  (forall j, In j is -> ~ In o (i_ins j)) -> (forall j, In j is -> In o (i_outs j) -> j = i) ->
  exists t', sat t' (r_cs rd) /\ (wire_var rd o <> None -> wire_val rd t' o = x) /\ (forall u, u <> o -> wire_val rd t' u = wire_val rd t u).
Proof.
  intros E A H Hi Eo Ei Eout NI NO. apply (untouched_free ls inputs is rd t o x E A H).
  intros j Hj Ht. unfold touched in Ht. specialize (NI j Hj). specialize (NO j Hj).
  rewrite Forall_forall in A. pose proof (A j Hj) as Aj. unfold arity in Aj.
  assert (K : In o (i_outs j) -> touched j = i_ins j).
  { intros Ho. rewrite (NO Ho). unfold touched. rewrite Eo, Ei. reflexivity. }
  assert (KK : In o (i_ins j ++ i_outs j) -> i_op j = TABLE /\ length (i_ins j) = 3).
  { intros Hx. apply in_app_iff in Hx. destruct Hx as [Hx|Hx]; [contradiction|]. rewrite (NO Hx). rewrite Eo, Ei. split; reflexivity. }
  destruct (i_op j) eqn:Ej; try (destruct (KK Ht) as [KK1 _]; congruence).
  - destruct Aj as [Aj1 Aj2]. apply in_app_iff in Ht. destruct Ht as [Ht|[Ht|[]]]; [contradiction|]. subst o.
    assert (Hx : In (nth 0 (i_outs j) 0) (i_outs j)) by (apply nth_In; lia). specialize (NO Hx). subst j. congruence.
  - destruct (Nat.eqb_spec (length (i_ins j)) 3) as [E3|E3]; [contradiction|]. destruct (KK Ht) as [_ K3]. contradiction.
Qed.
