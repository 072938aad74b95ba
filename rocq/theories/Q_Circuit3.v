(** The circuit reader: witnesses of the refuted statements, decision procedures for the examples. *)
From Coq Require Import List ZArith Bool Arith Lia.
From Verif Require Import Primes Field Base R1CS R1CSFacts M_Lookup P_Lookup M_Bits P_Bits M_Utils P_Utils M_Circuit Spec_Circuit P_Circuit P_Circuit2 P_Circuit3 Q_Circuit Q_Circuit2.
Import ListNotations.
Local Open Scope nat_scope.

Lemma circuit_keys_ok ls : Forall line_ok ls -> Forall arity (insts ls) -> exists rd, circuitReader ls None = Ok (insts ls, rd).
Proof.
  intros LO A. destruct (parse_ok ls [] reader0 LO blank0) as (rd0 & Ep & (B1 & _) & _). cbn [app] in Ep.
  destruct (mkAll_ok (insts ls) rd0 B1 A) as (rd2 & new & ms & E2 & _). exists rd2.
  unfold circuitReader, parseCircuit. rewrite Ep, !bind_ok. change (fold_left _ (insts ls) (Ok rd0)) with (mkAll (insts ls) (Ok rd0)). rewrite E2, bind_ok. reflexivity.
Qed.

(** every environment is realised by an assignment of the variables *)
Lemma realize rd e : wfr rd -> exists t, forall w v, mapped rd w v -> env_of rd t w = e w.
Proof.
  intros (_ & _ & I).
  exists (fun v => match find (fun q => match assoc (r_map rd) (fst q) with Some v' => v' =? v | None => false end) (r_map rd) with Some q => e (fst q) | None => F0 end).
  intros w v Hv. rewrite (env_of_mapped _ _ _ _ Hv).
  match goal with |- match find ?f ?l with _ => _ end = _ => destruct (find f l) as [q|] eqn:Ef end.
  - apply find_some in Ef. destruct Ef as [_ Ef]. destruct (assoc (r_map rd) (fst q)) as [v'|] eqn:Eq; [|discriminate]. apply Nat.eqb_eq in Ef. subst v'.
    f_equal. exact (I _ _ _ Eq Hv).
  - exfalso. assert (Hi : exists q, In q (r_map rd) /\ fst q = w).
    { clear - Hv. unfold mapped in Hv. induction (r_map rd) as [|[u v'] l IH]; cbn [assoc] in Hv; [discriminate|]. destruct (Nat.eqb_spec u w) as [-> |N].
      - exists (w, v'). split; [now left|reflexivity].
      - destruct (IH Hv) as (q & Hq & E). exists q. split; [now right|exact E]. }
    destruct Hi as (q & Hq & Eq). pose proof (find_none _ _ Ef q Hq) as Fq. cbn beta in Fq. rewrite Eq in Fq. unfold mapped in Hv. rewrite Hv, Nat.eqb_refl in Fq. discriminate.
Qed.

(** a split with 254 outputs has two satisfying decompositions *)
Definition split254 : list line := [LInput 0; LGate SPLIT F0 1 [0] 254 (seq 1 254)].
Lemma bits_nth n z k d : k < n -> nth k (bits_of_Z n z) d = Z.testbit z (Z.of_nat k).
Proof.
  revert z k. induction n as [|n IH]; intros z k H; [lia|]. cbn [bits_of_Z]. destruct k as [|k]; cbn [nth].
  - change (Z.of_nat 0) with 0%Z. now rewrite Z.bit0_odd.
  - rewrite IH by lia. rewrite Z.div2_spec, Z.shiftr_spec by lia. f_equal. lia.
Qed.
Lemma map_seq_nth n : forall (l : list F) a, length l = n -> map (fun w => nth (w - a) l F0) (seq a n) = l.
Proof.
  induction n as [|n IH]; intros l a L; destruct l as [|x l]; try discriminate; [reflexivity|]. cbn [seq map]. rewrite Nat.sub_diag. cbn [nth]. f_equal.
  transitivity (map (fun w => nth (w - S a) l F0) (seq (S a) n)); [|apply IH; now injection L]. apply map_ext_in. intros w Hw. apply in_seq in Hw. now replace (w - a) with (S (w - S a)) by lia.
Qed.
Lemma split254_refuted : exists ls is rd t, circuitReader ls None = Ok (is, rd) /\ Forall plain is /\ single_assignment [] is /\
  bool_typed is (input_env is (wire_val rd t)) /\ sat t (r_cs rd) /\
  wire_val rd t 1 <> run is (input_env is (wire_val rd t)) 1.
Proof.
  exists split254. 
  assert (LO : Forall line_ok split254).
  { constructor; [exact I|]. constructor; [|constructor]. split; [reflexivity|]. split; [symmetry; apply seq_length|discriminate]. }
  assert (P : Forall plain (insts split254)).
  { cbn [split254 insts]. constructor; [|constructor]. split; [reflexivity|]. split; discriminate. }
  assert (A : Forall arity (insts split254)) by (eapply Forall_impl; [|exact P]; intros i Hi; apply Hi).
  destruct (circuit_keys_ok split254 LO A) as (rd & E).
  destruct (reader_sat _ _ _ _ E A) as (ms & L & _ & TC & W & S).
  set (l := map b2F (bits_of_Z 254 p_mod)).
  assert (Ll : length l = 254) by (unfold l; rewrite map_length; apply bits_of_Z_length).
  destruct (realize rd (fun w => if w =? 0 then F0 else nth (w - 1) l F0) W) as [t Ht].
  exists (insts split254), rd, t. split; [exact E|]. split; [exact P|].
  assert (V : forall w, In w (0 :: seq 1 254) -> env_of rd t w = if w =? 0 then F0 else nth (w - 1) l F0).
  { intros w Hw. destruct (TC w) as [v Hv]; [|exact (Ht w v Hv)]. cbn [split254 insts flat_map touched i_op i_ins i_outs app].
    rewrite app_nil_r. exact Hw. }
  assert (SA : single_assignment [] (insts split254)).
  { cbn [split254 insts single_assignment writes i_op i_outs i_ins app]. split; [apply seq_NoDup|]. split; [|exact I].
    intros w Hw [<- |[]]. apply in_seq in Hw. lia. }
  split; [exact SA|].
  split; [cbn [split254 insts bool_typed i_op]; split; exact I|].
  assert (VO : map (env_of rd t) (seq 1 254) = l).
  { rewrite <- (map_seq_nth 254 l 1 Ll). apply map_ext_in. intros w Hw. rewrite V by (now right). apply in_seq in Hw.
    destruct (Nat.eqb_spec w 0); [lia|reflexivity]. }
  split.
  - apply S. apply Forall2_crel; [exact P|exact L|]. cbn [split254 insts]. constructor; [|constructor].
    unfold crel. cbn [i_op i_ins i_outs nth]. split.
    + assert (Q : Forall isbit (map (env_of rd t) (seq 1 254))) by (rewrite VO; unfold l; apply Forall_forall; intros x Hx; apply in_map_iff in Hx; destruct Hx as (b & <- & _); apply isbit_b2F).
      rewrite Forall_map in Q. exact Q.
    + rewrite VO, V by (now left). unfold l. rewrite fsum2_bits_raw, natbits_bits_small; [symmetry; apply Fof_p|].
      pose proof p_lt_2_254. change (Z.of_nat 254) with 254%Z. split; [|assumption]. apply Z.lt_le_incl. reflexivity.
  - change (wire_val rd t 1) with (env_of rd t 1). rewrite V by (right; left; reflexivity). cbn [Nat.eqb Nat.sub].
    assert (N0 : nth 0 l F0 = F1).
    { unfold l. change F0 with (b2F false) at 1. rewrite map_nth, bits_nth by lia. reflexivity. }
    rewrite N0. unfold run. cbn [split254 insts fold_left].
    pose proof (step_outs (Inst SPLIT F0 [0] (seq 1 254) []) (input_env (insts split254) (wire_val rd t)) (Forall_inv P)) as SO.
    cbn [i_op i_outs i_ins map writes] in SO. specialize (SO ltac:(discriminate) (seq_NoDup 254 1)).
    unfold gate in SO. cbn [i_op i_outs nth] in SO.
    assert (I0 : input_env (insts split254) (wire_val rd t) 0 = F0).
    { unfold input_env. destruct (existsb _ _) eqn:Ex; [reflexivity|]. change (wire_val rd t 0) with (env_of rd t 0). rewrite V by (now left). reflexivity. }
    change (seq 1 254) with (1 :: seq 2 253) in SO at 2. cbn [map] in SO. apply (f_equal (hd F0)) in SO. cbn [hd] in SO.
    cbn [split254 insts] in SO. rewrite SO. change (insts [LInput 0; LGate SPLIT F0 1 [0] 254 (seq 1 254)]) with (insts split254) in I0.
    cbn [split254 insts] in I0. rewrite I0. rewrite seq_length. cbn [bits_of_Z map hd]. intros H. apply F1_neq_0. rewrite H. reflexivity.
Qed.

(** ** small circuits *)
Definition zerop1 : list line := [LInput 0; LGate ZEROP F0 1 [0] 2 [1; 2]].
Lemma reader_case {A} (P : A -> Prop) (o : outcome A) (f : A -> bool) : match o with Ok a => f a | _ => false end = true -> (forall a, f a = true -> P a) -> exists a, o = Ok a /\ P a.
Proof. destruct o; try discriminate. intros H K. eexists. split; [reflexivity|]. now apply K. Qed.

Lemma zerop_refuted : exists ls inp is rd i a, circuitReader ls (Some inp) = Ok (is, rd) /\ Forall arity is /\ In i is /\ i_op i = ZEROP /\ i_ins i = [a] /\
  wire_val rd (r_val rd) a = Fof 5 /\ ~ sat (r_val rd) (r_cs rd) /\ wire_val rd (r_val rd) (nth 0 (i_outs i) 0) = F0.
Proof.
  destruct (reader_case (fun q => wire_val (snd q) (r_val (snd q)) 0 = Fof 5 /\ wire_val (snd q) (r_val (snd q)) 1 = F0) (circuitReader zerop1 (Some [(0, Fof 5)]))
    (fun q => Feqb (wire_val (snd q) (r_val (snd q)) 0) (Fof 5) && Feqb (wire_val (snd q) (r_val (snd q)) 1) F0)) as ([is rd] & E & V & V1).
  { vm_compute. reflexivity. }
  { intros q H. apply andb_true_iff in H. destruct H as [H1 H2]. apply Feqb_true in H1. apply Feqb_true in H2. now split. }
  cbn [snd] in *. pose proof (proj1 (reader_inv _ _ _ _ E)) as ->.
  assert (A : Forall arity (insts zerop1)) by (constructor; [split; reflexivity|constructor]).
  exists zerop1, [(0, Fof 5)], (insts zerop1), rd, (Inst ZEROP F0 [0] [1; 2] []), 0.
  split; [exact E|]. split; [exact A|]. split; [now left|]. split; [reflexivity|]. split; [reflexivity|]. split; [exact V|]. split; [|exact V1].
  apply (zerop_witness_fails _ _ _ _ (Inst ZEROP F0 [0] [1; 2] []) 0 E A); [now left|reflexivity|reflexivity|]. rewrite V. apply Fof_nz. discriminate.
Qed.

Definition table8 : list line := [LInput 0; LInput 1; LInput 2; LOutput 3; LTable 3 (map Fof [11; 12; 13; 14; 15; 16; 17; 18]%Z) [0; 1; 2] [3]].
Lemma table8_line_ok : Forall line_ok table8.
Proof. repeat (constructor; [exact I|]). constructor; [|constructor]. cbn. repeat split; lia. Qed.
Lemma table8_arity : Forall arity (insts table8).
Proof. constructor; [|constructor]. cbn. repeat split; lia. Qed.
Lemma table8_complete_refuted : exists ls inp is rd, circuitReader ls (Some inp) = Ok (is, rd) /\ Forall arity is /\
  is = [Inst TABLE F0 [0; 1; 2] [3] (map Fof [11; 12; 13; 14; 15; 16; 17; 18]%Z)] /\ inp = [(0, F1); (1, F0); (2, F1)] /\ ~ sat (r_val rd) (r_cs rd).
Proof.
  destruct (reader_case (fun q => wire_val (snd q) (r_val (snd q)) 0 = b2F true /\ wire_val (snd q) (r_val (snd q)) 1 = b2F false /\ wire_val (snd q) (r_val (snd q)) 2 = b2F true)
    (circuitReader table8 (Some [(0, F1); (1, F0); (2, F1)]))
    (fun q => Feqb (wire_val (snd q) (r_val (snd q)) 0) F1 && (Feqb (wire_val (snd q) (r_val (snd q)) 1) F0 && Feqb (wire_val (snd q) (r_val (snd q)) 2) F1))) as ([is rd] & E & V0 & V1 & V2).
  { vm_compute. reflexivity. }
  { intros q H. apply andb_true_iff in H. destruct H as [H1 H2]. apply andb_true_iff in H2. destruct H2 as [H2 H3]. apply Feqb_true in H1. apply Feqb_true in H2. apply Feqb_true in H3. now split. }
  cbn [snd] in *. pose proof (proj1 (reader_inv _ _ _ _ E)) as ->.
  exists table8, [(0, F1); (1, F0); (2, F1)], (insts table8), rd. split; [exact E|]. split; [exact table8_arity|]. split; [reflexivity|]. split; [reflexivity|].
  apply (table8_witness_fails _ _ _ _ (Inst TABLE F0 [0; 1; 2] [3] (map Fof [11; 12; 13; 14; 15; 16; 17; 18]%Z)) 0 1 2 true false true E table8_arity);
    [now left|reflexivity|reflexivity|exact V0|exact V1|exact V2|]. apply Fof_nz. discriminate.
Qed.
Lemma table8_sound_refuted : exists ls is rd t, circuitReader ls None = Ok (is, rd) /\ Forall arity is /\ sat t (r_cs rd) /\
  is = [Inst TABLE F0 [0; 1; 2] [3] (map Fof [11; 12; 13; 14; 15; 16; 17; 18]%Z)] /\
  wire_val rd t 0 = F1 /\ wire_val rd t 1 = F0 /\ wire_val rd t 2 = F1 /\ wire_val rd t 3 = Fof 99.
Proof.
  destruct (circuit_keys_ok table8 table8_line_ok table8_arity) as (rd & E).
  destruct (reader_sat _ _ _ _ E table8_arity) as (ms & L & B & TC & W & HS).
  destruct ms as [|m [|]]; try discriminate L. inversion B as [|? ? ? ? (B1 & B2 & B3 & B4) _]; subst. cbn [naux i_op i_ins length Nat.eqb] in *.
  destruct (realize rd (fun w => if (w =? 0) || (w =? 2) then F1 else F0) W) as [t Ht].
  assert (V : forall w, In w [0; 1; 2] -> env_of rd t w = if (w =? 0) || (w =? 2) then F1 else F0).
  { intros w Hw. destruct (TC w) as [v Hv]; [|exact (Ht w v Hv)]. exact Hw. }
  set (t1 := upds t (seq m 5) [Fof 16; F0; F1; F0; F0]).
  assert (T1 : forall w, env_of rd t1 w = env_of rd t w).
  { intros w. unfold env_of. destruct (assoc (r_map rd) w) as [v|] eqn:Ev; [|reflexivity]. specialize (B4 w v Ev). unfold t1. cbn [seq upds].
    rewrite !upd_other by lia. reflexivity. }
  assert (S1 : sat t1 (r_cs rd)).
  { apply HS. constructor; [|constructor]. unfold crel, naux. cbn [i_op i_ins i_table length nth Nat.eqb seq map]. rewrite !T1, !V by (cbn; auto). cbn [Nat.eqb orb].
    assert (X0 : t1 m = Fof 16 /\ t1 (S m) = F0 /\ t1 (S (S m)) = F1 /\ t1 (S (S (S m))) = F0 /\ t1 (S (S (S (S m)))) = F0).
    { unfold t1. cbn [seq upds]. repeat split; repeat (rewrite upd_other by lia); apply upd_same. }
    destruct X0 as (-> & -> & -> & -> & ->). split; [ring|]. split; [ring|]. split; [ring|]. split; [ring|]. ring. }
  destruct (untouched_free _ _ _ _ t1 3 (Fof 99) E table8_arity S1) as (t2 & H1 & H2 & H3).
  { intros i [<- |[]] Hx. cbn in Hx. lia. }
  assert (M3 : wire_var rd 3 <> None).
  { destruct (reader_inv _ _ _ _ E) as (_ & LO & rd0 & rd1 & Ep & _ & SS & _ & W1 & Em).
    destruct (mkAll_ok _ _ W1 table8_arity) as (rd' & new & ms & E' & G & _). rewrite E' in Em. injection Em as ->.
    destruct (parse_ok table8 [] reader0 LO blank0) as (rd0' & Ep' & _ & _ & D). unfold parseCircuit in Ep. rewrite Ep' in Ep. injection Ep as <-.
    destruct (D 3) as [v Hv]; [cbn; auto|]. pose proof (g_ext G _ _ (k_ext _ _ SS _ _ Hv)) as Hm. unfold wire_var, mapped in *. congruence. }
  exists table8, (insts table8), rd, t2. split; [exact E|]. split; [exact table8_arity|]. split; [exact H1|]. split; [reflexivity|].
  split; [|split; [|split; [|exact (H2 M3)]]]; rewrite H3 by lia; change (wire_val rd t1) with (env_of rd t1); rewrite T1, V by (cbn; auto); reflexivity.
Qed.

Definition mul1 : list line := [LInput 0; LInput 1; LOutput 2; LGate MUL F0 2 [0; 1] 1 [2]].
Lemma output_refuted : exists ls is rd w, circuitReader ls None = Ok (is, rd) /\ In (LOutput w) ls /\ ~ is_public rd w /\ r_numInputs rd = 2.
Proof.
  assert (LO : Forall line_ok mul1) by (repeat (constructor; [exact I|]); constructor; [|constructor]; cbn; repeat split; discriminate).
  assert (A : Forall arity (insts mul1)) by (constructor; [|constructor]; cbn; split; reflexivity).
  destruct (circuit_keys_ok mul1 LO A) as (rd & E). exists mul1, (insts mul1), rd, 2. split; [exact E|]. split; [cbn; auto|].
  destruct (public_wires _ _ _ _ E A) as [N PW]. split; [|exact N]. rewrite PW. cbn. lia.
Qed.
Definition nizk_first : list line := [LNizk 0; LInput 1; LGate MUL F0 2 [0; 1] 1 [2]].
Lemma nizk_refuted : exists ls is rd w u, circuitReader ls None = Ok (is, rd) /\ In (LNizk w) ls /\ ~ In (LInput w) ls /\ is_public rd w /\ In (LInput u) ls /\ ~ is_public rd u.
Proof.
  assert (LO : Forall line_ok nizk_first) by (repeat (constructor; [exact I|]); constructor; [|constructor]; cbn; repeat split; discriminate).
  assert (A : Forall arity (insts nizk_first)) by (constructor; [|constructor]; cbn; split; reflexivity).
  destruct (circuit_keys_ok nizk_first LO A) as (rd & E). exists nizk_first, (insts nizk_first), rd, 0, 1. split; [exact E|]. split; [cbn; auto|].
  split; [cbn; intros [H|[H|[H|[]]]]; discriminate|]. destruct (public_wires _ _ _ _ E A) as [N PW]. rewrite !PW. cbn. repeat split; auto; lia.
Qed.

Definition zerop2 : list line := [LInput 0; LGate ZEROP F0 1 [0] 2 [1; 2]; LGate MUL F0 2 [0; 0] 1 [3]].
Lemma numbering_refuted : exists ls inp is1 rd1 is2 rd2 w, dependency_order (declared ls) (insts ls) /\ incl (map fst inp) (declared ls) /\
  circuitReader ls None = Ok (is1, rd1) /\ circuitReader ls (Some inp) = Ok (is2, rd2) /\ wire_var rd1 w = Some 4 /\ wire_var rd2 w = Some 3 /\ r_next rd1 = 5 /\ r_next rd2 = 6.
Proof.
  destruct (reader_case (fun q => wire_var (snd q) 3 = Some 4 /\ r_next (snd q) = 5) (circuitReader zerop2 None)
    (fun q => (match wire_var (snd q) 3 with Some v => v =? 4 | None => false end) && (r_next (snd q) =? 5))) as ([is1 rd1] & E1 & V1 & N1).
  { vm_compute. reflexivity. }
  { intros q H. apply andb_true_iff in H. destruct H as [H1 H2]. destruct (wire_var (snd q) 3); [|discriminate]. apply Nat.eqb_eq in H1. apply Nat.eqb_eq in H2. subst. now split. }
  destruct (reader_case (fun q => wire_var (snd q) 3 = Some 3 /\ r_next (snd q) = 6) (circuitReader zerop2 (Some [(0, F1)]))
    (fun q => (match wire_var (snd q) 3 with Some v => v =? 3 | None => false end) && (r_next (snd q) =? 6))) as ([is2 rd2] & E2 & V2 & N2).
  { vm_compute. reflexivity. }
  { intros q H. apply andb_true_iff in H. destruct H as [H1 H2]. destruct (wire_var (snd q) 3); [|discriminate]. apply Nat.eqb_eq in H1. apply Nat.eqb_eq in H2. subst. now split. }
  cbn [snd] in *. exists zerop2, [(0, F1)], is1, rd1, is2, rd2, 3. split; [|split; [|split; [exact E1|split; [exact E2|repeat split; assumption]]]].
  - cbn. repeat split; try discriminate; intros w; cbn; intuition.
  - intros w [<- |[]]. now left.
Qed.

(** ** decision procedure for the examples *)
Definition typedb (i : inst) (e : env) : bool :=
  match i_op i with
  | XOR | OR | TABLE => forallb (fun w => Feqb (e w) F0 || Feqb (e w) F1) (i_ins i)
  | ASSERT => match i_ins i, i_outs i with [a; b], [c] => Feqb (e a * e b)%F (e c) | _, _ => false end
  | SPLIT => forallb (fun w => (fval (e w) <? 2 ^ Z.of_nat (length (i_outs i)))%Z) (i_ins i)
  | _ => true
  end.
Fixpoint well_typedb (is : list inst) (e : env) : bool := match is with [] => true | i :: r => typedb i e && well_typedb r (step i e) end.
Lemma well_typedb_ok is : forall e, well_typedb is e = true -> well_typed is e.
Proof.
  assert (Bt : forall e ws, forallb (fun w => Feqb (e w) F0 || Feqb (e w) F1) ws = true -> Forall (fun w : wire => bit (e w)) ws).
  { intros e ws H. rewrite forallb_forall in H. apply Forall_forall. intros w Hw. specialize (H w Hw). apply orb_true_iff in H.
    destruct H as [H|H]; apply Feqb_true in H; [now left|now right]. }
  induction is as [|i is IH]; intros e H; [exact I|]. cbn [well_typedb well_typed] in *. apply andb_true_iff in H. destruct H as [H1 H2]. split; [|now apply IH].
  unfold typedb, typed in *. destruct (i_op i); auto.
  - destruct (i_ins i) as [|a [|b [|]]], (i_outs i) as [|c [|]]; try discriminate. apply Feqb_true in H1. now exists a, b, c.
  - rewrite forallb_forall in H1. apply Forall_forall. intros w Hw. apply Z.ltb_lt. exact (H1 w Hw).
Qed.
