(** The circuit reader: variables of wires, evaluation and meaning of the constraints. *)
From Coq Require Import List ZArith Bool Arith Lia.
From Verif Require Import Primes Field Base R1CS R1CSFacts M_Lookup M_Utils P_Utils M_Circuit Spec_Circuit.
Import ListNotations.
Local Open Scope nat_scope.

Definition mapped (rd : reader) (w : wire) (v : nat) : Prop := assoc (r_map rd) w = Some v.
Definition wfr (rd : reader) : Prop :=
  1 <= r_next rd /\
  (forall w v, mapped rd w v -> 1 <= v < r_next rd) /\
  (forall w w' v, mapped rd w v -> mapped rd w' v -> w = w').
Definition ext (rd rd' : reader) : Prop := forall w v, mapped rd w v -> mapped rd' w v.
Definition env_of (rd : reader) (t : assign) : env := fun w => match assoc (r_map rd) w with Some v => t v | None => F0 end.
Definition Inv (rd : reader) (e : env) : Prop := forall w, env_of rd (r_val rd) w = e w.

(** a step that only allocates variables and adds constraints *)
Record grow (rd rd' : reader) (new : list constr) : Prop := {
  g_wf : wfr rd';
  g_ext : ext rd rd';
  g_next : r_next rd <= r_next rd';
  g_cs : r_cs rd' = r_cs rd ++ new;
  g_old : forall u, u < r_next rd -> r_val rd' u = r_val rd u;
  g_new : forall u, r_next rd <= u < r_next rd' -> r_val rd' u = F0;
  g_newmap : forall w v, mapped rd' w v -> mapped rd w v \/ r_next rd <= v;
  g_num : r_numInputs rd' = r_numInputs rd
}.
Arguments g_wf {rd rd' new}. Arguments g_ext {rd rd' new}. Arguments g_next {rd rd' new}. Arguments g_cs {rd rd' new}.
Arguments g_old {rd rd' new}. Arguments g_new {rd rd' new}. Arguments g_newmap {rd rd' new}. Arguments g_num {rd rd' new}.

Lemma ext_refl rd : ext rd rd.
Proof. intros w v H. exact H. Qed.
Lemma ext_trans a b c : ext a b -> ext b c -> ext a c.
Proof. intros H1 H2 w v H. auto. Qed.
Lemma grow_refl rd : wfr rd -> grow rd rd [].
Proof. intros H. constructor; auto using ext_refl; try lia. now rewrite app_nil_r. Qed.
Lemma grow_trans a b c n1 n2 : grow a b n1 -> grow b c n2 -> grow a c (n1 ++ n2).
Proof.
  intros G H. pose proof (g_next G). pose proof (g_next H). constructor.
  - exact (g_wf H).
  - exact (ext_trans _ _ _ (g_ext G) (g_ext H)).
  - lia.
  - rewrite (g_cs H), (g_cs G). symmetry. apply app_assoc.
  - intros u Hu. rewrite (g_old H), (g_old G) by lia. reflexivity.
  - intros u Hu. destruct (Nat.lt_ge_cases u (r_next b)).
    + rewrite (g_old H) by lia. apply (g_new G). lia.
    + apply (g_new H). lia.
  - intros w v Hv. destruct (g_newmap H w v Hv) as [K1|K1]; [|right; lia]. exact (g_newmap G w v K1).
  - now rewrite (g_num H), (g_num G).
Qed.
Lemma grow_app_nil a b c n2 : grow a b [] -> grow b c n2 -> grow a c n2.
Proof. apply grow_trans. Qed.

Lemma grow_inv rd rd' new e : wfr rd -> grow rd rd' new -> Inv rd e -> Inv rd' e.
Proof.
  intros W G HI w. specialize (HI w). unfold env_of in *. fold (mapped rd w) in *.
  destruct (assoc (r_map rd') w) as [v'|] eqn:E'.
  - destruct (g_newmap G w v' E') as [H|H].
    + unfold mapped in H. rewrite H in HI. rewrite (g_old G); [exact HI|]. now apply W in H.
    + destruct (assoc (r_map rd) w) as [v|] eqn:E.
      * pose proof (g_ext G w v E) as H1. unfold mapped in H1. pose proof (proj1 (proj2 W) w v E) as H2.
        assert (v = v') by congruence. lia.
      * rewrite (g_new G); [exact HI|]. split; [exact H|]. apply (proj1 (proj2 (g_wf G)) w v' E').
  - destruct (assoc (r_map rd) w) as [v|] eqn:E; [|exact HI].
    pose proof (g_ext G w v E) as H1. unfold mapped in H1. congruence.
Qed.

Lemma r_alloc_grow rd : wfr rd -> grow rd (snd (r_alloc rd)) [].
Proof.
  intros W. unfold r_alloc. cbn [snd]. constructor; cbn [r_next r_val r_cs r_map r_numInputs]; auto.
  - destruct W as (W0 & W1 & W2). split; [cbn; lia|]. split; [|exact W2].
    intros w v H. specialize (W1 w v H). cbn. lia.
  - intros w v H. exact H.
  - now rewrite app_nil_r.
  - intros u Hu. apply upd_other. lia.
  - intros u Hu. replace u with (r_next rd) by lia. apply upd_same.
Qed.

Lemma r_add_grow rd cs : wfr rd -> grow rd (r_add rd cs) cs.
Proof. intros W. constructor; cbn; auto; try lia. intros w v H. exact H. Qed.

Lemma varGet_grow w rd : wfr rd -> grow rd (snd (varGet w rd)) [] /\ mapped (snd (varGet w rd)) w (fst (varGet w rd)).
Proof.
  intros W. unfold varGet. destruct (assoc (r_map rd) w) as [v|] eqn:E.
  - cbn [fst snd]. split; [now apply grow_refl|exact E].
  - unfold varNew. cbn [fst snd r_alloc r_bind r_map]. rewrite E. cbn [assoc]. rewrite Nat.eqb_refl. cbn [fst snd].
    split; [|unfold mapped; cbn [r_bind r_map r_alloc snd]; rewrite E; cbn [assoc]; now rewrite Nat.eqb_refl].
    destruct W as (W0 & W1 & W2).
    assert (M : forall u v, mapped (r_bind (snd (r_alloc rd)) w (r_next rd)) u v <-> (u = w /\ v = r_next rd) \/ (u <> w /\ mapped rd u v)).
    { intros u v. unfold mapped. cbn [r_bind r_map r_alloc snd]. rewrite E. cbn [assoc].
      destruct (Nat.eqb_spec w u) as [<- |N].
      - split; [intros H; injection H as <-; now left|]. intros [[_ ->]|[H _]]; [reflexivity|congruence].
      - split; [intros H; right; split; [congruence|exact H]|]. intros [[-> _]|[_ H]]; [congruence|exact H]. }
    constructor; cbn [r_bind r_alloc snd r_next r_val r_cs r_numInputs]; try lia; try reflexivity.
    + split; [cbn; lia|]. split.
      * intros u v H. change (mapped (r_bind (snd (r_alloc rd)) w (r_next rd)) u v) in H. apply M in H.
        cbn [r_next r_bind r_alloc snd]. destruct H as [[_ ->]|[_ H]]; [lia|]. specialize (W1 u v H). lia.
      * intros u u' v H H'. change (mapped (r_bind (snd (r_alloc rd)) w (r_next rd)) u v) in H.
        change (mapped (r_bind (snd (r_alloc rd)) w (r_next rd)) u' v) in H'. apply M in H. apply M in H'.
        destruct H as [[-> ->]|[_ H]], H' as [[-> E']|[_ H']]; try reflexivity.
        -- apply W1 in H'. lia.
        -- subst v. apply W1 in H. lia.
        -- exact (W2 u u' v H H').
    + intros u v H. change (mapped (r_bind (snd (r_alloc rd)) w (r_next rd)) u v). apply M.
      destruct (Nat.eq_dec u w) as [-> |N]; [unfold mapped in H; congruence|]. right. split; assumption.
    + now rewrite app_nil_r.
    + intros u Hu. apply upd_other. lia.
    + intros u Hu. replace u with (r_next rd) by lia. apply upd_same.
    + intros u v H. change (mapped (r_bind (snd (r_alloc rd)) w (r_next rd)) u v) in H. apply M in H.
      destruct H as [[_ ->]|[_ H]]; [right; lia|left; exact H].
Qed.
Lemma varGet_ok w rd v rd' : wfr rd -> varGet w rd = (v, rd') -> grow rd rd' [] /\ mapped rd' w v.
Proof. intros W E. pose proof (varGet_grow w rd W) as H. rewrite E in H. exact H. Qed.
Lemma r_alloc_ok rd v rd' : wfr rd -> r_alloc rd = (v, rd') -> grow rd rd' [] /\ v = r_next rd /\ r_next rd' = S (r_next rd).
Proof. intros W E. pose proof (r_alloc_grow rd W) as H. rewrite E in H. unfold r_alloc in E. injection E as <- <-. split; [exact H|]. now split. Qed.

Lemma varGets_ok ws : forall rd vs rd', wfr rd -> varGets ws rd = (vs, rd') -> grow rd rd' [] /\ Forall2 (mapped rd') ws vs.
Proof.
  induction ws as [|w ws IH]; intros rd vs rd' W E; cbn [varGets] in E.
  - injection E as <- <-. split; [now apply grow_refl|constructor].
  - destruct (varGet w rd) as [v rd1] eqn:E1. destruct (varGets ws rd1) as [vs1 rd2] eqn:E2. injection E as <- <-.
    destruct (varGet_ok _ _ _ _ W E1) as [G1 M1]. destruct (IH _ _ _ (g_wf G1) E2) as [G2 M2].
    split; [exact (grow_trans _ _ _ _ _ G1 G2)|]. constructor; [exact (g_ext G2 _ _ M1)|exact M2].
Qed.
Lemma env_of_mapped rd t w v : mapped rd w v -> env_of rd t w = t v.
Proof. intros H. unfold env_of, mapped in *. now rewrite H. Qed.
Lemma env_of_map rd t ws vs : Forall2 (mapped rd) ws vs -> map (env_of rd t) ws = map t vs.
Proof. induction 1 as [|w v ws vs H _ IH]; [reflexivity|]. cbn [map]. now rewrite (env_of_mapped _ _ _ _ H), IH. Qed.
Lemma Forall2_ext rd rd' ws vs : ext rd rd' -> Forall2 (mapped rd) ws vs -> Forall2 (mapped rd') ws vs.
Proof. intros E. induction 1; constructor; auto. Qed.

(** ** evaluation *)
Lemma varValues_ok ws : forall rd xs rd' e, wfr rd -> Inv rd e -> varValues ws rd = (xs, rd') -> grow rd rd' [] /\ xs = map e ws.
Proof.
  induction ws as [|w ws IH]; intros rd vs rd' e W I E; cbn [varValues] in E.
  - injection E as <- <-. split; [now apply grow_refl|reflexivity].
  - unfold varValue in E. destruct (varGet w rd) as [v rd1] eqn:E1. destruct (varValues ws rd1) as [vs1 rd2] eqn:E2. injection E as <- <-.
    destruct (varGet_ok _ _ _ _ W E1) as [G1 M1]. pose proof (grow_inv _ _ _ _ W G1 I) as I1.
    destruct (IH _ _ _ e (g_wf G1) I1 E2) as [G2 ->].
    split; [exact (grow_trans _ _ _ _ _ G1 G2)|]. cbn [map]. f_equal. rewrite <- (I1 w). symmetry. now apply env_of_mapped.
Qed.

(** an evaluation step *)
Record estep (rd rd' : reader) (e' : env) : Prop := {
  e_wf : wfr rd'; e_inv : Inv rd' e'; e_ext : ext rd rd'; e_cs : r_cs rd' = r_cs rd; e_num : r_numInputs rd' = r_numInputs rd
}.
Lemma estep_grow rd rd' rd2 e : grow rd rd' [] -> estep rd' rd2 e -> estep rd rd2 e.
Proof.
  intros G S. destruct S. constructor; auto.
  - exact (ext_trans _ _ _ (g_ext G) e_ext0).
  - rewrite e_cs0, (g_cs G). apply app_nil_r.
  - now rewrite e_num0, (g_num G).
Qed.
Lemma estep_trans a b c e e' : estep a b e -> estep b c e' -> estep a c e'.
Proof. intros S T. destruct S, T. constructor; auto; try congruence. eapply ext_trans; eassumption. Qed.
Lemma varSet_ok w x rd e : wfr rd -> Inv rd e -> estep rd (varSet w x rd) (set e w x).
Proof.
  intros W I. unfold varSet. destruct (varGet w rd) as [v rd1] eqn:E1.
  destruct (varGet_ok _ _ _ _ W E1) as [G1 M1]. pose proof (grow_inv _ _ _ _ W G1 I) as I1.
  constructor; cbn [r_next r_val r_cs r_map r_numInputs].
  - exact (g_wf G1).
  - intros u. unfold env_of, set. cbn [r_map r_val]. specialize (I1 u). unfold env_of in I1.
    destruct (assoc (r_map rd1) u) as [v'|] eqn:E.
    + destruct (Nat.eqb_spec u w) as [-> |N].
      * unfold mapped in M1. rewrite M1 in E. injection E as <-. apply upd_same.
      * rewrite upd_other; [exact I1|]. intros ->. apply N. exact (proj2 (proj2 (g_wf G1)) u w v E M1).
    + destruct (Nat.eqb_spec u w) as [-> |N]; [unfold mapped in M1; congruence|exact I1].
  - exact (g_ext G1).
  - rewrite (g_cs G1). apply app_nil_r.
  - exact (g_num G1).
Qed.

Lemma fold_Fadd xs a : fold_left Fadd xs a = (a + fsum xs)%F.
Proof. unfold fsum. revert a; induction xs as [|x xs IH]; intros a; cbn [fold_left fold_right]; [ring|]. rewrite IH. ring. Qed.
Lemma pack_sum_eq xs two sum : pack_sum xs two sum = (sum + two * fsum2 xs)%F.
Proof.
  revert two sum; induction xs as [|x xs IH]; intros two sum; cbn [pack_sum fsum2]; [ring|]. rewrite IH.
  replace (two + two)%F with (Fof 2 * two)%F; [ring|]. change (Fof 2) with (Fof (1 + 1)). rewrite Fof_add. change (Fof 1) with F1. ring.
Qed.
Lemma as_bool_b2F b : as_bool (b2F b) = b.
Proof. unfold as_bool. destruct (Feqb_spec (b2F b) F0) as [E|E]; destruct b; cbn in *; try reflexivity; exfalso; [exact (F1_neq_0 E)|now apply E]. Qed.
Lemma bit_as_bool x : bit x -> b2F (as_bool x) = x.
Proof. intros [-> | ->]; [exact (f_equal b2F (as_bool_b2F false))|exact (f_equal b2F (as_bool_b2F true))]. Qed.
Lemma bit_bool x : bit x -> exists b, x = b2F b.
Proof. intros [-> | ->]; [now exists false|now exists true]. Qed.
Lemma Feqb_b2F a b : Feqb (b2F a) (b2F b) = negb (xorb a b).
Proof. destruct (Feqb_spec (b2F a) (b2F b)) as [E|E]; [apply b2F_inj in E; subst; now destruct b|]. destruct a, b; try reflexivity; exfalso; now apply E. Qed.
Lemma as_ulong_b2F b : as_ulong (b2F b) = if b then 1%Z else 0%Z.
Proof. unfold as_ulong. destruct b; cbn [b2F]; [change F1 with (Fof 1)|change F0 with (Fof 0)]; rewrite fval_Fof; reflexivity. Qed.

Lemma table_idx_ok bs i : (0 <= i)%Z -> ((i + 1) * 2 ^ Z.of_nat (length bs) <= 2 ^ 32)%Z ->
  table_idx (map b2F (rev bs)) i = Ok (i * 2 ^ Z.of_nat (length bs) + Z.of_nat (bindex bs))%Z.
Proof.
  revert i. induction bs as [|b bs IH] using rev_ind; intros i Hi Hb; cbn [rev map table_idx].
  - f_equal. cbn. lia.
  - rewrite rev_app_distr. cbn [rev app map table_idx]. rewrite as_ulong_b2F.
    rewrite app_length in *. cbn [length] in *. rewrite Nat.add_1_r in *. rewrite Nat2Z.inj_succ, Z.pow_succ_r in * by lia.
    assert (P : (0 < 2 ^ Z.of_nat (length bs))%Z) by (apply Z.pow_pos_nonneg; lia).
    set (v := if b then 1%Z else 0%Z). assert (Hv : v = 0%Z \/ v = 1%Z) by (unfold v; destruct b; auto).
    replace ((v =? 0) || (v =? 1))%Z with true by (destruct Hv as [-> | ->]; reflexivity).
    cbn [oassert]. rewrite bind_ok.
    rewrite Z.mod_small by nia. rewrite IH by nia. f_equal.
    assert (B : Z.of_nat (bindex (bs ++ [b])) = (Z.of_nat (bindex bs) + v * 2 ^ Z.of_nat (length bs))%Z).
    { clear. unfold v. induction bs as [|c r IHr]; cbn [app bindex length]; [destruct b; reflexivity|].
      rewrite Nat2Z.inj_succ, Z.pow_succ_r, !Nat2Z.inj_add, !Nat2Z.inj_mul, IHr by lia. destruct b, c; nia. }
    rewrite B. ring.
Qed.

Lemma bindex_lt bs : bindex bs < 2 ^ length bs.
Proof. induction bs as [|b r IH]; cbn [bindex length Nat.pow]; [lia|]. destruct b; lia. Qed.

Lemma bits_of_Z_testbit n : forall z k, (0 <= k)%Z -> 
  map b2F (bits_of_Z n (z / 2 ^ k)) = map (fun j => b2F (Z.testbit z (k + Z.of_nat j))) (seq 0 n).
Proof.
  induction n as [|n IH]; intros z k Hk; [reflexivity|]. cbn [bits_of_Z map seq]. f_equal.
  - f_equal. rewrite <- Z.bit0_odd, Z.div_pow2_bits by lia. f_equal. lia.
  - rewrite Z.div2_div, Z.div_div by lia. replace (2 ^ k * 2)%Z with (2 ^ (k + 1))%Z by (rewrite Z.pow_add_r by lia; reflexivity).
    rewrite IH by lia. rewrite <- seq_shift, map_map. apply map_ext. intros j. f_equal. f_equal. lia.
Qed.

Lemma split_ok ws : forall x k rd e, (0 <= k)%Z -> wfr rd -> Inv rd e ->
  estep rd (split_set x ws k rd) (sets e ws (map b2F (bits_of_Z (length ws) (fval x / 2 ^ k)))).
Proof.
  induction ws as [|w ws IH]; intros x k rd e Hk W I; cbn [split_set].
  - cbn [length bits_of_Z map sets]. constructor; auto using ext_refl.
  - pose proof (varSet_ok w (b2F (Z.testbit (fval x) k)) rd e W I) as S1.
    pose proof (IH x (k + 1)%Z _ _ ltac:(lia) (e_wf _ _ _ S1) (e_inv _ _ _ S1)) as S2.
    pose proof (estep_trans _ _ _ _ _ S1 S2) as S3. clear S1 S2.
    cbn [length bits_of_Z map sets]. rewrite Z.div2_div, Z.div_div by lia.
    replace (2 ^ k * 2)%Z with (2 ^ (k + 1))%Z by (rewrite Z.pow_add_r by lia; reflexivity).
    replace (Z.odd (fval x / 2 ^ k)) with (Z.testbit (fval x) k); [exact S3|].
    rewrite <- Z.bit0_odd, Z.div_pow2_bits by lia. reflexivity.
Qed.

Lemma eval_ok i rd e : wfr rd -> Inv rd e -> arity i -> (i_op i = ASSERT \/ typed i e) -> i_op i <> ZEROP ->
  exists rd', evalInstruction i rd = Ok rd' /\ estep rd rd' (step i e).
Proof.
  intros W I A T NZ. unfold evalInstruction. destruct (varValues (i_ins i) rd) as [xs rd1] eqn:E.
  destruct (varValues_ok _ _ _ _ e W I E) as [G ->]. pose proof (grow_inv _ _ _ _ W G I) as I1. pose proof (g_wf G) as W1.
  assert (K : forall o x, i_outs i = [o] -> gate i (map e (i_ins i)) = [x] -> estep rd (varSet o x rd1) (step i e)).
  { intros o x Ho Hg. apply (estep_grow _ _ _ _ G). unfold step. rewrite Ho, Hg. cbn [sets]. now apply varSet_ok. }
  destruct i as [op c ins outs tab]. unfold arity, typed in *. cbn [i_op i_const i_ins i_outs i_table] in *.
  destruct op.
  - destruct A as [A1 A2]. destruct outs as [|o [|]]; try discriminate. cbn [idx nth_error]. rewrite bind_ok.
    eexists. split; [reflexivity|]. apply K; [reflexivity|]. unfold gate. cbn [i_op]. rewrite fold_Fadd. f_equal. ring.
  - destruct A as [A1 A2]. destruct outs as [|o [|]]; try discriminate. destruct ins as [|a [|b [|]]]; try discriminate.
    cbn [map idx nth_error]. rewrite !bind_ok. eexists. split; [reflexivity|]. apply K; reflexivity.
  - destruct A as [A1 A2]. destruct outs as [|o [|]]; try discriminate. destruct ins as [|a [|b [|]]]; try discriminate.
    destruct T as [T|T]; [discriminate|]. inversion T as [|? ? Ta T']; subst. inversion T' as [|? ? Tb _]; subst.
    cbn [map idx nth_error]. rewrite !bind_ok. eexists. split; [reflexivity|]. apply K; [reflexivity|].
    unfold gate. cbn [i_op map nth]. destruct (bit_bool _ Ta) as [x ->], (bit_bool _ Tb) as [y ->]. rewrite Feqb_b2F, !as_bool_b2F.
    destruct x, y; reflexivity.
  - destruct A as [A1 A2]. destruct outs as [|o [|]]; try discriminate. destruct ins as [|a [|b [|]]]; try discriminate.
    destruct T as [T|T]; [discriminate|]. inversion T as [|? ? Ta T']; subst. inversion T' as [|? ? Tb _]; subst.
    cbn [map idx nth_error]. rewrite !bind_ok. eexists. split; [reflexivity|]. apply K; [reflexivity|].
    unfold gate. cbn [i_op map nth]. destruct (bit_bool _ Ta) as [x ->], (bit_bool _ Tb) as [y ->]. rewrite !as_bool_b2F.
    change F0 with (b2F false). rewrite !Feqb_b2F. destruct x, y; reflexivity.
  - destruct A as [A1 A2]. eexists. split; [reflexivity|]. unfold step, gate. cbn [i_op i_outs].
    replace (sets e outs []) with e by (destruct outs; reflexivity).
    apply (estep_grow _ _ _ _ G). constructor; auto using ext_refl.
  - congruence.
  - destruct ins as [|a [|]]; try discriminate.
    cbn [map idx nth_error]. rewrite !bind_ok. eexists. split; [reflexivity|].
    apply (estep_grow _ _ _ _ G). unfold step, gate. cbn [i_op i_outs i_ins map nth].
    pose proof (split_ok outs (e a) 0 rd1 e ltac:(lia) W1 I1) as S. rewrite Z.pow_0_r, Z.div_1_r in S. exact S.
  - destruct outs as [|o [|]]; try discriminate. cbn [idx nth_error]. rewrite bind_ok.
    eexists. split; [reflexivity|]. apply K; [reflexivity|]. unfold gate. cbn [i_op]. rewrite pack_sum_eq. f_equal. ring.
  - destruct A as [A1 A2]. destruct outs as [|o [|]]; try discriminate. destruct ins as [|a [|]]; try discriminate.
    cbn [map idx nth_error]. rewrite !bind_ok. eexists. split; [reflexivity|]. apply K; reflexivity.
  - destruct A as [A1 A2]. destruct outs as [|o [|]]; try discriminate. destruct ins as [|a [|]]; try discriminate.
    cbn [map idx nth_error]. rewrite !bind_ok. eexists. split; [reflexivity|]. apply K; reflexivity.
  - destruct A as (A1 & A2 & A3). destruct T as [T|T]; [discriminate|]. destruct outs as [|o [|]]; try discriminate.
    assert (Hb : map e ins = map b2F (map (fun w => as_bool (e w)) ins)).
    { rewrite map_map. apply map_ext_in. intros w Hw. rewrite Forall_forall in T. symmetry. apply bit_as_bool. now apply T. }
    set (bs := map (fun w => as_bool (e w)) ins) in *.
    assert (Lb : length bs = length ins) by apply map_length.
    rewrite Hb, <- map_rev, table_idx_ok, bind_ok; [|lia|].
    2:{ rewrite Lb. apply Z.le_trans with (2 ^ 3)%Z; [|lia]. rewrite Z.add_0_l, Z.mul_1_l. apply Z.pow_le_mono_r; lia. }
    rewrite Z.mul_0_l, Z.add_0_l. cbn [idx nth_error]. rewrite bind_ok.
    pose proof (bindex_lt bs) as HB. rewrite Lb, <- A3 in HB.
    unfold idxZ. replace (Z.of_nat (bindex bs) <? Z.of_nat (length tab))%Z with true by (symmetry; apply Z.ltb_lt; lia).
    rewrite Nat2Z.id, (idx_nth tab _ F0 HB), bind_ok. eexists. split; [reflexivity|]. apply K; [reflexivity|].
    unfold gate. cbn [i_op i_table]. rewrite Hb, map_map. f_equal. f_equal. f_equal. rewrite <- (map_id bs) at 2. apply map_ext. apply as_bool_b2F.
Qed.

Lemma parseInputs_ok inp : forall rd e, wfr rd -> Inv rd e ->
  estep rd (parseInputs inp rd) (fold_left (fun e '(w, x) => set e w x) inp e).
Proof.
  induction inp as [|[w x] inp IH]; intros rd e W I; cbn [parseInputs fold_left].
  - constructor; auto using ext_refl.
  - pose proof (varSet_ok w x rd e W I) as S. eapply estep_trans; [exact S|]. apply IH; [exact (e_wf _ _ _ S)|exact (e_inv _ _ _ S)].
Qed.

(** ** parsing *)
Definition blank (rd : reader) : Prop := wfr rd /\ Inv rd (fun _ => F0) /\ r_cs rd = [].
Lemma varNew_mapped_or w rd : exists v, mapped (snd (varNew w rd)) w v.
Proof.
  unfold varNew. cbn [fst snd r_alloc]. unfold mapped. cbn [r_bind r_map snd]. destruct (assoc (r_map rd) w) eqn:E; [eauto|].
  cbn [assoc]. rewrite Nat.eqb_refl. eauto.
Qed.
Lemma varNew_grow w rd : wfr rd -> grow rd (snd (varNew w rd)) [].
Proof.
  intros W. destruct (assoc (r_map rd) w) as [v|] eqn:E.
  - pose proof (r_alloc_grow rd W) as G. unfold varNew. cbn [r_alloc fst snd] in *.
    destruct G. constructor; cbn [r_bind r_next r_val r_cs r_map r_numInputs] in *; auto.
    + destruct g_wf0 as (X0 & X1 & X2). split; [exact X0|]. unfold mapped in *. cbn [r_bind r_map] in *. rewrite E. split; assumption.
    + intros u v' H. unfold mapped in *. cbn [r_bind r_map]. rewrite E. exact H.
    + intros u v' H. unfold mapped in *. cbn [r_bind r_map] in H. rewrite E in H. now left.
  - pose proof (proj1 (varGet_grow w rd W)) as G. unfold varGet in G. rewrite E in G. exact G.
Qed.

Lemma parse_ok ls : forall is rd, Forall line_ok ls -> blank rd ->
  exists rd', fold_left (fun st l => obind st (parseLine l)) ls (Ok (is, rd)) = Ok (is ++ insts ls, rd') /\ blank rd' /\ ext rd rd' /\
    (forall w, In w (declared ls) -> exists v, mapped rd' w v).
Proof.
  induction ls as [|l ls IH]; intros is rd Hok B; cbn [fold_left].
  - exists rd. cbn [insts]. rewrite app_nil_r. split; [reflexivity|]. split; [exact B|]. split; [apply ext_refl|]. intros w [].
  - inversion Hok as [|? ? H1 H2]; subst. rewrite bind_ok.
    assert (D : forall w rd1, rd1 = snd (varNew w rd) -> forall rd2, r_next rd2 = r_next rd1 -> r_val rd2 = r_val rd1 -> r_cs rd2 = r_cs rd1 ->
       r_map rd2 = r_map rd1 -> blank rd2 /\ ext rd rd2 /\ exists v, mapped rd2 w v).
    { intros w rd1 -> rd2 E1 E2 E3 E4. pose proof (varNew_grow w rd (proj1 B)) as G. destruct B as (B1 & B2 & B3).
      pose proof (grow_inv _ _ _ _ B1 G B2) as I'.
      split; [split; [|split]|split].
      - destruct (g_wf G) as (X0 & X1 & X2). unfold wfr, mapped in *. rewrite E1, E4. split; [exact X0|]. split; [exact X1|exact X2].
      - intros u. unfold env_of. rewrite E4, E2. apply I'.
      - rewrite E3, (g_cs G), B3. reflexivity.
      - intros u v H. unfold mapped. rewrite E4. apply (g_ext G). exact H.
      - unfold mapped. rewrite E4. apply varNew_mapped_or. }
    destruct l as [w|w|w|n t ins outs|op c n ins m outs| |]; try contradiction.
    1-3: unfold parseLine; destruct (varNew w rd) as [v0 rd1] eqn:EN;
      match goal with |- context [Ok (?i0, ?r)] => destruct (D w rd1 (f_equal snd (eq_sym EN)) r eq_refl eq_refl eq_refl eq_refl) as (D1 & D2 & vw & D3);
        destruct (IH i0 r H2 D1) as (rd' & E' & B' & X' & M') end;
      exists rd'; cbn [insts declared flat_map app]; split; [exact E'|]; split; [exact B'|]; split; [exact (ext_trans _ _ _ D2 X')|];
      intros u [<- |Hu]; [exists vw; exact (X' _ _ D3)|exact (M' u Hu)].
    + cbn [parseLine line_ok] in *. destruct H1 as (-> & Ho & [Hn1 Hn2] & Ht). rewrite Nat.eqb_refl, Ho. cbn [Nat.eqb negb].
      replace ((length ins =? 0) || (3 <? length ins)) with false
        by (symmetry; apply orb_false_iff; split; [apply Nat.eqb_neq; lia|apply Nat.ltb_ge; lia]).
      rewrite Ht, Nat.eqb_refl. cbn [negb].
      destruct (IH (is ++ [Inst TABLE F0 ins outs t]) rd H2 B) as (rd' & E' & B' & X' & M'). exists rd'.
      split; [rewrite E', <- app_assoc; reflexivity|]. split; [exact B'|]. split; [exact X'|]. exact M'.
    + cbn [parseLine line_ok] in *. destruct H1 as (-> & -> & Ht). rewrite !Nat.eqb_refl. cbn [negb].
      destruct (IH (is ++ [Inst op c ins outs []]) rd H2 B) as (rd' & E' & B' & X' & M'). exists rd'.
      split; [rewrite <- app_assoc in E'; destruct op; try congruence; exact E'|]. split; [exact B'|]. split; [exact X'|]. exact M'.
Qed.
Lemma blank0 : blank reader0.
Proof.
  split; [|split; [intros w; reflexivity|reflexivity]]. split; [cbn; lia|]. split; [intros w v H|intros w w' v H]; unfold mapped in H; cbn in H; discriminate.
Qed.
