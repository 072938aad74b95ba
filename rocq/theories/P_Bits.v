(** Lemmas on bit decomposition, packing, field2bits_strict. *)
From Coq Require Import List ZArith Bool Arith Lia.
From Verif Require Import Primes Field Base R1CS R1CSFacts M_Lookup P_Lookup M_Bits.
Import ListNotations.
Local Open Scope F_scope.

(** ** bits_of_Z / natbits *)
Lemma bits_of_Z_length n z : length (bits_of_Z n z) = n.
Proof. revert z. induction n; cbn; intros; [|rewrite IHn]; reflexivity. Qed.

Lemma natbits_range bs : (0 <= natbits bs < 2 ^ Z.of_nat (length bs))%Z.
Proof.
  induction bs as [|b bs IH]; cbn [natbits length]; [cbn; lia|].
  rewrite Nat2Z.inj_succ, Z.pow_succ_r by lia. destruct b; cbn [b2Z]; lia.
Qed.

Lemma natbits_bits n z : natbits (bits_of_Z n z) = (z mod 2 ^ Z.of_nat n)%Z.
Proof.
  revert z. induction n as [|n IH]; intros z; cbn [bits_of_Z natbits].
  - now rewrite Z.mod_1_r.
  - rewrite IH, Nat2Z.inj_succ, Z.pow_succ_r by lia.
    assert (Hp : (0 < 2 ^ Z.of_nat n)%Z) by (apply Z.pow_pos_nonneg; lia).
    rewrite Z.rem_mul_r by lia.
    rewrite Z.div2_div. f_equal.
    rewrite Zmod_odd. destruct (Z.odd z); reflexivity.
Qed.

Lemma bits_natbits bs : bits_of_Z (length bs) (natbits bs) = bs.
Proof.
  induction bs as [|b bs IH]; cbn [length bits_of_Z natbits]; [reflexivity|].
  f_equal.
  - rewrite Z.odd_add_mul_2. now destruct b.
  - replace (Z.div2 (b2Z b + 2 * natbits bs))%Z with (natbits bs); [exact IH|].
    rewrite Z.div2_div. rewrite Z.mul_comm, Z.div_add by lia. now destruct b.
Qed.

Lemma natbits_inj bs bs' : length bs = length bs' -> natbits bs = natbits bs' -> bs = bs'.
Proof.
  intros Hl H. rewrite <- (bits_natbits bs), <- (bits_natbits bs'), Hl, H. reflexivity.
Qed.

Lemma natbits_app a b : natbits (a ++ b) = (natbits a + 2 ^ Z.of_nat (length a) * natbits b)%Z.
Proof.
  induction a as [|x a IH]; [cbn [app natbits length Z.of_nat]; rewrite Z.pow_0_r; lia|].
  cbn [app natbits length]. rewrite IH, Nat2Z.inj_succ, Z.pow_succ_r by lia. ring.
Qed.

Lemma natbits_bits_small n z : (0 <= z < 2 ^ Z.of_nat n)%Z -> natbits (bits_of_Z n z) = z.
Proof. intros H. rewrite natbits_bits. now apply Z.mod_small. Qed.

(** ** packing *)
Lemma pack_from_ev s c vs bs : map s vs = map b2F bs ->
  ev s (pack_from c vs) = c * Fof (natbits bs).
Proof.
  revert c bs. induction vs as [|v vs IH]; intros c [|b bs] H; try discriminate.
  - cbn. ring.
  - cbn in H. injection H as Hv Hvs. cbn [pack_from ev]. rewrite (IH _ bs Hvs), Hv.
    cbn [natbits]. rewrite Fof_add, Fof_mul, Fof_b2Z. ring.
Qed.

Lemma pack_lc_ev s vs bs : map s vs = map b2F bs -> ev s (pack_lc vs) = Fof (natbits bs).
Proof. intros H. unfold pack_lc. rewrite (pack_from_ev _ _ _ _ H). ring. Qed.

Lemma isbit_list (s : assign) vs : Forall (fun v => isbit (s v)) vs <-> exists bs, map s vs = map b2F bs.
Proof.
  induction vs as [|v vs IH]; cbn.
  - split; [now exists []|constructor].
  - rewrite Forall_cons_iff, IH. split.
    + intros [Hv [bs Hbs]]. apply isbit_ex in Hv. destruct Hv as [b Hb].
      exists (b :: bs). cbn. congruence.
    + intros [[|b bs] H]; [discriminate|]. cbn in H. injection H as Hb Hbs.
      split; [rewrite Hb; apply isbit_b2F|eauto].
Qed.

Lemma packing_sat s vs p :
  sat s (packing_constraints true vs p) <->
  exists bs, map s vs = map b2F bs /\ ev s p = Fof (natbits bs).
Proof.
  unfold packing_constraints. rewrite sat_cons, sat_map.
  split.
  - intros [H Hb]. assert (Hb' : Forall (fun v => isbit (s v)) vs).
    { eapply Forall_impl; [|exact Hb]. intros v Hv. now apply boolean_c_spec in Hv. }
    apply isbit_list in Hb'. destruct Hb' as [bs Hbs]. exists bs. split; [exact Hbs|].
    unfold holds in H. cbn [cA cB cC L1 ev] in H. rewrite <- H, (pack_lc_ev _ _ _ Hbs). ring.
  - intros (bs & Hbs & Hp). split.
    + unfold holds. cbn [cA cB cC L1 ev]. rewrite Hp, (pack_lc_ev _ _ _ Hbs). ring.
    + assert (Hb : Forall (fun v => isbit (s v)) vs) by (apply isbit_list; eauto).
      eapply Forall_impl; [|exact Hb]. intros v Hv. now apply boolean_c_spec.
Qed.

Lemma pack_from_all (P : var -> Prop) c vs : (forall v, In v vs -> P v) -> lc_all P (pack_from c vs).
Proof.
  revert c. induction vs as [|v vs IH]; intros c H; cbn; [exact I|].
  split; [apply H; now left|apply IH; intros; apply H; now right].
Qed.

Lemma sum_lc_all (P : var -> Prop) vs : (forall v, In v vs -> P v) -> lc_all P (sum_lc vs).
Proof.
  induction vs as [|v vs IH]; intros H; cbn; [exact I|].
  split; [apply H; now left|apply IH; intros; apply H; now right].
Qed.

Lemma packing_all (P : var -> Prop) vs p : (forall v, In v vs -> P v) -> lc_all P p ->
  cs_all P (packing_constraints true vs p).
Proof.
  intros H Hp. unfold packing_constraints. rewrite cs_all_cons, cs_all_map. split.
  - unfold c_all. cbn [cA cB cC L1 lc_all]. repeat split; [|exact Hp]. now apply pack_from_all.
  - apply Forall_forall. intros v Hv. unfold c_all, boolean_c. cbn. repeat split; auto.
Qed.

(** ** upds *)
Lemma upds_other s vs xs v : ~ In v vs -> upds s vs xs v = s v.
Proof.
  revert s xs. induction vs as [|w vs IH]; intros s xs H; cbn; [reflexivity|].
  destruct xs as [|x xs]; [reflexivity|].
  rewrite IH by (intros Hin; apply H; now right).
  apply upd_other. intros ->. apply H. now left.
Qed.

Lemma upds_map s vs xs : NoDup vs -> length xs = length vs -> map (upds s vs xs) vs = xs.
Proof.
  revert s xs. induction vs as [|v vs IH]; intros s [|x xs] Hn Hl; try discriminate; [reflexivity|].
  inversion Hn as [|? ? Hni Hn']; subst. cbn [upds map]. f_equal.
  - rewrite upds_other by assumption. apply upd_same.
  - apply IH; [assumption|]. cbn in Hl. lia.
Qed.

Lemma var_array_In n len v : In v (var_array n len) <-> (n <= v < n + len)%nat.
Proof. apply in_seq. Qed.

Lemma num_bits_le z n : (0 <= z)%Z -> (num_bits z <=? Z.of_nat n)%Z = true <-> (z < 2 ^ Z.of_nat n)%Z.
Proof.
  intros Hz. unfold num_bits. rewrite Z.leb_le. destruct (Z.eqb_spec z 0) as [->|Hn].
  - split; intros _; [apply Z.pow_pos_nonneg|]; lia.
  - rewrite Z.log2_lt_pow2 by lia. lia.
Qed.

Lemma packing_witness_ok bits p s x : ev s p = x -> (fval x < 2 ^ Z.of_nat (length bits))%Z ->
  packing_witness_from_packed bits p s = Ok (fill_bits_of s bits x).
Proof.
  intros <- H. unfold packing_witness_from_packed.
  rewrite (proj2 (num_bits_le _ _ (proj1 (fval_range _)))) by exact H. reflexivity.
Qed.

Lemma packing_witness_abort bits p s : (2 ^ Z.of_nat (length bits) <= fval (ev s p))%Z ->
  packing_witness_from_packed bits p s = Abort.
Proof.
  intros H. unfold packing_witness_from_packed.
  destruct (num_bits (fval (ev s p)) <=? Z.of_nat (length bits))%Z eqn:E; [|reflexivity].
  apply num_bits_le in E; [lia|]. apply fval_range.
Qed.

Lemma fill_bits_spec s bits x : NoDup bits ->
  map (fill_bits_of s bits x) bits = map b2F (bits_of_Z (length bits) (fval x)).
Proof.
  intros H. unfold fill_bits_of. apply upds_map; [assumption|].
  now rewrite map_length, bits_of_Z_length.
Qed.

Lemma fill_bits_other s bits x v : ~ In v bits -> fill_bits_of s bits x v = s v.
Proof. apply upds_other. Qed.

(** ** field2bits *)
Definition cmp_table (lb : bool) : list F := if lb then table_cmp_1 else table_cmp_0.

Fixpoint cmps_list (lbs : list bool) (bits : list var) (n : nat) : list lookup1 :=
  match lbs, bits with
  | lb :: lbs', b :: bits' =>
      {| lk1_c := cmp_table lb; lk1_b := b; lk1_r := n |} :: cmps_list lbs' bits' (S n)
  | _, _ => []
  end.

Lemma f2b_cmps_new_eq lbs bits n :
  f2b_cmps_new lbs bits n = Ok (cmps_list lbs bits n, (n + length (cmps_list lbs bits n))%nat).
Proof.
  revert bits n. induction lbs as [|lb lbs IH]; intros bits n; cbn.
  - now rewrite Nat.add_0_r.
  - destruct bits as [|b bits]; cbn; [now rewrite Nat.add_0_r|].
    destruct lb; cbn; rewrite IH; cbn; (f_equal; f_equal; lia).
Qed.

Lemma cmps_list_length lbs bits n : length lbs = length bits ->
  length (cmps_list lbs bits n) = length bits.
Proof.
  revert bits n. induction lbs as [|lb lbs IH]; intros [|b bits] n H; cbn in *; try lia.
  rewrite IH; lia.
Qed.

Lemma cmps_list_nth lbs bits n i lb b : nth_error lbs i = Some lb -> nth_error bits i = Some b ->
  nth_error (cmps_list lbs bits n) i = Some {| lk1_c := cmp_table lb; lk1_b := b; lk1_r := (n + i)%nat |}.
Proof.
  revert lbs bits n. induction i as [|i IH]; intros [|l lbs] [|b' bits] n H1 H2; try discriminate.
  - cbn in *. injection H1 as ->. injection H2 as ->. now rewrite Nat.add_0_r.
  - cbn in *. rewrite (IH lbs bits (S n) H1 H2). now rewrite Nat.add_succ_r.
Qed.

Lemma cmps_list_nth_r lbs bits n i g : length lbs = length bits ->
  nth_error (cmps_list lbs bits n) i = Some g -> lk1_r g = (n + i)%nat.
Proof.
  intros Hl Hg. assert (Hi : (i < length bits)%nat).
  { rewrite <- (cmps_list_length lbs bits n Hl). apply nth_error_Some. congruence. }
  destruct (nth_error bits i) as [b|] eqn:Eb; [|apply nth_error_None in Eb; lia].
  destruct (nth_error lbs i) as [lb|] eqn:El; [|apply nth_error_None in El; lia].
  rewrite (cmps_list_nth _ _ n _ _ _ El Eb) in Hg. injection Hg as <-. reflexivity.
Qed.

Lemma cmp_table_len lb : length (cmp_table lb) = 2%nat.
Proof. now destruct lb. Qed.

Lemma cmp_lookup1_new lb b n :
  lookup1_new (cmp_table lb) b n = Ok ({| lk1_c := cmp_table lb; lk1_b := b; lk1_r := n |}, S n).
Proof. now destruct lb. Qed.

Lemma omapM_ok {A B} (f : A -> outcome B) l : (forall a, In a l -> exists b, f a = Ok b) ->
  exists bs, omapM f l = Ok bs /\ Forall2 (fun a b => f a = Ok b) l bs.
Proof.
  induction l as [|a l IH]; intros H; cbn.
  - exists []. split; [reflexivity|constructor].
  - destruct (H a) as [b Hb]; [now left|]. destruct IH as (bs & Hbs & HF); [intros; apply H; now right|].
    rewrite Hb, Hbs. cbn. exists (b :: bs). split; [reflexivity|]. now constructor.
Qed.

Lemma omapM_Forall2 {A B} (f : A -> outcome B) l bs : omapM f l = Ok bs <-> Forall2 (fun a b => f a = Ok b) l bs.
Proof.
  revert bs. induction l as [|a l IH]; intros bs; cbn.
  - split; intros H; [injection H as <-; constructor|inversion H; reflexivity].
  - split; intros H.
    + apply obind_ok in H. destruct H as (b & Hb & H).
      apply obind_ok in H. destruct H as (bs' & Hbs & H). injection H as <-.
      constructor; [assumption|]. now apply IH.
    + inversion H as [|? b ? bs' Hb Hbs]; subst. rewrite Hb. apply IH in Hbs. rewrite Hbs. reflexivity.
Qed.

(** the witness loop over the comparisons *)
Lemma cmps_witness lbs bits n s bs :
  length lbs = length bits -> map s bits = map b2F bs -> (forall b, In b bits -> b < n)%nat ->
  exists s', oseq (map lookup1_witness (cmps_list lbs bits n)) s = Ok s' /\
    frame n (n + length bits) s s' /\
    forall g, In g (cmps_list lbs bits n) ->
      exists lb, lk1_c g = cmp_table lb /\ (forall bit, s (lk1_b g) = b2F bit -> nth_error (lk1_c g) (sel1 bit) = Some (s' (lk1_r g))).
Proof.
  revert bits n s bs. induction lbs as [|lb lbs IH]; intros [|b bits] n s bs Hl Hbs Hlt; try discriminate.
  - exists s. split; [reflexivity|]. split; [apply frame_refl|]. intros g [].
  - destruct bs as [|bit bs]; [discriminate|]. cbn in Hbs. injection Hbs as Hb Hbs.
    cbn [cmps_list map oseq].
    destruct (lookup1_witness_ok _ _ _ _ _ s bit (cmp_lookup1_new lb b n) Hb) as (x & Hx & Hw).
    rewrite Hw. cbn [obind].
    assert (Hs : forall v, In v bits -> upd s n x v = s v).
    { intros v Hv. apply upd_other. specialize (Hlt v (or_intror Hv)). lia. }
    destruct (IH bits (S n) (upd s n x) bs) as (s' & Hs' & Hf & Hg).
    + cbn in Hl. lia.
    + rewrite <- Hbs. apply map_ext_in. exact Hs.
    + intros v Hv. specialize (Hlt v (or_intror Hv)). lia.
    + exists s'. split; [exact Hs'|]. split.
      * intros v Hv. cbn [length] in Hv. rewrite Hf by lia. apply upd_other. lia.
      * intros g [<-|Hin].
        -- exists lb. split; [reflexivity|]. cbn [lk1_b lk1_c lk1_r]. intros bit' Hb'.
           rewrite Hb in Hb'. apply b2F_inj in Hb'. subst bit'.
           rewrite Hf by lia. rewrite upd_same. exact Hx.
        -- destruct (Hg g Hin) as (lb' & Hc & Hv). exists lb'. split; [exact Hc|].
           intros bit' Hb'. apply Hv. rewrite Hs; [exact Hb'|].
           clear - Hin. revert bits n Hin. induction lbs as [|l lbs IHl]; intros [|b0 bits] n Hin; cbn in Hin; try contradiction.
           destruct Hin as [<-|Hin]; [now left|]. right. eapply IHl; eauto.
Qed.

Lemma countdown_S m : countdown (S m) = S m :: countdown m.
Proof. unfold countdown. rewrite seq_S, rev_app_distr. reflexivity. Qed.

(** Shape of a constructed gadget *)
Lemma f2b_new_shape w largest v n g n' : f2b_new_gen w largest v n = Ok (g, n') ->
  g = {| f2b_in := v; f2b_bits := var_array n w; f2b_results := var_array (n + w) (w - 1);
         f2b_cmps := cmps_list (bits_of_Z w largest) (var_array n w) (n + w + (w - 1)) |} /\
  n' = (n + w + (w - 1) + w)%nat.
Proof.
  unfold f2b_new_gen. rewrite f2b_cmps_new_eq. cbn [obind]. intros H. injection H as <- <-.
  split; [reflexivity|]. rewrite cmps_list_length.
  - now rewrite seq_length.
  - now rewrite bits_of_Z_length, seq_length.
Qed.

Lemma f2b_new_ok w largest v n : exists g n', f2b_new_gen w largest v n = Ok (g, n').
Proof. unfold f2b_new_gen. rewrite f2b_cmps_new_eq. cbn [obind]. eauto. Qed.

Lemma seq_nth_error n len i : (i < len)%nat -> nth_error (seq n len) i = Some (n + i)%nat.
Proof.
  intros H. rewrite (nth_error_nth' _ 0%nat) by (rewrite seq_length; exact H). f_equal. now apply seq_nth.
Qed.

Section F2B.
  Variables (w : nat) (largest : Z) (v n : nat).
  Hypothesis Hw : (2 <= w)%nat.
  Let bits := var_array n w.
  Let R := (n + w)%nat.
  Let C := (n + w + (w - 1))%nat.
  Let cmps := cmps_list (bits_of_Z w largest) bits C.
  Let g := {| f2b_in := v; f2b_bits := bits; f2b_results := var_array R (w - 1); f2b_cmps := cmps |}.

  Let bits_len : length bits = w.
  Proof. apply seq_length. Qed.

  Let lens : length (bits_of_Z w largest) = length bits.
  Proof. now rewrite bits_of_Z_length, bits_len. Qed.

  Lemma cmp_at i : (i < w)%nat -> exists lb, nth_error cmps i =
     Some {| lk1_c := cmp_table lb; lk1_b := (n + i)%nat; lk1_r := (C + i)%nat |}.
  Proof.
    intros Hi. destruct (nth_error (bits_of_Z w largest) i) as [lb|] eqn:E.
    - exists lb. apply cmps_list_nth; [exact E|]. now apply seq_nth_error.
    - apply nth_error_None in E. rewrite bits_of_Z_length in E. lia.
  Qed.

  Lemma and_at i : (1 <= i < w)%nat ->
    f2b_and_constraint g (w - 1) i = Ok
      (R1 (V (C + (i - 1))) (V (if Nat.eqb i (w - 1) then C + i else R + i)) (V (R + (i - 1))))%nat.
  Proof.
    intros Hi. unfold f2b_and_constraint. cbn [f2b_results f2b_cmps g].
    unfold idx. unfold var_array. rewrite seq_nth_error by lia. cbn [obind].
    destruct (cmp_at (i - 1)) as [lb Hlb]; [lia|]. rewrite Hlb. cbn [obind].
    destruct (Nat.eqb_spec i (w - 1)) as [E|E].
    - destruct (cmp_at i) as [lb' Hlb']; [lia|]. rewrite Hlb'. cbn [obind]. reflexivity.
    - rewrite seq_nth_error by lia. cbn [obind]. reflexivity.
  Qed.

  Definition and_holds (s : assign) (i : nat) : Prop :=
    s (R + (i - 1))%nat = s (C + (i - 1))%nat * s (if Nat.eqb i (w - 1) then C + i else R + i)%nat.

  Lemma and_loop j s : (j <= w - 1)%nat ->
    exists s', oseq (map (f2b_and_witness g (w - 1)) (countdown j)) s = Ok s' /\
      frame R (R + j) s s' /\ forall i, (1 <= i <= j)%nat -> and_holds s' i.
  Proof.
    revert s. induction j as [|j IH]; intros s Hj.
    - exists s. split; [reflexivity|]. split; [apply frame_refl|]. intros i Hi. lia.
    - rewrite countdown_S. cbn [map oseq].
      assert (Hstep : f2b_and_witness g (w - 1) (S j) s = Ok (upd s (R + j)%nat
         (s (C + j)%nat * s (if Nat.eqb (S j) (w - 1) then C + S j else R + S j)%nat))).
      { unfold f2b_and_witness. cbn [f2b_results f2b_cmps g]. unfold idx, var_array.
        replace (S j - 1)%nat with j by lia.
        rewrite seq_nth_error by lia. cbn [obind].
        destruct (cmp_at j) as [lb Hlb]; [lia|]. rewrite Hlb. cbn [obind].
        destruct (Nat.eqb_spec (S j) (w - 1)) as [E|E].
        - destruct (cmp_at (S j)) as [lb' Hlb']; [lia|]. rewrite Hlb'. cbn [obind]. reflexivity.
        - rewrite seq_nth_error by lia. cbn [obind]. unfold lookup1_result. cbn [lk1_r].
          do 2 f_equal. ring. }
      rewrite Hstep. cbn [obind].
      set (s1 := upd s _ _).
      destruct (IH s1) as (s' & Hs' & Hf & Ha); [lia|].
      exists s'. split; [exact Hs'|]. split.
      + intros u Hu. rewrite Hf by lia. subst s1. apply upd_other. lia.
      + intros i Hi. destruct (Nat.eq_dec i (S j)) as [->|Hne]; [|apply Ha; lia].
        unfold and_holds. replace (S j - 1)%nat with j by lia.
        rewrite !Hf by (destruct (Nat.eqb (S j) (w - 1)); unfold C, R in *; lia).
        subst s1. rewrite upd_same.
        rewrite !upd_other by (destruct (Nat.eqb (S j) (w - 1)); unfold C, R in *; lia).
        reflexivity.
  Qed.

  Definition f2b_and_cs : list constr :=
    map (fun i => R1 (V (C + (i - 1))) (V (if Nat.eqb i (w - 1) then C + i else R + i)) (V (R + (i - 1))))%nat
        (countdown (w - 1)).

  Lemma countdown_In i m : In i (countdown m) <-> (1 <= i <= m)%nat.
  Proof. unfold countdown. rewrite <- in_rev, in_seq. lia. Qed.

  Lemma f2b_constraints_shape :
    exists ccs, f2b_constraints g = Ok (packing_constraints true bits (V v) ++ concat ccs ++ f2b_and_cs) /\
      Forall2 (fun c cs => lookup1_constraints c = Ok cs) cmps ccs.
  Proof.
    unfold f2b_constraints. cbn [f2b_bits f2b_in f2b_cmps g].
    destruct (omapM_ok lookup1_constraints cmps) as (ccs & Hccs & HF).
    { intros c Hc. apply In_nth_error in Hc. destruct Hc as [i Hi].
      assert (Hlt : (i < w)%nat).
      { assert (Hl : (i < length cmps)%nat) by (apply nth_error_Some; congruence).
        unfold cmps in Hl. rewrite cmps_list_length in Hl by exact lens. now rewrite bits_len in Hl. }
      destruct (cmp_at i Hlt) as [lb Hlb]. rewrite Hlb in Hi. injection Hi as <-.
      destruct (lookup1_sat _ _ _ _ _ (cmp_lookup1_new lb (n + i)%nat (C + i)%nat)) as (cs & Hcs & _).
      eauto. }
    exists ccs. split; [|exact HF]. rewrite Hccs. cbn [obind].
    rewrite bits_len.
    assert (Ha : omapM (f2b_and_constraint g (w - 1)) (countdown (w - 1)) = Ok f2b_and_cs).
    { apply omapM_Forall2. unfold f2b_and_cs.
      assert (Hc : forall i, In i (countdown (w-1)) -> (1 <= i < w)%nat).
      { intros i Hi. apply countdown_In in Hi. lia. }
      induction (countdown (w - 1)) as [|i l IHl]; cbn [map]; constructor.
      - apply and_at. apply Hc. now left.
      - apply IHl. intros i' Hi'. apply Hc. now right. }
    rewrite Ha. cbn [obind]. reflexivity.
  Qed.

  (** From boolean bits, the rest of the witness generation satisfies everything
      except the packing equation, which only concerns the input. *)
  Lemma f2b_fill s bs : map s bits = map b2F bs ->
    exists s1 s', oseq (map lookup1_witness cmps) s = Ok s1 /\
      oseq (map (f2b_and_witness g (w - 1)) (countdown (w - 1))) s1 = Ok s' /\
      frame R (C + w) s s' /\
      (forall ccs, Forall2 (fun c cs => lookup1_constraints c = Ok cs) cmps ccs -> sat s' (concat ccs)) /\
      sat s' f2b_and_cs.
  Proof.
    intros Hbs.
    destruct (cmps_witness (bits_of_Z w largest) bits C s bs) as (s1 & Hs1 & Hf1 & Hg1).
    { exact lens. } { exact Hbs. }
    { intros b Hb. apply var_array_In in Hb. unfold C in *. lia. }
    destruct (and_loop (w - 1) s1) as (s' & Hs' & Hf' & Ha'); [lia|].
    exists s1, s'. split; [exact Hs1|]. split; [exact Hs'|].
    rewrite bits_len in Hf1.
    assert (Hff : frame R (C + w) s s').
    { intros u Hu. rewrite Hf' by (unfold C, R in *; lia). apply Hf1. unfold C, R in *; lia. }
    split; [exact Hff|]. split.
    - intros ccs HF. apply sat_concat.
      apply Forall_forall. intros cs Hcs. apply In_nth_error in Hcs. destruct Hcs as [i Hi].
      assert (exists c, nth_error cmps i = Some c /\ lookup1_constraints c = Ok cs) as (c & Hc & Hcc).
      { clear - HF Hi. revert i Hi. induction HF as [|c cs0 l l' H HF IH]; intros i Hi; [destruct i; discriminate|].
        destruct i as [|i]; cbn in *; [injection Hi as <-; eauto|auto]. }
      assert (Hlt : (i < w)%nat).
      { assert (Hl : (i < length cmps)%nat) by (apply nth_error_Some; congruence).
        unfold cmps in Hl. rewrite cmps_list_length in Hl by exact lens. now rewrite bits_len in Hl. }
      destruct (cmp_at i Hlt) as [lb Hlb]. rewrite Hlb in Hc. injection Hc as <-.
      destruct (lookup1_sat _ _ _ _ _ (cmp_lookup1_new lb (n + i)%nat (C + i)%nat)) as (cs' & Hcs' & _ & _ & Hsat).
      rewrite Hcc in Hcs'. injection Hcs' as <-.
      destruct (nth_error bs i) as [bit|] eqn:Ebit.
      2:{ apply nth_error_None in Ebit. apply (f_equal (@length F)) in Hbs.
          rewrite !map_length, bits_len in Hbs. lia. }
      assert (Hb : s (n + i)%nat = b2F bit).
      { assert (H : nth_error (map s bits) i = nth_error (map b2F bs) i) by now rewrite Hbs.
        rewrite !nth_error_map, Ebit in H. unfold bits, var_array in H.
        rewrite seq_nth_error in H by assumption. cbn in H. congruence. }
      destruct (Hg1 _ (nth_error_In _ _ Hlb)) as (lb' & Hc' & Hv'). cbn [lk1_c lk1_b lk1_r] in *.
      apply (Hsat s' bit).
      + rewrite Hff by (unfold C, R in *; lia). exact Hb.
      + unfold lookup1_result. cbn [lk1_r].
        rewrite Hf' by (unfold C, R in *; lia). apply Hv'. exact Hb.
    - unfold f2b_and_cs. apply sat_map. apply Forall_forall. intros i Hi. apply countdown_In in Hi.
      unfold holds. cbn [cA cB cC ev]. symmetry. apply Ha'. lia.
  Qed.

  Lemma f2b_scope ccs (P : var -> Prop) : Forall2 (fun c cs => lookup1_constraints c = Ok cs) cmps ccs ->
    (forall u, (n <= u < C + w)%nat -> P u) -> P v ->
    cs_all P (packing_constraints true bits (V v) ++ concat ccs ++ f2b_and_cs).
  Proof.
    intros HF HP Hv. rewrite !cs_all_app. split; [|split].
    - apply packing_all; [|exact Hv]. intros u Hu. apply var_array_In in Hu. apply HP. unfold C in *. lia.
    - unfold cs_all. apply Forall_concat. apply Forall_forall. intros cs Hcs.
      apply In_nth_error in Hcs. destruct Hcs as [i Hi].
      assert (exists c, nth_error cmps i = Some c /\ lookup1_constraints c = Ok cs) as (c & Hc & Hcc).
      { clear - HF Hi. revert i Hi. induction HF as [|c cs0 l l' H HF IH]; intros i Hi; [destruct i; discriminate|].
        destruct i as [|i]; cbn in *; [injection Hi as <-; eauto|auto]. }
      assert (Hlt : (i < w)%nat).
      { assert (Hl : (i < length cmps)%nat) by (apply nth_error_Some; congruence).
        unfold cmps in Hl. rewrite cmps_list_length in Hl by exact lens. now rewrite bits_len in Hl. }
      destruct (cmp_at i Hlt) as [lb Hlb]. rewrite Hlb in Hc. injection Hc as <-.
      destruct (lookup1_sat _ _ _ _ _ (cmp_lookup1_new lb (n + i)%nat (C + i)%nat)) as (cs' & Hcs' & _ & Hall & _).
      rewrite Hcc in Hcs'. injection Hcs' as <-.
      eapply cs_all_impl; [|exact Hall]. cbn. intros u [->| ->]; apply HP; unfold C in *; lia.
    - unfold f2b_and_cs. apply cs_all_map. apply Forall_forall. intros i Hi. apply countdown_In in Hi.
      unfold c_all. cbn [lc_all cA cB cC]. repeat split; apply HP;
      try (destruct (Nat.eqb_spec i (w - 1))); unfold C, R in *; lia.
  Qed.
End F2B.

(** ** Main lemmas for field2bits *)
Lemma p_lt_2_254 : (p_mod < 2 ^ 254)%Z.
Proof. reflexivity. Qed.
Lemma p_gt_2_253 : (2 ^ 253 < p_mod)%Z.
Proof. reflexivity. Qed.

Lemma f2b_sound_gen w largest v n g n' cs s : (2 <= w)%nat ->
  f2b_new_gen w largest v n = Ok (g, n') -> f2b_constraints g = Ok cs -> sat s cs ->
  exists bs, map s (f2b_result g) = map b2F bs /\ length bs = w /\ s v = Fof (natbits bs).
Proof.
  intros Hw Hg Hcs Hs. apply f2b_new_shape in Hg. destruct Hg as [-> ->].
  destruct (f2b_constraints_shape w largest v n Hw) as (ccs & Heq & _).
  rewrite Heq in Hcs. apply Ok_inj in Hcs. subst cs. rewrite !sat_app in Hs. destruct Hs as [Hp _].
  apply packing_sat in Hp. destruct Hp as (bs & Hbs & Hv). cbn [f2b_result f2b_bits].
  exists bs. split; [exact Hbs|]. split; [|exact Hv].
  apply (f_equal (@length F)) in Hbs. rewrite !map_length, seq_length in Hbs. lia.
Qed.

(** every boolean vector congruent to the value extends to a full solution *)
Lemma f2b_extend_gen w largest v n g n' s bs : (2 <= w)%nat -> (v < n)%nat ->
  f2b_new_gen w largest v n = Ok (g, n') ->
  length bs = w -> s v = Fof (natbits bs) ->
  exists s' cs, f2b_constraints g = Ok cs /\ sat s' cs /\ frame n n' s s' /\
     map s' (f2b_result g) = map b2F bs.
Proof.
  intros Hw Hvn Hg Hlen Hv. apply f2b_new_shape in Hg. destruct Hg as [-> ->].
  set (s0 := upds s (var_array n w) (map b2F bs)).
  assert (H0 : map s0 (var_array n w) = map b2F bs).
  { apply upds_map; [apply seq_NoDup|]. rewrite map_length, seq_length. exact Hlen. }
  assert (Hf0 : forall u, ~ In u (var_array n w) -> s0 u = s u) by (intros; now apply upds_other).
  destruct (f2b_fill w largest v n Hw s0 bs H0) as (s1 & s' & _ & _ & Hf & Hc & Ha).
  destruct (f2b_constraints_shape w largest v n Hw) as (ccs & Heq & HF).
  exists s'. eexists. split; [exact Heq|].
  assert (Hbits : map s' (var_array n w) = map b2F bs).
  { rewrite <- H0. apply map_ext_in. intros u Hu. apply var_array_In in Hu. apply Hf. lia. }
  split; [|split].
  - rewrite !sat_app. split; [|split; [now apply Hc|exact Ha]].
    apply packing_sat. exists bs. split; [exact Hbits|]. cbn [ev].
    rewrite Hf by lia. rewrite Hf0; [exact Hv|]. rewrite var_array_In. lia.
  - intros u Hu. rewrite Hf by lia. apply Hf0. rewrite var_array_In. lia.
  - exact Hbits.
Qed.

Lemma f2b_complete_gen w largest v n g n' s : (2 <= w)%nat -> (v < n)%nat ->
  f2b_new_gen w largest v n = Ok (g, n') -> (fval (s v) < 2 ^ Z.of_nat w)%Z ->
  exists s' cs, f2b_witness g s = Ok s' /\ f2b_constraints g = Ok cs /\ sat s' cs /\
     frame n n' s s' /\ map s' (f2b_result g) = map b2F (bits_of_Z w (fval (s v))).
Proof.
  intros Hw Hvn Hg Hr. apply f2b_new_shape in Hg. destruct Hg as [-> ->].
  set (g := {| f2b_in := v |}).
  assert (Hwl : length (var_array n w) = w) by apply seq_length.
  unfold f2b_witness. cbn [f2b_bits f2b_in g].
  rewrite (packing_witness_ok (var_array n w) (V v) s (s v) eq_refl) by (rewrite Hwl; exact Hr).
  cbn [obind]. set (s0 := fill_bits_of s (var_array n w) (s v)).
  assert (H0 : map s0 (var_array n w) = map b2F (bits_of_Z w (fval (s v)))).
  { subst s0. rewrite fill_bits_spec by apply seq_NoDup. now rewrite Hwl. }
  destruct (f2b_fill w largest v n Hw s0 _ H0) as (s1 & s' & Hs1 & Hs' & Hf & Hc & Ha).
  cbn [f2b_cmps g]. rewrite Hs1. cbn [obind]. rewrite Hwl. fold g in Hs'. rewrite Hs'.
  destruct (f2b_constraints_shape w largest v n Hw) as (ccs & Heq & HF). fold g in Heq.
  exists s'. eexists. split; [reflexivity|]. split; [exact Heq|].
  assert (Hbits : map s' (var_array n w) = map b2F (bits_of_Z w (fval (s v)))).
  { rewrite <- H0. apply map_ext_in. intros u Hu. apply var_array_In in Hu. apply Hf. lia. }
  split; [|split].
  - rewrite !sat_app. split; [|split; [now apply Hc|exact Ha]].
    apply packing_sat. eexists. split; [exact Hbits|]. cbn [ev].
    rewrite Hf by lia. subst s0. rewrite fill_bits_other by (rewrite var_array_In; lia).
    rewrite natbits_bits_small; [symmetry; apply Fof_fval|].
    split; [apply fval_range|exact Hr].
  - intros u Hu. rewrite Hf by lia. subst s0. apply fill_bits_other. rewrite var_array_In. lia.
  - exact Hbits.
Qed.

Lemma f2b_scope_gen w largest v n g n' cs (P : var -> Prop) : (2 <= w)%nat ->
  f2b_new_gen w largest v n = Ok (g, n') -> f2b_constraints g = Ok cs ->
  (forall u, (n <= u < n')%nat -> P u) -> P v -> cs_all P cs.
Proof.
  intros Hw Hg Hcs HP Hv. apply f2b_new_shape in Hg. destruct Hg as [-> ->].
  destruct (f2b_constraints_shape w largest v n Hw) as (ccs & Heq & HF).
  rewrite Heq in Hcs. apply Ok_inj in Hcs. subst cs. apply (f2b_scope w largest v n Hw); assumption.
Qed.
