(** Lemmas about the Poseidon gadget. *)
From Coq Require Import List ZArith Bool Arith Lia.
From Verif Require Import Primes Field Base R1CS R1CSFacts Gadget P_Bits P_Mimc M_Bits M_Poseidon Spec_Poseidon Q_OneOfN Q_Shamir.
Import ListNotations.
Local Open Scope F_scope.

(** ** sums *)
Lemma fsum_cons x l : fsum (x :: l) = x + fsum l.
Proof. reflexivity. Qed.
Lemma fsum_nil : fsum [] = F0.
Proof. reflexivity. Qed.

Lemma ev_lc_sum s l : forall z, ev s (lc_sum z l) = ev s z + fsum (map (ev s) l).
Proof.
  induction l as [|x l IH]; intros z; unfold lc_sum in *; cbn [fold_left map].
  - rewrite fsum_nil. ring.
  - rewrite IH. cbn [ev]. rewrite fsum_cons. ring.
Qed.

Lemma fold_left_Fadd l : forall z, fold_left Fadd l z = z + fsum l.
Proof.
  induction l as [|x l IH]; intros z; cbn [fold_left].
  - rewrite fsum_nil. ring.
  - rewrite IH, fsum_cons. ring.
Qed.

Lemma fsum_map_add {A} (f g : A -> F) l : fsum (map (fun a => f a + g a) l) = fsum (map f l) + fsum (map g l).
Proof. induction l as [|a l IH]; cbn [map]; rewrite ?fsum_nil, ?fsum_cons; [ring|]. rewrite IH. ring. Qed.

Lemma fsum_map_0 {A} (f : A -> F) l : (forall a, In a l -> f a = F0) -> fsum (map f l) = F0.
Proof.
  induction l as [|a l IH]; intros H; [reflexivity|]. cbn [map]. rewrite fsum_cons, H, IH; [ring| |now left].
  intros; apply H; now right.
Qed.

Lemma dot_sum a : forall b, length a = length b ->
  dot a b = fsum (map (fun j => nth j a F0 * nth j b F0) (seq 0 (length a))).
Proof.
  induction a as [|x a IH]; intros [|y b] L; try discriminate; [reflexivity|].
  injection L as L. cbn [dot length seq map]. rewrite fsum_cons. cbn [nth]. f_equal.
  rewrite IH by exact L. rewrite <- seq_shift, map_map. reflexivity.
Qed.

Lemma nth_row t M i j : (j < t)%nat -> (t * (S i) <= length M)%nat -> nth j (row t M i) F0 = nth (i * t + j) M F0.
Proof.
  intros Hj HM. unfold row. rewrite <- (firstn_skipn (i * t) M) at 2.
  rewrite app_nth2 by (rewrite firstn_length; nia). rewrite firstn_length, Nat.min_l by nia.
  replace (i * t + j - i * t)%nat with j by lia.
  rewrite <- (firstn_skipn t (skipn (i * t) M)) at 2.
  rewrite app_nth1; [reflexivity|]. rewrite firstn_length, skipn_length. nia.
Qed.

Lemma row_length t M i : (t * (S i) <= length M)%nat -> length (row t M i) = t.
Proof. intros H. unfold row. rewrite firstn_length, skipn_length. nia. Qed.

Lemma sub_words_length nS C st : length (sub_words nS C st) = length st.
Proof. unfold sub_words. rewrite app_length, !map_length, <- app_length, firstn_skipn. reflexivity. Qed.

Lemma nth_sub_words nS C st j : (nS <= length st)%nat -> (j < length st)%nat ->
  nth j (sub_words nS C st) F0 = if (j <? nS)%nat then Fpow (nth j st F0 + C) 5 else nth j st F0 + C.
Proof.
  intros HS Hj. unfold sub_words.
  assert (L : length (map (fun x => Fpow (x + C) 5) (firstn nS st)) = nS) by (rewrite map_length, firstn_length; lia).
  assert (L2 : length (firstn nS st) = nS) by (rewrite firstn_length; lia).
  assert (E : nth j st F0 = nth j (firstn nS st ++ skipn nS st) F0) by now rewrite firstn_skipn.
  rewrite E. destruct (Nat.ltb_spec j nS).
  - rewrite app_nth1 by lia. rewrite app_nth1 by lia.
    rewrite (nth_indep _ F0 (Fpow (F0 + C) 5)) by lia. rewrite (map_nth (fun x => Fpow (x + C) 5)). reflexivity.
  - rewrite app_nth2 by lia. rewrite app_nth2 by lia. rewrite L, L2.
    rewrite (nth_indep _ F0 (F0 + C)) by (rewrite map_length, skipn_length; lia).
    rewrite (map_nth (fun x => x + C)). reflexivity.
Qed.

Lemma nth_pad t l j : nth j (pad t l) F0 = nth j l F0.
Proof.
  unfold pad. destruct (Nat.lt_ge_cases j (length l)).
  - now rewrite app_nth1.
  - rewrite app_nth2 by lia. rewrite (nth_overflow l) by lia. apply nth_repeat.
Qed.

Lemma pad_length t l : (length l <= t)%nat -> length (pad t l) = t.
Proof. intros H. unfold pad. rewrite app_length, repeat_length. lia. Qed.

Lemma pad_full t l : length l = t -> pad t l = l.
Proof. intros <-. unfold pad. rewrite Nat.sub_diag. apply app_nil_r. Qed.

Lemma nth_firstn_lt {A} (l : list A) k j d : (j < k)%nat -> nth j (firstn k l) d = nth j l d.
Proof.
  revert k j. induction l as [|x l IH]; intros [|k] [|j] H; try lia; try reflexivity; cbn.
  apply IH. lia.
Qed.

Lemma nth_firstn_ge {A} (l : list A) k j d : (k <= j)%nat -> nth j (firstn k l) d = d.
Proof. intros H. apply nth_overflow. rewrite firstn_length. lia. Qed.

Lemma idx_nth {A} (l : list A) i d : (i < length l)%nat -> idx l i = Ok (nth i l d).
Proof. intros H. apply idx_ok. now apply nth_error_nth'. Qed.

Lemma firstn_seq a n k : (k <= n)%nat -> firstn k (seq a n) = seq a k.
Proof.
  revert a n. induction k as [|k IH]; intros a n H; [reflexivity|].
  destruct n as [|n]; [lia|]. cbn [seq firstn]. f_equal. apply IH. lia.
Qed.

(** ** a run of S-boxes *)
Lemma sbox_ok x (val : assign -> F) n : lc_all (fun v => v < n)%nat x -> (forall s, val s = ev s x) ->
  gadget_ok n (n + 3) (sbox_constraints (sbox_new n) x)
    (fun s => Ok (sbox_witness (sbox_new n) (val s) s)) (fun _ => True)
    (fun s => s (n + 2)%nat = Fpow (ev s x) 5).
Proof.
  intros Hx Hval. unfold sbox_constraints, sbox_new. cbn [sb_x2 sb_x4 sb_x5].
  assert (Hx3 : lc_all (fun v => v < n + 3)%nat x) by (eapply lc_all_impl; [|exact Hx]; cbn; intros; lia).
  constructor.
  - lia.
  - apply stable_true.
  - rewrite !cs_all_cons. unfold c_all. cbn [cA cB cC lc_all].
    repeat split; try assumption; try lia; constructor.
  - intros s _. rewrite !sat_cons. unfold holds. cbn [cA cB cC ev]. intros (E1 & E2 & E3 & _).
    rewrite <- E3, <- E2, <- E1, Fpow_5. ring.
  - intros s _. eexists. split; [reflexivity|]. unfold sbox_witness. cbn [sb_x2 sb_x4 sb_x5].
    assert (Hf : frame n (n + 3) s (upd (upd (upd s n (val s * val s)) (n + 1) (val s * val s * (val s * val s))) (n + 2)
        (val s * val s * (val s * val s) * val s))).
    { intros v Hv. rewrite !upd_other by lia. reflexivity. }
    split; [exact Hf|]. set (s' := upd _ _ _) in *.
    assert (E : ev s' x = val s).
    { rewrite Hval. symmetry. apply (ev_ext (fun v => v < n)%nat); [exact Hx|]. intros v Hv. symmetry. apply Hf. left. exact Hv. }
    rewrite !sat_cons. unfold holds. cbn [cA cB cC ev]. rewrite E. unfold s'.
    repeat (rewrite ?upd_same; rewrite ?upd_other by lia). repeat split; try ring; constructor.
Qed.

Lemma oseq_cons {A} (f : A -> outcome A) fs a : oseq (f :: fs) a = obind (f a) (oseq fs).
Proof. reflexivity. Qed.

Lemma sboxes_ok (xin : nat -> lc) (val : nat -> assign -> F) n : forall k a,
  (forall h, (a <= h < a + k)%nat -> lc_all (fun v => v < n)%nat (xin h)) ->
  (forall h s, (a <= h < a + k)%nat -> val h s = ev s (xin h)) ->
  gadget_ok (n + 3 * a) (n + 3 * (a + k))
    (concat (map (fun h => sbox_constraints (sbox_new (n + 3 * h)) (xin h)) (seq a k)))
    (oseq (map (fun h s => Ok (sbox_witness (sbox_new (n + 3 * h)) (val h s) s)) (seq a k)))
    (fun _ => True)
    (fun s => forall h, (a <= h < a + k)%nat -> s (n + 3 * h + 2)%nat = Fpow (ev s (xin h)) 5).
Proof.
  induction k as [|k IH]; intros a Hx Hv.
  - rewrite Nat.add_0_r. cbn [seq map concat].
    eapply gadget_ext; [eapply gadget_weaken; [apply gadget_nil, stable_true|apply stable_true|tauto|]|reflexivity].
    intros; lia.
  - cbn [seq map concat].
    assert (H1 := sbox_ok (xin a) (val a) (n + 3 * a)).
    specialize (IH (S a)).
    replace (n + 3 * (a + S k))%nat with (n + 3 * (S a + k))%nat by lia.
    replace (n + 3 * a + 3)%nat with (n + 3 * S a)%nat in H1 by lia.
    eapply gadget_ext; [eapply gadget_seq; [apply H1|apply IH|tauto|]|].
    + eapply lc_all_impl; [|apply Hx; lia]. cbn. intros; lia.
    + intros s. apply Hv. lia.
    + intros h Hh. apply Hx. lia.
    + intros h s Hh. apply Hv. lia.
    + cbn beta. intros s _ E1 E2 h Hh. destruct (Nat.eq_dec h a) as [->|Hne]; [exact E1|]. apply E2. lia.
    + intros s. rewrite oseq_cons. reflexivity.
Qed.

(** ** one round *)
Section Round.
  Variables (t nS nI nO : nat) (C : F) (M : list F) (state : list lc) (n : nat).
  Hypothesis HS : (nS <= t)%nat.
  Hypothesis HI : (nI <= t)%nat.
  Hypothesis HO : (nO <= t)%nat.
  Hypothesis HL : (nI <= length state)%nat.
  Hypothesis HM : (t * t <= length M)%nat.
  Hypothesis Hst : Forall (lc_all (fun v => v < n)%nat) state.

  Let m i j := nth (i * t + j) M F0.

  Lemma make_sboxes_idx h : (h < nS)%nat -> idx (make_sboxes nS n) h = Ok (sbox_new (n + 3 * h)).
  Proof.
    intros Hh. unfold make_sboxes. apply idx_ok.
    rewrite nth_error_map. rewrite (nth_error_nth' _ 0%nat) by (rewrite seq_length; lia).
    cbn [option_map]. rewrite seq_nth by lia. reflexivity.
  Qed.

  Definition out_lc (i : nat) : lc :=
    lc_sum (lc_sum (if (nS <? t)%nat then LC (fold_left Fadd (map (fun j => C * m i j) (seq nS (t - nS))) F0) else LC F0)
       (map (fun h => LScale (m i h) (V (n + 3 * h + 2)%nat)) (seq 0 nS)))
       (map (fun k => LScale (m i k) (nth k state L0)) (seq nS (nI - nS))).

  Lemma make_output_ok i : (i < t)%nat -> make_output t nS nI C M state (make_sboxes nS n) i = Ok (out_lc i).
  Proof.
    intros Hi. unfold make_output.
    assert (HM' : forall j, (j < t)%nat -> (i * t + j < length M)%nat) by (intros; nia).
    rewrite (omapM_ok _ (fun j => C * m i j)).
    2:{ intros j Hj. apply in_seq in Hj. rewrite (idx_nth _ _ F0) by (apply HM'; lia). reflexivity. }
    cbn [obind].
    rewrite (omapM_ok _ (fun h => LScale (m i h) (V (n + 3 * h + 2)%nat))).
    2:{ intros h Hh. apply in_seq in Hh. rewrite make_sboxes_idx by lia. cbn [obind].
        rewrite (idx_nth _ _ F0) by (apply HM'; lia). reflexivity. }
    cbn [obind].
    rewrite (omapM_ok _ (fun k => LScale (m i k) (nth k state L0))).
    2:{ intros k Hk. apply in_seq in Hk. rewrite (idx_nth state k L0) by lia. cbn [obind].
        rewrite (idx_nth _ _ F0) by (apply HM'; lia). reflexivity. }
    reflexivity.
  Qed.

  Definition rnd : pround := {| pr_nS := nS; pr_nI := nI; pr_C := C; pr_state := state;
     pr_sboxes := make_sboxes nS n; pr_outputs := map out_lc (seq 0 nO) |}.

  Lemma pround_new_ok : pround_new t nS nI nO C M state n = Ok (rnd, (n + 3 * nS)%nat).
  Proof.
    unfold pround_new. rewrite (omapM_ok _ out_lc).
    2:{ intros i Hi. apply in_seq in Hi. apply make_output_ok. lia. }
    cbn [obind]. rewrite (proj2 (Nat.leb_le nI t) HI), (proj2 (Nat.leb_le nO t) HO). reflexivity.
  Qed.

  Definition xin (h : nat) : lc := if (h <? nI)%nat then LAdd (nth h state L0) (LC C) else LC C.

  Lemma nth_state_scope k : lc_all (fun v => v < n)%nat (nth k state L0).
  Proof.
    destruct (Nat.lt_ge_cases k (length state)) as [H|H].
    - rewrite Forall_forall in Hst. apply Hst. now apply nth_In.
    - rewrite nth_overflow by exact H. exact I.
  Qed.

  Lemma pround_constraints_ok : pround_constraints rnd =
    Ok (concat (map (fun h => sbox_constraints (sbox_new (n + 3 * h)) (xin h)) (seq 0 nS))).
  Proof.
    unfold pround_constraints. cbn [pr_nS pr_nI pr_C pr_state pr_sboxes rnd].
    rewrite (omapM_ok _ (fun h => sbox_constraints (sbox_new (n + 3 * h)) (xin h))); [reflexivity|].
    intros h Hh. apply in_seq in Hh. rewrite make_sboxes_idx by lia. cbn [obind]. unfold xin.
    destruct (Nat.ltb_spec h nI); [|reflexivity]. rewrite (idx_nth state h L0) by lia. reflexivity.
  Qed.

  Definition xval (h : nat) (s : assign) : F := if (h <? nI)%nat then C + ev s (nth h state L0) else C.

  Lemma pround_witness_ok s : pround_witness rnd s =
    oseq (map (fun h s => Ok (sbox_witness (sbox_new (n + 3 * h)) (xval h s) s)) (seq 0 nS)) s.
  Proof.
    unfold pround_witness. cbn [pr_nS pr_nI pr_C pr_state pr_sboxes rnd].
    assert (G : forall l s, (forall h, In h l -> (h < nS)%nat) ->
      oseq (map (fun h s =>
         b <- idx (make_sboxes nS n) h ;;
         if (h <? nI)%nat then st <- idx state h ;; Ok (sbox_witness b (C + ev s st) s)
         else Ok (sbox_witness b C s)) l) s =
      oseq (map (fun h s => Ok (sbox_witness (sbox_new (n + 3 * h)) (xval h s) s)) l) s).
    { clear s. induction l as [|h l IH]; intros s Hl; [reflexivity|]. cbn [map]. rewrite !oseq_cons.
      rewrite make_sboxes_idx by (apply Hl; now left). cbn [obind].
      assert (Hl' : forall h0, In h0 l -> (h0 < nS)%nat) by (intros; apply Hl; now right).
      assert (E : xval h s = if (h <? nI)%nat then C + ev s (nth h state L0) else C) by reflexivity.
      rewrite E. destruct (Nat.ltb_spec h nI).
      - rewrite (idx_nth state h L0) by lia. cbn [obind]. apply IH, Hl'.
      - apply IH, Hl'. }
    apply G. intros h Hh. apply in_seq in Hh. lia.
  Qed.

  (** the vector after the S-box layer, as values *)
  Lemma nth_eff s j : (j < t)%nat -> nth j (pad t (firstn nI (map (ev s) state))) F0 =
    if (j <? nI)%nat then ev s (nth j state L0) else F0.
  Proof.
    intros Hj. rewrite nth_pad. destruct (Nat.ltb_spec j nI).
    - rewrite nth_firstn_lt by assumption. rewrite (nth_indep _ F0 (ev s L0)) by (rewrite map_length; lia). apply map_nth.
    - now apply nth_firstn_ge.
  Qed.

  Lemma out_lc_val s i : (i < t)%nat ->
    (forall h, (0 <= h < 0 + nS)%nat -> s (n + 3 * h + 2)%nat = Fpow (ev s (xin h)) 5) ->
    ev s (out_lc i) = dot (row t M i) (sub_words nS C (pad t (firstn nI (map (ev s) state)))).
  Proof.
    intros Hi HX. set (st := pad t (firstn nI (map (ev s) state))).
    assert (Lst : length st = t) by (apply pad_length; rewrite firstn_length, map_length; lia).
    assert (HMi : (t * S i <= length M)%nat) by nia.
    rewrite dot_sum by (rewrite row_length, sub_words_length; congruence).
    rewrite row_length by exact HMi.
    assert (ES : seq 0 t = seq 0 nS ++ seq nS (t - nS)).
    { replace t with (nS + (t - nS))%nat at 1 by lia. apply seq_app. }
    rewrite ES, map_app, fsum_app.
    assert (P1 : fsum (map (fun j => nth j (row t M i) F0 * nth j (sub_words nS C st) F0) (seq 0 nS)) =
                 fsum (map (fun h => m i h * s (n + 3 * h + 2)%nat) (seq 0 nS))).
    { f_equal. apply map_ext_in. intros h Hh. apply in_seq in Hh. rewrite nth_row by (exact HMi || lia). fold (m i h). f_equal.
      rewrite nth_sub_words by lia. rewrite (proj2 (Nat.ltb_lt h nS)) by lia. rewrite HX by lia. f_equal.
      unfold st. rewrite nth_eff by lia. unfold xin. destruct (Nat.ltb_spec h nI); cbn [ev]; ring. }
    assert (P2 : fsum (map (fun j => nth j (row t M i) F0 * nth j (sub_words nS C st) F0) (seq nS (t - nS))) =
                 fsum (map (fun j => C * m i j) (seq nS (t - nS))) +
                 fsum (map (fun k => m i k * ev s (nth k state L0)) (seq nS (nI - nS)))).
    { transitivity (fsum (map (fun j => C * m i j + m i j * (if (j <? nI)%nat then ev s (nth j state L0) else F0)) (seq nS (t - nS)))).
      - f_equal. apply map_ext_in. intros h Hh. apply in_seq in Hh. rewrite nth_row by (exact HMi || lia). fold (m i h).
        rewrite nth_sub_words by lia. destruct (Nat.ltb_spec h nS); [lia|]. unfold st. rewrite nth_eff by lia. ring.
      - rewrite fsum_map_add. f_equal.
        assert (ES2 : seq nS (t - nS) = seq nS (nI - nS) ++ seq (nS + (nI - nS)) (t - nS - (nI - nS))).
        { rewrite <- seq_app. f_equal. lia. }
        rewrite ES2, map_app, fsum_app. rewrite (fsum_map_0 _ (seq (nS + (nI - nS)) _)).
        + transitivity (fsum (map (fun k => m i k * ev s (nth k state L0)) (seq nS (nI - nS))) + F0); [|ring].
          f_equal. f_equal. apply map_ext_in. intros k Hk. apply in_seq in Hk.
          rewrite (proj2 (Nat.ltb_lt k nI)) by lia. reflexivity.
        + intros k Hk. apply in_seq in Hk. destruct (Nat.ltb_spec k nI); [lia|ring]. }
    rewrite P1, P2. unfold out_lc. rewrite !ev_lc_sum, !map_map. cbn [ev].
    replace (ev s (if (nS <? t)%nat then LC (fold_left Fadd (map (fun j => C * m i j) (seq nS (t - nS))) F0) else LC F0))
      with (fsum (map (fun j => C * m i j) (seq nS (t - nS)))).
    - ring.
    - destruct (Nat.ltb_spec nS t); cbn [ev].
      + rewrite fold_left_Fadd. ring.
      + replace (t - nS)%nat with 0%nat by lia. reflexivity.
  Qed.

  Lemma lc_sum_all P l : forall z, lc_all P z -> Forall (lc_all P) l -> lc_all P (lc_sum z l).
  Proof.
    unfold lc_sum. induction l as [|x l IH]; intros z Hz Hl; [exact Hz|].
    inversion Hl; subst. cbn [fold_left]. apply IH; [cbn; auto|assumption].
  Qed.

  Lemma out_lc_scope i : lc_all (fun v => v < n + 3 * nS)%nat (out_lc i).
  Proof.
    unfold out_lc. apply lc_sum_all; [apply lc_sum_all|].
    - destruct (nS <? t)%nat; exact I.
    - rewrite Forall_map, Forall_forall. intros h Hh. apply in_seq in Hh. cbn [lc_all]. lia.
    - rewrite Forall_map, Forall_forall. intros k Hk. cbn [lc_all].
      eapply lc_all_impl; [|apply nth_state_scope]. cbn. intros; lia.
  Qed.

  Lemma pround_gadget : exists cs, pround_constraints rnd = Ok cs /\
    gadget_ok n (n + 3 * nS) cs (pround_witness rnd) (fun _ => True)
      (fun s => map (ev s) (pr_outputs rnd) = firstn nO (round_spec t nS M C (pad t (firstn nI (map (ev s) state))))).
  Proof.
    eexists. split; [apply pround_constraints_ok|].
    assert (G := sboxes_ok xin xval n nS 0). rewrite Nat.mul_0_r, Nat.add_0_r, Nat.add_0_l in G.
    eapply gadget_ext; [eapply gadget_weaken; [apply G| | |]|exact pround_witness_ok].
    - intros h Hh. unfold xin. destruct (Nat.ltb h nI); cbn [lc_all]; [split; [apply nth_state_scope|exact I]|exact I].
    - intros h s Hh. unfold xval, xin. destruct (Nat.ltb h nI); cbn [ev]; [ring|reflexivity].
    - apply stable_true.
    - tauto.
    - cbn beta. intros s _ HX. cbn [pr_outputs rnd]. unfold round_spec. rewrite firstn_map, firstn_seq by exact HO.
      rewrite map_map. apply map_ext_in. intros i Hi. apply in_seq in Hi. apply out_lc_val; [lia|exact HX].
  Qed.
End Round.

(** packaged form *)
Lemma pround_ok t nS nI nO C M state n :
  (nS <= t)%nat -> (nI <= t)%nat -> (nO <= t)%nat -> (nI <= length state)%nat -> (t * t <= length M)%nat ->
  Forall (lc_all (fun v => v < n)%nat) state ->
  exists r cs, pround_new t nS nI nO C M state n = Ok (r, (n + 3 * nS)%nat) /\ pround_constraints r = Ok cs /\
    length (pr_outputs r) = nO /\ Forall (lc_all (fun v => v < n + 3 * nS)%nat) (pr_outputs r) /\
    gadget_ok n (n + 3 * nS) cs (pround_witness r) (fun _ => True)
      (fun s => map (ev s) (pr_outputs r) = firstn nO (round_spec t nS M C (pad t (firstn nI (map (ev s) state))))).
Proof.
  intros HS HI HO HL HM Hst.
  destruct (pround_gadget t nS nI nO C M state n HS HI HO HL HM Hst) as (cs & H1 & H2).
  exists (rnd t nS nI nO C M state n), cs. split; [now apply pround_new_ok|]. split; [exact H1|].
  split; [cbn [pr_outputs rnd]; now rewrite map_length, seq_length|]. split; [|exact H2].
  cbn [pr_outputs rnd]. rewrite Forall_map, Forall_forall. intros i Hi. now apply (out_lc_scope t nS nI nO C M state n).
Qed.

Lemma round_spec_length t nS M C st : length (round_spec t nS M C st) = t.
Proof. unfold round_spec. now rewrite map_length, seq_length. Qed.

Lemma make_rounds_ok t nS C M : (nS <= t)%nat -> (t * t <= length M)%nat -> forall cnt i state n,
  (i + cnt <= length C)%nat -> length state = t -> Forall (lc_all (fun v => v < n)%nat) state ->
  exists rs n' css, make_rounds t nS cnt i C M state n = Ok (rs, n') /\ length rs = cnt /\
    omapM pround_constraints rs = Ok css /\
    length (last (map pr_outputs rs) state) = t /\
    Forall (lc_all (fun v => v < n')%nat) (last (map pr_outputs rs) state) /\
    gadget_ok n n' (concat css) (oseq (map pround_witness rs)) (fun _ => True)
      (fun s => map (ev s) (last (map pr_outputs rs) state) =
         fold_left (fun st i => round_spec t nS M (nth i C F0) st) (seq i cnt) (map (ev s) state)).
Proof.
  intros HS HM. induction cnt as [|cnt IH]; intros i state n Hi Hl Hst.
  - exists [], n, []. cbn [make_rounds map last concat seq fold_left omapM]. repeat (split; [reflexivity || assumption|]).
    eapply gadget_weaken; [apply gadget_nil, stable_true|apply stable_true|tauto|reflexivity].
  - cbn [make_rounds]. rewrite (idx_nth C i F0) by lia. cbn [obind].
    destruct (pround_ok t nS t t (nth i C F0) M state n) as (r & cs & Hr & Hcs & Hlo & Hso & Hok); try lia; try assumption.
    rewrite Hr. cbn [obind].
    destruct (IH (S i) (pr_outputs r) (n + 3 * nS)%nat) as (rs & n' & css & Hrs & Hlen & Hcss & Hlo' & Hso' & Hok'); try lia; try assumption.
    rewrite Hrs. cbn [obind]. exists (r :: rs), n', (cs :: css).
    split; [reflexivity|]. split; [cbn; now rewrite Hlen|].
    split; [cbn [omapM]; rewrite Hcs; cbn [obind]; now rewrite Hcss|].
    cbn [map]. rewrite last_shift. split; [exact Hlo'|]. split; [exact Hso'|].
    cbn [concat]. eapply gadget_ext; [eapply gadget_seq; [exact Hok|exact Hok'|tauto|]|intros s; now rewrite oseq_cons].
    cbn beta. intros s _ E1 E2. rewrite E2, E1. cbn [seq fold_left]. f_equal.
    rewrite firstn_all2 by (rewrite round_spec_length; lia). f_equal.
    rewrite firstn_all2 by (rewrite map_length; lia). apply pad_full. now rewrite map_length.
Qed.

Lemma last_map {A B} (f : A -> B) l x : last (map f l) (f x) = f (last l x).
Proof. revert x. induction l as [|y l IH]; intros x; [reflexivity|]. cbn [map]. now rewrite !last_shift. Qed.

Lemma back_outputs rs st : rs <> [] -> exists r, back rs = Ok r /\ pr_outputs r = last (map pr_outputs rs) st.
Proof.
  intros H. destruct rs as [|r0 rs]; [congruence|]. exists (last (r0 :: rs) r0). split; [now apply back_last|].
  cbn [map]. rewrite !last_shift. symmetry. apply last_map.
Qed.

Lemma omapM_app {A B} (f : A -> outcome B) l1 l2 r1 r2 : omapM f l1 = Ok r1 -> omapM f l2 = Ok r2 ->
  omapM f (l1 ++ l2) = Ok (r1 ++ r2).
Proof.
  revert r1. induction l1 as [|a l1 IH]; intros r1 H1 H2; cbn [omapM app] in *.
  - apply Ok_inj in H1. now subst.
  - destruct (f a) as [b| | | |]; try discriminate. cbn [obind] in *.
    destruct (omapM f l1) as [bs| | | |]; try discriminate. cbn [obind] in H1. apply Ok_inj in H1. subst.
    rewrite (IH bs eq_refl H2). reflexivity.
Qed.

Lemma fold_left_ext_in {A B} (f g : A -> B -> A) l : (forall a b, In b l -> f a b = g a b) ->
  forall a, fold_left f l a = fold_left g l a.
Proof.
  induction l as [|b l IH]; intros H a; [reflexivity|]. cbn [fold_left]. rewrite H by now left. apply IH.
  intros; apply H; now right.
Qed.

(** the round schedule of the specification, cut as the code cuts it *)
Lemma schedule t c Fr P C M st : (4 <= Fr)%nat -> (1 <= P)%nat -> length C = (Fr + P)%nat ->
  fold_left (fun st i => round_spec t (if is_partial Fr P i then c else t) M (nth i C F0) st) (seq 0 (Fr + P)) st =
  round_spec t t M (last C F0)
   (fold_left (fun st i => round_spec t t M (nth i C F0) st) (seq (Fr / 2 + P) (Fr + P - 1 - (Fr / 2 + P)))
    (fold_left (fun st i => round_spec t c M (nth i C F0) st) (seq (Fr / 2) P)
     (fold_left (fun st i => round_spec t t M (nth i C F0) st) (seq 1 (Fr / 2 - 1))
      (round_spec t t M (nth 0 C F0) st)))).
Proof.
  intros HF HP HC.
  assert (H2 : (2 <= Fr / 2)%nat) by (apply Nat.div_le_lower_bound; lia).
  assert (H3 : (2 * (Fr / 2) <= Fr)%nat) by (apply Nat.mul_div_le; lia).
  assert (E : seq 0 (Fr + P) = [0%nat] ++ seq 1 (Fr / 2 - 1) ++ seq (Fr / 2) P ++
     seq (Fr / 2 + P) (Fr + P - 1 - (Fr / 2 + P)) ++ [(Fr + P - 1)%nat]).
  { replace (Fr + P)%nat with (1 + ((Fr / 2 - 1) + (P + ((Fr + P - 1 - (Fr / 2 + P)) + 1))))%nat at 1 by lia.
    rewrite !seq_app. cbn [seq plus]. repeat f_equal; lia. }
  rewrite E, !fold_left_app. cbn [fold_left].
  assert (F1 : forall i, (i < Fr / 2)%nat -> is_partial Fr P i = false).
  { intros i Hi. unfold is_partial. rewrite (proj2 (Nat.leb_gt _ _)) by lia. reflexivity. }
  assert (F2 : forall i, (Fr / 2 <= i < Fr / 2 + P)%nat -> is_partial Fr P i = true).
  { intros i Hi. unfold is_partial. rewrite (proj2 (Nat.leb_le _ _)), (proj2 (Nat.ltb_lt _ _)) by lia. reflexivity. }
  assert (F3 : forall i, (Fr / 2 + P <= i)%nat -> is_partial Fr P i = false).
  { intros i Hi. unfold is_partial. rewrite (proj2 (Nat.ltb_ge _ _)) by lia. apply andb_false_r. }
  rewrite (F1 0%nat) by lia. rewrite (F3 (Fr + P - 1)%nat) by lia.
  assert (HL : last C F0 = nth (Fr + P - 1) C F0).
  { destruct C as [|x C]; [cbn in HC; lia|]. rewrite <- HC.
    rewrite last_shift. replace (length (x :: C) - 1)%nat with (length C) by (cbn; lia).
    clear. revert x. induction C as [|y C IH]; intros x; [reflexivity|]. rewrite last_shift, IH. cbn [length]. reflexivity. }
  rewrite HL. f_equal.
  rewrite (fold_left_ext_in _ (fun st i => round_spec t t M (nth i C F0) st) (seq (Fr / 2 + P) _)).
  2:{ intros a b Hb. apply in_seq in Hb. rewrite F3 by lia. reflexivity. }
  f_equal.
  rewrite (fold_left_ext_in _ (fun st i => round_spec t c M (nth i C F0) st) (seq (Fr / 2) P)).
  2:{ intros a b Hb. apply in_seq in Hb. rewrite F2 by lia. reflexivity. }
  f_equal.
  apply fold_left_ext_in. intros a b Hb. apply in_seq in Hb. rewrite F1 by lia. reflexivity.
Qed.
