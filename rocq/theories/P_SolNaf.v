(** The two NAF multiplications of JubJub.sol. *)
From Coq Require Import List ZArith NArith Bool Arith Lia Field Ring.
From Verif Require Import Pocklington Primes Field Base M_Point Spec_Curve Spec_Mont P_Curve P_Group P_Zmul M_Evm M_SolJubjub Spec_SolJubjub P_SolJubjub.
Import ListNotations.
Local Open Scope Z_scope.

Definition bitz (v i : Z) : Z := (v / 2 ^ i) mod 2.
Lemma bit_at v i : 0 <= i -> wshr i (wand v (2 ^ i)) = bitz v i.
Proof.
  intros Hi. unfold wshr, wand, bitz. rewrite <- Z.testbit_spec' by assumption.
  apply Z.bits_inj'. intros n Hn. rewrite Z.shiftr_spec, Z.land_spec by assumption.
  destruct (Z.eqb_spec n 0) as [->|Hne].
  - rewrite Z.add_0_l, Z.pow2_bits_true, andb_true_r by assumption. now destruct (Z.testbit v i).
  - rewrite Z.pow2_bits_false by lia. rewrite andb_false_r. 
    destruct (Z.testbit v i); cbn [Z.b2z]; [|now rewrite Z.bits_0].
    change 1%Z with (2 ^ 0)%Z. now rewrite Z.pow2_bits_false by lia.
Qed.
Lemma bitz_range v i : bitz v i = 0 \/ bitz v i = 1.
Proof. unfold bitz. pose proof (Z.mod_pos_bound (v / 2 ^ i) 2 ltac:(lia)). lia. Qed.
Lemma bitz_step v i : 0 <= i -> v / 2 ^ i = 2 * (v / 2 ^ (i + 1)) + bitz v i.
Proof.
  intros Hi. unfold bitz. rewrite Z.pow_add_r by lia. change (2 ^ 1) with 2.
  rewrite <- Z.div_div by (try apply Z.pow_nonzero; lia). apply Z.div_mod. lia.
Qed.

(** ** scalarMultNAF *)
Section Naf.
  Variables (x y : Z).
  Hypothesis Hx : 0 <= x <= sol_Q.
  Let P := aff (x, y).
  Hypothesis HP : on_curve P.
  Let w2 := pointToEtec x y sol_Q.
  Let w := [mkE (wsub sol_Q x) y (wsub sol_Q (eT w2)) 1; etec_new; w2].

  Lemma naf_neg : rep (mkE (wsub sol_Q x) y (wsub sol_Q (eT w2)) 1) (pzmul (-1) P).
  Proof.
    cbn [pzmul]. rewrite smul_1. apply (rep_neg w2 P); [exact Hx| |apply rep_point].
    cbn [eT w2 pointToEtec]. pose proof (mulmod_range x y). lia.
  Qed.

  Lemma naf_add r k d : rep r (pzmul k P) -> -1 <= d <= 1 ->
    exists r', (if negb (d =? 0) then (q <- sol_idx w (1 + d) ;; Ok (jj_etecAdd r q)) else Ok r) = Ok r' /\ rep r' (pzmul (k + d) P).
  Proof.
    intros Hr Hd. assert (D : d = -1 \/ d = 0 \/ d = 1) by lia. destruct D as [->|[->| ->]].
    - eexists. split; [reflexivity|]. rewrite pzmul_add by assumption.
      apply rep_add; [now apply pzmul_on..|assumption|apply naf_neg].
    - exists r. split; [reflexivity|]. now rewrite Z.add_0_r.
    - eexists. split; [reflexivity|]. rewrite pzmul_add by assumption.
      apply rep_add; [now apply pzmul_on..|assumption|]. cbn [pzmul]. rewrite smul_1. apply rep_point.
  Qed.
  Lemma naf_dbl r k : rep r (pzmul k P) -> rep (jj_etecDouble r) (pzmul (2 * k) P).
  Proof. intros Hr. replace (2 * k) with (k + k) by lia. rewrite pzmul_add by assumption. apply rep_double; [now apply pzmul_on|assumption]. Qed.

  Lemma naf_step bd v i r k : 1 <= i < 256 -> rep r (pzmul k P) ->
    exists r', naf_body w bd v (2 ^ i, i, r) = Ok (2 ^ i / 4, wsub (i - 1) 1, r') /\
               rep r' (pzmul (4 * k + 2 * (bitz bd i - bitz v i) + (bitz bd (i - 1) - bitz v (i - 1))) P).
  Proof.
    intros Hi Hr. unfold naf_body. cbv zeta.
    change (wdiv (2 ^ i) 2) with (2 ^ i / 2).
    assert (E1 : 2 ^ i / 2 = 2 ^ (i - 1)) by (replace i with (Z.succ (i - 1)) at 1 by lia; rewrite Z.pow_succ_r by lia; rewrite Z.mul_comm; apply Z.div_mul; lia).
    assert (E2 : wsub i 1 = i - 1) by (unfold wsub; apply Z.mod_small; unfold wsize; lia).
    rewrite E1, E2, !bit_at by lia. change (wdiv (2 ^ (i - 1)) 2) with (2 ^ (i - 1) / 2).
    replace (2 ^ i / 4) with (2 ^ (i - 1) / 2) by (rewrite <- E1; rewrite Z.div_div by lia; reflexivity).
    set (da := bitz bd i - bitz v i). set (db := bitz bd (i - 1) - bitz v (i - 1)).
    assert (Ba : -1 <= da <= 1) by (subst da; pose proof (bitz_range bd i); pose proof (bitz_range v i); lia).
    assert (Bb : -1 <= db <= 1) by (subst db; pose proof (bitz_range bd (i - 1)); pose proof (bitz_range v (i - 1)); lia).
    clearbody da db.
    destruct (Z.eqb_spec (da + db) 0) as [E|E].
    - destruct (naf_add (jj_etecDouble r) (2 * k) 0 (naf_dbl r k Hr) ltac:(lia)) as (r1 & H1 & R1). rewrite H1. cbn [obind].
      destruct (naf_add (jj_etecDouble r1) _ da (naf_dbl r1 _ R1) ltac:(lia)) as (r2 & H2 & R2). rewrite H2. cbn [obind].
      exists r2. split; [reflexivity|]. replace (4 * k + 2 * da + db) with (2 * (2 * k + 0) + da) by lia. exact R2.
    - destruct (naf_add (jj_etecDouble r) (2 * k) da (naf_dbl r k Hr) ltac:(lia)) as (r1 & H1 & R1). rewrite H1. cbn [obind].
      destruct (naf_add (jj_etecDouble r1) _ db (naf_dbl r1 _ R1) ltac:(lia)) as (r2 & H2 & R2). rewrite H2. cbn [obind].
      exists r2. split; [reflexivity|]. replace (4 * k + 2 * da + db) with (2 * (2 * k + da) + db) by lia. exact R2.
  Qed.

  Definition naf_a (n : nat) : Z := match n with O => 0 | S _ => 2 ^ (2 * Z.of_nat n - 1) end.
  Lemma naf_loop bd v : forall n i r, (n <= 128)%nat -> (n <> 0%nat -> i = 2 * Z.of_nat n - 1) ->
    rep r (pzmul (bd / 2 ^ (2 * Z.of_nat n) - v / 2 ^ (2 * Z.of_nat n)) P) ->
    exists a' i' r', owhile n (fun '(a, _, _) => negb (a =? 0)) (naf_body w bd v) (naf_a n, i, r) = Ok (a', i', r') /\
                     rep r' (pzmul (bd - v) P).
  Proof.
    induction n as [|n IH]; intros i r Hn Hi Hr.
    - change (2 ^ (2 * Z.of_nat 0)) with 1 in Hr. rewrite !Z.div_1_r in Hr.
      exists 0, i, r. split; [reflexivity|assumption].
    - specialize (Hi ltac:(discriminate)). cbn [owhile naf_a].
      rewrite <- Hi. assert (Hi2 : 1 <= i < 256) by lia.
      destruct (Z.eqb_spec (2 ^ i) 0) as [E|_]; [exfalso; pose proof (Z.pow_pos_nonneg 2 i); lia|]. cbn [negb].
      destruct (naf_step bd v i r _ Hi2 Hr) as (r' & H1 & R1). rewrite H1. cbn [obind].
      assert (Ea : 2 ^ i / 4 = naf_a n).
      { destruct n as [|n']; [subst i; reflexivity|]. cbn [naf_a]. replace i with ((2 * Z.of_nat (S n') - 1) + 2) by lia.
        rewrite Z.pow_add_r by lia. change (2 ^ 2) with 4. apply Z.div_mul. lia. }
      rewrite Ea. apply IH; [lia| |].
      { intros Hne. unfold wsub. rewrite Z.mod_small by (unfold wsize; lia). lia. }
      replace (2 * Z.of_nat n) with (i - 1) by lia.
      replace (2 * Z.of_nat (S n)) with (i + 1) in R1 by lia.
      rewrite (bitz_step bd (i - 1)), (bitz_step v (i - 1)) by lia.
      replace (i - 1 + 1) with i by lia. rewrite (bitz_step bd i), (bitz_step v i) by lia.
      match type of R1 with rep _ (pzmul ?a _) => match goal with |- rep _ (pzmul ?b _) => replace b with a by lia end end.
      exact R1.
  Qed.

  Lemma naf_ok v : 0 < v < 2 ^ 255 -> sol_scalarMultNAF x y v = Ok (fval (px (pzmul v P)), fval (py (pzmul v P))).
  Proof.
    intros Hv. unfold sol_scalarMultNAF. cbv zeta. fold w2. fold w.
    assert (E : wmul 2 v = 2 * v) by (unfold wmul; apply Z.mod_small; unfold wsize; lia).
    rewrite E. unfold orequire. destruct (Z.ltb_spec v (2 * v)) as [_|L]; [|lia]. cbn [obind].
    change (2 ^ 255) with (naf_a 128).
    destruct (naf_loop (2 * v) v 128 255 etec_identity) as (a' & i' & r' & H1 & R1); [lia|reflexivity| |].
    { change (2 * Z.of_nat 128) with 256. rewrite !Z.div_small by lia. apply rep_identity. }
    rewrite H1. cbn [obind]. f_equal. apply rep_toPoint. replace (2 * v - v) with v in R1 by lia. exact R1.
  Qed.
End Naf.

Lemma naf_reverts x y v : is_word v -> v = 0 \/ 2 ^ 255 <= v -> sol_scalarMultNAF x y v = Throw.
Proof.
  intros Hv H. unfold sol_scalarMultNAF. cbv zeta.
  assert (E : (v <? wmul 2 v) = false).
  { apply Z.ltb_ge. unfold wmul, is_word, wsize in *. destruct H as [->|H]; [reflexivity|].
    rewrite <- (Z.mod_add _ (-1)) by lia. rewrite Z.mod_small by lia. lia. }
  rewrite E. reflexivity.
Qed.

Lemma naf_total x y v : is_word v -> 0 <= x < sol_Q -> on_curve (aff (x, y)) ->
  sol_scalarMultNAF x y v =
  (if (v =? 0) || (2 ^ 255 <=? v) then Throw else Ok (fval (px (pzmul v (aff (x, y)))), fval (py (pzmul v (aff (x, y)))))).
Proof.
  intros Hv Hx HP. destruct (Z.eqb_spec v 0) as [E|E]; cbn [orb].
  { apply naf_reverts; [assumption|now left]. }
  destruct (Z.leb_spec (2 ^ 255) v) as [L|L].
  { apply naf_reverts; [assumption|now right]. }
  unfold is_word in Hv. apply naf_ok; [lia|assumption|lia].
Qed.

(** ** scalarMultNAF5 *)
Lemma double_zero : jj_etecDouble etec_new = etec_new.
Proof. vm_compute. reflexivity. Qed.
Lemma add_zero_l q : jj_etecAdd etec_new q = etec_new.
Proof.
  unfold jj_etecAdd, etecAdd, etec_new. cbn [eX eY eT eZ]. cbv zeta.
  rewrite !mulmod_Q, !addmod_Q. rewrite ?Z.mul_0_l, ?Z.mul_0_r, ?Z.mod_0_l by (vm_compute; congruence).
  replace (((0 + 0) mod p_mod)) with 0 by reflexivity.
  rewrite ?mulmod_Q. rewrite ?Z.mul_0_l, ?Z.mul_0_r, ?Z.mod_0_l by (vm_compute; congruence).
  reflexivity.
Qed.
Lemma add_zero_r q : jj_etecAdd q etec_new = etec_new.
Proof.
  unfold jj_etecAdd, etecAdd, etec_new. cbn [eX eY eT eZ]. cbv zeta.
  rewrite !mulmod_Q, !addmod_Q. rewrite ?Z.mul_0_l, ?Z.mul_0_r, ?Z.mod_0_l by (vm_compute; congruence).
  replace (((0 + 0) mod p_mod)) with 0 by reflexivity.
  rewrite ?mulmod_Q. rewrite ?Z.mul_0_l, ?Z.mul_0_r, ?Z.mod_0_l by (vm_compute; congruence).
  reflexivity.
Qed.
Lemma toPoint_zero : etecToPoint etec_new sol_Q = (0, 0).
Proof. unfold etecToPoint, etec_new. cbn [eX eY eZ]. cbv zeta. rewrite mod_inv_0. reflexivity. Qed.

Definition small_bytes (m : bytes_mem) : Prop := forall j, 0 <= m j < 32.
(** a digit is stored as 16 + digit *)
Definition digit5 (v : Z) : Z := if v mod 2 =? 0 then 0 else if 16 <? v mod 32 then v mod 32 - 32 else v mod 32.
Lemma digit5_range v : -15 <= digit5 v <= 15.
Proof.
  unfold digit5. pose proof (Z.mod_pos_bound v 32 ltac:(lia)) as B.
  destruct (Z.eqb_spec (v mod 2) 0); [lia|]. destruct (Z.ltb_spec 16 (v mod 32)); [lia|].
  destruct (Z.eq_dec (v mod 32) 16) as [E|]; [|lia]. exfalso. apply n.
  rewrite (Z.div_mod v 32) by lia. rewrite E. replace (32 * (v / 32) + 16) with ((16 * (v / 32) + 8) * 2) by lia. apply Z.mod_mul. lia.
Qed.

Lemma wnaf_step v o m : 0 <= v <= 2 ^ 254 -> 1 <= o <= 255 ->
  wnaf_body 32 16 (v, o, m) = Ok ((v - digit5 v) / 2, o - 1, mstore8 m o (16 + digit5 v)).
Proof.
  intros Hv Ho. unfold wnaf_body. cbv zeta.
  pose proof (digit5_range v) as DR. revert DR. unfold digit5.
  change (wmod v 2) with (v mod 2). change (wmod v 32) with (v mod 32).
  pose proof (Z.mod_pos_bound v 2 ltac:(lia)) as B2. pose proof (Z.mod_pos_bound v 32 ltac:(lia)) as B32.
  assert (Eo : wsub o 1 = o - 1) by (unfold wsub; apply Z.mod_small; unfold wsize; lia). rewrite Eo.
  destruct (Z.eqb_spec (v mod 2) 0) as [E|E].
  - rewrite E. cbn [Z.ltb Z.compare]. intros _. change (wdiv v 2) with (v / 2). rewrite Z.sub_0_r. reflexivity.
  - replace (0 <? v mod 2) with true by (symmetry; apply Z.ltb_lt; lia).
    destruct (Z.ltb_spec 16 (v mod 32)) as [L|L]; intros DR.
    + assert (K : wsub (v mod 32) (wmul 32 1) = v mod 32 - 32 + wsize).
      { unfold wsub, wmul. change (32 * 1 mod wsize) with 32. rewrite <- (Z.mod_add _ 1) by discriminate. rewrite Z.mul_1_l. apply Z.mod_small. unfold wsize; lia. }
      rewrite K.
      assert (K2 : wsub v (v mod 32 - 32 + wsize) = v - (v mod 32 - 32)).
      { unfold wsub. replace (v - (v mod 32 - 32 + wsize)) with (v - (v mod 32 - 32) + (-1) * wsize) by ring. rewrite Z.mod_add by discriminate. apply Z.mod_small. unfold wsize; lia. }
      rewrite K2. change (wdiv (v - (v mod 32 - 32)) 2) with ((v - (v mod 32 - 32)) / 2).
      assert (K3 : wadd 16 (v mod 32 - 32 + wsize) = 16 + (v mod 32 - 32)).
      { unfold wadd. replace (16 + (v mod 32 - 32 + wsize)) with (16 + (v mod 32 - 32) + 1 * wsize) by ring. rewrite Z.mod_add by discriminate. apply Z.mod_small. unfold wsize; lia. }
      now rewrite K3.
    + assert (K : wsub (v mod 32) (wmul 32 0) = v mod 32).
      { unfold wsub, wmul. change (32 * 0 mod wsize) with 0. rewrite Z.sub_0_r. apply Z.mod_small. unfold wsize; lia. }
      rewrite K.
      assert (K2 : wsub v (v mod 32) = v - v mod 32).
      { unfold wsub. apply Z.mod_small. pose proof (Z.mod_le v 32). unfold wsize; lia. }
      rewrite K2. change (wdiv (v - v mod 32) 2) with ((v - v mod 32) / 2).
      assert (K3 : wadd 16 (v mod 32) = 16 + v mod 32).
      { unfold wadd. apply Z.mod_small. unfold wsize; lia. }
      now rewrite K3.
Qed.

Lemma mstore8_small m o d : small_bytes m -> -15 <= d <= 15 -> small_bytes (mstore8 m o (16 + d)).
Proof.
  intros Hm Hd j. unfold mstore8. destruct (Z.eqb_spec j o); [|apply Hm]. rewrite Z.mod_small by lia. lia.
Qed.

(** what is left after a digit *)
Lemma digit5_next n v : 0 < v <= 2 ^ Z.of_nat (S n) -> 0 <= (v - digit5 v) / 2 <= 2 ^ Z.of_nat n.
Proof.
  intros Hv. rewrite Nat2Z.inj_succ, Z.pow_succ_r in Hv by lia.
  unfold digit5. destruct (Z.eqb_spec (v mod 2) 0) as [E|E].
  { rewrite Z.sub_0_r. split; [apply Z.div_pos; lia|apply Z.div_le_upper_bound; lia]. }
  pose proof (Z.div_mod v 32 ltac:(lia)) as DM. pose proof (Z.mod_pos_bound v 32 ltac:(lia)) as B.
  assert (Hq : 0 <= v / 32) by (apply Z.div_pos; lia).
  destruct (Z.ltb_spec 16 (v mod 32)) as [L|L].
  - replace (v - (v mod 32 - 32)) with (16 * (v / 32 + 1) * 2) by lia. rewrite Z.div_mul by lia. split; [lia|].
    assert (Hn : (4 <= n)%nat).
    { destruct n as [|[|[|[|n]]]]; [exfalso; change (2 ^ Z.of_nat 0) with 1 in Hv; lia|exfalso; change (2 ^ Z.of_nat 1) with 2 in Hv; lia|exfalso; change (2 ^ Z.of_nat 2) with 4 in Hv; lia|exfalso; change (2 ^ Z.of_nat 3) with 8 in Hv; lia|lia]. }
    replace (Z.of_nat n) with (4 + Z.of_nat (n - 4)) in * by lia. rewrite Z.pow_add_r in * by lia. change (2 ^ 4) with 16 in *.
    set (t := 2 ^ Z.of_nat (n - 4)) in *. clearbody t. nia.
  - replace (v - v mod 32) with (16 * (v / 32) * 2) by lia. rewrite Z.div_mul by lia. lia.
Qed.

Lemma wnaf_run : forall n fuel v o m, (n < fuel)%nat -> 0 <= v <= 2 ^ Z.of_nat n -> (n <= 254)%nat -> Z.of_nat n + 1 <= o <= 255 -> small_bytes m ->
  exists v' o' m', owhile fuel (fun '(value, _, _) => 0 <? value) (wnaf_body 32 16) (v, o, m) = Ok (v', o', m') /\ 0 <= o' <= o /\ small_bytes m' /\ forall j, o < j -> m' j = m j.
Proof.
  assert (Done : forall fuel o m, 0 <= o -> small_bytes m -> exists v' o' m', owhile fuel (fun '(value, _, _) => 0 <? value) (wnaf_body 32 16) (0, o, m) = Ok (v', o', m') /\
    0 <= o' <= o /\ small_bytes m' /\ forall j, o < j -> m' j = m j).
  { intros fuel o m Ho Hm. exists 0, o, m. split; [destruct fuel; reflexivity|]. split; [lia|]. split; [assumption|reflexivity]. }
  assert (Step : forall n fuel v o m, (n < fuel)%nat -> 0 < v <= 2 ^ Z.of_nat n -> (n <= 254)%nat -> Z.of_nat n + 1 <= o <= 255 -> 
     (exists v' o' m', owhile (Nat.pred fuel) (fun '(value, _, _) => 0 <? value) (wnaf_body 32 16) ((v - digit5 v) / 2, o - 1, mstore8 m o (16 + digit5 v)) = Ok (v', o', m') /\
    0 <= o' <= o - 1 /\ small_bytes m' /\ forall j, o - 1 < j -> m' j = mstore8 m o (16 + digit5 v) j) ->
    exists v' o' m', owhile fuel (fun '(value, _, _) => 0 <? value) (wnaf_body 32 16) (v, o, m) = Ok (v', o', m') /\
    0 <= o' <= o /\ small_bytes m' /\ forall j, o < j -> m' j = m j).
  { intros n fuel v o m Hf Hv Hn Ho (v' & o' & m' & H1 & H2 & H3 & H4).
    destruct fuel as [|fuel]; [lia|]. cbn [Nat.pred] in H1. cbn [owhile].
    replace (0 <? v) with true by (symmetry; apply Z.ltb_lt; lia).
    rewrite wnaf_step; [|split; [lia|transitivity (2 ^ Z.of_nat n); [lia|apply Z.pow_le_mono_r; lia]]|lia].
    cbn [obind]. exists v', o', m'. split; [exact H1|]. split; [lia|]. split; [assumption|].
    intros j Hj. rewrite H4 by lia. unfold mstore8. destruct (Z.eqb_spec j o); [lia|reflexivity]. }
  induction n as [|n IH]; intros fuel v o m Hf Hv Hn Ho Hm.
  - change (2 ^ Z.of_nat 0) with 1 in Hv. destruct (Z.eq_dec v 0) as [->|Hne]; [apply Done; [lia|assumption]|].
    assert (v = 1) by lia. subst v. apply (Step 0%nat); [assumption|change (2 ^ Z.of_nat 0) with 1; lia|lia|assumption|].
    change ((1 - digit5 1) / 2) with 0. apply Done; [lia|]. apply mstore8_small; [assumption|apply digit5_range].
  - destruct (Z.eq_dec v 0) as [->|Hne]; [apply Done; [lia|assumption]|].
    apply (Step (S n)); [assumption|lia|assumption|assumption|].
    apply IH; [lia|apply digit5_next; lia|lia|lia|]. apply mstore8_small; [assumption|apply digit5_range].
Qed.

Section Read.
  Variables (x y : Z) (m : bytes_mem).
  Hypothesis Hm : small_bytes m.
  Let w := wnafWindow5 x y.
  Let go c s := owhile c (fun '(o, _, _) => o <=? 255) (naf5_body w m) s.

  Lemma w_total i : 0 <= i < 32 -> exists q, sol_idx w i = Ok q.
  Proof.
    intros Hi. unfold sol_idx. replace (i <? 0) with false by (symmetry; apply Z.ltb_ge; lia).
    destruct (nth_error w (Z.to_nat i)) as [q|] eqn:E; [now exists q|].
    apply nth_error_None in E. change (length w) with 32%nat in E. lia.
  Qed.
  Lemma w_16 : sol_idx w 16 = Ok etec_new.
  Proof. reflexivity. Qed.

  Lemma read_step o r : 0 <= o <= 255 -> exists r', naf5_body w m (o, o, r) = Ok (o + 1, o + 1, r') /\ (r = etec_new \/ m o = 16 -> r' = etec_new).
  Proof.
    intros Ho. unfold naf5_body. cbv zeta.
    assert (E : wadd o 1 = o + 1) by (unfold wadd; apply Z.mod_small; unfold wsize; lia). rewrite E.
    destruct (Z.eqb_spec (m o) 0) as [E0|E0]; cbn [negb andb].
    { eexists. split; [reflexivity|]. intros [->|K]; [apply double_zero|lia]. }
    destruct (Z.eqb_spec (m o) 8) as [E8|E8]; cbn [negb andb].
    { eexists. split; [reflexivity|]. intros [->|K]; [apply double_zero|lia]. }
    destruct (w_total (m o) (Hm o)) as (q & Hq). rewrite Hq. cbn [obind]. eexists. split; [reflexivity|].
    intros [->|K]; [rewrite double_zero; apply add_zero_l|]. rewrite K, w_16 in Hq. injection Hq as <-. apply add_zero_r.
  Qed.

  Lemma read_loop : forall c o r, Z.of_nat c + o = 256 -> 0 <= o -> exists o1 o2 r', go c (o, o, r) = Ok (o1, o2, r') /\ (r = etec_new \/ (exists j, o <= j <= 255 /\ m j = 16) -> r' = etec_new).
  Proof.
    induction c as [|c IH]; intros o r Ho H0.
    - exists o, o, r. unfold go. cbn [owhile]. replace (o <=? 255) with false by (symmetry; apply Z.leb_gt; lia).
      split; [reflexivity|]. intros [->|(j & Hj & _)]; [reflexivity|lia].
    - unfold go. cbn [owhile]. replace (o <=? 255) with true by (symmetry; apply Z.leb_le; lia).
      destruct (read_step o r ltac:(lia)) as (r1 & H1 & Z1). rewrite H1. cbn [obind].
      destruct (IH (o + 1) r1 ltac:(lia) ltac:(lia)) as (o1 & o2 & r' & H2 & Z2). exists o1, o2, r'.
      split; [exact H2|]. intros [->|(j & Hj & Ej)]; apply Z2.
      + left. apply Z1. now left.
      + destruct (Z.eq_dec j o) as [->|Hne]; [left; apply Z1; now right|right; exists j; split; [lia|assumption]].
  Qed.

  Lemma owhile_more {S} (cond : S -> bool) body : forall c d s s', (c <= d)%nat -> owhile c cond body s = Ok s' -> owhile d cond body s = Ok s'.
  Proof.
    induction c as [|c IH]; intros d s s' Hd E.
    - cbn [owhile] in E. destruct d; cbn [owhile]; destruct (cond s); congruence.
    - destruct d as [|d]; [lia|]. cbn [owhile] in *. destruct (cond s); [|assumption].
      destruct (body s) as [s1| | | |]; cbn [obind] in *; try discriminate. apply (IH d); [lia|assumption].
  Qed.
End Read.

Lemma naf5_zero x y v : 0 < v <= 2 ^ 254 -> v mod 2 = 0 \/ 15 < v -> sol_scalarMultNAF5 x y v = Ok (0, 0).
Proof.
  intros Hv Hd. unfold sol_scalarMultNAF5, wnafSequence. cbv zeta.
  change (wshl 5 1) with 32. change (wshr 1 32) with 16.
  assert (S0 : small_bytes (fun _ => 0)) by (intros j; lia).
  assert (Seq : exists v' o m, owhile 256 (fun '(value, _, _) => 0 <? value) (wnaf_body 32 16) (v, 255, (fun _ => 0) : bytes_mem) = Ok (v', o, m) /\
     0 <= o <= 255 /\ small_bytes m /\ exists j, o <= j <= 255 /\ m j = 16).
  { change 256%nat with (S 255). remember 255%nat as f eqn:Hf. cbn [owhile].
    replace (0 <? v) with true by (symmetry; apply Z.ltb_lt; lia).
    rewrite wnaf_step by lia. cbn [obind].
    change 254 with (Z.of_nat 254) in Hv. pose proof (digit5_next 253 v ltac:(exact Hv)) as B.
    set (v1 := (v - digit5 v) / 2) in *. set (m1 := mstore8 _ _ _). assert (S1 : small_bytes m1) by (apply mstore8_small; [assumption|apply digit5_range]).
    destruct (Z.eqb_spec (v mod 2) 0) as [E|E].
    - destruct (wnaf_run 253 f v1 (255 - 1) m1) as (v' & o' & m' & H1 & H2 & H3 & H4); [lia|exact B|lia|lia|assumption|].
      exists v', o', m'. split; [exact H1|]. split; [lia|]. split; [assumption|]. exists 255. split; [lia|].
      rewrite H4 by lia. unfold m1, mstore8, digit5. rewrite (proj2 (Z.eqb_eq _ _) E). reflexivity.
    - assert (Hv1 : v1 <> 0 /\ v1 mod 2 = 0).
      { subst v1. clear -Hd Hv E. destruct Hd as [Hd|Hd]; [contradiction|]. unfold digit5.
        rewrite (proj2 (Z.eqb_neq _ _) E).
        pose proof (Z.div_mod v 32 ltac:(lia)) as DM. pose proof (Z.mod_pos_bound v 32 ltac:(lia)) as B.
        assert (0 <= v / 32) by (apply Z.div_pos; lia).
        destruct (Z.ltb_spec 16 (v mod 32)).
        - replace (v - (v mod 32 - 32)) with (16 * (v / 32 + 1) * 2) by lia. rewrite Z.div_mul by lia. split; [lia|].
          replace (16 * (v / 32 + 1)) with (8 * (v / 32 + 1) * 2) by lia. apply Z.mod_mul. lia.
        - assert (v mod 32 <> 16). { intros E16. apply E. rewrite DM, E16. replace (32 * (v / 32) + 16) with ((16 * (v / 32) + 8) * 2) by lia. apply Z.mod_mul. lia. }
          replace (v - v mod 32) with (16 * (v / 32) * 2) by lia. rewrite Z.div_mul by lia. split; [lia|].
          replace (16 * (v / 32)) with (8 * (v / 32) * 2) by lia. apply Z.mod_mul. lia. }
      destruct Hv1 as [Hn1 He1]. destruct f as [|f]; [discriminate|]. cbn [owhile].
      replace (0 <? v1) with true by (symmetry; apply Z.ltb_lt; lia).
      change (255 - 1) with 254. rewrite wnaf_step; [|split; [lia|transitivity (2 ^ Z.of_nat 253); [lia|apply Z.pow_le_mono_r; lia]]|lia]. cbn [obind].
      destruct (wnaf_run 252 f ((v1 - digit5 v1) / 2) (254 - 1) (mstore8 m1 254 (16 + digit5 v1))) as (v' & o' & m' & H1 & H2 & H3 & H4);
        [lia|apply digit5_next; lia|lia|lia|apply mstore8_small; [assumption|apply digit5_range]|].
      exists v', o', m'. split; [exact H1|]. split; [lia|]. split; [assumption|]. exists 254. split; [lia|].
      rewrite H4 by lia. unfold mstore8, digit5. rewrite (proj2 (Z.eqb_eq _ _) He1). reflexivity. }
  destruct Seq as (v' & o & m & H1 & Ho & Sm & Hj). rewrite H1. cbn [obind].
  destruct (read_loop x y m Sm (Z.to_nat (256 - o)) o etec_identity ltac:(lia) ltac:(lia)) as (o1 & o2 & r' & H2 & Z2).
  rewrite (owhile_more _ _ (Z.to_nat (256 - o)) 256 _ _ ltac:(lia) H2). cbn [obind].
  rewrite Z2 by (right; exact Hj). now rewrite toPoint_zero.
Qed.

(** the odd entries of the window *)
Lemma window_entries x y : on_curve (aff (x, y)) -> forall k, In k [1; 3; 5; 7; 9; 11; 13; 15] ->
  exists q, sol_idx (wnafWindow5 x y) (16 + k) = Ok q /\ rep q (pzmul (if k <=? 3 then k else (k + 3) / 2) (aff (x, y))).
Proof.
  intros HP. set (P := aff (x, y)) in *. 
  set (w17 := pointToEtec x y sol_Q). assert (R17 : rep w17 (pzmul 1 P)) by (cbn [pzmul]; rewrite smul_1; apply rep_point).
  assert (Nxt : forall w n, rep w (pzmul n P) -> rep (jj_etecAdd w17 w) (pzmul (1 + n) P)).
  { intros w n Hw. rewrite pzmul_add by assumption. apply rep_add; [now apply pzmul_on..|assumption|assumption]. }
  set (w18 := jj_etecDouble w17). assert (R18 : rep w18 (pzmul 2 P)).
  { change 2 with (1 + 1). rewrite pzmul_add by assumption. apply rep_double; [now apply pzmul_on|assumption]. }
  set (w19 := jj_etecAdd w17 w18). assert (R19 : rep w19 (pzmul 3 P)) by exact (Nxt w18 2 R18).
  set (w21 := jj_etecAdd w17 w19). assert (R21 : rep w21 (pzmul 4 P)) by exact (Nxt w19 3 R19).
  set (w23 := jj_etecAdd w17 w21). assert (R23 : rep w23 (pzmul 5 P)) by exact (Nxt w21 4 R21).
  set (w25 := jj_etecAdd w17 w23). assert (R25 : rep w25 (pzmul 6 P)) by exact (Nxt w23 5 R23).
  set (w27 := jj_etecAdd w17 w25). assert (R27 : rep w27 (pzmul 7 P)) by exact (Nxt w25 6 R25).
  set (w29 := jj_etecAdd w17 w27). assert (R29 : rep w29 (pzmul 8 P)) by exact (Nxt w27 7 R27).
  set (w31 := jj_etecAdd w17 w29). assert (R31 : rep w31 (pzmul 9 P)) by exact (Nxt w29 8 R29).
  clear Nxt. intros k Hk. unfold wnafWindow5. cbv zeta. fold w17. fold w18. fold w19. fold w21. fold w23. fold w25. fold w27. fold w29. fold w31.
  clearbody w17 w18 w19 w21 w23 w25 w27 w29 w31.
  cbn [In] in Hk. destruct Hk as [<-|[<-|[<-|[<-|[<-|[<-|[<-|[<-|[]]]]]]]]].
  - exists w17. split; [reflexivity|exact R17].
  - exists w19. split; [reflexivity|exact R19].
  - exists w21. split; [reflexivity|exact R21].
  - exists w23. split; [reflexivity|exact R23].
  - exists w25. split; [reflexivity|exact R25].
  - exists w27. split; [reflexivity|exact R27].
  - exists w29. split; [reflexivity|exact R29].
  - exists w31. split; [reflexivity|exact R31].
Qed.

Lemma wnaf_odd k : In k [1; 3; 5; 7; 9; 11; 13; 15] ->
  wnafSequence k 5 (fun _ => 0) = Ok (254, mstore8 (fun _ => 0) 255 (16 + k)).
Proof.
  intros Hk. unfold wnafSequence. cbv zeta. change (wshl 5 1) with 32. change (wshr 1 32) with 16.
  change 256%nat with (S 255). remember 255%nat as f. cbn [owhile].
  assert (B : 0 < k <= 15) by (cbn [In] in Hk; lia).
  assert (D : digit5 k = k) by (cbn [In] in Hk; destruct Hk as [<-|[<-|[<-|[<-|[<-|[<-|[<-|[<-|[]]]]]]]]]; reflexivity).
  replace (0 <? k) with true by (symmetry; apply Z.ltb_lt; lia).
  assert (L : 15 <= 2 ^ 254) by discriminate.
  rewrite wnaf_step by lia. cbn [obind]. rewrite D, Z.sub_diag. change (0 / 2) with 0. destruct f; reflexivity.
Qed.

Lemma owhile_step {S} (cond : S -> bool) body f s s' : cond s = true -> body s = Ok s' -> owhile (Datatypes.S f) cond body s = owhile f cond body s'.
Proof. intros H1 H2. cbn [owhile]. now rewrite H1, H2. Qed.
Lemma owhile_stop {S} (cond : S -> bool) body f s : cond s = false -> owhile f cond body s = Ok s.
Proof. intros H1. destruct f; cbn [owhile]; now rewrite H1. Qed.

Lemma naf5_body_skip w m o r : 0 <= o <= 255 -> m o = 0 -> naf5_body w m (o, o, r) = Ok (o + 1, o + 1, jj_etecDouble r).
Proof.
  intros Ho E. unfold naf5_body. cbv zeta. rewrite E. change (0 =? 0) with true. cbn [negb andb obind].
  assert (E1 : wadd o 1 = o + 1) by (unfold wadd; apply Z.mod_small; unfold wsize; lia). now rewrite E1.
Qed.
Lemma naf5_body_add w m o r q : 0 <= o <= 255 -> m o <> 0 -> m o <> 8 -> sol_idx w (m o) = Ok q ->
  naf5_body w m (o, o, r) = Ok (o + 1, o + 1, jj_etecAdd (jj_etecDouble r) q).
Proof.
  intros Ho E0 E8 Eq. unfold naf5_body. cbv zeta. rewrite (proj2 (Z.eqb_neq _ _) E0), (proj2 (Z.eqb_neq _ _) E8). cbn [negb andb]. rewrite Eq. cbn [obind].
  assert (E1 : wadd o 1 = o + 1) by (unfold wadd; apply Z.mod_small; unfold wsize; lia). now rewrite E1.
Qed.
Lemma naf5_one w m q f : m 254 = 0 -> m 255 <> 0 -> m 255 <> 8 -> sol_idx w (m 255) = Ok q ->
  owhile (S (S f)) (fun '(o, _, _) => o <=? 255) (naf5_body w m) (254, 254, etec_identity)
  = Ok (256, 256, jj_etecAdd (jj_etecDouble (jj_etecDouble etec_identity)) q).
Proof.
  intros H1 H2 H3 H4.
  rewrite (owhile_step _ _ (S f) _ (255, 255, jj_etecDouble etec_identity)); [|reflexivity|apply naf5_body_skip; [lia|assumption]].
  rewrite (owhile_step _ _ f _ (256, 256, jj_etecAdd (jj_etecDouble (jj_etecDouble etec_identity)) q)); [|reflexivity|apply naf5_body_add; [lia|assumption..]].
  apply owhile_stop. reflexivity.
Qed.

Lemma naf5_odd x y k : on_curve (aff (x, y)) -> In k [1; 3; 5; 7; 9; 11; 13; 15] ->
  sol_scalarMultNAF5 x y k = Ok (fval (px (pzmul (if k <=? 3 then k else (k + 3) / 2) (aff (x, y)))),
                                 fval (py (pzmul (if k <=? 3 then k else (k + 3) / 2) (aff (x, y))))).
Proof.
  intros HP Hk. unfold sol_scalarMultNAF5. cbv zeta. rewrite wnaf_odd by assumption. cbn [obind].
  destruct (window_entries x y HP k Hk) as (q & Hq & Rq).
  set (Q := pzmul _ _) in *.
  assert (OQ : on_curve Q) by (unfold Q; now apply pzmul_on). clearbody Q.
  set (w := wnafWindow5 x y) in *. clearbody w.
  assert (B : 0 < k <= 15) by (cbn [In] in Hk; lia). clear Hk.
  assert (E : mstore8 (fun _ : Z => 0) 255 (16 + k) 255 = 16 + k) by (unfold mstore8; change (255 =? 255) with true; cbv iota; apply Z.mod_small; lia).
  change 256%nat with (S (S 254)).
  rewrite (naf5_one w _ q 254); [|reflexivity|rewrite E; lia|rewrite E; lia|rewrite E; exact Hq]. cbn [obind].
  assert (R : rep (jj_etecAdd (jj_etecDouble (jj_etecDouble etec_identity)) q) Q).
  { rewrite <- (padd_0_l Q). apply rep_add; [apply pzero_on|assumption| |assumption].
    rewrite <- (padd_0_l pzero). apply rep_double; [apply pzero_on|]. rewrite <- (padd_0_l pzero). apply rep_double; [apply pzero_on|apply rep_identity]. }
  now rewrite (rep_toPoint _ _ R).
Qed.
