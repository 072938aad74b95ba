(** ScalarMult: closed form of what the constructor builds, and its meaning. *)
From Coq Require Import List NArith ZArith Bool Arith Lia.
From Verif Require Import Field Base R1CS R1CSFacts Gadget Gadget2 M_Lookup M_Point M_Jubjub Spec_Curve P_Curve P_JubLeaf P_Group P_Chain P_Poseidon.
Import ListNotations.
Local Open Scope nat_scope.

Definition sm_B (n i : nat) : nat := n + 2 + 15 * (i - 1).
Definition sm_dx (X1 n i : nat) : nat := if i =? 0 then X1 else sm_B n i + 4.
Definition sm_dy (Y1 n i : nat) : nat := if i =? 0 then Y1 else sm_B n i + 5.
Definition sm_C (n i : nat) : nat := if i =? 0 then n else sm_B n i + 6.
Definition sm_dbl (X1 Y1 n i : nat) : pdoubler :=
  fst (doubler_new (sm_dx X1 n (i - 1)) (sm_dy Y1 n (i - 1)) (sm_B n i)).
Definition sm_cond (X1 Y1 n : nat) (sc : list var) (i : nat) : condpt :=
  fst (condpt_new (sm_dx X1 n i) (sm_dy Y1 n i) (nth i sc 0) (sm_C n i)).
Definition sm_add (n i : nat) : padder :=
  chain_add (fun j => sm_B n j + 8) (sm_C n) (fun j => sm_C n j + 1) i.

Definition sm_state (X1 Y1 n : nat) (sc : list var) (k : nat) : scalarmult * nat :=
  ({| sm_dbls := map (sm_dbl X1 Y1 n) (seq 1 k); sm_conds := map (sm_cond X1 Y1 n sc) (seq 0 (S k));
      sm_adds := map (sm_add n) (seq 1 k) |}, n + 2 + 15 * k).

Lemma back_map_seq {B} (f : nat -> B) a k : back (map f (seq a (S k))) = Ok (f (a + k)).
Proof. rewrite seq_S, map_app. apply back_app. Qed.

Lemma idx_map_seq {B} (f : nat -> B) k i : i < k -> idx (map f (seq 0 k)) i = Ok (f i).
Proof.
  intros H. apply idx_ok. rewrite nth_error_map, (nth_error_nth' _ 0) by (rewrite seq_length; lia).
  cbn [option_map]. rewrite seq_nth by lia. reflexivity.
Qed.

Lemma adder_eq a b c d e a' b' c' d' e' m : a = a' -> b = b' -> c = c' -> d = d' -> e = e' -> m = e + 7 ->
  Ok (adder_new a b c d e) = Ok (fst (adder_new a' b' c' d' e'), m).
Proof. now intros -> -> -> -> -> ->. Qed.
Lemma adder_eq' a b c d e a' b' c' d' e' m : a = a' -> b = b' -> c = c' -> d = d' -> e = e' -> m = e + 7 ->
  adder_new a b c d e = (fst (adder_new a' b' c' d' e'), m).
Proof. now intros -> -> -> -> -> ->. Qed.
Lemma doubler_eq a b e a' b' e' m : a = a' -> b = b' -> e = e' -> m = e + 6 ->
  Ok (doubler_new a b e) = Ok (fst (doubler_new a' b' e'), m).
Proof. now intros -> -> -> ->. Qed.

Lemma sm_step_state X1 Y1 n sc k : S k < length sc ->
  sm_step X1 Y1 sc (S k) (sm_state X1 Y1 n sc k) = Ok (sm_state X1 Y1 n sc (S k)).
Proof.
  intros Hk. unfold sm_step, sm_state at 1. cbn [sm_dbls sm_conds sm_adds].
  assert (Ed : (if S k =? 1 then Ok (doubler_new X1 Y1 (n + 2 + 15 * k))
     else prev_dbl <- back (map (sm_dbl X1 Y1 n) (seq 1 k));; Ok (doubler_new (db_X3 prev_dbl) (db_Y3 prev_dbl) (n + 2 + 15 * k)))
     = Ok (sm_dbl X1 Y1 n (S k), n + 2 + 15 * k + 6)).
  { destruct k as [|k].
    - cbn [Nat.eqb]. apply doubler_eq; unfold sm_B, sm_dx, sm_dy; cbn [Nat.sub Nat.eqb]; lia.
    - cbn [Nat.eqb]. rewrite back_map_seq. cbn [obind]. apply doubler_eq; unfold sm_dbl, sm_dx, sm_dy, sm_B;
        cbn [doubler_new fst db_X3 db_Y3 Nat.sub Nat.eqb Nat.add]; lia. }
  rewrite Ed. cbn [obind]. rewrite back_app. cbn [obind]. rewrite (idx_nth _ _ 0) by lia. cbn [obind condpt_new].
  set (cnd := {| cp_x1 := db_X3 (sm_dbl X1 Y1 n (S k)) |}).
  assert (Ec : cnd = sm_cond X1 Y1 n sc (S k)).
  { unfold cnd, sm_cond, sm_dbl, sm_dx, sm_dy, sm_C, sm_B. cbn [Nat.sub Nat.eqb doubler_new fst db_X3 db_Y3 condpt_new].
    rewrite ?Nat.sub_0_r. reflexivity. }
  rewrite Ec. clear cnd Ec Ed.
  assert (Es : map (sm_cond X1 Y1 n sc) (seq 0 (S k)) ++ [sm_cond X1 Y1 n sc (S k)] = map (sm_cond X1 Y1 n sc) (seq 0 (S (S k)))).
  { rewrite (seq_S (S k) 0), map_app. reflexivity. }
  rewrite Es. rewrite !idx_map_seq by lia.
  assert (Ea : (if S k =? 1 then
       cond_a <- Ok (sm_cond X1 Y1 n sc (S k - 1)) ;; cond_b <- Ok (sm_cond X1 Y1 n sc (S k)) ;;
       Ok (adder_new (cp_x2 cond_a) (cp_y2 cond_a) (cp_x2 cond_b) (cp_y2 cond_b) (n + 2 + 15 * k + 6 + 2))
     else cond <- Ok (sm_cond X1 Y1 n sc (S k)) ;; adder <- back (map (sm_add n) (seq 1 k)) ;;
       Ok (adder_new (ad_X3 adder) (ad_Y3 adder) (cp_x2 cond) (cp_y2 cond) (n + 2 + 15 * k + 6 + 2)))
     = Ok (sm_add n (S k), n + 2 + 15 * k + 6 + 2 + 7)).
  { destruct k as [|k].
    - cbn [Nat.eqb obind]. apply adder_eq; unfold sm_cond, acc_x, acc_y, sm_C, sm_B;
        cbn [Nat.sub Nat.eqb condpt_new fst cp_x2 cp_y2]; lia.
    - cbn [Nat.eqb]. rewrite back_map_seq. cbn [obind]. apply adder_eq; unfold sm_add, chain_add, sm_cond, acc_x, acc_y, sm_C, sm_B;
        cbn [Nat.sub Nat.eqb Nat.add condpt_new adder_new ad_X3 ad_Y3 fst cp_x2 cp_y2]; lia. }
  rewrite Ea. cbn [obind]. f_equal. unfold sm_state. f_equal; [|lia].
  rewrite !(seq_S k 1), !map_app. reflexivity.
Qed.

Lemma scalarmult_new_closed X1 Y1 sc n : 1 < length sc ->
  scalarmult_new X1 Y1 sc n = Ok (sm_state X1 Y1 n sc (length sc - 1)).
Proof.
  intros HL. unfold scalarmult_new. rewrite (proj2 (Nat.ltb_lt 1 _) HL). cbn [oassert obind].
  rewrite (idx_nth _ _ 0) by lia. cbn [obind condpt_new].
  assert (H : forall k, k < length sc -> oseq (map (sm_step X1 Y1 sc) (seq 1 k)) (sm_state X1 Y1 n sc 0) = Ok (sm_state X1 Y1 n sc k)).
  { induction k as [|k IH]; intros Hk; [reflexivity|].
    rewrite seq_S, map_app. cbn [map]. rewrite oseq_snoc, IH by lia. cbn [obind]. apply sm_step_state. exact Hk. }
  rewrite <- H by lia. f_equal. unfold sm_state. cbn [seq map]. f_equal. lia.
Qed.

(** *** meaning *)
Lemma sm_dbls_pts X1 Y1 n s : forall k, on_curve (pt s X1 Y1) ->
  (forall i, 1 <= i <= k -> pt s (sm_B n i + 4) (sm_B n i + 5) =
      padd (pt s (sm_dx X1 n (i - 1)) (sm_dy Y1 n (i - 1))) (pt s (sm_dx X1 n (i - 1)) (sm_dy Y1 n (i - 1)))) ->
  pt s (sm_dx X1 n k) (sm_dy Y1 n k) = smul (2 ^ N.of_nat k) (pt s X1 Y1).
Proof.
  induction k as [|k IH]; intros Hon H.
  - cbn [sm_dx sm_dy Nat.eqb]. change (2 ^ N.of_nat 0)%N with 1%N. now rewrite smul_1.
  - unfold sm_dx at 1, sm_dy at 1. cbn [Nat.eqb]. rewrite H by lia. rewrite Nat.sub_succ, Nat.sub_0_r, IH; [|exact Hon|intros; apply H; lia].
    rewrite smul_double by assumption. rewrite Nat2N.inj_succ, N.pow_succ_r'. reflexivity.
Qed.

Definition cpt (P : point) (bs : list bool) (i : nat) : point :=
  if nth i bs false then smul (2 ^ N.of_nat i) P else pzero.

Lemma cpt_on P bs i : on_curve P -> on_curve (cpt P bs i).
Proof. intros H. unfold cpt. destruct (nth i bs false); [now apply smul_on|exact pzero_on]. Qed.

Lemma psum_cpt P : on_curve P -> forall bs k, k <= length bs ->
  psum (map (cpt P bs) (seq 0 k)) = smul (bits_N (firstn k bs)) P.
Proof.
  intros H bs. induction k as [|k IH]; intros Hk; [reflexivity|].
  rewrite seq_S, map_app. cbn [map]. rewrite psum_snoc; [|apply Forall_map_seq; intros; now apply cpt_on|now apply cpt_on].
  rewrite IH by lia. cbn [Nat.add].
  assert (E : firstn (S k) bs = firstn k bs ++ [nth k bs false]).
  { clear -Hk. revert bs Hk. induction k as [|k IHk]; intros [|b bs] Hk; cbn in Hk; try lia; [reflexivity|].
    cbn [firstn nth app]. rewrite <- IHk by lia. reflexivity. }
  rewrite E, bits_N_app, firstn_length_le by lia. rewrite smul_add by assumption. f_equal.
  unfold cpt. destruct (nth k bs false); cbn [bits_N N.b2n].
  - f_equal. lia.
  - replace (2 ^ N.of_nat k * (0 + 2 * 0))%N with 0%N by lia. reflexivity.
Qed.

Lemma scalarmult_gok X1 Y1 sc n bs :
  1 < length sc -> length bs = length sc -> X1 < n -> Y1 < n -> Forall (fun v => v < n) sc ->
  let L := length sc in let g := fst (sm_state X1 Y1 n sc (L - 1)) in
  gok (fun v => n <= v < n + 2 + 15 * (L - 1)) (fun v => v < n)
    (scalarmult_constraints g) (scalarmult_witness g)
    (fun s => on_curve (pt s X1 Y1) /\ map s sc = map b2F bs)
    (fun s => pt s (sm_B n (L - 1) + 13) (sm_B n (L - 1) + 14) = smul (bits_N bs) (pt s X1 Y1)).
Proof.
  intros HL Hbs HX HY Hsc L g. unfold g, sm_state, scalarmult_constraints, scalarmult_witness. cbn [fst sm_dbls sm_conds sm_adds].
  assert (HL1 : 1 < L) by exact HL.
  assert (Hnth : forall i, i < L -> nth i sc 0 < n).
  { intros i Hi. rewrite Forall_forall in Hsc. apply Hsc, nth_In. exact Hi. }
  replace (S (L - 1)) with L by lia.
  assert (Hbit : forall s i, i < L -> map s sc = map b2F bs -> s (nth i sc 0) = b2F (nth i bs false)).
  { intros s i Hi E. rewrite <- (map_nth s), (nth_indep _ _ (b2F false)) by (rewrite map_length; exact Hi).
    rewrite E. apply map_nth. }
  set (pre := fun s : assign => on_curve (pt s X1 Y1) /\ map s sc = map b2F bs).
  assert (Hpre : forall s s' : assign, (forall v, v < n -> s' v = s v) -> pre s -> pre s').
  { intros s s' E [H1 H2]. unfold pre, pt. rewrite !E by assumption. split; [exact H1|]. rewrite <- H2.
    apply map_ext_in. intros v Hv. apply E. rewrite Forall_forall in Hsc. auto. }
  set (ownD := fun v => exists i, 1 <= i < 1 + (L - 1) /\ sm_B n i <= v < sm_B n i + 6).
  set (ownC := fun v => exists i, 0 <= i < 0 + L /\ sm_C n i <= v < sm_C n i + 2).
  set (ownA := fun v => exists i, 1 <= i < 1 + (L - 1) /\ sm_B n i + 8 <= v < sm_B n i + 8 + 7).
  (* doublers *)
  assert (GD : gok ownD (fun v => v < n) (concat (map doubler_constraints (map (sm_dbl X1 Y1 n) (seq 1 (L - 1)))))
     (oseq (map doubler_witness (map (sm_dbl X1 Y1 n) (seq 1 (L - 1))))) pre
     (fun s => forall i, i < L -> pt s (sm_dx X1 n i) (sm_dy Y1 n i) = smul (2 ^ N.of_nat i) (pt s X1 Y1))).
  { rewrite !map_map. eapply gok_weaken.
    - apply (gok_family (fun i v => sm_B n i <= v < sm_B n i + 6) (fun i v => In v [sm_dx X1 n (i - 1); sm_dy Y1 n (i - 1)])
        (fun v => v < n) (fun i => doubler_constraints (sm_dbl X1 Y1 n i)) (fun i => doubler_witness (sm_dbl X1 Y1 n i))
        (fun i s => on_curve (pt s (sm_dx X1 n (i - 1)) (sm_dy Y1 n (i - 1))))
        (fun i s => pt s (sm_B n i + 4) (sm_B n i + 5) =
           padd (pt s (sm_dx X1 n (i - 1)) (sm_dy Y1 n (i - 1))) (pt s (sm_dx X1 n (i - 1)) (sm_dy Y1 n (i - 1))))
        pre 1 (L - 1)).
      + intros i Hi. apply doubler_gok. intros v Hv. cbn [In] in Hv. unfold sm_dx, sm_dy, sm_B in *.
        destruct (Nat.eqb_spec (i - 1) 0); destruct Hv as [<-|[<-|[]]]; lia.
      + exact Hpre.
      + intros i s Hi [H1 _] HR. rewrite (sm_dbls_pts X1 Y1 n s (i - 1)); [now apply smul_on|exact H1|].
        intros j Hj. apply HR. lia.
      + intros i j v Hi Hj. unfold sm_B. lia.
      + intros i j v Hi Hj Ho Hv. cbn [In] in Hv. unfold sm_dx, sm_dy, sm_B in *.
        destruct (Nat.eqb_spec (i - 1) 0); destruct Hv as [<-|[<-|[]]]; lia.
      + intros i v Hi Hv. cbn [In] in Hv. unfold sm_dx, sm_dy in *.
        destruct (Nat.eqb_spec (i - 1) 0); destruct Hv as [<-|[<-|[]]]; [left; exact HX|left; exact HY|right; exists (i - 1); lia|right; exists (i - 1); lia].
      + intros i v Hi. unfold sm_B. lia.
    - intros v. reflexivity.
    - auto.
    - intros v (i & Hi & Ho) Hd. unfold sm_B in Ho. lia.
    - exact Hpre.
    - auto.
    - intros s [H1 H2] HR i Hi. apply sm_dbls_pts; [exact H1|]. intros j Hj. apply HR. lia. }
  (* conditionals *)
  assert (GC : gok ownC (fun v => v < n \/ ownD v) (concat (map condpt_constraints (map (sm_cond X1 Y1 n sc) (seq 0 L))))
     (oseq (map condpt_witness (map (sm_cond X1 Y1 n sc) (seq 0 L)))) (fun s => map s sc = map b2F bs)
     (fun s => forall i, 0 <= i < 0 + L -> pt s (sm_C n i) (sm_C n i + 1) = if nth i bs false then pt s (sm_dx X1 n i) (sm_dy Y1 n i) else pzero)).
  { rewrite !map_map.
    apply (gok_family (fun i v => sm_C n i <= v < sm_C n i + 2) (fun i v => In v [sm_dx X1 n i; sm_dy Y1 n i; nth i sc 0])
        (fun v => v < n \/ ownD v) (fun i => condpt_constraints (sm_cond X1 Y1 n sc i)) (fun i => condpt_witness (sm_cond X1 Y1 n sc i))
        (fun i s => s (nth i sc 0) = b2F (nth i bs false))
        (fun i s => pt s (sm_C n i) (sm_C n i + 1) = if nth i bs false then pt s (sm_dx X1 n i) (sm_dy Y1 n i) else pzero)
        (fun s => map s sc = map b2F bs) 0 L).
    - intros i Hi. apply condpt_gok. intros v Hv. cbn [In] in Hv. specialize (Hnth i ltac:(lia)). unfold sm_dx, sm_dy, sm_C, sm_B in *.
      destruct (Nat.eqb_spec i 0); destruct Hv as [<-|[<-|[<-|[]]]]; lia.
    - intros s s' E H2. rewrite <- H2. apply map_ext_in. intros v Hv. apply E. left. rewrite Forall_forall in Hsc. auto.
    - intros i s Hi Hs _. apply Hbit; [lia|exact Hs].
    - intros i j v Hi Hj. unfold sm_C, sm_B. destruct (Nat.eqb_spec i 0); destruct (Nat.eqb_spec j 0); lia.
    - intros i j v Hi Hj Ho Hv. cbn [In] in Hv. specialize (Hnth i ltac:(lia)). unfold sm_C, sm_dx, sm_dy, sm_B in *.
      destruct (Nat.eqb_spec i 0); destruct (Nat.eqb_spec j 0); destruct Hv as [<-|[<-|[<-|[]]]]; lia.
    - intros i v Hi Hv. cbn [In] in Hv. specialize (Hnth i ltac:(lia)). left. unfold sm_dx, sm_dy in *.
      destruct (Nat.eqb_spec i 0); destruct Hv as [<-|[<-|[<-|[]]]]; auto; right; exists i; lia.
    - intros i v Hi Ho [Hd|(j & Hj & Hd)]; unfold sm_C, sm_B in *; destruct (Nat.eqb_spec i 0); lia. }
  (* adders *)
  pose proof (chain_gok (fun i => sm_B n i + 8) (sm_C n) (fun i => sm_C n i + 1) (L - 1)) as GA.
  specialize (GA ltac:(intros i j Hi Hj; unfold sm_B; lia)).
  specialize (GA ltac:(intros i j Hi Hj; unfold sm_C, sm_B; destruct (Nat.eqb_spec i 0); lia)).
  change (map (chain_add (fun j => sm_B n j + 8) (sm_C n) (fun j => sm_C n j + 1)) (seq 1 (L - 1))) with (map (sm_add n) (seq 1 (L - 1))) in GA.
  assert (EA : acc_x (fun i => sm_B n i + 8) (sm_C n) (L - 1) = sm_B n (L - 1) + 13 /\ acc_y (fun i => sm_B n i + 8) (fun i => sm_C n i + 1) (L - 1) = sm_B n (L - 1) + 14).
  { unfold acc_x, acc_y. destruct (Nat.eqb_spec (L - 1) 0); [unfold L in *; lia|]. lia. }
  destruct EA as [EA1 EA2]. rewrite EA1, EA2 in GA.
  assert (Hcp : forall s i, pre s -> (forall i, i < L -> pt s (sm_dx X1 n i) (sm_dy Y1 n i) = smul (2 ^ N.of_nat i) (pt s X1 Y1)) ->
     (forall i, 0 <= i < 0 + L -> pt s (sm_C n i) (sm_C n i + 1) = if nth i bs false then pt s (sm_dx X1 n i) (sm_dy Y1 n i) else pzero) ->
     i < L -> upts (sm_C n) (fun i => sm_C n i + 1) s i = cpt (pt s X1 Y1) bs i).
  { intros s i _ H1 H2 Hi. unfold upts. rewrite H2 by lia. unfold cpt. destruct (nth i bs false); [now apply H1|reflexivity]. }
  eapply gok_ext.
  - eapply gok_seq with (own2 := fun v => ownC v \/ ownA v) (dep2 := fun v => v < n \/ ownD v)
      (pre2 := fun s => pre s /\ forall i, i < L -> pt s (sm_dx X1 n i) (sm_dy Y1 n i) = smul (2 ^ N.of_nat i) (pt s X1 Y1)).
    + exact GD.
    + eapply gok_seq.
      * eapply gok_weaken with (dep' := fun v => v < n \/ ownD v) (pre' := fun s => pre s /\ forall i, i < L -> pt s (sm_dx X1 n i) (sm_dy Y1 n i) = smul (2 ^ N.of_nat i) (pt s X1 Y1));
          [exact GC|reflexivity|auto|exact (k_disj GC)| |cbn; unfold pre; tauto|intros s _ HR; exact HR].
        intros s s' E [H1 H2]. split; [apply (Hpre s); auto|]. intros i Hi. unfold pt. rewrite (E X1), (E Y1) by auto. fold (pt s X1 Y1). rewrite <- (H2 i Hi).
        unfold pt, sm_dx, sm_dy. destruct (Nat.eqb_spec i 0) as [E0|E0].
        { rewrite !E by auto. reflexivity. }
        assert (ownD (sm_B n i + 4) /\ ownD (sm_B n i + 5)) as [O1 O2] by (split; exists i; lia). rewrite !E by auto. reflexivity.
      * exact GA.
      * cbn beta. intros s [H1 H2] H3 i Hi. rewrite Hcp; [apply cpt_on, H1|exact H1|exact H2|exact H3|lia].
      * cbn beta. intros s [H1 H2] H3 H4. rewrite (map_ext_in _ (cpt (pt s X1 Y1) bs)) in H4.
        -- replace (S (L - 1)) with L in H4 by lia. rewrite psum_cpt in H4; [|apply H1|rewrite Hbs; auto].
           replace L with (length bs) in H4 at 3. rewrite firstn_all in H4. exact H4.
        -- intros i Hi. apply in_seq in Hi. apply Hcp; [exact H1|exact H2|exact H3|lia].
      * reflexivity.
      * auto.
      * cbn beta. intros v (i & Hi & Hv). right. exists i. destruct Hv as [-> | ->]; lia.
      * intros v (i & Hi & Ho) [Hd|(j & Hj & Hd)]; unfold sm_B in *; lia.
      * intros v (i & Hi & Ho) (j & Hj & Hd); unfold sm_B, sm_C in *. destruct (Nat.eqb_spec j 0); unfold sm_B in *; lia.
      * intros v [(i & Hi & Ho)|(i & Hi & Ho)] [Hd|(j & Hj & Hd)]; unfold sm_C, sm_B in *; try destruct (Nat.eqb_spec i 0); unfold sm_B in *; lia.
    + cbn beta. tauto.
    + cbn beta. intros s _ _ H. exact H.
    + (* the variables owned are exactly the allocated range *)
      intros v. split.
      * intros [(i & Hi & Ho)|[(i & Hi & Ho)|(i & Hi & Ho)]]; unfold sm_C, sm_B in *; try destruct (Nat.eqb_spec i 0); unfold sm_B in *; lia.
      * intros Hv. destruct (Nat.lt_ge_cases v (n + 2)) as [Hlt|Hge].
        { right. left. exists 0. unfold sm_C. cbn [Nat.eqb]. lia. }
        set (q := (v - (n + 2)) / 15). set (r := (v - (n + 2)) mod 15).
        assert (E : v - (n + 2) = 15 * q + r) by (apply Nat.div_mod; lia).
        assert (Hr : r < 15) by (apply Nat.mod_upper_bound; lia).
        destruct (Nat.lt_ge_cases r 6); [left; exists (S q); unfold sm_B; lia|].
        right. destruct (Nat.lt_ge_cases r 8); [left; exists (S q); unfold sm_C, sm_B; cbn [Nat.eqb]; lia|].
        right. exists (S q). unfold sm_B. lia.
    + auto.
    + cbn beta. tauto.
    + intros v [(i & Hi & Ho)|(i & Hi & Ho)] Hd; unfold sm_C, sm_B in *; try destruct (Nat.eqb_spec i 0); unfold sm_B in *; lia.
    + intros v [(i & Hi & Ho)|(i & Hi & Ho)] (j & Hj & Hd); unfold sm_C, sm_B in *; try destruct (Nat.eqb_spec i 0); unfold sm_B in *; lia.
    + intros; lia.
  - intros s. reflexivity.
Qed.
