(** Commitment: closed form of what the constructor builds, and its meaning. *)
From Coq Require Import List NArith ZArith Bool Arith Lia.
From Verif Require Import Field Base R1CS R1CSFacts Gadget Gadget2 M_Lookup P_Lookup M_Bits M_Point M_Jubjub Spec_Curve P_Curve P_JubLeaf P_Group P_Chain P_ScalarMult P_Poseidon P_Fbm.
Import ListNotations.
Local Open Scope nat_scope.

Section Cm.
Variables (points : list point) (scs : list (list var)) (n : nat).
Definition cm_W (i : nat) : nat := length (nth i scs []) / 2.
Definition cm_sz (i : nat) : nat := fb_end 0 (cm_W i).
Fixpoint cm_M (i : nat) : nat :=
  match i with 0 => n | S i' => cm_M i' + cm_sz i' + (if i' =? 0 then 0 else 7) end.
Definition cm_A (i : nat) : nat := cm_M i + cm_sz i.
Definition cm_ux (i : nat) : nat := fb_A (cm_M i) (cm_W i) (cm_W i - 1) + 5.
Definition cm_uy (i : nat) : nat := fb_A (cm_M i) (cm_W i) (cm_W i - 1) + 6.
Definition cm_mult (i : nat) : fbm := fb_gadget (nth i points pzero) (nth i scs []) (cm_M i).
Definition cm_state (k : nat) : commitment * nat :=
  ({| cm_mults := map cm_mult (seq 0 k); cm_adds := map (chain_add cm_A cm_ux cm_uy) (seq 1 (k - 1)) |}, cm_M k).

Definition good_scalar (sc : list var) : Prop := length sc mod 2 = 0 /\ 4 <= length sc /\ Forall (fun v => v < n) sc.

Hypothesis Hpts : forall i, i < length points -> on_curve (nth i points pzero).
Hypothesis Hlen : length scs = length points.
Hypothesis Hsc : forall i, i < length points -> good_scalar (nth i scs []).

Lemma cm_W_ge i : i < length points -> 2 <= cm_W i.
Proof.
  intros Hi. destruct (Hsc i Hi) as (He & H4 & _). unfold cm_W. pose proof (even_half _ He). lia.
Qed.

Lemma cm_result i : i < length points -> fbm_result (cm_mult i) = Ok (cm_ux i, cm_uy i).
Proof.
  intros Hi. pose proof (cm_W_ge i Hi) as HW. unfold fbm_result, cm_mult, fb_gadget. cbn [fb_adds].
  fold (cm_W i). replace (cm_W i - 1) with (S (cm_W i - 2)) by lia. rewrite back_map_seq. cbn [obind].
  unfold cm_ux, cm_uy, chain_add. cbn [adder_new fst ad_X3 ad_Y3]. replace (1 + (cm_W i - 2)) with (cm_W i - 1) by lia. reflexivity.
Qed.

Lemma cm_new i : i < length points ->
  fbm_new (nth i points pzero) (nth i scs []) (cm_M i) = Ok (cm_mult i, cm_M i + cm_sz i).
Proof.
  intros Hi. destruct (Hsc i Hi) as (He & H4 & _). rewrite fbm_new_closed by auto. unfold cm_mult, cm_sz, fb_end, cm_W.
  do 2 f_equal. lia.
Qed.

Lemma cm_step_state k : k < length points -> cm_step scs (k, nth k points pzero) (cm_state k) = Ok (cm_state (S k)).
Proof.
  intros Hk. unfold cm_step, cm_state at 1. rewrite (idx_nth _ _ []) by lia. cbn [obind]. rewrite cm_new by assumption. cbn [obind cm_mults cm_adds].
  assert (Em : map cm_mult (seq 0 k) ++ [cm_mult k] = map cm_mult (seq 0 (S k))) by (rewrite (seq_S k 0), map_app; reflexivity).
  rewrite Em.
  destruct k as [|[|k]].
  - cbn [Nat.eqb Nat.ltb Nat.leb]. unfold cm_state. cbn [seq map Nat.sub]. f_equal. f_equal. cbn [cm_M Nat.eqb]. lia.
  - cbn [Nat.eqb Nat.sub]. rewrite !idx_map_seq by lia. cbn [obind]. rewrite !cm_result by lia. cbn [obind].
    rewrite (adder_eq' _ _ _ _ _ (acc_x cm_A cm_ux (1 - 1)) (acc_y cm_A cm_uy (1 - 1)) (cm_ux 1) (cm_uy 1) (cm_A 1) (cm_M 2)); reflexivity || (try (cbn [cm_M Nat.eqb]; lia)).
  - replace (S (S k) =? 1) with false by reflexivity. replace (1 <? S (S k)) with true by reflexivity.
    replace (S (S k) - 2) with k by lia. replace (S (S k) - 1) with (S k) by lia.
    rewrite (proj2 (idx_ok (map (chain_add cm_A cm_ux cm_uy) (seq 1 (S k))) k (chain_add cm_A cm_ux cm_uy (1 + k)))).
    2:{ rewrite nth_error_map, (nth_error_nth' _ 0) by (rewrite seq_length; lia). cbn [option_map]. rewrite seq_nth by lia. reflexivity. }
    cbn [obind]. rewrite !idx_map_seq by lia. cbn [obind]. rewrite !cm_result by lia. cbn [obind].
    rewrite (adder_eq' _ _ _ _ _ (acc_x cm_A cm_ux (S (S k) - 1)) (acc_y cm_A cm_uy (S (S k) - 1)) (cm_ux (S (S k))) (cm_uy (S (S k))) (cm_A (S (S k))) (cm_M (S (S (S k)))));
      [|reflexivity..].
    unfold cm_state. replace (S (S (S k)) - 1) with (S (S k)) by lia. rewrite (seq_S (S k) 1), map_app. reflexivity.
Qed.

Lemma commitment_new_closed : 1 < length points -> commitment_new points scs n = Ok (cm_state (length points)).
Proof.
  intros HL. unfold commitment_new. rewrite (proj2 (Nat.ltb_lt 1 _) HL), Hlen, Nat.eqb_refl. cbn [oassert obind].
  assert (E : combine (seq 0 (length points)) points = map (fun i => (i, nth i points pzero)) (seq 0 (length points))).
  { clear. assert (H : forall (pre l : list point), combine (seq (length pre) (length l)) l = map (fun i => (i, nth i (pre ++ l) pzero)) (seq (length pre) (length l))).
    { intros pre l. revert pre. induction l as [|x l IH]; intros pre; [reflexivity|]. cbn [length seq combine map]. f_equal.
      - f_equal. rewrite app_nth2, Nat.sub_diag by lia. reflexivity.
      - specialize (IH (pre ++ [x])). rewrite app_length, Nat.add_1_r in IH. rewrite IH. rewrite <- app_assoc. reflexivity. }
    exact (H [] points). }
  rewrite E, map_map.
  assert (H : forall k, k <= length points -> oseq (map (fun i => cm_step scs (i, nth i points pzero)) (seq 0 k)) (cm_state 0) = Ok (cm_state k)).
  { induction k as [|k IH]; intros Hk; [reflexivity|].
    rewrite seq_S, map_app. cbn [map]. rewrite oseq_snoc, IH by lia. cbn [obind]. apply cm_step_state. lia. }
  apply H. lia.
Qed.

Lemma cm_M_le i j : i <= j -> cm_M i <= cm_M j.
Proof using scs n. clear points Hpts Hlen Hsc. induction 1; [lia|]. cbn [cm_M]. lia. Qed.
Lemma cm_M_lt i j : i < j -> cm_M i + cm_sz i + (if i =? 0 then 0 else 7) <= cm_M j.
Proof using scs n. clear points Hpts Hlen Hsc. intros H. pose proof (cm_M_le (S i) j H) as HM. exact HM. Qed.

Definition cm_cs (g : commitment) : list constr := match commitment_constraints g with Ok cs => cs | _ => [] end.

Lemma commitment_gok (bss : list (list bool)) :
  1 < length points -> (forall i, i < length points -> length (nth i bss []) = length (nth i scs [])) ->
  let K := length points in let g := fst (cm_state K) in
  commitment_constraints g = Ok (cm_cs g) /\
  gok (fun v => n <= v < cm_M K) (fun v => exists i, i < K /\ In v (nth i scs []))
    (cm_cs g) (commitment_witness g)
    (fun s => forall i, i < K -> map s (nth i scs []) = map b2F (nth i bss []))
    (fun s => pt s (cm_A (K - 1) + 5) (cm_A (K - 1) + 6) =
       psum (map (fun i => smul (bits_N (nth i bss [])) (nth i points pzero)) (seq 0 K))).
Proof.
  intros HL Hb K g. assert (HK : 1 < K) by exact HL.
  assert (HF : forall i, i < K -> fbm_constraints (cm_mult i) = Ok (fb_cs (cm_mult i)) /\
    gok (fun v => cm_M i <= v < cm_M i + cm_sz i) (fun v => In v (nth i scs [])) (fb_cs (cm_mult i)) (fbm_witness (cm_mult i))
      (fun s => map s (nth i scs []) = map b2F (nth i bss []))
      (fun s => pt s (cm_ux i) (cm_uy i) = smul (bits_N (nth i bss [])) (nth i points pzero))).
  { intros i Hi. destruct (Hsc i Hi) as (He & H4 & Hv).
    destruct (fbm_gok (nth i points pzero) (nth i scs []) (cm_M i) (nth i bss [])) as [E G]; auto.
    { eapply Forall_impl; [|exact Hv]. cbn. intros v Hv'. pose proof (cm_M_le 0 i ltac:(lia)) as HM. cbn [cm_M] in HM. lia. }
    split; [exact E|]. eapply gok_weaken; [exact G| |auto| |exact (k_stable G)|auto|intros s _ HR; exact HR].
    - intros v. unfold cm_sz, fb_end, cm_W. lia.
    - intros v Ho. apply (k_disj G). unfold cm_sz, fb_end, cm_W in *. lia. }
  assert (Hdep : forall i v, i < K -> In v (nth i scs []) -> v < n).
  { intros i v Hi Hv. destruct (Hsc i Hi) as (_ & _ & H). rewrite Forall_forall in H. auto. }
  assert (Hn : forall i, n <= cm_M i) by (intros i; exact (cm_M_le 0 i ltac:(lia))).
  set (D := fun v => exists i, i < K /\ In v (nth i scs [])).
  set (ownM := fun v => exists i, 0 <= i < 0 + K /\ cm_M i <= v < cm_M i + cm_sz i).
  assert (GM : gok ownM D (concat (map fb_cs (map cm_mult (seq 0 K)))) (oseq (map fbm_witness (map cm_mult (seq 0 K))))
     (fun s => forall i, i < K -> map s (nth i scs []) = map b2F (nth i bss []))
     (fun s => forall i, 0 <= i < 0 + K -> pt s (cm_ux i) (cm_uy i) = smul (bits_N (nth i bss [])) (nth i points pzero))).
  { rewrite !map_map.
    apply (gok_family (fun i v => cm_M i <= v < cm_M i + cm_sz i) (fun i v => In v (nth i scs [])) D
      (fun i => fb_cs (cm_mult i)) (fun i => fbm_witness (cm_mult i)) (fun i s => map s (nth i scs []) = map b2F (nth i bss []))
      (fun i s => pt s (cm_ux i) (cm_uy i) = smul (bits_N (nth i bss [])) (nth i points pzero))).
    - intros i Hi. apply HF. lia.
    - intros s s' E H i Hi. rewrite <- (H i Hi). apply map_ext_in. intros v Hv. apply E. exists i. auto.
    - intros i s Hi H _. apply H. lia.
    - intros i j v Hi Hj H1 H2. pose proof (cm_M_lt i j ltac:(lia)). lia.
    - intros i j v Hi Hj H1 H2. apply Hdep in H2; [|lia]. specialize (Hn j). lia.
    - intros i v Hi Hv. left. exists i. split; [lia|exact Hv].
    - intros i v Hi H1 (j & Hj & Hv). apply Hdep in Hv; [|lia]. specialize (Hn i). lia. }
  assert (Ecs : commitment_constraints g = Ok (concat (map fb_cs (map cm_mult (seq 0 K))) ++ concat (map adder_constraints (cm_adds g)))).
  { unfold commitment_constraints, g, cm_state. cbn [fst cm_mults cm_adds]. rewrite (omapM_all _ fb_cs); [reflexivity|].
    intros a Ha. apply in_map_iff in Ha. destruct Ha as (i & <- & Hi). apply in_seq in Hi. apply HF. lia. }
  assert (Ec : cm_cs g = concat (map fb_cs (map cm_mult (seq 0 K))) ++ concat (map adder_constraints (cm_adds g))) by (unfold cm_cs; now rewrite Ecs).
  split; [rewrite Ec; exact Ecs|]. rewrite Ec.
  assert (Hux : forall i, i < K -> cm_M i <= cm_ux i < cm_M i + cm_sz i /\ cm_M i <= cm_uy i < cm_M i + cm_sz i).
  { intros i Hi. pose proof (cm_W_ge i Hi). unfold cm_ux, cm_uy, cm_sz, fb_end, fb_A. lia. }
  assert (HMA : forall i j, 1 <= i -> i < j -> cm_A i + 7 <= cm_M j).
  { intros i j Hi Hj. pose proof (cm_M_lt i j Hj) as H. unfold cm_A. destruct (Nat.eqb_spec i 0); lia. }
  pose proof (chain_gok cm_A cm_ux cm_uy (K - 1)) as GA.
  specialize (GA ltac:(intros i j Hi Hj; pose proof (HMA i j ltac:(lia) ltac:(lia)); unfold cm_A at 2; lia)).
  assert (Hdis : forall i j, i < K -> 1 <= j < K -> forall v, cm_M i <= v < cm_M i + cm_sz i -> ~ (cm_A j <= v < cm_A j + 7)).
  { intros i j Hi Hj v Hv Hv'. destruct (Nat.lt_ge_cases j i) as [H|H]; [pose proof (HMA j i ltac:(lia) H); lia|].
    destruct (Nat.eq_dec i j) as [->|Hne]; [unfold cm_A in Hv'; lia|]. pose proof (cm_M_lt i j ltac:(lia)). unfold cm_A in Hv'. lia. }
  specialize (GA ltac:(intros i j Hi Hj; destruct (Hux i ltac:(lia)); split; apply (Hdis i j); auto; lia)).
  assert (EA1 : acc_x cm_A cm_ux (K - 1) = cm_A (K - 1) + 5) by (unfold acc_x; destruct (Nat.eqb_spec (K - 1) 0); lia).
  assert (EA2 : acc_y cm_A cm_uy (K - 1) = cm_A (K - 1) + 6) by (unfold acc_y; destruct (Nat.eqb_spec (K - 1) 0); lia).
  rewrite EA1, EA2 in GA. replace (S (K - 1)) with K in GA by lia.
  unfold g, commitment_witness, cm_state. cbn [fst cm_mults cm_adds].
  eapply gok_seq; [exact GM|exact GA|..].
  - cbn beta. intros s H1 H2 i Hi. unfold upts. rewrite H2 by lia. apply smul_on, Hpts. fold K. lia.
  - cbn beta. intros s H1 H2 H3. rewrite H3. f_equal. apply map_ext_in. intros i Hi. apply in_seq in Hi. apply H2. lia.
  - intros v. split.
    + intros [(i & Hi & Ho)|(i & Hi & Ho)].
      * pose proof (cm_M_lt i K ltac:(lia)). specialize (Hn i). lia.
      * pose proof (HMA i K ltac:(lia) ltac:(lia)). specialize (Hn i). unfold cm_A in *. lia.
    + intros Hv.
      assert (H : forall k, k <= K -> n <= v < cm_M k -> (exists i, 0 <= i < 0 + k /\ cm_M i <= v < cm_M i + cm_sz i) \/ (exists i, 1 <= i < k /\ cm_A i <= v < cm_A i + 7)).
      { induction k as [|k IH]; intros Hk Hv'; cbn [cm_M] in Hv'; [lia|].
        destruct (Nat.lt_ge_cases v (cm_M k)) as [Hlt|Hge].
        - destruct IH as [(i & Hi & H)|(i & Hi & H)]; [lia|lia|left; exists i; lia|right; exists i; lia].
        - destruct (Nat.lt_ge_cases v (cm_M k + cm_sz k)) as [Hlt2|Hge2]; [left; exists k; lia|].
          destruct (Nat.eqb_spec k 0); [lia|]. right. exists k. unfold cm_A. lia. }
      destruct (H K ltac:(lia) Hv) as [(i & Hi & Ho)|(i & Hi & Ho)]; [left; exists i; auto|right; exists i; split; [lia|exact Ho]].
  - auto.
  - cbn beta. intros v (i & Hi & Hv). right. exists i. split; [lia|]. destruct (Hux i ltac:(lia)). destruct Hv as [-> | ->]; auto.
  - intros v (i & Hi & Ho) (j & Hj & Hd). apply Hdep in Hd; [|exact Hj]. specialize (Hn i). unfold cm_A in Ho. lia.
  - intros v (i & Hi & Ho) (j & Hj & Hd). exact (Hdis j i ltac:(lia) ltac:(lia) v Hd Ho).
  - intros v Hv (j & Hj & Hd). apply Hdep in Hd; [|exact Hj]. lia.
Qed.
End Cm.
