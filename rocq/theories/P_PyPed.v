(** Lemmas about the model of /repo/ethsnarks/pedersen.py. *)
From Coq Require Import List ZArith Bool Arith Lia.
From Verif Require Import Primes Field Base M_Point Spec_Curve Spec_Mont P_Curve P_Group P_Zmul P_Order M_PyJubjub Spec_PyJubjub P_PyJubjub Q_PyJubjub M_PyEddsa Spec_PyEddsa.
Import ListNotations.
Local Open Scope nat_scope.
Local Open Scope Z_scope.

(** the signed value of a window *)
Definition wval (w : Z) : Z := if 3 <? w then - (Z.land w 3 + 1) else Z.land w 3 + 1.
(** the sum of the windows from number [j] on *)
Fixpoint wsum (B : nat -> point) (j : nat) (ws : list Z) : point :=
  match ws with
  | [] => pzero
  | w :: r => padd (pzmul (wval w * 16 ^ Z.of_nat (Nat.modulo j 62)) (B (Nat.div j 62))) (wsum B (S j) r)
  end.
Lemma wsum_on B : (forall q, on_curve (B q)) -> forall ws j, on_curve (wsum B j ws).
Proof.
  intros HB. induction ws as [|w ws IH]; intros j; [exact pzero_on|]. cbn [wsum]. apply padd_closed; [apply pzmul_on, HB|apply IH].
Qed.
Section Loop.
Variable from_hash : list Z -> outcome point.
Variable name : list Z.
Variable B : nat -> point.
Variable nb : nat.
Hypothesis HB : forall q, on_curve (B q).
Hypothesis HBase : forall q, (q < nb)%nat -> exists e, ped_basepoint from_hash name (Z.of_nat q) = Ok e /\ etec_of e (B q).

Lemma double4 e P : on_curve P -> etec_of e P ->
  exists r, (c1 <- ep_double e ;; c2 <- ep_double c1 ;; c3 <- ep_double c2 ;; ep_double c3) = Ok r /\ etec_of r (pzmul 16 P).
Proof.
  intros HP He. pose proof (padd_closed P P HP HP) as H2. pose proof (padd_closed _ _ H2 H2) as H4. pose proof (padd_closed _ _ H4 H4) as H8.
  destruct (ep_double_ok e P HP He) as (r1 & -> & R1). cbn [obind].
  destruct (ep_double_ok r1 _ H2 R1) as (r2 & -> & R2). cbn [obind].
  destruct (ep_double_ok r2 _ H4 R2) as (r3 & -> & R3). cbn [obind].
  destruct (ep_double_ok r3 _ H8 R3) as (r4 & -> & R4). exists r4. split; [reflexivity|].
  replace (pzmul 16 P) with (padd (padd (padd (padd P P) (padd P P)) (padd (padd P P) (padd P P))) (padd (padd (padd P P) (padd P P)) (padd (padd P P) (padd P P)))); [exact R4|].
  change 16 with ((1 + 1 + (1 + 1) + (1 + 1 + (1 + 1))) + (1 + 1 + (1 + 1) + (1 + 1 + (1 + 1)))). rewrite !pzmul_add by assumption. rewrite !pzmul_1. reflexivity.
Qed.
Lemma segment_ok e P w : on_curve P -> etec_of e P ->
  exists s, py_mult cc_etec e (SInt (Z.land w 3 + 1)) = Ok s /\ etec_of (if 3 <? w then ep_neg s else s) (pzmul (wval w) P).
Proof.
  intros HP He. destruct (proj2 (proj2 mult_lemma) e P (Z.land w 3 + 1)) as (s & E & Hs); auto.
  { assert (0 <= Z.land w 3); [|lia]. apply Z.land_nonneg. right. lia. }
  exists s. split; [exact E|]. unfold wval. destruct (3 <? w); [|exact Hs]. rewrite pzmul_opp by assumption. now apply ep_neg_ok.
Qed.
Lemma ped_loop_ok : forall ws j cur res Q, (j + length ws <= 62 * nb)%nat -> on_curve Q -> etec_of res Q ->
  (Nat.modulo j 62 <> 0%nat -> etec_of cur (pzmul (16 ^ (Z.of_nat (Nat.modulo j 62) - 1)) (B (Nat.div j 62)))) ->
  exists r, ped_loop from_hash name j cur res ws = Ok r /\ etec_of r (padd Q (wsum B j ws)).
Proof using HB HBase.
  induction ws as [|w ws IH]; intros j cur res Q Hn HQ Hr Hc.
  - exists res. split; [reflexivity|]. cbn [wsum]. now rewrite padd_0_r.
  - cbn [ped_loop length] in *.
    assert (HD : (Nat.div j 62 < nb)%nat) by (apply Nat.div_lt_upper_bound; lia).
    assert (G : exists c, (if Nat.eqb (Nat.modulo j 62) 0 then ped_basepoint from_hash name (Z.of_nat (Nat.div j 62))
                else (c1 <- ep_double cur ;; c2 <- ep_double c1 ;; c3 <- ep_double c2 ;; ep_double c3)) = Ok c /\ etec_of c (pzmul (16 ^ Z.of_nat (Nat.modulo j 62)) (B (Nat.div j 62)))).
    { destruct (Nat.eqb_spec (Nat.modulo j 62) 0) as [E|E].
      - rewrite E. change (16 ^ Z.of_nat 0) with 1. rewrite pzmul_1. now apply HBase.
      - destruct (double4 cur _ (pzmul_on _ _ (HB (Nat.div j 62))) (Hc E)) as (r & Er & Hr'). exists r. split; [exact Er|].
        rewrite <- pzmul_mul in Hr' by apply HB. replace (16 ^ Z.of_nat (Nat.modulo j 62)) with (16 * 16 ^ (Z.of_nat (Nat.modulo j 62) - 1)); [exact Hr'|].
        rewrite <- Z.pow_succ_r by lia. f_equal. lia. }
    destruct G as (c & -> & Hc'). cbn [obind].
    destruct (segment_ok c _ w (pzmul_on _ _ (HB (Nat.div j 62))) Hc') as (s & -> & Hs). cbn [obind].
    rewrite <- pzmul_mul in Hs by apply HB.
    destruct (ep_add_ok res (if 3 <? w then ep_neg s else s) Q _ HQ (pzmul_on _ _ (HB (Nat.div j 62))) Hr Hs) as (r2 & E2 & Hr2). rewrite E2. cbn [obind].
    destruct (IH (S j) c r2 _ ltac:(lia) (padd_closed _ _ HQ (pzmul_on _ _ (HB (Nat.div j 62)))) Hr2) as (r & Er & HR).
    + intros N. replace (Nat.div (S j) 62) with (Nat.div j 62) by (pose proof (Nat.div_mod j 62); pose proof (Nat.div_mod (S j) 62); pose proof (Nat.mod_upper_bound j 62); pose proof (Nat.mod_upper_bound (S j) 62); lia).
      replace (Z.of_nat (Nat.modulo (S j) 62) - 1) with (Z.of_nat (Nat.modulo j 62)) by (pose proof (Nat.div_mod j 62); pose proof (Nat.div_mod (S j) 62); pose proof (Nat.mod_upper_bound j 62); pose proof (Nat.mod_upper_bound (S j) 62); lia).
      exact Hc'.
    + exists r. split; [exact Er|]. cbn [wsum]. rewrite <- padd_assoc; auto; [apply pzmul_on, HB|now apply wsum_on].
Qed.
Lemma ped_windows_ok ws : (length ws <= 62 * nb)%nat -> ped_windows from_hash name ws = Ok (wsum B 0 ws).
Proof using HB HBase.
  intros H. unfold ped_windows. destruct (ped_loop_ok ws 0 ep_infinity ep_infinity pzero) as (r & -> & Hr); auto.
  - exact pzero_on.
  - exact etec_inf.
  - intros N. exfalso. now apply N.
  - cbn [obind]. apply (f_equal Ok). rewrite padd_0_l in Hr. now apply ep_as_point_ok.
Qed.
End Loop.

(** ** windows and bits *)
Lemma wval_bits a b c : wval (Z.b2z a + 2 * Z.b2z b + 4 * Z.b2z c) = window_val a b c.
Proof. destruct a, b, c; reflexivity. Qed.
Lemma triple_ind (P : list bool -> Prop) : P [] -> (forall a, P [a]) -> (forall a b, P [a; b]) -> (forall a b c r, P r -> P (a :: b :: c :: r)) -> forall l, P l.
Proof.
  intros H0 H1 H2 H3. assert (G : forall n l, (length l < n)%nat -> P l).
  { induction n as [|n IH]; intros l Hl; [lia|]. destruct l as [|a [|b [|c r]]]; auto. apply H3, IH. cbn in Hl. lia. }
  intros l. apply (G (S (length l))). lia.
Qed.
Lemma pad3_cons a b c r : pad3 (a :: b :: c :: r) = a :: b :: c :: pad3 r.
Proof.
  unfold pad3. cbn [length app]. replace (S (S (S (length r))) mod 3)%nat with (length r mod 3)%nat; [reflexivity|].
  change (S (S (S (length r)))) with (3 + length r)%nat. replace (3 + length r)%nat with (length r + 1 * 3)%nat by lia. now rewrite Nat.mod_add.
Qed.
Lemma pad3_mult bs : (length bs mod 3 = 0)%nat -> pad3 bs = bs.
Proof. unfold pad3. intros ->. apply app_nil_r. Qed.
Lemma windows_pad bs : bit_windows (pad3 bs) = bit_windows bs.
Proof.
  induction bs as [|a|a b|a b c r IH] using triple_ind; [reflexivity|destruct a; reflexivity|destruct a, b; reflexivity|].
  rewrite pad3_cons. cbn [bit_windows]. now rewrite IH.
Qed.
Lemma pad3_len bs : (length (pad3 bs) mod 3 = 0)%nat.
Proof.
  unfold pad3. rewrite app_length, repeat_length. pose proof (Nat.mod_upper_bound (length bs) 3 ltac:(lia)).
  rewrite Nat.add_mod by lia. assert (H1 : (length bs mod 3 = 0 \/ length bs mod 3 = 1 \/ length bs mod 3 = 2)%nat) by lia. destruct H1 as [-> |[-> | ->]]; reflexivity.
Qed.
Lemma windows_len bs : (length bs mod 3 = 0)%nat -> (length bs = 3 * length (bit_windows bs))%nat.
Proof.
  induction bs as [|a|a b|a b c r IH] using triple_ind; intros H; [reflexivity|discriminate H|discriminate H|].
  cbn [length bit_windows] in *. assert (HM : (length r mod 3 = 0)%nat); [|pose proof (IH HM); lia].
  change (S (S (S (length r)))) with (3 + length r)%nat in H. replace (3 + length r)%nat with (length r + 1 * 3)%nat in H by lia. now rewrite Nat.mod_add in H.
Qed.
(** the windows of one base point *)
Fixpoint seg (k : nat) (ws : list Z) : Z :=
  match k, ws with S k', w :: r => wval w + 16 * seg k' r | _, _ => 0 end.
Lemma seg_bits : forall k bs, (length bs mod 3 = 0)%nat -> seg k (bit_windows bs) = segment_val k bs.
Proof.
  induction k as [|k IH]; intros bs H; [reflexivity|]. destruct bs as [|a [|b [|c r]]]; try discriminate H; [reflexivity|].
  cbn [bit_windows seg segment_val]. rewrite wval_bits, IH; [reflexivity|].
  cbn [length] in H. change (S (S (S (length r)))) with (3 + length r)%nat in H. replace (3 + length r)%nat with (length r + 1 * 3)%nat in H by lia. now rewrite Nat.mod_add in H.
Qed.
Lemma windows_skip : forall k bs, (length bs mod 3 = 0)%nat -> skipn k (bit_windows bs) = bit_windows (skipn (3 * k) bs).
Proof.
  induction k as [|k IH]; intros bs H; [reflexivity|]. replace (3 * S k)%nat with (S (S (S (3 * k)))) by lia.
  destruct bs as [|a [|b [|c r]]]; try discriminate H; [reflexivity|]. cbn [bit_windows skipn]. apply IH.
  cbn [length] in H. change (S (S (S (length r)))) with (3 + length r)%nat in H. replace (3 + length r)%nat with (length r + 1 * 3)%nat in H by lia. now rewrite Nat.mod_add in H.
Qed.
Lemma skip_len k (bs : list bool) : (length bs mod 3 = 0)%nat -> (length (skipn (3 * k) bs) mod 3 = 0)%nat.
Proof.
  intros H. rewrite skipn_length. destruct (Nat.le_gt_cases (3 * k) (length bs)) as [L|L].
  - replace (length bs) with ((length bs - 3 * k) + k * 3)%nat in H by lia. now rewrite Nat.mod_add in H.
  - now replace (length bs - 3 * k)%nat with 0%nat by lia.
Qed.
Lemma wsum_seg B : (forall q, on_curve (B q)) -> forall k m q ws, (m + k = 62)%nat ->
  wsum B (62 * q + m) ws = padd (pzmul (16 ^ Z.of_nat m * seg k ws) (B q)) (wsum B (62 * S q) (skipn k ws)).
Proof.
  intros HB. induction k as [|k IH]; intros m q ws Hm.
  - cbn [seg skipn]. rewrite Z.mul_0_r. change (pzmul 0 (B q)) with pzero. rewrite padd_0_l. f_equal. lia.
  - destruct ws as [|w r]; [cbn [wsum seg skipn]; rewrite Z.mul_0_r; change (pzmul 0 (B q)) with pzero; now rewrite padd_0_l|].
    cbn [wsum seg skipn].
    assert (M : ((62 * q + m) mod 62 = m)%nat) by (rewrite Nat.add_comm, Nat.mul_comm, Nat.mod_add by lia; apply Nat.mod_small; lia).
    assert (D : ((62 * q + m) / 62 = q)%nat) by (rewrite Nat.add_comm, Nat.mul_comm, Nat.div_add by lia; rewrite Nat.div_small by lia; reflexivity).
    rewrite M, D. replace (S (62 * q + m)) with (62 * q + S m)%nat by lia. rewrite IH by lia.
    rewrite <- padd_assoc; [|apply pzmul_on, HB|apply pzmul_on, HB|now apply wsum_on].
    f_equal. rewrite <- pzmul_add by apply HB. f_equal. rewrite Nat2Z.inj_succ, Z.pow_succ_r by lia. ring.
Qed.
Lemma wsum_nil B : forall j, wsum B j [] = pzero.
Proof. reflexivity. Qed.
Lemma wsum_sum : forall bases q B bs, (forall i, on_curve (B i)) -> (forall i, (i < length bases)%nat -> B (q + i)%nat = nth i bases pzero) ->
  (length bs mod 3 = 0)%nat -> (length bs <= 186 * length bases)%nat -> wsum B (62 * q) (bit_windows bs) = pedersen_sum bases bs.
Proof.
  induction bases as [|b bases IH]; intros q B bs HB HE HM HL.
  - cbn [length] in HL. destruct bs; [reflexivity|cbn in HL; lia].
  - cbn [pedersen_sum]. replace (62 * q)%nat with (62 * q + 0)%nat by lia. rewrite (wsum_seg B HB 62 0 q) by reflexivity.
    change (16 ^ Z.of_nat 0) with 1. rewrite Z.mul_1_l, seg_bits by assumption. f_equal.
    + f_equal. specialize (HE 0%nat). rewrite Nat.add_0_r in HE. apply HE. cbn. lia.
    + rewrite windows_skip by assumption. change (3 * 62)%nat with 186%nat. apply IH; auto.
      * intros i Hi. replace (S q + i)%nat with (q + S i)%nat by lia. rewrite HE by (cbn; lia). reflexivity.
      * change 186%nat with (3 * 62)%nat. now apply skip_len.
      * rewrite skipn_length. cbn [length] in HL. lia.
Qed.
