(** Lemmas about the lookup gadgets and IsNonZero. *)
From Coq Require Import List ZArith Bool Arith Lia.
From Verif Require Import Field Base R1CS R1CSFacts M_Lookup.
Import ListNotations.
Local Open Scope F_scope.

(** ** Specification: the selected table entry *)
Definition bitnat (b : bool) : nat := if b then 1 else 0.
Definition sel1 (b : bool) : nat := bitnat b.
Definition sel2 (b0 b1 : bool) : nat := bitnat b0 + 2 * bitnat b1.
Definition sel3 (b0 b1 b2 : bool) : nat := bitnat b0 + 2 * bitnat b1 + 4 * bitnat b2.

(** length-indexed destruction of constant tables *)
Lemma len2 {A} (l : list A) : Nat.eqb (length l) 2 = true -> exists a b, l = [a; b].
Proof. destruct l as [|a [|b [|? ?]]]; try discriminate; eauto. Qed.
Lemma len3 {A} (l : list A) : Nat.eqb (length l) 3 = true -> exists a b c, l = [a; b; c].
Proof. destruct l as [|a [|b [|c [|? ?]]]]; try discriminate; eauto. Qed.
Lemma len4 {A} (l : list A) : Nat.eqb (length l) 4 = true -> exists a b c d, l = [a; b; c; d].
Proof. destruct l as [|a [|b [|c [|d [|? ?]]]]]; try discriminate; eauto. Qed.
Lemma len8 {A} (l : list A) : Nat.eqb (length l) 8 = true ->
  exists a b c d e f g h, l = [a; b; c; d; e; f; g; h].
Proof.
  destruct l as [|a [|b [|c [|d [|e [|f [|g [|h [|? ?]]]]]]]]]; try discriminate.
  intros _. now exists a, b, c, d, e, f, g, h.
Qed.

Ltac oinv H :=
  match type of H with
  | Ok _ = Ok _ => injection H as H; subst
  | obind _ _ = Ok _ =>
      let a := fresh "a" in let H1 := fresh "Ho" in let H2 := fresh "Ho" in
      apply obind_ok in H; destruct H as (a & H1 & H2); oinv H1; oinv H2
  | oassert _ = Ok ?x => destruct x; apply oassert_ok in H
  | _ => idtac
  end.

Lemma as_ulong_small z : (0 <= z < 2 ^ 64)%Z -> as_ulong (Fof z) = z.
Proof.
  intros H. unfold as_ulong. rewrite fval_Fof_small.
  - now apply Z.mod_small.
  - split; [lia|]. apply Z.lt_trans with (2 ^ 64)%Z; [lia|reflexivity].
Qed.

Lemma b2F_Fof b : b2F b = Fof (b2Z b).
Proof. symmetry. apply Fof_b2Z. Qed.

(** [idxZ] on in-range literals *)
Lemma idxZ_ok {A} (l : list A) i a : nth_error l i = Some a -> idxZ l (Z.of_nat i) = Ok a.
Proof.
  intros H. unfold idxZ.
  assert (i < length l)%nat by (apply nth_error_Some; congruence).
  destruct (Z.ltb_spec (Z.of_nat i) (Z.of_nat (length l))); [|lia].
  rewrite Nat2Z.id. now apply idx_ok.
Qed.

Lemma idxZ_oob {A} (l : list A) i : (Z.of_nat (length l) <= i)%Z -> idxZ l i = UB.
Proof. intros H. unfold idxZ. destruct (Z.ltb_spec i (Z.of_nat (length l))); [lia|reflexivity]. Qed.

(** value read by [get_field_element_from_bits] on boolean variables *)
Fixpoint natbits (bs : list bool) : Z :=
  match bs with
  | [] => 0
  | b :: bs' => b2Z b + 2 * natbits bs'
  end%Z.

Lemma field_from_bits_ok s vs bs : map s vs = map b2F bs ->
  field_from_bits s vs = Ok (Fof (natbits bs)).
Proof.
  revert bs. induction vs as [|v vs IH]; intros [|b bs] H; try discriminate.
  - reflexivity.
  - cbn in H. injection H as Hv Hvs. cbn [field_from_bits]. rewrite (IH bs Hvs). cbn [obind].
    rewrite Hv. replace (Feqb (b2F b) F0 || Feqb (b2F b) F1) with true.
    + cbn [oassert obind natbits]. f_equal. rewrite Fof_add, Fof_mul, Fof_b2Z. ring.
    + symmetry. apply orb_true_iff. destruct b; [right|left]; apply Feqb_refl.
Qed.

Lemma field_from_bits_abort s vs : (exists v, In v vs /\ ~ isbit (s v)) ->
  field_from_bits s vs = Abort.
Proof.
  induction vs as [|v vs IH]; intros (w & Hin & Hw); [destruct Hin|].
  cbn [field_from_bits].
  assert (Hd : (exists u, In u vs /\ ~ isbit (s u)) \/ forall u, In u vs -> isbit (s u)).
  { clear IH Hin. induction vs as [|u vs IHv]; [right; intros ? []|].
    destruct IHv as [(x & H1 & H2)|H].
    - left. exists x. split; [now right|assumption].
    - destruct (Feq_dec (s u) F0) as [E|E]; [|destruct (Feq_dec (s u) F1) as [E'|E']].
      + right. intros y [<-|Hy]; [now left|auto].
      + right. intros y [<-|Hy]; [now right|auto].
      + left. exists u. split; [now left|]. intros [?|?]; contradiction. }
  destruct Hd as [Hd|Hd].
  - rewrite IH by assumption. reflexivity.
  - assert (w = v) as -> by (destruct Hin as [?|Hin]; [congruence|exfalso; auto]).
    assert (exists bs, map s vs = map b2F bs) as [bs Hbs].
    { clear - Hd. induction vs as [|u vs IHv]; [now exists []|].
      destruct IHv as [bs Hbs]; [intros; apply Hd; now right|].
      destruct (isbit_ex (s u)) as [b Hb]; [apply Hd; now left|].
      exists (b :: bs). cbn. congruence. }
    rewrite (field_from_bits_ok s vs bs Hbs). cbn [obind].
    replace (Feqb (s v) F0 || Feqb (s v) F1) with false; [reflexivity|].
    symmetry. apply orb_false_iff. split.
    + destruct (Feqb_spec (s v) F0); [exfalso; apply Hw; now left|reflexivity].
    + destruct (Feqb_spec (s v) F1); [exfalso; apply Hw; now right|reflexivity].
Qed.

Lemma eq_sym_iff {A} (x y : A) : x = y <-> y = x.
Proof. split; congruence. Qed.

Lemma Some_inj_iff {A} (x y : A) : Some x = Some y <-> x = y.
Proof. split; congruence. Qed.

(** *** lookup 1 *)
Lemma lookup1_sat c b n g n' : lookup1_new c b n = Ok (g, n') ->
  exists cs, lookup1_constraints g = Ok cs /\ n' = S n /\
    cs_all (fun v => v = b \/ v = n) cs /\
    forall s bit, s b = b2F bit -> (sat s cs <-> nth_error c (sel1 bit) = Some (s (lookup1_result g))).
Proof.
  unfold lookup1_new. intros H. apply obind_ok in H. destruct H as (u & H1 & H2).
  destruct u. apply oassert_ok in H1. injection H2 as <- <-.
  apply len2 in H1. destruct H1 as (c0 & c1 & ->).
  eexists. split; [reflexivity|]. split; [reflexivity|]. split.
  { unfold term, boolean_c. scope. }
  intros s bit Hb. rewrite sat_cons. unfold holds. cbn. rewrite Hb.
  destruct bit; cbn; rewrite Some_inj_iff; split; intros Hs.
  - destruct Hs as [<- _]. ring.
  - split; [rewrite <- Hs; ring|constructor].
  - destruct Hs as [<- _]. ring.
  - split; [rewrite <- Hs; ring|constructor].
Qed.

Lemma as_ulong_b2F b : as_ulong (b2F b) = b2Z b.
Proof. rewrite b2F_Fof. apply as_ulong_small. destruct b; cbn; lia. Qed.

Lemma lookup1_witness_ok c b n g n' s bit : lookup1_new c b n = Ok (g, n') -> s b = b2F bit ->
  exists x, nth_error c (sel1 bit) = Some x /\ lookup1_witness g s = Ok (upd s n x).
Proof.
  unfold lookup1_new. intros H Hb. apply obind_ok in H. destruct H as (u & H1 & H2).
  destruct u. apply oassert_ok in H1. injection H2 as <- <-.
  apply len2 in H1. destruct H1 as (c0 & c1 & ->).
  unfold lookup1_witness. cbn [lk1_c lk1_b lk1_r]. rewrite Hb, as_ulong_b2F.
  destruct bit; eexists; split; reflexivity.
Qed.

Lemma lookup1_witness_oob c b n g n' s : lookup1_new c b n = Ok (g, n') ->
  (2 <= as_ulong (s b))%Z -> lookup1_witness g s = UB.
Proof.
  unfold lookup1_new. intros H Hb. apply obind_ok in H. destruct H as (u & H1 & H2).
  destruct u. apply oassert_ok in H1. injection H2 as <- <-.
  apply len2 in H1. destruct H1 as (c0 & c1 & ->).
  unfold lookup1_witness. cbn [lk1_c lk1_b lk1_r]. rewrite idxZ_oob; [reflexivity|exact Hb].
Qed.

(** *** lookup 2 *)
Lemma lookup2_fn_sat c b0 b1 r : length c = 4%nat ->
  exists cs, lookup2_constraints_fn c [b0; b1] r = Ok cs /\
    (forall P : var -> Prop, P b0 -> P b1 -> lc_all P r -> cs_all P cs) /\
    forall s x0 x1, s b0 = b2F x0 -> s b1 = b2F x1 ->
      (sat s cs <-> nth_error c (sel2 x0 x1) = Some (ev s r)).
Proof.
  intros Hc. apply Nat.eqb_eq in Hc. apply len4 in Hc. destruct Hc as (c0 & c1 & c2 & c3 & ->).
  eexists. split; [reflexivity|]. split.
  { intros P Pb0 Pb1 Pr. unfold term. scope. }
  intros s x0 x1 H0 H1. rewrite sat_cons. unfold holds. cbn. rewrite H0, H1.
  assert (Hr : forall l k, l = - c0 + ev s r + k -> ev s r = l + c0 - k).
  { intros l k E. rewrite E. ring. }
  destruct x0, x1; cbn; rewrite Some_inj_iff; (split; intros Hs;
    [destruct Hs as [Hs _]; apply Hr in Hs; rewrite Hs; ring
    |split; [rewrite <- Hs; ring|constructor]]).
Qed.

Lemma lookup2_witness_ok c b0 b1 n g n' s x0 x1 : lookup2_new c [b0; b1] n = Ok (g, n') ->
  s b0 = b2F x0 -> s b1 = b2F x1 ->
  exists x, nth_error c (sel2 x0 x1) = Some x /\ lookup2_witness g s = Ok (upd s n x).
Proof.
  unfold lookup2_new. intros H H0 H1. apply obind_ok in H. destruct H as (u & Hc & H2).
  destruct u. apply oassert_ok in Hc. injection H2 as <- <-.
  apply len4 in Hc. destruct Hc as (c0 & c1 & c2 & c3 & ->).
  unfold lookup2_witness. cbn [lk2_c lk2_b lk2_r].
  rewrite (field_from_bits_ok s [b0; b1] [x0; x1]) by (cbn; congruence).
  cbn [obind natbits]. rewrite as_ulong_small by (destruct x0, x1; cbn; lia).
  destruct x0, x1; eexists; split; reflexivity.
Qed.

Lemma lookup2_witness_abort c b n g n' s : lookup2_new c b n = Ok (g, n') ->
  (exists v, In v b /\ ~ isbit (s v)) -> lookup2_witness g s = Abort.
Proof.
  unfold lookup2_new. intros H Hb. apply obind_ok in H. destruct H as (u & Hc & H2).
  injection H2 as <- <-. unfold lookup2_witness. cbn [lk2_b].
  now rewrite field_from_bits_abort.
Qed.

(** *** lookup 3 *)
Lemma lookup3_sat c b0 b1 b2 n g n' : lookup3_new c [b0; b1; b2] n = Ok (g, n') ->
  exists cs, lookup3_constraints g = Ok cs /\ n' = (n + 5)%nat /\
   (forall P : var -> Prop, P b0 -> P b1 -> P b2 -> (forall v, n <= v < n + 5 -> P v)%nat -> cs_all P cs) /\
   forall s x0 x1 x2, s b0 = b2F x0 -> s b1 = b2F x1 -> s b2 = b2F x2 ->
     (sat s cs <-> nth_error c (sel3 x0 x1 x2) = Some (s n) /\
                   s (n + 1)%nat = b2F (x0 && x1) /\ s (n + 2)%nat = b2F (x0 && x2) /\
                   s (n + 3)%nat = b2F (x1 && x2) /\ s (n + 4)%nat = b2F (x0 && x1 && x2)).
Proof.
  unfold lookup3_new. intros H. apply obind_ok in H. destruct H as (u & Hc & H2).
  destruct u. apply oassert_ok in Hc. injection H2 as <- <-.
  apply len8 in Hc. destruct Hc as (c0 & c1 & c2 & c3 & c4 & c5 & c6 & c7 & ->).
  eexists. split; [reflexivity|]. split; [reflexivity|]. split.
  { intros P P0 P1 P2 Pn. unfold term. cbn [lk3_r lk3_p01 lk3_p02 lk3_p12 lk3_p012]. scope; apply Pn; lia. }
  intros s x0 x1 x2 H0 H1 H2. rewrite !sat_cons. unfold holds. cbn. rewrite H0, H1, H2.
  split.
  - intros (E1 & E2 & E3 & E4 & E5 & _).
    rewrite <- E4 in E5. rewrite <- E1, <- E2, <- E3 in E5. rewrite <- E5, <- E4, <- E3, <- E2, <- E1.
    destruct x0, x1, x2; cbn; rewrite Some_inj_iff; repeat split; ring.
  - intros (E & E1 & E2 & E3 & E4). rewrite E1, E2, E3, E4.
    assert (Hn : forall x, Some x = Some (s n) -> x = s n) by (intros; congruence).
    destruct x0, x1, x2; cbn in *; apply Hn in E; rewrite <- E; repeat split; try ring; constructor.
Qed.

Lemma upd5 s n v a b c d : (v < n)%nat ->
  upd (upd (upd (upd s (n + 1)%nat a) (n + 2)%nat b) (n + 3)%nat c) (n + 4)%nat d v = s v.
Proof. intros H. rewrite !upd_other by lia. reflexivity. Qed.

Lemma lookup3_witness_ok c b0 b1 b2 n g n' s x0 x1 x2 :
  lookup3_new c [b0; b1; b2] n = Ok (g, n') -> (b0 < n)%nat -> (b1 < n)%nat -> (b2 < n)%nat ->
  s b0 = b2F x0 -> s b1 = b2F x1 -> s b2 = b2F x2 ->
  exists s' cs, lookup3_witness g s = Ok s' /\ lookup3_constraints g = Ok cs /\
    sat s' cs /\ frame n n' s s' /\ nth_error c (sel3 x0 x1 x2) = Some (s' n).
Proof.
  intros H L0 L1' L2 H0 H1 H2.
  destruct (lookup3_sat _ _ _ _ _ _ _ H) as (cs & Hcs & -> & _ & Hsat).
  unfold lookup3_new in H. apply obind_ok in H. destruct H as (u & Hc & Hg).
  destruct u. apply oassert_ok in Hc. injection Hg as <-.
  apply len8 in Hc. destruct Hc as (c0 & c1 & c2 & c3 & c4 & c5 & c6 & c7 & ->).
  unfold lookup3_witness. cbn [lk3_c lk3_b lk3_r lk3_p01 lk3_p02 lk3_p12 lk3_p012].
  cbn [idx nth_error obind].
  rewrite (field_from_bits_ok _ [b0; b1; b2] [x0; x1; x2])
    by (cbn [map]; rewrite !upd5 by lia; congruence).
  cbn [obind natbits]. rewrite as_ulong_small by (destruct x0, x1, x2; cbn; lia).
  match goal with |- context[idxZ ?l ?i] => 
    assert (exists x, nth_error l (sel3 x0 x1 x2) = Some x /\ idxZ l i = Ok x) as (x & Hx & ->) end.
  { destruct x0, x1, x2; eexists; split; reflexivity. }
  cbn [obind]. eexists. exists cs. split; [reflexivity|]. split; [exact Hcs|].
  assert (HS : forall v, (v < n)%nat -> upd (upd (upd (upd (upd s (n + 1)%nat (s b0 * s b1)) (n + 2)%nat (s b0 * s b2))
       (n + 3)%nat (s b1 * s b2)) (n + 4)%nat (s b0 * s b1 * s b2)) n x v = s v).
  { intros v Hv. rewrite upd_other by lia. now apply upd5. }
  split; [|split].
  - apply (Hsat _ x0 x1 x2); rewrite ?HS by lia; try assumption.
    rewrite upd_same. split; [exact Hx|].
    rewrite H0, H1, H2. repeat split.
    + rewrite !(upd_other _ _ _ (n + 1)%nat) by lia. rewrite upd_same. destruct x0, x1; cbn; ring.
    + rewrite !(upd_other _ _ _ (n + 2)%nat) by lia. rewrite upd_same. destruct x0, x2; cbn; ring.
    + rewrite !(upd_other _ _ _ (n + 3)%nat) by lia. rewrite upd_same. destruct x1, x2; cbn; ring.
    + rewrite (upd_other _ _ _ (n + 4)%nat) by lia. rewrite upd_same. destruct x0, x1, x2; cbn; ring.
  - intros v Hv. rewrite !upd_other by lia. reflexivity.
  - rewrite upd_same. exact Hx.
Qed.

(** *** signed lookup *)
Definition signed (neg : bool) (x : F) : F := if neg then - x else x.

Lemma lookups_fn_sat c b0 b1 b2 r m : length c = 4%nat ->
  exists cs, lookups_constraints_fn c [b0; b1; b2] r m = Ok cs /\
   (forall P : var -> Prop, P b0 -> P b1 -> P b2 -> P r -> P m -> cs_all P cs) /\
   forall s x0 x1 x2, s b0 = b2F x0 -> s b1 = b2F x1 -> s b2 = b2F x2 ->
     (sat s cs <-> s m = b2F (x0 && x1) /\
        exists x, nth_error c (sel2 x0 x1) = Some x /\ s r = signed x2 x).
Proof.
  intros Hc. apply Nat.eqb_eq, len4 in Hc. destruct Hc as (c0 & c1 & c2 & c3 & ->).
  eexists. split; [reflexivity|]. split.
  { intros P P0 P1 P2 Pr Pm. unfold term. scope. }
  intros s x0 x1 x2 H0 H1 H2. rewrite !sat_cons. unfold holds. cbn. rewrite H0, H1, H2.
  split.
  - intros (E1 & E2 & _). rewrite <- E1 in *. split; [destruct x0, x1; cbn; ring|].
    assert (Hr : forall y z : F, (y + y) * z = y - s r -> s r = y - (y + y) * z).
    { intros y z E. rewrite E. ring. }
    apply Hr in E2. rewrite E2.
    destruct x0, x1, x2; cbn; (eexists; split; [reflexivity|cbn; ring]).
  - intros (E1 & x & Hx & Hr). rewrite E1, Hr.
    destruct x0, x1, x2; cbn in *; injection Hx as <-; repeat split; try ring; constructor.
Qed.

Lemma lookups_witness_ok c b0 b1 b2 n g n' s x0 x1 x2 :
  lookups_new c [b0; b1; b2] n = Ok (g, n') -> (b0 < n)%nat -> (b1 < n)%nat -> (b2 < n)%nat ->
  s b0 = b2F x0 -> s b1 = b2F x1 -> s b2 = b2F x2 ->
  exists s' cs, lookups_witness g s = Ok s' /\ lookups_constraints g = Ok cs /\
    sat s' cs /\ frame n n' s s' /\ n' = S (S n) /\
    exists x, nth_error c (sel2 x0 x1) = Some x /\ s' (lks_r g) = signed x2 x.
Proof.
  intros H L0 L1' L2 H0 H1 H2.
  unfold lookups_new in H. apply obind_ok in H. destruct H as ([] & Hc & H).
  apply oassert_ok in Hc. cbn [length Nat.eqb oassert obind] in H. injection H as <- <-.
  unfold lookups_constraints. cbn [lks_c lks_b lks_r lks_b0b1].
  destruct (lookups_fn_sat c b0 b1 b2 (S n) n (proj1 (Nat.eqb_eq _ _) Hc)) as (cs & Hcs & _ & Hsat).
  apply len4 in Hc. destruct Hc as (c0 & c1 & c2 & c3 & ->).
  unfold lookups_witness. cbn [lks_c lks_b lks_r lks_b0b1].
  rewrite (field_from_bits_ok _ [b0; b1; b2] [x0; x1; x2]) by (cbn [map]; congruence).
  cbn [obind natbits]. rewrite as_ulong_small by (destruct x0, x1, x2; cbn; lia).
  match goal with |- context[idxZ ?l ?i] => 
    assert (exists x, nth_error l (sel2 x0 x1) = Some x /\ idxZ l i = Ok x) as (x & Hx & ->) end.
  { destruct x0, x1, x2; eexists; split; reflexivity. }
  cbn [obind idx nth_error].
  set (res := if (3 <? _)%Z then _ else _).
  assert (Hres : res = signed x2 x).
  { subst res. destruct x0, x1, x2; cbn [b2Z Z.add Z.mul Z.ltb Z.compare Pos.compare Pos.compare_cont Pos.add Pos.mul signed]; try reflexivity; ring. }
  clearbody res. subst res.
  eexists. exists cs. split; [reflexivity|]. split; [exact Hcs|].
  split; [|split; [|split; [reflexivity|]]].
  - apply (Hsat _ x0 x1 x2); rewrite ?(upd_other _ _ _ b0), ?(upd_other _ _ _ b1), ?(upd_other _ _ _ b2) by lia; try assumption.
    split.
    + rewrite upd_other, upd_same by lia. rewrite H0, H1. destruct x0, x1; cbn; ring.
    + exists x. split; [exact Hx|]. apply upd_same.
  - intros v Hv. rewrite !upd_other by lia. reflexivity.
  - exists x. split; [exact Hx|]. apply upd_same.
Qed.

(** *** IsNonZero *)
Lemma isnonzero_sat x n s :
  let (g, _) := isnonzero_new x n in
  sat s (isnonzero_constraints g) ->
  (s x = F0 /\ s (isnonzero_result g) = F0) \/ (s x <> F0 /\ s (isnonzero_result g) = F1).
Proof.
  cbn. unfold isnonzero_constraints. rewrite !sat_cons, boolean_c_spec. unfold holds. cbn.
  intros (Hb & H1 & H2 & _).
  destruct (Feq_dec (s x) F0) as [E|E].
  - left. split; [exact E|]. rewrite <- H2, E. ring.
  - right. split; [exact E|]. apply Fmul_integral in H1. destruct H1 as [H1|H1]; [contradiction|].
    symmetry. now apply Fsub_eq0.
Qed.

Lemma isnonzero_complete x n s : (x < n)%nat ->
  let (g, n') := isnonzero_new x n in
  let s' := isnonzero_witness g s in
  sat s' (isnonzero_constraints g) /\ frame n n' s s'.
Proof.
  intros Hx. cbn. unfold isnonzero_witness. cbn [inz_X inz_Y inz_M].
  destruct (Feqb_spec (s x) F0) as [E|E]; (split; [|intros v Hv; rewrite !upd_other by lia; reflexivity]);
  unfold isnonzero_constraints; rewrite !sat_cons, boolean_c_spec; unfold holds; cbn -[upd];
  rewrite !upd_same, (upd_other _ n _ (S n)), upd_same, !(upd_other _ _ _ x) by lia.
  - rewrite E. repeat split; try ring; [now left|constructor].
  - repeat split; [now right|ring|now apply Finv_r|constructor].
Qed.

(** for any result value that is right, some multiplier exists *)
Lemma isnonzero_sat_iff x n s : (x < n)%nat ->
  let (g, _) := isnonzero_new x n in
  (exists m, sat (upd s (S n) m) (isnonzero_constraints g)) <->
  s (isnonzero_result g) = (if Feqb (s x) F0 then F0 else F1).
Proof.
  intros Hx. cbn. split.
  - intros [m H]. pose proof (isnonzero_sat x n (upd s (S n) m)) as Hs. cbn -[upd] in Hs.
    specialize (Hs H). rewrite !upd_other in Hs by lia.
    destruct (Feqb_spec (s x) F0); tauto.
  - intros E. exists (if Feqb (s x) F0 then F0 else Finv (s x)).
    unfold isnonzero_constraints. rewrite !sat_cons, boolean_c_spec. unfold holds. cbn -[upd].
    rewrite !upd_same, !(upd_other _ _ _ n), !(upd_other _ _ _ x) by lia. rewrite E.
    destruct (Feqb_spec (s x) F0) as [E0|E0].
    + rewrite E0. repeat split; try ring; [now left|constructor].
    + repeat split; [now right|ring|now apply Finv_r|constructor].
Qed.
