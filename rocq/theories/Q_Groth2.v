(** Concrete runs of the Groth16 model. *)
From Coq Require Import List ZArith Bool Arith Lia.
From Verif Require Import Primes Field Base R1CS R1CSFacts M_Point M_Groth Spec_Groth P_Groth P_Groth2 P_Groth3 Q_Groth.
Import ListNotations.
Local Open Scope nat_scope.
Local Open Scope F_scope.

Definition pts (l : list Z) : list F := map Fof l.
Lemma NoDup_pts : forall l, NoDup (map (fun z => (z mod p_mod)%Z) l) -> NoDup (pts l).
Proof.
  intros l H. apply (NoDup_map_inv fval). unfold pts. rewrite map_map.
  rewrite (map_ext _ (fun z => (z mod p_mod)%Z)); [exact H|]. intros z. apply fval_Fof.
Qed.
Lemma notin_pts : forall l l', (forall z, In z l -> ~ In (z mod p_mod)%Z (map (fun z => (z mod p_mod)%Z) l')) ->
  forall x, In x (pts l) -> ~ In x (pts l').
Proof.
  intros l l' H x Hx Hx'. apply in_map_iff in Hx. destruct Hx as [z [<- Hz]]. apply (H z Hz).
  apply in_map_iff in Hx'. destruct Hx' as [z' [E Hz']]. apply in_map_iff. exists z'. split; [|exact Hz'].
  rewrite <- !fval_Fof, E. reflexivity.
Qed.
Ltac nodup_small := apply NoDup_pts; vm_compute; repeat constructor; cbn [In]; intuition discriminate.

(** points 0,1,2 and coset 3,4,5 *)
Definition dom3 : domain := Domain (pts [0; 1; 2]%Z) (pts [3; 4; 5]%Z).
Lemma dom3_ok : domain_ok dom3 3.
Proof.
  split; [cbn; lia|]. split; [nodup_small|]. split; [nodup_small|]. split; [reflexivity|].
  apply notin_pts. intros z Hz. apply Forall_forall with (x := z) (2 := Hz) (P := fun z => ~ In (z mod p_mod)%Z _).
  repeat constructor; vm_compute; intuition discriminate.
Qed.
(** x*x = y with x public *)
Definition sq_system : csystem := CSys 1 1 [R1 (V 1) (V 1) (V 2)].
Lemma sq_satisfied : satisfies sq_system [Fof 2] [Fof 4].
Proof.
  split; [reflexivity|]. split; [reflexivity|]. constructor; [|constructor]. unfold holds. cbn [cA cB cC ev nth app].
  rewrite <- Fof_mul. reflexivity.
Qed.
Lemma sq_declared : declared sq_system.
Proof. constructor; [|constructor]. repeat split; cbn; lia. Qed.
Definition toxic1 : toxic expE := Toxic expE (Fof 7) (Fof 11) (Fof 13) (Fof 17) (Fof 19) (Fof 23) (Fof 29).
Ltac fnz := intros K; apply (f_equal fval) in K; vm_compute in K; discriminate K.
Lemma sq_run : forall r s, exists pk vk pf, generator expE dom3 sq_system toxic1 = Ok (pk, vk) /\
  prover expE true dom3 pk [Fof 2] [Fof 4] r s = Ok pf /\ verifier_strong_IC expE vk [Fof 2] pf = Ok true.
Proof.
  intros r s. destruct (generator_total expE dom3 sq_system toxic1 sq_declared) as [pk [vk G]]; [fnz|fnz|].
  destruct (generator_inv _ _ _ _ _ _ G) as [_ [_ [q [_ [Hpk _]]]]].
  assert (Ecs : pk_cs expE pk = sq_system) by (rewrite Hpk; reflexivity).
  destruct (prover_abort_iff expE true dom3 sq_system toxic1 pk vk [Fof 2] [Fof 4] r s
      (pts [2; -2; 1]%Z) (pts [2; -3; 1]%Z) dom3_ok) as [_ P].
  - cbn. lia.
  - apply sq_satisfied.
  - exact G.
  - rewrite Ecs. split; [reflexivity|]. intros i Hi. cbn in Hi. destruct i as [|[|[|i]]]; [| | |lia]; apply fval_inj; vm_compute; reflexivity.
  - rewrite Ecs. split; [reflexivity|]. intros i Hi. cbn in Hi. destruct i as [|[|[|i]]]; [| | |lia]; apply fval_inj; vm_compute; reflexivity.
  - destruct P as [pf P]; [fnz|fnz|]. exists pk, vk, pf. split; [exact G|]. split; [exact P|].
    apply (groth_complete expE _ _ true dom3 sq_system toxic1 pk vk [Fof 2] [Fof 4] r s pf expE_laws I I dom3_ok sq_satisfied G P).
Qed.

(** a violated system whose prover run does not abort when the library's check is off *)
Definition dom4 : domain := Domain (pts [0; 1; 2; 3]%Z) (pts [4; 5; 6; 7]%Z).
Lemma dom4_ok : domain_ok dom4 4.
Proof.
  split; [cbn; lia|]. split; [nodup_small|]. split; [nodup_small|]. split; [reflexivity|].
  apply notin_pts. intros z Hz. apply Forall_forall with (x := z) (2 := Hz) (P := fun z => ~ In (z mod p_mod)%Z _).
  repeat constructor; vm_compute; intuition discriminate.
Qed.
Definition bad_system : csystem := CSys 1 0
  [R1 (V 1) (LScale (Fof 6) (V 1)) (LScale (Fof 5046) (V 1)); R1 (LScale (Fof 3) (V 1)) (LScale (Fof 4) (V 1)) (LScale (Fof 732) (V 1))].
Lemma bad_unsat : ~ satisfies bad_system [F1] [].
Proof.
  intros [_ [_ H]]. apply Forall_inv in H. unfold holds in H. apply (f_equal fval) in H. vm_compute in H. discriminate H.
Qed.
Lemma bad_polys : 
  interpolate (dm_points dom4) (wit_A bad_system [F1]) = pts [1; 6; -5; 1]%Z /\
  interpolate (dm_points dom4) (wit_B bad_system [F1]) = pts [6; 1; -4; 1]%Z /\
  interpolate (dm_points dom4) (wit_C bad_system [F1]) = pts [5046; -7055; 3216; -475]%Z.
Proof.
  assert (N : NoDup (dm_points dom4)) by apply dom4_ok.
  assert (G : forall vals p, length p = 4%nat -> (forall i, i < 4 -> peval p (nth i (dm_points dom4) F0) = nth i vals F0) ->
    interpolate (dm_points dom4) vals = p).
  { intros vals p Lp H. apply (agree_eq (dm_points dom4)); [exact N|apply interpolate_length|exact Lp|].
    intros x Hx. apply (In_nth _ _ F0) in Hx. destruct Hx as [i [Li <-]]. rewrite interpolate_at by assumption.
    symmetry. apply H. exact Li. }
  split; [|split]; apply G; try reflexivity; intros i Hi; destruct i as [|[|[|[|i]]]]; try lia;
    apply fval_inj; vm_compute; reflexivity.
Qed.
Lemma bad_H : Hco dom4 bad_system [F1] = pts [156; -24; 2; 0]%Z.
Proof.
  destruct bad_polys as [EA [EB EC]]. unfold Hco. rewrite EA, EB, EC.
  assert (N : NoDup (dm_coset dom4)) by apply dom4_ok.
  apply (agree_eq (dm_coset dom4)); [exact N|apply interpolate_length|reflexivity|].
  intros x Hx. apply (In_nth _ _ F0) in Hx. destruct Hx as [i [Li <-]]. rewrite interpolate_at by assumption.
  set (f := fun x : F => (peval (pts [1; 6; -5; 1]%Z) x * peval (pts [6; 1; -4; 1]%Z) x - peval (pts [5046; -7055; 3216; -475]%Z) x) * Finv (vanish (dm_points dom4) x)).
  rewrite (nth_indep _ F0 (f F0)) by (rewrite map_length; exact Li).
  rewrite (map_nth f). unfold f. set (x := nth i (dm_coset dom4) F0).
  assert (Z : vanish (dm_points dom4) x <> F0).
  { apply vanish_nz. apply dom4_ok. unfold x. apply nth_In. exact Li. }
  transitivity (vanish (dm_points dom4) x * peval (pts [156; -24; 2; 0]%Z) x * Finv (vanish (dm_points dom4) x)).
  - f_equal. cbn in Li. unfold x. clear - Li. destruct i as [|[|[|[|i]]]]; [| | | |lia]; apply fval_inj; vm_compute; reflexivity.
  - transitivity (peval (pts [156; -24; 2; 0]%Z) x * (vanish (dm_points dom4) x * Finv (vanish (dm_points dom4) x))); [ring|]. rewrite Finv_r by exact Z. ring.
Qed.
Definition toxic2 : toxic expE := Toxic expE (Fof 4) (Fof 11) (Fof 13) (Fof 17) (Fof 19) (Fof 23) (Fof 29).
Lemma prover_unchecked : forall E d r1cs x pk vk primary aux r s,
  domain_ok d (length (cs_constraints r1cs) + cs_inputs r1cs + 1) -> 2 <= dm_m d ->
  length primary = cs_inputs r1cs -> length aux = cs_aux r1cs -> generator E d r1cs x = Ok (pk, vk) ->
  nth (dm_m d - 2) (Hco d (swap_AB r1cs) (primary ++ aux)) F0 <> F0 -> nth (dm_m d - 1) (Hco d (swap_AB r1cs) (primary ++ aux)) F0 = F0 ->
  exists pf, prover E false d pk primary aux r s = Ok pf.
Proof.
  intros E d r1cs x pk vk primary aux r s Hdom Hm Lp0 Lx0 Hgen N2 N1.
  destruct (generator_inv _ _ _ _ _ _ Hgen) as [Hg [Hd [q [Q [Hpk Hvk]]]]].
  pose proof (swap_facts r1cs) as SF. set (cs := swap_AB r1cs) in *. destruct SF as [SF1 [SF2 _]].
  assert (Lp : length primary = cs_inputs cs) by congruence. assert (Lx : length aux = cs_aux cs) by congruence.
  destruct (qap_shape _ _ _ _ Q) as [La [Lb [Lc [_ [Hz Hb]]]]].
  assert (Dc : length (dm_coset d) = length (dm_points d)) by apply Hdom.
  assert (Lz : length (primary ++ aux) = cs_vars cs) by (unfold cs_vars; rewrite app_length; lia).
  unfold prover. replace (pk_cs E pk) with cs by (rewrite Hpk; reflexivity).
  unfold qap_H, is_satisfied. rewrite Lp, Nat.eqb_refl. cbn [oassert obind]. rewrite <- Lp, <- app_length, Lz, Nat.eqb_refl. cbn [oassert obind negb orb].
  change (interpolate (dm_coset d) _) with (Hco d cs (primary ++ aux)).
  pose proof (Hco_length d cs (primary ++ aux) Dc) as LH.
  set (H := Hco d cs (primary ++ aux) ++ [F0]).
  assert (LH2 : length H = S (dm_m d)) by (unfold H; rewrite app_length, LH; cbn [length]; lia).
  destruct (Nat.ltb_spec (dm_m d) 2) as [|_]; [lia|].
  rewrite (idx_nth H (dm_m d - 2)) by lia. cbn [obind].
  replace (nth (dm_m d - 2) H F0) with (nth (dm_m d - 2) (Hco d cs (primary ++ aux)) F0) by (symmetry; apply app_nth1; lia).
  destruct (Feqb_spec (nth (dm_m d - 2) (Hco d cs (primary ++ aux)) F0) F0) as [|_]; [contradiction|]. cbn [negb oassert obind].
  rewrite (idx_nth H (dm_m d - 1)) by lia. cbn [obind].
  replace (nth (dm_m d - 1) H F0) with F0 by (unfold H; rewrite app_nth1 by lia; symmetry; exact N1). rewrite Feqb_refl. cbn [oassert obind].
  rewrite (idx_nth H (dm_m d)) by lia. cbn [obind].
  replace (nth (dm_m d) H F0) with F0 by (unfold H; rewrite app_nth2 by lia; rewrite LH, Nat.sub_diag; reflexivity). rewrite Feqb_refl. cbn [oassert obind].
  rewrite (range_all (pk_A_query E pk)) by (rewrite Hpk; cbn [pk_A_query]; rewrite map_length; lia). cbn [obind].
  rewrite (range_all (F1 :: primary ++ aux)) by (cbn [length]; lia). cbn [obind].
  rewrite (range_all (pk_B_query E pk)) by (rewrite Hpk; cbn [pk_B_query]; rewrite map_length; lia). cbn [obind].
  rewrite (range_all (pk_H_query E pk)) by (rewrite Hpk; cbn [pk_H_query]; rewrite map_length, powers_length; lia). cbn [obind].
  rewrite (range_front H) by lia. cbn [obind].
  rewrite (range_skip (F1 :: primary ++ aux)) by (cbn [length]; unfold cs_vars in *; lia). cbn [obind].
  eexists. reflexivity.
Qed.
Lemma bad_run : forall r s, exists pk vk pf, generator expE dom4 bad_system toxic2 = Ok (pk, vk) /\
  prover expE false dom4 pk [F1] [] r s = Ok pf /\ verifier_strong_IC expE vk [F1] pf = Ok true.
Proof.
  intros r s. destruct (generator_total expE dom4 bad_system toxic2) as [pk [vk G]]; [|fnz|fnz|].
  { repeat constructor; cbn; lia. }
  destruct (prover_unchecked expE dom4 bad_system toxic2 pk vk [F1] [] r s dom4_ok) as [pf P].
  - cbn. lia.
  - reflexivity.
  - reflexivity.
  - exact G.
  - change (swap_AB bad_system) with bad_system. cbn [app]. rewrite bad_H. fnz.
  - change (swap_AB bad_system) with bad_system. cbn [app]. rewrite bad_H. apply fval_inj; vm_compute; reflexivity.
  - exists pk, vk, pf. split; [exact G|]. split; [exact P|].
    destruct (run_strong expE _ _ expE_laws false dom4 bad_system toxic2 pk vk [F1] [] r s pf dom4_ok I I G P) as [v [Ev [Hv _]]].
    rewrite Ev. f_equal. apply Hv. change (swap_AB bad_system) with bad_system. cbn [app]. rewrite bad_H.
    destruct bad_polys as [-> [-> ->]]. apply fval_inj; vm_compute; reflexivity.
Qed.
(** the statements of the property file *)
Lemma groth_refuted :
  exists cs primary aux, declared cs /\ satisfies cs primary aux /\
    forall E check d x r s, domain_ok d (length (cs_constraints cs) + cs_inputs cs + 1) ->
      tx_gamma E x <> F0 -> tx_delta E x <> F0 ->
      exists pk vk, generator E d cs x = Ok (pk, vk) /\ prover E check d pk primary aux r s = Abort.
Proof.
  exists xy_system, [F0], [F0]. split.
  { constructor; [|constructor]. repeat split; cbn; lia. }
  split.
  { split; [reflexivity|]. split; [reflexivity|]. cbn [xy_system cs_constraints]. constructor; [|constructor].
    unfold holds. cbn [cA cB cC ev nth app]. unfold L0. cbn [ev]. ring. }
  intros E check d x r s D Hg Hd.
  destruct (generator_total E d xy_system x) as [pk [vk G]]; [|exact Hg|exact Hd|].
  { constructor; [|constructor]. repeat split; cbn; lia. }
  exists pk, vk. split; [exact G|]. apply (xy_aborts E check d x pk vk r s D G).
Qed.

Lemma affine_agrees : forall E S1 S2, pairing_laws E S1 S2 -> forall vk input pf,
  affine_verifier_weak_IC E vk input pf = verifier_weak_IC E vk input pf.
Proof. exact affine_weak. Qed.
