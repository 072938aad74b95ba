(** Lemmas about the Merkle gadgets. *)
From Coq Require Import List ZArith Bool Arith Lia.
From Verif Require Import Primes Field Base R1CS R1CSFacts Gadget P_Bits M_Mimc Spec_Mimc P_Mimc M_Merkle Spec_Merkle.
Import ListNotations.
Local Open Scope F_scope.

Lemma selector_sound input path r n s :
  let g := fst (selector_new input path r n) in
  sat s (selector_constraints g) ->
  s (sl_left g) = (F1 - s r) * s input + s r * s path /\
  s (sl_right g) = s r * s input + (F1 - s r) * s path.
Proof.
  cbn zeta. unfold selector_new, selector_constraints.
  cbn [fst sl_input sl_path sl_right_bit sl_left_a sl_left_b sl_left sl_right_a sl_right_b sl_right].
  rewrite !sat_cons. unfold holds, L1. cbn [cA cB cC ev]. intros (E1 & E2 & E3 & E4 & E5 & E6 & _).
  rewrite <- E3, <- E6, <- E1, <- E2, <- E4, <- E5. split; ring.
Qed.

Lemma selector_scope input path r n :
  let g := fst (selector_new input path r n) in
  cs_all (fun v => v = input \/ v = path \/ v = r \/ n <= v < n + 6)%nat (selector_constraints g).
Proof.
  cbn zeta. unfold selector_new, selector_constraints.
  cbn [fst sl_input sl_path sl_right_bit sl_left_a sl_left_b sl_left sl_right_a sl_right_b sl_right].
  scope; lia.
Qed.

Lemma selector_complete input path r n s : (input < n)%nat -> (path < n)%nat -> (r < n)%nat ->
  let g := fst (selector_new input path r n) in
  frame n (n + 6) s (selector_witness g s) /\ sat (selector_witness g s) (selector_constraints g).
Proof.
  intros Hi Hp Hr. cbn zeta. unfold selector_new, selector_constraints, selector_witness.
  cbn [fst sl_input sl_path sl_right_bit sl_left_a sl_left_b sl_left sl_right_a sl_right_b sl_right].
  split; [intros v Hv; rewrite !upd_other by lia; reflexivity|].
  rewrite !sat_cons. unfold holds, L1. cbn [cA cB cC ev].
  repeat (rewrite ?upd_same; rewrite ?upd_other by lia).
  repeat split; try ring; constructor.
Qed.

Lemma selector_ok input path r n : (input < n)%nat -> (path < n)%nat -> (r < n)%nat ->
  let g := fst (selector_new input path r n) in
  gadget_ok n (n + 6) (selector_constraints g) (fun s => Ok (selector_witness g s)) (fun _ => True)
    (fun s => s (sl_left g) = (F1 - s r) * s input + s r * s path /\
              s (sl_right g) = s r * s input + (F1 - s r) * s path).
Proof.
  intros Hi Hp Hr g. constructor.
  - lia.
  - apply stable_true.
  - eapply cs_all_impl; [|apply selector_scope]. cbn. intros; lia.
  - intros s _. apply selector_sound.
  - intros s _. eexists. split; [reflexivity|]. now apply selector_complete.
Qed.

(** contract of HashT *)
Definition hash_ok (H : hash_ops) (h : F -> list F -> F) : Prop :=
  forall iv ms n, ms <> [] -> (iv < n)%nat -> (forall m, In m ms -> m < n)%nat ->
    exists g n' r cs, hg_new H iv ms n = (g, n') /\ hg_result H g = Ok r /\ hg_constraints H g = Ok cs /\
      (n <= r < n')%nat /\
      gadget_ok n n' cs (hg_witness H g) (fun _ => True) (fun s => s r = h (s iv) (map s ms)).

Lemma mimc_hash_ok O e C : round_ok O e -> C <> [] ->
  hash_ok (mimc_hash_ops O C) (mp_spec (mimc_spec e C)).
Proof. intros HO HC iv ms n H1 H2 H3. exact (mp_ok O e HO C HC iv ms n H1 H2 H3). Qed.

Section Path.
  Variables (H : hash_ops) (h : F -> list F -> F).
  Hypothesis HH : hash_ok H h.

  (** what the path gadget computes for arbitrary (even non-boolean) address values *)
  Definition sel_l (r inp p : F) : F := (F1 - r) * inp + r * p.
  Definition sel_r (r inp p : F) : F := r * inp + (F1 - r) * p.
  Fixpoint path_val (ivs path addr : list F) (leaf : F) : F :=
    match ivs, path, addr with
    | iv :: ivs', p :: path', r :: addr' => path_val ivs' path' addr' (h iv [sel_l r leaf p; sel_r r leaf p])
    | _, _, _ => leaf
    end.

  Lemma path_val_bits ivs path bits leaf :
    path_val ivs path (map b2F bits) leaf = merkle_spec h ivs path bits leaf.
  Proof.
    revert path bits leaf. induction ivs as [|iv ivs IH]; intros [|p path] [|b bits] leaf; try reflexivity.
    cbn [map path_val merkle_spec]. rewrite IH. f_equal. unfold sel_l, sel_r.
    destruct b; cbn [b2F]; f_equal; f_equal; try ring; f_equal; ring.
  Qed.

  Definition below (n : nat) (l : list nat) : Prop := forall v, In v l -> (v < n)%nat.

  Lemma skipn_cons {A} (l : list A) i x l' : skipn i l = x :: l' -> idx l i = Ok x /\ skipn (S i) l = l'.
  Proof.
    revert i. induction l as [|y l IH]; intros [|i] E; cbn in E; try discriminate.
    - injection E as -> ->. split; reflexivity.
    - destruct (IH i E) as [H1 H2]. split; [|exact H2]. unfold idx in *. cbn [nth_error]. exact H1.
  Qed.

  Lemma mpc_loop_ok addr IVs path : forall d i A I P inp n,
    skipn i addr = A -> skipn i IVs = I -> skipn i path = P ->
    (0 < d)%nat -> length A = d -> (d <= length I)%nat -> (d <= length P)%nat ->
    below n A -> below n I -> below n P -> (inp < n)%nat ->
    exists l n' cs r, mpc_loop H d i addr IVs path inp n = Ok (l, n') /\ length l = d /\
      mpc_constraints_l H l = Ok cs /\ mpc_result H {| mpc_levels := l |} = Ok r /\ (n <= r < n')%nat /\
      gadget_ok n n' cs (mpc_witness_l H l) (fun _ => True)
        (fun s => s r = path_val (map s I) (map s P) (map s A) (s inp)).
  Proof.
    induction d as [|d IH]; intros i A I P inp n HA HI HP Hd LA LI LP BA BI BP Hinp; [lia|].
    destruct A as [|a A]; [discriminate|]. destruct I as [|iv I]; [cbn in LI; lia|].
    destruct P as [|p P]; [cbn in LP; lia|].
    destruct (skipn_cons _ _ _ _ HA) as [Ea SA]. destruct (skipn_cons _ _ _ _ HI) as [Ei SI].
    destruct (skipn_cons _ _ _ _ HP) as [Ep SP].
    cbn [mpc_loop]. rewrite Ea, Ep. cbn [obind].
    assert (Ha : (a < n)%nat) by (apply BA; now left).
    assert (Hiv : (iv < n)%nat) by (apply BI; now left).
    assert (Hp : (p < n)%nat) by (apply BP; now left).
    pose proof (selector_ok inp p a n Hinp Hp Ha) as Hsel. cbn zeta in Hsel.
    destruct (selector_new inp p a n) as [sel n1] eqn:Es. cbn [fst] in Hsel.
    assert (n1 = n + 6)%nat as -> by (inversion Es; reflexivity).
    assert (HL : (sl_left sel = n + 2 /\ sl_right sel = n + 5)%nat) by (inversion Es; split; reflexivity).
    rewrite Ei. cbn [obind].
    destruct (HH iv [sl_left sel; sl_right sel] (n + 6)%nat) as (g & n2 & r & cs & Hg & Hr & Hcs & Hrn & Hok).
    { discriminate. } { lia. } { cbn [In]. intros m Hm. lia. }
    rewrite Hg.
    assert (Hstep : gadget_ok n n2 (selector_constraints sel ++ cs)
       (fun s => hg_witness H g (selector_witness sel s)) (fun _ => True)
       (fun s => s r = h (s iv) [sel_l (s a) (s inp) (s p); sel_r (s a) (s inp) (s p)])).
    { eapply gadget_ext; [eapply gadget_seq; [exact Hsel|exact Hok|tauto|]|reflexivity].
      intros s _ [E1 E2] E. rewrite E. cbn [map]. rewrite E1, E2. reflexivity. }
    destruct d as [|d].
    - exists [(sel, g)], n2, (selector_constraints sel ++ cs ++ []), r.
      split; [reflexivity|]. split; [reflexivity|].
      cbn [mpc_constraints_l mpc_witness_l]. rewrite Hcs. cbn [obind]. split; [reflexivity|].
      split; [exact Hr|]. split; [pose proof (go_le _ _ _ _ _ _ Hsel); lia|].
      destruct A; [|discriminate]. rewrite app_nil_r.
      eapply gadget_ext; [eapply gadget_weaken; [exact Hstep|apply stable_true|tauto|]|].
      + cbn beta. intros s _ E. cbn [map path_val]. rewrite E. destruct I, P; reflexivity.
      + intros s. destruct (hg_witness H g (selector_witness sel s)); reflexivity.
    - rewrite Hr. cbn [obind].
      pose proof (go_le _ _ _ _ _ _ Hsel). pose proof (go_le _ _ _ _ _ _ Hok).
      destruct (IH (S i) A I P r n2 SA SI SP) as (l & n' & cs' & r' & Hl & Hlen & Hcs' & Hr' & Hrn' & Hok').
      { lia. } { now injection LA. } { cbn in LI; lia. } { cbn in LP; lia. }
      { intros v Hv. specialize (BA v (or_intror Hv)). lia. }
      { intros v Hv. specialize (BI v (or_intror Hv)). lia. }
      { intros v Hv. specialize (BP v (or_intror Hv)). lia. }
      { lia. }
      rewrite Hl. cbn [obind]. exists ((sel, g) :: l), n', (selector_constraints sel ++ cs ++ cs'), r'.
      split; [reflexivity|]. split; [cbn; now rewrite Hlen|].
      cbn [mpc_constraints_l mpc_witness_l]. rewrite Hcs, Hcs'. cbn [obind]. split; [reflexivity|].
      split.
      { unfold mpc_result in *. cbn [mpc_levels] in *. destruct l as [|x l]; [discriminate|].
        cbn [length Nat.ltb Nat.leb oassert obind] in *. rewrite (back_last _ x) in Hr' by discriminate.
        rewrite (back_last _ x) by discriminate. exact Hr'. }
      split; [lia|]. rewrite app_assoc.
      eapply gadget_ext; [eapply gadget_seq; [exact Hstep|exact Hok'|tauto|]|reflexivity].
      cbn beta. intros s _ E1 E2. rewrite E2, E1. reflexivity.
  Qed.

  Lemma mpc_ok depth addr IVs leaf path n :
    (0 < depth)%nat -> length addr = depth -> (depth <= length IVs)%nat -> (depth <= length path)%nat ->
    below n addr -> below n IVs -> below n path -> (leaf < n)%nat ->
    exists g n' cs r, mpc_new H depth addr IVs leaf path n = Ok (g, n') /\
      mpc_constraints H g = Ok cs /\ mpc_result H g = Ok r /\ (n <= r < n')%nat /\
      gadget_ok n n' cs (mpc_witness H g) (fun _ => True)
        (fun s => s r = path_val (map s IVs) (map s path) (map s addr) (s leaf)).
  Proof.
    intros Hd LA LI LP BA BI BP Hl. unfold mpc_new.
    rewrite (proj2 (Nat.ltb_lt _ _) Hd), (proj2 (Nat.eqb_eq _ _) LA), (proj2 (Nat.leb_le _ _) LI).
    cbn [oassert obind].
    destruct (mpc_loop_ok addr IVs path depth 0 addr IVs path leaf n eq_refl eq_refl eq_refl Hd LA LI LP BA BI BP Hl)
      as (l & n' & cs & r & H1 & H2 & H3 & H4 & H5 & H6).
    rewrite H1. cbn [obind]. exists {| mpc_levels := l |}, n', cs, r.
    split; [reflexivity|]. split; [exact H3|]. split; [exact H4|]. split; [exact H5|exact H6].
  Qed.
End Path.

Lemma bits_below_path n addr (s s' : assign) : below n addr -> (forall v, v < n -> s' v = s v)%nat ->
  map s' addr = map s addr.
Proof. intros B E. apply map_ext_in. intros v Hv. apply E, B, Hv. Qed.
