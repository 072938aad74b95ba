(** Lemmas for C131: programs with any number of forward jumps. *)
From Coq Require Import List ZArith Bool Lia Arith.
From Verif Require Import Base M_Evm P_PyPoint M_PyEvmasm Spec_PyEvmasm P_PyEvmasm Q_PyEvmasm.
Import ListNotations.
Local Open Scope nat_scope.
Local Open Scope Z_scope.

Lemma item_len p1 p2 i : length (item_bytes p1 i) = length (item_bytes p2 i).
Proof. destruct i as [c|v|t|c [t|]|t]; reflexivity. Qed.
Lemma items_len p1 p2 l : length (flat_map (item_bytes p1) l) = length (flat_map (item_bytes p2) l).
Proof. induction l as [|i l IH]; [reflexivity|]. cbn [flat_map]. now rewrite !app_length, IH, (item_len p1 p2). Qed.
Definition size (l : list item) : nat := length (flat_map (item_bytes (fun _ => 0%nat)) l).
Lemma size_eq p l : length (flat_map (item_bytes p) l) = size l.
Proof. apply items_len. Qed.
Lemma size_app a b : size (a ++ b) = (size a + size b)%nat.
Proof. unfold size. now rewrite flat_map_app, app_length. Qed.
Fixpoint jumps_of (base : nat) (l : list item) : list (nat * nat) :=
  match l with
  | [] => []
  | i :: r => match i with Ijump _ (Some t) | Ipushlabel t => [(t, base)] | _ => [] end ++ jumps_of (base + size [i]) r
  end.
Lemma jumps_of_app : forall a b base, jumps_of base (a ++ b) = jumps_of base a ++ jumps_of (base + size a) b.
Proof.
  induction a as [|i a IH]; intros b base; cbn [jumps_of app]; [now rewrite Nat.add_0_r|]. rewrite IH, <- app_assoc. do 3 f_equal. change (i :: a) with ([i] ++ a). rewrite size_app. lia.
Qed.
Lemma patch_items off pos1 pos2 t : (forall t', t' <> t -> pos2 t' = pos1 t') -> be_bytes 3 (Z.of_nat (pos2 t)) = off ->
  forall l pre, fold_left (patch off) (map snd (filter (fun j => (fst j =? t)%nat) (jumps_of (length pre) l))) (pre ++ flat_map (item_bytes pos1) l) = pre ++ flat_map (item_bytes pos2) l.
Proof.
  intros H1 H2. induction l as [|i l IH]; intros pre; [reflexivity|]. cbn [jumps_of flat_map].
  assert (SAME : item_bytes pos1 i = item_bytes pos2 i -> filter (fun j => (fst j =? t)%nat) (match i with Ijump _ (Some t) | Ipushlabel t => [(t, length pre)] | _ => [] end) = [] ->
    fold_left (patch off) (map snd (filter (fun j => (fst j =? t)%nat) (match i with Ijump _ (Some t) | Ipushlabel t => [(t, length pre)] | _ => [] end ++ jumps_of (length pre + size [i]) l))) (pre ++ item_bytes pos1 i ++ flat_map (item_bytes pos1) l) =
    pre ++ item_bytes pos2 i ++ flat_map (item_bytes pos2) l).
  { intros S1 S2. rewrite filter_app, S2. cbn [app]. rewrite S1, !app_assoc. replace (length pre + size [i])%nat with (length (pre ++ item_bytes pos2 i)); [apply IH|]. rewrite app_length. f_equal. rewrite <- (size_eq pos2). cbn [flat_map]. now rewrite app_nil_r. }
  destruct i as [c|v|t'|c [t'|]|t']; try (apply SAME; reflexivity).
  * destruct (Nat.eqb_spec t' t) as [->|N].
    { cbn [filter app fst]. rewrite Nat.eqb_refl. cbn [map snd fold_left]. clear SAME.
      replace (patch off (pre ++ item_bytes pos1 (Ijump c (Some t)) ++ flat_map (item_bytes pos1) l) (length pre)) with ((pre ++ item_bytes pos2 (Ijump c (Some t))) ++ flat_map (item_bytes pos1) l).
      + replace (length pre + size [Ijump c (Some t)])%nat with (length (pre ++ item_bytes pos2 (Ijump c (Some t)))) by (rewrite app_length; reflexivity). rewrite IH. now rewrite <- app_assoc.
      + cbn [item_bytes]. rewrite H2. unfold patch. rewrite firstn_app, skipn_app, firstn_all2, skipn_all2 by lia. replace (length pre + 1 - length pre)%nat with 1%nat by lia. replace (length pre + 4 - length pre)%nat with 4%nat by lia.
        cbn [firstn be_bytes app skipn]. rewrite <- !app_assoc. cbn [app]. rewrite <- ?app_assoc. reflexivity. }
    apply SAME.
    { cbn [item_bytes]. now rewrite (H1 t' N). }
    cbn [filter fst]. destruct (Nat.eqb_spec t' t); [contradiction|reflexivity].
  * destruct (Nat.eqb_spec t' t) as [->|N].
    { cbn [filter app fst]. rewrite Nat.eqb_refl. cbn [map snd fold_left]. clear SAME.
      replace (patch off (pre ++ item_bytes pos1 (Ipushlabel t) ++ flat_map (item_bytes pos1) l) (length pre)) with ((pre ++ item_bytes pos2 (Ipushlabel t)) ++ flat_map (item_bytes pos1) l).
      + replace (length pre + size [Ipushlabel t])%nat with (length (pre ++ item_bytes pos2 (Ipushlabel t))) by (rewrite app_length; reflexivity). rewrite IH. now rewrite <- app_assoc.
      + cbn [item_bytes]. rewrite H2. unfold patch. rewrite firstn_app, skipn_app, firstn_all2, skipn_all2 by lia. replace (length pre + 1 - length pre)%nat with 1%nat by lia. replace (length pre + 4 - length pre)%nat with 4%nat by lia.
        cbn [firstn be_bytes app skipn]. rewrite <- !app_assoc. cbn [app]. rewrite <- ?app_assoc. reflexivity. }
    apply SAME.
    { cbn [item_bytes]. now rewrite (H1 t' N). }
    cbn [filter fst]. destruct (Nat.eqb_spec t' t); [contradiction|reflexivity].
Qed.
Definition rho (g : codegen) (t : nat) : nat := match lookup t (cg_labels g) with Some o => o | None => 0%nat end.
Definition undef (g : codegen) (t : nat) : bool := match lookup t (cg_labels g) with Some _ => false | None => true end.
Record inv (A : list item) (g : codegen) (P D : list nat) : Prop := {
  i_code : cg_code g = flat_map (item_bytes (rho g)) A;
  i_jumps : cg_jumps g = filter (fun j => undef g (fst j)) (jumps_of 0 A);
  i_labels : forall A1 t A2, A = A1 ++ Ilabel t :: A2 -> lookup t (cg_labels g) = Some (size A1);
  i_D : forall t, lookup t (cg_labels g) = None <-> ~ In t D;
  i_P : forall t, In t P <-> In t (map fst (cg_jumps g)) }.
Lemma snoc_split (A : list item) i A1 x A2 : A ++ [i] = A1 ++ x :: A2 -> (exists A2', A = A1 ++ x :: A2') \/ (A = A1 /\ i = x).
Proof.
  destruct A2 as [|y A2 _] using rev_ind; intros E.
  - right. now apply app_inj_tail in E.
  - left. rewrite app_comm_cons, app_assoc in E. apply app_inj_tail in E. exists A2. exact (proj1 E).
Qed.
(** one instruction that is not a label *)
Lemma inv_step A g P D i P' bs js : inv A g P D -> (forall t, i <> Ilabel t) ->
  item_bytes (rho g) i = bs -> filter (fun j => undef g (fst j)) (jumps_of (size A) [i]) = js -> (forall t, In t P' <-> In t P \/ In t (map fst js)) ->
  inv (A ++ [i]) (mkcg (cg_code g ++ bs) (cg_labels g) (cg_jumps g ++ js)) P' D.
Proof.
  intros [C J L HD HP] NL B JS HP'. split; cbn [cg_code cg_labels cg_jumps].
  - rewrite flat_map_app. cbn [flat_map]. rewrite app_nil_r, C, <- B. reflexivity.
  - rewrite jumps_of_app, filter_app. cbn [Nat.add]. rewrite J, <- JS. reflexivity.
  - intros A1 t A2 E. destruct (snoc_split _ _ _ _ _ E) as [[A2' E']|[_ E']]; [now apply (L A1 t A2')|]. now apply NL in E'.
  - exact HD.
  - intros t. rewrite map_app, in_app_iff, HP', HP. reflexivity.
Qed.
Lemma forward_gen : forall items A g P D, inv A g P D -> forward P D items -> Z.of_nat (size (A ++ items)) < 2 ^ 24 ->
  exists g' D', append_all g items = Ok g' /\ inv (A ++ items) g' [] D'.
Proof.
  induction items as [|i items IH]; intros A g P D I F S.
  - cbn [forward] in F. subst P. exists g, D. rewrite app_nil_r. now split.
  - replace (A ++ i :: items) with ((A ++ [i]) ++ items) in * by (rewrite <- app_assoc; reflexivity). cbn [append_all].
    assert (SA : Z.of_nat (size A) < 2 ^ 24) by (rewrite !size_app in S; lia).
    destruct i as [c|v|t|c [t|]|t]; cbn [forward] in F.
    + cbn [append obind]. rewrite <- (app_nil_r (cg_jumps g)). apply (IH _ _ P D); [|tauto|exact S]. apply (inv_step A g P D); try reflexivity; [exact I|discriminate|cbn; tauto].
    + cbn [append]. rewrite (proj2 (push_ok_iff v) (proj1 F)). cbn [obind]. rewrite <- (app_nil_r (cg_jumps g)). apply (IH _ _ P D); [|tauto|exact S]. apply (inv_step A g P D); try reflexivity; [exact I|discriminate|cbn; tauto].
    + destruct F as (F1 & F2 & F3). cbn [append]. pose proof (proj2 (i_D _ _ _ _ I t) F2) as LN. rewrite LN.
      assert (FE : filter (fun j => (fst j =? t)%nat) (cg_jumps g) = filter (fun j => (fst j =? t)%nat) (jumps_of 0 A)).
      { rewrite (i_jumps _ _ _ _ I). induction (jumps_of 0 A) as [|[x y] l IHl]; [reflexivity|]. cbn [filter fst]. destruct (Nat.eqb_spec x t) as [->|N].
        - unfold undef at 1. rewrite LN. cbn [filter fst]. rewrite Nat.eqb_refl. now rewrite IHl.
        - destruct (undef g x); [cbn [filter fst]; destruct (Nat.eqb_spec x t); [contradiction|]|]; exact IHl. }
      rewrite FE. destruct (filter (fun j => (fst j =? t)%nat) (jumps_of 0 A)) as [|j0 js] eqn:EJ.
      { exfalso. apply (i_P _ _ _ _ I) in F1. apply in_map_iff in F1. destruct F1 as ([x y] & X1 & X2). cbn [fst] in X1. subst x.
        assert (In (t, y) (filter (fun j => (fst j =? t)%nat) (cg_jumps g))) by (apply filter_In; split; [exact X2|apply Nat.eqb_refl]). rewrite FE in H. exact H. }
      rewrite <- EJ. assert (LC : length (cg_code g) = size A) by (rewrite (i_code _ _ _ _ I); apply size_eq). rewrite LC.
      unfold encode_offset. destruct (Z.leb_spec 0 (Z.of_nat (size A))); [|lia]. destruct (Z.ltb_spec (Z.of_nat (size A)) (2 ^ 24)); [|lia]. cbn [andb obind].
      set (g1 := mkcg _ _ _). apply (IH _ g1 (remove Nat.eq_dec t P) (t :: D)); [|exact F3|exact S].
      assert (LK : forall t', lookup t' (cg_labels g1) = if (t =? t')%nat then Some (size A) else lookup t' (cg_labels g)).
      { intros t'. unfold g1, lookup. cbn [cg_labels find fst snd]. now destruct (t =? t')%nat. }
      split.
      * unfold g1 at 1. cbn [cg_code]. rewrite flat_map_app. cbn [flat_map item_bytes]. rewrite app_nil_r. apply (f_equal (fun z => z ++ [91])). rewrite (i_code _ _ _ _ I).
        apply (patch_items (be_bytes 3 (Z.of_nat (size A))) (rho g) (rho g1) t) with (pre := []).
        -- intros t' N. unfold rho. rewrite LK. destruct (Nat.eqb_spec t t'); [congruence|reflexivity].
        -- unfold rho. rewrite LK, Nat.eqb_refl. reflexivity.
      * unfold g1 at 1. cbn [cg_jumps]. rewrite jumps_of_app, filter_app. cbn [jumps_of app filter]. rewrite app_nil_r, (i_jumps _ _ _ _ I).
        assert (UE : forall x, undef g1 x = if (t =? x)%nat then false else undef g x) by (intros x; unfold undef; rewrite LK; now destruct (t =? x)%nat).
        generalize (jumps_of 0 A). intros l. induction l as [|[x y] l IHl]; [reflexivity|]. cbn [filter fst]. rewrite UE. destruct (Nat.eqb_spec t x) as [<-|N].
        -- unfold undef at 1. rewrite LN. cbn [filter fst]. rewrite Nat.eqb_refl. cbn [negb]. exact IHl.
        -- destruct (undef g x); [|exact IHl]. cbn [filter fst]. destruct (Nat.eqb_spec x t); [congruence|]. cbn [negb]. now rewrite IHl.
      * intros A1 t' A2 E. rewrite LK. destruct (snoc_split _ _ _ _ _ E) as [[A2' E']|[<- E']].
        -- pose proof (i_labels _ _ _ _ I A1 t' A2' E') as L1. destruct (Nat.eqb_spec t t') as [->|]; [congruence|exact L1].
        -- injection E' as <-. now rewrite Nat.eqb_refl.
      * intros t'. rewrite LK. cbn [In]. destruct (Nat.eqb_spec t t') as [->|N]; [split; [discriminate|tauto]|]. rewrite (i_D _ _ _ _ I). tauto.
      * intros t'. unfold g1. cbn [cg_jumps]. split; intros X.
        -- apply in_remove in X. destruct X as [X N]. apply (i_P _ _ _ _ I) in X. apply in_map_iff in X. destruct X as ([x y] & X1 & X2). cbn [fst] in X1. subst x. apply in_map_iff. exists (t', y). split; [reflexivity|]. apply filter_In. split; [exact X2|]. cbn [fst]. destruct (Nat.eqb_spec t' t); [congruence|reflexivity].
        -- apply in_map_iff in X. destruct X as ([x y] & X1 & X2). cbn [fst] in X1. subst x. apply filter_In in X2. destruct X2 as [X2 X3]. cbn [fst] in X3. apply in_in_remove; [intros ->; now rewrite Nat.eqb_refl in X3|]. apply (i_P _ _ _ _ I). apply in_map_iff. now exists (t', y).
    + destruct F as (F1 & F2 & F3). cbn [append]. pose proof (proj2 (i_D _ _ _ _ I t) F2) as LN. rewrite LN. cbn [obind].
      assert (LC : length (cg_code g) = size A) by (rewrite (i_code _ _ _ _ I); apply size_eq). rewrite LC. apply (IH _ _ (t :: P) D); [|exact F3|exact S].
      apply (inv_step A g P D); [exact I|discriminate| | |].
      * cbn [item_bytes]. unfold rho. rewrite LN. reflexivity.
      * cbn [jumps_of app filter fst]. unfold undef. rewrite LN. reflexivity.
      * intros t'. cbn [map fst In]. tauto.
    + cbn [append obind]. rewrite <- (app_nil_r (cg_jumps g)). apply (IH _ _ P D); [|tauto|exact S]. apply (inv_step A g P D); try reflexivity; [exact I|discriminate|cbn; tauto].
    + destruct F as (F2 & F3). cbn [append]. pose proof (proj2 (i_D _ _ _ _ I t) F2) as LN. rewrite LN. cbn [obind].
      assert (LC : length (cg_code g) = size A) by (rewrite (i_code _ _ _ _ I); apply size_eq). rewrite LC. apply (IH _ _ (t :: P) D); [|exact F3|exact S].
      apply (inv_step A g P D); [exact I|discriminate| | |].
      * cbn [item_bytes]. unfold rho. rewrite LN. reflexivity.
      * cbn [jumps_of app filter fst]. unfold undef. rewrite LN. reflexivity.
      * intros t'. cbn [map fst In]. tauto.
Qed.
Lemma is_dest_prefix pos : forall A l t P D B, forward P D (A ++ B) -> is_dest 0 (flat_map (item_bytes pos) A ++ l) (size A + t) = is_dest 0 l t.
Proof.
  induction A as [|i A IH]; intros l t P D B F; [reflexivity|]. change (i :: A) with ([i] ++ A). rewrite size_app. cbn [flat_map app] in *. rewrite <- app_assoc, <- Nat.add_assoc.
  destruct i as [c|v|t'|c [t'|]|t']; cbn [forward] in F; cbn [item_bytes].
  - change (size [Iop c]) with 1%nat. cbn [app Nat.add is_dest]. rewrite push_bytes_0 by apply F. now apply (IH l t P D B).
  - unfold size at 1. cbn [flat_map item_bytes]. rewrite app_nil_r. unfold push_data. cbn [length app Nat.add is_dest]. rewrite push_bytes_push by (apply push_width_ok; apply F). rewrite <- (be_bytes_len (push_width v) v) at 1. rewrite is_dest_skip. now apply (IH l t P D B).
  - change (size [Ilabel t']) with 1%nat. cbn [app Nat.add is_dest]. change (push_bytes 91) with 0%nat. now apply (IH l t (remove Nat.eq_dec t' P) (t' :: D) B).
  - change (size [Ijump c (Some t')]) with 5%nat. cbn [app]. rewrite <- app_assoc. rewrite is_dest_push3 by apply be_bytes_len. cbn [app Nat.add is_dest]. rewrite push_bytes_0 by apply F. now apply (IH l t (t' :: P) D B).
  - change (size [Ijump c None]) with 1%nat. cbn [app Nat.add is_dest]. rewrite push_bytes_0 by apply F. now apply (IH l t P D B).
  - change (size [Ipushlabel t']) with 4%nat. cbn [app Nat.add is_dest]. change (push_bytes 98) with (length (be_bytes 3 (Z.of_nat (pos t')))). change (S (S (S (size A + t)))) with (length (be_bytes 3 (Z.of_nat (pos t'))) + (size A + t))%nat. rewrite is_dest_skip. now apply (IH l t (t' :: P) D B).
Qed.
Lemma forward_program_lemma : forall items, forward [] [] items -> Z.of_nat (length (flat_map (item_bytes (fun _ => 0%nat)) items)) < 2 ^ 24 ->
  exists g pos, append_all cg_new items = Ok g /\ cg_jumps g = [] /\ cg_code g = flat_map (item_bytes pos) items /\
    forall A t B, items = A ++ Ilabel t :: B -> pos t = length (flat_map (item_bytes pos) A) /\ valid_dest (cg_code g) (Z.of_nat (pos t)) = true /\
      skipn (pos t) (cg_code g) = 0x5b :: flat_map (item_bytes pos) B.
Proof.
  intros items F S. destruct (forward_gen items [] cg_new [] []) as (g & D' & E & I); [|exact F|exact S|].
  { split; [reflexivity|reflexivity| | |]; cbn [cg_new cg_labels cg_jumps map In]; [|cbn; tauto|tauto]. intros A1 t A2 X. now destruct A1. }
  cbn [app] in I. exists g, (rho g). repeat split.
  - exact E.
  - pose proof (i_P _ _ _ _ I) as HP. destruct (cg_jumps g) as [|[x y] l]; [reflexivity|]. exfalso. apply (HP x). now left.
  - apply I.
  - unfold rho. rewrite (i_labels _ _ _ _ I A t B H), size_eq. reflexivity.
  - unfold rho. rewrite (i_labels _ _ _ _ I A t B H). unfold valid_dest. rewrite Nat2Z.id. rewrite (i_code _ _ _ _ I). rewrite H. rewrite flat_map_app.
    rewrite H in F. rewrite <- (Nat.add_0_r (size A)) at 3. rewrite (is_dest_prefix _ A _ 0 [] [] (Ilabel t :: B) F). cbn [flat_map item_bytes app is_dest].
    rewrite app_length, size_eq. cbn [length]. rewrite andb_true_iff, andb_true_iff, Z.leb_le, Z.ltb_lt. repeat split; lia.
  - unfold rho at 1. rewrite (i_labels _ _ _ _ I A t B H). rewrite (i_code _ _ _ _ I). rewrite H at 1. rewrite flat_map_app, skipn_app, size_eq, Nat.sub_diag, skipn_all2 by (rewrite size_eq; lia). reflexivity.
Qed.
(** ** a label cannot be defined twice *)
Lemma append_labels g i g' : append g i = Ok g' -> forall t, lookup t (cg_labels g) <> None -> lookup t (cg_labels g') <> None.
Proof.
  assert (X : forall n o, forall t, lookup t (cg_labels g) <> None -> lookup t ((n, o) :: cg_labels g) <> None).
  { intros n o t H. unfold lookup in *. cbn [find fst]. destruct (n =? t)%nat; [discriminate|exact H]. }
  destruct i as [c|v|t|c [t|]|t]; cbn [append].
  - intros E. injection E as <-. auto.
  - destruct (push_ok v); [|discriminate]. intros E. injection E as <-. auto.
  - destruct (lookup t (cg_labels g)); [discriminate|]. destruct (filter _ _).
    + intros E. injection E as <-. cbn [cg_labels]. apply X.
    + destruct (encode_offset _); cbn [obind]; try discriminate. intros E. injection E as <-. cbn [cg_labels]. apply X.
  - destruct (lookup t (cg_labels g)); [destruct (encode_offset _); cbn [obind]; try discriminate|]; intros E; injection E as <-; auto.
  - intros E. injection E as <-. auto.
  - destruct (lookup t (cg_labels g)); [destruct (encode_offset _); cbn [obind]; try discriminate|]; intros E; injection E as <-; auto.
Qed.
Lemma append_all_labels t : forall l g g', append_all g l = Ok g' -> lookup t (cg_labels g) <> None -> lookup t (cg_labels g') <> None.
Proof.
  induction l as [|i l IH]; intros g g' E H; cbn [append_all] in E; [now injection E as <-|]. destruct (append g i) eqn:A; cbn [obind] in E; try discriminate. apply (IH _ _ E). exact (append_labels _ _ _ A t H).
Qed.
Lemma append_label_def g t g' : append g (Ilabel t) = Ok g' -> lookup t (cg_labels g) = None /\ lookup t (cg_labels g') <> None.
Proof.
  cbn [append]. destruct (lookup t (cg_labels g)); [discriminate|]. intros E. split; [reflexivity|].
  assert (L : cg_labels g' = (t, length (cg_code g)) :: cg_labels g). { destruct (filter _ _); [now injection E as <-|]. destruct (encode_offset _); cbn [obind] in E; try discriminate. now injection E as <-. }
  rewrite L. unfold lookup. cbn [find fst]. rewrite Nat.eqb_refl. discriminate.
Qed.
Lemma redefine_lemma : forall A B C t g, append_all cg_new (A ++ Ilabel t :: B ++ Ilabel t :: C) <> Ok g.
Proof.
  intros A B C t g. rewrite append_all_app. destruct (append_all cg_new A) as [g1| | | |]; cbn [obind append_all]; try discriminate. destruct (append g1 (Ilabel t)) as [g2| | | |] eqn:E2; cbn [obind]; try discriminate. apply append_label_def in E2.
  rewrite append_all_app. destruct (append_all g2 B) as [g3| | | |] eqn:E3; cbn [obind append_all]; try discriminate. destruct (append g3 (Ilabel t)) as [g4| | | |] eqn:E4; cbn [obind]; try discriminate. apply append_label_def in E4.
  exfalso. exact (append_all_labels t _ _ _ E3 (proj2 E2) (proj1 E4)).
Qed.
