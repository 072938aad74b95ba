(** Lemmas about the model of the Merkle tree contract: insertions, proofs and their verification. *)
From Coq Require Import List ZArith Bool Arith Lia.
From Verif Require Import Field Base M_Evm M_SolMimc M_SolMerkle Spec_SolMerkle P_SolMerkle.
Import ListNotations.
Local Open Scope Z_scope.

Section Tree.
  Variable H : Z -> Z -> Z -> Z.
  Variable sha : list Z -> Z.
  Notation fil := (empty_value sha).
  Notation node := (tnode H (empty_value sha) sol_level_IVs).

  Definition good (ls : list Z) (t : tree) : Prop :=
    t_cur t = Z.of_nat (length ls) /\ stored H sha ls (t_leaves t).

  Lemma good_empty : good [] tree_empty.
  Proof.
    split; [reflexivity|]. intros d i _ Hi. cbn [length]. pose proof (pow2_pos d).
    destruct (Z.ltb_spec (i * 2 ^ Z.of_nat d) (Z.of_nat 0)); [nia|reflexivity].
  Qed.

  Lemma mid_start ls x m : stored H sha ls m -> Z.of_nat (length ls) < MAX_LEAF_COUNT ->
    mid H sha ls x 0 (fun d' i' => if (d' =? 0) && (i' =? Z.of_nat (length ls)) then x else m d' i').
  Proof.
    intros HS Hl d' i Hd Hi. destruct d' as [|d'].
    - change (Z.of_nat 0 =? 0) with true. cbn [andb Nat.leb].
      destruct (Z.eqb_spec i (Z.of_nat (length ls))) as [->|Hne].
      + change (2 ^ Z.of_nat 0) with 1. rewrite app_length, Nat2Z.inj_add. change (Z.of_nat (length [x])) with 1.
        destruct (Z.ltb_spec (Z.of_nat (length ls) * 1) (Z.of_nat (length ls) + 1)) as [E|E]; [|lia].
        cbn [tnode]. rewrite app_length, Nat2Z.inj_add. change (Z.of_nat (length [x])) with 1. change (2 ^ Z.of_nat 0) with 1.
        destruct (Z.ltb_spec (Z.of_nat (length ls) * 1) (Z.of_nat (length ls) + 1)) as [E2|E2]; [|lia].
        rewrite Nat2Z.id, app_nth2 by lia. rewrite Nat.sub_diag. reflexivity.
      + rewrite (HS 0%nat i) by lia. symmetry. apply off_path; [lia|]. change (2 ^ Z.of_nat 0) with 1.
        rewrite Z.div_1_r. exact Hne.
    - destruct (Z.eqb_spec (Z.of_nat (S d')) 0); [lia|]. cbn [andb Nat.leb]. apply HS; assumption.
  Qed.

  Lemma insert_good ls t x : good ls t -> full_nonzero H sha ls -> Forall (fun l => l <> 0) ls ->
    Z.of_nat (length ls) < MAX_LEAF_COUNT -> x <> 0 ->
    exists t', Insert H sha t x = Ok (t', node (ls ++ [x]) 29 0, Z.of_nat (length ls)) /\ good (ls ++ [x]) t'.
  Proof.
    intros [Hc HS] FN NZ Hl Hx. unfold Insert. destruct (Z.eqb_spec x 0); [contradiction|]. cbn [negb orequire obind].
    rewrite Hc. destruct (Z.ltb_spec (Z.of_nat (length ls)) MAX_LEAF_COUNT); [|lia]. cbn [orequire obind].
    change 0 with (Z.of_nat 0) at 1. rewrite leaf_set_in by lia. cbn [obind]. unfold UpdateTree. cbn [t_cur t_leaves].
    pose proof (mid_start ls x (t_leaves t) HS Hl) as M0.
    destruct (update_all H sha ls x 29 0%nat _ FN NZ Hl eq_refl M0) as (m' & HM & E).
    change (Z.of_nat 0) with 0 in E. change (2 ^ 0) with 1 in E. rewrite Z.div_1_r in E.
    change TREE_DEPTH with 29%nat. change (Z.of_nat 0) with 0. rewrite E. cbn [obind].
    assert (Hg : leaf_get m' 29 0 = Ok (m' 29 0)) by reflexivity. rewrite Hg. cbn [obind].
    pose proof (HM 29%nat 0 ltac:(lia) ltac:(unfold MAX_LEAF_COUNT; lia)) as HR. rewrite Nat.leb_refl in HR.
    change (Z.of_nat 29) with 29 in HR. rewrite HR. rewrite app_length, Nat2Z.inj_add. change (Z.of_nat (length [x])) with 1.
    destruct (Z.ltb_spec (0 * 2 ^ 29) (Z.of_nat (length ls) + 1)); [|lia].
    eexists. split; [reflexivity|]. split; cbn [t_cur t_leaves].
    - pose proof max_word. rewrite wadd_small by lia. rewrite app_length, Nat2Z.inj_add. reflexivity.
    - intros d i Hd Hi. rewrite (HM d i Hd Hi). destruct (Nat.leb_spec d 29); [reflexivity|lia].
  Qed.

  Lemma leaf_nonzero ls i : Forall (fun l => l <> 0) ls -> 0 <= i < Z.of_nat (length ls) -> node ls 0 i <> 0.
  Proof.
    intros FL Hi. cbn [tnode]. change (2 ^ Z.of_nat 0) with 1. destruct (Z.ltb_spec (i * 1) (Z.of_nat (length ls))); [|lia].
    rewrite Forall_forall in FL. apply FL. apply nth_In. lia.
  Qed.
  Lemma no_zero_full ls ls' : no_zero_node H fil sol_level_IVs (ls ++ ls') -> Forall (fun l => l <> 0) ls -> ls' <> [] ->
    full_nonzero H sha ls.
  Proof.
    intros NZ FL Hn d i Hd Hi He Hb. pose proof (pow2_pos d). destruct d as [|d].
    - change (2 ^ Z.of_nat 0) with 1 in *. apply leaf_nonzero; [assumption|lia].
    - rewrite <- (node_app H sha ls ls') by assumption. assert (0 < length ls')%nat by (destruct ls'; [congruence|cbn [length]; lia]).
      apply NZ; rewrite ?app_length; try lia; nia.
  Qed.

  Lemma inserts_good ls2 : forall ls1 t, good ls1 t -> no_zero_node H fil sol_level_IVs (ls1 ++ ls2) -> Forall (fun l => l <> 0) (ls1 ++ ls2) ->
    Z.of_nat (length (ls1 ++ ls2)) <= MAX_LEAF_COUNT ->
    exists t', inserts (Insert H sha) t ls2 = Ok t' /\ good (ls1 ++ ls2) t'.
  Proof.
    induction ls2 as [|x ls2 IH]; intros ls1 t HG FN NZ Hl.
    - exists t. rewrite app_nil_r. split; [reflexivity|exact HG].
    - pose proof NZ as NZ'. apply Forall_app in NZ'. destruct NZ' as [NZ1 NZ2]. inversion NZ2 as [|? ? Hx NZ3]; subst.
      rewrite app_length in Hl. cbn [length] in Hl.
      destruct (insert_good ls1 t x HG (no_zero_full ls1 (x :: ls2) FN NZ1 ltac:(discriminate)) NZ1 ltac:(lia) Hx) as (t1 & E & HG1).
      assert (Ea : ls1 ++ x :: ls2 = (ls1 ++ [x]) ++ ls2) by (rewrite <- app_assoc; reflexivity).
      rewrite Ea in *. destruct (IH (ls1 ++ [x]) t1 HG1 FN NZ) as (t' & E' & HG').
      { rewrite !app_length. cbn [length]. lia. }
      exists t'. split; [|exact HG']. cbn [inserts]. rewrite E. cbn [obind]. exact E'.
  Qed.

  (** *** proofs *)
  Lemma getleaf_good ls t d i : good ls t -> no_zero_node H fil sol_level_IVs ls -> Forall (fun l => l <> 0) ls ->
    (d < 29)%nat -> 0 <= i < MAX_LEAF_COUNT -> (Z.even i = true -> (i + 1) * 2 ^ Z.of_nat d < Z.of_nat (length ls)) ->
    GetLeaf sha t (Z.of_nat d) i = Ok (node ls d i).
  Proof.
    intros [_ HS] NZ FL Hd Hi He. unfold GetLeaf. rewrite leaf_get_in by lia. cbn [obind]. rewrite (HS d i) by lia.
    destruct (Z.ltb_spec (i * 2 ^ Z.of_nat d) (Z.of_nat (length ls))) as [E|E].
    - rewrite unique_nz; [reflexivity|]. destruct d as [|d]; [|apply NZ; auto; lia].
      change (2 ^ Z.of_nat 0) with 1 in *. apply leaf_nonzero; [assumption|lia].
    - apply (f_equal Ok). symmetry. exact (node_empty H sha ls d i E).
  Qed.

  Lemma odd_mod i : (i mod 2 =? 0) = negb (Z.odd i).
  Proof. rewrite Zmod_odd. destruct (Z.odd i); reflexivity. Qed.

  Lemma proof_loop_good ls t : good ls t -> no_zero_node H fil sol_level_IVs ls -> Forall (fun l => l <> 0) ls ->
    forall n d i, (d + n = 29)%nat -> 0 <= i < MAX_LEAF_COUNT -> i * 2 ^ Z.of_nat d < Z.of_nat (length ls) ->
    proof_loop sha n (Z.of_nat d) i t = Ok (siblings H fil sol_level_IVs ls n d i, sides n i).
  Proof.
    intros HG NZ FL. induction n as [|n IH]; intros d i Hd Hi Hb; [reflexivity|]. cbn [proof_loop siblings sides].
    rewrite odd_mod. pose proof max_word as MW. pose proof (Zmod_odd i) as HO.
    assert (HD : i = 2 * (i / 2) + i mod 2) by (apply Z.div_mod; discriminate).
    assert (E : (if negb (Z.odd i) then GetLeaf sha t (Z.of_nat d) (wadd i 1) else GetLeaf sha t (Z.of_nat d) (wsub i 1)) =
                Ok (node ls d (if Z.odd i then i - 1 else i + 1))).
    { destruct (Z.odd i) eqn:Eo; cbn [negb].
      - rewrite wsub_small by lia. apply getleaf_good; try assumption; lia.
      - rewrite wadd_small by lia. apply getleaf_good; try assumption; try lia; [unfold MAX_LEAF_COUNT in *; lia|].
        intros Ev. rewrite <- Z.negb_odd, Z.odd_add, Eo in Ev. discriminate. }
    rewrite E. cbn [obind]. rewrite wadd_small by lia. replace (Z.of_nat d + 1) with (Z.of_nat (S d)) by lia.
    rewrite IH; [|lia|split; [apply Z.div_pos; lia|apply Z.div_lt_upper_bound; lia]|].
    - cbn [obind]. rewrite negb_involutive. reflexivity.
    - rewrite pow2_S. pose proof (pow2_pos d). pose proof (Z.mod_pos_bound i 2 ltac:(lia)). nia.
  Qed.

  Lemma siblings_len ls n : forall d i, length (siblings H fil sol_level_IVs ls n d i) = n.
  Proof. induction n as [|n IH]; intros d i; cbn [siblings length]; [reflexivity|]. now rewrite IH. Qed.

  (** *** verification *)
  Lemma skipn_cons {A} (a : A) d l : (d < length l)%nat -> skipn d l = nth d l a :: skipn (S d) l.
  Proof.
    revert l. induction d as [|d IH]; intros [|x l] Hd; cbn [length] in Hd; try lia; [reflexivity|].
    cbn [skipn nth]. apply IH. lia.
  Qed.
  Lemma idx_nth {A} (a : A) l d : (d < length l)%nat -> sol_idx l (Z.of_nat d) = Ok (nth d l a).
  Proof.
    intros Hd. unfold sol_idx. destruct (Z.ltb_spec (Z.of_nat d) 0); [lia|]. rewrite Nat2Z.id.
    rewrite (nth_error_nth' l a) by exact Hd. reflexivity.
  Qed.
  Lemma verify_loop_climb P B : length P = 29%nat -> length B = 29%nat -> forall n d item, (d + n = 29)%nat ->
    verify_loop H n (Z.of_nat d) item P B = Ok (climb H (skipn d sol_level_IVs) (skipn d P) (skipn d B) item n).
  Proof.
    intros HP HB. induction n as [|n IH]; intros d item Hd; [reflexivity|]. cbn [verify_loop].
    assert (HI : length sol_level_IVs = 29%nat) by reflexivity.
    rewrite (idx_nth false B) by lia. cbn [obind]. rewrite (idx_nth 0 P) by lia. cbn [obind].
    rewrite (idx_nth 0 sol_level_IVs) by lia. cbn [obind]. pose proof max_word as MW.
    rewrite wadd_small by (unfold MAX_LEAF_COUNT in MW; lia). replace (Z.of_nat d + 1) with (Z.of_nat (S d)) by lia.
    rewrite (IH (S d)) by lia.
    rewrite (skipn_cons 0 d sol_level_IVs) by lia. rewrite (skipn_cons 0 d P) by lia. rewrite (skipn_cons false d B) by lia.
    reflexivity.
  Qed.
  Lemma compute_climb P B leaf : length P = 29%nat -> length B = 29%nat ->
    ComputePath H leaf P B = Ok (climb H sol_level_IVs P B leaf 29).
  Proof. intros HP HB. exact (verify_loop_climb P B HP HB 29 0%nat leaf eq_refl). Qed.

  (** *** the proof of a leaf climbs to the root *)
  Lemma parent_node ls d i : 0 <= i -> (i / 2) * 2 ^ Z.of_nat (S d) < Z.of_nat (length ls) ->
    (if Z.odd i then H (node ls d (i - 1)) (node ls d i) (nth d sol_level_IVs 0)
     else H (node ls d i) (node ls d (i + 1)) (nth d sol_level_IVs 0)) = node ls (S d) (i / 2).
  Proof.
    intros Hi Hb. rewrite (node_unfold H sha ls (S d) (i / 2)).
    destruct (Z.ltb_spec (i / 2 * 2 ^ Z.of_nat (S d)) (Z.of_nat (length ls))); [|lia].
    pose proof (Z.div_mod i 2 ltac:(lia)) as E. rewrite Zmod_odd in E. destruct (Z.odd i).
    - replace (2 * (i / 2)) with (i - 1) by lia. replace (i - 1 + 1) with i by lia. reflexivity.
    - replace (2 * (i / 2)) with i by lia. reflexivity.
  Qed.

  Lemma climb_siblings ls : forall n d i, (d + n = 29)%nat -> 0 <= i ->
    (i / 2) * 2 ^ Z.of_nat (S d) < Z.of_nat (length ls) ->
    climb H (skipn d sol_level_IVs) (siblings H fil sol_level_IVs ls n d i) (sides n i) (node ls d i) n =
    node ls (d + n) (i / 2 ^ Z.of_nat n).
  Proof.
    induction n as [|n IH]; intros d i Hd Hi Hb.
    - cbn [climb]. change (2 ^ Z.of_nat 0) with 1. rewrite Z.div_1_r, Nat.add_0_r. reflexivity.
    - rewrite (skipn_cons 0 d sol_level_IVs) by (change (length sol_level_IVs) with 29%nat; lia).
      cbn [siblings sides climb].
      replace (if Z.odd i then H (node ls d (if Z.odd i then i - 1 else i + 1)) (node ls d i) (nth d sol_level_IVs 0)
               else H (node ls d i) (node ls d (if Z.odd i then i - 1 else i + 1)) (nth d sol_level_IVs 0))
        with (node ls (S d) (i / 2)) by (rewrite <- (parent_node ls d i Hi Hb); destruct (Z.odd i); reflexivity).
      rewrite IH; [|lia|apply Z.div_pos; lia|].
      + replace (S d + n)%nat with (d + S n)%nat by lia. rewrite Z.div_div by (try reflexivity; pose proof (pow2_pos n); lia).
        rewrite pow2_S. reflexivity.
      + rewrite pow2_S. pose proof (pow2_pos (S d)). pose proof (Z.mul_div_le (i / 2) 2 ltac:(lia)). nia.
  Qed.

  (** *** soundness *)
  Lemma climb_S d p path b bits item j : (d < 29)%nat ->
    climb H (skipn d sol_level_IVs) (p :: path) (b :: bits) item (S j) =
    climb H (skipn (S d) sol_level_IVs) path bits (if b then H p item (nth d sol_level_IVs 0) else H item p (nth d sol_level_IVs 0)) j.
  Proof. intros Hd. rewrite (skipn_cons 0 d sol_level_IVs) by exact Hd. reflexivity. Qed.

  Lemma sound_gen ls : forall n d i item path, (d + n = 29)%nat -> 0 <= i -> length path = n ->
    climb H (skipn d sol_level_IVs) path (sides n i) item n = node ls (d + n) (i / 2 ^ Z.of_nat n) ->
    (exists j, (j < n)%nat /\ let (l, r) := path_pair H (skipn d sol_level_IVs) path (sides n i) item j in
       (l, r) <> (node ls (d + j) (2 * (i / 2 ^ Z.of_nat (S j))), node ls (d + j) (2 * (i / 2 ^ Z.of_nat (S j)) + 1)) /\
       H l r (nth (d + j) sol_level_IVs 0) =
       H (node ls (d + j) (2 * (i / 2 ^ Z.of_nat (S j)))) (node ls (d + j) (2 * (i / 2 ^ Z.of_nat (S j)) + 1)) (nth (d + j) sol_level_IVs 0)) \/
    (exists j, (j <= n)%nat /\ Z.of_nat (length ls) <= (i / 2 ^ Z.of_nat j) * 2 ^ Z.of_nat (d + j) /\
       climb H (skipn d sol_level_IVs) path (sides n i) item j = fil (Z.of_nat (d + j)) (i / 2 ^ Z.of_nat j)) \/
    (i * 2 ^ Z.of_nat d < Z.of_nat (length ls) /\ item = node ls d i).
  Proof.
    induction n as [|n IH]; intros d i item path Hd Hi HP HC.
    - right. cbn [climb] in HC. change (2 ^ Z.of_nat 0) with 1 in HC. rewrite Z.div_1_r, Nat.add_0_r in HC.
      destruct (Z.ltb_spec (i * 2 ^ Z.of_nat d) (Z.of_nat (length ls))) as [E|E]; [right; split; assumption|].
      left. exists 0%nat. change (2 ^ Z.of_nat 0) with 1. rewrite Z.div_1_r, Nat.add_0_r. split; [lia|]. split; [exact E|].
      cbn [climb]. rewrite HC. exact (node_empty H sha ls d i E).
    - destruct path as [|p path]; [discriminate|]. cbn [length] in HP. cbn [sides] in *.
      rewrite climb_S in HC by lia. 
      set (item' := if Z.odd i then H p item (nth d sol_level_IVs 0) else H item p (nth d sol_level_IVs 0)) in *.
      assert (DD : forall j, i / 2 / 2 ^ Z.of_nat j = i / 2 ^ Z.of_nat (S j)).
      { intros j. rewrite Z.div_div by (try reflexivity; pose proof (pow2_pos j); lia). rewrite pow2_S. reflexivity. }
      specialize (IH (S d) (i / 2) item' path ltac:(lia) ltac:(apply Z.div_pos; lia) ltac:(lia)).
      rewrite DD in IH. replace (S d + n)%nat with (d + S n)%nat in IH by lia. specialize (IH HC).
      destruct IH as [(j & Hj & HH)|[(j & Hj & HB & HH)|[HB HH]]].
      + left. exists (S j). split; [lia|]. rewrite !DD in HH. replace (d + S j)%nat with (S d + j)%nat by lia.
        unfold path_pair in *. rewrite climb_S by lia. fold item'. exact HH.
      + right. left. exists (S j). split; [lia|]. rewrite DD in HB, HH. replace (d + S j)%nat with (S d + j)%nat by lia.
        split; [exact HB|]. rewrite climb_S by lia. fold item'. exact HH.
      + set (k := i / 2) in *. pose proof (Z.div_mod i 2 ltac:(lia)) as E. rewrite Zmod_odd in E. fold k in E.
        assert (HN : node ls (S d) k = H (node ls d (2 * k)) (node ls d (2 * k + 1)) (nth d sol_level_IVs 0)).
        { rewrite (node_unfold H sha ls (S d) k). destruct (Z.ltb_spec (k * 2 ^ Z.of_nat (S d)) (Z.of_nat (length ls))); [reflexivity|lia]. }
        assert (D1 : i / 2 ^ Z.of_nat 1 = k) by (unfold k; reflexivity).
        destruct (Z.eq_dec item (node ls d i)) as [Ei|Ei].
        * right. destruct (Z.ltb_spec (i * 2 ^ Z.of_nat d) (Z.of_nat (length ls))) as [B|B]; [right; split; assumption|].
          left. exists 0%nat. change (2 ^ Z.of_nat 0) with 1. rewrite Z.div_1_r, Nat.add_0_r. split; [lia|]. split; [exact B|].
          cbn [climb]. rewrite Ei. exact (node_empty H sha ls d i B).
        * left. exists 0%nat. split; [lia|]. rewrite Nat.add_0_r, D1. unfold path_pair. cbn [nth climb].
          unfold item' in HH. rewrite HN in HH. clear HC item'. revert HH E. destruct (Z.odd i); intros HH E.
          -- split; [|exact HH]. intros X. apply (f_equal snd) in X. apply Ei. rewrite E. exact X.
          -- split; [|exact HH]. intros X. apply (f_equal fst) in X. apply Ei. rewrite E, Z.add_0_r. exact X.
  Qed.

  Lemma sound_main ls n i leaf path : n = 29%nat -> 0 <= i < 2 ^ Z.of_nat n -> length path = n ->
    climb H sol_level_IVs path (sides n i) leaf n = node ls n 0 ->
    (i < Z.of_nat (length ls) /\ leaf = nth (Z.to_nat i) ls 0) \/
    (exists d, (d < n)%nat /\ path_collision H fil sol_level_IVs ls path leaf i n d) \/
    (exists d, (d <= n)%nat /\ filler_hit H fil sol_level_IVs ls path leaf i n d).
  Proof.
    intros Hn Hi HP V.
    destruct (sound_gen ls n 0 i leaf path Hn ltac:(lia) HP) as [(j & Hj & HC)|[(j & Hj & HC1 & HC2)|[HC1 HC2]]].
    - rewrite (Z.div_small i (2 ^ Z.of_nat n)) by exact Hi. exact V.
    - right. left. exists j. split; [exact Hj|]. unfold path_collision. exact HC.
    - right. right. exists j. split; [exact Hj|]. unfold filler_hit. split; [exact HC1|exact HC2].
    - left. change (2 ^ Z.of_nat 0) with 1 in HC1. split; [lia|]. rewrite HC2. cbn [tnode]. change (2 ^ Z.of_nat 0) with 1.
      destruct (Z.ltb_spec (i * 1) (Z.of_nat (length ls))); [reflexivity|lia].
  Qed.

  Lemma sides_len n : forall i, length (sides n i) = n.
  Proof. induction n as [|n IH]; intros i; cbn [sides length]; [reflexivity|]. now rewrite IH. Qed.

  (** *** insertion never fails otherwise *)
  Lemma update_total n : forall d c m, (d + n = 29)%nat -> 0 <= c < MAX_LEAF_COUNT ->
    exists m', update_loop H sha n (Z.of_nat d) c m = Ok m'.
  Proof.
    induction n as [|n IH]; intros d c m Hd Hc; [exists m; reflexivity|]. cbn [update_loop]. pose proof max_word as MW.
    rewrite odd_mod. pose proof (Zmod_odd c) as HO.
    assert (HD : c = 2 * (c / 2) + c mod 2) by (apply Z.div_mod; discriminate).
    assert (E : exists ab, (if negb (Z.odd c) then
             leaf1 <- leaf_get m (Z.of_nat d) c ;; l <- leaf_get m (Z.of_nat d) (wadd c 1) ;;
             Ok (leaf1, GetUniqueLeaf sha (Z.of_nat d) (wadd c 1) l)
           else
             l <- leaf_get m (Z.of_nat d) (wsub c 1) ;; leaf2 <- leaf_get m (Z.of_nat d) c ;;
             Ok (GetUniqueLeaf sha (Z.of_nat d) (wsub c 1) l, leaf2)) = Ok ab).
    { destruct (Z.odd c); cbn [negb].
      - rewrite wsub_small by lia. rewrite !leaf_get_in by lia. eexists. reflexivity.
      - rewrite wadd_small by lia. rewrite !leaf_get_in by (unfold MAX_LEAF_COUNT in *; lia). eexists. reflexivity. }
    destruct E as [[l1 l2] E]. rewrite E. cbn [obind]. rewrite iv_idx by lia. cbn [obind].
    rewrite wadd_small by (unfold MAX_LEAF_COUNT in MW; lia). replace (Z.of_nat d + 1) with (Z.of_nat (S d)) by lia.
    assert (HC2 : 0 <= c / 2 < MAX_LEAF_COUNT) by (split; [apply Z.div_pos; lia|apply Z.div_lt_upper_bound; lia]).
    rewrite leaf_set_in by (assumption || lia). cbn [obind]. apply IH; [lia|assumption].
  Qed.
  Lemma insert_total t x : 0 <= t_cur t ->
    (x <> 0 -> t_cur t < 2 ^ 29 -> exists t' root, Insert H sha t x = Ok (t', root, t_cur t) /\ t_cur t' = t_cur t + 1) /\
    (x = 0 \/ 2 ^ 29 <= t_cur t -> Insert H sha t x = Throw).
  Proof.
    intros Hc. change (2 ^ 29) with MAX_LEAF_COUNT. split.
    - intros Hx Hm. unfold Insert. destruct (Z.eqb_spec x 0); [contradiction|]. cbn [negb orequire obind].
      destruct (Z.ltb_spec (t_cur t) MAX_LEAF_COUNT); [|lia]. cbn [orequire obind].
      change 0 with (Z.of_nat 0) at 1. rewrite leaf_set_in by lia. cbn [obind]. unfold UpdateTree. cbn [t_cur t_leaves].
      destruct (update_total 29 0%nat (t_cur t) (fun d' i' => if (d' =? Z.of_nat 0) && (i' =? t_cur t) then x else t_leaves t d' i')
        eq_refl ltac:(lia)) as [m' E].
      change TREE_DEPTH with 29%nat. change (Z.of_nat 0) with 0 in *. rewrite E. cbn [obind].
      assert (Hg : leaf_get m' 29 0 = Ok (m' 29 0)) by reflexivity. rewrite Hg. cbn [obind].
      eexists. eexists. split; [reflexivity|]. cbn [t_cur]. pose proof max_word. apply wadd_small; lia.
    - intros Hx. unfold Insert. destruct (Z.eqb_spec x 0) as [|Hn]; [reflexivity|]. cbn [negb orequire obind].
      destruct (Z.ltb_spec (t_cur t) MAX_LEAF_COUNT); [|reflexivity]. lia.
  Qed.
End Tree.
