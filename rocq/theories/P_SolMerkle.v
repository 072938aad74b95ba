(** Lemmas about the model of the Merkle tree contract. *)
From Coq Require Import List ZArith Bool Arith Lia.
From Verif Require Import Field Base M_Evm M_SolMimc M_SolMerkle Spec_SolMerkle.
Import ListNotations.
Local Open Scope Z_scope.

Lemma pow2_S d : 2 ^ Z.of_nat (S d) = 2 * 2 ^ Z.of_nat d.
Proof. rewrite Nat2Z.inj_succ, Z.pow_succ_r by lia. reflexivity. Qed.
Lemma pow2_pos d : 0 < 2 ^ Z.of_nat d.
Proof. apply Z.pow_pos_nonneg; lia. Qed.

Section Tree.
  Variable H : Z -> Z -> Z -> Z.
  Variable sha : list Z -> Z.
  Let fil := empty_value sha.
  Let node := tnode H fil sol_level_IVs.

  Lemma node_unfold ls d i : node ls d i =
    if i * 2 ^ Z.of_nat d <? Z.of_nat (length ls) then
      match d with
      | O => nth (Z.to_nat i) ls 0
      | S d' => H (node ls d' (2 * i)) (node ls d' (2 * i + 1)) (nth d' sol_level_IVs 0)
      end
    else fil (Z.of_nat d) i.
  Proof. destruct d; reflexivity. Qed.

  Lemma node_empty ls d i : Z.of_nat (length ls) <= i * 2 ^ Z.of_nat d -> node ls d i = fil (Z.of_nat d) i.
  Proof. intros E. rewrite node_unfold. destruct (Z.ltb_spec (i * 2 ^ Z.of_nat d) (Z.of_nat (length ls))); [lia|reflexivity]. Qed.

  (** a full subtree does not change when leaves are appended *)
  Lemma node_app ls ls' d : forall i, 0 <= i -> (i + 1) * 2 ^ Z.of_nat d <= Z.of_nat (length ls) ->
    node (ls ++ ls') d i = node ls d i.
  Proof.
    induction d as [|d IH]; intros i Hi Hb; rewrite (node_unfold (ls ++ ls') _ i), (node_unfold ls _ i), app_length, Nat2Z.inj_add.
    - change (2 ^ Z.of_nat 0) with 1 in *.
      destruct (Z.ltb_spec (i * 1) (Z.of_nat (length ls) + Z.of_nat (length ls'))); [|lia].
      destruct (Z.ltb_spec (i * 1) (Z.of_nat (length ls))); [|lia]. apply app_nth1. lia.
    - rewrite pow2_S in *. pose proof (pow2_pos d) as Hp.
      destruct (Z.ltb_spec (i * (2 * 2 ^ Z.of_nat d)) (Z.of_nat (length ls) + Z.of_nat (length ls'))); [|nia].
      destruct (Z.ltb_spec (i * (2 * 2 ^ Z.of_nat d)) (Z.of_nat (length ls))); [|nia].
      rewrite !IH by nia. reflexivity.
  Qed.

  (** *** the invariant of the storage *)
  Definition stored (ls : list Z) (m : Z -> Z -> Z) : Prop :=
    forall d i, (d <= 29)%nat -> 0 <= i < MAX_LEAF_COUNT ->
      m (Z.of_nat d) i = if i * 2 ^ Z.of_nat d <? Z.of_nat (length ls) then node ls d i else 0.
  (** full subtrees at even positions have nonzero values *)
  Definition full_nonzero (ls : list Z) : Prop :=
    forall d i, (d < 29)%nat -> 0 <= i -> Z.even i = true -> (i + 1) * 2 ^ Z.of_nat d <= Z.of_nat (length ls) -> node ls d i <> 0.

  Lemma wadd_small a b : 0 <= a -> 0 <= b -> a + b < wsize -> wadd a b = a + b.
  Proof. intros. unfold wadd. apply Z.mod_small. lia. Qed.
  Lemma wsub_small a b : 0 <= b <= a -> a < wsize -> wsub a b = a - b.
  Proof. intros. unfold wsub. apply Z.mod_small. lia. Qed.
  Lemma max_word : MAX_LEAF_COUNT + 100 < wsize.
  Proof. reflexivity. Qed.

  Lemma leaf_get_in m d i : (d <= 29)%nat -> 0 <= i < MAX_LEAF_COUNT -> leaf_get m (Z.of_nat d) i = Ok (m (Z.of_nat d) i).
  Proof.
    intros Hd Hi. unfold leaf_get, in_leaves.
    destruct (Z.leb_spec 0 (Z.of_nat d)); [|lia]. destruct (Z.ltb_spec (Z.of_nat d) 30); [|lia].
    destruct (Z.leb_spec 0 i); [|lia]. destruct (Z.ltb_spec i MAX_LEAF_COUNT); [|lia]. reflexivity.
  Qed.
  Lemma leaf_set_in m d i v : (d <= 29)%nat -> 0 <= i < MAX_LEAF_COUNT ->
    leaf_set m (Z.of_nat d) i v = Ok (fun d' i' => if (d' =? Z.of_nat d) && (i' =? i) then v else m d' i').
  Proof.
    intros Hd Hi. unfold leaf_set, in_leaves.
    destruct (Z.leb_spec 0 (Z.of_nat d)); [|lia]. destruct (Z.ltb_spec (Z.of_nat d) 30); [|lia].
    destruct (Z.leb_spec 0 i); [|lia]. destruct (Z.ltb_spec i MAX_LEAF_COUNT); [|lia]. reflexivity.
  Qed.
  Lemma iv_idx d : (d < 29)%nat -> sol_idx sol_level_IVs (Z.of_nat d) = Ok (nth d sol_level_IVs 0).
  Proof.
    intros Hd. unfold sol_idx. destruct (Z.ltb_spec (Z.of_nat d) 0); [lia|]. rewrite Nat2Z.id.
    rewrite (nth_error_nth' sol_level_IVs 0) by exact Hd. reflexivity.
  Qed.
  Lemma unique_nz d i l : l <> 0 -> GetUniqueLeaf sha d i l = l.
  Proof. intros Hl. unfold GetUniqueLeaf. destruct (Z.eqb_spec l 0); [contradiction|reflexivity]. Qed.

  (** the storage while UpdateTree is at height [d]: everything below and the path node are up to date *)
  Definition mid (ls : list Z) (x : Z) (d : nat) (m : Z -> Z -> Z) : Prop :=
    forall d' i, (d' <= 29)%nat -> 0 <= i < MAX_LEAF_COUNT ->
      m (Z.of_nat d') i =
        if (d' <=? d)%nat then (if i * 2 ^ Z.of_nat d' <? Z.of_nat (length (ls ++ [x])) then node (ls ++ [x]) d' i else 0)
        else (if i * 2 ^ Z.of_nat d' <? Z.of_nat (length ls) then node ls d' i else 0).

  Lemma off_path ls x d i : 0 <= i -> i <> Z.of_nat (length ls) / 2 ^ Z.of_nat d ->
    (if i * 2 ^ Z.of_nat d <? Z.of_nat (length (ls ++ [x])) then node (ls ++ [x]) d i else 0) =
    (if i * 2 ^ Z.of_nat d <? Z.of_nat (length ls) then node ls d i else 0).
  Proof.
    intros Hi Hne. rewrite app_length, Nat2Z.inj_add. cbn [length]. change (Z.of_nat 1) with 1.
    set (n := Z.of_nat (length ls)) in *. pose proof (pow2_pos d) as Hp. set (q := 2 ^ Z.of_nat d) in *.
    pose proof (Z.div_mod n q ltac:(lia)) as E. pose proof (Z.mod_pos_bound n q Hp) as B.
    destruct (Z.ltb_spec (i * q) (n + 1)); destruct (Z.ltb_spec (i * q) n); try reflexivity; try lia.
    - apply node_app; [assumption|]. fold n q. nia.
    - exfalso. assert (i * q = n) by lia. apply Hne. rewrite <- H2. rewrite Z.div_mul by lia. reflexivity.
  Qed.
  Lemma on_path ls x d : node (ls ++ [x]) d (Z.of_nat (length ls) / 2 ^ Z.of_nat d) =
    if (Z.of_nat (length ls) / 2 ^ Z.of_nat d) * 2 ^ Z.of_nat d <? Z.of_nat (length (ls ++ [x])) then
      node (ls ++ [x]) d (Z.of_nat (length ls) / 2 ^ Z.of_nat d) else 0.
  Proof.
    rewrite app_length, Nat2Z.inj_add. cbn [length]. change (Z.of_nat 1) with 1. pose proof (pow2_pos d) as Hp.
    pose proof (Z.mul_div_le (Z.of_nat (length ls)) (2 ^ Z.of_nat d) Hp).
    destruct (Z.ltb_spec (Z.of_nat (length ls) / 2 ^ Z.of_nat d * 2 ^ Z.of_nat d) (Z.of_nat (length ls) + 1)); [reflexivity|lia].
  Qed.

  Lemma half_div n d : 0 <= n -> n / 2 ^ Z.of_nat d / 2 = n / 2 ^ Z.of_nat (S d).
  Proof. intros Hn. rewrite pow2_S, (Z.mul_comm 2), Z.div_div; [reflexivity| |reflexivity]. pose proof (pow2_pos d). lia. Qed.

  Lemma update_step ls x d m : full_nonzero ls -> Forall (fun l => l <> 0) ls -> Z.of_nat (length ls) < MAX_LEAF_COUNT ->
    (d < 29)%nat -> mid ls x d m ->
    forall k, exists m', mid ls x (S d) m' /\
      update_loop H sha (S k) (Z.of_nat d) (Z.of_nat (length ls) / 2 ^ Z.of_nat d) m =
      update_loop H sha k (Z.of_nat (S d)) (Z.of_nat (length ls) / 2 ^ Z.of_nat (S d)) m'.
  Proof.
    intros FN NZ Hlen Hd HM k. set (n := Z.of_nat (length ls)) in *. set (c := n / 2 ^ Z.of_nat d).
    pose proof (pow2_pos d) as Hp. pose proof max_word as MW.
    assert (Hc : 0 <= c <= n) by (unfold c; split; [apply Z.div_pos; lia|apply Z.div_le_upper_bound; [assumption|nia]]).
    assert (Hcn : c * 2 ^ Z.of_nat d <= n < (c + 1) * 2 ^ Z.of_nat d).
    { unfold c. pose proof (Z.div_mod n (2 ^ Z.of_nat d) ltac:(lia)). pose proof (Z.mod_pos_bound n (2 ^ Z.of_nat d) Hp). nia. }
    assert (Len : Z.of_nat (length (ls ++ [x])) = n + 1) by (rewrite app_length, Nat2Z.inj_add; reflexivity).
    assert (Mc : m (Z.of_nat d) c = node (ls ++ [x]) d c).
    { rewrite (HM d c) by lia. rewrite Nat.leb_refl. symmetry. apply on_path. }
    assert (Hc2 : c / 2 = n / 2 ^ Z.of_nat (S d)) by (apply half_div; lia).
    assert (HN : node (ls ++ [x]) (S d) (c / 2) =
      H (node (ls ++ [x]) d (2 * (c / 2))) (node (ls ++ [x]) d (2 * (c / 2) + 1)) (nth d sol_level_IVs 0)).
    { rewrite node_unfold, Len, pow2_S. pose proof (Z.div_mod c 2 ltac:(lia)). pose proof (Z.mod_pos_bound c 2 ltac:(lia)).
      destruct (Z.ltb_spec (c / 2 * (2 * 2 ^ Z.of_nat d)) (n + 1)); [reflexivity|nia]. }
    (* the two children *)
    assert (CH : (if c mod 2 =? 0 then
             leaf1 <- leaf_get m (Z.of_nat d) c ;; l <- leaf_get m (Z.of_nat d) (wadd c 1) ;;
             Ok (leaf1, GetUniqueLeaf sha (Z.of_nat d) (wadd c 1) l)
           else
             l <- leaf_get m (Z.of_nat d) (wsub c 1) ;; leaf2 <- leaf_get m (Z.of_nat d) c ;;
             Ok (GetUniqueLeaf sha (Z.of_nat d) (wsub c 1) l, leaf2))
           = Ok (node (ls ++ [x]) d (2 * (c / 2)), node (ls ++ [x]) d (2 * (c / 2) + 1))).
    { pose proof (Z.div_mod c 2 ltac:(lia)) as DM. pose proof (Z.mod_pos_bound c 2 ltac:(lia)) as MB.
      destruct (Z.eqb_spec (c mod 2) 0) as [E|E].
      - assert (Hb : c + 1 < MAX_LEAF_COUNT). { unfold MAX_LEAF_COUNT in *. lia. }
        rewrite wadd_small by lia. rewrite !leaf_get_in by lia. cbn [obind]. rewrite Mc.
        rewrite (HM d (c + 1)) by lia. rewrite Nat.leb_refl, Len.
        destruct (Z.ltb_spec ((c + 1) * 2 ^ Z.of_nat d) (n + 1)); [exfalso; lia|].
        replace (2 * (c / 2)) with c by lia.
        rewrite (node_empty (ls ++ [x]) d (c + 1)) by (rewrite Len; lia). reflexivity.
      - rewrite wsub_small by lia. rewrite !leaf_get_in by lia. cbn [obind]. rewrite Mc.
        rewrite (HM d (c - 1)) by lia. rewrite Nat.leb_refl, Len.
        destruct (Z.ltb_spec ((c - 1) * 2 ^ Z.of_nat d) (n + 1)); [|exfalso; nia].
        assert (Hfull : (c - 1 + 1) * 2 ^ Z.of_nat d <= Z.of_nat (length ls)) by (fold n; lia).
        rewrite unique_nz by (rewrite node_app by (assumption || lia); apply FN; [assumption|lia| |assumption]; rewrite <- Z.negb_odd; pose proof (Zmod_odd c) as Oc; rewrite Z.odd_sub; destruct (Z.odd c); [reflexivity|lia]).
        replace (2 * (c / 2)) with (c - 1) by lia. replace (c - 1 + 1) with c by lia. reflexivity. }
    exists (fun d' i' => if (d' =? Z.of_nat (S d)) && (i' =? c / 2) then node (ls ++ [x]) (S d) (c / 2) else m d' i').
    split.
    - intros d' i Hd' Hi. destruct (Z.eqb_spec (Z.of_nat d') (Z.of_nat (S d))) as [E|E]; cbn [andb].
      + apply Nat2Z.inj in E. subst d'. rewrite Nat.leb_refl.
        destruct (Z.eqb_spec i (c / 2)) as [->|Ei].
        * rewrite Hc2. apply on_path.
        * rewrite (HM (S d) i) by lia. destruct (Nat.leb_spec (S d) d); [lia|].
          symmetry. apply off_path; [lia|]. fold n. rewrite <- Hc2. exact Ei.
      + assert (d' <> S d) by (intros ->; apply E; reflexivity). rewrite (HM d' i) by assumption.
        destruct (Nat.leb_spec d' d); destruct (Nat.leb_spec d' (S d)); try lia; reflexivity.
    - cbn [update_loop]. rewrite CH. cbn [obind]. rewrite iv_idx by assumption. cbn [obind].
      assert (W : wadd (Z.of_nat d) 1 = Z.of_nat (S d)) by (rewrite wadd_small by lia; lia).
      rewrite W. assert (Hc2b : 0 <= c / 2 < MAX_LEAF_COUNT).
      { split; [apply Z.div_pos; lia|]. apply Z.div_lt_upper_bound; lia. }
      rewrite leaf_set_in by (assumption || lia). cbn [obind]. rewrite HN, <- Hc2. reflexivity.
  Qed.

  Lemma update_all ls x k : forall d m, full_nonzero ls -> Forall (fun l => l <> 0) ls -> Z.of_nat (length ls) < MAX_LEAF_COUNT ->
    (d + k = 29)%nat -> mid ls x d m ->
    exists m', mid ls x 29 m' /\ update_loop H sha k (Z.of_nat d) (Z.of_nat (length ls) / 2 ^ Z.of_nat d) m = Ok m'.
  Proof.
    induction k as [|k IH]; intros d m FN NZ Hl Hd HM.
    - replace d with 29%nat in * by lia. exists m. split; [assumption|reflexivity].
    - destruct (update_step ls x d m FN NZ Hl ltac:(lia) HM k) as (m1 & HM1 & E). rewrite E.
      apply IH; try assumption. lia.
  Qed.
End Tree.
