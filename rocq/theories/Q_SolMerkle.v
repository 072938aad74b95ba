(** Final lemmas about the Merkle tree contract. *)
From Coq Require Import List ZArith Bool Arith Lia.
From Verif Require Import Field Base R1CS Gadget M_Evm Spec_Keccak Spec_Mimc Spec_Merkle M_Mimc M_Merkle P_Mimc P_Merkle Q_Merkle
  M_SolMimc P_SolMimc Q_SolMimc M_SolMerkle Spec_SolMerkle P_SolMerkle P_SolMerkle2.
Import ListNotations.
Local Open Scope Z_scope.

(** *** C95 *)
Lemma tree_insert_lemma H sha ls x :
  let node := tnode H (empty_value sha) sol_level_IVs in
  Forall (fun l => l <> 0) (ls ++ [x]) -> no_zero_node H (empty_value sha) sol_level_IVs (ls ++ [x]) ->
  Z.of_nat (length ls) < 2 ^ 29 ->
  exists t t', inserts (Insert H sha) tree_empty ls = Ok t /\
    Insert H sha t x = Ok (t', node (ls ++ [x]) 29%nat 0, Z.of_nat (length ls)) /\
    GetRoot t' = Ok (node (ls ++ [x]) 29%nat 0).
Proof.
  cbv zeta. intros NZ NN Hl. change (2 ^ 29) with MAX_LEAF_COUNT in Hl.
  pose proof NZ as NZ'. apply Forall_app in NZ'. destruct NZ' as [NZ1 NZ2]. inversion_clear NZ2 as [|? ? Hx _].
  assert (G : forall l2 l1 t, good H sha l1 t -> (exists l3, ls = l1 ++ l2 ++ l3) ->
    exists t', inserts (Insert H sha) t l2 = Ok t' /\ good H sha (l1 ++ l2) t').
  { induction l2 as [|y l2 IH]; intros l1 t HG [l3 E].
    - exists t. rewrite app_nil_r. split; [reflexivity|exact HG].
    - pose proof NZ1 as A. rewrite E in A. apply Forall_app in A. destruct A as [A1 A2]. apply Forall_app in A2. destruct A2 as [A2 _].
      inversion_clear A2 as [|? ? Hy _].
      assert (FN : full_nonzero H sha l1).
      { apply (no_zero_full H sha l1 ((y :: l2) ++ l3 ++ [x])); [|assumption|discriminate].
        replace (l1 ++ (y :: l2) ++ l3 ++ [x]) with (ls ++ [x]) by (rewrite E, <- !app_assoc; reflexivity). exact NN. }
      assert (L : Z.of_nat (length l1) < MAX_LEAF_COUNT) by (rewrite E, !app_length in Hl; cbn [length] in Hl; lia).
      destruct (insert_good H sha l1 t y HG FN A1 L Hy) as (t1 & E1 & HG1).
      destruct (IH (l1 ++ [y]) t1 HG1) as (t' & E' & HG'); [exists l3; rewrite E, <- !app_assoc; reflexivity|].
      exists t'. cbn [inserts]. rewrite E1. cbn [obind]. split; [exact E'|]. rewrite <- app_assoc in HG'. exact HG'. }
  destruct (G ls [] tree_empty (good_empty H sha)) as (t & E & HG); [exists []; rewrite app_nil_r; reflexivity|].
  assert (FN : full_nonzero H sha ls) by (apply (no_zero_full H sha ls [x]); [assumption|assumption|discriminate]).
  destruct (insert_good H sha ls t x HG FN NZ1 Hl Hx) as (t' & E' & HG').
  exists t, t'. split; [exact E|]. split; [exact E'|]. unfold GetRoot. change 29 with (Z.of_nat 29).
  rewrite leaf_get_in by (unfold MAX_LEAF_COUNT; lia). apply (f_equal Ok). destruct HG' as [_ HS].
  rewrite (HS 29%nat 0) by (unfold MAX_LEAF_COUNT; lia). rewrite app_length.
  destruct (Z.ltb_spec (0 * 2 ^ Z.of_nat 29) (Z.of_nat (length ls + length [x]))) as [B|B]; [reflexivity|cbn [length] in B; lia].
Qed.

Lemma built H sha ls : Forall (fun l => l <> 0) ls -> no_zero_node H (empty_value sha) sol_level_IVs ls -> ls <> [] ->
  Z.of_nat (length ls) <= 2 ^ 29 ->
  exists t, inserts (Insert H sha) tree_empty ls = Ok t /\ good H sha ls t /\
    GetRoot t = Ok (tnode H (empty_value sha) sol_level_IVs ls 29 0).
Proof.
  intros NZ NN Hn Hl. change (2 ^ 29) with MAX_LEAF_COUNT in Hl.
  destruct (inserts_good H sha ls [] tree_empty (good_empty H sha) NN NZ Hl) as (t & E & HG). cbn [app] in HG.
  exists t. split; [exact E|]. split; [exact HG|]. unfold GetRoot. change 29 with (Z.of_nat 29).
  rewrite leaf_get_in by (unfold MAX_LEAF_COUNT; lia). apply (f_equal Ok). destruct HG as [_ HS].
  rewrite (HS 29%nat 0) by (unfold MAX_LEAF_COUNT; lia).
  assert (0 < length ls)%nat by (destruct ls; [congruence|cbn [length]; lia]).
  destruct (Z.ltb_spec (0 * 2 ^ Z.of_nat 29) (Z.of_nat (length ls))) as [B|B]; [reflexivity|lia].
Qed.

Lemma verify_siblings H sha ls t i : good H sha ls t -> GetRoot t = Ok (tnode H (empty_value sha) sol_level_IVs ls 29 0) ->
  0 <= i < 2 ^ 29 -> (i / 2) * 2 < Z.of_nat (length ls) ->
  VerifyPath H t (tnode H (empty_value sha) sol_level_IVs ls 0 i) (siblings H (empty_value sha) sol_level_IVs ls 29 0 i) (sides 29 i) = Ok true.
Proof.
  intros HG HR Hi Hb. unfold VerifyPath.
  rewrite compute_climb by (apply siblings_len || apply sides_len). cbn [obind]. rewrite HR. cbn [obind].
  pose proof (climb_siblings H sha ls 29 0 i eq_refl ltac:(lia) Hb) as C. change (skipn 0 sol_level_IVs) with sol_level_IVs in C.
  rewrite C. change (2 ^ Z.of_nat 29) with (2 ^ 29). rewrite (Z.div_small i (2 ^ 29)) by assumption. change (0 + 29)%nat with 29%nat.
  rewrite Z.eqb_refl. reflexivity.
Qed.

Lemma tree_proof_lemma H sha ls i :
  let node := tnode H (empty_value sha) sol_level_IVs in
  Forall (fun l => l <> 0) ls -> no_zero_node H (empty_value sha) sol_level_IVs ls ->
  Z.of_nat (length ls) <= 2 ^ 29 -> 0 <= i < Z.of_nat (length ls) ->
  exists t path, inserts (Insert H sha) tree_empty ls = Ok t /\ GetRoot t = Ok (node ls 29%nat 0) /\
    GetProof sha t i = Ok (path, sides 29 i) /\ length path = 29%nat /\
    VerifyPath H t (nth (Z.to_nat i) ls 0) path (sides 29 i) = Ok true.
Proof.
  cbv zeta. intros NZ NN Hl Hi. assert (Hn : ls <> []) by (intros ->; cbn [length] in Hi; lia).
  destruct (built H sha ls NZ NN Hn Hl) as (t & E & HG & HR).
  exists t, (siblings H (empty_value sha) sol_level_IVs ls 29 0 i). split; [exact E|]. split; [exact HR|].
  split; [|split; [apply siblings_len|]].
  - apply (proof_loop_good H sha ls t HG NN NZ 29 0 i eq_refl); [unfold MAX_LEAF_COUNT; change (2 ^ 29) with 536870912 in Hl; lia|].
    change (2 ^ Z.of_nat 0) with 1. lia.
  - assert (Ei : nth (Z.to_nat i) ls 0 = tnode H (empty_value sha) sol_level_IVs ls 0 i).
    { cbn [tnode]. change (2 ^ Z.of_nat 0) with 1. destruct (Z.ltb_spec (i * 1) (Z.of_nat (length ls))); [reflexivity|lia]. }
    rewrite Ei. apply verify_siblings; try assumption; [lia|]. pose proof (Z.mul_div_le i 2 ltac:(lia)). lia.
Qed.

(** *** C97: the filler of the position after an odd number of leaves *)
Lemma filler_verifies_lemma H sha ls : Forall (fun l => l <> 0) ls -> no_zero_node H (empty_value sha) sol_level_IVs ls ->
  Z.odd (Z.of_nat (length ls)) = true -> Z.of_nat (length ls) < 2 ^ 29 ->
  exists t path, inserts (Insert H sha) tree_empty ls = Ok t /\ length path = 29%nat /\
    VerifyPath H t (empty_value sha 0 (Z.of_nat (length ls))) path (sides 29 (Z.of_nat (length ls))) = Ok true.
Proof.
  intros NZ NN Ho Hl. set (n := Z.of_nat (length ls)) in *. assert (Hn : ls <> []) by (intros ->; discriminate).
  destruct (built H sha ls NZ NN Hn ltac:(fold n; lia)) as (t & E & HG & HR).
  exists t, (siblings H (empty_value sha) sol_level_IVs ls 29 0 n). split; [exact E|]. split; [apply siblings_len|].
  assert (En : empty_value sha 0 n = tnode H (empty_value sha) sol_level_IVs ls 0 n).
  { symmetry. apply (node_empty H sha ls 0 n). change (2 ^ Z.of_nat 0) with 1. fold n. lia. }
  rewrite En. apply verify_siblings; try assumption; [unfold n; lia|]. fold n.
  pose proof (Z.div_mod n 2 ltac:(lia)) as D. rewrite Zmod_odd, Ho in D. lia.
Qed.

Fixpoint bits_value (bits : list bool) : Z := match bits with [] => 0 | b :: r => b2Z b + 2 * bits_value r end.
Lemma bits_sides bits : 0 <= bits_value bits < 2 ^ Z.of_nat (length bits) /\ sides (length bits) (bits_value bits) = bits.
Proof.
  induction bits as [|b bits [IB IH]]; [split; [cbn [bits_value length]; change (2 ^ Z.of_nat 0) with 1; lia|reflexivity]|].
  cbn [bits_value length sides]. rewrite pow2_S. split; [unfold b2Z; destruct b; lia|].
  assert (D : (b2Z b + 2 * bits_value bits) / 2 = bits_value bits).
  { rewrite Z.add_comm, Z.mul_comm, Z.div_add_l by lia. unfold b2Z. destruct b; cbn; lia. }
  rewrite D, IH. f_equal. rewrite Z.odd_add, Z.odd_mul. cbn [Z.odd andb]. destruct b; reflexivity.
Qed.

Lemma verify_true H t leaf path bits R : length path = 29%nat -> length bits = 29%nat -> GetRoot t = Ok R ->
  VerifyPath H t leaf path bits = Ok true <-> climb H sol_level_IVs path bits leaf 29 = R.
Proof.
  intros HP HB HR. unfold VerifyPath. rewrite compute_climb by assumption. cbn [obind]. rewrite HR. cbn [obind].
  generalize (climb H sol_level_IVs path bits leaf 29). intros c. destruct (Z.eqb_spec c R); split; congruence.
Qed.
Lemma tree_sound_lemma H sha ls leaf path bits :
  Forall (fun l => l <> 0) ls -> no_zero_node H (empty_value sha) sol_level_IVs ls -> ls <> [] ->
  Z.of_nat (length ls) <= 2 ^ 29 -> length path = 29%nat -> length bits = 29%nat ->
  exists t i, inserts (Insert H sha) tree_empty ls = Ok t /\ 0 <= i < 2 ^ 29 /\ bits = sides 29 i /\
    (VerifyPath H t leaf path bits = Ok true ->
     (i < Z.of_nat (length ls) /\ leaf = nth (Z.to_nat i) ls 0) \/
     (exists d, (d < 29)%nat /\ path_collision H (empty_value sha) sol_level_IVs ls path leaf i 29 d) \/
     (exists d, (d <= 29)%nat /\ filler_hit H (empty_value sha) sol_level_IVs ls path leaf i 29 d)).
Proof.
  intros NZ NN Hn Hl HP HB. destruct (built H sha ls NZ NN Hn Hl) as (t & E & HG & HR).
  destruct (bits_sides bits) as [Hi Eb]. rewrite HB in Hi, Eb. exists t, (bits_value bits).
  set (i := bits_value bits) in *. clearbody i. rewrite <- Eb.
  split; [exact E|]. split; [exact Hi|]. split; [reflexivity|]. intros V. 
  pose proof (proj1 (verify_true H t leaf path (sides 29 i) _ HP (sides_len 29 i) HR) V) as V'.
  exact (sound_main H sha ls 29 i leaf path eq_refl Hi HP V').
Qed.
