(** The properties of SnarkUtils.sol. *)
From Coq Require Import List ZArith Bool Lia.
From Verif Require Import Base M_Evm M_SolUtils Spec_SolUtils P_SolUtils P_SolUtils2.
Import ListNotations.
Local Open Scope Z_scope.

Lemma reverse_lemma : forall v, is_word v -> exists r, ReverseBits v = Ok r /\ is_word r /\
  forall i, 0 <= i < 256 -> Z.testbit r i = Z.testbit v (255 - i).
Proof. exact reverse_ok. Qed.
Lemma reverse_involutive : forall v, is_word v -> exists r, ReverseBits v = Ok r /\ ReverseBits r = Ok v.
Proof.
  intros v Hv. destruct (reverse_ok v Hv) as [r [Er [Hr Br]]]. destruct (reverse_ok r Hr) as [u [Eu [Hu Bu]]].
  exists r. split; [exact Er|]. rewrite Eu. f_equal. apply Z.bits_inj'. intros i Hi.
  destruct (Z.ltb_spec i 256); [|now rewrite !word_high by assumption].
  rewrite Bu, Br by lia. f_equal. lia.
Qed.

(** PackWords on every input and every length of the output *)
Lemma pack_lemma : forall ws n, Forall is_word ws -> ws <> [] -> Z.of_nat (length ws) < 2 ^ 200 ->
  (253 * (Z.of_nat n - 1) < 256 * Z.of_nat (length ws) -> PackWords ws n = Ok (packed ws n)) /\
  (n <> O -> 256 * Z.of_nat (length ws) <= 253 * (Z.of_nat n - 1) -> PackWords ws n = Throw).
Proof.
  intros ws n W N Wl. unfold PackWords. destruct ws as [|w ws]; [congruence|].
  change (sol_idx (w :: ws) 0) with (Ok w). cbn [obind].
  destruct (reverse_ok w (Forall_inv W)) as [r [Er _]]. rewrite Er. cbn [obind].
  apply (outer_ok (w :: ws) W Wl n (Cursor 0 r 0) 0). repeat split; cbn [c_i c_offset c_source length]; try lia. exact Er.
Qed.
Lemma pack_empty : forall n, PackWords [] n = Throw.
Proof. reflexivity. Qed.
(** every output word fits 253 bits, and bit j of word o is bit 253 o + j of the stream *)
Lemma packed_bits : forall ws n o j, (o < n)%nat -> 0 <= j ->
  Z.testbit (nth o (packed ws n) 0) j = (j <? 253) && stream_bit ws (253 * Z.of_nat o + j).
Proof.
  intros ws n o j Ho Hj. unfold packed.
  rewrite (nth_indep _ 0 (chunk ws (253 * Z.of_nat 0) 253)) by (rewrite map_length, seq_length; exact Ho).
  rewrite (map_nth (fun o => chunk ws (253 * Z.of_nat o) 253)). rewrite seq_nth by exact Ho.
  apply (chunk_holds ws 253). exact Hj.
Qed.
Lemma packed_range : forall ws n, Forall (fun d => 0 <= d < 2 ^ 253) (packed ws n).
Proof.
  intros ws n. apply Forall_forall. intros d Hd. unfold packed in Hd. apply in_map_iff in Hd. destruct Hd as [o [<- _]].
  destruct (chunk_holds ws 253 (253 * Z.of_nat o)) as [P B]. split; [exact P|]. apply high_below; [exact P|lia|].
  intros i Hi. rewrite B by lia. rewrite (proj2 (Z.ltb_ge _ _)) by lia. reflexivity.
Qed.
(** enough output words: nothing is lost *)
Lemma pack_injective : forall ws ws' n, Forall is_word ws -> Forall is_word ws' -> length ws = length ws' -> ws <> [] ->
  Z.of_nat (length ws) < 2 ^ 200 -> 256 * Z.of_nat (length ws) <= 253 * Z.of_nat n ->
  forall out, PackWords ws n = Ok out -> PackWords ws' n = Ok out -> ws = ws'.
Proof.
  intros ws ws' n W W' Hl N Wl Hn out E E'.
  assert (N' : ws' <> []) by (intros ->; destruct ws; [congruence|discriminate Hl]).
  destruct (Z.lt_ge_cases (253 * (Z.of_nat n - 1)) (256 * Z.of_nat (length ws))) as [H|H].
  2:{ destruct (pack_lemma ws n W N Wl) as [_ K]. rewrite K in E; [discriminate E| |exact H]. intros ->. lia. }
  destruct (pack_lemma ws n W N Wl) as [K _]. rewrite (K H) in E.
  destruct (pack_lemma ws' n W' N') as [K' _]; [rewrite <- Hl; exact Wl|]. rewrite K' in E' by (rewrite <- Hl; exact H).
  assert (P : packed ws n = packed ws' n) by congruence. clear K K' E E'.
  assert (S : forall k, 0 <= k < 256 * Z.of_nat (length ws) -> stream_bit ws k = stream_bit ws' k).
  { intros k Hk. pose proof (Z.div_mod k 253 ltac:(lia)) as D. pose proof (Z.mod_pos_bound k 253 ltac:(lia)) as B.
    assert (Q : 0 <= k / 253 < Z.of_nat n) by (split; [apply Z.div_pos; lia|apply Z.div_lt_upper_bound; lia]).
    pose proof (packed_bits ws n (Z.to_nat (k / 253)) (k mod 253) ltac:(lia) ltac:(lia)) as A1.
    pose proof (packed_bits ws' n (Z.to_nat (k / 253)) (k mod 253) ltac:(lia) ltac:(lia)) as A2.
    rewrite (proj2 (Z.ltb_lt _ _)) in A1, A2 by lia. rewrite Z2Nat.id in A1, A2 by lia. rewrite <- D in A1, A2. cbn [andb] in A1, A2.
    rewrite P in A1. congruence. }
  apply (nth_ext _ _ 0 0 Hl). intros i Hi.
  assert (Wi : is_word (nth i ws 0)) by (rewrite Forall_forall in W; apply W, nth_In; lia).
  assert (Wi' : is_word (nth i ws' 0)) by (rewrite Forall_forall in W'; apply W', nth_In; lia).
  apply Z.bits_inj'. intros j Hj. destruct (Z.ltb_spec j 256); [|now rewrite !word_high by assumption].
  specialize (S (256 * Z.of_nat i + (255 - j)) ltac:(lia)). unfold stream_bit in S.
  replace ((256 * Z.of_nat i + (255 - j)) / 256) with (Z.of_nat i) in S by (apply Z.div_unique with (255 - j); lia).
  replace ((256 * Z.of_nat i + (255 - j)) mod 256) with (255 - j) in S by (apply Z.mod_unique with (Z.of_nat i); lia).
  rewrite Nat2Z.id in S. replace (255 - (255 - j)) with j in S by lia. exact S.
Qed.
(** as many output as input words, as the comment has it: different inputs are packed alike *)
Lemma pack_lossy : forall n, (1 <= n)%nat -> Z.of_nat n < 2 ^ 200 -> exists ws ws' out, Forall is_word ws /\ Forall is_word ws' /\
  length ws = n /\ length ws' = n /\ ws <> ws' /\ PackWords ws n = Ok out /\ PackWords ws' n = Ok out.
Proof.
  intros n Hn Hb. set (tl := repeat 0 (n - 1)).
  assert (Wt : forall x, is_word x -> Forall is_word (tl ++ [x])).
  { intros x Hx. apply Forall_app. split; [|constructor; [exact Hx|constructor]].
    apply Forall_forall. intros y Hy. apply repeat_spec in Hy. subst y. split; [lia|reflexivity]. }
  assert (Lt : forall x, length (tl ++ [x]) = n) by (intros; unfold tl; rewrite app_length, repeat_length; cbn [length]; lia).
  assert (PK : forall x, is_word x -> PackWords (tl ++ [x]) n = Ok (packed (tl ++ [x]) n)).
  { intros x Hx. apply (pack_lemma _ n (Wt x Hx)); [destruct tl; discriminate|rewrite Lt; exact Hb|rewrite Lt; lia]. }
  assert (W0 : is_word 0) by (split; [lia|reflexivity]). assert (W1 : is_word 1) by (split; [lia|reflexivity]).
  exists (tl ++ [0]), (tl ++ [1]), (packed (tl ++ [0]) n).
  split; [now apply Wt|]. split; [now apply Wt|]. split; [apply Lt|]. split; [apply Lt|].
  split; [intros K; apply app_inj_tail in K; destruct K; discriminate|]. split; [now apply PK|]. rewrite PK by exact W1. f_equal.
  unfold packed. apply map_ext_in. intros o Ho. apply in_seq in Ho.
  apply (holds_unique (tl ++ [0]) _ _ (253 * Z.of_nat o) 253); [|apply (chunk_holds _ 253)].
  destruct (chunk_holds (tl ++ [1]) 253 (253 * Z.of_nat o)) as [P B]. split; [exact P|]. intros j Hj. rewrite B by exact Hj.
  change (Z.of_nat 253) with 253. destruct (Z.ltb_spec j 253); [|reflexivity]. cbn [andb].
  set (k := 253 * Z.of_nat o + j). assert (Hk : 0 <= k < 253 * Z.of_nat n) by lia. unfold stream_bit.
  pose proof (Z.div_mod k 256 ltac:(lia)) as D. pose proof (Z.mod_pos_bound k 256 ltac:(lia)) as M.
  assert (Q : 0 <= k / 256 < Z.of_nat n) by (split; [apply Z.div_pos; lia|apply Z.div_lt_upper_bound; lia]).
  destruct (Nat.eq_dec (Z.to_nat (k / 256)) (n - 1)) as [El|Nl].
  - assert (T : length tl = Z.to_nat (k / 256)) by (unfold tl; rewrite repeat_length; lia).
    rewrite !app_nth2 by lia. rewrite T, Nat.sub_diag. cbn [nth]. rewrite Z.bits_0.
    change 1 with (2 ^ 0). rewrite Z.pow2_bits_eqb by lia. apply Z.eqb_neq. lia.
  - assert (T : (Z.to_nat (k / 256) < length tl)%nat) by (unfold tl; rewrite repeat_length; lia).
    rewrite !app_nth1 by exact T. reflexivity.
Qed.
