(** Lemmas for C133: the Poseidon contract. *)
From Coq Require Import List ZArith Zpow_facts Bool Lia Arith.
From Verif Require Import Primes Base M_Evm M_SolMimc P_SolMimc P_PyPoint P_Padding P_Poseidon M_Bits M_PyPoseidon M_PyEvmasm Spec_PyEvmasm P_PyEvmasm Q_PyEvmasm Q_PyLabels P_PyPosCon.
Import ListNotations.
Local Open Scope nat_scope.
Local Open Scope Z_scope.

Lemma forward_plain : forall is P D r, Forall plain is -> forward P D r -> forward P D (is ++ r).
Proof.
  induction is as [|i is IH]; intros P D r F H; [exact H|]. inversion_clear F as [|? ? X F']. destruct i; cbn [plain] in X; try contradiction; cbn [app forward]; (split; [exact X|now apply IH]).
Qed.
Lemma size_le : forall is P D, forward P D is -> (size is <= 33 * length is)%nat.
Proof.
  induction is as [|i is IH]; intros P D F; [unfold size; cbn; lia|]. change (i :: is) with ([i] ++ is) at 1. rewrite size_app. cbn [length].
  destruct i as [c|v|t|c [t|]|t]; cbn [forward] in F.
  - change (size [Iop c]) with 1%nat. specialize (IH P D (proj2 F)). lia.
  - unfold size at 1. cbn [flat_map item_bytes]. rewrite app_nil_r. unfold push_data. cbn [length]. rewrite be_bytes_len. pose proof (push_width_ok v (proj1 F)). specialize (IH P D (proj2 F)). lia.
  - change (size [Ilabel t]) with 1%nat. specialize (IH _ _ (proj2 (proj2 F))). lia.
  - change (size [Ijump c (Some t)]) with 5%nat. specialize (IH _ _ (proj2 (proj2 F))). lia.
  - change (size [Ijump c None]) with 1%nat. specialize (IH P D (proj2 F)). lia.
  - change (size [Ipushlabel t]) with 4%nat. specialize (IH _ _ (proj2 F)). lia.
Qed.
Lemma plain_flat {T} (f : T -> list item) l : (forall x, In x l -> Forall plain (f x)) -> Forall plain (flat_map f l).
Proof. induction l as [|x l IH]; intros H; cbn [flat_map]; [apply Forall_nil|]. apply Forall_app. split; [apply H; now left|]. apply IH. intros y Y. apply H. now right. Qed.
Lemma plain_pushes l : Forall plain l -> Forall pushes l.
Proof. apply Forall_impl. intros [c|v|t|c t|t]; cbn [plain pushes]; tauto. Qed.
Lemma nth_all {T} (R : T -> Prop) d : R d -> forall l k, Forall R l -> R (nth k l d).
Proof. intros D. induction l as [|x l IH]; intros k F; [now destruct k|]. inversion_clear F. destruct k; cbn [nth]; [assumption|now apply IH]. Qed.
Definition word (v : Z) : Prop := 0 <= v < 2 ^ 256 - 1.
Lemma ark_plain k : word k -> Forall plain (pos_ark 6 k).
Proof.
  intros K. unfold pos_ark. apply Forall_cons; [exact K|]. apply Forall_app. split; [|pl]. apply plain_flat. intros i I. apply in_seq in I. cbv zeta. pl.
Qed.
Lemma sigma_plain p : (p < 6)%nat -> Forall plain (pos_sigma p 6).
Proof. intros H. unfold pos_sigma. pl. Qed.
Definition sbox_items (Fr P i : nat) : list item := if (i <? Fr / 2)%nat || (P + Fr / 2 <=? i)%nat then flat_map (fun j => pos_sigma j 6) (seq 0 6) else pos_sigma 0 6.
Lemma sbox_plain Fr P i : Forall plain (sbox_items Fr P i).
Proof. unfold sbox_items. destruct (_ || _); [|apply sigma_plain; lia]. apply plain_flat. intros j J. apply in_seq in J. apply sigma_plain. lia. Qed.
Lemma mix_split : pos_mix 6 = Ilabel 1 :: mix_body ++ [Ipush 0; Iop 81; Ijump 86 None].
Proof. vm_compute. reflexivity. Qed.
Lemma mix_plain : Forall plain mix_body.
Proof. apply Forall_forall. intros x X. assert (F : forallb (fun i => match i with Iop c => (c <? 96) || (127 <? c) | Ipush v => (0 <=? v) && (v <? 100000) | _ => false end) mix_body = true) by (vm_compute; reflexivity).
  rewrite forallb_forall in F. specialize (F x X). destruct x; try discriminate; cbn [plain].
  - apply orb_true_iff in F. rewrite !Z.ltb_lt in F. lia.
  - apply andb_true_iff in F. rewrite Z.leb_le, Z.ltb_lt in F. lia.
Qed.
Lemma load_plain : Forall plain load_items.
Proof. unfold load_items. apply plain_flat. intros i I. apply in_seq in I. pl. Qed.
Lemma save_plain m : (forall i j, word (m i j)) -> Forall plain (save_items m).
Proof. intros H. unfold save_items. apply plain_flat. intros j J. apply in_seq in J. apply plain_flat. intros i I. apply in_seq in I. apply Forall_cons; [exact (H i j)|]. pl. Qed.
Definition call_items : list item := [Ipush 0; Iop 82; Ijump 86 (Some 1%nat)].
Definition round (Fr P i : nat) (k : Z) : list item := pos_ark 6 k ++ sbox_items Fr P i ++ Ipushlabel (2 + i) :: call_items ++ [Ilabel (2 + i)].
Lemma round_eq Fr P i k : pos_round 6 Fr P i k = round Fr P i k.
Proof. reflexivity. Qed.
Lemma round_length Fr P i k : (length (round Fr P i k) <= 115)%nat.
Proof.
  unfold round. rewrite !app_length. cbn [length]. change (length (pos_ark 6 k)) with 38%nat.
  assert (length (sbox_items Fr P i) <= 72)%nat by (unfold sbox_items; destruct (_ || _); cbn; lia). cbn [call_items length app]. lia.
Qed.
Lemma rounds_forward Fr P C r : Forall word C -> forall k i Pd D, (forall t, In t Pd -> t = 1%nat) -> (forall t, In t D -> t < 2 + i /\ t <> 1)%nat ->
  (forall P' D', (forall t, In t P' -> t = 1%nat) -> (In 1%nat Pd \/ (0 < k)%nat -> In 1%nat P') -> ~ In 1%nat D' -> forward P' D' r) ->
  forward Pd D (flat_map (fun i => round Fr P i (nth i C 0)) (seq i k) ++ r).
Proof.
  intros CR. induction k as [|k IH]; intros i Pd D HP HD HR; cbn [seq flat_map app].
  - apply HR; [exact HP|intros [?|?]; [assumption|lia]|]. intros X. apply HD in X. lia.
  - unfold round at 1. rewrite <- !app_assoc. apply forward_plain; [apply ark_plain, nth_all; [unfold word; lia|exact CR]|]. rewrite <- ?app_assoc. apply forward_plain; [apply sbox_plain|]. cbn [app call_items forward].
    split; [intros X; apply HD in X; lia|]. split; [lia|]. split; [lia|]. split; [lia|]. split; [intros X; apply HD in X; lia|]. split; [right; now left|]. split; [intros X; apply HD in X; lia|].
    apply IH.
    + intros t X. apply in_remove in X. cbn [In] in X. destruct X as [[X|[X|X]] N]; [now symmetry|congruence|now apply HP].
    + intros t [<-|X]; [lia|]. apply HD in X. lia.
    + intros P' D' H1 H2 H3. apply HR; [exact H1| |exact H3]. intros _. apply H2. left. apply in_in_remove; [lia|now left].
Qed.
Lemma saves_fst f : map fst (saves f) = map fst (saves (fun _ _ => 0)).
Proof. reflexivity. Qed.
Section Con.
Variables (q : Z) (Fr P : nat) (C : list Z) (M : list (list Z)).
Hypothesis Q : 0 < q < 2 ^ 256 - 1.
Hypothesis CR : Forall word C.
Hypothesis LC : length C = (Fr + P)%nat.
Hypothesis RPOS : (0 < Fr + P)%nat.
Hypothesis SZ : Z.of_nat (Fr + P) <= 4000.
Hypothesis LM : length M = 6%nat.
Hypothesis RM : Forall (fun r => length r = 6%nat /\ Forall word r) M.
Definition m (i j : nat) : Z := nth j (nth i M []) 0.
Lemma m_word i j : word (m i j).
Proof.
  unfold m. apply nth_all; [unfold word; lia|]. apply nth_all; [apply Forall_nil|]. revert RM. apply Forall_impl. tauto.
Qed.
Definition head : list item := [Ipush (2 ^ 224); Ipush 0; Iop 53; Iop 4; Ipush 0xc4420fb4; Iop 20].
Definition rounds (i k : nat) : list item := flat_map (fun i => round Fr P i (nth i C 0)) (seq i k).
Definition fin : list item := [Ipush 0; Iop 82; Ipush 32; Ipush 0; Iop 243].
Definition mixing : list item := mix_body ++ [Ipush 0; Iop 81; Ijump 86 None].
Definition body : list item := save_items m ++ Ipush q :: load_items ++ rounds 0 (Fr + P) ++ fin ++ Ilabel 1 :: mixing.
Definition items : list item := head ++ Ijump 87 (Some 0%nat) :: Iop 254 :: Ilabel 0 :: body.
Lemma items_eq : poseidon_contract_opcodes q 6 Fr P C M = items.
Proof. unfold poseidon_contract_opcodes. rewrite mix_split. unfold items, body, mixing, fin. rewrite <- ?app_assoc. reflexivity. Qed.
Lemma items_forward : forward [] [] items.
Proof.
  unfold items, body. apply forward_plain; [unfold head; pl|]. cbn [forward remove Nat.eq_dec nat_rec nat_rect In].
  split; [lia|]. split; [tauto|]. split; [lia|]. split; [now left|]. split; [tauto|].
  apply forward_plain; [apply save_plain, m_word|]. cbn [forward]. split; [lia|]. apply forward_plain; [exact load_plain|].
  apply rounds_forward; [exact CR|cbn; tauto|cbn; lia|]. intros P' D' H1 H2 H3. apply forward_plain; [unfold fin; pl|]. cbn [forward]. split; [apply H2; right; exact RPOS|]. split; [exact H3|].
  unfold mixing. apply forward_plain; [exact mix_plain|]. cbn [forward]. split; [lia|]. split; [lia|]. split; [lia|].
  clear H2. induction P' as [|t P' IH]; [reflexivity|]. cbn [remove]. destruct (Nat.eq_dec 1 t) as [|N]; [apply IH; intros t' T'; apply H1; now right|]. exfalso. apply N. symmetry. apply H1. now left.
Qed.
Lemma rounds_length : forall k i, (length (rounds i k) <= 115 * k)%nat.
Proof. induction k as [|k IH]; intros i; [cbn; lia|]. unfold rounds in *. cbn [seq flat_map]. rewrite app_length. pose proof (round_length Fr P i (nth i C 0)). specialize (IH (S i)). lia. Qed.
Lemma items_size : Z.of_nat (size items) < 2 ^ 24.
Proof.
  pose proof (size_le items _ _ items_forward) as S. assert (L : (length items <= 500 + 115 * (Fr + P))%nat).
  { unfold items, body, mixing. repeat (rewrite ?app_length; cbn [length]). pose proof (rounds_length (Fr + P) 0). change (length head) with 6%nat. change (length (save_items m)) with 108%nat. change (length load_items) with 12%nat. change (length fin) with 5%nat. change (length mix_body) with 282%nat. lia. }
  lia.
Qed.

(** ** the run *)
Section Run.
Variables (code cd : list Z) (pos : nat -> nat).
Hypothesis HC : code = flat_map (item_bytes pos) items.
Hypothesis HL : forall A t B, items = A ++ Ilabel t :: B -> pos t = length (flat_map (item_bytes pos) A) /\ valid_dest code (Z.of_nat (pos t)) = true /\
  skipn (pos t) code = 0x5b :: flat_map (item_bytes pos) B.
Local Notation run n := (evm_run n code cd).
Local Notation fm := (flat_map (item_bytes pos)).
Lemma pos_small A t B : items = A ++ Ilabel t :: B -> 0 <= Z.of_nat (pos t) < 2 ^ 24.
Proof.
  intros E. destruct (HL A t B E) as [-> _]. rewrite size_eq. pose proof items_size as S. rewrite E, size_app in S. lia.
Qed.
Lemma run_label n t r st mem A B : items = A ++ Ilabel t :: B -> run (S n) (0x62 :: be_bytes 3 (Z.of_nat (pos t)) ++ r) st mem = run n r (Z.of_nat (pos t) :: st) mem.
Proof. intros E. change 98 with (0x5f + Z.of_nat 3). rewrite run_raw; [|lia|apply be_bytes_len]. rewrite be_value_be; [reflexivity|exact (pos_small A t B E)]. Qed.
Lemma run_to n t l st mem A B : items = A ++ Ilabel t :: B -> run (S (S n)) (86 :: l) (Z.of_nat (pos t) :: st) mem = run n (fm B) st mem.
Proof. intros E. destruct (HL A t B E) as (_ & V & S). rewrite run_jump, V, Nat2Z.id, S. apply run_jumpdest. Qed.
Definition minv (mem : memory) : Prop := forall i j, (i < 6)%nat -> (j < 6)%nat -> ml mem ((1 + Z.of_nat i * 6 + Z.of_nat j) * 32) = m i j.
Lemma minv_ms mem v : minv mem -> minv (ms mem 0 v).
Proof. intros H i j I J. rewrite ml_ms_other by lia. now apply H. Qed.
Definition rowv (a : list Z) (i : nat) : Z :=
  (m i 0 * nth 0 a 0 + (m i 1 * nth 1 a 0 + (m i 2 * nth 2 a 0 + (m i 3 * nth 3 a 0 + (m i 4 * nth 4 a 0 + (m i 5 * nth 5 a 0 + 0)))))) mod q.
Lemma am_q a b : am a b q = (a + b) mod q.
Proof. unfold am. destruct (Z.eqb_spec q 0); [lia|reflexivity]. Qed.
Lemma mm_q a b : mm a b q = (a * b) mod q.
Proof. unfold mm. destruct (Z.eqb_spec q 0); [lia|reflexivity]. Qed.
Lemma am_mod a b : am (a mod q) (b mod q) q = (a + b) mod q.
Proof. rewrite am_q. symmetry. apply Z.add_mod. lia. Qed.
Lemma sg_q x : sg mm q x = x ^ 5 mod q.
Proof.
  unfold sg. rewrite !mm_q. assert (q <> 0) by lia. replace (x ^ 5) with (x * x * (x * x) * x) by ring. rewrite <- Z.mul_mod by lia. rewrite Z.mul_mod_idemp_l by lia. reflexivity.
Qed.
Lemma row_q mem i a0 a1 a2 a3 a4 a5 : minv mem -> (i < 6)%nat ->
  row memory am mm ml q mem a0 a1 a2 a3 a4 a5 (Z.of_nat i) = rowv [a0; a1; a2; a3; a4; a5] i.
Proof.
  intros H I. unfold row, rowv. cbv zeta. cbn [nth].
  change 0 with (Z.of_nat 0) at 1. change ((1 + Z.of_nat i * 6 + 1) * 32) with ((1 + Z.of_nat i * 6 + Z.of_nat 1) * 32). change ((1 + Z.of_nat i * 6 + 2) * 32) with ((1 + Z.of_nat i * 6 + Z.of_nat 2) * 32).
  change ((1 + Z.of_nat i * 6 + 3) * 32) with ((1 + Z.of_nat i * 6 + Z.of_nat 3) * 32). change ((1 + Z.of_nat i * 6 + 4) * 32) with ((1 + Z.of_nat i * 6 + Z.of_nat 4) * 32). change ((1 + Z.of_nat i * 6 + 5) * 32) with ((1 + Z.of_nat i * 6 + Z.of_nat 5) * 32).
  rewrite !H by lia. rewrite !mm_q, !am_mod. f_equal. ring.
Qed.
(** one round of the contract *)
Definition sboxv (i : nat) (x : list Z) : list Z :=
  if (i <? Fr / 2)%nat || (P + Fr / 2 <=? i)%nat then map (fun x => x ^ 5 mod q) x else match x with [] => [] | y :: r => y ^ 5 mod q :: r end.
Definition roundv (i : nat) (a : list Z) : list Z := map (rowv (sboxv i (map (fun x => (x + nth i C 0) mod q) a))) (seq 0 6).
Lemma run_round_con i A R Am st mem : items = A ++ round Fr P i (nth i C 0) ++ R -> items = Am ++ Ilabel 1 :: mixing -> length st = 6%nat -> minv mem ->
  exists N mem', minv mem' /\ forall n, run (N + n) (fm (round Fr P i (nth i C 0) ++ R)) (st ++ [q]) mem = run n (fm R) (roundv i st ++ [q]) mem'.
Proof.
  intros E EM L MI. set (k := nth i C 0) in *. assert (K : word k) by (apply nth_all; [unfold word; lia|exact CR]).
  assert (E2 : items = (A ++ pos_ark 6 k ++ sbox_items Fr P i ++ Ipushlabel (2 + i) :: call_items) ++ Ilabel (2 + i) :: R).
  { rewrite E. unfold round. rewrite <- !app_assoc. cbn [app]. rewrite <- !app_assoc. reflexivity. }
  destruct st as [|a0 [|a1 [|a2 [|a3 [|a4 [|a5 [|? ?]]]]]]]; try discriminate. cbn [app].
  exists (length (pos_ark 6 k) + (length (sbox_items Fr P i) + (1 + (length (firstn 2 call_items) + (3 + (length mix_body + (2 + 2)))))))%nat, (ms mem 0 (Z.of_nat (pos (2 + i)%nat))).
  split; [now apply minv_ms|]. intros n. rewrite <- !Nat.add_assoc. unfold round. rewrite <- !app_assoc. rewrite flat_map_app.
  rewrite (irun_ok code cd pos _ _ _ _ _ _ _ (plain_pushes _ (ark_plain k K)) (irun_ark memory am mm dv eqv ml ms (cl cd) q k [] mem a0 a1 a2 a3 a4 a5)).
  rewrite flat_map_app. rewrite !am_q.
  assert (SB : exists y0 y1 y2 y3 y4 y5, sboxv i (map (fun x => (x + k) mod q) [a0; a1; a2; a3; a4; a5]) = [y0; y1; y2; y3; y4; y5] /\
    step_items cd (sbox_items Fr P i) [(a0 + k) mod q; (a1 + k) mod q; (a2 + k) mod q; (a3 + k) mod q; (a4 + k) mod q; (a5 + k) mod q; q] mem = Some ([y0; y1; y2; y3; y4; y5; q], mem)).
  { unfold sboxv, sbox_items, step_items. cbn [map]. destruct (_ || _); do 6 eexists; (split; [reflexivity|]); [rewrite irun_full|rewrite irun_partial]; rewrite !sg_q; reflexivity. }
  unfold roundv. fold k. destruct SB as (y0 & y1 & y2 & y3 & y4 & y5 & SB1 & SB2). rewrite SB1.
  rewrite (irun_ok code cd pos _ _ _ _ _ _ _ (plain_pushes _ (sbox_plain Fr P i)) SB2).
  cbn [app flat_map item_bytes]. cbn [Nat.add]. change (S (S i)) with (2 + i)%nat. rewrite (run_label _ _ _ _ _ _ _ E2).
  cbn [call_items firstn length Nat.add app flat_map item_bytes]. rewrite run_push by lia. cbn [app]. rewrite run_ms. rewrite <- app_assoc. rewrite (run_label _ 1 _ _ _ _ _ EM). cbn [app]. rewrite (run_to _ 1 _ _ _ _ _ EM).
  unfold mixing. rewrite flat_map_app.
  rewrite (irun_ok code cd pos _ _ _ _ _ _ _ (plain_pushes _ mix_plain) (irun_mix memory am mm dv eqv ml ms (cl cd) q [] (ms mem 0 (Z.of_nat (pos (2 + i)%nat))) y0 y1 y2 y3 y4 y5)).
  pose proof (minv_ms mem (Z.of_nat (pos (2 + i)%nat)) MI) as MI'.
  cbn [flat_map item_bytes]. rewrite run_push by lia. cbn [app]. rewrite run_ml. rewrite ml_ms_same by (pose proof (pos_small _ _ _ E2); lia).
  rewrite (run_to _ _ _ _ _ _ _ E2). cbn [map seq app].
  rewrite <- (row_q _ 0 y0 y1 y2 y3 y4 y5 MI'), <- (row_q _ 1 y0 y1 y2 y3 y4 y5 MI'), <- (row_q _ 2 y0 y1 y2 y3 y4 y5 MI'), <- (row_q _ 3 y0 y1 y2 y3 y4 y5 MI'), <- (row_q _ 4 y0 y1 y2 y3 y4 y5 MI'), <- (row_q _ 5 y0 y1 y2 y3 y4 y5 MI') by lia.
  reflexivity.
Qed.
Lemma run_rounds_con Am : items = Am ++ Ilabel 1 :: mixing -> forall k i A R st mem, items = A ++ rounds i k ++ R -> length st = 6%nat -> minv mem ->
  exists N mem', forall n, run (N + n) (fm (rounds i k ++ R)) (st ++ [q]) mem = run n (fm R) (fold_left (fun a i => roundv i a) (seq i k) st ++ [q]) mem'.
Proof.
  intros EM. induction k as [|k IH]; intros i A R st mem E L MI; [exists 0%nat, mem; reflexivity|]. unfold rounds in *. cbn [seq flat_map fold_left] in *. rewrite <- app_assoc in *.
  destruct (run_round_con i A _ Am st mem E EM L MI) as (N1 & mem1 & M1 & H1). rewrite app_assoc in E. destruct (IH (S i) _ R (roundv i st) mem1 E eq_refl M1) as (N2 & mem2 & H2).
  exists (N1 + N2)%nat, mem2. intros n. rewrite <- Nat.add_assoc, H1. apply H2.
Qed.
End Run.
(** ** the Python function *)
Lemma cong_shift x y : x mod q = y mod q -> exists k, x = y + k * q.
Proof. intros H. exists (x / q - y / q). pose proof (Z.div_mod x q ltac:(lia)). pose proof (Z.div_mod y q ltac:(lia)). rewrite H in *. lia. Qed.
Lemma rowv_ext a b i : (forall j, nth j a 0 mod q = nth j b 0 mod q) -> rowv a i = rowv b i.
Proof.
  intros H. unfold rowv. destruct (cong_shift _ _ (H 0%nat)) as [k0 ->], (cong_shift _ _ (H 1%nat)) as [k1 ->], (cong_shift _ _ (H 2%nat)) as [k2 ->], (cong_shift _ _ (H 3%nat)) as [k3 ->], (cong_shift _ _ (H 4%nat)) as [k4 ->], (cong_shift _ _ (H 5%nat)) as [k5 ->].
  match goal with |- ?l mod q = ?r mod q => replace l with (r + (m i 0 * k0 + m i 1 * k1 + m i 2 * k2 + m i 3 * k3 + m i 4 * k4 + m i 5 * k5) * q) by ring end. apply Z_mod_plus_full.
Qed.
Lemma py_dot_row row y0 y1 y2 y3 y4 y5 : length row = 6%nat -> py_dot row [y0; y1; y2; y3; y4; y5] =
  Ok (nth 0 row 0 * y0 + (nth 1 row 0 * y1 + (nth 2 row 0 * y2 + (nth 3 row 0 * y3 + (nth 4 row 0 * y4 + (nth 5 row 0 * y5 + 0)))))).
Proof. destruct row as [|r0 [|r1 [|r2 [|r3 [|r4 [|r5 [|? ?]]]]]]]; try discriminate. reflexivity. Qed.
Lemma py_mix_rows ys : length ys = 6%nat -> py_mix q ys M = Ok (map (rowv ys) (seq 0 6)).
Proof.
  destruct ys as [|y0 [|y1 [|y2 [|y3 [|y4 [|y5 [|? ?]]]]]]]; try discriminate. intros _. unfold rowv, m. revert RM. generalize LM. destruct M as [|r0 [|r1 [|r2 [|r3 [|r4 [|r5 [|? ?]]]]]]]; try discriminate. intros _ F.
  unfold py_mix. rewrite Forall_forall in F. cbn [M_Bits.omapM]. rewrite !py_dot_row by (apply F; cbn [In]; tauto). reflexivity.
Qed.
Lemma pow5_mod x : (x mod q) ^ 5 mod q = x ^ 5 mod q.
Proof. symmetry. apply Zpower_mod. lia. Qed.
Lemma py_round i st : length st = 6%nat -> exists ys, py_sbox q 5 Fr P (map (fun x => x + nth i C 0) st) i = Ok ys /\ py_mix q ys M = Ok (roundv i st).
Proof.
  intros L. set (k := nth i C 0). destruct st as [|a0 [|a1 [|a2 [|a3 [|a4 [|a5 [|? ?]]]]]]]; try discriminate.
  unfold py_sbox, roundv, sboxv, py_pow. fold k. rewrite (Nat.add_comm (Fr / 2) P). destruct ((i <? Fr / 2)%nat || (P + Fr / 2 <=? i)%nat); cbn [map]; eexists; (split; [reflexivity|]); rewrite py_mix_rows by reflexivity; apply (f_equal Ok); apply map_ext; intros r; apply rowv_ext; intros j;
  do 6 (destruct j as [|j]; [cbn [nth]; rewrite ?pow5_mod, ?Z.mod_mod by lia; reflexivity|]); cbn [nth]; destruct j; reflexivity.
Qed.
Lemma roundv_len i st : length (roundv i st) = 6%nat.
Proof. reflexivity. Qed.
Lemma py_rounds_con : forall k i st, (i + k = Fr + P)%nat -> length st = 6%nat -> py_rounds q 5 Fr P i (skipn i C) M st = Ok (fold_left (fun a i => roundv i a) (seq i k) st).
Proof.
  induction k as [|k IH]; intros i st E L.
  - rewrite skipn_all2 by lia. reflexivity.
  - assert (S : skipn i C = nth i C 0 :: skipn (S i) C).
    { assert (I : (i < length C)%nat) by lia. clear - I. revert i I. induction C as [|c l IH]; intros i I; [cbn in I; lia|]. destruct i; [reflexivity|]. cbn [skipn nth]. apply IH. cbn [length] in I. lia. }
    rewrite S. cbn [py_rounds seq fold_left]. destruct (py_round i st L) as (ys & -> & H). cbn [obind]. rewrite H. cbn [obind]. apply IH; [lia|reflexivity].
Qed.
(** ** a call *)
Definition cdata (s ptr len : Z) (inputs : list Z) : list Z := be_bytes 4 s ++ be_bytes 32 ptr ++ be_bytes 32 len ++ flat_map (be_bytes 32) inputs.
Lemma sel_con s ptr len inputs : 0 <= s < 2 ^ 32 -> dv (cl (cdata s ptr len inputs) 0) (2 ^ 224) = s.
Proof.
  intros S. unfold dv. destruct (Z.eqb_spec (2 ^ 224) 0) as [X|_]; [discriminate|]. unfold cl, cdata. rewrite read_copy; [|lia|lia|lia|rewrite !app_length, !be_bytes_len; lia]. change (Z.to_nat (0 + (0 - 0))) with 0%nat. cbn [skipn].
  change 32%nat with (4 + 28)%nat at 1. rewrite <- (be_bytes_len 4 s) at 1. rewrite firstn_app_2. rewrite be_value_app, be_value_be by exact S.
  match goal with |- context [be_value ?l] => set (t := l) end.
  assert (T : length t = 28%nat). { unfold t. rewrite firstn_length, !app_length, !be_bytes_len. lia. }
  assert (B : Forall (fun d => 0 <= d < 256) t). { unfold t. rewrite firstn_app, be_bytes_len. change (28 - 32)%nat with 0%nat. rewrite firstn_O, app_nil_r. apply Forall_forall. intros d D. apply (Forall_forall (fun d => 0 <= d < 256) (be_bytes 32 ptr)); [apply be_bytes_byte|]. rewrite <- (firstn_skipn 28 (be_bytes 32 ptr)). apply in_or_app. now left. }
  apply be_value_range in B. rewrite T in *. change (256 ^ Z.of_nat 28) with (2 ^ 224) in *. symmetry. apply (Z.div_unique _ _ s (be_value t)); lia.
Qed.
Lemma words_pad n : flat_map (be_bytes 32) (repeat 0 n) = repeat 0 (32 * n).
Proof. induction n as [|n IH]; [reflexivity|]. cbn [repeat flat_map]. rewrite IH. replace (32 * S n)%nat with (32 + 32 * n)%nat by lia. rewrite repeat_app. reflexivity. Qed.
Lemma words_con s ptr len inputs : Forall (fun v => 0 <= v < 2 ^ 256) inputs -> (length inputs <= 6)%nat ->
  let cd := cdata s ptr len inputs in [cl cd 0x44; cl cd 0x64; cl cd 0x84; cl cd 0xa4; cl cd 0xc4; cl cd 0xe4] = inputs ++ repeat 0 (6 - length inputs).
Proof.
  intros F L cd. set (w := inputs ++ repeat 0 (6 - length inputs)). assert (LW : length w = 6%nat) by (unfold w; rewrite app_length, repeat_length; lia).
  assert (FW : Forall (fun v => 0 <= v < 2 ^ 256) w). { unfold w. apply Forall_app. split; [exact F|]. apply Forall_forall. intros x X. apply repeat_spec in X. subst x. lia. }
  set (h := be_bytes 4 s ++ be_bytes 32 ptr ++ be_bytes 32 len). assert (LH : length h = 68%nat) by (unfold h; rewrite !app_length, !be_bytes_len; reflexivity).
  assert (E : cd ++ repeat 0 (32 * (6 - length inputs)) = h ++ flat_map (be_bytes 32) w).
  { unfold cd, cdata, h, w. rewrite flat_map_app, words_pad, <- !app_assoc. reflexivity. }
  assert (X : forall o, cl cd o = cl (h ++ flat_map (be_bytes 32) w) o) by (intros o; rewrite <- E; symmetry; apply cl_pad). rewrite !X.
  clearbody w. destruct w as [|w0 [|w1 [|w2 [|w3 [|w4 [|w5 [|? ?]]]]]]]; try discriminate. rewrite Forall_forall in FW. cbn [flat_map].
  assert (Y : forall a v b o, In v [w0; w1; w2; w3; w4; w5] -> o = Z.of_nat (length (h ++ a)) -> cl (h ++ a ++ be_bytes 32 v ++ b) o = v). { intros a v b o I O. rewrite app_assoc. apply cl_word; [now apply FW|exact O]. }
  f_equal; [apply (Y []); [cbn; tauto|rewrite app_nil_r, LH; reflexivity]|].
  f_equal; [apply (Y (be_bytes 32 w0)); [cbn; tauto|rewrite !app_length, !be_bytes_len, LH; reflexivity]|].
  f_equal; [rewrite (app_assoc (be_bytes 32 w0)); apply (Y (be_bytes 32 w0 ++ be_bytes 32 w1)); [cbn; tauto|rewrite !app_length, !be_bytes_len, LH; reflexivity]|].
  f_equal; [rewrite (app_assoc (be_bytes 32 w0)), (app_assoc (_ ++ be_bytes 32 w1)); apply Y; [cbn; tauto|rewrite !app_length, !be_bytes_len, LH; reflexivity]|].
  f_equal; [rewrite (app_assoc (be_bytes 32 w0)), (app_assoc (_ ++ be_bytes 32 w1)), (app_assoc (_ ++ be_bytes 32 w2)); apply Y; [cbn; tauto|rewrite !app_length, !be_bytes_len, LH; reflexivity]|].
  f_equal; rewrite (app_assoc (be_bytes 32 w0)), (app_assoc (_ ++ be_bytes 32 w1)), (app_assoc (_ ++ be_bytes 32 w2)), (app_assoc (_ ++ be_bytes 32 w3)); apply Y; [cbn; tauto|rewrite !app_length, !be_bytes_len, LH; reflexivity].
Qed.

(** the memory after the constants are stored *)
Lemma saved_minv : minv (fold_left store (saves m) (fun _ => 0)).
Proof.
  intros i j I J. replace ((1 + Z.of_nat i * 6 + Z.of_nat j) * 32) with (Z.of_nat (1 + i * 6 + j) * 32) by lia. apply stores_in.
  - rewrite saves_fst. vm_compute. repeat (apply NoDup_cons; [cbn [In]; intuition discriminate|]). apply NoDup_nil.
  - unfold saves. apply in_flat_map. exists j. split; [apply in_seq; lia|]. apply in_map_iff. exists i. split; [reflexivity|apply in_seq; lia].
  - pose proof (m_word i j) as W. unfold word in W. lia.
Qed.
Lemma run_con code pos s ptr len inputs : code = flat_map (item_bytes pos) items ->
  (forall A t B, items = A ++ Ilabel t :: B -> pos t = length (flat_map (item_bytes pos) A) /\ valid_dest code (Z.of_nat (pos t)) = true /\
    skipn (pos t) code = 0x5b :: flat_map (item_bytes pos) B) ->
  0 <= s < 2 ^ 32 -> Forall (fun v => 0 <= v < 2 ^ 256) inputs -> (1 <= length inputs <= 5)%nat ->
  exists v n, py_poseidon q 5 6 Fr P C M inputs = Ok v /\ forall fuel, (n <= fuel)%nat -> evm_call fuel code (cdata s ptr len inputs) = if s =? 0xc4420fb4 then Ok (be_bytes 32 v) else Throw.
Proof.
  intros HC HL S F L. set (cd := cdata s ptr len inputs). set (w := inputs ++ repeat 0 (6 - length inputs)).
  assert (LW : length w = 6%nat) by (unfold w; rewrite app_length, repeat_length; lia).
  pose proof (py_rounds_con (Fr + P) 0 w eq_refl LW) as PY. cbn [skipn] in PY.
  set (res := fold_left (fun a i => roundv i a) (seq 0 (Fr + P)) w) in *.
  assert (LR : length res = 6%nat).
  { unfold res. destruct (Fr + P)%nat as [|k] eqn:K; [lia|]. rewrite seq_S, fold_left_app. reflexivity. }
  destruct res as [|v res'] eqn:RES; [discriminate|].
  assert (EM : items = (head ++ Ijump 87 (Some 0%nat) :: Iop 254 :: Ilabel 0 :: save_items m ++ Ipush q :: load_items ++ rounds 0 (Fr + P) ++ fin) ++ Ilabel 1 :: mixing).
  { unfold items, body. rewrite <- !app_assoc. cbn [app]. rewrite <- !app_assoc. cbn [app]. rewrite <- !app_assoc. reflexivity. }
  assert (E0 : items = (head ++ [Ijump 87 (Some 0%nat); Iop 254]) ++ Ilabel 0 :: body) by (unfold items; rewrite <- !app_assoc; reflexivity).
  assert (ER : items = (head ++ Ijump 87 (Some 0%nat) :: Iop 254 :: Ilabel 0 :: save_items m ++ Ipush q :: load_items) ++ rounds 0 (Fr + P) ++ fin ++ Ilabel 1 :: mixing).
  { unfold items, body. rewrite <- !app_assoc. cbn [app]. rewrite <- !app_assoc. reflexivity. }
  destruct (run_rounds_con code cd pos HL _ EM (Fr + P) 0 _ _ w _ ER LW saved_minv) as (N & mem' & HR).
  exists v, (length head + (3 + (length (save_items m) + (1 + (length load_items + (N + 5))))))%nat. split.
  { unfold py_poseidon, py_poseidon_state. destruct (Nat.ltb_spec 0 (length inputs)); [|lia]. destruct (Nat.ltb_spec (length inputs) 6); [|lia]. cbn [orb obind]. fold w. rewrite PY. reflexivity. }
  intros fuel FU. set (n := (fuel - (length head + (3 + (length (save_items m) + (1 + (length load_items + (N + 5))))))  )%nat).
  replace fuel with (length head + (3 + (length (save_items m) + (1 + (length load_items + (N + (5 + n)))))))%nat by (unfold n; lia). clearbody n. clear FU.
  unfold evm_call. rewrite HC at 2. unfold items at 1. rewrite flat_map_app.
  rewrite (irun_ok code cd pos head [] (fun _ => 0) [eqv 0xc4420fb4 (dv (cl cd 0) (2 ^ 224))] (fun _ => 0)); [|apply plain_pushes; unfold head; pl|reflexivity].
  unfold cd at 2. rewrite sel_con by exact S. cbn [flat_map item_bytes Nat.add]. rewrite <- app_assoc. rewrite <- app_comm_cons. rewrite (run_label code cd pos HL _ 0 _ _ _ _ _ E0). cbn [app]. rewrite run_jumpi.
  unfold eqv. rewrite (Z.eqb_sym 3292663732 s). destruct (s =? 3292663732); [|change (0 =? 0) with true; cbv iota; apply run_invalid]. change (1 =? 0) with false. cbv iota. destruct (HL _ _ _ E0) as (_ & V & SK). rewrite V, Nat2Z.id, SK, run_jumpdest.
  unfold body. rewrite flat_map_app.
  rewrite (irun_ok code cd pos (save_items m) [] (fun _ => 0) [] (fold_left store (saves m) (fun _ => 0))); [|apply plain_pushes, save_plain, m_word|apply irun_save].
  cbn [flat_map item_bytes]. rewrite run_push by exact (conj (Z.lt_le_incl _ _ (proj1 Q)) (proj2 Q)). rewrite flat_map_app.
  rewrite (irun_ok code cd pos load_items [q] _ (w ++ [q]) (fold_left store (saves m) (fun _ => 0))); [|apply plain_pushes, load_plain|].
  2: { unfold step_items. rewrite irun_load. apply f_equal. apply (f_equal (fun z => (z, _))). unfold w. rewrite <- (words_con s ptr len inputs F ltac:(lia)). reflexivity. }
  rewrite HR. fold res. rewrite RES. cbn [app fin flat_map item_bytes Nat.add]. rewrite <- ?app_assoc. rewrite run_push by lia. cbn [app]. rewrite run_ms. rewrite <- ?app_assoc. rewrite run_push by lia. rewrite <- ?app_assoc. rewrite run_push by lia. cbn [app]. rewrite run_return.
  apply (f_equal Ok). unfold ms. rewrite read_copy; [|lia|lia|lia|rewrite be_bytes_len; reflexivity]. change (Z.to_nat (0 + (0 - 0))) with 0%nat. cbn [skipn]. apply firstn_all2. rewrite be_bytes_len. reflexivity.
Qed.
End Con.
Lemma poseidon_contract_lemma : forall q Fr P C M, 0 < q < 2 ^ 256 - 1 -> length C = (Fr + P)%nat -> (0 < Fr + P)%nat -> Z.of_nat (Fr + P) <= 4000 -> length M = 6%nat ->
  Forall (fun c => 0 <= c < 2 ^ 256 - 1) C -> Forall (fun r => length r = 6%nat /\ Forall (fun c => 0 <= c < 2 ^ 256 - 1) r) M ->
  exists tx body, poseidon_contract q 6 Fr P C M = Ok tx /\ (forall calldata fuel, (9 <= fuel)%nat -> evm_call fuel tx calldata = Ok body) /\
    forall s ptr len inputs, 0 <= s < 2 ^ 32 -> Forall (fun v => 0 <= v < 2 ^ 256) inputs -> (1 <= length inputs <= 5)%nat ->
      exists v n, py_poseidon q 5 6 Fr P C M inputs = Ok v /\ forall fuel, (n <= fuel)%nat ->
        evm_call fuel body (be_bytes 4 s ++ be_bytes 32 ptr ++ be_bytes 32 len ++ flat_map (be_bytes 32) inputs) = if s =? 0xc4420fb4 then Ok (be_bytes 32 v) else Throw.
Proof.
  intros q Fr P C M Q LC R0 SZ LM CR RM. assert (FW : forward [] [] (items q Fr P C M)) by (apply items_forward; assumption). assert (SI : Z.of_nat (size (items q Fr P C M)) < 2 ^ 24) by (apply items_size; assumption).
  destruct (forward_program_lemma _ FW SI) as (g & pos & G & J & HC & HL).
  assert (T : exists tx, create_tx_data g = Ok tx).
  { unfold create_tx_data. rewrite J. rewrite append_plain; [cbn [obind]; now eexists|]. apply Forall_cons; [cbn [plain]; split; [lia|]|pl]. rewrite HC, size_eq. lia. }
  destruct T as [tx T]. exists tx, (cg_code g). unfold poseidon_contract. rewrite items_eq, G. cbn [obind]. split; [exact T|]. split; [intros cd fuel F; exact (deploy_lemma _ tx cd T fuel F)|].
  intros s ptr len inputs S F L. apply (run_con q Fr P C M) with (pos := pos); assumption.
Qed.
(** for other widths the inputs are taken from the wrong places *)
Lemma poseidon_width_witness : exists q t Fr P C M inputs tx b v r, t = 3%nat /\ length C = (Fr + P)%nat /\ length M = t /\ Forall (fun row => length row = t) M /\ (length inputs < t)%nat /\
  poseidon_contract q t Fr P C M = Ok tx /\ evm_call 9 tx [] = Ok b /\ py_poseidon q 5 t Fr P C M inputs = Ok v /\
  evm_call 1000 b (be_bytes 4 0xc4420fb4 ++ be_bytes 32 32 ++ be_bytes 32 (Z.of_nat (length inputs)) ++ flat_map (be_bytes 32) inputs) = Ok r /\ r <> be_bytes 32 v.
Proof.
  exists 1009, 3%nat, 2%nat, 1%nat, [11; 22; 33], [[1; 2; 3]; [2; 6; 10]; [5; 12; 19]], [1; 2].
  eexists _, _, _, _. split; [reflexivity|]. split; [reflexivity|]. split; [reflexivity|]. split; [repeat constructor|]. split; [cbn; lia|].
  split; [vm_compute; reflexivity|]. split; [vm_compute; reflexivity|]. split; [vm_compute; reflexivity|]. split; [vm_compute; reflexivity|]. vm_compute. discriminate.
Qed.
