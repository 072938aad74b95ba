(** Lemmas for C133: straight-line code on the EVM, executed instruction by instruction. *)
From Coq Require Import List ZArith Bool Lia Arith.
From Verif Require Import Base M_Evm M_SolMimc P_SolMimc P_PyPoint P_Padding P_Poseidon M_PyEvmasm Spec_PyEvmasm P_PyEvmasm Q_PyEvmasm.
Import ListNotations.
Local Open Scope nat_scope.
Local Open Scope Z_scope.

(** ** execution with abstract arithmetic and memory *)
Section IRun.
Variables (W : Type) (am mm : Z -> Z -> Z -> Z) (dv eqv : Z -> Z -> Z) (ml : W -> Z -> Z) (ms : W -> Z -> Z -> W) (cl : Z -> Z).
Fixpoint irun (l : list item) (st : list Z) (w : W) : option (list Z * W) :=
  match l with
  | [] => Some (st, w)
  | Ipush v :: r => irun r (v :: st) w
  | Iop c :: r =>
    if (128 <=? c) && (c <=? 143) then match nth_error st (Z.to_nat (c - 128)) with Some v => irun r (v :: st) w | None => None end
    else if (144 <=? c) && (c <=? 159) then
      match st with x :: s => match nth_error s (Z.to_nat (c - 144)) with Some y => irun r (y :: set_nth (Z.to_nat (c - 144)) x s) w | None => None end | [] => None end
    else if c =? 4 then match st with a :: b :: s => irun r (dv a b :: s) w | _ => None end
    else if c =? 8 then match st with a :: b :: n :: s => irun r (am a b n :: s) w | _ => None end
    else if c =? 9 then match st with a :: b :: n :: s => irun r (mm a b n :: s) w | _ => None end
    else if c =? 20 then match st with a :: b :: s => irun r (eqv a b :: s) w | _ => None end
    else if c =? 53 then match st with a :: s => irun r (cl a :: s) w | _ => None end
    else if c =? 80 then match st with _ :: s => irun r s w | _ => None end
    else if c =? 81 then match st with a :: s => irun r (ml w a :: s) w | _ => None end
    else if c =? 82 then match st with a :: v :: s => irun r s (ms w a v) | _ => None end
    else None
  | _ => None
  end.
Variables (q k : Z) (s : list Z) (w : W) (a0 a1 a2 a3 a4 a5 : Z).
Definition sg (x : Z) : Z := mm (mm (mm x x q) (mm x x q) q) x q.
Lemma irun_ark : irun (pos_ark 6 k) (a0 :: a1 :: a2 :: a3 :: a4 :: a5 :: q :: s) w =
  Some (am a0 k q :: am a1 k q :: am a2 k q :: am a3 k q :: am a4 k q :: am a5 k q :: q :: s, w).
Proof. vm_compute. reflexivity. Qed.
Lemma irun_full : irun (flat_map (fun j => pos_sigma j 6) (seq 0 6)) (a0 :: a1 :: a2 :: a3 :: a4 :: a5 :: q :: s) w =
  Some (sg a0 :: sg a1 :: sg a2 :: sg a3 :: sg a4 :: sg a5 :: q :: s, w).
Proof. vm_compute. reflexivity. Qed.
Lemma irun_partial : irun (pos_sigma 0 6) (a0 :: a1 :: a2 :: a3 :: a4 :: a5 :: q :: s) w =
  Some (sg a0 :: a1 :: a2 :: a3 :: a4 :: a5 :: q :: s, w).
Proof. vm_compute. reflexivity. Qed.
Definition mix_body : list item := firstn (length (pos_mix 6) - 4) (skipn 1 (pos_mix 6)).
Definition row (i : Z) : Z :=
  let m j := ml w ((1 + i * 6 + j) * 32) in
  am (am (am (am (am (mm a0 (m 0) q) (mm a1 (m 1) q) q) (mm a2 (m 2) q) q) (mm a3 (m 3) q) q) (mm a4 (m 4) q) q) (mm a5 (m 5) q) q.
Lemma irun_mix : irun mix_body (a0 :: a1 :: a2 :: a3 :: a4 :: a5 :: q :: s) w = Some (row 0 :: row 1 :: row 2 :: row 3 :: row 4 :: row 5 :: q :: s, w).
Proof. vm_compute. reflexivity. Qed.
Variable m : nat -> nat -> Z.
Definition save_items : list item :=
  flat_map (fun j => flat_map (fun i => [Ipush (m i j); Ipush ((1 + Z.of_nat i * 6 + Z.of_nat j) * 32); Iop 0x52]) (seq 0 6)) (seq 0 6).
Definition saves : list (nat * Z) := flat_map (fun j => map (fun i => ((1 + i * 6 + j)%nat, m i j)) (seq 0 6)) (seq 0 6).
Lemma irun_save : irun save_items s w = Some (s, fold_left (fun w p => ms w (Z.of_nat (fst p) * 32) (snd p)) saves w).
Proof. vm_compute. reflexivity. Qed.
Definition load_items : list item := flat_map (fun i => [Ipush (0x44 + 0x20 * (5 - Z.of_nat i)); Iop 0x35]) (seq 0 6).
Lemma irun_load : irun load_items s w = Some (cl 0x44 :: cl 0x64 :: cl 0x84 :: cl 0xa4 :: cl 0xc4 :: cl 0xe4 :: s, w).
Proof. vm_compute. reflexivity. Qed.
Lemma irun_app : forall l1 l2 st w1 st' w', irun l1 st w1 = Some (st', w') -> irun (l1 ++ l2) st w1 = irun l2 st' w'.
Proof.
  clear. induction l1 as [|i l1 IH]; intros l2 st w1 st' w' H; cbn [irun app] in *; [now injection H as <- <-|].
  destruct i as [c|v| | |]; try discriminate; [|now apply IH].
  repeat match type of H with
  | (if ?b then _ else _) = _ => destruct b
  | match ?x with _ => _ end = _ => destruct x; try discriminate
  end; try discriminate; now apply IH.
Qed.
End IRun.
(** ** the actual arithmetic and memory *)
Definition am (a b n : Z) : Z := if n =? 0 then 0 else (a + b) mod n.
Definition mm (a b n : Z) : Z := if n =? 0 then 0 else (a * b) mod n.
Definition dv (a b : Z) : Z := if b =? 0 then 0 else a / b.
Definition eqv (a b : Z) : Z := if a =? b then 1 else 0.
Definition ml (mem : memory) (a : Z) : Z := be_value (read mem a 32).
Definition ms (mem : memory) (a v : Z) : memory := copy_to mem a 0 32 (be_bytes 32 v).
Definition cl (cd : list Z) (o : Z) : Z := be_value (read (copy_to (fun _ => 0) 0 o 32 cd) 0 32).
Definition pushes (i : item) : Prop := match i with Ipush v => 0 <= v < 2 ^ 256 - 1 | _ => True end.
Definition step_items cd := irun memory am mm dv eqv ml ms (cl cd).
Section Steps2.
Variables code cd : list Z.
Local Notation run n := (evm_run n code cd).
Lemma run_am n l a b q st mem : run (S n) (8 :: l) (a :: b :: q :: st) mem = run n l (am a b q :: st) mem. Proof. unfold am. destruct q; stp; reflexivity. Qed.
Lemma run_mm n l a b q st mem : run (S n) (9 :: l) (a :: b :: q :: st) mem = run n l (mm a b q :: st) mem. Proof. unfold mm. destruct q; stp; reflexivity. Qed.
Lemma run_cl n l a st mem : run (S n) (53 :: l) (a :: st) mem = run n l (cl cd a :: st) mem. Proof. unfold cl. stp; reflexivity. Qed.
Lemma run_dv n l a b st mem : run (S n) (4 :: l) (a :: b :: st) mem = run n l (dv a b :: st) mem. Proof. apply run_div. Qed.
Lemma run_eqv n l a b st mem : run (S n) (20 :: l) (a :: b :: st) mem = run n l (eqv a b :: st) mem. Proof. apply run_eq. Qed.
Lemma run_ml n l a st mem : run (S n) (81 :: l) (a :: st) mem = run n l (ml mem a :: st) mem. Proof. apply run_mload. Qed.
Lemma run_ms n l a v st mem : run (S n) (82 :: l) (a :: v :: st) mem = run n l st (ms mem a v). Proof. apply run_mstore. Qed.
Lemma run_pop n l a st mem : run (S n) (80 :: l) (a :: st) mem = run n l st mem. Proof. stp; reflexivity. Qed.
Lemma run_jump n l t st mem : run (S n) (86 :: l) (t :: st) mem = if valid_dest code t then run n (skipn (Z.to_nat t) code) st mem else Throw.
Proof. stp. destruct (valid_dest code t); reflexivity. Qed.
End Steps2.
Lemma irun_ok code cd pos : forall is st mem st' mem' n l, Forall pushes is -> step_items cd is st mem = Some (st', mem') ->
  evm_run (length is + n) code cd (flat_map (item_bytes pos) is ++ l) st mem = evm_run n code cd l st' mem'.
Proof.
  induction is as [|i is IH]; intros st mem st' mem' n l F H; [injection H as <- <-; reflexivity|]. inversion_clear F as [|? ? P F']. unfold step_items in *. cbn [irun] in H. cbn [flat_map]. rewrite <- app_assoc. cbn [length Nat.add].
  destruct i as [c|v| | |]; try discriminate; cbn [item_bytes].
  2: { rewrite run_push by exact P. now apply IH. }
  cbn [app].
  destruct (Z.leb_spec 128 c); destruct (Z.leb_spec c 143); cbn [andb] in H.
  - cbn [evm_run]. unfold exec. destruct (Z.leb_spec 96 c); [|lia]. destruct (Z.leb_spec c 127); [lia|]. destruct (Z.leb_spec 128 c); [|lia]. destruct (Z.leb_spec c 143); [|lia]. cbn [andb]. destruct (nth_error st (Z.to_nat (c - 128))); [|discriminate]. now apply IH.
  - destruct (Z.leb_spec 144 c); [|lia]. destruct (Z.leb_spec c 159); cbn [andb] in H.
    + cbn [evm_run]. unfold exec. destruct (Z.leb_spec 96 c); [|lia]. destruct (Z.leb_spec c 127); [lia|]. destruct (Z.leb_spec 128 c); [|lia]. destruct (Z.leb_spec c 143); [lia|]. destruct (Z.leb_spec 144 c); [|lia]. destruct (Z.leb_spec c 159); [|lia]. cbn [andb]. destruct st as [|x st]; [discriminate|]. destruct (nth_error st (Z.to_nat (c - 144))); [|discriminate]. now apply IH.
    + repeat match type of H with (if ?c =? ?k then _ else _) = _ => destruct (Z.eqb_spec c k); [lia|] end. discriminate.
  - destruct (Z.leb_spec 144 c); [lia|]. cbn [andb] in H.
    destruct (Z.eqb_spec c 4) as [->|]; [destruct st as [|a [|b st]]; try discriminate; rewrite run_dv; apply IH; [exact F'|exact H]|].
    destruct (Z.eqb_spec c 8) as [->|]; [destruct st as [|a [|b [|d st]]]; try discriminate; rewrite run_am; apply IH; [exact F'|exact H]|].
    destruct (Z.eqb_spec c 9) as [->|]; [destruct st as [|a [|b [|d st]]]; try discriminate; rewrite run_mm; apply IH; [exact F'|exact H]|].
    destruct (Z.eqb_spec c 20) as [->|]; [destruct st as [|a [|b st]]; try discriminate; rewrite run_eqv; apply IH; [exact F'|exact H]|].
    destruct (Z.eqb_spec c 53) as [->|]; [destruct st as [|a st]; try discriminate; rewrite run_cl; apply IH; [exact F'|exact H]|].
    destruct (Z.eqb_spec c 80) as [->|]; [destruct st as [|a st]; try discriminate; rewrite run_pop; apply IH; [exact F'|exact H]|].
    destruct (Z.eqb_spec c 81) as [->|]; [destruct st as [|a st]; try discriminate; rewrite run_ml; apply IH; [exact F'|exact H]|].
    destruct (Z.eqb_spec c 82) as [->|]; [destruct st as [|a [|b st]]; try discriminate; rewrite run_ms; apply IH; [exact F'|exact H]|].
    discriminate.
  - lia.
Qed.
(** ** memory *)
Lemma read_ext f g a n : (forall i, a <= i < a + Z.of_nat n -> f i = g i) -> read f a n = read g a n.
Proof. intros H. unfold read. apply map_ext_in. intros i I. apply in_seq in I. apply H. lia. Qed.
Lemma ml_ms_same mem a v : 0 <= v < 2 ^ 256 -> ml (ms mem a v) a = v.
Proof.
  intros V. unfold ml, ms. rewrite read_copy; [|lia|lia|lia|rewrite be_bytes_len; lia]. replace (Z.to_nat (0 + (a - a))) with 0%nat by lia. cbn [skipn]. rewrite firstn_all2 by (rewrite be_bytes_len; lia). apply be_value_be. exact V.
Qed.
Lemma ml_ms_other mem a b v : b + 32 <= a \/ a + 32 <= b -> ml (ms mem a v) b = ml mem b.
Proof.
  intros H. unfold ml, ms. f_equal. apply read_ext. intros i I. unfold copy_to. destruct (Z.leb_spec a i); [|reflexivity]. destruct (Z.ltb_spec i (a + 32)); [lia|reflexivity].
Qed.
Definition store (w : memory) (p : nat * Z) : memory := ms w (Z.of_nat (fst p) * 32) (snd p).
Lemma stores_other k : forall L w, ~ In k (map fst L) -> ml (fold_left store L w) (Z.of_nat k * 32) = ml w (Z.of_nat k * 32).
Proof.
  induction L as [|[k' v] L IH]; intros w N; [reflexivity|]. cbn [fold_left map fst In] in *. rewrite IH by tauto. unfold store. cbn [fst snd]. apply ml_ms_other. destruct (Nat.lt_trichotomy k k') as [?|[->|?]]; [lia|tauto|lia].
Qed.
Lemma stores_in k v : forall L w, NoDup (map fst L) -> In (k, v) L -> 0 <= v < 2 ^ 256 -> ml (fold_left store L w) (Z.of_nat k * 32) = v.
Proof.
  induction L as [|[k' v'] L IH]; intros w N I V; [contradiction|]. cbn [fold_left map fst] in *. inversion_clear N as [|? ? N1 N2]. destruct I as [E|I].
  - injection E as -> ->. rewrite stores_other by exact N1. unfold store. cbn [fst snd]. now apply ml_ms_same.
  - now apply IH.
Qed.
(** ** call data *)
Lemma cl_pad cd o n : cl (cd ++ repeat 0 n) o = cl cd o.
Proof.
  unfold cl. f_equal. apply read_ext. intros i _. unfold copy_to. destruct ((0 <=? i) && (i <? 0 + 32)); [|reflexivity]. set (k := Z.to_nat (o + (i - 0))).
  destruct (le_lt_dec (length cd) k) as [L|L]; [rewrite app_nth2 by exact L; rewrite nth_overflow with (l := cd) by exact L; apply nth_repeat|now apply app_nth1].
Qed.
Lemma cl_word a b o v : 0 <= v < 2 ^ 256 -> o = Z.of_nat (length a) -> cl (a ++ be_bytes 32 v ++ b) o = v.
Proof.
  intros V ->. unfold cl. rewrite read_copy; [|lia|lia|lia|rewrite !app_length, be_bytes_len; lia]. replace (Z.to_nat (Z.of_nat (length a) + (0 - 0))) with (length a) by lia.
  rewrite skipn_app, skipn_all, Nat.sub_diag. cbn [skipn app]. rewrite firstn_app, firstn_all2 by (rewrite be_bytes_len; lia). rewrite be_bytes_len. cbn [Nat.sub firstn]. rewrite app_nil_r. apply be_value_be. exact V.
Qed.
