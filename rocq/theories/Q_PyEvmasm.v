(** Lemmas for C131 and C132: the statements. *)
From Coq Require Import List ZArith Bool Lia Arith.
From Verif Require Import Primes Base M_Evm M_SolMimc P_SolMimc P_PyPoint M_PyMerkle M_PyEvmasm Spec_PyEvmasm P_PyEvmasm.
Import ListNotations.
Local Open Scope nat_scope.
Local Open Scope Z_scope.

(** ** assembling instructions without labels *)
Definition data (i : item) : list Z := match i with Iop c => [c] | Ipush v => push_data v | _ => [] end.
Ltac pl := repeat (apply Forall_cons; [cbn [plain DUP SWAP]; lia|]); apply Forall_nil.
Lemma append_plain : forall l g, Forall plain l -> append_all g l = Ok (mkcg (cg_code g ++ flat_map data l) (cg_labels g) (cg_jumps g)).
Proof.
  induction l as [|i l IH]; intros g F; cbn [append_all flat_map]; [rewrite app_nil_r; now destruct g|]. inversion_clear F as [|? ? P F'].
  destruct i as [c|v| | |]; cbn [plain] in P; try contradiction; cbn [append data].
  - cbn [obind]. rewrite IH by exact F'. cbn [cg_code cg_labels cg_jumps]. now rewrite <- app_assoc.
  - rewrite (proj2 (push_ok_iff v) P). cbn [obind]. rewrite IH by exact F'. cbn [cg_code cg_labels cg_jumps]. now rewrite <- app_assoc.
Qed.
Lemma append_all_app : forall l1 l2 g, append_all g (l1 ++ l2) = (g' <- append_all g l1 ;; append_all g' l2).
Proof. induction l1 as [|i l1 IH]; intros l2 g; cbn [append_all app]; [reflexivity|]. destruct (append g i); cbn [obind]; [apply IH|reflexivity..]. Qed.

(** ** the deployment transaction *)
Lemma deploy_lemma : forall g tx calldata, create_tx_data g = Ok tx -> forall fuel, (9 <= fuel)%nat -> evm_call fuel tx calldata = Ok (cg_code g).
Proof.
  intros g tx cd. unfold create_tx_data. destruct (cg_jumps g); [|discriminate]. set (body := cg_code g).
  destruct (push_ok (Z.of_nat (length body))) eqn:K; [|cbn [append_all append]; rewrite K; discriminate]. apply push_ok_iff in K.
  rewrite append_plain by pl. cbn [obind cg_new cg_code flat_map data DUP app]. change (128 + 0) with 128. intros E. assert (T : tx = (push_data (Z.of_nat (length body)) ++ 128 :: 128 :: 56 :: 3 :: push_data 0 ++ 57 :: push_data 0 ++ [243]) ++ body) by congruence. clear E.
  intros fuel F. do 9 (destruct fuel as [|fuel]; [lia|]). unfold evm_call. rewrite T at 2. rewrite <- app_assoc. rewrite run_push by exact K. cbn [app].
  rewrite run_dup0, run_dup0, run_codesize, run_sub. rewrite <- !app_assoc. rewrite run_push by lia. cbn [app]. rewrite run_codecopy. rewrite <- app_assoc. rewrite run_push by lia. cbn [app]. rewrite run_return.
  set (h := push_data (Z.of_nat (length body)) ++ 128 :: 128 :: 56 :: 3 :: push_data 0 ++ 57 :: push_data 0 ++ [243]) in *.
  assert (HL : (length h <= 100)%nat). { unfold h, push_data. rewrite !app_length. cbn [length app]. rewrite be_bytes_len. pose proof (push_width_ok _ K). change (push_width 0) with 1%nat. repeat (rewrite ?app_length; cbn [length]; rewrite ?be_bytes_len). lia. }
  assert (LT : length tx = (length h + length body)%nat) by (rewrite T, app_length; reflexivity).
  rewrite Z.mod_small. 2: { rewrite LT. split; [lia|]. replace (Z.of_nat (length h + length body) - Z.of_nat (length body)) with (Z.of_nat (length h)) by lia. apply Z.le_lt_trans with 100; [lia|reflexivity]. }
  rewrite Nat2Z.id. apply (f_equal Ok). rewrite read_copy; [|lia|lia|lia|lia].
  replace (Z.to_nat (Z.of_nat (length tx) - Z.of_nat (length body) + (0 - 0))) with (length h) by lia.
  rewrite T, skipn_app, skipn_all, Nat.sub_diag. cbn [skipn app]. apply firstn_all.
Qed.

(** ** labels *)
Lemma is_dest_skip : forall bs l t, is_dest (length bs) (bs ++ l) (length bs + t) = is_dest 0 l t.
Proof. induction bs as [|b bs IH]; intros l t; [reflexivity|]. cbn [length app Nat.add is_dest]. apply IH. Qed.
Lemma push_bytes_push w : (1 <= w <= 32)%nat -> push_bytes (95 + Z.of_nat w) = w.
Proof. intros W. unfold push_bytes. destruct (Z.leb_spec 96 (95 + Z.of_nat w)); [|lia]. destruct (Z.leb_spec (95 + Z.of_nat w) 127); [|lia]. cbn [andb]. lia. Qed.
Lemma push_bytes_0 c : ~ (96 <= c <= 127) -> push_bytes c = 0%nat.
Proof. intros H. unfold push_bytes. destruct (Z.leb_spec 96 c); [|reflexivity]. destruct (Z.leb_spec c 127); [lia|reflexivity]. Qed.
Lemma is_dest_push3 bs l t : length bs = 3%nat -> is_dest 0 (98 :: bs ++ l) (5 + t) = is_dest 0 l (1 + t).
Proof. intros L. cbn [is_dest Nat.add]. change (push_bytes 98) with 3%nat. pose proof (is_dest_skip bs l (S t)) as D. rewrite L in D. exact D. Qed.
Lemma is_dest_plain : forall is l t, Forall plain is -> is_dest 0 (flat_map data is ++ l) (length (flat_map data is) + t) = is_dest 0 l t.
Proof.
  induction is as [|i is IH]; intros l t F; [reflexivity|]. inversion_clear F as [|? ? P F']. cbn [flat_map]. rewrite app_length, <- app_assoc, <- Nat.add_assoc.
  destruct i as [c|v| | |]; cbn [plain] in P; try contradiction; cbn [data].
  - cbn [length app Nat.add is_dest]. rewrite push_bytes_0 by exact P. now apply IH.
  - unfold push_data. cbn [length app Nat.add is_dest]. rewrite push_bytes_push by (apply push_width_ok; exact P). rewrite <- (be_bytes_len (push_width v) v) at 1. rewrite is_dest_skip. now apply IH.
Qed.

(** ** the MiMC contract *)
Definition mimc_step (q e k x c : Z) : Z := ((x + k + c) mod q) ^ e mod q.
Definition round_items (e c : Z) : list item := [DUP 2; DUP 0; DUP 0; SWAP 3; Ipush c; Iop 0x08] ++ mimc_round e.
Definition round_steps (e : Z) : nat := if e =? 7 then 19%nat else 16%nat.
Section Mimc.
Variables q sel : Z.
Hypothesis Q : 0 < q < 2 ^ 256 - 1.
Hypothesis SEL : 0 <= sel < 2 ^ 32.
Lemma run_round code cd n e c r k st mem l : e = 5 \/ e = 7 -> 0 <= c < 2 ^ 256 - 1 ->
  evm_run (round_steps e + n) code cd (flat_map data (round_items e c) ++ l) (r :: k :: q :: st) mem = evm_run n code cd l (mimc_step q e k r c :: k :: q :: st) mem.
Proof.
  intros E C. assert (Q0 : q <> 0) by lia.
  assert (T : (k + (c + r) mod q) mod q = (r + k + c) mod q) by (rewrite Zplus_mod_idemp_r; f_equal; lia).
  unfold mimc_step. destruct E as [-> | ->]; cbn [round_items mimc_round round_steps Z.eqb Pos.eqb app flat_map data DUP SWAP Nat.add]; change (128 + 0) with 128; change (128 + 1) with 129; change (128 + 2) with 130; change (128 + 3) with 131; change (143 + 3) with 146.
  - rewrite run_dup2, run_dup0, run_dup0, run_swap3. rewrite <- app_assoc. rewrite run_push by exact C. cbn [app].
    rewrite run_addmod, run_dup3, run_addmod, run_dup1, run_dup0, run_dup2, run_dup0, run_mulmod, run_dup0, run_mulmod, run_mulmod by exact Q0. rewrite T. set (t := (r + k + c) mod q).
    replace (t ^ 5) with (t * t * (t * t) * t) by ring. rewrite <- Z.mul_mod by exact Q0. rewrite Z.mul_mod_idemp_l by exact Q0. reflexivity.
  - rewrite run_dup2, run_dup0, run_dup0, run_swap3. rewrite <- app_assoc. rewrite run_push by exact C. cbn [app].
    rewrite run_addmod, run_dup3, run_addmod, run_dup1, run_dup0, run_dup2, run_dup0, run_mulmod, run_dup1, run_dup1, run_dup0, run_mulmod, run_mulmod, run_mulmod by exact Q0. rewrite T. set (t := (r + k + c) mod q).
    replace (t ^ 7) with (t * t * (t * t) * (t * t) * t) by ring. rewrite <- (Z.mul_mod (t * t) (t * t)) by exact Q0. rewrite <- (Z.mul_mod (t * t * (t * t))) by exact Q0. rewrite Z.mul_mod_idemp_l by exact Q0. reflexivity.
Qed.
Lemma run_rounds code cd e k st mem l : e = 5 \/ e = 7 -> forall cs n r, Forall (fun c => 0 <= c < 2 ^ 256 - 1) cs ->
  evm_run (length cs * round_steps e + n) code cd (flat_map data (flat_map (round_items e) cs) ++ l) (r :: k :: q :: st) mem =
  evm_run n code cd l (fold_left (mimc_step q e k) cs r :: k :: q :: st) mem.
Proof.
  intros E. induction cs as [|c cs IH]; intros n r F; [reflexivity|]. inversion_clear F as [|? ? C F']. cbn [length Nat.mul flat_map fold_left].
  rewrite flat_map_app, <- app_assoc, <- Nat.add_assoc, run_round by assumption. now apply IH.
Qed.
Definition pre_items : list item := [Ipush 0x44; Ipush 0; Ipush 0; Iop 0x37; Ipush (2 ^ 224); Ipush 0; Iop 0x51; Iop 0x04; Ipush sel; Iop 0x14].
Definition post_items (cs : list Z) (e : Z) : list item := [Ipush q; Ipush 0x24; Iop 0x51] ++ [Ipush 0x04; Iop 0x51] ++
  flat_map (round_items e) cs ++ [Iop 0x08; Ipush 0; Iop 0x52; Ipush 0x20; Ipush 0; Iop 0xf3].
Definition pre := flat_map data pre_items.
Definition off := (length pre + 6)%nat.
Definition full (cs : list Z) (e : Z) : list Z := pre ++ 98 :: be_bytes 3 (Z.of_nat off) ++ [87; 254; 91] ++ flat_map data (post_items cs e).
Lemma pre_plain : Forall plain pre_items.
Proof. unfold pre_items. pl. Qed.
Lemma post_plain cs e : e = 5 \/ e = 7 -> Forall (fun c => 0 <= c < 2 ^ 256 - 1) cs -> Forall plain (post_items cs e).
Proof.
  intros E F. unfold post_items. apply Forall_app. split; [pl|]. apply Forall_app. split; [pl|]. apply Forall_app. split.
  - induction F as [|c cs C _ IH]; cbn [flat_map]; [constructor|]. apply Forall_app. split; [|exact IH]. destruct E as [-> | ->]; cbn [round_items mimc_round Z.eqb Pos.eqb app]; pl.
  - pl.
Qed.
Lemma pre_len : (length pre <= 300)%nat.
Proof.
  unfold pre, pre_items. cbn [flat_map data app]. unfold push_data. repeat (rewrite ?app_length; cbn [length]; rewrite ?be_bytes_len).
  pose proof (push_width_ok sel ltac:(lia)) as [W _]. pose proof (push_width_ok (2 ^ 224) ltac:(lia)) as [W2 _]. change (push_width 0) with 1%nat. change (push_width 68) with 1%nat. lia.
Qed.
Lemma code_eq cs e : e = 5 \/ e = 7 -> Forall (fun c => 0 <= c < 2 ^ 256 - 1) cs -> mimc_code q sel cs e = Ok (mkcg (full cs e) [(0%nat, off)] []).
Proof.
  intros E F. unfold mimc_code. replace ((e =? 5) || (e =? 7)) with true by (destruct E as [-> | ->]; reflexivity).
  change (mimc_contract_opcodes q sel cs e) with (pre_items ++ [JMPI (Some 0%nat); Iop 254; Ilabel 0] ++ post_items cs e).
  rewrite append_all_app, append_plain by exact pre_plain. cbn [obind cg_new cg_code cg_labels cg_jumps app]. fold pre.
  cbn [append_all append JMPI lookup find cg_labels cg_code cg_jumps obind app filter fst snd Nat.eqb map negb fold_left].
  assert (LC : length ((pre ++ 98 :: be_bytes 3 0 ++ [87]) ++ [254]) = off). { rewrite !app_length. cbn [length]. rewrite app_length, be_bytes_len. cbn [length]. unfold off. lia. }
  rewrite LC. unfold encode_offset. pose proof pre_len as PL. unfold off at 1 2. destruct (Z.leb_spec 0 (Z.of_nat (length pre + 6))); [|lia]. destruct (Z.ltb_spec (Z.of_nat (length pre + 6)) (2 ^ 24)); [|lia]. cbn [andb obind].
  rewrite append_plain by (now apply post_plain). cbn [cg_code cg_labels cg_jumps]. apply (f_equal Ok). unfold full. f_equal.
  unfold patch. rewrite <- (app_assoc pre). rewrite firstn_app, skipn_app, firstn_all2, skipn_all2 by lia. replace (length pre + 1 - length pre)%nat with 1%nat by lia. replace (length pre + 4 - length pre)%nat with 4%nat by lia.
  cbn [firstn be_bytes app skipn]. rewrite <- !app_assoc. reflexivity.
Qed.
Lemma full_split cs e : full cs e = (pre ++ 98 :: be_bytes 3 (Z.of_nat off) ++ [87; 254]) ++ 91 :: flat_map data (post_items cs e).
Proof. unfold full. rewrite <- app_assoc. cbn [app]. now rewrite <- app_assoc. Qed.
Lemma off_len : length (pre ++ 98 :: be_bytes 3 (Z.of_nat off) ++ [87; 254]) = off.
Proof. rewrite app_length. cbn [length]. rewrite app_length, be_bytes_len. cbn [length]. unfold off. lia. Qed.
Lemma full_dest cs e : valid_dest (full cs e) (Z.of_nat off) = true.
Proof.
  unfold valid_dest. rewrite Nat2Z.id. destruct (Z.leb_spec 0 (Z.of_nat off)); [|lia]. rewrite full_split at 1. rewrite app_length, off_len. cbn [length]. match goal with |- context [?a <? ?b] => destruct (Z.ltb_spec a b); [|lia] end. cbn [andb].
  unfold full, off at 2, pre. rewrite is_dest_plain by exact pre_plain. cbn [is_dest]. change (push_bytes 98) with 3%nat. rewrite <- (be_bytes_len 3 (Z.of_nat off)) at 1. change 5%nat with (3 + 2)%nat. rewrite <- (be_bytes_len 3 (Z.of_nat off)) at 2. rewrite is_dest_skip. reflexivity.
Qed.
Lemma full_skip cs e : skipn off (full cs e) = 91 :: flat_map data (post_items cs e).
Proof. rewrite full_split, <- off_len at 1. rewrite skipn_app, skipn_all, Nat.sub_diag. reflexivity. Qed.
Ltac pp := cbn [app]; rewrite <- ?app_assoc; rewrite run_push by lia; cbn [app].
Section Call.
Variables (cs : list Z) (e s x k : Z) (ex : list Z).
Hypothesis E : e = 5 \/ e = 7.
Hypothesis CS : Forall (fun c => 0 <= c < 2 ^ 256 - 1) cs.
Hypothesis S1 : 0 <= s < 2 ^ 32.
Hypothesis X1 : 0 <= x < 2 ^ 256.
Hypothesis K1 : 0 <= k < 2 ^ 256.
Definition cdata : list Z := be_bytes 4 s ++ be_bytes 32 x ++ be_bytes 32 k ++ ex.
Local Notation mem1 := (copy_to (fun _ => 0) 0 0 68 cdata).
Lemma cdata_len : (68 <= length cdata)%nat.
Proof. unfold cdata. rewrite !app_length, !be_bytes_len. lia. Qed.
Lemma firstn_exact {A} (l1 l2 : list A) n : length l1 = n -> firstn n (l1 ++ l2) = l1.
Proof. intros <-. rewrite firstn_app, firstn_all, Nat.sub_diag. cbn [firstn]. apply app_nil_r. Qed.
Lemma skipn_exact {A} (l1 l2 : list A) n : length l1 = n -> skipn n (l1 ++ l2) = l2.
Proof. intros <-. rewrite skipn_app, skipn_all, Nat.sub_diag. reflexivity. Qed.
Lemma read_sel : be_value (read mem1 0 32) / 2 ^ 224 = s.
Proof.
  pose proof cdata_len as L. rewrite read_copy by lia. change (Z.to_nat (0 + (0 - 0))) with 0%nat. cbn [skipn]. unfold cdata.
  change 32%nat with (4 + 28)%nat at 1. rewrite <- (be_bytes_len 4 s) at 1. rewrite firstn_app_2. rewrite be_value_app, be_value_be by exact S1.
  match goal with |- context [be_value ?l] => set (t := l) end.
  assert (T : length t = 28%nat). { unfold t. rewrite firstn_length, !app_length, !be_bytes_len. lia. }
  assert (B : Forall (fun d => 0 <= d < 256) t). { unfold t. rewrite firstn_app, be_bytes_len. change (28 - 32)%nat with 0%nat. cbn [firstn]. rewrite app_nil_r. apply Forall_forall. intros d D. apply (Forall_forall (fun d => 0 <= d < 256) (be_bytes 32 x)); [apply be_bytes_byte|]. rewrite <- (firstn_skipn 28 (be_bytes 32 x)). apply in_or_app. now left. }
  apply be_value_range in B. rewrite T in *. change (256 ^ Z.of_nat 28) with (2 ^ 224) in *. symmetry. apply (Z.div_unique _ _ s (be_value t)); lia.
Qed.
Lemma read_x : be_value (read mem1 4 32) = x.
Proof.
  pose proof cdata_len as L. rewrite read_copy by lia. change (Z.to_nat (0 + (4 - 0))) with 4%nat. unfold cdata. rewrite skipn_exact by apply be_bytes_len. rewrite firstn_exact by apply be_bytes_len. apply be_value_be. exact X1.
Qed.
Lemma read_k : be_value (read mem1 36 32) = k.
Proof.
  pose proof cdata_len as L. rewrite read_copy by lia. change (Z.to_nat (0 + (36 - 0))) with 36%nat. unfold cdata. rewrite app_assoc, skipn_exact by (rewrite app_length, !be_bytes_len; reflexivity). rewrite firstn_exact by apply be_bytes_len. apply be_value_be. exact K1.
Qed.
Lemma run_pre n : evm_call (12 + n) (full cs e) cdata = 
  if s =? sel then evm_run n (full cs e) cdata (91 :: flat_map data (post_items cs e)) [] mem1
  else evm_run n (full cs e) cdata (254 :: 91 :: flat_map data (post_items cs e)) [] mem1.
Proof.
  unfold evm_call. unfold full at 2. unfold pre, pre_items. cbn [flat_map data app Nat.add]. rewrite <- !app_assoc.
  pp. pp. pp. rewrite run_cdcopy. pp. pp. rewrite run_mload, run_div. change (2 ^ 224 =? 0) with false. cbv iota. rewrite read_sel. pp. rewrite run_eq.
  pose proof pre_len as PL.
  change (98 :: be_bytes 3 (Z.of_nat off) ++ 87 :: 254 :: 91 :: flat_map data (post_items cs e)) with (0x5f + Z.of_nat 3 :: be_bytes 3 (Z.of_nat off) ++ 87 :: 254 :: 91 :: flat_map data (post_items cs e)).
  rewrite run_raw by (lia || apply be_bytes_len). rewrite be_value_be by (change (256 ^ Z.of_nat 3) with 16777216; unfold off; lia).
  rewrite run_jumpi. rewrite (Z.eqb_sym s sel). destruct (sel =? s); [|reflexivity]. change (1 =? 0) with false. cbv iota. rewrite full_dest, Nat2Z.id, full_skip. reflexivity.
Qed.
Definition steps : nat := 6 + (length cs * round_steps e + 6).
Lemma run_post n code : evm_run (steps + n) code cdata (91 :: flat_map data (post_items cs e)) [] mem1 = Ok (be_bytes 32 ((fold_left (mimc_step q e k) cs x + k) mod q)).
Proof.
  unfold steps. replace (6 + (length cs * round_steps e + 6) + n)%nat with (S (S (S (S (S (S (length cs * round_steps e + (6 + n)))))))) by lia.
  rewrite run_jumpdest. unfold post_items. rewrite !flat_map_app. cbn [flat_map data app]. rewrite <- !app_assoc. pp. pp. rewrite run_mload, read_k. pp. rewrite run_mload, read_x.
  rewrite run_rounds by assumption. cbn [Nat.add app]. rewrite run_addmod by lia. pp. rewrite run_mstore. pp. pp. rewrite run_return.
  apply (f_equal Ok). rewrite read_copy by (rewrite ?be_bytes_len; lia). change (Z.to_nat (0 + (0 - 0))) with 0%nat. cbn [skipn]. apply firstn_all2. rewrite be_bytes_len. lia.
Qed.
End Call.
End Mimc.

Lemma plain_len : forall l, Forall plain l -> (length (flat_map data l) <= 33 * length l)%nat.
Proof.
  induction l as [|i l IH]; intros F; cbn [flat_map length]; [lia|]. inversion_clear F as [|? ? P F']. specialize (IH F'). rewrite app_length.
  assert (length (data i) <= 33)%nat; [|lia]. destruct i as [c|v| | |]; cbn [data length]; [lia| |lia..]. unfold push_data. cbn [length]. rewrite be_bytes_len. pose proof (push_width_ok v P). lia.
Qed.
Lemma rounds_len e cs : (length (flat_map (round_items e) cs) <= 19 * length cs)%nat.
Proof.
  induction cs as [|c cs IH]; cbn [flat_map length]; [lia|]. rewrite app_length. assert (length (round_items e c) <= 19)%nat; [|lia]. unfold round_items, mimc_round. rewrite app_length. destruct (e =? 7); cbn [length]; lia.
Qed.
Lemma mimc_contract_lemma : forall q sel cs e, 0 < q < 2 ^ 256 - 1 -> 0 <= sel < 2 ^ 32 -> Forall (fun c => 0 <= c < 2 ^ 256 - 1) cs -> Z.of_nat (length cs) < 2 ^ 200 -> e = 5 \/ e = 7 ->
  exists tx body, mimc_contract q sel cs e = Ok tx /\ (forall calldata fuel, (9 <= fuel)%nat -> evm_call fuel tx calldata = Ok body) /\
    forall s x k extra, 0 <= s < 2 ^ 32 -> 0 <= x < 2 ^ 256 -> 0 <= k < 2 ^ 256 ->
      exists n, forall fuel, (n <= fuel)%nat -> evm_call fuel body (be_bytes 4 s ++ be_bytes 32 x ++ be_bytes 32 k ++ extra) =
        if s =? sel then Ok (be_bytes 32 ((fold_left (fun x c => ((x + k + c) mod q) ^ e mod q) cs x + k) mod q)) else Throw.
Proof.
  intros q sel cs e Q SEL CS LN E. pose proof (code_eq q sel Q SEL cs e E CS) as G.
  assert (T : exists tx, create_tx_data (mkcg (full q sel cs e) [(0%nat, off sel)] []) = Ok tx).
  { unfold create_tx_data. cbn [cg_jumps cg_code]. rewrite append_plain; [cbn [obind]; now eexists|]. apply Forall_cons; [cbn [plain]; split; [lia|]|pl].
    unfold full. pose proof (pre_len sel SEL). pose proof (plain_len _ (post_plain q Q cs e E CS)) as P. pose proof (rounds_len e cs) as R. unfold post_items in P at 2. rewrite !app_length in P. cbn [length] in P.
    rewrite app_length. cbn [length]. rewrite !app_length, be_bytes_len. cbn [length].
    apply Z.le_lt_trans with (1000 + 700 * Z.of_nat (length cs)); [lia|]. apply Z.le_lt_trans with (1000 + 700 * 2 ^ 200); [lia|]. reflexivity. }
  destruct T as [tx T]. exists tx, (full q sel cs e). unfold mimc_contract. rewrite G. cbn [obind]. split; [exact T|]. split.
  - intros cd fuel F. exact (deploy_lemma _ tx cd T fuel F).
  - intros s x k ex S1 X1 K1. exists (12 + steps cs e)%nat. intros fuel F. replace fuel with (12 + (steps cs e + (fuel - 12 - steps cs e)))%nat by lia.
    change (be_bytes 4 s ++ be_bytes 32 x ++ be_bytes 32 k ++ ex) with (cdata s x k ex). rewrite run_pre by assumption.
    destruct (s =? sel); [now apply run_post|]. unfold steps. cbn [Nat.add]. apply run_invalid.
Qed.

(** ** labels in general *)
Lemma plain_codegen l g : Forall plain l -> append_all cg_new l = Ok g -> cg_code g = flat_map data l.
Proof. intros P E. rewrite append_plain in E by exact P. injection E as <-. reflexivity. Qed.
Lemma forward_lemma : forall A B C c t gA gB gC, Forall plain A -> Forall plain B -> Forall plain C -> ~ (0x60 <= c <= 0x7f) ->
  append_all cg_new A = Ok gA -> append_all cg_new B = Ok gB -> append_all cg_new C = Ok gC -> Z.of_nat (length (cg_code gA) + length (cg_code gB)) < 2 ^ 24 - 5 ->
  exists g o, append_all cg_new (A ++ [Ijump c (Some t)] ++ B ++ [Ilabel t] ++ C) = Ok g /\ cg_jumps g = [] /\
    cg_code g = cg_code gA ++ (0x62 :: be_bytes 3 (Z.of_nat o) ++ [c]) ++ cg_code gB ++ 0x5b :: cg_code gC /\
    valid_dest (cg_code g) (Z.of_nat o) = true /\ skipn o (cg_code g) = 0x5b :: cg_code gC.
Proof.
  intros A B C c t gA gB gC PA PB PC Hc EA EB EC L. rewrite (plain_codegen A gA PA EA), (plain_codegen B gB PB EB), (plain_codegen C gC PC EC) in *. clear EA EB EC.
  set (a := flat_map data A) in *. set (b := flat_map data B) in *. set (cc := flat_map data C) in *.
  set (o := (length a + 5 + length b)%nat).
  exists (mkcg (a ++ (98 :: be_bytes 3 (Z.of_nat o) ++ [c]) ++ b ++ 91 :: cc) [(t, o)] []), o. cbn [cg_code cg_jumps].
  assert (SP : a ++ (98 :: be_bytes 3 (Z.of_nat o) ++ [c]) ++ b ++ 91 :: cc = (a ++ (98 :: be_bytes 3 (Z.of_nat o) ++ [c]) ++ b) ++ 91 :: cc) by (rewrite <- !app_assoc; reflexivity).
  assert (SL : length (a ++ (98 :: be_bytes 3 (Z.of_nat o) ++ [c]) ++ b) = o). { rewrite !app_length. cbn [length]. rewrite app_length, be_bytes_len. cbn [length]. unfold o. lia. }
  split; [|split; [reflexivity|]]; [|split; [reflexivity|]]; [|split].
  - rewrite append_all_app, append_plain by exact PA. cbn [obind cg_new cg_code cg_labels cg_jumps app]. fold a.
    cbn [append_all append lookup find cg_labels cg_code cg_jumps obind app]. rewrite append_all_app, append_plain by exact PB. cbn [obind cg_code cg_labels cg_jumps]. fold b.
    cbn [append_all append lookup find cg_labels cg_code cg_jumps obind app filter fst snd]. rewrite Nat.eqb_refl. cbn [map negb snd fold_left].
    assert (LC : length ((a ++ 98 :: be_bytes 3 0 ++ [c]) ++ b) = o). { rewrite !app_length. cbn [length]. rewrite app_length, be_bytes_len. cbn [length]. unfold o. lia. }
    rewrite LC. unfold encode_offset. destruct (Z.leb_spec 0 (Z.of_nat o)); [|lia]. destruct (Z.ltb_spec (Z.of_nat o) (2 ^ 24)); [|unfold o in *; lia]. cbn [andb obind].
    rewrite append_plain by exact PC. cbn [cg_code cg_labels cg_jumps]. apply (f_equal Ok). f_equal. fold cc.
    unfold patch. rewrite <- (app_assoc a). rewrite firstn_app, skipn_app, firstn_all2, skipn_all2 by lia. replace (length a + 1 - length a)%nat with 1%nat by lia. replace (length a + 4 - length a)%nat with 4%nat by lia.
    cbn [firstn be_bytes app skipn]. rewrite <- !app_assoc. reflexivity.
  - unfold valid_dest. rewrite Nat2Z.id. destruct (Z.leb_spec 0 (Z.of_nat o)); [|lia]. rewrite SP at 1. rewrite app_length, SL. cbn [length]. match goal with |- context [?x <? ?y] => destruct (Z.ltb_spec x y); [|lia] end. cbn [andb].
    unfold o at 2. rewrite <- Nat.add_assoc. pose proof (is_dest_plain A ((98 :: be_bytes 3 (Z.of_nat o) ++ [c]) ++ b ++ 91 :: cc) (5 + length b) PA) as D. fold a in D. rewrite D.
    change ((98 :: be_bytes 3 (Z.of_nat o) ++ [c]) ++ b ++ 91 :: cc) with (98 :: (be_bytes 3 (Z.of_nat o) ++ [c]) ++ b ++ 91 :: cc). rewrite <- app_assoc. rewrite is_dest_push3 by apply be_bytes_len. cbn [app is_dest]. rewrite push_bytes_0 by exact Hc.
    pose proof (is_dest_plain B (91 :: cc) 0 PB) as D2. fold b in D2. rewrite Nat.add_0_r in D2. cbn [Nat.add]. rewrite D2. reflexivity.
  - rewrite SP, <- SL at 1. rewrite skipn_app, skipn_all, Nat.sub_diag. reflexivity.
Qed.
Lemma backward_lemma : forall A B C c t gA gB gC, Forall plain A -> Forall plain B -> Forall plain C ->
  append_all cg_new A = Ok gA -> append_all cg_new B = Ok gB -> append_all cg_new C = Ok gC -> Z.of_nat (length (cg_code gA)) < 2 ^ 24 -> hd_error B <> Some (Iop 0x5b) ->
  exists g, append_all cg_new (A ++ [Ilabel t] ++ B ++ [Ijump c (Some t)] ++ C) = Ok g /\ cg_jumps g = [] /\
    cg_code g = cg_code gA ++ cg_code gB ++ (0x62 :: be_bytes 3 (Z.of_nat (length (cg_code gA))) ++ [c]) ++ cg_code gC /\
    valid_dest (cg_code g) (Z.of_nat (length (cg_code gA))) = false.
Proof.
  intros A B C c t gA gB gC PA PB PC EA EB EC L HB. rewrite (plain_codegen A gA PA EA), (plain_codegen B gB PB EB), (plain_codegen C gC PC EC) in *. clear EA EB EC.
  set (a := flat_map data A) in *. set (b := flat_map data B) in *. set (cc := flat_map data C) in *.
  exists (mkcg (a ++ b ++ (98 :: be_bytes 3 (Z.of_nat (length a)) ++ [c]) ++ cc) [(t, length a)] []). cbn [cg_code cg_jumps].
  split; [|split; [reflexivity|]; split; [reflexivity|]].
  - rewrite append_all_app, append_plain by exact PA. cbn [obind cg_new cg_code cg_labels cg_jumps app]. fold a.
    cbn [append_all append lookup find cg_labels cg_code cg_jumps obind app filter]. rewrite append_all_app, append_plain by exact PB. cbn [obind cg_code cg_labels cg_jumps]. fold b.
    cbn [append_all append cg_labels cg_code cg_jumps]. unfold lookup. cbn [find fst snd]. rewrite Nat.eqb_refl. cbn [snd]. unfold encode_offset. destruct (Z.leb_spec 0 (Z.of_nat (length a))); [|lia]. destruct (Z.ltb_spec (Z.of_nat (length a)) (2 ^ 24)); [|lia]. cbn [andb obind].
    rewrite append_plain by exact PC. cbn [cg_code cg_labels cg_jumps]. apply (f_equal Ok). f_equal. fold cc. rewrite <- !app_assoc. reflexivity.
  - unfold valid_dest. rewrite Nat2Z.id. pose proof (is_dest_plain A (b ++ (98 :: be_bytes 3 (Z.of_nat (length a)) ++ [c]) ++ cc) 0 PA) as D. fold a in D. rewrite Nat.add_0_r in D. rewrite D.
    match goal with |- _ && ?x = false => assert (R : x = false); [|rewrite R; apply andb_false_r] end.
    destruct B as [|i B]; [reflexivity|]. cbn [hd_error] in HB. inversion_clear PB as [|? ? P _]. unfold b. cbn [flat_map]. destruct i as [d|v| | |]; cbn [plain] in P; try contradiction; cbn [data app is_dest].
    + apply Z.eqb_neq. intros ->. now apply HB.
    + unfold push_data. cbn [app is_dest]. apply Z.eqb_neq. pose proof (push_width_ok v P). lia.
Qed.
Lemma backward_witness : exists items g, append_all cg_new items = Ok g /\ cg_jumps g = [] /\ items = [JMP (Some 1%nat); Ilabel 0; Ipush 0; Ipush 0; Iop 0xf3; Ilabel 1; JMP (Some 0%nat)] /\
  forall fuel, (5 <= fuel)%nat -> evm_call fuel (cg_code g) [] = Throw.
Proof.
  eexists. eexists. split; [|split; [|split; [reflexivity|]]].
  - reflexivity.
  - reflexivity.
  - intros fuel F. do 5 (destruct fuel as [|fuel]; [lia|]). reflexivity.
Qed.
Lemma constants_len : forall R s, length (py_mimc_constants_from R s) = R.
Proof. induction R as [|R IH]; intros s; cbn [py_mimc_constants_from length]; [reflexivity|]. now rewrite IH. Qed.
Lemma mimc_python_lemma : forall sel seed R e, 0 <= sel < 2 ^ 32 -> (2 < R)%nat -> Z.of_nat R < 2 ^ 200 -> Forall (fun c => 0 <= c < 2 ^ 256 - 1) (py_mimc_constants seed R) -> e = 5 \/ e = 7 ->
  exists tx body, mimc_contract p_mod sel (py_mimc_constants seed R) e = Ok tx /\ (forall calldata fuel, (9 <= fuel)%nat -> evm_call fuel tx calldata = Ok body) /\
    forall x k extra, 0 <= x < 2 ^ 256 -> 0 <= k < 2 ^ 256 ->
      exists v n, py_mimc seed p_mod e R x k = Ok v /\ forall fuel, (n <= fuel)%nat -> evm_call fuel body (be_bytes 4 sel ++ be_bytes 32 x ++ be_bytes 32 k ++ extra) = Ok (be_bytes 32 v).
Proof.
  intros sel seed R e SEL R2 RL CS E. destruct (mimc_contract_lemma p_mod sel (py_mimc_constants seed R) e) as (tx & body & H1 & H2 & H3); [split; vm_compute; reflexivity|exact SEL|exact CS| |exact E|].
  { unfold py_mimc_constants. rewrite constants_len. exact RL. }
  exists tx, body. split; [exact H1|]. split; [exact H2|]. intros x k ex X K. destruct (H3 sel x k ex SEL X K) as [n Hn]. rewrite Z.eqb_refl in Hn. eexists. exists n. split; [|exact Hn].
  unfold py_mimc. destruct (Nat.ltb_spec 2 R); [reflexivity|lia].
Qed.
