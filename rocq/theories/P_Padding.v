(** The layout, values and constraints produced by bits2blocks_padded (C12, C13). *)
From Coq Require Import List ZArith Bool Arith Lia.
From Verif Require Import Primes Field Base R1CS R1CSFacts M_Utils Spec_Utils P_Utils M_Padding Spec_Padding.
Import ListNotations.
Local Open Scope nat_scope.

Lemma owhile_inv {S} (J : nat -> S -> Prop) cond body e : forall d q fuel s, e = q + d -> d <= fuel -> J q s ->
  (forall q s, J q s -> q <= e -> cond s = (q <? e)) ->
  (forall q s, J q s -> q < e -> exists s', body s = Ok s' /\ J (Datatypes.S q) s') ->
  exists s', owhile fuel cond body s = Ok s' /\ J e s'.
Proof.
  induction d as [|d IH]; intros q fuel s He Hf HJ Hc Hb.
  - exists s. replace e with q in * by lia. split; [|exact HJ].
    assert (E : cond s = false) by (rewrite (Hc q s HJ) by lia; apply Nat.ltb_irrefl).
    destruct fuel; cbn [owhile]; now rewrite E.
  - destruct fuel as [|fuel]; [lia|]. cbn [owhile].
    assert (E : cond s = true) by (rewrite (Hc q s HJ) by lia; apply Nat.ltb_lt; lia). rewrite E.
    destruct (Hb q s HJ ltac:(lia)) as (s1 & E1 & J1). rewrite E1, bind_ok.
    apply (IH (Datatypes.S q)); [lia|lia|exact J1|exact Hc|exact Hb].
Qed.

Lemma firstn_S_nth {A} (l : list A) i d : i < length l -> firstn (S i) l = firstn i l ++ [nth i l d].
Proof.
  revert i; induction l as [|y x IH]; intros i Hi; [cbn in Hi; lia|]. destruct i as [|i]; [reflexivity|].
  cbn [firstn nth app]. f_equal. apply IH. cbn [length] in Hi. lia.
Qed.
Lemma nth_skipn {A} (l : list A) a i d : nth i (skipn a l) d = nth (a + i) l d.
Proof. revert l; induction a as [|a IH]; intros l; [reflexivity|]. destruct l; [destruct i; reflexivity|]. apply IH. Qed.

Section pad.
Variables (xs : list nat) (bs : nat) (n : nat) (s : assign) (cs0 : list constr) (K : nat).
Let L := length xs.
Let X := xs ++ seq n K.
Hypothesis Hbs : 64 <= bs.

Definition Pq (q : nat) (pb : pboard) : Prop :=
  pb_next pb = n + (q - L) /\ frame n (n + (q - L)) s (pb_val pb) /\
  (forall i, i < q - L -> pb_val pb (n + i) = if i =? 0 then F1 else F0) /\
  exists new, pb_cs pb = cs0 ++ new /\ cs_all (fun v => n <= v < n + (q - L)) new /\
    (forall t, sat t new <-> (L < q -> t n = F1)).

Definition Jq (i q : nat) (st : bstate) : Prop :=
  let '(j, off, block, pb) := st in
  off = q /\ q = i * bs + j /\ j <= bs /\ block = firstn j (skipn (i * bs) X) ++ repeat 0 (bs - j) /\ Pq q pb.

Lemma X_nth_msg q : q < L -> nth q X 0 = nth q xs 0.
Proof. intros H. unfold X. now apply app_nth1. Qed.
Lemma X_nth_pad q : L <= q < L + K -> nth q X 0 = n + (q - L).
Proof. intros H. unfold X. rewrite app_nth2; unfold L in *; [|lia]. rewrite seq_nth by lia. lia. Qed.
Lemma X_len : length X = L + K.
Proof. unfold X. now rewrite app_length, seq_length. Qed.

Lemma block_step i j v : j < bs -> i * bs + j < length X -> v = nth (i * bs + j) X 0 ->
  wr (firstn j (skipn (i * bs) X) ++ repeat 0 (bs - j)) j v = Ok (firstn (S j) (skipn (i * bs) X) ++ repeat 0 (bs - S j)).
Proof.
  intros Hj Hx ->. replace (bs - j) with (S (bs - S j)) by lia. cbn [repeat].
  assert (Ls : length (skipn (i * bs) X) = length X - i * bs) by apply skipn_length.
  rewrite wr_mid by (rewrite firstn_length, Ls; lia). f_equal.
  rewrite (firstn_S_nth _ j 0) by lia. rewrite nth_skipn, <- app_assoc. reflexivity.
Qed.

Lemma Pq_msg q pb : S q <= L -> Pq q pb -> Pq (S q) pb.
Proof.
  intros Hq (H1 & H2 & H3 & new & H4 & H5 & H6). unfold Pq. replace (S q - L) with (q - L) by lia.
  repeat split; try assumption. exists new. repeat split; try assumption.
  - intros Ht ?. lia.
  - intros _. apply H6. intros ?. lia.
Qed.

Lemma copy_step i q st : Jq i q st -> q < L -> q < i * bs + bs -> (i + 1) * bs <= L + K -> exists st', copy_bit xs st = Ok st' /\ Jq i (S q) st'.
Proof.
  destruct st as [[[j off] block] pb]. intros (-> & Hq & Hj & -> & HP) HL He Hlen. unfold copy_bit.
  rewrite (idx_nth xs q 0), bind_ok by exact HL.
  rewrite block_step, bind_ok; [|lia|rewrite X_len; lia|].
  - eexists. split; [reflexivity|]. split; [reflexivity|]. split; [lia|]. split; [lia|]. split; [reflexivity|]. apply Pq_msg; [lia|exact HP].
  - rewrite <- Hq. symmetry. now apply X_nth_msg.
Qed.

Lemma pad_step i q st : Jq i q st -> L <= q -> q < i * bs + bs -> (i + 1) * bs <= L + K ->
  exists st', pad_bit L (i * bs + bs) st = Ok st' /\ Jq i (S q) st'.
Proof.
  destruct st as [[[j off] block] pb]. intros (-> & Hq & Hj & -> & HP) HL He Hlen. unfold pad_bit, pb_alloc.
  destruct HP as (P1 & P2 & P3 & new & P4 & P5 & P6).
  rewrite block_step, bind_ok; [|lia|rewrite X_len; lia|].
  2:{ rewrite <- Hq, X_nth_pad by lia. exact P1. }
  eexists. split; [reflexivity|]. split; [reflexivity|]. split; [lia|]. split; [lia|]. split; [reflexivity|].
  unfold Pq. replace (S q - L) with (S (q - L)) by lia.
  assert (Fr : forall x, frame n (n + S (q - L)) s (upd (upd (pb_val pb) (pb_next pb) F0) (pb_next pb) x)).
  { intros x v Hv. rewrite !upd_other by lia. apply P2. lia. }
  assert (Fr0 : frame n (n + S (q - L)) s (upd (pb_val pb) (pb_next pb) F0)).
  { intros v Hv. rewrite !upd_other by lia. apply P2. lia. }
  assert (SC : cs_all (fun v => n <= v < n + S (q - L)) new) by (eapply cs_all_impl; [|exact P5]; cbn; lia).
  assert (Old : forall t, sat t new -> L < q -> t n = F1) by (intros t Ht; now apply P6).
  assert (Z0 : q <> L -> forall k, k < S (q - L) -> upd (pb_val pb) (pb_next pb) F0 (n + k) = if k =? 0 then F1 else F0).
  { intros N k Hk. destruct (Nat.eq_dec k (q - L)) as [-> |Nk].
    - rewrite P1, upd_same. replace (q - L =? 0) with false by (symmetry; apply Nat.eqb_neq; lia). reflexivity.
    - rewrite upd_other by lia. apply P3. lia. }
  destruct (Nat.eqb_spec q L) as [E|N]; [|destruct (lt_wrap q (i * bs + bs))]; cbn [pb_next pb_val pb_cs pb_add pb_set].
  - split; [lia|]. split; [apply Fr|]. split.
    + intros k Hk. replace k with 0 by lia. cbn [Nat.eqb]. replace (n + 0) with (pb_next pb) by lia. apply upd_same.
    + eexists. rewrite P4, <- app_assoc. split; [reflexivity|]. split.
      * apply cs_all_app. split; [exact SC|]. repeat constructor; cbn; lia.
      * intros t. rewrite sat_app. replace (pb_next pb) with n by lia.
        unfold sat at 2. rewrite Forall_cons_iff. unfold holds. cbn [cA cB cC ev L1].
        split.
        -- intros (_ & H & _) _. rewrite <- H. ring.
        -- intros H. split; [|split; [rewrite H by lia; ring|constructor]]. apply P6. intros ?. lia.
  - split; [lia|]. split; [apply Fr0|]. split; [exact (Z0 N)|].
    eexists. rewrite P4, <- app_assoc. split; [reflexivity|]. split.
    + apply cs_all_app. split; [exact SC|]. repeat constructor; cbn; lia.
    + intros t. rewrite sat_app, P6. unfold sat. rewrite Forall_cons_iff. unfold holds. cbn [cA cB cC ev L0].
      split.
      * intros (H & _) _. apply H. lia.
      * intros H. split; [intros _; apply H; lia|]. split; [ring|constructor].
  - split; [lia|]. split; [apply Fr0|]. split; [exact (Z0 N)|].
    exists new. rewrite P4. split; [reflexivity|]. split; [exact SC|]. intros t. rewrite P6.
    split; intros H ?; apply H; lia.
Qed.

Lemma pad_block_ok i bl pb : (i + 1) * bs <= L + K -> Pq (i * bs) pb ->
  exists block pb', pad_block xs bs (i * bs, bl, pb) = Ok (S i * bs, bl ++ [block], pb') /\
    block = firstn bs (skipn (i * bs) X) /\ Pq (S i * bs) pb'.
Proof.
  intros Hlen HP. unfold pad_block. fold L.
  set (be := i * bs + bs). set (bits_end := if L <? be then L else be).
  assert (Hbe : bits_end <= be /\ bits_end <= L) by (unfold bits_end; destruct (Nat.ltb_spec L be); lia).
  assert (J0 : Jq i (i * bs) (0, i * bs, repeat 0 bs, pb)).
  { split; [reflexivity|]. split; [lia|]. split; [lia|]. split; [now rewrite Nat.sub_0_r|exact HP]. }
  assert (A : exists st q, (if i * bs <? L then owhile bs (fun '(_, off, _, _) => off <? bits_end) (copy_bit xs) (0, i * bs, repeat 0 bs, pb)
      else Ok (0, i * bs, repeat 0 bs, pb)) = Ok st /\ Jq i q st /\ q <= be /\ (L <= q \/ q = be)).
  { destruct (Nat.ltb_spec (i * bs) L) as [H|H].
    - destruct (owhile_inv (Jq i) (fun '(_, off, _, _) => off <? bits_end) (copy_bit xs) bits_end (bits_end - i * bs) (i * bs) bs
        (0, i * bs, repeat 0 bs, pb)) as (st & E & J).
      + unfold bits_end. destruct (Nat.ltb_spec L be); lia.
      + lia.
      + exact J0.
      + intros q [[[j off] block] pb1] (-> & _) _. reflexivity.
      + intros q st HJ Hq. apply copy_step; [exact HJ|lia|lia|exact Hlen].
      + exists st, bits_end. split; [exact E|]. split; [exact J|]. split; [lia|].
        unfold bits_end. destruct (Nat.ltb_spec L be); lia.
    - exists (0, i * bs, repeat 0 bs, pb), (i * bs). split; [reflexivity|]. split; [exact J0|]. split; [unfold be; lia|left; exact H]. }
  destruct A as ([[[j off] block] pb1] & q & -> & HJ & Hq & Hc). rewrite bind_ok. cbn beta iota.
  destruct (owhile_inv (fun q st => Jq i q st /\ (L <= q \/ q = be)) (fun '(_, off, _, _) => off <? be) (pad_bit L be) be (be - q) q bs
    (j, off, block, pb1)) as ([[[j2 off2] block2] pb2] & E & J & _).
  - lia.
  - destruct HJ as (-> & ? & _). unfold be in *. lia.
  - split; [exact HJ|exact Hc].
  - intros q' [[[j' off'] block'] pb'] ((-> & _) & _) _. reflexivity.
  - intros q' st (HJ' & Hc') Hq'. destruct (pad_step i q' st HJ') as (st' & E' & J'); [lia|exact Hq'|exact Hlen|].
    exists st'. split; [exact E'|]. split; [exact J'|left; lia].
  - unfold bstate in *. rewrite E, bind_ok. destruct J as (-> & Hj2 & _ & -> & HP2). cbn beta iota.
    assert (j2 = bs) by (unfold be in Hj2; lia). subst j2.
    exists (firstn bs (skipn (i * bs) X)), pb2. replace (S i * bs) with be by (unfold be; lia).
    split; [|split; [reflexivity|exact HP2]]. rewrite Nat.sub_diag, app_nil_r. reflexivity.
Qed.

Lemma blocks_ok m pb : m * bs <= L + K -> Pq 0 pb ->
  exists pb', ofor 0 m (fun _ => pad_block xs bs) (0, [], pb) = Ok (m * bs, words m bs X, pb') /\ Pq (m * bs) pb'.
Proof.
  intros Hm HP.
  destruct (ofor_inv (fun i st => exists pb', st = (i * bs, words i bs X, pb') /\ Pq (i * bs) pb') m (fun _ => pad_block xs bs) 0 (0, [], pb))
    as (st & E & pb' & -> & HP').
  - exists pb. split; [reflexivity|exact HP].
  - intros i st Hi (pb' & -> & HP'). destruct (pad_block_ok i (words i bs X) pb') as (block & pb2 & E & -> & HP2); [nia|exact HP'|].
    eexists. split; [exact E|]. exists pb2. split; [|exact HP2]. now rewrite words_snoc.
  - exists pb'. split; [exact E|exact HP'].
Qed.
End pad.

Lemma bitlen_bits_eq z : (0 <= z)%Z -> bitlen_bits z = msb_bits 64 z.
Proof.
  intros Hz. unfold bitlen_bits, libff_int_list_to_bits8. rewrite msb_bits_map.
  cbn [map flat_map app seq Nat.sub].
  assert (E : forall a k, (0 <= a)%Z -> (0 <= k < 8)%Z -> Z.testbit (Z.land (Z.shiftr z a) 255) k = Z.testbit z (k + a)).
  { intros a k Ha Hk. rewrite Z.land_spec, Z.shiftr_spec by lia. change 255%Z with (Z.ones 8).
    rewrite Z.ones_spec_low by lia. apply andb_true_r. }
  rewrite !E by lia. reflexivity.
Qed.

Lemma round_up t bs : 0 < bs -> let T := if negb (t mod bs =? 0) then t + (bs - t mod bs) else t in
  T = T / bs * bs /\ t <= T /\ (forall t', t <= t' < T -> t' mod bs <> 0).
Proof.
  intros Hb T. pose proof (Nat.mod_upper_bound t bs ltac:(lia)) as Hu. pose proof (Nat.div_mod t bs ltac:(lia)) as Hd.
  unfold T. destruct (Nat.eqb_spec (t mod bs) 0) as [E|N]; cbn [negb].
  - split; [rewrite Nat.mul_comm; lia|]. split; [lia|]. lia.
  - assert (ET : t + (bs - t mod bs) = (t / bs + 1) * bs) by nia.
    rewrite ET, Nat.div_mul by lia. split; [reflexivity|]. split; [nia|].
    intros t' Ht' E. apply Nat.mod_divide in E; [|lia]. destruct E as [c ->]. 
    assert (t / bs < c) by (destruct (Nat.le_gt_cases c (t / bs)); [nia|assumption]). nia.
Qed.

Lemma back_words {A} m w (l : list A) : m <> 0 -> back (words m w l) = Ok (firstn w (skipn ((m - 1) * w) l)).
Proof.
  intros H. destruct m as [|m]; [congruence|]. rewrite words_snoc. replace (S m - 1) with m by lia.
  unfold back. rewrite rev_app_distr. cbn [rev app]. destruct (words m w l); reflexivity.
Qed.

(** everything about an accepted call *)
Lemma padding_main xs bs n s cs0 : 64 <= bs -> length xs mod 8 = 0 -> 0 < length xs -> 
  exists k blocks pb' new, pad_zeros bs (length xs) k /\
    let K := length (pad_suffix (length xs) k) in
    bits2blocks_padded xs bs (PB n s cs0) = Ok (blocks, pb') /\
    concat blocks = xs ++ seq n K /\ Forall (fun b => length b = bs) blocks /\
    pb_next pb' = n + K /\ pb_cs pb' = cs0 ++ new /\ cs_all (fun v => n <= v < n + K) new /\
    frame n (n + K) s (pb_val pb') /\
    map (pb_val pb') (seq n K) = map b2F (pad_suffix (length xs) k) /\
    (forall t, sat t new <-> t n = F1 /\ map t (seq (n + 1 + k) 64) = map b2F (msb_bits 64 (Z.of_nat (length xs)))).
Proof.
  intros Hbs H8 H0. set (L := length xs) in *.
  destruct (round_up (L + 1 + length_bits) bs) as (HT1 & HT2 & HT3); [lia|].
  unfold bits2blocks_padded. fold L. rewrite H8. cbn [Nat.eqb oassert]. rewrite bind_ok, (proj2 (Nat.ltb_lt _ _) H0). cbn [oassert]. rewrite bind_ok.
  replace (bs =? 0) with false by (symmetry; apply Nat.eqb_neq; lia).
  set (T := if negb ((L + 1 + length_bits) mod bs =? 0) then _ else _) in *. unfold length_bits in *.
  set (m := T / bs) in *.
  set (k := T - (L + 1 + 64)). exists k.
  assert (EK : length (pad_suffix L k) = T - L).
  { unfold pad_suffix. cbn [length]. rewrite app_length, repeat_length, msb_bits_length. lia. }
  assert (Hm : m <> 0) by nia.
  destruct (blocks_ok xs bs n s cs0 (T - L) Hbs m (PB n s cs0)) as (pb1 & E1 & P1).
  { fold L. lia. }
  { repeat split; cbn [pb_next pb_val pb_cs]; try lia. exists []. rewrite app_nil_r. repeat split; try constructor. intros _ ?. lia. }
  rewrite <- HT1 in E1, P1. set (X := xs ++ seq n (T - L)) in *.
  assert (LX : length X = T) by (unfold X; rewrite app_length, seq_length; fold L; lia).
  destruct P1 as (P1 & P2 & P3 & new & P4 & P5 & P6). fold L in P1, P2, P3, P5, P6.
  set (lb := msb_bits 64 (Z.of_nat L)). assert (Llb : length lb = 64) by apply msb_bits_length.
  pose (v0 := n + 1 + k).
  (* the length suffix *)
  set (f := fun k pb => b <- idx lb k ;; v <- idx (firstn bs (skipn ((m - 1) * bs) X)) (bs - 64 + k) ;;
           let value := b2F b in Ok (pb_set (pb_add pb (R1 (V v) L1 (LC value))) v value)).
  destruct (ofor_inv (fun i pb => pb_next pb = n + (T - L) /\ frame n (n + (T - L)) s (pb_val pb) /\
      map (pb_val pb) (seq n (1 + k)) = map b2F (true :: repeat false k) /\
      map (pb_val pb) (seq v0 i) = map b2F (firstn i lb) /\
      exists new, pb_cs pb = cs0 ++ new /\ cs_all (fun v => n <= v < n + (T - L)) new /\
        forall t, sat t new <-> t n = F1 /\ map t (seq v0 i) = map b2F (firstn i lb)) 64 f 0 pb1) as (pb2 & E2 & Q1 & Q2 & Q3 & Q4 & new2 & Q5 & Q6 & Q7).
  { split; [exact P1|]. split; [exact P2|]. split; [|split; [reflexivity|]].
    - replace (1 + k) with (S k) by lia. cbn [seq map]. f_equal.
      + replace n with (n + 0) by lia. rewrite P3 by lia. reflexivity.
      + replace (map b2F (repeat false k)) with (repeat F0 k) by (clear; induction k; cbn; congruence).
        apply (nth_ext _ _ F0 F0); rewrite map_length, seq_length, ?repeat_length; [reflexivity|].
        intros i Hi. rewrite nth_repeat. rewrite (nth_indep _ F0 (pb_val pb1 0)) by (rewrite map_length, seq_length; lia).
        rewrite map_nth, seq_nth by lia. replace (S n + i) with (n + S i) by lia. rewrite P3 by lia. reflexivity.
    - exists new. split; [exact P4|]. split; [exact P5|]. intros t. rewrite P6. cbn [seq map firstn].
      split; [intros H; split; [apply H; lia|reflexivity]|]. intros (H & _) _. exact H. }
  { intros i pb Hi (Q1 & Q2 & Q3 & Q4 & new2 & Q5 & Q6 & Q7). unfold f.
    rewrite (idx_nth lb i false), bind_ok by lia.
    assert (Ls : length (skipn ((m - 1) * bs) X) = bs) by (rewrite skipn_length, LX; nia).
    rewrite (idx_nth _ _ 0), bind_ok by (rewrite firstn_all2 by lia; lia).
    rewrite firstn_all2 by lia. rewrite nth_skipn.
    assert (EX : nth ((m - 1) * bs + (bs - 64 + i)) X 0 = v0 + i).
    { unfold X. rewrite (X_nth_pad xs bs); fold L; unfold v0, k; nia. }
    rewrite EX. cbn zeta. eexists. split; [reflexivity|]. cbn [pb_next pb_val pb_cs pb_add pb_set].
    split; [exact Q1|]. split; [|split; [|split]].
    - intros v Hv. rewrite upd_other by (unfold v0, k in *; lia). now apply Q2.
    - rewrite <- Q3. apply map_ext_in. intros v Hv%in_seq. apply upd_other. unfold v0. lia.
    - replace (S i) with (i + 1) by lia. rewrite seq_app, map_app. cbn [seq map].
      rewrite upd_same. replace (i + 1) with (S i) by lia. rewrite (firstn_S_nth _ i false), map_app by lia. cbn [map]. f_equal.
      rewrite <- Q4. apply map_ext_in. intros v Hv%in_seq. apply upd_other. lia.
    - eexists. rewrite Q5, <- app_assoc. split; [reflexivity|]. split.
      + apply cs_all_app. split; [exact Q6|]. repeat constructor; cbn; unfold v0, k; lia.
      + intros t. rewrite sat_app, Q7. unfold sat. rewrite Forall_cons_iff. unfold holds. cbn [cA cB cC ev L1].
        replace (S i) with (i + 1) by lia. rewrite seq_app, map_app. cbn [seq map].
        replace (i + 1) with (S i) by lia. rewrite (firstn_S_nth _ i false), map_app by lia. cbn [map].
        split.
        * intros ((H1 & H2) & H3 & _). split; [exact H1|]. rewrite H2, <- H3. do 2 f_equal. ring.
        * intros (H1 & H2). apply app_inj_tail in H2. destruct H2 as (H2 & H3).
          split; [split; assumption|]. split; [rewrite H3; ring|constructor]. }
  exists (words m bs X), pb2, new2. split.
  { unfold pad_zeros. split.
    - replace (L + 1 + k + 64) with T by (unfold k; lia). rewrite HT1. apply Nat.mod_mul. lia.
    - intros k' Hk'. apply HT3. unfold k in Hk'. lia. }
  rewrite EK. cbn zeta. split.
  { rewrite E1, bind_ok. cbn beta iota. rewrite back_words, bind_ok by exact Hm.
    replace (bs <? 64) with false by (symmetry; apply Nat.ltb_ge; lia).
    rewrite bitlen_bits_eq by lia. fold lb.
    change (obind (ofor 0 64 f pb1) (fun pb => Ok (words m bs X, pb)) = Ok (words m bs X, pb2)). now rewrite E2, bind_ok. }
  split; [exact (words_concat m bs X (eq_trans LX HT1))|]. split; [apply Forall_forall; intros b Hb; apply (words_each m bs X); [rewrite LX, <- HT1; apply Nat.le_refl|exact Hb]|].
  split; [exact Q1|]. split; [exact Q5|]. split; [exact Q6|]. split; [exact Q2|].
  split.
  - unfold pad_suffix. replace (T - L) with ((1 + k) + 64) by (unfold k; lia). rewrite seq_app, map_app, Q3.
    change (map b2F (true :: repeat false k) ++ map (pb_val pb2) (seq (n + (1 + k)) 64) = map b2F ((true :: repeat false k) ++ lb)).
    rewrite map_app. f_equal. replace (n + (1 + k)) with v0 by (unfold v0; lia). cbn [Nat.add] in Q4. rewrite Q4, firstn_all2 by lia. reflexivity.
  - intros t. rewrite Q7. fold v0. cbn [Nat.add]. rewrite firstn_all2 by lia. reflexivity.
Qed.

Lemma padding_rejects xs bs pb : length xs mod 8 <> 0 \/ length xs = 0 -> bits2blocks_padded xs bs pb = Abort.
Proof.
  intros H. unfold bits2blocks_padded. destruct (Nat.eqb_spec (length xs mod 8) 0) as [E|N]; [|reflexivity].
  cbn [oassert]. rewrite bind_ok. destruct H as [H|H]; [congruence|]. rewrite H. reflexivity.
Qed.
