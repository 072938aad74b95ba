(** The buffering of HASH_UPDATE and HASH_FINAL. *)
From Coq Require Import List ZArith Bool Arith Lia.
From Verif Require Import Base M_Utils M_Sha256 Spec_Utils Spec_Padding Spec_Sha256 P_Sha256.
Import ListNotations.
Local Open Scope nat_scope.

Definition word4 (a b c d : Z) : Z := (a * 2 ^ 24 + b * 2 ^ 16 + c * 2 ^ 8 + d)%Z.
(** big-endian words of a byte string, the last one filled up with zeros *)
Fixpoint pack (l : list Z) : list Z :=
  match l with
  | a :: b :: c :: d :: r => word4 a b c d :: pack r
  | [a; b; c] => [word4 a b c 0]
  | [a; b] => [word4 a b 0 0]
  | [a] => [word4 a 0 0 0]
  | [] => []
  end.

Lemma pack_app n : forall t1 t2, length t1 = 4 * n -> pack (t1 ++ t2) = pack t1 ++ pack t2.
Proof.
  induction n as [|n IH]; intros t1 t2 H; [destruct t1; [reflexivity|discriminate H]|].
  destruct t1 as [|a [|b [|c [|d r]]]]; cbn [length] in H; try lia. cbn [app pack]. rewrite IH by lia. reflexivity.
Qed.
Lemma pack_length n : forall t, length t = 4 * n -> length (pack t) = n.
Proof.
  induction n as [|n IH]; intros t H; [destruct t; [reflexivity|discriminate H]|].
  destruct t as [|a [|b [|c [|d r]]]]; cbn [length] in H; try lia. cbn [pack length]. rewrite IH by lia. reflexivity.
Qed.
Lemma word4_lt a b c d : byte a -> byte b -> byte c -> byte d -> w32 (word4 a b c d).
Proof. unfold byte, w32, word4. lia. Qed.
Lemma byte0 : byte 0. Proof. unfold byte. lia. Qed.
Lemma pack_w32 : forall n t, length t <= n -> Forall byte t -> Forall w32 (pack t).
Proof.
  induction n as [|n IH]; intros t Ht H; [destruct t; [apply Forall_nil|cbn in Ht; lia]|].
  pose proof byte0.
  destruct t as [|a [|b [|c [|d r]]]]; cbn [pack]; repeat match goal with X : Forall byte (_ :: _) |- _ => let q := fresh "Q" in pose proof (Forall_inv X) as q; apply Forall_inv_tail in X end;
    try (apply Forall_nil); (apply Forall_cons; [apply word4_lt; assumption|]); try apply Forall_nil. apply IH; [cbn [length] in Ht; lia|assumption].
Qed.

Lemma lor2 a b : byte a -> byte b -> forall x, Z.lor (x * 2 ^ 16 + a * 2 ^ 8) b = (x * 2 ^ 16 + a * 2 ^ 8 + b)%Z.
Proof. intros Ha Hb x. unfold byte in *. replace (x * 2 ^ 16 + a * 2 ^ 8)%Z with ((x * 2 ^ 8 + a) * 2 ^ 8)%Z by lia. rewrite lor_add by lia. reflexivity. Qed.

Ltac shl := rewrite ?Z.shiftl_mul_pow2 by lia.
Lemma or4 a b c d : byte a -> byte b -> byte c -> byte d ->
  Z.lor (Z.lor (Z.lor (Z.shiftl a 24) (Z.shiftl b 16)) (Z.shiftl c 8)) d = word4 a b c d.
Proof.
  unfold byte, word4. intros. shl.
  rewrite (lor_add a) by lia. replace (a * 2 ^ 24 + b * 2 ^ 16)%Z with ((a * 2 ^ 8 + b) * 2 ^ 16)%Z by lia. rewrite lor_add by lia.
  replace ((a * 2 ^ 8 + b) * 2 ^ 16 + c * 2 ^ 8)%Z with (((a * 2 ^ 8 + b) * 2 ^ 8 + c) * 2 ^ 8)%Z by lia. rewrite lor_add by lia. lia.
Qed.
Lemma or_at3 a b c d : byte d -> Z.lor (word4 a b c 0) d = word4 a b c d.
Proof. unfold byte, word4. intros. replace (a * 2 ^ 24 + b * 2 ^ 16 + c * 2 ^ 8 + 0)%Z with ((a * 2 ^ 16 + b * 2 ^ 8 + c) * 2 ^ 8)%Z by lia. rewrite lor_add by lia. lia. Qed.
Lemma or_at2 a b c : byte c -> Z.lor (word4 a b 0 0) (Z.shiftl c 8) = word4 a b c 0.
Proof. unfold byte, word4. intros. shl. replace (a * 2 ^ 24 + b * 2 ^ 16 + 0 * 2 ^ 8 + 0)%Z with ((a * 2 ^ 8 + b) * 2 ^ 16)%Z by lia. rewrite lor_add by lia. lia. Qed.
Lemma or_at1 a b : byte b -> Z.lor (word4 a 0 0 0) (Z.shiftl b 16) = word4 a b 0 0.
Proof. unfold byte, word4. intros. shl. replace (a * 2 ^ 24 + 0 * 2 ^ 16 + 0 * 2 ^ 8 + 0)%Z with (a * 2 ^ 24)%Z by lia. rewrite lor_add by lia. lia. Qed.
Lemma or_at0 a : Z.shiftl a 24 = word4 a 0 0 0.
Proof. unfold word4. shl. lia. Qed.

Ltac binv := repeat match goal with X : Forall byte (_ :: _) |- _ => let q := fresh "Q" in pose proof (Forall_inv X) as q; apply Forall_inv_tail in X end.

Lemma c2l_ok a b c d r : byte a -> byte b -> byte c -> byte d -> HOST_c2l (a :: b :: c :: d :: r) = Ok (word4 a b c d, r).
Proof. intros. unfold HOST_c2l. cbn [rd obind]. rewrite or4 by assumption. reflexivity. Qed.

(** [holds_word p l]: the word [l] has the bytes [p] at its top and zeros below; anything if [p] is empty *)
Definition holds_word (p : list Z) (l : Z) : Prop := p = [] \/ pack p = [l].

Lemma p_c2l_ok : forall p q r l, length p < 4 -> length p + length q = 4 -> Forall byte p -> Forall byte q -> holds_word p l ->
  exists l', HOST_p_c2l (q ++ r) l (length p) = Ok (l', r) /\ pack (p ++ q) = [l'].
Proof.
  intros p q r l Hp Hq Bp Bq Hl.
  destruct p as [|p0 [|p1 [|p2 [|p3 p]]]]; cbn [length] in *; try lia;
  destruct q as [|q0 [|q1 [|q2 [|q3 [|q4 q]]]]]; cbn [length] in *; try lia; binv;
  unfold HOST_p_c2l, p_case1, p_case2, p_case3; cbn [app rd obind pack]; (eexists; split; [reflexivity|]).
  - rewrite or_at0, or_at1, or_at2, or_at3 by assumption. reflexivity.
  - destruct Hl as [Hl|Hl]; [discriminate|]. injection Hl as <-. rewrite or_at1, or_at2, or_at3 by assumption. reflexivity.
  - destruct Hl as [Hl|Hl]; [discriminate|]. injection Hl as <-. rewrite or_at2, or_at3 by assumption. reflexivity.
  - destruct Hl as [Hl|Hl]; [discriminate|]. injection Hl as <-. rewrite or_at3 by assumption. reflexivity.
Qed.
Lemma p_c2l_p_ok : forall p q l, q <> [] -> length p + length q < 4 -> Forall byte p -> Forall byte q -> holds_word p l ->
  exists l', HOST_p_c2l_p q l (length p) (length q) = Ok l' /\ pack (p ++ q) = [l'].
Proof.
  intros p q l Nq Hq Bp Bq Hl.
  destruct p as [|p0 [|p1 [|p2 [|p3 p]]]]; cbn [length] in *; try lia;
  destruct q as [|q0 [|q1 [|q2 [|q3 [|q4 q]]]]]; cbn [length] in *; try lia; try (exfalso; apply Nq; reflexivity); binv;
  unfold HOST_p_c2l_p, pp_case1, pp_case2; cbn [app rd obind pack Nat.sub Nat.eqb]; (eexists; split; [reflexivity|]).
  - rewrite or_at0. reflexivity.
  - rewrite or_at0, or_at1 by assumption. reflexivity.
  - rewrite or_at0, or_at1, or_at2 by assumption. reflexivity.
  - destruct Hl as [Hl|Hl]; [discriminate|]. injection Hl as <-. rewrite or_at1 by assumption. reflexivity.
  - destruct Hl as [Hl|Hl]; [discriminate|]. injection Hl as <-. rewrite or_at1, or_at2 by assumption. reflexivity.
  - destruct Hl as [Hl|Hl]; [discriminate|]. injection Hl as <-. rewrite or_at2 by assumption. reflexivity.
Qed.
Lemma c2l_p_ok : forall q, 0 < length q < 4 -> Forall byte q -> exists l', HOST_c2l_p q (length q) = Ok l' /\ pack q = [l'].
Proof.
  intros q Hq Bq. destruct q as [|q0 [|q1 [|q2 [|q3 q]]]]; cbn [length] in *; try lia; binv;
  unfold HOST_c2l_p; cbn [idx nth_error obind pack]; (eexists; split; [reflexivity|]); rewrite ?Z.lor_0_l.
  - rewrite or_at0. reflexivity.
  - rewrite Z.lor_comm, or_at0, or_at1 by assumption. reflexivity.
  - rewrite Z.lor_comm, (Z.lor_comm (Z.shiftl q2 8)), Z.lor_assoc. rewrite or_at0, or_at1, or_at2 by assumption. reflexivity.
Qed.

Lemma wr_at {A} (pre : list A) x suf y i : i = length pre -> wr (pre ++ x :: suf) i y = Ok (pre ++ y :: suf).
Proof.
  intros ->. rewrite wr_ok by (rewrite app_length; cbn [length]; lia). rewrite firstn_app, firstn_all, Nat.sub_diag. cbn [firstn]. rewrite app_nil_r.
  replace (skipn (S (length pre)) (pre ++ x :: suf)) with suf; [reflexivity|].
  rewrite skipn_app, skipn_all2 by lia. replace (S (length pre) - length pre) with 1 by lia. reflexivity.
Qed.
Lemma idx_at {A} (pre : list A) x suf i : i = length pre -> idx (pre ++ x :: suf) i = Ok x.
Proof. intros ->. unfold idx. rewrite nth_error_app2, Nat.sub_diag by lia. reflexivity. Qed.

Lemma copy_words_ok : forall n sw pre old suf bs r, length pre = sw -> length old = n -> length bs = 4 * n -> Forall byte bs ->
  copy_words sw n (pre ++ old ++ suf, bs ++ r) = Ok (pre ++ pack bs ++ suf, r).
Proof.
  unfold copy_words. induction n as [|n IH]; intros sw pre old suf bs r Hp Ho Hb B.
  - destruct old; [|discriminate Ho]. destruct bs; [|discriminate Hb]. reflexivity.
  - destruct old as [|o old]; [discriminate Ho|].
    destruct bs as [|a [|b [|c [|d bs]]]]; cbn [length] in Hb; try lia. binv.
    cbn [ofor app]. rewrite c2l_ok by assumption. cbn [obind]. rewrite wr_at by lia. cbn [obind pack app].
    replace (pre ++ word4 a b c d :: old ++ suf) with ((pre ++ [word4 a b c d]) ++ old ++ suf) by (rewrite <- app_assoc; reflexivity).
    rewrite IH; [rewrite <- app_assoc; reflexivity|rewrite app_length; cbn [length]; lia|cbn [length] in Ho; lia|lia|assumption].
Qed.

(** ** iteration over 64-byte blocks *)
Definition iter (n : nat) (full h : list Z) : list Z := fold_left (fun h b => fips_compress h (pack b)) (words n 64 full) h.
Definition hval (h : list Z) : Prop := length h = 8 /\ Forall w32 h.

Lemma words_app {A} n w : forall (l1 l2 : list A) m, length l1 = w * n -> words (n + m) w (l1 ++ l2) = words n w l1 ++ words m w l2.
Proof.
  induction n as [|n IH]; intros l1 l2 m H.
  - rewrite Nat.mul_0_r in H. destruct l1; [reflexivity|discriminate H].
  - cbn [Nat.add words app]. assert (w <= length l1) by nia. rewrite firstn_app. replace (w - length l1) with 0 by lia. cbn [firstn]. rewrite app_nil_r. f_equal.
    rewrite skipn_app. replace (w - length l1) with 0 by lia. cbn [skipn]. apply IH. rewrite skipn_length. nia.
Qed.
Lemma iter_app n1 n2 f1 f2 h : length f1 = 64 * n1 -> iter (n1 + n2) (f1 ++ f2) h = iter n2 f2 (iter n1 f1 h).
Proof. intros H. unfold iter. rewrite words_app by exact H. apply fold_left_app. Qed.
Lemma iter1 f h : length f = 64 -> iter 1 f h = fips_compress h (pack f).
Proof. intros H. unfold iter. cbn [words fold_left]. rewrite firstn_all2 by lia. reflexivity. Qed.
Lemma step_hval h b : hval h -> length b = 64 -> Forall byte b -> sha256_words h (pack b) = Ok (fips_compress h (pack b)) /\ hval (fips_compress h (pack b)).
Proof.
  intros [H1 H2] Lb Bb. destruct (compress_ok h (pack b)) as [E [L W]]; [exact H1|apply pack_length; lia|exact H2|apply (pack_w32 64); [lia|exact Bb]|].
  split; [exact E|]. split; assumption.
Qed.
Lemma split_at {A} (l : list A) n : n <= length l -> exists a b, l = a ++ b /\ length a = n.
Proof. intros H. exists (firstn n l), (skipn n l). split; [symmetry; apply firstn_skipn|]. rewrite firstn_length. lia. Qed.
Lemma iter_hval n : forall f h, hval h -> length f = 64 * n -> Forall byte f -> hval (iter n f h).
Proof.
  induction n as [|n IH]; intros f h Hh Lf Bf; [exact Hh|].
  destruct (split_at f 64) as [a [b [-> La]]]; [lia|]. rewrite app_length in Lf. apply Forall_app in Bf as [Ba Bb].
  change (S n) with (1 + n). rewrite iter_app by lia. rewrite iter1 by exact La. apply IH; [apply step_hval; assumption|lia|exact Bb].
Qed.
Lemma data_order_ok n : forall k full rest h, hval h -> length full = 64 * n -> Forall byte full ->
  ofor k n (fun _ st => let '(h, d) := st in ' (W, d) <- copy_words 0 16 (repeat 0%Z 16, d) ;; h <- sha256_words h W ;; Ok (h, d)) (h, full ++ rest)
  = Ok (iter n full h, rest).
Proof.
  induction n as [|n IH]; intros k full rest h Hh Lf Bf.
  - destruct full; [reflexivity|discriminate Lf].
  - destruct (split_at full 64) as [a [b [-> La]]]; [lia|]. rewrite app_length in Lf. apply Forall_app in Bf as [Ba Bb].
    assert (CW : copy_words 0 16 (repeat 0%Z 16, (a ++ b) ++ rest) = Ok (pack a, b ++ rest)).
    { rewrite <- app_assoc. pose proof (copy_words_ok 16 0 [] (repeat 0%Z 16) [] a (b ++ rest) eq_refl eq_refl ltac:(lia) Ba) as X.
      rewrite !app_nil_r in X. exact X. }
    cbn [ofor]. rewrite CW. cbn [obind].
    destruct (step_hval h a Hh La Ba) as [-> Hh']. cbn [obind]. rewrite IH by (assumption || lia).
    change (S n) with (1 + n). rewrite iter_app by lia. rewrite iter1 by exact La. reflexivity.
Qed.

Lemma update_rest_ok : forall h data d, hval h -> length data = 16 -> Forall byte d ->
  exists full tail junk n, d = full ++ tail /\ length full = 64 * n /\ length tail < 64 /\ length (pack tail ++ junk) = 16 /\
    update_rest h data d 0 = Ok (iter n full h, pack tail ++ junk, length tail).
Proof.
  intros h data d Hh Ld B. set (n := length d / 64).
  assert (Hn : 64 * n <= length d) by (apply Nat.mul_div_le; lia).
  assert (Hr : length d - 64 * n < 64) by (unfold n; pose proof (Nat.mod_upper_bound (length d) 64); rewrite (Nat.mod_eq (length d) 64) in H by lia; lia).
  destruct (split_at d (64 * n) Hn) as [full [tail [E Lf]]]. 
  assert (Lt : length tail = length d - n * 64) by (rewrite E, app_length, Lf; lia).
  assert (Bf : Forall byte full /\ Forall byte tail) by (rewrite E in B; apply Forall_app; exact B). destruct Bf as [Bf Bt].
  assert (S1 : (if 0 <? n then block_data_order h d n else Ok (h, d)) = Ok (iter n full h, tail)).
  { destruct (Nat.ltb_spec 0 n) as [L|L].
    - unfold block_data_order. rewrite E. apply data_order_ok; assumption.
    - assert (n = 0) by lia. rewrite E. rewrite H in Lf |- *. destruct full; [reflexivity|discriminate Lf]. }
  unfold update_rest. fold n. rewrite S1. cbn [obind]. rewrite <- Lt.
  destruct (Nat.eqb_spec (length tail) 0) as [Z0|NZ].
  - destruct tail; [|discriminate Z0]. exists full, [], data, n. cbn [length pack app]. repeat (split; [first [assumption | lia]|]). reflexivity.
  - set (w := length tail / 4). assert (Hw : 4 * w <= length tail) by (apply Nat.mul_div_le; lia).
    assert (Hw' : length tail mod 4 = length tail - 4 * w) by (unfold w; apply Nat.mod_eq; lia).
    pose proof (Nat.mod_upper_bound (length tail) 4 ltac:(lia)) as Hm.
    destruct (split_at tail (4 * w) Hw) as [t1 [t2 [Et L1]]].
    assert (L2 : length t2 = length tail mod 4) by (rewrite Hw', Et, app_length; lia).
    rewrite Et in Bt. apply Forall_app in Bt as [B1 B2].
    destruct (split_at data w) as [o [s [Eo Lo]]]; [lia|]. assert (Ls : length o + length s = 16) by (rewrite <- Ld, Eo, app_length; reflexivity).
    destruct s as [|x s]; [cbn [length] in Ls; lia|].
    replace (data, tail) with ([] ++ o ++ x :: s, t1 ++ t2) by (rewrite Eo, Et; reflexivity).
    rewrite (copy_words_ok w 0 [] o (x :: s) t1 t2) by (reflexivity || assumption). cbn [obind app].
    rewrite land3, <- L2. fold w.
    assert (LP : w = length (pack t1)) by (symmetry; apply pack_length; exact L1).
    destruct t2 as [|y t2].
    + cbn [length HOST_c2l_p obind]. rewrite wr_at by exact LP. cbn [obind]. exists full, tail, (0%Z :: s), n.
      assert (Ep : pack tail = pack t1) by (rewrite Et, app_nil_r; reflexivity). rewrite Ep.
      split; [exact E|]. split; [exact Lf|]. split; [lia|]. split; [rewrite app_length, <- LP; cbn [length] in *; lia|reflexivity].
    + destruct (c2l_p_ok (y :: t2)) as [l' [El Pl]]; [cbn [length] in *; lia|exact B2|]. rewrite El. cbn [obind].
      rewrite wr_at by exact LP. cbn [obind]. exists full, tail, s, n.
      assert (Ep : pack tail = pack t1 ++ [l']) by (rewrite Et, (pack_app w) by exact L1; rewrite Pl; reflexivity). rewrite Ep, <- app_assoc. cbn [app].
      split; [exact E|]. split; [exact Lf|]. split; [lia|]. split; [rewrite app_length, <- LP; cbn [length] in *; lia|reflexivity].
Qed.
