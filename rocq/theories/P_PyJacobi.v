(** Lemmas for C129: the Jacobi symbol by Gauss' lemma (in Schering's form, for odd moduli that need not be
    prime), multiplicativity, the symbol of 2 and the law of reciprocity. *)
From Coq Require Import List ZArith Bool Lia Znumtheory Permutation.
From Verif Require Import Pocklington.
Import ListNotations.
Local Open Scope nat_scope.
Local Open Scope Z_scope.

(** ** exclusive or over a list *)
Definition X (f : Z -> bool) (l : list Z) : bool := fold_right (fun k acc => xorb (f k) acc) false l.
Lemma X_xor f g l : X (fun k => xorb (f k) (g k)) l = xorb (X f l) (X g l).
Proof. induction l as [|k l IH]; cbn [X fold_right]; [reflexivity|]. fold (X (fun k => xorb (f k) (g k)) l) (X f l) (X g l). rewrite IH. destruct (f k), (g k), (X f l), (X g l); reflexivity. Qed.
Lemma X_ext f g l : (forall k, In k l -> f k = g k) -> X f l = X g l.
Proof. intros H. induction l as [|k l IH]; cbn [X fold_right]; [reflexivity|]. fold (X f l) (X g l). rewrite (H k (or_introl eq_refl)), IH; [reflexivity|]. intros j Hj. apply H. now right. Qed.
Lemma X_and c f l : X (fun k => c && f k) l = c && X f l.
Proof. induction l as [|k l IH]; cbn [X fold_right]; [now rewrite andb_false_r|]. fold (X (fun k => c && f k) l) (X f l). rewrite IH. destruct c, (f k), (X f l); reflexivity. Qed.
Lemma X_map f (g : Z -> Z) l : X f (map g l) = X (fun k => f (g k)) l.
Proof. induction l as [|k l IH]; cbn [X fold_right map]; [reflexivity|]. fold (X f (map g l)) (X (fun k => f (g k)) l). now rewrite IH. Qed.
Lemma X_perm f l l' : Permutation l l' -> X f l = X f l'.
Proof.
  induction 1 as [|x l l' _ IH|x y l|l l' l'' _ IH1 _ IH2]; cbn [X fold_right]; [reflexivity| | |congruence].
  - fold (X f l) (X f l'). now rewrite IH.
  - fold (X f l). destruct (f x), (f y), (X f l); reflexivity.
Qed.
Lemma X_swap (f : Z -> Z -> bool) l l' : X (fun k => X (f k) l') l = X (fun j => X (fun k => f k j) l) l'.
Proof.
  induction l as [|k l IH].
  - cbn [X fold_right]. induction l' as [|j l' IH]; [reflexivity|]. cbn [X fold_right]. fold (X (fun _ => false) l'). now rewrite <- IH.
  - cbn [X fold_right]. fold (X (fun k => X (f k) l') l). rewrite IH, <- X_xor. reflexivity.
Qed.
Lemma X_app f l l' : X f (l ++ l') = xorb (X f l) (X f l').
Proof. induction l as [|k l IH]; cbn [X fold_right app]; [now rewrite xorb_false_l|]. fold (X f (l ++ l')) (X f l). now rewrite IH, xorb_assoc. Qed.

Definition upto (h : Z) : list Z := residues (h + 1).
Lemma upto_In h k : In k (upto h) <-> 1 <= k <= h.
Proof. unfold upto. rewrite residues_In. lia. Qed.
Lemma upto_S h : 0 <= h -> upto (h + 1) = upto h ++ [h + 1].
Proof.
  intros H. unfold upto, residues. replace (Z.to_nat (h + 1 + 1 - 1)) with (S (Z.to_nat h)) by lia. replace (Z.to_nat (h + 1 - 1)) with (Z.to_nat h) by lia.
  rewrite seq_S, map_app. cbn [map]. do 2 f_equal. lia.
Qed.
Lemma upto_0 : upto 0 = [].
Proof. reflexivity. Qed.
Lemma X_upto_ind (P : Z -> bool -> Prop) f : P 0 false -> (forall h b, 0 <= h -> P h b -> P (h + 1) (xorb b (f (h + 1)))) -> forall h, 0 <= h -> P h (X f (upto h)).
Proof.
  intros P0 PS h H. pattern h. apply natlike_ind; [exact P0| |exact H]. intros x Hx IH. rewrite <- Z.add_1_r, upto_S, X_app by exact Hx. cbn [X fold_right].
  rewrite xorb_false_r. now apply PS.
Qed.
Lemma X_true h : 0 <= h -> X (fun _ => true) (upto h) = Z.odd h.
Proof.
  apply (X_upto_ind (fun h b => b = Z.odd h)); [reflexivity|]. intros k b _ ->. rewrite Z.odd_add. reflexivity.
Qed.
Lemma X_le t h : 0 <= t -> 0 <= h -> X (fun j => j <=? t) (upto h) = Z.odd (Z.min t h).
Proof.
  intros T H. revert h H. apply (X_upto_ind (fun h b => b = Z.odd (Z.min t h)) (fun j => j <=? t)); [rewrite Z.min_r by exact T; reflexivity|].
  intros h b H ->. destruct (Z.leb_spec (h + 1) t).
  - rewrite !Z.min_r by lia. now rewrite Z.odd_add.
  - rewrite !Z.min_l by lia. apply xorb_false_r.
Qed.
Lemma X_odd h : 0 <= h -> X Z.odd (upto h) = negb ((h mod 4 =? 0) || (h mod 4 =? 3)).
Proof.
  revert h. apply (X_upto_ind (fun h b => b = negb ((h mod 4 =? 0) || (h mod 4 =? 3))) Z.odd); [reflexivity|].
  intros h b H ->. pose proof (Z.div_mod h 4 ltac:(lia)) as D. pose proof (Z.mod_pos_bound h 4 ltac:(lia)) as B.
  assert (O : Z.odd (h + 1) = negb (Z.odd (h mod 4))). { rewrite D at 1. rewrite !Z.odd_add, Z.odd_mul. cbn [Z.odd andb]. destruct (Z.odd (h mod 4)); reflexivity. }
  assert (M : (h + 1) mod 4 = (h mod 4 + 1) mod 4) by (rewrite <- (Zplus_mod_idemp_l h 1 4); reflexivity).
  rewrite O, M. assert (C : h mod 4 = 0 \/ h mod 4 = 1 \/ h mod 4 = 2 \/ h mod 4 = 3) by lia.
  destruct C as [-> |[-> |[-> | ->]]]; reflexivity.
Qed.

(** ** the symbol *)
Section Symbol.
Variables h : Z.
Local Notation n := (2 * h + 1).
Hypothesis Hh : 0 <= h.
Definition neg (a k : Z) : bool := h <? (a * k) mod n.
Definition absp (a k : Z) : Z := if neg a k then n - (a * k) mod n else (a * k) mod n.
Definition sg (b : bool) (k : Z) : Z := if b then - k else k.
Lemma half_unique x s1 k1 s2 k2 : 1 <= k1 <= h -> 1 <= k2 <= h -> (n | x - sg s1 k1) -> (n | x - sg s2 k2) -> s1 = s2 /\ k1 = k2.
Proof.
  intros K1 K2 [q1 D1] [q2 D2]. destruct s1, s2; cbn [sg] in *.
  - split; [reflexivity|]. assert ((q1 - q2) * n = k1 - k2) by lia. assert (q1 - q2 = 0) by nia. nia.
  - assert ((q1 - q2) * n = k1 + k2) by lia. assert (0 < q1 - q2 < 1) by nia. lia.
  - assert ((q2 - q1) * n = k1 + k2) by lia. assert (0 < q2 - q1 < 1) by nia. lia.
  - split; [reflexivity|]. assert ((q2 - q1) * n = k1 - k2) by lia. assert (q2 - q1 = 0) by nia. nia.
Qed.
Section Coprime.
Variable a : Z.
Hypothesis Ha : Z.gcd a n = 1.
Lemma ak_nz k : 1 <= k <= 2 * h -> (a * k) mod n <> 0.
Proof.
  intros K E. apply Z.mod_divide in E; [|lia]. apply Z.gauss in E; [|now rewrite Z.gcd_comm]. apply Z.divide_pos_le in E; lia.
Qed.
Lemma absp_range k : 1 <= k <= h -> 1 <= absp a k <= h.
Proof.
  intros K. pose proof (ak_nz k ltac:(lia)). pose proof (Z.mod_pos_bound (a * k) n ltac:(lia)). unfold absp, neg. destruct (Z.ltb_spec h ((a * k) mod n)); lia.
Qed.
Lemma absp_div k : (n | a * k - sg (neg a k) (absp a k)).
Proof.
  pose proof (Z.div_mod (a * k) n ltac:(lia)) as D. unfold absp, sg. destruct (neg a k); [exists ((a * k) / n + 1)|exists ((a * k) / n)]; lia.
Qed.
Lemma absp_perm : Permutation (map (absp a) (upto h)) (upto h).
Proof.
  apply NoDup_Permutation_bis.
  - assert (G : forall l, (forall k, In k l -> 1 <= k <= h) -> NoDup l -> NoDup (map (absp a) l)).
    { induction l as [|k l IH]; intros B N; cbn [map]; [constructor|]. inversion_clear N as [|? ? N1 N2]. constructor.
      - intros I. apply in_map_iff in I. destruct I as (j & E & Hj). apply N1. pose proof (B k (or_introl eq_refl)) as Bk. pose proof (B j (or_intror Hj)) as Bj.
        destruct (absp_div k) as [q1 D1]. destruct (absp_div j) as [q2 D2]. rewrite E in D2.
        assert (DV : (n | a * (k - j)) \/ (n | a * (k + j))).
        { unfold sg in *. destruct (neg a k), (neg a j); [left; exists (q1 - q2)|right; exists (q1 + q2)|right; exists (q1 + q2)|left; exists (q1 - q2)]; lia. }
        destruct DV as [DV|DV]; (apply Z.gauss in DV; [|now rewrite Z.gcd_comm]).
        + destruct DV as [q DV]. assert (q = 0) by nia. replace k with j by lia. exact Hj.
        + apply Z.divide_pos_le in DV; lia.
      - apply IH; [|exact N2]. intros j Hj. apply B. now right. }
    apply G; [intros k Hk; now apply upto_In|apply residues_NoDup].
  - rewrite map_length. reflexivity.
  - intros x Hx. apply in_map_iff in Hx. destruct Hx as (k & <- & Hk). apply upto_In. apply absp_range. now apply upto_In.
Qed.
End Coprime.
(** true for -1, false for 1 *)
Definition J (a : Z) : bool := X (neg a) (upto h).
Lemma J_mod a : J (a mod n) = J a.
Proof. apply X_ext. intros k _. unfold neg. now rewrite Z.mul_mod_idemp_l by lia. Qed.
Lemma J_1 : J 1 = false.
Proof.
  unfold J. rewrite (X_ext _ (fun _ => false && true)); [apply X_and|]. intros k Hk. apply upto_In in Hk. unfold neg. rewrite Z.mul_1_l, Z.mod_small by lia. apply Z.ltb_ge. lia.
Qed.
Lemma J_mul a b : Z.gcd a n = 1 -> Z.gcd b n = 1 -> J (a * b) = xorb (J a) (J b).
Proof.
  intros A B. assert (AB : Z.gcd (a * b) n = 1). { apply Zgcd_1_rel_prime. apply rel_prime_sym. apply rel_prime_mult; apply rel_prime_sym; now apply Zgcd_1_rel_prime. }
  unfold J. rewrite <- (X_perm (neg a) _ _ (absp_perm b B)), X_map, xorb_comm, <- X_xor. apply X_ext. intros k Hk. apply upto_In in Hk.
  pose proof (absp_range b B k Hk) as R1.
  destruct (half_unique (a * b * k) (neg (a * b) k) (absp (a * b) k) (xorb (neg b k) (neg a (absp b k))) (absp a (absp b k))) as [E _]; [now apply absp_range|now apply absp_range|apply absp_div| |exact E].
  destruct (absp_div b k) as [q1 D1]. destruct (absp_div a (absp b k)) as [q2 D2]. unfold sg in *. destruct (neg b k), (neg a (absp b k)); cbn [xorb].
  - exists (a * q1 - q2). nia.
  - exists (a * q1 - q2). nia.
  - exists (a * q1 + q2). nia.
  - exists (a * q1 + q2). nia.
Qed.
(** Eisenstein's congruence *)
Lemma J_parity a : Z.gcd a n = 1 -> xorb (J a) (X (fun k => Z.odd ((a * k) / n)) (upto h)) = negb (Z.odd a) && X Z.odd (upto h).
Proof.
  intros A. assert (E : X (fun k => Z.odd (a * k)) (upto h) = xorb (X (fun k => Z.odd ((a * k) / n)) (upto h)) (xorb (X (fun k => Z.odd (absp a k)) (upto h)) (J a))).
  { unfold J. rewrite <- !X_xor. apply X_ext. intros k _. pose proof (Z.div_mod (a * k) n ltac:(lia)) as D. rewrite D at 1. rewrite Z.odd_add, Z.odd_mul. f_equal.
    - replace (Z.odd n) with true; [reflexivity|]. rewrite Z.odd_add, Z.odd_mul. reflexivity.
    - unfold absp. destruct (neg a k); [|now rewrite xorb_false_r]. rewrite Z.odd_sub. replace (Z.odd n) with true by (rewrite Z.odd_add, Z.odd_mul; reflexivity).
      destruct (Z.odd ((a * k) mod n)); reflexivity. }
  rewrite <- (X_map Z.odd (absp a)), (X_perm Z.odd _ _ (absp_perm a A)) in E.
  rewrite (X_ext _ (fun k => Z.odd a && Z.odd k)), X_and in E by (intros; apply Z.odd_mul).
  destruct (Z.odd a), (X Z.odd (upto h)), (J a), (X (fun k => Z.odd ((a * k) / n)) (upto h)); cbn in *; congruence.
Qed.
Lemma J_2 : J 2 = negb ((n mod 8 =? 1) || (n mod 8 =? 7)).
Proof.
  assert (G : Z.gcd 2 n = 1). { apply Zgcd_1_rel_prime. apply bezout_rel_prime. apply Bezout_intro with (- h) 1. ring. }
  pose proof (J_parity 2 G) as E. rewrite (X_ext (fun k => Z.odd (2 * k / n)) (fun _ => false && true)), X_and in E.
  2: { intros k Hk. apply upto_In in Hk. rewrite Z.div_small by lia. reflexivity. }
  rewrite andb_false_l, xorb_false_r in E. rewrite E, X_odd by exact Hh. cbn [Z.odd negb andb].
  pose proof (Z.div_mod h 4 ltac:(lia)) as D. pose proof (Z.mod_pos_bound h 4 ltac:(lia)) as B.
  assert (M : n mod 8 = 2 * (h mod 4) + 1) by (symmetry; apply Z.mod_unique with (h / 4); lia).
  rewrite M. assert (C : h mod 4 = 0 \/ h mod 4 = 1 \/ h mod 4 = 2 \/ h mod 4 = 3) by lia. destruct C as [-> |[-> |[-> | ->]]]; reflexivity.
Qed.
End Symbol.

Lemma floor_count h g k : 0 <= h -> 0 <= g -> Z.gcd (2 * g + 1) (2 * h + 1) = 1 -> 1 <= k <= h ->
  Z.odd ((2 * g + 1) * k / (2 * h + 1)) = X (fun j => (2 * h + 1) * j <? (2 * g + 1) * k) (upto g).
Proof.
  intros Hh Hg G K. set (m := 2 * g + 1) in *. set (n := 2 * h + 1) in *. assert (N : 0 < n) by (unfold n; lia).
  assert (T : 0 <= m * k / n <= g).
  { split; [apply Z.div_pos; unfold m; lia|]. apply Z.lt_succ_r. apply Z.div_lt_upper_bound; [exact N|]. unfold m, n. nia. }
  rewrite (X_ext _ (fun j => j <=? m * k / n)).
  - rewrite X_le, Z.min_l by lia. reflexivity.
  - intros j Hj. apply upto_In in Hj. pose proof (Z.div_mod (m * k) n ltac:(lia)) as D. pose proof (Z.mod_pos_bound (m * k) n N) as B.
    assert (NE : (m * k) mod n <> 0). { intros E. apply Z.mod_divide in E; [|lia]. apply Z.gauss in E; [|now rewrite Z.gcd_comm]. apply Z.divide_pos_le in E; unfold n in *; lia. }
    destruct (Z.ltb_spec (n * j) (m * k)); destruct (Z.leb_spec j (m * k / n)); try reflexivity; exfalso; nia.
Qed.
Lemma reciprocity h g : 0 <= h -> 0 <= g -> Z.gcd (2 * g + 1) (2 * h + 1) = 1 ->
  xorb (J h (2 * g + 1)) (J g (2 * h + 1)) = Z.odd h && Z.odd g.
Proof.
  intros Hh Hg G. pose proof (J_parity h Hh (2 * g + 1) G) as E1. assert (G' : Z.gcd (2 * h + 1) (2 * g + 1) = 1) by now rewrite Z.gcd_comm.
  pose proof (J_parity g Hg (2 * h + 1) G') as E2.
  assert (O : forall x, Z.odd (2 * x + 1) = true) by (intros x; rewrite Z.odd_add, Z.odd_mul; reflexivity). rewrite O in E1, E2. cbn [negb andb] in E1, E2.
  rewrite (X_ext _ (fun k => X (fun j => (2 * h + 1) * j <? (2 * g + 1) * k) (upto g))) in E1 by (intros k Hk; apply upto_In in Hk; now apply floor_count).
  rewrite (X_ext _ (fun j => X (fun k => (2 * g + 1) * k <? (2 * h + 1) * j) (upto h))) in E2 by (intros k Hk; apply upto_In in Hk; now apply floor_count).
  rewrite X_swap in E1. set (A := X _ (upto g)) in E1. set (B := X _ (upto g)) in E2.
  assert (AB : xorb A B = Z.odd h && Z.odd g).
  { unfold A, B. rewrite <- X_xor. rewrite (X_ext _ (fun j => Z.odd h && true)); [rewrite X_and, X_true by exact Hg; reflexivity|].
    intros j Hj. rewrite andb_true_r. rewrite <- X_xor, <- (X_true h Hh). apply X_ext. intros k Hk. apply upto_In in Hj. apply upto_In in Hk.
    assert (NE : (2 * h + 1) * j <> (2 * g + 1) * k).
    { intros E. assert (D : (2 * h + 1 | (2 * g + 1) * k)) by (exists j; lia). apply Z.gauss in D; [|now rewrite Z.gcd_comm]. apply Z.divide_pos_le in D; lia. }
    destruct (Z.ltb_spec ((2 * h + 1) * j) ((2 * g + 1) * k)); destruct (Z.ltb_spec ((2 * g + 1) * k) ((2 * h + 1) * j)); try reflexivity; exfalso; lia. }
  rewrite <- AB. destruct (J h (2 * g + 1)), (J g (2 * h + 1)), A, B; cbn in *; congruence.
Qed.
