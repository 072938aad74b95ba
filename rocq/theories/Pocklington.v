(** Pocklington's primality criterion over [Z], used only to establish that
    the moduli hard-wired in libff's alt_bn128 parameters are prime (a fact the
    code under study relies on, never checks).
 *)
From Coq Require Import ZArith Znumtheory Zpow_facts List Lia Bool Permutation FinFun.
Import ListNotations.
Open Scope Z_scope.

(** Reduction modulo [m] with a precomputed reciprocal (Barrett).  The result is
    correct for every [mu] and [k]: when the estimate is off the ordinary remainder
    is taken. *)
Definition bred (m mu k x : Z) : Z :=
  let q := Z.shiftr (Z.shiftr x (k - 1) * mu) (k + 1) in
  let r := x - q * m in
  if (0 <=? r) && (r <? m) then r
  else let r1 := r - m in
       if (0 <=? r1) && (r1 <? m) then r1 else x mod m.

Lemma bred_spec m mu k x : 0 < m -> bred m mu k x = x mod m.
Proof.
  intros Hm. unfold bred. set (q := Z.shiftr _ _). cbv zeta.
  destruct ((0 <=? x - q * m) && (x - q * m <? m)) eqn:E.
  - apply andb_prop in E. destruct E as [E1 E2]. apply Z.leb_le in E1. apply Z.ltb_lt in E2.
    apply (Z.mod_unique_pos x m q); lia.
  - clear E. destruct ((0 <=? x - q * m - m) && (x - q * m - m <? m)) eqn:E; [|reflexivity].
    apply andb_prop in E. destruct E as [E1 E2]. apply Z.leb_le in E1. apply Z.ltb_lt in E2.
    apply (Z.mod_unique_pos x m (q + 1)); lia.
Qed.

(** Modular exponentiation by repeated squaring (computable). *)
Fixpoint powpos (a : Z) (e : positive) (m mu k : Z) : Z :=
  match e with
  | xH => a mod m
  | xO e' => let b := powpos a e' m mu k in bred m mu k (b * b)
  | xI e' => let b := powpos a e' m mu k in (bred m mu k (b * b) * a) mod m
  end.

Definition powmod (a e m : Z) : Z :=
  match e with
  | Z0 => 1 mod m
  | Zpos p => let k := Z.log2 m + 1 in powpos a p m (2 ^ (2 * k) / m) k
  | Zneg _ => 0
  end.

Lemma powpos_spec a e m mu k : 0 < m -> powpos a e m mu k = (a ^ Zpos e) mod m.
Proof.
  intros Hm. induction e as [e IH|e IH|]; cbn [powpos].
  - rewrite IH, Pos2Z.inj_xI, Z.pow_add_r, Z.pow_1_r, Z.pow_twice_r by lia.
    rewrite bred_spec by exact Hm.
    rewrite <- Z.mul_mod by lia. rewrite Z.mul_mod_idemp_l by lia. reflexivity.
  - rewrite IH, Pos2Z.inj_xO, Z.pow_twice_r.
    rewrite bred_spec by exact Hm.
    rewrite <- Z.mul_mod by lia. reflexivity.
  - now rewrite Z.pow_1_r.
Qed.

Lemma powmod_spec a e m : 0 < m -> 0 <= e -> powmod a e m = (a ^ e) mod m.
Proof.
  intros Hm He. destruct e as [|e|e]; cbn [powmod].
  - reflexivity.
  - now apply powpos_spec.
  - lia.
Qed.

(** ** Fermat's little theorem, by permuting the residues 1..r-1 *)
Definition zprod (l : list Z) : Z := fold_right Z.mul 1 l.

Lemma zprod_perm l l' : Permutation l l' -> zprod l = zprod l'.
Proof. induction 1; cbn [zprod fold_right] in *; unfold zprod in *; lia. Qed.

Lemma zprod_map_mul a r l : 1 < r ->
  zprod (map (fun k => (a * k) mod r) l) mod r = (a ^ Z.of_nat (length l) * zprod l) mod r.
Proof.
  intros Hr. induction l as [|k l IH]; [reflexivity|].
  cbn [map zprod fold_right length]. fold (zprod (map (fun k => (a * k) mod r) l)). fold (zprod l).
  rewrite Nat2Z.inj_succ, Z.pow_succ_r by lia.
  rewrite Z.mul_mod_idemp_l by lia.
  rewrite <- Z.mul_mod_idemp_r, IH, Z.mul_mod_idemp_r by lia. f_equal. ring.
Qed.

Definition residues (r : Z) : list Z := map Z.of_nat (seq 1 (Z.to_nat (r - 1))).

Lemma residues_In r k : In k (residues r) <-> 1 <= k < r.
Proof.
  unfold residues. rewrite in_map_iff. split.
  - intros (x & <- & Hx). apply in_seq in Hx. lia.
  - intros H. exists (Z.to_nat k). rewrite Z2Nat.id by lia. split; [reflexivity|]. apply in_seq. lia.
Qed.

Lemma residues_NoDup r : NoDup (residues r).
Proof.
  unfold residues. apply FinFun.Injective_map_NoDup; [|apply seq_NoDup].
  intros x y H. lia.
Qed.

Lemma fermat_unit (a r : Z) : prime r -> a mod r <> 0 -> (a ^ (r - 1)) mod r = 1.
Proof.
  intros Hr Ha. assert (Hr1 : 1 < r) by (destruct Hr; lia).
  assert (Hnd : ~ (r | a)).
  { intros H. apply Ha. apply Z.mod_divide; [lia|exact H]. }
  set (l := residues r). set (l' := map (fun k => (a * k) mod r) l).
  assert (Hnz : forall k, In k l -> ~ (r | k)).
  { intros k Hk Hd. apply residues_In in Hk. apply Z.divide_pos_le in Hd; lia. }
  assert (Hincl : incl l' l).
  { intros x Hx. apply in_map_iff in Hx. destruct Hx as (k & <- & Hk). apply residues_In.
    pose proof (Z.mod_pos_bound (a * k) r ltac:(lia)).
    enough ((a * k) mod r <> 0) by lia. intros E. apply Z.mod_divide in E; [|lia].
    apply prime_mult in E; [|exact Hr]. destruct E; [contradiction|]. now apply (Hnz k). }
  assert (Hnd' : NoDup l').
  { assert (H : forall k j, In k l -> In j l -> (a * k) mod r = (a * j) mod r -> k = j).
    { intros k j Hk Hj E. assert (D : (r | a * (k - j))).
      { apply Z.mod_divide; [lia|]. rewrite Z.mul_sub_distr_l, Zminus_mod, E, Z.sub_diag. apply Z.mod_0_l. lia. }
      apply prime_mult in D; [|exact Hr]. destruct D as [D|D]; [contradiction|].
      apply residues_In in Hk. apply residues_In in Hj.
      destruct (Z.lt_trichotomy k j) as [C|[C|C]]; [exfalso| exact C |exfalso].
      - apply Z.divide_opp_r in D. apply Z.divide_pos_le in D; lia.
      - apply Z.divide_pos_le in D; lia. }
    subst l'. pose proof (residues_NoDup r) as Hn. fold l in Hn. clearbody l. clear Hnz Hincl.
    induction Hn as [|k l Hk Hn IH]; cbn [map]; constructor.
    - intros Hin. apply in_map_iff in Hin. destruct Hin as (j & E & Hj).
      apply Hk. rewrite (H k j); [exact Hj|now left|now right|congruence].
    - apply IH. intros x y Hx Hy. apply H; now right. }
  assert (Hperm : Permutation l' l).
  { apply NoDup_Permutation_bis; [exact Hnd'| |exact Hincl]. subst l'. rewrite map_length. lia. }
  pose proof (zprod_map_mul a r l Hr1) as E. fold l' in E. rewrite (zprod_perm _ _ Hperm) in E.
  assert (Hlen : Z.of_nat (length l) = r - 1).
  { subst l. unfold residues. rewrite map_length, seq_length. lia. }
  rewrite Hlen in E.
  assert (Hpz : ~ (r | zprod l)).
  { clearbody l. clear - Hr Hr1 Hnz. induction l as [|k l IH]; cbn [zprod fold_right].
    - intros D. apply Z.divide_1_r_nonneg in D; lia.
    - fold (zprod l). intros D. apply prime_mult in D; [|exact Hr]. destruct D as [D|D].
      + apply (Hnz k); [now left|exact D].
      + apply IH; [intros; apply Hnz; now right|exact D]. }
  assert (D : (r | (a ^ (r - 1) - 1) * zprod l)).
  { apply Z.mod_divide; [lia|]. rewrite Z.mul_sub_distr_r, Z.mul_1_l, Zminus_mod, <- E, Z.sub_diag.
    apply Z.mod_0_l. lia. }
  apply prime_mult in D; [|exact Hr]. destruct D as [[k Hk]|D]; [|contradiction].
  replace (a ^ (r - 1)) with (1 + k * r) by lia.
  rewrite Z.mod_add by lia. apply Z.mod_small. lia.
Qed.

(** ** Exponents of [a] killing [a] modulo [r] are closed under gcd *)

Lemma pow_gcd (a r : Z) : 1 < r -> forall m n, 0 <= m -> 0 <= n ->
  (a ^ m) mod r = 1 -> (a ^ n) mod r = 1 -> (a ^ Z.gcd m n) mod r = 1.
Proof.
  intros Hr m n Hm Hn. revert m Hm.
  pattern n. apply Z_lt_induction; [|exact Hn]. clear n Hn.
  intros n IH m Hm H1 H2.
  destruct (Z.eq_dec n 0) as [->|Hn].
  - rewrite Z.gcd_0_r, Z.abs_eq by lia. exact H1.
  - destruct (Z_lt_le_dec n 0) as [Hlt|Hle].
    { rewrite Z.pow_neg_r in H2 by lia. rewrite Z.mod_0_l in H2 by lia. lia. }
    rewrite (Z.gcd_comm m n). rewrite <- (Z.gcd_mod m n) by exact Hn.
    rewrite (Z.gcd_comm (m mod n) n).
    pose proof (Z.mod_pos_bound m n ltac:(lia)) as Hb.
    apply (IH (m mod n)); try lia; try assumption.
    rewrite (Z_div_mod_eq_full m n) in H1.
    assert (0 <= m / n) by (apply Z.div_pos; lia).
    rewrite Z.pow_add_r, Z.pow_mul_r in H1 by (try nia; lia).
    rewrite Z.mul_mod, Zpower_mod, H2, Z.pow_1_l in H1 by lia.
    rewrite (Z.mod_small 1) in H1 by lia.
    rewrite Z.mul_1_l, Z.mod_mod in H1 by lia. exact H1.
Qed.

(** A prime power dividing [N-1] divides [r-1] for every prime factor [r] of [N]. *)
Lemma pock_step (N r a q e : Z) :
  1 < N -> prime r -> (r | N) -> prime q -> 0 < e -> (q ^ e | N - 1) ->
  (a ^ (N - 1)) mod N = 1 -> Z.gcd (a ^ ((N - 1) / q) - 1) N = 1 ->
  (q ^ e | r - 1).
Proof.
  intros HN Hr HrN Hq He HqN Ha Hg.
  assert (Hr1 : 1 < r) by (destruct Hr; lia).
  assert (Hq1 : 1 < q) by (destruct Hq; lia).
  assert (HqN1 : (q | N - 1)).
  { apply Z.divide_trans with (q ^ e); [|exact HqN].
    exists (q ^ (e - 1)). rewrite <- (Z.pow_1_r q) at 3.
    rewrite <- Z.pow_add_r by lia. f_equal. lia. }
  assert (Har : (a ^ (N-1)) mod r = 1).
  { rewrite (Zmod_div_mod r N) by (lia || assumption). rewrite Ha. apply Z.mod_small. lia. }
  assert (Har0 : a mod r <> 0).
  { intros H0. rewrite Zpower_mod, H0, Z.pow_0_l in Har by lia.
    rewrite Z.mod_0_l in Har by lia. lia. }
  pose proof (fermat_unit a r Hr Har0) as Hf.
  pose proof (pow_gcd a r Hr1 (N-1) (r-1) ltac:(lia) ltac:(lia) Har Hf) as Hgcd.
  set (g := Z.gcd (N-1) (r-1)) in *.
  assert (Hg0 : 0 < g).
  { subst g. pose proof (Z.gcd_nonneg (N-1) (r-1)).
    destruct (Z.eq_dec (Z.gcd (N-1) (r-1)) 0) as [E|E]; [|lia].
    apply Z.gcd_eq_0_l in E. lia. }
  destruct (Z.gcd_divide_l (N-1) (r-1)) as [m Hm]. fold g in Hm.
  assert (Hqm : ~ (q | m)).
  { intros [m' Hm'].
    assert (E : (N-1)/q = m' * g).
    { rewrite Hm, Hm'. replace (m' * q * g) with (m' * g * q) by ring. apply Z.div_mul. lia. }
    assert (Hm'0 : 0 <= m') by nia.
    assert (Hone : (a ^ ((N-1)/q)) mod r = 1).
    { rewrite E, Z.mul_comm, Z.pow_mul_r by lia.
      rewrite Zpower_mod, Hgcd, Z.pow_1_l by lia. apply Z.mod_small. lia. }
    assert (Hd : (r | a ^ ((N-1)/q) - 1)).
    { apply Z.mod_divide; [lia|]. rewrite Zminus_mod, Hone, (Z.mod_small 1) by lia.
      rewrite Z.sub_diag. apply Z.mod_0_l. lia. }
    assert (Hr1' : (r | 1)) by (rewrite <- Hg; apply Z.gcd_greatest; assumption).
    apply Z.divide_1_r in Hr1'. lia. }
  assert (Hqg : (q ^ e | g)).
  { apply Gauss with m; [rewrite <- Hm; exact HqN|].
    apply rel_prime_sym. apply rel_prime_Zpower_r; [lia|].
    apply rel_prime_sym. apply prime_rel_prime; assumption. }
  apply Z.divide_trans with g; [exact Hqg|]. apply Z.gcd_divide_r.
Qed.

Lemma prime_factor (N : Z) : 1 < N -> exists r, prime r /\ (r | N).
Proof.
  intros HN. assert (H0 : 0 <= N) by lia. revert HN.
  pattern N. apply Z_lt_induction; [|exact H0]. clear N H0.
  intros N IH HN.
  destruct (prime_dec N) as [Hp|Hp].
  - exists N. split; [exact Hp|apply Z.divide_refl].
  - destruct (not_prime_divide N HN Hp) as [n [Hn Hd]].
    destruct (IH n ltac:(lia) ltac:(lia)) as [r [Hr Hrn]].
    exists r. split; [exact Hr|]. now apply Z.divide_trans with n.
Qed.

Lemma small_prime_factor (N : Z) : 1 < N -> ~ prime N ->
  exists r, prime r /\ (r | N) /\ r * r <= N.
Proof.
  intros HN Hnp.
  destruct (not_prime_divide N HN Hnp) as [n [Hn [k Hk]]].
  assert (Hk1 : 1 < k < N) by nia.
  destruct (Z_le_gt_dec n k) as [Hle|Hgt].
  - destruct (prime_factor n ltac:(lia)) as [r [Hr Hd]].
    exists r. split; [exact Hr|]. split.
    + apply Z.divide_trans with n; [exact Hd|exists k; exact Hk].
    + apply Z.divide_pos_le in Hd; [|lia]. destruct Hr. nia.
  - destruct (prime_factor k ltac:(lia)) as [r [Hr Hd]].
    exists r. split; [exact Hr|]. split.
    + apply Z.divide_trans with k; [exact Hd|exists n; lia].
    + apply Z.divide_pos_le in Hd; [|lia]. destruct Hr. nia.
Qed.

(** Certificate: a list of (prime, exponent, witness). *)
Definition cert := list (Z * Z * Z).

Definition cert_prod (c : cert) : Z :=
  fold_right (fun '(q, e, _) acc => q ^ e * acc) 1 c.

Definition cert_entry_ok (N : Z) (x : Z * Z * Z) : bool :=
  let '(q, e, a) := x in
  let b := powmod a ((N - 1) / q) N in
  (0 <? e) && ((N - 1) mod (q ^ e) =? 0) &&
  ((powmod b q N =? 1) && (Z.gcd (b - 1) N =? 1)).

Fixpoint cert_coprime (c : cert) : bool :=
  match c with
  | [] => true
  | (q, _, _) :: c' => forallb (fun '(q', _, _) => negb (q =? q')) c' && cert_coprime c'
  end.

Definition cert_ok (N : Z) (c : cert) : bool :=
  (1 <? N) && forallb (cert_entry_ok N) c && cert_coprime c &&
  (N <? cert_prod c * cert_prod c).

Lemma cert_divides (N r : Z) (c : cert) :
  1 < N -> prime r -> (r | N) ->
  Forall (fun '(q, _, _) => prime q) c ->
  forallb (cert_entry_ok N) c = true -> cert_coprime c = true ->
  (cert_prod c | r - 1).
Proof.
  intros HN Hr HrN. induction c as [|[[q e] a] c IH]; intros Hp Hok Hco.
  - apply Z.divide_1_l.
  - cbn [cert_prod fold_right].
    fold (cert_prod c).
    inversion Hp as [|? ? Hq Hp']; subst.
    cbn [forallb] in Hok. apply andb_prop in Hok. destruct Hok as [Hx Hok].
    cbn [cert_coprime] in Hco. apply andb_prop in Hco. destruct Hco as [Hne Hco].
    specialize (IH Hp' Hok Hco).
    unfold cert_entry_ok in Hx.
    cbv zeta in Hx. apply andb_prop in Hx. destruct Hx as [Hx Hpg].
    apply andb_prop in Hpg. destruct Hpg as [Hpow Hgcd].
    apply andb_prop in Hx. destruct Hx as [He Hdiv].
    apply Z.ltb_lt in He. apply Z.eqb_eq in Hdiv, Hpow, Hgcd.
    assert (Hq1 : 1 < q) by (destruct Hq; lia).
    assert (Hqe : 0 < q ^ e) by (apply Z.pow_pos_nonneg; lia).
    assert (Hd : (q ^ e | r - 1)).
    { apply (pock_step N r a q e); try assumption.
      - apply Z.mod_divide; lia.
      - rewrite !powmod_spec in Hpow by (try apply Z.div_pos; lia).
        rewrite <- Zpower_mod in Hpow by lia. rewrite <- Z.pow_mul_r in Hpow by (try apply Z.div_pos; lia).
        apply Z.mod_divide in Hdiv; [|lia]. destruct Hdiv as [z Hz].
        assert (Hz' : N - 1 = z * q ^ (e - 1) * q).
        { rewrite Hz. replace e with (1 + (e - 1)) at 1 by lia. rewrite Z.pow_add_r, Z.pow_1_r by lia. ring. }
        rewrite Hz', Z.div_mul in Hpow by lia. rewrite Hz'. exact Hpow.
      - rewrite powmod_spec in Hgcd by (try apply Z.div_pos; lia).
        etransitivity; [|exact Hgcd].
        set (x := a ^ ((N - 1) / q)).
        rewrite (Z.gcd_comm (x - 1) N), <- (Z.gcd_mod (x - 1) N) by lia.
        rewrite (Z.gcd_comm (x mod N - 1) N), <- (Z.gcd_mod (x mod N - 1) N) by lia.
        now rewrite Zminus_mod_idemp_l. }
    destruct IH as [k Hk].
    rewrite Hk. apply Z.mul_divide_mono_r.
    rewrite Hk in Hd. rewrite Z.mul_comm in Hd.
    apply Gauss in Hd; [exact Hd|].
    clear - Hne Hq Hq1 He Hp' Hok.
    induction c as [|[[q' e'] a'] c IHc].
    + apply rel_prime_sym, rel_prime_1.
    + cbn [cert_prod fold_right]. fold (cert_prod c).
      inversion Hp' as [|? ? Hq' Hp'']; subst.
      cbn [forallb] in Hne. apply andb_prop in Hne. destruct Hne as [Hn Hne].
      cbn [forallb] in Hok. apply andb_prop in Hok. destruct Hok as [Hx Hok].
      unfold cert_entry_ok in Hx. cbv zeta in Hx.
      apply andb_prop in Hx. destruct Hx as [Hx _].
      apply andb_prop in Hx. destruct Hx as [He' _].
      apply Z.ltb_lt in He'.
      apply rel_prime_sym. apply rel_prime_sym, rel_prime_mult.
      * apply rel_prime_Zpower_r; [lia|]. apply rel_prime_sym.
        apply rel_prime_Zpower_r; [lia|].
        apply rel_prime_sym, prime_rel_prime; [assumption|].
        intros Hd'. apply negb_true_iff, Z.eqb_neq in Hn.
        destruct (prime_divisors _ Hq' _ Hd') as [?|[?|[?|?]]]; destruct Hq'; lia.
      * apply IHc; assumption.
Qed.

Theorem pocklington (N : Z) (c : cert) :
  Forall (fun '(q, _, _) => prime q) c -> cert_ok N c = true -> prime N.
Proof.
  intros Hp Hok. unfold cert_ok in Hok.
  apply andb_prop in Hok. destruct Hok as [Hok Hsz].
  apply andb_prop in Hok. destruct Hok as [Hok Hco].
  apply andb_prop in Hok. destruct Hok as [HN Hok].
  apply Z.ltb_lt in HN, Hsz.
  destruct (prime_dec N) as [|Hnp]; [assumption|exfalso].
  destruct (small_prime_factor N HN Hnp) as [r [Hr [Hd Hle]]].
  pose proof (cert_divides N r c HN Hr Hd Hp Hok Hco) as Hdiv.
  assert (Hr1 : 1 < r) by (destruct Hr; lia).
  apply Z.divide_pos_le in Hdiv; [|lia].
  assert (0 <= cert_prod c \/ cert_prod c < 0) as [Hpos|Hneg] by lia; [nia|].
  clear - Hp Hneg.
  enough (0 <= cert_prod c) by lia. clear Hneg.
  induction c as [|[[q e] a] c IH]; cbn [cert_prod fold_right]; [lia|].
  inversion Hp as [|? ? Hq Hp']; subst. fold (cert_prod c).
  apply Z.mul_nonneg_nonneg; [apply Z.pow_nonneg; destruct Hq; lia|auto].
Qed.

(** Trial division for small primes. *)
Fixpoint no_div (fuel : nat) (d n : Z) : bool :=
  match fuel with
  | O => false
  | S f => if n <? d * d then true
           else if n mod d =? 0 then false else no_div f (d + 1) n
  end.

Lemma no_div_spec fuel d n : no_div fuel d n = true -> 1 < d ->
  forall k, d <= k -> k * k <= n -> ~ (k | n).
Proof.
  revert d. induction fuel as [|f IH]; cbn [no_div]; intros d H Hd k Hk Hkn; [easy|].
  destruct (Z.ltb_spec n (d * d)) as [Hlt|Hge]; [nia|].
  destruct (Z.eqb_spec (n mod d) 0) as [|Hm]; [easy|].
  destruct (Z.eq_dec k d) as [->|Hne].
  - rewrite <- Z.mod_divide by lia. exact Hm.
  - apply (IH (d + 1)); try lia; assumption.
Qed.

Lemma small_prime (n : Z) fuel : 1 < n -> no_div fuel 2 n = true -> prime n.
Proof.
  intros Hn H. destruct (prime_dec n) as [|Hnp]; [assumption|exfalso].
  destruct (small_prime_factor n Hn Hnp) as [r [Hr [Hd Hle]]].
  assert (1 < r) by (destruct Hr; lia).
  eapply no_div_spec; try exact H; try exact Hd; lia.
Qed.
