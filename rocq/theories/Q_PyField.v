(** Lemmas for C126-C128. *)
From Coq Require Import List ZArith Bool Lia Znumtheory Zquot.
From Verif Require Import Base Pocklington Primes Spec_Utils M_PyPoseidon M_PyField Spec_PyField.
Import ListNotations.
Local Open Scope nat_scope.
Local Open Scope Z_scope.

(** ** numbertheory.py *)
Lemma gcd2_lemma : forall fuel a b, Z.abs a < Z.of_nat fuel ->
  exists g, gcd2 fuel a b = Ok g /\ Z.abs g = Z.gcd a b /\ (0 <= a -> 0 <= b -> g = Z.gcd a b).
Proof.
  induction fuel as [|n IH]; intros a b H; [lia|]. cbn [gcd2]. destruct (Z.eqb_spec a 0) as [E|E].
  - subst a. exists b. split; [reflexivity|]. change (Z.gcd 0 b) with (Z.abs b). split; [reflexivity|]. lia.
  - assert (B : Z.abs (b mod a) < Z.abs a) by (pose proof (Z.mod_pos_bound b a); pose proof (Z.mod_neg_bound b a); lia).
    destruct (IH (b mod a) a) as (g & Eg & G1 & G2); [lia|]. exists g. split; [exact Eg|].
    assert (GG : Z.gcd (b mod a) a = Z.gcd a b) by (rewrite Z.gcd_mod by exact E; reflexivity).
    split; [lia|]. intros A0 B0. rewrite <- GG. apply G2; [|exact A0]. pose proof (Z.mod_pos_bound b a). lia.
Qed.

Lemma py_gcd_lemma : forall fuel l, Forall (fun x => Z.abs x < Z.of_nat fuel) l -> l <> [] ->
  exists g, py_gcd fuel l = Ok g /\ Z.abs g = fold_right Z.gcd 0 l.
Proof.
  intros fuel l H N. destruct l as [|x r]; [contradiction|]. clear N. inversion_clear H as [|? ? Hx Hr]. cbn [py_gcd fold_right].
  revert x Hx. induction r as [|y r IH]; intros x Hx.
  - exists x. split; [reflexivity|]. cbn [fold_right]. now rewrite Z.gcd_0_r.
  - inversion_clear Hr as [|? ? Hy Hr']. cbn [gcd_reduce fold_right]. destruct (gcd2_lemma fuel x y Hx) as (g & Eg & G & _). rewrite Eg. cbn [obind].
    destruct (IH Hr' g) as (h & Eh & Hh).
    + rewrite G. destruct (Z.eq_dec x 0) as [->|Nx]; [exact Hy|].
      apply Z.le_lt_trans with (Z.abs x); [|exact Hx]. apply Z.divide_pos_le; [lia|]. apply Z.divide_abs_r. apply Z.gcd_divide_l.
    + exists h. split; [exact Eh|]. rewrite Hh, Z.gcd_assoc, <- G, Z.gcd_abs_l. reflexivity.
Qed.

Lemma lcm2_lemma : forall fuel a b, 0 <= a -> 0 <= b -> a < Z.of_nat fuel ->
  lcm2 fuel a b = if (a =? 0) && (b =? 0) then Throw else Ok (Z.lcm a b).
Proof.
  intros fuel a b A B H. unfold lcm2. cbn [py_gcd gcd_reduce]. destruct (gcd2_lemma fuel a b) as (g & Eg & _ & G); [lia|].
  rewrite Eg. cbn [obind]. rewrite (G A B). destruct (Z.eqb_spec (Z.gcd a b) 0) as [E|E].
  - apply Z.gcd_eq_0 in E. destruct E as [-> ->]. reflexivity.
  - assert (N : (a =? 0) && (b =? 0) = false). { destruct (Z.eqb_spec a 0) as [->|]; [|reflexivity]. destruct (Z.eqb_spec b 0) as [->|]; [|reflexivity]. rewrite Z.gcd_0_r in E. contradiction. }
    rewrite N. apply (f_equal Ok). unfold Z.lcm. pose proof (Z.gcd_nonneg a b).
    rewrite Z.divide_div_mul_exact by (lia || apply Z.gcd_divide_r). rewrite Z.abs_eq; [reflexivity|]. apply Z.mul_nonneg_nonneg; [lia|]. apply Z.div_pos; lia.
Qed.

Lemma inverse_loop_ok a m : 0 < m -> forall fuel c d uc vc ud vd, 0 <= c < d -> c < Z.of_nat fuel ->
  uc * a + vc * m = c -> ud * a + vd * m = d ->
  (0 <= uc /\ ud <= 0 /\ uc * d - ud * c = m /\ - ud <= uc) \/ (uc <= 0 /\ 0 <= ud /\ ud * c - uc * d = m /\ ud <= - uc) ->
  exists u v, inverse_loop fuel c d uc vc ud vd = Ok (Z.gcd c d, u) /\ u * a + v * m = Z.gcd c d /\ Z.abs u <= m.
Proof.
  intros M. induction fuel as [|n IH]; intros c d uc vc ud vd CD F E1 E2 I; [lia|]. cbn [inverse_loop]. destruct (Z.eqb_spec c 0) as [E|E].
  - assert (G0 : Z.gcd c d = d) by (rewrite E; change (Z.gcd 0 d) with (Z.abs d); lia). rewrite G0, E in *. exists ud, vd. split; [reflexivity|]. split; [exact E2|].
    destruct I as [(I1 & I2 & I3 & I4)|(I1 & I2 & I3 & I4)]; nia.
  - pose proof (Z.div_mod d c E) as D. pose proof (Z.mod_pos_bound d c ltac:(lia)) as B. set (q := d / c) in *.
    assert (Q : 1 <= q) by (apply Z.div_le_lower_bound; lia).
    destruct (IH (d mod c) c (ud - q * uc) (vd - q * vc) uc vc) as (u & v & R1 & R2 & R3).
    + lia. + lia.
    + replace (d mod c) with (d - c * q) by lia. transitivity ((ud * a + vd * m) - (uc * a + vc * m) * q); [ring|]. rewrite E1, E2. reflexivity.
    + exact E1.
    + destruct I as [(I1 & I2 & I3 & I4)|(I1 & I2 & I3 & I4)]; [right|left]; (split; [nia|split; [nia|split; [|nia]]]); replace (d mod c) with (d - c * q) by lia; rewrite <- I3; ring.
    + assert (GG : Z.gcd (d mod c) c = Z.gcd c d) by (rewrite Z.gcd_mod by exact E; reflexivity).
      rewrite GG in *. exists u, v. repeat split; assumption.
Qed.

Lemma inverse_mod_lemma : forall fuel a m, 1 <= m -> m < Z.of_nat fuel ->
  (Z.gcd a m = 1 -> exists r, inverse_mod fuel a m = Ok r /\ 1 <= r <= m /\ (a * r) mod m = 1 mod m) /\
  (Z.gcd a m <> 1 -> inverse_mod fuel a m = Throw).
Proof.
  intros fuel a m M F. unfold inverse_mod.
  assert (A : (if (a <? 0) || (m <=? a) then (if m =? 0 then Throw else Ok (a mod m)) else Ok a) = Ok (a mod m)).
  { destruct (Z.ltb_spec a 0); cbn [orb]; [|destruct (Z.leb_spec m a)]; try (destruct (Z.eqb_spec m 0); [lia|reflexivity]). rewrite Z.mod_small by lia. reflexivity. }
  rewrite A. cbn [obind]. pose proof (Z.mod_pos_bound a m ltac:(lia)) as B.
  destruct (Z.eq_dec m 1) as [->|M1].
  { rewrite Z.mod_1_r, Z.gcd_1_r. destruct fuel as [|n]; [lia|]. split; [|intros N; contradiction]. intros _. exists 1.
    split; [reflexivity|]. split; [lia|]. rewrite !Z.mod_1_r. reflexivity. }
  destruct (inverse_loop_ok (a mod m) m ltac:(lia) fuel (a mod m) m 1 0 0 1) as (u & v & R1 & R2 & R3); try lia.
  assert (GG : Z.gcd (a mod m) m = Z.gcd a m) by (rewrite Z.gcd_mod by lia; apply Z.gcd_comm).
  rewrite R1, GG in *. cbn [obind]. split; intros G.
  - rewrite G in *. cbn [Z.eqb obind Pos.eqb].
    assert (U : (a * u) mod m = 1 mod m).
    { rewrite <- Z.mul_mod_idemp_l by lia. rewrite <- R2. rewrite Z_mod_plus_full. now rewrite Z.mul_comm. }
    destruct (Z.ltb_spec 0 u).
    + exists u. split; [reflexivity|]. split; [lia|exact U].
    + exists (u + m). split; [reflexivity|]. split.
      * assert (u + m <> 0). { intros E. assert (u = - m) by lia. subst u. rewrite Z.mul_opp_r, <- Z.mul_opp_l, Z_mod_mult in U.
          rewrite Z.mod_1_l in U by lia; discriminate. }
        lia.
      * rewrite Z.mul_add_distr_l, Z_mod_plus_full. exact U.
  - destruct (Z.eqb_spec (Z.gcd a m) 1); [contradiction|reflexivity].
Qed.

(** ** field.py *)
Lemma init_inv a m A : fq_init (Oint a) m = Ok A -> m <> 0 /\ A = mkfq (a mod m) m.
Proof. unfold fq_init. destruct (Z.eqb_spec m 0); intros H; [discriminate|]. split; [assumption|congruence]. Qed.
Lemma init_ok a m : m <> 0 -> fq_init (Oint a) m = Ok (mkfq (a mod m) m).
Proof. intros H. unfold fq_init. destruct (Z.eqb_spec m 0); [contradiction|reflexivity]. Qed.
Lemma init_mod a b m : m <> 0 -> a mod m = b mod m -> fq_init (Oint a) m = fq_init (Oint b) m.
Proof. intros M E. rewrite !init_ok by exact M. now rewrite E. Qed.
Definition stands_for (m b : Z) (o : operand) : Prop := o = Oint b \/ exists B, fq_init (Oint b) m = Ok B /\ o = Ofq B.
Lemma other_mod a m b o : m <> 0 -> stands_for m b o -> exists z, other_n (mkfq a m) o = Ok z /\ z mod m = b mod m.
Proof.
  intros M [-> |(B & EB & ->)]; cbn [other_n]; [now exists b|]. apply init_inv in EB. destruct EB as [_ ->]. cbn [fm fn]. rewrite Z.eqb_refl.
  exists (b mod m). split; [reflexivity|]. now apply Z.mod_mod.
Qed.

Lemma fq_ring_lemma : forall m a b A o, fq_init (Oint a) m = Ok A -> o = Oint b \/ (exists B, fq_init (Oint b) m = Ok B /\ o = Ofq B) ->
  fq_add A o = fq_init (Oint (a + b)) m /\ fq_sub A o = fq_init (Oint (a - b)) m /\ fq_rsub A o = fq_init (Oint (b - a)) m /\
  fq_mul A o = fq_init (Oint (a * b)) m /\ fq_neg A = fq_init (Oint (- a)) m /\
  (forall e, 0 <= e -> fq_exp A (Oint e) = fq_init (Oint (a ^ e)) m).
Proof.
  intros m a b A o EA HO. apply init_inv in EA. destruct EA as [M ->]. destruct (other_mod (a mod m) m b o M HO) as (z & Ez & Hz).
  unfold fq_add, fq_sub, fq_rsub, fq_mul, fq_neg, fq_exp. cbn [fn fm]. rewrite Ez. cbn [obind].
  repeat split; try (apply init_mod; [exact M|]).
  - rewrite Z.mod_mod by exact M. rewrite (Z.add_mod (a mod m) z), Z.mod_mod, Hz, <- Z.add_mod by exact M. reflexivity.
  - rewrite Z.mod_mod by exact M. rewrite (Zminus_mod (a mod m) z), Z.mod_mod, Hz, <- Zminus_mod by exact M. reflexivity.
  - rewrite Z.mod_mod by exact M. rewrite (Zminus_mod z (a mod m)), Z.mod_mod, Hz, <- Zminus_mod by exact M. reflexivity.
  - rewrite Z.mod_mod by exact M. rewrite (Z.mul_mod (a mod m) z), Z.mod_mod, Hz, <- Z.mul_mod by exact M. reflexivity.
  - rewrite <- !(Z.sub_0_l). rewrite (Zminus_mod 0 (a mod m)), Z.mod_mod, <- Zminus_mod by exact M. reflexivity.
  - intros e E. cbn [other_n obind]. unfold pow3, py_pow. destruct (Z.eqb_spec m 0); [contradiction|]. destruct (Z.ltb_spec e 0); [lia|]. cbn [orb obind].
    apply init_mod; [exact M|]. rewrite Z.mod_mod by exact M.
    pattern e. apply natlike_ind; [reflexivity| |exact E]. intros x Hx IH. rewrite !Z.pow_succ_r by exact Hx.
    rewrite (Z.mul_mod (a mod m)), IH, Z.mod_mod, <- Z.mul_mod by exact M. reflexivity.
Qed.

Lemma pow_mod_base b m e : m <> 0 -> 0 <= e -> (b mod m) ^ e mod m = b ^ e mod m.
Proof.
  intros M E. pattern e. apply natlike_ind; [reflexivity| |exact E]. intros x Hx IH. rewrite !Z.pow_succ_r by exact Hx.
  rewrite (Z.mul_mod (b mod m)), IH, Z.mod_mod, <- Z.mul_mod by exact M. reflexivity.
Qed.
Lemma pow_inverse m b : prime m -> b mod m <> 0 -> (b ^ (m - 2) * b) mod m = 1.
Proof.
  intros P N. pose proof (prime_ge_2 m P). rewrite Z.mul_comm, <- Z.pow_succ_r by lia. replace (Z.succ (m - 2)) with (m - 1) by lia. now apply fermat_unit.
Qed.

Lemma fq_field_lemma : forall m a b A B o, prime m -> fq_init (Oint a) m = Ok A -> fq_init (Oint b) m = Ok B -> b mod m <> 0 -> o = Oint b \/ o = Ofq B ->
  exists Q I, fq_divide A o = Ok Q /\ fq_mul Q o = Ok A /\ (forall oa, oa = Oint a \/ oa = Ofq A -> fq_rdivide B oa = Ok Q) /\
    fq_inv B = Ok I /\ fq_mul I (Ofq B) = fq_init (Oint 1) m /\ fq_mul I (Ofq A) = Ok Q.
Proof.
  intros m a b A B o P EA EB N HO. pose proof (prime_ge_2 m P) as M2. assert (M : m <> 0) by lia.
  assert (SO : o = Oint b \/ exists B, fq_init (Oint b) m = Ok B /\ o = Ofq B) by (destruct HO as [-> | ->]; [now left|right; now exists B]).
  assert (SA : forall oa, oa = Oint a \/ oa = Ofq A -> oa = Oint a \/ exists B, fq_init (Oint a) m = Ok B /\ oa = Ofq B) by (intros oa [-> | ->]; [now left|right; now exists A]).
  pose proof EA as EA'. pose proof EB as EB'. apply init_inv in EA. apply init_inv in EB. destruct EA as [_ EA]. destruct EB as [_ EB]. subst A B.
  assert (INV : fq_inv (mkfq (b mod m) m) = fq_init (Oint (b ^ (m - 2))) m).
  { unfold fq_inv, pow3, py_pow. cbn [fn fm]. destruct (Z.eqb_spec m 0); [contradiction|]. destruct (Z.ltb_spec (m - 2) 0); [lia|]. cbn [orb obind].
    apply init_mod; [exact M|]. rewrite Z.mod_mod by exact M. apply pow_mod_base; [exact M|lia]. }
  assert (DIV : fq_divide (mkfq (a mod m) m) o = fq_init (Oint (a * b ^ (m - 2))) m).
  { destruct (other_mod (a mod m) m b o M SO) as (z & Ez & Hz). unfold fq_divide, pow3, py_pow. rewrite Ez. cbn [fn fm obind].
    destruct (Z.eqb_spec m 0); [contradiction|]. destruct (Z.ltb_spec (m - 2) 0); [lia|]. cbn [orb obind].
    apply init_mod; [exact M|]. rewrite Z.mod_mod, <- Z.mul_mod by exact M. rewrite (Z.mul_mod a (z ^ (m - 2))), <- (pow_mod_base z), Hz, pow_mod_base, <- Z.mul_mod by (exact M || lia). reflexivity. }
  exists (mkfq ((a * b ^ (m - 2)) mod m) m), (mkfq (b ^ (m - 2) mod m) m).
  assert (C : (a * b ^ (m - 2) * b) mod m = a mod m) by (rewrite <- Z.mul_assoc, <- Z.mul_mod_idemp_r, pow_inverse, Z.mul_1_r by assumption; reflexivity).
  repeat split.
  - rewrite DIV. now apply init_ok.
  - destruct (fq_ring_lemma m (a * b ^ (m - 2)) b _ o (init_ok _ _ M) SO) as (_ & _ & _ & R & _). rewrite R, init_ok by exact M. now rewrite C.
  - intros oa HA. destruct (other_mod (b mod m) m a oa M (SA oa HA)) as (z & Ez & Hz). unfold fq_rdivide, pow3, py_pow. rewrite Ez. cbn [fn fm obind].
    destruct (Z.eqb_spec m 0); [contradiction|]. destruct (Z.ltb_spec (m - 2) 0); [lia|]. cbn [orb obind]. rewrite init_ok by exact M. do 2 f_equal.
    rewrite Z.mod_mod by exact M. rewrite pow_mod_base by (exact M || lia). rewrite Z.mul_mod, Z.mod_mod, Hz, <- Z.mul_mod by exact M. now rewrite Z.mul_comm.
  - rewrite INV. now apply init_ok.
  - destruct (fq_ring_lemma m (b ^ (m - 2)) b _ (Ofq (mkfq (b mod m) m)) (init_ok _ _ M)) as (_ & _ & _ & R & _).
    { right. exists (mkfq (b mod m) m). split; [exact EB'|reflexivity]. } rewrite R. apply init_mod; [exact M|]. rewrite pow_inverse by assumption. rewrite Z.mod_1_l by lia. reflexivity.
  - destruct (fq_ring_lemma m (b ^ (m - 2)) a _ (Ofq (mkfq (a mod m) m)) (init_ok _ _ M)) as (_ & _ & _ & R & _).
    { right. exists (mkfq (a mod m) m). split; [exact EA'|reflexivity]. } rewrite R, init_ok by exact M. now rewrite Z.mul_comm.
Qed.

Lemma fq_div_zero_lemma : forall m a b A o, 2 < m -> fq_init (Oint a) m = Ok A -> b mod m = 0 ->
  o = Oint b \/ (exists B, fq_init (Oint b) m = Ok B /\ o = Ofq B) -> fq_divide A o = fq_init (Oint 0) m.
Proof.
  intros m a b A o M EA Z0 SO. apply init_inv in EA. destruct EA as [M0 ->]. destruct (other_mod (a mod m) m b o M0 SO) as (z & Ez & Hz).
  unfold fq_divide, pow3, py_pow. rewrite Ez. cbn [fn fm obind]. destruct (Z.eqb_spec m 0); [contradiction|]. destruct (Z.ltb_spec (m - 2) 0); [lia|]. cbn [orb obind].
  apply init_mod; [exact M0|]. rewrite <- (pow_mod_base z), Hz, Z0, Z.pow_0_l by lia. rewrite (Z.mod_0_l m), Z.mul_0_r by lia. rewrite !Z.mod_0_l by lia. reflexivity.
Qed.

Lemma fq_eq_lemma : forall m a b A B, fq_init (Oint a) m = Ok A -> fq_init (Oint b) m = Ok B ->
  exists r, fq_eq A (Ofq B) = Ok r /\ (r = true <-> fq_sub A (Ofq B) = fq_init (Oint 0) m).
Proof.
  intros m a b A B EA EB. destruct (fq_ring_lemma m a b A (Ofq B) EA) as (_ & R & _); [right; now exists B|]. rewrite R. clear R.
  apply init_inv in EA. apply init_inv in EB. destruct EA as [M ->]. destruct EB as [_ ->].
  exists (a mod m =? b mod m). split.
  - unfold fq_eq. cbn [fn fm]. destruct (Z.eqb_spec (b mod m) 0) as [E|E]; cbn [other_n fm fn]; [rewrite E|rewrite Z.eqb_refl]; reflexivity.
  - rewrite Z.eqb_eq, !init_ok by exact M. rewrite (Z.mod_0_l m M). split; intros H.
    + rewrite Zminus_mod, H, Z.sub_diag, Z.mod_0_l by exact M. reflexivity.
    + assert (D : (a - b) mod m = 0) by congruence. apply Z.mod_divide in D; [|exact M]. destruct D as [k D]. replace a with (b + k * m) by lia. now apply Z.mod_add.
Qed.

Lemma fq_eq_int_lemma : exists m a b A, prime m /\ fq_init (Oint a) m = Ok A /\ fq_sub A (Oint b) = fq_init (Oint 0) m /\ fq_eq A (Oint b) = Ok false.
Proof. exists 7, 3, 10, (mkfq 3 7). split; [|repeat split; reflexivity]. apply (small_prime 7 10); reflexivity. Qed.

Lemma fq_moduli_lemma : forall m1 m2 a b A B, m1 <> m2 -> fq_init (Oint a) m1 = Ok A -> fq_init (Oint b) m2 = Ok B ->
  fq_add A (Ofq B) = Throw /\ fq_sub A (Ofq B) = Throw /\ fq_mul A (Ofq B) = Throw /\ fq_divide A (Ofq B) = Throw /\ fq_exp A (Ofq B) = Throw /\ fq_init (Ofq B) m1 = Throw /\
  fq_eq A (Ofq B) = (if b mod m2 =? 0 then Ok (a mod m1 =? 0) else Throw).
Proof.
  intros m1 m2 a b A B N EA EB. apply init_inv in EA. apply init_inv in EB. destruct EA as [M1 ->]. destruct EB as [M2 ->].
  unfold fq_add, fq_sub, fq_mul, fq_divide, fq_exp, fq_init, fq_eq. cbn [other_n fm fn]. destruct (Z.eqb_spec m2 m1); [congruence|]. cbn [obind].
  repeat split. destruct (Z.eqb_spec (b mod m2) 0); cbn [other_n fm fn obind]; [reflexivity|]. destruct (Z.eqb_spec m2 m1); [congruence|reflexivity].
Qed.

Lemma odd_pow8 x k : 0 <= k -> x mod 8 = 1 \/ x mod 8 = 3 \/ x mod 8 = 5 \/ x mod 8 = 7 -> x ^ (2 * k) mod 8 = 1.
Proof.
  intros K H. rewrite Z.pow_mul_r, <- pow_mod_base by lia. replace (x ^ 2 mod 8) with 1; [rewrite Z.pow_1_l by exact K; reflexivity|].
  rewrite <- pow_mod_base by lia. destruct H as [-> |[-> |[-> | ->]]]; reflexivity.
Qed.
Lemma even_pow2 x k : 0 < k -> x mod 2 = 0 -> x ^ k mod 2 = 0.
Proof. intros K H. rewrite <- pow_mod_base by lia. rewrite H, Z.pow_0_l by exact K. reflexivity. Qed.

Lemma inverse_mod8 m : 0 < m -> m mod 8 = 0 -> forall a A I, a mod 8 <> 1 -> fq_init (Oint a) m = Ok A -> fq_inv A = Ok I -> fq_mul I (Ofq A) <> fq_init (Oint 1) m.
Proof.
  intros M0 M8 a A I N EA EI. assert (M : m <> 0) by lia. assert (EA' := EA). apply init_inv in EA. destruct EA as [_ ->].
  apply Z.mod_divide in M8; [|lia]. destruct M8 as [k Mk]. assert (G : 8 <= m) by lia.
  unfold fq_inv, pow3, py_pow in EI. cbn [fn fm] in EI. destruct (Z.eqb_spec m 0); [lia|]. destruct (Z.ltb_spec (m - 2) 0); [lia|]. cbn [orb obind] in EI.
  destruct (fq_ring_lemma m _ a I (Ofq (mkfq (a mod m) m)) EI) as (_ & _ & _ & R & _); [right; eexists; split; [exact EA'|reflexivity]|].
  rewrite R, !init_ok by exact M. clear R EI EA' I. intros E. assert (V : ((a mod m) ^ (m - 2) mod m * a) mod m = 1 mod m) by congruence. clear E.
  rewrite Z.mul_mod_idemp_l in V by exact M. rewrite <- Z.mul_mod_idemp_l, pow_mod_base, Z.mul_mod_idemp_l in V by lia.
  assert (V8 : (a ^ (m - 2) * a) mod 8 = 1).
  { rewrite (Zmod_div_mod 8 m) by (lia || (exists k; lia)). rewrite V, Z.mod_1_l by lia. reflexivity. }
  clear V. pose proof (Z.mod_pos_bound a 8 ltac:(lia)) as B.
  assert (C : a mod 8 = 1 \/ a mod 8 = 3 \/ a mod 8 = 5 \/ a mod 8 = 7 \/ a mod 2 = 0).
  { rewrite (Zmod_div_mod 2 8 a) by (lia || (exists 4; reflexivity)). assert (K : a mod 8 = 0 \/ a mod 8 = 1 \/ a mod 8 = 2 \/ a mod 8 = 3 \/ a mod 8 = 4 \/ a mod 8 = 5 \/ a mod 8 = 6 \/ a mod 8 = 7) by lia.
    destruct K as [-> |[-> |[-> |[-> |[-> |[-> |[-> | ->]]]]]]]; tauto. }
  replace (m - 2) with (2 * (4 * k - 1)) in V8 by lia.
  assert (H3 : a mod 8 = 3 \/ a mod 8 = 5 \/ a mod 8 = 7 -> False).
  { intros C'. rewrite <- Z.mul_mod_idemp_l, odd_pow8 in V8 by (lia || tauto). rewrite Z.mul_1_l in V8. contradiction. }
  destruct C as [C|[C|[C|[C|C]]]]; [contradiction|tauto|tauto|tauto|].
  assert (V2 : (a ^ (2 * (4 * k - 1)) * a) mod 2 = 1) by (rewrite (Zmod_div_mod 2 8) by (lia || (exists 4; reflexivity)); rewrite V8; reflexivity).
  rewrite <- Z.mul_mod_idemp_r, C, Z.mul_0_r in V2 by discriminate. discriminate.
Qed.
Lemma fr_inverse_lemma : forall a A I, a mod 8 <> 1 -> fq_init (Oint a) FR_ORDER = Ok A -> fq_inv A = Ok I -> fq_mul I (Ofq A) <> fq_init (Oint 1) FR_ORDER.
Proof. exact (inverse_mod8 FR_ORDER eq_refl eq_refl). Qed.
Lemma fr_unit_lemma : exists a A I, Z.gcd a FR_ORDER = 1 /\ fq_init (Oint a) FR_ORDER = Ok A /\ fq_inv A = Ok I /\ fq_mul I (Ofq A) <> fq_init (Oint 1) FR_ORDER.
Proof.
  exists 3, (mkfq 3 FR_ORDER). assert (E : exists I, fq_inv (mkfq 3 FR_ORDER) = Ok I).
  { unfold fq_inv, pow3. cbn [fn fm]. generalize (py_pow 3 (FR_ORDER - 2) FR_ORDER). intros r. exists (mkfq (r mod FR_ORDER) FR_ORDER). reflexivity. }
  destruct E as [I EI]. exists I. split; [reflexivity|]. split; [reflexivity|]. split; [exact EI|].
  apply (fr_inverse_lemma 3); [discriminate|reflexivity|exact EI].
Qed.

(** ** bytes and random elements *)
Lemma to_bytes_le_ok : forall n v, 0 <= v < 256 ^ Z.of_nat n -> length (to_bytes_le n v) = n /\ Forall (fun b => 0 <= b < 256) (to_bytes_le n v) /\ le_val (to_bytes_le n v) = v.
Proof.
  induction n as [|n IH]; intros v H; [cbn; repeat split; [constructor|]; cbn in H; lia|]. cbn [to_bytes_le length].
  rewrite Nat2Z.inj_succ, Z.pow_succ_r in H by lia. pose proof (Z.div_mod v 256 ltac:(lia)) as D. pose proof (Z.mod_pos_bound v 256 ltac:(lia)) as B.
  destruct (IH (v / 256)) as (L & F & V); [split; [apply Z.div_pos; lia|apply Z.div_lt_upper_bound; lia]|].
  rewrite L. split; [reflexivity|]. split; [constructor; assumption|]. cbn [le_val]. rewrite V. lia.
Qed.
Lemma nbytes_fits m : 0 < m -> 0 <= fq_nbytes m /\ m <= 256 ^ fq_nbytes m.
Proof.
  intros M. unfold fq_nbytes, fq_nbits. pose proof (Z.log2_up_nonneg m) as K0. pose proof (Z.log2_log2_up_spec m M) as [_ U]. set (k := Z.log2_up m) in *.
  pose proof (Z.div_mod k 8 ltac:(lia)) as D. pose proof (Z.mod_pos_bound k 8 ltac:(lia)) as B.
  assert (E : (k + (8 - k mod 8)) / 8 = k / 8 + 1) by (replace (k + (8 - k mod 8)) with ((k / 8 + 1) * 8) by lia; apply Z.div_mul; lia).
  rewrite E. pose proof (Z.div_pos k 8). split; [lia|]. change 256 with (2 ^ 8). rewrite <- Z.pow_mul_r by lia.
  eapply Z.le_trans; [exact U|]. apply Z.pow_le_mono_r; lia.
Qed.
Lemma fq_bytes_lemma : forall m a A, 0 < m -> fq_init (Oint a) m = Ok A ->
  exists l, fq_to_bytes_le A = Ok l /\ fq_to_bytes_be A = Ok (rev l) /\ Z.of_nat (length l) = fq_nbytes m /\ Forall (fun b => 0 <= b < 256) l /\ le_val l = a mod m.
Proof.
  intros m a A M EA. apply init_inv in EA. destruct EA as [_ ->]. destruct (nbytes_fits m M) as [N0 N]. pose proof (Z.mod_pos_bound a m M) as B.
  unfold fq_to_bytes_be, fq_to_bytes_le. cbn [fn fm].
  destruct (Z.leb_spec 0 (a mod m)); [|lia]. destruct (Z.ltb_spec (a mod m) (256 ^ fq_nbytes m)); [|lia]. cbn [andb obind].
  destruct (to_bytes_le_ok (Z.to_nat (fq_nbytes m)) (a mod m)) as (L & F & V); [rewrite Z2Nat.id by exact N0; lia|].
  eexists. split; [reflexivity|]. split; [reflexivity|]. rewrite L. split; [now apply Z2Nat.id|]. split; assumption.
Qed.
Lemma fq_bytes_injective_lemma : forall m a b A B l, 0 < m -> fq_init (Oint a) m = Ok A -> fq_init (Oint b) m = Ok B ->
  fq_to_bytes_be A = Ok l -> fq_to_bytes_be B = Ok l -> A = B.
Proof.
  intros m a b A B l M EA EB LA LB. destruct (fq_bytes_lemma m a A M EA) as (la & _ & A1 & _ & _ & A2). destruct (fq_bytes_lemma m b B M EB) as (lb & _ & B1 & _ & _ & B2).
  apply init_inv in EA. apply init_inv in EB. destruct EA as [_ ->]. destruct EB as [_ ->].
  assert (E : rev la = rev lb) by congruence. apply (f_equal (@rev Z)) in E. rewrite !rev_involutive in E. subst lb. congruence.
Qed.

Lemma count_succ n P : count_below (S n) P = count_below n P + (if P (Z.of_nat n) then 1 else 0).
Proof.
  unfold count_below. rewrite seq_S, map_app, filter_app, app_length. cbn [map filter Nat.add]. destruct (P (Z.of_nat n)); cbn [length]; lia.
Qed.
Lemma count_residue m a : 0 < m -> 0 <= a < m -> forall n, count_below n (fun v => v mod m =? a) = (Z.of_nat n + (m - 1 - a)) / m.
Proof.
  intros M A. induction n as [|n IH].
  - unfold count_below. cbn. rewrite Z.div_small by lia. reflexivity.
  - rewrite count_succ, IH, Nat2Z.inj_succ. set (v := Z.of_nat n). assert (V : 0 <= v) by (unfold v; lia). clearbody v. clear IH n.
    pose proof (Z.div_mod v m ltac:(lia)) as D. pose proof (Z.mod_pos_bound v m M) as B.
    destruct (Z.eqb_spec (v mod m) a) as [E|E].
    + rewrite <- (Z.div_unique (v + (m - 1 - a)) m (v / m) (m - 1)) by lia. apply Z.div_unique with 0; lia.
    + rewrite Z.add_0_r. destruct (Z_lt_le_dec (v mod m) a).
      * transitivity (v / m); [symmetry; apply Z.div_unique with (v mod m + m - 1 - a); lia|apply Z.div_unique with (v mod m + m - a); lia].
      * transitivity (v / m + 1); [symmetry; apply Z.div_unique with (v mod m - 1 - a); lia|apply Z.div_unique with (v mod m - a); lia].
Qed.
Lemma fq_random_lemma : forall m a A, 0 < m -> fq_init (Oint a) m = Ok A ->
  let total := 256 ^ random_bytes m in
  let hits := count_below (Z.to_nat total) (fun draw => match fq_random draw m with Ok X => fn X =? fn A | _ => false end) in
  total / m <= hits <= total / m + 1 /\ 256 <= total / m.
Proof.
  intros m a A M EA total hits. apply init_inv in EA. destruct EA as [_ EA]. pose proof (Z.mod_pos_bound a m M) as B.
  assert (T : 256 * m <= 256 ^ random_bytes m).
  { unfold random_bytes, fq_nbits. pose proof (Z.log2_up_nonneg m) as K0. pose proof (Z.log2_log2_up_spec m M) as [_ U]. set (k := Z.log2_up m) in *.
    pose proof (Z.div_mod (k + 7) 8 ltac:(lia)) as D. pose proof (Z.mod_pos_bound (k + 7) 8 ltac:(lia)) as B8. assert (0 <= (k + 7) / 8) by (apply Z.div_pos; lia).
    change 256 with (2 ^ 8) at 2. rewrite <- Z.pow_mul_r by lia. apply Z.le_trans with (2 ^ (8 + k)).
    - rewrite Z.pow_add_r by lia. change (2 ^ 8) with 256. apply Z.mul_le_mono_nonneg_l; lia.
    - apply Z.pow_le_mono_r; lia. }
  assert (H : hits = (total + (m - 1 - a mod m)) / m).
  { unfold hits. rewrite EA. cbn [fn]. rewrite <- (Z2Nat.id total) at 2 by (unfold total; lia). rewrite <- (count_residue m (a mod m) M B). unfold count_below. do 2 f_equal.
    apply filter_ext. intros v. unfold fq_random, fq_init. destruct (Z.eqb_spec m 0); [lia|reflexivity]. }
  fold total in T. rewrite H. clearbody total. clear H hits. split.
  - split; [apply Z.div_le_mono; lia|]. replace (total / m + 1) with ((total + 1 * m) / m) by (apply Z.div_add; lia). apply Z.div_le_mono; lia.
  - apply Z.div_le_lower_bound; lia.
Qed.
