(** Lemmas for C129 and C130. *)
From Coq Require Import List ZArith Bool Lia Arith Znumtheory.
From Verif Require Import Pocklington Primes Field Base M_Basepoint P_Basepoint M_PyPoseidon M_PyField Q_PyField M_PySqrt Spec_PySqrt P_PySqrt P_PyJacobi P_PyJacobi2 M_PyJubjub Spec_PyJubjub.
Import ListNotations.
Local Open Scope nat_scope.
Local Open Scope Z_scope.

Lemma Fof_mod z : Fof (z mod p_mod) = Fof z.
Proof. apply Fof_eq_iff. apply Z.mod_mod. discriminate. Qed.
Lemma modp_range z : 0 <= z mod p_mod < p_mod.
Proof. apply Z.mod_pos_bound. exact p_mod_pos. Qed.

Section Poly.
Variables av bv : Z.
Local Notation a := (Fof av).
Local Notation b := (Fof bv).
Local Notation f := [av; - bv; 1].
Definition rep (l : list Z) (r : R) : Prop := exists u v, l = [u; v] /\ 0 <= u < p_mod /\ 0 <= v < p_mod /\ r = (Fof u, Fof v).
Lemma mult_ok l1 l2 r1 r2 : rep l1 r1 -> rep l2 r2 -> exists l, polynomial_multiply_mod l1 l2 f p_mod = Ok l /\ rep l (rmul a b r1 r2).
Proof.
  intros (u & v & -> & _ & _ & ->) (w & z & -> & _ & _ & ->).
  unfold polynomial_multiply_mod, polynomial_reduce_mod.
  cbn [length Nat.add Nat.sub repeat cross_terms add_row last Z.eqb Pos.eqb Nat.ltb Nat.leb andb obind rev app reduce_rev].
  set (c0 := (0 + u * w) mod p_mod). set (c1 := ((0 + u * z) mod p_mod + v * w) mod p_mod). set (c2 := (0 + v * z) mod p_mod).
  assert (E0 : Fof c0 = (Fof u * Fof w)%F) by (unfold c0; rewrite Fof_mod, Fof_add, Fof_mul; change (Fof 0) with F0; ring).
  assert (E1 : Fof c1 = (Fof u * Fof z + Fof v * Fof w)%F) by (unfold c1; rewrite Fof_mod, Fof_add, Fof_mod, Fof_add, !Fof_mul; change (Fof 0) with F0; ring).
  assert (E2 : Fof c2 = (Fof v * Fof z)%F) by (unfold c2; rewrite Fof_mod, Fof_add, Fof_mul; change (Fof 0) with F0; ring).
  pose proof (modp_range (0 + u * w)) as B0. fold c0 in B0. pose proof (modp_range ((0 + u * z) mod p_mod + v * w)) as B1. fold c1 in B1. clearbody c0 c1 c2.
  destruct (Z.eqb_spec c2 0) as [N|N]; cbn [tl sub_multiple length Nat.leb rev app].
  - exists [c0; c1]. split; [reflexivity|]. exists c0, c1. split; [reflexivity|]. split; [exact B0|]. split; [exact B1|].
    rewrite N in E2. change (Fof 0) with F0 in E2. unfold rmul. cbn [fst snd]. rewrite E0, E1, <- E2. apply f_equal2; ring.
  - eexists. split; [reflexivity|]. exists ((c0 - c2 * av) mod p_mod), ((c1 - c2 * - bv) mod p_mod). split; [reflexivity|]. split; [apply modp_range|]. split; [apply modp_range|].
    rewrite !Fof_mod, !Fof_sub, !Fof_mul, Fof_opp, E0, E1, E2. unfold rmul. cbn [fst snd]. apply f_equal2; ring.
Qed.

Lemma exp_loop_ok : forall fuel k G s rG rs, 0 < k < 2 ^ Z.of_nat fuel -> rep G rG -> rep s rs ->
  exists l, exp_loop fuel k G s f p_mod = Ok l /\ rep l (rmul a b rs (rpow a b rG (Z.to_nat (k / 2) + Z.to_nat (k / 2)))).
Proof.
  induction fuel as [|n IH]; intros k G s rG rs K HG Hs.
  { cbn [Z.of_nat] in K. rewrite Z.pow_0_r in K. cbn [exp_loop]. exfalso. lia. }
  cbn [exp_loop]. destruct (Z.ltb_spec 1 k) as [L|L].
  - rewrite Nat2Z.inj_succ, Z.pow_succ_r in K by lia. assert (K2 : 0 < k / 2 < 2 ^ Z.of_nat n) by (split; [apply Z.div_str_pos; lia|apply Z.div_lt_upper_bound; lia]).
    set (k' := k / 2) in *. clearbody k'. destruct (mult_ok G G rG rG HG HG) as (G2 & EG & HG2). rewrite EG. cbn [obind].
    pose proof (Z.div_mod k' 2 ltac:(lia)) as D. pose proof (Z.mod_pos_bound k' 2 ltac:(lia)) as B.
    assert (P2 : forall j, rpow a b (rmul a b rG rG) j = rpow a b rG (j + j)) by (intros j; rewrite rpow_add, rpow_mulb; reflexivity).
    destruct (Z.eqb_spec (k' mod 2) 1) as [O|O].
    + destruct (mult_ok G2 s _ rs HG2 Hs) as (s2 & Es & Hs2). rewrite Es. cbn [obind].
      destruct (IH k' G2 s2 _ _ K2 HG2 Hs2) as (l & El & Hl). exists l. split; [exact El|].
      rewrite P2 in Hl. rewrite (rmul_comm _ _ _ rs), <- rmul_assoc in Hl.
      replace (rmul a b (rmul a b rG rG) (rpow a b rG (Z.to_nat (k' / 2) + Z.to_nat (k' / 2) + (Z.to_nat (k' / 2) + Z.to_nat (k' / 2))))) with (rpow a b rG (Z.to_nat k' + Z.to_nat k')) in Hl; [exact Hl|].
      replace (Z.to_nat k' + Z.to_nat k')%nat with (S (S (Z.to_nat (k' / 2) + Z.to_nat (k' / 2) + (Z.to_nat (k' / 2) + Z.to_nat (k' / 2))))) by lia.
      cbn [rpow]. apply rmul_assoc.
    + cbn [obind]. destruct (IH k' G2 s _ _ K2 HG2 Hs) as (l & El & Hl). exists l. split; [exact El|]. rewrite P2 in Hl.
      replace (Z.to_nat k' + Z.to_nat k')%nat with (Z.to_nat (k' / 2) + Z.to_nat (k' / 2) + (Z.to_nat (k' / 2) + Z.to_nat (k' / 2)))%nat by lia. exact Hl.
  - exists s. split; [reflexivity|]. assert (E : k / 2 = 0) by (apply Z.div_small; lia). rewrite E. cbn [Z.to_nat Nat.add rpow]. rewrite rmul_comm, rmul_1. exact Hs.
Qed.

Lemma exp_mod_ok e : 0 < e < p_mod -> e mod 2 = 1 ->
  exists l, polynomial_exp_mod [0; 1] e f p_mod = Ok l /\ rep l (rpow a b rx (Z.to_nat e)).
Proof.
  intros E O. unfold polynomial_exp_mod. destruct (Z.ltb_spec e p_mod); [|lia]. cbn [obind]. destruct (Z.eqb_spec e 0); [lia|]. rewrite O. cbn [Z.eqb Pos.eqb].
  assert (B : rep [0; 1] rx) by (exists 0, 1; repeat split; discriminate || (vm_compute; reflexivity)).
  destruct (exp_loop_ok (S (Z.to_nat (Z.log2_up e))) e [0; 1] [0; 1] rx rx) as (l & El & Hl); try assumption.
  - pose proof (Z.log2_up_nonneg e). pose proof (Z.log2_log2_up_spec e ltac:(lia)). rewrite Nat2Z.inj_succ, Z2Nat.id, Z.pow_succ_r by assumption. lia.
  - exists l. split; [exact El|]. pose proof (Z.div_mod e 2 ltac:(lia)) as D. pose proof (Z.div_pos e 2 ltac:(lia) ltac:(lia)).
    replace (Z.to_nat e) with (S (Z.to_nat (e / 2) + Z.to_nat (e / 2))) by lia. exact Hl.
Qed.
End Poly.

Lemma root_at av bv s : 0 < av < p_mod -> 0 < bv < p_mod -> Fof av = (s * s)%F -> (~ exists r, Fof (bv * bv - 4 * av) = (r * r)%F) ->
  exists r, (ff <- polynomial_exp_mod [0; 1] ((p_mod + 1) / 2) [av; - bv; 1] p_mod ;;
        match ff with
        | f0 :: f1 :: _ => if f1 =? 0 then Ok f0 else Throw
        | _ => Throw
        end) = Ok r /\ 0 <= r < p_mod /\ (r * r) mod p_mod = av.
Proof.
  intros A B S ND. destruct (exp_mod_ok av bv ((p_mod + 1) / 2)) as (l & El & u & v & -> & Hu & Hv & Er); [split; vm_compute; reflexivity|vm_compute; reflexivity|].
  rewrite El. cbn [obind].
  destruct (root_pow (Fof av) (Fof bv) (Z.to_nat p_mod)) with (m := Z.to_nat ((p_mod + 1) / 2)) (s := s) as [R1 R2].
  - apply Z2Nat.id. discriminate.
  - intros [r Hr]. apply ND. exists r. rewrite <- Hr. unfold disc. rewrite Fof_sub, !Fof_mul. change (Fof 4) with (Fof (1 + 1) * Fof (1 + 1))%F. rewrite Fof_add. change (Fof 1) with F1. ring.
  - apply Fof_nz. rewrite Z.mod_small by lia. lia.
  - apply Nat2Z.inj. rewrite Nat2Z.inj_add, Nat2Z.inj_succ, !Z2Nat.id by discriminate. vm_compute. reflexivity.
  - exact S.
  - apply Fof_nz. rewrite Z.mod_small by lia. lia.
  - rewrite Er in R1, R2. cbn [fst snd] in R1, R2.
    assert (V : v = 0) by (apply (f_equal fval) in R1; rewrite fval_Fof_small in R1 by exact Hv; exact R1). subst v. cbn [Z.eqb].
    exists u. split; [reflexivity|]. split; [exact Hu|]. rewrite <- Fof_mul in R2. apply Fof_eq_iff in R2. rewrite R2. apply Z.mod_small. lia.
Qed.

Lemma square_F z : is_square_mod p_mod z <-> exists r, Fof z = (r * r)%F.
Proof.
  split.
  - intros [r H]. exists (Fof r). rewrite <- Fof_mul. symmetry. now apply Fof_eq_iff.
  - intros [r H]. exists (fval r). apply Fof_eq_iff. rewrite Fof_mul, Fof_fval. now symmetry.
Qed.

(** ** the Jacobi symbol *)
Lemma jacobi_domain_lemma : forall fuel a n, n < 3 \/ n mod 2 = 0 -> (0 < fuel)%nat -> jacobi fuel a n = Throw.
Proof.
  intros fuel a n H F. destruct fuel as [|fuel]; [lia|]. cbn [jacobi]. destruct (Z.leb_spec 3 n); [|reflexivity]. destruct H as [H|H]; [lia|]. now rewrite H.
Qed.
Lemma jacobi_lemma : forall fuel n a b, 3 <= n -> n mod 2 = 1 -> 2 * Z.log2 n + 2 <= Z.of_nat fuel ->
  exists x y, jacobi fuel a n = Ok x /\ jacobi fuel b n = Ok y /\ jacobi fuel (a * b) n = Ok (x * y) /\
    (x = 0 <-> Z.gcd a n <> 1) /\ (x = -1 \/ x = 0 \/ x = 1) /\ (a mod n = b mod n -> x = y) /\ (a mod n = 1 -> x = 1).
Proof.
  intros fuel n a b N O F. destruct (jacobi_value fuel a n N O F) as [A1 A0]. destruct (jacobi_value fuel b n N O F) as [B1 B0]. destruct (jacobi_value fuel (a * b) n N O F) as [C1 C0].
  pose proof (Z.div_mod n 2 ltac:(lia)) as D. rewrite O in D.
  assert (HP : 0 <= n / 2) by (apply Z.div_pos; lia).
  assert (PER : a mod n = b mod n -> Z.gcd a n = Z.gcd b n /\ J (n / 2) a = J (n / 2) b).
  { intros E. split; [|rewrite <- (J_mod (n / 2) a), <- (J_mod (n / 2) b), <- D, E; reflexivity].
    rewrite (Z.gcd_comm a), (Z.gcd_comm b), <- (Z.gcd_mod a n), <- (Z.gcd_mod b n), E by lia. reflexivity. }
  assert (ONE : a mod n = 1 -> Z.gcd a n = 1 /\ J (n / 2) a = false).
  { intros E. split; [rewrite Z.gcd_comm, <- Z.gcd_mod, E by lia; apply Z.gcd_1_l|]. rewrite <- (J_mod (n / 2) a), <- D, E. now apply J_1. }
  assert (SG : forall c, sign c <> 0) by (intros []; discriminate). assert (SC : forall c, sign c = -1 \/ sign c = 0 \/ sign c = 1) by (intros []; cbn [sign]; tauto).
  destruct (Z.eq_dec (Z.gcd a n) 1) as [GA|GA]; destruct (Z.eq_dec (Z.gcd b n) 1) as [GB|GB].
  - exists (sign (J (n / 2) a)), (sign (J (n / 2) b)). rewrite (A1 GA), (B1 GB).
    assert (GC : Z.gcd (a * b) n = 1). { apply Zgcd_1_rel_prime. apply rel_prime_sym. apply rel_prime_mult; apply rel_prime_sym; now apply Zgcd_1_rel_prime. }
    rewrite (C1 GC). split; [reflexivity|]. split; [reflexivity|]. split; [|split; [|split; [apply SC|split]]].
    + rewrite (J_mul (n / 2) HP a b); [|rewrite <- D; exact GA|rewrite <- D; exact GB]. destruct (J (n / 2) a), (J (n / 2) b); reflexivity.
    + split; intros H; [exfalso; now apply (SG (J (n / 2) a))|contradiction].
    + intros E. now rewrite (proj2 (PER E)).
    + intros E. now rewrite (proj2 (ONE E)).
  - exists (sign (J (n / 2) a)), 0. rewrite (A1 GA), (B0 GB), C0.
    + rewrite Z.mul_0_r. repeat (split; [reflexivity|]). split; [split; intros H; [exfalso; now apply (SG (J (n / 2) a))|contradiction]|]. split; [apply SC|]. split; [intros E; exfalso; apply GB; rewrite <- (proj1 (PER E)); exact GA|].
      intros E. now rewrite (proj2 (ONE E)).
    + intros E. apply GB. apply Zgcd_1_rel_prime. apply rel_prime_div with (a * b); [now apply Zgcd_1_rel_prime|]. exists a. lia.
  - exists 0, (sign (J (n / 2) b)). rewrite (A0 GA), (B1 GB), C0.
    + rewrite Z.mul_0_l. repeat (split; [reflexivity|]). split; [tauto|]. split; [tauto|]. split; [intros E; exfalso; apply GA; rewrite (proj1 (PER E)); exact GB|]. intros E. exfalso. apply GA. apply ONE. exact E.
    + intros E. apply GA. apply Zgcd_1_rel_prime. apply rel_prime_div with (a * b); [now apply Zgcd_1_rel_prime|]. exists b. lia.
  - exists 0, 0. rewrite (A0 GA), (B0 GB), C0.
    + rewrite Z.mul_0_l. repeat (split; [reflexivity|]). split; [tauto|]. split; [tauto|]. split; [reflexivity|]. intros E. exfalso. apply GA. apply ONE. exact E.
    + intros E. apply GA. apply Zgcd_1_rel_prime. apply rel_prime_div with (a * b); [now apply Zgcd_1_rel_prime|]. exists b. lia.
Qed.
Lemma jacobi_reciprocity_lemma : forall fuel m n, 3 <= m -> 3 <= n -> m mod 2 = 1 -> n mod 2 = 1 -> Z.gcd m n = 1 -> 2 * Z.log2 m + 2 <= Z.of_nat fuel -> 2 * Z.log2 n + 2 <= Z.of_nat fuel ->
  exists x y, jacobi fuel m n = Ok x /\ jacobi fuel n m = Ok y /\ x * y = if (m mod 4 =? 3) && (n mod 4 =? 3) then -1 else 1.
Proof.
  intros fuel m n M N OM ON G FM FN. destruct (jacobi_value fuel m n N ON FN) as [A _]. destruct (jacobi_value fuel n m M OM FM) as [B _].
  exists (sign (J (n / 2) m)), (sign (J (m / 2) n)). split; [now apply A|]. split; [apply B; now rewrite Z.gcd_comm|].
  pose proof (Z.div_mod n 2 ltac:(lia)) as DN. rewrite ON in DN. pose proof (Z.div_mod m 2 ltac:(lia)) as DM. rewrite OM in DM.
  pose proof (reciprocity (n / 2) (m / 2)) as R. rewrite <- DN, <- DM in R. specialize (R ltac:(apply Z.div_pos; lia) ltac:(apply Z.div_pos; lia) G).
  assert (Q : forall x, (2 * x + 1) mod 4 =? 3 = Z.odd x).
  { intros x. pose proof (Z.div_mod x 2 ltac:(lia)) as D. rewrite Zmod_odd in D. destruct (Z.odd x).
    - rewrite <- (Z.mod_unique (2 * x + 1) 4 (x / 2) 3) by lia. reflexivity.
    - rewrite <- (Z.mod_unique (2 * x + 1) 4 (x / 2) 1) by lia. reflexivity. }
  replace (m mod 4 =? 3) with (Z.odd (m / 2)) by (rewrite <- Q, <- DM; reflexivity). replace (n mod 4 =? 3) with (Z.odd (n / 2)) by (rewrite <- Q, <- DN; reflexivity).
  rewrite andb_comm, <- R. destruct (J (n / 2) m), (J (m / 2) n); reflexivity.
Qed.
Lemma nonsquare_half x : (~ exists r, x = (r * r)%F) -> Fpow x ((p_mod - 1) / 2) = (- F1)%F.
Proof.
  intros HD. set (e := Fpow x ((p_mod - 1) / 2)).
  assert (N0 : x <> F0) by (intros E; apply HD; exists F0; rewrite E; ring).
  assert (E : ((e - F1) * (e + F1) = F0)%F).
  { assert (E2 : (e * e = F1)%F).
    { unfold e. rewrite <- Fpow_add by exact half_nonneg. replace ((p_mod - 1) / 2 + (p_mod - 1) / 2) with (p_mod - 1) by (vm_compute; reflexivity). now apply F_fermat. }
    transitivity (e * e - F1)%F; [ring|]. rewrite E2. ring. }
  apply Fmul_integral in E. destruct E as [K|K].
  - exfalso. apply HD. apply euler_square. apply (proj1 (Fsub_eq0 _ _)) in K. exact K.
  - transitivity (e + F1 - F1)%F; [ring|]. rewrite K. ring.
Qed.
Lemma five_half : Feqb (Fpow (Fof 5) ((p_mod - 1) / 2)) F1 = false.
Proof. vm_compute. reflexivity. Qed.
Lemma five_nonsquare : ~ exists r, Fof 5 = (r * r)%F.
Proof.
  intros [r E]. pose proof five_half as H. rewrite E, square_euler, Feqb_refl in H; [discriminate|].
  intros R0. assert (N : Fof 5 <> F0) by (apply Fof_nz; vm_compute; discriminate). apply N. rewrite E, R0. ring.
Qed.
Section Chi.
Variable chi : Z -> bool.
Hypothesis CM : forall x, chi (x mod p_mod) = chi x.
Hypothesis CX : forall x y, Z.gcd x p_mod = 1 -> Z.gcd y p_mod = 1 -> chi (x * y) = xorb (chi x) (chi y).
Hypothesis C5 : chi 5 = true.
Lemma coprime_p z : Fof z <> F0 -> Z.gcd z p_mod = 1.
Proof.
  intros N. apply Zgcd_1_rel_prime. apply rel_prime_sym. apply prime_rel_prime; [exact prime_p_mod|]. intros D. apply N. apply Fof_eq_iff. rewrite (Zdivide_mod _ _ D). reflexivity.
Qed.
Lemma chi_square z : Fof z <> F0 -> (exists r, Fof z = (r * r)%F) -> chi z = false.
Proof.
  intros N [r E]. rewrite <- (Fof_fval r), <- Fof_mul in E. apply Fof_eq_iff in E. rewrite <- CM, E, CM.
  assert (G : Z.gcd (fval r) p_mod = 1). { apply coprime_p. intros R0. apply N. rewrite <- Fof_mod, E, Fof_mod, Fof_mul, R0. ring. }
  rewrite CX by exact G. apply xorb_nilpotent.
Qed.
Lemma chi_legendre z : Fof z <> F0 -> (chi z = true <-> ~ exists r, Fof z = (r * r)%F).
Proof.
  intros N. split.
  - intros H K. rewrite (chi_square z N K) in H. discriminate.
  - intros H. assert (N5 : Fof 5 <> F0) by (intros E; apply five_nonsquare; exists F0; rewrite E; ring).
    assert (Q : chi (5 * z) = false).
    { apply chi_square; rewrite Fof_mul.
      - intros E. apply Fmul_integral in E. tauto.
      - apply euler_square. rewrite Fpow_mul_base by exact half_nonneg. rewrite (nonsquare_half _ five_nonsquare), (nonsquare_half _ H). ring. }
    rewrite CX, C5 in Q by (apply coprime_p; assumption). destruct (chi z); [reflexivity|discriminate].
Qed.
End Chi.
Lemma chi_J : forall n, n = p_mod -> forall z, Fof z <> F0 -> (J (n / 2) z = true <-> ~ exists r, Fof z = (r * r)%F).
Proof.
  intros n Hn z N. assert (D : n = 2 * (n / 2) + 1). { pose proof (Z.div_mod n 2 ltac:(lia)) as D. replace (n mod 2) with 1 in D by (rewrite Hn; reflexivity). exact D. }
  assert (N3 : 3 <= n) by (rewrite Hn; vm_compute; discriminate).
  apply (chi_legendre (J (n / 2))); [| | |exact N].
  - intros x. rewrite <- Hn. pose proof (J_mod (n / 2) x) as E. rewrite <- D in E. exact E.
  - intros x y X Y. rewrite <- Hn in X, Y. apply J_mul; [apply Z.div_pos; lia|rewrite <- D; exact X|rewrite <- D; exact Y].
  - assert (E : jacobi 10 5 n = Ok (-1)) by (rewrite Hn; vm_compute; reflexivity).
    assert (G : Z.gcd 5 n = 1) by (rewrite Hn; vm_compute; reflexivity).
    assert (S : -1 = sign (J (n / 2) 5)) by (apply (jacobi_partial 10%nat); [lia|rewrite <- D; exact G|rewrite <- D; exact E]).
    destruct (J (n / 2) 5); [reflexivity|discriminate].
Qed.
Lemma legendre_gen : forall n depth z, n = p_mod -> 2 * Z.log2 n + 2 <= Z.of_nat depth ->
  exists j, jacobi depth z n = Ok j /\ (j = 0 <-> z mod n = 0) /\ (j = -1 <-> ~ is_square_mod n z).
Proof.
  intros n depth z Hn F. assert (N3 : 3 <= n) by (rewrite Hn; vm_compute; discriminate). assert (O : n mod 2 = 1) by (rewrite Hn; reflexivity).
  destruct (jacobi_value depth z n N3 O F) as [J1 J0]. destruct (Z.eq_dec (z mod n) 0) as [E|E].
  - exists 0. split; [|split; [tauto|split; [discriminate|]]].
    + apply J0. rewrite Z.gcd_comm, <- Z.gcd_mod, E by lia. change (Z.gcd 0 n) with (Z.abs n). lia.
    + intros H. exfalso. apply H. exists 0. rewrite E. apply Z.mod_0_l. lia.
  - assert (N : Fof z <> F0) by (apply Fof_nz; rewrite <- Hn; exact E).
    exists (sign (J (n / 2) z)). split; [apply J1; rewrite Hn; now apply coprime_p|]. split.
    + split; [intros H; exfalso; destruct (J (n / 2) z); discriminate|contradiction].
    + pose proof (chi_J n Hn z N) as C. rewrite Hn at 2. rewrite square_F. destruct (J (n / 2) z); cbn [sign]; split; intros H.
      * now apply C.
      * reflexivity.
      * discriminate.
      * apply C in H. discriminate.
Qed.
Lemma legendre_lemma : forall depth z, (508 <= depth)%nat ->
  exists j, jacobi depth z p_mod = Ok j /\ (j = 0 <-> z mod p_mod = 0) /\ (j = -1 <-> ~ is_square_mod p_mod z).
Proof. intros depth z H. apply legendre_gen; [reflexivity|]. replace (Z.log2 p_mod) with 253 by (vm_compute; reflexivity). lia. Qed.

Lemma search_ok depth av s : (508 <= depth)%nat -> 0 < av < p_mod -> Fof av = (s * s)%F ->
  forall k bv fuel, 0 < bv -> bv + Z.of_nat k < p_mod -> (~ exists r, Fof ((bv + Z.of_nat k) * (bv + Z.of_nat k) - 4 * av) = (r * r)%F) -> (k < fuel)%nat ->
  exists r, root_search depth fuel av p_mod bv = Ok r /\ 0 <= r < p_mod /\ (r * r) mod p_mod = av.
Proof.
  intros JD A S. induction k as [|k IH]; intros bv fuel B L ND F; (destruct fuel as [|n]; [lia|]); cbn [root_search]; (destruct (Z.ltb_spec bv p_mod); [|lia]).
  - rewrite Z.add_0_r in ND. destruct (legendre_lemma depth (bv * bv - 4 * av) JD) as (j & -> & _ & JJ). cbn [obind]. rewrite (proj2 JJ) by (rewrite square_F; exact ND). cbn [Z.eqb Pos.eqb]. apply (root_at av bv s); (assumption || lia).
  - destruct (legendre_lemma depth (bv * bv - 4 * av) JD) as (j & -> & _ & JJ). cbn [obind]. destruct (Z.eqb_spec j (-1)) as [E|E].
    + apply (root_at av bv s); try (assumption || lia). apply JJ in E. rewrite square_F in E. exact E.
    + apply IH; [lia|lia| |lia]. replace (bv + 1 + Z.of_nat k) with (bv + Z.of_nat (Datatypes.S k)) by lia. exact ND.
Qed.

Lemma square_root_lemma : forall depth a, (508 <= depth)%nat -> 0 <= a < p_mod ->
  (is_square_mod p_mod a -> exists n, Z.of_nat n < p_mod /\ forall fuel, (n < fuel)%nat -> exists r, square_root_mod_prime depth fuel a p_mod = Ok r /\ 0 <= r < p_mod /\ (r * r) mod p_mod = a) /\
  (~ is_square_mod p_mod a -> forall fuel, square_root_mod_prime depth fuel a p_mod = Throw).
Proof.
  intros depth a JD A. unfold square_root_mod_prime. destruct (legendre_lemma depth a JD) as (j & -> & _ & JJ).
  assert (E1 : (0 <=? a) && (a <? p_mod) && (1 <? p_mod) = true).
  { destruct (Z.leb_spec 0 a); [|lia]. destruct (Z.ltb_spec a p_mod); [|lia]. reflexivity. }
  rewrite E1. cbn [obind]. change (p_mod =? 2) with false. change (p_mod mod 4 =? 3) with false. change (p_mod mod 8 =? 5) with false. cbv iota.
  destruct (Z.eqb_spec a 0) as [Z0|N0].
  - split; [|intros H; exfalso; apply H; exists 0; now rewrite Z0]. intros _. exists 0%nat. split; [reflexivity|]. intros fuel _. exists 0. split; [reflexivity|]. split; [lia|]. rewrite Z0. reflexivity.
  - cbn [obind]. destruct (Z.eqb_spec j (-1)) as [E|E].
    + split; [intros H; apply JJ in E; contradiction|reflexivity].
    + split; [|intros H; apply JJ in H; contradiction]. intros SQ. apply square_F in SQ. destruct SQ as [s Hs].
      destruct (nonsquare_exists (Fof a) s Hs) with (n := Z.to_nat p_mod) as (i & Hi & I2 & ND).
      { apply Fof_nz. rewrite Z.mod_small by lia. exact N0. } { apply Z2Nat.id. discriminate. }
      exists (i - 2)%nat. split; [lia|]. intros fuel HF. apply (search_ok depth a s JD ltac:(lia) Hs (i - 2)%nat 2 fuel); [lia|lia| |exact HF].
      replace (2 + Z.of_nat (i - 2)) with (Z.of_nat i) by lia. intros [r Hr]. apply ND. exists r. rewrite <- Hr. unfold four_a. rewrite Fof_sub, !Fof_mul.
      change (Fof 4) with (Fof (1 + 1) * Fof (1 + 1))%F. rewrite Fof_add. change (Fof 1) with F1. ring.
Qed.

(** [FQ.sqrt] meets what the curve functions require of it *)
Lemma fq_sqrt_lemma : forall depth fuel, (508 <= depth)%nat -> p_mod <= Z.of_nat fuel -> py_sqrt_ok (py_sqrt depth fuel).
Proof.
  intros depth fuel JD F x. unfold py_sqrt. destruct (square_root_lemma depth (fval x) JD (fval_range x)) as [S1 S2]. split.
  - intros r E. destruct S1 as (n & Hn & S1).
    { apply square_F. exists r. rewrite Fof_fval. now symmetry. }
    destruct (S1 fuel ltac:(lia)) as (v & -> & V & VE). exists (Fof v). split; [reflexivity|]. rewrite <- Fof_mul, <- Fof_mod, VE. apply Fof_fval.
  - intros H. rewrite S2; [reflexivity|]. intros Q. apply square_F in Q. destruct Q as [r Q]. rewrite Fof_fval in Q. now apply (H r).
Qed.
(** the branch for primes that are 3 modulo 4 *)
Lemma sqrt_three_mod_four_lemma : forall p depth fuel a, prime p -> p mod 4 = 3 -> 2 * Z.log2 p + 2 <= Z.of_nat depth -> 0 <= a < p -> is_square_mod p a ->
  exists r, square_root_mod_prime depth fuel a p = Ok r /\ 0 <= r < p /\ (r * r) mod p = a.
Proof.
  intros p depth fuel a PP P4 JD A [s S]. pose proof (Z.div_mod p 4 ltac:(lia)) as D. rewrite P4 in D. assert (Q0 : 0 <= p / 4) by (apply Z.div_pos; lia).
  assert (P3 : 3 <= p) by lia. assert (P2 : p mod 2 = 1). { symmetry. apply (Z.mod_unique p 2 (2 * (p / 4) + 1)); lia. }
  unfold square_root_mod_prime. destruct (Z.leb_spec 0 a); [|lia]. destruct (Z.ltb_spec a p); [|lia]. destruct (Z.ltb_spec 1 p); [|lia]. cbn [andb obind].
  destruct (Z.eqb_spec a 0) as [->|A0]; [exists 0; rewrite Z.mul_0_l, Z.mod_0_l by lia; split; [reflexivity|lia]|]. destruct (Z.eqb_spec p 2); [lia|].
  destruct (jacobi_lemma depth p s s P3 P2 JD) as (x & y & Hx & Hy & Hxy & _). assert (y = x) by congruence. subst y.
  destruct (jacobi_lemma depth p a (s * s) P3 P2 JD) as (j & y & Hj & Hs & _ & _ & _ & Pe & _). assert (y = x * x) by congruence. subst y. rewrite Hj. cbn [obind]. rewrite (Pe ltac:(now symmetry)).
  destruct (Z.eqb_spec (x * x) (-1)); [nia|]. rewrite P4. cbn [Z.eqb Pos.eqb]. unfold modular_exp, pow3, py_pow.
  destruct (Z.eqb_spec p 0); [lia|]. assert (E4 : (p + 1) / 4 = p / 4 + 1) by (symmetry; apply (Z.div_unique (p + 1) 4 (p / 4 + 1) 0); lia). rewrite E4.
  destruct (Z.ltb_spec (p / 4 + 1) 0); [lia|]. cbn [orb]. eexists. split; [reflexivity|]. split; [apply Z.mod_pos_bound; lia|].
  rewrite <- Z.mul_mod by lia. rewrite <- Z.pow_add_r by lia.
  assert (N : s mod p <> 0). { intros E. apply A0. rewrite <- (Z.mod_small a p A), <- S, Z.mul_mod, E by lia. apply Z.mod_0_l. lia. }
  set (e := p / 4 + 1 + (p / 4 + 1)). assert (E : e + e = p - 1 + 2) by (unfold e; lia). assert (E0 : 0 <= e) by (unfold e; lia). clearbody e.
  rewrite <- (pow_mod_base a), <- S, pow_mod_base, Z.pow_mul_l, <- Z.pow_add_r, E, Z.pow_add_r by lia.
  rewrite Z.mul_mod, fermat_unit by (assumption || lia). rewrite Z.mul_1_l, Z.mod_mod, Z.pow_2_r, S by lia. now apply Z.mod_small.
Qed.
