(** Lemmas about square roots and the base-point derivation. *)
From Coq Require Import List ZArith Znumtheory Bool Arith Lia String Ascii.
From Verif Require Import Primes Field Base M_Point M_Utils M_Bits M_Sha256 M_Eddsa M_Basepoint
  Spec_Curve Spec_Mont Spec_CurveOrder Spec_Basepoint P_Curve P_Group P_Zmul.
Import ListNotations.
Local Open Scope Z_scope.

(** ** Euler's criterion *)
Lemma Fsq_1 b : (b * b)%F = F1 -> b = F1 \/ b = (- F1)%F.
Proof.
  intros E. assert (H : ((b - F1) * (b - - F1))%F = F0). { transitivity (b * b - F1)%F; [ring|]. rewrite E. ring. }
  apply Fmul_integral in H. destruct H as [H|H]; [left|right]; now apply Fsub_eq0.
Qed.
Definition two_adic : Z := 28.
Definition odd_part : Z := 81540058820840996586704275553141814055101440848469862132140264610111.
Lemma half_split : (p_mod - 1) / 2 = odd_part * 2 ^ 27.
Proof. vm_compute. reflexivity. Qed.
Definition zz : F := Fpow (Fof 168696) odd_part.
Lemma zz_27 : Fpow zz (2 ^ 27) = (- F1)%F.
Proof.
  unfold zz. rewrite <- Fpow_mul by (unfold odd_part; lia). rewrite <- half_split, d_euler. apply fval_inj. vm_compute. reflexivity.
Qed.
Lemma Fpow_2 x : Fpow x 2 = (x * x)%F.
Proof. change 2 with (1 + 1). rewrite Fpow_add by lia. now rewrite !Fpow_1. Qed.
Lemma Fpow_nz x e : 0 <= e -> x <> F0 -> Fpow x e <> F0.
Proof.
  intros He Hx. rewrite <- (Z2Nat.id e) by lia. clear He. induction (Z.to_nat e) as [|n IH].
  - intros H. rewrite Fpow_0 in H. now apply F1_neq_0.
  - rewrite Nat2Z.inj_succ. unfold Z.succ. rewrite Fpow_succ by lia. now apply Fmul_nz.
Qed.
Lemma F1_opp_nz : (- F1)%F <> F0.
Proof. intros H. apply (f_equal fval) in H. vm_compute in H. discriminate. Qed.
Lemma zz_nz : zz <> F0.
Proof. intros H. pose proof zz_27 as E. rewrite H, Fpow_base_0 in E by lia. symmetry in E. now apply F1_opp_nz in E. Qed.
Lemma root_of_unity k b : (k <= 27)%nat -> Fpow b (2 ^ Z.of_nat k) = F1 -> exists c, b = (c * c)%F.
Proof.
  revert b. induction k as [|k IH]; intros b Hk E.
  - change (2 ^ Z.of_nat 0) with 1 in E. rewrite Fpow_1 in E. exists F1. rewrite E. ring.
  - rewrite Nat2Z.inj_succ, Z.pow_succ_r, (Z.mul_comm 2), Fpow_mul, Fpow_2 in E by lia.
    destruct (Fsq_1 _ E) as [E1|E1]; [apply IH; [lia|exact E1]|].
    set (w := Fpow zz (2 ^ (26 - Z.of_nat k))).
    assert (Ew : Fpow (w * w)%F (2 ^ Z.of_nat k) = (- F1)%F).
    { assert (EE : 2 ^ 27 = 2 ^ (26 - Z.of_nat k) * 2 * 2 ^ Z.of_nat k).
      { replace 27 with ((26 - Z.of_nat k) + 1 + Z.of_nat k) by lia. rewrite !Z.pow_add_r by lia. reflexivity. }
      rewrite <- zz_27, EE, (Fpow_mul zz), (Fpow_mul zz), Fpow_2 by lia. reflexivity. }
    destruct (IH (b * (w * w))%F) as [c Hc]; [lia| |].
    { rewrite Fpow_mul_base by lia. rewrite E1, Ew. ring. }
    assert (Nw : w <> F0) by (apply Fpow_nz; [lia|exact zz_nz]).
    exists (c * Finv w)%F. transitivity ((b * (w * w)) * (Finv w * Finv w))%F.
    + transitivity (b * ((w * Finv w) * (w * Finv w)))%F; [|ring]. rewrite Finv_r by exact Nw. ring.
    + rewrite Hc. ring.
Qed.
Lemma euler_square x : Fpow x ((p_mod - 1) / 2) = F1 -> exists r, x = (r * r)%F.
Proof.
  intros E. rewrite half_split, Fpow_mul in E by (unfold odd_part; lia).
  assert (Nx : x <> F0). { intros ->. rewrite (Fpow_base_0 odd_part), Fpow_base_0 in E by (unfold odd_part; lia). symmetry in E. now apply F1_neq_0 in E. }
  destruct (root_of_unity 27 (Fpow x odd_part)) as [c Hc]; [lia|exact E|].
  set (h := Fpow x (odd_part / 2)).
  assert (Nh : h <> F0) by (apply Fpow_nz; [vm_compute; discriminate|exact Nx]).
  assert (Eh : Fpow x odd_part = (h * h * x)%F).
  { replace odd_part with (odd_part / 2 + odd_part / 2 + 1) at 1 by (vm_compute; reflexivity).
    rewrite Fpow_succ, Fpow_add by (vm_compute; discriminate). reflexivity. }
  exists (c * Finv h)%F. rewrite Eh in Hc. transitivity ((h * h * x) * (Finv h * Finv h))%F.
  - transitivity ((h * Finv h) * (h * Finv h) * x)%F; [|ring]. rewrite Finv_r by exact Nh. ring.
  - rewrite Hc. ring.
Qed.
Lemma half_nonneg : 0 <= (p_mod - 1) / 2.
Proof. vm_compute. discriminate. Qed.
Lemma square_euler r : r <> F0 -> Fpow (r * r)%F ((p_mod - 1) / 2) = F1.
Proof.
  intros H. rewrite Fpow_mul_base by exact half_nonneg. rewrite <- Fpow_add by exact half_nonneg.
  replace ((p_mod - 1) / 2 + (p_mod - 1) / 2)%Z with (p_mod - 1)%Z by (vm_compute; reflexivity). now apply F_fermat.
Qed.
Lemma jacobi_square r : mpz_jacobi (r * r)%F <> -1.
Proof.
  unfold mpz_jacobi. destruct (Feqb_spec (r * r)%F F0) as [E|E]; [discriminate|].
  assert (r <> F0) by (intros ->; apply E; ring).
  rewrite square_euler by assumption. rewrite Feqb_refl. discriminate.
Qed.
Lemma jacobi_root x : mpz_jacobi x <> -1 -> exists r, x = (r * r)%F.
Proof.
  unfold mpz_jacobi. destruct (Feqb_spec x F0) as [->|E]; [intros _; exists F0; ring|].
  destruct (Feqb_spec (Fpow x ((p_mod - 1) / 2)) F1) as [E1|E1]; [intros _; now apply euler_square|congruence].
Qed.
Lemma jacobi_iff x : mpz_jacobi x = -1 <-> ~ exists r, x = (r * r)%F.
Proof.
  split.
  - intros E [r ->]. now apply (jacobi_square r).
  - intros H. destruct (Z.eq_dec (mpz_jacobi x) (-1)) as [E|E]; [exact E|]. destruct H. now apply jacobi_root.
Qed.

(** ** from_y_always *)
Lemma rhs_nz y : (jj_d * (y * y) - jj_a)%F <> F0.
Proof.
  intros E. apply (a_dy2 y). unfold jj_d, jj_a in E. transitivity (- (Fof 168696 * (y * y) - Fof 168700))%F; [ring|]. rewrite E. ring.
Qed.
Lemma curve_xx x y : on_curve (mkpt x y) <-> (x * x)%F = ((y * y - F1) * Finv (jj_d * (y * y) - jj_a))%F.
Proof.
  pose proof (rhs_nz y) as N. unfold on_curve. cbn [px py]. change (Fof 168700) with jj_a. change (Fof 168696) with jj_d. split.
  - intros H. apply (Fmul_cancel_l (jj_d * (y * y) - jj_a)%F); [exact N|].
    transitivity (((jj_d * (y * y) - jj_a) * Finv (jj_d * (y * y) - jj_a)) * (y * y - F1))%F; [|ring].
    rewrite Finv_r by exact N. transitivity ((F1 + jj_d * (x * x) * (y * y)) - jj_a * (x * x) - F1)%F; [ring|].
    rewrite <- H. ring.
  - intros H. assert (E : ((jj_d * (y * y) - jj_a) * (x * x))%F = (y * y - F1)%F).
    { rewrite H. transitivity (((jj_d * (y * y) - jj_a) * Finv (jj_d * (y * y) - jj_a)) * (y * y - F1))%F; [ring|].
      rewrite Finv_r by exact N. ring. }
    transitivity ((jj_d * (y * y) - jj_a) * (x * x) - (y * y - F1) + (jj_a * (x * x) + y * y))%F; [rewrite E; ring|]. ring.
Qed.
Lemma neg_larger x : larger_root (if is_negative x then - x else x)%F.
Proof.
  unfold larger_root, is_negative. destruct (Z.ltb_spec (fval x) (fval (- x)%F)).
  - replace (- - x)%F with x by ring. lia.
  - assumption.
Qed.
Lemma from_y_loop_ok sqrt : sqrt_ok sqrt -> forall n i y,
  (exists k P, i <= k < i + Z.of_nat n /\ from_y_loop sqrt n i y = Ok P /\ on_curve P /\ py P = (y + Fof k)%F /\ larger_root (px P) /\
     forall j, i <= j < k -> ~ has_point (y + Fof j)%F) \/
  (from_y_loop sqrt n i y = Abort /\ forall j, i <= j < i + Z.of_nat n -> ~ has_point (y + Fof j)%F).
Proof.
  intros HS n. induction n as [|n IH]; intros i y.
  { right. split; [reflexivity|]. intros j Hj. lia. }
  cbn [from_y_loop]. rewrite inverse_ok by apply rhs_nz. cbn [obind].
  set (ty := (y + Fof i)%F). set (xx := ((ty * ty - F1) * Finv (jj_d * (ty * ty) - jj_a))%F).
  destruct (Z.eqb_spec (mpz_jacobi xx) (-1)) as [E|E].
  - assert (Hn : ~ has_point (y + Fof i)%F).
    { intros [x Hx]. apply curve_xx in Hx. fold ty xx in Hx. apply jacobi_iff in E. apply E. now exists x. }
    destruct (IH (i + 1) y) as [(k & P & Hk & EP & H1 & H2 & H3 & H4)|[EP H]].
    + left. exists k, P. split; [lia|]. split; [exact EP|]. split; [exact H1|]. split; [exact H2|]. split; [exact H3|].
      intros j Hj. destruct (Z.eq_dec j i) as [->|]; [exact Hn|]. apply H4. lia.
    + right. split; [exact EP|]. intros j Hj. destruct (Z.eq_dec j i) as [->|]; [exact Hn|]. apply H. lia.
  - left. destruct (jacobi_root xx E) as [r Hr].
    assert (SQ : (sqrt xx * sqrt xx)%F = xx) by (rewrite Hr; apply HS).
    exists i. eexists. split; [lia|]. split; [reflexivity|].
    assert (EP : (if is_negative (sqrt xx) then mkpt (- sqrt xx)%F ty else mkpt (sqrt xx) ty) =
                 mkpt (if is_negative (sqrt xx) then - sqrt xx else sqrt xx)%F ty) by (destruct (is_negative _); reflexivity).
    rewrite EP. cbn [px py]. split.
    { apply curve_xx. fold xx. transitivity (sqrt xx * sqrt xx)%F; [destruct (is_negative _); ring|exact SQ]. }
    split; [reflexivity|]. split; [apply neg_larger|]. intros j Hj. lia.
Qed.
Lemma larger_root_unique x x' : (x * x)%F = (x' * x')%F -> larger_root x -> larger_root x' -> x = x'.
Proof.
  intros E H1 H2. assert (E2 : ((x - x') * (x - - x'))%F = F0) by (transitivity (x * x - x' * x')%F; [ring|]; rewrite E; ring).
  apply Fmul_integral in E2. destruct E2 as [E2|E2]; apply (proj1 (Fsub_eq0 _ _)) in E2; [exact E2|].
  unfold larger_root in *. rewrite E2 in H1. replace (- - x')%F with x' in H1 by ring.
  assert (E3 : x' = (- x')%F) by (apply fval_inj; lia). rewrite E2. now symmetry.
Qed.
Lemma found_unique y i j P Q : 0 <= i -> 0 <= j -> found_at y i P -> found_at y j Q -> i = j /\ P = Q.
Proof.
  intros Hi Hj (A1 & A2 & A3 & A4) (B1 & B2 & B3 & B4).
  assert (HP : has_point (y + Fof i)%F) by (exists (px P); rewrite <- A2; now destruct P).
  assert (HQ : has_point (y + Fof j)%F) by (exists (px Q); rewrite <- B2; now destruct Q).
  assert (E : i = j).
  { destruct (Z.lt_trichotomy i j) as [H|[H|H]]; [|exact H|].
    - exfalso. apply (B4 i); [lia|exact HP].
    - exfalso. apply (A4 j); [lia|exact HQ]. }
  split; [exact E|]. subst j. rewrite <- B2 in A2. apply point_eq; [|exact A2].
  apply larger_root_unique; [|exact A3|exact B3].
  assert (C1 : on_curve (mkpt (px P) (py Q))) by (rewrite <- A2; now destruct P).
  assert (C2 : on_curve (mkpt (px Q) (py Q))) by now destruct Q.
  apply curve_xx in C1, C2. now rewrite C1, C2.
Qed.

(** ** the hashed string *)
Lemma c_chars_no_nul s : no_nul s -> c_chars s = chars s.
Proof.
  induction s as [|c r IH]; [reflexivity|]. intros [H1 H2]. cbn [c_chars]. unfold chars. cbn [list_ascii_of_string map].
  destruct (Ascii.eqb_spec c Ascii.zero) as [E|E]; [contradiction|]. f_equal. now apply IH.
Qed.
Definition four_hex (n : Z) : list Z := map (fun k => hex_digit (n / 16 ^ k mod 16)) [3; 2; 1; 0].
Lemma fmt_0X_4 n : 0 <= n <= 65535 -> fmt_0X 4 n = four_hex n.
Proof.
  intros H. unfold fmt_0X, four_hex. cbn [map]. change (16 ^ 3) with 4096. change (16 ^ 2) with 256. change (16 ^ 1) with 16. change (16 ^ 0) with 1.
  rewrite Z.div_1_r.
  assert (D2 : n / 16 / 16 = n / 256) by (rewrite Z.div_div by lia; reflexivity).
  assert (D3 : n / 16 / 16 / 16 = n / 4096) by (rewrite D2, Z.div_div by lia; reflexivity).
  assert (D4 : n / 16 / 16 / 16 / 16 = 0) by (rewrite D3, Z.div_div by lia; apply Z.div_small; lia).
  cbn [hex_digits].
  destruct (Z.eqb_spec n 0) as [->|N0]; [reflexivity|].
  destruct (Z.eqb_spec (n / 16) 0) as [E1|N1].
  { rewrite <- D2, <- D3, D2 in *. clear D2 D3 D4.
    assert (n < 16) by (apply Z.div_small_iff in E1; lia). rewrite E1 in *.
    replace (n / 256) with 0 by (symmetry; apply Z.div_small; lia). reflexivity. }
  destruct (Z.eqb_spec (n / 16 / 16) 0) as [E2|N2].
  { rewrite <- D3, <- D2, E2. reflexivity. }
  destruct (Z.eqb_spec (n / 16 / 16 / 16) 0) as [E3|N3].
  { rewrite <- D3, E3, <- D2. reflexivity. }
  rewrite D4. rewrite <- D3, <- D2. reflexivity.
Qed.
Lemma hex_digit_inj a b : 0 <= a < 16 -> 0 <= b < 16 -> hex_digit a = hex_digit b -> a = b.
Proof. intros Ha Hb. unfold hex_digit. destruct (Z.ltb_spec a 10), (Z.ltb_spec b 10); lia. Qed.
Lemma four_hex_inj a b : 0 <= a <= 65535 -> 0 <= b <= 65535 -> four_hex a = four_hex b -> a = b.
Proof.
  intros Ha Hb E. unfold four_hex in E. cbn [map] in E.
  change (16 ^ 3) with 4096 in E. change (16 ^ 2) with 256 in E. change (16 ^ 1) with 16 in E. change (16 ^ 0) with 1 in E.
  injection E as E3 E2 E1 E0.
  apply hex_digit_inj in E3, E2, E1, E0; try (apply Z.mod_pos_bound; lia).
  rewrite !Z.div_1_r in E0.
  assert (D : forall n, 0 <= n <= 65535 -> n = n mod 16 + 16 * (n / 16 mod 16) + 256 * (n / 256 mod 16) + 4096 * (n / 4096 mod 16)).
  { intros n Hn. pose proof (Z.div_mod n 16 ltac:(lia)) as X0.
    assert (D2 : n / 256 = n / 16 / 16) by (rewrite Z.div_div by lia; reflexivity).
    assert (D3 : n / 4096 = n / 16 / 16 / 16) by (rewrite !Z.div_div by lia; reflexivity).
    rewrite D2, D3. pose proof (Z.div_mod (n / 16) 16 ltac:(lia)) as X1. pose proof (Z.div_mod (n / 16 / 16) 16 ltac:(lia)) as X2.
    assert (X3 : (n / 16 / 16 / 16) mod 16 = n / 16 / 16 / 16).
    { apply Z.mod_small. rewrite <- D3. split; [apply Z.div_pos; lia|]. apply Z.div_lt_upper_bound; lia. }
    rewrite X3. lia. }
  rewrite (D a Ha), (D b Hb), E3, E2, E1, E0. reflexivity.
Qed.
Lemma rtrim_app_spaces l n : rtrim (l ++ repeat 32 n) = rtrim l.
Proof.
  induction l as [|c l IH].
  - cbn [app rtrim]. induction n as [|n IH]; [reflexivity|]. cbn [repeat rtrim]. rewrite IH. reflexivity.
  - cbn [app rtrim]. rewrite IH. reflexivity.
Qed.
Lemma rtrim_spaces l : exists n, l = rtrim l ++ repeat 32 n.
Proof.
  induction l as [|c l [n IH]]; [exists 0%nat; reflexivity|]. cbn [rtrim]. destruct (rtrim l) as [|d r] eqn:E.
  - cbn [app] in IH. destruct (Z.eqb_spec c 32) as [->|H].
    + exists (S n). cbn [app repeat]. now rewrite <- IH.
    + exists n. cbn [app]. now rewrite <- IH.
  - exists n. cbn [app]. rewrite IH at 1. reflexivity.
Qed.
Lemma pad_eq a b : (List.length a <= 28)%nat -> (List.length b <= 28)%nat ->
  fmt_left 28 a = fmt_left 28 b <-> rtrim a = rtrim b.
Proof.
  intros Ha Hb. unfold fmt_left. split.
  - intros E. apply (f_equal rtrim) in E. now rewrite !rtrim_app_spaces in E.
  - intros E. destruct (rtrim_spaces a) as [n Hn]. destruct (rtrim_spaces b) as [m Hm]. rewrite <- E in Hm. set (t := rtrim a) in *.
    assert (La : List.length a = (List.length t + n)%nat) by (rewrite Hn, app_length, repeat_length; reflexivity).
    assert (Lb : List.length b = (List.length t + m)%nat) by (rewrite Hm, app_length, repeat_length; reflexivity).
    rewrite Hn at 1. rewrite Hm at 1. rewrite <- !app_assoc, <- !repeat_app. do 2 f_equal. lia.
Qed.
Lemma basepoint_data_ok name seqn : 0 <= seqn -> 
  basepoint_data name seqn =
    (if (List.length (c_chars name) <=? 28)%nat && (seqn <=? 65535) then Ok (fmt_left 28 (c_chars name) ++ four_hex seqn) else Abort).
Proof.
  intros H0. unfold basepoint_data. destruct (Nat.leb_spec (List.length (c_chars name)) 28) as [H|H]; [|reflexivity].
  cbn [oassert obind andb]. destruct (Z.leb_spec seqn 65535) as [H1|H1]; [|reflexivity].
  cbn [oassert obind]. rewrite fmt_0X_4 by lia.
  assert (L : List.length (fmt_left 28 (c_chars name)) = 28%nat) by (unfold fmt_left; rewrite app_length, repeat_length; lia).
  assert (L4 : List.length (four_hex seqn) = 4%nat) by reflexivity.
  set (A := fmt_left 28 (c_chars name)) in *. set (B := four_hex seqn) in *.
  assert (E33 : (List.length (A ++ B ++ [0%Z]) <=? 33)%nat = true) by (rewrite !app_length, L, L4; reflexivity).
  rewrite E33, app_assoc, firstn_app, app_length, L, L4. change (32 - (28 + 4))%nat with 0%nat. rewrite firstn_O, app_nil_r.
  rewrite firstn_all2 by (rewrite app_length, L, L4; apply le_n). reflexivity.
Qed.
Lemma c_chars_byte s : Forall (fun c => 0 <= c < 256) (c_chars s).
Proof.
  induction s as [|c r IH]; cbn [c_chars]; [constructor|]. destruct (Ascii.eqb c Ascii.zero); [constructor|].
  constructor; [|exact IH]. pose proof (nat_ascii_bounded c). lia.
Qed.
