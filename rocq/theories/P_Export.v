(** Lemmas for the exporter and importer: number notations, hexadecimal digits, points. *)
From Coq Require Import ZArith List Bool Arith Ascii String Lia.
From Coq Require Import Field Ring.
From Verif Require Import Primes Field FieldQ Base M_Bits M_Groth Spec_Groth M_Export Spec_Export.
Import ListNotations.
Local Open Scope Z_scope.

(** ** characters *)
Lemma ascii_all (P : ascii -> bool) : (forallb (fun n => P (ascii_of_nat n)) (seq 0 256)) = true -> forall c, P c = true.
Proof.
  intros H c. rewrite forallb_forall in H. rewrite <- (ascii_nat_embedding c). apply H.
  apply in_seq. pose proof (nat_ascii_bounded c). lia.
Qed.
Lemma z_cases (P : Z -> bool) n : forallb P (map Z.of_nat (seq 0 n)) = true ->
  forall z, 0 <= z < Z.of_nat n -> P z = true.
Proof.
  intros H z Hz. rewrite forallb_forall in H. apply H. apply in_map_iff.
  exists (Z.to_nat z). split; [lia|]. apply in_seq. lia.
Qed.

Definition spaces : list ascii := [" "; "009"; "010"; "011"; "012"; "013"]%char.
Lemma isspace_iff c : isspace c = true <-> space c.
Proof.
  assert (H : Bool.eqb (isspace c) (existsb (Ascii.eqb c) spaces) = true).
  { revert c. apply ascii_all. vm_compute. reflexivity. }
  apply Bool.eqb_prop in H. rewrite H, existsb_exists. unfold space. fold spaces. split.
  - intros (x & I & E). apply Ascii.eqb_eq in E. now subst.
  - intros I. exists c. split; [exact I|apply Ascii.eqb_refl].
Qed.
Lemma space_digit c : isspace c = true -> digit_value c = 255.
Proof.
  intros H. assert (K : implb (isspace c) (digit_value c =? 255) = true).
  { revert c H. intros c _. revert c. apply ascii_all. vm_compute. reflexivity. }
  rewrite H in K. now apply Z.eqb_eq in K.
Qed.
Lemma digit_value_range c : 0 <= digit_value c <= 255.
Proof.
  assert (H : (0 <=? digit_value c) && (digit_value c <=? 255) = true).
  { revert c. apply ascii_all. vm_compute. reflexivity. }
  apply andb_prop in H. destruct H. lia.
Qed.
Lemma digit_spec base c n : base <= 36 -> (digit base c n <-> (digit_value c < base /\ digit_value c = n)).
Proof.
  intros Hb. split.
  - intros H. destruct H.
    + assert (E : (digit_value (ascii_of_nat (48 + Z.to_nat n)) =? n) = true).
      { revert n H H0. intros n H _. revert n H. apply (z_cases (fun n => digit_value (ascii_of_nat (48 + Z.to_nat n)) =? n) 10). vm_compute. reflexivity. }
      apply Z.eqb_eq in E. lia.
    + assert (E : ((n <? 10) || (digit_value (ascii_of_nat (55 + Z.to_nat n)) =? n)) = true).
      { apply (z_cases (fun n => (n <? 10) || (digit_value (ascii_of_nat (55 + Z.to_nat n)) =? n)) 36); [vm_compute; reflexivity|lia]. }
      apply orb_prop in E. destruct E as [E|E]; [lia|]. apply Z.eqb_eq in E. lia.
    + assert (E : ((n <? 10) || (digit_value (ascii_of_nat (87 + Z.to_nat n)) =? n)) = true).
      { apply (z_cases (fun n => (n <? 10) || (digit_value (ascii_of_nat (87 + Z.to_nat n)) =? n)) 36); [vm_compute; reflexivity|lia]. }
      apply orb_prop in E. destruct E as [E|E]; [lia|]. apply Z.eqb_eq in E. lia.
  - intros [L E].
    assert (K : let n := digit_value c in
      ((n =? 255) || ((0 <=? n) && (n <? 10) && Ascii.eqb c (ascii_of_nat (48 + Z.to_nat n)))
       || ((10 <=? n) && (n <? 36) && (Ascii.eqb c (ascii_of_nat (55 + Z.to_nat n)) || Ascii.eqb c (ascii_of_nat (87 + Z.to_nat n))))) = true).
    { revert c L E. intros c _ _. revert c. apply ascii_all. vm_compute. reflexivity. }
    cbv zeta in K. rewrite E in K. rewrite E in L.
    apply orb_prop in K. destruct K as [K|K].
    + apply orb_prop in K. destruct K as [K|K]; [lia|].
      apply andb_prop in K. destruct K as [K1 K2]. apply Ascii.eqb_eq in K2. rewrite K2. apply d_dec; lia.
    + apply andb_prop in K. destruct K as [K1 K2]. apply orb_prop in K2. destruct K2 as [K2|K2]; apply Ascii.eqb_eq in K2; rewrite K2.
      * apply d_upper; lia.
      * apply d_lower; lia.
Qed.

(** ** mpz_set_str reads exactly the numerals *)
Lemma digits_spec base : base <= 36 -> forall s v w, digits base s v w <-> mpz_digits base s v = Some w.
Proof.
  intros Hb s v w. split.
  - intros H. induction H.
    + reflexivity.
    + cbn [mpz_digits]. apply isspace_iff in H. now rewrite H.
    + cbn [mpz_digits]. pose proof (proj1 (digit_spec base c n Hb) H) as [L E].
      destruct (isspace c) eqn:Sp; [apply space_digit in Sp; lia|].
      rewrite (proj2 (Z.ltb_lt _ _) L), E. rewrite Z.mul_comm. exact IHdigits.
  - revert v. induction s as [|c s IH]; cbn [mpz_digits]; intros v H.
    + injection H as <-. constructor.
    + destruct (isspace c) eqn:Sp.
      * apply ds_space; [now apply isspace_iff|]. now apply IH.
      * destruct (Z.ltb_spec (digit_value c) base) as [L|]; [|discriminate].
        apply (ds_digit base c (digit_value c)); [now apply digit_spec|].
        apply IH. now rewrite Z.mul_comm.
Qed.
Definition mag (s2 : text) : option Z :=
  match s2 with
  | [] => None
  | c :: r =>
      if 10 <=? digit_value c then None
      else if Ascii.eqb c "0" then
        match r with
        | d :: r' =>
            if Ascii.eqb d "x" || Ascii.eqb d "X" then mpz_digits 16 r' 0
            else if Ascii.eqb d "b" || Ascii.eqb d "B" then mpz_digits 2 r' 0
            else mpz_digits 8 r 0
        | [] => Some 0
        end
      else mpz_digits 10 s2 0
  end.
Lemma mag_spec s v : magnitude s v <-> mag s = Some v.
Proof.
  split.
  - intros H. destruct H.
    + pose proof (proj1 (digit_spec 10 c n ltac:(lia)) H) as [L E]. unfold mag.
      destruct (Z.leb_spec 10 (digit_value c)); [lia|].
      destruct (Ascii.eqb_spec c "0"%char) as [->|Hc]; [change (digit_value "0") with 0 in E; lia|].
      apply digits_spec; [lia|]. apply (ds_digit 10 c n); [exact H|]. now rewrite Z.mul_0_l.
    + apply digits_spec in H; [|lia]. unfold mag. change (10 <=? digit_value "0") with false. change (Ascii.eqb "0" "0") with true. cbv iota.
      destruct s as [|d r]; [exact H|].
      destruct (Ascii.eqb d "x" || Ascii.eqb d "X") eqn:X.
      { exfalso. cbn [mpz_digits] in H. apply orb_prop in X. destruct X as [X|X]; apply Ascii.eqb_eq in X; subst d; discriminate. }
      destruct (Ascii.eqb d "b" || Ascii.eqb d "B") eqn:B.
      { exfalso. cbn [mpz_digits] in H. apply orb_prop in B. destruct B as [X0|X0]; apply Ascii.eqb_eq in X0; subst d; discriminate. }
      exact H.
    + apply digits_spec in H0; [|lia]. destruct H as [-> | ->]; exact H0.
    + apply digits_spec in H0; [|lia]. destruct H as [-> | ->]; exact H0.
  - unfold mag. destruct s as [|c r]; [discriminate|].
    destruct (Z.leb_spec 10 (digit_value c)) as [|L]; [discriminate|].
    destruct (Ascii.eqb_spec c "0"%char) as [->|Hc].
    + destruct r as [|d r']. { intros E. injection E as <-. apply m_oct. constructor. }
      destruct (Ascii.eqb d "x" || Ascii.eqb d "X") eqn:X.
      { intros H. apply m_hex; [|apply digits_spec; [lia|exact H]].
        apply orb_prop in X. destruct X as [X|X]; apply Ascii.eqb_eq in X; auto. }
      destruct (Ascii.eqb d "b" || Ascii.eqb d "B") eqn:B.
      { intros H. apply m_bin; [|apply digits_spec; [lia|exact H]].
        apply orb_prop in B. destruct B as [B|B]; apply Ascii.eqb_eq in B; auto. }
      intros H. apply m_oct. apply digits_spec; [lia|exact H].
    + cbn [mpz_digits]. destruct (isspace c) eqn:Sp; [apply space_digit in Sp; lia|].
      rewrite (proj2 (Z.ltb_lt _ _) L). intros H.
      apply (m_dec c (digit_value c)).
      * apply digit_spec; [lia|]. split; [exact L|reflexivity].
      * intros Z0. assert (K : implb (digit_value c =? 0) (Ascii.eqb c "0") = true).
        { clear. revert c. apply ascii_all. vm_compute. reflexivity. }
        rewrite Z0 in K. cbn [implb Z.eqb] in K. apply Ascii.eqb_eq in K. contradiction.
      * apply digits_spec; [lia|]. rewrite Z.mul_0_r, Z.add_0_l in H. exact H.
Qed.
Lemma mag_head s v : mag s = Some v -> exists c r, s = c :: r /\ isspace c = false /\ c <> "-"%char.
Proof.
  destruct s as [|c r]; [discriminate|]. cbn [mag]. intros H. exists c, r. split; [reflexivity|].
  destruct (Z.leb_spec 10 (digit_value c)) as [|L]; [discriminate|]. split.
  - destruct (isspace c) eqn:Sp; [apply space_digit in Sp; lia|reflexivity].
  - intros ->. change (digit_value "-") with 255 in L. lia.
Qed.
Lemma skip_space_app w s : Forall space w -> skip_space (w ++ s) = skip_space s.
Proof.
  intros H. induction H as [|c w Hc _ IH]; [reflexivity|]. cbn [app skip_space].
  apply isspace_iff in Hc. now rewrite Hc.
Qed.
Lemma skip_space_split s : exists w, Forall space w /\ s = w ++ skip_space s.
Proof.
  induction s as [|c s (w & F & E)]; [exists []; split; [constructor|reflexivity]|].
  cbn [skip_space]. destruct (isspace c) eqn:Sp.
  - exists (c :: w). split; [constructor; [now apply isspace_iff|exact F]|]. cbn [app]. now rewrite <- E.
  - exists []. split; [constructor|reflexivity].
Qed.
Lemma mpz_set_str_eq s : mpz_set_str s =
  match skip_space s with
  | c :: r => if Ascii.eqb c "-" then option_map Z.opp (mag r) else option_map (fun z => z) (mag (c :: r))
  | [] => None
  end.
Proof. unfold mpz_set_str. destruct (skip_space s) as [|c r]; [reflexivity|]. destruct (Ascii.eqb c "-"); reflexivity. Qed.
Lemma numeral_spec s z : numeral s z <-> mpz_set_str s = Some z.
Proof.
  rewrite mpz_set_str_eq. split.
  - intros (w & m & Fw & [[-> M]|[-> M]]).
    + apply mag_spec in M. destruct (mag_head _ _ M) as (c & r & -> & Sp & Nc).
      rewrite skip_space_app by exact Fw. cbn [skip_space]. rewrite Sp.
      destruct (Ascii.eqb_spec c "-"%char); [contradiction|]. rewrite M. reflexivity.
    + rewrite skip_space_app by exact Fw. cbn [skip_space]. change (isspace "-") with false. cbv iota.
      change (Ascii.eqb "-" "-") with true. cbv iota.
      apply mag_spec in M. rewrite M. cbn [option_map]. now rewrite Z.opp_involutive.
  - destruct (skip_space_split s) as (w & Fw & E). intros H. exists w.
    destruct (skip_space s) as [|c r]; [discriminate|].
    destruct (Ascii.eqb_spec c "-"%char) as [->|Nc].
    + exists r. split; [exact Fw|]. right. split; [exact E|].
      destruct (mag r) as [v|] eqn:M; [|discriminate]. cbn [option_map] in H. injection H as <-.
      rewrite Z.opp_involutive. now apply mag_spec.
    + exists (c :: r). split; [exact Fw|]. left. split; [exact E|].
      destruct (mag (c :: r)) as [v|] eqn:M; [|discriminate]. cbn [option_map] in H. injection H as <-.
      now apply mag_spec.
Qed.
Lemma before_nul_c_str s : before_nul s (c_str s).
Proof.
  induction s as [|c s [N H]]; cbn [c_str].
  - split; [intros []|now left].
  - destruct (Ascii.eqb_spec c "000"%char) as [->|Nc].
    + split; [intros []|right; exists s; reflexivity].
    + split. { intros [E|I]; [congruence|contradiction]. }
      destruct H as [E|[r E]]; [left; cbn; now f_equal|right; exists r; cbn [app]; now f_equal].
Qed.
Lemma before_nul_eq s t : before_nul s t -> t = c_str s.
Proof.
  revert s. induction t as [|c t IH]; intros s [N H].
  - destruct H as [-> | [r ->]]; reflexivity.
  - destruct s as [|d s]; [destruct H as [H|[r H]]; discriminate|].
    assert (d = c) as -> by (destruct H as [H|[r H]]; cbn [app] in H; congruence).
    cbn [c_str]. destruct (Ascii.eqb_spec c "000"%char) as [->|Nc]; [exfalso; apply N; now left|].
    f_equal. apply IH. split; [intros I; apply N; now right|].
    destruct H as [H|[r H]]; [left|right; exists r]; cbn [app] in H; congruence.
Qed.
Lemma denotes_spec m s a : parse_bigint m s = Ok a <-> exists z, denotes s z /\ a = zof m z.
Proof.
  unfold parse_bigint, denotes. split.
  - destruct (mpz_set_str (c_str s)) as [z|] eqn:M; [|discriminate].
    destruct ((0 <=? z) && (z <? 2 ^ 256)) eqn:R; [|discriminate].
    cbn [oassert obind]. intros E. injection E as <-. exists z. split; [|reflexivity].
    exists (c_str s). split; [apply before_nul_c_str|]. split; [now apply numeral_spec|].
    apply andb_prop in R. destruct R as [R1 R2]. apply Z.leb_le in R1. apply Z.ltb_lt in R2. now split.
  - intros (z & (t & B & N & R1 & R2) & ->). apply before_nul_eq in B. subst t. apply numeral_spec in N.
    rewrite N. apply Z.leb_le in R1. apply Z.ltb_lt in R2. rewrite R1, R2. reflexivity.
Qed.
Lemma denotes_fun s z z' : denotes s z -> denotes s z' -> z = z'.
Proof.
  intros (t & B & N & _) (t' & B' & N' & _). apply before_nul_eq in B, B'. subst.
  apply numeral_spec in N, N'. congruence.
Qed.

(** ** hexadecimal output *)
Lemma hex_char_ok d : 0 <= d < 16 ->
  isspace (hex_char d) = false /\ digit_value (hex_char d) = d /\ hex_char d <> "000"%char /\ plain (hex_char d).
Proof.
  intros H.
  assert (K : (let c := hex_char d in negb (isspace c) && (digit_value c =? d) && negb (Ascii.eqb c "000") &&
     (Nat.leb 32 (nat_of_ascii c) && Nat.ltb (nat_of_ascii c) 128 && negb (Ascii.eqb c quote) && negb (Ascii.eqb c "\"))) = true).
  { revert d H. apply (z_cases (fun d => let c := hex_char d in negb (isspace c) && (digit_value c =? d) && negb (Ascii.eqb c "000") &&
     (Nat.leb 32 (nat_of_ascii c) && Nat.ltb (nat_of_ascii c) 128 && negb (Ascii.eqb c quote) && negb (Ascii.eqb c "\"))) 16).
    vm_compute. reflexivity. }
  cbv zeta in K. repeat rewrite andb_true_iff in K. destruct K as (((K1 & K2) & K3) & ((K4 & K5) & K6) & K7).
  apply negb_true_iff in K1, K3, K6, K7. apply Z.eqb_eq in K2.
  apply Ascii.eqb_neq in K3, K6, K7. apply Nat.leb_le in K4. apply Nat.ltb_lt in K5.
  split; [exact K1|]. split; [exact K2|]. split; [exact K3|]. split; [lia|]. split; assumption.
Qed.
Lemma hex_digits_read f : forall n acc, 0 <= n < 16 ^ Z.of_nat f ->
  mpz_digits 16 (hex_digits f n acc) 0 = mpz_digits 16 acc n.
Proof.
  induction f as [|f IH]; intros n acc Hn.
  - change (16 ^ Z.of_nat 0) with 1 in Hn. assert (n = 0) by lia. subst. reflexivity.
  - cbn [hex_digits]. destruct (Z.eqb_spec n 0) as [->|Nz]; [reflexivity|].
    rewrite Nat2Z.inj_succ, Z.pow_succ_r in Hn by lia.
    pose proof (Z.mod_pos_bound n 16 ltac:(lia)) as Hm. pose proof (Z.div_mod n 16 ltac:(lia)) as Hd.
    rewrite IH by (split; [apply Z.div_pos; lia|apply Z.div_lt_upper_bound; lia]).
    destruct (hex_char_ok (n mod 16) Hm) as (Sp & Dv & _). cbn [mpz_digits]. rewrite Sp, Dv.
    rewrite (proj2 (Z.ltb_lt _ _)) by lia. now rewrite <- Hd.
Qed.
Lemma hex_digits_all (P : ascii -> Prop) : (forall d, 0 <= d < 16 -> P (hex_char d)) ->
  forall f n acc, Forall P acc -> Forall P (hex_digits f n acc).
Proof.
  intros HP f. induction f as [|f IH]; intros n acc Ha; cbn [hex_digits]; [exact Ha|].
  destruct (n =? 0); [exact Ha|]. apply IH. constructor; [|exact Ha]. apply HP. apply Z.mod_pos_bound. lia.
Qed.
Lemma Hex_all (P : ascii -> Prop) : (forall d, 0 <= d < 16 -> P (hex_char d)) ->
  forall x, Forall P (HexStringFromBigint x).
Proof.
  intros HP x. unfold HexStringFromBigint. destruct (x =? 0).
  - apply Forall_cons; [exact (HP 0 ltac:(lia))|apply Forall_nil].
  - apply hex_digits_all; [exact HP|constructor].
Qed.
Lemma Hex_plain x : Forall plain (HexStringFromBigint x).
Proof. apply Hex_all. intros d H. apply (hex_char_ok d H). Qed.
Lemma Hex_read x : 0 <= x < 2 ^ 256 -> mpz_digits 16 (HexStringFromBigint x) 0 = Some x.
Proof.
  intros H. unfold HexStringFromBigint. destruct (Z.eqb_spec x 0) as [->|Nz]; [reflexivity|].
  rewrite hex_digits_read; [reflexivity|]. exact H.
Qed.
Lemma c_str_id s : Forall (fun c => c <> "000"%char) s -> c_str s = s.
Proof.
  intros H. induction H as [|c s Hc _ IH]; [reflexivity|]. cbn [c_str].
  destruct (Ascii.eqb_spec c "000"%char); [contradiction|]. now rewrite IH.
Qed.
(** the text of a number in the files *)
Definition hex0x (x : Z) : text := "0"%char :: "x"%char :: HexStringFromBigint x.
Lemma hex0x_denotes x : 0 <= x < 2 ^ 256 -> denotes (hex0x x) x.
Proof.
  intros H. exists (hex0x x). split; [|split; [|exact H]].
  - split; [|now left]. intros I. assert (Fz : Forall (fun c => c <> "000"%char) (hex0x x)).
    { apply Forall_cons; [discriminate|]. apply Forall_cons; [discriminate|]. apply Hex_all. intros d Hd. apply (hex_char_ok d Hd). }
    rewrite Forall_forall in Fz. exact (Fz _ I eq_refl).
  - apply numeral_spec. rewrite mpz_set_str_eq. cbn [hex0x skip_space]. change (isspace "0") with false. cbv iota.
    change (Ascii.eqb "0" "-") with false. cbv iota. unfold mag. change (10 <=? digit_value "0") with false.
    change (Ascii.eqb "0" "0") with true. change (Ascii.eqb "x" "x" || Ascii.eqb "x" "X") with true. cbv iota.
    rewrite Hex_read by exact H. reflexivity.
Qed.
Lemma plain_0x x : Forall plain (hex0x x).
Proof.
  assert (P0 : plain "0"%char) by (split; [change (nat_of_ascii "0") with 48%nat; lia|split; discriminate]).
  assert (Px : plain "x"%char) by (split; [change (nat_of_ascii "x") with 120%nat; lia|split; discriminate]).
  apply Forall_cons; [exact P0|]. apply Forall_cons; [exact Px|]. apply Hex_plain.
Qed.
Lemma qmod_lt : q_mod < 2 ^ 256. Proof. reflexivity. Qed.
Lemma pmod_lt : p_mod < 2 ^ 256. Proof. reflexivity. Qed.
Lemma hex_fq (x : Fq) : denotes (hex0x (qval x)) (qval x).
Proof. apply hex0x_denotes. pose proof (qval_range x). pose proof qmod_lt. lia. Qed.
Lemma hex_f (x : F) : denotes (hex0x (fval x)) (fval x).
Proof. apply hex0x_denotes. pose proof (zval_range prime_p_mod x). pose proof pmod_lt. unfold fval. lia. Qed.
Lemma Qof_qval (x : Fq) : Qof (qval x) = x. Proof. apply zof_zval. Qed.

(** ** points *)
Lemma to_affine1_spec P : jZ P <> Q0 -> affine1 P (jX (to_affine1 P)) (jY (to_affine1 P)).
Proof.
  intros H. unfold to_affine1. destruct (Qeqb_spec (jZ P) Q0); [contradiction|]. cbn [jX jY].
  split; [exact H|]. split; field; exact H.
Qed.
Lemma to_affine2_spec P : jZ P <> Q20 -> affine2 P (jX (to_affine2 P)) (jY (to_affine2 P)).
Proof.
  intros H. unfold to_affine2. destruct (Q2eqb (jZ P) Q20) eqn:E; [apply Q2eqb_true in E; contradiction|]. cbn [jX jY].
  split; [exact H|]. split; field; exact H.
Qed.
Lemma affine1_one x y : affine1 (Jac x y Q1) x y.
Proof. split; [exact Q1_neq_0|]. cbn [jX jY jZ]. split; ring. Qed.
Lemma Q21_neq_0 : Q21 <> Q20. Proof. intros E. apply (f_equal c0) in E. exact (Q1_neq_0 E). Qed.
Lemma affine2_one x y : affine2 (Jac x y Q21) x y.
Proof. split; [exact Q21_neq_0|]. cbn [jX jY jZ]. split; ring. Qed.
Lemma affine1_fun P x y x' y' : affine1 P x y -> affine1 P x' y' -> x = x' /\ y = y'.
Proof.
  intros (Hz & X & Y) (_ & X' & Y'). rewrite X in X'. rewrite Y in Y'. split.
  - transitivity (x * (jZ P * jZ P) / (jZ P * jZ P))%Q; [field; exact Hz|]. rewrite X'. field. exact Hz.
  - transitivity (y * (jZ P * jZ P * jZ P) / (jZ P * jZ P * jZ P))%Q; [field; exact Hz|]. rewrite Y'. field. exact Hz.
Qed.
Lemma affine2_fun P x y x' y' : affine2 P x y -> affine2 P x' y' -> x = x' /\ y = y'.
Proof.
  intros (Hz & X & Y) (_ & X' & Y'). rewrite X in X'. rewrite Y in Y'. split.
  - transitivity (x * (jZ P * jZ P) / (jZ P * jZ P))%Q2; [field; exact Hz|]. rewrite X'. field. exact Hz.
  - transitivity (y * (jZ P * jZ P * jZ P) / (jZ P * jZ P * jZ P))%Q2; [field; exact Hz|]. rewrite Y'. field. exact Hz.
Qed.
