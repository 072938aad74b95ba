(** Property theorems C120-C122: the Python Pedersen hash /repo/ethsnarks/pedersen.py and EdDSA
    /repo/ethsnarks/eddsa.py.
    Vocabulary: Spec_PyEddsa.v ([pad3], [hashes_to_points], [base_points_of]), Spec_Mont.v ([pedersen_sum],
    [pzmul]), Spec_Curve.v ([on_curve], [padd], [pzero]), Spec_Basepoint.v ([basepoint_text], [exact_order]),
    Spec_Sha256.v ([bits_of_bytes]), Spec_PyJubjub.v ([py_sqrt_ok]).
    [from_hash] is [Point.from_hash] with SHA-256 and any correct square root. *)
From Coq Require Import List ZArith NArith Znumtheory Bool Arith Lia String.
From Verif Require Import Primes Field Base M_Point M_Utils M_Sha256 M_Montgomery M_Eddsa M_Basepoint Spec_Utils Spec_Sha256 Spec_Curve Spec_Mont Spec_Basepoint Spec_CurveOrder Spec_Eddsa
  P_Curve P_Group P_Zmul P_Order P_CurveOrder Q_Jubjub Q_Basepoint Q_CurveOrder P_RealBases P_RealCerts Q_RealBases M_PyJubjub Spec_PyJubjub Q_PyHash M_PyEddsa Spec_PyEddsa Q_PyEddsa.
Import ListNotations.
Local Open Scope nat_scope.
Local Open Scope Z_scope.

(** ** C120: signing and verifying with the Python scheme *)
Theorem C120_python_verify_exact : forall (Msg Msg' : Type) (pre : Msg -> outcome Msg') hp B A sig msg M t,
  on_curve B -> on_curve A -> on_curve (ps_R sig) -> pre msg = Ok M -> hp (ps_R sig) A M = Ok t -> 0 <= t ->
  exists b, py_verify pre hp B A sig msg = Ok b /\ (b = true <-> pzmul (fval (ps_S sig)) B = padd (ps_R sig) (pzmul t A)).
Proof. exact verify_lemma. Qed.
Print Assumptions C120_python_verify_exact.
Theorem C120_python_sign_range : forall (Msg Msg' : Type) (pre : Msg -> outcome Msg') sd hp B msg n m, ~ (0 < n < ord_L) -> py_sign pre sd hp B msg n m = Throw.
Proof. exact sign_range_lemma. Qed.
Print Assumptions C120_python_sign_range.
Theorem C120_python_sign_verify_partial : forall (Msg Msg' : Type) (pre : Msg -> outcome Msg') sd hp B msg M n m t,
  on_curve B -> exact_order ord_L B -> (m = JUBJUB_Q \/ m = JUBJUB_E \/ m = JUBJUB_L) -> 0 < n < ord_L -> pre msg = Ok M ->
  let r := sd n M mod ord_L in hp (pzmul r B) (pzmul n B) M = Ok t -> 0 <= t ->
  exists sig, py_sign pre sd hp B msg n m = Ok (pzmul n B, sig, msg) /\ ps_R sig = pzmul r B /\
    py_verify pre hp B (pzmul n B) sig msg = Ok ((r + n * t) mod (8 * ord_L) <? p_mod).
Proof. exact sign_lemma. Qed.
Print Assumptions C120_python_sign_verify_partial.
Theorem C120_python_sign_verify_refuted : forall (Msg : Type) (msg : Msg) B, on_curve B -> exact_order ord_L B ->
  exists sig, py_sign (@Ok Msg) (fun _ _ => 1) (fun _ _ _ => Ok (p_mod - 1)) B msg 1 JUBJUB_E = Ok (pzmul 1 B, sig, msg) /\
    py_verify (@Ok Msg) (fun _ _ _ => Ok (p_mod - 1)) B (pzmul 1 B) sig msg = Ok false.
Proof. exact sign_verify_fails_lemma. Qed.
Print Assumptions C120_python_sign_verify_refuted.
Theorem C120_python_malleable : forall (Msg Msg' : Type) (pre : Msg -> outcome Msg') hp B A R S msg M t,
  on_curve B -> exact_order ord_L B -> on_curve A -> on_curve R -> pre msg = Ok M -> hp R A M = Ok t -> 0 <= t -> fval S + ord_L < p_mod ->
  Fof (fval S + ord_L) <> S /\ py_verify pre hp B A (mkps R (Fof (fval S + ord_L))) msg = py_verify pre hp B A (mkps R S) msg.
Proof. exact malleable_lemma. Qed.
Print Assumptions C120_python_malleable.
Theorem C120_python_neutral_key : forall (Msg Msg' : Type) (pre : Msg -> outcome Msg') hp B msg M r t, on_curve B -> pre msg = Ok M ->
  0 <= r < p_mod -> hp (pzmul r B) pzero M = Ok t -> 0 <= t -> py_verify pre hp B pzero (mkps (pzmul r B) (Fof r)) msg = Ok true.
Proof. exact neutral_key_lemma. Qed.
Print Assumptions C120_python_neutral_key.
(** a key of 3 with nonce 5 and challenge 7: the signature is (5B, 26) and it is accepted *)
Example C120_example : on_curve exG /\ exact_order ord_L exG /\
  exists sig, py_sign (@Ok unit) (fun _ _ => 5) (fun _ _ _ => Ok 7) exG tt 3 JUBJUB_L = Ok (pzmul 3 exG, sig, tt) /\ ps_R sig = pzmul 5 exG /\
    py_verify (@Ok unit) (fun _ _ _ => Ok 7) exG (pzmul 3 exG) sig tt = Ok true.
Proof.
  split; [exact exG_on|]. split; [exact exG_order|].
  assert (H1 : 0 < 3 < ord_L) by (split; reflexivity). assert (H2 : 0 <= 7) by discriminate.
  destruct (sign_lemma unit unit (@Ok unit) (fun _ _ => 5) (fun _ _ _ => Ok 7) exG tt tt 3 JUBJUB_L 7 exG_on exG_order (or_intror (or_intror eq_refl)) H1 eq_refl eq_refl H2) as (sig & E1 & E2 & E3).
  exists sig. split; [exact E1|]. split; [exact E2|]. rewrite E3. apply (f_equal Ok). vm_compute. reflexivity.
Qed.

(** ** C121: the Pedersen hash *)
Theorem C121_python_pedersen_bits : forall from_hash name bases bits, base_points_of from_hash name bases -> bits <> [] -> (List.length bits <= 186 * List.length bases)%nat ->
  ped_hash_bits from_hash (chars name) bits = Ok (pedersen_sum bases (pad3 bits)).
Proof. exact ped_bits_lemma. Qed.
Print Assumptions C121_python_pedersen_bits.
Theorem C121_python_pedersen_bytes : forall from_hash name bases data, base_points_of from_hash name bases -> data <> [] -> (8 * List.length data <= 186 * List.length bases)%nat ->
  ped_hash_bytes from_hash (chars name) data = Ok (pedersen_sum bases (pad3 (bits_of_bytes data))).
Proof. exact ped_bytes_lemma. Qed.
Print Assumptions C121_python_pedersen_bytes.
Theorem C121_python_same_base_points : forall s1 s2 from_hash ctx name n bases, sqrt_ok s1 -> py_sqrt_ok s2 -> hashes_to_points s2 from_hash ->
  List.length (sc_data ctx) = 16%nat -> no_nul name -> (String.length name <= 28)%nat -> 0 <= n <= 65536 ->
  make_basepoints s1 ctx name n = Ok bases -> base_points_of from_hash name bases /\ Z.of_nat (List.length bases) = n.
Proof. exact same_bases_lemma. Qed.
Print Assumptions C121_python_same_base_points.
Theorem C121_python_pedersen_injective_refuted : forall from_hash name,
  (forall bits, (List.length bits mod 3 <> 0)%nat -> ped_hash_bits from_hash name (bits ++ [false]) = ped_hash_bits from_hash name bits) /\
  ped_hash_scalars from_hash name [1; 1] = ped_hash_scalars from_hash name [9] /\
  (forall l l', ped_hash_scalars from_hash name (l ++ 0 :: l') = ped_hash_scalars from_hash name (l ++ l')).
Proof. exact ped_collision_lemma. Qed.
Print Assumptions C121_python_pedersen_injective_refuted.
(** the five base points of "EdDSA_Verify.RAM" are such base points, for a [from_hash] that exists *)
Example C121_example : exists from_hash, hashes_to_points some_sqrt from_hash /\ base_points_of from_hash "EdDSA_Verify.RAM" (bases_for ram_points 762) /\
  pad3 [true; false; true; true] = [true; false; true; true; false; false].
Proof.
  destruct sqrt_exists as [s1 H1]. set (ctx := SCtx [] 0 0 (repeat 0 16) 0 0).
  assert (HC : List.length (sc_data ctx) = 16%nat) by reflexivity. destruct fuel_exists as [n Hn].
  exists (some_from_hash some_sqrt n ctx). split; [exact (some_from_hash_ok some_sqrt n ctx some_sqrt_ok Hn HC)|]. split; [|reflexivity].
  apply (good_py s1 some_sqrt (some_from_hash some_sqrt n ctx) ctx "EdDSA_Verify.RAM" 762 (bases_for ram_points 762) H1 some_sqrt_ok (some_from_hash_ok some_sqrt n ctx some_sqrt_ok Hn HC) HC no_nul_ram); [cbn; lia|lia|].
  apply ram_good; [exact H1|exact HC|reflexivity|lia].
Qed.

(** ** C122: the Python and the C++ verifier agree *)
Theorem C122_pure_verifiers_agree : forall s1 s2 from_hash ctx A R s msg, sqrt_ok s1 -> py_sqrt_ok s2 -> hashes_to_points s2 from_hash -> List.length (sc_data ctx) = 16%nat ->
  on_curve A -> on_curve R -> (List.length msg mod 3 = 2)%nat -> (List.length msg <= 422)%nat ->
  exists a b, pure_eddsa_open (make_basepoints s1 ctx) exG A R s msg = Ok a /\ pure_verify from_hash A (mkps R s) msg = Ok b /\
    (a = true <-> b = true /\ pzmul 8 R <> pzero).
Proof. exact pure_agree_lemma. Qed.
Print Assumptions C122_pure_verifiers_agree.
Theorem C122_hashed_verifiers_agree : forall s1 s2 from_hash ctx A R s data, sqrt_ok s1 -> py_sqrt_ok s2 -> hashes_to_points s2 from_hash -> List.length (sc_data ctx) = 16%nat ->
  on_curve A -> on_curve R -> (List.length data mod 3 = 0)%nat -> (0 < List.length data <= 116)%nat ->
  exists a b, eddsa_open (make_basepoints s1 ctx) exG A R s (bits_of_bytes data) = Ok a /\ eddsa_verify from_hash A (mkps R s) data = Ok b /\
    (a = true <-> b = true /\ pzmul 8 R <> pzero).
Proof. exact hashed_agree_lemma. Qed.
Print Assumptions C122_hashed_verifiers_agree.
(** functions and contexts as required exist; the generator as key and as R, a message of two bits, one of three bytes *)
Example C122_example : exists s1 from_hash ctx, sqrt_ok s1 /\ py_sqrt_ok some_sqrt /\ hashes_to_points some_sqrt from_hash /\ List.length (sc_data ctx) = 16%nat /\
  on_curve exG /\ pzmul 8 exG <> pzero /\ (List.length [true; false] mod 3 = 2)%nat /\ (List.length [1; 2; 3] mod 3 = 0)%nat.
Proof.
  destruct sqrt_exists as [s1 H1]. set (ctx := SCtx [] 0 0 (repeat 0 16) 0 0).
  assert (HC : List.length (sc_data ctx) = 16%nat) by reflexivity. destruct fuel_exists as [n Hn].
  exists s1, (some_from_hash some_sqrt n ctx), ctx. split; [exact H1|]. split; [exact some_sqrt_ok|]. split; [exact (some_from_hash_ok some_sqrt n ctx some_sqrt_ok Hn HC)|]. split; [reflexivity|].
  split; [exact exG_on|]. split; [|split; reflexivity]. intros H. apply exG_order in H. apply Z.mod_divide in H; [|discriminate]. vm_compute in H. discriminate.
Qed.
