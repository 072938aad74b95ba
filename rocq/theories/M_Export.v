(** Model of the JSON side of the code: /repo/src/export.cpp (keys and proofs to text),
    /repo/src/import.cpp and import.hpp (text to keys and proofs), /repo/src/stubs.cpp, verify.cpp and
    verify_dll.cpp (the verification entry points).

    Libraries underneath, modelled by what they compute: libff's Jacobian points and
    to_affine_coordinates; GMP's mpz_get_str and mpz_set_str; nlohmann's json values and their accessors.
    The JSON parser itself (json::parse) is a parameter. *)
From Coq Require Import ZArith List Bool Arith Ascii String.
From Verif Require Import Primes Field FieldQ Base M_Bits M_Groth.
Import ListNotations.
Local Open Scope Z_scope.

(** std::string *)
Definition text : Type := list ascii.
Definition T (s : string) : text := list_ascii_of_string s.
Definition nl : text := ["010"%char].
Definition quote : ascii := """"%char.

(** ** libff points: Jacobian coordinates, x = X/Z^2, y = Y/Z^3 *)
Record jac (K : Type) : Type := Jac { jX : K; jY : K; jZ : K }.
Arguments Jac {K} _ _ _.
Arguments jX {K} _.
Arguments jY {K} _.
Arguments jZ {K} _.
(** G1T, G2T: /repo/src/ethsnarks.hpp:13-14 *)
Definition G1T : Type := jac Fq.
Definition G2T : Type := jac Fq2.

(** libff alt_bn128_G1::to_affine_coordinates *)
Definition to_affine1 (P : G1T) : G1T :=
  if Qeqb (jZ P) Q0 then Jac Q0 Q1 Q0
  else let Z_inv := Qinv (jZ P) in
       let Z2_inv := Qmul Z_inv Z_inv in
       let Z3_inv := Qmul Z2_inv Z_inv in
       Jac (Qmul (jX P) Z2_inv) (Qmul (jY P) Z3_inv) Q1.
(** libff alt_bn128_G2::to_affine_coordinates *)
Definition to_affine2 (P : G2T) : G2T :=
  if Q2eqb (jZ P) Q20 then Jac Q20 Q21 Q20
  else let Z_inv := Q2inv (jZ P) in
       let Z2_inv := Q2mul Z_inv Z_inv in
       let Z3_inv := Q2mul Z2_inv Z_inv in
       Jac (Q2mul (jX P) Z2_inv) (Q2mul (jY P) Z3_inv) Q21.

(** ** export.cpp *)
(** digits of mpz_get_str(nullptr, 16, _) *)
Definition hex_char (d : Z) : ascii :=
  if d <? 10 then ascii_of_nat (48 + Z.to_nat d) else ascii_of_nat (87 + Z.to_nat d).
Fixpoint hex_digits (fuel : nat) (n : Z) (acc : text) : text :=
  match fuel with
  | O => acc
  | S f => if n =? 0 then acc else hex_digits f (n / 16) (hex_char (n mod 16) :: acc)
  end.
(** HexStringFromBigint, export.cpp:15-28; a bigint has four limbs of 64 bits: at most 64 digits *)
Definition HexStringFromBigint (x : Z) : text :=
  if x =? 0 then T "0" else hex_digits 64 x [].

(** outputPointG1AffineAsHex, export.cpp:31-36 *)
Definition outputPointG1AffineAsHex (p : G1T) : text :=
  let aff := to_affine1 p in
  quote :: T "0x" ++ HexStringFromBigint (qval (jX aff)) ++
  quote :: T ", " ++ quote :: T "0x" ++ HexStringFromBigint (qval (jY aff)) ++ [quote].

(** outputPointG2AffineAsHex, export.cpp:39-51 *)
Definition outputPointG2AffineAsHex (p : G2T) : text :=
  let aff := if negb (Qeqb (c0 (jZ p)) Q0) && negb (Qeqb (c1 (jZ p)) Q0) then to_affine2 p else p in
  T "[" ++ quote :: T "0x" ++
  HexStringFromBigint (qval (c1 (jX aff))) ++ quote :: T ", " ++ quote :: T "0x" ++
  HexStringFromBigint (qval (c0 (jX aff))) ++ quote :: T "]," ++ nl ++ T " [" ++ quote :: T "0x" ++
  HexStringFromBigint (qval (c1 (jY aff))) ++ quote :: T ", " ++ quote :: T "0x" ++
  HexStringFromBigint (qval (c0 (jY aff))) ++ quote :: T "]".

(** r1cs_gg_ppzksnark_zok_proof: g_A, g_B, g_C *)
Record ProofT : Type := MkProof { g_A : G1T; g_B : G2T; g_C : G1T }.
(** r1cs_gg_ppzksnark_zok_verification_key; gamma_ABC_g1 is an accumulation_vector, first and rest (the
    sparse vector built from a dense one: indices 0, 1, 2, ...) *)
Record VerificationKeyT : Type := MkVk {
  alpha_g1 : G1T; beta_g2 : G2T; gamma_g2 : G2T; delta_g2 : G2T;
  gamma_ABC_first : G1T; gamma_ABC_rest : list G1T }.

(** the loop of proof_to_json, export.cpp:63-69, from position i on *)
Fixpoint input_list (input : list F) : text :=
  match input with
  | [] => []
  | x :: r =>
      quote :: T "0x" ++ HexStringFromBigint (fval x) ++ [quote] ++
      (match r with [] => [] | _ => T ", " end) ++ input_list r
  end.
(** proof_to_json, export.cpp:54-76 *)
Definition proof_to_json (proof : ProofT) (input : list F) : text :=
  T "{" ++ nl ++
  T " " ++ quote :: T "A" ++ quote :: T " :[" ++ outputPointG1AffineAsHex (g_A proof) ++ T "]," ++ nl ++
  T " " ++ quote :: T "B" ++ quote :: T "  :[" ++ outputPointG2AffineAsHex (g_B proof) ++ T "]," ++ nl ++
  T " " ++ quote :: T "C" ++ quote :: T "  :[" ++ outputPointG1AffineAsHex (g_C proof) ++ T "]," ++ nl ++
  T " " ++ quote :: T "input" ++ quote :: T " :" ++ T "[" ++ input_list input ++ T "]" ++ nl ++ T "}".

(** the loop of vk2json, export.cpp:92-96 (icLength is an unsigned int; fewer than 2^32 - 1 inputs) *)
Fixpoint abc_list (rest : list G1T) : text :=
  match rest with
  | [] => []
  | P :: r => T ",[" ++ outputPointG1AffineAsHex P ++ T "]" ++ abc_list r
  end.
(** vk2json, export.cpp:79-100 *)
Definition vk2json (vk : VerificationKeyT) : text :=
  T "{" ++ nl ++
  T " " ++ quote :: T "alpha" ++ quote :: T " :[" ++ outputPointG1AffineAsHex (alpha_g1 vk) ++ T "]," ++ nl ++
  T " " ++ quote :: T "beta" ++ quote :: T "  :[" ++ outputPointG2AffineAsHex (beta_g2 vk) ++ T "]," ++ nl ++
  T " " ++ quote :: T "gamma" ++ quote :: T " :[" ++ outputPointG2AffineAsHex (gamma_g2 vk) ++ T "]," ++ nl ++
  T " " ++ quote :: T "delta" ++ quote :: T " :[" ++ outputPointG2AffineAsHex (delta_g2 vk) ++ T "]," ++ nl ++
  quote :: T "gammaABC" ++ quote :: T " :[[" ++ outputPointG1AffineAsHex (gamma_ABC_first vk) ++ T "]" ++
  abc_list (gamma_ABC_rest vk) ++ T "]" ++ T "}".

(** ** import.hpp: parse_bigint *)
(** C isspace in the "C" locale *)
Definition isspace (c : ascii) : bool :=
  let n := nat_of_ascii c in Nat.eqb n 32 || (Nat.leb 9 n && Nat.leb n 13).
(** GMP's digit_value table; 255 for other characters *)
Definition digit_value (c : ascii) : Z :=
  let n := Z.of_nat (nat_of_ascii c) in
  if (48 <=? n) && (n <=? 57) then n - 48
  else if (65 <=? n) && (n <=? 90) then n - 55
  else if (97 <=? n) && (n <=? 122) then n - 87
  else 255.
(** c_str(): the characters before the first NUL *)
Fixpoint c_str (s : text) : text :=
  match s with
  | [] => []
  | c :: r => if Ascii.eqb c "000" then [] else c :: c_str r
  end.
Fixpoint skip_space (s : text) : text :=
  match s with
  | c :: r => if isspace c then skip_space r else s
  | [] => []
  end.
(** the digits; white space between them is skipped, any other character is an error *)
Fixpoint mpz_digits (base : Z) (s : text) (acc : Z) : option Z :=
  match s with
  | [] => Some acc
  | c :: r => if isspace c then mpz_digits base r acc
              else if digit_value c <? base then mpz_digits base r (base * acc + digit_value c)
              else None
  end.
(** GMP mpz_set_str(_, s, 0): skip white space; an optional '-'; at least one decimal digit must follow;
    a prefix "0x"/"0X", "0b"/"0B" or "0" selects base 16, 2 or 8 *)
Definition mpz_set_str (s : text) : option Z :=
  let s1 := skip_space s in
  let '(neg, s2) := match s1 with
                    | c :: r => if Ascii.eqb c "-" then (true, r) else (false, s1)
                    | [] => (false, s1)
                    end in
  let v := match s2 with
           | [] => None
           | c :: r =>
               if 10 <=? digit_value c then None
               else if Ascii.eqb c "0" then
                 match r with
                 | d :: r' =>
                     if Ascii.eqb d "x" || Ascii.eqb d "X" then mpz_digits 16 r' 0
                     else if Ascii.eqb d "b" || Ascii.eqb d "B" then mpz_digits 2 r' 0
                     else mpz_digits 8 r 0
                 | [] => Some 0
                 end
               else mpz_digits 10 s2 0
           end in
  option_map (fun z => if (neg : bool) then - z else z) v.
(** parse_bigint<T>, import.hpp:16-34, for the integers modulo m.  libff's bigint(mpz_t) takes four
    limbs and asserts that nothing is left (negative numbers leave -1); the field constructor reduces. *)
Definition parse_bigint (m : Z) (input : text) : outcome (zm m) :=
  match mpz_set_str (c_str input) with
  | None => Throw
  | Some value =>
      _ <- oassert ((0 <=? value) && (value <? 2 ^ 256)) ;;
      Ok (zof m value)
  end.
(** parse_Fq, parse_FieldT: import.cpp:35-42 *)
Definition parse_Fq (input : text) : outcome Fq := parse_bigint q_mod input.
Definition parse_FieldT (input : text) : outcome F := parse_bigint p_mod input.

(** ** nlohmann::json values.  Numbers are not told apart (no function here reads one).  The members of
    an object are kept in the order of the text; they are looked up by key. *)
Inductive json : Type :=
| JNull
| JBool (b : bool)
| JNum
| JStr (s : text)
| JArr (l : list json)
| JObj (l : list (text * json)).
Definition text_eqb (a b : text) : bool := if list_eq_dec ascii_dec a b then true else false.
(** size() *)
Definition jsize (t : json) : nat :=
  match t with JNull => 0 | JArr l => List.length l | JObj l => List.length l | _ => 1 end.
(** at(key) const: throws on anything but an object, and when the key is missing *)
Fixpoint jfind (l : list (text * json)) (k : text) : outcome json :=
  match l with
  | [] => Throw
  | (k', v) :: r => if text_eqb k k' then Ok v else jfind r k
  end.
Definition jkey (t : json) (k : string) : outcome json :=
  match t with JObj l => jfind l (T k) | _ => Throw end.
(** operator\[\](size_type) const: throws on anything but an array, unchecked otherwise *)
Definition jidx (t : json) (i : nat) : outcome json :=
  match t with JArr l => idx l i | _ => Throw end.
(** get<string>() *)
Definition jstring (t : json) : outcome text := match t with JStr s => Ok s | _ => Throw end.
(** the elements a range-for visits *)
Definition jitems (t : json) : list json :=
  match t with JNull => [] | JArr l => l | JObj l => map snd l | _ => [t] end.

(** ** import.cpp *)
(** create_F_list, import.cpp:50-60 *)
Definition create_F_list (t : json) : outcome (list F) :=
  omapM (fun item => s <- jstring item ;; parse_FieldT s) (jitems t).
(** create_G1, import.cpp:68-73.  (C++ leaves the order in which arguments are evaluated open; here and
    below it is left to right.) *)
Definition create_G1 (in_X in_Y : text) : outcome G1T :=
  x <- parse_Fq in_X ;; y <- parse_Fq in_Y ;; Ok (Jac x y Q1).
(** create_G2, import.cpp:83-93 *)
Definition create_G2 (in_X_c1 in_X_c0 in_Y_c1 in_Y_c0 : text) : outcome G2T :=
  x0 <- parse_Fq in_X_c0 ;; x1 <- parse_Fq in_X_c1 ;;
  y0 <- parse_Fq in_Y_c0 ;; y1 <- parse_Fq in_Y_c1 ;;
  Ok (Jac (mkq2 x0 x1) (mkq2 y0 y1) (mkq2 Q1 Q0)).
(** create_G1 of a tree, import.cpp:101-105 *)
Definition create_G1_json (t : json) : outcome G1T :=
  _ <- oassert (Nat.eqb (jsize t) 2) ;;
  a <- jidx t 0 ;; x <- jstring a ;;
  b <- jidx t 1 ;; y <- jstring b ;;
  create_G1 x y.
(** create_G1_list, import.cpp:113-125 *)
Definition create_G1_list (t : json) : outcome (list G1T) := omapM create_G1_json (jitems t).
(** create_G2 of a tree, import.cpp:134-142 *)
Definition create_G2_json (t : json) : outcome G2T :=
  _ <- oassert (Nat.eqb (jsize t) 2) ;;
  t0 <- jidx t 0 ;; _ <- oassert (Nat.eqb (jsize t0) 2) ;;
  t1 <- jidx t 1 ;; _ <- oassert (Nat.eqb (jsize t1) 2) ;;
  a <- jidx t0 0 ;; xc1 <- jstring a ;;
  b <- jidx t0 1 ;; xc0 <- jstring b ;;
  c <- jidx t1 0 ;; yc1 <- jstring c ;;
  d <- jidx t1 1 ;; yc0 <- jstring d ;;
  create_G2 xc1 xc0 yc1 yc0.
(** proof_from_json of a tree, import.cpp:153-166 *)
Definition proof_from_tree (t : json) : outcome (list F * ProofT) :=
  a <- jkey t "A" ;; A <- create_G1_json a ;;
  b <- jkey t "B" ;; B <- create_G2_json b ;;
  c <- jkey t "C" ;; C <- create_G1_json c ;;
  i <- jkey t "input" ;; input <- create_F_list i ;;
  Ok (input, MkProof A B C).
(** vk_from_json of a tree, import.cpp:187-206.  With an empty list, gamma_ABC_g1.begin() + 1 and
    gamma_ABC_g1\[0\] are undefined. *)
Definition vk_from_tree (t : json) : outcome VerificationKeyT :=
  l <- jkey t "gammaABC" ;; gamma_ABC_g1 <- create_G1_list l ;;
  a <- jkey t "alpha" ;; alpha <- create_G1_json a ;;
  b <- jkey t "beta" ;; beta <- create_G2_json b ;;
  c <- jkey t "gamma" ;; gamma <- create_G2_json c ;;
  d <- jkey t "delta" ;; delta <- create_G2_json d ;;
  match gamma_ABC_g1 with
  | [] => UB
  | first :: rest => Ok (MkVk alpha beta gamma delta first rest)
  end.

Section Parser.
(** nlohmann json::parse; throws on a syntax error *)
Variable parse : text -> outcome json.
(** import.cpp:172-175 and 209-212 *)
Definition proof_from_json (s : text) : outcome (list F * ProofT) := t <- parse s ;; proof_from_tree t.
Definition vk_from_json (s : text) : outcome VerificationKeyT := t <- parse s ;; vk_from_tree t.

Section Verify.
(** the curve and the group elements that projective coordinates stand for *)
Variable E : pairing.
Variable e1 : G1T -> G1 E.
Variable e2 : G2T -> G2 E.
(** r1cs_gg_ppzksnark_zok_verifier_strong_IC on the key, inputs and proof read from the texts *)
Definition embed_vk (vk : VerificationKeyT) : verifkey E :=
  VK E (e1 (alpha_g1 vk)) (e2 (beta_g2 vk)) (e2 (gamma_g2 vk)) (e2 (delta_g2 vk))
     (e1 (gamma_ABC_first vk), map e1 (gamma_ABC_rest vk)).
Definition embed_proof (pf : ProofT) : gproof E := Proof_ E (e1 (g_A pf)) (e2 (g_B pf)) (e1 (g_C pf)).
Definition verify_pair (vk : VerificationKeyT) (p : list F * ProofT) : outcome bool :=
  verifier_strong_IC E (embed_vk vk) (fst p) (embed_proof (snd p)).

(** stub_verify, stubs.cpp:16-33: the arguments are C strings *)
Definition stub_verify (vk_json proof_json : text) : outcome bool :=
  vk <- vk_from_json (c_str vk_json) ;;
  proof_pair <- proof_from_json (c_str proof_json) ;;
  status <- verify_pair vk proof_pair ;;
  if status then Ok true else Ok false.
(** ethsnarks_verify, verify_dll.cpp:5-8 *)
Definition ethsnarks_verify (vk_json proof_json : text) : outcome bool := stub_verify vk_json proof_json.

(** the files: None when a file cannot be opened; otherwise what rdbuf delivers *)
Variable file : text -> option text.
Variable stdin : text.
(** stub_main_verify, stubs.cpp:58-100; argv is the list of arguments, argc its length *)
Definition stub_main_verify (argv : list text) : outcome Z :=
  if Nat.ltb (List.length argv) 3 then Ok 1
  else
    vk_json_file <- idx argv 1 ;;
    proof_json_file <- idx argv 2 ;;
    match file vk_json_file with
    | None => Ok 2
    | Some vk_str =>
        match file proof_json_file with
        | None => Ok 2
        | Some proof_str =>
            b <- stub_verify vk_str proof_str ;;
            if b then Ok 0 else Ok 1
        end
    end.
(** main, verify.cpp:26-75 *)
Definition verify_main (argv : list text) : outcome Z :=
  if Nat.ltb (List.length argv) 3 then Ok 1
  else
    a1 <- idx argv 1 ;;
    a2 <- idx argv 2 ;;
    let vk_stream := if text_eqb a1 (T "-") then Some stdin else file a1 in
    match vk_stream with
    | None => Ok 2
    | Some vk_str =>
        vk <- vk_from_json vk_str ;;
        match file a2 with
        | None => Ok 3
        | Some proof_str =>
            proof_pair <- proof_from_json proof_str ;;
            status <- verify_pair vk proof_pair ;;
            if status then Ok 0 else Ok 1
        end
    end.
End Verify.
End Parser.
