(** Model of the Groth16 scheme, /repo/src/r1cs_gg_ppzksnark_zok/r1cs_gg_ppzksnark_zok.tcc.

    The libraries underneath are modelled by what they compute.
    - libff's groups and pairing are a record of operations ([pairing]); elements are identified up to
      the choice of projective coordinates; multi-exponentiations and window tables are the sums and
      multiples they compute.
    - libfqfft's evaluation domain is the list of its points and of the points of its coset
      ([domain]); its transforms are evaluation and Lagrange interpolation on those points.
    - libsnark's R1CS-to-QAP reduction (r1cs_to_qap.tcc) is written out below on top of these. *)
From Coq Require Import List ZArith Bool Arith.
From Verif Require Import Field Base R1CS M_Point.
Import ListNotations.
Local Open Scope F_scope.

(** ** groups and pairing of a libff curve; [wf1] and [wf2] are [is_well_formed] *)
Record pairing : Type := Pairing {
  G1 : Type; G2 : Type; GT : Type;
  g1_add : G1 -> G1 -> G1; g1_sub : G1 -> G1 -> G1; g1_zero : G1; g1_mul : F -> G1 -> G1; g1_wf : G1 -> bool;
  g2_add : G2 -> G2 -> G2; g2_zero : G2; g2_mul : F -> G2 -> G2; g2_wf : G2 -> bool;
  gt_mul : GT -> GT -> GT; gt_inv : GT -> GT; gt_eqb : GT -> GT -> bool;
  (* reduced pairing: final_exponentiation of miller_loop *)
  pair : G1 -> G2 -> GT
}.

(** ** libfqfft evaluation domains *)
Record domain : Type := Domain { dm_points : list F; dm_coset : list F }.
Definition dm_m (d : domain) : nat := length (dm_points d).

Definition fsum (l : list F) : F := fold_right Fadd F0 l.
Definition fprod (l : list F) : F := fold_right Fmul F1 l.
(** a product of an assignment and a vector *)
Fixpoint dot (a b : list F) : F :=
  match a, b with x :: a', y :: b' => x * y + dot a' b' | _, _ => F0 end.
(** polynomials are coefficient lists, lowest degree first *)
Fixpoint peval (p : list F) (x : F) : F := match p with [] => F0 | c :: r => c + x * peval r x end.
Fixpoint padd_ (p q : list F) : list F :=
  match p, q with [], _ => q | _, [] => p | a :: p', b :: q' => (a + b) :: padd_ p' q' end.
Definition pscale (c : F) (p : list F) : list F := map (Fmul c) p.
(** (x - s) * p *)
Definition pmul_lin (s : F) (p : list F) : list F := padd_ (pscale (- s) p) (F0 :: p).
(** the points other than the j-th *)
Definition others (pts : list F) (j : nat) : list F := firstn j pts ++ skipn (S j) pts.
(** the product of the s_j - s_k, k <> j *)
Definition lag_den (pts : list F) (j : nat) : F :=
  fprod (map (fun s => nth j pts F0 - s) (others pts j)).
(** coefficients of the j-th Lagrange polynomial *)
Definition lag_poly (pts : list F) (j : nat) : list F :=
  pscale (Finv (lag_den pts j)) (fold_right pmul_lin [F1] (others pts j)).
(** evaluate_all_lagrange_polynomials(t) *)
Definition lag_evals (pts : list F) (t : F) : list F :=
  map (fun j => fprod (map (fun s => t - s) (others pts j)) * Finv (lag_den pts j)) (seq 0 (length pts)).
(** compute_vanishing_polynomial(t) *)
Definition vanish (pts : list F) (t : F) : F := fprod (map (fun s => t - s) pts).
(** iFFT, icosetFFT: the coefficients (as many as points) of the interpolating polynomial *)
Definition interpolate (pts vals : list F) : list F :=
  fold_right padd_ (repeat F0 (length pts))
    (map (fun j => pscale (nth j vals F0) (lag_poly pts j)) (seq 0 (length pts))).

(** ** constraint systems, libsnark r1cs_constraint_system *)
Record csystem : Type := CSys { cs_inputs : nat; cs_aux : nat; cs_constraints : list constr }.
Definition cs_vars (cs : csystem) : nat := (cs_inputs cs + cs_aux cs)%nat.
(** the coefficient of variable [i] *)
Fixpoint coef (l : lc) (i : nat) : F :=
  match l with
  | LC c => if Nat.eqb i 0 then c else F0
  | V v => if Nat.eqb i v then F1 else F0
  | LAdd a b => coef a i + coef b i
  | LSub a b => coef a i - coef b i
  | LScale c a => c * coef a i
  end.
(** the indices of the variables of a linear combination are at most [n] *)
Fixpoint lc_below (n : nat) (l : lc) : bool :=
  match l with
  | LC _ => true
  | V v => Nat.leb v n
  | LAdd a b | LSub a b => lc_below n a && lc_below n b
  | LScale _ a => lc_below n a
  end.
Definition cs_below (cs : csystem) : bool :=
  forallb (fun c => lc_below (cs_vars cs) (cA c) && lc_below (cs_vars cs) (cB c) && lc_below (cs_vars cs) (cC c))
          (cs_constraints cs).
(** the assignment of all variables; index 0 is ONE *)
Definition full (z : list F) : assign := fun v => nth v (F1 :: z) F0.
(** is_satisfied; it asserts the lengths *)
Definition is_satisfied (cs : csystem) (primary aux : list F) : outcome bool :=
  _ <- oassert (Nat.eqb (length primary) (cs_inputs cs)) ;;
  _ <- oassert (Nat.eqb (length primary + length aux) (cs_vars cs)) ;;
  Ok (satb (full (primary ++ aux)) (cs_constraints cs)).

(** libsnark r1cs_constraint_system::swap_AB_if_beneficial *)
Fixpoint mentions (l : lc) (i : nat) : bool :=
  match l with
  | LC _ => Nat.eqb i 0
  | V v => Nat.eqb i v
  | LAdd a b | LSub a b => mentions a i || mentions b i
  | LScale _ a => mentions a i
  end.
Definition touched (sel : constr -> lc) (cs : csystem) : nat :=
  length (filter (fun i => existsb (fun c => mentions (sel c) i) (cs_constraints cs)) (seq 0 (S (cs_vars cs)))).
Definition swap_AB (cs : csystem) : csystem :=
  if Nat.ltb (touched cA cs) (touched cB cs)
  then CSys (cs_inputs cs) (cs_aux cs) (map (fun c => R1 (cB c) (cA c) (cC c)) (cs_constraints cs))
  else cs.

(** ** the QAP reduction, libsnark r1cs_to_qap.tcc *)
Record qap_eval : Type := QE { q_At : list F; q_Bt : list F; q_Ct : list F; q_Ht : list F; q_Zt : F }.
Fixpoint powers (n : nat) (ti t : F) : list F := match n with O => [] | S n' => ti :: powers n' (ti * t) t end.
(** r1cs_to_qap_instance_map_with_evaluation; a variable beyond the number of variables writes out of
    range *)
Definition qap_instance (d : domain) (cs : csystem) (t : F) : outcome qap_eval :=
  if negb (cs_below cs) then UB else
  let nc := length (cs_constraints cs) in
  let u := lag_evals (dm_points d) t in
  let column := fun sel i => dot u (map (fun c => coef (sel c) i) (cs_constraints cs)) in
  let vars := seq 0 (S (cs_vars cs)) in
  Ok {| q_At := map (fun i => (if Nat.leb i (cs_inputs cs) then nth (nc + i) u F0 else F0) + column cA i) vars;
        q_Bt := map (column cB) vars;
        q_Ct := map (column cC) vars;
        q_Ht := powers (S (dm_m d)) F1 t;
        q_Zt := vanish (dm_points d) t |}.
(** the values of A, B and C on the domain, r1cs_to_qap_witness_map; [full_inputs] are ONE and the
    primary input *)
Definition wit_A (cs : csystem) (z : list F) : list F :=
  map (fun c => ev (full z) (cA c)) (cs_constraints cs) ++ F1 :: firstn (cs_inputs cs) z.
Definition wit_B (cs : csystem) (z : list F) : list F := map (fun c => ev (full z) (cB c)) (cs_constraints cs).
Definition wit_C (cs : csystem) (z : list F) : list F := map (fun c => ev (full z) (cC c)) (cs_constraints cs).
(** r1cs_to_qap_witness_map with d1 = d2 = d3 = 0: the m+1 coefficients of H.  [check] is whether the
    library's assertion that the assignment satisfies the system is compiled in. *)
Definition qap_H (check : bool) (d : domain) (cs : csystem) (primary aux : list F) : outcome (list F) :=
  ok <- is_satisfied cs primary aux ;;
  _ <- oassert (negb check || ok) ;;
  let z := primary ++ aux in
  let A := interpolate (dm_points d) (wit_A cs z) in
  let B := interpolate (dm_points d) (wit_B cs z) in
  let C := interpolate (dm_points d) (wit_C cs z) in
  let H := interpolate (dm_coset d)
             (map (fun x => (peval A x * peval B x - peval C x) * Finv (vanish (dm_points d) x)) (dm_coset d)) in
  Ok (H ++ [F0]).

Section Scheme.
Variable E : pairing.

(** ** keys and proofs, r1cs_gg_ppzksnark_zok.hpp:74-110, 161-190, 300-330 *)
Record provkey : Type := PK {
  pk_alpha_g1 : G1 E; pk_beta_g1 : G1 E; pk_beta_g2 : G2 E; pk_delta_g1 : G1 E; pk_delta_g2 : G2 E;
  pk_A_query : list (G1 E); pk_B_query : list (G2 E * G1 E); pk_H_query : list (G1 E); pk_L_query : list (G1 E);
  pk_cs : csystem }.
(** [vk_gamma_ABC_g1] is an accumulation_vector: its first element and the rest *)
Record verifkey : Type := VK {
  vk_alpha_g1 : G1 E; vk_beta_g2 : G2 E; vk_gamma_g2 : G2 E; vk_delta_g2 : G2 E; vk_gamma_ABC_g1 : G1 E * list (G1 E) }.
Record gproof : Type := Proof_ { pf_A : G1 E; pf_B : G2 E; pf_C : G1 E }.

(** the secret randomness of a key generation: t, alpha, beta, gamma, delta and the two generators *)
Record toxic : Type := Toxic { tx_t : F; tx_alpha : F; tx_beta : F; tx_gamma : F; tx_delta : F; tx_g1 : G1 E; tx_g2 : G2 E }.

Definition omapM_ {A B} (f : A -> outcome B) (l : list A) : outcome (list B) :=
  fold_right (fun a acc => b <- f a ;; bs <- acc ;; Ok (b :: bs)) (Ok []) l.
(** beta*At\[i\] + alpha*Bt\[i\] + Ct\[i\] *)
Definition abc (q : qap_eval) (alpha beta : F) (i : nat) : outcome F :=
  a <- idx (q_At q) i ;; b <- idx (q_Bt q) i ;; c <- idx (q_Ct q) i ;;
  Ok (beta * a + alpha * b + c).

(** r1cs_gg_ppzksnark_zok_generator, r1cs_gg_ppzksnark_zok.tcc:220-397; B_query pairs the two groups
    (kc_batch_exp with coefficients one) *)
Definition generator (d : domain) (r1cs : csystem) (x : toxic) : outcome (provkey * verifkey) :=
  let cs := swap_AB r1cs in
  gamma_inverse <- inverse (tx_gamma x) ;;
  delta_inverse <- inverse (tx_delta x) ;;
  qap <- qap_instance d cs (tx_t x) ;;
  let alpha := tx_alpha x in let beta := tx_beta x in
  k0 <- abc qap alpha beta 0 ;;
  let gamma_ABC_0 := k0 * gamma_inverse in
  gamma_ABC <- omapM_ (fun i => k <- abc qap alpha beta i ;; Ok (k * gamma_inverse)) (seq 1 (cs_inputs cs)) ;;
  Lt <- omapM_ (fun i => k <- abc qap alpha beta (cs_inputs cs + 1 + i) ;; Ok (k * delta_inverse))
               (seq 0 (cs_vars cs - cs_inputs cs)) ;;
  let Ht := firstn (length (q_Ht qap) - 2) (q_Ht qap) in
  let e1 := fun k => g1_mul E k (tx_g1 x) in
  let e2 := fun k => g2_mul E k (tx_g2 x) in
  Ok (PK (e1 alpha) (e1 beta) (e2 beta) (e1 (tx_delta x)) (e2 (tx_delta x))
         (map e1 (q_At qap)) (map (fun b => (e2 b, e1 b)) (q_Bt qap))
         (map (fun h => e1 (q_Zt qap * delta_inverse * h)) Ht) (map e1 Lt) cs,
      VK (e1 alpha) (e2 beta) (e2 (tx_gamma x)) (e2 (tx_delta x)) (e1 gamma_ABC_0, map e1 gamma_ABC)).

(** a multi-exponentiation; libff stops at the end of the bases, and the two ranges have the same length
    in every call below *)
Fixpoint mexp1 (bases : list (G1 E)) (k : list F) : G1 E :=
  match bases, k with b :: bs, c :: cs => g1_add E (g1_mul E c b) (mexp1 bs cs) | _, _ => g1_zero E end.
Fixpoint mexp2 (bases : list (G2 E)) (k : list F) : G2 E :=
  match bases, k with b :: bs, c :: cs => g2_add E (g2_mul E c b) (mexp2 bs cs) | _, _ => g2_zero E end.
(** \[begin()+a, begin()+b) *)
Definition range {A} (l : list A) (a b : nat) : outcome (list A) :=
  if Nat.leb a b && Nat.leb b (length l) then Ok (firstn (b - a) (skipn a l)) else UB.

(** r1cs_gg_ppzksnark_zok_prover, r1cs_gg_ppzksnark_zok.tcc:399-514, without DEBUG; [r], [s] are the
    prover's randomness.  With a domain of one point the index degree()-2 wraps. *)
Definition prover (check : bool) (d : domain) (pk : provkey) (primary aux : list F) (r s : F) : outcome gproof :=
  let cs := pk_cs pk in
  H <- qap_H check d cs primary aux ;;
  let m := dm_m d in
  if Nat.ltb m 2 then UB else
  h2 <- idx H (m - 2) ;; _ <- oassert (negb (Feqb h2 F0)) ;;
  h1 <- idx H (m - 1) ;; _ <- oassert (Feqb h1 F0) ;;
  h0 <- idx H m ;; _ <- oassert (Feqb h0 F0) ;;
  let nv := cs_vars cs in
  let padded := F1 :: primary ++ aux in
  Aq <- range (pk_A_query pk) 0 (nv + 1) ;;
  za <- range padded 0 (nv + 1) ;;
  let evaluation_At := mexp1 Aq za in
  Bq <- range (pk_B_query pk) 0 (nv + 1) ;;
  let evaluation_Bt_g := mexp2 (map fst Bq) za in
  let evaluation_Bt_h := mexp1 (map snd Bq) za in
  Hq <- range (pk_H_query pk) 0 (m - 1) ;;
  hs <- range H 0 (m - 1) ;;
  let evaluation_Ht := mexp1 Hq hs in
  zl <- range padded (cs_inputs cs + 1) (nv + 1) ;;
  let evaluation_Lt := mexp1 (pk_L_query pk) zl in
  let A := g1_add E (g1_add E (pk_alpha_g1 pk) evaluation_At) (g1_mul E r (pk_delta_g1 pk)) in
  let B1 := g1_add E (g1_add E (pk_beta_g1 pk) evaluation_Bt_h) (g1_mul E s (pk_delta_g1 pk)) in
  let B2 := g2_add E (g2_add E (pk_beta_g2 pk) evaluation_Bt_g) (g2_mul E s (pk_delta_g2 pk)) in
  let C := g1_sub E (g1_add E (g1_add E (g1_add E evaluation_Ht evaluation_Lt) (g1_mul E s A)) (g1_mul E r B1))
                    (g1_mul E (r * s) (pk_delta_g1 pk)) in
  Ok (Proof_ A B2 C).

(** accumulate_chunk(begin, end, 0).first *)
Definition accumulate (acc : G1 E * list (G1 E)) (input : list F) : G1 E :=
  g1_add E (fst acc) (mexp1 (snd acc) input).
(** r1cs_gg_ppzksnark_zok.hpp:350-355 *)
Definition is_well_formed (pf : gproof) : bool :=
  g1_wf E (pf_A pf) && g2_wf E (pf_B pf) && g1_wf E (pf_C pf).

(** r1cs_gg_ppzksnark_zok_verifier_weak_IC, r1cs_gg_ppzksnark_zok.tcc:516-588 (the processed key
    caches values of the key).  final_exponentiation is multiplicative, so the product of Miller loops
    is the product of pairings. *)
Definition verifier_weak_IC (vk : verifkey) (input : list F) (pf : gproof) : outcome bool :=
  _ <- oassert (Nat.leb (length input) (length (snd (vk_gamma_ABC_g1 vk)))) ;;
  let acc := accumulate (vk_gamma_ABC_g1 vk) input in
  let result := is_well_formed pf in
  let QAP := gt_mul E (pair E (pf_A pf) (pf_B pf))
                      (gt_inv E (gt_mul E (pair E acc (vk_gamma_g2 vk)) (pair E (pf_C pf) (vk_delta_g2 vk)))) in
  Ok (if negb (gt_eqb E QAP (pair E (vk_alpha_g1 vk) (vk_beta_g2 vk))) then false else result).

(** r1cs_gg_ppzksnark_zok_verifier_strong_IC, r1cs_gg_ppzksnark_zok.tcc:602-634 *)
Definition verifier_strong_IC (vk : verifkey) (input : list F) (pf : gproof) : outcome bool :=
  if negb (Nat.eqb (length (snd (vk_gamma_ABC_g1 vk))) (length input)) then Ok false
  else verifier_weak_IC vk input pf.

(** r1cs_gg_ppzksnark_zok_affine_verifier_weak_IC, r1cs_gg_ppzksnark_zok.tcc:636-689 *)
Definition affine_verifier_weak_IC (vk : verifkey) (input : list F) (pf : gproof) : outcome bool :=
  _ <- oassert (Nat.leb (length input) (length (snd (vk_gamma_ABC_g1 vk)))) ;;
  let acc := accumulate (vk_gamma_ABC_g1 vk) input in
  let result := is_well_formed pf in
  let QAP_miller := gt_mul E (gt_mul E (pair E acc (vk_gamma_g2 vk)) (pair E (pf_C pf) (vk_delta_g2 vk)))
                             (gt_inv E (pair E (pf_A pf) (pf_B pf))) in
  let QAP := gt_inv E QAP_miller in
  Ok (if negb (gt_eqb E QAP (pair E (vk_alpha_g1 vk) (vk_beta_g2 vk))) then false else result).
End Scheme.
