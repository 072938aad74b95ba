(** Model of PedersenHash, PedersenHashToBits and the EdDSA gadgets. *)
From Coq Require Import List ZArith Bool Arith String.
From Verif Require Import Field Base R1CS M_Bits M_Point M_Jubjub M_Montgomery.
Import ListNotations.
Local Open Scope F_scope.

(** The base points of a hash are EdwardsPoint::make_basepoints(name, n), modelled in
    M_Basepoint.v.  The gadgets below take that function as the parameter [mkb], so everything
    proved about them holds for whatever base points it returns. *)
Definition basepoint_fn := string -> Z -> outcome (list point).

(** ** PedersenHash, /repo/src/jubjub/pedersen_hash.cpp:11-24; the other members forward to
    fixed_base_mul_zcash (lines 27-48). *)
Definition pedersen_new (mkb : basepoint_fn) (name : string) (bits : list var) (n : nat) : outcome (zcmul * nat) :=
  bases <- mkb name (basepoints_required (Z.of_nat (List.length bits))) ;;
  zcash_new bases bits n.

(** ** PedersenHashToBits, /repo/src/jubjub/pedersen_hash.hpp:48-71 *)
Record phb := { phb_hash : zcmul; phb_tobits : f2b }.
(** /repo/src/jubjub/pedersen_hash.cpp:54-64 *)
Definition phb_new (mkb : basepoint_fn) (name : string) (bits : list var) (n : nat) : outcome (phb * nat) :=
  ' (h, n) <- pedersen_new mkb name bits n ;;
  ' (rx, _) <- zcash_result h ;;
  ' (tb, n) <- field2bits_new rx n ;;
  Ok ({| phb_hash := h; phb_tobits := tb |}, n).
(** /repo/src/jubjub/pedersen_hash.cpp:70-73 *)
Definition phb_result (g : phb) : list var := f2b_result (phb_tobits g).
(** /repo/src/jubjub/pedersen_hash.cpp:76-80 *)
Definition phb_constraints (g : phb) : outcome (list constr) :=
  c1 <- zcash_constraints (phb_hash g) ;;
  c2 <- f2b_constraints (phb_tobits g) ;;
  Ok (c1 ++ c2).
(** /repo/src/jubjub/pedersen_hash.cpp:83-87 *)
Definition phb_witness (g : phb) (s : assign) : outcome assign :=
  s <- zcash_witness (phb_hash g) s ;;
  f2b_witness (phb_tobits g) s.

(** a pair of variables, VariablePointT of /repo/src/jubjub/point.hpp:18-26 *)
Record vpoint := { vp_x : var; vp_y : var }.

(** ** EdDSA_HashRAM_gadget, /repo/src/jubjub/eddsa.hpp:108-131 *)
Record hram := { hr_R : f2b; hr_A : f2b; hr_hash : phb }.
(** /repo/src/jubjub/eddsa.cpp:11-35 *)
Definition hram_new (mkb : basepoint_fn) (R A : vpoint) (M : list var) (n : nat) : outcome (hram * nat) :=
  ' (r, n) <- field2bits_new (vp_x R) n ;;
  ' (a, n) <- field2bits_new (vp_x A) n ;;
  ' (h, n) <- phb_new mkb "EdDSA_Verify.RAM" (f2b_result r ++ f2b_result a ++ M) n ;;
  Ok ({| hr_R := r; hr_A := a; hr_hash := h |}, n).
(** /repo/src/jubjub/eddsa.cpp:38-43 *)
Definition hram_constraints (g : hram) : outcome (list constr) :=
  c1 <- f2b_constraints (hr_R g) ;;
  c2 <- f2b_constraints (hr_A g) ;;
  c3 <- phb_constraints (hr_hash g) ;;
  Ok (c1 ++ c2 ++ c3).
(** /repo/src/jubjub/eddsa.cpp:46-51 *)
Definition hram_witness (g : hram) (s : assign) : outcome assign :=
  s <- f2b_witness (hr_R g) s ;;
  s <- f2b_witness (hr_A g) s ;;
  phb_witness (hr_hash g) s.
(** /repo/src/jubjub/eddsa.cpp:54-57 *)
Definition hram_result (g : hram) : list var := phb_result (hr_hash g).

(** ** PureEdDSA, /repo/src/jubjub/eddsa.hpp:134-158 *)
Record pure_eddsa := { pe_valid : validator; pe_lhs : fbm; pe_hash : hram; pe_At : scalarmult; pe_rhs : padder }.
(** /repo/src/jubjub/eddsa.cpp:64-92 *)
Definition pure_eddsa_new (mkb : basepoint_fn) (base : point) (A R : vpoint) (s msg : list var) (n : nat)
  : outcome (pure_eddsa * nat) :=
  let '(v, n) := validator_new (vp_x R) (vp_y R) n in
  ' (lhs, n) <- fbm_new base s n ;;
  ' (h, n) <- hram_new mkb R A msg n ;;
  ' (At, n) <- scalarmult_new (vp_x A) (vp_y A) (hram_result h) n ;;
  ' (ax, ay) <- scalarmult_result At ;;
  let '(rhs, n) := adder_new (vp_x R) (vp_y R) ax ay n in
  Ok ({| pe_valid := v; pe_lhs := lhs; pe_hash := h; pe_At := At; pe_rhs := rhs |}, n).
(** /repo/src/jubjub/eddsa.cpp:95-111 *)
Definition pure_eddsa_constraints (g : pure_eddsa) : outcome (list constr) :=
  cl <- fbm_constraints (pe_lhs g) ;;
  ch <- hram_constraints (pe_hash g) ;;
  ' (lx, ly) <- fbm_result (pe_lhs g) ;;
  Ok (validator_constraints (pe_valid g) ++ cl ++ ch ++ scalarmult_constraints (pe_At g) ++ adder_constraints (pe_rhs g)
      ++ [R1 (V lx) L1 (V (ad_X3 (pe_rhs g))); R1 (V ly) L1 (V (ad_Y3 (pe_rhs g)))]).
(** /repo/src/jubjub/eddsa.cpp:114-121 *)
Definition pure_eddsa_witness (g : pure_eddsa) (s : assign) : outcome assign :=
  s <- validator_witness (pe_valid g) s ;;
  s <- fbm_witness (pe_lhs g) s ;;
  s <- hram_witness (pe_hash g) s ;;
  s <- scalarmult_witness (pe_At g) s ;;
  adder_witness (pe_rhs g) s.

(** ** EdDSA, /repo/src/jubjub/eddsa.hpp:161-182 *)
Record eddsa := { ed_msg : phb; ed_ver : pure_eddsa }.
(** /repo/src/jubjub/eddsa.cpp:127-141 *)
Definition eddsa_new (mkb : basepoint_fn) (base : point) (A R : vpoint) (s msg : list var) (n : nat) : outcome (eddsa * nat) :=
  ' (m, n) <- phb_new mkb "EdDSA_Verify.M" msg n ;;
  ' (v, n) <- pure_eddsa_new mkb base A R s (phb_result m) n ;;
  Ok ({| ed_msg := m; ed_ver := v |}, n).
(** /repo/src/jubjub/eddsa.cpp:144-148 *)
Definition eddsa_constraints (g : eddsa) : outcome (list constr) :=
  c1 <- phb_constraints (ed_msg g) ;;
  c2 <- pure_eddsa_constraints (ed_ver g) ;;
  Ok (c1 ++ c2).
(** /repo/src/jubjub/eddsa.cpp:151-155 *)
Definition eddsa_witness (g : eddsa) (s : assign) : outcome assign :=
  s <- phb_witness (ed_msg g) s ;;
  pure_eddsa_witness (ed_ver g) s.

(** ** eddsa_open<PureEdDSA> and eddsa_open<EdDSA>, /repo/src/jubjub/eddsa.hpp:54-84: a fresh
    protoboard with the message bits, the 254 bits of s, the points A and R, then the gadget;
    the result is pb.is_satisfied().  Variable 0 is the constant one, allocation starts at 1;
    A is evaluated before R (the C++ order of argument evaluation is unspecified; the result
    does not depend on it). [satb] is the
    protoboard's evaluation of every constraint. *)
Section Open.
Context {G : Type}.
Definition eddsa_open_with
  (new : point -> vpoint -> vpoint -> list var -> list var -> nat -> outcome (G * nat))
  (constraints : G -> outcome (list constr)) (witness : G -> assign -> outcome assign)
  (B A R : point) (s : F) (msg : list bool) : outcome bool :=
  let m := List.length msg in
  let mv := var_array 1 m in
  let s0 := upds (fun _ => F0) mv (map b2F msg) in
  let sv := var_array (1 + m) 254 in
  let s0 := upds s0 sv (map b2F (bits_of_Z 254 (fval s))) in
  let Av := {| vp_x := (255 + m)%nat; vp_y := (256 + m)%nat |} in
  let s0 := upd (upd s0 (vp_x Av) (px A)) (vp_y Av) (py A) in
  let Rv := {| vp_x := (257 + m)%nat; vp_y := (258 + m)%nat |} in
  let s0 := upd (upd s0 (vp_x Rv) (px R)) (vp_y Rv) (py R) in
  ' (g, _) <- new B Av Rv sv mv (259 + m)%nat ;;
  cs <- constraints g ;;
  s1 <- witness g s0 ;;
  Ok (satb s1 cs).
End Open.
Definition pure_eddsa_open (mkb : basepoint_fn) :=
  eddsa_open_with (pure_eddsa_new mkb) pure_eddsa_constraints pure_eddsa_witness.
Definition eddsa_open (mkb : basepoint_fn) :=
  eddsa_open_with (eddsa_new mkb) eddsa_constraints eddsa_witness.
