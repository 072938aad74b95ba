(** Model of /repo/contracts/ETEC.sol, JubJub.sol, wNAF.sol, JubJubPublic.sol and EdDSA.sol.

    A [uint256\[4\] memory] is the record [etec] of its four words.  The code passes the output array
    as an argument, which may be one of the inputs ([etecAdd(r, w, r)]); both routines load all
    inputs before their first store, so they are modelled as functions returning the new array. *)
From Coq Require Import List ZArith Bool.
From Verif Require Import Base M_Evm.
Import ListNotations.
Local Open Scope Z_scope.

Record etec := mkE { eX : Z; eY : Z; eT : Z; eZ : Z }.
(** a fresh array in memory *)
Definition etec_new : etec := mkE 0 0 0 0.

(** /repo/contracts/JubJub.sol:13-23 *)
Definition sol_A : Z := 168700.
Definition sol_D : Z := 168696.
Definition sol_Q : Z := 21888242871839275222246405745257275088548364400416034343698204186575808495617.
(** /repo/contracts/JubJub.sol:26-32 *)
Definition sol_Gx : Z := 17777552123799933955779906779655732241715742912184938656739573121738514868268.
Definition sol_Gy : Z := 2626589144620713026669568689430873010625803728049924121243784502389097019475.

(** ** ETEC *)
(** /repo/contracts/ETEC.sol:14-19 *)
Definition etecToPoint (p : etec) (Q : Z) : Z * Z :=
  let inv_z := mod_inv (eZ p) Q in
  (mulmod (eX p) inv_z Q, mulmod (eY p) inv_z Q).
(** /repo/contracts/ETEC.sol:24-31 *)
Definition pointToEtec (X Y Q : Z) : etec := mkE X Y (mulmod X Y Q) 1.
(** /repo/contracts/ETEC.sol:33-40 *)
Definition etecNegate (p : etec) (Q : Z) : etec := mkE (wsub Q (eX p)) (eY p) (wsub Q (eT p)) (eZ p).
(** /repo/contracts/ETEC.sol:47-108 *)
Definition etecDouble (p : etec) (Q A : Z) : etec :=
  let x := eX p in
  let y := eY p in
  let z := eZ p in
  let a := mulmod x x Q in
  let b := mulmod y y Q in
  let c := mulmod (mulmod z z Q) 2 Q in
  let d := mulmod A a Q in
  let e0 := addmod x y Q in
  let e := addmod (addmod (mulmod e0 e0 Q) (wsub Q a) Q) (wsub Q b) Q in
  let g := addmod d b Q in
  let f := addmod g (wsub Q c) Q in
  let h := addmod d (wsub Q b) Q in
  mkE (mulmod e f Q) (mulmod g h Q) (mulmod e h Q) (mulmod f g Q).
(** /repo/contracts/ETEC.sol:117-181 *)
Definition etecAdd (p1 p2 : etec) (Q A D : Z) : etec :=
  let a := mulmod (eX p1) (eX p2) Q in
  let b := mulmod (eY p1) (eY p2) Q in
  let c := mulmod (mulmod D (eT p1) Q) (eT p2) Q in
  let d := mulmod (eZ p1) (eZ p2) Q in
  let e := addmod (mulmod (addmod (eX p1) (eY p1) Q) (addmod (eX p2) (eY p2) Q) Q)
                  (addmod (wsub Q a) (wsub Q b) Q) Q in
  let f := addmod d (wsub Q c) Q in
  let g := addmod d c Q in
  let h := addmod b (wsub Q (mulmod A a Q)) Q in
  mkE (mulmod e f Q) (mulmod g h Q) (mulmod e h Q) (mulmod f g Q).

(** ** JubJub *)
(** /repo/contracts/JubJub.sol:170-202 *)
Definition jj_etecDouble (p : etec) : etec := etecDouble p sol_Q sol_A.
Definition jj_etecAdd (p q : etec) : etec := etecAdd p q sol_Q sol_A sol_D.
(** [\[uint256(0), uint256(1), uint256(0), uint256(1)\]] *)
Definition etec_identity : etec := mkE 0 1 0 1.

(** JubJub.pointAdd and JubJubPublic.pointAdd, /repo/contracts/JubJub.sol:205-215 and JubJubPublic.sol:11-15 *)
Definition sol_pointAdd (self other : Z * Z) : Z * Z :=
  let self_etec := pointToEtec (fst self) (snd self) sol_Q in
  let other_etec := pointToEtec (fst other) (snd other) sol_Q in
  etecToPoint (jj_etecAdd self_etec other_etec) sol_Q.
(** /repo/contracts/JubJub.sol:218-225 *)
Definition sol_pointDouble (pt : Z * Z) : Z * Z :=
  etecToPoint (jj_etecDouble (pointToEtec (fst pt) (snd pt) sol_Q)) sol_Q.

(** JubJub.scalarMult and JubJubPublic.scalarMult, /repo/contracts/JubJub.sol:146-167 and JubJubPublic.sol:17-21 *)
Definition sm_body (s : Z * etec * etec) : outcome (Z * etec * etec) :=
  let '(value, a, p) := s in
  let a' := if negb (wand value 1 =? 0) then jj_etecAdd a p else a in
  let p' := jj_etecDouble p in
  Ok (wdiv value 2, a', p').
Definition sol_scalarMult (x y value : Z) : outcome (Z * Z) :=
  '(_, a, _) <- owhile 256 (fun '(value, _, _) => negb (value =? 0)) sm_body (value, etec_identity, pointToEtec x y sol_Q) ;;
  Ok (etecToPoint a sol_Q).

(** /repo/contracts/JubJub.sol:98-143; [int256] values are integers here, they stay between -1 and 1 *)
Definition naf_body (w : list etec) (booth_double value : Z) (s : Z * Z * etec) : outcome (Z * Z * etec) :=
  let '(a, i, r) := s in
  let naf_a := wshr i (wand booth_double a) - wshr i (wand value a) in
  let a := wdiv a 2 in
  let i := wsub i 1 in
  let naf_b := wshr i (wand booth_double a) - wshr i (wand value a) in
  let a := wdiv a 2 in
  let i := wsub i 1 in
  let '(naf_a, naf_b) := if naf_a + naf_b =? 0 then (0, naf_a) else (naf_a, naf_b) in
  let r := jj_etecDouble r in
  r <- (if negb (naf_a =? 0) then (q <- sol_idx w (1 + naf_a) ;; Ok (jj_etecAdd r q)) else Ok r) ;;
  let r := jj_etecDouble r in
  r <- (if negb (naf_b =? 0) then (q <- sol_idx w (1 + naf_b) ;; Ok (jj_etecAdd r q)) else Ok r) ;;
  Ok (a, i, r).
Definition sol_scalarMultNAF (x y value : Z) : outcome (Z * Z) :=
  let w2 := pointToEtec x y sol_Q in
  let w := [mkE (wsub sol_Q x) y (wsub sol_Q (eT w2)) 1; etec_new; w2] in
  let booth_double := wmul 2 value in
  _ <- orequire (value <? booth_double) ;;
  '(_, _, r) <- owhile 128 (fun '(a, _, _) => negb (a =? 0)) (naf_body w booth_double value) (2 ^ 255, 255, etec_identity) ;;
  Ok (etecToPoint r sol_Q).

(** wNAF.wnafSequence, /repo/contracts/wNAF.sol:17-42.  The result array is the 256 bytes of memory
    from its address on; addresses are relative to it, and memory is a function from (relative)
    addresses to bytes.  The loop runs once for each digit: 256 are enough for a word. *)
Definition bytes_mem := Z -> Z.
Definition mstore8 (m : bytes_mem) (at_ v : Z) : bytes_mem := fun i => if i =? at_ then v mod 256 else m i.
Definition wnaf_body (a b : Z) (s : Z * Z * bytes_mem) : outcome (Z * Z * bytes_mem) :=
  let '(value, out_offs, m) := s in
  let k_i := if 0 <? wmod value 2
             then wsub (wmod value a) (wmul a (if b <? wmod value a then 1 else 0)) else 0 in
  let value := if 0 <? wmod value 2 then wsub value k_i else value in
  Ok (wdiv value 2, wsub out_offs 1, mstore8 m out_offs (wadd b k_i)).
Definition wnafSequence (value width : Z) (m : bytes_mem) : outcome (Z * bytes_mem) :=
  let a := wshl width 1 in
  let b := wshr 1 a in
  '(_, out_offs, m) <- owhile 256 (fun '(value, _, _) => 0 <? value) (wnaf_body a b) (value, 255, m) ;;
  Ok (out_offs, m).

(** /repo/contracts/JubJub.sol:40-60: the entries of the window that are written, the others are
    fresh arrays *)
Definition wnafWindow5 (x y : Z) : list etec :=
  let w17 := pointToEtec x y sol_Q in
  let w18 := jj_etecDouble w17 in
  let w19 := jj_etecAdd w17 w18 in
  let w21 := jj_etecAdd w17 w19 in
  let w23 := jj_etecAdd w17 w21 in
  let w25 := jj_etecAdd w17 w23 in
  let w27 := jj_etecAdd w17 w25 in
  let w29 := jj_etecAdd w17 w27 in
  let w31 := jj_etecAdd w17 w29 in
  let neg p := etecNegate p sol_Q in
  [etec_new; neg w31; etec_new; neg w29; etec_new; neg w27; etec_new; neg w25;
   etec_new; neg w23; etec_new; neg w21; etec_new; neg w19; etec_new; neg w17;
   etec_new; w17; w18; w19; etec_new; w21; etec_new; w23;
   etec_new; w25; etec_new; w27; etec_new; w29; etec_new; w31].

(** /repo/contracts/JubJub.sol:63-95 *)
Definition naf5_body (w : list etec) (m : bytes_mem) (s : Z * Z * etec) : outcome (Z * Z * etec) :=
  let '(wnaf_offset, wnaf_offset2, r) := s in
  let wnaf_item := m wnaf_offset2 in
  let wnaf_offset2 := wadd wnaf_offset2 1 in
  let wnaf_offset := wadd wnaf_offset 1 in
  let r := jj_etecDouble r in
  r <- (if negb (wnaf_item =? 0) && negb (wnaf_item =? 8) then (q <- sol_idx w wnaf_item ;; Ok (jj_etecAdd r q)) else Ok r) ;;
  Ok (wnaf_offset, wnaf_offset2, r).
Definition sol_scalarMultNAF5 (x y value : Z) : outcome (Z * Z) :=
  let w := wnafWindow5 x y in
  '(wnaf_offset, m) <- wnafSequence value 5 (fun _ => 0) ;;
  '(_, _, r) <- owhile 256 (fun '(wnaf_offset, _, _) => wnaf_offset <=? 255) (naf5_body w m) (wnaf_offset, wnaf_offset, etec_identity) ;;
  Ok (etecToPoint r sol_Q).

(** ** EdDSA *)
Section EdDSA.
  (** the hash function sha256, a built-in of the virtual machine, from bytes to a word *)
  Variable sha256 : list Z -> Z.

  (** /repo/contracts/EdDSA.sol:11-20 *)
  Definition sol_HashToInt (data : list Z) : Z :=
    let hashed := sha256 data in
    let mask := 1809251394333065553493296640760748560207343510400633813116524750123642650623 in
    wand hashed mask.

  (** /repo/contracts/EdDSA.sol:22-40 *)
  Definition sol_eddsa_Verify (pubkey : Z * Z) (hashed_msg : Z) (R : Z * Z) (s : Z) : outcome bool :=
    lhs <- sol_scalarMult sol_Gx sol_Gy s ;;
    let t := sol_HashToInt (be_bytes 32 (fst R) ++ be_bytes 32 (snd R) ++
                            be_bytes 32 (fst pubkey) ++ be_bytes 32 (snd pubkey) ++ be_bytes 32 hashed_msg) in
    rhs <- sol_scalarMult (fst pubkey) (snd pubkey) t ;;
    Ok ((fst lhs =? fst rhs) && (snd lhs =? snd rhs)).
End EdDSA.
