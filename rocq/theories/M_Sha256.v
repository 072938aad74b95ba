(** Model of /repo/src/crypto/sha256.c and md32_common.h.  uint32_t and bytes are integers in range,
    arrays are lists with range-checked accesses, reading past the end of the input is undefined
    behaviour.  The host is little-endian without L_ENDIAN/B_ENDIAN, so that HASH_BLOCK_DATA_ORDER is
    used for whole blocks of input; [size_t] sums of a buffer length and 64 do not wrap. *)
From Coq Require Import List ZArith Bool Arith.
From Verif Require Import Base M_Utils.
Import ListNotations.
Local Open Scope nat_scope.

Definition u32 (x : Z) : Z := (x mod 2 ^ 32)%Z.
Definition add32 (x y : Z) : Z := u32 (x + y).

(** SHA256_CTX, /repo/src/crypto/sha256.h:25-31 *)
Record sctx : Type := SCtx { sc_h : list Z; sc_Nl : Z; sc_Nh : Z; sc_data : list Z; sc_num : nat; sc_md_len : nat }.

(** SHA224_Init, SHA256_Init, /repo/src/crypto/sha256.c:13-33.  The data array keeps what it held. *)
Definition SHA224_Init (c : sctx) : sctx :=
  SCtx [0xc1059ed8; 0x367cd507; 0x3070dd17; 0xf70e5939; 0xffc00b31; 0x68581511; 0x64f98fa7; 0xbefa4fa4]%Z
       0 0 (sc_data c) 0 28.
Definition SHA256_Init (c : sctx) : sctx :=
  SCtx [0x6a09e667; 0xbb67ae85; 0x3c6ef372; 0xa54ff53a; 0x510e527f; 0x9b05688c; 0x1f83d9ab; 0x5be0cd19]%Z
       0 0 (sc_data c) 0 32.

(** /repo/src/crypto/sha256.c:110-126 *)
Definition K256 : list Z := [
  0x428a2f98;0x71374491;0xb5c0fbcf;0xe9b5dba5; 0x3956c25b;0x59f111f1;0x923f82a4;0xab1c5ed5;
  0xd807aa98;0x12835b01;0x243185be;0x550c7dc3; 0x72be5d74;0x80deb1fe;0x9bdc06a7;0xc19bf174;
  0xe49b69c1;0xefbe4786;0x0fc19dc6;0x240ca1cc; 0x2de92c6f;0x4a7484aa;0x5cb0a9dc;0x76f988da;
  0x983e5152;0xa831c66d;0xb00327c8;0xbf597fc7; 0xc6e00bf3;0xd5a79147;0x06ca6351;0x14292967;
  0x27b70a85;0x2e1b2138;0x4d2c6dfc;0x53380d13; 0x650a7354;0x766a0abb;0x81c2c92e;0x92722c85;
  0xa2bfe8a1;0xa81a664b;0xc24b8b70;0xc76c51a3; 0xd192e819;0xd6990624;0xf40e3585;0x106aa070;
  0x19a4c116;0x1e376c08;0x2748774c;0x34b0bcb5; 0x391c0cb3;0x4ed8aa4a;0x5b9cca4f;0x682e6ff3;
  0x748f82ee;0x78a5636f;0x84c87814;0x8cc70208; 0x90befffa;0xa4506ceb;0xbef9a3f7;0xc67178f2]%Z.

(** ROTATE, /repo/src/crypto/md32_common.h:254; the inline-assembly variants compute the same rotation *)
Definition ROTATE (a n : Z) : Z := Z.lor (u32 (Z.shiftl a n)) (Z.shiftr (Z.land a 0xffffffff) (32 - n)).
(** /repo/src/crypto/sha256.c:133-139 *)
Definition Sigma0 (x : Z) : Z := Z.lxor (Z.lxor (ROTATE x 30) (ROTATE x 19)) (ROTATE x 10).
Definition Sigma1 (x : Z) : Z := Z.lxor (Z.lxor (ROTATE x 26) (ROTATE x 21)) (ROTATE x 7).
Definition sigma0 (x : Z) : Z := Z.lxor (Z.lxor (ROTATE x 25) (ROTATE x 14)) (Z.shiftr x 3).
Definition sigma1 (x : Z) : Z := Z.lxor (Z.lxor (ROTATE x 15) (ROTATE x 13)) (Z.shiftr x 10).
Definition Ch (x y z : Z) : Z := Z.lxor (Z.land x y) (Z.land (u32 (Z.lnot x)) z).
Definition Maj (x y z : Z) : Z := Z.lxor (Z.lxor (Z.land x y) (Z.land x z)) (Z.land y z).

(** the variable that round [i] passes as the [k]-th of a,b,c,d,e,f,g,h: the argument lists of
    /repo/src/crypto/sha256.c:170-185 and 216-223 turn by one position per round *)
Definition reg (k i : nat) : nat := (k + 7 * i) mod 8.
(** ROUND_00_15, /repo/src/crypto/sha256.c:141-144; [v] holds the variables a..h *)
Definition ROUND_00_15 (i : nat) (T1 : Z) (v : list Z) : outcome (list Z) :=
  a <- idx v (reg 0 i) ;; b <- idx v (reg 1 i) ;; c <- idx v (reg 2 i) ;; d <- idx v (reg 3 i) ;;
  e <- idx v (reg 4 i) ;; f <- idx v (reg 5 i) ;; g <- idx v (reg 6 i) ;; h <- idx v (reg 7 i) ;;
  k <- idx K256 i ;;
  let T1 := add32 T1 (add32 (add32 (add32 h (Sigma1 e)) (Ch e f g)) k) in
  let h := add32 (Sigma0 a) (Maj a b c) in
  v <- wr v (reg 3 i) (add32 d T1) ;;
  wr v (reg 7 i) (add32 h T1).
(** ROUND_16_63, /repo/src/crypto/sha256.c:146-150 *)
Definition ROUND_16_63 (i : nat) (st : list Z * list Z) : outcome (list Z * list Z) :=
  let '(X, v) := st in
  x1 <- idx X (Nat.land (i + 1) 15) ;;
  x14 <- idx X (Nat.land (i + 14) 15) ;;
  x0 <- idx X (Nat.land i 15) ;;
  x9 <- idx X (Nat.land (i + 9) 15) ;;
  let T1 := add32 x0 (add32 (add32 (sigma0 x1) (sigma1 x14)) x9) in
  X <- wr X (Nat.land i 15) T1 ;;
  v <- ROUND_00_15 i T1 v ;;
  Ok (X, v).
(** one iteration of the loop of sha256_block, /repo/src/crypto/sha256.c:152-225, from the sixteen words
    of the block.  The eight unrolled rounds of the second loop are one round per iteration. *)
Definition sha256_words (h W : list Z) : outcome (list Z) :=
  ' (X, v) <- ofor 0 16 (fun i st =>
      let '(X, v) := st in
      w <- idx W i ;;
      X <- wr X i w ;;
      v <- ROUND_00_15 i w v ;;
      Ok (X, v)) (repeat 0%Z 16, h) ;;
  ' (X, v) <- ofor 16 48 ROUND_16_63 (X, v) ;;
  ofor 0 8 (fun k h =>
    x <- idx h k ;; y <- idx v k ;; wr h k (add32 x y)) h.

(** [*((c)++)] *)
Definition rd (d : list Z) : outcome (Z * list Z) := match d with [] => UB | b :: r => Ok (b, r) end.
(** HOST_c2l, /repo/src/crypto/md32_common.h:307-311; lines 296-298 are its x86 variant *)
Definition HOST_c2l (d : list Z) : outcome (Z * list Z) :=
  ' (b0, d) <- rd d ;; ' (b1, d) <- rd d ;; ' (b2, d) <- rd d ;; ' (b3, d) <- rd d ;;
  Ok (Z.lor (Z.lor (Z.lor (Z.shiftl b0 24) (Z.shiftl b1 16)) (Z.shiftl b2 8)) b3, d).
(** HOST_p_c2l, /repo/src/crypto/md32_common.h:313-319, a switch that falls through *)
Definition p_case3 (d : list Z) (l : Z) : outcome (Z * list Z) := ' (b, d) <- rd d ;; Ok (Z.lor l b, d).
Definition p_case2 (d : list Z) (l : Z) : outcome (Z * list Z) := ' (b, d) <- rd d ;; p_case3 d (Z.lor l (Z.shiftl b 8)).
Definition p_case1 (d : list Z) (l : Z) : outcome (Z * list Z) := ' (b, d) <- rd d ;; p_case2 d (Z.lor l (Z.shiftl b 16)).
Definition HOST_p_c2l (d : list Z) (l : Z) (n : nat) : outcome (Z * list Z) :=
  match n with
  | 0 => ' (b, d) <- rd d ;; p_case1 d (Z.shiftl b 24)
  | 1 => p_case1 d l
  | 2 => p_case2 d l
  | 3 => p_case3 d l
  | _ => Ok (l, d)
  end.
(** HOST_p_c2l_p, /repo/src/crypto/md32_common.h:320-327; [len] counts down and stops the switch *)
Definition pp_case2 (d : list Z) (l : Z) : outcome Z := ' (b, d) <- rd d ;; Ok (Z.lor l (Z.shiftl b 8)).
Definition pp_case1 (d : list Z) (l : Z) (len : nat) : outcome Z :=
  ' (b, d) <- rd d ;; let l := Z.lor l (Z.shiftl b 16) in if len - 1 =? 0 then Ok l else pp_case2 d l.
Definition HOST_p_c2l_p (d : list Z) (l : Z) (sc len : nat) : outcome Z :=
  match sc with
  | 0 => ' (b, d) <- rd d ;; let l := Z.shiftl b 24 in if len - 1 =? 0 then Ok l else pp_case1 d l (len - 1)
  | 1 => pp_case1 d l len
  | 2 => pp_case2 d l
  | _ => Ok l
  end.
(** HOST_c2l_p, /repo/src/crypto/md32_common.h:329-335: reads [n] bytes backwards *)
Definition HOST_c2l_p (d : list Z) (n : nat) : outcome Z :=
  match n with
  | 3 => b2 <- idx d 2 ;; b1 <- idx d 1 ;; b0 <- idx d 0 ;;
         Ok (Z.lor (Z.lor (Z.shiftl b2 8) (Z.shiftl b1 16)) (Z.shiftl b0 24))
  | 2 => b1 <- idx d 1 ;; b0 <- idx d 0 ;; Ok (Z.lor (Z.lor 0 (Z.shiftl b1 16)) (Z.shiftl b0 24))
  | 1 => b0 <- idx d 0 ;; Ok (Z.lor 0 (Z.shiftl b0 24))
  | _ => Ok 0%Z
  end.
(** HOST_l2c, /repo/src/crypto/md32_common.h:337-341: appends four bytes to the output *)
Definition HOST_l2c (l : Z) : list Z :=
  [Z.land (Z.shiftr l 24) 255; Z.land (Z.shiftr l 16) 255; Z.land (Z.shiftr l 8) 255; Z.land l 255].

(** [for (; sw < ew; sw++) { HOST_c2l(data,l); p\[sw\]=l; }] *)
Definition copy_words (sw n : nat) (st : list Z * list Z) : outcome (list Z * list Z) :=
  ofor sw n (fun i st =>
    let '(p, d) := st in
    ' (l, d) <- HOST_c2l d ;;
    p <- wr p i l ;;
    Ok (p, d)) st.

(** sha256_block_data_order, /repo/src/crypto/sha256.c:235-236 with 152-225: the words are read from the bytes *)
Definition block_data_order (h d : list Z) (num : nat) : outcome (list Z * list Z) :=
  ofor 0 num (fun _ st =>
    let '(h, d) := st in
    ' (W, d) <- copy_words 0 16 (repeat 0%Z 16, d) ;;
    h <- sha256_words h W ;;
    Ok (h, d)) (h, d).

(** the part of HASH_UPDATE from [sw=len/HASH_CBLOCK], /repo/src/crypto/md32_common.h:451-510 *)
Definition update_rest (h data d : list Z) (num : nat) : outcome (list Z * list Z * nat) :=
  let len := length d in
  let sw := len / 64 in
  ' (h, d) <- (if 0 <? sw then block_data_order h d sw else Ok (h, d)) ;;
  let len := len - sw * 64 in
  if len =? 0 then Ok (h, data, num)
  else
    ' (p, d) <- copy_words 0 (len / 4) (data, d) ;;
    l <- HOST_c2l_p d (Nat.land len 3) ;;
    p <- wr p (len / 4) l ;;
    Ok (h, p, len).

(** HASH_UPDATE, /repo/src/crypto/md32_common.h:396-510 *)
Definition SHA256_Update (c : sctx) (d : list Z) : outcome sctx :=
  let len := length d in
  if len =? 0 then Ok c else
  let l := u32 (sc_Nl c + u32 (Z.shiftl (u32 (Z.of_nat len)) 3)) in
  let Nh := if (l <? sc_Nl c)%Z then u32 (sc_Nh c + 1) else sc_Nh c in
  let Nh := u32 (Nh + Z.shiftr (Z.of_nat len) 29) in
  let Nl := l in
  let p := sc_data c in
  let num := sc_num c in
  if negb (num =? 0) then
    let sw := num / 4 in
    let sc := Nat.land num 3 in
    if 64 <=? num + len then
      l <- idx p sw ;;
      ' (l, d) <- HOST_p_c2l d l sc ;;
      p <- wr p sw l ;;
      ' (p, d) <- copy_words (sw + 1) (16 - (sw + 1)) (p, d) ;;
      h <- sha256_words (sc_h c) p ;;
      ' (h, p, num) <- update_rest h p d 0 ;;
      Ok (SCtx h Nl Nh p num (sc_md_len c))
    else
      let num := num + len in
      if sc + len <? 4 then
        l <- idx p sw ;;
        l <- HOST_p_c2l_p d l sc len ;;
        p <- wr p sw l ;;
        Ok (SCtx (sc_h c) Nl Nh p num (sc_md_len c))
      else
        let ew := num / 4 in
        let ec := Nat.land num 3 in
        l <- (if sc =? 0 then Ok l else idx p sw) ;;
        ' (l, d) <- HOST_p_c2l d l sc ;;
        p <- wr p sw l ;;
        ' (p, d) <- copy_words (sw + 1) (ew - (sw + 1)) (p, d) ;;
        p <- (if ec =? 0 then Ok p else (l <- HOST_c2l_p d ec ;; wr p ew l)) ;;
        Ok (SCtx (sc_h c) Nl Nh p num (sc_md_len c))
  else
    ' (h, p, num) <- update_rest (sc_h c) p d num ;;
    Ok (SCtx h Nl Nh p num (sc_md_len c)).

(** [for (; i<n; i++) p\[i\]=0] *)
Definition zero_words (i n : nat) (p : list Z) : outcome (list Z) := ofor i n (fun i p => wr p i 0%Z) p.

(** HASH_MAKE_STRING, /repo/src/crypto/sha256.c:79-98, into a buffer of the returned length; [None] is the
    return value 0 of the calling function *)
Definition HASH_MAKE_STRING (h : list Z) (md_len : nat) : outcome (option (list Z)) :=
  if 32 <? md_len then Ok None else
  md <- ofor 0 (md_len / 4) (fun n md => ll <- idx h n ;; Ok (md ++ HOST_l2c ll)) [] ;;
  Ok (Some md).

(** HASH_FINAL, /repo/src/crypto/md32_common.h:533-594; the context afterwards is not used by callers *)
Definition SHA256_Final (c : sctx) : outcome (option (list Z)) :=
  let p := sc_data c in
  let i := sc_num c / 4 in
  let j := Nat.land (sc_num c) 3 in
  l <- (if j =? 0 then Ok 0%Z else idx p i) ;;
  ' (l, cp) <- HOST_p_c2l [0x80; 0; 0; 0]%Z l j ;;
  p <- wr p i l ;;
  let i := i + 1 in
  ' (h, p, i) <- (if 16 - 2 <? i then
      p <- (if i <? 16 then wr p i 0%Z else Ok p) ;;
      h <- sha256_words (sc_h c) p ;;
      Ok (h, p, 0)
    else Ok (sc_h c, p, i)) ;;
  p <- zero_words i (16 - 2 - i) p ;;
  p <- wr p (16 - 2) (sc_Nh c) ;;
  p <- wr p (16 - 1) (sc_Nl c) ;;
  h <- sha256_words h p ;;
  HASH_MAKE_STRING h (sc_md_len c).

(** a sequence of SHA256_Update calls *)
Fixpoint updates (c : sctx) (ds : list (list Z)) : outcome sctx :=
  match ds with
  | [] => Ok c
  | d :: ds' => c <- SHA256_Update c d ;; updates c ds'
  end.
(** SHA256, SHA224, /repo/src/crypto/sha256.c:35-57, with an uninitialised context *)
Definition SHA256 (c : sctx) (d : list Z) : outcome (option (list Z)) :=
  c <- SHA256_Update (SHA256_Init c) d ;; SHA256_Final c.
Definition SHA224 (c : sctx) (d : list Z) : outcome (option (list Z)) :=
  c <- SHA256_Update (SHA224_Init c) d ;; SHA256_Final c.
