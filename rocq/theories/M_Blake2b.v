(** Model of /repo/src/crypto/blake2b.c.  uint64_t and bytes are integers in range, arrays are lists with
    range-checked accesses. *)
From Coq Require Import List ZArith Bool Arith.
From Verif Require Import Base M_Utils.
Import ListNotations.
Local Open Scope nat_scope.

Definition u64 (x : Z) : Z := (x mod 2 ^ 64)%Z.
Definition add64 (x y : Z) : Z := u64 (x + y).

(** /repo/src/crypto/blake2b.h:16-22 *)
Record bctx : Type := BCtx { bc_b : list Z; bc_h : list Z; bc_t0 : Z; bc_t1 : Z; bc_c : nat; bc_outlen : nat }.

(** ROTR64, /repo/src/crypto/blake2b.c:9-11 *)
Definition ROTR64 (x y : Z) : Z := Z.lxor (Z.shiftr x y) (u64 (Z.shiftl x (64 - y))).
(** B2B_GET64, /repo/src/crypto/blake2b.c:15-23 *)
Definition B2B_GET64 (b : list Z) (p : nat) : outcome Z :=
  b0 <- idx b p ;; b1 <- idx b (p + 1) ;; b2 <- idx b (p + 2) ;; b3 <- idx b (p + 3) ;;
  b4 <- idx b (p + 4) ;; b5 <- idx b (p + 5) ;; b6 <- idx b (p + 6) ;; b7 <- idx b (p + 7) ;;
  Ok (Z.lxor (Z.lxor (Z.lxor (Z.lxor (Z.lxor (Z.lxor (Z.lxor b0 (Z.shiftl b1 8)) (Z.shiftl b2 16)) (Z.shiftl b3 24))
        (Z.shiftl b4 32)) (Z.shiftl b5 40)) (Z.shiftl b6 48)) (Z.shiftl b7 56)).
(** B2B_G, /repo/src/crypto/blake2b.c:27-35 *)
Definition B2B_G (a b c d : nat) (x y : Z) (v : list Z) : outcome (list Z) :=
  va <- idx v a ;; vb <- idx v b ;; v <- wr v a (add64 (add64 va vb) x) ;;
  vd <- idx v d ;; va <- idx v a ;; v <- wr v d (ROTR64 (Z.lxor vd va) 32) ;;
  vc <- idx v c ;; vd <- idx v d ;; v <- wr v c (add64 vc vd) ;;
  vb <- idx v b ;; vc <- idx v c ;; v <- wr v b (ROTR64 (Z.lxor vb vc) 24) ;;
  va <- idx v a ;; vb <- idx v b ;; v <- wr v a (add64 (add64 va vb) y) ;;
  vd <- idx v d ;; va <- idx v a ;; v <- wr v d (ROTR64 (Z.lxor vd va) 16) ;;
  vc <- idx v c ;; vd <- idx v d ;; v <- wr v c (add64 vc vd) ;;
  vb <- idx v b ;; vc <- idx v c ;; wr v b (ROTR64 (Z.lxor vb vc) 63).

(** /repo/src/crypto/blake2b.c:39-44 *)
Definition blake2b_iv : list Z := [
  0x6A09E667F3BCC908; 0xBB67AE8584CAA73B; 0x3C6EF372FE94F82B; 0xA54FF53A5F1D36F1;
  0x510E527FADE682D1; 0x9B05688C2B3E6C1F; 0x1F83D9ABFB41BD6B; 0x5BE0CD19137E2179]%Z.
(** /repo/src/crypto/blake2b.c:50-63 *)
Definition sigma : list (list nat) := [
  [ 0; 1; 2; 3; 4; 5; 6; 7; 8; 9; 10; 11; 12; 13; 14; 15 ];
  [ 14; 10; 4; 8; 9; 15; 13; 6; 1; 12; 0; 2; 11; 7; 5; 3 ];
  [ 11; 8; 12; 0; 5; 2; 15; 13; 10; 14; 3; 6; 7; 1; 9; 4 ];
  [ 7; 9; 3; 1; 13; 12; 11; 14; 2; 6; 5; 10; 4; 0; 15; 8 ];
  [ 9; 0; 5; 7; 2; 4; 10; 15; 14; 1; 11; 12; 6; 8; 3; 13 ];
  [ 2; 12; 6; 10; 0; 11; 8; 3; 4; 13; 7; 5; 15; 14; 1; 9 ];
  [ 12; 5; 1; 15; 14; 13; 4; 10; 0; 7; 6; 3; 9; 2; 8; 11 ];
  [ 13; 11; 7; 14; 12; 1; 3; 9; 5; 0; 15; 4; 8; 6; 2; 10 ];
  [ 6; 15; 14; 9; 11; 3; 0; 8; 12; 2; 13; 7; 1; 4; 10; 5 ];
  [ 10; 2; 8; 4; 7; 6; 1; 5; 15; 11; 9; 14; 3; 12; 13; 0 ];
  [ 0; 1; 2; 3; 4; 5; 6; 7; 8; 9; 10; 11; 12; 13; 14; 15 ];
  [ 14; 10; 4; 8; 9; 15; 13; 6; 1; 12; 0; 2; 11; 7; 5; 3 ] ].

(** [m\[sigma\[i\]\[k\]\]] *)
Definition msel (m : list Z) (i k : nat) : outcome Z := row <- idx sigma i ;; s <- idx row k ;; idx m s.
Definition G_at (m : list Z) (i k a b c d : nat) (v : list Z) : outcome (list Z) :=
  x <- msel m i k ;; y <- msel m i (k + 1) ;; B2B_G a b c d x y v.
(** blake2b_compress, /repo/src/crypto/blake2b.c:48-94 *)
Definition blake2b_compress (ctx : bctx) (last : bool) : outcome bctx :=
  v <- ofor 0 8 (fun i v =>
    h <- idx (bc_h ctx) i ;; v <- wr v i h ;; iv <- idx blake2b_iv i ;; wr v (i + 8) iv) (repeat 0%Z 16) ;;
  v12 <- idx v 12 ;; v <- wr v 12 (Z.lxor v12 (bc_t0 ctx)) ;;
  v13 <- idx v 13 ;; v <- wr v 13 (Z.lxor v13 (bc_t1 ctx)) ;;
  v <- (if last then v14 <- idx v 14 ;; wr v 14 (u64 (Z.lnot v14)) else Ok v) ;;
  m <- ofor 0 16 (fun i m => x <- B2B_GET64 (bc_b ctx) (8 * i) ;; wr m i x) (repeat 0%Z 16) ;;
  v <- ofor 0 12 (fun i v =>
    v <- G_at m i 0 0 4 8 12 v ;;
    v <- G_at m i 2 1 5 9 13 v ;;
    v <- G_at m i 4 2 6 10 14 v ;;
    v <- G_at m i 6 3 7 11 15 v ;;
    v <- G_at m i 8 0 5 10 15 v ;;
    v <- G_at m i 10 1 6 11 12 v ;;
    v <- G_at m i 12 2 7 8 13 v ;;
    G_at m i 14 3 4 9 14 v) v ;;
  h <- ofor 0 8 (fun i h =>
    x <- idx h i ;; y <- idx v i ;; z <- idx v (i + 8) ;; wr h i (Z.lxor x (Z.lxor y z))) (bc_h ctx) ;;
  Ok (BCtx (bc_b ctx) h (bc_t0 ctx) (bc_t1 ctx) (bc_c ctx) (bc_outlen ctx)).

(** the counter: [t\[0\] += c; if (t\[0\] < c) t\[1\]++] *)
Definition count (ctx : bctx) : bctx :=
  let c := Z.of_nat (bc_c ctx) in
  let t0 := add64 (bc_t0 ctx) c in
  let t1 := if (t0 <? c)%Z then add64 (bc_t1 ctx) 1 else bc_t1 ctx in
  BCtx (bc_b ctx) (bc_h ctx) t0 t1 (bc_c ctx) (bc_outlen ctx).
Definition set_b (ctx : bctx) (b : list Z) (c : nat) : bctx :=
  BCtx b (bc_h ctx) (bc_t0 ctx) (bc_t1 ctx) c (bc_outlen ctx).

(** blake2b_update, /repo/src/crypto/blake2b.c:128-143 *)
Definition update_byte (ctx : bctx) (x : Z) : outcome bctx :=
  ctx <- (if bc_c ctx =? 128 then
      ctx <- blake2b_compress (count ctx) false ;;
      Ok (set_b ctx (bc_b ctx) 0)
    else Ok ctx) ;;
  b <- wr (bc_b ctx) (bc_c ctx) x ;;
  Ok (set_b ctx b (bc_c ctx + 1)).
Fixpoint blake2b_update (ctx : bctx) (inp : list Z) : outcome bctx :=
  match inp with
  | [] => Ok ctx
  | x :: inp' => ctx <- update_byte ctx x ;; blake2b_update ctx inp'
  end.

(** blake2b_init, /repo/src/crypto/blake2b.c:99-124, on a context with any contents.  [None] is the
    return value -1. *)
Definition blake2b_init (ctx : bctx) (outlen : nat) (key : list Z) : outcome (option bctx) :=
  let keylen := length key in
  if (outlen =? 0) || (64 <? outlen) || (64 <? keylen) then Ok None else
  h <- ofor 0 8 (fun i h => iv <- idx blake2b_iv i ;; wr h i iv) (bc_h ctx) ;;
  h0 <- idx h 0 ;;
  h <- wr h 0 (Z.lxor h0 (Z.lxor (Z.lxor 0x01010000 (Z.shiftl (Z.of_nat keylen) 8)) (Z.of_nat outlen))) ;;
  b <- ofor keylen (128 - keylen) (fun i b => wr b i 0%Z) (bc_b ctx) ;;
  let ctx := BCtx b h 0 0 0 outlen in
  if 0 <? keylen then
    ctx <- blake2b_update ctx key ;;
    Ok (Some (set_b ctx (bc_b ctx) 128))
  else Ok (Some ctx).

(** blake2b_final, /repo/src/crypto/blake2b.c:148-165 *)
Definition blake2b_final (ctx : bctx) : outcome (list Z) :=
  let ctx := count ctx in
  b <- ofor (bc_c ctx) (128 - bc_c ctx) (fun i b => wr b i 0%Z) (bc_b ctx) ;;
  ctx <- blake2b_compress (set_b ctx b (Nat.max (bc_c ctx) 128)) true ;;
  ofor 0 (bc_outlen ctx) (fun i out =>
    h <- idx (bc_h ctx) (i / 8) ;;
    Ok (out ++ [Z.land (Z.shiftr h (8 * Z.of_nat (Nat.land i 7))) 255])) [].

(** a sequence of blake2b_update calls *)
Fixpoint blake2b_updates (ctx : bctx) (chunks : list (list Z)) : outcome bctx :=
  match chunks with
  | [] => Ok ctx
  | ch :: r => ctx <- blake2b_update ctx ch ;; blake2b_updates ctx r
  end.
(** init, any number of updates, final *)
Definition blake2b_stream (ctx : bctx) (outlen : nat) (key : list Z) (chunks : list (list Z)) : outcome (option (list Z)) :=
  o <- blake2b_init ctx outlen key ;;
  match o with
  | None => Ok None
  | Some ctx => ctx <- blake2b_updates ctx chunks ;; out <- blake2b_final ctx ;; Ok (Some out)
  end.
(** blake2b, /repo/src/crypto/blake2b.c:169-181 *)
Definition blake2b (ctx : bctx) (outlen : nat) (key inp : list Z) : outcome (option (list Z)) :=
  blake2b_stream ctx outlen key [inp].
