(** Model of the MiMC gadgets and the one-way-function constructions.
    No proofs in this file. *)
From Coq Require Import List ZArith Bool Arith.
From Verif Require Import Field Base R1CS.
Import ListNotations.
Local Open Scope F_scope.

(** [x + k + C] as a linear combination, mimc.hpp:85 and :152 *)
Definition mimc_t (x k : var) (C : F) : lc := LAdd (LAdd (V x) (V k)) (LC C).

(** ** Rounds *)
(** One interface for the two round classes, so that the template
    [MiMC_gadget<RoundT>] is one definition. *)
Record round_ops := {
  rd : Type;
  rd_new : var -> var -> F -> bool -> nat -> rd * nat;
  rd_result : rd -> var;
  rd_constraints : rd -> list constr;
  rd_witness : rd -> assign -> assign
}.

Record e5_round := { e5_x : var; e5_k : var; e5_C : F; e5_add : bool; e5_a : var; e5_b : var; e5_c : var }.

(** /repo/src/gadgets/mimc.hpp:62-76.  Simplification: the member [C] is a reference to
    the caller's vector; the model copies the value (the caller must keep the vector alive). *)
Definition e5_new (x k : var) (C : F) (add : bool) (n : nat) : e5_round * nat :=
  ({| e5_x := x; e5_k := k; e5_C := C; e5_add := add; e5_a := n; e5_b := (n + 1)%nat; e5_c := (n + 2)%nat |},
   (n + 3)%nat).

(** /repo/src/gadgets/mimc.hpp:83-96 *)
Definition e5_constraints (r : e5_round) : list constr :=
  let t := mimc_t (e5_x r) (e5_k r) (e5_C r) in
  [ R1 t t (V (e5_a r));
    R1 (V (e5_a r)) (V (e5_a r)) (V (e5_b r));
    (if e5_add r then R1 t (V (e5_b r)) (LSub (V (e5_c r)) (V (e5_k r)))
     else R1 t (V (e5_b r)) (V (e5_c r))) ].

(** /repo/src/gadgets/mimc.hpp:98-111 *)
Definition e5_witness (r : e5_round) (s : assign) : assign :=
  let val_k := s (e5_k r) in
  let t := s (e5_x r) + val_k + e5_C r in
  let val_a := t * t in
  let s1 := upd s (e5_a r) val_a in
  let val_b := val_a * val_a in
  let s2 := upd s1 (e5_b r) val_b in
  upd s2 (e5_c r) (val_b * t + (if e5_add r then val_k else F0)).

Definition e5_ops : round_ops :=
  {| rd := e5_round; rd_new := e5_new; rd_result := e5_c; (* mimc.hpp:78-81 *)
     rd_constraints := e5_constraints; rd_witness := e5_witness |}.

Record e7_round := { e7_x : var; e7_k : var; e7_C : F; e7_add : bool;
                     e7_a : var; e7_b : var; e7_c : var; e7_d : var }.

(** /repo/src/gadgets/mimc.hpp:128-143 *)
Definition e7_new (x k : var) (C : F) (add : bool) (n : nat) : e7_round * nat :=
  ({| e7_x := x; e7_k := k; e7_C := C; e7_add := add; e7_a := n; e7_b := (n + 1)%nat; e7_c := (n + 2)%nat;
      e7_d := (n + 3)%nat |}, (n + 4)%nat).

(** /repo/src/gadgets/mimc.hpp:150-164 *)
Definition e7_constraints (r : e7_round) : list constr :=
  let t := mimc_t (e7_x r) (e7_k r) (e7_C r) in
  [ R1 t t (V (e7_a r));
    R1 (V (e7_a r)) (V (e7_a r)) (V (e7_b r));
    R1 (V (e7_a r)) (V (e7_b r)) (V (e7_c r));
    (if e7_add r then R1 t (V (e7_c r)) (LSub (V (e7_d r)) (V (e7_k r)))
     else R1 t (V (e7_c r)) (V (e7_d r))) ].

(** /repo/src/gadgets/mimc.hpp:166-182 *)
Definition e7_witness (r : e7_round) (s : assign) : assign :=
  let val_k := s (e7_k r) in
  let t := s (e7_x r) + val_k + e7_C r in
  let val_a := t * t in
  let s1 := upd s (e7_a r) val_a in
  let val_b := val_a * val_a in
  let s2 := upd s1 (e7_b r) val_b in
  let val_c := val_a * val_b in
  let s3 := upd s2 (e7_c r) val_c in
  upd s3 (e7_d r) (val_c * t + (if e7_add r then val_k else F0)).

Definition e7_ops : round_ops :=
  {| rd := e7_round; rd_new := e7_new; rd_result := e7_d; (* mimc.hpp:145-148 *)
     rd_constraints := e7_constraints; rd_witness := e7_witness |}.

(** ** MiMC_gadget *)
Section MiMC.
  Variable O : round_ops.

  Record mimc_gadget := { mm_rounds : list (rd O); mm_k : var }.

  (** /repo/src/gadgets/mimc.hpp:193-208.  [x] is the input of the next round
      ([in_x] first, then [m_rounds.back().result()]); [is_last] holds for the last index. *)
  Fixpoint mimc_setup (x k : var) (C : list F) (n : nat) : list (rd O) * nat :=
    match C with
    | [] => ([], n)
    | c :: C' =>
        let is_last := match C' with [] => true | _ => false end in
        let (r, n1) := rd_new O x k c is_last n in
        let (rs, n2) := mimc_setup (rd_result O r) k C' n1 in
        (r :: rs, n2)
    end.

  (** /repo/src/gadgets/mimc.hpp:211-222 *)
  Definition mimc_new (x k : var) (C : list F) (n : nat) : mimc_gadget * nat :=
    let (rs, n') := mimc_setup x k C n in ({| mm_rounds := rs; mm_k := k |}, n').

  (** /repo/src/gadgets/mimc.hpp:236-239 *)
  Definition mimc_result (g : mimc_gadget) : outcome var :=
    r <- back (mm_rounds g) ;; Ok (rd_result O r).

  (** /repo/src/gadgets/mimc.hpp:241-247 *)
  Definition mimc_constraints (g : mimc_gadget) : list constr :=
    flat_map (rd_constraints O) (mm_rounds g).

  (** /repo/src/gadgets/mimc.hpp:249-255 *)
  Definition mimc_witness (g : mimc_gadget) (s : assign) : assign :=
    fold_left (fun s r => rd_witness O r s) (mm_rounds g) s.

  (** ** MiyaguchiPreneel_OWF<MiMC_gadget>
      [C] stands for [static_constants()] (the constants derived with SHA3 from the seed
      "mimc"), which the cipher's four-argument constructor uses, mimc.hpp:224-234. *)
  Variable C : list F.

  Record mp_gadget := { mp_ciphers : list mimc_gadget; mp_messages : list var;
                        mp_outputs : list var; mp_IV : var }.

  (** loop of /repo/src/gadgets/onewayfunction.hpp:86-93; [keys] are IV, outputs[0], ... *)
  Fixpoint mp_ciphers_new (keys ms : list var) (n : nat) : list mimc_gadget * nat :=
    match keys, ms with
    | k :: keys', m :: ms' =>
        let (c, n1) := mimc_new m k C n in
        let (cs, n2) := mp_ciphers_new keys' ms' n1 in
        (c :: cs, n2)
    | _, _ => ([], n)
    end.

  (** /repo/src/gadgets/onewayfunction.hpp:75-94 *)
  Definition mp_new (iv : var) (ms : list var) (n : nat) : mp_gadget * nat :=
    let outs := var_array n (length ms) in
    let (cs, n') := mp_ciphers_new (iv :: outs) ms (n + length ms) in
    ({| mp_ciphers := cs; mp_messages := ms; mp_outputs := outs; mp_IV := iv |}, n').

  (** /repo/src/gadgets/onewayfunction.hpp:96-98: m_outputs\[size-1\]; with no message
      the index wraps around and the access is out of range *)
  Definition mp_result (g : mp_gadget) : outcome var :=
    match mp_outputs g with [] => UB | _ => idx (mp_outputs g) (length (mp_outputs g) - 1) end.

  (** /repo/src/gadgets/onewayfunction.hpp:100-114, over the zipped lists
      (key_i, cipher_i, message_i, output_i) *)
  Fixpoint mp_constraints_loop (k : var) (cs : list mimc_gadget) (ms outs : list var) : outcome (list constr) :=
    match cs, ms, outs with
    | c :: cs', m :: ms', o :: outs' =>
        r <- mimc_result c ;;
        rest <- mp_constraints_loop o cs' ms' outs' ;;
        Ok (mimc_constraints c ++ R1 (LAdd (LAdd (V k) (V r)) (V m)) L1 (V o) :: rest)
    | _, _, _ => Ok []
    end.
  Definition mp_constraints (g : mp_gadget) : outcome (list constr) :=
    mp_constraints_loop (mp_IV g) (mp_ciphers g) (mp_messages g) (mp_outputs g).

  (** /repo/src/gadgets/onewayfunction.hpp:116-126 *)
  Fixpoint mp_witness_loop (k : var) (cs : list mimc_gadget) (ms outs : list var) (s : assign) : outcome assign :=
    match cs, ms, outs with
    | c :: cs', m :: ms', o :: outs' =>
        let s1 := mimc_witness c s in
        r <- mimc_result c ;;
        let s2 := upd s1 o (s1 k + s1 r + s1 m) in
        mp_witness_loop o cs' ms' outs' s2
    | _, _, _ => Ok s
    end.
  Definition mp_witness (g : mp_gadget) (s : assign) : outcome assign :=
    mp_witness_loop (mp_IV g) (mp_ciphers g) (mp_messages g) (mp_outputs g) s.
End MiMC.

(** ** The native functions; a fresh protoboard has next free variable 1. *)

(** /repo/src/gadgets/mimc.hpp:357-370 *)
Definition mimc_native (C : list F) (x k : F) : outcome F :=
  let s := upd (upd (fun _ => F0) 1 x) 2 k in
  let (g, _) := mimc_new e7_ops 1 2 C 3 in
  let s' := mimc_witness e7_ops g s in
  r <- mimc_result e7_ops g ;; Ok (s' r).

(** /repo/src/gadgets/mimc.hpp:379-412 *)
Definition mimc_hash_native (C : list F) (m : list F) (k : F) : outcome F :=
  let vm := var_array 1 (length m) in
  let vk := S (length m) in
  let s := upd (upds (fun _ => F0) vm m) vk k in
  let (g, _) := mp_new e7_ops C vk vm (S (S (length m))) in
  s' <- mp_witness e7_ops g s ;;
  r <- mp_result e7_ops g ;; Ok (s' r).
