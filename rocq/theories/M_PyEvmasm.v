(** Model of the EVM assembler /repo/ethsnarks/evmasm.py and of the MiMC contract generator
    /repo/ethsnarks/mimc/contract.py, with the part of the EVM that the generated code uses.
    Bytes are numbers; labels are numbers instead of strings.  A raised exception is [Throw]. *)
From Coq Require Import List ZArith Bool Arith.
From Verif Require Import Base M_Evm M_SolMimc.
Import ListNotations.
Local Open Scope nat_scope.
Local Open Scope Z_scope.

(** ** The assembler *)
(** what is passed to [append]: opcodes, [PUSH] of a number, [LABEL], [JMP]/[JMPI], [PUSHLABEL] (evmasm.py:10-54, 66-75) *)
Inductive item :=
| Iop (code : Z)
| Ipush (v : Z)
| Ilabel (name : nat)
| Ijump (code : Z) (target : option nat)
| Ipushlabel (target : nat).
Definition JMP := Ijump 0x56.
Definition JMPI := Ijump 0x57.
(** evmasm.py:56-64; the range check is not modelled (only small constants are passed) *)
Definition DUP (n : Z) : item := Iop (0x80 + n).
Definition SWAP (n : Z) : item := Iop (0x8f + n).
(** [PUSH], evmasm.py:66-75: as few bytes as possible, at least one *)
Definition push_width (v : Z) : nat := if v =? 0 then 1%nat else Z.to_nat (Z.log2 v / 8 + 1).
Definition push_data (v : Z) : list Z := 0x5F + Z.of_nat (push_width v) :: be_bytes (push_width v) v.
Definition push_ok (v : Z) : bool := (0 <=? v) && (v <? 2 ^ 256 - 1).
(** [_encode_offset], evmasm.py:31-32; [bytes] raises for a number above 255 *)
Definition encode_offset (o : Z) : outcome (list Z) := if (0 <=? o) && (o <? 2 ^ 24) then Ok (be_bytes 3 o) else Throw.
(** [Codegen], evmasm.py:153-159; [cg_jumps]: target and position of the jumps to be filled in *)
Record codegen := mkcg { cg_code : list Z; cg_labels : list (nat * nat); cg_jumps : list (nat * nat) }.
Definition cg_new : codegen := mkcg [] [] [].
Definition lookup (k : nat) (l : list (nat * nat)) : option nat :=
  match find (fun kv => (fst kv =? k)%nat) l with Some kv => Some (snd kv) | None => None end.
(** [self.code[jump+1:jump+4] = ...], evmasm.py:199 *)
Definition patch (off : list Z) (code : list Z) (jump : nat) : list Z :=
  firstn (jump + 1) code ++ off ++ skipn (jump + 4) code.
(** [append] of one item, evmasm.py:177-205.  A label that no earlier jump refers to emits no code. *)
Definition append (g : codegen) (i : item) : outcome codegen :=
  match i with
  | Iop c => Ok (mkcg (cg_code g ++ [c]) (cg_labels g) (cg_jumps g))
  | Ipush v => if push_ok v then Ok (mkcg (cg_code g ++ push_data v) (cg_labels g) (cg_jumps g)) else Throw
  | Ijump c None => Ok (mkcg (cg_code g ++ [c]) (cg_labels g) (cg_jumps g))
  | Ijump c (Some t) =>
    match lookup t (cg_labels g) with
    | None => Ok (mkcg (cg_code g ++ 0x62 :: be_bytes 3 0 ++ [c]) (cg_labels g) (cg_jumps g ++ [(t, length (cg_code g))]))
    | Some o => off <- encode_offset (Z.of_nat o) ;; Ok (mkcg (cg_code g ++ 0x62 :: off ++ [c]) (cg_labels g) (cg_jumps g))
    end
  | Ipushlabel t =>
    match lookup t (cg_labels g) with
    | None => Ok (mkcg (cg_code g ++ 0x62 :: be_bytes 3 0) (cg_labels g) (cg_jumps g ++ [(t, length (cg_code g))]))
    | Some o => off <- encode_offset (Z.of_nat o) ;; Ok (mkcg (cg_code g ++ 0x62 :: off) (cg_labels g) (cg_jumps g))
    end
  | Ilabel name =>
    match lookup name (cg_labels g) with
    | Some _ => Throw
    | None =>
      let labels := (name, length (cg_code g)) :: cg_labels g in
      match filter (fun j => (fst j =? name)%nat) (cg_jumps g) with
      | [] => Ok (mkcg (cg_code g) labels (cg_jumps g))
      | js =>
        off <- encode_offset (Z.of_nat (length (cg_code g))) ;;
        Ok (mkcg (fold_left (patch off) (map snd js) (cg_code g) ++ [0x5b]) labels
                 (filter (fun j => negb (fst j =? name)%nat) (cg_jumps g)))
      end
    end
  end.
Fixpoint append_all (g : codegen) (l : list item) : outcome codegen :=
  match l with [] => Ok g | i :: l' => g <- append g i ;; append_all g l' end.
(** [createTxData], evmasm.py:161-175 *)
Definition create_tx_data (g : codegen) : outcome (list Z) :=
  match cg_jumps g with
  | [] =>
    h <- append_all cg_new [Ipush (Z.of_nat (length (cg_code g))); DUP 0; DUP 0; Iop 0x38; Iop 0x03; Ipush 0; Iop 0x39; Ipush 0; Iop 0xf3] ;;
    Ok (cg_code h ++ cg_code g)
  | _ => Throw
  end.

(** ** The MiMC contract *)
(** [_mimc_opcodes_round], mimc/contract.py:17-51 *)
Definition mimc_round (exponent : Z) : list item :=
  if exponent =? 7 then
    [DUP 3; Iop 0x08; DUP 1; DUP 0; DUP 2; DUP 0; Iop 0x09; DUP 1; DUP 1; DUP 0; Iop 0x09; Iop 0x09; Iop 0x09]
  else
    [DUP 3; Iop 0x08; DUP 1; DUP 0; DUP 2; DUP 0; Iop 0x09; DUP 0; Iop 0x09; Iop 0x09].
(** [mimc_contract_opcodes], mimc/contract.py:54-104; [selector] is the number int(tag[:8], 16), [constants] the
    round constants; the label 'start' is 0 *)
Definition mimc_contract_opcodes (q selector : Z) (constants : list Z) (exponent : Z) : list item :=
  [Ipush 0x44; Ipush 0; Ipush 0; Iop 0x37; Ipush (2 ^ 224); Ipush 0; Iop 0x51; Iop 0x04; Ipush selector; Iop 0x14; JMPI (Some 0%nat); Iop 0xfe] ++
  [Ilabel 0; Ipush q; Ipush 0x24; Iop 0x51] ++ [Ipush 0x04; Iop 0x51] ++
  flat_map (fun c_i => [DUP 2; DUP 0; DUP 0; SWAP 3; Ipush c_i; Iop 0x08] ++ mimc_round exponent) constants ++
  [Iop 0x08; Ipush 0; Iop 0x52; Ipush 0x20; Ipush 0; Iop 0xf3].
(** [mimc_contract], mimc/contract.py:134-138: the code, and the transaction that deploys it *)
Definition mimc_code (q selector : Z) (constants : list Z) (exponent : Z) : outcome codegen :=
  if (exponent =? 5) || (exponent =? 7) then append_all cg_new (mimc_contract_opcodes q selector constants exponent) else Throw.
Definition mimc_contract (q selector : Z) (constants : list Z) (exponent : Z) : outcome (list Z) :=
  g <- mimc_code q selector constants exponent ;; create_tx_data g.

(** ** The Poseidon contract, poseidon/contract.py; [t], [Fr], [P], [C], [M] are the parameters *)
(** [_add_round_key], poseidon/contract.py:14-35 *)
Definition pos_ark (t : nat) (k : Z) : list item :=
  let tz := Z.of_nat t in
  Ipush k :: flat_map (fun i => let i := Z.of_nat i in [DUP (1 + tz); DUP 1; DUP (3 + i); Iop 0x08; SWAP (2 + i); Iop 0x50]) (seq 0 t) ++ [Iop 0x50].
(** [_sigma], poseidon/contract.py:38-70 *)
Definition pos_sigma (p t : nat) : list item :=
  [DUP (Z.of_nat t); DUP (1 + Z.of_nat p); DUP 1; DUP 0; DUP 2; DUP 0; Iop 0x09; DUP 0; Iop 0x09; Iop 0x09; SWAP (1 + Z.of_nat p); Iop 0x50].
(** [_mix], poseidon/contract.py:73-132; the label 'mix' is 1 *)
Definition pos_mix (t : nat) : list item :=
  let tz := Z.of_nat t in
  Ilabel 1 ::
  flat_map (fun i => flat_map (fun j =>
    let i := Z.of_nat i in let j := Z.of_nat j in
    if j =? 0 then [DUP (i + tz); Ipush ((1 + i * tz + j) * 32); Iop 0x51; DUP (2 + i + j); Iop 0x09]
    else [DUP (1 + i + tz); Ipush ((1 + i * tz + j) * 32); Iop 0x51; DUP (3 + i + j); Iop 0x09; DUP (2 + i + tz); SWAP 2; Iop 0x08])
    (seq 0 t)) (seq 0 t) ++
  flat_map (fun i => let i := Z.of_nat i in [SWAP ((tz - i) + (tz - i - 1)); Iop 0x50]) (seq 0 t) ++
  [Ipush 0; Iop 0x51; JMP None].
(** [poseidon_contract_opcodes], poseidon/contract.py:135-244; the label 'start' is 0, 'after_mix_i' is 2 + i.
    The offsets of the inputs use the number 5, not t - 1 (line 192). *)
Definition pos_round (t Fr P i : nat) (k : Z) : list item :=
  pos_ark t k ++
  (if (i <? Fr / 2)%nat || (P + Fr / 2 <=? i)%nat then flat_map (fun j => pos_sigma j t) (seq 0 t) else pos_sigma 0 t) ++
  [Ipushlabel (2 + i); Ipush 0; Iop 0x52; JMP (Some 1%nat); Ilabel (2 + i)].
Definition poseidon_contract_opcodes (q : Z) (t Fr P : nat) (C : list Z) (M : list (list Z)) : list item :=
  [Ipush (2 ^ 224); Ipush 0; Iop 0x35; Iop 0x04; Ipush 0xc4420fb4; Iop 0x14; JMPI (Some 0%nat); Iop 0xfe; Ilabel 0] ++
  flat_map (fun j => flat_map (fun i => [Ipush (nth j (nth i M []) 0); Ipush ((1 + Z.of_nat i * Z.of_nat t + Z.of_nat j) * 32); Iop 0x52]) (seq 0 t)) (seq 0 t) ++
  [Ipush q] ++
  flat_map (fun i => [Ipush (0x44 + 0x20 * (5 - Z.of_nat i)); Iop 0x35]) (seq 0 t) ++
  flat_map (fun i => pos_round t Fr P i (nth i C 0)) (seq 0 (Fr + P)) ++
  [Ipush 0; Iop 0x52; Ipush 0x20; Ipush 0; Iop 0xf3] ++
  pos_mix t.
(** [poseidon_contract], poseidon/contract.py:247-251 *)
Definition poseidon_contract (q : Z) (t Fr P : nat) (C : list Z) (M : list (list Z)) : outcome (list Z) :=
  g <- append_all cg_new (poseidon_contract_opcodes q t Fr P C M) ;; create_tx_data g.

(** ** The EVM: the opcodes used above, with the semantics of the Ethereum yellow paper.  The program counter is
    represented by the code that follows it ([rest]).  Gas and the limit of 1024 stack words are not modelled;
    the other opcodes fail here.  The top of the stack is the head of the list. *)
Definition memory := Z -> Z.
Definition read (mem : memory) (a : Z) (n : nat) : list Z := map (fun i => mem (a + Z.of_nat i)) (seq 0 n).
(** [n] bytes of [src] from [off] on, extended by zeros, to address [dest] *)
Definition copy_to (mem : memory) (dest off n : Z) (src : list Z) : memory :=
  fun i => if (dest <=? i) && (i <? dest + n) then nth (Z.to_nat (off + (i - dest))) src 0 else mem i.
Definition push_bytes (op : Z) : nat := if (0x60 <=? op) && (op <=? 0x7f) then Z.to_nat (op - 0x5f) else 0%nat.
(** position [t] is a JUMPDEST that is not inside the data of a PUSH; [skip] bytes of data come first *)
Fixpoint is_dest (skip : nat) (l : list Z) (t : nat) : bool :=
  match l with
  | [] => false
  | op :: l' =>
    match skip, t with
    | S k, S t' => is_dest k l' t'
    | S _, O => false
    | O, O => op =? 0x5b
    | O, S t' => is_dest (push_bytes op) l' t'
    end
  end.
Definition valid_dest (code : list Z) (t : Z) : bool :=
  (0 <=? t) && (t <? Z.of_nat (length code)) && is_dest 0 code (Z.to_nat t).
Fixpoint set_nth (n : nat) (x : Z) (l : list Z) : list Z :=
  match l, n with [] , _ => [] | _ :: l', O => x :: l' | y :: l', S n' => y :: set_nth n' x l' end.
Inductive next := Go (rest stack : list Z) (mem : memory) | Halt (r : outcome (list Z)).
Definition exec (code calldata : list Z) (op : Z) (rest stack : list Z) (mem : memory) : next :=
  if (0x60 <=? op) && (op <=? 0x7f) then
    let n := Z.to_nat (op - 0x5f) in Go (skipn n rest) (be_value (firstn n (rest ++ repeat 0 n)) :: stack) mem
  else if (0x80 <=? op) && (op <=? 0x8f) then
    match nth_error stack (Z.to_nat (op - 0x80)) with Some v => Go rest (v :: stack) mem | None => Halt Throw end
  else if (0x90 <=? op) && (op <=? 0x9f) then
    match stack with
    | x :: st => match nth_error st (Z.to_nat (op - 0x90)) with Some y => Go rest (y :: set_nth (Z.to_nat (op - 0x90)) x st) mem | None => Halt Throw end
    | [] => Halt Throw
    end
  else if op =? 0x00 then Halt (Ok [])
  else if op =? 0x03 then match stack with a :: b :: st => Go rest ((a - b) mod 2 ^ 256 :: st) mem | _ => Halt Throw end
  else if op =? 0x04 then match stack with a :: b :: st => Go rest ((if b =? 0 then 0 else a / b) :: st) mem | _ => Halt Throw end
  else if op =? 0x08 then match stack with a :: b :: n :: st => Go rest ((if n =? 0 then 0 else (a + b) mod n) :: st) mem | _ => Halt Throw end
  else if op =? 0x09 then match stack with a :: b :: n :: st => Go rest ((if n =? 0 then 0 else (a * b) mod n) :: st) mem | _ => Halt Throw end
  else if op =? 0x14 then match stack with a :: b :: st => Go rest ((if a =? b then 1 else 0) :: st) mem | _ => Halt Throw end
  else if op =? 0x35 then match stack with o :: st => Go rest (be_value (read (copy_to (fun _ => 0) 0 o 32 calldata) 0 32) :: st) mem | _ => Halt Throw end
  else if op =? 0x37 then match stack with d :: o :: n :: st => Go rest st (copy_to mem d o n calldata) | _ => Halt Throw end
  else if op =? 0x38 then Go rest (Z.of_nat (length code) :: stack) mem
  else if op =? 0x39 then match stack with d :: o :: n :: st => Go rest st (copy_to mem d o n code) | _ => Halt Throw end
  else if op =? 0x50 then match stack with _ :: st => Go rest st mem | _ => Halt Throw end
  else if op =? 0x51 then match stack with a :: st => Go rest (be_value (read mem a 32) :: st) mem | _ => Halt Throw end
  else if op =? 0x52 then match stack with a :: v :: st => Go rest st (copy_to mem a 0 32 (be_bytes 32 v)) | _ => Halt Throw end
  else if op =? 0x56 then
    match stack with t :: st => if valid_dest code t then Go (skipn (Z.to_nat t) code) st mem else Halt Throw | _ => Halt Throw end
  else if op =? 0x57 then
    match stack with
    | t :: c :: st => if c =? 0 then Go rest st mem else if valid_dest code t then Go (skipn (Z.to_nat t) code) st mem else Halt Throw
    | _ => Halt Throw
    end
  else if op =? 0x5b then Go rest stack mem
  else if op =? 0xf3 then match stack with a :: n :: _ => Halt (Ok (read mem a (Z.to_nat n))) | _ => Halt Throw end
  else Halt Throw.
(** [fuel] bounds the number of instructions ([UB]: more are needed) *)
Fixpoint evm_run (fuel : nat) (code calldata rest stack : list Z) (mem : memory) : outcome (list Z) :=
  match fuel with
  | O => UB
  | S n =>
    match rest with
    | [] => Ok []
    | op :: rest' =>
      match exec code calldata op rest' stack mem with
      | Go r s m => evm_run n code calldata r s m
      | Halt r => r
      end
    end
  end.
(** a call of a contract with the given code: what it returns, or [Throw] if it fails *)
Definition evm_call (fuel : nat) (code calldata : list Z) : outcome (list Z) := evm_run fuel code calldata code [] (fun _ => 0).
