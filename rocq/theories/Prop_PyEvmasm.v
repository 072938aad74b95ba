(** Property theorems C131, C132 and C133: the EVM assembler /repo/ethsnarks/evmasm.py and the generated contracts,
    /repo/ethsnarks/mimc/contract.py and /repo/ethsnarks/poseidon/contract.py.
    Vocabulary: Spec_PyEvmasm.v ([plain], [forward], [item_bytes]), and the EVM of M_PyEvmasm.v ([evm_call], [valid_dest]). *)
From Coq Require Import List ZArith Bool Lia Arith.
From Verif Require Import Primes Base M_Evm M_PyMerkle M_PyPoseidon M_PyEvmasm Spec_PyEvmasm Q_PyEvmasm Q_PyLabels Q_PyPosCon.
Import ListNotations.
Local Open Scope nat_scope.
Local Open Scope Z_scope.

(** ** C131: labels and deployment *)
(** the transaction built by createTxData deploys exactly the assembled code *)
Theorem C131_deploy : forall g tx calldata, create_tx_data g = Ok tx -> forall fuel, (9 <= fuel)%nat -> evm_call fuel tx calldata = Ok (cg_code g).
Proof. exact deploy_lemma. Qed.
Print Assumptions C131_deploy.
(** a jump to a label that is defined later arrives there *)
Theorem C131_forward_jump : forall A B C c t gA gB gC, Forall plain A -> Forall plain B -> Forall plain C -> ~ (0x60 <= c <= 0x7f) ->
  append_all cg_new A = Ok gA -> append_all cg_new B = Ok gB -> append_all cg_new C = Ok gC -> Z.of_nat (length (cg_code gA) + length (cg_code gB)) < 2 ^ 24 - 5 ->
  exists g o, append_all cg_new (A ++ [Ijump c (Some t)] ++ B ++ [Ilabel t] ++ C) = Ok g /\ cg_jumps g = [] /\
    cg_code g = cg_code gA ++ (0x62 :: be_bytes 3 (Z.of_nat o) ++ [c]) ++ cg_code gB ++ 0x5b :: cg_code gC /\
    valid_dest (cg_code g) (Z.of_nat o) = true /\ skipn o (cg_code g) = 0x5b :: cg_code gC.
Proof. exact forward_lemma. Qed.
Print Assumptions C131_forward_jump.
(** any number of labels and jumps, all of them forward: every label gets one position [pos], the position of its
    JUMPDEST in the assembled code, and every jump to it carries that position; nothing stays pending *)
Theorem C131_forward_program : forall items, forward [] [] items -> Z.of_nat (length (flat_map (item_bytes (fun _ => 0%nat)) items)) < 2 ^ 24 ->
  exists g pos, append_all cg_new items = Ok g /\ cg_jumps g = [] /\ cg_code g = flat_map (item_bytes pos) items /\
    forall A t B, items = A ++ Ilabel t :: B -> pos t = length (flat_map (item_bytes pos) A) /\ valid_dest (cg_code g) (Z.of_nat (pos t)) = true /\
      skipn (pos t) (cg_code g) = 0x5b :: flat_map (item_bytes pos) B.
Proof. exact forward_program_lemma. Qed.
Print Assumptions C131_forward_program.
Example C131_forward_program_example : forward [] [] [JMPI (Some 4%nat); Ipush 600; JMP (Some 7%nat); JMP (Some 4%nat); Ilabel 7; Iop 0x50; Ilabel 4; Iop 0x00] /\
  exists g, append_all cg_new [JMPI (Some 4%nat); Ipush 600; JMP (Some 7%nat); JMP (Some 4%nat); Ilabel 7; Iop 0x50; Ilabel 4; Iop 0x00] = Ok g /\
    cg_code g = [0x62; 0; 0; 20; 0x57; 0x61; 2; 88; 0x62; 0; 0; 18; 0x56; 0x62; 0; 0; 20; 0x56; 0x5b; 0x50; 0x5b; 0x00].
Proof. split; [|eexists; split; reflexivity]. cbn [forward JMP JMPI In remove Nat.eq_dec nat_rec nat_rect]. repeat split; try lia; tauto. Qed.
(** defining a label twice is rejected *)
Theorem C131_redefine_rejected : forall A B C t g, append_all cg_new (A ++ Ilabel t :: B ++ Ilabel t :: C) <> Ok g.
Proof. exact redefine_lemma. Qed.
Print Assumptions C131_redefine_rejected.
(** a jump to a label that is defined earlier always fails: no JUMPDEST is emitted *)
Theorem C131_backward_jump_fails : forall A B C c t gA gB gC, Forall plain A -> Forall plain B -> Forall plain C ->
  append_all cg_new A = Ok gA -> append_all cg_new B = Ok gB -> append_all cg_new C = Ok gC -> Z.of_nat (length (cg_code gA)) < 2 ^ 24 -> hd_error B <> Some (Iop 0x5b) ->
  exists g, append_all cg_new (A ++ [Ilabel t] ++ B ++ [Ijump c (Some t)] ++ C) = Ok g /\ cg_jumps g = [] /\
    cg_code g = cg_code gA ++ cg_code gB ++ (0x62 :: be_bytes 3 (Z.of_nat (length (cg_code gA))) ++ [c]) ++ cg_code gC /\
    valid_dest (cg_code g) (Z.of_nat (length (cg_code gA))) = false.
Proof. exact backward_lemma. Qed.
Print Assumptions C131_backward_jump_fails.
Theorem C131_jump_refuted : exists items g, append_all cg_new items = Ok g /\ cg_jumps g = [] /\ items = [JMP (Some 1%nat); Ilabel 0; Ipush 0; Ipush 0; Iop 0xf3; Ilabel 1; JMP (Some 0%nat)] /\
  forall fuel, (5 <= fuel)%nat -> evm_call fuel (cg_code g) [] = Throw.
Proof. exact backward_witness. Qed.
Print Assumptions C131_jump_refuted.
Example C131_example : (g <- append_all cg_new [Ipush 7; JMP (Some 3%nat); Iop 0xfe; Ilabel 3; Ipush 0; Iop 0x52; Ipush 32; Ipush 0; Iop 0xf3] ;;
    tx <- create_tx_data g ;; code <- evm_call 9 tx [] ;; evm_call 9 code []) = Ok (be_bytes 32 7) /\
  (g <- append_all cg_new [Ipush 7; JMP (Some 3%nat)] ;; create_tx_data g) = Throw.
Proof. split; reflexivity. Qed.

(** ** C132: the MiMC contract, for any constants, any modulus and exponents 5 and 7 *)
Theorem C132_contract : forall q sel cs e, 0 < q < 2 ^ 256 - 1 -> 0 <= sel < 2 ^ 32 -> Forall (fun c => 0 <= c < 2 ^ 256 - 1) cs -> Z.of_nat (length cs) < 2 ^ 200 -> e = 5 \/ e = 7 ->
  exists tx body, mimc_contract q sel cs e = Ok tx /\ (forall calldata fuel, (9 <= fuel)%nat -> evm_call fuel tx calldata = Ok body) /\
    forall s x k extra, 0 <= s < 2 ^ 32 -> 0 <= x < 2 ^ 256 -> 0 <= k < 2 ^ 256 ->
      exists n, forall fuel, (n <= fuel)%nat -> evm_call fuel body (be_bytes 4 s ++ be_bytes 32 x ++ be_bytes 32 k ++ extra) =
        if s =? sel then Ok (be_bytes 32 ((fold_left (fun x c => ((x + k + c) mod q) ^ e mod q) cs x + k) mod q)) else Throw.
Proof. exact mimc_contract_lemma. Qed.
Print Assumptions C132_contract.
(** and so it agrees with the Python function mimc; the hypothesis on the constants excludes only 2^256 - 1 *)
Theorem C132_python : forall sel seed R e, 0 <= sel < 2 ^ 32 -> (2 < R)%nat -> Z.of_nat R < 2 ^ 200 -> Forall (fun c => 0 <= c < 2 ^ 256 - 1) (py_mimc_constants seed R) -> e = 5 \/ e = 7 ->
  exists tx body, mimc_contract p_mod sel (py_mimc_constants seed R) e = Ok tx /\ (forall calldata fuel, (9 <= fuel)%nat -> evm_call fuel tx calldata = Ok body) /\
    forall x k extra, 0 <= x < 2 ^ 256 -> 0 <= k < 2 ^ 256 ->
      exists v n, py_mimc seed p_mod e R x k = Ok v /\ forall fuel, (n <= fuel)%nat -> evm_call fuel body (be_bytes 4 sel ++ be_bytes 32 x ++ be_bytes 32 k ++ extra) = Ok (be_bytes 32 v).
Proof. exact mimc_python_lemma. Qed.
Print Assumptions C132_python.
Example C132_example : (tx <- mimc_contract 101 0x3f1a1187 [5; 70; 300] 7 ;; b <- evm_call 9 tx [] ;;
    evm_call 200 b (be_bytes 4 0x3f1a1187 ++ be_bytes 32 30 ++ be_bytes 32 4)) = Ok (be_bytes 32 94) /\
  (tx <- mimc_contract 101 0x3f1a1187 [5; 70; 300] 5 ;; b <- evm_call 9 tx [] ;;
    evm_call 200 b (be_bytes 4 0x3f1a1188 ++ be_bytes 32 30 ++ be_bytes 32 4)) = Throw.
Proof. split; vm_compute; reflexivity. Qed.

(** ** C133: the Poseidon contract, for width 6, any modulus, constants and matrix *)
Theorem C133_contract : forall q Fr P C M, 0 < q < 2 ^ 256 - 1 -> length C = (Fr + P)%nat -> (0 < Fr + P)%nat -> Z.of_nat (Fr + P) <= 4000 -> length M = 6%nat ->
  Forall (fun c => 0 <= c < 2 ^ 256 - 1) C -> Forall (fun r => length r = 6%nat /\ Forall (fun c => 0 <= c < 2 ^ 256 - 1) r) M ->
  exists tx body, poseidon_contract q 6 Fr P C M = Ok tx /\ (forall calldata fuel, (9 <= fuel)%nat -> evm_call fuel tx calldata = Ok body) /\
    forall s ptr len inputs, 0 <= s < 2 ^ 32 -> Forall (fun v => 0 <= v < 2 ^ 256) inputs -> (1 <= length inputs <= 5)%nat ->
      exists v n, py_poseidon q 5 6 Fr P C M inputs = Ok v /\ forall fuel, (n <= fuel)%nat ->
        evm_call fuel body (be_bytes 4 s ++ be_bytes 32 ptr ++ be_bytes 32 len ++ flat_map (be_bytes 32) inputs) = if s =? 0xc4420fb4 then Ok (be_bytes 32 v) else Throw.
Proof. exact poseidon_contract_lemma. Qed.
Print Assumptions C133_contract.
(** for width 3 the contract returns something else than the Python function *)
Theorem C133_width_refuted : exists q t Fr P C M inputs tx b v r, t = 3%nat /\ length C = (Fr + P)%nat /\ length M = t /\ Forall (fun row => length row = t) M /\ (length inputs < t)%nat /\
  poseidon_contract q t Fr P C M = Ok tx /\ evm_call 9 tx [] = Ok b /\ py_poseidon q 5 t Fr P C M inputs = Ok v /\
  evm_call 1000 b (be_bytes 4 0xc4420fb4 ++ be_bytes 32 32 ++ be_bytes 32 (Z.of_nat (length inputs)) ++ flat_map (be_bytes 32) inputs) = Ok r /\ r <> be_bytes 32 v.
Proof. exact poseidon_width_witness. Qed.
Print Assumptions C133_width_refuted.
Example C133_example : let C := [11; 22; 33] in
  let M := [[1;2;3;4;5;6]; [2;6;10;14;18;22]; [5;12;19;26;33;40]; [10;20;30;40;50;60]; [17;30;43;56;69;82]; [26;42;58;74;90;106]] in
  py_poseidon 1009 5 6 2 1 C M [1;2;3;4;5] = Ok 343 /\
  (tx <- poseidon_contract 1009 6 2 1 C M ;; b <- evm_call 9 tx [] ;;
    evm_call 5000 b (be_bytes 4 0xc4420fb4 ++ be_bytes 32 32 ++ be_bytes 32 5 ++ flat_map (be_bytes 32) [1;2;3;4;5])) = Ok (be_bytes 32 343).
Proof. split; vm_compute; reflexivity. Qed.
