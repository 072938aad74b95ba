(** Model of the Merkle tree contract, /repo/contracts/MerkleTree.sol.  No proofs in this file. *)
From Coq Require Import List ZArith Bool Arith.
From Verif Require Import Field Base M_Evm M_SolMimc.
Import ListNotations.
Local Open Scope Z_scope.

(** the values written by FillLevelIVs, /repo/contracts/MerkleTree.sol:23-55 *)
Definition sol_level_IVs : list Z :=
  [149674538925118052205057075966660054952481571156186698930522557832224430770;
   9670701465464311903249220692483401938888498641874948577387207195814981706974;
   18318710344500308168304415114839554107298291987930233567781901093928276468271;
   6597209388525824933845812104623007130464197923269180086306970975123437805179;
   21720956803147356712695575768577036859892220417043839172295094119877855004262;
   10330261616520855230513677034606076056972336573153777401182178891807369896722;
   17466547730316258748333298168566143799241073466140136663575045164199607937939;
   18881017304615283094648494495339883533502299318365959655029893746755475886610;
   21580915712563378725413940003372103925756594604076607277692074507345076595494;
   12316305934357579015754723412431647910012873427291630993042374701002287130550;
   18905410889238873726515380969411495891004493295170115920825550288019118582494;
   12819107342879320352602391015489840916114959026915005817918724958237245903353;
   8245796392944118634696709403074300923517437202166861682117022548371601758802;
   16953062784314687781686527153155644849196472783922227794465158787843281909585;
   19346880451250915556764413197424554385509847473349107460608536657852472800734;
   14486794857958402714787584825989957493343996287314210390323617462452254101347;
   11127491343750635061768291849689189917973916562037173191089384809465548650641;
   12217916643258751952878742936579902345100885664187835381214622522318889050675;
   722025110834410790007814375535296040832778338853544117497481480537806506496;
   15115624438829798766134408951193645901537753720219896384705782209102859383951;
   11495230981884427516908372448237146604382590904456048258839160861769955046544;
   16867999085723044773810250829569850875786210932876177117428755424200948460050;
   1884116508014449609846749684134533293456072152192763829918284704109129550542;
   14643335163846663204197941112945447472862168442334003800621296569318670799451;
   1933387276732345916104540506251808516402995586485132246682941535467305930334;
   7286414555941977227951257572976885370489143210539802284740420664558593616067;
   16932161189449419608528042274282099409408565503929504242784173714823499212410;
   16562533130736679030886586765487416082772837813468081467237161865787494093536;
   6037428193077828806710267464232314380014232668931818917272972397574634037180].
(** [level_IVs] of the circuit, /repo/src/gadgets/merkle_tree.cpp:79-109 *)
Definition cpp_level_IVs : list F := map Fof
  [149674538925118052205057075966660054952481571156186698930522557832224430770;
   9670701465464311903249220692483401938888498641874948577387207195814981706974;
   18318710344500308168304415114839554107298291987930233567781901093928276468271;
   6597209388525824933845812104623007130464197923269180086306970975123437805179;
   21720956803147356712695575768577036859892220417043839172295094119877855004262;
   10330261616520855230513677034606076056972336573153777401182178891807369896722;
   17466547730316258748333298168566143799241073466140136663575045164199607937939;
   18881017304615283094648494495339883533502299318365959655029893746755475886610;
   21580915712563378725413940003372103925756594604076607277692074507345076595494;
   12316305934357579015754723412431647910012873427291630993042374701002287130550;
   18905410889238873726515380969411495891004493295170115920825550288019118582494;
   12819107342879320352602391015489840916114959026915005817918724958237245903353;
   8245796392944118634696709403074300923517437202166861682117022548371601758802;
   16953062784314687781686527153155644849196472783922227794465158787843281909585;
   19346880451250915556764413197424554385509847473349107460608536657852472800734;
   14486794857958402714787584825989957493343996287314210390323617462452254101347;
   11127491343750635061768291849689189917973916562037173191089384809465548650641;
   12217916643258751952878742936579902345100885664187835381214622522318889050675;
   722025110834410790007814375535296040832778338853544117497481480537806506496;
   15115624438829798766134408951193645901537753720219896384705782209102859383951;
   11495230981884427516908372448237146604382590904456048258839160861769955046544;
   16867999085723044773810250829569850875786210932876177117428755424200948460050;
   1884116508014449609846749684134533293456072152192763829918284704109129550542;
   14643335163846663204197941112945447472862168442334003800621296569318670799451;
   1933387276732345916104540506251808516402995586485132246682941535467305930334;
   7286414555941977227951257572976885370489143210539802284740420664558593616067;
   16932161189449419608528042274282099409408565503929504242784173714823499212410;
   16562533130736679030886586765487416082772837813468081467237161865787494093536;
   6037428193077828806710267464232314380014232668931818917272972397574634037180].

Definition TREE_DEPTH : nat := 29.                                     (* MerkleTree.sol:8 *)
Definition MAX_LEAF_COUNT : Z := 536870912.                            (* MerkleTree.sol:12 *)

(** HashImpl, /repo/contracts/MerkleTree.sol:58-66 *)
Definition HashImpl (left right IV : Z) : Z := MiMCpe7_mp [left; right] IV.

(** [Data], MerkleTree.sol:15-20.  [leaves] is the array uint256\[536870912\]\[30\]; reading or writing outside
    of it reverts.  The mapping [roots] is never used. *)
Record tree := { t_cur : Z; t_leaves : Z -> Z -> Z }.
(** the initial storage *)
Definition tree_empty : tree := {| t_cur := 0; t_leaves := fun _ _ => 0 |}.
Definition in_leaves (depth offset : Z) : bool :=
  (0 <=? depth) && (depth <? 30) && (0 <=? offset) && (offset <? MAX_LEAF_COUNT).
Definition leaf_get (m : Z -> Z -> Z) (depth offset : Z) : outcome Z :=
  if in_leaves depth offset then Ok (m depth offset) else Throw.
Definition leaf_set (m : Z -> Z -> Z) (depth offset v : Z) : outcome (Z -> Z -> Z) :=
  if in_leaves depth offset then Ok (fun d i => if (d =? depth) && (i =? offset) then v else m d i) else Throw.

Section Tree.
  (** the hash of two nodes with the initialisation vector of a level ([HashImpl]), and the virtual
      machine's sha256 from bytes to a word *)
  Variable hash : Z -> Z -> Z -> Z.
  Variable sha256 : list Z -> Z.

  (** /repo/contracts/MerkleTree.sol:153-166 *)
  Definition GetUniqueLeaf (depth offset leaf : Z) : Z :=
    if leaf =? 0 then wmod (sha256 (be_bytes 2 (depth mod 2 ^ 16) ++ be_bytes 30 (offset mod 2 ^ 240))) mimc_Q
    else leaf.

  (** the loop of UpdateTree, /repo/contracts/MerkleTree.sol:178-197, from level [depth] with [n] levels left *)
  Fixpoint update_loop (n : nat) (depth CurrentIndex : Z) (m : Z -> Z -> Z) : outcome (Z -> Z -> Z) :=
    match n with
    | O => Ok m
    | S n' =>
        let NextIndex := CurrentIndex / 2 in
        ' (leaf1, leaf2) <-
          (if CurrentIndex mod 2 =? 0 then
             leaf1 <- leaf_get m depth CurrentIndex ;;
             l <- leaf_get m depth (wadd CurrentIndex 1) ;;
             Ok (leaf1, GetUniqueLeaf depth (wadd CurrentIndex 1) l)
           else
             l <- leaf_get m depth (wsub CurrentIndex 1) ;;
             leaf2 <- leaf_get m depth CurrentIndex ;;
             Ok (GetUniqueLeaf depth (wsub CurrentIndex 1) l, leaf2)) ;;
        IV <- sol_idx sol_level_IVs depth ;;
        m' <- leaf_set m (wadd depth 1) NextIndex (hash leaf1 leaf2 IV) ;;
        update_loop n' (wadd depth 1) NextIndex m'
    end.
  (** /repo/contracts/MerkleTree.sol:169-200: the new storage and the root *)
  Definition UpdateTree (self : tree) : outcome ((Z -> Z -> Z) * Z) :=
    m <- update_loop TREE_DEPTH 0 (t_cur self) (t_leaves self) ;;
    root <- leaf_get m 29 0 ;; Ok (m, root).

  (** /repo/contracts/MerkleTree.sol:69-89 *)
  Definition Insert (self : tree) (leaf : Z) : outcome (tree * Z * Z) :=
    _ <- orequire (negb (leaf =? 0)) ;;
    let offset := t_cur self in
    _ <- orequire (offset <? MAX_LEAF_COUNT) ;;
    m <- leaf_set (t_leaves self) 0 offset leaf ;;
    ' (m', new_root) <- UpdateTree {| t_cur := t_cur self; t_leaves := m |} ;;
    Ok ({| t_cur := wadd offset 1; t_leaves := m' |}, new_root, offset).

  (** /repo/contracts/MerkleTree.sol:203-207 *)
  Definition GetRoot (self : tree) : outcome Z := leaf_get (t_leaves self) 29 0.

  (** the loop of /repo/contracts/MerkleTree.sol:102-109 from level [depth] with [n] levels left; the
      arrays of 29 elements are lists *)
  Fixpoint verify_loop (n : nat) (depth : Z) (item : Z) (in_path : list Z) (address_bits : list bool) : outcome Z :=
    match n with
    | O => Ok item
    | S n' =>
        b <- sol_idx address_bits depth ;;
        p <- sol_idx in_path depth ;;
        IV <- sol_idx sol_level_IVs depth ;;
        verify_loop n' (wadd depth 1) (if b : bool then hash p item IV else hash item p IV) in_path address_bits
    end.
  (** /repo/contracts/MerkleTree.sol:94-112 *)
  Definition ComputePath (leaf : Z) (in_path : list Z) (address_bits : list bool) : outcome Z :=
    verify_loop TREE_DEPTH 0 leaf in_path address_bits.
  (** /repo/contracts/MerkleTree.sol:115-119 *)
  Definition VerifyPath (self : tree) (leaf : Z) (in_path : list Z) (address_bits : list bool) : outcome bool :=
    r <- ComputePath leaf in_path address_bits ;;
    root <- GetRoot self ;; Ok (r =? root).

  (** /repo/contracts/MerkleTree.sol:122-126 *)
  Definition GetLeaf (self : tree) (depth offset : Z) : outcome Z :=
    l <- leaf_get (t_leaves self) depth offset ;; Ok (GetUniqueLeaf depth offset l).

  (** the loop of GetProof, /repo/contracts/MerkleTree.sol:136-147, from level [depth] with [n] levels left *)
  Fixpoint proof_loop (n : nat) (depth index : Z) (self : tree) : outcome (list Z * list bool) :=
    match n with
    | O => Ok ([], [])
    | S n' =>
        let bit := negb (index mod 2 =? 0) in
        p <- (if index mod 2 =? 0 then GetLeaf self depth (wadd index 1)
              else GetLeaf self depth (wsub index 1)) ;;
        ' (path, bits) <- proof_loop n' (wadd depth 1) (index / 2) self ;;
        Ok (p :: path, bit :: bits)
    end.
  (** /repo/contracts/MerkleTree.sol:129-150 *)
  Definition GetProof (self : tree) (index : Z) : outcome (list Z * list bool) :=
    proof_loop TREE_DEPTH 0 index self.
End Tree.
