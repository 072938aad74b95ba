(** The initialisation vectors of merkletree.py, computed.  The messages are prefixes of one stream, so the
    states after its full blocks are computed once. *)
From Coq Require Import List ZArith NArith Bool Arith Lia.
From Verif Require Import Primes Spec_Utils Spec_Padding Spec_Sha256 M_SolMerkle M_PyMerkle Spec_PyMerkle.
Import ListNotations.
Local Open Scope Z_scope.

Definition K_lit : list Z := [1116352408; 1899447441; 3049323471; 3921009573; 961987163; 1508970993; 2453635748; 2870763221; 3624381080; 310598401; 607225278; 1426881987; 1925078388; 2162078206; 2614888103; 3248222580; 3835390401; 4022224774; 264347078; 604807628; 770255983; 1249150122; 1555081692; 1996064986; 2554220882; 2821834349; 2952996808; 3210313671; 3336571891; 3584528711; 113926993; 338241895; 666307205; 773529912; 1294757372; 1396182291; 1695183700; 1986661051; 2177026350; 2456956037; 2730485921; 2820302411; 3259730800; 3345764771; 3516065817; 3600352804; 4094571909; 275423344; 430227734; 506948616; 659060556; 883997877; 958139571; 1322822218; 1537002063; 1747873779; 1955562222; 2024104815; 2227730452; 2361852424; 2428436474; 2756734187; 3204031479; 3329325298].
Definition compress_lit (H M : list Z) : list Z :=
  map (fun xy => plus32 (fst xy) (snd xy)) (combine H (fold_left fips_step (combine K_lit (schedule 48 M)) H)).
Lemma K_lit_ok : fips_K = K_lit. Proof. vm_compute. reflexivity. Qed.
Lemma compress_lit_ok H M : fips_compress H M = compress_lit H M.
Proof. unfold fips_compress, compress_lit. now rewrite K_lit_ok. Qed.

Definition msg_blocks (m : list bool) : list (list Z) :=
  let padded := m ++ pad_suffix (length m) (N.to_nat ((447 + 511 * N.of_nat (length m)) mod 512)%N) in
  map block_words (words (length padded / 512) 512 padded).
Lemma mod_N n : Nat.modulo (447 + 511 * n) 512 = N.to_nat ((447 + 511 * N.of_nat n) mod 512)%N.
Proof.
  change (447 + 511 * N.of_nat n)%N with (N.of_nat 447 + N.of_nat 511 * N.of_nat n)%N.
  rewrite <- Nat2N.inj_mul, <- Nat2N.inj_add. change 512%N with (N.of_nat 512). rewrite <- Nat2N.inj_mod. now rewrite Nat2N.id.
Qed.
Lemma fold_lit bs : forall H, fold_left fips_compress bs H = fold_left compress_lit bs H.
Proof. induction bs as [|b bs IH]; intros H; [reflexivity|]. cbn [fold_left]. now rewrite compress_lit_ok, IH. Qed.
Lemma hash_lit IV m : fips_hash IV m = fold_left compress_lit (msg_blocks m) IV.
Proof. unfold fips_hash, msg_blocks. rewrite mod_N. apply fold_lit. Qed.

Definition st0 : list Z := [1779033703; 3144134277; 1013904242; 2773480762; 1359893119; 2600822924; 528734635; 1541459225].
Lemma st0_ok : fips_H256 = st0. Proof. vm_compute. reflexivity. Qed.
Definition b0 : list Z := [1298494059; 1818580082; 1701129472; 5072242; 1802265940; 1919247661; 16797029; 1919642725; 1416783205; 755105869; 1701997420; 1700033125; 1697448704; 1298494059; 1818580082; 1701129476].
Definition st1 : list Z := [2655233677; 2692683597; 2358629051; 3397539810; 2732791066; 315660081; 112441507; 1589825480].
Lemma st1_ok : compress_lit st0 b0 = st1. Proof. vm_compute. reflexivity. Qed.
Definition b1 : list Z := [5072242; 1802265940; 1919247661; 83905893; 1919642725; 1416783205; 755368013; 1701997420; 1700033125; 1697449728; 1298494059; 1818580082; 1701129480; 5072242; 1802265940; 1919247661].
Definition st2 : list Z := [1908125257; 113175227; 3463971200; 988567209; 278962233; 1693593239; 585950770; 2298285226].
Lemma st2_ok : compress_lit st1 b1 = st2. Proof. vm_compute. reflexivity. Qed.
Definition b2 : list Z := [151014757; 1919642725; 1416783205; 755630157; 1701997420; 1700033125; 1697450752; 1298494059; 1818580082; 1701129484; 5072242; 1802265940; 1919247661; 218123621; 1919642725; 1416783205].
Definition st3 : list Z := [4076404674; 4257922793; 281174082; 723550218; 2332402352; 1206976089; 1343925259; 3322862315].
Lemma st3_ok : compress_lit st2 b2 = st3. Proof. vm_compute. reflexivity. Qed.
Definition b3 : list Z := [755892301; 1701997420; 1700033125; 1697451776; 1298494059; 1818580082; 1701129488; 5072242; 1802265940; 1919247661; 285232485; 1919642725; 1416783205; 756154445; 1701997420; 1700033125].
Definition st4 : list Z := [1990920446; 1268351660; 3779475484; 3414268679; 3856933482; 652140719; 1591179454; 2244952155].
Lemma st4_ok : compress_lit st3 b3 = st4. Proof. vm_compute. reflexivity. Qed.
Definition b4 : list Z := [1697452800; 1298494059; 1818580082; 1701129492; 5072242; 1802265940; 1919247661; 352341349; 1919642725; 1416783205; 756416589; 1701997420; 1700033125; 1697453824; 1298494059; 1818580082].
Definition st5 : list Z := [3546179965; 3993839360; 3378670316; 68971870; 1665060953; 1583334168; 3656285121; 2351780276].
Lemma st5_ok : compress_lit st4 b4 = st5. Proof. vm_compute. reflexivity. Qed.
Lemma iv_step i bs pre st rest v : msg_blocks (bits_of_bytes (flat_map iv_item (seq 0 (S i)))) = bs -> bs = pre ++ rest ->
  fold_left compress_lit pre st0 = st -> fold_left (fun a w => a * 2 ^ 32 + w) (fold_left compress_lit rest st) 0 mod p_mod = v ->
  py_IV sha256_num i = v.
Proof.
  intros E1 E2 E3 E4. unfold py_IV, sha256_num. rewrite hash_lit, st0_ok, E1, E2, fold_left_app, E3. exact E4.
Qed.
Lemma pre0 : fold_left compress_lit [] st0 = st0.
Proof. cbn [fold_left]. reflexivity. Qed.
Lemma pre1 : fold_left compress_lit [b0] st0 = st1.
Proof. cbn [fold_left]. rewrite st1_ok. reflexivity. Qed.
Lemma pre2 : fold_left compress_lit [b0; b1] st0 = st2.
Proof. cbn [fold_left]. rewrite st1_ok. rewrite st2_ok. reflexivity. Qed.
Lemma pre3 : fold_left compress_lit [b0; b1; b2] st0 = st3.
Proof. cbn [fold_left]. rewrite st1_ok. rewrite st2_ok. rewrite st3_ok. reflexivity. Qed.
Lemma pre4 : fold_left compress_lit [b0; b1; b2; b3] st0 = st4.
Proof. cbn [fold_left]. rewrite st1_ok. rewrite st2_ok. rewrite st3_ok. rewrite st4_ok. reflexivity. Qed.
Lemma pre5 : fold_left compress_lit [b0; b1; b2; b3; b4] st0 = st5.
Proof. cbn [fold_left]. rewrite st1_ok. rewrite st2_ok. rewrite st3_ok. rewrite st4_ok. rewrite st5_ok. reflexivity. Qed.
Lemma iv_0 : py_IV sha256_num 0 = 149674538925118052205057075966660054952481571156186698930522557832224430770.
Proof.
  apply (iv_step 0 ([] ++ [[1298494059; 1818580082; 1701129472; 8388608; 0; 0; 0; 0; 0; 0; 0; 0; 0; 0; 0; 104]]) [] st0 [[1298494059; 1818580082; 1701129472; 8388608; 0; 0; 0; 0; 0; 0; 0; 0; 0; 0; 0; 104]]); [vm_compute; reflexivity|reflexivity|exact pre0|vm_compute; reflexivity].
Qed.
Lemma iv_1 : py_IV sha256_num 1 = 9670701465464311903249220692483401938888498641874948577387207195814981706974.
Proof.
  apply (iv_step 1 ([] ++ [[1298494059; 1818580082; 1701129472; 5072242; 1802265940; 1919247661; 16809984; 0; 0; 0; 0; 0; 0; 0; 0; 208]]) [] st0 [[1298494059; 1818580082; 1701129472; 5072242; 1802265940; 1919247661; 16809984; 0; 0; 0; 0; 0; 0; 0; 0; 208]]); [vm_compute; reflexivity|reflexivity|exact pre0|vm_compute; reflexivity].
Qed.
Lemma iv_2 : py_IV sha256_num 2 = 18318710344500308168304415114839554107298291987930233567781901093928276468271.
Proof.
  apply (iv_step 2 ([] ++ [[1298494059; 1818580082; 1701129472; 5072242; 1802265940; 1919247661; 16797029; 1919642725; 1416783205; 755105920; 0; 0; 0; 0; 0; 312]]) [] st0 [[1298494059; 1818580082; 1701129472; 5072242; 1802265940; 1919247661; 16797029; 1919642725; 1416783205; 755105920; 0; 0; 0; 0; 0; 312]]); [vm_compute; reflexivity|reflexivity|exact pre0|vm_compute; reflexivity].
Qed.
Lemma iv_3 : py_IV sha256_num 3 = 6597209388525824933845812104623007130464197923269180086306970975123437805179.
Proof.
  apply (iv_step 3 ([] ++ [[1298494059; 1818580082; 1701129472; 5072242; 1802265940; 1919247661; 16797029; 1919642725; 1416783205; 755105869; 1701997420; 1700033125; 1697448704; 2147483648; 0; 416]]) [] st0 [[1298494059; 1818580082; 1701129472; 5072242; 1802265940; 1919247661; 16797029; 1919642725; 1416783205; 755105869; 1701997420; 1700033125; 1697448704; 2147483648; 0; 416]]); [vm_compute; reflexivity|reflexivity|exact pre0|vm_compute; reflexivity].
Qed.
Lemma iv_4 : py_IV sha256_num 4 = 21720956803147356712695575768577036859892220417043839172295094119877855004262.
Proof.
  apply (iv_step 4 ([b0] ++ [[8388608; 0; 0; 0; 0; 0; 0; 0; 0; 0; 0; 0; 0; 0; 0; 520]]) [b0] st1 [[8388608; 0; 0; 0; 0; 0; 0; 0; 0; 0; 0; 0; 0; 0; 0; 520]]); [vm_compute; reflexivity|reflexivity|exact pre1|vm_compute; reflexivity].
Qed.
Lemma iv_5 : py_IV sha256_num 5 = 10330261616520855230513677034606076056972336573153777401182178891807369896722.
Proof.
  apply (iv_step 5 ([b0] ++ [[5072242; 1802265940; 1919247661; 83918848; 0; 0; 0; 0; 0; 0; 0; 0; 0; 0; 0; 624]]) [b0] st1 [[5072242; 1802265940; 1919247661; 83918848; 0; 0; 0; 0; 0; 0; 0; 0; 0; 0; 0; 624]]); [vm_compute; reflexivity|reflexivity|exact pre1|vm_compute; reflexivity].
Qed.
Lemma iv_6 : py_IV sha256_num 6 = 17466547730316258748333298168566143799241073466140136663575045164199607937939.
Proof.
  apply (iv_step 6 ([b0] ++ [[5072242; 1802265940; 1919247661; 83905893; 1919642725; 1416783205; 755368064; 0; 0; 0; 0; 0; 0; 0; 0; 728]]) [b0] st1 [[5072242; 1802265940; 1919247661; 83905893; 1919642725; 1416783205; 755368064; 0; 0; 0; 0; 0; 0; 0; 0; 728]]); [vm_compute; reflexivity|reflexivity|exact pre1|vm_compute; reflexivity].
Qed.
Lemma iv_7 : py_IV sha256_num 7 = 18881017304615283094648494495339883533502299318365959655029893746755475886610.
Proof.
  apply (iv_step 7 ([b0] ++ [[5072242; 1802265940; 1919247661; 83905893; 1919642725; 1416783205; 755368013; 1701997420; 1700033125; 1697449728; 2147483648; 0; 0; 0; 0; 832]]) [b0] st1 [[5072242; 1802265940; 1919247661; 83905893; 1919642725; 1416783205; 755368013; 1701997420; 1700033125; 1697449728; 2147483648; 0; 0; 0; 0; 832]]); [vm_compute; reflexivity|reflexivity|exact pre1|vm_compute; reflexivity].
Qed.
Lemma iv_8 : py_IV sha256_num 8 = 21580915712563378725413940003372103925756594604076607277692074507345076595494.
Proof.
  apply (iv_step 8 ([b0] ++ [[5072242; 1802265940; 1919247661; 83905893; 1919642725; 1416783205; 755368013; 1701997420; 1700033125; 1697449728; 1298494059; 1818580082; 1701129480; 8388608; 0; 936]]) [b0] st1 [[5072242; 1802265940; 1919247661; 83905893; 1919642725; 1416783205; 755368013; 1701997420; 1700033125; 1697449728; 1298494059; 1818580082; 1701129480; 8388608; 0; 936]]); [vm_compute; reflexivity|reflexivity|exact pre1|vm_compute; reflexivity].
Qed.
Lemma iv_9 : py_IV sha256_num 9 = 12316305934357579015754723412431647910012873427291630993042374701002287130550.
Proof.
  apply (iv_step 9 ([b0; b1] ++ [[151027712; 0; 0; 0; 0; 0; 0; 0; 0; 0; 0; 0; 0; 0; 0; 1040]]) [b0; b1] st2 [[151027712; 0; 0; 0; 0; 0; 0; 0; 0; 0; 0; 0; 0; 0; 0; 1040]]); [vm_compute; reflexivity|reflexivity|exact pre2|vm_compute; reflexivity].
Qed.
Lemma iv_10 : py_IV sha256_num 10 = 18905410889238873726515380969411495891004493295170115920825550288019118582494.
Proof.
  apply (iv_step 10 ([b0; b1] ++ [[151014757; 1919642725; 1416783205; 755630208; 0; 0; 0; 0; 0; 0; 0; 0; 0; 0; 0; 1144]]) [b0; b1] st2 [[151014757; 1919642725; 1416783205; 755630208; 0; 0; 0; 0; 0; 0; 0; 0; 0; 0; 0; 1144]]); [vm_compute; reflexivity|reflexivity|exact pre2|vm_compute; reflexivity].
Qed.
Lemma iv_11 : py_IV sha256_num 11 = 12819107342879320352602391015489840916114959026915005817918724958237245903353.
Proof.
  apply (iv_step 11 ([b0; b1] ++ [[151014757; 1919642725; 1416783205; 755630157; 1701997420; 1700033125; 1697450752; 2147483648; 0; 0; 0; 0; 0; 0; 0; 1248]]) [b0; b1] st2 [[151014757; 1919642725; 1416783205; 755630157; 1701997420; 1700033125; 1697450752; 2147483648; 0; 0; 0; 0; 0; 0; 0; 1248]]); [vm_compute; reflexivity|reflexivity|exact pre2|vm_compute; reflexivity].
Qed.
Lemma iv_12 : py_IV sha256_num 12 = 8245796392944118634696709403074300923517437202166861682117022548371601758802.
Proof.
  apply (iv_step 12 ([b0; b1] ++ [[151014757; 1919642725; 1416783205; 755630157; 1701997420; 1700033125; 1697450752; 1298494059; 1818580082; 1701129484; 8388608; 0; 0; 0; 0; 1352]]) [b0; b1] st2 [[151014757; 1919642725; 1416783205; 755630157; 1701997420; 1700033125; 1697450752; 1298494059; 1818580082; 1701129484; 8388608; 0; 0; 0; 0; 1352]]); [vm_compute; reflexivity|reflexivity|exact pre2|vm_compute; reflexivity].
Qed.
Lemma iv_13 : py_IV sha256_num 13 = 16953062784314687781686527153155644849196472783922227794465158787843281909585.
Proof.
  apply (iv_step 13 ([b0; b1] ++ [[151014757; 1919642725; 1416783205; 755630157; 1701997420; 1700033125; 1697450752; 1298494059; 1818580082; 1701129484; 5072242; 1802265940; 1919247661; 218136576; 0; 1456]]) [b0; b1] st2 [[151014757; 1919642725; 1416783205; 755630157; 1701997420; 1700033125; 1697450752; 1298494059; 1818580082; 1701129484; 5072242; 1802265940; 1919247661; 218136576; 0; 1456]]); [vm_compute; reflexivity|reflexivity|exact pre2|vm_compute; reflexivity].
Qed.
Lemma iv_14 : py_IV sha256_num 14 = 19346880451250915556764413197424554385509847473349107460608536657852472800734.
Proof.
  apply (iv_step 14 ([b0; b1; b2] ++ [[755892352; 0; 0; 0; 0; 0; 0; 0; 0; 0; 0; 0; 0; 0; 0; 1560]]) [b0; b1; b2] st3 [[755892352; 0; 0; 0; 0; 0; 0; 0; 0; 0; 0; 0; 0; 0; 0; 1560]]); [vm_compute; reflexivity|reflexivity|exact pre3|vm_compute; reflexivity].
Qed.
Lemma iv_15 : py_IV sha256_num 15 = 14486794857958402714787584825989957493343996287314210390323617462452254101347.
Proof.
  apply (iv_step 15 ([b0; b1; b2] ++ [[755892301; 1701997420; 1700033125; 1697451776; 2147483648; 0; 0; 0; 0; 0; 0; 0; 0; 0; 0; 1664]]) [b0; b1; b2] st3 [[755892301; 1701997420; 1700033125; 1697451776; 2147483648; 0; 0; 0; 0; 0; 0; 0; 0; 0; 0; 1664]]); [vm_compute; reflexivity|reflexivity|exact pre3|vm_compute; reflexivity].
Qed.
Lemma iv_16 : py_IV sha256_num 16 = 11127491343750635061768291849689189917973916562037173191089384809465548650641.
Proof.
  apply (iv_step 16 ([b0; b1; b2] ++ [[755892301; 1701997420; 1700033125; 1697451776; 1298494059; 1818580082; 1701129488; 8388608; 0; 0; 0; 0; 0; 0; 0; 1768]]) [b0; b1; b2] st3 [[755892301; 1701997420; 1700033125; 1697451776; 1298494059; 1818580082; 1701129488; 8388608; 0; 0; 0; 0; 0; 0; 0; 1768]]); [vm_compute; reflexivity|reflexivity|exact pre3|vm_compute; reflexivity].
Qed.
Lemma iv_17 : py_IV sha256_num 17 = 12217916643258751952878742936579902345100885664187835381214622522318889050675.
Proof.
  apply (iv_step 17 ([b0; b1; b2] ++ [[755892301; 1701997420; 1700033125; 1697451776; 1298494059; 1818580082; 1701129488; 5072242; 1802265940; 1919247661; 285245440; 0; 0; 0; 0; 1872]]) [b0; b1; b2] st3 [[755892301; 1701997420; 1700033125; 1697451776; 1298494059; 1818580082; 1701129488; 5072242; 1802265940; 1919247661; 285245440; 0; 0; 0; 0; 1872]]); [vm_compute; reflexivity|reflexivity|exact pre3|vm_compute; reflexivity].
Qed.
Lemma iv_18 : py_IV sha256_num 18 = 722025110834410790007814375535296040832778338853544117497481480537806506496.
Proof.
  apply (iv_step 18 ([b0; b1; b2] ++ [[755892301; 1701997420; 1700033125; 1697451776; 1298494059; 1818580082; 1701129488; 5072242; 1802265940; 1919247661; 285232485; 1919642725; 1416783205; 756154496; 0; 1976]]) [b0; b1; b2] st3 [[755892301; 1701997420; 1700033125; 1697451776; 1298494059; 1818580082; 1701129488; 5072242; 1802265940; 1919247661; 285232485; 1919642725; 1416783205; 756154496; 0; 1976]]); [vm_compute; reflexivity|reflexivity|exact pre3|vm_compute; reflexivity].
Qed.
Lemma iv_19 : py_IV sha256_num 19 = 15115624438829798766134408951193645901537753720219896384705782209102859383951.
Proof.
  apply (iv_step 19 ([b0; b1; b2; b3] ++ [[1697452800; 2147483648; 0; 0; 0; 0; 0; 0; 0; 0; 0; 0; 0; 0; 0; 2080]]) [b0; b1; b2; b3] st4 [[1697452800; 2147483648; 0; 0; 0; 0; 0; 0; 0; 0; 0; 0; 0; 0; 0; 2080]]); [vm_compute; reflexivity|reflexivity|exact pre4|vm_compute; reflexivity].
Qed.
Lemma iv_20 : py_IV sha256_num 20 = 11495230981884427516908372448237146604382590904456048258839160861769955046544.
Proof.
  apply (iv_step 20 ([b0; b1; b2; b3] ++ [[1697452800; 1298494059; 1818580082; 1701129492; 8388608; 0; 0; 0; 0; 0; 0; 0; 0; 0; 0; 2184]]) [b0; b1; b2; b3] st4 [[1697452800; 1298494059; 1818580082; 1701129492; 8388608; 0; 0; 0; 0; 0; 0; 0; 0; 0; 0; 2184]]); [vm_compute; reflexivity|reflexivity|exact pre4|vm_compute; reflexivity].
Qed.
Lemma iv_21 : py_IV sha256_num 21 = 16867999085723044773810250829569850875786210932876177117428755424200948460050.
Proof.
  apply (iv_step 21 ([b0; b1; b2; b3] ++ [[1697452800; 1298494059; 1818580082; 1701129492; 5072242; 1802265940; 1919247661; 352354304; 0; 0; 0; 0; 0; 0; 0; 2288]]) [b0; b1; b2; b3] st4 [[1697452800; 1298494059; 1818580082; 1701129492; 5072242; 1802265940; 1919247661; 352354304; 0; 0; 0; 0; 0; 0; 0; 2288]]); [vm_compute; reflexivity|reflexivity|exact pre4|vm_compute; reflexivity].
Qed.
Lemma iv_22 : py_IV sha256_num 22 = 1884116508014449609846749684134533293456072152192763829918284704109129550542.
Proof.
  apply (iv_step 22 ([b0; b1; b2; b3] ++ [[1697452800; 1298494059; 1818580082; 1701129492; 5072242; 1802265940; 1919247661; 352341349; 1919642725; 1416783205; 756416640; 0; 0; 0; 0; 2392]]) [b0; b1; b2; b3] st4 [[1697452800; 1298494059; 1818580082; 1701129492; 5072242; 1802265940; 1919247661; 352341349; 1919642725; 1416783205; 756416640; 0; 0; 0; 0; 2392]]); [vm_compute; reflexivity|reflexivity|exact pre4|vm_compute; reflexivity].
Qed.
Lemma iv_23 : py_IV sha256_num 23 = 14643335163846663204197941112945447472862168442334003800621296569318670799451.
Proof.
  apply (iv_step 23 ([b0; b1; b2; b3] ++ [[1697452800; 1298494059; 1818580082; 1701129492; 5072242; 1802265940; 1919247661; 352341349; 1919642725; 1416783205; 756416589; 1701997420; 1700033125; 1697453824; 2147483648; 0]; [0; 0; 0; 0; 0; 0; 0; 0; 0; 0; 0; 0; 0; 0; 0; 2496]]) [b0; b1; b2; b3] st4 [[1697452800; 1298494059; 1818580082; 1701129492; 5072242; 1802265940; 1919247661; 352341349; 1919642725; 1416783205; 756416589; 1701997420; 1700033125; 1697453824; 2147483648; 0]; [0; 0; 0; 0; 0; 0; 0; 0; 0; 0; 0; 0; 0; 0; 0; 2496]]); [vm_compute; reflexivity|reflexivity|exact pre4|vm_compute; reflexivity].
Qed.
Lemma iv_24 : py_IV sha256_num 24 = 1933387276732345916104540506251808516402995586485132246682941535467305930334.
Proof.
  apply (iv_step 24 ([b0; b1; b2; b3; b4] ++ [[1701129496; 8388608; 0; 0; 0; 0; 0; 0; 0; 0; 0; 0; 0; 0; 0; 2600]]) [b0; b1; b2; b3; b4] st5 [[1701129496; 8388608; 0; 0; 0; 0; 0; 0; 0; 0; 0; 0; 0; 0; 0; 2600]]); [vm_compute; reflexivity|reflexivity|exact pre5|vm_compute; reflexivity].
Qed.
Lemma iv_25 : py_IV sha256_num 25 = 7286414555941977227951257572976885370489143210539802284740420664558593616067.
Proof.
  apply (iv_step 25 ([b0; b1; b2; b3; b4] ++ [[1701129496; 5072242; 1802265940; 1919247661; 419463168; 0; 0; 0; 0; 0; 0; 0; 0; 0; 0; 2704]]) [b0; b1; b2; b3; b4] st5 [[1701129496; 5072242; 1802265940; 1919247661; 419463168; 0; 0; 0; 0; 0; 0; 0; 0; 0; 0; 2704]]); [vm_compute; reflexivity|reflexivity|exact pre5|vm_compute; reflexivity].
Qed.
Lemma iv_26 : py_IV sha256_num 26 = 16932161189449419608528042274282099409408565503929504242784173714823499212410.
Proof.
  apply (iv_step 26 ([b0; b1; b2; b3; b4] ++ [[1701129496; 5072242; 1802265940; 1919247661; 419450213; 1919642725; 1416783205; 756678784; 0; 0; 0; 0; 0; 0; 0; 2808]]) [b0; b1; b2; b3; b4] st5 [[1701129496; 5072242; 1802265940; 1919247661; 419450213; 1919642725; 1416783205; 756678784; 0; 0; 0; 0; 0; 0; 0; 2808]]); [vm_compute; reflexivity|reflexivity|exact pre5|vm_compute; reflexivity].
Qed.
Lemma iv_27 : py_IV sha256_num 27 = 16562533130736679030886586765487416082772837813468081467237161865787494093536.
Proof.
  apply (iv_step 27 ([b0; b1; b2; b3; b4] ++ [[1701129496; 5072242; 1802265940; 1919247661; 419450213; 1919642725; 1416783205; 756678733; 1701997420; 1700033125; 1697454848; 2147483648; 0; 0; 0; 2912]]) [b0; b1; b2; b3; b4] st5 [[1701129496; 5072242; 1802265940; 1919247661; 419450213; 1919642725; 1416783205; 756678733; 1701997420; 1700033125; 1697454848; 2147483648; 0; 0; 0; 2912]]); [vm_compute; reflexivity|reflexivity|exact pre5|vm_compute; reflexivity].
Qed.
Lemma iv_28 : py_IV sha256_num 28 = 6037428193077828806710267464232314380014232668931818917272972397574634037180.
Proof.
  apply (iv_step 28 ([b0; b1; b2; b3; b4] ++ [[1701129496; 5072242; 1802265940; 1919247661; 419450213; 1919642725; 1416783205; 756678733; 1701997420; 1700033125; 1697454848; 1298494059; 1818580082; 1701129500; 8388608; 0]; [0; 0; 0; 0; 0; 0; 0; 0; 0; 0; 0; 0; 0; 0; 0; 3016]]) [b0; b1; b2; b3; b4] st5 [[1701129496; 5072242; 1802265940; 1919247661; 419450213; 1919642725; 1416783205; 756678733; 1701997420; 1700033125; 1697454848; 1298494059; 1818580082; 1701129500; 8388608; 0]; [0; 0; 0; 0; 0; 0; 0; 0; 0; 0; 0; 0; 0; 0; 0; 3016]]); [vm_compute; reflexivity|reflexivity|exact pre5|vm_compute; reflexivity].
Qed.
Lemma py_IVs_lemma : py_IVs sha256_num 29 = sol_level_IVs.
Proof.
  change (py_IVs sha256_num 29) with [py_IV sha256_num 0; py_IV sha256_num 1; py_IV sha256_num 2; py_IV sha256_num 3; py_IV sha256_num 4; py_IV sha256_num 5; py_IV sha256_num 6; py_IV sha256_num 7; py_IV sha256_num 8; py_IV sha256_num 9; py_IV sha256_num 10; py_IV sha256_num 11; py_IV sha256_num 12; py_IV sha256_num 13; py_IV sha256_num 14; py_IV sha256_num 15; py_IV sha256_num 16; py_IV sha256_num 17; py_IV sha256_num 18; py_IV sha256_num 19; py_IV sha256_num 20; py_IV sha256_num 21; py_IV sha256_num 22; py_IV sha256_num 23; py_IV sha256_num 24; py_IV sha256_num 25; py_IV sha256_num 26; py_IV sha256_num 27; py_IV sha256_num 28].
  rewrite iv_0, iv_1, iv_2, iv_3, iv_4, iv_5, iv_6, iv_7, iv_8, iv_9, iv_10, iv_11, iv_12, iv_13, iv_14, iv_15, iv_16, iv_17, iv_18, iv_19, iv_20, iv_21, iv_22, iv_23, iv_24, iv_25, iv_26, iv_27, iv_28. reflexivity.
Qed.
