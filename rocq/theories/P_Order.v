(** The order of the generator of params.cpp is the prime
    L = 2736030358979909402780800718157159386076813972158567259200215660948447373041
    (JUBJUB_L in /repo/ethsnarks/jubjub.py:31): a Pocklington certificate for L and a checked
    double-and-add chain for L * G = O. *)
From Coq Require Import ZArith NArith Znumtheory List Bool Lia.
From Verif Require Import Pocklington Primes Field M_Point Spec_Curve Spec_Mont P_Curve P_JubLeaf P_Group P_Zmul Q_Jubjub.
Import ListNotations.
Open Scope Z_scope.

Lemma prime_1061 : prime 1061.
Proof. apply (small_prime 1061 1500); [reflexivity|vm_compute; reflexivity]. Qed.

Lemma prime_37 : prime 37.
Proof. apply (small_prime 37 1500); [reflexivity|vm_compute; reflexivity]. Qed.

Lemma prime_10206821 : prime 10206821.
Proof.
  apply (pocklington 10206821 [(1061,1,2); (37,1,2)]).
  - repeat apply Forall_cons; try apply Forall_nil; [exact prime_1061 | exact prime_37].
  - vm_cast_no_check (eq_refl true).
Qed.

Lemma prime_81654569 : prime 81654569.
Proof.
  apply (pocklington 81654569 [(10206821,1,2)]).
  - repeat apply Forall_cons; try apply Forall_nil; [exact prime_10206821].
  - vm_cast_no_check (eq_refl true).
Qed.

Lemma prime_513749 : prime 513749.
Proof. apply (small_prime 513749 1500); [reflexivity|vm_compute; reflexivity]. Qed.

Lemma prime_27892051421815855583579 : prime 27892051421815855583579.
Proof.
  apply (pocklington 27892051421815855583579 [(81654569,1,2); (513749,1,2)]).
  - repeat apply Forall_cons; try apply Forall_nil; [exact prime_81654569 | exact prime_513749].
  - vm_cast_no_check (eq_refl true).
Qed.

Lemma prime_1863691091902891838383581623 : prime 1863691091902891838383581623.
Proof.
  apply (pocklington 1863691091902891838383581623 [(27892051421815855583579,1,2)]).
  - repeat apply Forall_cons; try apply Forall_nil; [exact prime_27892051421815855583579].
  - vm_cast_no_check (eq_refl true).
Qed.

Lemma prime_178259130663561045147472537592047227885001 : prime 178259130663561045147472537592047227885001.
Proof.
  apply (pocklington 178259130663561045147472537592047227885001 [(1863691091902891838383581623,1,2)]).
  - repeat apply Forall_cons; try apply Forall_nil; [exact prime_1863691091902891838383581623].
  - vm_cast_no_check (eq_refl true).
Qed.

Lemma prime_2736030358979909402780800718157159386076813972158567259200215660948447373041 : prime 2736030358979909402780800718157159386076813972158567259200215660948447373041.
Proof.
  apply (pocklington 2736030358979909402780800718157159386076813972158567259200215660948447373041 [(178259130663561045147472537592047227885001,1,2)]).
  - repeat apply Forall_cons; try apply Forall_nil; [exact prime_178259130663561045147472537592047227885001].
  - vm_cast_no_check (eq_refl true).
Qed.

Definition ord_L : Z := 2736030358979909402780800718157159386076813972158567259200215660948447373041.
Lemma ord_L_prime : prime ord_L.
Proof. exact prime_2736030358979909402780800718157159386076813972158567259200215660948447373041. Qed.

(** ** Checked additions: every division is replaced by its claimed result *)
Inductive ostep :=
  | D (x3 y3 u q0 q1 q2 : Z)
  | A (neg : bool) (i : nat) (x3 y3 a qa b qb t qt q1 q2 : Z).

Definition pz (P : Z * Z) : point := mkpt (Fof (fst P)) (Fof (snd P)).

Definition ochk (tab : list (Z * Z * Z)) (st : ostep) (c : Z * Z * Z) : option (Z * Z * Z) :=
  let '(x, y, k) := c in
  match st with
  | D x3 y3 u q0 q1 q2 =>
    let xx := 168700 * (x * x) in let yy := y * y in
    if (xx + yy =? u + q0 * p_mod) && (x3 * u =? 2 * (x * y) + q1 * p_mod) &&
       (y3 * (2 - u) =? yy - xx + q2 * p_mod)
    then Some (x3, y3, 2 * k) else None
  | A neg i x3 y3 a qa b qb t qt q1 q2 =>
    match nth_error tab i with
    | None => None
    | Some (x2', y2, k2) =>
      let x2 := if neg then - x2' else x2' in
      if (x * x2 =? a + qa * p_mod) && (y * y2 =? b + qb * p_mod) && (168696 * (a * b) =? t + qt * p_mod) &&
         (x3 * (1 + t) =? x * y2 + y * x2 + q1 * p_mod) && (y3 * (1 - t) =? b - 168700 * a + q2 * p_mod)
      then Some (x3, y3, if neg then k - k2 else k + k2) else None
    end
  end.

Fixpoint orun (tab : list (Z * Z * Z)) (l : list ostep) (c : Z * Z * Z) : option (Z * Z * Z) :=
  match l with
  | [] => Some c
  | st :: r => match ochk tab st c with Some c' => orun tab r c' | None => None end
  end.

(** running sums, used to build the table of odd multiples *)
Fixpoint otab (t2 : Z * Z * Z) (l : list ostep) (c : Z * Z * Z) : option (list (Z * Z * Z)) :=
  match l with
  | [] => Some [c]
  | st :: r => match ochk [t2] st c with
               | Some c' => match otab t2 r c' with Some t => Some (c :: t) | None => None end
               | None => None
               end
  end.

Definition ogood (B : point) (c : Z * Z * Z) : Prop := let '(x, y, k) := c in pz (x, y) = pzmul k B.

Lemma Fof_padq x y q : x = y + q * p_mod -> Fof x = Fof y.
Proof. intros ->. rewrite Fof_add, Fof_mul, Fof_p. ring. Qed.

Lemma ochk_ok B tab st c c' : on_curve B -> Forall (ogood B) tab -> ogood B c -> ochk tab st c = Some c' -> ogood B c'.
Proof.
  intros HB HT HC. destruct c as [[x y] k]. cbn [ogood] in HC.
  assert (HP : on_curve (pz (x, y))) by (rewrite HC; now apply pzmul_on).
  destruct st as [x3 y3 u q0 q1 q2|neg i x3 y3 a qa b qb t qt q1 q2]; cbn [ochk].
  - destruct (_ && _ && _) eqn:E; [|discriminate]. intros Ec. assert (Ec' : c' = (x3, y3, 2 * k)) by congruence. subst c'.
    apply andb_prop in E. destruct E as [E E3]. apply andb_prop in E. destruct E as [E1 E2].
    apply Z.eqb_eq in E1, E2, E3. apply Fof_padq in E1, E2, E3.
    cbn [ogood]. replace (2 * k) with (k + k) by lia. rewrite pzmul_add by exact HB. rewrite <- HC.
    apply padd_val; [exact HP|exact HP|]. pose proof HP as HP'. unfold on_curve, pz in HP'. unfold pz. cbn [px py fst snd] in *.
    repeat (rewrite Fof_add in E1 || rewrite Fof_sub in E1 || rewrite Fof_mul in E1). repeat (rewrite Fof_add in E2 || rewrite Fof_sub in E2 || rewrite Fof_mul in E2). repeat (rewrite Fof_add in E3 || rewrite Fof_sub in E3 || rewrite Fof_mul in E3).
    assert (U : (Fof u = F1 + Fof 168696 * (Fof x * Fof x) * (Fof y * Fof y))%F).
    { rewrite <- HP', <- E1. ring. }
    rewrite U in E2, E3. change (Fof 2) with (Fof (1 + 1)) in E2, E3. rewrite Fof_add in E2, E3. change (Fof 1) with F1 in E2, E3.
    split.
    + etransitivity; [exact E2|]. ring.
    + etransitivity; [|etransitivity; [exact E3|]]; ring.
  - destruct (nth_error tab i) as [[[x2' y2] k2]|] eqn:Ei; [|discriminate].
    apply nth_error_In in Ei. pose proof (proj1 (Forall_forall _ _) HT _ Ei) as HQ. cbn [ogood] in HQ.
    set (x2 := if neg then - x2' else x2').
    assert (HQ2 : pz (x2, y2) = pzmul (if neg then - k2 else k2) B).
    { unfold x2. destruct neg; [|exact HQ]. rewrite pzmul_opp, <- HQ. unfold pz, pneg. cbn [px py fst snd]. now rewrite Fof_opp. }
    assert (HQ3 : on_curve (pz (x2, y2))) by (rewrite HQ2; now apply pzmul_on).
    destruct (_ && _ && _ && _ && _) eqn:E; [|discriminate]. intros Ec. assert (Ec' : c' = (x3, y3, if neg then k - k2 else k + k2)) by congruence. subst c'.
    apply andb_prop in E. destruct E as [E E5]. apply andb_prop in E. destruct E as [E E4].
    apply andb_prop in E. destruct E as [E E3]. apply andb_prop in E. destruct E as [E1 E2].
    apply Z.eqb_eq in E1, E2, E3, E4, E5. apply Fof_padq in E1, E2, E3, E4, E5.
    cbn [ogood]. replace (if neg then k - k2 else k + k2) with (k + (if neg then - k2 else k2)) by (destruct neg; lia).
    rewrite pzmul_add by exact HB. rewrite <- HC, <- HQ2.
    apply padd_val; [exact HP|exact HQ3|]. unfold pz. cbn [px py fst snd] in *. clear HQ HQ2 HQ3.
    repeat (rewrite Fof_add in E1 || rewrite Fof_sub in E1 || rewrite Fof_mul in E1). repeat (rewrite Fof_add in E2 || rewrite Fof_sub in E2 || rewrite Fof_mul in E2). repeat (rewrite Fof_add in E3 || rewrite Fof_sub in E3 || rewrite Fof_mul in E3). repeat (rewrite Fof_add in E4 || rewrite Fof_sub in E4 || rewrite Fof_mul in E4). repeat (rewrite Fof_add in E5 || rewrite Fof_sub in E5 || rewrite Fof_mul in E5). change (Fof 1) with F1 in E4, E5. rewrite E1, E2.
    rewrite <- E3 in E4, E5. 
    split.
    + etransitivity; [|etransitivity; [exact E4|]]; ring.
    + etransitivity; [|etransitivity; [exact E5|]]; ring.
Qed.
Lemma orun_ok B tab : on_curve B -> Forall (ogood B) tab -> forall l c c', ogood B c -> orun tab l c = Some c' -> ogood B c'.
Proof.
  intros HB HT. induction l as [|st l IH]; intros c c' HC; cbn [orun].
  - intros E. injection E as <-. exact HC.
  - destruct (ochk tab st c) as [c1|] eqn:E1; [|discriminate]. apply IH. exact (ochk_ok _ _ _ _ _ HB HT HC E1).
Qed.
Lemma otab_ok B t2 : on_curve B -> ogood B t2 -> forall l c t, ogood B c -> otab t2 l c = Some t -> Forall (ogood B) t.
Proof.
  intros HB HT. induction l as [|st l IH]; intros c t HC; cbn [otab].
  - intros E. injection E as <-. auto.
  - destruct (ochk [t2] st c) as [c1|] eqn:E1; [|discriminate]. destruct (otab t2 l c1) as [t'|] eqn:E2; [|discriminate].
    intros E. injection E as <-. constructor; [exact HC|]. eapply IH; [|exact E2]. refine (ochk_ok _ _ _ _ _ HB _ HC E1). auto.
Qed.

Definition ocheck (x y n : Z) (s2 : ostep) (ts : list ostep) (first : nat) (l : list ostep) : bool :=
  match ochk [] s2 (x, y, 1) with
  | None => false
  | Some t2 =>
    match otab t2 ts (x, y, 1) with
    | None => false
    | Some tab =>
      match nth_error tab first with
      | None => false
      | Some c => match orun tab l c with
                  | Some (x3, y3, k) => (x3 =? 0) && (y3 =? 1) && (k =? n)
                  | None => false
                  end
      end
    end
  end.
Lemma ocheck_ok x y n s2 ts first l : on_curve (pz (x, y)) -> ocheck x y n s2 ts first l = true -> pzmul n (pz (x, y)) = pzero.
Proof.
  intros HB. unfold ocheck.
  assert (H1 : ogood (pz (x, y)) (x, y, 1)) by (cbn [ogood pzmul]; symmetry; apply smul_1).
  destruct (ochk [] s2 (x, y, 1)) as [t2|] eqn:E1; [|discriminate].
  pose proof (ochk_ok _ _ _ _ _ HB (Forall_nil _) H1 E1) as H2.
  destruct (otab t2 ts (x, y, 1)) as [tab|] eqn:E2; [|discriminate].
  pose proof (otab_ok _ _ HB H2 _ _ _ H1 E2) as H3.
  destruct (nth_error tab first) as [c|] eqn:E3; [|discriminate].
  apply nth_error_In in E3. pose proof (proj1 (Forall_forall _ _) H3 _ E3) as H4.
  destruct (orun tab l c) as [[[x3 y3] k]|] eqn:E4; [|discriminate].
  pose proof (orun_ok _ _ HB H3 _ _ _ H4 E4) as H5. cbn [ogood] in H5.
  intros E. apply andb_prop in E. destruct E as [E E7]. apply andb_prop in E. destruct E as [E5 E6].
  apply Z.eqb_eq in E5, E6, E7. subst. symmetry. exact H5.
Qed.

(** ** A point killed by the prime L and different from O has order exactly L *)
Lemma pzmul_mul a b P : on_curve P -> pzmul (a * b) P = pzmul a (pzmul b P).
Proof.
  intros H. assert (HN : forall n, pzmul (Z.of_N n * b) P = pzmul (Z.of_N n) (pzmul b P)).
  { intros n. induction n as [|n IH] using N.peano_ind; [reflexivity|].
    rewrite N2Z.inj_succ. replace (Z.succ (Z.of_N n) * b) with (b + Z.of_N n * b) by lia.
    rewrite pzmul_add by exact H. rewrite IH. replace (Z.succ (Z.of_N n)) with (1 + Z.of_N n) by lia.
    rewrite (pzmul_add 1) by now apply pzmul_on. f_equal. cbn [pzmul]. symmetry. apply smul_1. }
  destruct (Z_le_gt_dec 0 a).
  - rewrite <- (Z2N.id a) by lia. apply HN.
  - replace a with (- Z.of_N (Z.to_N (- a))) by lia. rewrite Z.mul_opp_l, !pzmul_opp. f_equal. apply HN.
Qed.
Lemma pzmul_zero z : pzmul z pzero = pzero.
Proof. destruct z; cbn [pzmul]; rewrite ?smul_zero, ?pneg_0; reflexivity. Qed.
Lemma prime_order n P z : prime n -> on_curve P -> P <> pzero -> pzmul n P = pzero ->
  (pzmul z P = pzero <-> (n | z)).
Proof.
  intros Hn HP HO HL. split.
  - intros E. destruct (Zdivide_dec n z) as [|Nd]; [assumption|exfalso]. apply HO.
    assert (R : rel_prime z n) by (apply rel_prime_sym; apply prime_rel_prime; assumption).
    apply rel_prime_bezout in R. destruct R as [u v E1].
    assert (E2 : pzmul 1 P = pzero).
    { rewrite <- E1, pzmul_add, !pzmul_mul, E, HL, !pzmul_zero by exact HP. apply padd_0_r. }
    rewrite <- E2. symmetry. apply smul_1.
  - intros [q ->]. rewrite pzmul_mul by exact HP. rewrite HL. apply pzmul_zero.
Qed.

Definition ord_t2 := D 17324563846726889236817837922625232543153115346355010501047597319863650987830 20022170825455209233733649024450576091402881793145646502279487074566492066831 15511699678189798553051672416861159023986881664249705525317240441617049428951 2108690723283969944454699866474802112021938387229963853987791481931345511297704310 (-19187800753612671420197788919647723221414876503036394789785219763036575691720) 2108636929874957202143832322303475478250951156980552998118036439758522715892770480.
Definition ord_tab := [
  A false 0%nat 11283974488734879836447162618230122167585766282503657838467913100245505351987 10445020144761608541035048475205585114920811274082480410239005399821245687085 14886227965205990826502831783021118313100281942376744160002239262914254497331 13091931479583100302138717198981048136515104479571451243802073638753762663207 12981075546218761327551530322781141485105600074489420712454107817683875216203 19044127267559772054148594792959573792878208492345407532614099820841989204814 17041545682326178715282115067657628177033329316195144476108684712853391671535 1489324139794689243842886938311155227013221410909677504355673967939528167508398729 (-22823396064044787475485808905195434102861385625744928418618635217638187496099) (-8132187174274296501875921305726200569759683714766994843846252106234477026029);
  A false 0%nat 6713168844609382350808963833456339787901820778557047205896102121226264159308 8253048004944111235470351707822307895701245524841349152930196594688990095747 1661568304138727819389234668354902047555686755346093614394825654097885897738 8931275919202999897854262380614783768647883648110084528104982580407559141816 14001396480628309800202628169911336639506076578395378856626277040210352292852 9554534771852355897257661825684382177536443908185462588265156747522313121199 12688476512825143718067186362560396067062525865772716402082523442099081784104 179301300213400527457837414124490332996654348416950028011534763831617606059700376 (-14697625563367607157037884294578518207371123487795647996648504989781308961871) (-4784239940277683515156146027479374531658175807790778210874977264562661222929);
  A false 0%nat 17136567613377537256093048180510089265507846305583794083097684103439876474719 7316015029835499373274432062729714921472186690572998551262998954473726369324 6680460461419721166139772836410162479467411709055275970721305887912496011699 5313479156059824782528981767270267781560607969332146081232684854455209394773 9545939390989760650540971928037190162092552682878899479266265729052033570904 7549438205397060671395027585692296942820491980711933086689797156856273293909 1420751468036889293034005639988108179725264522618682651664219882127782807345 491494833080170199982138594039620670180791891883887057925909384927376129112581263 (-11560812275634530953601427400787692752360117217693609891882923797768276137352) (-474877730235332559271399411569178659477700492099487430284937626969358062180);
  A false 0%nat 10862522882589002587835217618836831653115231123023114874020014399478027399922 1175096771771988183359324051800417288470632767529914874773630104978462904125 3814263790000931352161138339103704370260433835432553813545589755650707566350 13563608621762527308220488713745892911756258727815670273993209468888829579260 11700256730808231963552833863296184580699155666943767634072199962465959640814 6692291544216367317714713138161619889865256580385116892516568963489667642790 4866165983016950965364442264811561820004075440663685243222725589066118669681 343953713247271098468864437920242591230805759770274306830422825635456765913796207 (-19051287794348590719862174379828544428605120455935643619558430453111879852565) (-261246001839040232502948218959358269902989257047089772230278724938333334742);
  A false 0%nat 3159157295926499193149445380353490579135947520816066200146599058178702160761 1993878031115607811290687254767541017673417544700729312366435593051367955543 14070595864251531320663117144222177679162022863967426258491100072211614893903 8597696595283231054643133202711910742972441099527662562425268145589159372221 21080311709558621321812626015144403237260036132057005741204174149643663356765 1074914438706730083217265966571205754708420294268900703929985194086187627830 19066051686064985203065357651188409544942536393013272060538900743545947116591 2286037782055350821076314908676653060768277420175498774206418300457903806077095737 (-8114706719525289399045894312541075495076913900218571689539498792477994087260) (-1736794580521996195395251170002816664446271454363115959783438798424194455355);
  A false 0%nat 17651184532316737419831499076734991890953480325431438567395343673919659966988 7757589348692040778066237534464717421991190055207444504110336526724409321281 1826290613950140248729258549597413647275447566865440467815561271749915140056 2500475830590628181922088943418005818789616017235597215899587279624702735022 969484355542818035158295466426431235654981196777417153825320453928977627911 1823890879586368520095125669888441147220455967481632219118963789389955086866 11178564669469966311046467377859501686736983720214367875477110511636448281776 13645975224620938664941323702508641858651176931622336328083223977421825265368080 4546671657189816238576842963791922521945706919622716868683621741726241763035 (-3961885598643230699726666389187781688477458931199065440769024662761022131158);
  A false 0%nat 16014085966043719204755318756233338702925053621410504855264082342519375058197 3784015867958352296136833868069920517394948834796096917884870596244935355758 11058388111111735750173494623543448840214246238311737328450176433435996328180 13970928374241995122169077489847971092399189532068291766367157346712639410580 5986057617674594262696582340161812396984050193564403914934121293135894105751 7096219648269644593388326223708295974694368445635551706623209517322170356280 7724610137300439641920167802383852621580810164270388808501710254237620978205 510183732631054405289921946087749656001601773645916244805421445360654844443001475 (-16634926580668187339680298227189121842900263441518490523989020865373958890228) (-1335422286041209341304892265780281005781116169380732415594116872918588901999)
].
Definition ord_first : nat := 1.
Definition ord_steps := [
  D 10491316709638549424102813047717062893726301022349030777471519052656004564596 2403727092602280703826243767824091897506875624452025541044133626015463016309 19028129445572704637467300200903536232442861683414662574780157032183524231654 981365035306326961787998780591232016460947445667625703887221787339988742628756063 (-1648946857061655684904365404263854692345267669623524675153707013234499553718) 981352976991574872261639866508322151665216994788120685187327019842217715823345471;
  D 17575516153666433400432924447702558477423409923683944849284918792391691139359 3840342880323340477739333761922907061104957014408322957888704118993497812304 21425092159913594789614806428148740514538521174257260488091018589561010756514 848329000813991722036934832513427458466187787181230055136747574870719216100384151 14899347144300535099154253054858604781089900058883317088311992359373667052694 848324713786085578788022541947587548812292121029624753875621166101732523272814663;
  D 9145855250350518170657258418921113848738677025164293255777035204129961738842 12579128539673059527976131359936222449058781619804995176069915793705338753645 2777879274121261658176913694603674775250091081593686568910940561687536332667 2380786672845002376710725595293414483919110244506150519177508810175800176047936897 (-5006611794060887726855790356945325020376992959428416935500248771460157207074) 2380783728809352229957078687925451285483137136542636676809080326872311031335787127;
  D 15053277865897100040334068179484610661745640424090458624357488179596392250936 9597451763076817662501848332820535431126809304644531280767699362812846812403 4095689895726675000378453068989459597454773876817595420210357997655860560687 644700045253676734057139886846386113717993650600586690131169615907993059163065514 (-7695465576297808969868702903228391535439975797106459790587581068247386494044) 644683790996177438665334490946052509176320377402886482833991336613678146374798160;
  D 1372128294752707815765621406952443240340835887040904170651855893525061848053 14428576401588691002128415712051939802517215131830729574676198110169734192605 1459213997407640287035453495693992342953567509834146531918016267181784841219 1746495160639272598465728822682326602152505940488585200018335947108528115779125670 (-13109503090515757972946593813650247744505500720297680663707168257047018212977) 1746485782246381996052293315290446685265769414209283216492619598739720709956548218;
  A false 0%nat 21218091473515310221155705404112260851542725074272972851612490372509920125252 662937619144307874320021973752300076613973065561017786583719391557338878274 17640384571230688863476763861621192663285060420204543054692282889449533907103 1036898231610808323995097008364408766692119849214598325717548440240269550756 13895459428742790145617864444457266548982901825670624378778219785401754467475 13723768899834938850013383223657628529157681095393714636759444715459802604040 18577536767198729003823550849647692246678393571192204399824561985801440095702 1889186551632197273333795655174357933253377980975600767625649188190233014476787394 5800172459702279599986917133434566562976401003967385001046561745209525804094 (-562664991709207572810585475452195916174258499597061216004706954915885819897);
  D 13162965699580187608719204571260292418044645354461242405641200735905366236503 7111346345021187837262421664820042010840069156046158745259488160576749848609 1189051253174840728593658475928571863178606493462111472521508061751263056655 3469898896819528676226711170172898066843567812132970973023094510265842383788722613 (-570219423321151286704970703176266834342470668473093476371007779136651428343) 3469898470347293708888116969009405304105656122844578885850263730335187408523531791;
  D 20478510285737349360332083133773741454087775195870764985376836500056523390850 5971419417334969938459279717653651212710118958575094572430261706027803169325 15194972032410693849826775069135367438935238705173529008273009958109328427618 1335403266401850475774671985302458735736822892631018183471616293638754037562064539 5663203563132790674402443648986913350892834322876637710605959530799516279638 1335394500141084758682761443552865327126846089252516578923525121945876233087159707;
  D 19956623924982798802626610888654128563976587065780593542023962972976259763779 21717344359261043006223445881350861807530855454495169141813722182899411216461 1366677897884868242241542760992052534390009313455681395744626089179717798081 3232221566273378871345539698774999201657495816332085640662249841422033168698353432 (-9927579493445099550999426453222533464492066394334195591488405033601025295153) 3232216952092384838901397573171094636469604472661803169917537716368892703226642068;
  D 2898139226179512546844842874774814858913671777995275437954191524299237615524 7018547569272936667074555510645115950209881770094262045948962222143702450905 21006468461757260273260026468700422623147680109156769081027232908198769804034 3069597120635171602117439715519857505234971872852067649363108261414769474367486211 (-36820227302877796988083697149288970625016755524603688895591935779317638908166) 3069547289271521940808797942172146592353292180292429739918369399406141613888086707;
  D 16782437912804161742880001537355515504213298936694489688707965992906508419830 4160373243246573953160694663449222524008554138209336704715520372117725322306 12538459076377437106200461378867181497726878191303496462975946016723634712203 64737775420104350523199191650405463583369694416956455088511073995028958359836966 7755051692490788959451837913125737394638688173664641941112234732258658208650 64730891144811011964835356466340912056781440941310355945241266275775402624914557;
  A true 3%nat 8865712779799864694152879726412782033412208364882482647234889833054468286237 2564008702166677695836281778952054832009429856832967480657357685692541732556 8516742616183390358323602275165445776206704076283169812855077831805733292832 (-13139171732240220646220071374024479583710351049090505603338410819023302745706) 8285339310762671647715446960019348362692753931811848954982160015811064944302 1390580018484587367832608602750983869040863352520217534547031286906506592426 4714097595960888300005180847430568379850419262910558966104158820674133922807 543848215124012455943603369263750570971303682071775031983395741658297405144509961 (-442804631810353405511547978231789305858662309525802101783083088350854807730) (-552213685204373814110716921455344521643859527873413966684690086212953788214);
  D 18022120397839284540724923361334697012562231273490761173291913527828589940501 10531181969763958673666842051895928591783807574594528179612618992723190218899 17393780490466135554165072827771951943643144755401100848507353902355678523991 605803410338732066879956882146397514357905710646611270105134022729043314712856085 12244440008519216628023305338831071405904594615735182379192909856873514944491 605794440895643997531425584704394206451380651845668078701890646241293784701840509;
  D 11642976045011964693930699848308776829342204458077271595143738202719204738061 11274314676902831597018501598068219980903325452352483333171461299944121467822 4174220282862367884243635002119304626539516929072828636415925862814813413023 2503322691260023450860048958718258372412856711125944947917207642638312324780085734 (-15121730600273535307085263230339689605521357960123369847708547475539759335435) 2503310407356654204747989983191390313203349496027244622148137898942810157070180861;
  D 16029792180928243763689577626271704889189851635374901732795092612338335018365 7673910304548440807855460969521552563704576918975916428341351083076466481364 9857752914159477783194144108286823298239661923677614837828648801301791666098 1044803467639539684677922696658320952894793523086269566538427073319187562095608558 (-4774957105568441977098462337924273871523218340872032983932352889178804091842) 1044788397089725943729185495949969954950594196480397110259934439496291096864022616;
  D 20381797157246144523913247868696860086638415098648545381145125343698853070494 10575330424146614917153668051444850127785694796546668370055615519088943001976 21844880242809570343217513435781382455386637366290458634583334289740804181202 1980434838281796224773472342736223574212800069399398071717608034180398171766198682 9101486327876618691780961486265835057630254015837377610860023466543616134804 1980418903031652556045159057840428443463350871883868824748248241213209951950155212;
  D 9187862730524984339064436832302167646479238046097300808199937803595612729925 20978700916539209415371641902273413076039510354373193998928492239754930337493 16547902731010898119044881152445917555678789204516324057139422002623317573385 3201767757560037332567350462939465140564980294902892036555736961884620522619555623 (-12748790390115225789985608669806277365921508444728475423663403241353243996339) 3201741678320479732795517892999406909265434195634420332817433958811147611260179165;
  D 21545920064109496731369555681685245621891083489160797285869425155268110590878 9364279422361387179367482094598350722407441943609402349906903151941295025020 10335959590288885717046016984848010391771190267859352641142258318343209053535 650648751734125198689672243359767153376495926402914208410721663147547220358324342 (-7437832740015250334655285553549412202845305853407450517942641706346626630960) 650604115871680073621423391726410792943211359311675132501365647552489996825172823;
  A false 2%nat 2793724233878114924841066004579179093745826949026453712035250946100664636758 1497004841068828804634675189328906224892045609967934099186531383430335574802 7513589922424565434352635477097865551118352766431321617084501488858711937075 6608177739516730878638391963259393270872592486661478924163669162675774716597 20668753875173671903108181152267072118142831689338025827910803101747907457128 3530838361807918724425904265253557221027469255577468950555915594526766541836 3448642051764403932464257077861695738481360113453084369419655056384721257176 1196893940025547044832313175439276957022065039817399012839743779659719596894388072 (-10555847170970143721551613363959173251587854602653036651424377174372771536580) (-235863329771753104187322505939394610235762140571208326542433037704645374034);
  D 16260445053297245282458693811417563463885790261381832841811334275684012515991 19387161457322485667513950560990648095368722774856932055007696492682961924208 18823765439926625267921552298025811134806818729262168944587631692383001456258 60155036256331686442000564663813858619292217411891936606001459799437772666373938 13601748115179402421192359723305438529267220445755711943080148986072559513238 60138158637192953404680701844115017212099842275338878874536772065092982397305644;
  D 4600859968380487206015239642539534074662547062040766529750007777155899866443 14347412150284466035517232683879646230036881505243060642842698709344780868091 17050400336868062676787645749376791812513342302967492300183484212559838156141 2037852279609291348818672938043630369407085199585950917984098552570924829725002319 (-25220902660389898413256342872274119839684497055145618267877202354728935367729) 2037806759592653245222512600821904631408306133898115183745240277173840146515725011;
  D 4873981601016181245048074203272118704867071473918421829151904498630692792376 12560047681060844175742652352141208387991268614082476076578344763909122334335 20210428611597114094009979477091490748093074746393785636500071209339562793729 163157577299941351055311598550142607260306806236652948641407111216066026822011956 (-1531215247330063422044901006551177273153024937456734768368557836406177269466) 163127171002746391651462511849716463146602883814253936880217495723903524320110722;
  D 12149441580099429495812428424492714296228318624197864026512221960606282857350 33810321536521093664371283310451446878901405371370498379474225551945788565 17079202331005763180271814182449461930338267226982644877910990176485653446986 183100297388894282773849779594514531114117367249071348139127065968712386154205367 3886464931999871603226593982486490145244808591113819259030700186095487562540 183085856437618558853665218088641708832090764113121272613003347094263402944982295;
  D 17692594329606144400463495831049952606578799020341795011715074818543251894610 21042248306049263804110662964174760083113920344296122106065088385125221459846 18853175358378318899158521116177718940053190096349832935717851174876155130363 1137671340611008136765332353010240685039660739043459512608379102578767610902077486 15201769842209797009936987290398839632977609752957154942836095720166425277290 1137653216018465600042520119271174426792349240330780314949219765511772043749858657;
  A true 1%nat 3761145563568947990134666770492552001773123308897842205213049981703034686960 660847980871484753285385018614117928658847160684742915068282341166426229293 19535378768625551877705088390154249091055233450834245715002392956594305961710 (-9121005474206668831588076591810488806427303030517709622939650796962153526340) 5533858096593176040004311615609320964180090519921620927531949888058932515204 10041313445517870137906718221563072730759567488666018351595102732014199127818 1800287203863042548648716222769167284098947844626729037941173358572262805161 833189408544956226347089658429339410080705061734777689062344213474197770219246487 2714326200740867593845497220266212862601695791047380366500441219575935189416 (-54354119269770809603140143379844443894118163042383746155223400422266554052);
  D 12962007897851037225902474657371413177294109831385797458349449975316741588674 15260837995015604755917922130796945073980344993898579998839462316690223599637 7558545219373427747095468136476591671845893436779806692149725685574128437913 109029632096014024338379397857259060701721564114171501213380523673769145712541008 4248985744147627563271354276250976630626924888233988236690300901750202300306 109024322251141641709523885896993653804832652713382842952867253194943108429521332;
  D 6728591906886890214997245629047619226759137263699865043774197726617658932333 13172110133565006267158470643546424389949287946372555338686816081557321773192 14436521422535531089307058924762838344539118485775523525601695054578289697208 1294947959150608557648762288811207128318077692098427896092428840452565178075701233 (-13636761332504410671755173839291872391446801333689170817045073286701084352636) 1294917991199019928686124443534684562446386925807177766276833109709564216138167687;
  D 20844822945502892003354860180269826185871415972524863829050314229705349027466 11838137757079827580678166701146814202122735588355079581307538036208669008654 11234317391220409217197621443559764351206004495481006826860589893612823897670 348949376788477891667242888126464869310970479819419014854282730247070633228669782 2600384598443281146631597970693623741007236985804500363410294493487444529644 348927447099080890655476082428534648382775272894560583039628700927474994111579492;
  D 14115835904166828882854623545725736965260973590467124390209798560896666948064 1798729363103336984388823648792209126558189385165937958800638604148213740014 15743151812068416626286535909215791112773050096327520561448835332979280368070 3348894260310247598188689696552040925952226542526667503698897542061248335385552238 (-12394783130678118982397210532082924635972892822075035583595200951447477878744) 3348880161385891253672852358340775610281687838076711541588627082237291768224154996;
  D 3016099739527945501939763012125597266598115900994671065805476117630036698977 81562665941806614913966626378819085961007741390121721623589978573834729454 6927784883004891612149745111511795339545851904389875818988201105044013644277 1535739050341568618445488691779388767179864311980444647633960377236497090363715407 (-1365401829877374364344402626259084389699146149350674876893022207872037991339) 1535738728894877410460483659546557363150591095948868616220109868536883662509367762;
  D 20209476705924081511662657349382811149101662066316663762404826488487801356588 6611985489152629044404752184795324448383523708799503983167553118985289746479 16750752057984922791798192191911598358771066917723476391912432186700895282824 70112521105527621057804532922222093317173440248630205626977515321563978036757176 15443538946036314363683542233752838361595717809702030492985537304343362224388 70107460441904445856640882897005973889038214802177263659216326709920505028011038;
  D 9791914763812535976883521351073761749554093928408046748705232851792134214982 17080412492771496221546400368924829896087047271835764355717540573831046389622 4706364077665850466649259978714633345666912306662714904891535426761204446208 3147854104693413208811196008988344918533732669555046127635534100766819427221796449 (-10104292923140358744841682288362340648321630285701837981437931891325922440744) 3147846437410799987222247498520464833070879101554913488800857405914593147285176331;
  A true 6%nat 11514168148160267663543889395313034114808440938141856004525019412214519888943 21523571967223395621523360869252765376432613494108964850599175514987844438408 10698088877383026327232900854738787961979545481436087093792425584539578799496 (-7896426197058550509030086477291345362589056097078149260094040317763578339536) 21188469926765212493474245930068255928687462235788943619649593077971112387705 6053607263087554464497435278594272574024665718906354014919083203296308384381 5910082969701002970981079705640800784996941918520270127173493711818225483098 1747027269455299631781764941203924322806313271530966454218711024944977927440953446 13412568104467111156630653621587274428629979819543997063079724648532004957303 (-5811617537115337227573176433503916247261447094181538462749370222617546644193);
  D 5915614865234310727010416446209259585270736579063419740118684817825269667274 19931109638067046116165660205909963582799165867465400581781140892878743211717 4136261536863257399302261220659512904847487616287739682459838786416555279654 1021829211737995403430189107062450589945339979747568937739071590956107413686567830 (-21526786141957626366339925280106950074099452037863279571444632066593685836276) 1021783115366141930527242867336176299427872803180881552726635123524315796584344456;
  D 8392156479106591493735030426133239402219630918777442453690382504828408202422 7798729630083571395537369263150777773947206697764113341310992278728596403395 8104404226539243989965620897708240878361591544020462924328104637352891018757 269732445150549119118073309998366064187713902625796774966744950249238433738068996 (-7666038313562371681061386504620245194974442006119652833902522850495105619286) 269693259624090598450214687797504552868946361656542296726817467077486683150537358;
  D 12408783715959531769038701819043948410370676393284195499008108885345422094436 7669898139782411278119306446882061614381113623567113395668152105926657336708 12029710938369566207108309562969994655565213099978655492814760029791573334528 542817140468458502388360751040614818780078419426939779723317821808983808574626041 839617986675942461479270769299044139593822178913319414592290347791944977084 542807367777864420312092796048300608338100927942368118475210226503266293090368751;
  D 2396895287667981538566128316305880623425549258982483532444708669431049010899 427391153264157672370435445577061115303890173447513020777958932276955777239 21198193765069289477996014898750933881329705093241550899327229147130278931712 1186761904769608737677196465650675508753581115779351806999222701952869041070248656 (-6375037245084614869932643073690069979272726152995407368421552007946907154464) 1186756115607081092644584909169034549110319471848169316144347653418179768429817438;
  D 1673851680401995130432810007472083939090210748333470406020403579229090718428 4281815837778337348558197337603701148062877204324774739910679176429106101971 14680920243648548560278118897419243704302634354552084264589821207498618620824 44279467411782387984107929409029375285079861430771652813456449894187997014957141 1029084859349714138104242051491904554644044744242673994364446798928465719350 44276578814302069593887210997169514357512986183964094622990229851816940412239401;
  D 5885861515567702238305972749466575752176089602729931263371505416196405280044 19251272271195173610923712803417897109436370091604113941615200336417245509717 16069522545918327678865934447618332983391962447153256980871154078596960961180 21595087809903694937519047860832777088543426625507370859878111444404002725272333 3666294070564221228654020598708275536721726638785590257131223093639260117032 21579279019332293293267014726292129074817021909020604252179888411943373708807349;
  D 4569315211600819685426126001857523716963031913022703091693294335461113818493 19764162842057210600470311932377858365301288322720493410543254188611220734562 1905335197630916033042498143460730612608507833857559370587374994081949511420 267024925338527735251241252528313300861575502923274466292360437953544334823100157 (-9955781711108260844635684494160849921301671282618466023971552696725585355308) 266989340923287344257471648107626422227574432224103208977658357006045072771642835;
  A true 7%nat 6914818233198628058280099875126927564478138203905198067175923871945993471508 13620506650726175875013782376473985422319652680815861188912891825971832864973 2023679058260308727389523603081829675997637695947054639145944552951174336411 (-3343046174742029064015862957088432845416561861980708473537520124453018667996) 13174225700086366040532927320626179453928377302382703812843655367790965907993 3416807198693737897796705789272959975612022820525604555520586775272674745859 11972982229986997856409899073033692231601822694277524652045517028409705320587 205475773022527897167686939438075776220820003250973034478786918774974648016562013 17452549279519547259632690613333713744296018552251708967204592575321463867972 (-7450487690922662316044840236986527961358700227039549927993500419402444217863);
  D 18607695514834694306412876175294937209073949139401331109412223681442204642861 3749327117858500754084270939320458783546838488978923025534573156684521294760 17180155313257673096126167207753975712843669108365753241010722353837691792286 368532428325340224014111989108201534026454973602207306874720321636088608193749579 5999405446470386848131562270806971882076187722617027590589334481553267987134 368512534063950690247670347152165771605695438846115776313133951045622388999353143;
  D 11001838099383716989868943270806396054849986316422589862371025773317612288447 940005263020957767789037604767981424023126967083443715187931965051883524942 1729546158847567698954398901282224019421927564458732330185601417616731575807 2668636796053456075243012723954400335765877722045394736041678392193769288708604829 (-5505443660771545200371284537044456042584425267450192604194947741915000457423) 2668635437301621151294158355613986003762362496983546188136450000688530918222340870;
  D 11520019156062448254257997958567368273544508227996978406549611727614744690326 20634216280280989158096185516972635134264942319351802415776598321847388613396 5918090129255500475604300107264160121398192003855890953120938423083306891084 932899159388675032477229669321816376438460921758746557931088294938641606086202740 2169792271666539706186408226577035326851330853864120004366302829530390479908 932893499620908034084054182759103354531595223417275261517303073250858172951246192;
  D 11113196105895673325763950978637332309849852984367529393734551376742807453117 10912791549487840597399126710905911079008060401625581862417694532947182924375 2653403744227304302998217089652105923370413608761136245176408394691060682815 1022866240964964631498951108380038081656066867862124791230666231614433004407215553 (-20372824812463265245261653031368476207470390692611036210285949183650301831661) 1022826013989683165212656125361954344356933362005584089600838685969453268160087077;
  D 21225950400407402194781919062302963827720331226476147459598986840920106385605 17433502849243516599270626178220060358840719610217976387204981536138087177328 1224107739521304358043367622491262670357654984885962658026610434235495804062 951885304452956718080144609107599757062893469368275962665984142334019426436735439 (-9894313408740359368282691759715193619748093815406312517513539668940301546720) 951873447926780112075820143747107451729833427402701607367184783642025303421716235;
  A true 6%nat 14530914953158251248357689571696016044199123094476882290986245156317184590156 7416571514473501843020683673629844038011038922401467671801828615133474272813 17383950792736055920578637590730307987229186981513323934120346372229596791324 (-17117096588571906012023115408324912026463566931611418758710039673236779291992) 5217016581341246245167726029791874501538084388963855912600000478064057284441 6178748874706699076162185925372889997810790077266832839765575307939713175831 8972774541597970688885179708618142102489892810389027204208024521724803733487 698979738743093296800811087434234546346863176986496411590797342785991198646738481 12492660761007313038139124160238170885831073201567960609057554968200020921211 (-3040318241197246032069024796354699857830315405223878460307050601320602375327);
  D 18511336261962091926428801311374666014942614813116639406875316939113833196405 12880598392967336255590107329424962653054218884353426866866209584645011737212 9294191723049674009158817584027550130970197964089446390162235294145088789546 1627386751500221927628820414862363767996946837067361321260598667988191168097934719 (-1986967698951210689026879462062030755366599594168739897014562604431770982278) 1627376256102378640651014992977812354195902816821680694546405497546979053989117559;
  D 637240085990684444503848532984751439773913867988002260472733186210054986945 6386372974205558712599760146278944652332417026938407197353335042850337619117 16555005617254856741579986213568667623232639555980818427001588195513854475963 2641076432750510075533085852590507924078858202088176072312579613377788217995041393 (-21304801200458931840837002837497013326813273526024413833456285285926621363805) 2641056442746152685288096202231306056139556478367947790800072007096518281030566407;
  D 7041231650781916437884003577233261183772130707678163897017006511104202944451 1035301759020569489317940965233078851458710252924898877915121439363425865006 20102521071839335074815097344221178516858174741716367331098490282546159651688 3131618484802332119837669514256932608247922568605697985284520006360830072483453 6094925147083431914632134013929467833536998068527159119968656144032338932574 3126940919062714287071249581833444124947456292324308220378568773054576151078335;
  D 20492032739282380830517893652622528247042860511999553074350206950060466216354 1511840646948846676717838350657457369011878901892584066757704443055442048337 13696266203950222983025569352150777691565662820710324333830940329378675139177 382121526698609593800671127300321220126232454291006607745485560526104559738028727 12156514252323076281795490087946005851807489926131040990660094007557341721438 382120482746769474905578626691511135607863633919104013485814997345040410858063617;
  D 14889013981179210915733406784490347049563252417907303531545580510813146783749 6950580079736014627488799311307594573556897787200477892419873694567349005389 11509951011112570299483302493393689720118059008684811929661698392466692953273 3236490076287002618383113902869695742055449504079384822228358520285140838089961688 4998594272736239109197849961648417540198979931323053935253596411244450509593 3236486212470204015616921209331908010078271222459528849247680236771525876091572036;
  D 5305040746386416740557907559445999025188757304355897716305690897668323631100 9949043005034449476653845210757750480929527331666583153653391164919370849191 10194533555610679090271523160886146785447546998482212429804886340979054324706 1708585121126587455826767076664567859719544388912295424158244592956009274383220195 (-6985126808090130362331865639650328395241981164369001125808383880646371568266) 1708576073027989030430868436003029952934071674872676488818875722505819584147622995;
  D 3210485504584580700838998572769810082772482049613230213151922081325714439983 16921134850472482758812365403241577010727083981861994394269566872044097010861 13424637514411419535865588987513496808145287767739824906782811692323018662805 216915549652803531349433728807415694702019016697254711083835528115072573237523228 (-2853612018101122858957238660302010268195509751480019519496128975468346519405) 216896127033198050261655913489690022431575757317427593881008846946951030169471608;
  A false 6%nat 4353577120346317003814579434531967380556293789865512522848487253403014466201 197921221939396830133806793142977883922953653285481240540453711263082565034 9964423013718872225093391490412507353202691453495142980935406759848664704050 2589009652878935984813778007287370419411329629270153270074984957500294901762 13013716638111411995882179244181894155198556005400787989588781350070497902492 5997156384475763047061714810521287524107432502449662469303890595591766786897 16832749305597545046811110751264943900459955243235295465974084424495319002871 999418509115719998093867951801695691173759300373532070847252373143082733259281737 (-11435409919041775461796862138619098701734716557216319011559524668595098493907) (-152207663752199941018257475642190157263609626008555478365757016629876295616);
  D 1327862926956153685421891619434831126757826771788474903549162507741248211656 5830462753774902516668966280236185009094649134064934256664424418307525604166 7539466178500472953286471550839784459401889467832938018751820176665522761148 146081988869807318484222470455263850122831445824921822568799669515781061499546724 378652917416272741234336588438706175698897039371706172483343177505647097260 146079976971336750200492039198812928644893942294277689881102033434922760977670524;
  D 6352421555941240286367040749775795446318072571733381995139107396446091699907 15606235435881131455259292985916457634242758815367681832428821010633901466842 10851958704954281070992777808487254960424593789813120165205550059665680482075 13591278298241987837986307984905576982898250552529095987389091072026423405577993 2442046446534673774914114193232994020860016663492669045322354611247833792049 13580434722733162869763583487236979622304764379678533761552247743408983591999634;
  D 10796816245372592968003531146260339952066542927251432020187774464640654896923 18809386581095043988373887708174371751573608341555418841398389961259186108958 17798122514847318719487791527876729833963862518052632214504769095194004328567 311027179891964089516983900814531825894649927658325281186876594734081323633951241 (-279223622943190868423264538646910246754584706893846177372355628835800155791) 310989630923754441005079481644381742942116253465199112280716230471386654177152898;
  D 3240588172303964666056062997582746492381731389131845416180313995114832860162 14188734551766758440490459114899414098184545503233084283979853382904344328836 5370973951596828212352661824663217545608610928043330534802602195968688711811 898469661132823548384003159578411359406730226238300282865572989865350866909502109 (-17761035859456161566773361316159228947315119727685098223952677489448083994958) 898433852257008933695598641805145646957889521541053173503234671915266770145030036;
  D 19235407453953391867623841317872463599505853056022832082384394455842222386720 7655914885154476102584422901710477277684662088935368353761313614070258252420 20381638676491952285556453047817749769976728882982654449947445602219780270667 80947085829144804583787173806516574315975811571473326512250795776188106906547637 13710074195623613233341133929002686222007494194529154327817338379156614101328 80921561602711490683562823085069213519805828981537254134633374675901343949463612;
  D 5440241858658495543608299822128494839513488291224158069356717760611488144060 2591750361322713152986717444842725052493258670826620713062982886307633065073 639655701489898890389726527823591049086589862286258430799748722755322394053 2851723219399068557010601947318846266673434789040199036080725527081196635583663691 (-13297065665766454308225174445994095741852573462135243288861695098769069707860) 2851717787994910214514929178471792738236700396422423644860629755077510793688898781;
  D 20272014092303972331939558687431647817186938334897543699468795026405174949094 13244936496151288731990319860336299713899799039485703805150310468874671752484 5686742602026170178603455431870316105073464191238567223478725961953572017300 228108350094549115347317062194822986850872479568387202177958653177319337811770637 3978493343286816745147629911313831180099457310630562654226897592842612888320 228104295183196737361965810812982441609522161607195354769209892601075389358145367;
  A false 0%nat 3882883438259331037104106811781331970865002917826481701163355494979819137372 12592779919456285912022289714377739999576302470630058954674335898833686125161 4134783943071168094286509582950688806335170980716737482112696466336674949394 15319278557175816006538322782692321245674497582643702618347594491006389073688 20045622050211177804532187264454899661749727753840598434377669169837239487687 12597947469450662905000941882313334239669767268365340785878646530679228140661 10482277769548851030236418979493570421281346032681825642199113761178901083848 638801967089025453536454437379765115290637053436235821800967454762207774039522120 (-27431267554690123767809496593178825442538203291963613345696904567452652362538) (-6030681301346767901812914646893040487150194832935574123100096782684485798062);
  D 19632063964038608879985505900917578233021762064025310180181411370817321331349 14406661205141701195703517250058219898236294008023443705964485077479057934802 10618657472550942480905362849964888808440269503677691262341433521195953848022 116209054296151500969457860768917408325465820859243762470322729326732941529009147 5056302151778606878322955300796872276411178522662216666732957549346523336982 116187575385504677312884632650961815607950387403631619016431583827210897884794567;
  D 13069708510591412031137016687319518599841315084997741188116869120050300223213 5105711085318880291311013368748597433868791113611080743872154917010064944618 21599122594200361209628554648711710202697119865904432475094074921026371260588 2970554267395446068389749895027161055551758592507621472541850236798129367479988148 (-12946254016077235462397225550770415775454305501625643422009172707723910496056) 2970530264433815110751742794006728083042570908548991619124963710862529270564438644;
  D 6030190075846369474413927173594321715795417615642159231546418961770541159612 19948908029823128344091098841561942534257988480993517971279165889101297049714 14144380546482080388203306431525542779607999383092314668583185187859355153364 1316547036969037923084467599110472469438345366671558444008777576796386421387465580 (-2200588157325576724894132820664499682214064589379969647655646187953335876500) 1316531763860091193128530819783916133582403953834459493270864688225558175638798324;
  D 2229791413372675844188370621640994107513263393663074839810212477298303222864 14271367642332544418675997533822042867483356380073551930542273523130919083109 12117966935897404093756811129881619556635777201354973129346613401724932210632 280281452670216469696791771093212292046540534609289416853244489693503833703381692 (-9757333061412540471808596034589304484919240645001970069594893094850569857264) 280237188823636486465673571542107382569321432451361151758729260474256785958798302;
  D 7082478997261375537753272135346904118129721961366745689463201060313651646718 14617883420612538244822073826481329068022566243685381948599612278946875211824 1803113704099051794710517007373105722105578137234188143098166510416307062572 38329936906816460912870807263828701182485953938549867901651272603800651667068077 (-2324253774541787798731987326023112123963873740612911722435414798471891618168) 38310122544502168049732682085595790057854186143882002900073830111943184866640967;
  A true 5%nat 8483661902962711231686275749614145252695365838849727336184541135398573873537 8777514156535470496957878303125633163296299570357936632097357415379233610675 9169929808242557692252532233939806464845581094968978879281341690346802379212 (-1022222995626159241389241049805709966275321280766502924427612770444751674330) 19847790891444315643633273311706155587957403581789908705898681961161603788108 1331595084375964082707551297622099148887549346558043321383201758553207808772 1410877553115270887069113822468259612448016023142309319386020924504159743158 1402723500886025516278478370926611399519805099034417104879494628324471313810038474 2011490926231829695517173422923380732250647260058520605704011688779941298069 (-565783090406963516856556484006239613784820759016299079327402642867881445899);
  D 1170806163978016969196611740830182418046394926853920067633897752510200936294 15980699220664276510756299081536879654644291730702046827407548526929578762813 4904646931608962155719395745104110827863091505209825894756592385985897185437 554719769833599353288866174867638931329268980619453365933958728680590314781853064 (-6541801225606369582230262851343332675170351485666085262083465139969277273816) 554709149099980162434713772815599952811738478289098155505619360554436169996537060;
  D 5056856053780105489260482862537502814042728738959499279313722371271941078283 11271168635843027572823636853364213227409139011837336721654565010550055809373 8675771695052667956079867244038410925573718890159383697414335196878183981270 10576781490452841909232985185304119483349561864511558009618623795508116151507747 294748479841506520814795969941062777049406385618935054675410251629338011798 10548978821022184445097853084263278006942141882340502003251416801530493885396451;
  D 7555406847620503495989859226228470036845091979637201194443344341069719483227 9968036396880666782639693677955653561153908141185460730737625673646551637923 13947132016254547299785430032701368953162685797576048206428834554420909101085 197096156538470485128639980466378064898711325960661767602715224316021540622789832 (-393686145062299887327805784697696325891591585163339837860179300886384070319) 197078196942229386060608797356093385370517373969861600886638737248080239707127586;
  D 14667666096861405068979820512767315634212415919438081974555775337554504984100 5349455252492424186347608590970640258129029698897895205865192430339289741673 3080313789912092974281462346010336040482945141847878977605781724923277517907 439971328047468076449356582290225205487828739956487893285703555644712640069422866 (-4817386547383299882183189783556172994676196393180976068894397358016881295926) 439961496216687419451810709984365932369240463790524103686446550535399826463326618;
  D 1490635501690485896192528587102312038616988707701558933273488856804729300986 19666197809381189809579421363044937792930972429282983255091349987403296242596 16106676772738916093639728966985474486065470728847586332876534359617193000738 1658160463394334343603805290405262972463025795082086171856315653864920912320367023 (-6072614574586599294738209557169752899992901104597638940952691707529456090196) 1658143377032644595960139118029132383178802510385814484821856645782072578764840495;
  D 5109276097807854876253585585284076245159048651219547557272345649950892997131 18234878944677664055212051121901723835901273786044703101627856162638384870873 16965710282471491546780608618732295792322697526434031530362889607462600080214 17143321320391776226960436726458450995530935052992659252996234845217160579166506 1281611909962545815464841508290990038924628226669962390073683487672819668066 17093847895224333148501930809409638068875062476888616327523268336855752390753324;
  A true 4%nat 3253339644233596072482990451609862468924368782953650284950869028266924100952 4421028186333830956224031282363813819061464699892141010401813815143981447968 14913408544188942151575702185583316245031385550438251842000055102882338082942 (-2535590858108895839254688732907808918556406557529738352317038701440843551972) 6778047462444786516018145563486685487481133165049667042358735614433686706348 978961514042408013589001131032250949790182563871994352537083205733291209481 14775523028566914952918415114824502985989543925183029477264698029727239568371 779068073035794162038865590682323262483608776243831394148906361897789624748234445 10971309674713951701320108200768501332879932668090263056331536198649439506275 (-2984387744580514641514990117203050652439444518687500711022672265096399389924);
  D 7906791549771787788719401834503192115873454086533714712385001210621968242176 19154121339770351328240643159960549863172957683218116366030815138572191356826 1153487799579708835643861373464061532042636331929934115830063513679519896198 81577003434143367115708302786385822339763721322290802388685858197696100262803578 (-897551487449091549422625570888477954939314716110305040455741994412935209472) 81574208096660862771695198018022195078119116214868939953965327482476037254431640;
  D 11501043994644887546583062409701511512439615229366242326753438660745482383521 21214964483601179616598228491121805825680044723100920887713990412074168913406 16574844025577962113427386828657549672612824522074115533660361666112882114731 481858883222692223412166813009376682820103864402894608144693032227796267007444985 (-5129113370132136682442372951622039862823228317347128760231561988186133953653) 481809295164743652618600936421435816443587921514074842355917622589766225020402350;
  D 2774983273085579530774615773201169821023273540853636705025300762097159727315 12586527395518275175465623156840141414106617676108938715566444247502864623677 12822033627039486676095167397788352593161169684058322006842543309665687143719 1019500568998156560722448875156804175694637959313574195512270766155780045867024601 (-20668975282686111554016235665738279160439426488815366242694429011623938507351) 1019452071075330620014254696528839914320768144150842279889398457606866803225752615;
  D 1237120221886759746101842119574327069329119717399084530533997955702937934065 12044111442588725040201891220787730697870422767685634224908523780209852885938 16447690591899516997376552730693422709804829736037079823012966308453996417825 59357811619112170767325393841142140928298320655662325603493743620319232579247812 (-2261809485251642971108426641203869322954500048031846196973358505591901473405) 59334285785392515521181316627969025029744679546130512192640948613627395965596741;
  D 15679172462289367110087427713636938366920116746208796089136062951231714059064 1553766990732301834140262688108742927616698452728184956779448760508685404270 3986949115778771850010432056204942187198610908778699355255245686921068238697 11802443491459066991026927366934369830306287719072715127533268628800399977797591 1494502566315420667724212642440106132391878255832874372074710732826350523604 11788905811319650656368607047039214530098319233323284095050968108663280296761718;
  D 5063235659979156445956760462559620664681278793569952362529126840007329182032 6926389231278958565281494526770051601241714559994072598874162664963253169293 17611087774846637191968485818605910911016782918068439915657678482678945531426 1894743749901121032453685396349674849100345784167467217053382667517289620730124322 1847819701272328189346786820659388305524095279406334349393474426140065343616 1894737956396672992260635950141108318037959881518030503800122660168695770495819804;
  D 12330751113336549263558688125624514482450286833821047300207473024124253141532 743465424408885986609773201583261358790863481191257713361572625307597391853 1691615867902903521459043447593038902265485842314402022053023883053198956370 197590146796178456966743109498629577674343779115819876364863126980935945426700887 (-2251482128715610498607885904692200104725487269769106380887889259567595172136) 197585705718196789216789968616383873601626401916986486645226589834612661625278791;
  A false 2%nat 19589354422906832662790414197641236003212148347531463255026212663573219817082 5609248129238539976584289237188861716440518871430459920495794678290555403874 835901538308403104515706749163797397727175002259052546549736719603496960454 3781866579668826747144549043317220309301532912333723555891965328984568852106 14337910898654819649710927607666392570737413450190785577246863059322942880255 280326560409144698755045478551175016027906657834759154630324029143293512008 5998929156225872532941993935432657935091799998768735161956490699078411880518 92370838864290964859905206829090073499940187313445640186767311804774394364720106 491490324857833244622774688201585964653280789991870071699928888791863018790 (-1537331358392722967413791109625814624109260153395034840834230915158538940289);
  D 657239906780234518508313159086453014417229105187795657056004277447171080029 17840293347966986224809427746991179674655936656192563478722520379947769348869 9673401505760617251867351151740592413124603086033508116179941171503566698273 2957635445387884862384710961710980251080788662849808139550174701136616933052271059 (-9749770917885257347826594264229863503186459896208898943738750369487341971307) 2957624686020352936892558415383032499264854837341439862992588448825513339763955025;
  D 21666859436718211946556292472530249748136979895213993966503410803519451726456 1460877612455079840920553894464108442987283484313833554822404237554665884677 7697099346105865654479138991156688379002481891216434437301004615777575628192 3343834088129842480734990263031377942223646380462705091201563462662717770857557 6547865215486272039417489886808830927520899330052874676688559974527654361950 3314238443683113790255254893224448259669528459802373009103889797002062719951277;
  D 7273591966985054281904717894301562437717323758493982499863717669445078292793 19854741614844517664752171796956515060308961478634387028067707285170728434438 4412962369494826022313235705787305825865906771426840334307423530901709305546 3618229640234647006168621807360863557274697985607599910875945616546343044561182799 (-1425750450046892689376990649024301886028549039230947783358286157959745498038) 3618225442247858504518243878396640923870232574293999731005071944823698825049441847;
  D 16226583839264388677178705970409149553847507759387719333242367792783494948806 20773632175687053645973006503992545437359318813929990061825091741660221534573 11707765167908769041824020681282898974019254037468130275727222734697683598388 407775598903245867790223959145737411349127400141713166014675584708168874365415468 (-4516285100814775980698216729499353115551969054730596510772906889235984840820) 407728467009542823979353040862011104129824904438076635059361246057267379200585934;
  D 5855841636638328688701714294342153910697174194994408899555735406375502366733 5460503981030406519939928180169818457767170998857786359161862618789620377978 6884263836329255111561620568049306567195111178009259879382432121420420374572 2029376368839408292400362108029871731414442001489374404815247601986694799891759021 (-28958789117548245900113344356696379595565643486307168361885072955382042159200) 2029335219847097675915748584512340109491222383415393562192337074763926880537575683;
  D 14220031807588416191936141698917133081218099539012431001983115795095201279921 19179406519836385671586779562079709796734134657897871055537740713734745947260 21372264379763789012460958418104004129499734756987516054583823550397280415024 264292639742534844874205969522581591262088775263917667892621349135913722566355280 10963081301097215917002503271656323255396802266036391791843159678789122488268 264271187972422831735275703959646595974154619282886889862400321077950858368405488;
  A false 0%nat 698486998874768036496219985814680102267403045576304021737587050680043815448 19003666932460138229711208116789082782282585436683158540614080433350991374310 7995830997110544418616190539826833680317660692131976403187402029338298744688 10745879879545262950789453168993877120213492281507801313937880240008507319991 12208117918687549673428965993384577899695835349921324622305233196316907636636 18242530336204222065228898099005336949637806317246477768418099511398148750472 5021674003625909148075941363978399031065762436269676776604097988124074358221 752326236613053938926057605843985911127469359487167541663416548062706623313233971 (-27858772311056370135408722511207769756791016711483916666884169674200347812475) (-4359884928500949772269451240510670290140508603694265309618782616353704287908);
  D 1395217864743445608584348635859672739881650116462471898517028282110796239923 21777640011839790769631776972088537775964902184513528896030584067253612797855 5667812456749189985486209012798273339873079086127781764056183841224385812863 3776784889428667168088101103168664928121592131109818567006717250727555240116261 (-851589388970503846193530149458542449078857129730701990785686101617583248083) 3738147238245367879851238802396272793615219395342643053392790439878865065139385;
  D 4384329893470031358226771967645373866634030621693239698820434094328686446194 13133496966053018659587989878446989694928838881272609442107643962186704653277 21690726680337157505838537691425120707554038478882148293282665216845357532087 15025017590029841057874414169392897662202003003037573543737695872506393948627814 1568430906206603314727345152914508776208992821713454394053379956276898398244 14968667415680984307991741899248362632558693561283315845937079421176809055609690;
  D 6259595378459319664974524570358127146528497729679884738282605542315365201057 21457738172992611918345752807706826244623672862269809883349081918857120612734 8859233828843106826790570518166048126551054280315609130497653035401634747125 148160942796710678287821567301107297138441650474100463466264213629042717550742212 (-2727854763217654854561299363701811071245471470425765629984008151601405197503) 148136496951141425460770347854132908487279757317668618546950985128957264217759117;
  D 12502212411853596289989281897623083621718065649196048738998264461511600400426 7922780283882299379997019013485438305447835032541090680703287942063829516334 11217904693963524443864984298697955735716132291194489265401289691208802452774 302013917242519724019960621454844878387950578067346599343373752421516512770134746 (-5865472658155846100742235479645860674073804322665496563153006584114620680256) 301967785350843927556386485600309656529400252866652833982452170563143443378108288;
  D 11181581159392389604084820178155872861654517896528725713875748659538279516912 10162858634574607661682763891202684098329834462082563058117216751070016764302 13510162454574842725006197167759323141182946535109541858598546073931861970819 1204700148732005252511099182794251044494588057088177338416711299330223272931526961 (-2149080047955774218264514487186668711561409944158295354198348919816562574920) 1204688140332448086822495627921126885058645517848807742727335698323461483598755230;
  A false 1%nat 1778236207489347411407389008844135197421924502054960676833517163451649851415 20153297804251550670711399781985509668722065749528491023779054894921389459242 8478382713452995657982778972460134433610773060491556191369989204169349367617 5764404081454711070164984131834263709345134805329805113926517883071647897231 19692723381429266361595967947005385084470347204088686114462339226165874419394 4849693225172821341690475693351957554917373133816208641598459754714053279028 11784849389622726043301632102183326016501294486279110219891651002421955193799 1286804832650807465519943496677566187260326351034342171851653917862825511253364777 (-9617630495671391591982685747495932982779205125999946531735697906364278846082) (-10850737572584391702923581274351159248570323914963233668462720854227293227330);
  D 17983690816445022608175558709442964819736603021125476711246078922060167209686 31690837294406156604314868049112632422665028774407891089517907417038919856 4147361849269602452705732074194036324923457455270886586463263143498388972121 24390101981331376495189222344192333052855110545149023791731898200328363819428679 132958388051197119890090489629467932727231399832530423910812277830599442138 24352984234470639234672585740921822954226322772037687026035013952255934328644616;
  D 8966501366344998207401676254827712011874995272215882743216425087851071085382 21649873360007130681345382979000855436020962545973898323380433075651565110381 20179706667890127827765834617481281278570494877328712342090657852270639547495 2492653076782898280328252917050508615092819664219371501037053719003092602470315273 8214525579948281975484529021746093026396233904117020098390098258452085476074 2492633116747504925905763482544295979225561217522927943893707666199732400108639343;
  D 5430417177752256513349055433853932859455510952515358377921184474741702435193 3411126680113447990230835610807948677397784372464335556946617431221247762024 13275777885646967902889661910886403254993432106036579363109476481573325675055 619676789663272947938460144121817419128786341140915895651068060807205600754453418 (-14444020367478354539740218660171563877381964219170100648132809493578440505957) 619631892528363228016460867687921888114615414063794245288064294667651755605954751;
  D 8098110492269332105895833780228567611352837422693519323649293242369932290155 16637298009480758783507419071806452196676644550872185437551558310601853228963 19043765366318526080645832823153209305658665091467527258073002936547039965626 227285425702057991353314149187677611953314249726668917539488588694916719806189250 5353140266809333405772784696028104773549028654937471287172931110177961445998 227269887297624659423116598101618453938813595096735332559949901454148682013178836;
  D 9371983541501279070841386118574229226371946084446491935260516276881855354986 17650735210471632869592889960641905974472016342788302335734287659067055250743 12482369058593494823862589528226424704303934778718606819360329159149314458973 505454940147844386109668406417099583133665164991742738068681537520538757446218888 (-6966150671110489947976194664016946019749047994753871411182373179310011793856) 505419582245170486833340917710301426900986236922457113831517918587653253354152134;
  A true 2%nat 20646255298499192810233348923336819432401473508592743084463728617967452751656 9608985165746621233454812835808244429495436842901563691767358307004671528404 12381622736892447672545043565082285764480735069088236636498368491784986724092 (-2874406515469711814478672172488388504316468296951330976801709301612134772340) 17172940326013753255421734013213723269001549361158638215864843276705299400639 6655279086015496001278141746402056545658958515045513085661370471650645523046 13457653393545847605123068658478496041579825420450409201066575985913101842780 1638762864319870373662720760756174325351972405541436718467874562215545122798633604 14573809564316487758217674162257823814579046234615826320826374727863259034014 (-5907938457257962678211257733000334879981475425414530343704187388605960687115);
  D 13018015090715324620396173844191089314706479628529131226937698930261509622200 15613586222631119881406670144238351297848937457352618663315078647671838639496 18502020333525057260551663730482306385897937820990152849041675558228142510661 3285393001762874931481791312674886103739265057001976172942237580517586255917501515 (-7123438038648723385902371053135116313000721804836638704126643151561275743144) 3285371366948039671362228088647043497335631672446498207913667568011166071297158360;
  D 2295502392539076070958307361943080200049683701405573727419497498973827759988 14011316997998673986951114529979540374708849301530809815183958895013502043256 16783603254536124754433578038367043708343327881931037802670356534751844726851 1306163153107193440539679812329747069274000303844664248844701593978174976191893245 (-16812176420978148798685351202537295097812305079004171041724712276069011507236) 1306130134077787436446270432382973789221341757422597651329231950165541262975054920;
  D 16592062851281365906577686543211479661112600355388110077795980406486588322320 11600325995357125940185771881130068509194197275610466361910800178209004423257 17401905939984894026953551520719687007277015632728997555831469444095126305950 40621465204477227429046965072051340915353014241233704183316267397663199334037858 10252421586292463850153975882303118308391859335759120092047883373364077267232 40594304422619947930472376593829171792562724868805779336911365291122553747100484;
  D 1960516208183367709902840739375364336532699364297025938005620936708701794170 2073019801452450519322471070035980396644270094096381988185742277173311231079 18453075439831080103653613313645014211903081055112168367844316333481704809925 2121808624259365600178680466981812309472301483151621358572103897788044097040336172 (-15934085005002074925022822930421529175487195724553790461558574182571970864190) 2121794580705527979939159153618957293208722165174480181443328863944838070960021402;
  D 18402301263218944745000399475021598314193626508748028766806481637060533870011 3151543638202932251974629660766907332014680610852396984164790005766633976728 11159543388126817367978761286567601854534445075672187980401557065827923108842 29624289016615005056274368264709620332540494683322582624068919972104624909824247 9010906115299058966100162015944044803718825457352515345837005060764403399106 29622289559170166724695114476652411317300553060453206171495569847408244462536767;
  A false 6%nat 9085404604029022559580143489773243140807773762090600824054899010562529907250 20244816139568006306612654049705789019495899614023364383288778135884461979996 15299041043072315606466059375223898249286533712630627209406134076194125954407 14840040715843357975660525818981775160682060677666670581537029190146718506333 6448355775795440429902054349325290844768716404582826958272083233730346032421 1116964093591804403726144147474432218098319531048779368134631033228759295091 5684833113305639867310010122373887562543274219792331277229043908110372467500 760338683641666996137697465272248458962239469671360927002523910821343415206645436 (-6703917098734391717964235233628114347346675604898739365405453528592372186065) (-5258000920259788029054108163791683712933071131039536021447577492044163638325);
  D 5547681930614385328201701191836964612807456128877495649233214445859305655322 1032516675535895066459860423884214131060950342828711294781396492899955358885 20024141329556004213356056327435856355363957029733976155378430737831648490056 636217353922332462013469852360905788265775984297994385714201240897437061369981880 (-11731280852362035334382218111651371431494367523131539785720249175845987769504) 636178959775035828734333609121082776212888431291744089111005242726131586580978882;
  D 11301150420530245224109363629597944722391058806175434510625487224725566047794 18822465246420399296528233455622485636626289343511243906323214580260201468248 1674370520511609725517600306989190163122238166430994703636088354759496625975 237206933685913618869200810507711796805422689374208435174927650263779200281621650 341103895267532612462558256266198773404761054968513344376490992945747491130 237205396423991796427624285505484553319364451636106920670745594620456686388535263;
  D 5261337089099650445927157519370723471841454874059353817731710280608413568760 8720514438068416520047829224461551496370174222574450130530534541127842326561 17258436803510479294403785635496883486166480377245188131053139855428188584211 984366070449144550332116813514848554621535263872057930251155214804269014724876829 (-15288050775712569046220179346367664123404280752935677559420272638269520499192) 984326822308110161132731040209797204955173905034640775712639108781496216148996991;
  D 8232216040511119138812585148517835034390874013734774678906798496019542963761 21645974841738961390072515398898238974618345538614299595149522270743137486977 20848905203137626051133577996992759622090588012183845142808548771261139571509 213355336946607000212329749471151391764208625922697060665835548360708972217729036 3648970829222945447315185392251517956447363864058719936166689579062422896437 213327770109690623561930803408634675543011619301868423374427900705639242176439820;
  D 17679833621305402582864758921629999597597189374402551815607428784450874841344 8274579868376646059197834501163878204554110950953373451753294981730369127177 21274115874071287459481823545350046494066075640515573010594492801852227566912 522342664934411461389897050561730256417796234248871983119731809763467627144311101 901586600631822726180676801848800572006585504732725261975795772946076537502 522291809741002601077742103102568437955230854834653488949967110912152461264530253;
  D 18127803906253418703749622496466726355595974902305417129995260703570976698990 13930460350534450112219675313187930871197419143772866855736309816127397614641 8032466644756235717771300413273975183736753032880212248820925452927544188621 2409134765845995795736388239326388846046818487832794366002749954707496178731112324 (-6714810839733329071837066995916152053090336086632676843118958711018831559658) 2409123397491598184566073972846153845289357456853019764408858891709702145287358676;
  D 9731904398028124815107260406262930646190633939655208131422576704109374433510 8067517438403923455921401424608654910236982905031863996664696539196115615337 17609003508745922118537308702074863754794071853861864965539294394714230885023 2532771981028027735945491376083177519792907605124422394880664691081878178675594674 (-15245087071576180590116389918348001580981093567550992073684372942278223190850) 2532747759056573030613120648265360549404458653735125655755716354364398000956874026;
  D 6596256832374119915306796352614965843757173524157900880807292470252309791202 13809220293746707404368822654398672975196263381339235328745628501898917483490 3135909788618050746137710797369664121399985035783482549211264619621150971047 729964299661483230273533354416489935925621650233727178441669901030095718183445466 (-6228885128393412009814695303410185479276380612057569672744156244812601381438) 729956374212860150870615708317389120559024537914553862635986357760046378070471093;
  A false 1%nat 11925667808060262780279007158525643173804156532801261422224380892432950707414 5979397441231561339282608726994612913681896162432537078066000920065708624546 13510525413384211304611815605093708949397236996826966998296698682865242248491 3400546779998251010971745508331066176153032452422833257135960638280973921499 7075602746768108335610907958557490015428226797495549373905306914152247635163 6589728787101805916393237999068426069480456830758764905894663225489651334111 20079559709701914251568317435745233003045553646712156816720431182030714641424 736765984063976962501640075297784593279419375944162124998171315791337584729739432 673477259833163340907055033257907875683612000492273189328851335822044504950 (-5485304080928219104902245004870079807079449994684009509992692730286433118213);
  D 381051749181458082637924562763783678821223000210905836474315344437247704132 1817071051393005053865071533269582922915595130022511096103073500957586437451 7967452238994061139108437284589191575465423491315949617751422483702470154577 1096150651690196614263468143154504254973578364716830860283018968037135621092431267 (-6376967048386413806896748160358399064132975386992455757666828236020227039572) 1096146723379694912473242971374136592895770674977741070687385970931743123587632327;
  D 10820298223405555245679447850491211932171928334216569727784282848261370075311 1563835891535937568707140113785188220197815071727412603080382992077548375764 10081973159952542415336679417978383824748714210618503008492389867973466886856 1119259109497854559145165984157443687798060518561277722157061801221461955180785 4920685534085811256407163775362831280326445955583042652582012608376452357856 1118237097542503070566310959875474355582130675961350291553865558802586112713679;
  D 1177998557009563973366379138353741644478061401037848861256199021054141848709 1652734574123565377781843526433333486175399349765662072534738040144846506930 20275180138633619158955684828232227782768044841073975004594406797621701567387 902365949193719516597328201153605730281770007390399392616071885742618166284734577 (-454956962496100540433223986146384951965174114408884877792836798642479174225) 902364194797223285267399872451002217868229151853659166484677392362342688783393162;
  D 16292718755856605999458405786754686568921279764596349688366836648374268410611 15980248869208819364843058993604057718566098469757353263549670344077936462905 10233580536815970191160636772046495496635888674097828357522521325847501092309 10695442762387147313493020538562320740461934364794704186633452107265250525149323 7439565277959313478343378264973599944116438422810841592957101326728116487227 10687721803334566377485758585357719579758357892676660085960387966747125104295645;
  D 11073866865284658662969823409867295396749372250252178875306138027383813510768 6483566844670675416252424783226377410437651084196300207972463319089369432811 9776843579062617265078058822368487296381852271933635296458189969816421420803 2045944185585568230768909536639339260029861039660663211340839430566764494484870666 (-18843720768588050834460466002171667111097919139304388487984926884174706521318) 2045917955726457105265549834607844560921694360265103661069148400885740247428780992;
  D 19780216182674537376469100453192502092015613872532571801507067326957896464365 4716286143617963937599896681419738651923806545488243470089322403934436485317 4663213571206158487943678113055487101627978097466176752306966368848914747972 945156361875382125886810348481994511767858419313305895281638853450669810308558197 (-2346325370034533075839592706699184283194129207364044468439687515984384715948) 945151516062576124078237212018469612798699233498792609831006067112324307460840317;
  D 5819735844288828552269782179956961458784125565991000272276818709562519165975 16851654018371715816666734563055096943946740306527013161591036929563800322510 12941926557115864894993902371486968308659700805087208976380181214914875270363 3015549053964465734198742868156155772263592570557061797306056065757047133836183578 (-5083081623914819937656585916873659076272047487444989151544893005130012221205) 3015537057589051493641852776505530646424096946485635966890359258600233200182959653;
  A false 0%nat 9856158992919759992874093877211906226119174694588412820034336840125339333076 10350527344517548807559477904295858936286004649367732478237335259453560454869 13384982447553612573385005587274773549380792629176337823928942233467002421206 4397893278975553456568459100907331760943555101217345323807782447758893933307 15577446098774960917514766139250298180203790880006640902418088132777465824430 16028483953735305482937390350240746140736124020444735655159838381904327539540 16188704801940747216033435447313883612982540218051019527596303735677799296585 1606970666346126347231979094823833091386157915440819980664936664222566243000832535 (-10980325931395769737590516757368489052562758790014689742151372753133050470667) (-7655325861738759207116042135595148568752612370430133078500303570825942864878);
  D 9654723915180889796749647127679984566748246834771878826228257523558933127798 16814373531958497454308266226423476001998630402471523780023363453609839773715 12555607946140808669389610928807583186115799909789572643744128169429971044173 748725154147039614957725223750176084443195217514572985556602197832882487416629164 (-3783399083878013095988556602297062601676391040245326237193545859577007555402) 748705719900214177394517818055759445323093164032085059406322177135968326983045622;
  D 7164341430797025580685944523439124590969890622049482523583166822459483171324 19194288528601221847984510459508420875964408191930271230016844516261319273715 13836734085182170271927917870847242088685018296186300089986028827812605136017 718441995207821435237707979945607143566659464782149205062782298198569366686455624 (-10304398693069870608058178288882620978012635656133228351145601301035202340296) 718404028131810132796273882211912886834611254425053104651253639095969814314271050;
  D 1850102597390381986446627293562813503850862296138484744937418151011719461762 14644611789399594194670011063370354458634295443447991641497810986867917559384 2713934292306021938692751478396908444482086112112064301570331944375920245182 395617242102642850635312751819112871385332700691429881845734944340407513811985579 (-12335746536525368555946746841836494518206003444631233621397211479461823920108) 395581762510109167789081097064478473518388289410759245651539391862889801719709815;
  D 3165321391519914254345695438045405777699121162418219103981346695936099777891 15336844268332570587524957166866918136948875164199280604811452608152894533983 16338478619272181344079685909075568714736124025936021307285364866836896566230 26391074883335227674160172777999380969618032048306782744076598377876181669938778 (-112915995801143350589127325801004498847716958639398674722465632720007622558) 26360030362536167180329911464639384497876327542168058297860458781782778927750660;
  D 18841255094934137489803995055542700067474338047074188945117485922764256923347 13790564142140156334308396693372254428230983025383186922376169348006410919405 8592822977625209618705290365689556647374434121562976619211116679603905715781 77232526534884334847394426603241677806219193037273518622898969324809780266155224 2960835531869122043326056488220656303103370777506987542655371064067955114853 77205619968463926753366171554951718621502462291283921255161986033015449629932948;
  A false 5%nat 13547008369941511403496199281316629879522366488359604842851145980323102672420 2750480029280760566882657878485426504913181129013307584279762268976195037476 14443261335185279606376757531162844924375727184764181756540376983885526299066 2719381763355397844306645903061090047544658211087715734834508949422028445953 7452384260506340079134690556694893994908875008249701010217685529573851814805 1256231623557152181590747174902309010933263421416901402028580775159006755830 8431831277203636445053812773653177603346769491548911767359170897428991254882 829572592533269701227330033062790866490982198787955488509746915500478525355018894 1511878461096996033221964568288788856982596932768490318644261687060416318002 (-1059545239606741234568815611163131938822617337550899375628128468063347756833);
  D 13995787027877584541943474815275487334314913753777008936526138373396355731736 7763390333159288886579981789997403640783316038782998351048662043254483948492 13049408753068075903390790099259719327705597581564068325450617246127802800468 1414461359996142758681085701748183314059553885637931568245681907391552620420140924 4939418592193762460065184720782434104262441215858142840189567042418653311424 1414456040339593270970431544174076587587229378098196113065471005998534668829952856;
  D 13289596761377741694742882949291993522892565916096518396864615942028660640325 8109152698759786104493385860752311560103066821862920031976675567314331543867 15777848928179688383451349199925226982876187453028158410168265735660314280155 1509731185955820653674074431666224850223028331173894823168360150626396338193309877 (-348509721021610917951750114102655492684746963751752406786903372340449527097) 1509719833493834486284403000865829405978233204970325766198911426070547500087204205;
  D 200121505736765204916891122218082572950309725942707255693632787676353158207 16354203977440844407696272545451789237188189638753560127618606393650771725381 7237032545809531299753958081445809036016579101488409505594566780427056923472 1361221341051096540267234635201883984400306066591439641413963958938853336297091301 (-9780888045207812096184089732212003238639119006671329058242909378325835646238) 1361209925213704191538489836075718275699258590834495980321845636191516511756370173;
  D 3058529519628578094961334912759489696792339687774352983370288062053306073385 21075083054772747752453132577213758211823465896015654005787168002605548605930 11752794359367547400353631204399148584696510031440386941064966438031007214231 320887415522779776658904539652123766773587327997660480035646756853431591720190 1343214839501460295108030596327240145327872592482566320015275753048016586553 285132554006339714905346932790038116166655472907131271610858210370728954059057;
  D 13404578232398787264072214105248292020717863473929948830650358579303613818637 15367874291500721272035985382189995258220444826787097854954888774253436069918 20968313401602581687262908751504254126289715382036995737763727211875191563492 72119341169328340908492135618507388368690062516522450437977130688278941057787324 6951397194413497812369740722839120491643830113026067976029684762554562775712 72064034918247345215816629340435933557831729057263314158677806841373484468917340;
  D 20574446611035159667807063607819631718417300346870399311059404393972026974386 13318832175580656751148780797767815108599624205177768850446580958924308425449 11763211703391297720358077100186679232899623007341716721766708915677650070726 1384885520789769171955955825324953316071889356499714085076241662703341328288179994 (-7765729585591512573649518951118416504560230060904100157488811270918332405088) 1384856783199151000228120413757328901126131918700703002443589724099685713261520500;
  A false 1%nat 16118204989374127544325335186946198957989156042404222576554677207577629421093 13403100831360286477162642074271276033976613254412048187135943368680930664759 12514297304942393512333830346284467045297083347385371011338475482772929706711 10606677385577179865118906397556846882430476729859210527793749575235521903263 6613910578166980025155968231143326227692728051054166282670894757242308209295 6355716682841665160565008970230558331296173986367891593633238378373308747110 7895301155409804008927390009340430767488650109465622535513396248171329977025 637908917433596616897740057901873728429446970647481602262124075463220335797583735 (-10870301043623551767933973322220425061740094255806308139817669212526623519915) (-4834628256800805616038767640443472918918740545486200433765283022695598243883);
  D 17085341662008070752950485094313382484396945860032553823027275499601157970230 16354207776465309861662626665922855214351323462270839796613683449499062409830 3231944678668810755684796997940789222357076017432545031117129049584067855261 2002346870031698955457169298853806656057038751913425744422280455220181841855761360 (-17216958735564301044791863916195893788701458624017691039440724622467461580232) 2002328040648225763927816705621399329425736702300362297674882465344677623014092297;
  D 5882605311624583035140766089550479963742276062667760240753822872847236897136 17885967293276731431362576869710483169175241726398786956986564325341734136782 5218210939791248253581461777803259463179101881026916181017141843236914179993 2249851627155184524215191782192953270886978598605021145908131508385978129206165371 (-24128834034122045269523435184682446141755299522077712636050957258607170341656) 2249822924395540057164564003679807614155704748028627983667245332696772445349725514;
  D 18418896517542349520964659529383908194694390244064330965233787661277237907302 10210136204576131580395335381485189583009118695040261181978062590633793672272 19381969124397736480909500550155531093488849513205237161257754758583286204493 266727259747712688175104215497913727950988338189733313913053211575209484816289143 6695937726051949834427696896504847861697519484817106460878689162404216750446 266688987685326945506743044713132792709077447742387812842748797865727673420820172;
  D 7759015685759310585701351177439227770502944739852385414311479097054472216385 4043885409270061203440905933425064587875053856133952614974714499842833093305 13451883856136078962491895626895687907522103385567234371953650810694546409709 2614762154525547914554886488068939656968364145802733659101198938402986416690137475 (-12415135747193653753505933892872319344936602968247850869469871518996152604819) 2614750143893126467656667605866562314040826676875144756102070036582005238205966493;
  D 9537410776065155369728190407789292431818090771992060484702943273450078193811 8618239901452982431464355996973839472020947721681709339830245079225507975902 1468614359674526722603745222878805429817320706286085534794088827942690311749 464000173095502423720148584891120500532639428839395625880557317702789759184999528 (-2227056895770784128670538718084576625584977040271069388401453342733254489683) 463998100618074855933274012199708719523331183142015842425528343905195270430898993;
  D 19750573643907862088369954223039956007950608587972728775564219491732337989868 7441214916961554450301051527401767687614837050353672209267496348740419311563 1008798767673190233429026809256030342532671143477226359749671483729964261120 701079489625716737890296621073452918993919588253025091584015184508794081036784352 (-6600211570510242030746791877305981488067486349018738601860051207127273502452) 701072360007896342174266023386090981225331349449354498874068137803080257377835886;
  D 4334133236924104551246644588941147039810779940040094036043736974779739956610 13870553205365595054497534937530464552375384167002834405230091027955529505942 14617895377789498968519730027466691577858902684560310131385837800257182516244 3006519167606892900299557011547498314536362083600722431802729954298051223901020325 (-10534450918446764926458150024936284126869704437837221020082419030114411313184) 3006504844773566143827673687906829063359284245718650823716441150969006933338248251;
  A true 5%nat 14563006702064766252015091885326865106706933584794633696508752526586350288066 21038033265357991577688563648399452863540997347316983532370099080631578271415 16497073216225029493574980512603542277779260097733364993428441091752733776275 (-625550836452124904975709839127664394197151838660618875253757953477702515205) 1598729347967223095849883815667037908462820800688244174190302897914345975219 1263518112327793173970943092838360465640129537493669707388183254901996253511 11186285040596917039311139293904523676212494269017801158908280273655373074313 203271145841674590957220950064199492731613390999414857333428499636654767197918511 9049765734484980528398347991620416738003948008074690650627279136358259592268 (-10751773825693069019150353665443686120071775575660908141880953401055890830647);
  D 17127758692595798142138410148805502330885611872105847962670311819677791546579 21134343104899043222588707937563726858857202688302081305629878981886939898177 6841426925939822075551935453622836905003577342385110232967384490475341922943 1634600603146389363516300569593122352715694258109648469598910175650264991584609346 (-22641183775441712973052015491483041462955860445398351126647099739142054081199) 1634553555662616537829444971593827116122752369190145525374516842142616190189984354;
  D 13664827439171809078047557901191383890748948422209313366272268145191220420928 16896982366459220366238640454733881346237701058125337250449675126771309041192 4037503579961634976327187134992942008057842343411628086722537239743451445976 2261044837105415433842239186311885814450261844611474879169818887835184086038645509 (-30555036869118038674389262026018699984829705577742132345832398623242716715814) 2261000907469337454939073655067703538613153800975637800470940538281130221170264939;
  D 16825142908075360361634398302294947369987033591441144995940247147462481185392 18696205501079884259029456649791913904527155153080604036741638559700866300035 4091785308839352430011510821234253045937142580164967311306585262665271877702 1439184335217460221363238954384599851501198584440246701984822565157048465470817786 (-17952278138139270672415771791945322786187944773330736627177687902935770827104) 1439154752354688797043914396468114137092310365390941365930989607217290309055051508;
  D 21288583088898763081859231485036020503119105759023178878988912888264404736505 16930952641463010082282238804242093348685666471068241216370161513467824763338 4569214995028267112756454031417981542563561754175476245581583289155432622600 2181849978675961705561004369110321898893281317919950543373257777537342484156065025 (-24298914665297374910729939151862734928033347635025065862988004024341522351320) 2181814504957604638566597771413591386291511449232387082793500165060679647377119803;
  D 2539791500721315500441043652292186082497780248417510425716158848892353048404 20295300066711624290930196155074270467113503219793906558392925226218552319556 19761993730107573568634497784743458669472756768627141059299082272631243149508 3493005952671102008110350611140840725755707833262793043695992744474159257796850908 (-30641136631110395439464820064944028531693649993402271467832914154284759995044) 3492961436082307319940074232369425069619899422436284516039032548613065947874471760;
  A false 6%nat 18481820078606692626660133466948999949776388798012839774159325800857601997390 7236964511780127078756635674784801283145392752197882768843670977937945856301 9665085195314630934710736954520285396115593776469374390061379522123843407675 2048146519358979173568446451748593012539159064598975314723376034854475878581 16951883942351983166752350863079084406851129775862036321859506543043380434554 7193021593733851640413335384670938508234474934489649772793391713589504799946 16659182397818377286703534794718770147818677452121734922403759646522589069105 1262750482165694313310748261116933749749267455720569908152755368985450421147949535 (-3200199065184459175684559340492589563723654854832979753928413684313446116936) (-5508067162549394175806666887425668266091569960523663318900503036606516297174);
  D 4385739166726518125181767899890121552478182768512895559852203655450161222761 16516908657227931880708951164065821403846715062197954276387433466230265826345 21054729046326539929191159948069600131631480875660719485731602193869483285974 2632655632371827484801503432107602510741872966908546848598072403766982212181942531 (-8002652531146562929656431653479322515020198517487239417450460998633734047398) 2632634958882877279044964944529382375210367620701518551615152338082965772832990227;
  D 13526970962407068472723208830935960415017780687970260594704748298041614044102 1992756741587857694130784412692903136882179565173886870563818116496769661720 8895343488810299778671791509968475581160996565142487835061166644125232461770 148260784265676617551664985199344271403876644702228556210912620826605446237642115 (-1121636555865801093113949314959702811587874399440560985661135550765724962150) 148235047033035925890137672637160267389447521422160444809347133987192056520492395;
  D 17371904960356431250580416576875843171094894194438879548468084882100569112216 11030796526687046767528147795938126540058807663466254743693017388356251825848 1374273786952443724487751084381249670014864175197229896703407550175268393160 1410280025966701771372271976577387176147313766690683697885939060787694266435238120 (-1372342755726589025832325476263918557062323124869202154609495196547925348960) 1410278970537377755535571996547089178993188576519970196805246553264224579842036448;
  D 13567868650231050977807799196054371903086650196700623348864952219955609431624 20298447850762592750234104737686986766872877653341782241968502766593978824364 6401444793708126028159675038084039453186201248320850298403845200672681059524 2325948588098720465106619402512604121004719705410503069511625332955908222352201340 (-13541422095871999012470561732436861971915236883092708549698705940981483146080) 2325931533447987343287375088948327345585384024290961470475087125733921212493173864;
  D 2700650958326391661300683934308619132061240377736440134555066463523742447486 11730498373373082670396952046944461394811876060575040889919957381619066472970 20821736531894230146138651891199626812192891933021487869140619384009409597069 1418839291115717149377210008757958120675634269125221579679094538928259903381398531 (-22595742776724027312974629019233811521237075095568785607112569597353798196314) 1418790483939961945626080513025629696976535014302058107188647599596582972790205442;
  D 7418850802764025015634607959339475777313737536055398721750135486202249808779 21603921647308961451261236052868490438911481385075113538168311199246131369341 11526125601788095101479909094307876612566484825889283833987168559989525536018 56219847947572399359119469033697117714653214109709463203131164213128914905870146 1011988168985940943736196492355860549206167253671217753411363459357625950446 56195898163131368132113845300258075896308658618578546920955627143420545263942332;
  A true 0%nat 15200202210325349055002163281213735476770235098268636375216755153721346516201 6805856282247927242544127113704290416331328733754457546291195263565672369888 8237789860937694750792210256371014617128528116637723059963979870080338903619 (-5606322169281439479914283992765528728080303495356716715623323103990969530752) 8123080450905920112604294514981241930469632888847132838679902014250508187290 20548612681231956441100950711171988507711937689808031855339595696972313403233 1506561504720826250670482425343470211224429306614112752352445042110569414549 515733508840128263272183985811095945493069180096141938376232400420908622581618683 10315553540385583368198506493849587122817611096383811658455435733284489300548 (-468445143885390654376210487872312293569054588829619244836779234376226095142);
  D 4766527935776345087211258818981895327326835784383644397459766479901302660671 1866848158160765609167494698367944123464308251845189135518885767459753685437 17069149237834958374054349134864600222104979694110593051524706804501356182242 1780751958318880108721701755667275705329752042427449892657635374646720484931410906 (-5735508668382122879651726464757505154886189401111011230140628545552652098082) 1780746270111287829369192312197748393202369522720121915586923803935444494133000028;
  D 16502379020303241276691066321083756945883267647393946396879290946236631245807 21032275662098431427564814450717874984835514478740670255938085345858617744728 17287996268953251351144521144246398723962441445018598044514082317509658860503 175109159655438636704732775639008285372421305164333158646975035706262751736385198 12221003791974337009259469243992183572080687774832291750468567479499119664051 175092229281016394613427061904969942351682794445133559897413966748865592158956859;
  D 3462770686492878245475818275612112497851690594037063504549580829245635271373 9066750366110420224710497224122833179527321569951462076291031994022817289657 13314496558845671480882359189376160938048271327244680093912132592503593683238 2098947038569976055562743516814676624887127981937748386967892575380805360101970838 (-29607681378357141306912632553424981665359027598042776452945699090321223510754) 2098901103751841519797083543438156898814460023036377899731670666991231260338401592;
  D 19135957132437474729479262294828949452788220096628841078715753645056677327538 588947273764309937320415856158638203758574746809731056092178340078206864484 18315161936764518917565359608773917215518530898674397043101334090903945524790 92420709298656034730559868409343755533544811172142367046099775798618086338925527 13143403086351560738794734586230798530912537607256883376669402832109612457794 92412705065967291076572931766168710743057189387901132918683299438269296985140827;
  D 14659435046202639072726671379981750726087430125077659535252478492773227226280 18243559589723787934598980528226964177526358191493335357248597371618613063113 2769637234027006524696016366171860185242671069036947776185399446506885127347 2822309027282072116454510205886453295873988586258788025622275690344120603398137677 825154292716692999285169230488742786321484390360073122087460378324393588328 2822306687132613644454782304361190062534930494759613962394202344975218809069834727;
  D 3635591299093124231363191079524810212073176665801117292493571965020979677407 7719155666212798108891598870197087249018673196765783318850563193105588031798 16608661817411261536787608078485925184858852603323624558419888291895482730019 1656313866382820858937195683460421059642489620147637252621691997986849706666264750 (-21678224698962940237563561045671484099669552536962739120820500384739818942291) 1656277597606764602595101738948475639898034197032290857092738069402667536629842745;
  D 10649224266595574263199959463952895452844448326675355505224833315745486789626 17290995847444056067442346121619865753021380721185583805652766296877079871682 8801913660020313219649076642071357396715659420319762690737930769519464764142 101874596014186446323274213142364199292245577913250493864448913247443027602140786 1718098725790959544852020327803472189630829420821951643599512389017605519960 101862198281644262602487972622247987100071372669095406013285143871789595917581248;
  A true 4%nat 5101210702595625741789026596110510663557227061264593090729719097528467816432 7688596816808075927600014135669966215530602515127445618144321453372416797782 17201009687924679486384842163480578275634171326289908969619783821498722358737 (-5284912222284570539544960801862393053687592318627551528666107786173585546277) 3257035501843996373424219750330205185517756762949450126427266768374512739155 928288009230545705574502627075111268657218279302445460870982544641610082535 6809200454660619801395732795372612899071768854834970219477335922301042156992 431787751842234109584833570521707309163189319120409752613708125653586244361643304 9596253863928534999614804449566927510313165163088415213144941468785150865090 (-2391841010137351917719910438050917636126789473951433237101495122349313636801);
  D 4769051745754730111459854174899559729529058932456978984242997046924491317080 6311292154032216953246636494610379015306798016634793059064835600535343374170 17158216992609931254300482275976164797658957806084776164843511519864140092031 200565650330665569359156078800700542275448005576583281344833579724446976140400229 154700401616673855552473534672427432786985892994881248596072276834533377896 200555301415787759006460557397553715065156911986403059800671503769961161184029738;
  D 14072830505804139140335788311817475712936361497095050945413621098469840927149 1890838582206244969055488288606826284039000350280661525977782597296864166245 6035437519187394008404550946938221923275054909547741417751293042048739140210 175296304873882455552561214177775472797287081635312911884811746676607828708331570 1130192663268156016824658118432325556878517747174277495400712807780117417770 175292143879509259496348868747188487122687486395434146414468975541710161352709420;
  D 11369331844300933120895881084401389030819279395718510153705510317889017200243 244751176141600228923441335014605521166575314679430696444092275499348032042 9565156053007726073107586606719010872766923367174848056273102636230434056083 1526395735856070209101852623542967778723565069768907868622672611075165016986769826 2537002712911478884152067619714258601241736039099912362346992589207339451527 1526395302215766716186117167320193472617430047368415023468453600609675144892106169;
  D 17286889220748397523742065495364996946219022233471237647492341578654882152347 19182415061676704420389803611889381236717237552880945340561036247330601085247 3155510048169011048091073245420086090471358184179847974332996125387480566916 996263157742508364229079205357156500559280211837761770796375846048349028847546044 2237897223764970964784531222304935529102245381021690457104109000375273846320 996260386843532743607778341900430133026762832332823312889111541321241197361133434;
  D 17433660992847331579031981825114667296590943614671719067384995993124028460851 14998507368264771889335286290309463914325493053442345381493163294084554732509 15408038136408110895909567677718557729109416144040760717536197558306972519269 2303249848688029764216289018901176746670380824275834276583761333979266066132168120 (-18027488875678843771543598860161048373332414981857596623817186670234221077547) 2303205668455090168521111969121032029931664295836527022954830751975395335692185764;
  D 17232021765162328700671801085936813510568934814831133884425495942773127942946 17109528508106070641851455091947520909937290557361227445618307408900762085171 1731740579419579568553324349767004589062291840719450022993623770948956419992 2342519863903386766470352492780118512123071671955851614236317803160135044177579917 (-22528825052117669397799976187029768029348169864807604295620923117843563259358) 2342497955351194074500659756787425282724688062646736984677027633373671519568527537;
  A true 4%nat 2500022495011488991564041353193888040473266591958387760907278456200463938412 16627480615760484152932892437432937163080298417275921865938670228686997020728 16581786475822606689108374936948715921168068802137887020006510140903413313846 (-8551770547930623893594470565951049597491623244081543889799720080789990845274) 15359111601719007958303860935685658668694773720678104295309623488396947975637 918545715804495109399574982950858913127094477532866625255075012145085343314 14077403237590458436992027665478327300476597078937409445491229984372029016215 1962868929234884032467958015847667519355049568756130352755221296082910637112549881 9173745819767342930092267611785629609287757644778460073707811110323807838012 (-10693948839284334655165286406865666750385383518066486298121920386066141434237);
  D 14753898853776895622179112776742294306692947474847051685722574463801159381948 3161542412191936377214381753410842217661517482237176780546863850098170114964 1932758318955247088290086503181728798921049488507881088819599012050854347409 48184335943023128048374799928237463666796790885856573437139723325064420690027375 (-2495514634166971481230647780933789046657869658761676036894661834531884628420) 48158794526842474283159978822874385062915933951689297092554323321037912087746004;
  D 12605701373014317125037902399905151769982920219744971743427347091317769470197 15430066516614624577537749355363569922279544700899610815003661735824255080978 2222779627186541209292676333122680512697918330305425035106401876704096957586 1677713910405471783293271485853957552906874051269624101373475699428409671049380030 (-2981987093557545770452273345183675866334522390243331017923302991267940624806) 1677711430154376923290976523020899421068656822195833173272357118581923878901565456;
  D 9718602400864043983301584549515493410719656233765170113262705784525517399523 21405340356970753445999419301768638059862816673296476583376171939156981107874 307931097645654544764169285173182459360467842574432986523586233843301777030 1224734832879590574315770491380092882834285983003657777748911471283689880694553562 (-17635995895318993241361528490802791155647335160323780194319582302276104017826) 1224712776962256661002988389449868855491101923234369781480598626682709169464010832;
  D 16584766921673582136084393590354664433561218862247077881893138168833002179373 7026378823670327653444642659925026061019983597820541797323528550916931559071 13625138967070376038927597025691699789175870228631381385668064455658844085765 727988136184116817061665982875649176452919227183434864147576750935915140309550683 (-8684581555398653466347274265740624206870628055317506969305897515001078283627) 727941896173649578389639094457180282916826842686983400871592033025832433696078203;
  D 6259503321059757136618966013448653055283902524936670692295596971822045189489 6853493571038349139959309130575498487296552282598404828118341875893092159409 17671262270000403181512815761112499513536270413295731746228216930585138177442 2119939126843241706485987116840281184563859045995931549068060287554070326806426747 (-5594253775348203247091425754845164536462954818987397525953039054171491338084) 2119929082643604746230787982340230505880345261795366675681018630532886938998941947;
  D 7320990893950552322293075170327725719562133155064532219828090620755932730432 870708625707515626906315565221610050906380403165319550461586151765870138898 5082515672330487037620822468352229244518965892583950019226612397650964254133 301986144944731646140373750765475232666099370623912110218074634098929568116207144 (-2219907777274083028695645513349581113321840344433990128516034876089902830338) 301981650927597942158395202587938011378236665019144544555021187643785020906140293;
  D 10694250228099270416878000239435695345836259995989881214630160166775841121705 8607729723331832287689161147929899836532647014221067234816071291066035692923 20408582537953658787527072992759957269644419515696463927711527684938935812916 413089307117405957659136881298373172206854502800681541064778079554203614337832464 9388857288581756616692499126169944464886937922424326272531028289962458122324 413081212003029611719552281147894949049216916293052400017540278484638165675549622;
  D 17079205710689131886919917170355914074970029802007365250450939724031289072240 15424278734811603250722658495820542597255805196483798370241943283550196017848 12679468813629773669827599816396085422755006894039435582693977579949913310698 881467967605313153200272544011802423181431623934897161129640233668874940161777643 1482477385047722840530389749137200117634319443620510894650738834995095883770 881452262476071696132392488249771092318373011839123285367010636574039952767091939;
  A false 3%nat 19851585084773106647469866235223395135958403777492865521372044141373480993707 20639357475309915447669042257074624808517086431140425699035959467576471720447 18341316552126051411549423329976061999394261775440428750352130581825946947607 13371514797131550926292992484587824188971792468097037969268424343121856057209 6043619013045594938469672824190758332352227386567928179149117045385266441988 5155473452528052814950946768437547618141257259284204031465825034388896168092 18900256820424660975479351766804709045718856389539586634887435859062262687080 854321765985706559148380258664508798409685450820530401527587047640887348261462968 (-642850355389381560213330586771779890134894079323092338530640274809535403365) (-17821858025606312127478298077897905893355233909194971398512045496758393148153);
  D 15545182659866279900699794919555802808010687469116738263341004312829720639737 10211833659092517680539765378725185498992042149565048608693768324183953261494 13249953038191638954718409000132929950279381354086532332048958015826480748889 3037367525438860827120775494928800808004652064428018526188757759559112343788350660 (-28027603010941718691143656375546235816271862396847732150678149595395807192345) 3037322420289206523127938188562798443021707198808028478922984490035374926669268289;
  D 761417626502761546999837370302186466169211342243872285861623133822756763627 2731306871370770379422792118311821067795235576737266856992527449413379790099 17442798298154185825609960154937434357290387785124837116238070113519934662139 1862502882163837751193432557481998501873379002957100385008134352672270443997624741 (-13898255184163989246812615767706177609707447315138132428228704021550420413859) 1862491177033841260812341078177865254961294493396557756099459299259314590379497053;
  D 12502416678765033348842926336660709839217759193557385757904468679390106389276 20736488112111856623104503395137977064868035532422611521984736107367696911714 7974840558877726930327200464937162960989086016387743892707899203043130348825 4468720175427191452642109955128765811346310225783177841558426992342350734098028 4365149353593425804128246235994651163013720991272673760125305771806341727962 4460483321425159813551766421486428638744785433176530911397431307244356718679781;
  D 8199182497109312961664111591938739204148016005485159652015455163992264015889 17009137710301316610312208081990628986924497428932080353929560929971758229699 11173204847100365796735609175998679052680395547104861175483439496110869293092 1204756292421366002960364853519964619127140073570094717966344908369031642294580512 (-19503679968483707624134649369950749851821821646569076350939953196188191371020) 1204708319157157197470475915220679022870968907776826629630603801177270690682013782;
  D 17523634166053818636565692702462386034799965991476577271908206401417588522749 19058388543579373028025055356113566191312174834612855621522458903527631830030 7643735882513850367240506404850184749148802332689375546023624939575989844711 518151033000625751985255026195924290718825797316679399885502773841075701152266270 (-6623465300170777966724949404831728706089716721945714538331433603804518924699) 518117942230210311408994280009731106137626172159892037138684546708554258957469037;
  D 4848255385698023185474661639582479247938428624111357289561615070547009284263 2476629475152303959151747446088226541080603503425916340548439051553306751210 1331271118875413902578048952197130718472621048900885563238431824342202274222 2366767432651683977523759932980289850415296462728862115790875061646373413053813234 (-30221252512851672117346213393882864539726674527297811871033561827435202609962) 2366734093227531874242075378700501135491048886853282498349790018411359813052504800;
  A false 4%nat 15934845278632073635907633092399789176987321258098706788696359068131504215382 3008225419937578826600281662337439571217609146783379739666278244090894665247 17573900915472941691381703998159849662424295104203131914570238002405344914820 2406053577536658274227505959759511566054602999086022487550337970686166916698 16879296904268626888586902332947466843860520093942550366119533087980590138586 132960846522362907902493881663548814494651216442814545950172026572131522792 6937723872433949395486389290391590109377929663773289386021393348753452717667 2286211536397072619309779688757977129678910204150751132186793394940468627684118109 3561361382525660253737164701645743448489238923584685909577624686668810243993 (-953490759023629704906602398176910128242682664715012922117233975806521585864);
  D 21539410981436135134448099390974540445013508302399303906156074913273980385219 2191659541427464955444324241373064365358193939798521582674153503085852693970 19773873176327723960101557928288282865068704425675248872644952541613321190091 1957041239314465126045161595400103183311973989723140552831186726250528081861969254 15078705481856629644739853429382322330979408517202409769381365694033080529613 1957038432490795820241579481666991540334172955396407172571447475909932455132912333;
  D 8944256582630043580810538591461084415456860452200134865308246331957323988086 2861981902730277322967401784514902828858868961456285181634595522792590331239 3605856420089576276326234703028097626996819700928098392693138577438879805370 3575788768939462966354381271676350860305624668146016637465061036128125331174777190 (-2839990698703149247203657300081767531192819283314836603011197501492953539120) 3575787858558532625105725265877710647361652175867466342803246390328351690612000144;
  D 12092255055106090600561692001345680260268072536966610719014230563881121221757 12745818551629673158168203073873848969667968008166683876973758441561932376218 11663863922632390445048390471229623358473965776735684623681408721685301170540 616584986520308658130323441966895921741831171922724343999180350831454046517682293 4104752357732068111119354710827937173557427244666312645809059228495114825416 616577446062403550179889434132223981290684130768554480888672735407728763733944635;
  D 10044384900874546311793210159359864455180740959002459183253024360001419997363 17906129700141718121924269592675487657453751026165920397679924875962725810719 11651006045995276376133343542559977490039850248855941538355681275701455025247 1126994097805359132653900387683216817935772184671555511668682419310976502778158881 (-8736388276395079318700767867773396888322990846539745141628268200210628421623) 1126969722335403739755628934444720349941148283334761523640432989752195758344685813;
  D 12892766996388491596537418374272428882970467625404987567252457141547725819974 16296689650809313124208130170624624614796153247941889308389881705399723779767 1103017695283516170106065288077193203052067408297820891473276238490185517446 777605024166036856695526668365603935227253292409644815357158067449609732562668695 (-15784326292026105730447012626998890603132717208739029670263795871182985305270) 777574905965019262384179381587513961630683339389452021233849014064798838528405823;
  A false 0%nat 18090233852364022008240361243037966672560160620137551215823976594555695886878 16997233364292037350350319136916823791243319482190832376170971126783600804543 19663003900876431195928247576682980982958505224785667675249954578504494682105 9742884357278529030979379068980169905032936532355401689380878013000229207505 18364198374408285880145689564241864074356553515226608524723315161890858239569 15500628501049698286428234533351157707607606713725714831713317373489955953504 8040566940859851322992614669756721513775899691145216838334362327856789370710 2783016151923206764694986180418773953881485797035256378585470905824673880058008930 (-17932779979417290812801102406976997798612177440632488889928418964030495505353) (-6243872268561063625731637938591176194334863298956645941685542851414403710368);
  D 17612554524884226587650474974235134836934622745871956392914545494197241446608 14917045932180415625160171804329877352306206951727000220221324838829332344842 3330458404079394187611809186124732289255407187631878157265712040014699564742 2522288839801538896627388301812338081660070686094281688797749128682907106911443371 (-25415926524075522572817230588665107513438121945456004692823897186220883820516) 2522260171786077656222371297825180328821798896059832105520472672944087586519941063;
  D 17217851466134734666356621570110340673117549567309216615844201627102058120399 2102731631938117166621232842412843912923726101039842407819722016782239831325 3968322860872937030103184830140702198670734299080181984583890377270980437053 2390841201660408822634518449356287971388554146712933310322859593834486582221420583 (-20884663001497037177536676912697929294227161011678717491467351135190707506925) 2390820488218980677354664158615634305043725292028476758731918481815625996855306733;
  D 17601436948857637345620106334193398877369744908158528739015639209084945604793 3110553781018995630924605171791068207098183970566179829538303511573651885059 7563556267031881261597507794839691398710593204949956373021440838706449047589 2284873369285408929425511698047060013773860744457200730339758199471040328565365408 2774111073014110604341572398584574571669028529737394983002419024860426767831 2284871890417992947021935734729940301145730731414456276411427354664485861387873226;
  D 17659949860379384764865694235628823266553592013013363576660267401843483460479 14268341334756333709662696296022522468503019509124114678381209719109969716836 1944707882491421127566225569233139637088916790597664803250331417230071902220 2387814100797796400533474093909094697500952860112152869665317605146788577964696633 (-3433669356076303042621697438211837697170070538759012804071927800831428534882) 2387811949010383003460843877478503374571541620716356500359569660096915917977945163;
  D 3246657067138118192516555812576336341489439096616432116884266843034533475748 7489956744881165271486558317431219342981865426948406986017020493453107901089 9169880798235683349904623738442477215830928257136320449302947224193973742275 2403725089214538666080187227140524769041603585341644526424167059401535193501571913 (-21663910145880939638691245416241081138788544913190676269859455178679773113164) 2403703349089385132096395664443063212098215595442059690736358282068148815475180171;
  D 14561682049365334286680914277556014497953927342474983972176223284379307315483 18905602842669543043837738778621442185522688979950724134901900576503101813901 4561671991478271403356250165467613726716501278768839251623625378400994987910 81243892078997837838814962508256562916164062525976792787407394179411239428629883 812809655892322388480625864031541773190865181614334410508690089454763376858 81234826021744557535138862652302327586470009433518865492334746985144410766722763;
  D 3018444369142036864263309842217313077006086545834065018018717084287449401569 11484168053407572702217199993281145543425401913073924831676301595801502825901 11683392643444901325698038622836861886824717252685497935391221353470738975851 1634299361994950742452539267514298168673554250294121566593027171463614706801836250 (-23543647947135449264354942871254454418839319403849634232205517876414616391091) 1634260573240311460930089227958065947009180737423430997902638223403761904318577150;
  A true 4%nat 12752999688573004505726344032709299233937901608307579454912431055044360442704 7104501990217731991237847147541953733648796854017115431356047760293307678750 6135716967205894331516804018220007762641608724477611347244929014820965962160 (-1497969536504513550229824696390168765276527139971208808320763540811085326434) 14759555397418687460941275386008234786207120767546643386970535225097412645035 616541441223155016368686487921803505538505423190548083913860966428865840270 5214574128965769022783797200138125307879890862055143471487234043742610619214 697963126527323119120428936740940740303261031182664735882427320244757705499127858 8575450180056134576947797423824880375218812384921974635518015735573034021021 (-1692550310881219513057954461297817076466966731845053011325542388466090261105);
  D 13524641014485090126745920226733732830048889719034103804064839817055285876367 11330986258620968232730343624489941049398918941635134982242333942637736739420 18698262837735367989724936421257523482574824914997040621681617588770792264867 1253515419801970542789281773694970947621169824700893031322942169878668435079514849 3274811484737915569618993767391343356909653549776766211533606862537867543117 1253501128218211896755968277108644496220535519340917364357258146720151168886615200;
  D 11382890386601675480771032789492487226083921589482119731916762863144262073096 17247849951659162811997110557952626786188054038738432776512431674972966431483 14603568674754234484099267134287834799281833003289959389603659539997079519213 1409799925923993182753978890645053809877654539720432375753428819444235509650814111 (-6408199247384375687079642835709768141807221187329785945776076537978478924896) 1409776686842472324134416111740460719220587899574368595787569669414067478983268611;
  D 12327047157400874719275089996250174857119498491827097972754921531281999217033 16894605566376205894284360853169235365972732170170342717489224384299675967480 3750287050546386489138312354753520027774777011846038781777907013133261174781 998654358359093455340715405679075357587471430304061058363540055229337340944701724 (-15827255184947273596880309397285422437184657568971341559111874218383180721739) 998624281194825666522474722077184112573852796035383124134706420236017617467231423;
  D 2323455092978020562378939181201681686801162839965625629581192782989148265425 6502894697921106506256985048393716987267887271375449297155556148582903872513 8614529623467403319249846969663498945806519160263814920787054552997699495172 1171189402192955970431120915241008122694702258274230321076158263322993305513128184 (-18115009443160466529759002502251568367758467148123341274013991348977102717740) 1171160762398653116289748506696627027122045766528978609728978573453621945527400570;
  D 1779262660558700067433389771772134323925702098385454922379739153240945568707 14373287099372412128009743456528037575578303024262977490711558156229495779048 14462519248130740953934818812118131155586786392920637905809423169753038795242 41609540020041136889850594810373458630690082240085487451168834606656089963574931 (-204938658640791646972579499938524877667600641640639685939576950720451796068) 41596179001436288548088588877877901874362247629072425112325964475339487676173883;
  D 8130821681906980041079733646735787256250292806061289019601620981840032432862 9789672329973622013947492848142939605194190377248141676832319399160800578084 1720163344652334107143593904013779474072415697259620119672627282406598825423 24409128718299990147088423660791393374435334688662066375254818576470234305244493 (-1697777427328194219215820380896042875375970912919528012031159907242151763438) 24389482435951149701713612348444593911615422474049214568924783932190746725092296;
  D 11742793347390002099208287420404458551446315147664440056039226388087376139398 14249736433894879620384937355870016016617208779241657380787895618153870211545 19236477666012692908848778415257855240803445616548639465473555494319110977802 509538247144913863276855007425842329055098021051765214980962270642370877402793462 3047015800927888983720067503371191080139485559694033184484624210231421992140 509516966765851871076641198373858664877732546747192321593621332565963539593803032;
  A false 1%nat 5146201261846293427301429888024231509000165484598782059451582826187672989982 7989000931820191503286516685367083273659947390767186364142152078635031874471 6600236972774904176908779430214197343750528656898565149291549482547696870931 6053723971096451134450461949249509568356773394565314498476187285650185483935 16631388371773200214525931161336062001449540068368620833621274708273635080376 6799942095903310761245365579891794039936174730558872012329714065253013868397 11098986105942976538967746762002461870088575643107313998835035513172556461377 846022512772253620429219417589778687011458772635479070098680678200690440287294847 (-10340243412051017670371111305102804077161471324027151524722457500126385789197) (-4051024600824289424969600882333631142310325294954043321514638007542511723716);
  D 2328634222620433204940992554940957794542906633572301787117384041057269033456 10411908598104344328966557040176808152901997160825257093624739584247360597587 20811200523001282460916709365840225030860089573466086059684741362394564059792 204119230095495799278492172609166878785256412084965147307148525654614382125462097 (-1542578808105773532560964955324520921227552818561926388575685581332043543076) 204103498700725752847075805301038392697047116088132751075945044360884188986773237;
  D 14709685310840273256812289580828195587579496960386726000202018871188022548603 5969570920674211458245653487174341744991477290459650509540423668482639700624 753861626181594533279085681186332149327960659950050527349677707051263897718 41798259591736326619636274892413857972173667574784127867456535174174906260863603 (-1708770607975758768736358687814833712626063387975473909670029565826417170670) 41788148414103280421319173400942551318041061682197838143215107641405414250079191;
  D 11984360404367821422317526889255846184643603138083486882741853186207520099834 19586208010865128686283563409718190413276126724140522556974994899811469223501 5367800927544457914006798483612175550547326901994559416958742842169461855091 1667674819100453765490061798754922541427331188811953693409388719472859734858558505 (-5084526845063140418992786470859152984469443982001332921545803542774438322450) 1667666759686067941135680142150987124848198793626926718792019823279813257355460255;
  D 12056070778024342184490196783718502882095649965431859895975309923537891589702 878341613604182099863746669199070972926986688372946397481622149865068455428 13785659556196022040300545249210582367567061037765918869121496463900515263918 1106982567313698631081387025176719783690993187927029570063580928470264201160382699 (-13854719447268186693990486976505525628048544713476002222942701255702824038096) 1106946961549841193903312120250096210048972155158032401511461073561006151049066903;
  D 9140638829337331739631853809154187773232560710303977572239968197562979131295 21872967114056249394716101175549022210210276477129462193954944344754776336189 4986850172489411675531434767040558794562296668551466616775556025170304143232 1120252121765766275180886693181014969681073996752720226598829372153909772904390656 1114950119287548412310177132074591612702253305171254840513486454991358191184 1120247067902902377381478140615142331199585620986107215896064208215578043330178138;
  A true 6%nat 5462239163138897328367755616092320630811417717362933422050599282394568832168 14891266507507045468795037455827746152171038164440507294692955374244882052375 19771058323327065645901202809454598097227184544303472256885440216908212220169 (-7371222243128151736453259175836151167736283209894580302402608840269835725437) 21569757516352376895293174160211430137879974133575902313776547157843417180381 7752175343713904181898694775488495694064863821625788497838336596869459482784 8501491827518222157208521387113402524325340497011389398758978365210673257254 3286768121970812917024133068154290891962316897795817672036298022210063798319553970 16520816225381327175611525794693498495840509261987493467750488694755959836181 (-5783834785470328685204472446754426381371504316252375394706296905013203082068);
  D 5752950983151898859983879685640480350493905003300496398524610468444972615138 14199434184166771967373522133765470630310314385179460161955116084101144326194 2589271909890341832016932275322110868389975965692067670103431815293049197812 229966587104262772620545284645045739006166253753872190094127721327556875233180189 (-6751723502783740544350992404105037981760260426630546433443948296642879570632) 229944645378045795341956007370571201865208584234517117854094590356959341207357355;
  D 13203143726893666443578817483825239222551068366243121381192842696085520439471 14276732676705318902775557124937926162541867766287995787874418486076350953537 21027779177428190550076763445944460142209574337275571913842717086664388129962 255094569745893741015466667989081781308176352410807362100521711366318347551699722 5219948156914778003052581443000323410609777528927906545749148919332187169774 255062431220726563495529115538053564783331775334614833867070284349148660786361732;
  D 2177604389757371079696032615222689709669347330741297268681529295775025846357 13737092563636484264018329277335308917438163406439631449299421865155045955980 4468891506271594928967888973193266280192660152576027434979612016356487821149 1343574941951554235875876612939895511168614372894046326879272996541482085299641760 (-16779054917791651577500438105816882665159633219809095748607305527235505159933) 1343553513106357796447418960989989805953415590452798654620727563158585446503230263;
  D 10676536267485126357791087608441311720630954292307714703705697920314282956943 14429633625919130500006989147791121294521753182656006371537757387048220775183 4942375420633922975342808004935832998402565325986366900619626045751179459413 36556498050795067580744605123941460829872609174881085595646864708203232711111511 (-322568410519371474472078250350410389167419196765020706529683656633621764733) 36535996994890637095569026026726241175797211096286620817984232911310791316865711;
  D 20359615084603967760388245216878478030841781968175984665875353025770685877335 11776514694461240941460635007645229647941521501857702795386315959753504802642 9452349220997473833884718364738005908591729709508713827466955094725178540396 878556396980245959381994474993014184033196669758279578249479607197646024517004529 (-5284609749618171311888513735164742687750614222086314083972590571325655371534) 878532286119189417128276629949391313991868182094431013724503401645507577602678439;
  D 5944008814386941479933654134020122686463978226681459304159851082150047951860 15102757044968450578901412469502721223863859255597688062069830430631037938841 286141596815641819805985883772448026019525893537237695950715798447454507890 3194803643137787661282238169394276973831996089351470409959250983071189315844468622 (-21830431389993053113044430224041725207900523830796977784293359481179520531220) 3194790773483272025957968769608100964476109601341500487341430117612312750204418184;
  A false 7%nat 14598128860659864738285904929232870469429293409052066029348864111035003139584 15599811276232874736486913167702496161134539378462140035516335133664370296270 14628706474965046881157786567337718515804943539568544047133309041236738143890 4348812679659170027201196538418052830611060499362047693318463726900126591090 5002372191719475287778660766593392227584488228479214320667682979070284218012 2610948381864247777861178353728481000973031953965491644812025356204628824098 18129768811687392256619318276304707358672266732399194775214784707596104554624 563995726593234083798178370563954724029277591538732740039854372651352310466783168 14237232905711100268096820120399522558130617539456104999845536166388513179 (-12921136410996454801418413507452918748662619952785588943257097902056032236566);
  D 18134572971462943767648333228042890510492328371403878890505298485222615400633 14341361933180533423488159553615879944867147090052770534884495431353638061571 1942194714635289100141798110232066983135739423663092332144058737605516469301 1642485367510996259035030338732443458246294868144962124827667090649269076318850447 (-19199130835128058312820180606522065468408628704187013084618504621533881630131) 1642461858911239378647161621524691600048286192213344934319915405275248541741920163;
  D 2554405979215529683160738600528199200596812136353644205612797492272952378191 19658258632041263010252523567893730859235524594472981745802056123481612010367 21836746447617973091203488916100519668286664223758653760950812792687507590176 2534664372436629609797224699899604886286448175824814687395901091995056640004318245 (-21215455073366362850611889511645464280461031183629733813870686866168701768310) 2534625967264571323690610186483472475887355000398870821145644648618794086944099153;
  D 9077331166399218634983060931347719143249915414953881785117096982947893633374 7557967851779225203640319242157055750792307351322646093462854434258520988570 18179562759740237088873819246107177536216289449056746221169892758869835345239 50307932474623293879295757548730190443276280581609712157866940097998054380614950 2950970766698642451728284381428548742672737761706968185964365243936332216976 50266344174405868667083871989850860754514224976205300512384530944674422257562713;
  D 9234052300933708559833987924339358056443430835299804910452943387999723311837 3690968565235462193742157997282078585431704371760850800518011565267448218276 17213580966231108604469230687047780813252540195186863143490691921366588380432 635071068454212218404852559125835645788151334237539448326458869270616713182729604 993170296246375802121065864735962938694935278167287763991457098254012716472 635062946260787214066011440215198950696910572030362572210008738598574122693451860;
  D 19113720534071215983532621307712346813512784504107378053055031820383853080279 7337825315471968322842883241871687461255055813677239699345097648208037493811 2438436831845992252783271886407935159964275761129463467326767803322233155728 657187440371240639372138328472598687545421184038100398512893165550143924148938844 (-984893740777065113559991909043618982257928238922651947620877247997818222136) 657185378107874945167931205305083410058790244018855051763017798203827403582698114;
  D 15985039275131032550144826142294320929759517730554669121890042275265406020009 16453558549204648641890476605802091181467552769806735877927212678865938147505 20907545932974515975531030787891922441361710890921155321739542270057457338072 2815756054489006233703705914579549450666821836463780784667592633850131012946627597 2453447651513693226314036722439325168690372652503333848955253498999789742830 2815735418255458666685182438395617265871335028573387008857853054523529122927969437;
  D 19595642014809694400140364212412963087532262405100376661156448597448454661688 7059263549385767045922609665285278837034559391365842900206509543902845262569 785197964083475226362964452973620451890418991552797942186753539767134953949 1969401781305381411762817003174208180810047275546794300310606692247646089750750528 (-23329195679358914590952695871179511302599305427716632000565242927152812684634) 1969376791538023939358459730368511939807872027434821785170761174768756335850021896;
  A true 6%nat 18403846161121770568649146497006203192320728282843174034179275934847905224457 935685595260979871626399357576760097372256141832711508081918707110164482569 3442414853619795947494004337638637729794198606178142258558543394710811954529 (-15802378256576789484026321561433953723406513828311650063118743890640948103169) 17156667275222685166831713458472521205674990322492222173446638424138300554470 2501930741584614799953426426233859870653711538343963598220722451654665066307 458833664584965537299920121636561362623891697517365814187908935737986300845 455187179989176466081653608818010197695302495923692821311537134519858410243493155 (-866505188967931574563619540387590534314836686557260704626658576726901369902) (-19614368000517532481164874155403844050994182211186031225161950806343372918);
  D 19194848713266892426420310306715505143449791052226025923263820879468845046070 20371123850849495672423500622794320100117218770062380915023220910197907753230 10504423367429420331026684677944922358386448828164584223307416097268122347275 2610486062735625781981706870774155634176787089447292301263720074417158084054669058 7638365072798682082700638608249683431458078352124182042097314024396444466352 2610476206397420416869650172418068577152544401343139521850971145454978911497314797;
  D 15151655534874740704921287299781018895691575634171764320960874912848762000655 12278675000881897177231495523226730322374033897989799380077396125149918345289 6156314826270867012565330048696144580961763347406005411661872591952963670647 2839726211722438216364934327762994057126603996987873083245366334961519761142610109 (-31467254968501842878880653254244389254394298245916899210456413406245482624495) 2839684839887880712898430814431975707273100663341446988575450319794812731626272335;
  D 14334108678333151493238483964705088760615395193377652358392561632093140106262 4730462856409157660498043124022944806652937772029275991364869626730269215807 8311303397388161722583957922885705317930747626700208190041470262485817677452 1769400113733235227184134325827503180165738216940697036372907052457397329333880257 (-11556404202950246029258906485003763000826207885799257350453389923491098776198) 1769384541536163036414032647132173828277927526484565885915704083277268745475002037;
  D 18101750587408766734426922958389772822260576110720539874666854261118958901223 16552514256174858492553443306984838470866138574421448646322056613324154125005 12882110076444744919547760733157579042225456841475298926957383285448779053409 1583601300457810213589277784424573503033938245075370780614834227944405955061899920 4457863833542822196723349347911020562215478281141385436746053483716388838067 1583589513953526965923309512746913285080528636902513171343127651193578086681654748;
  D 5100553331815618115319721280205258555703645345943994104921987615541519501199 19432537151085251385897527773343643798652381055895359826811530197743690927639 3699665234584865894943619593375495163334137510041637508107339929223028504536 2525500679001916049486434096726107165261219023489431457435539592664195335686891917 (-26515999154388768540568690123335733331017667768626179562669938927449453304398) 2525472359445058569069745141953592564674558080584962043956019805307214420618516697;
  A true 6%nat 8049352537281815238702291198540488723467225573574825983779451823741978323039 11227554170487304563046634649951107765738746437145306176343002451699107598586 12579588791211688433318637971819516923815357552918075725193015770755719793972 (-4113203997413206876514145274000164560227689763257439790817685080119182296552) 21882405558106350402974061036411703354019613710084270709999720682217397199108 6887242804458784127204045144776623883818384125875006388967509406942525518803 15363903691629190247141249907273019465375282247750381423797413772451395083315 2121560366844106026858211207476853502557676456018847985164401038235642258150722893 19513159674313162796835230690025161804000704779914261638476757157996801145361 (-7880900352665972802251829455096836406279894137396994539091425584077275898536);
  D 5414872674368388103712096653794485379565610461811095943206862364164342178794 15821779845113457162825488423918021704038129153394635453065471009510692740732 4838940015545872631334517819086717068588115106983809283840864789778762279515 499379936006236337108840802620938116639494485530039720515854551689839768239050693 (-7060723884561333881329572565185574506011817639115234873868604099698746118494) 499364919881331446027854685948144040607796423319255632702443492304699219413835964;
  D 9186238119274272537813677177651184312919707404957432098347838816820844028749 2963157504438211777432041622405352452420993553297471748390613694425614425778 4036554308450432038240687656753974772727455385366135319093710712818829447640 225996992600710155084260234892322428998966410842886636872882971050407163047222952 (-6134119509441656773811584877763343893846128459869760075644379887332608605368) 225973572795651926641282016063277484918083819286453766306040561360262899265068436;
  D 16507562151744767390763673015381472564530959285612359889974251566667877448103 13558888668953554500126676093962479863425677041848281353233308147077407055818 13023436167795651199113025901599404750364531844553503367800480296840596634779 650398976058521613063075023267269909327016009391126283346369993039001087047167365 7334743225750260740606926866278650068710172661815611472157275600313837758729 650390106277287215266437452694872067901702955320564185479411880263844699723360990;
  D 13791632546172071371783469319467791158786356729867166886885810047043638361453 8305212744890398334372326212009692522358770822077918250954280850262131411991 3336947330742328131632255136502532037267389324764224029844838845045392703433 2100253913249772788729823688865716038777851797649158295827922099666346628954014423 (-18348957737848815770729084505450486563366421763219579499227576449043768795127) 2100235848712400390791486667030217729656441991208190121238089041597358571730951415;
  D 11102796325174842458122222127182294699776848225895720786707786137284160964860 3601595737670156946468838311811653490555203972234246587474882544027295638620 615076692740903598192420704127749428384694710160526789797518349532723213160 1466008446029029594361514195794857408781516030424643031451017775563792436887748613 (-10154118576265888517767549127663551164094749521581581954503183347445775984438) 1466002042208682231900229542874752408225440370581463846263724159132506255011761827;
  D 1054468512509268920232110107366056069760807598313752625657289652034967401512 16379527759485133793856666461941580925907549751514190265992746688652169221323 13113526006418212875854740252494203991080520861779838083366999445524311220339 950099742663732126772787645319752243544071148254763228211745651975611959972311133 (-3022068421275761672911138877367538810608476490972037718385531052535999833896) 950088744231908629929187698906611158083844663300510776913969586253886366312939797;
  D 21873434119599825801214215967061585824933891216182402749145088192966723097471 7975504155991747326079517262854047480274854958609137945196468368834562393653 9194433073543972748576154909088320056083123106512369720498373273822570838168 8582071593913199641795946692966895359141325355942214812829203860383743606228833 7610041360206258199703333542802090467039693138727034300705701530171054990328 8554206949774851986754494225135562225312006339140295007624581814588603045368569;
  D 6378490396506931518603545241662063684641194595725724804043165115232357641603 14259224129861090060380930665439609408850606771769804268223322078739931781810 17827788884470983704127718766239797677622393800396740028224931136210069512739 3687554695750908643296381930484897366232754702641280626655483937187300573546566610 (-10744989930890967398020527621886044151894113651236440655052517053514764380077) 3687537269602415986801994680560768258282555443326012075496770095056999057777840913;
  D 10359946936066091539005691269655119357376783310541353762472444371953833371836 965258178556250091550348007946160399474461553626171017601482027693041949092 19103709814707992241981133597591821509847141623112999122895227095393067166720 313583252868597447446813482106703399679548696442584368035367147395672364962619040 731386786422149387328708090537477509091646354879730714197377093255085812180 313563831896333952217998017109806660086566081347654351288593491528451617366427232;
  A true 4%nat 21455536996643597182532735303539197558828228930088583073899601837262998832084 9526017400703155455452447769089741410776543572052376863439970335936138177625 18762123474469849134771520619341888413816536919607647536160335924154741067881 (-5141351972122437650508484406742405599298743321494611612586977796906573646369) 7457290472253491594178126013511954719101803548497379776767011375927604640204 51821051885680472416174373564571273988368272715993103168110188649296150088 5625412025173172326852514613888553990039374429592211746956546866429830231798 1078343030095608026389571498805150876768316534025745525554029609101308554372655018 5437048344910823665227119735597163060661418883005098912537330145384894117320 (-2448244619346250021169571340990056692566092408663782946539766880262760769437);
  D 9271734517693249806781744298629697054856836832162188500823182026926888717135 11712244684161523863667033335328266558280882325604686157798554763459777974619 2336615545320556118619634719825733875485044757040845773206981712488496273589 3547998833894577162896437272494551408532651922943263721263101142147658117938982908 (-17685620577375222285649091988090452463357966808334044221168226259123188376205) 3547989291921324238270373547830566397988678233666326497493376792268423157331947566;
  D 27499490877652342454781944993838612518773317107621173727672268226915709003 15967913486791613154834945136326704836205851401559841690646966113613018292036 7303049483417709280158428751569473030512340054919410118077346323608111661885 662567710284169512608799996409916051622593913939276542885999427728308422244965528 (-9913304497006331256430711910437245593012339099388917683308831855327431353675) 662549848283290158386998246135736251250118426951777177293897339042783380489450103;
  D 8437294580745585158455688191880578887674433052891260124942721006032403745204 18936647144656550768764723005029721748266972721000997931057567748084915741830 20472160636297520104294128578821026751229388960414603030124300240746701894950 17477369678032133339629293156941472255300321022101540297692910349801308485638 7851312323994470416255883242790593451727689415709635826067370625864664867552 (-23531979942099762376170592392856777741668387171110177580962715061019158005708);
  D 21665277758830078440233322256441779816553391682492262619817576083323159149425 7475995083724738229842050476499696177821467418421787498754857988469873630315 5337258460474333017664784138528513035543013645586995688354805200475714396894 548685617128677914786192185171958431419861449500881937936297193316997382316845318 (-9316186540844376428633453865819509474706828958360299890030902792945483987570) 548651028032942524049163857084240421625218158898463415954867369837865401685441960;
  D 16573529431707913361210820301373075551401023754178412672342412768220005667861 16762941154270872733030131354442173655658066933525781830558894983063760256027 9771193450191975281149910839057618141649733658548638103114557127993073886462 3617703854900840638998906986526212742111467448046346290182318540639782053172003639 (-7401044421150847348223988441567964507979983886682650773651318680694879897504) 3617691264810927534825979704541291982972446150640976433145147329525605526031648815;
  D 6063872331736219049658651321851714812547395373839832020777338447778878203469 4269463436809218090274158147084540389504157389734561062442118139296622287984 5435024334610345183299049545633811656384329417544945211414041401333763917760 2117077832897716326486098582057948243661945487738929179813635393604466754622453557 (-23879710515826991783850601693774880881001291225029336755011002795486173036462) 2117051097218960185694758662713938433403024469320032324667276900517319939484237347;
  D 4133031161585859866494491905876663190059804041761411730396811815210674321531 14897583257929599207594048744246235824490766663652257528135366402462251136638 17549216108065105116468524230454699856383930254984935579458236478956984051391 283403727477729438569187167014318714633490372706544441316604854820727460704012445 948111492818065420976174325046106491025985053710510739059828352197197646437 283390117543578850980437361153169037464421273486440715182447578969903028971609686;
  A false 3%nat 17709867663969244894537991612068708106816675239612345287389163570379889081707 1546525225718596062441203687604495228334767312268528250115743805340360418859 14209900480861730645518106012201965803398042918609212670908833915784029181440 3235799619156951683045193916599336159982690186484290650274969193621622930597 6589923958273342959128100483803353311777610746551825344246602629893407257931 4979428621173743080736336577270601092898719838010773297769373285182934707293 20434450794200507950802476447128965076429280352960651141941780519211519808164 721714325225975323737106626160634162935869894225663931913562695310302186160840028 3488660964058153837915357893176979189774505240727719018202326945686600307217 (-1443806787597150190176571435506179543760088396133976724575781683881123766444);
  D 16476064174235719472216020126121402259951436572066891605940686291200959919038 14792901130644522395418833151689052170979243827309253929418941048017818855883 9844760579631770031176970271029337179786658951335802014341147494358436556713 2417323840011733517557066750359470717823496772641195964306865399877388901073497004 4907903916548559933689854643751989020417414916095490114908668925530346235004 2417316968009657441916354385947156886656335016274061734610414682516558263129062518;
  D 312524487167221855832895980289396945954867825136465675771084864346852141612 20149173009431767865047095706072890350808012945661731154924419880072621321386 4764375352304355162864999652731313584044582357599714120581949980888332494374 2092248227264886252169425687759996266979463261867173930007718381301833341483878595 (-22202266101717438552849590890997912276236922873474809668165855532248640659660) 2092223846227353811018153152783742613884251435333444123601957489077032295360142607;
  D 20601014200641457966826032947379270196847854203862864669943381279123605790974 629638838424504698098081641249547056368032227344490228514355666103893123779 20782202318249798950257248597069809206893527821037795532552720104747449553987 771335580186542074685452606327536401957113797105563142612372385225170678586977 18984631502342124331772165526268792238387688393109970280527814682090711078922 733641205517614490157436117111196491022722635412346009972166135149625789981017;
  D 17338326934108200854528628379133753964762339495853653492528161627868026905721 2380022890089099218965146827005440076278959067746574739970197975133811057040 5413962422308750400518670391778463021402012929751334330338624093327782992292 3271006363091425126229209073352695208363378823081247843972880269493465556282499797 3103339705310038966241334535303998909782600398747101374703015223803324511120 3271005738178557292504156035304499316651921336029087894263152707921538207624736327;
  D 5564939722059259994503125663655818952117539339086710761789431661247548343455 8699179475631471172682812172595766911359928181809540845237271378083918237340 1338308392003279303333865223737888477591553497298034519480244846208987135100 2316960381648713008240690246346480408148033087320266118886106931449217246244049600 (-3430317584954599870135412560806589338025044404247058777055719837670453344540) 2316959332171925630737285876172795525401435188730261221881664537265415935936538340;
  D 11880501733618710308434358698551905905308342210718398166946355209788319613114 4378060375779040264337426081125821381438709691287388222612806442574594408793 9112642984704760840603531024004017171106111708030996916629998079261736807677 238688449534156030867621215005711660919863450271916009166865678206139124079471119 522744197334620619640116260688700255028029553464834920797636162575180327434 238679712096921427399242997069918296098174944862660466035632025589083007898835625;
  A false 4%nat 15674492008492116477980600155810141938264239554938447138170891011524175801045 5018230855278657236375951229514137981537871979121696811353565900643827113012 2292551453206173938329081159102085009120307555480921277743827115846822936858 5895960799306831752323229751228324907068852793595638242812145659356346008250 10734422512102070013610560291239077405289640963294327613420867562936862941647 235041462410842746749190001282076349633404624631399447462462531471370610534 8641378814131852798675263540199274306134144135511204895692478849245890353015 189666951099826813928446963137818736927089954666862709612251530480801306054715993 3377690175949122191514212413166745819332138862835666264598440818270230428772 (-1981174736187666894626496446325347767633917436220850256610887788242996814895);
  D 8893444349824045747184992343702403879561057675178472607207561048577627274947 4200137590707743564079393387848496852195947704956994100325568865920668938903 8421771867226847408221129816082041758279324937175434441178243346432822230253 1893613743634626431030831076857581552249549616298695672480040547689887673781490623 (-3765394962498715904750179841572461387454844963233294041281200902517111894017) 1893609826559924013797708235840963906063151703539903668358384026507237884836062959;
  D 15743160924643786690960453404882344275906785886864441680877475106524864109525 20902942459309090741107085791918755569265703133563814217402873774859613669845 20141532916241146259029737397101682010345168340240668254445427693333945406848 609599695587215872657980617078063461881784221548573597112624492844075561500903533 11073708179294334906159837417039625738925512875551870794446031583449827732854 609578848796643236882928816858107242076741872186460754692238833432579002958849013;
  D 4905313518954074735406643671197614039531496372843300916105908190792093879724 8633694639647586773481784210771960815662913337694698813325694810192971659572 1538124816201503861263074429396228017462129218488138013959068182571810115776 1910260482306601598225712546080824168337077857569610566640348077789682961773467797 (-29724258508354246281144247874977234624128487808568014580555917221229776324978) 1910219951611100384870124083497081893395280923417002093491803935387924476510690891;
  D 5451625166737918500834703884374790601419749319153744868805056389957417140693 5995123268910358796119803097711176545044924042267779413463999717243509974513 17022897222183852904495596561628729993820479225847255612888680845995216369908 185458054161143904457781754391542771162577827646093715880904352446139989668641628 370084382100084837327420749398592444450231958531386811002516693486778806564 185446580616420703025830382971849363867006239929633434563505711829527281830590814;
  D 18373894036988787823411307657368538693447354996882520177450301678433212085424 10321343056295995040648558483772623355446956199652745725647894657441217993209 7820439563184527530540529198897494740015097648414669313861658945653587079022 229065282753747260062955051641241214092021853912989272015651794158316848896174991 3578432427594406042163053333522049584516208070346132971991532906227399585430 229058310954023772487190248032679133350423450411144352469416472870566521638016303;
  D 19580363178315701717314422378937277598169080492627582742707888735739552700757 11548261317629043384477831540639654927063489976374369537121383437637691775059 10632613417011394024646634622776430903068850949949023139966932053471817421858 2602000710651522181080273081470395249991808954538179708922981791722651947506555919 (-7816803570468266734856836876461820187870439532365360726078318185170969369878) 2601985366868781513148768896761809951740090402392250166390482889950529440130941295;
  D 270619403229404656460649975545119454637632187368949107937842726929712300993 20715777049605218908725033887564506970084442310633124225841313624351993309551 16055698837187371041010733612222861314526184082144539002454684283296216798874 2954925697110441805514825629541202330234532310499935716129961580190561557654091371 (-20462735192555695728728689875228480784871931202200825411783684415636934608132) 2954898315700252029419269432476108498270588220204195474020643827746444846303695691;
  D 241438574365268759701661805016238817593495733744422271664893885895206728850 12233272338253080228283908720491946179658121356502900256090159983934371141923 14540591170822410249938630538669659211185595858599405803054971241703635787756 584051657893078589533919834243526779268388736011291960069195840951827581883185 (-351856605739334292724963821077775955551577792485451122670509036499330690758) 536712734647537131947777473330733737539232265263546703561309093497264496787421;
  A false 4%nat 14433055986228483638426067673114528597046971535765074508282479984150739755371 21284409877812107180554700895936757253856534159662539505824150230272774911942 8968968095083487860053812592249465365839288970638958072983746590091626603657 119819213179354582129305609108649331052992352413153462147576922897931161979 13271461681208652339917293515568714822966175433803326999895072295961087445161 656758010090592407202979297664115216933039982221064892460420604810451648942 6414580823743982520518720672732820398978491559567912773238077993719065221267 917392367580908004258388301431818180131506645520051513294413125735630255345604325 (-1854233365048550618201995772435812604862585727728581617885752528327167022084) (-6237621185324861242931179009953201724880523602339355742153893133905924017849);
  D 9048473623365897634114530188038403526098883042410939214738390771753143911957 13092485764287560567908043929113955702427990245272094850909075540669294578228 15162240795167744572526602581505755243806647581572668379226756988135132783042 1605559389235326534890008250623887171280006448124901395079051226771976670518147966 (-21801796776860059932282740739159154051035476472539234930731735538829529094810) 1605508925448172567322410265351104672420664265860834786542541810677753023924217848;
  D 5627749497511332254552316892345881413334769022291491746808067301685907706125 11960784092226386649647031178937381968725463159266011399257357743918361011981 8366096655263805005508580840949580837539285959462231533054554054932735091589 631044844112855643318951430301442789109324501915529727513896923518479882576919335 (-8673685186551184460945206858220665830373843966301697691280022721220618090951) 631024609896461130319623204814118376371236676596265639978001947637556909996041957;
  D 5046907597813501063572358382618272964646876497264213072358308360830867473980 11533644327465635814050534638518195220539432619520700835572760084179955665169 2335111996792566941662429334578859687827900702712433789343576072564907018970 244109863320608970417575510484194226748087514052562201970788006030934038767406123 (-5612122433519811724722319481164438284570051149440086206079106168638630267450) 244095560981893591882362021822855505567863338732043305562411513225584844858579291;
  D 13561847924626905814674610944156134792534665523884577991760136943067473166074 6483603064752028598856785516900275719924814556862810365011856800987570115734 7693935683349192725608360574316511950929204897474105667320315526184883035281 196321713079874754138588542680794374437531965053114002032218443703760406361525840 (-551642667928466918829677993751162233348248748674442009076887430428291795038) 196307279105901996395424767063473954469954300744192705206121877903689704660868309;
  D 13653040076797405876639751679642378652911130593586741047846850337190206710092 3062743552968546731134890313678023645658876732181556566853851867881687915225 14906571696598171769169177930424139774770499573967684027743203916284583644278 1417563467114969095093556466975105280213689727449819332400750133468948848393959134 1263726074662315260956590203035185147137890916832779800882504179656943471632 1417557540224239549653582529517774151566318132348270673952838345169875250959211832;
  A false 3%nat 15868360926541527107625869767765653131063653674743884032688134893766184460539 16901791886084598030415449255205596585491806594142662865573597247055507407597 9994040234491091264968236662165286562976794120941707913427075945889248396022 10689128669401124023937238714026235792676497648477681218456172149350031830078 2301650125280487460448479673746886652007114304692715267713875631168170647491 1023703821144908225112654371862194398510806400915515546390178149879213648777 4613670971610029790225198316056963523717010948065732897644011056464899705804 177285936804605418974276995993837923728812899789560723373987612047942123621801764 (-3616524299020199343355195736809071128287225295123673380826749431718061888664) (-3562611537600771432514327334562884007117038333843926342319437226388832414346);
  D 16927384097225619543516770418976072416207246393360041146804349105399254830823 5291108141415907268988943616006737896895664535567178109431264376929727969903 7712086418850276564722164106409478645772723340362646648796697087790075540688 1940757370128000827080348687642821098463629292010406524038890305811756065170300213 (-18542466897909670539592822736891673137244561767197320884167481191742882886926) 1940729403213308616649801481452835727582886315978403854891610702596515023093178849;
  D 15807856483129941741791754027738538844559950383555303298334088786476040346353 5231825931859805420751720473211165674242155859250527468470759369975934071743 332165395075905487935347321401322034409145312665969361241794349503728725513 2208432515598594350597841957653235389755223403042122996120301382159520860067880788 (-7943918465428474247708632483342617021630575168213621961987778575913856014297) 2208429878133239367128212486057146717003635456699363146591690725283317842837526754;
  D 4745956960623225623914339427092893810933745467982470963112047593225881315743 4065889932144462651301368898394554510718733071469552923173497116291064914768 16882868867334274255801472018377030642727458795213025645812974178101636047006 1925974063554478811152456318951453257553413623168663529509617959522424557109206879 (-3896271547892148372000024267401210558520272052930155944723905226009825618300) 1925968426377824730891113844450635312496400637291423268500792004664583926155094587;
  D 5652205582954427795439265440694787946755956910631613948956668786570721619184 17074405607322581019484877372791177527240364045755848482005975432248977865778 18468084561092886501785400793140498061103579864555333861204658236160936371904 173601576163564038737262676628667745107533389661016311231360260815979694731993660 3005829832880382505338340733006401351831147930751103120512726501934860424864 173585659194325941842555083937852482760419693073022386320998555748478854272712160;
  D 9407276749418864625568650125865534168179830182005426556252343362174020878457 6778521764145897584820260810756236306135110983984768137378792002317567424624 6033733468201117118528839543703885994839901224450082516137273399644567201976 246242819141980947450568844916568941709990396788342824049298433203499566722682124 (-6225036044641887128376096968511410048181650165795050968132071124009915158216) 246214312036546606024954738691068162321725588473247187092731789406951396453835420;
  D 20062621302846220268427876057816582980484492546164955885155561701919149541141 9860362657103830741627819347939197757076782464097660795889439959999952064489 7374119092796317035795774213625682346648836428586387829142081528804390490365 682076931255159505485657781053151014780350996120329075778890665338711723400568383 932432015936715549435957578140595469502604801692844428791872870491633939937 682069410861489284284757423298942728593004788272217989161439994935453968377619401;
  D 19820529280901309400435259711655309845115156309044803580576129148452825135579 17974063543164906541188414900113545779856925297900187039836059705277490122149 11881942196961036401037084424164504294305026521767382410418996951466156138905 3102274025410755774018160852007550314852692044183810367818578216506280563299916948 (-7316396364259705797123377181731655507138408426554793439027200745715426249559) 3102255384339843291061310336494720477434643668146577978179949720963616343681165496;
  D 16014085966043719204755318756233338702925053621410504855264082342519375058197 3784015867958352296136833868069920517394948834796096917884870596244935355758 16007492163431822644072039802041809216569828727360759910442640943316724337936 3027867007210562674463673827969097768596216828699821912235053365285542637229372645 (-20840665583489180680611895389316188049557804828092970981137974665670320893950) 3027834720172768090643313890298670312922101941687353405622035892209442446021351231;
  A true 7%nat 0 1 16728799079806998993394596873594933755033856478010435224115724421927412146103 (-11716379009014932122639888731386037251538053613734066829910306684028305249136) 1374912099993373957625207057878802822389058144510941808333942780259001035151 654176590272702483311377048538815709009118489224406364500574662635298353589 8323413615625306592789009405939404494383178974939296130117444408877472658672 177269322617266481895604756256974113756437569059182944735585676572301173015499848 0 128934
].

Lemma exG_times_L : pzmul ord_L exG = pzero.
Proof.
  refine (ocheck_ok 16540640123574156134436876038791482806971768689494387082833631921987005038935 20819045374670962167435360035096875258406992893633759881276124905556507972311 ord_L ord_t2 ord_tab ord_first ord_steps exG_on _).
  vm_cast_no_check (eq_refl true).
Qed.
Lemma exG_nz : exG <> pzero.
Proof. intros H. apply (f_equal px) in H. apply (f_equal fval) in H. vm_compute in H. discriminate. Qed.
Lemma exG_order z : pzmul z exG = pzero <-> (ord_L | z).
Proof. exact (prime_order ord_L exG z ord_L_prime exG_on exG_nz exG_times_L). Qed.
Lemma subgroup_large_order P : on_curve P -> P <> pzero -> pzmul ord_L P = pzero -> large_order P.
Proof.
  intros H0 H1 H2 k Hk E. rewrite <- pzmul_N in E. apply (prime_order ord_L P _ ord_L_prime H0 H1 H2) in E.
  apply Z.divide_pos_le in E; [|lia]. assert (2 ^ 248 < ord_L) by reflexivity.
  change (2 ^ 248)%N with (Z.to_N (2 ^ 248)) in Hk. lia.
Qed.
Lemma exG_large_order : large_order exG.
Proof. exact (subgroup_large_order exG exG_on exG_nz exG_times_L). Qed.
