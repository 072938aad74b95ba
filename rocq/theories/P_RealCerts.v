(** Certificates for the base points of "EdDSA_Verify.RAM" and "EdDSA_Verify.M" (generated with
    Python; everything used about them is checked by [ncheck_all]). *)
From Coq Require Import List ZArith Bool String.
From Verif Require Import P_RealBases.
Import ListNotations.
Local Open Scope Z_scope.

Definition ram_certs : list bcert := [
  BC [] 19909982136516318202286857148280313269515086954676472308013760047247950394193 (12269517357462723319034113620415116616052651974764399004610876834264173380187, 21696601250739480470463439379557472301089159876408956642162602108148399326323) (8833559363453741710180107886987176427045864529892068797010584662109982135482, 10882873473754119068782250454586981056360468404331444309808829457719125827448) (17434558536782967610340762605448133754549234172198748128207635616973179917758, 13809929214859773185494095338070573446620668786591540427529120055108311408601);
  BC [] 18993205230540235586632308238954885215265727173512471721132284640383296043530 (4001808982516043930341327512917314181351376080731133126095885850538833807794, 12602200525753231876015920798586321305725885282316948679175018770644007225678) (16347245957174949706385298325841140212528544787760107633900156849623267419836, 2159465752492604988772370207998808431217777697547715942564480273101162426785) (20881191793028387546033104172192345421491262837680372142491907592652070161952, 5075784556128217284685225562241792312450302661801014564715596050958001884858);
  BC [] 13059179248391506967245276650097858065519477655529349511220087382932924771968 (20278316802813801332353038488286267578884191155294719840882301329150209756989, 20178782999248288870067526614049634095078218760382467522608200799209335581201) (9283999501383922446388979461428840687503065761146002149342652607593489111772, 14104276772782284617361613741490655386351617606179318977416284830390070003321) (8520090440088786753637148399502745058630978778520003292078671435389456269403, 19065955179398565181112355398967936758982488978618882004783674372269664446856);
  BC [] 19241957590248675987932855480164121306068067773990292189251048403220538035386 (8206654652388375338813899920931691331944126949555836760155617521534965790609, 16502332008611844768885223400920811069415377247597218497740540920061341580952) (14080844775219018368448769844385734130726986821969171344430328116423962944385, 4917547729725628902640412914554019973407377423632616987105872568123229625221) (8252178246422932554470545827089444002049004598962888144864423033128179910983, 15651909989309155104946748757069215505870124528799433233405947236802744549198);
  BC [] 14512555086011599817646383150483382775916879370042327059360160404622063431964 (16320741235870541090627046895054952512627623657411796430890373057548007622075, 14261991621054128500054907268264316512988965031806832533471492246517324882291) (3799315066933656261493818394922149769418942684311571864844759776818456319362, 5732823360555545413174529395895927535912008235023409045203684997944239916150) (19613701345946521139252906631403624319214524383237318926155152603812484828018, 21617320264895522741112711536582628848652483577841815747293999179732881991324)].
Lemma ram_certs_ok : ncheck_all "EdDSA_Verify.RAM" 0 ram_certs = true.
Proof. vm_cast_no_check (eq_refl true). Qed.
Definition m_certs : list bcert := [
  BC [] 17854012883443945603037469476394481514832147026502868596764725433311698663385 (9838713506936274917769734520157509402170899837580362053760424098783256651541, 3979337521337159309232297543338259734557086152153853222517712317848093608276) (2220697661397885223111588988046119824727570142751142460109856356819055310360, 16016433588043935563983364735630884519229134395194097823709662325702333064585) (17808570483557114489501396356938072119849137096361887143136482272618515234401, 17337153808050624319843135536866909465945363115819089726728943275668486202454);
  BC [6344710779682671180372012378336071429151646746303625654249472546979752658432] 16754001563948204211363787669025684746955952679999336617894592484727506881348 (1256698291632177110469359553415279407938634129544288192482231655796873286758, 15397643598483974642605520643027293592147474523016895339547249509873473973643) (16668609778272383462718095708995010028922429041512239970612370542201518124401, 9061986840143403917434489826956666727865622122640181979581030648466809272328) (7661873644262973996516205872885137924192216722997724525912587418249205764216, 521599936517143450773883437386797268960733771999550537025155877758843725572);
  BC [9503477655677423146373094602551422663079546334451516971912589843178340418769; 9461162342868912485144611100844613766310929684200730921013852804009956669317; 8331571932306031864757982247377751079149542101181664802663424389933712184591; 19981740759453838348029774256945803418288901841455554319658261197392321486502] 20100239432297859358662088517128510112273548462485120633065687678469590350615 (9994632250842154001517697528113247252884238653073607814848484940605053123516, 7604197916770597551010518506829396532320686978412208437648151943396237007000) (14224636308477540770357476569539173589674686756064458086071627233786452126031, 5111541630307946519129048648517863949580632126618021713572153351434500091640) (10607495596603581816566327619904135297691362012154040791909761911323866056079, 20165516367595933382373312816013814183899649133975325927746449444206080950702);
  BC [17684955064396149210755565105138145015581665505694888458941585999633452594547] 15801633617795155714319564574043346419404677795468244154855915637166429380635 (11880957440987130912798643441577549963020063889986463577587513884467074853974, 558293090309306923261802231776613696883401647477009415694209703884325877484) (13711875359317263036053899713929868627089949674753603707009204931486591930355, 18191087831924452537267793107272263736558391378182846823560767365076053688749) (14712933491731273025507583306230042331450931597205811403872043491999088661188, 3537944885713983740667662726590943978398381724156873785948849201162763242285);
  BC [] 13557310452145629304377599753770309250771858052428463299765080377351348719121 (2124225125412346259519506435128775733925912341360094702454420046193237059044, 17198520757651872779537838289968875354452329362922492563106840015219848853817) (17515969252528593920041489266322203001873899443524605080812420832346167706669, 10582868755404209002803533924804730020594458781715596852190239577533769088533) (14912622527479292443329169192794978576985767887902361344942774534426491897143, 20532411604073960077186945743794168319561040108027180823625295056025293259432)].
Lemma m_certs_ok : ncheck_all "EdDSA_Verify.M" 0 m_certs = true.
Proof. vm_cast_no_check (eq_refl true). Qed.
