(** C119 for float: no number of at most nine digits is so near to a point half way between two floats that 64 bits could not tell them
    apart.  For each power of ten and each power of two in question, two neighbouring fractions with small denominators prove it. *)
From Coq Require Import Reals Lra Lia ZArith List String Ascii.
From Flocq Require Import Core Relative.
From Verif Require Import Machine MachineFacts BitOps StaticPow Fraction Format DiyFp KComp Chars Krosh Atof Spec ParseSpec Api ParseApi Instances
  DiyFacts BoundFacts TableFacts GrisuFacts ShownFacts RoundFacts ArithProps WrittenFacts PrintProps DvalFacts CmpFacts GapFacts KroshNum ShortFacts ParseProps GoodFallback RoundTrip CrossType Narrow Wider.
Import ListNotations.
Open Scope Z_scope.

(** * d * A and M * B are equal or far apart *)
Definition far (K p r : Z) : bool := K <? Z.abs r * 2 ^ p.
Definition check (K p A B : Z) (c : Z * Z * Z * Z) : bool :=
  let '(q1, p1, q2, p2) := c in
  let r1 := q1 * A - p1 * B in let r2 := q2 * A - p2 * B in
  ((q1 * p2 - q2 * p1 =? 1) || (q1 * p2 - q2 * p1 =? -1)) && (0 <=? q1) && (0 <=? p1) && (0 <=? q2) && (0 <=? p2) &&
  ((10 ^ 9 <=? q1 + q2) || (2 ^ 25 <=? p1 + p2)) && (((0 <=? r1) && (r2 <=? 0)) || ((r1 <=? 0) && (0 <=? r2))) && far K p (Z.abs r1 + Z.abs r2) &&
  ((r1 =? 0) || far K p r1 || (10 ^ 9 <=? q1) || (2 ^ 25 <=? p1)) && ((r2 =? 0) || far K p r2 || (10 ^ 9 <=? q2) || (2 ^ 25 <=? p2)).

Lemma far_more : forall K p r r', Z.abs r <= Z.abs r' -> far K p r = true -> far K p r' = true.
Proof. unfold far. intros K p r r' L H. apply Z.ltb_lt in H. apply Z.ltb_lt. apply Z.lt_le_trans with (1 := H). apply Z.mul_le_mono_nonneg_r; [apply Z.pow_nonneg; discriminate|exact L]. Qed.
Lemma check_ok : forall K p A B c d M, check K p A B c = true -> 0 < d < 10 ^ 9 -> 0 <= M < 2 ^ 25 -> d * A - M * B <> 0 -> far K p (d * A - M * B) = true.
Proof.
  intros K p A B [[[q1 p1] q2] p2] d M H D HM NZ. unfold check in H. set (r1 := q1 * A - p1 * B) in *. set (r2 := q2 * A - p2 * B) in *. cbv zeta in H.
  set (N := 10 ^ 9) in *. set (P := 2 ^ 25) in *.
  repeat match goal with H : (_ && _)%bool = true |- _ => apply andb_prop in H as [H ?] end.
  repeat match goal with H : (_ || _)%bool = true |- _ => apply Bool.orb_prop in H
                     | H : (_ || _)%bool = true \/ _ |- _ => rewrite Bool.orb_true_iff in H
                     | H : (_ && _)%bool = true \/ _ |- _ => rewrite !Bool.andb_true_iff in H end.
  rewrite ?Bool.orb_true_iff in *.
  rewrite ?Z.leb_le, ?Z.eqb_eq in *.
  assert (ST : exists s t, d = s * q1 + t * q2 /\ M = s * p1 + t * p2).
  { destruct H as [H|H].
    - exists (d * p2 - M * q2), (M * q1 - d * p1). split; nia.
    - exists (M * q2 - d * p2), (d * p1 - M * q1). split; nia. }
  destruct ST as (s & t & ED & EM).
  assert (ER : d * A - M * B = s * r1 + t * r2) by (rewrite ED, EM; unfold r1, r2; ring).
  rewrite ER in *. clearbody r1 r2 N P. clear ER.
  destruct (Z.lt_trichotomy s 0) as [S|[S|S]], (Z.lt_trichotomy t 0) as [T|[T|T]].
  - exfalso. nia.
  - exfalso. nia.
  - match goal with F : far K p (Z.abs r1 + Z.abs r2) = true |- _ => apply far_more with (2 := F) end. nia.
  - exfalso. nia.
  - exfalso. nia.
  - subst s. replace (0 * r1 + t * r2) with (t * r2) in * by ring.
    assert (R2 : r2 <> 0) by (intros C; subst r2; lia).
    assert (F : far K p r2 = true) by (intuition (try nia)).
    apply far_more with (2 := F). rewrite Z.abs_mul. nia.
  - match goal with F : far K p (Z.abs r1 + Z.abs r2) = true |- _ => apply far_more with (2 := F) end. nia.
  - subst t. replace (s * r1 + 0 * r2) with (s * r1) in * by ring.
    assert (R1 : r1 <> 0) by (intros C; subst r1; lia).
    assert (F : far K p r1 = true) by (intuition (try nia)).
    apply far_more with (2 := F). rewrite Z.abs_mul. nia.
  - exfalso. intuition nia.
Qed.

(** * For the powers of ten from 10^-54 to 10^30: the powers of two that matter, from the first one on *)
Definition fractions : list (Z * list (Z * Z * Z * Z)) :=
  [(-178, [(0,0,0,0); (0,0,0,0); (0,0,0,0); (0,0,0,0); (291766847,6986428,892223109,21364499); (291766847,3493214,909145677,10884857)]);
   (-175, [(0,0,0,0); (176752365,42323783,945499708,226402201); (353504730,42323783,768747343,92039209); (707009460,42323783,415242613,24857713); (291766847,8733035,830485226,24857713); (583533694,8733035,538718379,8062339)]);
   (-172, [(70700946,42323783,980850181,587167394); (141401892,42323783,980850181,293583697); (282803784,42323783,839448289,125629957); (565607568,42323783,556644505,41653087); (8963063,335348,996769191,37293563); (8963063,167674,998638389,18681749); (8963063,83837,993413722,9292005)]);
   (-168, [(788265370,294925089,899594271,336578176); (676936469,126636001,899594271,168289088); (454278667,42491457,899594271,84144544); (908557334,42491457,899594271,42072272); (917520397,21455321,899594271,21036136); (935446523,10937253,899594271,10518068)]);
   (-165, [(630612296,294925089,899594271,420722720); (361630321,84563729,899594271,210361360); (723260642,84563729,899594271,105180680); (546927013,31973389,899594271,52590340); (194259755,5678219,899594271,26295170); (388519510,5678219,899594271,13147585)]);
   (-162, [(684408691,400105769,899594271,525903400); (469223111,137154069,899594271,262951700); (938446222,137154069,899594271,131475850); (977298173,71416144,899594271,65737925); (977298173,35708072,821890369,30029853); (977298173,17854036,666482565,12175817); (977298173,8927018,355666957,3248799)]);
   (-158, [(555297343,202891994,899594271,328689625); (555297343,101445997,688593856,125797631); (977298173,89270180,133296513,12175817); (977298173,44635090,266593026,12175817); (977298173,22317545,533186052,12175817); (444112121,5070864,622259983,7104953)]);
   (-155, [(639697509,292162174,470897177,215067811); (639697509,146081087,941794354,215067811); (977298173,111587725,302096845,34493362); (746208966,42601001,302096845,17246681); (444112121,12677160,604193690,17246681); (444112121,6338580,764275259,10908101)]);
   (-152, [(977298173,557938625,60419369,34493362); (987886442,281991729,60419369,17246681); (927467073,132372524,120838738,17246681); (927467073,66186262,241677476,17246681); (927467073,33093131,483354952,17246681); (444112121,7923225,966709904,17246681); (888224242,7923225,522597783,4661728)]);
   (-148, [(523841881,186913029,765519357,273146434); (282164405,50339812,765519357,136573217); (282164405,25169906,966709904,86233405); (282164405,12584953,804762188,35893593); (564328810,12584953,522597783,11654320); (606059837,6757793,522597783,5827160)]);
   (-145, [(56432881,25169906,966709904,431167025); (56432881,12584953,974060831,217222824); (112865762,12584953,974060831,108611412); (225731524,12584953,974060831,54305706); (451463048,12584953,974060831,27152853); (902926096,12584953,522597783,7283950)]);
   (-142, [(691421519,385480378,578555757,322555613); (691421519,192740189,465689995,129815424); (917153043,127832477,465689995,64907712); (902926096,62924765,465689995,32453856); (874472202,30470909,465689995,16226928); (817564414,14243981,465689995,8113464); (703748838,6130517,465689995,4056732)]);
   (-138, [(996064095,347077681,93137999,32453856); (967610201,168581473,93137999,16226928); (910702413,79333369,93137999,8113464); (983162835,42822781,93137999,4056732); (941807681,20510755,93137999,2028366); (952235372,10368925,93137999,1014183)]);
   (-135, [(983127274,428212321,93137999,40567320); (941736559,205092061,93137999,20283660); (952093128,103673761,93137999,10141830); (972806266,52964611,93137999,5070915); (879668267,23946848,186275998,5070915); (879668267,11973424,372551996,5070915)]);
   (-132, [(991405417,539772451,93137999,50709150); (958292845,260872126,93137999,25354575); (958292845,130436063,186275998,25354575); (772016847,52540744,372551996,25354575); (772016847,26270372,745103992,25354575); (772016847,13135186,718191137,12219389); (772016847,6567593,664365427,5651796)]);
   (-128, [(750486563,255377344,372551996,126772875); (750486563,127688672,745103992,126772875); (750486563,63844336,739721421,62928539); (750486563,31922168,728956279,31006371); (750486563,15961084,707425995,15045287); (750486563,7980542,664365427,7064745)]);
   (-125, [(750486563,319221680,598236222,254461547); (750486563,159610840,445985881,94850707); (750486563,79805420,891971762,94850707); (750486563,39902710,282970398,15045287); (750486563,19951355,565940796,15045287); (184545767,2453034,947335825,12592253)]);
   (-122, [(750486563,399027100,328491665,174656127); (750486563,199513550,656983330,174656127); (750486563,99756775,563480097,74899352); (937493029,62307099,563480097,37449676); (748025864,24857423,563480097,18724838); (932571631,15495004,563480097,9362419)]);
   (-119, [(750486563,498783875,262793332,174656127); (487693231,162063874,525586664,174656127); (487693231,81031937,563480097,93624190); (975386462,81031937,563480097,46812095); (411906365,17109921,715053829,29702174); (823812730,17109921,715053829,14851087); (108758901,1129417,995072054,10333419)]);
   (-115, [(893005189,370939843,810623916,336720001); (82381273,17109921,962197648,199840633); (164762546,17109921,879816375,91365356); (329525092,17109921,879816375,45682678); (659050184,17109921,879816375,22841339); (876567986,11378503,220766191,2865709)]);
   (-112, [(340725821,176914961,857414917,445195278); (681451642,176914961,857414917,222597639); (835013459,108390944,175963275,22841339); (835013459,54195472,351926550,22841339); (835013459,27097736,703853100,22841339); (835013459,13548868,572692741,9292471)]);
   (-109, [(975784079,633320076,35192655,22841339); (975784079,316660038,70385310,22841339); (975784079,158330019,140770620,22841339); (835013459,67744340,281541240,22841339); (835013459,33872170,563082480,22841339); (835013459,16936085,291151501,5905254); (796572415,8078204,291151501,2952627)]);
   (-105, [(947629955,384404378,56308248,22841339); (947629955,192202189,112616496,22841339); (835013459,84680425,225232992,22841339); (609780467,30919543,450465984,22841339); (159314483,4039102,900931968,22841339); (159314483,2019551,845977038,10724033)]);
   (-102, [(983336956,498611073,302142487,153204442); (758103964,192202189,302142487,76602221); (455961477,57799984,604284974,76602221); (455961477,28899992,752608471,47702229); (455961477,14449996,593293988,18802237); (455961477,7224998,730626499,11577239)]);
   (-99, [(937191259,594015531,604284974,383011105); (332906285,105502213,875663663,277508892); (665812570,105502213,875663663,138754446); (455961477,36124990,875663663,69377223); (455961477,18062495,839404372,33252233); (911922954,18062495,383442895,7594869); (528480059,5233813,766885790,7594869)]);
   (-95, [(266325028,105502213,875663663,346886115); (532650056,105502213,609338635,120691951); (988611533,97907344,76688579,7594869); (988611533,48953672,153377158,7594869); (988611533,24476836,306754316,7594869); (988611533,12238418,613508632,7594869)]);
   (-92, [(654517783,324101508,898253237,444793459); (654517783,162050754,487470908,120691951); (654517783,81025377,974941816,120691951); (988611533,61192090,320424033,19833287); (988611533,30596045,640848066,19833287); (347763467,5381379,933932665,14451908)]);
   (-89, [(654517783,405126885,587699033,363768082); (721336533,223242844,587699033,181884041); (721336533,111621422,454061533,70262619); (721336533,55810711,908123066,70262619); (882313467,34132849,186786533,7225954); (830694269,16067964,186786533,3612977); (830694269,8033982,373573066,3612977)]);
   (-85, [(721336533,279053555,614426533,237694752); (828246533,160206179,614426533,118847376); (427640000,41358803,614426533,59423688); (855280000,41358803,614426533,29711844); (481706934,11646959,614426533,14855922); (963413868,11646959,614426533,7427961)]);
   (-82, [(699954533,338477243,614426533,297118440); (785482533,189918023,614426533,148559220); (956538533,115638413,614426533,74279610); (684224000,41358803,614426533,37139805); (69797467,2109499,949663198,28701809); (139594934,2109499,879865731,13296155)]);
   (-79, [(682848933,412756853,614426533,371398050); (751271333,227057828,614426533,185699025); (751271333,113528914,477581733,72170111); (751271333,56764457,955163466,72170111); (890866267,33655976,203892133,7702827); (890866267,16827988,407784266,7702827); (890866267,8413994,815568532,7702827)]);
   (-75, [(641795493,242463482,532319653,201104679); (641795493,121231741,422843813,79872938); (860747173,81295272,422843813,39936469); (860747173,40647636,845687626,39936469); (860747173,20323818,830628079,19612651); (860747173,10161909,800508985,9450742)]);
   (-72, [(685585829,323758754,598005157,282399951); (685585829,161879377,510424485,120520574); (860747173,101619090,510424485,60260287); (860747173,50809545,160101797,9450742); (920985361,27182690,160101797,4725371); (920985361,13591345,320203594,4725371)]);
   (-69, [(962832070,568355737,102084897,60260287); (860747173,254047725,204169794,60260287); (656577379,96893719,408339588,60260287); (248237791,18316716,816679176,60260287); (248237791,9158358,888644979,32785213); (248237791,4579179,784338794,14468497); (496475582,4579179,536101003,4944659)]);
   (-65, [(589302622,217414293,702990899,259357864); (475614345,87735361,702990899,129678932); (951228690,87735361,702990899,64839466); (496475582,22895895,702990899,32419733); (992951164,22895895,206515317,4761919); (786435847,9066988,413030634,4761919)]);
   (-62, [(893236637,411932691,702990899,324197330); (380491476,87735361,702990899,162098665); (760982952,87735361,322499423,37181652); (876967058,50553709,322499423,18590826); (786435847,22667470,322499423,9295413); (786435847,11333735,644998846,9295413)]);
   (-59, [(216696475,124917013,972588848,560659299); (433392950,124917013,755892373,217871143); (866785900,124917013,322499423,46477065); (544286477,39219974,644998846,46477065); (544286477,19609987,745711215,26867078); (342861739,6176448,745711215,13433539); (342861739,3088224,805698952,7257091)]);
   (-55, [(346714360,124917013,842570963,303568182); (693428720,124917013,842570963,151784091); (939430711,84616396,149142243,13433539); (939430711,42308198,298284486,13433539); (939430711,21154099,596568972,13433539); (342861739,3860280,850276205,9573259)]);
   (-52, [(277371488,124917013,981256707,441918734); (554742976,124917013,981256707,220959367); (682972221,76895836,426513731,48021177); (682972221,38447918,853027462,48021177); (682972221,19223959,340110482,9573259); (342861739,4825350,680220964,9573259)]);
   (-49, [(580388825,326729862,529097127,297855203); (580388825,163364931,477805429,134490272); (682972221,96119795,477805429,67245136); (888139013,62497227,477805429,33622568); (820667168,28874659,477805429,16811284); (685723478,12063375,477805429,8405642); (893641527,7860554,477805429,4202821)]);
   (-45, [(464311060,163364931,942116489,331477771); (928622120,163364931,477805429,84056420); (901633382,79308511,477805429,42028210); (847655906,37280301,477805429,21014105); (369850477,8133098,955610858,21014105); (369850477,4066549,801670285,8814458)]);
   (-42, [(371448848,163364931,849254277,373505981); (742897696,163364931,477805429,105070525); (265092267,29147203,955610858,105070525); (530184534,29147203,690518591,37961661); (900035011,24739974,160334057,4407229); (900035011,12369987,320668114,4407229)]);
   (-39, [(997514142,548389199,244140625,134217728); (774325159,212844879,244140625,67108864); (816228443,112181583,244140625,33554432); (244140625,16777216,808949364,55590577); (823507522,28295503,244140625,8388608); (244140625,4194304,794391206,13647537); (852623838,7323983,244140625,2097152)]);
   (-35, [(997691261,342804107,48828125,16777216); (48828125,8388608,983133103,168900981); (48828125,4194304,989703706,85014901); (999108213,42911371,48828125,2097152); (48828125,1048576,980299199,21051765); (48828125,524288,984035898,10566005)]);
   (-32, [(9765625,4194304,999469331,429268809); (999108213,214556855,9765625,2097152); (9765625,1048576,999830449,107355977); (998385977,53600439,9765625,524288); (990912579,26599607,9765625,262144); (9765625,131072,996690467,13377353)]);
   (-29, [(998216426,535913363,1953125,1048576); (998385977,268002195,1953125,524288); (998725079,134046611,1953125,262144); (1953125,131072,998643592,67017837); (998806566,33514387,1953125,65536); (1953125,32768,998480618,16751725)]);
   (-25, [(999793908,335475167,390625,131072); (390625,65536,999630934,167710241); (390625,32768,999652493,83856929); (390625,16384,999695611,41930273); (390625,8192,999781847,20966945); (999655056,10482143,390625,4096)]);
   (-22, [(999956882,419412315,78125,32768); (78125,16384,999929986,209700517); (78125,8192,999938097,104851109); (78125,4096,999954319,52426405); (999935112,26212699,78125,2048); (999948349,13106523,78125,1024)]);
   (-19, [(15625,8192,999984972,524280121); (15625,4096,999985569,262140217); (15625,2048,999986763,131070265); (15625,1024,999989151,65535289); (999990448,32767687,15625,512); (15625,256,999987854,16383801)]);
   (-16, [(999997612,655358435,3125,2048); (999998349,327679459,3125,1024); (3125,512,999997052,163839517); (3125,256,999997229,81919773); (3125,128,999997583,40959901); (3125,64,999998291,20479965); (999997168,10239971,3125,32)]);
   (-12, [(999999646,409599855,625,256); (625,128,999999458,204799889); (625,64,999999541,102399953); (999999668,51199983,625,32); (625,16,999999414,25599985); (625,8,999999453,12799993)]);
   (-9, [(125,64,999999916,511999957); (999999918,255999979,125,32); (125,16,999999914,127999989); (999999922,63999995,125,8); (125,4,999999906,31999997); (125,2,999999937,15999999)]);
   (-6, [(999999986,639999991,25,16); (25,8,999999978,319999993); (25,4,999999981,159999997); (25,2,999999987,79999999); (999999976,39999999,25,1); (999999951,19999999,50,1); (999999901,9999999,100,1)]);
   (-2, [(5,2,999999997,399999999); (999999996,199999999,5,1); (999999991,99999999,10,1); (999999981,49999999,20,1); (999999961,24999999,40,1); (999999921,12499999,80,1)]);
   (1, [(2,1,999999999,500000000); (999999997,249999999,4,1); (999999993,124999999,8,1); (999999985,62499999,16,1); (999999969,31249999,32,1); (999999937,15624999,64,1)]);
   (4, [(8,5,999999995,624999997); (16,5,999999987,312499996); (999999981,156249997,32,5); (999999949,78124996,64,5); (128,5,999999923,39062497); (256,5,999999795,19531246); (999999693,9765622,512,5)]);
   (8, [(64,25,999999959,390624984); (999999913,195312483,128,25); (999999785,97656229,256,25); (999999529,48828102,512,25); (999999529,24414051,1024,25); (2048,25,999998423,12207012)]);
   (11, [(256,125,999999787,488281146); (999999701,244140552,512,125); (999999701,122070276,1024,125); (999999701,61035138,2048,125); (4096,125,999999275,30517556); (8192,125,999999275,15258778)]);
   (14, [(1024,625,999999855,610351474); (2048,625,999999855,305175737); (4096,625,999997807,152587556); (8192,625,999997807,76293778); (16384,625,999997807,38146889); (32768,625,999981423,19073132); (999980689,9536559,65536,625)]);
   (18, [(999999005,381469347,8192,3125); (16384,3125,999987683,190732514); (32768,3125,999987683,95366257); (65536,3125,999954915,47681566); (131072,3125,999954915,23840783); (262144,3125,999823843,11918829)]);
   (21, [(32768,15625,999988935,476831882); (999973177,238412184,65536,15625); (999973177,119206092,131072,15625); (262144,15625,999923399,59600079); (999973177,29801523,524288,15625); (999448889,14892949,1048576,15625)]);
   (24, [(131072,78125,999995739,596043908); (999900837,297993671,262144,78125); (524288,78125,999995739,149010977); (1048576,78125,999471451,74466426); (999114405,37219912,2097152,78125); (999114405,18609956,4194304,78125); (999114405,9304978,8388608,78125)]);
   (28, [(1048576,390625,999748063,372435176); (998837793,186048037,2097152,390625); (4194304,390625,999748063,93108794); (8388608,390625,999748063,46554397); (16777216,390625,991359455,23081886); (988352033,11505932,33554432,390625)]);
   (31, [(4194304,1953125,999383955,465374419); (992910445,231179978,8388608,1953125); (992910445,115589989,16777216,1953125); (976133229,56818432,33554432,1953125); (67108864,1953125,970023827,28231409); (976133229,14204608,134217728,1953125)]);
   (34, [(16777216,9765625,992600247,577769386); (987111241,287287182,33554432,9765625); (67108864,9765625,959045815,139559534); (134217728,9765625,959045815,69779767); (268435456,9765625,824828087,30007071); (536870912,9765625,556392631,10120723); (995654948,9055429,19521719,177549)]);
   (38, [(134217728,48828125,997115531,362748517); (268435456,48828125,862897803,156960196); (747714933,68004277,536870912,48828125); (210844021,9588076,862897803,39240049); (210844021,4794038,882419522,20063897); (210844021,2397019,921462960,10475821)]);
   (41, [(793788081,360973027,536870912,244140625); (256917169,58416201,816824655,185724424); (513834338,58416201,816824655,92862212); (210844021,11985095,816824655,46431106); (421688042,11985095,816824655,23215553); (843376084,11985095,395136613,5615229)]);
   (44, [(840564200,477805429,163364931,92862212); (864303745,245649899,163364931,46431106); (911782835,129572134,163364931,23215553); (911782835,64786067,326729862,23215553); (585052973,20785257,653459724,23215553); (964885693,17139813,68406751,1215148); (972076872,8633777,68406751,607574)]);
   (48, [(835816291,296941597,326729862,116077765); (509086429,90431916,653459724,116077765); (509086429,45215958,797833019,70861807); (509086429,22607979,577493180,25645849); (949766107,21089044,68406751,1518935); (949766107,10544522,136813502,1518935)]);
   (51, [(566835747,251725639,624585065,277371488); (509086429,113039895,624585065,138685744); (393587793,43697023,624585065,69342872); (787175586,43697023,624585065,34671436); (949766107,26361305,624585065,17335718); (650362084,9025587,624585065,8667859)]);
   (54, [(893255845,495856603,124917013,69342872); (912092599,253156551,124917013,34671436); (949766107,131806525,124917013,17335718); (900196110,62463653,124917013,8667859); (775279097,26897897,249834026,8667859); (525445071,9115019,499668052,8667859); (25777019,223580,999336104,8667859)]);
   (58, [(929541300,322499423,124917013,43339295); (804624287,139580064,249834026,43339295); (804624287,69790032,499668052,43339295); (804624287,34895016,999336104,43339295); (804624287,17447508,389423634,8444279); (804624287,8723754,778847268,8444279)]);
   (61, [(560659299,243147212,499668052,216696475); (560659299,121573606,999336104,216696475); (560659299,60786803,877353610,95122869); (804624287,43618770,316694311,17168033); (804624287,21809385,633388622,17168033); (171235665,2320676,924305914,12526681)]);
   (64, [(736130021,399056884,911600743,494179753); (736130021,199528442,350941444,95122869); (736130021,99764221,701882888,95122869); (34247133,2320676,992800180,67274757); (34247133,1160338,992433503,33624955); (34247133,580169,991700149,16800054); (68494266,580169,991700149,8400027)]);
   (68, [(301301435,102084897,869657172,294651311); (602602870,102084897,568355737,96283207); (34247133,2900845,999722942,84679827); (68494266,2900845,965475809,40889491); (136988532,2900845,896981543,18994323); (273977064,2900845,759993011,8046739)]);
   (71, [(241041148,102084897,929917459,393835363); (482082296,102084897,688876311,145875233); (964164592,102084897,206794015,21895168); (894359109,47346977,206794015,10947584); (961542158,25451809,206794015,5473792); (889114241,11767329,206794015,2736896)]);
   (74, [(964164592,510424485,41358803,21895168); (977076715,258630053,41358803,10947584); (961542158,127259045,41358803,5473792); (971831847,64310437,41358803,2736896); (992411225,32836133,41358803,1368448); (992211178,16414757,41358803,684224)]);
   (77, [(928495125,614426533,969853928,641795493); (988455387,327052453,41358803,13684480); (984299502,162838693,41358803,6842240); (975987732,80731813,41358803,3421120); (959364192,39678373,41358803,1710560); (967475915,20006933,41358803,855280); (983699361,10171213,41358803,427640)]);
   (81, [(989286564,409159333,41358803,17105600); (985961856,203892133,41358803,8552800); (979312440,101258533,41358803,4276400); (966013608,49941733,41358803,2138200); (980774747,25352433,41358803,1069100); (968938222,12523233,41358803,534550)]);
   (84, [(981679745,507516533,41358803,21382000); (970748218,250932533,41358803,10691000); (990243967,127986033,41358803,5345500); (987876662,63840033,41358803,2672750); (983142052,31767033,41358803,1336375); (941783249,15215329,82717606,1336375)]);
   (87, [(950779008,614426533,992137811,641154033); (991664350,320424033,41358803,13363750); (990717428,160059033,41358803,6681875); (949358625,76688579,82717606,6681875); (866641019,35003352,165435212,6681875); (866641019,17501676,330870424,6681875); (866641019,8750838,661740848,6681875)]);
   (91, [(686177361,277144829,768894967,310554204); (603459755,121867727,768894967,155277102); (438024543,44229176,768894967,77638551); (438024543,22114588,661740848,33409375); (438024543,11057294,885457153,22352081); (438024543,5528647,894865220,11294787)]);
   (94, [(241383902,121867727,768894967,388192755); (482767804,121867727,527511065,133162514); (965535608,121867727,527511065,66581257); (438024543,27643235,616997587,38938022); (876049086,27643235,616997587,19469011); (259051499,4087112,974943675,15381899)]);
   (97, [(965535608,609338635,105502213,66581257); (860033395,271378689,211004426,66581257); (649028969,102398716,422008852,66581257); (649028969,51199358,844017704,66581257); (649028969,25599679,389977470,15381899); (259051499,5108890,779954940,15381899); (259051499,2554445,782755383,7718564)]);
   (101, [(766022210,302142487,805019957,317524386); (727024463,143380294,805019957,158762193); (727024463,71690147,883015451,87072046); (0,0,0,0); (0,0,0,0); (0,0,0,0)])].

Fixpoint check_row (j e : Z) (cs : list (Z * Z * Z * Z)) : bool :=
  match cs with
  | [] => dec_part 1500000000 j e <? bin_part (2 ^ 24) e j
  | c :: r => ((e <? -174) || (103 <? e) || check (10 ^ 9 * dec_part 1 j e) 64 (dec_part 1 j e) (bin_part 1 e j) c) && check_row j (e + 1) r
  end.
Fixpoint check_all (j : Z) (rows : list (Z * list (Z * Z * Z * Z))) : bool :=
  match rows with
  | [] => j =? 31
  | (lo, cs) :: r => (bin_part 50331648 (lo - 1) j <? dec_part (10 ^ 8) j (lo - 1)) && check_row j lo cs && check_all (j + 1) r
  end.
Lemma all_checked : check_all (-54) fractions = true.
Proof. vm_compute. reflexivity. Qed.

(** * In real numbers *)
Lemma apart : forall x m, (0 < x)%R -> (0 < m)%R -> (3 / 2 * m < x)%R \/ (3 / 2 * x < m)%R -> (bpow radix2 (-64) * x < Rabs (m - x))%R.
Proof.
  intros x m X M C. assert (B : (0 < bpow radix2 (-64) <= / 4)%R).
  { split; [apply bpow_gt_0|]. change (/ 4)%R with (bpow radix2 (-2)). apply bpow_le. lia. }
  set (b := bpow radix2 (-64)) in *. clearbody b. assert (BX : (b * x <= / 4 * x)%R) by (apply Rmult_le_compat_r; lra).
  destruct C as [C|C]; [rewrite Rabs_left by lra|rewrite Rabs_pos_eq by lra]; lra.
Qed.
Lemma rows_ok : forall rows j0 j, check_all j0 rows = true -> j0 <= j <= 30 ->
  exists lo cs, bin_part 50331648 (lo - 1) j < dec_part (10 ^ 8) j (lo - 1) /\ check_row j lo cs = true.
Proof.
  induction rows as [|[lo cs] rows IH]; intros j0 j H J; cbn [check_all] in H.
  - apply Z.eqb_eq in H. lia.
  - apply andb_prop in H as [H H3]. apply andb_prop in H as [H1 H2]. destruct (Z.eq_dec j j0) as [->|N].
    + exists lo, cs. split; [now apply Z.ltb_lt|exact H2].
    + apply (IH (j0 + 1) j H3). lia.
Qed.
Lemma row_ok : forall cs j e E, check_row j e cs = true -> e <= E -> -174 <= E <= 103 ->
  (exists c, check (10 ^ 9 * dec_part 1 j E) 64 (dec_part 1 j E) (bin_part 1 E j) c = true) \/ (exists hi, hi <= E /\ dec_part 1500000000 j hi < bin_part (2 ^ 24) hi j).
Proof.
  induction cs as [|c cs IH]; intros j e E H L R; cbn [check_row] in H.
  - right. exists e. split; [exact L|now apply Z.ltb_lt].
  - apply andb_prop in H as [H1 H2]. destruct (Z.eq_dec e E) as [->|N].
    + left. exists c. apply Bool.orb_prop in H1 as [H1|H1]; [|exact H1]. apply Bool.orb_prop in H1 as [H1|H1]; apply Z.ltb_lt in H1; lia.
    + apply (IH j (e + 1) E H2); lia.
Qed.

Lemma no_near : forall d j M E, 10 ^ 8 <= d < 10 ^ 9 -> 2 ^ 24 <= M < 2 ^ 25 -> -174 <= E <= 103 ->
  (IZR d * pow10 j <> IZR M * bpow radix2 E)%R -> (bpow radix2 (-64) * (IZR d * pow10 j) < Rabs (IZR M * bpow radix2 E - IZR d * pow10 j))%R.
Proof.
  intros d j M E D HM HE NE.
  assert (D0 : (IZR (10 ^ 8) <= IZR d < IZR (10 ^ 9))%R) by (split; [apply IZR_le|apply IZR_lt]; lia).
  assert (M0 : (IZR (2 ^ 24) <= IZR M < IZR (2 ^ 25))%R) by (split; [apply IZR_le|apply IZR_lt]; lia).
  assert (PT : (0 < pow10 j)%R) by apply bpow_gt_0. assert (PE : (0 < bpow radix2 E)%R) by apply bpow_gt_0.
  change (10 ^ 8) with 100000000 in D0. change (10 ^ 9) with 1000000000 in D0. change (2 ^ 24) with 16777216 in M0. change (2 ^ 25) with 33554432 in M0.
  assert (X0 : (0 < IZR d * pow10 j)%R) by (apply Rmult_lt_0_compat; lra). assert (Y0 : (0 < IZR M * bpow radix2 E)%R) by (apply Rmult_lt_0_compat; lra).
  assert (XL : (100000000 * pow10 j <= IZR d * pow10 j)%R) by (apply Rmult_le_compat_r; lra).
  assert (XU : (IZR d * pow10 j < 1000000000 * pow10 j)%R) by (apply Rmult_lt_compat_r; lra).
  assert (YL : (16777216 * bpow radix2 E <= IZR M * bpow radix2 E)%R) by (apply Rmult_le_compat_r; lra).
  assert (YU : (IZR M * bpow radix2 E < 33554432 * bpow radix2 E)%R) by (apply Rmult_lt_compat_r; lra).
  assert (LOW : forall e, E <= e -> (50331648 * bpow radix2 e < 100000000 * pow10 j)%R -> (3 / 2 * (IZR M * bpow radix2 E) < IZR d * pow10 j)%R).
  { intros e L H. apply (bpow_le radix2) in L. lra. }
  assert (HIGH : forall e, e <= E -> (1500000000 * pow10 j < 16777216 * bpow radix2 e)%R -> (3 / 2 * (IZR d * pow10 j) < IZR M * bpow radix2 E)%R).
  { intros e L H. apply (bpow_le radix2) in L. lra. }
  destruct (Z_lt_le_dec 30 j) as [J|J].
  { apply apart; [exact X0|exact Y0|]. left. apply (LOW 103); [lia|].
    apply Rlt_le_trans with (100000000 * pow10 31)%R; [|apply Rmult_le_compat_l; [lra|apply bpow_le; lia]].
    apply bin_lt_dec. vm_compute. reflexivity. }
  destruct (Z_lt_le_dec j (-54)) as [J'|J'].
  { apply apart; [exact X0|exact Y0|]. right. apply (HIGH (-174)); [lia|].
    apply Rle_lt_trans with (1500000000 * pow10 (-55))%R; [apply Rmult_le_compat_l; [lra|apply bpow_le; lia]|].
    apply dec_lt_bin. vm_compute. reflexivity. }
  destruct (rows_ok fractions (-54) j all_checked (conj J' J)) as (lo & cs & LO & CS).
  destruct (Z_lt_le_dec E lo) as [L|L].
  { apply apart; [exact X0|exact Y0|]. left. apply (LOW (lo - 1)); [lia|]. apply bin_lt_dec. change 100000000 with (10 ^ 8). now apply Z.ltb_lt. }
  destruct (row_ok cs j lo E CS L HE) as [[c C]|(hi & L2 & H)].
  2:{ apply apart; [exact X0|exact Y0|]. right. apply (HIGH hi); [lia|]. apply dec_lt_bin. change 16777216 with (2 ^ 24). now apply Z.ltb_lt. }
  set (A := dec_part 1 j E) in *. set (B := bin_part 1 E j) in *.
  destruct (cmp_scaled d j M E) as [C1 C2]. pose proof (scale_pos j E) as SP. set (S := (IZR (10 ^ Z.max 0 (- j)) * IZR (2 ^ Z.max 0 (- E)))%R) in *.
  assert (DA : dec_part d j E = d * A) by (unfold A, dec_part; ring). assert (MB : bin_part M E j = M * B) by (unfold B, bin_part; ring).
  rewrite DA in C1. rewrite MB in C2. clearbody S. set (x := (IZR d * pow10 j)%R) in *. set (m := (IZR M * bpow radix2 E)%R) in *.
  assert (NZ : d * A - M * B <> 0).
  { intros C3. apply NE. apply Rmult_eq_reg_r with S; [|lra]. rewrite C1, C2. f_equal. lia. }
  pose proof (check_ok _ _ A B c d M C ltac:(lia) ltac:(lia) NZ) as F. unfold far in F. apply Z.ltb_lt in F. apply IZR_lt in F. rewrite !mult_IZR, abs_IZR, minus_IZR, <- C1, <- C2 in F.
  assert (P64 : (bpow radix2 (-64) * IZR (2 ^ 64) = 1)%R) by (rewrite (IZR_Zpower radix2) by lia; rewrite <- bpow_plus; reflexivity).
  replace (x * S - m * S)%R with (- ((m - x) * S))%R in F by ring. rewrite Rabs_Ropp, Rabs_mult, (Rabs_pos_eq S) in F by lra.
  assert (A0 : (0 < IZR A)%R) by (apply IZR_lt; unfold A, dec_part; apply Z.mul_pos_pos; [apply Z.mul_pos_pos; [lia|]|]; apply Z.pow_pos_nonneg; lia).
  assert (XS : (x * S < IZR (10 ^ 9) * IZR A)%R) by (rewrite C1, mult_IZR; apply Rmult_lt_compat_r; [exact A0|apply IZR_lt; lia]).
  apply Rmult_lt_reg_r with S; [exact SP|]. pose proof (bpow_gt_0 radix2 (-64)) as B0. set (b := bpow radix2 (-64)) in *. clearbody b x m.
  set (z := (Rabs (m - x) * S)%R) in *. set (p := IZR (2 ^ 64)) in *. clearbody z p.
  replace z with (b * (z * p))%R by (replace (b * (z * p))%R with (b * p * z)%R by ring; rewrite P64; ring).
  rewrite Rmult_assoc. apply Rmult_lt_compat_l; [exact B0|]. lra.
Qed.

(** * The theorem *)
Lemma nine_digits : forall d, 0 < d < 10 ^ 9 -> exists i, 0 <= i /\ 10 ^ 8 <= d * 10 ^ i < 10 ^ 9.
Proof.
  intros d D. change (10 ^ 8) with 100000000. change (10 ^ 9) with 1000000000 in *.
  destruct (Z_le_gt_dec 100000000 d); [exists 0; change (10 ^ 0) with 1; lia|]. destruct (Z_le_gt_dec 10000000 d); [exists 1; change (10 ^ 1) with 10; lia|].
  destruct (Z_le_gt_dec 1000000 d); [exists 2; change (10 ^ 2) with 100; lia|]. destruct (Z_le_gt_dec 100000 d); [exists 3; change (10 ^ 3) with 1000; lia|].
  destruct (Z_le_gt_dec 10000 d); [exists 4; change (10 ^ 4) with 10000; lia|]. destruct (Z_le_gt_dec 1000 d); [exists 5; change (10 ^ 5) with 100000; lia|].
  destruct (Z_le_gt_dec 100 d); [exists 6; change (10 ^ 6) with 1000000; lia|]. destruct (Z_le_gt_dec 10 d); [exists 7; change (10 ^ 7) with 10000000; lia|].
  exists 8; change (10 ^ 8) with 100000000; lia.
Qed.
Lemma not_half_way : forall w n f, wider w Float -> 64 <= b_precision w -> well_formed n -> short_decimal Float n -> in_range Float (value n) -> finite Float f ->
  Rabs (rnd_in w (value n)) = midpoint_above Float f -> Rabs (value n) = midpoint_above Float f.
Proof.
  intros w n f WD P W (d & j & D & J & CO & _) [R _] [_ F] H. set (a := Rabs (value n)) in *.
  assert (RA : Rabs (rnd_in w (value n)) = rnd_in w a).
  { unfold a, rnd_in. pose proof (w_valid w Float WD). symmetry. now apply round_NE_abs. }
  rewrite RA in H. cbn [min_exp] in R. change (exact_digits Float) with 9 in D.
  assert (EA : a = (IZR d * pow10 (j + scale n))%R).
  { unfold a. rewrite value_abs by assumption. unfold abs_value. rewrite CO, mult_IZR. rewrite (bpow_plus radix10 j (scale n)), (bpow_IZR radix10 j) by exact J. change (radix10 ^ j) with (10 ^ j). ring. }
  assert (A0 : (0 < a)%R) by (apply Rlt_le_trans with (2 := R); apply bpow_gt_0).
  assert (D0 : 0 < d).
  { destruct (Z.eq_dec d 0) as [Q|Q]; [|lia]. subst d. rewrite Rmult_0_l in EA. lra. }
  destruct (nine_digits d ltac:(lia)) as (i & I & DI).
  assert (EA2 : a = (IZR (d * 10 ^ i) * pow10 (j + scale n - i))%R).
  { rewrite EA, mult_IZR. change (10 ^ i) with (radix10 ^ i). rewrite <- (bpow_IZR radix10 i) by exact I. rewrite Rmult_assoc, <- bpow_plus. f_equal. f_equal. lia. }
  (* the point half way *)
  pose proof (significand_range Float f) as S. cbn [precision] in S.
  assert (X : -149 <= exponent Float f <= 104).
  { unfold exponent. cbn [min_exp]. unfold exp_field, all_ones in *. cbn [width precision] in *. change (2 ^ (32 - 24)) with 256 in *. pose proof (Z.mod_pos_bound (f / 2 ^ (24 - 1)) 256 ltac:(lia)). lia. }
  set (M := 2 * significand Float f + 1) in *. assert (HM : 0 < M < 2 ^ 25) by (unfold M; change (2 ^ 24) with 16777216 in S; change (2 ^ 25) with 33554432; lia).
  assert (EM : midpoint_above Float f = (IZR M * bpow radix2 (exponent Float f - 1))%R).
  { unfold M, midpoint_above, magnitude, ulp_of. rewrite plus_IZR, mult_IZR. replace (exponent Float f) with (1 + (exponent Float f - 1)) at 1 2 by lia. rewrite bpow_plus. change (bpow radix2 1) with 2%R. field. }
  pose proof (Z.log2_spec M (proj1 HM)) as [L1 L2]. set (l := Z.log2 M) in *.
  assert (L0 : 0 <= l <= 24) by (split; [apply Z.log2_nonneg|unfold l; apply Z.lt_succ_r; apply Z.log2_lt_pow2; [exact (proj1 HM)|exact (proj2 HM)]]).
  assert (K1 : 2 ^ 24 = 2 ^ l * 2 ^ (24 - l)) by (rewrite <- Z.pow_add_r by lia; f_equal; lia).
  assert (K2 : 2 ^ 25 = 2 ^ (Z.succ l) * 2 ^ (24 - l)) by (rewrite <- Z.pow_add_r by lia; f_equal; lia).
  assert (K0 : 0 < 2 ^ (24 - l)) by (apply Z.pow_pos_nonneg; lia).
  assert (EM2 : midpoint_above Float f = (IZR (M * 2 ^ (24 - l)) * bpow radix2 (exponent Float f - 1 - (24 - l)))%R).
  { rewrite EM, mult_IZR. change (2 ^ (24 - l)) with (radix2 ^ (24 - l)). rewrite <- (bpow_IZR radix2 (24 - l)) by lia. rewrite Rmult_assoc, <- bpow_plus. f_equal. f_equal. lia. }
  destruct (Req_dec a (midpoint_above Float f)) as [Q|Q]; [exact Q|exfalso].
  pose proof (no_near (d * 10 ^ i) (j + scale n - i) (M * 2 ^ (24 - l)) (exponent Float f - 1 - (24 - l)) DI) as NN.
  rewrite <- EA2, <- EM2 in NN. specialize (NN ltac:(rewrite K1, K2; split; [apply Z.mul_le_mono_pos_r|apply Z.mul_lt_mono_pos_r]; assumption) ltac:(lia) Q).
  destruct WD as [WD1 WD2]. cbn [min_exp precision] in *.
  pose proof (relative_error_N_FLT radix2 (b_min_exp w) (b_precision w) ltac:(lia) (fun x => negb (Z.even x)) a) as E.
  rewrite (Rabs_pos_eq a) in E by lra.
  specialize (E (Rle_trans _ _ _ (bpow_le radix2 _ _ WD2) R)).
  change (round radix2 (FLT_exp (b_min_exp w) (b_precision w)) ZnearestE a) with (rnd_in w a) in E. rewrite H in E.
  assert (BB : (/ 2 * bpow radix2 (- b_precision w + 1) <= bpow radix2 (-64))%R).
  { change (/ 2)%R with (bpow radix2 (- (1))). rewrite <- bpow_plus. apply bpow_le. lia. }
  apply (Rmult_le_compat_r a) in BB; [|lra]. lra.
Qed.

(** C119: With a good fallback that returns 64 or more bits, numbers of up to nine digits are read correctly as floats. *)
Theorem C119_float : forall w n c rest want g fb errno, wider w Float -> 64 <= b_precision w -> well_formed n -> ends_number c -> within_limits n ->
  short_decimal Float n -> in_range Float (value n) -> ~ carries Float (value n) -> good_wide w Float g -> converted Float g fb -> errno <> ERANGE ->
  exists v slow, atof (fmt_of Float) (written n ++ c :: rest) want fb errno =
      Ok {| at_value := v; at_status := success; at_str_end := if want then Some (len (written n)) else None; at_errno := errno; at_used_fallback := slow |} /\
    correctly_rounded Float (is_minus (n_sign n)) (value n) v.
Proof.
  intros w n c rest want g fb errno WD P W Hc L S R NC G A NE.
  destruct (C119_wider_fallback Float w n c rest want g fb errno WD W Hc L S R NC G A NE) as (v & slow & E & V). exists v, slow. split; [exact E|].
  destruct V as [V|(_ & V & f & F & H & _)]; [exact V|].
  pose proof (not_half_way w n f WD P W S R F H) as Q. replace (rnd_in w (value n)) with (value n) in V; [exact V|].
  pose proof (w_midpoint w Float WD f) as WM. unfold Rabs in Q. destruct (Rcase_abs (value n)) as [C|C].
  - assert (Q2 : value n = (- midpoint_above Float f)%R) by lra. rewrite Q2, w_opp, WM. reflexivity.
  - rewrite Q, WM. reflexivity.
Qed.
