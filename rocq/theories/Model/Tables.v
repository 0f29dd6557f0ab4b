(** The finite difference coefficients of src/qdlib/cfd_table_1.h (rows 0-24, all lines) and cfd_table_2.h (rows 25-49,
    all lines), generated by tools/tables.py from the C++ text.  (m, k) is the decimal literal m * 10^-k.  The literals
    are taken exactly; their rounding to double is not modelled.  Elements of _cfc not assigned in these files are 0
    (HOFD.h:103-105). *)
From Coq Require Import List ZArith QArith.
Import ListNotations.

Definition cfd_rows : list (list (Z * Z)) := [
  [(-5, 1)%Z; (0, 0)%Z];
  [(833333333333333333, 19)%Z; (-666666666666666667, 18)%Z; (0, 0)%Z];
  [(-166666666666666667, 19)%Z; (15, 2)%Z; (-75, 2)%Z; (-44116299336161476, 39)%Z];
  [(357142857142857143, 20)%Z; (-380952380952380952, 19)%Z; (2, 1)%Z; (-8, 1)%Z; (397046694025453284, 39)%Z];
  [(-793650793650793651, 21)%Z; (992063492063492063, 20)%Z; (-595238095238095238, 19)%Z; (238095238095238095, 18)%Z; (-833333333333333333, 18)%Z; (-125731453108060207, 39)%Z];
  [(180375180375180375, 21)%Z; (-25974025974025974, 19)%Z; (178571428571428571, 19)%Z; (-793650793650793651, 19)%Z; (267857142857142857, 18)%Z; (-857142857142857143, 18)%Z; (-372649771030189038, 39)%Z];
  [(-41625041625041625, 21)%Z; (679875679875679876, 21)%Z; (-530303030303030303, 20)%Z; (265151515151515152, 19)%Z; (-972222222222222222, 19)%Z; (291666666666666667, 18)%Z; (-875, 3)%Z; (-100445445631376568, 40)%Z];
  [(971250971250971251, 23)%Z; (-1776001776001776, 19)%Z; (1554001554001554, 18)%Z; (-870240870240870241, 20)%Z; (353535353535353535, 19)%Z; (-113131313131313131, 18)%Z; (311111111111111111, 18)%Z; (-888888888888888889, 18)%Z; (53197367388221498, 39)%Z];
  [(-228529640294346177, 23)%Z; (462772521596051008, 22)%Z; (-44955044955044955, 20)%Z; (27972027972027972, 19)%Z; (-125874125874125874, 19)%Z; (440559440559440559, 19)%Z; (-127272727272727273, 18)%Z; (327272727272727273, 18)%Z; (-9, 1)%Z; (-172112610881440585, 39)%Z];
  [(541254411223451471, 24)%Z; (-120278758049655882, 22)%Z; (128547922665569724, 21)%Z; (-881471469706763824, 21)%Z; (437062937062937063, 20)%Z; (-167832167832167832, 19)%Z; (524475524475524476, 19)%Z; (-13986013986013986, 17)%Z; (340909090909090909, 18)%Z; (-909090909090909091, 18)%Z; (212882388204046096, 41)%Z];
  [(-128870097910345588, 24)%Z; (311865636943036324, 23)%Z; (-363843243100209044, 22)%Z; (272882432325156783, 21)%Z; (-148136177547942254, 20)%Z; (622171945701357466, 20)%Z; (-211538461538461538, 19)%Z; (604395604395604396, 19)%Z; (-151098901098901099, 18)%Z; (352564102564102564, 18)%Z; (-916666666666666667, 18)%Z; (-991944192471356178, 41)%Z];
  [(308167625437782929, 25)%Z; (-806838873873468031, 24)%Z; (102065117544993706, 22)%Z; (-83164169851476353, 21)%Z; (49118837818528221, 20)%Z; (-224543258598986153, 20)%Z; (829562594268476621, 20)%Z; (-255979314802844215, 19)%Z; (679945054945054945, 19)%Z; (-161172161172161172, 18)%Z; (362637362637362637, 18)%Z; (-923076923076923077, 18)%Z; (-214071502374565786, 41)%Z];
  [(-739602301050679029, 26)%Z; (20832131479594126, 23)%Z; (-284074520176283536, 23)%Z; (249985577755129512, 22)%Z; (-159713008010221633, 21)%Z; (790579389650597081, 21)%Z; (-316231755860238832, 20)%Z; (105410585286746277, 19)%Z; (-300420168067226891, 19)%Z; (751050420168067227, 19)%Z; (-170238095238095238, 18)%Z; (371428571428571429, 18)%Z; (-928571428571428571, 18)%Z; (-431149419040899341, 39)%Z];
  [(178052405808496803, 26)%Z; (-536896485207159591, 25)%Z; (785211109615470902, 24)%Z; (-742381412727354308, 23)%Z; (510387221250056087, 22)%Z; (-272206518000029913, 21)%Z; (1173890608875129, 18)%Z; (-42164234114698511, 19)%Z; (12912796697626419, 18)%Z; (-34434124527003784, 18)%Z; (817810457516339869, 19)%Z; (-178431372549019608, 18)%Z; (379166666666666667, 18)%Z; (-933333333333333333, 18)%Z; (-289812264497884035, 39)%Z];
  [(-429781669192923318, 27)%Z; (138144107954868209, 25)%Z; (-21571733780644805, 23)%Z; (218114197115408584, 23)%Z; (-16061136333043723, 21)%Z; (918696998250100956, 22)%Z; (-425322684375046739, 21)%Z; (164053035401803742, 20)%Z; (-53903140203449801, 19)%Z; (153723770209838321, 19)%Z; (-38738390092879257, 18)%Z; (880417956656346749, 19)%Z; (-185866013071895425, 18)%Z; (386029411764705882, 18)%Z; (-9375, 4)%Z; (361038143127092565, 40)%Z];
  [(103979436095062093, 27)%Z; (-354916475204478611, 26)%Z; (589414860607437694, 25)%Z; (-634754465269548285, 24)%Z; (498546736263791049, 23)%Z; (-304566733426606895, 22)%Z; (150760533046170413, 21)%Z; (-622186326857211229, 21)%Z; (218737380535738323, 20)%Z; (-666628207347012031, 20)%Z; (178878568971448228, 19)%Z; (-429308565531475748, 19)%Z; (939112487100103199, 19)%Z; (-192638458892328861, 18)%Z; (392156862745098039, 18)%Z; (-941176470588235294, 18)%Z; (437203464078961918, 40)%Z];
  [(-252071360230453559, 28)%Z; (910607788832513482, 27)%Z; (-160266970834522373, 25)%Z; (183162252382311283, 24)%Z; (-152870033719082879, 23)%Z; (993655219174038712, 23)%Z; (-523927297382674957, 22)%Z; (230528010848376981, 21)%Z; (-864480040681413679, 21)%Z; (280956013221459446, 20)%Z; (-802731466347026988, 20)%Z; (204331645979243233, 19)%Z; (-469962785752259436, 19)%Z; (994152046783625731, 19)%Z; (-198830409356725146, 18)%Z; (397660818713450292, 18)%Z; (-944444444444444444, 18)%Z; (-10979278445054566, 39)%Z];
  [(612173303416815786, 29)%Z; (-233346059184762723, 27)%Z; (433877828796668189, 26)%Z; (-524510086367527766, 25)%Z; (463629451342725436, 24)%Z; (-319547683386986146, 23)%Z; (178857939451326968, 22)%Z; (-836218937694515695, 22)%Z; (333442301405688133, 21)%Z; (-115264005424188491, 20)%Z; (35011441647597254, 19)%Z; (-945763618532497251, 20)%Z; (229873101726648637, 19)%Z; (-509257333055960058, 19)%Z; (104579630895420369, 18)%Z; (-204511278195488722, 18)%Z; (402631578947368421, 18)%Z; (-947368421052631579, 18)%Z; (205754270575864327, 38)%Z];
  [(-148907019750036272, 29)%Z; (597282601441812159, 28)%Z; (-116997121341249088, 26)%Z; (149171329710092587, 25)%Z; (-139226574396086414, 24)%Z; (101436504202862959, 23)%Z; (-600816217201572911, 23)%Z; (29754707899506468, 21)%Z; (-125781265211550069, 21)%Z; (461197972442350253, 21)%Z; (-148608235564757304, 20)%Z; (425559947299077734, 20)%Z; (-10942970073404856, 18)%Z; (25533596837944664, 18)%Z; (-547148503670242801, 19)%Z; (10942970073404856, 17)%Z; (-20974025974025974, 17)%Z; (407142857142857143, 18)%Z; (-95, 2)%Z; (867784095820990092, 39)%Z];
  [(362722227596242202, 30)%Z; (-152725148461575664, 28)%Z; (314359263916743242, 27)%Z; (-421611248076573289, 26)%Z; (414364804750257185, 25)%Z; (-318232170048197518, 24)%Z; (198895106280123449, 23)%Z; (-104037440208064573, 22)%Z; (464917310929788562, 22)%Z; (-180331563027311927, 21)%Z; (614930629923133671, 21)%Z; (-186342615128222325, 20)%Z; (506618984879854445, 20)%Z; (-124706211662733402, 19)%Z; (280588976241150154, 19)%Z; (-583625070581592321, 19)%Z; (11398927159796725, 17)%Z; (-214568040654997177, 18)%Z; (411255411255411255, 18)%Z; (-952380952380952381, 18)%Z; (-720536145745436632, 39)%Z];
  [(-884688359990834639, 31)%Z; (390147566755958076, 29)%Z; (-841897380894435847, 28)%Z; (118489261014772453, 26)%Z; (-122322737106426855, 25)%Z; (987756102134396858, 25)%Z; (-649724013848403267, 24)%Z; (358011191304222208, 23)%Z; (-168678349749104694, 22)%Z; (690331764713928471, 22)%Z; (-248519435297014249, 21)%Z; (795262192950445598, 21)%Z; (-228269703532072348, 20)%Z; (592623268785187826, 20)%Z; (-140294488120575077, 19)%Z; (305530218573696835, 19)%Z; (-61869869261173609, 18)%Z; (118280632411067194, 18)%Z; (-219038208168642951, 18)%Z; (415019762845849802, 18)%Z; (-954545454545454545, 18)%Z; (777617336263005656, 40)%Z];
  [(216028553021017761, 31)%Z; (-995788758687358058, 30)%Z; (224799312273671082, 28)%Z; (-331283197034883699, 27)%Z; (358430014569686669, 26)%Z; (-303611306459028708, 25)%Z; (209681558523266701, 24)%Z; (-121415607221091576, 23)%Z; (601657696497373433, 23)%Z; (-259175623106560863, 22)%Z; (982707570945709941, 22)%Z; (-331359247062685666, 21)%Z; (100236172236462414, 20)%Z; (-274150214663828824, 20)%Z; (682927766885787875, 20)%Z; (-156097775288180086, 19)%Z; (330081753994797473, 19)%Z; (-652396878483835006, 19)%Z; (122324414715719064, 18)%Z; (-223188405797101449, 18)%Z; (418478260869565217, 18)%Z; (-956521739130434783, 18)%Z; (242393100682187441, 39)%Z];
  [(-52806979627359897, 31)%Z; (253953565662485323, 30)%Z; (-598604833347286832, 29)%Z; (921851443354821722, 28)%Z; (-104314768590150879, 26)%Z; (924924281499337794, 26)%Z; (-66920992132010911, 24)%Z; (406306023658637674, 24)%Z; (-21127913230249159, 22)%Z; (955786550892223862, 23)%Z; (-380844179509363046, 22)%Z; (135026572735137807, 21)%Z; (-42963000415725666, 20)%Z; (123601247349856916, 20)%Z; (-32371755258295859, 19)%Z; (776922126199100615, 20)%Z; (-172032756515515136, 19)%Z; (354185086943707633, 19)%Z; (-684757834757834758, 19)%Z; (12613960113960114, 17)%Z; (-227051282051282051, 18)%Z; (421666666666666667, 18)%Z; (-958333333333333333, 18)%Z; (-331862542938273541, 37)%Z];
  [(129208567173327408, 32)%Z; (-647166388624665972, 31)%Z; (158997015023469072, 29)%Z; (-255404728894842382, 28)%Z; (301696836007032564, 27)%Z; (-279466542827567006, 26)%Z; (211411264342705782, 25)%Z; (-134308332641248379, 24)%Z; (731350842585547814, 24)%Z; (-346714473522037482, 23)%Z; (144877119293137091, 22)%Z; (-538983408838803722, 22)%Z; (180035430313517077, 21)%Z; (-543883258010065574, 21)%Z; (149567895952768033, 20)%Z; (-376689515732897268, 20)%Z; (874037391973988192, 20)%Z; (-188028212054908384, 19)%Z; (377797426073288142, 19)%Z; (-715826702033598585, 19)%Z; (129743589743589744, 18)%Z; (-230655270655270655, 18)%Z; (424615384615384615, 18)%Z; (-96, 2)%Z; (-581765595244536689, 40)%Z];
  [(-316429144097944672, 33)%Z; (164806845884346183, 31)%Z; (-421332284260850242, 30)%Z; (704774002763604042, 29)%Z; (-867543236735198308, 28)%Z; (838046766686201566, 27)%Z; (-66161586843647492, 25)%Z; (438976877788010344, 25)%Z; (-249829487799941181, 24)%Z; (123873787700804169, 23)%Z; (-541741364878183566, 23)%Z; (211068064238253337, 22)%Z; (-73873822483388668, 21)%Z; (233933771197397449, 21)%Z; (-674458405270418619, 21)%Z; (178057018991390515, 20)%Z; (-43277747671518528, 19)%Z; (973749322609166881, 20)%Z; (-204023667594301632, 19)%Z; (400888610009855839, 19)%Z; (-74565281461833186, 18)%Z; (133152288324702118, 18)%Z; (-234025234025234025, 18)%Z; (42735042735042735, 17)%Z; (-961538461538461538, 18)%Z; (-123445032263027787, 38)%Z];
  [(1, 0)%Z; (-2, 0)%Z];
  [(-833333333333333333, 19)%Z; (133333333333333333, 17)%Z; (-25, 1)%Z];
  [(111111111111111111, 19)%Z; (-15, 2)%Z; (15, 1)%Z; (-272222222222222222, 17)%Z];
  [(-178571428571428571, 20)%Z; (253968253968253968, 19)%Z; (-2, 1)%Z; (16, 1)%Z; (-284722222222222222, 17)%Z];
  [(31746031746031746, 20)%Z; (-496031746031746032, 20)%Z; (396825396825396825, 19)%Z; (-238095238095238095, 18)%Z; (166666666666666667, 17)%Z; (-292722222222222222, 17)%Z];
  [(-601250601250601251, 22)%Z; (103896103896103896, 20)%Z; (-892857142857142857, 20)%Z; (529100529100529101, 19)%Z; (-267857142857142857, 18)%Z; (171428571428571429, 17)%Z; (-298277777777777778, 17)%Z];
  [(118928690357261786, 22)%Z; (-226625226625226625, 21)%Z; (212121212121212121, 20)%Z; (-132575757575757576, 19)%Z; (648148148148148148, 19)%Z; (-291666666666666667, 18)%Z; (175, 2)%Z; (-302359410430839002, 17)%Z];
  [(-242812742812742813, 23)%Z; (507429078857650286, 22)%Z; (-518000518000518001, 21)%Z; (348096348096348096, 20)%Z; (-176767676767676768, 19)%Z; (754208754208754209, 19)%Z; (-311111111111111111, 18)%Z; (177777777777777778, 17)%Z; (-305484410430839002, 17)%Z];
  [(507843645098547059, 24)%Z; (-115693130399012752, 22)%Z; (128442985585842729, 21)%Z; (-932400932400932401, 21)%Z; (503496503496503497, 20)%Z; (-22027972027972028, 18)%Z; (848484848484848485, 19)%Z; (-327272727272727273, 18)%Z; (18, 1)%Z; (-307953546233308138, 17)%Z];
  [(-108250882244690294, 24)%Z; (267286128999235294, 23)%Z; (-321369806663924311, 22)%Z; (251848991344789664, 21)%Z; (-145687645687645688, 20)%Z; (671328671328671329, 20)%Z; (-262237762237762238, 19)%Z; (932400932400932401, 19)%Z; (-340909090909090909, 18)%Z; (181818181818181818, 17)%Z; (-309953546233308138, 17)%Z];
  [(23430926892790107, 24)%Z; (-623731273886072648, 24)%Z; (808540540222686766, 23)%Z; (-682206080812891958, 22)%Z; (423246221565549297, 21)%Z; (-207390648567119155, 20)%Z; (846153846153846154, 20)%Z; (-302197802197802198, 19)%Z; (100732600732600733, 18)%Z; (-352564102564102564, 18)%Z; (183333333333333333, 17)%Z; (-311606438795291609, 17)%Z];
  [(-513612709062971548, 26)%Z; (146697977067903278, 24)%Z; (-204130235089987412, 23)%Z; (184809266336614118, 22)%Z; (-122797094546320553, 21)%Z; (641552167425674723, 21)%Z; (-276520864756158874, 20)%Z; (102391725921137686, 19)%Z; (-339972527472527473, 19)%Z; (107448107448107448, 18)%Z; (-362637362637362637, 18)%Z; (184615384615384615, 17)%Z; (-312995327684180498, 17)%Z];
  [(113784969392412158, 26)%Z; (-347202191326568766, 25)%Z; (516499127593242793, 24)%Z; (-499971155510259024, 23)%Z; (354917795578270294, 22)%Z; (-19764484741264927, 20)%Z; (903519302457825235, 21)%Z; (-351368617622487592, 20)%Z; (120168067226890756, 19)%Z; (-375525210084033613, 19)%Z; (113492063492063492, 18)%Z; (-371428571428571429, 18)%Z; (185714285714285714, 17)%Z; (-31417875963684322, 16)%Z];
  [(-254360579726424005, 27)%Z; (825994592626399371, 26)%Z; (-13086851826924515, 23)%Z; (134978438677700783, 23)%Z; (-102077444250011217, 22)%Z; (604903373333399806, 22)%Z; (-29347265221878225, 20)%Z; (120469240327710031, 20)%Z; (-4304265565875473, 18)%Z; (137736498108015136, 19)%Z; (-408905228758169935, 19)%Z; (118954248366013072, 18)%Z; (-379166666666666667, 18)%Z; (186666666666666667, 17)%Z; (-315199167800108526, 17)%Z];
  [(573042225590564424, 28)%Z; (-197348725649811728, 26)%Z; (331872827394535462, 25)%Z; (-363523661859014307, 24)%Z; (292020660600794964, 23)%Z; (-183739399650020191, 22)%Z; (945161520833437197, 22)%Z; (-410132588504509355, 21)%Z; (154008972009856574, 20)%Z; (-512412567366127738, 20)%Z; (154953560371517028, 19)%Z; (-440208978328173375, 19)%Z; (123910675381263617, 18)%Z; (-386029411764705882, 18)%Z; (1875, 3)%Z; (-316088056688997415, 17)%Z];
  [(-129974295118827616, 28)%Z; (473221966939304815, 27)%Z; (-842021229439196705, 26)%Z; (976545331183920439, 25)%Z; (-830911227106318415, 24)%Z; (553757697139285264, 23)%Z; (-301521066092340826, 22)%Z; (138263628190491384, 21)%Z; (-546843451339345807, 21)%Z; (190465202099146295, 20)%Z; (-596261896571494095, 20)%Z; (171723426212590299, 19)%Z; (-4695562435500516, 17)%Z; (128425639261552574, 18)%Z; (-392156862745098039, 18)%Z; (188235294117647059, 17)%Z; (-316869306688997415, 17)%Z];
  [(296554541447592422, 29)%Z; (-113825973604064185, 27)%Z; (21368929444602983, 25)%Z; (-261660360546158976, 25)%Z; (235184667260127506, 24)%Z; (-165609203195673119, 23)%Z; (952595086150318104, 23)%Z; (-461056021696753962, 22)%Z; (192106675706980818, 21)%Z; (-702390033053648614, 21)%Z; (229351847527721997, 20)%Z; (-681105486597477444, 20)%Z; (187985114300903775, 19)%Z; (-497076023391812865, 19)%Z; (132553606237816764, 18)%Z; (-397660818713450292, 18)%Z; (188888888888888889, 17)%Z; (-317561348211488764, 17)%Z];
  [(-68019255935201754, 29)%Z; (274524775511485557, 28)%Z; (-542347285995835236, 27)%Z; (699346781823370354, 26)%Z; (-662327787632464908, 25)%Z; (491611820595363302, 24)%Z; (-298096565752211613, 23)%Z; (152039806853548308, 22)%Z; (-666884602811376267, 22)%Z; (256142234275974423, 21)%Z; (-87528604118993135, 20)%Z; (270218176723570643, 20)%Z; (-766243672422162125, 20)%Z; (203702933222384023, 19)%Z; (-522898154477101846, 19)%Z; (136340852130325815, 18)%Z; (-402631578947368421, 18)%Z; (189473684210526316, 17)%Z; (-318178632162106048, 17)%Z];
  [(156744231315827655, 30)%Z; (-663647334935346843, 29)%Z; (137643672166175397, 27)%Z; (-186464162137615733, 26)%Z; (185635432528115219, 25)%Z; (-144909291718375656, 24)%Z; (924332641848573709, 24)%Z; (-495911798325107799, 23)%Z; (22869320947554558, 21)%Z; (-922395944884700507, 22)%Z; (330240523477238453, 21)%Z; (-106389986824769433, 20)%Z; (312656287811567315, 20)%Z; (-851119894598155468, 20)%Z; (21885940146809712, 18)%Z; (-547148503670242801, 19)%Z; (139826839826839827, 18)%Z; (-407142857142857143, 18)%Z; (19, 1)%Z; (-318732648782604663, 17)%Z];
  [(-362722227596242202, 31)%Z; (160763314170079646, 29)%Z; (-349288071018603602, 28)%Z; (496013233031262693, 27)%Z; (-517956005937821482, 26)%Z; (424309560064263358, 25)%Z; (-28413586611446207, 23)%Z; (160057600320099344, 23)%Z; (-774862184882980937, 23)%Z; (32787556914056714, 21)%Z; (-122986125984626734, 21)%Z; (414094700284938499, 21)%Z; (-126654746219963611, 20)%Z; (356303461893524005, 20)%Z; (-935296587470500514, 20)%Z; (233450028232636928, 19)%Z; (-569946357989836251, 19)%Z; (143045360436664784, 18)%Z; (-411255411255411255, 18)%Z; (190476190476190476, 17)%Z; (-319232648782604663, 17)%Z];
  [(842560342848413942, 32)%Z; (-390147566755958076, 30)%Z; (88620776936256405, 28)%Z; (-131654734460858281, 27)%Z; (143909102478149242, 26)%Z; (-123469512766799607, 25)%Z; (866298685131204355, 25)%Z; (-511444559006031726, 24)%Z; (259505153460161068, 23)%Z; (-115055294118988078, 22)%Z; (45185351872184409, 21)%Z; (-15905243859008912, 20)%Z; (507266007849049661, 21)%Z; (-148155817196296956, 20)%Z; (400841394630214506, 20)%Z; (-101843406191232278, 19)%Z; (247479477044694436, 19)%Z; (-591403162055335968, 19)%Z; (146025472112428634, 18)%Z; (-415019762845849802, 18)%Z; (190909090909090909, 17)%Z; (-319686163521833688, 17)%Z];
  [(-196389593655470691, 32)%Z; (948370246368912437, 31)%Z; (-224799312273671082, 29)%Z; (348719154773561789, 28)%Z; (-398255571744096299, 27)%Z; (357189772304739656, 26)%Z; (-262101948154083377, 25)%Z; (161887476294788768, 24)%Z; (-859510994996247762, 24)%Z; (398731727856247482, 23)%Z; (-163784595157618323, 22)%Z; (60247135829579212, 21)%Z; (-200472344472924828, 21)%Z; (609222699252952943, 21)%Z; (-170731941721446969, 20)%Z; (445993643680514531, 20)%Z; (-110027251331599158, 19)%Z; (260958751393534002, 19)%Z; (-611622073578595318, 19)%Z; (148792270531400966, 18)%Z; (-418478260869565217, 18)%Z; (191304347826086957, 17)%Z; (-320099386662329556, 17)%Z];
  [(459191127194433887, 33)%Z; (-230866877874986657, 31)%Z; (570099841283130317, 30)%Z; (-921851443354821723, 29)%Z; (109805019568579873, 27)%Z; (-102769364611037533, 26)%Z; (787305789788363659, 26)%Z; (-507882529573297093, 25)%Z; (281705509736655454, 24)%Z; (-136540935841746266, 23)%Z; (585914122322096995, 23)%Z; (-225044287891896346, 22)%Z; (781145462104103018, 22)%Z; (-247202494699713832, 21)%Z; (71937233907324131, 20)%Z; (-194230531549775154, 20)%Z; (491522161472900389, 20)%Z; (-118061695647902544, 19)%Z; (273903133903133903, 19)%Z; (-630698005698005698, 19)%Z; (151367521367521368, 18)%Z; (-421666666666666667, 18)%Z; (191666666666666667, 17)%Z; (-320477458495977949, 17)%Z];
  [(-10767380597777284, 32)%Z; (562753381412753019, 32)%Z; (-144542740930426429, 30)%Z; (243242598947468935, 29)%Z; (-301696836007032564, 28)%Z; (294175308239544217, 27)%Z; (-234901404825228646, 26)%Z; (158009803107351034, 25)%Z; (-914188553231934767, 25)%Z; (462285964696049976, 24)%Z; (-20696731327591013, 22)%Z; (829205244367390342, 23)%Z; (-300059050522528461, 22)%Z; (988878650927391953, 22)%Z; (-299135791905536066, 21)%Z; (837087812739771707, 21)%Z; (-218509347993497048, 20)%Z; (537223463014023955, 20)%Z; (-125932475357762714, 19)%Z; (286330680813439434, 19)%Z; (-648717948717948718, 19)%Z; (153770180436847104, 18)%Z; (-424615384615384615, 18)%Z; (192, 2)%Z; (-320824680718200171, 17)%Z];
  [(253143315278355737, 34)%Z; (-137339038236955153, 32)%Z; (36637589935726108, 30)%Z; (-640703638876003674, 30)%Z; (826231654033522199, 29)%Z; (-838046766686201566, 28)%Z; (696437756248920969, 27)%Z; (-487752086431122605, 26)%Z; (293917044470519037, 25)%Z; (-154842234626005211, 24)%Z; (722321819837578087, 24)%Z; (-301525806054647625, 23)%Z; (11365203458982872, 21)%Z; (-389889618662329081, 22)%Z; (122628800958257931, 21)%Z; (-356114037982781031, 21)%Z; (961727726033745067, 21)%Z; (-24343733065229172, 19)%Z; (58292476455514752, 19)%Z; (-133629536669951946, 19)%Z; (298261125847332744, 19)%Z; (-665761441623510589, 19)%Z; (15601682268348935, 17)%Z; (-42735042735042735, 17)%Z; (192307692307692308, 17)%Z; (-321144680718200171, 17)%Z]
].

Definition dec_q (x : Z * Z) : Q := fst x # Z.to_pos (10 ^ snd x)%Z.
Definition cfd_table : list (list Q) := map (fun r => map dec_q r ++ repeat (0#1) (26 - length r)) cfd_rows.
