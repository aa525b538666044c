(** The tables of include/teqp/models/cubicsuperancillary.hpp, lines 70-3807: for every expansion the
    coefficients and the two ends.  A number is written as its digits and a power of ten: (m, e) is
    m times 10 to the e. *)
From Coq Require Import ZArith List.
Import ListNotations.
Local Open Scope Z_scope.
Definition raw := list (list (Z * Z) * (Z * Z) * (Z * Z)).
(** [vdW_p], lines 70-223 *)
Definition raw_vdW_p : raw := [
  ([(8369016487003571,-28);(13838182749488314,-28);(8006631877160537,-28);(33527912014616007,-29);(1043509859614108,-28);(24518354339464807,-30);(4362454910953413,-30);(5800290149785568,-31);(55246311563342216,-33);(3341712352615597,-33);(6943507182585673,-35);(-66172300100790814,-37);(-4799249815587726,-37);(8197853768324654,-39);(16972506557505968,-40);(-14268299756055458,-42);(-5664810160392086,-42);(4437342591868191,-46);(-14685138788754898,-44)], (2962962962962963,-17), (3796296296296296,-17));
  ([(11901434626227093,-26);(17361780173369773,-26);(7639416392753658,-26);(2219331080562664,-26);(4468985012784936,-27);(6345623163747038,-28);(6256832040916454,-29);(39794258615342,-28);(12126532982344795,-32);(-2510288446235168,-33);(-31189177665897616,-35);(-30550813286427195,-38);(6384476478410435,-37);(26783405454063793,-41);(-14724057241513977,-40);(-5563678192342752,-41);(10097419586828951,-43);(6679443056687351,-41);(54526065768876336,-43)], (3796296296296296,-17), (462962962962963,-16));
  ([(3341667610526653,-23);(5118389108542411,-23);(24371256768154856,-24);(757899054003236,-23);(15635438033324503,-25);(20715013642702,-23);(15165995758982126,-27);(16314454982752663,-29);(-6017223931292203,-29);(-19704412673913643,-31);(28051398344015177,-32);(7022929896522875,-33);(-15199614910962848,-34);(11958046052493347,-36);(700911492046808,-35);(-4237329623030918,-37);(-3863191954564062,-38);(-11166938269465874,-39);(-12818068320304144,-39)], (462962962962963,-16), (6296296296296297,-17));
  ([(8410724206747044,-21);(12481631400263709,-21);(5378159443205515,-21);(13704527561658967,-22);(19136168235190198,-23);(8957711663130537,-24);(-9462672897450059,-25);(-6968811539371602,-26);(10243849900317855,-27);(2337729169280951,-28);(-11494530386099005,-29);(53160592525426036,-31);(7530730564512324,-31);(-11431990843247566,-32);(2805445086019535,-33);(7988918627843267,-34);(-10295338058018748,-35);(7210533399624742,-36);(5761312966431838,-37)], (6296296296296297,-17), (962962962962963,-16));
  ([(6802593682753608,-19);(9003332567452364,-19);(2880297751978097,-19);(4118964226458961,-20);(7986981798077676,-22);(-2628431475282669,-22);(14516582903911464,-24);(15647152494426528,-25);(-41929621787396065,-26);(38557343395626107,-27);(8368753107866514,-28);(-831125296022126,-27);(13326079144488354,-29);(-8864161253017153,-30);(-883270499045497,-30);(33879136780332834,-32);(-48188763160481214,-33);(29076523496871995,-34);(38719993601362204,-35)], (962962962962963,-16), (16296296296296295,-17));
  ([(15871052250174933,-18);(17373046113870208,-18);(3617191914161977,-18);(18958352208271672,-20);(-14572937633430827,-21);(7218425887058066,-22);(26419947263015497,-24);(-14409436469961143,-24);(26380419456436925,-25);(-34860393171849517,-26);(3335912880024321,-26);(-12239621615490678,-28);(-4035014645542914,-28);(13487363894996995,-29);(-272259564068969,-28);(4280375966864147,-30);(-5359753439682091,-31);(5147249813874932,-32);(-1531435568635775,-33)], (16296296296296295,-17), (2962962962962963,-16))].
(** [vdW_rhoL], lines 224-727 *)
Definition raw_vdW_rhoL : raw := [
  ([(9316136201036852,-16);(-3865225088424542,-17);(-8661148627486168,-19);(-38336595966463605,-21);(-1930441992932519,-21);(-5810841478132156,-23);(6379356029539984,-24);(40565692471794534,-26);(-31201431022198634,-26);(-34029466744467385,-27);(1369238750159596,-26);(118192261533423,-26);(-7751924102628038,-28);(6175615574477433,-30);(4091171845743702,-29);(-6980527267330672,-30);(-12559397966072083,-31);(14641066137244252,-31);(-38163916471489756,-33)], (2962962962962963,-17), (962962962962963,-16));
  ([(8455034879915954,-16);(-4802256898834967,-17);(-15470962415359973,-19);(-7972501988821878,-20);(-4017234579128948,-21);(-2921741757144769,-22);(-26298690877779585,-24);(-13988705679923719,-25);(-15143918064008943,-26);(-16808554548219945,-27);(-16921186674068167,-29);(-16256440638073855,-29);(-9825473767932635,-30);(7077671781985373,-31);(-3608224830031759,-31);(-7632783294297951,-31);(-4163336342344337,-32);(8257283745649602,-31);(13877787807814457,-33)], (962962962962963,-16), (16296296296296295,-17));
  ([(7327617276279949,-16);(-6612960981729517,-17);(-32780016312522198,-19);(-26019391083406673,-20);(-26595986463442967,-21);(-3184060496402852,-21);(-40508839448810674,-23);(-54371095223326726,-24);(-7554792333386295,-24);(-1076694275403689,-24);(-15675695463901462,-26);(-23183531483450537,-27);(-34755739952707643,-28);(-5273004255457181,-28);(-8064382495120981,-29);(-13183898417423734,-30);(-19290125052862095,-31);(40245584642661925,-32);(-5898059818321144,-32)], (16296296296296295,-17), (22962962962962963,-17));
  ([(6166811517612045,-16);(-4839066994648989,-17);(-21672975061474767,-19);(-17570976987404258,-20);(-18519040533800102,-21);(-2208561613849247,-21);(-282949510460595,-21);(-38035669329417043,-24);(-5291587154565569,-24);(-7554387740360546,-25);(-11004187144836308,-26);(-16289976312311438,-27);(-24432955658681976,-28);(-3709324514211687,-28);(-5671157987663378,-29);(-9346690088563037,-30);(-13600232051658168,-31);(3677613769070831,-31);(-3122502256758253,-32)], (22962962962962963,-17), (26296296296296295,-17));
  ([(5328306974405083,-16);(-34453741516764766,-18);(-14682721939933072,-19);(-12182552205808328,-20);(-12945521315733954,-21);(-15482578362285837,-22);(-19873352891802698,-23);(-26746483347550587,-24);(-3724136381222376,-24);(-5319946913551199,-25);(-7753041264546567,-26);(-11481385286948864,-27);(-17225665338571616,-28);(-26155466681387907,-29);(-400304789316408,-28);(-6696032617270475,-30);(-943689570931383,-30);(3885780586188048,-31);(-1734723475976807,-32)], (26296296296296295,-17), (2796296296296296,-16));
  ([(4734609830190833,-16);(-2424735785371843,-17);(-10133644361935874,-19);(-8529016931251368,-20);(-9098505499984672,-21);(-1089985510512731,-21);(-14004471942871688,-23);(-18859509249430362,-24);(-2627095759683007,-24);(-37540060296437083,-26);(-5472236552783727,-26);(-8105231763533283,-27);(-12161383011743965,-28);(-18476886687324168,-29);(-2827946210537391,-29);(-4829470157119431,-30);(-7181755190543981,-31);(42674197509029455,-32);(6938893903907228,-33)], (2796296296296296,-16), (287962962962963,-15));
  ([(4317586705206012,-16);(-16998875614382822,-18);(-7071969216258488,-19);(-60002743216675675,-21);(-6413721659864063,-21);(-7690254281537967,-22);(-9885537948645107,-23);(-13316815754282896,-24);(-1855412701950998,-24);(-26517297732620015,-26);(-38659075940472576,-27);(-5726488727653134,-27);(-8592571099086399,-28);(-130593452718486,-27);(-19970136655445003,-30);(-34555691641457997,-31);(-4891920202254596,-31);(35041414214731503,-32);(-6938893903907228,-33)], (287962962962963,-15), (29212962962962963,-17));
  ([(4025301670915846,-16);(-11913454752168377,-18);(-4965958130950694,-19);(-4231862747736473,-20);(-4528099139627234,-21);(-5431755606445654,-22);(-6984058851383645,-23);(-9409722008524302,-24);(-1311186739044734,-24);(-18740799190286594,-26);(-2732347334499785,-26);(-40475123253003176,-28);(-6073752611968075,-28);(-9242259735309233,-29);(-14089424071883627,-30);(-25500435096859064,-31);(-30878077872387166,-32);(39898639947466563,-32);(-3122502256758253,-32)], (29212962962962963,-17), (29421296296296295,-17));
  ([(3820369525637211,-16);(-8358544107590068,-18);(-34987653550601003,-20);(-2988469717726469,-20);(-31993345159762876,-22);(-38386783924454493,-23);(-4936325082721682,-23);(-6651310394817367,-24);(-9268700876252645,-25);(-13248298638690592,-26);(-193161493744487,-25);(-2861148817867587,-27);(-42926079357741287,-29);(-6528458329491116,-29);(-9988537774674455,-30);(-2067790383364354,-30);(-2740863092043355,-31);(23592239273284576,-32);(-1734723475976807,-32)], (29421296296296295,-17), (2952546296296296,-16));
  ([(3676497053323325,-16);(-5873143997041752,-18);(-2469394057881408,-19);(-211177904382992,-19);(-2261380224737042,-21);(-27135935164526725,-23);(-3489748082521893,-23);(-470234896160493,-23);(-6552974517182175,-25);(-9366743838890024,-26);(-13656992203792129,-27);(-20231802344561345,-28);(-30342742207700724,-29);(-45678738569421284,-30);(-7029099524658022,-30);(-14190038033490282,-31);(-19081958235744878,-32);(2706168622523819,-31);(0,0)], (2952546296296296,-16), (295775462962963,-15));
  ([(3575341743707003,-16);(-4132704229989258,-18);(-1744465560134939,-19);(-14927613207975365,-21);(-15987220087325393,-22);(-1918530817199282,-22);(-24673554255283392,-24);(-3324766725820716,-24);(-4633303775369857,-25);(-662290049191494,-25);(-9656359045706608,-27);(-14302690976020216,-28);(-21446733278196461,-29);(-3235953172087136,-29);(-4947431353485854,-30);(-8743006318923108,-31);(-1249000902703301,-31);(2706168622523819,-31);(-13877787807814457,-33)], (295775462962963,-15), (29603587962962963,-17));
  ([(35041246164734846,-17);(-29115644765456902,-19);(-1232928553679749,-19);(-10553674979200955,-21);(-1130355650916931,-21);(-13565108163485218,-23);(-1744588612809239,-23);(-23508600899280196,-25);(-32761145879467435,-26);(-4682861390326032,-26);(-6827677312415403,-27);(-1011458278243893,-27);(-15187850976872141,-29);(-23189783426857957,-30);(-34139358007223564,-31);(-11136924715771102,-31);(27755575615628914,-33);(5134781488891349,-31);(-1231653667943533,-31)], (29603587962962963,-17), (29616608796296295,-17));
  ([(3453929468556045,-16);(-2053229816890382,-18);(-8715997446502935,-20);(-7461959008286251,-21);(-7992427072806008,-22);(-9591642778292164,-23);(-12335767615723192,-24);(-1662271872232557,-24);(-23165206211595013,-26);(-3311351193246992,-26);(-48279401310136194,-28);(-7147511749128199,-28);(-10711917464156784,-29);(-1676089822488791,-29);(-24980018054066022,-31);(-2983724378680108,-31);(-5551115123125783,-32);(2393918396847994,-31);(-3469446951953614,-33)], (29616608796296295,-17), (2962311921296296,-16));
  ([(34185203830414934,-17);(-14490000408041367,-19);(-6162384665049647,-20);(-5276183904001641,-21);(-5651359926590882,-22);(-6782196396853957,-23);(-8722585896625557,-24);(-11753904204103716,-25);(-16380120870795878,-26);(-23415179517538576,-27);(-3413873350677221,-27);(-5057065877167588,-28);(-7568598525686809,-29);(-11497747198774277,-30);(-17867651802561113,-31);(-9783840404509192,-31);(-38163916471489756,-33);(8673617379884035,-31);(45102810375396984,-33)], (2962311921296296,-16), (296263744212963,-15));
  ([(33935254842481155,-17);(-1023145052791774,-18);(-435719527140041,-19);(-37307483613316372,-22);(-399606561996696,-21);(-47956948610178296,-24);(-6167757610198166,-24);(-8311229968138711,-25);(-11582452358327444,-26);(-16557800269767498,-27);(-24139960863589494,-28);(-35761671401957074,-29);(-5354744425645208,-29);(-9089951014118469,-30);(-12524703496552547,-31);(30531133177191805,-32);(10408340855860843,-32);(11796119636642288,-31);(745931094670027,-31)], (296263744212963,-15), (29628002025462963,-17));
  ([(3375873324362272,-16);(-7227370941488807,-19);(-3080906979128009,-20);(-2638010219744441,-21);(-28256276612612097,-23);(-3391053622625595,-23);(-4361249632267583,-24);(-5876913226898761,-25);(-818994629059322,-25);(-11706968727764888,-27);(-17064231971897215,-28);(-25467475350815505,-29);(-38767600241129685,-30);(-3230055112268815,-30);(-10408340855860843,-32);(-32959746043559335,-32);(4718447854656915,-31);(-2255140518769849,-31);(-5828670879282072,-31)], (29628002025462963,-17), (29628815827546295,-17));
  ([(33634024377980126,-17);(-5106811254640582,-19);(-21784964224096787,-21);(-18653452834756223,-22);(-19980143188894073,-23);(-23978314021844138,-24);(-3083862751968036,-24);(-415558362026891,-24);(-5791153667722426,-26);(-8274964047316757,-27);(-1206382216345503,-27);(-17613341340982913,-29);(-2653433028854124,-29);(-5748873599387139,-30);(-8881784197001252,-31);(-19359513991901167,-31);(38163916471489756,-33);(2723515857283587,-30);(20122792321330962,-32)], (29628815827546295,-17), (2962922272858796,-16));
  ([(3354589771042352,-16);(-3609193232701237,-19);(-1540417623366666,-20);(-1318994892206965,-21);(-1412807294452756,-22);(-1695521064867811,-23);(-2180618217245689,-24);(-29384074340388366,-26);(-409495146125316,-25);(-5853536405586723,-27);(-8535151752031567,-28);(-12840770113875521,-29);(-18620521791135047,-30);(8777700788442644,-31);(-11449174941446927,-32);(-32612801348363973,-32);(-728583859910259,-31);(-3642919299551295,-31);(-6418476861114186,-32)], (2962922272858796,-16), (296294261791088,-15));
  ([(33483610810587444,-17);(-25511470266906255,-20);(-10892355099323403,-21);(-9326690283625871,-22);(-9990048497124371,-23);(-1198913999328477,-23);(-15419303056596334,-25);(-20778637838114733,-26);(-28956462228002522,-27);(-4139157766536172,-27);(-6029898802495381,-28);(-8481410018745805,-29);(-13000017728970192,-30);(-4253541963095131,-30);(-4961309141293668,-31);(-3400058012914542,-31);(242861286636753,-30);(3427813588530171,-30);(25847379792054426,-32)], (296294261791088,-15), (29629527904369213,-17));
  ([(3341194565621786,-16);(-5254907183565548,-19);(-10585696826935151,-20);(-45948894997340645,-21);(-25987955723658085,-21);(-16924206122554547,-21);(-12054006867302791,-21);(-91430248983157,-19);(-7271484405917822,-21);(-60039811285959865,-22);(-5112767081889152,-21);(-4469487214352197,-21);(-39975640410763735,-22);(-36492975527165072,-22);(-33940536075909022,-22);(-32118298490882435,-22);(-30896085961677755,-22);(-30192461827061035,-22);(-1498133949695904,-21)], (29629527904369213,-17), (2962962962962963,-16))].
(** [vdW_rhoV], lines 728-1306 *)
Definition raw_vdW_rhoV : raw := [
  ([(22489373895047762,-27);(3688517107894903,-26);(20894583452709746,-27);(8476583933451082,-27);(2530366544413405,-27);(5637212489418141,-28);(9363230492731065,-29);(11333103251162971,-30);(933519994749376,-30);(41362278059373704,-33);(-484986420418459,-33);(-165650780002939,-33);(-4018942009006866,-36);(4891126970541962,-37);(20177374582077214,-39);(-16609931787362484,-40);(-6522933053091502,-41);(3332148463653554,-42);(-4030290364774149,-42)], (2962962962962963,-17), (3796296296296296,-17));
  ([(26379937128657115,-25);(3780798221053315,-24);(16044278594036214,-25);(44331172895958845,-26);(8361702765680484,-26);(10880537367567157,-27);(9447363806147374,-28);(47714402398820264,-30);(5233241126040141,-31);(-852742988949115,-31);(-3190159512313497,-33);(1504383250318862,-34);(7755246373275116,-36);(-3752718106348484,-37);(-16549266806029178,-39);(-6308867757850729,-40);(-7270142102516845,-41);(13231658626580658,-40);(10339757656912846,-41)], (3796296296296296,-17), (462962962962963,-16));
  ([(5488117599580858,-22);(8246318599119535,-22);(37495338087883065,-23);(10860523684389838,-23);(20169156352224874,-24);(22464415506045487,-25);(10692430180323234,-26);(-5062128204483255,-27);(-7086734785957356,-28);(18598468871247458,-30);(3791438263524812,-30);(-15845682631384665,-32);(-16139528628166535,-33);(14249482656836079,-34);(21099309474696353,-36);(-9177568896275842,-36);(261595868719895,-37);(-14175807747627512,-38);(-20384832220603676,-38)], (462962962962963,-16), (6296296296296297,-17));
  ([(9198583413591418,-20);(1323418019880509,-19);(5269589299645468,-20);(11673085614775962,-21);(1217520790883859,-21);(-5281166426031512,-24);(-9943118098154909,-24);(2878024017224007,-25);(1005351237026266,-25);(-8653088852547337,-27);(-5972466878192423,-28);(14256395010153724,-29);(-4811359136869256,-30);(-11177042446084331,-31);(1499644436891851,-31);(-3257172554437806,-33);(-10356698315857932,-34);(1720668023008306,-34);(-45858893159939854,-37)], (6296296296296297,-17), (962962962962963,-16));
  ([(4754326043670642,-18);(5941275521721304,-18);(1655883437830305,-18);(17737301927121552,-20);(-21044306045037264,-22);(-2446112805967309,-22);(18602953134177618,-23);(-13107585751750864,-24);(-4852484754108938,-25);(4195957567265955,-25);(-6078596600608724,-26);(31842478720250315,-28);(7401045989713535,-28);(-21153502669131463,-29);(2655919239960905,-29);(-7025291264527167,-31);(-4339586958009012,-31);(10583507269353032,-32);(-11385816876992305,-33)], (962962962962963,-16), (16296296296296295,-17));
  ([(36691881497644734,-18);(27888941391814935,-18);(3974549212687695,-18);(2715266512105239,-19);(23797626951819117,-21);(3422813454436401,-21);(39210812700050945,-23);(5451342389246796,-23);(7630582787377174,-24);(10642235220240798,-25);(1580515761670509,-25);(23087444716435312,-27);(3480158435736902,-27);(5272167251380022,-28);(805698823630463,-28);(12436666280146724,-30);(1932265111803666,-30);(3380542373809803,-31);(48030156241107846,-33)], (16296296296296295,-17), (22962962962962963,-17));
  ([(9807361548934067,-17);(3140331546583538,-17);(23425610291630955,-19);(1748056758866679,-19);(18480646404825905,-21);(2210790222235623,-21);(28286844096486047,-23);(38038013492475153,-24);(52915361961961005,-25);(7554389618198709,-25);(11004225222016606,-26);(16290535326951572,-27);(2443793865186672,-27);(3706427526006806,-28);(567323965583455,-28);(8677086826835989,-30);(1353951672999898,-30);(30357660829594124,-32);(3209238430557093,-32)], (22962962962962963,-17), (26296296296296295,-17));
  ([(15708895435350148,-17);(26473214602337546,-18);(15096794373112487,-19);(12167462420701724,-20);(12944662426067101,-21);(15482932451916717,-22);(1987328542198824,-22);(26746493632726076,-24);(37241364748974437,-25);(531994449361195,-24);(7753074050820263,-26);(11481976827654172,-27);(17230132251522257,-28);(26130746871855237,-29);(4001920322904695,-29);(6041174505089231,-30);(9497611030973019,-31);(2697495005143935,-31);(22985086056692694,-33)], (26296296296296295,-17), (2796296296296296,-16));
  ([(20464143088991663,-17);(2037941444367245,-17);(10233677370924937,-19);(8527036209769225,-20);(9098480032524933,-21);(10899862908780866,-22);(14004471174042243,-23);(18859509351779047,-24);(2627095993870676,-24);(3754003670419781,-25);(5472267257389252,-26);(8105812895897735,-27);(12166136154068141,-28);(18451386252227309,-29);(2827425793494598,-29);(4210173876195711,-30);(6886852199627924,-31);(23418766925686896,-32);(-3469446951953614,-33)], (2796296296296296,-16), (287962962962963,-15));
  ([(2405791169899757,-16);(15094667641419904,-18);(7096529008297752,-19);(60000237077412547,-21);(6413720740528275,-21);(7690254484101627,-22);(9885537929910093,-23);(1331681581152877,-23);(18554129257303265,-25);(2651727292607431,-25);(38659369108740016,-27);(5727075064188014,-27);(8597150769062978,-28);(1303020191745219,-28);(19978810272824887,-30);(2831068712794149,-30);(4666406150377611,-31);(28622937353617317,-32);(11275702593849246,-33)], (287962962962963,-15), (29212962962962963,-17));
  ([(26696049015665074,-17);(10968687650483065,-18);(4972041585612832,-19);(4231831304510672,-20);(45280991004606475,-22);(5431755610851852,-22);(698405883993447,-22);(9409722064035453,-24);(13111869472115512,-25);(1874077785318784,-25);(2732374916603053,-26);(4048053559024822,-27);(6078245545770855,-28);(9212769436217627,-29);(14092893518835581,-30);(193421667571414,-29);(30184188481996443,-32);(2393918396847994,-31);(3642919299551295,-32)], (29212962962962963,-17), (29421296296296295,-17));
  ([(2860388317887753,-16);(7887981700325456,-18);(35002791393559315,-20);(29884657820819505,-21);(3199334514061153,-21);(38386783914393097,-23);(4936325074221537,-23);(6651310417368772,-24);(9268703131393163,-25);(13248275219923666,-26);(19316418256587475,-27);(28617264807850873,-28);(42971702585159477,-29);(6502437477351464,-29);(9985068327722502,-30);(14536982728685643,-31);(2463307335887066,-31);(3937822290467352,-31);(13877787807814457,-33)], (29421296296296295,-17), (2952546296296296,-16));
  ([(2997208026355501,-16);(5638316441575676,-18);(24697716181993484,-20);(21117785516101134,-21);(22613802245774473,-22);(2713593515168977,-22);(34897480762768884,-24);(4702349017116081,-24);(6552976390683529,-25);(9366720593595446,-26);(13657262820654381,-27);(2023738815415399,-27);(30388191962771316,-29);(45428938388880624,-30);(7004813395994347,-30);(8222589276130066,-31);(16653345369377348,-32);(35041414214731503,-32);(1214306433183765,-32)], (2952546296296296,-16), (295775462962963,-15));
  ([(3094842337937238,-16);(4015403659434553,-18);(17445598394503006,-20);(14927612592627315,-21);(1598722008659681,-21);(1918530815638031,-22);(24673554175486112,-24);(33247667709235262,-25);(4633306065204845,-25);(6622874818007496,-26);(9656650479250573,-27);(14308033924326224,-28);(21489754420400686,-29);(32085445411667024,-30);(4933553565678039,-30);(3157196726277789,-31);(10408340855860843,-32);(35735303605122226,-32);(-3469446951953614,-33)], (295775462962963,-15), (29603587962962963,-17));
  ([(3164300310090633,-16);(2852942467447068,-18);(12329521096597976,-20);(10553674902311072,-21);(11303556508510115,-22);(1356510815030132,-22);(1744588605176456,-23);(235086013503083,-23);(3276116843087262,-25);(46828395328102346,-27);(68279583376185116,-28);(10120272675440134,-28);(1523364767663793,-28);(22915697117653622,-30);(34208746946262636,-31);(5169475958410885,-31);(-5898059818321144,-32);(10755285551056204,-32);(11275702593849246,-32)], (29603587962962963,-17), (29616608796296295,-17));
  ([(3213616216197866,-16);(2023925878183369,-18);(8716056319137827,-20);(7461958998724455,-21);(7992427072528452,-22);(95916427661491,-21);(12335767528987018,-24);(1662271934682602,-24);(2316522806911081,-25);(33113272540630234,-27);(4828210747875872,-27);(7152750614025649,-28);(10757367219227376,-29);(16459056340067946,-30);(24875934645507414,-31);(-28796409701215,-29);(1734723475976807,-32);(40245584642661925,-32);(8673617379884035,-33)], (29616608796296295,-17), (2962311921296296,-16));
  ([(32485857647079686,-17);(14343498375109544,-19);(6162399381036757,-20);(527618390287754,-20);(5651359926105159,-22);(6782196385404782,-23);(8722585830706064,-24);(11753904828604167,-25);(16380142034422285,-26);(23414967881274507,-27);(34141717231150892,-28);(5062547603351675,-28);(7616823838318965,-29);(11230599783473849,-30);(17832957333041577,-31);(37470027081099033,-32);(6938893903907228,-33);(-2185751579730777,-31);(-4336808689942018,-32)], (2962311921296296,-16), (296263744212963,-15));
  ([(3273360915970311,-16);(10158203926102366,-19);(4357198950115382,-20);(37307483612414316,-22);(39960656192036814,-23);(4795694848874765,-23);(6167757533870333,-24);(8311230384472346,-25);(11582474909732632,-26);(16557578225162572,-27);(2414311806031577,-27);(3581648866379794,-28);(539950029132541,-28);(8791578576250458,-30);(12351231148954867,-31);(-8847089727481716,-31);(-11102230246251565,-32);(-5551115123125783,-31);(-7112366251504909,-32)], (296263744212963,-15), (29628002025462963,-17));
  ([(3290903207332936,-16);(7190748744181456,-19);(3080907898764598,-20);(26380102197860744,-22);(28256276604285424,-23);(3391053608747807,-23);(43612495316536215,-25);(5876913573843456,-25);(8189969188943103,-26);(11706732805372155,-27);(17067146307336856,-28);(2552090483387559,-28);(3920475055707584,-29);(29976021664879227,-31);(10408340855860843,-32);(-27755575615628914,-32);(-4891920202254596,-31);(8708311849403572,-31);(5863365348801608,-31)], (29628002025462963,-17), (29628815827546295,-17));
  ([(3303319160946099,-16);(5088500431879688,-19);(2178496652304948,-20);(18653452835380724,-22);(1998014318195518,-22);(239783138934746,-22);(30838626687013093,-25);(41555842447693614,-26);(5791174831348833,-26);(82747732277344,-25);(12066458943138514,-28);(17669546381604562,-29);(27006175074006933,-30);(543315392675936,-29);(8916478666520788,-31);(13530843112619095,-31);(-5898059818321144,-32);(-20643209364124004,-31);(-20990154059319366,-32)], (29628815827546295,-17), (2962922272858796,-16));
  ([(3312104361553831,-16);(3600037890292736,-19);(15404176808297282,-21);(13189948922485983,-22);(1412807293793561,-22);(1695521050990023,-23);(21806181235706212,-25);(29384080932337575,-26);(4094972624879567,-26);(585331783042875,-26);(8538031393001688,-28);(1289766904388756,-28);(1903685542536948,-29);(-11622647289044608,-31);(9367506770274758,-32);(-26020852139652106,-32);(5551115123125783,-32);(9957312752106873,-31);(5551115123125783,-32)], (2962922272858796,-16), (296294261791088,-15));
  ([(331831931854538,-15);(25465693727301855,-20);(10892355242906465,-21);(9326690283938122,-22);(9990048491226311,-23);(11989139896140255,-24);(1541930194637331,-24);(20778642001451075,-26);(28956680803160495,-27);(4138932252484295,-27);(6032882526874062,-28);(8537268114672258,-29);(13461454173580023,-30);(3986394547794703,-30);(4787836793695988,-31);(-26020852139652106,-32);(-27755575615628914,-32);(-2789435349370706,-30);(-27755575615628914,-32)], (296294261791088,-15), (29629527904369213,-17));
  ([(33254766786859097,-17);(5250329541100184,-19);(10585696841291029,-20);(45948894997410034,-21);(25987955723599104,-21);(16924206122436586,-21);(12054006867219524,-21);(9143024898339985,-21);(7271484406146805,-21);(60039811284016975,-22);(5112767082184055,-21);(4469487214910778,-21);(3997564041510054,-21);(36492975524389515,-22);(3394053607587433,-21);(32118298484914987,-22);(30896085961538977,-22);(30192461833444817,-22);(14981339496820262,-22)], (29629527904369213,-17), (2962962962962963,-16))].
(** [SRK_p], lines 1308-1461 *)
Definition raw_SRK_p : raw := [
  ([(29225473692726744,-29);(4846211782171669,-28);(2824570002653489,-28);(11955110559200177,-29);(3771710795961595,-29);(9009392578047045,-30);(16354246747926244,-31);(22297564454973646,-32);(21977303354380907,-33);(14079420760456038,-34);(3645901247485968,-35);(-23224668904548756,-37);(-21119277731077838,-38);(13269831236005753,-40);(7111685153229056,-40);(20749322108366765,-43);(-2355803670950289,-42);(189511506527704,-43);(-1203321029253145,-44)], (20267685653535945,-18), (2596797224359293,-17));
  ([(442411833611544,-25);(6486786260066829,-26);(28834316573742172,-27);(849036232570771,-26);(17382606171711586,-28);(2519225194793423,-28);(25510836572731127,-30);(1688802065855514,-30);(5658115744876586,-32);(-7526264008617426,-34);(-13472892665001768,-35);(-9922698129701787,-37);(26795301476514526,-38);(22940832430296035,-40);(-5789860391087721,-40);(11649897848303902,-42);(2589988124021626,-41);(5472801416061292,-41);(2268132874691453,-41)], (2596797224359293,-17), (3166825883364991,-17));
  ([(13403609277725988,-24);(20613817317201788,-24);(9908855672700315,-24);(31242347660239074,-25);(6566525761190694,-25);(8934527720041564,-26);(6864947922093292,-27);(10961157691701013,-29);(-2552558822185046,-29);(-10755067059569204,-31);(11595758568473605,-32);(4364935105515505,-33);(-6518267188981206,-34);(-2420947626615306,-36);(33222352209999887,-37);(-14160136552428753,-38);(-10359144702519558,-39);(30017608947725106,-40);(-11502980393315541,-40)], (3166825883364991,-17), (4306883201376388,-17));
  ([(36266120105336493,-22);(540530078063072,-20);(23535707621866956,-22);(609797026711632,-21);(8755959081374292,-23);(44744907993962915,-25);(-4067655714209484,-25);(-3591728379118743,-26);(4465366516258063,-27);(16493814952480902,-29);(-53226243319885286,-30);(17922687946152793,-31);(4005718486965302,-31);(-4988684915276682,-32);(4789814152406683,-34);(4147268524381617,-34);(-4591183271914325,-35);(4350970022028926,-37);(-10629270871306406,-37)], (4306883201376388,-17), (6586997837399182,-17));
  ([(3094297409003984,-19);(4117661948641284,-19);(1333784156235523,-19);(1953127675250332,-20);(44650824621707415,-23);(-1245752753612688,-22);(61713045177982556,-25);(8457787641085228,-25);(-2019178315130611,-25);(1671511339141844,-26);(7461694230598466,-28);(-4260132318823111,-28);(6171897036311516,-29);(-3212145765269425,-30);(-5836180885150665,-31);(1719715110942645,-31);(-2147440279526465,-32);(8273394312306379,-34);(234734005507848,-33)], (6586997837399182,-17), (1114722710944477,-16));
  ([(74771598568592074,-19);(8244590094104293,-18);(17465545422224592,-19);(9786738241774412,-20);(-6516977077872878,-21);(32958650511163794,-23);(15363696321735632,-24);(-720353161771562,-23);(12861343701874766,-25);(-16587511786082245,-26);(15108394000934097,-27);(-36747905743763146,-29);(-233340277167645,-27);(7039936125372015,-29);(-13651690997269761,-30);(2071300487897776,-30);(-245029690981724,-30);(215485181781494,-31);(14026865606531214,-34)], (1114722710944477,-16), (20267685653535944,-17))].
(** [SRK_rhoL], lines 1462-1965 *)
Definition raw_SRK_rhoL : raw := [
  ([(9087646203247287,-16);(-50607640245558645,-18);(-8181930140446145,-19);(-3676466126572436,-20);(-18153449552124612,-22);(-42148973304623194,-24);(8967883102783958,-24);(5813281384048352,-25);(-3659740635542086,-25);(-4441783746367278,-26);(15951594212193498,-27);(17195689316906737,-28);(-9141229440068344,-28);(-14432899320127035,-30);(50730253331465747,-30);(-6987466161234579,-30);(-18318679906315083,-31);(15126788710517758,-31);(-1734723475976807,-32)], (20267685653535945,-18), (6586997837399182,-17));
  ([(7992363370107459,-16);(-59445681918569984,-18);(-14502328603496623,-19);(-7138164945971748,-20);(-32189087307149533,-22);(-2486464586864967,-22);(-24319133658246006,-24);(-1044768556390796,-24);(-13343107174712543,-26);(-1679712618996021,-26);(22661039711380226,-29);(-16726897644758765,-29);(-10783041126671833,-30);(14363510381087963,-31);(-40245584642661925,-32);(-728583859910259,-30);(-485722573273506,-31);(7632783294297951,-31);(1734723475976807,-32)], (6586997837399182,-17), (1114722710944477,-16));
  ([(6649628598972782,-16);(-760521559973085,-16);(-2952854145734922,-18);(-2237665443423284,-19);(-22837440018151633,-21);(-27674939431024392,-22);(-35249351108129767,-23);(-4743986068561634,-23);(-6602545343792343,-24);(-9417646246179245,-25);(-137257025190074,-24);(-2031076695718781,-26);(-30466879019641624,-28);(-4624911564832246,-28);(-7074202335033419,-29);(-11532441668293814,-30);(-17277845820728999,-31);(3885780586188048,-31);(-242861286636753,-31)], (1114722710944477,-16), (15707456381490356,-17));
  ([(5358548459176075,-16);(-51616853474821534,-18);(-19014483430589563,-19);(-1522452155350712,-19);(-16138121186740073,-21);(-19310179919518333,-22);(-24780931559553743,-23);(-33348723178783235,-24);(-464304821673478,-23);(-6632207977252946,-25);(-9664995193059411,-26);(-14312308282971031,-27);(-21472545963518996,-28);(-3260794412263124,-28);(-4987676938128516,-29);(-8229528170033973,-30);(-12004286453759505,-31);(3469446951953614,-31);(-20816681711721685,-33)], (15707456381490356,-17), (1798757101751315,-16));
  ([(4485732937583308,-16);(-3477837295500611,-17);(-128197185101675,-17);(-10638749439246392,-20);(-11344133512683485,-21);(-13588779068512968,-22);(-17457610832632975,-23);(-2350823218033593,-23);(-32744967258524493,-25);(-4678942372438044,-25);(-6820332146273422,-26);(-10101888076041732,-27);(-15157701482859665,-28);(-2302880108828731,-28);(-3522182545623309,-29);(-5863365348801608,-30);(-8500145032286355,-31);(30878077872387166,-32);(-19081958235744878,-33)], (1798757101751315,-16), (19127628335524546,-17));
  ([(3896887959074917,-16);(-2352363480040463,-17);(-8864377996999455,-19);(-748085471366268,-19);(-7994798847377887,-21);(-9585173595394458,-22);(-12320694868853121,-23);(-16596597669088498,-24);(-2312318735792074,-24);(-33046667832770105,-26);(-4817745855034694,-26);(-7136409518881948,-27);(-10708690878491467,-28);(-1627031842588167,-28);(-2490022077417109,-29);(-4173744683200198,-30);(-593275428784068,-30);(30184188481996443,-32);(-1214306433183765,-32)], (19127628335524546,-17), (19697656994530244,-17));
  ([(3497350745917645,-16);(-16032294782450524,-18);(-6202549276113981,-19);(-5274770800074019,-20);(-5643402364315098,-21);(-6769284142359167,-22);(-870356488269497,-22);(-117262048994482,-22);(-16339517863728226,-25);(-23353845593487854,-26);(-3404898932246603,-26);(-504390973432578,-26);(-7568771998034407,-28);(-11509196373715724,-29);(-17600504387260685,-30);(-3084338340286763,-30);(-4440892098500626,-31);(28449465006019636,-32);(-3469446951953614,-33)], (19697656994530244,-17), (19982671324033094,-17));
  ([(3224124351709759,-16);(-11013634884520482,-18);(-43639529901024973,-20);(-3724427437728703,-20);(-3986980578418037,-21);(-4783591501592022,-22);(-6151332742135307,-23);(-8288353604141152,-24);(-11549863634940927,-25);(-16508804739912009,-26);(-24069971710227733,-27);(-35656928798477594,-28);(-5350303533546708,-28);(-8137934770502397,-29);(-12437967322753707,-30);(-2203098814490545,-30);(-3157196726277789,-31);(25673907444456745,-32);(0,0)], (19982671324033094,-17), (20125178488784518,-17));
  ([(30358578390142943,-17);(-76188736955520135,-19);(-3078315487315582,-19);(-26316343990171603,-21);(-28179719795684566,-22);(-3381439433146338,-22);(-4348579207141823,-23);(-58595724626575585,-25);(-8165597746578879,-25);(-11671785066225127,-26);(-1701778301610446,-26);(-25209348497590156,-28);(-37829808730016623,-29);(-5745404152435185,-29);(-8739536871971154,-30);(-15508427875232655,-31);(-19081958235744878,-32);(2671474153004283,-31);(-3642919299551295,-32)], (20125178488784518,-17), (2019643207116023,-16));
  ([(29052982685479933,-17);(-5300319842511697,-18);(-21741216965811758,-20);(-18601576619783206,-21);(-199216392636134,-20);(-2390659452899957,-22);(-30745310054813846,-24);(-4142926245120915,-24);(-5773458308655499,-25);(-8252584726697876,-26);(-12032597140887447,-27);(-17825428633155838,-28);(-2674006849279209,-28);(-4087702398791748,-29);(-6238065619612598,-30);(-12177758801357186,-31);(-1457167719820518,-31);(35735303605122226,-32);(1214306433183765,-32)], (2019643207116023,-16), (20232058862348087,-17));
  ([(281429493928621,-15);(-370348431999927,-17);(-15364397898540855,-20);(-13150855018025098,-21);(-1408515659318682,-21);(-16903172642135367,-23);(-21738876799376472,-24);(-2929343496937964,-24);(-40822773633708564,-26);(-5835245481256024,-26);(-8508027615761193,-27);(-12602800747441023,-28);(-18902587828328876,-29);(-2898029038966854,-29);(-43923198411732756,-31);(-683481049534862,-30);(-728583859910259,-31);(6210310043996969,-31);(3642919299551295,-32)], (20232058862348087,-17), (20249872257942014,-17));
  ([(27506157036291856,-17);(-25962448144549836,-19);(-10861133767400138,-20);(-9298192002037131,-21);(-9959154303774975,-22);(-11951873122098555,-23);(-15371233163044562,-24);(-20713067025446286,-25);(-2886544493013732,-25);(-41260670227694085,-27);(-6015958564642432,-27);(-8912228594004645,-28);(-13355809513893036,-29);(-19872992140790302,-30);(-30531133177191805,-31);(-7181755190543981,-31);(-8500145032286355,-32);(296637714392034,-30);(26020852139652106,-34)], (20249872257942014,-17), (2025877895573898,-16));
  ([(2705926697847878,-16);(-18244565862979688,-19);(-7678880274703502,-20);(-6574507803324206,-21);(-704198907909917,-21);(-8451082581135971,-23);(-10868935571006766,-24);(-14646166258958093,-25);(-20410736989440181,-26);(-29175961993588295,-27);(-4253862886938187,-27);(-6296716620335374,-28);(-9435334458185451,-29);(-1411544492402328,-29);(-21076890233118206,-31);(11622647289044608,-32);(-13877787807814457,-33);(20816681711721685,-32);(-6071532165918825,-33)], (2025877895573898,-16), (20263232304637463,-17));
  ([(26744977424244143,-17);(-12843645575066134,-19);(-54294008668638594,-21);(-46487705078930575,-22);(-4979368752669466,-22);(-597575837875397,-22);(-7685439108034986,-24);(-1035633939716618,-24);(-14432471884262554,-26);(-20630074037963908,-27);(-30077728502275747,-28);(-4461934294264225,-28);(-6715808464896611,-29);(-10720591081536668,-30);(-14190038033490282,-31);(-4440892098500626,-31);(18735013540549517,-32);(8378714388967978,-31);(-1214306433183765,-31)], (20263232304637463,-17), (20265458979086703,-17));
  ([(2652360092057196,-16);(-9053089022688643,-19);(-3839029629034568,-20);(-32871387625962867,-22);(-35209208477243736,-23);(-42254784272249823,-24);(-5434404972901041,-24);(-732300850167511,-24);(-10205274299235345,-26);(-1458767828754759,-26);(-2126882003850028,-27);(-3151055805172831,-28);(-4713764101271778,-29);(-7455841499748317,-30);(-11188966420050406,-31);(-42500725161431774,-32);(-19081958235744878,-33);(40072112295064244,-32);(1734723475976807,-32)], (20265458979086703,-17), (20266572316311324,-17));
  ([(2636749575957985,-16);(-6387083278175353,-19);(-27145557162256556,-21);(-2324344536088624,-21);(-24896583217942636,-23);(-29878569729469007,-24);(-38426970945526495,-25);(-5178131846916845,-25);(-721618736987395,-25);(-10313611076284701,-27);(-15037519840443991,-28);(-22252685805135286,-29);(-3314015728506092,-29);(-3944761184371259,-30);(-74593109467002705,-32);(-1061650767297806,-30);(-728583859910259,-31);(31051550219984847,-32);(-8673617379884035,-34)], (20266572316311324,-17), (20267128984923632,-17));
  ([(26257329202514273,-17);(-4509124480249222,-19);(-19194637512940163,-21);(-16435549859191573,-22);(-17604512139550443,-23);(-211273140666296,-22);(-27171948059623308,-25);(-36615067228185083,-26);(-51026160727274394,-27);(-7291847681223373,-27);(-10631721197862376,-28);(-1570323732158485,-28);(-23507237822961713,-30);(-4498137973207861,-30);(-5672545766444159,-31);(38163916471489756,-32);(-11622647289044608,-32);(-15334955527634975,-31);(-16046192152785466,-32)], (20267128984923632,-17), (20267407319229788,-17));
  ([(261795381349911,-15);(-31848138784485065,-20);(-13572598294689722,-21);(-11621671743376055,-22);(-12448259038670695,-23);(-1493926039992932,-23);(-1921346123867629,-24);(-25890705378228684,-26);(-36080990625797504,-27);(-51575497345135446,-28);(-7518204808709683,-28);(-11052617154838629,-29);(-16753959330984003,-30);(-5920611223508843,-30);(-8795048023202412,-31);(-28033131371785203,-31);(-15265566588595902,-32);(1177877240188252,-30);(8153200337090993,-32)], (20267407319229788,-17), (20267546486382865,-17));
  ([(2612458584790565,-16);(-22501920934304802,-20);(-9597255076118291,-21);(-8217756914414426,-22);(-8802244447041196,-23);(-10563647579939217,-24);(-1358598145442813,-24);(-183071792100864,-24);(-2551181141341452,-26);(-3646784263455771,-27);(-5306519113013053,-28);(-7894206122127656,-29);(-13612375115990005,-30);(-13461454173580023,-31);(7650130529057719,-31);(-1474514954580286,-31);(6262351748276274,-31);(-39517000782751666,-31);(-1343543332144037,-30)], (20267546486382865,-17), (20267616069959404,-17));
  ([(26061394134803445,-17);(-4632477727018712,-19);(-9327071115945024,-20);(-4048564047778869,-20);(-22898027861414927,-21);(-14911944355367607,-21);(-10620804294449865,-21);(-8055933548379093,-21);(-64069163156280085,-22);(-5290117203090791,-21);(-4504867114365346,-21);(-3938072224525177,-21);(-35222599736994126,-22);(-32154018167716847,-22);(-2990505978434088,-21);(-28299483429503752,-22);(-27222590090695414,-22);(-2660262590837778,-21);(-13200081928170515,-22)], (20267616069959404,-17), (20267685653535944,-17))].
(** [SRK_rhoV], lines 1966-2544 *)
Definition raw_SRK_rhoV : raw := [
  ([(1147791769634607,-26);(18883400952870644,-27);(10781377594967363,-27);(4424169417038083,-27);(1340057930622405,-27);(30392837657011474,-29);(51611350145284516,-30);(6429591419258869,-30);(5526656713208219,-31);(26838869757647005,-33);(-7144055741834159,-35);(-9585729650435423,-35);(-32421103573493004,-37);(25635377164771786,-38);(15013435876237105,-39);(-8328903877850174,-40);(-5167748904012326,-41);(32366962941218114,-43);(-1163964265653603,-42)], (20267685653535945,-18), (2596797224359293,-17));
  ([(14330520293934438,-25);(20653900997266785,-25);(8861422337329386,-25);(2484390807063457,-25);(4771871094962088,-26);(63539423424235915,-28);(5695290133656733,-28);(3041636735038608,-29);(4618066754497384,-31);(-4882537910833838,-32);(-22626929302787274,-34);(7735800358738017,-35);(5494308515884454,-36);(-19098299796206625,-38);(-10551803468236254,-39);(9358288473073072,-40);(8243533350687156,-40);(18130926610110065,-40);(6625926732877158,-40)], (2596797224359293,-17), (3166825883364991,-17));
  ([(3216589566610815,-22);(4855615137205529,-22);(22313237230527845,-23);(6564126429055284,-23);(12457975717948848,-24);(14356027589196413,-25);(7456366737354983,-26);(-26879017209951425,-28);(-4739337426481451,-28);(7722229482544613,-30);(25616030504147617,-31);(-7662739526444225,-32);(-11817890172164798,-33);(8184648689324978,-34);(2707129500338779,-35);(-57904193842360474,-37);(14315394475995835,-38);(8504450672810816,-38);(-24996364135586805,-39)], (3166825883364991,-17), (4306883201376388,-17));
  ([(57939913777071644,-21);(8379335832127809,-20);(3377936608738917,-20);(7637987852998414,-21);(8302628510075688,-22);(14927574593586637,-25);(-6691320992196064,-24);(12878253547929106,-26);(7094465860674562,-26);(-50660797908678295,-28);(-4994533593074178,-28);(9317691594005963,-29);(-1768263545468354,-30);(-8453117101310306,-31);(9273541699666695,-32);(-50145673966434665,-35);(-7953374676921863,-34);(8536503921547246,-35);(-1495542547495874,-35)], (4306883201376388,-17), (6586997837399182,-17));
  ([(31631846269420103,-19);(3982211787182989,-18);(11297528144810199,-19);(12650572507611033,-20);(-52717473574936,-20);(-14260061216196563,-23);(13326423389224526,-23);(-809481292393274,-23);(-478981067790718,-24);(3091240719345703,-25);(-40682128710022676,-27);(15201595949913826,-28);(6298290797186528,-28);(-15266145620318645,-29);(16769319426449512,-30);(21858532236844475,-33);(-3670075175840268,-31);(7421194464073827,-32);(-68516495103400354,-34)], (6586997837399182,-17), (1114722710944477,-16));
  ([(2527054526018694,-17);(1958885465789757,-17);(29253705571776014,-19);(22445447854577003,-20);(21127284490167714,-21);(2925789705565077,-21);(3436409961475248,-22);(47523257336800576,-24);(665800338960857,-23);(932793360239846,-24);(13817232769183438,-26);(2024545819618445,-26);(3049514308607615,-27);(4623933614472664,-28);(7069220426050848,-29);(10914066959216706,-30);(16929274822274909,-31);(28888566885876266,-32);(4003416521902725,-32)], (1114722710944477,-16), (15707456381490356,-17));
  ([(6954212908713689,-17);(23253617876107757,-18);(18817558019952863,-19);(15099612130791773,-20);(16119981407421245,-21);(19323965214038813,-22);(2477548253195308,-22);(33350354563480705,-24);(46430122303299515,-25);(6632208966045328,-25);(9665026374713892,-26);(14312801378119078,-27);(21476913129869768,-28);(325807089640584,-27);(49888478764748,-27);(7651431571664702,-30);(11947907940790259,-31);(240692882291782,-30);(23635607360183997,-33)], (15707456381490356,-17), (1798757101751315,-16));
  ([(11419041805449423,-17);(20521580327712844,-18);(12740772212567466,-19);(1062161198180098,-19);(11343925939054193,-21);(13588982222490983,-22);(17457566693114546,-23);(23508239255405627,-24);(3274496806517091,-24);(4678940377506047,-25);(682035469767861,-25);(10102339971507224,-27);(15161908187288908,-28);(23003040444669054,-29);(3523483588230292,-29);(53507545616504615,-31);(8448103328007051,-31);(2393918396847994,-31);(20816681711721685,-33)], (1798757101751315,-16), (19127628335524546,-17));
  ([(15165818890499952,-17);(16369427376503674,-18);(8840770152282037,-19);(7478700795372859,-20);(799480167670754,-20);(958517782677533,-21);(12320694370814012,-23);(1659659774975314,-23);(23123189231422092,-25);(33046648403867174,-26);(4817769534010141,-26);(71368752921352474,-28);(10712420533964817,-28);(16248200701562965,-29);(24886342986363275,-30);(3694961003830599,-30);(5924080670460796,-31);(21337098754514727,-32);(17780915628762273,-33)], (19127628335524546,-17), (19697656994530244,-17));
  ([(1808715039787546,-16);(124478423701576,-16);(6196163285778558,-19);(52745024120972456,-21);(5643402899935257,-21);(6769284248055868,-22);(8703564869511071,-23);(11726204920264882,-24);(16339519685187875,-25);(2335382477680614,-25);(340492009587301,-25);(5044305251278303,-27);(7572241444986361,-28);(11483695938618865,-29);(17590096046404824,-30);(25847379792054426,-31);(4198030811863873,-31);(23765711620882257,-32);(3469446951953614,-33)], (19697656994530244,-17), (19982671324033094,-17));
  ([(202815039861727,-15);(921945969494375,-17);(43622961797678585,-20);(37243939807177565,-21);(3986980621388872,-21);(4783591503864509,-22);(6151332734329051,-23);(828835361281477,-23);(1154986554313675,-24);(16508787566149596,-26);(24070209367343942,-27);(35661248259932776,-28);(535387706390722,-27);(811677114409548,-28);(12444906216657614,-30);(17468665403086447,-31);(28102520310824275,-32);(23071822230491534,-32);(6938893903907228,-33)], (19982671324033094,-17), (20125178488784518,-17));
  ([(2189498032807097,-16);(6721284919406446,-18);(3077893762559753,-19);(26316302236593578,-21);(2817971982508813,-21);(3381439431966726,-22);(43485791989886224,-24);(5859572497352028,-24);(8165599741510876,-25);(116717652903775,-24);(1701801546905024,-26);(25213789389688657,-28);(37863462365450573,-29);(5725107887766256,-29);(8748210489351038,-30);(10911410663894117,-31);(1682681771697503,-31);(2237793284010081,-31);(3209238430557093,-32)], (20125178488784518,-17), (2019643207116023,-16));
  ([(23065921854671798,-17);(4851398420450417,-18);(21740153263174328,-20);(18601571405155864,-21);(19921639265139957,-22);(23906594516856505,-23);(3074531000103742,-23);(4142926290223725,-24);(5773459800517688,-25);(8252565471267292,-26);(12032836532727131,-27);(17829522580559143,-28);(2677597726874481,-28);(4066538772384831,-29);(6241535066564552,-30);(7580741590018647,-31);(13530843112619095,-32);(15612511283791264,-32);(-9540979117872439,-33)], (2019643207116023,-16), (20232058862348087,-17));
  ([(23908612939229767,-17);(34789916333673055,-19);(15364130799821497,-20);(13150854366506329,-21);(14085156592926612,-22);(16903172630859664,-23);(2173887675774311,-23);(29293435507143917,-25);(40822789593164543,-26);(5835226572770136,-26);(8508240986748739,-27);(12606964083783367,-28);(18938843548976791,-29);(28749572167363624,-30);(4397524011601206,-30);(25847379792054426,-32);(45102810375396984,-33);(-9540979117872439,-32);(-2862293735361732,-32)], (20232058862348087,-17), (20249872257942014,-17));
  ([(24511730390452105,-17);(2483990450115506,-18);(1086106684613404,-19);(9298191920630028,-21);(9959154303011697,-22);(11951873112384104,-23);(1537123309712507,-23);(20713067459127155,-25);(28865461930427383,-26);(4126050022479344,-26);(6016184078694309,-27);(8916461319286029,-28);(1339206523454095,-28);(19670029494101016,-30);(30687258290029718,-31);(26020852139652106,-32);(7112366251504909,-32);(20296264668928643,-32);(-8673617379884035,-34)], (20249872257942014,-17), (2025877895573898,-16));
  ([(24941782042567914,-17);(17683273954829087,-19);(7678863526062486,-20);(657450779313444,-20);(7041989078648142,-22);(845108257072763,-22);(1086893550855672,-23);(14646166571208319,-25);(20410752775423813,-26);(29175781582346794,-27);(4254084931543112,-27);(6301330984781472,-28);(9470722817095378,-29);(1391421700080997,-29);(2114627917215728,-30);(-5585809592645319,-31);(-1214306433183765,-32);(28622937353617317,-32);(3469446951953614,-33)], (2025877895573898,-16), (20263232304637463,-17));
  ([(2524765215536145,-16);(12562994595141843,-19);(5429396677408306,-20);(4648770506642322,-21);(4979368752443952,-22);(5975758369559936,-23);(7685439031707153,-24);(10356339657374702,-25);(14432488711080271,-26);(20629898830892834,-27);(30079948948324997,-28);(44662190612498875,-29);(6752064185544526,-29);(10500281200087613,-30);(14103301859691442,-31);(-1734723475976807,-32);(-18908485888147197,-32);(-34867941867133823,-32);(12663481374630692,-32)], (20263232304637463,-17), (20265458979086703,-17));
  ([(2546481887862289,-16);(8912762275735033,-19);(3839028581376948,-20);(3287138762469652,-21);(35209208471866094,-23);(4225478415602335,-23);(5434404913920443,-24);(732300886596704,-24);(102052919934148,-24);(14587508284646944,-27);(21270849664967173,-28);(31551150581066167,-29);(4750713711310084,-29);(7212980213111564,-30);(11084883011491797,-31);(-6591949208711867,-32);(1734723475976807,-33);(9367506770274758,-32);(-9540979117872439,-33)], (20265458979086703,-17), (20266572316311324,-17));
  ([(2561881913448183,-16);(6316919590384738,-19);(27145554542667982,-21);(23243445360920933,-22);(24896583211350687,-23);(29878569618446704,-24);(3842697030367881,-24);(5178132280597714,-25);(7216204023219319,-26);(10313451481724911,-27);(15039688244788962,-28);(22294839585601522,-29);(3350444921501605,-29);(3740063814205996,-30);(7407269242420966,-31);(5967448757360216,-31);(6591949208711867,-32);(18908485888147197,-32);(-7806255641895632,-33)], (20266572316311324,-17), (20267128984923632,-17));
  ([(2572793323524821,-16);(44740425577668823,-20);(1919463685796409,-20);(16435549859573212,-22);(17604512135387107,-23);(21127313966015637,-24);(2717194729634498,-24);(3661506878943621,-25);(51026320321834184,-27);(729169849500444,-26);(10634045727320185,-28);(15748687076655443,-29);(23859386688585005,-30);(4270889197854899,-30);(5672545766444159,-31);(-8448103328007051,-31);(971445146547012,-31);(20105445086571194,-31);(1448494102440634,-31)], (20267128984923632,-17), (20267407319229788,-17));
  ([(2580519807368856,-16);(3167272897560327,-19);(13572598130872846,-21);(11621671743965861,-22);(12448259037282916,-23);(14939260268090337,-24);(1921346066621754,-24);(2589070850073094,-25);(36081145016186866,-27);(5157388405230279,-27);(7520546685402252,-28);(11097546492866428,-29);(17126924878319016,-30);(567774993687209,-29);(8673617379884035,-31);(23071822230491534,-31);(143982048506075,-30);(-6661338147750939,-31);(-7892991815694472,-32)], (20267407319229788,-17), (20267546486382865,-17));
  ([(2585988724599927,-16);(22414215980744862,-20);(9597255035097285,-21);(8217756915021579,-22);(8802244440969664,-23);(10563647474121085,-24);(1358598076053874,-24);(18307183026478047,-26);(25511984885762118,-27);(3646605586937746,-27);(5308739559062303,-28);(7936012957898697,-29);(1395758508770939,-29);(11587952819525071,-31);(-7546047120499111,-31);(-30704605524789486,-32);(-6401129626354418,-31);(44374226515486725,-31);(13426759704060487,-31)], (20267546486382865,-17), (20267616069959404,-17));
  ([(2592290354916159,-16);(46237072283881325,-20);(9327071111846566,-20);(404856404778442,-19);(22898027861355946,-21);(14911944355256584,-21);(10620804294380476,-21);(8055933548441543,-21);(64069163158222975,-22);(529011720291038,-20);(4504867114601269,-21);(39380722249553884,-22);(3522259974053296,-21);(3215401816561783,-21);(29905059784306187,-22);(2829948342482,-18);(27222590090452553,-22);(266026259132697,-20);(13200081928118473,-22)], (20267616069959404,-17), (20267685653535944,-17))].
(** [PR_p], lines 2546-2699 *)
Definition raw_PR_p : raw := [
  ([(42115936784941,-27);(7082139279778615,-29);(4281441668412217,-29);(19123012372347713,-30);(6460328562307523,-30);(16765603431288853,-31);(336292637163962,-30);(51860921648633566,-33);(60107675456840275,-34);(493726813515645,-33);(24083621285564296,-36);(947616424537102,-37);(-71051225501406,-36);(-30677436333050444,-40);(14628333292452202,-41);(12639227645878215,-42);(-38533659659909825,-44);(-35261080979808146,-45);(332550323497344,-44)], (1701444200703503,-17), (21799753821513633,-18));
  ([(8938956773181632,-27);(13439327305351806,-27);(6288329039800055,-27);(19826748553822934,-28);(4414511850216345,-28);(7088859014953733,-29);(8181698505611952,-30);(6527653757029151,-31);(3162152136162365,-32);(4279990806191533,-34);(-46206272928403434,-36);(-20797341030133568,-37);(6177896652744867,-38);(47788231227984526,-40);(-13861706054362575,-41);(-14215273512082633,-42);(-1669229675447661,-42);(4487040828897115,-42);(77150596530614955,-44)], (21799753821513633,-18), (26585065635992236,-18));
  ([(4085507279084059,-24);(6410401559266648,-24);(3231824978266208,-24);(10923069013593605,-25);(252024445187971,-24);(3905509723141962,-26);(373471874979177,-26);(15022634999916855,-29);(-812601770161866,-29);(-9644616840775853,-31);(23559108130823366,-33);(4723565049544365,-33);(-16713754821230258,-35);(-19677138009092646,-36);(14426017766021298,-37);(3847561149043651,-38);(-10404785039052024,-39);(13764802380765226,-40);(4620579202932928,-40)], (26585065635992236,-18), (3615568926494944,-17));
  ([(16349625391332918,-22);(2489669257624972,-21);(11427314989998866,-22);(32189532774728283,-23);(52973211090187104,-24);(3881322341579814,-24);(-1402363237723129,-25);(-326068965484856,-25);(15764214067874998,-28);(2669115963311214,-28);(-26973487736840458,-30);(-11725895938982276,-31);(3409623244140794,-31);(-13374770488526952,-33);(-21340688015269687,-34);(30499875924358835,-35);(-9006032316747658,-36);(5945360652724886,-38);(7708806321111372,-37)], (3615568926494944,-17), (5529693652286385,-17));
  ([(18641763706717313,-20);(2549265195801485,-19);(8796517801636943,-20);(14493063101704085,-21);(593659937733161,-21);(-8865727397666071,-23);(15453090824947498,-25);(10034143700587606,-25);(-1473603817532662,-25);(4333381441536222,-27);(1903659250210749,-27);(-3854457196096114,-28);(29156300395036635,-30);(22880752244019054,-31);(-9628463327642823,-31);(12770440460045229,-32);(-4453540417985501,-33);(-16186270226437646,-34);(36149778002037437,-35)], (5529693652286385,-17), (9357943103869266,-17));
  ([(5448712641404622,-18);(62362159058999755,-19);(1443947803998351,-18);(10960884095892343,-20);(-2254571049831034,-21);(3108042103893788,-22);(3183233642737454,-23);(-63983755658182065,-25);(11291747205506315,-25);(-1183401464725808,-25);(7412891426996499,-27);(792415429334923,-27);(-36369037393225306,-29);(7890138331101762,-29);(-1258085161656014,-29);(15166023276634577,-31);(-10518116325825,-29);(-6600080725005508,-33);(55294310796760726,-34)], (9357943103869266,-17), (1701444200703503,-16))].
(** [PR_rhoL], lines 2700-3203 *)
Definition raw_PR_rhoL : raw := [
  ([(9207205305399191,-16);(-45064618991104796,-18);(-10750229061558397,-19);(-4150471723450566,-20);(-20449656082804912,-22);(-8411570305566496,-23);(2630701059769258,-24);(7618859571012493,-25);(-12385135972348138,-26);(-4380963647410141,-26);(36138314563061158,-28);(20083795737591004,-28);(-2442004931602071,-28);(-8769374115757955,-29);(20539125955565396,-30);(14155343563970746,-31);(-14502288259166107,-31);(9645062526431047,-31);(485722573273506,-31)], (1701444200703503,-17), (5529693652286385,-17));
  ([(8199443180127295,-16);(-56330799734005496,-18);(-18219491199177318,-19);(-8821642822268161,-20);(-43808005871781575,-22);(-27804292488525784,-23);(-25617864357618814,-24);(-14936050521385802,-25);(-11656688808647786,-26);(-180864212495635,-25);(-34572344986827375,-29);(-7897849041427207,-29);(-19761969838327786,-30);(10269562977782698,-31);(-15265566588595902,-32);(-791033905045424,-30);(-27755575615628914,-33);(8049116928532385,-31);(20816681711721685,-33)], (5529693652286385,-17), (9357943103869266,-17));
  ([(6880146598953387,-16);(-7711229066058617,-17);(-36751053290779087,-19);(-27023163542316125,-20);(-2612667202559621,-20);(-30579327836427472,-22);(-3869841956188891,-22);(-5180305783641925,-23);(-7196452149471622,-24);(-10250969587066727,-25);(-1492256387902735,-25);(-22068007143882795,-27);(-33078817462950383,-28);(-5018416238122825,-28);(-7670947210769441,-29);(-12490009027033011,-30);(-1887379141862766,-30);(35388358909926865,-32);(-27755575615628914,-33)], (9357943103869266,-17), (13186192555452148,-17));
  ([(5539049274549523,-16);(-5513150079759916,-17);(-226486529446273,-17);(-17169038790523783,-20);(-1771968913242411,-20);(-21044071880221837,-22);(-26937613983174513,-23);(-3620174487267702,-23);(-5035860249635871,-24);(-7188804967972473,-25);(-10471176703497065,-26);(-15500455086137066,-27);(-23248417080345973,-28);(-35293989952833726,-29);(-5399847236020605,-29);(-8854028621385623,-30);(-12975731600306517,-31);(28449465006019636,-32);(-45102810375396984,-33)], (13186192555452148,-17), (1510031728124359,-16));
  ([(459674826377972,-15);(-3799561202969537,-17);(-14593552334729865,-19);(-11667442436243125,-20);(-12328894690105674,-21);(-14734787574105512,-22);(-189107481913392,-21);(-25449463390836424,-24);(-35434242970366903,-25);(-5061691760177567,-25);(-7376567759398434,-26);(-10923841692322966,-27);(-16389077595047041,-28);(-2489328188026718,-28);(-3807371085073896,-29);(-6283168429987995,-30);(-9055256544598933,-31);(30531133177191805,-32);(-22551405187698492,-33)], (1510031728124359,-16), (16057379644139308,-17));
  ([(39512265522451157,-17);(-25874636107352526,-18);(-981657847521144,-18);(-8126867623134762,-20);(-8658142312312905,-21);(-10370940123176353,-22);(-13324415930673905,-23);(-1794336704219468,-23);(-24994516144294376,-25);(-35715819884929445,-26);(-520629060696276,-25);(-7711369737206653,-27);(-1157088314052146,-27);(-17580381594939354,-29);(-26891683324592464,-30);(-4472117121068209,-30);(-6314393452555578,-31);(2636779683484747,-31);(-1734723475976807,-32)], (16057379644139308,-17), (1653591082558717,-16));
  ([(3511712698170222,-16);(-1762984199424723,-17);(-6775212105428925,-19);(-5710620124233304,-20);(-6102283057512342,-21);(-7316593272181648,-22);(-9405098579107207,-23);(-12669533731163307,-24);(-17652206779628088,-25);(-25228212227612623,-26);(-367796765265993,-25);(-5448200918189983,-27);(-8175543575461575,-28);(-12424436479641088,-29);(-18981344274138223,-30);(-3202299536653186,-30);(-4440892098500626,-31);(3191891195797325,-31);(-3122502256758253,-32)], (1653591082558717,-16), (167751764163111,-15));
  ([(3211597705559426,-16);(-12077354670507117,-18);(-47368246685701096,-20);(-40264768868699535,-21);(-4308027496135319,-21);(-5167712383395695,-22);(-6644526837421005,-23);(-8952242693677226,-24);(-1247437774604121,-24);(-17829611051456418,-26);(-25995025576541764,-27);(-38507357025263644,-28);(-5778121037192108,-28);(-8784639682346551,-29);(-13433698597964394,-30);(-2373101715136272,-30);(-3365363543395006,-31);(12836953722228372,-32);(-22551405187698492,-33)], (167751764163111,-15), (16894809211673065,-17));
  ([(30054357607263954,-17);(-8327461617588218,-18);(-33318306039584883,-20);(-28432365464115678,-21);(-3043795371863306,-21);(-3652042762300467,-22);(-4696313324337176,-23);(-63279062684218346,-25);(-8818025996892853,-25);(-1260411150449947,-25);(-18376970084554856,-27);(-27223640008955385,-28);(-40846839799435486,-29);(-6197126145579546,-29);(-9492406860545088,-30);(-17208456881689926,-31);(-2393918396847994,-31);(25673907444456745,-32);(-8673617379884035,-33)], (16894809211673065,-17), (16954625609354046,-17));
  ([(2862916733850893,-16);(-5776207912322414,-18);(-23501417597186075,-20);(-20091122712718318,-21);(-2151427414113366,-21);(-2581648955793381,-22);(-3320061314066036,-23);(-4473697898244033,-24);(-6234334853916224,-25);(-89112786594292,-24);(-12992894954377832,-27);(-19243946713931592,-28);(-28871002810682,-26);(-43874626154405405,-30);(-67133798520302435,-31);(-12906342661267445,-31);(-15612511283791264,-32);(30878077872387166,-32);(1734723475976807,-33)], (16954625609354046,-17), (16984533808194538,-17));
  ([(2763847311775531,-16);(-4026323535076086,-18);(-16598517183828362,-20);(-14201795987777571,-21);(-1520984803850961,-21);(-18252416650321734,-23);(-23473785675659498,-24);(-31630968764378986,-25);(-4408004100620033,-25);(-6300811088155722,-26);(-9186814503570062,-27);(-13607726057074387,-28);(-20409195167214733,-29);(-3113134749987978,-29);(-4758346494604382,-30);(-9957312752106873,-31);(-1682681771697503,-31);(-2445960101127298,-31);(-42500725161431774,-33)], (16984533808194538,-17), (16999487907614785,-17));
  ([(2694673741877153,-16);(-28173393805495644,-19);(-11730308752334363,-20);(-1004050356021198,-20);(-10753911961810386,-22);(-1290548921391993,-22);(-16597556396977242,-24);(-2236546208650436,-24);(-31168101606582344,-26);(-44551562092265407,-27);(-6495835119801896,-27);(-9626032609899582,-28);(-14432725847779437,-29);(-2216109240560371,-29);(-33948538424866115,-31);(-10026701691145945,-31);(-15092094240998222,-32);(-27582103268031233,-32);(-47704895589362195,-33)], (16999487907614785,-17), (17006964957324908,-17));
  ([(264620888720384,-15);(-1977082335539313,-18);(-82923124407136,-18);(-7099113954002478,-21);(-7603784178723816,-22);(-9125234246010194,-23);(-11735920570424274,-24);(-1581440811637691,-24);(-22038751899822184,-26);(-31502528016758014,-27);(-4593121022411495,-27);(-6799057844508738,-28);(-10198439315267649,-29);(-16341095143701523,-30);(-2426878142891553,-30);(-6210310043996969,-31);(-5898059818321144,-32);(4527628272299467,-31);(13010426069826053,-33)], (17006964957324908,-17), (17010703482179967,-17));
  ([(2612166158875983,-16);(-1390391541082515,-18);(-5862766135761137,-20);(-5019621645544273,-21);(-5376553057923755,-22);(-6452400296876049,-23);(-8298434496858964,-24);(-11182347825489103,-25);(-1558359847414481,-25);(-2227549741884438,-26);(-3247855109855813,-27);(-4816719939571001,-28);(-7213847574849552,-29);(-11423154089307275,-30);(-17156415177410622,-31);(-5048045315092509,-31);(-7632783294297951,-32);(-9367506770274758,-32);(-3209238430557093,-32)], (17010703482179967,-17), (170125727446075,-15));
  ([(2588208891336881,-16);(-9793198302267478,-19);(-4145328900037257,-20);(-35493342854138465,-22);(-38017496464121114,-23);(-4562495321824844,-23);(-5867838735740261,-24);(-7907071299800839,-25);(-11019215748198086,-26);(-15751122628415715,-27);(-2296527551459704,-27);(-34033192930493783,-29);(-51030360492809734,-30);(-9162809400109495,-30);(-12975731600306517,-31);(-4354155924701786,-31);(-13010426069826053,-32);(-8690964614643804,-31);(-9107298248878237,-32)], (170125727446075,-15), (17013507375821263,-17));
  ([(25713261899860995,-17);(-6905565301747237,-19);(-2931094851913764,-20);(-2509732105073978,-21);(-2688226164813262,-22);(-3226156955644932,-23);(-4149175109394165,-24);(-5591129538518036,-25);(-7791681362612213,-26);(-11135805819129097,-27);(-16232518801340134,-28);(-240765740677773,-27);(-3687848637579094,-29);(-5707240235963695,-30);(-4597017211338539,-31);(-12160411566597418,-31);(2203098814490545,-31);(-12923689896027213,-31);(-5828670879282072,-31)], (17013507375821263,-17), (17013974691428146,-17));
  ([(2559417264393482,-16);(-4873303221206906,-19);(-20725636255014904,-21);(-17746393138461797,-22);(-1900857017015506,-22);(-22812321970669402,-24);(-2933903902810342,-24);(-39535087530129243,-26);(-55095764756041277,-27);(-7875578661442617,-27);(-11483054090932754,-28);(-17132302521094545,-29);(-25521251778570786,-30);(-44114017994090204,-31);(-629704621779581,-30);(-30184188481996443,-32);(18561541192951836,-32);(2534430998402115,-30);(1951563910473908,-31)], (17013974691428146,-17), (17014208349231588,-17));
  ([(2551010899484165,-16);(-3441099749644915,-19);(-1465512048574695,-20);(-1254856211765562,-21);(-13441067886650615,-23);(-1613073148838684,-23);(-20745819472034466,-25);(-27955775715182707,-26);(-3895907554896105,-26);(-5572540692777572,-27);(-8118037492232943,-28);(-1156644224842296,-28);(-17319479184152442,-30);(-6123573870198129,-31);(-6765421556309548,-32);(15838025335668249,-31);(25326962749261384,-32);(156472057533108,-29);(11622647289044608,-32)], (17014208349231588,-17), (1701432517813331,-16));
  ([(25450739757424595,-17);(-2430797888991077,-19);(-10362693722733643,-21);(-8873161782604194,-22);(-950426266178167,-22);(-11406137241307124,-24);(-14669526513660935,-25);(-1976803373771041,-25);(-2754695430096099,-26);(-3937652287566706,-27);(-5726478319312278,-28);(-8348009783443189,-29);(-15083420623618338,-30);(-28484159475539172,-31);(9280770596475918,-31);(-8326672684688674,-32);(10928757898653885,-31);(-19723805921856297,-31);(-14632392519864368,-31)], (1701432517813331,-16), (1701438359258417,-16));
  ([(25382485353286033,-17);(-5003082472470298,-19);(-10070946646463866,-20);(-4371453981542178,-20);(-2472424034292986,-20);(-16101233343186055,-21);(-11467857101349344,-21);(-8698427342242881,-21);(-6917894183581727,-21);(-57120257463023905,-22);(-4864148734601281,-21);(-4252149622345491,-21);(-3803174641357071,-21);(-3471843289028567,-21);(-32290110822119633,-22);(-30556483156078673,-22);(-29393703138338306,-22);(-28724294233051922,-22);(-1425284251615512,-21)], (1701438359258417,-16), (1701444200703503,-16))].
(** [PR_rhoV], lines 3204-3807 *)
Definition raw_PR_rhoV : raw := [
  ([(1967544593078315,-27);(3286395018856467,-27);(1951259019068106,-27);(8480414006053818,-28);(27638255525455143,-29);(6855112175816157,-29);(12987941190221208,-30);(18596645822713178,-31);(19425469025161906,-32);(13440422453482796,-33);(41371292677837237,-35);(-20472087922962698,-36);(-23984414514408427,-37);(-10726839771583605,-39);(8190099610752978,-39);(14834694490433158,-41);(-2890640271333655,-41);(-12318556073091862,-44);(26437933681383566,-44)], (1701444200703503,-17), (21799753821513633,-18));
  ([(34427283919277603,-26);(510033605480091,-24);(23125713682061785,-26);(697923116109859,-25);(1468781950176213,-26);(2192555878654968,-27);(2289969778559488,-28);(1563184655125417,-29);(5345224322369889,-31);(-8665670712890633,-33);(-14805111905363385,-34);(-12881526260516941,-36);(31913825586258806,-37);(40303951255023627,-39);(-7672322324660242,-39);(-2068961273341252,-40);(-490734591919887,-40);(1348005514841665,-40);(24183319910455338,-42)], (21799753821513633,-18), (26585065635992236,-18));
  ([(11651253109754791,-23);(1799247246805057,-22);(8718524363492525,-23);(27723805947266338,-24);(5859084478366607,-24);(7937371730144063,-25);(5851825200412916,-26);(35459917618408365,-29);(-2840460099622861,-28);(-9001110583611441,-30);(1453688138264624,-30);(4153752300772462,-32);(-8493292717205814,-33);(10460073661948098,-36);(44932489647971677,-36);(-21592128174018962,-37);(-16723265540349414,-38);(645330124762073,-37);(1344814730252227,-38)], (26585065635992236,-18), (3615568926494944,-17));
  ([(3098979961669226,-20);(45977523083262384,-21);(19714735728750365,-21);(49340743435473964,-22);(6495334627828851,-22);(20013065084957464,-24);(-462369606718499,-23);(-16742776075828521,-26);(56102600385966035,-27);(-21810195956609656,-29);(-6246733592709029,-28);(4045717710917202,-29);(397102187587516,-29);(-721043417103846,-30);(19805582453051167,-33);(4946315069940491,-33);(-6192935810062008,-34);(564732747802203,-34);(12579762755706445,-36)], (3615568926494944,-17), (5529693652286385,-17));
  ([(5902854802776641,-19);(6119857879876187,-19);(137226493734894,-18);(13534511317666194,-21);(25757985750152563,-23);(-30381140235968494,-24);(14660600077037917,-25);(14064389556322658,-26);(-17247649444289924,-27);(4829482286631236,-28);(7904912957394129,-29);(-9965950794102972,-30);(3496086138144762,-31);(3581424707580633,-32);(-57462715141731735,-34);(5929230630780102,-35);(6776263578034403,-36);(5166900978251232,-34);(11858461261560205,-36)], (5529693652286385,-17), (7443818378077825,-17));
  ([(34551514866857118,-19);(2398865145025046,-18);(3121082643740536,-19);(15218984619397858,-21);(9690936261096291,-23);(12913919961681083,-24);(14096536882115922,-25);(-33114702454217944,-27);(2594155481248396,-27);(16231949866250123,-29);(-13332379904945624,-30);(10818033751788803,-31);(-13362791775883842,-33);(-22497195079074217,-34);(-9486769009248164,-35);(-12197274440461925,-34);(-2303929616531697,-34);(36591823321385775,-34);(39979955110402976,-35)], (7443818378077825,-17), (9357943103869266,-17));
  ([(20288628115803765,-18);(16610099415744563,-18);(272192651625002,-17);(2394799179501481,-19);(23315294231581688,-21);(3169727025417485,-21);(3793923939678003,-22);(5156601162595916,-23);(7275292876224738,-24);(10148922060279446,-25);(15007760583319457,-26);(2202715483970441,-26);(33070396464676688,-28);(5021763712330374,-28);(7666279720416891,-29);(11847890290378471,-30);(1843794214528849,-30);(31604493327952454,-32);(4651227319962814,-32)], (9357943103869266,-17), (13186192555452148,-17));
  ([(59633242372117805,-18);(21523786193835045,-18);(1926244019335927,-18);(16436263238290855,-20);(17587241022322224,-21);(2103887459802955,-21);(2692872191701126,-22);(36202589339100893,-24);(5035822049290206,-24);(7188798449749012,-25);(10471208969353718,-26);(15500948181285112,-27);(23252866646061854,-28);(35267275211303684,-29);(53994569232385103,-30);(8295447662121092,-30);(12962721174236691,-31);(2658463726934457,-31);(3230922474006803,-32)], (13186192555452148,-17), (1510031728124359,-16));
  ([(10209461339960167,-17);(20078909930632285,-18);(13564703941337276,-19);(11554892995170075,-20);(12319437775788929,-21);(14734155808103153,-22);(18910621422518065,-23);(25449462346532892,-24);(35434243221901807,-25);(506168969585663,-24);(7376593953722921,-26);(10924287516256292,-27);(16393041438189648,-28);(24869169223951104,-29);(3807978238290488,-29);(5776629175002768,-30);(9063930161978817,-31);(2411265631607762,-31);(20383000842727483,-33)], (1510031728124359,-16), (16057379644139308,-17));
  ([(1393729010835231,-16);(16593251298797226,-18);(9532795808090732,-19);(8111304465426971,-20);(8657481578122454,-21);(1037091311451195,-21);(1332441384432198,-22);(1794336703699051,-23);(24994517905038705,-25);(3571580193054147,-25);(52063129848956,-24);(7711812959054765,-27);(1157456075429053,-27);(17556355674797075,-29);(2688300970721258,-29);(39968028886505635,-31);(6323067069935462,-31);(22985086056692694,-32);(15178830414797062,-33)], (16057379644139308,-17), (1653591082558717,-16));
  ([(1692940156782449,-16);(12902057653797903,-18);(6700678810102369,-19);(57085725788112024,-21);(6102239057614867,-21);(7316592307484576,-22);(9405098538861623,-23);(1266953380749114,-23);(17652208635782207,-25);(25228192451764997,-26);(3677991071426856,-26);(5448613782377265,-27);(8179099758587327,-28);(1240327285323417,-28);(18984813721090177,-30);(27564756033271465,-31);(4215378046623641,-31);(20122792321330962,-32);(2688821387764051,-32)], (1653591082558717,-16), (167751764163111,-15));
  ([(1921856564900402,-16);(969084706538421,-17);(4717724978338892,-19);(4026214237729843,-20);(4308024652975584,-21);(5167712350106352,-22);(6644526831522946,-23);(8952242742249483,-24);(12474379341986808,-25);(17829594398111048,-26);(2599524762114669,-26);(3851164179224931,-27);(5781538442439782,-28);(8762435221854048,-29);(13431963874488417,-30);(1915134717478395,-30);(32612801348363973,-32);(32439329000766293,-32);(23418766925686896,-33)], (167751764163111,-15), (16894809211673065,-17));
  ([(2092148975305195,-16);(7128445272373621,-18);(3326996220906972,-19);(28432032853142192,-21);(3043795191084303,-21);(3652042760392271,-22);(46963133177452265,-24);(6327906323932986,-24);(8818027766310799,-25);(12604095198098797,-26);(18377181720818925,-27);(27227942123175808,-28);(4087806482200307,-28);(6178738076734192,-29);(9485467966641181,-30);(12732870313669764,-31);(2237793284010081,-31);(23418766925686896,-32);(7806255641895632,-33)], (16894809211673065,-17), (16954625609354046,-17));
  ([(22166645905817658,-17);(5175245300316345,-18);(2348925657099949,-19);(20091080864132957,-21);(21514274026867425,-22);(2581648954613769,-22);(33200613073006147,-24);(4473697952020461,-24);(6234336501903526,-25);(8911260965249745,-26);(1299311526425928,-26);(19248335564325814,-28);(28905870752549134,-29);(4368554129552393,-29);(6711645128554267,-30);(8378714388967978,-31);(15265566588595902,-32);(18214596497756474,-32);(-26020852139652106,-34)], (16954625609354046,-17), (16984533808194538,-17));
  ([(23067150083801227,-17);(3725476879880729,-18);(16595467496789695,-20);(14201790739628434,-21);(15209848030911521,-22);(18252416639913394,-23);(23473785595862218,-24);(31630968937851334,-25);(44080058700379787,-26);(63007946082827,-24);(9187020935663703,-27);(13611941435121011,-28);(20445450887862648,-29);(309127723419067,-28);(4751407600700475,-30);(5238864897449957,-31);(1491862189340054,-31);(7042977312465837,-31);(4163336342344337,-32)], (16984533808194538,-17), (16999487907614785,-17));
  ([(237137473422725,-15);(26668244973612407,-19);(11729545148811069,-20);(1004050290311434,-20);(10753911961168539,-22);(1290548920437895,-22);(1659755634146609,-23);(22365462572226935,-25);(3116811773951067,-25);(4455141290604647,-26);(6496051960236393,-27);(9630022473894329,-28);(1446689990025618,-28);(21937313077202703,-30);(33931191190106347,-31);(5412337245047638,-31);(13357370765021415,-32);(7268491364342822,-31);(4597017211338539,-32)], (16999487907614785,-17), (17006964957324908,-17));
  ([(24175815792274802,-17);(19018019777060826,-19);(8292121391923792,-20);(70991138717956676,-22);(7603784178359524,-22);(9125234237510049,-23);(117359205131784,-22);(15814408688835657,-25);(22038768553167554,-26);(3150234934023999,-26);(4593327454505136,-27);(6803307917024881,-28);(1023348072948238,-28);(16110376921396607,-30);(24338170367954604,-31);(15265566588595902,-32);(3122502256758253,-32);(3642919299551295,-32);(-13877787807814457,-33)], (17006964957324908,-17), (17010703482179967,-17));
  ([(24504950305352938,-17);(1352745629684961,-18);(5862718355055703,-20);(5019621635323282,-21);(5376553057160477,-22);(6452400284732984,-23);(8298434437878366,-24);(1118234846733679,-24);(15583615474434875,-26);(2227533782428459,-26);(3248068480843358,-27);(4820623067391949,-28);(7248195099673893,-29);(11211517825238104,-30);(17034984534092246,-31);(6418476861114186,-32);(6591949208711867,-32);(5533767888366015,-31);(2949029909160572,-32)], (17010703482179967,-17), (170125727446075,-15));
  ([(2473887591484516,-16);(9604954409799197,-19);(41453169525423536,-21);(35493342841735193,-22);(38017496460478195,-23);(45624953119369205,-24);(5867838671555492,-24);(7907071629398299,-25);(11019232575015803,-26);(15750949156068117,-27);(2296747861341153,-27);(3407586712800281,-28);(5137903991148107,-29);(893209117780458,-29);(12923689896027213,-31);(-6938893903907228,-33);(11796119636642288,-32);(13270634591222574,-31);(9627715291671279,-32)], (170125727446075,-15), (17013507375821263,-17));
  ([(2490487922516141,-16);(6811439771107868,-19);(29310918647461326,-21);(2509732104961221,-21);(26882261645530536,-23);(3226156947144787,-23);(4149175027862162,-24);(5591129972198905,-25);(7791697148595844,-26);(1113566183708059,-26);(16234808636328424,-28);(2411647270772477,-28);(3721675745360642,-29);(5479991460610734,-30);(4753142324176451,-31);(7563394355258879,-31);(-22724877535296173,-32);(17572748811645056,-31);(5733261088103347,-31)], (17013507375821263,-17), (17013974691428146,-17));
  ([(2502255658692596,-16);(4826239559720131,-19);(20725628786679925,-21);(1774639313863527,-21);(19008570164603944,-23);(22812321890872123,-24);(2933903833421403,-24);(3953508978526976,-25);(55095907003366307,-27);(7875412127988923,-27);(11485309231451524,-28);(17173241995127597,-29);(25854318685958333,-30);(4182418300580082,-30);(6245004513516506,-31);(-14224732503009818,-32);(-19255430583342559,-32);(-2048708425128609,-30);(-20036056147532122,-32)], (17013974691428146,-17), (17014208349231588,-17));
  ([(25105914278296176,-17);(34175676948506976,-20);(14655118618528765,-21);(12548562118210732,-22);(13441067884568947,-23);(16130731377364538,-24);(20745818743450606,-25);(27955778143795573,-26);(3895922473517999,-26);(5572348138471739,-27);(8120119160404116,-28);(11612238948188747,-29);(17666423879347803,-30);(40072112295064244,-32);(5724587470723463,-32);(-20209528495129803,-31);(-2723515857283587,-31);(-10651202142497596,-31);(-11188966420050406,-32)], (17014208349231588,-17), (1701432517813331,-16));
  ([(25164930534191154,-17);(2419031805581083,-19);(10362693255834554,-21);(887316178307257,-21);(950426266022042,-22);(1140613715977512,-23);(14669525750382606,-25);(1976803529896154,-25);(27547124303861636,-27);(3937477080495633,-27);(5728750807065808,-28);(8391204397995011,-29);(15444243106621514,-30);(26229018956769323,-31);(-9194034422677078,-31);(-35735303605122226,-32);(-10928757898653885,-31);(24494295480792516,-31);(14641066137244252,-31)], (1701432517813331,-16), (1701438359258417,-16));
  ([(2523294961628807,-16);(4991316351717207,-19);(100709465997776,-18);(437145398154426,-19);(2472424034286394,-20);(16101233343113197,-21);(11467857101271281,-21);(8698427342246351,-21);(6917894183770812,-21);(5712025746135857,-21);(4864148734845877,-21);(4252149622756621,-21);(380317464170922,-20);(34718432888186657,-22);(3229011082201555,-21);(3055648315165513,-21);(29393703138234223,-22);(2872429423783976,-21);(14252842516137773,-22)], (1701438359258417,-16), (1701444200703503,-16))].
