(** The tables of coefficients of the correlation integrals, taken over mechanically from
    [include/teqp/models/saft/correlation_integrals.hpp].  The entries are in the order of the file; a
    std::map made from a list keeps the first entry with a key. *)
From Coq Require Import Reals ZArith List.
From Verif Require Import GERG_tables.
Import ListNotations.
Local Open Scope Z_scope.
(** [Luckas_J_coeffs], lines 19-32 *)
Definition luckas_J : list (nat * list dnum) :=
  [(4%nat, [d_ (-138410152) 8; d_ (-705792933) 9; d_ 260947023 8; d_ 196828333 7; d_ 113619510 7; d_ (-298510490) 7; d_ (-315686398) 7; d_ (-200943290) 7; d_ 511029320 7; d_ 144194150 7; d_ 940061069 8; d_ (-236844608) 7]);
   (5%nat, [d_ (-689702637) 9; d_ (-162382602) 9; d_ 116302441 8; d_ 142067443 7; d_ 459642681 8; d_ (-181421003) 7; d_ (-245012804) 7; d_ (-842839734) 8; d_ 325579587 7; d_ 116339969 7; d_ 400080085 8; d_ (-154419815) 7]);
   (6%nat, [d_ (-457433648) 9; d_ (-474592642) 10; d_ 736156406 9; d_ 119830560 7; d_ 252201906 8; d_ (-140252699) 7; d_ (-215154325) 7; d_ (-469572629) 8; d_ 259035512 7; d_ 104390419 7; d_ 224160266 8; d_ (-124580635) 7]);
   (7%nat, [d_ (-346551277) 9; d_ (-867899015) 11; d_ 541729996 9; d_ 107102246 7; d_ 158762511 8; d_ (-119085356) 7; d_ (-198486869) 7; d_ (-298067526) 8; d_ 225425086 7; d_ 979650295 8; d_ 142953263 8; d_ (-109749041) 7]);
   (8%nat, [d_ (-285932401) 9; d_ 744866141 11; d_ 435471488 9; d_ 987890138 8; d_ 108489226 8; d_ (-106280961) 7; d_ (-188507949) 7; d_ (-204803671) 8; d_ 206131402 7; d_ 944834359 8; d_ 988551760 9; d_ (-101576036) 7]);
   (9%nat, [d_ (-250931500) 9; d_ 149604396 10; d_ 371768229 9; d_ 929877256 8; d_ 784100755 9; d_ (-978235175) 8; d_ (-182609129) 7; d_ (-148667167) 8; d_ 194537822 7; d_ 928527644 8; d_ 724545266 9; d_ (-970374243) 8]);
   (10%nat, [d_ (-230585563) 9; d_ 186890174 10; d_ 331660880 9; d_ 888275358 8; d_ 590996555 9; d_ (-919786291) 8; d_ (-179530632) 7; d_ (-112502567) 8; d_ 187717642 7; d_ 925235661 8; d_ 555909350 9; d_ (-947729033) 8]);
   (11%nat, [d_ (-219221482) 9; d_ 205982865 10; d_ 305823216 9; d_ 858399185 8; d_ 460555635 9; d_ (-878667564) 8; d_ (-178552884) 7; d_ (-880186074) 9; d_ 184146650 7; d_ 931691675 8; d_ 443027169 9; d_ (-940608814) 8]);
   (12%nat, [d_ (-213591301) 9; d_ 215809377 10; d_ 289113218 9; d_ 837291362 8; d_ 368864477 9; d_ (-849747359) 8; d_ (-179188678) 7; d_ (-707751483) 9; d_ 182906357 7; d_ 945598216 8; d_ 364636215 9; d_ (-944579903) 8]);
   (13%nat, [d_ (-211696363) 9; d_ 220767096 10; d_ 278453228 9; d_ 823384704 8; d_ 302478832 9; d_ (-830238277) 8; d_ (-181183432) 7; d_ (-582685843) 9; d_ 183497132 7; d_ 965764061 8; d_ 308765033 9; d_ (-957226243) 8]);
   (14%nat, [d_ (-212238116) 9; d_ 223157164 10; d_ 271883622 9; d_ 815208365 8; d_ 253073339 9; d_ (-817919021) 8; d_ (-184273649) 7; d_ (-489407317) 9; d_ 185502740 7; d_ 990906951 8; d_ 267965960 9; d_ (-976495200) 8]);
   (15%nat, [d_ (-214335965) 9; d_ 224240261 10; d_ 268094773 9; d_ 811899188 8; d_ 215506735 9; d_ (-811465705) 8; d_ (-188310645) 7; d_ (-418309476) 9; d_ 188679367 7; d_ 102033085 7; d_ 237674032 9; d_ (-100120648) 7])].
(** [Luckas_K_coeffs], lines 60-65 *)
Definition luckas_K : list ((nat * nat) * list dnum) :=
  [((222, 333)%nat, [d_ 123746712 10; d_ 190127007 12; d_ 592861480 11; d_ 188387469 12; d_ 151499090 9; d_ (-403661304) 11; d_ (-171653218) 9; d_ 744958473 10; d_ 461939219 9; d_ 761527540 11; d_ (-130641988) 8; d_ 763483402 9; d_ 736061418 11; d_ (-314115085) 11; d_ (-262332295) 9; d_ 299061150 9]);
   ((233, 344)%nat, [d_ 351281055 11; d_ 212654833 12; d_ 326699985 11; d_ 171420492 12; d_ 978591707 10; d_ (-324426472) 11; d_ (-985906322) 10; d_ 431053752 10; d_ 268515490 9; d_ 625909413 11; d_ (-746179517) 9; d_ 410644114 9; d_ 128223189 9; d_ (-254348393) 11; d_ (-540215100) 9; d_ 450896967 9]);
   ((334, 445)%nat, [d_ (-177119569) 11; d_ (-260437070) 12; d_ (-265044611) 11; d_ (-196937245) 12; d_ (-897801454) 10; d_ 293120169 11; d_ 877755068 10; d_ (-376799716) 10; d_ (-219892289) 9; d_ (-573110168) 11; d_ 637326406 9; d_ (-352780095) 9; d_ (-157228990) 9; d_ 204489194 11; d_ 559739399 9; d_ (-442956307) 9]);
   ((444, 555)%nat, [d_ 107862851 11; d_ 288647260 12; d_ 207369614 11; d_ 179600129 12; d_ 757084957 10; d_ (-228761197) 11; d_ (-733670248) 10; d_ 312736172 10; d_ 173518964 9; d_ 454174801 11; d_ (-514488122) 9; d_ 285483011 9; d_ 171670939 9; d_ (-107503182) 11; d_ (-551880129) 9; d_ 416887229 9])].
(** [GubbinsTwu_J_coeffs], lines 95-129 *)
Definition twu_J : list (nat * list dnum) :=
  [(4%nat, [d_ (-257431) 6; d_ 439229 6; d_ 414783 6; d_ (-457019) 6; d_ (-145520) 6; d_ 299666 6]);
   (5%nat, [d_ (-396724) 6; d_ 690721 6; d_ 628935 6; d_ (-652622) 6; d_ (-201462) 6; d_ (-231635) 6]);
   (6%nat, [d_ (-488498) 6; d_ 863195 6; d_ 761344 6; d_ (-750086) 6; d_ (-218562) 6; d_ (-538463) 6]);
   (7%nat, [d_ (-556600) 6; d_ 995172 6; d_ 852903 6; d_ (-804710) 6; d_ (-214736) 6; d_ (-761700) 6]);
   (8%nat, [d_ (-611295) 6; d_ 1103390 6; d_ 921359 6; d_ (-838804) 6; d_ (-197999) 6; d_ (-940714) 6]);
   (9%nat, [d_ (-657866) 6; d_ 1196189 6; d_ 975721 6; d_ (-862346) 6; d_ (-172526) 6; d_ (-1091678) 6]);
   (10%nat, [d_ (-698790) 6; d_ 1278054 6; d_ 1020604 6; d_ (-880027) 6; d_ (-140749) 6; d_ (-1222733) 6]);
   (11%nat, [d_ (-735855) 6; d_ 1351533 6; d_ 1058986 6; d_ (-894024) 6; d_ (-104174) 6; d_ (-1338626) 6]);
   (12%nat, [d_ (-769504) 6; d_ 1418223 6; d_ 1092052 6; d_ (-905347) 6; d_ (-63730) 6; d_ (-1442398) 6]);
   (13%nat, [d_ (-800934) 6; d_ 1479538 6; d_ 1121453 6; d_ (-914864) 6; d_ (-20150) 6; d_ (-1536070) 6]);
   (14%nat, [d_ (-829779) 6; d_ 1535822 6; d_ 1147161 6; d_ (-922381) 6; d_ 26157 6; d_ (-1621183) 6]);
   (15%nat, [d_ (-856655) 6; d_ 1587957 6; d_ 1169885 6; d_ (-928269) 6; d_ 74849 6; d_ (-1698853) 6]);
   (16%nat, [d_ (-881757) 6; d_ 1636402 6; d_ 1190082 6; d_ (-932668) 6; d_ 125590 6; d_ (-1769898) 6]);
   (17%nat, [d_ (-994998) 6; d_ 1681421 6; d_ 1207610 6; d_ (-935419) 6; d_ 178283 6; d_ (-1835070) 6]);
   (18%nat, [d_ (-926828) 6; d_ 1723393 6; d_ 1223088 6; d_ (-936667) 6; d_ 232649 6; d_ (-1894899) 6]);
   (19%nat, [d_ (-946773) 6; d_ 1762571 6; d_ 1236007 6; d_ (-936403) 6; d_ 288687 6; d_ (-1949858) 6]);
   (20%nat, [d_ (-965248) 6; d_ 1799170 6; d_ 1246887 6; d_ (-934650) 6; d_ 346207 6; d_ (-2000344) 6]);
   (21%nat, [d_ (-982191) 6; d_ 1833319 6; d_ 1255610 6; d_ (-931384) 6; d_ 405158 6; d_ (-2046682) 6]);
   (22%nat, [d_ (-997939) 6; d_ 1865462 6; d_ 1262618 6; d_ (-926907) 6; d_ 465360 6; d_ (-2089104) 6]);
   (23%nat, [d_ (-1012232) 6; d_ 1895591 6; d_ 1267649 6; d_ (-921117) 6; d_ 526812 6; d_ (-2127879) 6]);
   (24%nat, [d_ (-1025464) 6; d_ 1924001 6; d_ 1271137 6; d_ (-914236) 6; d_ 589374 6; d_ (-2163174) 6]);
   (15%nat, [d_ (-1037283) 6; d_ 1950746 6; d_ 1272812 6; d_ (-906279) 6; d_ 652984 6; d_ (-2195140) 6]);
   (16%nat, [d_ (-1048171) 6; d_ 1976055 6; d_ 1273152 6; d_ (-897398) 6; d_ 717529 6; d_ (-2223942) 6]);
   (17%nat, [d_ (-1058118) 6; d_ 2000177 6; d_ 1272334 6; d_ (-887913) 6; d_ 782867 6; d_ (-2249616) 6]);
   (18%nat, [d_ (-1067379) 6; d_ 2023204 6; d_ 1270456 6; d_ (-877745) 6; d_ 848994 6; d_ (-2272369) 6]);
   (19%nat, [d_ (-1075455) 6; d_ 2044986 6; d_ 1267349 6; d_ (-866935) 6; d_ 915713 6; d_ (-2292167) 6]);
   (30%nat, [d_ (-1683352) 6; d_ 2066474 6; d_ 1264000 6; d_ (-856364) 6; d_ 982900 6; d_ (-2309055) 6]);
   (31%nat, [d_ (-1090542) 6; d_ 2087049 6; d_ 1259912 6; d_ (-845434) 6; d_ 1050527 6; d_ (-2323154) 6]);
   (32%nat, [d_ (-1097422) 6; d_ 2107200 6; d_ 1255618 6; d_ (-834664) 6; d_ 1118425 6; d_ (-2334465) 6]);
   (33%nat, [d_ (-1104213) 6; d_ 2127189 6; d_ 1251457 6; d_ (-824397) 6; d_ 1186445 6; d_ (-2342962) 6]);
   (34%nat, [d_ (-1110868) 6; d_ 2147097 6; d_ 1247470 6; d_ (-814738) 6; d_ 1254509 6; d_ (-2348686) 6]);
   (35%nat, [d_ (-1117701) 6; d_ 2166994 6; d_ 1244047 6; d_ (-805790) 6; d_ 1322469 6; d_ (-2351658) 6]);
   (36%nat, [d_ (-1124468) 6; d_ 2186826 6; d_ 1241051 6; d_ (-797564) 6; d_ 1390261 6; d_ (-2351903) 6])].
(** [GubbinsTwu_K_coeffs], lines 148-154 *)
Definition twu_K : list ((nat * nat) * list dnum) :=
  [((222, 333)%nat, [d_ (-1050534) 6; d_ 1747476 6; d_ 1749366 6; d_ (-1999227) 6; d_ (-661046) 6; d_ (-3028720) 6]);
   ((233, 344)%nat, [d_ (-1309550) 6; d_ 2249120 6; d_ 2135877 6; d_ (-2278530) 6; d_ (-773166) 6; d_ (-3704690) 6]);
   ((334, 445)%nat, [d_ (-1490116) 6; d_ 2619997 6; d_ 2404319 6; d_ (-2420706) 6; d_ (-829466) 6; d_ (-3930928) 6]);
   ((444, 555)%nat, [d_ (-1616385) 6; d_ 2881007 6; d_ 2577600 6; d_ (-2484990) 6; d_ (-828596) 6; d_ (-4175589) 6]);
   ((666, 777)%nat, [d_ (-1940503) 6; d_ 3552034 6; d_ 2940925 6; d_ (-2593808) 6; d_ (-724353) 6; d_ (-4899975) 6])].
(** [Gottschalk_J_coeffs], lines 181-216 *)
Definition gottschalk_J : list (nat * list dnum) :=
  [(4%nat, [d_ 920762061490718 15; d_ 365233141807771 15; d_ 107871599009702 14; d_ 146531395339295 20; d_ (-313549715576067) 13; d_ (-214347171035042) 12; d_ (-446936442221474) 12; d_ (-252046886389241) 19; d_ 959476543889466 13; d_ 672066160042726 12; d_ 141943517935122 11; d_ 903007555165018 19; d_ (-958398037269371) 13; d_ (-703598871905455) 12; d_ (-151155093398986) 11; d_ (-101437944136810) 18; d_ 321143191531758 13; d_ 249283638814592 12; d_ 545458916686374 12; d_ 368350682469709 19; d_ (-733315599725484) 16; d_ 717782493862785 15; d_ (-107882642679631) 14; d_ 408068473857470 13; d_ (-232614867704771) 12; d_ 446937747749130 12; d_ (-134367887089787) 12; d_ 747459457204644 12; d_ (-141943986985120) 11; d_ 148945273699473 12; d_ (-808058129527236) 12; d_ 151155630097149 11; d_ (-559295311120630) 13; d_ 296215796243915 12; d_ (-545460908392279) 12]);
   (5%nat, [d_ 778317650769383 15; d_ 599206004305284 15; d_ 151505659599139 14; d_ 207056321821513 20; d_ (-642594369009722) 14; d_ (-677626651470902) 13; d_ (-157366926125767) 12; d_ (-237414367157603) 19; d_ 217188616679221 13; d_ 224978201318131 12; d_ 526347478618125 12; d_ 801470444174510 19; d_ (-232101308927474) 13; d_ (-252180339267828) 12; d_ (-597690123563652) 12; d_ (-870761423184869) 19; d_ 899504653938558 14; d_ 992714679182362 13; d_ 236531170237292 12; d_ 304151384860261 19; d_ (-122862207731153) 15; d_ 921021403876641 15; d_ (-151520172786190) 14; d_ 176561517446869 13; d_ (-896285624361416) 13; d_ 157368161594690 12; d_ (-605832340349862) 13; d_ 301449444216860 12; d_ (-526351643127702) 12; d_ 706451918826372 13; d_ (-345599503965135) 12; d_ 597694705736524 12; d_ (-282773060418931) 13; d_ 137292180369747 12; d_ (-236532795134605) 12]);
   (6%nat, [d_ 784353476631425 15; d_ 685720448356048 15; d_ 162670627229158 14; d_ 254936277034233 20; d_ 447099585508689 14; d_ (-329222156231796) 14; d_ (-296976509772110) 13; d_ (-234149051622900) 19; d_ (-852898508169395) 14; d_ 400527157292150 13; d_ 154598567397736 12; d_ 763141143915834 19; d_ 360780542310039 14; d_ (-797013837912071) 13; d_ (-243669064947076) 12; d_ (-812331954077934) 19; d_ 177013221710562 14; d_ 484574605762221 13; d_ 128748817040483 12; d_ 276192881583106 19; d_ (-132142877177911) 15; d_ 946992395582885 15; d_ (-162688108898392) 14; d_ 738465356236924 14; d_ (-264295672330205) 13; d_ 296988758329901 13; d_ (-293410584260195) 13; d_ 114622191952606 12; d_ (-154602540528670) 12; d_ 392213457881652 13; d_ (-164050494048192) 12; d_ 243673328746399 12; d_ (-179349649900422) 13; d_ 803201352469139 13; d_ (-128750280199986) 12]);
   (7%nat, [d_ 835923369473595 15; d_ 836677758858304 15; d_ 184012238540570 14; d_ 295158919217436 20; d_ 104308480601121 13; d_ 322575024923935 13; d_ 409254052998227 13; d_ (-235327254022092) 19; d_ (-239853372239537) 13; d_ (-560420962515534) 13; d_ (-399584884375199) 13; d_ 748886963971160 19; d_ 157078975270853 13; d_ 177837968441997 14; d_ (-734290355928896) 13; d_ (-785879121919987) 19; d_ (-634595861538581) 15; d_ 285721518805557 13; d_ 843682899717243 13; d_ 261866011224344 19; d_ (-141092601741133) 15; d_ 101019042121228 14; d_ (-184032278125301) 14; d_ 165577241238338 14; d_ 864349862727415 14; d_ (-409241683798187) 13; d_ (-126779405410039) 13; d_ 161586056544664 13; d_ 399545800444195 13; d_ 234403357454985 13; d_ (-752869363354067) 13; d_ 734331560029303 13; d_ (-132014925766845) 13; d_ 558228957439797 13; d_ (-843696689061774) 13]);
   (8%nat, [d_ 902886845403022 15; d_ 102769111500633 14; d_ 212557939856991 14; d_ 330884284588769 20; d_ 141595577197002 13; d_ 546287234614715 13; d_ 854695565374034 13; d_ (-239450498954028) 19; d_ (-330566685835116) 13; d_ (-113226935704891) 12; d_ (-156439178110236) 12; d_ 748562915203367 19; d_ 218274693649861 13; d_ 452813528223361 13; d_ 192965724535634 13; d_ (-777178698112719) 19; d_ (-125134320159995) 14; d_ 207570070759725 13; d_ 652054274304816 13; d_ 254971751898932 19; d_ (-152360182248782) 15; d_ 110529372907708 14; d_ (-212580262478853) 14; d_ (-197895351806047) 14; d_ 308158959370926 13; d_ (-854682931235780) 13; d_ (-254084976437344) 14; d_ (-431372009474484) 13; d_ 156435263043662 12; d_ 144387151344809 13; d_ (-260629616580170) 13; d_ (-192925002754545) 13; d_ (-108036294999921) 13; d_ 444740568891303 13; d_ (-652067637965638) 13]);
   (9%nat, [d_ 973284132754527 15; d_ 123293164284334 14; d_ 244074246112866 14; d_ 363479166035722 20; d_ 167174462715029 13; d_ 700224696399500 13; d_ 116158760362537 12; d_ (-245560155993759) 19; d_ (-389167327709749) 13; d_ (-150551276751452) 12; d_ (-232829635433746) 12; d_ 757063283580941 19; d_ 251319423922009 13; d_ 703700239845212 13; d_ 740030015633558 13; d_ (-779458611094211) 19; d_ (-112152974471362) 14; d_ 183362318747346 13; d_ 575828766638458 13; d_ 252616458579501 19; d_ (-164966573056078) 15; d_ 121581105616643 14; d_ (-244098645171285) 14; d_ (-449135481595610) 14; d_ 461106555959250 13; d_ (-116157461170255) 12; d_ 419260620031630 14; d_ (-822024452335543) 13; d_ 232825669933358 12; d_ 885838042849393 14; d_ 355498450267968 14; d_ (-739989203793414) 13; d_ (-953342333742628) 14; d_ 392716913729602 13; d_ (-575841953599581) 13]);
   (10%nat, [d_ 104223495309261 14; d_ 143825080362510 14; d_ 276103690296554 14; d_ 393574271718274 20; d_ 185981643581486 13; d_ 813419695160953 13; d_ 138728720569235 12; d_ (-253099431715195) 19; d_ (-430050075793111) 13; d_ (-176733223625615) 12; d_ (-286578892545430) 12; d_ 771793435354036 19; d_ 270119689230786 13; d_ 857705324061707 13; d_ 108416758911128 12; d_ (-789416678058119) 19; d_ (-683236277155773) 15; d_ 184263231085444 13; d_ 555323841570129 13; d_ 253410505830688 19; d_ (-178015204105012) 15; d_ 133132666525329 14; d_ (-276129995502810) 14; d_ (-634001495228792) 14; d_ 573603083320838 13; d_ (-138727379173325) 12; d_ 897092089417269 14; d_ (-109768331291691) 12; d_ 286574846563897 12; d_ 516781511840307 14; d_ 225676562314139 13; d_ (-108412629687972) 12; d_ (-885036010313623) 14; d_ 371308710980545 13; d_ (-555337020890003) 13]);
   (11%nat, [d_ 110792691374900 14; d_ 163731143991712 14; d_ 307487098564526 14; d_ 421496516230401 20; d_ 200467333231261 13; d_ 900564035881871 13; d_ 156102294591843 12; d_ (-261090947624051) 19; d_ (-460131645751558) 13; d_ (-196073167609769) 12; d_ (-326376103924355) 12; d_ 789041513227051 19; d_ 281092322295592 13; d_ 956633853796457 13; d_ 131144042205758 12; d_ (-802744322817779) 19; d_ (-126915685892609) 15; d_ 196987582147150 13; d_ 562497567494725 13; d_ 255720053847567 19; d_ (-191014790095454) 15; d_ 144659349566085 14; d_ (-307515161447037) 14; d_ (-776278927093104) 14; d_ 660186193114240 13; d_ (-156100909447001) 12; d_ 125327480671979 13; d_ (-130223970379329) 12; d_ 326371966219433 12; d_ 259922862413025 14; d_ 354011696824408 13; d_ (-131139848207573) 12; d_ (-848890760878314) 14; d_ 365757530391343 13; d_ (-562510821344157) 13]);
   (12%nat, [d_ 116965827151098 14; d_ 182684954264429 14; d_ 337590355645935 14; d_ 447570393432011 20; d_ 212138009901427 13; d_ 970527749736322 13; d_ 170033635519089 12; d_ (-269721000643629) 19; d_ (-483470863140914) 13; d_ (-211053209462762) 12; d_ (-357214715120972) 12; d_ 809237324473411 19; d_ 287638804086634 13; d_ 102265678511421 12; d_ 146762697829593 12; d_ (-819749133346652) 19; d_ 466540529562262 15; d_ 215508926134189 13; d_ 584309057120254 13; d_ 259551198156766 19; d_ (-203648645251421) 15; d_ 155854124315951 14; d_ (-337620049068473) 14; d_ (-890030256623619) 14; d_ 729527220254803 13; d_ (-170032204074462) 12; d_ 152987110008881 13; d_ (-146080680389506) 12; d_ 357210472279538 12; d_ 740166715063542 15; d_ 444162790393081 13; d_ (-146758421148696) 12; d_ (-831838388627907) 14; d_ 369048729652915 13; d_ (-584322464635614) 13]);
   (13%nat, [d_ 122741251262613 14; d_ 200607768864444 14; d_ 366217525098022 14; d_ 471993621739865 20; d_ 221837119231629 13; d_ 102843002826788 12; d_ 181545805943986 12; d_ (-278602888151284) 19; d_ (-502310375685327) 13; d_ (-223096518264849) 12; d_ (-381993635969731) 12; d_ 830927243141112 19; d_ 291633996205828 13; d_ 106856116529684 12; d_ 157950181764932 12; d_ (-838758403632039) 19; d_ 105183965364040 14; d_ 236267034456939 13; d_ 612949031589567 13; d_ 264271603932919 19; d_ (-215797090643057) 15; d_ 166600300876020 14; d_ (-366248736228464) 14; d_ (-983674997002390) 14; d_ 786737922217559 13; d_ (-181544327495736) 12; d_ 175203705104454 13; d_ (-158814329452900) 12; d_ 381989281673596 12; d_ (-658144132249668) 15; d_ 510118913096645 13; d_ (-157945812868646) 12; d_ (-825850046297216) 14; d_ 376932620608373 13; d_ (-612962639170733) 13]);
   (14%nat, [d_ 128136795926391 14; d_ 217495927301440 14; d_ 393312568058641 14; d_ 494955958734804 20; d_ 230103733287144 13; d_ 107754174847976 12; d_ 191292734312826 12; d_ (-287599468575202) 19; d_ (-518017710852761) 13; d_ (-233076384339011) 12; d_ (-402497725206121) 12; d_ 853538897221373 19; d_ 294109028766102 13; d_ 110162190069670 12; d_ 166249715497417 12; d_ (-859081112135040) 19; d_ 161054749645308 14; d_ 257543607281281 13; d_ 644467741484034 13; d_ 269602028502200 19; d_ (-227402921183491) 15; d_ 176845939161741 14; d_ (-393345197305170) 14; d_ (-106260178607678) 13; d_ 835086815990992 13; d_ (-191291208775564) 12; d_ 193540697775080 13; d_ (-169336536500882) 12; d_ 402493255867338 12; d_ (-174355334344535) 14; d_ 560038051703629 13; d_ (-166245248316514) 12; d_ (-826486323118825) 14; d_ 387177444531142 13; d_ (-644481580723690) 13]);
   (15%nat, [d_ 133184112043160 14; d_ 233411955421497 14; d_ 418944168237444 14; d_ 516731324264090 20; d_ 237303824327933 13; d_ 112008992709853 12; d_ 199720130274194 12; d_ (-296714731877402) 19; d_ (-531510684170641) 13; d_ (-241580594703172) 12; d_ (-419929922838367) 12; d_ 876918485912694 19; d_ 295732748319544 13; d_ 112660947956635 12; d_ 172677455554062 12; d_ (-880467759848402) 19; d_ 213229530955574 14; d_ 278289766231739 13; d_ 676406872254785 13; d_ 275422401906343 19; d_ (-238474392179090) 15; d_ 186597576117483 14; d_ (-418978130339343) 14; d_ (-113049285008236) 13; d_ 876804033551091 13; d_ (-199718557683747) 12; d_ 209055516487606 13; d_ (-178262482801280) 12; d_ 419925335987850 12; d_ (-261436031087909) 14; d_ 599311682831050 13; d_ (-172672885673652) 12; d_ (-830888096737345) 14; d_ 398373575335030 13; d_ (-676420966915220) 13]);
   (16%nat, [d_ 137901453580487 14; d_ 248364309923334 14; d_ 443091941241471 14; d_ 537094434472876 20; d_ 243666867062349 13; d_ 115748951122614 12; d_ 207112676110216 12; d_ (-305576461793678) 19; d_ (-543275345473850) 13; d_ (-248936916087072) 12; d_ (-434974202787518) 12; d_ 900026599081091 19; d_ 296720914562744 13; d_ 114551788116269 12; d_ 177690926653254 12; d_ (-901861269184086) 19; d_ 262249641751012 14; d_ 298444846757817 13; d_ 708315002966454 13; d_ 281363946146929 19; d_ (-248969513927785) 15; d_ 195826618452608 14; d_ (-443127149976078) 14; d_ (-118973355838225) 13; d_ 913321553409123 13; d_ (-207111057683681) 12; d_ 222378640022909 13; d_ (-185948413655357) 12; d_ 434969499512783 12; d_ (-332182594508186) 14; d_ 630521545817260 13; d_ (-177686253487470) 12; d_ (-837929775237224) 14; d_ 410130053060035 13; d_ (-708329362497633) 13]);
   (17%nat, [d_ 142329483453259 14; d_ 262475570057645 14; d_ 465943926111186 14; d_ 556506115419661 20; d_ 249382092559571 13; d_ 119089798855698 12; d_ 213702444971429 12; d_ (-314416830448276) 19; d_ (-553789493395123) 13; d_ (-255451174838178) 12; d_ (-448256497596161) 12; d_ 923317693026102 19; d_ 297421845700412 13; d_ 116081630763158 12; d_ 181815373684066 12; d_ (-923622863097125) 19; d_ 307591811514003 14; d_ 317481954712721 13; d_ 738956476257815 13; d_ 287520274762349 19; d_ (-258966940872702) 15; d_ 204598834858149 14; d_ (-465980313142134) 14; d_ (-124224905595897) 13; d_ 945802603003060 13; d_ (-213700781309834) 12; d_ 234060475914358 13; d_ (-192714439952910) 12; d_ 448251678005583 12; d_ (-391665385265311) 14; d_ 656450998722889 13; d_ (-181810596068440) 12; d_ (-846169967222253) 14; d_ 421738049476203 13; d_ (-738971110680682) 13]);
   (18%nat, [d_ 146487986688771 14; d_ 275781119069554 14; d_ 487538489626357 14; d_ 574996535750791 20; d_ 254583336209166 13; d_ 122112654306814 12; d_ 219651728671712 12; d_ (-323195742737464) 19; d_ (-563357051139506) 13; d_ (-261319306335556) 12; d_ (-460180008396377) 12; d_ 946717350143917 19; d_ 297994320165779 13; d_ 117376800956199 12; d_ 185330642961686 12; d_ (-945669424612126) 19; d_ 349442456105804 14; d_ 335326257808933 13; d_ 768017302249625 13; d_ 293847161043507 19; d_ (-268463742662802) 15; d_ 212917436452168 14; d_ (-487575992159887) 14; d_ (-128938060999294) 13; d_ 975058897374463 13; d_ (-219650020398230) 12; d_ 244461442153439 13; d_ (-198767823420881) 12; d_ 460175072599579 12; d_ (-442834909958787) 14; d_ 678635254606911 13; d_ (-185325759857080) 12; d_ (-854969242279573) 14; d_ 432958378698199 13; d_ (-768032220045075) 13]);
   (19%nat, [d_ 150405173892267 14; d_ 288362277605062 14; d_ 507999120667182 14; d_ 592604469473417 20; d_ 259354667120446 13; d_ 124871330132418 12; d_ 225070150153215 12; d_ (-331803958529523) 19; d_ (-572143258691467) 13; d_ (-266660318597808) 12; d_ (-470998227208669) 12; d_ 969823332012314 19; d_ 298502019141849 13; d_ 118507844507944 12; d_ 188404634917127 12; d_ (-967569683413023) 19; d_ 388017829464858 14; d_ 351947990606060 13; d_ 795302018297919 13; d_ 300198806598087 19; d_ (-277507503747319) 15; d_ 220824753246461 14; d_ (-508037679924323) 14; d_ (-133207423387379) 13; d_ 100164860226746 12; d_ (-225068398340204) 12; d_ 253825854922138 13; d_ (-204243073834176) 12; d_ 470993177045989 12; d_ (-487689306386463) 14; d_ 698048158892111 13; d_ (-188399647195429) 12; d_ (-863855507501945) 14; d_ 443625231962265 13; d_ (-795317221255379) 13]);
   (20%nat, [d_ 154100328279558 14; d_ 300266954662575 14; d_ 527393566659271 14; d_ 609415945053774 20; d_ 263774105308849 13; d_ 127413164556161 12; d_ 230052463547866 12; d_ (-340253939789074) 19; d_ (-580296287767417) 13; d_ (-271572437142480) 12; d_ (-480915654063546) 12; d_ 992650136785895 19; d_ 298960497968089 13; d_ 119506216701979 12; d_ 191119966460693 12; d_ (-989308520517353) 19; d_ 423948590715034 14; d_ 367587371963660 13; d_ 821168093762494 13; d_ 306553292389476 19; d_ (-286117565271862) 15; d_ 228340794664721 14; d_ (-527433129555286) 14; d_ (-137111418036073) 13; d_ 102604585911448 12; d_ (-230050669185087) 12; d_ 262341990192763 13; d_ (-209246463173384) 12; d_ 480910491265385 12; d_ (-527371498425266) 14; d_ 715201338963779 13; d_ (-191114875054018) 12; d_ (-872841442026995) 14; d_ 453855833744261 13; d_ (-821183582480082) 13]);
   (21%nat, [d_ 157592570589578 14; d_ 311547972422847 14; d_ 545800881302180 14; d_ 625494176916211 20; d_ 267897065333062 13; d_ 129772605783096 12; d_ 234668211999885 12; d_ (-348532484959242) 19; d_ (-587938869458270) 13; d_ (-276137463861208) 12; d_ (-490102646554326) 12; d_ 101513434300736 18; d_ 299433839785631 13; d_ 120425528261947 12; d_ 193597090633863 12; d_ (-101080902951699) 18; d_ 457295583523636 14; d_ 382198458561258 13; d_ 845450679969652 13; d_ 312880011046094 19; d_ (-294322006649778) 15; d_ 235491934678179 14; d_ (-545841399302251) 14; d_ (-140708827677293) 13; d_ 104860161603625 12; d_ (-234666376096407) 12; d_ 270166549056331 13; d_ (-213866549098823) 12; d_ 490097373030852 12; d_ (-563187740502905) 14; d_ 730763256172008 13; d_ (-193591896731791) 12; d_ (-881620676140545) 14; d_ 463531257046720 13; d_ (-845466453849704) 13]);
   (22%nat, [d_ 160900825961173 14; d_ 322261811562593 14; d_ 563308559540984 14; d_ 640891794235791 20; d_ 271778036617257 13; d_ 131982609341781 12; d_ 238983196618107 12; d_ (-356637767166591) 19; d_ (-595183465510123) 13; d_ (-280428197548586) 12; d_ (-498709135990311) 12; d_ 103725487778243 18; d_ 299962405990801 13; d_ 121302391206201 12; d_ 195920051613056 12; d_ (-103203705142104) 18; d_ 488274003230585 14; d_ 395835701434681 13; d_ 868192620501924 13; d_ 319161200049031 19; d_ (-302155352015219) 15; d_ 242309304660182 14; d_ (-563349987746288) 14; d_ (-144053694143779) 13; d_ 106964432668370 12; d_ (-238981320187964) 12; d_ 277433818239864 13; d_ (-218180465979301) 12; d_ 498703753781356 12; d_ (-596086409520159) 14; d_ 745208273809528 13; d_ (-195914756631356) 12; d_ (-890075629697048) 14; d_ 472639869823530 13; d_ (-868208677760799) 13]);
   (23%nat, [d_ 164038713895882 14; d_ 332445058086078 14; d_ 579970909018179 14; d_ 655660970751479 20; d_ 275444662037485 13; d_ 134060977872376 12; d_ 243033859600483 12; d_ (-364564701959441) 19; d_ (-602072602813393) 13; d_ (-284477338748290) 12; d_ (-506806732181542) 12; d_ 105897781956132 18; d_ 300533728654871 13; d_ 122141925779770 12; d_ 198110314541878 12; d_ (-105294628990197) 18; d_ 517188567275133 14; d_ 408614420321041 13; d_ 889564057580583 13; d_ 325376394221698 19; d_ (-309635875501101) 15; d_ 248810739270049 14; d_ (-580013206203020) 14; d_ (-147177935680668) 13; d_ 108936038184627 12; d_ (-243031943654127) 12; d_ 284217482604887 13; d_ (-222227123741384) 12; d_ 506801243420412 12; d_ (-626506736216552) 14; d_ 758699863926834 13; d_ (-198104920062177) 12; d_ (-898206738744273) 14; d_ 481236479075982 13; d_ (-889580395563038) 13]);
   (24%nat, [d_ 167020443200837 14; d_ 342140099815276 14; d_ 595853765580093 14; d_ 669840894914522 20; d_ 278930526241939 13; d_ 136028113556687 12; d_ 246861020108306 12; d_ (-372310067882982) 19; d_ (-608674314883941) 13; d_ (-288329138491471) 12; d_ (-514486861098095) 12; d_ 108028129101535 18; d_ 301168886930338 13; d_ 122964616640737 12; d_ 200215868634779 12; d_ (-107350503786213) 18; d_ 544201052505886 14; d_ 420584236016335 13; d_ 909621486648481 13; d_ 331510705847126 19; d_ (-316789437629183) 15; d_ 255019779357427 14; d_ (-595896893383638) 14; d_ (-150115277477622) 13; d_ 110795394589427 12; d_ (-246859065650477) 12; d_ 290600228510382 13; d_ (-226053697347037) 12; d_ 514481267977772 12; d_ (-655012127222298) 14; d_ 771513086649923 13; d_ (-200210376360154) 12; d_ (-905960754054550) 14; d_ 489327947879041 13; d_ (-909638102017906) 13]);
   (25%nat, [d_ 169858241893384 14; d_ 351383146424567 14; d_ 611013276702950 14; d_ 683467898952235 20; d_ 282260723811510 13; d_ 137899434180988 12; d_ 250495665645592 12; d_ (-379872472701472) 19; d_ (-615035418005373) 13; d_ (-292014997651087) 12; d_ (-521815198226679) 12; d_ 110115026954262 18; d_ 301874455538022 13; d_ 123781369053218 12; d_ 202264805180694 12; d_ (-109368981020166) 18; d_ 569487333159750 14; d_ 431809815927281 13; d_ 928457224160356 13; d_ 337552638490026 19; d_ (-323637864819024) 15; d_ 260956446748588 14; d_ (-611057199392188) 14; d_ (-152891635972671) 13; d_ 112558071003605 12; d_ (-250493673669512) 12; d_ 296643274318387 13; d_ (-229694461142809) 12; d_ 521809502974935 12; d_ (-681983772715540) 14; d_ 783819811959993 13; d_ (-202259216902342) 12; d_ (-913327374320843) 14; d_ 496941916417939 13; d_ (-928474113053343) 13]);
   (26%nat, [d_ 172563745567752 14; d_ 360209970881929 14; d_ 625505759484812 14; d_ 696570099794339 20; d_ 285457983567273 13; d_ 139688812428945 12; d_ 253965586407395 12; d_ (-387246410925688) 19; d_ (-621213639673386) 13; d_ (-295571274052985) 12; d_ (-528865880318823) 12; d_ 112156012164777 18; d_ 302690970979540 13; d_ 124620382205660 12; d_ 204316980665141 12; d_ (-111346905176455) 18; d_ 593004362769523 14; d_ 442241415079419 13; d_ 945950261097477 13; d_ 343488730725869 19; d_ (-330204068649846) 15; d_ 266641357215509 14; d_ (-625550443468109) 14; d_ (-155530041549626) 13; d_ 114237984687935 12; d_ (-253963557915779) 12; d_ 302411514738670 13; d_ (-233187194459353) 12; d_ 528860085244550 12; d_ (-708001292349848) 14; d_ 795936626624502 13; d_ (-204311298298325) 12; d_ (-920155056361779) 14; d_ 504007111658153 13; d_ (-945967419051671) 13]);
   (27%nat, [d_ 175144878776709 14; d_ 368641787224845 14; d_ 639362836684418 14; d_ 709187691162673 20; d_ 288534223106468 13; d_ 141403782933734 12; d_ 257286142056220 12; d_ (-394446465479885) 19; d_ (-627182731696133) 13; d_ (-298987216845496) 12; d_ (-535622055129294) 12; d_ 114154318922925 18; d_ 303511536400543 13; d_ 125427573823103 12; d_ 206273597894100 12; d_ (-113286738611423) 18; d_ 615485520260568 14; d_ 452262229710043 13; d_ 962814211448931 13; d_ 349323838780586 19; d_ (-336498539596946) 15; d_ 272084996005446 14; d_ (-639408251018918) 14; d_ (-158043859155848) 13; d_ 115842958993722 12; d_ (-257284077969126) 12; d_ 307901870850244 13; d_ (-236525792732876) 12; d_ 535616162370748 12; d_ (-732464484985720) 14; d_ 807416362343625 13; d_ (-206267823234276) 12; d_ (-926912587997417) 14; d_ 510853952631360 13; d_ (-962831634191737) 13]);
   (28%nat, [d_ 177612492556406 14; d_ 376714309936743 14; d_ 652642161071353 14; d_ 721334681933824 20; d_ 291509816991197 13; d_ 143056593492169 12; d_ 260481678391142 12; d_ (-401458946922934) 19; d_ (-633027205008539) 13; d_ (-302312429317197) 12; d_ (-542181737394782) 12; d_ 116105497189909 18; d_ 304446519509872 13; d_ 126267583620892 12; d_ 208262360791635 12; d_ (-115183606471112) 18; d_ 636458019057775 14; d_ 461594561850090 13; d_ 978499678764775 13; d_ 355039982827726 19; d_ (-342546475798887) 15; d_ 277309352313867 14; d_ (-652688276126928) 14; d_ (-160452823818205) 13; d_ 117385092358965 12; d_ (-260479579679392) 12; d_ 313193015603772 13; d_ (-239758669205122) 12; d_ 542175749265617 12; d_ (-756399600266558) 14; d_ 818889684253144 13; d_ (-208256495834555) 12; d_ (-933156547362775) 14; d_ 517210730790555 13; d_ (-978517361249164) 13]);
   (29%nat, [d_ 179973990990806 14; d_ 384449357672667 14; d_ 665377629753385 14; d_ 733038223636712 20; d_ 294395284203774 13; d_ 144653769106998 12; d_ 263565368442515 12; d_ (-408289841442877) 19; d_ (-638749482307467) 13; d_ (-305550781935437) 12; d_ (-548554901017772) 12; d_ 118010605554247 18; d_ 305459438326717 13; d_ 127123532397051 12; d_ 210254192877394 12; d_ (-117038022680046) 18; d_ 656229524461249 14; d_ 470393939581073 13; d_ 993290631664773 13; d_ 360636587940758 19; d_ (-348360939299576) 15; d_ 282326562370440 14; d_ (-665424417788091) 14; d_ (-162768100582765) 13; d_ 118871031857160 12; d_ (-263563236037397) 12; d_ 318298528651432 13; d_ (-242891925694370) 12; d_ 548548819764062 12; d_ (-779676471128741) 14; d_ 830234611856164 13; d_ (-210248239586332) 12; d_ (-939058648685896) 14; d_ 523205885921096 13; d_ (-993308568811239) 13]);
   (30%nat, [d_ 182236702596060 14; d_ 391869548861636 14; d_ 677605006001375 14; d_ 744319165761250 20; d_ 297201627392746 13; d_ 146202009661020 12; d_ 266550621366222 12; d_ (-414940559686928) 19; d_ (-644369141642077) 13; d_ (-308715122924687) 12; d_ (-554768243609049) 12; d_ 119869526621720 18; d_ 306550722277103 13; d_ 127998247160407 12; d_ 212257161651836 12; d_ (-118849430330246) 18; d_ 674894751211796 14; d_ 478701204861315 13; d_ 100725379889822 12; d_ 366109981179763 19; d_ (-353956514699032) 15; d_ 287149820313279 14; d_ (-677652440802723) 14; d_ (-165000787165196) 13; d_ 120307486174931 12; d_ (-266548456181876) 12; d_ 323243017280061 13; d_ (-245939410766486) 12; d_ 554762071463574 12; d_ (-802420687129143) 14; d_ 841503548412694 13; d_ (-212251122004627) 12; d_ (-944638397076602) 14; d_ 528865302800657 13; d_ (-100727198546794) 12]);
   (31%nat, [d_ 184407238906234 14; d_ 398995329128700 14; d_ 689356663998026 14; d_ 755196965273587 20; d_ 299937446782154 13; d_ 147706622054152 12; d_ 269448109863484 12; d_ (-421412852643036) 19; d_ (-649900312187145) 13; d_ (-311815042824966) 12; d_ (-560841952269530) 12; d_ 121682281168064 18; d_ 307718012775713 13; d_ 128892664219676 12; d_ 214275344390819 12; d_ (-120617453699350) 18; d_ 692544187984713 14; d_ 486556531456829 13; d_ 102045630706870 12; d_ 371457300628269 19; d_ (-359346443899873) 15; d_ 291791099876114 14; d_ (-689404720767644) 14; d_ (-167159828162184) 13; d_ 121699820562542 12; d_ (-269445912796862) 12; d_ 328045676078239 13; d_ (-248911720213124) 12; d_ 560835691449120 12; d_ (-824719562139146) 14; d_ 852727901817486 13; d_ (-214269220374457) 12; d_ (-949919768121586) 14; d_ 534215932621662 13; d_ (-102047473769496) 12]);
   (32%nat, [d_ 186491675855887 14; d_ 405845666764157 14; d_ 700662758386778 14; d_ 765690192535688 20; d_ 302610826031862 13; d_ 149172525009831 12; d_ 272267671891917 12; d_ (-427709601850218) 19; d_ (-655357273872536) 13; d_ (-314859848398573) 12; d_ (-566795327718652) 12; d_ 123449254801958 18; d_ 308961359409850 13; d_ 129808584660037 12; d_ 216314038706087 12; d_ (-122342123429650) 18; d_ 709249650124115 14; d_ 493991776772672 13; d_ 103295121552333 12; d_ 376677217269641 19; d_ (-364543206651067) 15; d_ 296261629062055 14; d_ (-700711413651349) 14; d_ (-169253353171803) 13; d_ 123052953647657 12; d_ (-272265443818300) 12; d_ 332724241192866 13; d_ (-251818846996072) 12; d_ 566788980408459 12; d_ (-846658807403520) 14; d_ 863942632656849 13; d_ (-216307832298287) 12; d_ (-954921000512114) 14; d_ 539278976932529 13; d_ (-103296988478458) 12]);
   (33%nat, [d_ 188495516362412 14; d_ 412437681087135 14; d_ 711550482015717 14; d_ 775814797889290 20; d_ 305228086984206 13; d_ 150603626789973 12; d_ 275017166338412 12; d_ (-433832387782641) 19; d_ (-660749783451623) 13; d_ (-317856213837761) 12; d_ (-572642461354325) 12; d_ 125170517298924 18; d_ 310277563793945 13; d_ 130745823780658 12; d_ 218374514025207 12; d_ (-124023189453008) 18; d_ 725086801869215 14; d_ 501041855896732 13; d_ 104479846139740 12; d_ 381767623747912 19; d_ (-369557989198445) 15; d_ 300571518713880 14; d_ (-711599713465615) 14; d_ (-171287946014579) 13; d_ 124370835590775 12; d_ (-275014908118616) 12; d_ 337292229706296 13; d_ (-254668207677145) 12; d_ 572636029725361 12; d_ (-868289030392200) 14; d_ 875162280610260 13; d_ (-218368227209872) 12; d_ (-959667949311669) 14; d_ 544079456577635 13; d_ (-104481736377524) 12]);
   (34%nat, [d_ 190423814720649 14; d_ 418787207261050 14; d_ 722045067661610 14; d_ 785586627942804 20; d_ 307794923553951 13; d_ 152003423758102 12; d_ 277703605524606 12; d_ (-439784072668470) 19; d_ (-666087092417203) 13; d_ (-320810306371066) 12; d_ (-578396258386096) 12; d_ 126846524468003 18; d_ 311664819048377 13; d_ 131704676007628 12; d_ 220458683574026 12; d_ (-125660820862988) 18; d_ 740117498521146 14; d_ 507735308154137 13; d_ 105604694471574 12; d_ 386727947804182 19; d_ (-374401276091243) 15; d_ 304730201372642 14; d_ (-722094854107547) 14; d_ (-173269442871869) 13; d_ 125656981825138 12; d_ (-277701317999835) 12; d_ 341761779100406 13; d_ (-257466539374381) 12; d_ 578389744578777 12; d_ (-889658848016163) 14; d_ 886403029377190 13; d_ (-220452318322644) 12; d_ (-964181317756529) 14; d_ 548637732161057 13; d_ (-105606607466567) 12]);
   (35%nat, [d_ 192281533717408 14; d_ 424910272760302 14; d_ 732172334231576 14; d_ 795020113544135 20; d_ 310315462895189 13; d_ 153374595594571 12; d_ 280332458984096 12; d_ (-445565817457419) 19; d_ (-671377178976899) 13; d_ (-323727756240385) 12; d_ (-584068658984735) 12; d_ 128477066707980 18; d_ 313126741835308 13; d_ 132688536867639 12; d_ 222574407829969 12; d_ (-127254409666895) 18; d_ 754344375669761 14; d_ 514068370367179 13; d_ 106668425782242 12; d_ 391555262336584 19; d_ (-379084181011374) 15; d_ 308747499419120 14; d_ (-732222655477679) 14; d_ (-175202588700289) 13; d_ 126914182016175 12; d_ (-280330142989896) 12; d_ 346144386399448 13; d_ (-260220152375735) 12; d_ 584062065161257 12; d_ (-910859312110460) 14; d_ 897709538200545 13; d_ (-222567966162972) 12; d_ (-968438822092394) 14; d_ 552945154697470 13; d_ (-106670360957778) 12]);
   (36%nat, [d_ 194071903395404 14; d_ 430815630128459 14; d_ 741945486225346 14; d_ 804129819154619 20; d_ 312795677114849 13; d_ 154720456662477 12; d_ 282910138946970 12; d_ (-451185370132462) 19; d_ (-676623878561680) 13; d_ (-326610593605394) 12; d_ (-589663763708538) 12; d_ 130064679999137 18; d_ 314642018299911 13; d_ 133685768145537 12; d_ 224699835988089 12; d_ (-128806673892190) 18; d_ 767986766874738 14; d_ 520159122266596 13; d_ 107693298076419 12; d_ 396257342166686 19; d_ (-383611089495781) 15; d_ 312627897732626 14; d_ (-741996323155748) 14; d_ (-177092249651606) 13; d_ 128145532684806 12; d_ (-282907795262461) 12; d_ 350443877287770 13; d_ (-262931112874138) 12; d_ 589657091847996 12; d_ (-931746233172336) 14; d_ 908979636154349 13; d_ (-224693319725730) 12; d_ (-972592470392138) 14; d_ 557106237961232 13; d_ (-107695254916667) 12])].
(** [Gottschalk_K_coeffs], lines 252-343 *)
Definition gottschalk_K : list (((nat * nat * nat) * (nat * nat * nat)) * list dnum) :=
  [(((2, 2, 2), (3, 3, 3))%nat, [d_ 542444082407911 14; d_ 199461721851827 14; d_ (-779943499574988) 14; d_ (-595306423355890) 14; d_ 114672051901995 14; d_ 596687355992124 14; d_ 157892985819129 14; d_ (-199235454796223) 14; d_ (-541856353157736) 14; d_ (-199001117059474) 14; d_ 108221237311497 13; d_ 288930400287336 14; d_ (-771557411635195) 14; d_ 518908612078444 17; d_ 212180709078436 14; d_ (-109482382065437) 14; d_ 636909816323590 17; d_ 279472187550309 18; d_ 192082140326594 20; d_ (-174086067501819) 21; d_ 392286590760404 16; d_ 201914799518260 17; d_ (-124074155157559) 18; d_ 280164785188307 20; d_ 619238462016263 15; d_ 717311000046791 18; d_ (-451094217237624) 19; d_ (-201742036513682) 21; d_ (-555505371928574) 15; d_ (-149546202491092) 16; d_ 902847562166521 18; d_ (-162118687038889) 19; d_ (-931563262615475) 16; d_ 193800947967539 16; d_ (-118316966937579) 17; d_ 224359377558566 19; d_ 331240818053268 16; d_ (-681951409579061) 17; d_ 425234801807147 18; d_ (-828079417586071) 20]);
   (((2, 3, 3), (3, 4, 4))%nat, [d_ 399742731639367 14; d_ 123579222175592 14; d_ (-582727703962485) 14; d_ (-360508169240370) 14; d_ 128231084254979 14; d_ 354340888289165 14; d_ 802274046417593 15; d_ (-116362434398544) 14; d_ (-399685528163714) 14; d_ (-123243185481745) 14; d_ 766286420532143 14; d_ 162072861591476 14; d_ (-513713300256105) 14; d_ 146021389124403 15; d_ 131704487280630 14; d_ (-664215770115759) 15; d_ 310121371171748 17; d_ 186206269763217 18; d_ 318435844304192 20; d_ (-163867186774153) 21; d_ 146001939047032 15; d_ 170625038283980 17; d_ (-111890743211568) 18; d_ 265557825596483 20; d_ 188071510223345 15; d_ (-152422445555933) 17; d_ 146336372199072 18; d_ (-463927881946733) 20; d_ (-272182167645867) 15; d_ (-475990045635550) 17; d_ 198565515993789 18; d_ (-112062570555131) 20; d_ (-398107863229894) 16; d_ 808708292057630 17; d_ (-432515946570324) 18; d_ 662645581034702 20; d_ 152986005217160 16; d_ (-310128564214180) 17; d_ 177857319979180 18; d_ (-306965046638737) 20]);
   (((2, 4, 4), (3, 5, 5))%nat, [d_ 766792089283848 15; d_ 275297951453362 15; d_ (-114961767414510) 14; d_ (-833798059992107) 15; d_ 339181596901623 15; d_ 859623929728455 15; d_ 190773779211133 15; d_ (-296619248685997) 15; d_ (-766001709604301) 15; d_ (-274735677874936) 15; d_ 156612732669654 14; d_ 408336841752989 15; d_ (-127873004072718) 14; d_ (-434059094383595) 17; d_ 377088433771990 15; d_ (-196035798884472) 15; d_ 130948394348354 18; d_ 106139307725294 18; d_ (-155856479654891) 20; d_ 149407162096004 22; d_ 960875316807800 17; d_ 183916452031763 18; d_ (-305479964580661) 20; d_ (-431169678964768) 22; d_ 851673307442435 16; d_ 837068146866005 18; d_ (-689417943049662) 19; d_ 178242509581761 20; d_ (-621438631057473) 16; d_ (-304535608194716) 17; d_ 220102808514677 18; d_ (-514135739634171) 20; d_ (-145715095719363) 16; d_ 333431639032812 17; d_ (-232609567589275) 18; d_ 524534888776091 20; d_ 530333556533054 17; d_ (-115021340573145) 17; d_ 793113478132349 19; d_ (-176212435918817) 20]);
   (((2, 5, 5), (3, 6, 6))%nat, [d_ (-187888594114787) 14; d_ (-398778496314823) 15; d_ 278121043514766 14; d_ 107393815987908 14; d_ (-582709875936336) 15; d_ (-946224511668149) 15; d_ (-184017464491590) 15; d_ 273586115410880 15; d_ 188070012863321 14; d_ 397610068626671 15; d_ (-332288593227971) 14; d_ (-359910905349272) 15; d_ 152895362047230 14; d_ (-187651821947185) 15; d_ (-193395713326451) 15; d_ 970093774899509 16; d_ (-167340512692621) 17; d_ 575834788258873 19; d_ (-699207163596071) 20; d_ 172895835960648 21; d_ (-168871652703438) 15; d_ (-118620808855092) 17; d_ 869478929524077 19; d_ (-208630774341105) 20; d_ 172290885137602 15; d_ 352045298153230 17; d_ (-286781557559445) 18; d_ 718782667350350 20; d_ 197322734262047 16; d_ (-436164922587827) 17; d_ 383373415672240 18; d_ (-101224194253523) 19; d_ (-456568358850074) 17; d_ 194446731466216 17; d_ (-204333883106063) 18; d_ 591427305521251 20; d_ (-836681540227123) 18; d_ (-200506952873583) 18; d_ 347435171985320 19; d_ (-118319408899513) 20]);
   (((3, 3, 4), (4, 4, 5))%nat, [d_ (-421691301848977) 14; d_ (-116439325280820) 14; d_ 603076249607683 14; d_ 331749501933008 14; d_ (-138852182725105) 14; d_ (-318924643368820) 14; d_ (-677570732417047) 15; d_ 102659354200590 14; d_ 421819503000668 14; d_ 116111673692155 14; d_ (-772636214133521) 14; d_ (-138976901618504) 14; d_ 481781255315698 14; d_ (-223724748325620) 15; d_ (-114526858817650) 14; d_ 575038384512084 15; d_ (-313798823141918) 17; d_ (-155466617345853) 18; d_ (-737871412696050) 20; d_ 264062708357487 21; d_ (-227498081628574) 15; d_ (-218661192717513) 17; d_ 153323548592840 18; d_ (-379011880542242) 20; d_ (-449432271819262) 16; d_ 351094733294940 17; d_ (-341099016003576) 18; d_ 987987234529542 20; d_ 217337788297072 15; d_ 266965317505575 18; d_ 186202219962895 18; d_ (-877928754274318) 20; d_ 229602946730767 16; d_ (-442138580395699) 17; d_ 129829969955861 18; d_ 105666955361128 20; d_ (-109807185048123) 16; d_ 212266918209122 17; d_ (-964983334262941) 19; d_ 997183436130033 21]);
   (((3, 4, 5), (4, 5, 6))%nat, [d_ (-187855990843247) 14; d_ (-575022152153909) 15; d_ 256326947679373 14; d_ 166202221341208 14; d_ (-575969899254094) 15; d_ (-163807221446864) 14; d_ (-378452161265661) 15; d_ 542906220485095 15; d_ 187899815614151 14; d_ 573413309667397 15; d_ (-342230152470312) 14; d_ (-734559024393395) 15; d_ 238025184286029 14; d_ (-507481198955490) 16; d_ (-645580635846515) 15; d_ 332460131454282 15; d_ (-122971525041235) 17; d_ (-127068315490571) 18; d_ (-425980434500255) 20; d_ 155615720658725 21; d_ (-662090575792389) 16; d_ (-121573491901178) 17; d_ 832731857639620 19; d_ (-209727273955416) 20; d_ (-127600488929121) 15; d_ 125532790674025 17; d_ (-160397196949211) 18; d_ 507160737707647 20; d_ 137753294972694 15; d_ 137209920872661 17; d_ 415123343754816 19; d_ (-386928887350442) 20; d_ 187254939648341 16; d_ (-365839285590086) 17; d_ 135891765079873 18; d_ (-510958487388577) 21; d_ (-905447008188625) 17; d_ 162841427456277 17; d_ (-778079416794263) 19; d_ 984642187550318 21]);
   (((3, 5, 6), (4, 6, 7))%nat, [d_ 538335404165607 16; d_ (-165741037838703) 16; d_ (-133814036659934) 15; d_ 619488310784084 16; d_ 365326991790176 16; d_ (-819250914905983) 16; d_ (-301748955242906) 16; d_ 346504157129119 16; d_ (-540679568040414) 16; d_ 165229992005511 16; d_ 100507102621880 15; d_ (-491543004775631) 16; d_ 713948616025876 16; d_ 306024072086538 16; d_ (-633515239163259) 16; d_ 332898983440077 16; d_ (-974942651884560) 20; d_ (-430427313575326) 19; d_ 430310988368452 21; d_ (-940021705693541) 23; d_ 203658137889129 16; d_ (-706339662172058) 19; d_ (-220187760692210) 20; d_ 146162457146041 21; d_ (-563254788784857) 16; d_ (-204018244825023) 18; d_ 264741552615823 19; d_ (-928263294489165) 21; d_ 217230134324291 16; d_ 567459951285132 18; d_ (-615481638805597) 19; d_ 193214021172590 20; d_ 465538957661885 17; d_ (-729448873404259) 18; d_ 632512865058604 19; d_ (-177975109902218) 20; d_ (-218411916118892) 17; d_ 307843071190017 18; d_ (-232981002727147) 19; d_ 600746707589970 21]);
   (((4, 4, 6), (5, 5, 7))%nat, [d_ 296764260657850 14; d_ 703092275890737 15; d_ (-422799276319446) 14; d_ (-193798240899941) 14; d_ 975913428063972 15; d_ 179126747499097 14; d_ 356756102281384 15; d_ (-553623607171459) 15; d_ (-296955048327906) 14; d_ (-701234547867752) 15; d_ 520683785048234 14; d_ 724538047246824 15; d_ (-282320489117913) 14; d_ 216237222473152 15; d_ 534316750117956 15; d_ (-273623100163602) 15; d_ 251067694055481 17; d_ 648121319346496 19; d_ 103813558872693 19; d_ (-272926955102890) 21; d_ 230022151841588 15; d_ 196394886387731 17; d_ (-129387918388819) 18; d_ 298540598178787 20; d_ (-138590452460763) 15; d_ (-403811614043725) 17; d_ 352382867454668 18; d_ (-869687788260969) 20; d_ (-699559346356186) 16; d_ 366886832331064 17; d_ (-369164793734705) 18; d_ 991160660064894 20; d_ (-803236996487208) 17; d_ 540971867915539 18; d_ 727854360508128 19; d_ (-327263850871172) 20; d_ 938208592331486 17; d_ (-106228828205759) 17; d_ 369836086799339 19; d_ (-271732190829232) 21]);
   (((4, 5, 7), (5, 6, 8))%nat, [d_ 142666820960381 14; d_ 345017865101772 15; d_ (-196247550830271) 14; d_ (-946309065663811) 15; d_ 418261135698539 15; d_ 872297454873067 15; d_ 180511045525248 15; d_ (-268920187738143) 15; d_ (-142778416603253) 14; d_ (-344083083639850) 15; d_ 244824471854885 14; d_ 354124895173016 15; d_ (-133897167236516) 14; d_ 982706489201847 16; d_ 271801448726778 15; d_ (-136410348751957) 15; d_ 149635868970185 17; d_ 206044447958276 19; d_ 964997907128668 20; d_ (-257887631481684) 21; d_ 102390983909847 15; d_ 158582512677763 17; d_ (-118610853006776) 18; d_ 309612761642116 20; d_ (-336211720100163) 16; d_ (-408798525378858) 17; d_ 398633052642793 18; d_ (-110581010597377) 19; d_ (-554837181394803) 16; d_ 529410031892766 17; d_ (-557039406867244) 18; d_ 163744825744623 19; d_ (-450327460474820) 17; d_ (-174326489817204) 17; d_ 291984200123208 18; d_ (-985337179907661) 20; d_ 813232243982234 17; d_ (-187075034285800) 18; d_ (-414164874759782) 19; d_ 194084307164858 20]);
   (((5, 5, 8), (6, 6, 9))%nat, [d_ (-245313680665222) 14; d_ (-503961693707401) 15; d_ 361542108831159 14; d_ 134553581412146 14; d_ (-900540909113099) 15; d_ (-118353980218140) 14; d_ (-181976304349185) 15; d_ 343662749685603 15; d_ 245462386133280 14; d_ 502920854569119 15; d_ (-428325510571952) 14; d_ (-436862799852705) 15; d_ 205651578318504 14; d_ (-239451761124711) 15; d_ (-283796201602616) 15; d_ 139881038940765 15; d_ (-188308167853915) 17; d_ 112147181018812 20; d_ (-144167141323138) 19; d_ 379021486968717 21; d_ (-235933494539367) 15; d_ (-218182485306358) 17; d_ 162894043457942 18; d_ (-450008247306596) 20; d_ 246819798294457 15; d_ 647152799012847 17; d_ (-606575109311945) 18; d_ 173646290143768 19; d_ (-569627938667923) 17; d_ (-976232489964938) 17; d_ 926177434500812 18; d_ (-275112120711887) 19; d_ 905740553617230 17; d_ 449085125154577 17; d_ (-549244411590428) 18; d_ 179584150079129 19; d_ (-147595392735166) 16; d_ (-376632235166816) 18; d_ 102880075515404 18; d_ (-400772991951897) 20]);
   (((4, 4, 4), (5, 5, 5))%nat, [d_ 252469317017544 14; d_ 826177202122772 15; d_ (-323475676438786) 14; d_ (-238752562438813) 14; d_ 664751555690522 15; d_ 236720544055216 14; d_ 561020579897902 15; d_ (-790752294769291) 15; d_ (-252563549516801) 14; d_ (-823601865216396) 15; d_ 449270434521372 14; d_ 107436718641049 14; d_ (-333558776232313) 14; d_ 260645228363244 16; d_ 996483096208423 15; d_ (-504055524736721) 15; d_ 219308744326541 17; d_ 173436487656116 18; d_ 883524899927144 20; d_ (-303344595365151) 21; d_ 500925420993048 16; d_ 227928307397880 17; d_ (-164388472223847) 18; d_ 421196769901678 20; d_ 302727654223290 15; d_ (-358144672504402) 17; d_ 398974204945052 18; d_ (-119830744460333) 19; d_ (-256870885978387) 15; d_ 783095522029698 18; d_ (-332816774037648) 18; d_ 133383686051992 19; d_ (-204241801271120) 16; d_ 334064037151345 17; d_ 232132740739504 20; d_ (-498030179368835) 20; d_ 110108370256734 16; d_ (-181425261633730) 17; d_ 580093554272687 19; d_ 139552290257640 21]);
   (((4, 5, 5), (5, 6, 6))%nat, [d_ 273820204864218 14; d_ 700346534765638 15; d_ (-369680446680593) 14; d_ (-193794572233433) 14; d_ 825216049483546 15; d_ 181783550868196 14; d_ 372288286378053 15; d_ (-573134804753511) 15; d_ (-274013224757890) 14; d_ (-698324464420398) 15; d_ 469899890466331 14; d_ 754355332066654 15; d_ (-277229320850403) 14; d_ 155878886186388 15; d_ 636364810787289 15; d_ (-316236796226066) 15; d_ 279237676231657 17; d_ 752148076587529 19; d_ 139103460900121 19; d_ (-388906729643374) 21; d_ 174680215860077 15; d_ 262776627228451 17; d_ (-192606222849564) 18; d_ 485224043818134 20; d_ 394069617776020 17; d_ (-621457325163260) 17; d_ 598871575505814 18; d_ (-162906364820491) 19; d_ (-136811818053603) 15; d_ 709867493986490 17; d_ (-774785192015546) 18; d_ 227080125814711 19; d_ (-321473595433954) 18; d_ (-179464065798033) 17; d_ 365711004601243 18; d_ (-127246062370887) 19; d_ 722997515996539 17; d_ (-453033813023508) 18; d_ (-411409808893549) 19; d_ 227901440368552 20]);
   (((4, 6, 6), (5, 7, 7))%nat, [d_ 129384111976256 14; d_ 301517415634568 15; d_ (-176756306901941) 14; d_ (-817177638396490) 15; d_ 406092887383488 15; d_ 745911581200192 15; d_ 139258891654649 15; d_ (-228144489592101) 15; d_ (-129462075268880) 14; d_ (-300788030952428) 15; d_ 218542099110323 14; d_ 294503416259083 15; d_ (-118187057671453) 14; d_ 911775908280628 16; d_ 235930048111630 15; d_ (-115561543388573) 15; d_ 123370962460381 17; d_ 306126369696466 19; d_ 849249637361334 20; d_ (-225826798863090) 21; d_ 101270814266103 15; d_ 141550535056254 17; d_ (-106540811690883) 18; d_ 274608894832916 20; d_ (-458219033219442) 16; d_ (-382736622037145) 17; d_ 371623212815945 18; d_ (-100620224936095) 19; d_ (-436422521174610) 16; d_ 537359451521211 17; d_ (-543490638078690) 18; d_ 153057095265201 19; d_ 140350030776433 17; d_ (-231316350038478) 17; d_ 309825182261389 18; d_ (-957845012022372) 20; d_ 448634087204837 17; d_ 135983530300042 18; d_ (-552343464494581) 19; d_ 203145282341050 20]);
   (((5, 5, 6), (6, 6, 7))%nat, [d_ (-370136634997501) 14; d_ (-810855126735133) 15; d_ 520584279748819 14; d_ 217538463560367 14; d_ (-125290061325714) 14; d_ (-195114578106181) 14; d_ (-333377734863412) 15; d_ 584087353611391 15; d_ 370355160458242 14; d_ 808998614652183 15; d_ (-630544778456261) 14; d_ (-742950589586770) 15; d_ 322045238641642 14; d_ (-302546701632756) 15; d_ (-550322328660079) 15; d_ 270679560180526 15; d_ (-307443194411638) 17; d_ (-398526991641814) 19; d_ (-203801728378170) 19; d_ 535291050968957 21; d_ (-324755755656466) 15; d_ (-334519617378408) 17; d_ 251927589021366 18; d_ (-646234145685049) 20; d_ 249563591899944 15; d_ 925591305745302 17; d_ (-885469388980841) 18; d_ 238065873858153 19; d_ 591751755698874 16; d_ (-130690035985908) 16; d_ 129773257574842 17; d_ (-362619054851207) 19; d_ (-602166776558070) 17; d_ 576085993845291 17; d_ (-741147689973064) 18; d_ 226785848956448 19; d_ (-928350093327664) 17; d_ (-448391258275365) 18; d_ 134423638886403 18; d_ (-482980395961881) 20]);
   (((5, 6, 7), (6, 7, 8))%nat, [d_ (-216051327067444) 14; d_ (-480111541627028) 15; d_ 304027396436748 14; d_ 128681816461933 14; d_ (-782337073832730) 15; d_ (-115450727968039) 14; d_ (-173350593577900) 15; d_ 345715807031252 15; d_ 216208403704912 14; d_ 478954418133244 15; d_ (-369782986235047) 14; d_ (-441890147756103) 15; d_ 196392264267039 14; d_ (-179135190778744) 15; d_ (-364209223797836) 15; d_ 172728271464056 15; d_ (-218970386473126) 17; d_ (-243824809151223) 19; d_ (-170509750062217) 19; d_ 428889831532858 21; d_ (-180659211409240) 15; d_ (-262934062938358) 17; d_ 190488189648742 18; d_ (-497464288360169) 20; d_ 124961161973692 15; d_ 753575059443721 17; d_ (-700275926403793) 18; d_ 189311236001922 19; d_ 419514602248622 16; d_ (-115177604921240) 16; d_ 107142440971427 17; d_ (-298262647941179) 19; d_ (-122864231493349) 17; d_ 568239521516594 17; d_ (-649631468593113) 18; d_ 194858861833733 19; d_ (-107479233657747) 16; d_ (-758308433462482) 18; d_ 131022979210949 18; d_ (-440646205435013) 20]);
   (((6, 6, 8), (7, 7, 9))%nat, [d_ 207922285265841 14; d_ 449689383416868 15; d_ (-298907769870169) 14; d_ (-118903264376620) 14; d_ 841691987792347 15; d_ 104184491738024 14; d_ 975268789282370 16; d_ (-301322347978421) 15; d_ (-208152499353535) 14; d_ (-448445124326206) 15; d_ 360615067846149 14; d_ 389885026941236 15; d_ (-192110726815679) 14; d_ 202022976843260 15; d_ 366399585167013 15; d_ (-154926032770091) 15; d_ 305038432324847 17; d_ (-495303639845013) 19; d_ 261504960273063 19; d_ (-633400482356003) 21; d_ 171000775579826 15; d_ 392367572084467 17; d_ (-283919666316309) 18; d_ 752031235484024 20; d_ (-121154928475634) 15; d_ (-131040823333925) 16; d_ 114514291851804 17; d_ (-306110931434252) 19; d_ (-572220029432580) 16; d_ 223897485055873 16; d_ (-190853477638040) 17; d_ 515660284956579 19; d_ 151566160181385 16; d_ (-141787609327888) 16; d_ 132714908452968 17; d_ (-370072404773128) 19; d_ 118530691089525 16; d_ 328522915663984 17; d_ (-329733271179118) 18; d_ 949359199002013 20]);
   (((6, 6, 6), (7, 7, 7))%nat, [d_ 303362160948971 14; d_ 677504231915319 15; d_ (-424091233889805) 14; d_ (-181334679571913) 14; d_ 111228906562864 14; d_ 162854862986340 14; d_ 236614122449060 15; d_ (-489035534584509) 15; d_ (-303587676944252) 14; d_ (-675841310146438) 15; d_ 517078653212733 14; d_ 622762831722895 15; d_ (-278320985369420) 14; d_ 246200276819328 15; d_ 530245763528276 15; d_ (-249974195532280) 15; d_ 315683470303345 17; d_ 353491968900572 19; d_ 243285516705086 19; d_ (-604672589045143) 21; d_ 250924754240327 15; d_ 378462484068214 17; d_ (-270266804942229) 18; d_ 695318205075812 20; d_ (-164082036372382) 15; d_ (-108050584645463) 16; d_ 989913747460235 18; d_ (-263503293433327) 19; d_ (-634540561815912) 16; d_ 165257433035628 16; d_ (-150935992188093) 17; d_ 413175745275019 19; d_ 601313877319951 17; d_ (-823016011791335) 17; d_ 911858046813359 18; d_ (-268183334801756) 19; d_ 129767908479782 16; d_ 117834201905349 17; d_ (-184620509816777) 18; d_ 603103654033375 20]);
   (((6, 7, 7), (7, 8, 8))%nat, [d_ 212385865882337 14; d_ 474044354223475 15; d_ (-299977384062353) 14; d_ (-125555016393390) 14; d_ 868262219301665 15; d_ 110955379616466 14; d_ 100545811896135 15; d_ (-325376451684869) 15; d_ (-212637527467441) 14; d_ (-472658072904979) 15; d_ 365807157566822 14; d_ 421275004326982 15; d_ (-203531704879034) 14; d_ 193377354094246 15; d_ 423420708429173 15; d_ (-179193754513730) 15; d_ 341557383754562 17; d_ (-398019685831941) 19; d_ 294878041155324 19; d_ (-699863327215579) 21; d_ 163393281499294 15; d_ 438978641355387 17; d_ (-312990543703609) 18; d_ 813124005749152 20; d_ (-868929795002197) 16; d_ (-143643508440773) 16; d_ 125319281063828 17; d_ (-328773674938564) 19; d_ (-768799950714483) 16; d_ 244796255659694 16; d_ (-207667607661142) 17; d_ 550642927198501 19; d_ 210635310205435 16; d_ (-154231054175639) 16; d_ 143635747575903 17; d_ (-392796952010118) 19; d_ 105789631145059 16; d_ 360867569614606 17; d_ (-356443183089879) 18; d_ 100254993475866 19]);
   (((7, 7, 8), (8, 8, 9))%nat, [d_ (-183521600141229) 14; d_ (-410261916830584) 15; d_ 267996591457741 14; d_ 107487603020855 14; d_ (-909328077490233) 15; d_ (-931055842350944) 15; d_ 320879853916012 17; d_ 264164858454417 15; d_ 183830228971058 14; d_ 408857690787345 15; d_ (-325899680724326) 14; d_ (-351845552262491) 15; d_ 191968615900074 14; d_ (-197060394974711) 15; d_ (-442686784307140) 15; d_ 165087060925399 15; d_ (-418961365788193) 17; d_ 119991121079668 18; d_ (-406037544258580) 19; d_ 930776238069481 21; d_ (-126405571229386) 15; d_ (-590593267142250) 17; d_ 416110684796396 18; d_ (-110045753498526) 19; d_ 493510765772025 16; d_ 213542164682614 16; d_ (-178751106604858) 17; d_ 467408936756910 19; d_ 103015480530432 15; d_ (-390838402519374) 16; d_ 313620140862478 17; d_ (-820132446684021) 19; d_ (-432374466960945) 16; d_ 279425669662889 16; d_ (-236146682464250) 17; d_ 623072649664213 19; d_ (-871378127294456) 17; d_ (-779769986633350) 17; d_ 650555872238753 18; d_ (-171341000713707) 19]);
   (((8, 8, 8), (9, 9, 9))%nat, [d_ 599056108156441 15; d_ 216425973044164 15; d_ (-803514907877571) 15; d_ (-569088550592824) 15; d_ 515517634329330 15; d_ 504674415388056 15; d_ (-117183321177471) 15; d_ (-145613373180289) 15; d_ (-602608653049302) 15; d_ (-215022696910756) 15; d_ 117307137106926 14; d_ 227183568672246 15; d_ (-123175968653969) 14; d_ 725672272366796 16; d_ 509842290348333 15; d_ (-168523124334413) 15; d_ 488955277515131 17; d_ (-201672325899373) 18; d_ 527804186274834 19; d_ (-116181806443670) 20; d_ (-518655658279383) 16; d_ 765058925681998 17; d_ (-521358805180214) 18; d_ 140328989947858 19; d_ 231375689976277 15; d_ (-294190075579488) 16; d_ 235203819232003 17; d_ (-614519617831983) 19; d_ (-213847459051650) 15; d_ 564428836651379 16; d_ (-429025967569151) 17; d_ 111459456876668 18; d_ 729610040210020 16; d_ (-440064341699517) 16; d_ 344870170248070 17; d_ (-890552217857750) 19; d_ 332979107543257 17; d_ 136686930793900 16; d_ (-102208066530909) 17; d_ 259045072305332 19]);
   (((2, 2, 2), (3, 3, 6))%nat, [d_ 396366350499318 14; d_ 121081183311923 14; d_ (-556762231786707) 14; d_ (-350926018612597) 14; d_ 124027923431943 14; d_ 344876627038278 14; d_ 776708614552489 15; d_ (-113638033208001) 14; d_ (-396269360518256) 14; d_ (-120776626080562) 14; d_ 735615817785038 14; d_ 156087779310018 14; d_ (-499106632015915) 14; d_ 118956761174999 15; d_ 131760884554926 14; d_ (-664901984580326) 15; d_ 270265488880742 17; d_ 254167414371651 18; d_ 291515972437268 20; d_ (-175336915420058) 21; d_ 157475592798400 15; d_ 186096827833057 17; d_ (-123323243073014) 18; d_ 294349786621319 20; d_ 205814722357299 15; d_ (-191382539983002) 17; d_ 196043169198788 18; d_ (-591507510462006) 20; d_ (-275122036541078) 15; d_ (-359983840467858) 17; d_ 919312265876157 19; d_ 139954065172231 20; d_ (-369784513705771) 16; d_ 714352986880921 17; d_ (-351153481253204) 18; d_ 475273349755366 20; d_ 146348441455056 16; d_ (-286992643849973) 17; d_ 157789093903397 18; d_ (-261151123954221) 20]);
   (((2, 2, 2), (3, 3, 12))%nat, [d_ 109569405921669 14; d_ 453327742313695 15; d_ (-869458223473977) 15; d_ (-129377024136370) 14; d_ 178239948251439 15; d_ 131434908490443 14; d_ 289080383174656 15; d_ (-455794520135993) 15; d_ (-109661512263517) 14; d_ (-451673973216571) 15; d_ 158977277909167 14; d_ 609828681372046 15; d_ (-176686606888911) 14; d_ (-961329699793359) 16; d_ 749315341677805 15; d_ (-354290393019408) 15; d_ 289315176879881 17; d_ 237767300100376 18; d_ 175334676873840 19; d_ (-491703466865751) 21; d_ (-461986218556680) 16; d_ 351195493043982 17; d_ (-246304974166307) 18; d_ 605725137709573 20; d_ 411063859703134 15; d_ (-840755579822658) 17; d_ 800493290921231 18; d_ (-209863969429372) 19; d_ (-262475125816473) 15; d_ 114516297053478 16; d_ (-114126400216326) 17; d_ 310757925355771 19; d_ 128454533757823 16; d_ (-521442550609911) 17; d_ 655459729174026 18; d_ (-193121033100343) 19; d_ 293820913330211 17; d_ 571897919626650 18; d_ (-125142504058167) 18; d_ 415776736744294 20]);
   (((2, 2, 2), (3, 6, 6))%nat, [d_ 227415369246848 14; d_ 687051964317826 15; d_ (-290653264448400) 14; d_ (-195382927601877) 14; d_ 626762636013123 15; d_ 190612075475626 14; d_ 422058439156731 15; d_ (-627201133868517) 15; d_ (-227497907096434) 14; d_ (-685016491691928) 15; d_ 392925554014807 14; d_ 842899375472339 15; d_ (-274881821500736) 14; d_ 503899958671995 16; d_ 791044226868827 15; d_ (-390749151318585) 15; d_ 235969421872487 17; d_ 151661251725070 18; d_ 836944971850097 20; d_ (-268596018351308) 21; d_ 828475099815497 16; d_ 219781500657567 17; d_ (-152138417891410) 18; d_ 367514195897042 20; d_ 193197124364015 15; d_ (-442690804753051) 17; d_ 411506567301093 18; d_ (-109707924604794) 19; d_ (-205281659933362) 15; d_ 363181122486368 17; d_ (-440101506993681) 18; d_ 132774963316999 19; d_ (-543213247717064) 17; d_ 379762010725434 18; d_ 133561467467479 18; d_ (-593017519151188) 20; d_ 585562487736765 17; d_ (-845528989213990) 18; d_ 119366888658718 19; d_ 604886414566997 21]);
   (((2, 2, 2), (3, 6, 12))%nat, [d_ 145711428717469 14; d_ 379345607211065 15; d_ (-180838801988371) 14; d_ (-102246617773053) 14; d_ 500173290587974 15; d_ 948310927058320 15; d_ 133438721808777 15; d_ (-297981239209003) 15; d_ (-145862922701775) 14; d_ (-378172880260600) 15; d_ 235683530195197 14; d_ 384960724675970 15; d_ (-154930462618775) 14; d_ 691340096346662 16; d_ 429982596584723 15; d_ (-192406325199013) 15; d_ 263708095273081 17; d_ 837540205445644 19; d_ 216918348543406 19; d_ (-528369417833344) 21; d_ 793911143385322 16; d_ 333107986640394 17; d_ (-234600720549181) 18; d_ 586671079915824 20; d_ 701481568716205 16; d_ (-945881801101796) 17; d_ 865996838922342 18; d_ (-222749055900010) 19; d_ (-117224478799270) 15; d_ 150883064509539 16; d_ (-135368470023218) 17; d_ 353529889803992 19; d_ 219228269475311 16; d_ (-855278999254213) 17; d_ 868076762072903 18; d_ (-236720116070095) 19; d_ 187269310562354 17; d_ 168607102682949 17; d_ (-195775117223111) 18; d_ 560001914626679 20]);
   (((2, 2, 2), (3, 12, 12))%nat, [d_ 138387310618874 15; d_ 955965254603231 16; d_ (-180320877975099) 15; d_ (-268885823213370) 15; d_ 256705037114148 15; d_ 265114208170191 15; d_ (-564932915669271) 16; d_ (-874550513743699) 16; d_ (-140111291572963) 15; d_ (-948400523593002) 16; d_ 354977408558549 15; d_ 134013961200359 15; d_ (-630470327705896) 15; d_ 699398427739680 18; d_ 291667452197786 15; d_ (-105988401797715) 15; d_ 261760499843661 17; d_ (-215258621350382) 19; d_ 316695501194685 19; d_ (-614521791469028) 21; d_ (-519427992816930) 16; d_ 377196725327215 17; d_ (-221839050345960) 18; d_ 568604567122943 20; d_ 151850850984684 15; d_ (-129093646782768) 16; d_ 989066938971300 18; d_ (-239941838609328) 19; d_ (-106040359530616) 15; d_ 247232874746836 16; d_ (-173719152035545) 17; d_ 418868565743446 19; d_ 370021323321882 16; d_ (-185245883357885) 16; d_ 136347534128517 17; d_ (-326953811691997) 19; d_ (-301411563317825) 18; d_ 581636567915343 17; d_ (-398815075465612) 18; d_ 929565938824857 20]);
   (((2, 2, 2), (6, 6, 6))%nat, [d_ 130365956767415 14; d_ 404742143947138 15; d_ (-150097725987810) 14; d_ (-113306463002599) 14; d_ 316563541011455 15; d_ 109992787119977 14; d_ 233930014479545 15; d_ (-362059508861619) 15; d_ (-130477487270230) 14; d_ (-403416387605182) 15; d_ 211262216425893 14; d_ 482156826744978 15; d_ (-157821188108157) 14; d_ 131740334925099 16; d_ 504210581335472 15; d_ (-241937493888934) 15; d_ 206014542669338 17; d_ 886362845674465 19; d_ 123372645091593 19; d_ (-335037599324464) 21; d_ 325273267213034 16; d_ 238025439446045 17; d_ (-169686814560588) 18; d_ 418558331397424 20; d_ 176955499153299 15; d_ (-589328830865488) 17; d_ 552043054265674 18; d_ (-144939642496496) 19; d_ (-156419496627933) 15; d_ 772708804928279 17; d_ (-768992659629050) 18; d_ 211531389122630 19; d_ 654395070933940 17; d_ (-313980698785231) 17; d_ 419589094111326 18; d_ (-127537000233863) 19; d_ 391436872706562 17; d_ 164468691213048 18; d_ (-716306428671008) 19; d_ 260670084803598 20]);
   (((2, 2, 2), (6, 6, 12))%nat, [d_ 969313938430882 15; d_ 239481910519004 15; d_ (-133187155197051) 14; d_ (-637754601349787) 15; d_ 472978679180951 15; d_ 575444818406282 15; d_ 190403525925378 16; d_ (-173754480392963) 15; d_ (-970935463661557) 15; d_ (-238628375394792) 15; d_ 167760424941279 14; d_ 228909702114359 15; d_ (-111008886501511) 14; d_ 763846215144944 16; d_ 298466090558403 15; d_ (-119421360923316) 15; d_ 249451702177867 17; d_ (-265098906059939) 20; d_ 258239013782663 19; d_ (-579619920233352) 21; d_ 526999428715991 16; d_ 346468359943123 17; d_ (-245985587932776) 18; d_ 632510298708259 20; d_ 253288258186367 16; d_ (-113673056513463) 16; d_ 101505604129914 17; d_ (-260506437350839) 19; d_ (-788952628543248) 16; d_ 201218483780980 16; d_ (-171543359651796) 17; d_ 442161304309250 19; d_ 296051015388309 16; d_ (-134729019132557) 16; d_ 123236291887608 17; d_ (-323170259923243) 19; d_ 103231177585639 17; d_ 351438089639262 17; d_ (-322542039637351) 18; d_ 850191792307459 20]);
   (((2, 2, 2), (6, 12, 12))%nat, [d_ 997065966870546 16; d_ 581109213448232 16; d_ (-234293612426661) 15; d_ (-157632370366886) 15; d_ 334870559522734 15; d_ 147566352230560 15; d_ (-108327187497869) 15; d_ (-451939022777532) 16; d_ (-101133806238832) 15; d_ (-575724895143917) 16; d_ 340248596069865 15; d_ 739552696041761 16; d_ (-547051137290929) 15; d_ 213659365955476 16; d_ 235853644759755 15; d_ (-769357566137443) 16; d_ 214715471405196 17; d_ (-575132042693974) 19; d_ 324691061191910 19; d_ (-574523615571534) 21; d_ (-325599527899362) 16; d_ 343045479024570 17; d_ (-193793851458441) 18; d_ 570135495800715 20; d_ 834747238613064 16; d_ (-138650632808454) 16; d_ 102336229654980 17; d_ (-264489100864207) 19; d_ (-724416803597826) 16; d_ 294744596969732 16; d_ (-195372182973481) 17; d_ 495930018109682 19; d_ 427162889105987 16; d_ (-253796209741841) 16; d_ 171814097330355 17; d_ (-421044297167350) 19; d_ (-297616334981585) 17; d_ 906671803656618 17; d_ (-551806960076458) 18; d_ 128738838522817 19]);
   (((2, 2, 2), (12, 12, 12))%nat, [d_ (-883178597409363) 15; d_ (-116189639863513) 15; d_ 183812952794056 14; d_ 371505436452515 15; d_ (-402668402977347) 15; d_ (-350918897721683) 15; d_ (-147426114588747) 15; d_ 106520493218750 15; d_ 881679808601783 15; d_ 116613219813401 15; d_ (-194813874470542) 14; d_ (-124481139299373) 15; d_ 595953426765051 15; d_ (-134052601470534) 15; d_ 161476457017567 15; d_ (-279539320292272) 16; d_ 219201416222585 17; d_ (-137402982282256) 18; d_ 368660232189071 19; d_ (-425658125631920) 21; d_ (-147870666671157) 15; d_ 353211174612161 17; d_ (-982974900874897) 19; d_ 558212331238644 20; d_ 342691316702534 15; d_ (-189183258392470) 16; d_ 864501620282178 18; d_ (-262287523563208) 19; d_ (-194609854105841) 15; d_ 462116974677515 16; d_ (-185302788180214) 17; d_ 522143664549367 19; d_ 850648521530335 16; d_ (-482284033624267) 16; d_ 204977824941199 17; d_ (-497462930409392) 19; d_ (-210435859132231) 16; d_ 197001045973341 16; d_ (-735139823987938) 18; d_ 162051618577186 19]);
   (((2, 3, 3), (6, 4, 4))%nat, [d_ 248709160722113 14; d_ 814623557716807 15; d_ (-323743351698384) 14; d_ (-236300893272310) 14; d_ 759964955462963 15; d_ 235378062409183 14; d_ 523024269786618 15; d_ (-789822282665551) 15; d_ (-248721373609095) 14; d_ (-812264201049929) 15; d_ 446561563397715 14; d_ 107263710070473 14; d_ (-339050681964737) 14; d_ 159816789769482 16; d_ 102740156662273 14; d_ (-510931805600228) 15; d_ 240071619772779 17; d_ 219896049581253 18; d_ 593987130148762 20; d_ (-227457082279268) 21; d_ 577274246024844 16; d_ 214205634129697 17; d_ (-143453269249393) 18; d_ 341089959172554 20; d_ 287653835187192 15; d_ (-353827133591083) 17; d_ 335806313221199 18; d_ (-912042223320360) 20; d_ (-250720767199628) 15; d_ 119716689671888 17; d_ (-260755648230157) 18; d_ 915842347697722 20; d_ (-149584341395779) 16; d_ 258564140862829 17; d_ (-252422249342803) 19; d_ (-235747954412039) 20; d_ 844246105703105 17; d_ (-150417848364801) 17; d_ 594062968413987 19; d_ (-455396025122914) 21]);
   (((2, 3, 3), (12, 4, 4))%nat, [d_ 124951801300154 14; d_ 436448527224609 15; d_ (-122169406491795) 14; d_ (-121800680296092) 14; d_ 377754494463151 15; d_ 120392499099074 14; d_ 201688958833152 15; d_ (-406766775206736) 15; d_ (-125070240775823) 14; d_ (-434996775504389) 15; d_ 189877589500545 14; d_ 535621470729081 15; d_ (-181152056866076) 14; d_ (-359482328587072) 16; d_ 698310661322541 15; d_ (-318217142732690) 15; d_ 308636989358165 17; d_ 216691163621287 18; d_ 254466709150315 19; d_ (-638678370846716) 21; d_ (-733695724909097) 17; d_ 431178421951461 17; d_ (-300898437342642) 18; d_ 737711234265972 20; d_ 316176376769950 15; d_ (-114719723239112) 16; d_ 107324814563153 17; d_ (-273910114827449) 19; d_ (-229323524728817) 15; d_ 176590271495490 16; d_ (-164210254879261) 17; d_ 427141864501179 19; d_ 271578446373413 16; d_ (-958429942610250) 17; d_ 102767462572316 17; d_ (-280527972643039) 19; d_ 110964649367046 17; d_ 172885216258023 17; d_ (-224068099842389) 18; d_ 647619439863572 20]);
   (((2, 3, 3), (3, 4, 12))%nat, [d_ 108515588732856 14; d_ 342545784500216 15; d_ (-118731309554769) 14; d_ (-951980371678003) 15; d_ 255421628989362 15; d_ 921948571326576 15; d_ 187302768948220 15; d_ (-303496918109531) 15; d_ (-108636751610855) 14; d_ (-341346834757617) 15; d_ 170946661253488 14; d_ 402760421903787 15; d_ (-132903110074566) 14; d_ 503279593951682 17; d_ 446986416530592 15; d_ (-209931132888596) 15; d_ 209878661519496 17; d_ 722531293250270 19; d_ 148723054407663 19; d_ (-396416545786189) 21; d_ 195490811810503 16; d_ 260407313868554 17; d_ (-193038577378348) 18; d_ 490795244773349 20; d_ 176881959694213 15; d_ (-694181504813532) 17; d_ 669216999667853 18; d_ (-179327577854916) 19; d_ (-148851369631199) 15; d_ 991820008661810 17; d_ (-992343380647303) 18; d_ 275541035710687 19; d_ 110763015554817 16; d_ (-488886046883175) 17; d_ 598852026889770 18; d_ (-178442608543239) 19; d_ 282716571058687 17; d_ 687753428486073 18; d_ (-123543591528254) 18; d_ 405885218649430 20]);
   (((2, 3, 3), (3, 12, 12))%nat, [d_ (-486828860318145) 15; d_ (-359695148597922) 16; d_ 994826631715215 15; d_ 117379951486997 15; d_ (-314754325987821) 15; d_ (-117822885223364) 15; d_ (-544343869293285) 16; d_ 409658325098212 16; d_ 484617214522467 15; d_ 366995786013807 16; d_ (-990710671764797) 15; d_ (-178153973166789) 16; d_ 277217223791506 15; d_ (-612985476582742) 16; d_ 124247097432409 15; d_ (-183674168246447) 16; d_ 278829090624218 17; d_ (-119722554075640) 18; d_ 130533879004854 19; d_ (-194920910522441) 21; d_ (-116139979519636) 15; d_ 304229535027922 17; d_ (-959483560933801) 19; d_ 140651457700316 20; d_ 264169698199423 15; d_ (-116713160655013) 16; d_ 427434723198751 18; d_ (-581850730930622) 20; d_ (-167210547861327) 15; d_ 226549567994850 16; d_ (-829738402915446) 18; d_ 117483461994081 19; d_ 487935487317387 16; d_ (-181975788032725) 16; d_ 727828592833675 18; d_ (-109389706269535) 19; d_ (-589016960559294) 17; d_ 576352588652056 17; d_ (-236719194534497) 18; d_ 368691110803219 20]);
   (((2, 3, 3), (6, 4, 12))%nat, [d_ 916239079440861 15; d_ 267024809167500 15; d_ (-104628714645591) 14; d_ (-720116742781652) 15; d_ 294869837710342 15; d_ 671822703028398 15; d_ 836227129479069 16; d_ (-212116925239988) 15; d_ (-917910570810646) 15; d_ (-265997241367277) 15; d_ 145096638093059 14; d_ 283248833130712 15; d_ (-108917350071499) 14; d_ 324495526861838 16; d_ 363199083229603 15; d_ (-153312026381939) 15; d_ 265949405696782 17; d_ 153321446773728 19; d_ 238599687803906 19; d_ (-566030933048115) 21; d_ 210641077819625 16; d_ 357997932650982 17; d_ (-260112294109363) 18; d_ 652553625212725 20; d_ 132929807268911 15; d_ (-111197044093260) 16; d_ 100751595341931 17; d_ (-257362562994160) 19; d_ (-135381767828453) 15; d_ 184221431880392 16; d_ (-163660032546167) 17; d_ 422839943350039 19; d_ 288881812593120 16; d_ (-114736628054731) 16; d_ 111683478187179 17; d_ (-297108652552125) 19; d_ 522533894334409 18; d_ 262757156498259 17; d_ (-273616246663610) 18; d_ 746868947004047 20]);
   (((2, 3, 3), (6, 12, 12))%nat, [d_ 362233810329425 15; d_ 887130743371768 16; d_ (-642988857304298) 15; d_ (-230293857640669) 15; d_ 398080116543820 15; d_ 196223684708755 15; d_ (-882865665899836) 16; d_ (-535010573278998) 16; d_ (-363324237248247) 15; d_ (-882868150751841) 16; d_ 775246575461757 15; d_ 778355765028675 16; d_ (-625131460776503) 15; d_ 585302687146412 16; d_ 187740140395139 15; d_ (-603616403661383) 16; d_ 156668117056168 17; d_ (-482523094075185) 19; d_ 210765124978158 19; d_ (-388389983505791) 21; d_ 126449648674566 16; d_ 263183563558014 17; d_ (-140110351518417) 18; d_ 426432331978797 20; d_ 324854673321770 17; d_ (-112166199925556) 16; d_ 766446861156966 18; d_ (-204253954610850) 19; d_ (-374099339120944) 16; d_ 243860209557876 16; d_ (-152394553972708) 17; d_ 395806316964056 19; d_ 317224992227935 16; d_ (-214871722087591) 16; d_ 137740454026846 17; d_ (-343897121900452) 19; d_ (-722082616613121) 18; d_ 775415320889334 17; d_ (-454225723490659) 18; d_ 107905089724110 19]);
   (((2, 3, 3), (12, 4, 12))%nat, [d_ 193683621730188 15; d_ 948779482693755 16; d_ (-364844832816155) 15; d_ (-266172910293000) 15; d_ 389942482044822 15; d_ 257987547608128 15; d_ (-931316239929594) 16; d_ (-831754629261784) 16; d_ (-195542673405236) 15; d_ (-941248700690705) 16; d_ 529131008383508 15; d_ 126833671224360 15; d_ (-728019896514351) 15; d_ 185186369221915 16; d_ 294562582981135 15; d_ (-103463142508332) 15; d_ 289365724002995 17; d_ (-430641727386958) 19; d_ 400404209546169 19; d_ (-753292544961410) 21; d_ (-381059066793331) 16; d_ 427157217867238 17; d_ (-262950561587322) 18; d_ 701879874681738 20; d_ 110372592431047 15; d_ (-153780367411504) 16; d_ 123785618535204 17; d_ (-307669706944828) 19; d_ (-914383864982385) 16; d_ 305491297127976 16; d_ (-223482369215476) 17; d_ 551288354923897 19; d_ 475534266723821 16; d_ (-240035683535319) 16; d_ 181796279075947 17; d_ (-442565928419984) 19; d_ (-287688971358848) 17; d_ 786739583744526 17; d_ (-546337376103078) 18; d_ 128615141115004 19]);
   (((2, 3, 3), (12, 12, 12))%nat, [d_ (-856767998062606) 15; d_ (-112267389498899) 15; d_ 178705830397410 14; d_ 360356557040957 15; d_ (-393632305606741) 15; d_ (-341833617233225) 15; d_ (-144446367776190) 15; d_ 104343973357701 15; d_ 855302315505216 15; d_ 112682353659085 15; d_ (-189257138985816) 14; d_ (-121348718618692) 15; d_ 580374625099467 15; d_ (-129298532607381) 15; d_ 157448313482758 15; d_ (-266399459572409) 16; d_ 214067859106142 17; d_ (-134171000282370) 18; d_ 357169280626644 19; d_ (-415147429302012) 21; d_ (-144218633818161) 15; d_ 348952703647200 17; d_ (-975396380099295) 19; d_ 552748991005034 20; d_ 334799128684898 15; d_ (-187184218486069) 16; d_ 853532270869974 18; d_ (-260188125860166) 19; d_ (-191542258891948) 15; d_ 457563731849018 16; d_ (-183643417309804) 17; d_ 519160567996224 19; d_ 841351006643513 16; d_ (-477920633896694) 16; d_ 203306110328374 17; d_ (-495087251481629) 19; d_ (-208272311209570) 16; d_ 195220112965983 16; d_ (-731019456015210) 18; d_ 161774652458240 19]);
   (((2, 4, 4), (6, 5, 5))%nat, [d_ 491204534465989 15; d_ 226304017799304 15; d_ (-438421348511054) 15; d_ (-667990199531446) 15; d_ 129877449161853 15; d_ 697682963144099 15; d_ 153210914755645 15; d_ (-247053308993017) 15; d_ (-491059468708496) 15; d_ (-225598039415752) 15; d_ 799968593488144 15; d_ 334169184002644 15; d_ (-961473845037152) 15; d_ (-572824049623809) 16; d_ 401693462286826 15; d_ (-194219444098941) 15; d_ 909624043216534 18; d_ 122525176146468 18; d_ 332714440129555 20; d_ (-109222645065891) 21; d_ (-305117426445932) 16; d_ 111965376669438 17; d_ (-701014572108851) 19; d_ 157038858274316 20; d_ 205345788201177 15; d_ (-220871372086511) 17; d_ 192595329568378 18; d_ (-468836152288209) 20; d_ (-121276820550299) 15; d_ 231937624816292 17; d_ (-227474239338451) 18; d_ 590329477623958 20; d_ 465828223537391 18; d_ (-405444533542914) 18; d_ 885145423158105 19; d_ (-277621309388821) 20; d_ 199836350242776 17; d_ (-225014291599808) 18; d_ (-270369773653361) 20; d_ 314413507033425 21]);
   (((2, 4, 4), (12, 5, 5))%nat, [d_ 615849146388050 15; d_ 198617740177515 15; d_ (-716001183401718) 15; d_ (-551303482294393) 15; d_ 345740693297912 15; d_ 542084214631653 15; d_ 368551572065524 16; d_ (-182508902911610) 15; d_ (-616486032057765) 15; d_ (-197956701015939) 15; d_ 101617882502841 14; d_ 236554114945930 15; d_ (-969321978576558) 15; d_ (-213395546092422) 17; d_ 348513445166778 15; d_ (-152109448648700) 15; d_ 178546598021408 17; d_ 161267501914234 18; d_ 181286435456859 19; d_ (-399214620347555) 21; d_ 711111182078135 17; d_ 254362576570711 17; d_ (-161579234388868) 18; d_ 386787159469427 20; d_ 112976269514505 15; d_ (-685210996790427) 17; d_ 622523969531788 18; d_ (-151891869684231) 19; d_ (-892860287126681) 16; d_ 118186307366488 16; d_ (-100642594607380) 17; d_ 246438052695226 19; d_ 239956460284245 16; d_ (-713948919115990) 17; d_ 669876313476115 18; d_ (-168592776526638) 19; d_ (-227033033862627) 17; d_ 162092441566963 17; d_ (-159230275342690) 18; d_ 406672634417366 20]);
   (((2, 4, 4), (3, 5, 6))%nat, [d_ 860179559432272 15; d_ 239082381588957 15; d_ (-130655669905293) 14; d_ (-696119286773134) 15; d_ 361350870408834 15; d_ 684045943093670 15; d_ 138555618406409 15; d_ (-225110274900307) 15; d_ (-859969253365382) 15; d_ (-238601673824359) 15; d_ 164933755786758 14; d_ 302979201097245 15; d_ (-107689956700523) 14; d_ 417916726931973 16; d_ 252818278045959 15; d_ (-131881863918000) 15; d_ 331435610895814 18; d_ 688305088921507 19; d_ (-311289404537992) 21; d_ (-437600684255666) 23; d_ 504905627978601 16; d_ 233406652535613 18; d_ (-787114992992017) 20; d_ 719992964013779 22; d_ (-800624762436930) 17; d_ 235098687456057 18; d_ (-266291034912399) 19; d_ 872240814063782 21; d_ (-278938196699941) 16; d_ (-152698027871242) 17; d_ 120243013533934 18; d_ (-304915077872761) 20; d_ (-832537180527630) 17; d_ 199976868081913 17; d_ (-145451485991949) 18; d_ 342652357107563 20; d_ 365901263458512 17; d_ (-769983080940444) 18; d_ 540911169933928 19; d_ (-123220202903823) 20]);
   (((2, 4, 4), (6, 5, 6))%nat, [d_ 356980325368053 15; d_ 170133609834162 15; d_ (-281414561119148) 15; d_ (-499336781605009) 15; d_ 798746154017452 16; d_ 520699451026430 15; d_ 114227400749982 15; d_ (-184361438211760) 15; d_ (-357056785042625) 15; d_ (-169555205822094) 15; d_ 556465952288825 15; d_ 249421641563300 15; d_ (-711295280553578) 15; d_ (-459942872729783) 16; d_ 309560847058793 15; d_ (-148216736808880) 15; d_ 839821545971598 18; d_ 921042212690359 19; d_ 393890488882738 20; d_ (-114256496111266) 21; d_ (-280332911961569) 16; d_ 104983251432625 17; d_ (-665753036358984) 19; d_ 150790804970100 20; d_ 169873525515944 15; d_ (-223301257703125) 17; d_ 194417471170890 18; d_ (-472519586485317) 20; d_ (-100160271973968) 15; d_ 266364928587670 17; d_ (-247239284389099) 18; d_ 628867255032332 20; d_ 223812826669261 17; d_ (-807321623418646) 18; d_ 112988733167837 18; d_ (-325955623749689) 20; d_ 155393488638503 17; d_ (-862235882899663) 19; d_ (-114082026064556) 19; d_ 488214211480545 21]);
   (((2, 4, 4), (12, 5, 6))%nat, [d_ 381611606718559 15; d_ 142184785993772 15; d_ (-423463735619708) 15; d_ (-398265667611006) 15; d_ 255230802969191 15; d_ 397003215671714 15; d_ 147541226776169 16; d_ (-135296084047536) 15; d_ (-382312093303591) 15; d_ (-141618986078523) 15; d_ 647322471599422 15; d_ 179634506873435 15; d_ (-731156686147419) 15; d_ (-943695708086487) 17; d_ 287694820391925 15; d_ (-122176420495934) 15; d_ 163913794873621 17; d_ 115317095172871 18; d_ 183972163719741 19; d_ (-391225831392537) 21; d_ (-125584391243793) 16; d_ 240135255956930 17; d_ (-153529680429933) 18; d_ 372438354165346 20; d_ 116146039329991 15; d_ (-675845595576977) 17; d_ 611069809002963 18; d_ (-149420223573592) 19; d_ (-827972265234808) 16; d_ 118694686503274 16; d_ (-100240383794607) 17; d_ 245970049593262 19; d_ 236872194593818 16; d_ (-745153935394033) 17; d_ 688227847802134 18; d_ (-172729512971862) 19; d_ (-224752337797969) 17; d_ 182252721699177 17; d_ (-170968806517803) 18; d_ 431374752023770 20]);
   (((2, 4, 4), (3, 5, 12))%nat, [d_ (-597093610896162) 15; d_ (-671204757487351) 16; d_ 125096385595524 14; d_ 195574776550001 15; d_ (-606391701533152) 15; d_ (-189163616898622) 15; d_ 209421252070718 16; d_ 645920314485965 16; d_ 595636844601141 15; d_ 675228357282237 16; d_ (-129084144955009) 14; d_ (-458478433558307) 16; d_ 623308359733981 15; d_ (-758150892867320) 16; d_ 336503655595912 16; d_ 162484211846014 16; d_ 187086656690265 17; d_ (-145274475145892) 18; d_ 100070515144650 19; d_ (-187688841818771) 21; d_ (-120667157279832) 15; d_ 253917975501182 17; d_ (-149933936941148) 18; d_ 276113899482843 20; d_ 291439464491417 15; d_ (-103896147336924) 16; d_ 628470826678137 18; d_ (-115493528062968) 19; d_ (-203094504010782) 15; d_ 179011070351042 16; d_ (-109497567554037) 17; d_ 201970684181110 19; d_ 454118791241198 16; d_ (-131922040564109) 16; d_ 824359966560333 18; d_ (-153234172694203) 19; d_ (-906491465702085) 17; d_ 343814630829309 17; d_ (-220545332202168) 18; d_ 414056772704528 20]);
   (((2, 4, 4), (6, 5, 12))%nat, [d_ 101991154602003 15; d_ 499965673575524 16; d_ (-698317980390611) 16; d_ (-138757443409212) 15; d_ 379445385381475 16; d_ 136253796927304 15; d_ 104563179097763 16; d_ (-453000509893121) 16; d_ (-102499729780080) 15; d_ (-497215395499016) 16; d_ 155150359145498 15; d_ 650561954228087 16; d_ (-221885965021889) 15; d_ (-628872246234061) 17; d_ 107322890186776 15; d_ (-429240544837290) 16; d_ 834241883501578 18; d_ 535101424420289 20; d_ 759631060130260 20; d_ (-165976396751410) 21; d_ (-153975827203754) 16; d_ 113631611779534 17; d_ (-756474061442282) 19; d_ 180813881796296 20; d_ 680042235029781 16; d_ (-357545833332568) 17; d_ 296743470084059 18; d_ (-713142309157723) 20; d_ (-477193463835041) 16; d_ 611921151840211 17; d_ (-488831369188543) 18; d_ 117984458581119 19; d_ 961034907956349 17; d_ (-398185305394863) 17; d_ 341430679571209 18; d_ (-839851461334603) 20; d_ 420071260574455 18; d_ 974905027600016 18; d_ (-861094053252308) 19; d_ 214314531781881 20]);
   (((2, 4, 4), (12, 5, 12))%nat, [d_ (-209695206894546) 15; d_ (-309754265626545) 17; d_ 291045341498151 15; d_ (-501432180340567) 17; d_ 683642490228425 16; d_ 262915872327176 16; d_ (-544178705880776) 16; d_ (-155141332038803) 16; d_ 208860781602899 15; d_ 341886113744042 17; d_ (-269537830656682) 15; d_ 338925256380776 16; d_ (-151893050511876) 15; d_ (-296286698033317) 16; d_ 140057946983659 15; d_ (-481379046998367) 16; d_ 139508414040478 17; d_ (-888195292666131) 20; d_ 229919007918845 19; d_ (-386308201299720) 21; d_ (-570733884248070) 16; d_ 209709787930512 17; d_ (-120152198297556) 18; d_ 323634422922683 20; d_ 111314956385403 15; d_ (-751485303407415) 17; d_ 604115020543755 18; d_ (-146029044725570) 19; d_ (-622370821192072) 16; d_ 152057115410645 16; d_ (-109075078679351) 17; d_ 262726031448054 19; d_ 272930242512747 16; d_ (-121577077832499) 16; d_ 906706904484323 18; d_ (-214686102307834) 19; d_ (-369151554051496) 17; d_ 411049707652176 17; d_ (-275421407629884) 18; d_ 626489976446065 20]);
   (((2, 4, 4), (3, 6, 6))%nat, [d_ 832655713692796 15; d_ 200889344294448 15; d_ (-128578127907240) 14; d_ (-571416097546068) 15; d_ 341453112665828 15; d_ 543053425493171 15; d_ 105864128243013 15; d_ (-172330777612701) 15; d_ (-832610149702538) 15; d_ (-200540856935938) 15; d_ 156240442556432 14; d_ 227798095370094 15; d_ (-885629967261642) 15; d_ 613031695719897 16; d_ 163567485093516 15; d_ (-881392848015631) 16; d_ 242385910897431 18; d_ 484625072614216 19; d_ (-162751020802502) 21; d_ (-162885415624419) 23; d_ 673150287280910 16; d_ 131037459003385 18; d_ (-157054654614569) 20; d_ (-620389399266864) 22; d_ (-595508672339105) 16; d_ 348491027468919 18; d_ (-372209213181191) 19; d_ 114757593984801 20; d_ (-258758125265569) 17; d_ (-141821236980964) 17; d_ 121559539969829 18; d_ (-320714474011889) 20; d_ (-748813739194626) 17; d_ 178560257706096 17; d_ (-138329905959666) 18; d_ 339081538976428 20; d_ 348527486314943 17; d_ (-695406126810956) 18; d_ 509298830789506 19; d_ (-119750227058292) 20]);
   (((2, 4, 4), (6, 6, 6))%nat, [d_ 550044820457894 15; d_ 169986349329987 15; d_ (-642359617533748) 15; d_ (-477388776652787) 15; d_ 174210455041752 15; d_ 467577506351470 15; d_ 879856723191283 16; d_ (-155703564235411) 15; d_ (-550237807902202) 15; d_ (-169522218009148) 15; d_ 896465957289513 15; d_ 204496531249592 15; d_ (-704071542793948) 15; d_ 260490157392315 17; d_ 229027448136188 15; d_ (-109199162051790) 15; d_ 749208952029533 18; d_ 664802598847208 19; d_ 430343677602492 20; d_ (-115667788456553) 21; d_ 162485665706853 16; d_ 944384031588509 18; d_ (-619514849588484) 19; d_ 143936274112380 20; d_ 712538697129558 16; d_ (-223545163477761) 17; d_ 198465674695492 18; d_ (-488387200183926) 20; d_ (-616910515347356) 16; d_ 301907624155874 17; d_ (-274980347076635) 18; d_ 698696871589424 20; d_ 335032516022842 17; d_ (-121854498066516) 17; d_ 143952855318841 18; d_ (-399812048093187) 20; d_ 130083882787558 17; d_ 538381528089374 19; d_ (-218244707836736) 19; d_ 732018154717498 21]);
   (((2, 4, 4), (12, 6, 6))%nat, [d_ 211607078160344 15; d_ 992875201498942 16; d_ (-220261085226307) 15; d_ (-282187377697246) 15; d_ 191640990088229 15; d_ 286672246329899 15; d_ (-173924313784798) 17; d_ (-992385038091065) 16; d_ (-212332904291173) 15; d_ (-988038504109267) 16; d_ 384776806946730 15; d_ 135761605720543 15; d_ (-551752895380944) 15; d_ (-134340781904021) 16; d_ 237758264630812 15; d_ (-981125982304681) 16; d_ 150289447979908 17; d_ 779228529151552 19; d_ 183719111423500 19; d_ (-379350386600452) 21; d_ (-251195379745565) 16; d_ 224739276209450 17; d_ (-144777116452186) 18; d_ 356905914826533 20; d_ 112833500925654 15; d_ (-659662309845822) 17; d_ 594573260014122 18; d_ (-146027324351625) 19; d_ (-750659218353046) 16; d_ 117877296145632 16; d_ (-988826731477201) 18; d_ 243718267314450 19; d_ 228149171964114 16; d_ (-768121996161952) 17; d_ 699315652153725 18; d_ (-175436678485630) 19; d_ (-212363796370540) 17; d_ 200711891246567 17; d_ (-180701875423722) 18; d_ 452037932262624 20]);
   (((2, 4, 4), (3, 6, 12))%nat, [d_ (-123917131430615) 15; d_ 500381328594561 17; d_ 498567925702175 15; d_ 174968106870966 16; d_ (-495132417069142) 15; d_ (-590100648106972) 16; d_ 726420592984643 16; d_ 365852644830619 16; d_ 123652249930461 15; d_ (-490663033059571) 17; d_ (-466214265324341) 15; d_ (-111913948117747) 16; d_ 451324774866426 15; d_ (-110307166518962) 16; d_ (-675716715241750) 16; d_ 426786003803108 16; d_ 164755920128342 18; d_ 496983846864711 20; d_ (-692202635587918) 21; d_ 212866005828315 22; d_ (-399244837750804) 16; d_ (-189800176095346) 19; d_ 127256465697378 19; d_ (-495934616152374) 21; d_ 117732653980010 15; d_ 316867973027892 18; d_ (-847697820798933) 19; d_ 309480096895179 20; d_ (-861335657784796) 16; d_ (-838863100950171) 18; d_ 173264894611628 18; d_ (-629209932975937) 20; d_ (-253466988296046) 17; d_ 866936634670435 18; d_ (-143278377133637) 18; d_ 519174824448699 20; d_ 313280152079527 17; d_ (-321491265801214) 18; d_ 424644858948031 19; d_ (-151098551559716) 20]);
   (((2, 4, 4), (6, 6, 12))%nat, [d_ 602158473209610 16; d_ 335713835951260 16; d_ (-352072721054247) 16; d_ (-924097203465045) 16; d_ 247838119776266 16; d_ 893077066111501 16; d_ 241379233650454 17; d_ (-289641234867262) 16; d_ (-606719848817142) 16; d_ (-333574353705144) 16; d_ 948977812139591 16; d_ 435828659852500 16; d_ (-153016871330233) 15; d_ (-270559104075035) 17; d_ 788830653976906 16; d_ (-297508344577938) 16; d_ 685900400054328 18; d_ (-821697161993512) 20; d_ 649665939497110 20; d_ (-141912096049595) 21; d_ (-140994192757057) 16; d_ 963137253284757 18; d_ (-656309336913592) 19; d_ 161367906952290 20; d_ 535618289117815 16; d_ (-323072460329314) 17; d_ 267010498108573 18; d_ (-655674278385255) 20; d_ (-383843584401637) 16; d_ 567259123351159 17; d_ (-452016045406961) 18; d_ 111421618216660 19; d_ 807608818600311 17; d_ (-388947037895690) 17; d_ 329021147016226 18; d_ (-822483566085715) 20; d_ 634803145534977 18; d_ 102290237975559 17; d_ (-873432394888271) 19; d_ 219578879393271 20]);
   (((2, 4, 4), (12, 6, 12))%nat, [d_ (-241786601498150) 15; d_ (-149117053707695) 16; d_ 357056849730785 15; d_ 312682437157919 16; d_ 291595975333472 16; d_ (-110802442129413) 16; d_ (-542419305842602) 16; d_ (-270276748125275) 17; d_ 241011853905201 15; d_ 151867666791938 16; d_ (-354040019898747) 15; d_ 157708239042880 16; d_ (-718645968421370) 16; d_ (-316024093788306) 16; d_ 116863697119513 15; d_ (-379130516448454) 16; d_ 125327831896936 17; d_ (-271779960438541) 19; d_ 213928652480253 19; d_ (-354801665300065) 21; d_ (-560986658858459) 16; d_ 191411906638116 17; d_ (-112148149656427) 18; d_ 315659389921402 20; d_ 108010473072534 15; d_ (-727101186277293) 17; d_ 582586664646004 18; d_ (-144532500509218) 19; d_ (-602085606551382) 16; d_ 149752747657491 16; d_ (-106961505146852) 17; d_ 264014111422041 19; d_ 264184177878643 16; d_ (-124427209050183) 16; d_ 913362366902146 18; d_ (-219801280499873) 19; d_ (-395624911864406) 17; d_ 433511498337914 17; d_ (-282907853783377) 18; d_ 651490719948370 20]);
   (((2, 4, 4), (3, 12, 12))%nat, [d_ (-140154248354409) 15; d_ (-270108858253865) 16; d_ 216032205599418 15; d_ 752329148981298 16; d_ (-654554620388331) 16; d_ (-708701909103844) 16; d_ (-111834261455601) 16; d_ 226339683948197 16; d_ 139978937812919 15; d_ 270114909484695 16; d_ (-247222411804713) 15; d_ (-265955584406365) 16; d_ 122065965946000 15; d_ (-834547187989307) 17; d_ (-145476777337756) 16; d_ 837676315384955 17; d_ 304262725569157 19; d_ (-561727542081234) 19; d_ (-147942578957300) 21; d_ (-114837125065981) 21; d_ (-173718432749862) 16; d_ (-489982435812539) 19; d_ (-549948169657893) 19; d_ 237586857351841 20; d_ 217247018434462 16; d_ (-494004863131147) 18; d_ 209820396219459 18; d_ (-965867297499206) 20; d_ (-195367177726693) 17; d_ 115977265277072 17; d_ (-403297727165886) 18; d_ 174231346290208 19; d_ (-489697536587161) 17; d_ (-175652210493007) 17; d_ 350641151519290 18; d_ (-140548898653275) 19; d_ 310981135747112 17; d_ 664715634097249 18; d_ (-111939999334647) 18; d_ 421979109515617 20]);
   (((2, 4, 4), (6, 12, 12))%nat, [d_ (-143002488260432) 15; d_ (-138593257254311) 16; d_ 186838298899772 15; d_ 305057284935960 16; d_ (-278965022869596) 16; d_ (-217691411355536) 16; d_ (-121040859657748) 16; d_ 510939619533897 17; d_ 142742668800566 15; d_ 139277257691160 16; d_ (-192847635952159) 15; d_ 251462689333148 17; d_ 233390155270139 16; d_ (-104605985509581) 16; d_ 217614093420152 16; d_ (-670004540914016) 17; d_ 260579922682018 18; d_ (-139659707891835) 19; d_ 119458496268926 20; d_ (-571851090672802) 22; d_ (-281617218981588) 16; d_ 207557848685943 18; d_ (-313374955849746) 19; d_ 947111790806825 21; d_ 396004069873538 16; d_ (-731230536469562) 18; d_ 909840347914744 19; d_ (-288136970018528) 20; d_ (-106189952248461) 16; d_ 152067231925370 17; d_ (-136020710491831) 18; d_ 399568039747105 20; d_ 182538964105668 18; d_ (-172566508103577) 17; d_ 112445106458065 18; d_ (-284003122899236) 20; d_ 141958328629995 17; d_ 793049609599446 18; d_ (-428946646969033) 19; d_ 948381769220892 21]);
   (((2, 4, 4), (12, 12, 12))%nat, [d_ (-521186762803597) 15; d_ (-722468152201332) 16; d_ 100388318723651 14; d_ 211407379627084 15; d_ (-261570588636420) 15; d_ (-189002300849658) 15; d_ (-509017316977841) 16; d_ 544923315558143 16; d_ 520491731303394 15; d_ 724211156334381 16; d_ (-107528134780895) 14; d_ (-615146286286645) 16; d_ 369565424499587 15; d_ (-753114449752636) 16; d_ 569867874864746 16; d_ (-767575667423953) 17; d_ 104001544775923 17; d_ (-949698841201949) 19; d_ 182975693958675 19; d_ (-287482433619943) 21; d_ (-840567662888255) 16; d_ 178628907521573 17; d_ (-106600421306041) 18; d_ 374140024997038 20; d_ 180224345182521 15; d_ (-859193660035758) 17; d_ 588552250520365 18; d_ (-163410332385771) 19; d_ (-975026533657871) 16; d_ 188812574121145 16; d_ (-112155673812469) 17; d_ 301780148095638 19; d_ 358947207146298 16; d_ (-182780222664168) 16; d_ 104932672959003 17; d_ (-259109299641838) 19; d_ (-909807625495854) 17; d_ 696880219720734 17; d_ (-338350687496064) 18; d_ 780260054835809 20]);
   (((2, 5, 5), (6, 6, 6))%nat, [d_ (-124433138360450) 14; d_ (-218037864677534) 15; d_ 194896947954401 14; d_ 568033717144563 15; d_ (-396466363297229) 15; d_ (-463643477340207) 15; d_ (-887627005743088) 16; d_ 119492737749341 15; d_ 124637754005121 14; d_ 217186449397032 15; d_ (-221370003518629) 14; d_ (-155276222175775) 15; d_ 777804265556897 15; d_ (-147808337865195) 15; d_ 283811262841364 16; d_ (-794036038026200) 17; d_ (-204413954141805) 17; d_ 157879372423254 18; d_ (-108052544526961) 19; d_ 236117503841845 21; d_ (-144068296442951) 15; d_ (-175614688895284) 17; d_ 119961524497256 18; d_ (-272085927280262) 20; d_ 214126295033710 15; d_ 672176891197353 17; d_ (-481948944848886) 18; d_ 111444377014996 19; d_ (-302660484796293) 16; d_ (-113157053348494) 16; d_ 825416011883538 18; d_ (-193673347755933) 19; d_ (-114485046992290) 16; d_ 785085751790790 17; d_ (-596029292139187) 18; d_ 143116140471199 19; d_ (-283674859568024) 18; d_ (-185840684262438) 17; d_ 149795414236868 18; d_ (-371573576040264) 20]);
   (((2, 5, 5), (12, 6, 6))%nat, [d_ 185663488502183 14; d_ 248205566454942 15; d_ (-382987792767809) 14; d_ (-726634100838795) 15; d_ 159763733642308 14; d_ 678543151343123 15; d_ (-229090102438894) 18; d_ (-214839125786112) 15; d_ (-185336602036260) 14; d_ (-249005738118609) 15; d_ 403810604108396 14; d_ 212910172908566 15; d_ (-185592633853643) 14; d_ 249283162695484 15; d_ (-763743517339514) 16; d_ (-339005847948168) 16; d_ (-360888261888781) 17; d_ 199544366630417 18; d_ (-195243050750337) 20; d_ (-599706976147194) 23; d_ 322994709746769 15; d_ (-158626339868597) 17; d_ 287909252755141 19; d_ 561986257575350 21; d_ (-735385014522256) 15; d_ 580010915706459 17; d_ (-123215565944440) 19; d_ (-502300973585606) 20; d_ 428961479127120 15; d_ (-968516669391749) 17; d_ 185745254328190 20; d_ 939009183857120 20; d_ (-740313282940066) 16; d_ 805264259914837 17; d_ (-524030033615750) 19; d_ (-618713192116812) 20; d_ 169856903352722 16; d_ (-258068240273147) 17; d_ 403629113041276 19; d_ 116055038425933 20]);
   (((3, 3, 4), (4, 4, 6))%nat, [d_ (-370723211735836) 14; d_ (-990149551648389) 15; d_ 522132514352838 14; d_ 279356963197773 14; d_ (-117508435423355) 14; d_ (-266039314737498) 14; d_ (-562710051981868) 15; d_ 848855976831706 15; d_ 370880761212462 14; d_ 987362297801260 15; d_ (-665236163608207) 14; d_ (-113950299042143) 14; d_ 402600805574203 14; d_ (-208537097233115) 15; d_ (-931650595631495) 15; d_ 466970619035377 15; d_ (-290568973442556) 17; d_ (-123144592665690) 18; d_ (-827236618539623) 20; d_ 258285845563832 21; d_ (-217831418710830) 15; d_ (-221964640989811) 17; d_ 150604265978083 18; d_ (-352663476121474) 20; d_ (-110663536210512) 16; d_ 422801683092204 17; d_ (-372863049039343) 18; d_ 966821420958472 20; d_ 183779061373971 15; d_ (-214824173317675) 17; d_ 307969187656688 18; d_ (-974127069736471) 20; d_ 122209387316334 16; d_ (-209538016668006) 17; d_ 586461478424338 20; d_ 244018224990944 20; d_ (-799893453254790) 17; d_ 142224003024994 17; d_ (-577829443034891) 19; d_ 514464403226640 21]);
   (((3, 3, 4), (4, 4, 12))%nat, [d_ (-246238572126454) 14; d_ (-557980619244945) 15; d_ 335007965347792 14; d_ 149271583687058 14; d_ (-852159884980992) 15; d_ (-134843167545900) 14; d_ (-211856990041501) 15; d_ 409205448826163 15; d_ 246394420924314 14; d_ 556623355875623 15; d_ (-411767277988911) 14; d_ (-516699861287642) 15; d_ 224179576256967 14; d_ (-180621211432981) 15; d_ (-446394009986152) 15; d_ 212627589229555 15; d_ (-236704106163026) 17; d_ (-588105370307554) 19; d_ (-180493033686186) 19; d_ 472479124624985 21; d_ (-201234167984236) 15; d_ (-288238591928955) 17; d_ 215186570739545 18; d_ (-564511608621298) 20; d_ 108337777749093 15; d_ 804239652838452 17; d_ (-781142571401022) 18; d_ 214045045678398 19; d_ 658218803857033 16; d_ (-120453079640840) 16; d_ 118654759571041 17; d_ (-335746350477213) 19; d_ (-985946143615434) 17; d_ 595393833401949 17; d_ (-719453220856560) 18; d_ 219230633907763 19; d_ (-540375465088119) 17; d_ (-846848341548514) 18; d_ 148198319580398 18; d_ (-500526209092480) 20]);
   (((3, 3, 4), (4, 12, 5))%nat, [d_ (-195576321229880) 14; d_ (-492072148133158) 15; d_ 247229166645376 14; d_ 131873671733275 14; d_ (-666786731004371) 15; d_ (-120899763742613) 14; d_ (-164162514551636) 15; d_ 374093784399791 15; d_ 195794701838131 14; d_ 490544425713515 15; d_ (-317897259580157) 14; d_ (-483413328087803) 15; d_ 199873500367457 14; d_ (-110763777663860) 15; d_ (-531185188899832) 15; d_ 233862956465584 15; d_ (-354040215779458) 17; d_ (-519364397550688) 19; d_ (-294159731604247) 19; d_ 722637455797058 21; d_ (-115262730498011) 15; d_ (-455938140777668) 17; d_ 337265942488174 18; d_ (-852785857205587) 20; d_ (-664351745018453) 16; d_ 138203618215011 16; d_ (-128510454883613) 17; d_ 333586446357346 19; d_ 153216397392864 15; d_ (-223675817891824) 16; d_ 205756363711104 17; d_ (-542252629704953) 19; d_ (-347721678466647) 16; d_ 133224290584703 16; d_ (-136567414626935) 17; d_ 373655544308738 19; d_ (-911969023126531) 18; d_ (-280696266706339) 17; d_ 321537699550561 18; d_ (-915346951776783) 20]);
   (((3, 3, 4), (4, 12, 6))%nat, [d_ (-175063404153814) 14; d_ (-427078357043118) 15; d_ 231779962651943 14; d_ 114351169636672 14; d_ (-689519289110370) 15; d_ (-104285961872176) 14; d_ (-115701846590095) 15; d_ 320387232029645 15; d_ 175256163017855 14; d_ 425786119115329 15; d_ (-292558923126779) 14; d_ (-412062315505222) 15; d_ 181886891904327 14; d_ (-116576429530665) 15; d_ (-455636856475177) 15; d_ 199971808925751 15; d_ (-300131541717177) 17; d_ (-484030727699399) 19; d_ (-264177284708294) 19; d_ 630259602614324 21; d_ (-112429953079002) 15; d_ (-389822133001925) 17; d_ 278880923467243 18; d_ (-711789717997897) 20; d_ (-143114674597095) 16; d_ 116966565861497 16; d_ (-107555491308172) 17; d_ 280367785779837 19; d_ 103704699577865 15; d_ (-192844995543357) 16; d_ 172863139003590 17; d_ (-457202921359017) 19; d_ (-251649374492313) 16; d_ 114033211016594 16; d_ (-114729353127812) 17; d_ 315491913248303 19; d_ (-385174004161254) 17; d_ (-245611058735632) 17; d_ 271263212089194 18; d_ (-774238384579979) 20]);
   (((3, 3, 4), (4, 12, 12))%nat, [d_ (-134529699327074) 14; d_ (-263785498837472) 15; d_ 225216208018484 14; d_ 694760793145900 15; d_ (-949921621022124) 15; d_ (-597920779256215) 15; d_ 801585352879578 16; d_ 167915969628222 15; d_ 134674763396450 14; d_ 263095093993141 15; d_ (-259686164211103) 14; d_ (-212600037261421) 15; d_ 151019462550852 14; d_ (-172734968564147) 15; d_ (-277770034466109) 15; d_ 103940456403553 15; d_ (-211768639183897) 17; d_ 836935445164590 20; d_ (-270726231621410) 19; d_ 519585786277139 21; d_ (-129231504227771) 15; d_ (-318932310333860) 17; d_ 173069491803784 18; d_ (-505537736399785) 20; d_ 176549680595249 15; d_ 122247058227215 16; d_ (-896567225417050) 18; d_ 236868848462840 19; d_ (-211838663516901) 16; d_ (-257368269054963) 16; d_ 170727964507714 17; d_ (-443324376508274) 19; d_ (-279232568666220) 16; d_ 207532240261204 16; d_ (-143450620397336) 17; d_ 364879367392959 19; d_ (-412208441377565) 17; d_ (-706532430369278) 17; d_ 445975779511816 18; d_ (-108654857170312) 19]);
   (((3, 3, 4), (12, 12, 5))%nat, [d_ (-373457750381787) 15; d_ (-129676479721794) 15; d_ 723963371739668 15; d_ 357956252861244 15; d_ (-600454380618660) 15; d_ (-335252029167953) 15; d_ 136401678898230 15; d_ 103505623606793 15; d_ 375524614061058 15; d_ 128837602860571 15; d_ (-934420081872603) 15; d_ (-154558748973411) 15; d_ 101265897676182 14; d_ (-519602335661278) 16; d_ (-362793683549584) 15; d_ 125477857197397 15; d_ (-320825378999436) 17; d_ 430736947876764 19; d_ (-486800809473181) 19; d_ 877552854801117 21; d_ 219706245497869 16; d_ (-501473492561039) 17; d_ 294903134619364 18; d_ (-840377778652096) 20; d_ (-823018242051513) 16; d_ 191975206602116 16; d_ (-150378468661596) 17; d_ 386229962690682 19; d_ 905943476340654 16; d_ (-399612682979313) 16; d_ 281286608503239 17; d_ (-714170552704677) 19; d_ (-578714747306410) 16; d_ 330449712715675 16; d_ (-239285476121989) 17; d_ 593215727945123 19; d_ 277260167845904 17; d_ (-114415136038611) 16; d_ 748836655977580 18; d_ (-177984423495278) 19]);
   (((3, 3, 4), (12, 12, 6))%nat, [d_ (-892888257907262) 16; d_ (-754121884790714) 16; d_ 239537633566702 15; d_ 206771660135776 15; d_ (-447445160594219) 15; d_ (-198406432981125) 15; d_ 151075754643444 15; d_ 626181465161520 16; d_ 913015970482732 16; d_ 746514782332996 16; d_ (-382130581099023) 15; d_ (-103034217005597) 15; d_ 741380453364799 15; d_ (-202337708327700) 16; d_ (-336713421161724) 15; d_ 110808809179064 15; d_ (-306469236586434) 17; d_ 753047325190886 19; d_ (-478459676594834) 19; d_ 839373961650945 21; d_ 535355942728083 16; d_ (-489635832236788) 17; d_ 279430859395526 18; d_ (-824413303654614) 20; d_ (-132408001795295) 15; d_ 196370476738143 16; d_ (-147237378587553) 17; d_ 380714635351109 19; d_ 107235231719759 15; d_ (-416930724714279) 16; d_ 279279286626529 17; d_ (-709291049876758) 19; d_ (-607283215656210) 16; d_ 358575368729939 16; d_ (-245029751655069) 17; d_ 600428922282653 19; d_ 442977636956611 17; d_ (-128480378469399) 16; d_ 786996866719787 18; d_ (-183481993903654) 19]);
   (((3, 3, 4), (12, 12, 12))%nat, [d_ 208007714944721 14; d_ 290568786620430 15; d_ (-402726290146672) 14; d_ (-865875426815881) 15; d_ 109959599490991 14; d_ 799382170240862 15; d_ 221214990456289 15; d_ (-241645268255637) 15; d_ (-207694104027817) 14; d_ (-291349155921737) 15; d_ 431277304927115 14; d_ 265301711987658 15; d_ (-156114619119143) 14; d_ 285004945682500 15; d_ (-202651715864942) 15; d_ 734187953888068 17; d_ (-458436707702941) 17; d_ 409116507647152 18; d_ (-686969133343579) 19; d_ 109804992565025 20; d_ 340391259251390 15; d_ (-793573907985139) 17; d_ 448128555513300 18; d_ (-155477280814619) 19; d_ (-733042115963881) 15; d_ 388471756085526 16; d_ (-250753706769947) 17; d_ 705250230325453 19; d_ 424292888548302 15; d_ (-863791296635536) 16; d_ 495445946577486 17; d_ (-134909294291026) 18; d_ (-169852311302924) 15; d_ 843819545265799 16; d_ (-472956959875976) 17; d_ 118748465190379 18; d_ 438391133590594 16; d_ (-321512747434537) 16; d_ 156410189103109 17; d_ (-368863125898188) 19]);
   (((3, 4, 5), (4, 6, 6))%nat, [d_ (-214219478867797) 14; d_ (-556388919625945) 15; d_ 299246666861995 14; d_ 156050552792949 14; d_ (-690346254451689) 15; d_ (-148008004616820) 14; d_ (-309933996249723) 15; d_ 471157065424091 15; d_ 214330610244350 14; d_ 554872146001321 15; d_ (-378916509620776) 14; d_ (-624752375634510) 15; d_ 226386315404466 14; d_ (-122182944094495) 15; d_ (-511063920974932) 15; d_ 259803103716420 15; d_ (-177210854130973) 17; d_ (-806582599920820) 19; d_ (-711765599284802) 20; d_ 210475982334403 21; d_ (-135629351861916) 15; d_ (-151294249167547) 17; d_ 106184604905320 18; d_ (-262338421768196) 20; d_ 115510623042698 16; d_ 289311481718744 17; d_ (-284639008432022) 18; d_ 784117453762884 20; d_ 927883878526808 16; d_ (-208300583195941) 17; d_ 289162668743261 18; d_ (-929644363830471) 20; d_ 771454861342198 17; d_ (-980421293908016) 18; d_ (-572517068578153) 19; d_ 372889806838300 20; d_ (-679507628932415) 17; d_ 940236151986013 18; d_ (-268565325103317) 19; d_ (-145767730530102) 21]);
   (((3, 4, 5), (4, 12, 6))%nat, [d_ (-121902179831164) 14; d_ (-280821798466656) 15; d_ 167045540510032 14; d_ 746312523249024 15; d_ (-447951284486611) 15; d_ (-664463812838236) 15; d_ (-775837976689802) 16; d_ 196783662000676 15; d_ 122049225567537 14; d_ 279985525876706 15; d_ (-206467322806163) 14; d_ (-256818114708237) 15; d_ 115984461209493 14; d_ (-101829708341753) 15; d_ (-255153496133630) 15; d_ 109398409665885 15; d_ (-203804054071654) 17; d_ 191742709575192 19; d_ (-161857770997474) 19; d_ 382880549561906 21; d_ (-877438180158896) 16; d_ (-253028285134185) 17; d_ 180229739880724 18; d_ (-450218354880871) 20; d_ 246068787954735 16; d_ 813276676152605 17; d_ (-702683200184421) 18; d_ 178361609480486 19; d_ 615647253659263 16; d_ (-134443610796056) 16; d_ 114196732015797 17; d_ (-293445944947554) 19; d_ (-144475164820968) 16; d_ 819622317113485 17; d_ (-768461586290086) 18; d_ 204348538009053 19; d_ (-476032654861324) 17; d_ (-177204524402337) 17; d_ 182811021415525 18; d_ (-504857232845483) 20]);
   (((3, 4, 5), (12, 5, 6))%nat, [d_ (-163271256346943) 14; d_ (-382932572717439) 15; d_ 225003321403445 14; d_ 101924336680223 14; d_ (-759723676631457) 15; d_ (-920912855778278) 15; d_ (-556591736233016) 16; d_ 279716784302978 15; d_ 163456410342381 14; d_ 381785111829883 15; d_ (-278617256743849) 14; d_ (-357041453315170) 15; d_ 173590545560485 14; d_ (-123167469609902) 15; d_ (-422652963536268) 15; d_ 177955511584026 15; d_ (-308187044505806) 17; d_ (-592965809707587) 19; d_ (-307259319433022) 19; d_ 700763838017694 21; d_ (-114001174231705) 15; d_ (-418102888770165) 17; d_ 296553965309250 18; d_ (-757130222782881) 20; d_ 198097124394237 16; d_ 130261909368773 16; d_ (-119747869230353) 17; d_ 308112792627994 19; d_ 852303455502681 16; d_ (-226488119441082) 16; d_ 198934843139378 17; d_ (-515292077415150) 19; d_ (-365019331939101) 16; d_ 144329787479180 16; d_ (-138200808490245) 17; d_ 367023098506245 19; d_ 141557778840320 19; d_ (-351219416499762) 17; d_ 346625609290817 18; d_ (-934397192810614) 20]);
   (((3, 4, 5), (12, 6, 6))%nat, [d_ (-110866639533126) 14; d_ (-286653801320056) 15; d_ 151158838923164 14; d_ 769499784302390 15; d_ (-582572253938012) 15; d_ (-705429420564972) 15; d_ (-174810653960033) 16; d_ 217519557871802 15; d_ 111053674901065 14; d_ 285617430037238 15; d_ (-193055227799086) 14; d_ (-286491106523760) 15; d_ 137205620618919 14; d_ (-781325962128602) 16; d_ (-393683770014842) 15; d_ 159343318605052 15; d_ (-302859560049896) 17; d_ (-290123768013228) 19; d_ (-326528344961927) 19; d_ 722796464876294 21; d_ (-511421021086301) 16; d_ (-428985547478083) 17; d_ 301281782754085 18; d_ (-772797434672319) 20; d_ (-554686128782265) 16; d_ 137766209230673 16; d_ (-124484916727146) 17; d_ 318769622874759 19; d_ 102371589331025 15; d_ (-244338727209491) 16; d_ 209767138878792 17; d_ (-539739939735774) 19; d_ (-383213744027620) 16; d_ 162255296876574 16; d_ (-150024090102108) 17; d_ 393049677373676 19; d_ (-845659675249376) 19; d_ (-422969623450116) 17; d_ 391081490940473 18; d_ (-102883695387754) 19]);
   (((3, 4, 5), (12, 12, 6))%nat, [d_ 422036134379890 16; d_ (-463335107636355) 16; d_ 275528009716038 16; d_ 131534272217594 15; d_ (-342087182912597) 15; d_ (-134181082708579) 15; d_ 134142202669116 15; d_ 448603062761677 16; d_ (-404901449965272) 16; d_ 456894014940592 16; d_ (-128624097636404) 15; d_ (-792690573906222) 16; d_ 565425812909721 15; d_ (-264944117363612) 17; d_ (-289243848880775) 15; d_ 950133727689250 16; d_ (-264407728826519) 17; d_ 584134557217785 19; d_ (-424332883671585) 19; d_ 732021032941250 21; d_ 615321345678612 16; d_ (-420633176378622) 17; d_ 241549724721815 18; d_ (-709698954927768) 20; d_ (-135787760567445) 15; d_ 167788436936331 16; d_ (-128123355174222) 17; d_ 329980700166847 19; d_ 979436862084936 16; d_ (-356701864314341) 16; d_ 243382166312832 17; d_ (-617471652517643) 19; d_ (-539425120706943) 16; d_ 306296750502488 16; d_ (-213544293233678) 17; d_ 523943281903490 19; d_ 476670388112730 17; d_ (-109335618969300) 16; d_ 682787902943595 18; d_ (-159712727293293) 19]);
   (((3, 5, 6), (12, 6, 7))%nat, [d_ (-212814715223691) 16; d_ (-484337190386468) 16; d_ (-138344596278707) 16; d_ 145773172190172 15; d_ (-120206150863916) 15; d_ (-161156101525900) 15; d_ 138067022036716 16; d_ 603939789155916 16; d_ 217464355026080 16; d_ 481115844181384 16; d_ (-750058967264267) 16; d_ (-845815027483801) 16; d_ 333241683585711 15; d_ 246447128048056 16; d_ (-169164016866576) 15; d_ 696687761422579 16; d_ (-107167130607716) 17; d_ (-711190305954515) 19; d_ (-154363521609418) 19; d_ 294628474786885 21; d_ 328219350853335 16; d_ (-165371381133966) 17; d_ 990454875679007 19; d_ (-241773064348888) 20; d_ (-952570228946231) 16; d_ 465658151252258 17; d_ (-422189707197008) 18; d_ 101013147818037 19; d_ 535990877578541 16; d_ (-853950497502750) 17; d_ 701457075306429 18; d_ (-168617538052863) 19; d_ (-201463885031864) 16; d_ 557139209776242 17; d_ (-500423481358254) 18; d_ 122135708678633 19; d_ 368700463831534 17; d_ (-154863214274899) 17; d_ 131518409918407 18; d_ (-315093310580818) 20]);
   (((4, 4, 6), (5, 6, 7))%nat, [d_ 242471171246963 14; d_ 598111578304175 15; d_ (-331735119312623) 14; d_ (-164575748101567) 14; d_ 742003029245372 15; d_ 152913756429282 14; d_ 309568017351098 15; d_ (-476732246240731) 15; d_ (-242640777103813) 14; d_ (-596483371589587) 15; d_ 416352791539664 14; d_ 624952315163663 15; d_ (-235921218612033) 14; d_ 154636723329880 15; d_ 502988814568644 15; d_ (-252282959083865) 15; d_ 235532432889201 17; d_ 548800038070352 19; d_ 133340873960453 19; d_ (-360907282214358) 21; d_ 168740067305738 15; d_ 235592265962969 17; d_ (-172048387217972) 18; d_ 436001418709393 20; d_ (-410496463725966) 16; d_ (-567976648511862) 17; d_ 548800889082219 18; d_ (-149261682107265) 19; d_ (-970076400748637) 16; d_ 679760990957715 17; d_ (-726990795947437) 18; d_ 211671506795766 19; d_ (-339571874688551) 17; d_ (-178237431676329) 17; d_ 348893496190224 18; d_ (-119991770663113) 19; d_ 913225520140507 17; d_ (-439710995973377) 18; d_ (-392452237293553) 19; d_ 215206924094776 20]);
   (((4, 4, 6), (5, 12, 7))%nat, [d_ 159957513034679 14; d_ 358307559889558 15; d_ (-229472902464574) 14; d_ (-944834286681192) 15; d_ 756789134733340 15; d_ 831610685285424 15; d_ 292194897515472 16; d_ (-242566845878580) 15; d_ (-160178542973245) 14; d_ (-357183086889964) 15; d_ 279437388522168 14; d_ 315173293500077 15; d_ (-163761424718046) 14; d_ 152337610733654 15; d_ 366362563019571 15; d_ (-146359958591074) 15; d_ 314906029578788 17; d_ (-337799247125936) 19; d_ 296701692171900 19; d_ (-667590917299572) 21; d_ 117577117597625 15; d_ 420995972876501 17; d_ (-293030783609522) 18; d_ 748601665748881 20; d_ (-544399369418769) 16; d_ (-142033255671242) 16; d_ 121645978265020 17; d_ (-309916618501428) 19; d_ (-711263497693859) 16; d_ 252520987553995 16; d_ (-207015043033801) 17; d_ 529355298649815 19; d_ 312661736516941 16; d_ (-169755346739686) 16; d_ 149052016126997 17; d_ (-387875493884272) 19; d_ 507831104863488 17; d_ 442414471667195 17; d_ (-390561595111934) 18; d_ 102314632555724 19]);
   (((4, 4, 6), (6, 6, 7))%nat, [d_ 328421180700385 14; d_ 696283590676994 15; d_ (-475812081795107) 14; d_ (-187077251010954) 14; d_ 120170794356358 14; d_ 167319064346826 14; d_ 272482591394760 15; d_ (-498546431362431) 15; d_ (-328591498813726) 14; d_ (-694794717724197) 15; d_ 568658795951568 14; d_ 629100060059805 15; d_ (-284262659742446) 14; d_ 286535104409979 15; d_ 434911314453089 15; d_ (-219895800764603) 15; d_ 235861875817155 17; d_ 618055199281139 19; d_ 134266269779516 19; d_ (-339253372432458) 21; d_ 308640288441451 15; d_ 217491379438731 17; d_ (-150098157384575) 18; d_ 363163209138049 20; d_ (-296937302315386) 15; d_ (-525830023287318) 17; d_ 484564194690280 18; d_ (-122800859717657) 19; d_ (-794170734495787) 18; d_ 673591799196108 17; d_ (-641521169384202) 18; d_ 169190341990938 19; d_ (-478896150386373) 17; d_ (-169519536719705) 17; d_ 281604412964891 18; d_ (-865042611340179) 20; d_ 105043820469270 16; d_ (-487979529125309) 18; d_ (-183036190623158) 19; d_ 115811670880611 20]);
   (((4, 4, 6), (6, 12, 7))%nat, [d_ 102964203214523 14; d_ 263990673536201 15; d_ (-144589510691442) 14; d_ (-701489186493140) 15; d_ 564960258103912 15; d_ 628169484723506 15; d_ (-122082532862556) 16; d_ (-186770253690626) 15; d_ (-103190921866327) 14; d_ (-262925437026585) 15; d_ 183766437603691 14; d_ 254039798406648 15; d_ (-128927936765939) 14; d_ 938634265749800 16; d_ 372678815892472 15; d_ (-141315656261048) 15; d_ 326115481676049 17; d_ (-536681647084225) 19; d_ 335191590994787 19; d_ (-737442797842412) 21; d_ 414231288937743 16; d_ 463209367671081 17; d_ (-321003421595738) 18; d_ 828247088588293 20; d_ 565566917461913 16; d_ (-160777846183750) 16; d_ 136531258416409 17; d_ (-348176937424480) 19; d_ (-107004911902727) 15; d_ 292725705763162 16; d_ (-236683897412724) 17; d_ 604270447448226 19; d_ 382366879186164 16; d_ (-206553844891843) 16; d_ 176546802122237 17; d_ (-454999253150743) 19; d_ 375930849861333 17; d_ 577013398428882 17; d_ (-483262176143273) 18; d_ 124015937342744 19]);
   (((4, 4, 6), (12, 12, 7))%nat, [d_ (-244224816202960) 15; d_ 217017916035434 16; d_ 320648439864878 15; d_ (-557187097857241) 16; d_ 306299165372921 15; d_ 604840330472082 16; d_ (-187786415301081) 15; d_ (-204780032733642) 16; d_ 241989020673614 15; d_ (-209201693134567) 16; d_ (-237096739753885) 15; d_ 565949668837112 16; d_ (-502953250408204) 15; d_ (-138066402617652) 16; d_ 348823656001662 15; d_ (-105664982753525) 15; d_ 334586436248273 17; d_ (-123207890961148) 18; d_ 529813392566204 19; d_ (-911902271460746) 21; d_ (-101260232474700) 15; d_ 555173817264656 17; d_ (-315614988610061) 18; d_ 968893200158688 20; d_ 216971090643527 15; d_ (-235688238883361) 16; d_ 171899980712069 17; d_ (-454460651970228) 19; d_ (-150008062225452) 15; d_ 511179232988955 16; d_ (-334177469278489) 17; d_ 864651574307884 19; d_ 771433357063696 16; d_ (-457172578110295) 16; d_ 302533966673539 17; d_ (-748707276148960) 19; d_ (-854360635167774) 17; d_ 167489972510378 16; d_ (-992204789447278) 18; d_ 233042927325621 19]);
   (((4, 5, 7), (6, 6, 8))%nat, [d_ 172741918308744 14; d_ 383013942203293 15; d_ (-242113776385364) 14; d_ (-102828951990159) 14; d_ 580744865617337 15; d_ 922571607180167 15; d_ 155339706893613 15; d_ (-275922605730259) 15; d_ (-172860804282270) 14; d_ (-382105506970524) 15; d_ 294432756498630 14; d_ 354014214999646 15; d_ (-152304279862932) 14; d_ 141508229422945 15; d_ 272358698409495 15; d_ (-131343882328208) 15; d_ 167238651181296 17; d_ 136023276700430 19; d_ 121773676551029 19; d_ (-312571794381223) 21; d_ 146127325622587 15; d_ 193862573940292 17; d_ (-145160307271972) 18; d_ 374910383355509 20; d_ (-100910409597743) 15; d_ (-558169656550434) 17; d_ 526798579314799 18; d_ (-141433347509040) 19; d_ (-383730202310875) 16; d_ 826725963166158 17; d_ (-796516318504453) 18; d_ 220743016516345 19; d_ 244890436160024 17; d_ (-397729128970506) 17; d_ 476488033481586 18; d_ (-142583611042317) 19; d_ 677679002738495 17; d_ 449701529700884 18; d_ (-930967839895484) 19; d_ 316573817973124 20]);
   (((4, 5, 7), (12, 6, 8))%nat, [d_ 685589084539524 15; d_ 186442039920399 15; d_ (-103412963464955) 14; d_ (-504638551228071) 15; d_ 512227840225040 15; d_ 464064702652484 15; d_ (-398369448059543) 16; d_ (-142598915178705) 15; d_ (-687205620885474) 15; d_ (-185658191067657) 15; d_ 131502660963412 14; d_ 193810511185249 15; d_ (-104521240502410) 14; d_ 634211351749864 16; d_ 316328556362680 15; d_ (-121849399576737) 15; d_ 243190258206402 17; d_ (-726244445314874) 20; d_ 282642678725269 19; d_ (-581996778203648) 21; d_ 191803349190628 16; d_ 354626147724021 17; d_ (-227855535246340) 18; d_ 594736894493391 20; d_ 456991489915694 16; d_ (-120798022559070) 16; d_ 100138188496591 17; d_ (-253520109620790) 19; d_ (-686307445497723) 16; d_ 227653341548192 16; d_ (-175151715417748) 17; d_ 442616701331217 19; d_ 298139811591405 16; d_ (-164270855343967) 16; d_ 133288263661068 17; d_ (-337771301415710) 19; d_ 266316042536848 17; d_ 490996713150256 17; d_ (-376056349478232) 18; d_ 935072692855379 20]);
   (((4, 5, 5), (6, 6, 6))%nat, [d_ 224147610513806 14; d_ 602055116983178 15; d_ (-287641046633289) 14; d_ (-166412500966842) 14; d_ 622923914070024 15; d_ 157109431803582 14; d_ 324775720015451 15; d_ (-500312674919727) 15; d_ (-224326515961366) 14; d_ (-600245064098009) 15; d_ 375247253549786 14; d_ 659766289693429 15; d_ (-234702623342117) 14; d_ 101056540824634 15; d_ 602095012225147 15; d_ (-294260153802399) 15; d_ 271218914436578 17; d_ 729540385545158 19; d_ 161359627880213 19; d_ (-438931269903111) 21; d_ 120406688048098 15; d_ 293285265300251 17; d_ (-215758684330234) 18; d_ 545301208460902 20; d_ 856066809123827 16; d_ (-735486168105023) 17; d_ 706478594379640 18; d_ (-190534432357053) 19; d_ (-156137076863385) 15; d_ 942046369843523 17; d_ (-977846550644861) 18; d_ 278533134170535 19; d_ 400728293485119 17; d_ (-351057439574123) 17; d_ 523382700856309 18; d_ (-167537765163827) 19; d_ 696252090494474 17; d_ 885329791162548 20; d_ (-846750498311775) 19; d_ 339751474308935 20]);
   (((4, 5, 5), (12, 6, 6))%nat, [d_ 210757089438872 14; d_ 456257538523626 15; d_ (-310580300888350) 14; d_ (-120990175714815) 14; d_ 107557700614378 14; d_ 107453527660576 14; d_ 365480808865210 16; d_ (-318342010784468) 15; d_ (-210968631452471) 14; d_ (-455016400719970) 15; d_ 372546092667726 14; d_ 401566165766360 15; d_ (-215911992488224) 14; d_ 196768886123946 15; d_ 441660165127126 15; d_ (-186095261781645) 15; d_ 325169815956856 17; d_ 470428097476453 19; d_ 333160679029189 19; d_ (-739939884106178) 21; d_ 176809549893196 15; d_ 432162763601032 17; d_ (-293206267781705) 18; d_ 765785552064696 20; d_ (-140906320119016) 15; d_ (-136260853547250) 16; d_ 121466996756827 17; d_ (-315785896820714) 19; d_ (-351314278417602) 16; d_ 244003895583237 16; d_ (-204140652667883) 17; d_ 533056099948611 19; d_ 299557397415148 16; d_ (-157682052770709) 16; d_ 143664042080153 17; d_ (-383711016189579) 19; d_ 529147167077419 17; d_ 404928656547132 17; d_ (-368271591758608) 18; d_ 990579340515259 20]);
   (((4, 6, 6), (6, 7, 7))%nat, [d_ 998424008723157 15; d_ 252802293515746 15; d_ (-129758192518085) 14; d_ (-687444893656029) 15; d_ 317273192120641 15; d_ 636665686634570 15; d_ 108906810080517 15; d_ (-198599605200764) 15; d_ (-999401436938611) 15; d_ (-252044355597286) 15; d_ 165971517541259 14; d_ 259211828534140 15; d_ (-100965227266076) 14; d_ 564255149155451 16; d_ 250848576284350 15; d_ (-116798042212264) 15; d_ 151565063368185 17; d_ 240554311933963 19; d_ 111186498587302 19; d_ (-282324027470951) 21; d_ 610946918632837 16; d_ 178063642424194 17; d_ (-131141103639346) 18; d_ 331629001490370 20; d_ 195914981468280 16; d_ (-503572944493089) 17; d_ 471619659908090 18; d_ (-123770477345939) 19; d_ (-645835134080525) 16; d_ 761710055069952 17; d_ (-719852042801623) 18; d_ 193575454049974 19; d_ 740366772659415 17; d_ (-396430593758295) 17; d_ 443591461491892 18; d_ (-126522752313313) 19; d_ 320314109716380 17; d_ 609501631077704 18; d_ (-925941162151616) 19; d_ 287713551510510 20]);
   (((4, 6, 6), (12, 7, 7))%nat, [d_ 540563537699066 15; d_ 155976455058877 15; d_ (-827733195457660) 15; d_ (-429740375927118) 15; d_ 451124796337535 15; d_ 406505204391334 15; d_ (-331706250797056) 16; d_ (-129500876509379) 15; d_ (-541836945752523) 15; d_ (-155307512111538) 15; d_ 106344286882181 14; d_ 174573269934750 15; d_ (-911222603539796) 15; d_ 407371043962413 16; d_ 283602994300583 15; d_ (-112737260630446) 15; d_ 209603874128016 17; d_ 340818129601407 19; d_ 272505148084715 19; d_ (-545621772132865) 21; d_ 103266353540452 16; d_ 306794661085578 17; d_ (-194627230669998) 18; d_ 511952106063117 20; d_ 465351809683254 16; d_ (-987825994217385) 17; d_ 858485442087632 18; d_ (-218131269620980) 19; d_ (-567380316298969) 16; d_ 186444916055620 16; d_ (-148173779876088) 17; d_ 376838430491165 19; d_ 279170039709121 16; d_ (-131236355539612) 16; d_ 111244841861670 17; d_ (-284636477704387) 19; d_ 211724033593322 18; d_ 390890106515983 17; d_ (-309621400067450) 18; d_ 776417199868740 20]);
   (((4, 4, 4), (5, 5, 6))%nat, [d_ 209066876605832 14; d_ 700305205172485 15; d_ (-254115357145426) 14; d_ (-201562017178018) 14; d_ 496538161564588 15; d_ 200073937529836 14; d_ 478308733653519 15; d_ (-670612155222510) 15; d_ (-209178807779157) 14; d_ (-698038010355779) 15; d_ 361494826543358 14; d_ 908203460857226 15; d_ (-278112700540170) 14; d_ 110653993888038 17; d_ 873587259399374 15; d_ (-438949044796251) 15; d_ 223609909490268 17; d_ 151097149111709 18; d_ 110129442736985 19; d_ (-346497092406433) 21; d_ 275027898201453 16; d_ 249274624191111 17; d_ (-181122954291999) 18; d_ 462993965153250 20; d_ 310142998400761 15; d_ (-461775057635349) 17; d_ 490298288981350 18; d_ (-141874991849013) 19; d_ (-244600437119987) 15; d_ 319935104647825 17; d_ (-522836980952936) 18; d_ 177924022347532 19; d_ (-131979368622931) 16; d_ 142374002051063 17; d_ 154957724813348 18; d_ (-856575845178011) 20; d_ 977789945810810 17; d_ (-131302112850423) 17; d_ 166839380182426 19; d_ 112259833971293 20]);
   (((4, 4, 4), (5, 6, 6))%nat, [d_ 280825409360361 14; d_ 739179789219227 15; d_ (-376182467763305) 14; d_ (-205608849322845) 14; d_ 872931022177130 15; d_ 194689147277941 14; d_ 396059198907514 15; d_ (-621110048424397) 15; d_ (-281015642039096) 14; d_ (-737000079487816) 15; d_ 482659470268327 14; d_ 816989465713922 15; d_ (-296785161615455) 14; d_ 140786168543780 15; d_ 714981706463392 15; d_ (-356363894847830) 15; d_ 288489296900762 17; d_ 116533067840323 18; d_ 128735532974487 19; d_ (-353474440931333) 21; d_ 168041027431493 15; d_ 255357679081748 17; d_ (-174563202217657) 18; d_ 414910780586812 20; d_ 362387895130795 16; d_ (-531315224693507) 17; d_ 496723853295863 18; d_ (-127611915321588) 19; d_ (-145739904279344) 15; d_ 531541387304452 17; d_ (-577233744262706) 18; d_ 160783611176464 19; d_ (-459436039826276) 17; d_ (-233715590420514) 18; d_ 200607668599704 18; d_ (-733576025833301) 20; d_ 839032029004200 17; d_ (-912582433497657) 18; d_ 730098242948148 20; d_ 717137042849203 21]);
   (((4, 4, 4), (6, 6, 6))%nat, [d_ 228704453837613 14; d_ 623420825294131 15; d_ (-289528161745118) 14; d_ (-172381779815866) 14; d_ 622915421870956 15; d_ 163137937904704 14; d_ 337902828221505 15; d_ (-521233955663722) 15; d_ (-228892637878413) 14; d_ (-621510448410470) 15; d_ 380685542335907 14; d_ 687672520994337 15; d_ (-242454925399041) 14; d_ 951147799877874 16; d_ 640634945624372 15; d_ (-311685020389269) 15; d_ 287786540442824 17; d_ 768627613323565 19; d_ 173187684811669 19; d_ (-472055988872222) 21; d_ 116004646388561 15; d_ 315185773271094 17; d_ (-232754957021284) 18; d_ 589360269386325 20; d_ 111576752739526 15; d_ (-796450031776757) 17; d_ 765609339541767 18; d_ (-206702227528153) 19; d_ (-172425051475457) 15; d_ 102901229020937 16; d_ (-106582145230674) 17; d_ 303444717002926 19; d_ 571433069158774 17; d_ (-398560591008706) 17; d_ 578317963837617 18; d_ (-183981068308176) 19; d_ 666905997806971 17; d_ 102789098862284 18; d_ (-970900352819812) 19; d_ 378994297070215 20]);
   (((4, 4, 4), (5, 5, 12))%nat, [d_ 210400894065802 14; d_ 493471285717820 15; d_ (-283098150780710) 14; d_ (-131427690455168) 14; d_ 813961432762250 15; d_ 118552784412553 14; d_ 133355656625135 15; d_ (-359118498161605) 15; d_ (-210623366060073) 14; d_ (-492024462655871) 15; d_ 352369358580079 14; d_ 459498392000066 15; d_ (-207639096804941) 14; d_ 154210358796116 15; d_ 480841121983828 15; d_ (-211098605159052) 15; d_ 333840719415964 17; d_ 327061547765378 19; d_ 289247018994803 19; d_ (-695443282249669) 21; d_ 149912729692413 15; d_ 427315980884394 17; d_ (-308479511514747) 18; d_ 792278379809873 20; d_ (-288608694823691) 16; d_ (-130103203937724) 16; d_ 119435122299884 17; d_ (-313120442226453) 19; d_ (-101605880615255) 15; d_ 214619773413301 16; d_ (-192441421050299) 17; d_ 511979259215601 19; d_ 270994004824335 16; d_ (-127457500746471) 16; d_ 128042470962859 17; d_ (-354197457589606) 19; d_ 458723590953162 17; d_ 275066935143207 17; d_ (-303407264968036) 18; d_ 871799262022716 20]);
   (((4, 4, 4), (5, 6, 12))%nat, [d_ 159300279608019 14; d_ 395102847027918 15; d_ (-212076977465298) 14; d_ (-105555001918619) 14; d_ 664634454767674 15; d_ 958535721592745 15; d_ 831826662459624 16; d_ (-292383367716455) 15; d_ (-159523668135097) 14; d_ (-393789428769852) 15; d_ 269047003495230 14; d_ 381209875872025 15; d_ (-172231319846553) 14; d_ 113115541031027 15; d_ 450535980418951 15; d_ (-190422624329005) 15; d_ 331086179143518 17; d_ 613810751290889 20; d_ 310095953822199 19; d_ (-724836772170480) 21; d_ 914915601377041 16; d_ 445146427192873 17; d_ (-317637933448040) 18; d_ 817690892951840 20; d_ 366640661401226 16; d_ (-140256027033470) 16; d_ 126264036268026 17; d_ (-328772560392929) 19; d_ (-113736964975119) 15; d_ 238241244034205 16; d_ (-207619946851404) 17; d_ 546529037238005 19; d_ 301018179774281 16; d_ (-149369798309964) 16; d_ 143054247368578 17; d_ (-387846791001815) 19; d_ 463103279378705 17; d_ 355897086509373 17; d_ (-356093288754370) 18; d_ 986514996492390 20]);
   (((4, 4, 4), (5, 12, 12))%nat, [d_ 974262492073940 15; d_ 215316799537894 15; d_ (-169830685959792) 14; d_ (-571803601804710) 15; d_ 880773535430457 15; d_ 500684929238419 15; d_ (-129333470581557) 15; d_ (-143169931354522) 15; d_ (-976111403498654) 15; d_ (-214521012575412) 15; d_ 199880364574604 14; d_ 192352460501930 15; d_ (-139594676838876) 14; d_ 133485981967122 15; d_ 344008824416384 15; d_ (-121452496451217) 15; d_ 275340241894652 17; d_ (-383273699342290) 19; d_ 391661848944953 19; d_ (-725940777389933) 21; d_ 668672924837183 16; d_ 436631715626199 17; d_ (-243960521475298) 18; d_ 721140327308856 20; d_ (-705529670878929) 16; d_ (-172940394570158) 16; d_ 128448903013590 17; d_ (-338287543445531) 19; d_ (-287845837773862) 16; d_ 367872914497333 16; d_ (-246248423019562) 17; d_ 636815941423171 19; d_ 459160706049164 16; d_ (-308495302928968) 16; d_ 212833679946650 17; d_ (-534803919887172) 19; d_ 122522646638219 17; d_ 108292435977975 16; d_ (-676563990898527) 18; d_ 162277691331570 19]);
   (((4, 4, 4), (6, 6, 12))%nat, [d_ 179557081651173 14; d_ 396650891685617 15; d_ (-257041641719956) 14; d_ (-104385265812719) 14; d_ 841018217806218 15; d_ 917521038702766 15; d_ 350979650004940 16; d_ (-267644268913609) 15; d_ (-179795285932241) 14; d_ (-395419771097876) 15; d_ 311853215645453 14; d_ 344474276275012 15; d_ (-179955285449388) 14; d_ 168028314554513 15; d_ 390775838023980 15; d_ (-156774229630813) 15; d_ 345869933286992 17; d_ (-308282769500949) 19; d_ 339256973214047 19; d_ (-771368381277000) 21; d_ 137755366311106 15; d_ 465724894356797 17; d_ (-331873163675224) 18; d_ 859688597826895 20; d_ (-737799593649695) 16; d_ (-156171533743718) 16; d_ 138006137841154 17; d_ (-356748028406545) 19; d_ (-736109738039040) 16; d_ 277550733169148 16; d_ (-234593866686369) 17; d_ 609033831962381 19; d_ 374434870034333 16; d_ (-186089302631072) 16; d_ 168714383537472 17; d_ (-445973141194451) 19; d_ 326158780389532 17; d_ 484895256562969 17; d_ (-441539021109030) 18; d_ 117487048463485 19]);
   (((4, 4, 4), (6, 12, 12))%nat, [d_ 526585016899371 15; d_ 140290200037086 15; d_ (-971161151794264) 15; d_ (-371417425361688) 15; d_ 671635769757586 15; d_ 327384210270523 15; d_ (-152402322285805) 15; d_ (-937306790186619) 16; d_ (-528508272956277) 15; d_ (-139533870487960) 15; d_ 118470643391164 14; d_ 136360417391982 15; d_ (-105355010002278) 14; d_ 828582093897455 16; d_ 335284321968435 15; d_ (-111127677454377) 15; d_ 284815896047565 17; d_ (-721529614889717) 19; d_ 419235564039182 19; d_ (-752171366244631) 21; d_ 817552465576421 17; d_ 465134583625585 17; d_ (-253661202703718) 18; d_ 769820041095422 20; d_ 252765622631305 16; d_ (-192526265203718) 16; d_ 137693471821187 17; d_ (-363863168392371) 19; d_ (-677965068743374) 16; d_ 416297133807668 16; d_ (-268090811469273) 17; d_ 692855994315965 19; d_ 556656714454914 16; d_ (-362860655519681) 16; d_ 239170262475949 17; d_ (-594668104376819) 19; d_ (-199395204912831) 17; d_ 131144138047660 16; d_ (-779717463888969) 18; d_ 184139233254138 19]);
   (((4, 4, 4), (12, 12, 12))%nat, [d_ (-124210310396193) 14; d_ (-159725506553029) 15; d_ 260193506680308 14; d_ 519196839945744 15; d_ (-558524229711173) 15; d_ (-497671212949024) 15; d_ (-224037592516291) 15; d_ 153912839719329 15; d_ 123991437175522 14; d_ 160352910196943 15; d_ (-274736064114001) 14; d_ (-176852482240692) 15; d_ 819569366011630 15; d_ (-183741422310728) 15; d_ 246990474653860 15; d_ (-422660445922953) 16; d_ 318186809874449 17; d_ (-193750789084718) 18; d_ 516422217935972 19; d_ (-594605128815383) 21; d_ (-213308206670970) 15; d_ 531405896303429 17; d_ (-134971509208458) 18; d_ 814206816038753 20; d_ 497720726322018 15; d_ (-287360094000296) 16; d_ 124557723472852 17; d_ (-386435412404371) 19; d_ (-289460246687436) 15; d_ 706325150391368 16; d_ (-272692995047770) 17; d_ 778119390318640 19; d_ 128913776365168 15; d_ (-740551432237739) 16; d_ 306414023723629 17; d_ (-748608079884618) 19; d_ (-316231452267994) 16; d_ 303214856750955 16; d_ (-111407204002267) 17; d_ 246950448755328 19])].
