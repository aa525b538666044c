(** The tables of the GERG-2004 and GERG-2008 models, [include/teqp/models/GERG/GERG.hpp], taken
    over mechanically.  A number is its decimal literal, a mantissa and the number of decimal
    places: [d_ m e] is m / 10^e. *)
From Coq Require Import Reals ZArith String List.
Import ListNotations.
Local Open Scope Z_scope.
Record dnum := d_ { dm : Z; de : nat }.
Definition val (d : dnum) : R := (IZR (dm d) / 10 ^ de d)%R.
(** [PureCoeffs], [DepartureCoeffs], lines 25-35; the exponents that are cast to integers are
    integers in all tables *)
Record pcoef := { pc_n : list dnum; pc_t : list dnum; pc_d : list nat; pc_c : list dnum; pc_l : list nat }.
Record dcoef := { dc_n : list dnum; dc_t : list dnum; dc_d : list nat; dc_eta : list dnum; dc_beta : list dnum; dc_gamma : list dnum; dc_epsilon : list dnum }.
(** [BetasGammas], lines 29-31 *)
Record bip := { b_V : dnum; g_V : dnum; b_T : dnum; g_T : dnum }.

(** line 431 *)
Definition names04 : list string := ["methane"; "nitrogen"; "carbondioxide"; "ethane"; "propane"; "n-butane"; "isobutane"; "n-pentane"; "isopentane"; "n-hexane"; "n-heptane"; "n-octane"; "hydrogen"; "oxygen"; "carbonmonoxide"; "water"; "helium"; "argon"]%string.
(** line 962 *)
Definition names08 : list string := ["methane"; "nitrogen"; "carbondioxide"; "ethane"; "propane"; "n-butane"; "isobutane"; "n-pentane"; "isopentane"; "n-hexane"; "n-heptane"; "n-octane"; "hydrogen"; "oxygen"; "carbonmonoxide"; "water"; "helium"; "argon"; "hydrogensulfide"; "n-nonane"; "n-decane"]%string.
(** critical density in mol/dm3, critical temperature in K, molar mass in g/mol, lines 437-457 *)
Definition info04 : list (string * (dnum * dnum * dnum)) :=
  [("methane"%string, (d_ 10139342719 9, d_ 190564 3, d_ 1604246 5));
   ("nitrogen"%string, (d_ 111839 4, d_ 126192 3, d_ 280134 4));
   ("carbondioxide"%string, (d_ 10624978698 9, d_ 3041282 4, d_ 440095 4));
   ("ethane"%string, (d_ 687085454 8, d_ 305322 3, d_ 3006904 5));
   ("propane"%string, (d_ 5000043088 9, d_ 369825 3, d_ 4409562 5));
   ("n-butane"%string, (d_ 3920016792 9, d_ 425125 3, d_ 581222 4));
   ("isobutane"%string, (d_ 386014294 8, d_ 407817 3, d_ 581222 4));
   ("n-pentane"%string, (d_ 3215577588 9, d_ 4697 1, d_ 7214878 5));
   ("isopentane"%string, (d_ 3271018581 9, d_ 46035 2, d_ 7214878 5));
   ("n-hexane"%string, (d_ 2705877875 9, d_ 50782 2, d_ 8617536 5));
   ("n-heptane"%string, (d_ 2315324434 9, d_ 54013 2, d_ 10020194 5));
   ("n-octane"%string, (d_ 2056404127 9, d_ 56932 2, d_ 11422852 5));
   ("hydrogen"%string, (d_ 1494 2, d_ 3319 2, d_ 201588 5));
   ("oxygen"%string, (d_ 1363 2, d_ 154595 3, d_ 319988 4));
   ("carbonmonoxide"%string, (d_ 1085 2, d_ 1328 1, d_ 280101 4));
   ("water"%string, (d_ 1787371609 8, d_ 647096 3, d_ 1801528 5));
   ("helium"%string, (d_ 17399 3, d_ 51953 4, d_ 4002602 6));
   ("argon"%string, (d_ 13407429659 9, d_ 150687 3, d_ 39948 3))].
(** critical density in mol/dm3, critical temperature in K, molar mass in g/mol, lines 968-975 *)
Definition info08 : list (string * (dnum * dnum * dnum)) :=
  [("carbonmonoxide"%string, (d_ 1085 2, d_ 13286 2, d_ 280101 4));
   ("isopentane"%string, (d_ 3271 3, d_ 46035 2, d_ 7214878 5));
   ("n-nonane"%string, (d_ 181 2, d_ 59455 2, d_ 1282551 4));
   ("n-decane"%string, (d_ 164 2, d_ 6177 1, d_ 14228168 5));
   ("hydrogensulfide"%string, (d_ 1019 2, d_ 3731 1, d_ 3408088 5))].
(** lines 470-489 *)
Definition ideal04 : list (string * (list dnum * list dnum)) :=
  [("methane"%string, ([d_ 19597538587 9; d_ (-83959667892) 9; d_ 300088 5; d_ 76315 5; d_ 46 4; d_ 874432 5; d_ (-446921) 5], [d_ 4306474465 9; d_ 936220902 9; d_ 5577233895 9; d_ 5722644361 9]));
   ("nitrogen"%string, ([d_ 11083437707 9; d_ (-22202102428) 9; d_ 250031 5; d_ 13732 5; d_ (-1466) 4; d_ 90066 5; d_ 0 0], [d_ 525182262 8; d_ (-5393067706) 9; d_ 13788988208 9; d_ 0 0]));
   ("carbondioxide"%string, ([d_ 11925182741 9; d_ (-16118762264) 9; d_ 250002 5; d_ 204452 5; d_ (-106044) 5; d_ 203366 5; d_ 1393 5], [d_ 3022758166 9; d_ (-2844425476) 9; d_ 1589964364 9; d_ 112159609 8]));
   ("ethane"%string, ([d_ 24675465518 9; d_ (-7742531376) 8; d_ 300263 5; d_ 433939 5; d_ 123722 5; d_ 131974 4; d_ (-601989) 5], [d_ 1831882406 9; d_ 731306621 9; d_ 3378007481 9; d_ 3508721939 9]));
   ("propane"%string, ([d_ 31602934734 9; d_ (-84463284382) 9; d_ 302939 5; d_ 660569 5; d_ 3197 3; d_ 191921 4; d_ (-837267) 5], [d_ 1297521801 9; d_ 543210978 9; d_ 2583146083 9; d_ 2777773271 9]));
   ("n-butane"%string, ([d_ 2088416879 8; d_ (-91638478026) 9; d_ 333944 5; d_ 944893 5; d_ 689406 5; d_ 244618 4; d_ 147824 4], [d_ 1101487798 9; d_ 43195766 8; d_ 4502440459 9; d_ 2124516319 9]));
   ("isobutane"%string, ([d_ 20413751434 9; d_ (-94467620036) 9; d_ 306714 5; d_ 897575 5; d_ 525156 5; d_ 251423 4; d_ 161388 4], [d_ 1074673199 9; d_ 485556021 9; d_ 4671261865 9; d_ 219158348 8]));
   ("n-pentane"%string, ([d_ 14536635738 9; d_ (-89919548319) 9; d_ 3 0; d_ 895043 5; d_ 21836 3; d_ 334032 4; d_ 0 0], [d_ 380391739 9; d_ 1789520971 9; d_ 3777411113 9; d_ 0 0]));
   ("isopentane"%string, ([d_ 15449937973 9; d_ (-101298172792) 9; d_ 3 0; d_ 117618 4; d_ 201101 4; d_ 331688 4; d_ 0 0], [d_ 635392636 9; d_ 1977271641 9; d_ 4169371131 9; d_ 0 0]));
   ("n-hexane"%string, ([d_ 14345993081 9; d_ (-96165722367) 9; d_ 3 0; d_ 116977 4; d_ 268142 4; d_ 386164 4; d_ 0 0], [d_ 359036667 9; d_ 1691951873 9; d_ 3596924107 9; d_ 0 0]));
   ("n-heptane"%string, ([d_ 15063809621 9; d_ (-97345252349) 9; d_ 3 0; d_ 137266 4; d_ 304707 4; d_ 435561 4; d_ 0 0], [d_ 314348398 9; d_ 154813656 8; d_ 3259326458 9; d_ 0 0]));
   ("n-octane"%string, ([d_ 15864709639 9; d_ (-97370667555) 9; d_ 3 0; d_ 156865 4; d_ 338029 4; d_ 481731 4; d_ 0 0], [d_ 27914354 8; d_ 1431644769 9; d_ 2973845992 9; d_ 0 0]));
   ("hydrogen"%string, ([d_ 13796474934 9; d_ (-175864487294) 9; d_ 147906 5; d_ 95806 5; d_ 45444 5; d_ 156039 5; d_ (-13756) 4], [d_ 6891654113 9; d_ 984763483 8; d_ 4976529075 8; d_ 50367279301 9]));
   ("oxygen"%string, ([d_ 10001874708 9; d_ (-14996095135) 9; d_ 250146 5; d_ 107558 5; d_ 101334 5; d_ 0 0; d_ 0 0], [d_ 14461722565 9; d_ 7223325463 9; d_ 0 0; d_ 0 0]));
   ("carbonmonoxide"%string, ([d_ 10814500335 9; d_ (-19843695435) 9; d_ 250055 5; d_ 102865 5; d_ 493 5; d_ 0 0; d_ 0 0], [d_ 11675075301 9; d_ 5305158133 9; d_ 0 0; d_ 0 0]));
   ("water"%string, ([d_ 820355305 8; d_ (-11996306443) 9; d_ 300392 5; d_ 1059 5; d_ 98763 5; d_ 306904 5; d_ 0 0], [d_ 415386589 9; d_ 1763895929 9; d_ 3874803739 9; d_ 0 0]));
   ("helium"%string, ([d_ 13628441975 9; d_ (-143470759602) 9; d_ 15 1; d_ 0 0; d_ 0 0; d_ 0 0; d_ 0 0], [d_ 0 0; d_ 0 0; d_ 0 0; d_ 0 0]));
   ("argon"%string, ([d_ 8316662546 9; d_ (-49465026) 7; d_ 15 1; d_ 0 0; d_ 0 0; d_ 0 0; d_ 0 0], [d_ 0 0; d_ 0 0; d_ 0 0; d_ 0 0]))].
(** lines 1124-1132 *)
Definition ideal08 : list (string * (list dnum * list dnum)) :=
  [("carbonmonoxide"%string, ([d_ 10813340744 9; d_ (-19834733959) 9; d_ 250055 5; d_ 102865 5; d_ 493 5; d_ 0 0; d_ 0 0], [d_ 116698028 7; d_ 5302762306 9; d_ 0 0; d_ 0 0]));
   ("isopentane"%string, ([d_ 15449907693 9; d_ (-101298172792) 9; d_ 3 0; d_ 117618 4; d_ 201101 4; d_ 331688 4; d_ 0 0], [d_ 635392636 9; d_ 1977271641 9; d_ 4169371131 9; d_ 0 0]));
   ("n-nonane"%string, ([d_ 16313913248 9; d_ (-102160247463) 9; d_ 3 0; d_ 180241 4; d_ 381235 4; d_ 533415 4; d_ 0 0], [d_ 263819696 9; d_ 1370586158 9; d_ 2848860483 9; d_ 0 0]));
   ("n-decane"%string, ([d_ 15870791919 9; d_ (-108858547525) 9; d_ 3 0; d_ 210069 4; d_ 434931 4; d_ 583657 4; d_ 0 0], [d_ 267034159 9; d_ 1353835195 9; d_ 2833479035 9; d_ 0 0]));
   ("hydrogensulfide"%string, ([d_ 9336197742 9; d_ (-16266508995) 9; d_ 3 0; d_ 311942 5; d_ 100243 5; d_ 0 0; d_ 0 0], [d_ 4914580541 9; d_ 227065398 8; d_ 0 0; d_ 0 0]))].
(** lines 514-518 *)
Definition n_mne04 : list (string * list dnum) :=
  [("methane"%string, [d_ 57335704239162 14; d_ (-1676068752373) 12; d_ 23405291834916 14; d_ (-21947376343441) 14; d_ 16369201404128 15; d_ 1500440638928 14; d_ 98990489492918 15; d_ 58382770929055 14; d_ (-7478686756039) 13; d_ 30033302857974 14; d_ 20985543806568 14; d_ (-18590151133061) 15; d_ (-15782558339049) 14; d_ 12716735220791 14; d_ (-32019743894346) 15; d_ (-68049729364536) 15; d_ 24291412853736 15; d_ 51440451639444 16; d_ (-19084949733532) 15; d_ 55229677241291 16; d_ (-44197392976085) 16; d_ 40061416708429 15; d_ (-33752085907575) 15; d_ (-25127658213357) 16]);
   ("nitrogen"%string, [d_ 59889711801201 14; d_ (-16941557480731) 13; d_ 24579736191718 14; d_ (-23722456755175) 14; d_ 17954918715141 15; d_ 14592875720215 15; d_ 10008065936206 14; d_ 73157115385532 14; d_ (-88372272336366) 14; d_ 31887660246708 14; d_ 20766491728799 14; d_ (-19379315454158) 15; d_ (-16936641554983) 14; d_ 13546846041701 14; d_ (-33066712095307) 15; d_ (-60690817018557) 15; d_ 12797548292871 15; d_ 58743664107299 16; d_ (-18451951971969) 15; d_ 47226622042472 16; d_ (-52024079680599) 16; d_ 43563505956635 15; d_ (-36251690750939) 15; d_ (-28974026866543) 16]);
   ("ethane"%string, [d_ 63596780450714 14; d_ (-17377981785459) 13; d_ 28914060926272 14; d_ (-33714276845694) 14; d_ 22405964699561 15; d_ 15715424886913 15; d_ 11450634253745 14; d_ 10612049379745 13; d_ (-12855224439423) 13; d_ 39414630777652 14; d_ 31390924682041 14; d_ (-21592277117247) 15; d_ (-21723666564905) 14; d_ (-28999574439489) 14; d_ 42321173025732 14; d_ 4643410025926 14; d_ (-13138398329741) 14; d_ 11492850364368 15; d_ (-33387688429909) 15; d_ 15183171583644 15; d_ (-47610805647657) 16; d_ 46917166277885 15; d_ (-39401755804649) 15; d_ (-32569956247611) 16])].
(** lines 520-532 *)
Definition n_main04 : list (string * list dnum) :=
  [("propane"%string, [d_ 10403973107358 13; d_ (-28318404081403) 13; d_ 84393809606294 14; d_ (-76559591850023) 15; d_ 9469737305728 14; d_ 24796475497006 17; d_ 2774376042287 13; d_ (-43846000648377) 15; d_ (-2699106478435) 13; d_ (-6931341308986) 14; d_ (-29632145981653) 15; d_ 1404012675138 14]);
   ("n-butane"%string, [d_ 10626277411455 13; d_ (-2862095182835) 12; d_ 88738233403777 14; d_ (-12570581155345) 14; d_ 10286308708106 14; d_ 25358040602654 17; d_ 32325200233982 14; d_ (-37950761057432) 15; d_ (-32534802014452) 14; d_ (-79050969051011) 15; d_ (-20636720547775) 15; d_ 5705380933475 15]);
   ("isobutane"%string, [d_ 104293315891 11; d_ (-28184272548892) 13; d_ 8617623239785 13; d_ (-10613619452487) 14; d_ 98615749302134 15; d_ 23948208682322 17; d_ 3033000485695 13; d_ (-41598156135099) 15; d_ (-29991937470058) 14; d_ (-80369342764109) 15; d_ (-29761373251151) 15; d_ 1305963030314 14]);
   ("n-pentane"%string, [d_ 10968643098001 13; d_ (-29988888298061) 13; d_ 99516886799212 14; d_ (-16170708558539) 14; d_ 11334460072775 14; d_ 26760595150748 17; d_ 40979881986931 14; d_ (-40876423083075) 15; d_ (-38169482469447) 14; d_ (-10931956843993) 14; d_ (-3207322332799) 14; d_ 16877016216975 15]);
   ("isopentane"%string, [d_ 11017531966644 13; d_ (-3008236853198) 12; d_ 99411904271336 14; d_ (-14008636562629) 14; d_ 11193995351286 14; d_ 2954804254123 16; d_ 36370108598133 14; d_ (-48236083488293) 15; d_ (-35100280270615) 14; d_ (-10185043812047) 14; d_ (-35242601785454) 15; d_ 19756797599888 15]);
   ("n-hexane"%string, [d_ 10553238013661 13; d_ (-26120615890629) 13; d_ 7661388296726 13; d_ (-29770320622459) 14; d_ 11879907733358 14; d_ 27922861062617 17; d_ 46347589844105 14; d_ 11433196980297 15; d_ (-48256968738131) 14; d_ (-93750558924659) 15; d_ (-67273247155994) 16; d_ (-51141583585428) 16]);
   ("n-heptane"%string, [d_ 10543747645262 13; d_ (-26500681506144) 13; d_ 81730047827543 14; d_ (-30451391253428) 14; d_ 122538687108 12; d_ 27266472743928 17; d_ 4986582568167 13; d_ (-71432815084176) 17; d_ (-5423689552545) 13; d_ (-13801821610756) 14; d_ (-61595287380011) 16; d_ 48602510393022 17]);
   ("n-octane"%string, [d_ 10722544875633 13; d_ (-24632951172003) 13; d_ 65386674054928 14; d_ (-36324974085628) 14; d_ 12713269626764 14; d_ 3071357277793 16; d_ 5265685698754 13; d_ 19362862857653 15; d_ (-58939426849155) 14; d_ (-14069963991934) 14; d_ (-78966330500036) 16; d_ 33036597968109 16]);
   ("oxygen"%string, [d_ 88878286369701 14; d_ (-24879433312148) 13; d_ 59750190775886 14; d_ 96501817061881 16; d_ 7197042871277 14; d_ 22337443000195 17; d_ 18558686391474 14; d_ (-3812936803576) 14; d_ (-15352245383006) 14; d_ (-26726814910919) 15; d_ (-25675298677127) 15; d_ 95714302123668 16]);
   ("carbonmonoxide"%string, [d_ 92310041400851 14; d_ (-248858452058) 11; d_ 58095213783396 14; d_ 28859164394654 15; d_ 70256257276544 15; d_ 21687043269488 17; d_ 13758331015182 14; d_ (-51501116343466) 15; d_ (-14865357483379) 14; d_ (-3885710088681) 14; d_ (-29100433948943) 15; d_ 14155684466279 15]);
   ("argon"%string, [d_ 85095714803969 14; d_ (-2400322294348) 12; d_ 54127841476466 14; d_ 16919770692538 15; d_ 68825965019035 15; d_ 21428032815338 17; d_ 17429895321992 14; d_ (-33654495604194) 15; d_ (-13526799857691) 14; d_ (-16387350791552) 15; d_ (-24987666851475) 15; d_ 88769204815709 16])].
(** lines 1096-1106 *)
Definition n_main08 : list (string * list dnum) :=
  [("carbonmonoxide"%string, [d_ 90554 5; d_ (-24515) 4; d_ 53149 5; d_ 24173 6; d_ 72156 6; d_ 18818 8; d_ 19405 5; d_ (-43268) 6; d_ (-12778) 5; d_ (-27896) 6; d_ (-34154) 6; d_ 16329 6]);
   ("isopentane"%string, [d_ 10963 4; d_ (-30402) 4; d_ 10317 4; d_ (-1541) 4; d_ 11535 5; d_ 29809 8; d_ 39571 5; d_ (-45881) 6; d_ (-35804) 5; d_ (-10107) 5; d_ (-35484) 6; d_ 18156 6]);
   ("hydrogensulfide"%string, [d_ 87641 5; d_ (-20367) 4; d_ 21634 5; d_ (-50199) 6; d_ 66994 6; d_ 19076 8; d_ 20227 5; d_ (-45348) 7; d_ (-2223) 4; d_ (-34714) 6; d_ (-14885) 6; d_ 74154 7]);
   ("n-decane"%string, [d_ 10461 4; d_ (-24807) 4; d_ 74372 5; d_ (-52579) 5; d_ 15315 5; d_ 32865 8; d_ 84178 5; d_ 55424 6; d_ (-73555) 5; d_ (-18507) 5; d_ (-20775) 6; d_ 12335 6]);
   ("n-nonane"%string, [d_ 11151 4; d_ (-2702) 3; d_ 83416 5; d_ (-38828) 5; d_ 1376 4; d_ 28185 8; d_ 62037 5; d_ 15847 6; d_ (-61726) 5; d_ (-15043) 5; d_ (-12982) 6; d_ 44325 7])].
(** lines 534-542 *)
Definition main04 (n : list dnum) : pcoef :=
  {| pc_n := n;
     pc_t := [d_ 25 2; d_ 1125 3; d_ 15 1; d_ 1375 3; d_ 25 2; d_ 875 3; d_ 625 3; d_ 175 2; d_ 3625 3; d_ 3625 3; d_ 145 1; d_ 12 0];
     pc_d := [1; 1; 1; 2; 3; 7; 2; 5; 1; 4; 3; 4]%nat;
     pc_c := [d_ 0 0; d_ 0 0; d_ 0 0; d_ 0 0; d_ 0 0; d_ 0 0; d_ 1 0; d_ 1 0; d_ 1 0; d_ 1 0; d_ 1 0; d_ 1 0];
     pc_l := [0; 0; 0; 0; 0; 0; 1; 1; 2; 2; 3; 3]%nat |}.
(** lines 543-551 *)
Definition mne04 (n : list dnum) : pcoef :=
  {| pc_n := n;
     pc_t := [d_ 125 3; d_ 1125 3; d_ 375 3; d_ 1125 3; d_ 625 3; d_ 15 1; d_ 625 3; d_ 2625 3; d_ 275 2; d_ 2125 3; d_ 2 0; d_ 175 2; d_ 45 1; d_ 475 2; d_ 5 0; d_ 4 0; d_ 45 1; d_ 75 1; d_ 14 0; d_ 115 1; d_ 26 0; d_ 28 0; d_ 30 0; d_ 16 0];
     pc_d := [1; 1; 2; 2; 4; 4; 1; 1; 1; 2; 3; 6; 2; 3; 3; 4; 4; 2; 3; 4; 5; 6; 6; 7]%nat;
     pc_c := [d_ 0 0; d_ 0 0; d_ 0 0; d_ 0 0; d_ 0 0; d_ 0 0; d_ 1 0; d_ 1 0; d_ 1 0; d_ 1 0; d_ 1 0; d_ 1 0; d_ 1 0; d_ 1 0; d_ 1 0; d_ 1 0; d_ 1 0; d_ 1 0; d_ 1 0; d_ 1 0; d_ 1 0; d_ 1 0; d_ 1 0; d_ 1 0];
     pc_l := [0; 0; 0; 0; 0; 0; 1; 1; 1; 1; 1; 1; 2; 2; 2; 2; 2; 3; 3; 3; 6; 6; 6; 6]%nat |}.
(** lines 552-560 *)
Definition carbondioxide04 : pcoef :=
  {| pc_n := [d_ 52646564804653 14; d_ (-14995725042592) 13; d_ 27329786733782 14; d_ 12949500022786 14; d_ 15404088341841 14; d_ (-58186950946814) 14; d_ (-18022494838296) 14; d_ (-95389904072812) 15; d_ (-80486819317679) 16; d_ (-3554775127309) 14; d_ (-28079014882405) 14; d_ (-82435890081677) 15; d_ 10832427979006 15; d_ (-67073993161097) 16; d_ (-46827907600524) 16; d_ (-28359911832177) 15; d_ 19500174744098 15; d_ (-21609137507166) 14; d_ 43772794926972 14; d_ (-22130790113593) 14; d_ 15190189957331 15; d_ (-153809489533) 13];
     pc_t := [d_ 0 0; d_ 125 2; d_ 1625 3; d_ 375 3; d_ 375 3; d_ 1375 3; d_ 1125 3; d_ 1375 3; d_ 125 3; d_ 1625 3; d_ 375 2; d_ 35 1; d_ 75 1; d_ 8 0; d_ 6 0; d_ 16 0; d_ 11 0; d_ 24 0; d_ 26 0; d_ 28 0; d_ 24 0; d_ 26 0];
     pc_d := [1; 1; 2; 3; 3; 3; 4; 5; 6; 6; 1; 4; 1; 1; 3; 3; 4; 5; 5; 5; 5; 5]%nat;
     pc_c := [d_ 0 0; d_ 0 0; d_ 0 0; d_ 0 0; d_ 1 0; d_ 1 0; d_ 1 0; d_ 1 0; d_ 1 0; d_ 1 0; d_ 1 0; d_ 1 0; d_ 1 0; d_ 1 0; d_ 1 0; d_ 1 0; d_ 1 0; d_ 1 0; d_ 1 0; d_ 1 0; d_ 1 0; d_ 1 0];
     pc_l := [0; 0; 0; 0; 1; 1; 1; 1; 1; 1; 2; 2; 3; 3; 3; 3; 3; 5; 5; 5; 6; 6]%nat |}.
(** lines 561-569 *)
Definition hydrogen04 : pcoef :=
  {| pc_n := [d_ 53579928451252 13; d_ (-62050252530595) 13; d_ 13830241327086 14; d_ (-71397954896129) 15; d_ 15474053959733 15; d_ (-14976806405771) 14; d_ (-26368723988451) 15; d_ 56681303156066 15; d_ (-60063958030436) 15; d_ (-45043942027132) 14; d_ 424788402445 12; d_ (-21997640827139) 15; d_ (-1049952137453) 14; d_ (-28955902866816) 16];
     pc_t := [d_ 5 1; d_ 625 3; d_ 375 3; d_ 625 3; d_ 1125 3; d_ 2625 3; d_ 0 0; d_ 25 2; d_ 1375 3; d_ 4 0; d_ 425 2; d_ 5 0; d_ 8 0; d_ 8 0];
     pc_d := [1; 1; 2; 2; 4; 1; 5; 5; 5; 1; 1; 2; 5; 1]%nat;
     pc_c := [d_ 0 0; d_ 0 0; d_ 0 0; d_ 0 0; d_ 0 0; d_ 1 0; d_ 1 0; d_ 1 0; d_ 1 0; d_ 1 0; d_ 1 0; d_ 1 0; d_ 1 0; d_ 1 0];
     pc_l := [0; 0; 0; 0; 0; 1; 1; 1; 1; 2; 2; 3; 3; 5]%nat |}.
(** lines 570-578 *)
Definition water04 : pcoef :=
  {| pc_n := [d_ 82728408749586 14; d_ (-18602220416584) 13; d_ (-11199009613744) 13; d_ 15635753976056 14; d_ 87375844859025 14; d_ (-36674403715731) 14; d_ 53987893432436 15; d_ 10957690214499 13; d_ 53213037828563 15; d_ 13050533930825 15; d_ (-41079520434476) 14; d_ 1463744334412 13; d_ (-55726838623719) 15; d_ (-112017741438) 13; d_ (-66062758068099) 16; d_ 46918522004538 16];
     pc_t := [d_ 5 1; d_ 125 2; d_ 1875 3; d_ 125 3; d_ 15 1; d_ 1 0; d_ 75 2; d_ 15 1; d_ 625 3; d_ 2625 3; d_ 5 0; d_ 4 0; d_ 45 1; d_ 3 0; d_ 4 0; d_ 6 0];
     pc_d := [1; 1; 1; 2; 2; 3; 4; 1; 5; 5; 1; 2; 4; 4; 1; 1]%nat;
     pc_c := [d_ 0 0; d_ 0 0; d_ 0 0; d_ 0 0; d_ 0 0; d_ 0 0; d_ 0 0; d_ 1 0; d_ 1 0; d_ 1 0; d_ 1 0; d_ 1 0; d_ 1 0; d_ 1 0; d_ 1 0; d_ 1 0];
     pc_l := [0; 0; 0; 0; 0; 0; 0; 1; 1; 1; 2; 2; 2; 3; 5; 5]%nat |}.
(** lines 579-587 *)
Definition helium04 : pcoef :=
  {| pc_n := [d_ (-45579024006737) 14; d_ 12516390754925 13; d_ (-15438231650621) 13; d_ 20467489707221 15; d_ (-34476212380781) 14; d_ (-20858459512787) 15; d_ 16227414711778 15; d_ (-57471818200892) 15; d_ 19462416430715 15; d_ (-3329568012302) 14; d_ (-10863577372367) 15; d_ (-22173365245954) 15];
     pc_t := [d_ 0 0; d_ 125 3; d_ 75 2; d_ 1 0; d_ 75 2; d_ 2625 3; d_ 125 3; d_ 125 2; d_ 2 0; d_ 1 0; d_ 45 1; d_ 5 0];
     pc_d := [1; 1; 1; 4; 1; 3; 5; 5; 5; 2; 1; 2]%nat;
     pc_c := [d_ 0 0; d_ 0 0; d_ 0 0; d_ 0 0; d_ 1 0; d_ 1 0; d_ 1 0; d_ 1 0; d_ 1 0; d_ 1 0; d_ 1 0; d_ 1 0];
     pc_l := [0; 0; 0; 0; 1; 1; 1; 1; 1; 2; 3; 3]%nat |}.
(** lines 1108-1116 *)
Definition main08 (n : list dnum) : pcoef :=
  {| pc_n := n;
     pc_t := [d_ 25 2; d_ 1125 3; d_ 15 1; d_ 1375 3; d_ 25 2; d_ 875 3; d_ 625 3; d_ 175 2; d_ 3625 3; d_ 3625 3; d_ 145 1; d_ 12 0];
     pc_d := [1; 1; 1; 2; 3; 7; 2; 5; 1; 4; 3; 4]%nat;
     pc_c := [d_ 0 0; d_ 0 0; d_ 0 0; d_ 0 0; d_ 0 0; d_ 0 0; d_ 1 0; d_ 1 0; d_ 1 0; d_ 1 0; d_ 1 0; d_ 1 0];
     pc_l := [0; 0; 0; 0; 0; 0; 1; 1; 2; 2; 3; 3]%nat |}.
(** lines 598-752 *)
Definition bip04 : list ((string * string) * bip) :=
  [(("methane", "nitrogen")%string, {| b_V := d_ 998721377 9; g_V := d_ 1013950311 9; b_T := d_ 99809883 8; g_T := d_ 979273013 9 |});
   (("methane", "carbondioxide")%string, {| b_V := d_ 999518072 9; g_V := d_ 1002806594 9; b_T := d_ 102262449 8; g_T := d_ 975665369 9 |});
   (("methane", "ethane")%string, {| b_V := d_ 997547866 9; g_V := d_ 1006617867 9; b_T := d_ 996336508 9; g_T := d_ 1049707697 9 |});
   (("methane", "propane")%string, {| b_V := d_ 100482707 8; g_V := d_ 1038470657 9; b_T := d_ 989680305 9; g_T := d_ 1098655531 9 |});
   (("methane", "n-butane")%string, {| b_V := d_ 979105972 9; g_V := d_ 1045375122 9; b_T := d_ 99417491 8; g_T := d_ 1171607691 9 |});
   (("methane", "isobutane")%string, {| b_V := d_ 1011240388 9; g_V := d_ 1054319053 9; b_T := d_ 980315756 9; g_T := d_ 1161117729 9 |});
   (("methane", "n-pentane")%string, {| b_V := d_ 94833012 8; g_V := d_ 1124508039 9; b_T := d_ 992127525 9; g_T := d_ 1249173968 9 |});
   (("methane", "isopentane")%string, {| b_V := d_ 1 0; g_V := d_ 1343685343 9; b_T := d_ 1 0; g_T := d_ 1188899743 9 |});
   (("methane", "n-hexane")%string, {| b_V := d_ 958015294 9; g_V := d_ 1052643846 9; b_T := d_ 981844797 9; g_T := d_ 1330570181 9 |});
   (("methane", "n-heptane")%string, {| b_V := d_ 962050831 9; g_V := d_ 1156655935 9; b_T := d_ 977431529 9; g_T := d_ 1379850328 9 |});
   (("methane", "n-octane")%string, {| b_V := d_ 994740603 9; g_V := d_ 1116549372 9; b_T := d_ 957473785 9; g_T := d_ 1449245409 9 |});
   (("methane", "hydrogen")%string, {| b_V := d_ 1 0; g_V := d_ 1018702573 9; b_T := d_ 1 0; g_T := d_ 1352643115 9 |});
   (("methane", "oxygen")%string, {| b_V := d_ 1 0; g_V := d_ 1 0; b_T := d_ 1 0; g_T := d_ 95 2 |});
   (("methane", "carbonmonoxide")%string, {| b_V := d_ 997340772 9; g_V := d_ 1006102927 9; b_T := d_ 987411732 9; g_T := d_ 987473033 9 |});
   (("methane", "water")%string, {| b_V := d_ 1012783169 9; g_V := d_ 1585018334 9; b_T := d_ 1063333913 9; g_T := d_ 775810513 9 |});
   (("methane", "helium")%string, {| b_V := d_ 1 0; g_V := d_ 881405683 9; b_T := d_ 1 0; g_T := d_ 3159776855 9 |});
   (("methane", "argon")%string, {| b_V := d_ 1034630259 9; g_V := d_ 1014678542 9; b_T := d_ 990954281 9; g_T := d_ 989843388 9 |});
   (("nitrogen", "carbondioxide")%string, {| b_V := d_ 977794634 9; g_V := d_ 1047578256 9; b_T := d_ 1005894529 9; g_T := d_ 1107654104 9 |});
   (("nitrogen", "ethane")%string, {| b_V := d_ 978880168 9; g_V := d_ 1042352891 9; b_T := d_ 1007671428 9; g_T := d_ 1098650964 9 |});
   (("nitrogen", "propane")%string, {| b_V := d_ 974424681 9; g_V := d_ 1081025408 9; b_T := d_ 1002677329 9; g_T := d_ 1201264026 9 |});
   (("nitrogen", "n-butane")%string, {| b_V := d_ 99608261 8; g_V := d_ 1146949309 9; b_T := d_ 994515234 9; g_T := d_ 1304886838 9 |});
   (("nitrogen", "isobutane")%string, {| b_V := d_ 98641583 8; g_V := d_ 1100576129 9; b_T := d_ 99286813 8; g_T := d_ 1284462634 9 |});
   (("nitrogen", "n-pentane")%string, {| b_V := d_ 1 0; g_V := d_ 1078877166 9; b_T := d_ 1 0; g_T := d_ 1419029041 9 |});
   (("nitrogen", "isopentane")%string, {| b_V := d_ 1 0; g_V := d_ 1154135439 9; b_T := d_ 1 0; g_T := d_ 138177077 8 |});
   (("nitrogen", "n-hexane")%string, {| b_V := d_ 1 0; g_V := d_ 1195952177 9; b_T := d_ 1 0; g_T := d_ 1472607971 9 |});
   (("nitrogen", "n-heptane")%string, {| b_V := d_ 1 0; g_V := d_ 140455409 8; b_T := d_ 1 0; g_T := d_ 1520975334 9 |});
   (("nitrogen", "n-octane")%string, {| b_V := d_ 1 0; g_V := d_ 1186067025 9; b_T := d_ 1 0; g_T := d_ 1733280051 9 |});
   (("nitrogen", "hydrogen")%string, {| b_V := d_ 972532065 9; g_V := d_ 970115357 9; b_T := d_ 946134337 9; g_T := d_ 1175696583 9 |});
   (("nitrogen", "oxygen")%string, {| b_V := d_ 99952177 8; g_V := d_ 997082328 9; b_T := d_ 997190589 9; g_T := d_ 995157044 9 |});
   (("nitrogen", "carbonmonoxide")%string, {| b_V := d_ 1 0; g_V := d_ 1008690943 9; b_T := d_ 1 0; g_T := d_ 993425388 9 |});
   (("nitrogen", "water")%string, {| b_V := d_ 1 0; g_V := d_ 1094749685 9; b_T := d_ 1 0; g_T := d_ 968808467 9 |});
   (("nitrogen", "helium")%string, {| b_V := d_ 969501055 9; g_V := d_ 932629867 9; b_T := d_ 692868765 9; g_T := d_ 147183158 8 |});
   (("nitrogen", "argon")%string, {| b_V := d_ 1004166412 9; g_V := d_ 1002212182 9; b_T := d_ 999069843 9; g_T := d_ 990034831 9 |});
   (("carbondioxide", "ethane")%string, {| b_V := d_ 1002525718 9; g_V := d_ 1032876701 9; b_T := d_ 1013871147 9; g_T := d_ 90094953 8 |});
   (("carbondioxide", "propane")%string, {| b_V := d_ 996898004 9; g_V := d_ 1047596298 9; b_T := d_ 1033620538 9; g_T := d_ 908772477 9 |});
   (("carbondioxide", "n-butane")%string, {| b_V := d_ 1174760923 9; g_V := d_ 1222437324 9; b_T := d_ 1018171004 9; g_T := d_ 911498231 9 |});
   (("carbondioxide", "isobutane")%string, {| b_V := d_ 1076551882 9; g_V := d_ 1081909003 9; b_T := d_ 1023339824 9; g_T := d_ 929982936 9 |});
   (("carbondioxide", "n-pentane")%string, {| b_V := d_ 1024311498 9; g_V := d_ 1068406078 9; b_T := d_ 1027000795 9; g_T := d_ 979217302 9 |});
   (("carbondioxide", "isopentane")%string, {| b_V := d_ 1060793104 9; g_V := d_ 1116793198 9; b_T := d_ 1019180957 9; g_T := d_ 961218039 9 |});
   (("carbondioxide", "n-hexane")%string, {| b_V := d_ 1 0; g_V := d_ 851343711 9; b_T := d_ 1 0; g_T := d_ 1038675574 9 |});
   (("carbondioxide", "n-heptane")%string, {| b_V := d_ 1205469976 9; g_V := d_ 1164585914 9; b_T := d_ 1011806317 9; g_T := d_ 1046169823 9 |});
   (("carbondioxide", "n-octane")%string, {| b_V := d_ 1026169373 9; g_V := d_ 1104043935 9; b_T := d_ 102969078 8; g_T := d_ 1074455386 9 |});
   (("carbondioxide", "hydrogen")%string, {| b_V := d_ 904142159 9; g_V := d_ 115279255 8; b_T := d_ 942320195 9; g_T := d_ 1782924792 9 |});
   (("carbondioxide", "oxygen")%string, {| b_V := d_ 1 0; g_V := d_ 1 0; b_T := d_ 1 0; g_T := d_ 1 0 |});
   (("carbondioxide", "carbonmonoxide")%string, {| b_V := d_ 1 0; g_V := d_ 1 0; b_T := d_ 1 0; g_T := d_ 1 0 |});
   (("carbondioxide", "water")%string, {| b_V := d_ 949055959 9; g_V := d_ 1542328793 9; b_T := d_ 997372205 9; g_T := d_ 775453996 9 |});
   (("carbondioxide", "helium")%string, {| b_V := d_ 846647561 9; g_V := d_ 864141549 9; b_T := d_ 76837763 8; g_T := d_ 3207456948 9 |});
   (("carbondioxide", "argon")%string, {| b_V := d_ 1008392428 9; g_V := d_ 1029205465 9; b_T := d_ 996512863 9; g_T := d_ 1050971635 9 |});
   (("ethane", "propane")%string, {| b_V := d_ 997607277 9; g_V := d_ 100303472 8; b_T := d_ 996199694 9; g_T := d_ 101473019 8 |});
   (("ethane", "n-butane")%string, {| b_V := d_ 999157205 9; g_V := d_ 1006179146 9; b_T := d_ 999130554 9; g_T := d_ 1034832749 9 |});
   (("ethane", "isobutane")%string, {| b_V := d_ 1 0; g_V := d_ 1006616886 9; b_T := d_ 1 0; g_T := d_ 1033283811 9 |});
   (("ethane", "n-pentane")%string, {| b_V := d_ 993851009 9; g_V := d_ 1026085655 9; b_T := d_ 998688946 9; g_T := d_ 1066665676 9 |});
   (("ethane", "isopentane")%string, {| b_V := d_ 1 0; g_V := d_ 1045439246 9; b_T := d_ 1 0; g_T := d_ 1021150247 9 |});
   (("ethane", "n-hexane")%string, {| b_V := d_ 1 0; g_V := d_ 1169701102 9; b_T := d_ 1 0; g_T := d_ 1092177796 9 |});
   (("ethane", "n-heptane")%string, {| b_V := d_ 1 0; g_V := d_ 1057666085 9; b_T := d_ 1 0; g_T := d_ 1134532014 9 |});
   (("ethane", "n-octane")%string, {| b_V := d_ 1007469726 9; g_V := d_ 1071917985 9; b_T := d_ 984068272 9; g_T := d_ 1168636194 9 |});
   (("ethane", "hydrogen")%string, {| b_V := d_ 925367171 9; g_V := d_ 110607204 8; b_T := d_ 932969831 9; g_T := d_ 1902008495 9 |});
   (("ethane", "oxygen")%string, {| b_V := d_ 1 0; g_V := d_ 1 0; b_T := d_ 1 0; g_T := d_ 1 0 |});
   (("ethane", "carbonmonoxide")%string, {| b_V := d_ 1 0; g_V := d_ 1201417898 9; b_T := d_ 1 0; g_T := d_ 1069224728 9 |});
   (("ethane", "water")%string, {| b_V := d_ 1 0; g_V := d_ 1 0; b_T := d_ 1 0; g_T := d_ 1 0 |});
   (("ethane", "helium")%string, {| b_V := d_ 1 0; g_V := d_ 1 0; b_T := d_ 1 0; g_T := d_ 1 0 |});
   (("ethane", "argon")%string, {| b_V := d_ 1 0; g_V := d_ 1 0; b_T := d_ 1 0; g_T := d_ 1 0 |});
   (("propane", "n-butane")%string, {| b_V := d_ 999795868 9; g_V := d_ 1003264179 9; b_T := d_ 1000310289 9; g_T := d_ 1007392782 9 |});
   (("propane", "isobutane")%string, {| b_V := d_ 999243146 9; g_V := d_ 1001156119 9; b_T := d_ 998012298 9; g_T := d_ 1005250774 9 |});
   (("propane", "n-pentane")%string, {| b_V := d_ 1044919431 9; g_V := d_ 1019921513 9; b_T := d_ 996484021 9; g_T := d_ 1008344412 9 |});
   (("propane", "isopentane")%string, {| b_V := d_ 1040459289 9; g_V := d_ 999432118 9; b_T := d_ 994364425 9; g_T := d_ 10032695 7 |});
   (("propane", "n-hexane")%string, {| b_V := d_ 1 0; g_V := d_ 1057872566 9; b_T := d_ 1 0; g_T := d_ 1025657518 9 |});
   (("propane", "n-heptane")%string, {| b_V := d_ 1 0; g_V := d_ 1079648053 9; b_T := d_ 1 0; g_T := d_ 1050044169 9 |});
   (("propane", "n-octane")%string, {| b_V := d_ 1 0; g_V := d_ 1102764612 9; b_T := d_ 1 0; g_T := d_ 1063694129 9 |});
   (("propane", "hydrogen")%string, {| b_V := d_ 1 0; g_V := d_ 107400611 8; b_T := d_ 1 0; g_T := d_ 2308215191 9 |});
   (("propane", "oxygen")%string, {| b_V := d_ 1 0; g_V := d_ 1 0; b_T := d_ 1 0; g_T := d_ 1 0 |});
   (("propane", "carbonmonoxide")%string, {| b_V := d_ 1 0; g_V := d_ 1108143673 9; b_T := d_ 1 0; g_T := d_ 1197564208 9 |});
   (("propane", "water")%string, {| b_V := d_ 1 0; g_V := d_ 1011759763 9; b_T := d_ 1 0; g_T := d_ 600340961 9 |});
   (("propane", "helium")%string, {| b_V := d_ 1 0; g_V := d_ 1 0; b_T := d_ 1 0; g_T := d_ 1 0 |});
   (("propane", "argon")%string, {| b_V := d_ 1 0; g_V := d_ 1 0; b_T := d_ 1 0; g_T := d_ 1 0 |});
   (("n-butane", "isobutane")%string, {| b_V := d_ 1000880464 9; g_V := d_ 100041444 8; b_T := d_ 1000077547 9; g_T := d_ 1001432824 9 |});
   (("n-butane", "n-pentane")%string, {| b_V := d_ 1 0; g_V := d_ 101815965 8; b_T := d_ 1 0; g_T := d_ 100214364 8 |});
   (("n-butane", "isopentane")%string, {| b_V := d_ 1 0; g_V := d_ 1002728262 9; b_T := d_ 1 0; g_T := d_ 1000792201 9 |});
   (("n-butane", "n-hexane")%string, {| b_V := d_ 1 0; g_V := d_ 1034995284 9; b_T := d_ 1 0; g_T := d_ 100915706 8 |});
   (("n-butane", "n-heptane")%string, {| b_V := d_ 1 0; g_V := d_ 1019174227 9; b_T := d_ 1 0; g_T := d_ 1021283378 9 |});
   (("n-butane", "n-octane")%string, {| b_V := d_ 1 0; g_V := d_ 1046905515 9; b_T := d_ 1 0; g_T := d_ 1033180106 9 |});
   (("n-butane", "hydrogen")%string, {| b_V := d_ 1 0; g_V := d_ 1232939523 9; b_T := d_ 1 0; g_T := d_ 2509259945 9 |});
   (("n-butane", "oxygen")%string, {| b_V := d_ 1 0; g_V := d_ 1 0; b_T := d_ 1 0; g_T := d_ 1 0 |});
   (("n-butane", "carbonmonoxide")%string, {| b_V := d_ 1 0; g_V := d_ 1084740904 9; b_T := d_ 1 0; g_T := d_ 1174055065 9 |});
   (("n-butane", "water")%string, {| b_V := d_ 1 0; g_V := d_ 1223638763 9; b_T := d_ 1 0; g_T := d_ 615512682 9 |});
   (("n-butane", "helium")%string, {| b_V := d_ 1 0; g_V := d_ 1 0; b_T := d_ 1 0; g_T := d_ 1 0 |});
   (("n-butane", "argon")%string, {| b_V := d_ 1 0; g_V := d_ 1214638734 9; b_T := d_ 1 0; g_T := d_ 1245039498 9 |});
   (("isobutane", "n-pentane")%string, {| b_V := d_ 1 0; g_V := d_ 1002779804 9; b_T := d_ 1 0; g_T := d_ 1002495889 9 |});
   (("isobutane", "isopentane")%string, {| b_V := d_ 1 0; g_V := d_ 1002284197 9; b_T := d_ 1 0; g_T := d_ 1001835788 9 |});
   (("isobutane", "n-hexane")%string, {| b_V := d_ 1 0; g_V := d_ 1010493989 9; b_T := d_ 1 0; g_T := d_ 1006018054 9 |});
   (("isobutane", "n-heptane")%string, {| b_V := d_ 1 0; g_V := d_ 1021668316 9; b_T := d_ 1 0; g_T := d_ 100988576 8 |});
   (("isobutane", "n-octane")%string, {| b_V := d_ 1 0; g_V := d_ 1032807063 9; b_T := d_ 1 0; g_T := d_ 1013945424 9 |});
   (("isobutane", "hydrogen")%string, {| b_V := d_ 1 0; g_V := d_ 1147595688 9; b_T := d_ 1 0; g_T := d_ 1895305393 9 |});
   (("isobutane", "oxygen")%string, {| b_V := d_ 1 0; g_V := d_ 1 0; b_T := d_ 1 0; g_T := d_ 1 0 |});
   (("isobutane", "carbonmonoxide")%string, {| b_V := d_ 1 0; g_V := d_ 1087272232 9; b_T := d_ 1 0; g_T := d_ 1161523504 9 |});
   (("isobutane", "water")%string, {| b_V := d_ 1 0; g_V := d_ 1 0; b_T := d_ 1 0; g_T := d_ 1 0 |});
   (("isobutane", "helium")%string, {| b_V := d_ 1 0; g_V := d_ 1 0; b_T := d_ 1 0; g_T := d_ 1 0 |});
   (("isobutane", "argon")%string, {| b_V := d_ 1 0; g_V := d_ 1 0; b_T := d_ 1 0; g_T := d_ 1 0 |});
   (("n-pentane", "isopentane")%string, {| b_V := d_ 1 0; g_V := d_ 1000024352 9; b_T := d_ 1 0; g_T := d_ 1000050537 9 |});
   (("n-pentane", "n-hexane")%string, {| b_V := d_ 1 0; g_V := d_ 1002480637 9; b_T := d_ 1 0; g_T := d_ 1000761237 9 |});
   (("n-pentane", "n-heptane")%string, {| b_V := d_ 1 0; g_V := d_ 1008972412 9; b_T := d_ 1 0; g_T := d_ 1002441051 9 |});
   (("n-pentane", "n-octane")%string, {| b_V := d_ 1 0; g_V := d_ 1069223964 9; b_T := d_ 1 0; g_T := d_ 1016422347 9 |});
   (("n-pentane", "hydrogen")%string, {| b_V := d_ 1 0; g_V := d_ 1188334783 9; b_T := d_ 1 0; g_T := d_ 2013859174 9 |});
   (("n-pentane", "oxygen")%string, {| b_V := d_ 1 0; g_V := d_ 1 0; b_T := d_ 1 0; g_T := d_ 1 0 |});
   (("n-pentane", "carbonmonoxide")%string, {| b_V := d_ 1 0; g_V := d_ 1119954454 9; b_T := d_ 1 0; g_T := d_ 1206195595 9 |});
   (("n-pentane", "water")%string, {| b_V := d_ 1 0; g_V := d_ 95667731 8; b_T := d_ 1 0; g_T := d_ 447666011 9 |});
   (("n-pentane", "helium")%string, {| b_V := d_ 1 0; g_V := d_ 1 0; b_T := d_ 1 0; g_T := d_ 1 0 |});
   (("n-pentane", "argon")%string, {| b_V := d_ 1 0; g_V := d_ 1 0; b_T := d_ 1 0; g_T := d_ 1 0 |});
   (("isopentane", "n-hexane")%string, {| b_V := d_ 1 0; g_V := d_ 1002996055 9; b_T := d_ 1 0; g_T := d_ 1001204174 9 |});
   (("isopentane", "n-heptane")%string, {| b_V := d_ 1 0; g_V := d_ 1009928531 9; b_T := d_ 1 0; g_T := d_ 1003194615 9 |});
   (("isopentane", "n-octane")%string, {| b_V := d_ 1 0; g_V := d_ 1017880981 9; b_T := d_ 1 0; g_T := d_ 100564748 8 |});
   (("isopentane", "hydrogen")%string, {| b_V := d_ 1 0; g_V := d_ 1184339122 9; b_T := d_ 1 0; g_T := d_ 1996386669 9 |});
   (("isopentane", "oxygen")%string, {| b_V := d_ 1 0; g_V := d_ 1 0; b_T := d_ 1 0; g_T := d_ 1 0 |});
   (("isopentane", "carbonmonoxide")%string, {| b_V := d_ 1 0; g_V := d_ 1116693501 9; b_T := d_ 1 0; g_T := d_ 1199475627 9 |});
   (("isopentane", "water")%string, {| b_V := d_ 1 0; g_V := d_ 1 0; b_T := d_ 1 0; g_T := d_ 1 0 |});
   (("isopentane", "helium")%string, {| b_V := d_ 1 0; g_V := d_ 1 0; b_T := d_ 1 0; g_T := d_ 1 0 |});
   (("isopentane", "argon")%string, {| b_V := d_ 1 0; g_V := d_ 1 0; b_T := d_ 1 0; g_T := d_ 1 0 |});
   (("n-hexane", "n-heptane")%string, {| b_V := d_ 1 0; g_V := d_ 1001508227 9; b_T := d_ 1 0; g_T := d_ 999762786 9 |});
   (("n-hexane", "n-octane")%string, {| b_V := d_ 1 0; g_V := d_ 1006268954 9; b_T := d_ 1 0; g_T := d_ 1001633952 9 |});
   (("n-hexane", "hydrogen")%string, {| b_V := d_ 1 0; g_V := d_ 1243461678 9; b_T := d_ 1 0; g_T := d_ 3021197546 9 |});
   (("n-hexane", "oxygen")%string, {| b_V := d_ 1 0; g_V := d_ 1 0; b_T := d_ 1 0; g_T := d_ 1 0 |});
   (("n-hexane", "carbonmonoxide")%string, {| b_V := d_ 1 0; g_V := d_ 1155145836 9; b_T := d_ 1 0; g_T := d_ 1233435828 9 |});
   (("n-hexane", "water")%string, {| b_V := d_ 1 0; g_V := d_ 1170217596 9; b_T := d_ 1 0; g_T := d_ 569681333 9 |});
   (("n-hexane", "helium")%string, {| b_V := d_ 1 0; g_V := d_ 1 0; b_T := d_ 1 0; g_T := d_ 1 0 |});
   (("n-hexane", "argon")%string, {| b_V := d_ 1 0; g_V := d_ 1 0; b_T := d_ 1 0; g_T := d_ 1 0 |});
   (("n-heptane", "n-octane")%string, {| b_V := d_ 1 0; g_V := d_ 1006767176 9; b_T := d_ 1 0; g_T := d_ 998793111 9 |});
   (("n-heptane", "hydrogen")%string, {| b_V := d_ 1 0; g_V := d_ 1159131722 9; b_T := d_ 1 0; g_T := d_ 3169143057 9 |});
   (("n-heptane", "oxygen")%string, {| b_V := d_ 1 0; g_V := d_ 1 0; b_T := d_ 1 0; g_T := d_ 1 0 |});
   (("n-heptane", "carbonmonoxide")%string, {| b_V := d_ 1 0; g_V := d_ 1190354273 9; b_T := d_ 1 0; g_T := d_ 1256295219 9 |});
   (("n-heptane", "water")%string, {| b_V := d_ 1 0; g_V := d_ 1 0; b_T := d_ 1 0; g_T := d_ 1 0 |});
   (("n-heptane", "helium")%string, {| b_V := d_ 1 0; g_V := d_ 1 0; b_T := d_ 1 0; g_T := d_ 1 0 |});
   (("n-heptane", "argon")%string, {| b_V := d_ 1 0; g_V := d_ 1 0; b_T := d_ 1 0; g_T := d_ 1 0 |});
   (("n-octane", "hydrogen")%string, {| b_V := d_ 1 0; g_V := d_ 1305249405 9; b_T := d_ 1 0; g_T := d_ 2191555216 9 |});
   (("n-octane", "oxygen")%string, {| b_V := d_ 1 0; g_V := d_ 1 0; b_T := d_ 1 0; g_T := d_ 1 0 |});
   (("n-octane", "carbonmonoxide")%string, {| b_V := d_ 1 0; g_V := d_ 1219206702 9; b_T := d_ 1 0; g_T := d_ 1276744779 9 |});
   (("n-octane", "water")%string, {| b_V := d_ 1 0; g_V := d_ 599484191 9; b_T := d_ 1 0; g_T := d_ 662072469 9 |});
   (("n-octane", "helium")%string, {| b_V := d_ 1 0; g_V := d_ 1 0; b_T := d_ 1 0; g_T := d_ 1 0 |});
   (("n-octane", "argon")%string, {| b_V := d_ 1 0; g_V := d_ 1 0; b_T := d_ 1 0; g_T := d_ 1 0 |});
   (("hydrogen", "oxygen")%string, {| b_V := d_ 1 0; g_V := d_ 1 0; b_T := d_ 1 0; g_T := d_ 1 0 |});
   (("hydrogen", "carbonmonoxide")%string, {| b_V := d_ 1 0; g_V := d_ 1121416201 9; b_T := d_ 1 0; g_T := d_ 1377504607 9 |});
   (("hydrogen", "water")%string, {| b_V := d_ 1 0; g_V := d_ 1 0; b_T := d_ 1 0; g_T := d_ 1 0 |});
   (("hydrogen", "helium")%string, {| b_V := d_ 1 0; g_V := d_ 1 0; b_T := d_ 1 0; g_T := d_ 1 0 |});
   (("hydrogen", "argon")%string, {| b_V := d_ 1 0; g_V := d_ 1 0; b_T := d_ 1 0; g_T := d_ 1 0 |});
   (("oxygen", "carbonmonoxide")%string, {| b_V := d_ 1 0; g_V := d_ 1 0; b_T := d_ 1 0; g_T := d_ 1 0 |});
   (("oxygen", "water")%string, {| b_V := d_ 1 0; g_V := d_ 1143174289 9; b_T := d_ 1 0; g_T := d_ 964767932 9 |});
   (("oxygen", "helium")%string, {| b_V := d_ 1 0; g_V := d_ 1 0; b_T := d_ 1 0; g_T := d_ 1 0 |});
   (("oxygen", "argon")%string, {| b_V := d_ 999746847 9; g_V := d_ 993907223 9; b_T := d_ 1000023103 9; g_T := d_ 990430423 9 |});
   (("carbonmonoxide", "water")%string, {| b_V := d_ 1 0; g_V := d_ 1 0; b_T := d_ 1 0; g_T := d_ 1 0 |});
   (("carbonmonoxide", "helium")%string, {| b_V := d_ 1 0; g_V := d_ 1 0; b_T := d_ 1 0; g_T := d_ 1 0 |});
   (("carbonmonoxide", "argon")%string, {| b_V := d_ 1 0; g_V := d_ 1159720623 9; b_T := d_ 1 0; g_T := d_ 954215746 9 |});
   (("water", "helium")%string, {| b_V := d_ 1 0; g_V := d_ 1 0; b_T := d_ 1 0; g_T := d_ 1 0 |});
   (("water", "argon")%string, {| b_V := d_ 1 0; g_V := d_ 1038993495 9; b_T := d_ 1 0; g_T := d_ 1070941866 9 |});
   (("helium", "argon")%string, {| b_V := d_ 1 0; g_V := d_ 1 0; b_T := d_ 1 0; g_T := d_ 1 0 |})].
(** lines 997-1077 *)
Definition bip08 : list ((string * string) * bip) :=
  [(("ethane", "isopentane")%string, {| b_V := d_ 1 0; g_V := d_ 1045439935 9; b_T := d_ 1 0; g_T := d_ 1021150247 9 |});
   (("n-butane", "carbonmonoxide")%string, {| b_V := d_ 1 0; g_V := d_ 1084740904 9; b_T := d_ 1 0; g_T := d_ 1173916162 9 |});
   (("n-butane", "isopentane")%string, {| b_V := d_ 1 0; g_V := d_ 1002728434 9; b_T := d_ 1 0; g_T := d_ 1000792201 9 |});
   (("isobutane", "carbonmonoxide")%string, {| b_V := d_ 1 0; g_V := d_ 1087272232 9; b_T := d_ 1 0; g_T := d_ 1161390082 9 |});
   (("isobutane", "isopentane")%string, {| b_V := d_ 1 0; g_V := d_ 1002284353 9; b_T := d_ 1 0; g_T := d_ 1001835788 9 |});
   (("n-pentane", "carbonmonoxide")%string, {| b_V := d_ 1 0; g_V := d_ 1119954454 9; b_T := d_ 1 0; g_T := d_ 1206043295 9 |});
   (("isopentane", "carbonmonoxide")%string, {| b_V := d_ 1 0; g_V := d_ 1116694577 9; b_T := d_ 1 0; g_T := d_ 1199326059 9 |});
   (("n-hexane", "carbonmonoxide")%string, {| b_V := d_ 1 0; g_V := d_ 1155145836 9; b_T := d_ 1 0; g_T := d_ 1233272781 9 |});
   (("n-heptane", "carbonmonoxide")%string, {| b_V := d_ 1 0; g_V := d_ 1190354273 9; b_T := d_ 1 0; g_T := d_ 1256123503 9 |});
   (("n-octane", "carbonmonoxide")%string, {| b_V := d_ 1 0; g_V := d_ 1219206702 9; b_T := d_ 1 0; g_T := d_ 1276565536 9 |});
   (("n-pentane", "isopentane")%string, {| b_V := d_ 1 0; g_V := d_ 1000024335 9; b_T := d_ 1 0; g_T := d_ 1000050537 9 |});
   (("isopentane", "n-hexane")%string, {| b_V := d_ 1 0; g_V := d_ 1002995876 9; b_T := d_ 1 0; g_T := d_ 1001204174 9 |});
   (("isopentane", "n-heptane")%string, {| b_V := d_ 1 0; g_V := d_ 1009928206 9; b_T := d_ 1 0; g_T := d_ 1003194615 9 |});
   (("isopentane", "n-octane")%string, {| b_V := d_ 1 0; g_V := d_ 1017880545 9; b_T := d_ 1 0; g_T := d_ 100564748 8 |});
   (("isopentane", "hydrogen")%string, {| b_V := d_ 1 0; g_V := d_ 1184340443 9; b_T := d_ 1 0; g_T := d_ 1996386669 9 |});
   (("methane", "n-nonane")%string, {| b_V := d_ 1002852287 9; g_V := d_ 1141895355 9; b_T := d_ 947716769 9; g_T := d_ 1528532478 9 |});
   (("methane", "n-decane")%string, {| b_V := d_ 1033086292 9; g_V := d_ 1146089637 9; b_T := d_ 937777823 9; g_T := d_ 1568231489 9 |});
   (("methane", "hydrogensulfide")%string, {| b_V := d_ 1012599087 9; g_V := d_ 1040161207 9; b_T := d_ 1011090031 9; g_T := d_ 961155729 9 |});
   (("nitrogen", "n-nonane")%string, {| b_V := d_ 1 0; g_V := d_ 1100405929 9; b_T := d_ 95637945 8; g_T := d_ 1749119996 9 |});
   (("nitrogen", "n-decane")%string, {| b_V := d_ 1 0; g_V := d_ 1 0; b_T := d_ 957934447 9; g_T := d_ 1822157123 9 |});
   (("nitrogen", "hydrogensulfide")%string, {| b_V := d_ 910394249 9; g_V := d_ 1256844157 9; b_T := d_ 1004692366 9; g_T := d_ 9601742 7 |});
   (("carbondioxide", "n-nonane")%string, {| b_V := d_ 1 0; g_V := d_ 973386152 9; b_T := d_ 100768862 8; g_T := d_ 1140671202 9 |});
   (("carbondioxide", "n-decane")%string, {| b_V := d_ 1000151132 9; g_V := d_ 1183394668 9; b_T := d_ 102002879 8; g_T := d_ 1145512213 9 |});
   (("carbondioxide", "hydrogensulfide")%string, {| b_V := d_ 906630564 9; g_V := d_ 1024085837 9; b_T := d_ 1016034583 9; g_T := d_ 92601888 8 |});
   (("ethane", "n-nonane")%string, {| b_V := d_ 1 0; g_V := d_ 114353473 8; b_T := d_ 1 0; g_T := d_ 105603303 8 |});
   (("ethane", "n-decane")%string, {| b_V := d_ 995676258 9; g_V := d_ 1098361281 9; b_T := d_ 970918061 9; g_T := d_ 1237191558 9 |});
   (("ethane", "hydrogensulfide")%string, {| b_V := d_ 1010817909 9; g_V := d_ 1030988277 9; b_T := d_ 990197354 9; g_T := d_ 90273666 8 |});
   (("propane", "n-nonane")%string, {| b_V := d_ 1 0; g_V := d_ 1199769134 9; b_T := d_ 1 0; g_T := d_ 1109973833 9 |});
   (("propane", "n-decane")%string, {| b_V := d_ 984104227 9; g_V := d_ 1053040574 9; b_T := d_ 985331233 9; g_T := d_ 1140905252 9 |});
   (("propane", "hydrogensulfide")%string, {| b_V := d_ 936811219 9; g_V := d_ 1010593999 9; b_T := d_ 992573556 9; g_T := d_ 905829247 9 |});
   (("n-butane", "n-nonane")%string, {| b_V := d_ 1 0; g_V := d_ 1049219137 9; b_T := d_ 1 0; g_T := d_ 1014096448 9 |});
   (("n-butane", "n-decane")%string, {| b_V := d_ 976951968 9; g_V := d_ 1027845529 9; b_T := d_ 993688386 9; g_T := d_ 1076466918 9 |});
   (("n-butane", "hydrogensulfide")%string, {| b_V := d_ 908113163 9; g_V := d_ 1033366041 9; b_T := d_ 985962886 9; g_T := d_ 926156602 9 |});
   (("isobutane", "n-nonane")%string, {| b_V := d_ 1 0; g_V := d_ 1047298475 9; b_T := d_ 1 0; g_T := d_ 1017817492 9 |});
   (("isobutane", "n-decane")%string, {| b_V := d_ 1 0; g_V := d_ 1060243344 9; b_T := d_ 1 0; g_T := d_ 1021624748 9 |});
   (("isobutane", "hydrogensulfide")%string, {| b_V := d_ 1012994431 9; g_V := d_ 988591117 9; b_T := d_ 974550548 9; g_T := d_ 937130844 9 |});
   (("n-pentane", "n-nonane")%string, {| b_V := d_ 1 0; g_V := d_ 1034910633 9; b_T := d_ 1 0; g_T := d_ 1103421755 9 |});
   (("n-pentane", "n-decane")%string, {| b_V := d_ 1 0; g_V := d_ 1016370338 9; b_T := d_ 1 0; g_T := d_ 1049035838 9 |});
   (("n-pentane", "hydrogensulfide")%string, {| b_V := d_ 984613203 9; g_V := d_ 1076539234 9; b_T := d_ 962006651 9; g_T := d_ 959065662 9 |});
   (("isopentane", "n-nonane")%string, {| b_V := d_ 1 0; g_V := d_ 1028994325 9; b_T := d_ 1 0; g_T := d_ 1008191499 9 |});
   (("isopentane", "n-decane")%string, {| b_V := d_ 1 0; g_V := d_ 1039372957 9; b_T := d_ 1 0; g_T := d_ 1010825138 9 |});
   (("isopentane", "hydrogensulfide")%string, {| b_V := d_ 1 0; g_V := d_ 835763343 9; b_T := d_ 1 0; g_T := d_ 982651529 9 |});
   (("n-hexane", "n-nonane")%string, {| b_V := d_ 1 0; g_V := d_ 102076168 8; b_T := d_ 1 0; g_T := d_ 1055369591 9 |});
   (("n-hexane", "n-decane")%string, {| b_V := d_ 1001516371 9; g_V := d_ 1013511439 9; b_T := d_ 99764101 8; g_T := d_ 1028939539 9 |});
   (("n-hexane", "hydrogensulfide")%string, {| b_V := d_ 754473958 9; g_V := d_ 1339283552 9; b_T := d_ 985891113 9; g_T := d_ 956075596 9 |});
   (("n-heptane", "n-nonane")%string, {| b_V := d_ 1 0; g_V := d_ 1001370076 9; b_T := d_ 1 0; g_T := d_ 1001150096 9 |});
   (("n-heptane", "n-decane")%string, {| b_V := d_ 1 0; g_V := d_ 1002972346 9; b_T := d_ 1 0; g_T := d_ 1002229938 9 |});
   (("n-heptane", "hydrogensulfide")%string, {| b_V := d_ 828967164 9; g_V := d_ 1087956749 9; b_T := d_ 988937417 9; g_T := d_ 1013453092 9 |});
   (("n-octane", "n-nonane")%string, {| b_V := d_ 1 0; g_V := d_ 1001357085 9; b_T := d_ 1 0; g_T := d_ 1000235044 9 |});
   (("n-octane", "n-decane")%string, {| b_V := d_ 1 0; g_V := d_ 1002553544 9; b_T := d_ 1 0; g_T := d_ 1007186267 9 |});
   (("n-octane", "hydrogensulfide")%string, {| b_V := d_ 1 0; g_V := d_ 1 0; b_T := d_ 1 0; g_T := d_ 1 0 |});
   (("n-nonane", "n-decane")%string, {| b_V := d_ 1 0; g_V := d_ 100081052 8; b_T := d_ 1 0; g_T := d_ 1000182392 9 |});
   (("n-nonane", "hydrogen")%string, {| b_V := d_ 1 0; g_V := d_ 1342647661 9; b_T := d_ 1 0; g_T := d_ 223435404 8 |});
   (("n-nonane", "oxygen")%string, {| b_V := d_ 1 0; g_V := d_ 1 0; b_T := d_ 1 0; g_T := d_ 1 0 |});
   (("n-nonane", "carbonmonoxide")%string, {| b_V := d_ 1 0; g_V := d_ 1252151449 9; b_T := d_ 1 0; g_T := d_ 1294070556 9 |});
   (("n-nonane", "water")%string, {| b_V := d_ 1 0; g_V := d_ 1 0; b_T := d_ 1 0; g_T := d_ 1 0 |});
   (("n-nonane", "hydrogensulfide")%string, {| b_V := d_ 1 0; g_V := d_ 1082905109 9; b_T := d_ 1 0; g_T := d_ 1086557826 9 |});
   (("n-nonane", "helium")%string, {| b_V := d_ 1 0; g_V := d_ 1 0; b_T := d_ 1 0; g_T := d_ 1 0 |});
   (("n-nonane", "argon")%string, {| b_V := d_ 1 0; g_V := d_ 1 0; b_T := d_ 1 0; g_T := d_ 1 0 |});
   (("n-decane", "hydrogen")%string, {| b_V := d_ 1695358382 9; g_V := d_ 1120233729 9; b_T := d_ 1064818089 9; g_T := d_ 3786003724 9 |});
   (("n-decane", "oxygen")%string, {| b_V := d_ 1 0; g_V := d_ 1 0; b_T := d_ 1 0; g_T := d_ 1 0 |});
   (("n-decane", "carbonmonoxide")%string, {| b_V := d_ 1 0; g_V := d_ 87018496 8; b_T := d_ 1049594632 9; g_T := d_ 1803567587 9 |});
   (("n-decane", "water")%string, {| b_V := d_ 1 0; g_V := d_ 551405318 9; b_T := d_ 897162268 9; g_T := d_ 740416402 9 |});
   (("n-decane", "hydrogensulfide")%string, {| b_V := d_ 975187766 9; g_V := d_ 1171714677 9; b_T := d_ 973091413 9; g_T := d_ 1103693489 9 |});
   (("n-decane", "helium")%string, {| b_V := d_ 1 0; g_V := d_ 1 0; b_T := d_ 1 0; g_T := d_ 1 0 |});
   (("n-decane", "argon")%string, {| b_V := d_ 1 0; g_V := d_ 1 0; b_T := d_ 1 0; g_T := d_ 1 0 |});
   (("hydrogen", "hydrogensulfide")%string, {| b_V := d_ 1 0; g_V := d_ 1 0; b_T := d_ 1 0; g_T := d_ 1 0 |});
   (("oxygen", "hydrogensulfide")%string, {| b_V := d_ 1 0; g_V := d_ 1 0; b_T := d_ 1 0; g_T := d_ 1 0 |});
   (("carbonmonoxide", "hydrogensulfide")%string, {| b_V := d_ 795660392 9; g_V := d_ 1101731308 9; b_T := d_ 1025536736 9; g_T := d_ 1022749748 9 |});
   (("water", "hydrogensulfide")%string, {| b_V := d_ 1 0; g_V := d_ 1014832832 9; b_T := d_ 1 0; g_T := d_ 940587083 9 |});
   (("hydrogensulfide", "helium")%string, {| b_V := d_ 1 0; g_V := d_ 1 0; b_T := d_ 1 0; g_T := d_ 1 0 |});
   (("hydrogensulfide", "argon")%string, {| b_V := d_ 1 0; g_V := d_ 1 0; b_T := d_ 1 0; g_T := d_ 1 0 |})].
(** lines 771-787 *)
Definition F04 : list ((string * string) * dnum) :=
  [(("methane", "nitrogen")%string, d_ 1 0);
   (("methane", "carbondioxide")%string, d_ 1 0);
   (("methane", "ethane")%string, d_ 1 0);
   (("methane", "propane")%string, d_ 1 0);
   (("methane", "n-butane")%string, d_ 1 0);
   (("methane", "isobutane")%string, d_ 771035405688 12);
   (("methane", "hydrogen")%string, d_ 1 0);
   (("nitrogen", "carbondioxide")%string, d_ 1 0);
   (("nitrogen", "ethane")%string, d_ 1 0);
   (("ethane", "propane")%string, d_ 13042476515 11);
   (("ethane", "n-butane")%string, d_ 281570073085 12);
   (("ethane", "isobutane")%string, d_ 260632376098 12);
   (("propane", "n-butane")%string, d_ 312572600489 13);
   (("propane", "isobutane")%string, d_ (-551609771024) 13);
   (("n-butane", "isobutane")%string, d_ (-551240293009) 13)].
(** lines 818-827 *)
Definition dep_methane_nitrogen : dcoef :=
  {| dc_n := [d_ (-98038985517335) 16; d_ 42487270143005 17; d_ (-34800214576142) 15; d_ (-13333813013896) 14; d_ (-11993694974627) 15; d_ 69243379775168 15; d_ (-31022508148249) 14; d_ 24495491753226 14; d_ 22369816716981 14];
     dc_t := [d_ 0 0; d_ 185 2; d_ 785 2; d_ 54 1; d_ 0 0; d_ 75 2; d_ 28 1; d_ 445 2; d_ 425 2];
     dc_d := [1; 4; 1; 2; 2; 2; 2; 2; 3]%nat;
     dc_eta := [d_ 0 0; d_ 0 0; d_ 1 0; d_ 1 0; d_ 25 2; d_ 0 0; d_ 0 0; d_ 0 0; d_ 0 0];
     dc_beta := [d_ 0 0; d_ 0 0; d_ 1 0; d_ 1 0; d_ 25 1; d_ 3 0; d_ 3 0; d_ 3 0; d_ 3 0];
     dc_gamma := [d_ 0 0; d_ 0 0; d_ 5 1; d_ 5 1; d_ 5 1; d_ 5 1; d_ 5 1; d_ 5 1; d_ 5 1];
     dc_epsilon := [d_ 0 0; d_ 0 0; d_ 5 1; d_ 5 1; d_ 5 1; d_ 5 1; d_ 5 1; d_ 5 1; d_ 5 1] |}.
(** lines 828-837 *)
Definition dep_methane_carbondioxide : dcoef :=
  {| dc_n := [d_ (-10859387354942) 14; d_ 80228576727389 15; d_ (-93303985115717) 16; d_ 40989274005848 15; d_ (-24338019772494) 14; d_ 23855347281124 14];
     dc_t := [d_ 26 1; d_ 195 2; d_ 0 0; d_ 395 2; d_ 795 2; d_ 8 0];
     dc_d := [1; 2; 3; 1; 2; 3]%nat;
     dc_eta := [d_ 0 0; d_ 0 0; d_ 0 0; d_ 1 0; d_ 5 1; d_ 0 0];
     dc_beta := [d_ 0 0; d_ 0 0; d_ 0 0; d_ 1 0; d_ 2 0; d_ 3 0];
     dc_gamma := [d_ 0 0; d_ 0 0; d_ 0 0; d_ 5 1; d_ 5 1; d_ 5 1];
     dc_epsilon := [d_ 0 0; d_ 0 0; d_ 0 0; d_ 5 1; d_ 5 1; d_ 5 1] |}.
(** lines 838-847 *)
Definition dep_ethane_methane : dcoef :=
  {| dc_n := [d_ (-80926050298746) 17; d_ (-75381925080059) 17; d_ (-41618768891219) 15; d_ (-23452173681569) 14; d_ 14003840584586 14; d_ 63281744807738 15; d_ (-34660425848809) 15; d_ (-23918747334251) 14; d_ 19855255066891 16; d_ 61777746171555 13; d_ (-69575358271105) 13; d_ 10630185306388 13];
     dc_t := [d_ 65 2; d_ 155 2; d_ 31 1; d_ 59 1; d_ 705 2; d_ 335 2; d_ 12 1; d_ 58 1; d_ 27 1; d_ 45 2; d_ 55 2; d_ 195 2];
     dc_d := [3; 4; 1; 2; 2; 2; 2; 2; 2; 3; 3; 3]%nat;
     dc_eta := [d_ 0 0; d_ 0 0; d_ 1 0; d_ 1 0; d_ 1 0; d_ 875 3; d_ 75 2; d_ 5 1; d_ 0 0; d_ 0 0; d_ 0 0; d_ 0 0];
     dc_beta := [d_ 0 0; d_ 0 0; d_ 1 0; d_ 1 0; d_ 1 0; d_ 125 2; d_ 15 1; d_ 2 0; d_ 3 0; d_ 3 0; d_ 3 0; d_ 3 0];
     dc_gamma := [d_ 0 0; d_ 0 0; d_ 5 1; d_ 5 1; d_ 5 1; d_ 5 1; d_ 5 1; d_ 5 1; d_ 5 1; d_ 5 1; d_ 5 1; d_ 5 1];
     dc_epsilon := [d_ 0 0; d_ 0 0; d_ 5 1; d_ 5 1; d_ 5 1; d_ 5 1; d_ 5 1; d_ 5 1; d_ 5 1; d_ 5 1; d_ 5 1; d_ 5 1] |}.
(** lines 848-857 *)
Definition dep_propane_methane : dcoef :=
  {| dc_n := [d_ 13746429958576 15; d_ (-74425012129552) 16; d_ (-45516600213685) 16; d_ (-54546603350237) 16; d_ 23682016824471 16; d_ 18007763721438 14; d_ (-44773942932486) 14; d_ 193273748882 13; d_ (-30632197804624) 14];
     dc_t := [d_ 185 2; d_ 395 2; d_ 0 0; d_ 185 2; d_ 385 2; d_ 525 2; d_ 385 2; d_ 2 1; d_ 65 1];
     dc_d := [3; 3; 4; 4; 4; 1; 1; 1; 2]%nat;
     dc_eta := [d_ 0 0; d_ 0 0; d_ 0 0; d_ 0 0; d_ 0 0; d_ 25 2; d_ 25 2; d_ 0 0; d_ 0 0];
     dc_beta := [d_ 0 0; d_ 0 0; d_ 0 0; d_ 0 0; d_ 0 0; d_ 75 2; d_ 1 0; d_ 2 0; d_ 3 0];
     dc_gamma := [d_ 0 0; d_ 0 0; d_ 0 0; d_ 0 0; d_ 0 0; d_ 5 1; d_ 5 1; d_ 5 1; d_ 5 1];
     dc_epsilon := [d_ 0 0; d_ 0 0; d_ 0 0; d_ 0 0; d_ 0 0; d_ 5 1; d_ 5 1; d_ 5 1; d_ 5 1] |}.
(** lines 858-867 *)
Definition dep_nitrogen_carbondioxide : dcoef :=
  {| dc_n := [d_ 28661625028399 14; d_ (-10919833861247) 14; d_ (-1137403208227) 12; d_ 76580544237358 14; d_ 42638000926819 16; d_ 17673538204534 14];
     dc_t := [d_ 185 2; d_ 14 1; d_ 32 1; d_ 25 1; d_ 8 0; d_ 375 2];
     dc_d := [2; 3; 1; 1; 1; 2]%nat;
     dc_eta := [d_ 0 0; d_ 0 0; d_ 25 2; d_ 25 2; d_ 0 0; d_ 0 0];
     dc_beta := [d_ 0 0; d_ 0 0; d_ 75 2; d_ 1 0; d_ 2 0; d_ 3 0];
     dc_gamma := [d_ 0 0; d_ 0 0; d_ 5 1; d_ 5 1; d_ 5 1; d_ 5 1];
     dc_epsilon := [d_ 0 0; d_ 0 0; d_ 5 1; d_ 5 1; d_ 5 1; d_ 5 1] |}.
(** lines 868-877 *)
Definition dep_nitrogen_ethane : dcoef :=
  {| dc_n := [d_ (-47376518126608) 14; d_ 48961193461001 14; d_ (-57011062090535) 16; d_ (-1996682004132) 13; d_ (-69411103101723) 14; d_ 69226192739021 14];
     dc_t := [d_ 0 0; d_ 5 2; d_ 0 0; d_ 365 2; d_ 49 1; d_ 445 2];
     dc_d := [2; 2; 3; 1; 2; 2]%nat;
     dc_eta := [d_ 0 0; d_ 0 0; d_ 0 0; d_ 1 0; d_ 1 0; d_ 875 3];
     dc_beta := [d_ 0 0; d_ 0 0; d_ 0 0; d_ 1 0; d_ 1 0; d_ 125 2];
     dc_gamma := [d_ 0 0; d_ 0 0; d_ 0 0; d_ 5 1; d_ 5 1; d_ 5 1];
     dc_epsilon := [d_ 0 0; d_ 0 0; d_ 0 0; d_ 5 1; d_ 5 1; d_ 5 1] |}.
(** lines 878-887 *)
Definition dep_methane_hydrogen : dcoef :=
  {| dc_n := [d_ (-25157134971934) 14; d_ (-62203841111983) 16; d_ 88850315184396 15; d_ (-35592212573239) 15];
     dc_t := [d_ 2 0; d_ (-1) 0; d_ 175 2; d_ 14 1];
     dc_d := [1; 3; 3; 4]%nat;
     dc_eta := [d_ 0 0; d_ 0 0; d_ 0 0; d_ 0 0];
     dc_beta := [d_ 0 0; d_ 0 0; d_ 0 0; d_ 0 0];
     dc_gamma := [d_ 0 0; d_ 0 0; d_ 0 0; d_ 0 0];
     dc_epsilon := [d_ 0 0; d_ 0 0; d_ 0 0; d_ 0 0] |}.
(** lines 888-897 *)
Definition dep_generalized : dcoef :=
  {| dc_n := [d_ 25574776844118 13; d_ (-79846357136353) 13; d_ 47859131465806 13; d_ (-73265392369587) 14; d_ 13805471345312 13; d_ 28349603476365 14; d_ (-49087385940425) 14; d_ (-10291888921447) 14; d_ 11836314681968 14; d_ 55527385721943 18];
     dc_t := [d_ 1 0; d_ 155 2; d_ 17 1; d_ 25 2; d_ 135 2; d_ 0 0; d_ 125 2; d_ 0 0; d_ 7 1; d_ 54 1];
     dc_d := [1; 1; 1; 2; 2; 3; 3; 4; 4; 4]%nat;
     dc_eta := [d_ 0 0; d_ 0 0; d_ 0 0; d_ 0 0; d_ 0 0; d_ 0 0; d_ 0 0; d_ 0 0; d_ 0 0; d_ 0 0];
     dc_beta := [d_ 0 0; d_ 0 0; d_ 0 0; d_ 0 0; d_ 0 0; d_ 0 0; d_ 0 0; d_ 0 0; d_ 0 0; d_ 0 0];
     dc_gamma := [d_ 0 0; d_ 0 0; d_ 0 0; d_ 0 0; d_ 0 0; d_ 0 0; d_ 0 0; d_ 0 0; d_ 0 0; d_ 0 0];
     dc_epsilon := [d_ 0 0; d_ 0 0; d_ 0 0; d_ 0 0; d_ 0 0; d_ 0 0; d_ 0 0; d_ 0 0; d_ 0 0; d_ 0 0] |}.
(** the order of the conditions, lines 817-886 *)
Definition dep04 : list ((string * string) * dcoef) :=
  [(("methane", "nitrogen")%string, dep_methane_nitrogen);
   (("methane", "carbondioxide")%string, dep_methane_carbondioxide);
   (("ethane", "methane")%string, dep_ethane_methane);
   (("propane", "methane")%string, dep_propane_methane);
   (("nitrogen", "carbondioxide")%string, dep_nitrogen_carbondioxide);
   (("nitrogen", "ethane")%string, dep_nitrogen_ethane);
   (("methane", "hydrogen")%string, dep_methane_hydrogen)].
(** lines 811-815 *)
Definition generalized04 : list (string * string) := [("methane", "n-butane"); ("methane", "isobutane"); ("ethane", "propane"); ("ethane", "n-butane"); ("ethane", "isobutane"); ("propane", "n-butane"); ("propane", "isobutane"); ("n-butane", "isobutane")]%string.
