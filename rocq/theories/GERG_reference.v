(** The tables of the reference implementation of GERG-2008 that comes with the tests of the
    project, [src/tests/GERG2008.cpp], [SetupGERG], lines 677-1532, taken over mechanically from
    its assignments (those to elements with two indices in their order, loops unrolled).  They are
    written independently of the tables of the model.  Components are numbered as there. *)
From Coq Require Import Reals ZArith String List.
From Verif Require Import GERG_tables.
Import ListNotations.
Local Open Scope Z_scope.

(** the order of the components, lines 83-103 and 696-716 *)
Definition ref_names : list string := ["methane"; "nitrogen"; "carbondioxide"; "ethane"; "propane"; "isobutane"; "n-butane"; "isopentane"; "n-pentane"; "n-hexane"; "n-heptane"; "n-octane"; "n-nonane"; "n-decane"; "hydrogen"; "oxygen"; "carbonmonoxide"; "water"; "hydrogensulfide"; "helium"; "argon"]%string.
(** lines 696-716, 740-760, 763-783 *)
Definition ref_M : list dnum := [d_ 1604246 5; d_ 280134 4; d_ 440095 4; d_ 3006904 5; d_ 4409562 5; d_ 581222 4; d_ 581222 4; d_ 7214878 5; d_ 7214878 5; d_ 8617536 5; d_ 10020194 5; d_ 11422852 5; d_ 1282551 4; d_ 14228168 5; d_ 201588 5; d_ 319988 4; d_ 280101 4; d_ 1801528 5; d_ 3408088 5; d_ 4002602 6; d_ 39948 3].
Definition ref_Dc : list dnum := [d_ 10139342719 9; d_ 111839 4; d_ 10624978698 9; d_ 687085454 8; d_ 5000043088 9; d_ 386014294 8; d_ 3920016792 9; d_ 3271 3; d_ 3215577588 9; d_ 2705877875 9; d_ 2315324434 9; d_ 2056404127 9; d_ 181 2; d_ 164 2; d_ 1494 2; d_ 1363 2; d_ 1085 2; d_ 1787371609 8; d_ 1019 2; d_ 17399 3; d_ 13407429659 9].
Definition ref_Tc : list dnum := [d_ 190564 3; d_ 126192 3; d_ 3041282 4; d_ 305322 3; d_ 369825 3; d_ 407817 3; d_ 425125 3; d_ 46035 2; d_ 4697 1; d_ 50782 2; d_ 54013 2; d_ 56932 2; d_ 59455 2; d_ 6177 1; d_ 3319 2; d_ 154595 3; d_ 13286 2; d_ 647096 3; d_ 3731 1; d_ 51953 4; d_ 150687 3].
(** the terms (n, t, d, c) of a component: with c = 0 there is no exponential, lines 719-729 and 786-1157 *)
Definition ref_pure : list (list (dnum * dnum * nat * nat)) :=
  [[(d_ 57335704239162 14, d_ 125 3, 1, 0)%nat; (d_ (-1676068752373) 12, d_ 1125 3, 1, 0)%nat; (d_ 23405291834916 14, d_ 375 3, 2, 0)%nat; (d_ (-21947376343441) 14, d_ 1125 3, 2, 0)%nat; (d_ 16369201404128 15, d_ 625 3, 4, 0)%nat; (d_ 1500440638928 14, d_ 15 1, 4, 0)%nat; (d_ 98990489492918 15, d_ 625 3, 1, 1)%nat; (d_ 58382770929055 14, d_ 2625 3, 1, 1)%nat; (d_ (-7478686756039) 13, d_ 275 2, 1, 1)%nat; (d_ 30033302857974 14, d_ 2125 3, 2, 1)%nat; (d_ 20985543806568 14, d_ 2 0, 3, 1)%nat; (d_ (-18590151133061) 15, d_ 175 2, 6, 1)%nat; (d_ (-15782558339049) 14, d_ 45 1, 2, 2)%nat; (d_ 12716735220791 14, d_ 475 2, 3, 2)%nat; (d_ (-32019743894346) 15, d_ 5 0, 3, 2)%nat; (d_ (-68049729364536) 15, d_ 4 0, 4, 2)%nat; (d_ 24291412853736 15, d_ 45 1, 4, 2)%nat; (d_ 51440451639444 16, d_ 75 1, 2, 3)%nat; (d_ (-19084949733532) 15, d_ 14 0, 3, 3)%nat; (d_ 55229677241291 16, d_ 115 1, 4, 3)%nat; (d_ (-44197392976085) 16, d_ 26 0, 5, 6)%nat; (d_ 40061416708429 15, d_ 28 0, 6, 6)%nat; (d_ (-33752085907575) 15, d_ 30 0, 6, 6)%nat; (d_ (-25127658213357) 16, d_ 16 0, 7, 6)%nat];
   [(d_ 59889711801201 14, d_ 125 3, 1, 0)%nat; (d_ (-16941557480731) 13, d_ 1125 3, 1, 0)%nat; (d_ 24579736191718 14, d_ 375 3, 2, 0)%nat; (d_ (-23722456755175) 14, d_ 1125 3, 2, 0)%nat; (d_ 17954918715141 15, d_ 625 3, 4, 0)%nat; (d_ 14592875720215 15, d_ 15 1, 4, 0)%nat; (d_ 10008065936206 14, d_ 625 3, 1, 1)%nat; (d_ 73157115385532 14, d_ 2625 3, 1, 1)%nat; (d_ (-88372272336366) 14, d_ 275 2, 1, 1)%nat; (d_ 31887660246708 14, d_ 2125 3, 2, 1)%nat; (d_ 20766491728799 14, d_ 2 0, 3, 1)%nat; (d_ (-19379315454158) 15, d_ 175 2, 6, 1)%nat; (d_ (-16936641554983) 14, d_ 45 1, 2, 2)%nat; (d_ 13546846041701 14, d_ 475 2, 3, 2)%nat; (d_ (-33066712095307) 15, d_ 5 0, 3, 2)%nat; (d_ (-60690817018557) 15, d_ 4 0, 4, 2)%nat; (d_ 12797548292871 15, d_ 45 1, 4, 2)%nat; (d_ 58743664107299 16, d_ 75 1, 2, 3)%nat; (d_ (-18451951971969) 15, d_ 14 0, 3, 3)%nat; (d_ 47226622042472 16, d_ 115 1, 4, 3)%nat; (d_ (-52024079680599) 16, d_ 26 0, 5, 6)%nat; (d_ 43563505956635 15, d_ 28 0, 6, 6)%nat; (d_ (-36251690750939) 15, d_ 30 0, 6, 6)%nat; (d_ (-28974026866543) 16, d_ 16 0, 7, 6)%nat];
   [(d_ 52646564804653 14, d_ 0 0, 1, 0)%nat; (d_ (-14995725042592) 13, d_ 125 2, 1, 0)%nat; (d_ 27329786733782 14, d_ 1625 3, 2, 0)%nat; (d_ 12949500022786 14, d_ 375 3, 3, 0)%nat; (d_ 15404088341841 14, d_ 375 3, 3, 1)%nat; (d_ (-58186950946814) 14, d_ 1375 3, 3, 1)%nat; (d_ (-18022494838296) 14, d_ 1125 3, 4, 1)%nat; (d_ (-95389904072812) 15, d_ 1375 3, 5, 1)%nat; (d_ (-80486819317679) 16, d_ 125 3, 6, 1)%nat; (d_ (-3554775127309) 14, d_ 1625 3, 6, 1)%nat; (d_ (-28079014882405) 14, d_ 375 2, 1, 2)%nat; (d_ (-82435890081677) 15, d_ 35 1, 4, 2)%nat; (d_ 10832427979006 15, d_ 75 1, 1, 3)%nat; (d_ (-67073993161097) 16, d_ 8 0, 1, 3)%nat; (d_ (-46827907600524) 16, d_ 6 0, 3, 3)%nat; (d_ (-28359911832177) 15, d_ 16 0, 3, 3)%nat; (d_ 19500174744098 15, d_ 11 0, 4, 3)%nat; (d_ (-21609137507166) 14, d_ 24 0, 5, 5)%nat; (d_ 43772794926972 14, d_ 26 0, 5, 5)%nat; (d_ (-22130790113593) 14, d_ 28 0, 5, 5)%nat; (d_ 15190189957331 15, d_ 24 0, 5, 6)%nat; (d_ (-153809489533) 13, d_ 26 0, 5, 6)%nat];
   [(d_ 63596780450714 14, d_ 125 3, 1, 0)%nat; (d_ (-17377981785459) 13, d_ 1125 3, 1, 0)%nat; (d_ 28914060926272 14, d_ 375 3, 2, 0)%nat; (d_ (-33714276845694) 14, d_ 1125 3, 2, 0)%nat; (d_ 22405964699561 15, d_ 625 3, 4, 0)%nat; (d_ 15715424886913 15, d_ 15 1, 4, 0)%nat; (d_ 11450634253745 14, d_ 625 3, 1, 1)%nat; (d_ 10612049379745 13, d_ 2625 3, 1, 1)%nat; (d_ (-12855224439423) 13, d_ 275 2, 1, 1)%nat; (d_ 39414630777652 14, d_ 2125 3, 2, 1)%nat; (d_ 31390924682041 14, d_ 2 0, 3, 1)%nat; (d_ (-21592277117247) 15, d_ 175 2, 6, 1)%nat; (d_ (-21723666564905) 14, d_ 45 1, 2, 2)%nat; (d_ (-28999574439489) 14, d_ 475 2, 3, 2)%nat; (d_ 42321173025732 14, d_ 5 0, 3, 2)%nat; (d_ 4643410025926 14, d_ 4 0, 4, 2)%nat; (d_ (-13138398329741) 14, d_ 45 1, 4, 2)%nat; (d_ 11492850364368 15, d_ 75 1, 2, 3)%nat; (d_ (-33387688429909) 15, d_ 14 0, 3, 3)%nat; (d_ 15183171583644 15, d_ 115 1, 4, 3)%nat; (d_ (-47610805647657) 16, d_ 26 0, 5, 6)%nat; (d_ 46917166277885 15, d_ 28 0, 6, 6)%nat; (d_ (-39401755804649) 15, d_ 30 0, 6, 6)%nat; (d_ (-32569956247611) 16, d_ 16 0, 7, 6)%nat];
   [(d_ 10403973107358 13, d_ 25 2, 1, 0)%nat; (d_ (-28318404081403) 13, d_ 1125 3, 1, 0)%nat; (d_ 84393809606294 14, d_ 15 1, 1, 0)%nat; (d_ (-76559591850023) 15, d_ 1375 3, 2, 0)%nat; (d_ 9469737305728 14, d_ 25 2, 3, 0)%nat; (d_ 24796475497006 17, d_ 875 3, 7, 0)%nat; (d_ 2774376042287 13, d_ 625 3, 2, 1)%nat; (d_ (-43846000648377) 15, d_ 175 2, 5, 1)%nat; (d_ (-2699106478435) 13, d_ 3625 3, 1, 2)%nat; (d_ (-6931341308986) 14, d_ 3625 3, 4, 2)%nat; (d_ (-29632145981653) 15, d_ 145 1, 3, 3)%nat; (d_ 1404012675138 14, d_ 12 0, 4, 3)%nat];
   [(d_ 104293315891 11, d_ 25 2, 1, 0)%nat; (d_ (-28184272548892) 13, d_ 1125 3, 1, 0)%nat; (d_ 8617623239785 13, d_ 15 1, 1, 0)%nat; (d_ (-10613619452487) 14, d_ 1375 3, 2, 0)%nat; (d_ 98615749302134 15, d_ 25 2, 3, 0)%nat; (d_ 23948208682322 17, d_ 875 3, 7, 0)%nat; (d_ 3033000485695 13, d_ 625 3, 2, 1)%nat; (d_ (-41598156135099) 15, d_ 175 2, 5, 1)%nat; (d_ (-29991937470058) 14, d_ 3625 3, 1, 2)%nat; (d_ (-80369342764109) 15, d_ 3625 3, 4, 2)%nat; (d_ (-29761373251151) 15, d_ 145 1, 3, 3)%nat; (d_ 1305963030314 14, d_ 12 0, 4, 3)%nat];
   [(d_ 10626277411455 13, d_ 25 2, 1, 0)%nat; (d_ (-2862095182835) 12, d_ 1125 3, 1, 0)%nat; (d_ 88738233403777 14, d_ 15 1, 1, 0)%nat; (d_ (-12570581155345) 14, d_ 1375 3, 2, 0)%nat; (d_ 10286308708106 14, d_ 25 2, 3, 0)%nat; (d_ 25358040602654 17, d_ 875 3, 7, 0)%nat; (d_ 32325200233982 14, d_ 625 3, 2, 1)%nat; (d_ (-37950761057432) 15, d_ 175 2, 5, 1)%nat; (d_ (-32534802014452) 14, d_ 3625 3, 1, 2)%nat; (d_ (-79050969051011) 15, d_ 3625 3, 4, 2)%nat; (d_ (-20636720547775) 15, d_ 145 1, 3, 3)%nat; (d_ 5705380933475 15, d_ 12 0, 4, 3)%nat];
   [(d_ 10963 4, d_ 25 2, 1, 0)%nat; (d_ (-30402) 4, d_ 1125 3, 1, 0)%nat; (d_ 10317 4, d_ 15 1, 1, 0)%nat; (d_ (-1541) 4, d_ 1375 3, 2, 0)%nat; (d_ 11535 5, d_ 25 2, 3, 0)%nat; (d_ 29809 8, d_ 875 3, 7, 0)%nat; (d_ 39571 5, d_ 625 3, 2, 1)%nat; (d_ (-45881) 6, d_ 175 2, 5, 1)%nat; (d_ (-35804) 5, d_ 3625 3, 1, 2)%nat; (d_ (-10107) 5, d_ 3625 3, 4, 2)%nat; (d_ (-35484) 6, d_ 145 1, 3, 3)%nat; (d_ 18156 6, d_ 12 0, 4, 3)%nat];
   [(d_ 10968643098001 13, d_ 25 2, 1, 0)%nat; (d_ (-29988888298061) 13, d_ 1125 3, 1, 0)%nat; (d_ 99516886799212 14, d_ 15 1, 1, 0)%nat; (d_ (-16170708558539) 14, d_ 1375 3, 2, 0)%nat; (d_ 11334460072775 14, d_ 25 2, 3, 0)%nat; (d_ 26760595150748 17, d_ 875 3, 7, 0)%nat; (d_ 40979881986931 14, d_ 625 3, 2, 1)%nat; (d_ (-40876423083075) 15, d_ 175 2, 5, 1)%nat; (d_ (-38169482469447) 14, d_ 3625 3, 1, 2)%nat; (d_ (-10931956843993) 14, d_ 3625 3, 4, 2)%nat; (d_ (-3207322332799) 14, d_ 145 1, 3, 3)%nat; (d_ 16877016216975 15, d_ 12 0, 4, 3)%nat];
   [(d_ 10553238013661 13, d_ 25 2, 1, 0)%nat; (d_ (-26120615890629) 13, d_ 1125 3, 1, 0)%nat; (d_ 7661388296726 13, d_ 15 1, 1, 0)%nat; (d_ (-29770320622459) 14, d_ 1375 3, 2, 0)%nat; (d_ 11879907733358 14, d_ 25 2, 3, 0)%nat; (d_ 27922861062617 17, d_ 875 3, 7, 0)%nat; (d_ 46347589844105 14, d_ 625 3, 2, 1)%nat; (d_ 11433196980297 15, d_ 175 2, 5, 1)%nat; (d_ (-48256968738131) 14, d_ 3625 3, 1, 2)%nat; (d_ (-93750558924659) 15, d_ 3625 3, 4, 2)%nat; (d_ (-67273247155994) 16, d_ 145 1, 3, 3)%nat; (d_ (-51141583585428) 16, d_ 12 0, 4, 3)%nat];
   [(d_ 10543747645262 13, d_ 25 2, 1, 0)%nat; (d_ (-26500681506144) 13, d_ 1125 3, 1, 0)%nat; (d_ 81730047827543 14, d_ 15 1, 1, 0)%nat; (d_ (-30451391253428) 14, d_ 1375 3, 2, 0)%nat; (d_ 122538687108 12, d_ 25 2, 3, 0)%nat; (d_ 27266472743928 17, d_ 875 3, 7, 0)%nat; (d_ 4986582568167 13, d_ 625 3, 2, 1)%nat; (d_ (-71432815084176) 17, d_ 175 2, 5, 1)%nat; (d_ (-5423689552545) 13, d_ 3625 3, 1, 2)%nat; (d_ (-13801821610756) 14, d_ 3625 3, 4, 2)%nat; (d_ (-61595287380011) 16, d_ 145 1, 3, 3)%nat; (d_ 48602510393022 17, d_ 12 0, 4, 3)%nat];
   [(d_ 10722544875633 13, d_ 25 2, 1, 0)%nat; (d_ (-24632951172003) 13, d_ 1125 3, 1, 0)%nat; (d_ 65386674054928 14, d_ 15 1, 1, 0)%nat; (d_ (-36324974085628) 14, d_ 1375 3, 2, 0)%nat; (d_ 12713269626764 14, d_ 25 2, 3, 0)%nat; (d_ 3071357277793 16, d_ 875 3, 7, 0)%nat; (d_ 5265685698754 13, d_ 625 3, 2, 1)%nat; (d_ 19362862857653 15, d_ 175 2, 5, 1)%nat; (d_ (-58939426849155) 14, d_ 3625 3, 1, 2)%nat; (d_ (-14069963991934) 14, d_ 3625 3, 4, 2)%nat; (d_ (-78966330500036) 16, d_ 145 1, 3, 3)%nat; (d_ 33036597968109 16, d_ 12 0, 4, 3)%nat];
   [(d_ 11151 4, d_ 25 2, 1, 0)%nat; (d_ (-2702) 3, d_ 1125 3, 1, 0)%nat; (d_ 83416 5, d_ 15 1, 1, 0)%nat; (d_ (-38828) 5, d_ 1375 3, 2, 0)%nat; (d_ 1376 4, d_ 25 2, 3, 0)%nat; (d_ 28185 8, d_ 875 3, 7, 0)%nat; (d_ 62037 5, d_ 625 3, 2, 1)%nat; (d_ 15847 6, d_ 175 2, 5, 1)%nat; (d_ (-61726) 5, d_ 3625 3, 1, 2)%nat; (d_ (-15043) 5, d_ 3625 3, 4, 2)%nat; (d_ (-12982) 6, d_ 145 1, 3, 3)%nat; (d_ 44325 7, d_ 12 0, 4, 3)%nat];
   [(d_ 10461 4, d_ 25 2, 1, 0)%nat; (d_ (-24807) 4, d_ 1125 3, 1, 0)%nat; (d_ 74372 5, d_ 15 1, 1, 0)%nat; (d_ (-52579) 5, d_ 1375 3, 2, 0)%nat; (d_ 15315 5, d_ 25 2, 3, 0)%nat; (d_ 32865 8, d_ 875 3, 7, 0)%nat; (d_ 84178 5, d_ 625 3, 2, 1)%nat; (d_ 55424 6, d_ 175 2, 5, 1)%nat; (d_ (-73555) 5, d_ 3625 3, 1, 2)%nat; (d_ (-18507) 5, d_ 3625 3, 4, 2)%nat; (d_ (-20775) 6, d_ 145 1, 3, 3)%nat; (d_ 12335 6, d_ 12 0, 4, 3)%nat];
   [(d_ 53579928451252 13, d_ 5 1, 1, 0)%nat; (d_ (-62050252530595) 13, d_ 625 3, 1, 0)%nat; (d_ 13830241327086 14, d_ 375 3, 2, 0)%nat; (d_ (-71397954896129) 15, d_ 625 3, 2, 0)%nat; (d_ 15474053959733 15, d_ 1125 3, 4, 0)%nat; (d_ (-14976806405771) 14, d_ 2625 3, 1, 1)%nat; (d_ (-26368723988451) 15, d_ 0 0, 5, 1)%nat; (d_ 56681303156066 15, d_ 25 2, 5, 1)%nat; (d_ (-60063958030436) 15, d_ 1375 3, 5, 1)%nat; (d_ (-45043942027132) 14, d_ 4 0, 1, 2)%nat; (d_ 424788402445 12, d_ 425 2, 1, 2)%nat; (d_ (-21997640827139) 15, d_ 5 0, 2, 3)%nat; (d_ (-1049952137453) 14, d_ 8 0, 5, 3)%nat; (d_ (-28955902866816) 16, d_ 8 0, 1, 5)%nat];
   [(d_ 88878286369701 14, d_ 25 2, 1, 0)%nat; (d_ (-24879433312148) 13, d_ 1125 3, 1, 0)%nat; (d_ 59750190775886 14, d_ 15 1, 1, 0)%nat; (d_ 96501817061881 16, d_ 1375 3, 2, 0)%nat; (d_ 7197042871277 14, d_ 25 2, 3, 0)%nat; (d_ 22337443000195 17, d_ 875 3, 7, 0)%nat; (d_ 18558686391474 14, d_ 625 3, 2, 1)%nat; (d_ (-3812936803576) 14, d_ 175 2, 5, 1)%nat; (d_ (-15352245383006) 14, d_ 3625 3, 1, 2)%nat; (d_ (-26726814910919) 15, d_ 3625 3, 4, 2)%nat; (d_ (-25675298677127) 15, d_ 145 1, 3, 3)%nat; (d_ 95714302123668 16, d_ 12 0, 4, 3)%nat];
   [(d_ 90554 5, d_ 25 2, 1, 0)%nat; (d_ (-24515) 4, d_ 1125 3, 1, 0)%nat; (d_ 53149 5, d_ 15 1, 1, 0)%nat; (d_ 24173 6, d_ 1375 3, 2, 0)%nat; (d_ 72156 6, d_ 25 2, 3, 0)%nat; (d_ 18818 8, d_ 875 3, 7, 0)%nat; (d_ 19405 5, d_ 625 3, 2, 1)%nat; (d_ (-43268) 6, d_ 175 2, 5, 1)%nat; (d_ (-12778) 5, d_ 3625 3, 1, 2)%nat; (d_ (-27896) 6, d_ 3625 3, 4, 2)%nat; (d_ (-34154) 6, d_ 145 1, 3, 3)%nat; (d_ 16329 6, d_ 12 0, 4, 3)%nat];
   [(d_ 82728408749586 14, d_ 5 1, 1, 0)%nat; (d_ (-18602220416584) 13, d_ 125 2, 1, 0)%nat; (d_ (-11199009613744) 13, d_ 1875 3, 1, 0)%nat; (d_ 15635753976056 14, d_ 125 3, 2, 0)%nat; (d_ 87375844859025 14, d_ 15 1, 2, 0)%nat; (d_ (-36674403715731) 14, d_ 1 0, 3, 0)%nat; (d_ 53987893432436 15, d_ 75 2, 4, 0)%nat; (d_ 10957690214499 13, d_ 15 1, 1, 1)%nat; (d_ 53213037828563 15, d_ 625 3, 5, 1)%nat; (d_ 13050533930825 15, d_ 2625 3, 5, 1)%nat; (d_ (-41079520434476) 14, d_ 5 0, 1, 2)%nat; (d_ 1463744334412 13, d_ 4 0, 2, 2)%nat; (d_ (-55726838623719) 15, d_ 45 1, 4, 2)%nat; (d_ (-112017741438) 13, d_ 3 0, 4, 3)%nat; (d_ (-66062758068099) 16, d_ 4 0, 1, 5)%nat; (d_ 46918522004538 16, d_ 6 0, 1, 5)%nat];
   [(d_ 87641 5, d_ 25 2, 1, 0)%nat; (d_ (-20367) 4, d_ 1125 3, 1, 0)%nat; (d_ 21634 5, d_ 15 1, 1, 0)%nat; (d_ (-50199) 6, d_ 1375 3, 2, 0)%nat; (d_ 66994 6, d_ 25 2, 3, 0)%nat; (d_ 19076 8, d_ 875 3, 7, 0)%nat; (d_ 20227 5, d_ 625 3, 2, 1)%nat; (d_ (-45348) 7, d_ 175 2, 5, 1)%nat; (d_ (-2223) 4, d_ 3625 3, 1, 2)%nat; (d_ (-34714) 6, d_ 3625 3, 4, 2)%nat; (d_ (-14885) 6, d_ 145 1, 3, 3)%nat; (d_ 74154 7, d_ 12 0, 4, 3)%nat];
   [(d_ (-45579024006737) 14, d_ 0 0, 1, 0)%nat; (d_ 12516390754925 13, d_ 125 3, 1, 0)%nat; (d_ (-15438231650621) 13, d_ 75 2, 1, 0)%nat; (d_ 20467489707221 15, d_ 1 0, 4, 0)%nat; (d_ (-34476212380781) 14, d_ 75 2, 1, 1)%nat; (d_ (-20858459512787) 15, d_ 2625 3, 3, 1)%nat; (d_ 16227414711778 15, d_ 125 3, 5, 1)%nat; (d_ (-57471818200892) 15, d_ 125 2, 5, 1)%nat; (d_ 19462416430715 15, d_ 2 0, 5, 1)%nat; (d_ (-3329568012302) 14, d_ 1 0, 2, 2)%nat; (d_ (-10863577372367) 15, d_ 45 1, 1, 3)%nat; (d_ (-22173365245954) 15, d_ 5 0, 2, 3)%nat];
   [(d_ 85095714803969 14, d_ 25 2, 1, 0)%nat; (d_ (-2400322294348) 12, d_ 1125 3, 1, 0)%nat; (d_ 54127841476466 14, d_ 15 1, 1, 0)%nat; (d_ 16919770692538 15, d_ 1375 3, 2, 0)%nat; (d_ 68825965019035 15, d_ 25 2, 3, 0)%nat; (d_ 21428032815338 17, d_ 875 3, 7, 0)%nat; (d_ 17429895321992 14, d_ 625 3, 2, 1)%nat; (d_ (-33654495604194) 15, d_ 175 2, 5, 1)%nat; (d_ (-13526799857691) 14, d_ 3625 3, 1, 2)%nat; (d_ (-16387350791552) 15, d_ 3625 3, 4, 2)%nat; (d_ (-24987666851475) 15, d_ 145 1, 3, 3)%nat; (d_ 88769204815709 16, d_ 12 0, 4, 3)%nat]].
(** the excess functions (n, t, d, eta, epsilon, beta, gamma), lines 730-737 and 1160-1229 *)
Definition ref_excess : list (nat * list (dnum * dnum * nat * dnum * dnum * dnum * dnum)) :=
  [(1%nat, [(d_ (-80926050298746) 17, d_ 65 2, 3%nat, d_ 0 0, d_ 0 0, d_ 0 0, d_ 0 0); (d_ (-75381925080059) 17, d_ 155 2, 4%nat, d_ 0 0, d_ 0 0, d_ 0 0, d_ 0 0); (d_ (-41618768891219) 15, d_ 31 1, 1%nat, d_ 1 0, d_ 5 1, d_ 1 0, d_ 5 1); (d_ (-23452173681569) 14, d_ 59 1, 2%nat, d_ 1 0, d_ 5 1, d_ 1 0, d_ 5 1); (d_ 14003840584586 14, d_ 705 2, 2%nat, d_ 1 0, d_ 5 1, d_ 1 0, d_ 5 1); (d_ 63281744807738 15, d_ 335 2, 2%nat, d_ 875 3, d_ 5 1, d_ 125 2, d_ 5 1); (d_ (-34660425848809) 15, d_ 12 1, 2%nat, d_ 75 2, d_ 5 1, d_ 15 1, d_ 5 1); (d_ (-23918747334251) 14, d_ 58 1, 2%nat, d_ 5 1, d_ 5 1, d_ 2 0, d_ 5 1); (d_ 19855255066891 16, d_ 27 1, 2%nat, d_ 0 0, d_ 5 1, d_ 3 0, d_ 5 1); (d_ 61777746171555 13, d_ 45 2, 3%nat, d_ 0 0, d_ 5 1, d_ 3 0, d_ 5 1); (d_ (-69575358271105) 13, d_ 55 2, 3%nat, d_ 0 0, d_ 5 1, d_ 3 0, d_ 5 1); (d_ 10630185306388 13, d_ 195 2, 3%nat, d_ 0 0, d_ 5 1, d_ 3 0, d_ 5 1)]);
   (2%nat, [(d_ 13746429958576 15, d_ 185 2, 3%nat, d_ 0 0, d_ 0 0, d_ 0 0, d_ 0 0); (d_ (-74425012129552) 16, d_ 395 2, 3%nat, d_ 0 0, d_ 0 0, d_ 0 0, d_ 0 0); (d_ (-45516600213685) 16, d_ 0 0, 4%nat, d_ 0 0, d_ 0 0, d_ 0 0, d_ 0 0); (d_ (-54546603350237) 16, d_ 185 2, 4%nat, d_ 0 0, d_ 0 0, d_ 0 0, d_ 0 0); (d_ 23682016824471 16, d_ 385 2, 4%nat, d_ 0 0, d_ 0 0, d_ 0 0, d_ 0 0); (d_ 18007763721438 14, d_ 525 2, 1%nat, d_ 25 2, d_ 5 1, d_ 75 2, d_ 5 1); (d_ (-44773942932486) 14, d_ 385 2, 1%nat, d_ 25 2, d_ 5 1, d_ 1 0, d_ 5 1); (d_ 193273748882 13, d_ 2 1, 1%nat, d_ 0 0, d_ 5 1, d_ 2 0, d_ 5 1); (d_ (-30632197804624) 14, d_ 65 1, 2%nat, d_ 0 0, d_ 5 1, d_ 3 0, d_ 5 1)]);
   (3%nat, [(d_ (-98038985517335) 16, d_ 0 0, 1%nat, d_ 0 0, d_ 0 0, d_ 0 0, d_ 0 0); (d_ 42487270143005 17, d_ 185 2, 4%nat, d_ 0 0, d_ 0 0, d_ 0 0, d_ 0 0); (d_ (-34800214576142) 15, d_ 785 2, 1%nat, d_ 1 0, d_ 5 1, d_ 1 0, d_ 5 1); (d_ (-13333813013896) 14, d_ 54 1, 2%nat, d_ 1 0, d_ 5 1, d_ 1 0, d_ 5 1); (d_ (-11993694974627) 15, d_ 0 0, 2%nat, d_ 25 2, d_ 5 1, d_ 25 1, d_ 5 1); (d_ 69243379775168 15, d_ 75 2, 2%nat, d_ 0 0, d_ 5 1, d_ 3 0, d_ 5 1); (d_ (-31022508148249) 14, d_ 28 1, 2%nat, d_ 0 0, d_ 5 1, d_ 3 0, d_ 5 1); (d_ 24495491753226 14, d_ 445 2, 2%nat, d_ 0 0, d_ 5 1, d_ 3 0, d_ 5 1); (d_ 22369816716981 14, d_ 425 2, 3%nat, d_ 0 0, d_ 5 1, d_ 3 0, d_ 5 1)]);
   (4%nat, [(d_ (-10859387354942) 14, d_ 26 1, 1%nat, d_ 0 0, d_ 0 0, d_ 0 0, d_ 0 0); (d_ 80228576727389 15, d_ 195 2, 2%nat, d_ 0 0, d_ 0 0, d_ 0 0, d_ 0 0); (d_ (-93303985115717) 16, d_ 0 0, 3%nat, d_ 0 0, d_ 0 0, d_ 0 0, d_ 0 0); (d_ 40989274005848 15, d_ 395 2, 1%nat, d_ 1 0, d_ 5 1, d_ 1 0, d_ 5 1); (d_ (-24338019772494) 14, d_ 795 2, 2%nat, d_ 5 1, d_ 5 1, d_ 2 0, d_ 5 1); (d_ 23855347281124 14, d_ 8 0, 3%nat, d_ 0 0, d_ 5 1, d_ 3 0, d_ 5 1)]);
   (5%nat, [(d_ 28661625028399 14, d_ 185 2, 2%nat, d_ 0 0, d_ 0 0, d_ 0 0, d_ 0 0); (d_ (-10919833861247) 14, d_ 14 1, 3%nat, d_ 0 0, d_ 0 0, d_ 0 0, d_ 0 0); (d_ (-1137403208227) 12, d_ 32 1, 1%nat, d_ 25 2, d_ 5 1, d_ 75 2, d_ 5 1); (d_ 76580544237358 14, d_ 25 1, 1%nat, d_ 25 2, d_ 5 1, d_ 1 0, d_ 5 1); (d_ 42638000926819 16, d_ 8 0, 1%nat, d_ 0 0, d_ 5 1, d_ 2 0, d_ 5 1); (d_ 17673538204534 14, d_ 375 2, 2%nat, d_ 0 0, d_ 5 1, d_ 3 0, d_ 5 1)]);
   (6%nat, [(d_ (-47376518126608) 14, d_ 0 0, 2%nat, d_ 0 0, d_ 0 0, d_ 0 0, d_ 0 0); (d_ 48961193461001 14, d_ 5 2, 2%nat, d_ 0 0, d_ 0 0, d_ 0 0, d_ 0 0); (d_ (-57011062090535) 16, d_ 0 0, 3%nat, d_ 0 0, d_ 0 0, d_ 0 0, d_ 0 0); (d_ (-1996682004132) 13, d_ 365 2, 1%nat, d_ 1 0, d_ 5 1, d_ 1 0, d_ 5 1); (d_ (-69411103101723) 14, d_ 49 1, 2%nat, d_ 1 0, d_ 5 1, d_ 1 0, d_ 5 1); (d_ 69226192739021 14, d_ 445 2, 2%nat, d_ 875 3, d_ 5 1, d_ 125 2, d_ 5 1)]);
   (7%nat, [(d_ (-25157134971934) 14, d_ 2 0, 1%nat, d_ 0 0, d_ 0 0, d_ 0 0, d_ 0 0); (d_ (-62203841111983) 16, d_ (-1) 0, 3%nat, d_ 0 0, d_ 0 0, d_ 0 0, d_ 0 0); (d_ 88850315184396 15, d_ 175 2, 3%nat, d_ 0 0, d_ 0 0, d_ 0 0, d_ 0 0); (d_ (-35592212573239) 15, d_ 14 1, 4%nat, d_ 0 0, d_ 0 0, d_ 0 0, d_ 0 0)]);
   (10%nat, [(d_ 25574776844118 13, d_ 1 0, 1%nat, d_ 0 0, d_ 0 0, d_ 0 0, d_ 0 0); (d_ (-79846357136353) 13, d_ 155 2, 1%nat, d_ 0 0, d_ 0 0, d_ 0 0, d_ 0 0); (d_ 47859131465806 13, d_ 17 1, 1%nat, d_ 0 0, d_ 0 0, d_ 0 0, d_ 0 0); (d_ (-73265392369587) 14, d_ 25 2, 2%nat, d_ 0 0, d_ 0 0, d_ 0 0, d_ 0 0); (d_ 13805471345312 13, d_ 135 2, 2%nat, d_ 0 0, d_ 0 0, d_ 0 0, d_ 0 0); (d_ 28349603476365 14, d_ 0 0, 3%nat, d_ 0 0, d_ 0 0, d_ 0 0, d_ 0 0); (d_ (-49087385940425) 14, d_ 125 2, 3%nat, d_ 0 0, d_ 0 0, d_ 0 0, d_ 0 0); (d_ (-10291888921447) 14, d_ 0 0, 4%nat, d_ 0 0, d_ 0 0, d_ 0 0, d_ 0 0); (d_ 11836314681968 14, d_ 7 1, 4%nat, d_ 0 0, d_ 0 0, d_ 0 0, d_ 0 0); (d_ 55527385721943 18, d_ 54 1, 4%nat, d_ 0 0, d_ 0 0, d_ 0 0, d_ 0 0)])].
(** factor and number of the excess function of a pair; no other pair has one, lines 1232-1273 *)
Definition ref_F : list ((nat * nat) * (dnum * nat)) :=
  [((1, 2)%nat, (d_ 1 0, 3%nat)); ((1, 3)%nat, (d_ 1 0, 4%nat)); ((1, 4)%nat, (d_ 1 0, 1%nat)); ((1, 5)%nat, (d_ 1 0, 2%nat)); ((1, 6)%nat, (d_ 771035405688 12, 10%nat)); ((1, 7)%nat, (d_ 1 0, 10%nat)); ((1, 15)%nat, (d_ 1 0, 7%nat)); ((2, 3)%nat, (d_ 1 0, 5%nat)); ((2, 4)%nat, (d_ 1 0, 6%nat)); ((4, 5)%nat, (d_ 13042476515 11, 10%nat)); ((4, 6)%nat, (d_ 260632376098 12, 10%nat)); ((4, 7)%nat, (d_ 281570073085 12, 10%nat)); ((5, 6)%nat, (d_ (-551609771024) 13, 10%nat)); ((5, 7)%nat, (d_ 312572600489 13, 10%nat)); ((6, 7)%nat, (d_ (-551240293009) 13, 10%nat))].
(** lines 1276-1296: n0 from the third on; lines 1297-1317 *)
Definition ref_n0 : list (list dnum) := [[d_ 400088 5; d_ 76315 5; d_ 46 4; d_ 874432 5; d_ (-446921) 5];
   [d_ 350031 5; d_ 13732 5; d_ (-1466) 4; d_ 90066 5; d_ 0 0];
   [d_ 350002 5; d_ 204452 5; d_ (-106044) 5; d_ 203366 5; d_ 1393 5];
   [d_ 400263 5; d_ 433939 5; d_ 123722 5; d_ 131974 4; d_ (-601989) 5];
   [d_ 402939 5; d_ 660569 5; d_ 3197 3; d_ 191921 4; d_ (-837267) 5];
   [d_ 406714 5; d_ 897575 5; d_ 525156 5; d_ 251423 4; d_ 161388 4];
   [d_ 433944 5; d_ 944893 5; d_ 689406 5; d_ 244618 4; d_ 147824 4];
   [d_ 4 0; d_ 117618 4; d_ 201101 4; d_ 331688 4; d_ 0 0];
   [d_ 4 0; d_ 895043 5; d_ 21836 3; d_ 334032 4; d_ 0 0];
   [d_ 4 0; d_ 116977 4; d_ 268142 4; d_ 386164 4; d_ 0 0];
   [d_ 4 0; d_ 137266 4; d_ 304707 4; d_ 435561 4; d_ 0 0];
   [d_ 4 0; d_ 156865 4; d_ 338029 4; d_ 481731 4; d_ 0 0];
   [d_ 4 0; d_ 180241 4; d_ 381235 4; d_ 533415 4; d_ 0 0];
   [d_ 4 0; d_ 210069 4; d_ 434931 4; d_ 583657 4; d_ 0 0];
   [d_ 247906 5; d_ 95806 5; d_ 45444 5; d_ 156039 5; d_ (-13756) 4];
   [d_ 350146 5; d_ 107558 5; d_ 101334 5; d_ 0 0; d_ 0 0];
   [d_ 350055 5; d_ 102865 5; d_ 493 5; d_ 0 0; d_ 0 0];
   [d_ 400392 5; d_ 1059 5; d_ 98763 5; d_ 306904 5; d_ 0 0];
   [d_ 4 0; d_ 311942 5; d_ 100243 5; d_ 0 0; d_ 0 0];
   [d_ 25 1; d_ 0 0; d_ 0 0; d_ 0 0; d_ 0 0];
   [d_ 25 1; d_ 0 0; d_ 0 0; d_ 0 0; d_ 0 0]].
Definition ref_th0 : list (list dnum) := [[d_ 820659 3; d_ 17841 2; d_ 106282 2; d_ 109053 2];
   [d_ 662738 3; d_ 680562 3; d_ 174006 2; d_ 0 0];
   [d_ 919306 3; d_ 86507 2; d_ 483553 3; d_ 341109 3];
   [d_ 559314 3; d_ 223284 3; d_ 103138 2; d_ 107129 2];
   [d_ 479856 3; d_ 200893 3; d_ 955312 3; d_ 102729 2];
   [d_ 43827 2; d_ 198018 3; d_ 190502 2; d_ 893765 3];
   [d_ 46827 2; d_ 183636 3; d_ 19141 1; d_ 903185 3];
   [d_ 292503 3; d_ 910237 3; d_ 191937 2; d_ 0 0];
   [d_ 17867 2; d_ 840538 3; d_ 177425 2; d_ 0 0];
   [d_ 182326 3; d_ 859207 3; d_ 182659 2; d_ 0 0];
   [d_ 169789 3; d_ 836195 3; d_ 176046 2; d_ 0 0];
   [d_ 158922 3; d_ 815064 3; d_ 169307 2; d_ 0 0];
   [d_ 156854 3; d_ 814882 3; d_ 169379 2; d_ 0 0];
   [d_ 164947 3; d_ 836264 3; d_ 175024 2; d_ 0 0];
   [d_ 228734 3; d_ 326843 3; d_ 165171 2; d_ 167169 2];
   [d_ 223571 2; d_ 111669 2; d_ 0 0; d_ 0 0];
   [d_ 155045 2; d_ 704525 3; d_ 0 0; d_ 0 0];
   [d_ 268795 3; d_ 114141 2; d_ 250737 2; d_ 0 0];
   [d_ 183363 2; d_ 847181 3; d_ 0 0; d_ 0 0];
   [d_ 0 0; d_ 0 0; d_ 0 0; d_ 0 0];
   [d_ 0 0; d_ 0 0; d_ 0 0; d_ 0 0]].
(** lines 1320-1532 *)
Definition ref_bip : list ((nat * nat) * bip) :=
  [((1, 2)%nat, {| b_V := d_ 998721377 9; g_V := d_ 1013950311 9; b_T := d_ 99809883 8; g_T := d_ 979273013 9 |});
   ((1, 3)%nat, {| b_V := d_ 999518072 9; g_V := d_ 1002806594 9; b_T := d_ 102262449 8; g_T := d_ 975665369 9 |});
   ((1, 4)%nat, {| b_V := d_ 997547866 9; g_V := d_ 1006617867 9; b_T := d_ 996336508 9; g_T := d_ 1049707697 9 |});
   ((1, 5)%nat, {| b_V := d_ 100482707 8; g_V := d_ 1038470657 9; b_T := d_ 989680305 9; g_T := d_ 1098655531 9 |});
   ((1, 6)%nat, {| b_V := d_ 1011240388 9; g_V := d_ 1054319053 9; b_T := d_ 980315756 9; g_T := d_ 1161117729 9 |});
   ((1, 7)%nat, {| b_V := d_ 979105972 9; g_V := d_ 1045375122 9; b_T := d_ 99417491 8; g_T := d_ 1171607691 9 |});
   ((1, 8)%nat, {| b_V := d_ 1 0; g_V := d_ 1343685343 9; b_T := d_ 1 0; g_T := d_ 1188899743 9 |});
   ((1, 9)%nat, {| b_V := d_ 94833012 8; g_V := d_ 1124508039 9; b_T := d_ 992127525 9; g_T := d_ 1249173968 9 |});
   ((1, 10)%nat, {| b_V := d_ 958015294 9; g_V := d_ 1052643846 9; b_T := d_ 981844797 9; g_T := d_ 1330570181 9 |});
   ((1, 11)%nat, {| b_V := d_ 962050831 9; g_V := d_ 1156655935 9; b_T := d_ 977431529 9; g_T := d_ 1379850328 9 |});
   ((1, 12)%nat, {| b_V := d_ 994740603 9; g_V := d_ 1116549372 9; b_T := d_ 957473785 9; g_T := d_ 1449245409 9 |});
   ((1, 13)%nat, {| b_V := d_ 1002852287 9; g_V := d_ 1141895355 9; b_T := d_ 947716769 9; g_T := d_ 1528532478 9 |});
   ((1, 14)%nat, {| b_V := d_ 1033086292 9; g_V := d_ 1146089637 9; b_T := d_ 937777823 9; g_T := d_ 1568231489 9 |});
   ((1, 15)%nat, {| b_V := d_ 1 0; g_V := d_ 1018702573 9; b_T := d_ 1 0; g_T := d_ 1352643115 9 |});
   ((1, 16)%nat, {| b_V := d_ 1 0; g_V := d_ 1 0; b_T := d_ 1 0; g_T := d_ 95 2 |});
   ((1, 17)%nat, {| b_V := d_ 997340772 9; g_V := d_ 1006102927 9; b_T := d_ 987411732 9; g_T := d_ 987473033 9 |});
   ((1, 18)%nat, {| b_V := d_ 1012783169 9; g_V := d_ 1585018334 9; b_T := d_ 1063333913 9; g_T := d_ 775810513 9 |});
   ((1, 19)%nat, {| b_V := d_ 1012599087 9; g_V := d_ 1040161207 9; b_T := d_ 1011090031 9; g_T := d_ 961155729 9 |});
   ((1, 20)%nat, {| b_V := d_ 1 0; g_V := d_ 881405683 9; b_T := d_ 1 0; g_T := d_ 3159776855 9 |});
   ((1, 21)%nat, {| b_V := d_ 1034630259 9; g_V := d_ 1014678542 9; b_T := d_ 990954281 9; g_T := d_ 989843388 9 |});
   ((2, 3)%nat, {| b_V := d_ 977794634 9; g_V := d_ 1047578256 9; b_T := d_ 1005894529 9; g_T := d_ 1107654104 9 |});
   ((2, 4)%nat, {| b_V := d_ 978880168 9; g_V := d_ 1042352891 9; b_T := d_ 1007671428 9; g_T := d_ 1098650964 9 |});
   ((2, 5)%nat, {| b_V := d_ 974424681 9; g_V := d_ 1081025408 9; b_T := d_ 1002677329 9; g_T := d_ 1201264026 9 |});
   ((2, 6)%nat, {| b_V := d_ 98641583 8; g_V := d_ 1100576129 9; b_T := d_ 99286813 8; g_T := d_ 1284462634 9 |});
   ((2, 7)%nat, {| b_V := d_ 99608261 8; g_V := d_ 1146949309 9; b_T := d_ 994515234 9; g_T := d_ 1304886838 9 |});
   ((2, 8)%nat, {| b_V := d_ 1 0; g_V := d_ 1154135439 9; b_T := d_ 1 0; g_T := d_ 138177077 8 |});
   ((2, 9)%nat, {| b_V := d_ 1 0; g_V := d_ 1078877166 9; b_T := d_ 1 0; g_T := d_ 1419029041 9 |});
   ((2, 10)%nat, {| b_V := d_ 1 0; g_V := d_ 1195952177 9; b_T := d_ 1 0; g_T := d_ 1472607971 9 |});
   ((2, 11)%nat, {| b_V := d_ 1 0; g_V := d_ 140455409 8; b_T := d_ 1 0; g_T := d_ 1520975334 9 |});
   ((2, 12)%nat, {| b_V := d_ 1 0; g_V := d_ 1186067025 9; b_T := d_ 1 0; g_T := d_ 1733280051 9 |});
   ((2, 13)%nat, {| b_V := d_ 1 0; g_V := d_ 1100405929 9; b_T := d_ 95637945 8; g_T := d_ 1749119996 9 |});
   ((2, 14)%nat, {| b_V := d_ 1 0; g_V := d_ 1 0; b_T := d_ 957934447 9; g_T := d_ 1822157123 9 |});
   ((2, 15)%nat, {| b_V := d_ 972532065 9; g_V := d_ 970115357 9; b_T := d_ 946134337 9; g_T := d_ 1175696583 9 |});
   ((2, 16)%nat, {| b_V := d_ 99952177 8; g_V := d_ 997082328 9; b_T := d_ 997190589 9; g_T := d_ 995157044 9 |});
   ((2, 17)%nat, {| b_V := d_ 1 0; g_V := d_ 1008690943 9; b_T := d_ 1 0; g_T := d_ 993425388 9 |});
   ((2, 18)%nat, {| b_V := d_ 1 0; g_V := d_ 1094749685 9; b_T := d_ 1 0; g_T := d_ 968808467 9 |});
   ((2, 19)%nat, {| b_V := d_ 910394249 9; g_V := d_ 1256844157 9; b_T := d_ 1004692366 9; g_T := d_ 9601742 7 |});
   ((2, 20)%nat, {| b_V := d_ 969501055 9; g_V := d_ 932629867 9; b_T := d_ 692868765 9; g_T := d_ 147183158 8 |});
   ((2, 21)%nat, {| b_V := d_ 1004166412 9; g_V := d_ 1002212182 9; b_T := d_ 999069843 9; g_T := d_ 990034831 9 |});
   ((3, 4)%nat, {| b_V := d_ 1002525718 9; g_V := d_ 1032876701 9; b_T := d_ 1013871147 9; g_T := d_ 90094953 8 |});
   ((3, 5)%nat, {| b_V := d_ 996898004 9; g_V := d_ 1047596298 9; b_T := d_ 1033620538 9; g_T := d_ 908772477 9 |});
   ((3, 6)%nat, {| b_V := d_ 1076551882 9; g_V := d_ 1081909003 9; b_T := d_ 1023339824 9; g_T := d_ 929982936 9 |});
   ((3, 7)%nat, {| b_V := d_ 1174760923 9; g_V := d_ 1222437324 9; b_T := d_ 1018171004 9; g_T := d_ 911498231 9 |});
   ((3, 8)%nat, {| b_V := d_ 1060793104 9; g_V := d_ 1116793198 9; b_T := d_ 1019180957 9; g_T := d_ 961218039 9 |});
   ((3, 9)%nat, {| b_V := d_ 1024311498 9; g_V := d_ 1068406078 9; b_T := d_ 1027000795 9; g_T := d_ 979217302 9 |});
   ((3, 10)%nat, {| b_V := d_ 1 0; g_V := d_ 851343711 9; b_T := d_ 1 0; g_T := d_ 1038675574 9 |});
   ((3, 11)%nat, {| b_V := d_ 1205469976 9; g_V := d_ 1164585914 9; b_T := d_ 1011806317 9; g_T := d_ 1046169823 9 |});
   ((3, 12)%nat, {| b_V := d_ 1026169373 9; g_V := d_ 1104043935 9; b_T := d_ 102969078 8; g_T := d_ 1074455386 9 |});
   ((3, 13)%nat, {| b_V := d_ 1 0; g_V := d_ 973386152 9; b_T := d_ 100768862 8; g_T := d_ 1140671202 9 |});
   ((3, 14)%nat, {| b_V := d_ 1000151132 9; g_V := d_ 1183394668 9; b_T := d_ 102002879 8; g_T := d_ 1145512213 9 |});
   ((3, 15)%nat, {| b_V := d_ 904142159 9; g_V := d_ 115279255 8; b_T := d_ 942320195 9; g_T := d_ 1782924792 9 |});
   ((3, 16)%nat, {| b_V := d_ 1 0; g_V := d_ 1 0; b_T := d_ 1 0; g_T := d_ 1 0 |});
   ((3, 17)%nat, {| b_V := d_ 1 0; g_V := d_ 1 0; b_T := d_ 1 0; g_T := d_ 1 0 |});
   ((3, 18)%nat, {| b_V := d_ 949055959 9; g_V := d_ 1542328793 9; b_T := d_ 997372205 9; g_T := d_ 775453996 9 |});
   ((3, 19)%nat, {| b_V := d_ 906630564 9; g_V := d_ 1024085837 9; b_T := d_ 1016034583 9; g_T := d_ 92601888 8 |});
   ((3, 20)%nat, {| b_V := d_ 846647561 9; g_V := d_ 864141549 9; b_T := d_ 76837763 8; g_T := d_ 3207456948 9 |});
   ((3, 21)%nat, {| b_V := d_ 1008392428 9; g_V := d_ 1029205465 9; b_T := d_ 996512863 9; g_T := d_ 1050971635 9 |});
   ((4, 5)%nat, {| b_V := d_ 997607277 9; g_V := d_ 100303472 8; b_T := d_ 996199694 9; g_T := d_ 101473019 8 |});
   ((4, 6)%nat, {| b_V := d_ 1 0; g_V := d_ 1006616886 9; b_T := d_ 1 0; g_T := d_ 1033283811 9 |});
   ((4, 7)%nat, {| b_V := d_ 999157205 9; g_V := d_ 1006179146 9; b_T := d_ 999130554 9; g_T := d_ 1034832749 9 |});
   ((4, 8)%nat, {| b_V := d_ 1 0; g_V := d_ 1045439935 9; b_T := d_ 1 0; g_T := d_ 1021150247 9 |});
   ((4, 9)%nat, {| b_V := d_ 993851009 9; g_V := d_ 1026085655 9; b_T := d_ 998688946 9; g_T := d_ 1066665676 9 |});
   ((4, 10)%nat, {| b_V := d_ 1 0; g_V := d_ 1169701102 9; b_T := d_ 1 0; g_T := d_ 1092177796 9 |});
   ((4, 11)%nat, {| b_V := d_ 1 0; g_V := d_ 1057666085 9; b_T := d_ 1 0; g_T := d_ 1134532014 9 |});
   ((4, 12)%nat, {| b_V := d_ 1007469726 9; g_V := d_ 1071917985 9; b_T := d_ 984068272 9; g_T := d_ 1168636194 9 |});
   ((4, 13)%nat, {| b_V := d_ 1 0; g_V := d_ 114353473 8; b_T := d_ 1 0; g_T := d_ 105603303 8 |});
   ((4, 14)%nat, {| b_V := d_ 995676258 9; g_V := d_ 1098361281 9; b_T := d_ 970918061 9; g_T := d_ 1237191558 9 |});
   ((4, 15)%nat, {| b_V := d_ 925367171 9; g_V := d_ 110607204 8; b_T := d_ 932969831 9; g_T := d_ 1902008495 9 |});
   ((4, 16)%nat, {| b_V := d_ 1 0; g_V := d_ 1 0; b_T := d_ 1 0; g_T := d_ 1 0 |});
   ((4, 17)%nat, {| b_V := d_ 1 0; g_V := d_ 1201417898 9; b_T := d_ 1 0; g_T := d_ 1069224728 9 |});
   ((4, 18)%nat, {| b_V := d_ 1 0; g_V := d_ 1 0; b_T := d_ 1 0; g_T := d_ 1 0 |});
   ((4, 19)%nat, {| b_V := d_ 1010817909 9; g_V := d_ 1030988277 9; b_T := d_ 990197354 9; g_T := d_ 90273666 8 |});
   ((4, 20)%nat, {| b_V := d_ 1 0; g_V := d_ 1 0; b_T := d_ 1 0; g_T := d_ 1 0 |});
   ((4, 21)%nat, {| b_V := d_ 1 0; g_V := d_ 1 0; b_T := d_ 1 0; g_T := d_ 1 0 |});
   ((5, 6)%nat, {| b_V := d_ 999243146 9; g_V := d_ 1001156119 9; b_T := d_ 998012298 9; g_T := d_ 1005250774 9 |});
   ((5, 7)%nat, {| b_V := d_ 999795868 9; g_V := d_ 1003264179 9; b_T := d_ 1000310289 9; g_T := d_ 1007392782 9 |});
   ((5, 8)%nat, {| b_V := d_ 1040459289 9; g_V := d_ 999432118 9; b_T := d_ 994364425 9; g_T := d_ 10032695 7 |});
   ((5, 9)%nat, {| b_V := d_ 1044919431 9; g_V := d_ 1019921513 9; b_T := d_ 996484021 9; g_T := d_ 1008344412 9 |});
   ((5, 10)%nat, {| b_V := d_ 1 0; g_V := d_ 1057872566 9; b_T := d_ 1 0; g_T := d_ 1025657518 9 |});
   ((5, 11)%nat, {| b_V := d_ 1 0; g_V := d_ 1079648053 9; b_T := d_ 1 0; g_T := d_ 1050044169 9 |});
   ((5, 12)%nat, {| b_V := d_ 1 0; g_V := d_ 1102764612 9; b_T := d_ 1 0; g_T := d_ 1063694129 9 |});
   ((5, 13)%nat, {| b_V := d_ 1 0; g_V := d_ 1199769134 9; b_T := d_ 1 0; g_T := d_ 1109973833 9 |});
   ((5, 14)%nat, {| b_V := d_ 984104227 9; g_V := d_ 1053040574 9; b_T := d_ 985331233 9; g_T := d_ 1140905252 9 |});
   ((5, 15)%nat, {| b_V := d_ 1 0; g_V := d_ 107400611 8; b_T := d_ 1 0; g_T := d_ 2308215191 9 |});
   ((5, 16)%nat, {| b_V := d_ 1 0; g_V := d_ 1 0; b_T := d_ 1 0; g_T := d_ 1 0 |});
   ((5, 17)%nat, {| b_V := d_ 1 0; g_V := d_ 1108143673 9; b_T := d_ 1 0; g_T := d_ 1197564208 9 |});
   ((5, 18)%nat, {| b_V := d_ 1 0; g_V := d_ 1011759763 9; b_T := d_ 1 0; g_T := d_ 600340961 9 |});
   ((5, 19)%nat, {| b_V := d_ 936811219 9; g_V := d_ 1010593999 9; b_T := d_ 992573556 9; g_T := d_ 905829247 9 |});
   ((5, 20)%nat, {| b_V := d_ 1 0; g_V := d_ 1 0; b_T := d_ 1 0; g_T := d_ 1 0 |});
   ((5, 21)%nat, {| b_V := d_ 1 0; g_V := d_ 1 0; b_T := d_ 1 0; g_T := d_ 1 0 |});
   ((6, 7)%nat, {| b_V := d_ 999120311 9; g_V := d_ 100041444 8; b_T := d_ 999922459 9; g_T := d_ 1001432824 9 |});
   ((6, 8)%nat, {| b_V := d_ 1 0; g_V := d_ 1002284353 9; b_T := d_ 1 0; g_T := d_ 1001835788 9 |});
   ((6, 9)%nat, {| b_V := d_ 1 0; g_V := d_ 1002779804 9; b_T := d_ 1 0; g_T := d_ 1002495889 9 |});
   ((6, 10)%nat, {| b_V := d_ 1 0; g_V := d_ 1010493989 9; b_T := d_ 1 0; g_T := d_ 1006018054 9 |});
   ((6, 11)%nat, {| b_V := d_ 1 0; g_V := d_ 1021668316 9; b_T := d_ 1 0; g_T := d_ 100988576 8 |});
   ((6, 12)%nat, {| b_V := d_ 1 0; g_V := d_ 1032807063 9; b_T := d_ 1 0; g_T := d_ 1013945424 9 |});
   ((6, 13)%nat, {| b_V := d_ 1 0; g_V := d_ 1047298475 9; b_T := d_ 1 0; g_T := d_ 1017817492 9 |});
   ((6, 14)%nat, {| b_V := d_ 1 0; g_V := d_ 1060243344 9; b_T := d_ 1 0; g_T := d_ 1021624748 9 |});
   ((6, 15)%nat, {| b_V := d_ 1 0; g_V := d_ 1147595688 9; b_T := d_ 1 0; g_T := d_ 1895305393 9 |});
   ((6, 16)%nat, {| b_V := d_ 1 0; g_V := d_ 1 0; b_T := d_ 1 0; g_T := d_ 1 0 |});
   ((6, 17)%nat, {| b_V := d_ 1 0; g_V := d_ 1087272232 9; b_T := d_ 1 0; g_T := d_ 1161390082 9 |});
   ((6, 18)%nat, {| b_V := d_ 1 0; g_V := d_ 1 0; b_T := d_ 1 0; g_T := d_ 1 0 |});
   ((6, 19)%nat, {| b_V := d_ 1012994431 9; g_V := d_ 988591117 9; b_T := d_ 974550548 9; g_T := d_ 937130844 9 |});
   ((6, 20)%nat, {| b_V := d_ 1 0; g_V := d_ 1 0; b_T := d_ 1 0; g_T := d_ 1 0 |});
   ((6, 21)%nat, {| b_V := d_ 1 0; g_V := d_ 1 0; b_T := d_ 1 0; g_T := d_ 1 0 |});
   ((7, 8)%nat, {| b_V := d_ 1 0; g_V := d_ 1002728434 9; b_T := d_ 1 0; g_T := d_ 1000792201 9 |});
   ((7, 9)%nat, {| b_V := d_ 1 0; g_V := d_ 101815965 8; b_T := d_ 1 0; g_T := d_ 100214364 8 |});
   ((7, 10)%nat, {| b_V := d_ 1 0; g_V := d_ 1034995284 9; b_T := d_ 1 0; g_T := d_ 100915706 8 |});
   ((7, 11)%nat, {| b_V := d_ 1 0; g_V := d_ 1019174227 9; b_T := d_ 1 0; g_T := d_ 1021283378 9 |});
   ((7, 12)%nat, {| b_V := d_ 1 0; g_V := d_ 1046905515 9; b_T := d_ 1 0; g_T := d_ 1033180106 9 |});
   ((7, 13)%nat, {| b_V := d_ 1 0; g_V := d_ 1049219137 9; b_T := d_ 1 0; g_T := d_ 1014096448 9 |});
   ((7, 14)%nat, {| b_V := d_ 976951968 9; g_V := d_ 1027845529 9; b_T := d_ 993688386 9; g_T := d_ 1076466918 9 |});
   ((7, 15)%nat, {| b_V := d_ 1 0; g_V := d_ 1232939523 9; b_T := d_ 1 0; g_T := d_ 2509259945 9 |});
   ((7, 16)%nat, {| b_V := d_ 1 0; g_V := d_ 1 0; b_T := d_ 1 0; g_T := d_ 1 0 |});
   ((7, 17)%nat, {| b_V := d_ 1 0; g_V := d_ 1084740904 9; b_T := d_ 1 0; g_T := d_ 1173916162 9 |});
   ((7, 18)%nat, {| b_V := d_ 1 0; g_V := d_ 1223638763 9; b_T := d_ 1 0; g_T := d_ 615512682 9 |});
   ((7, 19)%nat, {| b_V := d_ 908113163 9; g_V := d_ 1033366041 9; b_T := d_ 985962886 9; g_T := d_ 926156602 9 |});
   ((7, 20)%nat, {| b_V := d_ 1 0; g_V := d_ 1 0; b_T := d_ 1 0; g_T := d_ 1 0 |});
   ((7, 21)%nat, {| b_V := d_ 1 0; g_V := d_ 1214638734 9; b_T := d_ 1 0; g_T := d_ 1245039498 9 |});
   ((8, 9)%nat, {| b_V := d_ 1 0; g_V := d_ 1000024335 9; b_T := d_ 1 0; g_T := d_ 1000050537 9 |});
   ((8, 10)%nat, {| b_V := d_ 1 0; g_V := d_ 1002995876 9; b_T := d_ 1 0; g_T := d_ 1001204174 9 |});
   ((8, 11)%nat, {| b_V := d_ 1 0; g_V := d_ 1009928206 9; b_T := d_ 1 0; g_T := d_ 1003194615 9 |});
   ((8, 12)%nat, {| b_V := d_ 1 0; g_V := d_ 1017880545 9; b_T := d_ 1 0; g_T := d_ 100564748 8 |});
   ((8, 13)%nat, {| b_V := d_ 1 0; g_V := d_ 1028994325 9; b_T := d_ 1 0; g_T := d_ 1008191499 9 |});
   ((8, 14)%nat, {| b_V := d_ 1 0; g_V := d_ 1039372957 9; b_T := d_ 1 0; g_T := d_ 1010825138 9 |});
   ((8, 15)%nat, {| b_V := d_ 1 0; g_V := d_ 1184340443 9; b_T := d_ 1 0; g_T := d_ 1996386669 9 |});
   ((8, 16)%nat, {| b_V := d_ 1 0; g_V := d_ 1 0; b_T := d_ 1 0; g_T := d_ 1 0 |});
   ((8, 17)%nat, {| b_V := d_ 1 0; g_V := d_ 1116694577 9; b_T := d_ 1 0; g_T := d_ 1199326059 9 |});
   ((8, 18)%nat, {| b_V := d_ 1 0; g_V := d_ 1 0; b_T := d_ 1 0; g_T := d_ 1 0 |});
   ((8, 19)%nat, {| b_V := d_ 1 0; g_V := d_ 835763343 9; b_T := d_ 1 0; g_T := d_ 982651529 9 |});
   ((8, 20)%nat, {| b_V := d_ 1 0; g_V := d_ 1 0; b_T := d_ 1 0; g_T := d_ 1 0 |});
   ((8, 21)%nat, {| b_V := d_ 1 0; g_V := d_ 1 0; b_T := d_ 1 0; g_T := d_ 1 0 |});
   ((9, 10)%nat, {| b_V := d_ 1 0; g_V := d_ 1002480637 9; b_T := d_ 1 0; g_T := d_ 1000761237 9 |});
   ((9, 11)%nat, {| b_V := d_ 1 0; g_V := d_ 1008972412 9; b_T := d_ 1 0; g_T := d_ 1002441051 9 |});
   ((9, 12)%nat, {| b_V := d_ 1 0; g_V := d_ 1069223964 9; b_T := d_ 1 0; g_T := d_ 1016422347 9 |});
   ((9, 13)%nat, {| b_V := d_ 1 0; g_V := d_ 1034910633 9; b_T := d_ 1 0; g_T := d_ 1103421755 9 |});
   ((9, 14)%nat, {| b_V := d_ 1 0; g_V := d_ 1016370338 9; b_T := d_ 1 0; g_T := d_ 1049035838 9 |});
   ((9, 15)%nat, {| b_V := d_ 1 0; g_V := d_ 1188334783 9; b_T := d_ 1 0; g_T := d_ 2013859174 9 |});
   ((9, 16)%nat, {| b_V := d_ 1 0; g_V := d_ 1 0; b_T := d_ 1 0; g_T := d_ 1 0 |});
   ((9, 17)%nat, {| b_V := d_ 1 0; g_V := d_ 1119954454 9; b_T := d_ 1 0; g_T := d_ 1206043295 9 |});
   ((9, 18)%nat, {| b_V := d_ 1 0; g_V := d_ 95667731 8; b_T := d_ 1 0; g_T := d_ 447666011 9 |});
   ((9, 19)%nat, {| b_V := d_ 984613203 9; g_V := d_ 1076539234 9; b_T := d_ 962006651 9; g_T := d_ 959065662 9 |});
   ((9, 20)%nat, {| b_V := d_ 1 0; g_V := d_ 1 0; b_T := d_ 1 0; g_T := d_ 1 0 |});
   ((9, 21)%nat, {| b_V := d_ 1 0; g_V := d_ 1 0; b_T := d_ 1 0; g_T := d_ 1 0 |});
   ((10, 11)%nat, {| b_V := d_ 1 0; g_V := d_ 1001508227 9; b_T := d_ 1 0; g_T := d_ 999762786 9 |});
   ((10, 12)%nat, {| b_V := d_ 1 0; g_V := d_ 1006268954 9; b_T := d_ 1 0; g_T := d_ 1001633952 9 |});
   ((10, 13)%nat, {| b_V := d_ 1 0; g_V := d_ 102076168 8; b_T := d_ 1 0; g_T := d_ 1055369591 9 |});
   ((10, 14)%nat, {| b_V := d_ 1001516371 9; g_V := d_ 1013511439 9; b_T := d_ 99764101 8; g_T := d_ 1028939539 9 |});
   ((10, 15)%nat, {| b_V := d_ 1 0; g_V := d_ 1243461678 9; b_T := d_ 1 0; g_T := d_ 3021197546 9 |});
   ((10, 16)%nat, {| b_V := d_ 1 0; g_V := d_ 1 0; b_T := d_ 1 0; g_T := d_ 1 0 |});
   ((10, 17)%nat, {| b_V := d_ 1 0; g_V := d_ 1155145836 9; b_T := d_ 1 0; g_T := d_ 1233272781 9 |});
   ((10, 18)%nat, {| b_V := d_ 1 0; g_V := d_ 1170217596 9; b_T := d_ 1 0; g_T := d_ 569681333 9 |});
   ((10, 19)%nat, {| b_V := d_ 754473958 9; g_V := d_ 1339283552 9; b_T := d_ 985891113 9; g_T := d_ 956075596 9 |});
   ((10, 20)%nat, {| b_V := d_ 1 0; g_V := d_ 1 0; b_T := d_ 1 0; g_T := d_ 1 0 |});
   ((10, 21)%nat, {| b_V := d_ 1 0; g_V := d_ 1 0; b_T := d_ 1 0; g_T := d_ 1 0 |});
   ((11, 12)%nat, {| b_V := d_ 1 0; g_V := d_ 1006767176 9; b_T := d_ 1 0; g_T := d_ 998793111 9 |});
   ((11, 13)%nat, {| b_V := d_ 1 0; g_V := d_ 1001370076 9; b_T := d_ 1 0; g_T := d_ 1001150096 9 |});
   ((11, 14)%nat, {| b_V := d_ 1 0; g_V := d_ 1002972346 9; b_T := d_ 1 0; g_T := d_ 1002229938 9 |});
   ((11, 15)%nat, {| b_V := d_ 1 0; g_V := d_ 1159131722 9; b_T := d_ 1 0; g_T := d_ 3169143057 9 |});
   ((11, 16)%nat, {| b_V := d_ 1 0; g_V := d_ 1 0; b_T := d_ 1 0; g_T := d_ 1 0 |});
   ((11, 17)%nat, {| b_V := d_ 1 0; g_V := d_ 1190354273 9; b_T := d_ 1 0; g_T := d_ 1256123503 9 |});
   ((11, 18)%nat, {| b_V := d_ 1 0; g_V := d_ 1 0; b_T := d_ 1 0; g_T := d_ 1 0 |});
   ((11, 19)%nat, {| b_V := d_ 828967164 9; g_V := d_ 1087956749 9; b_T := d_ 988937417 9; g_T := d_ 1013453092 9 |});
   ((11, 20)%nat, {| b_V := d_ 1 0; g_V := d_ 1 0; b_T := d_ 1 0; g_T := d_ 1 0 |});
   ((11, 21)%nat, {| b_V := d_ 1 0; g_V := d_ 1 0; b_T := d_ 1 0; g_T := d_ 1 0 |});
   ((12, 13)%nat, {| b_V := d_ 1 0; g_V := d_ 1001357085 9; b_T := d_ 1 0; g_T := d_ 1000235044 9 |});
   ((12, 14)%nat, {| b_V := d_ 1 0; g_V := d_ 1002553544 9; b_T := d_ 1 0; g_T := d_ 1007186267 9 |});
   ((12, 15)%nat, {| b_V := d_ 1 0; g_V := d_ 1305249405 9; b_T := d_ 1 0; g_T := d_ 2191555216 9 |});
   ((12, 16)%nat, {| b_V := d_ 1 0; g_V := d_ 1 0; b_T := d_ 1 0; g_T := d_ 1 0 |});
   ((12, 17)%nat, {| b_V := d_ 1 0; g_V := d_ 1219206702 9; b_T := d_ 1 0; g_T := d_ 1276565536 9 |});
   ((12, 18)%nat, {| b_V := d_ 1 0; g_V := d_ 599484191 9; b_T := d_ 1 0; g_T := d_ 662072469 9 |});
   ((12, 19)%nat, {| b_V := d_ 1 0; g_V := d_ 1 0; b_T := d_ 1 0; g_T := d_ 1 0 |});
   ((12, 20)%nat, {| b_V := d_ 1 0; g_V := d_ 1 0; b_T := d_ 1 0; g_T := d_ 1 0 |});
   ((12, 21)%nat, {| b_V := d_ 1 0; g_V := d_ 1 0; b_T := d_ 1 0; g_T := d_ 1 0 |});
   ((13, 14)%nat, {| b_V := d_ 1 0; g_V := d_ 100081052 8; b_T := d_ 1 0; g_T := d_ 1000182392 9 |});
   ((13, 15)%nat, {| b_V := d_ 1 0; g_V := d_ 1342647661 9; b_T := d_ 1 0; g_T := d_ 223435404 8 |});
   ((13, 16)%nat, {| b_V := d_ 1 0; g_V := d_ 1 0; b_T := d_ 1 0; g_T := d_ 1 0 |});
   ((13, 17)%nat, {| b_V := d_ 1 0; g_V := d_ 1252151449 9; b_T := d_ 1 0; g_T := d_ 1294070556 9 |});
   ((13, 18)%nat, {| b_V := d_ 1 0; g_V := d_ 1 0; b_T := d_ 1 0; g_T := d_ 1 0 |});
   ((13, 19)%nat, {| b_V := d_ 1 0; g_V := d_ 1082905109 9; b_T := d_ 1 0; g_T := d_ 1086557826 9 |});
   ((13, 20)%nat, {| b_V := d_ 1 0; g_V := d_ 1 0; b_T := d_ 1 0; g_T := d_ 1 0 |});
   ((13, 21)%nat, {| b_V := d_ 1 0; g_V := d_ 1 0; b_T := d_ 1 0; g_T := d_ 1 0 |});
   ((14, 15)%nat, {| b_V := d_ 1695358382 9; g_V := d_ 1120233729 9; b_T := d_ 1064818089 9; g_T := d_ 3786003724 9 |});
   ((14, 16)%nat, {| b_V := d_ 1 0; g_V := d_ 1 0; b_T := d_ 1 0; g_T := d_ 1 0 |});
   ((14, 17)%nat, {| b_V := d_ 1 0; g_V := d_ 87018496 8; b_T := d_ 1049594632 9; g_T := d_ 1803567587 9 |});
   ((14, 18)%nat, {| b_V := d_ 1 0; g_V := d_ 551405318 9; b_T := d_ 897162268 9; g_T := d_ 740416402 9 |});
   ((14, 19)%nat, {| b_V := d_ 975187766 9; g_V := d_ 1171714677 9; b_T := d_ 973091413 9; g_T := d_ 1103693489 9 |});
   ((14, 20)%nat, {| b_V := d_ 1 0; g_V := d_ 1 0; b_T := d_ 1 0; g_T := d_ 1 0 |});
   ((14, 21)%nat, {| b_V := d_ 1 0; g_V := d_ 1 0; b_T := d_ 1 0; g_T := d_ 1 0 |});
   ((15, 16)%nat, {| b_V := d_ 1 0; g_V := d_ 1 0; b_T := d_ 1 0; g_T := d_ 1 0 |});
   ((15, 17)%nat, {| b_V := d_ 1 0; g_V := d_ 1121416201 9; b_T := d_ 1 0; g_T := d_ 1377504607 9 |});
   ((15, 18)%nat, {| b_V := d_ 1 0; g_V := d_ 1 0; b_T := d_ 1 0; g_T := d_ 1 0 |});
   ((15, 19)%nat, {| b_V := d_ 1 0; g_V := d_ 1 0; b_T := d_ 1 0; g_T := d_ 1 0 |});
   ((15, 20)%nat, {| b_V := d_ 1 0; g_V := d_ 1 0; b_T := d_ 1 0; g_T := d_ 1 0 |});
   ((15, 21)%nat, {| b_V := d_ 1 0; g_V := d_ 1 0; b_T := d_ 1 0; g_T := d_ 1 0 |});
   ((16, 17)%nat, {| b_V := d_ 1 0; g_V := d_ 1 0; b_T := d_ 1 0; g_T := d_ 1 0 |});
   ((16, 18)%nat, {| b_V := d_ 1 0; g_V := d_ 1143174289 9; b_T := d_ 1 0; g_T := d_ 964767932 9 |});
   ((16, 19)%nat, {| b_V := d_ 1 0; g_V := d_ 1 0; b_T := d_ 1 0; g_T := d_ 1 0 |});
   ((16, 20)%nat, {| b_V := d_ 1 0; g_V := d_ 1 0; b_T := d_ 1 0; g_T := d_ 1 0 |});
   ((16, 21)%nat, {| b_V := d_ 999746847 9; g_V := d_ 993907223 9; b_T := d_ 1000023103 9; g_T := d_ 990430423 9 |});
   ((17, 18)%nat, {| b_V := d_ 1 0; g_V := d_ 1 0; b_T := d_ 1 0; g_T := d_ 1 0 |});
   ((17, 19)%nat, {| b_V := d_ 795660392 9; g_V := d_ 1101731308 9; b_T := d_ 1025536736 9; g_T := d_ 1022749748 9 |});
   ((17, 20)%nat, {| b_V := d_ 1 0; g_V := d_ 1 0; b_T := d_ 1 0; g_T := d_ 1 0 |});
   ((17, 21)%nat, {| b_V := d_ 1 0; g_V := d_ 1159720623 9; b_T := d_ 1 0; g_T := d_ 954215746 9 |});
   ((18, 19)%nat, {| b_V := d_ 1 0; g_V := d_ 1014832832 9; b_T := d_ 1 0; g_T := d_ 940587083 9 |});
   ((18, 20)%nat, {| b_V := d_ 1 0; g_V := d_ 1 0; b_T := d_ 1 0; g_T := d_ 1 0 |});
   ((18, 21)%nat, {| b_V := d_ 1 0; g_V := d_ 1038993495 9; b_T := d_ 1 0; g_T := d_ 1070941866 9 |});
   ((19, 20)%nat, {| b_V := d_ 1 0; g_V := d_ 1 0; b_T := d_ 1 0; g_T := d_ 1 0 |});
   ((19, 21)%nat, {| b_V := d_ 1 0; g_V := d_ 1 0; b_T := d_ 1 0; g_T := d_ 1 0 |});
   ((20, 21)%nat, {| b_V := d_ 1 0; g_V := d_ 1 0; b_T := d_ 1 0; g_T := d_ 1 0 |})].
