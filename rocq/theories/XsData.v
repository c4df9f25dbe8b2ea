(** The shipped cross-section files, generated by tools/mkxs.py: every line of the file is kept.
    Energies in units of 1e-9 MeV, cross sections in units of 1e-43 barn (both exact). *)
From Coq Require Import ZArith List.
Import ListNotations.
Local Open Scope Z_scope.

(** A line of a text file as np.genfromtxt sees it: nothing left after the comment sign, a row with the
    two columns, or a line with another number of columns. *)
Inductive line := Comment | Row (energy sigma : Z) | Bad.

(** /repo/tokamak_neutron_source/data/cross_sections/T_T_He_2n.txt:1-784 *)
Definition lines_TT : list line := [
Comment;
Comment;
Comment;
Comment;
Comment;
Comment;
Comment;
Comment;
Comment;
Comment;
Comment;
Row 500000 3105200000000;
Row 501166 3387800000000;
Row 502332 3695000000000;
Row 503497 4028800000000;
Row 504663 4391400000000;
Row 505829 4785100000000;
Row 506994 5212700000000;
Row 508160 5676800000000;
Row 509326 6180300000000;
Row 510492 6726600000000;
Row 511657 7319000000000;
Row 512823 7961200000000;
Row 513989 8657300000000;
Row 515154 9411600000000;
Row 516320 10229000000000;
Row 517486 11113000000000;
Row 518652 12071000000000;
Row 519817 13108000000000;
Row 520983 14230000000000;
Row 522149 15444000000000;
Row 523315 16756000000000;
Row 524480 18176000000000;
Row 525813 19939000000000;
Row 526978 21615000000000;
Row 528144 23425000000000;
Row 529310 25381000000000;
Row 530642 27807000000000;
Row 531974 30455000000000;
Row 533306 33343000000000;
Row 534472 36084000000000;
Row 535804 39481000000000;
Row 537137 43184000000000;
Row 538469 47217000000000;
Row 539801 51610000000000;
Row 541134 56394000000000;
Row 542466 61599000000000;
Row 543798 67264000000000;
Row 545130 73426000000000;
Row 546463 80126000000000;
Row 547795 87410000000000;
Row 549127 95324000000000;
Row 550459 103920000000000;
Row 551791 113260000000000;
Row 553124 123400000000000;
Row 554456 134410000000000;
Row 555788 146350000000000;
Row 557121 159300000000000;
Row 558453 173340000000000;
Row 559785 188570000000000;
Row 561117 205070000000000;
Row 562450 222950000000000;
Row 563782 242320000000000;
Row 565114 263280000000000;
Row 566446 285980000000000;
Row 567779 310550000000000;
Row 569111 337120000000000;
Row 570443 365870000000000;
Row 571775 396940000000000;
Row 573108 430540000000000;
Row 574607 471580000000000;
Row 576105 516360000000000;
Row 577604 565180000000000;
Row 579103 618390000000000;
Row 580602 676390000000000;
Row 582100 739560000000000;
Row 583599 808350000000000;
Row 585098 883230000000000;
Row 586597 964720000000000;
Row 588096 1053400000000000;
Row 589594 1149800000000000;
Row 591093 1254600000000000;
Row 592592 1368500000000000;
Row 594091 1492200000000000;
Row 595589 1626600000000000;
Row 597088 1772500000000000;
Row 598587 1930900000000000;
Row 600086 2102800000000000;
Row 601585 2289200000000000;
Row 603083 2491300000000000;
Row 604582 2710500000000000;
Row 606081 2947900000000000;
Row 607580 3205200000000000;
Row 609245 3516200000000000;
Row 610744 3820500000000000;
Row 612243 4149900000000000;
Row 613908 4547700000000000;
Row 615407 4936700000000000;
Row 616906 5357200000000000;
Row 618571 5864600000000000;
Row 620236 6417700000000000;
Row 621902 7020400000000000;
Row 623567 7676900000000000;
Row 625232 8391800000000000;
Row 626898 9169900000000000;
Row 628563 10017000000000000;
Row 630228 10938000000000000;
Row 631894 11939000000000000;
Row 633559 13028000000000000;
Row 635224 14211000000000000;
Row 636890 15496000000000000;
Row 638555 16891000000000000;
Row 640220 18406000000000000;
Row 641885 20050000000000000;
Row 643551 21834000000000000;
Row 645216 23768000000000000;
Row 646882 25865000000000000;
Row 648547 28138000000000000;
Row 650212 30600000000000000;
Row 651877 33268000000000000;
Row 653543 36156000000000000;
Row 655375 39608000000000000;
Row 657206 43374000000000000;
Row 659038 47479000000000000;
Row 660870 51953000000000000;
Row 662702 56828000000000000;
Row 664534 62136000000000000;
Row 666366 67914000000000000;
Row 668243 74367000000000000;
Row 670145 81494000000000000;
Row 672046 89269000000000000;
Row 673947 97747000000000000;
Row 675848 106990000000000000;
Row 677749 117060000000000000;
Row 679651 128030000000000000;
Row 681552 139980000000000000;
Row 683453 152980000000000000;
Row 685354 167120000000000000;
Row 687255 182510000000000000;
Row 689157 199240000000000000;
Row 691058 217430000000000000;
Row 692959 237190000000000000;
Row 694860 258650000000000000;
Row 696762 281950000000000000;
Row 698663 307240000000000000;
Row 700564 334680000000000000;
Row 702465 364450000000000000;
Row 704366 396730000000000000;
Row 706268 431710000000000000;
Row 708359 473570000000000000;
Row 710260 514960000000000000;
Row 712161 559770000000000000;
Row 714253 613350000000000000;
Row 716344 671780000000000000;
Row 718435 735480000000000000;
Row 720527 804900000000000000;
Row 722618 880530000000000000;
Row 724709 962880000000000000;
Row 726801 1052500000000000000;
Row 728892 1150100000000000000;
Row 730983 1256200000000000000;
Row 733075 1371500000000000000;
Row 735166 1496900000000000000;
Row 737257 1633100000000000000;
Row 739349 1781100000000000000;
Row 741440 1941800000000000000;
Row 743531 2116100000000000000;
Row 745623 2305300000000000000;
Row 747714 2510500000000000000;
Row 749805 2732900000000000000;
Row 751897 2974000000000000000;
Row 754178 3260100000000000000;
Row 756269 3545000000000000000;
Row 758551 3882800000000000000;
Row 760832 4251100000000000000;
Row 763114 4652300000000000000;
Row 765395 5089400000000000000;
Row 767677 5565200000000000000;
Row 769958 6083100000000000000;
Row 772240 6646500000000000000;
Row 774521 7259300000000000000;
Row 776802 7925400000000000000;
Row 779084 8649300000000000000;
Row 781365 9435600000000000000;
Row 783647 10289000000000000000;
Row 785928 11216000000000000000;
Row 788210 12222000000000000000;
Row 790681 13408000000000000000;
Row 792963 14599000000000000000;
Row 795244 15889000000000000000;
Row 797716 17409000000000000000;
Row 800187 19067000000000000000;
Row 802659 20873000000000000000;
Row 805130 22841000000000000000;
Row 807602 24983000000000000000;
Row 810074 27316000000000000000;
Row 812545 29853000000000000000;
Row 815017 32614000000000000000;
Row 817488 35615000000000000000;
Row 819960 38876000000000000000;
Row 822431 42419000000000000000;
Row 824903 46267000000000000000;
Row 827375 50444000000000000000;
Row 829846 54977000000000000000;
Row 832318 59893000000000000000;
Row 834789 65224000000000000000;
Row 837451 71467000000000000000;
Row 840113 78272000000000000000;
Row 842774 85688000000000000000;
Row 845436 93766000000000000000;
Row 848098 102560000000000000000;
Row 850760 112140000000000000000;
Row 853421 122550000000000000000;
Row 856083 133880000000000000000;
Row 858125 143230000000000000000;
Row 860332 154030000000000000000;
Row 862539 165600000000000000000;
Row 864746 177990000000000000000;
Row 866953 191260000000000000000;
Row 869160 205450000000000000000;
Row 871367 220640000000000000000;
Row 873574 236890000000000000000;
Row 875781 254260000000000000000;
Row 877988 272830000000000000000;
Row 880195 292690000000000000000;
Row 882402 313900000000000000000;
Row 884609 336560000000000000000;
Row 886816 360760000000000000000;
Row 889023 386610000000000000000;
Row 891230 414190000000000000000;
Row 893438 443630000000000000000;
Row 896380 485960000000000000000;
Row 899323 532100000000000000000;
Row 902266 582360000000000000000;
Row 905208 637070000000000000000;
Row 908151 696620000000000000000;
Row 911094 761400000000000000000;
Row 914037 831850000000000000000;
Row 916979 908410000000000000000;
Row 919922 991610000000000000000;
Row 922865 1082000000000000000000;
Row 925808 1180100000000000000000;
Row 928750 1286500000000000000000;
Row 931693 1402000000000000000000;
Row 934636 1527200000000000000000;
Row 937579 1662800000000000000000;
Row 940521 1809900000000000000000;
Row 943464 1969100000000000000000;
Row 946407 2141500000000000000000;
Row 949350 2328000000000000000000;
Row 952292 2529900000000000000000;
Row 955235 2748100000000000000000;
Row 958178 2984000000000000000000;
Row 961121 3238900000000000000000;
Row 964063 3514300000000000000000;
Row 967006 3811700000000000000000;
Row 969949 4132600000000000000000;
Row 972892 4478900000000000000000;
Row 975834 4852500000000000000000;
Row 978777 5255200000000000000000;
Row 981720 5689400000000000000000;
Row 984663 6157200000000000000000;
Row 987605 6661000000000000000000;
Row 990548 7203600000000000000000;
Row 993491 7787600000000000000000;
Row 996434 8415900000000000000000;
Row 999376 9091800000000000000000;
Row 1002320 9818700000000000000000;
Row 1005260 10600000000000000000000;
Row 1008200 11439000000000000000000;
Row 1011150 12341000000000000000000;
Row 1014830 13563000000000000000000;
Row 1017770 14621000000000000000000;
Row 1020710 15757000000000000000000;
Row 1023650 16976000000000000000000;
Row 1026600 18283000000000000000000;
Row 1029540 19683000000000000000000;
Row 1032480 21185000000000000000000;
Row 1036160 23214000000000000000000;
Row 1039840 25424000000000000000000;
Row 1043520 27831000000000000000000;
Row 1047200 30452000000000000000000;
Row 1050870 33303000000000000000000;
Row 1053820 35763000000000000000000;
Row 1057500 39077000000000000000000;
Row 1061170 42681000000000000000000;
Row 1064120 45786000000000000000000;
Row 1067800 49965000000000000000000;
Row 1071470 54500000000000000000000;
Row 1074420 58405000000000000000000;
Row 1078100 63656000000000000000000;
Row 1081770 69348000000000000000000;
Row 1085450 75514000000000000000000;
Row 1089130 82195000000000000000000;
Row 1092810 89427000000000000000000;
Row 1096490 97254000000000000000000;
Row 1100160 105720000000000000000000;
Row 1103840 114880000000000000000000;
Row 1107520 124770000000000000000000;
Row 1111200 135460000000000000000000;
Row 1114880 147010000000000000000000;
Row 1118560 159470000000000000000000;
Row 1122970 175740000000000000000000;
Row 1126650 190470000000000000000000;
Row 1130330 206360000000000000000000;
Row 1134010 223480000000000000000000;
Row 1138420 245790000000000000000000;
Row 1142100 265950000000000000000000;
Row 1145780 287660000000000000000000;
Row 1149460 311020000000000000000000;
Row 1153870 341400000000000000000000;
Row 1157550 368820000000000000000000;
Row 1161230 398290000000000000000000;
Row 1165640 436570000000000000000000;
Row 1169320 471080000000000000000000;
Row 1173000 508130000000000000000000;
Row 1177410 556180000000000000000000;
Row 1181830 608480000000000000000000;
Row 1186240 665350000000000000000000;
Row 1190660 727180000000000000000000;
Row 1195070 794340000000000000000000;
Row 1198750 854700000000000000000000;
Row 1203160 932800000000000000000000;
Row 1207580 1017500000000000000000000;
Row 1211990 1109500000000000000000000;
Row 1216400 1209100000000000000000000;
Row 1220820 1317100000000000000000000;
Row 1225230 1434000000000000000000000;
Row 1229650 1560600000000000000000000;
Row 1234060 1697500000000000000000000;
Row 1238470 1845700000000000000000000;
Row 1242890 2005800000000000000000000;
Row 1247300 2178900000000000000000000;
Row 1251720 2365900000000000000000000;
Row 1256870 2603000000000000000000000;
Row 1262020 2862100000000000000000000;
Row 1267170 3145100000000000000000000;
Row 1272320 3454200000000000000000000;
Row 1276730 3741400000000000000000000;
Row 1281140 4050900000000000000000000;
Row 1285560 4384100000000000000000000;
Row 1290710 4805100000000000000000000;
Row 1295860 5263700000000000000000000;
Row 1301010 5762700000000000000000000;
Row 1306160 6305800000000000000000000;
Row 1311310 6896300000000000000000000;
Row 1316460 7538100000000000000000000;
Row 1321610 8235200000000000000000000;
Row 1326760 8992000000000000000000000;
Row 1331910 9813400000000000000000000;
Row 1337060 10704000000000000000000000;
Row 1342210 11670000000000000000000000;
Row 1347360 12717000000000000000000000;
Row 1352500 13850000000000000000000000;
Row 1357650 15077000000000000000000000;
Row 1362800 16405000000000000000000000;
Row 1367950 17842000000000000000000000;
Row 1373100 19394000000000000000000000;
Row 1378250 21072000000000000000000000;
Row 1383400 22884000000000000000000000;
Row 1388550 24840000000000000000000000;
Row 1393700 26951000000000000000000000;
Row 1398850 29228000000000000000000000;
Row 1404000 31683000000000000000000000;
Row 1409150 34329000000000000000000000;
Row 1414300 37180000000000000000000000;
Row 1419450 40249000000000000000000000;
Row 1424600 43553000000000000000000000;
Row 1430490 47636000000000000000000000;
Row 1436370 52074000000000000000000000;
Row 1442260 56892000000000000000000000;
Row 1448150 62123000000000000000000000;
Row 1454030 67798000000000000000000000;
Row 1459920 73952000000000000000000000;
Row 1465800 80621000000000000000000000;
Row 1471690 87846000000000000000000000;
Row 1477570 95668000000000000000000000;
Row 1483460 104130000000000000000000000;
Row 1489340 113290000000000000000000000;
Row 1495230 123190000000000000000000000;
Row 1501110 133880000000000000000000000;
Row 1507000 145440000000000000000000000;
Row 1512890 157910000000000000000000000;
Row 1519510 173120000000000000000000000;
Row 1526130 189690000000000000000000000;
Row 1532750 207710000000000000000000000;
Row 1539370 227310000000000000000000000;
Row 1545990 248620000000000000000000000;
Row 1552610 271760000000000000000000000;
Row 1559230 296890000000000000000000000;
Row 1565850 324150000000000000000000000;
Row 1572480 353710000000000000000000000;
Row 1579100 385770000000000000000000000;
Row 1585720 420490000000000000000000000;
Row 1592730 460390000000000000000000000;
Row 1599750 503860000000000000000000000;
Row 1607170 553830000000000000000000000;
Row 1614190 605380000000000000000000000;
Row 1621210 661320000000000000000000000;
Row 1628240 722010000000000000000000000;
Row 1635650 791650000000000000000000000;
Row 1643060 867430000000000000000000000;
Row 1650090 945380000000000000000000000;
Row 1657500 1034600000000000000000000000;
Row 1664910 1131600000000000000000000000;
Row 1672330 1237000000000000000000000000;
Row 1679740 1351300000000000000000000000;
Row 1687540 1482100000000000000000000000;
Row 1694960 1617100000000000000000000000;
Row 1702760 1771400000000000000000000000;
Row 1710960 1948000000000000000000000000;
Row 1718760 2131200000000000000000000000;
Row 1726560 2330100000000000000000000000;
Row 1734370 2546000000000000000000000000;
Row 1742560 2792500000000000000000000000;
Row 1750760 3060800000000000000000000000;
Row 1758950 3352700000000000000000000000;
Row 1767140 3670100000000000000000000000;
Row 1775340 4014900000000000000000000000;
Row 1783530 4389400000000000000000000000;
Row 1792110 4816000000000000000000000000;
Row 1800310 5258600000000000000000000000;
Row 1808890 5762100000000000000000000000;
Row 1817480 6309600000000000000000000000;
Row 1826060 6904800000000000000000000000;
Row 1835040 7581800000000000000000000000;
Row 1844010 8319400000000000000000000000;
Row 1852980 9122500000000000000000000000;
Row 1861570 9956800000000000000000000000;
Row 1870540 10904000000000000000000000000;
Row 1879520 11932000000000000000000000000;
Row 1888880 13101000000000000000000000000;
Row 1898250 14373000000000000000000000000;
Row 1907610 15758000000000000000000000000;
Row 1917370 17330000000000000000000000000;
Row 1926730 18973000000000000000000000000;
Row 1936100 20759000000000000000000000000;
Row 1945850 22781000000000000000000000000;
Row 1955600 24983000000000000000000000000;
Row 1964970 27279000000000000000000000000;
Row 1974720 29875000000000000000000000000;
Row 1984230 32622000000000000000000000000;
Row 1992780 35285000000000000000000000000;
Row 2003030 38742000000000000000000000000;
Row 2013280 42507000000000000000000000000;
Row 2023530 46605000000000000000000000000;
Row 2033780 51061000000000000000000000000;
Row 2044030 55905000000000000000000000000;
Row 2054280 61165000000000000000000000000;
Row 2064530 66874000000000000000000000000;
Row 2074780 73068000000000000000000000000;
Row 2085030 79781000000000000000000000000;
Row 2095280 87055000000000000000000000000;
Row 2105530 94929000000000000000000000000;
Row 2115780 103450000000000000000000000000;
Row 2126030 112660000000000000000000000000;
Row 2136280 122620000000000000000000000000;
Row 2146530 133380000000000000000000000000;
Row 2156780 144990000000000000000000000000;
Row 2167030 157510000000000000000000000000;
Row 2178990 173370000000000000000000000000;
Row 2189230 188100000000000000000000000000;
Row 2199490 203970000000000000000000000000;
Row 2211440 224020000000000000000000000000;
Row 2221690 242620000000000000000000000000;
Row 2233650 266090000000000000000000000000;
Row 2245610 291610000000000000000000000000;
Row 2257570 319340000000000000000000000000;
Row 2269530 349450000000000000000000000000;
Row 2281490 382130000000000000000000000000;
Row 2293440 417560000000000000000000000000;
Row 2305400 455950000000000000000000000000;
Row 2317360 497530000000000000000000000000;
Row 2329320 542540000000000000000000000000;
Row 2341280 591210000000000000000000000000;
Row 2353230 643810000000000000000000000000;
Row 2365190 700630000000000000000000000000;
Row 2377150 761970000000000000000000000000;
Row 2390820 838020000000000000000000000000;
Row 2404490 920890000000000000000000000000;
Row 2418150 1011100000000000000000000000000;
Row 2430110 1096600000000000000000000000000;
Row 2443780 1202300000000000000000000000000;
Row 2457440 1317100000000000000000000000000;
Row 2471110 1441700000000000000000000000000;
Row 2484780 1576900000000000000000000000000;
Row 2498440 1723600000000000000000000000000;
Row 2512110 1882400000000000000000000000000;
Row 2525780 2054500000000000000000000000000;
Row 2539440 2240600000000000000000000000000;
Row 2553110 2441800000000000000000000000000;
Row 2568490 2687600000000000000000000000000;
Row 2582150 2924700000000000000000000000000;
Row 2597530 3213800000000000000000000000000;
Row 2612900 3528600000000000000000000000000;
Row 2628280 3870900000000000000000000000000;
Row 2643650 4242900000000000000000000000000;
Row 2659030 4646800000000000000000000000000;
Row 2674400 5085200000000000000000000000000;
Row 2689780 5560500000000000000000000000000;
Row 2705150 6075500000000000000000000000000;
Row 2720530 6633100000000000000000000000000;
Row 2735900 7236400000000000000000000000000;
Row 2751280 7888600000000000000000000000000;
Row 2766650 8593400000000000000000000000000;
Row 2782030 9354300000000000000000000000000;
Row 2799110 10270000000000000000000000000000;
Row 2816190 11266000000000000000000000000000;
Row 2833280 12348000000000000000000000000000;
Row 2850360 13523000000000000000000000000000;
Row 2867440 14797000000000000000000000000000;
Row 2884530 16178000000000000000000000000000;
Row 2901610 17673000000000000000000000000000;
Row 2918690 19291000000000000000000000000000;
Row 2937490 21223000000000000000000000000000;
Row 2956280 23327000000000000000000000000000;
Row 2975070 25617000000000000000000000000000;
Row 2993860 28105000000000000000000000000000;
Row 3012650 30808000000000000000000000000000;
Row 3031440 33741000000000000000000000000000;
Row 3050240 36922000000000000000000000000000;
Row 3069030 40369000000000000000000000000000;
Row 3087820 44100000000000000000000000000000;
Row 3106610 48137000000000000000000000000000;
Row 3127110 52914000000000000000000000000000;
Row 3147610 58110000000000000000000000000000;
Row 3168110 63757000000000000000000000000000;
Row 3188610 69889000000000000000000000000000;
Row 3209110 76542000000000000000000000000000;
Row 3229610 83753000000000000000000000000000;
Row 3250110 91564000000000000000000000000000;
Row 3270610 100020000000000000000000000000000;
Row 3292820 109950000000000000000000000000000;
Row 3315030 120760000000000000000000000000000;
Row 3337240 132500000000000000000000000000000;
Row 3359440 145240000000000000000000000000000;
Row 3381650 159060000000000000000000000000000;
Row 3403860 174040000000000000000000000000000;
Row 3426070 190260000000000000000000000000000;
Row 3449990 209210000000000000000000000000000;
Row 3473900 229820000000000000000000000000000;
Row 3497820 252200000000000000000000000000000;
Row 3521730 276500000000000000000000000000000;
Row 3545650 302860000000000000000000000000000;
Row 3569570 331410000000000000000000000000000;
Row 3593480 362320000000000000000000000000000;
Row 3619110 398240000000000000000000000000000;
Row 3644740 437270000000000000000000000000000;
Row 3670360 479650000000000000000000000000000;
Row 3695990 525620000000000000000000000000000;
Row 3721610 575430000000000000000000000000000;
Row 3747230 629370000000000000000000000000000;
Row 3774570 691760000000000000000000000000000;
Row 3801900 759550000000000000000000000000000;
Row 3829230 833120000000000000000000000000000;
Row 3856570 912890000000000000000000000000000;
Row 3883900 999320000000000000000000000000000;
Row 3911230 1092900000000000000000000000000000;
Row 3940280 1200600000000000000000000000000000;
Row 3969320 1317500000000000000000000000000000;
Row 3998360 1444400000000000000000000000000000;
Row 4027400 1581800000000000000000000000000000;
Row 4056440 1730600000000000000000000000000000;
Row 4087190 1901400000000000000000000000000000;
Row 4117940 2086700000000000000000000000000000;
Row 4148690 2287700000000000000000000000000000;
Row 4179440 2505400000000000000000000000000000;
Row 4211900 2754700000000000000000000000000000;
Row 4244360 3025400000000000000000000000000000;
Row 4276820 3319000000000000000000000000000000;
Row 4309280 3637300000000000000000000000000000;
Row 4343440 4000700000000000000000000000000000;
Row 4377610 4395300000000000000000000000000000;
Row 4411780 4823500000000000000000000000000000;
Row 4445940 5287500000000000000000000000000000;
Row 4480110 5789900000000000000000000000000000;
Row 4515990 6361700000000000000000000000000000;
Row 4551860 6981800000000000000000000000000000;
Row 4587730 7653800000000000000000000000000000;
Row 4625320 8417400000000000000000000000000000;
Row 4662900 9246100000000000000000000000000000;
Row 4700480 10145000000000000000000000000000000;
Row 4739780 11164000000000000000000000000000000;
Row 4779070 12271000000000000000000000000000000;
Row 4818360 13471000000000000000000000000000000;
Row 4859360 14830000000000000000000000000000000;
Row 4900360 16307000000000000000000000000000000;
Row 4941360 17908000000000000000000000000000000;
Row 4984070 19719000000000000000000000000000000;
Row 5026780 21685000000000000000000000000000000;
Row 5069490 23818000000000000000000000000000000;
Row 5112190 26129000000000000000000000000000000;
Row 5156610 28734000000000000000000000000000000;
Row 5201030 31559000000000000000000000000000000;
Row 5247150 34742000000000000000000000000000000;
Row 5293280 38196000000000000000000000000000000;
Row 5339400 41941000000000000000000000000000000;
Row 5387240 46152000000000000000000000000000000;
Row 5435570 50769000000000000000000000000000000;
Row 5484600 55850000000000000000000000000000000;
Row 5533640 61360000000000000000000000000000000;
Row 5584250 67527000000000000000000000000000000;
Row 5634860 74215000000000000000000000000000000;
Row 5687050 81695000000000000000000000000000000;
Row 5739250 89807000000000000000000000000000000;
Row 5793030 98870000000000000000000000000000000;
Row 5846800 108700000000000000000000000000000000;
Row 5902160 119670000000000000000000000000000000;
Row 5957520 131570000000000000000000000000000000;
Row 6014460 144840000000000000000000000000000000;
Row 6071400 159220000000000000000000000000000000;
Row 6129920 175240000000000000000000000000000000;
Row 6190020 193090000000000000000000000000000000;
Row 6250120 212450000000000000000000000000000000;
Row 6311810 234000000000000000000000000000000000;
Row 6373490 257350000000000000000000000000000000;
Row 6436760 283310000000000000000000000000000000;
Row 6501610 312170000000000000000000000000000000;
Row 6568040 344250000000000000000000000000000000;
Row 6634460 379050000000000000000000000000000000;
Row 6702480 417680000000000000000000000000000000;
Row 6772070 460570000000000000000000000000000000;
Row 6841660 507070000000000000000000000000000000;
Row 6912840 558620000000000000000000000000000000;
Row 6980850 611880000000000000000000000000000000;
Row 7053130 673060000000000000000000000000000000;
Row 7125420 739240000000000000000000000000000000;
Row 7197710 810750000000000000000000000000000000;
Row 7270000 887890000000000000000000000000000000;
Row 7348850 978880000000000000000000000000000000;
Row 7427710 1077500000000000000000000000000000000;
Row 7506570 1184100000000000000000000000000000000;
Row 7585430 1299300000000000000000000000000000000;
Row 7664290 1423600000000000000000000000000000000;
Row 7749720 1569100000000000000000000000000000000;
Row 7835150 1726700000000000000000000000000000000;
Row 7920580 1897000000000000000000000000000000000;
Row 8006010 2080800000000000000000000000000000000;
Row 8098010 2294800000000000000000000000000000000;
Row 8190020 2526500000000000000000000000000000000;
Row 8282020 2776900000000000000000000000000000000;
Row 8374020 3047200000000000000000000000000000000;
Row 8472590 3360100000000000000000000000000000000;
Row 8571170 3698700000000000000000000000000000000;
Row 8669740 4064500000000000000000000000000000000;
Row 8774890 4486400000000000000000000000000000000;
Row 8880030 4943000000000000000000000000000000000;
Row 8985180 5436400000000000000000000000000000000;
Row 9096890 6003400000000000000000000000000000000;
Row 9208610 6617000000000000000000000000000000000;
Row 9320330 7280000000000000000000000000000000000;
Row 9438610 8039000000000000000000000000000000000;
Row 9556900 8860100000000000000000000000000000000;
Row 9675190 9746800000000000000000000000000000000;
Row 9800050 10758000000000000000000000000000000000;
Row 9924910 11851000000000000000000000000000000000;
Row 10049800 13031000000000000000000000000000000000;
Row 10181200 14371000000000000000000000000000000000;
Row 10312600 15818000000000000000000000000000000000;
Row 10450600 17458000000000000000000000000000000000;
Row 10588600 19230000000000000000000000000000000000;
Row 10726600 21140000000000000000000000000000000000;
Row 10871200 23298000000000000000000000000000000000;
Row 11022400 25734000000000000000000000000000000000;
Row 11180100 28484000000000000000000000000000000000;
Row 11337800 31457000000000000000000000000000000000;
Row 11495500 34666000000000000000000000000000000000;
Row 11659800 38273000000000000000000000000000000000;
Row 11830700 42326000000000000000000000000000000000;
Row 12001500 46701000000000000000000000000000000000;
Row 12179000 51606000000000000000000000000000000000;
Row 12363000 57099000000000000000000000000000000000;
Row 12547000 63030000000000000000000000000000000000;
Row 12737500 69655000000000000000000000000000000000;
Row 12928100 76799000000000000000000000000000000000;
Row 13125300 84760000000000000000000000000000000000;
Row 13335600 93924000000000000000000000000000000000;
Row 13545800 103820000000000000000000000000000000000;
Row 13760100 114680000000000000000000000000000000000;
Row 13987200 127100000000000000000000000000000000000;
Row 14220800 140900000000000000000000000000000000000;
Row 14460900 156220000000000000000000000000000000000;
Row 14707500 173200000000000000000000000000000000000;
Row 14960500 192000000000000000000000000000000000000;
Row 15220100 212810000000000000000000000000000000000;
Row 15486100 235810000000000000000000000000000000000;
Row 15758600 261190000000000000000000000000000000000;
Row 16044200 289870000000000000000000000000000000000;
Row 16342700 322210000000000000000000000000000000000;
Row 16647600 357860000000000000000000000000000000000;
Row 16959100 397110000000000000000000000000000000000;
Row 17283500 441170000000000000000000000000000000000;
Row 17614500 489590000000000000000000000000000000000;
Row 17958400 543770000000000000000000000000000000000;
Row 18315300 604320000000000000000000000000000000000;
Row 18685200 671890000000000000000000000000000000000;
Row 19068000 747200000000000000000000000000000000000;
Row 19463800 831020000000000000000000000000000000000;
Row 19872600 924150000000000000000000000000000000000;
Row 20298500 1028500000000000000000000000000000000000;
Row 20737000 1144000000000000000000000000000000000000;
Row 21198800 1274900000000000000000000000000000000000;
Row 21678200 1420900000000000000000000000000000000000;
Row 22180900 1585700000000000000000000000000000000000;
Row 22701200 1768900000000000000000000000000000000000;
Row 23244800 1974700000000000000000000000000000000000;
Row 23806000 2202800000000000000000000000000000000000;
Row 24396400 2460400000000000000000000000000000000000;
Row 25016100 2750700000000000000000000000000000000000;
Row 25665000 3076900000000000000000000000000000000000;
Row 26347800 3445300000000000000000000000000000000000;
Row 27051000 3852000000000000000000000000000000000000;
Row 27802600 4317900000000000000000000000000000000000;
Row 28578600 4833000000000000000000000000000000000000;
Row 29403000 5418700000000000000000000000000000000000;
Row 30275900 6082400000000000000000000000000000000000;
Row 31197300 6831800000000000000000000000000000000000;
Row 32167100 7675000000000000000000000000000000000000;
Row 33209800 8643600000000000000000000000000000000000;
Row 34325200 9750600000000000000000000000000000000000;
Row 35513300 11010000000000000000000000000000000000000;
Row 36774100 12435000000000000000000000000000000000000;
Row 38132000 14072000000000000000000000000000000000000;
Row 39586800 15939000000000000000000000000000000000000;
Row 41162900 18090000000000000000000000000000000000000;
Row 42884500 20589000000000000000000000000000000000000;
Row 44775800 23504000000000000000000000000000000000000;
Row 46861000 26915000000000000000000000000000000000000;
Row 49164500 30908000000000000000000000000000000000000;
Row 51748000 35646000000000000000000000000000000000000;
Row 54672500 41310000000000000000000000000000000000000;
Row 58050900 48205000000000000000000000000000000000000;
Row 62034300 56752000000000000000000000000000000000000;
Row 66950600 67804000000000000000000000000000000000000;
Row 73430000 83002000000000000000000000000000000000000;
Row 84177200 109120000000000000000000000000000000000000;
Row 103509000 156430000000000000000000000000000000000000;
Row 116394000 186820000000000000000000000000000000000000;
Row 128848000 214710000000000000000000000000000000000000;
Row 141548000 241410000000000000000000000000000000000000;
Row 154865000 267450000000000000000000000000000000000000;
Row 169124000 293130000000000000000000000000000000000000;
Row 184673000 318700000000000000000000000000000000000000;
Row 201856000 344280000000000000000000000000000000000000;
Row 221368000 370400000000000000000000000000000000000000;
Row 243778000 397230000000000000000000000000000000000000;
Row 269709000 424870000000000000000000000000000000000000;
Row 300764000 454260000000000000000000000000000000000000;
Row 338861000 486310000000000000000000000000000000000000;
Row 387522000 522870000000000000000000000000000000000000;
Row 448350000 563950000000000000000000000000000000000000;
Row 515580000 604760000000000000000000000000000000000000;
Row 583167000 640890000000000000000000000000000000000000;
Row 665718000 679310000000000000000000000000000000000000;
Row 770783000 722030000000000000000000000000000000000000;
Row 915248000 773910000000000000000000000000000000000000;
Row 1148630000 849580000000000000000000000000000000000000;
Row 1469650000 946000000000000000000000000000000000000000;
Row 1744520000 1022300000000000000000000000000000000000000;
Row 1929530000 1066500000000000000000000000000000000000000;
Row 2114060000 1101900000000000000000000000000000000000000;
Row 2317050000 1131700000000000000000000000000000000000000;
Row 2542180000 1155600000000000000000000000000000000000000;
Row 2793150000 1172600000000000000000000000000000000000000;
Row 3073640000 1181800000000000000000000000000000000000000;
Row 3394730000 1182500000000000000000000000000000000000000;
Row 3767490000 1173100000000000000000000000000000000000000;
Row 4214060000 1151600000000000000000000000000000000000000;
Row 4808270000 1112200000000000000000000000000000000000000;
Row 6898830000 953780000000000000000000000000000000000000;
Row 8164180000 864860000000000000000000000000000000000000;
Row 9288940000 792340000000000000000000000000000000000000;
Row 10315900000 732150000000000000000000000000000000000000;
Row 11275600000 681530000000000000000000000000000000000000;
Row 12182900000 638930000000000000000000000000000000000000;
Row 13141800000 599090000000000000000000000000000000000000;
Row 14158200000 561770000000000000000000000000000000000000;
Row 15232100000 526940000000000000000000000000000000000000;
Row 16363600000 494570000000000000000000000000000000000000;
Row 17543000000 464830000000000000000000000000000000000000;
Row 18780000000 437400000000000000000000000000000000000000;
Row 20000000000 412220000000000000000000000000000000000000;
Bad;
Comment
].

(** /repo/tokamak_neutron_source/data/cross_sections/D_T_He_n.txt:1-965 *)
Definition lines_DT : list line := [
Comment;
Comment;
Comment;
Comment;
Comment;
Comment;
Comment;
Comment;
Comment;
Comment;
Comment;
Row 100000 0;
Row 200000 74327;
Row 300000 4055500000000;
Row 305443 8229200000000;
Row 306733 9704600000000;
Row 307370 10524000000000;
Row 308003 11404000000000;
Row 308632 12349000000000;
Row 309258 13362000000000;
Row 309880 14449000000000;
Row 310499 15614000000000;
Row 311114 16861000000000;
Row 311725 18195000000000;
Row 312333 19621000000000;
Row 312938 21146000000000;
Row 313538 22774000000000;
Row 314135 24511000000000;
Row 314729 26363000000000;
Row 315319 28338000000000;
Row 315906 30441000000000;
Row 316489 32679000000000;
Row 317068 35061000000000;
Row 317644 37593000000000;
Row 318217 40283000000000;
Row 318786 43140000000000;
Row 319352 46172000000000;
Row 319914 49387000000000;
Row 320473 52796000000000;
Row 321028 56407000000000;
Row 321580 60231000000000;
Row 322129 64277000000000;
Row 322674 68556000000000;
Row 323486 75431000000000;
Row 324290 82903000000000;
Row 325087 90993000000000;
Row 325877 99764000000000;
Row 326658 109240000000000;
Row 327433 119490000000000;
Row 328200 130530000000000;
Row 328961 142440000000000;
Row 329714 155260000000000;
Row 330460 169060000000000;
Row 331199 183860000000000;
Row 331931 199760000000000;
Row 332656 216790000000000;
Row 333374 235050000000000;
Row 334085 254550000000000;
Row 334790 275420000000000;
Row 335487 297670000000000;
Row 336178 321440000000000;
Row 336862 346730000000000;
Row 337540 373680000000000;
Row 338210 402310000000000;
Row 338875 432760000000000;
Row 339533 465050000000000;
Row 340185 499340000000000;
Row 340829 535620000000000;
Row 341468 574080000000000;
Row 342310 628800000000000;
Row 343144 687920000000000;
Row 343967 751460000000000;
Row 344779 819650000000000;
Row 345581 892730000000000;
Row 346371 970920000000000;
Row 347151 1054500000000000;
Row 347921 1143700000000000;
Row 348680 1238700000000000;
Row 349429 1339800000000000;
Row 350167 1447300000000000;
Row 350896 1561400000000000;
Row 351615 1682400000000000;
Row 352324 1810500000000000;
Row 353023 1945900000000000;
Row 353713 2089000000000000;
Row 354393 2240000000000000;
Row 355064 2399100000000000;
Row 355726 2566600000000000;
Row 356379 2742700000000000;
Row 357022 2927700000000000;
Row 357972 3222800000000000;
Row 358900 3538300000000000;
Row 359811 3876700000000000;
Row 360700 4236900000000000;
Row 361573 4621600000000000;
Row 362426 5029300000000000;
Row 363262 5462800000000000;
Row 364079 5920500000000000;
Row 364881 6405200000000000;
Row 365663 6914900000000000;
Row 366431 7452700000000000;
Row 367181 8016100000000000;
Row 367917 8608400000000000;
Row 368635 9226800000000000;
Row 369339 9874700000000000;
Row 370260 10788000000000000;
Row 371155 11753000000000000;
Row 372025 12768000000000000;
Row 372868 13834000000000000;
Row 373688 14950000000000000;
Row 374483 16115000000000000;
Row 375255 17329000000000000;
Row 376005 18591000000000000;
Row 376733 19900000000000000;
Row 377439 21255000000000000;
Row 378462 23374000000000000;
Row 379435 25576000000000000;
Row 380370 27879000000000000;
Row 381259 30250000000000000;
Row 382113 32710000000000000;
Row 382924 35225000000000000;
Row 383704 37813000000000000;
Row 384703 41396000000000000;
Row 385642 45057000000000000;
Row 386524 48778000000000000;
Row 387353 52541000000000000;
Row 388131 56328000000000000;
Row 389206 61985000000000000;
Row 390195 67667000000000000;
Row 391085 73204000000000000;
Row 391903 78677000000000000;
Row 392906 85918000000000000;
Row 393786 92791000000000000;
Row 394557 99246000000000000;
Row 395530 108000000000000000;
Row 396346 115900000000000000;
Row 397256 125380000000000000;
Row 398234 136380000000000000;
Row 399116 147080000000000000;
Row 400000 158620000000000000;
Row 401045 173370000000000000;
Row 402081 189290000000000000;
Row 403107 206410000000000000;
Row 404124 224860000000000000;
Row 405131 244650000000000000;
Row 406130 265920000000000000;
Row 407118 288710000000000000;
Row 408098 313140000000000000;
Row 409068 339250000000000000;
Row 410030 367200000000000000;
Row 410982 397000000000000000;
Row 411926 428830000000000000;
Row 412860 462710000000000000;
Row 413787 498830000000000000;
Row 414703 537200000000000000;
Row 415612 578030000000000000;
Row 416511 621320000000000000;
Row 417402 667290000000000000;
Row 418284 715950000000000000;
Row 419159 767530000000000000;
Row 420311 840930000000000000;
Row 421452 920250000000000000;
Row 422579 1005500000000000000;
Row 423692 1097000000000000000;
Row 424789 1195100000000000000;
Row 425873 1300000000000000000;
Row 426942 1412200000000000000;
Row 427997 1531900000000000000;
Row 429038 1659400000000000000;
Row 430065 1795200000000000000;
Row 431079 1939500000000000000;
Row 432079 2092600000000000000;
Row 433066 2255000000000000000;
Row 434040 2426900000000000000;
Row 435000 2608800000000000000;
Row 435948 2800800000000000000;
Row 436882 3003500000000000000;
Row 437805 3217000000000000000;
Row 438714 3441800000000000000;
Row 439611 3678100000000000000;
Row 440496 3926400000000000000;
Row 441803 4322200000000000000;
Row 443080 4745500000000000000;
Row 444333 5199400000000000000;
Row 445558 5682600000000000000;
Row 446760 6198400000000000000;
Row 447934 6745100000000000000;
Row 449087 7326200000000000000;
Row 450213 7939600000000000000;
Row 451318 8589200000000000000;
Row 452397 9272100000000000000;
Row 453457 9992400000000000000;
Row 454491 10747000000000000000;
Row 455506 11540000000000000000;
Row 456170 12089000000000000000;
Row 457479 13244000000000000000;
Row 458752 14468000000000000000;
Row 459988 15758000000000000000;
Row 461188 17117000000000000000;
Row 462354 18542000000000000000;
Row 463487 20034000000000000000;
Row 464586 21591000000000000000;
Row 465654 23213000000000000000;
Row 466691 24899000000000000000;
Row 467697 26647000000000000000;
Row 468674 28454000000000000000;
Row 470083 31267000000000000000;
Row 471437 34219000000000000000;
Row 472725 37272000000000000000;
Row 473964 40449000000000000000;
Row 475141 43707000000000000000;
Row 476272 47072000000000000000;
Row 476996 49355000000000000000;
Row 478402 54090000000000000000;
Row 479724 58935000000000000000;
Row 480967 63863000000000000000;
Row 482135 68849000000000000000;
Row 483233 73871000000000000000;
Row 484264 78905000000000000000;
Row 485688 86393000000000000000;
Row 486998 93876000000000000000;
Row 488177 101140000000000000000;
Row 489262 108280000000000000000;
Row 490591 117700000000000000000;
Row 491758 126590000000000000000;
Row 493258 138980000000000000000;
Row 494096 146390000000000000000;
Row 495566 160300000000000000000;
Row 497085 176000000000000000000;
Row 498124 187560000000000000000;
Row 499374 202430000000000000000;
Row 500713 219590000000000000000;
Row 502130 239270000000000000000;
Row 503529 260320000000000000000;
Row 504910 282830000000000000000;
Row 506273 306840000000000000000;
Row 507619 332440000000000000000;
Row 508946 359680000000000000000;
Row 510257 388630000000000000000;
Row 511550 419360000000000000000;
Row 512827 451950000000000000000;
Row 514086 486450000000000000000;
Row 515329 522930000000000000000;
Row 516555 561470000000000000000;
Row 517765 602120000000000000000;
Row 518959 644960000000000000000;
Row 520137 690050000000000000000;
Row 521299 737460000000000000000;
Row 522446 787250000000000000000;
Row 524139 866640000000000000000;
Row 525794 951520000000000000000;
Row 527419 1042500000000000000000;
Row 529007 1139400000000000000000;
Row 530566 1242800000000000000000;
Row 532090 1352300000000000000000;
Row 533586 1468800000000000000000;
Row 535047 1591700000000000000000;
Row 536482 1721800000000000000000;
Row 537884 1858600000000000000000;
Row 539260 2002800000000000000000;
Row 540603 2153900000000000000000;
Row 541922 2312600000000000000000;
Row 542785 2422400000000000000000;
Row 544487 2653600000000000000000;
Row 546142 2898300000000000000000;
Row 547749 3156400000000000000000;
Row 549311 3427900000000000000000;
Row 550828 3712700000000000000000;
Row 552302 4010800000000000000000;
Row 553734 4321900000000000000000;
Row 555124 4645800000000000000000;
Row 556474 4982300000000000000000;
Row 557785 5331100000000000000000;
Row 559059 5691800000000000000000;
Row 560894 6252800000000000000000;
Row 562660 6841300000000000000000;
Row 564339 7449600000000000000000;
Row 565954 8082500000000000000000;
Row 567490 8731300000000000000000;
Row 568966 9401200000000000000000;
Row 569911 9855300000000000000000;
Row 571746 10797000000000000000000;
Row 573472 11761000000000000000000;
Row 575096 12740000000000000000000;
Row 576621 13730000000000000000000;
Row 578055 14728000000000000000000;
Row 580036 16218000000000000000000;
Row 581859 17715000000000000000000;
Row 583501 19174000000000000000000;
Row 585012 20617000000000000000000;
Row 586865 22526000000000000000000;
Row 588491 24338000000000000000000;
Row 589917 26041000000000000000000;
Row 591717 28349000000000000000000;
Row 593227 30434000000000000000000;
Row 594913 32934000000000000000000;
Row 596725 35835000000000000000000;
Row 598360 38661000000000000000000;
Row 600000 41704000000000000000000;
Row 601447 44576000000000000000000;
Row 602875 47593000000000000000000;
Row 604978 52390000000000000000000;
Row 607045 57546000000000000000000;
Row 609064 63046000000000000000000;
Row 611049 68930000000000000000000;
Row 612988 75179000000000000000000;
Row 614893 81835000000000000000000;
Row 616754 88873000000000000000000;
Row 618582 96339000000000000000000;
Row 620368 104200000000000000000000;
Row 622122 112510000000000000000000;
Row 623835 121230000000000000000000;
Row 625517 130400000000000000000000;
Row 627160 139990000000000000000000;
Row 628773 150060000000000000000000;
Row 630885 164270000000000000000000;
Row 632938 179290000000000000000000;
Row 634933 195120000000000000000000;
Row 636872 211760000000000000000000;
Row 638756 229210000000000000000000;
Row 640586 247450000000000000000000;
Row 642364 266480000000000000000000;
Row 644091 286280000000000000000000;
Row 645769 306830000000000000000000;
Row 647398 328110000000000000000000;
Row 648981 350110000000000000000000;
Row 651275 384480000000000000000000;
Row 653458 420130000000000000000000;
Row 655558 457340000000000000000000;
Row 657555 495600000000000000000000;
Row 659476 535210000000000000000000;
Row 661303 575640000000000000000000;
Row 663059 617200000000000000000000;
Row 665309 674610000000000000000000;
Row 667426 733170000000000000000000;
Row 669417 792580000000000000000000;
Row 671288 852550000000000000000000;
Row 673048 912790000000000000000000;
Row 675503 1003600000000000000000000;
Row 677716 1092600000000000000000000;
Row 679752 1181100000000000000000000;
Row 682173 1295100000000000000000000;
Row 684376 1407700000000000000000000;
Row 686310 1514100000000000000000000;
Row 688799 1662300000000000000000000;
Row 690190 1750800000000000000000000;
Row 692629 1917100000000000000000000;
Row 695154 2104700000000000000000000;
Row 696881 2242800000000000000000000;
Row 698959 2420300000000000000000000;
Row 701462 2651600000000000000000000;
Row 703615 2867100000000000000000000;
Row 705730 3094700000000000000000000;
Row 707796 3333400000000000000000000;
Row 709825 3584600000000000000000000;
Row 711807 3847000000000000000000000;
Row 713753 4122200000000000000000000;
Row 716302 4510700000000000000000000;
Row 718780 4921100000000000000000000;
Row 721189 5353500000000000000000000;
Row 723530 5807700000000000000000000;
Row 725805 6283700000000000000000000;
Row 728016 6781100000000000000000000;
Row 730164 7299600000000000000000000;
Row 732252 7838900000000000000000000;
Row 734279 8398500000000000000000000;
Row 736249 8977800000000000000000000;
Row 739105 9884800000000000000000000;
Row 741825 10828000000000000000000000;
Row 744441 11814000000000000000000000;
Row 746930 12830000000000000000000000;
Row 749325 13884000000000000000000000;
Row 751603 14962000000000000000000000;
Row 753793 16073000000000000000000000;
Row 756601 17609000000000000000000000;
Row 759243 19180000000000000000000000;
Row 761728 20776000000000000000000000;
Row 764066 22391000000000000000000000;
Row 766264 24015000000000000000000000;
Row 769300 26443000000000000000000000;
Row 772097 28880000000000000000000000;
Row 774617 31255000000000000000000000;
Row 776937 33602000000000000000000000;
Row 779783 36707000000000000000000000;
Row 782282 39653000000000000000000000;
Row 784475 42420000000000000000000000;
Row 787242 46169000000000000000000000;
Row 789566 49555000000000000000000000;
Row 792162 53611000000000000000000000;
Row 794952 58317000000000000000000000;
Row 797472 62897000000000000000000000;
Row 800000 67828000000000000000000000;
Row 802950 74040000000000000000000000;
Row 805818 80587000000000000000000000;
Row 808607 87468000000000000000000000;
Row 811317 94680000000000000000000000;
Row 813951 102220000000000000000000000;
Row 816511 110080000000000000000000000;
Row 818999 118260000000000000000000000;
Row 821417 126750000000000000000000000;
Row 823765 135540000000000000000000000;
Row 827154 149240000000000000000000000;
Row 830416 163630000000000000000000000;
Row 833521 178530000000000000000000000;
Row 836509 194060000000000000000000000;
Row 839353 210000000000000000000000000;
Row 842087 226470000000000000000000000;
Row 844689 243270000000000000000000000;
Row 847191 260500000000000000000000000;
Row 850399 284270000000000000000000000;
Row 853417 308480000000000000000000000;
Row 856257 332990000000000000000000000;
Row 858927 357700000000000000000000000;
Row 861439 382480000000000000000000000;
Row 864944 419760000000000000000000000;
Row 868105 456260000000000000000000000;
Row 871014 492460000000000000000000000;
Row 874474 538980000000000000000000000;
Row 877625 584890000000000000000000000;
Row 880391 628180000000000000000000000;
Row 883954 688340000000000000000000000;
Row 885944 724240000000000000000000000;
Row 889437 791520000000000000000000000;
Row 893054 867290000000000000000000000;
Row 895529 922960000000000000000000000;
Row 898507 994390000000000000000000000;
Row 901483 1070900000000000000000000000;
Row 904409 1151400000000000000000000000;
Row 907253 1235100000000000000000000000;
Row 910017 1321700000000000000000000000;
Row 912703 1411400000000000000000000000;
Row 916598 1551500000000000000000000000;
Row 920309 1696900000000000000000000000;
Row 923879 1848700000000000000000000000;
Row 927278 2004900000000000000000000000;
Row 930548 2166700000000000000000000000;
Row 933661 2331900000000000000000000000;
Row 936654 2501700000000000000000000000;
Row 940493 2736400000000000000000000000;
Row 944106 2975900000000000000000000000;
Row 947506 3218900000000000000000000000;
Row 950704 3464300000000000000000000000;
Row 953713 3710900000000000000000000000;
Row 957914 4082500000000000000000000000;
Row 961702 4447100000000000000000000000;
Row 965192 4809400000000000000000000000;
Row 969341 5276000000000000000000000000;
Row 973122 5737400000000000000000000000;
Row 976442 6173100000000000000000000000;
Row 980719 6779900000000000000000000000;
Row 983108 7142600000000000000000000000;
Row 987304 7823400000000000000000000000;
Row 991650 8591700000000000000000000000;
Row 994624 9157200000000000000000000000;
Row 998205 9883900000000000000000000000;
Row 1001350 10567000000000000000000000000;
Row 1005420 11514000000000000000000000000;
Row 1009470 12536000000000000000000000000;
Row 1013520 13641000000000000000000000000;
Row 1017560 14832000000000000000000000000;
Row 1021600 16117000000000000000000000000;
Row 1025620 17501000000000000000000000000;
Row 1029640 18993000000000000000000000000;
Row 1033650 20598000000000000000000000000;
Row 1037650 22325000000000000000000000000;
Row 1041640 24180000000000000000000000000;
Row 1045630 26175000000000000000000000000;
Row 1049600 28315000000000000000000000000;
Row 1053570 30612000000000000000000000000;
Row 1057530 33075000000000000000000000000;
Row 1061490 35715000000000000000000000000;
Row 1065430 38541000000000000000000000000;
Row 1069370 41569000000000000000000000000;
Row 1073290 44806000000000000000000000000;
Row 1077210 48269000000000000000000000000;
Row 1081120 51967000000000000000000000000;
Row 1085020 55919000000000000000000000000;
Row 1088910 60135000000000000000000000000;
Row 1092790 64635000000000000000000000000;
Row 1096660 69431000000000000000000000000;
Row 1100530 74545000000000000000000000000;
Row 1104380 79988000000000000000000000000;
Row 1108230 85786000000000000000000000000;
Row 1113350 94111000000000000000000000000;
Row 1118460 103150000000000000000000000000;
Row 1123550 112940000000000000000000000000;
Row 1128620 123560000000000000000000000000;
Row 1133680 135050000000000000000000000000;
Row 1138720 147470000000000000000000000000;
Row 1143740 160900000000000000000000000000;
Row 1148740 175390000000000000000000000000;
Row 1153730 191020000000000000000000000000;
Row 1158700 207860000000000000000000000000;
Row 1163650 226000000000000000000000000000;
Row 1168590 245520000000000000000000000000;
Row 1173500 266500000000000000000000000000;
Row 1178400 289030000000000000000000000000;
Row 1183280 313220000000000000000000000000;
Row 1188140 339160000000000000000000000000;
Row 1192990 366960000000000000000000000000;
Row 1197810 396720000000000000000000000000;
Row 1202620 428570000000000000000000000000;
Row 1207410 462630000000000000000000000000;
Row 1212180 499010000000000000000000000000;
Row 1216930 537850000000000000000000000000;
Row 1221660 579290000000000000000000000000;
Row 1226370 623460000000000000000000000000;
Row 1231070 670520000000000000000000000000;
Row 1235750 720620000000000000000000000000;
Row 1240400 773910000000000000000000000000;
Row 1245040 830570000000000000000000000000;
Row 1249660 890760000000000000000000000000;
Row 1254260 954660000000000000000000000000;
Row 1258840 1022500000000000000000000000000;
Row 1263400 1094300000000000000000000000000;
Row 1267940 1170500000000000000000000000000;
Row 1272470 1251200000000000000000000000000;
Row 1276970 1336500000000000000000000000000;
Row 1283680 1473700000000000000000000000000;
Row 1290360 1622900000000000000000000000000;
Row 1296990 1784500000000000000000000000000;
Row 1303580 1959800000000000000000000000000;
Row 1310120 2149200000000000000000000000000;
Row 1316620 2354000000000000000000000000000;
Row 1323070 2574700000000000000000000000000;
Row 1329480 2812900000000000000000000000000;
Row 1335840 3068800000000000000000000000000;
Row 1342170 3344300000000000000000000000000;
Row 1348440 3639700000000000000000000000000;
Row 1354670 3956900000000000000000000000000;
Row 1360860 4296200000000000000000000000000;
Row 1367000 4659800000000000000000000000000;
Row 1373100 5047800000000000000000000000000;
Row 1379150 5462500000000000000000000000000;
Row 1385160 5904200000000000000000000000000;
Row 1391130 6375300000000000000000000000000;
Row 1397040 6876000000000000000000000000000;
Row 1402920 7409000000000000000000000000000;
Row 1408750 7974200000000000000000000000000;
Row 1414540 8574700000000000000000000000000;
Row 1420270 9210200000000000000000000000000;
Row 1425980 9884000000000000000000000000000;
Row 1433530 10847000000000000000000000000000;
Row 1441010 11883000000000000000000000000000;
Row 1448410 12996000000000000000000000000000;
Row 1455730 14190000000000000000000000000000;
Row 1462970 15470000000000000000000000000000;
Row 1470140 16838000000000000000000000000000;
Row 1477230 18299000000000000000000000000000;
Row 1484240 19857000000000000000000000000000;
Row 1491170 21515000000000000000000000000000;
Row 1498030 23279000000000000000000000000000;
Row 1504810 25152000000000000000000000000000;
Row 1511510 27137000000000000000000000000000;
Row 1518140 29239000000000000000000000000000;
Row 1524690 31462000000000000000000000000000;
Row 1531170 33810000000000000000000000000000;
Row 1537570 36287000000000000000000000000000;
Row 1543900 38896000000000000000000000000000;
Row 1550160 41641000000000000000000000000000;
Row 1556340 44526000000000000000000000000000;
Row 1565470 49118000000000000000000000000000;
Row 1574460 54057000000000000000000000000000;
Row 1583270 59328000000000000000000000000000;
Row 1591940 64971000000000000000000000000000;
Row 1600430 70965000000000000000000000000000;
Row 1608790 77351000000000000000000000000000;
Row 1616980 84105000000000000000000000000000;
Row 1625030 91270000000000000000000000000000;
Row 1632920 98815000000000000000000000000000;
Row 1640680 106790000000000000000000000000000;
Row 1648270 115150000000000000000000000000000;
Row 1655740 123950000000000000000000000000000;
Row 1663050 133140000000000000000000000000000;
Row 1670230 142780000000000000000000000000000;
Row 1679670 156390000000000000000000000000000;
Row 1688850 170770000000000000000000000000000;
Row 1697800 185910000000000000000000000000000;
Row 1706510 201800000000000000000000000000000;
Row 1715000 218460000000000000000000000000000;
Row 1723260 235850000000000000000000000000000;
Row 1731300 253970000000000000000000000000000;
Row 1739120 272800000000000000000000000000000;
Row 1746730 292330000000000000000000000000000;
Row 1754140 312540000000000000000000000000000;
Row 1764900 344140000000000000000000000000000;
Row 1775170 376950000000000000000000000000000;
Row 1785070 411230000000000000000000000000000;
Row 1794510 446510000000000000000000000000000;
Row 1803600 483070000000000000000000000000000;
Row 1812270 520390000000000000000000000000000;
Row 1820620 558780000000000000000000000000000;
Row 1831340 611830000000000000000000000000000;
Row 1841450 665960000000000000000000000000000;
Row 1850980 720880000000000000000000000000000;
Row 1859960 776330000000000000000000000000000;
Row 1868420 832030000000000000000000000000000;
Row 1880250 915970000000000000000000000000000;
Row 1890940 998270000000000000000000000000000;
Row 1900800 1080000000000000000000000000000000;
Row 1912540 1185300000000000000000000000000000;
Row 1923260 1289200000000000000000000000000000;
Row 1932690 1387400000000000000000000000000000;
Row 1944860 1523900000000000000000000000000000;
Row 1951670 1605500000000000000000000000000000;
Row 1963640 1758400000000000000000000000000000;
Row 1976060 1930800000000000000000000000000000;
Row 1984580 2057600000000000000000000000000000;
Row 1994850 2220300000000000000000000000000000;
Row 2006350 2416300000000000000000000000000000;
Row 2019000 2649900000000000000000000000000000;
Row 2031530 2900900000000000000000000000000000;
Row 2043940 3170300000000000000000000000000000;
Row 2056230 3459000000000000000000000000000000;
Row 2068400 3767700000000000000000000000000000;
Row 2080460 4097500000000000000000000000000000;
Row 2092390 4449200000000000000000000000000000;
Row 2104200 4823700000000000000000000000000000;
Row 2115900 5221800000000000000000000000000000;
Row 2127470 5644500000000000000000000000000000;
Row 2138920 6092700000000000000000000000000000;
Row 2150260 6567100000000000000000000000000000;
Row 2161480 7068800000000000000000000000000000;
Row 2172580 7598600000000000000000000000000000;
Row 2183560 8157200000000000000000000000000000;
Row 2194430 8745600000000000000000000000000000;
Row 2205170 9364500000000000000000000000000000;
Row 2215810 10014800000000000000000000000000000;
Row 2231550 11052100000000000000000000000000000;
Row 2247000 12161300000000000000000000000000000;
Row 2262240 13350800000000000000000000000000000;
Row 2277170 14616400000000000000000000000000000;
Row 2291900 15967000000000000000000000000000000;
Row 2306330 17397400000000000000000000000000000;
Row 2320550 18916900000000000000000000000000000;
Row 2334480 20519100000000000000000000000000000;
Row 2348210 22213800000000000000000000000000000;
Row 2361660 23993400000000000000000000000000000;
Row 2374910 25868100000000000000000000000000000;
Row 2387880 27829000000000000000000000000000000;
Row 2400650 29886900000000000000000000000000000;
Row 2417430 32794300000000000000000000000000000;
Row 2433800 35868500000000000000000000000000000;
Row 2449760 39109000000000000000000000000000000;
Row 2465320 42514900000000000000000000000000000;
Row 2480490 46084400000000000000000000000000000;
Row 2495270 49815400000000000000000000000000000;
Row 2509680 53704800000000000000000000000000000;
Row 2523710 57749200000000000000000000000000000;
Row 2537380 61944600000000000000000000000000000;
Row 2550700 66286500000000000000000000000000000;
Row 2570070 73081100000000000000000000000000000;
Row 2588570 80138600000000000000000000000000000;
Row 2606440 87513300000000000000000000000000000;
Row 2623500 95105400000000000000000000000000000;
Row 2639950 102972000000000000000000000000000000;
Row 2655660 111006000000000000000000000000000000;
Row 2670800 119268000000000000000000000000000000;
Row 2690270 130686000000000000000000000000000000;
Row 2708650 142335000000000000000000000000000000;
Row 2726000 154153000000000000000000000000000000;
Row 2742370 166080000000000000000000000000000000;
Row 2757800 178060000000000000000000000000000000;
Row 2779420 196108000000000000000000000000000000;
Row 2798970 213794000000000000000000000000000000;
Row 2817030 231356000000000000000000000000000000;
Row 2838580 253946000000000000000000000000000000;
Row 2858270 276252000000000000000000000000000000;
Row 2875620 297294000000000000000000000000000000;
Row 2898030 326549000000000000000000000000000000;
Row 2910580 344009000000000000000000000000000000;
Row 2932680 376732000000000000000000000000000000;
Row 2955650 413580000000000000000000000000000000;
Row 2971410 440649000000000000000000000000000000;
Row 2990440 475367000000000000000000000000000000;
Row 3013520 520681000000000000000000000000000000;
Row 3033480 562894000000000000000000000000000000;
Row 3053150 607380000000000000000000000000000000;
Row 3072440 653925000000000000000000000000000000;
Row 3091450 702785000000000000000000000000000000;
Row 3116440 771833000000000000000000000000000000;
Row 3140850 844856000000000000000000000000000000;
Row 3164670 921844000000000000000000000000000000;
Row 3187920 1002770000000000000000000000000000000;
Row 3210610 1087580000000000000000000000000000000;
Row 3232740 1176230000000000000000000000000000000;
Row 3254330 1268640000000000000000000000000000000;
Row 3275370 1364730000000000000000000000000000000;
Row 3295900 1464390000000000000000000000000000000;
Row 3315900 1567510000000000000000000000000000000;
Row 3345020 1728860000000000000000000000000000000;
Row 3372890 1896380000000000000000000000000000000;
Row 3399810 2071380000000000000000000000000000000;
Row 3425550 2251450000000000000000000000000000000;
Row 3450400 2437960000000000000000000000000000000;
Row 3474140 2628350000000000000000000000000000000;
Row 3497040 2824050000000000000000000000000000000;
Row 3526540 3094330000000000000000000000000000000;
Row 3554410 3369890000000000000000000000000000000;
Row 3580750 3649250000000000000000000000000000000;
Row 3605610 3931010000000000000000000000000000000;
Row 3629080 4213810000000000000000000000000000000;
Row 3661980 4639470000000000000000000000000000000;
Row 3691780 5056200000000000000000000000000000000;
Row 3719340 5469590000000000000000000000000000000;
Row 3753320 6018700000000000000000000000000000000;
Row 3783300 6541650000000000000000000000000000000;
Row 3809730 7034280000000000000000000000000000000;
Row 3843240 7703910000000000000000000000000000000;
Row 3871510 8310330000000000000000000000000000000;
Row 3903240 9038780000000000000000000000000000000;
Row 3937530 9886130000000000000000000000000000000;
Row 3968640 10712500000000000000000000000000000000;
Row 4000000 11604000000000000000000000000000000000;
Row 4027990 12453400000000000000000000000000000000;
Row 4068580 13778500000000000000000000000000000000;
Row 4107880 15173000000000000000000000000000000000;
Row 4145500 16617900000000000000000000000000000000;
Row 4181880 18124200000000000000000000000000000000;
Row 4216690 19671200000000000000000000000000000000;
Row 4250320 21270500000000000000000000000000000000;
Row 4271950 22355800000000000000000000000000000000;
Row 4314180 24609000000000000000000000000000000000;
Row 4354140 26914500000000000000000000000000000000;
Row 4391940 29259600000000000000000000000000000000;
Row 4427680 31632000000000000000000000000000000000;
Row 4461450 34019700000000000000000000000000000000;
Row 4508370 37586500000000000000000000000000000000;
Row 4551850 41166500000000000000000000000000000000;
Row 4591260 44652600000000000000000000000000000000;
Row 4627720 48094200000000000000000000000000000000;
Row 4672690 52641900000000000000000000000000000000;
Row 4712400 56950000000000000000000000000000000000;
Row 4763860 62965200000000000000000000000000000000;
Row 4792760 66568500000000000000000000000000000000;
Row 4843750 73344600000000000000000000000000000000;
Row 4896900 81007400000000000000000000000000000000;
Row 4933480 86656300000000000000000000000000000000;
Row 4977730 93922900000000000000000000000000000000;
Row 5028570 102897000000000000000000000000000000000;
Row 5083510 113387000000000000000000000000000000000;
Row 5136450 124315000000000000000000000000000000000;
Row 5186580 135450000000000000000000000000000000000;
Row 5234020 146731000000000000000000000000000000000;
Row 5278890 158100000000000000000000000000000000000;
Row 5321300 169504000000000000000000000000000000000;
Row 5380880 186652000000000000000000000000000000000;
Row 5434940 203421000000000000000000000000000000000;
Row 5485030 220037000000000000000000000000000000000;
Row 5546900 242079000000000000000000000000000000000;
Row 5601610 263041000000000000000000000000000000000;
Row 5649930 282761000000000000000000000000000000000;
Row 5711290 309525000000000000000000000000000000000;
Row 5763160 333724000000000000000000000000000000000;
Row 5821480 362743000000000000000000000000000000000;
Row 5884620 396433000000000000000000000000000000000;
Row 5942030 429226000000000000000000000000000000000;
Row 6000000 464530000000000000000000000000000000000;
Row 6058090 502302000000000000000000000000000000000;
Row 6113050 540292000000000000000000000000000000000;
Row 6189550 596987000000000000000000000000000000000;
Row 6260590 653826000000000000000000000000000000000;
Row 6325080 709114000000000000000000000000000000000;
Row 6384830 763633000000000000000000000000000000000;
Row 6458670 835584000000000000000000000000000000000;
Row 6523980 903650000000000000000000000000000000000;
Row 6608760 998537000000000000000000000000000000000;
Row 6656440 1055290000000000000000000000000000000000;
Row 6740720 1161860000000000000000000000000000000000;
Row 6828740 1282130000000000000000000000000000000000;
Row 6889420 1370630000000000000000000000000000000000;
Row 6962940 1484270000000000000000000000000000000000;
Row 7029270 1593170000000000000000000000000000000000;
Row 7114110 1741760000000000000000000000000000000000;
Row 7191170 1885990000000000000000000000000000000000;
Row 7262600 2027950000000000000000000000000000000000;
Row 7350930 2214910000000000000000000000000000000000;
Row 7429090 2391410000000000000000000000000000000000;
Row 7530620 2636900000000000000000000000000000000000;
Row 7638100 2917780000000000000000000000000000000000;
Row 7727010 3167300000000000000000000000000000000000;
Row 7823420 3456300000000000000000000000000000000000;
Row 7911220 3736910000000000000000000000000000000000;
Row 8029500 4142760000000000000000000000000000000000;
Row 8114920 4457040000000000000000000000000000000000;
Row 8220610 4871020000000000000000000000000000000000;
Row 8314220 5261830000000000000000000000000000000000;
Row 8435910 5805410000000000000000000000000000000000;
Row 8564860 6427330000000000000000000000000000000000;
Row 8671630 6979770000000000000000000000000000000000;
Row 8787510 7619500000000000000000000000000000000000;
Row 8893120 8240540000000000000000000000000000000000;
Row 9000000 8907400000000000000000000000000000000000;
Row 9119310 9701520000000000000000000000000000000000;
Row 9271640 10791800000000000000000000000000000000000;
Row 9401080 11788700000000000000000000000000000000000;
Row 9547360 12996800000000000000000000000000000000000;
Row 9700600 14359400000000000000000000000000000000000;
Row 9806480 15361400000000000000000000000000000000000;
Row 9935070 16647200000000000000000000000000000000000;
Row 10059700 17970500000000000000000000000000000000000;
Row 10225900 19856400000000000000000000000000000000000;
Row 10402300 22014500000000000000000000000000000000000;
Row 10548600 23931700000000000000000000000000000000000;
Row 10707600 26151700000000000000000000000000000000000;
Row 10852800 28306600000000000000000000000000000000000;
Row 11000000 30620000000000000000000000000000000000000;
Row 11173300 33527400000000000000000000000000000000000;
Row 11320500 36149000000000000000000000000000000000000;
Row 11486700 39283700000000000000000000000000000000000;
Row 11667400 42910800000000000000000000000000000000000;
Row 11888100 47657200000000000000000000000000000000000;
Row 12057900 51564400000000000000000000000000000000000;
Row 12226100 55667300000000000000000000000000000000000;
Row 12434900 61078900000000000000000000000000000000000;
Row 12620600 66193600000000000000000000000000000000000;
Row 12862900 73314400000000000000000000000000000000000;
Row 13120800 81467700000000000000000000000000000000000;
Row 13335300 88712800000000000000000000000000000000000;
Row 13569000 97103600000000000000000000000000000000000;
Row 13782800 105248000000000000000000000000000000000000;
Row 14000000 113990000000000000000000000000000000000000;
Row 14235600 124105000000000000000000000000000000000000;
Row 14537700 137947000000000000000000000000000000000000;
Row 14795400 150559000000000000000000000000000000000000;
Row 15087800 165785000000000000000000000000000000000000;
Row 15310800 178076000000000000000000000000000000000000;
Row 15651600 198007000000000000000000000000000000000000;
Row 16000000 219860000000000000000000000000000000000000;
Row 16342200 243034000000000000000000000000000000000000;
Row 16634300 264037000000000000000000000000000000000000;
Row 16965700 289269000000000000000000000000000000000000;
Row 17328100 318598000000000000000000000000000000000000;
Row 17660800 347161000000000000000000000000000000000000;
Row 18000000 377910000000000000000000000000000000000000;
Row 18450000 421749000000000000000000000000000000000000;
Row 18825900 460733000000000000000000000000000000000000;
Row 19237100 505896000000000000000000000000000000000000;
Row 19742400 565051000000000000000000000000000000000000;
Row 20000000 596780000000000000000000000000000000000000;
Row 20482300 659741000000000000000000000000000000000000;
Row 20851600 710597000000000000000000000000000000000000;
Row 21418100 793108000000000000000000000000000000000000;
Row 22000000 883590000000000000000000000000000000000000;
Row 22668000 995979000000000000000000000000000000000000;
Row 23135000 1079320000000000000000000000000000000000000;
Row 23708100 1186980000000000000000000000000000000000000;
Row 24241300 1293080000000000000000000000000000000000000;
Row 24855300 1422610000000000000000000000000000000000000;
Row 25612700 1592140000000000000000000000000000000000000;
Row 26242000 1741910000000000000000000000000000000000000;
Row 26856800 1896710000000000000000000000000000000000000;
Row 27613600 2097270000000000000000000000000000000000000;
Row 28242500 2273160000000000000000000000000000000000000;
Row 29233800 2568300000000000000000000000000000000000000;
Row 30000000 2809600000000000000000000000000000000000000;
Row 35000000 4707300000000000000000000000000000000000000;
Row 40000000 7163600000000000000000000000000000000000000;
Row 45000000 10173000000000000000000000000000000000000000;
Row 50000000 13702000000000000000000000000000000000000000;
Row 55000000 17686000000000000000000000000000000000000000;
Row 60000000 22021000000000000000000000000000000000000000;
Row 70000000 31134000000000000000000000000000000000000000;
Row 75000000 35535000000000000000000000000000000000000000;
Row 80000000 39571000000000000000000000000000000000000000;
Row 85000000 43068000000000000000000000000000000000000000;
Row 90000000 45902000000000000000000000000000000000000000;
Row 95000000 48005000000000000000000000000000000000000000;
Row 100000000 49370000000000000000000000000000000000000000;
Row 102000000 49718000000000000000000000000000000000000000;
Row 104000000 49959000000000000000000000000000000000000000;
Row 108000000 50142000000000000000000000000000000000000000;
Row 112000000 49969000000000000000000000000000000000000000;
Row 114000000 49766000000000000000000000000000000000000000;
Row 120000000 48769000000000000000000000000000000000000000;
Row 125000000 47592000000000000000000000000000000000000000;
Row 130000000 46194000000000000000000000000000000000000000;
Row 140000000 43027000000000000000000000000000000000000000;
Row 150000000 39704000000000000000000000000000000000000000;
Row 160000000 36475000000000000000000000000000000000000000;
Row 170000000 33465000000000000000000000000000000000000000;
Row 180000000 30723000000000000000000000000000000000000000;
Row 190000000 28256000000000000000000000000000000000000000;
Row 200000000 26051000000000000000000000000000000000000000;
Row 220000000 22332000000000000000000000000000000000000000;
Row 240000000 19369000000000000000000000000000000000000000;
Row 260000000 16985000000000000000000000000000000000000000;
Row 280000000 15046000000000000000000000000000000000000000;
Row 300000000 13448000000000000000000000000000000000000000;
Row 320000000 12116000000000000000000000000000000000000000;
Row 340000000 10994000000000000000000000000000000000000000;
Row 360000000 10039000000000000000000000000000000000000000;
Row 380000000 9218200000000000000000000000000000000000000;
Row 400000000 8507400000000000000000000000000000000000000;
Row 420000000 7887000000000000000000000000000000000000000;
Row 440000000 7342000000000000000000000000000000000000000;
Row 460000000 6860000000000000000000000000000000000000000;
Row 480000000 6431500000000000000000000000000000000000000;
Row 500000000 6048500000000000000000000000000000000000000;
Row 550000000 5250400000000000000000000000000000000000000;
Row 600000000 4624900000000000000000000000000000000000000;
Row 650000000 4124000000000000000000000000000000000000000;
Row 700000000 3715700000000000000000000000000000000000000;
Row 750000000 3377800000000000000000000000000000000000000;
Row 800000000 3094400000000000000000000000000000000000000;
Row 850000000 2854100000000000000000000000000000000000000;
Row 900000000 2648300000000000000000000000000000000000000;
Row 950000000 2470500000000000000000000000000000000000000;
Row 1000000000 2315800000000000000000000000000000000000000;
Row 1100000000 2060700000000000000000000000000000000000000;
Row 1200000000 1860300000000000000000000000000000000000000;
Row 1300000000 1699900000000000000000000000000000000000000;
Row 1400000000 1569500000000000000000000000000000000000000;
Row 1500000000 1462000000000000000000000000000000000000000;
Row 1600000000 1372500000000000000000000000000000000000000;
Row 1700000000 1297100000000000000000000000000000000000000;
Row 1800000000 1233300000000000000000000000000000000000000;
Row 1900000000 1178800000000000000000000000000000000000000;
Row 2000000000 1132000000000000000000000000000000000000000;
Row 2100000000 1091600000000000000000000000000000000000000;
Row 2200000000 1056700000000000000000000000000000000000000;
Row 2300000000 1026300000000000000000000000000000000000000;
Row 2400000000 999950000000000000000000000000000000000000;
Row 2500000000 976970000000000000000000000000000000000000;
Row 2600000000 956950000000000000000000000000000000000000;
Row 2700000000 939520000000000000000000000000000000000000;
Row 2800000000 924380000000000000000000000000000000000000;
Row 3000000000 899920000000000000000000000000000000000000;
Row 3200000000 881840000000000000000000000000000000000000;
Row 3400000000 868770000000000000000000000000000000000000;
Row 3600000000 859750000000000000000000000000000000000000;
Row 3800000000 852620000000000000000000000000000000000000;
Row 4800000000 815230000000000000000000000000000000000000;
Row 5200000000 795090000000000000000000000000000000000000;
Row 5800000000 756950000000000000000000000000000000000000;
Row 6600000000 704420000000000000000000000000000000000000;
Row 7000000000 679790000000000000000000000000000000000000;
Row 8000000000 610690000000000000000000000000000000000000;
Row 8500000000 578970000000000000000000000000000000000000;
Row 9000000000 553900000000000000000000000000000000000000;
Row 9500000000 532500000000000000000000000000000000000000;
Row 10250000000 505310000000000000000000000000000000000000;
Row 11400000000 468230000000000000000000000000000000000000;
Row 12000000000 450800000000000000000000000000000000000000;
Row 13000000000 424790000000000000000000000000000000000000;
Row 13360000000 416030000000000000000000000000000000000000;
Row 14000000000 403230000000000000000000000000000000000000;
Row 14500000000 393630000000000000000000000000000000000000;
Row 15500000000 372350000000000000000000000000000000000000;
Row 16000000000 362350000000000000000000000000000000000000;
Row 16500000000 353320000000000000000000000000000000000000;
Row 17000000000 345910000000000000000000000000000000000000;
Row 18000000000 334550000000000000000000000000000000000000;
Row 21000000000 304840000000000000000000000000000000000000;
Row 23000000000 284840000000000000000000000000000000000000;
Row 25000000000 263660000000000000000000000000000000000000;
Row 26500000000 248760000000000000000000000000000000000000;
Row 28000000000 234980000000000000000000000000000000000000;
Row 29170000000 225100000000000000000000000000000000000000;
Row 32000000000 203670000000000000000000000000000000000000;
Row 36000000000 175370000000000000000000000000000000000000;
Row 38000000000 161820000000000000000000000000000000000000;
Row 40000000000 149620000000000000000000000000000000000000;
Bad;
Comment
].

(** /repo/tokamak_neutron_source/data/cross_sections/D_D_T_p.txt:1-140 *)
Definition lines_DDp : list line := [
Comment;
Comment;
Comment;
Comment;
Comment;
Comment;
Comment;
Comment;
Comment;
Comment;
Comment;
Row 20000 0;
Row 620000 592000000000000000000;
Row 1220000 3246200000000000000000000000;
Row 1820000 3185200000000000000000000000000;
Row 2420000 189710000000000000000000000000000;
Row 3020000 3034200000000000000000000000000000;
Row 3620000 23181900000000000000000000000000000;
Row 4220000 111478000000000000000000000000000000;
Row 4820000 392274000000000000000000000000000000;
Row 5420000 1105290000000000000000000000000000000;
Row 6020000 2641600000000000000000000000000000000;
Row 6620000 5566470000000000000000000000000000000;
Row 7220000 10626700000000000000000000000000000000;
Row 7820000 18743300000000000000000000000000000000;
Row 8420000 30993400000000000000000000000000000000;
Row 9020000 48584100000000000000000000000000000000;
Row 9620000 72822600000000000000000000000000000000;
Row 10220000 105086000000000000000000000000000000000;
Row 10820000 146789000000000000000000000000000000000;
Row 11420000 199360000000000000000000000000000000000;
Row 12020000 264211000000000000000000000000000000000;
Row 12620000 342720000000000000000000000000000000000;
Row 13220000 436213000000000000000000000000000000000;
Row 13820000 545948000000000000000000000000000000000;
Row 14420000 673108000000000000000000000000000000000;
Row 15020000 818790000000000000000000000000000000000;
Row 15620000 984001000000000000000000000000000000000;
Row 16220000 1169650000000000000000000000000000000000;
Row 16820000 1376570000000000000000000000000000000000;
Row 17420000 1605460000000000000000000000000000000000;
Row 18020000 1856980000000000000000000000000000000000;
Row 18620000 2131640000000000000000000000000000000000;
Row 19220000 2429910000000000000000000000000000000000;
Row 19820000 2752160000000000000000000000000000000000;
Row 20420000 3098670000000000000000000000000000000000;
Row 21020000 3469650000000000000000000000000000000000;
Row 21620000 3865250000000000000000000000000000000000;
Row 22220000 4285550000000000000000000000000000000000;
Row 22820000 4730570000000000000000000000000000000000;
Row 23420000 5200270000000000000000000000000000000000;
Row 24020000 5694570000000000000000000000000000000000;
Row 24620000 6213320000000000000000000000000000000000;
Row 25220000 6756350000000000000000000000000000000000;
Row 25820000 7323440000000000000000000000000000000000;
Row 26420000 7914340000000000000000000000000000000000;
Row 27020000 8528760000000000000000000000000000000000;
Row 27620000 9166390000000000000000000000000000000000;
Row 28220000 9826900000000000000000000000000000000000;
Row 28820000 10509900000000000000000000000000000000000;
Row 30020000 11941900000000000000000000000000000000000;
Row 31220000 13459300000000000000000000000000000000000;
Row 32420000 15058500000000000000000000000000000000000;
Row 33620000 16735900000000000000000000000000000000000;
Row 34220000 17602900000000000000000000000000000000000;
Row 35420000 19390900000000000000000000000000000000000;
Row 36620000 21248100000000000000000000000000000000000;
Row 37820000 23170600000000000000000000000000000000000;
Row 39020000 25154900000000000000000000000000000000000;
Row 40220000 27197400000000000000000000000000000000000;
Row 42620000 31442900000000000000000000000000000000000;
Row 44420000 34754200000000000000000000000000000000000;
Row 46220000 38162600000000000000000000000000000000000;
Row 48020000 41657800000000000000000000000000000000000;
Row 50420000 46436700000000000000000000000000000000000;
Row 52820000 51332000000000000000000000000000000000000;
Row 55820000 57585600000000000000000000000000000000000;
Row 59420000 65243600000000000000000000000000000000000;
Row 64220000 75633900000000000000000000000000000000000;
Row 84620000 120249000000000000000000000000000000000000;
Row 91220000 134388000000000000000000000000000000000000;
Row 97820000 148245000000000000000000000000000000000000;
Row 104420000 161782000000000000000000000000000000000000;
Row 111020000 174974000000000000000000000000000000000000;
Row 117620000 187807000000000000000000000000000000000000;
Row 124820000 201392000000000000000000000000000000000000;
Row 132020000 214546000000000000000000000000000000000000;
Row 139820000 228320000000000000000000000000000000000000;
Row 155420000 254438000000000000000000000000000000000000;
Row 164420000 268688000000000000000000000000000000000000;
Row 174020000 283270000000000000000000000000000000000000;
Row 183620000 297251000000000000000000000000000000000000;
Row 204020000 325130000000000000000000000000000000000000;
Row 216020000 340468000000000000000000000000000000000000;
Row 228020000 355097000000000000000000000000000000000000;
Row 241220000 370438000000000000000000000000000000000000;
Row 255620000 386355000000000000000000000000000000000000;
Row 286220000 417675000000000000000000000000000000000000;
Row 321020000 449781000000000000000000000000000000000000;
Row 340820000 466629000000000000000000000000000000000000;
Row 361820000 483511000000000000000000000000000000000000;
Row 384620000 500795000000000000000000000000000000000000;
Row 408020000 517502000000000000000000000000000000000000;
Row 433820000 534823000000000000000000000000000000000000;
Row 461420000 552211000000000000000000000000000000000000;
Row 491420000 569917000000000000000000000000000000000000;
Row 556220000 604521000000000000000000000000000000000000;
Row 592820000 622174000000000000000000000000000000000000;
Row 632420000 639944000000000000000000000000000000000000;
Row 673820000 657173000000000000000000000000000000000000;
Row 717620000 674011000000000000000000000000000000000000;
Row 808220000 704673000000000000000000000000000000000000;
Row 861620000 720394000000000000000000000000000000000000;
Row 928820000 738427000000000000000000000000000000000000;
Row 1103420000 780678000000000000000000000000000000000000;
Row 1215620000 802804000000000000000000000000000000000000;
Row 1279820000 812652000000000000000000000000000000000000;
Row 1578020000 850236000000000000000000000000000000000000;
Row 1666820000 858875000000000000000000000000000000000000;
Row 1908020000 879028000000000000000000000000000000000000;
Row 2152820000 894172000000000000000000000000000000000000;
Row 2298620000 900291000000000000000000000000000000000000;
Row 2455220000 904913000000000000000000000000000000000000;
Row 2631020000 908106000000000000000000000000000000000000;
Row 2841020000 909800000000000000000000000000000000000000;
Row 3139220000 909743000000000000000000000000000000000000;
Row 3486620000 907614000000000000000000000000000000000000;
Row 3881420000 903131000000000000000000000000000000000000;
Row 4404620000 894839000000000000000000000000000000000000;
Row 6823220000 848363000000000000000000000000000000000000;
Row 7828220000 826057000000000000000000000000000000000000;
Row 12504600000 715927000000000000000000000000000000000000;
Row 13695000000 689833000000000000000000000000000000000000;
Row 14916600000 664514000000000000000000000000000000000000;
Row 16177200000 639809000000000000000000000000000000000000;
Row 17490000000 615453000000000000000000000000000000000000;
Row 18838800000 591708000000000000000000000000000000000000;
Row 20000000000 568623000000000000000000000000000000000000;
Bad;
Comment
].

(** /repo/tokamak_neutron_source/data/cross_sections/D_D_He3_n.txt:1-145 *)
Definition lines_DDn : list line := [
Comment;
Comment;
Comment;
Comment;
Comment;
Comment;
Comment;
Comment;
Comment;
Comment;
Comment;
Row 20000 0;
Row 620000 544360000000000000000;
Row 1220000 2990500000000000000000000000;
Row 1820000 2939300000000000000000000000000;
Row 2420000 175320000000000000000000000000000;
Row 3020000 2807500000000000000000000000000000;
Row 3620000 21473800000000000000000000000000000;
Row 4220000 103377000000000000000000000000000000;
Row 4820000 364173000000000000000000000000000000;
Row 5420000 1027280000000000000000000000000000000;
Row 6020000 2457990000000000000000000000000000000;
Row 6620000 5185610000000000000000000000000000000;
Row 7220000 9911250000000000000000000000000000000;
Row 7820000 17502200000000000000000000000000000000;
Row 8420000 28975600000000000000000000000000000000;
Row 9020000 45475100000000000000000000000000000000;
Row 9620000 68243600000000000000000000000000000000;
Row 10220000 98594400000000000000000000000000000000;
Row 10820000 137884000000000000000000000000000000000;
Row 11420000 187484000000000000000000000000000000000;
Row 12020000 248760000000000000000000000000000000000;
Row 12620000 323049000000000000000000000000000000000;
Row 13220000 411647000000000000000000000000000000000;
Row 13820000 515790000000000000000000000000000000000;
Row 14420000 636647000000000000000000000000000000000;
Row 15020000 775312000000000000000000000000000000000;
Row 15620000 932795000000000000000000000000000000000;
Row 16220000 1110030000000000000000000000000000000000;
Row 16820000 1307840000000000000000000000000000000000;
Row 17420000 1527000000000000000000000000000000000000;
Row 18020000 1768170000000000000000000000000000000000;
Row 18620000 2031940000000000000000000000000000000000;
Row 19220000 2318800000000000000000000000000000000000;
Row 19820000 2629190000000000000000000000000000000000;
Row 20420000 2963440000000000000000000000000000000000;
Row 21020000 3321850000000000000000000000000000000000;
Row 21620000 3704620000000000000000000000000000000000;
Row 22220000 4111910000000000000000000000000000000000;
Row 22820000 4543810000000000000000000000000000000000;
Row 23420000 5000360000000000000000000000000000000000;
Row 24020000 5481560000000000000000000000000000000000;
Row 24620000 5987340000000000000000000000000000000000;
Row 25220000 6517610000000000000000000000000000000000;
Row 25820000 7072230000000000000000000000000000000000;
Row 26420000 7651030000000000000000000000000000000000;
Row 27020000 8253820000000000000000000000000000000000;
Row 27620000 8880350000000000000000000000000000000000;
Row 28220000 9530380000000000000000000000000000000000;
Row 28820000 10203600000000000000000000000000000000000;
Row 29420000 10899800000000000000000000000000000000000;
Row 30620000 12359500000000000000000000000000000000000;
Row 31820000 13906900000000000000000000000000000000000;
Row 33020000 15539000000000000000000000000000000000000;
Row 34220000 17252800000000000000000000000000000000000;
Row 34820000 18139400000000000000000000000000000000000;
Row 36020000 19969800000000000000000000000000000000000;
Row 37220000 21873900000000000000000000000000000000000;
Row 38420000 23848700000000000000000000000000000000000;
Row 39620000 25890800000000000000000000000000000000000;
Row 40820000 27997100000000000000000000000000000000000;
Row 43220000 32390200000000000000000000000000000000000;
Row 44420000 34671000000000000000000000000000000000000;
Row 46220000 38189200000000000000000000000000000000000;
Row 48020000 41815700000000000000000000000000000000000;
Row 51620000 49358200000000000000000000000000000000000;
Row 54020000 54574800000000000000000000000000000000000;
Row 56420000 59921400000000000000000000000000000000000;
Row 59420000 66762900000000000000000000000000000000000;
Row 66020000 82304200000000000000000000000000000000000;
Row 70220000 92453900000000000000000000000000000000000;
Row 76220000 107180000000000000000000000000000000000000;
Row 103820000 175562000000000000000000000000000000000000;
Row 119420000 213075000000000000000000000000000000000000;
Row 127820000 232668000000000000000000000000000000000000;
Row 144620000 270404000000000000000000000000000000000000;
Row 153620000 289786000000000000000000000000000000000000;
Row 162620000 308578000000000000000000000000000000000000;
Row 172220000 327974000000000000000000000000000000000000;
Row 192020000 365898000000000000000000000000000000000000;
Row 202820000 385436000000000000000000000000000000000000;
Row 214220000 405213000000000000000000000000000000000000;
Row 226220000 425131000000000000000000000000000000000000;
Row 238820000 445098000000000000000000000000000000000000;
Row 264620000 483167000000000000000000000000000000000000;
Row 293420000 521624000000000000000000000000000000000000;
Row 309020000 540861000000000000000000000000000000000000;
Row 325820000 560445000000000000000000000000000000000000;
Row 343820000 580227000000000000000000000000000000000000;
Row 362420000 599475000000000000000000000000000000000000;
Row 382820000 619323000000000000000000000000000000000000;
Row 427220000 658565000000000000000000000000000000000000;
Row 451820000 678270000000000000000000000000000000000000;
Row 478220000 697995000000000000000000000000000000000000;
Row 507020000 717997000000000000000000000000000000000000;
Row 537620000 737690000000000000000000000000000000000000;
Row 570020000 756974000000000000000000000000000000000000;
Row 604820000 776086000000000000000000000000000000000000;
Row 642020000 794891000000000000000000000000000000000000;
Row 682820000 813816000000000000000000000000000000000000;
Row 726020000 832159000000000000000000000000000000000000;
Row 773420000 850520000000000000000000000000000000000000;
Row 823820000 868242000000000000000000000000000000000000;
Row 878420000 885584000000000000000000000000000000000000;
Row 937220000 902348000000000000000000000000000000000000;
Row 1000820000 918509000000000000000000000000000000000000;
Row 1069220000 933887000000000000000000000000000000000000;
Row 1143020000 948497000000000000000000000000000000000000;
Row 1225220000 962751000000000000000000000000000000000000;
Row 1318820000 976877000000000000000000000000000000000000;
Row 1420220000 990115000000000000000000000000000000000000;
Row 1640420000 1012630000000000000000000000000000000000000;
Row 1762220000 1021890000000000000000000000000000000000000;
Row 1887620000 1029280000000000000000000000000000000000000;
Row 2248820000 1042320000000000000000000000000000000000000;
Row 2414420000 1045340000000000000000000000000000000000000;
Row 2562020000 1046000000000000000000000000000000000000000;
Row 2731220000 1044420000000000000000000000000000000000000;
Row 2962220000 1039520000000000000000000000000000000000000;
Row 3347420000 1028440000000000000000000000000000000000000;
Row 3800420000 1013000000000000000000000000000000000000000;
Row 5073620000 963246000000000000000000000000000000000000;
Row 5541620000 946307000000000000000000000000000000000000;
Row 6072020000 929275000000000000000000000000000000000000;
Row 6711620000 910993000000000000000000000000000000000000;
Row 10690200000 806382000000000000000000000000000000000000;
Row 11845800000 777126000000000000000000000000000000000000;
Row 13227000000 744040000000000000000000000000000000000000;
Row 14832600000 707254000000000000000000000000000000000000;
Row 16308600000 674803000000000000000000000000000000000000;
Row 17700600000 645557000000000000000000000000000000000000;
Row 19093800000 617629000000000000000000000000000000000000;
Row 20000000000 591556000000000000000000000000000000000000;
Bad;
Comment
].

(** /repo/tokamak_neutron_source/data/cross_sections/D_He3_He_p.txt:1-351 *)
Definition lines_DHe3 : list line := [
Comment;
Comment;
Comment;
Comment;
Comment;
Comment;
Comment;
Comment;
Comment;
Comment;
Comment;
Row 0 0;
Row 10000000 6855200000000000000000000000000000;
Row 10059700 7409200000000000000000000000000000;
Row 10116100 7967300000000000000000000000000000;
Row 10194200 8802100000000000000000000000000000;
Row 10266400 9641300000000000000000000000000000;
Row 10331600 10459800000000000000000000000000000;
Row 10391900 11269100000000000000000000000000000;
Row 10466000 12340400000000000000000000000000000;
Row 10531300 13357100000000000000000000000000000;
Row 10614000 14750200000000000000000000000000000;
Row 10683800 16022200000000000000000000000000000;
Row 10762000 17562100000000000000000000000000000;
Row 10843200 19298000000000000000000000000000000;
Row 10898900 20574500000000000000000000000000000;
Row 10966200 22212900000000000000000000000000000;
Row 11030000 23870100000000000000000000000000000;
Row 11116500 26293700000000000000000000000000000;
Row 11194800 28669300000000000000000000000000000;
Row 11267200 31028400000000000000000000000000000;
Row 11353500 34063400000000000000000000000000000;
Row 11432300 37060600000000000000000000000000000;
Row 11501800 39888400000000000000000000000000000;
Row 11591600 43820400000000000000000000000000000;
Row 11641900 46167500000000000000000000000000000;
Row 11730400 50566600000000000000000000000000000;
Row 11822400 55521000000000000000000000000000000;
Row 11885500 59161100000000000000000000000000000;
Row 11961700 63830200000000000000000000000000000;
Row 12060200 70337000000000000000000000000000000;
Row 12143500 76289500000000000000000000000000000;
Row 12220500 82171500000000000000000000000000000;
Row 12315400 89953000000000000000000000000000000;
Row 12398900 97333600000000000000000000000000000;
Row 12504800 107439000000000000000000000000000000;
Row 12594200 116658000000000000000000000000000000;
Row 12694400 127810000000000000000000000000000000;
Row 12798700 140371000000000000000000000000000000;
Row 12870200 149601000000000000000000000000000000;
Row 12956600 161440000000000000000000000000000000;
Row 13060400 176725000000000000000000000000000000;
Row 13170700 194339000000000000000000000000000000;
Row 13271600 211754000000000000000000000000000000;
Row 13360500 228200000000000000000000000000000000;
Row 13475600 251092000000000000000000000000000000;
Row 13540000 264769000000000000000000000000000000;
Row 13653600 290423000000000000000000000000000000;
Row 13771700 319345000000000000000000000000000000;
Row 13852800 340611000000000000000000000000000000;
Row 13950800 367909000000000000000000000000000000;
Row 14058500 400101000000000000000000000000000000;
Row 14172700 436801000000000000000000000000000000;
Row 14280500 474091000000000000000000000000000000;
Row 14382300 511780000000000000000000000000000000;
Row 14478500 549681000000000000000000000000000000;
Row 14613300 606859000000000000000000000000000000;
Row 14735400 662973000000000000000000000000000000;
Row 14848300 718760000000000000000000000000000000;
Row 14983300 790606000000000000000000000000000000;
Row 15106700 861633000000000000000000000000000000;
Row 15215600 928703000000000000000000000000000000;
Row 15356500 1022040000000000000000000000000000000;
Row 15435500 1077790000000000000000000000000000000;
Row 15574700 1182350000000000000000000000000000000;
Row 15719600 1300200000000000000000000000000000000;
Row 15819200 1386830000000000000000000000000000000;
Row 15939500 1498000000000000000000000000000000000;
Row 16059000 1615840000000000000000000000000000000;
Row 16173900 1736540000000000000000000000000000000;
Row 16335200 1918690000000000000000000000000000000;
Row 16481400 2097520000000000000000000000000000000;
Row 16616600 2275360000000000000000000000000000000;
Row 16778300 2504460000000000000000000000000000000;
Row 16926400 2731000000000000000000000000000000000;
Row 17057000 2944960000000000000000000000000000000;
Row 17226100 3242770000000000000000000000000000000;
Row 17321000 3420680000000000000000000000000000000;
Row 17488300 3754380000000000000000000000000000000;
Row 17662500 4130510000000000000000000000000000000;
Row 17782300 4407020000000000000000000000000000000;
Row 17927100 4761860000000000000000000000000000000;
Row 18059400 5106530000000000000000000000000000000;
Row 18231100 5585450000000000000000000000000000000;
Row 18386800 6051270000000000000000000000000000000;
Row 18530700 6510640000000000000000000000000000000;
Row 18708300 7116970000000000000000000000000000000;
Row 18865100 7690700000000000000000000000000000000;
Row 19068200 8490800000000000000000000000000000000;
Row 19182300 8969580000000000000000000000000000000;
Row 19383500 9869010000000000000000000000000000000;
Row 19593300 10884800000000000000000000000000000000;
Row 19737600 11632800000000000000000000000000000000;
Row 19912100 12594100000000000000000000000000000000;
Row 20119500 13821100000000000000000000000000000000;
Row 20338400 15222100000000000000000000000000000000;
Row 20539000 16607500000000000000000000000000000000;
Row 20716200 17915700000000000000000000000000000000;
Row 20945800 19736300000000000000000000000000000000;
Row 21074800 20823600000000000000000000000000000000;
Row 21302400 22862600000000000000000000000000000000;
Row 21539600 25159900000000000000000000000000000000;
Row 21702900 26848100000000000000000000000000000000;
Row 21900500 29013800000000000000000000000000000000;
Row 22120000 31585400000000000000000000000000000000;
Row 22346700 34435800000000000000000000000000000000;
Row 22546900 37125300000000000000000000000000000000;
Row 22806600 40864300000000000000000000000000000000;
Row 23080900 45140800000000000000000000000000000000;
Row 23307300 48939100000000000000000000000000000000;
Row 23552400 53337900000000000000000000000000000000;
Row 23775100 57609100000000000000000000000000000000;
Row 24000000 62197100000000000000000000000000000000;
Row 24241300 67450000000000000000000000000000000000;
Row 24548300 74643300000000000000000000000000000000;
Row 24808300 81205600000000000000000000000000000000;
Row 25101000 89142600000000000000000000000000000000;
Row 25406500 98077800000000000000000000000000000000;
Row 25743900 108769000000000000000000000000000000000;
Row 26000000 117487000000000000000000000000000000000;
Row 26348500 130254000000000000000000000000000000000;
Row 26643800 141916000000000000000000000000000000000;
Row 26976600 156037000000000000000000000000000000000;
Row 27324100 171953000000000000000000000000000000000;
Row 27563600 183651000000000000000000000000000000000;
Row 27853800 198660000000000000000000000000000000000;
Row 28121000 213332000000000000000000000000000000000;
Row 28456400 232958000000000000000000000000000000000;
Row 28834700 256768000000000000000000000000000000000;
Row 29230100 283658000000000000000000000000000000000;
Row 29502800 303455000000000000000000000000000000000;
Row 29833300 328889000000000000000000000000000000000;
Row 30144900 354381000000000000000000000000000000000;
Row 30565300 391240000000000000000000000000000000000;
Row 30947800 427312000000000000000000000000000000000;
Row 31303000 463073000000000000000000000000000000000;
Row 31742800 510534000000000000000000000000000000000;
Row 32132800 555682000000000000000000000000000000000;
Row 32630100 617664000000000000000000000000000000000;
Row 33052200 674344000000000000000000000000000000000;
Row 33528800 743042000000000000000000000000000000000;
Row 34027400 820542000000000000000000000000000000000;
Row 34371600 877546000000000000000000000000000000000;
Row 34789300 950715000000000000000000000000000000000;
Row 35293300 1045290000000000000000000000000000000000;
Row 35849900 1158020000000000000000000000000000000000;
Row 36344200 1265630000000000000000000000000000000000;
Row 36782200 1367180000000000000000000000000000000000;
Row 37340700 1505420000000000000000000000000000000000;
Row 37814700 1630750000000000000000000000000000000000;
Row 38349500 1781430000000000000000000000000000000000;
Row 38931000 1956800000000000000000000000000000000000;
Row 39461900 2127860000000000000000000000000000000000;
Row 40000000 2312350000000000000000000000000000000000;
Row 40593300 2530050000000000000000000000000000000000;
Row 41119600 2735560000000000000000000000000000000000;
Row 41791300 3015420000000000000000000000000000000000;
Row 42361900 3269240000000000000000000000000000000000;
Row 43006600 3574430000000000000000000000000000000000;
Row 43708200 3929690000000000000000000000000000000000;
Row 44349400 4276240000000000000000000000000000000000;
Row 45000000 4650020000000000000000000000000000000000;
Row 45860100 5181920000000000000000000000000000000000;
Row 46592500 5668360000000000000000000000000000000000;
Row 47422000 6257880000000000000000000000000000000000;
Row 48292800 6922670000000000000000000000000000000000;
Row 49261100 7719180000000000000000000000000000000000;
Row 50000000 8369170000000000000000000000000000000000;
Row 50863700 9180560000000000000000000000000000000000;
Row 51598000 9912690000000000000000000000000000000000;
Row 52428200 10788700000000000000000000000000000000000;
Row 53332600 11802800000000000000000000000000000000000;
Row 54438500 13130600000000000000000000000000000000000;
Row 55299900 14235900000000000000000000000000000000000;
Row 56133100 15368100000000000000000000000000000000000;
Row 57075800 16721800000000000000000000000000000000000;
Row 58103500 18287800000000000000000000000000000000000;
Row 59361000 20336300000000000000000000000000000000000;
Row 60000000 21434000000000000000000000000000000000000;
Row 61212700 23638200000000000000000000000000000000000;
Row 62138300 25419300000000000000000000000000000000000;
Row 63553100 28310900000000000000000000000000000000000;
Row 65000000 31485500000000000000000000000000000000000;
Row 66215500 34343800000000000000000000000000000000000;
Row 67142000 36633100000000000000000000000000000000000;
Row 68556100 40315400000000000000000000000000000000000;
Row 70000000 44314200000000000000000000000000000000000;
Row 71680000 49310400000000000000000000000000000000000;
Row 73558700 55308200000000000000000000000000000000000;
Row 75000000 60209000000000000000000000000000000000000;
Row 76219900 64594300000000000000000000000000000000000;
Row 78087100 71685000000000000000000000000000000000000;
Row 80000000 79431300000000000000000000000000000000000;
Row 82150300 88801100000000000000000000000000000000000;
Row 84039300 97565800000000000000000000000000000000000;
Row 86223300 108293000000000000000000000000000000000000;
Row 88091400 118092000000000000000000000000000000000000;
Row 90610300 132248000000000000000000000000000000000000;
Row 93093300 147090000000000000000000000000000000000000;
Row 96226100 167344000000000000000000000000000000000000;
Row 98725800 184659000000000000000000000000000000000000;
Row 102411000 211927000000000000000000000000000000000000;
Row 104258000 226472000000000000000000000000000000000000;
Row 107091000 250182000000000000000000000000000000000000;
Row 110000000 276374000000000000000000000000000000000000;
Row 113340000 307537000000000000000000000000000000000000;
Row 115675000 330777000000000000000000000000000000000000;
Row 118541000 360994000000000000000000000000000000000000;
Row 122425000 404113000000000000000000000000000000000000;
Row 126156000 448265000000000000000000000000000000000000;
Row 130000000 497241000000000000000000000000000000000000;
Row 132431000 529142000000000000000000000000000000000000;
Row 136163000 580872000000000000000000000000000000000000;
Row 141213000 655916000000000000000000000000000000000000;
Row 144290000 703882000000000000000000000000000000000000;
Row 148072000 766092000000000000000000000000000000000000;
Row 152440000 841612000000000000000000000000000000000000;
Row 157439000 933241000000000000000000000000000000000000;
Row 162443000 1030640000000000000000000000000000000000000;
Row 167443000 1133580000000000000000000000000000000000000;
Row 172447000 1242430000000000000000000000000000000000000;
Row 177446000 1356950000000000000000000000000000000000000;
Row 184932000 1539330000000000000000000000000000000000000;
Row 192452000 1736090000000000000000000000000000000000000;
Row 200000000 1947320000000000000000000000000000000000000;
Row 207454000 2168140000000000000000000000000000000000000;
Row 214942000 2403100000000000000000000000000000000000000;
Row 224944000 2736620000000000000000000000000000000000000;
Row 234947000 3091050000000000000000000000000000000000000;
Row 244949000 3464420000000000000000000000000000000000000;
Row 254951000 3854040000000000000000000000000000000000000;
Row 270000000 4465310000000000000000000000000000000000000;
Row 300000000 5706910000000000000000000000000000000000000;
Row 310000000 6108460000000000000000000000000000000000000;
Row 320000000 6493970000000000000000000000000000000000000;
Row 330000000 6857550000000000000000000000000000000000000;
Row 340000000 7193750000000000000000000000000000000000000;
Row 350000000 7497760000000000000000000000000000000000000;
Row 360000000 7765670000000000000000000000000000000000000;
Row 370000000 7994580000000000000000000000000000000000000;
Row 380000000 8182730000000000000000000000000000000000000;
Row 390000000 8329490000000000000000000000000000000000000;
Row 404000000 8466460000000000000000000000000000000000000;
Row 417000000 8525630000000000000000000000000000000000000;
Row 423000000 8532370000000000000000000000000000000000000;
Row 434971000 8506600000000000000000000000000000000000000;
Row 444972000 8455900000000000000000000000000000000000000;
Row 460000000 8335020000000000000000000000000000000000000;
Row 474974000 8162300000000000000000000000000000000000000;
Row 494975000 7882820000000000000000000000000000000000000;
Row 500000000 7807450000000000000000000000000000000000000;
Row 524404000 7374700000000000000000000000000000000000000;
Row 550000000 6965940000000000000000000000000000000000000;
Row 574456000 6531070000000000000000000000000000000000000;
Row 624500000 5734760000000000000000000000000000000000000;
Row 650000000 5370830000000000000000000000000000000000000;
Row 674537000 5040150000000000000000000000000000000000000;
Row 700000000 4729840000000000000000000000000000000000000;
Row 724569000 4453710000000000000000000000000000000000000;
Row 750000000 4193690000000000000000000000000000000000000;
Row 774597000 3964150000000000000000000000000000000000000;
Row 800000000 3747180000000000000000000000000000000000000;
Row 824621000 3555940000000000000000000000000000000000000;
Row 850000000 3374450000000000000000000000000000000000000;
Row 887231000 3136990000000000000000000000000000000000000;
Row 912248000 2993250000000000000000000000000000000000000;
Row 950000000 2797210000000000000000000000000000000000000;
Row 987259000 2626640000000000000000000000000000000000000;
Row 1024700000 2473750000000000000000000000000000000000000;
Row 1062280000 2336320000000000000000000000000000000000000;
Row 1100000000 2212470000000000000000000000000000000000000;
Row 1150000000 2067620000000000000000000000000000000000000;
Row 1200000000 1940960000000000000000000000000000000000000;
Row 1250000000 1829560000000000000000000000000000000000000;
Row 1300000000 1731080000000000000000000000000000000000000;
Row 1350000000 1643600000000000000000000000000000000000000;
Row 1400000000 1565540000000000000000000000000000000000000;
Row 1450000000 1495590000000000000000000000000000000000000;
Row 1500000000 1432680000000000000000000000000000000000000;
Row 1550000000 1375900000000000000000000000000000000000000;
Row 1624810000 1300910000000000000000000000000000000000000;
Row 1700000000 1235210000000000000000000000000000000000000;
Row 1774820000 1178400000000000000000000000000000000000000;
Row 1850000000 1128060000000000000000000000000000000000000;
Row 1924840000 1084060000000000000000000000000000000000000;
Row 2024850000 1032790000000000000000000000000000000000000;
Row 2124850000 988822000000000000000000000000000000000000;
Row 2224860000 950870000000000000000000000000000000000000;
Row 2350000000 910282000000000000000000000000000000000000;
Row 2474870000 876210000000000000000000000000000000000000;
Row 2600000000 847154000000000000000000000000000000000000;
Row 2749550000 818233000000000000000000000000000000000000;
Row 2900000000 793887000000000000000000000000000000000000;
Row 3000000000 780161000000000000000000000000000000000000;
Row 3200000000 757448000000000000000000000000000000000000;
Row 3450000000 736440000000000000000000000000000000000000;
Row 3700000000 722098000000000000000000000000000000000000;
Row 4073080000 709614000000000000000000000000000000000000;
Row 4823380000 689951000000000000000000000000000000000000;
Row 5700000000 675130000000000000000000000000000000000000;
Row 6200000000 662375000000000000000000000000000000000000;
Row 7200000000 629087000000000000000000000000000000000000;
Row 9700000000 540566000000000000000000000000000000000000;
Row 10450000000 514235000000000000000000000000000000000000;
Row 10749900000 506139000000000000000000000000000000000000;
Row 10949900000 503281000000000000000000000000000000000000;
Row 11000000000 502959000000000000000000000000000000000000;
Row 11149900000 504279000000000000000000000000000000000000;
Row 11249900000 506812000000000000000000000000000000000000;
Row 11349900000 510915000000000000000000000000000000000000;
Row 11500000000 519759000000000000000000000000000000000000;
Row 11800000000 542299000000000000000000000000000000000000;
Row 11900000000 548404000000000000000000000000000000000000;
Row 12000000000 552738000000000000000000000000000000000000;
Row 12100000000 555024000000000000000000000000000000000000;
Row 12200000000 555200000000000000000000000000000000000000;
Row 12300000000 553343000000000000000000000000000000000000;
Row 12449900000 547018000000000000000000000000000000000000;
Row 12649900000 534619000000000000000000000000000000000000;
Row 13000000000 510728000000000000000000000000000000000000;
Row 13250000000 496733000000000000000000000000000000000000;
Row 13500000000 486087000000000000000000000000000000000000;
Row 13750000000 478526000000000000000000000000000000000000;
Row 14124400000 471743000000000000000000000000000000000000;
Row 14500000000 465805000000000000000000000000000000000000;
Row 14750000000 459198000000000000000000000000000000000000;
Row 15250000000 442854000000000000000000000000000000000000;
Row 15500000000 437998000000000000000000000000000000000000;
Row 15750000000 436686000000000000000000000000000000000000;
Row 16000000000 438583000000000000000000000000000000000000;
Row 16250000000 443097000000000000000000000000000000000000;
Row 16500000000 449655000000000000000000000000000000000000;
Row 16874500000 462329000000000000000000000000000000000000;
Row 17624600000 492242000000000000000000000000000000000000;
Row 18250000000 517206000000000000000000000000000000000000;
Row 18750000000 534707000000000000000000000000000000000000;
Row 19250000000 549175000000000000000000000000000000000000;
Row 19750000000 560444000000000000000000000000000000000000;
Row 20000000000 564932000000000000000000000000000000000000;
Bad;
Comment
].
