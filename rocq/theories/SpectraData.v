(** The shipped T-T neutron spectra, generated by tools/mkspec.py: every value of the file, exactly.
    A value [V m e] is m * 10^-e. Energies in MeV, spectra in 1/MeV, one per temperature. *)
From Coq Require Import ZArith List.
Import ListNotations.

Inductive dec := V (m : Z) (e : N).

(** /repo/tokamak_neutron_source/data/spectra/T_T_spectra.txt:17-516 *)
Definition tt_part0 : list (dec * list dec) := [
(V 1 3, [V 293345388406 16; V 597467694559 16; V 811515643665 16; V 937441670514 16; V 999849545086 16; V 102052037688 15; V 101497955376 15; V 993557540499 16; V 962943486596 16; V 927416452647 16; V 889696113965 16; V 851503758326 16; V 813926224853 16; V 77765057603 15; V 743114670595 16; V 710602937142 16; V 680306366429 16; V 652359200643 16; V 626860598028 16; V 603886796306 16; V 583497451886 16; V 565738575862 16; V 550643628525 16; V 538233748495 16; V 528517698262 16; V 521491847697 16; V 517140350308 16; V 515435564444 16; V 516338712275 16; V 519800738521 16; V 52576331797 15; V 53415995884 15; V 544917153183 16; V 55795553266 15; V 573190996227 16; V 590535784366 16; V 609899481885 16; V 631189937609 16; V 654314094538 16; V 679178728169 16]);
(V 220400801603 13, [V 106051217902 13; V 869381520509 14; V 754365790229 14; V 675520544745 14; V 617375050089 14; V 572595725103 14; V 537201611279 14; V 508779186579 14; V 485724683653 14; V 466895404811 14; V 451437212368 14; V 438691985387 14; V 428143281782 14; V 419381441006 14; V 412079391496 14; V 405974905921 14; V 400857096432 14; V 39655590868 13; V 392933849811 14; V 389879435766 14; V 387301986208 14; V 385127485364 14; V 383295289166 14; V 381755504926 14; V 380466905269 14; V 379395266118 14; V 378512041013 14; V 377793302049 14; V 377218892175 14; V 376771745089 14; V 376437338159 14; V 376203251067 14; V 376058808595 14; V 375994790545 14; V 376003195321 14; V 376077046532 14; V 376210234181 14; V 376397383745 14; V 376633747799 14; V 37691511597 13]);
(V 430801603206 13, [V 170854779504 13; V 141978162085 13; V 124127303905 13; V 111900159721 13; V 103115765168 13; V 966623880565 14; V 918690690248 14; V 882873206984 14; V 856011467284 14; V 835822212471 14; V 820635186435 14; V 809219888851 14; V 800664937498 14; V 794291843076 14; V 789592736326 14; V 786185215717 14; V 783779543421 14; V 782154764563 14; V 781141273811 14; V 780608040465 14; V 780453203008 14; V 780597106245 14; V 780977115274 14; V 78154372773 13; V 782257639672 14; V 783087516091 14; V 784008285341 14; V 784999825707 14; V 786045947436 14; V 7871335989 12; V 788252243888 14; V 789393370428 14; V 790550101325 14; V 791716883825 14; V 792889241216 14; V 794063573131 14; V 795236994399 14; V 796407204502 14; V 797572381492 14; V 798731095505 14]);
(V 64120240481 12, [V 219197181163 13; V 185955630802 13; V 165002660271 13; V 151272499534 13; V 142218614713 13; V 136261561092 13; V 132357209883 13; V 129810427887 13; V 128160509034 13; V 127103254803 13; V 126437983363 13; V 12603210273 12; V 125797748079 13; V 125676490079 13; V 125629348386 13; V 125630259178 13; V 125661783899 13; V 125712273711 13; V 125773983311 13; V 125841807593 13; V 125912429942 13; V 125983744628 13; V 126054463192 13; V 126123845223 13; V 126191513828 13; V 126257329103 13; V 126321301528 13; V 126383532948 13; V 126444176652 13; V 12650341071 12; V 126561420475 13; V 126618387443 13; V 126674482462 13; V 126729861927 13; V 126784665966 13; V 126839017957 13; V 126893024895 13; V 126946778278 13; V 127000355292 13; V 12705382014 12]);
(V 851603206413 13, [V 248213787218 13; V 21677522948 12; V 197957541811 13; V 187049443729 13; V 180868487768 13; V 177434147587 13; V 175566965336 13; V 174581235157 13; V 174083816408 13; V 173851507525 13; V 173758792924 13; V 173735959913 13; V 173745006756 13; V 17376583385 12; V 173788345136 13; V 173807941109 13; V 173822958607 13; V 173833228619 13; V 1738392758 11; V 173841885236 13; V 173841877986 13; V 173840003811 13; V 173836898256 13; V 173833073756 13; V 173828927559 13; V 173824756852 13; V 173820775915 13; V 173817132666 13; V 173813923367 13; V 173811205091 13; V 173809005927 13; V 173807333129 13; V 173806179488 13; V 173805528212 13; V 173805356593 13; V 173805638715 13; V 173806347394 13; V 173807455538 13; V 173808937056 13; V 173810767431 13]);
(V 106200400802 12, [V 263640065844 13; V 240941940436 13; V 228999668461 13; V 223242869153 13; V 220633913047 13; V 219537105731 13; V 21912792645 12; V 219008291505 13; V 218994423453 13; V 219006630771 13; V 219013972317 13; V 219007230596 13; V 218986090601 13; V 218953290863 13; V 218912118582 13; V 218865460802 13; V 218815546019 13; V 21876396678 12; V 218711796315 13; V 218659719016 13; V 218608144361 13; V 218557296189 13; V 218507278321 13; V 218458120692 13; V 218409810565 13; V 218362312903 13; V 218315583142 13; V 218269574797 13; V 218224243657 13; V 218179549815 13; V 218135458364 13; V 218091939337 13; V 218048967234 13; V 218006520388 13; V 217964580284 13; V 217923130919 13; V 217882158245 13; V 217841649696 13; V 21780159381 12; V 217761979931 13]);
(V 127240480962 12, [V 273660534485 13; V 264929937174 13; V 261246187142 13; V 260105754272 13; V 259943272665 13; V 260062734958 13; V 260203281666 13; V 260289930724 13; V 260316498413 13; V 260296699642 13; V 260246169113 13; V 260177201908 13; V 26009815858 12; V 26001425566 12; V 259928538278 13; V 259842670991 13; V 259757491928 13; V 259673370669 13; V 259590426605 13; V 25950865585 12; V 259428001423 13; V 259348389742 13; V 259269747992 13; V 259192011117 13; V 259115123583 13; V 259039038736 13; V 258963717303 13; V 258889125758 13; V 258815234889 13; V 258742018672 13; V 258669453436 13; V 258597517291 13; V 258526189738 13; V 258455451426 13; V 258385284 10; V 258315670013 13; V 258246592865 13; V 25817803677 12; V 258109986725 13; V 258042428482 13]);
(V 148280561122 12, [V 284997069729 13; V 291347677414 13; V 294347080281 13; V 296000154566 13; V 29689970372 12; V 297346441862 13; V 297528964896 13; V 297565133063 13; V 297524570242 13; V 297446098319 13; V 297350263861 13; V 297247409817 13; V 29714246543 12; V 297037620068 13; V 296933743994 13; V 296831110119 13; V 296729743751 13; V 296629582606 13; V 296530544297 13; V 296432551083 13; V 29633553633 12; V 296239444106 13; V 296144226869 13; V 296049843148 13; V 295956255798 13; V 295863430844 13; V 295771336785 13; V 295679944192 13; V 295589225487 13; V 29549915481 12; V 295409707919 13; V 295320862106 13; V 295232596108 13; V 295144890019 13; V 295057725194 13; V 294971084153 13; V 294884950486 13; V 294799308767 13; V 294714144471 13; V 294629443892 13]);
(V 169320641283 12, [V 301643268855 13; V 320289037677 13; V 3271402408 11; V 329802964432 13; V 330826179527 13; V 331173519024 13; V 331238769259 13; V 331188294441 13; V 331092439632 13; V 330980329633 13; V 330863550223 13; V 330746417628 13; V 33063036055 12; V 330515733698 13; V 33040253437 12; V 330290666255 13; V 330180025442 13; V 330070521868 13; V 329962080329 13; V 329854636872 13; V 329748135398 13; V 32964252542 12; V 329537760782 13; V 329433798974 13; V 329330600747 13; V 32922812984 12; V 329126352769 13; V 329025238603 13; V 328924758757 13; V 32882488678 12; V 328725598155 13; V 328626870115 13; V 328528681475 13; V 328431012479 13; V 328333844666 13; V 328237160753 13; V 32814094453 12; V 328045180764 13; V 327949855122 13; V 327854954093 13]);
(V 190360721443 12, [V 324154003539 13; V 350322486955 13; V 358400570482 13; V 360944221114 13; V 361698126089 13; V 361856308747 13; V 361816403252 13; V 361712931907 13; V 361590929722 13; V 361464918564 13; V 361339239997 13; V 361214998997 13; V 361092357655 13; V 360971246687 13; V 360851562419 13; V 360733209605 13; V 360616104773 13; V 360500172906 13; V 360385344887 13; V 360271556349 13; V 360158747312 13; V 360046862079 13; V 359935849138 13; V 35982566099 12; V 35971625391 12; V 359607587661 13; V 359499625198 13; V 359392332378 13; V 359285677682 13; V 359179631969 13; V 359074168245 13; V 35896926146 12; V 358864888327 13; V 358761027158 13; V 358657657719 13; V 358554761103 13; V 358452319609 13; V 358350316642 13; V 358248736619 13; V 358147564885 13]);
(V 211400801603 12, [V 351362711388 13; V 380026366675 13; V 387499894433 13; V 389420282905 13; V 389838589906 13; V 389847407491 13; V 389747346118 13; V 38962063592 12; V 389488975898 13; V 389357663094 13; V 389227795231 13; V 389099504411 13; V 388972742219 13; V 38884744004 12; V 388723530385 13; V 388600946006 13; V 388479619064 13; V 388359481999 13; V 388240468908 13; V 388122516677 13; V 388005565671 13; V 387889560045 13; V 387774447777 13; V 387660180567 13; V 387546713629 13; V 387434005464 13; V 387322017611 13; V 387210714407 13; V 387100062754 13; V 386990031907 13; V 386880593266 13; V 3867717202 11; V 386663387874 13; V 386555573101 13; V 386448254196 13; V 386341410858 13; V 386235024054 13; V 386129075915 13; V 386023549641 13; V 385918429424 13]);
(V 232440881764 12, [V 381306673428 13; V 408362688068 13; V 414290498108 13; V 415505975616 13; V 415660672056 13; V 41558096807 12; V 41545287431 12; V 415316750434 13; V 41518068225 12; V 415046066231 13; V 414913076631 13; V 414781704702 13; V 414651913528 13; V 414523651083 13; V 414396852345 13; V 414271443991 13; V 41414734943 12; V 414024492583 13; V 413902800205 13; V 413782203102 13; V 413662636644 13; V 413544040851 13; V 413426360263 13; V 413309543682 13; V 413193543873 13; V 413078317244 13; V 412963823527 13; V 41285002549 12; V 412736888653 13; V 412624381035 13; V 412512472931 13; V 412401136697 13; V 412290346568 13; V 412180078491 13; V 412070309971 13; V 41196101994 12; V 411852188636 13; V 411743797493 13; V 411635829045 13; V 411528266838 13]);
(V 253480961924 12, [V 411999022038 13; V 434752855207 13; V 438890091134 13; V 439528055357 13; V 439520274523 13; V 439399956744 13; V 439262680473 13; V 439124148549 13; V 438986631296 13; V 438850474141 13; V 438715796282 13; V 438582661186 13; V 43845108253 12; V 438321033464 13; V 438192460753 13; V 438065296838 13; V 437939468063 13; V 437814899705 13; V 437691518859 13; V 437569255977 13; V 437448045612 13; V 437327826675 13; V 437208542431 13; V 437090140328 13; V 436972571755 13; V 436855791763 13; V 436739758769 13; V 43662443428 12; V 436509782615 13; V 436395770662 13; V 436282367644 13; V 436169544911 13; V 436057275749 13; V 435945535211 13; V 435834299963 13; V 435723548144 13; V 435613259243 13; V 435503413985 13; V 435393994234 13; V 435284982899 13]);
(V 274521042084 12, [V 441891782423 13; V 459066086049 13; V 461590239591 13; V 461831337542 13; V 461737805063 13; V 461601267934 13; V 461460880422 13; V 461320997996 13; V 461182145149 13; V 461044579519 13; V 460908490861 13; V 460773978272 13; V 460641064636 13; V 460509722956 13; V 46037989776 12; V 460251519183 13; V 460124511501 13; V 4599987981 11; V 459874304269 13; V 459750958694 13; V 459628694173 13; V 459507447874 13; V 459387161329 13; V 459267780276 13; V 459149254425 13; V 459031537183 13; V 458914585379 13; V 458798358983 13; V 458682820844 13; V 458567936444 13; V 458453673669 13; V 458340002605 13; V 458226895344 13; V 458114325812 13; V 458002269618 13; V 457890703908 13; V 457779607241 13; V 457668959471 13; V 457558741646 13; V 457448935913 13]);
(V 295561122244 12, [V 46992979936 12; V 481393056183 13; V 482672071928 13; V 482678743018 13; V 482548795438 13; V 482408520527 13; V 482268154265 13; V 482128167427 13; V 481988920336 13; V 481850810618 13; V 481714106391 13; V 48157894259 12; V 4814453615 11; V 481313348816 13; V 481182857937 13; V 481053825108 13; V 480926178593 13; V 480799844164 13; V 480674748324 13; V 480550820131 13; V 480427992172 13; V 480306201008 13; V 480185387312 13; V 480065495806 13; V 479946475103 13; V 479828277483 13; V 479710858647 13; V 479594177463 13; V 479478195719 13; V 47936287788 12; V 47924819087 12; V 479134103861 13; V 479020588089 13; V 478907616672 13; V 478795164459 13; V 478683207884 13; V 478571724837 13; V 478460694544 13; V 478350097463 13; V 478239915185 13]);
(V 316601202405 12, [V 495570329759 13; V 501979793875 13; V 502416358314 13; V 502306032012 13; V 502165011308 13; V 502024778818 13; V 501884368614 13; V 501743824426 13; V 501603822211 13; V 501464917538 13; V 501327439155 13; V 50119154549 12; V 501057287375 13; V 500924651879 13; V 50079359004 12; V 500664033906 13; V 500535906847 13; V 500409129696 13; V 50028362432 12; V 500159315613 13; V 500036132509 13; V 499914008426 13; V 499792881352 13; V 499672693731 13; V 499553392245 13; V 499434927534 13; V 499317253899 13; V 499200329006 13; V 499084113599 13; V 498968571233 13; V 498853668023 13; V 49873937242 12; V 498625655004 13; V 498512488297 13; V 498399846594 13; V 498287705816 13; V 498176043368 13; V 498064838019 13; V 497954069795 13; V 497843719872 13]);
(V 337641282565 12, [V 518743182312 13; V 521146554858 13; V 521072935699 13; V 520909707417 13; V 520763478003 13; V 520620793726 13; V 520477877735 13; V 520335052782 13; V 520193086825 13; V 520052503695 13; V 519913581427 13; V 519776434586 13; V 519641079219 13; V 519507475018 13; V 519375551371 13; V 519245223117 13; V 519116399885 13; V 518988991485 13; V 518862910891 13; V 518738075773 13; V 518614409159 13; V 518491839592 13; V 518370301004 13; V 51824973243 12; V 518130077657 13; V 51801128484 12; V 517893306124 13; V 517776097289 13; V 517659617408 13; V 517543828543 13; V 517428695466 13; V 517314185407 13; V 517200267832 13; V 517086914235 13; V 516974097963 13; V 516861794053 13; V 516749979087 13; V 516638631063 13; V 516527729283 13; V 516417254241 13]);
(V 358681362725 12, [V 53950567319 12; V 539091542963 13; V 538769527961 13; V 53859795914 12; V 538455298447 13; V 538313955913 13; V 538171179073 13; V 538027963499 13; V 537885322785 13; V 537743899307 13; V 537604045686 13; V 53746592696 12; V 537329593201 13; V 537195026583 13; V 537062170946 13; V 536930950038 13; V 53680127858 12; V 536673068865 13; V 536546234572 13; V 536420692882 13; V 536296365553 13; V 536173179359 13; V 536051066165 13; V 535929962788 13; V 535809810736 13; V 535690555892 13; V 53557214819 12; V 535454541271 13; V 535337692173 13; V 535221561029 13; V 535106110795 13; V 534991306993 13; V 534877117492 13; V 53476351229 12; V 534650463341 13; V 534537944379 13; V 53442593077 12; V 53431439938 12; V 534203328448 13; V 534092697484 13]);
(V 379721442886 12, [V 558222042406 13; V 556084673534 13; V 555675980178 13; V 555509016497 13; V 555367498026 13; V 555225134831 13; V 555080948619 13; V 554936325651 13; V 554792341607 13; V 554649645619 13; V 554508588671 13; V 554369332957 13; V 554231925729 13; V 554096346552 13; V 553962536824 13; V 553830417915 13; V 553699902171 13; V 553570899472 13; V 553443321054 13; V 553317081636 13; V 553192100515 13; V 553068302041 13; V 552945615708 13; V 552823976034 13; V 552703322319 13; V 552583598337 13; V 552464752015 13; V 552346735096 13; V 552229502829 13; V 552113013662 13; V 551997228968 13; V 55188211279 12; V 551767631606 13; V 551653754118 13; V 551540451064 13; V 551427695044 13; V 551315460363 13; V 551203722894 13; V 551092459952 13; V 550981650175 13]);
(V 400761523046 12, [V 575259814403 13; V 57228663738 12; V 571881026477 13; V 571722351802 13; V 571581363159 13; V 571438117174 13; V 571292946326 13; V 571147394967 13; V 571002546474 13; V 570859044757 13; V 570717234874 13; V 570577273167 13; V 570439201472 13; V 570302994621 13; V 57016859005 12; V 570035905906 13; V 569904851951 13; V 569775336008 13; V 569647267664 13; V 569520560299 13; V 569395132098 13; V 56927090646 12; V 569147812038 13; V 569025782591 13; V 568904756707 13; V 568784677487 13; V 568665492208 13; V 568547151985 13; V 568429611452 13; V 56831282846 12; V 568196763796 13; V 568081380936 13; V 567966645803 13; V 567852526566 13; V 567738993443 13; V 567626018535 13; V 567513575666 13; V 567401640246 13; V 567290189145 13; V 567179200577 13]);
(V 421801603206 12, [V 590949444718 13; V 587810954657 13; V 587458644831 13; V 58731221394 12; V 587174188781 13; V 587032209709 13; V 586887759377 13; V 58674261717 12; V 586597968242 13; V 586454518929 13; V 586312655593 13; V 586172563048 13; V 586034303542 13; V 585897867054 13; V 585763202534 13; V 58563023702 12; V 585498887194 13; V 585369066282 13; V 585240688077 13; V 585113669222 13; V 584987930414 13; V 584863396969 13; V 584739998987 13; V 584617671295 13; V 584496353263 13; V 584375988541 13; V 58425652478 12; V 584137913332 13; V 584020108962 13; V 583903069572 13; V 583786755945 13; V 583671131502 13; V 583556162086 13; V 583441815755 13; V 583328062607 13; V 583214874604 13; V 58310222543 12; V 582990090348 13; V 582878446078 13; V 582767270682 13]);
(V 442841683367 12, [V 605716720769 13; V 602818549273 13; V 602521118238 13; V 602378730945 13; V 602239562833 13; V 602096444157 13; V 601951092953 13; V 601805188221 13; V 601659850746 13; V 601515754848 13; V 601373271987 13; V 601232580728 13; V 601093741262 13; V 600956743342 13; V 600821536306 13; V 600688047609 13; V 600556194141 13; V 600425889042 13; V 600297045752 13; V 60016958034 12; V 600043412769 13; V 599918467517 13; V 599794673793 13; V 599671965522 13; V 599550281178 13; V 599429563557 13; V 599309759497 13; V 599190819595 13; V 599072697916 13; V 598955351724 13; V 598838741218 13; V 598722829292 13; V 598607581308 13; V 598492964894 13; V 598378949753 13; V 598265507496 13; V 598152611484 13; V 598040236686 13; V 597928359556 13; V 597816957909 13]);
(V 463881763527 12, [V 619778583613 13; V 61735773382 12; V 617115502617 13; V 616977148782 13; V 61683728486 12; V 616692885989 13; V 616546105475 13; V 616398747568 13; V 616251995995 13; V 61610655649 12; V 615962813967 13; V 615820950354 13; V 615681023673 13; V 615543018624 13; V 615406878178 13; V 615272523021 13; V 61513986339 12; V 615008806179 13; V 61487925912 12; V 614751133155 13; V 614624343704 13; V 614498811246 13; V 614374461488 13; V 614251225294 13; V 614129038472 13; V 614007841492 13; V 613887579161 13; V 613768200298 13; V 613649657414 13; V 613531906405 13; V 613414906267 13; V 613298618827 13; V 613183008503 13; V 613068042081 13; V 612953688513 13; V 612839918733 13; V 612726705496 13; V 61261402322 12; V 612501847857 13; V 61239015677 12]);
(V 484921843687 12, [V 633363826856 13; V 631492250116 13; V 631290728765 13; V 631153555985 13; V 631012627191 13; V 630867063819 13; V 630719102301 13; V 630570563894 13; V 630422650064 13; V 630276080228 13; V 630131248008 13; V 62998833989 12; V 629847415457 13; V 629708459005 13; V 629571411915 13; V 629436192655 13; V 629302708971 13; V 629170865213 13; V 629040566644 13; V 628911721875 13; V 628784244164 13; V 628658051995 13; V 628533069249 13; V 628409225119 13; V 628286453882 13; V 6281646946 11; V 62804389079 12; V 627923990078 13; V 627804943877 13; V 627686707061 13; V 627569237679 13; V 62745249668 12; V 627336447661 13; V 627221056643 13; V 627106291862 13; V 626992123586 13; V 62687852394 12; V 626765466756 13; V 626652927433 13; V 626540882814 13]);
(V 505961923848 12, [V 646600471579 13; V 645257921302 13; V 6450858523 11; V 644949939523 13; V 644808900226 13; V 644663000977 13; V 644514556369 13; V 64436543445 12; V 644216870289 13; V 644069606109 13; V 643924051208 13; V 643780403243 13; V 643638730058 13; V 64349902225 12; V 64336122611 12; V 643225263967 13; V 643091046606 13; V 642958480744 13; V 642827473461 13; V 642697934724 13; V 642569778761 13; V 64244292471 12; V 642317296844 13; V 642192824533 13; V 642069442059 13; V 641947088351 13; V 641825706684 13; V 641705244362 13; V 641585652406 13; V 64146688526 12; V 641348900504 13; V 641231658599 13; V 641115122643 13; V 640999258152 13; V 640884032856 13; V 640769416523 13; V 640655380786 13; V 640541898996 13; V 640428946083 13; V 640316498436 13]);
(V 527002004008 12, [V 659595361787 13; V 658704642925 13; V 658551459193 13; V 658416056015 13; V 658274641389 13; V 658128103112 13; V 657978866722 13; V 657828873395 13; V 657679403362 13; V 657531225193 13; V 657384763046 13; V 657240222683 13; V 657097676179 13; V 656957116176 13; V 656818489788 13; V 656681719489 13; V 656546715839 13; V 656413385131 13; V 656281633913 13; V 656151371569 13; V 656022511714 13; V 655894972865 13; V 655768678674 13; V 655643557892 13; V 655519544188 13; V 65539657589 12; V 65527459568 12; V 655153550283 13; V 655033390155 13; V 654914069186 13; V 65479554442 12; V 654677775795 13; V 654560725903 13; V 654444359767 13; V 654328644644 13; V 654213549841 13; V 654099046547 13; V 653985107683 13; V 653871707768 13; V 653758822789 13]);
(V 548042084168 12, [V 672424797749 13; V 671876080907 13; V 67173034754 12; V 671593208447 13; V 671450118984 13; V 671301964939 13; V 67115115384 12; V 670999641956 13; V 670848724297 13; V 670699177476 13; V 670551427425 13; V 670405677359 13; V 670261994319 13; V 670120364768 13; V 669980729354 13; V 669843004304 13; V 669707094406 13; V 669572900765 13; V 669440325341 13; V 669309273505 13; V 669179655385 13; V 669051386475 13; V 668924387808 13; V 668798585868 13; V 668673912355 13; V 668550303886 13; V 668427701647 13; V 668306051053 13; V 668185301407 13; V 668065405579 13; V 667946319708 13; V 66782800292 12; V 66771041708 12; V 667593526554 13; V 667477298003 13; V 667361700187 13; V 667246703794 13; V 667132281285 13; V 667018406748 13; V 666905055772 13]);
(V 569082164329 12, [V 685094876023 13; V 684788422506 13; V 68464666548 12; V 684508474261 13; V 684364027848 13; V 684214357111 13; V 684061982307 13; V 683908929027 13; V 683756527754 13; V 68360557024 12; V 683456486362 13; V 683309477561 13; V 683164606461 13; V 683021854099 13; V 682881155519 13; V 682742421549 13; V 68260555195 12; V 682470443226 13; V 682336993167 13; V 682205103379 13; V 68207468061 12; V 681945637323 13; V 681817891839 13; V 681691368218 13; V 681565996002 13; V 68144170988 12; V 681318449324 13; V 681196158219 13; V 681074784508 13; V 680954279845 13; V 680834599284 13; V 680715700981 13; V 680597545929 13; V 680480097713 13; V 680363322287 13; V 680247187773 13; V 680131664283 13; V 680016723747 13; V 679902339773 13; V 679788487508 13]);
(V 590122244489 12, [V 697632804017 13; V 697473101263 13; V 69733082221 12; V 697191132772 13; V 697045306724 13; V 69689426897 12; V 696740543503 13; V 696586164772 13; V 696432468561 13; V 696280249662 13; V 696129939926 13; V 695981742188 13; V 695835719998 13; V 69569185483 12; V 695550081665 13; V 6954103108 11; V 695272441047 13; V 695136367635 13; V 695001986829 13; V 694869198555 13; V 694737907786 13; V 694608025179 13; V 694479467264 13; V 694352156355 13; V 694226020322 13; V 694100992264 13; V 69397701016 12; V 6938540165 11; V 693731957929 13; V 693610784901 13; V 693490451361 13; V 693370914445 13; V 693252134207 13; V 693134073366 13; V 693016697083 13; V 692899972751 13; V 692783869807 13; V 692668359565 13; V 692553415062 13; V 69243901092 12]);
(V 611162324649 12, [V 710038236758 13; V 709953341439 13; V 709809829967 13; V 709669436636 13; V 709522798316 13; V 709370745578 13; V 709215852611 13; V 709060212869 13; V 708905209093 13; V 708751669111 13; V 708600046564 13; V 708450558012 13; V 708303275247 13; V 708158184359 13; V 708015222588 13; V 707874300957 13; V 707735318031 13; V 707598168173 13; V 707462746399 13; V 70732895116 12; V 707196685828 13; V 707065859407 13; V 706936386763 13; V 706808188576 13; V 706681191119 13; V 706555325956 13; V 706430529598 13; V 706306743137 13; V 706183911894 13; V 706061985073 13; V 705940915443 13; V 705820659036 13; V 70570117487 12; V 705582424696 13; V 705464372769 13; V 705346985636 13; V 705230231947 13; V 705114082281 13; V 70499850899 12; V 704883486057 13]);
(V 63220240481 11, [V 722319939715 13; V 72225846078 12; V 722113466534 13; V 721972149436 13; V 721824182931 13; V 721670542321 13; V 721513950081 13; V 721356589984 13; V 721199893607 13; V 721044712432 13; V 720891509544 13; V 720740503421 13; V 720591764091 13; V 720445274302 13; V 720300967475 13; V 720158750866 13; V 720018519544 13; V 719880164708 13; V 719743578542 13; V 719608656948 13; V 719475300992 13; V 719343417572 13; V 719212919612 13; V 719083725982 13; V 718955761265 13; V 718828955432 13; V 718703243487 13; V 718578565098 13; V 718454864233 13; V 718332088818 13; V 718210190404 13; V 71808912387 12; V 717968847146 13; V 717849320949 13; V 717730508562 13; V 717612375611 13; V 717494889879 13; V 717378021131 13; V 71726174095 12; V 7171460226 11]);
(V 65324248497 11, [V 734492416687 13; V 73441440656 12; V 734264148374 13; V 734119693474 13; V 733969083913 13; V 733813097518 13; V 733654375126 13; V 733495050219 13; V 733336519761 13; V 733179610273 13; V 733024766489 13; V 732872193284 13; V 732721950542 13; V 732574013393 13; V 732428309464 13; V 732284741533 13; V 732143201131 13; V 732003576588 13; V 731865757688 13; V 731729638274 13; V 731595117588 13; V 731462100877 13; V 731330499539 13; V 731200231012 13; V 731071218522 13; V 73094339074 12; V 730816681425 13; V 730691029043 13; V 730566376408 13; V 730442670327 13; V 730319861283 13; V 730197903121 13; V 73007675278 12; V 729956370031 13; V 729836717247 13; V 729717759188 13; V 729599462812 13; V 729481797096 13; V 729364732877 13; V 729248242709 13]);
(V 67428256513 11, [V 746526806293 13; V 746418985472 13; V 746267297225 13; V 746122148955 13; V 745970528645 13; V 745813312045 13; V 745653234932 13; V 745492490755 13; V 745332512599 13; V 74517414903 12; V 745017858606 13; V 744863855024 13; V 744712203775 13; V 744562883452 13; V 744415823678 13; V 744270928219 13; V 744128088909 13; V 743987193922 13; V 743848132589 13; V 7437107981 11; V 743575088932 13; V 743440909493 13; V 743308170308 13; V 743176787925 13; V 743046684674 13; V 742917788341 13; V 742790031808 13; V 74266335268 12; V 742537692928 13; V 742412998536 13; V 742289219182 13; V 742166307934 13; V 74204422097 12; V 741922917326 13; V 741802358662 13; V 741682509053 13; V 741563334792 13; V 741444804216 13; V 741326887548 13; V 74120955675 12]);
(V 695322645291 12, [V 758446790641 13; V 758299979197 13; V 758146637551 13; V 758000820988 13; V 757848387267 13; V 757690163196 13; V 757528918908 13; V 757366894851 13; V 757205566387 13; V 757045815234 13; V 756888124005 13; V 756732722843 13; V 756579687877 13; V 756429004143 13; V 756280604812 13; V 756134395281 13; V 755990267791 13; V 75584811018 12; V 755707811027 13; V 755569262558 13; V 755432362204 13; V 755297013326 13; V 75516312544 12; V 755030614147 13; V 754899400896 13; V 754769412659 13; V 754640581566 13; V 754512844527 13; V 754386142861 13; V 754260421945 13; V 754135630881 13; V 754011722188 13; V 753888651523 13; V 753766377419 13; V 753644861051 13; V 753524066023 13; V 753403958171 13; V 753284505389 13; V 753165677468 13; V 75304744595 12]);
(V 716362725451 12, [V 77026964689 12; V 770081141349 13; V 769924249902 13; V 769776262975 13; V 76962196784 12; V 769461997318 13; V 769299056848 13; V 76913537074 12; V 768972415038 13; V 768811075863 13; V 768651839261 13; V 768494936739 13; V 76834044391 12; V 768188343968 13; V 768038567445 13; V 767891016728 13; V 767745580964 13; V 767602145006 13; V 767460594661 13; V 767320819661 13; V 767182715239 13; V 767046182843 13; V 766911130347 13; V 766777471951 13; V 766645127917 13; V 766514024212 13; V 766384092113 13; V 766255267802 13; V 766127491974 13; V 766000709463 13; V 765874868894 13; V 76574992236 12; V 76562582513 12; V 765502535382 13; V 765380013957 13; V 765258224142 13; V 765137131469 13; V 765016703538 13; V 764896909852 13; V 76477772167 12]);
(V 737402805611 12, [V 781989781402 13; V 781767909446 13; V 781609672684 13; V 78146034191 12; V 781304418221 13; V 781142677205 13; V 780977923248 13; V 780812436882 13; V 780647723168 13; V 780484681237 13; V 780323801101 13; V 780165313325 13; V 7800092901 11; V 779855710092 13; V 779704498985 13; V 779555554414 13; V 779408761098 13; V 77926399989 12; V 779121153052 13; V 778980107229 13; V 778840754992 13; V 778702995515 13; V 778566734745 13; V 778431885254 13; V 778298365934 13; V 778166101601 13; V 778035022561 13; V 777905064182 13; V 777776166466 13; V 777648273657 13; V 777521333871 13; V 77739529876 12; V 777270123204 13; V 777145765028 13; V 777022184758 13; V 776899345389 13; V 776777212179 13; V 776655752471 13; V 776534935519 13; V 776414732346 13]);
(V 758442885772 12, [V 793629634448 13; V 79337878287 12; V 793218187323 13; V 793066997761 13; V 792909231307 13; V 79274562221 12; V 792578992991 13; V 792411649787 13; V 792245117013 13; V 792080304987 13; V 791917708343 13; V 791757557895 13; V 791599923523 13; V 791444780302 13; V 791292049846 13; V 791141625717 13; V 790993388801 13; V 790847216464 13; V 790702987872 13; V 790560586943 13; V 790419903863 13; V 790280835734 13; V 790143286695 13; V 790007167747 13; V 789872396411 13; V 789738896304 13; V 789606596681 13; V 789475431985 13; V 789345341402 13; V 789216268452 13; V 789088160606 13; V 788960968936 13; V 788834647801 13; V 788709154555 13; V 78858444929 12; V 788460494606 13; V 788337255396 13; V 788214698659 13; V 788092793333 13; V 787971510138 13]);
(V 779482965932 12, [V 805201559411 13; V 804927077208 13; V 804763336803 13; V 804609680904 13; V 804449621775 13; V 80428380827 12; V 804115050064 13; V 803945653192 13; V 803777141355 13; V 803610421556 13; V 80344598324 12; V 803284051231 13; V 803124689432 13; V 802967867417 13; V 802813501972 13; V 802661482518 13; V 802511686429 13; V 802363988085 13; V 802218264092 13; V 80207439614 12; V 801932272456 13; V 801791788387 13; V 801652846489 13; V 801515356317 13; V 801379234067 13; V 801244402132 13; V 801110788643 13; V 800978326996 13; V 800846955415 13; V 800716616526 13; V 800587256976 13; V 800458827075 13; V 800331280475 13; V 800204573879 13; V 800078666776 13; V 799953521206 13; V 799829101544 13; V 799705374308 13; V 799582307988 13; V 799459872886 13]);
(V 800523046092 12, [V 816711322131 13; V 816420329201 13; V 816253712271 13; V 816097626802 13; V 815935262518 13; V 815767217325 13; V 815596296498 13; V 8154248061 11; V 815254267001 13; V 815085581064 13; V 814919231857 13; V 814755438676 13; V 814594260719 13; V 814435663751 13; V 814279561531 13; V 814125841047 13; V 813974377664 13; V 813825044032 13; V 8136777152 11; V 813532271416 13; V 813388599528 13; V 813246593551 13; V 81310615474 12; V 812967191388 13; V 812829618462 13; V 812693357166 13; V 812558334484 13; V 812424482718 13; V 812291739045 13; V 8121600451 11; V 812029346591 13; V 811899592945 13; V 811770736984 13; V 811642734634 13; V 811515544656 13; V 811389128412 13; V 811263449641 13; V 811138474271 13; V 811014170239 13; V 810890507332 13]);
(V 821563126253 12, [V 828161455346 13; V 827861996993 13; V 827694605837 13; V 827537441625 13; V 827373650375 13; V 827203946926 13; V 827031234219 13; V 826857881832 13; V 826685449385 13; V 826514862206 13; V 826346618334 13; V 8261809462 11; V 826017910851 13; V 825857481762 13; V 825699574938 13; V 825544078588 13; V 825390868548 13; V 825239817411 13; V 825090799789 13; V 824943695225 13; V 824798389681 13; V 824654776171 13; V 824512754882 13; V 824372233001 13; V 824233124378 13; V 824095349116 13; V 823958833116 13; V 82382350763 12; V 823689308822 13; V 823556177359 13; V 823424058024 13; V 823292899367 13; V 823162653377 13; V 823033275193 13; V 822904722835 13; V 822776956966 13; V 822649940668 13; V 82252363925 12; V 82239802007 12; V 822273052368 13]);
(V 842603206413 12, [V 839570140735 13; V 839266285233 13; V 839098218371 13; V 83894008051 12; V 838774950315 13; V 838603637455 13; V 838429140072 13; V 838253898167 13; V 83807951994 12; V 837906963535 13; V 837736748847 13; V 837569118556 13; V 837404146663 13; V 837241807943 13; V 837082021215 13; V 836924675843 13; V 836769647755 13; V 836616808969 13; V 836466033132 13; V 836317198616 13; V 836170190116 13; V 836024899359 13; V 83588122526 12; V 835739073782 13; V 835598357603 13; V 835458995711 13; V 835320912956 13; V 83518403959 12; V 835048310837 13; V 83491366647 12; V 834780050431 13; V 834647410469 13; V 83451569782 12; V 834384866905 13; V 834254875068 13; V 834125682326 13; V 833997251155 13; V 833869546286 13; V 83374253453 12; V 833616184611 13]);
(V 863643286573 12, [V 850960227785 13; V 850649824642 13; V 850478434923 13; V 850317659161 13; V 850150054923 13; V 849976309493 13; V 849799405239 13; V 849621791453 13; V 849445087826 13; V 849270260356 13; V 84909783256 12; V 848928047388 13; V 848760976869 13; V 848596592511 13; V 848434809256 13; V 848275512454 13; V 848118574153 13; V 847963862784 13; V 847811248765 13; V 847660607605 13; V 847511821496 13; V 847364779973 13; V 847219380043 13; V 847075525995 13; V 846933129035 13; V 846792106847 13; V 84665238311 12; V 846513887027 13; V 846376552862 13; V 846240319512 13; V 846105130107 13; V 845970931643 13; V 845837674648 13; V 845705312883 13; V 845573803064 13; V 845443104619 13; V 845313179463 13; V 845183991793 13; V 845055507913 13; V 844927696066 13]);
(V 884683366733 12, [V 862329376456 13; V 862015517585 13; V 861840785997 13; V 861676818042 13; V 861506060765 13; V 86132923805 12; V 861149369476 13; V 860968921693 13; V 860789516116 13; V 860612111394 13; V 860437219457 13; V 860265070404 13; V 860095723764 13; V 859929139678 13; V 859765223139 13; V 859603850986 13; V 859444888096 13; V 859288196901 13; V 859133642821 13; V 858981097204 13; V 858830438765 13; V 858681554126 13; V 858534337834 13; V 858388692084 13; V 858244526288 13; V 858101756571 13; V 857960305253 13; V 85782010033 12; V 857681074992 13; V 857543167166 13; V 8574063191 11; V 857270476982 13; V 857135590596 13; V 857001613008 13; V 856868500288 13; V 856736211258 13; V 856604707259 13; V 856473951951 13; V 856343911126 13; V 85621455254 12]);
(V 905723446894 12, [V 873683333602 13; V 873366455233 13; V 873188429573 13; V 87302124773 12; V 872847250646 13; V 872667241073 13; V 872484296551 13; V 872300906451 13; V 872118693117 13; V 871938605673 13; V 871761142717 13; V 871586520584 13; V 871414786128 13; V 871245888443 13; V 871079723174 13; V 870916159358 13; V 870755055391 13; V 870596268318 13; V 870439659059 13; V 870285095172 13; V 870132452152 13; V 869981613857 13; V 869832472443 13; V 869684928011 13; V 869538888128 13; V 869394267279 13; V 869250986313 13; V 869108971903 13; V 868968156037 13; V 86882847555 12; V 868689871686 13; V 868552289711 13; V 868415678557 13; V 868279990501 13; V 868145180879 13; V 868011207825 13; V 86787803204 12; V 867745616582 13; V 867613926675 13; V 867482929542 13]);
(V 926763527054 12, [V 885025458474 13; V 884705870998 13; V 884524464895 13; V 884354196765 13; V 884177216837 13; V 883994306368 13; V 883808542298 13; V 883622411782 13; V 883437532537 13; V 88325484805 12; V 883074851254 13; V 882897753281 13; V 882723596428 13; V 882552325878 13; V 882383833929 13; V 882217986716 13; V 882054640074 13; V 881893648736 13; V 88173487149 12; V 8815781739 11; V 881423429578 13; V 881270520591 13; V 881119337388 13; V 880969778449 13; V 880821749797 13; V 880675164457 13; V 880529941895 13; V 880386007483 13; V 880243291985 13; V 880101731085 13; V 879961264948 13; V 879821837833 13; V 879683397725 13; V 879545896019 13; V 879409287221 13; V 879273528692 13; V 879138580406 13; V 879004404741 13; V 878870966282 13; V 878738231652 13]);
(V 947803607214 12, [V 896360939187 13; V 896036772889 13; V 895852072208 13; V 895679236802 13; V 895499854097 13; V 89531455682 12; V 895126383913 13; V 894937819374 13; V 894750488616 13; V 894565345137 13; V 894382891219 13; V 894203345836 13; V 894026757535 13; V 893853076307 13; V 89368219802 12; V 893513991338 13; V 893348313757 13; V 893185020967 13; V 893023972136 13; V 89286503276 12; V 892708076028 13; V 892552983324 13; V 89239964422 12; V 892247956186 13; V 892097824153 13; V 891949160002 13; V 891801882042 13; V 891655914487 13; V 891511186968 13; V 891367634064 13; V 891225194879 13; V 891083812652 13; V 8909434344 11; V 890804010597 13; V 890665494877 13; V 890527843779 13; V 8903910165 11; V 890254974686 13; V 890119682236 13; V 889985105122 13]);
(V 968843687375 12, [V 907685483967 13; V 907361294133 13; V 907175404729 13; V 907001161864 13; V 90682006729 12; V 906632798269 13; V 906442460199 13; V 906251595868 13; V 906061876089 13; V 905874287788 13; V 905689357537 13; V 905507321948 13; V 9053282424 11; V 905152078209 13; V 904978731966 13; V 904808077107 13; V 904639974421 13; V 904474281757 13; V 904310859586 13; V 904149574048 13; V 903990298478 13; V 903832914032 13; V 90367730978 12; V 903523382491 13; V 903371036253 13; V 903220182014 13; V 903070737091 13; V 902922624679 13; V 902775773381 13; V 902630116755 13; V 902485592907 13; V 902342144103 13; V 902199716422 13; V 902058259436 13; V 901917725922 13; V 901778071596 13; V 901639254878 13; V 901501236677 13; V 901363980189 13; V 901227450729 13]);
(V 989883767535 12, [V 919017900901 13; V 918691094457 13; V 918503395669 13; V 91832733542 12; V 918144134583 13; V 917954515004 13; V 917761664615 13; V 917568192253 13; V 917375813912 13; V 917185545965 13; V 916997933957 13; V 91681322674 12; V 916631493601 13; V 916452698929 13; V 916276748501 13; V 916103517653 13; V 915932868181 13; V 915764658316 13; V 915598748464 13; V 915435004379 13; V 91527329878 12; V 915113512048 13; V 914955532358 13; V 914799255513 13; V 914644584585 13; V 91449142948 12; V 914339706466 13; V 914189337693 13; V 914040250734 13; V 91389237814 12; V 91374565704 12; V 913600028753 13; V 91345543845 12; V 913311834831 13; V 913169169839 13; V 913027398395 13; V 912886478163 13; V 912746369333 13; V 91260703442 12; V 912468438091 13]);
(V 10109238477 10, [V 930368546693 13; V 930035983352 13; V 92984382214 12; V 92966392864 12; V 92947714784 12; V 929284088746 13; V 929087900933 13; V 928891178904 13; V 928695631577 13; V 928502269954 13; V 928311634401 13; V 928123968598 13; V 927939336818 13; V 927757698753 13; V 927578955883 13; V 927402979676 13; V 927229628475 13; V 927058757428 13; V 926890224183 13; V 926723892017 13; V 926559631414 13; V 926397320718 13; V 926236846246 13; V 926078102087 13; V 925920989728 13; V 925765417608 13; V 925611300623 13; V 925458559644 13; V 925307121041 13; V 925156916241 13; V 925007881312 13; V 924859956579 13; V 924713086273 13; V 924567218208 13; V 924422303493 13; V 924278296264 13; V 92413515344 12; V 923992834509 13; V 923851301324 13; V 923710517926 13]);
(V 103196392786 11, [V 941731074349 13; V 941392170512 13; V 9411951623 11; V 941010888656 13; V 940819938852 13; V 940622875376 13; V 940422834889 13; V 940222403732 13; V 940023281696 13; V 939826469059 13; V 939632494622 13; V 939441590569 13; V 939253810383 13; V 93906910401 12; V 938887364317 13; V 93870845526 12; V 93853222866 12; V 938358534009 13; V 938187224048 13; V 938018157775 13; V 937851201934 13; V 937686231586 13; V 937523130154 13; V 937361789162 13; V 937202107823 13; V 937043992538 13; V 936887356381 13; V 936732118582 13; V 936578204027 13; V 936425542797 13; V 936274069733 13; V 936123724039 13; V 935974448913 13; V 935826191224 13; V 935678901204 13; V 935532532174 13; V 935387040299 13; V 935242384363 13; V 93509852556 12; V 934955427316 13])].
Definition tt_part1 : list (dec * list dec) := [
(V 105300400802 11, [V 953096516493 13; V 952753210706 13; V 952553120577 13; V 952365609624 13; V 952171113632 13; V 951970317694 13; V 951766482953 13; V 951562278422 13; V 951359449829 13; V 951159018916 13; V 950961521528 13; V 95076718909 12; V 950576070458 13; V 950388109263 13; V 950203191542 13; V 950021174483 13; V 949841903497 13; V 949665222141 13; V 949490977741 13; V 949319024401 13; V 949149224468 13; V 948981449068 13; V 948815578118 13; V 948651500022 13; V 948489111217 13; V 948328315643 13; V 948169024181 13; V 94801115411 12; V 94785462858 12; V 947699376115 13; V 947545330164 13; V 947392428677 13; V 947240613722 13; V 947089831141 13; V 946940030234 13; V 946791163469 13; V 946643186232 13; V 946496056583 13; V 946349735054 13; V 946204184451 13]);
(V 107404408818 11, [V 964468024837 13; V 964121355936 13; V 963918640072 13; V 963728186759 13; V 963530376193 13; V 963326019873 13; V 963118500958 13; V 962910574034 13; V 962704038009 13; V 96249994536 12; V 962298848423 13; V 962100986378 13; V 96190641052 12; V 961715063707 13; V 961526829285 13; V 961341560662 13; V 961159098902 13; V 960979283015 13; V 960801955792 13; V 960626966976 13; V 960454174802 13; V 960283446595 13; V 960114658789 13; V 959947696634 13; V 959782453724 13; V 959618831448 13; V 959456738408 13; V 959296089846 13; V 959136807095 13; V 958978817056 13; V 958822051725 13; V 958666447748 13; V 958511946025 13; V 958358491339 13; V 958206032033 13; V 958054519707 13; V 95790390895 12; V 957754157097 13; V 957605224009 13; V 957457071872 13]);
(V 109508416834 11, [V 975853816254 13; V 975500412219 13; V 97529344681 12; V 975099177379 13; V 97489761956 12; V 974689525329 13; V 974478272677 13; V 974266622978 13; V 974056385511 13; V 973848623515 13; V 973643898642 13; V 973442457031 13; V 973244354376 13; V 973049535608 13; V 972857884253 13; V 972669252486 13; V 972483479174 13; V 972300400525 13; V 972119856215 13; V 971941692756 13; V 971765765194 13; V 971591937784 13; V 971420084076 13; V 971250086644 13; V 971081836629 13; V 970915233184 13; V 970750182884 13; V 970586599139 13; V 970424401625 13; V 970263515751 13; V 97010387216 12; V 969945406278 13; V 969788057894 13; V 969631770787 13; V 969476492378 13; V 969322173427 13; V 96916876775 12; V 969016231971 13; V 968864525293 13; V 968713609293 13]);
(V 11161242485 10, [V 987244974577 13; V 986885850707 13; V 986674813241 13; V 986476745286 13; V 986271448272 13; V 986059633282 13; V 985844666152 13; V 985629306745 13; V 985415369271 13; V 985203924873 13; V 98499554336 12; V 984790477685 13; V 9845887884 11; V 984390423319 13; V 984195267177 13; V 984003172069 13; V 983813975874 13; V 98362751322 12; V 983443621859 13; V 983262146212 13; V 983082939183 13; V 982905862924 13; V 982730788958 13; V 982557597943 13; V 982386179225 13; V 982216430284 13; V 982048256148 13; V 981881568793 13; V 981716286574 13; V 981552333677 13; V 981389639619 13; V 981228138781 13; V 981067769989 13; V 980908476123 13; V 980750203775 13; V 98059290293 12; V 980436526685 13; V 980281030991 13; V 980126374419 13; V 979972517957 13]);
(V 113716432866 11, [V 998639865379 13; V 998275478002 13; V 998060983045 13; V 997859508085 13; V 997650654051 13; V 997435160932 13; V 997216443926 13; V 996997301803 13; V 996779575781 13; V 996564354803 13; V 996352219864 13; V 996143430497 13; V 995938050688 13; V 995736029615 13; V 995537252057 13; V 995341569365 13; V 995148818233 13; V 994958831888 13; V 994771446596 13; V 994586505292 13; V 994403859431 13; V 994223369767 13; V 994044906494 13; V 993868349 10; V 993693585424 13; V 993520512094 13; V 993349032943 13; V 9931790589 11; V 993010507325 13; V 992843301453 13; V 992677369897 13; V 992512646178 13; V 992349068302 13; V 992186578371 13; V 992025122238 13; V 991864649186 13; V 991705111646 13; V 991546464937 13; V 991388667031 13; V 99123167835 12]);
(V 115820440882 11, [V 101004350333 12; V 100967193207 12; V 100945295192 12; V 100924742338 12; V 100903452739 12; V 100881495521 12; V 100859214454 12; V 100836892121 12; V 100814714502 12; V 100792791486 12; V 100771181548 12; V 100749910645 12; V 100728984977 12; V 100708399179 12; V 100688141428 12; V 100668196572 12; V 100648548026 12; V 100629178891 12; V 100610072604 12; V 100591213295 12; V 100572585967 12; V 100554176569 12; V 100535972005 12; V 100517960109 12; V 100500129596 12; V 100482470003 12; V 100464971633 12; V 100447625491 12; V 100430423228 12; V 100413357085 12; V 100396419844 12; V 10037960478 11; V 100362905619 12; V 100346316499 12; V 100329831936 12; V 100313446793 12; V 100297156249 12; V 100280955775 12; V 100264841112 12; V 100248808244 12]);
(V 117924448898 11, [V 102144968339 12; V 102107182701 12; V 102084805807 12; V 102063793864 12; V 102042047188 12; V 102019634787 12; V 101996902652 12; V 101974135089 12; V 101951518936 12; V 10192916424 11; V 101907129204 12; V 101885439286 12; V 101864100112 12; V 101843105751 12; V 101822443864 12; V 101802098851 12; V 101782053746 12; V 101762291329 12; V 101742794769 12; V 101723547968 12; V 101704535734 12; V 101685743847 12; V 101667159064 12; V 101648769083 12; V 101630562495 12; V 101612528728 12; V 101594657978 12; V 101576941152 12; V 101559369808 12; V 101541936097 12; V 101524632718 12; V 101507452865 12; V 101490390188 12; V 101473438751 12; V 101456593002 12; V 101439847735 12; V 101423198067 12; V 101406639409 12; V 101390167442 12; V 101373778099 12]);
(V 120028456914 11, [V 103285248655 12; V 103246843703 12; V 103224009874 12; V 103202547732 12; V 103180339863 12; V 103157458554 12; V 103134255134 12; V 103111018009 12; V 103087936543 12; V 103065122084 12; V 103042633315 12; V 103020495693 12; V 102998714582 12; V 102977283673 12; V 102956190206 12; V 102935418163 12; V 102914950185 12; V 102894768692 12; V 102874856524 12; V 102855197292 12; V 102835775544 12; V 102816576828 12; V 102797587691 12; V 102778795647 12; V 102760189121 12; V 102741757389 12; V 10272349051 11; V 102705379268 12; V 102687415105 12; V 10266959007 11; V 102651896762 12; V 102634328288 12; V 102616878211 12; V 102599540521 12; V 102582309591 12; V 102565180146 12; V 10254814724 11; V 102531206222 12; V 102514352716 12; V 1024975826 10]);
(V 12213246493 10, [V 104424717817 12; V 104385618818 12; V 104362305837 12; V 104340393719 12; V 104317725808 12; V 104294370597 12; V 104270684087 12; V 104246960042 12; V 104223391883 12; V 104200093569 12; V 10417712528 11; V 104154513211 12; V 104132262981 12; V 104110368241 12; V 104088816021 12; V 104067590002 12; V 104046672479 12; V 104026045519 12; V 104005691618 12; V 10398559406 11; V 103965737091 12; V 103946105983 12; V 103926687036 12; V 10390746754 11; V 103888435722 12; V 103869580677 12; V 103850892308 12; V 103832361252 12; V 103813978826 12; V 103795736961 12; V 103777628152 12; V 103759645409 12; V 103741782211 12; V 103724032464 12; V 103706390468 12; V 103688850883 12; V 103671408695 12; V 103654059197 12; V 103636797957 12; V 1036196208 10]);
(V 124236472946 11, [V 105562612372 12; V 10552287387 11; V 105499089058 12; V 105476709405 12; V 105453555937 12; V 105429700541 12; V 105405505626 12; V 105381270162 12; V 105357191159 12; V 10533338485 11; V 105309912742 12; V 105286801707 12; V 105264057614 12; V 105241674085 12; V 105219637956 12; V 105197932622 12; V 105176540044 12; V 105155441943 12; V 105134620474 12; V 105114058599 12; V 105093740263 12; V 105073650467 12; V 105053775265 12; V 105034101725 12; V 105014617877 12; V 104995312641 12; V 104976175763 12; V 104957197743 12; V 104938369771 12; V 104919683667 12; V 104901131826 12; V 104882707167 12; V 104864403085 12; V 104846213413 12; V 10482813238 11; V 104810154583 12; V 104792274949 12; V 104774488715 12; V 1047567914 10; V 10473917878 11]);
(V 126340480962 11, [V 106698359651 12; V 106657983724 12; V 10663367295 11; V 106610762722 12; V 106587069428 12; V 106562670188 12; V 106537931361 12; V 106513154419 12; V 106488537896 12; V 106464198868 12; V 106440199211 12; V 106416565838 12; V 106393304455 12; V 106370408401 12; V 106347864172 12; V 106325654798 12; V 106303761887 12; V 10628216682 11; V 106260851437 12; V 106239798415 12; V 106218991444 12; V 106198415293 12; V 10617805581 11; V 106157899881 12; V 106137935374 12; V 106118151065 12; V 106098536567 12; V 106079082266 12; V 106059779247 12; V 106040619237 12; V 106021594543 12; V 106002698008 12; V 105983922955 12; V 105965263151 12; V 105946712766 12; V 105928266339 12; V 105909918747 12; V 105891665178 12; V 105873501104 12; V 10585542226 11]);
(V 128444488978 11, [V 107831403181 12; V 107790134029 12; V 107765149813 12; V 107741632939 12; V 10771735486 11; V 107692378922 12; V 107667068119 12; V 107641723739 12; V 107616544737 12; V 107591648445 12; V 107567096706 12; V 107542916192 12; V 107519112244 12; V 107495677794 12; V 107472598933 12; V 107449858312 12; V 107427437195 12; V 107405316662 12; V 107383478289 12; V 107361904523 12; V 107340578853 12; V 107319485871 12; V 107298611271 12; V 107277941803 12; V 10725746521 11; V 107237170158 12; V 107217046163 12; V 107197083518 12; V 107177273227 12; V 107157606938 12; V 107138076891 12; V 107118675862 12; V 107099397116 12; V 107080234362 12; V 107061181718 12; V 107042233674 12; V 107023385062 12; V 107004631025 12; V 106985966995 12; V 10696738867 11]);
(V 130548496994 11, [V 108960304049 12; V 108918050635 12; V 108892399998 12; V 108868283406 12; V 108843414105 12; V 108817845073 12; V 108791940092 12; V 108766002809 12; V 108740233905 12; V 108714751605 12; V 108689618047 12; V 108664859838 12; V 108640482078 12; V 108616477382 12; V 108592831511 12; V 108569526804 12; V 108546544244 12; V 108523864659 12; V 10850146941 11; V 108479340756 12; V 10845746202 11; V 108435817652 12; V 108414393217 12; V 10839317535 11; V 108372151691 12; V 108351310812 12; V 108330642141 12; V 108310135893 12; V 108289782995 12; V 10826957503 11; V 108249504172 12; V 108229563137 12; V 108209745133 12; V 108190043818 12; V 10817045326 11; V 108150967903 12; V 108131582533 12; V 108112292255 12; V 108093092462 12; V 108073978815 12]);
(V 13265250501 10, [V 110083559867 12; V 110040631877 12; V 110014403456 12; V 109989689629 12; V 109964201932 12; V 109938003903 12; V 109911466921 12; V 109884898719 12; V 109858501882 12; V 109832395385 12; V 109806641552 12; V 10978126691 11; V 109756276359 12; V 10973166227 11; V 109707410146 12; V 109683502078 12; V 109659918816 12; V 109636640975 12; V 109613649721 12; V 109590927133 12; V 109568456375 12; V 10954622175 11; V 109524208688 12; V 109502403704 12; V 109480794324 12; V 109459369017 12; V 109438117118 12; V 10941702875 11; V 109396094762 12; V 10937530666 11; V 10935465655 11; V 10933413708 11; V 109313741401 12; V 109293463112 12; V 109273296231 12; V 109253235152 12; V 109233274618 12; V 109213409689 12; V 109193635719 12; V 109173948332 12]);
(V 134756513026 11, [V 111200685224 12; V 111156978093 12; V 111130058605 12; V 111104655973 12; V 1110784777 10; V 111051591763 12; V 11102437175 11; V 11099712581 11; V 110970056244 12; V 110943281601 12; V 110916863816 12; V 110890829105 12; V 110865182113 12; V 11083991499 11; V 110815013039 12; V 110790458159 12; V 110766230912 12; V 110742311728 12; V 110718681594 12; V 110695322416 12; V 110672217191 12; V 110649350062 12; V 110626706313 12; V 110604272316 12; V 110582035467 12; V 110559984116 12; V 110538107484 12; V 110516395594 12; V 110494839197 12; V 110473429714 12; V 110452159168 12; V 110431020137 12; V 110410005701 12; V 110389109399 12; V 11036832519 11; V 110347647417 12; V 110327070774 12; V 110306590276 12; V 110286201236 12; V 110265899241 12]);
(V 136860521042 11, [V 112310069612 12; V 112265386721 12; V 112237698374 12; V 112211563264 12; V 112184661089 12; V 112157055398 12; V 112129118877 12; V 112101159381 12; V 112073379092 12; V 112045896528 12; V 112018773634 12; V 111992036651 12; V 111965690247 12; V 111939726571 12; V 1119141309 10; V 111888885075 12; V 111863969572 12; V 111839364716 12; V 111815051368 12; V 1117910113 10; V 111767227365 12; V 111743683565 12; V 11172036504 11; V 111697258027 12; V 11167434979 11; V 111651628555 12; V 111629083426 12; V 111606704318 12; V 111584481885 12; V 111562407452 12; V 111540472961 12; V 111518670911 12; V 111496994311 12; V 111475436636 12; V 111453991786 12; V 11143265405 11; V 111411418071 12; V 111390278822 12; V 111369231573 12; V 111348271873 12]);
(V 138964529058 11, [V 113409203513 12; V 113363710867 12; V 113335354748 12; V 113308548956 12; V 113280951869 12; V 113252631234 12; V 113223966672 12; V 113195271477 12; V 113166751491 12; V 113138527563 12; V 113110663105 12; V 11308318528 11; V 11305609934 11; V 113029397809 12; V 113003066195 12; V 112977086475 12; V 112951439187 12; V 112926104668 12; V 112901063749 12; V 112876298144 12; V 112851790629 12; V 112827525115 12; V 112803486643 12; V 112779661345 12; V 112756036383 12; V 112732599881 12; V 112709340845 12; V 112686249099 12; V 112663315206 12; V 112640530411 12; V 11261788658 11; V 112595376141 12; V 112572992039 12; V 11255072769 11; V 11252857694 11; V 112506534027 12; V 112484593551 12; V 112462750442 12; V 112440999935 12; V 112419337545 12]);
(V 141068537074 11, [V 114496612386 12; V 114450270034 12; V 114421286012 12; V 114393828026 12; V 114365531904 12; V 114336477754 12; V 114307058153 12; V 11427759538 11; V 114248300881 12; V 114219298859 12; V 114190654709 12; V 11416239678 11; V 114134531055 12; V 114107050521 12; V 114079940992 12; V 114053184652 12; V 114026762175 12; V 114000653979 12; V 113974840943 12; V 113949304792 12; V 113924028292 12; V 113898995323 12; V 113874190883 12; V 113849601051 12; V 113825212931 12; V 113801014583 12; V 113776994951 12; V 113753143793 12; V 113729451613 12; V 113705909595 12; V 113682509548 12; V 113659243847 12; V 11363610539 11; V 113613087544 12; V 113590184113 12; V 113567389298 12; V 113544697662 12; V 113522104104 12; V 113499603828 12; V 113477192324 12]);
(V 14317254509 10, [V 115570743772 12; V 115523575306 12; V 115493844091 12; V 115465616177 12; V 115436524084 12; V 115406657538 12; V 115376416876 12; V 115346129104 12; V 115316008225 12; V 11528617971 11; V 115256709539 12; V 115227626322 12; V 115198936165 12; V 115170632129 12; V 115142700092 12; V 115115122293 12; V 115087879462 12; V 115060952067 12; V 115034321024 12; V 115007968084 12; V 114981876029 12; V 114956028742 12; V 114930411215 12; V 114905009511 12; V 114879810713 12; V 114854802854 12; V 114829974846 12; V 114805316416 12; V 114780818033 12; V 114756470849 12; V 114732266638 12; V 114708197745 12; V 114684257034 12; V 114660437846 12; V 114636733957 12; V 114613139544 12; V 114589649147 12; V 114566257643 12; V 11454296022 11; V 11451975235 11]);
(V 145276553106 11, [V 116629970885 12; V 116581636025 12; V 116550929771 12; V 116521771791 12; V 116491764744 12; V 116460992317 12; V 116429853275 12; V 116398673581 12; V 116367666131 12; V 116336955316 12; V 116306606191 12; V 116276646643 12; V 11624708225 11; V 116217905711 12; V 116189102662 12; V 116160655192 12; V 116132543939 12; V 116104749319 12; V 116077252221 12; V 116050034384 12; V 116023078583 12; V 115996368698 12; V 115969889715 12; V 115943627694 12; V 115917569711 12; V 115891703788 12; V 115866018829 12; V 115840504547 12; V 115815151398 12; V 11578995052 11; V 115764893674 12; V 11573997319 11; V 11571518192 11; V 115690513192 12; V 11566596077 11; V 11564151882 11; V 115617181874 12; V 115592944799 12; V 115568802777 12; V 115544751272 12]);
(V 147380561122 11, [V 117671065436 12; V 117621507364 12; V 117589791519 12; V 117559669176 12; V 117528708128 12; V 117496986145 12; V 117464901532 12; V 117432780315 12; V 117400835214 12; V 117369190262 12; V 117337910106 12; V 117307022244 12; V 117276531917 12; V 117246431549 12; V 117216706552 12; V 117187338844 12; V 11715830893 11; V 117129597127 12; V 117101184248 12; V 117073051979 12; V 117045183054 12; V 117017561327 12; V 116990171763 12; V 116963000408 12; V 116936034327 12; V 116909261536 12; V 116882670932 12; V 116856252225 12; V 116829995868 12; V 116803892996 12; V 116777935369 12; V 116752115316 12; V 116726425688 12; V 116700859814 12; V 116675411459 12; V 116650074788 12; V 116624844337 12; V 116599714976 12; V 116574681888 12; V 116549740543 12]);
(V 149484569138 11, [V 118690509754 12; V 118640039008 12; V 118607462063 12; V 11857644738 11; V 118544562087 12; V 118511893387 12; V 118478847597 12; V 118445756464 12; V 118412836642 12; V 118380214799 12; V 118347957286 12; V 118316092657 12; V 118284626774 12; V 118253552394 12; V 118222855089 12; V 118192516828 12; V 118162518112 12; V 118132839221 12; V 118103460926 12; V 118074364864 12; V 118045533727 12; V 118016951333 12; V 11798860262 11; V 117960473612 12; V 11793255136 11; V 11790482387 11; V 117877280035 12; V 117849909563 12; V 117822702911 12; V 117795651217 12; V 117768746247 12; V 117741980339 12; V 117715346351 12; V 117688837622 12; V 117662447927 12; V 117636171443 12; V 117610002716 12; V 117583936627 12; V 117557968373 12; V 117532093433 12]);
(V 151588577154 11, [V 119685876143 12; V 119634523683 12; V 119601126331 12; V 119569241341 12; V 119536437423 12; V 119502814238 12; V 119468788586 12; V 119434700252 12; V 119400771923 12; V 11936713467 11; V 119333857944 12; V 119300972417 12; V 119268485353 12; V 119236390409 12; V 119204673715 12; V 119173317576 12; V 119142302679 12; V 119111609404 12; V 119081218561 12; V 1190511118 10; V 119021271811 12; V 118991682398 12; V 118962328492 12; V 118933196105 12; V 118904272284 12; V 118875545033 12; V 118847003248 12; V 118818636645 12; V 118790435686 12; V 118762391525 12; V 118734495939 12; V 118706741283 12; V 118679120431 12; V 11865162674 11; V 118624254003 12; V 118596996415 12; V 118569848539 12; V 118542805279 12; V 118515861847 12; V 118489013743 12]);
(V 15369258517 10, [V 120654617388 12; V 120602279751 12; V 120567952754 12; V 120535114905 12; V 120501328445 12; V 120466697923 12; V 120431646027 12; V 120396517685 12; V 120361539756 12; V 120326846567 12; V 120292510042 12; V 12025856268 11; V 120225013069 12; V 120191855803 12; V 120159077667 12; V 120126661406 12; V 120094588007 12; V 120062838045 12; V 120031392459 12; V 12000023298 11; V 119969342351 12; V 119938704415 12; V 119908304127 12; V 119878127524 12; V 119848161671 12; V 119818394593 12; V 119788815206 12; V 119759413247 12; V 119730179202 12; V 119701104248 12; V 119672180189 12; V 119643399401 12; V 119614754787 12; V 119586239727 12; V 119557848042 12; V 119529573951 12; V 119501412043 12; V 119473357246 12; V 119445404796 12; V 119417550218 12]);
(V 155796593186 11, [V 121593752484 12; V 121540169524 12; V 121504752812 12; V 121470845579 12; V 121435984432 12; V 121400271869 12; V 121364132167 12; V 121327911779 12; V 12129183873 11; V 121256048311 12; V 121220613295 12; V 121185566941 12; V 121150918485 12; V 121116663068 12; V 121082787912 12; V 121049276113 12; V 121016108927 12; V 120983267138 12; V 120950731846 12; V 120918484909 12; V 12088650917 11; V 120854788553 12; V 120823308082 12; V 120792053853 12; V 120761012985 12; V 120730173551 12; V 120699524513 12; V 12066905565 11; V 12063875749 11; V 12060862125 11; V 120578638769 12; V 120548802463 12; V 120519105269 12; V 120489540602 12; V 120460102315 12; V 120430784659 12; V 120401582254 12; V 120372490057 12; V 120343503332 12; V 12031461763 11]);
(V 157900601202 11, [V 122499212508 12; V 122444373294 12; V 122407841294 12; V 122372823018 12; V 122336839974 12; V 122299998632 12; V 122262727374 12; V 122225374856 12; V 122188170075 12; V 122151248732 12; V 122114683824 12; V 122078508786 12; V 12204273304 11; V 122007351921 12; V 12197235285 11; V 121937719113 12; V 121903432147 12; V 121869472902 12; V 121835822628 12; V 12180246332 11; V 121769377941 12; V 121736550528 12; V 121703966203 12; V 121671611152 12; V 121639472576 12; V 121607538624 12; V 121575798327 12; V 121544241527 12; V 121512858813 12; V 121481641453 12; V 121450581342 12; V 121419670939 12; V 121388903229 12; V 121358271666 12; V 121327770142 12; V 121297392946 12; V 121267134731 12; V 121236990486 12; V 121206955504 12; V 121177025365 12]);
(V 160004609218 11, [V 12336668691 11; V 123310802643 12; V 123273252978 12; V 123237172045 12; V 123200087251 12; V 123162119691 12; V 123123708883 12; V 123085210475 12; V 123046857501 12; V 12300878788 11; V 122971075782 12; V 122933755264 12; V 122896836092 12; V 122860313818 12; V 122824176023 12; V 122788406139 12; V 122752985743 12; V 122717895922 12; V 122683118065 12; V 122648634303 12; V 12261442773 11; V 122580482506 12; V 122546783872 12; V 122513318123 12; V 122480072561 12; V 122447035428 12; V 122414195841 12; V 122381543721 12; V 122349069728 12; V 122316765196 12; V 122284622078 12; V 122252632891 12; V 122220790666 12; V 122189088906 12; V 122157521544 12; V 122126082905 12; V 122094767679 12; V 122063570884 12; V 122032487845 12; V 122001514164 12]);
(V 162108617234 11, [V 124192455589 12; V 124135546475 12; V 124097040827 12; V 124059954094 12; V 124021810349 12; V 123982745887 12; V 123943214326 12; V 123903581439 12; V 123864086883 12; V 123824872695 12; V 123786015532 12; V 123747550926 12; V 123709489525 12; V 123671827425 12; V 123634552567 12; V 123597648641 12; V 123561097432 12; V 12352488021 11; V 123488978529 12; V 123453374676 12; V 123418051893 12; V 123382994479 12; V 123348187803 12; V 123313618283 12; V 123279273331 12; V 123245141294 12; V 12321121138 11; V 123177473596 12; V 123143918678 12; V 123110538031 12; V 123077323671 12; V 12304426817 11; V 12301136461 11; V 122978606538 12; V 122945987928 12; V 122913503141 12; V 122881146897 12; V 122848914243 12; V 122816800526 12; V 122784801371 12]);
(V 164212625251 11, [V 12497265654 11; V 124914764107 12; V 124875306578 12; V 124837229194 12; V 124798052774 12; V 124757922953 12; V 124717303096 12; V 124676566837 12; V 124635959677 12; V 124595627812 12; V 12455565078 11; V 124516066084 12; V 124476885721 12; V 124438106714 12; V 12439971766 11; V 124361702733 12; V 124324044086 12; V 124286723282 12; V 124249722121 12; V 124213023101 12; V 124176609649 12; V 124140466227 12; V 124104578352 12; V 124068932574 12; V 124033516425 12; V 123998318356 12; V 123963327674 12; V 123928534469 12; V 123893929555 12; V 123859504404 12; V 12382525109 11; V 123791162239 12; V 123757230978 12; V 123723450895 12; V 123689815996 12; V 123656320672 12; V 123622959668 12; V 123589728049 12; V 12355662118 11; V 123523634697 12]);
(V 166316633267 11, [V 125703440825 12; V 125644484534 12; V 125604058477 12; V 125565001887 12; V 125524822979 12; V 125483670381 12; V 125442011727 12; V 12540022454 11; V 125358557771 12; V 125317160596 12; V 125276115026 12; V 125235460549 12; V 125195210708 12; V 125155363724 12; V 125115909111 12; V 125076831752 12; V 125038114354 12; V 124999738918 12; V 124961687599 12; V 124923943181 12; V 124886489334 12; V 124849310721 12; V 124812393032 12; V 124775722966 12; V 124739288181 12; V 12470307724 11; V 124667079545 12; V 12463128527 11; V 1245956853 10; V 124560271169 12; V 124525035004 12; V 124489969477 12; V 124455067751 12; V 124420323445 12; V 124385730591 12; V 124351283599 12; V 124316977227 12; V 124282806552 12; V 124248766943 12; V 124214854039 12]);
(V 168420641283 11, [V 126380448008 12; V 126320517395 12; V 126279210532 12; V 12623925134 11; V 126198143656 12; V 126156043829 12; V 12611342462 11; V 126070666652 12; V 126028021266 12; V 125985639805 12; V 125943606292 12; V 125901962012 12; V 125860722059 12; V 125819885951 12; V 125779444269 12; V 125739382758 12; V 125699684824 12; V 125660333031 12; V 125621309986 12; V 125582598842 12; V 125544183566 12; V 125506049069 12; V 125468181243 12; V 125430566952 12; V 125393193995 12; V 125356051053 12; V 125319127623 12; V 125282413961 12; V 12524590102 11; V 125209580389 12; V 125173444241 12; V 125137485283 12; V 125101696708 12; V 125066072155 12; V 12503060567 11; V 124995291673 12; V 124960124925 12; V 1249251005 10; V 124890213763 12; V 124855460341 12]);
(V 170524649299 11, [V 126999418181 12; V 126938829123 12; V 126896811257 12; V 126856080692 12; V 126814163076 12; V 126771230562 12; V 126727764151 12; V 126684148709 12; V 126640638204 12; V 12659738602 11; V 12655447798 11; V 126511956999 12; V 126469839634 12; V 126428126683 12; V 126386809829 12; V 126345875745 12; V 126305308608 12; V 12626509162 11; V 126225207908 12; V 126185641052 12; V 126146375365 12; V 126107396041 12; V 126068689201 12; V 126030241897 12; V 125992042082 12; V 125954078558 12; V 125916340926 12; V 125878819524 12; V 125841505367 12; V 125804390099 12; V 125767465931 12; V 125730725598 12; V 125694162317 12; V 125657769736 12; V 125621541909 12; V 125585473253 12; V 125549558524 12; V 125513792785 12; V 125478171383 12; V 125442689926 12]);
(V 172628657315 11, [V 127556911455 12; V 127495764477 12; V 127453177371 12; V 127411830056 12; V 12736925929 11; V 127325649408 12; V 127281489278 12; V 127237168556 12; V 127192944328 12; V 127148972273 12; V 12710534008 11; V 12706209228 11; V 12701924686 11; V 126976805875 12; V 126934762103 12; V 12689310316 11; V 126851814022 12; V 126810878558 12; V 126770280455 12; V 126730003749 12; V 126690033133 12; V 126650354106 12; V 126610953044 12; V 126571817202 12; V 1265329347 10; V 126494294475 12; V 126455886235 12; V 126417700404 12; V 126379728066 12; V 126341960915 12; V 1263043912 10; V 126267011686 12; V 126229815602 12; V 126192796608 12; V 126155948756 12; V 126119266458 12; V 126082744457 12; V 126046377797 12; V 126010161805 12; V 125974092061 12]);
(V 174732665331 11, [V 128049334879 12; V 127987836059 12; V 12794489655 11; V 127903150591 12; V 127860139417 12; V 127816058659 12; V 127771406123 12; V 127726577584 12; V 127681834328 12; V 127637335068 12; V 127593169826 12; V 127549385028 12; V 127506000239 12; V 127463018859 12; V 127420434807 12; V 12737823667 11; V 127336410243 12; V 127294940084 12; V 127253810453 12; V 127213005867 12; V 127172511415 12; V 127132312926 12; V 127092397043 12; V 127052751248 12; V 12701336384 11; V 126974223906 12; V 126935321275 12; V 126896646466 12; V 12685819064 11; V 126819945549 12; V 126781903488 12; V 12674405725 11; V 126706400088 12; V 126668925671 12; V 126631628053 12; V 126594501642 12; V 126557541167 12; V 126520741658 12; V 126484098416 12; V 126447606996 12]);
(V 176836673347 11, [V 128473420742 12; V 128411975138 12; V 128369015934 12; V 128327165269 12; V 128283986086 12; V 128239693799 12; V 128194799505 12; V 128149707574 12; V 128104685079 12; V 128059894847 12; V 128015429976 12; V 127971339274 12; V 127927644205 12; V 127884349702 12; V 127841450946 12; V 127798937559 12; V 127756796198 12; V 127715012141 12; V 127673570248 12; V 127632455537 12; V 127591653519 12; V 127551150374 12; V 127510933044 12; V 127470989255 12; V 127431307514 12; V 127391877081 12; V 127352687924 12; V 127313730682 12; V 127274996611 12; V 127236477538 12; V 127198165819 12; V 127160054295 12; V 127122136249 12; V 127084405376 12; V 127046855743 12; V 127009481763 12; V 126972278165 12; V 12693523997 11; V 126898362467 12; V 126861641191 12]);
(V 178940681363 11, [V 128826961007 12; V 128765947814 12; V 128723305764 12; V 128681667351 12; V 128638625542 12; V 128594419138 12; V 128549574212 12; V 12850450474 11; V 128459484335 12; V 12841468055 11; V 128370190042 12; V 128326064361 12; V 128282327122 12; V 128238984967 12; V 128196034451 12; V 128153466317 12; V 128111268146 12; V 128069425985 12; V 12802792534 11; V 127986751777 12; V 127945891269 12; V 127905330395 12; V 127865056433 12; V 1278250574 10; V 127785322049 12; V 12774583985 11; V 127706600953 12; V 127667596148 12; V 127628816818 12; V 127590254901 12; V 127551902841 12; V 127513753552 12; V 12747580038 11; V 127438037066 12; V 127400457716 12; V 12736305677 11; V 127325828978 12; V 127288769372 12; V 127251873249 12; V 127215136145 12]);
(V 181044689379 11, [V 129108726586 12; V 129048393361 12; V 129006360724 12; V 128965245175 12; V 128922659025 12; V 128878859349 12; V 128834384416 12; V 12878965624 11; V 128744954112 12; V 128700449858 12; V 128656243461 12; V 128612389121 12; V 128568912583 12; V 128525822221 12; V 128483116012 12; V 128440785885 12; V 128398820414 12; V 128357206491 12; V 128315930346 12; V 128274978166 12; V 128234336467 12; V 128193992293 12; V 128153933333 12; V 128114147957 12; V 128074625232 12; V 128035354897 12; V 127996327337 12; V 127957533549 12; V 127918965094 12; V 127880614065 12; V 127842473043 12; V 127804535057 12; V 127766793554 12; V 127729242361 12; V 12769187566 11; V 127654687954 12; V 127617674045 12; V 127580829013 12; V 127544148192 12; V 127507627149 12]);
(V 183148697395 11, [V 129318152279 12; V 1292587638 10; V 12921763374 11; V 129177356834 12; V 129135557136 12; V 129092503711 12; V 1290487425 10; V 129004700436 12; V 12896066038 11; V 128916797043 12; V 128873212867 12; V 128829964185 12; V 128787078596 12; V 128744566095 12; V 128702426074 12; V 128660651693 12; V 128619232612 12; V 12857815667 11; V 128537410932 12; V 128496982321 12; V 128456858001 12; V 128417025591 12; V 128377473283 12; V 128338189898 12; V 128299164897 12; V 128260388371 12; V 128221851018 12; V 12818354411 11; V 128145459455 12; V 128107589363 12; V 12806992661 11; V 128032464399 12; V 127995196331 12; V 127958116372 12; V 127921218826 12; V 127884498309 12; V 127847949722 12; V 127811568235 12; V 127775349259 12; V 127739288437 12]);
(V 185252705411 11, [V 129455460965 12; V 129397399411 12; V 129357503643 12; V 129318403825 12; V 129277741337 12; V 129235793432 12; V 129193109454 12; V 129150117943 12; V 129107103004 12; V 129064240688 12; V 129021634925 12; V 128979343617 12; V 12893739594 11; V 128895803407 12; V 128854566838 12; V 128813680712 12; V 128773135888 12; V 128732921292 12; V 128693024963 12; V 1286534347 10; V 128614138446 12; V 128575124518 12; V 128536381732 12; V 128497899465 12; V 128459667676 12; V 128421676902 12; V 128383918241 12; V 128346383325 12; V 128309064285 12; V 128271953725 12; V 128235044685 12; V 128198330609 12; V 128161805317 12; V 128125462974 12; V 128089298068 12; V 128053305381 12; V 128017479969 12; V 127981817144 12; V 12794631245 11; V 12791096165 11]);
(V 187356713427 11, [V 129521937698 12; V 129465620582 12; V 129427347412 12; V 129389804747 12; V 129350658241 12; V 129310194187 12; V 129268964262 12; V 129227397292 12; V 129185777562 12; V 129144281747 12; V 12910301485 11; V 129062036149 12; V 129021376347 12; V 128981048524 12; V 128941055029 12; V 128901391796 12; V 12886205103 11; V 128823022893 12; V 128784296547 12; V 128745860804 12; V 128707704522 12; V 128669816839 12; V 128632187312 12; V 128594805981 12; V 128557663406 12; V 128520750667 12; V 12848405935 11; V 128447581533 12; V 128411309754 12; V 128375236987 12; V 12833935661 11; V 12830366238 11; V 128268148404 12; V 128232809114 12; V 128197639243 12; V 128162633803 12; V 128127788064 12; V 128093097537 12; V 128058557955 12; V 128024165257 12]);
(V 189460721443 11, [V 129519922734 12; V 129465839224 12; V 129429640309 12; V 12939407266 11; V 129356838352 12; V 129318240849 12; V 1292788383 10; V 129239061769 12; V 129199196673 12; V 129159420832 12; V 129119840657 12; V 129080517047 12; V 129041482439 12; V 129002751658 12; V 128964328747 12; V 128926211234 12; V 128888392808 12; V 128850864993 12; V 128813618189 12; V 128776642335 12; V 128739927304 12; V 128703463155 12; V 128667240279 12; V 12863124947 11; V 128595481975 12; V 128559929495 12; V 128524584191 12; V 12848943866 11; V 128454485922 12; V 128419719392 12; V 128385132859 12; V 128350720459 12; V 128316476652 12; V 128282396201 12; V 128248474149 12; V 128214705796 12; V 128181086687 12; V 12814761259 11; V 12811427948 11; V 128081083528 12]);
(V 191564729459 11, [V 129453138202 12; V 12940176142 11; V 129368059108 12; V 129334857114 12; V 129299903762 12; V 129263526242 12; V 129226293621 12; V 129188641989 12; V 129150859565 12; V 129113126301 12; V 129075550613 12; V 1290381954 10; V 129001095071 12; V 128964266356 12; V 128927715104 12; V 128891440525 12; V 128855437859 12; V 128819700048 12; V 128784218789 12; V 128748985195 12; V 128713990213 12; V 128679224874 12; V 128644680457 12; V 128610348568 12; V 128576221194 12; V 128542290722 12; V 128508549937 12; V 128474992021 12; V 12844161053 11; V 12840839938 11; V 128375352829 12; V 128342465449 12; V 128309732112 12; V 128277147965 12; V 128244708416 12; V 12821240911 11; V 128180245917 12; V 128148214914 12; V 128116312372 12; V 128084534742 12]);
(V 193668737475 11, [V 129326755065 12; V 129278328062 12; V 129247398204 12; V 129216853792 12; V 129184475451 12; V 129150608803 12; V 129115832714 12; V 129080588531 12; V 129045167753 12; V 129009752864 12; V 128974454543 12; V 128939337831 12; V 128904439174 12; V 128869777231 12; V 128835359645 12; V 128801187286 12; V 12876725692 11; V 128733562884 12; V 128700098151 12; V 128666855 9; V 128633825443 12; V 128601001491 12; V 128568375317 12; V 128535939357 12; V 128503686364 12; V 128471609431 12; V 128439702004 12; V 128407957878 12; V 128376371187 12; V 128344936385 12; V 128313648237 12; V 128282501794 12; V 128251492381 12; V 128220615572 12; V 12818986718 11; V 128159243238 12; V 128128739984 12; V 128098353845 12; V 128068081427 12; V 128037919501 12]);
(V 195772745491 11, [V 129146605456 12; V 129101253333 12; V 129073266655 12; V 129045578898 12; V 129015988892 12; V 128984852223 12; V 128952753359 12; V 128920137181 12; V 128887297861 12; V 128854420221 12; V 128821617121 12; V 128788955669 12; V 128756474266 12; V 128724193393 12; V 128692122382 12; V 128660263659 12; V 128628615417 12; V 128597173301 12; V 128565931482 12; V 128534883341 12; V 128504021903 12; V 128473340116 12; V 128442831024 12; V 128412487869 12; V 128382304157 12; V 128352273688 12; V 12832239057 11; V 128292649221 12; V 12826304436 11; V 128233571 9; V 12820422443 11; V 128175000201 12; V 128145894111 12; V 128116902189 12; V 128088020679 12; V 128059246026 12; V 12803057486 11; V 128002003989 12; V 127973530379 12; V 127945151149 12]);
(V 197876753507 11, [V 128918822025 12; V 128876716902 12; V 128851823323 12; V 128827143799 12; V 128800497247 12; V 128772247204 12; V 128742982447 12; V 12871315102 11; V 128683049813 12; V 12865286611 11; V 128622715023 12; V 128592665721 12; V 12856275849 11; V 12853301553 11; V 128503447737 12; V 128474058963 12; V 128444848698 12; V 128415813776 12; V 128386949457 12; V 128358250128 12; V 128329709747 12; V 128301322129 12; V 128273081126 12; V 128244980742 12; V 128217015199 12; V 128189178971 12; V 128161466806 12; V 128133873727 12; V 128106395031 12; V 128079026276 12; V 128051763276 12; V 128024602081 12; V 127997538966 12; V 127970570416 12; V 127943693114 12; V 127916903922 12; V 127890199876 12; V 127863578168 12; V 12783703614 11; V 127810571269 12]);
(V 199980761523 11, [V 128650132216 12; V 128611364768 12; V 128589679733 12; V 128568119358 12; V 128544518645 12; V 128519251204 12; V 128492912878 12; V 128465956945 12; V 128438684335 12; V 128411285555 12; V 12838387836 11; V 128356534143 12; V 128329295089 12; V 128302185052 12; V 128275216384 12; V 12824839423 11; V 128221719245 12; V 128195189318 12; V 128168800677 12; V 128142548603 12; V 128116427883 12; V 12809043311 11; V 128064558869 12; V 128038799856 12; V 128013150947 12; V 127987607241 12; V 127962164079 12; V 127936817053 12; V 127911562001 12; V 127886395001 12; V 127861312365 12; V 12783631062 11; V 127811386499 12; V 12778653693 11; V 127761759016 12; V 12773705003 11; V 1277124074 10; V 127687828698 12; V 127663311629 12; V 127638854023 12]);
(V 202084769539 11, [V 128347644718 12; V 128312271755 12; V 128293839387 12; V 128275430528 12; V 128254899359 12; V 128232633752 12; V 128209239744 12; V 128185177728 12; V 12816075371 11; V 128136161944 12; V 128111523054 12; V 128086910696 12; V 128062368894 12; V 128037923034 12; V 128013586773 12; V 127989366391 12; V 127965263547 12; V 127941277036 12; V 127917403914 12; V 127893640226 12; V 127869981475 12; V 127846422928 12; V 127822959805 12; V 12779958741 11; V 127776301196 12; V 127753096817 12; V 127729970143 12; V 127706917275 12; V 12768393454 11; V 127661018488 12; V 127638165882 12; V 127615373685 12; V 127592639053 12; V 127569959315 12; V 127547331967 12; V 12752475466 11; V 127502225185 12; V 127479741467 12; V 12745730155 11; V 127434903595 12]);
(V 204188777555 11, [V 128018829994 12; V 127986800255 12; V 127971527837 12; V 127956177873 12; V 127938633071 12; V 127919295741 12; V 127898780592 12; V 127877553782 12; V 127855925424 12; V 127834092837 12; V 127812178997 12; V 12779025941 11; V 127768379588 12; V 127746566139 12; V 127724833752 12; V 127703189601 12; V 127681636137 12; V 127660172873 12; V 127638797523 12; V 127617506747 12; V 127596296632 12; V 127575162992 12; V 127554101577 12; V 127533108192 12; V 127512178778 12; V 127491309451 12; V 127470496535 12; V 127449736561 12; V 127429026275 12; V 12740836263 11; V 127387742779 12; V 127367164062 12; V 127346623997 12; V 127326120267 12; V 127305650708 12; V 1272852133 10; V 127264806153 12; V 1272444275 10; V 127224075687 12; V 127203749164 12]);
(V 206292785571 11, [V 127671249113 12; V 127642245884 12; V 127629877461 12; V 127617372263 12; V 127602630941 12; V 127586061553 12; V 127568281302 12; V 127549758075 12; V 127530803494 12; V 127511616216 12; V 127492320376 12; V 127472992458 12; V 127453678802 12; V 127434406731 12; V 127415191556 12; V 127396041014 12; V 127376958072 12; V 127357942727 12; V 127338993153 12; V 127320106453 12; V 127301279136 12; V 12728250743 11; V 127263787484 12; V 127245115489 12; V 12722648776 11; V 127207900779 12; V 12718935122 11; V 127170835957 12; V 127152352067 12; V 127133896825 12; V 127115467694 12; V 127097062316 12; V 127078678501 12; V 127060314217 12; V 127041967574 12; V 127023636819 12; V 127005320324 12; V 126987016573 12; V 126968724158 12; V 126950441766 12]);
(V 208396793587 11, [V 1273117368 10; V 127285385238 12; V 127275610708 12; V 127265680708 12; V 127253501526 12; V 127239479757 12; V 127224230517 12; V 127208220249 12; V 127191759782 12; V 127175047404 12; V 127158207127 12; V 127141315444 12; V 127124418781 12; V 127107544589 12; V 127090708345 12; V 127073917977 12; V 127057176662 12; V 127040484625 12; V 127023840283 12; V 127007240987 12; V 126990683503 12; V 126974164317 12; V 126957679834 12; V 126941226502 12; V 126924800888 12; V 126908399724 12; V 126892019926 12; V 126875658606 12; V 126859313074 12; V 12684298083 11; V 126826659559 12; V 126810347119 12; V 12679404153 11; V 126777740963 12; V 126761443729 12; V 12674514827 11; V 126728853146 12; V 126712557029 12; V 126696258692 12; V 126679956999 12])].
Definition tt_part2 : list (dec * list dec) := [
(V 210500801603 11, [V 126946308867 12; V 126922357396 12; V 126914902612 12; V 126907275987 12; V 126897395295 12; V 126885667951 12; V 126872707424 12; V 126858978177 12; V 126844789356 12; V 126830337967 12; V 126815747079 12; V 126801092504 12; V 126786420182 12; V 12677175722 11; V 126757118869 12; V 126742512916 12; V 126727942472 12; V 126713407749 12; V 126698907191 12; V 126684438211 12; V 126669997656 12; V 126655582112 12; V 126641188097 12; V 126626812176 12; V 12661245104 11; V 126598101545 12; V 126583760735 12; V 12656942585 11; V 126555094326 12; V 126540763788 12; V 126526432045 12; V 126512097078 12; V 126497757026 12; V 126483410183 12; V 126469054976 12; V 126454689963 12; V 12644031382 11; V 126425925331 12; V 126411523381 12; V 126397106946 12]);
(V 212604809619 11, [V 126580610696 12; V 126558787196 12; V 126553375649 12; V 126547772997 12; V 126539913808 12; V 126530209351 12; V 126519272708 12; V 126507566746 12; V 126495398912 12; V 126482964739 12; V 126470386091 12; V 126457737816 12; V 126445065084 12; V 126432394395 12; V 126419740523 12; V 126407110889 12; V 126394508327 12; V 12638193284 11; V 12636938272 11; V 126356855272 12; V 126344347268 12; V 126331855244 12; V 126319375685 12; V 126306905143 12; V 126294440304 12; V 126281978027 12; V 126269515368 12; V 126257049581 12; V 126244578123 12; V 126232098644 12; V 126219608978 12; V 126207107136 12; V 126194591291 12; V 126182059766 12; V 126169511027 12; V 126156943669 12; V 126144356406 12; V 126131748063 12; V 126119117566 12; V 126106463934 12]);
(V 214708817635 11, [V 126219848407 12; V 126199768828 12; V 126196068357 12; V 126192183678 12; V 12618605413 11; V 12617808898 11; V 126168898697 12; V 126158943929 12; V 126148530339 12; V 126137852022 12; V 126127029665 12; V 12611613713 11; V 126105218755 12; V 126094300348 12; V 126083396098 12; V 126072512939 12; V 126061653298 12; V 126050816837 12; V 126040001562 12; V 126029204536 12; V 126018422322 12; V 12600765128 11; V 125996887738 12; V 125986128111 12; V 125975368963 12; V 125964607047 12; V 12595383932 11; V 12594306295 11; V 125932275314 12; V 125921473992 12; V 125910656754 12; V 125899821551 12; V 125888966506 12; V 125878089894 12; V 12586719014 11; V 125856265802 12; V 12584531556 11; V 125834338211 12; V 125823332656 12; V 125812297893 12]);
(V 216812825651 11, [V 12586845512 11; V 125849704357 12; V 125847356854 12; V 125844871527 12; V 125840172414 12; V 125833657364 12; V 125825930605 12; V 125817449289 12; V 12580851689 11; V 125799325951 12; V 125789995957 12; V 125780599789 12; V 125771180962 12; V 125761764576 12; V 125752364209 12; V 12574298626 11; V 125733632683 12; V 125724302723 12; V 125714994013 12; V 125705703277 12; V 125696426775 12; V 125687160585 12; V 125677900783 12; V 125668643546 12; V 12565938522 11; V 125650122355 12; V 125640851722 12; V 125631570311 12; V 125622275339 12; V 125612964229 12; V 125603634611 12; V 125594284302 12; V 1255849113 10; V 125575513763 12; V 125566090008 12; V 125556638488 12; V 12554715779 11; V 12553764662 11; V 125528103796 12; V 125518528239 12]);
(V 218916833667 11, [V 12552998815 11; V 125512218712 12; V 125510913972 12; V 125509528456 12; V 12550596739 11; V 125500616437 12; V 125494072907 12; V 125486789809 12; V 125479067904 12; V 125471097834 12; V 125462997678 12; V 125454839238 12; V 12544666516 11; V 125438499822 12; V 125430356182 12; V 125422240087 12; V 125414152994 12; V 125406093691 12; V 125398059385 12; V 125390046406 12; V 125382050643 12; V 125374067826 12; V 125366093703 12; V 125358124144 12; V 125350155207 12; V 125342183167 12; V 125334204537 12; V 125326216068 12; V 125318214743 12; V 125310197774 12; V 125302162583 12; V 125294106798 12; V 12528602823 11; V 125277924868 12; V 125269794863 12; V 125261636517 12; V 125253448268 12; V 125245228685 12; V 125236976453 12; V 125228690369 12]);
(V 221020841683 11, [V 125207210449 12; V 125190243169 12; V 125189739188 12; V 125189184516 12; V 125186486749 12; V 125182027309 12; V 125176398643 12; V 125170049709 12; V 125163278183 12; V 125156272444 12; V 12514914892 11; V 125141978192 12; V 125134801974 12; V 125127643895 12; V 125120516279 12; V 125113424418 12; V 125106369256 12; V 125099349104 12; V 125092360722 12; V 125085400008 12; V 125078462446 12; V 125071543375 12; V 125064638175 12; V 125057742363 12; V 125050851662 12; V 12504396203 11; V 125037069677 12; V 125030171067 12; V 125023262913 12; V 125016342164 12; V 125009406001 12; V 125002451813 12; V 124995477193 12; V 124988479917 12; V 124981457934 12; V 124974409353 12; V 124967332431 12; V 124960225561 12; V 124953087261 12; V 12494591617 11]);
(V 223124849699 11, [V 124902478497 12; V 124886146303 12; V 124886214399 12; V 124886243949 12; V 124884159463 12; V 124880342374 12; V 124875381405 12; V 124869721745 12; V 124863658064 12; V 124857376498 12; V 124850991836 12; V 124844573443 12; V 124838162101 12; V 124831780686 12; V 124825440886 12; V 124819147422 12; V 12481290072 11; V 124806698601 12; V 124800537357 12; V 124794412446 12; V 124788318923 12; V 124782251724 12; V 124776205834 12; V 124770176402 12; V 124764158794 12; V 124758148628 12; V 124752141791 12; V 124746134439 12; V 124740122989 12; V 12473410411 11; V 124728074714 12; V 124722031934 12; V 124715973118 12; V 124709895808 12; V 124703797728 12; V 124697676773 12; V 124691530994 12; V 124685358588 12; V 124679157883 12; V 124672927336 12]);
(V 225228857715 11, [V 124617753453 12; V 124601760715 12; V 124602157486 12; V 12460254665 11; V 124600855677 12; V 124597461054 12; V 124592946961 12; V 124587755386 12; V 124582178766 12; V 124576401608 12; V 124570537453 12; V 124564654662 12; V 124558793182 12; V 124552975171 12; V 124547211675 12; V 124541506833 12; V 124535860531 12; V 124530270085 12; V 12452473131 11; V 124519239211 12; V 124513788411 12; V 124508373434 12; V 124502988878 12; V 124497629512 12; V 124492290348 12; V 124486966662 12; V 124481654015 12; V 12447634825 11; V 124471045486 12; V 124465742108 12; V 12446043475 11; V 124455120287 12; V 124449795811 12; V 124444458623 12; V 124439106216 12; V 12443373626 11; V 124428346592 12; V 1244229352 10; V 124417500215 12; V 1244120399 10]);
(V 227332865731 11, [V 124354332224 12; V 124338391461 12; V 12433889755 11; V 124339451864 12; V 124337963592 12; V 124334798188 12; V 124330534923 12; V 124325613719 12; V 124320325958 12; V 124314855362 12; V 124309314725 12; V 124303771662 12; V 124298265387 12; V 124292817353 12; V 124287437948 12; V 124282130696 12; V 124276894914 12; V 12427172739 11; V 124266623448 12; V 124261577633 12; V 124256584139 12; V 124251637085 12; V 124246730683 12; V 124241859341 12; V 124237017724 12; V 124232200778 12; V 124227403749 12; V 124222622177 12; V 124217851893 12; V 124213089004 12; V 124208329878 12; V 124203571131 12; V 124198809612 12; V 124194042381 12; V 124189266703 12; V 124184480027 12; V 124179679975 12; V 124174864329 12; V 12417003102 11; V 124165178119 12]);
(V 229436873747 11, [V 124113008702 12; V 124096924804 12; V 12409736888 11; V 124097917855 12; V 124096459001 12; V 124093347259 12; V 124089158117 12; V 124084330359 12; V 124079154918 12; V 124073815067 12; V 124068423 9; V 12406304562 11; V 124057721374 12; V 12405247096 11; V 124047304043 12; V 124042223486 12; V 124037227996 12; V 12403231381 11; V 124027475748 12; V 124022707894 12; V 124018004017 12; V 12401335784 11; V 124008763208 12; V 124004214182 12; V 123999705098 12; V 123995230591 12; V 123990785612 12; V 123986365416 12; V 123981965562 12; V 123977581897 12; V 123973210537 12; V 123968847858 12; V 123964490473 12; V 123960135218 12; V 12395577914 11; V 123951419476 12; V 123947053644 12; V 123942679229 12; V 12393829397 11; V 123933895752 12]);
(V 231540881764 11, [V 123894267119 12; V 12387793567 11; V 123878167404 12; V 12387854559 11; V 123876949767 12; V 123873728391 12; V 12386945349 11; V 123864562045 12; V 123859343799 12; V 123853980989 12; V 123848584802 12; V 123843221144 12; V 123837927515 12; V 123832723729 12; V 123827618653 12; V 123822614431 12; V 123817709132 12; V 123812898424 12; V 123808176619 12; V 123803537344 12; V 123798973952 12; V 123794479786 12; V 12379004834 11; V 123785673347 12; V 123781348836 12; V 123777069154 12; V 123772828974 12; V 123768623291 12; V 123764447414 12; V 123760296947 12; V 123756167777 12; V 123752056056 12; V 12374795818 11; V 12374387078 11; V 123739790698 12; V 123735714978 12; V 123731640848 12; V 123727565708 12; V 123723487119 12; V 12371940279 11]);
(V 23364488978 10, [V 123698390812 12; V 123681687806 12; V 123681544862 12; V 123681590324 12; V 123679704161 12; V 123676228142 12; V 123671728633 12; V 123666638646 12; V 123661245124 12; V 123655728216 12; V 123650197455 12; V 123644717381 12; V 123639324339 12; V 123634037154 12; V 123628863838 12; V 123623805792 12; V 123618860441 12; V 123614022887 12; V 123609286942 12; V 123604645786 12; V 123600092374 12; V 123595619684 12; V 123591220877 12; V 123586889379 12; V 123582618931 12; V 123578403611 12; V 12357423784 11; V 123570116371 12; V 123566034282 12; V 123561986958 12; V 123557970077 12; V 123553979585 12; V 123550011686 12; V 123546062819 12; V 123542129645 12; V 12353820903 11; V 123534298029 12; V 123530393875 12; V 123526493967 12; V 123522595856 12]);
(V 235748897796 11, [V 123525343353 12; V 123508064615 12; V 123507400469 12; V 12350698593 11; V 123504690864 12; V 123500846611 12; V 123496011763 12; V 123490613971 12; V 123484936491 12; V 123479156855 12; V 123473382656 12; V 12346767694 11; V 123462074848 12; V 123456594212 12; V 123451242205 12; V 123446019512 12; V 123440922936 12; V 123435947036 12; V 123431085144 12; V 123426330015 12; V 123421674219 12; V 123417110391 12; V 123412631374 12; V 123408230304 12; V 123403900654 12; V 123399636252 12; V 123395431281 12; V 123391280274 12; V 1233871781 10; V 123383119943 12; V 123379101287 12; V 123375117899 12; V 123371165804 12; V 123367241273 12; V 123363340802 12; V 123359461097 12; V 123355599061 12; V 123351751777 12; V 123347916499 12; V 123344090636 12]);
(V 237852905812 11, [V 123374547083 12; V 123356598882 12; V 123355355183 12; V 123354419416 12; V 123351645946 12; V 123347357306 12; V 123342106379 12; V 123336316916 12; V 123330269412 12; V 123324139367 12; V 123318032808 12; V 123312011525 12; V 123306109625 12; V 123300344058 12; V 123294721244 12; V 123289241209 12; V 123283900181 12; V 123278692205 12; V 123273610163 12; V 123268646404 12; V 123263793134 12; V 123259042659 12; V 12325438752 11; V 12324982058 11; V 123245335058 12; V 123240924546 12; V 12323658301 11; V 123232304777 12; V 123228084522 12; V 123223917247 12; V 123219798265 12; V 123215723173 12; V 123211687841 12; V 123207688388 12; V 123203721163 12; V 123199782733 12; V 123195869864 12; V 123191979509 12; V 123188108791 12; V 123184254996 12]);
(V 239956913828 11, [V 123245230645 12; V 123226701377 12; V 123224903058 12; V 123223434795 12; V 12322014888 11; V 123215367292 12; V 123209642553 12; V 123203397909 12; V 123196913183 12; V 123190363088 12; V 123183852825 12; V 123177443365 12; V 123171168031 12; V 123165043053 12; V 123159074191 12; V 123153260876 12; V 123147598801 12; V 123142081535 12; V 12313670153 11; V 123131450749 12; V 123126321053 12; V 123121304431 12; V 123116393141 12; V 123111579785 12; V 123106857341 12; V 123102219182 12; V 123097659069 12; V 123093171139 12; V 12308874989 11; V 123084390156 12; V 123080087092 12; V 123075836149 12; V 123071633054 12; V 123067473789 12; V 123063354577 12; V 12305927186 11; V 123055222286 12; V 12305120269 11; V 123047210088 12; V 123043241656 12]);
(V 242060921844 11, [V 123136917018 12; V 123117862294 12; V 123115517461 12; V 123113501146 12; V 123109673177 12; V 123104359569 12; V 123098115552 12; V 12309136601 11; V 123084391505 12; V 123077366841 12; V 123070396908 12; V 123063542148 12; V 123056835275 12; V 123050291892 12; V 123043917162 12; V 123037709963 12; V 123031665488 12; V 123025776852 12; V 123020036102 12; V 123014434836 12; V 123008964584 12; V 123003617039 12; V 12299838419 11; V 122993258391 12; V 122988232397 12; V 122983299376 12; V 122978452899 12; V 122973686926 12; V 122968995793 12; V 122964374182 12; V 122959817106 12; V 122955319882 12; V 122950878109 12; V 122946487654 12; V 122942144623 12; V 12293784535 11; V 12293358638 11; V 122929364449 12; V 122925176476 12; V 122921019546 12]);
(V 24416492986 10, [V 123049244476 12; V 123029582333 12; V 123026626214 12; V 123024011675 12; V 123019598983 12; V 123013713602 12; V 123006911198 12; V 122999617318 12; V 122992112869 12; V 122984572587 12; V 122977100985 12; V 122969757961 12; V 122962575616 12; V 122955568946 12; V 122948742539 12; V 122942094752 12; V 122935620305 12; V 122929311893 12; V 122923161184 12; V 122917159439 12; V 122911297883 12; V 122905567936 12; V 122899961336 12; V 122894470211 12; V 122889087111 12; V 122883805013 12; V 122878617314 12; V 122873517816 12; V 122868500705 12; V 122863560528 12; V 122858692168 12; V 122853890824 12; V 122849151984 12; V 122844471407 12; V 122839845103 12; V 12283526931 11; V 122830740483 12; V 122826255274 12; V 12282181052 11; V 122817403227 12]);
(V 246268937876 11, [V 122981602483 12; V 122961190859 12; V 122957530702 12; V 122954254443 12; V 122949211196 12; V 122942718227 12; V 122935326822 12; V 122927460292 12; V 122919398206 12; V 122911314292 12; V 122903312192 12; V 122895451021 12; V 122887762184 12; V 122880260061 12; V 122872948701 12; V 122865825987 12; V 122858886223 12; V 122852121733 12; V 122845523859 12; V 122839083563 12; V 122832791804 12; V 122826639759 12; V 122820618944 12; V 122814721287 12; V 122808939154 12; V 12280326535 11; V 12279769312 11; V 122792216121 12; V 122786828407 12; V 122781524403 12; V 122776298879 12; V 122771146929 12; V 122766063942 12; V 122761045585 12; V 122756087781 12; V 122751186688 12; V 122746338685 12; V 122741540349 12; V 122736788448 12; V 122732079922 12]);
(V 248372945892 11, [V 12293305822 11; V 122911811216 12; V 122907393501 12; V 122903417158 12; V 122897715515 12; V 122890594192 12; V 122882597106 12; V 122874143008 12; V 122865508541 12; V 122856865478 12; V 122848316102 12; V 122839918554 12; V 122831703517 12; V 122823684812 12; V 122815866042 12; V 122808244717 12; V 122800814817 12; V 122793568382 12; V 122786496492 12; V 122779589874 12; V 122772839269 12; V 122766235653 12; V 122759770357 12; V 122753435138 12; V 1227472222 10; V 122741124206 12; V 122735134262 12; V 122729245901 12; V 122723453061 12; V 122717750061 12; V 122712131571 12; V 122706592592 12; V 122701128428 12; V 122695734667 12; V 122690407156 12; V 122685141985 12; V 122679935464 12; V 122674784111 12; V 122669684635 12; V 122664633921 12]);
(V 250476953908 11, [V 122902531924 12; V 122880481235 12; V 122875314193 12; V 122870640041 12; V 12286427983 11; V 122856529398 12; V 122847925569 12; V 122838882025 12; V 122829671901 12; V 12282046464 11; V 122811361028 12; V 122802418263 12; V 122793666425 12; V 122785118936 12; V 122776779109 12; V 122768644226 12; V 122760708065 12; V 122752962483 12; V 122745398386 12; V 122738006331 12; V 122730776899 12; V 122723700908 12; V 122716769544 12; V 12270997442 11; V 122703307612 12; V 122696761657 12; V 122690329545 12; V 122684004702 12; V 122677780967 12; V 122671652565 12; V 122665614079 12; V 122659660431 12; V 122653786851 12; V 122647988857 12; V 122642262232 12; V 122636603006 12; V 122631007433 12; V 122625471979 12; V 122619993302 12; V 122614568241 12]);
(V 252580961924 11, [V 122889109655 12; V 122866302789 12; V 122860425276 12; V 122855080522 12; V 122848080529 12; V 122839714442 12; V 122830513641 12; V 122820887436 12; V 12281110578 11; V 122801336018 12; V 122791677678 12; V 122782187254 12; V 122772894453 12; V 122763812503 12; V 122754944602 12; V 122746287943 12; V 122737836224 12; V 12272958121 11; V 122721513705 12; V 12271362416 11; V 12270590304 11; V 12269834105 11; V 122690929257 12; V 122683659163 12; V 122676522735 12; V 122669512406 12; V 122662621067 12; V 122655842053 12; V 122649169114 12; V 122642596395 12; V 122636118405 12; V 122629729996 12; V 122623426332 12; V 122617202872 12; V 122611055343 12; V 122604979722 12; V 122598972216 12; V 122593029246 12; V 122587147428 12; V 122581323562 12]);
(V 25468496994 10, [V 12289207527 11; V 122868503018 12; V 122861938006 12; V 122855947326 12; V 122848328496 12; V 122839363268 12; V 122829577976 12; V 122819378225 12; V 122809031425 12; V 122798703362 12; V 12278849271 11; V 122778455561 12; V 122768621466 12; V 122759003613 12; V 1227496052 10; V 122740423421 12; V 122731451955 12; V 122722682527 12; V 122714105882 12; V 122705712395 12; V 122697492446 12; V 122689436646 12; V 122681535967 12; V 122673781816 12; V 122666166064 12; V 122658681055 12; V 122651319594 12; V 122644074933 12; V 122636940747 12; V 122629911107 12; V 122622980458 12; V 122616143586 12; V 122609395601 12; V 122602731908 12; V 122596148184 12; V 122589640361 12; V 122583204605 12; V 122576837295 12; V 122570535014 12; V 122564294527 12]);
(V 256788977956 11, [V 122910732093 12; V 122886366115 12; V 122879115303 12; V 12287249063 11; V 122864266548 12; V 122854713865 12; V 12284435303 11; V 122833586289 12; V 122822679152 12; V 122811796389 12; V 122801036183 12; V 122790454427 12; V 122780080613 12; V 122769927927 12; V 12275999957 11; V 122750292726 12; V 122740801046 12; V 122731516204 12; V 122722428878 12; V 122713529366 12; V 122704807959 12; V 122696255175 12; V 122687861897 12; V 122679619438 12; V 122671519581 12; V 122663554582 12; V 122655717167 12; V 122648000512 12; V 122640398219 12; V 122632904294 12; V 122625513118 12; V 122618219424 12; V 122611018267 12; V 122603905002 12; V 122596875264 12; V 122589924944 12; V 122583050168 12; V 122576247283 12; V 122569512838 12; V 122562843569 12]);
(V 258892985972 11, [V 122944231684 12; V 122919132665 12; V 122911218786 12; V 122903972049 12; V 122895150944 12; V 122885016503 12; V 122874083905 12; V 122862752793 12; V 122851287451 12; V 122839852075 12; V 122828544572 12; V 122817420678 12; V 122806509777 12; V 122795824954 12; V 122785369311 12; V 122775139927 12; V 122765130339 12; V 122755332107 12; V 122745735793 12; V 122736331573 12; V 122727109626 12; V 122718060361 12; V 12270917455 11; V 122700443409 12; V 122691858624 12; V 122683412365 12; V 122675097274 12; V 122666906451 12; V 122658833428 12; V 122650872147 12; V 122643016929 12; V 122635262451 12; V 122627603719 12; V 122620036044 12; V 122612555018 12; V 122605156492 12; V 12259783656 11; V 122590591535 12; V 122583417938 12; V 122576312479 12]);
(V 260996993988 11, [V 122991703188 12; V 122966024762 12; V 122957499112 12; V 122949647843 12; V 122940235911 12; V 122929521792 12; V 122918018081 12; V 122906123083 12; V 122894100499 12; V 122882114233 12; V 122870261964 12; V 122858599187 12; V 122847155026 12; V 1228359423 10; V 12282496385 11; V 122814216508 12; V 122803693579 12; V 122793386413 12; V 122783285378 12; V 122773380478 12; V 122763661732 12; V 122754119405 12; V 122744744141 12; V 122735527035 12; V 122726459669 12; V 122717534114 12; V 122708742926 12; V 122700079123 12; V 122691536167 12; V 122683107933 12; V 122674788683 12; V 122666573039 12; V 122658455961 12; V 122650432712 12; V 122642498845 12; V 122634650175 12; V 122626882762 12; V 12261919289 11; V 122611577052 12; V 122604031932 12]);
(V 263101002004 11, [V 12305257239 11; V 123026341702 12; V 123017218902 12; V 123008769326 12; V 122998768932 12; V 122987476203 12; V 122975402449 12; V 122962945256 12; V 12295036801 11; V 12293783438 11; V 122925441744 12; V 122913245228 12; V 122901273538 12; V 122889539066 12; V 122878044243 12; V 122866785521 12; V 122855755869 12; V 122844946332 12; V 122834347016 12; V 122823947692 12; V 122813738178 12; V 122803708561 12; V 122793849329 12; V 122784151442 12; V 12277460636 11; V 122765206048 12; V 122755942967 12; V 12274681005 11; V 122737800683 12; V 122728908675 12; V 122720128227 12; V 122711453908 12; V 122702880626 12; V 122694403603 12; V 12268601835 11; V 122677720648 12; V 122669506524 12; V 122661372232 12; V 122653314239 12; V 122645329206 12]);
(V 26520501002 10, [V 123126343773 12; V 123099406506 12; V 123089639849 12; V 123080581548 12; V 123069993265 12; V 123058125915 12; V 123045487443 12; V 123032474168 12; V 123019348985 12; V 123006275238 12; V 122993349932 12; V 122980627733 12; V 122968136841 12; V 122955889133 12; V 122943886545 12; V 122932125074 12; V 122920597282 12; V 122909293855 12; V 122898204587 12; V 12288731898 11; V 122876626617 12; V 122866117387 12; V 122855781604 12; V 122845610076 12; V 122835594135 12; V 12282572563 11; V 122815996923 12; V 12280640086 11; V 122796930749 12; V 12278758033 11; V 122778343743 12; V 122769215503 12; V 122760190468 12; V 122751263818 12; V 122742431024 12; V 122733687831 12; V 122725030234 12; V 12271645446 11; V 122707956949 12; V 122699534339 12]);
(V 267309018036 11, [V 123212172076 12; V 123184422544 12; V 123173985932 12; V 123164321822 12; V 12315315665 11; V 123140727295 12; V 123127536707 12; V 123113979643 12; V 123100318517 12; V 123086716397 12; V 123073269952 12; V 123060033417 12; V 123047034496 12; V 123034284551 12; V 123021785016 12; V 123009531422 12; V 122997515907 12; V 122985728787 12; V 12297415953 11; V 122962797359 12; V 122951631614 12; V 122940651977 12; V 122929848582 12; V 122919212087 12; V 122908733688 12; V 122898405121 12; V 122888218646 12; V 122878167024 12; V 122868243485 12; V 122858441699 12; V 122848755749 12; V 122839180094 12; V 122829709545 12; V 122820339238 12; V 122811064608 12; V 122801881363 12; V 122792785467 12; V 122783773119 12; V 122774840734 12; V 122765984927 12]);
(V 269413026052 11, [V 123308962184 12; V 123280505187 12; V 123269467099 12; V 123259240955 12; V 123247529415 12; V 12323456169 11; V 123220838947 12; V 123206755953 12; V 123192575411 12; V 123178460496 12; V 123164507746 12; V 123150771083 12; V 123137277797 12; V 123124038793 12; V 123111055051 12; V 12309832167 11; V 123085830397 12; V 123073571199 12; V 123061533238 12; V 123049705471 12; V 123038077012 12; V 123026637343 12; V 123015376434 12; V 123004284794 12; V 122993353494 12; V 122982574161 12; V 122971938962 12; V 122961440572 12; V 122951072148 12; V 122940827298 12; V 122930700044 12; V 122920684795 12; V 122910776317 12; V 122900969703 12; V 122891260351 12; V 122881643936 12; V 122872116392 12; V 122862673889 12; V 122853312818 12; V 122844029771 12]);
(V 271517034068 11, [V 123415829565 12; V 1233868875 10; V 123375367479 12; V 123364644643 12; V 123352426889 12; V 123338949448 12; V 123324717776 12; V 123310129308 12; V 123295448183 12; V 123280838181 12; V 123266395928 12; V 123252175154 12; V 123238202809 12; V 123224489407 12; V 123211035528 12; V 123197835895 12; V 123184881912 12; V 123172163242 12; V 123159668782 12; V 123147387258 12; V 123135307584 12; V 123123419072 12; V 123111711541 12; V 123100175375 12; V 123088801531 12; V 123077581542 12; V 123066507485 12; V 123055571964 12; V 123044768069 12; V 123034089346 12; V 123023529766 12; V 123013083689 12; V 123002745839 12; V 122992511269 12; V 122982375341 12; V 122972333699 12; V 122962382247 12; V 122952517129 12; V 12294273471 11; V 12293303156 11]);
(V 273621042084 11, [V 123532350322 12; V 12350304013 11; V 123491098594 12; V 123479916882 12; V 12346722041 11; V 123453255938 12; V 123438535764 12; V 123423461084 12; V 123408297878 12; V 123393210636 12; V 123378296083 12; V 123363607738 12; V 123349172216 12; V 123334999652 12; V 123321090266 12; V 123307438449 12; V 12329403531 11; V 123280870256 12; V 123267931964 12; V 12325520897 11; V 123242690025 12; V 1232303643 10; V 123218221492 12; V 123206251878 12; V 123194446324 12; V 123182796278 12; V 123171293746 12; V 123159931264 12; V 123148701866 12; V 123137599044 12; V 123126616721 12; V 123115749214 12; V 123104991206 12; V 123094337715 12; V 123083784068 12; V 123073325879 12; V 123062959024 12; V 123052679621 12; V 123042484012 12; V 123032368744 12]);
(V 2757250501 9, [V 123658341223 12; V 123628561303 12; V 123616152724 12; V 123604499402 12; V 12359132731 11; V 123576886295 12; V 123561691622 12; V 123546146397 12; V 123530517466 12; V 12351496948 11; V 123499598929 12; V 123484458937 12; V 12346957568 11; V 123454958884 12; V 123440608404 12; V 123426518322 12; V 123412679489 12; V 123399081095 12; V 123385711634 12; V 123372559491 12; V 123359613286 12; V 123346862078 12; V 123334295466 12; V 123321903642 12; V 123309677395 12; V 123297608105 12; V 123285687718 12; V 123273908713 12; V 123262264073 12; V 123250747243 12; V 123239352104 12; V 123228072933 12; V 123216904375 12; V 123205841416 12; V 123194879351 12; V 123184013765 12; V 123173240505 12; V 123162555666 12; V 123151955566 12; V 123141436732 12]);
(V 277829058116 11, [V 123793388359 12; V 123762966778 12; V 123750007982 12; V 123737847163 12; V 123724188679 12; V 12370927334 11; V 123693613043 12; V 123677609511 12; V 123661528712 12; V 123645534505 12; V 123629722631 12; V 123614145533 12; V 123598828808 12; V 123583781705 12; V 123569003695 12; V 123554488554 12; V 123540226894 12; V 123526207711 12; V 123512419345 12; V 12349885005 11; V 12348548834 11; V 123472323181 12; V 123459344094 12; V 123446541197 12; V 123433905217 12; V 123421427476 12; V 123409099867 12; V 12339691482 11; V 123384865272 12; V 123372944627 12; V 123361146726 12; V 123349465809 12; V 123337896488 12; V 123326433715 12; V 123315072756 12; V 123303809168 12; V 123292638772 12; V 123281557638 12; V 123270562061 12; V 123259648547 12]);
(V 279933066132 11, [V 123936689921 12; V 123905614697 12; V 123892083633 12; V 123879401644 12; V 12386525306 11; V 12384986705 11; V 123833749382 12; V 123817298379 12; V 123800777858 12; V 12378435015 11; V 123768109844 12; V 123752108494 12; V 123736371017 12; V 123720906139 12; V 123705712932 12; V 123690784869 12; V 123676112324 12; V 123661684113 12; V 123647488426 12; V 123633513402 12; V 123619747454 12; V 123606179464 12; V 12359279888 11; V 123579595756 12; V 123566560759 12; V 123553685158 12; V 123540960795 12; V 123528380057 12; V 123515935836 12; V 123503621498 12; V 123491430844 12; V 123479358079 12; V 123467397782 12; V 123455544875 12; V 123443794593 12; V 123432142466 12; V 123420584289 12; V 123409116108 12; V 123397734196 12; V 123386435036 12]);
(V 282037074148 11, [V 124087434912 12; V 124055826485 12; V 124041777463 12; V 124028599363 12; V 124013975294 12; V 123998130474 12; V 123981566914 12; V 123964679981 12; V 123947731294 12; V 123930881567 12; V 123914224196 12; V 123897809851 12; V 123881662782 12; V 123865791212 12; V 123850193828 12; V 123834863804 12; V 123819791283 12; V 123804964892 12; V 123790372675 12; V 123776002646 12; V 123761843116 12; V 123747882879 12; V 123734111306 12; V 123720518383 12; V 123707094716 12; V 123693831519 12; V 123680720583 12; V 123667754248 12; V 123654925361 12; V 123642227248 12; V 123629653672 12; V 123617198803 12; V 123604857186 12; V 123592623709 12; V 123580493581 12; V 123568462303 12; V 123556525644 12; V 123544679625 12; V 123532920496 12; V 12352124472 11]);
(V 284141082164 11, [V 124245090153 12; V 124213025904 12; V 124198527603 12; V 124184896772 12; V 124169824847 12; V 124153540818 12; V 124136546816 12; V 124119237064 12; V 124101871906 12; V 124084610986 12; V 124067546865 12; V 12405072956 11; V 124034182809 12; V 124017914421 12; V 124001922746 12; V 123986200684 12; V 123970738146 12; V 123955523573 12; V 123940544846 12; V 123925789843 12; V 12391124676 11; V 123896904292 12; V 123882751721 12; V 123868778955 12; V 123854976533 12; V 123841335605 12; V 123827847908 12; V 123814505727 12; V 123801301866 12; V 123788229604 12; V 123775282665 12; V 123762455182 12; V 123749741663 12; V 123737136965 12; V 123724636266 12; V 123712235038 12; V 123699929025 12; V 123687714222 12; V 123675586857 12; V 12366354337 11]);
(V 28624509018 10, [V 124409259895 12; V 124376748125 12; V 124361834045 12; V 124347784463 12; V 124332292751 12; V 124315591613 12; V 124298184599 12; V 124280466155 12; V 124262696466 12; V 124245034924 12; V 124227573821 12; V 124210362896 12; V 124193425608 12; V 124176769493 12; V 124160392645 12; V 124144287722 12; V 124128444422 12; V 12411285099 11; V 124097495137 12; V 124082364594 12; V 124067447425 12; V 124052732209 12; V 124038208128 12; V 124023865002 12; V 124009693289 12; V 123995684069 12; V 123981829015 12; V 123968120355 12; V 12395455084 11; V 123941113703 12; V 123927802622 12; V 12391461169 11; V 12390153538 11; V 123888568515 12; V 123875706239 12; V 123862943995 12; V 123850277501 12; V 123837702726 12; V 123825215874 12; V 123812813364 12]);
(V 288349098196 11, [V 12457955196 11; V 124546569924 12; V 124531236908 12; V 124516783389 12; V 124500892244 12; V 124483793363 12; V 124465989881 12; V 124447876603 12; V 124429714227 12; V 124411662555 12; V 124393814116 12; V 124376218728 12; V 124358899802 12; V 124341864749 12; V 12432511149 11; V 124308632492 12; V 12429241726 11; V 124276453851 12; V 124260729807 12; V 124245232699 12; V 12422995045 11; V 124214871515 12; V 124199984962 12; V 124185280513 12; V 124170748537 12; V 124156380036 12; V 124142166612 12; V 12412810043 11; V 124114174184 12; V 124100381054 12; V 124086714674 12; V 124073169092 12; V 124059738744 12; V 124046418415 12; V 124033203218 12; V 124020088565 12; V 124007070146 12; V 123994143904 12; V 123981306019 12; V 123968552887 12]);
(V 290453106212 11, [V 124755544803 12; V 124722055597 12; V 12470628807 11; V 124691433887 12; V 124675155197 12; V 124657672583 12; V 124639486173 12; V 124620990465 12; V 1246024467 10; V 124584015316 12; V 124565789319 12; V 124547818799 12; V 124530127273 12; V 124512722132 12; V 124495601202 12; V 12447875681 11; V 124462178298 12; V 124445853558 12; V 124429769967 12; V 124413914942 12; V 124398276265 12; V 12438284226 11; V 124367601881 12; V 124352544742 12; V 124337661122 12; V 124322941937 12; V 124308378715 12; V 124293963554 12; V 124279689088 12; V 124265548444 12; V 124251535204 12; V 124237643376 12; V 124223867351 12; V 12421020188 11; V 124196642041 12; V 124183183217 12; V 124169821068 12; V 124156551511 12; V 124143370702 12; V 124130275016 12]);
(V 292557114228 11, [V 124936752623 12; V 124902744218 12; V 124886539982 12; V 124871287868 12; V 124854627917 12; V 124836770197 12; V 124818210767 12; V 124799343045 12; V 124780428341 12; V 124761627482 12; V 124743033848 12; V 124724697791 12; V 124706642964 12; V 124688876792 12; V 124671397053 12; V 124654195982 12; V 124637262793 12; V 12462058524 11; V 124604150556 12; V 124587946019 12; V 124571959277 12; V 124556178529 12; V 124540592617 12; V 124525191051 12; V 124509964017 12; V 124494902346 12; V 124479997492 12; V 124465241485 12; V 124450626896 12; V 124436146799 12; V 124421794727 12; V 12440756464 11; V 124393450892 12; V 124379448196 12; V 124365551596 12; V 124351756444 12; V 124338058371 12; V 12432445327 11; V 124310937272 12; V 124297506729 12]);
(V 294661122244 11, [V 125122661645 12; V 125088171294 12; V 125071549147 12; V 125055905572 12; V 125038868038 12; V 125020640247 12; V 125001714894 12; V 124982483799 12; V 124963207651 12; V 124944047131 12; V 124925095668 12; V 12490640371 11; V 124887994977 12; V 124869876915 12; V 124852047277 12; V 124834498231 12; V 124817218899 12; V 124800196923 12; V 12478341942 11; V 124766873544 12; V 124750546828 12; V 124734427358 12; V 124718503871 12; V 124702765782 12; V 124687203186 12; V 124671806837 12; V 124656568113 12; V 12464147898 11; V 12462653195 11; V 124611720043 12; V 124597036744 12; V 12458247597 11; V 124568032034 12; V 124553699613 12; V 124539473719 12; V 124525349673 12; V 124511323079 12; V 124497389805 12; V 124483545957 12; V 124469787868 12]);
(V 296765130261 11, [V 12531281271 11; V 12527789686 11; V 125260881432 12; V 125244854709 12; V 125227443299 12; V 125208849565 12; V 125189564135 12; V 125169977076 12; V 125150347933 12; V 12513083676 11; V 125111536689 12; V 12509249804 11; V 125073744486 12; V 125055283437 12; V 125037112603 12; V 125019224089 12; V 125001606939 12; V 124984248705 12; V 124967136401 12; V 124950257083 12; V 124933598179 12; V 124917147679 12; V 124900894226 12; V 124884827149 12; V 124868936461 12; V 124853212844 12; V 124837647608 12; V 124822232659 12; V 124806960453 12; V 124791823958 12; V 124776816617 12; V 124761932303 12; V 124747165292 12; V 124732510227 12; V 124717962088 12; V 124703516169 12; V 124689168047 12; V 124674913564 12; V 124660748807 12; V 124646670086 12]);
(V 298869138277 11, [V 125506818669 12; V 125471507443 12; V 125454113196 12; V 1254377119 10; V 125419932625 12; V 125400978308 12; V 125381338523 12; V 125361401947 12; V 125341426974 12; V 125321572867 12; V 125301932261 12; V 125282555181 12; V 125263465117 12; V 125244669355 12; V 125226165505 12; V 125207945581 12; V 125189998536 12; V 125172311828 12; V 125154872377 12; V 125137667147 12; V 125120683473 12; V 125103909259 12; V 125087333064 12; V 125070944141 12; V 125054732431 12; V 125038688549 12; V 125022803747 12; V 125007069874 12; V 124991479337 12; V 124976025058 12; V 124960700437 12; V 12494549931 11; V 124930415919 12; V 124915444874 12; V 124900581128 12; V 124885819945 12; V 12487115688 11; V 124856587753 12; V 124842108627 12; V 124827715795 12]);
(V 300973146293 11, [V 125704311872 12; V 125668600295 12; V 12565083208 11; V 125634066226 12; V 125615927971 12; V 125596619814 12; V 125576631188 12; V 12555635035 11; V 125536035107 12; V 125515844128 12; V 125495869544 12; V 12547616098 11; V 125456741616 12; V 125437618497 12; V 125418789044 12; V 125400245113 12; V 125381975521 12; V 125363967606 12; V 125346208184 12; V 125328684116 12; V 125311382651 12; V 125294291608 12; V 125277399471 12; V 12526069542 11; V 125244169336 12; V 125227811773 12; V 125211613929 12; V 125195567605 12; V 125179665163 12; V 125163899485 12; V 125148263932 12; V 125132752307 12; V 12511735882 11; V 125102078053 12; V 125086904931 12; V 125071834696 12; V 125056862878 12; V 125041985276 12; V 125027197937 12; V 125012497132 12]);
(V 303077154309 11, [V 125904911319 12; V 125868774091 12; V 12585063868 11; V 125833520689 12; V 125815033258 12; V 125795377715 12; V 125775044696 12; V 125754423373 12; V 125733771793 12; V 125713248415 12; V 12569294495 11; V 125672910553 12; V 125653167971 12; V 125633723879 12; V 12561457539 11; V 125595714111 12; V 125577128658 12; V 125558806208 12; V 125540733435 12; V 12552289709 11; V 125505284321 12; V 125487882863 12; V 125470681124 12; V 12545366822 11; V 125436833972 12; V 125420168881 12; V 125403664097 12; V 125387311376 12; V 125371103042 12; V 125355031941 12; V 1253390914 10; V 125323275192 12; V 125307577498 12; V 125291992876 12; V 125276516226 12; V 125261142767 12; V 12524586801 11; V 125230687734 12; V 125215597968 12; V 125200594968 12]);
(V 305181162325 11, [V 12610817598 11; V 126071626958 12; V 126053143825 12; V 126035687002 12; V 126016858295 12; V 125996860003 12; V 125976185683 12; V 125955226577 12; V 125934241645 12; V 125913389432 12; V 125892761294 12; V 125872405859 12; V 125852345322 12; V 125832585863 12; V 125813124175 12; V 125793951528 12; V 125775056267 12; V 125756425352 12; V 125738045289 12; V 125719902692 12; V 125701984599 12; V 125684278653 12; V 125666773188 12; V 125649457253 12; V 125632320612 12; V 125615353719 12; V 125598547679 12; V 12558189421 11; V 125565385599 12; V 12554901466 11; V 12553277469 11; V 125516659437 12; V 125500663055 12; V 125484780079 12; V 125469005388 12; V 12545333418 11; V 125437761949 12; V 125422284455 12; V 125406897711 12; V 125391597957 12]);
(V 307285170341 11, [V 126313655328 12; V 126276764327 12; V 126257960511 12; V 126240175413 12; V 126221010433 12; V 12620067272 11; V 126179660026 12; V 126158366166 12; V 126137051248 12; V 126115874005 12; V 126094925444 12; V 126074253613 12; V 126053880085 12; V 126033810462 12; V 126014040945 12; V 125994562402 12; V 125975362859 12; V 125956429027 12; V 125937747218 12; V 125919303892 12; V 125901085969 12; V 125883080995 12; V 125865277225 12; V 125847663645 12; V 125830229964 12; V 125812966589 12; V 125795864584 12; V 125778915632 12; V 125762111987 12; V 125745446433 12; V 125728912242 12; V 125712503135 12; V 125696213246 12; V 125680037086 12; V 125663969515 12; V 125648005715 12; V 12563214116 11; V 125616371596 12; V 12560069302 11; V 125585101657 12]);
(V 309389178357 11, [V 126521000752 12; V 126483804823 12; V 126464694993 12; V 126446586959 12; V 126427089766 12; V 126406417159 12; V 126385071047 12; V 126363447577 12; V 126341807866 12; V 126320310786 12; V 126299046987 12; V 126278063945 12; V 126257382611 12; V 126237008009 12; V 126216935844 12; V 126197156577 12; V 126177657909 12; V 126158426297 12; V 126139447855 12; V 126120708889 12; V 126102196198 12; V 126083897233 12; V 126065800171 12; V 126047893937 12; V 126030168187 12; V 126012613282 12; V 12599522025 11; V 125977980739 12; V 125960886972 12; V 125943931706 12; V 125927108189 12; V 125910410119 12; V 125893831608 12; V 125877367147 12; V 12586101158 11; V 12584476007 11; V 125828608074 12; V 125812551325 12; V 125796585805 12; V 125780707726 12]);
(V 311493186373 11, [V 126729871845 12; V 126692360504 12; V 126672941987 12; V 126654514123 12; V 126634691466 12; V 126613692317 12; V 126592021498 12; V 126570076829 12; V 12654812016 11; V 126526310435 12; V 126504738 9; V 126483449853 12; V 126462466428 12; V 126441792264 12; V 126421422648 12; V 126401347692 12; V 12638155482 11; V 126362030266 12; V 12634275997 11; V 126323730102 12; V 126304927349 12; V 126286339078 12; V 126267953395 12; V 126249759164 12; V 126231745995 12; V 126213904205 12; V 126196224786 12; V 126178699354 12; V 126161320103 12; V 126144079765 12; V 126126971562 12; V 126109989171 12; V 126093126684 12; V 126076378574 12; V 126059739665 12; V 126043205106 12; V 126026770338 12; V 12601043108 11; V 125994183299 12; V 125978023196 12]);
(V 313597194389 11, [V 126939856691 12; V 126902020988 12; V 126882289967 12; V 126863549699 12; V 126843413511 12; V 126822100783 12; V 126800117793 12; V 126777863426 12; V 126755600042 12; V 126733486672 12; V 126711613489 12; V 1266900272 10; V 126668747915 12; V 126647779865 12; V 126627118064 12; V 126606752393 12; V 126586670085 12; V 126566857217 12; V 126547299602 12; V 126527983306 12; V 126508894931 12; V 126490021771 12; V 126471351873 12; V 126452874051 12; V 126434577867 12; V 126416453604 12; V 126398492215 12; V 126380685286 12; V 126363024985 12; V 126345504016 12; V 126328115579 12; V 126310853328 12; V 126293711337 12; V 126276684059 12; V 126259766302 12; V 126242953198 12; V 126226240173 12; V 126209622933 12; V 126193097431 12; V 126176659856 12])].
Definition tt_part3 : list (dec * list dec) := [
(V 315701202405 11, [V 127150549343 12; V 127112373665 12; V 127092336046 12; V 127073297787 12; V 127052864434 12; V 127031254145 12; V 127008973786 12; V 126986422933 12; V 126963864361 12; V 126941457271 12; V 126919291863 12; V 126897414799 12; V 126875846109 12; V 126854589936 12; V 126833641206 12; V 126812989715 12; V 126792622613 12; V 126772525907 12; V 12675268534 11; V 126733086915 12; V 126713717181 12; V 126694563377 12; V 126675613505 12; V 126656856335 12; V 126638281391 12; V 126619878919 12; V 12660163984 11; V 12658355571 11; V 126565618667 12; V 126547821393 12; V 126530157063 12; V 126512619309 12; V 126495202185 12; V 126477900126 12; V 126460707922 12; V 12644362069 11; V 126426633841 12; V 126409743067 12; V 126392944308 12; V 126376233742 12]);
(V 317805210421 11, [V 127361558986 12; V 127323027151 12; V 127302697392 12; V 127283379291 12; V 127262666408 12; V 127240774964 12; V 127218212081 12; V 127195377831 12; V 12717253539 11; V 127149844267 12; V 127127394919 12; V 127105234221 12; V 12708338238 11; V 127061843672 12; V 127040613114 12; V 127019680559 12; V 126999033188 12; V 126978657011 12; V 126958537762 12; V 126938661424 12; V 126919014515 12; V 126899584243 12; V 126880358575 12; V 126861326245 12; V 126842476743 12; V 126823800282 12; V 126805287752 12; V 126786930679 12; V 126768721174 12; V 126750651892 12; V 126732715985 12; V 126714907063 12; V 126697219159 12; V 126679646691 12; V 126662184431 12; V 126644827479 12; V 126627571233 12; V 126610411368 12; V 126593343816 12; V 126576364739 12]);
(V 319909218437 11, [V 127572476491 12; V 127533610315 12; V 12751300921 11; V 127493429167 12; V 127472452877 12; V 127450294927 12; V 127427462583 12; V 127404356342 12; V 127381239853 12; V 127358273126 12; V 127335547116 12; V 127313109161 12; V 127290979863 12; V 127269163811 12; V 127247656261 12; V 127226447233 12; V 127205524019 12; V 127184872695 12; V 127164479026 12; V 127144329003 12; V 127124409136 12; V 127104706614 12; V 127085209377 12; V 127065906131 12; V 127046786334 12; V 127027840166 12; V 127009058487 12; V 126990432794 12; V 126971955171 12; V 126953618245 12; V 126935415146 12; V 126917339461 12; V 126899385203 12; V 126881546769 12; V 126863818916 12; V 126846196727 12; V 126828675585 12; V 126811251152 12; V 126793919345 12; V 126776676317 12]);
(V 322013226453 11, [V 127782918911 12; V 127743765478 12; V 127722915595 12; V 12770308963 11; V 127681863485 12; V 127659450849 12; V 127636359272 12; V 127612989821 12; V 127589606843 12; V 127566371109 12; V 127543374314 12; V 12752066446 11; V 127498262697 12; V 127476174048 12; V 127454394089 12; V 127432913067 12; V 127411718425 12; V 127390796333 12; V 12737013261 11; V 127349713266 12; V 127329524812 12; V 127309554423 12; V 127289790017 12; V 127270220271 12; V 127250834613 12; V 127231623192 12; V 12721257684 11; V 12719368702 11; V 12717494579 11; V 127156345753 12; V 127137880011 12; V 127119542133 12; V 127101326108 12; V 127083226316 12; V 127065237495 12; V 127047354713 12; V 127029573338 12; V 127011889019 12; V 126994297659 12; V 126976795399 12]);
(V 324117234469 11, [V 127992567508 12; V 127953145951 12; V 127932063742 12; V 127912004861 12; V 127890539224 12; V 127867880298 12; V 127844536411 12; V 127820909619 12; V 127797265332 12; V 127773765363 12; V 127750502346 12; V 127727525067 12; V 127704855295 12; V 12768249852 11; V 127660450653 12; V 12763870217 11; V 127617240666 12; V 127596052401 12; V 127575123242 12; V 127554439218 12; V 127533986838 12; V 127513753261 12; V 127493726379 12; V 127473894843 12; V 12745424805 11; V 127434776117 12; V 127415469843 12; V 127396320666 12; V 127377320615 12; V 127358462265 12; V 127339738697 12; V 127321143455 12; V 127302670509 12; V 127284314222 12; V 127266069313 12; V 127247930833 12; V 127229894138 12; V 12721195486 11; V 127194108892 12; V 127176352362 12]);
(V 326221242485 11, [V 128201104455 12; V 12816140914 11; V 128140102024 12; V 128119817684 12; V 12809811831 11; V 128075217536 12; V 128051625012 12; V 128027744234 12; V 128003841996 12; V 127980081343 12; V 127956555926 12; V 127933315326 12; V 127910381905 12; V 127887761572 12; V 127865450528 12; V 127843439438 12; V 127821716013 12; V 127800266578 12; V 127779077029 12; V 127758133399 12; V 127737422185 12; V 127716930525 12; V 127696646284 12; V 127676558081 12; V 127656655281 12; V 127636927972 12; V 127617366921 12; V 127597963538 12; V 127578709824 12; V 12755959833 11; V 127540622113 12; V 127521774697 12; V 127503050032 12; V 12748444246 11; V 127465946686 12; V 127447557745 12; V 127429270976 12; V 127411082001 12; V 127392986697 12; V 127374981182 12]);
(V 328325250501 11, [V 128408167232 12; V 12836820772 11; V 128346674926 12; V 128326164609 12; V 128304231767 12; V 128281089985 12; V 128257250223 12; V 128233117502 12; V 128208960054 12; V 128184942128 12; V 128161158318 12; V 128137658891 12; V 12811446669 11; V 12809158795 11; V 128069019075 12; V 128046750858 12; V 128024771079 12; V 128003066093 12; V 127981621801 12; V 127960424226 12; V 127939459842 12; V 127918715761 12; V 127898179817 12; V 127877840597 12; V 127857687436 12; V 127837710391 12; V 1278179002 10; V 127798248246 12; V 127778746505 12; V 127759387503 12; V 127740164277 12; V 127721070329 12; V 12770209959 11; V 127683246385 12; V 127664505402 12; V 127645871661 12; V 127627340486 12; V 127608907486 12; V 127590568525 12; V 127572319709 12]);
(V 330429258517 11, [V 128613391607 12; V 12857317766 11; V 128551410847 12; V 128530668416 12; V 128508499401 12; V 12848511627 11; V 128461030606 12; V 128436648602 12; V 128412239669 12; V 12838796904 11; V 128363932041 12; V 128340179453 12; V 128316734456 12; V 128293603497 12; V 128270783107 12; V 128248264148 12; V 128226034427 12; V 128204080307 12; V 128182387679 12; V 128160942542 12; V 128139731348 12; V 128118741179 12; V 12809795984 11; V 128077375888 12; V 128056978631 12; V 128036758095 12; V 128016704996 12; V 12799681069 11; V 127977067129 12; V 127957466819 12; V 127938002774 12; V 127918668479 12; V 127899457845 12; V 127880365182 12; V 12786138516 11; V 127842512785 12; V 127823743368 12; V 127805072501 12; V 127786496039 12; V 127768010075 12]);
(V 332533266533 11, [V 128816395246 12; V 128775916824 12; V 128753910927 12; V 128732934424 12; V 128710529816 12; V 128686907869 12; V 128662580386 12; V 128637954383 12; V 12861330014 11; V 128588783594 12; V 128564500583 12; V 128540502231 12; V 128516811942 12; V 128493436298 12; V 128470371909 12; V 128447609678 12; V 128425137426 12; V 128402941517 12; V 128381007829 12; V 128359322347 12; V 1283378715 10; V 128316642348 12; V 128295622672 12; V 128274801005 12; V 12825416663 11; V 128233709552 12; V 128213420463 12; V 128193290696 12; V 128173312184 12; V 128153477412 12; V 128133779376 12; V 128114211541 12; V 128094767803 12; V 128075442454 12; V 128056230149 12; V 12803712588 11; V 128018124942 12; V 127999222918 12; V 127980415649 12; V 127961699216 12]);
(V 334637274549 11, [V 129016711748 12; V 128975983727 12; V 128953756928 12; V 128932558789 12; V 128909927823 12; V 128886075481 12; V 128861514781 12; V 12883665377 11; V 128811763493 12; V 128787010425 12; V 12876249078 11; V 128738255936 12; V 128714329473 12; V 128690718091 12; V 128667418479 12; V 128644421589 12; V 128621715275 12; V 128599285915 12; V 128577119392 12; V 128555201689 12; V 128533519227 12; V 128512059053 12; V 128490808935 12; V 128469757388 12; V 128448893678 12; V 128428207791 12; V 1284076904 10; V 128387332819 12; V 128367126963 12; V 128347065298 12; V 128327140803 12; V 128307346925 12; V 128287677544 12; V 128268126937 12; V 128248689745 12; V 128229360945 12; V 12821013582 11; V 128191009941 12; V 128171979137 12; V 12815303948 11]);
(V 336741282565 11, [V 12921386536 11; V 129172950266 12; V 129150543464 12; V 129129148212 12; V 129106307421 12; V 129082238184 12; V 129057456765 12; V 129032372866 12; V 129007258397 12; V 128982280345 12; V 128957535259 12; V 128933074767 12; V 12890892264 11; V 128885085727 12; V 128861560834 12; V 128838339001 12; V 128815408144 12; V 128792754686 12; V 128770364542 12; V 12874822371 11; V 128726318618 12; V 128704636316 12; V 128683164563 12; V 128661891867 12; V 128640807481 12; V 128619901376 12; V 128599164208 12; V 128578587277 12; V 128558162478 12; V 128537882264 12; V 128517739595 12; V 128497727904 12; V 128477841055 12; V 128458073311 12; V 1284384193 10; V 128418873986 12; V 128399432644 12; V 128380090831 12; V 128360844369 12; V 12834168932 11]);
(V 338845290581 11, [V 129407521432 12; V 129366465415 12; V 129343909702 12; V 129322337607 12; V 129299302747 12; V 129275030786 12; V 129250042259 12; V 129224748762 12; V 129199423067 12; V 129174232628 12; V 129149274314 12; V 129124600018 12; V 129100233733 12; V 129076182499 12; V 129052443279 12; V 129029007236 12; V 129005862382 12; V 128982995212 12; V 128960391686 12; V 128938037837 12; V 128915920112 12; V 128894025568 12; V 128872341965 12; V 128850857806 12; V 128829562332 12; V 128808445505 12; V 128787497967 12; V 128766711001 12; V 128746076489 12; V 128725586868 12; V 128705235083 12; V 128685014555 12; V 128664919134 12; V 128644943073 12; V 128625080989 12; V 128605327837 12; V 128585678883 12; V 128566129677 12; V 128546676035 12; V 128527314014 12]);
(V 340949298597 11, [V 129597458794 12; V 12955624913 11; V 12953353787 11; V 129511790833 12; V 129488569418 12; V 12946410513 11; V 129438921266 12; V 129413430541 12; V 129387906191 12; V 129362515935 12; V 129337356865 12; V 129312481094 12; V 129287912826 12; V 129263659292 12; V 129239717614 12; V 129216079086 12; V 129192731824 12; V 129169662392 12; V 129146856806 12; V 12912430113 11; V 129101981831 12; V 129079885974 12; V 129058001321 12; V 129036316369 12; V 129014820351 12; V 128993503216 12; V 128972355595 12; V 128951368759 12; V 128930534577 12; V 128909845472 12; V 128889294383 12; V 128868874717 12; V 128848580319 12; V 128828405433 12; V 128808344671 12; V 128788392984 12; V 128768545633 12; V 128748798168 12; V 128729146402 12; V 128709586393 12]);
(V 343053306613 11, [V 129783416048 12; V 129742017179 12; V 12971911812 11; V 129697183804 12; V 129673775663 12; V 129649124994 12; V 129623754786 12; V 12959807744 11; V 129572365974 12; V 129546788009 12; V 129521440654 12; V 129496376102 12; V 129471618667 12; V 129447175697 12; V 129423044417 12; V 129399216209 12; V 129375679251 12; V 129352420157 12; V 129329424973 12; V 129306679783 12; V 129284171061 12; V 129261885874 12; V 12923981198 11; V 129217937869 12; V 129196252767 12; V 129174746612 12; V 129153410027 12; V 129132234274 12; V 129111211216 12; V 129090333272 12; V 129069593373 12; V 129048984927 12; V 129028501777 12; V 129008138167 12; V 128987888711 12; V 128967748363 12; V 128947712388 12; V 12892777634 11; V 128907936038 12; V 128888187546 12]);
(V 345157314629 11, [V 129965027557 12; V 129923419959 12; V 129900314096 12; V 129878184819 12; V 129854590345 12; V 129829758441 12; V 129804209891 12; V 129778355812 12; V 129752468467 12; V 129726715037 12; V 129701192378 12; V 129675952545 12; V 129651019782 12; V 1296264014 10; V 129602094611 12; V 129578090787 12; V 129554378104 12; V 129530943171 12; V 129507772028 12; V 129484850753 12; V 129462165812 12; V 129439704265 12; V 129417453864 12; V 129395403094 12; V 129373541174 12; V 129351858042 12; V 12933034432 11; V 129308991272 12; V 129287790763 12; V 129266735219 12; V 129245817578 12; V 129225031257 12; V 129204370108 12; V 129183828387 12; V 12916340072 11; V 129143082073 12; V 129122867726 12; V 129102753246 12; V 129082734465 12; V 129062807461 12]);
(V 347261322645 11, [V 130141850126 12; V 13010005283 11; V 130076759687 12; V 130054447757 12; V 130030676573 12; V 130005672945 12; V 129979956481 12; V 129953937327 12; V 129927886972 12; V 129901971978 12; V 129876288704 12; V 129850888819 12; V 129825796268 12; V 129801018142 12; V 129776551487 12; V 129752387559 12; V 12972851445 11; V 129704918711 12; V 129681586345 12; V 129658503403 12; V 12963565634 11; V 129613032209 12; V 129590618761 12; V 129568404488 12; V 129546378619 12; V 129524531105 12; V 129502852584 12; V 129481334339 12; V 129459968257 12; V 129438746784 12; V 129417662883 12; V 129396709995 12; V 129375881997 12; V 12935517317 11; V 129334578166 12; V 129314091975 12; V 129293709902 12; V 129273427537 12; V 129253240738 12; V 129233145604 12]);
(V 349365330661 11, [V 130313444497 12; V 130271515241 12; V 130248083676 12; V 130225620825 12; V 130201694561 12; V 130176536577 12; V 130150668409 12; V 130124500557 12; V 130098304138 12; V 130072245065 12; V 130046419015 12; V 130020877045 12; V 129995642605 12; V 129970722405 12; V 12994611322 11; V 129921806114 12; V 129897789056 12; V 129874048523 12; V 129850570478 12; V 12982734096 11; V 129804346428 12; V 129781573954 12; V 129759011315 12; V 129736647035 12; V 129714470383 12; V 129692471351 12; V 129670640618 12; V 129648969512 12; V 129627449965 12; V 129606074466 12; V 129584836025 12; V 129563728123 12; V 129542744682 12; V 129521880024 12; V 129501128839 12; V 129480486156 12; V 129459947317 12; V 129439507946 12; V 129419163934 12; V 129398911412 12]);
(V 351469338677 11, [V 130479459489 12; V 130437455396 12; V 130413935892 12; V 130391361779 12; V 13036731136 11; V 130342025355 12; V 130316029882 12; V 13028973694 11; V 130263417579 12; V 130237237027 12; V 130211290154 12; V 13018562729 11; V 130160271325 12; V 130135228565 12; V 130110495522 12; V 130086063108 12; V 130061919218 12; V 13003805031 11; V 13001444237 11; V 12999108148 11; V 129967954163 12; V 12994504756 11; V 129922349526 12; V 129899848664 12; V 129877534322 12; V 129855396571 12; V 129833426167 12; V 129811614514 12; V 129789953615 12; V 129768436031 12; V 129747054835 12; V 129725803575 12; V 129704676231 12; V 129683667181 12; V 129662771169 12; V 129641983277 12; V 12962129889 11; V 129600713679 12; V 129580223575 12; V 129559824746 12]);
(V 353573346693 11, [V 130639619624 12; V 130597567695 12; V 130573996984 12; V 13055135058 11; V 130527213523 12; V 130501835328 12; V 130475746684 12; V 130449360871 12; V 13042294865 11; V 13039667448 11; V 130370632473 12; V 130344872391 12; V 130319416766 12; V 130294271724 12; V 130269433732 12; V 130244893744 12; V 130220639757 12; V 130196658362 12; V 130172935693 12; V 130149457989 12; V 130126211924 12; V 130103184792 12; V 130080364589 12; V 130057740055 12; V 130035300665 12; V 130013036611 12; V 129990938763 12; V 12996899863 11; V 129947208314 12; V 129925560469 12; V 129904048254 12; V 129882665297 12; V 129861405651 12; V 129840263764 12; V 129819234445 12; V 129798312832 12; V 129777494366 12; V 129756774768 12; V 129736150014 12; V 129715616317 12]);
(V 355677354709 11, [V 130793656194 12; V 130751569101 12; V 130727977483 12; V 130705299388 12; V 130681121874 12; V 130655698444 12; V 130629560975 12; V 13060312234 11; V 13057665257 11; V 130550315607 12; V 130524205375 12; V 130498371718 12; V 13047283743 11; V 130447609001 12; V 130422683299 12; V 130398051685 12; V 130373702542 12; V 130349622817 12; V 130325798968 12; V 130302217524 12; V 130278865418 12; V 130255730176 12; V 130232800003 12; V 130210063827 12; V 130187511294 12; V 130165132747 12; V 130142919199 12; V 130120862285 12; V 130098954224 12; V 130077187776 12; V 130055556198 12; V 130034053206 12; V 130012672935 12; V 129991409907 12; V 129970258998 12; V 129949215408 12; V 129928274634 12; V 129907432449 12; V 129886684874 12; V 129866028164 12]);
(V 357781362725 11, [V 130941284872 12; V 1308991959 10; V 130875623384 12; V 130852967822 12; V 13082881124 11; V 130803401725 12; V 130777267171 12; V 130750818702 12; V 130724326301 12; V 130697954818 12; V 130671799486 12; V 13064591155 11; V 130620315121 12; V 130595017863 12; V 130570017648 12; V 130545306681 12; V 130520874045 12; V 130496707266 12; V 130472793281 12; V 130449119019 12; V 13042567175 11; V 130402439282 12; V 130379410068 12; V 130356573245 12; V 130333918646 12; V 130311436779 12; V 130289118802 12; V 130266956482 12; V 130244942154 12; V 130223068683 12; V 130201329423 12; V 130179718173 12; V 130158229148 12; V 130136856938 12; V 130115596483 12; V 130094443038 12; V 130073392154 12; V 130052439647 12; V 130031581581 12; V 13001081425 11]);
(V 359885370741 11, [V 131082265786 12; V 131040226879 12; V 131016741539 12; V 130994192192 12; V 130970136442 12; V 130944806063 12; V 130918723158 12; V 130892299618 12; V 130865808957 12; V 130839420166 12; V 130813232299 12; V 130787299797 12; V 130761649331 12; V 130736290556 12; V 130711222876 12; V 130686439667 12; V 130661930903 12; V 130637684798 12; V 130613688817 12; V 130589930304 12; V 13056639686 11; V 130543076562 12; V 130519958083 12; V 130497030747 12; V 130474284547 12; V 130451710131 12; V 130429298775 12; V 130407042356 12; V 130384933303 12; V 130362964569 12; V 13034112958 11; V 130319422208 12; V 130297836725 12; V 130276367779 12; V 130255010358 12; V 130233759761 12; V 130212611579 12; V 130191561663 12; V 130170606108 12; V 130149741235 12]);
(V 361989378758 11, [V 13121643748 11; V 131174524237 12; V 131151253199 12; V 131128927526 12; V 131105055376 12; V 131079853148 12; V 131053846449 12; V 131027457151 12; V 131000969116 12; V 130974559932 12; V 130948335178 12; V 130922354042 12; V 130896646566 12; V 130871224776 12; V 130846089727 12; V 13082123594 11; V 130796654184 12; V 130772333228 12; V 130748260925 12; V 130724424899 12; V 130700812954 12; V 130677413322 12; V 130654214796 12; V 130631206802 12; V 130608379412 12; V 130585723346 12; V 130563229946 12; V 130540891143 12; V 13051869942 11; V 130496647772 12; V 130474729672 12; V 130452939025 12; V 130431270142 12; V 130409717699 12; V 130388276712 12; V 130366942507 12; V 130345710694 12; V 130324577146 12; V 130303537976 12; V 130282589518 12]);
(V 364093386774 11, [V 131343694961 12; V 131302126939 12; V 131279268582 12; V 131257275475 12; V 131233622392 12; V 131208540859 12; V 131182583028 12; V 131156194382 12; V 131129676176 12; V 131103217799 12; V 131076932504 12; V 131050884339 12; V 13102510636 11; V 13099961241 11; V 130974404606 12; V 130949478056 12; V 130924823826 12; V 130900430803 12; V 130876286867 12; V 130852379614 12; V 130828696799 12; V 130805226597 12; V 13078195775 11; V 130758879634 12; V 130735982288 12; V 130713256401 12; V 130690693293 12; V 13066828488 11; V 130646023636 12; V 130623902552 12; V 130601915094 12; V 130580055171 12; V 130558317091 12; V 130536695535 12; V 13051518552 11; V 130493782374 12; V 130472481709 12; V 130451279402 12; V 130430171565 12; V 130409154538 12]);
(V 36619739479 10, [V 131464213306 12; V 131423410102 12; V 131401114072 12; V 131379436857 12; V 131355915451 12; V 131330850253 12; V 131304843927 12; V 131278373832 12; V 131251759844 12; V 131225201677 12; V 131198817992 12; V 131172675425 12; V 131146808035 12; V 131121229806 12; V 131095942552 12; V 131070940877 12; V 131046215276 12; V 131021754074 12; V 130997544635 12; V 130973574102 12; V 13094982984 11; V 130926299701 12; V 130902972158 12; V 130879836369 12; V 130856882193 12; V 130834100176 12; V 130811481525 12; V 130789018061 12; V 130766702184 12; V 130744526824 12; V 130722485401 12; V 130700571783 12; V 130678780246 12; V 130657105444 12; V 130635542372 12; V 13061408634 11; V 130592732944 12; V 130571478046 12; V 13055031775 11; V 13052924838 11]);
(V 368301402806 11, [V 131578949788 12; V 131539095697 12; V 131517166739 12; V 131495527632 12; V 131471883643 12; V 131446631672 12; V 131420423959 12; V 131393760805 12; V 131366971225 12; V 13134025735 11; V 131313737178 12; V 131287475407 12; V 13126150376 11; V 131235833902 12; V 131210465524 12; V 131185391371 12; V 131160600361 12; V 131136079498 12; V 13111181506 11; V 131087793298 12; V 13106400086 11; V 131040425015 12; V 131017053768 12; V 130993875902 12; V 130970880974 12; V 13094805929 11; V 130925401859 12; V 130902900349 12; V 130880547031 12; V 130858334732 12; V 130836256789 12; V 130814307 9; V 130792479586 12; V 130770769151 12; V 130749170652 12; V 130727679365 12; V 130706290859 12; V 13068500097 11; V 130663805782 12; V 130642701602 12]);
(V 370405410822 11, [V 131689486593 12; V 131649717816 12; V 131627414933 12; V 131605287278 12; V 131581167863 12; V 131555498475 12; V 131528940567 12; V 131501989643 12; V 13147496565 11; V 131448061317 12; V 131421386275 12; V 131394998195 12; V 13136892305 11; V 13134316786 11; V 131317728589 12; V 131292595008 12; V 131267753659 12; V 131243189667 12; V 131218887812 12; V 131194833165 12; V 131171011438 12; V 131147409159 12; V 131124013746 12; V 131100813519 12; V 131077797667 12; V 131054956202 12; V 131032279899 12; V 131009760238 12; V 130987389341 12; V 130965159913 12; V 130943065192 12; V 130921098895 12; V 130899255176 12; V 130877528588 12; V 130855914041 12; V 130834406773 12; V 130813002322 12; V 130791696498 12; V 130770485362 12; V 130749365202 12]);
(V 372509418838 11, [V 131796132839 12; V 131754590536 12; V 13173096856 11; V 131707863851 12; V 131683017665 12; V 131656805476 12; V 131629840179 12; V 131602581907 12; V 131575325016 12; V 131548243692 12; V 131521434015 12; V 131494943632 12; V 131468791005 12; V 131442977464 12; V 131417494629 12; V 131392328925 12; V 131367464314 12; V 131342883921 12; V 131318570975 12; V 131294509341 12; V 131270683792 12; V 131247080125 12; V 131223685188 12; V 131200486854 12; V 131177473962 12; V 131154636249 12; V 131131964276 12; V 13110944935 11; V 131087083459 12; V 131064859201 12; V 131042769728 12; V 131020808688 12; V 130998970181 12; V 130977248715 12; V 130955639164 12; V 130934136739 12; V 130912736954 12; V 1308914356 10; V 130870228723 12; V 130849112599 12]);
(V 374613426854 11, [V 131895686097 12; V 131851276043 12; V 131826032495 12; V 13180192466 11; V 131776423209 12; V 13174976832 11; V 131722497907 12; V 131695027477 12; V 131667623363 12; V 131640441367 12; V 131613565041 12; V 131587033219 12; V 131560858 9; V 131535036027 12; V 131509555411 12; V 131484399929 12; V 131459551531 12; V 131434991801 12; V 131410702796 12; V 13138666748 11; V 131362869934 12; V 131339295429 12; V 131315930409 12; V 131292762436 12; V 131269780115 12; V 131246973004 12; V 131224331524 12; V 131201846881 12; V 131179510983 12; V 131157316369 12; V 131135256147 12; V 131113323933 12; V 131091513804 12; V 131069820251 12; V 131048238136 12; V 131026762664 12; V 131005389344 12; V 130984113966 12; V 130962932576 12; V 130941841454 12]);
(V 37671743487 10, [V 131982574698 12; V 131936641349 12; V 131910656214 12; V 131886164377 12; V 131860460597 12; V 131833702615 12; V 131806387129 12; V 131778907781 12; V 131751518523 12; V 13172436765 11; V 131697533859 12; V 131671052662 12; V 131644933783 12; V 13161917211 11; V 131593754441 12; V 131568663556 12; V 131543880649 12; V 131519386739 12; V 131495163453 12; V 131471193443 12; V 131447460562 12; V 131423949919 12; V 131400647845 12; V 131377541831 12; V 131354620435 12; V 131331873191 12; V 131309290514 12; V 131286863612 12; V 131264584403 12; V 131242445444 12; V 131220439862 12; V 131198561296 12; V 131176803846 12; V 131155162029 12; V 131133630731 12; V 131112205181 12; V 131090880912 12; V 131069653739 12; V 131048519729 12; V 131027475184 12]);
(V 378821442886 11, [V 132053576014 12; V 132009025692 12; V 131983861929 12; V 131959945692 12; V 131934681124 12; V 131908273739 12; V 131881247214 12; V 131854012749 12; V 131826836313 12; V 131799874566 12; V 13177321206 11; V 131746888423 12; V 131720916293 12; V 131695292644 12; V 13167000578 11; V 131645039592 12; V 131620376111 12; V 131595996994 12; V 131571884377 12; V 131548021319 12; V 131524392009 12; V 131500981838 12; V 131477777381 12; V 131454766337 12; V 131431937449 12; V 131409280412 12; V 131386785786 12; V 131364444907 12; V 131342249811 12; V 131320193159 12; V 131298268173 12; V 13127646858 11; V 131254788558 12; V 131233222695 12; V 131211765945 12; V 131190413596 12; V 13116916124 11; V 131148004741 12; V 131126940215 12; V 131105964009 12]);
(V 380925450902 11, [V 132110878523 12; V 132069509803 12; V 132046253998 12; V 132023628654 12; V 131999306511 12; V 131973621077 12; V 131947166956 12; V 131920399208 12; V 131893612796 12; V 131866984291 12; V 131840612251 12; V 131814546324 12; V 131788806404 12; V 131763394789 12; V 131738303733 12; V 131713520096 12; V 131689028164 12; V 131664811335 12; V 131640853099 12; V 131617137589 12; V 131593649853 12; V 131570375979 12; V 131547303113 12; V 131524419429 12; V 131501714068 12; V 131479177062 12; V 13145679926 11; V 131434572248 12; V 131412488275 12; V 131390540192 12; V 131368721389 12; V 131347025739 12; V 131325447552 12; V 131303981534 12; V 131282622744 12; V 131261366569 12; V 131240208684 12; V 131219145034 12; V 131198171809 12; V 131177285421 12]);
(V 383029458918 11, [V 13215982592 11; V 132121001224 12; V 132099586864 12; V 132078346122 12; V 132055104978 12; V 132030286467 12; V 132004541596 12; V 131978364135 12; V 131952077057 12; V 13192587772 11; V 131899880272 12; V 131874146114 12; V 131848704043 12; V 13182356312 11; V 131798720773 12; V 13177416784 11; V 131749891689 12; V 131725878126 12; V 131702112539 12; V 131678580565 12; V 131655268465 12; V 131632163304 12; V 131609253031 12; V 13158652648 11; V 131563973345 12; V 13154158412 11; V 131519350048 12; V 13149726305 11; V 131475315667 12; V 131453501001 12; V 131431812662 12; V 131410244717 12; V 131388791648 12; V 131367448314 12; V 131346209913 12; V 131325071953 12; V 131304030221 12; V 131283080765 12; V 131262219866 12; V 13124144402 11]);
(V 385133466934 11, [V 132204216178 12; V 132166122076 12; V 13214568729 11; V 132125404143 12; V 132103035765 12; V 132078992499 12; V 132053928507 12; V 132028347131 12; V 132002583117 12; V 13197684554 11; V 13195125911 11; V 131925894256 12; V 131900787241 12; V 1318759532 10; V 131851394441 12; V 13182710571 11; V 131803077496 12; V 131779298106 12; V 131755754933 12; V 131732435235 12; V 131709326585 12; V 131686417125 12; V 131663695685 12; V 131641151835 12; V 131618775878 12; V 131596558827 12; V 131574492364 12; V 131552568785 12; V 131530780955 12; V 13150912226 11; V 131487586554 12; V 131466168124 12; V 131444861645 12; V 131423662146 12; V 13140256498 11; V 131381565794 12; V 131360660502 12; V 131339845266 12; V 13131911647 11; V 131298470708 12]);
(V 38723747495 10, [V 132244397761 12; V 132205891742 12; V 132185607201 12; V 132165734388 12; V 132143887024 12; V 132120396652 12; V 132095875847 12; V 132070808024 12; V 132045520442 12; V 132020221364 12; V 131995037942 12; V 131970044349 12; V 131945280888 12; V 13192076652 11; V 131896506965 12; V 131872499909 12; V 13184873832 11; V 131825212573 12; V 131801911779 12; V 131778824616 12; V 131755939837 12; V 13173324656 11; V 131710734432 12; V 131688393707 12; V 131666215267 12; V 131644190618 12; V 131622311859 12; V 131600571652 12; V 131578963176 12; V 131557480092 12; V 131536116497 12; V 131514866893 12; V 131493726146 12; V 131472689458 12; V 131451752337 12; V 13143091057 11; V 131410160199 12; V 131389497502 12; V 131368918971 12; V 131348421298 12]);
(V 389341482966 11, [V 132278932655 12; V 132239964908 12; V 132219503742 12; V 132199703233 12; V 13217809449 11; V 132154939075 12; V 132130800215 12; V 132106129965 12; V 132081237304 12; V 132056320834 12; V 132031503328 12; V 132006857642 12; V 131982424423 12; V 131958223789 12; V 131934262951 12; V 131910541139 12; V 131887052797 12; V 13186378963 11; V 131840741923 12; V 131817899371 12; V 131795251596 12; V 131772788462 12; V 131750500251 12; V 131728377761 12; V 131706412342 12; V 1316845959 10; V 131662920885 12; V 131641380263 12; V 13161996748 11; V 131598676435 12; V 131577501436 12; V 131556437172 12; V 131535478681 12; V 131514621318 12; V 131493860731 12; V 131473192836 12; V 131452613793 12; V 131432119987 12; V 131411708011 12; V 13139137465 11]);
(V 391445490982 11, [V 132306634746 12; V 132267598546 12; V 132247052899 12; V 13222726455 11; V 132205775393 12; V 132182825145 12; V 132158949577 12; V 132134577225 12; V 132109999771 12; V 132085404212 12; V 132060906088 12; V 132036574075 12; V 132012446654 12; V 13198854304 11; V 13196487029 11; V 1319414279 10; V 131918210789 12; V 131895211224 12; V 131872420064 12; V 13184982755 11; V 13182742381 11; V 131805199161 12; V 131783144287 12; V 131761250343 12; V 131739508992 12; V 131717912418 12; V 131696453316 12; V 131675124872 12; V 13165392073 11; V 131632834961 12; V 131611862037 12; V 131590996792 12; V 131570234396 12; V 131549570329 12; V 131529000351 12; V 131508520483 12; V 131488126984 12; V 131467816331 12; V 131447585202 12; V 131427430464 12]);
(V 393549498998 11, [V 13232712244 11; V 132288320758 12; V 132267911506 12; V 13224823602 11; V 132226881554 12; V 132204104116 12; V 132180438848 12; V 132156306594 12; V 132131989903 12; V 132107667705 12; V 132083449312 12; V 132059398981 12; V 13203555225 11; V 132011926497 12; V 131988527709 12; V 131965354832 12; V 13194240256 11; V 131919663137 12; V 131897127511 12; V 131874786076 12; V 131852629139 12; V 131830647201 12; V 13180883113 11; V 131787172252 12; V 13176566239 11; V 131744293877 12; V 131723059547 12; V 131701952709 12; V 131680967126 12; V 131660096979 12; V 131639336841 12; V 13161868164 11; V 13159812664 11; V 131577667402 12; V 131557299768 12; V 131537019837 12; V 131516823939 12; V 131496708621 12; V 131476670628 12; V 131456706889 12]);
(V 395653507014 11, [V 132340477434 12; V 132302046491 12; V 132281938249 12; V 132262498832 12; V 132241349395 12; V 132218772724 12; V 132195317837 12; V 132171410029 12; V 132147331173 12; V 132123257393 12; V 132099294751 12; V 132075504584 12; V 132051920105 12; V 132028556971 12; V 132005419967 12; V 13198250723 11; V 131959812938 12; V 131937329019 12; V 131915046241 12; V 131892954908 12; V 131871045287 12; V 131849307882 12; V 131827733578 12; V 131806313735 12; V 131785040214 12; V 131763905393 12; V 131742902149 12; V 131722023839 12; V 131701264274 12; V 131680617681 12; V 131660078681 12; V 131639642252 12; V 131619303702 12; V 131599058643 12; V 131578902963 12; V 131558832808 12; V 131538844554 12; V 131518934796 12; V 131499100323 12; V 131479338109 12]);
(V 39775751503 10, [V 132346926323 12; V 13230892273 11; V 132289186864 12; V 132270060352 12; V 132249180855 12; V 132226850597 12; V 132203633063 12; V 132179962017 12; V 132156123241 12; V 132132293952 12; V 132108579841 12; V 132085041273 12; V 132061710368 12; V 132038601795 12; V 13201571953 11; V 131993061092 12; V 131970620199 12; V 13194838845 11; V 131926356378 12; V 13190451412 11; V 131882851825 12; V 13186135991 11; V 131840029203 12; V 131818851016 12; V 131797817182 12; V 131776920054 12; V 131756152497 12; V 13173550786 11; V 131714979949 12; V 131694562996 12; V 131674251627 12; V 131654040832 12; V 131633925932 12; V 131613902554 12; V 131593966608 12; V 13157411426 11; V 131554341909 12; V 131534646175 12; V 131515023874 12; V 131495472005 12]);
(V 399861523046 11, [V 132346740729 12; V 132309167382 12; V 13228981248 11; V 132271027691 12; V 13225045732 11; V 132228412234 12; V 132205464357 12; V 132182054085 12; V 132158471661 12; V 132134896917 12; V 132111436847 12; V 132088152313 12; V 132065075487 12; V 132042220889 12; V 132019592275 12; V 131997186943 12; V 131974998416 12; V 131953018128 12; V 131931236478 12; V 131909643492 12; V 131888229231 12; V 131866984035 12; V 131845898664 12; V 131824964376 12; V 13180417295 11; V 1317835167 10; V 131762988451 12; V 13174258152 11; V 131722289687 12; V 131702107163 12; V 131682028556 12; V 131662048843 12; V 131642163338 12; V 131622367666 12; V 131602657735 12; V 131583029711 12; V 131563480004 12; V 131544005239 12; V 131524602244 12; V 131505268031 12]);
(V 401965531062 11, [V 132340160997 12; V 132302982728 12; V 132283998146 12; V 132265562417 12; V 13224532129 11; V 132223587702 12; V 132200936527 12; V 132177811457 12; V 132154505769 12; V 132131201725 12; V 132108008076 12; V 132084986865 12; V 132062171024 12; V 132039575539 12; V 132017204458 12; V 131995055251 12; V 131973121549 12; V 131951394848 12; V 131929865584 12; V 131908523799 12; V 131887359553 12; V 131866363177 12; V 131845525414 12; V 131824837498 12; V 131804291184 12; V 131783878755 12; V 131763593007 12; V 131743427229 12; V 131723375174 12; V 131703431029 12; V 131683589378 12; V 131663845181 12; V 131644193735 12; V 131624630652 12; V 131605151828 12; V 131585753427 12; V 131566431851 12; V 131547183725 12; V 131528005877 12; V 131508895323 12]);
(V 404069539078 11, [V 132327335133 12; V 132290545319 12; V 132271933902 12; V 132253854773 12; V 132233955743 12; V 132212550856 12; V 132190215805 12; V 132167395507 12; V 132144384842 12; V 132121367758 12; V 132098454532 12; V 132075708475 12; V 132053163518 12; V 132030835415 12; V 132008728794 12; V 131986841567 12; V 131965167703 12; V 131943698953 12; V 131922425947 12; V 131901338872 12; V 131880427898 12; V 131859683434 12; V 131839096275 12; V 13181865769 11; V 131798359455 12; V 13177819386 11; V 131758153702 12; V 131738232266 12; V 131718423294 12; V 131698720961 12; V 131679119841 12; V 131659614879 12; V 131640201361 12; V 131620874886 12; V 131601631343 12; V 131582466886 12; V 131563377911 12; V 131544361038 12; V 131525413093 12; V 13150653109 11]);
(V 406173547094 11, [V 132308407563 12; V 132272049819 12; V 132253829796 12; V 132236118492 12; V 13221657185 11; V 132195506961 12; V 132173500582 12; V 13215099838 11; V 132128296176 12; V 132105579027 12; V 132082958356 12; V 132060498544 12; V 13203823446 11; V 132016182654 12; V 131994348417 12; V 131972730205 12; V 131951322431 12; V 131930117212 12; V 131909105474 12; V 131888277643 12; V 131867624081 12; V 131847135351 12; V 131826802369 12; V 131806616498 12; V 131786569583 12; V 131766653968 12; V 13174686249 11; V 131727188459 12; V 131707625637 12; V 131688168209 12; V 131668810757 12; V 131649548226 12; V 131630375904 12; V 131611289388 12; V 131592284566 12; V 131573357588 12; V 131554504848 12; V 131535722964 12; V 13151700876 11; V 131498359251 12]);
(V 40827755511 10, [V 132283647723 12; V 132247745872 12; V 132229927247 12; V 132212590254 12; V 132193401785 12; V 132172682825 12; V 132151011662 12; V 132128834888 12; V 13210644916 11; V 132084040392 12; V 132061720863 12; V 132039555775 12; V 132017580748 12; V 131995813005 12; V 131974258426 12; V 131952915983 12; V 131931780532 12; V 131910844572 12; V 131890099356 12; V 131869535591 12; V 131849143874 12; V 131828914968 12; V 131808839955 12; V 131788910335 12; V 131769118067 12; V 131749455588 12; V 131729915807 12; V 131710492096 12; V 131691178262 12; V 131671968528 12; V 131652857504 12; V 131633840159 12; V 131614911795 12; V 131596068026 12; V 131577304745 12; V 131558618113 12; V 131540004528 12; V 131521460614 12; V 131502983199 12; V 1314845693 10]);
(V 410381563126 11, [V 132253398434 12; V 132217916485 12; V 132200488418 12; V 132183522283 12; V 132164691148 12; V 132144318413 12; V 132122983648 12; V 132101134443 12; V 132079068323 12; V 132056971963 12; V 132034958318 12; V 132013093193 12; V 131991412753 12; V 131969934714 12; V 131948665403 12; V 1319276042 10; V 131906746329 12; V 131886084624 12; V 13186561064 11; V 131845315353 12; V 1318251896 10; V 131805224353 12; V 131785410882 12; V 131765740845 12; V 131746206341 12; V 131726799924 12; V 131707514606 12; V 13168834384 11; V 131669281508 12; V 131650321891 12; V 131631459649 12; V 131612689791 12; V 131594007656 12; V 131575408882 12; V 13155688939 11; V 131538445356 12; V 131520073197 12; V 13150176955 11; V 131483531254 12; V 131465355336 12]);
(V 412485571142 11, [V 132217918718 12; V 132182825264 12; V 132165773157 12; V 132149169638 12; V 132130690078 12; V 132110659227 12; V 132089657742 12; V 132068134213 12; V 132046387016 12; V 132024603503 12; V 132002897158 12; V 131981334207 12; V 131959951175 12; V 131938766094 12; V 131917785585 12; V 131897009303 12; V 13187643274 11; V 131856048983 12; V 131835849829 12; V 131815826481 12; V 13179596999 11; V 131776271526 12; V 131756722537 12; V 131737314845 12; V 131718040694 12; V 131698892767 12; V 131679864191 12; V 13166094852 11; V 131642139723 12; V 131623432156 12; V 131604820544 12; V 131586299955 12; V 131567865775 12; V 131549513683 12; V 131531239637 12; V 131513039844 12; V 131494910746 12; V 131476849004 12; V 131458851475 12; V 131440915206 12]);
(V 414589579158 11, [V 132177374324 12; V 132142699956 12; V 132126026296 12; V 13210978072 11; V 132091645947 12; V 132071950248 12; V 132051276295 12; V 132030073969 12; V 132008642499 12; V 1319871698 10; V 131965769732 12; V 131944508786 12; V 131923423686 12; V 131902532634 12; V 131881842414 12; V 131861352843 12; V 131841059581 12; V 131820955888 12; V 131801033735 12; V 131781284503 12; V 131761699415 12; V 131742269808 12; V 131722987289 12; V 131703843831 12; V 131684831817 12; V 131665944059 12; V 131647173799 12; V 131628514697 12; V 131609960815 12; V 131591506595 12; V 131573146838 12; V 131554876676 12; V 131536691553 12; V 131518587203 12; V 131500559627 12; V 131482605071 12; V 131464720016 12; V 131446901149 12; V 131429145358 12; V 131411449712 12]);
(V 416693587174 11, [V 132131967032 12; V 132097763481 12; V 132081483327 12; V 132065595845 12; V 132047800192 12; V 13202843255 11; V 132008079498 12; V 131987192817 12; V 131966072654 12; V 131944907372 12; V 131923811053 12; V 131902850309 12; V 131882061941 12; V 131861464221 12; V 131841064002 12; V 131820861186 12; V 13180085153 11; V 131781028403 12; V 1317613839 10; V 131741909528 12; V 131722596648 12; V 131703436729 12; V 131684421513 12; V 131665543103 12; V 131646794007 12; V 131628167153 12; V 131609655895 12; V 131591253994 12; V 131572955606 12; V 13155475526 11; V 131536647832 12; V 131518628528 12; V 131500692855 12; V 131482836602 12; V 131465055822 12; V 13144734681 11; V 131429706084 12; V 131412130371 12; V 13139461659 11; V 131377161839 12]);
(V 41879759519 10, [V 132081990306 12; V 132048263574 12; V 132032382044 12; V 132016851042 12; V 131999388949 12; V 131980342698 12; V 131960304238 12; V 131939727724 12; V 131918914244 12; V 131898052484 12; V 131877256615 12; V 131856593262 12; V 131836099228 12; V 131815792796 12; V 131795680848 12; V 131775763332 12; V 131756036067 12; V 131736492501 12; V 131717124816 12; V 131697924621 12; V 131678883378 12; V 131659992667 12; V 131641244342 12; V 131622630613 12; V 131604144095 12; V 131585777822 12; V 131567525245 12; V 131549380221 12; V 131531336992 12; V 131513390169 12; V 131495534705 12; V 131477765874 12; V 131460079248 12; V 131442470677 12; V 131424936265 12; V 131407472356 12; V 131390075513 12; V 131372742503 12; V 131355470282 12; V 131338255981 12])].
Definition tt_part4 : list (dec * list dec) := [
(V 420901603206 11, [V 132027770216 12; V 131994467378 12; V 131978965754 12; V 131963781308 12; V 131946645201 12; V 131927913935 12; V 131908184556 12; V 131887913404 12; V 131867402319 12; V 131846840159 12; V 131826341085 12; V 13180597168 11; V 131785768724 12; V 131765750503 12; V 131745923929 12; V 131726288998 12; V 131706841593 12; V 131687575232 12; V 131668482179 12; V 131649554129 12; V 131630782634 12; V 131612159367 12; V 131593676273 12; V 131575325657 12; V 131557100227 12; V 131538993105 12; V 131520997829 12; V 131503108338 12; V 131485318956 12; V 131467624367 12; V 131450019595 12; V 13143249998 11; V 131415061154 12; V 131397699025 12; V 131380409749 12; V 13136318972 11; V 131346035544 12; V 131328944031 12; V 131311912174 12; V 131294937139 12]);
(V 423005611222 11, [V 131969590699 12; V 131936634047 12; V 131921476639 12; V 131906620651 12; V 13188980049 11; V 131871377855 12; V 131851952793 12; V 131831982861 12; V 131811770223 12; V 131791503741 12; V 131771297509 12; V 131751218067 12; V 131731302198 12; V 131711568229 12; V 131692023135 12; V 131672666992 12; V 131653495768 12; V 131634503071 12; V 131615681253 12; V 131597022097 12; V 131578517243 12; V 13156015845 11; V 131541937748 12; V 131523847523 12; V 131505880563 12; V 13148803007 11; V 131470289656 12; V 131452653334 12; V 131435115497 12; V 131417670895 12; V 131400314615 12; V 131383042057 12; V 131365848912 12; V 131348731137 12; V 13133168494 11; V 13131470676 11; V 131297793248 12; V 131280941253 12; V 131264147805 12; V 131247410105 12]);
(V 425109619238 11, [V 131907653824 12; V 131874994975 12; V 131860147947 12; V 131845600505 12; V 131829085693 12; V 131810965616 12; V 131791840504 12; V 131772167831 12; V 1317522496 10; V 13173227453 11; V 131712356652 12; V 131692562512 12; V 131672928957 12; V 131653474413 12; V 131634205974 12; V 13161512384 11; V 131596224095 12; V 131577500466 12; V 131558945411 12; V 131540550811 12; V 1315223084 10; V 131504210022 12; V 131486247787 12; V 13146841416 11; V 131450702 9; V 13143310458 11; V 131415615578 12; V 13139822907 11; V 131380939511 12; V 13136374171 11; V 131346630809 12; V 131329602262 12; V 131312651809 12; V 131295775455 12; V 131278969455 12; V 131262230289 12; V 131245554647 12; V 131228939418 12; V 131212381666 12; V 131195878627 12]);
(V 427213627255 11, [V 131842107889 12; V 131809757756 12; V 131795202714 12; V 131780949234 12; V 131764731228 12; V 131746908217 12; V 13172807851 11; V 131708698569 12; V 131689069927 12; V 131669381134 12; V 131649746207 12; V 13163023178 11; V 131610874837 12; V 131591693965 12; V 131572696428 12; V 131553882588 12; V 131535248685 12; V 131516788582 12; V 131498494862 12; V 131480359518 12; V 131462374383 12; V 131444531389 12; V 131426822729 12; V 131409240941 12; V 131391778954 12; V 131374430102 12; V 131357188125 12; V 131340047157 12; V 131323001706 12; V 131306046631 12; V 131289177126 12; V 131272388688 12; V 131255677103 12; V 131239038421 12; V 131222468933 12; V 131205965159 12; V 131189523828 12; V 131173141858 12; V 13115681635 11; V 131140544567 12]);
(V 429317635271 11, [V 131773137612 12; V 131741126743 12; V 131726859313 12; V 131712893436 12; V 131696966806 12; V 131679435634 12; V 131660895823 12; V 131641802703 12; V 131622457391 12; V 131603048361 12; V 131583689719 12; V 131564448258 12; V 131545361158 12; V 131526447215 12; V 131507713891 12; V 131489161737 12; V 131470787164 12; V 131452584188 12; V 131434545527 12; V 131416663291 12; V 131398929417 12; V 131381335929 12; V 1313638751 10; V 131346539542 12; V 131329322248 12; V 131312216614 12; V 131295216436 12; V 131278315898 12; V 131261509556 12; V 131244792318 12; V 131228159417 12; V 131211606395 12; V 131195129075 12; V 131178723543 12; V 131162386129 12; V 131146113384 12; V 131129902069 12; V 131113749135 12; V 13109765171 11; V 131081607085 12]);
(V 431421643287 11, [V 131701002995 12; V 131669318133 12; V 131655338244 12; V 131641659341 12; V 131626020239 12; V 131608774768 12; V 131590517501 12; V 131571703287 12; V 131552633173 12; V 131533495737 12; V 131514405264 12; V 13149542876 11; V 131476603627 12; V 131457948874 12; V 13143947217 11; V 131421174254 12; V 131403051706 12; V 131385098693 12; V 131367308066 12; V 131349672052 12; V 13133218269 11; V 131314832094 12; V 131297612618 12; V 131280516943 12; V 131263538126 12; V 13124666962 11; V 131229905273 12; V 131213239318 12; V 131196666354 12; V 131180181329 12; V 131163779519 12; V 131147456498 12; V 131131208126 12; V 131115030523 12; V 131098920046 12; V 13108287328 11; V 131066887012 12; V 13105095822 11; V 131035084059 12; V 131019261843 12]);
(V 433525651303 11, [V 131625964547 12; V 131594557473 12; V 131580864216 12; V 131567471825 12; V 131552114765 12; V 131535146444 12; V 131517161909 12; V 131498616466 12; V 1314798115 10; V 131460935858 12; V 131442104058 12; V 131423383321 12; V 13140481125 11; V 131386407049 12; V 131368178562 12; V 131350126692 12; V 131332248168 12; V 131314537291 12; V 13129698703 11; V 131279589722 12; V 131262337499 12; V 13124522256 11; V 131228237333 12; V 131211374568 12; V 131194627381 12; V 13117798928 11; V 131161454162 12; V 131145016303 12; V 131128670346 12; V 131112411276 12; V 131096234402 12; V 131080135336 12; V 131064109964 12; V 131048154437 12; V 131032265141 12; V 131016438685 12; V 131000671881 12; V 130984961732 12; V 130969305413 12; V 130953700262 12]);
(V 435629659319 11, [V 131548217542 12; V 131517069655 12; V 131503661575 12; V 131490550094 12; V 131475465137 12; V 131458762115 12; V 131441038026 12; V 131422749285 12; V 131404197857 12; V 131385572916 12; V 1313669892 10; V 131348514102 12; V 131330185377 12; V 131312022363 12; V 131294033034 12; V 131276218414 12; V 131258575344 12; V 131241098231 12; V 131223780143 12; V 131206613504 12; V 13118959053 11; V 131172703496 12; V 131155944898 12; V 131139307547 12; V 131122784618 12; V 131106369667 12; V 13109005664 11; V 131073839854 12; V 131057713991 12; V 131041674071 12; V 131025715437 12; V 131009833729 12; V 130994024863 12; V 130978285015 12; V 130962610597 12; V 130946998239 12; V 130931444776 12; V 130915947232 12; V 130900502801 12; V 13088510884 11]);
(V 437733667335 11, [V 13146793703 11; V 131437073348 12; V 131423945509 12; V 131411101601 12; V 131396273727 12; V 131379821222 12; V 131362343503 12; V 131344298167 12; V 131325987726 12; V 131307601621 12; V 131289254737 12; V 131271014566 12; V 131252918936 12; V 131234987257 12; V 131217227569 12; V 131199640963 12; V 131182224354 12; V 131164972218 12; V 131147877694 12; V 131130933278 12; V 131114131253 12; V 131097463958 12; V 13108092395 11; V 131064504097 12; V 131048197625 12; V 131031998139 12; V 131015899626 12; V 130999896447 12; V 130983983317 12; V 130968155292 12; V 130952407744 12; V 130936736341 12; V 130921137026 12; V 130905605997 12; V 13089013969 11; V 130874734755 12; V 130859388046 12; V 130844096606 12; V 130828857646 12; V 130813668539 12]);
(V 439837675351 11, [V 131385339796 12; V 131354776455 12; V 131341913753 12; V 13132931741 11; V 131314728287 12; V 131298510017 12; V 131281263893 12; V 131263448283 12; V 131245366014 12; V 131227206655 12; V 131209085135 12; V 131191068954 12; V 131173195939 12; V 131155485496 12; V 131137945674 12; V 131120577581 12; V 13110337816 11; V 131086341926 12; V 131069462065 12; V 131052731123 12; V 131036141437 12; V 131019685399 12; V 131003355621 12; V 130987145019 12; V 130971046868 12; V 130955054819 12; V 130939162899 12; V 130923365506 12; V 130907657391 12; V 130892033642 12; V 130876489658 12; V 130861021135 12; V 130845624039 12; V 130830294591 12; V 130815029246 12; V 130799824674 12; V 130784677746 12; V 130769585521 12; V 130754545224 12; V 130739554244 12]);
(V 441941683367 11, [V 131300657731 12; V 13127036746 11; V 13125774317 11; V 131245371462 12; V 131231002216 12; V 13121500202 11; V 131197973003 12; V 131180373745 12; V 131162507102 12; V 131144562606 12; V 131126655124 12; V 131108852078 12; V 131091191217 12; V 131073691883 12; V 131056362075 12; V 131039202878 12; V 131022211227 12; V 131005381651 12; V 130988707362 12; V 130972180942 12; V 130955794768 12; V 13093954128 11; V 130923413134 12; V 130907403295 12; V 130891505081 12; V 130875712184 12; V 130860018671 12; V 130844418977 12; V 130828907885 12; V 130813480512 12; V 130798132286 12; V 130782858928 12; V 130767656425 12; V 130752521021 12; V 130737449186 12; V 13072243761 11; V 13070748318 11; V 130692582966 12; V 130677734211 12; V 130662934313 12]);
(V 444045691383 11, [V 131214075584 12; V 131184009321 12; V 131171592385 12; V 131159423477 12; V 1311452567 10; V 131129459494 12; V 131112633903 12; V 131095238277 12; V 131077575263 12; V 131059834213 12; V 131042129817 12; V 131024529334 12; V 131007070366 12; V 130989772133 12; V 130972642547 12; V 130955682634 12; V 1309388893 10; V 130922257068 12; V 130905779163 12; V 130889448193 12; V 130873256572 12; V 13085719678 11; V 130841261515 12; V 130825443786 12; V 130809736952 12; V 130794134746 12; V 130778631271 12; V 130763220998 12; V 13074789874 11; V 130732659644 12; V 130717499163 12; V 130702413041 12; V 130687397289 12; V 130672448166 12; V 130657562163 12; V 130642735984 12; V 13062796653 11; V 130613250885 12; V 130598586302 12; V 130583970192 12]);
(V 446149699399 11, [V 13112572147 11; V 131095842683 12; V 13108360725 11; V 131071622751 12; V 131057643042 12; V 131042034934 12; V 131025399929 12; V 131008195923 12; V 130990725182 12; V 130973176724 12; V 130955664943 12; V 130938256839 12; V 130920989799 12; V 130903882878 12; V 130886943866 12; V 130870173711 12; V 130853569279 12; V 13083712508 11; V 130820834347 12; V 130804689713 12; V 130788683625 12; V 130772808601 12; V 130757057382 12; V 130741423017 12; V 130725898908 12; V 130710478824 12; V 130695156907 12; V 130679927658 12; V 130664785923 12; V 130649726873 12; V 130634745989 12; V 130619839035 12; V 130605002043 12; V 130590231289 12; V 13057552328 11; V 130560874734 12; V 130546282567 12; V 130531743873 12; V 130517255917 12; V 130502816119 12]);
(V 448253707415 11, [V 131035698185 12; V 131005993649 12; V 130993924426 12; V 130982110005 12; V 130968303682 12; V 130952871727 12; V 130936415205 12; V 130919391496 12; V 130902102326 12; V 130884736205 12; V 130867407084 12; V 130850181601 12; V 130833096863 12; V 130816171719 12; V 13079941382 11; V 130782824032 12; V 130766399177 12; V 130750133758 12; V 130734021018 12; V 130718053618 12; V 130702224042 12; V 130686524847 12; V 130670948818 12; V 130655489045 12; V 13064013897 11; V 1306248924 10; V 130609743513 12; V 130594686839 12; V 130579717255 12; V 130564829959 12; V 130550020453 12; V 130535284523 12; V 130520618217 12; V 130506017831 12; V 130491479886 12; V 130477001113 12; V 130462578439 12; V 130448208969 12; V 130433889978 12; V 130419618895 12]);
(V 450357715431 11, [V 130944102574 12; V 130914578932 12; V 130902671453 12; V 130891016614 12; V 130877371573 12; V 130862103838 12; V 130845814577 12; V 130828960669 12; V 13081184312 11; V 130794649731 12; V 130777493856 12; V 130760441671 12; V 130743529947 12; V 130726777307 12; V 130710191265 12; V 130693772606 12; V 130677518127 12; V 130661422329 12; V 13064547848 11; V 130629679276 12; V 130614017241 12; V 13059848498 11; V 130583075319 12; V 130567781394 12; V 130552596686 12; V 13053751504 11; V 130522530666 12; V 130507638127 12; V 130492832325 12; V 130478108483 12; V 130463462125 12; V 130448889057 12; V 130434385344 12; V 130419947297 12; V 13040557145 11; V 130391254547 12; V 130376993525 12; V 1303627855 10; V 130348627755 12; V 130334517725 12]);
(V 452461723447 11, [V 130851029844 12; V 130821708999 12; V 130809965365 12; V 130798462669 12; V 130784968819 12; V 130769855046 12; V 130753723278 12; V 130737029889 12; V 130720074985 12; V 130703045483 12; V 130686054019 12; V 130669166245 12; V 130652418582 12; V 130635829434 12; V 130619406194 12; V 130603149597 12; V 130587056431 12; V 130571121221 12; V 130555337273 12; V 130539697328 12; V 130524193963 12; V 130508819829 12; V 130493567804 12; V 130478431063 12; V 130463403131 12; V 130448477888 12; V 130433649576 12; V 130418912788 12; V 130404262453 12; V 130389693814 12; V 130375202418 12; V 130360784086 12; V 130346434901 12; V 130332151186 12; V 13031792949 11; V 130303766566 12; V 130289659361 12; V 130275605 9; V 130261600774 12; V 130247644125 12]);
(V 454565731463 11, [V 130756589069 12; V 130727491321 12; V 130715912007 12; V 130704555801 12; V 130691205874 12; V 130676238563 12; V 130660256803 12; V 130643716388 12; V 130626916412 12; V 130610042839 12; V 130593207574 12; V 130576475769 12; V 130559883538 12; V 130543449118 12; V 130527179831 12; V 130511076404 12; V 130495135652 12; V 130479352148 12; V 130463719256 12; V 130448229777 12; V 130432876346 12; V 130417651669 12; V 130402548673 12; V 130387560581 12; V 130372680954 12; V 13035790371 11; V 130343223122 12; V 130328633809 12; V 130314130723 12; V 130299709132 12; V 130285364597 12; V 130271092958 12; V 130256890311 12; V 130242752993 12; V 130228677562 12; V 130214660783 12; V 130200699612 12; V 13018679118 11; V 130172932786 12; V 130159121879 12]);
(V 456669739479 11, [V 130660916825 12; V 130632029146 12; V 130620606054 12; V 130609391858 12; V 130596182334 12; V 13058135771 11; V 130565521421 12; V 130549128544 12; V 130532477208 12; V 130515752553 12; V 130499065901 12; V 130482482051 12; V 130466036933 12; V 130449748721 12; V 130433624747 12; V 130417665788 12; V 130401868734 12; V 130386228234 12; V 130370737732 12; V 130355390102 12; V 130340178045 12; V 130325094329 12; V 130310131929 12; V 130295284114 12; V 130280544486 12; V 130265906994 12; V 130251365941 12; V 130236915972 12; V 130222552061 12; V 130208269494 12; V 130194063849 12; V 13017993098 11; V 130165866998 12; V 130151868249 12; V 130137931303 12; V 130124052932 12; V 1301102301 10; V 130096459947 12; V 130082739777 12; V 130069067044 12]);
(V 458773747495 11, [V 130564141857 12; V 130535412867 12; V 130524132018 12; V 130513057868 12; V 130499989591 12; V 130485307826 12; V 130469615421 12; V 130453366655 12; V 130436858974 12; V 130420277055 12; V 13040373197 11; V 130387288429 12; V 130370982384 12; V 130354832094 12; V 130338845007 12; V 130323022026 12; V 130307360161 12; V 130291854174 12; V 130276497609 12; V 130261283424 12; V 130246204395 12; V 130231253351 12; V 13021642332 11; V 130201707615 12; V 130187099874 12; V 13017259408 11; V 130158184562 12; V 130143865986 12; V 130129633348 12; V 130115481949 12; V 130101407383 12; V 130087405518 12; V 130073472475 12; V 130059604611 12; V 130045798503 12; V 130032050933 12; V 130018358873 12; V 130004719467 12; V 129991130026 12; V 129977588009 12]);
(V 460877755511 11, [V 130466326826 12; V 130437715403 12; V 130426568614 12; V 130415637179 12; V 130402714821 12; V 130388178945 12; V 130372630787 12; V 130356523954 12; V 130340155721 12; V 130323710848 12; V 130307300616 12; V 130290989996 12; V 13027481521 11; V 130258794775 12; V 130242936372 12; V 130227241107 12; V 13021170616 11; V 130196326438 12; V 1301810956 10; V 130166006703 12; V 130151052599 12; V 130136226181 12; V 130121520529 12; V 130106928998 12; V 130092445262 12; V 130078063331 12; V 130063777559 12; V 130049582635 12; V 130035473568 12; V 130021445677 12; V 13000749457 11; V 129993616124 12; V 12997980647 11; V 129966061976 12; V 129952379226 12; V 12993875501 11; V 129925186305 12; V 129911670262 12; V 129898204196 12; V 129884785573 12]);
(V 462981763527 11, [V 130367491026 12; V 130339005563 12; V 130327997508 12; V 130317215424 12; V 130304444893 12; V 130290058249 12; V 130274654693 12; V 130258687521 12; V 130242454449 12; V 130226140906 12; V 130209858853 12; V 130193673865 12; V 130177622677 12; V 130161724227 12; V 130145986532 12; V 13013041097 11; V 130114994934 12; V 130099733499 12; V 130084620455 12; V 130069648962 12; V 130054811953 12; V 130040102382 12; V 130025513382 12; V 130011038347 12; V 129996670981 12; V 129982405323 12; V 129968235747 12; V 12995415696 11; V 129940163988 12; V 129926252162 12; V 129912417102 12; V 129898654694 12; V 129884961079 12; V 129871332633 12; V 129857765948 12; V 129844257818 12; V 129830805228 12; V 129817405335 12; V 129804055457 12; V 129790753066 12]);
(V 465085771543 11, [V 130267700588 12; V 130239370818 12; V 130228511772 12; V 130217884346 12; V 130205268325 12; V 13019103115 11; V 130175770159 12; V 130159938735 12; V 130143835501 12; V 130127646984 12; V 130111486159 12; V 130095419453 12; V 13007948428 11; V 130063700112 12; V 130048075378 12; V 13003261177 11; V 130017306923 12; V 130002156093 12; V 129987153208 12; V 129972291534 12; V 129957564082 12; V 12994296387 11; V 129928484077 12; V 129914118132 12; V 129899859771 12; V 129885703056 12; V 129871642378 12; V 129857672462 12; V 129843788347 12; V 129829985376 12; V 129816259178 12; V 129802605649 12; V 129789020939 12; V 129775501429 12; V 129762043718 12; V 129748644608 12; V 129735301088 12; V 12972201032 11; V 129708769628 12; V 129695576487 12]);
(V 467189779559 11, [V 130167089341 12; V 130138924552 12; V 130128216366 12; V 130117740412 12; V 13010527386 11; V 130091180304 12; V 13007605551 11; V 130060353057 12; V 130044372569 12; V 13002830176 11; V 130012254702 12; V 129996298741 12; V 129980472024 12; V 129964794589 12; V 129949275298 12; V 129933916172 12; V 129918715091 12; V 129903667494 12; V 129888767449 12; V 129874008321 12; V 129859383199 12; V 129844885157 12; V 129830507419 12; V 129816243448 12; V 129802087005 12; V 129788032172 12; V 129774073361 12; V 129760205307 12; V 129746423063 12; V 129732721981 12; V 129719097701 12; V 129705546126 12; V 129692063413 12; V 12967864595 11; V 129665290344 12; V 129651993401 12; V 129638752114 12; V 129625563652 12; V 129612425343 12; V 129599334666 12]);
(V 469293787575 11, [V 130065800505 12; V 130037789026 12; V 130027217683 12; V 130016877614 12; V 130004545745 12; V 129990582739 12; V 129975582766 12; V 12995999924 11; V 129944132394 12; V 129928170824 12; V 129912229489 12; V 129896376517 12; V 129880650704 12; V 129865072601 12; V 129849651471 12; V 129834389636 12; V 129819285207 12; V 129804333794 12; V 129789529591 12; V 129774866057 12; V 129760336351 12; V 129745933601 12; V 129731651067 12; V 129717482246 12; V 12970342092 11; V 12968946119 11; V 129675597483 12; V 129661824548 12; V 129648137448 12; V 129634531544 12; V 129621002484 12; V 12960754618 11; V 129594158795 12; V 129580836725 12; V 12956757658 11; V 129554375173 12; V 129541229504 12; V 129528136745 12; V 129515094228 12; V 129502099438 12]);
(V 471397795591 11, [V 129963948216 12; V 12993606832 11; V 129925607194 12; V 12991537735 11; V 129903157524 12; V 129889306171 12; V 129874415579 12; V 129858938268 12; V 129843174314 12; V 129827312576 12; V 129811468457 12; V 129795710569 12; V 129780078157 12; V 129764592159 12; V 129749262153 12; V 129734090711 12; V 129719076133 12; V 129704214176 12; V 129689499141 12; V 129674924571 12; V 129660483685 12; V 129646169656 12; V 12963197578 11; V 129617895578 12; V 129603922856 12; V 12959005173 11; V 129576276641 12; V 12956259235 11; V 129548993928 12; V 129535476748 12; V 129522036464 12; V 129508668997 12; V 129495370515 12; V 12948213742 11; V 12946896633 11; V 129455854062 12; V 129442797621 12; V 129429794185 12; V 129416841091 12; V 129403935826 12]);
(V 473501803607 11, [V 129861602986 12; V 129833827704 12; V 12982344807 11; V 129813300127 12; V 129801166948 12; V 129787405987 12; V 12977260754 11; V 129757222483 12; V 129741549885 12; V 129725778144 12; V 129710022567 12; V 129694351871 12; V 129678805496 12; V 129663404596 12; V 129648158948 12; V 129633071298 12; V 129618140084 12; V 129603361175 12; V 129588728957 12; V 129574237039 12; V 129559878688 12; V 129545647117 12; V 12953153565 11; V 129517537832 12; V 129503647487 12; V 129489858747 12; V 129476166064 12; V 12946256421 11; V 129449048268 12; V 129435613617 12; V 12942225592 11; V 129408971105 12; V 129395755348 12; V 129382605056 12; V 129369516853 12; V 129356487562 12; V 129343514194 12; V 129330593931 12; V 129317724116 12; V 12930490224 11]);
(V 475605811623 11, [V 129758772703 12; V 1297310882 10; V 129720771303 12; V 129710682727 12; V 129698614072 12; V 129684924057 12; V 129670201493 12; V 12965489525 11; V 129639302776 12; V 129623611421 12; V 129607935925 12; V 129592344765 12; V 129576877326 12; V 1295615548 10; V 129546387048 12; V 129531376901 12; V 129516522884 12; V 129501820933 12; V 129487265497 12; V 129472850228 12; V 129458568435 12; V 129444413358 12; V 129430378347 12; V 129416456966 12; V 129402643054 12; V 129388930757 12; V 129375314541 12; V 129361789188 12; V 129348349788 12; V 129334991732 12; V 129321710689 12; V 129308502595 12; V 129295363632 12; V 129282290215 12; V 129269278974 12; V 129256326739 12; V 129243430524 12; V 129230587518 12; V 129217795069 12; V 129205050672 12]);
(V 477709819639 11, [V 129655418022 12; V 129627839034 12; V 129617582254 12; V 129607541619 12; V 12959552308 11; V 129581889726 12; V 129567230092 12; V 129551991293 12; V 129536469006 12; V 12952084927 11; V 129505245991 12; V 129489727172 12; V 129474331958 12; V 129459081444 12; V 129443985464 12; V 129429046863 12; V 129414264195 12; V 129399633431 12; V 129385149049 12; V 129370804735 12; V 129356593819 12; V 129342509567 12; V 129328545345 12; V 129314694735 12; V 12930095159 11; V 12928731007 11; V 129273764651 12; V 129260310124 12; V 129246941593 12; V 129233654453 12; V 129220444385 12; V 129207307331 12; V 129194239482 12; V 129181237258 12; V 129168297297 12; V 129155416434 12; V 129142591691 12; V 129129820261 12; V 129117099497 12; V 129104426901 12]);
(V 479813827655 11, [V 129551506036 12; V 129524060184 12; V 129513873291 12; V 129503880521 12; V 129491906826 12; V 129478322496 12; V 129463717368 12; V 129448537611 12; V 129433077507 12; V 1294175219 10; V 129401983855 12; V 129386530828 12; V 12937120164 11; V 129356017201 12; V 129340987249 12; V 129326114585 12; V 129311397748 12; V 129296832712 12; V 129282413965 12; V 129268135205 12; V 129253989779 12; V 129239970965 12; V 129226072147 12; V 129212286919 12; V 129198609148 12; V 129185033004 12; V 129171552975 12; V 129158163864 12; V 129144860783 12; V 129131639138 12; V 129118494618 12; V 129105423173 12; V 129092421002 12; V 129079484534 12; V 129066610412 12; V 12905379548 11; V 129041036764 12; V 129028331464 12; V 12901567694 11; V 129003070696 12]);
(V 481917835671 11, [V 12944703684 11; V 129419739749 12; V 129409636095 12; V 129399698771 12; V 129387772224 12; V 129374235361 12; V 129359680738 12; V 129344554699 12; V 129329150878 12; V 129313653368 12; V 129298174601 12; V 129282781577 12; V 129267512801 12; V 129252388978 12; V 129237419718 12; V 129222607746 12; V 129207951559 12; V 129193447107 12; V 129179088875 12; V 129164870561 12; V 12915078552 11; V 129136827038 12; V 129122988511 12; V 129109263544 12; V 129095646016 12; V 129082130109 12; V 129068710323 12; V 129055381472 12; V 129042138677 12; V 129028977355 12; V 129015893204 12; V 129002882184 12; V 128989940501 12; V 128977064593 12; V 128964251111 12; V 128951496904 12; V 128938799007 12; V 128926154627 12; V 128913561127 12; V 12890101602 11]);
(V 484021843687 11, [V 129342026383 12; V 129314879356 12; V 129304869287 12; V 129294997555 12; V 129283124661 12; V 129269637735 12; V 129255132904 12; V 129240057767 12; V 129224706197 12; V 129209262125 12; V 129193837713 12; V 129178499688 12; V 129163286327 12; V 129148218165 12; V 129133304686 12; V 129118548533 12; V 129103948148 12; V 129089499452 12; V 129075196911 12; V 129061034219 12; V 129047004733 12; V 129033101745 12; V 12901931866 11; V 129005649093 12; V 128992086937 12; V 128978626384 12; V 128965261945 12; V 128951988447 12; V 128938801022 12; V 128925695097 12; V 128912666381 12; V 128899710843 12; V 128886824698 12; V 128874004393 12; V 128861246587 12; V 128848548138 12; V 128835906086 12; V 128823317645 12; V 128810780187 12; V 128798291228 12]);
(V 486125851703 11, [V 129236498332 12; V 129209493416 12; V 129199580645 12; V 129189782629 12; V 129177970358 12; V 129164537284 12; V 129150083204 12; V 129135057731 12; V 129119755739 12; V 129104361576 12; V 129088987504 12; V 129073700206 12; V 129058537861 12; V 129043520897 12; V 12902865871 11; V 12901395387 11; V 128999404772 12; V 128985007306 12; V 12897075592 11; V 128956644301 12; V 128942665806 12; V 128928813735 12; V 128915081498 12; V 128901462725 12; V 128887951317 12; V 12887454148 11; V 128861227739 12; V 128848004931 12; V 128834868201 12; V 128821812989 12; V 128808835011 12; V 12879593025 11; V 128783094929 12; V 128770325506 12; V 128757618646 12; V 128744971217 12; V 128732380267 12; V 128719843017 12; V 128707356844 12; V 128694919273 12]);
(V 488229859719 11, [V 129130496663 12; V 129103606792 12; V 129093785115 12; V 129084063708 12; V 129072316601 12; V 129058940517 12; V 129044538305 12; V 129029561875 12; V 12901430757 11; V 128998960567 12; V 128983633532 12; V 128968393308 12; V 128953278107 12; V 128938308332 12; V 128923493337 12; V 128908835653 12; V 128894333642 12; V 128879983171 12; V 128865778678 12; V 128851713847 12; V 128837782036 12; V 128823976552 12; V 128810290818 12; V 128796718472 12; V 12878325343 11; V 128769889913 12; V 128756622457 12; V 128743445913 12; V 128730355439 12; V 128717346486 12; V 128704414785 12; V 128691556327 12; V 128678767348 12; V 128666044313 12; V 128653383899 12; V 128640782981 12; V 128628238616 12; V 128615748032 12; V 128603308614 12; V 128590917895 12]);
(V 490333867735 11, [V 129024075141 12; V 128997248081 12; V 128987500096 12; V 128977851764 12; V 128966170492 12; V 128952852449 12; V 128938502351 12; V 12892357421 11; V 128908365961 12; V 1288930638 10; V 128877780976 12; V 128862584636 12; V 128847513129 12; V 128832586914 12; V 128817815356 12; V 128803200981 12; V 128788742142 12; V 128774434703 12; V 128760273099 12; V 128746251018 12; V 128732361826 12; V 12871859884 11; V 128704955495 12; V 128691425445 12; V 12867800262 11; V 128664681254 12; V 1286514559 10; V 128638321422 12; V 128625272992 12; V 128612306076 12; V 128599416416 12; V 128586600014 12; V 128573853118 12; V 128561172205 12; V 128548553959 12; V 128535995266 12; V 128523493191 12; V 128511044971 12; V 128498647998 12; V 128486299811 12]);
(V 492437875752 11, [V 128917260145 12; V 128890437937 12; V 128880739717 12; V 128871155776 12; V 128859537236 12; V 12884627586 11; V 12883197679 11; V 128817095602 12; V 128801931651 12; V 128786672135 12; V 128771430937 12; V 128756275575 12; V 128741244612 12; V 128726358618 12; V 128711627017 12; V 128697052368 12; V 12868263304 11; V 128668364911 12; V 128654242427 12; V 12864025929 11; V 128626408879 12; V 128612684526 12; V 128599079683 12; V 128585588019 12; V 128572203481 12; V 128558920322 12; V 128545733107 12; V 12853263672 11; V 128519626345 12; V 128506697462 12; V 128493845826 12; V 128481067453 12; V 128468358603 12; V 128455715762 12; V 128443135626 12; V 12843061509 11; V 128418151228 12; V 128405741286 12; V 128393382663 12; V 128381072906 12]);
(V 494541883768 11, [V 128810031464 12; V 128783179536 12; V 128773510362 12; V 128763980218 12; V 128752418707 12; V 128739210567 12; V 128724960091 12; V 128710123745 12; V 128695001956 12; V 128679782763 12; V 128664580632 12; V 128649463464 12; V 12863447006 11; V 128619621142 12; V 128604926226 12; V 12859038793 11; V 128576004665 12; V 128561772338 12; V 128547685419 12; V 128533737632 12; V 128519922376 12; V 128506233004 12; V 128492662986 12; V 128479206012 12; V 128465856048 12; V 128452607362 12; V 12843945454 11; V 12842639248 11; V 128413416383 12; V 128400521744 12; V 128387704331 12; V 128374960174 12; V 128362285545 12; V 12834967694 11; V 128337131069 12; V 128324644834 12; V 12831221532 11; V 128299839781 12; V 128287515624 12; V 128275240405 12]);
(V 496645891784 11, [V 128702337739 12; V 128675458636 12; V 128665809381 12; V 128656323935 12; V 128644812628 12; V 12863165288 11; V 128617447418 12; V 128602652998 12; V 128587570716 12; V 12857238923 11; V 128557223478 12; V 128542141698 12; V 12852718293 11; V 128512368051 12; V 128497706691 12; V 128483201541 12; V 128468851069 12; V 128454651222 12; V 128440596506 12; V 12842668067 11; V 128412897143 12; V 128399239301 12; V 128385700635 12; V 128372274859 12; V 128358955957 12; V 128345738219 12; V 128332616248 12; V 128319584959 12; V 128306639571 12; V 128293775594 12; V 128280988811 12; V 128268275264 12; V 128255631239 12; V 128243053243 12; V 128230537998 12; V 128218082415 12; V 128205683591 12; V 128193338787 12; V 12818104542 11; V 128168801052 12]);
(V 4987498998 9, [V 128594127774 12; V 128567253235 12; V 12855762704 11; V 12854818021 11; V 128536712195 12; V 12852359515 11; V 128509430231 12; V 128494674075 12; V 128479628094 12; V 128464481326 12; V 128449349044 12; V 128434299751 12; V 128419372683 12; V 128404588866 12; V 128389958033 12; V 128375482955 12; V 128361162159 12; V 128346991638 12; V 128332965937 12; V 128319078841 12; V 128305323804 12; V 128291694231 12; V 12827818364 11; V 128264785765 12; V 128251494613 12; V 128238304495 12; V 128225210034 12; V 128212206162 12; V 128199288116 12; V 128186451421 12; V 128173691875 12; V 128161005536 12; V 128148388699 12; V 128135837888 12; V 128123349831 12; V 128110921455 12; V 128098549863 12; V 128086232327 12; V 128073966273 12; V 12806174927 11]);
(V 500853907816 11, [V 128485378054 12; V 128458544752 12; V 128448949589 12; V 128439537215 12; V 128428105761 12; V 128415025252 12; V 128400895766 12; V 128386173616 12; V 12837116025 11; V 12835604487 11; V 128340942937 12; V 128325923123 12; V 128311024802 12; V 128296269109 12; V 128281665862 12; V 128267217902 12; V 128252923807 12; V 128238779618 12; V 128224779917 12; V 128210918522 12; V 128197188921 12; V 128183584545 12; V 128170098939 12; V 12815672586 11; V 128143459339 12; V 128130293709 12; V 128117223611 12; V 128104243998 12; V 128091350123 12; V 128078537526 12; V 128065802023 12; V 128053139684 12; V 128040546819 12; V 128028019963 12; V 128015555857 12; V 128003151437 12; V 127990803817 12; V 127978510278 12; V 127966268255 12; V 127954075327 12]);
(V 502957915832 11, [V 12837609385 11; V 128349320789 12; V 128339760415 12; V 128330377906 12; V 128318976249 12; V 1283059259 10; V 128291826416 12; V 128277133687 12; V 128262148978 12; V 128247061466 12; V 128231986655 12; V 128216993278 12; V 128202120775 12; V 128187390341 12; V 128172811848 12; V 128158388181 12; V 128144117963 12; V 128129997271 12; V 128116020724 12; V 128102182172 12; V 128088475132 12; V 128074893065 12; V 12806142954 11; V 128048078341 12; V 128034833523 12; V 128021689438 12; V 128008640749 12; V 127995682428 12; V 127982809744 12; V 127970018256 12; V 127957303793 12; V 12794466244 11; V 127932090522 12; V 127919584584 12; V 127907141381 12; V 127894757858 12; V 127882431141 12; V 12787015852 11; V 127857937439 12; V 127845765485 12]);
(V 505061923848 11, [V 128266276639 12; V 128239566818 12; V 128230037863 12; V 128220678947 12; V 128209300304 12; V 128196273954 12; V 128182199185 12; V 128167531374 12; V 128152571427 12; V 128137508329 12; V 128122457492 12; V 128107487611 12; V 128092638118 12; V 128077930213 12; V 128063373787 12; V 12804897175 11; V 128034722751 12; V 128020622897 12; V 128006666836 12; V 127992848448 12; V 127979161279 12; V 127965598817 12; V 127952154659 12; V 127938822613 12; V 127925596755 12; V 127912471462 12; V 127899441416 12; V 127886501608 12; V 127873647325 12; V 127860874143 12; V 127848177906 12; V 127835554715 12; V 127823000905 12; V 127810513037 12; V 127798087876 12; V 12778572238 11; V 127773413683 12; V 127761159086 12; V 127748956043 12; V 127736802148 12]);
(V 507165931864 11, [V 12815589622 11; V 128129255029 12; V 128119751385 12; V 128110409281 12; V 128099047601 12; V 128086040005 12; V 128071985441 12; V 128057338648 12; V 128042400037 12; V 128027358272 12; V 128012328569 12; V 127997379505 12; V 127982550444 12; V 127967862554 12; V 127953325713 12; V 127938942838 12; V 127924712593 12; V 127910631107 12; V 127896693054 12; V 127882892341 12; V 127869222542 12; V 127855677171 12; V 127842249852 12; V 127828934417 12; V 127815724968 12; V 1278026159 10; V 127789601917 12; V 12777667803 11; V 127763839544 12; V 127751082051 12; V 127738401411 12; V 127725793738 12; V 127713255383 12; V 127700782919 12; V 127688373123 12; V 127676022963 12; V 127663729586 12; V 127651490301 12; V 12763930257 11; V 127627164 9]);
(V 50926993988 10, [V 128044901704 12; V 128018340926 12; V 128008859536 12; V 127999529641 12; V 12798818093 11; V 127975188627 12; V 12796115119 11; V 127946522623 12; V 127931602771 12; V 12791657991 11; V 127901569009 12; V 127886638489 12; V 127871827618 12; V 127857157511 12; V 127842638026 12; V 127828272076 12; V 127814058337 12; V 127799992957 12; V 127786070636 12; V 127772285306 12; V 127758630569 12; V 127745099967 12; V 127731687149 12; V 127718385973 12; V 127705190564 12; V 127692095341 12; V 127679095027 12; V 127666184652 12; V 127653359541 12; V 127640615301 12; V 127627947808 12; V 127615353193 12; V 127602827819 12; V 127590368271 12; V 12757797134 11; V 127565634005 12; V 127553353422 12; V 127541126912 12; V 127528951947 12; V 127516826141 12]);
(V 511373947896 11, [V 127933245989 12; V 127906769699 12; V 127897312157 12; V 127887994059 12; V 127876657491 12; V 12786367946 11; V 12784965794 11; V 12783504623 11; V 127820143632 12; V 127805138062 12; V 127790144258 12; V 127775230497 12; V 127760435967 12; V 127745781743 12; V 127731277667 12; V 127716926658 12; V 12770272741 11; V 127688676093 12; V 127674767434 12; V 127660995397 12; V 127647353612 12; V 127633835649 12; V 127620435184 12; V 127607146103 12; V 127593962553 12; V 127580878976 12; V 127567890118 12; V 127554991028 12; V 127542177048 12; V 127529443803 12; V 127516787187 12; V 127504203343 12; V 127491688649 12; V 127479239705 12; V 127466853312 12; V 127454526461 12; V 127442256321 12; V 127430040222 12; V 127417875645 12; V 127405760214 12]);
(V 513477955912 11, [V 127820888299 12; V 127794486056 12; V 127785056052 12; V 12777575331 11; V 127764431284 12; V 127751468951 12; V 12773746399 11; V 127722869161 12; V 127707983369 12; V 127692994277 12; V 127678016481 12; V 127663118184 12; V 127648338543 12; V 12763369863 11; V 127619208304 12; V 127604870509 12; V 127590683969 12; V 127576644892 12; V 127562748039 12; V 127548987407 12; V 127535356659 12; V 127521849397 12; V 127508459327 12; V 127495180361 12; V 127482006672 12; V 127468932725 12; V 127455953288 12; V 127443063431 12; V 127430258514 12; V 127417534181 12; V 127404886341 12; V 127392311153 12; V 12737980501 11; V 127367364525 12; V 127354986511 12; V 127342667974 12; V 12733040609 11; V 127318198202 12; V 127306041803 12; V 127293934523 12]);
(V 515581963928 11, [V 127707786131 12; V 127681441224 12; V 127672041042 12; V 127662758902 12; V 127651455796 12; V 127638512231 12; V 127624525756 12; V 127609948831 12; V 12759508017 11; V 127580107356 12; V 127565144969 12; V 127550261241 12; V 127535495374 12; V 127520868496 12; V 127506390523 12; V 127492064454 12; V 127477889068 12; V 127463860621 12; V 127449973919 12; V 127436223001 12; V 127422601568 12; V 127409103258 12; V 127395721808 12; V 127382451158 12; V 127369285509 12; V 127356219352 12; V 127343247476 12; V 127330364971 12; V 12731756722 11; V 127304849883 12; V 127292208887 12; V 127279640406 12; V 127267140849 12; V 127254706842 12; V 127242335213 12; V 127230022978 12; V 127217767328 12; V 127205565614 12; V 12719341534 11; V 127181314148 12]);
(V 517685971944 11, [V 127593897902 12; V 127567594736 12; V 127558223149 12; V 127548965736 12; V 127537685906 12; V 127524764444 12; V 127510798715 12; V 127496241057 12; V 12748139018 11; V 127466433745 12; V 127451486451 12; V 127436616657 12; V 127421863694 12; V 127407248803 12; V 127392782005 12; V 127378466385 12; V 127364300799 12; V 127350281568 12; V 127336403554 12; V 127322660848 12; V 127309047193 12; V 127295556265 12; V 127282181837 12; V 12726891788 11; V 127255758623 12; V 127242698583 12; V 127229732575 12; V 12721685571 11; V 12720406339 11; V 127191351296 12; V 127178715372 12; V 12716615181 11; V 127153657034 12; V 127141227684 12; V 127128860602 12; V 127116552817 12; V 127104301532 12; V 127092104111 12; V 127079958067 12; V 127067861053 12]);
(V 51978997996 10, [V 127479186477 12; V 127452910746 12; V 127443563398 12; V 127434332114 12; V 127423078135 12; V 127410181011 12; V 127396237649 12; V 127381700284 12; V 127366867702 12; V 127351927731 12; V 12733699527 11; V 127322138884 12; V 127307398091 12; V 127292794298 12; V 127278337662 12; V 127264031388 12; V 127249874424 12; V 127235863172 12; V 127221992562 12; V 127208256738 12; V 127194649496 12; V 127181164551 12; V 127167795715 12; V 127154536993 12; V 127141382645 12; V 127128327214 12; V 12711536554 11; V 12710249276 11; V 127089704295 12; V 127076995848 12; V 127064363381 12; V 127051803104 12; V 127039311456 12; V 127026885093 12; V 127014520873 12; V 127002215837 12; V 126989967202 12; V 126977772342 12; V 126965628785 12; V 126953534192 12]);
(V 521893987976 11, [V 127363608702 12; V 127337350428 12; V 127328023201 12; V 127318817159 12; V 127307589169 12; V 127294716773 12; V 12728079616 11; V 127266279334 12; V 127251465095 12; V 127236541421 12; V 127221623426 12; V 127206779908 12; V 127192050603 12; V 127177457111 12; V 127163009749 12; V 127148711855 12; V 127134562486 12; V 127120558132 12; V 127106693798 12; V 127092963689 12; V 127079361653 12; V 127065881452 12; V 127052516937 12; V 127039262149 12; V 12702611138 11; V 127013059203 12; V 127000100484 12; V 126987230384 12; V 12697444435 11; V 126961738103 12; V 126949107626 12; V 126936549147 12; V 126924059123 12; V 126911634226 12; V 12689927133 11; V 126886967489 12; V 126874719933 12; V 126862526052 12; V 126850383382 12; V 126838289598 12]);
(V 523997995992 11, [V 127247101039 12; V 127220865141 12; V 12721155913 11; V 127202377078 12; V 127191173405 12; V 127178324455 12; V 127164425739 12; V 127149928857 12; V 12713513246 11; V 12712022458 11; V 127105320502 12; V 127090489239 12; V 127075770744 12; V 127061186811 12; V 127046747925 12; V 12703245756 11; V 127018314888 12; V 127004316491 12; V 126990457448 12; V 126976732032 12; V 126963134144 12; V 126949657595 12; V 126936296276 12; V 126923044268 12; V 126909895895 12; V 126896845761 12; V 126883888762 12; V 126871020084 12; V 126858235197 12; V 126845529847 12; V 126832900036 12; V 126820342011 12; V 12680785225 11; V 12679542744 11; V 12678306447 11; V 126770760412 12; V 126758512509 12; V 126746318164 12; V 126734174925 12; V 12672208048 11])].
Definition tt_part5 : list (dec * list dec) := [
(V 526102004008 11, [V 127129582524 12; V 12710339585 11; V 127094119993 12; V 127084962178 12; V 127073780757 12; V 127060953219 12; V 127047074846 12; V 12703259675 11; V 127017817285 12; V 127002924425 12; V 126988033556 12; V 126973213867 12; V 126958505501 12; V 126943930432 12; V 126929499303 12; V 126915215718 12; V 12690107896 11; V 126887085702 12; V 126873231099 12; V 126859509487 12; V 126845914825 12; V 126832440972 12; V 126819081863 12; V 126805831617 12; V 126792684594 12; V 126779635431 12; V 126766679054 12; V 126753810675 12; V 126741025791 12; V 12672832017 11; V 126715689838 12; V 126703131062 12; V 126690640338 12; V 126678214373 12; V 126665850072 12; V 126653544522 12; V 126641294982 12; V 126629098868 12; V 126616953743 12; V 126604857306 12]);
(V 528206012024 11, [V 127010978069 12; V 126984879573 12; V 126975647449 12; V 126966516041 12; V 126955355741 12; V 126942547939 12; V 12692868838 11; V 12691422779 11; V 126899464194 12; V 126884585458 12; V 126869707022 12; V 126854898207 12; V 126840199316 12; V 126825632477 12; V 126811208469 12; V 126796931018 12; V 126782799504 12; V 126768810685 12; V 126754959792 12; V 126741241223 12; V 126727648992 12; V 126714177007 12; V 12670081925 11; V 126687569878 12; V 12667442329 11; V 126661374156 12; V 126648417431 12; V 12663554836 11; V 126622762465 12; V 126610055539 12; V 126597423631 12; V 12658486303 11; V 126572370253 12; V 126559942024 12; V 126547575267 12; V 126535267086 12; V 126523014754 12; V 126510815704 12; V 12649866751 11; V 126486567886 12]);
(V 53031002004 10, [V 126891239637 12; V 126865256775 12; V 12685607894 11; V 12684697693 11; V 12683583811 11; V 126823049422 12; V 126809207695 12; V 126794763564 12; V 126780014864 12; V 126765149399 12; V 126750282661 12; V 12673548408 11; V 126720794085 12; V 126706234931 12; V 126691817513 12; V 126677545654 12; V 126663418827 12; V 126649433867 12; V 126635586072 12; V 126621869903 12; V 126608279428 12; V 126594808607 12; V 126581451466 12; V 126568202204 12; V 126555055258 12; V 126542005335 12; V 126529047423 12; V 126516176795 12; V 126503389003 12; V 126490679865 12; V 126478045456 12; V 126465482086 12; V 126452986294 12; V 126440554825 12; V 126428184619 12; V 126415872799 12; V 126403616655 12; V 126391413632 12; V 126379261322 12; V 12636715745 11]);
(V 532414028056 11, [V 126770340382 12; V 126744472331 12; V 126735350582 12; V 126726280289 12; V 126715164434 12; V 126702395245 12; V 126688570998 12; V 126674142645 12; V 126659408095 12; V 126644555215 12; V 12662969958 11; V 12661491072 11; V 126600229169 12; V 126585677279 12; V 126571266038 12; V 126556999354 12; V 126542876775 12; V 12652889521 11; V 12651505002 11; V 126501335726 12; V 126487746452 12; V 126474276207 12; V 126460919065 12; V 126447669269 12; V 126434521296 12; V 126421469888 12; V 126408510069 12; V 126395637144 12; V 126382846694 12; V 126370134565 12; V 126357496857 12; V 126344929904 12; V 126332430266 12; V 126319994709 12; V 126307620193 12; V 126295303859 12; V 126283043012 12; V 126270835114 12; V 126258677772 12; V 126246568726 12]);
(V 534518036072 11, [V 126648244553 12; V 126622469612 12; V 126613398368 12; V 126604360784 12; V 12659326954 11; V 126580520599 12; V 12656671381 11; V 12655230084 11; V 126537579949 12; V 126522739196 12; V 126507894276 12; V 126493114813 12; V 126478441422 12; V 126463896529 12; V 126449491194 12; V 126435229398 12; V 126421110757 12; V 126407132244 12; V 126393289285 12; V 12637957646 11; V 126365987947 12; V 12635251781 11; V 12633916017 11; V 126325909315 12; V 126312759764 12; V 126299706299 12; V 126286743979 12; V 126273868141 12; V 126261074399 12; V 126248358626 12; V 126235716948 12; V 126223145726 12; V 12621064154 11; V 126198201179 12; V 126185821623 12; V 126173500029 12; V 126161233723 12; V 126149020181 12; V 126136857026 12; V 126124742011 12]);
(V 536622044088 11, [V 126524885477 12; V 126499184939 12; V 12649015776 11; V 126481152777 12; V 126470086958 12; V 126457358605 12; V 126443569191 12; V 126429171356 12; V 126414463874 12; V 126399635052 12; V 126384800713 12; V 12637003055 11; V 126355365233 12; V 126340827246 12; V 126326427706 12; V 126312170655 12; V 126298055773 12; V 126284080098 12; V 126270239119 12; V 126256527476 12; V 126242939408 12; V 12622946903 11; V 126216110515 12; V 126202858199 12; V 126189706644 12; V 126176650673 12; V 126163685382 12; V 126150806144 12; V 126138008603 12; V 126125288663 12; V 126112642476 12; V 126100066428 12; V 126087557125 12; V 126075111376 12; V 126062726182 12; V 126050398719 12; V 126038126329 12; V 126025906509 12; V 126013736893 12; V 126001615251 12]);
(V 538726052104 11, [V 126400177615 12; V 126374548476 12; V 126365562472 12; V 126356589139 12; V 126345548205 12; V 126332839996 12; V 126319067658 12; V 126304684832 12; V 126289990775 12; V 126275173995 12; V 126260350387 12; V 126245589681 12; V 126230932576 12; V 126216401594 12; V 126202007903 12; V 126187755605 12; V 126173644445 12; V 126159671526 12; V 126145832405 12; V 126132121787 12; V 126118533971 12; V 12610506313 11; V 126091703491 12; V 12607844944 11; V 126065295584 12; V 126052236789 12; V 12603926819 11; V 126026385195 12; V 126013583481 12; V 126000858983 12; V 125988207881 12; V 125975626589 12; V 125963111733 12; V 125950660148 12; V 125938268853 12; V 125925935047 12; V 125913656088 12; V 125901429488 12; V 125889252901 12; V 12587712411 11]);
(V 54083006012 10, [V 126274045862 12; V 126248488941 12; V 126239542978 12; V 126230599256 12; V 126219581506 12; V 126206892503 12; V 126193136972 12; V 126178769317 12; V 126164089073 12; V 126149284807 12; V 126134472405 12; V 126119721585 12; V 126105073058 12; V 126090549377 12; V 126076161764 12; V 126061914385 12; V 126047807055 12; V 126033836952 12; V 126019999705 12; V 126006290088 12; V 125992702467 12; V 125979231076 12; V 125965870199 12; V 125952614275 12; V 125939457958 12; V 125926396158 12; V 125913424051 12; V 125900537081 12; V 12588773096 11; V 125875001654 12; V 125862345372 12; V 125849758553 12; V 125837237851 12; V 12582478012 11; V 125812382404 12; V 125800041918 12; V 125787756042 12; V 125775522305 12; V 125763338375 12; V 125751202051 12]);
(V 542934068136 11, [V 126146430776 12; V 126120934987 12; V 126112024996 12; V 126103107493 12; V 126092110911 12; V 126079440488 12; V 126065702048 12; V 12605135031 11; V 126036684784 12; V 126021893932 12; V 126007093555 12; V 125992353331 12; V 125977713978 12; V 125963198095 12; V 125948816964 12; V 125934574831 12; V 125920471595 12; V 125906504516 12; V 125892669305 12; V 125878960813 12; V 125865373476 12; V 125851901595 12; V 125838539513 12; V 125825281723 12; V 125812122932 12; V 125799058094 12; V 125786082425 12; V 12577319141 11; V 125760380794 12; V 125747646576 12; V 125734984994 12; V 125722392513 12; V 125709865814 12; V 125697401774 12; V 125684997458 12; V 125672650102 12; V 125660357104 12; V 125648116011 12; V 125635924509 12; V 125623780411 12]);
(V 545038076152 11, [V 126017266143 12; V 125991811567 12; V 125982928638 12; V 125974033128 12; V 125963056505 12; V 125950405204 12; V 1259366852 10; V 125922350953 12; V 125907701669 12; V 125892925589 12; V 1258781384 10; V 125863409752 12; V 125848780396 12; V 125834272997 12; V 125819898932 12; V 125805662541 12; V 125791563825 12; V 12577760014 11; V 125763767287 12; V 125750060202 12; V 125736473397 12; V 125723001244 12; V 125709638149 12; V 125696378661 12; V 12568321754 11; V 125670149787 12; V 12565717066 11; V 125644275685 12; V 12563146064 11; V 125618721559 12; V 125606054708 12; V 125593456583 12; V 125580923887 12; V 125568453523 12; V 125556042578 12; V 125543688308 12; V 125531388131 12; V 125519139611 12; V 125506940452 12; V 125494788482 12]);
(V 547142084168 11, [V 125886467273 12; V 125861036114 12; V 125852169115 12; V 125843291928 12; V 125832335694 12; V 125819705665 12; V 125806006678 12; V 125791692367 12; V 125777061445 12; V 125762301912 12; V 125747529382 12; V 125732813533 12; V 1257181952 10; V 125703697165 12; V 125689330926 12; V 125675100949 12; V 125661007353 12; V 125647047605 12; V 125633217607 12; V 125619512386 12; V 125605926535 12; V 125592454501 12; V 125579090755 12; V 125565829907 12; V 125552666769 12; V 125539596391 12; V 125526614077 12; V 125513715389 12; V 125500896145 12; V 12548815241 11; V 125475480483 12; V 125462876886 12; V 12545033835 11; V 125437861802 12; V 125425444351 12; V 125413083274 12; V 12540077601 11; V 125388520141 12; V 125376313387 12; V 125364153594 12]);
(V 549246092184 11, [V 125753938189 12; V 12572851827 11; V 125719658947 12; V 125710798508 12; V 125699864906 12; V 1256872597 10; V 125673585288 12; V 125659294007 12; V 125644684 9; V 125629943094 12; V 125615186928 12; V 125600485302 12; V 125585879209 12; V 125571391598 12; V 12555703413 11; V 125542811425 12; V 125528723737 12; V 125514768658 12; V 1255009422 10; V 125487239487 12; V 1254736552 10; V 125460183861 12; V 125446820011 12; V 125433558322 12; V 12542039366 11; V 125407321125 12; V 125394336065 12; V 125381434085 12; V 12536861104 11; V 125355863027 12; V 125343186379 12; V 125330577646 12; V 125318033586 12; V 125305551151 12; V 125293127473 12; V 125280759852 12; V 125268445745 12; V 125256182754 12; V 125243968617 12; V 125231801198 12]);
(V 5513501002 9, [V 125619569729 12; V 125594162687 12; V 125585310428 12; V 125576468137 12; V 125565560783 12; V 12555298468 11; V 125539338817 12; V 125525073915 12; V 125510487556 12; V 125495767507 12; V 125481029561 12; V 12546634374 11; V 125451751273 12; V 125437275328 12; V 125422927769 12; V 125408713389 12; V 125394632599 12; V 125380683125 12; V 125366861095 12; V 125353161738 12; V 125339579823 12; V 125326109954 12; V 125312746742 12; V 12529948492 11; V 125286319414 12; V 125273245372 12; V 12526025819 11; V 125247353515 12; V 125234527238 12; V 125221775495 12; V 125209094649 12; V 12519648128 11; V 125183932175 12; V 12517144431 11; V 125159014842 12; V 125146641093 12; V 125134320542 12; V 12512205081 11; V 125109829654 12; V 125097654953 12]);
(V 553454108216 11, [V 125483239223 12; V 125457873568 12; V 125449036857 12; V 125440217063 12; V 125429340309 12; V 125416797595 12; V 125403184092 12; V 125388948782 12; V 12537438874 11; V 125359691794 12; V 125344974002 12; V 125330305696 12; V 125315728403 12; V 125301265555 12; V 125286929243 12; V 125272724456 12; V 125258651769 12; V 125244709052 12; V 125230892555 12; V 125217197613 12; V 12520361909 11; V 125190151669 12; V 125176790035 12; V 125163528987 12; V 125150363507 12; V 125137288797 12; V 1251243003 10; V 125111393704 12; V 125098564944 12; V 125085810189 12; V 125073125837 12; V 125060508499 12; V 12504795499 11; V 125035462313 12; V 125023027651 12; V 125010648348 12; V 124998321905 12; V 124986045964 12; V 1249738183 10; V 124961636813 12]);
(V 555558116232 11, [V 125344840134 12; V 125319559239 12; V 125310752071 12; V 125301961418 12; V 12529111997 11; V 125278614543 12; V 125265036718 12; V 125250833841 12; V 125236302587 12; V 125221630935 12; V 125206935281 12; V 125192286324 12; V 125177725925 12; V 125163277805 12; V 125148954296 12; V 125134760592 12; V 125120697441 12; V 125106762859 12; V 125092953222 12; V 125079263974 12; V 125065690073 12; V 125052226288 12; V 125038867377 12; V 125025608205 12; V 125012443814 12; V 12499936946 11; V 124986380637 12; V 124973473076 12; V 124960642754 12; V 124947885878 12; V 124935198879 12; V 124922578403 12; V 124910021293 12; V 124897524582 12; V 124885085477 12; V 124872701349 12; V 124860369718 12; V 124848088251 12; V 124835854741 12; V 124823667108 12]);
(V 557662124248 11, [V 125204306493 12; V 125179133045 12; V 125170368947 12; V 125161615626 12; V 125150814573 12; V 125138349989 12; V 125124810678 12; V 125110642717 12; V 125096142532 12; V 125081498328 12; V 125066826871 12; V 125052199245 12; V 125037657652 12; V 125023226106 12; V 125008917184 12; V 124994736288 12; V 124980684338 12; V 124966759498 12; V 124952958272 12; V 124939276213 12; V 124925708378 12; V 12491224962 11; V 124898894774 12; V 124885638774 12; V 124872476723 12; V 124859403935 12; V 124846415953 12; V 124833508557 12; V 124820677765 12; V 124807919824 12; V 124795231204 12; V 124782608581 12; V 124770048834 12; V 124757549022 12; V 12474510638 11; V 124732718304 12; V 124720382341 12; V 124708096177 12; V 124695857629 12; V 124683664635 12]);
(V 559766132265 11, [V 125061585585 12; V 125036508836 12; V 125027798057 12; V 125019091364 12; V 125008336421 12; V 124995916238 12; V 124982418077 12; V 124968287348 12; V 124953820466 12; V 124939205922 12; V 124924560859 12; V 124909956733 12; V 124895436074 12; V 12488102318 11; V 124866730867 12; V 124852564736 12; V 124838525881 12; V 124824612613 12; V 124810821564 12; V 1247971484 10; V 124783588275 12; V 124770136132 12; V 124756786884 12; V 124743535536 12; V 124730377257 12; V 124717307418 12; V 124704321616 12; V 124691415681 12; V 124678585675 12; V 124665827888 12; V 124653138827 12; V 124640515207 12; V 124627953936 12; V 124615452107 12; V 124603006982 12; V 124590615986 12; V 12457827669 11; V 124565986804 12; V 124553744167 12; V 124541546738 12]);
(V 561870140281 11, [V 12491659336 11; V 12489159545 11; V 124882947365 12; V 124874297583 12; V 124863595241 12; V 12485122338 11; V 124837769162 12; V 124823678102 12; V 124809246899 12; V 12479466441 11; V 124780048151 12; V 124765469924 12; V 124750972565 12; V 124736580636 12; V 124722307182 12; V 124708157998 12; V 124694134349 12; V 124680234691 12; V 124666455786 12; V 124652793414 12; V 124639242831 12; V 124625799071 12; V 124612457129 12; V 124599212086 12; V 124586059176 12; V 124572993833 12; V 12456001171 11; V 124547108688 12; V 12453428088 11; V 124521524617 12; V 124508836447 12; V 124496213124 12; V 12448365159 11; V 124471148971 12; V 124458702561 12; V 124446309812 12; V 124433968321 12; V 124421675825 12; V 124409430185 12; V 124397229383 12]);
(V 563974148297 11, [V 124769211511 12; V 124744295967 12; V 124735723143 12; V 124727141413 12; V 124716498819 12; V 124704179736 12; V 124690772678 12; V 124676724074 12; V 124662331237 12; V 12464778348 11; V 124633198701 12; V 124618649023 12; V 124604177566 12; V 124589809141 12; V 124575557009 12; V 124561427157 12; V 124547421015 12; V 124533537189 12; V 124519772572 12; V 124506123061 12; V 124492584018 12; V 124479150571 12; V 124465817802 12; V 124452580868 12; V 124439435076 12; V 124426375924 12; V 124413399125 12; V 124400500616 12; V 124387676557 12; V 124374923329 12; V 124362237522 12; V 124349615929 12; V 12433705553 11; V 124324553486 12; V 124312107122 12; V 124299713921 12; V 124287371508 12; V 124275077645 12; V 124262830221 12; V 124250627238 12]);
(V 566078156313 11, [V 124619317886 12; V 12459451221 11; V 124586031662 12; V 124577529485 12; V 124566954018 12; V 124554692607 12; V 124541336417 12; V 124527333504 12; V 1245129821 10; V 124498472079 12; V 12448392173 11; V 124469403491 12; V 124454960753 12; V 124440618565 12; V 124426390398 12; V 124412282429 12; V 124398296257 12; V 124384430639 12; V 124370682602 12; V 124357048166 12; V 124343522802 12; V 124330101736 12; V 124316780142 12; V 124303553259 12; V 124290416468 12; V 124277365336 12; V 124264395639 12; V 124251503371 12; V 124238684746 12; V 124225936194 12; V 12421325435 11; V 124200636049 12; V 124188078311 12; V 124175578332 12; V 124163133473 12; V 124150741247 12; V 124138399309 12; V 124126105451 12; V 124113857584 12; V 124101653739 12]);
(V 568182164329 11, [V 124466808838 12; V 124442150506 12; V 124433781051 12; V 124425369202 12; V 124414867806 12; V 12440266906 11; V 124389367787 12; V 124375414184 12; V 124361107625 12; V 124346638626 12; V 124332125891 12; V 124317642176 12; V 124303231141 12; V 12428891807 11; V 124274716649 12; V 124260633245 12; V 12424666963 11; V 124232824716 12; V 12421909567 11; V 124205478638 12; V 124191969208 12; V 124178562709 12; V 12416525441 11; V 124152039635 12; V 124138913844 12; V 124125872678 12; V 124112911977 12; V 124100027797 12; V 124087216408 12; V 12407447429 11; V 124061798128 12; V 124049184799 12; V 124036631367 12; V 124024135064 12; V 124011693287 12; V 123999303583 12; V 123986963638 12; V 123974671273 12; V 123962424427 12; V 123950221155 12]);
(V 570286172345 11, [V 124311604521 12; V 124287125456 12; V 124278882787 12; V 124270569637 12; V 124260147974 12; V 124248016484 12; V 124234774222 12; V 124220873738 12; V 124206615643 12; V 124192191133 12; V 124177719346 12; V 124163273366 12; V 124148897126 12; V 124134616154 12; V 124120444351 12; V 124106388282 12; V 124092449898 12; V 124078628272 12; V 124064920718 12; V 124051323514 12; V 124037832366 12; V 124024442715 12; V 124011149926 12; V 123997949415 12; V 123984836727 12; V 123971807574 12; V 123958857868 12; V 123945983728 12; V 123933181482 12; V 123920447665 12; V 123907779011 12; V 123895172446 12; V 123882625073 12; V 123870134167 12; V 123857697162 12; V 123845311638 12; V 123832975316 12; V 123820686045 12; V 123808441795 12; V 123796240647 12]);
(V 572390180361 11, [V 124153645791 12; V 124129360294 12; V 124121252056 12; V 124113041714 12; V 124102703312 12; V 124090642763 12; V 124077463295 12; V 124063619684 12; V 124049413702 12; V 1240350372 10; V 12402060975 11; V 124006204768 12; V 123991866466 12; V 123977620622 12; V 123963481362 12; V 123949455455 12; V 123935545037 12; V 123921749347 12; V 123908065852 12; V 123894490968 12; V 123881020527 12; V 123867650081 12; V 123854375102 12; V 123841191098 12; V 123828093699 12; V 123815078699 12; V 123802142079 12; V 123789280026 12; V 123776488928 12; V 123763765377 12; V 123751106159 12; V 123738508248 12; V 123725968792 12; V 123713485108 12; V 123701054668 12; V 123688675089 12; V 123676344126 12; V 123664059659 12; V 123651819688 12; V 123639622323 12]);
(V 574494188377 11, [V 12399288105 11; V 123968783017 12; V 123960806188 12; V 123952697356 12; V 123942443131 12; V 123930455976 12; V 123917342515 12; V 123903559262 12; V 123889408914 12; V 123875083882 12; V 123860704135 12; V 123846343408 12; V 123832046197 12; V 12381783853 11; V 123803734765 12; V 123789741881 12; V 123775862202 12; V 123762095143 12; V 123748438328 12; V 123734888316 12; V 123721441068 12; V 123708092255 12; V 123694837455 12; V 123681672275 12; V 123668592434 12; V 123655593805 12; V 123642672448 12; V 123629824615 12; V 12361704676 11; V 123604335532 12; V 123591687771 12; V 123579100501 12; V 123566570916 12; V 123554096377 12; V 123541674395 12; V 123529302626 12; V 12351697886 11; V 123504701009 12; V 123492467105 12; V 123480275287 12]);
(V 576598196393 11, [V 123829246806 12; V 123805318733 12; V 123797461017 12; V 12378944766 11; V 123779276228 12; V 123767363736 12; V 123754318851 12; V 12374059908 11; V 123726507687 12; V 123712237474 12; V 123697908735 12; V 123683595497 12; V 123669342522 12; V 123655176091 12; V 123641110792 12; V 123627153818 12; V 123613307689 12; V 123599571999 12; V 123585944533 12; V 123572421997 12; V 123559000488 12; V 123545675797 12; V 123532443613 12; V 123519299645 12; V 123506239702 12; V 123493259744 12; V 123480355905 12; V 12346752451 11; V 123454762076 12; V 123442065315 12; V 123429431121 12; V 123416856569 12; V 123404338902 12; V 123391875525 12; V 123379463992 12; V 123367101996 12; V 123354787363 12; V 123342518041 12; V 123330292092 12; V 123318107686 12]);
(V 578702204409 11, [V 123662656681 12; V 123638881195 12; V 123631126577 12; V 123623200714 12; V 123613109605 12; V 123601272344 12; V 123588298141 12; V 123574644688 12; V 1235606154 10; V 123546403268 12; V 123532128805 12; V 123517866278 12; V 123503660698 12; V 123489538583 12; V 123475514754 12; V 123461596617 12; V 123447786892 12; V 123434085355 12; V 12342048996 11; V 123406997562 12; V 123393604397 12; V 123380306382 12; V 123367099318 12; V 123353979019 12; V 12334094139 11; V 123327982475 12; V 123315098489 12; V 123302285829 12; V 12328954108 11; V 123276861014 12; V 123264242584 12; V 123251682917 12; V 123239179307 12; V 123226729202 12; V 1232143302 10; V 123201980035 12; V 123189676569 12; V 123177417785 12; V 12316520178 11; V 123153026752 12]);
(V 580806212425 11, [V 123493003091 12; V 123469368397 12; V 123461704554 12; V 123453860068 12; V 123443847428 12; V 123432086049 12; V 123419184567 12; V 123405600202 12; V 123391636143 12; V 123377485359 12; V 123363268471 12; V 123349059925 12; V 123334904947 12; V 123320830285 12; V 123306850986 12; V 123292974671 12; V 123279204265 12; V 123265539729 12; V 123251979189 12; V 123238519657 12; V 123225157509 12; V 123211888792 12; V 123198709425 12; V 123185615328 12; V 123172602503 12; V 123159667083 12; V 123146805365 12; V 12313401382 11; V 123121289103 12; V 123108628048 12; V 123096027667 12; V 123083485142 12; V 123070997816 12; V 123058563186 12; V 123046178893 12; V 123033842711 12; V 123021552542 12; V 123009306406 12; V 12299710243 11; V 122984938847 12]);
(V 582910220441 11, [V 123320164943 12; V 12329666584 11; V 123289089204 12; V 123281324592 12; V 123271390609 12; V 123259706652 12; V 123246880356 12; V 123233368096 12; V 12321947257 11; V 123205386551 12; V 123191230665 12; V 123177079483 12; V 123162978422 12; V 123148954446 12; V 123135022825 12; V 123121191404 12; V 123107463313 12; V 123093838705 12; V 123080315884 12; V 123066892022 12; V 123053563644 12; V 123040326928 12; V 123027177914 12; V 123014112632 12; V 123001127184 12; V 122988217795 12; V 122975380844 12; V 122962612881 12; V 122949910629 12; V 122937270988 12; V 122924691032 12; V 122912167996 12; V 122899699276 12; V 122887282418 12; V 122874915107 12; V 122862595159 12; V 122850320515 12; V 122838089232 12; V 122825899473 12; V 122813749502 12]);
(V 585014228457 11, [V 123144019505 12; V 123120655952 12; V 123113171078 12; V 123105489651 12; V 123095637123 12; V 123084033583 12; V 123071285808 12; V 123057849233 12; V 123044025933 12; V 123030008382 12; V 123015917149 12; V 123001826898 12; V 122987783219 12; V 122973813295 12; V 122959932624 12; V 122946149277 12; V 122932466599 12; V 122918884945 12; V 122905402801 12; V 122892017508 12; V 122878725741 12; V 122865523818 12; V 122852407903 12; V 122839374139 12; V 12282641873 11; V 122813537996 12; V 122800728404 12; V 122787986579 12; V 122775309319 12; V 12276269359 11; V 122750136527 12; V 122737635424 12; V 122725187729 12; V 122712791037 12; V 122700443078 12; V 122688141713 12; V 122675884923 12; V 122663670802 12; V 12265149755 11; V 122639363463 12]);
(V 587118236473 11, [V 122964454238 12; V 12294122644 11; V 122933840808 12; V 122926248831 12; V 122916482894 12; V 122904964436 12; V 122892299659 12; V 122878943122 12; V 122865196273 12; V 122851251275 12; V 122837228632 12; V 1228232031 10; V 122809220455 12; V 122795308106 12; V 122781481794 12; V 122767749828 12; V 122754115781 12; V 122740580218 12; V 122727141816 12; V 122713798094 12; V 122700545883 12; V 122687381644 12; V 122674301672 12; V 122661302225 12; V 122648379617 12; V 122635530262 12; V 122622750715 12; V 122610037685 12; V 122597388042 12; V 122584798823 12; V 122572267223 12; V 122559790596 12; V 122547366445 12; V 122534992415 12; V 122522666283 12; V 122510385956 12; V 122498149453 12; V 122485954909 12; V 122473800559 12; V 122461684734 12]);
(V 589222244489 11, [V 122781364649 12; V 122758270734 12; V 122750990581 12; V 122743495375 12; V 122733822922 12; V 122722395791 12; V 122709819663 12; V 122696548336 12; V 122682882727 12; V 122669014764 12; V 122655064937 12; V 12264110814 11; V 122627190366 12; V 122613339276 12; V 122599570877 12; V 122585893733 12; V 122572311659 12; V 122558825444 12; V 122545433967 12; V 12253213493 11; V 122518925329 12; V 122505801776 12; V 122492760698 12; V 122479798477 12; V 122466911535 12; V 122454096388 12; V 122441349681 12; V 122428668207 12; V 122416048913 12; V 122403488905 12; V 122390985445 12; V 122378535946 12; V 122366137966 12; V 122353789203 12; V 122341487483 12; V 122329230755 12; V 122317017084 12; V 122304844642 12; V 122292711702 12; V 122280616631 12]);
(V 591326252505 11, [V 122594637472 12; V 122571681619 12; V 122564513379 12; V 122557123107 12; V 122547552403 12; V 122536224115 12; V 122523743252 12; V 122510562977 12; V 122496983856 12; V 122483197728 12; V 122469325184 12; V 122455441328 12; V 122441592422 12; V 122427806422 12; V 122414099624 12; V 122400480872 12; V 12238695424 11; V 122373520752 12; V 122360179501 12; V 122346928382 12; V 122333764564 12; V 122320684813 12; V 122307685697 12; V 122294763724 12; V 12228191543 11; V 122269137434 12; V 122256426476 12; V 122243779434 12; V 122231193334 12; V 122218665355 12; V 122206192825 12; V 122193773219 12; V 122181404153 12; V 122169083377 12; V 122156808766 12; V 122144578318 12; V 122132390139 12; V 122120242442 12; V 122108133537 12; V 122096061829 12]);
(V 593430260521 11, [V 122404142324 12; V 122381346663 12; V 122374302279 12; V 122367027155 12; V 122357567651 12; V 122346346519 12; V 122333968071 12; V 122320885047 12; V 122307397904 12; V 122293698592 12; V 122279907938 12; V 122266101353 12; V 122252325431 12; V 122238608464 12; V 122224967072 12; V 1222114104 10; V 122197942797 12; V 122184565535 12; V 122171277935 12; V 122158078088 12; V 122144963348 12; V 122131930639 12; V 122118976676 12; V 122106098096 12; V 122093291553 12; V 122080553774 12; V 122067881595 12; V 122055271983 12; V 122042722045 12; V 122030229034 12; V 122017790348 12; V 122005403524 12; V 121993066237 12; V 121980776291 12; V 121968531613 12; V 121956330246 12; V 121944170343 12; V 121932050158 12; V 121919968039 12; V 121907922428 12]);
(V 595534268537 11, [V 122209746745 12; V 122187152132 12; V 122180251741 12; V 12217310476 11; V 122163766684 12; V 12215266116 11; V 122140392249 12; V 122127412628 12; V 12211402293 11; V 122100415416 12; V 122086711288 12; V 122072986353 12; V 122059287599 12; V 122045643694 12; V 122032071608 12; V 122018580808 12; V 122005175932 12; V 121991858515 12; V 121978628109 12; V 121965483017 12; V 121952420775 12; V 121939438477 12; V 121926532987 12; V 121913701075 12; V 121900939518 12; V 121888245153 12; V 121875614915 12; V 121863045862 12; V 121850535186 12; V 121838080214 12; V 121825678416 12; V 121813327393 12; V 121801024881 12; V 12178876874 11; V 121776556949 12; V 121764387599 12; V 121752258888 12; V 121740169113 12; V 121728116662 12; V 121716100014 12]);
(V 597638276553 11, [V 122011340984 12; V 121988992666 12; V 121982260395 12; V 121975255935 12; V 121966049296 12; V 121955067161 12; V 121942914303 12; V 121930043813 12; V 121916756762 12; V 121903245882 12; V 121889632851 12; V 121875993936 12; V 121862376565 12; V 12184880981 11; V 121835311012 12; V 121821889973 12; V 121808551633 12; V 121795297796 12; V 121782128255 12; V 121769041525 12; V 121756035337 12; V 121743106954 12; V 121730253393 12; V 121717471565 12; V 121704758368 12; V 121692110754 12; V 121679525759 12; V 121667000536 12; V 12165453236 11; V 12164211864 11; V 121629756914 12; V 121617444853 12; V 121605180254 12; V 121592961033 12; V 121580785222 12; V 121568650964 12; V 121556556502 12; V 121544500175 12; V 121532480416 12; V 121520495738 12]);
(V 599742284569 11, [V 121808851184 12; V 121786777574 12; V 121780232719 12; V 121773383271 12; V 121764316397 12; V 121753464017 12; V 121741432706 12; V 121728676411 12; V 121715496811 12; V 121702087179 12; V 121688569707 12; V 121675021153 12; V 121661489399 12; V 121648003938 12; V 121634582491 12; V 121621235203 12; V 121607967321 12; V 121594780924 12; V 121581676048 12; V 121568651429 12; V 121555704991 12; V 121542834172 12; V 121530036145 12; V 121517307961 12; V 121504646648 12; V 121492049271 12; V 121479512972 12; V 121467034998 12; V 121454612714 12; V 121442243607 12; V 121429925289 12; V 121417655501 12; V 121405432101 12; V 121393253064 12; V 121381116479 12; V 121369020537 12; V 121356963529 12; V 12134494384 11; V 121332959943 12; V 121321010392 12]);
(V 601846292585 11, [V 121602228968 12; V 12158042724 11; V 121574077364 12; V 12156739033 11; V 121558468675 12; V 121547750614 12; V 121535845228 12; V 121523207526 12; V 121510139803 12; V 121496835837 12; V 12148341831 11; V 121469964451 12; V 121456522594 12; V 121443122647 12; V 121429782713 12; V 121416513282 12; V 121403319909 12; V 121390204949 12; V 121377168686 12; V 121364210074 12; V 121351327234 12; V 121338517784 12; V 121325779052 12; V 121313108236 12; V 12130050249 11; V 121287958997 12; V 121275475007 12; V 121263047864 12; V 121250675022 12; V 12123835405 11; V 121226082637 12; V 121213858592 12; V 121201679837 12; V 12118954441 11; V 121177450453 12; V 12116539621 11; V 121153380021 12; V 121141400317 12; V 121129455613 12; V 121117544503 12]);
(V 603950300601 11, [V 121391418507 12; V 121369861369 12; V 121363702143 12; V 12135717886 11; V 121348404867 12; V 121337824158 12; V 121326048273 12; V 121313533149 12; V 121300581533 12; V 121287387589 12; V 121274074406 12; V 121260719643 12; V 121247372059 12; V 121234061968 12; V 121220807847 12; V 121207620525 12; V 121194505866 12; V 1211814665 10; V 121168502958 12; V 121155614416 12; V 121142799194 12; V 121130055086 12; V 121117379584 12; V 121104770027 12; V 121092223703 12; V 121079737914 12; V 121067310018 12; V 12105493746 11; V 121042617783 12; V 12103034864 11; V 121018127798 12; V 121005953136 12; V 120993822644 12; V 12098173442 11; V 120969686664 12; V 120957677672 12; V 120945705835 12; V 12093376963 11; V 120921867615 12; V 120909998428 12]);
(V 606054308617 11, [V 121176324602 12; V 121154986625 12; V 121149008099 12; V 121142645917 12; V 121134020298 12; V 121123579379 12; V 121111936433 12; V 121099547903 12; V 121086716728 12; V 121073637298 12; V 121060433018 12; V 121047181923 12; V 121033933168 12; V 121020717456 12; V 12100755363 11; V 120994452855 12; V 120981421301 12; V 120968461872 12; V 120955575347 12; V 120942761125 12; V 120930017724 12; V 120917343119 12; V 120904734964 12; V 120892190746 12; V 120879707885 12; V 120867283803 12; V 120854915971 12; V 120842601933 12; V 120830339326 12; V 120818125888 12; V 120805959464 12; V 120793838008 12; V 120781759576 12; V 120769722328 12; V 120757724523 12; V 120745764512 12; V 120733840738 12; V 120721951724 12; V 120710096075 12; V 120698272468 12]);
(V 608158316633 11, [V 120956811422 12; V 120935690771 12; V 120929885868 12; V 120923682353 12; V 120915206334 12; V 12090490836 11; V 120893402448 12; V 120881145063 12; V 120868439095 12; V 120855479031 12; V 120842388526 12; V 120829245954 12; V 120816100846 12; V 120802984284 12; V 120789915472 12; V 120776905909 12; V 12076396207 11; V 120751087137 12; V 120738282136 12; V 120725546691 12; V 120712879521 12; V 120700278783 12; V 120687742296 12; V 120675267694 12; V 120662852533 12; V 12065049436 11; V 120638190756 12; V 120625939369 12; V 120613737931 12; V 120601584266 12; V 120589476301 12; V 120577412062 12; V 120565389676 12; V 120553407367 12; V 120541463453 12; V 120529556343 12; V 120517684529 12; V 120505846586 12; V 120494041163 12; V 120482266981 12]);
(V 610262324649 11, [V 120732728289 12; V 120711845885 12; V 120706216528 12; V 12070017359 11; V 120691851095 12; V 120681701091 12; V 120670337621 12; V 120658216867 12; V 120645641562 12; V 120632806259 12; V 120619834847 12; V 120606806035 12; V 12059376973 11; V 120580757396 12; V 120567788599 12; V 120554875179 12; V 12054202392 11; V 120529238282 12; V 120516519547 12; V 120503867564 12; V 120491281257 12; V 120478758969 12; V 120466298685 12; V 120453898191 12; V 120441555181 12; V 120429267326 12; V 120417032322 12; V 120404847923 12; V 120392711956 12; V 120380622335 12; V 12036857707 11; V 120356574263 12; V 12034461211 11; V 120332688902 12; V 120320803019 12; V 120308952925 12; V 120297137167 12; V 12028535437 11; V 120273603231 12; V 120261882514 12]);
(V 612366332665 11, [V 120503933925 12; V 1204833187 10; V 120477876761 12; V 120472002541 12; V 120463841251 12; V 120453846622 12; V 120442632587 12; V 120430655061 12; V 120418216701 12; V 120405512193 12; V 120392665713 12; V 120379756342 12; V 120366834384 12; V 1203539317 10; V 120341068237 12; V 120328256185 12; V 120315502645 12; V 120302811368 12; V 120290183893 12; V 120277620302 12; V 12026511973 11; V 120252680709 12; V 120240301392 12; V 120227979723 12; V 120215713535 12; V 120203500628 12; V 120191338815 12; V 120179225956 12; V 120167159978 12; V 120155138888 12; V 120143160776 12; V 120131223824 12; V 120119326302 12; V 120107466566 12; V 120095643059 12; V 120083854306 12; V 120072098907 12; V 120060375538 12; V 120048682945 12; V 120037019939 12]);
(V 614470340681 11, [V 120270308478 12; V 120249982909 12; V 120244745801 12; V 120239053412 12; V 120231064226 12; V 120221234434 12; V 120210178236 12; V 120198351566 12; V 120186057225 12; V 120173490188 12; V 120160775016 12; V 120147991222 12; V 120135189555 12; V 120122402307 12; V 120109649828 12; V 120096944675 12; V 120084294286 12; V 120071702709 12; V 120059171754 12; V 120046701743 12; V 120034292028 12; V 120021941333 12; V 12000964799 11; V 119997410099 12; V 119985225638 12; V 119973092538 12; V 119961008734 12; V 119948972194 12; V 119936980948 12; V 119925033094 12; V 119913126811 12; V 11990126036 11; V 119889432084 12; V 119877640409 12; V 119865883844 12; V 119854160971 12; V 119842470449 12; V 119830811006 12; V 119819181437 12; V 1198075806 10]);
(V 616574348697 11, [V 120031756722 12; V 120011726701 12; V 120006710576 12; V 120001214707 12; V 11999340999 11; V 119983755619 12; V 119972866555 12; V 119961199121 12; V 119949056517 12; V 119936634177 12; V 119924057165 12; V 119911405508 12; V 119898730458 12; V 119886064779 12; V 119873429257 12; V 119860836843 12; V 119848295325 12; V 11983580907 11; V 119823380165 12; V 119811009184 12; V 119798695704 12; V 119786438649 12; V 119774236532 12; V 119762087616 12; V 119749990029 12; V 119737941836 12; V 119725941094 12; V 119713985888 12; V 119702074348 12; V 11969020467 11; V 119678375121 12; V 119666584043 12; V 119654829858 12; V 119643111062 12; V 119631426228 12; V 119619774002 12; V 119608153101 12; V 119596562306 12; V 119585000463 12; V 119573466479 12]);
(V 618678356713 11, [V 11978819533 11; V 119768451126 12; V 119763666674 12; V 11975838025 11; V 119750771893 12; V 119741303572 12; V 119730591234 12; V 119719091808 12; V 11970710907 11; V 119694839055 12; V 119682407432 12; V 119669894824 12; V 119657353047 12; V 119644815385 12; V 119632303094 12; V 119619829547 12; V 119607402905 12; V 119595027867 12; V 119582706813 12; V 119570440578 12; V 119558228971 12; V 119546071125 12; V 11953396574 11; V 119521911247 12; V 119509905927 12; V 119497947984 12; V 119486035604 12; V 119474166985 12; V 119462340367 12; V 119450554044 12; V 119438806373 12; V 119427095781 12; V 119415420768 12; V 119403779902 12; V 119392171826 12; V 119380595248 12; V 119369048945 12; V 119357531753 12; V 119346042572 12; V 119334580355 12]);
(V 620782364729 11, [V 119539527199 12; V 119520061697 12; V 119515515445 12; V 119510448225 12; V 119503046485 12; V 119493774166 12; V 119483247966 12; V 11947192539 11; V 119460110833 12; V 119448000999 12; V 119435722244 12; V 119423355856 12; V 119410954271 12; V 119398551339 12; V 11938616882 11; V 119373820535 12; V 11936151504 11; V 119349257378 12; V 119337050238 12; V 119324894726 12; V 119312790891 12; V 119300738081 12; V 119288735188 12; V 11927678082 11; V 119264873413 12; V 119253011317 12; V 119241192846 12; V 11922941632 11; V 119217680088 12; V 119205982544 12; V 119194322141 12; V 119182697392 12; V 119171106876 12; V 119159549238 12; V 11914802319 11; V 119136527505 12; V 119125061019 12; V 119113622629 12; V 119102211286 12; V 119090825996 12]);
(V 622886372745 11, [V 119285631744 12; V 119266460988 12; V 119262159789 12; V 119257319216 12; V 119250132772 12; V 119241065568 12; V 119230734526 12; V 119219597489 12; V 11920795941 11; V 119196017684 12; V 119183899402 12; V 119171686569 12; V 119159432289 12; V 119147171014 12; V 119134925039 12; V 119122708651 12; V 11911053082 11; V 119098396948 12; V 11908631004 11; V 119074271483 12; V 119062281575 12; V 119050339884 12; V 119038445504 12; V 119026597219 12; V 11901479363 11; V 119003033232 12; V 118991314474 12; V 1189796358 10; V 118967995672 12; V 118956392588 12; V 118944825096 12; V 1189332918 10; V 118921791361 12; V 118910322501 12; V 118898884002 12; V 118887474706 12; V 118876093511 12; V 118864739372 12; V 118853411295 12; V 118842108338 12]);
(V 624990380762 11, [V 119026386232 12; V 119007547483 12; V 119003501302 12; V 118998894578 12; V 118991931483 12; V 118983077968 12; V 118972950699 12; V 118962007618 12; V 118950554161 12; V 118938788414 12; V 118926838233 12; V 118914786378 12; V 118902686651 12; V 118890574133 12; V 118878471669 12; V 118866394032 12; V 118854350612 12; V 118842347183 12; V 118830387074 12; V 118818471958 12; V 118806602388 12; V 11879477816 11; V 11878299857 11; V 118771262587 12; V 118759568979 12; V 118747916392 12; V 118736303413 12; V 118724728612 12; V 118713190567 12; V 118701687884 12; V 118690219209 12; V 118678783238 12; V 118667378715 12; V 118656004443 12; V 118644659276 12; V 118633342126 12; V 118622051954 12; V 118610787775 12; V 118599548653 12; V 118588333698 12]);
(V 627094388778 11, [V 11876169111 11; V 118743218805 12; V 118739439978 12; V 118735075977 12; V 118728344776 12; V 118719713392 12; V 118709798174 12; V 118699057139 12; V 118687796207 12; V 118676214173 12; V 118664439683 12; V 118652556267 12; V 118640618442 12; V 118628661925 12; V 118616710121 12; V 118604778293 12; V 118592876256 12; V 118581010158 12; V 118569183658 12; V 11855739872 11; V 118545656154 12; V 11853395599 11; V 118522297731 12; V 118510680534 12; V 118499103336 12; V 118487564939 12; V 118476064072 12; V 118464599433 12; V 118453169719 12; V 118441773647 12; V 118430409963 12; V 118419077456 12; V 11840777496 11; V 118396501355 12; V 118385255573 12; V 118374036594 12; V 118362843447 12; V 118351675207 12; V 118340530997 12; V 118329409979 12]);
(V 629198396794 11, [V 118491468438 12; V 118473374449 12; V 118469875986 12; V 118465766154 12; V 11845927642 11; V 118450875634 12; V 118441180422 12; V 118430649163 12; V 118419588386 12; V 118408197642 12; V 118396606377 12; V 118384898892 12; V 118373130414 12; V 118361337286 12; V 11834954347 11; V 118337764711 12; V 11832601125 11; V 118314289609 12; V 118302603775 12; V 118290956005 12; V 118279347371 12; V 118267778136 12; V 118256248015 12; V 118244756356 12; V 11823330227 11; V 118221884715 12; V 118210502566 12; V 118199154653 12; V 118187839794 12; V 118176556819 12; V 118165304577 12; V 118154081953 12; V 118142887868 12; V 118131721288 12; V 11812058122 11; V 118109466717 12; V 118098376874 12; V 11808731083 11; V 118076267766 12; V 1180652469 10])].
Definition tt_part6 : list (dec * list dec) := [
(V 63130240481 10, [V 118215639678 12; V 1181979165 10; V 11819471227 11; V 118190870183 12; V 118184632128 12; V 118176470229 12; V 11816700257 11; V 118156688451 12; V 11814583521 11; V 118134643208 12; V 118123242682 12; V 118111718682 12; V 118100127114 12; V 118088504929 12; V 118076876622 12; V 118065258412 12; V 118053660955 12; V 118042091141 12; V 118030553284 12; V 118019049934 12; V 118007582425 12; V 117996151256 12; V 117984756354 12; V 117973397263 12; V 117962073268 12; V 117950783488 12; V 117939526946 12; V 117928302606 12; V 117917109411 12; V 117905946303 12; V 117894812239 12; V 117883706201 12; V 117872627202 12; V 11786157429 11; V 117850546553 12; V 117839543116 12; V 117828563143 12; V 117817605838 12; V 117806670442 12; V 11779575623 11]);
(V 633406412826 11, [V 11793410937 11; V 117916750325 12; V 117913856586 12; V 117910296303 12; V 117904319677 12; V 117896404326 12; V 117887171268 12; V 117877081331 12; V 11786644285 11; V 117855457008 12; V 117844254797 12; V 117832921962 12; V 117821515042 12; V 117810071556 12; V 117798616509 12; V 11778716657 11; V 117775732799 12; V 117764322445 12; V 117752940146 12; V 117741588742 12; V 117730269829 12; V 117718984143 12; V 117707731827 12; V 117696512618 12; V 117685325982 12; V 117674171201 12; V 117663047445 12; V 117651953817 12; V 117640889386 12; V 117629853211 12; V 117618844356 12; V 117607861903 12; V 117596904957 12; V 117585972653 12; V 117575064159 12; V 117564178674 12; V 117553315435 12; V 117542473709 12; V 117531652798 12; V 117520852037 12]);
(V 635510420842 11, [V 117646767263 12; V 117629786308 12; V 117627221794 12; V 117623955615 12; V 117618248538 12; V 117610586444 12; V 117601594567 12; V 117591735686 12; V 117581319192 12; V 117570547043 12; V 1175595509 10; V 117548417129 12; V 117537202839 12; V 11752594607 11; V 117514672301 12; V 117503398631 12; V 117492136508 12; V 117480893532 12; V 11746967466 11; V 117458483018 12; V 117447320464 12; V 117436187973 12; V 117425085904 12; V 117414014192 12; V 117402972481 12; V 117391960221 12; V 117380976733 12; V 117370021259 12; V 117359092996 12; V 117348191122 12; V 117337314811 12; V 117326463245 12; V 117315635625 12; V 117304831174 12; V 11729404914 11; V 1172832888 10; V 117272549461 12; V 117261830458 12; V 117251131155 12; V 117240450947 12]);
(V 637614428858 11, [V 117353504036 12; V 117336940672 12; V 117334723891 12; V 117331760632 12; V 117326329157 12; V 117318926198 12; V 117310181899 12; V 117300561052 12; V 117290374011 12; V 117279823378 12; V 117269041372 12; V 117258114885 12; V 117247101526 12; V 11723603981 11; V 117224955654 12; V 117213866564 12; V 117202784362 12; V 117191716991 12; V 117180669721 12; V 117169645966 12; V 117158647844 12; V 117147676569 12; V 117136732718 12; V 117125816426 12; V 11711492752 11; V 117104065615 12; V 117093230188 12; V 117082420622 12; V 117071636245 12; V 117060876354 12; V 117050140235 12; V 117039427174 12; V 117028736468 12; V 117018067428 12; V 117007419386 12; V 116996791697 12; V 11698618374 11; V 116975594918 12; V 116965024661 12; V 116954472421 12]);
(V 639718436874 11, [V 1170542277 10; V 117038132991 12; V 117036278445 12; V 117033623402 12; V 117028472269 12; V 117021334212 12; V 117012844232 12; V 117003468881 12; V 116993519258 12; V 116983198443 12; V 11697263909 11; V 116961928527 12; V 116951124797 12; V 116940266843 12; V 116929380994 12; V 116918485142 12; V 116907591474 12; V 116896708269 12; V 116885841109 12; V 116874993692 12; V 1168641684 10; V 116853366687 12; V 11684258935 11; V 116831836725 12; V 116821108825 12; V 116810405434 12; V 116799726186 12; V 116789070606 12; V 116778438155 12; V 116767828253 12; V 116757240299 12; V 116746673684 12; V 116736127802 12; V 116725602055 12; V 11671509586 11; V 116704608652 12; V 116694139882 12; V 116683689023 12; V 116673255571 12; V 116662839038 12]);
(V 64182244489 10, [V 11674886636 11; V 116733280869 12; V 116731797344 12; V 11672945435 11; V 116724588782 12; V 116717722393 12; V 116709494477 12; V 116700372964 12; V 116690669474 12; V 116680587425 12; V 116670259804 12; V 116659774302 12; V 116649189353 12; V 116638544292 12; V 116627865837 12; V 116617172261 12; V 116606476104 12; V 116595785982 12; V 116585107787 12; V 116574445506 12; V 116563801784 12; V 116553178317 12; V 116542576127 12; V 116531995754 12; V 116521437397 12; V 116510901014 12; V 116500386396 12; V 116489893214 12; V 116479421065 12; V 116468969492 12; V 116458538008 12; V 116448126113 12; V 116437733299 12; V 116427359061 12; V 116417002901 12; V 116406664335 12; V 116396342889 12; V 116386038107 12; V 116375749549 12; V 116365476793 12]);
(V 643926452906 11, [V 116437354292 12; V 11642229554 11; V 116421188065 12; V 116419162772 12; V 116414590535 12; V 116408004673 12; V 116400048143 12; V 116391190006 12; V 116381742302 12; V 116371908725 12; V 116361822552 12; V 116351571805 12; V 116341215279 12; V 116330792692 12; V 116320331143 12; V 116309849277 12; V 116299359994 12; V 116288872245 12; V 116278392237 12; V 116267924247 12; V 11625747119 11; V 116247035008 12; V 116236616949 12; V 11622621776 11; V 116215837831 12; V 116205477296 12; V 116195136104 12; V 116184814078 12; V 116174510949 12; V 116164226388 12; V 116153960024 12; V 116143711465 12; V 116133480305 12; V 116123266131 12; V 116113068535 12; V 116102887112 12; V 116092721467 12; V 116082571215 12; V 116072435983 12; V 11606231541 11]);
(V 646030460922 11, [V 116119616099 12; V 116105082435 12; V 116104356505 12; V 116102659139 12; V 116098391887 12; V 11609209812 11; V 116084424168 12; V 116075840291 12; V 116066659046 12; V 11605708446 11; V 116047250124 12; V 1160372444 10; V 116027126454 12; V 116016936386 12; V 116006701687 12; V 115996441379 12; V 115986168728 12; V 115975893028 12; V 115965620806 12; V 115955356636 12; V 115945103706 12; V 11593486421 11; V 115924639625 12; V 115914430912 12; V 115904238653 12; V 11589406316 11; V 115883904547 12; V 115873762787 12; V 11586363775 11; V 115853529234 12; V 11584343699 11; V 115833360734 12; V 115823300162 12; V 115813254959 12; V 115803224804 12; V 115793209375 12; V 115783208355 12; V 115773221431 12; V 1157632483 10; V 115753288666 12]);
(V 648134468938 11, [V 115795565659 12; V 115781547505 12; V 115781212375 12; V 115779858427 12; V 115775911685 12; V 115769924179 12; V 115762545789 12; V 115754248363 12; V 115745345251 12; V 115736040972 12; V 115726469525 12; V 115716719665 12; V 115706850963 12; V 115696903929 12; V 115686906459 12; V 115676877975 12; V 115666832116 12; V 115656778532 12; V 115646724078 12; V 115636673635 12; V 115626630669 12; V 115616597631 12; V 115606576234 12; V 115596567654 12; V 115586572671 12; V 11557659178 11; V 115566625259 12; V 115556673236 12; V 115546735721 12; V 115536812645 12; V 115526903878 12; V 115517009248 12; V 115507128557 12; V 115497261585 12; V 115487408103 12; V 115477567873 12; V 115467740656 12; V 115457926215 12; V 115448124315 12; V 115438334726 12]);
(V 650238476954 11, [V 115465118405 12; V 115451605672 12; V 115451674598 12; V 115450683164 12; V 115447075013 12; V 115441409786 12; V 115434341349 12; V 115426343669 12; V 115417731252 12; V 115408709332 12; V 115399412449 12; V 11538992984 11; V 115380321537 12; V 115370628504 12; V 115360879075 12; V 11535109309 11; V 115341284585 12; V 115331463576 12; V 115321637261 12; V 115311810833 12; V 115301988046 12; V 115292171615 12; V 115282363493 12; V 115272565075 12; V 115262777346 12; V 115253000983 12; V 115243236435 12; V 115233483986 12; V 115223743791 12; V 115214015912 12; V 115204300343 12; V 115194597027 12; V 115184905871 12; V 115175226754 12; V 115165559537 12; V 115155904071 12; V 115146260197 12; V 115136627751 12; V 115127006571 12; V 115117396492 12]);
(V 65234248497 10, [V 115128200244 12; V 1151151861 10; V 115115674199 12; V 115115065073 12; V 115111814263 12; V 115106488155 12; V 115099744936 12; V 115092061122 12; V 115083752694 12; V 115075025822 12; V 115066015738 12; V 115056812269 12; V 115047475983 12; V 115038048353 12; V 115028558192 12; V 115019025787 12; V 115009465591 12; V 114999888007 12; V 114990300585 12; V 114980708842 12; V 114971116829 12; V 11496152753 11; V 114951943145 12; V 114942365294 12; V 114932795168 12; V 114923233632 12; V 11491368131 11; V 114904138643 12; V 114894605933 12; V 114885083378 12; V 114875571098 12; V 11486606915 11; V 114856577549 12; V 114847096276 12; V 114837625285 12; V 114828164514 12; V 114818713884 12; V 114809273311 12; V 114799842703 12; V 114790421962 12]);
(V 654446492986 11, [V 114784744867 12; V 114772231749 12; V 114773153822 12; V 114772945056 12; V 114770069441 12; V 114765099234 12; V 114758696882 12; V 114751341591 12; V 114743351003 12; V 114734932396 12; V 114726221834 12; V 114717309844 12; V 11470825762 11; V 114699107205 12; V 114689887934 12; V 114680620578 12; V 114671320032 12; V 114661997103 12; V 114652659707 12; V 114643313698 12; V 114633963431 12; V 114624612166 12; V 114615262355 12; V 114605915851 12; V 114596574052 12; V 114587238016 12; V 114577908545 12; V 11456858624 11; V 114559271553 12; V 114549964821 12; V 114540666289 12; V 114531376134 12; V 114522094481 12; V 11451282141 11; V 114503556974 12; V 114494301196 12; V 114485054083 12; V 114475815628 12; V 114466585811 12; V 114457364604 12]);
(V 656550501002 11, [V 114434690574 12; V 114422695418 12; V 114424065163 12; V 11442427215 11; V 114421788005 12; V 114417189942 12; V 114411144151 12; V 114404132348 12; V 114396473847 12; V 114388377131 12; V 11437997922 11; V 114371371446 12; V 114362615714 12; V 114353754702 12; V 11434481832 11; V 114335827855 12; V 114326798672 12; V 114317741998 12; V 114308666135 12; V 11429957728 11; V 114290480102 12; V 114281378145 12; V 11427227412 11; V 114263170113 12; V 114254067737 12; V 114244968248 12; V 114235872625 12; V 114226781635 12; V 114217695883 12; V 114208615843 12; V 114199541893 12; V 114190474329 12; V 114181413385 12; V 114172359249 12; V 114163312066 12; V 114154271953 12; V 114145239001 12; V 11413621328 11; V 114127194845 12; V 11411818374 11]);
(V 658654509018 11, [V 114077987611 12; V 114066536579 12; V 114068366584 12; V 11406900251 11; V 114066924676 12; V 114062714376 12; V 114057040713 12; V 114050387486 12; V 114043075565 12; V 11403531467 11; V 114027242862 12; V 114018952376 12; V 114010505908 12; V 114001946836 12; V 113993305691 12; V 113984604314 12; V 113975858563 12; V 113967080106 12; V 113958277642 12; V 113949457725 12; V 113940625344 12; V 113931784336 12; V 113922937675 12; V 113914087686 12; V 113905236201 12; V 113896384675 12; V 113887534269 12; V 113878685919 12; V 113869840384 12; V 113860998281 12; V 113852160118 12; V 113843326314 12; V 113834497217 12; V 113825673119 12; V 113816854264 12; V 11380804086 11; V 113799233083 12; V 113790431086 12; V 113781634998 12; V 113772844932 12]);
(V 660758517034 11, [V 11371460743 11; V 113703721119 12; V 113706022422 12; V 113707099161 12; V 113705441562 12; V 113701634122 12; V 113696347931 12; V 11369006835 11; V 113683117608 12; V 113675706652 12; V 113667974642 12; V 113660014791 12; V 113651890658 12; V 113643646376 12; V 113635313143 12; V 113626913384 12; V 113618463474 12; V 113609975542 12; V 113601458696 12; V 113592919855 12; V 113584364339 12; V 113575796281 12; V 113567218924 12; V 113558634838 12; V 113550046076 12; V 113541454296 12; V 113532860845 12; V 11352426683 11; V 113515673165 12; V 113507080613 12; V 113498489815 12; V 113489901314 12; V 113481315572 12; V 113472732989 12; V 113464153909 12; V 113455578631 12; V 113447007421 12; V 11343844051 11; V 113429878107 12; V 113421320395 12]);
(V 66286252505 10, [V 113344538605 12; V 11333422245 11; V 113337003805 12; V 113338532538 12; V 113337308581 12; V 113333918653 12; V 113329034963 12; V 113323143933 12; V 113316568946 12; V 11330952213 11; V 113302143775 12; V 113294528125 12; V 113286739653 12; V 113278823296 12; V 11327081095 11; V 113262725655 12; V 113254584323 12; V 113246399557 12; V 113238180885 12; V 113229935603 12; V 113221669368 12; V 113213386615 12; V 113205090859 12; V 11319678492 11; V 113188471075 12; V 113180151188 12; V 113171826796 12; V 113163499176 12; V 113155169403 12; V 113146838385 12; V 113138506899 12; V 113130175614 12; V 113121845109 12; V 11311351589 11; V 113105188404 12; V 113096863045 12; V 113088540165 12; V 11308022008 11; V 113071903073 12; V 113063589404 12]);
(V 664966533066 11, [V 112967771207 12; V 112958021224 12; V 112961289657 12; V 112963281263 12; V 112962503983 12; V 112959545728 12; V 112955079125 12; V 112949591254 12; V 112943406455 12; V 112936737972 12; V 112929727222 12; V 112922469505 12; V 11291503024 11; V 112907455195 12; V 112899776994 12; V 112892019307 12; V 1128841996 10; V 112876330963 12; V 112868423354 12; V 112860484452 12; V 112852520255 12; V 112844535506 12; V 112836533999 12; V 112828518803 12; V 112820492426 12; V 112812456938 12; V 112804414067 12; V 112796365267 12; V 112788311771 12; V 112780254637 12; V 112772194779 12; V 112764132992 12; V 112756069975 12; V 112748006342 12; V 112739942642 12; V 112731879365 12; V 112723816953 12; V 112715755805 12; V 112707696283 12; V 11269963872 11]);
(V 667070541082 11, [V 112584285448 12; V 112575103122 12; V 112578866894 12; V 112581332577 12; V 112581014663 12; V 112578501645 12; V 112574466159 12; V 112569395652 12; V 112563615251 12; V 112557339223 12; V 112550710076 12; V 112543824156 12; V 112536747836 12; V 112529527727 12; V 112522197191 12; V 112514780541 12; V 112507295807 12; V 112499756574 12; V 112492173237 12; V 112484553862 12; V 112476904796 12; V 112469231092 12; V 112461536824 12; V 112453825316 12; V 112446099307 12; V 112438361079 12; V 11243061255 11; V 112422855352 12; V 112415090881 12; V 112407320344 12; V 112399544794 12; V 112391765155 12; V 112383982244 12; V 112376196786 12; V 112368409435 12; V 112360620776 12; V 112352831342 12; V 112345041615 12; V 11233725204 11; V 112329463021 12]);
(V 669174549098 11, [V 112194053506 12; V 112185457145 12; V 11218973003 11; V 112192682249 12; V 112192836146 12; V 112190781311 12; V 112187190387 12; V 112182551032 12; V 112177188998 12; V 112171319458 12; V 112165085941 12; V 1121585858 10; V 112151886341 12; V 112145035013 12; V 112138065916 12; V 112131004009 12; V 11212386789 11; V 112116671641 12; V 112109426099 12; V 112102139723 12; V 112094819208 12; V 112087469922 12; V 112080096224 12; V 112072701692 12; V 1120652893 10; V 11205786154 11; V 112050420527 12; V 112042968069 12; V 112035505728 12; V 112028034861 12; V 112020556662 12; V 112013072183 12; V 112005582361 12; V 111998088037 12; V 111990589964 12; V 111983088828 12; V 111975585252 12; V 111968079804 12; V 111960573008 12; V 111953065347 12]);
(V 671278557114 11, [V 111797050219 12; V 111789077374 12; V 11179388116 11; V 111797334253 12; V 111797972368 12; V 11179638819 11; V 111793254815 12; V 11178906007 11; V 111784130187 12; V 111778681116 12; V 111772857304 12; V 111766757049 12; V 111760448551 12; V 111753980074 12; V 111747386442 12; V 111740693257 12; V 111733919681 12; V 111727080298 12; V 111720186386 12; V 111713246797 12; V 111706268579 12; V 111699257415 12; V 111692217951 12; V 111685154022 12; V 111678068835 12; V 1116709651 10; V 111663845124 12; V 111656710897 12; V 111649564144 12; V 111642406378 12; V 111635238929 12; V 111628062984 12; V 111620879599 12; V 111613689727 12; V 11160649423 11; V 111599293888 12; V 111592089419 12; V 111584881476 12; V 111577670665 12; V 111570457544 12]);
(V 67338256513 10, [V 111393266092 12; V 111385968546 12; V 111391330907 12; V 11139530063 11; V 111396435513 12; V 111395334296 12; V 111392671256 12; V 11138893444 11; V 111384450443 12; V 111379435851 12; V 111374035924 12; V 111368349821 12; V 111362446585 12; V 111356375261 12; V 111350171378 12; V 111343861171 12; V 111337464358 12; V 111330996021 12; V 111324467881 12; V 111317889183 12; V 111311267328 12; V 111304608317 12; V 111297917081 12; V 111291197716 12; V 111284453664 12; V 11127768785 11; V 111270902779 12; V 11126410062 11; V 111257283265 12; V 11125045238 11; V 111243609439 12; V 111236755757 12; V 111229892515 12; V 111223020779 12; V 111216141514 12; V 111209255604 12; V 111202363856 12; V 111195467012 12; V 111188565759 12; V 111181660731 12]);
(V 675486573146 11, [V 110982720178 12; V 110976152069 12; V 110982099844 12; V 110986601777 12; V 110988246145 12; V 110987640375 12; V 110985460593 12; V 110982195142 12; V 110978170887 12; V 110973604935 12; V 110968643248 12; V 110963385771 12; V 11095790233 11; V 110952242713 12; V 110946443133 12; V 110940530439 12; V 110934524901 12; V 110928442093 12; V 110922294174 12; V 110916090784 12; V 110909839677 12; V 110903547173 12; V 110897218487 12; V 110890857978 12; V 110884469325 12; V 110878055666 12; V 110871619708 12; V 110865163799 12; V 110858689999 12; V 110852200127 12; V 1108456958 10; V 110839178466 12; V 110832649428 12; V 110826109865 12; V 110819560853 12; V 110813003372 12; V 110806438323 12; V 110799866536 12; V 11079328878 11; V 110786705766 12]);
(V 677590581162 11, [V 110565468333 12; V 110559667749 12; V 110566219291 12; V 110571267069 12; V 110573433748 12; V 110573336394 12; V 110571653238 12; V 110568872944 12; V 110565322587 12; V 110561219704 12; V 110556710874 12; V 110551896756 12; V 110546847911 12; V 110541614832 12; V 110536234391 12; V 110530734035 12; V 11052513458 11; V 110519452084 12; V 110513699144 12; V 110507885793 12; V 110502020135 12; V 11049610881 11; V 110490157322 12; V 110484170288 12; V 110478151627 12; V 110472104694 12; V 110466032392 12; V 110459937254 12; V 110453821507 12; V 110447687124 12; V 110441535867 12; V 110435369314 12; V 110429188893 12; V 110422995899 12; V 110416791514 12; V 110410576817 12; V 110404352805 12; V 110398120395 12; V 110391880438 12; V 110385633725 12]);
(V 679694589178 11, [V 110141596816 12; V 110136569084 12; V 110143730879 12; V 110149335626 12; V 110152037595 12; V 110152462298 12; V 110151289786 12; V 11014900898 11; V 110145947112 12; V 110142322095 12; V 110138281068 12; V 110133925351 12; V 110129326199 12; V 110124534783 12; V 11011958861 11; V 110114515718 12; V 110109337452 12; V 110104070356 12; V 110098727458 12; V 110093319184 12; V 110087853991 12; V 110082338835 12; V 11007677951 11; V 110071180895 12; V 110065547146 12; V 110059881836 12; V 110054188069 12; V 110048468558 12; V 1100427257 10; V 110036961623 12; V 110031178232 12; V 11002537724 11; V 110019560199 12; V 110013728517 12; V 110007883484 12; V 110002026283 12; V 109996158002 12; V 109990279647 12; V 109984392153 12; V 109978496389 12]);
(V 681798597194 11, [V 109711197213 12; V 109706914877 12; V 109714685478 12; V 10972085711 11; V 10972410779 11; V 109725068958 12; V 109724421833 12; V 10972265545 11; V 109720097166 12; V 109716965236 12; V 109713407328 12; V 109709525393 12; V 109705391349 12; V 109701057026 12; V 109696560554 12; V 109691930546 12; V 109687188877 12; V 109682352567 12; V 109677435078 12; V 109672447225 12; V 109667397819 12; V 109662294134 12; V 109657142253 12; V 109651947318 12; V 109646713722 12; V 109641445259 12; V 109636145229 12; V 109630816532 12; V 109625461732 12; V 109620083113 12; V 109614682726 12; V 109609262415 12; V 109603823858 12; V 109598368579 12; V 109592897975 12; V 109587413329 12; V 109581915825 12; V 10957640656 11; V 109570886549 12; V 109565356739 12]);
(V 68390260521 10, [V 109274337153 12; V 109270763342 12; V 109279142817 12; V 109285892599 12; V 109289706342 12; V 109291219157 12; V 10929111284 11; V 109289876401 12; V 10928783729 11; V 109285214095 12; V 109282154997 12; V 109278762564 12; V 109275109364 12; V 10927124787 11; V 109267216828 12; V 109263045421 12; V 109258756048 12; V 109254366206 12; V 109249889788 12; V 109245338 9; V 109240720005 12; V 109236043398 12; V 109231314549 12; V 109226538864 12; V 109221720978 12; V 1092168649 10; V 109211974134 12; V 109207051761 12; V 109202100515 12; V 109197122839 12; V 109192120923 12; V 109187096751 12; V 109182052121 12; V 109176988676 12; V 10917190792 11; V 109166811238 12; V 109161699908 12; V 109156575115 12; V 109151437961 12; V 10914628947 11]);
(V 686006613226 11, [V 108831051471 12; V 108828173817 12; V 108837172882 12; V 108844515663 12; V 108848908149 12; V 108850988521 12; V 10885143899 11; V 108850748495 12; V 108849244573 12; V 108847146141 12; V 108844601892 12; V 108841715 9; V 108838558679 12; V 108835186043 12; V 108831636444 12; V 108827939636 12; V 10882411854 11; V 10882019113 11; V 108816171731 12; V 108812071938 12; V 10880790127 11; V 108803667641 12; V 108799377713 12; V 108795037154 12; V 108790650839 12; V 108786222998 12; V 108781757333 12; V 108777257113 12; V 10877272524 11; V 108768164311 12; V 108763576666 12; V 108758964419 12; V 108754329494 12; V 10874967365 11; V 108744998501 12; V 108740305532 12; V 108735596117 12; V 10873087153 11; V 108726132956 12; V 108721381498 12]);
(V 688110621242 11, [V 108381365593 12; V 108379216101 12; V 10838885893 11; V 108396813619 12; V 108401801888 12; V 10840446633 11; V 108405489961 12; V 108405361752 12; V 108404409352 12; V 108402852013 12; V 108400838935 12; V 108398473901 12; V 108395830763 12; V 108392963271 12; V 10838991139 11; V 108386705439 12; V 108383368864 12; V 108379920114 12; V 108376373951 12; V 10837274236 11; V 108369035214 12; V 108365260749 12; V 108361425917 12; V 108357536652 12; V 108353598068 12; V 108349614616 12; V 108345590199 12; V 108341528269 12; V 108337431899 12; V 108333303844 12; V 108329146587 12; V 108324962377 12; V 108320753263 12; V 108316521121 12; V 108312267672 12; V 108307994504 12; V 108303703086 12; V 10829939478 11; V 108295070856 12; V 108290732497 12]);
(V 690214629259 11, [V 10792533761 11; V 107923982088 12; V 10793430086 11; V 107942888781 12; V 107948490783 12; V 107951756201 12; V 107953369598 12; V 107953820211 12; V 107953435863 12; V 107952436152 12; V 107950970783 12; V 107949144135 12; V 107947030701 12; V 107944684866 12; V 107942147201 12; V 107939448598 12; V 107936613025 12; V 107933659412 12; V 107930602952 12; V 107927456026 12; V 107924228862 12; V 107920930017 12; V 107917566734 12; V 107914145212 12; V 107910670807 12; V 107907148188 12; V 107903581461 12; V 107899974262 12; V 107896329834 12; V 107892651088 12; V 107888940652 12; V 10788520091 11; V 107881434036 12; V 107877642022 12; V 107873826697 12; V 107869989751 12; V 107866132747 12; V 107862257139 12; V 107858364279 12; V 107854455429 12]);
(V 692318637275 11, [V 107463089241 12; V 107462592721 12; V 107473617377 12; V 107482859445 12; V 107489093244 12; V 107492976651 12; V 107495196484 12; V 10749624252 11; V 107496442843 12; V 107496017408 12; V 107495116415 12; V 107493844834 12; V 107492277789 12; V 107490470296 12; V 107488463536 12; V 107486288969 12; V 107483971091 12; V 107481529309 12; V 107478979252 12; V 107476333694 12; V 107473603218 12; V 107470796704 12; V 107467921686 12; V 107464984628 12; V 107461991125 12; V 107458946068 12; V 107455853762 12; V 107452718028 12; V 107449542278 12; V 107446329581 12; V 107443082707 12; V 107439804177 12; V 107436496289 12; V 107433161149 12; V 107429800697 12; V 107426416723 12; V 107423010886 12; V 107419584728 12; V 107416139685 12; V 1074126771 10]);
(V 694422645291 11, [V 106994803494 12; V 106995196605 12; V 107006946153 12; V 107016860391 12; V 107023743364 12; V 107028261584 12; V 107031104442 12; V 107032762465 12; V 107033564075 12; V 107033729593 12; V 107033409706 12; V 107032709957 12; V 107031706093 12; V 107030453758 12; V 107028994739 12; V 107027361064 12; V 107025577752 12; V 107023664692 12; V 107021637945 12; V 107019510677 12; V 107017293828 12; V 107014996597 12; V 10701262681 11; V 107010191192 12; V 107007695581 12; V 107005145085 12; V 10700254421 11; V 106999896959 12; V 106997206916 12; V 106994477303 12; V 106991711036 12; V 106988910769 12; V 106986078923 12; V 106983217722 12; V 106980329212 12; V 106977415285 12; V 106974477696 12; V 106971518074 12; V 10696853794 11; V 106965538716 12]);
(V 696526653307 11, [V 10652069352 11; V 106521962083 12; V 106534442335 12; V 106545042939 12; V 106552591266 12; V 106557760696 12; V 106561242977 12; V 106563529443 12; V 106564948893 12; V 106565722013 12; V 106565999959 12; V 106565888838 12; V 106565465008 12; V 106564784733 12; V 106563890401 12; V 106562814606 12; V 106561582887 12; V 106560215609 12; V 106558729266 12; V 106557137414 12; V 106555451343 12; V 106553680572 12; V 106551833217 12; V 106549916264 12; V 106547935788 12; V 106545897115 12; V 10654380495 11; V 10654166348 11; V 106539476454 12; V 106537247251 12; V 10653497893 11; V 106532674277 12; V 106530335838 12; V 106527965951 12; V 106525566771 12; V 106523140289 12; V 106520688355 12; V 106518212687 12; V 106515714889 12; V 106513196461 12]);
(V 698630661323 11, [V 106040966628 12; V 106043068111 12; V 106056276534 12; V 106067574719 12; V 106075803344 12; V 10608163985 11; V 1060857777 10; V 106088708922 12; V 106090762663 12; V 106092159961 12; V 106093052426 12; V 106093546717 12; V 106093719793 12; V 106093628531 12; V 106093315913 12; V 106092815091 12; V 106092152121 12; V 106091347838 12; V 106090419161 12; V 106089380032 12; V 106088242092 12; V 106087015172 12; V 106085707673 12; V 106084326843 12; V 10608287899 11; V 106081369656 12; V 106079803743 12; V 106078185618 12; V 106076519199 12; V 106074808015 12; V 106073055269 12; V 106071263879 12; V 106069436514 12; V 106067575625 12; V 106065683475 12; V 106063762156 12; V 106061813608 12; V 106059839641 12; V 106057841941 12; V 106055822086 12]);
(V 700734669339 11, [V 105555803627 12; V 105558698907 12; V 105572633442 12; V 105584639452 12; V 105593562463 12; V 105600081432 12; V 105604890752 12; V 105608482887 12; V 105611187252 12; V 105613225207 12; V 105614748807 12; V 105615865255 12; V 105616652104 12; V 105617166835 12; V 105617453016 12; V 105617544349 12; V 105617467396 12; V 105617243452 12; V 105616889859 12; V 105616420935 12; V 105615848662 12; V 105615183184 12; V 105614433182 12; V 105613606156 12; V 10561270865 11; V 105611746416 12; V 105610724551 12; V 105609647601 12; V 105608519646 12; V 10560734437 11; V 105606125115 12; V 10560486493 11; V 105603566605 12; V 105602232705 12; V 105600865597 12; V 105599467474 12; V 10559804037 11; V 105596586181 12; V 105595106676 12; V 10559360351 11]);
(V 702838677355 11, [V 105065360587 12; V 105069044474 12; V 105083711675 12; V 105096436941 12; V 105106068198 12; V 105113284741 12; V 105118781241 12; V 105123050306 12; V 105126421504 12; V 105129116491 12; V 105131287761 12; V 105133043059 12; V 10513446053 11; V 105135598251 12; V 105136500364 12; V 105137201107 12; V 105137727539 12; V 105138101405 12; V 105138340454 12; V 105138459377 12; V 105138470489 12; V 105138384236 12; V 105138209574 12; V 105137954254 12; V 105137625047 12; V 105137227913 12; V 105136768141 12; V 105136250452 12; V 105135679089 12; V 105135057884 12; V 105134390319 12; V 10513367957 11; V 105132928549 12; V 105132139932 12; V 105131316192 12; V 105130459619 12; V 105129572339 12; V 105128656335 12; V 105127713458 12; V 105126745441 12]);
(V 704942685371 11, [V 10456979233 11; V 104574306201 12; V 104589724831 12; V 104603183424 12; V 104613537215 12; V 10462146642 11; V 104627665715 12; V 104632627609 12; V 104636681736 12; V 104640050026 12; V 104642885422 12; V 104645296215 12; V 104647361141 12; V 104649138863 12; V 104650674083 12; V 104652001566 12; V 104653148848 12; V 104654138112 12; V 104654987503 12; V 104655712071 12; V 104656324456 12; V 104656835398 12; V 104657254121 12; V 10465758862 11; V 104657845889 12; V 104658032091 12; V 104658152703 12; V 104658212617 12; V 104658216235 12; V 104658167538 12; V 104658070142 12; V 104657927353 12; V 104657742197 12; V 104657517464 12; V 104657255729 12; V 104656959379 12; V 104656630631 12; V 104656271554 12; V 104655884079 12; V 104655470018 12]);
(V 707046693387 11, [V 104069288799 12; V 10407470498 11; V 10409090348 11; V 104105112362 12; V 104116203832 12; V 104124860994 12; V 104131778678 12; V 104137449212 12; V 104142202258 12; V 104146260033 12; V 104149775944 12; V 104152858843 12; V 104155588051 12; V 10415802281 11; V 104160208368 12; V 104162179995 12; V 104163965692 12; V 104165588061 12; V 104167065631 12; V 104168413797 12; V 104169645512 12; V 104170771804 12; V 104171802154 12; V 104172744795 12; V 104173606938 12; V 104174394945 12; V 104175114475 12; V 104175770588 12; V 104176367843 12; V 104176910363 12; V 104177401901 12; V 104177845883 12; V 104178245455 12; V 104178603515 12; V 104178922738 12; V 104179205607 12; V 104179454431 12; V 104179671362 12; V 104179858411 12; V 104180017466 12]);
(V 709150701403 11, [V 10356410454 11; V 10357048859 11; V 103587497615 12; V 10360247563 11; V 1036143208 10; V 103623721492 12; V 103631373173 12; V 10363776808 11; V 103643235945 12; V 103647999314 12; V 103652212088 12; V 103655983689 12; V 103659394023 12; V 103662502897 12; V 103665356088 12; V 103667989351 12; V 103670431131 12; V 103672704437 12; V 103674828161 12; V 103676818032 12; V 103678687307 12; V 103680447286 12; V 103682107703 12; V 10368367702 11; V 103685162658 12; V 103686571173 12; V 1036879084 10; V 103689179564 12; V 103690389376 12; V 1036915421 10; V 103692641619 12; V 103693691481 12; V 103694694948 12; V 103695655021 12; V 103696574478 12; V 103697455895 12; V 103698301669 12; V 103699114036 12; V 103699895087 12; V 103700646782 12]);
(V 711254709419 11, [V 103054560272 12; V 103061935229 12; V 103079779033 12; V 103095544961 12; V 10310816025 11; V 103118320177 12; V 103126721426 12; V 103133856349 12; V 103140054855 12; V 103145539878 12; V 103150465847 12; V 103154942761 12; V 103159051104 12; V 103162851232 12; V 103166389429 12; V 103169701917 12; V 103172817565 12; V 103175759767 12; V 103178547766 12; V 10318119761 11; V 103183722844 12; V 103186135036 12; V 10318844416 11; V 103190658899 12; V 103192786878 12; V 10319483484 11; V 103196808791 12; V 103198714119 12; V 103200555679 12; V 103202337874 12; V 103204064714 12; V 103205739868 12; V 103207366706 12; V 103208948336 12; V 103210487634 12; V 103211987268 12; V 10321344972 11; V 103214877311 12; V 103216272207 12; V 103217636443 12]);
(V 713358717435 11, [V 102541012283 12; V 102549351691 12; V 102568043021 12; V 102584613377 12; V 102598014699 12; V 102608949344 12; V 10261811556 11; V 102626006018 12; V 102632950913 12; V 102639173623 12; V 102644829127 12; V 102650028004 12; V 102654851299 12; V 102659359896 12; V 102663600567 12; V 102667609978 12; V 102671417401 12; V 102675046596 12; V 102678517142 12; V 10268184539 11; V 102685045165 12; V 102688128285 12; V 10269110496 11; V 102693984085 12; V 102696773481 12; V 102699480071 12; V 10270211003 11; V 102704668899 12; V 102707161677 12; V 1027095929 10; V 102711966702 12; V 102714286869 12; V 10271655688 11; V 102718779944 12; V 102720959032 12; V 102723096903 12; V 102725196127 12; V 1027272591 10; V 10272928807 11; V 10273128514 11]);
(V 715462725451 11, [V 10202381037 11; V 102033067704 12; V 102052608878 12; V 102069996267 12; V 102084198005 12; V 102095922157 12; V 102105868386 12; V 102114529713 12; V 102122236661 12; V 102129213075 12; V 102135614481 12; V 102141552022 12; V 102147107286 12; V 10215234166 11; V 102157302379 12; V 102162026527 12; V 102166543761 12; V 102170878191 12; V 102175049713 12; V 102179074967 12; V 102182968045 12; V 102186741009 12; V 10219040429 11; V 10219396699 11; V 102197437117 12; V 102200821769 12; V 102204127283 12; V 102207359348 12; V 102210523102 12; V 102213623212 12; V 102216663931 12; V 102219649158 12; V 102222582478 12; V 1022254672 10; V 102228306389 12; V 10223110289 11; V 102233859358 12; V 102236578268 12; V 102239261941 12; V 102241912554 12]);
(V 717566733467 11, [V 10150327735 11; V 101513430479 12; V 101533819297 12; V 101552031902 12; V 101567046136 12; V 101579573478 12; V 10159031423 11; V 101599761507 12; V 101608246066 12; V 101615992176 12; V 101623155877 12; V 101629848842 12; V 101636153171 12; V 101642130724 12; V 101647829171 12; V 101653285994 12; V 101658531213 12; V 101663589267 12; V 101668480357 12; V 101673221398 12; V 101677826735 12; V 101682308664 12; V 101686677828 12; V 101690943526 12; V 101695113948 12; V 101699196359 12; V 101703197252 12; V 101707122458 12; V 101710977253 12; V 101714766424 12; V 101718494345 12; V 101722165023 12; V 101725782145 12; V 101729349118 12; V 101732869096 12; V 101736345013 12; V 101739779601 12; V 101743175417 12; V 101746534852 12; V 101749860154 12]);
(V 719670741483 11, [V 100979728092 12; V 100990803236 12; V 101012039108 12; V 101031081406 12; V 101046917736 12; V 101060260651 12; V 101071809786 12; V 101082057772 12; V 101091335358 12; V 101099867111 12; V 101107809511 12; V 101115274708 12; V 101122345268 12; V 101129083491 12; V 101135537454 12; V 101141745013 12; V 101147736527 12; V 101153536752 12; V 101159166171 12; V 101164641965 12; V 10116997872 11; V 101175188952 12; V 101180283509 12; V 101185271879 12; V 101190162423 12; V 10119496257 11; V 101199678958 12; V 101204317562 12; V 101208883781 12; V 101213382528 12; V 101217818287 12; V 101222195171 12; V 101226516968 12; V 101230787176 12; V 101235009039 12; V 101239185575 12; V 101243319595 12; V 10124741373 11; V 101251470444 12; V 101255492052 12]);
(V 721774749499 11, [V 100453511696 12; V 100465567893 12; V 100487654091 12; V 100507528439 12; V 100524194532 12; V 100538364231 12; V 100550734947 12; V 100561798045 12; V 100571883888 12; V 100581217149 12; V 100589954633 12; V 10059820889 11; V 100606062902 12; V 100613579367 12; V 100620806736 12; V 100627783211 12; V 100634539474 12; V 100641100572 12; V 100647487262 12; V 100653716972 12; V 100659804516 12; V 100665762621 12; V 100671602331 12; V 10067733331 11; V 100682964087 12; V 100688502244 12; V 100693954563 12; V 100699327149 12; V 100704625528 12; V 100709854727 12; V 100715019338 12; V 100720123577 12; V 100725171328 12; V 100730166179 12; V 100735111462 12; V 100740010272 12; V 100744865501 12; V 10074967985 11; V 100754455855 12; V 100759195896 12]);
(V 723878757515 11, [V 999250388953 13; V 999381285642 13; V 999610703798 13; V 999817789984 13; V 999992817172 13; V 100014288662 12; V 100027493616 12; V 100039385869 12; V 100050294978 12; V 100060445487 12; V 100069994381 12; V 100079054522 12; V 100087709239 12; V 100096021582 12; V 10010404034 11; V 100111804033 12; V 10011934364 11; V 100126684483 12; V 100133847572 12; V 100140850569 12; V 100147708503 12; V 100154434302 12; V 100161039192 12; V 100167533007 12; V 100173924435 12; V 100180221203 12; V 100186430228 12; V 100192557742 12; V 100198609391 12; V 100204590312 12; V 100210505201 12; V 100216358372 12; V 100222153801 12; V 100227895165 12; V 100233585875 12; V 100239229109 12; V 10024482783 11; V 100250384812 12; V 100255902657 12; V 100261383811 12]);
(V 725982765531 11, [V 993947725925 13; V 994089125763 13; V 994327147705 13; V 994542617107 13; V 994726084663 13; V 994884629651 13; V 995025144716 13; V 995152496054 13; V 995269967481 13; V 995379800828 13; V 995483566252 13; V 995582394392 13; V 995677121276 13; V 995768380392 13; V 995856662584 13; V 995942355931 13; V 996025772904 13; V 996107169261 13; V 996186757445 13; V 996264716269 13; V 996341198042 13; V 996416333893 13; V 99649023781 12; V 996563009752 13; V 996634738065 13; V 996705501401 13; V 996775370232 13; V 996844408081 13; V 996912672515 13; V 996980215966 13; V 997047086403 13; V 997113327893 13; V 997178981077 13; V 997244083564 13; V 997308670273 13; V 997372773718 13; V 997436424262 13; V 997499650329 13; V 997562478592 13; V 997624934135 13]);
(V 728086773547 11, [V 988631966998 13; V 988783693224 13; V 989030361186 13; V 989254288125 13; V 989446286962 13; V 989613414644 13; V 989762517271 13; V 989898432189 13; V 99002442929 12; V 990142744933 13; V 990254948099 13; V 990362170362 13; V 990465249676 13; V 990564821889 13; V 990661380345 13; V 990755315618 13; V 990846942589 13; V 990936519298 13; V 991024260334 13; V 991110346511 13; V 991194932001 13; V 991278149662 13; V 99136011509 12; V 991440929736 13; V 991520683339 13; V 991599455845 13; V 991677318937 13; V 991754337272 13; V 991830569482 13; V 991906068999 13; V 991980884734 13; V 992055061647 13; V 992128641223 13; V 992201661871 13; V 992274159269 13; V 992346166659 13; V 992417715093 13; V 992488833655 13; V 992559549648 13; V 992629888762 13]);
(V 730190781563 11, [V 983307960137 13; V 983469703817 13; V 983725078841 13; V 983957578223 13; V 984158221291 13; V 984334046254 13; V 984491859126 13; V 98463647073 12; V 984771136813 13; V 98489808712 12; V 985018888213 13; V 985134671521 13; V 985246276065 13; V 985354339388 13; V 985459356818 13; V 985561721011 13; V 985661748924 13; V 985759700611 13; V 985855792575 13; V 985950207435 13; V 986043101056 13; V 986134607877 13; V 98622484497 12; V 986313915165 13; V 986401909487 13; V 986488909087 13; V 986574986776 13; V 986660208272 13; V 986744633204 13; V 986828315944 13; V 986911306294 13; V 986993650056 13; V 987075389513 13; V 987156563835 13; V 987237209426 13; V 987317360216 13; V 98739704792 12; V 987476302251 13; V 987555151118 13; V 987633620789 13]);
(V 732294789579 11, [V 977980627602 13; V 978152134731 13; V 978416315095 13; V 978657536396 13; V 978866955917 13; V 979051600085 13; V 979218247202 13; V 979371687601 13; V 979515164444 13; V 97965090048 12; V 97978045888 12; V 97990496992 12; V 980025272823 13; V 980142006122 13; V 980255666566 13; V 980366648446 13; V 98047527043 12; V 980581794281 13; V 980686438162 13; V 980789386284 13; V 980890796017 13; V 980990803219 13; V 981089526295 13; V 981187069328 13; V 981283524519 13; V 981378974123 13; V 981473491993 13; V 981567144825 13; V 981659993175 13; V 981752092294 13; V 981843492813 13; V 981934241323 13; V 982024380861 13; V 982113951312 13; V 982202989765 13; V 982291530805 13; V 98237960677 12; V 982467247975 13; V 982554482903 13; V 982641338373 13]);
(V 734398797595 11, [V 972655186973 13; V 972836289118 13; V 973109397898 13; V 973359506513 13; V 973577844118 13; V 973771433308 13; V 973947039403 13; V 974109440083 13; V 974261868526 13; V 974406540624 13; V 974545015411 13; V 974678421089 13; V 974807596229 13; V 974933179633 13; V 975055668883 13; V 975175459423 13; V 97529287124 12; V 975408167478 13; V 975521567684 13; V 975633257424 13; V 97574339537 12; V 975852118623 13; V 975959546769 13; V 976065785006 13; V 97617092659 12; V 976275054775 13; V 976378244359 13; V 976480562933 13; V 976582071902 13; V 976682827323 13; V 976782880597 13; V 976882279049 13; V 976981066413 13; V 977079283246 13; V 977176967275 13; V 977274153698 13; V 977370875442 13; V 977467163385 13; V 97756304655 12; V 977658552272 13])].
Definition tt_part7 : list (dec * list dec) := [
(V 736502805611 11, [V 96733731271 12; V 967527842576 13; V 967809991513 13; V 968069144072 13; V 968296537406 13; V 968499195898 13; V 968683884959 13; V 968855376887 13; V 969016897442 13; V 969170655901 13; V 969318206529 13; V 969460674594 13; V 969598897187 13; V 969733512658 13; V 969865018821 13; V 969993811774 13; V 970120212406 13; V 970244484894 13; V 970366849875 13; V 970487494016 13; V 970606577073 13; V 970724237203 13; V 970840595004 13; V 970955756642 13; V 971069816303 13; V 971182858121 13; V 971294957736 13; V 971406183542 13; V 971516597713 13; V 971626257037 13; V 971735213614 13; V 971843515442 13; V 971951206897 13; V 972058329151 13; V 972164920524 13; V 972271016781 13; V 972376651391 13; V 972481855756 13; V 972586659395 13; V 972691090125 13]);
(V 738606813627 11, [V 962033102272 13; V 962232838524 13; V 962524101755 13; V 962792425991 13; V 963028996772 13; V 963240842045 13; V 963434735704 13; V 963615449332 13; V 963786202778 13; V 963949198634 13; V 964105985712 13; V 964257685506 13; V 964405132824 13; V 964548964862 13; V 964689679061 13; V 964827671665 13; V 964963264036 13; V 965096721019 13; V 965228264032 13; V 965358080574 13; V 965486331255 13; V 965613155083 13; V 96573867349 12; V 965862993458 13; V 965986209958 13; V 966108407885 13; V 966229663611 13; V 966350046233 13; V 9664696186 11; V 966588438153 13; V 966706557619 13; V 966824025597 13; V 966940887043 13; V 967057183688 13; V 967172954386 13; V 967288235416 13; V 967403060743 13; V 967517462238 13; V 967631469875 13; V 967745111897 13]);
(V 740710821643 11, [V 956748883683 13; V 956957641959 13; V 957258066405 13; V 957535653963 13; V 957781501791 13; V 958002641529 13; V 958205858193 13; V 958395923639 13; V 958576051653 13; V 958748437466 13; V 958914623583 13; V 959075726873 13; V 959232579077 13; V 959385815543 13; V 959535932748 13; V 959683326571 13; V 95982831841 12; V 959971173403 13; V 960112113424 13; V 960251326524 13; V 960388973922 13; V 96052519526 12; V 96066011262 12; V 96079383363 12; V 960926453899 13; V 961058058949 13; V 961188725763 13; V 961318524037 13; V 961447517199 13; V 961575763252 13; V 961703315467 13; V 961830222971 13; V 961956531229 13; V 962082282462 13; V 962207515997 13; V 962332268567 13; V 96245657457 12; V 962580466291 13; V 962703974097 13; V 962827126604 13]);
(V 742814829659 11, [V 951491065983 13; V 951708897457 13; V 952018541897 13; V 952305455032 13; V 952560658774 13; V 952791191355 13; V 953003846655 13; V 953203394301 13; V 953393040187 13; V 953574970853 13; V 953750721443 13; V 95392140331 12; V 954087844358 13; V 954250677417 13; V 954410397408 13; V 954567399337 13; V 954722004194 13; V 954874477026 13; V 955025039824 13; V 955173880901 13; V 955321161826 13; V 955467022651 13; V 955611585905 13; V 955754959682 13; V 955897240074 13; V 956038513086 13; V 956178856186 13; V 95631833955 12; V 956457027079 13; V 956594977239 13; V 956732243759 13; V 956868876204 13; V 957004920472 13; V 957140419196 13; V 957275412102 13; V 957409936306 13; V 957544026567 13; V 957677715516 13; V 957811033839 13; V 95794401045 12]);
(V 744918837675 11, [V 94626623233 12; V 946493533378 13; V 946812498962 13; V 94710878464 12; V 947373410049 13; V 94761342829 12; V 94783563693 12; V 94804479852 12; V 94824410809 12; V 948435741703 13; V 948621225951 13; V 948801665758 13; V 948977884425 13; V 949150511601 13; V 949320040071 13; V 949486863455 13; V 949651301883 13; V 949813619914 13; V 949974039311 13; V 950132748339 13; V 950289908646 13; V 950445660456 13; V 95060012653 12; V 950753415242 13; V 950905622994 13; V 951056836121 13; V 951207132437 13; V 95135658247 12; V 951505250477 13; V 951653195283 13; V 951800470966 13; V 95194712744 12; V 952093210939 13; V 952238764422 13; V 952383827927 13; V 952528438864 13; V 952672632273 13; V 952816441036 13; V 952959896077 13; V 953103026517 13]);
(V 747022845691 11, [V 941081444557 13; V 941318814406 13; V 941647234286 13; V 941952936547 13; V 94222704643 12; V 942476643136 13; V 942708521629 13; V 942927431758 13; V 943136554384 13; V 943338053205 13; V 94353344505 12; V 943723827507 13; V 943910018526 13; V 944092643917 13; V 944272193743 13; V 944449059715 13; V 944623560641 13; V 944795960182 13; V 944966479508 13; V 945135306512 13; V 945302602638 13; V 945468508026 13; V 945633145444 13; V 945796623341 13; V 945959038244 13; V 946120476655 13; V 946281016579 13; V 946440728758 13; V 946599677676 13; V 946757922391 13; V 946915517221 13; V 947072512314 13; V 947228954133 13; V 94738488586 12; V 947540347741 13; V 947695377377 13; V 947850009978 13; V 948004278579 13; V 948158214223 13; V 948311846127 13]);
(V 749126853707 11, [V 935944495154 13; V 936192407188 13; V 936530396668 13; V 936845561286 13; V 937129224041 13; V 937388497281 13; V 93763016677 12; V 937858964522 13; V 938078054341 13; V 93828958591 12; V 938495065196 13; V 938695581601 13; V 938891946988 13; V 939084782666 13; V 93927457538 12; V 939461714394 13; V 939646516711 13; V 939829244662 13; V 940010118441 13; V 94018932523 12; V 940367025964 13; V 940543360427 13; V 940718451151 13; V 94089240644 12; V 94106532275 12; V 941237286564 13; V 941408375915 13; V 9415786616 11; V 941748208186 13; V 941917074826 13; V 942085315941 13; V 942252981789 13; V 942420118936 13; V 942586770659 13; V 942752977286 13; V 942918776481 13; V 943084203498 13; V 943249291385 13; V 943414071171 13; V 943578572022 13]);
(V 751230861723 11, [V 930863890281 13; V 931122420425 13; V 931470020043 13; V 931794691468 13; V 932087985231 13; V 932357041659 13; V 932608630069 13; V 932847460557 13; V 933076677794 13; V 933298416233 13; V 933514170086 13; V 933725019791 13; V 933931770402 13; V 934135038057 13; V 934335305565 13; V 934532959178 13; V 934728313585 13; V 934921629331 13; V 935113125225 13; V 935302987378 13; V 935491375889 13; V 935678429894 13; V 935864271427 13; V 936049008411 13; V 936232737007 13; V 936415543485 13; V 936597505715 13; V 936778694378 13; V 936959173955 13; V 937139003536 13; V 937318237493 13; V 937496926037 13; V 937675115687 13; V 937852849663 13; V 938030168221 13; V 938207108932 13; V 938383706929 13; V 938559995106 13; V 938736004305 13; V 93891176346 12]);
(V 753334869739 11, [V 925848610044 13; V 926117406136 13; V 926474554454 13; V 926808769948 13; V 927111782126 13; V 927390737768 13; V 927652380958 13; V 927901396638 13; V 92814090904 12; V 928373036603 13; V 928599261086 13; V 928820653253 13; V 929038010638 13; V 929251943515 13; V 929462930104 13; V 929671353047 13; V 929877524179 13; V 93008170177 12; V 930284102813 13; V 93048491195 12; V 930684288098 13; V 930882369431 13; V 931079277197 13; V 931275118675 13; V 931469989497 13; V 931663975491 13; V 931857154157 13; V 932049595861 13; V 932241364806 13; V 932432519834 13; V 932623115082 13; V 932813200535 13; V 933002822478 13; V 933192023891 13; V 933380844765 13; V 933569322383 13; V 933757491552 13; V 933945384806 13; V 934133032576 13; V 934320463338 13]);
(V 755438877756 11, [V 920907859364 13; V 921186336101 13; V 921552889372 13; V 921896676728 13; V 922209501042 13; V 922498480231 13; V 922770322371 13; V 923029684216 13; V 923279668641 13; V 923522377545 13; V 923759279649 13; V 923991435362 13; V 924219633962 13; V 924444479132 13; V 92466644381 12; V 924885906389 13; V 925103175266 13; V 925318505918 13; V 925532113048 13; V 925744179415 13; V 92595486237 12; V 926164298783 13; V 926372608802 13; V 926579898774 13; V 926786263535 13; V 92699178822 12; V 92719654972 12; V 927400617855 13; V 927604056328 13; V 92780692351 12; V 928009273087 13; V 928211154592 13; V 928412613857 13; V 928613693387 13; V 928814432675 13; V 929014868467 13; V 929215034994 13; V 929414964161 13; V 929614685715 13; V 929814227387 13]);
(V 757542885772 11, [V 916050971815 13; V 916338579986 13; V 916714369675 13; V 917067752567 13; V 917390486667 13; V 917689620635 13; V 917971814404 13; V 918241693159 13; V 918502337436 13; V 91875583205 12; V 919003632073 13; V 91924678683 12; V 919486076562 13; V 919722097573 13; V 919955316774 13; V 920186107622 13; V 920414774454 13; V 92064156939 12; V 920866704337 13; V 921090359715 13; V 921312690898 13; V 921533833074 13; V 921753904948 13; V 921973011615 13; V 922191246808 13; V 922408694687 13; V 922625431258 13; V 922841525525 13; V 923057040426 13; V 9232720336 11; V 923486558011 13; V 923700662473 13; V 923914392085 13; V 924127788594 13; V 924340890695 13; V 924553734294 13; V 924766352726 13; V 924978776935 13; V 925191035642 13; V 925403155473 13]);
(V 759646893788 11, [V 911287495056 13; V 911583910089 13; V 911968810427 13; V 912331820426 13; V 912664566243 13; V 912973992805 13; V 91326670013 12; V 913547277974 13; V 913818783157 13; V 914083282602 13; V 914342216951 13; V 914596623591 13; V 914847272843 13; V 915094752773 13; V 915339523457 13; V 915581952676 13; V 915822340034 13; V 916060933688 13; V 916297942207 13; V 916533543174 13; V 916767889537 13; V 917001114387 13; V 917233334601 13; V 91746465366 12; V 917695163855 13; V 917924948037 13; V 918154081005 13; V 91838263063 12; V 918610658769 13; V 918838222004 13; V 919065372254 13; V 919292157281 13; V 919518621105 13; V 919744804357 13; V 919970744569 13; V 920196476421 13; V 920422031953 13; V 920647440737 13; V 920872730034 13; V 921097924925 13]);
(V 761750901804 11, [V 906627393164 13; V 906932546063 13; V 90732651886 12; V 907699208252 13; V 908042075161 13; V 908361940194 13; V 908665333995 13; V 908956806867 13; V 909239390023 13; V 909515131269 13; V 909785455729 13; V 910051387801 13; V 910313686866 13; V 910572931798 13; V 910829574958 13; V 911083977651 13; V 911336434029 13; V 911587187634 13; V 911836443105 13; V 91208437465 12; V 912331132296 13; V 912576846578 13; V 912821632113 13; V 913065590358 13; V 913308811766 13; V 913551377492 13; V 913793360747 13; V 914034827889 13; V 914275839306 13; V 914516450135 13; V 914756710846 13; V 914996667732 13; V 915236363308 13; V 915475836646 13; V 915715123652 13; V 915954257302 13; V 916193267846 13; V 91643218297 12; V 916671027948 13; V 916909825766 13]);
(V 76385490982 10, [V 902081260284 13; V 902395233461 13; V 902798328762 13; V 903180776783 13; V 903533885791 13; V 90386434628 12; V 904178613374 13; V 904481194127 13; V 904775091783 13; V 905062333289 13; V 905344326788 13; V 905622082381 13; V 90589634733 12; V 90616769025 12; V 906436554834 13; V 906703295047 13; V 906968198815 13; V 907231504363 13; V 907493411759 13; V 907754091249 13; V 908013689391 13; V 908272333649 13; V 90853013589 12; V 908787195073 13; V 909043599352 13; V 909299427729 13; V 909554751371 13; V 909809634659 13; V 910064136042 13; V 910318308726 13; V 910572201236 13; V 910825857883 13; V 911079319141 13; V 911332621969 13; V 911585800073 13; V 911838884136 13; V 912091901999 13; V 912344878834 13; V 912597837276 13; V 912850797553 13]);
(V 765958917836 11, [V 897660449609 13; V 897983330159 13; V 898395645387 13; V 898787954012 13; V 89915144085 12; V 899492668807 13; V 899818013883 13; V 900131936343 13; V 900437408638 13; V 900736434587 13; V 901030403472 13; V 901320309516 13; V 901606886509 13; V 901890691631 13; V 902172158868 13; V 902451633925 13; V 902729397667 13; V 903005682244 13; V 903280682457 13; V 90355456394 12; V 903827469169 13; V 904099521956 13; V 904370830854 13; V 904641491772 13; V 904911590019 13; V 905181201896 13; V 90545039597 12; V 90571923408 12; V 905987772157 13; V 906256060877 13; V 906524146202 13; V 906792069816 13; V 907059869492 13; V 907327579389 13; V 907595230305 13; V 907862849894 13; V 908130462841 13; V 908398091029 13; V 908665753669 13; V 908933467426 13]);
(V 768062925852 11, [V 893377083077 13; V 893708868759 13; V 894130492845 13; V 894532775163 13; V 894906791682 13; V 895258978504 13; V 895595629051 13; V 895921152988 13; V 896238488584 13; V 896549613713 13; V 896855896529 13; V 897158313544 13; V 897457583564 13; V 897754251055 13; V 89804873918 12; V 898341384398 13; V 898632459616 13; V 898922190088 13; V 899210764578 13; V 899498343385 13; V 899785064215 13; V 900071046555 13; V 900356394986 13; V 900641201716 13; V 900925548551 13; V 901209508428 13; V 901493146635 13; V 901776521774 13; V 902059686536 13; V 902342688326 13; V 902625569774 13; V 902908369144 13; V 903191120684 13; V 903473854907 13; V 90375659883 12; V 904039376183 13; V 904322207585 13; V 904605110696 13; V 904888100357 13; V 905171188716 13]);
(V 770166933868 11, [V 889243981929 13; V 889584578883 13; V 890015555703 13; V 890427925613 13; V 890812641182 13; V 891176002742 13; V 891524214979 13; V 891861631975 13; V 892191153665 13; V 89251472866 12; V 892833701402 13; V 893149028665 13; V 893461412643 13; V 893771383725 13; V 894079353069 13; V 894385646825 13; V 894690528977 13; V 894994216979 13; V 895296892707 13; V 895598710308 13; V 895899801917 13; V 896200281918 13; V 896500250139 13; V 896799794305 13; V 897098991922 13; V 89739791175 12; V 897696614961 13; V 897995156056 13; V 898293583598 13; V 898591940799 13; V 898890266003 13; V 899188593074 13; V 899486951722 13; V 899785367775 13; V 900083863412 13; V 900382457357 13; V 90068116506 12; V 900979998851 13; V 901278968083 13; V 901578079263 13]);
(V 772270941884 11, [V 885274597623 13; V 885623881339 13; V 88606421274 12; V 886486785346 13; V 886882391381 13; V 887257174738 13; V 887617240665 13; V 887966880788 13; V 888308951707 13; V 888645369062 13; V 888977450817 13; V 889306131895 13; V 889632096187 13; V 889955858578 13; V 890277816974 13; V 890598286079 13; V 890917519896 13; V 891235727075 13; V 891553081641 13; V 891869730642 13; V 892185799719 13; V 892501397217 13; V 89281661728 12; V 893131542191 13; V 893446244184 13; V 893760786838 13; V 894075226175 13; V 894389611525 13; V 894703986216 13; V 895018388131 13; V 895332850152 13; V 895647400538 13; V 895962063228 13; V 89627685811 12; V 896591801241 13; V 896906905049 13; V 897222178513 13; V 897537627326 13; V 897853254047 13; V 898169058248 13]);
(V 7743749499 9, [V 881483010686 13; V 881840885919 13; V 882290569534 13; V 882723476539 13; V 883130196694 13; V 883516689136 13; V 883888944695 13; V 884251183782 13; V 884606214015 13; V 884955914209 13; V 8853015731 11; V 885644101674 13; V 885984163818 13; V 886322257457 13; V 886658765917 13; V 886993991227 13; V 887328176231 13; V 887661519642 13; V 887994186514 13; V 888326315697 13; V 888658025223 13; V 888989416284 13; V 889320576191 13; V 889651580621 13; V 889982495328 13; V 890313377467 13; V 890644276628 13; V 890975235647 13; V 891306291256 13; V 8916374746 11; V 891968811671 13; V 892300323652 13; V 892632027225 13; V 892963934826 13; V 893296054874 13; V 893628391976 13; V 893960947117 13; V 894293717842 13; V 894626698421 13; V 894959880018 13]);
(V 776478957916 11, [V 877884010816 13; V 878250422401 13; V 878709502038 13; V 879152918895 13; V 879571024829 13; V 879969565074 13; V 880354399013 13; V 880729666176 13; V 88109811948 12; V 881461597296 13; V 881821356604 13; V 882178282497 13; V 882533017204 13; V 882886040179 13; V 883237718757 13; V 883588340926 13; V 883938137039 13; V 884287294552 13; V 884635968237 13; V 884984287418 13; V 885332361181 13; V 88568028219 12; V 886028129524 13; V 8863759708 11; V 886723863803 13; V 887071857725 13; V 887419994135 13; V 887768307743 13; V 888116827011 13; V 888465574641 13; V 888814567989 13; V 889163819406 13; V 889513336536 13; V 889863122584 13; V 890213176548 13; V 890563493448 13; V 890914064529 13; V 891264877468 13; V 891615916565 13; V 891967162938 13]);
(V 778582965932 11, [V 874493208618 13; V 874868115856 13; V 875336722275 13; V 875790898073 13; V 876220727639 13; V 876631717669 13; V 877029580247 13; V 877418365085 13; V 877800765442 13; V 878178576243 13; V 878553020593 13; V 878924955928 13; V 879295001192 13; V 879663615795 13; V 880031149521 13; V 880397874764 13; V 880764007835 13; V 881129723367 13; V 881495164269 13; V 881860448732 13; V 882225675246 13; V 882590926259 13; V 882956270872 13; V 883321766851 13; V 88368746216 12; V 884053396124 13; V 884419600339 13; V 884786099392 13; V 885152911438 13; V 885520048675 13; V 885887517741 13; V 886255320063 13; V 886623452165 13; V 886991905943 13; V 887360668932 13; V 887729724547 13; V 888099052329 13; V 888468628175 13; V 88883842457 12; V 88920841081 12]);
(V 780686973948 11, [V 8713271249 11; V 871710499262 13; V 87218887056 12; V 872654150442 13; V 873096123157 13; V 873520038341 13; V 873931448778 13; V 87433430779 12; V 874731245521 13; V 875124011362 13; V 875513792885 13; V 875901418273 13; V 876287481527 13; V 876672420289 13; V 877056565014 13; V 877440170677 13; V 877823437689 13; V 87820652597 12; V 878589564627 13; V 878972658733 13; V 879355894145 13; V 879739340994 13; V 880123056241 13; V 880507085578 13; V 88089146486 12; V 881276221206 13; V 881661373857 13; V 882046934854 13; V 882432909602 13; V 882819297334 13; V 88320609152 12; V 883593280225 13; V 88398084644 12; V 884368768392 13; V 884757019839 13; V 885145570356 13; V 885534385618 13; V 885923427671 13; V 886312655209 13; V 88670202384 12]);
(V 782790981964 11, [V 868403276102 13; V 868795148677 13; V 869283629983 13; V 86976046315 12; V 870215088278 13; V 87065248356 12; V 871078035361 13; V 871495597237 13; V 87190773459 12; V 872316150098 13; V 872721994505 13; V 873126065169 13; V 873528929331 13; V 873931000866 13; V 874332588779 13; V 874733928426 13; V 875135202044 13; V 875536552506 13; V 875938092723 13; V 876339912182 13; V 87674208157 12; V 877144656094 13; V 877547677893 13; V 877951177837 13; V 878355176875 13; V 87875968707 12; V 879164712425 13; V 879570249543 13; V 879976288179 13; V 880382811728 13; V 880789797646 13; V 881197217845 13; V 881605039063 13; V 88201322322 12; V 882421727759 13; V 882830505985 13; V 883239507398 13; V 883648678021 13; V 88405796072 12; V 884467295526 13]);
(V 78489498998 10, [V 865740319187 13; V 866140825334 13; V 866639852346 13; V 867128784471 13; V 867596659708 13; V 86804817095 12; V 868488534872 13; V 868921504717 13; V 869349580982 13; V 869774419034 13; V 870197131541 13; V 870618483247 13; V 871039012451 13; V 871459106818 13; V 871879051293 13; V 872299058886 13; V 872719290842 13; V 873139870078 13; V 873560890322 13; V 873982422403 13; V 874404518684 13; V 874827216209 13; V 875250538998 13; V 875674499738 13; V 876099101065 13; V 876524336566 13; V 876950191577 13; V 87737664385 12; V 877803664126 13; V 878231216651 13; V 878659259645 13; V 879087745747 13; V 879516622443 13; V 879945832482 13; V 880375314283 13; V 880805002335 13; V 88123482759 12; V 881664717854 13; V 882094598159 13; V 88252439114 12]);
(V 786998997996 11, [V 863358248834 13; V 863767609515 13; V 864277683097 13; V 864779337643 13; V 865261140081 13; V 865727481479 13; V 866183406821 13; V 866632569727 13; V 867077406116 13; V 867519523336 13; V 867959994338 13; V 868399548907 13; V 868838693595 13; V 869277786765 13; V 869717086017 13; V 870156778594 13; V 870597001216 13; V 871037853215 13; V 871479405398 13; V 871921706119 13; V 872364785505 13; V 872808658464 13; V 873253326861 13; V 873698781135 13; V 874145001539 13; V 874591959126 13; V 875039616555 13; V 875487928791 13; V 875936843724 13; V 876386302741 13; V 876836241263 13; V 877286589264 13; V 877737271774 13; V 878188209373 13; V 878639318671 13; V 879090512781 13; V 879541701784 13; V 879992793176 13; V 880443692308 13; V 880894302803 13]);
(V 789103006012 11, [V 861278554089 13; V 861697014918 13; V 86221867628 12; V 862733732735 13; V 863230206872 13; V 863712167015 13; V 864184482557 13; V 864650707199 13; V 865113211705 13; V 86557355377 12; V 866032764033 13; V 866491534048 13; V 866950334914 13; V 867409491709 13; V 867869230519 13; V 868329708511 13; V 868791033445 13; V 869253276527 13; V 869716481006 13; V 870180668026 13; V 870645840686 13; V 871111986914 13; V 871579081562 13; V 872047087979 13; V 872515959241 13; V 872985639156 13; V 873456063118 13; V 873927158867 13; V 874398847186 13; V 874871042555 13; V 875343653785 13; V 875816584627 13; V 876289734368 13; V 876762998412 13; V 877236268844 13; V 877709434984 13; V 878182383918 13; V 878655001009 13; V 879127170388 13; V 87959877542 12]);
(V 791207014028 11, [V 85952428142 12; V 859952082015 13; V 86048589744 12; V 861015075054 13; V 861527023751 13; V 862025463499 13; V 862515079618 13; V 86299932245 12; V 863480494788 13; V 863960101281 13; V 86443912619 12; V 864918218271 13; V 865397808274 13; V 865878182865 13; V 86635953133 12; V 866841975332 13; V 867325588136 13; V 867810407173 13; V 868296442404 13; V 868783681975 13; V 86927209614 12; V 869761640038 13; V 870252255753 13; V 870743873881 13; V 871236414802 13; V 871729789738 13; V 872223901702 13; V 872718646348 13; V 873213912781 13; V 873709584327 13; V 874205539271 13; V 87470165158 12; V 875197791602 13; V 875693826741 13; V 876189622108 13; V 876685041148 13; V 877179946234 13; V 877674199233 13; V 878167662038 13; V 878660197064 13]);
(V 793311022044 11, [V 858120058179 13; V 858557460018 13; V 859104019736 13; V 859648073175 13; V 860176356392 13; V 860692211116 13; V 861200124087 13; V 861703434321 13; V 862204370626 13; V 862704378841 13; V 863204390895 13; V 863705006563 13; V 864206609864 13; V 864709442524 13; V 865213650364 13; V 86571931277 12; V 866226461632 13; V 866735093657 13; V 867245178523 13; V 867756664389 13; V 868269481719 13; V 868783546027 13; V 869298759949 13; V 86981501487 12; V 870332192273 13; V 870850164922 13; V 871368797926 13; V 871887949731 13; V 872407473066 13; V 872927215842 13; V 873447022025 13; V 873966732469 13; V 874486185726 13; V 875005218805 13; V 875523667905 13; V 876041369102 13; V 876558158991 13; V 877073875285 13; V 877588357367 13; V 878101446797 13]);
(V 79541503006 10, [V 857092153489 13; V 857539492209 13; V 858099423653 13; V 858659153225 13; V 85920469647 12; V 859738983459 13; V 860266281916 13; V 860789806724 13; V 861311703139 13; V 861833349752 13; V 862355618035 13; V 862879050699 13; V 863403976899 13; V 863930585205 13; V 864458969667 13; V 864989159009 13; V 865521135305 13; V 866054846089 13; V 866590212352 13; V 867127133968 13; V 867665493493 13; V 86820515895 12; V 868745985981 13; V 869287819592 13; V 869830495655 13; V 870373842242 13; V 87091768086 12; V 87146182761 12; V 872006094284 13; V 872550289413 13; V 87309421927 12; V 873637688813 13; V 874180502584 13; V 874722465548 13; V 875263383879 13; V 875803065676 13; V 876341321632 13; V 87687796563 12; V 877412815283 13; V 877945692419 13]);
(V 797519038076 11, [V 85646859335 12; V 856926318698 13; V 857500312413 13; V 858076587017 13; V 858640397888 13; V 85919422756 12; V 85974209974 12; V 860287088223 13; V 860831241818 13; V 861375860715 13; V 861921745469 13; V 862469371504 13; V 863019002942 13; V 863570765004 13; V 864124689738 13; V 864680744954 13; V 865238852703 13; V 86579890124 12; V 86636075296 12; V 866924249824 13; V 867489217226 13; V 868055466907 13; V 868622799263 13; V 869191005278 13; V 869759868231 13; V 87032916523 12; V 870898668643 13; V 871468147432 13; V 872037368421 13; V 872606097475 13; V 873174100614 13; V 873741145053 13; V 874307000152 13; V 8748714383 11; V 875434235709 13; V 875995173132 13; V 876554036497 13; V 877110617465 13; V 877664713917 13; V 878216130358 13]);
(V 799623046092 11, [V 856279310584 13; V 856748009076 13; V 857336853214 13; V 857930639872 13; V 858513827961 13; V 859088415501 13; V 859658154626 13; V 86022595819 12; V 86079376287 12; V 861362776712 13; V 861933716435 13; V 862506977569 13; V 863082746697 13; V 863661073213 13; V 864241914724 13; V 864825165796 13; V 865410676314 13; V 865998263427 13; V 866587719529 13; V 867178817801 13; V 867771316267 13; V 86836496092 12; V 868959488268 13; V 86955462753 12; V 870150102569 13; V 870745633666 13; V 871340939147 13; V 871935736896 13; V 872529745752 13; V 873122686804 13; V 873714284572 13; V 874304268082 13; V 87489237183 12; V 875478336643 13; V 876061910427 13; V 876642848817 13; V 877220915727 13; V 87779588381 12; V 878367534821 13; V 878935659908 13]);
(V 801727054108 11, [V 85655632898 12; V 857036735463 13; V 857641349224 13; V 858253740047 13; V 858857533635 13; V 859454206409 13; V 860047210563 13; V 86063927645 12; V 861232210701 13; V 861827112975 13; V 862424600605 13; V 863024973949 13; V 863628326876 13; V 864234617886 13; V 864843715267 13; V 865455425769 13; V 866069513006 13; V 866685709524 13; V 867303724987 13; V 86792325198 12; V 868543970354 13; V 869165550664 13; V 869787657026 13; V 870409949598 13; V 871032086774 13; V 871653727179 13; V 872274531469 13; V 872894163974 13; V 873512294182 13; V 874128598067 13; V 874742759274 13; V 875354470149 13; V 875963432632 13; V 876569359014 13; V 877171972559 13; V 877771008011 13; V 878366211978 13; V 878957343219 13; V 879544172828 13; V 880126484331 13]);
(V 803831062124 11, [V 857334002362 13; V 857826988595 13; V 858448439876 13; V 859080666877 13; V 859706419606 13; V 860326615142 13; V 860944377267 13; V 861562231202 13; V 862181833612 13; V 862804156933 13; V 863429700648 13; V 86405865162 12; V 864690992831 13; V 865326573978 13; V 865965156568 13; V 866606442726 13; V 867250093854 13; V 867895743026 13; V 868543003541 13; V 869191475137 13; V 869840748726 13; V 870490410215 13; V 871140043703 13; V 871789234245 13; V 87243757028 12; V 873084645781 13; V 873730062168 13; V 874373429982 13; V 875014370355 13; V 875652516272 13; V 876287513635 13; V 876919022151 13; V 877546716033 13; V 878170284552 13; V 878789432433 13; V 879403880111 13; V 880013363871 13; V 880617635875 13; V 881216464087 13; V 881809632115 13]);
(V 80593507014 10, [V 85864930871 12; V 859155824562 13; V 859795319714 13; V 860448750212 13; V 861097931821 13; V 861743181112 13; V 862387264191 13; V 863032477209 13; V 863680304664 13; V 864331569928 13; V 864986632816 13; V 865645544939 13; V 866308156934 13; V 866974188812 13; V 86764327531 12; V 868314995135 13; V 86898889014 12; V 869664478268 13; V 870341262661 13; V 871018738378 13; V 87169639761 12; V 872373733879 13; V 873050245548 13; V 873725438808 13; V 874398830232 13; V 875069948971 13; V 875738338631 13; V 87640355884 12; V 877065186548 13; V 877722817064 13; V 878376064866 13; V 879024564176 13; V 879667969356 13; V 880305955109 13; V 880938216529 13; V 88156446901 12; V 882184448029 13; V 882797908824 13; V 883404625986 13; V 884004392974 13]);
(V 808039078156 11, [V 860542144021 13; V 861063116068 13; V 861721961284 13; V 862398070382 13; V 863072236741 13; V 86374412759 12; V 864416119385 13; V 865090252821 13; V 865767814903 13; V 866449454424 13; V 867135365804 13; V 867825439868 13; V 86851937003 12; V 869216722908 13; V 869916984347 13; V 870619589486 13; V 871323942741 13; V 872029431517 13; V 872735435992 13; V 873441336408 13; V 874146518725 13; V 874850379142 13; V 875552327792 13; V 876251791781 13; V 876948217696 13; V 87764107364 12; V 878329850859 13; V 879014064994 13; V 879693257003 13; V 880366993779 13; V 881034868499 13; V 881696500739 13; V 88235153637 12; V 882999647289 13; V 883640530979 13; V 884273909952 13; V 884899531076 13; V 885517164818 13; V 886126604421 13; V 886727665019 13]);
(V 810143086172 11, [V 863055536296 13; V 86359178149 12; V 864271326392 13; V 864971645488 13; V 86567238361 12; V 866372498198 13; V 867073938751 13; V 867778459869 13; V 868487121347 13; V 869200367333 13; V 86991819673 12; V 870640310117 13; V 871366215644 13; V 872095300568 13; V 872826878507 13; V 873560220708 13; V 874294577121 13; V 875029191008 13; V 875763309438 13; V 876496191074 13; V 877227112126 13; V 877955370982 13; V 878680291836 13; V 879401227515 13; V 880117561633 13; V 880828710179 13; V 881534122606 13; V 88223328249 12; V 882925707814 13; V 883610950921 13; V 88428859819 12; V 884958269483 13; V 885619617383 13; V 886272326279 13; V 88691611132 12; V 887550717267 13; V 888175917273 13; V 888791511606 13; V 889397326344 13; V 889993212051 13]);
(V 812247094188 11, [V 866235763423 13; V 866787978149 13; V 867489551019 13; V 868215590577 13; V 868944433311 13; V 869674252751 13; V 870406526093 13; V 871142684804 13; V 871883525927 13; V 872629253558 13; V 873379636361 13; V 874134151627 13; V 874892091872 13; V 875652638065 13; V 876414908663 13; V 877177992444 13; V 877940970808 13; V 878702933269 13; V 879462988508 13; V 880220272402 13; V 880973953949 13; V 881723239629 13; V 882467376562 13; V 883205654707 13; V 883937408261 13; V 884662016413 13; V 885378903529 13; V 886087538883 13; V 886787435995 13; V 887478151662 13; V 888159284717 13; V 888830474602 13; V 889491399773 13; V 890141775995 13; V 890781354565 13; V 891409920473 13; V 892027290557 13; V 892633311644 13; V 89322785872 12; V 893810833124 13]);
(V 814351102204 11, [V 870132450833 13; V 870701258774 13; V 871426088772 13; V 872179229765 13; V 872937532434 13; V 873698298654 13; V 874462477579 13; V 875231132074 13; V 876004753842 13; V 876783265838 13; V 877566167622 13; V 878352677765 13; V 879141842218 13; V 879932610007 13; V 88072388451 12; V 881514557988 13; V 88230353503 12; V 883089748658 13; V 883872171511 13; V 884649823617 13; V 885421777727 13; V 886187162828 13; V 886945166257 13; V 887695034721 13; V 888436074432 13; V 889167650545 13; V 889889186025 13; V 890600160071 13; V 891300106199 13; V 891988610052 13; V 892665307028 13; V 893329879778 13; V 893982055625 13; V 894621603949 13; V 895248333573 13; V 895862090178 13; V 896462753773 13; V 897050236231 13; V 89762447891 12; V 898185450376 13]);
(V 81645511022 10, [V 874798721734 13; V 875384687181 13; V 876133793471 13; V 876915136621 13; V 877703904122 13; V 878496425955 13; V 879293055396 13; V 880094431344 13; V 880900690061 13; V 881711427215 13; V 882525831878 13; V 883342828513 13; V 884161188091 13; V 884979606825 13; V 885796759809 13; V 886611337055 13; V 887422067602 13; V 888227735581 13; V 889027190772 13; V 889819355302 13; V 89060322757 12; V 891377884126 13; V 892142480001 13; V 892896247873 13; V 893638496342 13; V 894368607524 13; V 895086034151 13; V 895790296318 13; V 896480977979 13; V 897157723304 13; V 897820232962 13; V 898468260397 13; V 899101608148 13; V 899720124239 13; V 900323698691 13; V 900912260155 13; V 901485772701 13; V 902044232752 13; V 902587666196 13; V 903116125652 13]);
(V 818559118236 11, [V 880291371092 13; V 880894891186 13; V 881668912724 13; V 882479069331 13; V 883298717479 13; V 88412310351 12; V 884951904051 13; V 885785268501 13; V 886622921035 13; V 887464081079 13; V 888307586684 13; V 889152037053 13; V 889995907007 13; V 890837628802 13; V 891675647728 13; V 892508458879 13; V 893334630926 13; V 894152821009 13; V 894961783504 13; V 895760374506 13; V 89654755327 12; V 897322381477 13; V 898084020915 13; V 89883173004 12; V 899564859748 13; V 900282848606 13; V 900985217754 13; V 901671565625 13; V 902341562613 13; V 902994945767 13; V 903631513607 13; V 904251121089 13; V 904853674775 13; V 905439128233 13; V 906007477674 13; V 90655875785 12; V 907093038205 13; V 907610419283 13; V 908111029392 13; V 908595021506 13]);
(V 820663126253 11, [V 886670962028 13; V 887292010913 13; V 888090952017 13; V 888929754738 13; V 889779784143 13; V 890635079828 13; V 891494548546 13; V 892357776205 13; V 893224014961 13; V 894092060931 13; V 894960367202 13; V 895827187194 13; V 896690692252 13; V 897549055765 13; V 898400509491 13; V 899243379526 13; V 900076108104 13; V 900897265648 13; V 901705556174 13; V 90249981811 12; V 903279021982 13; V 904042265956 13; V 90478876996 12; V 905517868878 13; V 906229005223 13; V 90692172154 12; V 90759565276 12; V 908250518664 13; V 908886116546 13; V 909502314175 13; V 910099043098 13; V 910676292315 13; V 91123410235 12; V 91177255973 12; V 912291791849 13; V 912791962239 13; V 913273266204 13; V 913735926823 13; V 914180191298 13; V 914606327617 13]);
(V 822767134269 11, [V 894001759158 13; V 89463948636 12; V 895462352897 13; V 896328458952 13; V 897207013623 13; V 898090714849 13; V 898977596466 13; V 89986660326 12; V 900756458783 13; V 901645498609 13; V 902531772195 13; V 903413186132 13; V 904287623346 13; V 905153027533 13; V 906007457886 13; V 906849121882 13; V 90767639274 12; V 90848781649 12; V 90928211208 12; V 910058166885 13; V 91081502927 12; V 91155189931 12; V 912268118477 13; V 912963158832 13; V 91363661212 12; V 914288179037 13; V 914917658855 13; V 915524939533 13; V 916109988387 13; V 916672843367 13; V 917213604957 13; V 9177324287 11; V 918229518341 13; V 918705119552 13; V 919159514225 13; V 919593015296 13; V 920005962064 13; V 920398715975 13; V 920771656828 13; V 921125179382 13]);
(V 824871142285 11, [V 902351434232 13; V 903003612196 13; V 903847908316 13; V 904738261178 13; V 90564153774 12; V 90654894792 12; V 907457546082 13; V 908365563965 13; V 909271154394 13; V 910172176918 13; V 911066285907 13; V 911951070795 13; V 912824173623 13; V 913683370261 13; V 914526620048 13; V 915352092083 13; V 916158175416 13; V 916943478586 13; V 917706822352 13; V 91844722823 12; V 919163904646 13; V 919856231902 13; V 920523746769 13; V 921166127267 13; V 921783177967 13; V 922374816047 13; V 922941058239 13; V 923482008729 13; V 923997848022 13; V 92448882279 12; V 924955236634 13; V 925397441752 13; V 925815831436 13; V 92621083335 12; V 926582903525 13; V 926932521023 13; V 927260183194 13; V 927566401492 13; V 927851697779 13; V 928116601085 13]);
(V 826975150301 11, [V 91179043923 12; V 912452760644 13; V 913313811973 13; V 914222921339 13; V 915144388901 13; V 916067783039 13; V 916989080838 13; V 917905750227 13; V 918815362146 13; V 919715322603 13; V 920602941549 13; V 921475564655 13; V 922330683792 13; V 923166009911 13; V 92397951296 12; V 924769437692 13; V 9255343033 11; V 926272892835 13; V 926984236585 13; V 927667592236 13; V 928322423664 13; V 928948379584 13; V 929545272792 13; V 930113060495 13; V 93065182596 12; V 931161761639 13; V 931643153782 13; V 932096368532 13; V 932521839443 13; V 932920056325 13; V 933291555349 13; V 933636910277 13; V 93395672475 12; V 934251625516 13; V 934522256511 13; V 934769273707 13; V 934993340639 13; V 93519512455 12; V 935375293063 13; V 935534511349 13]);
(V 829079158317 11, [V 922390892295 13; V 923056138563 13; V 923926206853 13; V 924845200902 13; V 92577458745 12; V 926702146281 13; V 927622709024 13; V 928532973089 13; V 929429969546 13; V 930310731271 13; V 931172333401 13; V 93201200824 12; V 932827241116 13; V 933615828402 13; V 934375902352 13; V 935105932212 13; V 935804710141 13; V 936471328296 13; V 93710515142 12; V 937705787807 13; V 938273060414 13; V 938806979226 13; V 939307715459 13; V 939775577917 13; V 940210991613 13; V 940614478616 13; V 940986641051 13; V 9413281461 11; V 941639712856 13; V 941922100856 13; V 942176100128 13; V 942402522597 13; V 942602194692 13; V 942775951031 13; V 942924629028 13; V 94304906435 12; V 943150087076 13; V 943228518497 13; V 943285168468 13; V 943320833233 13]);
(V 831183166333 11, [V 934224831151 13; V 934881914183 13; V 935749061831 13; V 936664460499 13; V 937586461628 13; V 938500944768 13; V 939401589377 13; V 940284390344 13; V 941145960979 13; V 941983121233 13; V 942792896394 13; V 943572603903 13; V 944319925421 13; V 945032942834 13; V 945710142696 13; V 946350398964 13; V 946952942875 13; V 94751732643 12; V 948043383761 13; V 948531193049 13; V 948981040549 13; V 949393387519 13; V 949768840404 13; V 950108124342 13; V 950412059872 13; V 950681542636 13; V 950917525832 13; V 951121005127 13; V 951293005793 13; V 951434571773 13; V 951546756465 13; V 951630614999 13; V 951687197802 13; V 951717545284 13; V 951722683498 13; V 951703620616 13; V 951661344126 13; V 951596818629 13; V 951510984152 13; V 951404754896 13]);
(V 833287174349 11, [V 947361736171 13; V 947994522069 13; V 948841163595 13; V 949733319304 13; V 950625993135 13; V 951503136333 13; V 952357374178 13; V 953184178488 13; V 953979975694 13; V 954741633053 13; V 955466398619 13; V 956151947036 13; V 956796418347 13; V 957398425478 13; V 957957034229 13; V 958471725508 13; V 958942348472 13; V 959369070751 13; V 959752329631 13; V 960092786414 13; V 960391285054 13; V 960648815488 13; V 960866481627 13; V 96104547377 12; V 961187045067 13; V 961292491611 13; V 961363135743 13; V 96140031215 12; V 961405356395 13; V 961379595526 13; V 961324340474 13; V 96124087996 12; V 961130475699 13; V 96099435867 12; V 960833726316 13; V 960649740491 13; V 96044352605 12; V 960216169961 13; V 959968720855 13; V 959702188925 13]);
(V 835391182365 11, [V 961865211384 13; V 962450911977 13; V 963251964003 13; V 964093123985 13; V 964925958352 13; V 965732611374 13; V 966504908509 13; V 967238127513 13; V 967928872439 13; V 968574431045 13; V 969172637529 13; V 969721864906 13; V 970221022925 13; V 970669533053 13; V 971067282723 13; V 971414567616 13; V 971712029873 13; V 971960597584 13; V 972161428683 13; V 972315860767 13; V 972425367329 13; V 972491520305 13; V 972515958476 13; V 972500361166 13; V 972446426572 13; V 972355854117 13; V 972230330242 13; V 972071517108 13; V 971881043749 13; V 971660499281 13; V 971411427802 13; V 971135324706 13; V 970833634155 13; V 970507747491 13; V 970159002416 13; V 969788682797 13; V 969398018961 13; V 968988188377 13; V 968560316651 13; V 968115478751 13]);
(V 837495190381 11, [V 9777885452 11; V 978295430351 13; V 979015974102 13; V 979767948136 13; V 980499630083 13; V 981191703624 13; V 981835657324 13; V 9824270842 11; V 982963276567 13; V 983442427102 13; V 983863398203 13; V 984225652633 13; V 984529207631 13; V 984774578123 13; V 98496270822 12; V 985094897899 13; V 985172731207 13; V 985198010104 13; V 98517269599 12; V 985098859571 13; V 984978638843 13; V 984814204549 13; V 984607732241 13; V 984361380045 13; V 984077271263 13; V 983757481022 13; V 983404026274 13; V 983018858538 13; V 982603858887 13; V 982160834735 13; V 981691518069 13; V 981197564834 13; V 98068055522 12; V 980141994643 13; V 979583315273 13; V 979005877951 13; V 978410974409 13; V 977799829692 13; V 977173604709 13; V 976533398868 13]);
(V 839599198397 11, [V 995168592307 13; V 995552927199 13; V 996145359394 13; V 996756840856 13; V 997332831526 13; V 997853197798 13; V 9983098019 11; V 998699252187 13; V 999020175311 13; V 999272239637 13; V 999455823343 13; V 999571883507 13; V 999621871357 13; V 999607651173 13; V 999531417639 13; V 999395615647 13; V 999202866837 13; V 998955905414 13; V 998657524078 13; V 99831052982 12; V 997917708698 13; V 997481798454 13; V 997005467786 13; V 996491301131 13; V 995941787953 13; V 995359315664 13; V 99474616542 12; V 994104510196 13; V 993436414612 13; V 992743836106 13; V 99202862713 12; V 991292538074 13; V 990537220732 13; V 989764232121 13; V 988975038529 13; V 988171019682 13; V 987353472958 13; V 986523617567 13; V 985682598679 13; V 984831491437 13])].
Definition tt_part8 : list (dec * list dec) := [
(V 841703206413 11, [V 101401723335 12; V 101421961783 12; V 101462039105 12; V 101502408656 12; V 101537421156 12; V 101565080425 12; V 101584706495 12; V 101596148217 12; V 101599475263 12; V 101594862194 12; V 10158254587 11; V 101562807527 12; V 101535961948 12; V 101502348486 12; V 101462322843 12; V 101416249665 12; V 101364496171 12; V 101307426891 12; V 101245399503 12; V 101178761661 12; V 101107848691 12; V 101032981995 12; V 100954468047 12; V 100872597837 12; V 100787646681 12; V 100699874305 12; V 100609525124 12; V 100516828676 12; V 100422000156 12; V 10032524102 11; V 100226739629 12; V 10012667192 11; V 100025202077 12; V 999224832006 13; V 998186579607 13; V 997138592331 13; V 996082107084 13; V 995018274751 13; V 99394816575 12; V 99287277528 12]);
(V 843807214429 11, [V 10343097711 11; V 103425125591 12; V 103437747718 12; V 103448735314 12; V 103452375855 12; V 103446823791 12; V 103431649745 12; V 10340698563 11; V 103373181612 12; V 103330674144 12; V 103279936885 12; V 103221460856 12; V 103155743969 12; V 103083283514 12; V 103004569972 12; V 102920081856 12; V 10283028163 11; V 102735612647 12; V 102636497058 12; V 102533334524 12; V 102426501617 12; V 102316351742 12; V 102203215458 12; V 102087401109 12; V 101969195645 12; V 101848865591 12; V 101726658098 12; V 101602802033 12; V 101477509084 12; V 101350974848 12; V 101223379896 12; V 101094890803 12; V 10096566112 11; V 100835832305 12; V 100705534602 12; V 100574887862 12; V 100444002308 12; V 100312979263 12; V 100181911808 12; V 100050885412 12]);
(V 845911222445 11, [V 105596994112 12; V 105554832241 12; V 105529467221 12; V 105500381998 12; V 105461980716 12; V 105412728027 12; V 105352569199 12; V 105282008369 12; V 105201735729 12; V 105112485475 12; V 105014985628 12; V 104909940833 12; V 104798025923 12; V 104679882797 12; V 104556118513 12; V 104427304118 12; V 104293974139 12; V 104156626705 12; V 104015724207 12; V 103871694414 12; V 103724931912 12; V 103575799779 12; V 10342463139 11; V 103271732297 12; V 103117382113 12; V 102961836367 12; V 102805328301 12; V 102648070585 12; V 102490256943 12; V 102332063673 12; V 102173651081 12; V 102015164799 12; V 101856737012 12; V 101698487592 12; V 101540525143 12; V 101382947953 12; V 101225844882 12; V 10106929616 11; V 100913374135 12; V 100758143941 12]);
(V 848015230461 11, [V 107885149915 12; V 107793821295 12; V 107717487538 12; V 107635471547 12; V 107542512947 12; V 107437551844 12; V 107321016828 12; V 107193846523 12; V 107057098811 12; V 106911808678 12; V 106758944627 12; V 106599399844 12; V 10643399397 11; V 106263477392 12; V 106088535763 12; V 105909794304 12; V 105727821901 12; V 105543135063 12; V 105356201768 12; V 105167445209 12; V 104977247395 12; V 104785952596 12; V 104593870603 12; V 104401279782 12; V 104208429922 12; V 104015544867 12; V 103822824942 12; V 103630449173 12; V 103438577314 12; V 103247351696 12; V 103056898906 12; V 102867331311 12; V 102678748434 12; V 102491238207 12; V 1023048781 10; V 102119736136 12; V 101935871821 12; V 101753336972 12; V 10157217647 11; V 101392428939 12]);
(V 850119238477 11, [V 110271651867 12; V 110115483778 12; V 109972741011 12; V 109822916544 12; V 109661313196 12; V 109487482592 12; V 109302398315 12; V 109107443044 12; V 108904018453 12; V 108693416223 12; V 108476789978 12; V 108255160721 12; V 108029430659 12; V 107800397345 12; V 107568766142 12; V 107335160868 12; V 10710013294 11; V 106864169343 12; V 106627699643 12; V 106391102231 12; V 106154709885 12; V 105918814758 12; V 105683672828 12; V 105449507887 12; V 105216515099 12; V 104984864177 12; V 104754702218 12; V 104526156221 12; V 104299335341 12; V 104074332882 12; V 103851228078 12; V 103630087676 12; V 103410967341 12; V 103193912911 12; V 102978961504 12; V 102766142519 12; V 102555478505 12; V 102346985958 12; V 102140676013 12; V 101936555066 12]);
(V 852223246493 11, [V 112721084768 12; V 112481668837 12; V 112254933777 12; V 112020884498 12; V 111775567088 12; V 111519203771 12; V 111253290908 12; V 11097958584 11; V 110699741025 12; V 11041520263 11; V 110127206339 12; V 109836801672 12; V 109544880287 12; V 10925220109 11; V 10895941096 11; V 108667061624 12; V 108375623476 12; V 108085497038 12; V 107797022589 12; V 107510488331 12; V 107226137367 12; V 1069441737 10; V 106664767413 12; V 106388059144 12; V 106114163968 12; V 105843174769 12; V 105575165172 12; V 105310192085 12; V 105048297925 12; V 104789512547 12; V 104533854937 12; V 104281334674 12; V 104031953225 12; V 103785705061 12; V 103542578639 12; V 10330255726 11; V 10306561982 11; V 102831741463 12; V 102600894159 12; V 102373047201 12]);
(V 854327254509 11, [V 115183799168 12; V 114840533254 12; V 114510867479 12; V 114175557946 12; V 113831448547 12; V 113479361103 12; V 113121174425 12; V 112758852067 12; V 112394124934 12; V 112028429652 12; V 111662933525 12; V 111298579454 12; V 110936128619 12; V 110576195628 12; V 110219276224 12; V 109865769006 12; V 109515992574 12; V 10917019923 11; V 108828586073 12; V 108491304072 12; V 108158465573 12; V 107830150523 12; V 107506411698 12; V 107187279078 12; V 106872763545 12; V 106562860003 12; V 106257550029 12; V 105956804112 12; V 105660583564 12; V 105368842139 12; V 105081527417 12; V 10479858198 11; V 104519944411 12; V 104245550147 12; V 103975332208 12; V 103709221815 12; V 103447148911 12; V 103189042611 12; V 102934831578 12; V 102684444344 12]);
(V 856431262525 11, [V 117593417032 12; V 11712474598 11; V 116673256076 12; V 116220464769 12; V 11576386276 11; V 115304626793 12; V 114844739457 12; V 114386097316 12; V 11393026077 11; V 113478438191 12; V 113031539878 12; V 112590240914 12; V 112155034849 12; V 1117262755 10; V 111304208571 12; V 110888995517 12; V 110480731703 12; V 110079460389 12; V 109685183636 12; V 109297870912 12; V 108917465944 12; V 108543892211 12; V 108177057387 12; V 107816856933 12; V 10746317703 11; V 107115896964 12; V 106774891074 12; V 106440030344 12; V 106111183699 12; V 10578821907 11; V 105471004248 12; V 105159407584 12; V 104853298551 12; V 104552548193 12; V 10425702948 11; V 103966617589 12; V 103681190119 12; V 103400627252 12; V 103124811872 12; V 102853629645 12]);
(V 858535270541 11, [V 119864927478 12; V 119250484791 12; V 118660418458 12; V 118076693862 12; V 117497040864 12; V 116922558702 12; V 116354923346 12; V 115795602877 12; V 115245681695 12; V 114705886917 12; V 114176664109 12; V 113658250423 12; V 113150732432 12; V 112654088831 12; V 112168221266 12; V 111692976555 12; V 111228162806 12; V 11077356123 11; V 110328934886 12; V 109894035209 12; V 10946860692 11; V 109052391723 12; V 108645131108 12; V 108246568454 12; V 107856450609 12; V 107474529063 12; V 107100560801 12; V 106734308913 12; V 10637554301 11; V 106024039492 12; V 105679581692 12; V 105341959939 12; V 10501097154 11; V 104686420715 12; V 104368118485 12; V 104055882532 12; V 103749537037 12; V 103448912496 12; V 103153845529 12; V 102864178684 12]);
(V 860639278557 11, [V 121894042888 12; V 121117761804 12; V 120377264974 12; V 119654310305 12; V 118946215043 12; V 118253416081 12; V 117576784385 12; V 116916953113 12; V 116274207693 12; V 115648540309 12; V 115039733177 12; V 114447429891 12; V 113871187786 12; V 113310514103 12; V 112764890325 12; V 112233788372 12; V 111716681326 12; V 111213050457 12; V 110722389789 12; V 110244208965 12; V 109778034968 12; V 109323413041 12; V 108879907054 12; V 108447099503 12; V 108024591229 12; V 107612000977 12; V 107208964828 12; V 10681513556 11; V 106430181964 12; V 106053788149 12; V 105685652826 12; V 105325488614 12; V 104973021354 12; V 104627989442 12; V 104290143192 12; V 103959244216 12; V 103635064842 12; V 10331738755 11; V 103006004446 12; V 102700716749 12]);
(V 862743286573 11, [V 123558606839 12; V 122612640405 12; V 121717963306 12; V 12085522288 11; V 120020530662 12; V 119213020442 12; V 118432255639 12; V 117677652177 12; V 11694841136 11; V 116243579728 12; V 115562120962 12; V 114902970893 12; V 114265073658 12; V 113647403476 12; V 113048976765 12; V 112468858132 12; V 111906162591 12; V 111360055526 12; V 110829751344 12; V 110314511383 12; V 109813641458 12; V 109326489248 12; V 108852441668 12; V 108390922298 12; V 107941388915 12; V 107503331169 12; V 107076268383 12; V 106659747513 12; V 106253341245 12; V 105856646224 12; V 105469281426 12; V 105090886638 12; V 104721121061 12; V 104359662018 12; V 104006203755 12; V 103660456338 12; V 103322144627 12; V 102991007333 12; V 102666796141 12; V 102349274898 12]);
(V 864847294589 11, [V 124722810777 12; V 123611807053 12; V 122570538897 12; V 121577622569 12; V 120627227243 12; V 119716639779 12; V 118843724746 12; V 118006408598 12; V 117202624873 12; V 116430353987 12; V 115687664518 12; V 11497273816 11; V 114283880121 12; V 113619519943 12; V 11297820689 11; V 112358602597 12; V 11175947263 11; V 111179677862 12; V 110618166155 12; V 110073964572 12; V 109546172229 12; V 109033953784 12; V 108536533561 12; V 108053190248 12; V 107583252127 12; V 107126092794 12; V 106681127295 12; V 10624780866 11; V 105825624772 12; V 105414095546 12; V 105012770378 12; V 104621225837 12; V 104239063573 12; V 103865908417 12; V 103501406657 12; V 103145224466 12; V 102797046465 12; V 102456574419 12; V 102123526036 12; V 101797633874 12]);
(V 866951302605 11, [V 125244726911 12; V 123989700941 12; V 122823425274 12; V 121721904596 12; V 120676949437 12; V 119683735471 12; V 118738273829 12; V 117836925769 12; V 116976334818 12; V 116153426826 12; V 115365406798 12; V 11460974468 11; V 113884154247 12; V 113186569445 12; V 11251512093 11; V 111868114174 12; V 111244009707 12; V 110641405603 12; V 11005902209 11; V 109495688099 12; V 108950329518 12; V 108421958941 12; V 107909666695 12; V 107412612982 12; V 106930020978 12; V 106461170746 12; V 106005393877 12; V 105562068725 12; V 105130616191 12; V 104710495962 12; V 104301203156 12; V 103902265322 12; V 103513239747 12; V 103133711032 12; V 102763288916 12; V 102401606308 12; V 102048317501 12; V 10170309656 11; V 101365635859 12; V 101035644742 12]);
(V 869055310621 11, [V 124987168943 12; V 123627981034 12; V 122373645811 12; V 121197729652 12; V 120089852986 12; V 119043261507 12; V 118052299081 12; V 117111948222 12; V 116217743247 12; V 115365725553 12; V 114552393066 12; V 113774645817 12; V 113029733527 12; V 112315208376 12; V 111628883893 12; V 110968799815 12; V 110333192261 12; V 109720468477 12; V 109129185425 12; V 108558031587 12; V 10800581143 11; V 107471432111 12; V 106953892028 12; V 106452270936 12; V 105965721369 12; V 105493461167 12; V 105034766945 12; V 104588968361 12; V 104155443064 12; V 103733612238 12; V 103322936643 12; V 102922913106 12; V 102533071386 12; V 102152971373 12; V 101782200578 12; V 101420371883 12; V 101067121507 12; V 100722107178 12; V 100385006478 12; V 100055515341 12]);
(V 871159318637 11, [V 123831164755 12; V 12242657495 11; V 121135930628 12; V 11993161356 11; V 11880198149 11; V 117739070027 12; V 116736131368 12; V 115787241825 12; V 114887220584 12; V 114031556009 12; V 113216319169 12; V 112438078209 12; V 11169382192 11; V 110980894864 12; V 110296943485 12; V 109639871668 12; V 109007804093 12; V 108399055891 12; V 107812107388 12; V 107245582956 12; V 106698233187 12; V 106168919781 12; V 105656602668 12; V 105160328955 12; V 104679223412 12; V 104212480227 12; V 103759355846 12; V 103319162708 12; V 10289126376 11; V 102475067632 12; V 10207002437 11; V 101675621666 12; V 101291381498 12; V 100916857144 12; V 100551630514 12; V 100195309755 12; V 998475271072 13; V 995079369693 13; V 991762141568 13; V 98852052327 12]);
(V 873263326653 11, [V 121690476453 12; V 120315017879 12; V 119051731838 12; V 117874215961 12; V 116771247417 12; V 115734883527 12; V 114758217208 12; V 113835145 9; V 112960348987 12; V 11212923155 11; V 111337818849 12; V 110582662697 12; V 109860754038 12; V 109169450978 12; V 108506420214 12; V 107869589594 12; V 107257109579 12; V 10666732172 11; V 106098732677 12; V 105549992622 12; V 10501987716 11; V 104507272067 12; V 104011160335 12; V 103530611094 12; V 103064770101 12; V 102612851513 12; V 102174130753 12; V 10174793829 11; V 101333654191 12; V 100930703332 12; V 100538551186 12; V 100156700081 12; V 997846858914 13; V 994220750884 13; V 99068462106 12; V 987234669871 13; V 983867332708 13; V 980579260925 13; V 977367304727 13; V 974228497712 13]);
(V 875367334669 11, [V 118524873774 12; V 117262405414 12; V 116096893033 12; V 115006387754 12; V 113982293664 12; V 113018267329 12; V 112108410194 12; V 111247328752 12; V 110430261083 12; V 109653073092 12; V 108912188133 12; V 108204501904 12; V 107527304294 12; V 106878213944 12; V 106255125208 12; V 105656165488 12; V 105079660792 12; V 104524107698 12; V 103988150328 12; V 103470561231 12; V 102970225391 12; V 102486126724 12; V 102017336592 12; V 101563003982 12; V 101122347043 12; V 100694645763 12; V 100279235597 12; V 998755019058 13; V 994828750758 13; V 991008262206 13; V 987288633879 13; V 983665281952 13; V 980133928418 13; V 976690574439 13; V 973331476541 13; V 970053125289 13; V 966852226131 13; V 963725682163 13; V 960670578584 13; V 957684168644 13]);
(V 877471342685 11, [V 11434956811 11; V 113284204877 12; V 112286737745 12; V 111343080302 12; V 110449566485 12; V 109603091638 12; V 108799975549 12; V 10803645124 11; V 107309021871 12; V 106614575217 12; V 105950378296 12; V 105314032589 12; V 104703423838 12; V 104116677438 12; V 103552121567 12; V 103008257305 12; V 102483734429 12; V 101977331613 12; V 101487940081 12; V 101014549923 12; V 100556238546 12; V 100112160831 12; V 996815406804 13; V 992636637052 13; V 988578708729 13; V 984635529546 13; V 98080145653 12; V 977071253104 13; V 973440051152 13; V 969903317378 13; V 966456823391 13; V 96309661903 12; V 959819008512 13; V 956620529074 13; V 953497931778 13; V 950448164242 13; V 947468355072 13; V 944555799786 13; V 94170794808 12; V 938922392279 13]);
(V 879575350701 11, [V 109238577346 12; V 10844448875 11; V 107677606133 12; V 106934433055 12; V 106218102654 12; V 105530111612 12; V 104870023763 12; V 104236485552 12; V 103627878513 12; V 103042597566 12; V 102479142911 12; V 101936138633 12; V 101412327111 12; V 100906557469 12; V 100417773966 12; V 999450057792 13; V 994873582935 13; V 990440056383 13; V 986141842126 13; V 981971869902 13; V 977923584589 13; V 973990900881 13; V 970168162506 13; V 966450105413 13; V 962831824481 13; V 959308743374 13; V 955876587235 13; V 952531357915 13; V 949269311519 13; V 946086938013 13; V 942980942714 13; V 939948229462 13; V 936985885323 13; V 934091166669 13; V 93126148649 12; V 92849440284 12; V 925787608284 13; V 923138920264 13; V 920546272289 13; V 918007705868 13]);
(V 881679358717 11, [V 103320824494 12; V 102852853495 12; V 102364363277 12; V 101863716327 12; V 101361803298 12; V 100865500319 12; V 100378250457 12; V 999016273532 13; V 994363057877 13; V 989825247389 13; V 985402937434 13; V 981094881646 13; V 976898982747 13; V 972812583674 13; V 968832661871 13; V 964955968357 13; V 961179130262 13; V 957498726814 13; V 95391134522 12; V 950413621067 13; V 947002266873 13; V 943674091564 13; V 940426013115 13; V 937255066053 13; V 934158405151 13; V 931133306354 13; V 928177165678 13; V 925287496714 13; V 922461927142 13; V 919698194619 13; V 916994142268 13; V 914347713969 13; V 91175694956 12; V 909219980081 13; V 906735023092 13; V 904300378137 13; V 901914422377 13; V 899575606409 13; V 897282450287 13; V 895033539749 13]);
(V 883783366733 11, [V 96769230165 12; V 966562233733 13; V 964740329586 13; V 962422499445 13; V 959792907366 13; V 956974125399 13; V 954040462867 13; V 95103835168 12; V 947998912573 13; V 944944318132 13; V 941890969937 13; V 938851217767 13; V 935834407213 13; V 932847590016 13; V 929896041252 13; V 926983650961 13; V 924113226437 13; V 921286727695 13; V 918505451676 13; V 915770176735 13; V 913081276176 13; V 910438807639 13; V 907842583589 13; V 905292227014 13; V 902787215496 13; V 900326916156 13; V 897910613385 13; V 895537530876 13; V 893206849145 13; V 89091771945 12; V 888669274857 13; V 886460639012 13; V 884290933088 13; V 88215928126 12; V 880064814996 13; V 878006676406 13; V 875984020815 13; V 873996018727 13; V 872041857282 13; V 870120741318 13]);
(V 885887374749 11, [V 897845282638 13; V 900266777174 13; V 901563388901 13; V 90201858801 12; V 901877648041 13; V 901308969771 13; V 900422243517 13; V 89929199678 12; V 897972184191 13; V 896503847243 13; V 894919166812 13; V 893243809862 13; V 89149844781 12; V 889699830446 13; V 887861589053 13; V 88599485555 12; V 884108747455 13; V 882210751075 13; V 880307026032 13; V 878402648356 13; V 876501805357 13; V 874607952508 13; V 872723940279 13; V 870852117126 13; V 868994413483 13; V 867152410562 13; V 86532739695 12; V 863520415351 13; V 861732301363 13; V 859963715754 13; V 858215171433 13; V 856487056071 13; V 854779651126 13; V 85309314791 12; V 851427661182 13; V 849783240688 13; V 848159880984 13; V 846557529815 13; V 844976095276 13; V 843415451956 13]);
(V 887991382766 11, [V 825765855236 13; V 831471340215 13; V 835724166571 13; V 838857729267 13; V 841155323344 13; V 842816701458 13; V 843977646592 13; V 844734586845 13; V 845160026634 13; V 845310833448 13; V 845232766621 13; V 844963199199 13; V 844532939603 13; V 843967554002 13; V 843288374209 13; V 842513286137 13; V 841657355091 13; V 840733325619 13; V 839752023292 13; V 838722679219 13; V 837653193328 13; V 836550348978 13; V 835419988713 13; V 834267158877 13; V 833096229181 13; V 831910992015 13; V 830714745325 13; V 829510362071 13; V 828300348702 13; V 827086894579 13; V 825871913917 13; V 824657081517 13; V 823443863306 13; V 822233542546 13; V 821027242386 13; V 819825945335 13; V 818630510123 13; V 817441686344 13; V 816260127209 13; V 815086400673 13]);
(V 890095390782 11, [V 753463399863 13; V 761969954061 13; V 768831881733 13; V 774390638298 13; V 778940313756 13; V 782693846277 13; V 785800723661 13; V 78837054207 12; V 790488010222 13; V 79222110374 12; V 793625593493 13; V 794747827422 13; V 795626638169 13; V 796294759567 13; V 796779927438 13; V 797105755006 13; V 797292437208 13; V 797357321065 13; V 797315369745 13; V 79717954172 12; V 796961101836 13; V 796669877646 13; V 796314471568 13; V 795902437295 13; V 795440427138 13; V 794934315656 13; V 794389303835 13; V 793810007268 13; V 79320053109 12; V 792564533912 13; V 791905282585 13; V 791225699268 13; V 790528402038 13; V 789815740025 13; V 78908982393 12; V 788352552591 13; V 787605636187 13; V 786850616565 13; V 786088885083 13; V 785321698315 13]);
(V 892199398798 11, [V 682710345864 13; V 693396877203 13; V 702388287393 13; V 709997012131 13; V 716501878972 13; V 722110504038 13; V 726972757502 13; V 731201573852 13; V 734886443936 13; V 738100747531 13; V 740905825179 13; V 743353504136 13; V 745487865523 13; V 747346588795 13; V 748962021574 13; V 750362048668 13; V 751570804364 13; V 752609258842 13; V 753495702413 13; V 754246146541 13; V 754874657003 13; V 755393631651 13; V 75581403286 12; V 756145582816 13; V 756396928266 13; V 756575780042 13; V 756689031709 13; V 756742860842 13; V 75674281581 12; V 7566938904 11; V 756600588222 13; V 756466978467 13; V 756296744354 13; V 75609322533 12; V 755859453962 13; V 755598188259 13; V 755311940079 13; V 755003000158 13; V 754673460216 13; V 754325232521 13]);
(V 894303406814 11, [V 614944127095 13; V 627134614762 13; V 637704430182 13; V 646911301119 13; V 654998327128 13; V 662152016935 13; V 668510501735 13; V 674180637179 13; V 679249282414 13; V 683789323146 13; V 687862938553 13; V 691523613689 13; V 69481757116 12; V 697784894007 13; V 70046044902 12; V 702874659575 13; V 705054155807 13; V 70702232205 12; V 708799757838 13; V 710404666347 13; V 711853182151 13; V 713159648329 13; V 714336851366 13; V 715396220842 13; V 716347999742 13; V 717201390155 13; V 717964678361 13; V 718645342543 13; V 719250145864 13; V 719785217125 13; V 720256120898 13; V 720667918672 13; V 721025222327 13; V 721332241022 13; V 721592822415 13; V 721810489004 13; V 721988470234 13; V 722129730936 13; V 722236996576 13; V 722312775716 13]);
(V 89640741483 10, [V 55122327806 12; V 564260965508 13; V 57584595686 12; V 586169608436 13; V 595427004711 13; V 603772611248 13; V 611323566334 13; V 618172924077 13; V 624398488706 13; V 63006731347 12; V 635237977205 13; V 639961925704 13; V 644284435858 13; V 648245407686 13; V 651880051616 13; V 655219492287 13; V 65829129748 12; V 66111993866 12; V 663727189815 13; V 666132471633 13; V 668353147967 13; V 670404781073 13; V 672301351468 13; V 674055447572 13; V 675678429555 13; V 6771805712 11; V 67857118302 12; V 679858719352 13; V 681050871752 13; V 682154650641 13; V 68317645686 12; V 684122144533 13; V 684997076426 13; V 685806172816 13; V 686553954724 13; V 687244582254 13; V 68788188866 12; V 688469410686 13; V 689010415638 13; V 689507925589 13]);
(V 898511422846 11, [V 492231616861 13; V 505534209751 13; V 517608343805 13; V 528580059671 13; V 538592768123 13; V 547763678374 13; V 556183475184 13; V 563926225067 13; V 571055964192 13; V 577629731178 13; V 583698844685 13; V 589309533682 13; V 59450338174 12; V 599317733813 13; V 603786096147 13; V 607938524882 13; V 611801993425 13; V 615400731382 13; V 618756531655 13; V 62188902527 12; V 624815925306 13; V 627553242295 13; V 630115473839 13; V 632515771302 13; V 634766086253 13; V 636877299178 13; V 638859332676 13; V 640721251144 13; V 642471348672 13; V 644117226661 13; V 6456658625 11; V 647123670416 13; V 648496555503 13; V 64978996177 12; V 651008914959 13; V 65215806076 12; V 653241698993 13; V 654263814219 13; V 655228103217 13; V 656137999687 13]);
(V 900615430862 11, [V 438317762258 13; V 451409954473 13; V 463519045418 13; V 47471562562 12; V 485095036662 13; V 494737403913 13; V 503705417621 13; V 512051821606 13; V 519824249631 13; V 527067061284 13; V 533821762982 13; V 540126996594 13; V 546018491443 13; V 551529090002 13; V 55668885194 12; V 561525212863 13; V 56606317288 12; V 570325496216 13; V 574332909529 13; V 578104291543 13; V 581656850078 13; V 585006284734 13; V 588166934865 13; V 591151913251 13; V 593973226313 13; V 596641881929 13; V 599167985953 13; V 601560828565 13; V 603828961495 13; V 605980267103 13; V 608022020205 13; V 609960943454 13; V 61180325699 12; V 613554723009 13; V 615220685807 13; V 616806107815 13; V 61831560206 12; V 619753461451 13; V 621123685234 13; V 622430002923 13]);
(V 902719438878 11, [V 389555012566 13; V 402080043975 13; V 413860585812 13; V 424925801053 13; V 435331380385 13; V 445124702804 13; V 45434229939 12; V 463015928699 13; V 471176276708 13; V 478853978739 13; V 486079424847 13; V 49288225802 12; V 499290927326 13; V 505332388409 13; V 511031943351 13; V 516413185622 13; V 521498016108 13; V 526306703618 13; V 530857971016 13; V 535169094272 13; V 539256006212 13; V 543133399761 13; V 546814827601 13; V 550312796432 13; V 55363885498 12; V 556803675394 13; V 559817128064 13; V 562688350082 13; V 565425807692 13; V 568037353148 13; V 570530276403 13; V 572911352077 13; V 575186882107 13; V 577362734485 13; V 57944437845 12; V 581436916473 13; V 583345113344 13; V 585173422641 13; V 586926010842 13; V 588606779294 13]);
(V 904823446894 11, [V 345808122782 13; V 357523353339 13; V 368707295615 13; V 379362027545 13; V 389514131441 13; V 399185100226 13; V 408389553617 13; V 417140730785 13; V 425453624431 13; V 433345584084 13; V 440835783627 13; V 447944424297 13; V 454692024867 13; V 461098890147 13; V 467184749443 13; V 472968529096 13; V 478468222463 13; V 483700827588 13; V 488682330478 13; V 49342771822 12; V 497951011027 13; V 502265305635 13; V 506382824982 13; V 510314970682 13; V 514072376034 13; V 517664958073 13; V 521101967713 13; V 524392037444 13; V 527543226265 13; V 530563061741 13; V 533458579165 13; V 536236357893 13; V 538902554977 13; V 541462936223 13; V 543922904846 13; V 546287527873 13; V 548561560469 13; V 550749468336 13; V 552855448333 13; V 554883447469 13]);
(V 90692745491 10, [V 306797189028 13; V 317559623077 13; V 327968546261 13; V 338011311853 13; V 347695813474 13; V 357025424911 13; V 365998410925 13; V 374613345896 13; V 382872096018 13; V 390780333421 13; V 398346926167 13; V 405583047382 13; V 412501354267 13; V 419115336509 13; V 425438834315 13; V 431485696312 13; V 437269544158 13; V 44280361564 12; V 44810066442 12; V 453172900196 13; V 458031957467 13; V 462688884334 13; V 467154145201 13; V 471437632917 13; V 475548687175 13; V 479496116883 13; V 483288224847 13; V 486932833613 13; V 490437311632 13; V 493808599177 13; V 497053233607 13; V 500177373746 13; V 503186823177 13; V 506087052385 13; V 508883219701 13; V 511580191019 13; V 514182558339 13; V 516694657132 13; V 519120582602 13; V 521464204877 13]);
(V 909031462926 11, [V 272152926275 13; V 281899880493 13; V 291432516855 13; V 300732934132 13; V 309799194068 13; V 318623954764 13; V 327194982282 13; V 335500657993 13; V 343533026595 13; V 35128844533 12; V 358767103742 13; V 365972216093 13; V 37290923242 12; V 379585178441 13; V 386008138103 13; V 39218686051 12; V 398130466429 13; V 403848231636 13; V 409349428639 13; V 414643212442 13; V 41973853944 12; V 424644111221 13; V 429368337071 13; V 433919310478 13; V 438304796104 13; V 442532224524 13; V 446608692684 13; V 450540968538 13; V 454335498652 13; V 457998417903 13; V 461535560563 13; V 464952472263 13; V 468254422445 13; V 471446417004 13; V 474533210901 13; V 477519320599 13; V 480409036188 13; V 483206433142 13; V 485915383632 13; V 488539567371 13]);
(V 911135470942 11, [V 241460871365 13; V 250189576188 13; V 258806218676 13; V 267294153087 13; V 27564830968 12; V 283856888919 13; V 291902542586 13; V 299767866881 13; V 307438567058 13; V 314904361491 13; V 322158771431 13; V 32919853044 12; V 33602294313 12; V 342633311484 13; V 34903245759 12; V 355224338959 13; V 361213743031 13; V 367006046387 13; V 37260702585 12; V 378022710858 13; V 383259268588 13; V 388322915013 13; V 393219846547 13; V 397956187979 13; V 402537953329 13; V 40697101694 12; V 411261092657 13; V 415413719395 13; V 419434251733 13; V 423327854461 13; V 427099500189 13; V 430753969357 13; V 434295852064 13; V 437729551293 13; V 441059287175 13; V 444289102005 13; V 447422865797 13; V 450464282195 13; V 453416894597 13; V 456284092398 13]);
(V 913239478958 11, [V 214294150314 13; V 222042762779 13; V 229749242719 13; V 237402077774 13; V 244997679016 13; V 252524579563 13; V 259964732685 13; V 267298768902 13; V 274509237014 13; V 281581806768 13; V 288505404394 13; V 295271920616 13; V 30187579303 12; V 308313585201 13; V 314583605756 13; V 320685578781 13; V 326620364681 13; V 332389726518 13; V 337996135828 13; V 343442612044 13; V 348732590266 13; V 353869812758 13; V 358858240255 13; V 363701979729 13; V 36840522582 12; V 372972213585 13; V 377407180593 13; V 381714336751 13; V 38589784048 12; V 389961780147 13; V 39391015978 12; V 397746888328 13; V 401475771799 13; V 405100507758 13; V 408624681738 13; V 412051765209 13; V 415385114794 13; V 418627972495 13; V 42178346671 12; V 42485461388 12]);
(V 915343486974 11, [V 19023573124 12; V 197067210241 13; V 203900184699 13; V 210730131216 13; V 217557908556 13; V 224375690545 13; V 231167913328 13; V 23791612284 12; V 244602247764 13; V 251210104412 13; V 257725899173 13; V 26413826308 12; V 27043808855 12; V 276618292648 13; V 282673563107 13; V 288600112469 13; V 294395451383 13; V 300058185267 13; V 30558783505 12; V 310984681052 13; V 316249628196 13; V 321384090426 13; V 326389892144 13; V 331269184525 13; V 336024374779 13; V 340658066541 13; V 345173009845 13; V 349572059268 13; V 353858139051 13; V 358034214145 13; V 362103266282 13; V 366068274309 13; V 369932198119 13; V 373697965622 13; V 37736846228 12; V 380946522795 13; V 384434924611 13; V 387836382937 13; V 391153547044 13; V 394388997613 13]);
(V 91744749499 10, [V 168891855868 13; V 174881294928 13; V 180895812983 13; V 18693862073 12; V 193016846287 13; V 199128219819 13; V 205261493733 13; V 211400887164 13; V 217529400197 13; V 223630606549 13; V 2296894974 11; V 235692819394 13; V 241629151528 13; V 247488848159 13; V 253263915467 13; V 258947858215 13; V 264535517451 13; V 270022910722 13; V 275407081151 13; V 280685958546 13; V 285858233842 13; V 290923247041 13; V 295880888141 13; V 300731510199 13; V 305475853474 13; V 310114979567 13; V 314650214445 13; V 319083099337 13; V 323415348538 13; V 327648813239 13; V 331785450627 13; V 335827297546 13; V 339776448102 13; V 343635034702 13; V 347405212031 13; V 351089143571 13; V 354688990314 13; V 358206901349 13; V 361645006068 13; V 365005407752 13]);
(V 919551503006 11, [V 149898662383 13; V 155123956078 13; V 160383797621 13; V 165689790109 13; V 17105625231 12; V 176487017853 13; V 181975619714 13; V 187509554251 13; V 19307369755 12; V 198652350036 13; V 20423035128 12; V 209793652187 13; V 215329578352 13; V 220826917077 13; V 226275903843 13; V 231668152616 13; V 236996556553 13; V 242255175246 13; V 24743911836 12; V 252544431609 13; V 257567988529 13; V 262507389955 13; V 267360872052 13; V 272127223111 13; V 276805708935 13; V 281396006356 13; V 285898144323 13; V 290312451916 13; V 294639512644 13; V 298880124385 13; V 303035264362 13; V 307106058601 13; V 311093755345 13; V 314999701968 13; V 318825324964 13; V 322572112634 13; V 326241600148 13; V 329835356677 13; V 333354974335 13; V 336802058711 13]);
(V 921655511022 11, [V 132923856437 13; V 137459180264 13; V 142030322451 13; V 146658357235 13; V 151364565352 13; V 156157973252 13; V 161036063654 13; V 165989187001 13; V 171004123892 13; V 176066299063 13; V 181161050749 13; V 186274330322 13; V 191393069494 13; V 196505353522 13; V 201600480289 13; V 20666895193 12; V 211702426948 13; V 216693649992 13; V 221636370143 13; V 226525254611 13; V 231355802319 13; V 236124260155 13; V 240827543626 13; V 245463162863 13; V 250029154453 13; V 254524019195 13; V 258946665682 13; V 26329635946 12; V 267572677406 13; V 271775466972 13; V 275904809867 13; V 279960989798 13; V 283944463874 13; V 287855837313 13; V 291695841104 13; V 295465312328 13; V 299165176824 13; V 302796433974 13; V 306360143338 13; V 309857412959 13]);
(V 923759519038 11, [V 117664758821 13; V 121576590478 13; V 125524283517 13; V 129538946665 13; V 133646712202 13; V 137859367995 13; V 142176460531 13; V 14659003876 12; V 151088287662 13; V 15565775617 12; V 160284623994 13; V 164955399452 13; V 169657294461 13; V 174378416818 13; V 179107857127 13; V 183835713184 13; V 1885530763 11; V 193251994197 13; V 197925419728 13; V 202567151535 13; V 207171770837 13; V 211734577187 13; V 216251525225 13; V 220719163704 13; V 225134577674 13; V 229495334307 13; V 233799432633 13; V 238045257233 13; V 242231535863 13; V 246357300855 13; V 250421854106 13; V 254424735433 13; V 258365694052 13; V 262244662934 13; V 266061735809 13; V 269817146561 13; V 273511250822 13; V 277144509531 13; V 280717474286 13; V 284230774305 13]);
(V 925863527054 11, [V 10384351213 12; V 107190044091 13; V 110580089735 13; V 114051985875 13; V 117632001627 13; V 121331003804 13; V 125148161491 13; V 129075790807 13; V 133102797932 13; V 137216695172 13; V 141404689283 13; V 145654248911 13; V 149953397115 13; V 154290860906 13; V 158656144369 13; V 163039558306 13; V 167432223044 13; V 171826053542 13; V 176213732349 13; V 18058867428 12; V 184944985657 13; V 189277420325 13; V 19358133417 12; V 197852639442 13; V 202087759867 13; V 206283587262 13; V 210437440143 13; V 214547024627 13; V 218610397822 13; V 222625933776 13; V 226592291972 13; V 23050838834 12; V 234373368662 13; V 238186584273 13; V 241947569917 13; V 245656023615 13; V 249311788399 13; V 252914835776 13; V 256465250777 13; V 259963218459 13]);
(V 92796753507 10, [V 912004024043 14; V 940368290919 14; V 969412223976 14; V 99949472702 13; V 103080947597 13; V 106341577106 13; V 10972794308 12; V 113231482698 13; V 116841332847 13; V 120545890806 13; V 124333570907 13; V 128193143129 13; V 132113878824 13; V 136085614583 13; V 140098782426 13; V 144144424639 13; V 148214199324 13; V 152300378409 13; V 156395838814 13; V 160494047477 13; V 16458904116 12; V 168675402092 13; V 172748230559 13; V 176803115436 13; V 180836103605 13; V 18484366897 12; V 188822681718 13; V 192770378263 13; V 196684332244 13; V 200562426807 13; V 204402828338 13; V 208203961747 13; V 21196448734 12; V 215683279271 13; V 219359405575 13; V 222992109698 13; V 226580793486 13; V 230125001549 13; V 233624406925 13; V 237078797951 13]);
(V 930071543086 11, [V 79488179075 13; V 818808273121 14; V 843863931921 14; V 87021454496 13; V 897913982727 14; V 926944825486 14; V 957236630531 14; V 988691737739 14; V 102120396199 13; V 105466801679 13; V 108898298889 13; V 112405304015 13; V 115978717418 13; V 11960988751 12; V 12329058743 12; V 127013006664 13; V 130769752416 13; V 134553854958 13; V 138358772647 13; V 142178394073 13; V 14600703619 12; V 149839438199 13; V 153670751504 13; V 157496526344 13; V 161312695795 13; V 16511555783 12; V 168901756082 13; V 172668259848 13; V 1764123438 11; V 180131567769 13; V 183823756888 13; V 187486982309 13; V 191119542668 13; V 194719946384 13; V 198286894883 13; V 201819266774 13; V 205316102995 13; V 208776592921 13; V 212200061426 13; V 215585956843 13]);
(V 932175551102 11, [V 684742511871 14; V 705229566279 14; V 727390209575 14; V 75103081395 13; V 776036991507 14; V 802318494882 14; V 829777667678 14; V 858313101506 14; V 887827716774 14; V 918232240466 14; V 949445004408 14; V 9813903309 12; V 101399687667 13; V 104719644245 13; V 108092329871 13; V 111511391016 13; V 114970691515 13; V 118464324102 13; V 121986627287 13; V 12553220241 12; V 129095928014 13; V 13267297022 12; V 136258788712 13; V 139849138519 13; V 143440068044 13; V 147027913921 13; V 150609293315 13; V 15418109423 12; V 15774046434 12; V 161284798807 13; V 164811727446 13; V 168319101555 13; V 171804980668 13; V 175267619416 13; V 178705454657 13; V 182117092985 13; V 185501298716 13; V 188856982383 13; V 192183189804 13; V 195479091729 13]);
(V 934279559118 11, [V 579610623286 14; V 598199600755 14; V 618787202636 14; V 640808887498 14; V 664039730874 14; V 688362944508 14; V 713684089943 14; V 739917361981 14; V 766987094468 14; V 794827944728 14; V 823382718757 14; V 852599536102 14; V 882429447624 14; V 912824846395 14; V 943738607102 14; V 975123759729 14; V 100693350346 13; V 103912140973 13; V 107164171029 13; V 110444960465 13; V 113750154845 13; V 117075550297 13; V 120417113736 13; V 123770998246 13; V 127133553875 13; V 130501334333 13; V 133871100137 13; V 13723981878 12; V 140604662463 13; V 143963003881 13; V 147312410497 13; V 150650637678 13; V 15397562101 12; V 157285468052 13; V 160578449758 13; V 163852991726 13; V 167107665433 13; V 170341179554 13; V 173552371461 13; V 176740198958 13]);
(V 936383567134 11, [V 478310122103 14; V 497075307211 14; V 517510425947 14; V 538959390804 14; V 561242044488 14; V 58429744823 13; V 608079433727 14; V 632543282909 14; V 657649427993 14; V 683364947047 14; V 709662012458 14; V 736515372284 14; V 763900171364 14; V 791790524821 14; V 820158803263 14; V 848975444086 14; V 878209098886 14; V 907826968103 14; V 937795219761 14; V 968079426459 14; V 998644981598 14; V 102945747377 13; V 106048300986 13; V 109168848452 13; V 112304179773 13; V 115451202464 13; V 118606954282 13; V 121768612241 13; V 12493349846 12; V 12809908335 12; V 131262986598 13; V 134422976365 13; V 137576967043 13; V 14072301588 12; V 14385931875 12; V 146984205259 13; V 150096133404 13; V 153193683908 13; V 15627555438 12; V 159340553384 13]);
(V 93848757515 10, [V 381048863613 14; V 402174525369 14; V 423699981895 14; V 445411530958 14; V 467379029413 14; V 489688557146 14; V 512386903949 14; V 53549362293 13; V 559017439558 14; V 582964074409 14; V 607337967574 14; V 632141577303 14; V 657374283523 14; V 683031643619 14; V 709105126916 14; V 735582234278 14; V 762446867591 14; V 789679834035 14; V 817259402974 14; V 845161862364 14; V 873362043061 14; V 901833794074 14; V 930550401343 14; V 959484948499 14; V 98861062163 13; V 101790096204 13; V 104733007193 13; V 107687277834 13; V 110650476056 13; V 11362026461 12; V 116594407969 13; V 119570776968 13; V 122547351535 13; V 125522221855 13; V 128493588243 13; V 131459759978 13; V 134419153305 13; V 137370288781 13; V 140311788127 13; V 143242370705 13]);
(V 940591583166 11, [V 289779441655 14; V 314751427859 14; V 338083165225 14; V 360509984964 14; V 38250800645 13; V 404370164126 14; V 426262146106 14; V 448279421059 14; V 470483775833 14; V 492920800024 14; V 515626593821 14; V 53862982867 13; V 561952274687 14; V 585609050649 14; V 609608983246 14; V 633955127261 14; V 658645398054 14; V 683673254736 14; V 709028385357 14; V 734697361805 14; V 760664245535 14; V 7869111347 12; V 813418649514 14; V 840166356524 14; V 867133134825 14; V 894297488503 14; V 921637810194 14; V 949132600851 14; V 976760650696 14; V 100450118612 13; V 103233398696 13; V 10602394781 12; V 10881987992 12; V 111619385565 13; V 114420735369 13; V 117222282225 13; V 120022462368 13; V 122819795533 13; V 125612884361 13; V 128400413194 13]);
(V 942695591182 11, [V 207890608393 14; V 236682575185 14; V 261736926426 14; V 284836760974 14; V 306871889857 14; V 328336250871 14; V 349507524213 14; V 370550687206 14; V 391574692543 14; V 41265956369 13; V 433868091499 14; V 455250676743 14; V 476847491808 14; V 498689721101 14; V 520800529264 14; V 543195957446 14; V 565885788372 14; V 588874374323 14; V 612161414535 14; V 635742671912 14; V 659610623999 14; V 683755047163 14; V 708163535657 14; V 732821958907 14; V 757714861272 14; V 782825808983 14; V 808137689084 14; V 833632965162 14; V 859293894416 14; V 885102710425 14; V 911041775601 14; V 93709370704 13; V 963241479133 14; V 989468505979 14; V 101575870632 13; V 104209655348 13; V 106846711236 13; V 10948560656 12; V 112124973035 13; V 114763506728 13]);
(V 944799599198 11, [V 13908238655 13; V 169894531584 14; V 195745985416 14; V 218984609083 14; V 24073786713 13; V 261620021071 14; V 281978180402 14; V 30202149715 13; V 321889336745 14; V 341684127766 14; V 361486193527 14; V 381360408402 14; V 401359445774 14; V 421525676092 14; V 441892529495 14; V 462485622042 14; V 483323748349 14; V 504419774705 14; V 525781445136 14; V 547412107025 14; V 56931136181 13; V 591475646181 14; V 613898749184 14; V 636572270532 14; V 659486025199 14; V 682628399103 14; V 705986660432 14; V 72954723085 13; V 753295920584 14; V 777218131093 14; V 801299028756 14; V 825523692759 14; V 849877240103 14; V 874344930379 14; V 898912252764 14; V 92356499741 13; V 948289313215 14; V 973071753754 14; V 997899312939 14; V 102275945185 13])].
Definition tt_part9 : list (dec * list dec) := [
(V 946903607214 11, [V 85859117035 14; V 115710585622 14; V 140842605322 14; V 163329168486 14; V 184239767304 14; V 204177777242 14; V 223492512416 14; V 242398681619 14; V 261041642654 14; V 279529552359 14; V 297948183304 14; V 316367725153 14; V 334846168863 14; V 353431289422 14; V 372162041242 14; V 391069677185 14; V 410178707428 14; V 429507743692 14; V 449070250006 14; V 468875212751 14; V 488927739524 14; V 509229594641 14; V 529779677905 14; V 550574452315 14; V 57160832561 13; V 592873989926 14; V 614362723396 14; V 636064657111 14; V 657969010603 14; V 680064298746 14; V 702338512768 14; V 724779277876 14; V 747373989816 14; V 770109932526 14; V 792974378871 14; V 815954676294 14; V 839038319062 14; V 862213008645 14; V 885466703627 14; V 908787660401 14]);
(V 94900761523 10, [V 484580729045 15; V 743670536583 15; V 971337763485 15; V 117853331685 14; V 137254552976 14; V 15579642565 13; V 173759631233 14; V 191322981725 14; V 208611447787 14; V 225720943313 14; V 242729769939 14; V 259703738346 14; V 276698628554 14; V 293761608714 14; V 310932250677 14; V 328243371169 14; V 345721774377 14; V 363388920714 14; V 381261531683 14; V 399352137197 14; V 417669570959 14; V 436219419029 14; V 455004426193 14; V 474024864126 14; V 493278864735 14; V 512762721602 14; V 53247116206 13; V 552397592165 14; V 572534316601 14; V 592872735457 14; V 613403519639 14; V 634116766651 14; V 655002138348 14; V 676048982223 14; V 697246437671 14; V 718583528631 14; V 740049243897 14; V 761632606313 14; V 783322731989 14; V 805108880575 14]);
(V 951111623246 11, [V 248100861586 15; V 448882384467 15; V 639966671432 15; V 820650242991 15; V 993365072857 15; V 116039293939 14; V 132333596129 14; V 148329605452 14; V 164110004729 14; V 179743023028 14; V 195288124232 14; V 210798070323 14; V 226319616731 14; V 241893831665 14; V 257556380452 14; V 273337853084 14; V 289264129361 14; V 305356759862 14; V 321633344831 14; V 338107900133 14; V 354791204757 14; V 371691127682 14; V 38881293361 13; V 406159567864 14; V 423731921062 14; V 441529074282 14; V 459548525433 14; V 477786397576 14; V 496237629924 14; V 514896152296 14; V 533755043833 14; V 552806676783 14; V 57204284623 13; V 591454886641 14; V 611033776092 14; V 630770229085 14; V 650654778791 14; V 670677849585 14; V 690829820684 14; V 711101081659 14]);
(V 953215631263 11, [V 114495064813 15; V 253429391543 15; V 401632953948 15; V 550227038004 15; V 697187820751 15; V 842369997786 15; V 985993171617 15; V 112831888619 14; V 126962816162 14; V 141022935423 14; V 155045136274 14; V 16906287833 13; V 183108755017 14; V 197213444803 14; V 211405069205 14; V 225708865898 14; V 240147075073 14; V 254738959466 14; V 269500904048 14; V 284446561156 14; V 299587020205 14; V 314930989367 14; V 330484981565 14; V 346253499989 14; V 362239220035 14; V 378443165576 14; V 394864878104 14; V 411502577723 14; V 428353315295 14; V 445413115277 14; V 462677109019 14; V 480139658444 14; V 497794470191 14; V 515634700401 14; V 533653050447 14; V 551841853954 14; V 570193155534 14; V 588698781679 14; V 607350404301 14; V 626139597392 14]);
(V 955319639279 11, [V 473784435758 16; V 133370302101 15; V 23949245031 14; V 354519359889 15; V 473756221728 15; V 595206623623 15; V 717891624766 15; V 841279213171 15; V 965100689106 15; V 108926784422 14; V 121381523763 14; V 133885510868 14; V 146454378173 14; V 159105820359 14; V 171858038327 14; V 184728747562 14; V 197734568647 14; V 210890669216 14; V 224210569449 14; V 23770605398 13; V 251387153587 14; V 265262173091 14; V 279337750118 14; V 293618934406 14; V 308109280559 14; V 322810949161 14; V 33772481252 13; V 352850562206 14; V 36818681627 13; V 383731224464 14; V 399480570246 14; V 415430868621 14; V 431577459152 14; V 447915093695 14; V 464438018556 14; V 481140050953 14; V 498014649742 14; V 515054980481 14; V 532253974975 14; V 549604385489 14]);
(V 957423647295 11, [V 175061482848 16; V 652366688471 16; V 135396915389 15; V 219133805896 15; V 311251678296 15; V 408864948852 15; V 510239682227 15; V 614263882172 15; V 720223976596 15; V 827685451343 15; V 936410146663 15; V 104629412667 14; V 115732185095 14; V 126953356374 14; V 13830027335 13; V 149782071321 14; V 161408640533 14; V 17318993348 13; V 185135503374 14; V 1972542004 12; V 209553977051 14; V 222041770069 14; V 234723437107 14; V 247603733003 14; V 260686314975 14; V 273973768993 14; V 287467651524 14; V 301168542247 14; V 3150761043 12; V 329189149362 14; V 34350570546 13; V 358023085808 14; V 372737957356 14; V 387646408042 14; V 402744011945 14; V 418025891769 14; V 433486778225 14; V 449121066051 14; V 464922866469 14; V 480886056024 14]);
(V 959527655311 11, [V 57564793787 16; V 295884247532 16; V 724412570068 16; V 12975043128 14; V 197462223319 15; V 272759231595 15; V 353685734676 15; V 438852445608 15; V 527277464797 15; V 618284888776 15; V 711426582053 15; V 806419607695 15; V 903097863373 15; V 100137614526 14; V 110122416745 14; V 12026480498 13; V 130567719182 14; V 141035495545 14; V 151673202757 14; V 162486167656 14; V 173479636273 14; V 184658533104 14; V 19602729278 13; V 207589745948 14; V 219349046213 14; V 231307628496 14; V 243467191514 14; V 255828698769 14; V 268392393682 14; V 281157825352 14; V 294123882168 14; V 307288831007 14; V 320650360196 14; V 334205624771 14; V 347951292843 14; V 361883592131 14; V 375998355921 14; V 390291067874 14; V 404756905236 14; V 419390780137 14]);
(V 961631663327 11, [V 168000672331 17; V 124193258253 16; V 366229833236 16; V 73500100094 15; V 120838608356 15; V 176547791491 15; V 23890864181 14; V 30655675201 14; V 378440384568 15; V 453773522093 15; V 531985438466 15; V 612672558906 15; V 695557138306 15; V 780454242098 15; V 867246462591 15; V 955864986362 15; V 104627554446 14; V 113846799458 14; V 123244856869 14; V 132823407463 14; V 142584753985 14; V 152531493164 14; V 162666269157 14; V 172991589451 14; V 183509689239 14; V 194222433828 14; V 205131251089 14; V 216237087751 14; V 22754038462 13; V 2390410668 12; V 250738545721 14; V 262631730357 14; V 2747190455 12; V 286998455315 14; V 299467490728 14; V 31212327944 13; V 324962577593 14; V 337981802295 14; V 35117706435 13; V 36454420069 13]);
(V 963735671343 11, [V 434226923192 18; V 481638593989 17; V 174722921378 16; V 39790279859 15; V 712645479057 16; V 110783460821 15; V 157145580487 15; V 209241360623 15; V 26612310574 14; V 327022498229 15; V 391339080047 15; V 458615742115 15; V 528511439439 15; V 600776217118 15; V 67523032127 14; V 75174749693 14; V 830241918437 15; V 910658047541 15; V 992962772 12; V 107713929672 14; V 116318237956 14; V 125109460419 14; V 134088346014 14; V 143255905733 14; V 152613234498 14; V 162161373485 14; V 171901205108 14; V 181833374563 14; V 191958232982 14; V 202275798231 14; V 21278573008 13; V 223487317009 14; V 234379472418 14; V 245460738321 14; V 25672929496 13; V 268182974984 14; V 2798192811 12; V 291635406235 14; V 303628255457 14; V 315794468999 14]);
(V 965839679359 11, [V 992258430777 19; V 172353171844 17; V 78578638147 16; V 205672738932 16; V 404706538089 16; V 6734567335 14; V 100589290839 15; V 139468626476 15; V 183257981226 15; V 231307345502 15; V 283067709727 15; V 338092095085 15; V 39602530172 14; V 45658993017 14; V 519572410236 15; V 58481055743 14; V 652183065662 15; V 721600859737 15; V 793000060484 15; V 866336285969 15; V 941580037992 15; V 10187129646 13; V 10977248304 13; V 117861106137 14; V 126137075919 14; V 13460051015 13; V 143251606144 14; V 152090539259 14; V 16111738351 13; V 170332050651 14; V 179734244692 14; V 189323429266 14; V 199098805696 14; V 209059299893 14; V 219203556523 14; V 229529939083 14; V 240036534744 14; V 250721162973 14; V 261581387094 14; V 272614528091 14]);
(V 967943687375 11, [V 200187220138 19; V 568492457701 18; V 332832704933 17; V 10142594582 15; V 221160671456 16; V 396369137991 16; V 626236582158 16; V 907351654124 16; V 123518694008 15; V 16050283284 14; V 201247815865 15; V 245367529303 15; V 292535181812 15; V 342480726352 15; V 394984771603 15; V 449871475769 15; V 507001606949 15; V 566266258296 15; V 62758136278 14; V 690882996436 15; V 756123397021 15; V 823267607486 15; V 892290655558 15; V 963175189976 15; V 103590950496 14; V 1110485895 12; V 118689929119 14; V 126514613793 14; V 134522347529 14; V 142712819716 14; V 151085646 11; V 159640321999 14; V 168376187982 14; V 177292402846 14; V 186387925967 14; V 195661505666 14; V 205111673196 14; V 214736741315 14; V 224534806602 14; V 234503754817 14]);
(V 970047695391 11, [V 356184326093 20; V 172686052129 18; V 132675052416 17; V 476879630101 17; V 116231006975 16; V 225743298797 16; V 379010384045 16; V 575903306098 16; V 814535253272 16; V 109216092426 15; V 140577121046 15; V 175243771937 15; V 212948650486 15; V 253456806431 15; V 296566962626 15; V 342109796534 15; V 389944888876 15; V 439957214968 15; V 492053629704 15; V 546159562775 15; V 602216015257 15; V 660176883802 15; V 720006606467 15; V 781678109487 15; V 845171028537 15; V 910470176898 15; V 977564233859 15; V 104644462859 14; V 111710459692 14; V 118953839057 14; V 12637406205 13; V 133970571788 14; V 141742749791 14; V 149689881315 14; V 157811128461 14; V 166105509988 14; V 17457188689 13; V 183208952879 14; V 192015229047 14; V 200989062018 14]);
(V 972151703407 11, [V 558423463304 21; V 482735050378 19; V 497422551724 18; V 213656509007 17; V 587172570262 17; V 124353044715 16; V 222898080546 16; V 356473510268 16; V 525332004165 16; V 728533585016 16; V 96448820915 15; V 12313304563 14; V 152715309063 15; V 185014030463 15; V 219863590947 15; V 257117173718 15; V 296647279031 15; V 338344943781 15; V 382118288388 15; V 427890759708 15; V 475599284192 15; V 525192452759 15; V 576628803518 15; V 62987523573 14; V 684905569096 15; V 741699251192 15; V 800240209435 15; V 860515840343 15; V 922516127032 15; V 986232875 12; V 105165905604 14; V 11187882503 13; V 118761417672 14; V 125813030282 14; V 133032952509 14; V 140420391196 14; V 147974450197 14; V 155694115023 14; V 163578241699 14; V 17162554925 13]);
(V 974255711423 11, [V 77091957455 21; V 1241170301 17; V 17531269734 17; V 911738993591 18; V 285006876402 17; V 662299397332 17; V 127334254461 16; V 215109379027 16; V 331255700061 16; V 476252562926 16; V 649755570765 16; V 850923878816 16; V 107865774549 15; V 133175794084 15; V 160902651553 15; V 19093267622 14; V 223161598687 15; V 257496068035 15; V 293854057129 15; V 332164584742 15; V 372367034715 15; V 414410253931 15; V 458251546336 15; V 503855637935 15; V 551193660042 15; V 600242179831 15; V 650982295297 15; V 70339880379 14; V 757479448042 15; V 81321424015 14; V 870594861693 15; V 929614136696 15; V 990265573233 15; V 105254296893 14; V 111644007539 14; V 118195031641 14; V 1249066555 12; V 131778090436 14; V 138808457807 14; V 145996777517 14]);
(V 976359719439 11, [V 936668792857 23; V 29337762669 19; V 580593378513 19; V 37042899755 17; V 132872628816 17; V 340928527652 17; V 706367693954 17; V 126507376093 16; V 204161830532 16; V 305022205577 16; V 429695017735 16; V 578204697187 16; V 750192759961 16; V 945070423034 16; V 116212832598 15; V 140061193348 15; V 165977131056 15; V 193889248228 15; V 223731587305 15; V 255444583882 15; V 288975415921 15; V 324277951298 15; V 361312435659 15; V 400045019722 15; V 440447195132 15; V 48249518672 14; V 526169334151 15; V 571453485335 15; V 618334416503 15; V 666801288499 15; V 716845144983 15; V 76845845552 14; V 821634704559 15; V 876368025898 15; V 932652881264 15; V 990483780961 15; V 104985504409 14; V 111076059557 14; V 117319379711 14; V 123714730905 14]);
(V 978463727455 11, [V 100121494344 23; V 6372940235 19; V 180615468259 19; V 143245621154 18; V 594806894665 18; V 169574208749 17; V 380404197544 17; V 724909955724 17; V 122958686865 16; V 191349701307 16; V 278886388323 16; V 386233687786 16; V 513636721933 16; V 661043460639 16; V 828204020153 16; V 101474661878 15; V 122023346284 15; V 14442005746 14; V 168618527573 15; V 194574441305 15; V 222246575973 15; V 251597445618 15; V 282593589527 15; V 315205610094 15; V 349408037858 15; V 385179081286 15; V 422500303731 15; V 461356258684 15; V 501734106019 15; V 54362322565 14; V 587014840252 15; V 631901655194 15; V 678277521108 15; V 726137122524 15; V 775475694487 15; V 826288767901 15; V 878571943545 15; V 932320694031 15; V 987530192592 15; V 104419516722 14]);
(V 980567735471 11, [V 941270247429 25; V 127188997103 21; V 527648182688 20; V 527091976286 19; V 255604225111 18; V 814777888304 18; V 19883275764 16; V 404637990834 17; V 72347432099 16; V 117553335227 16; V 177607914053 16; V 253577141807 16; V 34613806296 15; V 455660191572 16; V 582281844848 16; V 725975337411 16; V 886599685663 16; V 106394166077 15; V 125774685228 15; V 146774255831 15; V 169365417893 15; V 193521654638 15; V 21921813684 14; V 246432172634 15; V 275143437124 15; V 305334039822 15; V 336988475009 15; V 37009348982 14; V 404637896854 15; V 440612351786 15; V 478009111579 15; V 516821785052 15; V 557045084546 15; V 598674585093 15; V 641706495664 15; V 686137445609 15; V 731964288304 15; V 779183923139 15; V 827793136307 15; V 877788460345 15]);
(V 982671743487 11, [V 778161646075 26; V 233166249492 22; V 144726461399 20; V 184513559709 19; V 105419688136 18; V 378106271782 18; V 100849336217 17; V 219978347057 17; V 415800036772 17; V 707087418277 17; V 11096532422 15; V 163600718834 16; V 229550457332 16; V 30947417061 15; V 403803766741 16; V 512791215929 16; V 636551546004 16; V 775099385726 16; V 928378862083 16; V 109628736737 15; V 127869399576 15; V 14754535088 14; V 168641664021 15; V 191143745609 15; V 215037838033 15; V 240311339225 15; V 26695298123 14; V 294952901269 15; V 324302632455 15; V 354995035845 15; V 38702419111 14; V 420385259477 15; V 455074329648 15; V 491088255069 15; V 528424488946 15; V 567080921905 15; V 607055725889 15; V 648347206927 15; V 690953668552 15; V 734873287034 15]);
(V 984775751503 11, [V 565655083356 27; V 392575688327 23; V 372643940948 21; V 61437517771 19; V 417218504829 19; V 169437933028 18; V 496281646 15; V 116453444441 17; V 233384947161 17; V 416363585466 17; V 680039042991 17; V 103707034825 16; V 14978777146 15; V 207068942888 16; V 276175254344 16; V 357561604353 16; V 451542995451 16; V 558322882334 16; V 678018418592 16; V 810682038529 16; V 956319359957 16; V 111490367727 15; V 128638743895 15; V 147071113854 15; V 166781003471 15; V 187761907962 15; V 210007638909 15; V 233512554145 15; V 258271694765 15; V 284280849571 15; V 311536563779 15; V 34003610585 14; V 369777403769 15; V 400758959962 15; V 432979752272 15; V 466439126891 15; V 501136687937 15; V 537072187296 15; V 574245417533 15; V 612656109947 15]);
(V 986879759519 11, [V 361532926442 28; V 60698730866 23; V 900595387719 22; V 194556253425 20; V 158428856256 19; V 733110284132 19; V 23691511154 17; V 600237431124 18; V 12791676071 16; V 239979202156 17; V 408735427736 17; V 645832706613 17; V 961580229338 17; V 136475608141 16; V 186259924832 16; V 246091415214 16; V 316423390506 16; V 397600611237 16; V 489877879055 16; V 593437365197 16; V 708404041278 16; V 834858979655 16; V 972850529003 16; V 112240350221 15; V 128352657773 15; V 145621813884 15; V 164047077429 15; V 18362746508 14; V 204361994768 15; V 226249852205 15; V 249290495129 15; V 273483707856 15; V 298829616821 15; V 325328676155 15; V 352981630806 15; V 381789463485 15; V 411753330568 15; V 442874491158 15; V 475154232679 15; V 508593795715 15]);
(V 988983767535 11, [V 20317575208 28; V 861806874636 25; V 204276104402 22; V 585894538462 21; V 577147911131 20; V 306225244497 19; V 109702461866 18; V 301190254937 18; V 68453652556 17; V 135370419984 17; V 240913249676 17; V 3950653432 15; V 607231388494 17; V 885917994548 17; V 123857879124 16; V 16715795472 15; V 219024219463 16; V 279893527042 16; V 350118732428 16; V 429980748895 16; V 51970032331 15; V 619448947906 16; V 729358610223 16; V 849530267853 16; V 980041049969 16; V 112095025535 15; V 12723042528 14; V 143414040595 15; V 160649014732 15; V 17893813229 14; V 198283991943 15; V 218689127679 15; V 24015608761 14; V 262687478365 15; V 286285981993 15; V 31095435133 14; V 336695388938 15; V 363511913884 15; V 391406719975 15; V 420382528427 15]);
(V 991087775551 11, [V 100405913278 30; V 11235856685 24; V 434844407518 23; V 16777415956 20; V 201690866385 20; V 123477193704 19; V 492672020213 19; V 147117094123 18; V 357632160547 18; V 747272112463 18; V 139233641096 17; V 237361260401 17; V 377170135321 17; V 566350576385 17; V 811993320063 17; V 112046385307 16; V 149735654186 16; V 194750479276 16; V 247502729716 16; V 308339503827 16; V 377550800374 16; V 455377404771 16; V 54201850228 15; V 637638725463 16; V 742374480146 16; V 856339487024 16; V 97962953661 15; V 111232649291 15; V 125450160303 15; V 140621818091 15; V 156753373761 15; V 173850162962 15; V 191917229372 15; V 21095941318 14; V 230981410322 15; V 251987807659 15; V 273983098649 15; V 296971683528 15; V 320957857451 15; V 345945789586 15]);
(V 993191783567 11, [V 43637962031 31; V 13451602448 25; V 868693909068 24; V 456815937149 22; V 676091253294 21; V 480591899177 20; V 214577562736 19; V 699446624591 19; V 182394008559 18; V 403646140699 18; V 78895859963 17; V 140056636345 17; V 230406849936 17; V 356525758349 17; V 524766579783 17; V 741086877568 17; V 101094632478 16; V 133925850197 16; V 17303828053 15; V 218814409197 16; V 271587000772 16; V 331643830797 16; V 399232857308 16; V 474567442117 16; V 557831364142 16; V 649183465416 16; V 748761841505 16; V 856687537987 16; V 973067748531 16; V 109799853233 15; V 123156708237 15; V 137385358372 15; V 152493270471 15; V 168487476452 15; V 185374661974 15; V 20316123101 14; V 221853350073 15; V 24145697549 14; V 261977866779 15; V 283421588848 15]);
(V 995295791583 11, [V 166823744931 33; V 147887426547 27; V 162860064698 24; V 118265038606 22; V 217383471972 21; V 180545921015 20; V 906295390549 20; V 323658344137 19; V 908005045239 19; V 213333009979 18; V 438286333401 18; V 811552942781 18; V 138418543659 17; V 220991514397 17; V 334294975959 17; V 483621635833 17; V 674008640667 17; V 910154436831 17; V 119637269885 16; V 153657512764 16; V 193427540232 16; V 239260767865 16; V 29143543156 15; V 350197874342 16; V 415766045664 16; V 488332999193 16; V 568070244059 16; V 655130857158 16; V 74965230319 15; V 851758937439 16; V 961564186278 16; V 107917241404 15; V 120468049379 15; V 133817910498 15; V 147975378394 15; V 162948575419 15; V 178745256358 15; V 195372855417 15; V 212838518947 15; V 231149126156 15]);
(V 997399799599 11, [V 561078718979 35; V 149315950722 28; V 286539644825 25; V 291116587047 23; V 670408308116 22; V 654643582066 21; V 371188784823 20; V 145759676067 19; V 441209590008 19; V 110312345807 18; V 238686354802 18; V 461764565318 18; V 817719705105 18; V 134868119554 17; V 209900235898 17; V 311369953242 17; V 443717017704 17; V 611222174367 17; V 817939638388 17; V 106765523859 16; V 136386541616 16; V 170977226385 16; V 21082902698 15; V 256206110662 16; V 307347351854 16; V 364468602083 16; V 427765069846 16; V 497413686526 16; V 573575372406 16; V 656397146426 16; V 746014045861 16; V 842550838936 16; V 9461235256 14; V 10568406304 14; V 117480429727 15; V 130011120002 15; V 143285328426 15; V 157311835817 15; V 172099054916 15; V 187655064358 15]);
(V 999503807615 11, [V 166057444286 36; V 13846384754 28; V 473142904228 26; V 681359882601 24; V 198307894954 22; V 229096617208 21; V 147416389181 20; V 638835818054 20; V 209247839645 19; V 558055494075 19; V 127420730728 18; V 257982727269 18; V 475007763511 18; V 810337671355 18; V 12989391063 16; V 19776751359 16; V 288418051119 17; V 405591250401 17; V 55294039978 16; V 733971572233 17; V 952006748692 17; V 121016204124 16; V 151133802547 16; V 18582193475 15; V 225328110334 16; V 269879988637 16; V 319686779909 16; V 374940809262 16; V 435819141701 16; V 502485193329 16; V 57509027558 15; V 653775036733 16; V 738670778428 16; V 829900635311 16; V 927580613633 16; V 103182049032 15; V 114272457804 15; V 12603923645 14; V 138491903597 15; V 151639589589 15]);
(V 100160781563 10, [V 432581271483 38; V 117941697745 30; V 733262631818 27; V 151633465397 24; V 562639531792 23; V 773793154585 22; V 567693384717 21; V 272477155485 20; V 968548321979 20; V 276185334735 19; V 666770654577 19; V 141516356802 18; V 271307392807 18; V 479317751042 18; V 792199290417 18; V 123912999369 17; V 185093171448 17; V 265924869027 17; V 369583653315 17; V 499198358986 17; V 657806716863 17; V 848323511681 17; V 107351968496 16; V 133601054431 16; V 163825123941 16; V 198253780587 16; V 237101228921 16; V 280567069587 16; V 328837274846 16; V 382085263358 16; V 440473011548 16; V 504152154601 16; V 573265043085 16; V 647945731779 16; V 728320885639 16; V 814510594408 16; V 906629092409 16; V 100478538381 15; V 110908377646 15; V 121962432924 15]);
(V 100371182365 10, [V 992125656242 40; V 922893805044 32; V 106663191015 27; V 320876452656 25; V 153114775687 23; V 252245970951 22; V 211979974173 21; V 113097207335 20; V 437537079275 20; V 133715099756 19; V 341996418851 19; V 76217018992 18; V 152359431583 18; V 27910195513 17; V 47613509126 17; V 765847037371 18; V 117270545638 17; V 172261685871 17; V 244231996989 17; V 335884821559 17; V 449907898125 17; V 588937449388 17; V 755531068586 17; V 952148539342 17; V 11811394792 15; V 14447366259 15; V 174505362395 16; V 208408627004 16; V 246371630678 16; V 288571699454 16; V 335175982709 16; V 3863421882 14; V 442219340735 16; V 502948534139 16; V 56866365416 15; V 639492056575 16; V 715555190064 16; V 796969157726 16; V 883845214393 16; V 976290199507 16]);
(V 100581583166 10, [V 200390612042 41; V 663511151995 33; V 145643444333 28; V 645691724874 26; V 399679741799 24; V 793636630389 23; V 767518038095 22; V 456825570471 21; V 192900939223 20; V 633296481782 20; V 171934698682 19; V 403007557609 19; V 841219151073 19; V 159980973111 18; V 282006621048 18; V 46688826718 17; V 73349965312 17; V 110245033242 17; V 159561628734 17; V 223568797417 17; V 304576102736 17; V 404898370006 17; V 526826656101 17; V 672605396022 17; V 844415293294 17; V 104436130446 16; V 127446497235 16; V 153666034923 16; V 183279278872 16; V 216461995308 16; V 253381446362 16; V 294196770728 16; V 339059439514 16; V 388113754455 16; V 441497362501 16; V 499341766685 16; V 561772818242 16; V 628911179178 16; V 700872747953 16; V 777769043793 16]);
(V 100791983968 10, [V 356556306914 43; V 438350042801 34; V 186692537902 29; V 123561119198 26; V 100076233078 24; V 241004995742 23; V 26946260984 21; V 17956632294 20; V 829995362583 21; V 29340926456 19; V 847215046611 20; V 209208780805 19; V 456635035192 19; V 902665597724 19; V 164591655831 18; V 280746797012 18; V 452905638758 18; V 697033665061 18; V 103056090382 17; V 147203549766 17; V 2040784611 15; V 275660101511 17; V 363946648503 17; V 470931737408 17; V 598585347358 17; V 748838835631 17; V 923573759214 17; V 112461402503 16; V 135372087292 16; V 161259019894 16; V 190285175557 16; V 222606980969 16; V 258374489015 16; V 297731630949 16; V 340816519593 16; V 387761781908 16; V 438694903599 16; V 493738572189 16; V 553011008251 16; V 616626277258 16]);
(V 10100238477 9, [V 559052420383 45; V 266157784318 35; V 224680373606 30; V 224872432889 27; V 240376918231 25; V 706397923388 24; V 917341881567 23; V 686874871141 22; V 348528043735 21; V 13297711124 19; V 409172065683 20; V 106621399113 19; V 243691497656 19; V 5013351023 17; V 946595054134 19; V 166508033051 18; V 276057278714 18; V 435370471809 18; V 657996615632 18; V 95873061254 17; V 135335613167 17; V 185838980355 17; V 249084020167 17; V 326799036719 17; V 420720871871 17; V 532579016683 17; V 664082707256 17; V 816910822666 17; V 992704313843 17; V 11930608468 15; V 141953132941 16; V 167361799789 16; V 195677376007 16; V 227040252096 16; V 261586024882 16; V 299445657313 16; V 340745673867 16; V 385608377004 16; V 434152072891 16; V 486491297068 16]);
(V 101212785571 10, [V 772660361606 47; V 148551056212 36; V 253893583517 31; V 389242602085 28; V 553885532856 26; V 199851309203 24; V 302828137451 23; V 255689960583 22; V 142830872186 21; V 589542433103 21; V 193685460904 20; V 533459314019 20; V 127854427695 19; V 274071509938 19; V 536437760293 19; V 974011155775 19; V 166097589403 18; V 268635209757 18; V 415303934059 18; V 617636747212 18; V 88823332948 17; V 124056841298 17; V 168879802659 17; V 224757357999 17; V 293187064529 17; V 37568366253 16; V 473765935094 17; V 588945702681 17; V 722718878895 17; V 876558437529 17; V 105190909546 16; V 125018349402 16; V 147275965644 16; V 17209795055 15; V 199614824003 16; V 229953438737 16; V 263237036995 16; V 29958534458 15; V 339114690355 16; V 381938141265 16]);
(V 101423186373 10, [V 941625434811 49; V 762267882566 38; V 269424016289 32; V 640869145415 29; V 122444155568 26; V 545778845199 25; V 969405789729 24; V 926276336315 23; V 571258536292 22; V 25567570407 20; V 898598328786 21; V 262027941976 20; V 659463496536 20; V 147478338054 19; V 299547710392 19; V 561943816145 19; V 986486391427 19; V 163740405233 18; V 259113678696 18; V 393565280175 18; V 576939689365 18; V 819999238571 18; V 113428089714 17; V 153194911436 17; V 202565211968 17; V 262838703675 17; V 335337734071 17; V 421396466318 17; V 52235157477 16; V 639534445973 17; V 774264812236 17; V 927845703408 17; V 110155957833 16; V 129666548643 16; V 151439710845 16; V 175596153064 16; V 202253861639 16; V 231528085164 16; V 263531355414 16; V 298373535059 16]);
(V 101633587174 10, [V 101219930968 50; V 359678856858 39; V 268516781402 33; V 100373960438 29; V 259701704909 27; V 143879477064 25; V 300935746349 24; V 326563826366 23; V 222985024063 22; V 108468413657 21; V 408613398582 21; V 126352030054 20; V 334397220039 20; V 781118784585 20; V 164815851909 19; V 319753872901 19; V 578329478722 19; V 985892957739 19; V 159804071303 18; V 248049407456 18; V 370861886922 18; V 536666544697 18; V 754681336058 18; V 103480998264 17; V 138753004145 17; V 182378172347 17; V 235486163576 17; V 299232436828 17; V 374789376381 17; V 463338482333 17; V 5660636509 15; V 684145519407 17; V 818756815007 17; V 971058622784 17; V 114219747557 16; V 133330316206 16; V 154548714974 16; V 177984152305 16; V 203743834378 16; V 23193293488 15]);
(V 101843987976 10, [V 960062782359 53; V 156091973017 40; V 251369346448 34; V 149560118382 30; V 528518856372 28; V 366164279065 26; V 905977098975 25; V 112048997754 23; V 849491716129 23; V 450154591622 22; V 182112917078 21; V 59814423797 20; V 166698072133 20; V 40721909863 19; V 893541559495 20; V 179443657934 19; V 334665174608 19; V 586378872336 19; V 974207498182 19; V 154628529503 18; V 23591962506 17; V 347764321845 18; V 497390242792 18; V 692712192446 18; V 942252010597 18; V 125505341596 17; V 164059598267 17; V 210871149626 17; V 266950507656 17; V 333328268664 17; V 411048599709 17; V 501163504867 17; V 604727874925 17; V 722795293949 17; V 856414555115 17; V 10066268246 15; V 117446338465 16; V 136094388389 16; V 156707502323 16; V 179384960866 16]);
(V 102054388778 10, [V 803763944684 55; V 623146385251 42; V 22106324556 34; V 212029436937 31; V 103211347679 28; V 899647858978 27; V 2645174307 23; V 374174219798 24; V 315858744644 23; V 18275594274 21; V 795526197632 22; V 277984856085 21; V 816949605929 21; V 208958825697 20; V 477321956333 20; V 993177313729 20; V 19115810335 18; V 344505926056 19; V 587050752183 19; V 953377301075 19; V 148518009088 18; V 22312461579 17; V 324723393935 18; V 459528576674 18; V 634351492321 18; V 856540737936 18; V 113391746309 17; V 147470887754 17; V 188748250433 17; V 238108311122 17; V 296457370937 17; V 364718153334 17; V 443824951873 17; V 534719347431 17; V 638346489896 17; V 755651921115 17; V 887578903183 17; V 103506620795 16; V 119904631907 16; V 138044399626 16]);
(V 102264789579 10, [V 594160751703 57; V 228892267293 43; V 182660157493 36; V 286026802986 32; V 193423793223 29; V 213410027831 27; V 749040072093 26; V 121613268086 24; V 114627391989 23; V 725840485448 23; V 340611876421 22; V 126832868834 21; V 393603519995 21; V 105539640713 20; V 251239819353 20; V 542138525102 20; V 107775328256 19; V 19993162535 18; V 34966823868 18; V 581378325912 19; V 925234476197 19; V 141737827927 18; V 209993515139 18; V 302087331744 18; V 423373273644 18; V 579725275005 18; V 777492724217 18; V 1023451405 15; V 132475220746 17; V 168886956471 17; V 212355116838 17; V 263677013286 17; V 323668043211 17; V 393157613463 17; V 47298547143 16; V 563998451629 17; V 667047630394 17; V 782985869951 17; V 912665725252 17; V 105693768186 16]);
(V 102475190381 10, [V 387952533351 59; V 773736900404 45; V 141825983507 37; V 367192604734 33; V 347891427262 30; V 488799349231 28; V 205726886563 26; V 384721069216 25; V 406030407177 24; V 282020434511 23; V 142943375667 22; V 568124204569 22; V 186434079933 21; V 524680530854 21; V 130300713885 20; V 291862494264 20; V 599776154941 20; V 114612129126 19; V 205868619845 19; V 350645338204 19; V 570397791177 19; V 891445891673 19; V 134514384344 18; V 196791727557 18; V 280118026306 18; V 389115000335 18; V 528857943375 18; V 704842852041 18; V 922949390531 18; V 118940145907 17; V 151072688054 17; V 189371744645 17; V 234539029382 17; V 287295133426 17; V 348376123361 17; V 418530425064 17; V 49851600852 16; V 589097876056 17; V 691045846702 17; V 805132622203 17]);
(V 102685591182 10, [V 223823732895 61; V 240750919274 46; V 103494154366 38; V 448648061335 34; V 600573776327 31; V 108105850137 28; V 548068991215 27; V 11846414693 24; V 140383978922 24; V 107201489398 23; V 587998048136 23; V 249840109606 22; V 868158682395 22; V 256745061469 21; V 665868476634 21; V 154964348167 20; V 32945960972 19; V 648997459431 20; V 119805234626 19; V 209165484006 19; V 347979815349 19; V 555100184179 19; V 853488733762 19; V 127037126269 18; V 183728911886 18; V 259005788008 18; V 356864504857 18; V 481698107688 18; V 638271868498 18; V 831695498746 18; V 106739297684 17; V 135107116135 17; V 168868817675 17; V 208642237016 17; V 255064245722 17; V 308787931032 17; V 370479969737 17; V 440818215566 17; V 520489508332 17; V 610187704921 17]);
(V 102895991984 10, [V 114140857506 63; V 689680334619 48; V 709886268546 40; V 521785349568 35; V 995214300053 32; V 230887857785 29; V 14163211729 26; V 355077438549 26; V 473784409635 25; V 398670620525 24; V 237085589673 23; V 107868879941 22; V 397453564128 22; V 123663505682 21; V 335286946276 21; V 811470681624 21; V 178632034924 20; V 363010244586 20; V 689147891252 20; V 123402305549 19; V 210076936105 19; V 34222538453 18; V 536401279007 19; V 81264371979 18; V 119461644386 18; V 170966878728 18; V 238882388732 18; V 326670250454 18; V 438139256651 18; V 577427523735 18; V 748981822894 18; V 957534641455 18; V 120807987832 17; V 150584795458 17; V 185628098993 17; V 226500856643 17; V 273782447996 17; V 328066476981 17; V 389958722126 17; V 460075245415 17]);
(V 103106392786 10, [V 51468170459 65; V 181939522528 49; V 457763292868 41; V 577700935958 36; V 158319530117 32; V 476231379213 30; V 35505519808 27; V 10360357398 25; V 15608626075 24; V 145055500356 24; V 937049931361 24; V 457250418801 23; V 178893347163 22; V 586298582294 22; V 166354894959 21; V 419087277446 21; V 956010676961 21; V 200566951088 20; V 39183243489 19; V 720057874804 20; V 125501724614 19; V 208889112987 19; V 33392002335 18; V 515124934254 19; V 76999993207 18; V 111913306301 18; V 158627015513 18; V 219832356564 18; V 298532955575 18; V 398036140416 18; V 521940605744 18; V 674121222381 18; V 858711749366 18; V 108008614488 17; V 134283909184 17; V 165176626451 17; V 20118447708 16; V 242821411654 17; V 290615795551 17; V 345108681559 17]);
(V 103316793587 10, [V 205283715665 68; V 442079901589 51; V 277549176203 42; V 608963801218 37; V 241802716161 33; V 948708238733 31; V 863503070078 29; V 294281673486 27; V 501980352584 26; V 516386742056 25; V 363044996195 24; V 190303049355 23; V 791645026324 23; V 273615342499 22; V 813299364216 22; V 213466990796 21; V 50502787416 20; V 10946279453 19; V 220211950215 20; V 415549627363 20; V 741938337211 20; V 126235441337 19; V 205899058564 19; V 323568240549 19; V 49199610037 18; V 726466843834 19; V 104491046213 18; V 146797036107 18; V 201902603539 18; V 272417462412 18; V 361217633008 18; V 471436932001 18; V 606455993136 18; V 769889389249 18; V 965571390642 18; V 119754084339 17; V 147002559066 17; V 178742679577 17; V 215430346169 17; V 257535738044 17]);
(V 103527194389 10, [V 724509791984 71; V 989612481489 53; V 158253894293 43; V 611237967544 38; V 354600073621 34; V 182548704817 31; V 203747811303 29; V 813786936836 28; V 157603267565 26; V 179867259491 25; V 137883103642 24; V 777645586357 24; V 34443252504 22; V 12569375695 21; V 391802512479 22; V 10723991266 20; V 263342527203 21; V 590123990084 21; V 122330855887 20; V 237187108762 20; V 434043614828 20; V 75528128146 19; V 125754903891 19; V 201399792552 19; V 311630386261 19; V 467640501882 19; V 682790373809 19; V 972710656327 19; V 135536969495 18; V 185110526876 18; V 24826233399 17; V 327496727599 18; V 425546157528 18; V 545363437609 18; V 690112303527 18; V 863156687524 18; V 10680490882 16; V 130851837354 17; V 158845731071 17; V 191191007026 17]);
(V 10373759519 9, [V 226341372425 73; V 204134883162 54; V 848699767654 45; V 584270340406 39; V 499356269977 35; V 339305397871 32; V 466456400083 30; V 21909891562 27; V 483080266978 27; V 613029462782 26; V 513367119691 25; V 31201354205 23; V 147341423791 23; V 568390452698 23; V 185991354792 22; V 531358099662 22; V 135545254225 21; V 314263026089 21; V 67172056014 20; V 133897992218 20; V 251274136938 20; V 447402953254 20; V 760771734564 20; V 124220028817 19; V 195670004518 19; V 298517209376 19; V 442588714799 19; V 63957077313 18; V 903102993328 19; V 124884376139 18; V 169450750453 18; V 225987543152 18; V 296678213354 18; V 383908091889 18; V 490259101611 18; V 618502985158 18; V 771593353228 18; V 952656847999 18; V 116498369043 17; V 141201784987 17]);
(V 103947995992 10, [V 626137170608 76; V 388109845942 56; V 428163499538 46; V 531933304781 40; V 675336352919 36; V 609261832998 33; V 103620792518 30; V 57434849018 28; V 144566882203 27; V 204446438274 26; V 187381071161 25; V 122922991028 24; V 619730701084 24; V 253016315774 23; V 870030766769 23; V 25967472219 21; V 688669188252 22; V 165318329826 21; V 364587985402 21; V 747609270229 21; V 143950508871 20; V 262393564822 20; V 455872709094 20; V 759213778115 20; V 121790916934 19; V 188967431696 19; V 284588189587 19; V 417282946188 19; V 597280868927 19; V 836495682802 19; V 11485882504 17; V 154900679073 18; V 205500574437 18; V 268564489835 18; V 346177080215 18; V 440598275641 18; V 554258576271 18; V 689753281548 18; V 849835882041 18; V 10374108264 16]);
(V 104158396794 10, [V 15343226842 77; V 680261338787 58; V 203232237942 47; V 461313685257 41; V 877227660297 37; V 105694966499 33; V 223372589099 31; V 1466023259 27; V 422410091409 28; V 667212484661 27; V 670531199677 26; V 475525254067 25; V 256300634359 24; V 110873695142 23; V 401052292604 23; V 125167224939 22; V 345387034539 22; V 859075883652 22; V 19560565472 20; V 412853924837 21; V 816079406901 21; V 152361026031 20; V 270579061239 20; V 459808951244 20; V 751471067501 20; V 118621917304 19; V 181525071896 19; V 270152478371 19; V 392085291358 19; V 556283714633 19; V 773163864158 19; V 105465689117 18; V 141425031849 18; V 186701216847 18; V 24295989484 17; V 312024891183 18; V 395876224362 18; V 496646993778 18; V 616619316968 18; V 758219492509 18]);
(V 104368797595 10, [V 333166424938 81; V 109946002792 59; V 907768804061 49; V 381143097454 42; V 109454184625 37; V 177165154549 34; V 467293688625 32; V 364385703401 30; V 120513811723 28; V 213085178446 27; V 23524663382 25; V 180637664823 25; V 104226119514 24; V 478296201655 24; V 182180036268 23; V 595083391893 23; V 170992512332 22; V 440991843867 22; V 103736281292 21; V 225498366087 21; V 457834857319 21; V 875918617508 21; V 159077347574 20; V 275951843819 20; V 45963965998 19; V 738420906761 20; V 11485761718 18; V 173549508009 19; V 255471552102 19; V 367286607381 19; V 516849072819 19; V 713274173373 19; V 966993282607 19; V 128979508256 18; V 169485284804 18; V 2196738534 16; V 281142463923 18; V 355627502403 18; V 445002598225 18; V 551275892254 18]);
(V 104579198397 10, [V 641295817678 84; V 163894693687 61; V 381619546186 50; V 30004734561 42; V 131197686186 38; V 286954511521 35; V 94876247832 32; V 881987424208 31; V 335736135756 29; V 665986440735 28; V 809198574858 27; V 673831519498 26; V 416769510558 25; V 203125526555 24; V 815536445356 24; V 279061257623 23; V 835662774618 23; V 223627075869 22; V 543820545682 22; V 121820481445 21; V 254183002655 21; V 498570000338 21; V 926379273225 21; V 164109583313 20; V 278697011064 20; V 45583255984 19; V 720920264207 20; V 110630358328 19; V 165220751168 19; V 240762905037 19; V 343115417042 19; V 479168419389 19; V 656905949935 19; V 885457327838 19; V 11751372464 17; V 153747467605 18; V 198523098423 18; V 253240792333 18; V 319424631631 18; V 398721638656 18]);
(V 104789599198 10, [V 109461969783 86; V 225388504354 63; V 151019256029 51; V 225091764014 44; V 151091541991 39; V 449154867917 36; V 18696640792 32; V 207907441795 31; V 913356302765 30; V 20371345025 27; V 272917061391 27; V 246840927602 26; V 163877972801 25; V 849263597475 25; V 359781410436 24; V 12908166457 22; V 403158355844 23; V 112026257448 22; V 281813758624 22; V 650927130311 22; V 139652880318 21; V 280973223539 21; V 534366167063 21; V 967123881806 21; V 16751703085 19; V 279042785317 20; V 448869659051 20; V 699781856927 20; V 106058925574 19; V 156693131301 19; V 226204290978 19; V 319746461654 19; V 443368337539 19; V 604069328975 19; V 809846984258 19; V 106973542326 18; V 13938347495 17; V 17933316585 17; V 228051166191 18; V 286876350016 18]);
(V 105 1, [V 165741172745 89; V 286009182134 65; V 562671158811 53; V 16093709425 44; V 167194194414 40; V 679462429703 37; V 357634604571 34; V 477321140404 32; V 242653102423 30; V 609867877999 29; V 902541621974 28; V 888016177469 27; V 633670903444 26; V 349576879263 25; V 156421791663 24; V 58895502221 23; V 192007924999 23; V 554401238119 23; V 144363329256 22; V 344021270638 22; V 759318617378 22; V 156777781187 21; V 305325100727 21; V 564782263044 21; V 99816011372 20; V 169395796081 20; V 277243066041 20; V 439227870468 20; V 675758433247 20; V 101248107369 19; V 148096870273 19; V 211938164599 19; V 297308669914 19; V 409522288853 19; V 554720515883 19; V 739915995105 19; V 973028921989 19; V 126291617679 18; V 161939327812 18; V 205324941088 18])].
Definition tt_rows : list (dec * list dec) :=
  tt_part0 ++ tt_part1 ++ tt_part2 ++ tt_part3 ++ tt_part4 ++ tt_part5 ++ tt_part6 ++ tt_part7 ++ tt_part8 ++ tt_part9.
