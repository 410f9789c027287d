(** Bounds for all quadrature tables that the gridder can use, found by computation *)
From Coq Require Import Reals Lia Lra.
From Verif Require Import Base BaseFacts Legendre LegendreFacts LegendreBounds LegendreZ.
Open Scope Z_scope.

(** What is claimed about the nodes in (0, 1) of the rules with p points (see [cell]); checked below *)
Definition cells (p : Z) : list cell :=
  if (p =? 8)%Z then [mk_cell 17405725320892 953221 331 4061582866464 4061582866465 306659947 36701882096 93395549 true 618 29854444839 29854444853; mk_cell 16617139538813 177434 147 1186445407264 1186445407265 715539878 7646919174 13859163 true 56 68448473436 68448473445; mk_cell 15228345158258 153514 96 629229256830 629229256831 1124419808 2515117089 2823085 true 20 104627890072 104627890081; mk_cell 13289214890553 84049 74 420119104968 420119104969 1533299739 888471666 527086 true 14 137031003047 137031003059; mk_cell 10869793843956 109470 62 319565729866 319565729867 1942179669 258010505 58415 true 23 164482529158 164482529186; mk_cell 8057516364010 35133 54 265813044336 265813044337 2351059600 17833564 345 true 9 185989559981 185989559997; mk_cell 4954022056077 29196 51 237018068395 237018068396 2759939530 44820758 2384 false 2384 200774575848 200774580378; mk_cell 1671477749611 80629 49 224293149297 224293149298 3168819460 23814125 733 false 733 208303148321 208303149850] else
  if (p =? 9)%Z then [mk_cell 17443798918024 1449594 417 5100016384476 5100016384477 273507521 29443852564 75795427 true 519 23767058212 23767058225; mk_cell 16815032746569 670322 184 1482841621942 1482841621943 638184215 6319350947 11991995 true 74 54661724574 54661724585; mk_cell 15702828654330 297364 120 779737082163 779737082164 1002860910 2210385331 2786638 true 31 84030979070 84030979083; mk_cell 14138927163064 174125 91 514068958714 514068958715 1367537605 878932279 667665 true 24 110986951217 110986951236; mk_cell 12168287146030 104712 75 384390865390 384390865391 1732214299 332498073 127702 true 19 134750874811 134750874837; mk_cell 9847592602490 73436 66 312727525199 312727525200 2096890994 93015846 12292 true 16 154638520030 154638520060; mk_cell 7243603036459 77764 60 271151231313 271151231314 2461567689 3767544 43 false 43 170077598891 170077598989; mk_cell 4431229344391 65713 56 247765530460 247765530461 2826244384 26111155 1239 false 1239 180623902444 180623905652; mk_cell 1491377801348 91 55 237156399658 237156399659 3190921078 13070202 320 false 320 185974016371 185974017264] else
  if (p =? 11)%Z then [mk_cell 17491815330762 1032262 619 7532934291922 7532934291924 224883961 20114452833 52525400 true 366 16083650917 16083650926; mk_cell 17065484752260 692544 272 2177387507352 2177387507353 524729244 4474705125 8982330 true 58 37135897015 37135897024; mk_cell 16307195991448 112341 176 1132780349980 1132780349981 824574526 1680040327 2431111 true 12 57497130053 57497130058; mk_cell 15231535946851 65041 132 735170723761 735170723762 1124419808 755811504 757472 true 7 76742028607 76742028614; mk_cell 13859419819704 95900 108 538240173269 538240173270 1424265091 357263147 231015 true 13 94493795336 94493795355; mk_cell 12217549139457 171823 92 426249203893 426249203894 1724110373 161957275 59939 true 28 110406519379 110406519437; mk_cell 10337879305709 94564 82 357414064565 357414064566 2023955655 62244265 10568 true 18 124170372667 124170372717; mk_cell 8256995222896 58658 75 313495999722 313495999723 2323800938 13762045 601 true 13 135517421432 135517421477; mk_cell 6015398576384 94554 71 285543173537 285543173538 2623646220 7282503 203 false 203 144226793369 144226794169; mk_cell 3656719297571 30435 68 268876767446 268876767447 2923491502 10613023 416 false 416 150128964200 150128966010; mk_cell 1226866270843 17408 67 261067617529 261067617530 3223336784 5195227 106 false 106 153109053151 153109053637] else
  if (p =? 12)%Z then [mk_cell 17507518723213 2088360 735 8927416358442 8927416358444 206526087 17021501054 44654475 true 322 13569325662 13569325670; mk_cell 17147606099452 567420 323 2575518386113 2575518386114 481894203 3829793725 7826735 true 48 31370593550 31370593558; mk_cell 16506300479573 190850 209 1335253803240 1335253803241 757262320 1469540858 2220415 true 15 48683558824 48683558831; mk_cell 15593986863720 393063 156 862173186164 862173186165 1032630436 685098153 746788 true 32 65199483611 65199483639; mk_cell 14425627494043 298818 126 626953616310 626953616311 1307998552 342443801 256431 true 33 80645309144 80645309192; mk_cell 13020402474223 38572 108 492258184211 492258184212 1583366669 170769009 81169 true 6 94767084797 94767084811; mk_cell 11401384099080 102204 95 408435934352 408435934353 1858734785 78731063 20801 true 17 107332843051 107332843101; mk_cell 9595155997292 140589 86 353732759058 353732759059 2134102902 29655160 3431 true 27 118136224280 118136224381; mk_cell 7631376091017 53636 80 317367511396 317367511397 2409471018 4739953 109 true 12 126999825072 126999825126; mk_cell 5542289433146 74331 76 293562490792 293562490793 2684839135 5918471 181 false 181 133778099288 133778100193; mk_cell 3362198673194 15026 74 279106513384 279106513385 2960207251 7148789 255 false 255 138359745770 138359747156; mk_cell 1126900776666 47219 73 272262345589 272262345590 3235575367 3629966 78 false 78 140669533199 140669533642] else
  if (p =? 14)%Z then [mk_cell 17529601799884 5234515 997 12072423790163 12072423790165 177539969 12637574600 33367767 true 261 10032254803 10032254809; mk_cell 17263267851179 948337 437 3473472570612 3473472570613 414259929 2888315959 6051308 true 45 23235003512 23235003519; mk_cell 16787506799435 243007 281 1792028376983 1792028376984 650979889 1141361260 1829786 true 14 36175502414 36175502420; mk_cell 16107986548702 58132 209 1148902813232 1148902813233 887699848 557503166 680423 true 5 48678606561 48678606566; mk_cell 15232942351597 346518 168 827599627072 827599627073 1124419808 299221612 271961 true 29 60591167324 60591167368; mk_cell 14172992882253 228979 142 642111792545 642111792546 1361139768 166162072 108049 true 24 71768338853 71768338908; mk_cell 12941003422312 6854 125 525101157091 525101157092 1597859728 91517338 40056 true 1 82074380518 82074380522; mk_cell 11551928212601 8045 112 446967465829 446967465830 1834579687 47486585 12667 true 2 91384168663 91384168672; mk_cell 10022628533419 134841 103 392927090669 392927090670 2071299647 21845344 3072 true 24 99584686046 99584686170; mk_cell 8371667899153 97687 96 354912935532 354912935533 2308019607 7374547 403 true 19 106576385499 106576385615; mk_cell 6619086670533 108844 91 328246977775 328246977776 2544739567 958431 30 false 30 112274395095 112274395303; mk_cell 4786158768905 94098 88 310117530283 310117530284 2781459526 4075360 155 false 155 116609547239 116609548411; mk_cell 2895133428486 119946 86 298826994745 298826994746 3018179486 3763959 146 false 146 119529219370 119529220544; mk_cell 968965114834 70333 85 293403627657 293403627658 3254899446 1824639 45 false 45 120997970227 120997970601] else
  if (p =? 15)%Z then [mk_cell 17537535638307 3871607 1143 13822948532582 13822948532584 165898004 11052854559 29250692 true 223 8761120299 8761120305; mk_cell 17304872630699 582901 501 3973290926023 3973290926024 387095343 2540114139 5368883 true 34 20304096629 20304096635; mk_cell 16888883255230 622806 322 2046313668522 2046313668523 608292683 1014122702 1660079 true 25 31649121014 31649121025; mk_cell 16293883548723 353307 239 1308593509375 1308593509376 829490022 503355735 639079 true 20 42660163370 42660163388; mk_cell 15526169141113 230325 192 939460800825 939460800826 1050687362 276613572 268679 true 17 53219301579 53219301606; mk_cell 14593875227915 317016 162 725829028006 725829028007 1271884701 158692794 114423 true 30 63214393744 63214393814; mk_cell 13506883426292 43138 141 590529602089 590529602090 1493082041 91841908 47079 true 5 72539432880 72539432898; mk_cell 12276715735592 109416 126 499615118548 499615118549 1714279380 51559551 17545 true 15 81095551809 81095551875; mk_cell 10916412056578 36446 115 436102714290 436102714291 1935476719 26869757 5459 true 6 88792045800 88792045833; mk_cell 9440391850041 124312 107 390692396828 390692396829 2156674059 12296212 1296 true 22 95547326407 95547326550; mk_cell 7864301241851 119310 101 357950763899 357950763900 2377871398 3591250 141 true 23 101289784294 101289784467; mk_cell 6204847150284 35321 97 334560015735 334560015736 2599068738 1490366 29 false 29 105958546956 105958547200; mk_cell 4479620178924 79322 94 318446549821 318446549822 2820266077 3206204 124 false 124 109504123423 109504124548; mk_cell 2706908146840 123306 92 308321776345 308321776346 3041463417 2622008 101 false 101 111888930315 111888931282; mk_cell 905502230282 10962 91 303433240637 303433240638 3262660756 1552690 29 false 29 113087687661 113087687947] else
  if (p =? 17)%Z then [mk_cell 17549467885343 2645687 1465 17680039159675 17680039159678 146663453 8659905865 22996924 true 172 6849012470 6849012475; mk_cell 17367495414442 1736669 641 5074602947156 5074602947157 342214724 2006704060 4297830 true 43 15888121962 15888121969; mk_cell 17041695977250 1069331 411 2606657378057 2606657378058 537765995 813374813 1373398 true 32 24809074682 24809074696; mk_cell 16574696179204 560385 305 1660574577564 1660574577565 733317266 413243994 556117 true 24 33525627548 33525627570; mk_cell 15970356743342 106937 244 1186159113579 1186159113580 928868537 234627086 250829 true 7 41964613666 41964613678; mk_cell 15233683259886 224908 204 910668767536 910668767537 1124419808 140976986 117910 true 17 50055939211 50055939252; mk_cell 14370779313982 241731 177 735288918529 735288918530 1319971079 86777546 55324 true 23 57732512828 57732512907; mk_cell 13388794901543 139371 158 616512670980 616512670981 1515522350 53409796 24992 true 16 64930708974 64930709048; mk_cell 12295866913420 185538 143 532537069320 532537069321 1711073621 32109516 10472 true 24 71590874981 71590875121; mk_cell 11101051620869 160248 132 471380798326 471380798327 1906624893 18707276 4029 true 23 77657819888 77657820053; mk_cell 9814249597404 38414 123 425995025796 425995025797 2102176164 9828050 1230 true 7 83081269726 83081269787; mk_cell 8446123664130 19146 117 392015793776 392015793777 2297727435 4273484 255 true 4 87816283224 87816283264; mk_cell 7008010526849 100874 112 366639746509 366639746510 2493278706 1030899 35 false 35 91823624002 91823624381; mk_cell 5511826832701 2903 108 348023834021 348023834022 2688829977 1640364 43 false 43 95070086002 95070086510; mk_cell 3969970422944 138023 105 334948643446 334948643447 2884381248 2141642 102 false 102 97528767434 97528768717; mk_cell 2395217599289 106079 103 326623464373 326623464374 3079932519 1906284 82 false 82 99179295608 99179296684; mk_cell 800617254647 70079 103 322572698510 322572698511 3275483790 1251245 41 false 41 100007993343 100007993893] else
  if (p =? 18)%Z then [mk_cell 17554019136806 5702066 1641 19786604823382 19786604823386 138627099 7744149835 20591976 true 165 6119573485 6119573490; mk_cell 17391397257842 809775 717 5676094872053 5676094872054 323463232 1800095380 3874592 true 28 14201234220 14201234225; mk_cell 17100091981270 1121293 460 2912710312002 2912710312003 508299365 733793645 1253600 true 30 22189810729 22189810743; mk_cell 16682194762450 481130 341 1852852585250 1852852585251 693135498 376052589 517228 true 19 30015151751 30015151769; mk_cell 16140791544617 145597 272 1320972726565 1320972726566 877971631 216138378 239532 true 8 37618482766 37618482779; mk_cell 15479888763290 199000 228 1011750757119 1011750757120 1062807764 132068944 116725 true 14 44943363417 44943363452; mk_cell 14704378866430 253469 197 814554308308 814554308309 1247643897 83186586 57513 true 21 51935523500 51935523573; mk_cell 13820003192557 171935 175 680661099545 680661099546 1432480030 52865156 27794 true 17 58543182096 58543182176; mk_cell 12833309224061 137078 158 585642963904 585642963905 1617316163 33284994 12810 true 16 64717412962 64717413059; mk_cell 11751602031912 213914 146 516063864282 516063864283 1802152296 20369505 5465 true 28 70412501728 70412501936; mk_cell 10582890160232 83345 136 464005708511 464005708512 1986988429 11815744 2047 true 13 75586282855 75586282970; mk_cell 9335826320118 155090 128 424550842848 424550842849 2171824562 6233644 644 true 25 80200450587 80200450844; mk_cell 8019643321414 17774 122 394521626730 394521626731 2356660694 2267751 92 true 4 84220843150 84220843198; mk_cell 6644085712798 14585 117 371805973098 371805973099 2541496827 815406 15 false 15 87617694385 87617694577; mk_cell 5219337634679 54255 114 354977142354 354977142355 2726332960 1785409 71 false 71 90365854907 90365855886; mk_cell 3755947418287 41281 111 343070932402 343070932403 2911169093 2007804 88 false 88 92444978769 92444980053; mk_cell 2264749488848 16571 109 335452045185 335452045186 3096005226 1737486 65 false 65 93839672870 93839673855; mk_cell 756784150845 29919 109 331734061613 331734061614 3280841359 1180947 35 false 35 94539611123 94539611664] else
  if (p =? 20)%Z then [mk_cell 17561183505780 2562895 2023 24355776495132 24355776495138 124935534 6299299459 16784564 true 126 4971196740 4971196744; mk_cell 17429040310285 2280120 884 6980747752646 6980747752647 291516246 1471417076 3192067 true 37 11542985911 11542985917; mk_cell 17192138853871 791062 566 3576569564648 3576569564649 458096959 605217412 1053150 true 19 18055144627 18055144636; mk_cell 16851850898684 498349 419 2269963896595 2269963896596 624677671 314299852 447237 true 16 24459569851 24459569866; mk_cell 16410216467853 567962 333 1613491796566 1613491796568 791258383 183929221 215386 true 24 30717064001 30717064039; mk_cell 15869890042642 180436 279 1231175819848 1231175819849 957839096 115265574 110808 true 10 36789873768 36789873794; mk_cell 15234120687440 116903 240 986755779561 986755779562 1124419808 74880365 58329 true 8 42641444624 42641444653; mk_cell 14506731779321 367378 213 820203439803 820203439804 1291000521 49767351 31014 true 31 48236573596 48236573747; mk_cell 13692097819316 188682 192 701404486850 701404486851 1457581233 33026216 15970 true 19 53541606659 53541606779; mk_cell 12795118058801 135121 175 613777802974 613777802975 1624161945 21622924 7827 true 15 58524636621 58524636740; mk_cell 11821187009522 202255 163 547533116519 547533116520 1790742658 14090156 3743 true 25 63155693903 63155694140; mk_cell 10776161989270 104267 152 496569134247 496569134248 1957323370 8566668 1530 true 15 67406926392 67406926560; mk_cell 9666327889964 45965 144 456919258764 456919258765 2123904083 5148675 602 true 7 71252766277 71252766367; mk_cell 8498359376819 136480 138 425918328153 425918328154 2290484795 2518102 175 true 22 74670083881 74670084199; mk_cell 7279280744616 112982 132 401730925168 401730925169 2457065507 766299 34 false 34 77638327093 77638327633; mk_cell 6016423671898 129387 128 383072388548 383072388549 2623646220 892340 44 false 44 80139644475 80139645231; mk_cell 4717383126864 93583 125 369038029906 369038029907 2790226932 1502458 80 false 80 82158992513 82158993974; mk_cell 3389971690007 132473 123 358996035114 358996035115 2956807645 1257323 70 false 70 83684227235 83684228574; mk_cell 2042172568112 75871 121 352519610900 352519610901 3123388357 1290471 63 false 63 84706175252 84706176494; mk_cell 682091582158 72708 121 349344579159 349344579160 3289969069 1190437 56 false 56 85218690463 85218691585] else
  if (p =? 21)%Z then [mk_cell 17564031843947 5824624 2229 26818382409273 26818382409281 119056215 5723741227 15263473 true 123 4514593208 4514593211; mk_cell 17444012133910 341518 973 7683907972433 7683907972435 277797835 1339609177 2915252 true 17 10485185105 10485185108; mk_cell 17228775603062 1632522 624 3934373584146 3934373584148 436539455 552919000 969160 true 31 16407400353 16407400367; mk_cell 16919449684989 357899 461 2494792078586 2494792078587 595281075 288691424 416400 true 11 22240777791 22240777802; mk_cell 16517717902474 255780 367 1771187661398 1771187661399 754022695 170248499 203882 true 10 27952839603 27952839620; mk_cell 16025772959483 552999 306 1349502695481 1349502695482 912764315 107633422 106933 true 28 33512279520 33512279590; mk_cell 15446301214960 113941 264 1079666291071 1079666291072 1071505935 70865569 57911 true 8 38888704921 38888704950; mk_cell 14782467348057 75521 233 895558805567 895558805568 1230247555 47696844 31620 true 6 44052741691 44052741722; mk_cell 14037896897255 202284 210 764003871604 764003871605 1388989175 32369510 17081 true 18 48976181645 48976181761; mk_cell 13216656400086 145570 191 666728505710 666728505711 1547730795 21891910 8956 true 15 53632132922 53632133044; mk_cell 12323231160171 99236 177 592937470684 592937470685 1706472415 14580134 4470 true 12 57995165384 57995165502; mk_cell 11362500739986 156466 166 535896730335 535896730336 1865214035 9428212 2083 true 20 62041449107 62041449338; mk_cell 10339712305558 206035 156 491221153274 491221153275 2023955655 5800166 880 true 29 65748884446 65748884834; mk_cell 9260451965779 180844 149 455956161949 455956161950 2182697275 3275609 320 true 27 69097222597 69097223005; mk_cell 8130614261646 137042 143 428057421586 428057421587 2341438895 1568425 93 true 22 72068175954 72068176324; mk_cell 6956369971540 138388 138 406082534035 406082534036 2500180515 579422 34 false 34 74645517957 74645518580; mk_cell 5744132408097 78066 134 389001594757 389001594758 2658922135 1219224 61 false 61 76815171997 76815173196; mk_cell 4500522390627 148380 131 376077462122 376077462123 2817663755 1517981 103 false 103 78565288124 78565290265; mk_cell 3232332084296 71372 129 366788653938 366788653939 2976405375 1570720 97 false 97 79886308459 79886310561; mk_cell 1946487903542 85514 127 360779430004 360779430005 3135146996 933928 46 false 46 80771018065 80771019091; mk_cell 650012682309 143948 127 357828064319 357828064320 3293888616 717378 45 false 45 81214583906 81214584923] else
  if (p =? 23)%Z then [mk_cell 17568666032901 12844289 2670 32099634234600 32099634234612 108814820 4785935313 12779620 true 118 3771655689 3771655693; mk_cell 17468378377058 2353653 1166 9191894705818 9191894705820 253901247 1123657834 2457719 true 29 8762995773 8762995778; mk_cell 17288433551307 1858294 746 4701726468123 4701726468124 398987674 466440664 827290 true 30 13721777313 13721777326; mk_cell 17029612420470 144683 551 2976984750456 2976984750457 544074100 245494686 361710 true 5 18618595548 18618595553; mk_cell 16693090993869 434715 438 2109435758640 2109435758641 689160527 146399859 181466 true 15 23430591406 23430591430; mk_cell 16280403560399 93892 365 1603357802387 1603357802388 834246954 93915856 98207 true 5 28135717933 28135717947; mk_cell 15793432723184 45218 314 1279064051049 1279064051050 979333381 63001500 55382 true 3 32712482534 32712482546; mk_cell 15234400256384 378839 276 1057373968594 1057373968595 1124419808 43424720 31841 true 25 37139994192 37139994318; mk_cell 14605856820454 147485 248 898547526267 898547526268 1269506235 30382783 18335 true 12 41398048001 41398048081; mk_cell 13910670274980 69535 226 780687263812 780687263813 1414592662 21376235 10444 true 6 45467213834 45467213885; mk_cell 13152012574161 214592 208 690847490573 690847490574 1559679089 15001976 5829 true 21 49328924173 49328924388; mk_cell 12333345285531 49779 194 620943148999 620943149000 1704765516 10422669 3124 true 6 52965558759 52965558833; mk_cell 11458403791597 202006 182 565698983464 565698983465 1849851943 7112099 1618 true 24 56360523873 56360524215; mk_cell 10531180244077 176425 173 521549150618 521549150619 1994938370 4721347 785 true 23 59498329248 59498329623; mk_cell 9555905347493 186662 165 486013230813 486013230814 2140024797 3016090 360 true 26 62364657558 62364658035; mk_cell 8537029054787 148141 158 457325845638 457325845639 2285111224 1829775 153 true 22 64946430449 64946430896; mk_cell 7479200262811 19542 153 434208281745 434208281746 2430197651 1039851 48 false 48 67231867457 67231868517; mk_cell 6387245600235 108246 149 415723160974 415723160975 2575284078 554076 31 false 31 69210541421 69210542158; mk_cell 5266147404590 24603 145 401179574239 401179574240 2720370504 1248351 74 false 74 70873422895 70873424759; mk_cell 4121020988901 72335 142 390069977597 390069977598 2865456931 1332504 94 false 94 72212925497 72212927979; mk_cell 2957091301611 144417 140 382027776695 382027776696 3010543358 1286085 103 false 103 73222937262 73222940077; mk_cell 1779669086289 171649 139 376798887926 376798887927 3155629785 1149283 94 false 94 73898849850 73898852478; mk_cell 594126649890 87183 139 374223160530 374223160531 3300716212 960244 60 false 60 74237579334 74237581032] else
  if (p =? 24)%Z then [mk_cell 17570565375353 14731983 2906 34918280098218 34918280098233 104327611 4401087890 11758411 true 112 3467140649 3467140653; mk_cell 17478367631250 3053804 1268 9996720865673 9996720865675 243431092 1034610122 2267594 true 32 8056730715 8056730720; mk_cell 17312902767735 2048325 812 5111274233258 5111274233259 382534574 430485057 767209 true 30 12619352868 12619352881; mk_cell 17074827869220 1260935 599 3234346809609 3234346809610 521638055 227400464 338132 true 27 17129638778 17129638803; mk_cell 16765136972039 23690 476 2289983482683 2289983482684 660741537 136344062 171593 true 1 21568196514 21568196516; mk_cell 16385127942203 586623 396 1738878511937 1738878511938 799845018 87960011 94038 true 23 25916325589 25916325648; mk_cell 15936394306855 341934 340 1385539595299 1385539595300 938948500 59578717 54132 true 17 30155766302 30155766365; mk_cell 15420818061994 177733 300 1143816416150 1143816416151 1078051981 41385527 31632 true 11 34268729379 34268729436; mk_cell 14840561643382 176709 269 970466963600 970466963601 1217155463 29437459 18864 true 13 38237960548 38237960635; mk_cell 14198058811447 356081 244 841660685641 841660685642 1356258944 20906117 10989 true 29 42046810036 42046810281; mk_cell 13496004425671 62304 225 743305782764 743305782765 1495362426 15094779 6475 true 6 45679301742 45679301805; mk_cell 12737343133719 127870 209 666598112547 666598112548 1634465907 10587739 3562 true 13 49120199046 49120199209; mk_cell 11925257016869 107241 196 605789775922 605789775923 1773569388 7214592 1825 true 12 52355069600 52355069776; mk_cell 11063152241360 1458 186 556991695917 556991695918 1912672870 5067174 973 true 1 55370345146 55370345164; mk_cell 10154644770706 154576 177 517494456655 517494456656 2051776351 3139955 422 true 21 58153378135 58153378534; mk_cell 9203545198492 213227 169 485365001786 485365001787 2190879833 2115563 224 true 30 60692495849 60692496483; mk_cell 8213842765057 45416 163 459197759673 459197759674 2329983314 1008927 54 false 54 62977048047 62977049297; mk_cell 7189688625019 184864 158 437956025989 437956025990 2469086796 650485 49 false 49 64997453009 64997454236; mk_cell 6135378435737 46916 154 420868124073 420868124074 2608190277 1016788 60 false 60 66745235918 66745237524; mk_cell 5055334339743 122470 151 407357954687 407357954688 2747293759 970680 69 false 69 68213066170 68213068120; mk_cell 3954086416671 186382 148 396997830639 396997830640 2886397240 1296316 121 false 121 69394786512 69394790081; mk_cell 2836253682483 9089 146 389476216400 389476216401 3025500722 1016345 58 false 58 70285442737 70285444504; mk_cell 1706524715675 176729 145 384575786439 384575786440 3164604203 1186618 109 false 109 70881295700 70881299090; mk_cell 569637991729 75011 145 382158930220 382158930221 3303707685 796351 49 false 49 71179849631 71179851171] else
  if (p =? 26)%Z then [mk_cell 17573733795817 8930503 3407 40911611652830 40911611652851 96378840 3758450562 10050600 true 87 2959134279 2959134282; mk_cell 17495034796629 4444124 1487 11708038133169 11708038133172 224883961 885446933 1947406 true 35 6878021332 6878021338; mk_cell 17353744996708 2569432 951 5982110428224 5982110428225 353389082 369803660 664306 true 31 10778110696 10778110710; mk_cell 17150338662932 588048 701 3781598004079 3781598004081 481894203 196476214 296465 true 12 14640123742 14640123754; mk_cell 16885540070759 1126097 556 2673918203609 2673918203610 610399324 118631965 152812 true 29 18449830815 18449830862; mk_cell 16560296205026 569620 463 2027092822967 2027092822968 738904445 77325881 85613 true 19 22193522894 22193522943; mk_cell 16175771045158 592476 397 1612023235059 1612023235060 867409566 52915001 50412 true 25 25857779562 25857779656; mk_cell 15733340964667 441576 349 1327740425166 1327740425167 995914687 37376521 30537 true 23 29429477313 29429477432; mk_cell 15234589688678 52025 312 1123557528783 1123557528784 1124419808 26939505 18732 true 4 32895827844 32895827872; mk_cell 14681302586149 48903 284 971535364560 971535364561 1252924929 19649495 11524 true 4 36244421226 36244421261; mk_cell 14075460263741 295665 261 855147214103 855147214104 1381430050 14406726 7058 true 24 39463269712 39463269970; mk_cell 13419231469198 167922 242 764062423200 764062423201 1509935171 10556695 4242 true 15 42540850592 42540850786; mk_cell 12714965324654 303113 226 691531115278 691531115279 1638440292 7688108 2506 true 30 45466146435 45466146893; mk_cell 11965182915768 179331 213 632980579063 632980579064 1766945413 5531616 1420 true 20 48228685678 48228686032; mk_cell 11172568266001 200665 202 585218956742 585218956743 1895450534 3906295 779 true 24 50818578781 50818579265; mk_cell 10339958728007 87344 193 545962154537 545962154538 2023955655 2684538 394 true 11 53226554851 53226555101; mk_cell 9470334826342 244879 186 513541650056 513541650057 2152460776 1774162 210 true 33 55443993343 55443994169; mk_cell 8566809587765 129673 179 486717970506 486717970507 2280965897 1107736 91 true 18 57462957242 57462957735; mk_cell 7632617397296 196246 174 464558229607 464558229608 2409471018 633411 54 false 54 59276217994 59276219591; mk_cell 6671102419871 123576 169 446353786670 446353786671 2537976139 737109 54 false 54 60877285799 60877287507; mk_cell 5685706629051 79429 165 431563785662 431563785663 2666481260 937960 72 false 72 62260428453 62260430860; mk_cell 4679957485605 120473 162 419775850114 419775850115 2794986381 1041070 95 false 95 63420694840 63420698166; mk_cell 3657455310094 43934 160 410678457267 410678457268 2923491502 1073401 89 false 89 64353932121 64353935353; mk_cell 2621860394638 149656 158 404041486350 404041486351 3051996623 1049238 104 false 104 65056798667 65056802547; mk_cell 1576879900000 77332 157 399702669736 399702669737 3180501744 987977 84 false 84 65526779435 65526782626; mk_cell 526254584908 49077 157 397558473808 397558473809 3309006865 901825 68 false 68 65762191295 65762193902] else
  [].

Fixpoint cells_ok (m : nat) (i : Z) (l : list cell) : bool := match l with [] => true | C :: l => leqs (facts m i C) && (200000000000 * crho C <=? z50) && cells_ok m (i + 1) l end.
(** The moments: an entry holds bounds of x^2 and of w x^2k, times 2^40 *)
Definition entry := (Z * Z * Z * Z)%type.
Definition start (C : cell) : entry := let a := 64 * cz C - crho C in let b := 64 * cz C + crho C in (Z.shiftr (a * a) 60, Z.shiftr (b * b) 60 + 1, cwl C, cwh C).
Definition next (e : entry) : entry := let '(ul, uh, yl, yh) := e in (ul, uh, Z.shiftr (yl * ul) 40, Z.shiftr (yh * uh) 40 + 1).
Fixpoint lows (l : list entry) : Z := match l with [] => 0 | (_, _, yl, _) :: l => yl + lows l end.
Fixpoint highs (l : list entry) : Z := match l with [] => 0 | (_, _, _, yh) :: l => yh + highs l end.
(** 10^9 times the tolerance *)
Definition tol := 20.
Definition moment_ok (k : Z) (l : list entry) : bool :=
  ((1000000000 - tol * (2 * k + 1)) * 1099511627776 <=? lows l * (1000000000 * (2 * k + 1))) && (highs l * (1000000000 * (2 * k + 1)) <=? (1000000000 + tol * (2 * k + 1)) * 1099511627776).
Fixpoint moments (f : nat) (k : Z) (l : list entry) : bool := match f with O => true | S f => moment_ok k l && moments f (k + 1) (map next l) end.
Fixpoint decreasing (l : list cell) : bool := match l with b :: (b' :: _) as t => (64 * cz b' + crho b' <? 64 * cz b - crho b) && decreasing t | _ => true end.

(** The nodes and weights, times 2^24 and rounded; checked below *)
Definition coarse (p : Z) : list (Z * Z) :=
  if (p =? 8)%Z then [(16599393, 455543); (15847339, 1044441); (14522882, 1596495); (12673583, 2090927); (10366243, 2509804); (7684246, 2837975); (4724524, 3063577); (1594045, 3178454)]%Z else
  if (p =? 9)%Z then [(16635703, 362657); (16036065, 834072); (14975384, 1282211); (13483932, 1693526); (11604583, 2056135); (9391396, 2359597); (6908038, 2595178); (4225950, 2756102); (1422289, 2837738)]%Z else
  if (p =? 11)%Z then [(16681495, 245417); (16274915, 566649); (15551754, 877337); (14525925, 1170990); (13217373, 1441861); (11651563, 1684670); (9858970, 1894690); (7874484, 2067832); (5736731, 2200726); (3487319, 2290786); (1170031, 2336259)]%Z else
  if (p =? 12)%Z then [(16696471, 207051); (16353232, 478677); (15741635, 742852); (14871585, 994865); (13757350, 1230550); (12417223, 1446031); (10873207, 1637769); (9150654, 1802616); (7277847, 1937864); (5285539, 2041292); (3206443, 2111202); (1074696, 2146447)]%Z else
  if (p =? 14)%Z then [(16717531, 153080); (16463535, 354538); (16009814, 551994); (15361773, 742777); (14527266, 924548); (13516419, 1095098); (12341503, 1252356); (11016777, 1394412); (9558323, 1519542); (7983845, 1626227); (6312453, 1713171); (4564437, 1779320); (2761014, 1823871); (924077, 1846283)]%Z else
  if (p =? 15)%Z then [(16725097, 133684); (16503213, 309816); (16106494, 482927); (15539058, 650942); (14806909, 812062); (13917804, 964575); (12881168, 1106864); (11707988, 1237420); (10410702, 1354859); (9003059, 1457937); (7499982, 1545559); (5917403, 1616799); (4272099, 1670900); (2581509, 1707290); (863554, 1725581)]%Z else
  if (p =? 17)%Z then [(16736477, 104508); (16562934, 242434); (16252228, 378556); (15806862, 511560); (15230519, 640329); (14527972, 763793); (13705043, 880928); (12768550, 990764); (11726252, 1092390); (10586788, 1184964); (9359598, 1267720); (8054851, 1339970); (6683360, 1401117); (5256488, 1450654); (3786059, 1488171); (2284258, 1513356); (763528, 1526001)]%Z else
  if (p =? 18)%Z then [(16740817, 93377); (16585729, 216694); (16307919, 338590); (15909381, 457995); (15393058, 574012); (14762772, 685781); (14023188, 792473); (13179782, 893298); (12238797, 987509); (11207201, 1074410); (10092631, 1153355); (8903338, 1223762); (7648128, 1285108); (6336294, 1336940); (4977548, 1378874); (3581951, 1410598); (2159833, 1431880); (721726, 1442560)]%Z else
  if (p =? 20)%Z then [(16747650, 75854); (16621628, 176132); (16395701, 275500); (16071177, 373223); (15650002, 468705); (15134707, 561369); (14528390, 650657); (13834698, 736032); (13057802, 816980); (12202375, 893015); (11273562, 963679); (10276949, 1028548); (9218529, 1087231); (8104667, 1139375); (6942063, 1184667); (5737709, 1222834); (4498847, 1253647); (3232929, 1276920); (1947568, 1292514); (650493, 1300334)]%Z else
  if (p =? 21)%Z then [(16750366, 68887); (16635906, 159991); (16430641, 250357); (16135645, 339367); (15752523, 426526); (15283368, 511357); (14730741, 593395); (14097659, 672191); (13387582, 747317); (12604386, 818361); (11752349, 884936); (10836125, 946677); (9860718, 1003248); (8831455, 1054340); (7753958, 1099673); (6634111, 1139000); (5478032, 1172107); (4292033, 1198811); (3082592, 1218968); (1856316, 1232468); (619900, 1239236)]%Z else
  if (p =? 23)%Z then [(16754786, 57551); (16659144, 133713); (16487535, 209378); (16240704, 284097); (15919772, 357522); (15526203, 429317); (15061791, 499153); (14528656, 566711); (13929231, 631684); (13266249, 693775); (12542737, 752700); (11761995, 808190); (10927585, 859993); (10043316, 907872); (9113221, 951609); (8141545, 991004); (7132721, 1025877); (6091352, 1056069); (5022190, 1081443); (3930112, 1101882); (2820102, 1117293); (1697225, 1127607); (566603, 1132776)]%Z else
  if (p =? 24)%Z then [(16756597, 52904); (16668670, 122936); (16510871, 192556); (16283825, 261378); (15988481, 329105); (15626076, 395452); (15198130, 460140); (14706438, 522899); (14153062, 583465); (13540324, 641583); (12870793, 697011); (12147277, 749515); (11372811, 798875); (10550644, 844884); (9684224, 887350); (8777185, 926094); (7833331, 960954); (6856621, 991782); (5851153, 1018451); (4821143, 1040849); (3770911, 1058880); (2704862, 1072471); (1627469, 1081563); (543249, 1086118)]%Z else
  if (p =? 26)%Z then [(16759619, 45153); (16684565, 104950); (16549821, 164461); (16355838, 223391); (16103306, 281522); (15793129, 338646); (15426417, 394558); (15004483, 449058); (14528837, 501950); (14001181, 553046); (13423405, 602162); (12797576, 649122); (12125936, 693758); (11410888, 735911); (10654991, 775430); (9860953, 812173); (9031615, 846008); (8169946, 876815); (7279031, 904483); (6362059, 928914); (5422312, 950019); (4463155, 967723); (3488021, 981963); (2500401, 992688); (1503830, 999859); (501875, 1003451)]%Z else
  [].

Fixpoint inside (l : list (Z * Z)) (bs : list cell) : bool :=
  match l, bs with
  | [], [] => true
  | (x, w) :: l, b :: bs => ((x - 1) * 67108864 <=? 64 * cz b - crho b) && (64 * cz b + crho b <=? (x + 1) * 67108864) && ((w - 1) * 65536 <=? cwl b) && (cwh b <=? (w + 1) * 65536) && inside l bs
  | _, _ => false
  end.

Definition table_ok (p : Z) : bool :=
  let m := Z.to_nat (2 * p - 1) in let L := cells p in
  (Z.of_nat (length L) =? p) && cells_ok m 1 L && decreasing L && moments (S m) 0 (map start L) && inside (coarse p) L.
