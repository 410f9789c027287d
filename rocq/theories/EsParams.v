(** Model of sdp_calculate_params_from_epsilon in grid_data/sdp_gridder_uvw_es_fft_utils.cpp, 225-537.  Exact arithmetic in place of double; int
    arithmetic with overflow undefined. *)
From Coq Require Import QArith Qround.
From Verif Require Import Base Clamp GoodSize.
Open Scope Z_scope.

(** A row of the table; the column K_e0 is not used by the code and left out. *)
Record row := mk_row { k_support : Z; k_os : Q; k_epsilon : Q; k_beta : Q; k_corr : Q }.
(** KernelDB, 242-485 *)
Definition KernelDB : list row := [
  mk_row 4 (115 # 100) (25654879 # 1000000000) (13873426689 # 10000000000) (103501 # 10000);
  mk_row 4 (120 # 100) (13809249 # 1000000000) (13008419165 # 10000000000) (802317 # 100000);
  mk_row 4 (125 # 100) (85840685 # 10000000000) (13274088935 # 10000000000) (625302 # 100000);
  mk_row 4 (130 # 100) (57322498 # 10000000000) (13617063353 # 10000000000) (50918 # 10000);
  mk_row 4 (135 # 100) (42494419 # 10000000000) (13845499880 # 10000000000) (432675 # 100000);
  mk_row 4 (140 # 100) (33459552 # 10000000000) (14405325088 # 10000000000) (371334 # 100000);
  mk_row 4 (145 # 100) (28187359 # 10000000000) (14635220066 # 10000000000) (330688 # 100000);
  mk_row 4 (150 # 100) (23843943 # 10000000000) (15539689162 # 10000000000) (29249 # 10000);
  mk_row 4 (155 # 100) (20343796 # 10000000000) (15991008653 # 10000000000) (266733 # 100000);
  mk_row 4 (160 # 100) (17143851 # 10000000000) (16581546365 # 10000000000) (245114 # 100000);
  mk_row 4 (165 # 100) (14730848 # 10000000000) (17135331415 # 10000000000) (227875 # 100000);
  mk_row 4 (170 # 100) (12554492 # 10000000000) (17464330378 # 10000000000) (214472 # 100000);
  mk_row 4 (175 # 100) (10610904 # 10000000000) (17887326906 # 10000000000) (202741 # 100000);
  mk_row 4 (180 # 100) (90885567 # 100000000000) (18122309426 # 10000000000) (193387 # 100000);
  mk_row 4 (185 # 100) (7757401 # 10000000000) (18304451327 # 10000000000) (185422 # 100000);
  mk_row 4 (190 # 100) (6740398 # 10000000000) (18484487383 # 10000000000) (178503 # 100000);
  mk_row 4 (195 # 100) (58655391 # 100000000000) (18742215688 # 10000000000) (172203 # 100000);
  mk_row 4 (200 # 100) (51911189 # 100000000000) (19069436300 # 10000000000) (166473 # 100000);
  mk_row 4 (205 # 100) (47127936 # 100000000000) (19287029587 # 10000000000) (161648 # 100000);
  mk_row 4 (210 # 100) (42991098 # 100000000000) (19468344976 # 10000000000) (157393 # 100000);
  mk_row 4 (215 # 100) (39952939 # 100000000000) (19598362025 # 10000000000) (153683 # 100000);
  mk_row 4 (220 # 100) (36728958 # 100000000000) (19734445042 # 10000000000) (150285 # 100000);
  mk_row 4 (225 # 100) (34355459 # 100000000000) (19833876672 # 10000000000) (147281 # 100000);
  mk_row 4 (230 # 100) (32238422 # 100000000000) (19922532404 # 10000000000) (144556 # 100000);
  mk_row 4 (235 # 100) (30354772 # 100000000000) (20001857065 # 10000000000) (142076 # 100000);
  mk_row 4 (240 # 100) (29003195 # 100000000000) (20059275365 # 10000000000) (139847 # 100000);
  mk_row 4 (245 # 100) (27493243 # 100000000000) (20124393824 # 10000000000) (137768 # 100000);
  mk_row 4 (250 # 100) (26418063 # 100000000000) (20171876964 # 10000000000) (135887 # 100000);
  mk_row 5 (115 # 100) (88036926 # 10000000000) (14211620799 # 10000000000) (204779 # 10000);
  mk_row 5 (120 # 100) (45432118 # 10000000000) (14604589193 # 10000000000) (136414 # 10000);
  mk_row 5 (125 # 100) (25659469 # 10000000000) (15114537479 # 10000000000) (984508 # 100000);
  mk_row 5 (130 # 100) (14949902 # 10000000000) (15662004850 # 10000000000) (753251 # 100000);
  mk_row 5 (135 # 100) (92874124 # 100000000000) (15940645314 # 10000000000) (614913 # 100000);
  mk_row 5 (140 # 100) (5820084 # 10000000000) (16193311874 # 10000000000) (518009 # 100000);
  mk_row 5 (145 # 100) (41837131 # 100000000000) (16702721179 # 10000000000) (44105 # 10000);
  mk_row 5 (150 # 100) (32139657 # 100000000000) (17106607912 # 10000000000) (385869 # 100000);
  mk_row 5 (155 # 100) (25831183 # 100000000000) (17411526213 # 10000000000) (344991 # 100000);
  mk_row 5 (160 # 100) (21156623 # 100000000000) (17694517444 # 10000000000) (312801 # 100000);
  mk_row 5 (165 # 100) (18112326 # 100000000000) (18069777863 # 10000000000) (286115 # 100000);
  mk_row 5 (170 # 100) (15177086 # 100000000000) (18378820613 # 10000000000) (264774 # 100000);
  mk_row 5 (175 # 100) (12345178 # 100000000000) (18819830388 # 10000000000) (246038 # 100000);
  mk_row 5 (180 # 100) (10093043 # 100000000000) (19225188886 # 10000000000) (230621 # 100000);
  mk_row 5 (185 # 100) (85743423 # 1000000000000) (19766846627 # 10000000000) (216884 # 100000);
  mk_row 5 (190 # 100) (75167678 # 1000000000000) (20116590189 # 10000000000) (206069 # 100000);
  mk_row 5 (195 # 100) (65915521 # 1000000000000) (20401734131 # 10000000000) (19692 # 10000);
  mk_row 5 (200 # 100) (57747201 # 1000000000000) (20640495669 # 10000000000) (189055 # 100000);
  mk_row 5 (205 # 100) (51546264 # 1000000000000) (20815539113 # 10000000000) (182348 # 100000);
  mk_row 5 (210 # 100) (46026099 # 1000000000000) (20967549727 # 10000000000) (176438 # 100000);
  mk_row 5 (215 # 100) (41922392 # 1000000000000) (21078775421 # 10000000000) (171291 # 100000);
  mk_row 5 (220 # 100) (3755449 # 100000000000) (21195059411 # 10000000000) (166605 # 100000);
  mk_row 5 (225 # 100) (34356546 # 1000000000000) (21278007625 # 10000000000) (162478 # 100000);
  mk_row 5 (230 # 100) (31539667 # 1000000000000) (21348794082 # 10000000000) (158754 # 100000);
  mk_row 5 (235 # 100) (29093026 # 1000000000000) (21406731238 # 10000000000) (155386 # 100000);
  mk_row 5 (240 # 100) (27399686 # 1000000000000) (21442622022 # 10000000000) (15237 # 10000);
  mk_row 5 (245 # 100) (25638396 # 1000000000000) (21486533599 # 10000000000) (149569 # 100000);
  mk_row 5 (250 # 100) (24438353 # 1000000000000) (21554191248 # 10000000000) (146983 # 100000);
  mk_row 6 (115 # 100) (18919684 # 10000000000) (14284593523 # 10000000000) (440159 # 10000);
  mk_row 6 (120 # 100) (87379161 # 100000000000) (14871949080 # 10000000000) (255241 # 10000);
  mk_row 6 (125 # 100) (52387586 # 100000000000) (15596009923 # 10000000000) (164885 # 10000);
  mk_row 6 (130 # 100) (30833805 # 100000000000) (16293990176 # 10000000000) (116668 # 10000);
  mk_row 6 (135 # 100) (18595126 # 100000000000) (16818294794 # 10000000000) (892588 # 100000);
  mk_row 6 (140 # 100) (10913759 # 100000000000) (17181576557 # 10000000000) (720067 # 100000);
  mk_row 6 (145 # 100) (7446073 # 100000000000) (17747725210 # 10000000000) (591462 # 100000);
  mk_row 6 (150 # 100) (53826324 # 1000000000000) (18169800206 # 10000000000) (503369 # 100000);
  mk_row 6 (155 # 100) (40746477 # 1000000000000) (18477830463 # 10000000000) (440025 # 100000);
  mk_row 6 (160 # 100) (31441179 # 1000000000000) (18721012077 # 10000000000) (391897 # 100000);
  mk_row 6 (165 # 100) (26100718 # 1000000000000) (18868745350 # 10000000000) (355423 # 100000);
  mk_row 6 (170 # 100) (21528068 # 1000000000000) (19342762857 # 10000000000) (321515 # 100000);
  mk_row 6 (175 # 100) (17177115 # 1000000000000) (19721895688 # 10000000000) (294959 # 100000);
  mk_row 6 (180 # 100) (13650115 # 1000000000000) (19987007558 # 10000000000) (274023 # 100000);
  mk_row 6 (185 # 100) (10598995 # 1000000000000) (20219705218 # 10000000000) (256562 # 100000);
  mk_row 6 (190 # 100) (88157904 # 10000000000000) (20671787180 # 10000000000) (240316 # 100000);
  mk_row 6 (195 # 100) (76286922 # 10000000000000) (21003673879 # 10000000000) (227148 # 100000);
  mk_row 6 (200 # 100) (65649967 # 10000000000000) (21272513974 # 10000000000) (216058 # 100000);
  mk_row 6 (205 # 100) (57476558 # 10000000000000) (21458295051 # 10000000000) (206773 # 100000);
  mk_row 6 (210 # 100) (50756513 # 10000000000000) (21511783437 # 10000000000) (199018 # 100000);
  mk_row 6 (215 # 100) (44661935 # 10000000000000) (21743106617 # 10000000000) (191645 # 100000);
  mk_row 6 (220 # 100) (38877561 # 10000000000000) (21867440456 # 10000000000) (18531 # 10000);
  mk_row 6 (225 # 100) (34672484 # 10000000000000) (21957177257 # 10000000000) (179767 # 100000);
  mk_row 6 (230 # 100) (31012426 # 10000000000000) (22033754263 # 10000000000) (174797 # 100000);
  mk_row 6 (235 # 100) (27894219 # 10000000000000) (22096913080 # 10000000000) (170327 # 100000);
  mk_row 6 (240 # 100) (25794626 # 10000000000000) (22135312754 # 10000000000) (16635 # 10000);
  mk_row 6 (245 # 100) (23571404 # 10000000000000) (22317879841 # 10000000000) (162378 # 100000);
  mk_row 6 (250 # 100) (21615297 # 10000000000000) (22535598472 # 10000000000) (158705 # 100000);
  mk_row 7 (115 # 100) (78476028 # 100000000000) (15248706519 # 10000000000) (773008 # 10000);
  mk_row 7 (120 # 100) (27127166 # 100000000000) (15739348793 # 10000000000) (423005 # 10000);
  mk_row 7 (125 # 100) (12594628 # 100000000000) (16245240723 # 10000000000) (263653 # 10000);
  mk_row 7 (130 # 100) (70214545 # 1000000000000) (16835745981 # 10000000000) (177989 # 10000);
  mk_row 7 (135 # 100) (41972457 # 1000000000000) (17343424414 # 10000000000) (130169 # 10000);
  mk_row 7 (140 # 100) (2378019 # 100000000000) (17845017738 # 10000000000) (999361 # 100000);
  mk_row 7 (145 # 100) (13863408 # 1000000000000) (18180597789 # 10000000000) (809152 # 100000);
  mk_row 7 (150 # 100) (91605353 # 10000000000000) (18680822720 # 10000000000) (664755 # 100000);
  mk_row 7 (155 # 100) (6479159 # 1000000000000) (19188980015 # 10000000000) (561353 # 100000);
  mk_row 7 (160 # 100) (46544571 # 10000000000000) (19536166143 # 10000000000) (487825 # 100000);
  mk_row 7 (165 # 100) (35489761 # 10000000000000) (19786267068 # 10000000000) (433279 # 100000);
  mk_row 7 (170 # 100) (27030348 # 10000000000000) (20027666534 # 10000000000) (389791 # 100000);
  mk_row 7 (175 # 100) (20533894 # 10000000000000) (20289949199 # 10000000000) (354136 # 100000);
  mk_row 7 (180 # 100) (16069122 # 10000000000000) (20596412946 # 10000000000) (324397 # 100000);
  mk_row 7 (185 # 100) (12936794 # 10000000000000) (20720606842 # 10000000000) (301314 # 100000);
  mk_row 7 (190 # 100) (10768664 # 10000000000000) (20908981740 # 10000000000) (281272 # 100000);
  mk_row 7 (195 # 100) (90890421 # 100000000000000) (21086185697 # 10000000000) (264203 # 100000);
  mk_row 7 (200 # 100) (77488775 # 100000000000000) (21278284187 # 10000000000) (249387 # 100000);
  mk_row 7 (205 # 100) (68025539 # 100000000000000) (21300505355 # 10000000000) (237603 # 100000);
  mk_row 7 (210 # 100) (60222531 # 100000000000000) (21361214247 # 10000000000) (227023 # 100000);
  mk_row 7 (215 # 100) (50130101 # 100000000000000) (22231545475 # 10000000000) (214207 # 100000);
  mk_row 7 (220 # 100) (42248762 # 100000000000000) (22408449906 # 10000000000) (205745 # 100000);
  mk_row 7 (225 # 100) (36494171 # 100000000000000) (22556844458 # 10000000000) (198365 # 100000);
  mk_row 7 (230 # 100) (31538194 # 100000000000000) (22684881766 # 10000000000) (191808 # 100000);
  mk_row 7 (235 # 100) (27282924 # 100000000000000) (22815394648 # 10000000000) (18589 # 10000);
  mk_row 7 (240 # 100) (24350524 # 100000000000000) (22939223534 # 10000000000) (180593 # 100000);
  mk_row 7 (245 # 100) (21263032 # 100000000000000) (23041489588 # 10000000000) (175785 # 100000);
  mk_row 7 (250 # 100) (19134836 # 100000000000000) (23076482212 # 10000000000) (1716 # 1000);
  mk_row 8 (120 # 100) (78028732 # 1000000000000) (16209261450 # 10000000000) (72156 # 1000);
  mk_row 8 (125 # 100) (27460918 # 1000000000000) (16851585171 # 10000000000) (410455 # 10000);
  mk_row 8 (130 # 100) (13421658 # 1000000000000) (17442373315 # 10000000000) (263042 # 10000);
  mk_row 8 (135 # 100) (75158217 # 10000000000000) (17876782642 # 10000000000) (186037 # 10000);
  mk_row 8 (140 # 100) (42472384 # 10000000000000) (18294321912 # 10000000000) (138907 # 10000);
  mk_row 8 (145 # 100) (25794802 # 10000000000000) (18716918210 # 10000000000) (108298 # 10000);
  mk_row 8 (150 # 100) (16131994 # 10000000000000) (19213040541 # 10000000000) (86747 # 10000);
  mk_row 8 (155 # 100) (10974814 # 10000000000000) (19637229131 # 10000000000) (719139 # 100000);
  mk_row 8 (160 # 100) (7531955 # 10000000000000) (20002761373 # 10000000000) (611792 # 100000);
  mk_row 8 (165 # 100) (55097346 # 100000000000000) (20275645736 # 10000000000) (533605 # 100000);
  mk_row 8 (170 # 100) (40136726 # 100000000000000) (20498410409 # 10000000000) (473241 # 100000);
  mk_row 8 (175 # 100) (2906467 # 10000000000000) (20731585170 # 10000000000) (42462 # 10000);
  mk_row 8 (180 # 100) (21834922 # 100000000000000) (20907418726 # 10000000000) (386143 # 100000);
  mk_row 8 (185 # 100) (16329905 # 100000000000000) (21164552354 # 10000000000) (353086 # 100000);
  mk_row 8 (190 # 100) (12828598 # 100000000000000) (21261570160 # 10000000000) (327482 # 100000);
  mk_row 8 (195 # 100) (10171134 # 100000000000000) (21363206613 # 10000000000) (305604 # 100000);
  mk_row 8 (200 # 100) (81881369 # 1000000000000000) (21397013368 # 10000000000) (287454 # 100000);
  mk_row 8 (205 # 100) (69121193 # 1000000000000000) (21466071700 # 10000000000) (271496 # 100000);
  mk_row 8 (210 # 100) (59525932 # 1000000000000000) (21510526592 # 10000000000) (257749 # 100000);
  mk_row 8 (215 # 100) (52942463 # 1000000000000000) (22365737543 # 10000000000) (240676 # 100000);
  mk_row 8 (220 # 100) (43612361 # 1000000000000000) (22635555483 # 10000000000) (229267 # 100000);
  mk_row 8 (225 # 100) (36764793 # 1000000000000000) (22808513000 # 10000000000) (219713 # 100000);
  mk_row 8 (230 # 100) (30899101 # 1000000000000000) (22961118291 # 10000000000) (211277 # 100000);
  mk_row 8 (235 # 100) (25951523 # 1000000000000000) (23025419974 # 10000000000) (204051 # 100000);
  mk_row 8 (240 # 100) (22598633 # 1000000000000000) (23146967576 # 10000000000) (197372 # 100000);
  mk_row 8 (245 # 100) (19029665 # 1000000000000000) (23186279028 # 10000000000) (191551 # 100000);
  mk_row 8 (250 # 100) (16752523 # 1000000000000000) (23321309669 # 10000000000) (185985 # 100000);
  mk_row 9 (125 # 100) (80261034 # 10000000000000) (17103888450 # 10000000000) (66625 # 1000);
  mk_row 9 (130 # 100) (32272675 # 10000000000000) (17768638337 # 10000000000) (397671 # 10000);
  mk_row 9 (135 # 100) (16398132 # 10000000000000) (18259273732 # 10000000000) (267133 # 10000);
  mk_row 9 (140 # 100) (85542435 # 100000000000000) (18706775936 # 10000000000) (191697 # 10000);
  mk_row 9 (145 # 100) (48998062 # 100000000000000) (19079562176 # 10000000000) (145697 # 10000);
  mk_row 9 (150 # 100) (28357238 # 100000000000000) (19376265737 # 10000000000) (115443 # 10000);
  mk_row 9 (155 # 100) (17632448 # 100000000000000) (19831130904 # 10000000000) (930856 # 100000);
  mk_row 9 (160 # 100) (11241387 # 100000000000000) (20031047508 # 10000000000) (783305 # 100000);
  mk_row 9 (165 # 100) (80252028 # 1000000000000000) (20285383278 # 10000000000) (670894 # 100000);
  mk_row 9 (170 # 100) (5741767 # 100000000000000) (20574910347 # 10000000000) (582994 # 100000);
  mk_row 9 (175 # 100) (40256578 # 1000000000000000) (20895174008 # 10000000000) (513211 # 100000);
  mk_row 9 (180 # 100) (28882533 # 1000000000000000) (21256913951 # 10000000000) (457008 # 100000);
  mk_row 9 (190 # 100) (15495159 # 1000000000000000) (21522089772 # 10000000000) (381106 # 100000);
  mk_row 9 (195 # 100) (11746262 # 1000000000000000) (21630258913 # 10000000000) (352484 # 100000);
  mk_row 9 (200 # 100) (91018891 # 10000000000000000) (21705676763 # 10000000000) (328511 # 100000);
  mk_row 10 (130 # 100) (76037409 # 100000000000000) (18037273215 # 10000000000) (599053 # 10000);
  mk_row 10 (135 # 100) (35081762 # 100000000000000) (18371602342 # 10000000000) (393257 # 10000);
  mk_row 10 (140 # 100) (17691912 # 100000000000000) (18539150977 # 10000000000) (28066 # 1000);
  mk_row 10 (145 # 100) (95898587 # 1000000000000000) (19083076984 # 10000000000) (201661 # 10000);
  mk_row 10 (150 # 100) (51649488 # 1000000000000000) (19549482618 # 10000000000) (152855 # 10000);
  mk_row 10 (155 # 100) (29344166 # 1000000000000000) (19935039498 # 10000000000) (120965 # 10000);
  mk_row 10 (160 # 100) (16984065 # 1000000000000000) (20134235964 # 10000000000) (998157 # 100000);
  mk_row 10 (165 # 100) (11201377 # 1000000000000000) (20278278839 # 10000000000) (846133 # 100000);
  mk_row 10 (170 # 100) (77392472 # 10000000000000000) (20550888710 # 10000000000) (72305 # 10000);
  mk_row 10 (175 # 100) (54226206 # 10000000000000000) (20984256136 # 10000000000) (622071 # 100000);
  mk_row 10 (180 # 100) (38051062 # 10000000000000000) (21302650200 # 10000000000) (547481 # 100000);
  mk_row 10 (185 # 100) (26039483 # 10000000000000000) (21585185874 # 10000000000) (488572 # 100000);
  mk_row 10 (190 # 100) (18492238 # 10000000000000000) (21707445630 # 10000000000) (444066 # 100000);
  mk_row 10 (195 # 100) (13147032 # 10000000000000000) (21817982009 # 10000000000) (407098 # 100000);
  mk_row 10 (200 # 100) (96449676 # 100000000000000000) (22018582745 # 10000000000) (374388 # 100000);
  mk_row 11 (130 # 100) (18775393 # 100000000000000) (18205994670 # 10000000000) (909541 # 10000);
  mk_row 11 (135 # 100) (77356019 # 1000000000000000) (18518214951 # 10000000000) (57475 # 1000);
  mk_row 11 (140 # 100) (32528373 # 1000000000000000) (18880512818 # 10000000000) (385515 # 10000);
  mk_row 11 (145 # 100) (16597763 # 1000000000000000) (19165471477 # 10000000000) (277079 # 10000);
  mk_row 11 (150 # 100) (88600675 # 10000000000000000) (19625071236 # 10000000000) (20383 # 1000);
  mk_row 11 (155 # 100) (48306858 # 10000000000000000) (20049198756 # 10000000000) (156747 # 10000);
  mk_row 11 (160 # 100) (25766957 # 10000000000000000) (20295371707 # 10000000000) (126302 # 10000);
  mk_row 11 (165 # 100) (1559903 # 1000000000000000) (20444486400 # 10000000000) (105256 # 10000);
  mk_row 11 (170 # 100) (99258899 # 100000000000000000) (20627527204 # 10000000000) (891137 # 100000);
  mk_row 11 (175 # 100) (69033069 # 100000000000000000) (20881262613 # 10000000000) (763199 # 100000);
  mk_row 11 (180 # 100) (49444651 # 100000000000000000) (21384158198 # 10000000000) (654168 # 100000);
  mk_row 11 (185 # 100) (33291902 # 100000000000000000) (21714286439 # 10000000000) (575283 # 100000);
  mk_row 11 (190 # 100) (23006797 # 100000000000000000) (21889103178 # 10000000000) (516381 # 100000);
  mk_row 11 (195 # 100) (15880468 # 100000000000000000) (22013464966 # 10000000000) (468976 # 100000);
  mk_row 11 (200 # 100) (11177184 # 100000000000000000) (22147511730 # 10000000000) (429102 # 100000);
  mk_row 12 (135 # 100) (17038991 # 1000000000000000) (18619112597 # 10000000000) (841509 # 10000);
  mk_row 12 (140 # 100) (65438748 # 10000000000000000) (19069147481 # 10000000000) (536538 # 10000);
  mk_row 12 (145 # 100) (29874764 # 10000000000000000) (19318398074 # 10000000000) (376304 # 10000);
  mk_row 12 (150 # 100) (14920459 # 10000000000000000) (19628483155 # 10000000000) (273958 # 10000);
  mk_row 12 (155 # 100) (80989276 # 100000000000000000) (20129847811 # 10000000000) (203394 # 10000);
  mk_row 12 (160 # 100) (41660575 # 100000000000000000) (20517921747 # 10000000000) (158407 # 10000);
  mk_row 12 (165 # 100) (23539727 # 100000000000000000) (20698388400 # 10000000000) (129551 # 10000);
  mk_row 12 (170 # 100) (13497289 # 100000000000000000) (20887365361 # 10000000000) (108069 # 10000);
  mk_row 12 (175 # 100) (83256938 # 1000000000000000000) (21069557330 # 10000000000) (918319 # 100000);
  mk_row 12 (180 # 100) (58834619 # 1000000000000000000) (21359415217 # 10000000000) (787128 # 100000);
  mk_row 12 (190 # 100) (26412908 # 1000000000000000000) (22006369514 # 10000000000) (601663 # 100000);
  mk_row 12 (195 # 100) (17189689 # 1000000000000000000) (22146741638 # 10000000000) (541103 # 100000);
  mk_row 12 (200 # 100) (12174796 # 1000000000000000000) (22431392199 # 10000000000) (487223 # 100000);
  mk_row 13 (140 # 100) (13183319 # 10000000000000000) (19191093732 # 10000000000) (751325 # 10000);
  mk_row 13 (145 # 100) (53619083 # 100000000000000000) (19470729711 # 10000000000) (509341 # 10000);
  mk_row 13 (150 # 100) (22322801 # 100000000000000000) (19739868782 # 10000000000) (363221 # 10000);
  mk_row 13 (155 # 100) (11526271 # 100000000000000000) (20033259275 # 10000000000) (269396 # 10000);
  mk_row 13 (160 # 100) (61426379 # 1000000000000000000) (20510989715 # 10000000000) (20273 # 1000);
  mk_row 13 (165 # 100) (34052024 # 1000000000000000000) (20818527907 # 10000000000) (160817 # 10000);
  mk_row 13 (170 # 100) (18584229 # 1000000000000000000) (21045643925 # 10000000000) (131667 # 10000);
  mk_row 13 (175 # 100) (10810235 # 1000000000000000000) (21243271913 # 10000000000) (110246 # 10000);
  mk_row 13 (180 # 100) (7377578 # 1000000000000000000) (21467756379 # 10000000000) (937882 # 100000);
  mk_row 13 (185 # 100) (49615599 # 10000000000000000000) (21851483818 # 10000000000) (801062 # 100000);
  mk_row 13 (190 # 100) (32630681 # 10000000000000000000) (22086376720 # 10000000000) (701814 # 100000);
  mk_row 13 (195 # 100) (208439 # 100000000000000000) (22299240544 # 10000000000) (622754 # 100000);
  mk_row 13 (200 # 100) (13665993 # 10000000000000000000) (22491841265 # 10000000000) (558775 # 100000);
  mk_row 14 (145 # 100) (10233715 # 100000000000000000) (19577546112 # 10000000000) (69119 # 1000);
  mk_row 14 (150 # 100) (40219827 # 1000000000000000000) (19908513900 # 10000000000) (475913 # 10000);
  mk_row 14 (155 # 100) (18311452 # 1000000000000000000) (20199455000 # 10000000000) (345365 # 10000);
  mk_row 14 (160 # 100) (93257786 # 10000000000000000000) (20564687260 # 10000000000) (257812 # 10000);
  mk_row 14 (165 # 100) (50810838 # 10000000000000000000) (20910978691 # 10000000000) (199888 # 10000);
  mk_row 14 (170 # 100) (26125118 # 10000000000000000000) (21169092067 # 10000000000) (160644 # 10000);
  mk_row 14 (175 # 100) (13838674 # 10000000000000000000) (21429649758 # 10000000000) (131916 # 10000);
  mk_row 14 (180 # 100) (84432728 # 100000000000000000000) (21058949451 # 10000000000) (115897 # 10000);
  mk_row 14 (185 # 100) (56112166 # 100000000000000000000) (21848347409 # 10000000000) (94964 # 10000);
  mk_row 14 (190 # 100) (36520481 # 100000000000000000000) (22144100981 # 10000000000) (819239 # 100000);
  mk_row 14 (195 # 100) (22835769 # 100000000000000000000) (22387205994 # 10000000000) (718565 # 100000);
  mk_row 14 (200 # 100) (15660252 # 100000000000000000000) (22662033397 # 10000000000) (636102 # 100000);
  mk_row 15 (150 # 100) (67738438 # 10000000000000000000) (20031350908 # 10000000000) (625687 # 10000);
  mk_row 15 (155 # 100) (2664519 # 1000000000000000000) (20276909655 # 10000000000) (447014 # 10000);
  mk_row 15 (160 # 100) (12501824 # 10000000000000000000) (20594275589 # 10000000000) (32856 # 1000);
  mk_row 15 (165 # 100) (71442756 # 100000000000000000000) (20958989255 # 10000000000) (249268 # 10000);
  mk_row 15 (170 # 100) (36768121 # 100000000000000000000) (21256130851 # 10000000000) (19631 # 1000);
  mk_row 15 (175 # 100) (18650547 # 100000000000000000000) (21497846837 # 10000000000) (159255 # 10000);
  mk_row 15 (180 # 100) (11458006 # 100000000000000000000) (21307035522 # 10000000000) (137024 # 10000);
  mk_row 15 (185 # 100) (70782501 # 1000000000000000000000) (21464045447 # 10000000000) (115736 # 10000);
  mk_row 15 (190 # 100) (4407902 # 100000000000000000000) (22222258168 # 10000000000) (954393 # 100000);
  mk_row 15 (195 # 100) (26655793 # 1000000000000000000000) (22419149837 # 10000000000) (831949 # 100000);
  mk_row 15 (200 # 100) (17108261 # 1000000000000000000000) (22390528894 # 10000000000) (74432 # 10000);
  mk_row 16 (150 # 100) (12100308 # 10000000000000000000) (20130787701 # 10000000000) (823371 # 10000);
  mk_row 16 (155 # 100) (46082202 # 100000000000000000000) (20438032614 # 10000000000) (569825 # 10000);
  mk_row 16 (160 # 100) (17883238 # 100000000000000000000) (20329561822 # 10000000000) (435164 # 10000);
  mk_row 16 (165 # 100) (92853815 # 1000000000000000000000) (20494514743 # 10000000000) (329027 # 10000);
  mk_row 16 (170 # 100) (56614567 # 1000000000000000000000) (20925119791 # 10000000000) (250837 # 10000);
  mk_row 16 (175 # 100) (2875391 # 100000000000000000000) (21461524027 # 10000000000) (194122 # 10000);
  mk_row 16 (180 # 100) (16578982 # 1000000000000000000000) (21490040175 # 10000000000) (161309 # 10000);
  mk_row 16 (185 # 100) (11782751 # 1000000000000000000000) (21811826814 # 10000000000) (133536 # 10000);
  mk_row 16 (190 # 100) (89196865 # 10000000000000000000000) (21981176583 # 10000000000) (113725 # 10000);
  mk_row 16 (195 # 100) (66530006 # 10000000000000000000000) (22340011350 # 10000000000) (971037 # 100000);
  mk_row 16 (200 # 100) (50563492 # 10000000000000000000000) (22621631913 # 10000000000) (842695 # 100000)].
Definition num_kernels : Z := 244.
(** Access to KernelDB[i]; outside the table undefined *)
Definition row_at (i : Z) : option row := if (0 <=? i) && (i <? num_kernels) then nth_error KernelDB (Z.to_nat i) else None.

(** Conversion of a double to int, as in int(x) *)
Definition qtrunc (q : Q) : Z := if Qle_bool 0 q then Qfloor q else - Qfloor (- q).

(** 520-522 and 534: the grid size for an oversampling factor *)
Definition grid_for (image_size : Z) (os_factor : Q) : option Z :=
  let* t := to_int (qtrunc (inject_Z image_size * os_factor * (1 # 2))) in
  let* t := to_int (t + 1) in
  let* g := good_size_complex t in
  to_int (2 * g).

(** 488-512: for every support the row with the smallest oversampling factor that is accurate enough.  [double]: vis_precision is double *)
Definition select (epsilon : Q) (double : bool) : option (nd Z * nd Q) :=
  let max_support := if double then 16 else 8 in
  for_ 0 num_kernels (fun i (s : nd Z * nd Q) =>
    let (idx, os_factors) := s in
    let* r := row_at i in
    if (k_support r <=? max_support) && Qle_bool (k_epsilon r) epsilon && Qle_bool (k_corr r) 10 then
      let* o := rd os_factors [k_support r] in
      if Qle_bool (k_os r) o then
        let* idx := wr idx [k_support r] i in
        let* os_factors := wr os_factors [k_support r] (k_os r) in
        Some (idx, os_factors)
      else Some (idx, os_factors)
    else Some (idx, os_factors))
    (mk_nd [20] (fun _ => num_kernels - 1), mk_nd [20] (fun _ => 26 # 10)).

(** 514-529: the smallest grid; the index stays num_kernels when no grid size is at most 80000. *)
Definition smallest (image_size : Z) (idx : nd Z) : option (Z * Z) :=
  for_ 0 20 (fun i (s : Z * Z) =>
    let (min_nu, min_idx) := s in
    let* this_idx := rd idx [i] in
    let* r := row_at this_idx in
    let* nu := grid_for image_size (k_os r) in
    Some (if nu <=? min_nu then (nu, this_idx) else (min_nu, min_idx))) (80000, num_kernels).

(** sdp_calculate_params_from_epsilon, 225-537: status, and grid size, support and beta unless the status was set on entry *)
Definition calculate_params (epsilon : Q) (image_size : Z) (double : bool) (st : error) : option (error * option (Z * Z * Q)) :=
  if failed st then Some (st, None) else
  let* s := select epsilon double in
  let* m := smallest image_size (fst s) in
  let* r := row_at (snd m) in
  let* nu := grid_for image_size (k_os r) in
  Some (st, Some (nu, k_support r, k_beta r)).
