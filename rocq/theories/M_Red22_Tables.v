(** Tables of src/compute/chemistry/chem_C2H4_Air_Red22.cpp: transcribed by tools/red22tables.py, which stops at any statement it does not recognise.  Definitions only. *)
From Coq Require Import ZArith List.
From Verif Require Import M_Chem M_Red22.
Import ListNotations.

(** molecular weights in cs[n] = Y[n] / ... (chem_C2H4_Air_Red22.cpp:95-116) *)
Definition red22_W : list decimal := [D 201593995 (-8); D 100796998 (-8); D 159994001 (-7); D 319988003 (-7); D 170073701 (-7); D 180153401 (-7); D 330067703 (-7); D 340147402 (-7); D 150350603 (-7); D 160430303 (-7); D 280105505 (-7); D 440099506 (-7); D 300264904 (-7); D 260382407 (-7); D 280541806 (-7); D 300701206 (-7); D 410296708 (-7); D 420376408 (-7); D 440535808 (-7); D 41073301 (-6); D 420812709 (-7); D 280133991 (-7)].
(** coefficients of SMH for T > 1000 (chem_C2H4_Air_Red22.cpp:159-283) and T <= 1000 (284-411): constant, Tinv, TN1, T, T2, T3, T4.  The 31 species: 0:H2 1:H 2:O 3:O2 4:OH 5:H2O 6:HO2 7:H2O2 8:CH 9:CH2 10:CH2* 11:CH3 12:CH4 13:CO 14:CO2 15:HCO 16:CH2O 17:CH3O 18:C2H2 19:H2CC 20:C2H3 21:C2H4 22:C2H5 23:C2H6 24:HCCO 25:CH2CO 26:CH2CHO 27:CH3CHO 28:aC3H5 29:C3H6 30:nC3H7 *)
Definition red22_smhHigh : list (list decimal) := [
  [D (-320502331) (-8); D 950158922 (-6); D 33372792 (-7); D (-247012366) (-13); D 832427963 (-16); D (-149638662) (-19); D 100127688 (-23)];
  [D (-446682914) (-9); D (-254736599) (-4); D 250000001 (-8); D (-115421486) (-19); D 269269913 (-23); D (-394596029) (-27); D 249098679 (-31)];
  [D 478433864 (-8); D (-292175791) (-4); D 256942078 (-8); D (-429870568) (-13); D 699140982 (-17); D (-834814992) (-21); D 614168455 (-25)];
  [D 545323129 (-8); D 108845772 (-5); D 328253784 (-8); D 74154377 (-11); D (-126327778) (-15); D 174558796 (-19); D (-108358897) (-23)];
  [D 44766961 (-7); D (-3858657) (-3); D 309288767 (-8); D 274214858 (-12); D 210842047 (-16); D (-73288463) (-19); D 58706188 (-23)];
  [D 49667701 (-7); D 300042971 (-4); D 303399249 (-8); D 108845902 (-11); D (-273454197) (-16); D (-808683225) (-20); D 84100496 (-23)];
  [D 378510215 (-8); D (-111856713) (-6); D 40172109 (-7); D 111991007 (-11); D (-105609692) (-15); D 952053083 (-20); D (-539542675) (-24)];
  [D 291615662 (-8); D 178617877 (-4); D 416500285 (-8); D 245415847 (-11); D (-316898708) (-15); D 309321655 (-19); D (-143954153) (-23)];
  [D 548497999 (-8); D (-710124364) (-4); D 287846473 (-8); D 485456841 (-12); D 240742758 (-16); D (-108906541) (-19); D 880396915 (-24)];
  [D 617119324 (-8); D (-46263604) (-3); D 287410113 (-8); D 182819646 (-11); D (-234824328) (-15); D 216816291 (-19); D (-938637835) (-24)];
  [D 862650169 (-8); D (-509259997) (-4); D 229203842 (-8); D 232794319 (-11); D (-335319912) (-15); D 348255 (-16); D (-169858183) (-23)];
  [D 848007179 (-8); D (-167755843) (-4); D 228571772 (-8); D 361995019 (-11); D (-497857247) (-15); D 49640387 (-18); D (-233577197) (-23)];
  [D 18437318 (-6); D 946834459 (-5); D 74851495 (-9); D 669547335 (-11); D (-955476348) (-15); D 101910446 (-18); D (-50907615) (-22)];
  [D 781868772 (-8); D 141518724 (-4); D 271518561 (-8); D 103126372 (-11); D (-166470962) (-15); D 19171084 (-18); D (-101823858) (-23)];
  [D 227163806 (-8); D 48759166 (-3); D 385746029 (-8); D 220718513 (-11); D (-369135673) (-15); D 436241823 (-19); D (-236042082) (-23)];
  [D 979834492 (-8); D (-401191815) (-5); D 277217438 (-8); D 247847763 (-11); D (-414076022) (-15); D 490968148 (-19); D (-266754356) (-23)];
  [D 13656323 (-6); D 139958323 (-4); D 176069008 (-8); D 460000041 (-11); D (-737098022) (-15); D 838676767 (-19); D (-44192782) (-22)];
  [D 2929575 (-6); D (-12783252) (-5); D 3770799 (-6); D 39357485 (-10); D (-442730667) (-15); D 328702583 (-19); D (-1056308) (-21)];
  [D (-123028121) (-8); D (-259359992) (-4); D 414756964 (-8); D 298083332 (-11); D (-39549142) (-14); D 389510143 (-19); D (-180617607) (-23)];
  [D 64023701 (-8); D (-48316688) (-3); D 4278034 (-6); D 23781402 (-10); D (-271683483) (-15); D 21219005 (-18); D (-74431895) (-23)];
  [D 778732378 (-8); D (-346128739) (-4); D 3016724 (-6); D 51651146 (-10); D (-780137248) (-15); D 8480274 (-17); D (-43130352) (-22)];
  [D 103053693 (-7); D (-493988614) (-5); D 203611116 (-8); D 732270755 (-11); D (-111846319) (-14); D 122685769 (-18); D (-628530305) (-23)];
  [D 134624343 (-7); D (-1285752) (-2); D 195465642 (-8); D 86986361 (-10); D (-133034445) (-14); D 146014741 (-18); D (-74820788) (-22)];
  [D 151156107 (-7); D 114263932 (-4); D 10718815 (-7); D 108426339 (-10); D (-167093445) (-14); D 184510001 (-18); D (-95001445) (-22)];
  [D (-39302595) (-7); D (-19327215) (-3); D 56282058 (-7); D 204267005 (-11); D (-265575783) (-15); D 238550433 (-19); D (-9703916) (-22)];
  [D 632247205 (-9); D 755105311 (-5); D 451129732 (-8); D 450179872 (-11); D (-694899392) (-15); D 769454902 (-19); D (-3974191) (-21)];
  [D (-50320879) (-7); D (-49032178) (-5); D 59756699 (-7); D 40652957 (-10); D (-45727075) (-14); D 339192008 (-19); D (-108800855) (-23)];
  [D (-34807917) (-7); D 22593122 (-3); D 54041108 (-7); D 58615295 (-10); D (-704385617) (-15); D 569770425 (-19); D (-204924315) (-23)];
  [D (-1124305) (-5); D (-17482449) (-3); D 65007877 (-7); D 71623655 (-10); D (-946360533) (-15); D 923400083 (-19); D (-451819435) (-23)];
  [D (-1331335) (-5); D 9235703 (-4); D 6732257 (-6); D 745417 (-8); D (-824983167) (-15); D 601001833 (-19); D (-1883102) (-21)];
  [D (-15515297) (-6); D (-79762236) (-4); D 77097479 (-7); D 80157425 (-10); D (-878670633) (-15); D 632402933 (-19); D (-194313595) (-23)]].
Definition red22_smhLow : list (list decimal) := [
  [D 683010238 (-9); D 917935173 (-6); D 234433112 (-8); D 399026037 (-11); D (-32463585) (-13); D 167976745 (-17); D (-368805881) (-21)];
  [D (-446682853) (-9); D (-254736599) (-4); D 25 (-1); D 35266641 (-20); D (-332653273) (-24); D 191734693 (-27); D (-463866166) (-31)];
  [D 205193346 (-8); D (-291222592) (-4); D 31682671 (-7); D (-163965942) (-11); D 110717733 (-14); D (-510672187) (-18); D 105632986 (-21)];
  [D 365767573 (-8); D 106394356 (-5); D 378245636 (-8); D (-149836708) (-11); D 1641217 (-12); D (-806774591) (-18); D 162186419 (-21)];
  [D (-103925458) (-9); D (-361508056) (-5); D 399201543 (-8); D (-120065876) (-11); D 769656402 (-15); D (-323427778) (-18); D 68205735 (-21)];
  [D (-849032208) (-9); D 302937267 (-4); D 419864056 (-8); D (-101821705) (-11); D 108673369 (-14); D (-457330885) (-18); D 885989085 (-22)];
  [D 371666245 (-8); D (-29480804) (-5); D 430179801 (-8); D (-237456026) (-11); D 352638152 (-14); D (-202303245) (-17); D 464612562 (-21)];
  [D 343505074 (-8); D 177025821 (-4); D 427611269 (-8); D (-271411208) (-12); D 278892835 (-14); D (-179809011) (-17); D 431227181 (-21)];
  [D 208401108 (-8); D (-707972934) (-4); D 348981665 (-8); D 161917771 (-12); D (-281498442) (-15); D 263514439 (-18); D (-703045335) (-22)];
  [D 156253185 (-8); D (-460040401) (-4); D 376267867 (-8); D 484436072 (-12); D 465816402 (-15); D (-320909294) (-18); D 843708595 (-22)];
  [D (-769118967) (-9); D (-504968163) (-4); D 419860411 (-8); D (-11833071) (-10); D 137216037 (-14); D (-557346651) (-18); D 971573685 (-22)];
  [D 160456433 (-8); D (-164449988) (-4); D 36735904 (-7); D 100547587 (-11); D 955036427 (-15); D (-572597854) (-18); D 127192867 (-21)];
  [D (-464130376) (-8); D 102466476 (-4); D 514987613 (-8); D (-68354894) (-10); D 819667665 (-14); D (-403952522) (-17); D 83346978 (-20)];
  [D 350840928 (-8); D 14344086 (-3); D 357953347 (-8); D (-30517684) (-11); D 169469055 (-15); D 755838237 (-19); D (-452212249) (-22)];
  [D 990105222 (-8); D 483719697 (-4); D 235677352 (-8); D 449229838 (-11); D (-118726045) (-14); D 204932518 (-18); D (-71849774) (-22)];
  [D 339437243 (-8); D (-383956496) (-5); D 422118584 (-8); D (-162196266) (-11); D 229665743 (-14); D (-110953411) (-17); D 216884432 (-21)];
  [D 6028129 (-7); D 143089567 (-4); D 479372315 (-8); D (-495416684) (-11); D 622033347 (-14); D (-316071051) (-17); D 65886326 (-20)];
  [D 13152177 (-6); D (-9786011) (-4); D 2106204 (-6); D 36082975 (-10); D 889745333 (-15); D (-614803) (-15); D 1037805 (-19)];
  [D 139397051 (-7); D (-264289807) (-4); D 808681094 (-9); D 116807815 (-10); D (-591953025) (-14); D 233460364 (-17); D (-425036487) (-21)];
  [D 5920391 (-6); D (-48621794) (-3); D 32815483 (-7); D 348823955 (-11); D (-3975874) (-13); D (-100870267) (-18); D 490947725 (-22)];
  [D 851054025 (-8); D (-348598468) (-4); D 321246645 (-8); D 75739581 (-11); D 432015687 (-14); D (-298048206) (-17); D 735754365 (-21)];
  [D 409733096 (-8); D (-508977593) (-5); D 395920148 (-8); D (-378526124) (-11); D 951650487 (-14); D (-576323961) (-17); D 134942187 (-20)];
  [D 470720924 (-8); D (-128416265) (-4); D 430646568 (-8); D (-209329446) (-11); D 828571345 (-14); D (-499272172) (-17); D 115254502 (-20)];
  [D 266682316 (-8); D 115222055 (-4); D 429142492 (-8); D (-275077135) (-11); D 999063813 (-14); D (-590388571) (-17); D 134342886 (-20)];
  [D 12490417 (-6); D (-20059449) (-3); D 22517214 (-7); D 88275105 (-10); D (-395485017) (-14); D 143964658 (-17); D (-253324055) (-21)];
  [D 12215648 (-6); D 704291804 (-5); D 21358363 (-7); D 905943605 (-11); D (-289912457) (-14); D 77866464 (-17); D (-100728807) (-21)];
  [D 95714535 (-7); D (-15214766) (-4); D 34090624 (-7); D 5369287 (-9); D 31524875 (-14); D 596548592 (-18); D 143369255 (-21)];
  [D 41030159 (-7); D 21572878 (-3); D 47294595 (-7); D (-15966429) (-10); D 792248683 (-14); D (-478821758) (-17); D 10965556 (-19)];
  [D 17173214 (-6); D (-19245629) (-3); D 13631835 (-7); D 99069105 (-10); D 208284333 (-14); D (-277962958) (-17); D 79232855 (-20)];
  [D 1614534 (-5); D (-1074826) (-3); D 1493307 (-6); D 1046259 (-8); D 747799 (-12); D (-139076) (-14); D 3579073 (-19)];
  [D 21136034 (-6); D (-10312346) (-3); D 10491173 (-7); D 130044865 (-10); D 392375267 (-15); D (-163292767) (-17); D 468601035 (-21)]].
(** the 206 reactions: rate constant, reactants and products (from EQK), power of prefRuT in EQK (chem_C2H4_Air_Red22.cpp:421-1038); third body or fall-off and the
    concentrations in RF and RB (1044-1786); the steady species in RF and RB (2070-2235); the changes of dYdt (2240-3034) *)
Definition red22_reactions : list reac22 := [
  (* 0: H + O2 = O + OH; line 421 *) mkR22 (KExp (D 320498617 (-7)) (D 0 0) (D (-725286183) (-5))) [1; 3] [2; 4] 0 (NoMod) [1; 3] [2; 4] None None [(1%nat, (-1)%Z); (2%nat, 1%Z); (3%nat, (-1)%Z); (4%nat, 1%Z)];
  (* 1: H2 + O = H + OH; line 424 *) mkR22 (KExp (D 108197783 (-7)) (D 267 (-2)) (D (-316523284) (-5))) [0; 2] [1; 4] 0 (NoMod) [0; 2] [1; 4] None None [(0%nat, (-1)%Z); (1%nat, 1%Z); (2%nat, (-1)%Z); (4%nat, 1%Z)];
  (* 2: H2 + OH = H + H2O; line 427 *) mkR22 (KExp (D 19190789 (-6)) (D 151 (-2)) (D (-172603317) (-5))) [0; 4] [1; 5] 0 (NoMod) [0; 4] [1; 5] None None [(0%nat, (-1)%Z); (1%nat, 1%Z); (4%nat, (-1)%Z); (5%nat, 1%Z)];
  (* 3: OH + OH = O + H2O; line 430 *) mkR22 (KExp (D 10482906 (-6)) (D 24 (-1)) (D 106178717 (-5))) [4; 4] [2; 5] 0 (NoMod) [4; 4] [2; 5] None None [(2%nat, 1%Z); (4%nat, (-2)%Z); (5%nat, 1%Z)];
  (* 4: H + H = H2; line 433 *) mkR22 (KExp (D 414465317 (-7)) (D (-1) 0) (D 0 0)) [1; 1] [0] (-1) (Third [(0%nat, D (-1) 0); (5%nat, D (-1) 0); (9%nat, D 1 0); (11%nat, D (-1) 0); (15%nat, D 2 0); (13%nat, D 2 0); (14%nat, D 2 0)]) [1; 1] [0] None None [(0%nat, 1%Z); (1%nat, (-2)%Z)];
  (* 5: H + H = H2; line 436 *) mkR22 (KExp (D 390385861 (-7)) (D (-6) (-1)) (D 0 0)) [1; 1] [0] (-1) (NoMod) [0; 1; 1] [0; 0] None None [(0%nat, 1%Z); (1%nat, (-2)%Z)];
  (* 6: H + H = H2; line 439 *) mkR22 (KExp (D 455408762 (-7)) (D (-125) (-2)) (D 0 0)) [1; 1] [0] (-1) (NoMod) [1; 1; 5] [0; 5] None None [(0%nat, 1%Z); (1%nat, (-2)%Z)];
  (* 7: H + H = H2; line 442 *) mkR22 (KExp (D 4775645 (-5)) (D (-2) 0) (D 0 0)) [1; 1] [0] (-1) (NoMod) [1; 1; 11] [0; 11] None None [(0%nat, 1%Z); (1%nat, (-2)%Z)];
  (* 8: H + OH = H2O; line 445 *) mkR22 (KMul (D 4 1) 7) [1; 4] [5] (-1) (Third [(0%nat, D (-27) (-2)); (5%nat, D 265 (-2)); (9%nat, D 1 0); (15%nat, D 2 0); (13%nat, D 2 0); (14%nat, D 2 0)]) [1; 4] [5] None None [(1%nat, (-1)%Z); (4%nat, (-1)%Z); (5%nat, 1%Z)];
  (* 9: H + O = OH; line 448 *) mkR22 (KMul (D 5 (-1)) 4) [1; 2] [4] (-1) (Third [(0%nat, D 1 0); (5%nat, D 5 0); (9%nat, D 1 0); (10%nat, D 5 (-1)); (11%nat, D 1 0); (15%nat, D 2 0); (13%nat, D 2 0); (14%nat, D 2 0)]) [1; 2] [4] None None [(1%nat, (-1)%Z); (2%nat, (-1)%Z); (4%nat, 1%Z)];
  (* 10: O + O = O2; line 451 *) mkR22 (KMul (D 12 (-2)) 4) [2; 2] [3] (-1) (Third [(0%nat, D 14 (-1)); (5%nat, D 144 (-1)); (9%nat, D 1 0); (10%nat, D 75 (-2)); (11%nat, D 26 (-1)); (15%nat, D 2 0); (13%nat, D 2 0); (14%nat, D 2 0)]) [2; 2] [3] None None [(2%nat, (-2)%Z); (3%nat, 1%Z)];
  (* 11: H + O2 = HO2; line 454 *) mkR22 (KExp (D 424761511 (-7)) (D (-86) (-2)) (D 0 0)) [1; 3] [6] (-1) (Third [(3%nat, D (-1) 0); (5%nat, D (-1) 0); (10%nat, D (-25) (-2)); (11%nat, D 5 (-1)); (15%nat, D 5 (-1)); (21%nat, D (-1) 0); (13%nat, D 2 0); (14%nat, D 2 0)]) [1; 3] [6] None None [(1%nat, (-1)%Z); (3%nat, (-1)%Z); (6%nat, 1%Z)];
  (* 12: H + O2 = HO2; line 457 *) mkR22 (KExp (D 471503141 (-7)) (D (-172) (-2)) (D 0 0)) [1; 3] [6] (-1) (NoMod) [1; 3; 3] [3; 6] None None [(1%nat, (-1)%Z); (3%nat, (-1)%Z); (6%nat, 1%Z)];
  (* 13: H + O2 = HO2; line 460 *) mkR22 (KExp (D 442511034 (-7)) (D (-76) (-2)) (D 0 0)) [1; 3] [6] (-1) (NoMod) [1; 3; 5] [5; 6] None None [(1%nat, (-1)%Z); (3%nat, (-1)%Z); (6%nat, 1%Z)];
  (* 14: H + O2 = HO2; line 463 *) mkR22 (KExp (D 447046282 (-7)) (D (-124) (-2)) (D 0 0)) [1; 3] [6] (-1) (NoMod) [1; 3; 21] [6; 21] None None [(1%nat, (-1)%Z); (3%nat, (-1)%Z); (6%nat, 1%Z)];
  (* 15: OH + OH = H2O2; line 466 *) mkR22 (KExp (D 319350862 (-7)) (D (-37) (-2)) (D 0 0)) [4; 4] [7] (-1) (Fall [(0%nat, D 1 0); (5%nat, D 5 0); (9%nat, D 1 0); (10%nat, D 5 (-1)); (11%nat, D 1 0); (15%nat, D 2 0); (13%nat, D 2 0); (14%nat, D 2 0)] (D 422794408 (-7)) (D (-9) (-1)) (D 855468335 (-6)) (Some (D 2654 (-4), D 94 0, D 7346 (-4), D 1756 0, D 5182 0))) [4; 4] [7] None None [(4%nat, (-2)%Z); (7%nat, 1%Z)];
  (* 16: H + HO2 = O + H2O; line 469 *) mkR22 (KExp (D 290097872 (-7)) (D 0 0) (D (-337658384) (-6))) [1; 6] [2; 5] 0 (NoMod) [1; 6] [2; 5] None None [(1%nat, (-1)%Z); (2%nat, 1%Z); (5%nat, 1%Z); (6%nat, (-1)%Z)];
  (* 17: H + HO2 = H2 + O2; line 472 *) mkR22 (KExp (D 304404238 (-7)) (D 0 0) (D (-412637667) (-6))) [1; 6] [0; 3] 0 (NoMod) [1; 6] [0; 3] None None [(0%nat, 1%Z); (1%nat, (-1)%Z); (3%nat, 1%Z); (6%nat, (-1)%Z)];
  (* 18: H + HO2 = OH + OH; line 475 *) mkR22 (KExp (D 318908801 (-7)) (D 0 0) (D (-150965) (-3))) [1; 6] [4; 4] 0 (NoMod) [1; 6] [4; 4] None None [(1%nat, (-1)%Z); (4%nat, 2%Z); (6%nat, (-1)%Z)];
  (* 19: O + HO2 = O2 + OH; line 478 *) mkR22 (KConst (D 2 13)) [2; 6] [3; 4] 0 (NoMod) [2; 6] [3; 4] None None [(2%nat, (-1)%Z); (3%nat, 1%Z); (4%nat, 1%Z); (6%nat, (-1)%Z)];
  (* 20: OH + HO2 = O2 + H2O; line 481 *) mkR22 (KExp (D 314683206 (-7)) (D 0 0) (D 251608334 (-6))) [4; 6] [3; 5] 0 (NoMod) [4; 6] [3; 5] None None [(3%nat, 1%Z); (4%nat, (-1)%Z); (5%nat, 1%Z); (6%nat, (-1)%Z)];
  (* 21: HO2 + HO2 = O2 + H2O2; line 484 *) mkR22 (KExp (D 255908003 (-7)) (D 0 0) (D 820243168 (-6))) [6; 6] [3; 7] 0 (NoMod) [6; 6] [3; 7] None None [(3%nat, 1%Z); (6%nat, (-2)%Z); (7%nat, 1%Z)];
  (* 22: HO2 + HO2 = O2 + H2O2; line 487 *) mkR22 (KExp (D 336712758 (-7)) (D 0 0) (D (-603860001) (-5))) [6; 6] [3; 7] 0 (NoMod) [6; 6] [3; 7] None None [(3%nat, 1%Z); (6%nat, (-2)%Z); (7%nat, 1%Z)];
  (* 23: H + H2O2 = H2 + HO2; line 490 *) mkR22 (KExp (D 16308716 (-6)) (D 2 0) (D (-261672667) (-5))) [1; 7] [0; 6] 0 (NoMod) [1; 7] [0; 6] None None [(0%nat, 1%Z); (1%nat, (-1)%Z); (6%nat, 1%Z); (7%nat, (-1)%Z)];
  (* 24: H + H2O2 = OH + H2O; line 493 *) mkR22 (KExp (D 299336062 (-7)) (D 0 0) (D (-181158) (-2))) [1; 7] [4; 5] 0 (NoMod) [1; 7] [4; 5] None None [(1%nat, (-1)%Z); (4%nat, 1%Z); (5%nat, 1%Z); (7%nat, (-1)%Z)];
  (* 25: O + H2O2 = OH + HO2; line 496 *) mkR22 (KExp (D 160803938 (-7)) (D 2 0) (D (-201286667) (-5))) [2; 7] [4; 6] 0 (NoMod) [2; 7] [4; 6] None None [(2%nat, (-1)%Z); (4%nat, 1%Z); (6%nat, 1%Z); (7%nat, (-1)%Z)];
  (* 26: OH + H2O2 = H2O + HO2; line 499 *) mkR22 (KExp (D 281906369 (-7)) (D 0 0) (D (-161029334) (-6))) [4; 7] [5; 6] 0 (NoMod) [4; 7] [5; 6] None None [(4%nat, (-1)%Z); (5%nat, 1%Z); (6%nat, 1%Z); (7%nat, (-1)%Z)];
  (* 27: OH + H2O2 = H2O + HO2; line 502 *) mkR22 (KExp (D 339940492 (-7)) (D 0 0) (D (-481075134) (-5))) [4; 7] [5; 6] 0 (NoMod) [4; 7] [5; 6] None None [(4%nat, (-1)%Z); (5%nat, 1%Z); (6%nat, 1%Z); (7%nat, (-1)%Z)];
  (* 28: O + CO = CO2; line 505 *) mkR22 (KExp (D 340312786 (-7)) (D 0 0) (D (-150965) (-2))) [2; 13] [14] (-1) (Third [(0%nat, D 1 0); (3%nat, D 5 0); (5%nat, D 5 0); (9%nat, D 1 0); (10%nat, D 5 (-1)); (11%nat, D 25 (-1)); (15%nat, D 2 0); (13%nat, D 2 0); (14%nat, D 2 0)]) [2; 10] [11] None None [(2%nat, (-1)%Z); (10%nat, (-1)%Z); (11%nat, 1%Z)];
  (* 29: OH + CO = H + CO2; line 508 *) mkR22 (KExp (D 176783433 (-7)) (D 1228 (-3)) (D (-352251667) (-7))) [4; 13] [1; 14] 0 (NoMod) [4; 10] [1; 11] None None [(1%nat, 1%Z); (4%nat, (-1)%Z); (10%nat, (-1)%Z); (11%nat, 1%Z)];
  (* 30: H2 + CO = CH2O; line 511 *) mkR22 (KExp (D 175767107 (-7)) (D 15 (-1)) (D (-400560467) (-4))) [0; 13] [16] (-1) (Fall [(0%nat, D 1 0); (5%nat, D 5 0); (9%nat, D 1 0); (10%nat, D 5 (-1)); (11%nat, D 1 0); (15%nat, D 2 0); (13%nat, D 2 0); (14%nat, D 2 0)] (D 637931383 (-7)) (D (-342) (-2)) (D (-424463259) (-4)) (Some (D 68 (-3), D 197 0, D 932 (-3), D 154 1, D 103 2))) [0; 10] [12] None None [(0%nat, (-1)%Z); (10%nat, (-1)%Z); (12%nat, 1%Z)];
  (* 31: O2 + CO = O + CO2; line 514 *) mkR22 (KExp (D 285473118 (-7)) (D 0 0) (D (-240537567) (-4))) [3; 13] [2; 14] 0 (NoMod) [3; 10] [2; 11] None None [(2%nat, 1%Z); (3%nat, (-1)%Z); (10%nat, (-1)%Z); (11%nat, 1%Z)];
  (* 32: HO2 + CO = OH + CO2; line 517 *) mkR22 (KExp (D 326416564 (-7)) (D 0 0) (D (-118759134) (-4))) [6; 13] [4; 14] 0 (NoMod) [6; 10] [4; 11] None None [(4%nat, 1%Z); (6%nat, (-1)%Z); (10%nat, (-1)%Z); (11%nat, 1%Z)];
  (* 33: O + CH = H + CO; line 520 *) mkR22 (KConst (D 57 12)) [2; 8] [1; 13] 0 (NoMod) [2] [1; 10] (Some 0) None [(1%nat, 1%Z); (2%nat, (-1)%Z); (10%nat, 1%Z)];
  (* 34: OH + CH = H + HCO; line 523 *) mkR22 (KConst (D 3 13)) [4; 8] [1; 15] 0 (NoMod) [4] [1] (Some 0) (Some 3) [(1%nat, 1%Z); (4%nat, (-1)%Z)];
  (* 35: H2 + CH = H + CH2; line 526 *) mkR22 (KExp (D 185223344 (-7)) (D 179 (-2)) (D (-840371835) (-6))) [0; 8] [1; 9] 0 (NoMod) [0] [1] (Some 0) (Some 1) [(0%nat, (-1)%Z); (1%nat, 1%Z)];
  (* 36: H2O + CH = H + CH2O; line 529 *) mkR22 (KExp (D 293732401 (-7)) (D 0 0) (D 379928584 (-6))) [5; 8] [1; 16] 0 (NoMod) [5] [1; 12] (Some 0) None [(1%nat, 1%Z); (5%nat, (-1)%Z); (12%nat, 1%Z)];
  (* 37: O2 + CH = O + HCO; line 532 *) mkR22 (KConst (D 33 12)) [3; 8] [2; 15] 0 (NoMod) [3] [2] (Some 0) (Some 3) [(2%nat, 1%Z); (3%nat, (-1)%Z)];
  (* 38: CH + CO = HCCO; line 535 *) mkR22 (KConst (D 5 13)) [8; 13] [24] (-1) (Fall [(0%nat, D 1 0); (5%nat, D 5 0); (9%nat, D 1 0); (10%nat, D 5 (-1)); (11%nat, D 1 0); (15%nat, D 2 0); (13%nat, D 2 0); (14%nat, D 2 0)] (D 654619238 (-7)) (D (-374) (-2)) (D (-974227469) (-6)) (Some (D 4243 (-4), D 237 0, D 5757 (-4), D 1652 0, D 5069 0))) [10] [16] (Some 0) None [(10%nat, (-1)%Z); (16%nat, 1%Z)];
  (* 39: CH + CO2 = CO + HCO; line 538 *) mkR22 (KExp (D 288547965 (-7)) (D 0 0) (D (-347219501) (-6))) [8; 14] [13; 15] 0 (NoMod) [11] [10] (Some 0) (Some 3) [(10%nat, 1%Z); (11%nat, (-1)%Z)];
  (* 40: H + HCO = CH2O; line 541 *) mkR22 (KExp (D 277171988 (-7)) (D 48 (-2)) (D 130836334 (-6))) [1; 15] [16] (-1) (Fall [(0%nat, D 1 0); (5%nat, D 5 0); (9%nat, D 1 0); (10%nat, D 5 (-1)); (11%nat, D 1 0); (15%nat, D 2 0); (13%nat, D 2 0); (14%nat, D 2 0)] (D 555621468 (-7)) (D (-257) (-2)) (D (-717083751) (-6)) (Some (D 2176 (-4), D 271 0, D 7824 (-4), D 2755 0, D 657 1))) [1] [12] (Some 3) None [(1%nat, (-1)%Z); (12%nat, 1%Z)];
  (* 41: H + HCO = H2 + CO; line 544 *) mkR22 (KConst (D 734 11)) [1; 15] [0; 13] 0 (NoMod) [1] [0; 10] (Some 3) None [(0%nat, 1%Z); (1%nat, (-1)%Z); (10%nat, 1%Z)];
  (* 42: O + HCO = OH + CO; line 547 *) mkR22 (KConst (D 3 13)) [2; 15] [4; 13] 0 (NoMod) [2] [4; 10] (Some 3) None [(2%nat, (-1)%Z); (4%nat, 1%Z); (10%nat, 1%Z)];
  (* 43: O + HCO = H + CO2; line 550 *) mkR22 (KConst (D 3 13)) [2; 15] [1; 14] 0 (NoMod) [2] [1; 11] (Some 3) None [(1%nat, 1%Z); (2%nat, (-1)%Z); (11%nat, 1%Z)];
  (* 44: OH + HCO = H2O + CO; line 553 *) mkR22 (KConst (D 5 13)) [4; 15] [5; 13] 0 (NoMod) [4] [5; 10] (Some 3) None [(4%nat, (-1)%Z); (5%nat, 1%Z); (10%nat, 1%Z)];
  (* 45: HCO = H + CO; line 556 *) mkR22 (KExp (D 39769885 (-6)) (D (-1) 0) (D (-855468335) (-5))) [15] [1; 13] 1 (Third [(0%nat, D 1 0); (5%nat, D 5 0); (9%nat, D 1 0); (10%nat, D 5 (-1)); (11%nat, D 1 0); (15%nat, D 2 0); (13%nat, D 2 0); (14%nat, D 2 0)]) [] [1; 10] (Some 3) None [(1%nat, 1%Z); (10%nat, 1%Z)];
  (* 46: O2 + HCO = HO2 + CO; line 559 *) mkR22 (KExp (D 296591694 (-7)) (D 0 0) (D (-201286667) (-6))) [3; 15] [6; 13] 0 (NoMod) [3] [6; 10] (Some 3) None [(3%nat, (-1)%Z); (6%nat, 1%Z); (10%nat, 1%Z)];
  (* 47: H + CH2 = CH3; line 562 *) mkR22 (KExp (D 377576522 (-7)) (D (-8) (-1)) (D 0 0)) [1; 9] [11] (-1) (Fall [(0%nat, D 1 0); (5%nat, D 5 0); (9%nat, D 1 0); (10%nat, D 5 (-1)); (11%nat, D 1 0); (15%nat, D 2 0); (13%nat, D 2 0); (14%nat, D 2 0)] (D 633329483 (-7)) (D (-314) (-2)) (D (-618956501) (-6)) (Some (D 32 (-2), D 78 0, D 68 (-2), D 1995 0, D 559 1))) [1] [8] (Some 1) None [(1%nat, (-1)%Z); (8%nat, 1%Z)];
  (* 48: H2 + CH2 = H + CH3; line 565 *) mkR22 (KExp (D 131223634 (-7)) (D 2 0) (D (-363825651) (-5))) [0; 9] [1; 11] 0 (NoMod) [0] [1; 8] (Some 1) None [(0%nat, (-1)%Z); (1%nat, 1%Z); (8%nat, 1%Z)];
  (* 49: O + CH2 = H + HCO; line 568 *) mkR22 (KConst (D 8 13)) [2; 9] [1; 15] 0 (NoMod) [2] [1] (Some 1) (Some 3) [(1%nat, 1%Z); (2%nat, (-1)%Z)];
  (* 50: O2 + CH2 = OH + HCO; line 571 *) mkR22 (KExp (D 299880944 (-7)) (D 0 0) (D (-754825001) (-6))) [3; 9] [4; 15] 0 (NoMod) [3] [4] (Some 1) (Some 3) [(3%nat, (-1)%Z); (4%nat, 1%Z)];
  (* 51: O2 + CH2 = H + H + CO2; line 574 *) mkR22 (KMul (D 25 (-2)) 50) [3; 9] [1; 1; 14] 1 (NoMod) [3] [1; 1; 11] (Some 1) None [(1%nat, 2%Z); (3%nat, (-1)%Z); (11%nat, 1%Z)];
  (* 52: OH + CH2 = H + CH2O; line 577 *) mkR22 (KConst (D 2 13)) [4; 9] [1; 16] 0 (NoMod) [4] [1; 12] (Some 1) None [(1%nat, 1%Z); (4%nat, (-1)%Z); (12%nat, 1%Z)];
  (* 53: OH + CH2 = H2O + CH; line 580 *) mkR22 (KExp (D 162403133 (-7)) (D 2 0) (D (-150965) (-2))) [4; 9] [5; 8] 0 (NoMod) [4] [5] (Some 1) (Some 0) [(4%nat, (-1)%Z); (5%nat, 1%Z)];
  (* 54: HO2 + CH2 = OH + CH2O; line 583 *) mkR22 (KConst (D 2 13)) [6; 9] [4; 16] 0 (NoMod) [6] [4; 12] (Some 1) None [(4%nat, 1%Z); (6%nat, (-1)%Z); (12%nat, 1%Z)];
  (* 55: CH2 + CO = CH2CO; line 586 *) mkR22 (KExp (D 274203001 (-7)) (D 5 (-1)) (D (-226950717) (-5))) [9; 13] [25] (-1) (Fall [(0%nat, D 1 0); (5%nat, D 5 0); (9%nat, D 1 0); (10%nat, D 5 (-1)); (11%nat, D 1 0); (15%nat, D 2 0); (13%nat, D 2 0); (14%nat, D 2 0)] (D 769748493 (-7)) (D (-511) (-2)) (D (-357032226) (-5)) (Some (D 4093 (-4), D 275 0, D 5907 (-4), D 1226 0, D 5185 0))) [10] [17] (Some 1) None [(10%nat, (-1)%Z); (17%nat, 1%Z)];
  (* 56: CH + CH2 = H + C2H2; line 589 *) mkR22 (KConst (D 4 13)) [8; 9] [1; 18] 0 (NoMod) [] [1; 13] None None [(1%nat, 1%Z); (13%nat, 1%Z)];
  (* 57: CH2 + CH2 = H2 + C2H2; line 592 *) mkR22 (KConst (D 32 12)) [9; 9] [0; 18] 0 (NoMod) [] [0; 13] None None [(0%nat, 1%Z); (13%nat, 1%Z)];
  (* 58: CH2s = CH2; line 595 *) mkR22 (KExp (D 303390713 (-7)) (D 0 0) (D (-301930001) (-6))) [10] [9] 0 (NoMod) [21] [21] (Some 2) (Some 1) [];
  (* 59: H + CH2s = H2 + CH; line 598 *) mkR22 (KConst (D 3 13)) [1; 10] [0; 8] 0 (NoMod) [1] [0] (Some 2) (Some 0) [(0%nat, 1%Z); (1%nat, (-1)%Z)];
  (* 60: O + CH2s = H2 + CO; line 601 *) mkR22 (KConst (D 15 12)) [2; 10] [0; 13] 0 (NoMod) [2] [0; 10] (Some 2) None [(0%nat, 1%Z); (2%nat, (-1)%Z); (10%nat, 1%Z)];
  (* 61: O + CH2s = H + HCO; line 604 *) mkR22 (KConst (D 15 12)) [2; 10] [1; 15] 0 (NoMod) [2] [1] (Some 2) (Some 3) [(1%nat, 1%Z); (2%nat, (-1)%Z)];
  (* 62: OH + CH2s = H + CH2O; line 607 *) mkR22 (KConst (D 3 13)) [4; 10] [1; 16] 0 (NoMod) [4] [1; 12] (Some 2) None [(1%nat, 1%Z); (4%nat, (-1)%Z); (12%nat, 1%Z)];
  (* 63: H2 + CH2s = H + CH3; line 610 *) mkR22 (KConst (D 7 13)) [0; 10] [1; 11] 0 (NoMod) [0] [1; 8] (Some 2) None [(0%nat, (-1)%Z); (1%nat, 1%Z); (8%nat, 1%Z)];
  (* 64: O2 + CH2s = H + OH + CO; line 613 *) mkR22 (KConst (D 28 12)) [3; 10] [1; 4; 13] 1 (NoMod) [3] [1; 4; 10] (Some 2) None [(1%nat, 1%Z); (3%nat, (-1)%Z); (4%nat, 1%Z); (10%nat, 1%Z)];
  (* 65: O2 + CH2s = H2O + CO; line 616 *) mkR22 (KConst (D 12 12)) [3; 10] [5; 13] 0 (NoMod) [3] [5; 10] (Some 2) None [(3%nat, (-1)%Z); (5%nat, 1%Z); (10%nat, 1%Z)];
  (* 66: CH2s = CH2; line 619 *) mkR22 (KConst (D 3 13)) [10] [9] 0 (NoMod) [5] [5] (Some 2) (Some 1) [];
  (* 67: CH2s = CH2; line 622 *) mkR22 (KConst (D 9 12)) [10] [9] 0 (NoMod) [10] [10] (Some 2) (Some 1) [];
  (* 68: CH2s = CH2; line 625 *) mkR22 (KConst (D 7 12)) [10] [9] 0 (NoMod) [11] [11] (Some 2) (Some 1) [];
  (* 69: CH2s + CO2 = CO + CH2O; line 628 *) mkR22 (KConst (D 14 12)) [10; 14] [13; 16] 0 (NoMod) [11] [10; 12] (Some 2) None [(10%nat, 1%Z); (11%nat, (-1)%Z); (12%nat, 1%Z)];
  (* 70: H + CH2O = CH3O; line 631 *) mkR22 (KExp (D 27014835 (-6)) (D 454 (-3)) (D (-130836334) (-5))) [1; 16] [17] (-1) (Fall [(0%nat, D 1 0); (5%nat, D 5 0); (9%nat, D 1 0); (10%nat, D 5 (-1)); (11%nat, D 1 0); (15%nat, D 2 0); (13%nat, D 2 0); (14%nat, D 2 0)] (D 698660102 (-7)) (D (-48) (-1)) (D (-279788467) (-5)) (Some (D 242 (-3), D 94 0, D 758 (-3), D 1555 0, D 42 2))) [1; 12] [] None (Some 4) [(1%nat, (-1)%Z); (12%nat, (-1)%Z)];
  (* 71: H + CH2O = H2 + HCO; line 634 *) mkR22 (KExp (D 238587601 (-7)) (D 105 (-2)) (D (-164803459) (-5))) [1; 16] [0; 15] 0 (NoMod) [1; 12] [0] None (Some 3) [(0%nat, 1%Z); (1%nat, (-1)%Z); (12%nat, (-1)%Z)];
  (* 72: O + CH2O = OH + HCO; line 637 *) mkR22 (KExp (D 312945828 (-7)) (D 0 0) (D (-1781387) (-3))) [2; 16] [4; 15] 0 (NoMod) [2; 12] [4] None (Some 3) [(2%nat, (-1)%Z); (4%nat, 1%Z); (12%nat, (-1)%Z)];
  (* 73: OH + CH2O = H2O + HCO; line 640 *) mkR22 (KExp (D 219558261 (-7)) (D 118 (-2)) (D 22493785 (-5))) [4; 16] [5; 15] 0 (NoMod) [4; 12] [5] None (Some 3) [(4%nat, (-1)%Z); (5%nat, 1%Z); (12%nat, (-1)%Z)];
  (* 74: O2 + CH2O = HO2 + HCO; line 643 *) mkR22 (KExp (D 322361913 (-7)) (D 0 0) (D (-201286667) (-4))) [3; 16] [6; 15] 0 (NoMod) [3; 12] [6] None (Some 3) [(3%nat, (-1)%Z); (6%nat, 1%Z); (12%nat, (-1)%Z)];
  (* 75: HO2 + CH2O = H2O2 + HCO; line 646 *) mkR22 (KExp (D 276310211 (-7)) (D 0 0) (D (-402573334) (-5))) [6; 16] [7; 15] 0 (NoMod) [6; 12] [7] None (Some 3) [(6%nat, (-1)%Z); (7%nat, 1%Z); (12%nat, (-1)%Z)];
  (* 76: CH + CH2O = H + CH2CO; line 649 *) mkR22 (KExp (D 321806786 (-7)) (D 0 0) (D 259156584 (-6))) [8; 16] [1; 25] 0 (NoMod) [12] [1; 17] (Some 0) None [(1%nat, 1%Z); (12%nat, (-1)%Z); (17%nat, 1%Z)];
  (* 77: H + CH3 = CH4; line 652 *) mkR22 (KExp (D 370803784 (-7)) (D (-63) (-2)) (D (-192731984) (-6))) [1; 11] [12] (-1) (Fall [(0%nat, D 1 0); (5%nat, D 5 0); (9%nat, D 1 0); (10%nat, D 5 (-1)); (11%nat, D 1 0); (15%nat, D 2 0); (13%nat, D 2 0); (14%nat, D 2 0)] (D 768923562 (-7)) (D (-476) (-2)) (D (-122784867) (-5)) (Some (D 217 (-3), D 74 0, D 783 (-3), D 2941 0, D 6964 0))) [1; 8] [9] None None [(1%nat, (-1)%Z); (8%nat, (-1)%Z); (9%nat, 1%Z)];
  (* 78: O + CH3 = H + CH2O; line 655 *) mkR22 (KConst (D 843 11)) [2; 11] [1; 16] 0 (NoMod) [2; 8] [1; 12] None None [(1%nat, 1%Z); (2%nat, (-1)%Z); (8%nat, (-1)%Z); (12%nat, 1%Z)];
  (* 79: OH + CH3 = H2O + CH2; line 658 *) mkR22 (KExp (D 178408622 (-7)) (D 16 (-1)) (D (-272743434) (-5))) [4; 11] [5; 9] 0 (NoMod) [4; 8] [5] None (Some 1) [(4%nat, (-1)%Z); (5%nat, 1%Z); (8%nat, (-1)%Z)];
  (* 80: OH + CH3 = H2O + CH2s; line 661 *) mkR22 (KConst (D 2501 10)) [4; 11] [5; 10] 0 (NoMod) [4; 8] [5] None (Some 2) [(4%nat, (-1)%Z); (5%nat, 1%Z); (8%nat, (-1)%Z)];
  (* 81: O2 + CH3 = O + CH3O; line 664 *) mkR22 (KExp (D 310595094 (-7)) (D 0 0) (D (-1449264) (-2))) [3; 11] [2; 17] 0 (NoMod) [3; 8] [2] None (Some 4) [(2%nat, 1%Z); (3%nat, (-1)%Z); (8%nat, (-1)%Z)];
  (* 82: O2 + CH3 = OH + CH2O; line 667 *) mkR22 (KExp (D 243067848 (-7)) (D 0 0) (D (-449875701) (-5))) [3; 11] [4; 16] 0 (NoMod) [3; 8] [4; 12] None None [(3%nat, (-1)%Z); (4%nat, 1%Z); (8%nat, (-1)%Z); (12%nat, 1%Z)];
  (* 83: HO2 + CH3 = O2 + CH4; line 670 *) mkR22 (KConst (D 1 12)) [6; 11] [3; 12] 0 (NoMod) [6; 8] [3; 9] None None [(3%nat, 1%Z); (6%nat, (-1)%Z); (8%nat, (-1)%Z); (9%nat, 1%Z)];
  (* 84: HO2 + CH3 = OH + CH3O; line 673 *) mkR22 (KConst (D 134 11)) [6; 11] [4; 17] 0 (NoMod) [6; 8] [4] None (Some 4) [(4%nat, 1%Z); (6%nat, (-1)%Z); (8%nat, (-1)%Z)];
  (* 85: H2O2 + CH3 = HO2 + CH4; line 676 *) mkR22 (KExp (D 101064284 (-7)) (D 247 (-2)) (D (-260666234) (-5))) [7; 11] [6; 12] 0 (NoMod) [7; 8] [6; 9] None None [(6%nat, 1%Z); (7%nat, (-1)%Z); (8%nat, (-1)%Z); (9%nat, 1%Z)];
  (* 86: CH + CH3 = H + C2H3; line 679 *) mkR22 (KConst (D 3 13)) [8; 11] [1; 20] 0 (NoMod) [8] [1] (Some 0) (Some 6) [(1%nat, 1%Z); (8%nat, (-1)%Z)];
  (* 87: CH3 + HCO = CH4 + CO; line 682 *) mkR22 (KConst (D 848 10)) [11; 15] [12; 13] 0 (NoMod) [8] [9; 10] (Some 3) None [(8%nat, (-1)%Z); (9%nat, 1%Z); (10%nat, 1%Z)];
  (* 88: CH3 + HCO = CH3CHO; line 685 *) mkR22 (KConst (D 18 12)) [11; 15] [27] (-1) (Fall [(0%nat, D 1 0); (5%nat, D 5 0); (9%nat, D 1 0); (10%nat, D 5 (-1)); (11%nat, D 1 0); (15%nat, D 2 0); (13%nat, D 2 0); (14%nat, D 2 0)] (D 111312542 (-6)) (D (-9588) (-3)) (D (-2566405) (-3)) (Some (D 3827 (-4), D 13076 (-3), D 6173 (-4), D 2078 0, D 5093 0))) [8] [18] (Some 3) None [(8%nat, (-1)%Z); (18%nat, 1%Z)];
  (* 89: CH3 + CH2O = CH4 + HCO; line 688 *) mkR22 (KExp (D 810772006 (-8)) (D 281 (-2)) (D (-294884967) (-5))) [11; 16] [12; 15] 0 (NoMod) [8; 12] [9] None (Some 3) [(8%nat, (-1)%Z); (9%nat, 1%Z); (12%nat, (-1)%Z)];
  (* 90: CH2 + CH3 = H + C2H4; line 691 *) mkR22 (KConst (D 4 13)) [9; 11] [1; 21] 0 (NoMod) [8] [1; 14] (Some 1) None [(1%nat, 1%Z); (8%nat, (-1)%Z); (14%nat, 1%Z)];
  (* 91: CH2s + CH3 = H + C2H4; line 694 *) mkR22 (KExp (D 301159278 (-7)) (D 0 0) (D 286833501 (-6))) [10; 11] [1; 21] 0 (NoMod) [8] [1; 14] (Some 2) None [(1%nat, 1%Z); (8%nat, (-1)%Z); (14%nat, 1%Z)];
  (* 92: CH3 + CH3 = C2H6; line 697 *) mkR22 (KExp (D 375927776 (-7)) (D (-97) (-2)) (D (-311994334) (-6))) [11; 11] [23] (-1) (Fall [(0%nat, D 1 0); (5%nat, D 5 0); (9%nat, D 1 0); (10%nat, D 5 (-1)); (11%nat, D 1 0); (15%nat, D 2 0); (13%nat, D 2 0); (14%nat, D 2 0)] (D 115700234 (-6)) (D (-967) (-2)) (D (-313000767) (-5)) (Some (D 4675 (-4), D 151 0, D 5325 (-4), D 1038 0, D 497 1))) [8; 8] [15] None None [(8%nat, (-2)%Z); (15%nat, 1%Z)];
  (* 93: CH3 + CH3 = H + C2H5; line 700 *) mkR22 (KExp (D 29238457 (-6)) (D 1 (-1)) (D (-533409668) (-5))) [11; 11] [1; 22] 0 (NoMod) [8; 8] [1] None (Some 7) [(1%nat, 1%Z); (8%nat, (-2)%Z)];
  (* 94: CH3 + HCCO = CO + C2H4; line 703 *) mkR22 (KConst (D 5 13)) [11; 24] [13; 21] 0 (NoMod) [8; 16] [10; 14] None None [(8%nat, (-1)%Z); (10%nat, 1%Z); (14%nat, 1%Z); (16%nat, (-1)%Z)];
  (* 95: H + CH3O = H2 + CH2O; line 706 *) mkR22 (KConst (D 2 13)) [1; 17] [0; 16] 0 (NoMod) [1] [0; 12] (Some 4) None [(0%nat, 1%Z); (1%nat, (-1)%Z); (12%nat, 1%Z)];
  (* 96: H + CH3O = OH + CH3; line 709 *) mkR22 (KConst (D 32 12)) [1; 17] [4; 11] 0 (NoMod) [1] [4; 8] (Some 4) None [(1%nat, (-1)%Z); (4%nat, 1%Z); (8%nat, 1%Z)];
  (* 97: H + CH3O = H2O + CH2s; line 712 *) mkR22 (KConst (D 16 12)) [1; 17] [5; 10] 0 (NoMod) [1] [5] (Some 4) (Some 2) [(1%nat, (-1)%Z); (5%nat, 1%Z)];
  (* 98: O + CH3O = OH + CH2O; line 715 *) mkR22 (KConst (D 1 13)) [2; 17] [4; 16] 0 (NoMod) [2] [4; 12] (Some 4) None [(2%nat, (-1)%Z); (4%nat, 1%Z); (12%nat, 1%Z)];
  (* 99: OH + CH3O = H2O + CH2O; line 718 *) mkR22 (KConst (D 5 12)) [4; 17] [5; 16] 0 (NoMod) [4] [5; 12] (Some 4) None [(4%nat, (-1)%Z); (5%nat, 1%Z); (12%nat, 1%Z)];
  (* 100: O2 + CH3O = HO2 + CH2O; line 721 *) mkR22 (KExp (D (-284796532) (-7)) (D 76 (-1)) (D 177635484 (-5))) [3; 17] [6; 16] 0 (NoMod) [3] [6; 12] (Some 4) None [(3%nat, (-1)%Z); (6%nat, 1%Z); (12%nat, 1%Z)];
  (* 101: H + CH4 = H2 + CH3; line 724 *) mkR22 (KExp (D 203077504 (-7)) (D 162 (-2)) (D (-545486868) (-5))) [1; 12] [0; 11] 0 (NoMod) [1; 9] [0; 8] None None [(0%nat, 1%Z); (1%nat, (-1)%Z); (8%nat, 1%Z); (9%nat, (-1)%Z)];
  (* 102: O + CH4 = OH + CH3; line 727 *) mkR22 (KExp (D 207430685 (-7)) (D 15 (-1)) (D (-432766334) (-5))) [2; 12] [4; 11] 0 (NoMod) [2; 9] [4; 8] None None [(2%nat, (-1)%Z); (4%nat, 1%Z); (8%nat, 1%Z); (9%nat, (-1)%Z)];
  (* 103: OH + CH4 = H2O + CH3; line 730 *) mkR22 (KExp (D 184206807 (-7)) (D 16 (-1)) (D (-1570036) (-3))) [4; 12] [5; 11] 0 (NoMod) [4; 9] [5; 8] None None [(4%nat, (-1)%Z); (5%nat, 1%Z); (8%nat, 1%Z); (9%nat, (-1)%Z)];
  (* 104: CH + CH4 = H + C2H4; line 733 *) mkR22 (KConst (D 6 13)) [8; 12] [1; 21] 0 (NoMod) [9] [1; 14] (Some 0) None [(1%nat, 1%Z); (9%nat, (-1)%Z); (14%nat, 1%Z)];
  (* 105: CH2 + CH4 = CH3 + CH3; line 736 *) mkR22 (KExp (D 147156719 (-7)) (D 2 0) (D (-416160184) (-5))) [9; 12] [11; 11] 0 (NoMod) [9] [8; 8] (Some 1) None [(8%nat, 2%Z); (9%nat, (-1)%Z)];
  (* 106: CH2s + CH4 = CH3 + CH3; line 739 *) mkR22 (KMul (D 133333333 (-8)) 91) [10; 12] [11; 11] 0 (NoMod) [9] [8; 8] (Some 2) None [(8%nat, 2%Z); (9%nat, (-1)%Z)];
  (* 107: H + HCCO = CH2s + CO; line 742 *) mkR22 (KConst (D 1 14)) [1; 24] [10; 13] 0 (NoMod) [1; 16] [10] None (Some 2) [(1%nat, (-1)%Z); (10%nat, 1%Z); (16%nat, (-1)%Z)];
  (* 108: O + HCCO = H + CO + CO; line 745 *) mkR22 (KConst (D 1 14)) [2; 24] [1; 13; 13] 1 (NoMod) [2; 16] [1; 10; 10] None None [(1%nat, 1%Z); (2%nat, (-1)%Z); (10%nat, 2%Z); (16%nat, (-1)%Z)];
  (* 109: O2 + HCCO = OH + CO + CO; line 748 *) mkR22 (KExp (D 281010247 (-7)) (D 0 0) (D (-429747034) (-6))) [3; 24] [4; 13; 13] 1 (NoMod) [3; 16] [4; 10; 10] None None [(3%nat, (-1)%Z); (4%nat, 1%Z); (10%nat, 2%Z); (16%nat, (-1)%Z)];
  (* 110: CH + HCCO = CO + C2H2; line 751 *) mkR22 (KConst (D 5 13)) [8; 24] [13; 18] 0 (NoMod) [16] [10; 13] (Some 0) None [(10%nat, 1%Z); (13%nat, 1%Z); (16%nat, (-1)%Z)];
  (* 111: CH2 + HCCO = CO + C2H3; line 754 *) mkR22 (KConst (D 3 13)) [9; 24] [13; 20] 0 (NoMod) [16] [10] (Some 1) (Some 6) [(10%nat, 1%Z); (16%nat, (-1)%Z)];
  (* 112: HCCO + HCCO = CO + CO + C2H2; line 757 *) mkR22 (KConst (D 1 13)) [24; 24] [13; 13; 18] 1 (NoMod) [16; 16] [10; 10; 13] None None [(10%nat, 2%Z); (13%nat, 1%Z); (16%nat, (-2)%Z)];
  (* 113: C2H2 = H2CC; line 760 *) mkR22 (KExp (D 343156328 (-7)) (D (-52) (-2)) (D (-255382459) (-4))) [18] [19] 0 (Fall [(0%nat, D 1 0); (5%nat, D 5 0); (9%nat, D 1 0); (10%nat, D 5 (-1)); (11%nat, D 1 0); (15%nat, D 2 0); (13%nat, D 15 (-1)); (14%nat, D 15 (-1))] (D 354348644 (-7)) (D (-64) (-2)) (D (-250098684) (-4)) None) [13] [] None (Some 5) [(13%nat, (-1)%Z)];
  (* 114: C2H3 = H + C2H2; line 763 *) mkR22 (KExp (D 197713479 (-7)) (D 162 (-2)) (D (-186432818) (-4))) [20] [1; 18] 1 (Fall [(0%nat, D 1 0); (5%nat, D 5 0); (9%nat, D 1 0); (10%nat, D 5 (-1)); (11%nat, D 1 0); (15%nat, D 2 0); (13%nat, D 2 0); (14%nat, D 2 0)] (D 63111756 (-6)) (D (-34) (-1)) (D (-180145126) (-4)) (Some (D (-9816) (-4), D 53837 (-1), D 19816 (-4), D 42932 (-4), D (-795) (-4)))) [] [1; 13] (Some 6) None [(1%nat, 1%Z); (13%nat, 1%Z)];
  (* 115: O + C2H2 = H + HCCO; line 766 *) mkR22 (KExp (D 166079019 (-7)) (D 2 0) (D (-956111669) (-6))) [2; 18] [1; 24] 0 (NoMod) [2; 13] [1; 16] None None [(1%nat, 1%Z); (2%nat, (-1)%Z); (13%nat, (-1)%Z); (16%nat, 1%Z)];
  (* 116: O + C2H2 = CH2 + CO; line 769 *) mkR22 (KMul (D 25 (-2)) 115) [2; 18] [9; 13] 0 (NoMod) [2; 13] [10] None (Some 1) [(2%nat, (-1)%Z); (10%nat, 1%Z); (13%nat, (-1)%Z)];
  (* 117: OH + C2H2 = H + CH2CO; line 772 *) mkR22 (KExp (D (-84310155) (-7)) (D 45 (-1)) (D 503216668 (-6))) [4; 18] [1; 25] 0 (NoMod) [4; 13] [1; 17] None None [(1%nat, 1%Z); (4%nat, (-1)%Z); (13%nat, (-1)%Z); (17%nat, 1%Z)];
  (* 118: OH + C2H2 = CH3 + CO; line 775 *) mkR22 (KExp (D (-76354939) (-7)) (D 4 0) (D 100643334 (-5))) [4; 18] [11; 13] 0 (NoMod) [4; 13] [8; 10] None None [(4%nat, (-1)%Z); (8%nat, 1%Z); (10%nat, 1%Z); (13%nat, (-1)%Z)];
  (* 119: HCO + C2H2 = CO + C2H3; line 778 *) mkR22 (KExp (D 161180957 (-7)) (D 2 0) (D (-301930001) (-5))) [15; 18] [13; 20] 0 (NoMod) [13] [10] (Some 3) (Some 6) [(10%nat, 1%Z); (13%nat, (-1)%Z)];
  (* 120: CH3 + C2H2 = aC3H5; line 781 *) mkR22 (KExp (D 127430637 (-6)) (D (-1182) (-2)) (D (-179799315) (-4))) [11; 18] [28] (-1) (Third []) [8; 13] [19] None None [(8%nat, (-1)%Z); (13%nat, (-1)%Z); (19%nat, 1%Z)];
  (* 121: H2CC = C2H2; line 784 *) mkR22 (KConst (D 1 14)) [19] [18] 0 (NoMod) [1] [1; 13] (Some 5) None [(13%nat, 1%Z)];
  (* 122: O + H2CC = CH2 + CO; line 787 *) mkR22 (KConst (D 1 14)) [2; 19] [9; 13] 0 (NoMod) [2] [10] (Some 5) (Some 1) [(2%nat, (-1)%Z); (10%nat, 1%Z)];
  (* 123: OH + H2CC = H + CH2CO; line 790 *) mkR22 (KConst (D 2 13)) [4; 19] [1; 25] 0 (NoMod) [4] [1; 17] (Some 5) None [(1%nat, 1%Z); (4%nat, (-1)%Z); (17%nat, 1%Z)];
  (* 124: O2 + H2CC = CH2 + CO2; line 793 *) mkR22 (KConst (D 1 13)) [3; 19] [9; 14] 0 (NoMod) [3] [11] (Some 5) (Some 1) [(3%nat, (-1)%Z); (11%nat, 1%Z)];
  (* 125: H + CH2CO = CH2CHO; line 796 *) mkR22 (KExp (D 334301138 (-7)) (D (-6) (-2)) (D (-427734167) (-5))) [1; 25] [26] (-1) (Fall [(0%nat, D 1 0); (5%nat, D 5 0); (9%nat, D 1 0); (10%nat, D 5 (-1)); (11%nat, D 1 0); (15%nat, D 2 0); (13%nat, D 2 0); (14%nat, D 2 0)] (D 957409899 (-7)) (D (-764) (-2)) (D (-598827834) (-5)) (Some (D 663 (-3), D 1707 0, D 337 (-3), D 32 2, D 4131 0))) [1; 17] [] None (Some 8) [(1%nat, (-1)%Z); (17%nat, (-1)%Z)];
  (* 126: H + CH2CO = H2 + HCCO; line 799 *) mkR22 (KMul (D 5 1) 75) [1; 25] [0; 24] 0 (NoMod) [1; 17] [0; 16] None None [(0%nat, 1%Z); (1%nat, (-1)%Z); (16%nat, 1%Z); (17%nat, (-1)%Z)];
  (* 127: H + CH2CO = CH3 + CO; line 802 *) mkR22 (KExp (D 211287309 (-7)) (D 143 (-2)) (D (-135365284) (-5))) [1; 25] [11; 13] 0 (NoMod) [1; 17] [8; 10] None None [(1%nat, (-1)%Z); (8%nat, 1%Z); (10%nat, 1%Z); (17%nat, (-1)%Z)];
  (* 128: O + CH2CO = OH + HCCO; line 805 *) mkR22 (KMul (D 1 1) 75) [2; 25] [4; 24] 0 (NoMod) [2; 17] [4; 16] None None [(2%nat, (-1)%Z); (4%nat, 1%Z); (16%nat, 1%Z); (17%nat, (-1)%Z)];
  (* 129: O + CH2CO = CH2 + CO2; line 808 *) mkR22 (KExp (D 281906369 (-7)) (D 0 0) (D (-679342501) (-6))) [2; 25] [9; 14] 0 (NoMod) [2; 17] [11] None (Some 1) [(2%nat, (-1)%Z); (11%nat, 1%Z); (17%nat, (-1)%Z)];
  (* 130: OH + CH2CO = H2O + HCCO; line 811 *) mkR22 (KExp (D 296459241 (-7)) (D 0 0) (D (-100643334) (-5))) [4; 25] [5; 24] 0 (NoMod) [4; 17] [5; 16] None None [(4%nat, (-1)%Z); (5%nat, 1%Z); (16%nat, 1%Z); (17%nat, (-1)%Z)];
  (* 131: H + C2H3 = C2H4; line 814 *) mkR22 (KExp (D 294360258 (-7)) (D 27 (-2)) (D (-140900667) (-6))) [1; 20] [21] (-1) (Fall [(0%nat, D 1 0); (5%nat, D 5 0); (9%nat, D 1 0); (10%nat, D 5 (-1)); (11%nat, D 1 0); (15%nat, D 2 0); (13%nat, D 2 0); (14%nat, D 2 0)] (D 69414025 (-6)) (D (-386) (-2)) (D (-167067934) (-5)) (Some (D 218 (-3), D 2075 (-1), D 782 (-3), D 2663 0, D 6095 0))) [1] [14] (Some 6) None [(1%nat, (-1)%Z); (14%nat, 1%Z)];
  (* 132: H + C2H3 = H2 + C2H2; line 817 *) mkR22 (KConst (D 3 13)) [1; 20] [0; 18] 0 (NoMod) [1] [0; 13] (Some 6) None [(0%nat, 1%Z); (1%nat, (-1)%Z); (13%nat, 1%Z)];
  (* 133: H + C2H3 = H2 + H2CC; line 820 *) mkR22 (KConst (D 6 13)) [1; 20] [0; 19] 0 (NoMod) [1] [0] (Some 6) (Some 5) [(0%nat, 1%Z); (1%nat, (-1)%Z)];
  (* 134: O + C2H3 = H + CH2CO; line 823 *) mkR22 (KConst (D 48 12)) [2; 20] [1; 25] 0 (NoMod) [2] [1; 17] (Some 6) None [(1%nat, 1%Z); (2%nat, (-1)%Z); (17%nat, 1%Z)];
  (* 135: O + C2H3 = CH3 + CO; line 826 *) mkR22 (KConst (D 48 12)) [2; 20] [11; 13] 0 (NoMod) [2] [8; 10] (Some 6) None [(2%nat, (-1)%Z); (8%nat, 1%Z); (10%nat, 1%Z)];
  (* 136: OH + C2H3 = H2O + C2H2; line 829 *) mkR22 (KConst (D 3011 10)) [4; 20] [5; 18] 0 (NoMod) [4] [5; 13] (Some 6) None [(4%nat, (-1)%Z); (5%nat, 1%Z); (13%nat, 1%Z)];
  (* 137: O2 + C2H3 = HO2 + C2H2; line 832 *) mkR22 (KExp (D 141081802 (-7)) (D 161 (-2)) (D 19293327 (-5))) [3; 20] [6; 18] 0 (NoMod) [3] [6; 13] (Some 6) None [(3%nat, (-1)%Z); (6%nat, 1%Z); (13%nat, 1%Z)];
  (* 138: O2 + C2H3 = O + CH2CHO; line 835 *) mkR22 (KExp (D 264270483 (-7)) (D 29 (-2)) (D (-553538334) (-8))) [3; 20] [2; 26] 0 (NoMod) [3] [2] (Some 6) (Some 8) [(2%nat, 1%Z); (3%nat, (-1)%Z)];
  (* 139: O2 + C2H3 = HCO + CH2O; line 838 *) mkR22 (KExp (D 383674178 (-7)) (D (-139) (-2)) (D (-508248834) (-6))) [3; 20] [15; 16] 0 (NoMod) [3] [12] (Some 6) (Some 3) [(3%nat, (-1)%Z); (12%nat, 1%Z)];
  (* 140: HO2 + C2H3 = OH + CH2CHO; line 841 *) mkR22 (KConst (D 1 13)) [6; 20] [4; 26] 0 (NoMod) [6] [4] (Some 6) (Some 8) [(4%nat, 1%Z); (6%nat, (-1)%Z)];
  (* 141: H2O2 + C2H3 = HO2 + C2H4; line 844 *) mkR22 (KExp (D 232164713 (-7)) (D 0 0) (D 299917134 (-6))) [7; 20] [6; 21] 0 (NoMod) [7] [6; 14] (Some 6) None [(6%nat, 1%Z); (7%nat, (-1)%Z); (14%nat, 1%Z)];
  (* 142: HCO + C2H3 = CO + C2H4; line 847 *) mkR22 (KConst (D 9033 10)) [15; 20] [13; 21] 0 (NoMod) [] [10; 14] None None [(10%nat, 1%Z); (14%nat, 1%Z)];
  (* 143: CH3 + C2H3 = CH4 + C2H2; line 850 *) mkR22 (KConst (D 392 9)) [11; 20] [12; 18] 0 (NoMod) [8] [9; 13] (Some 6) None [(8%nat, (-1)%Z); (9%nat, 1%Z); (13%nat, 1%Z)];
  (* 144: CH3 + C2H3 = C3H6; line 853 *) mkR22 (KConst (D 25 12)) [11; 20] [29] (-1) (Fall [(0%nat, D 1 0); (5%nat, D 5 0); (9%nat, D 1 0); (10%nat, D 5 (-1)); (11%nat, D 1 0); (15%nat, D 2 0); (13%nat, D 2 0); (14%nat, D 2 0)] (D 135001549 (-6)) (D (-1194) (-2)) (D (-49163262) (-4)) (Some (D 825 (-3), D 13406 (-1), D 175 (-3), D 6 4, D 101398 (-1)))) [8] [20] (Some 6) None [(8%nat, (-1)%Z); (20%nat, 1%Z)];
  (* 145: CH3 + C2H3 = H + aC3H5; line 856 *) mkR22 (KExp (D 556675073 (-7)) (D (-283) (-2)) (D (-936888792) (-5))) [11; 20] [1; 28] 0 (NoMod) [8] [1; 19] (Some 6) None [(1%nat, 1%Z); (8%nat, (-1)%Z); (19%nat, 1%Z)];
  (* 146: CH2CHO = CH3 + CO; line 859 *) mkR22 (KExp (D 964601125 (-7)) (D (-9147) (-3)) (D (-236008617) (-4))) [26] [11; 13] 1 (NoMod) [] [8; 10] (Some 8) None [(8%nat, 1%Z); (10%nat, 1%Z)];
  (* 147: H + CH2CHO = CH3CHO; line 862 *) mkR22 (KConst (D 1 14)) [1; 26] [27] (-1) (Fall [(0%nat, D 1 0); (5%nat, D 5 0); (9%nat, D 1 0); (10%nat, D 5 (-1)); (11%nat, D 1 0); (15%nat, D 2 0); (13%nat, D 2 0); (14%nat, D 2 0)] (D 914494773 (-7)) (D (-7297) (-3)) (D (-236511834) (-5)) (Some (D 45 (-2), D 89 2, D 55 (-2), D 435 1, D 7244 0))) [1] [18] (Some 8) None [(1%nat, (-1)%Z); (18%nat, 1%Z)];
  (* 148: H + CH2CHO = CH3 + HCO; line 865 *) mkR22 (KConst (D 9 13)) [1; 26] [11; 15] 0 (NoMod) [1] [8] (Some 8) (Some 3) [(1%nat, (-1)%Z); (8%nat, 1%Z)];
  (* 149: H + CH2CHO = H2 + CH2CO; line 868 *) mkR22 (KExp (D 306267534 (-7)) (D 0 0) (D (-201286667) (-5))) [1; 26] [0; 25] 0 (NoMod) [1] [0; 17] (Some 8) None [(0%nat, 1%Z); (1%nat, (-1)%Z); (17%nat, 1%Z)];
  (* 150: O + CH2CHO = OH + CH2CO; line 871 *) mkR22 (KMul (D 1 0) 149) [2; 26] [4; 25] 0 (NoMod) [2] [4; 17] (Some 8) None [(2%nat, (-1)%Z); (4%nat, 1%Z); (17%nat, 1%Z)];
  (* 151: OH + CH2CHO = H2O + CH2CO; line 874 *) mkR22 (KMul (D 133333333 (-8)) 130) [4; 26] [5; 25] 0 (NoMod) [4] [5; 17] (Some 8) None [(4%nat, (-1)%Z); (5%nat, 1%Z); (17%nat, 1%Z)];
  (* 152: O2 + CH2CHO = HO2 + CH2CO; line 877 *) mkR22 (KConst (D 14 10)) [3; 26] [6; 25] 0 (NoMod) [3] [6; 17] (Some 8) None [(3%nat, (-1)%Z); (6%nat, 1%Z); (17%nat, 1%Z)];
  (* 153: O2 + CH2CHO = OH + CO + CH2O; line 880 *) mkR22 (KConst (D 18 9)) [3; 26] [4; 13; 16] 1 (NoMod) [3] [4; 10; 12] (Some 8) None [(3%nat, (-1)%Z); (4%nat, 1%Z); (10%nat, 1%Z); (12%nat, 1%Z)];
  (* 154: C2H4 = H2 + H2CC; line 883 *) mkR22 (KExp (D 297104627 (-7)) (D 44 (-2)) (D (-446705436) (-4))) [21] [0; 19] 1 (Fall [(0%nat, D 1 0); (5%nat, D 5 0); (9%nat, D 1 0); (10%nat, D 5 (-1)); (11%nat, D 1 0); (15%nat, D 2 0); (13%nat, D 2 0); (14%nat, D 2 0)] (D 117075165 (-6)) (D (-931) (-2)) (D (-502512164) (-4)) (Some (D 2655 (-4), D 18 1, D 7345 (-4), D 1035 0, D 5417 0))) [14] [0] None (Some 5) [(0%nat, 1%Z); (14%nat, (-1)%Z)];
  (* 155: H + C2H4 = C2H5; line 886 *) mkR22 (KExp (D 277079822 (-7)) (D 454 (-3)) (D (-915854335) (-6))) [1; 21] [22] (-1) (Fall [(0%nat, D 1 0); (5%nat, D 5 0); (9%nat, D 1 0); (10%nat, D 5 (-1)); (11%nat, D 1 0); (15%nat, D 2 0); (13%nat, D 2 0); (14%nat, D 2 0)] (D 968908955 (-7)) (D (-762) (-2)) (D (-350742017) (-5)) (Some (D 247 (-4), D 21 1, D 9753 (-4), D 984 0, D 4374 0))) [1; 14] [] None (Some 7) [(1%nat, (-1)%Z); (14%nat, (-1)%Z)];
  (* 156: H + C2H4 = H2 + C2H3; line 889 *) mkR22 (KExp (D 177414365 (-7)) (D 193 (-2)) (D (-651665585) (-5))) [1; 21] [0; 20] 0 (NoMod) [1; 14] [0] None (Some 6) [(0%nat, 1%Z); (1%nat, (-1)%Z); (14%nat, (-1)%Z)];
  (* 157: O + C2H4 = OH + C2H3; line 892 *) mkR22 (KExp (D 165302053 (-7)) (D 191 (-2)) (D (-188203034) (-5))) [2; 21] [4; 20] 0 (NoMod) [2; 14] [4] None (Some 6) [(2%nat, (-1)%Z); (4%nat, 1%Z); (14%nat, (-1)%Z)];
  (* 158: O + C2H4 = CH3 + HCO; line 895 *) mkR22 (KExp (D 167704208 (-7)) (D 183 (-2)) (D (-110707667) (-6))) [2; 21] [11; 15] 0 (NoMod) [2; 14] [8] None (Some 3) [(2%nat, (-1)%Z); (8%nat, 1%Z); (14%nat, (-1)%Z)];
  (* 159: O + C2H4 = CH2 + CH2O; line 898 *) mkR22 (KMul (D 2 (-2)) 158) [2; 21] [9; 16] 0 (NoMod) [2; 14] [12] None (Some 1) [(2%nat, (-1)%Z); (12%nat, 1%Z); (14%nat, (-1)%Z)];
  (* 160: OH + C2H4 = H2O + C2H3; line 901 *) mkR22 (KExp (D 150964444 (-7)) (D 2 0) (D (-125804167) (-5))) [4; 21] [5; 20] 0 (NoMod) [4; 14] [5] None (Some 6) [(4%nat, (-1)%Z); (5%nat, 1%Z); (14%nat, (-1)%Z)];
  (* 161: O2 + C2H4 = HO2 + C2H3; line 904 *) mkR22 (KExp (D 313734413 (-7)) (D 0 0) (D (-305955734) (-4))) [3; 21] [6; 20] 0 (NoMod) [3; 14] [6] None (Some 6) [(3%nat, (-1)%Z); (6%nat, 1%Z); (14%nat, (-1)%Z)];
  (* 162: HO2 + C2H4 = OH + CH3CHO; line 907 *) mkR22 (KExp (D 283241683 (-7)) (D 0 0) (D (-704503335) (-5))) [6; 21] [4; 27] 0 (NoMod) [6; 14] [4; 18] None None [(4%nat, 1%Z); (6%nat, (-1)%Z); (14%nat, (-1)%Z); (18%nat, 1%Z)];
  (* 163: HCO + C2H4 = CO + C2H5; line 910 *) mkR22 (KExp (D 161180957 (-7)) (D 2 0) (D (-402573334) (-5))) [15; 21] [13; 22] 0 (NoMod) [14] [10] (Some 3) (Some 7) [(10%nat, 1%Z); (14%nat, (-1)%Z)];
  (* 164: CH2 + C2H4 = H + aC3H5; line 913 *) mkR22 (KExp (D 306267534 (-7)) (D 0 0) (D (-301930001) (-5))) [9; 21] [1; 28] 0 (NoMod) [14] [1; 19] (Some 1) None [(1%nat, 1%Z); (14%nat, (-1)%Z); (19%nat, 1%Z)];
  (* 165: CH2s + C2H4 = CH4 + H2CC; line 916 *) mkR22 (KConst (D 5 13)) [10; 21] [12; 19] 0 (NoMod) [14] [9] (Some 2) (Some 5) [(9%nat, 1%Z); (14%nat, (-1)%Z)];
  (* 166: CH2s + C2H4 = H + aC3H5; line 919 *) mkR22 (KConst (D 5 13)) [10; 21] [1; 28] 0 (NoMod) [14] [1; 19] (Some 2) None [(1%nat, 1%Z); (14%nat, (-1)%Z); (19%nat, 1%Z)];
  (* 167: CH3 + C2H4 = CH4 + C2H3; line 922 *) mkR22 (KExp (D 123327053 (-7)) (D 2 0) (D (-462959334) (-5))) [11; 21] [12; 20] 0 (NoMod) [8; 14] [9] None (Some 6) [(8%nat, (-1)%Z); (9%nat, 1%Z); (14%nat, (-1)%Z)];
  (* 168: CH3 + C2H4 = nC3H7; line 925 *) mkR22 (KExp (D 265223585 (-7)) (D 0 0) (D (-387476834) (-5))) [11; 21] [30] (-1) (NoMod) [8; 14] [] None (Some 9) [(8%nat, (-1)%Z); (14%nat, (-1)%Z)];
  (* 169: H + C2H5 = C2H6; line 928 *) mkR22 (KExp (D 407945264 (-7)) (D (-99) (-2)) (D (-795082335) (-6))) [1; 22] [23] (-1) (Fall [(0%nat, D 1 0); (5%nat, D 5 0); (9%nat, D 1 0); (10%nat, D 5 (-1)); (11%nat, D 1 0); (15%nat, D 2 0); (13%nat, D 2 0); (14%nat, D 2 0)] (D 950941235 (-7)) (D (-708) (-2)) (D (-336400342) (-5)) (Some (D 1578 (-4), D 125 0, D 8422 (-4), D 2219 0, D 6882 0))) [1] [15] (Some 7) None [(1%nat, (-1)%Z); (15%nat, 1%Z)];
  (* 170: H + C2H5 = H2 + C2H4; line 931 *) mkR22 (KConst (D 2 12)) [1; 22] [0; 21] 0 (NoMod) [1] [0; 14] (Some 7) None [(0%nat, 1%Z); (1%nat, (-1)%Z); (14%nat, 1%Z)];
  (* 171: O + C2H5 = CH3 + CH2O; line 934 *) mkR22 (KConst (D 1604 10)) [2; 22] [11; 16] 0 (NoMod) [2] [8; 12] (Some 7) None [(2%nat, (-1)%Z); (8%nat, 1%Z); (12%nat, 1%Z)];
  (* 172: O + C2H5 = H + CH3CHO; line 937 *) mkR22 (KConst (D 802 11)) [2; 22] [1; 27] 0 (NoMod) [2] [1; 18] (Some 7) None [(1%nat, 1%Z); (2%nat, (-1)%Z); (18%nat, 1%Z)];
  (* 173: O2 + C2H5 = HO2 + C2H4; line 940 *) mkR22 (KConst (D 2 10)) [3; 22] [6; 21] 0 (NoMod) [3] [6; 14] (Some 7) None [(3%nat, (-1)%Z); (6%nat, 1%Z); (14%nat, 1%Z)];
  (* 174: HO2 + C2H5 = O2 + C2H6; line 943 *) mkR22 (KConst (D 3 11)) [6; 22] [3; 23] 0 (NoMod) [6] [3; 15] (Some 7) None [(3%nat, 1%Z); (6%nat, (-1)%Z); (15%nat, 1%Z)];
  (* 175: HO2 + C2H5 = H2O2 + C2H4; line 946 *) mkR22 (KConst (D 3 11)) [6; 22] [7; 21] 0 (NoMod) [6] [7; 14] (Some 7) None [(6%nat, (-1)%Z); (7%nat, 1%Z); (14%nat, 1%Z)];
  (* 176: HO2 + C2H5 = OH + CH3 + CH2O; line 949 *) mkR22 (KConst (D 24 12)) [6; 22] [4; 11; 16] 1 (NoMod) [6] [4; 8; 12] (Some 7) None [(4%nat, 1%Z); (6%nat, (-1)%Z); (8%nat, 1%Z); (12%nat, 1%Z)];
  (* 177: H2O2 + C2H5 = HO2 + C2H6; line 952 *) mkR22 (KExp (D 228865889 (-7)) (D 0 0) (D (-490133034) (-6))) [7; 22] [6; 23] 0 (NoMod) [7] [6; 15] (Some 7) None [(6%nat, 1%Z); (7%nat, (-1)%Z); (15%nat, 1%Z)];
  (* 178: HCO + C2H5 = CO + C2H6; line 955 *) mkR22 (KConst (D 12 13)) [15; 22] [13; 23] 0 (NoMod) [] [10; 15] None None [(10%nat, 1%Z); (15%nat, 1%Z)];
  (* 179: H + C2H6 = H2 + C2H5; line 958 *) mkR22 (KExp (D 185604427 (-7)) (D 19 (-1)) (D (-378922151) (-5))) [1; 23] [0; 22] 0 (NoMod) [1; 15] [0] None (Some 7) [(0%nat, 1%Z); (1%nat, (-1)%Z); (15%nat, (-1)%Z)];
  (* 180: O + C2H6 = OH + C2H5; line 961 *) mkR22 (KExp (D 183130955 (-7)) (D 192 (-2)) (D (-286330284) (-5))) [2; 23] [4; 22] 0 (NoMod) [2; 15] [4] None (Some 7) [(2%nat, (-1)%Z); (4%nat, 1%Z); (15%nat, (-1)%Z)];
  (* 181: OH + C2H6 = H2O + C2H5; line 964 *) mkR22 (KExp (D 150796373 (-7)) (D 212 (-2)) (D (-437798501) (-6))) [4; 23] [5; 22] 0 (NoMod) [4; 15] [5] None (Some 7) [(4%nat, (-1)%Z); (5%nat, 1%Z); (15%nat, (-1)%Z)];
  (* 182: CH2s + C2H6 = CH3 + C2H5; line 967 *) mkR22 (KExp (D 313199006 (-7)) (D 0 0) (D 276769167 (-6))) [10; 23] [11; 22] 0 (NoMod) [15] [8] (Some 2) (Some 7) [(8%nat, 1%Z); (15%nat, (-1)%Z)];
  (* 183: CH3 + C2H6 = CH4 + C2H5; line 970 *) mkR22 (KExp (D 156303353 (-7)) (D 174 (-2)) (D (-525861418) (-5))) [11; 23] [12; 22] 0 (NoMod) [8; 15] [9] None (Some 7) [(8%nat, (-1)%Z); (9%nat, 1%Z); (15%nat, (-1)%Z)];
  (* 184: H + aC3H5 = C3H6; line 973 *) mkR22 (KConst (D 2 14)) [1; 28] [29] (-1) (Fall [(0%nat, D 1 0); (5%nat, D 5 0); (9%nat, D 1 0); (10%nat, D 5 (-1)); (11%nat, D 1 0); (15%nat, D 2 0); (13%nat, D 2 0); (14%nat, D 2 0)] (D 138440285 (-6)) (D (-12) 0) (D (-300309643) (-5)) (Some (D 98 (-2), D 10966 (-1), D 2 (-2), D 10966 (-1), D 68595 (-1)))) [1; 19] [20] None None [(1%nat, (-1)%Z); (19%nat, (-1)%Z); (20%nat, 1%Z)];
  (* 185: H + aC3H5 = CH4 + H2CC; line 976 *) mkR22 (KMul (D 266666667 (-8)) 130) [1; 28] [12; 19] 0 (NoMod) [1; 19] [9] None (Some 5) [(1%nat, (-1)%Z); (9%nat, 1%Z); (19%nat, (-1)%Z)];
  (* 186: HO2 + aC3H5 = O2 + C3H6; line 979 *) mkR22 (KConst (D 266 10)) [6; 28] [3; 29] 0 (NoMod) [6; 19] [3; 20] None None [(3%nat, 1%Z); (6%nat, (-1)%Z); (19%nat, (-1)%Z); (20%nat, 1%Z)];
  (* 187: HO2 + aC3H5 = OH + CH2O + C2H3; line 982 *) mkR22 (KConst (D 66 11)) [6; 28] [4; 16; 20] 1 (NoMod) [6; 19] [4; 12] None (Some 6) [(4%nat, 1%Z); (6%nat, (-1)%Z); (12%nat, 1%Z); (19%nat, (-1)%Z)];
  (* 188: HCO + aC3H5 = CO + C3H6; line 985 *) mkR22 (KConst (D 6 13)) [15; 28] [13; 29] 0 (NoMod) [19] [10; 20] (Some 3) None [(10%nat, 1%Z); (19%nat, (-1)%Z); (20%nat, 1%Z)];
  (* 189: H + C3H6 = nC3H7; line 988 *) mkR22 (KExp (D 302187852 (-7)) (D 0 0) (D (-164083859) (-5))) [1; 29] [30] (-1) (Fall [(0%nat, D 1 0); (5%nat, D 5 0); (9%nat, D 1 0); (10%nat, D 5 (-1)); (11%nat, D 1 0); (15%nat, D 2 0)] (D 893324137 (-7)) (D (-666) (-2)) (D (-352251667) (-5)) (Some (D 0 0, D 1 3, D 1 0, D 131 1, D 48097 0))) [1; 20] [] None (Some 9) [(1%nat, (-1)%Z); (20%nat, (-1)%Z)];
  (* 190: H + C3H6 = CH3 + C2H4; line 991 *) mkR22 (KExp (D 511268757 (-7)) (D (-239) (-2)) (D (-562596234) (-5))) [1; 29] [11; 21] 0 (NoMod) [1; 20] [8; 14] None None [(1%nat, (-1)%Z); (8%nat, 1%Z); (14%nat, 1%Z); (20%nat, (-1)%Z)];
  (* 191: H + C3H6 = H2 + aC3H5; line 994 *) mkR22 (KExp (D 120435537 (-7)) (D 25 (-1)) (D (-12530095) (-4))) [1; 29] [0; 28] 0 (NoMod) [1; 20] [0; 19] None None [(0%nat, 1%Z); (1%nat, (-1)%Z); (19%nat, 1%Z); (20%nat, (-1)%Z)];
  (* 192: O + C3H6 = H + CH3 + CH2CO; line 997 *) mkR22 (KExp (D 186030023 (-7)) (D 165 (-2)) (D (-16455185) (-5))) [2; 29] [1; 11; 25] 1 (NoMod) [2; 20] [1; 8; 17] None None [(1%nat, 1%Z); (2%nat, (-1)%Z); (8%nat, 1%Z); (17%nat, 1%Z); (20%nat, (-1)%Z)];
  (* 193: O + C3H6 = HCO + C2H5; line 1000 *) mkR22 (KExp (D 173708586 (-7)) (D 165 (-2)) (D 489126601 (-6))) [2; 29] [15; 22] 0 (NoMod) [2; 20] [] None None [(2%nat, (-1)%Z); (20%nat, (-1)%Z)];
  (* 194: O + C3H6 = OH + aC3H5; line 1003 *) mkR22 (KExp (D 259162227 (-7)) (D 7 (-1)) (D (-295891401) (-5))) [2; 29] [4; 28] 0 (NoMod) [2; 20] [4; 19] None None [(2%nat, (-1)%Z); (4%nat, 1%Z); (19%nat, 1%Z); (20%nat, (-1)%Z)];
  (* 195: OH + C3H6 = H2O + aC3H5; line 1006 *) mkR22 (KExp (D 149469127 (-7)) (D 2 0) (D 149958567 (-6))) [4; 29] [5; 28] 0 (NoMod) [4; 20] [5; 19] None None [(4%nat, (-1)%Z); (5%nat, 1%Z); (19%nat, 1%Z); (20%nat, (-1)%Z)];
  (* 196: HO2 + C3H6 = H2O2 + aC3H5; line 1009 *) mkR22 (KExp (D 916951838 (-8)) (D 26 (-1)) (D (-699974385) (-5))) [6; 29] [7; 28] 0 (NoMod) [6; 20] [7; 19] None None [(6%nat, (-1)%Z); (7%nat, 1%Z); (19%nat, 1%Z); (20%nat, (-1)%Z)];
  (* 197: CH3 + C3H6 = CH4 + aC3H5; line 1012 *) mkR22 (KExp (D 78845736 (-8)) (D 35 (-1)) (D (-285575459) (-5))) [11; 29] [12; 28] 0 (NoMod) [8; 20] [9; 19] None None [(8%nat, (-1)%Z); (9%nat, 1%Z); (19%nat, 1%Z); (20%nat, (-1)%Z)];
  (* 198: H + nC3H7 = CH3 + C2H5; line 1015 *) mkR22 (KExp (D 565703751 (-7)) (D (-292) (-2)) (D (-629272443) (-5))) [1; 30] [11; 22] 0 (NoMod) [1] [8] (Some 9) (Some 7) [(1%nat, (-1)%Z); (8%nat, 1%Z)];
  (* 199: H + nC3H7 = H2 + C3H6; line 1018 *) mkR22 (KConst (D 18 11)) [1; 30] [0; 29] 0 (NoMod) [1] [0; 20] (Some 9) None [(0%nat, 1%Z); (1%nat, (-1)%Z); (20%nat, 1%Z)];
  (* 200: O + nC3H7 = CH2O + C2H5; line 1021 *) mkR22 (KConst (D 96 12)) [2; 30] [16; 22] 0 (NoMod) [2] [12] (Some 9) (Some 7) [(2%nat, (-1)%Z); (12%nat, 1%Z)];
  (* 201: OH + nC3H7 = H2O + C3H6; line 1024 *) mkR22 (KConst (D 24 12)) [4; 30] [5; 29] 0 (NoMod) [4] [5; 20] (Some 9) None [(4%nat, (-1)%Z); (5%nat, 1%Z); (20%nat, 1%Z)];
  (* 202: O2 + nC3H7 = HO2 + C3H6; line 1027 *) mkR22 (KConst (D 9 10)) [3; 30] [6; 29] 0 (NoMod) [3] [6; 20] (Some 9) None [(3%nat, (-1)%Z); (6%nat, 1%Z); (20%nat, 1%Z)];
  (* 203: HO2 + nC3H7 = OH + CH2O + C2H5; line 1030 *) mkR22 (KConst (D 24 12)) [6; 30] [4; 16; 22] 1 (NoMod) [6] [4; 12] (Some 9) (Some 7) [(4%nat, 1%Z); (6%nat, (-1)%Z); (12%nat, 1%Z)];
  (* 204: CH3 + nC3H7 = CH4 + C3H6; line 1033 *) mkR22 (KConst (D 11 12)) [11; 30] [12; 29] 0 (NoMod) [8] [9; 20] (Some 9) None [(8%nat, (-1)%Z); (9%nat, 1%Z); (20%nat, 1%Z)];
  (* 205: C2H3 + C2H5 = CH3 + aC3H5; line 1036 *) mkR22 (KExp (D 750436995 (-7)) (D (-522) (-2)) (D (-993701954) (-5))) [20; 22] [11; 28] 0 (NoMod) [] [8; 19] None None [(8%nat, 1%Z); (19%nat, 1%Z)]].
(** the directions set to zero (chem_C2H4_Air_Red22.cpp:1791-1796) *)
Definition red22_zeroF : list nat := [56; 57; 142; 178; 205].
Definition red22_zeroB : list nat := [193].
(** DEN and the A<i>_<j> of the ten steady species (chem_C2H4_Air_Red22.cpp:1798-1910): row, terms of DEN, (column, terms) *)
Definition red22_rows : list (nat * list (dir * nat) * list (nat * list (dir * nat))) := [
  (* CH *) (1, [(Fwd, 33); (Fwd, 34); (Fwd, 35); (Fwd, 36); (Fwd, 37); (Fwd, 38); (Fwd, 39); (Fwd, 76); (Fwd, 86); (Fwd, 104); (Fwd, 110); (Bwd, 53); (Bwd, 59)], [(0, [(Bwd, 33); (Bwd, 36); (Bwd, 38); (Bwd, 56); (Bwd, 76); (Bwd, 104); (Bwd, 110)]); (2, [(Bwd, 35); (Fwd, 53)]); (3, [(Fwd, 59)]); (4, [(Bwd, 34); (Bwd, 37); (Bwd, 39)]); (7, [(Bwd, 86)])]);
  (* CH2 *) (2, [(Fwd, 47); (Fwd, 48); (Fwd, 49); (Fwd, 50); (Fwd, 51); (Fwd, 52); (Fwd, 53); (Fwd, 54); (Fwd, 55); (Fwd, 90); (Fwd, 105); (Fwd, 111); (Fwd, 164); (Bwd, 35); (Bwd, 58); (Bwd, 66); (Bwd, 67); (Bwd, 68); (Bwd, 79); (Bwd, 116); (Bwd, 122); (Bwd, 124); (Bwd, 129); (Bwd, 159)], [(0, [(Bwd, 47); (Bwd, 48); (Bwd, 51); (Bwd, 52); (Bwd, 54); (Bwd, 55); (Bwd, 56); (Bwd, 57); (Bwd, 57); (Fwd, 79); (Bwd, 90); (Bwd, 105); (Fwd, 116); (Fwd, 129); (Fwd, 159); (Bwd, 164)]); (1, [(Fwd, 35); (Bwd, 53)]); (3, [(Fwd, 58); (Fwd, 66); (Fwd, 67); (Fwd, 68)]); (4, [(Bwd, 49); (Bwd, 50)]); (6, [(Fwd, 122); (Fwd, 124)]); (7, [(Bwd, 111)])]);
  (* CH2s *) (3, [(Fwd, 58); (Fwd, 59); (Fwd, 60); (Fwd, 61); (Fwd, 62); (Fwd, 63); (Fwd, 64); (Fwd, 65); (Fwd, 66); (Fwd, 67); (Fwd, 68); (Fwd, 69); (Fwd, 91); (Fwd, 106); (Fwd, 165); (Fwd, 166); (Fwd, 182); (Bwd, 80); (Bwd, 97); (Bwd, 107)], [(0, [(Bwd, 60); (Bwd, 62); (Bwd, 63); (Bwd, 64); (Bwd, 65); (Bwd, 69); (Fwd, 80); (Bwd, 91); (Bwd, 106); (Fwd, 107); (Bwd, 166)]); (1, [(Bwd, 59)]); (2, [(Bwd, 58); (Bwd, 66); (Bwd, 67); (Bwd, 68)]); (4, [(Bwd, 61)]); (5, [(Fwd, 97)]); (6, [(Bwd, 165)]); (8, [(Bwd, 182)])]);
  (* HCO *) (4, [(Fwd, 40); (Fwd, 41); (Fwd, 42); (Fwd, 43); (Fwd, 44); (Fwd, 45); (Fwd, 46); (Fwd, 87); (Fwd, 88); (Fwd, 119); (Fwd, 163); (Fwd, 188); (Bwd, 34); (Bwd, 37); (Bwd, 39); (Bwd, 49); (Bwd, 50); (Bwd, 61); (Bwd, 71); (Bwd, 72); (Bwd, 73); (Bwd, 74); (Bwd, 75); (Bwd, 89); (Bwd, 139); (Bwd, 148); (Bwd, 158)], [(0, [(Bwd, 40); (Bwd, 41); (Bwd, 42); (Bwd, 43); (Bwd, 44); (Bwd, 45); (Bwd, 46); (Fwd, 71); (Fwd, 72); (Fwd, 73); (Fwd, 74); (Fwd, 75); (Bwd, 87); (Bwd, 88); (Fwd, 89); (Bwd, 142); (Fwd, 158); (Bwd, 178); (Bwd, 188); (Fwd, 193)]); (1, [(Fwd, 34); (Fwd, 37); (Fwd, 39)]); (2, [(Fwd, 49); (Fwd, 50)]); (3, [(Fwd, 61)]); (7, [(Bwd, 119); (Fwd, 139)]); (8, [(Bwd, 163)]); (9, [(Fwd, 148)])]);
  (* CH3O *) (5, [(Fwd, 95); (Fwd, 96); (Fwd, 97); (Fwd, 98); (Fwd, 99); (Fwd, 100); (Bwd, 70); (Bwd, 81); (Bwd, 84)], [(0, [(Fwd, 70); (Fwd, 81); (Fwd, 84); (Bwd, 95); (Bwd, 96); (Bwd, 98); (Bwd, 99); (Bwd, 100)]); (3, [(Bwd, 97)])]);
  (* H2CC *) (6, [(Fwd, 121); (Fwd, 122); (Fwd, 123); (Fwd, 124); (Bwd, 113); (Bwd, 133); (Bwd, 154); (Bwd, 165); (Bwd, 185)], [(0, [(Fwd, 113); (Bwd, 121); (Bwd, 123); (Fwd, 154); (Fwd, 185)]); (2, [(Bwd, 122); (Bwd, 124)]); (3, [(Fwd, 165)]); (7, [(Fwd, 133)])]);
  (* C2H3 *) (7, [(Fwd, 114); (Fwd, 131); (Fwd, 132); (Fwd, 133); (Fwd, 134); (Fwd, 135); (Fwd, 136); (Fwd, 137); (Fwd, 138); (Fwd, 139); (Fwd, 140); (Fwd, 141); (Fwd, 143); (Fwd, 144); (Fwd, 145); (Bwd, 86); (Bwd, 111); (Bwd, 119); (Bwd, 156); (Bwd, 157); (Bwd, 160); (Bwd, 161); (Bwd, 167); (Bwd, 187)], [(0, [(Bwd, 114); (Bwd, 131); (Bwd, 132); (Bwd, 134); (Bwd, 135); (Bwd, 136); (Bwd, 137); (Bwd, 141); (Bwd, 142); (Bwd, 143); (Bwd, 144); (Bwd, 145); (Fwd, 156); (Fwd, 157); (Fwd, 160); (Fwd, 161); (Fwd, 167); (Fwd, 187); (Bwd, 205)]); (1, [(Fwd, 86)]); (2, [(Fwd, 111)]); (4, [(Fwd, 119); (Bwd, 139)]); (6, [(Bwd, 133)]); (9, [(Bwd, 138); (Bwd, 140)])]);
  (* C2H5 *) (8, [(Fwd, 169); (Fwd, 170); (Fwd, 171); (Fwd, 172); (Fwd, 173); (Fwd, 174); (Fwd, 175); (Fwd, 176); (Fwd, 177); (Bwd, 93); (Bwd, 155); (Bwd, 163); (Bwd, 179); (Bwd, 180); (Bwd, 181); (Bwd, 182); (Bwd, 183); (Bwd, 198); (Bwd, 200); (Bwd, 203)], [(0, [(Fwd, 93); (Fwd, 155); (Bwd, 169); (Bwd, 170); (Bwd, 171); (Bwd, 172); (Bwd, 173); (Bwd, 174); (Bwd, 175); (Bwd, 176); (Bwd, 177); (Bwd, 178); (Fwd, 179); (Fwd, 180); (Fwd, 181); (Fwd, 183); (Fwd, 193); (Bwd, 205)]); (3, [(Fwd, 182)]); (4, [(Fwd, 163)]); (10, [(Fwd, 198); (Fwd, 200); (Fwd, 203)])]);
  (* CH2CHO *) (9, [(Fwd, 146); (Fwd, 147); (Fwd, 148); (Fwd, 149); (Fwd, 150); (Fwd, 151); (Fwd, 152); (Fwd, 153); (Bwd, 125); (Bwd, 138); (Bwd, 140)], [(0, [(Fwd, 125); (Bwd, 146); (Bwd, 147); (Bwd, 149); (Bwd, 150); (Bwd, 151); (Bwd, 152); (Bwd, 153)]); (4, [(Bwd, 148)]); (7, [(Fwd, 138); (Fwd, 140)])]);
  (* nC3H7 *) (10, [(Fwd, 198); (Fwd, 199); (Fwd, 200); (Fwd, 201); (Fwd, 202); (Fwd, 203); (Fwd, 204); (Bwd, 168); (Bwd, 189)], [(0, [(Fwd, 168); (Fwd, 189); (Bwd, 199); (Bwd, 201); (Bwd, 202); (Bwd, 204)]); (8, [(Bwd, 198); (Bwd, 200); (Bwd, 203)])])].
(** the elimination (chem_C2H4_Air_Red22.cpp:1913-2056), statement by statement *)
Definition red22_prog : list stmt22 := [
  SAdd 3 0 5;
  SDen 3 5;
  SDiv 3 0;
  SDiv 3 4;
  SDiv 3 2;
  SDiv 3 1;
  SDiv 3 6;
  SDiv 3 8;
  SAdd 8 0 10;
  SDen 8 10;
  SDiv 8 0;
  SDiv 8 3;
  SDiv 8 4;
  SAdd 4 0 9;
  SAdd 4 7 9;
  SDen 4 9;
  SDiv 4 0;
  SDiv 4 3;
  SDiv 4 7;
  SDiv 4 2;
  SDiv 4 1;
  SDiv 4 8;
  SAdd 7 0 9;
  SAdd 7 4 9;
  SDen 7 9;
  SDiv 7 0;
  SDiv 7 4;
  SDiv 7 2;
  SDiv 7 1;
  SDiv 7 6;
  SAdd 3 0 8;
  SAdd 3 4 8;
  SDen 3 8;
  SDiv 3 0;
  SDiv 3 4;
  SDiv 3 2;
  SDiv 3 1;
  SDiv 3 6;
  SAdd 4 0 8;
  SAdd 4 3 8;
  SDen 4 8;
  SDiv 4 0;
  SDiv 4 3;
  SDiv 4 7;
  SDiv 4 2;
  SDiv 4 1;
  SAdd 3 0 6;
  SNew 3 7 6;
  SAdd 3 2 6;
  SDen 3 6;
  SDiv 3 0;
  SDiv 3 4;
  SDiv 3 7;
  SDiv 3 2;
  SDiv 3 1;
  SAdd 7 0 6;
  SNew 7 3 6;
  SAdd 7 2 6;
  SDen 7 6;
  SDiv 7 0;
  SDiv 7 3;
  SDiv 7 4;
  SDiv 7 2;
  SDiv 7 1;
  SAdd 2 0 6;
  SAdd 2 3 6;
  SAdd 2 7 6;
  SDen 2 6;
  SDiv 2 0;
  SDiv 2 3;
  SDiv 2 4;
  SDiv 2 7;
  SDiv 2 1;
  SAdd 3 0 1;
  SAdd 3 4 1;
  SAdd 3 7 1;
  SAdd 3 2 1;
  SDen 3 1;
  SDiv 3 0;
  SDiv 3 4;
  SDiv 3 7;
  SDiv 3 2;
  SAdd 4 0 1;
  SAdd 4 3 1;
  SAdd 4 7 1;
  SAdd 4 2 1;
  SDen 4 1;
  SDiv 4 0;
  SDiv 4 3;
  SDiv 4 7;
  SDiv 4 2;
  SAdd 7 0 1;
  SAdd 7 3 1;
  SAdd 7 4 1;
  SAdd 7 2 1;
  SDen 7 1;
  SDiv 7 0;
  SDiv 7 3;
  SDiv 7 4;
  SDiv 7 2;
  SAdd 2 0 1;
  SAdd 2 3 1;
  SAdd 2 4 1;
  SAdd 2 7 1;
  SDen 2 1;
  SDiv 2 0;
  SDiv 2 3;
  SDiv 2 4;
  SDiv 2 7;
  SAdd 3 0 2;
  SAdd 3 4 2;
  SAdd 3 7 2;
  SDen 3 2;
  SDiv 3 0;
  SDiv 3 4;
  SDiv 3 7;
  SAdd 4 0 2;
  SAdd 4 3 2;
  SAdd 4 7 2;
  SDen 4 2;
  SDiv 4 0;
  SDiv 4 3;
  SDiv 4 7;
  SAdd 7 0 2;
  SAdd 7 3 2;
  SAdd 7 4 2;
  SDen 7 2;
  SDiv 7 0;
  SDiv 7 3;
  SDiv 7 4;
  SAdd 3 0 7;
  SAdd 3 4 7;
  SDen 3 7;
  SDiv 3 0;
  SDiv 3 4;
  SAdd 4 0 7;
  SAdd 4 3 7;
  SDen 4 7;
  SDiv 4 0;
  SDiv 4 3;
  SAdd 3 0 4;
  SDen 3 4;
  SDiv 3 0].
(** the back substitution (chem_C2H4_Air_Red22.cpp:2058-2068): XQ[i-1] = A<i>_0 + A<i>_<j> * XQ[j-1] + ... *)
Definition red22_back : list (nat * list nat) := [(3, []); (4, [3]); (7, [3; 4]); (2, [3; 4; 7]); (1, [3; 4; 7; 2]); (6, [3; 7; 2]); (8, [3; 4]); (9, [4; 7]); (10, [8]); (5, [3])].
Definition red22 : mech22 := mkM22 red22_W red22_smhHigh red22_smhLow red22_reactions red22_zeroF red22_zeroB red22_rows red22_prog red22_back.
