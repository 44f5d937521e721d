(** Model of src/peregrinepy/thermoTransport/database/speciesLibrary.yaml as yaml.SafeLoader gives it (thtrdat.py:66-68).  Generated by tools/gen_splib.py; definitions only.
    Every number is the rational its decimals denote.  Simplification: the double nearest to it is what Python holds.  A number written with an exponent but without its sign is text to
    PyYAML (YAML 1.1). *)
From Coq Require Import Reals QArith Qreals String List.
From Verif Require Import M_Config M_Species.
Import ListNotations.
Local Open Scope string_scope.
Inductive lval := LNum (q : Q) | LTxt (s : string) | LLst (l : list Q) | LMap (l : list (string * Q)).

(** speciesLibrary.yaml:3-6 *)
Definition libConstants : list (string * Q) := [("avogadro", (602214076000000000000000000 # 1)); ("Ru", (831446261815324 # 100000000000)); ("kb", (1380649 # 100000000000000000000000000000)); ("epsilon0", (8854187812773345 # 1000000000000000000000000000))]%Q.
(** speciesLibrary.yaml:8-14: DB *)
Definition sp0 : list (string * lval) := [("comp", LMap [("DB", (1 # 1))]); ("MW", LNum (2954065178914549 # 100000000000000)); ("cp0", LNum (1000 # 1)); ("mu0", LNum (18591191080521142 # 1000000000000000000000)); ("kappa0", LNum (2625394405190068 # 100000000000000000))]%Q.
(** speciesLibrary.yaml:16-20: Air *)
Definition sp1 : list (string * lval) := [("MW", LNum (2897 # 100)); ("cp0", LNum (1002838449439523 # 1000000000000)); ("mu0", LNum (18591191080521142 # 1000000000000000000000)); ("kappa0", LNum (2625394405190068 # 100000000000000000))]%Q.
(** speciesLibrary.yaml:22-53: H2 *)
Definition sp2 : list (string * lval) := [("comp", LMap [("H", (2 # 1))]); ("MW", LNum (2016 # 1000)); ("cp0", LNum (1430306804290012 # 100000000000)); ("mu0", LNum (8960556139567528 # 1000000000000000000000)); ("kappa0", LNum (18582559602263016 # 100000000000000000)); ("NASA7", LLst [(1000 # 1); (33372792 # 10000000); ((-494024731) # 10000000000000); (499456778 # 1000000000000000); ((-179566394) # 1000000000000000000); (200255376 # 10000000000000000000000); ((-950158922) # 1000000); ((-320502331) # 100000000); (234433112 # 100000000); (798052075 # 100000000000); ((-19478151) # 1000000000000); (201572094 # 10000000000000000); ((-737611761) # 100000000000000000000); ((-917935173) # 1000000); (683010238 # 1000000000)]); ("well", LNum (52464662 # 100000000000000000000000000000)); ("diam", LNum (292 # 1000000000000)); ("dipole", LNum (0 # 1)); ("polarize", LNum (7900000000000001 # 10000000000000000000000000000000000000000000000)); ("zrot", LNum (280 # 1)); ("acentric", LNum ((-216) # 1000)); ("geometry", LTxt "linear"); ("Tcrit", LNum (3319 # 100)); ("pcrit", LNum (1315000 # 1))]%Q.
(** speciesLibrary.yaml:55-85: H *)
Definition sp3 : list (string * lval) := [("comp", LMap [("H", (1 # 1))]); ("MW", LNum (1008 # 1000)); ("cp0", LNum (20621187049704786 # 1000000000000)); ("mu0", LNum (945083532879485 # 100000000000000000000)); ("kappa0", LNum (29230104061280715 # 100000000000000000)); ("NASA7", LLst [(1000 # 1); (250000001 # 100000000); ((-230842973) # 10000000000000000000); (161561948 # 10000000000000000000000); ((-473515235) # 100000000000000000000000000); (498197357 # 1000000000000000000000000000000); (254736599 # 10000); ((-446682914) # 1000000000); (25 # 10); (705332819 # 1000000000000000000000); ((-199591964) # 100000000000000000000000); (230081632 # 100000000000000000000000000); ((-927732332) # 1000000000000000000000000000000); (254736599 # 10000); ((-446682853) # 1000000000)]); ("well", LNum (200194105 # 100000000000000000000000000000)); ("diam", LNum (205 # 1000000000000)); ("dipole", LNum (0 # 1)); ("polarize", LNum (0 # 1)); ("zrot", LNum (0 # 1)); ("geometry", LTxt "atom"); ("Tcrit", LNum (1826 # 10)); ("pcrit", LNum (25190000 # 1))]%Q.
(** speciesLibrary.yaml:87-115: O *)
Definition sp4 : list (string * lval) := [("comp", LMap [("O", (1 # 1))]); ("MW", LNum (15999 # 1000)); ("cp0", LNum (13696079463498152 # 10000000000000)); ("mu0", LNum (24736538215471402 # 1000000000000000000000)); ("kappa0", LNum (5050658547318345 # 100000000000000000)); ("NASA7", LLst [(1000 # 1); (256942078 # 100000000); ((-859741137) # 10000000000000); (419484589 # 10000000000000000); ((-100177799) # 10000000000000000000); (122833691 # 100000000000000000000000); (292175791 # 10000); (478433864 # 100000000); (31682671 # 10000000); ((-327931884) # 100000000000); (664306396 # 100000000000000); ((-612806624) # 100000000000000000); (211265971 # 100000000000000000000); (291222592 # 10000); (205193346 # 100000000)]); ("well", LNum (11045192 # 10000000000000000000000000000)); ("diam", LNum (27500000000000003 # 100000000000000000000000000)); ("dipole", LNum (0 # 1)); ("polarize", LNum (0 # 1)); ("zrot", LNum (0 # 1)); ("geometry", LTxt "atom")]%Q.
(** speciesLibrary.yaml:117-149: O2 *)
Definition sp5 : list (string * lval) := [("comp", LMap [("O", (2 # 1))]); ("MW", LNum (31998 # 1000)); ("cp0", LNum (9181008692753297 # 10000000000000)); ("mu0", LNum (2054666114149094 # 100000000000000000000)); ("kappa0", LNum (26458976207512516 # 1000000000000000000)); ("NASA7", LLst [(1000 # 1); (328253784 # 100000000); (148308754 # 100000000000); ((-757966669) # 1000000000000000); (209470555 # 1000000000000000000); ((-216717794) # 10000000000000000000000); ((-108845772) # 100000); (545323129 # 100000000); (378245636 # 100000000); ((-299673416) # 100000000000); (984730201 # 100000000000000); ((-968129509) # 100000000000000000); (324372837 # 100000000000000000000); ((-106394356) # 100000); (365767573 # 100000000)]); ("well", LNum (14828170260000002 # 10000000000000000000000000000000000000)); ("diam", LNum (34580000000000004 # 100000000000000000000000000)); ("dipole", LNum (0 # 1)); ("polarize", LNum (16 # 10000000000000000000000000000000)); ("zrot", LNum (38 # 10)); ("acentric", LNum (222 # 10000)); ("geometry", LTxt "linear"); ("Tcrit", LNum (154581 # 1000)); ("pcrit", LNum (5043000 # 1)); ("Vcrit", LNum (22929558097381088 # 10000000000000000000))]%Q.
(** speciesLibrary.yaml:151-182: OH *)
Definition sp6 : list (string * lval) := [("comp", LMap [("H", (1 # 1)); ("O", (1 # 1))]); ("MW", LNum (17007 # 1000)); ("cp0", LNum (17573270120152401 # 10000000000000)); ("mu0", LNum (2550388599252464 # 100000000000000000000)); ("kappa0", LNum (5873388610679292 # 100000000000000000)); ("NASA7", LLst [(1000 # 1); (309288767 # 100000000); (548429716 # 1000000000000); (126505228 # 1000000000000000); ((-879461556) # 10000000000000000000); (117412376 # 10000000000000000000000); (3858657 # 1000); (44766961 # 10000000); (399201543 # 100000000); ((-240131752) # 100000000000); (461793841 # 100000000000000); ((-388113333) # 100000000000000000); (13641147 # 10000000000000000000); (361508056 # 100000); ((-103925458) # 1000000000)]); ("well", LNum (11045192 # 10000000000000000000000000000)); ("diam", LNum (27500000000000003 # 100000000000000000000000000)); ("dipole", LNum (0 # 1)); ("polarize", LNum (0 # 1)); ("zrot", LNum (0 # 1)); ("geometry", LTxt "linear"); ("Tcrit", LNum (1007 # 10)); ("pcrit", LNum (5760000 # 1))]%Q.
(** speciesLibrary.yaml:184-216: H2O *)
Definition sp7 : list (string * lval) := [("comp", LMap [("H", (2 # 1)); ("O", (1 # 1))]); ("MW", LNum (18015 # 1000)); ("cp0", LNum (1864379740740982 # 1000000000000)); ("mu0", LNum (9987331655783697 # 1000000000000000000000)); ("kappa0", LNum (25315913872290225 # 1000000000000000000)); ("NASA7", LLst [(1000 # 1); (303399249 # 100000000); (217691804 # 100000000000); ((-164072518) # 1000000000000000); ((-97041987) # 1000000000000000000); (168200992 # 10000000000000000000000); ((-300042971) # 10000); (49667701 # 10000000); (419864056 # 100000000); ((-20364341) # 10000000000); (652040211 # 100000000000000); ((-548797062) # 100000000000000000); (177197817 # 100000000000000000000); ((-302937267) # 10000); ((-849032208) # 1000000000)]); ("well", LNum (7902834876 # 1000000000000000000000000000000)); ("diam", LNum (26050000000000003 # 100000000000000000000000000)); ("dipole", LNum (6150921915453923 # 1000000000000000000000000000000000000000000000)); ("polarize", LNum (0 # 1)); ("zrot", LNum (4 # 1)); ("acentric", LNum (344 # 1000)); ("geometry", LTxt "nonlinear"); ("Tcrit", LNum (64714 # 100)); ("pcrit", LNum (22064000 # 1))]%Q.
(** speciesLibrary.yaml:218-247: HO2 *)
Definition sp8 : list (string * lval) := [("comp", LMap [("H", (1 # 1)); ("O", (2 # 1))]); ("MW", LNum (33006 # 1000)); ("cp0", LNum (10570900938509567 # 10000000000000)); ("mu0", LNum (20867781906592257 # 1000000000000000000000)); ("kappa0", LNum (29229588703570057 # 1000000000000000000)); ("NASA7", LLst [(1000 # 1); (40172109 # 10000000); (223982013 # 100000000000); ((-63365815) # 100000000000000); (11424637 # 100000000000000000); ((-107908535) # 10000000000000000000000); (111856713 # 1000000); (378510215 # 100000000); (430179801 # 100000000); ((-474912051) # 100000000000); (211582891 # 10000000000000); ((-242763894) # 10000000000000000); (929225124 # 100000000000000000000); (29480804 # 100000); (371666245 # 100000000)]); ("well", LNum (14828170260000002 # 10000000000000000000000000000000000000)); ("diam", LNum (34580000000000004 # 100000000000000000000000000)); ("dipole", LNum (0 # 1)); ("polarize", LNum (0 # 1)); ("zrot", LNum (1 # 1)); ("geometry", LTxt "nonlinear")]%Q.
(** speciesLibrary.yaml:249-278: H2O2 *)
Definition sp9 : list (string * lval) := [("comp", LMap [("H", (2 # 1)); ("O", (2 # 1))]); ("MW", LNum (34014 # 1000)); ("cp0", LNum (12460124326233577 # 10000000000000)); ("mu0", LNum (2118403548285747 # 100000000000000000000)); ("kappa0", LNum (3585727377577416 # 100000000000000000)); ("NASA7", LLst [(1000 # 1); (416500285 # 100000000); (490831694 # 100000000000); ((-190139225) # 100000000000000); (371185986 # 1000000000000000000); ((-287908305) # 10000000000000000000000); ((-178617877) # 10000); (291615662 # 100000000); (427611269 # 100000000); ((-542822417) # 1000000000000); (167335701 # 10000000000000); ((-215770813) # 10000000000000000); (862454363 # 100000000000000000000); ((-177025821) # 10000); (343505074 # 100000000)]); ("well", LNum (14828170260000002 # 10000000000000000000000000000000000000)); ("diam", LNum (34580000000000004 # 100000000000000000000000000)); ("dipole", LNum (0 # 1)); ("polarize", LNum (0 # 1)); ("zrot", LNum (38 # 10)); ("geometry", LTxt "nonlinear")]%Q.
(** speciesLibrary.yaml:280-308: C *)
Definition sp10 : list (string * lval) := [("comp", LMap [("C", (1 # 1))]); ("MW", LNum (12011 # 1000)); ("cp0", LNum (17349608385758045 # 10000000000000)); ("mu0", LNum (15277846949436575 # 1000000000000000000000)); ("kappa0", LNum (3977885791740672 # 100000000000000000)); ("NASA7", LLst [(1000 # 1); (249266888 # 100000000); (479889284 # 10000000000000); ((-72433502) # 1000000000000000); (374291029 # 10000000000000000000); ((-487277893) # 100000000000000000000000); (854512953 # 10000); (480150373 # 100000000); (255423955 # 100000000); ((-321537724) # 1000000000000); (733792245 # 1000000000000000); ((-732234889) # 1000000000000000000); (266521446 # 1000000000000000000000); (854438832 # 10000); (453130848 # 100000000)]); ("well", LNum (9857833860000001 # 10000000000000000000000000000000000000)); ("diam", LNum (32980000000000004 # 100000000000000000000000000)); ("dipole", LNum (0 # 1)); ("polarize", LNum (0 # 1)); ("zrot", LNum (0 # 1)); ("geometry", LTxt "atom")]%Q.
(** speciesLibrary.yaml:310-339: CH *)
Definition sp11 : list (string * lval) := [("comp", LMap [("C", (1 # 1)); ("H", (1 # 1))]); ("MW", LNum (13018999999999998 # 1000000000000000)); ("cp0", LNum (22409417177812275 # 10000000000000)); ("mu0", LNum (22314199726795266 # 1000000000000000000000)); ("kappa0", LNum (6554402597983 # 100000000000000)); ("NASA7", LLst [(1000 # 1); (287846473 # 100000000); (970913681 # 1000000000000); (144445655 # 1000000000000000); ((-130687849) # 1000000000000000000); (176079383 # 10000000000000000000000); (710124364 # 10000); (548497999 # 100000000); (348981665 # 100000000); (323835541 # 1000000000000); ((-168899065) # 100000000000000); (316217327 # 100000000000000000); ((-140609067) # 100000000000000000000); (707972934 # 10000); (208401108 # 100000000)]); ("well", LNum (11045192 # 10000000000000000000000000000)); ("diam", LNum (27500000000000003 # 100000000000000000000000000)); ("dipole", LNum (0 # 1)); ("polarize", LNum (0 # 1)); ("zrot", LNum (0 # 1)); ("geometry", LTxt "linear")]%Q.
(** speciesLibrary.yaml:341-370: CH2 *)
Definition sp12 : list (string * lval) := [("comp", LMap [("C", (1 # 1)); ("H", (2 # 1))]); ("MW", LNum (14027 # 1000)); ("cp0", LNum (2496057159822366 # 1000000000000)); ("mu0", LNum (10284845040043157 # 1000000000000000000000)); ("kappa0", LNum (3365672530934328 # 100000000000000000)); ("NASA7", LLst [(1000 # 1); (287410113 # 100000000); (365639292 # 100000000000); ((-140894597) # 100000000000000); (260179549 # 1000000000000000000); ((-187727567) # 10000000000000000000000); (46263604 # 1000); (617119324 # 100000000); (376267867 # 100000000); (968872143 # 1000000000000); (279489841 # 100000000000000); ((-385091153) # 100000000000000000); (168741719 # 100000000000000000000); (460040401 # 10000); (156253185 # 100000000)]); ("well", LNum (19881345600000003 # 10000000000000000000000000000000000000)); ("diam", LNum (38 # 100000000000)); ("dipole", LNum (0 # 1)); ("polarize", LNum (0 # 1)); ("zrot", LNum (0 # 1)); ("geometry", LTxt "linear")]%Q.
(** speciesLibrary.yaml:372-401: CH2(S) *)
Definition sp13 : list (string * lval) := [("comp", LMap [("C", (1 # 1)); ("H", (2 # 1))]); ("MW", LNum (14027 # 1000)); ("cp0", LNum (24082151766272937 # 10000000000000)); ("mu0", LNum (10284845040043157 # 1000000000000000000000)); ("kappa0", LNum (3258783054861091 # 100000000000000000)); ("NASA7", LLst [(1000 # 1); (229203842 # 100000000); (465588637 # 100000000000); ((-201191947) # 100000000000000); (417906 # 1000000000000000); ((-339716365) # 10000000000000000000000); (509259997 # 10000); (862650169 # 100000000); (419860411 # 100000000); ((-236661419) # 100000000000); (82329622 # 10000000000000); ((-668815981) # 100000000000000000); (194314737 # 100000000000000000000); (504968163 # 10000); ((-769118967) # 1000000000)]); ("well", LNum (19881345600000003 # 10000000000000000000000000000000000000)); ("diam", LNum (38 # 100000000000)); ("dipole", LNum (0 # 1)); ("polarize", LNum (0 # 1)); ("zrot", LNum (0 # 1)); ("geometry", LTxt "linear")]%Q.
(** speciesLibrary.yaml:403-432: CH3 *)
Definition sp14 : list (string * lval) := [("comp", LMap [("C", (1 # 1)); ("H", (3 # 1))]); ("MW", LNum (15035 # 1000)); ("cp0", LNum (25548630078763726 # 10000000000000)); ("mu0", LNum (10647976166101614 # 1000000000000000000000)); ("kappa0", LNum (3571321638784187 # 100000000000000000)); ("NASA7", LLst [(1000 # 1); (228571772 # 100000000); (723990037 # 100000000000); ((-298714348) # 100000000000000); (595684644 # 1000000000000000000); ((-467154394) # 10000000000000000000000); (167755843 # 10000); (848007179 # 100000000); (36735904 # 10000000); (201095175 # 100000000000); (573021856 # 100000000000000); ((-687117425) # 100000000000000000); (254385734 # 100000000000000000000); (164449988 # 10000); (160456433 # 100000000)]); ("well", LNum (19881345600000003 # 10000000000000000000000000000000000000)); ("diam", LNum (38 # 100000000000)); ("dipole", LNum (0 # 1)); ("polarize", LNum (0 # 1)); ("zrot", LNum (0 # 1)); ("geometry", LTxt "linear")]%Q.
(** speciesLibrary.yaml:434-467: CH4 *)
Definition sp15 : list (string * lval) := [("comp", LMap [("C", (1 # 1)); ("H", (4 # 1))]); ("MW", LNum (16043 # 1000)); ("cp0", LNum (22243577627887603 # 10000000000000)); ("mu0", LNum (1138919445772309 # 100000000000000000000)); ("kappa0", LNum (35632300219438806 # 1000000000000000000)); ("NASA7", LLst [(1000 # 1); (74851495 # 1000000000); (133909467 # 10000000000); ((-573285809) # 100000000000000); (122292535 # 100000000000000000); ((-10181523) # 100000000000000000000); ((-946834459) # 100000); (18437318 # 1000000); (514987613 # 100000000); ((-136709788) # 10000000000); (491800599 # 10000000000000); ((-484743026) # 10000000000000000); (166693956 # 10000000000000000000); ((-102466476) # 10000); ((-464130376) # 100000000)]); ("well", LNum (1952237686 # 1000000000000000000000000000000)); ("diam", LNum (37460000000000003 # 100000000000000000000000000)); ("dipole", LNum (0 # 1)); ("acentric", LNum (11 # 1000)); ("polarize", LNum (26000000000000002 # 10000000000000000000000000000000000000000000000)); ("zrot", LNum (13 # 1)); ("geometry", LTxt "nonlinear"); ("Tcrit", LNum (19056 # 100)); ("pcrit", LNum (4599000 # 1)); ("Vcrit", LNum (6145982671570155 # 1000000000000000000000))]%Q.
(** speciesLibrary.yaml:469-500: CO *)
Definition sp16 : list (string * lval) := [("comp", LMap [("C", (1 # 1)); ("O", (1 # 1))]); ("MW", LNum (28009999999999998 # 1000000000000000)); ("cp0", LNum (10403661948778663 # 10000000000000)); ("mu0", LNum (17681249705402127 # 1000000000000000000000)); ("kappa0", LNum (25442807173197034 # 1000000000000000000)); ("NASA7", LLst [(1000 # 1); (271518561 # 100000000); (206252743 # 100000000000); ((-998825771) # 1000000000000000); (230053008 # 1000000000000000000); ((-203647716) # 10000000000000000000000); ((-141518724) # 10000); (781868772 # 100000000); (357953347 # 100000000); ((-61035368) # 100000000000); (101681433 # 100000000000000); (907005884 # 1000000000000000000); ((-904424499) # 1000000000000000000000); ((-14344086) # 1000); (350840928 # 100000000)]); ("well", LNum (1354416669 # 1000000000000000000000000000000)); ("diam", LNum (365 # 1000000000000)); ("dipole", LNum (0 # 1)); ("polarize", LNum (195 # 100000000000000000000000000000000)); ("zrot", LNum (18 # 10)); ("geometry", LTxt "linear"); ("Tcrit", LNum (1328 # 10)); ("pcrit", LNum (3493500 # 1))]%Q.
(** speciesLibrary.yaml:502-535: CO2 *)
Definition sp17 : list (string * lval) := [("comp", LMap [("C", (1 # 1)); ("O", (2 # 1))]); ("MW", LNum (44009 # 1000)); ("cp0", LNum (8436562485842823 # 10000000000000)); ("mu0", LNum (14948464425077034 # 1000000000000000000000)); ("kappa0", LNum (17337391188047287 # 1000000000000000000)); ("NASA7", LLst [(1000 # 1); (385746029 # 100000000); (441437026 # 100000000000); ((-221481404) # 100000000000000); (523490188 # 1000000000000000000); ((-472084164) # 10000000000000000000000); ((-48759166) # 1000); (227163806 # 100000000); (235677352 # 100000000); (898459677 # 100000000000); ((-712356269) # 100000000000000); (245919022 # 100000000000000000); ((-143699548) # 1000000000000000000000); ((-483719697) # 10000); (990105222 # 100000000)]); ("well", LNum (336878356 # 100000000000000000000000000000)); ("diam", LNum (3763 # 10000000000000)); ("dipole", LNum (0 # 1)); ("polarize", LNum (26500000000000002 # 10000000000000000000000000000000000000000000000)); ("zrot", LNum (21 # 10)); ("acentric", LNum (239 # 1000)); ("geometry", LTxt "linear"); ("Tcrit", LNum (30412 # 100)); ("pcrit", LNum (7374000 # 1)); ("Vcrit", LNum (2137468757100659 # 1000000000000000000))]%Q.
(** speciesLibrary.yaml:537-567: HCO *)
Definition sp18 : list (string * lval) := [("comp", LMap [("C", (1 # 1)); ("H", (1 # 1)); ("O", (1 # 1))]); ("MW", LNum (29018 # 1000)); ("cp0", LNum (11919757975291357 # 10000000000000)); ("mu0", LNum (9228633244585079 # 1000000000000000000000)); ("kappa0", LNum (1444621591235174 # 100000000000000000)); ("NASA7", LLst [(1000 # 1); (277217438 # 100000000); (495695526 # 100000000000); ((-248445613) # 100000000000000); (589161778 # 1000000000000000000); ((-533508711) # 10000000000000000000000); (401191815 # 100000); (979834492 # 100000000); (422118584 # 100000000); ((-324392532) # 100000000000); (137799446 # 10000000000000); ((-133144093) # 10000000000000000); (433768865 # 100000000000000000000); (383956496 # 100000); (339437243 # 100000000)]); ("well", LNum (6875632020000001 # 1000000000000000000000000000000000000)); ("diam", LNum (359 # 1000000000000)); ("dipole", LNum (0 # 1)); ("polarize", LNum (0 # 1)); ("zrot", LNum (0 # 1)); ("geometry", LTxt "nonlinear")]%Q.
(** speciesLibrary.yaml:569-599: CH2O *)
Definition sp19 : list (string * lval) := [("comp", LMap [("C", (1 # 1)); ("H", (2 # 1)); ("O", (1 # 1))]); ("MW", LNum (30026 # 1000)); ("cp0", LNum (11784061686957511 # 10000000000000)); ("mu0", LNum (9387552719393883 # 1000000000000000000000)); ("kappa0", LNum (15165016784211808 # 1000000000000000000)); ("NASA7", LLst [(1000 # 1); (176069008 # 100000000); (920000082 # 100000000000); ((-442258813) # 100000000000000); (100641212 # 100000000000000000); ((-88385564) # 1000000000000000000000); ((-139958323) # 10000); (13656323 # 1000000); (479372315 # 100000000); ((-990833369) # 100000000000); (373220008 # 10000000000000); ((-379285261) # 10000000000000000); (131772652 # 10000000000000000000); ((-143089567) # 10000); (6028129 # 10000000)]); ("well", LNum (6875632020000001 # 1000000000000000000000000000000000000)); ("diam", LNum (359 # 1000000000000)); ("dipole", LNum (0 # 1)); ("polarize", LNum (0 # 1)); ("zrot", LNum (2 # 1)); ("geometry", LTxt "nonlinear")]%Q.
(** speciesLibrary.yaml:601-631: CH2OH *)
Definition sp20 : list (string * lval) := [("comp", LMap [("C", (1 # 1)); ("H", (3 # 1)); ("O", (1 # 1))]); ("MW", LNum (31034 # 1000)); ("cp0", LNum (1558296608639066 # 1000000000000)); ("mu0", LNum (967240398651708 # 100000000000000000000)); ("kappa0", LNum (20321447897416016 # 1000000000000000000)); ("NASA7", LLst [(1000 # 1); (369266569 # 100000000); (864576797 # 100000000000); ((-37510112) # 10000000000000); (787234636 # 1000000000000000000); ((-648554201) # 10000000000000000000000); ((-324250627) # 100000); (581043215 # 100000000); (386388918 # 100000000); (559672304 # 100000000000); (593271791 # 100000000000000); ((-104532012) # 10000000000000000); (436967278 # 100000000000000000000); ((-319391367) # 100000); (547302243 # 100000000)]); ("well", LNum (57573063300000004 # 10000000000000000000000000000000000000)); ("diam", LNum (369 # 1000000000000)); ("dipole", LNum (5670589618368584 # 1000000000000000000000000000000000000000000000)); ("polarize", LNum (0 # 1)); ("zrot", LNum (2 # 1)); ("geometry", LTxt "nonlinear")]%Q.
(** speciesLibrary.yaml:633-663: CH3O *)
Definition sp21 : list (string * lval) := [("comp", LMap [("C", (1 # 1)); ("H", (3 # 1)); ("O", (1 # 1))]); ("MW", LNum (31034 # 1000)); ("cp0", LNum (12195358207900233 # 10000000000000)); ("mu0", LNum (967240398651708 # 100000000000000000000)); ("kappa0", LNum (16047505077968448 # 1000000000000000000)); ("NASA7", LLst [(1000 # 1); (3770799 # 1000000); (7871497 # 1000000000); ((-2656384) # 1000000000000); (3944431 # 10000000000000000); ((-2112616) # 100000000000000000000); (12783252 # 100000); (2929575 # 1000000); (2106204 # 1000000); (7216595 # 1000000000); (5338472 # 1000000000000); ((-7377636) # 1000000000000000); (207561 # 100000000000000000); (9786011 # 10000); (13152177 # 1000000)]); ("well", LNum (57573063300000004 # 10000000000000000000000000000000000000)); ("diam", LNum (369 # 1000000000000)); ("dipole", LNum (5670589618368584 # 1000000000000000000000000000000000000000000000)); ("polarize", LNum (0 # 1)); ("zrot", LNum (2 # 1)); ("geometry", LTxt "nonlinear")]%Q.
(** speciesLibrary.yaml:665-695: CH3OH *)
Definition sp22 : list (string * lval) := [("comp", LMap [("C", (1 # 1)); ("H", (4 # 1)); ("O", (1 # 1))]); ("MW", LNum (32042 # 1000)); ("cp0", LNum (13741305070549658 # 10000000000000)); ("mu0", LNum (9669528132369934 # 1000000000000000000000)); ("kappa0", LNum (1787507836081326 # 100000000000000000)); ("NASA7", LLst [(1000 # 1); (178970791 # 100000000); (140938292 # 10000000000); ((-636500835) # 100000000000000); (138171085 # 100000000000000000); ((-11706022) # 100000000000000000000); ((-253748747) # 10000); (145023623 # 10000000); (571539582 # 100000000); ((-152309129) # 10000000000); (652441155 # 10000000000000); ((-710806889) # 10000000000000000); (261352698 # 10000000000000000000); ((-256427656) # 10000); ((-150409823) # 100000000)]); ("well", LNum (6651966882000001 # 1000000000000000000000000000000000000)); ("diam", LNum (3626 # 10000000000000)); ("dipole", LNum (0 # 1)); ("polarize", LNum (0 # 1)); ("zrot", LNum (1 # 1)); ("geometry", LTxt "nonlinear")]%Q.
(** speciesLibrary.yaml:697-726: C2H *)
Definition sp23 : list (string * lval) := [("comp", LMap [("C", (2 # 1)); ("H", (1 # 1))]); ("MW", LNum (25029999999999998 # 1000000000000000)); ("cp0", LNum (16777945057617933 # 10000000000000)); ("mu0", LNum (10196183052449663 # 1000000000000000000000)); ("kappa0", LNum (23455648763614508 # 1000000000000000000)); ("NASA7", LLst [(1000 # 1); (316780652 # 100000000); (475221902 # 100000000000); ((-183787077) # 100000000000000); (304190252 # 1000000000000000000); ((-17723277) # 1000000000000000000000); (67121065 # 1000); (663589475 # 100000000); (288965733 # 100000000); (134099611 # 10000000000); ((-284769501) # 10000000000000); (294791045 # 10000000000000000); ((-109331511) # 10000000000000000000); (668393932 # 10000); (622296438 # 100000000)]); ("well", LNum (288555641 # 100000000000000000000000000000)); ("diam", LNum (41 # 100000000000)); ("dipole", LNum (0 # 1)); ("polarize", LNum (0 # 1)); ("zrot", LNum (25 # 10)); ("geometry", LTxt "linear")]%Q.
(** speciesLibrary.yaml:728-757: C2H2 *)
Definition sp24 : list (string * lval) := [("comp", LMap [("C", (2 # 1)); ("H", (2 # 1))]); ("MW", LNum (26037999999999997 # 1000000000000000)); ("cp0", LNum (16894296385736766 # 10000000000000)); ("mu0", LNum (1039946530378052 # 100000000000000000000)); ("kappa0", LNum (23972131723208407 # 1000000000000000000)); ("NASA7", LLst [(1000 # 1); (414756964 # 100000000); (596166664 # 100000000000); ((-237294852) # 100000000000000); (467412171 # 1000000000000000000); ((-361235213) # 10000000000000000000000); (259359992 # 10000); ((-123028121) # 100000000); (808681094 # 1000000000); (233615629 # 10000000000); ((-355171815) # 10000000000000); (280152437 # 10000000000000000); ((-850072974) # 100000000000000000000); (264289807 # 10000); (139397051 # 10000000)]); ("well", LNum (288555641 # 100000000000000000000000000000)); ("diam", LNum (41 # 100000000000)); ("dipole", LNum (0 # 1)); ("polarize", LNum (0 # 1)); ("zrot", LNum (25 # 10)); ("geometry", LTxt "linear")]%Q.
(** speciesLibrary.yaml:759-788: C2H3 *)
Definition sp25 : list (string * lval) := [("comp", LMap [("C", (2 # 1)); ("H", (3 # 1))]); ("MW", LNum (27046 # 1000)); ("cp0", LNum (1578694025034645 # 1000000000000)); ("mu0", LNum (10598849388967304 # 1000000000000000000000)); ("kappa0", LNum (22255737111011052 # 1000000000000000000)); ("NASA7", LLst [(1000 # 1); (3016724 # 1000000); (103302292 # 10000000000); ((-468082349) # 100000000000000); (101763288 # 100000000000000000); ((-862607041) # 10000000000000000000000); (346128739 # 10000); (778732378 # 100000000); (321246645 # 100000000); (151479162 # 100000000000); (259209412 # 10000000000000); ((-357657847) # 10000000000000000); (147150873 # 10000000000000000000); (348598468 # 10000); (851054025 # 100000000)]); ("well", LNum (288555641 # 100000000000000000000000000000)); ("diam", LNum (41 # 100000000000)); ("dipole", LNum (0 # 1)); ("polarize", LNum (0 # 1)); ("zrot", LNum (1 # 1)); ("geometry", LTxt "nonlinear")]%Q.
(** speciesLibrary.yaml:790-819: C2H4 *)
Definition sp26 : list (string * lval) := [("comp", LMap [("C", (2 # 1)); ("H", (4 # 1))]); ("MW", LNum (28054 # 1000)); ("cp0", LNum (15282353914737503 # 10000000000000)); ("mu0", LNum (10003462608216788 # 1000000000000000000000)); ("kappa0", LNum (20591295374208642 # 1000000000000000000)); ("NASA7", LLst [(1000 # 1); (203611116 # 100000000); (146454151 # 10000000000); ((-671077915) # 100000000000000); (147222923 # 100000000000000000); ((-125706061) # 1000000000000000000000); (493988614 # 100000); (103053693 # 10000000); (395920148 # 100000000); ((-757052247) # 100000000000); (570990292 # 10000000000000); ((-691588753) # 10000000000000000); (269884373 # 10000000000000000000); (508977593 # 100000); (409733096 # 100000000)]); ("well", LNum (3876862392 # 1000000000000000000000000000000)); ("diam", LNum (3971 # 10000000000000)); ("dipole", LNum (0 # 1)); ("polarize", LNum (0 # 1)); ("zrot", LNum (15 # 10)); ("geometry", LTxt "nonlinear")]%Q.
(** speciesLibrary.yaml:821-850: C2H5 *)
Definition sp27 : list (string * lval) := [("comp", LMap [("C", (2 # 1)); ("H", (5 # 1))]); ("MW", LNum (29061999999999998 # 1000000000000000)); ("cp0", LNum (17365811228483774 # 10000000000000)); ("mu0", LNum (9146338867456107 # 1000000000000000000000)); ("kappa0", LNum (2133773902576118 # 100000000000000000)); ("NASA7", LLst [(1000 # 1); (195465642 # 100000000); (173972722 # 10000000000); ((-798206668) # 100000000000000); (175217689 # 100000000000000000); ((-149641576) # 1000000000000000000000); (1285752 # 100); (134624343 # 10000000); (430646568 # 100000000); ((-418658892) # 100000000000); (497142807 # 10000000000000); ((-599126606) # 10000000000000000); (230509004 # 10000000000000000000); (128416265 # 10000); (470720924 # 100000000)]); ("well", LNum (3483377427000001 # 1000000000000000000000000000000000000)); ("diam", LNum (43019999999999997 # 100000000000000000000000000)); ("dipole", LNum (0 # 1)); ("polarize", LNum (0 # 1)); ("zrot", LNum (15 # 10)); ("geometry", LTxt "nonlinear")]%Q.
(** speciesLibrary.yaml:852-881: C2H6 *)
Definition sp28 : list (string * lval) := [("comp", LMap [("C", (2 # 1)); ("H", (6 # 1))]); ("MW", LNum (3007 # 100)); ("cp0", LNum (17453598093444602 # 10000000000000)); ("mu0", LNum (9303604767737715 # 1000000000000000000000)); ("kappa0", LNum (21824390359670993 # 1000000000000000000)); ("NASA7", LLst [(1000 # 1); (10718815 # 10000000); (216852677 # 10000000000); ((-100256067) # 10000000000000); (221412001 # 100000000000000000); ((-19000289) # 100000000000000000000); ((-114263932) # 10000); (151156107 # 10000000); (429142492 # 100000000); ((-55015427) # 10000000000); (599438288 # 10000000000000); ((-708466285) # 10000000000000000); (268685771 # 10000000000000000000); ((-115222055) # 10000); (266682316 # 100000000)]); ("well", LNum (3483377427000001 # 1000000000000000000000000000000000000)); ("diam", LNum (43019999999999997 # 100000000000000000000000000)); ("dipole", LNum (0 # 1)); ("polarize", LNum (0 # 1)); ("zrot", LNum (15 # 10)); ("geometry", LTxt "nonlinear")]%Q.
(** speciesLibrary.yaml:883-913: HCCO *)
Definition sp29 : list (string * lval) := [("comp", LMap [("C", (2 # 1)); ("H", (1 # 1)); ("O", (1 # 1))]); ("MW", LNum (41028999999999996 # 1000000000000000)); ("cp0", LNum (11800020105706185 # 10000000000000)); ("mu0", LNum (40066798112696936 # 1000000000000000000000)); ("kappa0", LNum (6262083446902555 # 100000000000000000)); ("NASA7", LLst [(1000 # 1); (56282058 # 10000000); (40853401 # 10000000000); ((-15934547) # 10000000000000); (28626052 # 100000000000000000); ((-19407832) # 1000000000000000000000); (19327215 # 1000); ((-39302595) # 10000000); (22517214 # 10000000); (17655021 # 1000000000); ((-23729101) # 1000000000000); (17275759 # 1000000000000000); ((-50664811) # 10000000000000000000); (20059449 # 1000); (12490417 # 1000000)]); ("well", LNum (20709735 # 10000000000000000000000000000)); ("diam", LNum (25 # 100000000000)); ("dipole", LNum (0 # 1)); ("polarize", LNum (0 # 1)); ("zrot", LNum (1 # 1)); ("geometry", LTxt "nonlinear")]%Q.
(** speciesLibrary.yaml:915-945: CH2CO *)
Definition sp30 : list (string * lval) := [("comp", LMap [("C", (2 # 1)); ("H", (2 # 1)); ("O", (1 # 1))]); ("MW", LNum (42037 # 1000)); ("cp0", LNum (12306292643731301 # 10000000000000)); ("mu0", LNum (9732381757926182 # 1000000000000000000000)); ("kappa0", LNum (16248578304248678 # 1000000000000000000)); ("NASA7", LLst [(1000 # 1); (451129732 # 100000000); (900359745 # 100000000000); ((-416939635) # 100000000000000); (923345882 # 1000000000000000000); ((-794838201) # 10000000000000000000000); ((-755105311) # 100000); (632247205 # 1000000000); (21358363 # 10000000); (181188721 # 10000000000); ((-173947474) # 10000000000000); (934397568 # 100000000000000000); ((-201457615) # 100000000000000000000); ((-704291804) # 100000); (12215648 # 1000000)]); ("well", LNum (601962964 # 100000000000000000000000000000)); ("diam", LNum (397 # 1000000000000)); ("dipole", LNum (0 # 1)); ("polarize", LNum (0 # 1)); ("zrot", LNum (2 # 1)); ("geometry", LTxt "nonlinear")]%Q.
(** speciesLibrary.yaml:947-977: HCCOH *)
Definition sp31 : list (string * lval) := [("comp", LMap [("C", (2 # 1)); ("H", (2 # 1)); ("O", (1 # 1))]); ("MW", LNum (42037 # 1000)); ("cp0", LNum (13876393372629539 # 10000000000000)); ("mu0", LNum (9732381757926182 # 1000000000000000000000)); ("kappa0", LNum (18268105421517338 # 1000000000000000000)); ("NASA7", LLst [(1000 # 1); (59238291 # 10000000); (679236 # 100000000); ((-25658564) # 10000000000000); (44987841 # 100000000000000000); ((-29940101) # 1000000000000000000000); (7264626 # 1000); ((-76017742) # 10000000); (12423733 # 10000000); (31072201 # 1000000000); ((-50866864) # 1000000000000); (43137131 # 1000000000000000); ((-14014594) # 1000000000000000000); (80316143 # 10000); (13874319 # 1000000)]); ("well", LNum (601962964 # 100000000000000000000000000000)); ("diam", LNum (397 # 1000000000000)); ("dipole", LNum (0 # 1)); ("polarize", LNum (0 # 1)); ("zrot", LNum (2 # 1)); ("geometry", LTxt "nonlinear")]%Q.
(** speciesLibrary.yaml:979-1007: N *)
Definition sp32 : list (string * lval) := [("comp", LMap [("N", (1 # 1))]); ("MW", LNum (14007 # 1000)); ("cp0", LNum (14839834757894696 # 10000000000000)); ("mu0", LNum (16498525634050663 # 1000000000000000000000)); ("kappa0", LNum (3676912932615112 # 100000000000000000)); ("NASA7", LLst [(1000 # 1); (24159429 # 10000000); (17489065 # 100000000000); ((-11902369) # 100000000000000); (30226245 # 1000000000000000000); ((-20360982) # 10000000000000000000000); (56133773 # 1000); (46496096 # 10000000); (25 # 10); (0 # 1); (0 # 1); (0 # 1); (0 # 1); (56104637 # 1000); (41939087 # 10000000)]); ("well", LNum (9857833860000001 # 10000000000000000000000000000000000000)); ("diam", LNum (32980000000000004 # 100000000000000000000000000)); ("dipole", LNum (0 # 1)); ("polarize", LNum (0 # 1)); ("zrot", LNum (0 # 1)); ("geometry", LTxt "atom")]%Q.
(** speciesLibrary.yaml:1009-1038: NH *)
Definition sp33 : list (string * lval) := [("comp", LMap [("H", (1 # 1)); ("N", (1 # 1))]); ("MW", LNum (15015 # 1000)); ("cp0", LNum (194424674857783 # 100000000000)); ("mu0", LNum (25806482356354315 # 1000000000000000000000)); ("kappa0", LNum (7055777003808465 # 100000000000000000)); ("NASA7", LLst [(1000 # 1); (27836928 # 10000000); (1329843 # 1000000000); ((-42478047) # 100000000000000); (78348501 # 1000000000000000000); ((-5504447) # 1000000000000000000000); (42120848 # 1000); (57407799 # 10000000); (34929085 # 10000000); (31179198 # 100000000000); ((-14890484) # 10000000000000); (24816442 # 10000000000000000); ((-10356967) # 10000000000000000000); (41880629 # 1000); (18483278 # 10000000)]); ("well", LNum (11045192 # 10000000000000000000000000000)); ("diam", LNum (265 # 1000000000000)); ("dipole", LNum (0 # 1)); ("polarize", LNum (0 # 1)); ("zrot", LNum (4 # 1)); ("geometry", LTxt "linear")]%Q.
(** speciesLibrary.yaml:1040-1069: NH2 *)
Definition sp34 : list (string * lval) := [("comp", LMap [("H", (2 # 1)); ("N", (1 # 1))]); ("MW", LNum (16023 # 1000)); ("cp0", LNum (2112969134311243 # 1000000000000)); ("mu0", LNum (26658644214461224 # 1000000000000000000000)); ("kappa0", LNum (776820811393537 # 10000000000000000)); ("NASA7", LLst [(1000 # 1); (28347421 # 10000000); (32073082 # 10000000000); ((-93390804) # 100000000000000); (13702953 # 100000000000000000); ((-79206144) # 10000000000000000000000); (22171957 # 1000); (65204163 # 10000000); (42040029 # 10000000); ((-21061385) # 10000000000); (71068348 # 10000000000000); ((-56115197) # 10000000000000000); (16440717 # 10000000000000000000); (2188591 # 100); ((-14184248) # 100000000)]); ("well", LNum (11045192 # 10000000000000000000000000000)); ("diam", LNum (265 # 1000000000000)); ("dipole", LNum (0 # 1)); ("polarize", LNum (226 # 100000000000000000000000000000000)); ("zrot", LNum (4 # 1)); ("geometry", LTxt "nonlinear")]%Q.
(** speciesLibrary.yaml:1071-1104: NH3 *)
Definition sp35 : list (string * lval) := [("comp", LMap [("H", (3 # 1)); ("N", (1 # 1))]); ("MW", LNum (17031 # 1000)); ("cp0", LNum (2093113556786506 # 1000000000000)); ("mu0", LNum (10346410651534449 # 1000000000000000000000)); ("kappa0", LNum (30175072003983144 # 1000000000000000000)); ("NASA7", LLst [(1000 # 1); (26344521 # 10000000); (5666256 # 1000000000); ((-17278676) # 10000000000000); (23867161 # 100000000000000000); ((-12578786) # 1000000000000000000000); ((-65446958) # 10000); (65662928 # 10000000); (42860274 # 10000000); ((-4660523) # 1000000000); (21718513 # 1000000000000); ((-22808887) # 1000000000000000); (82638046 # 10000000000000000000); ((-67417285) # 10000); ((-62537277) # 100000000)]); ("well", LNum (66409216900000005 # 10000000000000000000000000000000000000)); ("diam", LNum (292 # 1000000000000)); ("dipole", LNum (49033921994128345 # 10000000000000000000000000000000000000000000000)); ("polarize", LNum (0 # 1)); ("zrot", LNum (10 # 1)); ("acentric", LNum (256 # 1000)); ("geometry", LTxt "nonlinear"); ("Tcrit", LNum (4055 # 10)); ("pcrit", LNum (112800000 # 1)); ("Vcrit", LNum (4251071575362575 # 1000000000000000000))]%Q.
(** speciesLibrary.yaml:1106-1135: NNH *)
Definition sp36 : list (string * lval) := [("comp", LMap [("H", (1 # 1)); ("N", (2 # 1))]); ("MW", LNum (29022 # 1000)); ("cp0", LNum (11942408983644514 # 10000000000000)); ("mu0", LNum (17907197448112144 # 1000000000000000000000)); ("kappa0", LNum (28492394692086358 # 1000000000000000000)); ("NASA7", LLst [(1000 # 1); (37667544 # 10000000); (28915082 # 10000000000); ((-1041662) # 1000000000000); (16842594 # 100000000000000000); ((-10091896) # 1000000000000000000000); (28650697 # 1000); (44705067 # 10000000); (43446927 # 10000000); ((-48497072) # 10000000000); (20059459 # 1000000000000); ((-21726464) # 1000000000000000); (79469539 # 10000000000000000000); (28791973 # 1000); (2977941 # 1000000)]); ("well", LNum (9857833860000001 # 10000000000000000000000000000000000000)); ("diam", LNum (3798 # 10000000000000)); ("dipole", LNum (0 # 1)); ("polarize", LNum (0 # 1)); ("zrot", LNum (1 # 1)); ("geometry", LTxt "nonlinear")]%Q.
(** speciesLibrary.yaml:1137-1167: NO *)
Definition sp37 : list (string * lval) := [("comp", LMap [("N", (1 # 1)); ("O", (1 # 1))]); ("MW", LNum (30006 # 1000)); ("cp0", LNum (9952056857026475 # 10000000000000)); ("mu0", LNum (186227535071271 # 10000000000000000000)); ("kappa0", LNum (26018384081936036 # 1000000000000000000)); ("NASA7", LLst [(1000 # 1); (32606056 # 10000000); (11911043 # 10000000000); ((-42917048) # 100000000000000); (69457669 # 1000000000000000000); ((-40336099) # 10000000000000000000000); (99209746 # 10000); (63693027 # 10000000); (42184763 # 10000000); ((-4638976) # 1000000000); (11041022 # 1000000000000); ((-93361354) # 10000000000000000); (2803577 # 1000000000000000000); (9844623 # 1000); (22808464 # 10000000)]); ("well", LNum (13465469697000001 # 10000000000000000000000000000000000000)); ("diam", LNum (3621 # 10000000000000)); ("dipole", LNum (0 # 1)); ("polarize", LNum (176 # 100000000000000000000000000000000)); ("zrot", LNum (4 # 1)); ("acentric", LNum (588 # 1000)); ("geometry", LTxt "linear")]%Q.
(** speciesLibrary.yaml:1169-1198: NO2 *)
Definition sp38 : list (string * lval) := [("comp", LMap [("N", (1 # 1)); ("O", (2 # 1))]); ("MW", LNum (46005 # 1000)); ("cp0", LNum (8080036174651137 # 10000000000000)); ("mu0", LNum (19335798693458542 # 1000000000000000000000)); ("kappa0", LNum (20826863012706195 # 1000000000000000000)); ("NASA7", LLst [(1000 # 1); (48847542 # 10000000); (21723956 # 10000000000); ((-82806906) # 100000000000000); (1574751 # 10000000000000000); ((-10510895) # 1000000000000000000000); (23164983 # 10000); ((-11741695) # 100000000); (39440312 # 10000000); ((-1585429) # 1000000000); (16657812 # 1000000000000); ((-20475426) # 1000000000000000); (78350564 # 10000000000000000000); (28966179 # 10000); (63119917 # 10000000)]); ("well", LNum (27612980000000003 # 10000000000000000000000000000000000000)); ("diam", LNum (35000000000000003 # 100000000000000000000000000)); ("dipole", LNum (0 # 1)); ("polarize", LNum (0 # 1)); ("zrot", LNum (1 # 1)); ("geometry", LTxt "nonlinear")]%Q.
(** speciesLibrary.yaml:1200-1229: N2O *)
Definition sp39 : list (string * lval) := [("comp", LMap [("N", (2 # 1)); ("O", (1 # 1))]); ("MW", LNum (44013 # 1000)); ("cp0", LNum (8774832997109723 # 10000000000000)); ("mu0", LNum (1478111051661468 # 100000000000000000000)); ("kappa0", LNum (1754690187534096 # 100000000000000000)); ("NASA7", LLst [(1000 # 1); (48230729 # 10000000); (26270251 # 10000000000); ((-95850874) # 100000000000000); (16000712 # 100000000000000000); ((-97752303) # 10000000000000000000000); (80734048 # 10000); ((-22017207) # 10000000); (22571502 # 10000000); (11304728 # 1000000000); ((-13671319) # 1000000000000); (96819806 # 10000000000000000); ((-29307182) # 10000000000000000000); (87417744 # 10000); (10757992 # 1000000)]); ("well", LNum (32086282760000005 # 10000000000000000000000000000000000000)); ("diam", LNum (3828 # 10000000000000)); ("dipole", LNum (0 # 1)); ("polarize", LNum (0 # 1)); ("zrot", LNum (1 # 1)); ("geometry", LTxt "linear")]%Q.
(** speciesLibrary.yaml:1231-1261: HNO *)
Definition sp40 : list (string * lval) := [("comp", LMap [("H", (1 # 1)); ("N", (1 # 1)); ("O", (1 # 1))]); ("MW", LNum (31014000000000003 # 1000000000000000)); ("cp0", LNum (10923659764762795 # 10000000000000)); ("mu0", LNum (19370398556381968 # 1000000000000000000000)); ("kappa0", LNum (2807098907144996 # 100000000000000000)); ("NASA7", LLst [(1000 # 1); (29792509 # 10000000); (34944059 # 10000000000); ((-78549778) # 100000000000000); (57479594 # 1000000000000000000); ((-19335916) # 100000000000000000000000); (11750582 # 1000); (86063728 # 10000000); (45334916 # 10000000); ((-56696171) # 10000000000); (18473207 # 1000000000000); ((-17137094) # 1000000000000000); (55454573 # 10000000000000000000); (11548297 # 1000); (17498417 # 10000000)]); ("well", LNum (16112173830000002 # 10000000000000000000000000000000000000)); ("diam", LNum (3492 # 10000000000000)); ("dipole", LNum (0 # 1)); ("polarize", LNum (0 # 1)); ("zrot", LNum (1 # 1)); ("geometry", LTxt "nonlinear")]%Q.
(** speciesLibrary.yaml:1263-1292: CN *)
Definition sp41 : list (string * lval) := [("comp", LMap [("C", (1 # 1)); ("N", (1 # 1))]); ("MW", LNum (26018 # 1000)); ("cp0", LNum (1120593360203952 # 1000000000000)); ("mu0", LNum (16277161939129953 # 1000000000000000000000)); ("kappa0", LNum (24865419298003642 # 1000000000000000000)); ("NASA7", LLst [(1000 # 1); (37459805 # 10000000); (43450775 # 1000000000000); (29705984 # 100000000000000); ((-68651806) # 1000000000000000000); (44134173 # 10000000000000000000000); (51536188 # 1000); (27867601 # 10000000); (36129351 # 10000000); ((-95551327) # 100000000000); (21442977 # 10000000000000); ((-31516323) # 100000000000000000); ((-46430356) # 100000000000000000000); (5170834 # 100); (39804995 # 10000000)]); ("well", LNum (103548675 # 100000000000000000000000000000)); ("diam", LNum (3856 # 10000000000000)); ("dipole", LNum (0 # 1)); ("polarize", LNum (0 # 1)); ("zrot", LNum (1 # 1)); ("geometry", LTxt "linear")]%Q.
(** speciesLibrary.yaml:1294-1324: HCN *)
Definition sp42 : list (string * lval) := [("comp", LMap [("C", (1 # 1)); ("H", (1 # 1)); ("N", (1 # 1))]); ("MW", LNum (27025999999999996 # 1000000000000000)); ("cp0", LNum (13265417905736913 # 10000000000000)); ("mu0", LNum (8149506865433864 # 1000000000000000000000)); ("kappa0", LNum (14686749053470567 # 1000000000000000000)); ("NASA7", LLst [(1000 # 1); (38022392 # 10000000); (31464228 # 10000000000); ((-10632185) # 10000000000000); (16619757 # 100000000000000000); ((-9799757) # 1000000000000000000000); (14407292 # 1000); (15754601 # 10000000); (22589886 # 10000000); (1005117 # 100000000); ((-13351763) # 1000000000000); (10092349 # 1000000000000000); ((-30089028) # 10000000000000000000); (14712633 # 1000); (89164419 # 10000000)]); ("well", LNum (7855892810000001 # 1000000000000000000000000000000000000)); ("diam", LNum (363 # 1000000000000)); ("dipole", LNum (0 # 1)); ("polarize", LNum (0 # 1)); ("zrot", LNum (1 # 1)); ("geometry", LTxt "linear")]%Q.
(** speciesLibrary.yaml:1326-1356: H2CN *)
Definition sp43 : list (string * lval) := [("comp", LMap [("C", (1 # 1)); ("H", (2 # 1)); ("N", (1 # 1))]); ("MW", LNum (28034 # 1000)); ("cp0", LNum (13640439493455133 # 10000000000000)); ("mu0", LNum (8300093376548564 # 1000000000000000000000)); ("kappa0", LNum (15414562275584368 # 1000000000000000000)); ("NASA7", LLst [(1000 # 1); (5209703 # 1000000); (29692911 # 10000000000); ((-28555891) # 100000000000000); ((-163555) # 1000000000000000); (30432589 # 1000000000000000000000); (27677109 # 1000); ((-4444478) # 1000000); (2851661 # 1000000); (56952331 # 10000000000); (107114 # 100000000000); ((-1622612) # 1000000000000000); ((-23511081) # 100000000000000000000); (2863782 # 100); (89927511 # 10000000)]); ("well", LNum (7855892810000001 # 1000000000000000000000000000000000000)); ("diam", LNum (363 # 1000000000000)); ("dipole", LNum (0 # 1)); ("polarize", LNum (0 # 1)); ("zrot", LNum (1 # 1)); ("geometry", LTxt "linear")]%Q.
(** speciesLibrary.yaml:1358-1388: HCNN *)
Definition sp44 : list (string * lval) := [("comp", LMap [("C", (1 # 1)); ("H", (1 # 1)); ("N", (2 # 1))]); ("MW", LNum (41033 # 1000)); ("cp0", LNum (11965191505925457 # 10000000000000)); ("mu0", LNum (4006875116159249 # 100000000000000000000)); ("kappa0", LNum (6349294105060001 # 100000000000000000)); ("NASA7", LLst [(1000 # 1); (58946362 # 10000000); (39895959 # 10000000000); ((-1598238) # 1000000000000); (29249395 # 100000000000000000); ((-20094686) # 1000000000000000000000); (53452941 # 1000); ((-51030502) # 10000000); (25243194 # 10000000); (15960619 # 1000000000); ((-18816354) # 1000000000000); (1212554 # 100000000000000); ((-32357378) # 10000000000000000000); (54261984 # 1000); (1167587 # 100000)]); ("well", LNum (20709735 # 10000000000000000000000000000)); ("diam", LNum (25 # 100000000000)); ("dipole", LNum (0 # 1)); ("polarize", LNum (0 # 1)); ("zrot", LNum (1 # 1)); ("geometry", LTxt "nonlinear")]%Q.
(** speciesLibrary.yaml:1390-1421: HCNO *)
Definition sp45 : list (string * lval) := [("comp", LMap [("C", (1 # 1)); ("H", (1 # 1)); ("N", (1 # 1)); ("O", (1 # 1))]); ("MW", LNum (43025 # 1000)); ("cp0", LNum (10874349717880602 # 10000000000000)); ("mu0", LNum (14614266333904593 # 1000000000000000000000)); ("kappa0", LNum (21206497992038886 # 1000000000000000000)); ("NASA7", LLst [(1382 # 1); (659860456 # 100000000); (302778626 # 100000000000); ((-107704346) # 100000000000000); (171666528 # 1000000000000000000); ((-101439391) # 10000000000000000000000); (179661339 # 10000); ((-103306599) # 10000000); (264727989 # 100000000); (127505342 # 10000000000); ((-104794236) # 10000000000000); (441432836 # 100000000000000000); ((-757521466) # 1000000000000000000000); (192990252 # 10000); (107332972 # 10000000)]); ("well", LNum (32086282760000005 # 10000000000000000000000000000000000000)); ("diam", LNum (3828 # 10000000000000)); ("dipole", LNum (0 # 1)); ("polarize", LNum (0 # 1)); ("zrot", LNum (1 # 1)); ("geometry", LTxt "nonlinear")]%Q.
(** speciesLibrary.yaml:1423-1454: HOCN *)
Definition sp46 : list (string * lval) := [("comp", LMap [("C", (1 # 1)); ("H", (1 # 1)); ("N", (1 # 1)); ("O", (1 # 1))]); ("MW", LNum (43025 # 1000)); ("cp0", LNum (10757236917725124 # 10000000000000)); ("mu0", LNum (14614266333904593 # 1000000000000000000000)); ("kappa0", LNum (21013603924223464 # 1000000000000000000)); ("NASA7", LLst [(1368 # 1); (589784885 # 100000000); (316789393 # 100000000000); ((-111801064) # 100000000000000); (177243144 # 1000000000000000000); ((-104339177) # 10000000000000000000000); ((-370653331) # 100000); ((-618167825) # 100000000); (378604952 # 100000000); (688667922 # 100000000000); ((-321487864) # 100000000000000); (517195767 # 1000000000000000000); (119360788 # 10000000000000000000000); ((-2826984) # 1000); (563292162 # 100000000)]); ("well", LNum (32086282760000005 # 10000000000000000000000000000000000000)); ("diam", LNum (3828 # 10000000000000)); ("dipole", LNum (0 # 1)); ("polarize", LNum (0 # 1)); ("zrot", LNum (1 # 1)); ("geometry", LTxt "nonlinear")]%Q.
(** speciesLibrary.yaml:1456-1487: HNCO *)
Definition sp47 : list (string * lval) := [("comp", LMap [("C", (1 # 1)); ("H", (1 # 1)); ("N", (1 # 1)); ("O", (1 # 1))]); ("MW", LNum (43025 # 1000)); ("cp0", LNum (10802606092159108 # 10000000000000)); ("mu0", LNum (14614266333904593 # 1000000000000000000000)); ("kappa0", LNum (21119336902649975 # 1000000000000000000)); ("NASA7", LLst [(1478 # 1); (622395134 # 100000000); (317864004 # 100000000000); ((-109378755) # 100000000000000); (170735163 # 1000000000000000000); ((-995021955) # 100000000000000000000000); ((-166599344) # 10000); ((-838224741) # 100000000); (363096317 # 100000000); (730282357 # 100000000000); ((-228050003) # 100000000000000); ((-661271298) # 1000000000000000000); (362235752 # 1000000000000000000000); ((-155873636) # 10000); (619457727 # 100000000)]); ("well", LNum (32086282760000005 # 10000000000000000000000000000000000000)); ("diam", LNum (3828 # 10000000000000)); ("dipole", LNum (0 # 1)); ("polarize", LNum (0 # 1)); ("zrot", LNum (1 # 1)); ("geometry", LTxt "nonlinear")]%Q.
(** speciesLibrary.yaml:1489-1519: NCO *)
Definition sp48 : list (string * lval) := [("comp", LMap [("C", (1 # 1)); ("N", (1 # 1)); ("O", (1 # 1))]); ("MW", LNum (42016999999999996 # 1000000000000000)); ("cp0", LNum (9543272634153016 # 10000000000000)); ("mu0", LNum (1444205845909378 # 100000000000000000000)); ("kappa0", LNum (18630301969668056 # 1000000000000000000)); ("NASA7", LLst [(1000 # 1); (51521845 # 10000000); (23051761 # 10000000000); ((-88033153) # 100000000000000); (14789098 # 100000000000000000); ((-90977996) # 10000000000000000000000); (14004123 # 1000); ((-2544266) # 1000000); (28269308 # 10000000); (88051688 # 10000000000); ((-83866134) # 10000000000000); (48016964 # 10000000000000000); ((-13313595) # 10000000000000000000); (14682477 # 1000); (95504646 # 10000000)]); ("well", LNum (32086282760000005 # 10000000000000000000000000000000000000)); ("diam", LNum (3828 # 10000000000000)); ("dipole", LNum (0 # 1)); ("polarize", LNum (0 # 1)); ("zrot", LNum (1 # 1)); ("geometry", LTxt "linear")]%Q.
(** speciesLibrary.yaml:1521-1553: N2 *)
Definition sp49 : list (string * lval) := [("comp", LMap [("N", (2 # 1))]); ("MW", LNum (28014 # 1000)); ("cp0", LNum (10377190560234544 # 10000000000000)); ("mu0", LNum (17993987092996186 # 1000000000000000000000)); ("kappa0", LNum (26323228599688553 # 1000000000000000000)); ("NASA7", LLst [(1000 # 1); (292664 # 100000); (14879768 # 10000000000); ((-568476) # 1000000000000); (10097038 # 100000000000000000); ((-6753351) # 1000000000000000000000); ((-9227977) # 10000); (5980528 # 1000000); (3298677 # 1000000); (14082404 # 10000000000); ((-3963222) # 1000000000000); (5641515 # 1000000000000000); ((-2444854) # 1000000000000000000); ((-10208999) # 10000); (3950372 # 1000000)]); ("well", LNum (13465469697000001 # 10000000000000000000000000000000000000)); ("diam", LNum (3621 # 10000000000000)); ("dipole", LNum (0 # 1)); ("polarize", LNum (176 # 100000000000000000000000000000000)); ("zrot", LNum (4 # 1)); ("geometry", LTxt "linear"); ("acentric", LNum (372 # 10000)); ("Tcrit", LNum (1262 # 10)); ("pcrit", LNum (3395800 # 1)); ("Vcrit", LNum (31770509827439724 # 10000000000000000000))]%Q.
(** speciesLibrary.yaml:1555-1585: AR *)
Definition sp50 : list (string * lval) := [("comp", LMap [("Ar", (1 # 1))]); ("MW", LNum (3995 # 100)); ("cp0", LNum (52030429400208 # 100000000000)); ("mu0", LNum (23013561350202776 # 1000000000000000000000)); ("kappa0", LNum (17959224050034837 # 1000000000000000000)); ("NASA7", LLst [(1000 # 1); (25 # 10); (0 # 1); (0 # 1); (0 # 1); (0 # 1); ((-745375) # 1000); (4366 # 1000); (25 # 10); (0 # 1); (0 # 1); (0 # 1); (0 # 1); ((-745375) # 1000); (4366 # 1000)]); ("well", LNum (1884585885 # 1000000000000000000000000000000)); ("diam", LNum (33300000000000004 # 100000000000000000000000000)); ("dipole", LNum (0 # 1)); ("polarize", LNum (0 # 1)); ("zrot", LNum (0 # 1)); ("geometry", LTxt "atom"); ("Tcrit", LNum (15086 # 100)); ("pcrit", LNum (4898000 # 1))]%Q.
(** speciesLibrary.yaml:1587-1616: C3H7 *)
Definition sp51 : list (string * lval) := [("comp", LMap [("C", (3 # 1)); ("H", (7 # 1))]); ("MW", LNum (43089 # 1000)); ("cp0", LNum (16524146601517182 # 10000000000000)); ("mu0", LNum (8080081290495225 # 1000000000000000000000)); ("kappa0", LNum (1779071803407767 # 100000000000000000)); ("NASA7", LLst [(1000 # 1); (77026987 # 10000000); (16044203 # 1000000000); ((-5283322) # 1000000000000); (7629859 # 10000000000000000); ((-39392284) # 1000000000000000000000); (82984336 # 10000); ((-1548018) # 100000); (10515518 # 10000000); (2599198 # 100000000); (2380054 # 1000000000000); ((-19609569) # 1000000000000000); (9373247 # 1000000000000000000); (10631863 # 1000); (21122559 # 1000000)]); ("well", LNum (3683571532000001 # 1000000000000000000000000000000000000)); ("diam", LNum (4982 # 10000000000000)); ("dipole", LNum (0 # 1)); ("polarize", LNum (0 # 1)); ("zrot", LNum (1 # 1)); ("geometry", LTxt "nonlinear")]%Q.
(** speciesLibrary.yaml:1618-1647: C3H8 *)
Definition sp52 : list (string * lval) := [("comp", LMap [("C", (3 # 1)); ("H", (8 # 1))]); ("MW", LNum (44097 # 1000)); ("cp0", LNum (16674828938213873 # 10000000000000)); ("mu0", LNum (8174045385854268 # 1000000000000000000000)); ("kappa0", LNum (18183502481322843 # 1000000000000000000)); ("NASA7", LLst [(1000 # 1); (75341368 # 10000000); (18872239 # 1000000000); ((-62718491) # 10000000000000); (91475649 # 100000000000000000); ((-47838069) # 1000000000000000000000); ((-16467516) # 1000); ((-17892349) # 1000000); (93355381 # 100000000); (26424579 # 1000000000); (61059727 # 10000000000000); ((-21977499) # 1000000000000000); (95149253 # 10000000000000000000); ((-1395852) # 100); (19201691 # 1000000)]); ("well", LNum (3683571532000001 # 1000000000000000000000000000000000000)); ("diam", LNum (4982 # 10000000000000)); ("dipole", LNum (0 # 1)); ("polarize", LNum (0 # 1)); ("zrot", LNum (1 # 1)); ("geometry", LTxt "nonlinear")]%Q.
(** speciesLibrary.yaml:1649-1679: CH2CHO *)
Definition sp53 : list (string * lval) := [("comp", LMap [("C", (2 # 1)); ("H", (3 # 1)); ("O", (1 # 1))]); ("MW", LNum (43045 # 1000)); ("cp0", LNum (1276828703823406 # 1000000000000)); ("mu0", LNum (9848376308889361 # 1000000000000000000000)); ("kappa0", LNum (1706781708732174 # 100000000000000000)); ("NASA7", LLst [(1000 # 1); (597567 # 100000); (8130591 # 1000000000); ((-2743624) # 1000000000000); (4070304 # 10000000000000000); ((-2176017) # 100000000000000000000); (4903218 # 10000); ((-5045251) # 1000000); (3409062 # 1000000); (10738574 # 1000000000); (1891492 # 1000000000000); ((-7158583) # 1000000000000000); (2867385 # 1000000000000000000); (15214766 # 10000); (955829 # 100000)]); ("well", LNum (601962964 # 100000000000000000000000000000)); ("diam", LNum (397 # 1000000000000)); ("dipole", LNum (0 # 1)); ("polarize", LNum (0 # 1)); ("zrot", LNum (2 # 1)); ("geometry", LTxt "nonlinear")]%Q.
(** speciesLibrary.yaml:1681-1711: CH3CHO *)
Definition sp54 : list (string * lval) := [("comp", LMap [("C", (2 # 1)); ("H", (4 # 1)); ("O", (1 # 1))]); ("MW", LNum (44053 # 1000)); ("cp0", LNum (12553968974044278 # 10000000000000)); ("mu0", LNum (9963020483809931 # 1000000000000000000000)); ("kappa0", LNum (1696169033315525 # 100000000000000000)); ("NASA7", LLst [(1000 # 1); (54041108 # 10000000); (11723059 # 1000000000); ((-42263137) # 10000000000000); (68372451 # 100000000000000000); ((-40984863) # 1000000000000000000000); ((-22593122) # 1000); ((-34807917) # 10000000); (47294595 # 10000000); ((-31932858) # 10000000000); (47534921 # 1000000000000); ((-57458611) # 1000000000000000); (21931112 # 1000000000000000000); ((-21572878) # 1000); (41030159 # 10000000)]); ("well", LNum (601962964 # 100000000000000000000000000000)); ("diam", LNum (397 # 1000000000000)); ("dipole", LNum (0 # 1)); ("polarize", LNum (0 # 1)); ("zrot", LNum (2 # 1)); ("geometry", LTxt "nonlinear")]%Q.
(** speciesLibrary.yaml:1713-1738: SF6 *)
Definition sp55 : list (string * lval) := [("comp", LMap [("S", (1 # 1)); ("F", (6 # 1))]); ("MW", LNum (146980338 # 1000000)); ("cp0", LNum (6599522175544325 # 10000000000000)); ("mu0", LNum (1523 # 10000000)); ("kappa0", LNum (1435 # 100000)); ("NASA7", LLst [(1000 # 1); (1516295 # 100000); (43842318 # 10000000000); ((-19486337) # 10000000000000); (38247196 # 100000000000000000); ((-2760505) # 100000000000000000000); ((-15226801) # 100); ((-544157194) # 10000000); ((-38388088) # 10000000); (83221721 # 1000000000); ((-13181689) # 100000000000); (99636154 # 1000000000000000); ((-29248767) # 1000000000000000000); ((-14836477) # 100); (371611426 # 10000000)]); ("Tcrit", LNum (4551 # 100)); ("pcrit", LTxt "2.749e6")]%Q.
(** the species, in the order of the file *)
Definition library : list (string * list (string * lval)) := [("DB", sp0); ("Air", sp1); ("H2", sp2); ("H", sp3); ("O", sp4); ("O2", sp5); ("OH", sp6); ("H2O", sp7); ("HO2", sp8); ("H2O2", sp9); ("C", sp10); ("CH", sp11); ("CH2", sp12); ("CH2(S)", sp13); ("CH3", sp14); ("CH4", sp15); ("CO", sp16); ("CO2", sp17); ("HCO", sp18); ("CH2O", sp19); ("CH2OH", sp20); ("CH3O", sp21); ("CH3OH", sp22); ("C2H", sp23); ("C2H2", sp24); ("C2H3", sp25); ("C2H4", sp26); ("C2H5", sp27); ("C2H6", sp28); ("HCCO", sp29); ("CH2CO", sp30); ("HCCOH", sp31); ("N", sp32); ("NH", sp33); ("NH2", sp34); ("NH3", sp35); ("NNH", sp36); ("NO", sp37); ("NO2", sp38); ("N2O", sp39); ("HNO", sp40); ("CN", sp41); ("HCN", sp42); ("H2CN", sp43); ("HCNN", sp44); ("HCNO", sp45); ("HOCN", sp46); ("HNCO", sp47); ("NCO", sp48); ("N2", sp49); ("AR", sp50); ("C3H7", sp51); ("C3H8", sp52); ("CH2CHO", sp53); ("CH3CHO", sp54); ("SF6", sp55)].
(** the document in the vocabulary of M_Species *)
Definition toVal (v : lval) : val := match v with LNum q => VN (Q2R q) | LTxt s => VS s | LLst l => VL (map (fun q => VN (Q2R q)) l) | LMap _ => VDict end.
(** thtrdat.py:66-68: refsp *)
Definition refsp : spDoc := (map (fun e => (fst e, SpOther)) libConstants ++ map (fun e => (fst e, SpDict (map (fun kv => (fst kv, toVal (snd kv))) (snd e)))) library)%list.
