(** Tables of the mechanism in src/compute/chemistry/chem_CH4_O2_FFCMY.cpp: transcribed by tools/chemtables.py, which stops at any statement it does not recognise.  Definitions only. *)
From Coq Require Import ZArith List.
From Verif Require Import M_Chem.
Import ListNotations.
Open Scope Z_scope.

(** the species (chem_CH4_O2_FFCMY.cpp:14-25): 0:H2 1:H 2:O2 3:O 4:OH 5:HO2 6:H2O 7:CH3 8:CH4 9:CO 10:CH2O 11:CO2 *)
Definition ffcmy_ns : Z := 12.
(** the reactions (chem_CH4_O2_FFCMY.cpp:150-557) *)
Definition ffcmy_reactions : list reac := [
  (* 0: lines 150-155 *) mkReac (Arr (D 10900000000000002 (-5)) (D 0 0) (D 7704291057866103 (-12))) (Plain) [(1, (-1)); (2, (-1)); (3, 1); (4, 1)] 0 [(1, 1); (2, 1)] [(3, 1); (4, 1)] true;
  (* 1: lines 158-163 *) mkReac (Arr (D 38200000000000005 (-7)) (D 0 0) (D 40005952913151878 (-13))) (Plain) [(0, (-1)); (1, 1); (3, (-1)); (4, 1)] 0 [(0, 1); (3, 1)] [(1, 1); (4, 1)] true;
  (* 2: lines 166-171 *) mkReac (Arr (D 8790000000000001 (-4)) (D 0 0) (D 9651750652506327 (-12))) (Plain) [(0, (-1)); (1, 1); (3, (-1)); (4, 1)] 0 [(0, 1); (3, 1)] [(1, 1); (4, 1)] true;
  (* 3: lines 174-180 *) mkReac (Arr (D 21600000000000003 (-11)) (D 151 (-2)) (D 17295655366352578 (-13))) (Plain) [(0, (-1)); (1, 1); (4, (-1)); (6, 1)] 0 [(0, 1); (4, 1)] [(1, 1); (6, 1)] true;
  (* 4: lines 183-189 *) mkReac (Arr (D 3350000000000001 (-14)) (D 242 (-2)) (D (-9702072605856204) (-13))) (Plain) [(3, 1); (4, (-2)); (6, 1)] 0 [(4, 2)] [(3, 1); (6, 1)] true;
  (* 5: lines 192-203 *) mkReac (Arr (D 4580000000000001 1) (D (-14) (-1)) (D 5253108710193616 (-11))) (Third [(0, D 25 (-1)); (1, D 1 0); (2, D 1 0); (3, D 1 0); (4, D 1 0); (5, D 1 0); (6, D 12 0); (7, D 1 0); (8, D 2 0); (9, D 19 (-1)); (10, D 25 (-1)); (11, D 38 (-1))]) [(0, (-1)); (1, 2)] 1 [(0, 1)] [(1, 2)] true;
  (* 6: lines 206-216 *) mkReac (Arr (D 4710000000000001 (-3)) (D (-1) 0) (D 0 0)) (Third [(0, D 25 (-1)); (1, D 1 0); (2, D 1 0); (3, D 1 0); (4, D 1 0); (5, D 1 0); (6, D 12 0); (7, D 1 0); (8, D 2 0); (9, D 19 (-1)); (10, D 25 (-1)); (11, D 38 (-1))]) [(1, (-1)); (3, (-1)); (4, 1)] (-1) [(1, 1); (3, 1)] [(4, 1)] true;
  (* 7: lines 219-230 *) mkReac (Arr (D 6060000000000001 9) (D (-3322) (-3)) (D 607889196466509 (-10))) (Third [(0, D 3 0); (1, D 1 0); (2, D 15 (-1)); (3, D 1 0); (4, D 1 0); (5, D 1 0); (7, D 1 0); (8, D 7 0); (9, D 19 (-1)); (10, D 25 (-1)); (11, D 38 (-1))]) [(1, 1); (4, 1); (6, (-1))] 1 [(6, 1)] [(1, 1); (4, 1)] true;
  (* 8: lines 233-242 *) mkReac (Arr (D 10100000000000001 7) (D (-244) (-2)) (D 6048698792655164 (-11))) (Third [(6, D 1 0)]) [(1, 1); (4, 1); (6, (-1))] 1 [(6, 1)] [(1, 1); (4, 1)] true;
  (* 9: lines 245-267 *) mkReac (Arr (D 4650000000000001 (-6)) (D 44 (-2)) (D 0 0)) (Troe [(0, D 2 0); (1, D 1 0); (2, D 78 (-2)); (3, D 1 0); (4, D 1 0); (5, D 1 0); (6, D 14 0); (7, D 1 0); (8, D 2 0); (9, D 19 (-1)); (10, D 25 (-1)); (11, D 38 (-1))] (Arr (D 19100000000000002 (-1)) (D (-172) (-2)) (D 264190255086852 (-12))) (D 5 (-1)) (D 3 1) (D 9 4) (D 9 4)) [(1, (-1)); (2, (-1)); (5, 1)] (-1) [(1, 1); (2, 1)] [(5, 1)] true;
  (* 10: lines 270-276 *) mkReac (Arr (D 36800000000000005 (-13)) (D 2087 (-3)) (D (-7321844212407042) (-13))) (Plain) [(0, 1); (1, (-1)); (2, 1); (5, (-1))] 0 [(1, 1); (5, 1)] [(0, 1); (2, 1)] true;
  (* 11: lines 279-284 *) mkReac (Arr (D 7080000000000002 (-5)) (D 0 0) (D 15096586004962973 (-14))) (Plain) [(1, (-1)); (4, 2); (5, (-1))] 0 [(1, 1); (5, 1)] [(4, 2)] true;
  (* 12: lines 287-292 *) mkReac (Pow (D 14500000000000002 (-7)) 0) (Plain) [(1, (-1)); (3, 1); (5, (-1)); (6, 1)] 0 [(1, 1); (5, 1)] [(3, 1); (6, 1)] true;
  (* 13: lines 295-300 *) mkReac (Arr (D 16300000000000002 (-6)) (D 0 0) (D (-22393269240695076) (-14))) (Plain) [(2, 1); (3, (-1)); (4, 1); (5, (-1))] 0 [(3, 1); (5, 1)] [(2, 1); (4, 1)] true;
  (* 14: lines 303-308 *) mkReac (Arr (D 7000000000000001 (-6)) (D 0 0) (D (-5500189501141509) (-13))) (Plain) [(2, 1); (4, (-1)); (5, (-1)); (6, 1)] 0 [(4, 1); (5, 1)] [(2, 1); (6, 1)] true;
  (* 15: lines 311-316 *) mkReac (Arr (D 45000000000000006 (-5)) (D 0 0) (D 550018950114151 (-11))) (Plain) [(2, 1); (4, (-1)); (5, (-1)); (6, 1)] 0 [(4, 1); (5, 1)] [(2, 1); (6, 1)] true;
  (* 16: lines 319-336 *) mkReac (Arr (D 10600000000000002 (-6)) (D (-308) (-3)) (D 34938532210819303 (-13))) (Lindemann [(0, D 25 (-1)); (1, D 1 0); (2, D 1 0); (3, D 1 0); (4, D 1 0); (5, D 1 0); (6, D 12 0); (7, D 1 0); (8, D 2 0); (9, D 19 (-1)); (10, D 25 (-1)); (11, D 38 (-1))] (Arr (D 14000000000000002 (-1)) (D (-21) (-1)) (D 27677074342432115 (-13)))) [(3, (-1)); (9, (-1)); (11, 1)] (-1) [(3, 1); (9, 1)] [(11, 1)] true;
  (* 17: lines 339-344 *) mkReac (Arr (D 25300000000000005 (-7)) (D 0 0) (D 24003571747891125 (-12))) (Plain) [(2, (-1)); (3, 1); (9, (-1)); (11, 1)] 0 [(2, 1); (9, 1)] [(3, 1); (11, 1)] true;
  (* 18: lines 347-353 *) mkReac (Arr (D 8460000000000001 (-14)) (D 2053 (-3)) (D (-1791461539255606) (-13))) (Plain) [(1, 1); (4, (-1)); (9, (-1)); (11, 1)] 0 [(4, 1); (9, 1)] [(1, 1); (11, 1)] true;
  (* 19: lines 356-362 *) mkReac (Arr (D 8640000000000002 (-6)) (D (-664) (-3)) (D 16706888512159023 (-14))) (Plain) [(1, 1); (4, (-1)); (9, (-1)); (11, 1)] 0 [(4, 1); (9, 1)] [(1, 1); (11, 1)] true;
  (* 20: lines 365-371 *) mkReac (Arr (D 15700000000000003 (-14)) (D 218 (-2)) (D 9029771309101852 (-12))) (Plain) [(4, 1); (5, (-1)); (9, (-1)); (11, 1)] 0 [(5, 1); (9, 1)] [(4, 1); (11, 1)] true;
  (* 21: lines 374-380 *) mkReac (Arr (D 3070000000000001 (-12)) (D 25 (-1)) (D 38184298201886345 (-13))) (Plain) [(0, 1); (1, (-1)); (7, 1); (8, (-1))] 0 [(1, 1); (8, 1)] [(0, 1); (7, 1)] true;
  (* 22: lines 383-389 *) mkReac (Arr (D 23100000000000003 (-11)) (D 156 (-2)) (D 4269817741737027 (-12))) (Plain) [(3, (-1)); (4, 1); (7, 1); (8, (-1))] 0 [(3, 1); (8, 1)] [(4, 1); (7, 1)] true;
  (* 23: lines 392-398 *) mkReac (Arr (D 10000000000000002 (-13)) (D 2182 (-3)) (D 1230874978937981 (-12))) (Plain) [(4, (-1)); (6, 1); (7, 1); (8, (-1))] 0 [(4, 1); (8, 1)] [(6, 1); (7, 1)] true;
  (* 24: lines 401-422 *) mkReac (Pow (D 14100000000000003 (-5)) 0) (Troe [(0, D 2 0); (1, D 1 0); (2, D 1 0); (3, D 1 0); (4, D 1 0); (5, D 1 0); (6, D 6 0); (7, D 1 0); (8, D 2 0); (9, D 15 (-1)); (10, D 25 (-1)); (11, D 2 0)] (Arr (D 635 27) (D (-557) (-2)) (D 19212921788982876 (-13))) (D 37 (-2)) (D 3315 0) (D 61 0) (D 9 4)) [(1, (-1)); (7, (-1)); (8, 1)] (-1) [(1, 1); (7, 1)] [(8, 1)] true;
  (* 25: lines 425-430 *) mkReac (Pow (D 10800000000000002 (-5)) 0) (Plain) [(1, 1); (3, (-1)); (7, (-1)); (10, 1)] 0 [(3, 1); (7, 1)] [(1, 1); (10, 1)] true;
  (* 26: lines 433-438 *) mkReac (Pow (D 23100000000000004 (-6)) 0) (Plain) [(0, 1); (1, 1); (3, (-1)); (7, (-1)); (9, 1)] 1 [(3, 1); (7, 1)] [(0, 1); (1, 1); (9, 1)] false;
  (* 27: lines 441-447 *) mkReac (Arr (D 11600000000000001 (-14)) (D 235 (-2)) (D (-7659001299851215) (-13))) (Plain) [(2, 1); (5, (-1)); (7, (-1)); (8, 1)] 0 [(5, 1); (7, 1)] [(2, 1); (8, 1)] true;
  (* 28: lines 450-455 *) mkReac (Arr (D 20800000000000004 (-6)) (D 0 0) (D (-2968995247642718) (-13))) (Plain) [(1, 1); (4, 1); (5, (-1)); (7, (-1)); (10, 1)] 1 [(5, 1); (7, 1)] [(1, 1); (4, 1); (10, 1)] false;
  (* 29: lines 458-463 *) mkReac (Arr (D 25100000000000005 (-7)) (D 0 0) (D 14239603139414574 (-12))) (Plain) [(1, 1); (2, (-1)); (3, 1); (7, (-1)); (10, 1)] 1 [(2, 1); (7, 1)] [(1, 1); (3, 1); (10, 1)] false;
  (* 30: lines 466-472 *) mkReac (Arr (D 22800000000000004 (-18)) (D 253 (-2)) (D 49154484032159435 (-13))) (Plain) [(2, (-1)); (4, 1); (7, (-1)); (10, 1)] 0 [(2, 1); (7, 1)] [(4, 1); (10, 1)] true;
  (* 31: lines 475-481 *) mkReac (Arr (D 10600000000000002 (-18)) (D 336 (-2)) (D 21688761893796805 (-13))) (Plain) [(1, 1); (7, (-1)); (8, 1); (9, 1); (10, (-1))] 1 [(7, 1); (10, 1)] [(1, 1); (8, 1); (9, 1)] false;
  (* 32: lines 484-506 *) mkReac (Arr (D 37 12) (D 0 0) (D 36219729143107164 (-12))) (Troe [(0, D 2 0); (1, D 1 0); (2, D 1 0); (3, D 1 0); (4, D 1 0); (5, D 1 0); (6, D 6 0); (7, D 1 0); (8, D 2 0); (9, D 15 (-1)); (10, D 25 (-1)); (11, D 2 0)] (Arr (D 44000000000000005 19) (D (-61) (-1)) (D 47302636148883976 (-12))) (D 932 (-3)) (D 19700000000000003 (-14)) (D 154 1) (D 103 2)) [(0, 1); (9, 1); (10, (-1))] 1 [(10, 1)] [(0, 1); (9, 1)] true;
  (* 33: lines 509-518 *) mkReac (Arr (D 5670000000000001 (-6)) (D 361 (-3)) (D 2319338829895811 (-12))) (Third [(1, D 1 0)]) [(0, 1); (9, 1); (10, (-1))] 1 [(10, 1)] [(0, 1); (9, 1)] false;
  (* 34: lines 521-530 *) mkReac (Arr (D 11400000000000002 (-6)) (D 582 (-3)) (D 7243845184714733 (-12))) (Third [(1, D 1 0)]) [(0, 1); (9, 1); (10, (-1))] 1 [(10, 1)] [(0, 1); (9, 1)] false;
  (* 35: lines 533-539 *) mkReac (Arr (D 41600000000000006 (-8)) (D 57 (-2)) (D 1389892351523591 (-12))) (Plain) [(1, 1); (3, (-1)); (4, 1); (9, 1); (10, (-1))] 1 [(3, 1); (10, 1)] [(1, 1); (4, 1); (9, 1)] false;
  (* 36: lines 542-548 *) mkReac (Arr (D 7820000000000001 (-11)) (D 163 (-2)) (D (-5308966078411978) (-13))) (Plain) [(1, 1); (4, (-1)); (6, 1); (9, 1); (10, (-1))] 1 [(4, 1); (10, 1)] [(1, 1); (6, 1); (9, 1)] false;
  (* 37: lines 551-557 *) mkReac (Arr (D 24400000000000006 (-14)) (D 25 (-1)) (D 18347384191365 (-9))) (Plain) [(1, 1); (2, (-1)); (5, 1); (9, 1); (10, (-1))] 1 [(2, 1); (10, 1)] [(1, 1); (5, 1); (9, 1)] false
].
(** the source terms dYdt[n] / MW(n): coefficient and reaction (chem_CH4_O2_FFCMY.cpp:564-592) *)
Definition ffcmy_sources : list (list (Z * nat)) := [
  (* 0 H2: lines 564-565 *) [((-1), 1%nat); ((-1), 2%nat); ((-1), 3%nat); ((-1), 5%nat); (1, 10%nat); (1, 21%nat); (1, 26%nat); (1, 32%nat); (1, 33%nat); (1, 34%nat)];
  (* 1 H: lines 566-569 *) [((-1), 0%nat); (1, 1%nat); (1, 2%nat); (1, 3%nat); (2, 5%nat); ((-1), 6%nat); (1, 7%nat); (1, 8%nat); ((-1), 9%nat); ((-1), 10%nat); ((-1), 11%nat); ((-1), 12%nat); (1, 18%nat); (1, 19%nat); ((-1), 21%nat); ((-1), 24%nat); (1, 25%nat); (1, 26%nat); (1, 28%nat); (1, 29%nat); (1, 31%nat); (1, 35%nat); (1, 36%nat); (1, 37%nat)];
  (* 2 O2: lines 570-571 *) [((-1), 0%nat); ((-1), 9%nat); (1, 10%nat); (1, 13%nat); (1, 14%nat); (1, 15%nat); ((-1), 17%nat); (1, 27%nat); ((-1), 29%nat); ((-1), 30%nat); ((-1), 37%nat)];
  (* 3 O: lines 572-574 *) [(1, 0%nat); ((-1), 1%nat); ((-1), 2%nat); (1, 4%nat); ((-1), 6%nat); (1, 12%nat); ((-1), 13%nat); ((-1), 16%nat); (1, 17%nat); ((-1), 22%nat); ((-1), 25%nat); ((-1), 26%nat); (1, 29%nat); ((-1), 35%nat)];
  (* 4 OH: lines 575-578 *) [(1, 0%nat); (1, 1%nat); (1, 2%nat); ((-1), 3%nat); ((-2), 4%nat); (1, 6%nat); (1, 7%nat); (1, 8%nat); (2, 11%nat); (1, 13%nat); ((-1), 14%nat); ((-1), 15%nat); ((-1), 18%nat); ((-1), 19%nat); (1, 20%nat); (1, 22%nat); ((-1), 23%nat); (1, 28%nat); (1, 30%nat); (1, 35%nat); ((-1), 36%nat)];
  (* 5 HO2: lines 579-580 *) [(1, 9%nat); ((-1), 10%nat); ((-1), 11%nat); ((-1), 12%nat); ((-1), 13%nat); ((-1), 14%nat); ((-1), 15%nat); ((-1), 20%nat); ((-1), 27%nat); ((-1), 28%nat); (1, 37%nat)];
  (* 6 H2O: lines 581-582 *) [(1, 3%nat); (1, 4%nat); ((-1), 7%nat); ((-1), 8%nat); (1, 12%nat); (1, 14%nat); (1, 15%nat); (1, 23%nat); (1, 36%nat)];
  (* 7 CH3: lines 583-584 *) [(1, 21%nat); (1, 22%nat); (1, 23%nat); ((-1), 24%nat); ((-1), 25%nat); ((-1), 26%nat); ((-1), 27%nat); ((-1), 28%nat); ((-1), 29%nat); ((-1), 30%nat); ((-1), 31%nat)];
  (* 8 CH4: lines 585-585 *) [((-1), 21%nat); ((-1), 22%nat); ((-1), 23%nat); (1, 24%nat); (1, 27%nat); (1, 31%nat)];
  (* 9 CO: lines 586-588 *) [((-1), 16%nat); ((-1), 17%nat); ((-1), 18%nat); ((-1), 19%nat); ((-1), 20%nat); (1, 26%nat); (1, 31%nat); (1, 32%nat); (1, 33%nat); (1, 34%nat); (1, 35%nat); (1, 36%nat); (1, 37%nat)];
  (* 10 CH2O: lines 589-591 *) [(1, 25%nat); (1, 28%nat); (1, 29%nat); (1, 30%nat); ((-1), 31%nat); ((-1), 32%nat); ((-1), 33%nat); ((-1), 34%nat); ((-1), 35%nat); ((-1), 36%nat); ((-1), 37%nat)];
  (* 11 CO2: lines 592-592 *) [(1, 16%nat); (1, 17%nat); (1, 18%nat); (1, 19%nat); (1, 20%nat)]
].
Definition ffcmy : mech := mkMech ffcmy_ns ffcmy_reactions ffcmy_sources.
