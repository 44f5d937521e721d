(** Tables of the mechanism in src/compute/chemistry/chem_GRI30.cpp: transcribed by tools/chemtables.py, which stops at any statement it does not recognise.  Definitions only. *)
From Coq Require Import ZArith List.
From Verif Require Import M_Chem.
Import ListNotations.
Open Scope Z_scope.

(** the species (chem_GRI30.cpp:10-62): 0:H2 1:H 2:O 3:O2 4:OH 5:H2O 6:HO2 7:H2O2 8:C 9:CH 10:CH2 11:CH2(S) 12:CH3 13:CH4 14:CO 15:CO2 16:HCO 17:CH2O 18:CH2OH 19:CH3O 20:CH3OH 21:C2H 22:C2H2 23:C2H3 24:C2H4 25:C2H5 26:C2H6 27:HCCO 28:CH2CO 29:HCCOH 30:N 31:NH 32:NH2 33:NH3 34:NNH 35:NO 36:NO2 37:N2O 38:HNO 39:CN 40:HCN 41:H2CN 42:HCNN 43:HCNO 44:HOCN 45:HNCO 46:NCO 47:N2 48:AR 49:C3H7 50:C3H8 51:CH2CHO 52:CH3CHO *)
Definition gri30_ns : Z := 53.
(** the reactions (chem_GRI30.cpp:187-3713) *)
Definition gri30_reactions : list reac := [
  (* 0: lines 187-203 *) mkReac (Pow (D 12000000000000002 (-5)) 1) (Third [(0, D 24 (-1)); (1, D 1 0); (2, D 1 0); (3, D 1 0); (4, D 1 0); (5, D 154 (-1)); (6, D 1 0); (7, D 1 0); (8, D 1 0); (9, D 1 0); (10, D 1 0); (11, D 1 0); (12, D 1 0); (13, D 2 0); (14, D 175 (-2)); (15, D 36 (-1)); (16, D 1 0); (17, D 1 0); (18, D 1 0); (19, D 1 0); (20, D 1 0); (21, D 1 0); (22, D 1 0); (23, D 1 0); (24, D 1 0); (25, D 1 0); (26, D 3 0); (27, D 1 0); (28, D 1 0); (29, D 1 0); (30, D 1 0); (31, D 1 0); (32, D 1 0); (33, D 1 0); (34, D 1 0); (35, D 1 0); (36, D 1 0); (37, D 1 0); (38, D 1 0); (39, D 1 0); (40, D 1 0); (41, D 1 0); (42, D 1 0); (43, D 1 0); (44, D 1 0); (45, D 1 0); (46, D 1 0); (47, D 1 0); (48, D 83 (-2)); (49, D 1 0); (50, D 1 0); (51, D 1 0); (52, D 1 0)]) [(2, (-2)); (3, 1)] (-1) [(2, 2)] [(3, 1)] true;
  (* 1: lines 206-222 *) mkReac (Pow (D 5000000000000001 (-4)) 1) (Third [(0, D 2 0); (1, D 1 0); (2, D 1 0); (3, D 1 0); (4, D 1 0); (5, D 6 0); (6, D 1 0); (7, D 1 0); (8, D 1 0); (9, D 1 0); (10, D 1 0); (11, D 1 0); (12, D 1 0); (13, D 2 0); (14, D 15 (-1)); (15, D 2 0); (16, D 1 0); (17, D 1 0); (18, D 1 0); (19, D 1 0); (20, D 1 0); (21, D 1 0); (22, D 1 0); (23, D 1 0); (24, D 1 0); (25, D 1 0); (26, D 3 0); (27, D 1 0); (28, D 1 0); (29, D 1 0); (30, D 1 0); (31, D 1 0); (32, D 1 0); (33, D 1 0); (34, D 1 0); (35, D 1 0); (36, D 1 0); (37, D 1 0); (38, D 1 0); (39, D 1 0); (40, D 1 0); (41, D 1 0); (42, D 1 0); (43, D 1 0); (44, D 1 0); (45, D 1 0); (46, D 1 0); (47, D 1 0); (48, D 7 (-1)); (49, D 1 0); (50, D 1 0); (51, D 1 0); (52, D 1 0)]) [(1, (-1)); (2, (-1)); (4, 1)] (-1) [(1, 1); (2, 1)] [(4, 1)] true;
  (* 2: lines 225-230 *) mkReac (Arr (D 387 (-1)) (D 27 (-1)) (D 31501542797022735 (-13))) (Plain) [(0, (-1)); (1, 1); (2, (-1)); (4, 1)] 0 [(0, 1); (2, 1)] [(1, 1); (4, 1)] true;
  (* 3: lines 233-238 *) mkReac (Pow (D 20000000000000004 (-6)) 0) (Plain) [(2, (-1)); (3, 1); (4, 1); (6, (-1))] 0 [(2, 1); (6, 1)] [(3, 1); (4, 1)] true;
  (* 4: lines 241-246 *) mkReac (Arr (D 963 1) (D 2 0) (D 20128781339950629 (-13))) (Plain) [(2, (-1)); (4, 1); (6, 1); (7, (-1))] 0 [(2, 1); (7, 1)] [(4, 1); (6, 1)] true;
  (* 5: lines 249-254 *) mkReac (Pow (D 5700000000000001 (-5)) 0) (Plain) [(1, 1); (2, (-1)); (9, (-1)); (14, 1)] 0 [(2, 1); (9, 1)] [(1, 1); (14, 1)] true;
  (* 6: lines 257-262 *) mkReac (Pow (D 8000000000000002 (-5)) 0) (Plain) [(1, 1); (2, (-1)); (10, (-1)); (16, 1)] 0 [(2, 1); (10, 1)] [(1, 1); (16, 1)] true;
  (* 7: lines 265-270 *) mkReac (Pow (D 15000000000000002 (-6)) 0) (Plain) [(0, 1); (2, (-1)); (11, (-1)); (14, 1)] 0 [(2, 1); (11, 1)] [(0, 1); (14, 1)] true;
  (* 8: lines 273-278 *) mkReac (Pow (D 15000000000000002 (-6)) 0) (Plain) [(1, 1); (2, (-1)); (11, (-1)); (16, 1)] 0 [(2, 1); (11, 1)] [(1, 1); (16, 1)] true;
  (* 9: lines 281-286 *) mkReac (Pow (D 5060000000000001 (-5)) 0) (Plain) [(1, 1); (2, (-1)); (12, (-1)); (17, 1)] 0 [(2, 1); (12, 1)] [(1, 1); (17, 1)] true;
  (* 10: lines 289-295 *) mkReac (Arr (D 10200000000000001 (-10)) (D 15 (-1)) (D 4327687988089386 (-12))) (Plain) [(2, (-1)); (4, 1); (12, 1); (13, (-1))] 0 [(2, 1); (13, 1)] [(4, 1); (12, 1)] true;
  (* 11: lines 298-320 *) mkReac (Arr (D 18000000000000004 (-9)) (D 0 0) (D 12001785873945562 (-13))) (Lindemann [(0, D 2 0); (1, D 1 0); (2, D 1 0); (3, D 6 0); (4, D 1 0); (5, D 6 0); (6, D 1 0); (7, D 1 0); (8, D 1 0); (9, D 1 0); (10, D 1 0); (11, D 1 0); (12, D 1 0); (13, D 2 0); (14, D 15 (-1)); (15, D 35 (-1)); (16, D 1 0); (17, D 1 0); (18, D 1 0); (19, D 1 0); (20, D 1 0); (21, D 1 0); (22, D 1 0); (23, D 1 0); (24, D 1 0); (25, D 1 0); (26, D 3 0); (27, D 1 0); (28, D 1 0); (29, D 1 0); (30, D 1 0); (31, D 1 0); (32, D 1 0); (33, D 1 0); (34, D 1 0); (35, D 1 0); (36, D 1 0); (37, D 1 0); (38, D 1 0); (39, D 1 0); (40, D 1 0); (41, D 1 0); (42, D 1 0); (43, D 1 0); (44, D 1 0); (45, D 1 0); (46, D 1 0); (47, D 1 0); (48, D 5 (-1)); (49, D 1 0); (50, D 1 0); (51, D 1 0); (52, D 1 0)] (Arr (D 6020000000000001 (-7)) (D 0 0) (D 15096586004962971 (-13)))) [(2, (-1)); (14, (-1)); (15, 1)] (-1) [(2, 1); (14, 1)] [(15, 1)] true;
  (* 12: lines 323-328 *) mkReac (Pow (D 30000000000000004 (-6)) 0) (Plain) [(2, (-1)); (4, 1); (14, 1); (16, (-1))] 0 [(2, 1); (16, 1)] [(4, 1); (14, 1)] true;
  (* 13: lines 331-336 *) mkReac (Pow (D 30000000000000004 (-6)) 0) (Plain) [(1, 1); (2, (-1)); (15, 1); (16, (-1))] 0 [(2, 1); (16, 1)] [(1, 1); (15, 1)] true;
  (* 14: lines 339-344 *) mkReac (Arr (D 3900000000000001 (-5)) (D 0 0) (D 17813971485856307 (-13))) (Plain) [(2, (-1)); (4, 1); (16, 1); (17, (-1))] 0 [(2, 1); (17, 1)] [(4, 1); (16, 1)] true;
  (* 15: lines 347-352 *) mkReac (Pow (D 10000000000000002 (-6)) 0) (Plain) [(2, (-1)); (4, 1); (17, 1); (18, (-1))] 0 [(2, 1); (18, 1)] [(4, 1); (17, 1)] true;
  (* 16: lines 355-360 *) mkReac (Pow (D 10000000000000002 (-6)) 0) (Plain) [(2, (-1)); (4, 1); (17, 1); (19, (-1))] 0 [(2, 1); (19, 1)] [(4, 1); (17, 1)] true;
  (* 17: lines 363-369 *) mkReac (Arr (D 38800000000000006 (-14)) (D 25 (-1)) (D 15599805538461737 (-13))) (Plain) [(2, (-1)); (4, 1); (18, 1); (20, (-1))] 0 [(2, 1); (20, 1)] [(4, 1); (18, 1)] true;
  (* 18: lines 372-378 *) mkReac (Arr (D 13000000000000003 (-14)) (D 25 (-1)) (D 2516097667493829 (-12))) (Plain) [(2, (-1)); (4, 1); (19, 1); (20, (-1))] 0 [(2, 1); (20, 1)] [(4, 1); (19, 1)] true;
  (* 19: lines 381-386 *) mkReac (Pow (D 5000000000000001 (-5)) 0) (Plain) [(2, (-1)); (9, 1); (14, 1); (21, (-1))] 0 [(2, 1); (21, 1)] [(9, 1); (14, 1)] true;
  (* 20: lines 389-395 *) mkReac (Arr (D 13500000000000002 (-12)) (D 2 0) (D 956117113647655 (-12))) (Plain) [(1, 1); (2, (-1)); (22, (-1)); (27, 1)] 0 [(2, 1); (22, 1)] [(1, 1); (27, 1)] true;
  (* 21: lines 398-404 *) mkReac (Arr (D 4600000000000001 1) (D (-141) (-2)) (D 14568205494789268 (-12))) (Plain) [(2, (-1)); (4, 1); (21, 1); (22, (-1))] 0 [(2, 1); (22, 1)] [(4, 1); (21, 1)] true;
  (* 22: lines 407-413 *) mkReac (Arr (D 6940000000000001 (-12)) (D 2 0) (D 956117113647655 (-12))) (Plain) [(2, (-1)); (10, 1); (14, 1); (22, (-1))] 0 [(2, 1); (22, 1)] [(10, 1); (14, 1)] true;
  (* 23: lines 416-421 *) mkReac (Pow (D 30000000000000004 (-6)) 0) (Plain) [(1, 1); (2, (-1)); (23, (-1)); (28, 1)] 0 [(2, 1); (23, 1)] [(1, 1); (28, 1)] true;
  (* 24: lines 424-430 *) mkReac (Arr (D 12500000000000002 (-12)) (D 183 (-2)) (D 11070829736972846 (-14))) (Plain) [(2, (-1)); (12, 1); (16, 1); (24, (-1))] 0 [(2, 1); (24, 1)] [(12, 1); (16, 1)] true;
  (* 25: lines 433-438 *) mkReac (Pow (D 22400000000000004 (-6)) 0) (Plain) [(2, (-1)); (12, 1); (17, 1); (25, (-1))] 0 [(2, 1); (25, 1)] [(12, 1); (17, 1)] true;
  (* 26: lines 441-447 *) mkReac (Arr (D 8980000000000001 (-11)) (D 192 (-2)) (D 2863319145607977 (-12))) (Plain) [(2, (-1)); (4, 1); (25, 1); (26, (-1))] 0 [(2, 1); (26, 1)] [(4, 1); (25, 1)] true;
  (* 27: lines 450-455 *) mkReac (Pow (D 10000000000000002 (-5)) 0) (Plain) [(1, 1); (2, (-1)); (14, 2); (27, (-1))] 1 [(2, 1); (27, 1)] [(1, 1); (14, 2)] true;
  (* 28: lines 458-463 *) mkReac (Arr (D 10000000000000002 (-6)) (D 0 0) (D 40257562679901257 (-13))) (Plain) [(2, (-1)); (4, 1); (27, 1); (28, (-1))] 0 [(2, 1); (28, 1)] [(4, 1); (27, 1)] true;
  (* 29: lines 466-471 *) mkReac (Arr (D 17500000000000002 (-7)) (D 0 0) (D 6793463702233338 (-13))) (Plain) [(2, (-1)); (10, 1); (15, 1); (28, (-1))] 0 [(2, 1); (28, 1)] [(10, 1); (15, 1)] true;
  (* 30: lines 474-479 *) mkReac (Arr (D 25000000000000005 (-7)) (D 0 0) (D 24053893701241002 (-12))) (Plain) [(2, 1); (3, (-1)); (14, (-1)); (15, 1)] 0 [(3, 1); (14, 1)] [(2, 1); (15, 1)] true;
  (* 31: lines 482-487 *) mkReac (Arr (D 10000000000000002 (-5)) (D 0 0) (D 2012878133995063 (-11))) (Plain) [(3, (-1)); (6, 1); (16, 1); (17, (-1))] 0 [(3, 1); (17, 1)] [(6, 1); (16, 1)] true;
  (* 32: lines 490-505 *) mkReac (Arr (D 28000000000000005 (-4)) (D (-86) (-2)) (D 0 0)) (Third [(0, D 1 0); (1, D 1 0); (2, D 1 0); (4, D 1 0); (6, D 1 0); (7, D 1 0); (8, D 1 0); (9, D 1 0); (10, D 1 0); (11, D 1 0); (12, D 1 0); (13, D 1 0); (14, D 75 (-2)); (15, D 15 (-1)); (16, D 1 0); (17, D 1 0); (18, D 1 0); (19, D 1 0); (20, D 1 0); (21, D 1 0); (22, D 1 0); (23, D 1 0); (24, D 1 0); (25, D 1 0); (26, D 15 (-1)); (27, D 1 0); (28, D 1 0); (29, D 1 0); (30, D 1 0); (31, D 1 0); (32, D 1 0); (33, D 1 0); (34, D 1 0); (35, D 1 0); (36, D 1 0); (37, D 1 0); (38, D 1 0); (39, D 1 0); (40, D 1 0); (41, D 1 0); (42, D 1 0); (43, D 1 0); (44, D 1 0); (45, D 1 0); (46, D 1 0); (49, D 1 0); (50, D 1 0); (51, D 1 0); (52, D 1 0)]) [(1, (-1)); (3, (-1)); (6, 1)] (-1) [(1, 1); (3, 1)] [(6, 1)] true;
  (* 33: lines 508-516 *) mkReac (Arr (D 20800000000000004 (-3)) (D (-124) (-2)) (D 0 0)) (Third [(3, D 1 0)]) [(1, (-1)); (3, (-1)); (6, 1)] (-1) [(1, 1); (3, 1)] [(6, 1)] true;
  (* 34: lines 519-527 *) mkReac (Arr (D 11260000000000002 (-3)) (D (-76) (-2)) (D 0 0)) (Third [(5, D 1 0)]) [(1, (-1)); (3, (-1)); (6, 1)] (-1) [(1, 1); (3, 1)] [(6, 1)] true;
  (* 35: lines 530-538 *) mkReac (Arr (D 26000000000000004 (-3)) (D (-124) (-2)) (D 0 0)) (Third [(47, D 1 0)]) [(1, (-1)); (3, (-1)); (6, 1)] (-1) [(1, 1); (3, 1)] [(6, 1)] true;
  (* 36: lines 541-549 *) mkReac (Arr (D 7000000000000001 (-4)) (D (-8) (-1)) (D 0 0)) (Third [(48, D 1 0)]) [(1, (-1)); (3, (-1)); (6, 1)] (-1) [(1, 1); (3, 1)] [(6, 1)] true;
  (* 37: lines 552-558 *) mkReac (Arr (D 26500000000000004 (-3)) (D (-6707) (-4)) (D 8575364070352467 (-12))) (Plain) [(1, (-1)); (2, 1); (3, (-1)); (4, 1)] 0 [(1, 1); (3, 1)] [(2, 1); (4, 1)] true;
  (* 38: lines 561-577 *) mkReac (Pow (D 10000000000000002 (-4)) 1) (Third [(1, D 1 0); (2, D 1 0); (3, D 1 0); (4, D 1 0); (6, D 1 0); (7, D 1 0); (8, D 1 0); (9, D 1 0); (10, D 1 0); (11, D 1 0); (12, D 1 0); (13, D 2 0); (14, D 1 0); (16, D 1 0); (17, D 1 0); (18, D 1 0); (19, D 1 0); (20, D 1 0); (21, D 1 0); (22, D 1 0); (23, D 1 0); (24, D 1 0); (25, D 1 0); (26, D 3 0); (27, D 1 0); (28, D 1 0); (29, D 1 0); (30, D 1 0); (31, D 1 0); (32, D 1 0); (33, D 1 0); (34, D 1 0); (35, D 1 0); (36, D 1 0); (37, D 1 0); (38, D 1 0); (39, D 1 0); (40, D 1 0); (41, D 1 0); (42, D 1 0); (43, D 1 0); (44, D 1 0); (45, D 1 0); (46, D 1 0); (47, D 1 0); (48, D 63 (-2)); (49, D 1 0); (50, D 1 0); (51, D 1 0); (52, D 1 0)]) [(0, 1); (1, (-2))] (-1) [(1, 2)] [(0, 1)] true;
  (* 39: lines 580-588 *) mkReac (Arr (D 9000000000000002 (-5)) (D (-6) (-1)) (D 0 0)) (Third [(0, D 1 0)]) [(0, 1); (1, (-2))] (-1) [(1, 2)] [(0, 1)] true;
  (* 40: lines 591-599 *) mkReac (Arr (D 6000000000000001 (-2)) (D (-125) (-2)) (D 0 0)) (Third [(5, D 1 0)]) [(0, 1); (1, (-2))] (-1) [(1, 2)] [(0, 1)] true;
  (* 41: lines 602-610 *) mkReac (Pow (D 5500000000000001 (-1)) 2) (Third [(15, D 1 0)]) [(0, 1); (1, (-2))] (-1) [(1, 2)] [(0, 1)] true;
  (* 42: lines 613-629 *) mkReac (Pow (D 22000000000000004 0) 2) (Third [(0, D 73 (-2)); (1, D 1 0); (2, D 1 0); (3, D 1 0); (4, D 1 0); (5, D 365 (-2)); (6, D 1 0); (7, D 1 0); (8, D 1 0); (9, D 1 0); (10, D 1 0); (11, D 1 0); (12, D 1 0); (13, D 2 0); (14, D 1 0); (15, D 1 0); (16, D 1 0); (17, D 1 0); (18, D 1 0); (19, D 1 0); (20, D 1 0); (21, D 1 0); (22, D 1 0); (23, D 1 0); (24, D 1 0); (25, D 1 0); (26, D 3 0); (27, D 1 0); (28, D 1 0); (29, D 1 0); (30, D 1 0); (31, D 1 0); (32, D 1 0); (33, D 1 0); (34, D 1 0); (35, D 1 0); (36, D 1 0); (37, D 1 0); (38, D 1 0); (39, D 1 0); (40, D 1 0); (41, D 1 0); (42, D 1 0); (43, D 1 0); (44, D 1 0); (45, D 1 0); (46, D 1 0); (47, D 1 0); (48, D 38 (-2)); (49, D 1 0); (50, D 1 0); (51, D 1 0); (52, D 1 0)]) [(1, (-1)); (4, (-1)); (5, 1)] (-1) [(1, 1); (4, 1)] [(5, 1)] true;
  (* 43: lines 632-637 *) mkReac (Arr (D 39700000000000005 (-7)) (D 0 0) (D 33766030697767184 (-14))) (Plain) [(1, (-1)); (2, 1); (5, 1); (6, (-1))] 0 [(1, 1); (6, 1)] [(2, 1); (5, 1)] true;
  (* 44: lines 640-645 *) mkReac (Arr (D 4480000000000001 (-5)) (D 0 0) (D 5374384617766818 (-13))) (Plain) [(0, 1); (1, (-1)); (3, 1); (6, (-1))] 0 [(1, 1); (6, 1)] [(0, 1); (3, 1)] true;
  (* 45: lines 648-653 *) mkReac (Arr (D 8400000000000002 (-5)) (D 0 0) (D 31954440377171625 (-14))) (Plain) [(1, (-1)); (4, 2); (6, (-1))] 0 [(1, 1); (6, 1)] [(4, 2)] true;
  (* 46: lines 656-662 *) mkReac (Arr (D 12100000000000002 (-12)) (D 2 0) (D 2616741574193582 (-12))) (Plain) [(0, 1); (1, (-1)); (6, 1); (7, (-1))] 0 [(1, 1); (7, 1)] [(0, 1); (6, 1)] true;
  (* 47: lines 665-670 *) mkReac (Arr (D 10000000000000002 (-6)) (D 0 0) (D 18115903205955567 (-13))) (Plain) [(1, (-1)); (4, 1); (5, 1); (7, (-1))] 0 [(1, 1); (7, 1)] [(4, 1); (5, 1)] true;
  (* 48: lines 673-678 *) mkReac (Pow (D 16500000000000003 (-5)) 0) (Plain) [(0, 1); (1, (-1)); (8, 1); (9, (-1))] 0 [(1, 1); (9, 1)] [(0, 1); (8, 1)] true;
  (* 49: lines 681-709 *) mkReac (Pow (D 6000000000000001 (-4)) 0) (Troe [(0, D 2 0); (1, D 1 0); (2, D 1 0); (3, D 1 0); (4, D 1 0); (5, D 6 0); (6, D 1 0); (7, D 1 0); (8, D 1 0); (9, D 1 0); (10, D 1 0); (11, D 1 0); (12, D 1 0); (13, D 2 0); (14, D 15 (-1)); (15, D 2 0); (16, D 1 0); (17, D 1 0); (18, D 1 0); (19, D 1 0); (20, D 1 0); (21, D 1 0); (22, D 1 0); (23, D 1 0); (24, D 1 0); (25, D 1 0); (26, D 3 0); (27, D 1 0); (28, D 1 0); (29, D 1 0); (30, D 1 0); (31, D 1 0); (32, D 1 0); (33, D 1 0); (34, D 1 0); (35, D 1 0); (36, D 1 0); (37, D 1 0); (38, D 1 0); (39, D 1 0); (40, D 1 0); (41, D 1 0); (42, D 1 0); (43, D 1 0); (44, D 1 0); (45, D 1 0); (46, D 1 0); (47, D 1 0); (48, D 7 (-1)); (49, D 1 0); (50, D 1 0); (51, D 1 0); (52, D 1 0)] (Arr (D 10400000000000002 4) (D (-276) (-2)) (D 8051512535980252 (-13))) (D 562 (-3)) (D 91 0) (D 5836 0) (D 8552 0)) [(1, (-1)); (10, (-1)); (12, 1)] (-1) [(1, 1); (10, 1)] [(12, 1)] true;
  (* 50: lines 712-717 *) mkReac (Pow (D 30000000000000004 (-6)) 0) (Plain) [(0, 1); (1, (-1)); (9, 1); (11, (-1))] 0 [(1, 1); (11, 1)] [(0, 1); (9, 1)] true;
  (* 51: lines 720-749 *) mkReac (Arr (D 13900000000000002 (-3)) (D (-534) (-3)) (D 26972566995533845 (-14))) (Troe [(0, D 2 0); (1, D 1 0); (2, D 1 0); (3, D 1 0); (4, D 1 0); (5, D 6 0); (6, D 1 0); (7, D 1 0); (8, D 1 0); (9, D 1 0); (10, D 1 0); (11, D 1 0); (12, D 1 0); (13, D 3 0); (14, D 15 (-1)); (15, D 2 0); (16, D 1 0); (17, D 1 0); (18, D 1 0); (19, D 1 0); (20, D 1 0); (21, D 1 0); (22, D 1 0); (23, D 1 0); (24, D 1 0); (25, D 1 0); (26, D 3 0); (27, D 1 0); (28, D 1 0); (29, D 1 0); (30, D 1 0); (31, D 1 0); (32, D 1 0); (33, D 1 0); (34, D 1 0); (35, D 1 0); (36, D 1 0); (37, D 1 0); (38, D 1 0); (39, D 1 0); (40, D 1 0); (41, D 1 0); (42, D 1 0); (43, D 1 0); (44, D 1 0); (45, D 1 0); (46, D 1 0); (47, D 1 0); (48, D 7 (-1)); (49, D 1 0); (50, D 1 0); (51, D 1 0); (52, D 1 0)] (Arr (D 26200000000000006 11) (D (-476) (-2)) (D 12278556617369884 (-13))) (D 783 (-3)) (D 74 0) (D 2941 0) (D 6964 0)) [(1, (-1)); (12, (-1)); (13, 1)] (-1) [(1, 1); (12, 1)] [(13, 1)] true;
  (* 52: lines 752-758 *) mkReac (Arr (D 6600000000000001 (-10)) (D 162 (-2)) (D 5454899743126621 (-12))) (Plain) [(0, 1); (1, (-1)); (12, 1); (13, (-1))] 0 [(1, 1); (13, 1)] [(0, 1); (12, 1)] true;
  (* 53: lines 761-790 *) mkReac (Arr (D 10900000000000002 (-7)) (D 48 (-2)) (D (-1308370787096791) (-13))) (Troe [(0, D 2 0); (1, D 1 0); (2, D 1 0); (3, D 1 0); (4, D 1 0); (5, D 6 0); (6, D 1 0); (7, D 1 0); (8, D 1 0); (9, D 1 0); (10, D 1 0); (11, D 1 0); (12, D 1 0); (13, D 2 0); (14, D 15 (-1)); (15, D 2 0); (16, D 1 0); (17, D 1 0); (18, D 1 0); (19, D 1 0); (20, D 1 0); (21, D 1 0); (22, D 1 0); (23, D 1 0); (24, D 1 0); (25, D 1 0); (26, D 3 0); (27, D 1 0); (28, D 1 0); (29, D 1 0); (30, D 1 0); (31, D 1 0); (32, D 1 0); (33, D 1 0); (34, D 1 0); (35, D 1 0); (36, D 1 0); (37, D 1 0); (38, D 1 0); (39, D 1 0); (40, D 1 0); (41, D 1 0); (42, D 1 0); (43, D 1 0); (44, D 1 0); (45, D 1 0); (46, D 1 0); (47, D 1 0); (48, D 7 (-1)); (49, D 1 0); (50, D 1 0); (51, D 1 0); (52, D 1 0)] (Arr (D 24700000000000005 2) (D (-257) (-2)) (D 21386830173697544 (-14))) (D 7824 (-4)) (D 271 0) (D 2755 0) (D 657 1)) [(1, (-1)); (16, (-1)); (17, 1)] (-1) [(1, 1); (16, 1)] [(17, 1)] true;
  (* 54: lines 793-798 *) mkReac (Pow (D 7340000000000002 (-5)) 0) (Plain) [(0, 1); (1, (-1)); (14, 1); (16, (-1))] 0 [(1, 1); (16, 1)] [(0, 1); (14, 1)] true;
  (* 55: lines 801-830 *) mkReac (Arr (D 5400000000000001 (-7)) (D 454 (-3)) (D 18115903205955567 (-13))) (Troe [(0, D 2 0); (1, D 1 0); (2, D 1 0); (3, D 1 0); (4, D 1 0); (5, D 6 0); (6, D 1 0); (7, D 1 0); (8, D 1 0); (9, D 1 0); (10, D 1 0); (11, D 1 0); (12, D 1 0); (13, D 2 0); (14, D 15 (-1)); (15, D 2 0); (16, D 1 0); (17, D 1 0); (18, D 1 0); (19, D 1 0); (20, D 1 0); (21, D 1 0); (22, D 1 0); (23, D 1 0); (24, D 1 0); (25, D 1 0); (26, D 3 0); (27, D 1 0); (28, D 1 0); (29, D 1 0); (30, D 1 0); (31, D 1 0); (32, D 1 0); (33, D 1 0); (34, D 1 0); (35, D 1 0); (36, D 1 0); (37, D 1 0); (38, D 1 0); (39, D 1 0); (40, D 1 0); (41, D 1 0); (42, D 1 0); (43, D 1 0); (44, D 1 0); (45, D 1 0); (46, D 1 0); (47, D 1 0); (48, D 1 0); (49, D 1 0); (50, D 1 0); (51, D 1 0); (52, D 1 0)] (Arr (D 12700000000000002 10) (D (-482) (-2)) (D 32860235537469403 (-13))) (D 7187 (-4)) (D 10300000000000001 (-14)) (D 1291 0) (D 416 1)) [(1, (-1)); (17, (-1)); (18, 1)] (-1) [(1, 1); (17, 1)] [(18, 1)] true;
  (* 56: lines 833-862 *) mkReac (Arr (D 5400000000000001 (-7)) (D 454 (-3)) (D 1308370787096791 (-12))) (Troe [(0, D 2 0); (1, D 1 0); (2, D 1 0); (3, D 1 0); (4, D 1 0); (5, D 6 0); (6, D 1 0); (7, D 1 0); (8, D 1 0); (9, D 1 0); (10, D 1 0); (11, D 1 0); (12, D 1 0); (13, D 2 0); (14, D 15 (-1)); (15, D 2 0); (16, D 1 0); (17, D 1 0); (18, D 1 0); (19, D 1 0); (20, D 1 0); (21, D 1 0); (22, D 1 0); (23, D 1 0); (24, D 1 0); (25, D 1 0); (26, D 3 0); (27, D 1 0); (28, D 1 0); (29, D 1 0); (30, D 1 0); (31, D 1 0); (32, D 1 0); (33, D 1 0); (34, D 1 0); (35, D 1 0); (36, D 1 0); (37, D 1 0); (38, D 1 0); (39, D 1 0); (40, D 1 0); (41, D 1 0); (42, D 1 0); (43, D 1 0); (44, D 1 0); (45, D 1 0); (46, D 1 0); (47, D 1 0); (48, D 1 0); (49, D 1 0); (50, D 1 0); (51, D 1 0); (52, D 1 0)] (Arr (D 22000000000000006 8) (D (-48) (-1)) (D 27979006062531375 (-13))) (D 758 (-3)) (D 94 0) (D 1555 0) (D 42 2)) [(1, (-1)); (17, (-1)); (19, 1)] (-1) [(1, 1); (17, 1)] [(19, 1)] true;
  (* 57: lines 865-871 *) mkReac (Arr (D 57400000000000015 (-12)) (D 19 (-1)) (D 13798279608536157 (-13))) (Plain) [(0, 1); (1, (-1)); (16, 1); (17, (-1))] 0 [(1, 1); (17, 1)] [(0, 1); (16, 1)] true;
  (* 58: lines 874-903 *) mkReac (Arr (D 10550000000000002 (-7)) (D 5 (-1)) (D 4327687988089385 (-14))) (Troe [(0, D 2 0); (1, D 1 0); (2, D 1 0); (3, D 1 0); (4, D 1 0); (5, D 6 0); (6, D 1 0); (7, D 1 0); (8, D 1 0); (9, D 1 0); (10, D 1 0); (11, D 1 0); (12, D 1 0); (13, D 2 0); (14, D 15 (-1)); (15, D 2 0); (16, D 1 0); (17, D 1 0); (18, D 1 0); (19, D 1 0); (20, D 1 0); (21, D 1 0); (22, D 1 0); (23, D 1 0); (24, D 1 0); (25, D 1 0); (26, D 3 0); (27, D 1 0); (28, D 1 0); (29, D 1 0); (30, D 1 0); (31, D 1 0); (32, D 1 0); (33, D 1 0); (34, D 1 0); (35, D 1 0); (36, D 1 0); (37, D 1 0); (38, D 1 0); (39, D 1 0); (40, D 1 0); (41, D 1 0); (42, D 1 0); (43, D 1 0); (44, D 1 0); (45, D 1 0); (46, D 1 0); (47, D 1 0); (48, D 1 0); (49, D 1 0); (50, D 1 0); (51, D 1 0); (52, D 1 0)] (Arr (D 4360000000000001 10) (D (-465) (-2)) (D 255635523017373 (-11))) (D 6 (-1)) (D 1 2) (D 9 4) (D 1 4)) [(1, (-1)); (18, (-1)); (20, 1)] (-1) [(1, 1); (18, 1)] [(20, 1)] true;
  (* 59: lines 906-911 *) mkReac (Pow (D 20000000000000004 (-6)) 0) (Plain) [(0, 1); (1, (-1)); (17, 1); (18, (-1))] 0 [(1, 1); (18, 1)] [(0, 1); (17, 1)] true;
  (* 60: lines 914-920 *) mkReac (Arr (D 16500000000000003 (-8)) (D 65 (-2)) (D (-14291434751364946) (-14))) (Plain) [(1, (-1)); (4, 1); (12, 1); (18, (-1))] 0 [(1, 1); (18, 1)] [(4, 1); (12, 1)] true;
  (* 61: lines 923-929 *) mkReac (Arr (D 32800000000000004 (-6)) (D (-9) (-2)) (D 3069639154342471 (-13))) (Plain) [(1, (-1)); (5, 1); (11, 1); (18, (-1))] 0 [(1, 1); (18, 1)] [(5, 1); (11, 1)] true;
  (* 62: lines 932-961 *) mkReac (Arr (D 24300000000000005 (-7)) (D 515 (-3)) (D 25160976674938286 (-15))) (Troe [(0, D 2 0); (1, D 1 0); (2, D 1 0); (3, D 1 0); (4, D 1 0); (5, D 6 0); (6, D 1 0); (7, D 1 0); (8, D 1 0); (9, D 1 0); (10, D 1 0); (11, D 1 0); (12, D 1 0); (13, D 2 0); (14, D 15 (-1)); (15, D 2 0); (16, D 1 0); (17, D 1 0); (18, D 1 0); (19, D 1 0); (20, D 1 0); (21, D 1 0); (22, D 1 0); (23, D 1 0); (24, D 1 0); (25, D 1 0); (26, D 3 0); (27, D 1 0); (28, D 1 0); (29, D 1 0); (30, D 1 0); (31, D 1 0); (32, D 1 0); (33, D 1 0); (34, D 1 0); (35, D 1 0); (36, D 1 0); (37, D 1 0); (38, D 1 0); (39, D 1 0); (40, D 1 0); (41, D 1 0); (42, D 1 0); (43, D 1 0); (44, D 1 0); (45, D 1 0); (46, D 1 0); (47, D 1 0); (48, D 1 0); (49, D 1 0); (50, D 1 0); (51, D 1 0); (52, D 1 0)] (Arr (D 4660000000000001 20) (D (-744) (-2)) (D 7085331031662621 (-12))) (D 7 (-1)) (D 1 2) (D 9 4) (D 1 4)) [(1, (-1)); (19, (-1)); (20, 1)] (-1) [(1, 1); (19, 1)] [(20, 1)] true;
  (* 63: lines 964-970 *) mkReac (Arr (D 4150000000000001 (-11)) (D 163 (-2)) (D 9681943824516253 (-13))) (Plain) [(18, 1); (19, (-1))] 0 [(1, 1); (19, 1)] [(1, 1); (18, 1)] true;
  (* 64: lines 973-978 *) mkReac (Pow (D 20000000000000004 (-6)) 0) (Plain) [(0, 1); (1, (-1)); (17, 1); (19, (-1))] 0 [(1, 1); (19, 1)] [(0, 1); (17, 1)] true;
  (* 65: lines 981-987 *) mkReac (Arr (D 15000000000000002 (-7)) (D 5 (-1)) (D (-5535414868486423) (-14))) (Plain) [(1, (-1)); (4, 1); (12, 1); (19, (-1))] 0 [(1, 1); (19, 1)] [(4, 1); (12, 1)] true;
  (* 66: lines 990-996 *) mkReac (Arr (D 26200000000000003 (-5)) (D (-23) (-2)) (D 5384449008436793 (-13))) (Plain) [(1, (-1)); (5, 1); (11, 1); (19, (-1))] 0 [(1, 1); (19, 1)] [(5, 1); (11, 1)] true;
  (* 67: lines 999-1005 *) mkReac (Arr (D 17000000000000004 (-12)) (D 21 (-1)) (D 2450679128138989 (-12))) (Plain) [(0, 1); (1, (-1)); (18, 1); (20, (-1))] 0 [(1, 1); (20, 1)] [(0, 1); (18, 1)] true;
  (* 68: lines 1008-1014 *) mkReac (Arr (D 4200000000000001 (-12)) (D 21 (-1)) (D 2450679128138989 (-12))) (Plain) [(0, 1); (1, (-1)); (19, 1); (20, (-1))] 0 [(1, 1); (20, 1)] [(0, 1); (19, 1)] true;
  (* 69: lines 1017-1045 *) mkReac (Pow (D 10000000000000002 (-2)) 1) (Troe [(0, D 2 0); (1, D 1 0); (2, D 1 0); (3, D 1 0); (4, D 1 0); (5, D 6 0); (6, D 1 0); (7, D 1 0); (8, D 1 0); (9, D 1 0); (10, D 1 0); (11, D 1 0); (12, D 1 0); (13, D 2 0); (14, D 15 (-1)); (15, D 2 0); (16, D 1 0); (17, D 1 0); (18, D 1 0); (19, D 1 0); (20, D 1 0); (21, D 1 0); (22, D 1 0); (23, D 1 0); (24, D 1 0); (25, D 1 0); (26, D 3 0); (27, D 1 0); (28, D 1 0); (29, D 1 0); (30, D 1 0); (31, D 1 0); (32, D 1 0); (33, D 1 0); (34, D 1 0); (35, D 1 0); (36, D 1 0); (37, D 1 0); (38, D 1 0); (39, D 1 0); (40, D 1 0); (41, D 1 0); (42, D 1 0); (43, D 1 0); (44, D 1 0); (45, D 1 0); (46, D 1 0); (47, D 1 0); (48, D 7 (-1)); (49, D 1 0); (50, D 1 0); (51, D 1 0); (52, D 1 0)] (Arr (D 3750000000000001 12) (D (-48) (-1)) (D 956117113647655 (-12))) (D 6464 (-4)) (D 132 0) (D 1315 0) (D 5566 0)) [(1, (-1)); (21, (-1)); (22, 1)] (-1) [(1, 1); (21, 1)] [(22, 1)] true;
  (* 70: lines 1048-1076 *) mkReac (Arr (D 5600000000000001 (-6)) (D 0 0) (D 12077268803970378 (-13))) (Troe [(0, D 2 0); (1, D 1 0); (2, D 1 0); (3, D 1 0); (4, D 1 0); (5, D 6 0); (6, D 1 0); (7, D 1 0); (8, D 1 0); (9, D 1 0); (10, D 1 0); (11, D 1 0); (12, D 1 0); (13, D 2 0); (14, D 15 (-1)); (15, D 2 0); (16, D 1 0); (17, D 1 0); (18, D 1 0); (19, D 1 0); (20, D 1 0); (21, D 1 0); (22, D 1 0); (23, D 1 0); (24, D 1 0); (25, D 1 0); (26, D 3 0); (27, D 1 0); (28, D 1 0); (29, D 1 0); (30, D 1 0); (31, D 1 0); (32, D 1 0); (33, D 1 0); (34, D 1 0); (35, D 1 0); (36, D 1 0); (37, D 1 0); (38, D 1 0); (39, D 1 0); (40, D 1 0); (41, D 1 0); (42, D 1 0); (43, D 1 0); (44, D 1 0); (45, D 1 0); (46, D 1 0); (47, D 1 0); (48, D 7 (-1)); (49, D 1 0); (50, D 1 0); (51, D 1 0); (52, D 1 0)] (Arr (D 38000000000000006 18) (D (-727) (-2)) (D 36332450318610886 (-13))) (D 7507 (-4)) (D 9850000000000001 (-14)) (D 1302 0) (D 4167 0)) [(1, (-1)); (22, (-1)); (23, 1)] (-1) [(1, 1); (22, 1)] [(23, 1)] true;
  (* 71: lines 1079-1108 *) mkReac (Arr (D 6080000000000001 (-6)) (D 27 (-2)) (D 1409014693796544 (-13))) (Troe [(0, D 2 0); (1, D 1 0); (2, D 1 0); (3, D 1 0); (4, D 1 0); (5, D 6 0); (6, D 1 0); (7, D 1 0); (8, D 1 0); (9, D 1 0); (10, D 1 0); (11, D 1 0); (12, D 1 0); (13, D 2 0); (14, D 15 (-1)); (15, D 2 0); (16, D 1 0); (17, D 1 0); (18, D 1 0); (19, D 1 0); (20, D 1 0); (21, D 1 0); (22, D 1 0); (23, D 1 0); (24, D 1 0); (25, D 1 0); (26, D 3 0); (27, D 1 0); (28, D 1 0); (29, D 1 0); (30, D 1 0); (31, D 1 0); (32, D 1 0); (33, D 1 0); (34, D 1 0); (35, D 1 0); (36, D 1 0); (37, D 1 0); (38, D 1 0); (39, D 1 0); (40, D 1 0); (41, D 1 0); (42, D 1 0); (43, D 1 0); (44, D 1 0); (45, D 1 0); (46, D 1 0); (47, D 1 0); (48, D 7 (-1)); (49, D 1 0); (50, D 1 0); (51, D 1 0); (52, D 1 0)] (Arr (D 14000000000000004 8) (D (-386) (-2)) (D 16706888512159023 (-13))) (D 782 (-3)) (D 20749999999999997 (-14)) (D 2663 0) (D 6095 0)) [(1, (-1)); (23, (-1)); (24, 1)] (-1) [(1, 1); (23, 1)] [(24, 1)] true;
  (* 72: lines 1111-1116 *) mkReac (Pow (D 30000000000000004 (-6)) 0) (Plain) [(0, 1); (1, (-1)); (22, 1); (23, (-1))] 0 [(1, 1); (23, 1)] [(0, 1); (22, 1)] true;
  (* 73: lines 1119-1149 *) mkReac (Arr (D 5400000000000001 (-7)) (D 454 (-3)) (D 9158595509677536 (-13))) (Troe [(0, D 2 0); (1, D 1 0); (2, D 1 0); (3, D 1 0); (4, D 1 0); (5, D 6 0); (6, D 1 0); (7, D 1 0); (8, D 1 0); (9, D 1 0); (10, D 1 0); (11, D 1 0); (12, D 1 0); (13, D 2 0); (14, D 15 (-1)); (15, D 2 0); (16, D 1 0); (17, D 1 0); (18, D 1 0); (19, D 1 0); (20, D 1 0); (21, D 1 0); (22, D 1 0); (23, D 1 0); (24, D 1 0); (25, D 1 0); (26, D 3 0); (27, D 1 0); (28, D 1 0); (29, D 1 0); (30, D 1 0); (31, D 1 0); (32, D 1 0); (33, D 1 0); (34, D 1 0); (35, D 1 0); (36, D 1 0); (37, D 1 0); (38, D 1 0); (39, D 1 0); (40, D 1 0); (41, D 1 0); (42, D 1 0); (43, D 1 0); (44, D 1 0); (45, D 1 0); (46, D 1 0); (47, D 1 0); (48, D 7 (-1)); (49, D 1 0); (50, D 1 0); (51, D 1 0); (52, D 1 0)] (Arr (D 60000000000000005 19) (D (-762) (-2)) (D 3507440148486397 (-12))) (D 9753 (-4)) (D 20999999999999997 (-14)) (D 9839999999999999 (-13)) (D 4374 0)) [(1, (-1)); (24, (-1)); (25, 1)] (-1) [(1, 1); (24, 1)] [(25, 1)] true;
  (* 74: lines 1152-1158 *) mkReac (Arr (D 13250000000000002 (-13)) (D 253 (-2)) (D 6159407090024893 (-12))) (Plain) [(0, 1); (1, (-1)); (23, 1); (24, (-1))] 0 [(1, 1); (24, 1)] [(0, 1); (23, 1)] true;
  (* 75: lines 1161-1190 *) mkReac (Arr (D 52100000000000006 (-2)) (D (-99) (-2)) (D 7950868629280499 (-13))) (Troe [(0, D 2 0); (1, D 1 0); (2, D 1 0); (3, D 1 0); (4, D 1 0); (5, D 6 0); (6, D 1 0); (7, D 1 0); (8, D 1 0); (9, D 1 0); (10, D 1 0); (11, D 1 0); (12, D 1 0); (13, D 2 0); (14, D 15 (-1)); (15, D 2 0); (16, D 1 0); (17, D 1 0); (18, D 1 0); (19, D 1 0); (20, D 1 0); (21, D 1 0); (22, D 1 0); (23, D 1 0); (24, D 1 0); (25, D 1 0); (26, D 3 0); (27, D 1 0); (28, D 1 0); (29, D 1 0); (30, D 1 0); (31, D 1 0); (32, D 1 0); (33, D 1 0); (34, D 1 0); (35, D 1 0); (36, D 1 0); (37, D 1 0); (38, D 1 0); (39, D 1 0); (40, D 1 0); (41, D 1 0); (42, D 1 0); (43, D 1 0); (44, D 1 0); (45, D 1 0); (46, D 1 0); (47, D 1 0); (48, D 7 (-1)); (49, D 1 0); (50, D 1 0); (51, D 1 0); (52, D 1 0)] (Arr (D 19900000000000005 19) (D (-708) (-2)) (D 3364022581439249 (-12))) (D 8422 (-4)) (D 125 0) (D 2219 0) (D 6882 0)) [(1, (-1)); (25, (-1)); (26, 1)] (-1) [(1, 1); (25, 1)] [(26, 1)] true;
  (* 76: lines 1193-1198 *) mkReac (Pow (D 20000000000000002 (-7)) 0) (Plain) [(0, 1); (1, (-1)); (24, 1); (25, (-1))] 0 [(1, 1); (25, 1)] [(0, 1); (24, 1)] true;
  (* 77: lines 1201-1207 *) mkReac (Arr (D 11500000000000001 (-11)) (D 19 (-1)) (D 3789243087245706 (-12))) (Plain) [(0, 1); (1, (-1)); (25, 1); (26, (-1))] 0 [(1, 1); (26, 1)] [(0, 1); (25, 1)] true;
  (* 78: lines 1210-1215 *) mkReac (Pow (D 10000000000000002 (-5)) 0) (Plain) [(1, (-1)); (11, 1); (14, 1); (27, (-1))] 0 [(1, 1); (27, 1)] [(11, 1); (14, 1)] true;
  (* 79: lines 1218-1223 *) mkReac (Arr (D 5000000000000001 (-5)) (D 0 0) (D 40257562679901257 (-13))) (Plain) [(0, 1); (1, (-1)); (27, 1); (28, (-1))] 0 [(1, 1); (28, 1)] [(0, 1); (27, 1)] true;
  (* 80: lines 1226-1231 *) mkReac (Arr (D 11300000000000002 (-6)) (D 0 0) (D 1725036560833769 (-12))) (Plain) [(1, (-1)); (12, 1); (14, 1); (28, (-1))] 0 [(1, 1); (28, 1)] [(12, 1); (14, 1)] true;
  (* 81: lines 1234-1239 *) mkReac (Pow (D 10000000000000002 (-6)) 0) (Plain) [(28, 1); (29, (-1))] 0 [(1, 1); (29, 1)] [(1, 1); (28, 1)] true;
  (* 82: lines 1242-1270 *) mkReac (Arr (D 4300000000000001 (-11)) (D 15 (-1)) (D 4005627486650175 (-11))) (Troe [(0, D 2 0); (1, D 1 0); (2, D 1 0); (3, D 1 0); (4, D 1 0); (5, D 6 0); (6, D 1 0); (7, D 1 0); (8, D 1 0); (9, D 1 0); (10, D 1 0); (11, D 1 0); (12, D 1 0); (13, D 2 0); (14, D 15 (-1)); (15, D 2 0); (16, D 1 0); (17, D 1 0); (18, D 1 0); (19, D 1 0); (20, D 1 0); (21, D 1 0); (22, D 1 0); (23, D 1 0); (24, D 1 0); (25, D 1 0); (26, D 3 0); (27, D 1 0); (28, D 1 0); (29, D 1 0); (30, D 1 0); (31, D 1 0); (32, D 1 0); (33, D 1 0); (34, D 1 0); (35, D 1 0); (36, D 1 0); (37, D 1 0); (38, D 1 0); (39, D 1 0); (40, D 1 0); (41, D 1 0); (42, D 1 0); (43, D 1 0); (44, D 1 0); (45, D 1 0); (46, D 1 0); (47, D 1 0); (48, D 7 (-1)); (49, D 1 0); (50, D 1 0); (51, D 1 0); (52, D 1 0)] (Arr (D 507 19) (D (-342) (-2)) (D 4244656765062089 (-11))) (D 932 (-3)) (D 19700000000000003 (-14)) (D 154 1) (D 103 2)) [(0, (-1)); (14, (-1)); (17, 1)] (-1) [(0, 1); (14, 1)] [(17, 1)] true;
  (* 83: lines 1273-1279 *) mkReac (Arr (D 21600000000000003 (-11)) (D 151 (-2)) (D 17260429999007665 (-13))) (Plain) [(0, (-1)); (1, 1); (4, (-1)); (5, 1)] 0 [(0, 1); (4, 1)] [(1, 1); (5, 1)] true;
  (* 84: lines 1282-1310 *) mkReac (Arr (D 7400000000000002 (-5)) (D (-37) (-2)) (D 0 0)) (Troe [(0, D 2 0); (1, D 1 0); (2, D 1 0); (3, D 1 0); (4, D 1 0); (5, D 6 0); (6, D 1 0); (7, D 1 0); (8, D 1 0); (9, D 1 0); (10, D 1 0); (11, D 1 0); (12, D 1 0); (13, D 2 0); (14, D 15 (-1)); (15, D 2 0); (16, D 1 0); (17, D 1 0); (18, D 1 0); (19, D 1 0); (20, D 1 0); (21, D 1 0); (22, D 1 0); (23, D 1 0); (24, D 1 0); (25, D 1 0); (26, D 3 0); (27, D 1 0); (28, D 1 0); (29, D 1 0); (30, D 1 0); (31, D 1 0); (32, D 1 0); (33, D 1 0); (34, D 1 0); (35, D 1 0); (36, D 1 0); (37, D 1 0); (38, D 1 0); (39, D 1 0); (40, D 1 0); (41, D 1 0); (42, D 1 0); (43, D 1 0); (44, D 1 0); (45, D 1 0); (46, D 1 0); (47, D 1 0); (48, D 7 (-1)); (49, D 1 0); (50, D 1 0); (51, D 1 0); (52, D 1 0)] (Arr (D 23000000000000005 (-4)) (D (-9) (-1)) (D (-8554732069479018) (-13))) (D 7346 (-4)) (D 94 0) (D 1756 0) (D 5182 0)) [(4, (-2)); (7, 1)] (-1) [(4, 2)] [(7, 1)] true;
  (* 85: lines 1313-1318 *) mkReac (Arr (D 357 (-1)) (D 24 (-1)) (D (-10617932156823956) (-13))) (Plain) [(2, 1); (4, (-2)); (5, 1)] 0 [(4, 2)] [(2, 1); (5, 1)] true;
  (* 86: lines 1321-1326 *) mkReac (Arr (D 14500000000000002 (-6)) (D 0 0) (D (-25160976674938286) (-14))) (Plain) [(3, 1); (4, (-1)); (5, 1); (6, (-1))] 0 [(4, 1); (6, 1)] [(3, 1); (5, 1)] true;
  (* 87: lines 1329-1334 *) mkReac (Arr (D 20000000000000002 (-7)) (D 0 0) (D 21487474080397297 (-14))) (Plain) [(4, (-1)); (5, 1); (6, 1); (7, (-1))] 0 [(4, 1); (7, 1)] [(5, 1); (6, 1)] true;
  (* 88: lines 1337-1342 *) mkReac (Arr (D 17000000000000002 (-1)) (D 0 0) (D 14799686480198701 (-12))) (Plain) [(4, (-1)); (5, 1); (6, 1); (7, (-1))] 0 [(4, 1); (7, 1)] [(5, 1); (6, 1)] true;
  (* 89: lines 1345-1350 *) mkReac (Pow (D 5000000000000001 (-5)) 0) (Plain) [(1, 1); (4, (-1)); (8, (-1)); (14, 1)] 0 [(4, 1); (8, 1)] [(1, 1); (14, 1)] true;
  (* 90: lines 1353-1358 *) mkReac (Pow (D 30000000000000004 (-6)) 0) (Plain) [(1, 1); (4, (-1)); (9, (-1)); (16, 1)] 0 [(4, 1); (9, 1)] [(1, 1); (16, 1)] true;
  (* 91: lines 1361-1366 *) mkReac (Pow (D 20000000000000004 (-6)) 0) (Plain) [(1, 1); (4, (-1)); (10, (-1)); (17, 1)] 0 [(4, 1); (10, 1)] [(1, 1); (17, 1)] true;
  (* 92: lines 1369-1375 *) mkReac (Arr (D 11300000000000002 (-12)) (D 2 0) (D 15096586004962971 (-13))) (Plain) [(4, (-1)); (5, 1); (9, 1); (10, (-1))] 0 [(4, 1); (10, 1)] [(5, 1); (9, 1)] true;
  (* 93: lines 1378-1383 *) mkReac (Pow (D 30000000000000004 (-6)) 0) (Plain) [(1, 1); (4, (-1)); (11, (-1)); (17, 1)] 0 [(4, 1); (11, 1)] [(1, 1); (17, 1)] true;
  (* 94: lines 1386-1415 *) mkReac (Arr (D 27900000000000005 (-1)) (D (-143) (-2)) (D 6692819795533584 (-13))) (Troe [(0, D 2 0); (1, D 1 0); (2, D 1 0); (3, D 1 0); (4, D 1 0); (5, D 6 0); (6, D 1 0); (7, D 1 0); (8, D 1 0); (9, D 1 0); (10, D 1 0); (11, D 1 0); (12, D 1 0); (13, D 2 0); (14, D 15 (-1)); (15, D 2 0); (16, D 1 0); (17, D 1 0); (18, D 1 0); (19, D 1 0); (20, D 1 0); (21, D 1 0); (22, D 1 0); (23, D 1 0); (24, D 1 0); (25, D 1 0); (26, D 3 0); (27, D 1 0); (28, D 1 0); (29, D 1 0); (30, D 1 0); (31, D 1 0); (32, D 1 0); (33, D 1 0); (34, D 1 0); (35, D 1 0); (36, D 1 0); (37, D 1 0); (38, D 1 0); (39, D 1 0); (40, D 1 0); (41, D 1 0); (42, D 1 0); (43, D 1 0); (44, D 1 0); (45, D 1 0); (46, D 1 0); (47, D 1 0); (48, D 1 0); (49, D 1 0); (50, D 1 0); (51, D 1 0); (52, D 1 0)] (Arr (D 4000000000000001 15) (D (-592) (-2)) (D 15801093351861243 (-13))) (D 412 (-3)) (D 195 0) (D 59 2) (D 6394 0)) [(4, (-1)); (12, (-1)); (20, 1)] (-1) [(4, 1); (12, 1)] [(20, 1)] true;
  (* 95: lines 1418-1424 *) mkReac (Arr (D 5600000000000001 (-11)) (D 16 (-1)) (D 27274498715633104 (-13))) (Plain) [(4, (-1)); (5, 1); (10, 1); (12, (-1))] 0 [(4, 1); (12, 1)] [(5, 1); (10, 1)] true;
  (* 96: lines 1427-1433 *) mkReac (Arr (D 6440000000000001 (-1)) (D (-134) (-2)) (D 7130620789677511 (-13))) (Plain) [(4, (-1)); (5, 1); (11, 1); (12, (-1))] 0 [(4, 1); (12, 1)] [(5, 1); (11, 1)] true;
  (* 97: lines 1436-1442 *) mkReac (Arr (D 10000000000000001 (-11)) (D 16 (-1)) (D 15700449445161491 (-13))) (Plain) [(4, (-1)); (5, 1); (12, 1); (13, (-1))] 0 [(4, 1); (13, 1)] [(5, 1); (12, 1)] true;
  (* 98: lines 1445-1451 *) mkReac (Arr (D 4760000000000001 (-11)) (D 1228 (-3)) (D 352253673449136 (-13))) (Plain) [(1, 1); (4, (-1)); (14, (-1)); (15, 1)] 0 [(4, 1); (14, 1)] [(1, 1); (15, 1)] true;
  (* 99: lines 1454-1459 *) mkReac (Pow (D 5000000000000001 (-5)) 0) (Plain) [(4, (-1)); (5, 1); (14, 1); (16, (-1))] 0 [(4, 1); (16, 1)] [(5, 1); (14, 1)] true;
  (* 100: lines 1462-1468 *) mkReac (Arr (D 34300000000000005 (-10)) (D 118 (-2)) (D (-2249391314739483) (-13))) (Plain) [(4, (-1)); (5, 1); (16, 1); (17, (-1))] 0 [(4, 1); (17, 1)] [(5, 1); (16, 1)] true;
  (* 101: lines 1471-1476 *) mkReac (Pow (D 5000000000000001 (-6)) 0) (Plain) [(4, (-1)); (5, 1); (17, 1); (18, (-1))] 0 [(4, 1); (18, 1)] [(5, 1); (17, 1)] true;
  (* 102: lines 1479-1484 *) mkReac (Pow (D 5000000000000001 (-6)) 0) (Plain) [(4, (-1)); (5, 1); (17, 1); (19, (-1))] 0 [(4, 1); (19, 1)] [(5, 1); (17, 1)] true;
  (* 103: lines 1487-1493 *) mkReac (Arr (D 14400000000000002 (-13)) (D 2 0) (D (-42270440813896323) (-14))) (Plain) [(4, (-1)); (5, 1); (18, 1); (20, (-1))] 0 [(4, 1); (20, 1)] [(5, 1); (18, 1)] true;
  (* 104: lines 1496-1502 *) mkReac (Arr (D 6300000000000001 (-12)) (D 2 0) (D 7548293002481486 (-13))) (Plain) [(4, (-1)); (5, 1); (19, 1); (20, (-1))] 0 [(4, 1); (20, 1)] [(5, 1); (19, 1)] true;
  (* 105: lines 1505-1510 *) mkReac (Pow (D 20000000000000004 (-6)) 0) (Plain) [(1, 1); (4, (-1)); (21, (-1)); (27, 1)] 0 [(4, 1); (21, 1)] [(1, 1); (27, 1)] true;
  (* 106: lines 1513-1519 *) mkReac (Arr (D 21800000000000005 (-23)) (D 45 (-1)) (D (-5032195334987657) (-13))) (Plain) [(1, 1); (4, (-1)); (22, (-1)); (28, 1)] 0 [(4, 1); (22, 1)] [(1, 1); (28, 1)] true;
  (* 107: lines 1522-1528 *) mkReac (Arr (D 5040000000000001 (-13)) (D 23 (-1)) (D 6793463702233337 (-12))) (Plain) [(1, 1); (4, (-1)); (22, (-1)); (29, 1)] 0 [(4, 1); (22, 1)] [(1, 1); (29, 1)] true;
  (* 108: lines 1531-1536 *) mkReac (Arr (D 337 2) (D 2 0) (D 704507346898272 (-11))) (Plain) [(4, (-1)); (5, 1); (21, 1); (22, (-1))] 0 [(4, 1); (22, 1)] [(5, 1); (21, 1)] true;
  (* 109: lines 1539-1545 *) mkReac (Arr (D 4830000000000001 (-22)) (D 4 0) (D (-10064390669975314) (-13))) (Plain) [(4, (-1)); (12, 1); (14, 1); (22, (-1))] 0 [(4, 1); (22, 1)] [(12, 1); (14, 1)] true;
  (* 110: lines 1548-1553 *) mkReac (Pow (D 5000000000000001 (-6)) 0) (Plain) [(4, (-1)); (5, 1); (22, 1); (23, (-1))] 0 [(4, 1); (23, 1)] [(5, 1); (22, 1)] true;
  (* 111: lines 1556-1562 *) mkReac (Arr (D 36000000000000005 (-13)) (D 2 0) (D 12580488337469144 (-13))) (Plain) [(4, (-1)); (5, 1); (23, 1); (24, (-1))] 0 [(4, 1); (24, 1)] [(5, 1); (23, 1)] true;
  (* 112: lines 1565-1571 *) mkReac (Arr (D 35400000000000005 (-13)) (D 212 (-2)) (D 4378009941439262 (-13))) (Plain) [(4, (-1)); (5, 1); (25, 1); (26, (-1))] 0 [(4, 1); (26, 1)] [(5, 1); (25, 1)] true;
  (* 113: lines 1574-1579 *) mkReac (Arr (D 7500000000000001 (-6)) (D 0 0) (D 10064390669975314 (-13))) (Plain) [(4, (-1)); (5, 1); (27, 1); (28, (-1))] 0 [(4, 1); (28, 1)] [(5, 1); (27, 1)] true;
  (* 114: lines 1582-1587 *) mkReac (Arr (D 13000000000000001 (-8)) (D 0 0) (D (-8202478396029882) (-13))) (Plain) [(3, 1); (6, (-2)); (7, 1)] 0 [(6, 2)] [(3, 1); (7, 1)] true;
  (* 115: lines 1590-1595 *) mkReac (Arr (D 42000000000000006 (-5)) (D 0 0) (D 6038634401985189 (-12))) (Plain) [(3, 1); (6, (-2)); (7, 1)] 0 [(6, 2)] [(3, 1); (7, 1)] true;
  (* 116: lines 1598-1603 *) mkReac (Pow (D 20000000000000004 (-6)) 0) (Plain) [(4, 1); (6, (-1)); (10, (-1)); (17, 1)] 0 [(6, 1); (10, 1)] [(4, 1); (17, 1)] true;
  (* 117: lines 1606-1611 *) mkReac (Pow (D 10000000000000001 (-7)) 0) (Plain) [(3, 1); (6, (-1)); (12, (-1)); (13, 1)] 0 [(6, 1); (12, 1)] [(3, 1); (13, 1)] true;
  (* 118: lines 1614-1619 *) mkReac (Pow (D 3780000000000001 (-5)) 0) (Plain) [(4, 1); (6, (-1)); (12, (-1)); (19, 1)] 0 [(6, 1); (12, 1)] [(4, 1); (19, 1)] true;
  (* 119: lines 1622-1627 *) mkReac (Arr (D 15000000000000003 (-5)) (D 0 0) (D 11875980990570872 (-12))) (Plain) [(4, 1); (6, (-1)); (14, (-1)); (15, 1)] 0 [(6, 1); (14, 1)] [(4, 1); (15, 1)] true;
  (* 120: lines 1630-1636 *) mkReac (Arr (D 5600000000000001 (-12)) (D 2 0) (D 6038634401985189 (-12))) (Plain) [(6, (-1)); (7, 1); (16, 1); (17, (-1))] 0 [(6, 1); (17, 1)] [(7, 1); (16, 1)] true;
  (* 121: lines 1639-1644 *) mkReac (Arr (D 5800000000000001 (-5)) (D 0 0) (D 28985445129528904 (-14))) (Plain) [(2, 1); (3, (-1)); (8, (-1)); (14, 1)] 0 [(3, 1); (8, 1)] [(2, 1); (14, 1)] true;
  (* 122: lines 1647-1652 *) mkReac (Pow (D 5000000000000001 (-5)) 0) (Plain) [(1, 1); (8, (-1)); (10, (-1)); (21, 1)] 0 [(8, 1); (10, 1)] [(1, 1); (21, 1)] true;
  (* 123: lines 1655-1660 *) mkReac (Pow (D 5000000000000001 (-5)) 0) (Plain) [(1, 1); (8, (-1)); (12, (-1)); (22, 1)] 0 [(8, 1); (12, 1)] [(1, 1); (22, 1)] true;
  (* 124: lines 1663-1668 *) mkReac (Pow (D 6710000000000001 (-5)) 0) (Plain) [(2, 1); (3, (-1)); (9, (-1)); (16, 1)] 0 [(3, 1); (9, 1)] [(2, 1); (16, 1)] true;
  (* 125: lines 1671-1676 *) mkReac (Arr (D 10800000000000002 (-5)) (D 0 0) (D 15650127491811616 (-13))) (Plain) [(0, (-1)); (1, 1); (9, (-1)); (10, 1)] 0 [(0, 1); (9, 1)] [(1, 1); (10, 1)] true;
  (* 126: lines 1679-1684 *) mkReac (Arr (D 5710000000000001 (-6)) (D 0 0) (D (-37993074779156814) (-14))) (Plain) [(1, 1); (5, (-1)); (9, (-1)); (17, 1)] 0 [(5, 1); (9, 1)] [(1, 1); (17, 1)] true;
  (* 127: lines 1687-1692 *) mkReac (Pow (D 4000000000000001 (-5)) 0) (Plain) [(1, 1); (9, (-1)); (10, (-1)); (22, 1)] 0 [(9, 1); (10, 1)] [(1, 1); (22, 1)] true;
  (* 128: lines 1695-1700 *) mkReac (Pow (D 30000000000000004 (-6)) 0) (Plain) [(1, 1); (9, (-1)); (12, (-1)); (23, 1)] 0 [(9, 1); (12, 1)] [(1, 1); (23, 1)] true;
  (* 129: lines 1703-1708 *) mkReac (Pow (D 6000000000000001 (-5)) 0) (Plain) [(1, 1); (9, (-1)); (13, (-1)); (24, 1)] 0 [(9, 1); (13, 1)] [(1, 1); (24, 1)] true;
  (* 130: lines 1711-1739 *) mkReac (Pow (D 5000000000000001 (-5)) 0) (Troe [(0, D 2 0); (1, D 1 0); (2, D 1 0); (3, D 1 0); (4, D 1 0); (5, D 6 0); (6, D 1 0); (7, D 1 0); (8, D 1 0); (9, D 1 0); (10, D 1 0); (11, D 1 0); (12, D 1 0); (13, D 2 0); (14, D 15 (-1)); (15, D 2 0); (16, D 1 0); (17, D 1 0); (18, D 1 0); (19, D 1 0); (20, D 1 0); (21, D 1 0); (22, D 1 0); (23, D 1 0); (24, D 1 0); (25, D 1 0); (26, D 3 0); (27, D 1 0); (28, D 1 0); (29, D 1 0); (30, D 1 0); (31, D 1 0); (32, D 1 0); (33, D 1 0); (34, D 1 0); (35, D 1 0); (36, D 1 0); (37, D 1 0); (38, D 1 0); (39, D 1 0); (40, D 1 0); (41, D 1 0); (42, D 1 0); (43, D 1 0); (44, D 1 0); (45, D 1 0); (46, D 1 0); (47, D 1 0); (48, D 7 (-1)); (49, D 1 0); (50, D 1 0); (51, D 1 0); (52, D 1 0)] (Arr (D 26900000000000003 6) (D (-374) (-2)) (D 9742330168536105 (-13))) (D 5757 (-4)) (D 23700000000000003 (-14)) (D 1652 0) (D 5069 0)) [(9, (-1)); (14, (-1)); (27, 1)] (-1) [(9, 1); (14, 1)] [(27, 1)] true;
  (* 131: lines 1742-1747 *) mkReac (Arr (D 19000000000000003 (-5)) (D 0 0) (D 7946842873012509 (-12))) (Plain) [(9, (-1)); (14, 1); (15, (-1)); (16, 1)] 0 [(9, 1); (15, 1)] [(14, 1); (16, 1)] true;
  (* 132: lines 1750-1755 *) mkReac (Arr (D 9460000000000002 (-5)) (D 0 0) (D (-25915805975186436) (-14))) (Plain) [(1, 1); (9, (-1)); (17, (-1)); (28, 1)] 0 [(9, 1); (17, 1)] [(1, 1); (28, 1)] true;
  (* 133: lines 1758-1763 *) mkReac (Pow (D 5000000000000001 (-5)) 0) (Plain) [(9, (-1)); (14, 1); (22, 1); (27, (-1))] 0 [(9, 1); (27, 1)] [(14, 1); (22, 1)] true;
  (* 134: lines 1766-1771 *) mkReac (Arr (D 5000000000000001 (-6)) (D 0 0) (D 7548293002481486 (-13))) (Plain) [(1, 1); (3, (-1)); (4, 1); (10, (-1)); (14, 1)] 1 [(3, 1); (10, 1)] [(1, 1); (4, 1); (14, 1)] false;
  (* 135: lines 1774-1780 *) mkReac (Arr (D 5000000000000001 (-13)) (D 2 0) (D 3638277227196076 (-12))) (Plain) [(0, (-1)); (1, 1); (10, (-1)); (12, 1)] 0 [(0, 1); (10, 1)] [(1, 1); (12, 1)] true;
  (* 136: lines 1783-1788 *) mkReac (Arr (D 16000000000000002 (-4)) (D 0 0) (D 6010454108109258 (-12))) (Plain) [(0, 1); (10, (-2)); (22, 1)] 0 [(10, 2)] [(0, 1); (22, 1)] true;
  (* 137: lines 1791-1796 *) mkReac (Pow (D 4000000000000001 (-5)) 0) (Plain) [(1, 1); (10, (-1)); (12, (-1)); (24, 1)] 0 [(10, 1); (12, 1)] [(1, 1); (24, 1)] true;
  (* 138: lines 1799-1805 *) mkReac (Arr (D 24600000000000005 (-13)) (D 2 0) (D 41616255420347925 (-13))) (Plain) [(10, (-1)); (12, 2); (13, (-1))] 0 [(10, 1); (13, 1)] [(12, 2)] true;
  (* 139: lines 1808-1837 *) mkReac (Arr (D 8100000000000001 (-7)) (D 5 (-1)) (D 22695200960794336 (-13))) (Troe [(0, D 2 0); (1, D 1 0); (2, D 1 0); (3, D 1 0); (4, D 1 0); (5, D 6 0); (6, D 1 0); (7, D 1 0); (8, D 1 0); (9, D 1 0); (10, D 1 0); (11, D 1 0); (12, D 1 0); (13, D 2 0); (14, D 15 (-1)); (15, D 2 0); (16, D 1 0); (17, D 1 0); (18, D 1 0); (19, D 1 0); (20, D 1 0); (21, D 1 0); (22, D 1 0); (23, D 1 0); (24, D 1 0); (25, D 1 0); (26, D 3 0); (27, D 1 0); (28, D 1 0); (29, D 1 0); (30, D 1 0); (31, D 1 0); (32, D 1 0); (33, D 1 0); (34, D 1 0); (35, D 1 0); (36, D 1 0); (37, D 1 0); (38, D 1 0); (39, D 1 0); (40, D 1 0); (41, D 1 0); (42, D 1 0); (43, D 1 0); (44, D 1 0); (45, D 1 0); (46, D 1 0); (47, D 1 0); (48, D 7 (-1)); (49, D 1 0); (50, D 1 0); (51, D 1 0); (52, D 1 0)] (Arr (D 26900000000000006 11) (D (-511) (-2)) (D 3570342590173743 (-12))) (D 5907 (-4)) (D 275 0) (D 1226 0) (D 5185 0)) [(10, (-1)); (14, (-1)); (28, 1)] (-1) [(10, 1); (14, 1)] [(28, 1)] true;
  (* 140: lines 1840-1845 *) mkReac (Pow (D 30000000000000004 (-6)) 0) (Plain) [(10, (-1)); (14, 1); (23, 1); (27, (-1))] 0 [(10, 1); (27, 1)] [(14, 1); (23, 1)] true;
  (* 141: lines 1848-1853 *) mkReac (Arr (D 15000000000000002 (-6)) (D 0 0) (D 30193172009925945 (-14))) (Plain) [(10, 1); (11, (-1))] 0 [(11, 1); (47, 1)] [(10, 1); (47, 1)] true;
  (* 142: lines 1856-1861 *) mkReac (Arr (D 9000000000000002 (-6)) (D 0 0) (D 30193172009925945 (-14))) (Plain) [(10, 1); (11, (-1))] 0 [(11, 1); (48, 1)] [(10, 1); (48, 1)] true;
  (* 143: lines 1864-1869 *) mkReac (Pow (D 28000000000000004 (-6)) 0) (Plain) [(1, 1); (3, (-1)); (4, 1); (11, (-1)); (14, 1)] 1 [(3, 1); (11, 1)] [(1, 1); (4, 1); (14, 1)] true;
  (* 144: lines 1872-1877 *) mkReac (Pow (D 12000000000000002 (-6)) 0) (Plain) [(3, (-1)); (5, 1); (11, (-1)); (14, 1)] 0 [(3, 1); (11, 1)] [(5, 1); (14, 1)] true;
  (* 145: lines 1880-1885 *) mkReac (Pow (D 7000000000000002 (-5)) 0) (Plain) [(0, (-1)); (1, 1); (11, (-1)); (12, 1)] 0 [(0, 1); (11, 1)] [(1, 1); (12, 1)] true;
  (* 146: lines 1888-1917 *) mkReac (Arr (D 48200000000000006 (-2)) (D (-116) (-2)) (D 5761863658560868 (-13))) (Troe [(0, D 2 0); (1, D 1 0); (2, D 1 0); (3, D 1 0); (4, D 1 0); (5, D 6 0); (6, D 1 0); (7, D 1 0); (8, D 1 0); (9, D 1 0); (10, D 1 0); (11, D 1 0); (12, D 1 0); (13, D 2 0); (14, D 15 (-1)); (15, D 2 0); (16, D 1 0); (17, D 1 0); (18, D 1 0); (19, D 1 0); (20, D 1 0); (21, D 1 0); (22, D 1 0); (23, D 1 0); (24, D 1 0); (25, D 1 0); (26, D 3 0); (27, D 1 0); (28, D 1 0); (29, D 1 0); (30, D 1 0); (31, D 1 0); (32, D 1 0); (33, D 1 0); (34, D 1 0); (35, D 1 0); (36, D 1 0); (37, D 1 0); (38, D 1 0); (39, D 1 0); (40, D 1 0); (41, D 1 0); (42, D 1 0); (43, D 1 0); (44, D 1 0); (45, D 1 0); (46, D 1 0); (47, D 1 0); (48, D 1 0); (49, D 1 0); (50, D 1 0); (51, D 1 0); (52, D 1 0)] (Arr (D 188 30) (D (-636) (-2)) (D 2536226448833779 (-12))) (D 6027 (-4)) (D 208 0) (D 39219999999999995 (-13)) (D 1018 1)) [(5, (-1)); (11, (-1)); (20, 1)] (-1) [(5, 1); (11, 1)] [(20, 1)] true;
  (* 147: lines 1920-1925 *) mkReac (Pow (D 30000000000000004 (-6)) 0) (Plain) [(10, 1); (11, (-1))] 0 [(5, 1); (11, 1)] [(5, 1); (10, 1)] true;
  (* 148: lines 1928-1933 *) mkReac (Arr (D 12000000000000002 (-6)) (D 0 0) (D (-28683513409429645) (-14))) (Plain) [(1, 1); (11, (-1)); (12, (-1)); (24, 1)] 0 [(11, 1); (12, 1)] [(1, 1); (24, 1)] true;
  (* 149: lines 1936-1941 *) mkReac (Arr (D 16000000000000002 (-6)) (D 0 0) (D (-28683513409429645) (-14))) (Plain) [(11, (-1)); (12, 2); (13, (-1))] 0 [(11, 1); (13, 1)] [(12, 2)] true;
  (* 150: lines 1944-1949 *) mkReac (Pow (D 9000000000000002 (-6)) 0) (Plain) [(10, 1); (11, (-1))] 0 [(11, 1); (14, 1)] [(10, 1); (14, 1)] true;
  (* 151: lines 1952-1957 *) mkReac (Pow (D 7000000000000001 (-6)) 0) (Plain) [(10, 1); (11, (-1))] 0 [(11, 1); (15, 1)] [(10, 1); (15, 1)] true;
  (* 152: lines 1960-1965 *) mkReac (Pow (D 14000000000000002 (-6)) 0) (Plain) [(11, (-1)); (14, 1); (15, (-1)); (17, 1)] 0 [(11, 1); (15, 1)] [(14, 1); (17, 1)] true;
  (* 153: lines 1968-1973 *) mkReac (Arr (D 4000000000000001 (-5)) (D 0 0) (D (-27677074342432115) (-14))) (Plain) [(11, (-1)); (12, 1); (25, 1); (26, (-1))] 0 [(11, 1); (26, 1)] [(12, 1); (25, 1)] true;
  (* 154: lines 1976-1981 *) mkReac (Arr (D 3560000000000001 (-5)) (D 0 0) (D 1533813138104238 (-11))) (Plain) [(2, 1); (3, (-1)); (12, (-1)); (19, 1)] 0 [(3, 1); (12, 1)] [(2, 1); (19, 1)] true;
  (* 155: lines 1984-1989 *) mkReac (Arr (D 23100000000000005 (-7)) (D 0 0) (D 10222904823027426 (-12))) (Plain) [(3, (-1)); (4, 1); (12, (-1)); (17, 1)] 0 [(3, 1); (12, 1)] [(4, 1); (17, 1)] true;
  (* 156: lines 1992-1998 *) mkReac (Arr (D 24500000000000004 (-15)) (D 247 (-2)) (D 26066771835236063 (-13))) (Plain) [(6, 1); (7, (-1)); (12, (-1)); (13, 1)] 0 [(7, 1); (12, 1)] [(6, 1); (13, 1)] true;
  (* 157: lines 2001-2030 *) mkReac (Arr (D 6770000000000001 (-2)) (D (-118) (-2)) (D 3291055749081928 (-13))) (Troe [(0, D 2 0); (1, D 1 0); (2, D 1 0); (3, D 1 0); (4, D 1 0); (5, D 6 0); (6, D 1 0); (7, D 1 0); (8, D 1 0); (9, D 1 0); (10, D 1 0); (11, D 1 0); (12, D 1 0); (13, D 2 0); (14, D 15 (-1)); (15, D 2 0); (16, D 1 0); (17, D 1 0); (18, D 1 0); (19, D 1 0); (20, D 1 0); (21, D 1 0); (22, D 1 0); (23, D 1 0); (24, D 1 0); (25, D 1 0); (26, D 3 0); (27, D 1 0); (28, D 1 0); (29, D 1 0); (30, D 1 0); (31, D 1 0); (32, D 1 0); (33, D 1 0); (34, D 1 0); (35, D 1 0); (36, D 1 0); (37, D 1 0); (38, D 1 0); (39, D 1 0); (40, D 1 0); (41, D 1 0); (42, D 1 0); (43, D 1 0); (44, D 1 0); (45, D 1 0); (46, D 1 0); (47, D 1 0); (48, D 7 (-1)); (49, D 1 0); (50, D 1 0); (51, D 1 0); (52, D 1 0)] (Arr (D 3400000000000001 20) (D (-703) (-2)) (D 1389892351523591 (-12))) (D 619 (-3)) (D 732 (-1)) (D 118 1) (D 9999 0)) [(12, (-2)); (26, 1)] (-1) [(12, 2)] [(26, 1)] true;
  (* 158: lines 2033-2039 *) mkReac (Arr (D 6840000000000001 (-6)) (D 1 (-1)) (D 5334127055086917 (-12))) (Plain) [(1, 1); (12, (-2)); (25, 1)] 0 [(12, 2)] [(1, 1); (25, 1)] true;
  (* 159: lines 2042-2047 *) mkReac (Pow (D 26480000000000004 (-6)) 0) (Plain) [(12, (-1)); (13, 1); (14, 1); (16, (-1))] 0 [(12, 1); (16, 1)] [(13, 1); (14, 1)] true;
  (* 160: lines 2050-2056 *) mkReac (Arr (D 33200000000000003 (-16)) (D 281 (-2)) (D 2948866466302767 (-12))) (Plain) [(12, (-1)); (13, 1); (16, 1); (17, (-1))] 0 [(12, 1); (17, 1)] [(13, 1); (16, 1)] true;
  (* 161: lines 2059-2065 *) mkReac (Arr (D 30000000000000004 (-12)) (D 15 (-1)) (D 5002002162977731 (-12))) (Plain) [(12, (-1)); (13, 1); (18, 1); (20, (-1))] 0 [(12, 1); (20, 1)] [(13, 1); (18, 1)] true;
  (* 162: lines 2068-2074 *) mkReac (Arr (D 10000000000000002 (-12)) (D 15 (-1)) (D 5002002162977731 (-12))) (Plain) [(12, (-1)); (13, 1); (19, 1); (20, (-1))] 0 [(12, 1); (20, 1)] [(13, 1); (19, 1)] true;
  (* 163: lines 2077-2083 *) mkReac (Arr (D 22700000000000003 (-14)) (D 2 0) (D 4629619708188645 (-12))) (Plain) [(12, (-1)); (13, 1); (23, 1); (24, (-1))] 0 [(12, 1); (24, 1)] [(13, 1); (23, 1)] true;
  (* 164: lines 2086-2092 *) mkReac (Arr (D 6140000000000002 (-12)) (D 174 (-2)) (D 5258644125062102 (-12))) (Plain) [(12, (-1)); (13, 1); (25, 1); (26, (-1))] 0 [(12, 1); (26, 1)] [(13, 1); (25, 1)] true;
  (* 165: lines 2095-2104 *) mkReac (Arr (D 15000000000000002 (-1)) (D (-1) 0) (D 8554732069479018 (-12))) (Third [(5, D 1 0)]) [(1, 1); (14, 1); (16, (-1))] 1 [(16, 1)] [(1, 1); (14, 1)] true;
  (* 166: lines 2107-2124 *) mkReac (Arr (D 18700000000000003 (-2)) (D (-1) 0) (D 8554732069479018 (-12))) (Third [(0, D 2 0); (1, D 1 0); (2, D 1 0); (3, D 1 0); (4, D 1 0); (6, D 1 0); (7, D 1 0); (8, D 1 0); (9, D 1 0); (10, D 1 0); (11, D 1 0); (12, D 1 0); (13, D 2 0); (14, D 15 (-1)); (15, D 2 0); (16, D 1 0); (17, D 1 0); (18, D 1 0); (19, D 1 0); (20, D 1 0); (21, D 1 0); (22, D 1 0); (23, D 1 0); (24, D 1 0); (25, D 1 0); (26, D 3 0); (27, D 1 0); (28, D 1 0); (29, D 1 0); (30, D 1 0); (31, D 1 0); (32, D 1 0); (33, D 1 0); (34, D 1 0); (35, D 1 0); (36, D 1 0); (37, D 1 0); (38, D 1 0); (39, D 1 0); (40, D 1 0); (41, D 1 0); (42, D 1 0); (43, D 1 0); (44, D 1 0); (45, D 1 0); (46, D 1 0); (47, D 1 0); (48, D 1 0); (49, D 1 0); (50, D 1 0); (51, D 1 0); (52, D 1 0)]) [(1, 1); (14, 1); (16, (-1))] 1 [(16, 1)] [(1, 1); (14, 1)] true;
  (* 167: lines 2127-2132 *) mkReac (Arr (D 13450000000000002 (-6)) (D 0 0) (D 2012878133995063 (-13))) (Plain) [(3, (-1)); (6, 1); (14, 1); (16, (-1))] 0 [(3, 1); (16, 1)] [(6, 1); (14, 1)] true;
  (* 168: lines 2135-2140 *) mkReac (Arr (D 18000000000000004 (-6)) (D 0 0) (D 4528975801488892 (-13))) (Plain) [(3, (-1)); (6, 1); (17, 1); (18, (-1))] 0 [(3, 1); (18, 1)] [(6, 1); (17, 1)] true;
  (* 169: lines 2143-2149 *) mkReac (Arr (D 42800000000000005 (-32)) (D 76 (-1)) (D (-1776364953250643) (-12))) (Plain) [(3, (-1)); (6, 1); (17, 1); (19, (-1))] 0 [(3, 1); (19, 1)] [(6, 1); (17, 1)] true;
  (* 170: lines 2152-2157 *) mkReac (Arr (D 10000000000000002 (-6)) (D 0 0) (D (-37993074779156814) (-14))) (Plain) [(3, (-1)); (14, 1); (16, 1); (21, (-1))] 0 [(3, 1); (21, 1)] [(14, 1); (16, 1)] true;
  (* 171: lines 2160-2166 *) mkReac (Arr (D 5680000000000001 (-8)) (D 9 (-1)) (D 10029165302630402 (-13))) (Plain) [(0, (-1)); (1, 1); (21, (-1)); (22, 1)] 0 [(0, 1); (21, 1)] [(1, 1); (22, 1)] true;
  (* 172: lines 2169-2175 *) mkReac (Arr (D 4580000000000001 (-2)) (D (-139) (-2)) (D 5107678265012472 (-13))) (Plain) [(3, (-1)); (16, 1); (17, 1); (23, (-1))] 0 [(3, 1); (23, 1)] [(16, 1); (17, 1)] true;
  (* 173: lines 2178-2207 *) mkReac (Arr (D 8 12) (D 44 (-2)) (D 43664358921687905 (-12))) (Troe [(0, D 2 0); (1, D 1 0); (2, D 1 0); (3, D 1 0); (4, D 1 0); (5, D 6 0); (6, D 1 0); (7, D 1 0); (8, D 1 0); (9, D 1 0); (10, D 1 0); (11, D 1 0); (12, D 1 0); (13, D 2 0); (14, D 15 (-1)); (15, D 2 0); (16, D 1 0); (17, D 1 0); (18, D 1 0); (19, D 1 0); (20, D 1 0); (21, D 1 0); (22, D 1 0); (23, D 1 0); (24, D 1 0); (25, D 1 0); (26, D 3 0); (27, D 1 0); (28, D 1 0); (29, D 1 0); (30, D 1 0); (31, D 1 0); (32, D 1 0); (33, D 1 0); (34, D 1 0); (35, D 1 0); (36, D 1 0); (37, D 1 0); (38, D 1 0); (39, D 1 0); (40, D 1 0); (41, D 1 0); (42, D 1 0); (43, D 1 0); (44, D 1 0); (45, D 1 0); (46, D 1 0); (47, D 1 0); (48, D 7 (-1)); (49, D 1 0); (50, D 1 0); (51, D 1 0); (52, D 1 0)] (Arr (D 15800000000000006 32) (D (-93) (-1)) (D 49214870376179286 (-12))) (D 7345 (-4)) (D 18 1) (D 1035 0) (D 5417 0)) [(0, 1); (22, 1); (24, (-1))] 1 [(24, 1)] [(0, 1); (22, 1)] true;
  (* 174: lines 2210-2215 *) mkReac (Arr (D 8400000000000001 (-7)) (D 0 0) (D 19499756923077173 (-13))) (Plain) [(3, (-1)); (6, 1); (24, 1); (25, (-1))] 0 [(3, 1); (25, 1)] [(6, 1); (24, 1)] true;
  (* 175: lines 2218-2223 *) mkReac (Arr (D 32000000000000005 (-7)) (D 0 0) (D 42974948160794594 (-14))) (Plain) [(3, (-1)); (4, 1); (14, 2); (27, (-1))] 1 [(3, 1); (27, 1)] [(4, 1); (14, 2)] true;
  (* 176: lines 2226-2231 *) mkReac (Pow (D 10000000000000002 (-6)) 0) (Plain) [(14, 2); (22, 1); (27, (-2))] 1 [(27, 2)] [(14, 2); (22, 1)] true;
  (* 177: lines 2234-2239 *) mkReac (Arr (D 27000000000000004 (-6)) (D 0 0) (D 17864293439206185 (-14))) (Plain) [(2, 1); (30, (-1)); (35, (-1)); (47, 1)] 0 [(30, 1); (35, 1)] [(2, 1); (47, 1)] true;
  (* 178: lines 2242-2248 *) mkReac (Arr (D 9000000000000002 (-9)) (D 1 0) (D 32709269677419775 (-13))) (Plain) [(2, 1); (3, (-1)); (30, (-1)); (35, 1)] 0 [(3, 1); (30, 1)] [(2, 1); (35, 1)] true;
  (* 179: lines 2251-2256 *) mkReac (Arr (D 33600000000000008 (-6)) (D 0 0) (D 19373952039702482 (-14))) (Plain) [(1, 1); (4, (-1)); (30, (-1)); (35, 1)] 0 [(4, 1); (30, 1)] [(1, 1); (35, 1)] true;
  (* 180: lines 2259-2264 *) mkReac (Arr (D 14000000000000002 (-7)) (D 0 0) (D 5439803157121658 (-12))) (Plain) [(2, (-1)); (3, 1); (37, (-1)); (47, 1)] 0 [(2, 1); (37, 1)] [(3, 1); (47, 1)] true;
  (* 181: lines 2267-2272 *) mkReac (Arr (D 29000000000000004 (-6)) (D 0 0) (D 11649532200496427 (-12))) (Plain) [(2, (-1)); (35, 2); (37, (-1))] 0 [(2, 1); (37, 1)] [(35, 2)] true;
  (* 182: lines 2275-2280 *) mkReac (Arr (D 38700000000000006 (-5)) (D 0 0) (D 9500784792456698 (-12))) (Plain) [(1, (-1)); (4, 1); (37, (-1)); (47, 1)] 0 [(1, 1); (37, 1)] [(4, 1); (47, 1)] true;
  (* 183: lines 2283-2288 *) mkReac (Arr (D 20000000000000002 (-7)) (D 0 0) (D 10597803375484007 (-12))) (Plain) [(4, (-1)); (6, 1); (37, (-1)); (47, 1)] 0 [(4, 1); (37, 1)] [(6, 1); (47, 1)] true;
  (* 184: lines 2291-2312 *) mkReac (Arr (D 791 8) (D 0 0) (D 28190358266600855 (-12))) (Lindemann [(0, D 2 0); (1, D 1 0); (2, D 1 0); (3, D 1 0); (4, D 1 0); (5, D 6 0); (6, D 1 0); (7, D 1 0); (8, D 1 0); (9, D 1 0); (10, D 1 0); (11, D 1 0); (12, D 1 0); (13, D 2 0); (14, D 15 (-1)); (15, D 2 0); (16, D 1 0); (17, D 1 0); (18, D 1 0); (19, D 1 0); (20, D 1 0); (21, D 1 0); (22, D 1 0); (23, D 1 0); (24, D 1 0); (25, D 1 0); (26, D 3 0); (27, D 1 0); (28, D 1 0); (29, D 1 0); (30, D 1 0); (31, D 1 0); (32, D 1 0); (33, D 1 0); (34, D 1 0); (35, D 1 0); (36, D 1 0); (37, D 1 0); (38, D 1 0); (39, D 1 0); (40, D 1 0); (41, D 1 0); (42, D 1 0); (43, D 1 0); (44, D 1 0); (45, D 1 0); (46, D 1 0); (47, D 1 0); (48, D 625 (-3)); (49, D 1 0); (50, D 1 0); (51, D 1 0); (52, D 1 0)] (Arr (D 6370000000000001 (-4)) (D 0 0) (D 2850235437737009 (-11)))) [(2, 1); (37, (-1)); (47, 1)] 1 [(37, 1)] [(2, 1); (47, 1)] true;
  (* 185: lines 2315-2320 *) mkReac (Arr (D 21100000000000005 (-7)) (D 0 0) (D (-24154537607940756) (-14))) (Plain) [(4, 1); (6, (-1)); (35, (-1)); (36, 1)] 0 [(6, 1); (35, 1)] [(4, 1); (36, 1)] true;
  (* 186: lines 2323-2339 *) mkReac (Arr (D 10600000000000002 (-2)) (D (-141) (-2)) (D 0 0)) (Third [(0, D 2 0); (1, D 1 0); (2, D 1 0); (3, D 1 0); (4, D 1 0); (5, D 6 0); (6, D 1 0); (7, D 1 0); (8, D 1 0); (9, D 1 0); (10, D 1 0); (11, D 1 0); (12, D 1 0); (13, D 2 0); (14, D 15 (-1)); (15, D 2 0); (16, D 1 0); (17, D 1 0); (18, D 1 0); (19, D 1 0); (20, D 1 0); (21, D 1 0); (22, D 1 0); (23, D 1 0); (24, D 1 0); (25, D 1 0); (26, D 3 0); (27, D 1 0); (28, D 1 0); (29, D 1 0); (30, D 1 0); (31, D 1 0); (32, D 1 0); (33, D 1 0); (34, D 1 0); (35, D 1 0); (36, D 1 0); (37, D 1 0); (38, D 1 0); (39, D 1 0); (40, D 1 0); (41, D 1 0); (42, D 1 0); (43, D 1 0); (44, D 1 0); (45, D 1 0); (46, D 1 0); (47, D 1 0); (48, D 7 (-1)); (49, D 1 0); (50, D 1 0); (51, D 1 0); (52, D 1 0)]) [(2, (-1)); (35, (-1)); (36, 1)] (-1) [(2, 1); (35, 1)] [(36, 1)] true;
  (* 187: lines 2342-2347 *) mkReac (Arr (D 39000000000000005 (-7)) (D 0 0) (D (-12077268803970378) (-14))) (Plain) [(2, (-1)); (3, 1); (35, 1); (36, (-1))] 0 [(2, 1); (36, 1)] [(3, 1); (35, 1)] true;
  (* 188: lines 2350-2355 *) mkReac (Arr (D 13200000000000002 (-5)) (D 0 0) (D 18115903205955567 (-14))) (Plain) [(1, (-1)); (4, 1); (35, 1); (36, (-1))] 0 [(1, 1); (36, 1)] [(4, 1); (35, 1)] true;
  (* 189: lines 2358-2363 *) mkReac (Pow (D 4000000000000001 (-5)) 0) (Plain) [(1, 1); (2, (-1)); (31, (-1)); (35, 1)] 0 [(2, 1); (31, 1)] [(1, 1); (35, 1)] true;
  (* 190: lines 2366-2371 *) mkReac (Arr (D 32000000000000004 (-6)) (D 0 0) (D 1660624460545927 (-13))) (Plain) [(0, 1); (1, (-1)); (30, 1); (31, (-1))] 0 [(1, 1); (31, 1)] [(0, 1); (30, 1)] true;
  (* 191: lines 2374-2379 *) mkReac (Pow (D 20000000000000004 (-6)) 0) (Plain) [(1, 1); (4, (-1)); (31, (-1)); (38, 1)] 0 [(4, 1); (31, 1)] [(1, 1); (38, 1)] true;
  (* 192: lines 2382-2387 *) mkReac (Arr (D 20000000000000002 (-10)) (D 12 (-1)) (D 0 0)) (Plain) [(4, (-1)); (5, 1); (30, 1); (31, (-1))] 0 [(4, 1); (31, 1)] [(5, 1); (30, 1)] true;
  (* 193: lines 2390-2396 *) mkReac (Arr (D 46100000000000006 (-14)) (D 2 0) (D 32709269677419775 (-13))) (Plain) [(2, 1); (3, (-1)); (31, (-1)); (38, 1)] 0 [(3, 1); (31, 1)] [(2, 1); (38, 1)] true;
  (* 194: lines 2399-2405 *) mkReac (Arr (D 12800000000000002 (-13)) (D 15 (-1)) (D 5032195334987657 (-14))) (Plain) [(3, (-1)); (4, 1); (31, (-1)); (35, 1)] 0 [(3, 1); (31, 1)] [(4, 1); (35, 1)] true;
  (* 195: lines 2408-2413 *) mkReac (Pow (D 15000000000000002 (-6)) 0) (Plain) [(1, 1); (30, (-1)); (31, (-1)); (47, 1)] 0 [(30, 1); (31, 1)] [(1, 1); (47, 1)] true;
  (* 196: lines 2416-2421 *) mkReac (Arr (D 20000000000000004 (-6)) (D 0 0) (D 6969590538957906 (-12))) (Plain) [(0, 1); (5, (-1)); (31, (-1)); (38, 1)] 0 [(5, 1); (31, 1)] [(0, 1); (38, 1)] true;
  (* 197: lines 2424-2429 *) mkReac (Arr (D 21600000000000004 (-6)) (D (-23) (-2)) (D 0 0)) (Plain) [(4, 1); (31, (-1)); (35, (-1)); (47, 1)] 0 [(31, 1); (35, 1)] [(4, 1); (47, 1)] true;
  (* 198: lines 2432-2437 *) mkReac (Arr (D 36500000000000006 (-5)) (D (-45) (-2)) (D 0 0)) (Plain) [(1, 1); (31, (-1)); (35, (-1)); (37, 1)] 0 [(31, 1); (35, 1)] [(1, 1); (37, 1)] true;
  (* 199: lines 2440-2445 *) mkReac (Pow (D 30000000000000005 (-7)) 0) (Plain) [(2, (-1)); (4, 1); (31, 1); (32, (-1))] 0 [(2, 1); (32, 1)] [(4, 1); (31, 1)] true;
  (* 200: lines 2448-2453 *) mkReac (Pow (D 3900000000000001 (-5)) 0) (Plain) [(1, 1); (2, (-1)); (32, (-1)); (38, 1)] 0 [(2, 1); (32, 1)] [(1, 1); (38, 1)] true;
  (* 201: lines 2456-2461 *) mkReac (Arr (D 4000000000000001 (-5)) (D 0 0) (D 1836751297270495 (-12))) (Plain) [(0, 1); (1, (-1)); (31, 1); (32, (-1))] 0 [(1, 1); (32, 1)] [(0, 1); (31, 1)] true;
  (* 202: lines 2464-2470 *) mkReac (Arr (D 9000000000000001 (-11)) (D 15 (-1)) (D (-23148098540943224) (-14))) (Plain) [(4, (-1)); (5, 1); (31, 1); (32, (-1))] 0 [(4, 1); (32, 1)] [(5, 1); (31, 1)] true;
  (* 203: lines 2473-2478 *) mkReac (Pow (D 33 7) 0) (Plain) [(1, 1); (34, (-1)); (47, 1)] 1 [(34, 1)] [(1, 1); (47, 1)] true;
  (* 204: lines 2481-2498 *) mkReac (Arr (D 13000000000000002 (-5)) (D (-11) (-2)) (D 2506033276823853 (-12))) (Third [(0, D 2 0); (1, D 1 0); (2, D 1 0); (3, D 1 0); (4, D 1 0); (5, D 6 0); (6, D 1 0); (7, D 1 0); (8, D 1 0); (9, D 1 0); (10, D 1 0); (11, D 1 0); (12, D 1 0); (13, D 2 0); (14, D 15 (-1)); (15, D 2 0); (16, D 1 0); (17, D 1 0); (18, D 1 0); (19, D 1 0); (20, D 1 0); (21, D 1 0); (22, D 1 0); (23, D 1 0); (24, D 1 0); (25, D 1 0); (26, D 3 0); (27, D 1 0); (28, D 1 0); (29, D 1 0); (30, D 1 0); (31, D 1 0); (32, D 1 0); (33, D 1 0); (34, D 1 0); (35, D 1 0); (36, D 1 0); (37, D 1 0); (38, D 1 0); (39, D 1 0); (40, D 1 0); (41, D 1 0); (42, D 1 0); (43, D 1 0); (44, D 1 0); (45, D 1 0); (46, D 1 0); (47, D 1 0); (48, D 7 (-1)); (49, D 1 0); (50, D 1 0); (51, D 1 0); (52, D 1 0)]) [(1, 1); (34, (-1)); (47, 1)] 1 [(34, 1)] [(1, 1); (47, 1)] true;
  (* 205: lines 2501-2506 *) mkReac (Pow (D 5000000000000001 (-6)) 0) (Plain) [(3, (-1)); (6, 1); (34, (-1)); (47, 1)] 0 [(3, 1); (34, 1)] [(6, 1); (47, 1)] true;
  (* 206: lines 2509-2514 *) mkReac (Pow (D 25000000000000004 (-6)) 0) (Plain) [(2, (-1)); (4, 1); (34, (-1)); (47, 1)] 0 [(2, 1); (34, 1)] [(4, 1); (47, 1)] true;
  (* 207: lines 2517-2522 *) mkReac (Pow (D 7000000000000002 (-5)) 0) (Plain) [(2, (-1)); (31, 1); (34, (-1)); (35, 1)] 0 [(2, 1); (34, 1)] [(31, 1); (35, 1)] true;
  (* 208: lines 2525-2530 *) mkReac (Pow (D 5000000000000001 (-5)) 0) (Plain) [(0, 1); (1, (-1)); (34, (-1)); (47, 1)] 0 [(1, 1); (34, 1)] [(0, 1); (47, 1)] true;
  (* 209: lines 2533-2538 *) mkReac (Pow (D 20000000000000004 (-6)) 0) (Plain) [(4, (-1)); (5, 1); (34, (-1)); (47, 1)] 0 [(4, 1); (34, 1)] [(5, 1); (47, 1)] true;
  (* 210: lines 2541-2546 *) mkReac (Pow (D 25000000000000004 (-6)) 0) (Plain) [(12, (-1)); (13, 1); (34, (-1)); (47, 1)] 0 [(12, 1); (34, 1)] [(13, 1); (47, 1)] true;
  (* 211: lines 2549-2566 *) mkReac (Arr (D 4480000000000001 (-2)) (D (-132) (-2)) (D 37238245478908664 (-14))) (Third [(0, D 2 0); (1, D 1 0); (2, D 1 0); (3, D 1 0); (4, D 1 0); (5, D 6 0); (6, D 1 0); (7, D 1 0); (8, D 1 0); (9, D 1 0); (10, D 1 0); (11, D 1 0); (12, D 1 0); (13, D 2 0); (14, D 15 (-1)); (15, D 2 0); (16, D 1 0); (17, D 1 0); (18, D 1 0); (19, D 1 0); (20, D 1 0); (21, D 1 0); (22, D 1 0); (23, D 1 0); (24, D 1 0); (25, D 1 0); (26, D 3 0); (27, D 1 0); (28, D 1 0); (29, D 1 0); (30, D 1 0); (31, D 1 0); (32, D 1 0); (33, D 1 0); (34, D 1 0); (35, D 1 0); (36, D 1 0); (37, D 1 0); (38, D 1 0); (39, D 1 0); (40, D 1 0); (41, D 1 0); (42, D 1 0); (43, D 1 0); (44, D 1 0); (45, D 1 0); (46, D 1 0); (47, D 1 0); (48, D 7 (-1)); (49, D 1 0); (50, D 1 0); (51, D 1 0); (52, D 1 0)]) [(1, (-1)); (35, (-1)); (38, 1)] (-1) [(1, 1); (35, 1)] [(38, 1)] true;
  (* 212: lines 2569-2574 *) mkReac (Pow (D 25000000000000004 (-6)) 0) (Plain) [(2, (-1)); (4, 1); (35, 1); (38, (-1))] 0 [(2, 1); (38, 1)] [(4, 1); (35, 1)] true;
  (* 213: lines 2577-2583 *) mkReac (Arr (D 9000000000000001 (-7)) (D 72 (-2)) (D 3321248921091854 (-13))) (Plain) [(0, 1); (1, (-1)); (35, 1); (38, (-1))] 0 [(1, 1); (38, 1)] [(0, 1); (35, 1)] true;
  (* 214: lines 2586-2592 *) mkReac (Arr (D 13000000000000002 (-12)) (D 19 (-1)) (D (-4780585568238275) (-13))) (Plain) [(4, (-1)); (5, 1); (35, 1); (38, (-1))] 0 [(4, 1); (38, 1)] [(5, 1); (35, 1)] true;
  (* 215: lines 2595-2600 *) mkReac (Arr (D 10000000000000002 (-6)) (D 0 0) (D 6541853935483955 (-12))) (Plain) [(3, (-1)); (6, 1); (35, 1); (38, (-1))] 0 [(3, 1); (38, 1)] [(6, 1); (35, 1)] true;
  (* 216: lines 2603-2608 *) mkReac (Pow (D 7700000000000002 (-5)) 0) (Plain) [(2, (-1)); (14, 1); (30, 1); (39, (-1))] 0 [(2, 1); (39, 1)] [(14, 1); (30, 1)] true;
  (* 217: lines 2611-2616 *) mkReac (Pow (D 4000000000000001 (-5)) 0) (Plain) [(1, 1); (4, (-1)); (39, (-1)); (46, 1)] 0 [(4, 1); (39, 1)] [(1, 1); (46, 1)] true;
  (* 218: lines 2619-2624 *) mkReac (Arr (D 8000000000000001 (-6)) (D 0 0) (D 37540177199007926 (-13))) (Plain) [(4, 1); (5, (-1)); (39, (-1)); (40, 1)] 0 [(5, 1); (39, 1)] [(4, 1); (40, 1)] true;
  (* 219: lines 2627-2632 *) mkReac (Arr (D 6140000000000001 (-6)) (D 0 0) (D (-2214165947394569) (-13))) (Plain) [(2, 1); (3, (-1)); (39, (-1)); (46, 1)] 0 [(3, 1); (39, 1)] [(2, 1); (46, 1)] true;
  (* 220: lines 2635-2641 *) mkReac (Arr (D 29500000000000006 (-14)) (D 245 (-2)) (D 11272117550372352 (-13))) (Plain) [(0, (-1)); (1, 1); (39, (-1)); (40, 1)] 0 [(0, 1); (39, 1)] [(1, 1); (40, 1)] true;
  (* 221: lines 2644-2649 *) mkReac (Pow (D 23500000000000004 (-6)) 0) (Plain) [(2, (-1)); (14, 1); (35, 1); (46, (-1))] 0 [(2, 1); (46, 1)] [(14, 1); (35, 1)] true;
  (* 222: lines 2652-2657 *) mkReac (Pow (D 5400000000000001 (-5)) 0) (Plain) [(1, (-1)); (14, 1); (31, 1); (46, (-1))] 0 [(1, 1); (46, 1)] [(14, 1); (31, 1)] true;
  (* 223: lines 2660-2665 *) mkReac (Pow (D 25000000000000005 (-7)) 0) (Plain) [(1, 1); (4, (-1)); (14, 1); (35, 1); (46, (-1))] 1 [(4, 1); (46, 1)] [(1, 1); (14, 1); (35, 1)] true;
  (* 224: lines 2668-2673 *) mkReac (Pow (D 20000000000000004 (-6)) 0) (Plain) [(14, 1); (30, (-1)); (46, (-1)); (47, 1)] 0 [(30, 1); (46, 1)] [(14, 1); (47, 1)] true;
  (* 225: lines 2676-2681 *) mkReac (Arr (D 20000000000000002 (-7)) (D 0 0) (D 10064390669975315 (-12))) (Plain) [(3, (-1)); (15, 1); (35, 1); (46, (-1))] 0 [(3, 1); (46, 1)] [(15, 1); (35, 1)] true;
  (* 226: lines 2684-2700 *) mkReac (Arr (D 31000000000000006 (-5)) (D 0 0) (D 27199015785608288 (-12))) (Third [(0, D 2 0); (1, D 1 0); (2, D 1 0); (3, D 1 0); (4, D 1 0); (5, D 6 0); (6, D 1 0); (7, D 1 0); (8, D 1 0); (9, D 1 0); (10, D 1 0); (11, D 1 0); (12, D 1 0); (13, D 2 0); (14, D 15 (-1)); (15, D 2 0); (16, D 1 0); (17, D 1 0); (18, D 1 0); (19, D 1 0); (20, D 1 0); (21, D 1 0); (22, D 1 0); (23, D 1 0); (24, D 1 0); (25, D 1 0); (26, D 3 0); (27, D 1 0); (28, D 1 0); (29, D 1 0); (30, D 1 0); (31, D 1 0); (32, D 1 0); (33, D 1 0); (34, D 1 0); (35, D 1 0); (36, D 1 0); (37, D 1 0); (38, D 1 0); (39, D 1 0); (40, D 1 0); (41, D 1 0); (42, D 1 0); (43, D 1 0); (44, D 1 0); (45, D 1 0); (46, D 1 0); (47, D 1 0); (48, D 7 (-1)); (49, D 1 0); (50, D 1 0); (51, D 1 0); (52, D 1 0)]) [(14, 1); (30, 1); (46, (-1))] 1 [(46, 1)] [(14, 1); (30, 1)] true;
  (* 227: lines 2703-2709 *) mkReac (Arr (D 19000000000000003 (-2)) (D (-152) (-2)) (D 37238245478908664 (-14))) (Plain) [(14, 1); (35, (-1)); (37, 1); (46, (-1))] 0 [(35, 1); (46, 1)] [(14, 1); (37, 1)] true;
  (* 228: lines 2712-2718 *) mkReac (Arr (D 38000000000000005 (-1)) (D (-2) 0) (D 4025756267990126 (-13))) (Plain) [(15, 1); (35, (-1)); (46, (-1)); (47, 1)] 0 [(35, 1); (46, 1)] [(15, 1); (47, 1)] true;
  (* 229: lines 2721-2738 *) mkReac (Arr (D 10400000000000003 10) (D (-33) (-1)) (D 63707592940943745 (-12))) (Third [(0, D 2 0); (1, D 1 0); (2, D 1 0); (3, D 1 0); (4, D 1 0); (5, D 6 0); (6, D 1 0); (7, D 1 0); (8, D 1 0); (9, D 1 0); (10, D 1 0); (11, D 1 0); (12, D 1 0); (13, D 2 0); (14, D 15 (-1)); (15, D 2 0); (16, D 1 0); (17, D 1 0); (18, D 1 0); (19, D 1 0); (20, D 1 0); (21, D 1 0); (22, D 1 0); (23, D 1 0); (24, D 1 0); (25, D 1 0); (26, D 3 0); (27, D 1 0); (28, D 1 0); (29, D 1 0); (30, D 1 0); (31, D 1 0); (32, D 1 0); (33, D 1 0); (34, D 1 0); (35, D 1 0); (36, D 1 0); (37, D 1 0); (38, D 1 0); (39, D 1 0); (40, D 1 0); (41, D 1 0); (42, D 1 0); (43, D 1 0); (44, D 1 0); (45, D 1 0); (46, D 1 0); (47, D 1 0); (48, D 7 (-1)); (49, D 1 0); (50, D 1 0); (51, D 1 0); (52, D 1 0)]) [(1, 1); (39, 1); (40, (-1))] 1 [(40, 1)] [(1, 1); (39, 1)] true;
  (* 230: lines 2741-2746 *) mkReac (Arr (D 203 (-1)) (D 264 (-2)) (D 2506033276823853 (-12))) (Plain) [(1, 1); (2, (-1)); (40, (-1)); (46, 1)] 0 [(2, 1); (40, 1)] [(1, 1); (46, 1)] true;
  (* 231: lines 2749-2754 *) mkReac (Arr (D 507 (-2)) (D 264 (-2)) (D 2506033276823853 (-12))) (Plain) [(2, (-1)); (14, 1); (31, 1); (40, (-1))] 0 [(2, 1); (40, 1)] [(14, 1); (31, 1)] true;
  (* 232: lines 2757-2763 *) mkReac (Arr (D 39100000000000005 (-10)) (D 158 (-2)) (D 13385639591067169 (-12))) (Plain) [(2, (-1)); (4, 1); (39, 1); (40, (-1))] 0 [(2, 1); (40, 1)] [(4, 1); (39, 1)] true;
  (* 233: lines 2766-2771 *) mkReac (Arr (D 11 2) (D 203 (-2)) (D 6728045162878498 (-12))) (Plain) [(1, 1); (4, (-1)); (40, (-1)); (44, 1)] 0 [(4, 1); (40, 1)] [(1, 1); (44, 1)] true;
  (* 234: lines 2774-2780 *) mkReac (Arr (D 4400000000000001 (-15)) (D 226 (-2)) (D 32206050143921007 (-13))) (Plain) [(1, 1); (4, (-1)); (40, (-1)); (45, 1)] 0 [(4, 1); (40, 1)] [(1, 1); (45, 1)] true;
  (* 235: lines 2783-2789 *) mkReac (Arr (D 16000000000000003 (-17)) (D 256 (-2)) (D 4528975801488891 (-12))) (Plain) [(4, (-1)); (14, 1); (32, 1); (40, (-1))] 0 [(4, 1); (40, 1)] [(14, 1); (32, 1)] true;
  (* 236: lines 2792-2814 *) mkReac (Pow (D 33000000000000004 (-6)) 0) (Lindemann [(0, D 2 0); (1, D 1 0); (2, D 1 0); (3, D 1 0); (4, D 1 0); (5, D 6 0); (6, D 1 0); (7, D 1 0); (8, D 1 0); (9, D 1 0); (10, D 1 0); (11, D 1 0); (12, D 1 0); (13, D 2 0); (14, D 15 (-1)); (15, D 2 0); (16, D 1 0); (17, D 1 0); (18, D 1 0); (19, D 1 0); (20, D 1 0); (21, D 1 0); (22, D 1 0); (23, D 1 0); (24, D 1 0); (25, D 1 0); (26, D 3 0); (27, D 1 0); (28, D 1 0); (29, D 1 0); (30, D 1 0); (31, D 1 0); (32, D 1 0); (33, D 1 0); (34, D 1 0); (35, D 1 0); (36, D 1 0); (37, D 1 0); (38, D 1 0); (39, D 1 0); (40, D 1 0); (41, D 1 0); (42, D 1 0); (43, D 1 0); (44, D 1 0); (45, D 1 0); (46, D 1 0); (47, D 1 0); (48, D 7 (-1)); (49, D 1 0); (50, D 1 0); (51, D 1 0); (52, D 1 0)] (Arr (D 14000000000000003 4) (D (-34) (-1)) (D 956117113647655 (-12)))) [(1, (-1)); (40, (-1)); (41, 1)] (-1) [(1, 1); (40, 1)] [(41, 1)] true;
  (* 237: lines 2817-2822 *) mkReac (Arr (D 6000000000000001 (-5)) (D 0 0) (D 2012878133995063 (-13))) (Plain) [(10, 1); (30, (-1)); (41, (-1)); (47, 1)] 0 [(30, 1); (41, 1)] [(10, 1); (47, 1)] true;
  (* 238: lines 2825-2830 *) mkReac (Arr (D 6300000000000001 (-5)) (D 0 0) (D 231581629316132 (-10))) (Plain) [(8, (-1)); (30, 1); (39, 1); (47, (-1))] 0 [(8, 1); (47, 1)] [(30, 1); (39, 1)] true;
  (* 239: lines 2833-2839 *) mkReac (Arr (D 31200000000000005 (-10)) (D 88 (-2)) (D 10129809209330155 (-12))) (Plain) [(9, (-1)); (30, 1); (40, 1); (47, (-1))] 0 [(9, 1); (47, 1)] [(30, 1); (40, 1)] true;
  (* 240: lines 2842-2870 *) mkReac (Arr (D 31000000000000005 (-7)) (D 15 (-2)) (D 0 0)) (Troe [(0, D 2 0); (1, D 1 0); (2, D 1 0); (3, D 1 0); (4, D 1 0); (5, D 6 0); (6, D 1 0); (7, D 1 0); (8, D 1 0); (9, D 1 0); (10, D 1 0); (11, D 1 0); (12, D 1 0); (13, D 2 0); (14, D 15 (-1)); (15, D 2 0); (16, D 1 0); (17, D 1 0); (18, D 1 0); (19, D 1 0); (20, D 1 0); (21, D 1 0); (22, D 1 0); (23, D 1 0); (24, D 1 0); (25, D 1 0); (26, D 3 0); (27, D 1 0); (28, D 1 0); (29, D 1 0); (30, D 1 0); (31, D 1 0); (32, D 1 0); (33, D 1 0); (34, D 1 0); (35, D 1 0); (36, D 1 0); (37, D 1 0); (38, D 1 0); (39, D 1 0); (40, D 1 0); (41, D 1 0); (42, D 1 0); (43, D 1 0); (44, D 1 0); (45, D 1 0); (46, D 1 0); (47, D 1 0); (48, D 1 0); (49, D 1 0); (50, D 1 0); (51, D 1 0); (52, D 1 0)] (Arr (D 13000000000000002 3) (D (-316) (-2)) (D 37238245478908664 (-14))) (D 667 (-3)) (D 235 0) (D 2117 0) (D 4536 0)) [(9, (-1)); (42, 1); (47, (-1))] (-1) [(9, 1); (47, 1)] [(42, 1)] true;
  (* 241: lines 2873-2878 *) mkReac (Arr (D 10000000000000002 (-6)) (D 0 0) (D 3723824547890866 (-11))) (Plain) [(10, (-1)); (31, 1); (40, 1); (47, (-1))] 0 [(10, 1); (47, 1)] [(31, 1); (40, 1)] true;
  (* 242: lines 2881-2886 *) mkReac (Arr (D 10000000000000001 (-8)) (D 0 0) (D 32709269677419772 (-12))) (Plain) [(11, (-1)); (31, 1); (40, 1); (47, (-1))] 0 [(11, 1); (47, 1)] [(31, 1); (40, 1)] true;
  (* 243: lines 2889-2894 *) mkReac (Pow (D 19000000000000004 (-6)) 0) (Plain) [(2, 1); (8, (-1)); (35, (-1)); (39, 1)] 0 [(8, 1); (35, 1)] [(2, 1); (39, 1)] true;
  (* 244: lines 2897-2902 *) mkReac (Pow (D 29000000000000004 (-6)) 0) (Plain) [(8, (-1)); (14, 1); (30, 1); (35, (-1))] 0 [(8, 1); (35, 1)] [(14, 1); (30, 1)] true;
  (* 245: lines 2905-2910 *) mkReac (Pow (D 4100000000000001 (-5)) 0) (Plain) [(2, 1); (9, (-1)); (35, (-1)); (40, 1)] 0 [(9, 1); (35, 1)] [(2, 1); (40, 1)] true;
  (* 246: lines 2913-2918 *) mkReac (Pow (D 16200000000000002 (-6)) 0) (Plain) [(1, 1); (9, (-1)); (35, (-1)); (46, 1)] 0 [(9, 1); (35, 1)] [(1, 1); (46, 1)] true;
  (* 247: lines 2921-2926 *) mkReac (Pow (D 24600000000000004 (-6)) 0) (Plain) [(9, (-1)); (16, 1); (30, 1); (35, (-1))] 0 [(9, 1); (35, 1)] [(16, 1); (30, 1)] true;
  (* 248: lines 2929-2935 *) mkReac (Arr (D 31000000000000006 (-2)) (D (-138) (-2)) (D 6390888075434325 (-13))) (Plain) [(1, 1); (10, (-1)); (35, (-1)); (45, 1)] 0 [(10, 1); (35, 1)] [(1, 1); (45, 1)] true;
  (* 249: lines 2938-2944 *) mkReac (Arr (D 29000000000000006 (-5)) (D (-69) (-2)) (D 38244684545906193 (-14))) (Plain) [(4, 1); (10, (-1)); (35, (-1)); (40, 1)] 0 [(10, 1); (35, 1)] [(4, 1); (40, 1)] true;
  (* 250: lines 2947-2953 *) mkReac (Arr (D 3800000000000001 (-5)) (D (-36) (-2)) (D 29186732942928415 (-14))) (Plain) [(1, 1); (10, (-1)); (35, (-1)); (43, 1)] 0 [(10, 1); (35, 1)] [(1, 1); (43, 1)] true;
  (* 251: lines 2956-2962 *) mkReac (Arr (D 31000000000000006 (-2)) (D (-138) (-2)) (D 6390888075434325 (-13))) (Plain) [(1, 1); (11, (-1)); (35, (-1)); (45, 1)] 0 [(11, 1); (35, 1)] [(1, 1); (45, 1)] true;
  (* 252: lines 2965-2971 *) mkReac (Arr (D 29000000000000006 (-5)) (D (-69) (-2)) (D 38244684545906193 (-14))) (Plain) [(4, 1); (11, (-1)); (35, (-1)); (40, 1)] 0 [(11, 1); (35, 1)] [(4, 1); (40, 1)] true;
  (* 253: lines 2974-2980 *) mkReac (Arr (D 3800000000000001 (-5)) (D (-36) (-2)) (D 29186732942928415 (-14))) (Plain) [(1, 1); (11, (-1)); (35, (-1)); (43, 1)] 0 [(11, 1); (35, 1)] [(1, 1); (43, 1)] true;
  (* 254: lines 2983-2988 *) mkReac (Arr (D 9600000000000002 (-5)) (D 0 0) (D 14492722564764454 (-12))) (Plain) [(5, 1); (12, (-1)); (35, (-1)); (40, 1)] 0 [(12, 1); (35, 1)] [(5, 1); (40, 1)] true;
  (* 255: lines 2991-2996 *) mkReac (Arr (D 10000000000000001 (-7)) (D 0 0) (D 10945024853598155 (-12))) (Plain) [(4, 1); (12, (-1)); (35, (-1)); (41, 1)] 0 [(12, 1); (35, 1)] [(4, 1); (41, 1)] true;
  (* 256: lines 2999-3004 *) mkReac (Pow (D 22000000000000004 (-6)) 0) (Plain) [(1, 1); (2, (-1)); (14, 1); (42, (-1)); (47, 1)] 1 [(2, 1); (42, 1)] [(1, 1); (14, 1); (47, 1)] true;
  (* 257: lines 3007-3012 *) mkReac (Pow (D 20000000000000002 (-7)) 0) (Plain) [(2, (-1)); (35, 1); (40, 1); (42, (-1))] 0 [(2, 1); (42, 1)] [(35, 1); (40, 1)] true;
  (* 258: lines 3015-3020 *) mkReac (Pow (D 12000000000000002 (-6)) 0) (Plain) [(2, 1); (3, (-1)); (16, 1); (42, (-1)); (47, 1)] 1 [(3, 1); (42, 1)] [(2, 1); (16, 1); (47, 1)] true;
  (* 259: lines 3023-3028 *) mkReac (Pow (D 12000000000000002 (-6)) 0) (Plain) [(1, 1); (4, (-1)); (16, 1); (42, (-1)); (47, 1)] 1 [(4, 1); (42, 1)] [(1, 1); (16, 1); (47, 1)] true;
  (* 260: lines 3031-3036 *) mkReac (Pow (D 10000000000000002 (-5)) 0) (Plain) [(1, (-1)); (10, 1); (42, (-1)); (47, 1)] 0 [(1, 1); (42, 1)] [(10, 1); (47, 1)] true;
  (* 261: lines 3039-3045 *) mkReac (Arr (D 9800000000000001 (-11)) (D 141 (-2)) (D 4277366034739509 (-12))) (Plain) [(2, (-1)); (15, 1); (31, 1); (45, (-1))] 0 [(2, 1); (45, 1)] [(15, 1); (31, 1)] true;
  (* 262: lines 3048-3054 *) mkReac (Arr (D 15000000000000003 (-11)) (D 157 (-2)) (D 22141659473945692 (-12))) (Plain) [(2, (-1)); (14, 1); (38, 1); (45, (-1))] 0 [(2, 1); (45, 1)] [(14, 1); (38, 1)] true;
  (* 263: lines 3057-3062 *) mkReac (Arr (D 22 2) (D 211 (-2)) (D 5736702681885929 (-12))) (Plain) [(2, (-1)); (4, 1); (45, (-1)); (46, 1)] 0 [(2, 1); (45, 1)] [(4, 1); (46, 1)] true;
  (* 264: lines 3065-3071 *) mkReac (Arr (D 22500000000000004 (-12)) (D 17 (-1)) (D 191223422729531 (-11))) (Plain) [(1, (-1)); (14, 1); (32, 1); (45, (-1))] 0 [(1, 1); (45, 1)] [(14, 1); (32, 1)] true;
  (* 265: lines 3074-3080 *) mkReac (Arr (D 10500000000000003 (-14)) (D 25 (-1)) (D 66928197955335845 (-13))) (Plain) [(0, 1); (1, (-1)); (45, (-1)); (46, 1)] 0 [(1, 1); (45, 1)] [(0, 1); (46, 1)] true;
  (* 266: lines 3083-3089 *) mkReac (Arr (D 3300000000000001 (-11)) (D 15 (-1)) (D 18115903205955567 (-13))) (Plain) [(4, (-1)); (5, 1); (45, (-1)); (46, 1)] 0 [(4, 1); (45, 1)] [(5, 1); (46, 1)] true;
  (* 267: lines 3092-3098 *) mkReac (Arr (D 3300000000000001 (-12)) (D 15 (-1)) (D 18115903205955567 (-13))) (Plain) [(4, (-1)); (15, 1); (32, 1); (45, (-1))] 0 [(4, 1); (45, 1)] [(15, 1); (32, 1)] true;
  (* 268: lines 3101-3117 *) mkReac (Arr (D 11800000000000002 (-3)) (D 0 0) (D 4263275887801543 (-11))) (Third [(0, D 2 0); (1, D 1 0); (2, D 1 0); (3, D 1 0); (4, D 1 0); (5, D 6 0); (6, D 1 0); (7, D 1 0); (8, D 1 0); (9, D 1 0); (10, D 1 0); (11, D 1 0); (12, D 1 0); (13, D 2 0); (14, D 15 (-1)); (15, D 2 0); (16, D 1 0); (17, D 1 0); (18, D 1 0); (19, D 1 0); (20, D 1 0); (21, D 1 0); (22, D 1 0); (23, D 1 0); (24, D 1 0); (25, D 1 0); (26, D 3 0); (27, D 1 0); (28, D 1 0); (29, D 1 0); (30, D 1 0); (31, D 1 0); (32, D 1 0); (33, D 1 0); (34, D 1 0); (35, D 1 0); (36, D 1 0); (37, D 1 0); (38, D 1 0); (39, D 1 0); (40, D 1 0); (41, D 1 0); (42, D 1 0); (43, D 1 0); (44, D 1 0); (45, D 1 0); (46, D 1 0); (47, D 1 0); (48, D 7 (-1)); (49, D 1 0); (50, D 1 0); (51, D 1 0); (52, D 1 0)]) [(14, 1); (31, 1); (45, (-1))] 1 [(45, 1)] [(14, 1); (31, 1)] true;
  (* 269: lines 3120-3126 *) mkReac (Arr (D 21000000000000002 (-4)) (D (-69) (-2)) (D 14341756704714824 (-13))) (Plain) [(43, (-1)); (45, 1)] 0 [(1, 1); (43, 1)] [(1, 1); (45, 1)] true;
  (* 270: lines 3129-3135 *) mkReac (Arr (D 27000000000000006 (-8)) (D 18 (-2)) (D 10668254110173834 (-13))) (Plain) [(1, (-1)); (4, 1); (40, 1); (43, (-1))] 0 [(1, 1); (43, 1)] [(4, 1); (40, 1)] true;
  (* 271: lines 3138-3144 *) mkReac (Arr (D 17000000000000003 (-5)) (D (-75) (-2)) (D 1454304451811433 (-12))) (Plain) [(1, (-1)); (14, 1); (32, 1); (43, (-1))] 0 [(1, 1); (43, 1)] [(14, 1); (32, 1)] true;
  (* 272: lines 3147-3153 *) mkReac (Arr (D 20000000000000004 (-12)) (D 2 0) (D 10064390669975314 (-13))) (Plain) [(44, (-1)); (45, 1)] 0 [(1, 1); (44, 1)] [(1, 1); (45, 1)] true;
  (* 273: lines 3156-3161 *) mkReac (Pow (D 9000000000000002 (-6)) 0) (Plain) [(14, 1); (27, (-1)); (35, (-1)); (43, 1)] 0 [(27, 1); (35, 1)] [(14, 1); (43, 1)] true;
  (* 274: lines 3164-3170 *) mkReac (Arr (D 6100000000000001 (-4)) (D (-31) (-2)) (D 14593366471464208 (-14))) (Plain) [(1, 1); (12, (-1)); (30, (-1)); (41, 1)] 0 [(12, 1); (30, 1)] [(1, 1); (41, 1)] true;
  (* 275: lines 3173-3179 *) mkReac (Arr (D 37000000000000005 (-7)) (D 15 (-2)) (D (-4528975801488892) (-14))) (Plain) [(0, 1); (12, (-1)); (30, (-1)); (40, 1)] 0 [(12, 1); (30, 1)] [(0, 1); (40, 1)] true;
  (* 276: lines 3182-3187 *) mkReac (Arr (D 54 1) (D 24 (-1)) (D 4989421674640263 (-12))) (Plain) [(0, 1); (1, (-1)); (32, 1); (33, (-1))] 0 [(1, 1); (33, 1)] [(0, 1); (32, 1)] true;
  (* 277: lines 3190-3196 *) mkReac (Arr (D 5000000000000001 (-11)) (D 16 (-1)) (D 48057465449132127 (-14))) (Plain) [(4, (-1)); (5, 1); (32, 1); (33, (-1))] 0 [(4, 1); (33, 1)] [(5, 1); (32, 1)] true;
  (* 278: lines 3199-3205 *) mkReac (Arr (D 9400000000000002 (-12)) (D 194 (-2)) (D 32507981864020267 (-13))) (Plain) [(2, (-1)); (4, 1); (32, 1); (33, (-1))] 0 [(2, 1); (33, 1)] [(4, 1); (32, 1)] true;
  (* 279: lines 3208-3213 *) mkReac (Arr (D 10000000000000002 (-6)) (D 0 0) (D 7221200305707288 (-12))) (Plain) [(14, 1); (15, (-1)); (31, (-1)); (38, 1)] 0 [(15, 1); (31, 1)] [(14, 1); (38, 1)] true;
  (* 280: lines 3216-3222 *) mkReac (Arr (D 6160000000000001 (-3)) (D (-752) (-3)) (D 17361073905707417 (-14))) (Plain) [(35, 1); (36, (-1)); (39, (-1)); (46, 1)] 0 [(36, 1); (39, 1)] [(35, 1); (46, 1)] true;
  (* 281: lines 3225-3230 *) mkReac (Arr (D 32500000000000005 (-7)) (D 0 0) (D (-35476977111662984) (-14))) (Plain) [(15, 1); (36, (-1)); (37, 1); (46, (-1))] 0 [(36, 1); (46, 1)] [(15, 1); (37, 1)] true;
  (* 282: lines 3233-3238 *) mkReac (Arr (D 30000000000000005 (-7)) (D 0 0) (D 5686380728536053 (-12))) (Plain) [(14, 1); (15, (-1)); (30, (-1)); (35, 1)] 0 [(15, 1); (30, 1)] [(14, 1); (35, 1)] true;
  (* 283: lines 3241-3246 *) mkReac (Pow (D 33700000000000008 (-6)) 0) (Plain) [(0, 1); (1, 1); (2, (-1)); (12, (-1)); (14, 1)] 1 [(2, 1); (12, 1)] [(0, 1); (1, 1); (14, 1)] false;
  (* 284: lines 3249-3255 *) mkReac (Arr (D 6700000000000001 (-12)) (D 183 (-2)) (D 11070829736972846 (-14))) (Plain) [(1, 1); (2, (-1)); (24, (-1)); (51, 1)] 0 [(2, 1); (24, 1)] [(1, 1); (51, 1)] true;
  (* 285: lines 3258-3263 *) mkReac (Pow (D 10960000000000002 (-5)) 0) (Plain) [(1, 1); (2, (-1)); (25, (-1)); (52, 1)] 0 [(2, 1); (25, 1)] [(1, 1); (52, 1)] true;
  (* 286: lines 3266-3271 *) mkReac (Arr (D 5000000000000001 (-3)) (D 0 0) (D 8720794515533611 (-12))) (Plain) [(3, 1); (4, (-1)); (5, 1); (6, (-1))] 0 [(4, 1); (6, 1)] [(3, 1); (5, 1)] true;
  (* 287: lines 3274-3280 *) mkReac (Arr (D 8000000000000001 (-9)) (D 5 (-1)) (D (-8831502812903339) (-13))) (Plain) [(0, 1); (4, (-1)); (12, (-1)); (17, 1)] 0 [(4, 1); (12, 1)] [(0, 1); (17, 1)] false;
  (* 288: lines 3283-3312 *) mkReac (Arr (D 19700000000000002 (-7)) (D 43 (-2)) (D (-18619122739454332) (-14))) (Troe [(0, D 2 0); (1, D 1 0); (2, D 1 0); (3, D 1 0); (4, D 1 0); (5, D 6 0); (6, D 1 0); (7, D 1 0); (8, D 1 0); (9, D 1 0); (10, D 1 0); (11, D 1 0); (12, D 1 0); (13, D 2 0); (14, D 15 (-1)); (15, D 2 0); (16, D 1 0); (17, D 1 0); (18, D 1 0); (19, D 1 0); (20, D 1 0); (21, D 1 0); (22, D 1 0); (23, D 1 0); (24, D 1 0); (25, D 1 0); (26, D 3 0); (27, D 1 0); (28, D 1 0); (29, D 1 0); (30, D 1 0); (31, D 1 0); (32, D 1 0); (33, D 1 0); (34, D 1 0); (35, D 1 0); (36, D 1 0); (37, D 1 0); (38, D 1 0); (39, D 1 0); (40, D 1 0); (41, D 1 0); (42, D 1 0); (43, D 1 0); (44, D 1 0); (45, D 1 0); (46, D 1 0); (47, D 1 0); (48, D 7 (-1)); (49, D 1 0); (50, D 1 0); (51, D 1 0); (52, D 1 0)] (Arr (D 4820000000000001 4) (D (-28) (-1)) (D 2968995247642718 (-13))) (D 578 (-3)) (D 122 0) (D 2535 0) (D 9365 0)) [(0, (-1)); (9, (-1)); (12, 1)] (-1) [(0, 1); (9, 1)] [(12, 1)] true;
  (* 289: lines 3315-3320 *) mkReac (Arr (D 5800000000000001 (-6)) (D 0 0) (D 7548293002481486 (-13))) (Plain) [(1, 2); (3, (-1)); (10, (-1)); (15, 1)] 1 [(3, 1); (10, 1)] [(1, 2); (15, 1)] false;
  (* 290: lines 3323-3328 *) mkReac (Arr (D 24000000000000005 (-7)) (D 0 0) (D 7548293002481486 (-13))) (Plain) [(2, 1); (3, (-1)); (10, (-1)); (17, 1)] 0 [(3, 1); (10, 1)] [(2, 1); (17, 1)] true;
  (* 291: lines 3331-3336 *) mkReac (Arr (D 20000000000000003 (-5)) (D 0 0) (D 5529879453617937 (-12))) (Plain) [(1, 2); (10, (-2)); (22, 1)] 1 [(10, 2)] [(1, 2); (22, 1)] false;
  (* 292: lines 3339-3345 *) mkReac (Arr (D 6820000000000001 (-8)) (D 25 (-2)) (D (-470510263821346) (-12))) (Plain) [(0, 1); (5, (-1)); (11, (-1)); (17, 1)] 0 [(5, 1); (11, 1)] [(0, 1); (17, 1)] false;
  (* 293: lines 3348-3354 *) mkReac (Arr (D 30300000000000006 (-8)) (D 29 (-2)) (D 55354148684864235 (-16))) (Plain) [(2, 1); (3, (-1)); (23, (-1)); (51, 1)] 0 [(3, 1); (23, 1)] [(2, 1); (51, 1)] true;
  (* 294: lines 3357-3363 *) mkReac (Arr (D 13370000000000002 (-13)) (D 161 (-2)) (D (-19323630086352605) (-14))) (Plain) [(3, (-1)); (6, 1); (22, 1); (23, (-1))] 0 [(3, 1); (23, 1)] [(6, 1); (22, 1)] true;
  (* 295: lines 3366-3371 *) mkReac (Arr (D 29200000000000005 (-7)) (D 0 0) (D 9098209165657685 (-13))) (Plain) [(2, (-1)); (4, 1); (51, 1); (52, (-1))] 0 [(2, 1); (52, 1)] [(4, 1); (51, 1)] true;
  (* 296: lines 3374-3379 *) mkReac (Arr (D 29200000000000005 (-7)) (D 0 0) (D 9098209165657685 (-13))) (Plain) [(2, (-1)); (4, 1); (12, 1); (14, 1); (52, (-1))] 1 [(2, 1); (52, 1)] [(4, 1); (12, 1); (14, 1)] false;
  (* 297: lines 3382-3387 *) mkReac (Arr (D 30100000000000004 (-6)) (D 0 0) (D 19701044736476677 (-12))) (Plain) [(3, (-1)); (6, 1); (12, 1); (14, 1); (52, (-1))] 1 [(3, 1); (52, 1)] [(6, 1); (12, 1); (14, 1)] false;
  (* 298: lines 3390-3396 *) mkReac (Arr (D 20500000000000005 (-10)) (D 116 (-2)) (D 12102429780645316 (-13))) (Plain) [(0, 1); (1, (-1)); (51, 1); (52, (-1))] 0 [(1, 1); (52, 1)] [(0, 1); (51, 1)] true;
  (* 299: lines 3399-3405 *) mkReac (Arr (D 20500000000000005 (-10)) (D 116 (-2)) (D 12102429780645316 (-13))) (Plain) [(0, 1); (1, (-1)); (12, 1); (14, 1); (52, (-1))] 1 [(1, 1); (52, 1)] [(0, 1); (12, 1); (14, 1)] false;
  (* 300: lines 3408-3414 *) mkReac (Arr (D 23430000000000004 (-9)) (D 73 (-2)) (D (-5600833407841262) (-13))) (Plain) [(4, (-1)); (5, 1); (12, 1); (14, 1); (52, (-1))] 1 [(4, 1); (52, 1)] [(5, 1); (12, 1); (14, 1)] false;
  (* 301: lines 3417-3422 *) mkReac (Arr (D 30100000000000005 (-7)) (D 0 0) (D 59998864979057835 (-13))) (Plain) [(6, (-1)); (7, 1); (12, 1); (14, 1); (52, (-1))] 1 [(6, 1); (52, 1)] [(7, 1); (12, 1); (14, 1)] false;
  (* 302: lines 3425-3434 *) mkReac (Arr (D 27200000000000005 (-13)) (D 177 (-2)) (D 2979059638312693 (-12))) (Third [(12, D 1 0)]) [(13, 1); (14, 1); (52, (-1))] 1 [(52, 1)] [(13, 1); (14, 1)] false;
  (* 303: lines 3437-3467 *) mkReac (Arr (D 48650000000000006 (-8)) (D 422 (-3)) (D (-8831502812903339) (-13))) (Troe [(0, D 2 0); (1, D 1 0); (2, D 1 0); (3, D 1 0); (4, D 1 0); (5, D 6 0); (6, D 1 0); (7, D 1 0); (8, D 1 0); (9, D 1 0); (10, D 1 0); (11, D 1 0); (12, D 1 0); (13, D 2 0); (14, D 15 (-1)); (15, D 2 0); (16, D 1 0); (17, D 1 0); (18, D 1 0); (19, D 1 0); (20, D 1 0); (21, D 1 0); (22, D 1 0); (23, D 1 0); (24, D 1 0); (25, D 1 0); (26, D 3 0); (27, D 1 0); (28, D 1 0); (29, D 1 0); (30, D 1 0); (31, D 1 0); (32, D 1 0); (33, D 1 0); (34, D 1 0); (35, D 1 0); (36, D 1 0); (37, D 1 0); (38, D 1 0); (39, D 1 0); (40, D 1 0); (41, D 1 0); (42, D 1 0); (43, D 1 0); (44, D 1 0); (45, D 1 0); (46, D 1 0); (47, D 1 0); (48, D 7 (-1)); (49, D 1 0); (50, D 1 0); (51, D 1 0); (52, D 1 0)] (Arr (D 10120000000000002 20) (D (-763) (-2)) (D 19394080821042432 (-13))) (D 465 (-3)) (D 201 0) (D 17729999999999998 (-13)) (D 5333 0)) [(1, (-1)); (28, (-1)); (51, 1)] (-1) [(1, 1); (28, 1)] [(51, 1)] true;
  (* 304: lines 3470-3475 *) mkReac (Pow (D 15000000000000003 (-5)) 0) (Plain) [(1, 1); (2, (-1)); (10, 1); (15, 1); (51, (-1))] 1 [(2, 1); (51, 1)] [(1, 1); (10, 1); (15, 1)] false;
  (* 305: lines 3478-3483 *) mkReac (Pow (D 18100000000000004 (-9)) 0) (Plain) [(3, (-1)); (4, 1); (14, 1); (17, 1); (51, (-1))] 1 [(3, 1); (51, 1)] [(4, 1); (14, 1); (17, 1)] false;
  (* 306: lines 3486-3491 *) mkReac (Pow (D 23500000000000004 (-9)) 0) (Plain) [(3, (-1)); (4, 1); (16, 2); (51, (-1))] 1 [(3, 1); (51, 1)] [(4, 1); (16, 2)] false;
  (* 307: lines 3494-3499 *) mkReac (Pow (D 22000000000000004 (-6)) 0) (Plain) [(1, (-1)); (12, 1); (16, 1); (51, (-1))] 0 [(1, 1); (51, 1)] [(12, 1); (16, 1)] true;
  (* 308: lines 3502-3507 *) mkReac (Pow (D 11000000000000002 (-6)) 0) (Plain) [(0, 1); (1, (-1)); (28, 1); (51, (-1))] 0 [(1, 1); (51, 1)] [(0, 1); (28, 1)] true;
  (* 309: lines 3510-3515 *) mkReac (Pow (D 12000000000000002 (-6)) 0) (Plain) [(4, (-1)); (5, 1); (28, 1); (51, (-1))] 0 [(4, 1); (51, 1)] [(5, 1); (28, 1)] true;
  (* 310: lines 3518-3523 *) mkReac (Pow (D 30100000000000004 (-6)) 0) (Plain) [(4, (-1)); (16, 1); (18, 1); (51, (-1))] 0 [(4, 1); (51, 1)] [(16, 1); (18, 1)] true;
  (* 311: lines 3526-3554 *) mkReac (Pow (D 9430000000000002 (-6)) 0) (Troe [(0, D 2 0); (1, D 1 0); (2, D 1 0); (3, D 1 0); (4, D 1 0); (5, D 6 0); (6, D 1 0); (7, D 1 0); (8, D 1 0); (9, D 1 0); (10, D 1 0); (11, D 1 0); (12, D 1 0); (13, D 2 0); (14, D 15 (-1)); (15, D 2 0); (16, D 1 0); (17, D 1 0); (18, D 1 0); (19, D 1 0); (20, D 1 0); (21, D 1 0); (22, D 1 0); (23, D 1 0); (24, D 1 0); (25, D 1 0); (26, D 3 0); (27, D 1 0); (28, D 1 0); (29, D 1 0); (30, D 1 0); (31, D 1 0); (32, D 1 0); (33, D 1 0); (34, D 1 0); (35, D 1 0); (36, D 1 0); (37, D 1 0); (38, D 1 0); (39, D 1 0); (40, D 1 0); (41, D 1 0); (42, D 1 0); (43, D 1 0); (44, D 1 0); (45, D 1 0); (46, D 1 0); (47, D 1 0); (48, D 7 (-1)); (49, D 1 0); (50, D 1 0); (51, D 1 0); (52, D 1 0)] (Arr (D 27100000000000003 52) (D (-1682) (-2)) (D 6574563205161375 (-12))) (D 1527 (-4)) (D 291 0) (D 2742 0) (D 7748 0)) [(12, (-1)); (25, (-1)); (50, 1)] (-1) [(12, 1); (25, 1)] [(50, 1)] true;
  (* 312: lines 3557-3563 *) mkReac (Arr (D 19300000000000003 (-14)) (D 268 (-2)) (D 18699637864814135 (-13))) (Plain) [(2, (-1)); (4, 1); (49, 1); (50, (-1))] 0 [(2, 1); (50, 1)] [(4, 1); (49, 1)] true;
  (* 313: lines 3566-3572 *) mkReac (Arr (D 13200000000000002 (-13)) (D 254 (-2)) (D 33997511683176613 (-13))) (Plain) [(0, 1); (1, (-1)); (49, 1); (50, (-1))] 0 [(1, 1); (50, 1)] [(0, 1); (49, 1)] true;
  (* 314: lines 3575-3581 *) mkReac (Arr (D 31600000000000004 (-12)) (D 18 (-1)) (D 4700070442878472 (-13))) (Plain) [(4, (-1)); (5, 1); (49, 1); (50, (-1))] 0 [(4, 1); (50, 1)] [(5, 1); (49, 1)] true;
  (* 315: lines 3584-3590 *) mkReac (Arr (D 37800000000000006 (-17)) (D 272 (-2)) (D 7548293002481486 (-13))) (Plain) [(6, 1); (7, (-1)); (49, (-1)); (50, 1)] 0 [(7, 1); (49, 1)] [(6, 1); (50, 1)] true;
  (* 316: lines 3593-3599 *) mkReac (Arr (D 9030000000000002 (-19)) (D 365 (-2)) (D 360003254265017 (-11))) (Plain) [(12, (-1)); (13, 1); (49, 1); (50, (-1))] 0 [(12, 1); (50, 1)] [(13, 1); (49, 1)] true;
  (* 317: lines 3602-3631 *) mkReac (Arr (D 25500000000000005 (-13)) (D 16 (-1)) (D 28683513409429647 (-13))) (Troe [(0, D 2 0); (1, D 1 0); (2, D 1 0); (3, D 1 0); (4, D 1 0); (5, D 6 0); (6, D 1 0); (7, D 1 0); (8, D 1 0); (9, D 1 0); (10, D 1 0); (11, D 1 0); (12, D 1 0); (13, D 2 0); (14, D 15 (-1)); (15, D 2 0); (16, D 1 0); (17, D 1 0); (18, D 1 0); (19, D 1 0); (20, D 1 0); (21, D 1 0); (22, D 1 0); (23, D 1 0); (24, D 1 0); (25, D 1 0); (26, D 3 0); (27, D 1 0); (28, D 1 0); (29, D 1 0); (30, D 1 0); (31, D 1 0); (32, D 1 0); (33, D 1 0); (34, D 1 0); (35, D 1 0); (36, D 1 0); (37, D 1 0); (38, D 1 0); (39, D 1 0); (40, D 1 0); (41, D 1 0); (42, D 1 0); (43, D 1 0); (44, D 1 0); (45, D 1 0); (46, D 1 0); (47, D 1 0); (48, D 7 (-1)); (49, D 1 0); (50, D 1 0); (51, D 1 0); (52, D 1 0)] (Arr (D 30000000000000007 41) (D (-146) (-1)) (D 9143498923672574 (-12))) (D 1894 (-4)) (D 277 0) (D 8748 0) (D 7891 0)) [(12, (-1)); (24, (-1)); (49, 1)] (-1) [(12, 1); (24, 1)] [(49, 1)] true;
  (* 318: lines 3634-3639 *) mkReac (Pow (D 9640000000000002 (-5)) 0) (Plain) [(2, (-1)); (17, 1); (25, 1); (49, (-1))] 0 [(2, 1); (49, 1)] [(17, 1); (25, 1)] true;
  (* 319: lines 3642-3671 *) mkReac (Pow (D 3613000000000001 (-5)) 0) (Troe [(0, D 2 0); (1, D 1 0); (2, D 1 0); (3, D 1 0); (4, D 1 0); (5, D 6 0); (6, D 1 0); (7, D 1 0); (8, D 1 0); (9, D 1 0); (10, D 1 0); (11, D 1 0); (12, D 1 0); (13, D 2 0); (14, D 15 (-1)); (15, D 2 0); (16, D 1 0); (17, D 1 0); (18, D 1 0); (19, D 1 0); (20, D 1 0); (21, D 1 0); (22, D 1 0); (23, D 1 0); (24, D 1 0); (25, D 1 0); (26, D 3 0); (27, D 1 0); (28, D 1 0); (29, D 1 0); (30, D 1 0); (31, D 1 0); (32, D 1 0); (33, D 1 0); (34, D 1 0); (35, D 1 0); (36, D 1 0); (37, D 1 0); (38, D 1 0); (39, D 1 0); (40, D 1 0); (41, D 1 0); (42, D 1 0); (43, D 1 0); (44, D 1 0); (45, D 1 0); (46, D 1 0); (47, D 1 0); (48, D 7 (-1)); (49, D 1 0); (50, D 1 0); (51, D 1 0); (52, D 1 0)] (Arr (D 4420000000000001 40) (D (-13545) (-3)) (D 57150642419454825 (-13))) (D 315 (-3)) (D 369 0) (D 32849999999999995 (-13)) (D 6667 0)) [(1, (-1)); (49, (-1)); (50, 1)] (-1) [(1, 1); (49, 1)] [(50, 1)] true;
  (* 320: lines 3674-3680 *) mkReac (Arr (D 40600000000000005 (-13)) (D 219 (-2)) (D 4478653848139015 (-13))) (Plain) [(1, (-1)); (12, 1); (25, 1); (49, (-1))] 0 [(1, 1); (49, 1)] [(12, 1); (25, 1)] true;
  (* 321: lines 3683-3688 *) mkReac (Pow (D 24100000000000004 (-6)) 0) (Plain) [(4, (-1)); (18, 1); (25, 1); (49, (-1))] 0 [(4, 1); (49, 1)] [(18, 1); (25, 1)] true;
  (* 322: lines 3691-3697 *) mkReac (Arr (D 25500000000000004 (-9)) (D 255 (-3)) (D (-4745360200893361) (-13))) (Plain) [(3, 1); (6, (-1)); (49, (-1)); (50, 1)] 0 [(6, 1); (49, 1)] [(3, 1); (50, 1)] true;
  (* 323: lines 3700-3705 *) mkReac (Pow (D 24100000000000004 (-6)) 0) (Plain) [(4, 1); (6, (-1)); (17, 1); (25, 1); (49, (-1))] 1 [(6, 1); (49, 1)] [(4, 1); (17, 1); (25, 1)] false;
  (* 324: lines 3708-3713 *) mkReac (Arr (D 19270000000000004 (-6)) (D (-32) (-2)) (D 0 0)) (Plain) [(12, (-1)); (25, 2); (49, (-1))] 0 [(12, 1); (49, 1)] [(25, 2)] true
].
(** the source terms dYdt[n] / MW(n): coefficient and reaction (chem_GRI30.cpp:3720-3969) *)
Definition gri30_sources : list (list (Z * nat)) := [
  (* 0 H2: lines 3720-3728 *) [((-1), 2%nat); (1, 7%nat); (1, 38%nat); (1, 39%nat); (1, 40%nat); (1, 41%nat); (1, 44%nat); (1, 46%nat); (1, 48%nat); (1, 50%nat); (1, 52%nat); (1, 54%nat); (1, 57%nat); (1, 59%nat); (1, 64%nat); (1, 67%nat); (1, 68%nat); (1, 72%nat); (1, 74%nat); (1, 76%nat); (1, 77%nat); (1, 79%nat); ((-1), 82%nat); ((-1), 83%nat); ((-1), 125%nat); ((-1), 135%nat); (1, 136%nat); ((-1), 145%nat); ((-1), 171%nat); (1, 173%nat); (1, 190%nat); (1, 196%nat); (1, 201%nat); (1, 208%nat); (1, 213%nat); ((-1), 220%nat); (1, 265%nat); (1, 275%nat); (1, 276%nat); (1, 283%nat); (1, 287%nat); ((-1), 288%nat); (1, 292%nat); (1, 298%nat); (1, 299%nat); (1, 308%nat); (1, 313%nat)];
  (* 1 H: lines 3729-3749 *) [((-1), 1%nat); (1, 2%nat); (1, 5%nat); (1, 6%nat); (1, 8%nat); (1, 9%nat); (1, 13%nat); (1, 20%nat); (1, 23%nat); (1, 27%nat); ((-1), 32%nat); ((-1), 33%nat); ((-1), 34%nat); ((-1), 35%nat); ((-1), 36%nat); ((-1), 37%nat); ((-2), 38%nat); ((-2), 39%nat); ((-2), 40%nat); ((-2), 41%nat); ((-1), 42%nat); ((-1), 43%nat); ((-1), 44%nat); ((-1), 45%nat); ((-1), 46%nat); ((-1), 47%nat); ((-1), 48%nat); ((-1), 49%nat); ((-1), 50%nat); ((-1), 51%nat); ((-1), 52%nat); ((-1), 53%nat); ((-1), 54%nat); ((-1), 55%nat); ((-1), 56%nat); ((-1), 57%nat); ((-1), 58%nat); ((-1), 59%nat); ((-1), 60%nat); ((-1), 61%nat); ((-1), 62%nat); ((-1), 64%nat); ((-1), 65%nat); ((-1), 66%nat); ((-1), 67%nat); ((-1), 68%nat); ((-1), 69%nat); ((-1), 70%nat); ((-1), 71%nat); ((-1), 72%nat); ((-1), 73%nat); ((-1), 74%nat); ((-1), 75%nat); ((-1), 76%nat); ((-1), 77%nat); ((-1), 78%nat); ((-1), 79%nat); ((-1), 80%nat); (1, 83%nat); (1, 89%nat); (1, 90%nat); (1, 91%nat); (1, 93%nat); (1, 98%nat); (1, 105%nat); (1, 106%nat); (1, 107%nat); (1, 122%nat); (1, 123%nat); (1, 125%nat); (1, 126%nat); (1, 127%nat); (1, 128%nat); (1, 129%nat); (1, 132%nat); (1, 134%nat); (1, 135%nat); (1, 137%nat); (1, 143%nat); (1, 145%nat); (1, 148%nat); (1, 158%nat); (1, 165%nat); (1, 166%nat); (1, 171%nat); (1, 179%nat); ((-1), 182%nat); ((-1), 188%nat); (1, 189%nat); ((-1), 190%nat); (1, 191%nat); (1, 195%nat); (1, 198%nat); (1, 200%nat); ((-1), 201%nat); (1, 203%nat); (1, 204%nat); ((-1), 208%nat); ((-1), 211%nat); ((-1), 213%nat); (1, 217%nat); (1, 220%nat); ((-1), 222%nat); (1, 223%nat); (1, 229%nat); (1, 230%nat); (1, 233%nat); (1, 234%nat); ((-1), 236%nat); (1, 246%nat); (1, 248%nat); (1, 250%nat); (1, 251%nat); (1, 253%nat); (1, 256%nat); (1, 259%nat); ((-1), 260%nat); ((-1), 264%nat); ((-1), 265%nat); ((-1), 270%nat); ((-1), 271%nat); (1, 274%nat); ((-1), 276%nat); (1, 283%nat); (1, 284%nat); (1, 285%nat); (2, 289%nat); (2, 291%nat); ((-1), 298%nat); ((-1), 299%nat); ((-1), 303%nat); (1, 304%nat); ((-1), 307%nat); ((-1), 308%nat); ((-1), 313%nat); ((-1), 319%nat); ((-1), 320%nat)];
  (* 2 O: lines 3750-3762 *) [((-2), 0%nat); ((-1), 1%nat); ((-1), 2%nat); ((-1), 3%nat); ((-1), 4%nat); ((-1), 5%nat); ((-1), 6%nat); ((-1), 7%nat); ((-1), 8%nat); ((-1), 9%nat); ((-1), 10%nat); ((-1), 11%nat); ((-1), 12%nat); ((-1), 13%nat); ((-1), 14%nat); ((-1), 15%nat); ((-1), 16%nat); ((-1), 17%nat); ((-1), 18%nat); ((-1), 19%nat); ((-1), 20%nat); ((-1), 21%nat); ((-1), 22%nat); ((-1), 23%nat); ((-1), 24%nat); ((-1), 25%nat); ((-1), 26%nat); ((-1), 27%nat); ((-1), 28%nat); ((-1), 29%nat); (1, 30%nat); (1, 37%nat); (1, 43%nat); (1, 85%nat); (1, 121%nat); (1, 124%nat); (1, 154%nat); (1, 177%nat); (1, 178%nat); ((-1), 180%nat); ((-1), 181%nat); (1, 184%nat); ((-1), 186%nat); ((-1), 187%nat); ((-1), 189%nat); (1, 193%nat); ((-1), 199%nat); ((-1), 200%nat); ((-1), 206%nat); ((-1), 207%nat); ((-1), 212%nat); ((-1), 216%nat); (1, 219%nat); ((-1), 221%nat); ((-1), 230%nat); ((-1), 231%nat); ((-1), 232%nat); (1, 243%nat); (1, 245%nat); ((-1), 256%nat); ((-1), 257%nat); (1, 258%nat); ((-1), 261%nat); ((-1), 262%nat); ((-1), 263%nat); ((-1), 278%nat); ((-1), 283%nat); ((-1), 284%nat); ((-1), 285%nat); (1, 290%nat); (1, 293%nat); ((-1), 295%nat); ((-1), 296%nat); ((-1), 304%nat); ((-1), 312%nat); ((-1), 318%nat)];
  (* 3 O2: lines 3763-3771 *) [(1, 0%nat); (1, 3%nat); ((-1), 30%nat); ((-1), 31%nat); ((-1), 32%nat); ((-1), 33%nat); ((-1), 34%nat); ((-1), 35%nat); ((-1), 36%nat); ((-1), 37%nat); (1, 44%nat); (1, 86%nat); (1, 114%nat); (1, 115%nat); (1, 117%nat); ((-1), 121%nat); ((-1), 124%nat); ((-1), 134%nat); ((-1), 143%nat); ((-1), 144%nat); ((-1), 154%nat); ((-1), 155%nat); ((-1), 167%nat); ((-1), 168%nat); ((-1), 169%nat); ((-1), 170%nat); ((-1), 172%nat); ((-1), 174%nat); ((-1), 175%nat); ((-1), 178%nat); (1, 180%nat); (1, 187%nat); ((-1), 193%nat); ((-1), 194%nat); ((-1), 205%nat); ((-1), 215%nat); ((-1), 219%nat); ((-1), 225%nat); ((-1), 258%nat); (1, 286%nat); ((-1), 289%nat); ((-1), 290%nat); ((-1), 293%nat); ((-1), 294%nat); ((-1), 297%nat); ((-1), 305%nat); ((-1), 306%nat); (1, 322%nat)];
  (* 4 OH: lines 3772-3788 *) [(1, 1%nat); (1, 2%nat); (1, 3%nat); (1, 4%nat); (1, 10%nat); (1, 12%nat); (1, 14%nat); (1, 15%nat); (1, 16%nat); (1, 17%nat); (1, 18%nat); (1, 21%nat); (1, 26%nat); (1, 28%nat); (1, 37%nat); ((-1), 42%nat); (2, 45%nat); (1, 47%nat); (1, 60%nat); (1, 65%nat); ((-1), 83%nat); ((-2), 84%nat); ((-2), 85%nat); ((-1), 86%nat); ((-1), 87%nat); ((-1), 88%nat); ((-1), 89%nat); ((-1), 90%nat); ((-1), 91%nat); ((-1), 92%nat); ((-1), 93%nat); ((-1), 94%nat); ((-1), 95%nat); ((-1), 96%nat); ((-1), 97%nat); ((-1), 98%nat); ((-1), 99%nat); ((-1), 100%nat); ((-1), 101%nat); ((-1), 102%nat); ((-1), 103%nat); ((-1), 104%nat); ((-1), 105%nat); ((-1), 106%nat); ((-1), 107%nat); ((-1), 108%nat); ((-1), 109%nat); ((-1), 110%nat); ((-1), 111%nat); ((-1), 112%nat); ((-1), 113%nat); (1, 116%nat); (1, 118%nat); (1, 119%nat); (1, 134%nat); (1, 143%nat); (1, 155%nat); (1, 175%nat); ((-1), 179%nat); (1, 182%nat); ((-1), 183%nat); (1, 185%nat); (1, 188%nat); ((-1), 191%nat); ((-1), 192%nat); (1, 194%nat); (1, 197%nat); (1, 199%nat); ((-1), 202%nat); (1, 206%nat); ((-1), 209%nat); (1, 212%nat); ((-1), 214%nat); ((-1), 217%nat); (1, 218%nat); ((-1), 223%nat); (1, 232%nat); ((-1), 233%nat); ((-1), 234%nat); ((-1), 235%nat); (1, 249%nat); (1, 252%nat); (1, 255%nat); ((-1), 259%nat); (1, 263%nat); ((-1), 266%nat); ((-1), 267%nat); (1, 270%nat); ((-1), 277%nat); (1, 278%nat); ((-1), 286%nat); ((-1), 287%nat); (1, 295%nat); (1, 296%nat); ((-1), 300%nat); (1, 305%nat); (1, 306%nat); ((-1), 309%nat); ((-1), 310%nat); (1, 312%nat); ((-1), 314%nat); ((-1), 321%nat); (1, 323%nat)];
  (* 5 H2O: lines 3789-3796 *) [(1, 42%nat); (1, 43%nat); (1, 47%nat); (1, 61%nat); (1, 66%nat); (1, 83%nat); (1, 85%nat); (1, 86%nat); (1, 87%nat); (1, 88%nat); (1, 92%nat); (1, 95%nat); (1, 96%nat); (1, 97%nat); (1, 99%nat); (1, 100%nat); (1, 101%nat); (1, 102%nat); (1, 103%nat); (1, 104%nat); (1, 108%nat); (1, 110%nat); (1, 111%nat); (1, 112%nat); (1, 113%nat); ((-1), 126%nat); (1, 144%nat); ((-1), 146%nat); (1, 192%nat); ((-1), 196%nat); (1, 202%nat); (1, 209%nat); (1, 214%nat); ((-1), 218%nat); (1, 254%nat); (1, 266%nat); (1, 277%nat); (1, 286%nat); ((-1), 292%nat); (1, 300%nat); (1, 309%nat); (1, 314%nat)];
  (* 6 HO2: lines 3797-3804 *) [((-1), 3%nat); (1, 4%nat); (1, 31%nat); (1, 32%nat); (1, 33%nat); (1, 34%nat); (1, 35%nat); (1, 36%nat); ((-1), 43%nat); ((-1), 44%nat); ((-1), 45%nat); (1, 46%nat); ((-1), 86%nat); (1, 87%nat); (1, 88%nat); ((-2), 114%nat); ((-2), 115%nat); ((-1), 116%nat); ((-1), 117%nat); ((-1), 118%nat); ((-1), 119%nat); ((-1), 120%nat); (1, 156%nat); (1, 167%nat); (1, 168%nat); (1, 169%nat); (1, 174%nat); (1, 183%nat); ((-1), 185%nat); (1, 205%nat); (1, 215%nat); ((-1), 286%nat); (1, 294%nat); (1, 297%nat); ((-1), 301%nat); (1, 315%nat); ((-1), 322%nat); ((-1), 323%nat)];
  (* 7 H2O2: lines 3805-3807 *) [((-1), 4%nat); ((-1), 46%nat); ((-1), 47%nat); (1, 84%nat); ((-1), 87%nat); ((-1), 88%nat); (1, 114%nat); (1, 115%nat); (1, 120%nat); ((-1), 156%nat); (1, 301%nat); ((-1), 315%nat)];
  (* 8 C: lines 3808-3809 *) [(1, 48%nat); ((-1), 89%nat); ((-1), 121%nat); ((-1), 122%nat); ((-1), 123%nat); ((-1), 238%nat); ((-1), 243%nat); ((-1), 244%nat)];
  (* 9 CH: lines 3810-3814 *) [((-1), 5%nat); (1, 19%nat); ((-1), 48%nat); (1, 50%nat); ((-1), 90%nat); (1, 92%nat); ((-1), 124%nat); ((-1), 125%nat); ((-1), 126%nat); ((-1), 127%nat); ((-1), 128%nat); ((-1), 129%nat); ((-1), 130%nat); ((-1), 131%nat); ((-1), 132%nat); ((-1), 133%nat); ((-1), 239%nat); ((-1), 240%nat); ((-1), 245%nat); ((-1), 246%nat); ((-1), 247%nat); ((-1), 288%nat)];
  (* 10 CH2: lines 3815-3821 *) [((-1), 6%nat); (1, 22%nat); (1, 29%nat); ((-1), 49%nat); ((-1), 91%nat); ((-1), 92%nat); (1, 95%nat); ((-1), 116%nat); ((-1), 122%nat); (1, 125%nat); ((-1), 127%nat); ((-1), 134%nat); ((-1), 135%nat); ((-2), 136%nat); ((-1), 137%nat); ((-1), 138%nat); ((-1), 139%nat); ((-1), 140%nat); (1, 141%nat); (1, 142%nat); (1, 147%nat); (1, 150%nat); (1, 151%nat); (1, 237%nat); ((-1), 241%nat); ((-1), 248%nat); ((-1), 249%nat); ((-1), 250%nat); (1, 260%nat); ((-1), 289%nat); ((-1), 290%nat); ((-2), 291%nat); (1, 304%nat)];
  (* 11 CH2(S): lines 3822-3826 *) [((-1), 7%nat); ((-1), 8%nat); ((-1), 50%nat); (1, 61%nat); (1, 66%nat); (1, 78%nat); ((-1), 93%nat); (1, 96%nat); ((-1), 141%nat); ((-1), 142%nat); ((-1), 143%nat); ((-1), 144%nat); ((-1), 145%nat); ((-1), 146%nat); ((-1), 147%nat); ((-1), 148%nat); ((-1), 149%nat); ((-1), 150%nat); ((-1), 151%nat); ((-1), 152%nat); ((-1), 153%nat); ((-1), 242%nat); ((-1), 251%nat); ((-1), 252%nat); ((-1), 253%nat); ((-1), 292%nat)];
  (* 12 CH3: lines 3827-3837 *) [((-1), 9%nat); (1, 10%nat); (1, 24%nat); (1, 25%nat); (1, 49%nat); ((-1), 51%nat); (1, 52%nat); (1, 60%nat); (1, 65%nat); (1, 80%nat); ((-1), 94%nat); ((-1), 95%nat); ((-1), 96%nat); (1, 97%nat); (1, 109%nat); ((-1), 117%nat); ((-1), 118%nat); ((-1), 123%nat); ((-1), 128%nat); (1, 135%nat); ((-1), 137%nat); (2, 138%nat); (1, 145%nat); ((-1), 148%nat); (2, 149%nat); (1, 153%nat); ((-1), 154%nat); ((-1), 155%nat); ((-1), 156%nat); ((-2), 157%nat); ((-2), 158%nat); ((-1), 159%nat); ((-1), 160%nat); ((-1), 161%nat); ((-1), 162%nat); ((-1), 163%nat); ((-1), 164%nat); ((-1), 210%nat); ((-1), 254%nat); ((-1), 255%nat); ((-1), 274%nat); ((-1), 275%nat); ((-1), 283%nat); ((-1), 287%nat); (1, 288%nat); (1, 296%nat); (1, 297%nat); (1, 299%nat); (1, 300%nat); (1, 301%nat); (1, 307%nat); ((-1), 311%nat); ((-1), 316%nat); ((-1), 317%nat); (1, 320%nat); ((-1), 324%nat)];
  (* 13 CH4: lines 3838-3841 *) [((-1), 10%nat); (1, 51%nat); ((-1), 52%nat); ((-1), 97%nat); (1, 117%nat); ((-1), 129%nat); ((-1), 138%nat); ((-1), 149%nat); (1, 156%nat); (1, 159%nat); (1, 160%nat); (1, 161%nat); (1, 162%nat); (1, 163%nat); (1, 164%nat); (1, 210%nat); (1, 302%nat); (1, 316%nat)];
  (* 14 CO: lines 3842-3852 *) [(1, 5%nat); (1, 7%nat); ((-1), 11%nat); (1, 12%nat); (1, 19%nat); (1, 22%nat); (2, 27%nat); ((-1), 30%nat); (1, 54%nat); (1, 78%nat); (1, 80%nat); ((-1), 82%nat); (1, 89%nat); ((-1), 98%nat); (1, 99%nat); (1, 109%nat); ((-1), 119%nat); (1, 121%nat); ((-1), 130%nat); (1, 131%nat); (1, 133%nat); (1, 134%nat); ((-1), 139%nat); (1, 140%nat); (1, 143%nat); (1, 144%nat); (1, 152%nat); (1, 159%nat); (1, 165%nat); (1, 166%nat); (1, 167%nat); (1, 170%nat); (2, 175%nat); (2, 176%nat); (1, 216%nat); (1, 221%nat); (1, 222%nat); (1, 223%nat); (1, 224%nat); (1, 226%nat); (1, 227%nat); (1, 231%nat); (1, 235%nat); (1, 244%nat); (1, 256%nat); (1, 262%nat); (1, 264%nat); (1, 268%nat); (1, 271%nat); (1, 273%nat); (1, 279%nat); (1, 282%nat); (1, 283%nat); (1, 296%nat); (1, 297%nat); (1, 299%nat); (1, 300%nat); (1, 301%nat); (1, 302%nat); (1, 305%nat)];
  (* 15 CO2: lines 3853-3856 *) [(1, 11%nat); (1, 13%nat); (1, 29%nat); (1, 30%nat); (1, 98%nat); (1, 119%nat); ((-1), 131%nat); ((-1), 152%nat); (1, 225%nat); (1, 228%nat); (1, 261%nat); (1, 267%nat); ((-1), 279%nat); (1, 281%nat); ((-1), 282%nat); (1, 289%nat); (1, 304%nat)];
  (* 16 HCO: lines 3857-3862 *) [(1, 6%nat); (1, 8%nat); ((-1), 12%nat); ((-1), 13%nat); (1, 14%nat); (1, 24%nat); (1, 31%nat); ((-1), 53%nat); ((-1), 54%nat); (1, 57%nat); (1, 90%nat); ((-1), 99%nat); (1, 100%nat); (1, 120%nat); (1, 124%nat); (1, 131%nat); ((-1), 159%nat); (1, 160%nat); ((-1), 165%nat); ((-1), 166%nat); ((-1), 167%nat); (1, 170%nat); (1, 172%nat); (1, 247%nat); (1, 258%nat); (1, 259%nat); (2, 306%nat); (1, 307%nat); (1, 310%nat)];
  (* 17 CH2O: lines 3863-3869 *) [(1, 9%nat); ((-1), 14%nat); (1, 15%nat); (1, 16%nat); (1, 25%nat); ((-1), 31%nat); (1, 53%nat); ((-1), 55%nat); ((-1), 56%nat); ((-1), 57%nat); (1, 59%nat); (1, 64%nat); (1, 82%nat); (1, 91%nat); (1, 93%nat); ((-1), 100%nat); (1, 101%nat); (1, 102%nat); (1, 116%nat); ((-1), 120%nat); (1, 126%nat); ((-1), 132%nat); (1, 152%nat); (1, 155%nat); ((-1), 160%nat); (1, 168%nat); (1, 169%nat); (1, 172%nat); (1, 287%nat); (1, 290%nat); (1, 292%nat); (1, 305%nat); (1, 318%nat); (1, 323%nat)];
  (* 18 CH2OH: lines 3870-3872 *) [((-1), 15%nat); (1, 17%nat); (1, 55%nat); ((-1), 58%nat); ((-1), 59%nat); ((-1), 60%nat); ((-1), 61%nat); (1, 63%nat); (1, 67%nat); ((-1), 101%nat); (1, 103%nat); (1, 161%nat); ((-1), 168%nat); (1, 310%nat); (1, 321%nat)];
  (* 19 CH3O: lines 3873-3875 *) [((-1), 16%nat); (1, 18%nat); (1, 56%nat); ((-1), 62%nat); ((-1), 63%nat); ((-1), 64%nat); ((-1), 65%nat); ((-1), 66%nat); (1, 68%nat); ((-1), 102%nat); (1, 104%nat); (1, 118%nat); (1, 154%nat); (1, 162%nat); ((-1), 169%nat)];
  (* 20 CH3OH: lines 3876-3878 *) [((-1), 17%nat); ((-1), 18%nat); (1, 58%nat); (1, 62%nat); ((-1), 67%nat); ((-1), 68%nat); (1, 94%nat); ((-1), 103%nat); ((-1), 104%nat); (1, 146%nat); ((-1), 161%nat); ((-1), 162%nat)];
  (* 21 C2H: lines 3879-3880 *) [((-1), 19%nat); (1, 21%nat); ((-1), 69%nat); ((-1), 105%nat); (1, 108%nat); (1, 122%nat); ((-1), 170%nat); ((-1), 171%nat)];
  (* 22 C2H2: lines 3881-3884 *) [((-1), 20%nat); ((-1), 21%nat); ((-1), 22%nat); (1, 69%nat); ((-1), 70%nat); (1, 72%nat); ((-1), 106%nat); ((-1), 107%nat); ((-1), 108%nat); ((-1), 109%nat); (1, 110%nat); (1, 123%nat); (1, 127%nat); (1, 133%nat); (1, 136%nat); (1, 171%nat); (1, 173%nat); (1, 176%nat); (1, 291%nat); (1, 294%nat)];
  (* 23 C2H3: lines 3885-3887 *) [((-1), 23%nat); (1, 70%nat); ((-1), 71%nat); ((-1), 72%nat); (1, 74%nat); ((-1), 110%nat); (1, 111%nat); (1, 128%nat); (1, 140%nat); (1, 163%nat); ((-1), 172%nat); ((-1), 293%nat); ((-1), 294%nat)];
  (* 24 C2H4: lines 3888-3890 *) [((-1), 24%nat); (1, 71%nat); ((-1), 73%nat); ((-1), 74%nat); (1, 76%nat); ((-1), 111%nat); (1, 129%nat); (1, 137%nat); (1, 148%nat); ((-1), 163%nat); ((-1), 173%nat); (1, 174%nat); ((-1), 284%nat); ((-1), 317%nat)];
  (* 25 C2H5: lines 3891-3894 *) [((-1), 25%nat); (1, 26%nat); (1, 73%nat); ((-1), 75%nat); ((-1), 76%nat); (1, 77%nat); (1, 112%nat); (1, 153%nat); (1, 158%nat); (1, 164%nat); ((-1), 174%nat); ((-1), 285%nat); ((-1), 311%nat); (1, 318%nat); (1, 320%nat); (1, 321%nat); (1, 323%nat); (2, 324%nat)];
  (* 26 C2H6: lines 3895-3896 *) [((-1), 26%nat); (1, 75%nat); ((-1), 77%nat); ((-1), 112%nat); ((-1), 153%nat); (1, 157%nat); ((-1), 164%nat)];
  (* 27 HCCO: lines 3897-3899 *) [(1, 20%nat); ((-1), 27%nat); (1, 28%nat); ((-1), 78%nat); (1, 79%nat); (1, 105%nat); (1, 113%nat); (1, 130%nat); ((-1), 133%nat); ((-1), 140%nat); ((-1), 175%nat); ((-2), 176%nat); ((-1), 273%nat)];
  (* 28 CH2CO: lines 3900-3902 *) [(1, 23%nat); ((-1), 28%nat); ((-1), 29%nat); ((-1), 79%nat); ((-1), 80%nat); (1, 81%nat); (1, 106%nat); ((-1), 113%nat); (1, 132%nat); (1, 139%nat); ((-1), 303%nat); (1, 308%nat); (1, 309%nat)];
  (* 29 HCCOH: lines 3903-3903 *) [((-1), 81%nat); (1, 107%nat)];
  (* 30 N: lines 3904-3907 *) [((-1), 177%nat); ((-1), 178%nat); ((-1), 179%nat); (1, 190%nat); (1, 192%nat); ((-1), 195%nat); (1, 216%nat); ((-1), 224%nat); (1, 226%nat); ((-1), 237%nat); (1, 238%nat); (1, 239%nat); (1, 244%nat); (1, 247%nat); ((-1), 274%nat); ((-1), 275%nat); ((-1), 282%nat)];
  (* 31 NH: lines 3908-3912 *) [((-1), 189%nat); ((-1), 190%nat); ((-1), 191%nat); ((-1), 192%nat); ((-1), 193%nat); ((-1), 194%nat); ((-1), 195%nat); ((-1), 196%nat); ((-1), 197%nat); ((-1), 198%nat); (1, 199%nat); (1, 201%nat); (1, 202%nat); (1, 207%nat); (1, 222%nat); (1, 231%nat); (1, 241%nat); (1, 242%nat); (1, 261%nat); (1, 268%nat); ((-1), 279%nat)];
  (* 32 NH2: lines 3913-3915 *) [((-1), 199%nat); ((-1), 200%nat); ((-1), 201%nat); ((-1), 202%nat); (1, 235%nat); (1, 264%nat); (1, 267%nat); (1, 271%nat); (1, 276%nat); (1, 277%nat); (1, 278%nat)];
  (* 33 NH3: lines 3916-3916 *) [((-1), 276%nat); ((-1), 277%nat); ((-1), 278%nat)];
  (* 34 NNH: lines 3917-3918 *) [((-1), 203%nat); ((-1), 204%nat); ((-1), 205%nat); ((-1), 206%nat); ((-1), 207%nat); ((-1), 208%nat); ((-1), 209%nat); ((-1), 210%nat)];
  (* 35 NO: lines 3919-3926 *) [((-1), 177%nat); (1, 178%nat); (1, 179%nat); (2, 181%nat); ((-1), 185%nat); ((-1), 186%nat); (1, 187%nat); (1, 188%nat); (1, 189%nat); (1, 194%nat); ((-1), 197%nat); ((-1), 198%nat); (1, 207%nat); ((-1), 211%nat); (1, 212%nat); (1, 213%nat); (1, 214%nat); (1, 215%nat); (1, 221%nat); (1, 223%nat); (1, 225%nat); ((-1), 227%nat); ((-1), 228%nat); ((-1), 243%nat); ((-1), 244%nat); ((-1), 245%nat); ((-1), 246%nat); ((-1), 247%nat); ((-1), 248%nat); ((-1), 249%nat); ((-1), 250%nat); ((-1), 251%nat); ((-1), 252%nat); ((-1), 253%nat); ((-1), 254%nat); ((-1), 255%nat); (1, 257%nat); ((-1), 273%nat); (1, 280%nat); (1, 282%nat)];
  (* 36 NO2: lines 3927-3928 *) [(1, 185%nat); (1, 186%nat); ((-1), 187%nat); ((-1), 188%nat); ((-1), 280%nat); ((-1), 281%nat)];
  (* 37 N2O: lines 3929-3930 *) [((-1), 180%nat); ((-1), 181%nat); ((-1), 182%nat); ((-1), 183%nat); ((-1), 184%nat); (1, 198%nat); (1, 227%nat); (1, 281%nat)];
  (* 38 HNO: lines 3931-3933 *) [(1, 191%nat); (1, 193%nat); (1, 196%nat); (1, 200%nat); (1, 211%nat); ((-1), 212%nat); ((-1), 213%nat); ((-1), 214%nat); ((-1), 215%nat); (1, 262%nat); (1, 279%nat)];
  (* 39 CN: lines 3934-3935 *) [((-1), 216%nat); ((-1), 217%nat); ((-1), 218%nat); ((-1), 219%nat); ((-1), 220%nat); (1, 229%nat); (1, 232%nat); (1, 238%nat); (1, 243%nat); ((-1), 280%nat)];
  (* 40 HCN: lines 3936-3939 *) [(1, 218%nat); (1, 220%nat); ((-1), 229%nat); ((-1), 230%nat); ((-1), 231%nat); ((-1), 232%nat); ((-1), 233%nat); ((-1), 234%nat); ((-1), 235%nat); ((-1), 236%nat); (1, 239%nat); (1, 241%nat); (1, 242%nat); (1, 245%nat); (1, 249%nat); (1, 252%nat); (1, 254%nat); (1, 257%nat); (1, 270%nat); (1, 275%nat)];
  (* 41 H2CN: lines 3940-3940 *) [(1, 236%nat); ((-1), 237%nat); (1, 255%nat); (1, 274%nat)];
  (* 42 HCNN: lines 3941-3942 *) [(1, 240%nat); ((-1), 256%nat); ((-1), 257%nat); ((-1), 258%nat); ((-1), 259%nat); ((-1), 260%nat)];
  (* 43 HCNO: lines 3943-3944 *) [(1, 250%nat); (1, 253%nat); ((-1), 269%nat); ((-1), 270%nat); ((-1), 271%nat); (1, 273%nat)];
  (* 44 HOCN: lines 3945-3945 *) [(1, 233%nat); ((-1), 272%nat)];
  (* 45 HNCO: lines 3946-3948 *) [(1, 234%nat); (1, 248%nat); (1, 251%nat); ((-1), 261%nat); ((-1), 262%nat); ((-1), 263%nat); ((-1), 264%nat); ((-1), 265%nat); ((-1), 266%nat); ((-1), 267%nat); ((-1), 268%nat); (1, 269%nat); (1, 272%nat)];
  (* 46 NCO: lines 3949-3952 *) [(1, 217%nat); (1, 219%nat); ((-1), 221%nat); ((-1), 222%nat); ((-1), 223%nat); ((-1), 224%nat); ((-1), 225%nat); ((-1), 226%nat); ((-1), 227%nat); ((-1), 228%nat); (1, 230%nat); (1, 246%nat); (1, 263%nat); (1, 265%nat); (1, 266%nat); (1, 280%nat); ((-1), 281%nat)];
  (* 47 N2: lines 3953-3958 *) [(1, 177%nat); (1, 180%nat); (1, 182%nat); (1, 183%nat); (1, 184%nat); (1, 195%nat); (1, 197%nat); (1, 203%nat); (1, 204%nat); (1, 205%nat); (1, 206%nat); (1, 208%nat); (1, 209%nat); (1, 210%nat); (1, 224%nat); (1, 228%nat); (1, 237%nat); ((-1), 238%nat); ((-1), 239%nat); ((-1), 240%nat); ((-1), 241%nat); ((-1), 242%nat); (1, 256%nat); (1, 258%nat); (1, 259%nat); (1, 260%nat)];
  (* 48 AR: lines 3959-3959 *) [];
  (* 49 C3H7: lines 3960-3962 *) [(1, 312%nat); (1, 313%nat); (1, 314%nat); ((-1), 315%nat); (1, 316%nat); (1, 317%nat); ((-1), 318%nat); ((-1), 319%nat); ((-1), 320%nat); ((-1), 321%nat); ((-1), 322%nat); ((-1), 323%nat); ((-1), 324%nat)];
  (* 50 C3H8: lines 3963-3964 *) [(1, 311%nat); ((-1), 312%nat); ((-1), 313%nat); ((-1), 314%nat); (1, 315%nat); ((-1), 316%nat); (1, 319%nat); (1, 322%nat)];
  (* 51 CH2CHO: lines 3965-3967 *) [(1, 284%nat); (1, 293%nat); (1, 295%nat); (1, 298%nat); (1, 303%nat); ((-1), 304%nat); ((-1), 305%nat); ((-1), 306%nat); ((-1), 307%nat); ((-1), 308%nat); ((-1), 309%nat); ((-1), 310%nat)];
  (* 52 CH3CHO: lines 3968-3969 *) [(1, 285%nat); ((-1), 295%nat); ((-1), 296%nat); ((-1), 297%nat); ((-1), 298%nat); ((-1), 299%nat); ((-1), 300%nat); ((-1), 301%nat); ((-1), 302%nat)]
].
Definition gri30 : mech := mkMech gri30_ns gri30_reactions gri30_sources.
