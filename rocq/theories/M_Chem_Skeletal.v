(** Tables of the mechanism in src/compute/chemistry/chem_C2H4_Air_Skeletal.cpp: transcribed by tools/chemtables.py, which stops at any statement it does not recognise.  Definitions only. *)
From Coq Require Import ZArith List.
From Verif Require Import M_Chem.
Import ListNotations.
Open Scope Z_scope.

(** the species (chem_C2H4_Air_Skeletal.cpp:13-44): 0:H2 1:H 2:O 3:O2 4:OH 5:H2O 6:HO2 7:H2O2 8:CH 9:CH2 10:CH2* 11:CH3 12:CH4 13:CO 14:CO2 15:HCO 16:CH2O 17:CH3O 18:C2H2 19:H2CC 20:C2H3 21:C2H4 22:C2H5 23:C2H6 24:HCCO 25:CH2CO 26:CH2CHO 27:CH3CHO 28:aC3H5 29:C3H6 30:nC3H7 31:N2 *)
Definition skeletal_ns : Z := 32.
(** the reactions (chem_C2H4_Air_Skeletal.cpp:170-2372) *)
Definition skeletal_reactions : list reac := [
  (* 0: lines 170-175 *) mkReac (Arr (D 8300000000000002 (-5)) (D 0 0) (D 7252903136317711 (-12))) (Plain) [(1, (-1)); (2, 1); (3, (-1)); (4, 1)] 0 [(1, 1); (3, 1)] [(2, 1); (4, 1)] true;
  (* 1: lines 178-184 *) mkReac (Arr (D 5000000000000001 (-14)) (D 267 (-2)) (D 31652508657072367 (-13))) (Plain) [(0, (-1)); (1, 1); (2, (-1)); (4, 1)] 0 [(0, 1); (2, 1)] [(1, 1); (4, 1)] true;
  (* 2: lines 187-193 *) mkReac (Arr (D 21600000000000003 (-11)) (D 151 (-2)) (D 17260429999007665 (-13))) (Plain) [(0, (-1)); (1, 1); (4, (-1)); (5, 1)] 0 [(0, 1); (4, 1)] [(1, 1); (5, 1)] true;
  (* 3: lines 196-201 *) mkReac (Arr (D 357 (-1)) (D 24 (-1)) (D (-10617932156823956) (-13))) (Plain) [(2, 1); (4, (-2)); (5, 1)] 0 [(4, 2)] [(2, 1); (5, 1)] true;
  (* 4: lines 204-216 *) mkReac (Pow (D 10000000000000002 (-4)) 1) (Third [(1, D 1 0); (2, D 1 0); (3, D 1 0); (4, D 1 0); (6, D 1 0); (7, D 1 0); (8, D 1 0); (9, D 1 0); (10, D 1 0); (11, D 1 0); (12, D 2 0); (13, D 1 0); (15, D 1 0); (16, D 1 0); (17, D 1 0); (18, D 3 0); (19, D 1 0); (20, D 1 0); (21, D 3 0); (22, D 1 0); (23, D 3 0); (24, D 1 0); (25, D 1 0); (26, D 1 0); (27, D 1 0); (28, D 1 0); (29, D 1 0); (30, D 1 0); (31, D 1 0)]) [(0, 1); (1, (-2))] (-1) [(1, 2)] [(0, 1)] true;
  (* 5: lines 219-227 *) mkReac (Arr (D 9000000000000002 (-5)) (D (-6) (-1)) (D 0 0)) (Third [(0, D 1 0)]) [(0, 1); (1, (-2))] (-1) [(1, 2)] [(0, 1)] true;
  (* 6: lines 230-238 *) mkReac (Arr (D 6000000000000001 (-2)) (D (-125) (-2)) (D 0 0)) (Third [(5, D 1 0)]) [(0, 1); (1, (-2))] (-1) [(1, 2)] [(0, 1)] true;
  (* 7: lines 241-249 *) mkReac (Pow (D 5500000000000001 (-1)) 2) (Third [(14, D 1 0)]) [(0, 1); (1, (-2))] (-1) [(1, 2)] [(0, 1)] true;
  (* 8: lines 252-265 *) mkReac (Pow (D 22000000000000004 0) 2) (Third [(0, D 73 (-2)); (1, D 1 0); (2, D 1 0); (3, D 1 0); (4, D 1 0); (5, D 365 (-2)); (6, D 1 0); (7, D 1 0); (8, D 1 0); (9, D 1 0); (10, D 1 0); (11, D 1 0); (12, D 2 0); (13, D 1 0); (14, D 1 0); (15, D 1 0); (16, D 1 0); (17, D 1 0); (18, D 3 0); (19, D 1 0); (20, D 1 0); (21, D 3 0); (22, D 1 0); (23, D 3 0); (24, D 1 0); (25, D 1 0); (26, D 1 0); (27, D 1 0); (28, D 1 0); (29, D 1 0); (30, D 1 0); (31, D 1 0)]) [(1, (-1)); (4, (-1)); (5, 1)] (-1) [(1, 1); (4, 1)] [(5, 1)] true;
  (* 9: lines 268-281 *) mkReac (Pow (D 5000000000000001 (-4)) 1) (Third [(0, D 2 0); (1, D 1 0); (2, D 1 0); (3, D 1 0); (4, D 1 0); (5, D 6 0); (6, D 1 0); (7, D 1 0); (8, D 1 0); (9, D 1 0); (10, D 1 0); (11, D 1 0); (12, D 2 0); (13, D 15 (-1)); (14, D 2 0); (15, D 1 0); (16, D 1 0); (17, D 1 0); (18, D 3 0); (19, D 1 0); (20, D 1 0); (21, D 3 0); (22, D 1 0); (23, D 3 0); (24, D 1 0); (25, D 1 0); (26, D 1 0); (27, D 1 0); (28, D 1 0); (29, D 1 0); (30, D 1 0); (31, D 1 0)]) [(1, (-1)); (2, (-1)); (4, 1)] (-1) [(1, 1); (2, 1)] [(4, 1)] true;
  (* 10: lines 284-297 *) mkReac (Pow (D 12000000000000002 (-5)) 1) (Third [(0, D 24 (-1)); (1, D 1 0); (2, D 1 0); (3, D 1 0); (4, D 1 0); (5, D 154 (-1)); (6, D 1 0); (7, D 1 0); (8, D 1 0); (9, D 1 0); (10, D 1 0); (11, D 1 0); (12, D 2 0); (13, D 175 (-2)); (14, D 36 (-1)); (15, D 1 0); (16, D 1 0); (17, D 1 0); (18, D 3 0); (19, D 1 0); (20, D 1 0); (21, D 3 0); (22, D 1 0); (23, D 3 0); (24, D 1 0); (25, D 1 0); (26, D 1 0); (27, D 1 0); (28, D 1 0); (29, D 1 0); (30, D 1 0); (31, D 1 0)]) [(2, (-2)); (3, 1)] (-1) [(2, 2)] [(3, 1)] true;
  (* 11: lines 300-312 *) mkReac (Arr (D 28000000000000005 (-4)) (D (-86) (-2)) (D 0 0)) (Third [(0, D 1 0); (1, D 1 0); (2, D 1 0); (4, D 1 0); (6, D 1 0); (7, D 1 0); (8, D 1 0); (9, D 1 0); (10, D 1 0); (11, D 1 0); (12, D 1 0); (13, D 75 (-2)); (14, D 15 (-1)); (15, D 1 0); (16, D 1 0); (17, D 1 0); (18, D 3 0); (19, D 1 0); (20, D 1 0); (21, D 3 0); (22, D 1 0); (23, D 15 (-1)); (24, D 1 0); (25, D 1 0); (26, D 1 0); (27, D 1 0); (28, D 1 0); (29, D 1 0); (30, D 1 0)]) [(1, (-1)); (3, (-1)); (6, 1)] (-1) [(1, 1); (3, 1)] [(6, 1)] true;
  (* 12: lines 315-323 *) mkReac (Arr (D 30000000000000006 (-2)) (D (-172) (-2)) (D 0 0)) (Third [(3, D 1 0)]) [(1, (-1)); (3, (-1)); (6, 1)] (-1) [(1, 1); (3, 1)] [(6, 1)] true;
  (* 13: lines 326-334 *) mkReac (Arr (D 16520000000000004 (-3)) (D (-76) (-2)) (D 0 0)) (Third [(5, D 1 0)]) [(1, (-1)); (3, (-1)); (6, 1)] (-1) [(1, 1); (3, 1)] [(6, 1)] true;
  (* 14: lines 337-345 *) mkReac (Arr (D 26000000000000004 (-3)) (D (-124) (-2)) (D 0 0)) (Third [(31, D 1 0)]) [(1, (-1)); (3, (-1)); (6, 1)] (-1) [(1, 1); (3, 1)] [(6, 1)] true;
  (* 15: lines 348-373 *) mkReac (Arr (D 7400000000000002 (-5)) (D (-37) (-2)) (D 0 0)) (Troe [(0, D 2 0); (1, D 1 0); (2, D 1 0); (3, D 1 0); (4, D 1 0); (5, D 6 0); (6, D 1 0); (7, D 1 0); (8, D 1 0); (9, D 1 0); (10, D 1 0); (11, D 1 0); (12, D 2 0); (13, D 15 (-1)); (14, D 2 0); (15, D 1 0); (16, D 1 0); (17, D 1 0); (18, D 3 0); (19, D 1 0); (20, D 1 0); (21, D 3 0); (22, D 1 0); (23, D 3 0); (24, D 1 0); (25, D 1 0); (26, D 1 0); (27, D 1 0); (28, D 1 0); (29, D 1 0); (30, D 1 0); (31, D 1 0)] (Arr (D 23000000000000005 (-4)) (D (-9) (-1)) (D (-8554732069479018) (-13))) (D 7346 (-4)) (D 94 0) (D 1756 0) (D 5182 0)) [(4, (-2)); (7, 1)] (-1) [(4, 2)] [(7, 1)] true;
  (* 16: lines 376-381 *) mkReac (Arr (D 39700000000000005 (-7)) (D 0 0) (D 33766030697767184 (-14))) (Plain) [(1, (-1)); (2, 1); (5, 1); (6, (-1))] 0 [(1, 1); (6, 1)] [(2, 1); (5, 1)] true;
  (* 17: lines 384-389 *) mkReac (Arr (D 16600000000000002 (-6)) (D 0 0) (D 4126400174689879 (-13))) (Plain) [(0, 1); (1, (-1)); (3, 1); (6, (-1))] 0 [(1, 1); (6, 1)] [(0, 1); (3, 1)] true;
  (* 18: lines 392-397 *) mkReac (Arr (D 7080000000000002 (-5)) (D 0 0) (D 15096586004962973 (-14))) (Plain) [(1, (-1)); (4, 2); (6, (-1))] 0 [(1, 1); (6, 1)] [(4, 2)] true;
  (* 19: lines 400-405 *) mkReac (Pow (D 20000000000000004 (-6)) 0) (Plain) [(2, (-1)); (3, 1); (4, 1); (6, (-1))] 0 [(2, 1); (6, 1)] [(3, 1); (4, 1)] true;
  (* 20: lines 408-413 *) mkReac (Arr (D 4640000000000001 (-5)) (D 0 0) (D (-25160976674938286) (-14))) (Plain) [(3, 1); (4, (-1)); (5, 1); (6, (-1))] 0 [(4, 1); (6, 1)] [(3, 1); (5, 1)] true;
  (* 21: lines 416-421 *) mkReac (Arr (D 13000000000000001 (-8)) (D 0 0) (D (-8202478396029882) (-13))) (Plain) [(3, 1); (6, (-2)); (7, 1)] 0 [(6, 2)] [(3, 1); (7, 1)] true;
  (* 22: lines 424-429 *) mkReac (Arr (D 42000000000000006 (-5)) (D 0 0) (D 6038634401985189 (-12))) (Plain) [(3, 1); (6, (-2)); (7, 1)] 0 [(6, 2)] [(3, 1); (7, 1)] true;
  (* 23: lines 432-438 *) mkReac (Arr (D 12100000000000002 (-12)) (D 2 0) (D 2616741574193582 (-12))) (Plain) [(0, 1); (1, (-1)); (6, 1); (7, (-1))] 0 [(1, 1); (7, 1)] [(0, 1); (6, 1)] true;
  (* 24: lines 441-446 *) mkReac (Arr (D 10000000000000002 (-6)) (D 0 0) (D 18115903205955567 (-13))) (Plain) [(1, (-1)); (4, 1); (5, 1); (7, (-1))] 0 [(1, 1); (7, 1)] [(4, 1); (5, 1)] true;
  (* 25: lines 449-454 *) mkReac (Arr (D 963 1) (D 2 0) (D 20128781339950629 (-13))) (Plain) [(2, (-1)); (4, 1); (6, 1); (7, (-1))] 0 [(2, 1); (7, 1)] [(4, 1); (6, 1)] true;
  (* 26: lines 457-462 *) mkReac (Arr (D 17500000000000002 (-7)) (D 0 0) (D 16103025071960505 (-14))) (Plain) [(4, (-1)); (5, 1); (6, 1); (7, (-1))] 0 [(4, 1); (7, 1)] [(5, 1); (6, 1)] true;
  (* 27: lines 465-470 *) mkReac (Arr (D 5800000000000001 (-4)) (D 0 0) (D 4810778740248201 (-12))) (Plain) [(4, (-1)); (5, 1); (6, 1); (7, (-1))] 0 [(4, 1); (7, 1)] [(5, 1); (6, 1)] true;
  (* 28: lines 473-486 *) mkReac (Arr (D 6020000000000001 (-7)) (D 0 0) (D 15096586004962971 (-13))) (Third [(0, D 2 0); (1, D 1 0); (2, D 1 0); (3, D 6 0); (4, D 1 0); (5, D 6 0); (6, D 1 0); (7, D 1 0); (8, D 1 0); (9, D 1 0); (10, D 1 0); (11, D 1 0); (12, D 2 0); (13, D 15 (-1)); (14, D 35 (-1)); (15, D 1 0); (16, D 1 0); (17, D 1 0); (18, D 3 0); (19, D 1 0); (20, D 1 0); (21, D 3 0); (22, D 1 0); (23, D 3 0); (24, D 1 0); (25, D 1 0); (26, D 1 0); (27, D 1 0); (28, D 1 0); (29, D 1 0); (30, D 1 0); (31, D 1 0)]) [(2, (-1)); (13, (-1)); (14, 1)] (-1) [(2, 1); (13, 1)] [(14, 1)] true;
  (* 29: lines 489-495 *) mkReac (Arr (D 4760000000000001 (-11)) (D 1228 (-3)) (D 352253673449136 (-13))) (Plain) [(1, 1); (4, (-1)); (13, (-1)); (14, 1)] 0 [(4, 1); (13, 1)] [(1, 1); (14, 1)] true;
  (* 30: lines 498-523 *) mkReac (Arr (D 4300000000000001 (-11)) (D 15 (-1)) (D 4005627486650175 (-11))) (Troe [(0, D 2 0); (1, D 1 0); (2, D 1 0); (3, D 1 0); (4, D 1 0); (5, D 6 0); (6, D 1 0); (7, D 1 0); (8, D 1 0); (9, D 1 0); (10, D 1 0); (11, D 1 0); (12, D 2 0); (13, D 15 (-1)); (14, D 2 0); (15, D 1 0); (16, D 1 0); (17, D 1 0); (18, D 3 0); (19, D 1 0); (20, D 1 0); (21, D 3 0); (22, D 1 0); (23, D 3 0); (24, D 1 0); (25, D 1 0); (26, D 1 0); (27, D 1 0); (28, D 1 0); (29, D 1 0); (30, D 1 0); (31, D 1 0)] (Arr (D 507 19) (D (-342) (-2)) (D 4244656765062089 (-11))) (D 932 (-3)) (D 19700000000000003 (-14)) (D 154 1) (D 103 2)) [(0, (-1)); (13, (-1)); (16, 1)] (-1) [(0, 1); (13, 1)] [(16, 1)] true;
  (* 31: lines 526-531 *) mkReac (Arr (D 25000000000000005 (-7)) (D 0 0) (D 24053893701241002 (-12))) (Plain) [(2, 1); (3, (-1)); (13, (-1)); (14, 1)] 0 [(3, 1); (13, 1)] [(2, 1); (14, 1)] true;
  (* 32: lines 534-539 *) mkReac (Arr (D 15000000000000003 (-5)) (D 0 0) (D 11875980990570872 (-12))) (Plain) [(4, 1); (6, (-1)); (13, (-1)); (14, 1)] 0 [(6, 1); (13, 1)] [(4, 1); (14, 1)] true;
  (* 33: lines 542-547 *) mkReac (Pow (D 5700000000000001 (-5)) 0) (Plain) [(1, 1); (2, (-1)); (8, (-1)); (13, 1)] 0 [(2, 1); (8, 1)] [(1, 1); (13, 1)] true;
  (* 34: lines 550-555 *) mkReac (Pow (D 30000000000000004 (-6)) 0) (Plain) [(1, 1); (4, (-1)); (8, (-1)); (15, 1)] 0 [(4, 1); (8, 1)] [(1, 1); (15, 1)] true;
  (* 35: lines 558-564 *) mkReac (Arr (D 11070000000000001 (-11)) (D 179 (-2)) (D 8403766209429388 (-13))) (Plain) [(0, (-1)); (1, 1); (8, (-1)); (9, 1)] 0 [(0, 1); (8, 1)] [(1, 1); (9, 1)] true;
  (* 36: lines 567-572 *) mkReac (Arr (D 5710000000000001 (-6)) (D 0 0) (D (-37993074779156814) (-14))) (Plain) [(1, 1); (5, (-1)); (8, (-1)); (16, 1)] 0 [(5, 1); (8, 1)] [(1, 1); (16, 1)] true;
  (* 37: lines 575-580 *) mkReac (Pow (D 33000000000000004 (-6)) 0) (Plain) [(2, 1); (3, (-1)); (8, (-1)); (15, 1)] 0 [(3, 1); (8, 1)] [(2, 1); (15, 1)] true;
  (* 38: lines 583-608 *) mkReac (Pow (D 5000000000000001 (-5)) 0) (Troe [(0, D 2 0); (1, D 1 0); (2, D 1 0); (3, D 1 0); (4, D 1 0); (5, D 6 0); (6, D 1 0); (7, D 1 0); (8, D 1 0); (9, D 1 0); (10, D 1 0); (11, D 1 0); (12, D 2 0); (13, D 15 (-1)); (14, D 2 0); (15, D 1 0); (16, D 1 0); (17, D 1 0); (18, D 3 0); (19, D 1 0); (20, D 1 0); (21, D 3 0); (22, D 1 0); (23, D 3 0); (24, D 1 0); (25, D 1 0); (26, D 1 0); (27, D 1 0); (28, D 1 0); (29, D 1 0); (30, D 1 0); (31, D 1 0)] (Arr (D 26900000000000003 6) (D (-374) (-2)) (D 9742330168536105 (-13))) (D 5757 (-4)) (D 23700000000000003 (-14)) (D 1652 0) (D 5069 0)) [(8, (-1)); (13, (-1)); (24, 1)] (-1) [(8, 1); (13, 1)] [(24, 1)] true;
  (* 39: lines 611-616 *) mkReac (Arr (D 34000000000000005 (-7)) (D 0 0) (D 34722147811414834 (-14))) (Plain) [(8, (-1)); (13, 1); (14, (-1)); (15, 1)] 0 [(8, 1); (14, 1)] [(13, 1); (15, 1)] true;
  (* 40: lines 619-645 *) mkReac (Arr (D 10900000000000002 (-7)) (D 48 (-2)) (D (-1308370787096791) (-13))) (Troe [(0, D 2 0); (1, D 1 0); (2, D 1 0); (3, D 1 0); (4, D 1 0); (5, D 6 0); (6, D 1 0); (7, D 1 0); (8, D 1 0); (9, D 1 0); (10, D 1 0); (11, D 1 0); (12, D 2 0); (13, D 15 (-1)); (14, D 2 0); (15, D 1 0); (16, D 1 0); (17, D 1 0); (18, D 3 0); (19, D 1 0); (20, D 1 0); (21, D 3 0); (22, D 1 0); (23, D 3 0); (24, D 1 0); (25, D 1 0); (26, D 1 0); (27, D 1 0); (28, D 1 0); (29, D 1 0); (30, D 1 0); (31, D 1 0)] (Arr (D 13500000000000003 2) (D (-257) (-2)) (D 7170878352357412 (-13))) (D 7824 (-4)) (D 271 0) (D 2755 0) (D 657 1)) [(1, (-1)); (15, (-1)); (16, 1)] (-1) [(1, 1); (15, 1)] [(16, 1)] true;
  (* 41: lines 648-653 *) mkReac (Pow (D 7340000000000002 (-5)) 0) (Plain) [(0, 1); (1, (-1)); (13, 1); (15, (-1))] 0 [(1, 1); (15, 1)] [(0, 1); (13, 1)] true;
  (* 42: lines 656-661 *) mkReac (Pow (D 30000000000000004 (-6)) 0) (Plain) [(2, (-1)); (4, 1); (13, 1); (15, (-1))] 0 [(2, 1); (15, 1)] [(4, 1); (13, 1)] true;
  (* 43: lines 664-669 *) mkReac (Pow (D 30000000000000004 (-6)) 0) (Plain) [(1, 1); (2, (-1)); (14, 1); (15, (-1))] 0 [(2, 1); (15, 1)] [(1, 1); (14, 1)] true;
  (* 44: lines 672-677 *) mkReac (Pow (D 5000000000000001 (-5)) 0) (Plain) [(4, (-1)); (5, 1); (13, 1); (15, (-1))] 0 [(4, 1); (15, 1)] [(5, 1); (13, 1)] true;
  (* 45: lines 680-694 *) mkReac (Arr (D 18700000000000003 (-2)) (D (-1) 0) (D 8554732069479018 (-12))) (Third [(0, D 2 0); (1, D 1 0); (2, D 1 0); (3, D 1 0); (4, D 1 0); (5, D 6 0); (6, D 1 0); (7, D 1 0); (8, D 1 0); (9, D 1 0); (10, D 1 0); (11, D 1 0); (12, D 2 0); (13, D 15 (-1)); (14, D 2 0); (15, D 1 0); (16, D 1 0); (17, D 1 0); (18, D 3 0); (19, D 1 0); (20, D 1 0); (21, D 3 0); (22, D 1 0); (23, D 3 0); (24, D 1 0); (25, D 1 0); (26, D 1 0); (27, D 1 0); (28, D 1 0); (29, D 1 0); (30, D 1 0); (31, D 1 0)]) [(1, 1); (13, 1); (15, (-1))] 1 [(15, 1)] [(1, 1); (13, 1)] true;
  (* 46: lines 697-702 *) mkReac (Arr (D 7600000000000001 (-6)) (D 0 0) (D 2012878133995063 (-13))) (Plain) [(3, (-1)); (6, 1); (13, 1); (15, (-1))] 0 [(3, 1); (15, 1)] [(6, 1); (13, 1)] true;
  (* 47: lines 705-730 *) mkReac (Arr (D 25000000000000004 (-3)) (D (-8) (-1)) (D 0 0)) (Troe [(0, D 2 0); (1, D 1 0); (2, D 1 0); (3, D 1 0); (4, D 1 0); (5, D 6 0); (6, D 1 0); (7, D 1 0); (8, D 1 0); (9, D 1 0); (10, D 1 0); (11, D 1 0); (12, D 2 0); (13, D 15 (-1)); (14, D 2 0); (15, D 1 0); (16, D 1 0); (17, D 1 0); (18, D 3 0); (19, D 1 0); (20, D 1 0); (21, D 3 0); (22, D 1 0); (23, D 3 0); (24, D 1 0); (25, D 1 0); (26, D 1 0); (27, D 1 0); (28, D 1 0); (29, D 1 0); (30, D 1 0); (31, D 1 0)] (Arr (D 32000000000000005 5) (D (-314) (-2)) (D 6189600262034819 (-13))) (D 68 (-2)) (D 78 0) (D 1995 0) (D 559 1)) [(1, (-1)); (9, (-1)); (11, 1)] (-1) [(1, 1); (9, 1)] [(11, 1)] true;
  (* 48: lines 733-739 *) mkReac (Arr (D 5000000000000001 (-13)) (D 2 0) (D 3638277227196076 (-12))) (Plain) [(0, (-1)); (1, 1); (9, (-1)); (11, 1)] 0 [(0, 1); (9, 1)] [(1, 1); (11, 1)] true;
  (* 49: lines 742-747 *) mkReac (Pow (D 8000000000000002 (-5)) 0) (Plain) [(1, 1); (2, (-1)); (9, (-1)); (15, 1)] 0 [(2, 1); (9, 1)] [(1, 1); (15, 1)] true;
  (* 50: lines 750-755 *) mkReac (Arr (D 10560000000000002 (-6)) (D 0 0) (D 7548293002481486 (-13))) (Plain) [(3, (-1)); (4, 1); (9, (-1)); (15, 1)] 0 [(3, 1); (9, 1)] [(4, 1); (15, 1)] true;
  (* 51: lines 758-763 *) mkReac (Arr (D 26400000000000005 (-7)) (D 0 0) (D 7548293002481486 (-13))) (Plain) [(1, 2); (3, (-1)); (9, (-1)); (14, 1)] 1 [(3, 1); (9, 1)] [(1, 2); (14, 1)] true;
  (* 52: lines 766-771 *) mkReac (Pow (D 20000000000000004 (-6)) 0) (Plain) [(1, 1); (4, (-1)); (9, (-1)); (16, 1)] 0 [(4, 1); (9, 1)] [(1, 1); (16, 1)] true;
  (* 53: lines 774-780 *) mkReac (Arr (D 11300000000000002 (-12)) (D 2 0) (D 15096586004962971 (-13))) (Plain) [(4, (-1)); (5, 1); (8, 1); (9, (-1))] 0 [(4, 1); (9, 1)] [(5, 1); (8, 1)] true;
  (* 54: lines 783-788 *) mkReac (Pow (D 20000000000000004 (-6)) 0) (Plain) [(4, 1); (6, (-1)); (9, (-1)); (16, 1)] 0 [(6, 1); (9, 1)] [(4, 1); (16, 1)] true;
  (* 55: lines 791-817 *) mkReac (Arr (D 8100000000000001 (-7)) (D 5 (-1)) (D 22695200960794336 (-13))) (Troe [(0, D 2 0); (1, D 1 0); (2, D 1 0); (3, D 1 0); (4, D 1 0); (5, D 6 0); (6, D 1 0); (7, D 1 0); (8, D 1 0); (9, D 1 0); (10, D 1 0); (11, D 1 0); (12, D 2 0); (13, D 15 (-1)); (14, D 2 0); (15, D 1 0); (16, D 1 0); (17, D 1 0); (18, D 3 0); (19, D 1 0); (20, D 1 0); (21, D 3 0); (22, D 1 0); (23, D 3 0); (24, D 1 0); (25, D 1 0); (26, D 1 0); (27, D 1 0); (28, D 1 0); (29, D 1 0); (30, D 1 0); (31, D 1 0)] (Arr (D 26900000000000006 11) (D (-511) (-2)) (D 3570342590173743 (-12))) (D 5907 (-4)) (D 275 0) (D 1226 0) (D 5185 0)) [(9, (-1)); (13, (-1)); (25, 1)] (-1) [(9, 1); (13, 1)] [(25, 1)] true;
  (* 56: lines 820-825 *) mkReac (Pow (D 4000000000000001 (-5)) 0) (Plain) [(1, 1); (8, (-1)); (9, (-1)); (18, 1)] 0 [(8, 1); (9, 1)] [(1, 1); (18, 1)] true;
  (* 57: lines 828-833 *) mkReac (Pow (D 32000000000000004 (-6)) 0) (Plain) [(0, 1); (9, (-2)); (18, 1)] 0 [(9, 2)] [(0, 1); (18, 1)] true;
  (* 58: lines 836-841 *) mkReac (Arr (D 15000000000000002 (-6)) (D 0 0) (D 30193172009925945 (-14))) (Plain) [(9, 1); (10, (-1))] 0 [(10, 1); (31, 1)] [(9, 1); (31, 1)] true;
  (* 59: lines 844-849 *) mkReac (Pow (D 30000000000000004 (-6)) 0) (Plain) [(0, 1); (1, (-1)); (8, 1); (10, (-1))] 0 [(1, 1); (10, 1)] [(0, 1); (8, 1)] true;
  (* 60: lines 852-857 *) mkReac (Pow (D 15000000000000002 (-6)) 0) (Plain) [(0, 1); (2, (-1)); (10, (-1)); (13, 1)] 0 [(2, 1); (10, 1)] [(0, 1); (13, 1)] true;
  (* 61: lines 860-865 *) mkReac (Pow (D 15000000000000002 (-6)) 0) (Plain) [(1, 1); (2, (-1)); (10, (-1)); (15, 1)] 0 [(2, 1); (10, 1)] [(1, 1); (15, 1)] true;
  (* 62: lines 868-873 *) mkReac (Pow (D 30000000000000004 (-6)) 0) (Plain) [(1, 1); (4, (-1)); (10, (-1)); (16, 1)] 0 [(4, 1); (10, 1)] [(1, 1); (16, 1)] true;
  (* 63: lines 876-881 *) mkReac (Pow (D 7000000000000002 (-5)) 0) (Plain) [(0, (-1)); (1, 1); (10, (-1)); (11, 1)] 0 [(0, 1); (10, 1)] [(1, 1); (11, 1)] true;
  (* 64: lines 884-889 *) mkReac (Pow (D 28000000000000004 (-6)) 0) (Plain) [(1, 1); (3, (-1)); (4, 1); (10, (-1)); (13, 1)] 1 [(3, 1); (10, 1)] [(1, 1); (4, 1); (13, 1)] true;
  (* 65: lines 892-897 *) mkReac (Pow (D 12000000000000002 (-6)) 0) (Plain) [(3, (-1)); (5, 1); (10, (-1)); (13, 1)] 0 [(3, 1); (10, 1)] [(5, 1); (13, 1)] true;
  (* 66: lines 900-905 *) mkReac (Pow (D 30000000000000004 (-6)) 0) (Plain) [(9, 1); (10, (-1))] 0 [(5, 1); (10, 1)] [(5, 1); (9, 1)] true;
  (* 67: lines 908-913 *) mkReac (Pow (D 9000000000000002 (-6)) 0) (Plain) [(9, 1); (10, (-1))] 0 [(10, 1); (13, 1)] [(9, 1); (13, 1)] true;
  (* 68: lines 916-921 *) mkReac (Pow (D 7000000000000001 (-6)) 0) (Plain) [(9, 1); (10, (-1))] 0 [(10, 1); (14, 1)] [(9, 1); (14, 1)] true;
  (* 69: lines 924-929 *) mkReac (Pow (D 14000000000000002 (-6)) 0) (Plain) [(10, (-1)); (13, 1); (14, (-1)); (16, 1)] 0 [(10, 1); (14, 1)] [(13, 1); (16, 1)] true;
  (* 70: lines 932-958 *) mkReac (Arr (D 5400000000000001 (-7)) (D 454 (-3)) (D 1308370787096791 (-12))) (Troe [(0, D 2 0); (1, D 1 0); (2, D 1 0); (3, D 1 0); (4, D 1 0); (5, D 6 0); (6, D 1 0); (7, D 1 0); (8, D 1 0); (9, D 1 0); (10, D 1 0); (11, D 1 0); (12, D 2 0); (13, D 15 (-1)); (14, D 2 0); (15, D 1 0); (16, D 1 0); (17, D 1 0); (18, D 3 0); (19, D 1 0); (20, D 1 0); (21, D 3 0); (22, D 1 0); (23, D 3 0); (24, D 1 0); (25, D 1 0); (26, D 1 0); (27, D 1 0); (28, D 1 0); (29, D 1 0); (30, D 1 0); (31, D 1 0)] (Arr (D 22000000000000006 8) (D (-48) (-1)) (D 27979006062531375 (-13))) (D 758 (-3)) (D 94 0) (D 1555 0) (D 42 2)) [(1, (-1)); (16, (-1)); (17, 1)] (-1) [(1, 1); (16, 1)] [(17, 1)] true;
  (* 71: lines 961-967 *) mkReac (Arr (D 23000000000000004 (-9)) (D 105 (-2)) (D 16480439722084577 (-13))) (Plain) [(0, 1); (1, (-1)); (15, 1); (16, (-1))] 0 [(1, 1); (16, 1)] [(0, 1); (15, 1)] true;
  (* 72: lines 970-975 *) mkReac (Arr (D 3900000000000001 (-5)) (D 0 0) (D 17813971485856307 (-13))) (Plain) [(2, (-1)); (4, 1); (15, 1); (16, (-1))] 0 [(2, 1); (16, 1)] [(4, 1); (15, 1)] true;
  (* 73: lines 978-984 *) mkReac (Arr (D 34300000000000005 (-10)) (D 118 (-2)) (D (-2249391314739483) (-13))) (Plain) [(4, (-1)); (5, 1); (15, 1); (16, (-1))] 0 [(4, 1); (16, 1)] [(5, 1); (15, 1)] true;
  (* 74: lines 987-992 *) mkReac (Arr (D 10000000000000002 (-5)) (D 0 0) (D 2012878133995063 (-11))) (Plain) [(3, (-1)); (6, 1); (15, 1); (16, (-1))] 0 [(3, 1); (16, 1)] [(6, 1); (15, 1)] true;
  (* 75: lines 995-1000 *) mkReac (Arr (D 10000000000000001 (-7)) (D 0 0) (D 40257562679901257 (-13))) (Plain) [(6, (-1)); (7, 1); (15, 1); (16, (-1))] 0 [(6, 1); (16, 1)] [(7, 1); (15, 1)] true;
  (* 76: lines 1003-1008 *) mkReac (Arr (D 9460000000000002 (-5)) (D 0 0) (D (-25915805975186436) (-14))) (Plain) [(1, 1); (8, (-1)); (16, (-1)); (25, 1)] 0 [(8, 1); (16, 1)] [(1, 1); (25, 1)] true;
  (* 77: lines 1011-1037 *) mkReac (Arr (D 12700000000000002 (-3)) (D (-63) (-2)) (D 1927330813300273 (-13))) (Troe [(0, D 2 0); (1, D 1 0); (2, D 1 0); (3, D 1 0); (4, D 1 0); (5, D 6 0); (6, D 1 0); (7, D 1 0); (8, D 1 0); (9, D 1 0); (10, D 1 0); (11, D 1 0); (12, D 2 0); (13, D 15 (-1)); (14, D 2 0); (15, D 1 0); (16, D 1 0); (17, D 1 0); (18, D 3 0); (19, D 1 0); (20, D 1 0); (21, D 3 0); (22, D 1 0); (23, D 3 0); (24, D 1 0); (25, D 1 0); (26, D 1 0); (27, D 1 0); (28, D 1 0); (29, D 1 0); (30, D 1 0); (31, D 1 0)] (Arr (D 24770000000000003 11) (D (-476) (-2)) (D 12278556617369884 (-13))) (D 783 (-3)) (D 74 0) (D 2941 0) (D 6964 0)) [(1, (-1)); (11, (-1)); (12, 1)] (-1) [(1, 1); (11, 1)] [(12, 1)] true;
  (* 78: lines 1040-1045 *) mkReac (Pow (D 8430000000000002 (-5)) 0) (Plain) [(1, 1); (2, (-1)); (11, (-1)); (16, 1)] 0 [(2, 1); (11, 1)] [(1, 1); (16, 1)] true;
  (* 79: lines 1048-1054 *) mkReac (Arr (D 5600000000000001 (-11)) (D 16 (-1)) (D 27274498715633104 (-13))) (Plain) [(4, (-1)); (5, 1); (9, 1); (11, (-1))] 0 [(4, 1); (11, 1)] [(5, 1); (9, 1)] true;
  (* 80: lines 1057-1062 *) mkReac (Pow (D 25010000000000004 (-6)) 0) (Plain) [(4, (-1)); (5, 1); (10, 1); (11, (-1))] 0 [(4, 1); (11, 1)] [(5, 1); (10, 1)] true;
  (* 81: lines 1065-1070 *) mkReac (Arr (D 30830000000000004 (-6)) (D 0 0) (D 14492722564764454 (-12))) (Plain) [(2, 1); (3, (-1)); (11, (-1)); (17, 1)] 0 [(3, 1); (11, 1)] [(2, 1); (17, 1)] true;
  (* 82: lines 1073-1078 *) mkReac (Arr (D 3600000000000001 (-8)) (D 0 0) (D 4498782629478966 (-12))) (Plain) [(3, (-1)); (4, 1); (11, (-1)); (16, 1)] 0 [(3, 1); (11, 1)] [(4, 1); (16, 1)] true;
  (* 83: lines 1081-1086 *) mkReac (Pow (D 10000000000000001 (-7)) 0) (Plain) [(3, 1); (6, (-1)); (11, (-1)); (12, 1)] 0 [(6, 1); (11, 1)] [(3, 1); (12, 1)] true;
  (* 84: lines 1089-1094 *) mkReac (Pow (D 13400000000000002 (-6)) 0) (Plain) [(4, 1); (6, (-1)); (11, (-1)); (17, 1)] 0 [(6, 1); (11, 1)] [(4, 1); (17, 1)] true;
  (* 85: lines 1097-1103 *) mkReac (Arr (D 24500000000000004 (-15)) (D 247 (-2)) (D 26066771835236063 (-13))) (Plain) [(6, 1); (7, (-1)); (11, (-1)); (12, 1)] 0 [(7, 1); (11, 1)] [(6, 1); (12, 1)] true;
  (* 86: lines 1106-1111 *) mkReac (Pow (D 30000000000000004 (-6)) 0) (Plain) [(1, 1); (8, (-1)); (11, (-1)); (20, 1)] 0 [(8, 1); (11, 1)] [(1, 1); (20, 1)] true;
  (* 87: lines 1114-1119 *) mkReac (Pow (D 8480000000000002 (-6)) 0) (Plain) [(11, (-1)); (12, 1); (13, 1); (15, (-1))] 0 [(11, 1); (15, 1)] [(12, 1); (13, 1)] true;
  (* 88: lines 1122-1147 *) mkReac (Pow (D 18000000000000004 (-6)) 0) (Troe [(0, D 2 0); (1, D 1 0); (2, D 1 0); (3, D 1 0); (4, D 1 0); (5, D 6 0); (6, D 1 0); (7, D 1 0); (8, D 1 0); (9, D 1 0); (10, D 1 0); (11, D 1 0); (12, D 2 0); (13, D 15 (-1)); (14, D 2 0); (15, D 1 0); (16, D 1 0); (17, D 1 0); (18, D 3 0); (19, D 1 0); (20, D 1 0); (21, D 3 0); (22, D 1 0); (23, D 3 0); (24, D 1 0); (25, D 1 0); (26, D 1 0); (27, D 1 0); (28, D 1 0); (29, D 1 0); (30, D 1 0); (31, D 1 0)] (Arr (D 22000000000000004 26) (D (-9588) (-3)) (D 2566419620843705 (-12))) (D 6173 (-4)) (D 13076000000000002 (-15)) (D 2078 0) (D 5093 0)) [(11, (-1)); (15, (-1)); (27, 1)] (-1) [(11, 1); (15, 1)] [(27, 1)] true;
  (* 89: lines 1150-1156 *) mkReac (Arr (D 33200000000000003 (-16)) (D 281 (-2)) (D 2948866466302767 (-12))) (Plain) [(11, (-1)); (12, 1); (15, 1); (16, (-1))] 0 [(11, 1); (16, 1)] [(12, 1); (15, 1)] true;
  (* 90: lines 1159-1164 *) mkReac (Pow (D 4000000000000001 (-5)) 0) (Plain) [(1, 1); (9, (-1)); (11, (-1)); (21, 1)] 0 [(9, 1); (11, 1)] [(1, 1); (21, 1)] true;
  (* 91: lines 1167-1172 *) mkReac (Arr (D 12000000000000002 (-6)) (D 0 0) (D (-28683513409429645) (-14))) (Plain) [(1, 1); (10, (-1)); (11, (-1)); (21, 1)] 0 [(10, 1); (11, 1)] [(1, 1); (21, 1)] true;
  (* 92: lines 1175-1201 *) mkReac (Arr (D 21200000000000004 (-3)) (D (-97) (-2)) (D 31199611076923475 (-14))) (Troe [(0, D 2 0); (1, D 1 0); (2, D 1 0); (3, D 1 0); (4, D 1 0); (5, D 6 0); (6, D 1 0); (7, D 1 0); (8, D 1 0); (9, D 1 0); (10, D 1 0); (11, D 1 0); (12, D 2 0); (13, D 15 (-1)); (14, D 2 0); (15, D 1 0); (16, D 1 0); (17, D 1 0); (18, D 3 0); (19, D 1 0); (20, D 1 0); (21, D 3 0); (22, D 1 0); (23, D 3 0); (24, D 1 0); (25, D 1 0); (26, D 1 0); (27, D 1 0); (28, D 1 0); (29, D 1 0); (30, D 1 0); (31, D 1 0)] (Arr (D 17700000000000004 28) (D (-967) (-2)) (D 3130025498362323 (-12))) (D 5325 (-4)) (D 151 0) (D 1038 0) (D 497 1)) [(11, (-2)); (23, 1)] (-1) [(11, 2)] [(23, 1)] true;
  (* 93: lines 1204-1210 *) mkReac (Arr (D 4990000000000001 (-6)) (D 1 (-1)) (D 5334127055086917 (-12))) (Plain) [(1, 1); (11, (-2)); (22, 1)] 0 [(11, 2)] [(1, 1); (22, 1)] true;
  (* 94: lines 1213-1218 *) mkReac (Pow (D 5000000000000001 (-5)) 0) (Plain) [(11, (-1)); (13, 1); (21, 1); (24, (-1))] 0 [(11, 1); (24, 1)] [(13, 1); (21, 1)] true;
  (* 95: lines 1221-1226 *) mkReac (Pow (D 20000000000000004 (-6)) 0) (Plain) [(0, 1); (1, (-1)); (16, 1); (17, (-1))] 0 [(1, 1); (17, 1)] [(0, 1); (16, 1)] true;
  (* 96: lines 1229-1234 *) mkReac (Pow (D 32000000000000004 (-6)) 0) (Plain) [(1, (-1)); (4, 1); (11, 1); (17, (-1))] 0 [(1, 1); (17, 1)] [(4, 1); (11, 1)] true;
  (* 97: lines 1237-1242 *) mkReac (Pow (D 16000000000000002 (-6)) 0) (Plain) [(1, (-1)); (5, 1); (10, 1); (17, (-1))] 0 [(1, 1); (17, 1)] [(5, 1); (10, 1)] true;
  (* 98: lines 1245-1250 *) mkReac (Pow (D 10000000000000002 (-6)) 0) (Plain) [(2, (-1)); (4, 1); (16, 1); (17, (-1))] 0 [(2, 1); (17, 1)] [(4, 1); (16, 1)] true;
  (* 99: lines 1253-1258 *) mkReac (Pow (D 5000000000000001 (-6)) 0) (Plain) [(4, (-1)); (5, 1); (16, 1); (17, (-1))] 0 [(4, 1); (17, 1)] [(5, 1); (16, 1)] true;
  (* 100: lines 1261-1267 *) mkReac (Arr (D 42800000000000005 (-32)) (D 76 (-1)) (D (-1776364953250643) (-12))) (Plain) [(3, (-1)); (6, 1); (16, 1); (17, (-1))] 0 [(3, 1); (17, 1)] [(6, 1); (16, 1)] true;
  (* 101: lines 1270-1276 *) mkReac (Arr (D 6600000000000001 (-10)) (D 162 (-2)) (D 5454899743126621 (-12))) (Plain) [(0, 1); (1, (-1)); (11, 1); (12, (-1))] 0 [(1, 1); (12, 1)] [(0, 1); (11, 1)] true;
  (* 102: lines 1279-1285 *) mkReac (Arr (D 10200000000000001 (-10)) (D 15 (-1)) (D 4327687988089386 (-12))) (Plain) [(2, (-1)); (4, 1); (11, 1); (12, (-1))] 0 [(2, 1); (12, 1)] [(4, 1); (11, 1)] true;
  (* 103: lines 1288-1294 *) mkReac (Arr (D 10000000000000001 (-11)) (D 16 (-1)) (D 15700449445161491 (-13))) (Plain) [(4, (-1)); (5, 1); (11, 1); (12, (-1))] 0 [(4, 1); (12, 1)] [(5, 1); (11, 1)] true;
  (* 104: lines 1297-1302 *) mkReac (Pow (D 6000000000000001 (-5)) 0) (Plain) [(1, 1); (8, (-1)); (12, (-1)); (21, 1)] 0 [(8, 1); (12, 1)] [(1, 1); (21, 1)] true;
  (* 105: lines 1305-1311 *) mkReac (Arr (D 24600000000000005 (-13)) (D 2 0) (D 41616255420347925 (-13))) (Plain) [(9, (-1)); (11, 2); (12, (-1))] 0 [(9, 1); (12, 1)] [(11, 2)] true;
  (* 106: lines 1314-1319 *) mkReac (Arr (D 16000000000000002 (-6)) (D 0 0) (D (-28683513409429645) (-14))) (Plain) [(10, (-1)); (11, 2); (12, (-1))] 0 [(10, 1); (12, 1)] [(11, 2)] true;
  (* 107: lines 1322-1327 *) mkReac (Pow (D 10000000000000002 (-5)) 0) (Plain) [(1, (-1)); (10, 1); (13, 1); (24, (-1))] 0 [(1, 1); (24, 1)] [(10, 1); (13, 1)] true;
  (* 108: lines 1330-1335 *) mkReac (Pow (D 10000000000000002 (-5)) 0) (Plain) [(1, 1); (2, (-1)); (13, 2); (24, (-1))] 1 [(2, 1); (24, 1)] [(1, 1); (13, 2)] true;
  (* 109: lines 1338-1343 *) mkReac (Arr (D 16000000000000002 (-7)) (D 0 0) (D 42974948160794594 (-14))) (Plain) [(3, (-1)); (4, 1); (13, 2); (24, (-1))] 1 [(3, 1); (24, 1)] [(4, 1); (13, 2)] true;
  (* 110: lines 1346-1351 *) mkReac (Pow (D 5000000000000001 (-5)) 0) (Plain) [(8, (-1)); (13, 1); (18, 1); (24, (-1))] 0 [(8, 1); (24, 1)] [(13, 1); (18, 1)] true;
  (* 111: lines 1354-1359 *) mkReac (Pow (D 30000000000000004 (-6)) 0) (Plain) [(9, (-1)); (13, 1); (20, 1); (24, (-1))] 0 [(9, 1); (24, 1)] [(13, 1); (20, 1)] true;
  (* 112: lines 1362-1367 *) mkReac (Pow (D 10000000000000002 (-6)) 0) (Plain) [(13, 2); (18, 1); (24, (-2))] 1 [(24, 2)] [(13, 2); (18, 1)] true;
  (* 113: lines 1370-1390 *) mkReac (Arr (D 8 14) (D (-52) (-2)) (D 25538391325062363 (-12))) (Lindemann [(0, D 2 0); (1, D 1 0); (2, D 1 0); (3, D 1 0); (4, D 1 0); (5, D 6 0); (6, D 1 0); (7, D 1 0); (8, D 1 0); (9, D 1 0); (10, D 1 0); (11, D 1 0); (12, D 2 0); (13, D 15 (-1)); (14, D 2 0); (15, D 1 0); (16, D 1 0); (17, D 1 0); (18, D 25 (-1)); (19, D 1 0); (20, D 1 0); (21, D 25 (-1)); (22, D 1 0); (23, D 3 0); (24, D 1 0); (25, D 1 0); (26, D 1 0); (27, D 1 0); (28, D 1 0); (29, D 1 0); (30, D 1 0); (31, D 1 0)] (Arr (D 24500000000000005 (-4)) (D (-64) (-2)) (D 25010010814888657 (-12)))) [(18, (-1)); (19, 1)] 0 [(18, 1)] [(19, 1)] true;
  (* 114: lines 1393-1418 *) mkReac (Arr (D 386 6) (D 162 (-2)) (D 18643387985359645 (-12))) (Troe [(0, D 2 0); (1, D 1 0); (2, D 1 0); (3, D 1 0); (4, D 1 0); (5, D 6 0); (6, D 1 0); (7, D 1 0); (8, D 1 0); (9, D 1 0); (10, D 1 0); (11, D 1 0); (12, D 2 0); (13, D 15 (-1)); (14, D 2 0); (15, D 1 0); (16, D 1 0); (17, D 1 0); (18, D 3 0); (19, D 1 0); (20, D 1 0); (21, D 3 0); (22, D 1 0); (23, D 3 0); (24, D 1 0); (25, D 1 0); (26, D 1 0); (27, D 1 0); (28, D 1 0); (29, D 1 0); (30, D 1 0); (31, D 1 0)] (Arr (D 2565 21) (D (-34) (-1)) (D 18014615178252938 (-12))) (D 19816 (-4)) (D 53837 (-1)) (D 42932 (-4)) (D (-795) (-4))) [(1, 1); (18, 1); (20, (-1))] 1 [(20, 1)] [(1, 1); (18, 1)] true;
  (* 115: lines 1421-1427 *) mkReac (Arr (D 16320000000000004 (-12)) (D 2 0) (D 956117113647655 (-12))) (Plain) [(1, 1); (2, (-1)); (18, (-1)); (24, 1)] 0 [(2, 1); (18, 1)] [(1, 1); (24, 1)] true;
  (* 116: lines 1430-1436 *) mkReac (Arr (D 4080000000000001 (-12)) (D 2 0) (D 956117113647655 (-12))) (Plain) [(2, (-1)); (9, 1); (13, 1); (18, (-1))] 0 [(2, 1); (18, 1)] [(9, 1); (13, 1)] true;
  (* 117: lines 1439-1445 *) mkReac (Arr (D 21800000000000005 (-23)) (D 45 (-1)) (D (-5032195334987657) (-13))) (Plain) [(1, 1); (4, (-1)); (18, (-1)); (25, 1)] 0 [(4, 1); (18, 1)] [(1, 1); (25, 1)] true;
  (* 118: lines 1448-1454 *) mkReac (Arr (D 4830000000000001 (-22)) (D 4 0) (D (-10064390669975314) (-13))) (Plain) [(4, (-1)); (11, 1); (13, 1); (18, (-1))] 0 [(4, 1); (18, 1)] [(11, 1); (13, 1)] true;
  (* 119: lines 1457-1463 *) mkReac (Arr (D 10000000000000002 (-12)) (D 2 0) (D 30193172009925943 (-13))) (Plain) [(13, 1); (15, (-1)); (18, (-1)); (20, 1)] 0 [(15, 1); (18, 1)] [(13, 1); (20, 1)] true;
  (* 120: lines 1466-1479 *) mkReac (Arr (D 22000000000000006 33) (D (-1182) (-2)) (D 179800339319109 (-10))) (Third [(0, D 1 0); (1, D 1 0); (2, D 1 0); (3, D 1 0); (4, D 1 0); (5, D 1 0); (6, D 1 0); (7, D 1 0); (8, D 1 0); (9, D 1 0); (10, D 1 0); (11, D 1 0); (12, D 1 0); (13, D 1 0); (14, D 1 0); (15, D 1 0); (16, D 1 0); (17, D 1 0); (18, D 1 0); (19, D 1 0); (20, D 1 0); (21, D 1 0); (22, D 1 0); (23, D 1 0); (24, D 1 0); (25, D 1 0); (26, D 1 0); (27, D 1 0); (28, D 1 0); (29, D 1 0); (30, D 1 0); (31, D 1 0)]) [(11, (-1)); (18, (-1)); (28, 1)] (-1) [(11, 1); (18, 1)] [(28, 1)] true;
  (* 121: lines 1482-1487 *) mkReac (Pow (D 10000000000000002 (-5)) 0) (Plain) [(18, 1); (19, (-1))] 0 [(1, 1); (19, 1)] [(1, 1); (18, 1)] true;
  (* 122: lines 1490-1495 *) mkReac (Pow (D 10000000000000002 (-5)) 0) (Plain) [(2, (-1)); (9, 1); (13, 1); (19, (-1))] 0 [(2, 1); (19, 1)] [(9, 1); (13, 1)] true;
  (* 123: lines 1498-1503 *) mkReac (Pow (D 20000000000000004 (-6)) 0) (Plain) [(1, 1); (4, (-1)); (19, (-1)); (25, 1)] 0 [(4, 1); (19, 1)] [(1, 1); (25, 1)] true;
  (* 124: lines 1506-1511 *) mkReac (Pow (D 10000000000000002 (-6)) 0) (Plain) [(3, (-1)); (9, 1); (14, 1); (19, (-1))] 0 [(3, 1); (19, 1)] [(9, 1); (14, 1)] true;
  (* 125: lines 1514-1540 *) mkReac (Arr (D 33000000000000006 (-5)) (D (-6) (-2)) (D 4277366034739509 (-12))) (Troe [(0, D 2 0); (1, D 1 0); (2, D 1 0); (3, D 1 0); (4, D 1 0); (5, D 6 0); (6, D 1 0); (7, D 1 0); (8, D 1 0); (9, D 1 0); (10, D 1 0); (11, D 1 0); (12, D 2 0); (13, D 15 (-1)); (14, D 2 0); (15, D 1 0); (16, D 1 0); (17, D 1 0); (18, D 3 0); (19, D 1 0); (20, D 1 0); (21, D 3 0); (22, D 1 0); (23, D 3 0); (24, D 1 0); (25, D 1 0); (26, D 1 0); (27, D 1 0); (28, D 1 0); (29, D 1 0); (30, D 1 0); (31, D 1 0)] (Arr (D 38000000000000014 19) (D (-764) (-2)) (D 5988312448635313 (-12))) (D 337 (-3)) (D 1707 0) (D 32 2) (D 4131 0)) [(1, (-1)); (25, (-1)); (26, 1)] (-1) [(1, 1); (25, 1)] [(26, 1)] true;
  (* 126: lines 1543-1548 *) mkReac (Arr (D 5000000000000001 (-5)) (D 0 0) (D 40257562679901257 (-13))) (Plain) [(0, 1); (1, (-1)); (24, 1); (25, (-1))] 0 [(1, 1); (25, 1)] [(0, 1); (24, 1)] true;
  (* 127: lines 1551-1557 *) mkReac (Arr (D 15000000000000002 (-10)) (D 143 (-2)) (D 13536605451116798 (-13))) (Plain) [(1, (-1)); (11, 1); (13, 1); (25, (-1))] 0 [(1, 1); (25, 1)] [(11, 1); (13, 1)] true;
  (* 128: lines 1560-1565 *) mkReac (Arr (D 10000000000000002 (-6)) (D 0 0) (D 40257562679901257 (-13))) (Plain) [(2, (-1)); (4, 1); (24, 1); (25, (-1))] 0 [(2, 1); (25, 1)] [(4, 1); (24, 1)] true;
  (* 129: lines 1568-1573 *) mkReac (Arr (D 17500000000000002 (-7)) (D 0 0) (D 6793463702233338 (-13))) (Plain) [(2, (-1)); (9, 1); (14, 1); (25, (-1))] 0 [(2, 1); (25, 1)] [(9, 1); (14, 1)] true;
  (* 130: lines 1576-1581 *) mkReac (Arr (D 7500000000000001 (-6)) (D 0 0) (D 10064390669975314 (-13))) (Plain) [(4, (-1)); (5, 1); (24, 1); (25, (-1))] 0 [(4, 1); (25, 1)] [(5, 1); (24, 1)] true;
  (* 131: lines 1584-1610 *) mkReac (Arr (D 6080000000000001 (-6)) (D 27 (-2)) (D 1409014693796544 (-13))) (Troe [(0, D 2 0); (1, D 1 0); (2, D 1 0); (3, D 1 0); (4, D 1 0); (5, D 6 0); (6, D 1 0); (7, D 1 0); (8, D 1 0); (9, D 1 0); (10, D 1 0); (11, D 1 0); (12, D 2 0); (13, D 15 (-1)); (14, D 2 0); (15, D 1 0); (16, D 1 0); (17, D 1 0); (18, D 3 0); (19, D 1 0); (20, D 1 0); (21, D 3 0); (22, D 1 0); (23, D 3 0); (24, D 1 0); (25, D 1 0); (26, D 1 0); (27, D 1 0); (28, D 1 0); (29, D 1 0); (30, D 1 0); (31, D 1 0)] (Arr (D 14000000000000004 8) (D (-386) (-2)) (D 16706888512159023 (-13))) (D 782 (-3)) (D 20749999999999997 (-14)) (D 2663 0) (D 6095 0)) [(1, (-1)); (20, (-1)); (21, 1)] (-1) [(1, 1); (20, 1)] [(21, 1)] true;
  (* 132: lines 1613-1618 *) mkReac (Pow (D 30000000000000004 (-6)) 0) (Plain) [(0, 1); (1, (-1)); (18, 1); (20, (-1))] 0 [(1, 1); (20, 1)] [(0, 1); (18, 1)] true;
  (* 133: lines 1621-1626 *) mkReac (Pow (D 6000000000000001 (-5)) 0) (Plain) [(0, 1); (1, (-1)); (19, 1); (20, (-1))] 0 [(1, 1); (20, 1)] [(0, 1); (19, 1)] true;
  (* 134: lines 1629-1634 *) mkReac (Pow (D 4800000000000001 (-5)) 0) (Plain) [(1, 1); (2, (-1)); (20, (-1)); (25, 1)] 0 [(2, 1); (20, 1)] [(1, 1); (25, 1)] true;
  (* 135: lines 1637-1642 *) mkReac (Pow (D 4800000000000001 (-5)) 0) (Plain) [(2, (-1)); (11, 1); (13, 1); (20, (-1))] 0 [(2, 1); (20, 1)] [(11, 1); (13, 1)] true;
  (* 136: lines 1645-1650 *) mkReac (Pow (D 30110000000000004 (-6)) 0) (Plain) [(4, (-1)); (5, 1); (18, 1); (20, (-1))] 0 [(4, 1); (20, 1)] [(5, 1); (18, 1)] true;
  (* 137: lines 1653-1659 *) mkReac (Arr (D 13400000000000002 (-13)) (D 161 (-2)) (D (-19293436914342678) (-14))) (Plain) [(3, (-1)); (6, 1); (18, 1); (20, (-1))] 0 [(3, 1); (20, 1)] [(6, 1); (18, 1)] true;
  (* 138: lines 1662-1668 *) mkReac (Arr (D 30000000000000006 (-8)) (D 29 (-2)) (D 55354148684864235 (-16))) (Plain) [(2, 1); (3, (-1)); (20, (-1)); (26, 1)] 0 [(3, 1); (20, 1)] [(2, 1); (26, 1)] true;
  (* 139: lines 1671-1677 *) mkReac (Arr (D 4600000000000001 (-2)) (D (-139) (-2)) (D 5082517288337534 (-13))) (Plain) [(3, (-1)); (15, 1); (16, 1); (20, (-1))] 0 [(3, 1); (20, 1)] [(15, 1); (16, 1)] true;
  (* 140: lines 1680-1685 *) mkReac (Pow (D 10000000000000002 (-6)) 0) (Plain) [(4, 1); (6, (-1)); (20, (-1)); (26, 1)] 0 [(6, 1); (20, 1)] [(4, 1); (26, 1)] true;
  (* 141: lines 1688-1693 *) mkReac (Arr (D 12100000000000002 (-9)) (D 0 0) (D (-2999188419652644) (-13))) (Plain) [(6, 1); (7, (-1)); (20, (-1)); (21, 1)] 0 [(7, 1); (20, 1)] [(6, 1); (21, 1)] true;
  (* 142: lines 1696-1701 *) mkReac (Pow (D 9033000000000002 (-5)) 0) (Plain) [(13, 1); (15, (-1)); (20, (-1)); (21, 1)] 0 [(15, 1); (20, 1)] [(13, 1); (21, 1)] true;
  (* 143: lines 1704-1709 *) mkReac (Pow (D 39200000000000006 (-8)) 0) (Plain) [(11, (-1)); (12, 1); (18, 1); (20, (-1))] 0 [(11, 1); (20, 1)] [(12, 1); (18, 1)] true;
  (* 144: lines 1712-1737 *) mkReac (Pow (D 25000000000000004 (-6)) 0) (Troe [(0, D 2 0); (1, D 1 0); (2, D 1 0); (3, D 1 0); (4, D 1 0); (5, D 6 0); (6, D 1 0); (7, D 1 0); (8, D 1 0); (9, D 1 0); (10, D 1 0); (11, D 1 0); (12, D 2 0); (13, D 15 (-1)); (14, D 2 0); (15, D 1 0); (16, D 1 0); (17, D 1 0); (18, D 3 0); (19, D 1 0); (20, D 1 0); (21, D 3 0); (22, D 1 0); (23, D 3 0); (24, D 1 0); (25, D 1 0); (26, D 1 0); (27, D 1 0); (28, D 1 0); (29, D 1 0); (30, D 1 0); (31, D 1 0)] (Arr (D 42700000000000004 36) (D (-1194) (-2)) (D 4916354198376241 (-12))) (D 175 (-3)) (D 13406 (-1)) (D 6 4) (D 101398 (-1))) [(11, (-1)); (20, (-1)); (29, 1)] (-1) [(11, 1); (20, 1)] [(29, 1)] true;
  (* 145: lines 1740-1746 *) mkReac (Arr (D 15000000000000003 5) (D (-283) (-2)) (D 936894127468002 (-11))) (Plain) [(1, 1); (11, (-1)); (20, (-1)); (28, 1)] 0 [(11, 1); (20, 1)] [(1, 1); (28, 1)] true;
  (* 146: lines 1749-1755 *) mkReac (Arr (D 78 40) (D (-9147) (-3)) (D 23600996121092114 (-12))) (Plain) [(11, 1); (13, 1); (26, (-1))] 1 [(26, 1)] [(11, 1); (13, 1)] true;
  (* 147: lines 1758-1783 *) mkReac (Pow (D 10000000000000002 (-5)) 0) (Troe [(0, D 2 0); (1, D 1 0); (2, D 1 0); (3, D 1 0); (4, D 1 0); (5, D 6 0); (6, D 1 0); (7, D 1 0); (8, D 1 0); (9, D 1 0); (10, D 1 0); (11, D 1 0); (12, D 2 0); (13, D 15 (-1)); (14, D 2 0); (15, D 1 0); (16, D 1 0); (17, D 1 0); (18, D 3 0); (19, D 1 0); (20, D 1 0); (21, D 3 0); (22, D 1 0); (23, D 3 0); (24, D 1 0); (25, D 1 0); (26, D 1 0); (27, D 1 0); (28, D 1 0); (29, D 1 0); (30, D 1 0); (31, D 1 0)] (Arr (D 5200000000000002 18) (D (-7297) (-3)) (D 2365131807444199 (-12))) (D 55 (-2)) (D 89 2) (D 435 1) (D 7244 0)) [(1, (-1)); (26, (-1)); (27, 1)] (-1) [(1, 1); (26, 1)] [(27, 1)] true;
  (* 148: lines 1786-1791 *) mkReac (Pow (D 9000000000000002 (-5)) 0) (Plain) [(1, (-1)); (11, 1); (15, 1); (26, (-1))] 0 [(1, 1); (26, 1)] [(11, 1); (15, 1)] true;
  (* 149: lines 1794-1799 *) mkReac (Arr (D 20000000000000004 (-6)) (D 0 0) (D 20128781339950629 (-13))) (Plain) [(0, 1); (1, (-1)); (25, 1); (26, (-1))] 0 [(1, 1); (26, 1)] [(0, 1); (25, 1)] true;
  (* 150: lines 1802-1807 *) mkReac (Arr (D 20000000000000004 (-6)) (D 0 0) (D 20128781339950629 (-13))) (Plain) [(2, (-1)); (4, 1); (25, 1); (26, (-1))] 0 [(2, 1); (26, 1)] [(4, 1); (25, 1)] true;
  (* 151: lines 1810-1815 *) mkReac (Arr (D 10000000000000002 (-6)) (D 0 0) (D 10064390669975314 (-13))) (Plain) [(4, (-1)); (5, 1); (25, 1); (26, (-1))] 0 [(4, 1); (26, 1)] [(5, 1); (25, 1)] true;
  (* 152: lines 1818-1823 *) mkReac (Pow (D 14000000000000003 (-8)) 0) (Plain) [(3, (-1)); (6, 1); (25, 1); (26, (-1))] 0 [(3, 1); (26, 1)] [(6, 1); (25, 1)] true;
  (* 153: lines 1826-1831 *) mkReac (Pow (D 18000000000000004 (-9)) 0) (Plain) [(3, (-1)); (4, 1); (13, 1); (16, 1); (26, (-1))] 1 [(3, 1); (26, 1)] [(4, 1); (13, 1); (16, 1)] true;
  (* 154: lines 1834-1860 *) mkReac (Arr (D 8 12) (D 44 (-2)) (D 4467079798868544 (-11))) (Troe [(0, D 2 0); (1, D 1 0); (2, D 1 0); (3, D 1 0); (4, D 1 0); (5, D 6 0); (6, D 1 0); (7, D 1 0); (8, D 1 0); (9, D 1 0); (10, D 1 0); (11, D 1 0); (12, D 2 0); (13, D 15 (-1)); (14, D 2 0); (15, D 1 0); (16, D 1 0); (17, D 1 0); (18, D 3 0); (19, D 1 0); (20, D 1 0); (21, D 3 0); (22, D 1 0); (23, D 3 0); (24, D 1 0); (25, D 1 0); (26, D 1 0); (27, D 1 0); (28, D 1 0); (29, D 1 0); (30, D 1 0); (31, D 1 0)] (Arr (D 7000000000000001 32) (D (-931) (-2)) (D 5025150261518675 (-11))) (D 7345 (-4)) (D 18 1) (D 1035 0) (D 5417 0)) [(0, 1); (19, 1); (21, (-1))] 1 [(21, 1)] [(0, 1); (19, 1)] true;
  (* 155: lines 1863-1890 *) mkReac (Arr (D 10800000000000002 (-7)) (D 454 (-3)) (D 9158595509677536 (-13))) (Troe [(0, D 2 0); (1, D 1 0); (2, D 1 0); (3, D 1 0); (4, D 1 0); (5, D 6 0); (6, D 1 0); (7, D 1 0); (8, D 1 0); (9, D 1 0); (10, D 1 0); (11, D 1 0); (12, D 2 0); (13, D 15 (-1)); (14, D 2 0); (15, D 1 0); (16, D 1 0); (17, D 1 0); (18, D 3 0); (19, D 1 0); (20, D 1 0); (21, D 3 0); (22, D 1 0); (23, D 3 0); (24, D 1 0); (25, D 1 0); (26, D 1 0); (27, D 1 0); (28, D 1 0); (29, D 1 0); (30, D 1 0); (31, D 1 0)] (Arr (D 12000000000000001 20) (D (-762) (-2)) (D 3507440148486397 (-12))) (D 9753 (-4)) (D 20999999999999997 (-14)) (D 9839999999999999 (-13)) (D 4374 0)) [(1, (-1)); (21, (-1)); (22, 1)] (-1) [(1, 1); (21, 1)] [(22, 1)] true;
  (* 156: lines 1893-1899 *) mkReac (Arr (D 5070000000000001 (-11)) (D 193 (-2)) (D 6516692958809016 (-12))) (Plain) [(0, 1); (1, (-1)); (20, 1); (21, (-1))] 0 [(1, 1); (21, 1)] [(0, 1); (20, 1)] true;
  (* 157: lines 1902-1908 *) mkReac (Arr (D 15100000000000004 (-12)) (D 191 (-2)) (D 1882041055285384 (-12))) (Plain) [(2, (-1)); (4, 1); (20, 1); (21, (-1))] 0 [(2, 1); (21, 1)] [(4, 1); (20, 1)] true;
  (* 158: lines 1911-1917 *) mkReac (Arr (D 19200000000000004 (-12)) (D 183 (-2)) (D 11070829736972846 (-14))) (Plain) [(2, (-1)); (11, 1); (15, 1); (21, (-1))] 0 [(2, 1); (21, 1)] [(11, 1); (15, 1)] true;
  (* 159: lines 1920-1926 *) mkReac (Arr (D 38400000000000006 (-14)) (D 183 (-2)) (D 11070829736972846 (-14))) (Plain) [(2, (-1)); (9, 1); (16, 1); (21, (-1))] 0 [(2, 1); (21, 1)] [(9, 1); (16, 1)] true;
  (* 160: lines 1929-1935 *) mkReac (Arr (D 36000000000000005 (-13)) (D 2 0) (D 12580488337469144 (-13))) (Plain) [(4, (-1)); (5, 1); (20, 1); (21, (-1))] 0 [(4, 1); (21, 1)] [(5, 1); (20, 1)] true;
  (* 161: lines 1938-1943 *) mkReac (Arr (D 4220000000000001 (-5)) (D 0 0) (D 3059574763672496 (-11))) (Plain) [(3, (-1)); (6, 1); (20, 1); (21, (-1))] 0 [(3, 1); (21, 1)] [(6, 1); (20, 1)] true;
  (* 162: lines 1946-1951 *) mkReac (Arr (D 20000000000000002 (-7)) (D 0 0) (D 704507346898272 (-11))) (Plain) [(4, 1); (6, (-1)); (21, (-1)); (27, 1)] 0 [(6, 1); (21, 1)] [(4, 1); (27, 1)] true;
  (* 163: lines 1954-1960 *) mkReac (Arr (D 10000000000000002 (-12)) (D 2 0) (D 40257562679901257 (-13))) (Plain) [(13, 1); (15, (-1)); (21, (-1)); (22, 1)] 0 [(15, 1); (21, 1)] [(13, 1); (22, 1)] true;
  (* 164: lines 1963-1968 *) mkReac (Arr (D 20000000000000004 (-6)) (D 0 0) (D 30193172009925943 (-13))) (Plain) [(1, 1); (9, (-1)); (21, (-1)); (28, 1)] 0 [(9, 1); (21, 1)] [(1, 1); (28, 1)] true;
  (* 165: lines 1971-1976 *) mkReac (Pow (D 5000000000000001 (-5)) 0) (Plain) [(10, (-1)); (12, 1); (19, 1); (21, (-1))] 0 [(10, 1); (21, 1)] [(12, 1); (19, 1)] true;
  (* 166: lines 1979-1984 *) mkReac (Pow (D 5000000000000001 (-5)) 0) (Plain) [(1, 1); (10, (-1)); (21, (-1)); (28, 1)] 0 [(10, 1); (21, 1)] [(1, 1); (28, 1)] true;
  (* 167: lines 1987-1993 *) mkReac (Arr (D 22700000000000003 (-14)) (D 2 0) (D 4629619708188645 (-12))) (Plain) [(11, (-1)); (12, 1); (20, 1); (21, (-1))] 0 [(11, 1); (21, 1)] [(12, 1); (20, 1)] true;
  (* 168: lines 1996-2001 *) mkReac (Arr (D 33000000000000006 (-8)) (D 0 0) (D 3874790407940496 (-12))) (Plain) [(11, (-1)); (21, (-1)); (30, 1)] (-1) [(11, 1); (21, 1)] [(30, 1)] true;
  (* 169: lines 2004-2030 *) mkReac (Arr (D 52100000000000006 (-2)) (D (-99) (-2)) (D 7950868629280499 (-13))) (Troe [(0, D 2 0); (1, D 1 0); (2, D 1 0); (3, D 1 0); (4, D 1 0); (5, D 6 0); (6, D 1 0); (7, D 1 0); (8, D 1 0); (9, D 1 0); (10, D 1 0); (11, D 1 0); (12, D 2 0); (13, D 15 (-1)); (14, D 2 0); (15, D 1 0); (16, D 1 0); (17, D 1 0); (18, D 3 0); (19, D 1 0); (20, D 1 0); (21, D 3 0); (22, D 1 0); (23, D 3 0); (24, D 1 0); (25, D 1 0); (26, D 1 0); (27, D 1 0); (28, D 1 0); (29, D 1 0); (30, D 1 0); (31, D 1 0)] (Arr (D 19900000000000005 19) (D (-708) (-2)) (D 3364022581439249 (-12))) (D 8422 (-4)) (D 125 0) (D 2219 0) (D 6882 0)) [(1, (-1)); (22, (-1)); (23, 1)] (-1) [(1, 1); (22, 1)] [(23, 1)] true;
  (* 170: lines 2033-2038 *) mkReac (Pow (D 20000000000000002 (-7)) 0) (Plain) [(0, 1); (1, (-1)); (21, 1); (22, (-1))] 0 [(1, 1); (22, 1)] [(0, 1); (21, 1)] true;
  (* 171: lines 2041-2046 *) mkReac (Pow (D 16040000000000002 (-6)) 0) (Plain) [(2, (-1)); (11, 1); (16, 1); (22, (-1))] 0 [(2, 1); (22, 1)] [(11, 1); (16, 1)] true;
  (* 172: lines 2049-2054 *) mkReac (Pow (D 8020000000000002 (-5)) 0) (Plain) [(1, 1); (2, (-1)); (22, (-1)); (27, 1)] 0 [(2, 1); (22, 1)] [(1, 1); (27, 1)] true;
  (* 173: lines 2057-2062 *) mkReac (Pow (D 20000000000000004 (-9)) 0) (Plain) [(3, (-1)); (6, 1); (21, 1); (22, (-1))] 0 [(3, 1); (22, 1)] [(6, 1); (21, 1)] true;
  (* 174: lines 2065-2070 *) mkReac (Pow (D 30000000000000006 (-8)) 0) (Plain) [(3, 1); (6, (-1)); (22, (-1)); (23, 1)] 0 [(6, 1); (22, 1)] [(3, 1); (23, 1)] true;
  (* 175: lines 2073-2078 *) mkReac (Pow (D 30000000000000006 (-8)) 0) (Plain) [(6, (-1)); (7, 1); (21, 1); (22, (-1))] 0 [(6, 1); (22, 1)] [(7, 1); (21, 1)] true;
  (* 176: lines 2081-2086 *) mkReac (Pow (D 24000000000000004 (-6)) 0) (Plain) [(4, 1); (6, (-1)); (11, 1); (16, 1); (22, (-1))] 1 [(6, 1); (22, 1)] [(4, 1); (11, 1); (16, 1)] true;
  (* 177: lines 2089-2094 *) mkReac (Arr (D 8700000000000002 (-9)) (D 0 0) (D 49013582562779783 (-14))) (Plain) [(6, 1); (7, (-1)); (22, (-1)); (23, 1)] 0 [(7, 1); (22, 1)] [(6, 1); (23, 1)] true;
  (* 178: lines 2097-2102 *) mkReac (Pow (D 12000000000000002 (-5)) 0) (Plain) [(13, 1); (15, (-1)); (22, (-1)); (23, 1)] 0 [(15, 1); (22, 1)] [(13, 1); (23, 1)] true;
  (* 179: lines 2105-2111 *) mkReac (Arr (D 11500000000000001 (-11)) (D 19 (-1)) (D 3789243087245706 (-12))) (Plain) [(0, 1); (1, (-1)); (22, 1); (23, (-1))] 0 [(1, 1); (23, 1)] [(0, 1); (22, 1)] true;
  (* 180: lines 2114-2120 *) mkReac (Arr (D 8980000000000001 (-11)) (D 192 (-2)) (D 2863319145607977 (-12))) (Plain) [(2, (-1)); (4, 1); (22, 1); (23, (-1))] 0 [(2, 1); (23, 1)] [(4, 1); (22, 1)] true;
  (* 181: lines 2123-2129 *) mkReac (Arr (D 35400000000000005 (-13)) (D 212 (-2)) (D 4378009941439262 (-13))) (Plain) [(4, (-1)); (5, 1); (22, 1); (23, (-1))] 0 [(4, 1); (23, 1)] [(5, 1); (22, 1)] true;
  (* 182: lines 2132-2137 *) mkReac (Arr (D 4000000000000001 (-5)) (D 0 0) (D (-27677074342432115) (-14))) (Plain) [(10, (-1)); (11, 1); (22, 1); (23, (-1))] 0 [(10, 1); (23, 1)] [(11, 1); (22, 1)] true;
  (* 183: lines 2140-2146 *) mkReac (Arr (D 6140000000000002 (-12)) (D 174 (-2)) (D 5258644125062102 (-12))) (Plain) [(11, (-1)); (12, 1); (22, 1); (23, (-1))] 0 [(11, 1); (23, 1)] [(12, 1); (22, 1)] true;
  (* 184: lines 2149-2174 *) mkReac (Pow (D 20000000000000003 (-5)) 0) (Troe [(0, D 2 0); (1, D 1 0); (2, D 1 0); (3, D 1 0); (4, D 1 0); (5, D 6 0); (6, D 1 0); (7, D 1 0); (8, D 1 0); (9, D 1 0); (10, D 1 0); (11, D 1 0); (12, D 2 0); (13, D 15 (-1)); (14, D 2 0); (15, D 1 0); (16, D 1 0); (17, D 1 0); (18, D 3 0); (19, D 1 0); (20, D 1 0); (21, D 3 0); (22, D 1 0); (23, D 3 0); (24, D 1 0); (25, D 1 0); (26, D 1 0); (27, D 1 0); (28, D 1 0); (29, D 1 0); (30, D 1 0); (31, D 1 0)] (Arr (D 13300000000000002 38) (D (-12) 0) (D 3003113532013934 (-12))) (D 2 (-2)) (D 10966 (-1)) (D 10966 (-1)) (D 68595 (-1))) [(1, (-1)); (28, (-1)); (29, 1)] (-1) [(1, 1); (28, 1)] [(29, 1)] true;
  (* 185: lines 2177-2182 *) mkReac (Arr (D 20000000000000004 (-6)) (D 0 0) (D 10064390669975314 (-13))) (Plain) [(1, (-1)); (12, 1); (19, 1); (28, (-1))] 0 [(1, 1); (28, 1)] [(12, 1); (19, 1)] true;
  (* 186: lines 2185-2190 *) mkReac (Pow (D 26600000000000005 (-7)) 0) (Plain) [(3, 1); (6, (-1)); (28, (-1)); (29, 1)] 0 [(6, 1); (28, 1)] [(3, 1); (29, 1)] true;
  (* 187: lines 2193-2198 *) mkReac (Pow (D 6600000000000001 (-6)) 0) (Plain) [(4, 1); (6, (-1)); (16, 1); (20, 1); (28, (-1))] 1 [(6, 1); (28, 1)] [(4, 1); (16, 1); (20, 1)] true;
  (* 188: lines 2201-2206 *) mkReac (Pow (D 6000000000000001 (-5)) 0) (Plain) [(13, 1); (15, (-1)); (28, (-1)); (29, 1)] 0 [(15, 1); (28, 1)] [(13, 1); (29, 1)] true;
  (* 189: lines 2209-2234 *) mkReac (Arr (D 13300000000000002 (-6)) (D 0 0) (D 16408479328794253 (-13))) (Troe [(0, D 2 0); (1, D 1 0); (2, D 1 0); (3, D 1 0); (4, D 1 0); (5, D 6 0); (6, D 1 0); (7, D 1 0); (8, D 1 0); (9, D 1 0); (10, D 1 0); (11, D 1 0); (12, D 2 0); (13, D 15 (-1)); (14, D 2 0); (15, D 1 0); (16, D 1 0); (17, D 1 0); (18, D 1 0); (19, D 1 0); (20, D 1 0); (21, D 1 0); (22, D 1 0); (23, D 3 0); (24, D 1 0); (25, D 1 0); (26, D 1 0); (27, D 1 0); (28, D 1 0); (29, D 1 0); (30, D 1 0); (31, D 1 0)] (Arr (D 6260000000000001 17) (D (-666) (-2)) (D 352253673449136 (-11))) (D 1 0) (D 1 3) (D 131 1) (D 48097 0)) [(1, (-1)); (29, (-1)); (30, 1)] (-1) [(1, 1); (29, 1)] [(30, 1)] true;
  (* 190: lines 2237-2243 *) mkReac (Arr (D 16000000000000002 3) (D (-239) (-2)) (D 5625994384516201 (-12))) (Plain) [(1, (-1)); (11, 1); (21, 1); (29, (-1))] 0 [(1, 1); (29, 1)] [(11, 1); (21, 1)] true;
  (* 191: lines 2246-2252 *) mkReac (Arr (D 17000000000000003 (-14)) (D 25 (-1)) (D 12530166384119266 (-13))) (Plain) [(0, 1); (1, (-1)); (28, 1); (29, (-1))] 0 [(1, 1); (29, 1)] [(0, 1); (28, 1)] true;
  (* 192: lines 2255-2261 *) mkReac (Arr (D 12000000000000001 (-11)) (D 165 (-2)) (D 1645527874540964 (-13))) (Plain) [(1, 1); (2, (-1)); (11, 1); (25, 1); (29, (-1))] 1 [(2, 1); (29, 1)] [(1, 1); (11, 1); (25, 1)] true;
  (* 193: lines 2264-2270 *) mkReac (Arr (D 3500000000000001 (-11)) (D 165 (-2)) (D (-4891293865608003) (-13))) (Plain) [(2, (-1)); (15, 1); (22, 1); (29, (-1))] 0 [(2, 1); (29, 1)] [(15, 1); (22, 1)] true;
  (* 194: lines 2273-2279 *) mkReac (Arr (D 18000000000000003 (-8)) (D 7 (-1)) (D 29589308569727427 (-13))) (Plain) [(2, (-1)); (4, 1); (28, 1); (29, (-1))] 0 [(2, 1); (29, 1)] [(4, 1); (28, 1)] true;
  (* 195: lines 2282-2288 *) mkReac (Arr (D 31000000000000005 (-13)) (D 2 0) (D (-1499594209826322) (-13))) (Plain) [(4, (-1)); (5, 1); (28, 1); (29, (-1))] 0 [(4, 1); (29, 1)] [(5, 1); (28, 1)] true;
  (* 196: lines 2291-2297 *) mkReac (Arr (D 9600000000000001 (-15)) (D 26 (-1)) (D 6999783710967831 (-12))) (Plain) [(6, (-1)); (7, 1); (28, 1); (29, (-1))] 0 [(6, 1); (29, 1)] [(7, 1); (28, 1)] true;
  (* 197: lines 2300-2306 *) mkReac (Arr (D 22000000000000006 (-19)) (D 35 (-1)) (D 28557708526054957 (-13))) (Plain) [(11, (-1)); (12, 1); (28, 1); (29, (-1))] 0 [(11, 1); (29, 1)] [(12, 1); (28, 1)] true;
  (* 198: lines 2309-2315 *) mkReac (Arr (D 37000000000000005 5) (D (-292) (-2)) (D 6292760266402065 (-12))) (Plain) [(1, (-1)); (11, 1); (22, 1); (30, (-1))] 0 [(1, 1); (30, 1)] [(11, 1); (22, 1)] true;
  (* 199: lines 2318-2323 *) mkReac (Pow (D 18000000000000002 (-7)) 0) (Plain) [(0, 1); (1, (-1)); (29, 1); (30, (-1))] 0 [(1, 1); (30, 1)] [(0, 1); (29, 1)] true;
  (* 200: lines 2326-2331 *) mkReac (Pow (D 9600000000000002 (-5)) 0) (Plain) [(2, (-1)); (16, 1); (22, 1); (30, (-1))] 0 [(2, 1); (30, 1)] [(16, 1); (22, 1)] true;
  (* 201: lines 2334-2339 *) mkReac (Pow (D 24000000000000004 (-6)) 0) (Plain) [(4, (-1)); (5, 1); (29, 1); (30, (-1))] 0 [(4, 1); (30, 1)] [(5, 1); (29, 1)] true;
  (* 202: lines 2342-2347 *) mkReac (Pow (D 9000000000000001 (-8)) 0) (Plain) [(3, (-1)); (6, 1); (29, 1); (30, (-1))] 0 [(3, 1); (30, 1)] [(6, 1); (29, 1)] true;
  (* 203: lines 2350-2355 *) mkReac (Pow (D 24000000000000004 (-6)) 0) (Plain) [(4, 1); (6, (-1)); (16, 1); (22, 1); (30, (-1))] 1 [(6, 1); (30, 1)] [(4, 1); (16, 1); (22, 1)] true;
  (* 204: lines 2358-2363 *) mkReac (Pow (D 11000000000000002 (-6)) 0) (Plain) [(11, (-1)); (12, 1); (29, 1); (30, (-1))] 0 [(11, 1); (30, 1)] [(12, 1); (29, 1)] true;
  (* 205: lines 2366-2372 *) mkReac (Arr (D 39000000000000004 13) (D (-522) (-2)) (D 9937076128000126 (-12))) (Plain) [(11, 1); (20, (-1)); (22, (-1)); (28, 1)] 0 [(20, 1); (22, 1)] [(11, 1); (28, 1)] true
].
(** the source terms dYdt[n] / MW(n): coefficient and reaction (chem_C2H4_Air_Skeletal.cpp:2379-2534) *)
Definition skeletal_sources : list (list (Z * nat)) := [
  (* 0 H2: lines 2379-2384 *) [((-1), 1%nat); ((-1), 2%nat); (1, 4%nat); (1, 5%nat); (1, 6%nat); (1, 7%nat); (1, 17%nat); (1, 23%nat); ((-1), 30%nat); ((-1), 35%nat); (1, 41%nat); ((-1), 48%nat); (1, 57%nat); (1, 59%nat); (1, 60%nat); ((-1), 63%nat); (1, 71%nat); (1, 95%nat); (1, 101%nat); (1, 126%nat); (1, 132%nat); (1, 133%nat); (1, 149%nat); (1, 154%nat); (1, 156%nat); (1, 170%nat); (1, 179%nat); (1, 191%nat); (1, 199%nat)];
  (* 1 H: lines 2385-2398 *) [((-1), 0%nat); (1, 1%nat); (1, 2%nat); ((-2), 4%nat); ((-2), 5%nat); ((-2), 6%nat); ((-2), 7%nat); ((-1), 8%nat); ((-1), 9%nat); ((-1), 11%nat); ((-1), 12%nat); ((-1), 13%nat); ((-1), 14%nat); ((-1), 16%nat); ((-1), 17%nat); ((-1), 18%nat); ((-1), 23%nat); ((-1), 24%nat); (1, 29%nat); (1, 33%nat); (1, 34%nat); (1, 35%nat); (1, 36%nat); ((-1), 40%nat); ((-1), 41%nat); (1, 43%nat); (1, 45%nat); ((-1), 47%nat); (1, 48%nat); (1, 49%nat); (2, 51%nat); (1, 52%nat); (1, 56%nat); ((-1), 59%nat); (1, 61%nat); (1, 62%nat); (1, 63%nat); (1, 64%nat); ((-1), 70%nat); ((-1), 71%nat); (1, 76%nat); ((-1), 77%nat); (1, 78%nat); (1, 86%nat); (1, 90%nat); (1, 91%nat); (1, 93%nat); ((-1), 95%nat); ((-1), 96%nat); ((-1), 97%nat); ((-1), 101%nat); (1, 104%nat); ((-1), 107%nat); (1, 108%nat); (1, 114%nat); (1, 115%nat); (1, 117%nat); (1, 123%nat); ((-1), 125%nat); ((-1), 126%nat); ((-1), 127%nat); ((-1), 131%nat); ((-1), 132%nat); ((-1), 133%nat); (1, 134%nat); (1, 145%nat); ((-1), 147%nat); ((-1), 148%nat); ((-1), 149%nat); ((-1), 155%nat); ((-1), 156%nat); (1, 164%nat); (1, 166%nat); ((-1), 169%nat); ((-1), 170%nat); (1, 172%nat); ((-1), 179%nat); ((-1), 184%nat); ((-1), 185%nat); ((-1), 189%nat); ((-1), 190%nat); ((-1), 191%nat); (1, 192%nat); ((-1), 198%nat); ((-1), 199%nat)];
  (* 2 O: lines 2399-2406 *) [(1, 0%nat); ((-1), 1%nat); (1, 3%nat); ((-1), 9%nat); ((-2), 10%nat); (1, 16%nat); ((-1), 19%nat); ((-1), 25%nat); ((-1), 28%nat); (1, 31%nat); ((-1), 33%nat); (1, 37%nat); ((-1), 42%nat); ((-1), 43%nat); ((-1), 49%nat); ((-1), 60%nat); ((-1), 61%nat); ((-1), 72%nat); ((-1), 78%nat); (1, 81%nat); ((-1), 98%nat); ((-1), 102%nat); ((-1), 108%nat); ((-1), 115%nat); ((-1), 116%nat); ((-1), 122%nat); ((-1), 128%nat); ((-1), 129%nat); ((-1), 134%nat); ((-1), 135%nat); (1, 138%nat); ((-1), 150%nat); ((-1), 157%nat); ((-1), 158%nat); ((-1), 159%nat); ((-1), 171%nat); ((-1), 172%nat); ((-1), 180%nat); ((-1), 192%nat); ((-1), 193%nat); ((-1), 194%nat); ((-1), 200%nat)];
  (* 3 O2: lines 2407-2413 *) [((-1), 0%nat); (1, 10%nat); ((-1), 11%nat); ((-1), 12%nat); ((-1), 13%nat); ((-1), 14%nat); (1, 17%nat); (1, 19%nat); (1, 20%nat); (1, 21%nat); (1, 22%nat); ((-1), 31%nat); ((-1), 37%nat); ((-1), 46%nat); ((-1), 50%nat); ((-1), 51%nat); ((-1), 64%nat); ((-1), 65%nat); ((-1), 74%nat); ((-1), 81%nat); ((-1), 82%nat); (1, 83%nat); ((-1), 100%nat); ((-1), 109%nat); ((-1), 124%nat); ((-1), 137%nat); ((-1), 138%nat); ((-1), 139%nat); ((-1), 152%nat); ((-1), 153%nat); ((-1), 161%nat); ((-1), 173%nat); (1, 174%nat); (1, 186%nat); ((-1), 202%nat)];
  (* 4 OH: lines 2414-2423 *) [(1, 0%nat); (1, 1%nat); ((-1), 2%nat); ((-2), 3%nat); ((-1), 8%nat); (1, 9%nat); ((-2), 15%nat); (2, 18%nat); (1, 19%nat); ((-1), 20%nat); (1, 24%nat); (1, 25%nat); ((-1), 26%nat); ((-1), 27%nat); ((-1), 29%nat); (1, 32%nat); ((-1), 34%nat); (1, 42%nat); ((-1), 44%nat); (1, 50%nat); ((-1), 52%nat); ((-1), 53%nat); (1, 54%nat); ((-1), 62%nat); (1, 64%nat); (1, 72%nat); ((-1), 73%nat); ((-1), 79%nat); ((-1), 80%nat); (1, 82%nat); (1, 84%nat); (1, 96%nat); (1, 98%nat); ((-1), 99%nat); (1, 102%nat); ((-1), 103%nat); (1, 109%nat); ((-1), 117%nat); ((-1), 118%nat); ((-1), 123%nat); (1, 128%nat); ((-1), 130%nat); ((-1), 136%nat); (1, 140%nat); (1, 150%nat); ((-1), 151%nat); (1, 153%nat); (1, 157%nat); ((-1), 160%nat); (1, 162%nat); (1, 176%nat); (1, 180%nat); ((-1), 181%nat); (1, 187%nat); (1, 194%nat); ((-1), 195%nat); ((-1), 201%nat); (1, 203%nat)];
  (* 5 H2O: lines 2424-2428 *) [(1, 2%nat); (1, 3%nat); (1, 8%nat); (1, 16%nat); (1, 20%nat); (1, 24%nat); (1, 26%nat); (1, 27%nat); ((-1), 36%nat); (1, 44%nat); (1, 53%nat); (1, 65%nat); (1, 73%nat); (1, 79%nat); (1, 80%nat); (1, 97%nat); (1, 99%nat); (1, 103%nat); (1, 130%nat); (1, 136%nat); (1, 151%nat); (1, 160%nat); (1, 181%nat); (1, 195%nat); (1, 201%nat)];
  (* 6 HO2: lines 2429-2436 *) [(1, 11%nat); (1, 12%nat); (1, 13%nat); (1, 14%nat); ((-1), 16%nat); ((-1), 17%nat); ((-1), 18%nat); ((-1), 19%nat); ((-1), 20%nat); ((-2), 21%nat); ((-2), 22%nat); (1, 23%nat); (1, 25%nat); (1, 26%nat); (1, 27%nat); ((-1), 32%nat); (1, 46%nat); ((-1), 54%nat); (1, 74%nat); ((-1), 75%nat); ((-1), 83%nat); ((-1), 84%nat); (1, 85%nat); (1, 100%nat); (1, 137%nat); ((-1), 140%nat); (1, 141%nat); (1, 152%nat); (1, 161%nat); ((-1), 162%nat); (1, 173%nat); ((-1), 174%nat); ((-1), 175%nat); ((-1), 176%nat); (1, 177%nat); ((-1), 186%nat); ((-1), 187%nat); ((-1), 196%nat); (1, 202%nat); ((-1), 203%nat)];
  (* 7 H2O2: lines 2437-2439 *) [(1, 15%nat); (1, 21%nat); (1, 22%nat); ((-1), 23%nat); ((-1), 24%nat); ((-1), 25%nat); ((-1), 26%nat); ((-1), 27%nat); (1, 75%nat); ((-1), 85%nat); ((-1), 141%nat); (1, 175%nat); ((-1), 177%nat); (1, 196%nat)];
  (* 8 CH: lines 2440-2442 *) [((-1), 33%nat); ((-1), 34%nat); ((-1), 35%nat); ((-1), 36%nat); ((-1), 37%nat); ((-1), 38%nat); ((-1), 39%nat); (1, 53%nat); ((-1), 56%nat); (1, 59%nat); ((-1), 76%nat); ((-1), 86%nat); ((-1), 104%nat); ((-1), 110%nat)];
  (* 9 CH2: lines 2443-2447 *) [(1, 35%nat); ((-1), 47%nat); ((-1), 48%nat); ((-1), 49%nat); ((-1), 50%nat); ((-1), 51%nat); ((-1), 52%nat); ((-1), 53%nat); ((-1), 54%nat); ((-1), 55%nat); ((-1), 56%nat); ((-2), 57%nat); (1, 58%nat); (1, 66%nat); (1, 67%nat); (1, 68%nat); (1, 79%nat); ((-1), 90%nat); ((-1), 105%nat); ((-1), 111%nat); (1, 116%nat); (1, 122%nat); (1, 124%nat); (1, 129%nat); (1, 159%nat); ((-1), 164%nat)];
  (* 10 CH2*: lines 2448-2451 *) [((-1), 58%nat); ((-1), 59%nat); ((-1), 60%nat); ((-1), 61%nat); ((-1), 62%nat); ((-1), 63%nat); ((-1), 64%nat); ((-1), 65%nat); ((-1), 66%nat); ((-1), 67%nat); ((-1), 68%nat); ((-1), 69%nat); (1, 80%nat); ((-1), 91%nat); (1, 97%nat); ((-1), 106%nat); (1, 107%nat); ((-1), 165%nat); ((-1), 166%nat); ((-1), 182%nat)];
  (* 11 CH3: lines 2452-2460 *) [(1, 47%nat); (1, 48%nat); (1, 63%nat); ((-1), 77%nat); ((-1), 78%nat); ((-1), 79%nat); ((-1), 80%nat); ((-1), 81%nat); ((-1), 82%nat); ((-1), 83%nat); ((-1), 84%nat); ((-1), 85%nat); ((-1), 86%nat); ((-1), 87%nat); ((-1), 88%nat); ((-1), 89%nat); ((-1), 90%nat); ((-1), 91%nat); ((-2), 92%nat); ((-2), 93%nat); ((-1), 94%nat); (1, 96%nat); (1, 101%nat); (1, 102%nat); (1, 103%nat); (2, 105%nat); (2, 106%nat); (1, 118%nat); ((-1), 120%nat); (1, 127%nat); (1, 135%nat); ((-1), 143%nat); ((-1), 144%nat); ((-1), 145%nat); (1, 146%nat); (1, 148%nat); (1, 158%nat); ((-1), 167%nat); ((-1), 168%nat); (1, 171%nat); (1, 176%nat); (1, 182%nat); ((-1), 183%nat); (1, 190%nat); (1, 192%nat); ((-1), 197%nat); (1, 198%nat); ((-1), 204%nat); (1, 205%nat)];
  (* 12 CH4: lines 2461-2464 *) [(1, 77%nat); (1, 83%nat); (1, 85%nat); (1, 87%nat); (1, 89%nat); ((-1), 101%nat); ((-1), 102%nat); ((-1), 103%nat); ((-1), 104%nat); ((-1), 105%nat); ((-1), 106%nat); (1, 143%nat); (1, 165%nat); (1, 167%nat); (1, 183%nat); (1, 185%nat); (1, 197%nat); (1, 204%nat)];
  (* 13 CO: lines 2465-2472 *) [((-1), 28%nat); ((-1), 29%nat); ((-1), 30%nat); ((-1), 31%nat); ((-1), 32%nat); (1, 33%nat); ((-1), 38%nat); (1, 39%nat); (1, 41%nat); (1, 42%nat); (1, 44%nat); (1, 45%nat); (1, 46%nat); ((-1), 55%nat); (1, 60%nat); (1, 64%nat); (1, 65%nat); (1, 69%nat); (1, 87%nat); (1, 94%nat); (1, 107%nat); (2, 108%nat); (2, 109%nat); (1, 110%nat); (1, 111%nat); (2, 112%nat); (1, 116%nat); (1, 118%nat); (1, 119%nat); (1, 122%nat); (1, 127%nat); (1, 135%nat); (1, 142%nat); (1, 146%nat); (1, 153%nat); (1, 163%nat); (1, 178%nat); (1, 188%nat)];
  (* 14 CO2: lines 2473-2474 *) [(1, 28%nat); (1, 29%nat); (1, 31%nat); (1, 32%nat); ((-1), 39%nat); (1, 43%nat); (1, 51%nat); ((-1), 69%nat); (1, 124%nat); (1, 129%nat)];
  (* 15 HCO: lines 2475-2480 *) [(1, 34%nat); (1, 37%nat); (1, 39%nat); ((-1), 40%nat); ((-1), 41%nat); ((-1), 42%nat); ((-1), 43%nat); ((-1), 44%nat); ((-1), 45%nat); ((-1), 46%nat); (1, 49%nat); (1, 50%nat); (1, 61%nat); (1, 71%nat); (1, 72%nat); (1, 73%nat); (1, 74%nat); (1, 75%nat); ((-1), 87%nat); ((-1), 88%nat); (1, 89%nat); ((-1), 119%nat); (1, 139%nat); ((-1), 142%nat); (1, 148%nat); (1, 158%nat); ((-1), 163%nat); ((-1), 178%nat); ((-1), 188%nat); (1, 193%nat)];
  (* 16 CH2O: lines 2481-2486 *) [(1, 30%nat); (1, 36%nat); (1, 40%nat); (1, 52%nat); (1, 54%nat); (1, 62%nat); (1, 69%nat); ((-1), 70%nat); ((-1), 71%nat); ((-1), 72%nat); ((-1), 73%nat); ((-1), 74%nat); ((-1), 75%nat); ((-1), 76%nat); (1, 78%nat); (1, 82%nat); ((-1), 89%nat); (1, 95%nat); (1, 98%nat); (1, 99%nat); (1, 100%nat); (1, 139%nat); (1, 153%nat); (1, 159%nat); (1, 171%nat); (1, 176%nat); (1, 187%nat); (1, 200%nat); (1, 203%nat)];
  (* 17 CH3O: lines 2487-2488 *) [(1, 70%nat); (1, 81%nat); (1, 84%nat); ((-1), 95%nat); ((-1), 96%nat); ((-1), 97%nat); ((-1), 98%nat); ((-1), 99%nat); ((-1), 100%nat)];
  (* 18 C2H2: lines 2489-2492 *) [(1, 56%nat); (1, 57%nat); (1, 110%nat); (1, 112%nat); ((-1), 113%nat); (1, 114%nat); ((-1), 115%nat); ((-1), 116%nat); ((-1), 117%nat); ((-1), 118%nat); ((-1), 119%nat); ((-1), 120%nat); (1, 121%nat); (1, 132%nat); (1, 136%nat); (1, 137%nat); (1, 143%nat)];
  (* 19 H2CC: lines 2493-2494 *) [(1, 113%nat); ((-1), 121%nat); ((-1), 122%nat); ((-1), 123%nat); ((-1), 124%nat); (1, 133%nat); (1, 154%nat); (1, 165%nat); (1, 185%nat)];
  (* 20 C2H3: lines 2495-2500 *) [(1, 86%nat); (1, 111%nat); ((-1), 114%nat); (1, 119%nat); ((-1), 131%nat); ((-1), 132%nat); ((-1), 133%nat); ((-1), 134%nat); ((-1), 135%nat); ((-1), 136%nat); ((-1), 137%nat); ((-1), 138%nat); ((-1), 139%nat); ((-1), 140%nat); ((-1), 141%nat); ((-1), 142%nat); ((-1), 143%nat); ((-1), 144%nat); ((-1), 145%nat); (1, 156%nat); (1, 157%nat); (1, 160%nat); (1, 161%nat); (1, 167%nat); (1, 187%nat); ((-1), 205%nat)];
  (* 21 C2H4: lines 2501-2506 *) [(1, 90%nat); (1, 91%nat); (1, 94%nat); (1, 104%nat); (1, 131%nat); (1, 141%nat); (1, 142%nat); ((-1), 154%nat); ((-1), 155%nat); ((-1), 156%nat); ((-1), 157%nat); ((-1), 158%nat); ((-1), 159%nat); ((-1), 160%nat); ((-1), 161%nat); ((-1), 162%nat); ((-1), 163%nat); ((-1), 164%nat); ((-1), 165%nat); ((-1), 166%nat); ((-1), 167%nat); ((-1), 168%nat); (1, 170%nat); (1, 173%nat); (1, 175%nat); (1, 190%nat)];
  (* 22 C2H5: lines 2507-2511 *) [(1, 93%nat); (1, 155%nat); (1, 163%nat); ((-1), 169%nat); ((-1), 170%nat); ((-1), 171%nat); ((-1), 172%nat); ((-1), 173%nat); ((-1), 174%nat); ((-1), 175%nat); ((-1), 176%nat); ((-1), 177%nat); ((-1), 178%nat); (1, 179%nat); (1, 180%nat); (1, 181%nat); (1, 182%nat); (1, 183%nat); (1, 193%nat); (1, 198%nat); (1, 200%nat); (1, 203%nat); ((-1), 205%nat)];
  (* 23 C2H6: lines 2512-2513 *) [(1, 92%nat); (1, 169%nat); (1, 174%nat); (1, 177%nat); (1, 178%nat); ((-1), 179%nat); ((-1), 180%nat); ((-1), 181%nat); ((-1), 182%nat); ((-1), 183%nat)];
  (* 24 HCCO: lines 2514-2516 *) [(1, 38%nat); ((-1), 94%nat); ((-1), 107%nat); ((-1), 108%nat); ((-1), 109%nat); ((-1), 110%nat); ((-1), 111%nat); ((-2), 112%nat); (1, 115%nat); (1, 126%nat); (1, 128%nat); (1, 130%nat)];
  (* 25 CH2CO: lines 2517-2520 *) [(1, 55%nat); (1, 76%nat); (1, 117%nat); (1, 123%nat); ((-1), 125%nat); ((-1), 126%nat); ((-1), 127%nat); ((-1), 128%nat); ((-1), 129%nat); ((-1), 130%nat); (1, 134%nat); (1, 149%nat); (1, 150%nat); (1, 151%nat); (1, 152%nat); (1, 192%nat)];
  (* 26 CH2CHO: lines 2521-2523 *) [(1, 125%nat); (1, 138%nat); (1, 140%nat); ((-1), 146%nat); ((-1), 147%nat); ((-1), 148%nat); ((-1), 149%nat); ((-1), 150%nat); ((-1), 151%nat); ((-1), 152%nat); ((-1), 153%nat)];
  (* 27 CH3CHO: lines 2524-2524 *) [(1, 88%nat); (1, 147%nat); (1, 162%nat); (1, 172%nat)];
  (* 28 aC3H5: lines 2525-2527 *) [(1, 120%nat); (1, 145%nat); (1, 164%nat); (1, 166%nat); ((-1), 184%nat); ((-1), 185%nat); ((-1), 186%nat); ((-1), 187%nat); ((-1), 188%nat); (1, 191%nat); (1, 194%nat); (1, 195%nat); (1, 196%nat); (1, 197%nat); (1, 205%nat)];
  (* 29 C3H6: lines 2528-2531 *) [(1, 144%nat); (1, 184%nat); (1, 186%nat); (1, 188%nat); ((-1), 189%nat); ((-1), 190%nat); ((-1), 191%nat); ((-1), 192%nat); ((-1), 193%nat); ((-1), 194%nat); ((-1), 195%nat); ((-1), 196%nat); ((-1), 197%nat); (1, 199%nat); (1, 201%nat); (1, 202%nat); (1, 204%nat)];
  (* 30 nC3H7: lines 2532-2533 *) [(1, 168%nat); (1, 189%nat); ((-1), 198%nat); ((-1), 199%nat); ((-1), 200%nat); ((-1), 201%nat); ((-1), 202%nat); ((-1), 203%nat); ((-1), 204%nat)];
  (* 31 N2: lines 2534-2534 *) []
].
Definition skeletal : mech := mkMech skeletal_ns skeletal_reactions skeletal_sources.
