(** Space-group tables, transcribed by tools/gen_sgtables.py from the literals
    in /repo. *)
From Coq Require Import String ZArith List.
Import ListNotations.
Local Open Scope string_scope.

(** hexrd/core/constants.py:3883-3959 *)
Definition sgnum_symmorphic : list Z :=
[
   1; 2; 3; 5; 6; 8; 10; 12; 16; 21; 22; 23; 25; 35; 38; 42;
   44; 47; 65; 69; 71; 75; 79; 81; 82; 83; 87; 89; 97; 99; 107; 111;
   115; 119; 121; 123; 139; 143; 146; 147; 148; 149; 150; 155; 156; 157; 160; 162;
   164; 166; 168; 174; 175; 177; 183; 187; 189; 191; 195; 196; 197; 200; 202; 204;
   207; 209; 211; 215; 216; 217; 221; 225; 229]%Z.

(** hexrd/core/constants.py:3966-4204 *)
Definition SYM_GL : list string :=
[
   "000                                     ";
   "100                                     ";
   "01cOOO0                                 ";
   "01cODO0                                 ";
   "02aDDOcOOO0                             ";
   "01jOOO0                                 ";
   "01jOOD0                                 ";
   "02aDDOjOOO0                             ";
   "02aDDOjOOD0                             ";
   "11cOOO0                                 ";
   "11cODO0                                 ";
   "12aDDOcOOO0                             ";
   "11cOOD0                                 ";
   "11cODD0                                 ";
   "12aDDOcOOD0                             ";
   "02bOOOcOOO0                             ";
   "02bOODcOOD0                             ";
   "02bOOOcDDO0                             ";
   "02bDODcODD0                             ";
   "03aDDObOODcOOD0                         ";
   "03aDDObOOOcOOO0                         ";
   "04aODDaDODbOOOcOOO0                     ";
   "03aDDDbOOOcOOO0                         ";
   "03aDDDbDODcODD0                         ";
   "02bOOOjOOO0                             ";
   "02bOODjOOD0                             ";
   "02bOOOjOOD0                             ";
   "02bOOOjDOO0                             ";
   "02bOODjDOO0                             ";
   "02bOOOjODD0                             ";
   "02bDODjDOD0                             ";
   "02bOOOjDDO0                             ";
   "02bOODjDDO0                             ";
   "02bOOOjDDD0                             ";
   "03aDDObOOOjOOO0                         ";
   "03aDDObOODjOOD0                         ";
   "03aDDObOOOjOOD0                         ";
   "03aODDbOOOjOOO0                         ";
   "03aODDbOOOjODO0                         ";
   "03aODDbOOOjDOO0                         ";
   "03aODDbOOOjDDO0                         ";
   "04aODDaDODbOOOjOOO0                     ";
   "04aODDaDODbOOOjBBB0                     ";
   "03aDDDbOOOjOOO0                         ";
   "03aDDDbOOOjDDO0                         ";
   "03aDDDbOOOjDOO0                         ";
   "12bOOOcOOO0                             ";
   "03bOOOcOOOhDDD1BBB                      ";
   "12bOOOcOOD0                             ";
   "03bOOOcOOOhDDO1BBO                      ";
   "12bDOOcOOO0                             ";
   "12bDOOcDDD0                             ";
   "12bDODcDOD0                             ";
   "12bDOOcOOD0                             ";
   "12bOOOcDDO0                             ";
   "12bDDOcODD0                             ";
   "12bOODcODD0                             ";
   "12bOOOcDDD0                             ";
   "03bOOOcDDOhDDO1BBO                      ";
   "12bDDDcOOD0                             ";
   "12bDODcODD0                             ";
   "12bDODcODO0                             ";
   "13aDDObOODcOOD0                         ";
   "13aDDObODDcODD0                         ";
   "13aDDObOOOcOOO0                         ";
   "13aDDObOOOcOOD0                         ";
   "13aDDObODOcODO0                         ";
   "04aDDObDDOcOOOhODD1OBB                  ";
   "14aODDaDODbOOOcOOO0                     ";
   "05aODDaDODbOOOcOOOhBBB1ZZZ              ";
   "13aDDDbOOOcOOO0                         ";
   "13aDDDbOOOcDDO0                         ";
   "13aDDDbDODcODD0                         ";
   "13aDDDbODOcODO0                         ";
   "02bOOOgOOO0                             ";
   "02bOODgOOB0                             ";
   "02bOOOgOOD0                             ";
   "02bOODgOOF0                             ";
   "03aDDDbOOOgOOO0                         ";
   "03aDDDbDDDgODB0                         ";
   "02bOOOmOOO0                             ";
   "03aDDDbOOOmOOO0                         ";
   "12bOOOgOOO0                             ";
   "12bOOOgOOD0                             ";
   "03bOOOgDDOhDDO1YBO                      ";
   "03bOOOgDDDhDDD1YYY                      ";
   "13aDDDbOOOgOOO0                         ";
   "04aDDDbDDDgODBhODB1OYZ                  ";
   "03bOOOgOOOcOOO0                         ";
   "03bOOOgDDOcDDO0                         ";
   "03bOODgOOBcOOO0                         ";
   "03bOODgDDBcDDB0                         ";
   "03bOOOgOODcOOO0                         ";
   "03bOOOgDDDcDDD0                         ";
   "03bOODgOOFcOOO0                         ";
   "03bOODgDDFcDDF0                         ";
   "04aDDDbOOOgOOOcOOO0                     ";
   "04aDDDbDDDgODBcDOF0                     ";
   "03bOOOgOOOjOOO0                         ";
   "03bOOOgOOOjDDO0                         ";
   "03bOOOgOODjOOD0                         ";
   "03bOOOgDDDjDDD0                         ";
   "03bOOOgOOOjOOD0                         ";
   "03bOOOgOOOjDDD0                         ";
   "03bOOOgOODjOOO0                         ";
   "03bOOOgOODjDDO0                         ";
   "04aDDDbOOOgOOOjOOO0                     ";
   "04aDDDbOOOgOOOjOOD0                     ";
   "04aDDDbDDDgODBjOOO0                     ";
   "04aDDDbDDDgODBjOOD0                     ";
   "03bOOOmOOOcOOO0                         ";
   "03bOOOmOOOcOOD0                         ";
   "03bOOOmOOOcDDO0                         ";
   "03bOOOmOOOcDDD0                         ";
   "03bOOOmOOOjOOO0                         ";
   "03bOOOmOOOjOOD0                         ";
   "03bOOOmOOOjDDO0                         ";
   "03bOOOmOOOjDDD0                         ";
   "04aDDDbOOOmOOOjOOO0                     ";
   "04aDDDbOOOmOOOjOOD0                     ";
   "04aDDDbOOOmOOOcOOO0                     ";
   "04aDDDbOOOmOOOcDOF0                     ";
   "13bOOOgOOOcOOO0                         ";
   "13bOOOgOOOcOOD0                         ";
   "04bOOOgOOOcOOOhDDO1YYO                  ";
   "04bOOOgOOOcOOOhDDD1YYY                  ";
   "13bOOOgOOOcDDO0                         ";
   "13bOOOgOOOcDDD0                         ";
   "04bOOOgDDOcDDOhDDO1YBO                  ";
   "04bOOOgDDOcDDDhDDO1YBO                  ";
   "13bOOOgOODcOOO0                         ";
   "13bOOOgOODcOOD0                         ";
   "04bOOOgDDDcOODhDDD1YBY                  ";
   "04bOOOgDDDcOOOhDDD1YBY                  ";
   "13bOOOgOODcDDO0                         ";
   "13bOOOgDDDcDDD0                         ";
   "04bOOOgDDDcDDDhDDD1YBY                  ";
   "04bOOOgDDDcDDOhDDD1YBY                  ";
   "14aDDDbOOOgOOOcOOO0                     ";
   "14aDDDbOOOgOOOcOOD0                     ";
   "05aDDDbDDDgODBcDOFhODB1OBZ              ";
   "05aDDDbDDDgODBcDOBhODB1OBZ              ";
   "01nOOO0                                 ";
   "01nOOC0                                 ";
   "01nOOE0                                 ";
   "02aECCnOOO0                             ";
   "11nOOO0                                 ";
   "12aECCnOOO0                             ";
   "02nOOOfOOO0                             ";
   "02nOOOeOOO0                             ";
   "02nOOCfOOE0                             ";
   "02nOOCeOOO0                             ";
   "02nOOEfOOC0                             ";
   "02nOOEeOOO0                             ";
   "03aECCnOOOeOOO0                         ";
   "02nOOOkOOO0                             ";
   "02nOOOlOOO0                             ";
   "02nOOOkOOD0                             ";
   "02nOOOlOOD0                             ";
   "03aECCnOOOkOOO0                         ";
   "03aECCnOOOkOOD0                         ";
   "12nOOOfOOO0                             ";
   "12nOOOfOOD0                             ";
   "12nOOOeOOO0                             ";
   "12nOOOeOOD0                             ";
   "13aECCnOOOeOOO0                         ";
   "13aECCnOOOeOOD0                         ";
   "02nOOObOOO0                             ";
   "02nOOCbOOD0                             ";
   "02nOOEbOOD0                             ";
   "02nOOEbOOO0                             ";
   "02nOOCbOOO0                             ";
   "02nOOObOOD0                             ";
   "02nOOOiOOO0                             ";
   "12nOOObOOO0                             ";
   "12nOOObOOD0                             ";
   "03nOOObOOOeOOO0                         ";
   "03nOOCbOODeOOC0                         ";
   "03nOOEbOODeOOE0                         ";
   "03nOOEbOOOeOOE0                         ";
   "03nOOCbOOOeOOC0                         ";
   "03nOOObOODeOOO0                         ";
   "03nOOObOOOkOOO0                         ";
   "03nOOObOOOkOOD0                         ";
   "03nOOObOODkOOD0                         ";
   "03nOOObOODkOOO0                         ";
   "03nOOOiOOOkOOO0                         ";
   "03nOOOiOODkOOD0                         ";
   "03nOOOiOOOeOOO0                         ";
   "03nOOOiOODeOOO0                         ";
   "13nOOObOOOeOOO0                         ";
   "13nOOObOOOeOOD0                         ";
   "13nOOObOODeOOD0                         ";
   "13nOOObOODeOOO0                         ";
   "03bOOOcOOOdOOO0                         ";
   "05aODDaDODbOOOcOOOdOOO0                 ";
   "04aDDDbOOOcOOOdOOO0                     ";
   "03bDODcODDdOOO0                         ";
   "04aDDDbDODcODDdOOO0                     ";
   "13bOOOcOOOdOOO0                         ";
   "04bOOOcOOOdOOOhDDD1YYY                  ";
   "15aODDaDODbOOOcOOOdOOO0                 ";
   "06aODDaDODbOOOcOOOdOOOhBBB1ZZZ          ";
   "14aDDDbOOOcOOOdOOO0                     ";
   "13bDODcODDdOOO0                         ";
   "14aDDDbDODcODDdOOO0                     ";
   "04bOOOcOOOdOOOeOOO0                     ";
   "04bOOOcOOOdOOOeDDD0                     ";
   "06aODDaDODbOOOcOOOdOOOeOOO0             ";
   "06aODDaDODbODDcDDOdOOOeFBF0             ";
   "05aDDDbOOOcOOOdOOOeOOO0                 ";
   "04bDODcODDdOOOeBFF0                     ";
   "04bDODcODDdOOOeFBB0                     ";
   "05aDDDbDODcODDdOOOeFBB0                 ";
   "04bOOOcOOOdOOOlOOO0                     ";
   "06aODDaDODbOOOcOOOdOOOlOOO0             ";
   "05aDDDbOOOcOOOdOOOlOOO0                 ";
   "04bOOOcOOOdOOOlDDD0                     ";
   "06aODDaDODbOOOcOOOdOOOlDDD0             ";
   "05aDDDbDODcODDdOOOlBBB0                 ";
   "14bOOOcOOOdOOOeOOO0                     ";
   "05bOOOcOOOdOOOeOOOhDDD1YYY              ";
   "14bOOOcOOOdOOOeDDD0                     ";
   "05bOOOcOOOdOOOeDDDhDDD1YYY              ";
   "16aODDaDODbOOOcOOOdOOOeOOO0             ";
   "16aODDaDODbOOOcOOOdOOOeDDD0             ";
   "07aODDaDODbODDcDDOdOOOeFBFhBBB1ZZZ      ";
   "07aODDaDODbODDcDDOdOOOeFBFhFFF1XXX      ";
   "15aDDDbOOOcOOOdOOOeOOO0                 ";
   "15aDDDbDODcODDdOOOeFBB0                 ";
   "01dOOO0                                 ";
   "11dOOO0                                 ";
   "02dOOOfOOO0                             ";
   "02dOOOlOOO0                             ";
   "02dOOOlDDD0                             ";
   "12dOOOfOOO0                             ";
   "12dOOOfDDD0                             "].

(** hexrd/core/constants.py:4220-4378 *)
Definition SYS_AB : list (Z * (list string * list string)) :=
[
   (4%Z, ([""; ""; ""], [""; "2_1"; ""]));
   (7%Z, ([""; "c"; ""], [""; ""; ""]));
   (9%Z, ([""; "c"; ""], [""; ""; ""]));
   (11%Z, ([""; ""; ""], [""; "2_1"; ""]));
   (13%Z, ([""; "c"; ""], [""; ""; ""]));
   (14%Z, ([""; "c"; ""], [""; "2_1"; ""]));
   (15%Z, ([""; "c"; ""], [""; ""; ""]));
   (17%Z, ([""; ""; ""], [""; ""; "2_1"]));
   (18%Z, ([""; ""; ""], ["2_1"; "2_1"; ""]));
   (19%Z, ([""; ""; ""], ["2_1"; "2_1"; "2_1"]));
   (20%Z, ([""; ""; ""], [""; ""; "2_1"]));
   (24%Z, ([""; ""; ""], ["2_1"; "2_1"; "2_1"]));
   (26%Z, ([""; "c"; ""], [""; ""; "2_1"]));
   (27%Z, (["c"; "c"; ""], [""; ""; ""]));
   (28%Z, ([""; "a"; ""], [""; ""; ""]));
   (29%Z, (["c"; "a"; ""], [""; ""; "2_1"]));
   (30%Z, (["n"; "c"; ""], [""; ""; ""]));
   (31%Z, ([""; "n"; ""], [""; ""; "2_1"]));
   (32%Z, (["b"; "a"; ""], [""; ""; ""]));
   (33%Z, (["n"; "a"; ""], [""; ""; "2_1"]));
   (34%Z, (["n"; "n"; ""], [""; ""; ""]));
   (36%Z, ([""; "c"; ""], [""; ""; "2_1"]));
   (37%Z, (["c"; "c"; ""], [""; ""; ""]));
   (39%Z, (["b"; ""; ""], [""; ""; ""]));
   (40%Z, ([""; "a"; ""], [""; ""; ""]));
   (41%Z, (["b"; "a"; ""], [""; ""; ""]));
   (43%Z, (["d"; "d"; ""], [""; ""; ""]));
   (45%Z, (["b"; "a"; ""], [""; ""; ""]));
   (46%Z, ([""; "a"; ""], [""; ""; ""]));
   (48%Z, (["n"; "n"; "n"], [""; ""; ""]));
   (49%Z, (["c"; "c"; ""], [""; ""; ""]));
   (50%Z, (["b"; "a"; "n"], [""; ""; ""]));
   (51%Z, ([""; ""; "a"], ["2_1"; ""; ""]));
   (52%Z, (["n"; "n"; "a"], [""; "2_1"; ""]));
   (53%Z, ([""; "n"; "a"], [""; ""; "2_1"]));
   (54%Z, (["c"; "c"; "a"], ["2_1"; ""; ""]));
   (55%Z, (["b"; "a"; ""], ["2_1"; "2_1"; ""]));
   (56%Z, (["c"; "c"; "n"], ["2_1"; "2_1"; ""]));
   (57%Z, (["b"; "c"; ""], [""; "2_1"; "2_1"]));
   (58%Z, (["n"; "n"; ""], ["2_1"; "2_1"; ""]));
   (59%Z, ([""; ""; "n"], ["2_1"; "2_1"; ""]));
   (60%Z, (["b"; "c"; "n"], ["2_1"; ""; "2_1"]));
   (61%Z, (["b"; "c"; "a"], ["2_1"; "2_1"; "2_1"]));
   (62%Z, (["n"; ""; "a"], ["2_1"; "2_1"; "2_1"]));
   (63%Z, ([""; "c"; ""], [""; ""; "2_1"]));
   (64%Z, ([""; "c"; "a"], [""; ""; "2_1"]));
   (66%Z, (["c"; "c"; ""], [""; ""; ""]));
   (67%Z, ([""; ""; "a"], [""; ""; ""]));
   (68%Z, (["c"; "c"; "a"], [""; ""; ""]));
   (70%Z, (["d"; "d"; "d"], [""; ""; ""]));
   (72%Z, (["b"; "a"; ""], [""; ""; ""]));
   (73%Z, (["b"; "c"; "a"], ["2_1"; "2_1"; "2_1"]));
   (74%Z, ([""; ""; "a"], ["2_1"; "2_1"; "2_1"]));
   (76%Z, ([""; ""; ""], ["4_1"; ""; ""]));
   (77%Z, ([""; ""; ""], ["4_2"; ""; ""]));
   (78%Z, ([""; ""; ""], ["4_3"; ""; ""]));
   (80%Z, ([""; ""; ""], ["4_1"; ""; ""]));
   (84%Z, ([""; ""; ""], ["4_2"; ""; ""]));
   (85%Z, (["n"; ""; ""], [""; ""; ""]));
   (86%Z, (["n"; ""; ""], ["4_2"; ""; ""]));
   (88%Z, (["a"; ""; ""], ["4_1"; ""; ""]));
   (90%Z, ([""; ""; ""], [""; "2_1"; ""]));
   (91%Z, ([""; ""; ""], ["4_1"; ""; ""]));
   (92%Z, ([""; ""; ""], ["4_1"; "2_1"; ""]));
   (93%Z, ([""; ""; ""], ["4_2"; ""; ""]));
   (94%Z, ([""; ""; ""], ["4_2"; "2_1"; ""]));
   (95%Z, ([""; ""; ""], ["4_3"; ""; ""]));
   (96%Z, ([""; ""; ""], ["4_3"; "2_1"; ""]));
   (98%Z, ([""; ""; ""], ["4_1"; ""; ""]));
   (100%Z, ([""; "b"; ""], [""; ""; ""]));
   (101%Z, ([""; "c"; ""], ["4_2"; ""; ""]));
   (102%Z, ([""; "n"; ""], ["4_2"; ""; ""]));
   (103%Z, ([""; "c"; "c"], [""; ""; ""]));
   (104%Z, ([""; "n"; "c"], [""; ""; ""]));
   (105%Z, ([""; ""; "c"], ["4_2"; ""; ""]));
   (106%Z, ([""; "b"; "c"], ["4_2"; ""; ""]));
   (108%Z, ([""; "c"; ""], [""; ""; ""]));
   (109%Z, ([""; ""; "d"], ["4_1"; ""; ""]));
   (110%Z, ([""; "c"; "d"], ["4_1"; ""; ""]));
   (112%Z, ([""; ""; "c"], [""; ""; ""]));
   (113%Z, ([""; ""; ""], [""; "2_1"; ""]));
   (114%Z, ([""; ""; "c"], [""; "2_1"; ""]));
   (116%Z, ([""; "c"; ""], [""; ""; ""]));
   (117%Z, ([""; "b"; ""], [""; ""; ""]));
   (118%Z, ([""; "n"; ""], [""; ""; ""]));
   (120%Z, ([""; "c"; ""], [""; ""; ""]));
   (122%Z, ([""; ""; "d"], [""; ""; ""]));
   (124%Z, ([""; "c"; "c"], [""; ""; ""]));
   (125%Z, (["n"; "b"; ""], [""; ""; ""]));
   (126%Z, (["n"; "n"; "c"], [""; ""; ""]));
   (127%Z, ([""; "b"; ""], [""; "2_1"; ""]));
   (128%Z, ([""; "n"; "c"], [""; "2_1"; ""]));
   (129%Z, (["n"; ""; ""], [""; "2_1"; ""]));
   (130%Z, (["n"; "c"; "c"], [""; "2_1"; ""]));
   (131%Z, ([""; ""; "c"], ["4_2"; ""; ""]));
   (132%Z, ([""; "c"; ""], ["4_2"; ""; ""]));
   (133%Z, (["n"; "b"; "c"], ["4_2"; ""; ""]));
   (134%Z, (["n"; "n"; ""], ["4_2"; ""; ""]));
   (135%Z, ([""; "b"; "c"], ["4_2"; "2_1"; ""]));
   (136%Z, ([""; "n"; ""], ["4_2"; "2_1"; ""]));
   (137%Z, (["n"; ""; "c"], ["4_2"; "2_1"; ""]));
   (138%Z, (["n"; "c"; ""], ["4_2"; "2_1"; ""]));
   (140%Z, ([""; "c"; ""], [""; ""; ""]));
   (141%Z, (["a"; ""; "d"], ["4_1"; ""; ""]));
   (142%Z, (["a"; "c"; "d"], ["4_1"; ""; ""]));
   (144%Z, ([""; ""; ""], ["3_1"; ""; ""]));
   (145%Z, ([""; ""; ""], ["3_2"; ""; ""]));
   (151%Z, ([""; ""; ""], ["3_1"; ""; ""]));
   (152%Z, ([""; ""; ""], ["3_1"; ""; ""]));
   (153%Z, ([""; ""; ""], ["3_2"; ""; ""]));
   (154%Z, ([""; ""; ""], ["3_2"; ""; ""]));
   (158%Z, ([""; "c"; ""], [""; ""; ""]));
   (159%Z, ([""; ""; "c"], [""; ""; ""]));
   (161%Z, ([""; "c"; ""], [""; ""; ""]));
   (163%Z, ([""; ""; "c"], [""; ""; ""]));
   (165%Z, ([""; "c"; ""], [""; ""; ""]));
   (167%Z, ([""; "c"; ""], [""; ""; ""]));
   (169%Z, ([""; ""; ""], ["6_1"; ""; ""]));
   (170%Z, ([""; ""; ""], ["6_5"; ""; ""]));
   (171%Z, ([""; ""; ""], ["6_2"; ""; ""]));
   (172%Z, ([""; ""; ""], ["6_4"; ""; ""]));
   (173%Z, ([""; ""; ""], ["6_3"; ""; ""]));
   (176%Z, ([""; ""; ""], ["6_3"; ""; ""]));
   (178%Z, ([""; ""; ""], ["6_1"; ""; ""]));
   (179%Z, ([""; ""; ""], ["6_5"; ""; ""]));
   (180%Z, ([""; ""; ""], ["6_2"; ""; ""]));
   (181%Z, ([""; ""; ""], ["6_4"; ""; ""]));
   (182%Z, ([""; ""; ""], ["6_3"; ""; ""]));
   (184%Z, ([""; "c"; "c"], [""; ""; ""]));
   (185%Z, ([""; "c"; ""], ["6_3"; ""; ""]));
   (186%Z, ([""; ""; "c"], ["6_3"; ""; ""]));
   (188%Z, ([""; "c"; ""], [""; ""; ""]));
   (190%Z, ([""; ""; "c"], [""; ""; ""]));
   (192%Z, ([""; "c"; "c"], [""; ""; ""]));
   (193%Z, ([""; "c"; ""], ["6_3"; ""; ""]));
   (194%Z, ([""; ""; "c"], ["6_3"; ""; ""]));
   (198%Z, ([""; ""; ""], ["2_1"; ""; ""]));
   (199%Z, ([""; ""; ""], ["2_1"; ""; ""]));
   (201%Z, (["n"; ""; ""], [""; ""; ""]));
   (203%Z, (["d"; ""; ""], [""; ""; ""]));
   (205%Z, (["a"; ""; ""], ["2_1"; ""; ""]));
   (206%Z, (["a"; ""; ""], ["2_1"; ""; ""]));
   (208%Z, ([""; ""; ""], ["4_2"; ""; ""]));
   (210%Z, ([""; ""; ""], ["4_1"; ""; ""]));
   (212%Z, ([""; ""; ""], ["4_3"; ""; ""]));
   (213%Z, ([""; ""; ""], ["4_1"; ""; ""]));
   (214%Z, ([""; ""; ""], ["4_1"; ""; ""]));
   (218%Z, ([""; ""; "n"], [""; ""; ""]));
   (219%Z, ([""; ""; "c"], [""; ""; ""]));
   (220%Z, ([""; ""; "d"], [""; ""; ""]));
   (222%Z, (["n"; ""; "n"], [""; ""; ""]));
   (223%Z, ([""; ""; "n"], ["4_2"; ""; ""]));
   (224%Z, (["n"; ""; ""], ["4_2"; ""; ""]));
   (226%Z, ([""; ""; "c"], [""; ""; ""]));
   (227%Z, (["d"; ""; ""], ["4_1"; ""; ""]));
   (228%Z, (["d"; ""; "c"], ["4_1"; ""; ""]));
   (230%Z, (["a"; ""; "d"], ["4_1"; ""; ""]))].

(** hexrd/core/constants.py:4503-4536 *)
Definition SYM_GL_PG : list (string * string) :=
[
   ("c1", "1a");
   ("ci", "1h");
   ("c2", "1c");
   ("cs", "1j");
   ("c2h", "2ch");
   ("d2", "2bc");
   ("c2v", "2bj");
   ("d2h", "3bch");
   ("c4", "1g");
   ("s4", "1m");
   ("c4h", "2gh");
   ("d4", "2cg");
   ("c4v", "2gj");
   ("d2d", "2cm");
   ("d4h", "3cgh");
   ("c3", "1n");
   ("s6", "2hn");
   ("d3", "2en");
   ("c3v", "2kn ");
   ("d3d", "3fhn");
   ("c6", "2bn");
   ("c3h", "2in");
   ("c6h", "3bhn");
   ("d6", "3ben");
   ("c6v", "3bkn");
   ("d3h", "3ikn");
   ("d6h", "4benh");
   ("t", "2cd");
   ("th", "3cdh");
   ("o", "2dg");
   ("td", "2dm");
   ("oh", "3dgh")].

(** hexrd/core/material/symbols.py:45-114 *)
Definition pstr_spacegroup : list string :=
[
   " P  1      ";
   " P -1      ";
   " P 2       ";
   " P 21      ";
   " C 2       ";
   " P m       ";
   " P c       ";
   " C m       ";
   " C c       ";
   " P 2/m     ";
   " P 21/m    ";
   " C 2/m     ";
   " P 2/c     ";
   " P 21/c    ";
   " C 2/c     ";
   " P 2 2 2   ";
   " P 2 2 21  ";
   " P 21 21 2 ";
   " P 21 21 21";
   " C 2 2 21  ";
   " C 2 2 2   ";
   " F 2 2 2   ";
   " I 2 2 2   ";
   " I 21 21 21";
   " P m m 2   ";
   " P m c 21  ";
   " P c c 2   ";
   " P m a 2   ";
   " P c a 21  ";
   " P n c 2   ";
   " P m n 21  ";
   " P b a 2   ";
   " P n a 21  ";
   " P n n 2   ";
   " C m m 2   ";
   " C m c 21  ";
   " C c c 2   ";
   " A m m 2   ";
   " A b m 2   ";
   " A m a 2   ";
   " A b a 2   ";
   " F m m 2   ";
   " F d d 2   ";
   " I m m 2   ";
   " I b a 2   ";
   " I m a 2   ";
   " P m m m   ";
   " P n n n   ";
   " P c c m   ";
   " P b a n   ";
   " P m m a   ";
   " P n n a   ";
   " P m n a   ";
   " P c c a   ";
   " P b a m   ";
   " P c c n   ";
   " P b c m   ";
   " P n n m   ";
   " P m m n   ";
   " P b c n   ";
   " P b c a   ";
   " P n m a   ";
   " C m c m   ";
   " C m c a   ";
   " C m m m   ";
   " C c c m   ";
   " C m m a   ";
   " C c c a   ";
   " F m m m   ";
   " F d d d   ";
   " I m m m   ";
   " I b a m   ";
   " I b c a   ";
   " I m m a   ";
   " P 4       ";
   " P 41      ";
   " P 42      ";
   " P 43      ";
   " I 4       ";
   " I 41      ";
   " P -4      ";
   " I -4      ";
   " P 4/m     ";
   " P 42/m    ";
   " P 4/n     ";
   " P 42/n    ";
   " I 4/m     ";
   " I 41/a    ";
   " P 4 2 2   ";
   " P 4 21 2  ";
   " P 41 2 2  ";
   " P 41 21 2 ";
   " P 42 2 2  ";
   " P 42 21 2 ";
   " P 43 2 2  ";
   " P 43 21 2 ";
   " I 4 2 2   ";
   " I 41 2 2  ";
   " P 4 m m   ";
   " P 4 b m   ";
   " P 42 c m  ";
   " P 42 n m  ";
   " P 4 c c   ";
   " P 4 n c   ";
   " P 42 m c  ";
   " P 42 b c  ";
   " I 4 m m   ";
   " I 4 c m   ";
   " I 41 m d  ";
   " I 41 c d  ";
   " P -4 2 m  ";
   " P -4 2 c  ";
   " P -4 21 m ";
   " P -4 21 c ";
   " P -4 m 2  ";
   " P -4 c 2  ";
   " P -4 b 2  ";
   " P -4 n 2  ";
   " I -4 m 2  ";
   " I -4 c 2  ";
   " I -4 2 m  ";
   " I -4 2 d  ";
   " P 4/m m m ";
   " P 4/m c c ";
   " P 4/n b m ";
   " P 4/n n c ";
   " P 4/m b m ";
   " P 4/m n c ";
   " P 4/n m m ";
   " P 4/n c c ";
   " P 42/m m c";
   " P 42/m c m";
   " P 42/n b c";
   " P 42/n n m";
   " P 42/m b c";
   " P 42/m n m";
   " P 42/n m c";
   " P 42/n c m";
   " I 4/m m m ";
   " I 4/m c m ";
   " I 41/a m d";
   " I 41/a c d";
   " P 3       ";
   " P 31      ";
   " P 32      ";
   " R 3       ";
   " P -3      ";
   " R -3      ";
   " P 3 1 2   ";
   " P 3 2 1   ";
   " P 31 1 2  ";
   " P 31 2 1  ";
   " P 32 1 2  ";
   " P 32 2 1  ";
   " R 3 2     ";
   " P 3 m 1   ";
   " P 3 1 m   ";
   " P 3 c 1   ";
   " P 3 1 c   ";
   " R 3 m     ";
   " R 3 c     ";
   " P -3 1 m  ";
   " P -3 1 c  ";
   " P -3 m 1  ";
   " P -3 c 1  ";
   " R -3 m    ";
   " R -3 c    ";
   " P 6       ";
   " P 61      ";
   " P 65      ";
   " P 62      ";
   " P 64      ";
   " P 63      ";
   " P -6      ";
   " P 6/m     ";
   " P 63/m    ";
   " P 6 2 2   ";
   " P 61 2 2  ";
   " P 65 2 2  ";
   " P 62 2 2  ";
   " P 64 2 2  ";
   " P 63 2 2  ";
   " P 6 m m   ";
   " P 6 c c   ";
   " P 63 c m  ";
   " P 63 m c  ";
   " P -6 m 2  ";
   " P -6 c 2  ";
   " P -6 2 m  ";
   " P -6 2 c  ";
   " P 6/m m m ";
   " P 6/m c c ";
   " P 63/m c m";
   " P 63/m m c";
   " P 2 3     ";
   " F 2 3     ";
   " I 2 3     ";
   " P 21 3    ";
   " I 21 3    ";
   " P m 3     ";
   " P n 3     ";
   " F m 3     ";
   " F d 3     ";
   " I m 3     ";
   " P a 3     ";
   " I a 3     ";
   " P 4 3 2   ";
   " P 42 3 2  ";
   " F 4 3 2   ";
   " F 41 3 2  ";
   " I 4 3 2   ";
   " P 43 3 2  ";
   " P 41 3 2  ";
   " I 41 3 2  ";
   " P -4 3 m  ";
   " F -4 3 m  ";
   " I -4 3 m  ";
   " P -4 3 n  ";
   " F -4 3 c  ";
   " I -4 3 d  ";
   " P m 3 m   ";
   " P n 3 n   ";
   " P m 3 n   ";
   " P n 3 m   ";
   " F m 3 m   ";
   " F m 3 c   ";
   " F d 3 m   ";
   " F d 3 c   ";
   " I m 3 m   ";
   " I a 3 d   ";
   " R 3   |146";
   " R -3  |148";
   " R 3 2 |155";
   " R 3 m |160";
   " R 3 c |161";
   " R -3 m|166";
   " R -3 c|167"].
