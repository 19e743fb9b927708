(** Gamma2dSrc: the expressions of src/gamma2d_1loop.c.  Generated by tools/gen_gamma2.py. *)
From Verif Require Import Base GExpr.
Local Open Scope gexpr_scope.

(** src/gamma2d_1loop.c:19-64, kernel1 of kernel_gamma2d_exact *)
Definition g2d_exact_kernel1 : gexpr :=
  GPi * (15 * gk1@[6] * gk2@[6] * gk3@[4] * (3 * (gk1@[2] - gk2@[2]) * (gk1@[2] - gk2@[2]) * (13 * gk1@[4] - 4 *
   gk1@[2] * gk2@[2] + 13 * gk2@[4]) - (gk1@[2] + gk2@[2]) * (805 * gk1@[4] - 2306 * gk1@[2] * gk2@[2] + 805 *
   gk2@[4]) * gk3@[2] + (377 * gk1@[4] + 940 * gk1@[2] * gk2@[2] + 377 * gk2@[4]) * gk3@[4] + 361 * (gk1@[2] +
   gk2@[2]) * gk3@[6] + 28 * gk3@[8]) / gq@[4] - 10 * gk1@[6] * gk2@[6] * gk3@[4] * (3 * (gk1@[2] + gk2@[2]) * (911
   * gk1@[4] - 1570 * gk1@[2] * gk2@[2] + 911 * gk2@[4]) + ((- 22261) * gk1@[4] + 45566 * gk1@[2] * gk2@[2] - 22261
   * gk2@[4]) * gk3@[2] + 12037 * (gk1@[2] + gk2@[2]) * gk3@[4] + 6891 * gk3@[6]) / gq@[2] + gk1@[4] * gk2@[4] *
   gk3@[2] * (3150 * gk1@[2] * gk2@[2] * (gk1@[2] - gk2@[2]) * (gk1@[2] - gk2@[2]) * (gk1@[2] + gk2@[2]) + 3 *
   (19475 * gk1@[8] - 139742 * gk1@[6] * gk2@[2] + 246974 * gk1@[4] * gk2@[4] - 139742 * gk1@[2] * gk2@[6] + 19475 *
   gk2@[8]) * gk3@[2] - 2 * (gk1@[2] + gk2@[2]) * (53220 * gk1@[4] - 178337 * gk1@[2] * gk2@[2] + 53220 * gk2@[4]) *
   gk3@[4] + (38925 * gk1@[4] + 9532 * gk1@[2] * gk2@[2] + 38925 * gk2@[4]) * gk3@[6] + 9090 * (gk1@[2] + gk2@[2]) *
   gk3@[8]) - 15 * gk1@[2] * gk2@[2] * (189 * gk1@[4] * gk2@[4] * (gk1@[2] - gk2@[2]) * (gk1@[2] - gk2@[2]) *
   (gk1@[2] + gk2@[2]) - 84 * gk1@[4] * gk2@[4] * (43 * gk1@[4] - 80 * gk1@[2] * gk2@[2] + 43 * gk2@[4]) * gk3@[2] +
   (gk1@[2] + gk2@[2]) * (1949 * gk1@[8] - 10643 * gk1@[6] * gk2@[2] + 20573 * gk1@[4] * gk2@[4] - 10643 * gk1@[2] *
   gk2@[6] + 1949 * gk2@[8]) * gk3@[4] + 2 * ((- 1959) * gk1@[8] + 3283 * gk1@[6] * gk2@[2] + 1907 * gk1@[4] *
   gk2@[4] + 3283 * gk1@[2] * gk2@[6] - 1959 * gk2@[8]) * gk3@[6] + 3 * (gk1@[2] + gk2@[2]) * (663 * gk1@[4] - 811 *
   gk1@[2] * gk2@[2] + 663 * gk2@[4]) * gk3@[8] - 20 * (gk1@[4] + gk2@[4]) * gk3@[10]) * gq@[2] + 45 * ((- 252) *
   gk1@[6] * gk2@[6] * (gk1@[2] - gk2@[2]) * (gk1@[2] - gk2@[2]) + 168 * gk1@[6] * gk2@[6] * (gk1@[2] + gk2@[2]) *
   gk3@[2] + (55 * gk1@[12] - 285 * gk1@[10] * gk2@[2] + 157 * gk1@[8] * gk2@[4] + 230 * gk1@[6] * gk2@[6] + 157 *
   gk1@[4] * gk2@[8] - 285 * gk1@[2] * gk2@[10] + 55 * gk2@[12]) * gk3@[4] - 3 * (gk1@[2] + gk2@[2]) * (55 * gk1@[8]
   - 201 * gk1@[6] * gk2@[2] + 156 * gk1@[4] * gk2@[4] - 201 * gk1@[2] * gk2@[6] + 55 * gk2@[8]) * gk3@[6] + 3 * (55
   * gk1@[8] - 51 * gk1@[6] * gk2@[2] - 51 * gk1@[2] * gk2@[6] + 55 * gk2@[8]) * gk3@[8] - 55 * (gk1@[6] + gk2@[6])
   * gk3@[10]) * gq@[4]) / (1552320 * gk1@[8] * gk2@[8] * gk3@[4]).

(** src/gamma2d_1loop.c:66-82, kernel2 of kernel_gamma2d_exact *)
Definition g2d_exact_kernel2 : gexpr :=
  (- (GPi * (gk1@[1] / gq@[1] - 1) * (gk1@[1] / gq@[1] - 1) * (gk1@[1] / gq@[1] + 1) * (gk1@[1] / gq@[1] + 1) * (39
   * gk1@[12] + 165 * (GPower (gk2@[2] - gk3@[2]) 3) * gq@[6] - gk1@[10] * (582 * gk2@[2] + 791 * gk3@[2] + 1947 *
   gq@[2]) - 3 * gk1@[2] * (gk2@[1] - gk3@[1]) * (gk2@[1] + gk3@[1]) * gq@[4] * (558 * gk2@[4] - 473 * gk2@[2] *
   gk3@[2] - 85 * gk3@[4] + 3 * (95 * gk2@[2] - 51 * gk3@[2]) * gq@[2]) + gk1@[6] * (492 * gk2@[6] - 633 * gk2@[4] *
   gk3@[2] + 390 * gk2@[2] * gk3@[4] + 151 * gk3@[6] + ((- 6465) * gk2@[4] + 758 * gk2@[2] * gk3@[2] + 179 *
   gk3@[4]) * gq@[2] - 3 * (2428 * gk2@[2] + 371 * gk3@[2]) * gq@[4] + 219 * gq@[6]) + gk1@[8] * (51 * gk2@[4] + 601
   * gk3@[4] + 1787 * gk3@[2] * gq@[2] + 1689 * gq@[4] + gk2@[2] * (2120 * gk3@[2] + 6891 * gq@[2])) + gk1@[4] *
   gq@[2] * (1017 * gk2@[6] + 269 * gk3@[6] - 321 * gk3@[4] * gq@[2] + 405 * gk3@[2] * gq@[4] + gk2@[4] * ((- 1677)
   * gk3@[2] + 7269 * gq@[2]) + gk2@[2] * (391 * gk3@[4] - 4376 * gk3@[2] * gq@[2] + 471 * gq@[4]))) * (GLFunc
   gk1@[1] gq@[1]))) / (413952 * gk1@[9] * gk2@[2] * gq@[1]).

(** src/gamma2d_1loop.c:84-101, kernel3 of kernel_gamma2d_exact *)
Definition g2d_exact_kernel3 : gexpr :=
  (- (GPi * (gk2@[1] / gq@[1] - 1) * (gk2@[1] / gq@[1] - 1) * (gk2@[1] / gq@[1] + 1) * (gk2@[1] / gq@[1] + 1) *
   (gk2@[6] * (492 * gk1@[6] + 39 * gk2@[6] - 791 * gk2@[4] * gk3@[2] + 601 * gk2@[2] * gk3@[4] + 151 * gk3@[6] +
   gk1@[4] * (51 * gk2@[2] - 633 * gk3@[2]) + gk1@[2] * ((- 582) * gk2@[4] + 2120 * gk2@[2] * gk3@[2] + 390 *
   gk3@[4])) + gk2@[4] * (1017 * gk1@[6] - 1947 * gk2@[6] + 1787 * gk2@[4] * gk3@[2] + 179 * gk2@[2] * gk3@[4] + 269
   * gk3@[6] - 3 * gk1@[4] * (2155 * gk2@[2] + 559 * gk3@[2]) + gk1@[2] * (6891 * gk2@[4] + 758 * gk2@[2] * gk3@[2]
   + 391 * gk3@[4])) * gq@[2] - gk2@[2] * (3 * (gk1@[1] - gk2@[1]) * (gk1@[1] + gk2@[1]) * (558 * gk1@[4] - 1865 *
   gk1@[2] * gk2@[2] + 563 * gk2@[4]) + ((- 3093) * gk1@[4] + 4376 * gk1@[2] * gk2@[2] + 1113 * gk2@[4]) * gk3@[2] +
   3 * (388 * gk1@[2] + 107 * gk2@[2]) * gk3@[4] + 255 * gk3@[6]) * gq@[4] + 3 * (55 * gk1@[6] - 15 * gk1@[4] * (19
   * gk2@[2] + 11 * gk3@[2]) + (gk2@[1] - gk3@[1]) * (gk2@[1] + gk3@[1]) * (73 * gk2@[4] + 208 * gk2@[2] * gk3@[2] +
   55 * gk3@[4]) + gk1@[2] * (157 * gk2@[4] + 438 * gk2@[2] * gk3@[2] + 165 * gk3@[4])) * gq@[6]) * (GLFunc gk2@[1]
   gq@[1]))) / (413952 * gk1@[2] * gk2@[9] * gq@[1]).

(** src/gamma2d_1loop.c:103-114, kernel4 of kernel_gamma2d_exact *)
Definition g2d_exact_kernel4 : gexpr :=
  GPi * (2 * (GPower (gk3@[1] / gq@[1]) 4) + 7 * (gk3@[1] / gq@[1]) * (gk3@[1] / gq@[1]) - 9) * (gk3@[4] * (gk1@[6]
   - 9 * gk1@[4] * gk2@[2] - 9 * gk1@[2] * gk2@[4] + gk2@[6] + 16 * (gk1@[2] - gk2@[2]) * (gk1@[2] - gk2@[2]) *
   gk3@[2] - 15 * (gk1@[2] + gk2@[2]) * gk3@[4] - 2 * gk3@[6]) + 2 * gk3@[2] * ((gk1@[2] - gk2@[2]) * (gk1@[2] -
   gk2@[2]) * (gk1@[2] + gk2@[2]) - 4 * (7 * gk1@[4] - 17 * gk1@[2] * gk2@[2] + 7 * gk2@[4]) * gk3@[2] + 23 *
   (gk1@[2] + gk2@[2]) * gk3@[4]) * gq@[2] - (3 * (gk1@[2] - gk2@[2]) * (gk1@[2] - gk2@[2]) * (gk1@[2] + gk2@[2]) -
   4 * (13 * gk1@[4] - 24 * gk1@[2] * gk2@[2] + 13 * gk2@[4]) * gk3@[2] + 47 * (gk1@[2] + gk2@[2]) * gk3@[4] + 2 *
   gk3@[6]) * gq@[4] + 4 * ((- 3) * (gk1@[2] - gk2@[2]) * (gk1@[2] - gk2@[2]) + 2 * (gk1@[2] + gk2@[2]) * gk3@[2] +
   gk3@[4]) * gq@[6]) * (GLFunc gk3@[1] gq@[1]) / (59136 * gk1@[2] * gk2@[2] * gk3@[5] * gq@[1]).

(** src/gamma2d_1loop.c:116-126, kernel5 of kernel_gamma2d_exact *)
Definition g2d_exact_kernel5 : gexpr :=
  3 * gk3@[3] * GPi * (gk1@[2] - gq@[2]) * (gk1@[2] - gq@[2]) * ((- gk2@[2]) + gq@[2]) * ((- gk2@[2]) + gq@[2]) *
   (GWFunc gk1@[1] gk2@[1] gk3@[1] gq@[1]) / (4312 * gk1@[2] * gk2@[2] * gq@[5] * (GSqrt (gk1@[2] * gk2@[2] -
   (gk1@[2] + gk2@[2] - gk3@[2]) * gq@[2] + gq@[4]))) + gk2@[1] * GPi * (gk1@[2] - gq@[2]) * (gk1@[2] - gq@[2]) * (2
   * gk3@[4] + 7 * gk3@[2] * gq@[2] - 9 * gq@[4]) * (GWFunc gk1@[1] gk3@[1] gk2@[1] gq@[1]) / (7392 * gk1@[2] *
   gq@[5] * (GSqrt (gk1@[2] * gk3@[2] - (gk1@[2] - gk2@[2] + gk3@[2]) * gq@[2] + gq@[4]))) + gk1@[1] * GPi *
   (gk2@[2] - gq@[2]) * (gk2@[2] - gq@[2]) * (2 * gk3@[4] + 7 * gk3@[2] * gq@[2] - 9 * gq@[4]) * (GWFunc gk2@[1]
   gk3@[1] gk1@[1] gq@[1]) / (7392 * gk2@[2] * gq@[5] * (GSqrt (gk1@[2] * gq@[2] + (gk2@[1] - gq@[1]) * (gk3@[1] -
   gq@[1]) * (gk2@[1] + gq@[1]) * (gk3@[1] + gq@[1])))).

(** src/gamma2d_1loop.c:139-205, return of kernel_gamma2d_iso *)
Definition g2d_iso : gexpr :=
  GPi * ((- 60) * geps@[1] * (gk1@[1] - gq@[1]) * gq@[1] * (gk1@[1] + gq@[1]) * (165 * gk3@[6] * gq@[6] + gk1@[10] *
   ((- 696) * gk3@[2] + 504 * gq@[2]) - gk1@[8] * (991 * gk3@[4] + 868 * gk3@[2] * gq@[2]) + gk1@[6] * ((- 151) *
   gk3@[6] - 570 * gk3@[4] * gq@[2] + 2396 * gk3@[2] * gq@[4]) + gk1@[4] * ((- 269) * gk3@[6] * gq@[2] + 1485 *
   gk3@[4] * gq@[4] - 1224 * gk3@[2] * gq@[6]) + 3 * gk1@[2] * (85 * gk3@[6] * gq@[4] - 12 * gk3@[4] * gq@[6])) /
   gk1@[10] + 8 * gq@[1] * (420 * geps@[1] * (gk1@[2] - gq@[2]) * (gk1@[2] - gq@[2]) * (2 * gk3@[4] + 7 * gk3@[2] *
   gq@[2] - 9 * gq@[4]) / (gk1@[2] * gk3@[2] - gk3@[2] * gq@[2] + gq@[4]) + 2160 * geps@[1] * gk3@[4] * (GPower ((-
   gk1@[2]) + gq@[2]) 3) / (gk1@[2] * (gk1@[4] - 2 * gk1@[2] * gq@[2] + gk3@[2] * gq@[2] + gq@[4])) + ((- 420) *
   geps@[1] * gk1@[12] * gk3@[2] * (gk1@[2] - gq@[2]) * (2 * gk3@[4] + 7 * gk3@[2] * gq@[2] - 9 * gq@[4]) + (gk1@[2]
   * gk3@[2] - gk3@[2] * gq@[2] + gq@[4]) * (2475 * ((- 1) + 5 * geps@[1]) * gk3@[8] * gq@[8] + 360 * (1 + geps@[1])
   * gk1@[12] * gk3@[2] * (29 * gk3@[2] - 21 * gq@[2]) - 60 * ((- 1) + 4 * geps@[1]) * gk1@[2] * gk3@[6] * gq@[6] *
   (5 * gk3@[2] + 9 * gq@[2]) - 45 * ((- 1) + 3 * geps@[1]) * gk1@[4] * gk3@[4] * gq@[4] * (202 * gk3@[4] - 515 *
   gk3@[2] * gq@[2] + 408 * gq@[4]) + 15 * gk1@[10] * (847 * gk3@[6] - 348 * gk3@[4] * gq@[2] + 644 * gk3@[2] *
   gq@[4] + 252 * gq@[6]) - ((- 1) + 2 * geps@[1]) * gk1@[6] * gk3@[2] * (210 * gk3@[8] - 34455 * gk3@[6] * gq@[2] +
   43691 * gk3@[4] * gq@[4] - 68325 * gk3@[2] * gq@[6] + 1890 * gq@[8]) - ((- 1) + geps@[1]) * gk1@[8] * (5415 *
   gk3@[8] - 120370 * gk3@[6] * gq@[2] + 143794 * gk3@[4] * gq@[4] - 47775 * gk3@[2] * gq@[6] + 7560 * gq@[8]))) /
   (gk1@[10] * gk3@[2] * (gk1@[2] * gk3@[2] - gk3@[2] * gq@[2] + gq@[4]))) + 15 * (165 * (2 - 11 * geps@[1]) *
   gk3@[6] * gq@[10] - 24 * (2 + 3 * geps@[1]) * gk1@[14] * (29 * gk3@[2] - 21 * gq@[2]) + 3 * ((- 2) + 9 *
   geps@[1]) * gk1@[2] * gk3@[4] * gq@[8] * (25 * gk3@[2] + 12 * gq@[2]) - ((- 2) + 3 * geps@[1]) * gk1@[8] *
   gk3@[2] * gq@[2] * (33 * gk3@[4] + 1634 * gk3@[2] * gq@[2] - 6884 * gq@[4]) - (2 + geps@[1]) * gk1@[12] * (991 *
   gk3@[4] - 524 * gk3@[2] * gq@[2] + 1008 * gq@[4]) + ((- 2) + 7 * geps@[1]) * gk1@[4] * gk3@[2] * gq@[6] * (614 *
   gk3@[4] - 1557 * gk3@[2] * gq@[2] + 1224 * gq@[4]) - 2 * ((- 2) + 5 * geps@[1]) * gk1@[6] * gk3@[2] * gq@[4] *
   (321 * gk3@[4] - 1788 * gk3@[2] * gq@[2] + 2422 * gq@[4]) + ((- 2) + geps@[1]) * gk1@[10] * (151 * gk3@[6] - 1412
   * gk3@[4] * gq@[2] - 3436 * gk3@[2] * gq@[4] - 504 * gq@[6])) * 2 * (GLog ((GAbs ((gk1@[1] + gq@[1]) / (gk1@[1] -
   gq@[1]))))) / gk1@[11] - 210 * (2 * gk3@[4] + 7 * gk3@[2] * gq@[2] - 9 * gq@[4]) * (8 * (1 + geps@[1]) * gk1@[6]
   * gk3@[2] - 4 * gk1@[4] * (3 * gk3@[2] * gq@[2] + gq@[4]) - ((- 1) + geps@[1]) * gk1@[2] * (15 * gk3@[6] - 46 *
   gk3@[4] * gq@[2] + 47 * gk3@[2] * gq@[4] - 8 * gq@[6]) - ((- 1) + 2 * geps@[1]) * gk3@[2] * (gk3@[6] + gk3@[2] *
   gq@[4] - 2 * gq@[6])) * 2 * (GLog ((GAbs ((gk3@[1] + gq@[1]) / (gk3@[1] - gq@[1]))))) / (gk1@[4] * gk3@[3]) + 840
   * ((- gk1@[1]) + gq@[1]) * (gk1@[1] + gq@[1]) * ((- 2) * gk3@[4] - 7 * gk3@[2] * gq@[2] + 9 * gq@[4]) * (2 * (1 +
   geps@[1]) * gk1@[4] * gk3@[2] + ((- 2) + geps@[1]) * gq@[4] * ((- gk3@[2]) + gq@[2]) + gk1@[2] * gq@[2] * ((- ((4
   + geps@[1]) * gk3@[2])) + (2 + 3 * geps@[1]) * gq@[2])) * (GLog (((- (gk3@[2] * gq@[2])) + gq@[4] + gk1@[2] *
   (gk3@[2] + gq@[2]) + 2 * gk1@[1] * gq@[1] * (GSqrt (gk1@[2] * gk3@[2] - gk3@[2] * gq@[2] + gq@[4]))) / ((-
   (gk3@[2] * gq@[2])) + gq@[4] + gk1@[2] * (gk3@[2] + gq@[2]) - 2 * gk1@[1] * gq@[1] * (GSqrt (gk1@[2] * gk3@[2] -
   gk3@[2] * gq@[2] + gq@[4]))))) / (gk1@[1] * (GPow (gk1@[2] * gk3@[2] - gk3@[2] * gq@[2] + gq@[4]) (GLit 15 1))) +
   4320 * gk3@[3] * (GPower (gk1@[2] - gq@[2]) 3) * ((1 + geps@[1]) * gk1@[6] - 3 * gk1@[4] * gq@[2] + ((- 1) + 2 *
   geps@[1]) * gq@[4] * (gk3@[2] + gq@[2]) + gk1@[2] * gq@[2] * ((1 + 2 * geps@[1]) * gk3@[2] - 3 * ((- 1) +
   geps@[1]) * gq@[2])) * (GLog ((- ((4 * gk3@[2] * gq@[2] + 2 * (gk1@[2] - gq@[2]) * (gk1@[2] - gq@[2]) + 4 *
   gk3@[1] * gq@[1] * (GSqrt (gk1@[4] + ((- 2) * gk1@[2] + gk3@[2]) * gq@[2] + gq@[4]))) / ((- 4) * gk3@[2] * gq@[2]
   - 2 * (gk1@[2] - gq@[2]) * (gk1@[2] - gq@[2]) + 4 * gk3@[1] * gq@[1] * (GSqrt (gk1@[4] + ((- 2) * gk1@[2] +
   gk3@[2]) * gq@[2] + gq@[4]))))))) / (gk1@[4] * (GPow (gk1@[4] - 2 * gk1@[2] * gq@[2] + gk3@[2] * gq@[2] + gq@[4])
   (GLit 15 1)))) / (6209280 * gq@[5]).

(** src/gamma2d_1loop.c:213-236, return of kernel_gamma2d_highk *)
Definition g2d_highk : gexpr :=
  GPi * (8085 * gk1@[4] * gk2@[4] * gk3@[6] * (5 * (gk1@[2] - gk2@[2]) * (gk1@[2] - gk2@[2]) - 3 * (gk1@[2] +
   gk2@[2]) * gk3@[2] - 2 * gk3@[4]) / gq@[2] + 7 * gk1@[2] * gk2@[2] * gk3@[2] * (28 * (GPower (gk1@[2] - gk2@[2])
   4) * (gk1@[2] + gk2@[2]) + 3 * (gk1@[2] - gk2@[2]) * (gk1@[2] - gk2@[2]) * (1094 * gk1@[4] - 6321 * gk1@[2] *
   gk2@[2] + 1094 * gk2@[4]) * gk3@[2] - 6 * (gk1@[2] + gk2@[2]) * (988 * gk1@[4] - 3189 * gk1@[2] * gk2@[2] + 988 *
   gk2@[4]) * gk3@[4] + (1970 * gk1@[4] + 741 * gk1@[2] * gk2@[2] + 1970 * gk2@[4]) * gk3@[6] + 576 * (gk1@[2] +
   gk2@[2]) * gk3@[8] + 72 * gk3@[10]) + ((- 14) * (GPower ((gk1@[1] - gk2@[1]) * (gk1@[1] + gk2@[1])) 4) * (gk1@[2]
   + gk2@[2]) * (12 * gk1@[4] - 55 * gk1@[2] * gk2@[2] + 12 * gk2@[4]) + 7 * (28 * gk1@[12] + 4005 * gk1@[8] *
   gk2@[4] - 8066 * gk1@[6] * gk2@[6] + 4005 * gk1@[4] * gk2@[8] + 28 * gk2@[12]) * gk3@[2] - 6 * (gk1@[2] +
   gk2@[2]) * (2999 * gk1@[8] - 16730 * gk1@[6] * gk2@[2] + 31403 * gk1@[4] * gk2@[4] - 16730 * gk1@[2] * gk2@[6] +
   2999 * gk2@[8]) * gk3@[4] + (34488 * gk1@[8] - 51644 * gk1@[6] * gk2@[2] - 33313 * gk1@[4] * gk2@[4] - 51644 *
   gk1@[2] * gk2@[6] + 34488 * gk2@[8]) * gk3@[6] - 2 * (gk1@[2] + gk2@[2]) * (7649 * gk1@[4] - 8021 * gk1@[2] *
   gk2@[2] + 7649 * gk2@[4]) * gk3@[8] - 1296 * (gk1@[4] + gk2@[4]) * gk3@[10] + 504 * (gk1@[2] + gk2@[2]) *
   gk3@[12] - 432 * gk3@[14]) * gq@[2]) / (339570 * gk1@[6] * gk2@[6] * gk3@[4]).

(** src/gamma2d_1loop.c:244-256, return of kernel_gamma2d_lowk *)
Definition g2d_lowk : gexpr :=
  GPi * (2426 * gk1@[8] - 4 * gk1@[6] * (3110 * gk2@[2] + 2087 * gk3@[2] + 3006 * gq@[2]) + gk1@[2] * (2 * ((- 6220)
   * gk2@[6] + 7198 * gk2@[4] * gk3@[2] + 5449 * gk2@[2] * gk3@[4] + 1073 * gk3@[6]) + (12024 * gk2@[4] - 76684 *
   gk2@[2] * gk3@[2] - 20085 * gk3@[4]) * gq@[2]) + gk1@[4] * (20028 * gk2@[4] + 3363 * gk3@[4] + 44518 * gk3@[2] *
   gq@[2] + 4 * gk2@[2] * (3599 * gk3@[2] + 3006 * gq@[2])) + (gk2@[1] - gk3@[1]) * (gk2@[1] + gk3@[1]) * (2426 *
   gk2@[6] - 413 * gk3@[6] + 12409 * gk3@[4] * gq@[2] - 18 * gk2@[4] * (329 * gk3@[2] + 668 * gq@[2]) + gk2@[2] *
   ((- 2559) * gk3@[4] + 32494 * gk3@[2] * gq@[2]))) / (339570 * gk1@[2] * gk2@[2] * gq@[4]).

(** src/gamma2d_1loop.c:274-363, return of kernel_gamma2d_elongate *)
Definition g2d_elongate : gexpr :=
  GPi * (4 * gk@[16] * gq@[1] * (42100 * gk@[6] + 13841 * gk3@[6] - 10132 * gk3@[4] * gq@[2] - 405090 * gk3@[2] *
   gq@[4] - 139020 * gq@[6] - 3 * gk@[4] * (13429 * gk3@[2] + 512318 * gq@[2]) + gk@[2] * (54346 * gk3@[4] + 144594
   * gk3@[2] * gq@[2] - 2024631 * gq@[4])) / 7 - 4 * gk@[10] * gq@[1] * (1350 * gk@[12] * gk3@[4] - 7425 * gk3@[8] *
   gq@[8] - 15 * gk@[10] * (1501 * gk3@[6] + 1318 * gk3@[4] * gq@[2] - 210 * gk3@[2] * gq@[4] + 189 * gq@[6]) - 2 *
   gk@[8] * (7050 * gk3@[8] - 227830 * gk3@[6] * gq@[2] + 370461 * gk3@[4] * gq@[4] - 50400 * gk3@[2] * gq@[6] +
   11340 * gq@[8]) + gk@[6] * ((- 5415) * gk3@[10] + 120370 * gk3@[8] * gq@[2] - 250234 * gk3@[6] * gq@[4] + 148950
   * gk3@[4] * gq@[6] - 7560 * gk3@[2] * gq@[8]) - 15 * gk@[4] * (2595 * gk3@[8] * gq@[4] - 6566 * gk3@[6] * gq@[6]
   + 471 * gk3@[4] * gq@[8]) + 135 * gk@[2] * (221 * gk3@[8] * gq@[6] - 146 * gk3@[6] * gq@[8])) / gk3@[4] - 15 *
   gk@[9] * (gk@[1] - gq@[1]) * (gk@[1] - gq@[1]) * (gk@[1] + gq@[1]) * (gk@[1] + gq@[1]) * ((- 582) * gk@[10] + 495
   * gk3@[4] * gq@[6] + gk@[8] * (2120 * gk3@[2] + 6891 * gq@[2]) + gk@[6] * (390 * gk3@[4] + 758 * gk3@[2] * gq@[2]
   - 7284 * gq@[4]) + gk@[4] * (391 * gk3@[4] * gq@[2] - 4376 * gk3@[2] * gq@[4] + 471 * gq@[6]) - 6 * gk@[2] * (194
   * gk3@[4] * gq@[4] - 219 * gk3@[2] * gq@[6])) * 2 * (GLog ((GAbs ((gk@[1] + gq@[1]) / (gk@[1] - gq@[1]))))) - 105
   * gk@[16] * (2 * gk3@[4] + 7 * gk3@[2] * gq@[2] - 9 * gq@[4]) * (15 * gk3@[8] - 46 * gk3@[6] * gq@[2] + 47 *
   gk3@[4] * gq@[4] - 8 * gk3@[2] * gq@[6] + gk@[4] * (9 * gk3@[4] + 2 * gk3@[2] * gq@[2] - 3 * gq@[4]) + 8 * gk@[2]
   * (4 * gk3@[6] - 17 * gk3@[4] * gq@[2] + 12 * gk3@[2] * gq@[4] - 3 * gq@[6])) * 2 * (GLog ((GAbs ((gk3@[1] +
   gq@[1]) / (gk3@[1] - gq@[1]))))) / gk3@[5] + 420 * gk@[19] * gq@[3] * ((- gk3@[2]) + gq@[2]) * (2 * gk3@[2] + 9 *
   gq@[2]) * ((- 4) * gk@[1] * (GSqrt (gq@[2] * (gk@[2] - gk3@[2] + gq@[2]))) + gq@[1] * (4 * gk@[2] - 3 * gk3@[2] +
   3 * gq@[2]) * (GLog ((2 * gk@[2] * gq@[1] - gk3@[2] * gq@[1] + gq@[3] + 2 * gk@[1] * (GSqrt (gq@[2] * (gk@[2] -
   gk3@[2] + gq@[2])))) / (2 * gk@[2] * gq@[1] - gk3@[2] * gq@[1] + gq@[3] - 2 * gk@[1] * (GSqrt (gq@[2] * (gk@[2] -
   gk3@[2] + gq@[2]))))))) / (GPow (gq@[2] * (gk@[2] - gk3@[2] + gq@[2])) (GLit 15 1)) + 2160 * gk@[16] * gk3@[3] *
   gq@[3] * (gk@[2] - gq@[2]) * (gk@[2] - gq@[2]) * (4 * gk3@[1] * (GSqrt (gq@[2] * ((- gk@[2]) + gk3@[2] +
   gq@[2]))) + gq@[1] * (3 * gk@[2] - 4 * gk3@[2] - 3 * gq@[2]) * (GLog ((- (((- (gk@[2] * gq@[1])) + 2 * gk3@[2] *
   gq@[1] + gq@[3] + 2 * gk3@[1] * (GSqrt (gq@[2] * ((- gk@[2]) + gk3@[2] + gq@[2])))) / (gk@[2] * gq@[1] - 2 *
   gk3@[2] * gq@[1] - gq@[3] + 2 * gk3@[1] * (GSqrt (gq@[2] * ((- gk@[2]) + gk3@[2] + gq@[2]))))))))) / (GPow
   (gq@[2] * ((- gk@[2]) + gk3@[2] + gq@[2])) (GLit 15 1)) + (4 * gk@[14] * gq@[3] * (218739 * gk@[6] + 46820 *
   gk3@[6] - 49266 * gk3@[4] * gq@[2] + 187740 * gk3@[2] * gq@[4] - 22995 * gq@[6] - 6 * gk@[4] * (66043 * gk3@[2] -
   333130 * gq@[2]) + gk@[2] * (88699 * gk3@[4] - 918974 * gk3@[2] * gq@[2] + 847245 * gq@[4])) / 7 + 4 * gk@[8] *
   gq@[1] * (585 * gk@[14] * gk3@[4] - 2475 * gk3@[10] * gq@[8] + 15 * gk@[2] * gk3@[8] * gq@[6] * (20 * gk3@[2] -
   459 * gq@[2]) + 45 * gk@[4] * gk3@[6] * gq@[4] * (202 * gk3@[4] + 148 * gk3@[2] * gq@[2] + 135 * gq@[4]) - 15 *
   gk@[12] * (805 * gk3@[6] + 1822 * gk3@[4] * gq@[2] - 210 * gk3@[2] * gq@[4] + 189 * gq@[6]) + gk@[10] * (5655 *
   gk3@[8] + 222610 * gk3@[6] * gq@[2] - 419226 * gk3@[4] * gq@[4] + 54180 * gk3@[2] * gq@[6] - 11340 * gq@[8]) + 2
   * gk@[6] * gk3@[4] * (210 * gk3@[8] - 34455 * gk3@[6] * gq@[2] + 4766 * gk3@[4] * gq@[4] - 28605 * gk3@[2] *
   gq@[6] + 5175 * gq@[8]) + gk@[8] * gk3@[2] * (5415 * gk3@[8] - 120370 * gk3@[6] * gq@[2] + 250234 * gk3@[4] *
   gq@[4] - 148950 * gk3@[2] * gq@[6] + 7560 * gq@[8])) / gk3@[4] - 15 * gk@[7] * (gk@[1] - gq@[1]) * (gk@[1] -
   gq@[1]) * (gk@[1] + gq@[1]) * (gk@[1] + gq@[1]) * (39 * gk@[12] - 165 * gk3@[6] * gq@[6] - gk@[10] * (791 *
   gk3@[2] + 1947 * gq@[2]) + gk@[8] * (601 * gk3@[4] + 1787 * gk3@[2] * gq@[2] + 1689 * gq@[4]) + gk@[6] * (151 *
   gk3@[6] + 179 * gk3@[4] * gq@[2] - 1113 * gk3@[2] * gq@[4] + 219 * gq@[6]) + gk@[4] * (269 * gk3@[6] * gq@[2] -
   321 * gk3@[4] * gq@[4] + 405 * gk3@[2] * gq@[6]) - 51 * gk@[2] * (5 * gk3@[6] * gq@[4] + 9 * gk3@[4] * gq@[6])) *
   2 * (GLog ((GAbs ((gk@[1] + gq@[1]) / (gk@[1] - gq@[1]))))) + 105 * gk@[14] * (2 * gk3@[4] + 7 * gk3@[2] * gq@[2]
   - 9 * gq@[4]) * (gk@[6] * (gk3@[4] + 2 * gk3@[2] * gq@[2] - 3 * gq@[4]) + 4 * gk@[4] * (4 * gk3@[6] - 14 *
   gk3@[4] * gq@[2] + 13 * gk3@[2] * gq@[4] - 3 * gq@[6]) - 2 * gk3@[4] * (gk3@[6] + gk3@[2] * gq@[4] - 2 * gq@[6])
   + gk@[2] * ((- 15) * gk3@[8] + 46 * gk3@[6] * gq@[2] - 47 * gk3@[4] * gq@[4] + 8 * gk3@[2] * gq@[6])) * 2 * (GLog
   ((GAbs ((gk3@[1] + gq@[1]) / (gk3@[1] - gq@[1]))))) / gk3@[5] - 840 * gk@[17] * gq@[4] * ((- 2) * gk3@[4] - 7 *
   gk3@[2] * gq@[2] + 9 * gq@[4]) * (GLog ((2 * gk@[2] * gq@[1] - gk3@[2] * gq@[1] + gq@[3] + 2 * gk@[1] * (GSqrt
   (gq@[2] * (gk@[2] - gk3@[2] + gq@[2])))) / (2 * gk@[2] * gq@[1] - gk3@[2] * gq@[1] + gq@[3] - 2 * gk@[1] * (GSqrt
   (gq@[2] * (gk@[2] - gk3@[2] + gq@[2])))))) / (GSqrt (gq@[2] * (gk@[2] - gk3@[2] + gq@[2]))) + 4320 * gk@[14] *
   gk3@[3] * gq@[4] * (gk@[2] - gq@[2]) * (gk@[2] - gq@[2]) * (GLog ((- (((- (gk@[2] * gq@[1])) + 2 * gk3@[2] *
   gq@[1] + gq@[3] + 2 * gk3@[1] * (GSqrt (gq@[2] * ((- gk@[2]) + gk3@[2] + gq@[2])))) / (gk@[2] * gq@[1] - 2 *
   gk3@[2] * gq@[1] - gq@[3] + 2 * gk3@[1] * (GSqrt (gq@[2] * ((- gk@[2]) + gk3@[2] + gq@[2])))))))) / (GSqrt
   (gq@[2] * ((- gk@[2]) + gk3@[2] + gq@[2])))) / geps@[2]) / (6209280 * gk@[18] * gq@[5]).

(** src/gamma2d_1loop.c:372-513, return of kernel_gamma2d_coll *)
Definition g2d_coll : gexpr :=
  GPi * ((- 84) * gk1@[7] * gk2@[7] * gq@[3] * (43 * gk1@[6] + 43 * gk2@[6] - 3408 * gk2@[4] * gq@[2] - 2275 *
   gk2@[2] * gq@[4] + 180 * gq@[6] - gk1@[4] * (403 * gk2@[2] + 3408 * gq@[2]) + gk1@[2] * ((- 403) * gk2@[4] + 7736
   * gk2@[2] * gq@[2] - 2275 * gq@[4])) + 12 * gk1@[1] * gk2@[1] * gq@[1] * (195 * gk1@[14] * gk2@[6] + 825 *
   gk2@[12] * gq@[8] - 5 * gk1@[2] * gk2@[10] * gq@[6] * (1949 * gk2@[2] + 855 * gq@[2]) + 5 * gk1@[4] * gk2@[8] *
   gq@[4] * (3895 * gk2@[4] + 8694 * gk2@[2] * gq@[2] + 471 * gq@[4]) + gk1@[10] * gk2@[2] * (510 * gk2@[8] + 6590 *
   gk2@[6] * gq@[2] - 139742 * gk2@[4] * gq@[4] + 43470 * gk2@[2] * gq@[6] - 4275 * gq@[8]) - 5 * gk1@[12] * (90 *
   gk2@[8] + 1822 * gk2@[6] * gq@[2] - 3895 * gk2@[4] * gq@[4] + 1949 * gk2@[2] * gq@[6] - 165 * gq@[8]) + gk1@[8] *
   gk2@[4] * ((- 450) * gk2@[8] + 6590 * gk2@[6] * gq@[2] + 246974 * gk2@[4] * gq@[4] - 49650 * gk2@[2] * gq@[6] +
   2355 * gq@[8]) + gk1@[6] * gk2@[6] * (195 * gk2@[8] - 9110 * gk2@[6] * gq@[2] - 139742 * gk2@[4] * gq@[4] - 49650
   * gk2@[2] * gq@[6] + 3450 * gq@[8])) - 45 * gk2@[7] * (gk1@[1] - gq@[1]) * (gk1@[1] - gq@[1]) * (gk1@[1] +
   gq@[1]) * (gk1@[1] + gq@[1]) * (13 * gk1@[12] + 55 * gk2@[6] * gq@[6] - gk1@[10] * (194 * gk2@[2] + 649 * gq@[2])
   + gk1@[8] * (17 * gk2@[4] + 2297 * gk2@[2] * gq@[2] + 563 * gq@[4]) + gk1@[6] * (164 * gk2@[6] - 2155 * gk2@[4] *
   gq@[2] - 2428 * gk2@[2] * gq@[4] + 73 * gq@[6]) + gk1@[4] * (339 * gk2@[6] * gq@[2] + 2423 * gk2@[4] * gq@[4] +
   157 * gk2@[2] * gq@[6]) - 3 * gk1@[2] * (186 * gk2@[6] * gq@[4] + 95 * gk2@[4] * gq@[6])) * 2 * (GLog ((GAbs
   ((gk1@[1] + gq@[1]) / (gk1@[1] - gq@[1]))))) - 45 * gk1@[7] * (gk2@[1] - gq@[1]) * (gk2@[1] - gq@[1]) * (gk2@[1]
   + gq@[1]) * (gk2@[1] + gq@[1]) * (gk1@[6] * (164 * gk2@[6] + 339 * gk2@[4] * gq@[2] - 558 * gk2@[2] * gq@[4] + 55
   * gq@[6]) + gk2@[6] * (13 * gk2@[6] - 649 * gk2@[4] * gq@[2] + 563 * gk2@[2] * gq@[4] + 73 * gq@[6]) + gk1@[4] *
   (17 * gk2@[8] - 2155 * gk2@[6] * gq@[2] + 2423 * gk2@[4] * gq@[4] - 285 * gk2@[2] * gq@[6]) + gk1@[2] * ((- 194)
   * gk2@[10] + 2297 * gk2@[8] * gq@[2] - 2428 * gk2@[6] * gq@[4] + 157 * gk2@[4] * gq@[6])) * 2 * (GLog ((GAbs
   ((gk2@[1] + gq@[1]) / (gk2@[1] - gq@[1]))))) - 7560 * gk1@[10] * gk2@[7] * gq@[4] * (gk2@[2] - gq@[2]) * (gk2@[2]
   - gq@[2]) * (GLog ((2 * gk1@[2] * gq@[1] - gk2@[2] * gq@[1] + gq@[3] + 2 * gk1@[1] * (GSqrt (gq@[2] * (gk1@[2] -
   gk2@[2] + gq@[2])))) / (2 * gk1@[2] * gq@[1] - gk2@[2] * gq@[1] + gq@[3] - 2 * gk1@[1] * (GSqrt (gq@[2] *
   (gk1@[2] - gk2@[2] + gq@[2])))))) / (GSqrt (gq@[2] * (gk1@[2] - gk2@[2] + gq@[2]))) - 7560 * gk1@[7] * gk2@[10] *
   gq@[4] * (gk1@[2] - gq@[2]) * (gk1@[2] - gq@[2]) * (GLog ((- (((- (gk1@[2] * gq@[1])) + 2 * gk2@[2] * gq@[1] +
   gq@[3] + 2 * gk2@[1] * (GSqrt (gq@[2] * ((- gk1@[2]) + gk2@[2] + gq@[2])))) / (gk1@[2] * gq@[1] - 2 * gk2@[2] *
   gq@[1] - gq@[3] + 2 * gk2@[1] * (GSqrt (gq@[2] * ((- gk1@[2]) + gk2@[2] + gq@[2])))))))) / (GSqrt (gq@[2] * ((-
   gk1@[2]) + gk2@[2] + gq@[2])))) / (6209280 * gk1@[9] * gk2@[9] * gq@[5]) + geps@[2] * GPi * (8 * gk1@[7] *
   gk2@[9] * gq@[1] * (353 * gk1@[6] + 353 * gk2@[6] - 12896 * gk2@[4] * gq@[2] - 30541 * gk2@[2] * gq@[4] + 1785 *
   gq@[6] - gk1@[4] * (2033 * gk2@[2] + 12896 * gq@[2]) + gk1@[2] * ((- 2033) * gk2@[4] + 31896 * gk2@[2] * gq@[2] -
   30541 * gq@[4])) - 4 * gk1@[1] * gk2@[3] * gq@[1] * (12075 * gk1@[12] * gk2@[6] + 7425 * gk2@[10] * gq@[8] - 90 *
   gk1@[2] * gk2@[8] * gq@[6] * (653 * gk2@[2] + 219 * gq@[2]) + 15 * gk1@[4] * gk2@[6] * gq@[4] * (7096 * gk2@[4] +
   6566 * gk2@[2] * gq@[2] - 405 * gq@[4]) + gk1@[6] * gk2@[4] * (12075 * gk2@[8] - 222610 * gk2@[6] * gq@[2] -
   250234 * gk2@[4] * gq@[4] + 57210 * gk2@[2] * gq@[6] - 6075 * gq@[8]) - 5 * gk1@[10] * (4503 * gk2@[8] + 44522 *
   gk2@[6] * gq@[2] - 21288 * gk2@[4] * gq@[4] + 11754 * gk2@[2] * gq@[6] - 1485 * gq@[8]) + gk1@[8] * ((- 22515) *
   gk2@[10] + 455660 * gk2@[8] * gq@[2] - 250234 * gk2@[6] * gq@[4] + 98490 * gk2@[4] * gq@[6] - 19710 * gk2@[2] *
   gq@[8])) + 15 * gk2@[9] * (gk1@[1] - gq@[1]) * (gk1@[1] - gq@[1]) * (gk1@[1] + gq@[1]) * (gk1@[1] + gq@[1]) *
   (791 * gk1@[10] + 495 * gk2@[4] * gq@[6] - gk1@[8] * (2120 * gk2@[2] + 1787 * gq@[2]) + gk1@[6] * (633 * gk2@[4]
   - 758 * gk2@[2] * gq@[2] + 1113 * gq@[4]) + gk1@[4] * (1677 * gk2@[4] * gq@[2] + 4376 * gk2@[2] * gq@[4] - 405 *
   gq@[6]) - 3 * gk1@[2] * (1031 * gk2@[4] * gq@[4] + 438 * gk2@[2] * gq@[6])) * 2 * (GLog ((GAbs ((gk1@[1] +
   gq@[1]) / (gk1@[1] - gq@[1]))))) + 15 * gk1@[7] * gk2@[2] * (gk2@[1] - gq@[1]) * (gk2@[1] - gq@[1]) * (gk2@[1] +
   gq@[1]) * (gk2@[1] + gq@[1]) * (gk2@[4] * (791 * gk2@[6] - 1787 * gk2@[4] * gq@[2] + 1113 * gk2@[2] * gq@[4] -
   405 * gq@[6]) + 3 * gk1@[4] * (211 * gk2@[6] + 559 * gk2@[4] * gq@[2] - 1031 * gk2@[2] * gq@[4] + 165 * gq@[6]) -
   2 * gk1@[2] * (1060 * gk2@[8] + 379 * gk2@[6] * gq@[2] - 2188 * gk2@[4] * gq@[4] + 657 * gk2@[2] * gq@[6])) * 2 *
   (GLog ((GAbs ((gk2@[1] + gq@[1]) / (gk2@[1] - gq@[1]))))) + 420 * gk1@[10] * gk2@[9] * gq@[3] * (gk2@[2] -
   gq@[2]) * (gk2@[2] - gq@[2]) * ((- 36) * gk1@[1] * (GSqrt (gq@[2] * (gk1@[2] - gk2@[2] + gq@[2]))) + gq@[1] * (14
   * gk1@[2] - 5 * gk2@[2] + 5 * gq@[2]) * (GLog ((2 * gk1@[2] * gq@[1] - gk2@[2] * gq@[1] + gq@[3] + 2 * gk1@[1] *
   (GSqrt (gq@[2] * (gk1@[2] - gk2@[2] + gq@[2])))) / (2 * gk1@[2] * gq@[1] - gk2@[2] * gq@[1] + gq@[3] - 2 *
   gk1@[1] * (GSqrt (gq@[2] * (gk1@[2] - gk2@[2] + gq@[2]))))))) / (GPow (gq@[2] * (gk1@[2] - gk2@[2] + gq@[2]))
   (GLit 15 1)) - 420 * gk1@[7] * gk2@[12] * gq@[3] * (gk1@[2] - gq@[2]) * (gk1@[2] - gq@[2]) * (36 * gk2@[1] *
   (GSqrt (gq@[2] * ((- gk1@[2]) + gk2@[2] + gq@[2]))) + gq@[1] * (5 * gk1@[2] - 14 * gk2@[2] - 5 * gq@[2]) * (GLog
   ((- (((- (gk1@[2] * gq@[1])) + 2 * gk2@[2] * gq@[1] + gq@[3] + 2 * gk2@[1] * (GSqrt (gq@[2] * ((- gk1@[2]) +
   gk2@[2] + gq@[2])))) / (gk1@[2] * gq@[1] - 2 * gk2@[2] * gq@[1] - gq@[3] + 2 * gk2@[1] * (GSqrt (gq@[2] * ((-
   gk1@[2]) + gk2@[2] + gq@[2]))))))))) / (GPow (gq@[2] * ((- gk1@[2]) + gk2@[2] + gq@[2])) (GLit 15 1))) / (6209280
   * gk1@[9] * gk2@[9] * gq@[5]) + geps@[4] * GPi * (17280 * gk1@[7] * gk2@[11] * gq@[1] * (gk1@[2] - gq@[2]) *
   (gk2@[2] - gq@[2]) + 4 * gk1@[7] * gk2@[11] * (304 * gk1@[6] + 304 * gk2@[6] - 4416 * gk2@[4] * gq@[2] + 21649 *
   gk2@[2] * gq@[4] + 224 * gq@[6] - 64 * gk1@[4] * (38 * gk2@[2] + 69 * gq@[2]) + gk1@[2] * ((- 2432) * gk2@[4] +
   15872 * gk2@[2] * gq@[2] + 21649 * gq@[4])) / gq@[1] + 4 * gk1@[1] * gk2@[5] * gq@[1] * (5655 * gk1@[10] *
   gk2@[6] + 7425 * gk2@[8] * gq@[8] + 45 * gk1@[4] * (865 * gk2@[8] * gq@[4] + 148 * gk2@[6] * gq@[6]) + gk1@[6] *
   gk2@[2] * (5655 * gk2@[8] - 120370 * gk2@[6] * gq@[2] + 9532 * gk2@[4] * gq@[4] + 6660 * gk2@[2] * gq@[6] - 6885
   * gq@[8]) + 5 * gk1@[8] * (2820 * gk2@[8] - 24074 * gk2@[6] * gq@[2] + 7785 * gk2@[4] * gq@[4] - 5967 * gk2@[2] *
   gq@[6] + 1485 * gq@[8]) - 2295 * gk1@[2] * (13 * gk2@[8] * gq@[6] + 3 * gk2@[6] * gq@[8])) - 15 * gk2@[11] *
   (gk1@[1] - gq@[1]) * (gk1@[1] - gq@[1]) * (gk1@[1] + gq@[1]) * (gk1@[1] + gq@[1]) * (601 * gk1@[8] + 495 *
   gk2@[2] * gq@[6] + gk1@[6] * (390 * gk2@[2] + 179 * gq@[2]) + gk1@[4] * (391 * gk2@[2] * gq@[2] - 321 * gq@[4]) -
   3 * gk1@[2] * (388 * gk2@[2] * gq@[4] + 153 * gq@[6])) * 2 * (GLog ((GAbs ((gk1@[1] + gq@[1]) / (gk1@[1] -
   gq@[1]))))) - 15 * gk1@[7] * gk2@[4] * (gk2@[1] - gq@[1]) * (gk2@[1] - gq@[1]) * (gk2@[1] + gq@[1]) * (gk2@[1] +
   gq@[1]) * (601 * gk2@[8] + 179 * gk2@[6] * gq@[2] - 321 * gk2@[4] * gq@[4] - 459 * gk2@[2] * gq@[6] + gk1@[2] *
   (390 * gk2@[6] + 391 * gk2@[4] * gq@[2] - 1164 * gk2@[2] * gq@[4] + 495 * gq@[6])) * 2 * (GLog ((GAbs ((gk2@[1] +
   gq@[1]) / (gk2@[1] - gq@[1]))))) + 105 * gk1@[10] * gk2@[11] * gq@[1] * (GPower (gk2@[2] - gq@[2]) 6) * (GSqrt
   (gq@[2] * (gk1@[2] - gk2@[2] + gq@[2]))) * ((- 4) * gk1@[1] * (GSqrt (gq@[2] * (gk1@[2] - gk2@[2] + gq@[2]))) *
   ((- 10) * gk1@[2] + 17 * ((- gk2@[2]) + gq@[2])) + gq@[1] * (16 * gk1@[4] - 60 * gk1@[2] * (gk2@[2] - gq@[2]) +
   17 * (gk2@[2] - gq@[2]) * (gk2@[2] - gq@[2])) * (GLog ((2 * gk1@[2] * gq@[1] - gk2@[2] * gq@[1] + gq@[3] + 2 *
   gk1@[1] * (GSqrt (gq@[2] * (gk1@[2] - gk2@[2] + gq@[2])))) / (2 * gk1@[2] * gq@[1] - gk2@[2] * gq@[1] + gq@[3] -
   2 * gk1@[1] * (GSqrt (gq@[2] * (gk1@[2] - gk2@[2] + gq@[2]))))))) / ((GPower (gk1@[2] - gk2@[2] + gq@[2]) 3) *
   (GPower ((- (gk2@[2] * gq@[1])) + gq@[3]) 4)) + 105 * gk1@[7] * gk2@[14] * gq@[1] * (GPower (gk1@[2] - gq@[2]) 6)
   * (GSqrt (gq@[2] * ((- gk1@[2]) + gk2@[2] + gq@[2]))) * ((- 4) * gk2@[1] * (GSqrt (gq@[2] * ((- gk1@[2]) +
   gk2@[2] + gq@[2]))) * ((- 17) * gk1@[2] - 10 * gk2@[2] + 17 * gq@[2]) + gq@[1] * (17 * gk1@[4] + 16 * gk2@[4] +
   60 * gk2@[2] * gq@[2] + 17 * gq@[4] - 2 * gk1@[2] * (30 * gk2@[2] + 17 * gq@[2])) * (GLog ((- (((- (gk1@[2] *
   gq@[1])) + 2 * gk2@[2] * gq@[1] + gq@[3] + 2 * gk2@[1] * (GSqrt (gq@[2] * ((- gk1@[2]) + gk2@[2] + gq@[2])))) /
   (gk1@[2] * gq@[1] - 2 * gk2@[2] * gq@[1] - gq@[3] + 2 * gk2@[1] * (GSqrt (gq@[2] * ((- gk1@[2]) + gk2@[2] +
   gq@[2]))))))))) / ((GPower ((- gk1@[2]) + gk2@[2] + gq@[2]) 3) * (GPower ((- (gk1@[2] * gq@[1])) + gq@[3]) 4))) /
   (6209280 * gk1@[9] * gk2@[9] * gq@[5]).

(** src/gamma2d_1loop.c:524-549, kernel_poly[0] of kernel_gamma2d_reg3rd *)
Definition g2d_reg3rd_poly0 : gexpr :=
  ((- 210) * gk1@[11] * gk2@[9] * gk3@[8] - 210 * gk1@[9] * gk2@[11] * gk3@[8] - 540 * gk1@[9] * gk2@[9] * gk3@[10])
   * GPi - (1050 * gk1@[11] * gk2@[9] * gk3@[7] + 1050 * gk1@[9] * gk2@[11] * gk3@[7] + 840 * gk1@[11] * gk2@[8] *
   gk3@[8] + 840 * gk1@[10] * gk2@[9] * gk3@[8] + 840 * gk1@[9] * gk2@[10] * gk3@[8] + 840 * gk1@[8] * gk2@[11] *
   gk3@[8] + 2700 * gk1@[9] * gk2@[9] * gk3@[9] + 2160 * gk1@[9] * gk2@[8] * gk3@[10] + 2160 * gk1@[8] * gk2@[9] *
   gk3@[10]) * GPi * gq@[1] - ((- 140) * gk1@[13] * gk2@[7] * gk3@[6] + 3045 * gk1@[11] * gk2@[9] * gk3@[6] + 3045 *
   gk1@[9] * gk2@[11] * gk3@[6] - 140 * gk1@[7] * gk2@[13] * gk3@[6] + 4200 * gk1@[11] * gk2@[8] * gk3@[7] + 4200 *
   gk1@[10] * gk2@[9] * gk3@[7] + 4200 * gk1@[9] * gk2@[10] * gk3@[7] + 4200 * gk1@[8] * gk2@[11] * gk3@[7] - 22050
   * gk1@[11] * gk2@[7] * gk3@[8] + 3360 * gk1@[10] * gk2@[8] * gk3@[8] + 54120 * gk1@[9] * gk2@[9] * gk3@[8] + 3360
   * gk1@[8] * gk2@[10] * gk3@[8] - 22050 * gk1@[7] * gk2@[11] * gk3@[8] + 10800 * gk1@[9] * gk2@[8] * gk3@[9] +
   10800 * gk1@[8] * gk2@[9] * gk3@[9] + 16560 * gk1@[9] * gk2@[7] * gk3@[10] + 8640 * gk1@[8] * gk2@[8] * gk3@[10]
   + 16560 * gk1@[7] * gk2@[9] * gk3@[10] + 8880 * gk1@[7] * gk2@[7] * gk3@[12]) * GPi * gq@[2].

(** src/gamma2d_1loop.c:551-631, kernel_poly[1] of kernel_gamma2d_reg3rd *)
Definition g2d_reg3rd_poly1 : gexpr :=
  (- ((- 280) * gk1@[13] * gk2@[7] * gk3@[5] + 3045 * gk1@[11] * gk2@[9] * gk3@[5] + 3045 * gk1@[9] * gk2@[11] *
   gk3@[5] - 280 * gk1@[7] * gk2@[13] * gk3@[5] - 15320 * gk1@[13] * gk2@[6] * gk3@[6] - 1730 * gk1@[12] * gk2@[7] *
   gk3@[6] + 10650 * gk1@[11] * gk2@[8] * gk3@[6] + 29640 * gk1@[10] * gk2@[9] * gk3@[6] + 29640 * gk1@[9] *
   gk2@[10] * gk3@[6] + 10650 * gk1@[8] * gk2@[11] * gk3@[6] - 1730 * gk1@[7] * gk2@[12] * gk3@[6] - 15320 * gk1@[6]
   * gk2@[13] * gk3@[6] - 103530 * gk1@[11] * gk2@[7] * gk3@[7] + 16800 * gk1@[10] * gk2@[8] * gk3@[7] + 235560 *
   gk1@[9] * gk2@[9] * gk3@[7] + 16800 * gk1@[8] * gk2@[10] * gk3@[7] - 103530 * gk1@[7] * gk2@[11] * gk3@[7] -
   73410 * gk1@[11] * gk2@[6] * gk3@[8] - 64470 * gk1@[10] * gk2@[7] * gk3@[8] + 148680 * gk1@[9] * gk2@[8] *
   gk3@[8] + 148680 * gk1@[8] * gk2@[9] * gk3@[8] - 64470 * gk1@[7] * gk2@[10] * gk3@[8] - 73410 * gk1@[6] *
   gk2@[11] * gk3@[8] + 76500 * gk1@[9] * gk2@[7] * gk3@[9] + 43200 * gk1@[8] * gk2@[8] * gk3@[9] + 76500 * gk1@[7]
   * gk2@[9] * gk3@[9] + 43740 * gk1@[9] * gk2@[6] * gk3@[10] + 48210 * gk1@[8] * gk2@[7] * gk3@[10] + 48210 *
   gk1@[7] * gk2@[8] * gk3@[10] + 43740 * gk1@[6] * gk2@[9] * gk3@[10] + 43560 * gk1@[7] * gk2@[7] * gk3@[11] +
   30990 * gk1@[7] * gk2@[6] * gk3@[12] + 30990 * gk1@[6] * gk2@[7] * gk3@[12])) * GPi * gq@[3] - ((- 1750) *
   gk1@[13] * gk2@[7] * gk3@[4] + 9520 * gk1@[11] * gk2@[9] * gk3@[4] + 9520 * gk1@[9] * gk2@[11] * gk3@[4] - 1750 *
   gk1@[7] * gk2@[13] * gk3@[4] - 74920 * gk1@[13] * gk2@[6] * gk3@[5] - 6970 * gk1@[12] * gk2@[7] * gk3@[5] + 4530
   * gk1@[11] * gk2@[8] * gk3@[5] + 99480 * gk1@[10] * gk2@[9] * gk3@[5] + 99480 * gk1@[9] * gk2@[10] * gk3@[5] +
   4530 * gk1@[8] * gk2@[11] * gk3@[5] - 6970 * gk1@[7] * gk2@[12] * gk3@[5] - 74920 * gk1@[6] * gk2@[13] * gk3@[5]
   - 2160 * gk1@[13] * gk2@[5] * gk3@[6] - 65960 * gk1@[12] * gk2@[6] * gk3@[6] - 111003 * gk1@[11] * gk2@[7] *
   gk3@[6] + 112440 * gk1@[10] * gk2@[8] * gk3@[6] + 292656 * gk1@[9] * gk2@[9] * gk3@[6] + 112440 * gk1@[8] *
   gk2@[10] * gk3@[6] - 111003 * gk1@[7] * gk2@[11] * gk3@[6] - 65960 * gk1@[6] * gk2@[12] * gk3@[6] - 2160 *
   gk1@[5] * gk2@[13] * gk3@[6] - 340170 * gk1@[11] * gk2@[6] * gk3@[7] - 295470 * gk1@[10] * gk2@[7] * gk3@[7] +
   603240 * gk1@[9] * gk2@[8] * gk3@[7] + 603240 * gk1@[8] * gk2@[9] * gk3@[7] - 295470 * gk1@[7] * gk2@[10] *
   gk3@[7] - 340170 * gk1@[6] * gk2@[11] * gk3@[7] - 131130 * gk1@[11] * gk2@[5] * gk3@[8] - 198720 * gk1@[10] *
   gk2@[6] * gk3@[8] + 288522 * gk1@[9] * gk2@[7] * gk3@[8] + 323520 * gk1@[8] * gk2@[8] * gk3@[8] + 288522 *
   gk1@[7] * gk2@[9] * gk3@[8] - 198720 * gk1@[6] * gk2@[10] * gk3@[8] - 131130 * gk1@[5] * gk2@[11] * gk3@[8] +
   193500 * gk1@[9] * gk2@[6] * gk3@[9] + 215850 * gk1@[8] * gk2@[7] * gk3@[9] + 215850 * gk1@[7] * gk2@[8] *
   gk3@[9] + 193500 * gk1@[6] * gk2@[9] * gk3@[9] + 81940 * gk1@[9] * gk2@[5] * gk3@[10] + 102840 * gk1@[8] *
   gk2@[6] * gk3@[10] + 294336 * gk1@[7] * gk2@[7] * gk3@[10] + 102840 * gk1@[6] * gk2@[8] * gk3@[10] + 81940 *
   gk1@[5] * gk2@[9] * gk3@[10] + 151590 * gk1@[7] * gk2@[6] * gk3@[11] + 151590 * gk1@[6] * gk2@[7] * gk3@[11] +
   54600 * gk1@[7] * gk2@[5] * gk3@[12] + 105840 * gk1@[6] * gk2@[6] * gk3@[12] + 54600 * gk1@[5] * gk2@[7] *
   gk3@[12]) * GPi * gq@[4].

(** src/gamma2d_1loop.c:633-776, kernel_poly[2] of kernel_gamma2d_reg3rd *)
Definition g2d_reg3rd_poly2 : gexpr :=
  (- ((- 980) * gk1@[13] * gk2@[7] * gk3@[3] - 8050 * gk1@[11] * gk2@[9] * gk3@[3] - 8050 * gk1@[9] * gk2@[11] *
   gk3@[3] - 980 * gk1@[7] * gk2@[13] * gk3@[3] - 154600 * gk1@[13] * gk2@[6] * gk3@[4] - 18700 * gk1@[12] * gk2@[7]
   * gk3@[4] + 22780 * gk1@[11] * gk2@[8] * gk3@[4] + 212680 * gk1@[10] * gk2@[9] * gk3@[4] + 212680 * gk1@[9] *
   gk2@[10] * gk3@[4] + 22780 * gk1@[8] * gk2@[11] * gk3@[4] - 18700 * gk1@[7] * gk2@[12] * gk3@[4] - 154600 *
   gk1@[6] * gk2@[13] * gk3@[4] - 8280 * gk1@[13] * gk2@[5] * gk3@[5] - 323080 * gk1@[12] * gk2@[6] * gk3@[5] +
   304585 * gk1@[11] * gk2@[7] * gk3@[5] + 367320 * gk1@[10] * gk2@[8] * gk3@[5] - 529280 * gk1@[9] * gk2@[9] *
   gk3@[5] + 367320 * gk1@[8] * gk2@[10] * gk3@[5] + 304585 * gk1@[7] * gk2@[11] * gk3@[5] - 323080 * gk1@[6] *
   gk2@[12] * gk3@[5] - 8280 * gk1@[5] * gk2@[13] * gk3@[5] - 75710 * gk1@[13] * gk2@[4] * gk3@[6] - 15660 *
   gk1@[12] * gk2@[5] * gk3@[6] - 213702 * gk1@[11] * gk2@[6] * gk3@[6] - 43862 * gk1@[10] * gk2@[7] * gk3@[6] +
   304374 * gk1@[9] * gk2@[8] * gk3@[6] + 304374 * gk1@[8] * gk2@[9] * gk3@[6] - 43862 * gk1@[7] * gk2@[10] *
   gk3@[6] - 213702 * gk1@[6] * gk2@[11] * gk3@[6] - 15660 * gk1@[5] * gk2@[12] * gk3@[6] - 75710 * gk1@[4] *
   gk2@[13] * gk3@[6] - 615330 * gk1@[11] * gk2@[5] * gk3@[7] - 886080 * gk1@[10] * gk2@[6] * gk3@[7] + 739260 *
   gk1@[9] * gk2@[7] * gk3@[7] + 1056960 * gk1@[8] * gk2@[8] * gk3@[7] + 739260 * gk1@[7] * gk2@[9] * gk3@[7] -
   886080 * gk1@[6] * gk2@[10] * gk3@[7] - 615330 * gk1@[5] * gk2@[11] * gk3@[7] + 41790 * gk1@[11] * gk2@[4] *
   gk3@[8] - 382140 * gk1@[10] * gk2@[5] * gk3@[8] - 99352 * gk1@[9] * gk2@[6] * gk3@[8] + 1042858 * gk1@[8] *
   gk2@[7] * gk3@[8] + 1042858 * gk1@[7] * gk2@[8] * gk3@[8] - 99352 * gk1@[6] * gk2@[9] * gk3@[8] - 382140 *
   gk1@[5] * gk2@[10] * gk3@[8] + 41790 * gk1@[4] * gk2@[11] * gk3@[8] + 371900 * gk1@[9] * gk2@[5] * gk3@[9] +
   413400 * gk1@[8] * gk2@[6] * gk3@[9] + 1038220 * gk1@[7] * gk2@[7] * gk3@[9] + 413400 * gk1@[6] * gk2@[8] *
   gk3@[9] + 371900 * gk1@[5] * gk2@[9] * gk3@[9] + 16270 * gk1@[9] * gk2@[4] * gk3@[10] + 219580 * gk1@[8] *
   gk2@[5] * gk3@[10] + 677194 * gk1@[7] * gk2@[6] * gk3@[10] + 677194 * gk1@[6] * gk2@[7] * gk3@[10] + 219580 *
   gk1@[5] * gk2@[8] * gk3@[10] + 16270 * gk1@[4] * gk2@[9] * gk3@[10] + 267960 * gk1@[7] * gk2@[5] * gk3@[11] +
   515760 * gk1@[6] * gk2@[6] * gk3@[11] + 267960 * gk1@[5] * gk2@[7] * gk3@[11] + 20650 * gk1@[7] * gk2@[4] *
   gk3@[12] + 191220 * gk1@[6] * gk2@[5] * gk3@[12] + 191220 * gk1@[5] * gk2@[6] * gk3@[12] + 20650 * gk1@[4] *
   gk2@[7] * gk3@[12])) * GPi * gq@[5] - ((- 3780) * gk1@[13] * gk2@[7] * gk3@[2] - 945 * gk1@[11] * gk2@[9] *
   gk3@[2] - 945 * gk1@[9] * gk2@[11] * gk3@[2] - 3780 * gk1@[7] * gk2@[13] * gk3@[2] - 151520 * gk1@[13] * gk2@[6]
   * gk3@[3] - 15620 * gk1@[12] * gk2@[7] * gk3@[3] - 47500 * gk1@[11] * gk2@[8] * gk3@[3] + 142400 * gk1@[10] *
   gk2@[9] * gk3@[3] + 142400 * gk1@[9] * gk2@[10] * gk3@[3] - 47500 * gk1@[8] * gk2@[11] * gk3@[3] - 15620 *
   gk1@[7] * gk2@[12] * gk3@[3] - 151520 * gk1@[6] * gk2@[13] * gk3@[3] - 23700 * gk1@[13] * gk2@[5] * gk3@[4] -
   665200 * gk1@[12] * gk2@[6] * gk3@[4] + 946640 * gk1@[11] * gk2@[7] * gk3@[4] + 789520 * gk1@[10] * gk2@[8] *
   gk3@[4] - 1678160 * gk1@[9] * gk2@[9] * gk3@[4] + 789520 * gk1@[8] * gk2@[10] * gk3@[4] + 946640 * gk1@[7] *
   gk2@[11] * gk3@[4] - 665200 * gk1@[6] * gk2@[12] * gk3@[4] - 23700 * gk1@[5] * gk2@[13] * gk3@[4] - 376870 *
   gk1@[13] * gk2@[4] * gk3@[5] - 68220 * gk1@[12] * gk2@[5] * gk3@[5] + 1853890 * gk1@[11] * gk2@[6] * gk3@[5] +
   2261490 * gk1@[10] * gk2@[7] * gk3@[5] - 3660770 * gk1@[9] * gk2@[8] * gk3@[5] - 3660770 * gk1@[8] * gk2@[9] *
   gk3@[5] + 2261490 * gk1@[7] * gk2@[10] * gk3@[5] + 1853890 * gk1@[6] * gk2@[11] * gk3@[5] - 68220 * gk1@[5] *
   gk2@[12] * gk3@[5] - 376870 * gk1@[4] * gk2@[13] * gk3@[5] - 44780 * gk1@[13] * gk2@[3] * gk3@[6] - 307520 *
   gk1@[12] * gk2@[4] * gk3@[6] - 904953 * gk1@[11] * gk2@[5] * gk3@[6] + 691792 * gk1@[10] * gk2@[6] * gk3@[6] +
   983773 * gk1@[9] * gk2@[7] * gk3@[6] - 2186304 * gk1@[8] * gk2@[8] * gk3@[6] + 983773 * gk1@[7] * gk2@[9] *
   gk3@[6] + 691792 * gk1@[6] * gk2@[10] * gk3@[6] - 904953 * gk1@[5] * gk2@[11] * gk3@[6] - 307520 * gk1@[4] *
   gk2@[12] * gk3@[6] - 44780 * gk1@[3] * gk2@[13] * gk3@[6] + 235830 * gk1@[11] * gk2@[4] * gk3@[7] - 1749420 *
   gk1@[10] * gk2@[5] * gk3@[7] - 2141360 * gk1@[9] * gk2@[6] * gk3@[7] + 2987690 * gk1@[8] * gk2@[7] * gk3@[7] +
   2987690 * gk1@[7] * gk2@[8] * gk3@[7] - 2141360 * gk1@[6] * gk2@[9] * gk3@[7] - 1749420 * gk1@[5] * gk2@[10] *
   gk3@[7] + 235830 * gk1@[4] * gk2@[11] * gk3@[7] + 59730 * gk1@[11] * gk2@[3] * gk3@[8] + 262080 * gk1@[10] *
   gk2@[4] * gk3@[8] - 314308 * gk1@[9] * gk2@[5] * gk3@[8] + 133872 * gk1@[8] * gk2@[6] * gk3@[8] + 3788204 *
   gk1@[7] * gk2@[7] * gk3@[8] + 133872 * gk1@[6] * gk2@[8] * gk3@[8] - 314308 * gk1@[5] * gk2@[9] * gk3@[8] +
   262080 * gk1@[4] * gk2@[10] * gk3@[8] + 59730 * gk1@[3] * gk2@[11] * gk3@[8] + 56150 * gk1@[9] * gk2@[4] *
   gk3@[9] + 946700 * gk1@[8] * gk2@[5] * gk3@[9] + 1959330 * gk1@[7] * gk2@[6] * gk3@[9] + 1959330 * gk1@[6] *
   gk2@[7] * gk3@[9] + 946700 * gk1@[5] * gk2@[8] * gk3@[9] + 56150 * gk1@[4] * gk2@[9] * gk3@[9] - 16280 * gk1@[9]
   * gk2@[3] * gk3@[10] - 7040 * gk1@[8] * gk2@[4] * gk3@[10] + 1125136 * gk1@[7] * gk2@[5] * gk3@[10] + 1392176 *
   gk1@[6] * gk2@[6] * gk3@[10] + 1125136 * gk1@[5] * gk2@[7] * gk3@[10] - 7040 * gk1@[4] * gk2@[8] * gk3@[10] -
   16280 * gk1@[3] * gk2@[9] * gk3@[10] + 99890 * gk1@[7] * gk2@[4] * gk3@[11] + 935940 * gk1@[6] * gk2@[5] *
   gk3@[11] + 935940 * gk1@[5] * gk2@[6] * gk3@[11] + 99890 * gk1@[4] * gk2@[7] * gk3@[11] + 2080 * gk1@[7] *
   gk2@[3] * gk3@[12] + 64480 * gk1@[6] * gk2@[4] * gk3@[12] + 335520 * gk1@[5] * gk2@[5] * gk3@[12] + 64480 *
   gk1@[4] * gk2@[6] * gk3@[12] + 2080 * gk1@[3] * gk2@[7] * gk3@[12]) * GPi * gq@[6].

(** src/gamma2d_1loop.c:778-874, kernel_poly[3] of kernel_gamma2d_reg3rd *)
Definition g2d_reg3rd_poly3 : gexpr :=
  (- (1260 * gk1@[13] * gk2@[7] * gk3@[1] - 2205 * gk1@[11] * gk2@[9] * gk3@[1] - 2205 * gk1@[9] * gk2@[11] *
   gk3@[1] + 1260 * gk1@[7] * gk2@[13] * gk3@[1] - 88920 * gk1@[13] * gk2@[6] * gk3@[2] - 20970 * gk1@[12] * gk2@[7]
   * gk3@[2] - 11430 * gk1@[11] * gk2@[8] * gk3@[2] + 83520 * gk1@[10] * gk2@[9] * gk3@[2] + 83520 * gk1@[9] *
   gk2@[10] * gk3@[2] - 11430 * gk1@[8] * gk2@[11] * gk3@[2] - 20970 * gk1@[7] * gk2@[12] * gk3@[2] - 88920 *
   gk1@[6] * gk2@[13] * gk3@[2] - 19080 * gk1@[13] * gk2@[5] * gk3@[3] - 652880 * gk1@[12] * gk2@[6] * gk3@[3] +
   788440 * gk1@[11] * gk2@[7] * gk3@[3] + 508400 * gk1@[10] * gk2@[8] * gk3@[3] - 1728280 * gk1@[9] * gk2@[9] *
   gk3@[3] + 508400 * gk1@[8] * gk2@[10] * gk3@[3] + 788440 * gk1@[7] * gk2@[11] * gk3@[3] - 652880 * gk1@[6] *
   gk2@[12] * gk3@[3] - 19080 * gk1@[5] * gk2@[13] * gk3@[3] - 758500 * gk1@[13] * gk2@[4] * gk3@[4] - 165000 *
   gk1@[12] * gk2@[5] * gk3@[4] + 4704210 * gk1@[11] * gk2@[6] * gk3@[4] + 5540710 * gk1@[10] * gk2@[7] * gk3@[4] -
   8914540 * gk1@[9] * gk2@[8] * gk3@[4] - 8914540 * gk1@[8] * gk2@[9] * gk3@[4] + 5540710 * gk1@[7] * gk2@[10] *
   gk3@[4] + 4704210 * gk1@[6] * gk2@[11] * gk3@[4] - 165000 * gk1@[5] * gk2@[12] * gk3@[4] - 758500 * gk1@[4] *
   gk2@[13] * gk3@[4] - 223480 * gk1@[13] * gk2@[3] * gk3@[5] - 1530880 * gk1@[12] * gk2@[4] * gk3@[5] + 718335 *
   gk1@[11] * gk2@[5] * gk3@[5] + 11318160 * gk1@[10] * gk2@[6] * gk3@[5] - 440535 * gk1@[9] * gk2@[7] * gk3@[5] -
   20511680 * gk1@[8] * gk2@[8] * gk3@[5] - 440535 * gk1@[7] * gk2@[9] * gk3@[5] + 11318160 * gk1@[6] * gk2@[10] *
   gk3@[5] + 718335 * gk1@[5] * gk2@[11] * gk3@[5] - 1530880 * gk1@[4] * gk2@[12] * gk3@[5] - 223480 * gk1@[3] *
   gk2@[13] * gk3@[5] + 52860 * gk1@[13] * gk2@[2] * gk3@[6] - 180290 * gk1@[12] * gk2@[3] * gk3@[6] - 132642 *
   gk1@[11] * gk2@[4] * gk3@[6] - 1803612 * gk1@[10] * gk2@[5] * gk3@[6] - 1894968 * gk1@[9] * gk2@[6] * gk3@[6] +
   1490722 * gk1@[8] * gk2@[7] * gk3@[6] + 1490722 * gk1@[7] * gk2@[8] * gk3@[6] - 1894968 * gk1@[6] * gk2@[9] *
   gk3@[6] - 1803612 * gk1@[5] * gk2@[10] * gk3@[6] - 132642 * gk1@[4] * gk2@[11] * gk3@[6] - 180290 * gk1@[3] *
   gk2@[12] * gk3@[6] + 52860 * gk1@[2] * gk2@[13] * gk3@[6] + 305370 * gk1@[11] * gk2@[3] * gk3@[7] + 1417920 *
   gk1@[10] * gk2@[4] * gk3@[7] - 4624440 * gk1@[9] * gk2@[5] * gk3@[7] - 3561840 * gk1@[8] * gk2@[6] * gk3@[7] +
   10024860 * gk1@[7] * gk2@[7] * gk3@[7] - 3561840 * gk1@[6] * gk2@[8] * gk3@[7] - 4624440 * gk1@[5] * gk2@[9] *
   gk3@[7] + 1417920 * gk1@[4] * gk2@[10] * gk3@[7] + 305370 * gk1@[3] * gk2@[11] * gk3@[7] - 100710 * gk1@[11] *
   gk2@[2] * gk3@[8] + 262650 * gk1@[10] * gk2@[3] * gk3@[8] + 372928 * gk1@[9] * gk2@[4] * gk3@[8] + 277988 *
   gk1@[8] * gk2@[5] * gk3@[8] + 3941126 * gk1@[7] * gk2@[6] * gk3@[8] + 3941126 * gk1@[6] * gk2@[7] * gk3@[8] +
   277988 * gk1@[5] * gk2@[8] * gk3@[8] + 372928 * gk1@[4] * gk2@[9] * gk3@[8] + 262650 * gk1@[3] * gk2@[10] *
   gk3@[8] - 100710 * gk1@[2] * gk2@[11] * gk3@[8] - 87700 * gk1@[9] * gk2@[3] * gk3@[9] - 136000 * gk1@[8] *
   gk2@[4] * gk3@[9] + 3192620 * gk1@[7] * gk2@[5] * gk3@[9] + 2483120 * gk1@[6] * gk2@[6] * gk3@[9] + 3192620 *
   gk1@[5] * gk2@[7] * gk3@[9] - 136000 * gk1@[4] * gk2@[8] * gk3@[9] - 87700 * gk1@[3] * gk2@[9] * gk3@[9] + 42840
   * gk1@[9] * gk2@[2] * gk3@[10] - 83150 * gk1@[8] * gk2@[3] * gk3@[10] + 359494 * gk1@[7] * gk2@[4] * gk3@[10] +
   2257544 * gk1@[6] * gk2@[5] * gk3@[10] + 2257544 * gk1@[5] * gk2@[6] * gk3@[10] + 359494 * gk1@[4] * gk2@[7] *
   gk3@[10] - 83150 * gk1@[3] * gk2@[8] * gk3@[10] + 42840 * gk1@[2] * gk2@[9] * gk3@[10] + 9560 * gk1@[7] * gk2@[3]
   * gk3@[11] + 308960 * gk1@[6] * gk2@[4] * gk3@[11] + 1647360 * gk1@[5] * gk2@[5] * gk3@[11] + 308960 * gk1@[4] *
   gk2@[6] * gk3@[11] + 9560 * gk1@[3] * gk2@[7] * gk3@[11] + 5010 * gk1@[7] * gk2@[2] * gk3@[12] + 3790 * gk1@[6] *
   gk2@[3] * gk3@[12] + 129180 * gk1@[5] * gk2@[4] * gk3@[12] + 129180 * gk1@[4] * gk2@[5] * gk3@[12] + 3790 *
   gk1@[3] * gk2@[6] * gk3@[12] + 5010 * gk1@[2] * gk2@[7] * gk3@[12])) * GPi * gq@[7].

(** src/gamma2d_1loop.c:876-986, kernel_poly[4] of kernel_gamma2d_reg3rd *)
Definition g2d_reg3rd_poly4 : gexpr :=
  (- (5670 * gk1@[13] * gk2@[7] - 5670 * gk1@[11] * gk2@[9] - 5670 * gk1@[9] * gk2@[11] + 5670 * gk1@[7] * gk2@[13]
   - 9720 * gk1@[13] * gk2@[6] * gk3@[1] + 3870 * gk1@[12] * gk2@[7] * gk3@[1] - 10350 * gk1@[11] * gk2@[8] *
   gk3@[1] + 8640 * gk1@[10] * gk2@[9] * gk3@[1] + 8640 * gk1@[9] * gk2@[10] * gk3@[1] - 10350 * gk1@[8] * gk2@[11]
   * gk3@[1] + 3870 * gk1@[7] * gk2@[12] * gk3@[1] - 9720 * gk1@[6] * gk2@[13] * gk3@[1] - 29280 * gk1@[13] *
   gk2@[5] * gk3@[2] - 379080 * gk1@[12] * gk2@[6] * gk3@[2] + 314805 * gk1@[11] * gk2@[7] * gk3@[2] + 303480 *
   gk1@[10] * gk2@[8] * gk3@[2] - 683820 * gk1@[9] * gk2@[9] * gk3@[2] + 303480 * gk1@[8] * gk2@[10] * gk3@[2] +
   314805 * gk1@[7] * gk2@[11] * gk3@[2] - 379080 * gk1@[6] * gk2@[12] * gk3@[2] - 29280 * gk1@[5] * gk2@[13] *
   gk3@[2] - 755420 * gk1@[13] * gk2@[4] * gk3@[3] - 146520 * gk1@[12] * gk2@[5] * gk3@[3] + 4346850 * gk1@[11] *
   gk2@[6] * gk3@[3] + 4797590 * gk1@[10] * gk2@[7] * gk3@[3] - 8509220 * gk1@[9] * gk2@[8] * gk3@[3] - 8509220 *
   gk1@[8] * gk2@[9] * gk3@[3] + 4797590 * gk1@[7] * gk2@[10] * gk3@[3] + 4346850 * gk1@[6] * gk2@[11] * gk3@[3] -
   146520 * gk1@[5] * gk2@[12] * gk3@[3] - 755420 * gk1@[4] * gk2@[13] * gk3@[3] - 448150 * gk1@[13] * gk2@[3] *
   gk3@[4] - 3080800 * gk1@[12] * gk2@[4] * gk3@[4] + 3213640 * gk1@[11] * gk2@[5] * gk3@[4] + 25293440 * gk1@[10] *
   gk2@[6] * gk3@[4] - 2619000 * gk1@[9] * gk2@[7] * gk3@[4] - 43853760 * gk1@[8] * gk2@[8] * gk3@[4] - 2619000 *
   gk1@[7] * gk2@[9] * gk3@[4] + 25293440 * gk1@[6] * gk2@[10] * gk3@[4] + 3213640 * gk1@[5] * gk2@[11] * gk3@[4] -
   3080800 * gk1@[4] * gk2@[12] * gk3@[4] - 448150 * gk1@[3] * gk2@[13] * gk3@[4] + 264300 * gk1@[13] * gk2@[2] *
   gk3@[5] - 899770 * gk1@[12] * gk2@[3] * gk3@[5] - 2333690 * gk1@[11] * gk2@[4] * gk3@[5] + 6208740 * gk1@[10] *
   gk2@[5] * gk3@[5] + 10942680 * gk1@[9] * gk2@[6] * gk3@[5] - 15817350 * gk1@[8] * gk2@[7] * gk3@[5] - 15817350 *
   gk1@[7] * gk2@[8] * gk3@[5] + 10942680 * gk1@[6] * gk2@[9] * gk3@[5] + 6208740 * gk1@[5] * gk2@[10] * gk3@[5] -
   2333690 * gk1@[4] * gk2@[11] * gk3@[5] - 899770 * gk1@[3] * gk2@[12] * gk3@[5] + 264300 * gk1@[2] * gk2@[13] *
   gk3@[5] + 3960 * gk1@[13] * gk2@[1] * gk3@[6] + 211440 * gk1@[12] * gk2@[2] * gk3@[6] + 341967 * gk1@[11] *
   gk2@[3] * gk3@[6] + 2153992 * gk1@[10] * gk2@[4] * gk3@[6] - 8735142 * gk1@[9] * gk2@[5] * gk3@[6] - 7746192 *
   gk1@[8] * gk2@[6] * gk3@[6] + 14450810 * gk1@[7] * gk2@[7] * gk3@[6] - 7746192 * gk1@[6] * gk2@[8] * gk3@[6] -
   8735142 * gk1@[5] * gk2@[9] * gk3@[6] + 2153992 * gk1@[4] * gk2@[10] * gk3@[6] + 341967 * gk1@[3] * gk2@[11] *
   gk3@[6] + 211440 * gk1@[2] * gk2@[12] * gk3@[6] + 3960 * gk1@[1] * gk2@[13] * gk3@[6] - 503550 * gk1@[11] *
   gk2@[2] * gk3@[7] + 1340130 * gk1@[10] * gk2@[3] * gk3@[7] + 1372600 * gk1@[9] * gk2@[4] * gk3@[7] - 7300860 *
   gk1@[8] * gk2@[5] * gk3@[7] + 3942230 * gk1@[7] * gk2@[6] * gk3@[7] + 3942230 * gk1@[6] * gk2@[7] * gk3@[7] -
   7300860 * gk1@[5] * gk2@[8] * gk3@[7] + 1372600 * gk1@[4] * gk2@[9] * gk3@[7] + 1340130 * gk1@[3] * gk2@[10] *
   gk3@[7] - 503550 * gk1@[2] * gk2@[11] * gk3@[7] - 11880 * gk1@[11] * gk2@[1] * gk3@[8] - 402840 * gk1@[10] *
   gk2@[2] * gk3@[8] + 178912 * gk1@[9] * gk2@[3] * gk3@[8] - 26608 * gk1@[8] * gk2@[4] * gk3@[8] + 4885714 *
   gk1@[7] * gk2@[5] * gk3@[8] + 3813024 * gk1@[6] * gk2@[6] * gk3@[8] + 4885714 * gk1@[5] * gk2@[7] * gk3@[8] -
   26608 * gk1@[4] * gk2@[8] * gk3@[8] + 178912 * gk1@[3] * gk2@[9] * gk3@[8] - 402840 * gk1@[2] * gk2@[10] *
   gk3@[8] - 11880 * gk1@[1] * gk2@[11] * gk3@[8] + 214200 * gk1@[9] * gk2@[2] * gk3@[9] - 440950 * gk1@[8] *
   gk2@[3] * gk3@[9] + 809630 * gk1@[7] * gk2@[4] * gk3@[9] + 3398680 * gk1@[6] * gk2@[5] * gk3@[9] + 3398680 *
   gk1@[5] * gk2@[6] * gk3@[9] + 809630 * gk1@[4] * gk2@[7] * gk3@[9] - 440950 * gk1@[3] * gk2@[8] * gk3@[9] +
   214200 * gk1@[2] * gk2@[9] * gk3@[9] + 11880 * gk1@[9] * gk2@[1] * gk3@[10] + 171360 * gk1@[8] * gk2@[2] *
   gk3@[10] - 74624 * gk1@[7] * gk2@[3] * gk3@[10] + 717576 * gk1@[6] * gk2@[4] * gk3@[10] + 3463436 * gk1@[5] *
   gk2@[5] * gk3@[10] + 717576 * gk1@[4] * gk2@[6] * gk3@[10] - 74624 * gk1@[3] * gk2@[7] * gk3@[10] + 171360 *
   gk1@[2] * gk2@[8] * gk3@[10] + 11880 * gk1@[1] * gk2@[9] * gk3@[10] + 25050 * gk1@[7] * gk2@[2] * gk3@[11] +
   15590 * gk1@[6] * gk2@[3] * gk3@[11] + 625740 * gk1@[5] * gk2@[4] * gk3@[11] + 625740 * gk1@[4] * gk2@[5] *
   gk3@[11] + 15590 * gk1@[3] * gk2@[6] * gk3@[11] + 25050 * gk1@[2] * gk2@[7] * gk3@[11] - 3960 * gk1@[7] * gk2@[1]
   * gk3@[12] + 20040 * gk1@[6] * gk2@[2] * gk3@[12] + 13800 * gk1@[5] * gk2@[3] * gk3@[12] + 23120 * gk1@[4] *
   gk2@[4] * gk3@[12] + 13800 * gk1@[3] * gk2@[5] * gk3@[12] + 20040 * gk1@[2] * gk2@[6] * gk3@[12] - 3960 * gk1@[1]
   * gk2@[7] * gk3@[12])) * GPi * gq@[8].

(** src/gamma2d_1loop.c:988-1103, kernel_poly[5] of kernel_gamma2d_reg3rd *)
Definition g2d_reg3rd_poly5 : gexpr :=
  (- (22680 * gk1@[13] * gk2@[6] + 22680 * gk1@[12] * gk2@[7] - 22680 * gk1@[11] * gk2@[8] - 22680 * gk1@[10] *
   gk2@[9] - 22680 * gk1@[9] * gk2@[10] - 22680 * gk1@[8] * gk2@[11] + 22680 * gk1@[7] * gk2@[12] + 22680 * gk1@[6]
   * gk2@[13] + 6240 * gk1@[13] * gk2@[5] * gk3@[1] - 43560 * gk1@[12] * gk2@[6] * gk3@[1] + 87657 * gk1@[11] *
   gk2@[7] * gk3@[1] + 28440 * gk1@[10] * gk2@[8] * gk3@[1] - 207324 * gk1@[9] * gk2@[9] * gk3@[1] + 28440 * gk1@[8]
   * gk2@[10] * gk3@[1] + 87657 * gk1@[7] * gk2@[11] * gk3@[1] - 43560 * gk1@[6] * gk2@[12] * gk3@[1] + 6240 *
   gk1@[5] * gk2@[13] * gk3@[1] - 390870 * gk1@[13] * gk2@[4] * gk3@[2] - 152220 * gk1@[12] * gk2@[5] * gk3@[2] +
   1784670 * gk1@[11] * gk2@[6] * gk3@[2] + 2135070 * gk1@[10] * gk2@[7] * gk3@[2] - 3563130 * gk1@[9] * gk2@[8] *
   gk3@[2] - 3563130 * gk1@[8] * gk2@[9] * gk3@[2] + 2135070 * gk1@[7] * gk2@[10] * gk3@[2] + 1784670 * gk1@[6] *
   gk2@[11] * gk3@[2] - 152220 * gk1@[5] * gk2@[12] * gk3@[2] - 390870 * gk1@[4] * gk2@[13] * gk3@[2] - 447380 *
   gk1@[13] * gk2@[3] * gk3@[3] - 3068480 * gk1@[12] * gk2@[4] * gk3@[3] + 2845310 * gk1@[11] * gk2@[5] * gk3@[3] +
   23422720 * gk1@[10] * gk2@[6] * gk3@[3] - 2707278 * gk1@[9] * gk2@[7] * gk3@[3] - 39809280 * gk1@[8] * gk2@[8] *
   gk3@[3] - 2707278 * gk1@[7] * gk2@[9] * gk3@[3] + 23422720 * gk1@[6] * gk2@[10] * gk3@[3] + 2845310 * gk1@[5] *
   gk2@[11] * gk3@[3] - 3068480 * gk1@[4] * gk2@[12] * gk3@[3] - 447380 * gk1@[3] * gk2@[13] * gk3@[3] + 528600 *
   gk1@[13] * gk2@[2] * gk3@[4] - 1804300 * gk1@[12] * gk2@[3] * gk3@[4] - 5425270 * gk1@[11] * gk2@[4] * gk3@[4] +
   17532460 * gk1@[10] * gk2@[5] * gk3@[4] + 28922920 * gk1@[9] * gk2@[6] * gk3@[4] - 39858850 * gk1@[8] * gk2@[7] *
   gk3@[4] - 39858850 * gk1@[7] * gk2@[8] * gk3@[4] + 28922920 * gk1@[6] * gk2@[9] * gk3@[4] + 17532460 * gk1@[5] *
   gk2@[10] * gk3@[4] - 5425270 * gk1@[4] * gk2@[11] * gk3@[4] - 1804300 * gk1@[3] * gk2@[12] * gk3@[4] + 528600 *
   gk1@[2] * gk2@[13] * gk3@[4] + 19800 * gk1@[13] * gk2@[1] * gk3@[5] + 1057200 * gk1@[12] * gk2@[2] * gk3@[5] -
   679085 * gk1@[11] * gk2@[3] * gk3@[5] + 257640 * gk1@[10] * gk2@[4] * gk3@[5] - 257550 * gk1@[9] * gk2@[5] *
   gk3@[5] - 4954320 * gk1@[8] * gk2@[6] * gk3@[5] + 539566 * gk1@[7] * gk2@[7] * gk3@[5] - 4954320 * gk1@[6] *
   gk2@[8] * gk3@[5] - 257550 * gk1@[5] * gk2@[9] * gk3@[5] + 257640 * gk1@[4] * gk2@[10] * gk3@[5] - 679085 *
   gk1@[3] * gk2@[11] * gk3@[5] + 1057200 * gk1@[2] * gk2@[12] * gk3@[5] + 19800 * gk1@[1] * gk2@[13] * gk3@[5] -
   4950 * gk1@[13] * gk3@[6] + 15840 * gk1@[12] * gk2@[1] * gk3@[6] - 664290 * gk1@[11] * gk2@[2] * gk3@[6] +
   2556058 * gk1@[10] * gk2@[3] * gk3@[6] + 1376058 * gk1@[9] * gk2@[4] * gk3@[6] - 17106078 * gk1@[8] * gk2@[5] *
   gk3@[6] + 3816522 * gk1@[7] * gk2@[6] * gk3@[6] + 3816522 * gk1@[6] * gk2@[7] * gk3@[6] - 17106078 * gk1@[5] *
   gk2@[8] * gk3@[6] + 1376058 * gk1@[4] * gk2@[9] * gk3@[6] + 2556058 * gk1@[3] * gk2@[10] * gk3@[6] - 664290 *
   gk1@[2] * gk2@[11] * gk3@[6] + 15840 * gk1@[1] * gk2@[12] * gk3@[6] - 4950 * gk2@[13] * gk3@[6] - 59400 *
   gk1@[11] * gk2@[1] * gk3@[7] - 2014200 * gk1@[10] * gk2@[2] * gk3@[7] + 1585450 * gk1@[9] * gk2@[3] * gk3@[7] +
   246000 * gk1@[8] * gk2@[4] * gk3@[7] - 132740 * gk1@[7] * gk2@[5] * gk3@[7] + 2880480 * gk1@[6] * gk2@[6] *
   gk3@[7] - 132740 * gk1@[5] * gk2@[7] * gk3@[7] + 246000 * gk1@[4] * gk2@[8] * gk3@[7] + 1585450 * gk1@[3] *
   gk2@[9] * gk3@[7] - 2014200 * gk1@[2] * gk2@[10] * gk3@[7] - 59400 * gk1@[1] * gk2@[11] * gk3@[7] + 14850 *
   gk1@[11] * gk3@[8] - 47520 * gk1@[10] * gk2@[1] * gk3@[8] - 215280 * gk1@[9] * gk2@[2] * gk3@[8] - 649582 *
   gk1@[8] * gk2@[3] * gk3@[8] + 2094318 * gk1@[7] * gk2@[4] * gk3@[8] + 4030196 * gk1@[6] * gk2@[5] * gk3@[8] +
   4030196 * gk1@[5] * gk2@[6] * gk3@[8] + 2094318 * gk1@[4] * gk2@[7] * gk3@[8] - 649582 * gk1@[3] * gk2@[8] *
   gk3@[8] - 215280 * gk1@[2] * gk2@[9] * gk3@[8] - 47520 * gk1@[1] * gk2@[10] * gk3@[8] + 14850 * gk2@[11] *
   gk3@[8] + 59400 * gk1@[9] * gk2@[1] * gk3@[9] + 856800 * gk1@[8] * gk2@[2] * gk3@[9] - 496780 * gk1@[7] * gk2@[3]
   * gk3@[9] + 865320 * gk1@[6] * gk2@[4] * gk3@[9] + 3725020 * gk1@[5] * gk2@[5] * gk3@[9] + 865320 * gk1@[4] *
   gk2@[6] * gk3@[9] - 496780 * gk1@[3] * gk2@[7] * gk3@[9] + 856800 * gk1@[2] * gk2@[8] * gk3@[9] + 59400 * gk1@[1]
   * gk2@[9] * gk3@[9] - 14850 * gk1@[9] * gk3@[10] + 47520 * gk1@[8] * gk2@[1] * gk3@[10] + 320910 * gk1@[7] *
   gk2@[2] * gk3@[10] - 71646 * gk1@[6] * gk2@[3] * gk3@[10] + 1306874 * gk1@[5] * gk2@[4] * gk3@[10] + 1306874 *
   gk1@[4] * gk2@[5] * gk3@[10] - 71646 * gk1@[3] * gk2@[6] * gk3@[10] + 320910 * gk1@[2] * gk2@[7] * gk3@[10] +
   47520 * gk1@[1] * gk2@[8] * gk3@[10] - 14850 * gk2@[9] * gk3@[10] - 19800 * gk1@[7] * gk2@[1] * gk3@[11] + 100200
   * gk1@[6] * gk2@[2] * gk3@[11] + 63960 * gk1@[5] * gk2@[3] * gk3@[11] + 102160 * gk1@[4] * gk2@[4] * gk3@[11] +
   63960 * gk1@[3] * gk2@[5] * gk3@[11] + 100200 * gk1@[2] * gk2@[6] * gk3@[11] - 19800 * gk1@[1] * gk2@[7] *
   gk3@[11] + 4950 * gk1@[7] * gk3@[12] - 15840 * gk1@[6] * gk2@[1] * gk3@[12] + 30060 * gk1@[5] * gk2@[2] *
   gk3@[12] - 6550 * gk1@[4] * gk2@[3] * gk3@[12] - 6550 * gk1@[3] * gk2@[4] * gk3@[12] + 30060 * gk1@[2] * gk2@[5]
   * gk3@[12] - 15840 * gk1@[1] * gk2@[6] * gk3@[12] + 4950 * gk2@[7] * gk3@[12])) * GPi * gq@[9].

(** src/gamma2d_1loop.c:1105-1218, kernel_poly[6] of kernel_gamma2d_reg3rd *)
Definition g2d_reg3rd_poly6 : gexpr :=
  (- (34020 * gk1@[13] * gk2@[5] + 90720 * gk1@[12] * gk2@[6] + 22680 * gk1@[11] * gk2@[7] - 90720 * gk1@[10] *
   gk2@[8] - 113400 * gk1@[9] * gk2@[9] - 90720 * gk1@[8] * gk2@[10] + 22680 * gk1@[7] * gk2@[11] + 90720 * gk1@[6]
   * gk2@[12] + 34020 * gk1@[5] * gk2@[13] - 70110 * gk1@[13] * gk2@[4] * gk3@[1] + 17940 * gk1@[12] * gk2@[5] *
   gk3@[1] + 496038 * gk1@[11] * gk2@[6] * gk3@[1] + 485478 * gk1@[10] * gk2@[7] * gk3@[1] - 954546 * gk1@[9] *
   gk2@[8] * gk3@[1] - 954546 * gk1@[8] * gk2@[9] * gk3@[1] + 485478 * gk1@[7] * gk2@[10] * gk3@[1] + 496038 *
   gk1@[6] * gk2@[11] * gk3@[1] + 17940 * gk1@[5] * gk2@[12] * gk3@[1] - 70110 * gk1@[4] * gk2@[13] * gk3@[1] -
   226980 * gk1@[13] * gk2@[3] * gk3@[2] - 1586880 * gk1@[12] * gk2@[4] * gk3@[2] + 834105 * gk1@[11] * gk2@[5] *
   gk3@[2] + 10372080 * gk1@[10] * gk2@[6] * gk3@[2] - 861015 * gk1@[9] * gk2@[7] * gk3@[2] - 17257920 * gk1@[8] *
   gk2@[8] * gk3@[2] - 861015 * gk1@[7] * gk2@[9] * gk3@[2] + 10372080 * gk1@[6] * gk2@[10] * gk3@[2] + 834105 *
   gk1@[5] * gk2@[11] * gk3@[2] - 1586880 * gk1@[4] * gk2@[12] * gk3@[2] - 226980 * gk1@[3] * gk2@[13] * gk3@[2] +
   528600 * gk1@[13] * gk2@[2] * gk3@[3] - 1801220 * gk1@[12] * gk2@[3] * gk3@[3] - 6176510 * gk1@[11] * gk2@[4] *
   gk3@[3] + 15397220 * gk1@[10] * gk2@[5] * gk3@[3] + 27847688 * gk1@[9] * gk2@[6] * gk3@[3] - 35470922 * gk1@[8] *
   gk2@[7] * gk3@[3] - 35470922 * gk1@[7] * gk2@[8] * gk3@[3] + 27847688 * gk1@[6] * gk2@[9] * gk3@[3] + 15397220 *
   gk1@[5] * gk2@[10] * gk3@[3] - 6176510 * gk1@[4] * gk2@[11] * gk3@[3] - 1801220 * gk1@[3] * gk2@[12] * gk3@[3] +
   528600 * gk1@[2] * gk2@[13] * gk3@[3] + 39600 * gk1@[13] * gk2@[1] * gk3@[4] + 2114400 * gk1@[12] * gk2@[2] *
   gk3@[4] - 2286880 * gk1@[11] * gk2@[3] * gk3@[4] - 3844880 * gk1@[10] * gk2@[4] * gk3@[4] + 14573280 * gk1@[9] *
   gk2@[5] * gk3@[4] + 1140880 * gk1@[8] * gk2@[6] * gk3@[4] - 25204600 * gk1@[7] * gk2@[7] * gk3@[4] + 1140880 *
   gk1@[6] * gk2@[8] * gk3@[4] + 14573280 * gk1@[5] * gk2@[9] * gk3@[4] - 3844880 * gk1@[4] * gk2@[10] * gk3@[4] -
   2286880 * gk1@[3] * gk2@[11] * gk3@[4] + 2114400 * gk1@[2] * gk2@[12] * gk3@[4] + 39600 * gk1@[1] * gk2@[13] *
   gk3@[4] - 24750 * gk1@[13] * gk3@[5] + 79200 * gk1@[12] * gk2@[1] * gk3@[5] + 706950 * gk1@[11] * gk2@[2] *
   gk3@[5] + 2267010 * gk1@[10] * gk2@[3] * gk3@[5] - 1889630 * gk1@[9] * gk2@[4] * gk3@[5] - 13607910 * gk1@[8] *
   gk2@[5] * gk3@[5] + 6781954 * gk1@[7] * gk2@[6] * gk3@[5] + 6781954 * gk1@[6] * gk2@[7] * gk3@[5] - 13607910 *
   gk1@[5] * gk2@[8] * gk3@[5] - 1889630 * gk1@[4] * gk2@[9] * gk3@[5] + 2267010 * gk1@[3] * gk2@[10] * gk3@[5] +
   706950 * gk1@[2] * gk2@[11] * gk3@[5] + 79200 * gk1@[1] * gk2@[12] * gk3@[5] - 24750 * gk2@[13] * gk3@[5] - 19800
   * gk1@[12] * gk3@[6] - 95040 * gk1@[11] * gk2@[1] * gk3@[6] - 3714360 * gk1@[10] * gk2@[2] * gk3@[6] + 3336012 *
   gk1@[9] * gk2@[3] * gk3@[6] - 103848 * gk1@[8] * gk2@[4] * gk3@[6] - 8005147 * gk1@[7] * gk2@[5] * gk3@[6] +
   2975456 * gk1@[6] * gk2@[6] * gk3@[6] - 8005147 * gk1@[5] * gk2@[7] * gk3@[6] - 103848 * gk1@[4] * gk2@[8] *
   gk3@[6] + 3336012 * gk1@[3] * gk2@[9] * gk3@[6] - 3714360 * gk1@[2] * gk2@[10] * gk3@[6] - 95040 * gk1@[1] *
   gk2@[11] * gk3@[6] - 19800 * gk2@[12] * gk3@[6] + 74250 * gk1@[11] * gk3@[7] - 237600 * gk1@[10] * gk2@[1] *
   gk3@[7] - 2790000 * gk1@[9] * gk2@[2] * gk3@[7] + 102450 * gk1@[8] * gk2@[3] * gk3@[7] + 3853430 * gk1@[7] *
   gk2@[4] * gk3@[7] + 1589180 * gk1@[6] * gk2@[5] * gk3@[7] + 1589180 * gk1@[5] * gk2@[6] * gk3@[7] + 3853430 *
   gk1@[4] * gk2@[7] * gk3@[7] + 102450 * gk1@[3] * gk2@[8] * gk3@[7] - 2790000 * gk1@[2] * gk2@[9] * gk3@[7] -
   237600 * gk1@[1] * gk2@[10] * gk3@[7] + 74250 * gk2@[11] * gk3@[7] + 59400 * gk1@[10] * gk3@[8] + 47520 * gk1@[9]
   * gk2@[1] * gk3@[8] + 1153080 * gk1@[8] * gk2@[2] * gk3@[8] - 815478 * gk1@[7] * gk2@[3] * gk3@[8] + 1580752 *
   gk1@[6] * gk2@[4] * gk3@[8] + 2613184 * gk1@[5] * gk2@[5] * gk3@[8] + 1580752 * gk1@[4] * gk2@[6] * gk3@[8] -
   815478 * gk1@[3] * gk2@[7] * gk3@[8] + 1153080 * gk1@[2] * gk2@[8] * gk3@[8] + 47520 * gk1@[1] * gk2@[9] *
   gk3@[8] + 59400 * gk2@[10] * gk3@[8] - 74250 * gk1@[9] * gk3@[9] + 237600 * gk1@[8] * gk2@[1] * gk3@[9] + 1404150
   * gk1@[7] * gk2@[2] * gk3@[9] - 545670 * gk1@[6] * gk2@[3] * gk3@[9] + 1278130 * gk1@[5] * gk2@[4] * gk3@[9] +
   1278130 * gk1@[4] * gk2@[5] * gk3@[9] - 545670 * gk1@[3] * gk2@[6] * gk3@[9] + 1404150 * gk1@[2] * gk2@[7] *
   gk3@[9] + 237600 * gk1@[1] * gk2@[8] * gk3@[9] - 74250 * gk2@[9] * gk3@[9] - 59400 * gk1@[8] * gk3@[10] + 31680 *
   gk1@[7] * gk2@[1] * gk3@[10] + 426840 * gk1@[6] * gk2@[2] * gk3@[10] + 51896 * gk1@[5] * gk2@[3] * gk3@[10] +
   254096 * gk1@[4] * gk2@[4] * gk3@[10] + 51896 * gk1@[3] * gk2@[5] * gk3@[10] + 426840 * gk1@[2] * gk2@[6] *
   gk3@[10] + 31680 * gk1@[1] * gk2@[7] * gk3@[10] - 59400 * gk2@[8] * gk3@[10] + 24750 * gk1@[7] * gk3@[11] - 79200
   * gk1@[6] * gk2@[1] * gk3@[11] + 150300 * gk1@[5] * gk2@[2] * gk3@[11] - 36110 * gk1@[4] * gk2@[3] * gk3@[11] -
   36110 * gk1@[3] * gk2@[4] * gk3@[11] + 150300 * gk1@[2] * gk2@[5] * gk3@[11] - 79200 * gk1@[1] * gk2@[6] *
   gk3@[11] + 24750 * gk2@[7] * gk3@[11] + 19800 * gk1@[6] * gk3@[12] - 23760 * gk1@[5] * gk2@[1] * gk3@[12] + 20040
   * gk1@[4] * gk2@[2] * gk3@[12] - 4720 * gk1@[3] * gk2@[3] * gk3@[12] + 20040 * gk1@[2] * gk2@[4] * gk3@[12] -
   23760 * gk1@[1] * gk2@[5] * gk3@[12] + 19800 * gk2@[6] * gk3@[12])) * GPi * gq@[10].

(** src/gamma2d_1loop.c:1220-1326, kernel_poly[7] of kernel_gamma2d_reg3rd *)
Definition g2d_reg3rd_poly7 : gexpr :=
  (- (22680 * gk1@[13] * gk2@[4] + 136080 * gk1@[12] * gk2@[5] + 204120 * gk1@[11] * gk2@[6] - 22680 * gk1@[10] *
   gk2@[7] - 340200 * gk1@[9] * gk2@[8] - 340200 * gk1@[8] * gk2@[9] - 22680 * gk1@[7] * gk2@[10] + 204120 * gk1@[6]
   * gk2@[11] + 136080 * gk1@[5] * gk2@[12] + 22680 * gk1@[4] * gk2@[13] - 43380 * gk1@[13] * gk2@[3] * gk3@[1] -
   285120 * gk1@[12] * gk2@[4] * gk3@[1] + 385557 * gk1@[11] * gk2@[5] * gk3@[1] + 2469552 * gk1@[10] * gk2@[6] *
   gk3@[1] - 371787 * gk1@[9] * gk2@[7] * gk3@[1] - 4257984 * gk1@[8] * gk2@[8] * gk3@[1] - 371787 * gk1@[7] *
   gk2@[9] * gk3@[1] + 2469552 * gk1@[6] * gk2@[10] * gk3@[1] + 385557 * gk1@[5] * gk2@[11] * gk3@[1] - 285120 *
   gk1@[4] * gk2@[12] * gk3@[1] - 43380 * gk1@[3] * gk2@[13] * gk3@[1] + 264300 * gk1@[13] * gk2@[2] * gk3@[2] -
   913770 * gk1@[12] * gk2@[3] * gk3@[2] - 3547350 * gk1@[11] * gk2@[4] * gk3@[2] + 5668020 * gk1@[10] * gk2@[5] *
   gk3@[2] + 12684420 * gk1@[9] * gk2@[6] * gk3@[2] - 14372340 * gk1@[8] * gk2@[7] * gk3@[2] - 14372340 * gk1@[7] *
   gk2@[8] * gk3@[2] + 12684420 * gk1@[6] * gk2@[9] * gk3@[2] + 5668020 * gk1@[5] * gk2@[10] * gk3@[2] - 3547350 *
   gk1@[4] * gk2@[11] * gk3@[2] - 913770 * gk1@[3] * gk2@[12] * gk3@[2] + 264300 * gk1@[2] * gk2@[13] * gk3@[2] +
   39600 * gk1@[13] * gk2@[1] * gk3@[3] + 2114400 * gk1@[12] * gk2@[2] * gk3@[3] - 2671820 * gk1@[11] * gk2@[3] *
   gk3@[3] - 7291120 * gk1@[10] * gk2@[4] * gk3@[3] + 13049052 * gk1@[9] * gk2@[5] * gk3@[3] + 5207312 * gk1@[8] *
   gk2@[6] * gk3@[3] - 21778976 * gk1@[7] * gk2@[7] * gk3@[3] + 5207312 * gk1@[6] * gk2@[8] * gk3@[3] + 13049052 *
   gk1@[5] * gk2@[9] * gk3@[3] - 7291120 * gk1@[4] * gk2@[10] * gk3@[3] - 2671820 * gk1@[3] * gk2@[11] * gk3@[3] +
   2114400 * gk1@[2] * gk2@[12] * gk3@[3] + 39600 * gk1@[1] * gk2@[13] * gk3@[3] - 49500 * gk1@[13] * gk3@[4] +
   158400 * gk1@[12] * gk2@[1] * gk3@[4] + 2924550 * gk1@[11] * gk2@[2] * gk3@[4] + 487030 * gk1@[10] * gk2@[3] *
   gk3@[4] - 8182660 * gk1@[9] * gk2@[4] * gk3@[4] - 2929880 * gk1@[8] * gk2@[5] * gk3@[4] + 7750340 * gk1@[7] *
   gk2@[6] * gk3@[4] + 7750340 * gk1@[6] * gk2@[7] * gk3@[4] - 2929880 * gk1@[5] * gk2@[8] * gk3@[4] - 8182660 *
   gk1@[4] * gk2@[9] * gk3@[4] + 487030 * gk1@[3] * gk2@[10] * gk3@[4] + 2924550 * gk1@[2] * gk2@[11] * gk3@[4] +
   158400 * gk1@[1] * gk2@[12] * gk3@[4] - 49500 * gk2@[13] * gk3@[4] - 99000 * gk1@[12] * gk3@[5] - 2458200 *
   gk1@[10] * gk2@[2] * gk3@[5] + 3409720 * gk1@[9] * gk2@[3] * gk3@[5] - 1810760 * gk1@[8] * gk2@[4] * gk3@[5] -
   5733499 * gk1@[7] * gk2@[5] * gk3@[5] + 10495776 * gk1@[6] * gk2@[6] * gk3@[5] - 5733499 * gk1@[5] * gk2@[7] *
   gk3@[5] - 1810760 * gk1@[4] * gk2@[8] * gk3@[5] + 3409720 * gk1@[3] * gk2@[9] * gk3@[5] - 2458200 * gk1@[2] *
   gk2@[10] * gk3@[5] - 99000 * gk2@[12] * gk3@[5] + 118800 * gk1@[11] * gk3@[6] - 459360 * gk1@[10] * gk2@[1] *
   gk3@[6] - 6015840 * gk1@[9] * gk2@[2] * gk3@[6] + 1440588 * gk1@[8] * gk2@[3] * gk3@[6] + 5736868 * gk1@[7] *
   gk2@[4] * gk3@[6] - 1497356 * gk1@[6] * gk2@[5] * gk3@[6] - 1497356 * gk1@[5] * gk2@[6] * gk3@[6] + 5736868 *
   gk1@[4] * gk2@[7] * gk3@[6] + 1440588 * gk1@[3] * gk2@[8] * gk3@[6] - 6015840 * gk1@[2] * gk2@[9] * gk3@[6] -
   459360 * gk1@[1] * gk2@[10] * gk3@[6] + 118800 * gk2@[11] * gk3@[6] + 297000 * gk1@[10] * gk3@[7] - 237600 *
   gk1@[9] * gk2@[1] * gk3@[7] - 1089000 * gk1@[8] * gk2@[2] * gk3@[7] - 311050 * gk1@[7] * gk2@[3] * gk3@[7] +
   3376880 * gk1@[6] * gk2@[4] * gk3@[7] + 531960 * gk1@[5] * gk2@[5] * gk3@[7] + 3376880 * gk1@[4] * gk2@[6] *
   gk3@[7] - 311050 * gk1@[3] * gk2@[7] * gk3@[7] - 1089000 * gk1@[2] * gk2@[8] * gk3@[7] - 237600 * gk1@[1] *
   gk2@[9] * gk3@[7] + 297000 * gk2@[10] * gk3@[7] - 59400 * gk1@[9] * gk3@[8] + 427680 * gk1@[8] * gk2@[1] *
   gk3@[8] + 2395920 * gk1@[7] * gk2@[2] * gk3@[8] - 957872 * gk1@[6] * gk2@[3] * gk3@[8] + 901148 * gk1@[5] *
   gk2@[4] * gk3@[8] + 901148 * gk1@[4] * gk2@[5] * gk3@[8] - 957872 * gk1@[3] * gk2@[6] * gk3@[8] + 2395920 *
   gk1@[2] * gk2@[7] * gk3@[8] + 427680 * gk1@[1] * gk2@[8] * gk3@[8] - 59400 * gk2@[9] * gk3@[8] - 297000 * gk1@[8]
   * gk3@[9] + 316800 * gk1@[7] * gk2@[1] * gk3@[9] + 1332600 * gk1@[6] * gk2@[2] * gk3@[9] - 314780 * gk1@[5] *
   gk2@[3] * gk3@[9] + 303120 * gk1@[4] * gk2@[4] * gk3@[9] - 314780 * gk1@[3] * gk2@[5] * gk3@[9] + 1332600 *
   gk1@[2] * gk2@[6] * gk3@[9] + 316800 * gk1@[1] * gk2@[7] * gk3@[9] - 297000 * gk2@[8] * gk3@[9] - 39600 * gk1@[7]
   * gk3@[10] - 110880 * gk1@[6] * gk2@[1] * gk3@[10] + 426060 * gk1@[5] * gk2@[2] * gk3@[10] - 106126 * gk1@[4] *
   gk2@[3] * gk3@[10] - 106126 * gk1@[3] * gk2@[4] * gk3@[10] + 426060 * gk1@[2] * gk2@[5] * gk3@[10] - 110880 *
   gk1@[1] * gk2@[6] * gk3@[10] - 39600 * gk2@[7] * gk3@[10] + 99000 * gk1@[6] * gk3@[11] - 118800 * gk1@[5] *
   gk2@[1] * gk3@[11] + 100200 * gk1@[4] * gk2@[2] * gk3@[11] - 24440 * gk1@[3] * gk2@[3] * gk3@[11] + 100200 *
   gk1@[2] * gk2@[4] * gk3@[11] - 118800 * gk1@[1] * gk2@[5] * gk3@[11] + 99000 * gk2@[6] * gk3@[11] + 29700 *
   gk1@[5] * gk3@[12] - 15840 * gk1@[4] * gk2@[1] * gk3@[12] + 5010 * gk1@[3] * gk2@[2] * gk3@[12] + 5010 * gk1@[2]
   * gk2@[3] * gk3@[12] - 15840 * gk1@[1] * gk2@[4] * gk3@[12] + 29700 * gk2@[5] * gk3@[12])) * GPi * gq@[11].

(** src/gamma2d_1loop.c:1328-1426, kernel_poly[8] of kernel_gamma2d_reg3rd *)
Definition g2d_reg3rd_poly8 : gexpr :=
  (- (5670 * gk1@[13] * gk2@[3] + 90720 * gk1@[12] * gk2@[4] + 334530 * gk1@[11] * gk2@[5] + 362880 * gk1@[10] *
   gk2@[6] - 340200 * gk1@[9] * gk2@[7] - 907200 * gk1@[8] * gk2@[8] - 340200 * gk1@[7] * gk2@[9] + 362880 * gk1@[6]
   * gk2@[10] + 334530 * gk1@[5] * gk2@[11] + 90720 * gk1@[4] * gk2@[12] + 5670 * gk1@[3] * gk2@[13] + 52860 *
   gk1@[13] * gk2@[2] * gk3@[1] - 174690 * gk1@[12] * gk2@[3] * gk3@[1] - 562302 * gk1@[11] * gk2@[4] * gk3@[1] +
   1766628 * gk1@[10] * gk2@[5] * gk3@[1] + 2915892 * gk1@[9] * gk2@[6] * gk3@[1] - 3932868 * gk1@[8] * gk2@[7] *
   gk3@[1] - 3932868 * gk1@[7] * gk2@[8] * gk3@[1] + 2915892 * gk1@[6] * gk2@[9] * gk3@[1] + 1766628 * gk1@[5] *
   gk2@[10] * gk3@[1] - 562302 * gk1@[4] * gk2@[11] * gk3@[1] - 174690 * gk1@[3] * gk2@[12] * gk3@[1] + 52860 *
   gk1@[2] * gk2@[13] * gk3@[1] + 19800 * gk1@[13] * gk2@[1] * gk3@[2] + 1057200 * gk1@[12] * gk2@[2] * gk3@[2] -
   1475325 * gk1@[11] * gk2@[3] * gk3@[2] - 5266200 * gk1@[10] * gk2@[4] * gk3@[2] + 3901830 * gk1@[9] * gk2@[5] *
   gk3@[2] + 4002360 * gk1@[8] * gk2@[6] * gk3@[2] - 6126150 * gk1@[7] * gk2@[7] * gk3@[2] + 4002360 * gk1@[6] *
   gk2@[8] * gk3@[2] + 3901830 * gk1@[5] * gk2@[9] * gk3@[2] - 5266200 * gk1@[4] * gk2@[10] * gk3@[2] - 1475325 *
   gk1@[3] * gk2@[11] * gk3@[2] + 1057200 * gk1@[2] * gk2@[12] * gk3@[2] + 19800 * gk1@[1] * gk2@[13] * gk3@[2] -
   49500 * gk1@[13] * gk3@[3] + 158400 * gk1@[12] * gk2@[1] * gk3@[3] + 3327390 * gk1@[11] * gk2@[2] * gk3@[3] -
   1163050 * gk1@[10] * gk2@[3] * gk3@[3] - 13226372 * gk1@[9] * gk2@[4] * gk3@[3] - 1101952 * gk1@[8] * gk2@[5] *
   gk3@[3] + 10843876 * gk1@[7] * gk2@[6] * gk3@[3] + 10843876 * gk1@[6] * gk2@[7] * gk3@[3] - 1101952 * gk1@[5] *
   gk2@[8] * gk3@[3] - 13226372 * gk1@[4] * gk2@[9] * gk3@[3] - 1163050 * gk1@[3] * gk2@[10] * gk3@[3] + 3327390 *
   gk1@[2] * gk2@[11] * gk3@[3] + 158400 * gk1@[1] * gk2@[12] * gk3@[3] - 49500 * gk2@[13] * gk3@[3] - 198000 *
   gk1@[12] * gk3@[4] + 178200 * gk1@[11] * gk2@[1] * gk3@[4] + 1126200 * gk1@[10] * gk2@[2] * gk3@[4] + 1421960 *
   gk1@[9] * gk2@[3] * gk3@[4] - 7065440 * gk1@[8] * gk2@[4] * gk3@[4] - 301490 * gk1@[7] * gk2@[5] * gk3@[4] +
   17206320 * gk1@[6] * gk2@[6] * gk3@[4] - 301490 * gk1@[5] * gk2@[7] * gk3@[4] - 7065440 * gk1@[4] * gk2@[8] *
   gk3@[4] + 1421960 * gk1@[3] * gk2@[9] * gk3@[4] + 1126200 * gk1@[2] * gk2@[10] * gk3@[4] + 178200 * gk1@[1] *
   gk2@[11] * gk3@[4] - 198000 * gk2@[12] * gk3@[4] - 396000 * gk1@[10] * gk2@[1] * gk3@[5] - 5360160 * gk1@[9] *
   gk2@[2] * gk3@[5] + 1994620 * gk1@[8] * gk2@[3] * gk3@[5] + 7195124 * gk1@[7] * gk2@[4] * gk3@[5] + 906244 *
   gk1@[6] * gk2@[5] * gk3@[5] + 906244 * gk1@[5] * gk2@[6] * gk3@[5] + 7195124 * gk1@[4] * gk2@[7] * gk3@[5] +
   1994620 * gk1@[3] * gk2@[8] * gk3@[5] - 5360160 * gk1@[2] * gk2@[9] * gk3@[5] - 396000 * gk1@[1] * gk2@[10] *
   gk3@[5] + 574200 * gk1@[10] * gk3@[6] - 649440 * gk1@[9] * gk2@[1] * gk3@[6] - 4645800 * gk1@[8] * gk2@[2] *
   gk3@[6] + 955267 * gk1@[7] * gk2@[3] * gk3@[6] + 5839000 * gk1@[6] * gk2@[4] * gk3@[6] - 1013844 * gk1@[5] *
   gk2@[5] * gk3@[6] + 5839000 * gk1@[4] * gk2@[6] * gk3@[6] + 955267 * gk1@[3] * gk2@[7] * gk3@[6] - 4645800 *
   gk1@[2] * gk2@[8] * gk3@[6] - 649440 * gk1@[1] * gk2@[9] * gk3@[6] + 574200 * gk2@[10] * gk3@[6] + 297000 *
   gk1@[9] * gk3@[7] + 237600 * gk1@[8] * gk2@[1] * gk3@[7] + 1026960 * gk1@[7] * gk2@[2] * gk3@[7] - 515560 *
   gk1@[6] * gk2@[3] * gk3@[7] + 712580 * gk1@[5] * gk2@[4] * gk3@[7] + 712580 * gk1@[4] * gk2@[5] * gk3@[7] -
   515560 * gk1@[3] * gk2@[6] * gk3@[7] + 1026960 * gk1@[2] * gk2@[7] * gk3@[7] + 237600 * gk1@[1] * gk2@[8] *
   gk3@[7] + 297000 * gk2@[9] * gk3@[7] - 534600 * gk1@[8] * gk3@[8] + 681120 * gk1@[7] * gk2@[1] * gk3@[8] +
   2206920 * gk1@[6] * gk2@[2] * gk3@[8] - 754228 * gk1@[5] * gk2@[3] * gk3@[8] + 274240 * gk1@[4] * gk2@[4] *
   gk3@[8] - 754228 * gk1@[3] * gk2@[5] * gk3@[8] + 2206920 * gk1@[2] * gk2@[6] * gk3@[8] + 681120 * gk1@[1] *
   gk2@[7] * gk3@[8] - 534600 * gk2@[8] * gk3@[8] - 396000 * gk1@[7] * gk3@[9] + 79200 * gk1@[6] * gk2@[1] * gk3@[9]
   + 927900 * gk1@[5] * gk2@[2] * gk3@[9] - 279270 * gk1@[4] * gk2@[3] * gk3@[9] - 279270 * gk1@[3] * gk2@[4] *
   gk3@[9] + 927900 * gk1@[2] * gk2@[5] * gk3@[9] + 79200 * gk1@[1] * gk2@[6] * gk3@[9] - 396000 * gk2@[7] * gk3@[9]
   + 138600 * gk1@[6] * gk3@[10] - 225720 * gk1@[5] * gk2@[1] * gk3@[10] + 255480 * gk1@[4] * gk2@[2] * gk3@[10] -
   68944 * gk1@[3] * gk2@[3] * gk3@[10] + 255480 * gk1@[2] * gk2@[4] * gk3@[10] - 225720 * gk1@[1] * gk2@[5] *
   gk3@[10] + 138600 * gk2@[6] * gk3@[10] + 148500 * gk1@[5] * gk3@[11] - 79200 * gk1@[4] * gk2@[1] * gk3@[11] +
   25050 * gk1@[3] * gk2@[2] * gk3@[11] + 25050 * gk1@[2] * gk2@[3] * gk3@[11] - 79200 * gk1@[1] * gk2@[4] *
   gk3@[11] + 148500 * gk2@[5] * gk3@[11] + 19800 * gk1@[4] * gk3@[12] - 3960 * gk1@[3] * gk2@[1] * gk3@[12] - 3960
   * gk1@[1] * gk2@[3] * gk3@[12] + 19800 * gk2@[4] * gk3@[12])) * GPi * gq@[12].

(** src/gamma2d_1loop.c:1428-1514, kernel_poly[9] of kernel_gamma2d_reg3rd *)
Definition g2d_reg3rd_poly9 : gexpr :=
  (- (22680 * gk1@[12] * gk2@[3] + 226800 * gk1@[11] * gk2@[4] + 657720 * gk1@[10] * gk2@[5] + 249480 * gk1@[9] *
   gk2@[6] - 1156680 * gk1@[8] * gk2@[7] - 1156680 * gk1@[7] * gk2@[8] + 249480 * gk1@[6] * gk2@[9] + 657720 *
   gk1@[5] * gk2@[10] + 226800 * gk1@[4] * gk2@[11] + 22680 * gk1@[3] * gk2@[12] + 3960 * gk1@[13] * gk2@[1] *
   gk3@[1] + 211440 * gk1@[12] * gk2@[2] * gk3@[1] - 258273 * gk1@[11] * gk2@[3] * gk3@[1] - 625848 * gk1@[10] *
   gk2@[4] * gk3@[1] + 1641198 * gk1@[9] * gk2@[5] * gk3@[1] + 469848 * gk1@[8] * gk2@[6] * gk3@[1] - 2832990 *
   gk1@[7] * gk2@[7] * gk3@[1] + 469848 * gk1@[6] * gk2@[8] * gk3@[1] + 1641198 * gk1@[5] * gk2@[9] * gk3@[1] -
   625848 * gk1@[4] * gk2@[10] * gk3@[1] - 258273 * gk1@[3] * gk2@[11] * gk3@[1] + 211440 * gk1@[2] * gk2@[12] *
   gk3@[1] + 3960 * gk1@[1] * gk2@[13] * gk3@[1] - 24750 * gk1@[13] * gk3@[2] + 79200 * gk1@[12] * gk2@[1] * gk3@[2]
   + 1714050 * gk1@[11] * gk2@[2] * gk3@[2] - 1085250 * gk1@[10] * gk2@[3] * gk3@[2] - 8968380 * gk1@[9] * gk2@[4] *
   gk3@[2] - 1557810 * gk1@[8] * gk2@[5] * gk3@[2] + 8446860 * gk1@[7] * gk2@[6] * gk3@[2] + 8446860 * gk1@[6] *
   gk2@[7] * gk3@[2] - 1557810 * gk1@[5] * gk2@[8] * gk3@[2] - 8968380 * gk1@[4] * gk2@[9] * gk3@[2] - 1085250 *
   gk1@[3] * gk2@[10] * gk3@[2] + 1714050 * gk1@[2] * gk2@[11] * gk3@[2] + 79200 * gk1@[1] * gk2@[12] * gk3@[2] -
   24750 * gk2@[13] * gk3@[2] - 198000 * gk1@[12] * gk3@[3] + 225720 * gk1@[11] * gk2@[1] * gk3@[3] + 2737560 *
   gk1@[10] * gk2@[2] * gk3@[3] - 995588 * gk1@[9] * gk2@[3] * gk3@[3] - 12012928 * gk1@[8] * gk2@[4] * gk3@[3] +
   189014 * gk1@[7] * gk2@[5] * gk3@[3] + 18454704 * gk1@[6] * gk2@[6] * gk3@[3] + 189014 * gk1@[5] * gk2@[7] *
   gk3@[3] - 12012928 * gk1@[4] * gk2@[8] * gk3@[3] - 995588 * gk1@[3] * gk2@[9] * gk3@[3] + 2737560 * gk1@[2] *
   gk2@[10] * gk3@[3] + 225720 * gk1@[1] * gk2@[11] * gk3@[3] - 198000 * gk2@[12] * gk3@[3] - 222750 * gk1@[11] *
   gk3@[4] - 79200 * gk1@[10] * gk2@[1] * gk3@[4] - 1150800 * gk1@[9] * gk2@[2] * gk3@[4] + 726490 * gk1@[8] *
   gk2@[3] * gk3@[4] + 3558700 * gk1@[7] * gk2@[4] * gk3@[4] + 3244480 * gk1@[6] * gk2@[5] * gk3@[4] + 3244480 *
   gk1@[5] * gk2@[6] * gk3@[4] + 3558700 * gk1@[4] * gk2@[7] * gk3@[4] + 726490 * gk1@[3] * gk2@[8] * gk3@[4] -
   1150800 * gk1@[2] * gk2@[9] * gk3@[4] - 79200 * gk1@[1] * gk2@[10] * gk3@[4] - 222750 * gk2@[11] * gk3@[4] +
   495000 * gk1@[10] * gk3@[5] - 681120 * gk1@[9] * gk2@[1] * gk3@[5] - 4920840 * gk1@[8] * gk2@[2] * gk3@[5] +
   2088971 * gk1@[7] * gk2@[3] * gk3@[5] + 7136376 * gk1@[6] * gk2@[4] * gk3@[5] - 220564 * gk1@[5] * gk2@[5] *
   gk3@[5] + 7136376 * gk1@[4] * gk2@[6] * gk3@[5] + 2088971 * gk1@[3] * gk2@[7] * gk3@[5] - 4920840 * gk1@[2] *
   gk2@[8] * gk3@[5] - 681120 * gk1@[1] * gk2@[9] * gk3@[5] + 495000 * gk2@[10] * gk3@[5] + 811800 * gk1@[9] *
   gk3@[6] - 237600 * gk1@[8] * gk2@[1] * gk3@[6] - 1992600 * gk1@[7] * gk2@[2] * gk3@[6] + 695080 * gk1@[6] *
   gk2@[3] * gk3@[6] + 950920 * gk1@[5] * gk2@[4] * gk3@[6] + 950920 * gk1@[4] * gk2@[5] * gk3@[6] + 695080 *
   gk1@[3] * gk2@[6] * gk3@[6] - 1992600 * gk1@[2] * gk2@[7] * gk3@[6] - 237600 * gk1@[1] * gk2@[8] * gk3@[6] +
   811800 * gk2@[9] * gk3@[6] - 297000 * gk1@[8] * gk3@[7] + 649440 * gk1@[7] * gk2@[1] * gk3@[7] + 1496040 *
   gk1@[6] * gk2@[2] * gk3@[7] - 680650 * gk1@[5] * gk2@[3] * gk3@[7] - 157760 * gk1@[4] * gk2@[4] * gk3@[7] -
   680650 * gk1@[3] * gk2@[5] * gk3@[7] + 1496040 * gk1@[2] * gk2@[6] * gk3@[7] + 649440 * gk1@[1] * gk2@[7] *
   gk3@[7] - 297000 * gk2@[8] * gk3@[7] - 851400 * gk1@[7] * gk3@[8] + 396000 * gk1@[6] * gk2@[1] * gk3@[8] +
   1365480 * gk1@[5] * gk2@[2] * gk3@[8] - 444440 * gk1@[4] * gk2@[3] * gk3@[8] - 444440 * gk1@[3] * gk2@[4] *
   gk3@[8] + 1365480 * gk1@[2] * gk2@[5] * gk3@[8] + 396000 * gk1@[1] * gk2@[6] * gk3@[8] - 851400 * gk2@[7] *
   gk3@[8] - 99000 * gk1@[6] * gk3@[9] - 178200 * gk1@[5] * gk2@[1] * gk3@[9] + 475800 * gk1@[4] * gk2@[2] * gk3@[9]
   - 158580 * gk1@[3] * gk2@[3] * gk3@[9] + 475800 * gk1@[2] * gk2@[4] * gk3@[9] - 178200 * gk1@[1] * gk2@[5] *
   gk3@[9] - 99000 * gk2@[6] * gk3@[9] + 282150 * gk1@[5] * gk3@[10] - 158400 * gk1@[4] * gk2@[1] * gk3@[10] + 63870
   * gk1@[3] * gk2@[2] * gk3@[10] + 63870 * gk1@[2] * gk2@[3] * gk3@[10] - 158400 * gk1@[1] * gk2@[4] * gk3@[10] +
   282150 * gk2@[5] * gk3@[10] + 99000 * gk1@[4] * gk3@[11] - 19800 * gk1@[3] * gk2@[1] * gk3@[11] - 19800 * gk1@[1]
   * gk2@[3] * gk3@[11] + 99000 * gk2@[4] * gk3@[11] + 4950 * gk1@[3] * gk3@[12] + 4950 * gk2@[3] * gk3@[12])) * GPi
   * gq@[13].

(** src/gamma2d_1loop.c:1516-1588, kernel_poly[10] of kernel_gamma2d_reg3rd *)
Definition g2d_reg3rd_poly10 : gexpr :=
  (- (56700 * gk1@[11] * gk2@[3] + 453600 * gk1@[10] * gk2@[4] + 771120 * gk1@[9] * gk2@[5] - 453600 * gk1@[8] *
   gk2@[6] - 1655640 * gk1@[7] * gk2@[7] - 453600 * gk1@[6] * gk2@[8] + 771120 * gk1@[5] * gk2@[9] + 453600 *
   gk1@[4] * gk2@[10] + 56700 * gk1@[3] * gk2@[11] - 4950 * gk1@[13] * gk3@[1] + 15840 * gk1@[12] * gk2@[1] *
   gk3@[1] + 342810 * gk1@[11] * gk2@[2] * gk3@[1] - 110202 * gk1@[10] * gk2@[3] * gk3@[1] - 1180812 * gk1@[9] *
   gk2@[4] * gk3@[1] + 160182 * gk1@[8] * gk2@[5] * gk3@[1] + 751932 * gk1@[7] * gk2@[6] * gk3@[1] + 751932 *
   gk1@[6] * gk2@[7] * gk3@[1] + 160182 * gk1@[5] * gk2@[8] * gk3@[1] - 1180812 * gk1@[4] * gk2@[9] * gk3@[1] -
   110202 * gk1@[3] * gk2@[10] * gk3@[1] + 342810 * gk1@[2] * gk2@[11] * gk3@[1] + 15840 * gk1@[1] * gk2@[12] *
   gk3@[1] - 4950 * gk2@[13] * gk3@[1] - 99000 * gk1@[12] * gk3@[2] + 118800 * gk1@[11] * gk2@[1] * gk3@[2] +
   1570200 * gk1@[10] * gk2@[2] * gk3@[2] - 1231170 * gk1@[9] * gk2@[3] * gk3@[2] - 7791240 * gk1@[8] * gk2@[4] *
   gk3@[2] + 398265 * gk1@[7] * gk2@[5] * gk3@[2] + 11279280 * gk1@[6] * gk2@[6] * gk3@[2] + 398265 * gk1@[5] *
   gk2@[7] * gk3@[2] - 7791240 * gk1@[4] * gk2@[8] * gk3@[2] - 1231170 * gk1@[3] * gk2@[9] * gk3@[2] + 1570200 *
   gk1@[2] * gk2@[10] * gk3@[2] + 118800 * gk1@[1] * gk2@[11] * gk3@[2] - 99000 * gk2@[12] * gk3@[2] - 282150 *
   gk1@[11] * gk3@[3] + 110880 * gk1@[10] * gk2@[1] * gk3@[3] + 1423920 * gk1@[9] * gk2@[2] * gk3@[3] - 1194262 *
   gk1@[8] * gk2@[3] * gk3@[3] - 2374372 * gk1@[7] * gk2@[4] * gk3@[3] + 2353016 * gk1@[6] * gk2@[5] * gk3@[3] +
   2353016 * gk1@[5] * gk2@[6] * gk3@[3] - 2374372 * gk1@[4] * gk2@[7] * gk3@[3] - 1194262 * gk1@[3] * gk2@[8] *
   gk3@[3] + 1423920 * gk1@[2] * gk2@[9] * gk3@[3] + 110880 * gk1@[1] * gk2@[10] * gk3@[3] - 282150 * gk2@[11] *
   gk3@[3] + 99000 * gk1@[10] * gk3@[4] - 316800 * gk1@[9] * gk2@[1] * gk3@[4] - 1776600 * gk1@[8] * gk2@[2] *
   gk3@[4] + 1541200 * gk1@[7] * gk2@[3] * gk3@[4] + 4099680 * gk1@[6] * gk2@[4] * gk3@[4] + 509720 * gk1@[5] *
   gk2@[5] * gk3@[4] + 4099680 * gk1@[4] * gk2@[6] * gk3@[4] + 1541200 * gk1@[3] * gk2@[7] * gk3@[4] - 1776600 *
   gk1@[2] * gk2@[8] * gk3@[4] - 316800 * gk1@[1] * gk2@[9] * gk3@[4] + 99000 * gk2@[10] * gk3@[4] + 851400 *
   gk1@[9] * gk3@[5] - 427680 * gk1@[8] * gk2@[1] * gk3@[5] - 2973240 * gk1@[7] * gk2@[2] * gk3@[5] + 1586904 *
   gk1@[6] * gk2@[3] * gk3@[5] + 1171224 * gk1@[5] * gk2@[4] * gk3@[5] + 1171224 * gk1@[4] * gk2@[5] * gk3@[5] +
   1586904 * gk1@[3] * gk2@[6] * gk3@[5] - 2973240 * gk1@[2] * gk2@[7] * gk3@[5] - 427680 * gk1@[1] * gk2@[8] *
   gk3@[5] + 851400 * gk2@[9] * gk3@[5] + 297000 * gk1@[8] * gk3@[6] + 237600 * gk1@[7] * gk2@[1] * gk3@[6] - 444600
   * gk1@[6] * gk2@[2] * gk3@[6] - 91250 * gk1@[5] * gk2@[3] * gk3@[6] - 763440 * gk1@[4] * gk2@[4] * gk3@[6] -
   91250 * gk1@[3] * gk2@[5] * gk3@[6] - 444600 * gk1@[2] * gk2@[6] * gk3@[6] + 237600 * gk1@[1] * gk2@[7] * gk3@[6]
   + 297000 * gk2@[8] * gk3@[6] - 811800 * gk1@[7] * gk3@[7] + 459360 * gk1@[6] * gk2@[1] * gk3@[7] + 1087560 *
   gk1@[5] * gk2@[2] * gk3@[7] - 454520 * gk1@[4] * gk2@[3] * gk3@[7] - 454520 * gk1@[3] * gk2@[4] * gk3@[7] +
   1087560 * gk1@[2] * gk2@[5] * gk3@[7] + 459360 * gk1@[1] * gk2@[6] * gk3@[7] - 811800 * gk2@[7] * gk3@[7] -
   495000 * gk1@[6] * gk3@[8] + 651000 * gk1@[4] * gk2@[2] * gk3@[8] - 239360 * gk1@[3] * gk2@[3] * gk3@[8] + 651000
   * gk1@[2] * gk2@[4] * gk3@[8] - 495000 * gk2@[6] * gk3@[8] + 222750 * gk1@[5] * gk3@[9] - 158400 * gk1@[4] *
   gk2@[1] * gk3@[9] + 118950 * gk1@[3] * gk2@[2] * gk3@[9] + 118950 * gk1@[2] * gk2@[3] * gk3@[9] - 158400 *
   gk1@[1] * gk2@[4] * gk3@[9] + 222750 * gk2@[5] * gk3@[9] + 198000 * gk1@[4] * gk3@[10] - 39600 * gk1@[3] *
   gk2@[1] * gk3@[10] - 39600 * gk1@[1] * gk2@[3] * gk3@[10] + 198000 * gk2@[4] * gk3@[10] + 24750 * gk1@[3] *
   gk3@[11] + 24750 * gk2@[3] * gk3@[11])) * GPi * gq@[14].

(** src/gamma2d_1loop.c:1590-1696, kernel_poly[11] of kernel_gamma2d_reg3rd *)
Definition g2d_reg3rd_poly11 : gexpr :=
  (- (113400 * gk1@[10] * gk2@[3] + 567000 * gk1@[9] * gk2@[4] + 340200 * gk1@[8] * gk2@[5] - 1020600 * gk1@[7] *
   gk2@[6] - 1020600 * gk1@[6] * gk2@[7] + 340200 * gk1@[5] * gk2@[8] + 567000 * gk1@[4] * gk2@[9] + 113400 *
   gk1@[3] * gk2@[10] - 19800 * gk1@[12] * gk3@[1] + 23760 * gk1@[11] * gk2@[1] * gk3@[1] + 314040 * gk1@[10] *
   gk2@[2] * gk3@[1] - 93018 * gk1@[9] * gk2@[3] * gk3@[1] - 1114728 * gk1@[8] * gk2@[4] * gk3@[1] + 59493 * gk1@[7]
   * gk2@[5] * gk3@[1] + 1610736 * gk1@[6] * gk2@[6] * gk3@[1] + 59493 * gk1@[5] * gk2@[7] * gk3@[1] - 1114728 *
   gk1@[4] * gk2@[8] * gk3@[1] - 93018 * gk1@[3] * gk2@[9] * gk3@[1] + 314040 * gk1@[2] * gk2@[10] * gk3@[1] + 23760
   * gk1@[1] * gk2@[11] * gk3@[1] - 19800 * gk2@[12] * gk3@[1] - 148500 * gk1@[11] * gk3@[2] + 79200 * gk1@[10] *
   gk2@[1] * gk3@[2] + 1033800 * gk1@[9] * gk2@[2] * gk3@[2] - 1128810 * gk1@[8] * gk2@[3] * gk3@[2] - 2262510 *
   gk1@[7] * gk2@[4] * gk3@[2] + 1481820 * gk1@[6] * gk2@[5] * gk3@[2] + 1481820 * gk1@[5] * gk2@[6] * gk3@[2] -
   2262510 * gk1@[4] * gk2@[7] * gk3@[2] - 1128810 * gk1@[3] * gk2@[8] * gk3@[2] + 1033800 * gk1@[2] * gk2@[9] *
   gk3@[2] + 79200 * gk1@[1] * gk2@[10] * gk3@[2] - 148500 * gk2@[11] * gk3@[2] - 138600 * gk1@[10] * gk3@[3] -
   31680 * gk1@[9] * gk2@[1] * gk3@[3] + 465480 * gk1@[8] * gk2@[2] * gk3@[3] + 5612 * gk1@[7] * gk2@[3] * gk3@[3] -
   156288 * gk1@[6] * gk2@[4] * gk3@[3] + 184864 * gk1@[5] * gk2@[5] * gk3@[3] - 156288 * gk1@[4] * gk2@[6] *
   gk3@[3] + 5612 * gk1@[3] * gk2@[7] * gk3@[3] + 465480 * gk1@[2] * gk2@[8] * gk3@[3] - 31680 * gk1@[1] * gk2@[9] *
   gk3@[3] - 138600 * gk2@[10] * gk3@[3] + 396000 * gk1@[9] * gk3@[4] - 237600 * gk1@[8] * gk2@[1] * gk3@[4] -
   1429650 * gk1@[7] * gk2@[2] * gk3@[4] + 1096170 * gk1@[6] * gk2@[3] * gk3@[4] + 630720 * gk1@[5] * gk2@[4] *
   gk3@[4] + 630720 * gk1@[4] * gk2@[5] * gk3@[4] + 1096170 * gk1@[3] * gk2@[6] * gk3@[4] - 1429650 * gk1@[2] *
   gk2@[7] * gk3@[4] - 237600 * gk1@[1] * gk2@[8] * gk3@[4] + 396000 * gk2@[9] * gk3@[4] + 534600 * gk1@[8] *
   gk3@[5] - 47520 * gk1@[7] * gk2@[1] * gk3@[5] - 1350360 * gk1@[6] * gk2@[2] * gk3@[5] + 337446 * gk1@[5] *
   gk2@[3] * gk3@[5] - 969264 * gk1@[4] * gk2@[4] * gk3@[5] + 337446 * gk1@[3] * gk2@[5] * gk3@[5] - 1350360 *
   gk1@[2] * gk2@[6] * gk3@[5] - 47520 * gk1@[1] * gk2@[7] * gk3@[5] + 534600 * gk2@[8] * gk3@[5] - 297000 * gk1@[7]
   * gk3@[6] + 237600 * gk1@[6] * gk2@[1] * gk3@[6] + 233100 * gk1@[5] * gk2@[2] * gk3@[6] - 301110 * gk1@[4] *
   gk2@[3] * gk3@[6] - 301110 * gk1@[3] * gk2@[4] * gk3@[6] + 233100 * gk1@[2] * gk2@[5] * gk3@[6] + 237600 *
   gk1@[1] * gk2@[6] * gk3@[6] - 297000 * gk2@[7] * gk3@[6] - 574200 * gk1@[6] * gk3@[7] + 95040 * gk1@[5] * gk2@[1]
   * gk3@[7] + 570840 * gk1@[4] * gk2@[2] * gk3@[7] - 217400 * gk1@[3] * gk2@[3] * gk3@[7] + 570840 * gk1@[2] *
   gk2@[4] * gk3@[7] + 95040 * gk1@[1] * gk2@[5] * gk3@[7] - 574200 * gk2@[6] * gk3@[7] - 79200 * gk1@[4] * gk2@[1]
   * gk3@[8] + 162750 * gk1@[3] * gk2@[2] * gk3@[8] + 162750 * gk1@[2] * gk2@[3] * gk3@[8] - 79200 * gk1@[1] *
   gk2@[4] * gk3@[8] + 198000 * gk1@[4] * gk3@[9] - 39600 * gk1@[3] * gk2@[1] * gk3@[9] - 39600 * gk1@[1] * gk2@[3]
   * gk3@[9] + 198000 * gk2@[4] * gk3@[9] + 49500 * gk1@[3] * gk3@[10] + 49500 * gk2@[3] * gk3@[10])) * GPi *
   gq@[15] - (141750 * gk1@[9] * gk2@[3] + 362880 * gk1@[8] * gk2@[4] - 141750 * gk1@[7] * gk2@[5] - 725760 *
   gk1@[6] * gk2@[6] - 141750 * gk1@[5] * gk2@[7] + 362880 * gk1@[4] * gk2@[8] + 141750 * gk1@[3] * gk2@[9] - 29700
   * gk1@[11] * gk3@[1] + 15840 * gk1@[10] * gk2@[1] * gk3@[1] + 206760 * gk1@[9] * gk2@[2] * gk3@[1] - 114882 *
   gk1@[8] * gk2@[3] * gk3@[1] - 281142 * gk1@[7] * gk2@[4] * gk3@[1] + 195564 * gk1@[6] * gk2@[5] * gk3@[1] +
   195564 * gk1@[5] * gk2@[6] * gk3@[1] - 281142 * gk1@[4] * gk2@[7] * gk3@[1] - 114882 * gk1@[3] * gk2@[8] *
   gk3@[1] + 206760 * gk1@[2] * gk2@[9] * gk3@[1] + 15840 * gk1@[1] * gk2@[10] * gk3@[1] - 29700 * gk2@[11] *
   gk3@[1] - 99000 * gk1@[10] * gk3@[2] + 19800 * gk1@[9] * gk2@[1] * gk3@[2] + 513000 * gk1@[8] * gk2@[2] * gk3@[2]
   - 272565 * gk1@[7] * gk2@[3] * gk3@[2] - 655920 * gk1@[6] * gk2@[4] * gk3@[2] + 118080 * gk1@[5] * gk2@[5] *
   gk3@[2] - 655920 * gk1@[4] * gk2@[6] * gk3@[2] - 272565 * gk1@[3] * gk2@[7] * gk3@[2] + 513000 * gk1@[2] *
   gk2@[8] * gk3@[2] + 19800 * gk1@[1] * gk2@[9] * gk3@[2] - 99000 * gk2@[10] * gk3@[2] + 39600 * gk1@[9] * gk3@[3]
   - 47520 * gk1@[8] * gk2@[1] * gk3@[3] - 80730 * gk1@[7] * gk2@[2] * gk3@[3] + 88218 * gk1@[6] * gk2@[3] * gk3@[3]
   - 35112 * gk1@[5] * gk2@[4] * gk3@[3] - 35112 * gk1@[4] * gk2@[5] * gk3@[3] + 88218 * gk1@[3] * gk2@[6] * gk3@[3]
   - 80730 * gk1@[2] * gk2@[7] * gk3@[3] - 47520 * gk1@[1] * gk2@[8] * gk3@[3] + 39600 * gk2@[9] * gk3@[3] + 297000
   * gk1@[8] * gk3@[4] - 59400 * gk1@[7] * gk2@[1] * gk3@[4] - 788400 * gk1@[6] * gk2@[2] * gk3@[4] + 251430 *
   gk1@[5] * gk2@[3] * gk3@[4] - 606960 * gk1@[4] * gk2@[4] * gk3@[4] + 251430 * gk1@[3] * gk2@[5] * gk3@[4] -
   788400 * gk1@[2] * gk2@[6] * gk3@[4] - 59400 * gk1@[1] * gk2@[7] * gk3@[4] + 297000 * gk2@[8] * gk3@[4] + 59400 *
   gk1@[7] * gk3@[5] + 47520 * gk1@[6] * gk2@[1] * gk3@[5] - 268740 * gk1@[5] * gk2@[2] * gk3@[5] - 167166 * gk1@[4]
   * gk2@[3] * gk3@[5] - 167166 * gk1@[3] * gk2@[4] * gk3@[5] - 268740 * gk1@[2] * gk2@[5] * gk3@[5] + 47520 *
   gk1@[1] * gk2@[6] * gk3@[5] + 59400 * gk2@[7] * gk3@[5] - 297000 * gk1@[6] * gk3@[6] + 59400 * gk1@[5] * gk2@[1]
   * gk3@[6] + 275400 * gk1@[4] * gk2@[2] * gk3@[6] - 102840 * gk1@[3] * gk2@[3] * gk3@[6] + 275400 * gk1@[2] *
   gk2@[4] * gk3@[6] + 59400 * gk1@[1] * gk2@[5] * gk3@[6] - 297000 * gk2@[6] * gk3@[6] - 118800 * gk1@[5] * gk3@[7]
   - 15840 * gk1@[4] * gk2@[1] * gk3@[7] + 142710 * gk1@[3] * gk2@[2] * gk3@[7] + 142710 * gk1@[2] * gk2@[3] *
   gk3@[7] - 15840 * gk1@[1] * gk2@[4] * gk3@[7] - 118800 * gk2@[5] * gk3@[7] + 99000 * gk1@[4] * gk3@[8] - 19800 *
   gk1@[3] * gk2@[1] * gk3@[8] - 19800 * gk1@[1] * gk2@[3] * gk3@[8] + 99000 * gk2@[4] * gk3@[8] + 49500 * gk1@[3] *
   gk3@[9] + 49500 * gk2@[3] * gk3@[9]) * GPi * gq@[16].

(** src/gamma2d_1loop.c:1698-1748, kernel_poly[12] of kernel_gamma2d_reg3rd *)
Definition g2d_reg3rd_poly12 : gexpr :=
  (- (90720 * gk1@[8] * gk2@[3] + 90720 * gk1@[7] * gk2@[4] - 181440 * gk1@[6] * gk2@[5] - 181440 * gk1@[5] *
   gk2@[6] + 90720 * gk1@[4] * gk2@[7] + 90720 * gk1@[3] * gk2@[8] - 19800 * gk1@[10] * gk3@[1] + 3960 * gk1@[9] *
   gk2@[1] * gk3@[1] + 102600 * gk1@[8] * gk2@[2] * gk3@[1] - 11673 * gk1@[7] * gk2@[3] * gk3@[1] - 82800 * gk1@[6]
   * gk2@[4] * gk3@[1] + 13536 * gk1@[5] * gk2@[5] * gk3@[1] - 82800 * gk1@[4] * gk2@[6] * gk3@[1] - 11673 * gk1@[3]
   * gk2@[7] * gk3@[1] + 102600 * gk1@[2] * gk2@[8] * gk3@[1] + 3960 * gk1@[1] * gk2@[9] * gk3@[1] - 19800 *
   gk2@[10] * gk3@[1] - 24750 * gk1@[9] * gk3@[2] + 128250 * gk1@[7] * gk2@[2] * gk3@[2] - 93330 * gk1@[6] * gk2@[3]
   * gk3@[2] - 131130 * gk1@[5] * gk2@[4] * gk3@[2] - 131130 * gk1@[4] * gk2@[5] * gk3@[2] - 93330 * gk1@[3] *
   gk2@[6] * gk3@[2] + 128250 * gk1@[2] * gk2@[7] * gk3@[2] - 24750 * gk2@[9] * gk3@[2] + 59400 * gk1@[8] * gk3@[3]
   - 11880 * gk1@[7] * gk2@[1] * gk3@[3] - 157680 * gk1@[6] * gk2@[2] * gk3@[3] + 38232 * gk1@[5] * gk2@[3] *
   gk3@[3] - 97200 * gk1@[4] * gk2@[4] * gk3@[3] + 38232 * gk1@[3] * gk2@[5] * gk3@[3] - 157680 * gk1@[2] * gk2@[6]
   * gk3@[3] - 11880 * gk1@[1] * gk2@[7] * gk3@[3] + 59400 * gk2@[8] * gk3@[3] + 74250 * gk1@[7] * gk3@[4] - 197100
   * gk1@[5] * gk2@[2] * gk3@[4] - 90990 * gk1@[4] * gk2@[3] * gk3@[4] - 90990 * gk1@[3] * gk2@[4] * gk3@[4] -
   197100 * gk1@[2] * gk2@[5] * gk3@[4] + 74250 * gk2@[7] * gk3@[4] - 59400 * gk1@[6] * gk3@[5] + 11880 * gk1@[5] *
   gk2@[1] * gk3@[5] + 55080 * gk1@[4] * gk2@[2] * gk3@[5] - 23004 * gk1@[3] * gk2@[3] * gk3@[5] + 55080 * gk1@[2] *
   gk2@[4] * gk3@[5] + 11880 * gk1@[1] * gk2@[5] * gk3@[5] - 59400 * gk2@[6] * gk3@[5] - 74250 * gk1@[5] * gk3@[6] +
   68850 * gk1@[3] * gk2@[2] * gk3@[6] + 68850 * gk1@[2] * gk2@[3] * gk3@[6] - 74250 * gk2@[5] * gk3@[6] + 19800 *
   gk1@[4] * gk3@[7] - 3960 * gk1@[3] * gk2@[1] * gk3@[7] - 3960 * gk1@[1] * gk2@[3] * gk3@[7] + 19800 * gk2@[4] *
   gk3@[7] + 24750 * gk1@[3] * gk3@[8] + 24750 * gk2@[3] * gk3@[8])) * GPi * gq@[17] - (22680 * gk1@[7] * gk2@[3] -
   45360 * gk1@[5] * gk2@[5] + 22680 * gk1@[3] * gk2@[7] - 4950 * gk1@[9] * gk3@[1] + 25650 * gk1@[7] * gk2@[2] *
   gk3@[1] - 6570 * gk1@[6] * gk2@[3] * gk3@[1] - 14130 * gk1@[5] * gk2@[4] * gk3@[1] - 14130 * gk1@[4] * gk2@[5] *
   gk3@[1] - 6570 * gk1@[3] * gk2@[6] * gk3@[1] + 25650 * gk1@[2] * gk2@[7] * gk3@[1] - 4950 * gk2@[9] * gk3@[1] -
   15120 * gk1@[5] * gk2@[3] * gk3@[2] - 15120 * gk1@[3] * gk2@[5] * gk3@[2] + 14850 * gk1@[7] * gk3@[3] - 39420 *
   gk1@[5] * gk2@[2] * gk3@[3] - 12150 * gk1@[4] * gk2@[3] * gk3@[3] - 12150 * gk1@[3] * gk2@[4] * gk3@[3] - 39420 *
   gk1@[2] * gk2@[5] * gk3@[3] + 14850 * gk2@[7] * gk3@[3] - 7560 * gk1@[3] * gk2@[3] * gk3@[4] - 14850 * gk1@[5] *
   gk3@[5] + 13770 * gk1@[3] * gk2@[2] * gk3@[5] + 13770 * gk1@[2] * gk2@[3] * gk3@[5] - 14850 * gk2@[5] * gk3@[5] +
   4950 * gk1@[3] * gk3@[7] + 4950 * gk2@[3] * gk3@[7]) * GPi * gq@[18].

(** src/gamma2d_1loop.c:1750-1792, kernel_beta[0] of kernel_gamma2d_reg3rd *)
Definition g2d_reg3rd_beta0 : gexpr :=
  GPi * ((- 840) * gk1@[10] * gk2@[7] * (gk2@[2] - gq@[2]) * (gk2@[2] - gq@[2]) * ((- 2) * gk3@[4] - 7 * gk3@[2] *
   gq@[2] + 9 * gq@[4]) / (GSqrt (gk3@[2] * (gk2@[2] - gq@[2]) + gq@[2] * (gk1@[2] - gk2@[2] + gq@[2]))) - 840 *
   gk1@[7] * gk2@[10] * (gk1@[2] - gq@[2]) * (gk1@[2] - gq@[2]) * ((- 2) * gk3@[4] - 7 * gk3@[2] * gq@[2] + 9 *
   gq@[4]) / (GSqrt (gk3@[2] * (gk1@[2] - gq@[2]) + gq@[2] * ((- gk1@[2]) + gk2@[2] + gq@[2]))) + 4320 * gk1@[7] *
   gk2@[7] * gk3@[3] * (gk1@[2] - gq@[2]) * (gk1@[2] - gq@[2]) * (gk2@[2] - gq@[2]) * (gk2@[2] - gq@[2]) / (GSqrt
   (gk1@[2] * (gk2@[2] - gq@[2]) + gq@[2] * ((- gk2@[2]) + gk3@[2] + gq@[2]))) - 4320 * gk1@[7] * gk2@[7] * gk3@[3]
   * (gk1@[2] - gq@[2]) * (gk1@[2] - gq@[2]) * (gk2@[2] - gq@[2]) * (gk2@[2] - gq@[2]) * (GPower (1 - (GSqrt
   (gk1@[2] * gk2@[2] + ((- gk1@[2]) - gk2@[2] + gk3@[2]) * gq@[2] + gq@[4])) / (gk3@[1] * gq@[1])) 2) / ((GSqrt
   (gk1@[2] * (gk2@[2] - gq@[2]) + gq@[2] * ((- gk2@[2]) + gk3@[2] + gq@[2]))) * (GPower (1 + (GSqrt (gk1@[2] *
   gk2@[2] + ((- gk1@[2]) - gk2@[2] + gk3@[2]) * gq@[2] + gq@[4])) / (gk3@[1] * gq@[1])) 2)) + 840 * gk1@[7] *
   gk2@[10] * (gk1@[2] - gq@[2]) * (gk1@[2] - gq@[2]) * ((- 2) * gk3@[4] - 7 * gk3@[2] * gq@[2] + 9 * gq@[4]) *
   (GPower (1 - (GSqrt (gk1@[2] * gk3@[2] - (gk1@[2] - gk2@[2] + gk3@[2]) * gq@[2] + gq@[4])) / (gk2@[1] * gq@[1]))
   2) / ((GSqrt (gk3@[2] * (gk1@[2] - gq@[2]) + gq@[2] * ((- gk1@[2]) + gk2@[2] + gq@[2]))) * (GPower (1 + (GSqrt
   (gk1@[2] * gk3@[2] - (gk1@[2] - gk2@[2] + gk3@[2]) * gq@[2] + gq@[4])) / (gk2@[1] * gq@[1])) 2)) + 840 * gk1@[10]
   * gk2@[7] * (gk2@[2] - gq@[2]) * (gk2@[2] - gq@[2]) * ((- 2) * gk3@[4] - 7 * gk3@[2] * gq@[2] + 9 * gq@[4]) *
   (GPower (1 - (GSqrt (gk2@[2] * gk3@[2] - ((- gk1@[2]) + gk2@[2] + gk3@[2]) * gq@[2] + gq@[4])) / (gk1@[1] *
   gq@[1])) 2) / ((GSqrt (gk3@[2] * (gk2@[2] - gq@[2]) + gq@[2] * (gk1@[2] - gk2@[2] + gq@[2]))) * (GPower (1 +
   (GSqrt (gk2@[2] * gk3@[2] - ((- gk1@[2]) + gk2@[2] + gk3@[2]) * gq@[2] + gq@[4])) / (gk1@[1] * gq@[1])) 2))) /
   (24837120 * gk1@[9] * gk2@[9] * gq@[5]).

(** src/gamma2d_1loop.c:1794-1810, kernel_beta[1] of kernel_gamma2d_reg3rd *)
Definition g2d_reg3rd_beta1 : gexpr :=
  (- (GPi * (gk1@[2] - gq@[2]) * (39 * gk1@[12] + 165 * (GPower (gk2@[2] - gk3@[2]) 3) * gq@[6] - gk1@[10] * (582 *
   gk2@[2] + 791 * gk3@[2] + 1947 * gq@[2]) - 3 * gk1@[2] * ((- gk2@[2]) + gk3@[2]) * gq@[4] * (85 * gk3@[4] - 3 *
   gk2@[2] * (186 * gk2@[2] + 95 * gq@[2]) + gk3@[2] * (473 * gk2@[2] + 153 * gq@[2])) + gk1@[8] * (51 * gk2@[4] +
   601 * gk3@[4] + 6891 * gk2@[2] * gq@[2] + 1689 * gq@[4] + gk3@[2] * (2120 * gk2@[2] + 1787 * gq@[2])) + gk1@[6] *
   (492 * gk2@[6] + 151 * gk3@[6] - 6465 * gk2@[4] * gq@[2] - 7284 * gk2@[2] * gq@[4] + 219 * gq@[6] + gk3@[4] *
   (390 * gk2@[2] + 179 * gq@[2]) + gk3@[2] * ((- 633) * gk2@[4] + 758 * gk2@[2] * gq@[2] - 1113 * gq@[4])) +
   gk1@[4] * gq@[2] * (1017 * gk2@[6] + 269 * gk3@[6] + 7269 * gk2@[4] * gq@[2] + 471 * gk2@[2] * gq@[4] + gk3@[4] *
   (391 * gk2@[2] - 321 * gq@[2]) + gk3@[2] * ((- 1677) * gk2@[4] - 4376 * gk2@[2] * gq@[2] + 405 * gq@[4]))) *
   (gk1@[1] + gq@[1]) * (gk1@[1] + gq@[1]) * (GSmallBeta gk1@[1] gq@[1]))) / (1655808 * gk1@[9] * gk2@[2] * gq@[5]).

(** src/gamma2d_1loop.c:1812-1834, kernel_beta[2] of kernel_gamma2d_reg3rd *)
Definition g2d_reg3rd_beta2 : gexpr :=
  (- (GPi * (gk2@[2] - gq@[2]) * (gk3@[6] * (151 * gk2@[6] + 269 * gk2@[4] * gq@[2] - 255 * gk2@[2] * gq@[4] - 165 *
   gq@[6]) + gk3@[4] * (601 * gk2@[8] + 179 * gk2@[6] * gq@[2] - 321 * gk2@[4] * gq@[4] - 459 * gk2@[2] * gq@[6] +
   gk1@[2] * (390 * gk2@[6] + 391 * gk2@[4] * gq@[2] - 1164 * gk2@[2] * gq@[4] + 495 * gq@[6])) + gk3@[2] * ((- 791)
   * gk2@[10] + 1787 * gk2@[8] * gq@[2] - 1113 * gk2@[6] * gq@[4] + 405 * gk2@[4] * gq@[6] - 3 * gk1@[4] * (211 *
   gk2@[6] + 559 * gk2@[4] * gq@[2] - 1031 * gk2@[2] * gq@[4] + 165 * gq@[6]) + 2 * gk1@[2] * (1060 * gk2@[8] + 379
   * gk2@[6] * gq@[2] - 2188 * gk2@[4] * gq@[4] + 657 * gk2@[2] * gq@[6])) + 3 * (gk1@[6] * (164 * gk2@[6] + 339 *
   gk2@[4] * gq@[2] - 558 * gk2@[2] * gq@[4] + 55 * gq@[6]) + gk2@[6] * (13 * gk2@[6] - 649 * gk2@[4] * gq@[2] + 563
   * gk2@[2] * gq@[4] + 73 * gq@[6]) + gk1@[4] * (17 * gk2@[8] - 2155 * gk2@[6] * gq@[2] + 2423 * gk2@[4] * gq@[4] -
   285 * gk2@[2] * gq@[6]) + gk1@[2] * ((- 194) * gk2@[10] + 2297 * gk2@[8] * gq@[2] - 2428 * gk2@[6] * gq@[4] + 157
   * gk2@[4] * gq@[6]))) * (gk2@[1] + gq@[1]) * (gk2@[1] + gq@[1]) * (GSmallBeta gk2@[1] gq@[1]))) / (1655808 *
   gk1@[2] * gk2@[9] * gq@[5]).

(** src/gamma2d_1loop.c:1836-1850, kernel_beta[3] of kernel_gamma2d_reg3rd *)
Definition g2d_reg3rd_beta3 : gexpr :=
  GPi * (2 * gk3@[2] + 9 * gq@[2]) * ((- 15) * (gk1@[2] + gk2@[2]) * gk3@[8] - 2 * gk3@[10] - 3 * (gk1@[2] -
   gk2@[2]) * (gk1@[2] - gk2@[2]) * gq@[4] * (gk1@[2] + gk2@[2] + 4 * gq@[2]) + 2 * gk3@[6] * (8 * gk1@[4] + 8 *
   gk2@[4] + 23 * gk2@[2] * gq@[2] - gq@[4] + gk1@[2] * ((- 16) * gk2@[2] + 23 * gq@[2])) + gk3@[4] * (gk1@[6] +
   gk2@[6] - 56 * gk2@[4] * gq@[2] - 47 * gk2@[2] * gq@[4] + 4 * gq@[6] - gk1@[4] * (9 * gk2@[2] + 56 * gq@[2]) +
   gk1@[2] * ((- 9) * gk2@[4] + 136 * gk2@[2] * gq@[2] - 47 * gq@[4])) + 2 * gk3@[2] * gq@[2] * (gk1@[6] + gk2@[6] +
   26 * gk2@[4] * gq@[2] + 4 * gk2@[2] * gq@[4] - gk1@[4] * (gk2@[2] - 26 * gq@[2]) - gk1@[2] * (gk2@[4] + 48 *
   gk2@[2] * gq@[2] - 4 * gq@[4]))) * (gk3@[1] + gq@[1]) * (gk3@[1] + gq@[1]) * (GSmallBeta gk3@[1] gq@[1]) /
   (236544 * gk1@[2] * gk2@[2] * gk3@[5] * gq@[5]).

(** src/gamma2d_1loop.c:1852-1857, kernel_beta[4] of kernel_gamma2d_reg3rd *)
Definition g2d_reg3rd_beta4 : gexpr :=
  3 * gk3@[3] * GPi * (gk1@[2] - gq@[2]) * (gk2@[2] - gq@[2]) * (GBigBeta gk1@[1] gk2@[1] gk3@[1] gq@[1]) / (17248 *
   gk1@[2] * gk2@[2] * gq@[5]) - (- gk2@[1]) * GPi * (2 * gk3@[2] + 9 * gq@[2]) * (gk1@[2] - gq@[2]) * (GBigBeta
   gk1@[1] gk3@[1] gk2@[1] gq@[1]) / (29568 * gk1@[2] * gq@[5]) - (- gk1@[1]) * GPi * (2 * gk3@[2] + 9 * gq@[2]) *
   (gk2@[2] - gq@[2]) * (GBigBeta gk2@[1] gk3@[1] gk1@[1] gq@[1]) / (29568 * gk2@[2] * gq@[5]).

Definition g2d_reg3rd_polys : list gexpr := (g2d_reg3rd_poly0 :: g2d_reg3rd_poly1 :: g2d_reg3rd_poly2 :: g2d_reg3rd_poly3 :: g2d_reg3rd_poly4 :: g2d_reg3rd_poly5 :: g2d_reg3rd_poly6 :: g2d_reg3rd_poly7 :: g2d_reg3rd_poly8 :: g2d_reg3rd_poly9 :: g2d_reg3rd_poly10 :: g2d_reg3rd_poly11 :: g2d_reg3rd_poly12 :: nil)%list.

Definition g2d_reg3rd_betas : list gexpr := (g2d_reg3rd_beta0 :: g2d_reg3rd_beta1 :: g2d_reg3rd_beta2 :: g2d_reg3rd_beta3 :: g2d_reg3rd_beta4 :: nil)%list.
