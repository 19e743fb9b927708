(** Gamma2tSrc: the expressions of src/gamma2t_1loop.c.  Generated by tools/gen_gamma2.py. *)
From Verif Require Import Base GExpr.
Local Open Scope gexpr_scope.

(** src/gamma2t_1loop.c:15-50, kernel1 of kernel_gamma2t_exact *)
Definition g2t_exact_kernel1 : gexpr :=
  GPi * (15 * gk1@[6] * gk2@[6] * gk3@[4] * ((gk1@[2] - gk2@[2]) * (gk1@[2] - gk2@[2]) * (13 * gk1@[4] - 4 * gk1@[2]
   * gk2@[2] + 13 * gk2@[4]) - (gk1@[2] + gk2@[2]) * (1977 * gk1@[4] - 4010 * gk1@[2] * gk2@[2] + 1977 * gk2@[4]) *
   gk3@[2] + (683 * gk1@[4] + 1252 * gk1@[2] * gk2@[2] + 683 * gk2@[4]) * gk3@[4] + 1169 * (gk1@[2] + gk2@[2]) *
   gk3@[6] + 112 * gk3@[8]) - 10 * gk1@[6] * gk2@[6] * gk3@[4] * (9 * (gk1@[2] + gk2@[2]) * (67 * gk1@[4] - 106 *
   gk1@[2] * gk2@[2] + 67 * gk2@[4]) + ((- 24507) * gk1@[4] + 50506 * gk1@[2] * gk2@[2] - 24507 * gk2@[4]) * gk3@[2]
   + 8119 * (gk1@[2] + gk2@[2]) * gk3@[4] + 13385 * gk3@[6]) * gq@[2] - gk1@[4] * gk2@[4] * gk3@[2] * (1260 *
   gk1@[2] * gk2@[2] * (gk1@[2] - gk2@[2]) * (gk1@[2] - gk2@[2]) * (gk1@[2] + gk2@[2]) + ((- 19475) * gk1@[8] +
   93542 * gk1@[6] * gk2@[2] - 160734 * gk1@[4] * gk2@[4] + 93542 * gk1@[2] * gk2@[6] - 19475 * gk2@[8]) * gk3@[2] +
   4 * (gk1@[2] + gk2@[2]) * (345 * gk1@[4] + 628 * gk1@[2] * gk2@[2] + 345 * gk2@[4]) * gk3@[4] + (50385 * gk1@[4]
   + 92816 * gk1@[2] * gk2@[2] + 50385 * gk2@[4]) * gk3@[6] - 32290 * (gk1@[2] + gk2@[2]) * gk3@[8]) * gq@[4] - 5 *
   gk1@[2] * gk2@[2] * (189 * gk1@[4] * gk2@[4] * (gk1@[2] - gk2@[2]) * (gk1@[2] - gk2@[2]) * (gk1@[2] + gk2@[2]) -
   252 * gk1@[4] * gk2@[4] * (7 * gk1@[4] - 12 * gk1@[2] * gk2@[2] + 7 * gk2@[4]) * gk3@[2] + (gk1@[2] + gk2@[2]) *
   (1949 * gk1@[8] - 10643 * gk1@[6] * gk2@[2] + 19341 * gk1@[4] * gk2@[4] - 10643 * gk1@[2] * gk2@[6] + 1949 *
   gk2@[8]) * gk3@[4] + 6 * ((- 235) * gk1@[8] + 757 * gk1@[6] * gk2@[2] + 137 * gk1@[4] * gk2@[4] + 757 * gk1@[2] *
   gk2@[6] - 235 * gk2@[8]) * gk3@[6] - 3 * (gk1@[2] + gk2@[2]) * (1009 * gk1@[4] - 421 * gk1@[2] * gk2@[2] + 1009 *
   gk2@[4]) * gk3@[8] + 2488 * (gk1@[4] + gk2@[4]) * gk3@[10]) * gq@[6] + 15 * ((- 252) * gk1@[6] * gk2@[6] *
   (gk1@[2] - gk2@[2]) * (gk1@[2] - gk2@[2]) + 168 * gk1@[6] * gk2@[6] * (gk1@[2] + gk2@[2]) * gk3@[2] + (55 *
   gk1@[12] - 285 * gk1@[10] * gk2@[2] + 157 * gk1@[8] * gk2@[4] + 230 * gk1@[6] * gk2@[6] + 157 * gk1@[4] * gk2@[8]
   - 285 * gk1@[2] * gk2@[10] + 55 * gk2@[12]) * gk3@[4] - 3 * (gk1@[2] + gk2@[2]) * (55 * gk1@[8] - 201 * gk1@[6] *
   gk2@[2] + 156 * gk1@[4] * gk2@[4] - 201 * gk1@[2] * gk2@[6] + 55 * gk2@[8]) * gk3@[6] + 3 * (55 * gk1@[8] - 51 *
   gk1@[6] * gk2@[2] - 51 * gk1@[2] * gk2@[6] + 55 * gk2@[8]) * gk3@[8] - 55 * (gk1@[6] + gk2@[6]) * gk3@[10]) *
   gq@[8]) / (1552320 * gk1@[8] * gk2@[8] * gk3@[4] * gq@[4]).

(** src/gamma2t_1loop.c:52-68, kernel2 of kernel_gamma2t_exact *)
Definition g2t_exact_kernel2 : gexpr :=
  (- (GPi * (gk1@[1] - gq@[1]) * (gk1@[1] - gq@[1]) * (gk1@[1] + gq@[1]) * (gk1@[1] + gq@[1]) * (13 * gk1@[12] + 55
   * (GPower (gk2@[2] - gk3@[2]) 3) * gq@[6] - gk1@[10] * (194 * gk2@[2] + 1921 * gk3@[2] + 649 * gq@[2]) + gk1@[6]
   * (164 * gk2@[6] + 801 * gk2@[4] * gk3@[2] + 306 * gk2@[2] * gk3@[4] + 329 * gk3@[6] - (2155 * gk2@[4] + 3414 *
   gk2@[2] * gk3@[2] + 1759 * gk3@[4]) * gq@[2] + ((- 2428) * gk2@[2] + 25 * gk3@[2]) * gq@[4] + 73 * gq@[6]) - 3 *
   gk1@[2] * (gk2@[1] - gk3@[1]) * (gk2@[1] + gk3@[1]) * gq@[4] * (186 * gk2@[4] - 307 * gk3@[4] - 51 * gk3@[2] *
   gq@[2] + gk2@[2] * (121 * gk3@[2] + 95 * gq@[2])) + gk1@[8] * (17 * gk2@[4] + 1579 * gk3@[4] + 2913 * gk3@[2] *
   gq@[2] + 563 * gq@[4] + gk2@[2] * (1176 * gk3@[2] + 2297 * gq@[2])) + gk1@[4] * gq@[2] * (339 * gk2@[6] + 647 *
   gk3@[6] + 333 * gk3@[4] * gq@[2] + 135 * gk3@[2] * gq@[4] + gk2@[4] * (321 * gk3@[2] + 2423 * gq@[2]) + gk2@[2] *
   ((- 1307) * gk3@[4] - 784 * gk3@[2] * gq@[2] + 157 * gq@[4]))) * (GLFunc gk1@[1] gq@[1]))) / (413952 * gk1@[9] *
   gk2@[2] * gq@[5]).

(** src/gamma2t_1loop.c:70-87, kernel3 of kernel_gamma2t_exact *)
Definition g2t_exact_kernel3 : gexpr :=
  (- (GPi * (gk2@[1] - gq@[1]) * (gk2@[1] - gq@[1]) * (gk2@[1] + gq@[1]) * (gk2@[1] + gq@[1]) * (gk2@[6] * (164 *
   gk1@[6] + gk1@[4] * (17 * gk2@[2] + 801 * gk3@[2]) + (gk2@[1] - gk3@[1]) * (gk2@[1] + gk3@[1]) * (13 * gk2@[4] -
   1908 * gk2@[2] * gk3@[2] - 329 * gk3@[4]) + 2 * gk1@[2] * ((- 97) * gk2@[4] + 588 * gk2@[2] * gk3@[2] + 153 *
   gk3@[4])) + gk2@[4] * (339 * gk1@[6] - 649 * gk2@[6] + 2913 * gk2@[4] * gk3@[2] - 1759 * gk2@[2] * gk3@[4] + 647
   * gk3@[6] + gk1@[4] * ((- 2155) * gk2@[2] + 321 * gk3@[2]) + gk1@[2] * (2297 * gk2@[4] - 3414 * gk2@[2] * gk3@[2]
   - 1307 * gk3@[4])) * gq@[2] + gk2@[2] * ((- 558) * gk1@[6] + gk1@[4] * (2423 * gk2@[2] + 195 * gk3@[2]) - 4 *
   gk1@[2] * (607 * gk2@[4] + 196 * gk2@[2] * gk3@[2] - 321 * gk3@[4]) + (gk2@[1] - gk3@[1]) * (gk2@[1] + gk3@[1]) *
   (563 * gk2@[4] + 588 * gk2@[2] * gk3@[2] + 921 * gk3@[4])) * gq@[4] + (55 * gk1@[6] - 15 * gk1@[4] * (19 *
   gk2@[2] + 11 * gk3@[2]) + (gk2@[1] - gk3@[1]) * (gk2@[1] + gk3@[1]) * (73 * gk2@[4] + 208 * gk2@[2] * gk3@[2] +
   55 * gk3@[4]) + gk1@[2] * (157 * gk2@[4] + 438 * gk2@[2] * gk3@[2] + 165 * gk3@[4])) * gq@[6]) * (GLFunc gk2@[1]
   gq@[1]))) / (413952 * gk1@[2] * gk2@[9] * gq@[5]).

(** src/gamma2t_1loop.c:89-101, kernel4 of kernel_gamma2t_exact *)
Definition g2t_exact_kernel4 : gexpr :=
  GPi * (gk3@[1] - gq@[1]) * (gk3@[1] + gq@[1]) * (8 * gk3@[2] + 3 * gq@[2]) * (gk3@[4] * (gk1@[6] - 9 * gk1@[4] *
   gk2@[2] - 9 * gk1@[2] * gk2@[4] + gk2@[6] + 16 * (gk1@[2] - gk2@[2]) * (gk1@[2] - gk2@[2]) * gk3@[2] - 15 *
   (gk1@[2] + gk2@[2]) * gk3@[4] - 2 * gk3@[6]) + 2 * gk3@[2] * ((gk1@[2] - gk2@[2]) * (gk1@[2] - gk2@[2]) *
   (gk1@[2] + gk2@[2]) - 4 * (7 * gk1@[4] - 17 * gk1@[2] * gk2@[2] + 7 * gk2@[4]) * gk3@[2] + 23 * (gk1@[2] +
   gk2@[2]) * gk3@[4]) * gq@[2] - (3 * (gk1@[2] - gk2@[2]) * (gk1@[2] - gk2@[2]) * (gk1@[2] + gk2@[2]) - 4 * (13 *
   gk1@[4] - 24 * gk1@[2] * gk2@[2] + 13 * gk2@[4]) * gk3@[2] + 47 * (gk1@[2] + gk2@[2]) * gk3@[4] + 2 * gk3@[6]) *
   gq@[4] + 4 * ((- 3) * (gk1@[2] - gk2@[2]) * (gk1@[2] - gk2@[2]) + 2 * (gk1@[2] + gk2@[2]) * gk3@[2] + gk3@[4]) *
   gq@[6]) * (GLFunc gk3@[1] gq@[1]) / (59136 * gk1@[2] * gk2@[2] * gk3@[5] * gq@[5]).

(** src/gamma2t_1loop.c:103-109, kernel5 of kernel_gamma2t_exact *)
Definition g2t_exact_kernel5 : gexpr :=
  3 * gk3@[3] * GPi * (gk1@[2] - gq@[2]) * (gk1@[2] - gq@[2]) * ((- gk2@[2]) + gq@[2]) * ((- gk2@[2]) + gq@[2]) *
   (GWFunc gk1@[1] gk2@[1] gk3@[1] gq@[1]) / (1078 * gk1@[2] * gk2@[2] * gq@[5] * (GSqrt (gk1@[2] * gk2@[2] -
   (gk1@[2] + gk2@[2] - gk3@[2]) * gq@[2] + gq@[4]))) + gk2@[1] * GPi * (gk1@[1] - gq@[1]) * (gk1@[1] - gq@[1]) *
   (gk3@[1] - gq@[1]) * (gk1@[1] + gq@[1]) * (gk1@[1] + gq@[1]) * (gk3@[1] + gq@[1]) * (8 * gk3@[2] + 3 * gq@[2]) *
   (GWFunc gk1@[1] gk3@[1] gk2@[1] gq@[1]) / (7392 * gk1@[2] * gq@[5] * (GSqrt (gk1@[2] * gk3@[2] - (gk1@[2] -
   gk2@[2] + gk3@[2]) * gq@[2] + gq@[4]))).

(** src/gamma2t_1loop.c:111-114, kernel6 of kernel_gamma2t_exact *)
Definition g2t_exact_kernel6 : gexpr :=
  gk1@[1] * GPi * (gk2@[1] - gq@[1]) * (gk2@[1] - gq@[1]) * (gk3@[1] - gq@[1]) * (gk2@[1] + gq@[1]) * (gk2@[1] +
   gq@[1]) * (gk3@[1] + gq@[1]) * (8 * gk3@[2] + 3 * gq@[2]) * (GWFunc gk2@[1] gk3@[1] gk1@[1] gq@[1]) / (7392 *
   gk2@[2] * gq@[5] * (GSqrt (gk1@[2] * gq@[2] + (gk2@[1] - gq@[1]) * (gk3@[1] - gq@[1]) * (gk2@[1] + gq@[1]) *
   (gk3@[1] + gq@[1])))).

(** src/gamma2t_1loop.c:124-188, return of kernel_gamma2t_iso *)
Definition g2t_iso : gexpr :=
  GPi * ((- 60) * geps@[1] * (gk1@[1] - gq@[1]) * gq@[1] * (gk1@[1] + gq@[1]) * (55 * gk3@[6] * gq@[6] - 56 *
   gk1@[10] * (gk3@[2] - 3 * gq@[2]) - 5 * gk1@[8] * (377 * gk3@[4] - 36 * gk3@[2] * gq@[2]) + gk1@[6] * ((- 329) *
   gk3@[6] + 3066 * gk3@[4] * gq@[2] + 564 * gk3@[2] * gq@[4]) - gk1@[4] * (647 * gk3@[6] * gq@[2] + 1617 * gk3@[4]
   * gq@[4] + 408 * gk3@[2] * gq@[6]) + 3 * gk1@[2] * (307 * gk3@[6] * gq@[4] - 4 * gk3@[4] * gq@[6])) / gk1@[10] +
   8 * gq@[1] * (8640 * geps@[1] * gk3@[4] * (GPower ((- gk1@[2]) + gq@[2]) 3) / (gk1@[2] * (gk1@[4] - 2 * gk1@[2] *
   gq@[2] + gk3@[2] * gq@[2] + gq@[4])) - 420 * geps@[1] * (gk1@[2] - gq@[2]) * (gk1@[2] - gq@[2]) * ((- 8) *
   gk3@[4] + 5 * gk3@[2] * gq@[2] + 3 * gq@[4]) / (gk1@[2] * gk3@[2] - gk3@[2] * gq@[2] + gq@[4]) + ((- 420) *
   geps@[1] * gk1@[12] * gk3@[2] * (gk1@[1] - gq@[1]) * (gk3@[1] - gq@[1]) * (gk1@[1] + gq@[1]) * (gk3@[1] + gq@[1])
   * (8 * gk3@[2] + 3 * gq@[2]) + (gk1@[2] * gk3@[2] - gk3@[2] * gq@[2] + gq@[4]) * (825 * ((- 1) + 5 * geps@[1]) *
   gk3@[8] * gq@[8] + 20 * ((- 1) + 4 * geps@[1]) * gk1@[2] * gk3@[6] * gq@[6] * (622 * gk3@[2] - 9 * gq@[2]) + 840
   * (1 + geps@[1]) * gk1@[12] * gk3@[2] * (gk3@[2] - 3 * gq@[2]) - 5 * ((- 1) + 3 * geps@[1]) * gk1@[4] * gk3@[4] *
   gq@[4] * (6458 * gk3@[4] + 4791 * gk3@[2] * gq@[2] + 1224 * gq@[4]) + 5 * gk1@[10] * (3927 * gk3@[6] - 1492 *
   gk3@[4] * gq@[2] + 1260 * gk3@[2] * gq@[4] + 252 * gq@[6]) - ((- 1) + 2 * geps@[1]) * gk1@[6] * gk3@[2] * (840 *
   gk3@[8] - 66925 * gk3@[6] * gq@[2] - 96793 * gk3@[4] * gq@[4] - 17715 * gk3@[2] * gq@[6] + 630 * gq@[8]) - ((- 1)
   + geps@[1]) * gk1@[8] * (17535 * gk3@[8] - 81190 * gk3@[6] * gq@[2] - 5272 * gk3@[4] * gq@[4] - 9765 * gk3@[2] *
   gq@[6] + 2520 * gq@[8]))) / (gk1@[10] * gk3@[2] * (gk1@[2] * gk3@[2] - gk3@[2] * gq@[2] + gq@[4]))) + 15 * (55 *
   (2 - 11 * geps@[1]) * gk3@[6] * gq@[10] - ((- 2) + 9 * geps@[1]) * gk1@[2] * gk3@[4] * gq@[8] * (811 * gk3@[2] -
   12 * gq@[2]) - 56 * (2 + 3 * geps@[1]) * gk1@[14] * (gk3@[2] - 3 * gq@[2]) - ((- 2) + 3 * geps@[1]) * gk1@[8] *
   gk3@[2] * gq@[2] * (11 * gk3@[4] - 9634 * gk3@[2] * gq@[2] - 1356 * gq@[4]) - (2 + geps@[1]) * gk1@[12] * (1885 *
   gk3@[4] - 292 * gk3@[2] * gq@[2] + 336 * gq@[4]) + ((- 2) + 7 * geps@[1]) * gk1@[4] * gk3@[2] * gq@[6] * (2434 *
   gk3@[4] + 1593 * gk3@[2] * gq@[2] + 408 * gq@[4]) - 2 * ((- 2) + 5 * geps@[1]) * gk1@[6] * gk3@[2] * gq@[4] *
   (943 * gk3@[4] + 3144 * gk3@[2] * gq@[2] + 690 * gq@[4]) + ((- 2) + geps@[1]) * gk1@[10] * (329 * gk3@[6] - 6836
   * gk3@[4] * gq@[2] - 148 * gk3@[2] * gq@[4] - 168 * gq@[6])) * 2 * (GLog ((GAbs ((gk1@[1] + gq@[1]) / (gk1@[1] -
   gq@[1]))))) / gk1@[11] - 210 * (gk3@[1] - gq@[1]) * (gk3@[1] + gq@[1]) * (8 * gk3@[2] + 3 * gq@[2]) * (8 * (1 +
   geps@[1]) * gk1@[6] * gk3@[2] - 4 * gk1@[4] * (3 * gk3@[2] * gq@[2] + gq@[4]) - ((- 1) + geps@[1]) * gk1@[2] *
   (15 * gk3@[6] - 46 * gk3@[4] * gq@[2] + 47 * gk3@[2] * gq@[4] - 8 * gq@[6]) - ((- 1) + 2 * geps@[1]) * gk3@[2] *
   (gk3@[6] + gk3@[2] * gq@[4] - 2 * gq@[6])) * 2 * (GLog ((GAbs ((gk3@[1] + gq@[1]) / (gk3@[1] - gq@[1]))))) /
   (gk1@[4] * gk3@[3]) + 840 * ((- gk1@[2]) + gq@[2]) * ((- 8) * gk3@[4] + 5 * gk3@[2] * gq@[2] + 3 * gq@[4]) * (2 *
   (1 + geps@[1]) * gk1@[4] * gk3@[2] + ((- 2) + geps@[1]) * gq@[4] * ((- gk3@[2]) + gq@[2]) + gk1@[2] * gq@[2] *
   ((- ((4 + geps@[1]) * gk3@[2])) + (2 + 3 * geps@[1]) * gq@[2])) * (GLog (((- (gk3@[2] * gq@[2])) + gq@[4] +
   gk1@[2] * (gk3@[2] + gq@[2]) + 2 * gk1@[1] * gq@[1] * (GSqrt (gk1@[2] * gk3@[2] - gk3@[2] * gq@[2] + gq@[4]))) /
   ((- (gk3@[2] * gq@[2])) + gq@[4] + gk1@[2] * (gk3@[2] + gq@[2]) - 2 * gk1@[1] * gq@[1] * (GSqrt (gk1@[2] *
   gk3@[2] - gk3@[2] * gq@[2] + gq@[4]))))) / (GPow (gk1@[1] * (gk1@[2] * gk3@[2] - gk3@[2] * gq@[2] + gq@[4]))
   (GLit 15 1)) + 17280 * gk3@[3] * (GPower (gk1@[2] - gq@[2]) 3) * ((1 + geps@[1]) * gk1@[6] - 3 * gk1@[4] * gq@[2]
   + ((- 1) + 2 * geps@[1]) * gq@[4] * (gk3@[2] + gq@[2]) + gk1@[2] * gq@[2] * ((1 + 2 * geps@[1]) * gk3@[2] - 3 *
   ((- 1) + geps@[1]) * gq@[2])) * (GLog ((- ((4 * gk3@[2] * gq@[2] + 2 * (gk1@[2] - gq@[2]) * (gk1@[2] - gq@[2]) +
   4 * gk3@[1] * gq@[1] * (GSqrt (gk1@[4] + ((- 2) * gk1@[2] + gk3@[2]) * gq@[2] + gq@[4]))) / ((- 4) * gk3@[2] *
   gq@[2] - 2 * (gk1@[2] - gq@[2]) * (gk1@[2] - gq@[2]) + 4 * gk3@[1] * gq@[1] * (GSqrt (gk1@[4] + ((- 2) * gk1@[2]
   + gk3@[2]) * gq@[2] + gq@[4]))))))) / (gk1@[4] * (GPow (gk1@[4] - 2 * gk1@[2] * gq@[2] + gk3@[2] * gq@[2] +
   gq@[4]) (GLit 15 1)))) / (6209280 * gq@[5]).

(** src/gamma2t_1loop.c:196-218, return of kernel_gamma2t_highk *)
Definition g2t_highk : gexpr :=
  GPi * (8085 * gk1@[4] * gk2@[4] * gk3@[6] * (3 * (gk1@[2] - gk2@[2]) * (gk1@[2] - gk2@[2]) + (gk1@[2] + gk2@[2]) *
   gk3@[2] - 4 * gk3@[4]) + 7 * gk1@[2] * gk2@[2] * gk3@[2] * (112 * (GPow (gk1@[2] - gk2@[2]) 4) * (gk1@[2] +
   gk2@[2]) + (gk1@[2] - gk2@[2]) * (gk1@[2] - gk2@[2]) * (1094 * gk1@[4] - 2779 * gk1@[2] * gk2@[2] + 1094 *
   gk2@[4]) * gk3@[2] - 2 * (gk1@[2] + gk2@[2]) * (42 * gk1@[4] + 661 * gk1@[2] * gk2@[2] + 42 * gk2@[4]) * gk3@[4]
   - (3274 * gk1@[4] + 6243 * gk1@[2] * gk2@[2] + 3274 * gk2@[4]) * gk3@[6] + 1864 * (gk1@[2] + gk2@[2]) * gk3@[8] +
   288 * gk3@[10]) * gq@[2] + ((- 14) * (GPower ((gk1@[1] - gk2@[1]) * (gk1@[1] + gk2@[1])) 4) * (gk1@[2] + gk2@[2])
   * (48 * gk1@[4] + 11 * gk1@[2] * gk2@[2] + 48 * gk2@[4]) + 7 * (112 * gk1@[12] + 81 * gk1@[8] * gk2@[4] - 386 *
   gk1@[6] * gk2@[6] + 81 * gk1@[4] * gk2@[8] + 112 * gk2@[12]) * gk3@[2] - 2 * (gk1@[2] + gk2@[2]) * (2999 *
   gk1@[8] - 16730 * gk1@[6] * gk2@[2] + 27861 * gk1@[4] * gk2@[4] - 16730 * gk1@[2] * gk2@[6] + 2999 * gk2@[8]) *
   gk3@[4] + (2388 * gk1@[8] - 5012 * gk1@[6] * gk2@[2] - 9865 * gk1@[4] * gk2@[4] - 5012 * gk1@[2] * gk2@[6] + 2388
   * gk2@[8]) * gk3@[6] + 34 * (gk1@[2] + gk2@[2]) * (353 * gk1@[4] - 149 * gk1@[2] * gk2@[2] + 353 * gk2@[4]) *
   gk3@[8] - 8792 * (gk1@[4] + gk2@[4]) * gk3@[10] + 2016 * (gk1@[2] + gk2@[2]) * gk3@[12] - 1728 * gk3@[14]) *
   gq@[4]) / (339570 * gk1@[6] * gk2@[6] * gk3@[4] * gq@[2]).

(** src/gamma2t_1loop.c:226-238, return of kernel_gamma2t_lowk *)
Definition g2t_lowk : gexpr :=
  GPi * (2426 * gk1@[8] - 8 * gk1@[6] * (1555 * gk2@[2] + 7770 * gk3@[2] + 1503 * gq@[2]) + gk1@[2] * ((- 12440) *
   gk2@[6] + 76656 * gk2@[4] * gk3@[2] + 105102 * gk2@[2] * gk3@[4] + 34882 * gk3@[6] + 9 * (1336 * gk2@[4] - 60504
   * gk2@[2] * gk3@[2] - 19531 * gk3@[4]) * gq@[2]) + (gk2@[1] - gk3@[1]) * (gk2@[1] + gk3@[1]) * (2426 * gk2@[6] -
   59734 * gk2@[4] * gk3@[2] - 42841 * gk2@[2] * gk3@[4] - 7959 * gk3@[6] + 9 * ((- 1336) * gk2@[4] + 27412 *
   gk2@[2] * gk3@[2] + 7881 * gk3@[4]) * gq@[2]) + 3 * gk1@[4] * (6676 * gk2@[4] + 5631 * gk3@[4] + 86244 * gk3@[2]
   * gq@[2] + 8 * gk2@[2] * (3194 * gk3@[2] + 501 * gq@[2]))) / (1018710 * gk1@[2] * gk2@[2] * gq@[4]).

(** src/gamma2t_1loop.c:255-342, return of kernel_gamma2t_elongate *)
Definition g2t_elongate : gexpr :=
  GPi * (4 * gk@[16] * gq@[1] * (42100 * gk@[6] + 86573 * gk3@[6] - 1473132 * gk3@[4] * gq@[2] - 927150 * gk3@[2] *
   gq@[4] - 139020 * gq@[6] + 3 * gk@[4] * (121079 * gk3@[2] - 512318 * gq@[2]) + 3 * gk@[2] * (116030 * gk3@[4] -
   680530 * gk3@[2] * gq@[2] - 674877 * gq@[4])) / 21 - 4 * gk@[10] * gq@[1] * (450 * gk@[12] * gk3@[4] - 2475 *
   gk3@[8] * gq@[8] - 15 * gk@[10] * (2033 * gk3@[6] + 234 * gk3@[4] * gq@[2] + 84 * gk3@[2] * gq@[4] + 63 * gq@[6])
   - 2 * gk@[8] * (9390 * gk3@[8] - 252530 * gk3@[6] * gq@[2] + 80367 * gk3@[4] * gq@[4] - 7560 * gk3@[2] * gq@[6] +
   3780 * gq@[8]) + gk@[6] * ((- 17535) * gk3@[10] + 81190 * gk3@[8] * gq@[2] + 3892 * gk3@[6] * gq@[4] + 43490 *
   gk3@[4] * gq@[6] - 2520 * gk3@[2] * gq@[8]) + 15 * gk@[4] * (3359 * gk3@[8] * gq@[4] + 1514 * gk3@[6] * gq@[6] -
   157 * gk3@[4] * gq@[8]) - 15 * gk@[2] * (1009 * gk3@[8] * gq@[6] + 438 * gk3@[6] * gq@[8])) / gk3@[4] - 15 *
   gk@[9] * (gk@[1] - gq@[1]) * (gk@[1] - gq@[1]) * (gk@[1] + gq@[1]) * (gk@[1] + gq@[1]) * ((- 194) * gk@[10] + 165
   * gk3@[4] * gq@[6] + gk@[8] * (1176 * gk3@[2] + 2297 * gq@[2]) + gk@[6] * (306 * gk3@[4] - 3414 * gk3@[2] *
   gq@[2] - 2428 * gq@[4]) + gk@[4] * ((- 1307) * gk3@[4] * gq@[2] - 784 * gk3@[2] * gq@[4] + 157 * gq@[6]) + 6 *
   gk@[2] * (214 * gk3@[4] * gq@[4] + 73 * gk3@[2] * gq@[6])) * 2 * (GLog ((GAbs ((gk@[1] + gq@[1]) / (gk@[1] -
   gq@[1]))))) - 105 * gk@[16] * (gk3@[1] - gq@[1]) * (gk3@[1] + gq@[1]) * (8 * gk3@[2] + 3 * gq@[2]) * (15 *
   gk3@[8] - 46 * gk3@[6] * gq@[2] + 47 * gk3@[4] * gq@[4] - 8 * gk3@[2] * gq@[6] + gk@[4] * (9 * gk3@[4] + 2 *
   gk3@[2] * gq@[2] - 3 * gq@[4]) + 8 * gk@[2] * (4 * gk3@[6] - 17 * gk3@[4] * gq@[2] + 12 * gk3@[2] * gq@[4] - 3 *
   gq@[6])) * 2 * (GLog ((GAbs ((gk3@[1] + gq@[1]) / (gk3@[1] - gq@[1]))))) / gk3@[5] + 420 * gk@[19] * gq@[3] * ((-
   gk3@[1]) + gq@[1]) * (gk3@[1] + gq@[1]) * (8 * gk3@[2] + 3 * gq@[2]) * ((- 4) * gk@[1] * (GSqrt (gq@[2] * (gk@[2]
   - gk3@[2] + gq@[2]))) + gq@[1] * (4 * gk@[2] - 3 * gk3@[2] + 3 * gq@[2]) * (GLog ((2 * gk@[2] * gq@[1] - gk3@[2]
   * gq@[1] + gq@[3] + 2 * gk@[1] * (GSqrt (gq@[2] * (gk@[2] - gk3@[2] + gq@[2])))) / (2 * gk@[2] * gq@[1] - gk3@[2]
   * gq@[1] + gq@[3] - 2 * gk@[1] * (GSqrt (gq@[2] * (gk@[2] - gk3@[2] + gq@[2]))))))) / (GPow (gq@[2] * (gk@[2] -
   gk3@[2] + gq@[2])) (GLit 15 1)) + 8640 * gk@[16] * gk3@[3] * gq@[3] * (gk@[2] - gq@[2]) * (gk@[2] - gq@[2]) * (4
   * gk3@[1] * (GSqrt (gq@[2] * ((- gk@[2]) + gk3@[2] + gq@[2]))) + gq@[1] * (3 * gk@[2] - 4 * gk3@[2] - 3 * gq@[2])
   * (GLog ((- (((- (gk@[2] * gq@[1])) + 2 * gk3@[2] * gq@[1] + gq@[3] + 2 * gk3@[1] * (GSqrt (gq@[2] * ((- gk@[2])
   + gk3@[2] + gq@[2])))) / (gk@[2] * gq@[1] - 2 * gk3@[2] * gq@[1] - gq@[3] + 2 * gk3@[1] * (GSqrt (gq@[2] * ((-
   gk@[2]) + gk3@[2] + gq@[2]))))))))) / (GPow (gq@[2] * ((- gk@[2]) + gk3@[2] + gq@[2])) (GLit 15 1)) + (4 *
   gk@[14] * gq@[3] * (72913 * gk@[6] + 130696 * gk3@[6] + 251538 * gk3@[4] * gq@[2] + 21000 * gk3@[2] * gq@[4] -
   7665 * gq@[6] + gk@[4] * ((- 37530) * gk3@[2] + 666260 * gq@[2]) + gk@[2] * ((- 334079) * gk3@[4] + 196742 *
   gk3@[2] * gq@[2] + 282415 * gq@[4])) / 7 + 4 * gk@[8] * gq@[1] * (195 * gk@[14] * gk3@[4] - 825 * gk3@[10] *
   gq@[8] - 5 * gk@[2] * gk3@[8] * gq@[6] * (2488 * gk3@[2] + 459 * gq@[2]) + 5 * gk@[4] * gk3@[6] * gq@[4] * (6458
   * gk3@[4] + 1764 * gk3@[2] * gq@[2] + 405 * gq@[4]) - 45 * gk@[12] * (659 * gk3@[6] + 134 * gk3@[4] * gq@[2] + 28
   * gk3@[2] * gq@[4] + 21 * gq@[6]) + gk@[10] * (10245 * gk3@[8] + 245070 * gk3@[6] * gq@[2] - 93542 * gk3@[4] *
   gq@[4] + 8820 * gk3@[2] * gq@[6] - 3780 * gq@[8]) + 2 * gk@[6] * gk3@[4] * (840 * gk3@[8] - 66925 * gk3@[6] *
   gq@[2] - 46408 * gk3@[4] * gq@[4] - 2055 * gk3@[2] * gq@[6] + 1725 * gq@[8]) + gk@[8] * gk3@[2] * (17535 *
   gk3@[8] - 81190 * gk3@[6] * gq@[2] - 3892 * gk3@[4] * gq@[4] - 43490 * gk3@[2] * gq@[6] + 2520 * gq@[8])) /
   gk3@[4] - 15 * gk@[7] * (gk@[1] - gq@[1]) * (gk@[1] - gq@[1]) * (gk@[1] + gq@[1]) * (gk@[1] + gq@[1]) * (13 *
   gk@[12] - 55 * gk3@[6] * gq@[6] - gk@[10] * (1921 * gk3@[2] + 649 * gq@[2]) + gk@[8] * (1579 * gk3@[4] + 2913 *
   gk3@[2] * gq@[2] + 563 * gq@[4]) + gk@[6] * (329 * gk3@[6] - 1759 * gk3@[4] * gq@[2] + 25 * gk3@[2] * gq@[4] + 73
   * gq@[6]) + gk@[4] * (647 * gk3@[6] * gq@[2] + 333 * gk3@[4] * gq@[4] + 135 * gk3@[2] * gq@[6]) - 3 * gk@[2] *
   (307 * gk3@[6] * gq@[4] + 51 * gk3@[4] * gq@[6])) * 2 * (GLog ((GAbs ((gk@[1] + gq@[1]) / (gk@[1] - gq@[1]))))) +
   105 * gk@[14] * (gk3@[1] - gq@[1]) * (gk3@[1] + gq@[1]) * (8 * gk3@[2] + 3 * gq@[2]) * (gk@[6] * (gk3@[4] + 2 *
   gk3@[2] * gq@[2] - 3 * gq@[4]) + 4 * gk@[4] * (4 * gk3@[6] - 14 * gk3@[4] * gq@[2] + 13 * gk3@[2] * gq@[4] - 3 *
   gq@[6]) - 2 * gk3@[4] * (gk3@[6] + gk3@[2] * gq@[4] - 2 * gq@[6]) + gk@[2] * ((- 15) * gk3@[8] + 46 * gk3@[6] *
   gq@[2] - 47 * gk3@[4] * gq@[4] + 8 * gk3@[2] * gq@[6])) * 2 * (GLog ((GAbs ((gk3@[1] + gq@[1]) / (gk3@[1] -
   gq@[1]))))) / gk3@[5] - 840 * gk@[17] * gq@[4] * ((- gk3@[1]) + gq@[1]) * (gk3@[1] + gq@[1]) * (8 * gk3@[2] + 3 *
   gq@[2]) * (GLog ((2 * gk@[2] * gq@[1] - gk3@[2] * gq@[1] + gq@[3] + 2 * gk@[1] * (GSqrt (gq@[2] * (gk@[2] -
   gk3@[2] + gq@[2])))) / (2 * gk@[2] * gq@[1] - gk3@[2] * gq@[1] + gq@[3] - 2 * gk@[1] * (GSqrt (gq@[2] * (gk@[2] -
   gk3@[2] + gq@[2])))))) / (GSqrt (gq@[2] * (gk@[2] - gk3@[2] + gq@[2]))) + 17280 * gk@[14] * gk3@[3] * gq@[4] *
   (gk@[2] - gq@[2]) * (gk@[2] - gq@[2]) * (GLog ((- (((- (gk@[2] * gq@[1])) + 2 * gk3@[2] * gq@[1] + gq@[3] + 2 *
   gk3@[1] * (GSqrt (gq@[2] * ((- gk@[2]) + gk3@[2] + gq@[2])))) / (gk@[2] * gq@[1] - 2 * gk3@[2] * gq@[1] - gq@[3]
   + 2 * gk3@[1] * (GSqrt (gq@[2] * ((- gk@[2]) + gk3@[2] + gq@[2])))))))) / (GSqrt (gq@[2] * ((- gk@[2]) + gk3@[2]
   + gq@[2])))) / geps@[2]) / (6209280 * gk@[18] * gq@[5]).

(** src/gamma2t_1loop.c:351-493, return of kernel_gamma2t_coll *)
Definition g2t_coll : gexpr :=
  GPi * ((- 84) * gk1@[7] * gk2@[7] * gq@[3] * (161 * gk1@[6] + 161 * gk2@[6] + 1064 * gk2@[4] * gq@[2] - 465 *
   gk2@[2] * gq@[4] + 60 * gq@[6] + gk1@[4] * ((- 281) * gk2@[2] + 1064 * gq@[2]) - gk1@[2] * (281 * gk2@[4] + 1528
   * gk2@[2] * gq@[2] + 465 * gq@[4])) + 4 * gk1@[1] * gk2@[1] * gq@[1] * (195 * gk1@[14] * gk2@[6] + 825 * gk2@[12]
   * gq@[8] - 5 * gk1@[2] * gk2@[10] * gq@[6] * (1949 * gk2@[2] + 855 * gq@[2]) + 5 * gk1@[4] * gk2@[8] * gq@[4] *
   (3895 * gk2@[4] + 8694 * gk2@[2] * gq@[2] + 471 * gq@[4]) + gk1@[10] * gk2@[2] * (510 * gk2@[8] + 3510 * gk2@[6]
   * gq@[2] - 93542 * gk2@[4] * gq@[4] + 43470 * gk2@[2] * gq@[6] - 4275 * gq@[8]) - 5 * gk1@[12] * (90 * gk2@[8] +
   1206 * gk2@[6] * gq@[2] - 3895 * gk2@[4] * gq@[4] + 1949 * gk2@[2] * gq@[6] - 165 * gq@[8]) + gk1@[8] * gk2@[4] *
   ((- 450) * gk2@[8] + 3510 * gk2@[6] * gq@[2] + 160734 * gk2@[4] * gq@[4] - 43490 * gk2@[2] * gq@[6] + 2355 *
   gq@[8]) + gk1@[6] * gk2@[6] * (195 * gk2@[8] - 6030 * gk2@[6] * gq@[2] - 93542 * gk2@[4] * gq@[4] - 43490 *
   gk2@[2] * gq@[6] + 3450 * gq@[8])) - 15 * gk2@[7] * (gk1@[1] - gq@[1]) * (gk1@[1] - gq@[1]) * (gk1@[1] + gq@[1])
   * (gk1@[1] + gq@[1]) * (13 * gk1@[12] + 55 * gk2@[6] * gq@[6] - gk1@[10] * (194 * gk2@[2] + 649 * gq@[2]) +
   gk1@[8] * (17 * gk2@[4] + 2297 * gk2@[2] * gq@[2] + 563 * gq@[4]) + gk1@[6] * (164 * gk2@[6] - 2155 * gk2@[4] *
   gq@[2] - 2428 * gk2@[2] * gq@[4] + 73 * gq@[6]) + gk1@[4] * (339 * gk2@[6] * gq@[2] + 2423 * gk2@[4] * gq@[4] +
   157 * gk2@[2] * gq@[6]) - 3 * gk1@[2] * (186 * gk2@[6] * gq@[4] + 95 * gk2@[4] * gq@[6])) * 2 * (GLog ((GAbs
   ((gk1@[1] + gq@[1]) / (gk1@[1] - gq@[1]))))) - 15 * gk1@[7] * (gk2@[1] - gq@[1]) * (gk2@[1] - gq@[1]) * (gk2@[1]
   + gq@[1]) * (gk2@[1] + gq@[1]) * (gk1@[6] * (164 * gk2@[6] + 339 * gk2@[4] * gq@[2] - 558 * gk2@[2] * gq@[4] + 55
   * gq@[6]) + gk2@[6] * (13 * gk2@[6] - 649 * gk2@[4] * gq@[2] + 563 * gk2@[2] * gq@[4] + 73 * gq@[6]) + gk1@[4] *
   (17 * gk2@[8] - 2155 * gk2@[6] * gq@[2] + 2423 * gk2@[4] * gq@[4] - 285 * gk2@[2] * gq@[6]) + gk1@[2] * ((- 194)
   * gk2@[10] + 2297 * gk2@[8] * gq@[2] - 2428 * gk2@[6] * gq@[4] + 157 * gk2@[4] * gq@[6])) * 2 * (GLog ((GAbs
   ((gk2@[1] + gq@[1]) / (gk2@[1] - gq@[1]))))) - 2520 * gk1@[10] * gk2@[7] * (gk2@[1] - gq@[1]) * (gk2@[1] -
   gq@[1]) * gq@[4] * (gk2@[1] + gq@[1]) * (gk2@[1] + gq@[1]) * (GLog ((2 * gk1@[2] * gq@[1] - gk2@[2] * gq@[1] +
   gq@[3] + 2 * gk1@[1] * (GSqrt (gq@[2] * (gk1@[2] - gk2@[2] + gq@[2])))) / (2 * gk1@[2] * gq@[1] - gk2@[2] *
   gq@[1] + gq@[3] - 2 * gk1@[1] * (GSqrt (gq@[2] * (gk1@[2] - gk2@[2] + gq@[2])))))) / (GSqrt (gq@[2] * (gk1@[2] -
   gk2@[2] + gq@[2]))) - 2520 * gk1@[7] * gk2@[10] * (gk1@[1] - gq@[1]) * (gk1@[1] - gq@[1]) * gq@[4] * (gk1@[1] +
   gq@[1]) * (gk1@[1] + gq@[1]) * (GLog ((- (((- (gk1@[2] * gq@[1])) + 2 * gk2@[2] * gq@[1] + gq@[3] + 2 * gk2@[1] *
   (GSqrt (gq@[2] * ((- gk1@[2]) + gk2@[2] + gq@[2])))) / (gk1@[2] * gq@[1] - 2 * gk2@[2] * gq@[1] - gq@[3] + 2 *
   gk2@[1] * (GSqrt (gq@[2] * ((- gk1@[2]) + gk2@[2] + gq@[2])))))))) / (GSqrt (gq@[2] * ((- gk1@[2]) + gk2@[2] +
   gq@[2])))) / (6209280 * gk1@[9] * gk2@[9] * gq@[5]) + geps@[2] * GPi * (8 * gk1@[7] * gk2@[9] * gq@[1] * (92 *
   gk1@[6] + 92 * gk2@[6] + 29992 * gk2@[4] * gq@[2] + 9968 * gk2@[2] * gq@[4] - 945 * gq@[6] + 4 * gk1@[4] * (607 *
   gk2@[2] + 7498 * gq@[2]) + 4 * gk1@[2] * (607 * gk2@[4] - 16284 * gk2@[2] * gq@[2] + 2492 * gq@[4])) - 4 *
   gk1@[1] * gk2@[3] * gq@[1] * (29655 * gk1@[12] * gk2@[6] + 2475 * gk2@[10] * gq@[8] - 30 * gk1@[2] * gk2@[8] *
   gq@[6] * (235 * gk2@[2] + 219 * gq@[2]) + 15 * gk1@[4] * gk2@[6] * gq@[4] * (92 * gk2@[4] + 1514 * gk2@[2] *
   gq@[2] - 135 * gq@[4]) + gk1@[6] * gk2@[4] * (29655 * gk2@[8] - 245070 * gk2@[6] * gq@[2] + 3892 * gk2@[4] *
   gq@[4] + 4110 * gk2@[2] * gq@[6] - 2025 * gq@[8]) - 15 * gk1@[10] * (2033 * gk2@[8] + 16338 * gk2@[6] * gq@[2] -
   92 * gk2@[4] * gq@[4] + 470 * gk2@[2] * gq@[6] - 165 * gq@[8]) + gk1@[8] * ((- 30495) * gk2@[10] + 505060 *
   gk2@[8] * gq@[2] + 3892 * gk2@[6] * gq@[4] + 22710 * gk2@[4] * gq@[6] - 6570 * gk2@[2] * gq@[8])) - 15 * gk2@[9]
   * (gk1@[1] - gq@[1]) * (gk1@[1] - gq@[1]) * (gk1@[1] + gq@[1]) * (gk1@[1] + gq@[1]) * ((- 1921) * gk1@[10] - 165
   * gk2@[4] * gq@[6] + 3 * gk1@[8] * (392 * gk2@[2] + 971 * gq@[2]) + gk1@[6] * (801 * gk2@[4] - 3414 * gk2@[2] *
   gq@[2] + 25 * gq@[4]) + gk1@[4] * (321 * gk2@[4] * gq@[2] - 784 * gk2@[2] * gq@[4] + 135 * gq@[6]) + 3 * gk1@[2]
   * (65 * gk2@[4] * gq@[4] + 146 * gk2@[2] * gq@[6])) * 2 * (GLog ((GAbs ((gk1@[1] + gq@[1]) / (gk1@[1] -
   gq@[1]))))) - 15 * gk1@[7] * gk2@[2] * (gk2@[1] - gq@[1]) * (gk2@[1] - gq@[1]) * (gk2@[1] + gq@[1]) * (gk2@[1] +
   gq@[1]) * ((- 1921) * gk2@[10] + 2913 * gk2@[8] * gq@[2] + 25 * gk2@[6] * gq@[4] + 135 * gk2@[4] * gq@[6] + 3 *
   gk1@[4] * (267 * gk2@[6] + 107 * gk2@[4] * gq@[2] + 65 * gk2@[2] * gq@[4] - 55 * gq@[6]) + 2 * gk1@[2] * (588 *
   gk2@[8] - 1707 * gk2@[6] * gq@[2] - 392 * gk2@[4] * gq@[4] + 219 * gk2@[2] * gq@[6])) * 2 * (GLog ((GAbs
   ((gk2@[1] + gq@[1]) / (gk2@[1] - gq@[1]))))) - 420 * gk1@[10] * gk2@[9] * (gk2@[1] - gq@[1]) * (gk2@[1] - gq@[1])
   * gq@[3] * (gk2@[1] + gq@[1]) * (gk2@[1] + gq@[1]) * (12 * gk1@[1] * (GSqrt (gq@[2] * (gk1@[2] - gk2@[2] +
   gq@[2]))) + gq@[1] * (10 * gk1@[2] + 13 * ((- gk2@[2]) + gq@[2])) * (GLog ((2 * gk1@[2] * gq@[1] - gk2@[2] *
   gq@[1] + gq@[3] + 2 * gk1@[1] * (GSqrt (gq@[2] * (gk1@[2] - gk2@[2] + gq@[2])))) / (2 * gk1@[2] * gq@[1] -
   gk2@[2] * gq@[1] + gq@[3] - 2 * gk1@[1] * (GSqrt (gq@[2] * (gk1@[2] - gk2@[2] + gq@[2]))))))) / (GPow (gq@[2] *
   (gk1@[2] - gk2@[2] + gq@[2])) (GLit 15 1)) - 420 * gk1@[7] * gk2@[12] * (gk1@[1] - gq@[1]) * (gk1@[1] - gq@[1]) *
   gq@[3] * (gk1@[1] + gq@[1]) * (gk1@[1] + gq@[1]) * (12 * gk2@[1] * (GSqrt (gq@[2] * ((- gk1@[2]) + gk2@[2] +
   gq@[2]))) + ((- 13) * gk1@[2] * gq@[1] + 10 * gk2@[2] * gq@[1] + 13 * gq@[3]) * (GLog ((- (((- (gk1@[2] *
   gq@[1])) + 2 * gk2@[2] * gq@[1] + gq@[3] + 2 * gk2@[1] * (GSqrt (gq@[2] * ((- gk1@[2]) + gk2@[2] + gq@[2])))) /
   (gk1@[2] * gq@[1] - 2 * gk2@[2] * gq@[1] - gq@[3] + 2 * gk2@[1] * (GSqrt (gq@[2] * ((- gk1@[2]) + gk2@[2] +
   gq@[2]))))))))) / (GPow (gq@[2] * ((- gk1@[2]) + gk2@[2] + gq@[2])) (GLit 15 1))) / (6209280 * gk1@[9] * gk2@[9]
   * gq@[5]) + geps@[4] * GPi * (69120 * gk1@[7] * gk2@[11] * gq@[1] * (gk1@[2] - gq@[2]) * (gk2@[2] - gq@[2]) + 4 *
   gk1@[7] * gk2@[11] * (688 * gk1@[6] + 688 * gk2@[6] - 37728 * gk2@[4] * gq@[2] - 51509 * gk2@[2] * gq@[4] + 3668
   * gq@[6] - 32 * gk1@[4] * (172 * gk2@[2] + 1179 * gq@[2]) + gk1@[2] * ((- 5504) * gk2@[4] + 90944 * gk2@[2] *
   gq@[2] - 51509 * gq@[4])) / gq@[1] + 4 * gk1@[1] * gk2@[5] * gq@[1] * (10245 * gk1@[10] * gk2@[6] + 2475 *
   gk2@[8] * gq@[8] + gk1@[4] * ((- 50385) * gk2@[8] * gq@[4] + 8820 * gk2@[6] * gq@[6]) + gk1@[6] * gk2@[2] *
   (10245 * gk2@[8] - 81190 * gk2@[6] * gq@[2] - 92816 * gk2@[4] * gq@[4] + 8820 * gk2@[2] * gq@[6] - 2295 * gq@[8])
   + 5 * gk1@[8] * (3756 * gk2@[8] - 16238 * gk2@[6] * gq@[2] - 10077 * gk2@[4] * gq@[4] + 3027 * gk2@[2] * gq@[6] +
   495 * gq@[8]) + 15 * gk1@[2] * (1009 * gk2@[8] * gq@[6] - 153 * gk2@[6] * gq@[8])) - 15 * gk2@[11] * (gk1@[1] -
   gq@[1]) * (gk1@[1] - gq@[1]) * (gk1@[1] + gq@[1]) * (gk1@[1] + gq@[1]) * (1579 * gk1@[8] + 165 * gk2@[2] * gq@[6]
   + gk1@[6] * (306 * gk2@[2] - 1759 * gq@[2]) + gk1@[4] * ((- 1307) * gk2@[2] * gq@[2] + 333 * gq@[4]) + 3 *
   gk1@[2] * (428 * gk2@[2] * gq@[4] - 51 * gq@[6])) * 2 * (GLog ((GAbs ((gk1@[1] + gq@[1]) / (gk1@[1] - gq@[1])))))
   - 15 * gk1@[7] * gk2@[4] * (gk2@[1] - gq@[1]) * (gk2@[1] - gq@[1]) * (gk2@[1] + gq@[1]) * (gk2@[1] + gq@[1]) *
   (1579 * gk2@[8] - 1759 * gk2@[6] * gq@[2] + 333 * gk2@[4] * gq@[4] - 153 * gk2@[2] * gq@[6] + gk1@[2] * (306 *
   gk2@[6] - 1307 * gk2@[4] * gq@[2] + 1284 * gk2@[2] * gq@[4] + 165 * gq@[6])) * 2 * (GLog ((GAbs ((gk2@[1] +
   gq@[1]) / (gk2@[1] - gq@[1]))))) + 105 * gk1@[10] * gk2@[11] * (GPower (gk2@[1] - gq@[1]) 6) * gq@[1] * (GPower
   (gk2@[1] + gq@[1]) 6) * (GSqrt (gq@[2] * (gk1@[2] - gk2@[2] + gq@[2]))) * ((- 4) * gk1@[1] * (GSqrt (gq@[2] *
   (gk1@[2] - gk2@[2] + gq@[2]))) * (26 * gk1@[2] + 35 * ((- gk2@[2]) + gq@[2])) + gq@[1] * (64 * gk1@[4] - 108 *
   gk1@[2] * (gk2@[2] - gq@[2]) + 35 * (gk2@[2] - gq@[2]) * (gk2@[2] - gq@[2])) * (GLog ((2 * gk1@[2] * gq@[1] -
   gk2@[2] * gq@[1] + gq@[3] + 2 * gk1@[1] * (GSqrt (gq@[2] * (gk1@[2] - gk2@[2] + gq@[2])))) / (2 * gk1@[2] *
   gq@[1] - gk2@[2] * gq@[1] + gq@[3] - 2 * gk1@[1] * (GSqrt (gq@[2] * (gk1@[2] - gk2@[2] + gq@[2]))))))) / ((GPower
   (gk1@[2] - gk2@[2] + gq@[2]) 3) * (GPower ((- (gk2@[2] * gq@[1])) + gq@[3]) 4)) + 105 * gk1@[7] * gk2@[14] *
   (GPower (gk1@[1] - gq@[1]) 6) * gq@[1] * (GPower (gk1@[1] + gq@[1]) 6) * (GSqrt (gq@[2] * ((- gk1@[2]) + gk2@[2]
   + gq@[2]))) * ((- 4) * gk2@[1] * (GSqrt (gq@[2] * ((- gk1@[2]) + gk2@[2] + gq@[2]))) * ((- 35) * gk1@[2] + 26 *
   gk2@[2] + 35 * gq@[2]) + gq@[1] * (35 * gk1@[4] + 64 * gk2@[4] + 108 * gk2@[2] * gq@[2] + 35 * gq@[4] - 2 *
   gk1@[2] * (54 * gk2@[2] + 35 * gq@[2])) * (GLog ((- (((- (gk1@[2] * gq@[1])) + 2 * gk2@[2] * gq@[1] + gq@[3] + 2
   * gk2@[1] * (GSqrt (gq@[2] * ((- gk1@[2]) + gk2@[2] + gq@[2])))) / (gk1@[2] * gq@[1] - 2 * gk2@[2] * gq@[1] -
   gq@[3] + 2 * gk2@[1] * (GSqrt (gq@[2] * ((- gk1@[2]) + gk2@[2] + gq@[2]))))))))) / ((GPower ((- gk1@[2]) +
   gk2@[2] + gq@[2]) 3) * (GPower ((- (gk1@[2] * gq@[1])) + gq@[3]) 4))) / (6209280 * gk1@[9] * gk2@[9] * gq@[5]).

(** src/gamma2t_1loop.c:504-532, kernel_poly[0] of kernel_gamma2t_reg3rd *)
Definition g2t_reg3rd_poly0 : gexpr :=
  ((- 840) * gk1@[11] * gk2@[9] * gk3@[8] - 840 * gk1@[9] * gk2@[11] * gk3@[8] - 2160 * gk1@[9] * gk2@[9] *
   gk3@[10]) * GPi - (4200 * gk1@[11] * gk2@[9] * gk3@[7] + 4200 * gk1@[9] * gk2@[11] * gk3@[7] + 3360 * gk1@[11] *
   gk2@[8] * gk3@[8] + 3360 * gk1@[10] * gk2@[9] * gk3@[8] + 3360 * gk1@[9] * gk2@[10] * gk3@[8] + 3360 * gk1@[8] *
   gk2@[11] * gk3@[8] + 10800 * gk1@[9] * gk2@[9] * gk3@[9] + 8640 * gk1@[9] * gk2@[8] * gk3@[10] + 8640 * gk1@[8] *
   gk2@[9] * gk3@[10]) * GPi * gq@[1] - ((- 560) * gk1@[13] * gk2@[7] * gk3@[6] + 8715 * gk1@[11] * gk2@[9] *
   gk3@[6] + 8715 * gk1@[9] * gk2@[11] * gk3@[6] - 560 * gk1@[7] * gk2@[13] * gk3@[6] + 16800 * gk1@[11] * gk2@[8] *
   gk3@[7] + 16800 * gk1@[10] * gk2@[9] * gk3@[7] + 16800 * gk1@[9] * gk2@[10] * gk3@[7] + 16800 * gk1@[8] *
   gk2@[11] * gk3@[7] - 9660 * gk1@[11] * gk2@[7] * gk3@[8] + 13440 * gk1@[10] * gk2@[8] * gk3@[8] + 59400 * gk1@[9]
   * gk2@[9] * gk3@[8] + 13440 * gk1@[8] * gk2@[10] * gk3@[8] - 9660 * gk1@[7] * gk2@[11] * gk3@[8] + 43200 *
   gk1@[9] * gk2@[8] * gk3@[9] + 43200 * gk1@[8] * gk2@[9] * gk3@[9] + 6180 * gk1@[9] * gk2@[7] * gk3@[10] + 34560 *
   gk1@[8] * gk2@[8] * gk3@[10] + 6180 * gk1@[7] * gk2@[9] * gk3@[10] + 17040 * gk1@[7] * gk2@[7] * gk3@[12]) * GPi
   * gq@[2].

(** src/gamma2t_1loop.c:534-566, kernel_poly[1] of kernel_gamma2t_reg3rd *)
Definition g2t_reg3rd_poly1 : gexpr :=
  (- ((- 1120) * gk1@[13] * gk2@[7] * gk3@[5] - 5145 * gk1@[11] * gk2@[9] * gk3@[5] - 5145 * gk1@[9] * gk2@[11] *
   gk3@[5] - 1120 * gk1@[7] * gk2@[13] * gk3@[5] - 7160 * gk1@[13] * gk2@[6] * gk3@[6] - 2630 * gk1@[12] * gk2@[7] *
   gk3@[6] + 34350 * gk1@[11] * gk2@[8] * gk3@[6] + 40680 * gk1@[10] * gk2@[9] * gk3@[6] + 40680 * gk1@[9] *
   gk2@[10] * gk3@[6] + 34350 * gk1@[8] * gk2@[11] * gk3@[6] - 2630 * gk1@[7] * gk2@[12] * gk3@[6] - 7160 * gk1@[6]
   * gk2@[13] * gk3@[6] - 21420 * gk1@[11] * gk2@[7] * gk3@[7] + 67200 * gk1@[10] * gk2@[8] * gk3@[7] + 156840 *
   gk1@[9] * gk2@[9] * gk3@[7] + 67200 * gk1@[8] * gk2@[10] * gk3@[7] - 21420 * gk1@[7] * gk2@[11] * gk3@[7] - 79470
   * gk1@[11] * gk2@[6] * gk3@[8] + 18990 * gk1@[10] * gk2@[7] * gk3@[8] + 185520 * gk1@[9] * gk2@[8] * gk3@[8] +
   185520 * gk1@[8] * gk2@[9] * gk3@[8] + 18990 * gk1@[7] * gk2@[10] * gk3@[8] - 79470 * gk1@[6] * gk2@[11] *
   gk3@[8] + 5700 * gk1@[9] * gk2@[7] * gk3@[9] + 172800 * gk1@[8] * gk2@[8] * gk3@[9] + 5700 * gk1@[7] * gk2@[9] *
   gk3@[9] - 27660 * gk1@[9] * gk2@[6] * gk3@[10] - 22650 * gk1@[8] * gk2@[7] * gk3@[10] - 22650 * gk1@[7] * gk2@[8]
   * gk3@[10] - 27660 * gk1@[6] * gk2@[9] * gk3@[10] + 81840 * gk1@[7] * gk2@[7] * gk3@[11] + 58290 * gk1@[7] *
   gk2@[6] * gk3@[12] + 58290 * gk1@[6] * gk2@[7] * gk3@[12])) * GPi * gq@[3].

(** src/gamma2t_1loop.c:568-615, kernel_poly[2] of kernel_gamma2t_reg3rd *)
Definition g2t_reg3rd_poly2 : gexpr :=
  (- ((- 4690) * gk1@[13] * gk2@[7] * gk3@[4] + 3430 * gk1@[11] * gk2@[9] * gk3@[4] + 3430 * gk1@[9] * gk2@[11] *
   gk3@[4] - 4690 * gk1@[7] * gk2@[13] * gk3@[4] - 29080 * gk1@[13] * gk2@[6] * gk3@[5] - 6430 * gk1@[12] * gk2@[7]
   * gk3@[5] - 23130 * gk1@[11] * gk2@[8] * gk3@[5] + 8520 * gk1@[10] * gk2@[9] * gk3@[5] + 8520 * gk1@[9] *
   gk2@[10] * gk3@[5] - 23130 * gk1@[8] * gk2@[11] * gk3@[5] - 6430 * gk1@[7] * gk2@[12] * gk3@[5] - 29080 * gk1@[6]
   * gk2@[13] * gk3@[5] - 3800 * gk1@[13] * gk2@[5] * gk3@[6] - 30200 * gk1@[12] * gk2@[6] * gk3@[6] - 72421 *
   gk1@[11] * gk2@[7] * gk3@[6] + 160680 * gk1@[10] * gk2@[8] * gk3@[6] + 341532 * gk1@[9] * gk2@[9] * gk3@[6] +
   160680 * gk1@[8] * gk2@[10] * gk3@[6] - 72421 * gk1@[7] * gk2@[11] * gk3@[6] - 30200 * gk1@[6] * gk2@[12] *
   gk3@[6] - 3800 * gk1@[5] * gk2@[13] * gk3@[6] - 289830 * gk1@[11] * gk2@[6] * gk3@[7] + 202470 * gk1@[10] *
   gk2@[7] * gk3@[7] + 366960 * gk1@[9] * gk2@[8] * gk3@[7] + 366960 * gk1@[8] * gk2@[9] * gk3@[7] + 202470 *
   gk1@[7] * gk2@[10] * gk3@[7] - 289830 * gk1@[6] * gk2@[11] * gk3@[7] - 67800 * gk1@[11] * gk2@[5] * gk3@[8] -
   87360 * gk1@[10] * gk2@[6] * gk3@[8] + 153704 * gk1@[9] * gk2@[7] * gk3@[8] + 533760 * gk1@[8] * gk2@[8] *
   gk3@[8] + 153704 * gk1@[7] * gk2@[9] * gk3@[8] - 87360 * gk1@[6] * gk2@[10] * gk3@[8] - 67800 * gk1@[5] *
   gk2@[11] * gk3@[8] - 239100 * gk1@[9] * gk2@[6] * gk3@[9] - 214050 * gk1@[8] * gk2@[7] * gk3@[9] - 214050 *
   gk1@[7] * gk2@[8] * gk3@[9] - 239100 * gk1@[6] * gk2@[9] * gk3@[9] - 18080 * gk1@[9] * gk2@[5] * gk3@[10] -
   300120 * gk1@[8] * gk2@[6] * gk3@[10] + 269052 * gk1@[7] * gk2@[7] * gk3@[10] - 300120 * gk1@[6] * gk2@[8] *
   gk3@[10] - 18080 * gk1@[5] * gk2@[9] * gk3@[10] + 278010 * gk1@[7] * gk2@[6] * gk3@[11] + 278010 * gk1@[6] *
   gk2@[7] * gk3@[11] + 102680 * gk1@[7] * gk2@[5] * gk3@[12] + 193680 * gk1@[6] * gk2@[6] * gk3@[12] + 102680 *
   gk1@[5] * gk2@[7] * gk3@[12])) * GPi * gq@[4].

(** src/gamma2t_1loop.c:617-680, kernel_poly[3] of kernel_gamma2t_reg3rd *)
Definition g2t_reg3rd_poly3 : gexpr :=
  (- (700 * gk1@[13] * gk2@[7] * gk3@[3] - 4480 * gk1@[11] * gk2@[9] * gk3@[3] - 4480 * gk1@[9] * gk2@[11] * gk3@[3]
   + 700 * gk1@[7] * gk2@[13] * gk3@[3] - 67960 * gk1@[13] * gk2@[6] * gk3@[4] - 22660 * gk1@[12] * gk2@[7] *
   gk3@[4] + 8620 * gk1@[11] * gk2@[8] * gk3@[4] + 71920 * gk1@[10] * gk2@[9] * gk3@[4] + 71920 * gk1@[9] * gk2@[10]
   * gk3@[4] + 8620 * gk1@[8] * gk2@[11] * gk3@[4] - 22660 * gk1@[7] * gk2@[12] * gk3@[4] - 67960 * gk1@[6] *
   gk2@[13] * gk3@[4] - 8920 * gk1@[13] * gk2@[5] * gk3@[5] - 124120 * gk1@[12] * gk2@[6] * gk3@[5] - 176185 *
   gk1@[11] * gk2@[7] * gk3@[5] + 23880 * gk1@[10] * gk2@[8] * gk3@[5] + 242380 * gk1@[9] * gk2@[9] * gk3@[5] +
   23880 * gk1@[8] * gk2@[10] * gk3@[5] - 176185 * gk1@[7] * gk2@[11] * gk3@[5] - 124120 * gk1@[6] * gk2@[12] *
   gk3@[5] - 8920 * gk1@[5] * gk2@[13] * gk3@[5] - 27290 * gk1@[13] * gk2@[4] * gk3@[6] - 17540 * gk1@[12] * gk2@[5]
   * gk3@[6] - 670514 * gk1@[11] * gk2@[6] * gk3@[6] + 351166 * gk1@[10] * gk2@[7] * gk3@[6] + 782578 * gk1@[9] *
   gk2@[8] * gk3@[6] + 782578 * gk1@[8] * gk2@[9] * gk3@[6] + 351166 * gk1@[7] * gk2@[10] * gk3@[6] - 670514 *
   gk1@[6] * gk2@[11] * gk3@[6] - 17540 * gk1@[5] * gk2@[12] * gk3@[6] - 27290 * gk1@[4] * gk2@[13] * gk3@[6] -
   177720 * gk1@[11] * gk2@[5] * gk3@[7] - 6720 * gk1@[10] * gk2@[6] * gk3@[7] + 461470 * gk1@[9] * gk2@[7] *
   gk3@[7] + 426240 * gk1@[8] * gk2@[8] * gk3@[7] + 461470 * gk1@[7] * gk2@[9] * gk3@[7] - 6720 * gk1@[6] * gk2@[10]
   * gk3@[7] - 177720 * gk1@[5] * gk2@[11] * gk3@[7] - 54270 * gk1@[11] * gk2@[4] * gk3@[8] + 74580 * gk1@[10] *
   gk2@[5] * gk3@[8] - 703384 * gk1@[9] * gk2@[6] * gk3@[8] + 188926 * gk1@[8] * gk2@[7] * gk3@[8] + 188926 *
   gk1@[7] * gk2@[8] * gk3@[8] - 703384 * gk1@[6] * gk2@[9] * gk3@[8] + 74580 * gk1@[5] * gk2@[10] * gk3@[8] - 54270
   * gk1@[4] * gk2@[11] * gk3@[8] - 241600 * gk1@[9] * gk2@[5] * gk3@[9] - 1903800 * gk1@[8] * gk2@[6] * gk3@[9] +
   364480 * gk1@[7] * gk2@[7] * gk3@[9] - 1903800 * gk1@[6] * gk2@[8] * gk3@[9] - 241600 * gk1@[5] * gk2@[9] *
   gk3@[9] + 69370 * gk1@[9] * gk2@[4] * gk3@[10] - 356540 * gk1@[8] * gk2@[5] * gk3@[10] + 725278 * gk1@[7] *
   gk2@[6] * gk3@[10] + 725278 * gk1@[6] * gk2@[7] * gk3@[10] - 356540 * gk1@[5] * gk2@[8] * gk3@[10] + 69370 *
   gk1@[4] * gk2@[9] * gk3@[10] + 493240 * gk1@[7] * gk2@[5] * gk3@[11] + 914640 * gk1@[6] * gk2@[6] * gk3@[11] +
   493240 * gk1@[5] * gk2@[7] * gk3@[11] + 24190 * gk1@[7] * gk2@[4] * gk3@[12] + 351500 * gk1@[6] * gk2@[5] *
   gk3@[12] + 351500 * gk1@[5] * gk2@[6] * gk3@[12] + 24190 * gk1@[4] * gk2@[7] * gk3@[12])) * GPi * gq@[5].

(** src/gamma2t_1loop.c:682-762, kernel_poly[4] of kernel_gamma2t_reg3rd *)
Definition g2t_reg3rd_poly4 : gexpr :=
  (- (3360 * gk1@[13] * gk2@[7] * gk3@[2] - 4935 * gk1@[11] * gk2@[9] * gk3@[2] - 4935 * gk1@[9] * gk2@[11] *
   gk3@[2] + 3360 * gk1@[7] * gk2@[13] * gk3@[2] - 46400 * gk1@[13] * gk2@[6] * gk3@[3] - 1100 * gk1@[12] * gk2@[7]
   * gk3@[3] - 23020 * gk1@[11] * gk2@[8] * gk3@[3] + 40280 * gk1@[10] * gk2@[9] * gk3@[3] + 40280 * gk1@[9] *
   gk2@[10] * gk3@[3] - 23020 * gk1@[8] * gk2@[11] * gk3@[3] - 1100 * gk1@[7] * gk2@[12] * gk3@[3] - 46400 * gk1@[6]
   * gk2@[13] * gk3@[3] - 32540 * gk1@[13] * gk2@[5] * gk3@[4] - 287440 * gk1@[12] * gk2@[6] * gk3@[4] + 96610 *
   gk1@[11] * gk2@[7] * gk3@[4] + 267280 * gk1@[10] * gk2@[8] * gk3@[4] - 164120 * gk1@[9] * gk2@[9] * gk3@[4] +
   267280 * gk1@[8] * gk2@[10] * gk3@[4] + 96610 * gk1@[7] * gk2@[11] * gk3@[4] - 287440 * gk1@[6] * gk2@[12] *
   gk3@[4] - 32540 * gk1@[5] * gk2@[13] * gk3@[4] - 129730 * gk1@[13] * gk2@[4] * gk3@[5] - 47380 * gk1@[12] *
   gk2@[5] * gk3@[5] - 673290 * gk1@[11] * gk2@[6] * gk3@[5] + 160710 * gk1@[10] * gk2@[7] * gk3@[5] + 437370 *
   gk1@[9] * gk2@[8] * gk3@[5] + 437370 * gk1@[8] * gk2@[9] * gk3@[5] + 160710 * gk1@[7] * gk2@[10] * gk3@[5] -
   673290 * gk1@[6] * gk2@[11] * gk3@[5] - 47380 * gk1@[5] * gk2@[12] * gk3@[5] - 129730 * gk1@[4] * gk2@[13] *
   gk3@[5] - 15440 * gk1@[13] * gk2@[3] * gk3@[6] - 110720 * gk1@[12] * gk2@[4] * gk3@[6] - 616471 * gk1@[11] *
   gk2@[5] * gk3@[6] - 136656 * gk1@[10] * gk2@[6] * gk3@[6] + 958591 * gk1@[9] * gk2@[7] * gk3@[6] + 816512 *
   gk1@[8] * gk2@[8] * gk3@[6] + 958591 * gk1@[7] * gk2@[9] * gk3@[6] - 136656 * gk1@[6] * gk2@[10] * gk3@[6] -
   616471 * gk1@[5] * gk2@[11] * gk3@[6] - 110720 * gk1@[4] * gk2@[12] * gk3@[6] - 15440 * gk1@[3] * gk2@[13] *
   gk3@[6] - 163830 * gk1@[11] * gk2@[4] * gk3@[7] + 1018020 * gk1@[10] * gk2@[5] * gk3@[7] - 1574720 * gk1@[9] *
   gk2@[6] * gk3@[7] + 1073630 * gk1@[8] * gk2@[7] * gk3@[7] + 1073630 * gk1@[7] * gk2@[8] * gk3@[7] - 1574720 *
   gk1@[6] * gk2@[9] * gk3@[7] + 1018020 * gk1@[5] * gk2@[10] * gk3@[7] - 163830 * gk1@[4] * gk2@[11] * gk3@[7] -
   7260 * gk1@[11] * gk2@[3] * gk3@[8] + 13440 * gk1@[10] * gk2@[4] * gk3@[8] - 913416 * gk1@[9] * gk2@[5] * gk3@[8]
   - 2994896 * gk1@[8] * gk2@[6] * gk3@[8] + 2553328 * gk1@[7] * gk2@[7] * gk3@[8] - 2994896 * gk1@[6] * gk2@[8] *
   gk3@[8] - 913416 * gk1@[5] * gk2@[9] * gk3@[8] + 13440 * gk1@[4] * gk2@[10] * gk3@[8] - 7260 * gk1@[3] * gk2@[11]
   * gk3@[8] + 246050 * gk1@[9] * gk2@[4] * gk3@[9] - 2387500 * gk1@[8] * gk2@[5] * gk3@[9] + 602070 * gk1@[7] *
   gk2@[6] * gk3@[9] + 602070 * gk1@[6] * gk2@[7] * gk3@[9] - 2387500 * gk1@[5] * gk2@[8] * gk3@[9] + 246050 *
   gk1@[4] * gk2@[9] * gk3@[9] + 33220 * gk1@[9] * gk2@[3] * gk3@[10] + 88000 * gk1@[8] * gk2@[4] * gk3@[10] +
   1249692 * gk1@[7] * gk2@[5] * gk3@[10] + 2728592 * gk1@[6] * gk2@[6] * gk3@[10] + 1249692 * gk1@[5] * gk2@[7] *
   gk3@[10] + 88000 * gk1@[4] * gk2@[8] * gk3@[10] + 33220 * gk1@[3] * gk2@[9] * gk3@[10] + 107510 * gk1@[7] *
   gk2@[4] * gk3@[11] + 1676860 * gk1@[6] * gk2@[5] * gk3@[11] + 1676860 * gk1@[5] * gk2@[6] * gk3@[11] + 107510 *
   gk1@[4] * gk2@[7] * gk3@[11] - 7520 * gk1@[7] * gk2@[3] * gk3@[12] + 57280 * gk1@[6] * gk2@[4] * gk3@[12] +
   618720 * gk1@[5] * gk2@[5] * gk3@[12] + 57280 * gk1@[4] * gk2@[6] * gk3@[12] - 7520 * gk1@[3] * gk2@[7] *
   gk3@[12])) * GPi * gq@[6].

(** src/gamma2t_1loop.c:764-860, kernel_poly[5] of kernel_gamma2t_reg3rd *)
Definition g2t_reg3rd_poly5 : gexpr :=
  (- (420 * gk1@[13] * gk2@[7] * gk3@[1] - 735 * gk1@[11] * gk2@[9] * gk3@[1] - 735 * gk1@[9] * gk2@[11] * gk3@[1] +
   420 * gk1@[7] * gk2@[13] * gk3@[1] - 11160 * gk1@[13] * gk2@[6] * gk3@[2] + 11490 * gk1@[12] * gk2@[7] * gk3@[2]
   - 22290 * gk1@[11] * gk2@[8] * gk3@[2] + 9360 * gk1@[10] * gk2@[9] * gk3@[2] + 9360 * gk1@[9] * gk2@[10] *
   gk3@[2] - 22290 * gk1@[8] * gk2@[11] * gk3@[2] + 11490 * gk1@[7] * gk2@[12] * gk3@[2] - 11160 * gk1@[6] *
   gk2@[13] * gk3@[2] - 200 * gk1@[13] * gk2@[5] * gk3@[3] - 201200 * gk1@[12] * gk2@[6] * gk3@[3] + 239970 *
   gk1@[11] * gk2@[7] * gk3@[3] + 140720 * gk1@[10] * gk2@[8] * gk3@[3] - 558640 * gk1@[9] * gk2@[9] * gk3@[3] +
   140720 * gk1@[8] * gk2@[10] * gk3@[3] + 239970 * gk1@[7] * gk2@[11] * gk3@[3] - 201200 * gk1@[6] * gk2@[12] *
   gk3@[3] - 200 * gk1@[5] * gk2@[13] * gk3@[3] - 269260 * gk1@[13] * gk2@[4] * gk3@[4] - 153560 * gk1@[12] *
   gk2@[5] * gk3@[4] + 535390 * gk1@[11] * gk2@[6] * gk3@[4] + 1301890 * gk1@[10] * gk2@[7] * gk3@[4] - 1465980 *
   gk1@[9] * gk2@[8] * gk3@[4] - 1465980 * gk1@[8] * gk2@[9] * gk3@[4] + 1301890 * gk1@[7] * gk2@[10] * gk3@[4] +
   535390 * gk1@[6] * gk2@[11] * gk3@[4] - 153560 * gk1@[5] * gk2@[12] * gk3@[4] - 269260 * gk1@[4] * gk2@[13] *
   gk3@[4] - 75520 * gk1@[13] * gk2@[3] * gk3@[5] - 526720 * gk1@[12] * gk2@[4] * gk3@[5] - 1044035 * gk1@[11] *
   gk2@[5] * gk3@[5] + 678640 * gk1@[10] * gk2@[6] * gk3@[5] + 996055 * gk1@[9] * gk2@[7] * gk3@[5] - 277120 *
   gk1@[8] * gk2@[8] * gk3@[5] + 996055 * gk1@[7] * gk2@[9] * gk3@[5] + 678640 * gk1@[6] * gk2@[10] * gk3@[5] -
   1044035 * gk1@[5] * gk2@[11] * gk3@[5] - 526720 * gk1@[4] * gk2@[12] * gk3@[5] - 75520 * gk1@[3] * gk2@[13] *
   gk3@[5] + 17620 * gk1@[13] * gk2@[2] * gk3@[6] - 62150 * gk1@[12] * gk2@[3] * gk3@[6] - 775494 * gk1@[11] *
   gk2@[4] * gk3@[6] + 1184316 * gk1@[10] * gk2@[5] * gk3@[6] - 3218856 * gk1@[9] * gk2@[6] * gk3@[6] + 3247494 *
   gk1@[8] * gk2@[7] * gk3@[6] + 3247494 * gk1@[7] * gk2@[8] * gk3@[6] - 3218856 * gk1@[6] * gk2@[9] * gk3@[6] +
   1184316 * gk1@[5] * gk2@[10] * gk3@[6] - 775494 * gk1@[4] * gk2@[11] * gk3@[6] - 62150 * gk1@[3] * gk2@[12] *
   gk3@[6] + 17620 * gk1@[2] * gk2@[13] * gk3@[6] - 9420 * gk1@[11] * gk2@[3] * gk3@[7] + 497280 * gk1@[10] *
   gk2@[4] * gk3@[7] - 2321380 * gk1@[9] * gk2@[5] * gk3@[7] - 1776880 * gk1@[8] * gk2@[6] * gk3@[7] + 7714120 *
   gk1@[7] * gk2@[7] * gk3@[7] - 1776880 * gk1@[6] * gk2@[8] * gk3@[7] - 2321380 * gk1@[5] * gk2@[9] * gk3@[7] +
   497280 * gk1@[4] * gk2@[10] * gk3@[7] - 9420 * gk1@[3] * gk2@[11] * gk3@[7] - 8490 * gk1@[11] * gk2@[2] * gk3@[8]
   + 28590 * gk1@[10] * gk2@[3] * gk3@[8] + 160976 * gk1@[9] * gk2@[4] * gk3@[8] - 4777404 * gk1@[8] * gk2@[5] *
   gk3@[8] + 3553162 * gk1@[7] * gk2@[6] * gk3@[8] + 3553162 * gk1@[6] * gk2@[7] * gk3@[8] - 4777404 * gk1@[5] *
   gk2@[8] * gk3@[8] + 160976 * gk1@[4] * gk2@[9] * gk3@[8] + 28590 * gk1@[3] * gk2@[10] * gk3@[8] - 8490 * gk1@[2]
   * gk2@[11] * gk3@[8] + 140900 * gk1@[9] * gk2@[3] * gk3@[9] + 36800 * gk1@[8] * gk2@[4] * gk3@[9] + 1228180 *
   gk1@[7] * gk2@[5] * gk3@[9] + 5140880 * gk1@[6] * gk2@[6] * gk3@[9] + 1228180 * gk1@[5] * gk2@[7] * gk3@[9] +
   36800 * gk1@[4] * gk2@[8] * gk3@[9] + 140900 * gk1@[3] * gk2@[9] * gk3@[9] - 35880 * gk1@[9] * gk2@[2] * gk3@[10]
   + 85510 * gk1@[8] * gk2@[3] * gk3@[10] + 854338 * gk1@[7] * gk2@[4] * gk3@[10] + 4317688 * gk1@[6] * gk2@[5] *
   gk3@[10] + 4317688 * gk1@[5] * gk2@[6] * gk3@[10] + 854338 * gk1@[4] * gk2@[7] * gk3@[10] + 85510 * gk1@[3] *
   gk2@[8] * gk3@[10] - 35880 * gk1@[2] * gk2@[9] * gk3@[10] - 40960 * gk1@[7] * gk2@[3] * gk3@[11] + 232640 *
   gk1@[6] * gk2@[4] * gk3@[11] + 2972640 * gk1@[5] * gk2@[5] * gk3@[11] + 232640 * gk1@[4] * gk2@[6] * gk3@[11] -
   40960 * gk1@[3] * gk2@[7] * gk3@[11] + 26750 * gk1@[7] * gk2@[2] * gk3@[12] - 39950 * gk1@[6] * gk2@[3] *
   gk3@[12] + 146900 * gk1@[5] * gk2@[4] * gk3@[12] + 146900 * gk1@[4] * gk2@[5] * gk3@[12] - 39950 * gk1@[3] *
   gk2@[6] * gk3@[12] + 26750 * gk1@[2] * gk2@[7] * gk3@[12])) * GPi * gq@[7].

(** src/gamma2t_1loop.c:862-968, kernel_poly[6] of kernel_gamma2t_reg3rd *)
Definition g2t_reg3rd_poly6 : gexpr :=
  (- (1890 * gk1@[13] * gk2@[7] - 1890 * gk1@[11] * gk2@[9] - 1890 * gk1@[9] * gk2@[11] + 1890 * gk1@[7] * gk2@[13]
   - 3240 * gk1@[13] * gk2@[6] * gk3@[1] + 1290 * gk1@[12] * gk2@[7] * gk3@[1] - 3450 * gk1@[11] * gk2@[8] * gk3@[1]
   + 2880 * gk1@[10] * gk2@[9] * gk3@[1] + 2880 * gk1@[9] * gk2@[10] * gk3@[1] - 3450 * gk1@[8] * gk2@[11] * gk3@[1]
   + 1290 * gk1@[7] * gk2@[12] * gk3@[1] - 3240 * gk1@[6] * gk2@[13] * gk3@[1] + 17960 * gk1@[13] * gk2@[5] *
   gk3@[2] - 52440 * gk1@[12] * gk2@[6] * gk3@[2] + 123415 * gk1@[11] * gk2@[7] * gk3@[2] + 27240 * gk1@[10] *
   gk2@[8] * gk3@[2] - 320340 * gk1@[9] * gk2@[9] * gk3@[2] + 27240 * gk1@[8] * gk2@[10] * gk3@[2] + 123415 *
   gk1@[7] * gk2@[11] * gk3@[2] - 52440 * gk1@[6] * gk2@[12] * gk3@[2] + 17960 * gk1@[5] * gk2@[13] * gk3@[2] -
   247700 * gk1@[13] * gk2@[4] * gk3@[3] - 24200 * gk1@[12] * gk2@[5] * gk3@[3] + 1363150 * gk1@[11] * gk2@[6] *
   gk3@[3] + 1537010 * gk1@[10] * gk2@[7] * gk3@[3] - 2744740 * gk1@[9] * gk2@[8] * gk3@[3] - 2744740 * gk1@[8] *
   gk2@[9] * gk3@[3] + 1537010 * gk1@[7] * gk2@[10] * gk3@[3] + 1363150 * gk1@[6] * gk2@[11] * gk3@[3] - 24200 *
   gk1@[5] * gk2@[12] * gk3@[3] - 247700 * gk1@[4] * gk2@[13] * gk3@[3] - 153490 * gk1@[13] * gk2@[3] * gk3@[4] -
   1092640 * gk1@[12] * gk2@[4] * gk3@[4] - 167790 * gk1@[11] * gk2@[5] * gk3@[4] + 5623360 * gk1@[10] * gk2@[6] *
   gk3@[4] + 210170 * gk1@[9] * gk2@[7] * gk3@[4] - 8897920 * gk1@[8] * gk2@[8] * gk3@[4] + 210170 * gk1@[7] *
   gk2@[9] * gk3@[4] + 5623360 * gk1@[6] * gk2@[10] * gk3@[4] - 167790 * gk1@[5] * gk2@[11] * gk3@[4] - 1092640 *
   gk1@[4] * gk2@[12] * gk3@[4] - 153490 * gk1@[3] * gk2@[13] * gk3@[4] + 88100 * gk1@[13] * gk2@[2] * gk3@[5] -
   304030 * gk1@[12] * gk2@[3] * gk3@[5] - 2145710 * gk1@[11] * gk2@[4] * gk3@[5] + 42060 * gk1@[10] * gk2@[5] *
   gk3@[5] - 1973880 * gk1@[9] * gk2@[6] * gk3@[5] + 4478830 * gk1@[8] * gk2@[7] * gk3@[5] + 4478830 * gk1@[7] *
   gk2@[8] * gk3@[5] - 1973880 * gk1@[6] * gk2@[9] * gk3@[5] + 42060 * gk1@[5] * gk2@[10] * gk3@[5] - 2145710 *
   gk1@[4] * gk2@[11] * gk3@[5] - 304030 * gk1@[3] * gk2@[12] * gk3@[5] + 88100 * gk1@[2] * gk2@[13] * gk3@[5] +
   1320 * gk1@[13] * gk2@[1] * gk3@[6] + 70480 * gk1@[12] * gk2@[2] * gk3@[6] - 170031 * gk1@[11] * gk2@[3] *
   gk3@[6] - 177256 * gk1@[10] * gk2@[4] * gk3@[6] - 6624214 * gk1@[9] * gk2@[5] * gk3@[6] - 51184 * gk1@[8] *
   gk2@[6] * gk3@[6] + 15492290 * gk1@[7] * gk2@[7] * gk3@[6] - 51184 * gk1@[6] * gk2@[8] * gk3@[6] - 6624214 *
   gk1@[5] * gk2@[9] * gk3@[6] - 177256 * gk1@[4] * gk2@[10] * gk3@[6] - 170031 * gk1@[3] * gk2@[11] * gk3@[6] +
   70480 * gk1@[2] * gk2@[12] * gk3@[6] + 1320 * gk1@[1] * gk2@[13] * gk3@[6] - 42450 * gk1@[11] * gk2@[2] * gk3@[7]
   + 250470 * gk1@[10] * gk2@[3] * gk3@[7] - 919080 * gk1@[9] * gk2@[4] * gk3@[7] - 6761020 * gk1@[8] * gk2@[5] *
   gk3@[7] + 12196890 * gk1@[7] * gk2@[6] * gk3@[7] + 12196890 * gk1@[6] * gk2@[7] * gk3@[7] - 6761020 * gk1@[5] *
   gk2@[8] * gk3@[7] - 919080 * gk1@[4] * gk2@[9] * gk3@[7] + 250470 * gk1@[3] * gk2@[10] * gk3@[7] - 42450 *
   gk1@[2] * gk2@[11] * gk3@[7] - 3960 * gk1@[11] * gk2@[1] * gk3@[8] - 33960 * gk1@[10] * gk2@[2] * gk3@[8] +
   239744 * gk1@[9] * gk2@[3] * gk3@[8] + 99664 * gk1@[8] * gk2@[4] * gk3@[8] + 2920008 * gk1@[7] * gk2@[5] *
   gk3@[8] + 10965088 * gk1@[6] * gk2@[6] * gk3@[8] + 2920008 * gk1@[5] * gk2@[7] * gk3@[8] + 99664 * gk1@[4] *
   gk2@[8] * gk3@[8] + 239744 * gk1@[3] * gk2@[9] * gk3@[8] - 33960 * gk1@[2] * gk2@[10] * gk3@[8] - 3960 * gk1@[1]
   * gk2@[11] * gk3@[8] - 179400 * gk1@[9] * gk2@[2] * gk3@[9] + 326750 * gk1@[8] * gk2@[3] * gk3@[9] + 2712170 *
   gk1@[7] * gk2@[4] * gk3@[9] + 6900120 * gk1@[6] * gk2@[5] * gk3@[9] + 6900120 * gk1@[5] * gk2@[6] * gk3@[9] +
   2712170 * gk1@[4] * gk2@[7] * gk3@[9] + 326750 * gk1@[3] * gk2@[8] * gk3@[9] - 179400 * gk1@[2] * gk2@[9] *
   gk3@[9] + 3960 * gk1@[9] * gk2@[1] * gk3@[10] - 143520 * gk1@[8] * gk2@[2] * gk3@[10] + 172612 * gk1@[7] *
   gk2@[3] * gk3@[10] + 1340952 * gk1@[6] * gk2@[4] * gk3@[10] + 6525632 * gk1@[5] * gk2@[5] * gk3@[10] + 1340952 *
   gk1@[4] * gk2@[6] * gk3@[10] + 172612 * gk1@[3] * gk2@[7] * gk3@[10] - 143520 * gk1@[2] * gk2@[8] * gk3@[10] +
   3960 * gk1@[1] * gk2@[9] * gk3@[10] + 133750 * gk1@[7] * gk2@[2] * gk3@[11] - 213190 * gk1@[6] * gk2@[3] *
   gk3@[11] + 653860 * gk1@[5] * gk2@[4] * gk3@[11] + 653860 * gk1@[4] * gk2@[5] * gk3@[11] - 213190 * gk1@[3] *
   gk2@[6] * gk3@[11] + 133750 * gk1@[2] * gk2@[7] * gk3@[11] - 1320 * gk1@[7] * gk2@[1] * gk3@[12] + 107000 *
   gk1@[6] * gk2@[2] * gk3@[12] - 44680 * gk1@[5] * gk2@[3] * gk3@[12] - 79120 * gk1@[4] * gk2@[4] * gk3@[12] -
   44680 * gk1@[3] * gk2@[5] * gk3@[12] + 107000 * gk1@[2] * gk2@[6] * gk3@[12] - 1320 * gk1@[1] * gk2@[7] *
   gk3@[12])) * GPi * gq@[8].

(** src/gamma2t_1loop.c:970-1083, kernel_poly[7] of kernel_gamma2t_reg3rd *)
Definition g2t_reg3rd_poly7 : gexpr :=
  (- (7560 * gk1@[13] * gk2@[6] + 7560 * gk1@[12] * gk2@[7] - 7560 * gk1@[11] * gk2@[8] - 7560 * gk1@[10] * gk2@[9]
   - 7560 * gk1@[9] * gk2@[10] - 7560 * gk1@[8] * gk2@[11] + 7560 * gk1@[7] * gk2@[12] + 7560 * gk1@[6] * gk2@[13] +
   2080 * gk1@[13] * gk2@[5] * gk3@[1] - 14520 * gk1@[12] * gk2@[6] * gk3@[1] + 29219 * gk1@[11] * gk2@[7] * gk3@[1]
   + 9480 * gk1@[10] * gk2@[8] * gk3@[1] - 69108 * gk1@[9] * gk2@[9] * gk3@[1] + 9480 * gk1@[8] * gk2@[10] * gk3@[1]
   + 29219 * gk1@[7] * gk2@[11] * gk3@[1] - 14520 * gk1@[6] * gk2@[12] * gk3@[1] + 2080 * gk1@[5] * gk2@[13] *
   gk3@[1] - 111810 * gk1@[13] * gk2@[4] * gk3@[2] + 60140 * gk1@[12] * gk2@[5] * gk3@[2] + 761210 * gk1@[11] *
   gk2@[6] * gk3@[2] + 693210 * gk1@[10] * gk2@[7] * gk3@[2] - 1464910 * gk1@[9] * gk2@[8] * gk3@[2] - 1464910 *
   gk1@[8] * gk2@[9] * gk3@[2] + 693210 * gk1@[7] * gk2@[10] * gk3@[2] + 761210 * gk1@[6] * gk2@[11] * gk3@[2] +
   60140 * gk1@[5] * gk2@[12] * gk3@[2] - 111810 * gk1@[4] * gk2@[13] * gk3@[2] - 148100 * gk1@[13] * gk2@[3] *
   gk3@[3] - 1006400 * gk1@[12] * gk2@[4] * gk3@[3] + 890980 * gk1@[11] * gk2@[5] * gk3@[3] + 7581120 * gk1@[10] *
   gk2@[6] * gk3@[3] - 860736 * gk1@[9] * gk2@[7] * gk3@[3] - 12815680 * gk1@[8] * gk2@[8] * gk3@[3] - 860736 *
   gk1@[7] * gk2@[9] * gk3@[3] + 7581120 * gk1@[6] * gk2@[10] * gk3@[3] + 890980 * gk1@[5] * gk2@[11] * gk3@[3] -
   1006400 * gk1@[4] * gk2@[12] * gk3@[3] - 148100 * gk1@[3] * gk2@[13] * gk3@[3] + 176200 * gk1@[13] * gk2@[2] *
   gk3@[4] - 617860 * gk1@[12] * gk2@[3] * gk3@[4] - 2892730 * gk1@[11] * gk2@[4] * gk3@[4] + 2872540 * gk1@[10] *
   gk2@[5] * gk3@[4] + 5549560 * gk1@[9] * gk2@[6] * gk3@[4] - 5158310 * gk1@[8] * gk2@[7] * gk3@[4] - 5158310 *
   gk1@[7] * gk2@[8] * gk3@[4] + 5549560 * gk1@[6] * gk2@[9] * gk3@[4] + 2872540 * gk1@[5] * gk2@[10] * gk3@[4] -
   2892730 * gk1@[4] * gk2@[11] * gk3@[4] - 617860 * gk1@[3] * gk2@[12] * gk3@[4] + 176200 * gk1@[2] * gk2@[13] *
   gk3@[4] + 6600 * gk1@[13] * gk2@[1] * gk3@[5] + 352400 * gk1@[12] * gk2@[2] * gk3@[5] - 669515 * gk1@[11] *
   gk2@[3] * gk3@[5] - 3314440 * gk1@[10] * gk2@[4] * gk3@[5] - 9751110 * gk1@[9] * gk2@[5] * gk3@[5] + 3005520 *
   gk1@[8] * gk2@[6] * gk3@[5] + 21270302 * gk1@[7] * gk2@[7] * gk3@[5] + 3005520 * gk1@[6] * gk2@[8] * gk3@[5] -
   9751110 * gk1@[5] * gk2@[9] * gk3@[5] - 3314440 * gk1@[4] * gk2@[10] * gk3@[5] - 669515 * gk1@[3] * gk2@[11] *
   gk3@[5] + 352400 * gk1@[2] * gk2@[12] * gk3@[5] + 6600 * gk1@[1] * gk2@[13] * gk3@[5] - 1650 * gk1@[13] * gk3@[6]
   + 5280 * gk1@[12] * gk2@[1] * gk3@[6] + 29370 * gk1@[11] * gk2@[2] * gk3@[6] + 223406 * gk1@[10] * gk2@[3] *
   gk3@[6] - 5220834 * gk1@[9] * gk2@[4] * gk3@[6] - 12210506 * gk1@[8] * gk2@[5] * gk3@[6] + 21277214 * gk1@[7] *
   gk2@[6] * gk3@[6] + 21277214 * gk1@[6] * gk2@[7] * gk3@[6] - 12210506 * gk1@[5] * gk2@[8] * gk3@[6] - 5220834 *
   gk1@[4] * gk2@[9] * gk3@[6] + 223406 * gk1@[3] * gk2@[10] * gk3@[6] + 29370 * gk1@[2] * gk2@[11] * gk3@[6] + 5280
   * gk1@[1] * gk2@[12] * gk3@[6] - 1650 * gk2@[13] * gk3@[6] - 19800 * gk1@[11] * gk2@[1] * gk3@[7] - 169800 *
   gk1@[10] * gk2@[2] * gk3@[7] + 132630 * gk1@[9] * gk2@[3] * gk3@[7] - 968720 * gk1@[8] * gk2@[4] * gk3@[7] +
   6613430 * gk1@[7] * gk2@[5] * gk3@[7] + 20362400 * gk1@[6] * gk2@[6] * gk3@[7] + 6613430 * gk1@[5] * gk2@[7] *
   gk3@[7] - 968720 * gk1@[4] * gk2@[8] * gk3@[7] + 132630 * gk1@[3] * gk2@[9] * gk3@[7] - 169800 * gk1@[2] *
   gk2@[10] * gk3@[7] - 19800 * gk1@[1] * gk2@[11] * gk3@[7] + 4950 * gk1@[11] * gk3@[8] - 15840 * gk1@[10] *
   gk2@[1] * gk3@[8] - 422880 * gk1@[9] * gk2@[2] * gk3@[8] + 696766 * gk1@[8] * gk2@[3] * gk3@[8] + 6378946 *
   gk1@[7] * gk2@[4] * gk3@[8] + 10355772 * gk1@[6] * gk2@[5] * gk3@[8] + 10355772 * gk1@[5] * gk2@[6] * gk3@[8] +
   6378946 * gk1@[4] * gk2@[7] * gk3@[8] + 696766 * gk1@[3] * gk2@[8] * gk3@[8] - 422880 * gk1@[2] * gk2@[9] *
   gk3@[8] - 15840 * gk1@[1] * gk2@[10] * gk3@[8] + 4950 * gk2@[11] * gk3@[8] + 19800 * gk1@[9] * gk2@[1] * gk3@[9]
   - 717600 * gk1@[8] * gk2@[2] * gk3@[9] + 1015880 * gk1@[7] * gk2@[3] * gk3@[9] + 4061880 * gk1@[6] * gk2@[4] *
   gk3@[9] + 7692880 * gk1@[5] * gk2@[5] * gk3@[9] + 4061880 * gk1@[4] * gk2@[6] * gk3@[9] + 1015880 * gk1@[3] *
   gk2@[7] * gk3@[9] - 717600 * gk1@[2] * gk2@[8] * gk3@[9] + 19800 * gk1@[1] * gk2@[9] * gk3@[9] - 4950 * gk1@[9] *
   gk3@[10] + 15840 * gk1@[8] * gk2@[1] * gk3@[10] + 56810 * gk1@[7] * gk2@[2] * gk3@[10] - 146202 * gk1@[6] *
   gk2@[3] * gk3@[10] + 1614238 * gk1@[5] * gk2@[4] * gk3@[10] + 1614238 * gk1@[4] * gk2@[5] * gk3@[10] - 146202 *
   gk1@[3] * gk2@[6] * gk3@[10] + 56810 * gk1@[2] * gk2@[7] * gk3@[10] + 15840 * gk1@[1] * gk2@[8] * gk3@[10] - 4950
   * gk2@[9] * gk3@[10] - 6600 * gk1@[7] * gk2@[1] * gk3@[11] + 535000 * gk1@[6] * gk2@[2] * gk3@[11] - 243560 *
   gk1@[5] * gk2@[3] * gk3@[11] - 449360 * gk1@[4] * gk2@[4] * gk3@[11] - 243560 * gk1@[3] * gk2@[5] * gk3@[11] +
   535000 * gk1@[2] * gk2@[6] * gk3@[11] - 6600 * gk1@[1] * gk2@[7] * gk3@[11] + 1650 * gk1@[7] * gk3@[12] - 5280 *
   gk1@[6] * gk2@[1] * gk3@[12] + 160500 * gk1@[5] * gk2@[2] * gk3@[12] - 74050 * gk1@[4] * gk2@[3] * gk3@[12] -
   74050 * gk1@[3] * gk2@[4] * gk3@[12] + 160500 * gk1@[2] * gk2@[5] * gk3@[12] - 5280 * gk1@[1] * gk2@[6] *
   gk3@[12] + 1650 * gk2@[7] * gk3@[12])) * GPi * gq@[9].

(** src/gamma2t_1loop.c:1085-1198, kernel_poly[8] of kernel_gamma2t_reg3rd *)
Definition g2t_reg3rd_poly8 : gexpr :=
  (- (11340 * gk1@[13] * gk2@[5] + 30240 * gk1@[12] * gk2@[6] + 7560 * gk1@[11] * gk2@[7] - 30240 * gk1@[10] *
   gk2@[8] - 37800 * gk1@[9] * gk2@[9] - 30240 * gk1@[8] * gk2@[10] + 7560 * gk1@[7] * gk2@[11] + 30240 * gk1@[6] *
   gk2@[12] + 11340 * gk1@[5] * gk2@[13] - 23370 * gk1@[13] * gk2@[4] * gk3@[1] + 5980 * gk1@[12] * gk2@[5] *
   gk3@[1] + 165346 * gk1@[11] * gk2@[6] * gk3@[1] + 161826 * gk1@[10] * gk2@[7] * gk3@[1] - 318182 * gk1@[9] *
   gk2@[8] * gk3@[1] - 318182 * gk1@[8] * gk2@[9] * gk3@[1] + 161826 * gk1@[7] * gk2@[10] * gk3@[1] + 165346 *
   gk1@[6] * gk2@[11] * gk3@[1] + 5980 * gk1@[5] * gk2@[12] * gk3@[1] - 23370 * gk1@[4] * gk2@[13] * gk3@[1] - 71040
   * gk1@[13] * gk2@[3] * gk3@[2] - 455040 * gk1@[12] * gk2@[4] * gk3@[2] + 550615 * gk1@[11] * gk2@[5] * gk3@[2] +
   3753040 * gk1@[10] * gk2@[6] * gk3@[2] - 564205 * gk1@[9] * gk2@[7] * gk3@[2] - 6491840 * gk1@[8] * gk2@[8] *
   gk3@[2] - 564205 * gk1@[7] * gk2@[9] * gk3@[2] + 3753040 * gk1@[6] * gk2@[10] * gk3@[2] + 550615 * gk1@[5] *
   gk2@[11] * gk3@[2] - 455040 * gk1@[4] * gk2@[12] * gk3@[2] - 71040 * gk1@[3] * gk2@[13] * gk3@[2] + 176200 *
   gk1@[13] * gk2@[2] * gk3@[3] - 596300 * gk1@[12] * gk2@[3] * gk3@[3] - 2147570 * gk1@[11] * gk2@[4] * gk3@[3] +
   5077700 * gk1@[10] * gk2@[5] * gk3@[3] + 8782136 * gk1@[9] * gk2@[6] * gk3@[3] - 11102334 * gk1@[8] * gk2@[7] *
   gk3@[3] - 11102334 * gk1@[7] * gk2@[8] * gk3@[3] + 8782136 * gk1@[6] * gk2@[9] * gk3@[3] + 5077700 * gk1@[5] *
   gk2@[10] * gk3@[3] - 2147570 * gk1@[4] * gk2@[11] * gk3@[3] - 596300 * gk1@[3] * gk2@[12] * gk3@[3] + 176200 *
   gk1@[2] * gk2@[13] * gk3@[3] + 13200 * gk1@[13] * gk2@[1] * gk3@[4] + 704800 * gk1@[12] * gk2@[2] * gk3@[4] -
   1083970 * gk1@[11] * gk2@[3] * gk3@[4] - 4295920 * gk1@[10] * gk2@[4] * gk3@[4] - 2739060 * gk1@[9] * gk2@[5] *
   gk3@[4] + 3742480 * gk1@[8] * gk2@[6] * gk3@[4] + 7087420 * gk1@[7] * gk2@[7] * gk3@[4] + 3742480 * gk1@[6] *
   gk2@[8] * gk3@[4] - 2739060 * gk1@[5] * gk2@[9] * gk3@[4] - 4295920 * gk1@[4] * gk2@[10] * gk3@[4] - 1083970 *
   gk1@[3] * gk2@[11] * gk3@[4] + 704800 * gk1@[2] * gk2@[12] * gk3@[4] + 13200 * gk1@[1] * gk2@[13] * gk3@[4] -
   8250 * gk1@[13] * gk3@[5] + 26400 * gk1@[12] * gk2@[1] * gk3@[5] + 486450 * gk1@[11] * gk2@[2] * gk3@[5] - 499210
   * gk1@[10] * gk2@[3] * gk3@[5] - 10832010 * gk1@[9] * gk2@[4] * gk3@[5] - 14846930 * gk1@[8] * gk2@[5] * gk3@[5]
   + 26272038 * gk1@[7] * gk2@[6] * gk3@[5] + 26272038 * gk1@[6] * gk2@[7] * gk3@[5] - 14846930 * gk1@[5] * gk2@[8]
   * gk3@[5] - 10832010 * gk1@[4] * gk2@[9] * gk3@[5] - 499210 * gk1@[3] * gk2@[10] * gk3@[5] + 486450 * gk1@[2] *
   gk2@[11] * gk3@[5] + 26400 * gk1@[1] * gk2@[12] * gk3@[5] - 8250 * gk2@[13] * gk3@[5] - 6600 * gk1@[12] * gk3@[6]
   - 31680 * gk1@[11] * gk2@[1] * gk3@[6] - 234920 * gk1@[10] * gk2@[2] * gk3@[6] - 751176 * gk1@[9] * gk2@[3] *
   gk3@[6] - 6669816 * gk1@[8] * gk2@[4] * gk3@[6] + 5171611 * gk1@[7] * gk2@[5] * gk3@[6] + 26593952 * gk1@[6] *
   gk2@[6] * gk3@[6] + 5171611 * gk1@[5] * gk2@[7] * gk3@[6] - 6669816 * gk1@[4] * gk2@[8] * gk3@[6] - 751176 *
   gk1@[3] * gk2@[9] * gk3@[6] - 234920 * gk1@[2] * gk2@[10] * gk3@[6] - 31680 * gk1@[1] * gk2@[11] * gk3@[6] - 6600
   * gk2@[12] * gk3@[6] + 24750 * gk1@[11] * gk3@[7] - 79200 * gk1@[10] * gk2@[1] * gk3@[7] - 679200 * gk1@[9] *
   gk2@[2] * gk3@[7] + 576670 * gk1@[8] * gk2@[3] * gk3@[7] + 9226330 * gk1@[7] * gk2@[4] * gk3@[7] + 13067380 *
   gk1@[6] * gk2@[5] * gk3@[7] + 13067380 * gk1@[5] * gk2@[6] * gk3@[7] + 9226330 * gk1@[4] * gk2@[7] * gk3@[7] +
   576670 * gk1@[3] * gk2@[8] * gk3@[7] - 679200 * gk1@[2] * gk2@[9] * gk3@[7] - 79200 * gk1@[1] * gk2@[10] *
   gk3@[7] + 24750 * gk2@[11] * gk3@[7] + 19800 * gk1@[10] * gk3@[8] + 15840 * gk1@[9] * gk2@[1] * gk3@[8] - 1521720
   * gk1@[8] * gk2@[2] * gk3@[8] + 2498524 * gk1@[7] * gk2@[3] * gk3@[8] + 8238064 * gk1@[6] * gk2@[4] * gk3@[8] +
   6830568 * gk1@[5] * gk2@[5] * gk3@[8] + 8238064 * gk1@[4] * gk2@[6] * gk3@[8] + 2498524 * gk1@[3] * gk2@[7] *
   gk3@[8] - 1521720 * gk1@[2] * gk2@[8] * gk3@[8] + 15840 * gk1@[1] * gk2@[9] * gk3@[8] + 19800 * gk2@[10] *
   gk3@[8] - 24750 * gk1@[9] * gk3@[9] + 79200 * gk1@[8] * gk2@[1] * gk3@[9] - 785950 * gk1@[7] * gk2@[2] * gk3@[9]
   + 779070 * gk1@[6] * gk2@[3] * gk3@[9] + 2171670 * gk1@[5] * gk2@[4] * gk3@[9] + 2171670 * gk1@[4] * gk2@[5] *
   gk3@[9] + 779070 * gk1@[3] * gk2@[6] * gk3@[9] - 785950 * gk1@[2] * gk2@[7] * gk3@[9] + 79200 * gk1@[1] * gk2@[8]
   * gk3@[9] - 24750 * gk2@[9] * gk3@[9] - 19800 * gk1@[8] * gk3@[10] + 10560 * gk1@[7] * gk2@[1] * gk3@[10] +
   944840 * gk1@[6] * gk2@[2] * gk3@[10] - 397988 * gk1@[5] * gk2@[3] * gk3@[10] - 857488 * gk1@[4] * gk2@[4] *
   gk3@[10] - 397988 * gk1@[3] * gk2@[5] * gk3@[10] + 944840 * gk1@[2] * gk2@[6] * gk3@[10] + 10560 * gk1@[1] *
   gk2@[7] * gk3@[10] - 19800 * gk2@[8] * gk3@[10] + 8250 * gk1@[7] * gk3@[11] - 26400 * gk1@[6] * gk2@[1] *
   gk3@[11] + 802500 * gk1@[5] * gk2@[2] * gk3@[11] - 383690 * gk1@[4] * gk2@[3] * gk3@[11] - 383690 * gk1@[3] *
   gk2@[4] * gk3@[11] + 802500 * gk1@[2] * gk2@[5] * gk3@[11] - 26400 * gk1@[1] * gk2@[6] * gk3@[11] + 8250 *
   gk2@[7] * gk3@[11] + 6600 * gk1@[6] * gk3@[12] - 7920 * gk1@[5] * gk2@[1] * gk3@[12] + 107000 * gk1@[4] * gk2@[2]
   * gk3@[12] - 32080 * gk1@[3] * gk2@[3] * gk3@[12] + 107000 * gk1@[2] * gk2@[4] * gk3@[12] - 7920 * gk1@[1] *
   gk2@[5] * gk3@[12] + 6600 * gk2@[6] * gk3@[12])) * GPi * gq@[10].

(** src/gamma2t_1loop.c:1200-1305, kernel_poly[9] of kernel_gamma2t_reg3rd *)
Definition g2t_reg3rd_poly9 : gexpr :=
  (- (7560 * gk1@[13] * gk2@[4] + 45360 * gk1@[12] * gk2@[5] + 68040 * gk1@[11] * gk2@[6] - 7560 * gk1@[10] *
   gk2@[7] - 113400 * gk1@[9] * gk2@[8] - 113400 * gk1@[8] * gk2@[9] - 7560 * gk1@[7] * gk2@[10] + 68040 * gk1@[6] *
   gk2@[11] + 45360 * gk1@[5] * gk2@[12] + 7560 * gk1@[4] * gk2@[13] - 14460 * gk1@[13] * gk2@[3] * gk3@[1] - 95040
   * gk1@[12] * gk2@[4] * gk3@[1] + 128519 * gk1@[11] * gk2@[5] * gk3@[1] + 823184 * gk1@[10] * gk2@[6] * gk3@[1] -
   123929 * gk1@[9] * gk2@[7] * gk3@[1] - 1419328 * gk1@[8] * gk2@[8] * gk3@[1] - 123929 * gk1@[7] * gk2@[9] *
   gk3@[1] + 823184 * gk1@[6] * gk2@[10] * gk3@[1] + 128519 * gk1@[5] * gk2@[11] * gk3@[1] - 95040 * gk1@[4] *
   gk2@[12] * gk3@[1] - 14460 * gk1@[3] * gk2@[13] * gk3@[1] + 88100 * gk1@[13] * gk2@[2] * gk3@[2] - 286110 *
   gk1@[12] * gk2@[3] * gk3@[2] - 997650 * gk1@[11] * gk2@[4] * gk3@[2] + 2425260 * gk1@[10] * gk2@[5] * gk3@[2] +
   4431420 * gk1@[9] * gk2@[6] * gk3@[2] - 5733260 * gk1@[8] * gk2@[7] * gk3@[2] - 5733260 * gk1@[7] * gk2@[8] *
   gk3@[2] + 4431420 * gk1@[6] * gk2@[9] * gk3@[2] + 2425260 * gk1@[5] * gk2@[10] * gk3@[2] - 997650 * gk1@[4] *
   gk2@[11] * gk3@[2] - 286110 * gk1@[3] * gk2@[12] * gk3@[2] + 88100 * gk1@[2] * gk2@[13] * gk3@[2] + 13200 *
   gk1@[13] * gk2@[1] * gk3@[3] + 704800 * gk1@[12] * gk2@[2] * gk3@[3] - 922910 * gk1@[11] * gk2@[3] * gk3@[3] -
   2668560 * gk1@[10] * gk2@[4] * gk3@[3] + 3559664 * gk1@[9] * gk2@[5] * gk3@[3] + 2122384 * gk1@[8] * gk2@[6] *
   gk3@[3] - 5531852 * gk1@[7] * gk2@[7] * gk3@[3] + 2122384 * gk1@[6] * gk2@[8] * gk3@[3] + 3559664 * gk1@[5] *
   gk2@[9] * gk3@[3] - 2668560 * gk1@[4] * gk2@[10] * gk3@[3] - 922910 * gk1@[3] * gk2@[11] * gk3@[3] + 704800 *
   gk1@[2] * gk2@[12] * gk3@[3] + 13200 * gk1@[1] * gk2@[13] * gk3@[3] - 16500 * gk1@[13] * gk3@[4] + 52800 *
   gk1@[12] * gk2@[1] * gk3@[4] + 1100250 * gk1@[11] * gk2@[2] * gk3@[4] - 793630 * gk1@[10] * gk2@[3] * gk3@[4] -
   9829740 * gk1@[9] * gk2@[4] * gk3@[4] - 7620480 * gk1@[8] * gk2@[5] * gk3@[4] + 17313180 * gk1@[7] * gk2@[6] *
   gk3@[4] + 17313180 * gk1@[6] * gk2@[7] * gk3@[4] - 7620480 * gk1@[5] * gk2@[8] * gk3@[4] - 9829740 * gk1@[4] *
   gk2@[9] * gk3@[4] - 793630 * gk1@[3] * gk2@[10] * gk3@[4] + 1100250 * gk1@[2] * gk2@[11] * gk3@[4] + 52800 *
   gk1@[1] * gk2@[12] * gk3@[4] - 16500 * gk2@[13] * gk3@[4] - 33000 * gk1@[12] * gk3@[5] + 183800 * gk1@[10] *
   gk2@[2] * gk3@[5] - 1947900 * gk1@[9] * gk2@[3] * gk3@[5] - 12175000 * gk1@[8] * gk2@[4] * gk3@[5] + 2185307 *
   gk1@[7] * gk2@[5] * gk3@[5] + 27906272 * gk1@[6] * gk2@[6] * gk3@[5] + 2185307 * gk1@[5] * gk2@[7] * gk3@[5] -
   12175000 * gk1@[4] * gk2@[8] * gk3@[5] - 1947900 * gk1@[3] * gk2@[9] * gk3@[5] + 183800 * gk1@[2] * gk2@[10] *
   gk3@[5] - 33000 * gk2@[12] * gk3@[5] + 39600 * gk1@[11] * gk3@[6] - 153120 * gk1@[10] * gk2@[1] * gk3@[6] -
   751280 * gk1@[9] * gk2@[2] * gk3@[6] - 927804 * gk1@[8] * gk2@[3] * gk3@[6] + 5725916 * gk1@[7] * gk2@[4] *
   gk3@[6] + 10132748 * gk1@[6] * gk2@[5] * gk3@[6] + 10132748 * gk1@[5] * gk2@[6] * gk3@[6] + 5725916 * gk1@[4] *
   gk2@[7] * gk3@[6] - 927804 * gk1@[3] * gk2@[8] * gk3@[6] - 751280 * gk1@[2] * gk2@[9] * gk3@[6] - 153120 *
   gk1@[1] * gk2@[10] * gk3@[6] + 39600 * gk2@[11] * gk3@[6] + 99000 * gk1@[10] * gk3@[7] - 79200 * gk1@[9] *
   gk2@[1] * gk3@[7] - 1867800 * gk1@[8] * gk2@[2] * gk3@[7] + 3363040 * gk1@[7] * gk2@[3] * gk3@[7] + 10183760 *
   gk1@[6] * gk2@[4] * gk3@[7] + 5740240 * gk1@[5] * gk2@[5] * gk3@[7] + 10183760 * gk1@[4] * gk2@[6] * gk3@[7] +
   3363040 * gk1@[3] * gk2@[7] * gk3@[7] - 1867800 * gk1@[2] * gk2@[8] * gk3@[7] - 79200 * gk1@[1] * gk2@[9] *
   gk3@[7] + 99000 * gk2@[10] * gk3@[7] - 19800 * gk1@[9] * gk3@[8] + 142560 * gk1@[8] * gk2@[1] * gk3@[8] - 2060480
   * gk1@[7] * gk2@[2] * gk3@[8] + 2416336 * gk1@[6] * gk2@[3] * gk3@[8] + 2380116 * gk1@[5] * gk2@[4] * gk3@[8] +
   2380116 * gk1@[4] * gk2@[5] * gk3@[8] + 2416336 * gk1@[3] * gk2@[6] * gk3@[8] - 2060480 * gk1@[2] * gk2@[7] *
   gk3@[8] + 142560 * gk1@[1] * gk2@[8] * gk3@[8] - 19800 * gk2@[9] * gk3@[8] - 99000 * gk1@[8] * gk3@[9] + 105600 *
   gk1@[7] * gk2@[1] * gk3@[9] + 444200 * gk1@[6] * gk2@[2] * gk3@[9] - 208620 * gk1@[5] * gk2@[3] * gk3@[9] -
   1071120 * gk1@[4] * gk2@[4] * gk3@[9] - 208620 * gk1@[3] * gk2@[5] * gk3@[9] + 444200 * gk1@[2] * gk2@[6] *
   gk3@[9] + 105600 * gk1@[1] * gk2@[7] * gk3@[9] - 99000 * gk2@[8] * gk3@[9] - 13200 * gk1@[7] * gk3@[10] - 36960 *
   gk1@[6] * gk2@[1] * gk3@[10] + 1596660 * gk1@[5] * gk2@[2] * gk3@[10] - 759322 * gk1@[4] * gk2@[3] * gk3@[10] -
   759322 * gk1@[3] * gk2@[4] * gk3@[10] + 1596660 * gk1@[2] * gk2@[5] * gk3@[10] - 36960 * gk1@[1] * gk2@[6] *
   gk3@[10] - 13200 * gk2@[7] * gk3@[10] + 33000 * gk1@[6] * gk3@[11] - 39600 * gk1@[5] * gk2@[1] * gk3@[11] +
   535000 * gk1@[4] * gk2@[2] * gk3@[11] - 163760 * gk1@[3] * gk2@[3] * gk3@[11] + 535000 * gk1@[2] * gk2@[4] *
   gk3@[11] - 39600 * gk1@[1] * gk2@[5] * gk3@[11] + 33000 * gk2@[6] * gk3@[11] + 9900 * gk1@[5] * gk3@[12] - 5280 *
   gk1@[4] * gk2@[1] * gk3@[12] + 26750 * gk1@[3] * gk2@[2] * gk3@[12] + 26750 * gk1@[2] * gk2@[3] * gk3@[12] - 5280
   * gk1@[1] * gk2@[4] * gk3@[12] + 9900 * gk2@[5] * gk3@[12])) * GPi * gq@[11].

(** src/gamma2t_1loop.c:1307-1404, kernel_poly[10] of kernel_gamma2t_reg3rd *)
Definition g2t_reg3rd_poly10 : gexpr :=
  (- (1890 * gk1@[13] * gk2@[3] + 30240 * gk1@[12] * gk2@[4] + 111510 * gk1@[11] * gk2@[5] + 120960 * gk1@[10] *
   gk2@[6] - 113400 * gk1@[9] * gk2@[7] - 302400 * gk1@[8] * gk2@[8] - 113400 * gk1@[7] * gk2@[9] + 120960 * gk1@[6]
   * gk2@[10] + 111510 * gk1@[5] * gk2@[11] + 30240 * gk1@[4] * gk2@[12] + 1890 * gk1@[3] * gk2@[13] + 17620 *
   gk1@[13] * gk2@[2] * gk3@[1] - 58230 * gk1@[12] * gk2@[3] * gk3@[1] - 187434 * gk1@[11] * gk2@[4] * gk3@[1] +
   588876 * gk1@[10] * gk2@[5] * gk3@[1] + 971964 * gk1@[9] * gk2@[6] * gk3@[1] - 1310956 * gk1@[8] * gk2@[7] *
   gk3@[1] - 1310956 * gk1@[7] * gk2@[8] * gk3@[1] + 971964 * gk1@[6] * gk2@[9] * gk3@[1] + 588876 * gk1@[5] *
   gk2@[10] * gk3@[1] - 187434 * gk1@[4] * gk2@[11] * gk3@[1] - 58230 * gk1@[3] * gk2@[12] * gk3@[1] + 17620 *
   gk1@[2] * gk2@[13] * gk3@[1] + 6600 * gk1@[13] * gk2@[1] * gk3@[2] + 352400 * gk1@[12] * gk2@[2] * gk3@[2] -
   445575 * gk1@[11] * gk2@[3] * gk3@[2] - 1385800 * gk1@[10] * gk2@[4] * gk3@[2] + 1928930 * gk1@[9] * gk2@[5] *
   gk3@[2] + 964520 * gk1@[8] * gk2@[6] * gk3@[2] - 3391090 * gk1@[7] * gk2@[7] * gk3@[2] + 964520 * gk1@[6] *
   gk2@[8] * gk3@[2] + 1928930 * gk1@[5] * gk2@[9] * gk3@[2] - 1385800 * gk1@[4] * gk2@[10] * gk3@[2] - 445575 *
   gk1@[3] * gk2@[11] * gk3@[2] + 352400 * gk1@[2] * gk2@[12] * gk3@[2] + 6600 * gk1@[1] * gk2@[13] * gk3@[2] -
   16500 * gk1@[13] * gk3@[3] + 52800 * gk1@[12] * gk2@[1] * gk3@[3] + 1134210 * gk1@[11] * gk2@[2] * gk3@[3] -
   487710 * gk1@[10] * gk2@[3] * gk3@[3] - 5309324 * gk1@[9] * gk2@[4] * gk3@[3] - 1299384 * gk1@[8] * gk2@[5] *
   gk3@[3] + 5759772 * gk1@[7] * gk2@[6] * gk3@[3] + 5759772 * gk1@[6] * gk2@[7] * gk3@[3] - 1299384 * gk1@[5] *
   gk2@[8] * gk3@[3] - 5309324 * gk1@[4] * gk2@[9] * gk3@[3] - 487710 * gk1@[3] * gk2@[10] * gk3@[3] + 1134210 *
   gk1@[2] * gk2@[11] * gk3@[3] + 52800 * gk1@[1] * gk2@[12] * gk3@[3] - 16500 * gk2@[13] * gk3@[3] - 66000 *
   gk1@[12] * gk3@[4] + 59400 * gk1@[11] * gk2@[1] * gk3@[4] + 877000 * gk1@[10] * gk2@[2] * gk3@[4] - 1579860 *
   gk1@[9] * gk2@[3] * gk3@[4] - 9721920 * gk1@[8] * gk2@[4] * gk3@[4] + 1700020 * gk1@[7] * gk2@[5] * gk3@[4] +
   19389520 * gk1@[6] * gk2@[6] * gk3@[4] + 1700020 * gk1@[5] * gk2@[7] * gk3@[4] - 9721920 * gk1@[4] * gk2@[8] *
   gk3@[4] - 1579860 * gk1@[3] * gk2@[9] * gk3@[4] + 877000 * gk1@[2] * gk2@[10] * gk3@[4] + 59400 * gk1@[1] *
   gk2@[11] * gk3@[4] - 66000 * gk2@[12] * gk3@[4] - 132000 * gk1@[10] * gk2@[1] * gk3@[5] - 332080 * gk1@[9] *
   gk2@[2] * gk3@[5] - 2339740 * gk1@[8] * gk2@[3] * gk3@[5] + 249708 * gk1@[7] * gk2@[4] * gk3@[5] + 6091308 *
   gk1@[6] * gk2@[5] * gk3@[5] + 6091308 * gk1@[5] * gk2@[6] * gk3@[5] + 249708 * gk1@[4] * gk2@[7] * gk3@[5] -
   2339740 * gk1@[3] * gk2@[8] * gk3@[5] - 332080 * gk1@[2] * gk2@[9] * gk3@[5] - 132000 * gk1@[1] * gk2@[10] *
   gk3@[5] + 191400 * gk1@[10] * gk3@[6] - 216480 * gk1@[9] * gk2@[1] * gk3@[6] - 1548600 * gk1@[8] * gk2@[2] *
   gk3@[6] + 2170529 * gk1@[7] * gk2@[3] * gk3@[6] + 6524680 * gk1@[6] * gk2@[4] * gk3@[6] + 3526352 * gk1@[5] *
   gk2@[5] * gk3@[6] + 6524680 * gk1@[4] * gk2@[6] * gk3@[6] + 2170529 * gk1@[3] * gk2@[7] * gk3@[6] - 1548600 *
   gk1@[2] * gk2@[8] * gk3@[6] - 216480 * gk1@[1] * gk2@[9] * gk3@[6] + 191400 * gk2@[10] * gk3@[6] + 99000 *
   gk1@[9] * gk3@[7] + 79200 * gk1@[8] * gk2@[1] * gk3@[7] - 2516800 * gk1@[7] * gk2@[2] * gk3@[7] + 3182120 *
   gk1@[6] * gk2@[3] * gk3@[7] + 2178220 * gk1@[5] * gk2@[4] * gk3@[7] + 2178220 * gk1@[4] * gk2@[5] * gk3@[7] +
   3182120 * gk1@[3] * gk2@[6] * gk3@[7] - 2516800 * gk1@[2] * gk2@[7] * gk3@[7] + 79200 * gk1@[1] * gk2@[8] *
   gk3@[7] + 99000 * gk2@[9] * gk3@[7] - 178200 * gk1@[8] * gk3@[8] + 227040 * gk1@[7] * gk2@[1] * gk3@[8] - 769160
   * gk1@[6] * gk2@[2] * gk3@[8] + 321984 * gk1@[5] * gk2@[3] * gk3@[8] - 983360 * gk1@[4] * gk2@[4] * gk3@[8] +
   321984 * gk1@[3] * gk2@[5] * gk3@[8] - 769160 * gk1@[2] * gk2@[6] * gk3@[8] + 227040 * gk1@[1] * gk2@[7] *
   gk3@[8] - 178200 * gk2@[8] * gk3@[8] - 132000 * gk1@[7] * gk3@[9] + 26400 * gk1@[6] * gk2@[1] * gk3@[9] + 1563300
   * gk1@[5] * gk2@[2] * gk3@[9] - 821730 * gk1@[4] * gk2@[3] * gk3@[9] - 821730 * gk1@[3] * gk2@[4] * gk3@[9] +
   1563300 * gk1@[2] * gk2@[5] * gk3@[9] + 26400 * gk1@[1] * gk2@[6] * gk3@[9] - 132000 * gk2@[7] * gk3@[9] + 46200
   * gk1@[6] * gk3@[10] - 75240 * gk1@[5] * gk2@[1] * gk3@[10] + 1088360 * gk1@[4] * gk2@[2] * gk3@[10] - 326068 *
   gk1@[3] * gk2@[3] * gk3@[10] + 1088360 * gk1@[2] * gk2@[4] * gk3@[10] - 75240 * gk1@[1] * gk2@[5] * gk3@[10] +
   46200 * gk2@[6] * gk3@[10] + 49500 * gk1@[5] * gk3@[11] - 26400 * gk1@[4] * gk2@[1] * gk3@[11] + 133750 * gk1@[3]
   * gk2@[2] * gk3@[11] + 133750 * gk1@[2] * gk2@[3] * gk3@[11] - 26400 * gk1@[1] * gk2@[4] * gk3@[11] + 49500 *
   gk2@[5] * gk3@[11] + 6600 * gk1@[4] * gk3@[12] - 1320 * gk1@[3] * gk2@[1] * gk3@[12] - 1320 * gk1@[1] * gk2@[3] *
   gk3@[12] + 6600 * gk2@[4] * gk3@[12])) * GPi * gq@[12].

(** src/gamma2t_1loop.c:1406-1492, kernel_poly[11] of kernel_gamma2t_reg3rd *)
Definition g2t_reg3rd_poly11 : gexpr :=
  (- (7560 * gk1@[12] * gk2@[3] + 75600 * gk1@[11] * gk2@[4] + 219240 * gk1@[10] * gk2@[5] + 83160 * gk1@[9] *
   gk2@[6] - 385560 * gk1@[8] * gk2@[7] - 385560 * gk1@[7] * gk2@[8] + 83160 * gk1@[6] * gk2@[9] + 219240 * gk1@[5]
   * gk2@[10] + 75600 * gk1@[4] * gk2@[11] + 7560 * gk1@[3] * gk2@[12] + 1320 * gk1@[13] * gk2@[1] * gk3@[1] + 70480
   * gk1@[12] * gk2@[2] * gk3@[1] - 86091 * gk1@[11] * gk2@[3] * gk3@[1] - 208616 * gk1@[10] * gk2@[4] * gk3@[1] +
   547066 * gk1@[9] * gk2@[5] * gk3@[1] + 156616 * gk1@[8] * gk2@[6] * gk3@[1] - 944330 * gk1@[7] * gk2@[7] *
   gk3@[1] + 156616 * gk1@[6] * gk2@[8] * gk3@[1] + 547066 * gk1@[5] * gk2@[9] * gk3@[1] - 208616 * gk1@[4] *
   gk2@[10] * gk3@[1] - 86091 * gk1@[3] * gk2@[11] * gk3@[1] + 70480 * gk1@[2] * gk2@[12] * gk3@[1] + 1320 * gk1@[1]
   * gk2@[13] * gk3@[1] - 8250 * gk1@[13] * gk3@[2] + 26400 * gk1@[12] * gk2@[1] * gk3@[2] + 571350 * gk1@[11] *
   gk2@[2] * gk3@[2] - 269350 * gk1@[10] * gk2@[3] * gk3@[2] - 2527460 * gk1@[9] * gk2@[4] * gk3@[2] - 242070 *
   gk1@[8] * gk2@[5] * gk3@[2] + 1984020 * gk1@[7] * gk2@[6] * gk3@[2] + 1984020 * gk1@[6] * gk2@[7] * gk3@[2] -
   242070 * gk1@[5] * gk2@[8] * gk3@[2] - 2527460 * gk1@[4] * gk2@[9] * gk3@[2] - 269350 * gk1@[3] * gk2@[10] *
   gk3@[2] + 571350 * gk1@[2] * gk2@[11] * gk3@[2] + 26400 * gk1@[1] * gk2@[12] * gk3@[2] - 8250 * gk2@[13] *
   gk3@[2] - 66000 * gk1@[12] * gk3@[3] + 75240 * gk1@[11] * gk2@[1] * gk3@[3] + 1012840 * gk1@[10] * gk2@[2] *
   gk3@[3] - 612656 * gk1@[9] * gk2@[3] * gk3@[3] - 5103136 * gk1@[8] * gk2@[4] * gk3@[3] + 401548 * gk1@[7] *
   gk2@[5] * gk3@[3] + 8330448 * gk1@[6] * gk2@[6] * gk3@[3] + 401548 * gk1@[5] * gk2@[7] * gk3@[3] - 5103136 *
   gk1@[4] * gk2@[8] * gk3@[3] - 612656 * gk1@[3] * gk2@[9] * gk3@[3] + 1012840 * gk1@[2] * gk2@[10] * gk3@[3] +
   75240 * gk1@[1] * gk2@[11] * gk3@[3] - 66000 * gk2@[12] * gk3@[3] - 74250 * gk1@[11] * gk3@[4] - 26400 * gk1@[10]
   * gk2@[1] * gk3@[4] + 368800 * gk1@[9] * gk2@[2] * gk3@[4] - 1700730 * gk1@[8] * gk2@[3] * gk3@[4] - 901860 *
   gk1@[7] * gk2@[4] * gk3@[4] + 3730880 * gk1@[6] * gk2@[5] * gk3@[4] + 3730880 * gk1@[5] * gk2@[6] * gk3@[4] -
   901860 * gk1@[4] * gk2@[7] * gk3@[4] - 1700730 * gk1@[3] * gk2@[8] * gk3@[4] + 368800 * gk1@[2] * gk2@[9] *
   gk3@[4] - 26400 * gk1@[1] * gk2@[10] * gk3@[4] - 74250 * gk2@[11] * gk3@[4] + 165000 * gk1@[10] * gk3@[5] -
   227040 * gk1@[9] * gk2@[1] * gk3@[5] - 837720 * gk1@[8] * gk2@[2] * gk3@[5] + 500817 * gk1@[7] * gk2@[3] *
   gk3@[5] + 2002152 * gk1@[6] * gk2@[4] * gk3@[5] + 1593712 * gk1@[5] * gk2@[5] * gk3@[5] + 2002152 * gk1@[4] *
   gk2@[6] * gk3@[5] + 500817 * gk1@[3] * gk2@[7] * gk3@[5] - 837720 * gk1@[2] * gk2@[8] * gk3@[5] - 227040 *
   gk1@[1] * gk2@[9] * gk3@[5] + 165000 * gk2@[10] * gk3@[5] + 270600 * gk1@[9] * gk3@[6] - 79200 * gk1@[8] *
   gk2@[1] * gk3@[6] - 1918200 * gk1@[7] * gk2@[2] * gk3@[6] + 2097880 * gk1@[6] * gk2@[3] * gk3@[6] + 1228360 *
   gk1@[5] * gk2@[4] * gk3@[6] + 1228360 * gk1@[4] * gk2@[5] * gk3@[6] + 2097880 * gk1@[3] * gk2@[6] * gk3@[6] -
   1918200 * gk1@[2] * gk2@[7] * gk3@[6] - 79200 * gk1@[1] * gk2@[8] * gk3@[6] + 270600 * gk2@[9] * gk3@[6] - 99000
   * gk1@[8] * gk3@[7] + 216480 * gk1@[7] * gk2@[1] * gk3@[7] - 1407400 * gk1@[6] * gk2@[2] * gk3@[7] + 632950 *
   gk1@[5] * gk2@[3] * gk3@[7] - 895040 * gk1@[4] * gk2@[4] * gk3@[7] + 632950 * gk1@[3] * gk2@[5] * gk3@[7] -
   1407400 * gk1@[2] * gk2@[6] * gk3@[7] + 216480 * gk1@[1] * gk2@[7] * gk3@[7] - 99000 * gk2@[8] * gk3@[7] - 283800
   * gk1@[7] * gk3@[8] + 132000 * gk1@[6] * gk2@[1] * gk3@[8] + 705960 * gk1@[5] * gk2@[2] * gk3@[8] - 535640 *
   gk1@[4] * gk2@[3] * gk3@[8] - 535640 * gk1@[3] * gk2@[4] * gk3@[8] + 705960 * gk1@[2] * gk2@[5] * gk3@[8] +
   132000 * gk1@[1] * gk2@[6] * gk3@[8] - 283800 * gk2@[7] * gk3@[8] - 33000 * gk1@[6] * gk3@[9] - 59400 * gk1@[5] *
   gk2@[1] * gk3@[9] + 1161800 * gk1@[4] * gk2@[2] * gk3@[9] - 343920 * gk1@[3] * gk2@[3] * gk3@[9] + 1161800 *
   gk1@[2] * gk2@[4] * gk3@[9] - 59400 * gk1@[1] * gk2@[5] * gk3@[9] - 33000 * gk2@[6] * gk3@[9] + 94050 * gk1@[5] *
   gk3@[10] - 52800 * gk1@[4] * gk2@[1] * gk3@[10] + 272090 * gk1@[3] * gk2@[2] * gk3@[10] + 272090 * gk1@[2] *
   gk2@[3] * gk3@[10] - 52800 * gk1@[1] * gk2@[4] * gk3@[10] + 94050 * gk2@[5] * gk3@[10] + 33000 * gk1@[4] *
   gk3@[11] - 6600 * gk1@[3] * gk2@[1] * gk3@[11] - 6600 * gk1@[1] * gk2@[3] * gk3@[11] + 33000 * gk2@[4] * gk3@[11]
   + 1650 * gk1@[3] * gk3@[12] + 1650 * gk2@[3] * gk3@[12])) * GPi * gq@[13].

(** src/gamma2t_1loop.c:1494-1566, kernel_poly[12] of kernel_gamma2t_reg3rd *)
Definition g2t_reg3rd_poly12 : gexpr :=
  (- (18900 * gk1@[11] * gk2@[3] + 151200 * gk1@[10] * gk2@[4] + 257040 * gk1@[9] * gk2@[5] - 151200 * gk1@[8] *
   gk2@[6] - 551880 * gk1@[7] * gk2@[7] - 151200 * gk1@[6] * gk2@[8] + 257040 * gk1@[5] * gk2@[9] + 151200 * gk1@[4]
   * gk2@[10] + 18900 * gk1@[3] * gk2@[11] - 1650 * gk1@[13] * gk3@[1] + 5280 * gk1@[12] * gk2@[1] * gk3@[1] +
   114270 * gk1@[11] * gk2@[2] * gk3@[1] - 36734 * gk1@[10] * gk2@[3] * gk3@[1] - 393604 * gk1@[9] * gk2@[4] *
   gk3@[1] + 53394 * gk1@[8] * gk2@[5] * gk3@[1] + 250644 * gk1@[7] * gk2@[6] * gk3@[1] + 250644 * gk1@[6] * gk2@[7]
   * gk3@[1] + 53394 * gk1@[5] * gk2@[8] * gk3@[1] - 393604 * gk1@[4] * gk2@[9] * gk3@[1] - 36734 * gk1@[3] *
   gk2@[10] * gk3@[1] + 114270 * gk1@[2] * gk2@[11] * gk3@[1] + 5280 * gk1@[1] * gk2@[12] * gk3@[1] - 1650 *
   gk2@[13] * gk3@[1] - 33000 * gk1@[12] * gk3@[2] + 39600 * gk1@[11] * gk2@[1] * gk3@[2] + 523400 * gk1@[10] *
   gk2@[2] * gk3@[2] - 294890 * gk1@[9] * gk2@[3] * gk3@[2] - 2301400 * gk1@[8] * gk2@[4] * gk3@[2] + 17255 *
   gk1@[7] * gk2@[5] * gk3@[2] + 3168400 * gk1@[6] * gk2@[6] * gk3@[2] + 17255 * gk1@[5] * gk2@[7] * gk3@[2] -
   2301400 * gk1@[4] * gk2@[8] * gk3@[2] - 294890 * gk1@[3] * gk2@[9] * gk3@[2] + 523400 * gk1@[2] * gk2@[10] *
   gk3@[2] + 39600 * gk1@[1] * gk2@[11] * gk3@[2] - 33000 * gk2@[12] * gk3@[2] - 94050 * gk1@[11] * gk3@[3] + 36960
   * gk1@[10] * gk2@[1] * gk3@[3] + 625120 * gk1@[9] * gk2@[2] * gk3@[3] - 693034 * gk1@[8] * gk2@[3] * gk3@[3] -
   1066164 * gk1@[7] * gk2@[4] * gk3@[3] + 1225512 * gk1@[6] * gk2@[5] * gk3@[3] + 1225512 * gk1@[5] * gk2@[6] *
   gk3@[3] - 1066164 * gk1@[4] * gk2@[7] * gk3@[3] - 693034 * gk1@[3] * gk2@[8] * gk3@[3] + 625120 * gk1@[2] *
   gk2@[9] * gk3@[3] + 36960 * gk1@[1] * gk2@[10] * gk3@[3] - 94050 * gk2@[11] * gk3@[3] + 33000 * gk1@[10] *
   gk3@[4] - 105600 * gk1@[9] * gk2@[1] * gk3@[4] - 90600 * gk1@[8] * gk2@[2] * gk3@[4] + 92910 * gk1@[7] * gk2@[3]
   * gk3@[4] + 527040 * gk1@[6] * gk2@[4] * gk3@[4] + 789720 * gk1@[5] * gk2@[5] * gk3@[4] + 527040 * gk1@[4] *
   gk2@[6] * gk3@[4] + 92910 * gk1@[3] * gk2@[7] * gk3@[4] - 90600 * gk1@[2] * gk2@[8] * gk3@[4] - 105600 * gk1@[1]
   * gk2@[9] * gk3@[4] + 33000 * gk2@[10] * gk3@[4] + 283800 * gk1@[9] * gk3@[5] - 142560 * gk1@[8] * gk2@[1] *
   gk3@[5] - 1041240 * gk1@[7] * gk2@[2] * gk3@[5] + 741048 * gk1@[6] * gk2@[3] * gk3@[5] + 369288 * gk1@[5] *
   gk2@[4] * gk3@[5] + 369288 * gk1@[4] * gk2@[5] * gk3@[5] + 741048 * gk1@[3] * gk2@[6] * gk3@[5] - 1041240 *
   gk1@[2] * gk2@[7] * gk3@[5] - 142560 * gk1@[1] * gk2@[8] * gk3@[5] + 283800 * gk2@[9] * gk3@[5] + 99000 * gk1@[8]
   * gk3@[6] + 79200 * gk1@[7] * gk2@[1] * gk3@[6] - 1151400 * gk1@[6] * gk2@[2] * gk3@[6] + 460330 * gk1@[5] *
   gk2@[3] * gk3@[6] - 722640 * gk1@[4] * gk2@[4] * gk3@[6] + 460330 * gk1@[3] * gk2@[5] * gk3@[6] - 1151400 *
   gk1@[2] * gk2@[6] * gk3@[6] + 79200 * gk1@[1] * gk2@[7] * gk3@[6] + 99000 * gk2@[8] * gk3@[6] - 270600 * gk1@[7]
   * gk3@[7] + 153120 * gk1@[6] * gk2@[1] * gk3@[7] + 11400 * gk1@[5] * gk2@[2] * gk3@[7] - 280280 * gk1@[4] *
   gk2@[3] * gk3@[7] - 280280 * gk1@[3] * gk2@[4] * gk3@[7] + 11400 * gk1@[2] * gk2@[5] * gk3@[7] + 153120 * gk1@[1]
   * gk2@[6] * gk3@[7] - 270600 * gk2@[7] * gk3@[7] - 165000 * gk1@[6] * gk3@[8] + 718600 * gk1@[4] * gk2@[2] *
   gk3@[8] - 206360 * gk1@[3] * gk2@[3] * gk3@[8] + 718600 * gk1@[2] * gk2@[4] * gk3@[8] - 165000 * gk2@[6] *
   gk3@[8] + 74250 * gk1@[5] * gk3@[9] - 52800 * gk1@[4] * gk2@[1] * gk3@[9] + 290450 * gk1@[3] * gk2@[2] * gk3@[9]
   + 290450 * gk1@[2] * gk2@[3] * gk3@[9] - 52800 * gk1@[1] * gk2@[4] * gk3@[9] + 74250 * gk2@[5] * gk3@[9] + 66000
   * gk1@[4] * gk3@[10] - 13200 * gk1@[3] * gk2@[1] * gk3@[10] - 13200 * gk1@[1] * gk2@[3] * gk3@[10] + 66000 *
   gk2@[4] * gk3@[10] + 8250 * gk1@[3] * gk3@[11] + 8250 * gk2@[3] * gk3@[11])) * GPi * gq@[14].

(** src/gamma2t_1loop.c:1568-1624, kernel_poly[13] of kernel_gamma2t_reg3rd *)
Definition g2t_reg3rd_poly13 : gexpr :=
  (- (37800 * gk1@[10] * gk2@[3] + 189000 * gk1@[9] * gk2@[4] + 113400 * gk1@[8] * gk2@[5] - 340200 * gk1@[7] *
   gk2@[6] - 340200 * gk1@[6] * gk2@[7] + 113400 * gk1@[5] * gk2@[8] + 189000 * gk1@[4] * gk2@[9] + 37800 * gk1@[3]
   * gk2@[10] - 6600 * gk1@[12] * gk3@[1] + 7920 * gk1@[11] * gk2@[1] * gk3@[1] + 104680 * gk1@[10] * gk2@[2] *
   gk3@[1] - 31006 * gk1@[9] * gk2@[3] * gk3@[1] - 371576 * gk1@[8] * gk2@[4] * gk3@[1] + 19831 * gk1@[7] * gk2@[5]
   * gk3@[1] + 536912 * gk1@[6] * gk2@[6] * gk3@[1] + 19831 * gk1@[5] * gk2@[7] * gk3@[1] - 371576 * gk1@[4] *
   gk2@[8] * gk3@[1] - 31006 * gk1@[3] * gk2@[9] * gk3@[1] + 104680 * gk1@[2] * gk2@[10] * gk3@[1] + 7920 * gk1@[1]
   * gk2@[11] * gk3@[1] - 6600 * gk2@[12] * gk3@[1] - 49500 * gk1@[11] * gk3@[2] + 26400 * gk1@[10] * gk2@[1] *
   gk3@[2] + 344600 * gk1@[9] * gk2@[2] * gk3@[2] - 302350 * gk1@[8] * gk2@[3] * gk3@[2] - 680250 * gk1@[7] *
   gk2@[4] * gk3@[2] + 346100 * gk1@[6] * gk2@[5] * gk3@[2] + 346100 * gk1@[5] * gk2@[6] * gk3@[2] - 680250 *
   gk1@[4] * gk2@[7] * gk3@[2] - 302350 * gk1@[3] * gk2@[8] * gk3@[2] + 344600 * gk1@[2] * gk2@[9] * gk3@[2] + 26400
   * gk1@[1] * gk2@[10] * gk3@[2] - 49500 * gk2@[11] * gk3@[2] - 46200 * gk1@[10] * gk3@[3] - 10560 * gk1@[9] *
   gk2@[1] * gk3@[3] + 255480 * gk1@[8] * gk2@[2] * gk3@[3] - 46566 * gk1@[7] * gk2@[3] * gk3@[3] - 180576 * gk1@[6]
   * gk2@[4] * gk3@[3] + 175728 * gk1@[5] * gk2@[5] * gk3@[3] - 180576 * gk1@[4] * gk2@[6] * gk3@[3] - 46566 *
   gk1@[3] * gk2@[7] * gk3@[3] + 255480 * gk1@[2] * gk2@[8] * gk3@[3] - 10560 * gk1@[1] * gk2@[9] * gk3@[3] - 46200
   * gk2@[10] * gk3@[3] + 132000 * gk1@[9] * gk3@[4] - 79200 * gk1@[8] * gk2@[1] * gk3@[4] - 351150 * gk1@[7] *
   gk2@[2] * gk3@[4] + 256710 * gk1@[6] * gk2@[3] * gk3@[4] + 59760 * gk1@[5] * gk2@[4] * gk3@[4] + 59760 * gk1@[4]
   * gk2@[5] * gk3@[4] + 256710 * gk1@[3] * gk2@[6] * gk3@[4] - 351150 * gk1@[2] * gk2@[7] * gk3@[4] - 79200 *
   gk1@[1] * gk2@[8] * gk3@[4] + 132000 * gk2@[9] * gk3@[4] + 178200 * gk1@[8] * gk3@[5] - 15840 * gk1@[7] * gk2@[1]
   * gk3@[5] - 650760 * gk1@[6] * gk2@[2] * gk3@[5] + 200262 * gk1@[5] * gk2@[3] * gk3@[5] - 397008 * gk1@[4] *
   gk2@[4] * gk3@[5] + 200262 * gk1@[3] * gk2@[5] * gk3@[5] - 650760 * gk1@[2] * gk2@[6] * gk3@[5] - 15840 * gk1@[1]
   * gk2@[7] * gk3@[5] + 178200 * gk2@[8] * gk3@[5] - 99000 * gk1@[7] * gk3@[6] + 79200 * gk1@[6] * gk2@[1] *
   gk3@[6] - 173100 * gk1@[5] * gk2@[2] * gk3@[6] - 151410 * gk1@[4] * gk2@[3] * gk3@[6] - 151410 * gk1@[3] *
   gk2@[4] * gk3@[6] - 173100 * gk1@[2] * gk2@[5] * gk3@[6] + 79200 * gk1@[1] * gk2@[6] * gk3@[6] - 99000 * gk2@[7]
   * gk3@[6] - 191400 * gk1@[6] * gk3@[7] + 31680 * gk1@[5] * gk2@[1] * gk3@[7] + 290600 * gk1@[4] * gk2@[2] *
   gk3@[7] - 84200 * gk1@[3] * gk2@[3] * gk3@[7] + 290600 * gk1@[2] * gk2@[4] * gk3@[7] + 31680 * gk1@[1] * gk2@[5]
   * gk3@[7] - 191400 * gk2@[6] * gk3@[7] - 26400 * gk1@[4] * gk2@[1] * gk3@[8] + 179650 * gk1@[3] * gk2@[2] *
   gk3@[8] + 179650 * gk1@[2] * gk2@[3] * gk3@[8] - 26400 * gk1@[1] * gk2@[4] * gk3@[8] + 66000 * gk1@[4] * gk3@[9]
   - 13200 * gk1@[3] * gk2@[1] * gk3@[9] - 13200 * gk1@[1] * gk2@[3] * gk3@[9] + 66000 * gk2@[4] * gk3@[9] + 16500 *
   gk1@[3] * gk3@[10] + 16500 * gk2@[3] * gk3@[10])) * GPi * gq@[15].

(** src/gamma2t_1loop.c:1626-1671, kernel_poly[14] of kernel_gamma2t_reg3rd *)
Definition g2t_reg3rd_poly14 : gexpr :=
  (- (47250 * gk1@[9] * gk2@[3] + 120960 * gk1@[8] * gk2@[4] - 47250 * gk1@[7] * gk2@[5] - 241920 * gk1@[6] *
   gk2@[6] - 47250 * gk1@[5] * gk2@[7] + 120960 * gk1@[4] * gk2@[8] + 47250 * gk1@[3] * gk2@[9] - 9900 * gk1@[11] *
   gk3@[1] + 5280 * gk1@[10] * gk2@[1] * gk3@[1] + 68920 * gk1@[9] * gk2@[2] * gk3@[1] - 38294 * gk1@[8] * gk2@[3] *
   gk3@[1] - 93714 * gk1@[7] * gk2@[4] * gk3@[1] + 65188 * gk1@[6] * gk2@[5] * gk3@[1] + 65188 * gk1@[5] * gk2@[6] *
   gk3@[1] - 93714 * gk1@[4] * gk2@[7] * gk3@[1] - 38294 * gk1@[3] * gk2@[8] * gk3@[1] + 68920 * gk1@[2] * gk2@[9] *
   gk3@[1] + 5280 * gk1@[1] * gk2@[10] * gk3@[1] - 9900 * gk2@[11] * gk3@[1] - 33000 * gk1@[10] * gk3@[2] + 6600 *
   gk1@[9] * gk2@[1] * gk3@[2] + 171000 * gk1@[8] * gk2@[2] * gk3@[2] - 72375 * gk1@[7] * gk2@[3] * gk3@[2] - 218640
   * gk1@[6] * gk2@[4] * gk3@[2] + 2400 * gk1@[5] * gk2@[5] * gk3@[2] - 218640 * gk1@[4] * gk2@[6] * gk3@[2] - 72375
   * gk1@[3] * gk2@[7] * gk3@[2] + 171000 * gk1@[2] * gk2@[8] * gk3@[2] + 6600 * gk1@[1] * gk2@[9] * gk3@[2] - 33000
   * gk2@[10] * gk3@[2] + 13200 * gk1@[9] * gk3@[3] - 15840 * gk1@[8] * gk2@[1] * gk3@[3] - 1830 * gk1@[7] * gk2@[2]
   * gk3@[3] + 17526 * gk1@[6] * gk2@[3] * gk3@[3] - 31944 * gk1@[5] * gk2@[4] * gk3@[3] - 31944 * gk1@[4] * gk2@[5]
   * gk3@[3] + 17526 * gk1@[3] * gk2@[6] * gk3@[3] - 1830 * gk1@[2] * gk2@[7] * gk3@[3] - 15840 * gk1@[1] * gk2@[8]
   * gk3@[3] + 13200 * gk2@[9] * gk3@[3] + 99000 * gk1@[8] * gk3@[4] - 19800 * gk1@[7] * gk2@[1] * gk3@[4] - 262800
   * gk1@[6] * gk2@[2] * gk3@[4] + 71490 * gk1@[5] * gk2@[3] * gk3@[4] - 202320 * gk1@[4] * gk2@[4] * gk3@[4] +
   71490 * gk1@[3] * gk2@[5] * gk3@[4] - 262800 * gk1@[2] * gk2@[6] * gk3@[4] - 19800 * gk1@[1] * gk2@[7] * gk3@[4]
   + 99000 * gk2@[8] * gk3@[4] + 19800 * gk1@[7] * gk3@[5] + 15840 * gk1@[6] * gk2@[1] * gk3@[5] - 139740 * gk1@[5]
   * gk2@[2] * gk3@[5] - 61002 * gk1@[4] * gk2@[3] * gk3@[5] - 61002 * gk1@[3] * gk2@[4] * gk3@[5] - 139740 *
   gk1@[2] * gk2@[5] * gk3@[5] + 15840 * gk1@[1] * gk2@[6] * gk3@[5] + 19800 * gk2@[7] * gk3@[5] - 99000 * gk1@[6] *
   gk3@[6] + 19800 * gk1@[5] * gk2@[1] * gk3@[6] + 91800 * gk1@[4] * gk2@[2] * gk3@[6] - 30540 * gk1@[3] * gk2@[3] *
   gk3@[6] + 91800 * gk1@[2] * gk2@[4] * gk3@[6] + 19800 * gk1@[1] * gk2@[5] * gk3@[6] - 99000 * gk2@[6] * gk3@[6] -
   39600 * gk1@[5] * gk3@[7] - 5280 * gk1@[4] * gk2@[1] * gk3@[7] + 72650 * gk1@[3] * gk2@[2] * gk3@[7] + 72650 *
   gk1@[2] * gk2@[3] * gk3@[7] - 5280 * gk1@[1] * gk2@[4] * gk3@[7] - 39600 * gk2@[5] * gk3@[7] + 33000 * gk1@[4] *
   gk3@[8] - 6600 * gk1@[3] * gk2@[1] * gk3@[8] - 6600 * gk1@[1] * gk2@[3] * gk3@[8] + 33000 * gk2@[4] * gk3@[8] +
   16500 * gk1@[3] * gk3@[9] + 16500 * gk2@[3] * gk3@[9])) * GPi * gq@[16].

(** src/gamma2t_1loop.c:1673-1708, kernel_poly[15] of kernel_gamma2t_reg3rd *)
Definition g2t_reg3rd_poly15 : gexpr :=
  (- (30240 * gk1@[8] * gk2@[3] + 30240 * gk1@[7] * gk2@[4] - 60480 * gk1@[6] * gk2@[5] - 60480 * gk1@[5] * gk2@[6]
   + 30240 * gk1@[4] * gk2@[7] + 30240 * gk1@[3] * gk2@[8] - 6600 * gk1@[10] * gk3@[1] + 1320 * gk1@[9] * gk2@[1] *
   gk3@[1] + 34200 * gk1@[8] * gk2@[2] * gk3@[1] - 3891 * gk1@[7] * gk2@[3] * gk3@[1] - 27600 * gk1@[6] * gk2@[4] *
   gk3@[1] + 4512 * gk1@[5] * gk2@[5] * gk3@[1] - 27600 * gk1@[4] * gk2@[6] * gk3@[1] - 3891 * gk1@[3] * gk2@[7] *
   gk3@[1] + 34200 * gk1@[2] * gk2@[8] * gk3@[1] + 1320 * gk1@[1] * gk2@[9] * gk3@[1] - 6600 * gk2@[10] * gk3@[1] -
   8250 * gk1@[9] * gk3@[2] + 42750 * gk1@[7] * gk2@[2] * gk3@[2] - 31110 * gk1@[6] * gk2@[3] * gk3@[2] - 43710 *
   gk1@[5] * gk2@[4] * gk3@[2] - 43710 * gk1@[4] * gk2@[5] * gk3@[2] - 31110 * gk1@[3] * gk2@[6] * gk3@[2] + 42750 *
   gk1@[2] * gk2@[7] * gk3@[2] - 8250 * gk2@[9] * gk3@[2] + 19800 * gk1@[8] * gk3@[3] - 3960 * gk1@[7] * gk2@[1] *
   gk3@[3] - 52560 * gk1@[6] * gk2@[2] * gk3@[3] + 12744 * gk1@[5] * gk2@[3] * gk3@[3] - 32400 * gk1@[4] * gk2@[4] *
   gk3@[3] + 12744 * gk1@[3] * gk2@[5] * gk3@[3] - 52560 * gk1@[2] * gk2@[6] * gk3@[3] - 3960 * gk1@[1] * gk2@[7] *
   gk3@[3] + 19800 * gk2@[8] * gk3@[3] + 24750 * gk1@[7] * gk3@[4] - 65700 * gk1@[5] * gk2@[2] * gk3@[4] - 30330 *
   gk1@[4] * gk2@[3] * gk3@[4] - 30330 * gk1@[3] * gk2@[4] * gk3@[4] - 65700 * gk1@[2] * gk2@[5] * gk3@[4] + 24750 *
   gk2@[7] * gk3@[4] - 19800 * gk1@[6] * gk3@[5] + 3960 * gk1@[5] * gk2@[1] * gk3@[5] + 18360 * gk1@[4] * gk2@[2] *
   gk3@[5] - 5688 * gk1@[3] * gk2@[3] * gk3@[5] + 18360 * gk1@[2] * gk2@[4] * gk3@[5] + 3960 * gk1@[1] * gk2@[5] *
   gk3@[5] - 19800 * gk2@[6] * gk3@[5] - 24750 * gk1@[5] * gk3@[6] + 22950 * gk1@[3] * gk2@[2] * gk3@[6] + 22950 *
   gk1@[2] * gk2@[3] * gk3@[6] - 24750 * gk2@[5] * gk3@[6] + 6600 * gk1@[4] * gk3@[7] - 1320 * gk1@[3] * gk2@[1] *
   gk3@[7] - 1320 * gk1@[1] * gk2@[3] * gk3@[7] + 6600 * gk2@[4] * gk3@[7] + 8250 * gk1@[3] * gk3@[8] + 8250 *
   gk2@[3] * gk3@[8])) * GPi * gq@[17].

(** src/gamma2t_1loop.c:1710-1722, kernel_poly[16] of kernel_gamma2t_reg3rd *)
Definition g2t_reg3rd_poly16 : gexpr :=
  (- (7560 * gk1@[7] * gk2@[3] - 15120 * gk1@[5] * gk2@[5] + 7560 * gk1@[3] * gk2@[7] - 1650 * gk1@[9] * gk3@[1] +
   8550 * gk1@[7] * gk2@[2] * gk3@[1] - 2190 * gk1@[6] * gk2@[3] * gk3@[1] - 4710 * gk1@[5] * gk2@[4] * gk3@[1] -
   4710 * gk1@[4] * gk2@[5] * gk3@[1] - 2190 * gk1@[3] * gk2@[6] * gk3@[1] + 8550 * gk1@[2] * gk2@[7] * gk3@[1] -
   1650 * gk2@[9] * gk3@[1] - 5040 * gk1@[5] * gk2@[3] * gk3@[2] - 5040 * gk1@[3] * gk2@[5] * gk3@[2] + 4950 *
   gk1@[7] * gk3@[3] - 13140 * gk1@[5] * gk2@[2] * gk3@[3] - 4050 * gk1@[4] * gk2@[3] * gk3@[3] - 4050 * gk1@[3] *
   gk2@[4] * gk3@[3] - 13140 * gk1@[2] * gk2@[5] * gk3@[3] + 4950 * gk2@[7] * gk3@[3] - 2520 * gk1@[3] * gk2@[3] *
   gk3@[4] - 4950 * gk1@[5] * gk3@[5] + 4590 * gk1@[3] * gk2@[2] * gk3@[5] + 4590 * gk1@[2] * gk2@[3] * gk3@[5] -
   4950 * gk2@[5] * gk3@[5] + 1650 * gk1@[3] * gk3@[7] + 1650 * gk2@[3] * gk3@[7])) * GPi * gq@[18].

(** src/gamma2t_1loop.c:1724-1766, kernel_beta[0] of kernel_gamma2t_reg3rd *)
Definition g2t_reg3rd_beta0 : gexpr :=
  GPi * ((- 840) * gk1@[10] * gk2@[7] * (gk2@[2] - gq@[2]) * (gk2@[2] - gq@[2]) * ((- 8) * gk3@[4] + 5 * gk3@[2] *
   gq@[2] + 3 * gq@[4]) / (GSqrt (gk3@[2] * (gk2@[2] - gq@[2]) + gq@[2] * (gk1@[2] - gk2@[2] + gq@[2]))) - 840 *
   gk1@[7] * gk2@[10] * (gk1@[2] - gq@[2]) * (gk1@[2] - gq@[2]) * ((- 8) * gk3@[4] + 5 * gk3@[2] * gq@[2] + 3 *
   gq@[4]) / (GSqrt (gk3@[2] * (gk1@[2] - gq@[2]) + gq@[2] * ((- gk1@[2]) + gk2@[2] + gq@[2]))) + 17280 * gk1@[7] *
   gk2@[7] * gk3@[3] * (gk1@[2] - gq@[2]) * (gk1@[2] - gq@[2]) * (gk2@[2] - gq@[2]) * (gk2@[2] - gq@[2]) / (GSqrt
   (gk1@[2] * (gk2@[2] - gq@[2]) + gq@[2] * ((- gk2@[2]) + gk3@[2] + gq@[2]))) - 17280 * gk1@[7] * gk2@[7] * gk3@[3]
   * (gk1@[2] - gq@[2]) * (gk1@[2] - gq@[2]) * (gk2@[2] - gq@[2]) * (gk2@[2] - gq@[2]) * (GPower (1 - (GSqrt
   (gk1@[2] * gk2@[2] + ((- gk1@[2]) - gk2@[2] + gk3@[2]) * gq@[2] + gq@[4])) / (gk3@[1] * gq@[1])) 2) / ((GSqrt
   (gk1@[2] * (gk2@[2] - gq@[2]) + gq@[2] * ((- gk2@[2]) + gk3@[2] + gq@[2]))) * (GPower (1 + (GSqrt (gk1@[2] *
   gk2@[2] + ((- gk1@[2]) - gk2@[2] + gk3@[2]) * gq@[2] + gq@[4])) / (gk3@[1] * gq@[1])) 2)) + 840 * gk1@[7] *
   gk2@[10] * (gk1@[2] - gq@[2]) * (gk1@[2] - gq@[2]) * ((- 8) * gk3@[4] + 5 * gk3@[2] * gq@[2] + 3 * gq@[4]) *
   (GPower (1 - (GSqrt (gk1@[2] * gk3@[2] - (gk1@[2] - gk2@[2] + gk3@[2]) * gq@[2] + gq@[4])) / (gk2@[1] * gq@[1]))
   2) / ((GSqrt (gk3@[2] * (gk1@[2] - gq@[2]) + gq@[2] * ((- gk1@[2]) + gk2@[2] + gq@[2]))) * (GPower (1 + (GSqrt
   (gk1@[2] * gk3@[2] - (gk1@[2] - gk2@[2] + gk3@[2]) * gq@[2] + gq@[4])) / (gk2@[1] * gq@[1])) 2)) + 840 * gk1@[10]
   * gk2@[7] * (gk2@[2] - gq@[2]) * (gk2@[2] - gq@[2]) * ((- 8) * gk3@[4] + 5 * gk3@[2] * gq@[2] + 3 * gq@[4]) *
   (GPower (1 - (GSqrt (gk2@[2] * gk3@[2] - ((- gk1@[2]) + gk2@[2] + gk3@[2]) * gq@[2] + gq@[4])) / (gk1@[1] *
   gq@[1])) 2) / ((GSqrt (gk3@[2] * (gk2@[2] - gq@[2]) + gq@[2] * (gk1@[2] - gk2@[2] + gq@[2]))) * (GPower (1 +
   (GSqrt (gk2@[2] * gk3@[2] - ((- gk1@[2]) + gk2@[2] + gk3@[2]) * gq@[2] + gq@[4])) / (gk1@[1] * gq@[1])) 2))) /
   (24837120 * gk1@[9] * gk2@[9] * gq@[5]).

(** src/gamma2t_1loop.c:1768-1791, kernel_beta[1] of kernel_gamma2t_reg3rd *)
Definition g2t_reg3rd_beta1 : gexpr :=
  (- (GPi * (gk1@[2] - gq@[2]) * (13 * gk1@[12] + 55 * gk2@[6] * gq@[6] - gk1@[10] * (194 * gk2@[2] + 649 * gq@[2])
   + gk1@[8] * (17 * gk2@[4] + 2297 * gk2@[2] * gq@[2] + 563 * gq@[4]) + gk3@[6] * (329 * gk1@[6] + 647 * gk1@[4] *
   gq@[2] - 921 * gk1@[2] * gq@[4] - 55 * gq@[6]) + gk1@[6] * (164 * gk2@[6] - 2155 * gk2@[4] * gq@[2] - 2428 *
   gk2@[2] * gq@[4] + 73 * gq@[6]) + gk1@[4] * (339 * gk2@[6] * gq@[2] + 2423 * gk2@[4] * gq@[4] + 157 * gk2@[2] *
   gq@[6]) - 3 * gk1@[2] * (186 * gk2@[6] * gq@[4] + 95 * gk2@[4] * gq@[6]) + gk3@[4] * (1579 * gk1@[8] + 165 *
   gk2@[2] * gq@[6] + gk1@[6] * (306 * gk2@[2] - 1759 * gq@[2]) + gk1@[4] * ((- 1307) * gk2@[2] * gq@[2] + 333 *
   gq@[4]) + 3 * gk1@[2] * (428 * gk2@[2] * gq@[4] - 51 * gq@[6])) + gk3@[2] * ((- 1921) * gk1@[10] - 165 * gk2@[4]
   * gq@[6] + 3 * gk1@[8] * (392 * gk2@[2] + 971 * gq@[2]) + gk1@[6] * (801 * gk2@[4] - 3414 * gk2@[2] * gq@[2] + 25
   * gq@[4]) + gk1@[4] * (321 * gk2@[4] * gq@[2] - 784 * gk2@[2] * gq@[4] + 135 * gq@[6]) + 3 * gk1@[2] * (65 *
   gk2@[4] * gq@[4] + 146 * gk2@[2] * gq@[6]))) * (gk1@[1] + gq@[1]) * (gk1@[1] + gq@[1]) * (GSmallBeta gk1@[1]
   gq@[1]))) / (1655808 * gk1@[9] * gk2@[2] * gq@[5]).

(** src/gamma2t_1loop.c:1793-1816, kernel_beta[2] of kernel_gamma2t_reg3rd *)
Definition g2t_reg3rd_beta2 : gexpr :=
  (- (GPi * (gk2@[2] - gq@[2]) * (gk3@[6] * (329 * gk2@[6] + 647 * gk2@[4] * gq@[2] - 921 * gk2@[2] * gq@[4] - 55 *
   gq@[6]) + gk1@[6] * (164 * gk2@[6] + 339 * gk2@[4] * gq@[2] - 558 * gk2@[2] * gq@[4] + 55 * gq@[6]) + gk2@[6] *
   (13 * gk2@[6] - 649 * gk2@[4] * gq@[2] + 563 * gk2@[2] * gq@[4] + 73 * gq@[6]) + gk1@[4] * (17 * gk2@[8] - 2155 *
   gk2@[6] * gq@[2] + 2423 * gk2@[4] * gq@[4] - 285 * gk2@[2] * gq@[6]) + gk1@[2] * ((- 194) * gk2@[10] + 2297 *
   gk2@[8] * gq@[2] - 2428 * gk2@[6] * gq@[4] + 157 * gk2@[4] * gq@[6]) + gk3@[4] * (1579 * gk2@[8] - 1759 * gk2@[6]
   * gq@[2] + 333 * gk2@[4] * gq@[4] - 153 * gk2@[2] * gq@[6] + gk1@[2] * (306 * gk2@[6] - 1307 * gk2@[4] * gq@[2] +
   1284 * gk2@[2] * gq@[4] + 165 * gq@[6])) + gk3@[2] * ((- 1921) * gk2@[10] + 2913 * gk2@[8] * gq@[2] + 25 *
   gk2@[6] * gq@[4] + 135 * gk2@[4] * gq@[6] + 3 * gk1@[4] * (267 * gk2@[6] + 107 * gk2@[4] * gq@[2] + 65 * gk2@[2]
   * gq@[4] - 55 * gq@[6]) + 2 * gk1@[2] * (588 * gk2@[8] - 1707 * gk2@[6] * gq@[2] - 392 * gk2@[4] * gq@[4] + 219 *
   gk2@[2] * gq@[6]))) * (gk2@[1] + gq@[1]) * (gk2@[1] + gq@[1]) * (GSmallBeta gk2@[1] gq@[1]))) / (1655808 *
   gk1@[2] * gk2@[9] * gq@[5]).

(** src/gamma2t_1loop.c:1818-1833, kernel_beta[3] of kernel_gamma2t_reg3rd *)
Definition g2t_reg3rd_beta3 : gexpr :=
  GPi * (8 * gk3@[2] + 3 * gq@[2]) * ((- 15) * (gk1@[2] + gk2@[2]) * gk3@[8] - 2 * gk3@[10] - 3 * (gk1@[2] -
   gk2@[2]) * (gk1@[2] - gk2@[2]) * gq@[4] * (gk1@[2] + gk2@[2] + 4 * gq@[2]) + 2 * gk3@[6] * (8 * gk1@[4] + 8 *
   gk2@[4] + 23 * gk2@[2] * gq@[2] - gq@[4] + gk1@[2] * ((- 16) * gk2@[2] + 23 * gq@[2])) + gk3@[4] * (gk1@[6] +
   gk2@[6] - 56 * gk2@[4] * gq@[2] - 47 * gk2@[2] * gq@[4] + 4 * gq@[6] - gk1@[4] * (9 * gk2@[2] + 56 * gq@[2]) +
   gk1@[2] * ((- 9) * gk2@[4] + 136 * gk2@[2] * gq@[2] - 47 * gq@[4])) + 2 * gk3@[2] * gq@[2] * (gk1@[6] + gk2@[6] +
   26 * gk2@[4] * gq@[2] + 4 * gk2@[2] * gq@[4] - gk1@[4] * (gk2@[2] - 26 * gq@[2]) - gk1@[2] * (gk2@[4] + 48 *
   gk2@[2] * gq@[2] - 4 * gq@[4]))) * (gk3@[1] + gq@[1]) * (gk3@[1] + gq@[1]) * (GSmallBeta gk3@[1] gq@[1]) /
   (236544 * gk1@[2] * gk2@[2] * gk3@[5] * gq@[5]).

(** src/gamma2t_1loop.c:1835-1841, kernel_beta[4] of kernel_gamma2t_reg3rd *)
Definition g2t_reg3rd_beta4 : gexpr :=
  3 * gk3@[3] * GPi * (gk1@[2] - gq@[2]) * (gk2@[2] - gq@[2]) * (GBigBeta gk1@[1] gk2@[1] gk3@[1] gq@[1]) / (4312 *
   gk1@[2] * gk2@[2] * gq@[5]) - gk2@[1] * GPi * (gk1@[2] - gq@[2]) * ((- 8) * gk3@[2] - 3 * gq@[2]) * (GBigBeta
   gk3@[1] gk1@[1] gk2@[1] gq@[1]) / (29568 * gk1@[2] * gq@[5]) - gk1@[1] * GPi * (gk2@[2] - gq@[2]) * ((- 8) *
   gk3@[2] - 3 * gq@[2]) * (GBigBeta gk2@[1] gk3@[1] gk1@[1] gq@[1]) / (29568 * gk2@[2] * gq@[5]).

Definition g2t_reg3rd_polys : list gexpr := (g2t_reg3rd_poly0 :: g2t_reg3rd_poly1 :: g2t_reg3rd_poly2 :: g2t_reg3rd_poly3 :: g2t_reg3rd_poly4 :: g2t_reg3rd_poly5 :: g2t_reg3rd_poly6 :: g2t_reg3rd_poly7 :: g2t_reg3rd_poly8 :: g2t_reg3rd_poly9 :: g2t_reg3rd_poly10 :: g2t_reg3rd_poly11 :: g2t_reg3rd_poly12 :: g2t_reg3rd_poly13 :: g2t_reg3rd_poly14 :: g2t_reg3rd_poly15 :: g2t_reg3rd_poly16 :: nil)%list.

Definition g2t_reg3rd_betas : list gexpr := (g2t_reg3rd_beta0 :: g2t_reg3rd_beta1 :: g2t_reg3rd_beta2 :: g2t_reg3rd_beta3 :: g2t_reg3rd_beta4 :: nil)%list.
