(** Kernels: transcription of src/kernels.c, src/gamma1_1loop.c, src/gamma1_2loop.c and
    src/calc_pkcorr_from_gamma1.c. *)
From Verif Require Import Base Num Common.
Local Open Scope Z_scope.

(** src/define.h:18, FLAG *)
Inductive flag := DELTA | THETA.
Definition flag_eqb (a b : flag) : bool :=
  match a, b with DELTA, DELTA | THETA, THETA => true | _, _ => false end.

Section Kernels.
Context {N : Num}.
Local Notation T := (T N).
Local Open Scope num_scope.

(** A C array [histo_t p[3]]; all callers fill the three cells. *)
Record vec := mkV { v0 : T; v1 : T; v2 : T }.

(** src/kernels.c:8-12 *)
Definition F2_sym_fast (a : flag) (p2 q2 pq : T) : T :=
  match a with
  | DELTA => #5 / #7 + 5 //10^ 1 * pq * (#1 / p2 + #1 / q2) + #2 / #7 * pq * pq / p2 / q2
  | THETA => #3 / #7 + 5 //10^ 1 * pq * (#1 / p2 + #1 / q2) + #4 / #7 * pq * pq / p2 / q2
  end.

(** the scalar products written out in src/kernels.c:16-18, 120-127 *)
Definition dot3 (p q : vec) : T := v0 p * v0 q + v1 p * v1 q + v2 p * v2 q.

(** src/kernels.c:14-20 *)
Definition F2_sym_full (a : flag) (p q : vec) : T :=
  F2_sym_fast a (dot3 p p) (dot3 q q) (dot3 p q).

(** src/kernels.c:22-26 *)
Definition F2_sym (a : flag) (p q mu : T) : T :=
  match a with
  | DELTA => #5 / #7 + 5 //10^ 1 * mu * (q / p + p / q) + #2 / #7 * mu * mu
  | THETA => #3 / #7 + 5 //10^ 1 * mu * (q / p + p / q) + #4 / #7 * mu * mu
  end.

(** src/kernels.c:28-31 *)
Definition S2 (mu : T) : T := mu * mu - #1 / #3.
(** src/kernels.c:33-36 *)
Definition D2 (mu : T) : T := #2 / #7 * (S2 mu - #2 / #3).

(** src/kernels.c:38-42 *)
Definition LFunc (k q : T) : T := #2 * nlog (nabs ((k + q) / (k - q))).

(** src/kernels.c:44-56 *)
Definition WFunc (k1 k2 k3 q : T) : T :=
  let k12 := k1 * k1 in
  let k22 := k2 * k2 in
  let k32 := k3 * k3 in
  let q2 := q * q in
  let aa := (- #4) * k32 * q2 - #2 * (k12 - q2) * (k22 - q2) in
  let bb := #4 * k3 * q * nsqrt (k12 * k22 + (- k12 - k22 + k32) * q2 + q2 * q2) in
  nlog ((aa - bb) / (aa + bb)).

(** src/kernels.c:58-77 *)
Definition betafunc (a : Z) (z : T) : T :=
  let z2 := z * z in
  let z3 := z2 * z in
  let z4 := z3 * z in
  if z <=? 1 //10^ 1 then
    let fa := #a in
    let z5 := z4 * z in
    let z6 := z5 * z in
    power z a * (#1 / fa + z / (#1 + fa) + z2 / (#2 + fa) + z3 / (#3 + fa) + z4 / (#4 + fa)
                 + z5 / (#5 + fa) + z6 / (#6 + fa))
  else if (a =? 2)%Z then z2 * ((- #2) / z - #2 * nlog (#1 - z) / z2) / #2
  else if (a =? 4)%Z then
    z4 * ((- #2) * (#6 + #3 * z + #2 * z2) / (#3 * z3) - #4 * nlog (#1 - z) / z4) / #4
  else if (a =? 6)%Z then
    let z5 := z4 * z in
    let z6 := z5 * z in
    z6 * (((- #60) - #30 * z - #20 * z2 - #15 * z3 - #12 * z4) / (#10 * z5) - #6 * nlog (#1 - z) / z6) / #6
  else #0.

(** src/kernels.c:79-85 *)
Definition small_beta (k q : T) : T :=
  let y := (k - q) / (k + q) in
  if nabs y <=? 1 //10^ 6 then #0
  else y * betafunc 4 (#1 - y * y).

(** src/kernels.c:87-97 *)
Definition big_beta (k1 k2 k3 q : T) : T :=
  let x := (k1 * k1 - q * q) * (k2 * k2 - q * q) in
  let a := k3 * q in
  let y := nsqrt (x + a * a) / a in
  let y1 := nabs (y - #1) in
  if y1 <=? 1 //10^ 5 then #0
  else if y1 <=? 1 //10^ 2 then
    #2 * a * ((- #1) + y) * ((- #1) + nlog #4 - #2 * nlog y1) + a * y1 * y1 * (#3 - nlog #4 + #2 * nlog y1)
  else x * betafunc 2 (#1 - y1 * y1 / (#1 + y) / (#1 + y)) / (a * y).

(** src/kernels.c:99-108 *)
Definition sigmaab (n a b : Z) : T :=
  let nf := #n in
  let sab :=
    if (a =? 1)%Z && (b =? 1)%Z then #2 * nf + #1
    else if (a =? 1)%Z && (b =? 2)%Z then #2
    else if (a =? 2)%Z && (b =? 1)%Z then #3
    else if (a =? 2)%Z && (b =? 2)%Z then #2 * nf
    else #0 in
  sab / (#2 * nf + #3) / (nf - #1).

(** src/kernels.c:117-118, one of the two guards of F3: all components below EPS. *)
Definition small3 (p : vec) : bool :=
  (nabs (v0 p) <? EPS) && (nabs (v1 p) <? EPS) && (nabs (v2 p) <? EPS).
Definition vadd (p q : vec) : vec := mkV (v0 p + v0 q) (v1 p + v1 q) (v2 p + v2 q).

(** src/kernels.c:110-130 *)
Definition F3 (a_ : flag) (p q r : vec) : T :=
  let a := match a_ with DELTA => 1%Z | THETA => 2%Z end in
  let qr := vadd q r in
  if small3 qr || small3 (vadd p qr) then #0
  else
    let pp := dot3 p p in
    let qrqr := dot3 qr qr in
    let pqr := dot3 p qr in
    let gam_112 := (#1 + pqr / qrqr) / #2 in
    let gam_222 := pqr * (pp + qrqr + #2 * pqr) / (pp * qrqr) / #2 in
    let gam_121 := (#1 + pqr / pp) / #2 in
    let qq := dot3 q q in
    let rr := dot3 r r in
    let mu := dot3 q r in
    #2 * ((sigmaab 3 a 1 * gam_112 + sigmaab 3 a 2 * gam_222) * F2_sym_fast THETA qq rr mu
          + sigmaab 3 a 1 * gam_121 * F2_sym_fast DELTA qq rr mu).

(** src/kernels.c:133-136 *)
Definition F3_sym (a : flag) (p q r : vec) : T := (F3 a p q r + F3 a r p q + F3 a q r p) / #3.

(** ** src/gamma1_1loop.c *)
(** src/gamma1_1loop.c:12-32 *)
Definition kernel_ff (x : T) : T :=
  let diffx := x - #1 in
  (if nabs diffx <? 1 //10^ 2 then (- #11) / #126 + diffx / #126 - #29 / #252 * diffx * diffx
   else if x >? #10 then
     let x2 := x * x in (- #61) / #630 + #2 / #105 / x2 - #10 / #1323 / x2 / x2
   else
     let x2 := x * x in
     (#6 / x2 - #79 + #50 * x2 - #21 * x2 * x2
      + 75 //10^ 2 * power (#1 / x - x) 3 * (#2 + #7 * x2) * #2 * nlog (nabs (diffx / (#1 + x)))) / #504) * x.

(** src/gamma1_1loop.c:35-52 *)
Definition kernel_gg (x : T) : T :=
  let diff := x - #1 in
  (if nabs diff <? 1 //10^ 2 then (- #3) / #14 - #5 / #42 * diff + diff * diff / #84
   else if x >? #10 then
     let x2 := x * x in (- #3) / #10 + #26 / #245 / x2 - #38 / #2205 / x2 / x2
   else
     let x2 := x * x in
     (#6 / x2 - #41 + #2 * x2 - #3 * x2 * x2
      + 75 //10^ 2 * power (#1 / x - x) 3 * (#2 + x2) * #2 * nlog (nabs (diff / (#1 + x)))) / #168) * x.

(** src/gamma1_1loop.c:55-70.  [g] is the thread's gauss_legendre_q; it is mutated, so the new
    table is returned with the value. *)
Definition gamma1_1loop (g : glq N) (a : flag) (k : T) : res (T * glq N) :=
  g <- update_gauss_legendre_q g k ;;
  let kernel := match a with DELTA => kernel_ff | THETA => kernel_gg end in
  integ <- for_ 0 (gq_nq g) (fun iq acc =>
    x <- rd (gq_x g) iq ;; pk <- rd (gq_pk g) iq ;; w <- rd (gq_w g) iq ;;
    Ok (acc + kernel x * pk * w)) #0 ;;
  Ok (integ * k * k * k / (#2 * npi * npi), g).

(** ** src/gamma1_2loop.c *)
(** src/gamma1_2loop.c:12-55 *)
Definition beta (a : flag) (q1 q2 : T) : T :=
  let y := nabs ((q1 - q2) / (q1 + q2)) in
  let diffy := #1 - y in
  match a with
  | DELTA =>
    if nabs diffy <? 5 //10^ 2 then
      let diffy2 := diffy * diffy in let diffy3 := diffy2 * diffy in let diffy4 := diffy3 * diffy in
      #120424 / #3009825 + (#2792 * diffy2) / #429975 + (#2792 * diffy3) / #429975 + (#392606 * diffy4) / #99324225
    else if y <? 1 //10^ 2 then #22382 / #429975 - #57052 * y * y / #429975
    else
      let y2 := y * y in let y4 := y2 * y2 in let y8 := y4 * y4 in let y10 := y2 * y8 in let y12 := y2 * y10 in
      (#2 * (#1 + y2) * ((- #11191) + #118054 * y2 - #18215 * y4 + #18215 * y8 - #118054 * y10 + #11191 * y12
        + #60 * y4 * (#3467 - #790 * y2 + #3467 * y4) * #2 * nlog y)) / (#429975 * power ((- #1) + y2) 7)
  | THETA =>
    if nabs diffy <? 5 //10^ 2 then
      let diffy2 := diffy * diffy in let diffy3 := diffy2 * diffy in let diffy4 := diffy3 * diffy in
      #594232 / #33108075 + (#91912 * diffy2) / #33108075 - (#91912 * diffy3) / #33108075 + (#1818458 * diffy4) / #1092566475
    else if y <? 1 //10^ 2 then #9886 / #429975 - #254356 * y * y / #4729725
    else
      let y2 := y * y in let y4 := y2 * y2 in let y8 := y4 * y4 in let y10 := y2 * y8 in let y12 := y2 * y10 in
      (#2 * (#1 + y2) * ((- #54373) + #562162 * y2 - #408245 * y4 + #408245 * y8 - #562162 * y10 + #54373 * y12
        + #60 * y4 * (#14561 - #10690 * y2 + #14561 * y4) * #2 * nlog y)) / (#4729725 * power ((- #1) + y2) 7)
  end.

(** src/gamma1_2loop.c:57-73 *)
Definition cc (a : flag) (qs : T) : T :=
  let qs2 := qs * qs in let qs3 := qs * qs2 in let qs4 := qs * qs3 in
  match a with
  | DELTA =>
    let qs6 := qs2 * qs4 in
    2088557981734545 //10^ 17 / (3509866396385646 //10^ 14 * qs4 + 4133811416743832 //10^ 15 * qs2 + #1)
    - 76100391588544 //10^ 15 * qs3 / (7779670692480381 //10^ 14 * qs6 + #1)
  | THETA =>
    let qs8 := qs4 * qs4 in
    (- (8217140060512867 //10^ 18)) / (4214072830553836 //10^ 14 * qs4 + 1367564560397748 //10^ 15 * qs2 + #1)
    + 1099093588476197 //10^ 17 * qs3 / (28490424851390667 //10^ 15 * qs8 + #1)
  end.

(** src/gamma1_2loop.c:75-88 *)
Definition dd (a : flag) (qr : T) : T :=
  let qr2 := qr * qr in
  match a with
  | DELTA =>
    let qr4 := qr2 * qr2 in let qr10 := qr2 * qr4 * qr4 in
    (- (22168478217299517 //10^ 18)) / (7030631093970638 //10^ 15 * qr4 + 2457866449142683 //10^ 15 * qr2 + #1)
    + 9267495321465601 //10^ 18 * qr2 / (411633699497035 //10^ 14 * qr10 + #1)
  | THETA =>
    let qr5 := qr * qr2 * qr2 in
    8023147297149955 //10^ 18 / (2238261369090066 //10^ 15 * qr5 + #1)
    - 6173880966928251 //10^ 18 * qr2 / (4711737436482179 //10^ 16 * qr5 + #1)
  end.

(** src/gamma1_2loop.c:90-102 *)
Definition delta (a : flag) (qs : T) : T :=
  let qs := qs * nsqrt #2 in
  let qs2 := qs * qs in let qs4 := qs2 * qs2 in
  match a with
  | DELTA =>
    3191221482038663 //10^ 16 * qs4 / (13549058352752525 //10^ 16 * qs4 + #1)
    + 12805575495849764 //10^ 16 / (18192939946270577 //10^ 15 * qs4 + 398817716852858 //10^ 14 * qs2 + #1)
    + 764469131436698 //10^ 15
  | THETA =>
    1528058751211026 //10^ 15 * (24414566000839355 //10^ 16 * qs4 + 18616263354608626 //10^ 16 * qs2)
      / (24414566000839355 //10^ 16 * qs4 + #1)
    + 25227965281961247 //10^ 16 / (28106312591877226 //10^ 19 * qs4 + 10332351481570086 //10^ 16 * qs2 + #1)
    - 528058751211026 //10^ 15
  end.

(** src/gamma1_2loop.c:104-109 *)
Definition alpha (a : flag) (q1 q2 : T) : T :=
  let qr := nsqrt (q1 * q1 + q2 * q2) in
  let qs := q1 * q2 / qr in
  (beta a q1 q2 - cc a qs - dd a qr) * delta a qs.

(** src/gamma1_2loop.c:112-117 *)
Definition integ_gamma1_2loop (a : flag) (k q1 q2 : T) : T :=
  let x1 := q1 / k in
  let x2 := q2 / k in
  (- alpha a x1 x2) / (x1 * x1 + x2 * x2).

(** src/gamma1_2loop.c:119-136; [g] as in gamma1_1loop. *)
Definition gamma1_2loop (g : glq N) (a : flag) (k : T) : res (T * glq N) :=
  g <- update_gauss_legendre_q g k ;;
  integ <- for_ 0 (gq_nq g) (fun iq1 acc =>
    q1 <- rd (gq_q g) iq1 ;;
    let q13 := q1 * q1 * q1 in
    integ2 <- for_ 0 (gq_nq g) (fun iq2 acc2 =>
      q2 <- rd (gq_q g) iq2 ;; w2 <- rd (gq_w g) iq2 ;; p2 <- rd (gq_pk g) iq2 ;;
      Ok (acc2 + w2 * integ_gamma1_2loop a (gq_k g) q1 q2 * p2 * q13 * q2 * q2 * q2)) #0 ;;
    w1 <- rd (gq_w g) iq1 ;; p1 <- rd (gq_pk g) iq1 ;;
    Ok (acc + w1 * integ2 * p1)) #0 ;;
  Ok (integ / (#4 * power npi 4), g).

(** src/calc_pkcorr_from_gamma1.c:20-38.  [g1], [g2]: the threadprivate tables of the two gamma1
    files.  Returns (gamma1a_1loop, gamma1a_2loop, gamma1b_1loop, gamma1b_2loop) and the tables. *)
Definition calc_pk_gamma1_2loop (g1 g2 : glq N) (a b : flag) (k : T) : res (T * T * T * T * glq N * glq N) :=
  if flag_eqb a b then
    '(a1, g1) <- gamma1_1loop g1 a k ;;
    '(a2, g2) <- gamma1_2loop g2 a k ;;
    let a2 := a2 + a1 * a1 / #2 in
    Ok (a1, a2, a1, a2, g1, g2)
  else
    '(a1, g1) <- gamma1_1loop g1 a k ;;
    '(a2, g2) <- gamma1_2loop g2 a k ;;
    '(b1, g1) <- gamma1_1loop g1 b k ;;
    '(b2, g2) <- gamma1_2loop g2 b k ;;
    Ok (a1, a2 + a1 * a1 / #2, b1, b2 + b1 * b1 / #2, g1, g2).

End Kernels.
Arguments vec N : clear implicits.
