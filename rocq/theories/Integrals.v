(** Integrals: transcription of the mode-coupling integrals, src/calc_pkcorr_from_gamma2.c,
    src/calc_pkcorr_from_bias_1loop.c, src/calc_pkcorr_from_A_1loop.c, src/calc_pkcorr_from_B.c,
    src/calc_pkcorr_from_A_2loop_I.c, of src/bispectrum_1loop.c, and of the integrands given to Suave
    in src/calc_pkcorr_from_gamma3.c and src/calc_pkcorr_from_A_2loop_II_III.c.

    The file-scope threadprivate tables are arguments; the ones a function modifies are returned.
    [pkl] is the global pk_lin, [im] the interpolation of the precision_mu (or precision_q) of the
    file.  Small arrays of fixed size (the components) are lists; loops over their cells
    [for (ii=0;ii<NCOMP;ii++) a[ii] += b[ii]*w] are [zipw]. *)
From Verif Require Import Base Num Common Kernels Gamma2.
Local Open Scope Z_scope.

(** The loops over the components: calc_pkcorr_from_B.c, calc_pkcorr_from_A_1loop.c, calc_pkcorr_from_bias_1loop.c and the other files. *)
Fixpoint zipw {A B C} (f : A -> B -> C) (l : list A) (l' : list B) : list C :=
  match l, l' with a :: t, b :: t' => f a b :: zipw f t t' | _, _ => [] end.

Section Integrals.
Context {N : Num}.
Local Notation T := (T N).
Local Open Scope num_scope.

(** find_pk_lin(&k,&pk,1,interpol) or find_pk(pk,&k,&pk_k,1,interpol) with one query *)
Definition find1 (pk : Pk N) (im : interpol) (k : T) : res T :=
  l <- find_pk pk [k] im ;; rd l 0.
(** calc_running_sigmad2(&k,&sigmad2,1,uvcutoff) *)
Definition sigmad2_1 (pkl : Pk N) (uvcutoff k : T) : res T :=
  l <- calc_running_sigmad2 pkl [k] uvcutoff ;; rd l 0.

(** set_mu_range: src/calc_pkcorr_from_gamma2.c:108-118, src/calc_pkcorr_from_B.c:81-91,
    src/calc_pkcorr_from_A_2loop_I.c:93-103 with [half] = true, src/calc_pkcorr_from_A_1loop.c:110-119
    with [half] = false, src/calc_pkcorr_from_bias_1loop.c:55-68 with [half] = run_half.
    [None]: it returned 0. *)
Definition set_mu_range (half : bool) (g : glq N) (m : glmu N) (x : T) : res (option (glmu N)) :=
  xmin <- rd (gq_x g) 0 ;;
  xmax <- rd (gq_x g) (u64 (gq_nq g - 1)) ;;
  let mumin := nmax (- #1) ((#1 + x * x - xmax * xmax) / #2 / x) in
  let mumax := nmin #1 ((#1 + x * x - xmin * xmin) / #2 / x) in
  if (mumin >=? #1) || (mumax <=? - #1) || (mumax <=? mumin) then Ok None
  else
    let mumax := if half && (x >=? 5 //10^ 1) then 5 //10^ 1 / x else mumax in
    m <- update_gauss_legendre_mu m mumin mumax ;;
    Ok (Some m).

(** The loop over imu of the calc_pk_* functions (gamma2.c:137-144, 174-178, bias_1loop.c:85,
    A_1loop.c:140-144, B.c:109-113, A_2loop_I.c:120-124): [nc] accumulators, [kern mu] the components. *)
Definition mu_loop (m : glmu N) (nc : nat) (kern : T -> res (list T)) : res (list T) :=
  for_ 0 (gm_nmu m) (fun imu integ =>
    mu <- rd (gm_mu m) imu ;;
    kernel <- kern mu ;;
    w <- rd (gm_w m) imu ;;
    Ok (zipw (fun a v => a + v * w) integ kernel)) (repeat #0 nc).
(** The loop over iq (gamma2.c:129-150, 166-182, bias_1loop.c:78-90, A_1loop.c:131-150, B.c:100-116,
    A_2loop_I.c:112-127).  [add iq x integ] is what is added to the accumulators. *)
Definition q_loop (half : bool) (g : glq N) (m : glmu N) (nc : nat) (kern : Z -> T -> res (list T))
    (add : Z -> T -> list T -> res (list T)) : res (list T * glmu N) :=
  for_ 0 (gq_nq g) (fun iq s =>
    let '(acc, m) := s in
    x <- rd (gq_x g) iq ;;
    om <- set_mu_range half g m x ;;
    match om with
    | None => Ok (acc, m)
    | Some m =>
      integ <- mu_loop m nc (kern iq) ;;
      c <- add iq x integ ;;
      Ok (zipw (fun a v => a + v) acc c, m)
    end) (repeat #0 nc, m).

(** ** src/calc_pkcorr_from_gamma2.c *)
(** :16-23 *)
Definition gamma2_tree (a : flag) (k1 k2 k3 : T) : T :=
  let k12 := k1 * k1 in
  let k22 := k2 * k2 in
  let k32 := k3 * k3 in
  let k1k2 := (k32 - k12 - k22) / #2 in
  F2_sym_fast a k12 k22 k1k2.
(** :25-33; [gd], [gt]: tables of gamma2d_1loop.c and gamma2t_1loop.c. *)
Definition gamma2_stdPT (gd gt : glq N) (a : flag) (n_loop : Z) (k1 k2 k3 : T) : res T :=
  if (n_loop =? 0)%Z then Ok (gamma2_tree a k1 k2 k3)
  else if (n_loop =? 1)%Z then
    match a with DELTA => gamma2_1loop gd DELTA k1 k2 k3 | THETA => gamma2_1loop gt THETA k1 k2 k3 end
  else Ok #0.
(** :35-61 *)
Definition kernel_pk_gamma2_1loop (pkl : Pk N) (im : interpol) (g gd gt : glq N) (a b : flag) (iq : Z) (mu : T) : res (list T) :=
  x <- rd (gq_x g) iq ;;
  let k := gq_k g in
  q <- rd (gq_q g) iq ;;
  let kq := gq_k g * nsqrt (#1 + x * x - #2 * mu * x) in
  pk_q <- rd (gq_pk g) iq ;;
  pk_kq <- find1 pkl im kq ;;
  '(gamma2a_tree, gamma2a_1loop, gamma2b_tree, gamma2b_1loop) <-
    (if flag_eqb a b then
       gamma2a_tree <- gamma2_stdPT gd gt a 0 kq q k ;;
       gamma2a_1loop <- gamma2_stdPT gd gt a 1 kq q k ;;
       Ok (gamma2a_tree, gamma2a_1loop, gamma2a_tree, gamma2a_1loop)
     else
       gamma2a_tree <- gamma2_stdPT gd gt a 0 kq q k ;;
       gamma2a_1loop <- gamma2_stdPT gd gt a 1 kq q k ;;
       gamma2b_tree <- gamma2_stdPT gd gt b 0 kq q k ;;
       gamma2b_1loop <- gamma2_stdPT gd gt b 1 kq q k ;;
       Ok (gamma2a_tree, gamma2a_1loop, gamma2b_tree, gamma2b_1loop)) ;;
  Ok [ #2 * pk_q * pk_kq * gamma2a_tree * gamma2b_tree;
       #2 * pk_q * pk_kq * (gamma2a_tree * gamma2b_1loop + gamma2a_1loop * gamma2b_tree);
       #2 * pk_q * pk_kq * gamma2a_1loop * gamma2b_1loop ].
(** :63-83 *)
Definition kernel_pk_gamma2_tree (pkl : Pk N) (im : interpol) (g : glq N) (a b : flag) (iq : Z) (mu : T) : res (list T) :=
  x <- rd (gq_x g) iq ;;
  let k := gq_k g in
  q <- rd (gq_q g) iq ;;
  let kq := gq_k g * nsqrt (#1 + x * x - #2 * mu * x) in
  pk_q <- rd (gq_pk g) iq ;;
  pk_kq <- find1 pkl im kq ;;
  let '(gamma2a_tree, gamma2b_tree) :=
    if flag_eqb a b then
      let gamma2a_tree := gamma2_tree a kq q k in (gamma2a_tree, gamma2a_tree)
    else (gamma2_tree a kq q k, gamma2_tree b kq q k) in
  Ok [ #2 * pk_q * pk_kq * gamma2a_tree * gamma2b_tree ].
(** integ * x^3 w, :146-149, 180-181 and bias_1loop.c:87-89; [two] the factor of bias_1loop.c:88. *)
Definition add_x3w (g : glq N) (two : bool) (iq : Z) (x : T) (integ : list T) : res (list T) :=
  w <- rd (gq_w g) iq ;;
  let x3w := x * x * x * w in
  let x3w := if two then x3w * #2 else x3w in
  Ok (map (fun v => v * x3w) integ).
(** :120-157.  Returns the three terms and the tables. *)
Definition calc_pk_gamma2_1loop (pkl : Pk N) (im : interpol) (g : glq N) (m : glmu N) (gd gt : glq N) (a b : flag) (k : T)
  : res (list T * glq N * glmu N) :=
  g <- update_gauss_legendre_q g k ;;
  '(s, m) <- q_loop true g m 3 (kernel_pk_gamma2_1loop pkl im g gd gt a b) (add_x3w g false) ;;
  let factor := k * k * k / (#2 * npi * npi) in
  Ok (map (fun v => v * factor) s, g, m).
(** :159-186 *)
Definition calc_pk_gamma2_tree (pkl : Pk N) (im : interpol) (g : glq N) (m : glmu N) (a b : flag) (k : T)
  : res (list T * glq N * glmu N) :=
  g <- update_gauss_legendre_q g k ;;
  '(s, m) <- q_loop true g m 1 (kernel_pk_gamma2_tree pkl im g a b) (add_x3w g false) ;;
  let factor := k * k * k / (#2 * npi * npi) in
  Ok (map (fun v => v * factor) s, g, m).

(** ** src/spectrum_bias_1loop.c:18-47, the kernels: arguments a q kq mu muqkq pk_q pk_kq *)
Definition bias_kernel := flag -> T -> T -> T -> T -> T -> T -> T.
Definition kernel_b2 : bias_kernel := fun a q kq mu muqkq pk_q pk_kq =>
  pk_q * pk_kq * F2_sym_fast a (q * q) (kq * kq) (muqkq * q * kq).
Definition kernel_bs2 : bias_kernel := fun a q kq mu muqkq pk_q pk_kq =>
  pk_q * pk_kq * F2_sym_fast a (q * q) (kq * kq) (muqkq * q * kq) * S2 muqkq.
Definition kernel_b22 : bias_kernel := fun a q kq mu muqkq pk_q pk_kq =>
  5 //10^ 1 * pk_q * (pk_kq - pk_q).
Definition kernel_b2s2 : bias_kernel := fun a q kq mu muqkq pk_q pk_kq =>
  (- (5 //10^ 1)) * pk_q * (#2 / #3 * pk_q - pk_kq * S2 muqkq).
Definition kernel_bs22 : bias_kernel := fun a q kq mu muqkq pk_q pk_kq =>
  let s2 := S2 muqkq in (- (5 //10^ 1)) * pk_q * (#4 / #9 * pk_q - pk_kq * s2 * s2).
Definition kernel_sigma3sq : bias_kernel := fun a q kq mu muqkq pk_q pk_kq =>
  #105 / #16 * pk_q * (D2 mu * S2 muqkq + #8 / #63).
(** src/calc_pkcorr_from_bias_1loop.c:16-30 *)
Definition kernel_pk_bias_1loop (pkl : Pk N) (im : interpol) (g : glq N) (a : flag) (kernel : bias_kernel) (iq : Z) (mu : T) : res (list T) :=
  x <- rd (gq_x g) iq ;;
  let k := gq_k g in
  q <- rd (gq_q g) iq ;;
  let kq := gq_k g * nsqrt (#1 + x * x - #2 * mu * x) in
  pk_q <- rd (gq_pk g) iq ;;
  pk_kq <- find1 pkl im kq ;;
  let muqkq := (k * k - kq * kq - q * q) / #2 / q / kq in
  Ok [ kernel a q kq mu muqkq pk_q pk_kq ].
(** src/calc_pkcorr_from_bias_1loop.c:70-94 *)
Definition calc_pk_bias_1loop (pkl : Pk N) (im : interpol) (g : glq N) (m : glmu N) (a : flag) (k : T) (kernel : bias_kernel) (run_half : bool)
  : res (T * glq N * glmu N) :=
  g <- update_gauss_legendre_q g k ;;
  '(s, m) <- q_loop run_half g m 1 (kernel_pk_bias_1loop pkl im g a kernel) (add_x3w g run_half) ;;
  bias <- rd s 0 ;;
  Ok (k * k * k / (#4 * npi * npi) * bias, g, m).

(** ** src/calc_pkcorr_from_A_1loop.c *)
(** :18-49 *)
Definition kernel_A_tA_1loop (pkl : Pk N) (im : interpol) (g : glq N) (pk_k : T) (iq : Z) (mu_ : T) : res (list T) :=
  x_ <- rd (gq_x g) iq ;;
  x <- powers x_ (repeat #0 5) 5 ;;
  mu <- powers mu_ (repeat #0 5) 5 ;;
  x1 <- rd x 1 ;; x2 <- rd x 2 ;; x3 <- rd x 3 ;; x4 <- rd x 4 ;;
  mu1 <- rd mu 1 ;; mu2 <- rd mu 2 ;; mu3 <- rd mu 3 ;; mu4 <- rd mu 4 ;;
  let xmu := #1 + x2 - #2 * mu1 * x1 in
  let kq := gq_k g * nsqrt xmu in
  pk_q <- rd (gq_pk g) iq ;;
  pk_kq <- find1 pkl im kq ;;
  let pk_kq := pk_kq / (xmu * xmu) in
  let kA0 := (- x3) / #7 * (mu1 + #6 * mu3 + x2 * mu1 * (- #3 + #10 * mu2) + x1 * (- #3 + mu2 - #12 * mu4)) in
  let kA1 := x4 / #14 * (mu2 - #1) * (- #1 + #7 * x1 * mu1 - #6 * mu2) in
  let kA2 := x3 / #14 * (x2 * mu1 * (#13 - #41 * mu2) - #4 * (mu1 + #6 * mu3) + x1 * (#5 + #9 * mu2 + #42 * mu4)) in
  let kA3 := kA1 in
  let kA4 := x3 / #14 * (#1 - #7 * x1 * mu1 + #6 * mu2) * ((- #2) * mu1 + x1 * (- #1 + #3 * mu2)) in
  let kt0 := #1 / #7 * (mu1 + x1 - #2 * x1 * mu2) * (#3 * x1 + #7 * mu1 - #10 * x1 * mu2) in
  let kt1 := x1 / #14 * (mu2 - #1) * (#3 * x1 + #7 * mu1 - #10 * x1 * mu2) in
  let kt2 := #1 / #14 * (#28 * mu2 + x1 * mu1 * (#25 - #81 * mu2) + x2 * (#1 - #27 * mu2 + #54 * mu4)) in
  let kt3 := x1 / #14 * (#1 - mu2) * (x1 - #7 * mu1 + #6 * x1 * mu2) in
  let kt4 := #1 / #14 * (x1 - #7 * mu1 + #6 * x1 * mu2) * ((- #2) * mu1 - x1 + #3 * x1 * mu2) in
  Ok (zipw (fun a t => (a * pk_k + t * pk_q) * pk_kq) [kA0; kA1; kA2; kA3; kA4] [kt0; kt1; kt2; kt3; kt4]).
(** :51-84 *)
Definition kernel_a_1loop (g : glq N) (iq : Z) (pk_k : T) : res (list T) :=
  x_ <- rd (gq_x g) iq ;;
  pk_q <- rd (gq_pk g) iq ;;
  x <- powers x_ (repeat #0 9) 9 ;;
  x1 <- rd x 1 ;; x2 <- rd x 2 ;; x3 <- rd x 3 ;; x4 <- rd x 4 ;; x6 <- rd x 6 ;; x8 <- rd x 8 ;;
  let '(k0, k1, k2, k4) :=
    if x1 <? 1 //10^ 4 then
      (#8 * x8 / #735 + #24 * x6 / #245 - #24 * x4 / #35 + #8 * x2 / #7 - #2 / #3,
       (- #16) * x8 / #8085 - #16 * x6 / #735 + #48 * x4 / #245 - #16 * x2 / #35,
       #32 * x8 / #1617 + #128 * x6 / #735 - #288 * x4 / #245 + #64 * x2 / #35 - #4 / #3,
       #24 * x8 / #2695 + #8 * x6 / #105 - #24 * x4 / #49 + #24 * x2 / #35 - #2 / #3)
    else if x1 >? #100 then
      (#2 / #105 - #24 / (#245 * x2) - #8 / (#735 * x4) - #8 / (#2695 * x6) - #8 / (#7007 * x8),
       (- #16) / #35 + #48 / (#245 * x2) - #16 / (#735 * x4) - #16 / (#8085 * x6) - #16 / (#35035 * x8),
       (- #44) / #105 - #32 / (#735 * x4) - #64 / (#8085 * x6) - #96 / (#35035 * x8),
       (- #46) / #105 + #24 / (#245 * x2) - #8 / (#245 * x4) - #8 / (#1617 * x6) - #8 / (#5005 * x8))
    else
      let logx := if nabs (x1 - #1) >? EPS then nlog (nabs ((x1 + #1) / (x1 - #1))) else #0 in
      ((- #1) / #84 / x1 * (#2 * x1 * (#19 - #24 * x2 + #9 * x4) - #9 * power (x2 - #1) 3 * logx),
       #1 / #112 / x3 * (#2 * x1 * (x2 + #1) * (#3 - #14 * x2 + #3 * x4) - #3 * power (x2 - #1) 4 * logx),
       #1 / #336 / x3 * (#2 * x1 * (#9 - #185 * x2 + #159 * x4 - #63 * x6) + #9 * power (x2 - #1) 3 * (#7 * x2 + #1) * logx),
       #1 / #336 / x3 * (#2 * x1 * (#9 - #109 * x2 + #63 * x4 - #27 * x6) + #9 * power (x2 - #1) 3 * (#3 * x2 + #1) * logx)) in
  Ok (map (fun v => v * (pk_k * pk_q)) [k0; k1; k2; k1; k4]).
(** :122-155 *)
Definition calc_pk_A_1loop (pkl : Pk N) (imq im : interpol) (g : glq N) (m : glmu N) (k : T) : res (list T * glq N * glmu N) :=
  g <- update_gauss_legendre_q g k ;;
  pk_k <- find1 pkl imq k ;;
  '(s, m) <- q_loop false g m 5 (kernel_A_tA_1loop pkl im g pk_k)
    (fun iq x integ_A_tA =>
       integ_a <- kernel_a_1loop g iq pk_k ;;
       w <- rd (gq_w g) iq ;;
       let xw := x * w in
       Ok (zipw (fun i a => (i + a) * xw) integ_A_tA integ_a)) ;;
  let factor := k * k * k / (#4 * npi * npi) in
  Ok (map (fun v => v * factor) s, g, m).

(** ** src/calc_pkcorr_from_B.c *)
(** :22-55 *)
Definition kernel_B (pk_dt pk_tt : Pk N) (im : interpol) (g : glq N) (iq : Z) (mu_ : T) : res (list T) :=
  x_ <- rd (gq_x g) iq ;;
  x <- powers x_ (repeat #0 5) 5 ;;
  mu <- powers mu_ (repeat #0 5) 5 ;;
  x1 <- rd x 1 ;; x2 <- rd x 2 ;; x3 <- rd x 3 ;; x4 <- rd x 4 ;;
  mu1 <- rd mu 1 ;; mu2 <- rd mu 2 ;; mu4 <- rd mu 4 ;;
  let xmu := #1 + x2 - #2 * mu1 * x1 in
  q <- rd (gq_q g) iq ;;
  let kq := gq_k g * nsqrt xmu in
  pk_dt_q <- find1 pk_dt im q ;;
  pk_dt_kq <- find1 pk_dt im kq ;;
  pk_tt_q <- find1 pk_tt im q ;;
  pk_tt_kq <- find1 pk_tt im kq ;;
  let kernel :=
    [ x2 * (mu2 - #1) / #2 * pk_dt_kq * pk_dt_q;
      #3 * x2 * power (mu2 - #1) 2 / #8 * pk_dt_kq * pk_tt_q;
      #3 * x4 * power (mu2 - #1) 2 / xmu / #8 * pk_tt_kq * pk_dt_q;
      #5 * x4 * power (mu2 - #1) 3 / xmu / #16 * pk_tt_kq * pk_tt_q;
      x1 * (x1 + #2 * mu1 - #3 * x1 * mu2) / #2 * pk_dt_kq * pk_dt_q;
      (- #3) * x1 * (mu2 - #1) * (- x1 - #2 * mu1 + #5 * x1 * mu2) / #4 * pk_dt_kq * pk_tt_q;
      #3 * x2 * (mu2 - #1) * (- #2 + x2 + #6 * x1 * mu1 - #5 * x2 * mu2) / xmu / #4 * pk_tt_kq * pk_dt_q;
      (- #3) * x2 * power (mu2 - #1) 2 * (#6 - #5 * x2 - #30 * x1 * mu1 + #35 * x2 * mu2) / xmu / #16 * pk_tt_kq * pk_tt_q;
      x1 * (#4 * mu1 * (#3 - #5 * mu2) + x1 * (#3 - #30 * mu2 + #35 * mu4)) / #8 * pk_dt_kq * pk_tt_q;
      x1 * ((- #8) * mu1 + x1 * (- #12 + #36 * mu2 + #12 * x1 * mu1 * (#3 - #5 * mu2) + x2 * (#3 - #30 * mu2 + #35 * mu4))) / xmu / #8 * pk_tt_kq * pk_dt_q;
      #3 * x1 * (mu2 - #1) * ((- #8) * mu1 + x1 * (- #12 + #60 * mu2 + #20 * x1 * mu1 * (#3 - #7 * mu2) + #5 * x2 * (#1 - #14 * mu2 + #21 * mu4))) / xmu / #16 * pk_tt_kq * pk_tt_q;
      x1 * (#8 * mu1 * (- #3 + #5 * mu2) - #6 * x1 * (#3 - #30 * mu2 + #35 * mu4) + #6 * x2 * mu1 * (#15 - #70 * mu2 + #63 * mu4)
            + x3 * (#5 - #21 * mu2 * (#5 - #15 * mu2 + #11 * mu4))) / xmu / #16 * pk_tt_kq * pk_tt_q ] in
  Ok (map (fun v => v / xmu) kernel).
(** :93-121 *)
Definition calc_pk_B (pk_dt pk_tt : Pk N) (im : interpol) (g : glq N) (m : glmu N) (k : T) : res (list T * glq N * glmu N) :=
  g <- update_gauss_legendre_q g k ;;
  '(s, m) <- q_loop true g m 12 (kernel_B pk_dt pk_tt im g)
    (fun iq x integ_B =>
       w <- rd (gq_w g) iq ;;
       let xw := x * w in
       Ok (map (fun v => v * xw) integ_B)) ;;
  let factor := k * k * k / (#2 * npi * npi) in
  Ok (map (fun v => v * factor) s, g, m).

(** ** src/bispectrum_1loop.c *)
(** One of the pairs of statements of :16-39: 1 + k^2 sigmad2/2 + gamma1_1loop, for delta and theta.
    [g1]: table of gamma1_1loop.c, modified by each call. *)
Definition gamma1_reg_pair (g1 : glq N) (cond : bool) (k sigmad2k : T) : res (T * T * glq N) :=
  if cond then
    '(d, g1) <- gamma1_1loop g1 DELTA k ;;
    '(t, g1) <- gamma1_1loop g1 THETA k ;;
    Ok (#1 + k * k * sigmad2k / #2 + d, #1 + k * k * sigmad2k / #2 + t, g1)
  else Ok (#1, #1, g1).
(** :14-41.  Result: delta and theta at k, p, kp. *)
Definition gamma1_reg_1loop (g1 : glq N) (k p kp sigmad2k sigmad2p sigmad2kp : T) : res (T * T * T * T * T * T * glq N) :=
  '(d_k, t_k, g1) <- gamma1_reg_pair g1 (k >=? 1 //10^ 2) k sigmad2k ;;
  '(d_p, t_p, g1) <- gamma1_reg_pair g1 ((p >=? 1 //10^ 2) && (k >=? 1 //10^ 2)) p sigmad2p ;;
  '(d_kp, t_kp, g1) <- gamma1_reg_pair g1 ((kp >=? 3 //10^ 2) && (k >=? 1 //10^ 2)) kp sigmad2kp ;;
  Ok (d_k, t_k, d_p, t_p, d_kp, t_kp, g1).
(** :43-61.  Result: delta and theta of (kp,k), (p,k), (p,kp). *)
Definition gamma2_reg_1loop (gd gt : glq N) (k p kp sigmad2k sigmad2p sigmad2kp : T) : res (T * T * T * T * T * T) :=
  if (nmax3 kp k p >=? 1 //10^ 2) && (k >=? 1 //10^ 2) then
    l1 <- gamma2_1loop gd DELTA kp k p ;;
    l2 <- gamma2_1loop gt THETA kp k p ;;
    l3 <- gamma2_1loop gd DELTA p k kp ;;
    l4 <- gamma2_1loop gt THETA p k kp ;;
    l5 <- gamma2_1loop gd DELTA p kp k ;;
    l6 <- gamma2_1loop gt THETA p kp k ;;
    Ok (gamma2_tree DELTA kp k p * (#1 + p * p * sigmad2p / #2) + l1,
        gamma2_tree THETA kp k p * (#1 + p * p * sigmad2p / #2) + l2,
        gamma2_tree DELTA p k kp * (#1 + kp * kp * sigmad2kp / #2) + l3,
        gamma2_tree THETA p k kp * (#1 + kp * kp * sigmad2kp / #2) + l4,
        gamma2_tree DELTA p kp k * (#1 + k * k * sigmad2k / #2) + l5,
        gamma2_tree THETA p kp k * (#1 + k * k * sigmad2k / #2) + l6)
  else Ok (gamma2_tree DELTA kp k p, gamma2_tree THETA kp k p, gamma2_tree DELTA p k kp, gamma2_tree THETA p k kp,
           gamma2_tree DELTA p kp k, gamma2_tree THETA p kp k).
(** :98-171.  [out] are the eight output cells, in the order of the parameters.  *)
Definition bispectrum_1loop_I (pkl : Pk N) (im : interpol) (uvcutoff : T) (g1 gd gt : glq N) (k p kp : T) (out : list T)
  : res (list T * glq N) :=
  sigmad2k <- sigmad2_1 pkl uvcutoff k ;;
  sigmad2p <- sigmad2_1 pkl uvcutoff p ;;
  sigmad2kp <- sigmad2_1 pkl uvcutoff kp ;;
  let exp_factor := (k * k * sigmad2k + p * p * sigmad2p + kp * kp * sigmad2kp) / #2 in
  out <- (if exp_factor >? #100 then for_ 0 8 (fun i out => wr out i #0) out else Ok out) ;;
  let exp_factor := nexp (- exp_factor) in
  pk_k <- find1 pkl im k ;;
  pk_p <- find1 pkl im p ;;
  pk_kp <- find1 pkl im kp ;;
  '(gamma1d_k, gamma1t_k, gamma1d_p, gamma1t_p, gamma1d_kp, gamma1t_kp, g1) <- gamma1_reg_1loop g1 k p kp sigmad2k sigmad2p sigmad2kp ;;
  '(gamma2d_kp_k, gamma2t_kp_k, gamma2d_p_k, gamma2t_p_k, gamma2d_p_kp, gamma2t_p_kp) <- gamma2_reg_1loop gd gt k p kp sigmad2k sigmad2p sigmad2kp ;;
  out <- wr out 0 (#2 * (gamma2t_kp_k * gamma1d_kp * gamma1d_k * pk_kp * pk_k
      + gamma2d_p_k * gamma1t_p * gamma1d_k * pk_p * pk_k
      + gamma2d_p_kp * gamma1t_p * gamma1d_kp * pk_p * pk_kp) * exp_factor) ;;
  out <- wr out 1 (#2 * (gamma2t_kp_k * gamma1t_kp * gamma1d_k * pk_kp * pk_k
      + gamma2t_p_k * gamma1t_p * gamma1d_k * pk_p * pk_k
      + gamma2d_p_kp * gamma1t_p * gamma1t_kp * pk_p * pk_kp) * exp_factor) ;;
  out <- wr out 2 (#2 * (gamma2t_kp_k * gamma1d_kp * gamma1t_k * pk_kp * pk_k
      + gamma2d_p_k * gamma1t_p * gamma1t_k * pk_p * pk_k
      + gamma2t_p_kp * gamma1t_p * gamma1d_kp * pk_p * pk_kp) * exp_factor) ;;
  out <- wr out 3 (#2 * (gamma2t_kp_k * gamma1t_kp * gamma1t_k * pk_kp * pk_k
      + gamma2t_p_k * gamma1t_p * gamma1t_k * pk_p * pk_k
      + gamma2t_p_kp * gamma1t_p * gamma1t_kp * pk_p * pk_kp) * exp_factor) ;;
  out <- wr out 4 (#2 * (gamma2t_p_k * gamma1d_p * gamma1d_k * pk_p * pk_k
      + gamma2d_kp_k * gamma1t_kp * gamma1d_k * pk_kp * pk_k
      + gamma2d_p_kp * gamma1t_kp * gamma1d_p * pk_kp * pk_p) * exp_factor) ;;
  out <- wr out 5 (#2 * (gamma2t_p_k * gamma1t_p * gamma1d_k * pk_p * pk_k
      + gamma2t_kp_k * gamma1t_kp * gamma1d_k * pk_kp * pk_k
      + gamma2d_p_kp * gamma1t_kp * gamma1t_p * pk_kp * pk_p) * exp_factor) ;;
  out <- wr out 6 (#2 * (gamma2t_p_k * gamma1d_p * gamma1t_k * pk_p * pk_k
      + gamma2d_kp_k * gamma1t_kp * gamma1t_k * pk_kp * pk_k
      + gamma2t_p_kp * gamma1t_kp * gamma1d_p * pk_kp * pk_p) * exp_factor) ;;
  out <- wr out 7 (#2 * (gamma2t_p_k * gamma1t_p * gamma1t_k * pk_p * pk_k
      + gamma2t_kp_k * gamma1t_kp * gamma1t_k * pk_kp * pk_k
      + gamma2t_p_kp * gamma1t_kp * gamma1t_p * pk_kp * pk_p) * exp_factor) ;;
  Ok (out, g1).

(** :182-184, kk - qq and kk + qq; :186-188, the lengths; [vopp]: the vector oqq *)
Definition vsub (u v : vec N) : vec N := mkV (v0 u - v0 v) (v1 u - v1 v) (v2 u - v2 v).
Definition vadd (u v : vec N) : vec N := mkV (v0 u + v0 v) (v1 u + v1 v) (v2 u + v2 v).
Definition vopp (u : vec N) : vec N := mkV (- v0 u) (- v1 u) (- v2 u).
Definition norm3 (u : vec N) : T := nsqrt (dot3 u u).
(** :173-248.  The momenta kk1, kk2, kk3 and their flags; result (bk222_abc, bk321_abc).  The loops over
    ii and idim are unrolled. *)
Definition bispectrum_1loop_II_III (pkl : Pk N) (im : interpol) (kk0 kk1 kk2 qq : vec N) (a b c : flag) : res (T * T) :=
  let pp0 := vsub kk0 qq in let pp1 := vsub kk1 qq in let pp2 := vsub kk2 qq in
  let rr0 := vadd kk0 qq in let rr1 := vadd kk1 qq in let rr2 := vadd kk2 qq in
  let p0 := norm3 pp0 in let p1 := norm3 pp1 in let p2 := norm3 pp2 in
  let r0 := norm3 rr0 in let r1 := norm3 rr1 in let r2 := norm3 rr2 in
  let k0 := norm3 kk0 in let k1 := norm3 kk1 in let k2 := norm3 kk2 in
  let oqq := vopp qq in
  let q := norm3 qq in
  pk_q <- find1 pkl im q ;;
  pk_k0 <- find1 pkl im k0 ;; pk_p0 <- find1 pkl im p0 ;; pk_r0 <- find1 pkl im r0 ;;
  pk_k1 <- find1 pkl im k1 ;; pk_p1 <- find1 pkl im p1 ;; pk_r1 <- find1 pkl im r1 ;;
  pk_k2 <- find1 pkl im k2 ;; pk_p2 <- find1 pkl im p2 ;; pk_r2 <- find1 pkl im r2 ;;
  let bk222 := #0 in
  let bk222 := if (p0 >? q) && (r1 >? q) then bk222 +
    F2_sym_full a pp0 qq * F2_sym_full b rr1 oqq * F2_sym_full c rr1 pp0 * pk_p0 * pk_q * pk_r1 else bk222 in
  let bk222 := if (r0 >? q) && (p1 >? q) then bk222 +
    F2_sym_full a rr0 oqq * F2_sym_full b pp1 qq * F2_sym_full c pp1 rr0 * pk_r0 * pk_q * pk_p1 else bk222 in
  let bk222 := if (p2 >? q) && (r1 >? q) then bk222 +
    F2_sym_full c pp2 qq * F2_sym_full b rr1 oqq * F2_sym_full a rr1 pp2 * pk_p2 * pk_q * pk_r1 else bk222 in
  let bk222 := if (r2 >? q) && (p1 >? q) then bk222 +
    F2_sym_full c rr2 oqq * F2_sym_full b pp1 qq * F2_sym_full a pp1 rr2 * pk_r2 * pk_q * pk_p1 else bk222 in
  let bk222 := if (p0 >? q) && (r2 >? q) then bk222 +
    F2_sym_full a pp0 qq * F2_sym_full c rr2 oqq * F2_sym_full b rr2 pp0 * pk_p0 * pk_q * pk_r2 else bk222 in
  let bk222 := if (r0 >? q) && (p2 >? q) then bk222 +
    F2_sym_full a rr0 oqq * F2_sym_full c pp2 qq * F2_sym_full b pp2 rr0 * pk_r0 * pk_q * pk_p2 else bk222 in
  let bk321 := #0 in
  let bk321 := if p1 >? q then bk321 + (F3_sym a kk2 pp1 qq * F2_sym_full b pp1 qq * pk_p1 * pk_q * pk_k2
    + F3_sym c kk0 pp1 qq * F2_sym_full b pp1 qq * pk_p1 * pk_q * pk_k0) else bk321 in
  let bk321 := if r1 >? q then bk321 + (F3_sym a kk2 rr1 oqq * F2_sym_full b rr1 oqq * pk_r1 * pk_q * pk_k2
    + F3_sym c kk0 rr1 oqq * F2_sym_full b rr1 oqq * pk_r1 * pk_q * pk_k0) else bk321 in
  let bk321 := if p2 >? q then bk321 + (F3_sym a kk1 pp2 qq * F2_sym_full c pp2 qq * pk_p2 * pk_q * pk_k1
    + F3_sym b kk0 pp2 qq * F2_sym_full c pp2 qq * pk_p2 * pk_q * pk_k0) else bk321 in
  let bk321 := if r2 >? q then bk321 + (F3_sym a kk1 rr2 oqq * F2_sym_full c rr2 oqq * pk_r2 * pk_q * pk_k1
    + F3_sym b kk0 rr2 oqq * F2_sym_full c rr2 oqq * pk_r2 * pk_q * pk_k0) else bk321 in
  let bk321 := if p0 >? q then bk321 + (F3_sym b kk2 pp0 qq * F2_sym_full a pp0 qq * pk_p0 * pk_q * pk_k2
    + F3_sym c kk1 pp0 qq * F2_sym_full a pp0 qq * pk_p0 * pk_q * pk_k1) else bk321 in
  let bk321 := if r0 >? q then bk321 + (F3_sym b kk2 rr0 oqq * F2_sym_full a rr0 oqq * pk_r0 * pk_q * pk_k2
    + F3_sym c kk1 rr0 oqq * F2_sym_full a rr0 oqq * pk_r0 * pk_q * pk_k1) else bk321 in
  Ok (bk222 * (#4 / power (#2 * npi) 3), bk321 * (#6 / power (#2 * npi) 3)).

(** ** src/calc_pkcorr_from_A_2loop_I.c *)
(** :21-38 *)
Definition kernel_projection_A_tA (x mu : T) : list T * list T :=
  let xmu := #1 + x * x - #2 * mu * x in
  let a0 := x * mu in
  let a1 := (- (x * x)) * (#3 * x * mu - #2) * (mu * mu - #1) / xmu / #2 in
  let a2 := x * (#2 * mu + x * (#2 - #6 * mu * mu) + x * x * mu * (- #3 + #5 * mu * mu)) / xmu / #2 in
  let t0 := (- (x * x)) * (x * mu - #1) / xmu in
  let t1 := x * x * (#3 * x * mu - #1) * (mu * mu - #1) / xmu / #2 in
  let t2 := x * x * (- #1 + #3 * x * mu + #3 * mu * mu - #5 * x * mu * mu * mu) / xmu / #2 in
  ([a0; a1; a2; a0; a1; a2], [t0; t1; t2; t0; t1; t2]).
(** Which of the eight outputs of bispectrum_1loop_I multiplies each component, :54-66. *)
Definition A_components (b : list T) (projA projtA : list T) : res (list T) :=
  b211A <- rd b 0 ;; b221A <- rd b 1 ;; b212A <- rd b 2 ;; b222A <- rd b 3 ;;
  b211tA <- rd b 4 ;; b221tA <- rd b 5 ;; b212tA <- rd b 6 ;; b222tA <- rd b 7 ;;
  Ok (zipw (fun p v => p * v) (projA ++ projtA)
       [b211A; b221A; b221A; b212A; b222A; b222A; b211tA; b221tA; b221tA; b212tA; b222tA; b222tA]).
(** :41-67; the table g1 of gamma1_1loop.c is the one at the beginning of the run: the calls only
    overwrite its scratch column, on which no result depends (C34). *)
Definition kernel_A_tA_2loop_I (pkl : Pk N) (im : interpol) (uvcutoff : T) (g g1 gd gt : glq N) (iq : Z) (mu : T) : res (list T) :=
  x <- rd (gq_x g) iq ;;
  let k := gq_k g in
  q <- rd (gq_q g) iq ;;
  let kq := gq_k g * nsqrt (#1 + x * x - #2 * mu * x) in
  let '(projA, projtA) := kernel_projection_A_tA x mu in
  '(b, g1) <- bispectrum_1loop_I pkl im uvcutoff g1 gd gt k q kq (repeat #0 8) ;;
  c <- A_components b projA projtA ;;
  Ok (map (fun v => v * x) c).
(** :105-132 *)
Definition calc_pk_A_2loop_I (pkl : Pk N) (im : interpol) (uvcutoff : T) (g : glq N) (m : glmu N) (g1 gd gt : glq N) (k : T)
  : res (list T * glq N * glmu N) :=
  g <- update_gauss_legendre_q g k ;;
  '(s, m) <- q_loop true g m 12 (kernel_A_tA_2loop_I pkl im uvcutoff g g1 gd gt)
    (fun iq x integ =>
       w <- rd (gq_w g) iq ;;
       Ok (map (fun v => v * w) integ)) ;;
  let factor := k * k * k / (#2 * npi * npi) in
  Ok (map (fun v => v * factor) s, g, m).

(** ** src/calc_pkcorr_from_gamma3.c *)
(** :106-150, the integrand on the unit cube; [qmin], [qmax]: precision_q.min and max; [k]: the
    threadprivate k.  The branch compiled without _CUBA15; the other one is the same. *)
Definition kernel_pk_gamma3_tree (pkl : Pk N) (im : interpol) (qmin qmax logqmin logqmax k : T) (a b : flag) (xx : list T) : res T :=
  xx0 <- rd xx 0 ;; xx1 <- rd xx 1 ;; xx2 <- rd xx 2 ;; xx3 <- rd xx 3 ;; xx4 <- rd xx 4 ;;
  let p := nexp (logqmin + (logqmax - logqmin) * xx0) in
  let theta1 := xx1 * npi in
  let phi1 := xx2 * #2 * npi in
  let q := nexp (logqmin + (logqmax - logqmin) * xx3) in
  let theta2 := xx4 * npi in
  let sintheta1 := nsin theta1 in
  let sintheta2 := nsin theta2 in
  let pp := mkV (p * sintheta1 * ncos phi1) (p * sintheta1 * nsin phi1) (p * ncos theta1) in
  let qq := mkV (q * sintheta2) #0 (q * ncos theta2) in
  let kpq := mkV (- v0 pp - v0 qq) (- v1 pp - v1 qq) (k - v2 pp - v2 qq) in
  let k_p_q := norm3 kpq in
  let kp := mkV (- v0 pp) (- v1 pp) (k - v2 pp) in
  let k_p := norm3 kp in
  let prod_q_kp := dot3 qq kp in
  if (k_p_q >=? qmin) && (k_p_q <=? qmax) && (prod_q_kp <=? 5 //10^ 1 * k_p * k_p) then
    pk_p <- find1 pkl im p ;;
    pk_q <- find1 pkl im q ;;
    pk_kpq <- find1 pkl im k_p_q ;;
    let f := F3_sym a pp qq kpq * F3_sym b pp qq kpq * pk_p * pk_q * pk_kpq in
    let jacobian := (logqmax - logqmin) * npi * #2 * npi in
    let jacobian := jacobian * (jacobian * sintheta1 * sintheta2) in
    let f := f * (p * p * p * q * q * q * jacobian) in
    Ok (#2 * f)
  else Ok #0.
(** :205-218; [suave] is the integral Suave returns for a given integrand. *)
Definition calc_pk_gamma3_tree (suave : (list T -> res T) -> res T) (pkl : Pk N) (im : interpol) (qmin qmax logqmin logqmax : T)
    (a b : flag) (k : T) : res T :=
  integral <- suave (kernel_pk_gamma3_tree pkl im qmin qmax logqmin logqmax k a b) ;;
  Ok (#6 * integral / power (#2 * npi) 6).

(** ** src/calc_pkcorr_from_A_2loop_II_III.c *)
(** :165-249 *)
Definition kernel_A_tA_2loop_II_III (pkl : Pk N) (im : interpol) (uvcutoff logqmin logqmax k : T) (xx : list T) : res (list T) :=
  xx0 <- rd xx 0 ;; xx1 <- rd xx 1 ;; xx2 <- rd xx 2 ;; xx3 <- rd xx 3 ;; xx4 <- rd xx 4 ;;
  let p := nexp (logqmin + (logqmax - logqmin) * xx0) in
  let x := p / k in
  let mu := - #1 + #2 * xx1 in
  if mu >? 5 //10^ 1 / x then Ok (repeat #0 12) else
  let pp := mkV (p * nsqrt (#1 - mu * mu)) #0 (p * mu) in
  let q := nexp (logqmin + (logqmax - logqmin) * xx2) in
  let theta := xx3 * npi in
  let sintheta := nsin theta in
  let phi := xx4 * #2 * npi in
  let qq := mkV (q * sintheta * ncos phi) (q * sintheta * nsin phi) (q * ncos theta) in
  let okk := mkV #0 #0 (- k) in
  let kkpp := mkV (- v0 okk - v0 pp) (- v1 okk - v1 pp) (- v2 okk - v2 pp) in
  let kp := k * nsqrt (#1 + x * x - #2 * x * mu) in
  sigmad2k <- sigmad2_1 pkl uvcutoff k ;;
  sigmad2p <- sigmad2_1 pkl uvcutoff p ;;
  sigmad2kp <- sigmad2_1 pkl uvcutoff kp ;;
  let exp_factor := (k * k * sigmad2k + p * p * sigmad2p + kp * kp * sigmad2kp) / #2 in
  if exp_factor >=? #100 then Ok (repeat #0 12) else
  '(b211A_II, b211A_III) <- bispectrum_1loop_II_III pkl im pp kkpp okk qq THETA DELTA DELTA ;;
  '(b221A_II, b221A_III) <- bispectrum_1loop_II_III pkl im pp kkpp okk qq THETA THETA DELTA ;;
  '(b212A_II, b212A_III) <- bispectrum_1loop_II_III pkl im pp kkpp okk qq THETA DELTA THETA ;;
  '(b222A_II, b222A_III) <- bispectrum_1loop_II_III pkl im pp kkpp okk qq THETA THETA THETA ;;
  '(b211tA_II, b211tA_III) <- bispectrum_1loop_II_III pkl im kkpp pp okk qq THETA DELTA DELTA ;;
  '(b221tA_II, b221tA_III) <- bispectrum_1loop_II_III pkl im kkpp pp okk qq THETA THETA DELTA ;;
  '(b212tA_II, b212tA_III) <- bispectrum_1loop_II_III pkl im kkpp pp okk qq THETA DELTA THETA ;;
  '(b222tA_II, b222tA_III) <- bispectrum_1loop_II_III pkl im kkpp pp okk qq THETA THETA THETA ;;
  let jacobian := (logqmax - logqmin) * (logqmax - logqmin) * #4 * npi * npi in
  let exp_factor := nexp (- exp_factor) * x * q * q * q * sintheta * jacobian in
  let '(projA, projtA) := kernel_projection_A_tA x mu in
  A_components [b211A_II + b211A_III; b221A_II + b221A_III; b212A_II + b212A_III; b222A_II + b222A_III;
                b211tA_II + b211tA_III; b221tA_II + b221tA_III; b212tA_II + b212tA_III; b222tA_II + b222tA_III]
    (map (fun v => v * exp_factor) projA) (map (fun v => v * exp_factor) projtA).
(** :267-280 *)
Definition calc_pk_A_2loop_II_III (suave : (list T -> res (list T)) -> res (list T)) (pkl : Pk N) (im : interpol)
    (uvcutoff logqmin logqmax k : T) : res (list T) :=
  integral <- suave (kernel_A_tA_2loop_II_III pkl im uvcutoff logqmin logqmax k) ;;
  let factor := k * k * k / (#2 * npi * npi) in
  Ok (map (fun v => v * factor) integral).
End Integrals.
