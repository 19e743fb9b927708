(** Common: transcription of src/common.c (and the data types of src/define.h it uses). *)
From Verif Require Import Base Num.
Local Open Scope Z_scope.

Section Common.
Context {N : Num}.
Local Notation T := (T N).
Local Open Scope num_scope.

(** src/define.h:17 *)
Inductive interpol := POLY | LIN.

(** src/define.h:21-26, struct Pk.  Arrays are lists of their elements; [pk_n] is the nk field. *)
Record Pk := mkPk { pk_n : Z; pk_k : list T; pk_p : list T }.

(** src/regpt.c:71-80, set_pk_lin, as called by pyregpt.py:259-264 (nk = k.size): the table made
    of the arrays [K] and [P]. *)
Definition mk_table (K P : list T) : Pk := mkPk (zlen K) K P.

(** src/common.c:81-91, power.  The loop consumes the exponent bit by bit (exp&1, exp/=2): it is
    the recursion on the binary representation; the last squaring of [base] is unused. *)
Fixpoint power_loop (base result : T) (e : positive) : T :=
  match e with
  | xH => result * base
  | xO e' => power_loop (base * base) result e'
  | xI e' => power_loop (base * base) (result * base) e'
  end.
Definition power (base : T) (e : Z) : T :=
  match e with Zpos p => power_loop base #1 p | _ => #1 end.

(** src/common.c:93-99, powers.  [tab] is the destination array. *)
Definition powers (x : T) (tab : list T) (npowers : Z) : res (list T) :=
  tab <- wr tab 0 #1 ;;
  tab <- wr tab 1 x ;;
  for_ 2 npowers (fun i tab => t <- rd tab (i - 1)%Z ;; wr tab i (t * x)) tab.

(** src/common.c:101-110, get_dichotomy_index.  size_t arithmetic; recursion on fuel, the
    wrapper gives the window length, which suffices whenever min < max. *)
Fixpoint dicho (fuel : nat) (x : T) (tab : list T) (mn mx : Z) : res Z :=
  match fuel with
  | O => Err NoFuel
  | S f =>
    if (mn =? u64 (mx - 1))%Z then Ok mn
    else
      let ind := (u64 (mn + mx) / 2)%Z in
      t <- rd tab ind ;;
      if x <? t then dicho f x tab mn ind
      else if x >? t then dicho f x tab ind mx
      else Ok ind
  end.
Definition get_dichotomy_index (x : T) (tab : list T) (mn mx : Z) : res Z :=
  dicho (Z.to_nat (mx - mn)) x tab mn mx.

(** src/common.c:112-115, interpol_lin *)
Definition interpol_lin (x xmin xmax ymin ymax : T) : T :=
  (x - xmin) / (xmax - xmin) * (ymax - ymin) + ymin.

(** src/common.c:123-131, first loop of interpol_poly: nearest node, c and d copies of taby. *)
Definition ip_scan (x : T) (tabx taby : list T) (nx : Z) (diff0 : T) (c0 d0 : list T)
  : res (Z * T * list T * list T) :=
  for_ 0 nx (fun ix s =>
    let '(ixclose, diff, c, d) := s in
    tx <- rd tabx ix ;;
    let tmpdiff := nabs (x - tx) in
    let '(ixclose, diff) := if tmpdiff <? diff then (ix, tmpdiff) else (ixclose, diff) in
    ty <- rd taby ix ;;
    c <- wr c ix ty ;;
    d <- wr d ix ty ;;
    Ok (ixclose, diff, c, d)) (0%Z, diff0, c0, d0).

(** src/common.c:136-141, inner loop of interpol_poly: one column of Neville's tableau. *)
Definition ip_column (x : T) (tabx : list T) (nx jx : Z) (c d : list T) : res (list T * list T) :=
  for_ 0 (u64 (nx - jx)) (fun ix s =>
    let '(c, d) := s in
    c1 <- rd c (ix + 1)%Z ;;
    d0 <- rd d ix ;;
    x0 <- rd tabx ix ;;
    xj <- rd tabx (ix + jx)%Z ;;
    let den := (c1 - d0) / (x0 - xj) in
    c <- wr c ix ((x0 - x) * den) ;;
    d <- wr d ix ((xj - x) * den) ;;
    Ok (c, d)) (c, d).

(** src/common.c:117-154, interpol_poly.  [c], [d] are the two malloc'ed scratch arrays (all
    their cells are written before being read); [ixclose] is size_t and may wrap below 0. *)
Definition interpol_poly (x : T) (tabx taby : list T) (nx : Z) : res T :=
  let c := repeat #0 (Z.to_nat nx) in
  let d := repeat #0 (Z.to_nat nx) in
  t0 <- rd tabx 0 ;;
  let diff := nabs (x - t0) in
  '(ixclose, diff, c, d) <- ip_scan x tabx taby nx diff c d ;;
  y <- rd taby ixclose ;;
  let ixclose := u64 (ixclose - 1) in
  '(_, _, _, y) <- for_ 1 nx (fun jx s =>
      let '(ixclose, c, d, y) := s in
      '(c, d) <- ip_column x tabx nx jx c d ;;
      if (u64 (2 * u64 (ixclose + 1)) <? u64 (nx - jx))%Z
      then dy <- rd c (u64 (ixclose + 1)) ;; Ok (ixclose, c, d, y + dy)
      else dy <- rd d ixclose ;; Ok (u64 (ixclose - 1), c, d, y + dy))
    (ixclose, c, d, y) ;;
  Ok y.

(** Loop common to src/common.c:162-165 and :176-179: sum of logarithmic slopes over
    start <= ik < end; [inr 0] is the early [return 0.]. *)
Definition sum_slopes (pkin : Pk) (start en : Z) : res (T + T) :=
  for_brk start en (fun ik dlnp_dlnk =>
    pu <- rd (pk_p pkin) (ik + 1)%Z ;;
    pl <- rd (pk_p pkin) (u64 (ik - 1)) ;;
    if (pu <=? #0) || (pl <=? #0) then Ok (inr #0)
    else
      ku <- rd (pk_k pkin) (ik + 1)%Z ;;
      kl <- rd (pk_k pkin) (u64 (ik - 1)) ;;
      Ok (inl (dlnp_dlnk + nlog (pu / pl) / nlog (ku / kl)))) #0.

(** src/common.c:156-168, extrapol_pk_lowk.  [(long) nk - 1] stored back into a size_t. *)
Definition extrapol_pk_lowk (pkin : Pk) (k : T) : res T :=
  let en := u64 (zmin 15 (pk_n pkin - 1)) in
  let start := 1%Z in
  o <- sum_slopes pkin start en ;;
  match o with
  | inr r => Ok r
  | inl dlnp_dlnk =>
    let n_eff := dlnp_dlnk / #(u64 (en - start)) in
    p <- rd (pk_p pkin) start ;;
    k0 <- rd (pk_k pkin) start ;;
    Ok (p * npow (k / k0) n_eff)
  end.

(** src/common.c:170-182, extrapol_pk_highk *)
Definition extrapol_pk_highk (pkin : Pk) (k : T) : res T :=
  let en := u64 (pk_n pkin - 1) in
  let start := zmax 1 (en - 15) in
  o <- sum_slopes pkin start en ;;
  match o with
  | inr r => Ok r
  | inl dlnp_dlnk =>
    let n_eff := dlnp_dlnk / #(u64 (en - start)) in
    p <- rd (pk_p pkin) en ;;
    k0 <- rd (pk_k pkin) en ;;
    Ok (p * npow (k / k0) n_eff)
  end.

(** src/common.c:192-203, body of the loop of find_pk for one query [k]; returns the value stored
    in pk[ik] and the new search start.  The sub-arrays &k[ikmin], &pk[ikmin] are suffixes. *)
Definition find_pk_step (pkin : Pk) (im : interpol) (en : Z) (kstart kend : T) (start : Z) (k : T)
  : res (T * Z) :=
  if k >? kend then p <- extrapol_pk_highk pkin k ;; Ok (p, start)
  else if k <? kstart then p <- extrapol_pk_lowk pkin k ;; Ok (p, start)
  else
    ind <- get_dichotomy_index k (pk_k pkin) start (u64 (en + 1)) ;;
    match im with
    | POLY =>
      let ikmin := zmax 0 (ind - 2) in
      let ikmax := zmin en (ind + 2) in
      p <- interpol_poly k (skipn (Z.to_nat ikmin) (pk_k pkin)) (skipn (Z.to_nat ikmin) (pk_p pkin))
             (ikmax - ikmin + 1) ;;
      Ok (p, ind)
    | LIN =>
      k0 <- rd (pk_k pkin) ind ;; k1 <- rd (pk_k pkin) (ind + 1)%Z ;;
      p0 <- rd (pk_p pkin) ind ;; p1 <- rd (pk_p pkin) (ind + 1)%Z ;;
      Ok (interpol_lin k k0 k1 p0 p1, ind)
    end.

(** src/common.c:191-204, the loop of find_pk.  Simplification: the query array k and the output
    array pk have the same length nk (guaranteed by the Python binding) and do not overlap, so
    the loop is a recursion on the queries producing the outputs in order. *)
Fixpoint find_pk_loop (pkin : Pk) (im : interpol) (en : Z) (kstart kend : T) (start : Z) (ks : list T)
  : res (list T) :=
  match ks with
  | [] => Ok []
  | k :: ks =>
    '(p, start) <- find_pk_step pkin im en kstart kend start k ;;
    ps <- find_pk_loop pkin im en kstart kend start ks ;;
    Ok (p :: ps)
  end.

(** src/common.c:184-205, find_pk; find_pk_lin (:207-210) is the same with the global pk_lin. *)
Definition find_pk (pkin : Pk) (ks : list T) (im : interpol) : res (list T) :=
  let en := u64 (pk_n pkin - 1) in
  kstart <- rd (pk_k pkin) 0 ;;
  kend <- rd (pk_k pkin) en ;;
  find_pk_loop pkin im en kstart kend 0 ks.

(** src/common.c:223-230, inner loop of calc_running_sigmad2 for one kmax.  Runs from the carried
    iklin; on [break] the value for this query is known ([inr]). *)
Fixpoint sig_inner (n : nat) (pkl : Pk) (kmax : T) (iklin : Z) (acc : T) : res (Z * T * option T) :=
  match n with
  | O => Ok (iklin, acc, None)
  | S m =>
    k1 <- rd (pk_k pkl) (iklin + 1)%Z ;;
    k0 <- rd (pk_k pkl) iklin ;;
    p0 <- rd (pk_p pkl) iklin ;;
    p1 <- rd (pk_p pkl) (iklin + 1)%Z ;;
    if kmax <? k1 then
      let pk_kmax := interpol_lin kmax k0 k1 p0 p1 in
      Ok (iklin, acc, Some ((acc + (pk_kmax + p0) * (kmax - k0)) / (#12 * npi * npi)))
    else sig_inner m pkl kmax (iklin + 1)%Z (acc + (p1 + p0) * (k1 - k0))
  end.

(** src/common.c:217-232, outer loop.  [None] from the inner loop means iklin reached nk-1, where
    line 231 stores the full integral. *)
Fixpoint sig_loop (pkl : Pk) (uvcutoff : T) (iklin : Z) (acc : T) (ks : list T) : res (list T) :=
  match ks with
  | [] => Ok []
  | k :: ks =>
    let kmax := k * uvcutoff in
    kfirst <- rd (pk_k pkl) 0 ;;
    if kmax <? kfirst then
      r <- sig_loop pkl uvcutoff iklin acc ks ;; Ok (#0 :: r)
    else
      '(iklin, acc, o) <- sig_inner (Z.to_nat (u64 (pk_n pkl - 1) - iklin)) pkl kmax iklin acc ;;
      let v := match o with Some v => v | None => acc / (#12 * npi * npi) end in
      r <- sig_loop pkl uvcutoff iklin acc ks ;;
      Ok (v :: r)
  end.

(** src/common.c:212-233, calc_running_sigmad2 ([pkl] is the global pk_lin). *)
Definition calc_running_sigmad2 (pkl : Pk) (ks : list T) (uvcutoff : T) : res (list T) :=
  sig_loop pkl uvcutoff 0 #0 ks.

(** src/define.h, struct Precision *)
Record precision := mkPrec { pr_n : Z; pr_min : T; pr_max : T; pr_interpol : interpol }.

(** The C string argument of the setters, reduced to what strcmp distinguishes. *)
Inductive istr := s_poly | s_lin | s_other.

(** src/common.c:255-266, set_interpol: new value and whether it changed *)
Definition set_interpol (cur : interpol) (s : istr) : interpol * bool :=
  match s with s_poly => (POLY, true) | s_lin => (LIN, true) | s_other => (cur, false) end.

(** src/common.c:235-252, set_precision: new setting and the returned flag *)
Definition set_precision (p : precision) (n : Z) (mn mx : T) (s : istr) (dflt : precision)
  : precision * bool :=
  let '(p, change) :=
    if (0 <? n)%Z then (mkPrec n (pr_min p) (pr_max p) (pr_interpol p), true) else (p, false) in
  let '(p, change) :=
    if mx >=? mn then (mkPrec (pr_n p) mn mx (pr_interpol p), true) else (p, change) in
  let '(im, ci) := set_interpol (pr_interpol p) s in
  let '(p, change) := if ci then (mkPrec (pr_n p) (pr_min p) (pr_max p) im, true) else (p, change) in
  if change then (p, true) else (dflt, false).

(** src/common.h:4, EPS *)
Definition EPS : T := 3 //10^ 14.

(** src/common.c:288-294, three-term recursion: (p1,p2) after [n] steps starting at jj. *)
Fixpoint legendre_loop (n : nat) (jj : Z) (z p1 p2 : T) : T * T :=
  match n with
  | O => (p1, p2)
  | S m => legendre_loop m (jj + 1)%Z z ((((#2 * #jj + #1) * z * p1) - #jj * p2) / (#jj + #1)) p1
  end.

(** src/common.c:295, slope *)
Definition gl_pp (n : Z) (z p1 p2 : T) : T := #n * (z * p1 - p2) / (z * z - #1).

(** src/common.c:287-298, Newton loop; returns (z, pp) *)
Fixpoint newton (fuel : nat) (n : Z) (z z1 pp : T) : res (T * T) :=
  match fuel with
  | O => Err NoFuel
  | S f =>
    if EPS <? nabs (z - z1) then
      let '(p1, p2) := legendre_loop (Z.to_nat n) 0 z #1 #0 in
      let pp := gl_pp n z p1 p2 in
      newton f n (z - p1 / pp) z pp
    else Ok (z, pp)
  end.

(** src/common.c:268-305, nodes_weights_gauss_legendre.  [x], [w] are the destination arrays;
    [fuel] bounds every Newton loop.  pp is initialised to 0 (line 281) and carried over. *)
Definition nodes_weights_gauss_legendre (fuel : nat) (xmin xmax : T) (x w : list T) (n : Z)
  : res (list T * list T) :=
  let mid := (u64 (n + 1) / 2)%Z in
  let xmid := (xmax + xmin) / #2 in
  let xl := (xmax - xmin) / #2 in
  '(x, w, _) <- for_ 0 mid (fun ii s =>
    let '(x, w, pp) := s in
    let z := ncos (npi * (#ii + 75 //10^ 2) / (#n + 5 //10^ 1)) in
    let z1 := z + EPS + #1 in
    '(z, pp) <- newton fuel n z z1 pp ;;
    x <- wr x ii (xmid - xl * z) ;;
    x <- wr x (u64 (n - ii - 1)) (xmid + xl * z) ;;
    w <- wr w ii (#2 * xl / ((#1 - z * z) * pp * pp)) ;;
    wi <- rd w ii ;;
    w <- wr w (u64 (n - ii - 1)) wi ;;
    Ok (x, w, pp)) (x, w, #0) ;;
  Ok (x, w).

(** src/define.h, struct GaussLegendreQ / GaussLegendreMu *)
Record glq := mkGlq { gq_k : T; gq_nq : Z; gq_x : list T; gq_q : list T; gq_w : list T; gq_pk : list T }.
Record glmu := mkGlmu { gm_nmu : Z; gm_muref : list T; gm_wref : list T; gm_mu : list T; gm_w : list T }.

(** src/common.c:309-313, range used by init_gauss_legendre_q *)
Definition q_range (p : precision) (pkl : Pk) : res (T * T) :=
  if (pr_min p <=? #0) || (pr_max p <=? #0) then
    a <- rd (pk_k pkl) 0 ;; b <- rd (pk_k pkl) (u64 (pk_n pkl - 1)) ;; Ok (a, b)
  else Ok (pr_min p, pr_max p).

(** src/common.c:307-331, init_gauss_legendre_q.  calloc gives zeroed arrays of nq cells. *)
Definition init_gauss_legendre_q (fuel : nat) (p : precision) (pkl : Pk) : res glq :=
  '(qmin, qmax) <- q_range p pkl ;;
  let nq := pr_n p in
  let z := repeat #0 (Z.to_nat nq) in
  '(x, w) <- nodes_weights_gauss_legendre fuel (nlog qmin) (nlog qmax) z z nq ;;
  '(x, q) <- for_ 0 nq (fun iq s =>
     let '(x, q) := s in
     xi <- rd x iq ;; q <- wr q iq (nexp xi) ;;
     qi <- rd q iq ;; x <- wr x iq qi ;; Ok (x, q)) (x, z) ;;
  pk <- find_pk pkl q (pr_interpol p) ;;
  Ok (mkGlq #1 nq x q w pk).

(** src/common.c:333-338, update_gauss_legendre_q *)
Definition update_gauss_legendre_q (g : glq) (k : T) : res glq :=
  x <- for_ 0 (gq_nq g) (fun iq x => q <- rd (gq_q g) iq ;; wr x iq (q / k)) (gq_x g) ;;
  Ok (mkGlq k (gq_nq g) x (gq_q g) (gq_w g) (gq_pk g)).

(** src/common.c:350-368, init_gauss_legendre_mu *)
Definition init_gauss_legendre_mu (fuel : nat) (p : precision) : res glmu :=
  let nmu := pr_n p in
  let z := repeat #0 (Z.to_nat nmu) in
  '(muref, wref) <- nodes_weights_gauss_legendre fuel (- #1) #1 z z nmu ;;
  '(mu, w) <- for_ 0 nmu (fun imu s =>
     let '(mu, w) := s in
     m <- rd muref imu ;; mu <- wr mu imu m ;;
     v <- rd wref imu ;; w <- wr w imu v ;; Ok (mu, w)) (z, z) ;;
  Ok (mkGlmu nmu muref wref mu w).

(** src/common.c:370-380, update_gauss_legendre_mu *)
Definition update_gauss_legendre_mu (g : glmu) (mumin mumax : T) : res glmu :=
  let jacobian := (mumax - mumin) / #2 in
  '(mu, w) <- for_ 0 (gm_nmu g) (fun imu s =>
     let '(mu, w) := s in
     m <- rd (gm_muref g) imu ;; mu <- wr mu imu ((m + #1) * jacobian + mumin) ;;
     v <- rd (gm_wref g) imu ;; w <- wr w imu (v * jacobian) ;; Ok (mu, w)) (gm_mu g, gm_w g) ;;
  Ok (mkGlmu (gm_nmu g) (gm_muref g) (gm_wref g) mu w).

End Common.
Arguments Pk N : clear implicits.
Arguments precision N : clear implicits.
Arguments glq N : clear implicits.
Arguments glmu N : clear implicits.
