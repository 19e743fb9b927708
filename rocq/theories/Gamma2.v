(** Gamma2: transcription of src/gamma2d_1loop.c and src/gamma2t_1loop.c.  The two files have the
    same functions with different expressions; [g2src] collects the expressions of one file.
    kernel_gamma2d_iso and kernel_gamma2t_iso are never called and are not modelled. *)
From Verif Require Import Base Num Common Kernels GExpr Gamma2dSrc Gamma2tSrc.
Local Open Scope Z_scope.

(** Expressions of one source file. [s_ge]: kernel_gamma2t_elongate compares with >=
    (gamma2t_1loop.c:244), kernel_gamma2d_elongate with > (gamma2d_1loop.c:263). *)
Record g2src := mkG2 {
  s_exact : gexpr; s_highk : gexpr; s_lowk : gexpr; s_elongate : gexpr; s_coll : gexpr;
  s_polys : list gexpr; s_betas : list gexpr; s_den : gexpr; s_ge : bool }.

(** src/gamma2d_1loop.c:1860, src/gamma2t_1loop.c:1845, denominator of the sum of kernel_poly *)
Definition g2_reg3rd_den : gexpr :=
  (776160 * gk1@[5] * gk2@[5] * gk3@[1] * gq@[4]
   * (GPower ((gk1@[1] + gq@[1]) * (gk2@[1] + gq@[1]) * (gk3@[1] + gq@[1])) 4) * (gk3@[1] + gq@[1]))%ge.

(** src/gamma2d_1loop.c:131 *)
Definition g2d_exact : gexpr :=
  (g2d_exact_kernel1 + g2d_exact_kernel2 + g2d_exact_kernel3 + g2d_exact_kernel4 + g2d_exact_kernel5)%ge.
(** src/gamma2t_1loop.c:116 *)
Definition g2t_exact : gexpr :=
  (g2t_exact_kernel1 + g2t_exact_kernel2 + g2t_exact_kernel3 + g2t_exact_kernel4 + g2t_exact_kernel5
   + g2t_exact_kernel6)%ge.

(** What differs between src/gamma2d_1loop.c and src/gamma2t_1loop.c, for the functions below which are the same in both *)
Definition g2d_src : g2src :=
  mkG2 g2d_exact g2d_highk g2d_lowk g2d_elongate g2d_coll g2d_reg3rd_polys g2d_reg3rd_betas g2_reg3rd_den false.
Definition g2t_src : g2src :=
  mkG2 g2t_exact g2t_highk g2t_lowk g2t_elongate g2t_coll g2t_reg3rd_polys g2t_reg3rd_betas g2_reg3rd_den true.
(** calc_pkcorr_from_gamma2.c and bispectrum_1loop.c call gamma2d_1loop for a density and gamma2t_1loop for a velocity divergence. *)
Definition g2_of (a : flag) : g2src := match a with DELTA => g2d_src | THETA => g2t_src end.

Section Gamma2.
Context {N : Num}.
Local Notation T := (T N).
Local Open Scope num_scope.

(** src/gamma2d_1loop.c:8, :12-13: an array of NPOWERS powers of [x] *)
Definition NPOWERS : Z := 20.
Definition pows (x : T) : res (list T) := powers x (repeat #0 (Z.to_nat NPOWERS)) NPOWERS.

(** src/gamma2d_1loop.c:12-13 (exact), :210-211 (highk), :241-242 (lowk), :518-519 (reg3rd) and the
    same lines of gamma2t_1loop.c.  Arrays that are not declared are empty: reading them is an error. *)
Definition env4 (k1 k2 k3 q : T) : res (gvar -> list T) :=
  k1 <- pows k1 ;; k2 <- pows k2 ;; k3 <- pows k3 ;; q <- pows q ;;
  Ok (fun v => match v with gk1 => k1 | gk2 => k2 | gk3 => k3 | gq => q | gk | geps => nil end).

(** src/gamma2d_1loop.c:262-272, src/gamma2t_1loop.c:243-253 *)
Definition env_elongate (ge : bool) (k1_ k2_ k3_ q_ : T) : res (gvar -> list T) :=
  let '(k_, eps_) := if (if ge then k1_ >=? k2_ else k1_ >? k2_) then (k1_, k2_ / k1_) else (k2_, k1_ / k2_) in
  k1 <- pows k1_ ;; k2 <- pows k2_ ;; k3 <- pows k3_ ;; q <- pows q_ ;; k <- pows k_ ;; eps <- pows eps_ ;;
  Ok (fun v => match v with gk1 => k1 | gk2 => k2 | gk3 => k3 | gq => q | gk => k | geps => eps end).

(** src/gamma2d_1loop.c:369-370, src/gamma2t_1loop.c:348-349 *)
Definition env_coll (k1_ k2_ k3_ q_ : T) : res (gvar -> list T) :=
  k1 <- pows k1_ ;; k2 <- pows k2_ ;; q <- pows q_ ;; eps <- pows (k3_ / k2_) ;;
  Ok (fun v => match v with gk1 => k1 | gk2 => k2 | gq => q | geps => eps | gk3 | gk => nil end).

(** src/gamma2d_1loop.c:10-132, :208-257 *)
Definition kernel_plain (x : gexpr) (k1 k2 k3 q : T) : res T := env <- env4 k1 k2 k3 q ;; geval env x.
(** src/gamma2d_1loop.c:260-365 *)
Definition kernel_elongate (s : g2src) (k1 k2 k3 q : T) : res T :=
  env <- env_elongate (s_ge s) k1 k2 k3 q ;; geval env (s_elongate s).
(** src/gamma2d_1loop.c:367-514 *)
Definition kernel_coll (s : g2src) (k1 k2 k3 q : T) : res T := env <- env_coll k1 k2 k3 q ;; geval env (s_coll s).
(** The loops at src/gamma2d_1loop.c:1860, :1862 over the array of terms. *)
Fixpoint gsum (f : gexpr -> res T) (l : list gexpr) (acc : T) : res T :=
  match l with nil => Ok acc | cons x l => v <- f x ;; gsum f l (acc + v) end.
(** src/gamma2d_1loop.c:516-1871 *)
Definition kernel_reg3rd (s : g2src) (k1 k2 k3 q : T) : res T :=
  env <- env4 k1 k2 k3 q ;;
  kernel_poly_sum <- gsum (fun x => geval env (x / s_den s)%ge) (s_polys s) #0 ;;
  kernel_beta_sum <- gsum (geval env) (s_betas s) #0 ;;
  Ok (#4 * (kernel_poly_sum + kernel_beta_sum)).

(** src/gamma2d_1loop.c:1874-1890, src/gamma2t_1loop.c:1853-1867: the choice of the function to call ... *)
Inductive g2branch := BExact | BReg3rd | BHighk | BLowk | BElongate | BColl.
Definition g2_branch (k1 k2 k3 q : T) : g2branch :=
  if (nabs (k1 / q - #1) <? 1 //10^ 3) || (nabs (k2 / q - #1) <? 1 //10^ 3) || (nabs (k3 / q - #1) <? 1 //10^ 3)
  then BReg3rd
  else if nabs (k2 / k1 - #1) <? 2 //10^ 2 then
    if q >? #10 * nmax3 k1 k2 k3 then BLowk
    else if q <? 1 //10^ 1 * nmin3 k1 k2 k3 then BHighk
    else BReg3rd
  else if q <? 1 //10^ 1 * nmin3 k1 k2 k3 then BHighk
  else if q >? #10 * nmax3 k1 k2 k3 then BLowk
  else if (q >? #50 * nmin k1 k2) && (nabs (k1 * k1 - k3 * k3) <? q * q) then BElongate
  else if (q >? #100 * k3) && (k3 <? #10 * nmin k1 k2) then BColl
  else BExact.
(** ... and the call. *)
Definition g2_call (s : g2src) (b : g2branch) (k1 k2 k3 q : T) : res T :=
  match b with
  | BExact => kernel_plain (s_exact s) k1 k2 k3 q
  | BReg3rd => kernel_reg3rd s k1 k2 k3 q
  | BHighk => kernel_plain (s_highk s) k1 k2 k3 q
  | BLowk => kernel_plain (s_lowk s) k1 k2 k3 q
  | BElongate => kernel_elongate s k1 k2 k3 q
  | BColl => kernel_coll s k1 k2 k3 q
  end.
(** src/gamma2d_1loop.c:1874-1890, src/gamma2t_1loop.c:1853-1867 *)
Definition kernel_gamma2 (a : flag) (k1 k2 k3 q : T) : res T :=
  g2_call (g2_of a) (g2_branch k1 k2 k3 q) k1 k2 k3 q.

(** src/gamma2d_1loop.c:1912-1924, src/gamma2t_1loop.c:1889-1898.  [g] is the table of the thread
    made by init_gamma2d_1loop (gamma2t_1loop). *)
Definition gamma2_1loop (g : glq N) (a : flag) (k1 k2 k3 : T) : res T :=
  integ_gamma <- for_ 0 (gq_nq g) (fun iq acc =>
    q <- rd (gq_q g) iq ;;
    w <- rd (gq_w g) iq ;;
    kern <- kernel_gamma2 a k1 k2 k3 q ;;
    pk <- rd (gq_pk g) iq ;;
    Ok (acc + w * kern * q * q * q * pk)) #0 ;;
  Ok (integ_gamma / (#8 * npi * npi * npi)).
End Gamma2.
