(** SpecSym: the two fields of a spectrum exchanged; the terms with every propagator of both fields computed. *)
From Coq Require Import ZArith List String Reals.
From Verif Require Import Base Num Common Kernels Gamma2 Integrals Registry Threads PyTerms SpecThreads.
Import ListNotations.
Local Open Scope num_scope.
Local Open Scope string_scope.

Definition exchange (d : driver) : driver := match d with D_1loop a b => D_1loop b a | D_2loop a b => D_2loop b a | _ => d end.
Definition exchanged {A} (d : driver) (row : list A) : list A :=
  match d, row with
  | D_1loop _ _, [ga; gb; p] => [gb; ga; p]
  | D_2loop _ _, ga :: ga2 :: gb :: gb2 :: p => gb :: gb2 :: ga :: ga2 :: p
  | _, _ => row
  end.

Section Both.
Context {N : Num}.
Variables (fuel : nat) (st : settings N) (pkl : Pk N).
(** The gamma2 integrands with two calls for the two fields, equal or not *)
Definition both_tree (im : interpol) (g : glq N) (a b : flag) (iq : Z) (mu : T N) : res (list (T N)) :=
  x <- rd (gq_x g) iq ;; q <- rd (gq_q g) iq ;;
  let kq := gq_k g * nsqrt (#1 + x * x - #2 * mu * x) in
  pk_q <- rd (gq_pk g) iq ;; pk_kq <- find1 pkl im kq ;;
  Ok [ #2 * pk_q * pk_kq * gamma2_tree a kq q (gq_k g) * gamma2_tree b kq q (gq_k g) ].
Definition both_one_loop (im : interpol) (g gd gt : glq N) (a b : flag) (iq : Z) (mu : T N) : res (list (T N)) :=
  x <- rd (gq_x g) iq ;; q <- rd (gq_q g) iq ;;
  let kq := gq_k g * nsqrt (#1 + x * x - #2 * mu * x) in
  pk_q <- rd (gq_pk g) iq ;; pk_kq <- find1 pkl im kq ;;
  let loop c := gamma2_1loop (match c with DELTA => gd | THETA => gt end) c kq q (gq_k g) in
  let tree c := gamma2_tree c kq q (gq_k g) in
  la <- loop a ;; lb <- loop b ;;
  Ok [ #2 * pk_q * pk_kq * tree a * tree b; #2 * pk_q * pk_kq * (tree a * lb + la * tree b); #2 * pk_q * pk_kq * la * lb ].
Definition integrate (g : glq N) (m : glmu N) (n : nat) (kern : glq N -> Z -> T N -> res (list (T N))) (k : T N) : res (list (T N)) :=
  g <- update_gauss_legendre_q g k ;;
  '(s, _) <- q_loop true g m n (kern g) (add_x3w g false) ;;
  Ok (map (fun v => v * (k * k * k / (#2 * npi * npi))) s).
Definition both_1loop (a b : flag) (k : T N) : res (list (T N)) :=
  g1 <- new_q fuel st pkl "gamma1_1loop_q" ;; g <- new_q fuel st pkl "gamma2_tree_q" ;; m <- new_mu fuel st "gamma2_tree_mu" ;;
  '(ga, _) <- gamma1_1loop g1 a k ;; '(gb, _) <- gamma1_1loop g1 b k ;;
  p <- integrate g m 1 (fun g => both_tree (im_of st "gamma2_tree_mu") g a b) k ;; p <- take 1 p ;; Ok (ga :: gb :: p).
Definition both_2loop (a b : flag) (k : T N) : res (list (T N)) :=
  g1 <- new_q fuel st pkl "gamma1_1loop_q" ;; g2 <- new_q fuel st pkl "gamma1_2loop_q" ;; g <- new_q fuel st pkl "gamma2_tree_q" ;; m <- new_mu fuel st "gamma2_tree_mu" ;;
  gd <- new_q fuel st pkl "gamma2d_1loop_q" ;; gt <- new_q fuel st pkl "gamma2t_1loop_q" ;;
  '(a1, _) <- gamma1_1loop g1 a k ;; '(a2, _) <- gamma1_2loop g2 a k ;; '(b1, _) <- gamma1_1loop g1 b k ;; '(b2, _) <- gamma1_2loop g2 b k ;;
  p <- integrate g m 3 (fun g => both_one_loop (im_of st "gamma2_tree_mu") g gd gt a b) k ;; p <- take 3 p ;;
  Ok (a1 :: a2 + a1 * a1 / #2 :: b1 :: b2 + b1 * b1 / #2 :: p).
End Both.

(** The spectrum the Python object returns; [sg]: the argument sigmad2, when given. *)
Definition assembled (d : driver) (c : columns RNum) (D : T RNum) (sg : option (list (T RNum))) : res (list (T RNum)) :=
  match d with D_1loop _ _ => pk_1loop c D sg | _ => pk_2loop c D sg end.
