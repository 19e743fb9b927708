(** PropConv3: property C101. *)
From Coq Require Import Reals Lra Lia List ZArith String.
From Coquelicot Require Import Coquelicot.
From Verif Require Import Base Num Common Kernels Integrals Registry Threads Spec SpecPT SpecQuad SpecLoops SpecIntegrals SpecThreads SpecScratch SpecDefined SpecColumns SpecConv SpecConv2 ProofKernels ProofThreads8 ProofDefined12 ProofColumns4 ProofNewton8 ProofConv6.
Import ListNotations.
Local Open Scope R_scope.

(** Each of the five columns of the 1-loop A terms is the integral of the tree-level expression of perturbation theory, up to the error of the rules and of the closed forms,
    as soon as there are two nodes or more in q and k is smaller than the sum of the first and last of them. *)
Theorem C101_columns fuel st suave1 suave12 pkl dt ptt ks ps ss vals ik qmin qmax lam M lam1 M1 MP c : two_points pkl -> regular_run st pkl D_A_1loop ->
  let n := pr_n (s_prec st "A_1loop_q") in let m := pr_n (s_prec st "A_1loop_mu") in let P := lookup_of pkl POLY in let k := k_ (N := RNum) ks ik in
  q_range (N := RNum) (s_prec st "A_1loop_q") pkl = Ok (qmin, qmax) -> 0 < qmin < qmax ->
  computes (N := RNum) fuel st suave1 suave12 D_A_1loop pkl dt ptt ks ps ss vals -> (0 <= ik < zlen ks)%Z -> 0 < k -> (2 <= n)%Z -> k < qmin + qmax * exp (- end_gap n qmin qmax) ->
  0 <= lam -> 0 <= M -> 0 <= lam1 -> (c < 5)%nat ->
  smooth false (qmin / k) (qmax / k) (A_with P c k) lam M ->
  bounded_lipschitz (fun s => exp s / k * A_without P c k (exp s / k)) (ln qmin) (ln qmax) lam1 M1 -> (forall q, qmin <= q <= qmax -> Rabs (P q) <= MP) ->
  Rabs (at_ (vals ik) c - A_continuum P c k qmin qmax) <= A_bound n m k qmin qmax lam M lam1 M1 (P k) MP.
Proof. exact (A_columns_error fuel st suave1 suave12 pkl dt ptt ks ps ss vals ik qmin qmax lam M lam1 M1 MP c). Qed.
Print Assumptions C101_columns.

(** With one node in q the code finds no angle and returns zero, whatever the spectrum. *)
Theorem C101_one_node fuel st suave1 suave12 pkl dt ptt ks ps ss vals ik c : two_points pkl -> regular_run st pkl D_A_1loop -> pr_n (s_prec st "A_1loop_q") = 1%Z ->
  computes (N := RNum) fuel st suave1 suave12 D_A_1loop pkl dt ptt ks ps ss vals -> (0 <= ik < zlen ks)%Z -> 0 < k_ (N := RNum) ks ik -> (c < 5)%nat -> at_ (vals ik) c = 0.
Proof. exact (A_one_node fuel st suave1 suave12 pkl dt ptt ks ps ss vals ik c). Qed.
Print Assumptions C101_one_node.

(** The bounds exist for every table which covers the range, and do not depend on the numbers of nodes. *)
Theorem C101_bounds K Pv k qmin qmax c : List.length Pv = List.length K -> (2 <= zlen K < 2 ^ 62)%Z -> increasing K -> 0 < qmin -> qmin <= qmax -> at_ K 0 <= qmin -> qmax <= at_ K (List.length K - 1) -> 0 < k -> (c < 5)%nat ->
  let P := lookup_of (mk_table (N := RNum) K Pv) POLY in
  exists lam M lam1 M1 MP, 0 <= lam /\ 0 <= M /\ 0 <= lam1 /\ smooth false (qmin / k) (qmax / k) (A_with P c k) lam M /\
    bounded_lipschitz (fun s => exp s / k * A_without P c k (exp s / k)) (ln qmin) (ln qmax) lam1 M1 /\ forall q, qmin <= q <= qmax -> Rabs (P q) <= MP.
Proof. exact (A_exist K Pv k qmin qmax c). Qed.
Print Assumptions C101_bounds.

(** The spectrum (1, 5), (2, 6) at k = 1, with any number of nodes from 2 on *)
Example C101_ex n : (2 <= n < 2 ^ 62)%Z -> two_points pk_ex /\ regular_run (st_n n) pk_ex D_A_1loop /\ q_range (N := RNum) (s_prec (st_n n) "A_1loop_q") pk_ex = Ok (1, 2) /\ pr_n (s_prec (st_n n) "A_1loop_q") = n /\
  k_ (N := RNum) ks_ex 0 = 1 /\ 1 < 1 + 2 * exp (- end_gap n 1 2) /\ exists ps ss vals, computes 7 (st_n n) suave1_ex suave12_ex D_A_1loop pk_ex pk_ex pk_ex ks_ex ps ss vals.
Proof. exact (A_runs_ex n). Qed.
Example C101_bounds_ex c : (c < 5)%nat -> let P := lookup_of pk_ex POLY in exists lam M lam1 M1 MP, 0 <= lam /\ 0 <= M /\ 0 <= lam1 /\ smooth false (1 / 1) (2 / 1) (A_with P c 1) lam M /\
  bounded_lipschitz (fun s => exp s / 1 * A_without P c 1 (exp s / 1)) (ln 1) (ln 2) lam1 M1 /\ forall q, 1 <= q <= 2 -> Rabs (P q) <= MP.
Proof. exact (A_bounds_ex c). Qed.
