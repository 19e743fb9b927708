(** PropRsd: property C104. *)
From Coq Require Import Reals Lra Lia List ZArith String.
From Coquelicot Require Import Coquelicot.
From Verif Require Import Base Num Common Kernels Integrals Registry Threads PyTerms Spec SpecPT SpecQuad SpecLoops SpecIntegrals SpecThreads SpecScratch SpecDefined SpecColumns SpecConv SpecConv2 SpecSamples SpecConv3 SpecPy SpecScale SpecRsd
  ProofKernels ProofThreads8 ProofDefined12 ProofColumns4 ProofNewton8 ProofConv6 ProofConv7 ProofSamples8 PropConv4 ProofRsd ProofRsd2.
Import ListNotations.
Local Open Scope R_scope.

(** A1Loop.pk_interp at a tabulated k returns D^4 times the correction A(k, nu) of Taruya, Nishimichi & Saito for the spectrum F, for every growth rate f and every nu, up to the errors of the rules (A_bound) and of the table (A_change), weighted as the components are. *)
Theorem C104_A fuel st suave1 suave12 pkl dt ptt ks ps ss vals ik qmin qmax f nu D left right : increasing ks -> (0 <= ik < zlen ks)%Z -> -1 <= nu <= 1 -> 0 < qmin < qmax -> let k := k_ (N := RNum) ks ik in
  forall lam M lam1 M1 MP F C C1 delta, two_points pkl -> regular_run st pkl D_A_1loop ->
  let n := pr_n (s_prec st "A_1loop_q") in let m := pr_n (s_prec st "A_1loop_mu") in
  q_range (N := RNum) (s_prec st "A_1loop_q") pkl = Ok (qmin, qmax) -> computes (N := RNum) fuel st suave1 suave12 D_A_1loop pkl dt ptt ks ps ss vals -> (2 <= n)%Z -> qmin <= k <= qmax -> k < qmin + qmax * exp (- end_gap n qmin qmax) ->
  0 <= lam -> 0 <= M -> 0 <= lam1 -> 0 <= C -> 0 <= C1 -> (forall c, (c < 5)%nat -> smooth false (qmin / k) (qmax / k) (A_with F c k) lam M /\ stable false k qmin qmax (fun Q => A_with Q c k) F C /\
    bounded_lipschitz (fun s => exp s / k * A_without F c k (exp s / k)) (ln qmin) (ln qmax) lam1 M1 /\ stable_without c k qmin qmax F C1) -> (forall q, qmin <= q <= qmax -> Rabs (F q) <= MP) ->
  0 <= delta <= 1 -> close_on qmin qmax (lookup_of pkl POLY) F delta ->
  exists v, pk_interp_A (N := RNum) (columns_of D_A_1loop ks ps ss vals) k (nu ^ 2) f D left right = Ok v /\
    Rabs (v - D ^ 4 * A_redshift F f nu k qmin qmax) <= D ^ 4 * combine_components A_powers (nu ^ 2) (Rabs f) (fun _ => A_bound n m k qmin qmax lam M lam1 M1 (MP + 1) (MP + 1) + A_change n m k qmin qmax C C1 delta).
Proof. exact (A_returned fuel st suave1 suave12 pkl dt ptt ks ps ss vals ik qmin qmax f nu D left right). Qed.
Print Assumptions C104_A.

(** The constants depend on F, the range and k only: they exist for every differentiable F. *)
Theorem C104_A_constants (F F' : R -> R) Dv k qmin qmax : 0 < qmin -> qmin <= qmax -> qmin <= k <= qmax -> (forall q, qmin <= q <= qmax -> is_derive F q (F' q) /\ Rabs (F' q) <= Dv) ->
  exists lam M lam1 M1 MP C C1, 0 <= lam /\ 0 <= M /\ 0 <= lam1 /\ 0 <= C /\ 0 <= C1 /\ (forall c, (c < 5)%nat -> smooth false (qmin / k) (qmax / k) (A_with F c k) lam M /\ stable false k qmin qmax (fun Q => A_with Q c k) F C /\
    bounded_lipschitz (fun s => exp s / k * A_without F c k (exp s / k)) (ln qmin) (ln qmax) lam1 M1 /\ stable_without c k qmin qmax F C1) /\ forall q, qmin <= q <= qmax -> Rabs (F q) <= MP.
Proof. exact (A_constants_all F F' Dv k qmin qmax). Qed.
Print Assumptions C104_A_constants.

(** B1Loop.pk_interp at a tabulated k returns D^4 times the correction B(k, nu) for the density-velocity spectrum Pd and the velocity spectrum Pt, likewise. *)
Theorem C104_B fuel st suave1 suave12 pkl dt ptt ks ps ss vals ik qmin qmax f nu D left right : increasing ks -> (0 <= ik < zlen ks)%Z -> -1 <= nu <= 1 -> 0 < qmin < qmax -> let k := k_ (N := RNum) ks ik in
  forall K lam M Pd Pt C delta, two_points pkl -> two_points dt -> two_points ptt -> regular_run st pkl D_B ->
  let n := pr_n (s_prec st "B_q") in let m := pr_n (s_prec st "B_mu") in
  q_range (N := RNum) (s_prec st "B_q") pkl = Ok (qmin, qmax) -> computes (N := RNum) fuel st suave1 suave12 D_B pkl dt ptt ks ps ss vals -> 0 < k -> 0 <= lam -> 0 <= M ->
  0 <= C -> 0 <= delta <= 1 -> close_on qmin qmax (lookup_of dt POLY) Pd delta -> close_on qmin qmax (lookup_of ptt POLY) Pt delta -> stable_B k qmin qmax Pd Pt K C ->
  (forall c, (c < 12)%nat -> smooth true (qmin / k) (qmax / k) (K c) lam M) -> (forall x mu, 0 < x -> -1 <= mu <= 1 -> 0 < sep x mu -> B_averaged Pd Pt (fun c => K c x mu) k x mu nu) ->
  exists v, pk_interp_B (N := RNum) (columns_of D_B ks ps ss vals) k (nu ^ 2) f D left right = Ok v /\
    Rabs (v - D ^ 4 * B_redshift Pd Pt f nu k qmin qmax) <=
      D ^ 4 * combine_components B_powers (nu ^ 2) (Rabs f) (fun _ => k ^ 3 / (2 * PI ^ 2) * (2 * (mode_bound n m 1 k qmin qmax lam M + mode_change_bound n m 1 k qmin qmax (C * delta)))).
Proof.
  intros Inc Hik Hnu Hq k K lam M Pd Pt C delta. exact (B_returned fuel st suave1 suave12 pkl dt ptt ks ps ss vals ik qmin qmax f nu D left right Inc Hik Hq K lam M Pd Pt C delta).
Qed.
Print Assumptions C104_B.

(** The components K of the B terms and their constants: C103_B_constants. Those of the spectra Pd and Pt satisfy the hypotheses above for every nu. *)
Theorem C104_B_constants (Pd Pd' Pt Pt' : R -> R) Dv k qmin qmax : 0 < qmin -> qmin <= qmax -> 0 < k ->
  (forall q, qmin <= q <= qmax -> is_derive Pd q (Pd' q) /\ Rabs (Pd' q) <= Dv) -> (forall q, qmin <= q <= qmax -> is_derive Pt q (Pt' q) /\ Rabs (Pt' q) <= Dv) ->
  exists K lam M C, 0 <= lam /\ 0 <= M /\ 0 <= C /\ (forall c, (c < 12)%nat -> smooth true (qmin / k) (qmax / k) (K c) lam M) /\ stable_B k qmin qmax Pd Pt K C /\
    (forall x mu nu, 0 < x -> -1 <= mu <= 1 -> -1 <= nu <= 1 -> 0 < sep x mu -> B_averaged Pd Pt (fun c => K c x mu) k x mu nu).
Proof. exact (B_constants Pd Pd' Pt Pt' Dv k qmin qmax). Qed.
Print Assumptions C104_B_constants.

(** The columns of C101 to C103 are the right ones: the correction of the formula with the line of sight is the combination of the five integrals with powers of f and nu. *)
Theorem C104_components f nu k qmin qmax P lam M lam1 M1 : 0 < k -> 0 < qmin < qmax -> -1 <= nu <= 1 -> 0 <= lam -> 0 <= M -> 0 <= lam1 -> (forall c, (c < 5)%nat -> smooth false (qmin / k) (qmax / k) (A_with P c k) lam M) ->
  (forall c, (c < 5)%nat -> bounded_lipschitz (fun s => exp s / k * A_without P c k (exp s / k)) (ln qmin) (ln qmax) lam1 M1) ->
  A_redshift P f nu k qmin qmax = combine_components A_powers (nu ^ 2) f (fun c => A_continuum P c k qmin qmax).
Proof. intros Hk Hq Hn. exact (A_combination f nu k qmin qmax Hk Hq Hn P lam M lam1 M1). Qed.
Print Assumptions C104_components.

(** The run of C103_ex with n >= 2 nodes, a growth rate of 1/2 and a line of sight at cosine 1/3: a value is returned, with the error stated. *)
Example C104_ex n : (2 <= n < 2 ^ 62)%Z -> exists ps ss vals lam M lam1 M1 MP C C1 v,
  pk_interp_A (N := RNum) (columns_of D_A_1loop ks_ex ps ss vals) 1 ((1 / 3) ^ 2) (1 / 2) 1 0 0 = Ok v /\ Rabs (v - 1 ^ 4 * A_redshift (bump 0) (1 / 2) (1 / 3) 1 1 2) <=
    1 ^ 4 * combine_components A_powers ((1 / 3) ^ 2) (Rabs (1 / 2)) (fun _ => A_bound n (pr_n (s_prec (st_n n) "A_1loop_mu")) 1 1 2 lam M lam1 M1 (MP + 1) (MP + 1) + A_change n (pr_n (s_prec (st_n n) "A_1loop_mu")) 1 1 2 C C1 (1 / 8)).
Proof.
  intros Hn. destruct bump_close as (A & B). destruct (A_runs_ex n Hn) as (R1 & R2 & R3 & R4 & R5 & R6 & ps & ss & vals & R7).
  destruct (C104_A_constants (bump 0) (bump 1) 2 1 1 2 ltac:(lra) ltac:(lra) ltac:(lra) B) as (lam & M & lam1 & M1 & MP & C & C1 & H1 & H2 & H3 & H4 & H5 & H6 & H7).
  assert (I : increasing ks_ex) by (intros i j Hij; cbn in Hij; destruct i as [|[|[|i]]], j as [|[|[|j]]]; try lia; unfold ks_ex, at_; cbn; lra).
  assert (Z0 : (0 <= 0 < zlen ks_ex)%Z) by (cbn; lia).
  pose proof (C104_A 7 (st_n n) suave1_ex suave12_ex pk_ex pk_ex pk_ex ks_ex ps ss vals 0 1 2 (1 / 2) (1 / 3) 1 0 0 I Z0 ltac:(lra) ltac:(lra)) as Q. cbv zeta in Q. rewrite R4, R5 in Q.
  destruct (Q lam M lam1 M1 MP (bump 0) C C1 (1 / 8) R1 R2 R3 R7 ltac:(lia) ltac:(lra) R6 H1 H2 H3 H4 H5 H6 H7 ltac:(lra) A) as (v & V1 & V2).
  exists ps, ss, vals, lam, M, lam1, M1, MP, C, C1, v. split; [exact V1|exact V2].
Qed.
(** The B terms of the table (1, 5), (2, 6), (3, 4), which is that of 1 + 11 q / 2 - 3 q^2 / 2, with the same line of sight *)
Example C104_B_ex : exists ps ss vals K lam M C v, 0 <= lam /\ 0 <= M /\ 0 <= C /\
  pk_interp_B (N := RNum) (columns_of D_B ks_ex ps ss vals) 1 ((1 / 3) ^ 2) (1 / 2) 1 0 0 = Ok v /\ stable_B 1 1 2 (quad 0) (quad 0) K C /\ (forall c, (c < 12)%nat -> smooth true (1 / 1) (2 / 1) (K c) lam M) /\
  Rabs (v - 1 ^ 4 * B_redshift (quad 0) (quad 0) (1 / 2) (1 / 3) 1 1 2) <= 1 ^ 4 * combine_components B_powers ((1 / 3) ^ 2) (Rabs (1 / 2)) (fun _ =>
    1 ^ 3 / (2 * PI ^ 2) * (2 * (mode_bound (pr_n (s_prec st_ex "B_q")) (pr_n (s_prec st_ex "B_mu")) 1 1 1 2 lam M + mode_change_bound (pr_n (s_prec st_ex "B_q")) (pr_n (s_prec st_ex "B_mu")) 1 1 1 2 (C * 0)))).
Proof.
  destruct (columns_ex D_B) as (A & B & _ & _ & ps & ss & vals & R7). destruct three_samples as (S1 & S2 & S3).
  assert (Q : forall q, 1 <= q <= 2 -> is_derive (quad 0) q (quad 1 q) /\ Rabs (quad 1 q) <= 4) by (intros q Hq; split; [apply quad_derive|cbn [quad]; apply Rabs_le; lra]).
  assert (Cl : close_on 1 2 (lookup_of pk_three POLY) (quad 0) 0).
  { rewrite S1. apply (C103_close quad quad_bound 1 [1; 2; 3] [5; 6; 4] 0 1 2 S2); [cbn; lia|exact S3|cbn; lra|cbn; lra]. }
  destruct (C104_B_constants (quad 0) (quad 1) (quad 0) (quad 1) 4 1 1 2 ltac:(lra) ltac:(lra) ltac:(lra) Q Q) as (K & lam & M & C & H1 & H2 & H3 & H4 & H5 & H6).
  assert (I : increasing ks_ex) by (intros i j Hij; cbn in Hij; destruct i as [|[|[|i]]], j as [|[|[|j]]]; try lia; unfold ks_ex, at_; cbn; lra).
  assert (Z0 : (0 <= 0 < zlen ks_ex)%Z) by (cbn; lia).
  destruct (C104_B 2 st_ex suave1_ex suave12_ex pk_three pk_three pk_three ks_ex ps ss vals 0 1 2 (1 / 2) (1 / 3) 1 0 0 I Z0 ltac:(lra) ltac:(lra) K lam M (quad 0) (quad 0) C 0 A A A B (three_range "B_q") R7) as (v & V1 & V2);
    try assumption; try lra; [cbn; lra|intros x mu X1 X2 X3; apply H6; try assumption; lra|].
  exists ps, ss, vals, K, lam, M, C, v. repeat (split; [assumption|]). exact V2.
Qed.
