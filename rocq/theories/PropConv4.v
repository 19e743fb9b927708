(** PropConv4: property C103. *)
From Coq Require Import Reals Lra Lia List ZArith String.
From Coquelicot Require Import Coquelicot.
From Verif Require Import Base Num Common Kernels Integrals Registry Threads Spec SpecPT SpecQuad SpecLoops SpecIntegrals SpecThreads SpecScratch SpecDefined SpecColumns SpecConv SpecConv2 SpecSamples SpecConv3
  ProofKernels ProofThreads8 ProofDefined12 ProofColumns4 ProofNewton8 ProofConv6 ProofConv7 ProofSamples8.
Import ListNotations.
Local Open Scope R_scope.

(** The columns of the 1-loop A terms differ from the integral of perturbation theory over a spectrum F itself by the error of the rules, that of the closed forms and that of the table, which is within delta of F. *)
Theorem C103_A fuel st suave1 suave12 pkl dt ptt ks ps ss vals ik qmin qmax lam M lam1 M1 MP c F C C1 delta : two_points pkl -> regular_run st pkl D_A_1loop ->
  let n := pr_n (s_prec st "A_1loop_q") in let m := pr_n (s_prec st "A_1loop_mu") in let k := k_ (N := RNum) ks ik in
  q_range (N := RNum) (s_prec st "A_1loop_q") pkl = Ok (qmin, qmax) -> 0 < qmin < qmax ->
  computes (N := RNum) fuel st suave1 suave12 D_A_1loop pkl dt ptt ks ps ss vals -> (0 <= ik < zlen ks)%Z -> 0 < k -> (2 <= n)%Z -> k < qmin + qmax * exp (- end_gap n qmin qmax) ->
  0 <= lam -> 0 <= M -> 0 <= lam1 -> (c < 5)%nat ->
  smooth false (qmin / k) (qmax / k) (A_with F c k) lam M -> stable false k qmin qmax (fun Q => A_with Q c k) F C ->
  bounded_lipschitz (fun s => exp s / k * A_without F c k (exp s / k)) (ln qmin) (ln qmax) lam1 M1 -> stable_without c k qmin qmax F C1 -> (forall q, qmin <= q <= qmax -> Rabs (F q) <= MP) ->
  0 <= C -> 0 <= C1 -> 0 <= delta <= 1 -> close_on qmin qmax (lookup_of pkl POLY) F delta -> qmin <= k <= qmax ->
  Rabs (at_ (vals ik) c - A_continuum F c k qmin qmax) <= A_bound n m k qmin qmax lam M lam1 M1 (MP + 1) (MP + 1) + A_change n m k qmin qmax C C1 delta.
Proof. exact (A_near_error fuel st suave1 suave12 pkl dt ptt ks ps ss vals ik qmin qmax lam M lam1 M1 MP c F C C1 delta). Qed.
Print Assumptions C103_A.

(** The constants depend on F, the range and k only: they exist for every differentiable F. *)
Theorem C103_A_constants (F F' : R -> R) D k qmin qmax c : 0 < qmin -> qmin <= qmax -> qmin <= k <= qmax -> (forall q, qmin <= q <= qmax -> is_derive F q (F' q) /\ Rabs (F' q) <= D) -> (c < 5)%nat ->
  exists lam M lam1 M1 MP C C1, 0 <= lam /\ 0 <= M /\ 0 <= lam1 /\ 0 <= C /\ 0 <= C1 /\ smooth false (qmin / k) (qmax / k) (A_with F c k) lam M /\ stable false k qmin qmax (fun Q => A_with Q c k) F C /\
    bounded_lipschitz (fun s => exp s / k * A_without F c k (exp s / k)) (ln qmin) (ln qmax) lam1 M1 /\ stable_without c k qmin qmax F C1 /\ forall q, qmin <= q <= qmax -> Rabs (F q) <= MP.
Proof. exact (A_constants F F' D k qmin qmax c). Qed.
Print Assumptions C103_A_constants.

(** The same for the nine columns of the B terms, whose two tables are within delta of the spectra Pd and Pt, with the components K of these. *)
Theorem C103_B fuel st suave1 suave12 pkl dt ptt ks ps ss vals ik qmin qmax K lam M c Pd Pt C delta : two_points pkl -> two_points dt -> two_points ptt -> regular_run st pkl D_B ->
  let n := pr_n (s_prec st "B_q") in let m := pr_n (s_prec st "B_mu") in let k := k_ (N := RNum) ks ik in
  q_range (N := RNum) (s_prec st "B_q") pkl = Ok (qmin, qmax) -> 0 < qmin < qmax ->
  computes (N := RNum) fuel st suave1 suave12 D_B pkl dt ptt ks ps ss vals -> (0 <= ik < zlen ks)%Z -> 0 < k -> 0 <= lam -> 0 <= M ->
  0 <= C -> 0 <= delta <= 1 -> close_on qmin qmax (lookup_of dt POLY) Pd delta -> close_on qmin qmax (lookup_of ptt POLY) Pt delta -> stable_B k qmin qmax Pd Pt K C ->
  (forall c, (c < 12)%nat -> smooth true (qmin / k) (qmax / k) (K c) lam M) -> (c < 9)%nat ->
  Rabs (at_ (vals ik) c - k ^ 3 / (2 * PI ^ 2) * B_nine (fun c => mode_integral true 1 k qmin qmax (K c)) c) <=
    k ^ 3 / (2 * PI ^ 2) * (2 * (mode_bound n m 1 k qmin qmax lam M + mode_change_bound n m 1 k qmin qmax (C * delta))).
Proof. exact (B_near_error fuel st suave1 suave12 pkl dt ptt ks ps ss vals ik qmin qmax K lam M c Pd Pt C delta). Qed.
Print Assumptions C103_B.

(** The components and their constants exist for every pair of differentiable spectra; they are the azimuthal averages of perturbation theory over these. *)
Theorem C103_B_constants (Pd Pd' Pt Pt' : R -> R) D k qmin qmax : 0 < qmin -> qmin <= qmax -> 0 < k ->
  (forall q, qmin <= q <= qmax -> is_derive Pd q (Pd' q) /\ Rabs (Pd' q) <= D) -> (forall q, qmin <= q <= qmax -> is_derive Pt q (Pt' q) /\ Rabs (Pt' q) <= D) ->
  exists K lam M C, 0 <= lam /\ 0 <= M /\ 0 <= C /\ (forall c, (c < 12)%nat -> smooth true (qmin / k) (qmax / k) (K c) lam M) /\ stable_B k qmin qmax Pd Pt K C /\
    (forall x mu nu, 0 < x -> -1 <= mu <= 1 -> -1 <= nu <= 1 -> 0 < sep x mu -> B_averaged Pd Pt (fun c => K c x mu) k x mu nu).
Proof. exact (B_constants Pd Pd' Pt Pt' D k qmin qmax). Qed.
Print Assumptions C103_B_constants.

(** A table of samples is close to what it samples. *)
Theorem C103_close P M h K Pv d qmin qmax : samples P 5 M h K Pv -> (3 <= zlen K < 2 ^ 62)%Z -> (forall m, (3 <= m <= 5)%nat -> poly_error M h m <= d) -> at_ K 0 <= qmin -> qmax <= at_ K (List.length K - 1) ->
  close_on qmin qmax (lookup_of (mk_table (N := RNum) K Pv) POLY) (P 0%nat) d.
Proof. exact (sampled_close P M h K Pv d qmin qmax). Qed.
Print Assumptions C103_close.

(** The table (1, 5), (2, 6) is within 1/8 of 3 + 5 q / 2 - q^2 / 2 and is not that function; it runs with any number of nodes from 2 on (C101_ex). *)
Example C103_ex n : (2 <= n < 2 ^ 62)%Z -> close_on 1 2 (lookup_of pk_ex POLY) (bump 0) (1 / 8) /\ (forall q, 1 <= q <= 2 -> is_derive (bump 0) q (bump 1 q) /\ Rabs (bump 1 q) <= 2) /\
  two_points pk_ex /\ regular_run (st_n n) pk_ex D_A_1loop /\ q_range (N := RNum) (s_prec (st_n n) "A_1loop_q") pk_ex = Ok (1, 2) /\ k_ (N := RNum) ks_ex 0 = 1 /\ 1 < 1 + 2 * exp (- end_gap n 1 2) /\
  exists ps ss vals, computes 7 (st_n n) suave1_ex suave12_ex D_A_1loop pk_ex pk_ex pk_ex ks_ex ps ss vals.
Proof. intros Hn. destruct bump_close as (A & B). destruct (A_runs_ex n Hn) as (C1 & C2 & C3 & _ & C4 & C5 & C6). repeat (split; [assumption|]). exact C6. Qed.
Example C103_B_ex : two_points pk_three /\ regular_run st_ex pk_three D_B /\ (forall q, 1 <= q <= 2 -> is_derive (quad 0) q (quad 1 q) /\ Rabs (quad 1 q) <= 4) /\
  pk_three = mk_table (N := RNum) [1; 2; 3] [5; 6; 4] /\ samples quad 5 quad_bound 1 [1; 2; 3] [5; 6; 4] /\ (forall m, (3 <= m <= 5)%nat -> poly_error quad_bound 1 m <= 0) /\
  exists ps ss vals, computes 2 st_ex suave1_ex suave12_ex D_B pk_three pk_three pk_three ks_ex ps ss vals.
Proof.
  destruct (columns_ex D_B) as (A & B & _ & _ & C). destruct three_samples as (S1 & S2 & S3). repeat (split; [assumption|]). split; [|repeat (split; [assumption|]); exact C].
  intros q Hq. split; [apply quad_derive|]. cbn [quad]. apply Rabs_le. lra.
Qed.
