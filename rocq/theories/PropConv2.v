(** PropConv2: property C100. *)
From Coq Require Import Reals Lra Lia List ZArith String.
From Coquelicot Require Import Coquelicot.
From Verif Require Import Base Num Common Kernels Integrals Registry Threads Spec SpecPT SpecQuad SpecLoops SpecIntegrals SpecThreads SpecScratch SpecDefined SpecColumns SpecConv ProofKernels ProofThreads8 ProofDefined12 ProofColumns4 ProofConv4 ProofConv5.
Import ListNotations.
Local Open Scope R_scope.

(** The coefficients of the powers of nu in the averages over the azimuth of the products of couplings and spectra are determined by these averages: there is one family of integrands of the B terms. *)
Theorem C100_determined Pd Pt K L k x mu : (forall nu, -1 <= nu <= 1 -> B_averaged Pd Pt K k x mu nu) -> (forall nu, -1 <= nu <= 1 -> B_averaged Pd Pt L k x mu nu) -> forall c, (c < 12)%nat -> K c = L c.
Proof. exact (averaged_unique Pd Pt K L k x mu). Qed.
Print Assumptions C100_determined.

(** It exists for every pair of tables which covers the range, with bounds on the region where it is integrated. *)
Theorem C100_integrands Kd Pvd Kt Pvt k qmin qmax : List.length Pvd = List.length Kd -> (2 <= zlen Kd < 2 ^ 62)%Z -> increasing Kd -> at_ Kd 0 <= qmin -> qmax <= at_ Kd (List.length Kd - 1) ->
  List.length Pvt = List.length Kt -> (2 <= zlen Kt < 2 ^ 62)%Z -> increasing Kt -> at_ Kt 0 <= qmin -> qmax <= at_ Kt (List.length Kt - 1) -> 0 < qmin -> qmin <= qmax -> 0 < k ->
  let Pd := lookup_of (mk_table (N := RNum) Kd Pvd) POLY in let Pt := lookup_of (mk_table (N := RNum) Kt Pvt) POLY in
  exists K lam M, 0 <= lam /\ 0 <= M /\ (forall c, (c < 12)%nat -> smooth true (qmin / k) (qmax / k) (K c) lam M) /\
    (forall x mu nu, 0 < x -> -1 <= mu <= 1 -> -1 <= nu <= 1 -> 0 < sep x mu -> B_averaged Pd Pt (fun c => K c x mu) k x mu nu).
Proof. exact (B_exist Kd Pvd Kt Pvt k qmin qmax). Qed.
Print Assumptions C100_integrands.

(** Each of the nine columns of the B terms is k^3 / (2 pi^2) times the integral of x times these integrands over the region, up to the error of the two rules. *)
Theorem C100_columns fuel st suave1 suave12 pkl dt ptt ks ps ss vals ik qmin qmax K lam M c : two_points pkl -> two_points dt -> two_points ptt -> regular_run st pkl D_B ->
  let n := pr_n (s_prec st "B_q") in let m := pr_n (s_prec st "B_mu") in let k := k_ (N := RNum) ks ik in
  q_range (N := RNum) (s_prec st "B_q") pkl = Ok (qmin, qmax) -> 0 < qmin < qmax ->
  computes (N := RNum) fuel st suave1 suave12 D_B pkl dt ptt ks ps ss vals -> (0 <= ik < zlen ks)%Z -> 0 < k -> 0 <= lam -> 0 <= M ->
  (forall x mu nu, 0 < x -> -1 <= mu <= 1 -> -1 <= nu <= 1 -> 0 < sep x mu -> B_averaged (lookup_of dt POLY) (lookup_of ptt POLY) (fun c => K c x mu) k x mu nu) ->
  (forall c, (c < 12)%nat -> smooth true (qmin / k) (qmax / k) (K c) lam M) -> (c < 9)%nat ->
  Rabs (at_ (vals ik) c - k ^ 3 / (2 * PI ^ 2) * B_nine (fun c => mode_integral true 1 k qmin qmax (K c)) c) <= k ^ 3 / (2 * PI ^ 2) * (2 * mode_bound n m 1 k qmin qmax lam M).
Proof. exact (B_columns_error fuel st suave1 suave12 pkl dt ptt ks ps ss vals ik qmin qmax K lam M c). Qed.
Print Assumptions C100_columns.

(** The spectrum (1, 5), (2, 6), (3, 4) for both spectra, between 1 and 2 and at any k, and a run with it *)
Example C100_ex k : 0 < k -> let P := lookup_of pk_three POLY in exists K lam M, 0 <= lam /\ 0 <= M /\ (forall c, (c < 12)%nat -> smooth true (1 / k) (2 / k) (K c) lam M) /\
  (forall x mu nu, 0 < x -> -1 <= mu <= 1 -> -1 <= nu <= 1 -> 0 < sep x mu -> B_averaged P P (fun c => K c x mu) k x mu nu).
Proof. exact (B_ex k 1 2 ltac:(lra) ltac:(lra) ltac:(lra)). Qed.
Example C100_runs_ex : two_points pk_three /\ regular_run st_ex pk_three D_B /\ q_range (N := RNum) (s_prec st_ex "B_q") pk_three = Ok (1, 2) /\ (forall k, In k ks_ex -> 0 < k) /\
  exists ps ss vals, computes 2 st_ex suave1_ex suave12_ex D_B pk_three pk_three pk_three ks_ex ps ss vals.
Proof. destruct (columns_ex D_B) as (A & B & _ & C & D). split; [exact A|]. split; [exact B|]. split; [apply three_range|]. split; assumption. Qed.
