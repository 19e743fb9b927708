(** PropTotal2: C107, the bias spectra returned by the object against the integrals of the sampled spectrum.
    The spectrum P 0 is sampled at the wavenumbers K with bounds M on its derivatives and spacing h (SpecSamples); each returned value differs from the exact integral by at most the stated sum of the errors of the quadrature, of the lookups and of the variance. *)
From Coq Require Import Reals Lra Lia List ZArith String.
From Coquelicot Require Import Coquelicot.
From Verif Require Import Base Num BaseFacts Common Kernels Integrals Registry Threads PyTerms Spec SpecPT SpecQuad SpecKernels SpecLoops SpecIntegrals SpecThreads SpecScratch SpecDefined SpecColumns SpecConv SpecPy SpecScale SpecSym SpecDamped SpecSamples SpecTotal SpecTotal2
  ProofKernels ProofThreads8 ProofDefined12 ProofColumns4 ProofSamples3 ProofSamples6 ProofSamples7 ProofSamples8 ProofTotal ProofTotal2.
Import ListNotations.
Local Open Scope R_scope.

(** The spectra returned by name: the exact integral times the fourth power of the growth rate *)
Theorem C107_named fuel st suave1 suave12 pkl dt ptt ks ps ss vals ik qmin qmax lam B C delta P M h K Pv D j name t a half :
  samples P 5 M h K Pv -> (3 <= zlen K < 2 ^ 62)%Z -> (forall m, (3 <= m <= 5)%nat -> poly_error M h m <= delta) -> 0 <= delta <= 1 ->
  pkl = mk_table (N := RNum) K Pv -> at_ K 0 <= qmin -> qmax <= at_ K (List.length K - 1) -> regular_run st pkl D_bias ->
  let n := pr_n (s_prec st "bias_1loop_q") in let m := pr_n (s_prec st "bias_1loop_mu") in let k := k_ (N := RNum) ks ik in
  q_range (N := RNum) (s_prec st "bias_1loop_q") pkl = Ok (qmin, qmax) -> 0 < qmin < qmax ->
  computes (N := RNum) fuel st suave1 suave12 D_bias pkl dt ptt ks ps ss vals -> ascending ks -> (0 <= ik < zlen ks)%Z -> 0 < k -> 0 <= lam -> 0 <= B -> 0 <= C -> 
  (j < 7)%nat -> nth_error bias_names j = Some name -> nth_error bias_columns j = Some (t, a, half) ->
  smooth half (qmin / k) (qmax / k) (bias_integrand t (P 0%nat) a k) lam B -> stable half k qmin qmax (fun F => bias_integrand t F a k) (P 0%nat) C ->
  exists out, accessor (N := RNum) CBias name (columns_of D_bias ks ps ss vals) D = Ok out /\ List.length out = List.length ks /\
    Rabs (at_ out (Z.to_nat ik) - D ^ 4 * bias_continuum (P 0%nat) t a half k qmin qmax) <= D ^ 4 * (k ^ 3 / (2 * PI ^ 2) * (mode_bound n m 3 k qmin qmax lam B + mode_change_bound n m 3 k qmin qmax (C * delta))).
Proof. exact (bias_named fuel st suave1 suave12 pkl dt ptt ks ps ss vals ik qmin qmax lam B C delta P M h K Pv D j name t a half). Qed.
Print Assumptions C107_named.
(** The damped spectra: the exact integral, damped by the exact variance of the displacements up to the cutoff *)
Theorem C107_damped fuel st suave1 suave12 pkl dt ptt ks ps ss vals ik qmin qmax lam B C delta P M h K Pv D j name t a half :
  samples P 5 M h K Pv -> (3 <= zlen K < 2 ^ 62)%Z -> (forall m, (3 <= m <= 5)%nat -> poly_error M h m <= delta) -> 0 <= delta <= 1 ->
  pkl = mk_table (N := RNum) K Pv -> at_ K 0 <= qmin -> qmax <= at_ K (List.length K - 1) -> regular_run st pkl D_bias ->
  let n := pr_n (s_prec st "bias_1loop_q") in let m := pr_n (s_prec st "bias_1loop_mu") in let k := k_ (N := RNum) ks ik in
  q_range (N := RNum) (s_prec st "bias_1loop_q") pkl = Ok (qmin, qmax) -> 0 < qmin < qmax ->
  computes (N := RNum) fuel st suave1 suave12 D_bias pkl dt ptt ks ps ss vals -> ascending ks -> (0 <= ik < zlen ks)%Z -> 0 < k -> 0 <= lam -> 0 <= B -> 0 <= C -> 
  let uv := s_cutoff st (cutoff_of D_bias) in 0 <= uv -> at_ K 0 <= k * uv -> at_ K 0 <= k <= at_ K (List.length K - 1) -> (forall q, at_ K 0 <= q <= at_ K (List.length K - 1) -> 0 <= P 0%nat q) ->
  (4 <= j < 7)%nat -> nth_error bias_names j = Some name -> nth_error bias_columns j = Some (t, a, half) ->
  smooth half (qmin / k) (qmax / k) (bias_integrand t (P 0%nat) a k) lam B -> stable half k qmin qmax (fun F => bias_integrand t F a k) (P 0%nat) C ->
  let c := Rmin (k * uv) (at_ K (List.length K - 1)) in let x := bias_continuum (P 0%nat) t a half k qmin qmax in
  exists out, pk_damped (N := RNum) name (columns_of D_bias ks ps ss vals) D None = Ok out /\ List.length out = List.length ks /\
    Rabs (at_ out (Z.to_nat ik) - damped D k (RInt (P 0%nat) (at_ K 0) c / (6 * PI ^ 2)) x) <=
    damped_err D k x ((c - at_ K 0) * (M 2%nat * h ^ 2 / 8) / (6 * PI ^ 2)) (k ^ 3 / (2 * PI ^ 2) * (mode_bound n m 3 k qmin qmax lam B + mode_change_bound n m 3 k qmin qmax (C * delta))).
Proof. exact (bias_damped fuel st suave1 suave12 pkl dt ptt ks ps ss vals ik qmin qmax lam B C delta P M h K Pv D j name t a half). Qed.
Print Assumptions C107_damped.
(** The third-order bias spectrum: the exact linear spectrum times the exact integral *)
Theorem C107_sigma3sq fuel st suave1 suave12 pkl dt ptt ks ps ss vals ik qmin qmax lam B C delta P M h K Pv D :
  samples P 5 M h K Pv -> (3 <= zlen K < 2 ^ 62)%Z -> (forall m, (3 <= m <= 5)%nat -> poly_error M h m <= delta) -> 0 <= delta <= 1 ->
  pkl = mk_table (N := RNum) K Pv -> at_ K 0 <= qmin -> qmax <= at_ K (List.length K - 1) -> regular_run st pkl D_bias ->
  let n := pr_n (s_prec st "bias_1loop_q") in let m := pr_n (s_prec st "bias_1loop_mu") in let k := k_ (N := RNum) ks ik in
  q_range (N := RNum) (s_prec st "bias_1loop_q") pkl = Ok (qmin, qmax) -> 0 < qmin < qmax ->
  computes (N := RNum) fuel st suave1 suave12 D_bias pkl dt ptt ks ps ss vals -> ascending ks -> (0 <= ik < zlen ks)%Z -> 0 < k -> 0 <= lam -> 0 <= B -> 0 <= C -> at_ K 0 <= k <= at_ K (List.length K - 1) ->
  smooth false (qmin / k) (qmax / k) (bias_integrand BiasSigma3 (P 0%nat) false k) lam B -> stable false k qmin qmax (fun F => bias_integrand BiasSigma3 F false k) (P 0%nat) C ->
  let x := bias_continuum (P 0%nat) BiasSigma3 false false k qmin qmax in
  exists out, pk_sigma3sq (N := RNum) (columns_of D_bias ks ps ss vals) D = Ok out /\ List.length out = List.length ks /\
    Rabs (at_ out (Z.to_nat ik) - D ^ 4 * (P 0%nat k * x)) <= product_err D (P 0%nat k) x delta (k ^ 3 / (2 * PI ^ 2) * (mode_bound n m 3 k qmin qmax lam B + mode_change_bound n m 3 k qmin qmax (C * delta))).
Proof. exact (bias_sigma3sq fuel st suave1 suave12 pkl dt ptt ks ps ss vals ik qmin qmax lam B C delta P M h K Pv D). Qed.
Print Assumptions C107_sigma3sq.
(** The spectrum (1, 5), (2, 6), (3, 4) samples a positive polynomial and is looked up without error; runs of the bias terms with it. *)
Example C107_ex ik : (0 <= ik < zlen ks_ex)%Z -> let k := k_ (N := RNum) ks_ex ik in
  pk_three = mk_table (N := RNum) [1; 2; 3] [5; 6; 4] /\ samples quad 5 quad_bound 1 [1; 2; 3] [5; 6; 4] /\ (forall m, (3 <= m <= 5)%nat -> poly_error quad_bound 1 m <= 0) /\
  (forall q, 1 <= q <= 3 -> 0 <= quad 0 q) /\ regular_run st_ex pk_three D_bias /\ q_range (N := RNum) (s_prec st_ex "bias_1loop_q") pk_three = Ok (1, 2) /\ ascending ks_ex /\ 0 < k /\ 1 <= k <= 3 /\ s_cutoff st_ex (cutoff_of D_bias) = 1 /\
  (forall half t a, exists lam B C, 0 <= lam /\ 0 <= B /\ 0 <= C /\ smooth half (1 / k) (2 / k) (bias_integrand t (quad 0) a k) lam B /\ stable half k 1 2 (fun F => bias_integrand t F a k) (quad 0) C) /\
  exists ps ss vals, computes 2 st_ex suave1_ex suave12_ex D_bias pk_three pk_three pk_three ks_ex ps ss vals.
Proof.
  intros Hik k. destruct three_samples as (A1 & A2 & A3). destruct (columns_ex D_bias) as (_ & B & _ & C & D). split; [exact A1|]. split; [exact A2|]. split; [exact A3|].
  split; [intros q Hq; unfold quad; assert (H : 0 <= (q - 1) * (3 - q)) by (apply Rmult_le_pos; lra); lra|]. split; [exact B|]. split; [apply three_range|].
  assert (Hk : k = 1 \/ k = 2 \/ k = 3) by (unfold k, k_; unfold zlen in Hik; cbn [ks_ex List.length] in Hik; assert (ik = 0 \/ ik = 1 \/ ik = 2)%Z as [-> | [-> | ->]] by lia; cbn; auto).
  split; [intros i j Hij; cbn in Hij; destruct i as [|[|[|i]]]; destruct j as [|[|[|j]]]; try lia; cbn; lra|]. split; [lra|]. split; [lra|]. split; [reflexivity|]. split; [|exact D].
  apply (constants (quad 0) (quad 1) 4 k 1 2); [lra|lra|lra|]. intros q Hq. split; [apply quad_derive|]. cbn [quad]. apply Rabs_le. lra.
Qed.
