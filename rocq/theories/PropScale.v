(** PropScale: the same terms with another normalisation (C47) or another unit of length (C65), and with the two fields exchanged (C35).
    Notions: SpecScale.v, SpecSym.v, and [computes] of SpecThreads.v: the arrays of a call of run_terms_* (C33 relates it to the calls). *)
From Coq Require Import ZArith Lia List Bool Reals Lra String.
From Verif Require Import Base Num BaseFacts Common Kernels Gamma2 Integrals Registry Threads PyTerms Spec SpecPT SpecScratch SpecTable SpecThreads SpecScale SpecSym ProofKernels ProofGL ProofGL2 ProofCommon2 ProofThreads7 ProofThreads8 ProofScale ProofScale6 ProofScale7 ProofSym.
Import ListNotations.
Local Open Scope R_scope.
Local Open Scope string_scope.

(** * C47: Terms.rescale(D) gives the terms a run finds for the linear spectrum multiplied by D^2 *)
Theorem C47_rescale fuel st suave1 suave12 (D : R) d cl pkl pkl' dt dt' ptt ptt' ks ps ss vals :
  D <> 0 -> class_of d cl -> d <> D_bias -> d <> D_A_2loop -> sizes st (q_tables_of d) ->
  rescaled_pk 1 (D * D) pkl pkl' -> (d = D_B -> rescaled_pk 1 (D * D) dt dt' /\ rescaled_pk 1 (D * D) ptt ptt') ->
  ((exists a b, d = D_2loop a b) -> suave_scales (D * D * (D * D) * (D * D)) suave1) ->
  computes fuel st suave1 suave12 d pkl dt ptt ks ps ss vals ->
  exists ps' ss' vals', computes fuel st suave1 suave12 d pkl' dt' ptt' ks ps' ss' vals' /\
    rescale cl (columns_of d ks ps ss vals) D = (columns_of d ks ps' ss' vals', Done).
Proof. exact (C47_run fuel st suave1 suave12 D d cl pkl pkl' dt dt' ptt ptt' ks ps ss vals). Qed.
Print Assumptions C47_rescale.
(** The bias terms: all the columns but one.  sigma3sq is of first order in the linear spectrum; rescale treats it as
    a term of second order. *)
Theorem C47_bias_but_sigma3sq fuel st suave1 suave12 (D : R) pkl pkl' dt ptt ks ps ss vals :
  D <> 0 -> sizes st (q_tables_of D_bias) -> rescaled_pk 1 (D * D) pkl pkl' ->
  computes fuel st suave1 suave12 D_bias pkl dt ptt ks ps ss vals ->
  exists ps' ss' vals' c' s3, computes fuel st suave1 suave12 D_bias pkl' dt ptt ks ps' ss' vals' /\
    rescale CBias (columns_of D_bias ks ps ss vals) D = (c', Done) /\
    (forall x, x <> "sigma3sq" -> getitem c' x = getitem (columns_of D_bias ks ps' ss' vals') x) /\
    getitem (columns_of D_bias ks ps ss vals) "sigma3sq" = Ok s3 /\
    getitem c' "sigma3sq" = Ok (times (D ^ 4) s3) /\ getitem (columns_of D_bias ks ps' ss' vals') "sigma3sq" = Ok (times (D ^ 2) s3).
Proof. exact (C47_bias fuel st suave1 suave12 D pkl pkl' dt ptt ks ps ss vals). Qed.
Print Assumptions C47_bias_but_sigma3sq.
(** The terms themselves: each is multiplied by the power of c its degree says. *)
Theorem C47_terms fuel st suave1 suave12 c d pkl pkl' dt dt' ptt ptt' ks ps ss vals : 0 < c -> rescaled_pk 1 c pkl pkl' ->
  sizes st (q_tables_of d) -> d <> D_A_2loop -> (d = D_B -> rescaled_pk 1 c dt dt' /\ rescaled_pk 1 c ptt ptt') ->
  ((exists a b, d = D_2loop a b) -> suave_scales (c * c * c) suave1) ->
  computes fuel st suave1 suave12 d pkl dt ptt ks ps ss vals ->
  computes fuel st suave1 suave12 d pkl' dt' ptt' ks (times c ps) (times c ss) (fun ik => raise c (degrees d) (vals ik)).
Proof. exact (fun Hc HP => run_c fuel st suave1 suave12 c pkl pkl' dt dt' ptt ptt' Hc HP d ks ps ss vals). Qed.
Print Assumptions C47_terms.
(** A run to which all this applies: a spectrum of two points, three wavenumbers, D = 2. *)
Definition pk_ex4 : Pk RNum := mk_table (N := RNum) [1; 2] [20; 24].
Example C47_ex d : sizes st_ex (q_tables_of d) /\ rescaled_pk 1 (2 * 2) pk_ex pk_ex4 /\ suave_scales (2 * 2 * (2 * 2) * (2 * 2)) suave1_ex /\
  exists ps ss vals, computes 2 st_ex suave1_ex suave12_ex d pk_ex pk_ex pk_ex ks_ex ps ss vals.
Proof.
  split; [intros x _; cbn; lia|]. split.
  { split; [reflexivity|]. split; cbn; repeat (apply f_equal2; [ring|]); reflexivity. }
  split; [intros f f' H; apply H|]. destruct (example d) as (ps & ss & vals & h & C & _). eauto.
Qed.

(** * C65: the same run with lengths in another unit: wavenumbers times s, power spectra divided by s^3 *)
Theorem C65_terms fuel st st' suave1 suave12 s pkl pkl' dt dt' ptt ptt' d ks ps ss vals :
  0 < s -> rescaled_pk s (/ (s * s * s)) pkl pkl' -> positive_k pkl ->
  rescaled_settings s (q_tables_of d) st st' -> sizes st (q_tables_of d) -> d <> D_A_2loop -> (forall a b, d <> D_2loop a b) ->
  (d = D_B -> rescaled_pk s (/ (s * s * s)) dt dt' /\ rescaled_pk s (/ (s * s * s)) ptt ptt') ->
  computes fuel st suave1 suave12 d pkl dt ptt ks ps ss vals ->
  computes fuel st' suave1 suave12 d pkl' dt' ptt' (times s ks) (times (/ (s * s * s)) ps) (times (/ (s * s)) ss) (fun ik => in_unit s (volumes d) (vals ik)).
Proof. exact (fun Hs HP HK => run_u fuel st st' suave1 suave12 s pkl pkl' dt dt' ptt ptt' Hs HP HK d ks ps ss vals). Qed.
Print Assumptions C65_terms.
(** The terms at 2 loops without the gamma3 term *)
Theorem C65_terms_2loop fuel st st' s pkl pkl' a b k v :
  0 < s -> rescaled_pk s (/ (s * s * s)) pkl pkl' -> positive_k pkl ->
  rescaled_settings s q_tables_2loop st st' -> sizes st q_tables_2loop -> 0 < k ->
  (1 <= pr_n (s_prec st "gamma2_tree_mu") < 2 ^ 62)%Z ->
  value_2loop fuel st pkl a b k = Ok v -> value_2loop fuel st' pkl' a b (s * k) = Ok (in_unit s [false; false; false; false; true; true; true] v).
Proof. exact (fun Hs HP HK => row_2loop fuel st st' s pkl pkl' Hs HP HK a b k v). Qed.
Print Assumptions C65_terms_2loop.
(** The kernel of the gamma3 term does not depend on the unit as long as its guard, an absolute length, cuts no sum of momenta. *)
Theorem C65_F3 a s p q r : s <> 0 -> p <> vzero -> q <> vzero -> r <> vzero -> sums_ok p q r -> sums_ok (vscal s p) (vscal s q) (vscal s r) ->
  F3_sym (N := RNum) a (vec_of (vscal s p)) (vec_of (vscal s q)) (vec_of (vscal s r)) = F3_sym (N := RNum) a (vec_of p) (vec_of q) (vec_of r).
Proof. exact (F3_sym_scale a s p q r). Qed.
Print Assumptions C65_F3.
(** Where it does, the unit matters: three equal momenta of length 1, and the same in a unit 10^14 times longer. *)
Theorem C65_F3_refuted s : 0 < s < 1 / 10 ^ 14 ->
  F3_sym (N := RNum) DELTA (vec_of (1, 0, 0)) (vec_of (1, 0, 0)) (vec_of (1, 0, 0)) = 9 / 2 /\
  F3_sym (N := RNum) DELTA (vec_of (vscal s (1, 0, 0))) (vec_of (vscal s (1, 0, 0))) (vec_of (vscal s (1, 0, 0))) = 0.
Proof. exact (fun Hs => conj F3_ex (F3_ex_small s Hs)). Qed.
Print Assumptions C65_F3_refuted.
(** The 1-loop bispectrum, hence the 2-loop A term, depends on the unit: its propagators are corrected from k = 1/100
    on, whatever the unit. *)
Theorem C65_bispectrum_refuted s g g' k p kp s1 s2 s3 d u : 0 < s -> q_ok g -> rescaled_table s (/ (s * s * s)) g g' -> s * k < 1 / 100 <= k ->
  gamma1_1loop (N := RNum) g DELTA k = Ok (d, u) -> k * k * s1 / 2 + d <> 0 ->
  exists t pd pt kd kt x, gamma1_reg_1loop (N := RNum) g k p kp s1 s2 s3 = Ok (1 + k * k * s1 / 2 + d, t, pd, pt, kd, kt, x) /\
    gamma1_reg_1loop (N := RNum) g' (s * k) (s * p) (s * kp) (s1 / (s * s)) (s2 / (s * s)) (s3 / (s * s)) = Ok (1, 1, 1, 1, 1, 1, g') /\
    1 + k * k * s1 / 2 + d <> 1.
Proof. exact (thresholds s g g' k p kp s1 s2 s3 d u). Qed.
Print Assumptions C65_bispectrum_refuted.
(** A run in another unit, s = 10 *)
Definition pk_ex10 : Pk RNum := mk_table (N := RNum) [10; 20] [5 / 1000; 6 / 1000].
Definition st_ex10 : settings RNum := mkSet (fun _ => mkPrec (N := RNum) 1 10 20 POLY) (fun _ => POLY) (fun _ => 1).
Example C65_ex d : rescaled_pk 10 (/ (10 * 10 * 10)) pk_ex pk_ex10 /\ positive_k pk_ex /\ rescaled_settings 10 (q_tables_of d) st_ex st_ex10 /\ sizes st_ex (q_tables_of d) /\
  (exists ps ss vals, computes 2 st_ex suave1_ex suave12_ex d pk_ex pk_ex pk_ex ks_ex ps ss vals) /\
  exists v, value_2loop 2 st_ex pk_ex DELTA THETA 1 = Ok v.
Proof.
  split; [split; [reflexivity|split; cbn; repeat (apply f_equal2; [field|]); reflexivity]|]. split; [repeat constructor; lra|].
  split; [repeat split; cbn; intros; ring|]. split; [intros x _; cbn; lia|]. split; [destruct (example d) as (ps & ss & vals & h & C & _); eauto|].
  destruct (example (D_2loop DELTA THETA)) as (ps & ss & vals & h & (_ & _ & C) & _). specialize (C 0%Z ltac:(cbn; lia)). cbn [SpecThreads.value_of] in C.
  change (k_ (N := RNum) ks_ex 0) with 1 in C. destruct (value_2loop 2 st_ex pk_ex DELTA THETA 1) as [v|] eqn:E; [exists v; reflexivity|discriminate C].
Qed.
Example C65_bispectrum_ex : let g := mkGlq (N := RNum) 1 0 [] [] [] [] in q_ok g /\ rescaled_table (1 / 10) (/ (1 / 10 * (1 / 10) * (1 / 10))) g g /\
  gamma1_1loop (N := RNum) g DELTA (1 / 50) = Ok (0, mkGlq (N := RNum) (1 / 50) 0 [] [] [] []) /\ 1 / 10 * (1 / 50) < 1 / 100 <= 1 / 50 /\ 1 / 50 * (1 / 50) * 100 / 2 + 0 <> 0.
Proof.
  cbn zeta. split; [repeat split; cbn; lia|]. split; [repeat split|]. split; [|lra].
  unfold gamma1_1loop, update_gauss_legendre_q. cbn. apply (f_equal (fun z : R => Ok (z, mkGlq (N := RNum) (1 / 50) 0 [] [] [] []))). field. apply PI_neq0.
Qed.

(** * C35: P_ab = P_ba, and what is saved when a = b *)
(** A run with the two fields exchanged fills the same arrays, those of the two propagators exchanged. *)
Theorem C35_exchange fuel st suave1 suave12 d pkl dt ptt ks ps ss vals : sizes st (q_tables_of d) -> (exists a b, d = D_1loop a b \/ d = D_2loop a b) ->
  computes fuel st suave1 suave12 d pkl dt ptt ks ps ss vals -> computes fuel st suave1 suave12 (exchange d) pkl dt ptt ks ps ss (fun ik => exchanged d (vals ik)).
Proof. exact (swap_run fuel st pkl suave1 suave12 d dt ptt ks ps ss vals). Qed.
Print Assumptions C35_exchange.
(** Hence the same spectrum. *)
Theorem C35_spectrum fuel st suave1 suave12 d pkl dt ptt ks ps ss vals : sizes st (q_tables_of d) -> (exists a b, d = D_1loop a b \/ d = D_2loop a b) ->
  computes fuel st suave1 suave12 d pkl dt ptt ks ps ss vals ->
  exists vals', computes fuel st suave1 suave12 (exchange d) pkl dt ptt ks ps ss vals' /\
    forall D sg, assembled (exchange d) (columns_of (exchange d) ks ps ss vals') D sg = assembled d (columns_of d ks ps ss vals) D sg.
Proof. exact (symmetric_run fuel st suave1 suave12 d pkl dt ptt ks ps ss vals). Qed.
Print Assumptions C35_spectrum.
(** The values are those obtained by computing every propagator and every kernel of both fields, equal or not; in
    floating point arithmetic too.  (The copy of gamma1a_1loop in run_terms_spectrum_1loop: C33_run_terms.) *)
Theorem C35_shortcut_1loop {N} fuel (st : settings N) pkl a b k : value_1loop fuel st pkl a b k = both_1loop fuel st pkl a b k.
Proof. exact (both_1loop_eq fuel st pkl a b k). Qed.
Print Assumptions C35_shortcut_1loop.
Theorem C35_shortcut_2loop {N} fuel (st : settings N) pkl a b k : (forall x, In x ["gamma1_1loop_q"; "gamma1_2loop_q"] -> (0 <= pr_n (s_prec st x) < 2 ^ 62)%Z) ->
  value_2loop fuel st pkl a b k = both_2loop fuel st pkl a b k.
Proof. exact (both_2loop_eq fuel st pkl a b k). Qed.
Print Assumptions C35_shortcut_2loop.
Example C35_ex : sizes st_ex (q_tables_of (D_2loop DELTA THETA)) /\ (exists ps ss vals, computes 2 st_ex suave1_ex suave12_ex (D_2loop DELTA THETA) pk_ex pk_ex pk_ex ks_ex ps ss vals) /\
  exists v, both_2loop 2 st_ex pk_ex DELTA DELTA 1 = Ok v.
Proof.
  split; [intros x _; cbn; lia|]. split; [destruct (example (D_2loop DELTA THETA)) as (ps & ss & vals & h & C & _); eauto|].
  destruct (example (D_2loop DELTA DELTA)) as (ps & ss & vals & h & (_ & _ & C) & _). specialize (C 0%Z ltac:(cbn; lia)). cbn [SpecThreads.value_of] in C. change (k_ (N := RNum) ks_ex 0) with 1 in C.
  rewrite <- both_2loop_eq by (intros x _; cbn; lia). destruct (value_2loop 2 st_ex pk_ex DELTA DELTA 1) as [v|] eqn:E; [exists v; reflexivity|discriminate C].
Qed.
