(** PropNoWiggle: C110, the spectrum without wiggles.  [transfer c a] is o.transfer(keywords) and [run_terms_kw c pk A n_s a] is o.run_terms(pk, A, n_s, keywords) of a SpectrumNoWiggle with the columns [c];
    [a] holds the keywords h, omega_b, omega_m, T_cmb, Omega_m, Omega_b, [None] for those not given.  Formula of Eisenstein & Hu and notions: SpecNoWiggle.v. *)
From Coq Require Import Reals ZArith List String Lia Lra.
From Verif Require Import Base Num Common Registry PyTerms PyNoWiggle Spec SpecPy SpecNoWiggle ProofNoWiggle.
Import ListNotations.
Local Open Scope R_scope.

Notation hub a := (or_default (kw_h (N := RNum) a) 0.676).
Notation matter a := (density (kw_Omega_m (N := RNum) a) (kw_omega_m a) 0.21 (hub a)).
Notation baryons a := (density (kw_Omega_b (N := RNum) a) (kw_omega_b a) 0.022 (hub a)).
Notation temperature a := (or_default (kw_T_cmb (N := RNum) a) 2.7255).

(** The published formula, however the densities are given, *)
Theorem C110_formula (c : columns RNum) kk (a : cosmology (N := RNum)) : getitem c "k" = Ok kk -> 0 < hub a -> 0 < matter a -> 0 < baryons a ->
  transfer (N := RNum) c a = Ok (map (eh_transfer numpy_e (matter a) (baryons a) (hub a) (temperature a)) kk).
Proof. exact (transfer_val c kk a). Qed.
Print Assumptions C110_formula.
(** which has no wiggles: it decreases strictly with k, *)
Theorem C110_decreasing (c : columns RNum) kk (a : cosmology (N := RNum)) v i j : getitem c "k" = Ok kk -> admissible (matter a) (baryons a) (hub a) -> transfer (N := RNum) c a = Ok v -> temperature a <> 0 ->
  (i < List.length kk)%nat -> (j < List.length kk)%nat -> 0 <= at_ kk i < at_ kk j -> at_ v j < at_ v i.
Proof. exact (fun Hk HA => api_decreasing c kk a Hk HA v i j). Qed.
Print Assumptions C110_decreasing.
(** from 1, quadratically on large scales, to 0, faster than 1 / k on small ones. *)
Theorem C110_ends (c : columns RNum) kk (a : cosmology (N := RNum)) v i : getitem c "k" = Ok kk -> admissible (matter a) (baryons a) (hub a) -> transfer (N := RNum) c a = Ok v -> (i < List.length kk)%nat -> 0 <= at_ kk i ->
  let x := at_ kk i * (temperature a / 2.7) ^ 2 in let g := matter a * hub a in
  0 < at_ v i <= 1 /\ 1 - at_ v i <= 500 * (x / (g * eh_alpha (matter a) (baryons a) (hub a))) ^ 2 /\ (g <= x -> at_ v i <= g / (4 * x)).
Proof. exact (fun Hk HA => api_ends c kk a Hk HA v i). Qed.
Print Assumptions C110_ends.
(** run_terms: k^n_s T(k)^2 times the amplitude A, *)
Theorem C110_amplitude (c : columns RNum) kk (a : cosmology (N := RNum)) A n pk : getitem c "k" = Ok kk -> admissible (matter a) (baryons a) (hub a) -> (forall k, In k kk -> 0 < k) ->
  let T := eh_transfer numpy_e (matter a) (baryons a) (hub a) (temperature a) in
  exists c' v, run_terms_kw (N := RNum) c pk (Some A) n a = Ok c' /\ getitem c' "pk" = Ok v /\ (forall x, x <> "pk"%string -> getitem c' x = getitem c x) /\
  v = map (fun k => A * (Rpower k (or_default n 1) * T k ^ 2)) kk.
Proof. exact (fun Hk HA => api_A c kk a Hk HA A n pk). Qed.
Print Assumptions C110_amplitude.
(** or with the first value of pk as its own first value. *)
Theorem C110_first (c : columns RNum) kk (a : cosmology (N := RNum)) n p0 pk k0 : getitem c "k" = Ok kk -> admissible (matter a) (baryons a) (hub a) -> (forall k, In k kk -> 0 < k) -> hd_error kk = Some k0 ->
  let T := eh_transfer numpy_e (matter a) (baryons a) (hub a) (temperature a) in
  exists c' v, run_terms_kw (N := RNum) c (Some (p0 :: pk)) None n a = Ok c' /\ getitem c' "pk" = Ok v /\ (forall x, x <> "pk"%string -> getitem c' x = getitem c x) /\
  v = map (fun k => p0 * (Rpower (k / k0) (or_default n 1) * (T k / T k0) ^ 2)) kk.
Proof. exact (fun Hk HA => api_first c kk a Hk HA n p0 pk k0). Qed.
Print Assumptions C110_first.
(** The spectrum is positive and, divided by k^n_s, decreases strictly. *)
Theorem C110_shape (c : columns RNum) kk (a : cosmology (N := RNum)) n p0 pk c' v i j : getitem c "k" = Ok kk -> admissible (matter a) (baryons a) (hub a) -> (forall k, In k kk -> 0 < k) -> temperature a <> 0 -> 0 < p0 ->
  run_terms_kw (N := RNum) c (Some (p0 :: pk)) None n a = Ok c' -> getitem c' "pk" = Ok v ->
  (i < List.length kk)%nat -> (j < List.length kk)%nat -> at_ kk i < at_ kk j -> 0 < at_ v j / Rpower (at_ kk j) (or_default n 1) < at_ v i / Rpower (at_ kk i) (or_default n 1).
Proof. exact (fun Hk HA => api_shape c kk a Hk HA n p0 pk c' v i j). Qed.
Print Assumptions C110_shape.
(** Without pk and A it raises TypeError, with an empty pk, or no wavenumbers, IndexError: the columns are kept (nothing is returned). *)
Theorem C110_raises {N} (c : columns N) kk n (a : cosmology (N := N)) : getitem c "k" = Ok kk ->
  run_terms_kw c None None n a = Err (PyExc TypeError) /\ run_terms_kw c (Some []) None n a = Err (PyExc IndexError) /\
  (kk = [] -> forall p pk, run_terms_kw c (Some (p :: pk)) None n a = Err (PyExc IndexError)).
Proof. exact (run_raises c kk n a). Qed.
Print Assumptions C110_raises.
(** The defaults are admissible, and so is a choice of Omega_m and Omega_b. *)
Example C110_ex : let c := [("k", [1; 2])]%string in
  let a := mkCosmology (N := RNum) None None None None None None in let b := mkCosmology (N := RNum) (Some 0.7) None None None (Some 0.3) (Some 0.05) in
  admissible (matter a) (baryons a) (hub a) /\ temperature a <> 0 /\ admissible (matter b) (baryons b) (hub b) /\ (exists v, transfer (N := RNum) c b = Ok v /\ at_ v 1 < at_ v 0 < 1) /\
  exists c' v, run_terms_kw (N := RNum) c (Some [3]) None None b = Ok c' /\ getitem c' "pk" = Ok v /\ at_ v 0 = 3 /\ at_ v 1 < 6.
Proof.
  intros c a b. assert (Aa : admissible (matter a) (baryons a) (hub a)) by (unfold admissible, density, or_default, a; cbn [kw_h kw_Omega_m kw_Omega_b kw_omega_m kw_omega_b]; lra).
  assert (Ab : admissible (matter b) (baryons b) (hub b)) by (unfold admissible, density, or_default, b; cbn [kw_h kw_Omega_m kw_Omega_b kw_omega_m kw_omega_b]; lra).
  split; [exact Aa|]. split; [cbn; lra|]. split; [exact Ab|].
  assert (Z0 : eh_transfer numpy_e (matter b) (baryons b) (hub b) (temperature b) 1 < 1).
  { pose proof (adm _ _ _ Ab) as (H1 & H2 & _ & H4 & _). eapply Rlt_le_trans; [apply (eh_decreasing _ _ _ _ H1 H2 H4 0 1); [cbn; lra|lra]|].
    pose proof (eh_large _ _ _ (temperature b) H1 H2 H4 0 ltac:(lra)). lra. }
  split.
  - eexists. split; [apply (C110_formula c [1; 2] b); [reflexivity|apply Ab|apply (adm _ _ _ Ab)|apply Ab]|]. split; [|exact Z0].
    apply (C110_decreasing c [1; 2] b _ 0 1); [reflexivity|exact Ab|apply (C110_formula c [1; 2] b); [reflexivity|apply Ab|apply (adm _ _ _ Ab)|apply Ab]|cbn; lra|cbn; lia|cbn; lia|cbn; lra].
  - assert (P : forall k, In k [1; 2] -> 0 < k) by (intros k [<-|[<-|[]]]; lra).
    destruct (C110_first c [1; 2] b None 3 [] 1 eq_refl Ab P eq_refl) as (c' & v & R & V & _ & E). exists c', v. split; [exact R|]. split; [exact V|].
    pose proof (C110_shape c [1; 2] b None 3 [] c' v 0 1 eq_refl Ab P ltac:(cbn; lra) ltac:(lra) R V ltac:(cbn; lia) ltac:(cbn; lia) ltac:(cbn; lra)) as S. cbn [or_default] in S. change (at_ [1; 2] 0) with 1 in S. change (at_ [1; 2] 1) with 2 in S.
    assert (E0 : at_ v 0 = 3). { rewrite E. unfold at_. cbn [map nth]. replace (1 / 1) with 1 by lra. unfold Rpower. rewrite ln_1, Rmult_0_r, exp_0. field.
      pose proof (adm _ _ _ Ab) as (H1 & H2 & _ & H4 & _). apply Rgt_not_eq. apply eh_pos; try assumption. lra. }
    rewrite E0 in S. rewrite !Rpower_1 in S by lra. split; [exact E0|]. assert (at_ v 1 = at_ v 1 / 2 * 2) by lra. lra.
Qed.
