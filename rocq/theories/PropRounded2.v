(** PropRounded2: what rounding can do to the assembled spectra (C105).  Notions: SpecRounded.v, SpecRounded2.v, SpecPy.v, SpecDamped.v.
    [QNum rnd lm]: every operation is rounded by [rnd], with relative error at most u; [accurate u e lm]: exp and pow of the C library
    are right to e such errors; [units u n]: the relative size of n such errors.  [formula id] is the value of the published formula,
    [formula Rabs] the same with the absolute values of all columns: the size of its largest terms when they cancel. *)
From Coq Require Import ZArith Lia List Bool Reals Lra String.
From Verif Require Import Base Num BaseFacts Order Spec Common Registry PyTerms SpecPy SpecDamped SpecRounded SpecRounded2
  ProofRounded8 ProofRounded9 ProofRounded10 ProofPy ProofPy7 ProofDamped.
From Flocq Require Import Core.
Import ListNotations.
Local Open Scope R_scope.

(** * C105: the assembled spectra are the published formulas up to rounding *)
(** Spectrum1Loop.pk; m bounds 16 times the damping exponent. *)
Theorem C105_1loop F rnd lm u e m (c : columns RNum) n (D : R) given :
  rounding F rnd -> 0 <= u <= 1 / 100 -> relative u rnd -> accurate u e lm -> integers F -> complete C1Loop c n -> sized given n -> 0 <= D ->
  exists out, pk_1loop (N := QNum rnd lm) c D given = Ok out /\ List.length out = n /\
    forall i, (i < n)%nat -> 0 <= dispersion c given i -> 16 * damping D (entry c "k" i) (dispersion c given i) <= INR m ->
    let formula g := regpt_1loop D (entry c "k" i) (dispersion c given i) (g (entry c "gamma1a_1loop" i)) (g (entry c "gamma1b_1loop" i)) (g (entry c "pk_lin" i)) (g (entry c "pk_gamma2_tree_tree" i)) in
    Rabs (at_ out i - formula id) <= units u (4 * e + 2 * m + 23) * formula Rabs.
Proof. exact (fun RD Hu HR HA HI => spectrum_1loop_error F rnd lm u e m RD Hu HR HA HI c n D given). Qed.
Print Assumptions C105_1loop.
(** Spectrum2Loop.pk *)
Theorem C105_2loop F rnd lm u e m (c : columns RNum) n (D : R) given :
  rounding F rnd -> 0 <= u <= 1 / 100 -> relative u rnd -> accurate u e lm -> integers F -> complete C2Loop c n -> sized given n -> 0 <= D ->
  exists out, pk_2loop (N := QNum rnd lm) c D given = Ok out /\ List.length out = n /\
    forall i, (i < n)%nat -> 0 <= dispersion c given i -> 16 * damping D (entry c "k" i) (dispersion c given i) <= INR m ->
    let formula g := regpt_2loop D (entry c "k" i) (dispersion c given i) (g (entry c "gamma1a_1loop" i)) (g (entry c "gamma1a_2loop" i)) (g (entry c "gamma1b_1loop" i)) (g (entry c "gamma1b_2loop" i)) (g (entry c "pk_lin" i))
      (g (entry c "pk_gamma2_tree_tree" i)) (g (entry c "pk_gamma2_tree_1loop" i)) (g (entry c "pk_gamma2_1loop_1loop" i)) (g (entry c "pk_gamma3_tree" i)) in
    Rabs (at_ out i - formula id) <= units u (4 * e + 2 * m + 44) * formula Rabs.
Proof. exact (fun RD Hu HR HA HI => spectrum_2loop_error F rnd lm u e m RD Hu HR HA HI c n D given). Qed.
Print Assumptions C105_2loop.
(** The damped bias spectra: the error is relative to the value itself. *)
Theorem C105_damped F rnd lm u e m (c : columns RNum) n name (D : R) given :
  rounding F rnd -> 0 <= u <= 1 / 100 -> relative u rnd -> accurate u e lm -> integers F -> complete CBias c n -> In name ["pk_b22"; "pk_b2s2"; "pk_bs22"]%string -> sized given n -> 0 <= D ->
  exists out, pk_damped (N := QNum rnd lm) name c D given = Ok out /\ List.length out = n /\
    forall i, (i < n)%nat -> 0 <= dispersion c given i -> 16 * damping D (entry c "k" i) (dispersion c given i) <= INR m ->
    close u (3 * e + m + 17) (at_ out i) (damped D (entry c "k" i) (dispersion c given i) (entry c name i)).
Proof. exact (fun RD Hu HR HA HI => damped_error F rnd lm u e m RD Hu HR HA HI c n name D given). Qed.
Print Assumptions C105_damped.
(** The C functions spectrum_1loop and spectrum_2loop *)
Theorem C105_C_1loop F rnd lm u e m (k s ga gb P t out : list R) n : rounding F rnd -> 0 <= u <= 1 / 100 -> relative u rnd -> accurate u e lm ->
  List.length k = n -> List.length s = n -> List.length ga = n -> List.length gb = n -> List.length P = n -> List.length t = n -> List.length out = n ->
  exists w, c_spectrum_1loop (N := QNum rnd lm) k s ga gb P t (Z.of_nat n) out = Ok w /\ List.length w = n /\ forall i, (i < n)%nat -> 0 <= at_ s i -> 16 * damping 1 (at_ k i) (at_ s i) <= INR m ->
    let formula g := regpt_1loop 1 (at_ k i) (at_ s i) (g (at_ ga i)) (g (at_ gb i)) (g (at_ P i)) (g (at_ t i)) in
    Rabs (at_ w i - formula id) <= units u (2 * e + 2 * m + 23) * formula Rabs.
Proof. exact (fun RD Hu HR HA => c_1loop_error F rnd lm u e m RD Hu HR HA k s ga gb P t out n). Qed.
Print Assumptions C105_C_1loop.
Theorem C105_C_2loop F rnd lm u e m (k s ga ga2 gb gb2 P t t1 oo g3 out : list R) n : rounding F rnd -> 0 <= u <= 1 / 100 -> relative u rnd -> accurate u e lm ->
  List.length k = n -> List.length s = n -> List.length ga = n -> List.length ga2 = n ->
  List.length gb = n -> List.length gb2 = n -> List.length P = n -> List.length t = n -> List.length t1 = n -> List.length oo = n -> List.length g3 = n -> List.length out = n ->
  exists w, c_spectrum_2loop (N := QNum rnd lm) k s ga ga2 gb gb2 P t t1 oo g3 (Z.of_nat n) out = Ok w /\ List.length w = n /\ forall i, (i < n)%nat -> 0 <= at_ s i -> 16 * damping 1 (at_ k i) (at_ s i) <= INR m ->
    let formula g := regpt_2loop 1 (at_ k i) (at_ s i) (g (at_ ga i)) (g (at_ ga2 i)) (g (at_ gb i)) (g (at_ gb2 i)) (g (at_ P i)) (g (at_ t i)) (g (at_ t1 i)) (g (at_ oo i)) (g (at_ g3 i)) in
    Rabs (at_ w i - formula id) <= units u (2 * e + 2 * m + 44) * formula Rabs.
Proof. exact (fun RD Hu HR HA => c_2loop_error F rnd lm u e m RD Hu HR HA k s ga ga2 gb gb2 P t t1 oo g3 out n). Qed.
Print Assumptions C105_C_2loop.
(** With 53 bits, up to 5017 errors are less than 1e-12. *)
Theorem C105_figure (n : nat) : (n <= 5017)%nat -> units (/ 2 ^ 53) n <= 1 / 10 ^ 12.
Proof. exact (units_figure n). Qed.
Print Assumptions C105_figure.
(** Rounding never makes the 1-loop spectrum of one field negative, whatever the precision of the arithmetic and of the C library. *)
Theorem C105_sign F rnd lm (c : columns RNum) n (D : R) given : rounding F rnd -> (forall x, 0 <= q_exp lm x) -> 0 <= q_pow lm D (rnd 4) -> complete C1Loop c n -> sized given n ->
  (forall i, (i < n)%nat -> entry c "gamma1a_1loop" i = entry c "gamma1b_1loop" i /\ 0 <= entry c "pk_lin" i /\ 0 <= entry c "pk_gamma2_tree_tree" i) ->
  exists out, pk_1loop (N := QNum rnd lm) c D given = Ok out /\ List.length out = n /\ forall i, (i < n)%nat -> 0 <= at_ out i.
Proof. exact (fun RD HE HP HC Hs => auto_1loop F rnd lm RD HE c n D given HC Hs HP). Qed.
Print Assumptions C105_sign.
Theorem C105_C_sign F rnd lm (k s g P t out : list R) n : rounding F rnd ->
  List.length k = n -> List.length s = n -> List.length g = n -> List.length P = n -> List.length t = n -> List.length out = n ->
  Forall (fun x => 0 <= x) P -> Forall (fun x => 0 <= x) t ->
  exists w, c_spectrum_1loop (N := QNum rnd lm) k s g g P t (Z.of_nat n) out = Ok w /\ List.length w = n /\ Forall (fun x => 0 <= x) w.
Proof. exact (fun RD => auto_c_1loop_array F rnd lm RD k s g P t out n). Qed.
Print Assumptions C105_C_sign.

(** A library exact to 0 errors, an arithmetic of 53 bits, and an object of two wavenumbers *)
Example C105_hypotheses : rounding wide to_wide /\ 0 <= / 2 ^ 53 <= 1 / 100 /\ relative (/ 2 ^ 53) to_wide /\ accurate (/ 2 ^ 53) 0 exact_libm /\ integers wide /\ (forall x, 0 <= q_exp exact_libm x) /\ 0 <= q_pow exact_libm 2 (to_wide 4).
Proof.
  destruct precision53 as [H1 H2]. split; [exact H1|]. split; [exact u53|]. split; [exact H2|]. split; [apply exact_accurate; pose proof u53; lra|]. split; [exact wide_integers|].
  split; [intros x; left; apply exp_pos|]. cbn. rewrite (r_id _ _ H1 4) by (apply wide_small; reflexivity). change 4 with (IZR (Z.of_nat 4)). rewrite Rpow_nat. apply pow_le. lra.
Qed.
Example C105_ex : exists out, pk_1loop (N := QNum to_wide exact_libm) (filled C1Loop 2 ramp) (1 / 2) None = Ok out /\ List.length out = 2%nat /\
  Rabs (at_ out 1 - regpt_1loop (1 / 2) 2 2 2 2 2 2) <= 1 / 10 ^ 12 * regpt_1loop (1 / 2) 2 2 2 2 2 2 /\ 0 <= at_ out 1.
Proof.
  destruct C105_hypotheses as (H1 & H2 & H3 & H4 & H5 & H6 & _).
  destruct (C105_1loop wide to_wide exact_libm (/ 2 ^ 53) 0 16 (filled C1Loop 2 ramp) 2 (1 / 2) None H1 H2 H3 H4 H5 (filled_complete C1Loop 2 ramp) I ltac:(lra)) as (out & E & L & B).
  assert (V : forall x, In x (fields C1Loop) -> entry (filled C1Loop 2 ramp) x 1 = 2) by (intros x Hx; cbn in Hx; repeat (destruct Hx as [<-|Hx]; [unfold entry, ramp; cbn; unfold ramp; cbn; lra|]); contradiction).
  exists out. split; [exact E|]. split; [exact L|]. split.
  - specialize (B 1%nat ltac:(lia)). cbn [dispersion] in B. rewrite !V in B by (cbn; tauto). cbv zeta in B. unfold id in B. rewrite (Rabs_right 2) in B by lra.
    eapply Rle_trans; [apply B; [lra|unfold damping; cbn [INR]; lra]|]. apply Rmult_le_compat_r; [|apply units_figure; apply Nat.leb_le; reflexivity].
    unfold regpt_1loop, propagator_1loop, damping. cbv zeta. apply Rplus_le_le_0_compat; repeat apply Rmult_le_pos; try lra; left; apply exp_pos.
  - destruct (C105_sign wide to_wide exact_libm (filled C1Loop 2 ramp) 2 (1 / 2) None H1 H6) as (o & Eo & _ & N).
    + cbn. rewrite (r_id _ _ H1 4) by (apply wide_small; reflexivity). change 4 with (IZR (Z.of_nat 4)). rewrite Rpow_nat. apply pow_le. lra.
    + exact (filled_complete C1Loop 2 ramp).
    + exact I.
    + intros [|[|i]] Hi; [| |lia]; (unfold entry, ramp; cbn; unfold ramp; cbn; repeat split; lra).
    + rewrite E in Eo. injection Eo as <-. apply N. lia.
Qed.
