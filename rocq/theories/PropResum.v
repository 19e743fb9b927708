(** PropResum: C119, pk of RegPT and standard perturbation theory, for every dispersion.  Notions: SpecResum.v, SpecPy.v, SpecMethods.v, SpecDamped.v. *)
From Coq Require Import Reals ZArith List String Lia Lra Bool.
From Verif Require Import Base Num Common Registry PyTerms PyMethods Spec SpecPy SpecDamped SpecMethods SpecResum ProofPy ProofPy7 ProofDamped ProofMethods ProofResum.
Import ListNotations.
Local Open Scope R_scope.

(** The resummation is one of higher orders only: whatever the dispersion, the 1-loop spectrum is that of standard perturbation theory up to D^6, *)
Theorem C119_1loop (c : columns RNum) n (D : R) g : complete C1Loop c n -> suits g n -> (forall i, (i < n)%nat -> 0 <= dispersion_of c g i) ->
  exists v, pk_of (N := RNum) C1Loop c D g = Ok v /\ List.length v = n /\ forall i, (i < n)%nat ->
    Rabs (nth i v 0 - spt_1loop D (entry c "pk_lin" i) (entry c "gamma1a_1loop" i) (entry c "gamma1b_1loop" i) (entry c "pk_gamma2_tree_tree" i)) <=
    D ^ 6 * gap_1loop D (entry c "k" i ^ 2 * dispersion_of c g i / 2) (entry c "gamma1a_1loop" i) (entry c "gamma1b_1loop" i) (entry c "pk_lin" i) (entry c "pk_gamma2_tree_tree" i).
Proof.
  intros HC HS HD. destruct (read_pk C1Loop c n D g HC HS I) as (v & E & L & V). exists v. split; [exact E|]. split; [exact L|]. intros i Hi. rewrite (V i Hi). exact (near_1loop _ _ _ _ _ _ _ (HD i Hi)).
Qed.
Print Assumptions C119_1loop.
(** and the 2-loop spectrum up to D^8. *)
Theorem C119_2loop (c : columns RNum) n (D : R) g : complete C2Loop c n -> suits g n -> (forall i, (i < n)%nat -> 0 <= dispersion_of c g i) ->
  exists v, pk_of (N := RNum) C2Loop c D g = Ok v /\ List.length v = n /\ forall i, (i < n)%nat ->
    Rabs (nth i v 0 - spt_2loop D (entry c "pk_lin" i) (entry c "gamma1a_1loop" i) (entry c "gamma1a_2loop" i) (entry c "gamma1b_1loop" i) (entry c "gamma1b_2loop" i)
                        (entry c "pk_gamma2_tree_tree" i) (entry c "pk_gamma2_tree_1loop" i) (entry c "pk_gamma3_tree" i)) <=
    D ^ 8 * gap_2loop D (entry c "k" i ^ 2 * dispersion_of c g i / 2) (entry c "gamma1a_1loop" i) (entry c "gamma1a_2loop" i) (entry c "gamma1b_1loop" i) (entry c "gamma1b_2loop" i) (entry c "pk_lin" i)
              (entry c "pk_gamma2_tree_tree" i) (entry c "pk_gamma2_tree_1loop" i) (entry c "pk_gamma2_1loop_1loop" i) (entry c "pk_gamma3_tree" i).
Proof.
  intros HC HS HD. destruct (read_pk C2Loop c n D g HC HS I) as (v & E & L & V). exists v. split; [exact E|]. split; [exact L|]. intros i Hi. rewrite (V i Hi). exact (near_2loop _ _ _ _ _ _ _ _ _ _ _ _ (HD i Hi)).
Qed.
Print Assumptions C119_2loop.
(** Without dispersion nothing is resummed: what is left beyond standard perturbation theory are products of the given loops. *)
Theorem C119_bare_1loop (c : columns RNum) n (D : R) : complete C1Loop c n ->
  exists v, pk_of (N := RNum) C1Loop c D (Number 0) = Ok v /\ List.length v = n /\ forall i, (i < n)%nat ->
    nth i v 0 = spt_1loop D (entry c "pk_lin" i) (entry c "gamma1a_1loop" i) (entry c "gamma1b_1loop" i) (entry c "pk_gamma2_tree_tree" i)
                + D ^ 6 * (entry c "pk_lin" i * (entry c "gamma1a_1loop" i * entry c "gamma1b_1loop" i)).
Proof.
  intros HC. destruct (read_pk C1Loop c n D (Number 0) HC I I) as (v & E & L & V). exists v. split; [exact E|]. split; [exact L|]. intros i Hi. rewrite (V i Hi). exact (bare_1loop _ _ _ _ _ _).
Qed.
Print Assumptions C119_bare_1loop.
Theorem C119_bare_2loop (c : columns RNum) n (D : R) : complete C2Loop c n ->
  exists v, pk_of (N := RNum) C2Loop c D (Number 0) = Ok v /\ List.length v = n /\ forall i, (i < n)%nat ->
    nth i v 0 = spt_2loop D (entry c "pk_lin" i) (entry c "gamma1a_1loop" i) (entry c "gamma1a_2loop" i) (entry c "gamma1b_1loop" i) (entry c "gamma1b_2loop" i)
                          (entry c "pk_gamma2_tree_tree" i) (entry c "pk_gamma2_tree_1loop" i) (entry c "pk_gamma3_tree" i)
                + D ^ 8 * (entry c "pk_lin" i * (entry c "gamma1a_1loop" i * entry c "gamma1b_2loop" i + entry c "gamma1a_2loop" i * entry c "gamma1b_1loop" i) + entry c "pk_gamma2_1loop_1loop" i)
                + D ^ 10 * (entry c "pk_lin" i * (entry c "gamma1a_2loop" i * entry c "gamma1b_2loop" i)).
Proof.
  intros HC. destruct (read_pk C2Loop c n D (Number 0) HC I I) as (v & E & L & V). exists v. split; [exact E|]. split; [exact L|]. intros i Hi. rewrite (V i Hi). exact (bare_2loop _ _ _ _ _ _ _ _ _ _ _).
Qed.
Print Assumptions C119_bare_2loop.
(** With a large dispersion the spectra fall to zero, at least as its inverse square. *)
Theorem C119_fall (c : columns RNum) n (D : R) g : complete C1Loop c n -> suits g n -> (forall i, (i < n)%nat -> 0 <= dispersion_of c g i) ->
  exists v, pk_of (N := RNum) C1Loop c D g = Ok v /\ List.length v = n /\ forall i, (i < n)%nat ->
    Rabs (nth i v 0) * (1 + D ^ 2 * entry c "k" i ^ 2 * dispersion_of c g i / 4) ^ 2 <=
    4 * D ^ 2 * Rabs (entry c "pk_lin" i) * (1 + D ^ 2 * Rabs (entry c "gamma1a_1loop" i)) * (1 + D ^ 2 * Rabs (entry c "gamma1b_1loop" i)) + D ^ 4 * Rabs (entry c "pk_gamma2_tree_tree" i).
Proof.
  intros HC HS HD. destruct (read_pk C1Loop c n D g HC HS I) as (v & E & L & V). exists v. split; [exact E|]. split; [exact L|]. intros i Hi. rewrite (V i Hi). exact (far_1loop _ _ _ _ _ _ _ (HD i Hi)).
Qed.
Print Assumptions C119_fall.
Theorem C119_fall_2loop (c : columns RNum) n (D : R) g : complete C2Loop c n -> suits g n -> (forall i, (i < n)%nat -> 0 <= dispersion_of c g i) ->
  exists v, pk_of (N := RNum) C2Loop c D g = Ok v /\ List.length v = n /\ forall i, (i < n)%nat ->
    Rabs (nth i v 0) * (1 + D ^ 2 * entry c "k" i ^ 2 * dispersion_of c g i / 6) ^ 2 <=
    81 / 4 * D ^ 2 * Rabs (entry c "pk_lin" i) * (1 + D ^ 2 * Rabs (entry c "gamma1a_1loop" i) + D ^ 4 * Rabs (entry c "gamma1a_2loop" i)) * (1 + D ^ 2 * Rabs (entry c "gamma1b_1loop" i) + D ^ 4 * Rabs (entry c "gamma1b_2loop" i))
    + 3 * D ^ 4 * Rabs (entry c "pk_gamma2_tree_tree" i) + D ^ 6 * Rabs (entry c "pk_gamma2_tree_1loop" i) + D ^ 8 * Rabs (entry c "pk_gamma2_1loop_1loop" i) + D ^ 6 * Rabs (entry c "pk_gamma3_tree" i).
Proof.
  intros HC HS HD. destruct (read_pk C2Loop c n D g HC HS I) as (v & E & L & V). exists v. split; [exact E|]. split; [exact L|]. intros i Hi. rewrite (V i Hi). exact (far_2loop _ _ _ _ _ _ _ _ _ _ _ _ (HD i Hi)).
Qed.
Print Assumptions C119_fall_2loop.
(** So do the damped terms of the bias, [pk_damped "pk_b22" c D given] for o.pk_b22_damp(Dgrowth=D, sigmad2=given). *)
Theorem C119_fall_bias (c : columns RNum) n name (D : R) (given : option (list R)) : complete CBias c n -> In name ["pk_b22"; "pk_b2s2"; "pk_bs22"]%string -> sized given n ->
  (forall i, (i < n)%nat -> 0 <= dispersion c given i) ->
  exists v, pk_damped (N := RNum) name c D given = Ok v /\ List.length v = n /\ forall i, (i < n)%nat ->
    Rabs (nth i v 0) * (1 + D ^ 2 * entry c "k" i ^ 2 * dispersion c given i / 4) ^ 2 <= 4 * D ^ 4 * Rabs (entry c name i).
Proof.
  intros HC HN HS HD. exists (map (fun i => damped D (entry c "k" i) (dispersion c given i) (entry c name i)) (seq 0 n)). split; [exact (damped_val c n name D given HC HN HS)|].
  split; [rewrite map_length, seq_length; reflexivity|]. intros i Hi. set (f := fun i => damped D (entry c "k" i) (dispersion c given i) (entry c name i)).
  rewrite (nth_indep _ 0 (f 0%nat)) by (rewrite map_length, seq_length; exact Hi). rewrite map_nth, seq_nth by exact Hi. exact (far_damped _ _ _ _ (HD i Hi)).
Qed.
Print Assumptions C119_fall_bias.
Example C119_ex : complete C1Loop (filled C1Loop 3 ramp) 3 /\ complete C2Loop (filled C2Loop 3 ramp) 3 /\ suits (Array [1; 2; 3]) 3 /\
  forall i, (i < 3)%nat -> 0 <= dispersion_of (filled C1Loop 3 ramp) (Array [1; 2; 3]) i /\ 0 <= dispersion_of (filled C2Loop 3 ramp) (Number 2) i.
Proof.
  split; [apply (filled_complete C1Loop 3 ramp)|]. split; [apply (filled_complete C2Loop 3 ramp)|]. split; [left; reflexivity|].
  intros i Hi. destruct i as [|[|[|i]]]; cbn; try lia; lra.
Qed.
Example C119_bias_ex : complete CBias (filled CBias 3 ramp) 3 /\ sized (Some [1; 2; 3]) 3 /\ forall i, (i < 3)%nat -> 0 <= dispersion (filled CBias 3 ramp) (Some [1; 2; 3]) i.
Proof. split; [apply (filled_complete CBias 3 ramp)|]. split; [reflexivity|]. intros i Hi. destruct i as [|[|[|i]]]; cbn; try lia; lra. Qed.
