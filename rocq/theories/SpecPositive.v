(** SpecPositive: spectra which cannot be negative. *)
From Coq Require Import ZArith List String Reals.
From Verif Require Import Base Num BaseFacts Common Kernels Gamma2 Integrals Registry Threads Spec SpecLoops ProofGL SpecThreads.
Import ListNotations.
Local Open Scope R_scope.
Local Open Scope string_scope.

Definition nonneg (l : list R) : Prop := Forall (fun x => 0 <= x) l.
(** The interpolation of the table gives no negative value at ascending wavenumbers. *)
Definition nonneg_lookup (pkl : Pk RNum) (im : interpol) : Prop :=
  forall ks ps, ascending ks -> nonneg ks -> find_pk (N := RNum) pkl ks im = Ok ps -> nonneg ps.
(** What x, y, z satisfy when they are <u,u>, <u,v>, <v,v> for a product which is not negative. *)
Definition gram (x y z : R) : Prop := 0 <= x /\ 0 <= z /\ y ^ 2 <= x * z.
(** A quadrature table: positive nodes, the first the smallest and the last the largest; weights and spectrum not negative. *)
Definition positive_table (g : glq RNum) : Prop :=
  (1 <= gq_nq g < 2 ^ 62)%Z /\ zlen (gq_q g) = gq_nq g /\ zlen (gq_x g) = gq_nq g /\ zlen (gq_w g) = gq_nq g /\ zlen (gq_pk g) = gq_nq g /\
  0 < znth 0 (gq_q g) 0 /\ (forall i, (0 <= i < gq_nq g)%Z -> znth 0 (gq_q g) 0 <= znth 0 (gq_q g) i <= znth 0 (gq_q g) (gq_nq g - 1)) /\
  nonneg (gq_w g) /\ nonneg (gq_pk g).
Definition positive_rule (m : glmu RNum) : Prop := mu_rule m /\ nonneg (gm_wref m).
(** The settings of the gamma2 integrals make such tables, and no lookup is negative. *)
Record positive_setup (st : settings RNum) (pkl : Pk RNum) : Prop := {
  ps_n : forall x, In x ["gamma2_tree_q"; "gamma2_tree_mu"] -> (1 <= pr_n (s_prec st x) < 2 ^ 62)%Z;
  ps_range : exists qmin qmax, q_range (s_prec st "gamma2_tree_q") pkl = Ok (qmin, qmax) /\ 0 < qmin < qmax;
  ps_prec : forall x, nonneg_lookup pkl (im_of st x);
  ps_lin : forall x, nonneg_lookup pkl (s_interpol st x) }.
(** Suave: the integral over the unit cube of a function which is not negative there is not negative. *)
Definition suave_nonneg (suave1 : (list R -> res R) -> res R) : Prop :=
  forall f v, (forall xx y, Forall (fun x => 0 <= x <= 1) xx -> f xx = Ok y -> 0 <= y) -> suave1 f = Ok v -> 0 <= v.
