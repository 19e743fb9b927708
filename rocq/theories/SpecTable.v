(** SpecTable: quadrature tables as the integrals of the code use them. *)
From Coq Require Import Reals List.
From Verif Require Import Base Num Common Spec.
Local Open Scope R_scope.

(** The three columns q, w, pk of a table have its length. *)
Definition table_ok {N} (g : glq N) : Prop :=
  (0 <= gq_nq g)%Z /\ (zlen (gq_q g) = gq_nq g)%Z /\ (zlen (gq_w g) = gq_nq g)%Z /\ (zlen (gq_pk g) = gq_nq g)%Z.
(** [g'] is [g] in units in which wavenumbers are s times larger: the logarithmic weights are the
    same and the power spectrum, a volume, is divided by s^3. *)
Definition rescaled (s : R) (g g' : glq RNum) : Prop :=
  gq_nq g' = gq_nq g /\ gq_w g' = gq_w g /\ gq_q g' = map (Rmult s) (gq_q g) /\ gq_pk g' = map (fun p => p / s ^ 3) (gq_pk g).
(** [g'] differs from [g] by the power spectrum only. *)
Definition same_nodes (g g' : glq RNum) : Prop := gq_nq g' = gq_nq g /\ gq_q g' = gq_q g /\ gq_w g' = gq_w g.
