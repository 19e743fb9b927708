(** SpecScale: the same input in another unit or with another normalisation. *)
From Coq Require Import ZArith List String Reals.
From Verif Require Import Base Num Common Registry Threads PyTerms SpecPT ProofKernels SpecThreads.
Import ListNotations.
Local Open Scope R_scope.
Local Open Scope string_scope.

Definition times (c : R) (l : list R) : list R := map (fun x => c * x) l.
(** Wavenumbers multiplied by [s], values by [u] *)
Definition rescaled_pk (s u : R) (p p' : Pk RNum) : Prop := pk_n p' = pk_n p /\ pk_k p' = times s (pk_k p) /\ pk_p p' = times u (pk_p p).
(** The same settings; the ranges of the tables [qs] in the new unit *)
Definition rescaled_settings (s : R) (qs : list string) (st st' : settings RNum) : Prop :=
  (forall x, pr_n (s_prec st' x) = pr_n (s_prec st x) /\ pr_interpol (s_prec st' x) = pr_interpol (s_prec st x)) /\
  (forall x, In x qs -> pr_min (s_prec st' x) = s * pr_min (s_prec st x) /\ pr_max (s_prec st' x) = s * pr_max (s_prec st x)) /\
  (forall x, s_interpol st' x = s_interpol st x) /\ (forall x, s_cutoff st' x = s_cutoff st x).
Definition positive_k (p : Pk RNum) : Prop := Forall (fun k => 0 < k) (pk_k p).
(** The tables have a size a C array can have. *)
Definition sizes (st : settings RNum) (xs : list string) : Prop := forall x, In x xs -> (0 <= pr_n (s_prec st x) < 2 ^ 62)%Z.
(** Suave gives c times the integral of f for the integrand c f. *)
Definition times_res (c : R) (r : res R) : res R := match r with Ok v => Ok (c * v) | Err e => Err e end.
Definition suave_scales (c : R) (suave1 : (list R -> res R) -> res R) : Prop :=
  forall f f', (forall xx, f' xx = times_res c (f xx)) -> suave1 f' = times_res c (suave1 f).

(** Degree of the columns of a run in the linear spectrum *)
Definition degrees (d : driver) : list nat :=
  match d with
  | D_1loop _ _ => [1; 1; 2]%nat
  | D_2loop _ _ => [1; 2; 1; 2; 2; 3; 4; 3]%nat
  | D_bias => [2; 2; 2; 2; 2; 2; 2; 1]%nat
  | D_A_1loop | D_A_2loop => repeat 2%nat 5
  | D_B => repeat 2%nat 9
  end.
Definition raise (c : R) (ns : list nat) (v : list R) : list R := map (fun p => c ^ fst p * snd p) (combine ns v).
(** Which columns have the dimension of a power spectrum (a volume); the others have none. *)
Definition volumes (d : driver) : list bool :=
  match d with
  | D_1loop _ _ => [false; false; true]
  | D_2loop _ _ => [false; false; false; false; true; true; true; true]
  | D_bias => [true; true; true; true; true; true; true; false]
  | D_A_1loop | D_A_2loop => repeat true 5
  | D_B => repeat true 9
  end.
Definition in_unit (s : R) (vs : list bool) (v : list R) : list R := map (fun p : bool * R => if fst p then snd p / (s * s * s) else snd p) (combine vs v).

(** The columns of the Python object filled by a run *)
Definition names_of (d : driver) : list string :=
  match d with
  | D_1loop _ _ => ["gamma1a_1loop"; "gamma1b_1loop"; "pk_gamma2_tree_tree"]
  | D_2loop _ _ => ["gamma1a_1loop"; "gamma1a_2loop"; "gamma1b_1loop"; "gamma1b_2loop"; "pk_gamma2_tree_tree"; "pk_gamma2_tree_1loop"; "pk_gamma2_1loop_1loop"; "pk_gamma3_tree"]
  | D_bias => ["pk_b2d"; "pk_bs2d"; "pk_b2t"; "pk_bs2t"; "pk_b22"; "pk_b2s2"; "pk_bs22"; "sigma3sq"]
  | D_A_1loop | D_A_2loop | D_B => ["pk"]
  end.
Definition rows (nk : nat) (vals : Z -> list R) : list (list R) := map (fun i => vals (Z.of_nat i)) (seq 0 nk).
Definition columns_of (d : driver) (ks ps ss : list R) (vals : Z -> list R) : columns RNum :=
  ("k", ks) :: ("pk_lin", ps) :: ("sigmad2", ss) ::
  match d with
  | D_A_1loop | D_A_2loop | D_B => [("pk", List.concat (rows (List.length ks) vals))]
  | _ => map (fun jx => (snd jx, map (fun v => nth (fst jx) v 0) (rows (List.length ks) vals))) (combine (seq 0 (List.length (names_of d))) (names_of d))
  end.
Inductive class_of : driver -> pyclass -> Prop :=
| class_1loop a b : class_of (D_1loop a b) C1Loop
| class_2loop a b : class_of (D_2loop a b) C2Loop
| class_bias : class_of D_bias CBias
| class_A1 : class_of D_A_1loop CA1
| class_A2 : class_of D_A_2loop CA2
| class_B1 : class_of D_B CB1
| class_B2 : class_of D_B CB2.

(** A quadrature table in the new unit *)
Definition rescaled_table (s u : R) (g g' : glq RNum) : Prop :=
  gq_nq g' = gq_nq g /\ gq_q g' = times s (gq_q g) /\ gq_w g' = gq_w g /\ gq_pk g' = times u (gq_pk g).

(** No sum of the momenta of F3_sym is cut by its guard (guard_ok: some component is at least 3e-14). *)
Definition sums_ok (p q r : vector) : Prop := guard_ok (vplus p q) /\ guard_ok (vplus q r) /\ guard_ok (vplus r p) /\ guard_ok (vplus p (vplus q r)).
