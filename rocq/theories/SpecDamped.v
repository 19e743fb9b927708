(** SpecDamped: what the accessors of one spectrum return, in real arithmetic and without reference to the code. *)
From Coq Require Import Reals ZArith List String Bool.
From Verif Require Import Base Num Common Registry PyTerms Spec SpecPy.
Import ListNotations.
Local Open Scope R_scope.

(** The number of linear spectra in a product of perturbation theory: one in a linear spectrum, two in a one-loop one *)
Definition powers (cl : pyclass) (name : string) : nat :=
  match cl with CLin | CNoWiggle => 1%nat | _ => if String.eqb name "pk_lin" then 1%nat else 2%nat end.
(** The methods which return one spectrum: a column of the same name *)
Definition named (cl : pyclass) : list string :=
  match cl with
  | CLin | CNoWiggle => ["pk"] | C1Loop | C2Loop => ["pk_lin"] | CA1 | CA2 | CB1 | CB2 => ["pk_lin"; "pk"]
  | CBias => ["pk_lin"; "pk_b2d"; "pk_bs2d"; "pk_b2t"; "pk_bs2t"; "pk_b22"; "pk_b2s2"; "pk_bs22"]
  end%string.
(** The displacement dispersion in use at position [i]: the one given by the caller, else the one of the object *)
Definition dispersion (c : columns RNum) (given : option (list R)) (i : nat) : R := match given with Some s => nth i s 0 | None => entry c "sigmad2" i end.
Definition sized (given : option (list R)) (n : nat) : Prop := match given with Some s => List.length s = n | None => True end.
(** The damped one-loop bias terms: each of the two propagators contributes exp (-f) (1 + f) *)
Definition damped (D k s P : R) : R := let f := damping D k s in D^4 * (exp (- f) * (1 + f))^2 * P.
