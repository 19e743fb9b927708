(** SpecMethods: the spectrum of an object, and the dispersion in use, without reference to the code (C116). *)
From Coq Require Import Reals ZArith List String.
From Verif Require Import Base Num Registry PyTerms PyMethods Spec SpecPy.
Import ListNotations.
Local Open Scope R_scope.
(** The dispersion at position i: of the object unless given; a number, or an array of one, holds for all wavenumbers *)
Definition dispersion_of (c : columns RNum) (g : sigmad2_arg R) (i : nat) : R :=
  match g with Omitted => entry c "sigmad2" i | Number x => x | Array [x] => x | Array v => nth i v 0 end.
(** The argument sigmad2 suits n wavenumbers *)
Definition suits (g : sigmad2_arg R) (n : nat) : Prop := match g with Array v => length v = n \/ length v = 1%nat | _ => True end.
(** Its spectrum at position i with the growth factor D: D^2 P for linear theory, eq. (23) of Taruya et al. 2012 for RegPT *)
Definition spectrum_of (cl : pyclass) (c : columns RNum) (D : R) (g : sigmad2_arg R) (i : nat) : R :=
  match cl with
  | C1Loop => regpt_1loop D (entry c "k" i) (dispersion_of c g i) (entry c "gamma1a_1loop" i) (entry c "gamma1b_1loop" i) (entry c "pk_lin" i) (entry c "pk_gamma2_tree_tree" i)
  | C2Loop => regpt_2loop D (entry c "k" i) (dispersion_of c g i) (entry c "gamma1a_1loop" i) (entry c "gamma1a_2loop" i) (entry c "gamma1b_1loop" i) (entry c "gamma1b_2loop" i) (entry c "pk_lin" i)
                (entry c "pk_gamma2_tree_tree" i) (entry c "pk_gamma2_tree_1loop" i) (entry c "pk_gamma2_1loop_1loop" i) (entry c "pk_gamma3_tree" i)
  | _ => D ^ 2 * entry c "pk" i
  end.
(** Classes with a method pk of one dimension, and the keywords they take *)
Definition offers (cl : pyclass) (g : sigmad2_arg R) : Prop := match cl with C1Loop | C2Loop => True | CLin | CNoWiggle => g = Omitted | _ => False end.
