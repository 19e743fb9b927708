(** PyEarly: pk_interp of the A and B classes at any time after set_terms. *)
From Coq Require Import ZArith List String Bool.
From Verif Require Import Base Num Common Registry PyTerms.
Import ListNotations.
Local Open Scope num_scope.

(** Whether the column pk has two dimensions after set_terms, pyregpt.py:494-499 (A1Loop: not reshaped), 521-528 (A2Loop), 550-556 (B1Loop, B2Loop) *)
Definition shaped_by_set_terms (cl : pyclass) : bool := match cl with CA2 | CB1 | CB2 => true | _ => false end.
(** and after run_terms, pyregpt.py:501-505 (A1Loop: reshaped here), 530-533, 558-565, 588-610 (not reshaped again) *)
Definition shaped_by_run_terms (cl : pyclass) (shaped : bool) : bool := match cl with CA1 => true | _ => shaped end.
Section PyEarly.
Context {N : Num}.
Notation T := (T N).
Notation columns := (columns N).
(** pyregpt.py:507-517, 567-583, pk_interp at one wavenumber.  If pk has one dimension, pk[0] is a number: numpy.interp raises ValueError for a table
    which is not an array, and pk[0] of an empty array raises IndexError. *)
Definition pk_interp_now (cl : pyclass) (shaped : bool) (c : columns) (k mu2 beta D left right : T) : res T :=
  if shaped then match cl with CA1 | CA2 => pk_interp_A c k mu2 beta D left right | _ => pk_interp_B c k mu2 beta D left right end
  else pk <- accessor cl "pk" c D ;; match pk with [] => Err (PyExc IndexError) | _ => Err (PyExc ValueError) end.
End PyEarly.
