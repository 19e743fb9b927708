(** PyNoWiggle: SpectrumNoWiggle.transfer and run_terms of pyregpt/pyregpt.py with their keywords and defaults. *)
From Coq Require Import ZArith List String.
From Verif Require Import Base Num Common Registry PyTerms.
Import ListNotations.
Local Open Scope string_scope.

Section PyNoWiggle.
Context {N : Num}.
Notation T := (T N).
Notation columns := (list (string * list T)).

(** pyregpt.py:163, the keywords of transfer; [None]: not given (or None, for Omega_m and Omega_b) *)
Record cosmology := mkCosmology { kw_h : option T; kw_omega_b : option T; kw_omega_m : option T; kw_T_cmb : option T; kw_Omega_m : option T; kw_Omega_b : option T }.
Definition given (o : option T) (default : T) : T := match o with Some x => x | None => default end.
(** pyregpt.py:163, the defaults *)
Definition par_h (a : cosmology) : T := given (kw_h a) (nlit N 676 3).
Definition par_T_cmb (a : cosmology) : T := given (kw_T_cmb a) (nlit N 27255 4).
(** pyregpt.py:165-166 *)
Definition par_omega_m (a : cosmology) : T :=
  match kw_Omega_m a with Some o => nmul N o (npow (par_h a) (nZ N 2)) | None => given (kw_omega_m a) (nlit N 21 2) end.
Definition par_omega_b (a : cosmology) : T :=
  match kw_Omega_b a with Some o => nmul N o (npow (par_h a) (nZ N 2)) | None => given (kw_omega_b a) (nlit N 22 3) end.
(** pyregpt.py:163-176, SpectrumNoWiggle.transfer *)
Definition transfer (c : columns) (a : cosmology) : res (list T) :=
  k <- getitem c "k" ;; Ok (map (transfer_row (par_h a) (par_omega_b a) (par_omega_m a) (par_T_cmb a)) k).
(** pyregpt.py:181-184, SpectrumNoWiggle.run_terms(pk, A, n_s, the keywords of transfer) *)
Definition run_terms_kw (c : columns) (pk : option (list T)) (A n_s : option T) (a : cosmology) : res columns :=
  run_terms_nowiggle c pk A (given n_s (nZ N 1)) (par_h a) (par_omega_b a) (par_omega_m a) (par_T_cmb a).
End PyNoWiggle.
