(** PyShaped: sigmav and sigmar of the objects whose column pk has several components per wavenumber (A1Loop, A2Loop, B1Loop, B2Loop), after reshape. *)
From Coq Require Import ZArith List String Bool.
From Verif Require Import Base Num Common Registry PyTerms.
Import ListNotations.
Local Open Scope num_scope.

Section PyShaped.
Context {N : Num}.
Notation T := (T N).
Notation columns := (columns N).
(** pyregpt.py:124-126, Terms.reshape: the array with n rows of m components *)
Definition reshape (v : list T) (n m : nat) : list (list T) := map (fun i => map (fun j => nth (i * m + j) v (#0)) (seq 0 m)) (seq 0 n).
(** The trapezoidal sum of one row with the same step everywhere *)
Fixpoint even_trapz (d : T) (y : list T) : T :=
  match y with y0 :: ((y1 :: _) as yt) => d * (y1 + y0) / #2 + even_trapz d yt | _ => #0 end.
(** scipy.integrate.trapz(y, x=x, axis=-1) for an array y of rows of m components and a 1-D array x: numpy.diff(x) takes the place of the
    last axis of y.  It must have m - 1 elements, or one, which is repeated; otherwise numpy raises ValueError. *)
Definition trapz_last (y : list (list T)) (m : nat) (x : list T) : res (list T) :=
  if Nat.eqb (List.length x) m then Ok (map (fun r => np_trapz r x) y)
  else match x with [x0; x1] => Ok (map (even_trapz (x1 - x0)) y) | _ => Err (PyExc ValueError) end.
(** pyregpt.py:135-136, Terms.sigmav(Dgrowth=D); m: components per wavenumber (SHAPE) *)
Definition sigmav_shaped (cl : pyclass) (m : nat) (c : columns) (D : T) : res (list T) :=
  pk <- accessor cl "pk" c D ;; k <- getitem c "k" ;;
  s <- trapz_last (reshape pk (List.length k) m) m k ;;
  Ok (map (fun t => nsqrt (#1 / #6 / npow npi #2 * t)) s).
(** pyregpt.py:138-142, Terms.sigmar(r, Dgrowth=D): numpy multiplies the last axis of pk, the components, by the array (w * k)**2, which has
    one element per wavenumber *)
Definition sigmar_shaped (cl : pyclass) (m : nat) (c : columns) (r D : T) : res (list T) :=
  k <- getitem c "k" ;; pk <- accessor cl "pk" c D ;;
  let f := map (fun k => let x := k * r in
                         let w := #3 * (nsin x - x * ncos x) / npow x #3 in
                         let wk := w * k in wk * wk) k in
  y <- match f with
       | [f0] => Ok (map (map (fun p => p * f0)) (reshape pk (List.length k) m))
       | _ => if Nat.eqb (List.length f) m then Ok (map (fun row => map (fun pf => fst pf * snd pf) (combine row f)) (reshape pk (List.length k) m)) else Err (PyExc ValueError)
       end ;;
  s <- trapz_last y m k ;;
  Ok (map (fun t => nsqrt (#1 / #2 / npow npi #2 * t)) s).
End PyShaped.
