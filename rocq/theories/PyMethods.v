(** PyMethods: the methods of Terms which call the method pk of the class (pk_interp, sigmav, sigmar, sigma8), with their keywords. *)
From Coq Require Import ZArith List String Bool.
From Verif Require Import Base Num Common Registry PyTerms.
Import ListNotations.
Local Open Scope num_scope.

(** The keyword sigmad2: left out (or None), a number, an array *)
Inductive sigmad2_arg (A : Type) := Omitted | Number (x : A) | Array (v : list A).
Arguments Omitted {A}. Arguments Number {A}. Arguments Array {A}.
Section PyMethods.
Context {N : Num}.
Notation T := (T N).
Notation column := (list T).
Notation columns := (columns N).
(** The array numpy uses for sigmad2 in a product with n wavenumbers: a number, or an array of one element, is repeated.  (Several elements for an
    object of one wavenumber, which numpy accepts, raise ValueError here.) *)
Definition broadcast (n : nat) (g : sigmad2_arg T) : option column :=
  match g with Omitted => None | Number x => Some (repeat x n) | Array [x] => Some (repeat x n) | Array v => Some v end.
(** pyregpt.py:153-155, 186-188, 361-371, 391-403: self.pk(Dgrowth=D, sigmad2=g).  The pk of a linear spectrum takes no keyword sigmad2: the
    decorator hands it on, and Python raises TypeError.  Bias1Loop has no method pk.  (The A and B classes, whose pk has two dimensions, are in PyShaped.v;
    with a keyword sigmad2 they raise TypeError too.) *)
Definition pk_of (cl : pyclass) (c : columns) (D : T) (g : sigmad2_arg T) : res column :=
  match cl with
  | C1Loop => k <- getitem c "k" ;; pk_1loop c D (broadcast (List.length k) g)
  | C2Loop => k <- getitem c "k" ;; pk_2loop c D (broadcast (List.length k) g)
  | CBias => Err (PyExc AttributeError)
  | _ => match g with Omitted => accessor cl "pk" c D | _ => Err (PyExc TypeError) end
  end.
(** pyregpt.py:135-136, sigmav(Dgrowth=D, sigmad2=g) *)
Definition sigmav_of (cl : pyclass) (c : columns) (D : T) (g : sigmad2_arg T) : res T := sigmav c (pk_of cl c D g).
(** pyregpt.py:138-142, sigmar(r, Dgrowth=D, sigmad2=g) *)
Definition sigmar_of (cl : pyclass) (c : columns) (r D : T) (g : sigmad2_arg T) : res T := sigmar c r (pk_of cl c D g).
(** pyregpt.py:144-145, sigma8(Dgrowth=D, sigmad2=g) *)
Definition sigma8_of (cl : pyclass) (c : columns) (D : T) (g : sigmad2_arg T) : res T := sigmar_of cl c (#8) D g.
(** pyregpt.py:132-133, pk_interp(k, left, right, Dgrowth=D, sigmad2=g) at one wavenumber *)
Definition pk_interp_of (cl : pyclass) (c : columns) (k left right D : T) (g : sigmad2_arg T) : res T := pk_interp c k left right (pk_of cl c D g).
End PyMethods.
