(** SpecContainer: rows of an array, and the columns of an object after a history of assignments. *)
From Coq Require Import List ZArith String Bool.
From Verif Require Import Base Num Registry PyTerms PyContainer.
Import ListNotations.
Local Open Scope Z_scope.

(** [w] consists of the rows [ps] of [v], in this order; a row is [m] numbers. *)
Definition chosen {A} (m : Z) (v : list A) (ps : list Z) (w : list A) : Prop :=
  zlen w = zlen ps * m /\
  forall j r, 0 <= j < zlen ps -> 0 <= r < m ->
    nth_error w (Z.to_nat (j * m + r)) = nth_error v (Z.to_nat (nth (Z.to_nat j) ps 0 * m + r)) /\ nth_error w (Z.to_nat (j * m + r)) <> None.
(** Every column has [n] rows. *)
Definition rows_are {N} (n : Z) (cl : pyclass) (c : list (string * list (T N))) : Prop :=
  forall x v, In (x, v) c -> zlen v = n * width cl x.
(** What the history last said about a name: the column put there, or nothing *)
Fixpoint said {N} (l : list (@event N)) (x : string) (before : option (list (T N))) : option (list (T N)) :=
  match l with
  | [] => before
  | Put y v :: t => said t x (if (y =? x)%string then Some v else before)
  | Pop y :: t => said t x (if (y =? x)%string then None else before)
  end.
(** The functions from an object and Dgrowth to a column, with one number per wavenumber or, for the A and B terms, several *)
Inductive reading := Scaled (x : string) | Sigma3sq | Damped (x : string) | Pk1 | Pk2 | Shotnoise.
Definition read_off {N} (cl : pyclass) (f : reading) (c : list (string * list (T N))) (D : T N) (sigmad2 : option (@column N)) (kmin kmax : T N) : res (list (T N)) :=
  match f with
  | Scaled x => accessor cl x c D
  | Sigma3sq => pk_sigma3sq c D
  | Damped x => pk_damped x c D sigmad2
  | Pk1 => pk_1loop c D sigmad2
  | Pk2 => pk_2loop c D sigmad2
  | Shotnoise => shotnoise c kmin kmax
  end.
(** The class has the method: pyregpt.py:153, 186, 357-371, 391-403, 411-477, 486-492, 542-548 *)
Definition offers (cl : pyclass) (f : reading) : Prop :=
  match f with
  | Scaled _ => True
  | Sigma3sq | Shotnoise | Damped _ => cl = CBias
  | Pk1 => cl = C1Loop
  | Pk2 => cl = C2Loop
  end.
(** Numbers per wavenumber *)
Definition numbers (cl : pyclass) (f : reading) : Z := match f with Scaled x => width cl x | _ => 1 end.
