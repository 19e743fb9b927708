(** PyHelpers: the wrappers interpol_poly, interpol_lin and nodes_weights_gauss_legendre of pyregpt/pyregpt.py. *)
From Coq Require Import ZArith List String Bool.
From Verif Require Import Base Num Common.
Import ListNotations.
Local Open Scope string_scope.

(** How a call from Python ends: with a value, with an exception, or with undefined behaviour of the C library. *)
Inductive ends (A : Type) := Returns (a : A) | Raises (e : string) | Undefined (u : ub).
Arguments Returns {A} a. Arguments Raises {A} e. Arguments Undefined {A} u.
Definition called {A} (r : res A) : ends A := match r with Ok a => Returns a | Err u => Undefined u end.

Section PyHelpers.
Context {N : Num}.
Notation T := (T N).

(** A numpy array of one dimension: [v_len] elements, [v_step] cells apart from each other, the first in cell [v_off] of
    the buffer [v_data].  [v_double] tells whether the type of the elements is double. *)
Record view := mkView { v_data : list T; v_off : Z; v_step : Z; v_len : Z; v_double : bool }.
(** numpy's v[i]; a negative i counts from the end *)
Definition v_item (v : view) (i : Z) : ends T :=
  if ((0 <=? i) && (i <? v_len v))%Z then called (rd (v_data v) (v_off v + i * v_step v))
  else if ((- v_len v <=? i) && (i <? 0))%Z then called (rd (v_data v) (v_off v + (v_len v + i) * v_step v))
  else Raises "IndexError".
(** ctypes: the array given for ndpointer(dtype=double, shape=(n,)) is passed as the address of its first element.  Its
    steps are not looked at. *)
Definition v_pointer (v : view) (n : Z) : ends (list T) :=
  if v_double v && (v_len v =? n)%Z then Returns (skipn (Z.to_nat (v_off v)) (v_data v)) else Raises "ArgumentError".
Definition then_ {A B} (m : ends A) (f : A -> ends B) : ends B :=
  match m with Returns a => f a | Raises e => Raises e | Undefined u => Undefined u end.

(** pyregpt.py:212-219, PyRegPT.interpol_poly *)
Definition py_interpol_poly (x : T) (tabx taby : view) : ends T :=
  let nx := v_len tabx in
  if negb (nx =? v_len taby)%Z then Raises "AssertionError" else
  then_ (v_pointer tabx nx) (fun px => then_ (v_pointer taby nx) (fun py => called (interpol_poly x px py nx))).
(** pyregpt.py:221-225, PyRegPT.interpol_lin *)
Definition py_interpol_lin (x : T) (tabx taby : view) : ends T :=
  then_ (v_item tabx 0) (fun x0 => then_ (v_item tabx (-1)) (fun x1 =>
  then_ (v_item taby 0) (fun y0 => then_ (v_item taby (-1)) (fun y1 => Returns (interpol_lin x x0 x1 y0 y1))))).
(** pyregpt.py:202-210, PyRegPT.nodes_weights_gauss_legendre.  [mem] is what happens to be in the memory of np.empty: the
    two arrays start with these elements.  A negative nx raises ValueError in np.empty. *)
Definition py_nodes_weights (fuel : nat) (mem : Z -> list T * list T) (xmin xmax : T) (nx : Z) : ends (list T * list T) :=
  if (nx <? 0)%Z then Raises "ValueError" else
  let '(x, w) := mem nx in called (nodes_weights_gauss_legendre fuel xmin xmax x w nx).
End PyHelpers.
Arguments view N : clear implicits.
