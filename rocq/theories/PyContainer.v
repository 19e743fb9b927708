(** PyContainer: class Terms of pyregpt/pyregpt.py as a container: rows chosen by an index, and the columns as a dict. *)
From Coq Require Import ZArith List String Bool.
From Verif Require Import Base Num Common Registry PyTerms.
Import ListNotations.
Local Open Scope string_scope.

(** What may stand between the brackets of o[...], beside a name: start:stop:step, an array of booleans, an array of
    integers.  (A single integer, which gives columns without an axis, is not modelled.) *)
Inductive index := Rows (start stop : option Z) (step : Z) | Mask (l : list bool) | Take (l : list Z).
(** Python's slice.indices(n): a bound of a slice of n elements *)
Definition bound (n step : Z) (b : option Z) (default : Z) : Z :=
  let lower := if (step <? 0)%Z then (-1)%Z else 0%Z in let upper := if (step <? 0)%Z then (n - 1)%Z else n in
  match b with
  | None => default
  | Some b => if (b <? 0)%Z then Z.max (b + n) lower else Z.min b upper
  end.
(** The positions range(start, stop, step) goes through *)
Definition range (start stop step : Z) : list Z :=
  let count := if (0 <? step)%Z then ((stop - start + step - 1) / step)%Z else ((start - stop - step - 1) / - step)%Z in
  map (fun i => (start + Z.of_nat i * step)%Z) (seq 0 (Z.to_nat count)).
(** The rows of an array of n rows which an index chooses, in order *)
Definition positions (n : Z) (ix : index) : res (list Z) :=
  match ix with
  | Rows a b s =>
    if (s =? 0)%Z then Err (PyExc ValueError) else
    Ok (range (bound n s a (if (s <? 0)%Z then (n - 1)%Z else 0%Z)) (bound n s b (if (s <? 0)%Z then (-1)%Z else n)) s)
  | Mask l => if (zlen l =? n)%Z then Ok (map (fun ib => Z.of_nat (fst ib)) (filter snd (combine (seq 0 (List.length l)) l))) else Err (PyExc IndexError)
  | Take l => if forallb (fun i => (- n <=? i) && (i <? n))%Z l then Ok (map (fun i => if (i <? 0)%Z then (n + i)%Z else i) l) else Err (PyExc IndexError)
  end.
(** Components per row: SHAPE, pyregpt.py:35, 484, 540.  The columns have the shape given by Terms.reshape. *)
Definition width (cl : pyclass) (x : string) : Z := match ncomp cl x with Some m => m | None => 1%Z end.

Section PyContainer.
Context {N : Num}.
Notation T := (T N).
Notation column := (list T).
Notation columns := (list (string * list T)).

(** numpy: v[ix] of an array with m components per row *)
Definition pick (m : Z) (v : column) (ix : index) : res column :=
  ps <- positions (zlen v / m) ix ;; Ok (flat_map (fun p => firstn (Z.to_nat m) (skipn (Z.to_nat (p * m)) v)) ps).
(** pyregpt.py:61-62, Terms.__getitem__ with an index: the columns of the new object *)
Fixpoint select (cl : pyclass) (c : columns) (ix : index) : res columns :=
  match c with
  | [] => Ok []
  | (x, v) :: t => w <- pick (width cl x) v ix ;; t' <- select cl t ix ;; Ok ((x, w) :: t')
  end.
(** numpy: v[ix] = e with a number e *)
Definition put (m : Z) (v : column) (ix : index) (e : T) : res column :=
  ps <- positions (zlen v / m) ix ;;
  Ok (fold_left (fun v p => firstn (Z.to_nat (p * m)) v ++ repeat e (Z.to_nat m) ++ skipn (Z.to_nat ((p + 1) * m)) v)%list ps v).
(** pyregpt.py:67-69, Terms.__setitem__ with an index and a number *)
Fixpoint set_rows (cl : pyclass) (c : columns) (ix : index) (e : T) : res columns :=
  match c with
  | [] => Ok []
  | (x, v) :: t => w <- put (width cl x) v ix e ;; t' <- set_rows cl t ix e ;; Ok ((x, w) :: t')
  end.

(** pyregpt.py:71-72, Terms.__contains__ *)
Definition has (c : columns) (x : string) : bool := match assoc c x with Some _ => true | None => false end.
(** pyregpt.py:74-76, Terms.__iter__ *)
Definition iter (cl : pyclass) (c : columns) : list string := filter (has c) (fields cl).
(** pyregpt.py:78-79, Terms.tolist *)
Definition tolist (cl : pyclass) (c : columns) : res (list column) := getitems c (iter cl c).
(** pyregpt.py:81-82, Terms.pop: dict.pop without a default *)
Definition pop (c : columns) (x : string) : columns * res column :=
  match assoc c x with
  | Some v => (filter (fun yw => negb (fst yw =? x)) c, Ok v)
  | None => (c, Err (PyExc KeyError))
  end.
(** pyregpt.py:84-86, Terms.as_dict *)
Definition as_dict (c : columns) (names : option (list string)) : res columns :=
  let names := match names with Some l => l | None => map fst c end in
  vs <- getitems c names ;; Ok (combine names vs).

(** The statements o[name] = v and o.pop(name) of a program; an exception of pop is caught by it. *)
Inductive event := Put (x : string) (v : column) | Pop (x : string).
Definition happen (c : columns) (e : event) : columns :=
  match e with Put x v => setitem c x v | Pop x => fst (pop c x) end.
Definition history (l : list event) (c : columns) : columns := fold_left happen l c.
End PyContainer.
