(** PyPadMode: pad_k with its parameter mode. *)
From Coq Require Import ZArith List String Bool.
From Verif Require Import Base Num Common Registry PyTerms PyPad.
Import ListNotations.
Local Open Scope num_scope.

Section PyPadMode.
Context {N : Num}.
Notation T := (T N).
Notation columns := (columns N).
(** numpy.pad(v, (s, e), mode=mode, constant_values=x) of a 1-D array: numpy raises ValueError for a mode it does not know, and also for a
    mode it knows if it is given a keyword which is not of this mode; constant_values is a keyword of 'constant' alone.  (A function as mode is
    not modelled.) *)
Definition np_pad (v : list T) (s e : nat) (mode : string) (x : T) : res (list T) :=
  if (mode =? "constant")%string then Ok (pad v s e x) else Err (PyExc ValueError).
(** pyregpt.py:99-109, Terms.pad_k(k, mode, constant_values, **kw); [shaped]: the columns with several components are two-dimensional,
    and the width (0, 0, s, e) raises ValueError whatever the mode *)
Definition pad_k_mode (cl : pyclass) (shaped : bool) (c : columns) (k : list T) (mode : string) (x : T) (kw : list (string * list T)) : columns * outcome :=
  lift c (getitem c "k") (fun kk =>
  lift c (element kk 0) (fun k0 =>
  lift c (element kk (zlen kk - 1)) (fun k1 =>
  let s := List.length (filter (fun v => v <? k0) k) in
  let e := List.length (filter (fun v => v >? k1) k) in
  match each_field (fun c key => lift c (getitem c key) (fun v =>
          match ncomp cl key, shaped with
          | Some _, true => (c, Raised ValueError)
          | _, _ => lift c (np_pad v s e mode x) (fun w => (setitem c key w, Done))
          end)) c (fields cl) with
  | (c, Done) =>
    lift c (getitem c "k") (fun kk =>
    lift c (assign_first kk s (firstn s k)) (fun kk =>
    let c := setitem c "k" kk in
    lift c (assign_last kk e (last_slice k e)) (fun kk => pad_keywords (setitem c "k" kk) s e kw)))
  | r => r
  end))).
(** pyregpt.py:328-331, PyRegPT.pad_k(k, mode, constant_values, interpol) *)
Definition regpt_pad_k_mode (cl : pyclass) (shaped : bool) (c : columns) (pkl : Pk N) (k : list T) (mode : string) (x : T) (im : string) : columns * outcome :=
  match pad_k_mode cl shaped c k mode x [] with
  | (c, Done) =>
    let redo c key (f : list T -> res (list T)) (next : columns -> columns * outcome) :=
      if existsb (String.eqb key) (fields cl) then lift c (getitem c "k") (fun kk => lift c (f kk) (fun v => next (setitem c key v))) else next c in
    redo c "pk_lin"%string (fun kk => find_pk pkl kk (if (im =? "poly")%string then POLY else LIN)) (fun c =>
    redo c "sigmad2"%string (fun kk => calc_running_sigmad2 pkl kk (5 //10^ 1)) (fun c => (c, Done)))
  | r => r
  end.
End PyPadMode.
