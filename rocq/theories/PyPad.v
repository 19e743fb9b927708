(** PyPad: pad_k with keyword columns, and pad_k of the classes which have a linear spectrum. *)
From Coq Require Import ZArith List String Bool.
From Verif Require Import Base Num Common Registry PyTerms.
Import ListNotations.
Local Open Scope num_scope.

Section PyPad.
Context {N : Num}.
Notation T := (T N).
Notation columns := (columns N).
(** pyregpt.py:107-109, the loop over the keyword columns of Terms.pad_k; [s], [e]: the numbers of elements put before and after *)
Fixpoint pad_keywords (c : columns) (s e : nat) (kw : list (string * list T)) : columns * outcome :=
  match kw with
  | [] => (c, Done)
  | (key, w) :: kw =>
    lift c (getitem c key) (fun v =>
    lift c (assign_first v s (firstn s w)) (fun v =>
    let c := setitem c key v in
    lift c (assign_last v e (last_slice w e)) (fun v => pad_keywords (setitem c key v) s e kw)))
  end.
(** pyregpt.py:99-109, Terms.pad_k(k, constant_values=x, **kw) *)
Definition pad_k_with (cl : pyclass) (shaped : bool) (c : columns) (k : list T) (x : T) (kw : list (string * list T)) : columns * outcome :=
  lift c (getitem c "k") (fun kk =>
  lift c (element kk 0) (fun k0 =>
  lift c (element kk (zlen kk - 1)) (fun k1 =>
  match pad_k cl shaped c k x with
  | (c, Done) => pad_keywords c (List.length (filter (fun v => v <? k0) k)) (List.length (filter (fun v => v >? k1) k)) kw
  | r => r
  end))).
(** pyregpt.py:328-331, PyRegPT.pad_k; [pkl]: the linear spectrum of the library.  The cutoff of the running variance is the default
    of calc_running_sigmad2 (237), not the one set with set_running_uvcutoff.  Undefined behaviour in a lookup ends as [BadCall]. *)
Definition regpt_pad_k (cl : pyclass) (shaped : bool) (c : columns) (pkl : Pk N) (k : list T) (x : T) (im : string) : columns * outcome :=
  match pad_k cl shaped c k x with
  | (c, Done) =>
    let redo c key (f : list T -> res (list T)) (next : columns -> columns * outcome) :=
      if existsb (String.eqb key) (fields cl) then lift c (getitem c "k") (fun kk => lift c (f kk) (fun v => next (setitem c key v))) else next c in
    redo c "pk_lin"%string (fun kk => find_pk pkl kk (if (im =? "poly")%string then POLY else LIN)) (fun c =>
    redo c "sigmad2"%string (fun kk => calc_running_sigmad2 pkl kk (5 //10^ 1)) (fun c => (c, Done)))
  | r => r
  end.
End PyPad.
