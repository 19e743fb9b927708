(** Registry: the precision settings of the library and the Python functions that change them. *)
From Coq Require Import ZArith List String Bool.
From Verif Require Import Base Num Common.
Import ListNotations.
Local Open Scope string_scope.
Local Open Scope num_scope.

(** How a Python call ends: normally, by an exception, or by calling a C function with arguments of other types than
    its parameters (undefined behaviour). *)
Inductive outcome := Done | Raised (e : exc) | BadCall.

(** Parameters of the exported setters: (n,min,max,interpol), (n,interpol), (min,max,interpol), (interpol), (uvcutoff). *)
Inductive signature := SigQ | SigMu | SigRange | SigInterpol | SigCutoff.
(** The functions exported under the name set_precision_<name>, by file:
    gamma1_1loop.c:72, gamma1_2loop.c:138, calc_pkcorr_from_gamma2.c:86,91, gamma2d_1loop.c:1897, gamma2t_1loop.c:1874,
    calc_pkcorr_from_gamma3.c:15, calc_pkcorr_from_bias_1loop.c:33,38, calc_pkcorr_from_A_1loop.c:87,92,
    calc_pkcorr_from_A_2loop_I.c:69,74, calc_pkcorr_from_A_2loop_II_III.c:26, calc_pkcorr_from_B.c:57,62,
    spectrum_1loop.c:17, spectrum_2loop.c:16, spectrum_bias_1loop.c:50, spectrum_A_1loop.c:19,24,
    spectrum_A_2loop.c:17,22, spectrum_B.c:19, bispectrum_1loop.c:63. *)
Definition exported_precision : list (string * signature) :=
  [("gamma1_1loop_q", SigQ); ("gamma1_2loop_q", SigQ); ("gamma2_tree_q", SigQ); ("gamma2_tree_mu", SigMu);
   ("gamma2d_1loop_q", SigQ); ("gamma2t_1loop_q", SigQ); ("gamma3_tree_q", SigRange);
   ("bias_1loop_q", SigQ); ("bias_1loop_mu", SigMu); ("A_1loop_q", SigQ); ("A_1loop_mu", SigMu);
   ("A_2loop_I_q", SigQ); ("A_2loop_I_mu", SigMu); ("A_2loop_II_III_q", SigRange); ("B_q", SigQ); ("B_mu", SigMu);
   ("spectrum_1loop_pk_lin", SigInterpol); ("spectrum_2loop_pk_lin", SigInterpol); ("bias_1loop_pk_lin", SigInterpol);
   ("A_1loop_pk_lin", SigInterpol); ("A_1loop_sigmad2", SigCutoff); ("A_2loop_pk_lin", SigInterpol);
   ("A_2loop_sigmad2", SigCutoff); ("B_pk_lin", SigInterpol); ("bispectrum_1loop_pk_lin", SigInterpol)].
(** set_running_uvcutoff_<name>: spectrum_1loop.c:22, spectrum_2loop.c:21, spectrum_bias_1loop.c:55, spectrum_B.c:24,
    bispectrum_1loop.c:68. *)
Definition exported_cutoff : list string := ["spectrum_1loop"; "spectrum_2loop"; "bias_1loop"; "B"; "bispectrum_1loop"].

(** getattr on the library, pyregpt.py:299 and :319, and the look-up of a key in a Python dict *)
Fixpoint assoc {A} (l : list (string * A)) (x : string) : option A :=
  match l with [] => None | (y, a) :: t => if (x =? y)%string then Some a else assoc t x end.
(** Python's [sub in s] on strings. *)
Fixpoint contains (sub s : string) : bool :=
  prefix sub s || match s with EmptyString => false | String _ t => contains sub t end.

Section Registry.
Context {N : Num}.
Notation T := (T N).

(** The static variables behind the setters, named as the setters: Precision structs (precision_q, precision_mu),
    interpol_pk_lin, and uvcutoff (named by the full name of its setter). *)
Record settings := mkSet { s_prec : string -> precision N; s_interpol : string -> interpol; s_cutoff : string -> T }.
Definition put {A} (f : string -> A) (x : string) (a : A) : string -> A := fun y => if (y =? x)%string then a else f y.
Definition put_prec st x p := mkSet (put (s_prec st) x p) (s_interpol st) (s_cutoff st).
Definition put_interpol st x i := mkSet (s_prec st) (put (s_interpol st) x i) (s_cutoff st).
Definition put_cutoff st x c := mkSet (s_prec st) (s_interpol st) (put (s_cutoff st) x c).

(** Initial values, precision_q_default and precision_mu_default of each file: gamma1_1loop.c:9, gamma1_2loop.c:9,
    calc_pkcorr_from_gamma2.c:11,13, gamma2d_1loop.c:1894, gamma2t_1loop.c:1871, calc_pkcorr_from_gamma3.c:10,
    calc_pkcorr_from_bias_1loop.c:11,13, calc_pkcorr_from_A_1loop.c:13,15, calc_pkcorr_from_A_2loop_I.c:16,18,
    calc_pkcorr_from_A_2loop_II_III.c:20, calc_pkcorr_from_B.c:17,19. *)
Definition default_precision (x : string) : precision N :=
  let wide n := mkPrec n (5 //10^ 4) (#10) POLY in
  let auto n := mkPrec n (- #1) (- #1) POLY in
  let angle n := mkPrec n (- #1) (#1) POLY in
  match assoc [("gamma1_1loop_q", wide 600%Z); ("gamma1_2loop_q", wide 500%Z); ("gamma2_tree_q", wide 200%Z);
     ("gamma2_tree_mu", angle 10%Z); ("gamma2d_1loop_q", wide 100%Z); ("gamma2t_1loop_q", wide 100%Z); ("gamma3_tree_q", wide 0%Z);
     ("bias_1loop_q", auto 2000%Z); ("bias_1loop_mu", angle 20%Z); ("A_1loop_q", auto 2000%Z); ("A_1loop_mu", angle 20%Z);
     ("A_2loop_I_q", wide 300%Z); ("A_2loop_I_mu", angle 10%Z); ("A_2loop_II_III_q", wide 0%Z); ("B_q", wide 600%Z);
     ("B_mu", angle 10%Z)] x with Some p => p | None => auto 0%Z end.
(** The library when it has just been loaded.  All interpol_pk_lin are POLY and all uvcutoff 0.5. *)
Definition fresh_settings : settings := mkSet default_precision (fun _ => POLY) (fun _ => 5 //10^ 1).

(** The C strings of the setters, src/common.c:255-266. *)
Definition interpol_string (s : string) : istr := if (s =? "poly")%string then s_poly else if (s =? "lin")%string then s_lin else s_other.

(** The bodies of the exported setters.  Parameters: what Python has put in the argument registers. *)
Definition c_set_q (x : string) (n : Z) (mn mx : T) (s : string) (st : settings) : settings :=
  put_prec st x (fst (set_precision (s_prec st x) n mn mx (interpol_string s) (default_precision x))).
(** calc_pkcorr_from_gamma2.c:91-94 and the same in the other files: the range arguments are 1 and -1 *)
Definition c_set_mu (x : string) (n : Z) (s : string) (st : settings) : settings :=
  put_prec st x (fst (set_precision (s_prec st x) n (#1) (- #1) (interpol_string s) (default_precision x))).
(** calc_pkcorr_from_gamma3.c:15-18, calc_pkcorr_from_A_2loop_II_III.c:26-29: n is 0 *)
Definition c_set_range (x : string) (mn mx : T) (s : string) (st : settings) : settings :=
  put_prec st x (fst (set_precision (s_prec st x) 0 mn mx (interpol_string s) (default_precision x))).
(** spectrum_1loop.c:17-20 and the same in the other files *)
Definition c_set_interpol (x : string) (s : string) (st : settings) : settings :=
  put_interpol st x (fst (set_interpol (s_interpol st x) (interpol_string s))).

(** Statements one after the other, in PyRegPT.set_precision and set_running_uvcutoff (pyregpt.py:266-321): an exception ends them. [each]: a loop over names, :269-297, :316-318 *)
Definition andthen (o : settings * outcome) (f : settings -> settings * outcome) : settings * outcome :=
  let '(st, r) := o in match r with Done => f st | _ => (st, r) end.
Definition each (f : string -> settings -> settings * outcome) (names : list string) (st : settings) : settings * outcome :=
  fold_left (fun o c => andthen o (f c)) names (st, Done).

(** pyregpt.py:299-311, the end of PyRegPT.set_precision: look the C function up and call it.  [n] is converted to
    size_t by ctypes, which wraps. *)
Definition call_setter (calculation : string) (n : Z) (mn mx : T) (s : string) (st : settings) : settings * outcome :=
  match assoc exported_precision calculation with
  | None => (st, Raised AttributeError)
  | Some sg =>
    if contains "pk_lin" calculation then
      match sg with SigInterpol => (c_set_interpol calculation s st, Done) | _ => (st, BadCall) end
    else if (calculation =? "gamma3_tree_q")%string || (calculation =? "A_2loop_II_III_q")%string then
      match sg with SigRange => (c_set_range calculation mn mx s st, Done) | _ => (st, BadCall) end
    else if contains "mu" calculation then
      match sg with SigMu => (c_set_mu calculation (u64 n) s st, Done) | _ => (st, BadCall) end
    else
      match sg with SigQ => (c_set_q calculation (u64 n) mn mx s st, Done) | _ => (st, BadCall) end
  end.

(** pyregpt.py:283-311, the part of set_precision after the test for 'spectrum_1loop_q' *)
Definition set_precision_rest (self : string -> settings -> settings * outcome) (calculation : string) (n : Z) (mn mx : T) (s : string)
    (st : settings) : settings * outcome :=
  if (calculation =? "spectrum_2loop_q")%string then
    each self ["gamma1_1loop_q"; "gamma1_2loop_q"; "gamma2_tree_q"; "gamma2_1loop_q"; "gamma3_tree_q"] st
  else if (calculation =? "gamma2_1loop_q")%string then each self ["gamma2d_1loop_q"; "gamma2t_1loop_q"] st
  else if (calculation =? "A_2loop_q")%string then each self ["A_2loop_I_q"; "A_2loop_II_III_q"] st
  else if (calculation =? "all_pklin")%string then
    each self ["spectrum_1loop_pk_lin"; "spectrum_2loop_pk_lin"; "bias_pk_lin"; "bispectrum_1loop_pk_lin"; "spectrum_A_2loop_pklin"; "spectrum_B_2loop_pklin"] st
  else call_setter calculation n mn mx s st.
(** pyregpt.py:266-311, PyRegPT.set_precision.  'spectrum_1loop_q' has no return: the loop variable is the function's
    argument, so the function goes on with the last member.  [fuel] bounds the depth of the recursion. *)
Fixpoint py_set_precision (fuel : nat) (calculation : string) (n : Z) (mn mx : T) (s : string) (st : settings) : settings * outcome :=
  match fuel with
  | O => (st, Raised ValueError)
  | S fuel =>
    let self c := py_set_precision fuel c n mn mx s in
    if (calculation =? "all")%string then each self ["all_q"; "all_mu"] st
    else if (calculation =? "all_q")%string then each self ["spectrum_2loop_q"; "bias_1loop_q"; "A_2loop_q"; "B_q"] st
    else if (calculation =? "all_mu")%string then each self ["gamma2_tree_mu"; "bias_1loop_mu"; "A_2loop_I_mu"; "B_mu"] st
    else if (calculation =? "spectrum_1loop_q")%string then
      andthen (each self ["gamma1_1loop_q"; "gamma2_tree_q"] st) (set_precision_rest self "gamma2_tree_q" n mn mx s)
    else set_precision_rest self calculation n mn mx s st
  end.

(** pyregpt.py:319-321: look the C function up and call it *)
Definition call_cutoff (calculation : string) (uvcutoff : T) (st : settings) : settings * outcome :=
  if existsb (String.eqb calculation) exported_cutoff
  then (put_cutoff st ("set_running_uvcutoff_" ++ calculation) uvcutoff, Done) else (st, Raised AttributeError).
(** pyregpt.py:313-321, PyRegPT.set_running_uvcutoff *)
Fixpoint py_set_cutoff (fuel : nat) (calculation : string) (uvcutoff : T) (st : settings) : settings * outcome :=
  match fuel with
  | O => (st, Raised ValueError)
  | S fuel =>
    if (calculation =? "all")%string then
      each (fun c => py_set_cutoff fuel c uvcutoff) ["spectrum_1loop"; "spectrum_2loop"; "bispectrum_1loop"; "bias_1loop"] st
    else call_cutoff calculation uvcutoff st
  end.

(** pyregpt.py:333-337, PyRegPT.clear; the verbosity is in Process.v *)
Definition py_clear (fuel : nat) (st : settings) : settings * outcome :=
  andthen (py_set_precision fuel "all" 0 (#1) (- #1) "test" st) (py_set_cutoff fuel "all" (5 //10^ 1)).
End Registry.
Arguments settings N : clear implicits.
Arguments fresh_settings N : clear implicits.
