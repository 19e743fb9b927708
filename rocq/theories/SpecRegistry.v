(** SpecRegistry: what the names accepted by set_precision stand for. *)
From Coq Require Import ZArith List String Bool.
From Verif Require Import Base Num Common Registry.
Import ListNotations.
Local Open Scope string_scope.

(** The settings each group name stands for. *)
Definition radial_1loop := ["gamma1_1loop_q"; "gamma2_tree_q"].
Definition radial_2loop := ["gamma1_1loop_q"; "gamma1_2loop_q"; "gamma2_tree_q"; "gamma2d_1loop_q"; "gamma2t_1loop_q"; "gamma3_tree_q"].
Definition radial := (radial_2loop ++ ["bias_1loop_q"; "A_2loop_I_q"; "A_2loop_II_III_q"; "B_q"])%list.
Definition angular := ["gamma2_tree_mu"; "bias_1loop_mu"; "A_2loop_I_mu"; "B_mu"].
Definition groups : list (string * list string) :=
  [("all", (radial ++ angular)%list); ("all_q", radial); ("all_mu", angular); ("spectrum_1loop_q", radial_1loop); ("spectrum_2loop_q", radial_2loop);
   ("gamma2_1loop_q", ["gamma2d_1loop_q"; "gamma2t_1loop_q"]); ("A_2loop_q", ["A_2loop_I_q"; "A_2loop_II_III_q"])].
Definition group_names := (map fst groups ++ ["all_pklin"])%list.
(** All precision settings, radial, angular and ranges of the Monte-Carlo integrals. *)
Definition is_angular (x : string) := existsb (String.eqb x) (angular ++ ["A_1loop_mu"])%list.
Definition is_range (x : string) := existsb (String.eqb x) ["gamma3_tree_q"; "A_2loop_II_III_q"].
Definition radial_only := ["gamma1_1loop_q"; "gamma1_2loop_q"; "gamma2_tree_q"; "gamma2d_1loop_q"; "gamma2t_1loop_q"; "bias_1loop_q"; "A_1loop_q"; "A_2loop_I_q"; "B_q"].
Definition all_settings := (radial_only ++ ["gamma3_tree_q"; "A_2loop_II_III_q"] ++ angular ++ ["A_1loop_mu"])%list.
(** The interpolations of the linear spectrum. *)
Definition interpolations := ["spectrum_1loop_pk_lin"; "spectrum_2loop_pk_lin"; "bias_1loop_pk_lin"; "A_1loop_pk_lin"; "A_2loop_pk_lin"; "B_pk_lin"; "bispectrum_1loop_pk_lin"].

Section SpecRegistry.
Context {N : Num}.
(** The effect of one C call on one setting [p] (C19_set_precision gives it in words): angular settings have no range
    argument, Monte-Carlo ones no number of nodes. *)
Definition once (x : string) (n : Z) (mn mx : T N) (s : string) (p : precision N) : precision N :=
  let n := if is_range x then 0%Z else u64 n in
  let mn := if is_angular x then nZ N 1 else mn in
  let mx := if is_angular x then nopp N (nZ N 1) else mx in
  fst (set_precision p n mn mx (interpol_string s) (default_precision x)).
(** The call succeeds, sets exactly the members [ms], each once, and nothing else. *)
Definition sets_exactly (ms : list string) (n : Z) (mn mx : T N) (s : string) (st : settings N) (r : settings N * outcome) : Prop :=
  snd r = Done /\
  (forall x, s_prec (fst r) x = if existsb (String.eqb x) ms then once x n mn mx s (s_prec st x) else s_prec st x) /\
  (forall x, s_interpol (fst r) x = s_interpol st x) /\ (forall x, s_cutoff (fst r) x = s_cutoff st x).

(** Operations on the settings offered by the Python API, and the state after a sequence of them, whatever exceptions
    the caller has caught on the way. *)
Inductive op := OpPrecision (calculation : string) (n : Z) (mn mx : T N) (s : string) | OpCutoff (calculation : string) (uvcutoff : T N) | OpClear.
Definition apply_op (fuel : nat) (o : op) (st : settings N) : settings N * outcome :=
  match o with
  | OpPrecision c n mn mx s => py_set_precision fuel c n mn mx s st
  | OpCutoff c u => py_set_cutoff fuel c u st
  | OpClear => py_clear fuel st
  end.
Definition after (fuel : nat) (ops : list op) (st : settings N) : settings N := fold_left (fun st o => fst (apply_op fuel o st)) ops st.
(** -1 is less than 1. *)
Definition one_above : Prop := nle N (nZ N 1) (nopp N (nZ N 1)) = false.
End SpecRegistry.
