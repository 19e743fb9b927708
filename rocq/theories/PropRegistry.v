(** PropRegistry: the precision settings as changed through Python (C20, C21, C22, C67).  Notions: SpecRegistry.v.
    For every arithmetic [N]; [fuel] bounds the depth of Python's recursion, 5 is enough. *)
From Coq Require Import ZArith List String Bool Lia Reals Floats.
From Verif Require Import Base Num Common Registry SpecRegistry ProofRegistry.
Import ListNotations.
Local Open Scope string_scope.

(** ** C20 *)
Theorem C20_groups {N} fuel g ms n mn mx s (st : settings N) : (5 <= fuel)%nat -> In (g, ms) groups ->
  sets_exactly ms n mn mx s st (py_set_precision fuel g n mn mx s st).
Proof. exact (group_call n mn mx s fuel g ms st). Qed.
Print Assumptions C20_groups.
Theorem C20_single {N} fuel x n mn mx s (st : settings N) : (1 <= fuel)%nat -> In x all_settings ->
  sets_exactly [x] n mn mx s st (py_set_precision fuel x n mn mx s st).
Proof. exact (leaf_exactly n mn mx s fuel x st). Qed.
Print Assumptions C20_single.
Theorem C20_interpolation {N} fuel x n mn mx s (st : settings N) : (1 <= fuel)%nat -> In x interpolations ->
  py_set_precision fuel x n mn mx s st = (put_interpol st x (fst (set_interpol (s_interpol st x) (interpol_string s))), Done).
Proof. exact (interpolation_call n mn mx s fuel x st). Qed.
Print Assumptions C20_interpolation.
(** Any other name raises and changes nothing. *)
Theorem C20_unknown {N} fuel c n mn mx s (st : settings N) : (1 <= fuel)%nat -> ~ In c group_names -> assoc exported_precision c = None ->
  py_set_precision fuel c n mn mx s st = (st, Raised AttributeError).
Proof. exact (unknown_call n mn mx s fuel c st). Qed.
Print Assumptions C20_unknown.
(** After any history of calls the angular range is -1..1. *)
Theorem C20_angles {N} fuel ops x : one_above (N := N) -> (5 <= fuel)%nat -> In x (angular ++ ["A_1loop_mu"]) ->
  pr_min (s_prec (after fuel ops (fresh_settings N)) x) = nopp N (nZ N 1) /\ pr_max (s_prec (after fuel ops (fresh_settings N)) x) = nZ N 1.
Proof. exact (fun H Hf Hx => history_angles fuel ops H Hf (fresh_settings N) fresh_angles x Hx). Qed.
Print Assumptions C20_angles.
Example C20_ex lm : one_above (N := RNum) /\ one_above (N := FNum lm) /\
  pr_n (s_prec (fst (py_set_precision 5 "spectrum_1loop_q" 7 (nZ (FNum lm) 1) (nZ (FNum lm) 2) "lin" (fresh_settings (FNum lm)))) "gamma2_tree_q") = 7%Z /\
  assoc exported_precision "bias_pk_lin" = None.
Proof. split; [exact one_above_R|]. repeat split. Qed.

(** ** C21: clear() resets exactly the members of 'all' and four of the cutoffs... *)
Theorem C21_effect {N} fuel (st : settings N) : one_above (N := N) -> (5 <= fuel)%nat -> exists st', py_clear fuel st = (st', Done) /\
  (forall x, s_prec st' x = if existsb (String.eqb x) (radial ++ angular) then default_precision x else s_prec st x) /\
  (forall x, s_interpol st' x = s_interpol st x) /\
  (forall x, s_cutoff st' x = if existsb (String.eqb x) (map (append "set_running_uvcutoff_") ["spectrum_1loop"; "spectrum_2loop"; "bispectrum_1loop"; "bias_1loop"]) then nlit N 5 1 else s_cutoff st x).
Proof. exact (clear_effect fuel st). Qed.
Print Assumptions C21_effect.
(** ... so that settings of the first-order A term, an interpolation and the cutoff of B survive it. *)
Theorem C21_refuted lm : exists ops, let N := FNum lm in let st := after (N := N) 5 (ops ++ [OpClear]) (fresh_settings N) in
  pr_n (s_prec st "A_1loop_q") = 7%Z /\ pr_n (s_prec (fresh_settings N) "A_1loop_q") = 2000%Z /\
  s_interpol st "B_pk_lin" = LIN /\ s_interpol (fresh_settings N) "B_pk_lin" = POLY /\
  s_cutoff st "set_running_uvcutoff_B" = nZ N 2 /\ nlt N (s_cutoff (fresh_settings N) "set_running_uvcutoff_B") (nZ N 2) = true.
Proof.
  exact (ex_intro _ [OpPrecision (N := FNum lm) "A_1loop_q" 7 (nZ (FNum lm) 1) (nZ (FNum lm) 0) "test"; OpPrecision (N := FNum lm) "B_pk_lin" 0 (nZ (FNum lm) 1) (nZ (FNum lm) 0) "lin"; OpCutoff (N := FNum lm) "B" (nZ (FNum lm) 2)]
    (conj eq_refl (conj eq_refl (conj eq_refl (conj eq_refl (conj eq_refl eq_refl)))))).
Qed.
Print Assumptions C21_refuted.

(** ** C22: set_precision('all_pklin') raises for every argument and state, after setting the first two. *)
Theorem C22_refuted {N} fuel n mn mx s (st : settings N) : (2 <= fuel)%nat ->
  let new x := fst (set_interpol (s_interpol st x) (interpol_string s)) in
  py_set_precision fuel "all_pklin" n mn mx s st =
  (put_interpol (put_interpol st "spectrum_1loop_pk_lin" (new "spectrum_1loop_pk_lin")) "spectrum_2loop_pk_lin" (new "spectrum_2loop_pk_lin"), Raised AttributeError).
Proof. exact (all_pklin_call n mn mx s fuel st). Qed.
Print Assumptions C22_refuted.

(** ** C67: set_running_uvcutoff *)
Theorem C67_single {N} fuel c u (st : settings N) : (1 <= fuel)%nat -> In c exported_cutoff -> exists st', py_set_cutoff fuel c u st = (st', Done) /\
  (forall x, s_cutoff st' x = if (x =? "set_running_uvcutoff_" ++ c)%string then u else s_cutoff st x) /\
  (forall x, s_prec st' x = s_prec st x) /\ (forall x, s_interpol st' x = s_interpol st x).
Proof. exact (cutoff_single fuel c u st). Qed.
Print Assumptions C67_single.
(** 'all' misses the cutoff of B, and those of the A terms, which have setters of another name that Python calls with
    the wrong arguments. *)
Theorem C67_all_refuted {N} fuel u (st : settings N) : (2 <= fuel)%nat -> exists st', py_set_cutoff fuel "all" u st = (st', Done) /\
  s_cutoff st' "set_running_uvcutoff_B" = s_cutoff st "set_running_uvcutoff_B" /\
  (forall n mn mx s, py_set_precision fuel "A_1loop_sigmad2" n mn mx s st = (st, BadCall)) /\
  (forall n mn mx s, py_set_precision fuel "A_2loop_sigmad2" n mn mx s st = (st, BadCall)).
Proof. exact (cutoff_all_misses fuel u st). Qed.
Print Assumptions C67_all_refuted.
