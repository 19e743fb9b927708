(** PropProcess: programs using the Python objects.  [reached s]: some program has led to the state [s]. *)
From Coq Require Import ZArith List String Bool Reals.
From Verif Require Import Base Num Common Kernels Integrals Registry SpecRegistry Threads SpecThreads PyTerms Process SpecProcess ProofThreads8 ProofProcess19 ProofProcess29 ProofProcess30 ProofProcess31 ProofProcess32.
Import ListNotations.
Local Open Scope string_scope.

(** * C42: an object used in the documented order *)
(** set_pk_lin(K, P) and set_terms(ks), in either order, always succeed and leave the object ready. *)
Theorem C42_prepare {N} fuel suave1 suave12 (s : state N) o c sl K P ks : reached fuel suave1 suave12 s -> In o (vars s) -> class_of s o = Some c -> slot_of c = Some sl ->
  List.length P = List.length K -> printable s K -> printable s ks ->
  (exists s1 s2, step fuel suave1 suave12 (Set_pk_lin o K P) s = Fine s1 [] /\ step fuel suave1 suave12 (Set_terms o ks) s1 = Fine s2 [] /\ set_up s2 o K P ks /\ g_conf s2 = g_conf s) /\
  (exists s1 s2, step fuel suave1 suave12 (Set_terms o ks) s = Fine s1 [] /\ step fuel suave1 suave12 (Set_pk_lin o K P) s1 = Fine s2 [] /\ set_up s2 o K P ks /\ g_conf s2 = g_conf s).
Proof. exact (prepare fuel suave1 suave12 s o c sl K P ks). Qed.
Print Assumptions C42_prepare.
(** Whatever statements which leave the object alone follow (settings, other objects, threads see C33), run_terms succeeds
    and fills the columns of this object with the values for its own spectrum and wavenumbers, with the settings of the moment;
    a second run gives the same. *)
Theorem C42_run {N} fuel suave1 suave12 (s s' : state N) o c K P ks a b d dt ptt ps ss vals :
  reached fuel suave1 suave12 s -> set_up s o K P ks -> meanwhile fuel suave1 suave12 o s s' -> class_of s' o = Some c -> driver_of c (set_flag a) (set_flag b) = Some d -> ks <> [] -> (zlen K < SIZE_T)%Z ->
  spectra_are fuel suave1 suave12 (g_conf s') c (mk_table K P) K P dt ptt -> computes fuel (g_conf s') suave1 suave12 d (mk_table K P) dt ptt ks ps ss vals ->
  exists s1 s2, step fuel suave1 suave12 (Run_terms o a b) s' = Fine s1 [] /\ filled s1 o d ks ps ss vals /\ set_up s1 o K P ks /\
    step fuel suave1 suave12 (Run_terms o a b) s1 = Fine s2 [] /\ filled s2 o d ks ps ss vals /\ set_up s2 o K P ks.
Proof. exact (run_claim fuel suave1 suave12 s s' o c K P ks a b d dt ptt ps ss vals). Qed.
Print Assumptions C42_run.
(** find_pk_lin and calc_running_sigmad2 work on the spectrum given, as C01 and C03 describe, and change nothing. *)
Theorem C42_look_up {N} fuel suave1 suave12 (s s' : state N) o c K P : reached fuel suave1 suave12 s -> has_lin s o K P -> meanwhile fuel suave1 suave12 o s s' -> class_of s' o = Some c -> has_ctype c = true ->
  (forall k im v, find_pk (mk_table K P) k (if (im =? "poly")%string then POLY else LIN) = Ok v -> step fuel suave1 suave12 (Find_pk_lin o k im) s' = Fine s' v) /\
  (forall k uv v, calc_running_sigmad2 (mk_table K P) k uv = Ok v -> step fuel suave1 suave12 (Sigmad2 o k uv) s' = Fine s' v).
Proof. exact (look_up fuel suave1 suave12 s s' o c K P). Qed.
Print Assumptions C42_look_up.
(** Every class, a spectrum of two points, three wavenumbers: the hypotheses hold, with another object at work in between. *)
Example C42_ex c sl a b : slot_of c = Some sl -> exists s s' d dt ptt ps ss vals, reached (N := RNum) 2 suave1_ex suave12_ex s /\ set_up s 0 k_ex p_ex ks_ex /\ meanwhile (N := RNum) 2 suave1_ex suave12_ex 0 s s' /\ objects s' <> objects s /\
  class_of s' 0 = Some c /\ driver_of c (set_flag a) (set_flag b) = Some d /\ spectra_are (N := RNum) 2 suave1_ex suave12_ex (g_conf s') c (mk_table (N := RNum) k_ex p_ex) k_ex p_ex dt ptt /\
  computes (N := RNum) 2 (g_conf s') suave1_ex suave12_ex d (mk_table (N := RNum) k_ex p_ex) dt ptt ks_ex ps ss vals.
Proof. exact (ex_run c sl a b). Qed.

(** * C40: set_terms gives every pointer of the library the column of the same name *)
Theorem C40_binding {N} fuel suave1 suave12 (s : state N) o c sl ks : reached fuel suave1 suave12 s -> In o (vars s) -> class_of s o = Some c -> slot_of c = Some sl -> printable s ks ->
  exists s', step fuel suave1 suave12 (Set_terms o ks) s = Fine s' [] /\ terms_are s' o c sl ks /\ column_of s' o "k" = Some ks /\
    forall x, In x (fields c) -> x <> "k" -> column_of s' o x = Some (repeat (nZ N 0) (Z.to_nat (zlen ks * comps c x))).
Proof. exact (binding fuel suave1 suave12 s o c sl ks). Qed.
Print Assumptions C40_binding.
(** The names of the fields of the C struct, in the order of the arguments of the C setter, are those of the columns in the
    order Python passes them, but for pk, which is A or B. *)
Theorem C40_names c sl : slot_of c = Some sl -> c_fields sl = map (c_name c) (fields c) /\ NoDup (c_fields sl).
Proof. exact (names c sl). Qed.
Print Assumptions C40_names.
(** The columns have the sizes of the arrays which run_terms writes: all cells it writes are elements of columns. *)
Theorem C40_sizes {N} (s : state N) o c sl ks a b d ik y i : terms_are s o c sl ks -> driver_of c a b = Some d -> (0 <= ik < zlen ks)%Z -> In (Arr y i) (cells_of d ik) ->
  exists x, In x (fields c) /\ x <> "k" /\ y = c_name c x /\ (0 <= i < zlen ks * comps c x)%Z.
Proof. exact (sizes s o c sl ks a b d ik y i). Qed.
Print Assumptions C40_sizes.
Example C40_ex c sl : slot_of c = Some sl -> exists s, reached (N := RNum) 2 suave1_ex suave12_ex s /\ In 0%nat (vars s) /\ class_of s 0 = Some c /\ printable (N := RNum) s ks_ex /\ printable (N := RNum) s k_ex.
Proof. exact (ex_new c sl). Qed.

(** * C23: results depend only on current settings *)
(** No statement but set_precision, set_running_uvcutoff and clear changes settings, except two ranges which were automatic; *)
Theorem C23_settings {N} fuel suave1 suave12 (s : state N) p : reached fuel suave1 suave12 s -> configures p = false -> after (step fuel suave1 suave12 p s) (fun s' => latched (g_conf s) (g_conf s')).
Proof. exact (settings_kept fuel suave1 suave12 s p). Qed.
Print Assumptions C23_settings.
(** such a change does not matter to a run whose ranges were not automatic, nor to one without Monte-Carlo integrals. *)
Theorem C23_values {N} fuel suave1 suave12 (st st' : settings N) d pkl dt ptt k : latched st st' -> automatic_of st d = false ->
  value_of fuel st' suave1 suave12 d pkl dt ptt k = value_of fuel st suave1 suave12 d pkl dt ptt k.
Proof. exact (ProofProcess17.latched_value fuel suave1 suave12 st st' d pkl dt ptt k). Qed.
Print Assumptions C23_values.
(** With an automatic range, the Monte-Carlo integrals of Spectrum2Loop and A2Loop keep the range of the spectrum of the first
    run, for any later spectrum. *)
Theorem C23_range_refuted {N} fuel suave1 suave12 (s : state N) o c K P ks a b d x dt ptt ps ss vals k0 k1 K2 P2 :
  reached fuel suave1 suave12 s -> set_up s o K P ks -> class_of s o = Some c -> driver_of c (set_flag a) (set_flag b) = Some d -> latch_of d = Some x -> ks <> [] -> (zlen K < SIZE_T)%Z ->
  computes fuel (g_conf s) suave1 suave12 d (mk_table K P) dt ptt ks ps ss vals -> automatic (g_conf s) x = true ->
  nth_error K 0 = Some k0 -> nth_error K (List.length K - 1) = Some k1 -> nle N k0 (nZ N 0) = false -> nle N k1 (nZ N 0) = false ->
  List.length P2 = List.length K2 -> printable s K2 ->
  exists s1 s2, step fuel suave1 suave12 (Run_terms o a b) s = Fine s1 [] /\ step fuel suave1 suave12 (Set_pk_lin o K2 P2) s1 = Fine s2 [] /\ set_up s2 o K2 P2 ks /\
    automatic (g_conf s2) x = false /\ pr_min (s_prec (g_conf s2) x) = k0 /\ pr_max (s_prec (g_conf s2) x) = k1.
Proof. exact (latch_claim fuel suave1 suave12 s o c K P ks a b d x dt ptt ps ss vals k0 k1 K2 P2). Qed.
Print Assumptions C23_range_refuted.
Example C23_ex a b : exists s ps ss vals, reached (N := RNum) 2 suave1_ex suave12_ex s /\ set_up s 0 k_ex p_ex ks_ex /\ class_of s 0 = Some C2Loop /\ automatic (g_conf s) "gamma3_tree_q" = true /\
  computes (N := RNum) 2 (g_conf s) suave1_ex suave12_ex (D_2loop a b) (mk_table (N := RNum) k_ex p_ex) (mk_table (N := RNum) k_ex p_ex) (mk_table (N := RNum) k_ex p_ex) ks_ex ps ss vals /\ printable (N := RNum) s [7; 8; 9]%R.
Proof. exact (ex_latch a b). Qed.

(** * C36: no memory of the library survives a statement *)
Theorem C36_no_leak {N} fuel suave1 suave12 (s : state N) b xs : reached fuel suave1 suave12 s -> nth_error (blocks s) b <> Some (Calloc, xs).
Proof. exact (ProofProcess19.nothing_allocated fuel suave1 suave12 s b xs). Qed.
Print Assumptions C36_no_leak.
(** After run_terms_B has computed its spectra itself the library has allocated and freed blocks. *)
Example C36_leak_ex : exists s s', reached (N := RNum) 2 suave1_ex suave12_ex s /\ cp_n (g_dt s) = 0%Z /\ step (N := RNum) 2 suave1_ex suave12_ex (C_run_terms_B 0) s = Fine s' [].
Proof. exact ex_freed. Qed.

(** * C38: run_terms_B of the C API *)
(** If one of its spectra has not been given, run_terms_B computes both, at the wavenumbers of the linear spectrum; it can be
    called once only: the next call, by any object, uses the spectra freed by the first. *)
Theorem C38_twice_refuted {N} fuel suave1 suave12 (s : state N) o c K P ks psd ssd vd pst sst vt ps ss vals : reached fuel suave1 suave12 s -> set_up s o K P ks -> class_of s o = Some c -> slot_of c = Some S_B ->
  (cp_n (g_dt s) = 0 \/ cp_n (g_tt s) = 0)%Z -> (zlen K < SIZE_T)%Z ->
  computes fuel (g_conf s) suave1 suave12 (D_1loop DELTA THETA) (mk_table K P) (mk_table K P) (mk_table K P) K psd ssd vd ->
  computes fuel (g_conf s) suave1 suave12 (D_1loop THETA THETA) (mk_table K P) (mk_table K P) (mk_table K P) K pst sst vt ->
  computes fuel (g_conf s) suave1 suave12 D_B (mk_table K P) (mk_table K (lib_spectrum K psd ssd vd)) (mk_table K (lib_spectrum K pst sst vt)) ks ps ss vals ->
  exists s', step fuel suave1 suave12 (C_run_terms_B o) s = Fine s' [] /\ filled s' o D_B ks ps ss vals /\ set_up s' o K P ks /\
    forall x cx, In x (vars s') -> class_of s' x = Some cx -> has_ctype cx = true -> step fuel suave1 suave12 (C_run_terms_B x) s' = Crash UseAfterFree.
Proof. exact (twice fuel suave1 suave12 s o c K P ks psd ssd vd pst sst vt ps ss vals). Qed.
Print Assumptions C38_twice_refuted.
Example C38_ex c : slot_of c = Some S_B -> exists s psd ssd vd pst sst vt ps ss vals, let st := g_conf s in let pkl := mk_table (N := RNum) k_ex p_ex in
  reached (N := RNum) 2 suave1_ex suave12_ex s /\ set_up s 0 k_ex p_ex ks_ex /\ class_of s 0 = Some c /\ cp_n (g_dt s) = 0%Z /\ cp_n (g_tt s) = 0%Z /\
  computes (N := RNum) 2 st suave1_ex suave12_ex (D_1loop DELTA THETA) pkl pkl pkl k_ex psd ssd vd /\ computes (N := RNum) 2 st suave1_ex suave12_ex (D_1loop THETA THETA) pkl pkl pkl k_ex pst sst vt /\
  computes (N := RNum) 2 st suave1_ex suave12_ex D_B pkl (mk_table (N := RNum) k_ex (lib_spectrum (N := RNum) k_ex psd ssd vd)) (mk_table (N := RNum) k_ex (lib_spectrum (N := RNum) k_ex pst sst vt)) ks_ex ps ss vals.
Proof. exact (ex_B c). Qed.

(** * C37: set_spectra_B of the C API *)
(** Both spectra given as the code of B1Loop and B2Loop gives them: the run uses them. *)
Theorem C37_given {N} fuel suave1 suave12 (s : state N) o c K P ks ld lt Kd Pd Kt Pt ps ss vals : reached fuel suave1 suave12 s -> set_up s o K P ks -> class_of s o = Some c -> slot_of c = Some S_B ->
  In ld (vars s) -> In lt (vars s) -> spectrum_is s ld Kd Pd -> spectrum_is s lt Kt Pt -> apart s o c ld -> apart s o c lt -> Kd <> [] -> Kt <> [] ->
  computes fuel (g_conf s) suave1 suave12 D_B (mk_table K P) (mk_table Kd Pd) (mk_table Kt Pt) ks ps ss vals ->
  exists s1 s2 s3, step fuel suave1 suave12 (C_set_spectra_B o ld "delta" "theta") s = Fine s1 [] /\ step fuel suave1 suave12 (C_set_spectra_B o lt "theta" "theta") s1 = Fine s2 [] /\
    step fuel suave1 suave12 (C_run_terms_B o) s2 = Fine s3 [] /\ filled s3 o D_B ks ps ss vals.
Proof. exact (spectra_given fuel suave1 suave12 s o c K P ks ld lt Kd Pd Kt Pt ps ss vals). Qed.
Print Assumptions C37_given.
(** What a call replaces: the theta-theta spectrum for ("theta", "theta"), the delta-theta spectrum for any other pair ... *)
Theorem C37_effect {N} fuel suave1 suave12 (s : state N) o c l p a b : reached fuel suave1 suave12 s -> In o (vars s) -> class_of s o = Some c -> has_ctype c = true -> In l (vars s) -> spectrum_of s l = Some p ->
  step fuel suave1 suave12 (C_set_spectra_B o l a b) s = Fine (if (a =? "theta")%string && (b =? "theta")%string then with_tt s p else with_dt s p) [].
Proof. exact (spectra_effect fuel suave1 suave12 s o c l p a b). Qed.
Print Assumptions C37_effect.
(** ... so also for ("delta", "delta"). *)
Theorem C37_delta_delta_refuted {N} fuel suave1 suave12 (s : state N) o l : step fuel suave1 suave12 (C_set_spectra_B o l "delta" "delta") s = step fuel suave1 suave12 (C_set_spectra_B o l "delta" "theta") s.
Proof. exact (delta_delta fuel suave1 suave12 s o l "delta"). Qed.
Print Assumptions C37_delta_delta_refuted.
(** Only one spectrum given: it is ignored, the run uses the two spectra it computes itself. *)
Theorem C37_one_refuted {N} fuel suave1 suave12 (s : state N) o c l K P ks psd ssd vd pst sst vt ps ss vals a b : reached fuel suave1 suave12 s -> set_up s o K P ks -> class_of s o = Some c -> slot_of c = Some S_B -> (zlen K < SIZE_T)%Z ->
  In l (vars s) -> spectrum_of s l <> None -> cp_n (g_dt s) = 0%Z -> cp_n (g_tt s) = 0%Z ->
  computes fuel (g_conf s) suave1 suave12 (D_1loop DELTA THETA) (mk_table K P) (mk_table K P) (mk_table K P) K psd ssd vd ->
  computes fuel (g_conf s) suave1 suave12 (D_1loop THETA THETA) (mk_table K P) (mk_table K P) (mk_table K P) K pst sst vt ->
  computes fuel (g_conf s) suave1 suave12 D_B (mk_table K P) (mk_table K (lib_spectrum K psd ssd vd)) (mk_table K (lib_spectrum K pst sst vt)) ks ps ss vals ->
  exists s1 s2, step fuel suave1 suave12 (C_set_spectra_B o l a b) s = Fine s1 [] /\ step fuel suave1 suave12 (C_run_terms_B o) s1 = Fine s2 [] /\ filled s2 o D_B ks ps ss vals.
Proof. exact (one_ignored fuel suave1 suave12 s o c l K P ks psd ssd vd pst sst vt ps ss vals a b). Qed.
Print Assumptions C37_one_refuted.
Example C37_ex c : slot_of c = Some S_B -> exists s l ps ss vals, reached (N := RNum) 2 suave1_ex suave12_ex s /\ set_up s 0 k_ex p_ex ks_ex /\ class_of s 0 = Some c /\ cp_n (g_dt s) = 0%Z /\ cp_n (g_tt s) = 0%Z /\
  In l (vars s) /\ spectrum_is s l k_ex p_ex /\ apart s 0 c l /\ computes (N := RNum) 2 (g_conf s) suave1_ex suave12_ex D_B (mk_table (N := RNum) k_ex p_ex) (mk_table (N := RNum) k_ex p_ex) (mk_table (N := RNum) k_ex p_ex) ks_ex ps ss vals.
Proof. exact (ex_given c). Qed.

(** * C41: instances *)
(** A statement which works on other objects, other terms, and does not replace the linear spectrum, leaves [o] alone. *)
Theorem C41_left_alone {N} fuel suave1 suave12 (s : state N) o p : reached fuel suave1 suave12 s -> In o (vars s) -> spares s o p -> after (step fuel suave1 suave12 p s) (fun s' => left_alone s s' o).
Proof. exact (alone fuel suave1 suave12 s o p). Qed.
Print Assumptions C41_left_alone.
(** The library belongs to the last object: run_terms of another object of the same class fills the columns of [o], not its own; *)
Theorem C41_terms_refuted {N} fuel suave1 suave12 (s : state N) o x c K P ks a b d ps ss vals : reached fuel suave1 suave12 s -> set_up s o K P ks -> In x (vars s) -> class_of s o = Some c -> class_of s x = Some c ->
  In c [C1Loop; C2Loop; CBias; CA2] -> (forall y r, In (y, r) (dict_of s x) -> ~ used_by s [o] (a_buf r)) ->
  driver_of c (set_flag a) (set_flag b) = Some d -> ks <> [] -> computes fuel (g_conf s) suave1 suave12 d (mk_table K P) (mk_table K P) (mk_table K P) ks ps ss vals ->
  exists s', step fuel suave1 suave12 (Run_terms x a b) s = Fine s' [] /\ filled s' o d ks ps ss vals /\ forall y, column_of s' x y = column_of s x y.
Proof. exact (fills_other fuel suave1 suave12 s o x c K P ks a b d ps ss vals). Qed.
Print Assumptions C41_terms_refuted.
(** set_pk_lin of any object replaces the linear spectrum of all; *)
Theorem C41_spectrum_refuted {N} fuel suave1 suave12 (s : state N) o x c cx K P ks a b d ps ss vals : reached fuel suave1 suave12 s -> has_terms s o ks -> class_of s o = Some c -> In x (vars s) -> class_of s x = Some cx -> has_ctype cx = true ->
  List.length P = List.length K -> printable s K -> driver_of c (set_flag a) (set_flag b) = Some d -> d <> D_B -> ks <> [] -> computes fuel (g_conf s) suave1 suave12 d (mk_table K P) (mk_table K P) (mk_table K P) ks ps ss vals ->
  exists s1 s2, step fuel suave1 suave12 (Set_pk_lin x K P) s = Fine s1 [] /\ step fuel suave1 suave12 (Run_terms o a b) s1 = Fine s2 [] /\ filled s2 o d ks ps ss vals.
Proof. exact (wins fuel suave1 suave12 s o x c cx K P ks a b d ps ss vals). Qed.
Print Assumptions C41_spectrum_refuted.
(** when the object which called set_pk_lin last is gone, the others read freed memory. *)
Theorem C41_dropped_refuted {N} fuel suave1 suave12 (s : state N) o c x cx K P : reached fuel suave1 suave12 s -> In o (vars s) -> class_of s o = Some c -> has_ctype c = true -> List.length P = List.length K -> printable s K -> K <> [] ->
  exists s1 s2, step fuel suave1 suave12 (Set_pk_lin o K P) s = Fine s1 [] /\ step fuel suave1 suave12 (Drop o) s1 = Fine s2 [] /\
    (~ In o (reachable s2) -> In x (vars s2) -> class_of s2 x = Some cx -> has_ctype cx = true -> forall k, k <> [] ->
      (forall im, step fuel suave1 suave12 (Find_pk_lin x k im) s2 = Crash UseAfterFree) /\ (forall uv, step fuel suave1 suave12 (Sigmad2 x k uv) s2 = Crash UseAfterFree)).
Proof. exact (dangles fuel suave1 suave12 s o c x cx K P). Qed.
Print Assumptions C41_dropped_refuted.
Example C41_ex c a b : In c [C1Loop; C2Loop; CBias; CA2] -> exists s d ps ss vals, reached (N := RNum) 2 suave1_ex suave12_ex s /\ set_up s 1 k_ex p_ex ks_ex /\ class_of s 0 = Some c /\ class_of s 1 = Some c /\ vars s = [1; 0]%nat /\
  (forall y r, In (y, r) (dict_of s 0) -> ~ used_by s [1%nat] (a_buf r)) /\ column_of (N := RNum) s 0 "k" = Some [3%R] /\ driver_of c (set_flag a) (set_flag b) = Some d /\ spares s 0 (Set_verbosity 1 "quiet") /\ printable (N := RNum) s k_ex /\
  computes (N := RNum) 2 (g_conf s) suave1_ex suave12_ex d (mk_table (N := RNum) k_ex p_ex) (mk_table (N := RNum) k_ex p_ex) (mk_table (N := RNum) k_ex p_ex) ks_ex ps ss vals.
Proof. exact (ex_two c a b). Qed.
Example C41_dropped_ex : exists s s1 s2, reached (N := RNum) 2 suave1_ex suave12_ex s /\ vars s = [1; 0]%nat /\ class_of s 1 = Some C1Loop /\ printable (N := RNum) s k_ex /\ step (N := RNum) 2 suave1_ex suave12_ex (Set_pk_lin (N := RNum) 1 k_ex p_ex) s = Fine s1 [] /\
  step (N := RNum) 2 suave1_ex suave12_ex (Drop 1) s1 = Fine s2 [] /\ ~ In 1%nat (reachable s2) /\ In 0%nat (vars s2) /\ class_of s2 0 = Some C1Loop.
Proof. exact ex_dropped. Qed.

(** * C50: copies *)
(** copy() always succeeds; whatever happens later, the copy and the original show the same columns. *)
Theorem C50_copy {N} fuel suave1 suave12 (s : state N) o c : reached fuel suave1 suave12 s -> In o (vars s) -> class_of s o = Some c ->
  exists n s', step fuel suave1 suave12 (Copy o) s = Fine s' [] /\ vars s' = n :: vars s /\ class_of s' n = Some c /\ lin_of s' n = lin_of s o /\ n <> o /\
    forall ps s2 x, execute fuel suave1 suave12 ps s' = Some s2 -> column_of s2 n x = column_of s2 o x.
Proof. exact (copy_claim fuel suave1 suave12 s o c). Qed.
Print Assumptions C50_copy.
(** A deep copy has the same columns and, for the classes derived from PyRegPT, a linear spectrum with the same columns; after any
    writes to either, a write to one (or to its linear spectrum) changes no column of the other (nor of its spectrum). *)
Theorem C50_deepcopy {N} fuel suave1 suave12 (s : state N) o c s1 v : reached fuel suave1 suave12 s -> In o (vars s) -> class_of s o = Some c -> step fuel suave1 suave12 (Deepcopy o) s = Fine s1 v -> exists n,
  vars s1 = n :: vars s /\ class_of s1 n = Some c /\ (forall x, column_of s1 n x = column_of s o x) /\ (forall y x, In y (vars s) -> column_of s1 y x = column_of s y x) /\
  (if has_ctype c then exists l l', lin_of s1 o = Some l /\ lin_of s1 n = Some l' /\ (forall x, column_of s1 l' x = column_of s1 l x) else lin_of s1 n = None) /\
  forall s2 p, writing fuel suave1 suave12 (family s1 o ++ family s1 n) s1 s2 ->
    (writes_to (family s1 o) p -> after (step fuel suave1 suave12 p s2) (fun s3 => forall y x, In y (family s1 n) -> column_of s3 y x = column_of s2 y x)) /\
    (writes_to (family s1 n) p -> after (step fuel suave1 suave12 p s2) (fun s3 => forall y x, In y (family s1 o) -> column_of s3 y x = column_of s2 y x)).
Proof. exact (deepcopy_claim fuel suave1 suave12 s o c s1 v). Qed.
Print Assumptions C50_deepcopy.
(** deepcopy succeeds if the object has a linear spectrum of one of the two plain classes ... *)
Theorem C50_deepcopy_succeeds {N} fuel suave1 suave12 (s : state N) o c : reached fuel suave1 suave12 s -> In o (vars s) -> class_of s o = Some c ->
  (has_ctype c = true -> exists l cl, lin_of s o = Some l /\ class_of s l = Some cl /\ has_ctype cl = false) -> exists s1, step fuel suave1 suave12 (Deepcopy o) s = Fine s1 [].
Proof. exact (deepcopy_ends fuel suave1 suave12 s o c). Qed.
Print Assumptions C50_deepcopy_succeeds.
(** ... and raises if it has none. *)
Theorem C50_deepcopy_refuted {N} fuel suave1 suave12 (s : state N) o c : reached fuel suave1 suave12 s -> In o (vars s) -> class_of s o = Some c -> has_ctype c = true -> lin_of s o = None ->
  exists s1, step fuel suave1 suave12 (Deepcopy o) s = Throws AttributeError s1.
Proof. exact (deepcopy_raises fuel suave1 suave12 s o c). Qed.
Print Assumptions C50_deepcopy_refuted.
Example C50_ex c sl : slot_of c = Some sl -> exists s l, reached (N := RNum) 2 suave1_ex suave12_ex s /\ set_up s 0 k_ex p_ex ks_ex /\ class_of s 0 = Some c /\ lin_of s 0 = Some l /\ class_of s l = Some CLin.
Proof. exact (ex_deep c sl). Qed.
Example C50_refuted_ex c sl : slot_of c = Some sl -> exists s, reached (N := RNum) 2 suave1_ex suave12_ex s /\ In 0%nat (vars s) /\ class_of s 0 = Some c /\ lin_of s 0 = None.
Proof. exact (ex_bare c sl). Qed.

(** * C60: flags and verbosity *)
(** Every string but "theta" means delta. *)
Theorem C60_flag : forall x, (set_flag x = THETA <-> x = "theta") /\ (x <> "theta" -> set_flag x = set_flag "delta").
Proof. exact flags. Qed.
Print Assumptions C60_flag.
(** The verbosity of the library after any statement (an exception may be raised before or after its change): creating an object
    of a class derived from PyRegPT, in whatever way, makes it 'info'. *)
Theorem C60_verbosity {N} fuel suave1 suave12 (s : state N) p : reached fuel suave1 suave12 s -> match step fuel suave1 suave12 p s with
  | Fine s' _ => g_verbose s' = verbosity_after s p | Throws _ s' => g_verbose s' = g_verbose s \/ g_verbose s' = verbosity_after s p | _ => True end.
Proof. exact (verbosity_claim fuel suave1 suave12 s p). Qed.
Print Assumptions C60_verbosity.
(** An unknown mode: the object records it, the library ignores it. *)
Theorem C60_unknown_refuted {N} fuel suave1 suave12 (s : state N) o c m : reached fuel suave1 suave12 s -> In o (vars s) -> class_of s o = Some c -> has_ctype c = true -> ~ In m ["quiet"; "info"; "debug"] ->
  exists s1 ob, step fuel suave1 suave12 (Set_verbosity o m) s = Fine s1 [] /\ nth_error (objects s1) o = Some ob /\ o_verbose ob = Some m /\ g_verbose s1 = g_verbose s.
Proof. exact (unknown_mode fuel suave1 suave12 s o c m). Qed.
Print Assumptions C60_unknown_refuted.
(** (For an object which exists: C40_ex.) *)
Example C60_ex : verbosity_after (fresh_process RNum) (New C1Loop) = INFO /\ g_verbose (fresh_process RNum) = QUIET /\ verbosity_after (fresh_process RNum) (New CLin) = QUIET.
Proof. exact (conj eq_refl (conj eq_refl eq_refl)). Qed.

(** * C70: what holds in every state *)
(** In every state any program reaches, each array lies within its memory, each attribute leads to an object, no table has two
    columns of one name. *)
Theorem C70_sound {N} fuel suave1 suave12 (s : state N) : reached fuel suave1 suave12 s -> wf s.
Proof. exact (ProofProcess15.reached_wf fuel suave1 suave12 s). Qed.
Print Assumptions C70_sound.
(** Statements which do not use what the library points to never crash, in any state. *)
Theorem C70_no_crash {N} fuel suave1 suave12 (s : state N) p : reached fuel suave1 suave12 s -> pointer_free p = true -> forall u, step fuel suave1 suave12 p s <> Crash u.
Proof. exact (crash_free fuel suave1 suave12 s p). Qed.
Print Assumptions C70_no_crash.
(** Settings can be changed at any time by any object, with the effect C20 and C21 describe, and nothing else changes. *)
Theorem C70_settings {N} fuel suave1 suave12 (s : state N) o c : reached fuel suave1 suave12 s -> In o (vars s) -> class_of s o = Some c -> has_ctype c = true ->
  (forall g ms n mn mx im, In (g, ms) groups \/ In g all_settings /\ ms = [g] -> exists st, step fuel suave1 suave12 (Set_precision o g n mn mx im) s = Fine (with_conf s st) [] /\ sets_exactly ms n mn mx im (g_conf s) (st, Done)) /\
  (one_above (N := N) -> exists s' st, step fuel suave1 suave12 (Clear o) s = Fine s' [] /\ py_clear 5 (g_conf s) = (st, Done) /\ g_conf s' = st /\ g_verbose s' = INFO /\ forall x y, column_of s' x y = column_of s x y).
Proof. exact (change_settings fuel suave1 suave12 s o c). Qed.
Print Assumptions C70_settings.
Example C70_ex c sl : slot_of c = Some sl -> exists s, reached (N := RNum) 2 suave1_ex suave12_ex s /\ In 0%nat (vars s) /\ class_of s 0 = Some c /\ has_ctype c = true /\ g_verbose s = INFO.
Proof. exact (ex_info c sl). Qed.

(** * C71: the wavenumbers of an object may be replaced (refuted) *)
(** After set_terms, assigning obj['k'] or calling pad_k frees the array the library reads: run_terms reads freed memory. *)
Theorem C71_stale_refuted {N} fuel suave1 suave12 (s : state N) o c K P ks p s2 v x y d : reached fuel suave1 suave12 s -> set_up s o K P ks -> class_of s o = Some c -> ks <> [] -> driver_of c (set_flag x) (set_flag y) = Some d -> d <> D_B ->
  (forall a, assoc (dict_of s o) "k" = Some a -> only_at s o "k" (a_buf a)) -> replaces_k o p -> step fuel suave1 suave12 p s = Fine s2 v -> step fuel suave1 suave12 (Run_terms o x y) s2 = Crash UseAfterFree.
Proof. exact (stale_claim fuel suave1 suave12 s o c K P ks p s2 v x y d). Qed.
Print Assumptions C71_stale_refuted.
Example C71_ex c sl : slot_of c = Some sl -> exists s s2, reached (N := RNum) 2 suave1_ex suave12_ex s /\ set_up s 0 k_ex p_ex ks_ex /\ class_of s 0 = Some c /\
  (forall a, assoc (dict_of s 0) "k" = Some a -> only_at s 0 "k" (a_buf a)) /\ step (N := RNum) 2 suave1_ex suave12_ex (Set_item 0 "k" (Values (N := RNum) [4; 5; 6]%R)) s = Fine s2 [].
Proof. exact (ex_stale c sl). Qed.

(** * C72: set_spectrum_lin takes any table (refuted for slices with a step) *)
(** The library reads consecutive cells from the first element on, not the elements of the arrays; if these cells do not all lie
    in the block, it reads beyond it. *)
Theorem C72_window {N} fuel suave1 suave12 (s : state N) o c l ka pa : reached fuel suave1 suave12 s -> In o (vars s) -> class_of s o = Some c -> has_ctype c = true -> In l (vars s) ->
  assoc (dict_of s l) "k" = Some ka -> assoc (dict_of s l) "pk" = Some pa -> a_2d ka = false -> a_2d pa = false -> a_len pa = a_len ka -> g_verbose s <> INFO ->
  exists s1, step fuel suave1 suave12 (Set_spectrum_lin o l) s = Fine s1 [] /\ lin_of s1 o = Some l /\ (forall x y, column_of s1 x y = column_of s x y) /\
    (fits s ka -> fits s pa -> let pkl := mk_table (window s ka) (window s pa) in
      (forall k im, step fuel suave1 suave12 (Find_pk_lin o k im) s1 = match find_pk pkl k (if (im =? "poly")%string then POLY else LIN) with Ok v => Fine s1 v | Err u => Crash u end) /\
      (forall k uv, step fuel suave1 suave12 (Sigmad2 o k uv) s1 = match calc_running_sigmad2 pkl k uv with Ok v => Fine s1 v | Err u => Crash u end)) /\
    ((0 < a_len ka)%Z -> ~ fits s ka -> forall k im, k <> [] -> step fuel suave1 suave12 (Find_pk_lin o k im) s1 = Crash OOB).
Proof. exact (window_claim fuel suave1 suave12 s o c l ka pa). Qed.
Print Assumptions C72_window.
(** For arrays without a step, these are the elements; *)
Theorem C72_plain {N} fuel suave1 suave12 (s : state N) x y a : reached fuel suave1 suave12 s -> In (y, a) (dict_of s x) -> a_step a = 1%Z -> (0 < a_len a)%Z -> fits s a /\ window s a = elements s a.
Proof. exact (plain_window fuel suave1 suave12 s x y a). Qed.
Print Assumptions C72_plain.
(** with a step of two they are others: lin = lin[::2] of four points k0 .. k3; reversed, they lie beyond the block. *)
Theorem C72_strided_refuted {N} fuel suave1 suave12 (k0 k1 k2 k3 p0 p1 p2 p3 : T N) : exists s ka kr,
  execute fuel suave1 suave12 [New CLin; Set_item 0 "k" (Values [k0; k1; k2; k3]); Set_item 0 "pk" (Values [p0; p1; p2; p3]); New C1Loop; Set_verbosity 1 "quiet"; Slice 0 0 2 2; Slice 0 3 (-1) 4] (fresh_process N) = Some s /\
  vars s = [3; 2; 1; 0]%nat /\ g_verbose s = QUIET /\ assoc (dict_of s 2) "k" = Some ka /\ assoc (dict_of s 3) "k" = Some kr /\
  elements s ka = [k0; k2] /\ fits s ka /\ window s ka = [k0; k1] /\ elements s kr = [k3; k2; k1; k0] /\ ~ fits s kr.
Proof. exact (strided_example fuel suave1 suave12 k0 k1 k2 k3 p0 p1 p2 p3). Qed.
Print Assumptions C72_strided_refuted.

(** * C73: a failed set_pk_lin changes nothing (refuted) *)
(** set_pk_lin with arrays of different lengths raises, but the object has the new table already, and the library the memory of the
    old one, which is free. *)
Theorem C73_failed_refuted {N} fuel suave1 suave12 (s : state N) o c K P K' P' : reached fuel suave1 suave12 s -> In o (vars s) -> class_of s o = Some c -> has_ctype c = true -> List.length P = List.length K -> printable s K -> K <> [] -> List.length P' <> List.length K' ->
  exists s1 s2, step fuel suave1 suave12 (Set_pk_lin o K P) s = Fine s1 [] /\ step fuel suave1 suave12 (Set_pk_lin o K' P') s1 = Throws ArgumentError s2 /\
    (exists l, lin_of s2 o = Some l /\ column_of s2 l "k" = Some K' /\ column_of s2 l "pk" = Some P') /\
    forall k, k <> [] -> (forall im, step fuel suave1 suave12 (Find_pk_lin o k im) s2 = Crash UseAfterFree) /\ (forall uv, step fuel suave1 suave12 (Sigmad2 o k uv) s2 = Crash UseAfterFree).
Proof. exact (failed_claim fuel suave1 suave12 s o c K P K' P'). Qed.
Print Assumptions C73_failed_refuted.
Example C73_ex c sl : slot_of c = Some sl -> exists s, reached (N := RNum) 2 suave1_ex suave12_ex s /\ In 0%nat (vars s) /\ class_of s 0 = Some c /\ has_ctype c = true /\ g_verbose s = INFO.
Proof. exact (ex_info c sl). Qed.

(** * C74: empty arrays *)
(** With the verbosity 'info' (the default) set_pk_lin and set_terms of empty arrays read beyond them, in every state; with another
    one they do not (C42_prepare). *)
Theorem C74_empty_refuted {N} fuel suave1 suave12 (s : state N) o c : reached fuel suave1 suave12 s -> In o (vars s) -> class_of s o = Some c -> has_ctype c = true -> g_verbose s = INFO ->
  step fuel suave1 suave12 (Set_pk_lin o [] []) s = Crash OOB /\ (forall sl, slot_of c = Some sl -> step fuel suave1 suave12 (Set_terms o []) s = Crash OOB).
Proof. exact (empty_claim fuel suave1 suave12 s o c). Qed.
Print Assumptions C74_empty_refuted.
Example C74_ex c sl : slot_of c = Some sl -> exists s, reached (N := RNum) 2 suave1_ex suave12_ex s /\ In 0%nat (vars s) /\ class_of s 0 = Some c /\ has_ctype c = true /\ g_verbose s = INFO.
Proof. exact (ex_info c sl). Qed.

(** * C75: the library without a linear spectrum *)
(** After any program in which no object has been given a spectrum, find_pk_lin, calc_running_sigmad2 and run_terms dereference a
    null pointer. *)
Theorem C75_null_refuted {N} fuel suave1 suave12 ps (s : state N) o c : execute fuel suave1 suave12 ps (fresh_process N) = Some s -> forallb (fun p => negb (sets_lin p)) ps = true -> In o (vars s) -> class_of s o = Some c -> has_ctype c = true ->
  (forall k, k <> [] -> (forall im, step fuel suave1 suave12 (Find_pk_lin o k im) s = Crash NullDeref) /\ (forall uv, step fuel suave1 suave12 (Sigmad2 o k uv) s = Crash NullDeref)) /\
  (forall ks a b d, ks <> [] -> has_terms s o ks -> driver_of c (set_flag a) (set_flag b) = Some d -> d <> D_B -> step fuel suave1 suave12 (Run_terms o a b) s = Crash NullDeref).
Proof. exact (null_claim fuel suave1 suave12 ps s o c). Qed.
Print Assumptions C75_null_refuted.
Example C75_ex c sl : slot_of c = Some sl -> exists s, execute (N := RNum) 2 suave1_ex suave12_ex [New c; Set_terms (N := RNum) 0 ks_ex] (fresh_process RNum) = Some s /\ vars s = [0%nat] /\ class_of s 0 = Some c /\ has_terms (N := RNum) s 0 ks_ex.
Proof. exact (ex_null c sl). Qed.
