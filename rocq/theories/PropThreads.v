(** PropThreads: run_terms with several threads. *)
From Coq Require Import ZArith List String Permutation Reals.
From Verif Require Import Base Num Common Kernels Integrals Registry Threads SpecThreads SpecScratch ProofThreads7 ProofThreads8.
Import ListNotations.
Local Open Scope string_scope.

(** * C33: run_terms does not depend on the number of threads or on scheduling *)
(** Whatever the number of threads, the distribution of the wavenumbers over them and the interleaving of their accesses
    to the memory: the run ends, nothing goes wrong, no two threads race (except, in run_terms_B, on two static
    variables), and the memory it leaves is the same function of the input: each row holds the values computed for its
    wavenumber alone. *)
Theorem C33_run_terms {N} fuel (st : settings N) suave1 suave12 d h pkl dt ptt ks parts ps ss vals :
  starts fuel st d h pkl dt ptt ks parts -> computes fuel st suave1 suave12 d pkl dt ptt ks ps ss vals ->
  completes (call_of fuel st suave1 suave12 d (zlen ks) parts) h (shared_by d)
    (fun h' => leaves h h' (cells_of d) ps ss vals (zlen ks) (tables_of d) (List.length parts) (shared_by d) /\
      match d with D_B => parts <> [] -> h' (Glob "calc_B.pk_dt") = Some (VPk dt) /\ h' (Glob "calc_B.pk_tt") = Some (VPk ptt) | _ => True end).
Proof. exact (run_ok fuel st suave1 suave12 d h pkl dt ptt ks parts ps ss vals). Qed.
Print Assumptions C33_run_terms.
(** Two runs from the same memory, with any two numbers of threads and schedules, leave the same arrays. *)
Theorem C33_same_arrays {N} fuel (st : settings N) suave1 suave12 d h pkl dt ptt ks parts parts' ps ss vals h1 h2 :
  computes fuel st suave1 suave12 d pkl dt ptt ks ps ss vals -> starts fuel st d h pkl dt ptt ks parts -> starts fuel st d h pkl dt ptt ks parts' ->
  ends (call_of fuel st suave1 suave12 d (zlen ks) parts) h h1 -> ends (call_of fuel st suave1 suave12 d (zlen ks) parts') h h2 ->
  forall x i, h1 (Arr x i) = h2 (Arr x i).
Proof. exact (same_arrays fuel st suave1 suave12 d h pkl dt ptt ks parts parts' ps ss vals h1 h2). Qed.
Print Assumptions C33_same_arrays.
(** With cubic interpolation (the default) and tables of at least two points, the values exist. *)
Theorem C33_values_exist {N} fuel (st : settings N) suave1 suave12 d h pkl dt ptt ks parts :
  all_cubic st -> suave_ok suave1 suave12 -> lin_table pkl -> (d = D_B -> lin_table dt /\ lin_table ptt) ->
  starts fuel st d h pkl dt ptt ks parts -> exists ps ss vals, computes fuel st suave1 suave12 d pkl dt ptt ks ps ss vals.
Proof. exact (computes_exists fuel st suave1 suave12 d h pkl dt ptt ks parts). Qed.
Print Assumptions C33_values_exist.
Example C33_ex d : starts 2 st_ex d h_ex pk_ex pk_ex pk_ex ks_ex [[0; 1]; [2]]%Z /\
  exists ps ss vals h', computes 2 st_ex suave1_ex suave12_ex d pk_ex pk_ex pk_ex ks_ex ps ss vals /\
    ends (call_of 2 st_ex suave1_ex suave12_ex d 3 [[0; 1]; [2]]%Z) h_ex h'.
Proof. exact (conj (starts_ex d) (example d)). Qed.
(** "No two threads race" is false of run_terms_B: with two threads or more, an interleaving leads two of them to write the
    same static variable at the same time (both write the same value, so that C33_run_terms holds nevertheless). *)
Theorem C33_race_B_refuted {N} fuel (st : settings N) h pkl dt ptt ks p0 p1 rest ps ss :
  starts fuel st D_B h pkl dt ptt ks (p0 :: p1 :: rest) ->
  find_pk pkl ks (s_interpol st "B_pk_lin") = Ok ps -> calc_running_sigmad2 pkl ks (s_cutoff st "set_running_uvcutoff_B") = Ok ss ->
  exists h1 n g, run (before (run_terms_B fuel st (zlen ks) (p0 :: p1 :: rest))) h = inl (tt, h1) /\
    reaches n (h1, threads (run_terms_B fuel st (zlen ks) (p0 :: p1 :: rest))) g /\ race_on (Glob "calc_B.pk_dt") g.
Proof. exact (race_B fuel st h pkl dt ptt ks p0 p1 rest ps ss). Qed.
Print Assumptions C33_race_B_refuted.

(** * C36: the memory ledger of a run is balanced *)
(** No table is used or freed when it is not allocated, none is allocated twice (these are faults, which C33_run_terms
    excludes); at the end every table of every thread has been freed, no table of any thread is allocated which was not
    before, and another run may start, with any distribution of the rows with which one could before. *)
Theorem C36_tables {N} fuel (st : settings N) suave1 suave12 d h pkl dt ptt ks parts ps ss vals :
  starts fuel st d h pkl dt ptt ks parts -> computes fuel st suave1 suave12 d pkl dt ptt ks ps ss vals ->
  completes (call_of fuel st suave1 suave12 d (zlen ks) parts) h (shared_by d) (fun h' =>
    (forall t x, (t < List.length parts)%nat -> In x (tables_of d) -> h' (Priv t x) = Some VFreed) /\
    (forall t x, idle h (Priv t x) -> idle h' (Priv t x)) /\
    (forall parts', starts fuel st d h pkl dt ptt ks parts' -> starts fuel st d h' pkl dt ptt ks parts')).
Proof. exact (again fuel st suave1 suave12 d h pkl dt ptt ks parts ps ss vals). Qed.
Print Assumptions C36_tables.
Example C36_ex d : starts 2 st_ex d h_ex pk_ex pk_ex pk_ex ks_ex [[0; 1]; [2]]%Z /\ starts 2 st_ex d h_ex pk_ex pk_ex pk_ex ks_ex [[2; 0; 1]]%Z.
Proof. exact (conj (starts_ex d) (starts_ex_serial d)). Qed.

(** * C39: progress messages *)
Local Open Scope Z_scope.
(** Exact when the number of wavenumbers is a multiple of 10. *)
Theorem C39_exact nk ik p : nk mod 10 = 0 -> 0 <= ik < nk -> nk * 10 < SIZE_T -> progress nk ik = Some p -> p * nk = 100 * ik /\ 0 <= p < 100.
Proof. exact (progress_exact nk ik p). Qed.
Print Assumptions C39_exact.
Theorem C39_bound nk ik p : 0 <= ik < nk -> nk * 10 < SIZE_T -> progress nk ik = Some p -> 0 <= p <= 180.
Proof. exact (progress_bound nk ik p). Qed.
Print Assumptions C39_bound.
(** More than 100 percent is reported exactly when nk >= 10 and its last digit exceeds the number before it:
    12 .. 19, 23 .. 29, ..., 89. *)
Theorem C39_over nk : 0 < nk -> nk * 10 < SIZE_T -> (exists ik p, 0 <= ik < nk /\ progress nk ik = Some p /\ p > 100) <-> 10 <= nk /\ nk / 10 < nk mod 10.
Proof. exact (progress_over nk). Qed.
Print Assumptions C39_over.
Theorem C39_refuted : exists nk ik p, 0 <= ik < nk /\ progress nk ik = Some p /\ p > 100.
Proof. exact progress_19. Qed.
Print Assumptions C39_refuted.
Example C39_ex : progress 20 6 = Some 30 /\ progress 20 7 = None /\ progress 19 18 = Some 180.
Proof. repeat split; reflexivity. Qed.
