(** SpecThreads: what may go wrong with several threads, and what each row of a run should contain. *)
From Coq Require Import ZArith List String Permutation.
From Verif Require Import Base Num Common Kernels Integrals Registry Threads.
Import ListNotations.
Local Open Scope string_scope.

(** The next access of a program, and whether it is a write. *)
Definition access {N A} (p : prog N A) : option (loc * bool) :=
  match p with Load l _ => Some (l, false) | Store l _ _ => Some (l, true) | _ => None end.
(** Two threads are about to access the cell [l], one of them to write it. *)
Definition race_on {N} (l : loc) (c : config N) : Prop :=
  exists t u p q w w', t <> u /\ nth_error (snd c) t = Some p /\ nth_error (snd c) u = Some q /\
    access p = Some (l, w) /\ access q = Some (l, w') /\ (w = true \/ w' = true).
(** A thread has gone wrong. *)
Definition faulty {N} (c : config N) : Prop := exists f, In (Fault f) (snd c).
Definition finished {N} (c : config N) : Prop := forall p, In p (snd c) -> p = Ret tt.
(** Some thread can make an access. *)
Definition can_step {N} (c : config N) : Prop := exists t p p' h', nth_error (snd c) t = Some p /\ tstep p (fst c) = Some (p', h').
(** The rows 0 .. nk-1 are distributed over the threads: each is computed by one thread, once. *)
Definition distributes (parts : list (list Z)) (nk : Z) : Prop := Permutation (concat parts) (indices nk).
(** Whatever the interleaving: the call ends, nothing goes wrong, two threads race on no cell but those in [shared], and
    the memory is left as [post] says. *)
Definition completes {N} (c : call N) (h : heap N) (shared : loc -> Prop) (post : heap N -> Prop) : Prop :=
  exists h1 bound, run (before c) h = inl (tt, h1) /\
    forall n g, reaches n (h1, threads c) g ->
      (n <= bound)%nat /\ ~ faulty g /\ (forall l, race_on l g -> shared l) /\ (finished g \/ can_step g) /\
      (finished g -> exists h3, run (after c) (fst g) = inl (tt, h3) /\ post h3).

(** The cells [ls] hold the numbers [xs]. *)
Definition stored {N} (h : heap N) (ls : list loc) (xs : list (T N)) : Prop := map h ls = map (fun x => Some (VNum x)) xs.
Definition column (x : string) (nk : Z) : list loc := map (Arr x) (indices nk).
Definition allocated {N} (v : value N) : Prop := match v with VQ _ | VMu _ => True | _ => False end.
(** The memory a run starts from: a linear spectrum, wavenumbers, cells for the results, no table left allocated. *)
Record machine {N} (h : heap N) (pkl : Pk N) (ks : list (T N)) (out : list loc) (tables : list string) (nthreads : nat) : Prop := {
  m_lin : h pk_lin = Some (VPk pkl);
  m_k : stored h (column "k" (zlen ks)) ks;
  m_out : forall l, In l out -> h l <> None;
  m_tab : forall t x, (t < nthreads)%nat -> In x tables -> exists v, h (Priv t x) = Some v /\ ~ allocated v }.
(** The columns every run fills, and those of its rows. *)
Definition out_cells (cells : Z -> list loc) (nk : Z) : list loc := (column "pk_lin" nk ++ column "sigmad2" nk ++ flat_map cells (indices nk))%list.
(** The memory left by a run: columns pk_lin and sigmad2, the cells of each row, all tables freed, nothing else changed. *)
Record leaves {N} (h h' : heap N) (cells : Z -> list loc) (ps ss : list (T N)) (vals : Z -> list (T N)) (nk : Z) (tables : list string) (nthreads : nat) (except : loc -> Prop) : Prop := {
  l_lin : stored h' (column "pk_lin" nk) ps;
  l_sig : stored h' (column "sigmad2" nk) ss;
  l_rows : forall ik, (0 <= ik < nk)%Z -> stored h' (cells ik) (vals ik);
  l_tab : forall t x, (t < nthreads)%nat -> In x tables -> h' (Priv t x) = Some VFreed;
  l_frame : forall l, ~ In l (out_cells cells nk) -> (forall t x, (t < nthreads)%nat -> In x tables -> l <> Priv t x) -> ~ except l -> h' l = h l }.

(** The first n values of a result *)
Definition take {N} (n : nat) (l : list (T N)) : res (list (T N)) := if (n <=? List.length l)%nat then Ok (firstn n l) else Err OOB.
(** What a row contains: the integrals for this wavenumber alone, each on tables made for the occasion. *)
Section Rows.
Context {N : Num}.
Variables (fuel : nat) (st : settings N) (pkl : Pk N).
Definition new_q (x : string) : res (glq N) := init_gauss_legendre_q fuel (s_prec st x) pkl.
Definition new_mu (x : string) : res (glmu N) := init_gauss_legendre_mu fuel (s_prec st x).
Definition im_of (x : string) := pr_interpol (s_prec st x).
(** The tables of a run have a size a C array can have, and making them succeeds. *)
Definition makes (qs mus : list string) : Prop :=
  (forall x, In x qs -> (0 <= pr_n (s_prec st x) < 2 ^ 62)%Z /\ exists g, new_q x = Ok g) /\
  (forall x, In x mus -> (0 <= pr_n (s_prec st x) < 2 ^ 62)%Z /\ exists m, new_mu x = Ok m).
Definition cells_1loop (ik : Z) := [Arr "gamma1a_1loop" ik; Arr "gamma1b_1loop" ik; Arr "pk_gamma2_tree_tree" ik].
Definition q_tables_1loop := ["gamma1_1loop_q"; "gamma2_tree_q"]. Definition mu_tables_1loop := ["gamma2_tree_mu"].
Definition value_1loop (a b : flag) (k : T N) : res (list (T N)) :=
  g1 <- new_q "gamma1_1loop_q" ;; g <- new_q "gamma2_tree_q" ;; m <- new_mu "gamma2_tree_mu" ;;
  ' (ga, _) <- gamma1_1loop g1 a k ;; ' (gb, _) <- gamma1_1loop g1 b k ;;
  ' (p, _, _) <- calc_pk_gamma2_tree pkl (im_of "gamma2_tree_mu") g m a b k ;; p <- take 1 p ;; Ok (ga :: gb :: p).
Definition cells_2loop (ik : Z) := [Arr "gamma1a_1loop" ik; Arr "gamma1a_2loop" ik; Arr "gamma1b_1loop" ik; Arr "gamma1b_2loop" ik;
  Arr "pk_gamma2_tree_tree" ik; Arr "pk_gamma2_tree_1loop" ik; Arr "pk_gamma2_1loop_1loop" ik].
Definition q_tables_2loop := ["gamma1_1loop_q"; "gamma1_2loop_q"; "gamma2_tree_q"; "gamma2d_1loop_q"; "gamma2t_1loop_q"]. Definition mu_tables_2loop := ["gamma2_tree_mu"].
Definition value_2loop (a b : flag) (k : T N) : res (list (T N)) :=
  g1 <- new_q "gamma1_1loop_q" ;; g2 <- new_q "gamma1_2loop_q" ;; g <- new_q "gamma2_tree_q" ;; m <- new_mu "gamma2_tree_mu" ;;
  gd <- new_q "gamma2d_1loop_q" ;; gt <- new_q "gamma2t_1loop_q" ;;
  ' (a1, a2, b1, b2, _, _) <- calc_pk_gamma1_2loop g1 g2 a b k ;;
  ' (p, _, _) <- calc_pk_gamma2_1loop pkl (im_of "gamma2_tree_mu") g m gd gt a b k ;; p <- take 3 p ;; Ok (a1 :: a2 :: b1 :: b2 :: p).
Definition cells_bias (ik : Z) := [Arr "pk_b2d" ik; Arr "pk_bs2d" ik; Arr "pk_b2t" ik; Arr "pk_bs2t" ik; Arr "pk_b22" ik; Arr "pk_b2s2" ik; Arr "pk_bs22" ik; Arr "sigma3sq" ik].
Definition q_tables_bias := ["bias_1loop_q"]. Definition mu_tables_bias := ["bias_1loop_mu"].
Definition value_bias (k : T N) : res (list (T N)) :=
  g <- new_q "bias_1loop_q" ;; m <- new_mu "bias_1loop_mu" ;;
  let term a kernel half := ' (v, _, _) <- calc_pk_bias_1loop pkl (im_of "bias_1loop_mu") g m a k kernel half ;; Ok v in
  b2d <- term DELTA kernel_b2 true ;; bs2d <- term DELTA kernel_bs2 true ;; b2t <- term THETA kernel_b2 true ;; bs2t <- term THETA kernel_bs2 true ;;
  b22 <- term DELTA kernel_b22 false ;; b2s2 <- term DELTA kernel_b2s2 false ;; bs22 <- term DELTA kernel_bs22 false ;; s3 <- term DELTA kernel_sigma3sq false ;;
  Ok [b2d; bs2d; b2t; bs2t; b22; b2s2; bs22; s3].
Definition cells_A (ik : Z) := map (fun c => Arr "A" (5 * ik + c)) [0; 1; 2; 3; 4]%Z.
Definition q_tables_A_1loop := ["A_1loop_q"]. Definition mu_tables_A_1loop := ["A_1loop_mu"].
Definition value_A_1loop (k : T N) : res (list (T N)) :=
  g <- new_q "A_1loop_q" ;; m <- new_mu "A_1loop_mu" ;;
  ' (v, _, _) <- calc_pk_A_1loop pkl (im_of "A_1loop_q") (im_of "A_1loop_mu") g m k ;; take 5 v.
Definition q_tables_A_2loop := ["A_2loop_I_q"; "gamma1_1loop_q"; "gamma2d_1loop_q"; "gamma2t_1loop_q"]. Definition mu_tables_A_2loop := ["A_2loop_I_mu"].
Definition value_A_2loop (k : T N) : res (list (T N)) :=
  g <- new_q "A_2loop_I_q" ;; m <- new_mu "A_2loop_I_mu" ;; g1 <- new_q "gamma1_1loop_q" ;; gd <- new_q "gamma2d_1loop_q" ;; gt <- new_q "gamma2t_1loop_q" ;;
  ' (v, _, _) <- calc_pk_A_2loop_I pkl (s_interpol st "bispectrum_1loop_pk_lin") (s_cutoff st "set_running_uvcutoff_bispectrum_1loop") g m g1 gd gt k ;; sum_A v.
Definition cells_B (ik : Z) := map (fun c => Arr "B" (9 * ik + c)) [0; 1; 2; 3; 4; 5; 6; 7; 8]%Z.
Definition q_tables_B := ["B_q"]. Definition mu_tables_B := ["B_mu"].
Definition value_B (dt ptt : Pk N) (k : T N) : res (list (T N)) :=
  g <- new_q "B_q" ;; m <- new_mu "B_mu" ;; ' (v, _, _) <- calc_pk_B dt ptt (im_of "B_mu") g m k ;; sum_B v.
(** The serial ends *)
Definition value_gamma3 (suave1 : (list (T N) -> res (T N)) -> res (T N)) (a b : flag) (k : T N) : res (list (T N)) :=
  ' (qmin, qmax) <- q_range (s_prec st "gamma3_tree_q") pkl ;;
  v <- calc_pk_gamma3_tree suave1 pkl (im_of "gamma3_tree_q") qmin qmax (nlog qmin) (nlog qmax) a b k ;; Ok [v].
Definition value_A_II_III (suave12 : (list (T N) -> res (list (T N))) -> res (list (T N))) (k : T N) : res (list (T N)) :=
  ' (qmin, qmax) <- q_range (s_prec st "A_2loop_II_III_q") pkl ;;
  v <- calc_pk_A_2loop_II_III suave12 pkl (s_interpol st "bispectrum_1loop_pk_lin") (s_cutoff st "set_running_uvcutoff_bispectrum_1loop") (nlog qmin) (nlog qmax) k ;; sum_A v.
End Rows.
(** A run may start: memory, distribution of the rows over the threads, tables. *)
Definition can_start {N} (fuel : nat) (st : settings N) (h : heap N) (pkl : Pk N) (ks : list (T N)) (cells : Z -> list loc) (qs mus : list string) (parts : list (list Z)) : Prop :=
  machine h pkl ks (out_cells cells (zlen ks)) (qs ++ mus)%list (List.length parts) /\ distributes parts (zlen ks) /\ makes fuel st pkl qs mus.
Definition k_ {N} (ks : list (T N)) (ik : Z) : T N := nth (Z.to_nat ik) ks (nZ N 0).
Definition nowhere (l : loc) : Prop := False.
Definition cells_2loop_all (ik : Z) : list loc := (cells_2loop ik ++ [Arr "pk_gamma3_tree" ik])%list.
(** The static variables of calc_pkcorr_from_B.c *)
Definition statics_B (l : loc) : Prop := l = Glob "calc_B.pk_dt" \/ l = Glob "calc_B.pk_tt".

(** The six run_terms functions together. *)
Inductive driver := D_1loop (a b : flag) | D_2loop (a b : flag) | D_bias | D_A_1loop | D_A_2loop | D_B.
Definition cells_of (d : driver) : Z -> list loc :=
  match d with D_1loop _ _ => cells_1loop | D_2loop _ _ => cells_2loop_all | D_bias => cells_bias | D_A_1loop | D_A_2loop => cells_A | D_B => cells_B end.
Definition q_tables_of (d : driver) : list string :=
  match d with D_1loop _ _ => q_tables_1loop | D_2loop _ _ => q_tables_2loop | D_bias => q_tables_bias | D_A_1loop => q_tables_A_1loop | D_A_2loop => q_tables_A_2loop | D_B => q_tables_B end.
Definition mu_tables_of (d : driver) : list string :=
  match d with D_1loop _ _ => mu_tables_1loop | D_2loop _ _ => mu_tables_2loop | D_bias => mu_tables_bias | D_A_1loop => mu_tables_A_1loop | D_A_2loop => mu_tables_A_2loop | D_B => mu_tables_B end.
Definition tables_of (d : driver) : list string := (q_tables_of d ++ mu_tables_of d)%list.
Definition interpol_of (d : driver) : string :=
  match d with D_1loop _ _ => "spectrum_1loop_pk_lin" | D_2loop _ _ => "spectrum_2loop_pk_lin" | D_bias => "bias_1loop_pk_lin" | D_A_1loop => "A_1loop_pk_lin" | D_A_2loop => "A_2loop_pk_lin" | D_B => "B_pk_lin" end.
Definition cutoff_of (d : driver) : string :=
  match d with D_1loop _ _ => "set_running_uvcutoff_spectrum_1loop" | D_2loop _ _ => "set_running_uvcutoff_spectrum_2loop" | D_bias => "set_running_uvcutoff_bias_1loop"
  | D_A_1loop => "set_precision_A_1loop_sigmad2" | D_A_2loop => "set_precision_A_2loop_sigmad2" | D_B => "set_running_uvcutoff_B" end.
(** Cells two threads may access at the same time. *)
Definition shared_by (d : driver) : loc -> Prop := match d with D_B => statics_B | _ => nowhere end.
Section Drivers.
Context {N : Num}.
Variables (fuel : nat) (st : settings N) (suave1 : (list (T N) -> res (T N)) -> res (T N)) (suave12 : (list (T N) -> res (list (T N))) -> res (list (T N))).
Definition call_of (d : driver) (nk : Z) (parts : list (list Z)) : call N :=
  match d with
  | D_1loop a b => run_terms_1loop fuel st a b nk parts
  | D_2loop a b => run_terms_2loop fuel st suave1 a b nk parts
  | D_bias => run_terms_bias fuel st nk parts
  | D_A_1loop => run_terms_A_1loop fuel st nk parts
  | D_A_2loop => run_terms_A_2loop fuel st suave12 nk parts
  | D_B => run_terms_B fuel st nk parts
  end.
(** The values of one row *)
Definition value_of (d : driver) (pkl dt ptt : Pk N) (k : T N) : res (list (T N)) :=
  match d with
  | D_1loop a b => value_1loop fuel st pkl a b k
  | D_2loop a b => v <- value_2loop fuel st pkl a b k ;; w <- value_gamma3 st pkl suave1 a b k ;; Ok (v ++ w)%list
  | D_bias => value_bias fuel st pkl k
  | D_A_1loop => value_A_1loop fuel st pkl k
  | D_A_2loop => v <- value_A_2loop fuel st pkl k ;; w <- value_A_II_III st pkl suave12 k ;; Ok (zipw (nadd N) v w)
  | D_B => value_B fuel st pkl dt ptt k
  end.
(** A run may start; for B the spectra have been given and the team has a thread, for the 2-loop terms the range of Suave exists. *)
Definition starts (d : driver) (h : heap N) (pkl dt ptt : Pk N) (ks : list (T N)) (parts : list (list Z)) : Prop :=
  can_start fuel st h pkl ks (cells_of d) (q_tables_of d) (mu_tables_of d) parts /\
  match d with
  | D_2loop _ _ => exists r, q_range (s_prec st "gamma3_tree_q") pkl = Ok r
  | D_A_2loop => exists r, q_range (s_prec st "A_2loop_II_III_q") pkl = Ok r
  | D_B => parts <> [] /\ h (Glob "pk_dt") = Some (VPk dt) /\ h (Glob "pk_tt") = Some (VPk ptt) /\ forall l, statics_B l -> h l <> None
  | _ => True
  end.
(** What the rows and columns contain, for given input. *)
Definition computes (d : driver) (pkl dt ptt : Pk N) (ks ps ss : list (T N)) (vals : Z -> list (T N)) : Prop :=
  find_pk pkl ks (s_interpol st (interpol_of d)) = Ok ps /\ calc_running_sigmad2 pkl ks (s_cutoff st (cutoff_of d)) = Ok ss /\
  forall ik, (0 <= ik < zlen ks)%Z -> value_of d pkl dt ptt (k_ ks ik) = Ok (vals ik).
End Drivers.
Definition idle {N} (h : heap N) (l : loc) : Prop := exists v, h l = Some v /\ ~ allocated v.
(** All interpolations are cubic; Suave returns a result for a function which does. *)
Definition all_cubic {N} (st : settings N) : Prop := (forall x, pr_interpol (s_prec st x) = POLY) /\ (forall x, s_interpol st x = POLY).
Definition suave_ok {N} (suave1 : (list (T N) -> res (T N)) -> res (T N)) (suave12 : (list (T N) -> res (list (T N))) -> res (list (T N))) : Prop :=
  (forall f, (forall xx, (5 <= zlen xx)%Z -> exists v, f xx = Ok v) -> exists v, suave1 f = Ok v) /\
  (forall f, (forall xx, (5 <= zlen xx)%Z -> exists v, f xx = Ok v /\ List.length v = 12%nat) -> exists v, suave12 f = Ok v /\ List.length v = 12%nat).
