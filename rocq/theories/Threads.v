(** Threads: threads over a shared memory, and the six run_terms functions of the library as programs of that kind. *)
From Coq Require Import ZArith List String Bool.
From Verif Require Import Base Num Common Kernels Integrals Registry.
Import ListNotations.
Local Open Scope num_scope.

(** Memory cells: [Arr x i], entry i of the array which the field x of the terms_* struct points to; [Priv t x], the
    threadprivate variable x of thread t; [Glob x], any other static variable. *)
Inductive loc := Arr (x : string) (i : Z) | Priv (t : nat) (x : string) | Glob (x : string).
Definition loc_eqb (l l' : loc) : bool :=
  match l, l' with
  | Arr x i, Arr y j => (x =? y)%string && (i =? j)%Z
  | Priv t x, Priv u y => (t =? u)%nat && (x =? y)%string
  | Glob x, Glob y => (x =? y)%string
  | _, _ => false
  end.
(** How a thread can go wrong: undefined behaviour, or losing the only pointer to a table. *)
Inductive fault := F_ub (e : ub) | F_leak.

Section Threads.
Context {N : Num}.
Notation T := (T N).

(** Contents of a cell.  A table (struct GaussLegendreQ or GaussLegendreMu, src/define.h:85-105) is one value: its four
    arrays are allocated and freed together.  [VFreed]: a table whose arrays have been freed. *)
Inductive value := VNum (x : T) | VQ (g : glq N) | VMu (m : glmu N) | VPk (p : Pk N) | VNull | VFreed.
(** [None]: no such cell. *)
Definition heap := loc -> option value.
Definition hupd (h : heap) (l : loc) (v : value) : heap := fun l' => if loc_eqb l l' then Some v else h l'.

(** A program: each [Load] and [Store] is one access to the memory. *)
Inductive prog (A : Type) : Type :=
| Ret (a : A)
| Load (l : loc) (k : value -> prog A)
| Store (l : loc) (v : value) (p : prog A)
| Fault (f : fault).
Arguments Ret {A} a. Arguments Load {A} l k. Arguments Store {A} l v p. Arguments Fault {A} f.
Fixpoint pbind {A B} (p : prog A) (f : A -> prog B) : prog B :=
  match p with
  | Ret a => f a
  | Load l k => Load l (fun v => pbind (k v) f)
  | Store l v p => Store l v (pbind p f)
  | Fault e => Fault e
  end.

(** One access of a program. *)
Definition tstep {A} (p : prog A) (h : heap) : option (prog A * heap) :=
  match p with
  | Ret _ | Fault _ => None
  | Load l k => Some (match h l with Some v => k v | None => Fault (F_ub OOB) end, h)
  | Store l v p => match h l with Some _ => Some (p, hupd h l v) | None => Some (Fault (F_ub OOB), h) end
  end.
(** A program alone. *)
Fixpoint run {A} (p : prog A) (h : heap) : (A * heap) + fault :=
  match p with
  | Ret a => inl (a, h)
  | Fault e => inr e
  | Load l k => match h l with Some v => run (k v) h | None => inr (F_ub OOB) end
  | Store l v p => match h l with Some _ => run p (hupd h l v) | None => inr (F_ub OOB) end
  end.

(** Several threads: any interleaving of their accesses. *)
Definition config : Type := heap * list (prog unit).
Inductive reaches : nat -> config -> config -> Prop :=
| r_refl c : reaches 0 c c
| r_step n h ps t p p' h' c : nth_error ps t = Some p -> tstep p h = Some (p', h') -> reaches n (h', upd ps t p') c ->
    reaches (S n) (h, ps) c.

(** ** Vocabulary of the programs *)
Notation "'let!' x := p 'in' q" := (pbind p (fun x => q)) (at level 200, x pattern, p at level 99, q at level 200).
Definition attempt {A} (r : res A) : prog A := match r with Ok a => Ret a | Err e => Fault (F_ub e) end.
Definition store (l : loc) (v : value) : prog unit := Store l v (Ret tt).
(** A cell of another kind than expected cannot occur in C; a table that is not allocated is dereferenced. *)
Definition not_a_table {A} (v : value) : prog A := match v with VFreed => Fault (F_ub UseAfterFree) | _ => Fault (F_ub NullDeref) end.
Definition load_num (l : loc) : prog T := Load l (fun v => match v with VNum x => Ret x | _ => Fault (F_ub OOB) end).
Definition load_pk (l : loc) : prog (Pk N) := Load l (fun v => match v with VPk p => Ret p | _ => Fault (F_ub NullDeref) end).
Definition load_q (l : loc) : prog (glq N) := Load l (fun v => match v with VQ g => Ret g | _ => not_a_table v end).
Definition load_mu (l : loc) : prog (glmu N) := Load l (fun v => match v with VMu m => Ret m | _ => not_a_table v end).
Fixpoint foreach {A} (f : A -> prog unit) (l : list A) : prog unit :=
  match l with [] => Ret tt | a :: l => let! _ := f a in foreach f l end.
(** The integers 0 .. n-1 *)
Definition indices (n : Z) : list Z := map Z.of_nat (seq 0 (Z.to_nat n)).
Fixpoint load_all (ls : list loc) : prog (list T) :=
  match ls with [] => Ret [] | l :: ls => let! x := load_num l in let! xs := load_all ls in Ret (x :: xs) end.
(** The successive elements of a result, each stored in the next cell. *)
Fixpoint store_all (ls : list loc) (xs : list T) : prog unit :=
  match ls, xs with
  | [], _ => Ret tt
  | l :: ls, x :: xs => let! _ := store l (VNum x) in store_all ls xs
  | _ :: _, [] => Fault (F_ub OOB)
  end.

(** ** The library; [st]: precision settings, [fuel]: of the Newton iterations, [t]: the thread *)
Variables (fuel : nat) (st : settings N).
Definition pk_lin : loc := Glob "pk_lin".

(** src/common.c:307-331 on the threadprivate table x; x is also the name of its Precision. *)
Definition p_init_q (t : nat) (x : string) : prog unit :=
  Load (Priv t x) (fun old => match old with VQ _ => Fault F_leak | _ =>
    let! pkl := load_pk pk_lin in let! g := attempt (init_gauss_legendre_q fuel (s_prec st x) pkl) in store (Priv t x) (VQ g) end).
(** src/common.c:341-347.  free() of a null pointer does nothing. *)
Definition p_free_q (t : nat) (x : string) : prog unit :=
  Load (Priv t x) (fun old => match old with VQ _ => store (Priv t x) VFreed | VFreed => Fault (F_ub DoubleFree) | _ => Ret tt end).
(** src/common.c:350-368, 382-388 *)
Definition p_init_mu (t : nat) (x : string) : prog unit :=
  Load (Priv t x) (fun old => match old with VMu _ => Fault F_leak | _ =>
    let! m := attempt (init_gauss_legendre_mu fuel (s_prec st x)) in store (Priv t x) (VMu m) end).
Definition p_free_mu (t : nat) (x : string) : prog unit :=
  Load (Priv t x) (fun old => match old with VMu _ => store (Priv t x) VFreed | VFreed => Fault (F_ub DoubleFree) | _ => Ret tt end).

(** A function of the library on a table of radii and one of angles, both threadprivate. *)
Definition on_tables {A} (t : nat) (q mu : string) (f : Pk N -> glq N -> glmu N -> res (A * glq N * glmu N)) : prog A :=
  let! pkl := load_pk pk_lin in let! g := load_q (Priv t q) in let! m := load_mu (Priv t mu) in
  let! (v, g, m) := attempt (f pkl g m) in
  let! _ := store (Priv t q) (VQ g) in let! _ := store (Priv t mu) (VMu m) in Ret v.

(** The serial beginning of every run_terms function, e.g. src/spectrum_1loop.c:80-81: find_pk_lin and
    calc_running_sigmad2 on the arrays k, pk_lin, sigmad2.  All reads are made before the writes (the arrays are distinct). *)
Definition p_serial (interpol_name cutoff_name : string) (nk : Z) : prog unit :=
  let cells x := map (Arr x) (indices nk) in
  let! ks := load_all (cells "k"%string) in let! pkl := load_pk pk_lin in
  let! p := attempt (find_pk pkl ks (s_interpol st interpol_name)) in let! _ := store_all (cells "pk_lin"%string) p in
  let! s := attempt (calc_running_sigmad2 pkl ks (s_cutoff st cutoff_name)) in store_all (cells "sigmad2"%string) s.

(** gamma1_1loop(a,k), src/gamma1_1loop.c:55-70, on the thread's table *)
Definition p_gamma1_1loop (t : nat) (a : flag) (k : T) : prog T :=
  let! g := load_q (Priv t "gamma1_1loop_q") in let! (v, g) := attempt (gamma1_1loop g a k) in
  let! _ := store (Priv t "gamma1_1loop_q") (VQ g) in Ret v.

(** *** Spectrum at 1 loop *)
(** src/spectrum_1loop.c:87-95 *)
Definition row_1loop (t : nat) (a b : flag) (ik : Z) : prog unit :=
  let! k := load_num (Arr "k" ik) in
  let! v := p_gamma1_1loop t a k in let! _ := store (Arr "gamma1a_1loop" ik) (VNum v) in
  let! _ := (if flag_eqb b a then let! v := load_num (Arr "gamma1a_1loop" ik) in store (Arr "gamma1b_1loop" ik) (VNum v)
           else let! v := p_gamma1_1loop t b k in store (Arr "gamma1b_1loop" ik) (VNum v)) in
  let! v := on_tables t "gamma2_tree_q" "gamma2_tree_mu" (fun pkl g m => calc_pk_gamma2_tree pkl (pr_interpol (s_prec st "gamma2_tree_mu")) g m a b k) in
  store_all [Arr "pk_gamma2_tree_tree" ik] v.
(** src/spectrum_1loop.c:82-101; the printing of the progress is in [progress] below.  The critical section is dropped:
    what it contains touches only the thread's own variables. *)
Definition thread_1loop (a b : flag) (t : nat) (rows : list Z) : prog unit :=
  let! _ := p_init_q t "gamma1_1loop_q" in let! _ := p_init_q t "gamma2_tree_q" in let! _ := p_init_mu t "gamma2_tree_mu" in
  let! _ := foreach (row_1loop t a b) rows in
  let! _ := p_free_q t "gamma1_1loop_q" in let! _ := p_free_q t "gamma2_tree_q" in p_free_mu t "gamma2_tree_mu".

(** *** Spectrum at 2 loops *)
(** src/spectrum_2loop.c:86-91.  The kernels of gamma2d_1loop.c and gamma2t_1loop.c only read their tables. *)
Definition row_2loop (t : nat) (a b : flag) (ik : Z) : prog unit :=
  let! k := load_num (Arr "k" ik) in
  let! g1 := load_q (Priv t "gamma1_1loop_q") in let! g2 := load_q (Priv t "gamma1_2loop_q") in
  let! (a1, a2, b1, b2, g1, g2) := attempt (calc_pk_gamma1_2loop g1 g2 a b k) in
  let! _ := store (Priv t "gamma1_1loop_q") (VQ g1) in let! _ := store (Priv t "gamma1_2loop_q") (VQ g2) in
  let! _ := store_all [Arr "gamma1a_1loop" ik; Arr "gamma1a_2loop" ik; Arr "gamma1b_1loop" ik; Arr "gamma1b_2loop" ik] [a1; a2; b1; b2] in
  let! gd := load_q (Priv t "gamma2d_1loop_q") in let! gt := load_q (Priv t "gamma2t_1loop_q") in
  let! v := on_tables t "gamma2_tree_q" "gamma2_tree_mu" (fun pkl g m => calc_pk_gamma2_1loop pkl (pr_interpol (s_prec st "gamma2_tree_mu")) g m gd gt a b k) in
  store_all [Arr "pk_gamma2_tree_tree" ik; Arr "pk_gamma2_tree_1loop" ik; Arr "pk_gamma2_1loop_1loop" ik] v.
(** src/spectrum_2loop.c:77-100 *)
Definition thread_2loop (a b : flag) (t : nat) (rows : list Z) : prog unit :=
  let! _ := p_init_q t "gamma1_1loop_q" in let! _ := p_init_q t "gamma1_2loop_q" in let! _ := p_init_q t "gamma2_tree_q" in let! _ := p_init_mu t "gamma2_tree_mu" in
  let! _ := p_init_q t "gamma2d_1loop_q" in let! _ := p_init_q t "gamma2t_1loop_q" in
  let! _ := foreach (row_2loop t a b) rows in
  let! _ := p_free_q t "gamma1_1loop_q" in let! _ := p_free_q t "gamma1_2loop_q" in let! _ := p_free_q t "gamma2_tree_q" in let! _ := p_free_mu t "gamma2_tree_mu" in
  let! _ := p_free_q t "gamma2d_1loop_q" in p_free_q t "gamma2t_1loop_q".

(** *** Bias terms *)
(** src/spectrum_bias_1loop.c:97-107 *)
Definition row_bias (t : nat) (ik : Z) : prog unit :=
  let term x a kernel half := let! k := load_num (Arr "k" ik) in
    let! v := on_tables t "bias_1loop_q" "bias_1loop_mu" (fun pkl g m => calc_pk_bias_1loop pkl (pr_interpol (s_prec st "bias_1loop_mu")) g m a k kernel half) in
    store (Arr x ik) (VNum v) in
  let! _ := term "pk_b2d"%string DELTA kernel_b2 true in let! _ := term "pk_bs2d"%string DELTA kernel_bs2 true in
  let! _ := term "pk_b2t"%string THETA kernel_b2 true in let! _ := term "pk_bs2t"%string THETA kernel_bs2 true in
  let! _ := term "pk_b22"%string DELTA kernel_b22 false in let! _ := term "pk_b2s2"%string DELTA kernel_b2s2 false in
  let! _ := term "pk_bs22"%string DELTA kernel_bs22 false in term "sigma3sq"%string DELTA kernel_sigma3sq false.
(** src/spectrum_bias_1loop.c:92-113 *)
Definition thread_bias (t : nat) (rows : list Z) : prog unit :=
  let! _ := p_init_q t "bias_1loop_q" in let! _ := p_init_mu t "bias_1loop_mu" in
  let! _ := foreach (row_bias t) rows in
  let! _ := p_free_q t "bias_1loop_q" in p_free_mu t "bias_1loop_mu".

(** *** A terms *)
(** The cells x[ik*NCOMP], ..., x[ik*NCOMP+NCOMP-1] *)
Definition block (x : string) (ncomp : nat) (ik : Z) : list loc := map (fun c => Arr x (ik * Z.of_nat ncomp + Z.of_nat c)) (seq 0 ncomp).
(** src/spectrum_A_1loop.c:55-59 *)
Definition row_A_1loop (t : nat) (ik : Z) : prog unit :=
  let! k := load_num (Arr "k" ik) in
  let! v := on_tables t "A_1loop_q" "A_1loop_mu" (fun pkl g m => calc_pk_A_1loop pkl (pr_interpol (s_prec st "A_1loop_q")) (pr_interpol (s_prec st "A_1loop_mu")) g m k) in
  store_all (block "A" 5 ik) v.
(** src/spectrum_A_1loop.c:51-65 *)
Definition thread_A_1loop (t : nat) (rows : list Z) : prog unit :=
  let! _ := p_init_q t "A_1loop_q" in let! _ := p_init_mu t "A_1loop_mu" in
  let! _ := foreach (row_A_1loop t) rows in
  let! _ := p_free_q t "A_1loop_q" in p_free_mu t "A_1loop_mu".
(** src/spectrum_A_2loop.c:59-63 and 79-83 *)
Definition sum_A (p : list T) : res (list T) :=
  p0 <- rd p 0 ;; p1 <- rd p 1 ;; p2 <- rd p 2 ;; p3 <- rd p 3 ;; p4 <- rd p 4 ;; p5 <- rd p 5 ;;
  p6 <- rd p 6 ;; p7 <- rd p 7 ;; p8 <- rd p 8 ;; p9 <- rd p 9 ;; p10 <- rd p 10 ;; p11 <- rd p 11 ;;
  Ok [p0 + p6; p1 + p7; p2 + p8 + p3 + p9; p4 + p10; p5 + p11].
(** src/spectrum_A_2loop.c:55-67.  The table of gamma1_1loop.c is also modified during the call; which values of k and x
    it is left with is irrelevant (C34_A_2loop_gamma1_table). *)
Definition row_A_2loop (t : nat) (ik : Z) : prog unit :=
  let! k := load_num (Arr "k" ik) in
  let! g1 := load_q (Priv t "gamma1_1loop_q") in let! gd := load_q (Priv t "gamma2d_1loop_q") in let! gt := load_q (Priv t "gamma2t_1loop_q") in
  let! v := on_tables t "A_2loop_I_q" "A_2loop_I_mu" (fun pkl g m =>
    calc_pk_A_2loop_I pkl (s_interpol st "bispectrum_1loop_pk_lin") (s_cutoff st "set_running_uvcutoff_bispectrum_1loop") g m g1 gd gt k) in
  let! _ := store (Priv t "gamma1_1loop_q") (VQ g1) in
  let! v := attempt (sum_A v) in store_all (block "A" 5 ik) v.
(** src/spectrum_A_2loop.c:52-72, calc_pkcorr_from_A_2loop_I.c:79-91, bispectrum_1loop.c:83-95 *)
Definition thread_A_2loop (t : nat) (rows : list Z) : prog unit :=
  let! _ := p_init_q t "A_2loop_I_q" in let! _ := p_init_mu t "A_2loop_I_mu" in let! _ := p_init_q t "gamma1_1loop_q" in let! _ := p_init_q t "gamma2d_1loop_q" in let! _ := p_init_q t "gamma2t_1loop_q" in
  let! _ := foreach (row_A_2loop t) rows in
  let! _ := p_free_q t "A_2loop_I_q" in let! _ := p_free_mu t "A_2loop_I_mu" in let! _ := p_free_q t "gamma1_1loop_q" in let! _ := p_free_q t "gamma2d_1loop_q" in p_free_q t "gamma2t_1loop_q".

(** *** B terms *)
(** src/spectrum_B.c:121-129 *)
Definition sum_B (p : list T) : res (list T) :=
  p0 <- rd p 0 ;; p1 <- rd p 1 ;; p2 <- rd p 2 ;; p3 <- rd p 3 ;; p4 <- rd p 4 ;; p5 <- rd p 5 ;;
  p6 <- rd p 6 ;; p7 <- rd p 7 ;; p8 <- rd p 8 ;; p9 <- rd p 9 ;; p10 <- rd p 10 ;; p11 <- rd p 11 ;;
  Ok [p0; - (p1 + p2); p3; p4; - (p5 + p6); p7; - (p8 + p9); p10; p11].
(** src/spectrum_B.c:117-130; the spectra are read from the static variables of calc_pkcorr_from_B.c. *)
Definition row_B (t : nat) (ik : Z) : prog unit :=
  let! k := load_num (Arr "k" ik) in
  let! dt := load_pk (Glob "calc_B.pk_dt") in let! ptt := load_pk (Glob "calc_B.pk_tt") in
  let! v := on_tables t "B_q" "B_mu" (fun _ g m => calc_pk_B dt ptt (pr_interpol (s_prec st "B_mu")) g m k) in
  let! v := attempt (sum_B v) in store_all (block "B" 9 ik) v.
(** src/spectrum_B.c:113-134, calc_pkcorr_from_B.c:67-79: every thread copies the spectra of spectrum_B.c into the static
    variables of calc_pkcorr_from_B.c, which are not threadprivate. *)
Definition thread_B (t : nat) (rows : list Z) : prog unit :=
  let! dt := load_pk (Glob "pk_dt") in let! ptt := load_pk (Glob "pk_tt") in
  let! _ := store (Glob "calc_B.pk_dt") (VPk dt) in let! _ := store (Glob "calc_B.pk_tt") (VPk ptt) in
  let! _ := p_init_q t "B_q" in let! _ := p_init_mu t "B_mu" in
  let! _ := foreach (row_B t) rows in
  let! _ := p_free_q t "B_q" in p_free_mu t "B_mu".

(** ** The serial ends; [suave1], [suave12]: the integrals Suave returns for an integrand of 1 or of 12 components *)
Variables (suave1 : (list T -> res T) -> res T) (suave12 : (list T -> res (list T)) -> res (list T)).
(** src/spectrum_2loop.c:101-106, calc_pkcorr_from_gamma3.c:20-28.  That the range is also written into precision_q is in
    the process model. *)
Definition p_gamma3 (a b : flag) (nk : Z) : prog unit :=
  let! pkl := load_pk pk_lin in
  let! (qmin, qmax) := attempt (q_range (s_prec st "gamma3_tree_q") pkl) in
  foreach (fun ik =>
    let! k := load_num (Arr "k" ik) in
    let! v := attempt (calc_pk_gamma3_tree suave1 pkl (pr_interpol (s_prec st "gamma3_tree_q")) qmin qmax (nlog qmin) (nlog qmax) a b k) in
    store (Arr "pk_gamma3_tree" ik) (VNum v)) (indices nk).
(** src/spectrum_A_2loop.c:74-85, calc_pkcorr_from_A_2loop_II_III.c:31-41 *)
Definition p_A_II_III (nk : Z) : prog unit :=
  let! pkl := load_pk pk_lin in
  let! (qmin, qmax) := attempt (q_range (s_prec st "A_2loop_II_III_q") pkl) in
  foreach (fun ik =>
    let! k := load_num (Arr "k" ik) in
    let! v := attempt (calc_pk_A_2loop_II_III suave12 pkl (s_interpol st "bispectrum_1loop_pk_lin") (s_cutoff st "set_running_uvcutoff_bispectrum_1loop") (nlog qmin) (nlog qmax) k) in
    let! v := attempt (sum_A v) in let! old := load_all (block "A" 5 ik) in
    store_all (block "A" 5 ik) (zipw (fun o v => o + v) old v)) (indices nk).

(** ** The region: thread t computes the rows [nth t parts], in this order.  OpenMP's static schedule gives every thread
    a contiguous range; here any distribution of the rows is allowed. *)
Definition team (thread : nat -> list Z -> prog unit) (parts : list (list Z)) : list (prog unit) :=
  map (fun tp => thread (fst tp) (snd tp)) (combine (seq 0 (List.length parts)) parts).

(** A call of one of the run_terms functions: serial, parallel, serial. *)
Record call := mkCall { before : prog unit; threads : list (prog unit); after : prog unit }.
Inductive ends (c : call) (h : heap) : heap -> Prop :=
| ends_ok n h1 h2 ps h3 : run (before c) h = inl (tt, h1) -> reaches n (h1, threads c) (h2, ps) -> (forall p, In p ps -> p = Ret tt) ->
    run (after c) h2 = inl (tt, h3) -> ends c h h3.
(** src/spectrum_1loop.c:66-103, spectrum_2loop.c:61-107, spectrum_bias_1loop.c:82-115, spectrum_A_1loop.c:43-68,
    spectrum_A_2loop.c:41-87, spectrum_B.c:100-143 (when the spectra are given) *)
Definition run_terms_1loop a b nk parts : call := mkCall (p_serial "spectrum_1loop_pk_lin" "set_running_uvcutoff_spectrum_1loop" nk) (team (thread_1loop a b) parts) (Ret tt).
Definition run_terms_2loop a b nk parts : call := mkCall (p_serial "spectrum_2loop_pk_lin" "set_running_uvcutoff_spectrum_2loop" nk) (team (thread_2loop a b) parts) (p_gamma3 a b nk).
Definition run_terms_bias nk parts : call := mkCall (p_serial "bias_1loop_pk_lin" "set_running_uvcutoff_bias_1loop" nk) (team thread_bias parts) (Ret tt).
Definition run_terms_A_1loop nk parts : call := mkCall (p_serial "A_1loop_pk_lin" "set_precision_A_1loop_sigmad2" nk) (team thread_A_1loop parts) (Ret tt).
Definition run_terms_A_2loop nk parts : call := mkCall (p_serial "A_2loop_pk_lin" "set_precision_A_2loop_sigmad2" nk) (team thread_A_2loop parts) (p_A_II_III nk).
Definition run_terms_B nk parts : call := mkCall (p_serial "B_pk_lin" "set_running_uvcutoff_B" nk) (team thread_B parts) (Ret tt).
End Threads.
Arguments value N : clear implicits.
Arguments heap N : clear implicits.
Arguments prog N A : clear implicits.
Arguments config N : clear implicits.
Arguments call N : clear implicits.
Arguments Ret {N A} a. Arguments Load {N A} l k. Arguments Store {N A} l v p. Arguments Fault {N A} f.

(** Progress messages, e.g. src/spectrum_1loop.c:77,88: the step, and what is printed before row [ik], if anything. *)
Definition step_verbose (nk : Z) : Z := Z.max (u64 (nk * 10) / 100)%Z 1.
Definition progress (nk ik : Z) : option Z := if (ik mod step_verbose nk =? 0)%Z then Some (u64 (ik * 10) / step_verbose nk)%Z else None.
