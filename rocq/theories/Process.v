(** Process: the arrays of a Python process, the objects of pyregpt.py that refer to them, and the pointers to them in the
    static variables of the C library. *)
From Coq Require Import ZArith List String Bool.
From Verif Require Import Base Num Common Kernels Integrals Registry PyTerms Threads SpecThreads.
Import ListNotations.
Local Open Scope string_scope.

(** The six terms_* structs of spectrum_1loop.c:14, spectrum_2loop.c:13, spectrum_bias_1loop.c, spectrum_A_1loop.c,
    spectrum_A_2loop.c, spectrum_B.c:15 *)
Inductive slot := S_1loop | S_2loop | S_bias | S_A1 | S_A2 | S_B.
Definition slot_eqb (a b : slot) : bool :=
  match a, b with S_1loop, S_1loop | S_2loop, S_2loop | S_bias, S_bias | S_A1, S_A1 | S_A2, S_A2 | S_B, S_B => true | _, _ => false end.
(** The array parameters of set_terms_*, in order, named by the field they are stored in: spectrum_1loop.c:40-48,
    spectrum_2loop.c:39-52, spectrum_bias_1loop.c:61-74, spectrum_A_1loop.c:29-35, spectrum_A_2loop.c:27-33, spectrum_B.c:43-49 *)
Definition c_fields (s : slot) : list string :=
  match s with
  | S_1loop => ["k"; "pk_lin"; "sigmad2"; "gamma1a_1loop"; "gamma1b_1loop"; "pk_gamma2_tree_tree"]
  | S_2loop => ["k"; "pk_lin"; "sigmad2"; "gamma1a_1loop"; "gamma1a_2loop"; "gamma1b_1loop"; "gamma1b_2loop"; "pk_gamma2_tree_tree";
                "pk_gamma2_tree_1loop"; "pk_gamma2_1loop_1loop"; "pk_gamma3_tree"]
  | S_bias => ["k"; "pk_lin"; "sigmad2"; "pk_b2d"; "pk_bs2d"; "pk_b2t"; "pk_bs2t"; "pk_b22"; "pk_b2s2"; "pk_bs22"; "sigma3sq"]
  | S_A1 | S_A2 => ["k"; "pk_lin"; "sigmad2"; "A"]
  | S_B => ["k"; "pk_lin"; "sigmad2"; "B"]
  end.
(** Which set_terms_* and run_terms_* the methods of a class call: pyregpt.py:345-355, 379-389, 459-469, 494-505, 522-533,
    550-565, 586-608 *)
Definition slot_of (c : pyclass) : option slot :=
  match c with CLin | CNoWiggle => None | C1Loop => Some S_1loop | C2Loop => Some S_2loop | CBias => Some S_bias | CA1 => Some S_A1 | CA2 => Some S_A2 | CB1 | CB2 => Some S_B end.
(** src/regpt.c:64-69 *)
Definition set_flag (s : string) : flag := if (s =? "delta")%string then DELTA else if (s =? "theta")%string then THETA else DELTA.
(** src/define.h:17 *)
Inductive verbosity := QUIET | INFO | DEBUG.
(** src/regpt.c:25-30 *)
Definition c_set_verbosity (old : verbosity) (s : string) : verbosity :=
  if (s =? "quiet")%string then QUIET else if (s =? "info")%string then INFO else if (s =? "debug")%string then DEBUG else old.

(** Who owns a block of memory: numpy (freed when no variable leads to an array in it), or the library, by calloc. *)
Inductive owner := Numpy | Calloc | Freed.
(** A numpy array: the elements [a_off], [a_off + a_step], ... of a block; [a_2d]: reshaped to two dimensions. *)
Record array := mkArray { a_buf : nat; a_off : Z; a_step : Z; a_len : Z; a_2d : bool }.
(** A C pointer: a place in a block, or NULL. *)
Definition ptr : Type := option (nat * Z).
(** src/define.h, struct Pk *)
Record cpk := mkCpk { cp_n : Z; cp_k : ptr; cp_p : ptr }.
(** The terms_* structs *)
Record cterms := mkCterms { ct_n : Z; ct_ptr : string -> ptr }.
(** A Python object: its class, which dict its attribute columns is, its attributes spectrum_lin, spectrum_1loop_dt,
    spectrum_1loop_tt (B2Loop) and _verbose, if there. *)
Record object := mkObj { o_class : pyclass; o_dict : nat; o_lin : option nat; o_dt : option nat; o_tt : option nat; o_verbose : option string }.

Section Process.
Context {N : Num}.
Notation T := (T N).
(** [vars]: the objects held in variables of the program; [temps]: the blocks of the arrays held in local variables of the
    method being run.  [g_*]: static variables of the library, pk_lin (regpt.c), terms_* (the six files), pk_dt, pk_tt
    (spectrum_B.c:16-17), pk_1loop (spectrum_1loop.c:15), the settings, verbose. *)
Record state := mkState {
  blocks : list (owner * list T); dicts : list (list (string * array)); objects : list object; vars : list nat; temps : list nat;
  g_lin : cpk; g_terms : slot -> cterms; g_dt : cpk; g_tt : cpk; g_1loop : cpk; g_conf : settings N; g_verbose : verbosity }.
Definition with_blocks s x := mkState x (dicts s) (objects s) (vars s) (temps s) (g_lin s) (g_terms s) (g_dt s) (g_tt s) (g_1loop s) (g_conf s) (g_verbose s).
Definition with_dicts s x := mkState (blocks s) x (objects s) (vars s) (temps s) (g_lin s) (g_terms s) (g_dt s) (g_tt s) (g_1loop s) (g_conf s) (g_verbose s).
Definition with_objects s x := mkState (blocks s) (dicts s) x (vars s) (temps s) (g_lin s) (g_terms s) (g_dt s) (g_tt s) (g_1loop s) (g_conf s) (g_verbose s).
Definition with_vars s x := mkState (blocks s) (dicts s) (objects s) x (temps s) (g_lin s) (g_terms s) (g_dt s) (g_tt s) (g_1loop s) (g_conf s) (g_verbose s).
Definition with_temps s x := mkState (blocks s) (dicts s) (objects s) (vars s) x (g_lin s) (g_terms s) (g_dt s) (g_tt s) (g_1loop s) (g_conf s) (g_verbose s).
Definition with_lin s x := mkState (blocks s) (dicts s) (objects s) (vars s) (temps s) x (g_terms s) (g_dt s) (g_tt s) (g_1loop s) (g_conf s) (g_verbose s).
Definition with_terms s x := mkState (blocks s) (dicts s) (objects s) (vars s) (temps s) (g_lin s) x (g_dt s) (g_tt s) (g_1loop s) (g_conf s) (g_verbose s).
Definition with_dt s x := mkState (blocks s) (dicts s) (objects s) (vars s) (temps s) (g_lin s) (g_terms s) x (g_tt s) (g_1loop s) (g_conf s) (g_verbose s).
Definition with_tt s x := mkState (blocks s) (dicts s) (objects s) (vars s) (temps s) (g_lin s) (g_terms s) (g_dt s) x (g_1loop s) (g_conf s) (g_verbose s).
Definition with_1loop s x := mkState (blocks s) (dicts s) (objects s) (vars s) (temps s) (g_lin s) (g_terms s) (g_dt s) (g_tt s) x (g_conf s) (g_verbose s).
Definition with_conf s x := mkState (blocks s) (dicts s) (objects s) (vars s) (temps s) (g_lin s) (g_terms s) (g_dt s) (g_tt s) (g_1loop s) x (g_verbose s).
Definition with_verbose s x := mkState (blocks s) (dicts s) (objects s) (vars s) (temps s) (g_lin s) (g_terms s) (g_dt s) (g_tt s) (g_1loop s) (g_conf s) x.
(** The process when the library has been loaded: static variables without initialiser are zero (define.c:6-7) *)
Definition no_pk : cpk := mkCpk 0 None None.
Definition fresh_process : state := mkState [] [] [] [] [] no_pk (fun _ => mkCterms 0 (fun _ => None)) no_pk no_pk no_pk (fresh_settings N) QUIET.

(** How a statement ends: normally; by a Python exception; by undefined behaviour.  [Beyond]: outside the model (an object
    no variable leads to, or output arrays which overlap an input of the computation). *)
Inductive out (A : Type) := Fine (s : state) (a : A) | Throws (e : exc) (s : state) | Crash (u : ub) | Beyond.
Arguments Fine {A} s a. Arguments Throws {A} e s. Arguments Crash {A} u. Arguments Beyond {A}.
Definition M (A : Type) : Type := state -> out A.
Definition ret {A} (a : A) : M A := fun s => Fine s a.
Definition mbind {A B} (m : M A) (f : A -> M B) : M B :=
  fun s => match m s with Fine s a => f a s | Throws e s => Throws e s | Crash u => Crash u | Beyond => Beyond end.
Notation "'let*' x := m 'in' f" := (mbind m (fun x => f)) (at level 200, x pattern, m at level 99, f at level 200).
Definition get : M state := fun s => Fine s s.
Definition modify (f : state -> state) : M unit := fun s => Fine (f s) tt.
Definition throw {A} (e : exc) : M A := fun s => Throws e s.
Definition lift {A} (r : res A) : M A := fun s => match r with Ok a => Fine s a | Err (PyExc e) => Throws e s | Err u => Crash u end.
(** A result of C code: it raises no exception *)
Definition c_lift {A} (r : res A) : M A := fun s => match r with Ok a => Fine s a | Err u => Crash u end.
Definition beyond_unless (b : bool) : M unit := fun s => if b then Fine s tt else Beyond.
Fixpoint each_ {A B} (f : A -> M B) (l : list A) : M (list B) :=
  match l with [] => ret [] | x :: t => let* y := f x in let* ys := each_ f t in ret (y :: ys) end.
Definition do_all {A} (f : A -> M unit) (l : list A) : M unit := let* _ := each_ f l in ret tt.

(** ** What the variables of the program lead to *)
Definition opt {A} (x : option A) : list A := match x with Some a => [a] | None => [] end.
Definition links (s : state) (o : nat) : list nat := match nth_error (objects s) o with Some ob => (opt (o_lin ob) ++ opt (o_dt ob) ++ opt (o_tt ob))%list | None => [] end.
Fixpoint closure (s : state) (n : nat) (l : list nat) : list nat := match n with O => l | S n => closure s n (l ++ flat_map (links s) l)%list end.
Definition reachable (s : state) : list nat := closure s (List.length (objects s)) (vars s).
Definition mem (n : nat) (l : list nat) : bool := existsb (Nat.eqb n) l.
Definition dict_of (s : state) (o : nat) : list (string * array) := match nth_error (objects s) o with Some ob => nth (o_dict ob) (dicts s) [] | None => [] end.
Definition held (s : state) : list nat := (temps s ++ flat_map (fun o => map (fun xa => a_buf (snd xa)) (dict_of s o)) (reachable s))%list.
(** A block is allocated: numpy frees an array as soon as nothing refers to it. *)
Definition alive (s : state) (b : nat) : bool :=
  match nth_error (blocks s) b with Some (Numpy, _) => mem b (held s) | Some (Calloc, _) => true | Some (Freed, _) | None => false end.

(** ** Memory accesses of the library *)
Definition place (p : ptr) : M (nat * Z) := match p with Some bo => ret bo | None => fun _ => Crash NullDeref end.
Definition block (b : nat) : M (list T) := fun s => if alive s b then match nth_error (blocks s) b with Some (_, xs) => Fine s xs | None => Crash OOB end else Crash UseAfterFree.
Definition c_read (p : ptr) (i : Z) : M T := let* (b, o) := place p in let* xs := block b in c_lift (rd xs (o + i)).
Definition put_block (s : state) (b : nat) (xs : list T) : state :=
  match nth_error (blocks s) b with Some (w, _) => with_blocks s (upd (blocks s) b (w, xs)) | None => s end.
Definition c_write (p : ptr) (i : Z) (x : T) : M unit :=
  let* (b, o) := place p in let* xs := block b in let* ys := c_lift (wr xs (o + i) x) in modify (fun s => put_block s b ys).
Definition c_read_n (p : ptr) (n : Z) : M (list T) := each_ (c_read p) (indices n).
(** The arrays of a struct Pk.  (The code reads them piecewise; all users read k[0] first.) *)
Definition c_table (c : cpk) : M (Pk N) :=
  let* _ := place (cp_k c) in let* ks := c_read_n (cp_k c) (cp_n c) in let* ps := c_read_n (cp_p c) (cp_n c) in ret (mkPk (cp_n c) ks ps).
Definition new_block (w : owner) (xs : list T) : M nat := fun s => Fine (with_blocks s (blocks s ++ [(w, xs)])%list) (List.length (blocks s)).
Definition c_calloc (n : Z) : M ptr := let* b := new_block Calloc (repeat (nZ N 0) (Z.to_nat n)) in ret (Some (b, 0%Z)).
Definition c_free (p : ptr) : M unit := fun s =>
  match p with
  | None => Fine s tt
  | Some (b, o) => match nth_error (blocks s) b with Some (Calloc, xs) => if (o =? 0)%Z then Fine (with_blocks s (upd (blocks s) b (Freed, xs))) tt else Crash DoubleFree | _ => Crash DoubleFree end
  end.

(** ** The library; [fuel], [suave1], [suave12]: as in Threads.v *)
Variables (fuel : nat) (suave1 : (list T -> res T) -> res T) (suave12 : (list T -> res (list T)) -> res (list T)).
(** src/regpt.c:32-44, print_pk_lin and print_k: the accesses *)
Definition c_print (k : ptr) (nk : Z) : M unit := let* _ := c_read k 0 in let* _ := c_read k (u64 (nk - 1)) in ret tt.
Definition when_info (m : M unit) : M unit := let* s := get in match g_verbose s with INFO => m | _ => ret tt end.
(** src/regpt.c:71-80 *)
Definition c_set_pk_lin (k p : ptr) (nk : Z) : M unit := let* _ := modify (fun s => with_lin s (mkCpk nk k p)) in when_info (c_print k nk).
(** set_terms_*: the n-th array is stored in the n-th field *)
Definition c_set_terms (sl : slot) (nk : Z) (args : list ptr) : M unit :=
  let bound := combine (c_fields sl) args in
  let* _ := modify (fun s => with_terms s (fun sl' => if slot_eqb sl sl' then mkCterms nk (fun x => match assoc bound x with Some p => p | None => None end) else g_terms s sl')) in
  when_info (c_print (match assoc bound "k" with Some p => p | None => None end) nk).
Definition slot_of_driver (d : driver) : slot := match d with D_1loop _ _ => S_1loop | D_2loop _ _ => S_2loop | D_bias => S_bias | D_A_1loop => S_A1 | D_A_2loop => S_A2 | D_B => S_B end.
Definition buf_of (p : ptr) : list nat := match p with Some (b, _) => [b] | None => [] end.
Fixpoint disjoint (l m : list nat) : bool := match l with [] => true | x :: t => negb (mem x m) && disjoint t m end.
Fixpoint distinct (l : list nat) : bool := match l with [] => true | x :: t => negb (mem x t) && distinct t end.
(** The outputs are blocks of their own; otherwise the results depend on the order of the computation. *)
Definition no_overlap (sl : slot) (inputs : list nat) : M unit :=
  let* s := get in
  let out := flat_map (fun x => buf_of (ct_ptr (g_terms s sl) x)) (tl (c_fields sl)) in
  beyond_unless (distinct out && disjoint out inputs).
Definition c_store (ct : cterms) (lx : loc * T) : M unit := match fst lx with Arr x i => c_write (ct_ptr ct x) i (snd lx) | _ => ret tt end.
(** The serial beginning of run_terms_*, e.g. spectrum_1loop.c:80-81: the columns pk_lin and sigmad2 *)
Definition c_columns (d : driver) : M (Pk N * list T) :=
  let* s := get in
  let ct := g_terms s (slot_of_driver d) in let nk := ct_n ct in
  let* _ := no_overlap (slot_of_driver d) (buf_of (ct_ptr ct "k") ++ buf_of (cp_k (g_lin s)) ++ buf_of (cp_p (g_lin s))) in
  let* pkl := c_table (g_lin s) in
  let* ks := c_read_n (ct_ptr ct "k") nk in
  let* ps := c_lift (find_pk pkl ks (s_interpol (g_conf s) (interpol_of d))) in
  let* _ := do_all (c_store ct) (combine (SpecThreads.column "pk_lin" nk) ps) in
  let* ss := c_lift (calc_running_sigmad2 pkl ks (s_cutoff (g_conf s) (cutoff_of d))) in
  let* _ := do_all (c_store ct) (combine (SpecThreads.column "sigmad2" nk) ss) in
  ret (pkl, ks).
(** The rows, by any number of threads: they are those the model of the threads computes (PropThreads.C33_run_terms), each
    from its wavenumber alone.  [dt], [ptt]: used by B only. *)
Definition c_rows (d : driver) (pkl : Pk N) (ks : list T) (dt ptt : Pk N) : M unit :=
  let* s := get in
  let ct := g_terms s (slot_of_driver d) in
  do_all (fun ik => let* v := c_lift (value_of fuel (g_conf s) suave1 suave12 d pkl dt ptt (k_ ks ik)) in do_all (c_store ct) (combine (cells_of d ik) v)) (indices (ct_n ct)).
(** calc_pkcorr_from_gamma3.c:20-28, calc_pkcorr_from_A_2loop_II_III.c:31-37: an automatic range is replaced by that of the
    current spectrum, in the settings themselves *)
Definition c_latch (x : string) (pkl : Pk N) : M unit :=
  let* s := get in let p := s_prec (g_conf s) x in
  if nle N (pr_min p) (nZ N 0) || nle N (pr_max p) (nZ N 0)
  then let* r := c_lift (q_range p pkl) in modify (fun s => with_conf s (put_prec (g_conf s) x (mkPrec (pr_n p) (fst r) (snd r) (pr_interpol p))))
  else ret tt.
(** run_terms_* of five of the files; spectrum_1loop.c:66-103, spectrum_2loop.c:61-107, spectrum_bias_1loop.c:82-115,
    spectrum_A_1loop.c:43-68, spectrum_A_2loop.c:41-87.  The debug files are left out. *)
Definition c_run_terms (d : driver) : M unit :=
  let* (pkl, ks) := c_columns d in
  let* _ := match d with D_2loop _ _ => c_latch "gamma3_tree_q" pkl | D_A_2loop => c_latch "A_2loop_II_III_q" pkl | _ => ret tt end in
  c_rows d pkl ks pkl pkl.
(** spectrum_1loop.c:120-125 *)
Definition c_set_spectrum_1loop (nk : Z) (k p : ptr) : M unit := modify (fun s => with_1loop s (mkCpk nk k p)).
(** spectrum_1loop.c:105-118 on the arrays of terms_1loop *)
Definition c_spectrum (p : ptr) : M unit :=
  let* s := get in
  let ct := g_terms s S_1loop in
  do_all (fun ik =>
    let* k := c_read (ct_ptr ct "k") ik in let* sd := c_read (ct_ptr ct "sigmad2") ik in
    let* ga := c_read (ct_ptr ct "gamma1a_1loop") ik in let* gb := c_read (ct_ptr ct "gamma1b_1loop") ik in
    let* pl := c_read (ct_ptr ct "pk_lin") ik in let* p2 := c_read (ct_ptr ct "pk_gamma2_tree_tree") ik in
    c_write p ik (c_spectrum_1loop_row k sd ga gb pl p2)) (indices (ct_n ct)).
(** spectrum_1loop.c:127-136 *)
Definition c_run_spectrum_1loop (a b : string) : M unit :=
  let* s := get in
  let nk := cp_n (g_1loop s) in
  let* ps := each_ (fun _ => c_calloc nk) [tt; tt; tt; tt; tt] in
  let* _ := c_set_terms S_1loop nk (cp_k (g_1loop s) :: ps) in
  let* _ := c_run_terms (D_1loop (set_flag a) (set_flag b)) in
  let* s := get in
  let* _ := c_spectrum (cp_p (g_1loop s)) in
  let* s := get in
  do_all (fun x => c_free (ct_ptr (g_terms s S_1loop) x)) ["pk_lin"; "sigmad2"; "gamma1a_1loop"; "gamma1b_1loop"; "pk_gamma2_tree_tree"].
(** spectrum_B.c:57-73; the condition assigns THETA to b *)
Definition c_set_spectra_B (a_ b_ : string) (nk : Z) (k p : ptr) : M unit :=
  let a := set_flag a_ in let b := set_flag b_ in
  let '(first, b) := match a with DELTA => (true, THETA) | THETA => (match b with DELTA => true | THETA => false end, b) end in
  let* _ := if first then modify (fun s => with_dt s (mkCpk nk k p)) else ret tt in
  match a, b with THETA, THETA => modify (fun s => with_tt s (mkCpk nk k p)) | _, _ => ret tt end.
(** spectrum_B.c:75-92 *)
Definition c_run_spectra_B_1loop : M unit :=
  let* s := get in
  let* p := c_calloc (cp_n (g_lin s)) in
  let* _ := modify (fun s => with_dt s (mkCpk (cp_n (g_lin s)) (cp_k (g_lin s)) p)) in
  let* _ := c_set_spectrum_1loop (cp_n (g_lin s)) (cp_k (g_lin s)) p in
  let* _ := c_run_spectrum_1loop "delta" "theta" in
  let* p := c_calloc (cp_n (g_lin s)) in
  let* _ := modify (fun s => with_tt s (mkCpk (cp_n (g_lin s)) (cp_k (g_lin s)) p)) in
  let* _ := c_set_spectrum_1loop (cp_n (g_lin s)) (cp_k (g_lin s)) p in
  c_run_spectrum_1loop "theta" "theta".
(** spectrum_B.c:94-98 *)
Definition c_free_spectra_B : M unit := let* s := get in let* _ := c_free (cp_p (g_dt s)) in c_free (cp_p (g_tt s)).
(** spectrum_B.c:100-143 *)
Definition c_run_terms_B : M unit :=
  let* (pkl, ks) := c_columns D_B in
  let* s := get in
  let compute := ((cp_n (g_dt s) =? 0) || (cp_n (g_tt s) =? 0))%Z in
  let* _ := if compute then c_run_spectra_B_1loop else ret tt in
  let* s := get in
  let* _ := no_overlap S_B (buf_of (cp_k (g_dt s)) ++ buf_of (cp_p (g_dt s)) ++ buf_of (cp_k (g_tt s)) ++ buf_of (cp_p (g_tt s))) in
  let* dt := c_table (g_dt s) in let* ptt := c_table (g_tt s) in
  let* _ := c_rows D_B pkl ks dt ptt in
  if compute then c_free_spectra_B else ret tt.

(** ** numpy *)
(** A new contiguous array *)
Definition np_new (xs : list T) : M array := let* b := new_block Numpy xs in ret (mkArray b 0 1 (zlen xs) false).
Definition np_cell (a : array) (i : Z) : Z := (a_off a + i * a_step a)%Z.
Definition np_get (a : array) : M (list T) := let* xs := block (a_buf a) in each_ (fun i => lift (rd xs (np_cell a i))) (indices (a_len a)).
Definition np_set (a : array) (i : Z) (x : T) : M unit :=
  if ((0 <=? i) && (i <? a_len a))%Z
  then let* xs := block (a_buf a) in let* ys := lift (wr xs (np_cell a i) x) in modify (fun s => put_block s (a_buf a) ys)
  else throw IndexError.
(** a[:] = xs, for an array of the length of xs *)
Definition np_put (a : array) (xs : list T) : M unit := do_all (fun iv => np_set a (fst iv) (snd iv)) (combine (indices (zlen xs)) xs).
(** The pointer ctypes passes for an argument declared as ndpointer(dtype, shape=(n,)): shape and number of dimensions are
    checked, strides are not *)
Definition np_pointer (n : Z) (a : array) : M ptr := if (a_len a =? n)%Z && negb (a_2d a) then ret (Some (a_buf a, a_off a)) else throw ArgumentError.

(** ** pyregpt.py *)
Definition obj (o : nat) : M object := fun s => if mem o (reachable s) then match nth_error (objects s) o with Some ob => Fine s ob | None => Beyond end else Beyond.
Definition set_obj (o : nat) (f : object -> object) : M unit := modify (fun s => match nth_error (objects s) o with Some ob => with_objects s (upd (objects s) o (f ob)) | None => s end).
(** pyregpt.py:39-41 and 196-200, creating an object: C_TYPE tells the subclasses of PyRegPT *)
Definition new_object (c : pyclass) (d : list (string * array)) : M nat := fun s =>
  let o := List.length (objects s) in
  let s1 := with_dicts s (dicts s ++ [d])%list in
  let s2 := with_objects s1 (objects s1 ++ [mkObj c (List.length (dicts s)) None None None (if has_ctype c then Some "info" else None)])%list in
  Fine (if has_ctype c then with_verbose s2 (c_set_verbosity (g_verbose s2) "info") else s2) o.
Definition hold (o : nat) : M unit := modify (fun s => with_vars s (o :: vars s)).
(** pyregpt.py:55-60 *)
Definition py_getitem (o : nat) (x : string) : M array := let* s := get in match assoc (dict_of s o) x with Some a => ret a | None => throw KeyError end.
Fixpoint dict_set (d : list (string * array)) (x : string) (a : array) : list (string * array) :=
  match d with [] => [(x, a)] | (y, b) :: t => if (y =? x)%string then (y, a) :: t else (y, b) :: dict_set t x a end.
(** pyregpt.py:64-66 *)
Definition py_setitem (o : nat) (x : string) (a : array) : M unit := modify (fun s =>
  match nth_error (objects s) o with Some ob => with_dicts s (upd (dicts s) (o_dict ob) (dict_set (nth (o_dict ob) (dicts s) []) x a)) | None => s end).
(** pyregpt.py:43-50, len(self['k']); wavenumbers in two dimensions are left out *)
Definition py_size (o : nat) : M Z := let* a := py_getitem o "k" in let* _ := beyond_unless (negb (a_2d a)) in ret (a_len a).
(** pyregpt.py:252-257 *)
Definition py_set_spectrum_lin (o l : nat) : M unit :=
  let* _ := set_obj o (fun ob => mkObj (o_class ob) (o_dict ob) (Some l) (o_dt ob) (o_tt ob) (o_verbose ob)) in
  let* n := py_size l in
  let* k := py_getitem l "k" in let* p := py_getitem l "pk" in
  let* k := np_pointer n k in let* p := np_pointer n p in
  c_set_pk_lin k p n.
(** pyregpt.py:259-264 *)
Definition py_set_pk_lin (o : nat) (K P : list T) : M unit :=
  let* k := np_new K in let* p := np_new P in
  let* l := new_object CLin [("k", k); ("pk", p)] in
  py_set_spectrum_lin o l.
(** pyregpt.py:117-122 *)
Definition py_zeros (o : nat) (c : pyclass) (ks : list T) : M unit :=
  let* k := np_new ks in let* _ := py_setitem o "k" k in
  do_all (fun x => if (x =? "k")%string then ret tt else
    let n := match ncomp c x with Some m => (zlen ks * m)%Z | None => zlen ks end in
    let* a := np_new (repeat (nZ N 0) (Z.to_nat n)) in py_setitem o x a) (fields c).
(** pyregpt.py:124-126; assigning the shape modifies the array in place, or raises if the size differs.  (Another object
    with the same array keeps it flat here; only the shape differs, not the elements.) *)
Definition py_reshape (o : nat) (c : pyclass) : M unit :=
  do_all (fun x => match ncomp c x with None => ret tt | Some m =>
    let* a := py_getitem o x in let* n := py_size o in
    if (a_len a =? n * m)%Z then py_setitem o x (mkArray (a_buf a) (a_off a) (a_step a) (a_len a) true) else throw ValueError end) (fields c).
(** pyregpt.py:345-350, 379-384, 459-464, 494-499, 522-528, 550-556: self.tolist() gives the arrays in the order of FIELDS;
    A2Loop and B1Loop reshape, the other classes do not *)
Definition py_set_terms (o : nat) (c : pyclass) (ks : list T) : M unit :=
  match slot_of c with
  | None => throw AttributeError
  | Some sl =>
    let* _ := py_zeros o c ks in
    let* n := py_size o in
    let* arrays := each_ (py_getitem o) (fields c) in
    let* ps := each_ (fun xa => let* a := ret (snd xa) in np_pointer (match ncomp c (fst xa) with Some _ => a_len a | None => n end) a) (combine (fields c) arrays) in
    let* _ := c_set_terms sl n ps in
    match c with CA2 | CB1 | CB2 => py_reshape o c | _ => ret tt end
  end.
Definition py_columns (o : nat) : M (columns N) := let* s := get in each_ (fun xa => let* v := np_get (snd xa) in ret (fst xa, v)) (dict_of s o).
Definition attribute {A} (x : option A) : M A := match x with Some a => ret a | None => throw AttributeError end.
(** pyregpt.py:558-565, B1Loop.run_terms: the two spectra are the linear one *)
Definition py_spectra_B (l : nat) (dt ptt : array) : M unit :=
  let* n := py_size l in let* k := py_getitem l "k" in
  let* k := np_pointer n k in
  let* p := np_pointer n dt in let* _ := c_set_spectra_B "delta" "theta" n k p in
  let* p := np_pointer n ptt in c_set_spectra_B "theta" "theta" n k p.
(** pyregpt.py:590-596: a sub-object computes the 1-loop spectrum on the wavenumbers of the linear spectrum *)
Definition py_sub_1loop (l : nat) (attach : nat -> M unit) (a b : string) : M nat :=
  let* o := new_object C1Loop [] in let* _ := attach o in
  let* k := py_getitem l "k" in let* ks := np_get k in
  let* _ := py_set_terms o C1Loop ks in
  let* _ := c_run_terms (D_1loop (set_flag a) (set_flag b)) in
  ret o.
(** pyregpt.py:361-371 with Dgrowth = 1, into a new array held by a local variable *)
Definition py_pk_1loop (o : nat) : M array :=
  let* c := py_columns o in let* v := lift (PyTerms.pk_1loop c (nZ N 1) None) in
  let* a := np_new v in let* _ := modify (fun s => with_temps s (a_buf a :: temps s)) in ret a.
(** run_terms of every class: pyregpt.py:352-355, 386-389, 466-469, 501-505, 530-533, 558-565, 588-608 *)
Definition py_run_terms (o : nat) (ob : object) (a b : string) : M unit :=
  match o_class ob with
  | CLin | CNoWiggle => throw AttributeError
  | C1Loop => c_run_terms (D_1loop (set_flag a) (set_flag b))
  | C2Loop => c_run_terms (D_2loop (set_flag a) (set_flag b))
  | CBias => c_run_terms D_bias
  | CA1 => let* _ := c_run_terms D_A_1loop in py_reshape o CA1
  | CA2 => c_run_terms D_A_2loop
  | CB1 => let* l := attribute (o_lin ob) in let* p := py_getitem l "pk" in let* _ := py_spectra_B l p p in c_run_terms_B
  | CB2 =>
    let* l := attribute (o_lin ob) in
    let* d := py_sub_1loop l (fun x => set_obj o (fun ob => mkObj (o_class ob) (o_dict ob) (o_lin ob) (Some x) (o_tt ob) (o_verbose ob))) "delta" "theta" in
    let* t := py_sub_1loop l (fun x => set_obj o (fun ob => mkObj (o_class ob) (o_dict ob) (o_lin ob) (o_dt ob) (Some x) (o_verbose ob))) "theta" "theta" in
    let* dt := py_pk_1loop d in let* ptt := py_pk_1loop t in
    let* _ := py_spectra_B l dt ptt in c_run_terms_B
  end.
(** pyregpt.py:227-245 *)
Definition py_find_pk_lin (k : list T) (im : string) : M (list T) :=
  let* s := get in let* pkl := c_table (g_lin s) in c_lift (find_pk pkl k (if (im =? "poly")%string then POLY else LIN)).
Definition py_sigmad2 (k : list T) (uvcutoff : T) : M (list T) :=
  let* s := get in let* pkl := c_table (g_lin s) in c_lift (calc_running_sigmad2 pkl k uvcutoff).
Local Open Scope num_scope.
(** pyregpt.py:99-109, 328-331.  The two assignments to slices are modelled
    as assignments of the whole array.  pad_k of PyRegPT then recomputes two columns, with the default cutoff. *)
Definition py_pad_k (o : nat) (c : pyclass) (k : list T) (x : T) (im : string) : M unit :=
  let* ka := py_getitem o "k" in let* kk := np_get ka in
  let* k0 := lift (element kk 0) in let* k1 := lift (element kk (zlen kk - 1)%Z) in
  let s := List.length (filter (fun v => v <? k0) k) in
  let e := List.length (filter (fun v => v >? k1) k) in
  let* _ := do_all (fun key =>
    let* a := py_getitem o key in if a_2d a then throw ValueError else
    let* v := np_get a in let* a := np_new (pad v s e x) in py_setitem o key a) (fields c) in
  let* ka := py_getitem o "k" in let* kk := np_get ka in
  let* kk := lift (assign_first kk s (firstn s k)) in let* _ := np_put ka kk in
  let* kk := lift (assign_last kk e (last_slice k e)) in let* _ := np_put ka kk in
  let* _ := if has_ctype c && existsb (String.eqb "pk_lin") (fields c) then let* v := py_find_pk_lin kk im in let* a := np_new v in py_setitem o "pk_lin" a else ret tt in
  if has_ctype c && existsb (String.eqb "sigmad2") (fields c) then let* v := py_sigmad2 kk (5 //10^ 1) in let* a := np_new v in py_setitem o "sigmad2" a else ret tt.
(** pyregpt.py:93-97, 323-326; [depth] bounds the chain of spectrum_lin attributes *)
Fixpoint py_deepcopy (depth : nat) (o : nat) : M nat :=
  let* ob := fun s => match nth_error (objects s) o with Some ob => Fine s ob | None => Beyond end in
  let* n := new_object (o_class ob) [] in
  let* s := get in
  let* _ := do_all (fun xa => let* v := np_get (snd xa) in let* a := np_new v in
    py_setitem n (fst xa) (mkArray (a_buf a) (a_off a) (a_step a) (a_len a) (a_2d (snd xa)))) (dict_of s o) in
  if has_ctype (o_class ob) then
    let* l := attribute (o_lin ob) in
    match depth with
    | O => fun _ => Beyond
    | S depth => let* l' := py_deepcopy depth l in
      let* _ := set_obj n (fun ob => mkObj (o_class ob) (o_dict ob) (Some l') (o_dt ob) (o_tt ob) (o_verbose ob)) in ret n
    end
  else ret n.
(** pyregpt.py:88-91: the new object is created (the verbosity becomes 'info'), then gets all attributes of the old one *)
Definition py_copy (o : nat) (ob : object) : M nat :=
  let* n := new_object (o_class ob) [] in let* _ := set_obj n (fun _ => ob) in ret n.
(** pyregpt.py:62: views of all columns.  Only for 1-D columns of one length. *)
Definition py_slice (ob : object) (d : list (string * array)) (start step len : Z) : M nat :=
  let* _ := beyond_unless (forallb (fun xa => negb (a_2d (snd xa)) &&
    ((len =? 0) || ((0 <=? start) && (start <? a_len (snd xa)) && (0 <=? start + (len - 1) * step) && (start + (len - 1) * step <? a_len (snd xa)))) && (0 <=? len))%Z d) in
  new_object (o_class ob) (map (fun xa => (fst xa, mkArray (a_buf (snd xa)) (np_cell (snd xa) start) (a_step (snd xa) * step)%Z len false)) d).

(** ** Statements of a program *)
Inductive source := Values (xs : list T) | Column (o : nat) (x : string).
Inductive op :=
| New (c : pyclass)                                     (** v = Class() *)
| Drop (o : nat)                                        (** del v, or v goes out of scope *)
| Get_lin (o : nat)                                     (** v = o.spectrum_lin *)
| Set_item (o : nat) (x : string) (v : source)          (** o[x] = array *)
| Write (o : nat) (x : string) (i : Z) (y : T)          (** o[x][i] = y; rescale and nan_to_zero are made of these *)
| Slice (o : nat) (start step len : Z)                  (** v = o[start:...:step] *)
| Copy (o : nat) | Deepcopy (o : nat)
| Set_pk_lin (o : nat) (K P : list T) | Set_spectrum_lin (o l : nat)
| Set_terms (o : nat) (ks : list T) | Run_terms (o : nat) (a b : string)
| Pad_k (o : nat) (k : list T) (x : T) (im : string)
| Find_pk_lin (o : nat) (k : list T) (im : string) | Sigmad2 (o : nat) (k : list T) (uv : T)
| Set_precision (o : nat) (x : string) (n : Z) (mn mx : T) (im : string) | Set_cutoff (o : nat) (x : string) (uv : T) | Clear (o : nat)
| Set_verbosity (o : nat) (m : string)
| C_set_spectra_B (o l : nat) (a b : string)            (** o.regpt.set_spectra_B(a, b, l.size, l.k, l['pk']) *)
| C_run_terms_B (o : nat).                              (** o.regpt.run_terms_B(n) *)
Definition configure (f : settings N -> settings N * outcome) : M unit := fun s =>
  match f (g_conf s) with (c, Done) => Fine (with_conf s c) tt | (c, Raised e) => Throws e (with_conf s c) | (_, BadCall) => Beyond end.
Definition regpt (o : nat) : M object := let* ob := obj o in if has_ctype (o_class ob) then ret ob else throw AttributeError.
Fixpoint remove_one (o : nat) (l : list nat) : list nat := match l with [] => [] | x :: t => if Nat.eqb x o then t else x :: remove_one o t end.
Definition nothing (m : M unit) : M (list T) := let* _ := m in ret [].
Definition set_verbosity (o : nat) (m : string) : M unit :=
  let* _ := modify (fun s => with_verbose s (c_set_verbosity (g_verbose s) m)) in
  set_obj o (fun ob => mkObj (o_class ob) (o_dict ob) (o_lin ob) (o_dt ob) (o_tt ob) (Some m)).
(** A statement; the value is that of Find_pk_lin and Sigmad2.  [5]: depth of the recursion of set_precision, enough by C20 and C21. *)
Definition statement (p : op) : M (list T) :=
  match p with
  | New c => nothing (let* o := new_object c [] in hold o)
  | Drop o => nothing (modify (fun s => with_vars s (remove_one o (vars s))))
  | Get_lin o => nothing (let* ob := obj o in let* l := attribute (o_lin ob) in hold l)
  | Set_item o x v => nothing (let* _ := obj o in let* a := match v with Values xs => np_new xs | Column o' x' => let* _ := obj o' in py_getitem o' x' end in py_setitem o x a)
  | Write o x i y => nothing (let* _ := obj o in let* a := py_getitem o x in np_set a i y)
  | Slice o st sp len => nothing (let* ob := obj o in let* s := get in let* n := py_slice ob (dict_of s o) st sp len in hold n)
  | Copy o => nothing (let* ob := obj o in let* n := py_copy o ob in hold n)
  | Deepcopy o => nothing (let* ob := obj o in let* s := get in let* n := py_deepcopy (List.length (objects s)) o in hold n)
  | Set_pk_lin o K P => nothing (let* _ := regpt o in py_set_pk_lin o K P)
  | Set_spectrum_lin o l => nothing (let* _ := regpt o in let* _ := obj l in py_set_spectrum_lin o l)
  | Set_terms o ks => nothing (let* ob := regpt o in py_set_terms o (o_class ob) ks)
  | Run_terms o a b => nothing (let* ob := regpt o in py_run_terms o ob a b)
  | Pad_k o k x im => nothing (let* ob := obj o in py_pad_k o (o_class ob) k x im)
  | Find_pk_lin o k im => let* _ := regpt o in py_find_pk_lin k im
  | Sigmad2 o k uv => let* _ := regpt o in py_sigmad2 k uv
  | Set_precision o x n mn mx im => nothing (let* _ := regpt o in configure (py_set_precision 5 x n mn mx im))
  | Set_cutoff o x uv => nothing (let* _ := regpt o in configure (py_set_cutoff 5 x uv))
  | Clear o => nothing (let* _ := regpt o in let* _ := configure (py_clear 5) in set_verbosity o "info")
  | Set_verbosity o m => nothing (let* _ := regpt o in set_verbosity o m)
  | C_set_spectra_B o l a b => nothing (let* _ := regpt o in let* _ := obj l in let* n := py_size l in let* k := py_getitem l "k" in let* p := py_getitem l "pk" in
      let* k := np_pointer n k in let* p := np_pointer n p in c_set_spectra_B a b n k p)
  | C_run_terms_B o => nothing (let* _ := regpt o in c_run_terms_B)
  end.
(** Local variables disappear at the end of a statement. *)
Definition step (p : op) (s : state) : out (list T) :=
  match statement p s with
  | Fine s v => Fine (with_temps s []) v
  | Throws e s => Throws e (with_temps s [])
  | r => r
  end.
(** A program; exceptions are caught.  [None]: it crashed, or left the model. *)
Fixpoint execute (ps : list op) (s : state) : option state :=
  match ps with
  | [] => Some s
  | p :: ps => match step p s with Fine s _ | Throws _ s => execute ps s | Crash _ | Beyond => None end
  end.
End Process.
Arguments state N : clear implicits.
Arguments op N : clear implicits.
Arguments source N : clear implicits.
Arguments M N A : clear implicits.
Arguments out N A : clear implicits.
Arguments fresh_process N : clear implicits.
Arguments Fine {N A} s a. Arguments Throws {N A} e s. Arguments Crash {N A} u. Arguments Beyond {N A}.
