(** SpecProcess: what can be observed of a process, and what it means that the library works on the arrays of an object. *)
From Coq Require Import ZArith List String Bool.
From Verif Require Import Base Num Common Kernels Integrals Registry PyTerms Threads SpecThreads Process.
Import ListNotations.
Local Open Scope string_scope.

Section SpecProcess.
Context {N : Num}.
Implicit Types (s : state N) (o : nat) (a : array).
(** The numbers in a block, the elements of an array, the columns of an object *)
Definition contents s (b : nat) : list (T N) := match nth_error (blocks s) b with Some (_, xs) => xs | None => [] end.
Definition elements s a : list (T N) := map (fun i => nth (Z.to_nat (a_off a + i * a_step a)) (contents s (a_buf a)) (nZ N 0)) (indices (a_len a)).
Definition column_of s o (x : string) : option (list (T N)) := option_map (elements s) (assoc (dict_of s o) x).
Definition class_of s o : option pyclass := option_map o_class (nth_error (objects s) o).
Definition lin_of s o : option nat := match nth_error (objects s) o with Some ob => o_lin ob | None => None end.

(** Every array of every object lies within a block of numpy, every link leads to an object, no table has two columns of one name. *)
Definition sound s a : Prop := (0 <= a_len a)%Z /\
  exists xs, nth_error (blocks s) (a_buf a) = Some (Numpy, xs) /\ forall i, (0 <= i < a_len a)%Z -> (0 <= a_off a + i * a_step a < zlen xs)%Z.
Record wf s : Prop := {
  wf_dict : forall o ob, nth_error (objects s) o = Some ob -> (o_dict ob < List.length (dicts s))%nat;
  wf_link : forall o ob l, nth_error (objects s) o = Some ob -> (o_lin ob = Some l \/ o_dt ob = Some l \/ o_tt ob = Some l) -> (l < List.length (objects s))%nat;
  wf_vars : forall o, In o (vars s) -> (o < List.length (objects s))%nat;
  wf_array : forall d x a, In d (dicts s) -> In (x, a) d -> sound s a;
  wf_names : forall d, In d (dicts s) -> NoDup (map fst d);
  wf_1loop : forall b i, cp_p (g_1loop s) = Some (b, i) -> exists w xs, nth_error (blocks s) b = Some (w, xs) /\ w <> Numpy }.

(** A pointer of the library points to the first element of an array, whose elements follow each other. *)
Definition faces s a (p : ptr) : Prop := p = Some (a_buf a, a_off a) /\ a_step a = 1%Z /\ (0 <= a_off a)%Z /\ (0 <= a_len a)%Z /\
  exists xs, nth_error (blocks s) (a_buf a) = Some (Numpy, xs) /\ (a_off a + a_len a <= zlen xs)%Z.
(** The name in C of a column *)
Definition c_name (c : pyclass) (x : string) : string :=
  if (x =? "pk")%string then match c with CA1 | CA2 => "A" | CB1 | CB2 => "B" | _ => x end else x.
Definition comps (c : pyclass) (x : string) : Z := match ncomp c x with Some m => m | None => 1%Z end.
(** The terms of the library are the columns of [o]: each pointer to the column of the same name, of the right size; the
    wavenumbers are [ks], in one dimension; no two columns overlap. *)
Record terms_are s o (c : pyclass) (sl : slot) (ks : list (T N)) : Prop := {
  t_class : class_of s o = Some c;
  t_slot : slot_of c = Some sl;
  t_n : ct_n (g_terms s sl) = zlen ks;
  t_col : forall x, In x (fields c) -> exists a, assoc (dict_of s o) x = Some a /\ faces s a (ct_ptr (g_terms s sl) (c_name c x)) /\ a_len a = (zlen ks * comps c x)%Z;
  t_k : column_of s o "k" = Some ks;
  t_flat : forall a, assoc (dict_of s o) "k" = Some a -> a_2d a = false;
  t_apart : forall x y a b, In x (fields c) -> In y (fields c) -> x <> y -> assoc (dict_of s o) x = Some a -> assoc (dict_of s o) y = Some b -> a_buf a <> a_buf b }.
(** A variable of the program leads to the object [l] directly, or by one attribute spectrum_lin. *)
Definition at_hand s (l : nat) : Prop := In l (vars s) \/ exists o, In o (vars s) /\ lin_of s o = Some l.
(** The linear spectrum of the library is that of the object [l]: wavenumbers [K], values [P]. *)
Record lin_is s (l : nat) (K P : list (T N)) : Prop := {
  i_hand : at_hand s l;
  i_k : column_of s l "k" = Some K;
  i_p : column_of s l "pk" = Some P;
  i_len : List.length P = List.length K;
  i_n : cp_n (g_lin s) = zlen K;
  i_kptr : forall a, assoc (dict_of s l) "k" = Some a -> faces s a (cp_k (g_lin s)) /\ a_2d a = false;
  i_pptr : forall a, assoc (dict_of s l) "pk" = Some a -> faces s a (cp_p (g_lin s)) /\ a_2d a = false }.
(** No column the library writes into overlaps the linear spectrum. *)
Definition apart s o (c : pyclass) l : Prop := forall x y a b, In x (fields c) -> x <> "k" -> assoc (dict_of s o) x = Some a -> assoc (dict_of s l) y = Some b -> In y ["k"; "pk"] -> a_buf a <> a_buf b.
(** The library prints the first and the last wavenumber if the verbosity is 'info': there must be one. *)
Definition printable s (ks : list (T N)) : Prop := (zlen ks < SIZE_T)%Z /\ (g_verbose s = INFO -> ks <> []).
(** What set_pk_lin(K, P) and set_terms(ks) of [o] are for: the library has the linear spectrum of [o], the terms of the
    library are the columns of [o]; both. *)
Definition distinct_tables s o l : Prop := forall ob ol, nth_error (objects s) o = Some ob -> nth_error (objects s) l = Some ol -> o_dict ob <> o_dict ol.
Definition has_lin s o (K P : list (T N)) : Prop := In o (vars s) /\ exists l, lin_of s o = Some l /\ lin_is s l K P /\ distinct_tables s o l.
Definition has_terms s o (ks : list (T N)) : Prop := In o (vars s) /\ exists c sl, terms_are s o c sl ks.
Definition set_up s o (K P ks : list (T N)) : Prop := has_lin s o K P /\ has_terms s o ks /\ forall c l, class_of s o = Some c -> lin_of s o = Some l -> apart s o c l.

(** The run of an object: flags are used by the power spectra only. *)
Definition driver_of (c : pyclass) (a b : flag) : option driver :=
  match c with CLin | CNoWiggle => None | C1Loop => Some (D_1loop a b) | C2Loop => Some (D_2loop a b) | CBias => Some D_bias | CA1 => Some D_A_1loop | CA2 => Some D_A_2loop | CB1 | CB2 => Some D_B end.
(** An element of the columns of [o], by the name of the column in C *)
Definition py_name (y : string) : string := if (y =? "A")%string || (y =? "B")%string then "pk" else y.
Definition element_of s o (l : loc) : option (T N) :=
  match l with Arr y i => match column_of s o (py_name y) with Some v => nth_error v (Z.to_nat i) | None => None end | _ => None end.
Record filled s o (d : driver) (ks ps ss : list (T N)) (vals : Z -> list (T N)) : Prop := {
  f_k : column_of s o "k" = Some ks;
  f_p : column_of s o "pk_lin" = Some ps;
  f_s : column_of s o "sigmad2" = Some ss;
  f_rows : forall ik, (0 <= ik < zlen ks)%Z -> map (element_of s o) (cells_of d ik) = map Some (vals ik) }.

(** ** Statements which leave an object alone *)
(** A column of one of the objects [os] lies in the block [b]; [x] and one of [os] are copies of each other (they have one
    table of columns); the library writes the terms [sl] into no column of [os]. *)
Definition used_by s (os : list nat) (b : nat) : Prop := exists o x a, In o os /\ In (x, a) (dict_of s o) /\ a_buf a = b.
Definition same_table s (x : nat) (os : list nat) : Prop := exists o ob ox, In o os /\ nth_error (objects s) o = Some ob /\ nth_error (objects s) x = Some ox /\ o_dict ox = o_dict ob.
Definition clear_of s (sl : slot) (os : list nat) : Prop := forall y b i, In y (tl (c_fields sl)) -> ct_ptr (g_terms s sl) y = Some (b, i) -> ~ used_by s os b.
(** The terms run_terms of a class writes: B1Loop and B2Loop use those of Spectrum1Loop too. *)
Definition works_on (c : pyclass) : list slot := match c with CB1 | CB2 => [S_B; S_1loop] | _ => opt (slot_of c) end.
Definition works_elsewhere s o (sls : list slot) : Prop := forall sl, In sl sls -> (forall c, class_of s o = Some c -> slot_of c <> Some sl) /\ clear_of s sl (o :: opt (lin_of s o)).
(** The statement works on other objects than [o] and its linear spectrum, and on other terms of the library; it does not
    replace the linear spectrum of the library. *)
Definition spares s o (p : op N) : Prop :=
  let os := o :: opt (lin_of s o) in
  match p with
  | Drop x => x <> o
  | Set_item x _ _ | Pad_k x _ _ _ => ~ same_table s x os
  | Write x y _ _ => forall a, assoc (dict_of s x) y = Some a -> ~ used_by s os (a_buf a)
  | Set_pk_lin _ _ _ | Set_spectrum_lin _ _ => False
  | Set_terms x _ => ~ same_table s x os /\ forall c c', class_of s x = Some c -> class_of s o = Some c' -> slot_of c <> slot_of c'
  | Run_terms x _ _ => ~ same_table s x os /\ forall c, class_of s x = Some c -> works_elsewhere s o (works_on c)
  | C_run_terms_B _ => works_elsewhere s o [S_B; S_1loop]
  | _ => True
  end.
(** The settings [st'] are [st], but for two ranges which were automatic in [st]. *)
Definition latched (st st' : settings N) : Prop :=
  s_interpol st' = s_interpol st /\ s_cutoff st' = s_cutoff st /\
  (forall x, pr_n (s_prec st' x) = pr_n (s_prec st x) /\ pr_interpol (s_prec st' x) = pr_interpol (s_prec st x)) /\
  (forall x, (nle N (pr_min (s_prec st x)) (nZ N 0) || nle N (pr_max (s_prec st x)) (nZ N 0) = false \/ x <> "gamma3_tree_q" /\ x <> "A_2loop_II_III_q") -> s_prec st' x = s_prec st x).
(** The range of the Monte-Carlo integrals of a run is the automatic one. *)
Definition automatic (st : settings N) (x : string) : bool := nle N (pr_min (s_prec st x)) (nZ N 0) || nle N (pr_max (s_prec st x)) (nZ N 0).
Definition automatic_of (st : settings N) (d : driver) : bool := match d with D_2loop _ _ => automatic st "gamma3_tree_q" | D_A_2loop => automatic st "A_2loop_II_III_q" | _ => false end.
Definition configures (p : op N) : bool := match p with Set_precision _ _ _ _ _ _ | Set_cutoff _ _ _ | Clear _ => true | _ => false end.
(** The ranges which a run sets if they are automatic, and the settings after the run: calc_pkcorr_from_gamma3.c:20-28,
    calc_pkcorr_from_A_2loop_II_III.c:31-37 *)
Definition latch_of (d : driver) : option string := match d with D_2loop _ _ => Some "gamma3_tree_q" | D_A_2loop => Some "A_2loop_II_III_q" | _ => None end.
Definition latch (st : settings N) (d : driver) (pkl : Pk N) : settings N :=
  match latch_of d with
  | Some x => let p := s_prec st x in
    if nle N (pr_min p) (nZ N 0) || nle N (pr_max p) (nZ N 0)
    then match q_range p pkl with Ok r => put_prec st x (mkPrec (pr_n p) (fst r) (snd r) (pr_interpol p)) | Err _ => st end else st
  | None => st
  end.
(** What the program can observe of [o] is the same in [s] and [s']. *)
Record left_alone s s' o : Prop := {
  la_vars : In o (vars s) -> In o (vars s');
  la_lin : lin_of s' o = lin_of s o;
  la_column : forall x, column_of s' o x = column_of s o x;
  la_spectrum : forall l x, lin_of s o = Some l -> column_of s' l x = column_of s l x;
  la_has_lin : forall K P, has_lin s o K P -> has_lin s' o K P;
  la_has_terms : forall ks, has_terms s o ks -> has_terms s' o ks;
  la_set_up : forall K P ks, set_up s o K P ks -> set_up s' o K P ks }.
(** The spectrum the library computes, spectrum_1loop.c:105-118 *)
Definition lib_spectrum (ks ps ss : list (T N)) (vals : Z -> list (T N)) : list (T N) :=
  let z := nZ N 0 in map (fun ik => let i := Z.to_nat ik in let v j := nth j (vals ik) z in c_spectrum_1loop_row (nth i ks z) (nth i ss z) (v 0%nat) (v 1%nat) (nth i ps z) (v 2%nat)) (indices (zlen ks)).
(** The struct Pk made of the columns of [l], if they have the shape ndpointer asks for *)
Definition spectrum_of s l : option cpk :=
  match assoc (dict_of s l) "k", assoc (dict_of s l) "pk" with
  | Some ka, Some pa => if negb (a_2d ka) && negb (a_2d pa) && (a_len pa =? a_len ka)%Z then Some (mkCpk (a_len ka) (Some (a_buf ka, a_off ka)) (Some (a_buf pa, a_off pa))) else None
  | _, _ => None
  end.
(** The columns of [l] are a spectrum: wavenumbers [K], values [P], in arrays without strides *)
Record spectrum_is s l (K P : list (T N)) : Prop := {
  si_k : column_of s l "k" = Some K;
  si_p : column_of s l "pk" = Some P;
  si_len : List.length P = List.length K;
  si_shape : forall x a, In x ["k"; "pk"] -> assoc (dict_of s l) x = Some a -> faces s a (Some (a_buf a, a_off a)) /\ a_2d a = false }.
(** The verbosity of the library after a statement: creating an object of a class derived from PyRegPT, in whatever way, makes
    it 'info'; B2Loop.run_terms creates two. *)
Definition creates s (p : op N) : option pyclass :=
  match p with New c => Some c | Slice o _ _ _ | Copy o | Deepcopy o => class_of s o | Run_terms o _ _ => match class_of s o with Some CB2 => Some C1Loop | _ => None end | _ => None end.
Definition verbosity_after s (p : op N) : verbosity :=
  match p with
  | Set_verbosity _ m => if (m =? "quiet")%string then QUIET else if (m =? "info")%string then INFO else if (m =? "debug")%string then DEBUG else g_verbose s
  | Clear _ => INFO
  | _ => match creates s p with Some c => if has_ctype c then INFO else g_verbose s | None => g_verbose s end
  end.
(** The cells a C function reads through the pointer to an array: consecutive ones, from the first element on, whatever the
    stride of the array; whether they lie in the block. *)
Definition window s a : list (T N) := firstn (Z.to_nat (a_len a)) (skipn (Z.to_nat (a_off a)) (contents s (a_buf a))).
Definition fits s a : Prop := (a_off a + a_len a <= zlen (contents s (a_buf a)))%Z.
(** Assigning the wavenumbers of [o], or padding [o] *)
Definition replaces_k o (p : op N) : Prop := match p with Set_item x "k" (Values _) => x = o | Pad_k x _ _ _ => x = o | _ => False end.
(** The statement gives the library a linear spectrum. *)
Definition sets_lin (p : op N) : bool := match p with Set_pk_lin _ _ _ | Set_spectrum_lin _ _ => true | _ => false end.
(** No array of an object the program can still reach lies in the block [b]: numpy has freed it. *)
Definition lost s (b : nat) : Prop := forall o x a, In o (reachable s) -> In (x, a) (dict_of s o) -> a_buf a <> b.
(** Only the column [x] of [o] (and of its copies) lies in the block [b]. *)
Definition only_at s o (x : string) (b : nat) : Prop := forall y z a, In (z, a) (dict_of s y) -> a_buf a = b -> z = x /\ same_table s y [o].
(** Statements which do not use what the pointers of the library point to: creating, copying and dropping objects, reading and
    writing columns, settings; registering the spectra of the B term. *)
Definition pointer_free (p : op N) : bool :=
  match p with Set_pk_lin _ _ _ | Set_spectrum_lin _ _ | Set_terms _ _ | Run_terms _ _ _ | Pad_k _ _ _ _ | Find_pk_lin _ _ _ | Sigmad2 _ _ _ | C_run_terms_B _ => false | _ => true end.
(** A statement ends, normally or by an exception. *)
Definition after (r : out N (list (T N))) (Q : state N -> Prop) : Prop := match r with Fine s' _ | Throws _ s' => Q s' | Crash _ | Beyond => True end.

Variables (fuel : nat) (suave1 : (list (T N) -> res (T N)) -> res (T N)) (suave12 : (list (T N) -> res (list (T N))) -> res (list (T N))).
(** The process after some program; after more statements, none of which disturbs [o] *)
Definition reached s : Prop := exists ps, execute fuel suave1 suave12 ps (fresh_process N) = Some s.
Inductive meanwhile o : state N -> state N -> Prop :=
| mw_done s : meanwhile o s s
| mw_step s p s1 v s2 : spares s o p -> step fuel suave1 suave12 p s = Fine s1 v -> meanwhile o s1 s2 -> meanwhile o s s2
| mw_throw s p s1 e s2 : spares s o p -> step fuel suave1 suave12 p s = Throws e s1 -> meanwhile o s1 s2 -> meanwhile o s s2.
(** The statement writes into a column of one of the objects [os], or replaces it; some such statements. *)
Definition writes_to (os : list nat) (p : op N) : Prop := match p with Write o _ _ _ | Set_item o _ (Values _) => In o os | _ => False end.
Inductive writing (os : list nat) : state N -> state N -> Prop :=
| wr_done s : writing os s s
| wr_step s p s1 v s2 : writes_to os p -> step fuel suave1 suave12 p s = Fine s1 v -> writing os s1 s2 -> writing os s s2
| wr_throw s p s1 e s2 : writes_to os p -> step fuel suave1 suave12 p s = Throws e s1 -> writing os s1 s2 -> writing os s s2.
(** The objects [A] and [B] are separate: they have no table of columns and no block of memory in common. *)
Record sep s (A B : list nat) : Prop := {
  sp_lt : forall o, In o A \/ In o B -> (o < List.length (objects s))%nat;
  sp_table : forall o, In o A -> ~ same_table s o B;
  sp_used : forall b, used_by s A b -> ~ used_by s B b }.
(** An object and its linear spectrum *)
Definition family s o : list nat := o :: opt (lin_of s o).
(** The 1-loop power spectrum of two fields at the wavenumbers [K], by Spectrum1Loop.pk *)
Definition spectrum_1loop_is (st : settings N) (pkl : Pk N) (K : list (T N)) (a b : flag) (spec : list (T N)) : Prop :=
  exists ps ss vals, computes fuel st suave1 suave12 (D_1loop a b) pkl pkl pkl K ps ss vals /\
    let col i := map (fun ik => nth i (vals ik) (nZ N 0)) (indices (zlen K)) in
    PyTerms.pk_1loop [("k", K); ("pk_lin", ps); ("sigmad2", ss); ("gamma1a_1loop", col 0%nat); ("gamma1b_1loop", col 1%nat); ("pk_gamma2_tree_tree", col 2%nat)] (nZ N 1) None = Ok spec.
(** The delta-theta and theta-theta spectra in the B term of an object whose own linear spectrum is (K, P): that spectrum
    itself for B1Loop, the 1-loop spectra, computed from the linear spectrum [pkl] of the library, for B2Loop. *)
Definition spectra_are (st : settings N) (c : pyclass) (pkl : Pk N) (K P : list (T N)) (dt ptt : Pk N) : Prop :=
  match c with
  | CB1 => dt = mk_table K P /\ ptt = mk_table K P
  | CB2 => exists d t, dt = mk_table K d /\ ptt = mk_table K t /\ spectrum_1loop_is st pkl K DELTA THETA d /\ spectrum_1loop_is st pkl K THETA THETA t
  | _ => True
  end.
End SpecProcess.
