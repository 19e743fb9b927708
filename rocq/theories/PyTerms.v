(** PyTerms: the arithmetic of pyregpt/pyregpt.py on the columns of an object.  A column is the list of the elements of
    its numpy array, flattened in C order.  Which arrays the C library points to is in Process.v. *)
From Coq Require Import ZArith List String Bool.
From Verif Require Import Base Num Common Registry.
Import ListNotations.
Local Open Scope string_scope.

(** The classes of pyregpt.py:148-608 *)
Inductive pyclass := CLin | CNoWiggle | C1Loop | C2Loop | CBias | CA1 | CA2 | CB1 | CB2.
(** FIELDS: pyregpt.py:150, 160, 342, 376, 408, 482, 538 *)
Definition fields (c : pyclass) : list string :=
  match c with
  | CLin | CNoWiggle => ["k"; "pk"]
  | C1Loop => ["k"; "pk_lin"; "sigmad2"; "gamma1a_1loop"; "gamma1b_1loop"; "pk_gamma2_tree_tree"]
  | C2Loop => ["k"; "pk_lin"; "sigmad2"; "gamma1a_1loop"; "gamma1a_2loop"; "gamma1b_1loop"; "gamma1b_2loop"; "pk_gamma2_tree_tree";
               "pk_gamma2_tree_1loop"; "pk_gamma2_1loop_1loop"; "pk_gamma3_tree"]
  | CBias => ["k"; "pk_lin"; "sigmad2"; "pk_b2d"; "pk_bs2d"; "pk_b2t"; "pk_bs2t"; "pk_b22"; "pk_b2s2"; "pk_bs22"; "sigma3sq"]
  | CA1 | CA2 | CB1 | CB2 => ["k"; "pk_lin"; "sigmad2"; "pk"]
  end.
(** SCALE: pyregpt.py:151, 161, 343, 377, 409, 483, 539 *)
Definition scales (c : pyclass) : list (string * Z) :=
  match c with
  | CLin | CNoWiggle => [("k", 0%Z); ("pk", 1%Z)]
  | C1Loop => [("k", 0%Z); ("pk_lin", 1%Z); ("sigmad2", 1%Z); ("gamma1a_1loop", 1%Z); ("gamma1b_1loop", 1%Z); ("pk_gamma2_tree_tree", 2%Z)]
  | C2Loop => [("k", 0%Z); ("pk_lin", 1%Z); ("sigmad2", 1%Z); ("gamma1a_1loop", 1%Z); ("gamma1a_2loop", 2%Z); ("gamma1b_1loop", 1%Z);
               ("gamma1b_2loop", 2%Z); ("pk_gamma2_tree_tree", 2%Z); ("pk_gamma2_tree_1loop", 3%Z); ("pk_gamma2_1loop_1loop", 4%Z); ("pk_gamma3_tree", 3%Z)]
  | CBias => [("k", 0%Z); ("pk_lin", 1%Z); ("sigmad2", 1%Z); ("pk_b2d", 2%Z); ("pk_bs2d", 2%Z); ("pk_b2t", 2%Z); ("pk_bs2t", 2%Z); ("pk_b22", 2%Z);
              ("pk_b2s2", 2%Z); ("pk_bs22", 2%Z); ("sigma3sq", 2%Z)]
  | CA1 | CA2 | CB1 | CB2 => [("k", 0%Z); ("pk_lin", 1%Z); ("sigmad2", 1%Z); ("pk", 2%Z)]
  end.
(** SHAPE: pyregpt.py:35, 484, 540; number of components per wavenumber *)
Definition ncomp (c : pyclass) (key : string) : option Z :=
  match c with
  | CA1 | CA2 => if (key =? "pk")%string then Some 5%Z else None
  | CB1 | CB2 => if (key =? "pk")%string then Some 9%Z else None
  | _ => None
  end.
(** C_TYPE is an attribute of PyRegPT (pyregpt.py:193) and of its subclasses only *)
Definition has_ctype (c : pyclass) : bool := match c with CLin | CNoWiggle => false | _ => true end.

Section PyTerms.
Context {N : Num}.
Notation T := (T N).
Local Open Scope num_scope.
(** pyregpt.py:37-39, Terms.columns: a dict from names to numpy arrays of one dimension *)
Definition column := list T.
Definition columns := list (string * column).

(** pyregpt.py:55-60, Terms.__getitem__ with a name *)
Definition getitem (c : columns) (name : string) : res column := match assoc c name with Some v => Ok v | None => Err (PyExc KeyError) end.
(** pyregpt.py:64-66, Terms.__setitem__ with a name: a Python dict keeps the place of a key already there *)
Fixpoint setitem (c : columns) (name : string) (v : column) : columns :=
  match c with [] => [(name, v)] | (x, w) :: t => if (x =? name)%string then (x, v) :: t else (x, w) :: setitem t name v end.

(** numpy arithmetic, element by element, on columns of the same length; a mismatch raises ValueError.  (Arrays of one
    element are not broadcast here.) *)
Definition elementwise (f : list T -> T) (cs : list column) : res column :=
  match cs with
  | [] => Ok []
  | c :: _ => if forallb (fun d => Nat.eqb (List.length d) (List.length c)) cs
              then Ok (map (fun i => f (map (fun d => nth i d (#0)) cs)) (seq 0 (List.length c))) else Err (PyExc ValueError)
  end.
Fixpoint getitems (c : columns) (names : list string) : res (list column) :=
  match names with [] => Ok [] | x :: t => v <- getitem c x ;; vs <- getitems c t ;; Ok (v :: vs) end.

(** pyregpt.py:114-115, Terms.rescale: every column is multiplied in place, in the order of the dict.  A column without
    a declared scale raises KeyError; the columns before it have been multiplied. *)
Fixpoint rescale (cl : pyclass) (c : columns) (D : T) : columns * outcome :=
  match c with
  | [] => ([], Done)
  | (x, v) :: t =>
    match assoc (scales cl) x with
    | None => ((x, v) :: t, Raised KeyError)
    | Some s => let '(t', o) := rescale cl t D in ((x, map (fun e => e * npow D #(2 * s)) v) :: t', o)
    end
  end.

(** pyregpt.py:12-18, the decorator scale_factor(npk) around a function returning a column *)
Definition scale_factor (npk : Z) (D : T) (r : res column) : res column := v <- r ;; Ok (map (fun e => npow D #(2 * npk) * e) v).
(** pyregpt.py:21-29, the decorator damping_factor(npk) *)
Definition damping_factor (npk : Z) (c : columns) (D : T) (sigmad2 : option column) (r : res column) : res column :=
  k <- getitem c "k" ;;
  s <- match sigmad2 with None => getitem c "sigmad2" | Some s => Ok s end ;;
  v <- r ;;
  elementwise (fun row =>
    match row with
    | [k; s; e] =>
      let kD := k * D in
      let factor := 5 //10^ 1 * (kD * kD) * s in
      let regfactor := nexp (- #npk * factor) * npow (#1 + factor) #npk in
      npow D #(2 * npk) * regfactor * e
    | _ => #0
    end) [k; s; v].
(** The scale factors and the columns of the accessors: pyregpt.py:153-155, 186-188, 357-359, 411-445, 486-492, 542-548.
    [pk_sigma3sq] is a product of two columns. *)
Definition accessors (cl : pyclass) : list (string * (Z * string)) :=
  match cl with
  | CLin | CNoWiggle => [("pk", (1%Z, "pk"))]
  | C1Loop | C2Loop => [("pk_lin", (1%Z, "pk_lin"))]
  | CBias => [("pk_lin", (1%Z, "pk_lin")); ("pk_b2d", (2%Z, "pk_b2d")); ("pk_bs2d", (2%Z, "pk_bs2d")); ("pk_b2t", (2%Z, "pk_b2t")); ("pk_bs2t", (2%Z, "pk_bs2t"));
              ("pk_b22", (2%Z, "pk_b22")); ("pk_b2s2", (2%Z, "pk_b2s2")); ("pk_bs22", (2%Z, "pk_bs22"))]
  | CA1 | CA2 | CB1 | CB2 => [("pk_lin", (1%Z, "pk_lin")); ("pk", (2%Z, "pk"))]
  end.
Definition accessor (cl : pyclass) (name : string) (c : columns) (D : T) : res column :=
  match assoc (accessors cl) name with Some (npk, x) => scale_factor npk D (getitem c x) | None => Err (PyExc AttributeError) end.
(** pyregpt.py:443-445, Bias1Loop.pk_sigma3sq *)
Definition pk_sigma3sq (c : columns) (D : T) : res column :=
  scale_factor 2 D (cs <- getitems c ["pk_lin"; "sigma3sq"] ;; elementwise (fun row => match row with [p; s] => p * s | _ => #0 end) cs).
(** pyregpt.py:447-457, the damped bias spectra *)
Definition pk_damped (name : string) (c : columns) (D : T) (sigmad2 : option column) : res column := damping_factor 2 c D sigmad2 (getitem c name).

(** pyregpt.py:361-371, one element of Spectrum1Loop.pk *)
Definition pk_1loop_row (D : T) (row : list T) : T :=
  match row with
  | [k; s; ga; gb; pl; ptt] =>
    let kD := k * D in
    let factor := 5 //10^ 1 * (kD * kD) * s in
    let gamma1a_reg := D * nexp (- factor) * (#1 + factor + npow D #2 * ga) in
    let gamma1b_reg := D * nexp (- factor) * (#1 + factor + npow D #2 * gb) in
    let pk_gamma1 := gamma1a_reg * gamma1b_reg * pl in
    let pk_gamma2 := npow D #4 * nexp (- #2 * factor) * ptt in
    pk_gamma1 + pk_gamma2
  | _ => #0
  end.
(** pyregpt.py:361-371, Spectrum1Loop.pk *)
Definition pk_1loop (c : columns) (D : T) (sigmad2 : option column) : res column :=
  s <- match sigmad2 with None => getitem c "sigmad2" | Some s => Ok s end ;;
  k <- getitem c "k" ;;
  cs <- getitems c ["gamma1a_1loop"; "gamma1b_1loop"; "pk_lin"; "pk_gamma2_tree_tree"] ;;
  elementwise (pk_1loop_row D) (k :: s :: cs).
(** pyregpt.py:391-403, one element of Spectrum2Loop.pk *)
Definition pk_2loop_row (D : T) (row : list T) : T :=
  match row with
  | [k; s; ga; ga2; gb; gb2; pl; ptt; t1; oo; g3] =>
    let kD := k * D in
    let factor := 5 //10^ 1 * (kD * kD) * s in
    let gamma1a_reg := D * nexp (- factor) * (#1 + factor + 5 //10^ 1 * (factor * factor) + npow D #2 * ga * (#1 + factor) + npow D #4 * ga2) in
    let gamma1b_reg := D * nexp (- factor) * (#1 + factor + 5 //10^ 1 * (factor * factor) + npow D #2 * gb * (#1 + factor) + npow D #4 * gb2) in
    let pk_gamma1 := gamma1a_reg * gamma1b_reg * pl in
    let f1 := #1 + factor in
    let pk_gamma2 := npow D #4 * nexp (- #2 * factor) * (ptt * (f1 * f1) + t1 * npow D #2 * (#1 + factor) + oo * npow D #4) in
    let pk_gamma3 := npow D #6 * nexp (- #2 * factor) * g3 in
    pk_gamma1 + pk_gamma2 + pk_gamma3
  | _ => #0
  end.
(** pyregpt.py:391-403, Spectrum2Loop.pk *)
Definition pk_2loop (c : columns) (D : T) (sigmad2 : option column) : res column :=
  s <- match sigmad2 with None => getitem c "sigmad2" | Some s => Ok s end ;;
  k <- getitem c "k" ;;
  cs <- getitems c ["gamma1a_1loop"; "gamma1a_2loop"; "gamma1b_1loop"; "gamma1b_2loop"; "pk_lin"; "pk_gamma2_tree_tree"; "pk_gamma2_tree_1loop"; "pk_gamma2_1loop_1loop"; "pk_gamma3_tree"] ;;
  elementwise (pk_2loop_row D) (k :: s :: cs).

(** pyregpt.py:111-112, Terms.nan_to_zero.  x is NaN iff x = x is false. *)
Definition isnan (x : T) : bool := negb (x =? x).
Definition nan_to_zero_column (v : column) : column := map (fun x => if isnan x then #0 else x) v.
(** A statement of the loop over FIELDS; the loop stops at the first exception *)
Definition each_field (f : columns -> string -> columns * outcome) (c : columns) (l : list string) : columns * outcome :=
  fold_left (fun o key => match o with (c, Done) => f c key | _ => o end) l (c, Done).
Definition nan_to_zero (cl : pyclass) (c : columns) : columns * outcome :=
  each_field (fun c key => match getitem c key with
    | Ok v => (setitem c key (nan_to_zero_column v), Done)
    | Err _ => (c, Raised KeyError)
    end) c (fields cl).

(** pyregpt.py:117-122, Terms.zeros: the columns and how the call ended *)
Definition zeros (cl : pyclass) (c : columns) (k : list T) : columns * outcome :=
  each_field (fun c key =>
    if (key =? "k")%string then (c, Done)
    else if has_ctype cl then
      let n := match ncomp cl key with Some m => Z.to_nat (zlen k * m) | None => List.length k end in
      (setitem c key (repeat (#0) n), Done)
    else (c, Raised AttributeError)) (setitem c "k" k) (fields cl).

(** pyregpt.py:178-179, SpectrumNoWiggle.set_terms *)
Definition set_terms_nowiggle (c : columns) (k : list T) : columns * outcome := zeros CNoWiggle c k.

(** numpy.interp for a scalar x on increasing xp (numpy's documented behaviour) *)
Fixpoint interp_in (x : T) (xp fp : list T) (right : T) : T :=
  match xp, fp with
  | [x0], [f0] => if x =? x0 then f0 else right
  | x0 :: ((x1 :: _) as xt), f0 :: ((f1 :: _) as ft) =>
    if x <? x1 then (f1 - f0) / (x1 - x0) * (x - x0) + f0 else interp_in x xt ft right
  | _, _ => right
  end.
Definition interp (x : T) (xp fp : list T) (left right : T) : T :=
  match xp with [] => right | x0 :: _ => if x <? x0 then left else interp_in x xp fp right end.
(** Terms.reshape (pyregpt.py:124-126) and .T: component [j] of a column with [m] components per wavenumber *)
Definition component (m : Z) (n : nat) (v : column) (j : Z) : res column :=
  fold_right (fun i r => l <- r ;; e <- rd v (Z.of_nat i * m + j) ;; Ok (e :: l)) (Ok []) (seq 0 n).
(** pyregpt.py:507-517, A1Loop.pk_interp at one wavenumber *)
Definition pk_interp_A (c : columns) (k mu2 beta D left right : T) : res T :=
  pk <- accessor CA1 "pk" c D ;; kk <- getitem c "k" ;;
  let n := List.length kk in
  p0 <- component 5 n pk 0 ;; p1 <- component 5 n pk 1 ;; p2 <- component 5 n pk 2 ;; p3 <- component 5 n pk 3 ;; p4 <- component 5 n pk 4 ;;
  let mu4 := mu2 * mu2 in let mu6 := mu2 * mu4 in let beta2 := npow beta #2 in let beta3 := beta2 * beta in
  Ok (mu2 * beta * interp k kk p0 left right + mu2 * beta2 * interp k kk p1 left right + mu4 * beta2 * interp k kk p2 left right
      + mu4 * beta3 * interp k kk p3 left right + mu6 * beta3 * interp k kk p4 left right).
(** pyregpt.py:567-583, B1Loop.pk_interp at one wavenumber; left and right are not used *)
Definition pk_interp_B (c : columns) (k mu2 beta D left right : T) : res T :=
  pk <- accessor CB1 "pk" c D ;; kk <- getitem c "k" ;;
  let n := List.length kk in
  p0 <- component 9 n pk 0 ;; p1 <- component 9 n pk 1 ;; p2 <- component 9 n pk 2 ;; p3 <- component 9 n pk 3 ;; p4 <- component 9 n pk 4 ;;
  p5 <- component 9 n pk 5 ;; p6 <- component 9 n pk 6 ;; p7 <- component 9 n pk 7 ;; p8 <- component 9 n pk 8 ;;
  let mu4 := mu2 * mu2 in let mu6 := mu2 * mu4 in let mu8 := mu2 * mu6 in
  let beta2 := npow beta #2 in let beta3 := beta2 * beta in let beta4 := beta2 * beta2 in
  Ok (mu2 * beta2 * interp k kk p0 #0 #0 + mu2 * beta3 * interp k kk p1 #0 #0 + mu2 * beta4 * interp k kk p2 #0 #0
      + mu4 * beta2 * interp k kk p3 #0 #0 + mu4 * beta3 * interp k kk p4 #0 #0 + mu4 * beta4 * interp k kk p5 #0 #0
      + mu6 * beta3 * interp k kk p6 #0 #0 + mu6 * beta4 * interp k kk p7 #0 #0 + mu8 * beta4 * interp k kk p8 #0 #0).

(** pyregpt.py:471-477, Bias1Loop.shotnoise, one element *)
Definition shotnoise_row (kmin kmax k : T) : T :=
  let one := #1 in
  let one := if k >? kmax then let x := k / kmax - #1 in one * nexp (- (x * x)) else one in
  if k <? kmin then let x := kmin / k - #1 in one * nexp (- (x * x)) else one.
Definition shotnoise (c : columns) (kmin kmax : T) : res column := k <- getitem c "k" ;; Ok (map (shotnoise_row kmin kmax) k).

(** pyregpt.py:167-170, alpha_gamma of SpectrumNoWiggle.transfer *)
Definition alpha_gamma (omega_b omega_m : T) : T :=
  let frac_baryon := omega_b / omega_m in
  #1 - 328 //10^ 3 * nlog (#431 * omega_m) * frac_baryon + 38 //10^ 2 * nlog (223 //10^ 1 * omega_m) * npow frac_baryon #2.
(** pyregpt.py:169-172, gamma_eff for one wavenumber *)
Definition gamma_eff (h omega_b omega_m k : T) : T :=
  let sound_horizon := 445 //10^ 1 * h * nlog (983 //10^ 2 / omega_m) / nsqrt (#1 + #10 * npow omega_b (75 //10^ 2)) in
  let alpha := alpha_gamma omega_b omega_m in
  let ks := k * sound_horizon in
  omega_m / h * (alpha + (#1 - alpha) / (#1 + npow (43 //10^ 2 * ks) #4)).
(** pyregpt.py:163-176, SpectrumNoWiggle.transfer for one wavenumber; numpy's e is a decimal literal *)
Definition transfer_row (h omega_b omega_m T_cmb k : T) : T :=
  let theta_cmb := T_cmb / 27 //10^ 1 in
  let q := k * npow theta_cmb #2 / gamma_eff h omega_b omega_m k in
  let L0 := nlog (#2 * 2718281828459045 //10^ 15 + 18 //10^ 1 * q) in
  let C0 := 142 //10^ 1 + #731 / (#1 + 625 //10^ 1 * q) in
  L0 / (L0 + C0 * (q * q)).
(** pyregpt.py:181-184, SpectrumNoWiggle.run_terms with A given or taken from pk[0]; the parameters of transfer are the
    last ones *)
Definition run_terms_nowiggle (c : columns) (pk : option (list T)) (A : option T) (n_s h omega_b omega_m T_cmb : T) : res columns :=
  k <- getitem c "k" ;;
  let nw := map (fun k => let t := transfer_row h omega_b omega_m T_cmb k in npow k n_s * (t * t)) k in
  A <- match A with
       | Some A => Ok A
       | None => match pk with
                 | None => Err (PyExc TypeError)
                 | Some pk => a <- match rd pk 0 with Ok a => Ok a | Err _ => Err (PyExc IndexError) end ;;
                              b <- match rd nw 0 with Ok b => Ok b | Err _ => Err (PyExc IndexError) end ;; Ok (a / b)
                 end
       end ;;
  Ok (setitem c "pk" (map (fun x => A * x) nw)).

(** src/spectrum_1loop.c:105-118, one element of spectrum_1loop *)
Definition c_spectrum_1loop_row (k s ga gb pl ptt : T) : T :=
  let factor := 5 //10^ 1 * k * k * s in
  let exp_factor := nexp (- factor) in
  let gamma1a_reg := exp_factor * (#1 + factor + ga) in
  let gamma1b_reg := exp_factor * (#1 + factor + gb) in
  let pk_gamma1 := gamma1a_reg * gamma1b_reg * pl in
  let pk_gamma2 := exp_factor * exp_factor * ptt in
  pk_gamma1 + pk_gamma2.
(** src/spectrum_1loop.c:105-118, spectrum_1loop: the terms, the output array *)
Definition c_spectrum_1loop (k s ga gb pl ptt : list T) (nk : Z) (out : list T) : res (list T) :=
  for_ 0 nk (fun ik out =>
    k <- rd k ik ;; s <- rd s ik ;; ga <- rd ga ik ;; gb <- rd gb ik ;; pl <- rd pl ik ;; ptt <- rd ptt ik ;;
    wr out ik (c_spectrum_1loop_row k s ga gb pl ptt)) out.
(** src/spectrum_2loop.c:110-125 *)
Definition c_spectrum_2loop_row (k s ga ga2 gb gb2 pl ptt t1 oo g3 : T) : T :=
  let factor := 5 //10^ 1 * k * k * s in
  let exp_factor := nexp (- factor) in
  let gamma1a_reg := exp_factor * (#1 + factor + 5 //10^ 1 * factor * factor + ga * (#1 + factor) + ga2) in
  let gamma1b_reg := exp_factor * (#1 + factor + 5 //10^ 1 * factor * factor + gb * (#1 + factor) + gb2) in
  let pk_gamma1 := gamma1a_reg * gamma1b_reg * pl in
  let pk_gamma2 := exp_factor * exp_factor * (ptt * (#1 + factor) * (#1 + factor) + t1 * (#1 + factor) + oo) in
  let pk_gamma3 := exp_factor * exp_factor * g3 in
  pk_gamma1 + pk_gamma2 + pk_gamma3.
Definition c_spectrum_2loop (k s ga ga2 gb gb2 pl ptt t1 oo g3 : list T) (nk : Z) (out : list T) : res (list T) :=
  for_ 0 nk (fun ik out =>
    k <- rd k ik ;; s <- rd s ik ;; ga <- rd ga ik ;; ga2 <- rd ga2 ik ;; gb <- rd gb ik ;; gb2 <- rd gb2 ik ;; pl <- rd pl ik ;;
    ptt <- rd ptt ik ;; t1 <- rd t1 ik ;; oo <- rd oo ik ;; g3 <- rd g3 ik ;;
    wr out ik (c_spectrum_2loop_row k s ga ga2 gb gb2 pl ptt t1 oo g3)) out.

(** numpy.pad of a 1-D array with a constant; a 2-D array with the malformed width (0,0,start,end) raises ValueError *)
Definition pad (v : column) (s e : nat) (x : T) : column := (repeat x s ++ v ++ repeat x e)%list.
(** [a[i:] = b] on a numpy array: the value has the size of the slice, or a single element, which is repeated *)
Definition assign (v w : list T) : res (list T) :=
  if Nat.eqb (List.length w) (List.length v) then Ok w
  else match w with [x] => Ok (repeat x (List.length v)) | _ => Err (PyExc ValueError) end.
(** [a[:s] = w] *)
Definition assign_first (v : list T) (s : nat) (w : list T) : res (list T) := h <- assign (firstn s v) w ;; Ok (h ++ skipn s v)%list.
(** [a[-e:] = w]: for e = 0 the slice is the whole array *)
Definition last_slice {A} (v : list A) (e : nat) : list A := match e with O => v | _ => skipn (List.length v - e) v end.
Definition assign_last (v : list T) (e : nat) (w : list T) : res (list T) :=
  let m := match e with O => O | _ => (List.length v - e)%nat end in
  t <- assign (skipn m v) w ;; Ok (firstn m v ++ t)%list.
(** pyregpt.py:99-109, Terms.pad_k without keyword columns; [shaped]: the columns with several components are
    two-dimensional.  [lift]: continue with a value, or raise its exception. *)
Definition lift {A} (c : columns) (r : res A) (f : A -> columns * outcome) : columns * outcome :=
  match r with Ok a => f a | Err (PyExc e) => (c, Raised e) | Err _ => (c, BadCall) end.
Definition element (v : list T) (i : Z) : res T := match rd v i with Ok x => Ok x | Err _ => Err (PyExc IndexError) end.
Definition pad_k (cl : pyclass) (shaped : bool) (c : columns) (k : list T) (x : T) : columns * outcome :=
  lift c (getitem c "k") (fun kk =>
  lift c (element kk 0) (fun k0 =>
  lift c (element kk (zlen kk - 1)) (fun k1 =>
  let s := List.length (filter (fun v => v <? k0) k) in
  let e := List.length (filter (fun v => v >? k1) k) in
  match each_field (fun c key => lift c (getitem c key) (fun v =>
          match ncomp cl key with
          | Some _ => if shaped then (c, Raised ValueError) else (setitem c key (pad v s e x), Done)
          | None => (setitem c key (pad v s e x), Done)
          end)) c (fields cl) with
  | (c, Done) =>
    lift c (getitem c "k") (fun kk =>
    lift c (assign_first kk s (firstn s k)) (fun kk =>
    let c := setitem c "k" kk in
    lift c (assign_last kk e (last_slice k e)) (fun kk => (setitem c "k" kk, Done))))
  | r => r
  end))).

(** scipy.integrate.trapz(y, x=x) for 1-D arrays (the order of the additions is not modelled) *)
Fixpoint np_trapz (y x : list T) : T :=
  match y, x with
  | y0 :: ((y1 :: _) as yt), x0 :: ((x1 :: _) as xt) => (x1 - x0) * (y1 + y0) / #2 + np_trapz yt xt
  | _, _ => #0
  end.
(** pyregpt.py:135-136, Terms.sigmav, from the column returned by pk *)
Definition sigmav (c : columns) (pk : res column) : res T :=
  v <- pk ;; k <- getitem c "k" ;;
  if Nat.eqb (List.length v) (List.length k) then Ok (nsqrt (#1 / #6 / npow npi #2 * np_trapz v k)) else Err (PyExc ValueError).
(** pyregpt.py:138-142, Terms.sigmar *)
Definition sigmar (c : columns) (r : T) (pk : res column) : res T :=
  k <- getitem c "k" ;; v <- pk ;;
  y <- elementwise (fun row => match row with
         | [p; k] => let x := k * r in
                     let w := #3 * (nsin x - x * ncos x) / npow x #3 in
                     let wk := w * k in p * (wk * wk)
         | _ => #0
         end) [v; k] ;;
  Ok (nsqrt (#1 / #2 / npow npi #2 * np_trapz y k)).
(** pyregpt.py:132-133, Terms.pk_interp at one wavenumber *)
Definition pk_interp (c : columns) (k left right : T) (pk : res column) : res T :=
  v <- pk ;; kk <- getitem c "k" ;;
  if Nat.eqb (List.length v) (List.length kk) then Ok (interp k kk v left right) else Err (PyExc ValueError).
End PyTerms.
Arguments columns N : clear implicits.
