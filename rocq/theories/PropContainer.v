(** PropContainer: C89, rows of an object chosen by an index; C90, the columns of an object as a dict. *)
From Coq Require Import Lia List ZArith String Bool.
From Verif Require Import Base Num Common Registry PyTerms PyContainer SpecContainer ProofContainer ProofContainer2 ProofContainer3.
Import ListNotations.
Local Open Scope Z_scope.

(** ** C89 *)
(** The rows which start:stop:step, an array of booleans or an array of integers choose: always inside the object. *)
Theorem C89_inside (n : Z) (ix : index) (ps : list Z) : 0 <= n -> positions n ix = Ok ps -> forall p, In p ps -> 0 <= p < n.
Proof. exact (positions_range n ix ps). Qed.
Print Assumptions C89_inside.
Theorem C89_slices (n : Z) : 0 <= n ->
  (forall a b, 0 <= a <= b -> b <= n -> positions n (Rows (Some a) (Some b) 1) = Ok (map (fun i => a + Z.of_nat i) (seq 0 (Z.to_nat (b - a))))) /\
  (forall a, 0 < a <= n -> positions n (Rows (Some (- a)) None 1) = Ok (map (fun i => n - a + Z.of_nat i) (seq 0 (Z.to_nat a)))) /\
  (forall s, 0 < s -> positions n (Rows None None s) = Ok (map (fun i => Z.of_nat i * s) (seq 0 (Z.to_nat ((n + s - 1) / s))))) /\
  positions n (Rows None None (-1)) = Ok (map (fun i => n - 1 - Z.of_nat i) (seq 0 (Z.to_nat n))) /\
  (forall l ps, positions n (Mask l) = Ok ps -> forall p, In p ps <-> 0 <= p < n /\ nth (Z.to_nat p) l false = true).
Proof. exact (fun H => conj (slice_between n) (conj (slice_last n) (conj (fun s => slice_step n s H) (conj (slice_reversed n H) (mask_positions n))))). Qed.
Print Assumptions C89_slices.
(** o[ix] has the same columns as o, each with the chosen rows; an index which raises on one column raises. *)
Theorem C89_select (N : Num) (cl : pyclass) (ix : index) (n : Z) (c : list (string * list (T N))) : 0 <= n -> rows_are n cl c ->
  (forall ps, positions n ix = Ok ps -> exists d, select cl c ix = Ok d /\ map fst d = map fst c /\
     forall x v, assoc c x = Some v -> exists w, assoc d x = Some w /\ chosen (width cl x) v ps w) /\
  (forall e, c <> [] -> positions n ix = Err e -> select cl c ix = Err e).
Proof. exact (fun Hn HR => conj (fun ps => select_ok cl ix n c ps Hn HR) (fun e Hc => select_err cl ix n c e Hn Hc HR)). Qed.
Print Assumptions C89_select.
(** Every spectrum of o[ix] is the chosen rows of the spectrum of o, with any kind of numbers (so bit by bit). *)
Theorem C89_spectra (N : Num) (cl : pyclass) (ix : index) (n : Z) (ps : list Z) (c d : list (string * list (T N))) :
  0 <= n -> rows_are n cl c -> positions n ix = Ok ps -> select cl c ix = Ok d ->
  forall f D s s' kmin kmax v, offers cl f ->
  match s, s' with None, None => True | Some s, Some s' => chosen 1 s ps s' | _, _ => False end ->
  read_off cl f c D s kmin kmax = Ok v ->
  exists w, read_off cl f d D s' kmin kmax = Ok w /\ chosen (numbers cl f) v ps w.
Proof. exact (read_off_picked cl ix n ps c d). Qed.
Print Assumptions C89_spectra.
(** rescale and nan_to_zero may be done before or after the rows are chosen. *)
Theorem C89_rescale (N : Num) (cl : pyclass) (ix : index) (D : T N) (c d c' : list (string * list (T N))) o :
  select cl c ix = Ok d -> rescale cl c D = (c', o) -> exists d', rescale cl d D = (d', o) /\ select cl c' ix = Ok d'.
Proof. exact (rescale_select cl ix D c d c' o). Qed.
Print Assumptions C89_rescale.
Theorem C89_nan_to_zero (N : Num) (cl : pyclass) (ix : index) (c d c' : list (string * list (T N))) o :
  select cl c ix = Ok d -> nan_to_zero cl c = (c', o) -> exists d', nan_to_zero cl d = (d', o) /\ select cl c' ix = Ok d'.
Proof. exact (nan_select cl ix c d c' o). Qed.
Print Assumptions C89_nan_to_zero.
(** o[ix] = e writes e to the chosen rows of every column, the wavenumbers included, and to nothing else. *)
Theorem C89_assign (N : Num) (cl : pyclass) (ix : index) (n : Z) (c : list (string * list (T N))) (ps : list Z) (e : T N) :
  0 <= n -> rows_are n cl c -> positions n ix = Ok ps ->
  exists d, set_rows cl c ix e = Ok d /\ map fst d = map fst c /\
    forall x v, assoc c x = Some v -> exists w, assoc d x = Some w /\ zlen w = zlen v /\
      forall i r, 0 <= i < n -> 0 <= r < width cl x ->
        (In i ps -> nth_error w (Z.to_nat (i * width cl x + r)) = Some e) /\
        (~ In i ps -> nth_error w (Z.to_nat (i * width cl x + r)) = nth_error v (Z.to_nat (i * width cl x + r))).
Proof. exact (set_rows_ok cl ix n c ps e). Qed.
Print Assumptions C89_assign.
(** An A term with two wavenumbers, reversed; and its spectrum. *)
Example C89_ex (N : Num) (k0 k1 p0 p1 s0 s1 : T N) (a b : list (T N)) (D : T N) : List.length a = 5%nat -> List.length b = 5%nat ->
  let c := [("k", [k0; k1]); ("pk_lin", [p0; p1]); ("sigmad2", [s0; s1]); ("pk", (a ++ b)%list)]%string in
  rows_are 2 CA1 c /\ positions 2 (Rows None None (-1)) = Ok [1; 0] /\
  select CA1 c (Rows None None (-1)) = Ok [("k", [k1; k0]); ("pk_lin", [p1; p0]); ("sigmad2", [s1; s0]); ("pk", (b ++ a)%list)]%string /\
  offers CA1 (Scaled "pk") /\ exists v, read_off CA1 (Scaled "pk") c D None D D = Ok v /\ List.length v = 10%nat.
Proof.
  intros La Lb c. destruct a as [|a0 [|a1 [|a2 [|a3 [|a4 [|]]]]]]; try discriminate La. destruct b as [|b0 [|b1 [|b2 [|b3 [|b4 [|]]]]]]; try discriminate Lb.
  split; [|split; [reflexivity|split; [reflexivity|split; [exact I|eexists; split; reflexivity]]]].
  intros x v H. cbn in H. destruct H as [E|[E|[E|[E|[]]]]]; injection E as <- <-; reflexivity.
Qed.

(** ** C90 *)
(** After any history of o[name] = v and o.pop(name), starting from the columns c. *)
Theorem C90_history (N : Num) (cl : pyclass) (l : list (@event N)) (c : list (string * list (T N))) :
  let c' := history l c in let now x := said l x (assoc c x) in
  (forall x, getitem c' x = match now x with Some v => Ok v | None => Err (PyExc KeyError) end) /\
  (forall x, has c' x = true <-> now x <> None) /\
  (forall x, snd (pop c' x) = match now x with Some v => Ok v | None => Err (PyExc KeyError) end) /\
  (exists here, iter cl c' = filter here (fields cl) /\ (forall x, here x = true <-> now x <> None) /\
     tolist cl c' = Ok (map (fun x => match now x with Some v => v | None => [] end) (filter here (fields cl)))) /\
  (NoDup (map fst c) -> exists d, as_dict c' None = Ok d /\ NoDup (map fst d) /\ forall x, assoc d x = now x) /\
  (forall names, (forall x, In x names -> now x <> None) -> NoDup names -> exists d, as_dict c' (Some names) = Ok d /\ map fst d = names /\ forall x, In x names -> assoc d x = now x) /\
  (forall names x, In x names -> now x = None -> as_dict c' (Some names) = Err (PyExc KeyError)).
Proof. exact (container cl l c). Qed.
Print Assumptions C90_history.
(** A column with a name of its own is in the object but not in the iteration over it. *)
Theorem C90_iteration_refuted (N : Num) (cl : pyclass) (v : list (T N)) : let c := setitem (N := N) [] "weights" v in
  has (N := N) c "weights" = true /\ iter (N := N) cl c = [] /\ tolist (N := N) cl c = Ok [].
Proof. exact (outside_iteration cl v). Qed.
Print Assumptions C90_iteration_refuted.
Example C90_ex (N : Num) (u v w : list (T N)) :
  let l := [@Put N "pk" u; Put "k" v; Pop "pk"; Put "pk" w; Put "k" u]%string in
  said l "pk" None = Some w /\ said l "k" None = Some u /\ iter CLin (history l []) = ["k"; "pk"]%string /\ tolist CLin (history l []) = Ok [u; w].
Proof. repeat split. Qed.
