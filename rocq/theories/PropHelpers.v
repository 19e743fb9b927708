(** PropHelpers: C88, the helper functions interpol_poly, interpol_lin and nodes_weights_gauss_legendre called from Python. *)
From Coq Require Import Reals Lra Lia List ZArith String Bool.
From Verif Require Import Base Num Spec Common ProofCommon2 PyHelpers SpecHelpers ProofHelpers.
Import ListNotations.
Local Open Scope Z_scope.

(** ** C88 *)
(** Arrays of doubles which follow each other in memory, wherever they begin in their buffer. *)
Theorem C88_interpol_poly (x : R) (tabx taby : view RNum) :
  inside tabx -> inside taby -> v_double tabx = true -> v_double taby = true -> v_step tabx = 1 -> v_step taby = 1 ->
  v_len taby = v_len tabx -> 1 <= v_len tabx -> zlen (v_data tabx) < 2 ^ 62 -> distinct (items tabx) ->
  exists p : poly, (List.length p <= List.length (items tabx))%nat /\ through p (items tabx) (items taby) /\
    py_interpol_poly (N := RNum) x tabx taby = Returns (peval p x) /\
    (forall q : poly, (List.length q <= List.length (items tabx))%nat -> through q (items tabx) (items taby) -> forall z, peval q z = peval p z).
Proof. exact (helper_poly x tabx taby). Qed.
Print Assumptions C88_interpol_poly.
Theorem C88_raises (N : Num) (x : T N) (tabx taby : view N) :
  (v_len taby <> v_len tabx -> py_interpol_poly x tabx taby = Raises "AssertionError") /\
  (v_len taby = v_len tabx -> v_double tabx && v_double taby = false -> py_interpol_poly x tabx taby = Raises "ArgumentError").
Proof. exact (helper_raises x tabx taby). Qed.
Print Assumptions C88_raises.
(** Views with a step are read as if they had none: a[::2] gives another value, a[::-1] is read beyond its end. *)
Theorem C88_step_refuted : exists tabx taby : view RNum, inside tabx /\ inside taby /\ items tabx = [0; 1]%R /\ items taby = [0; 1]%R /\
  v_double tabx = true /\ v_double taby = true /\ py_interpol_poly (N := RNum) 1%R tabx taby = Returns (5 / 9)%R.
Proof. exact (let '(conj a (conj b (conj c (conj d e)))) := poly_strided in ex_intro _ _ (ex_intro _ _ (conj a (conj b (conj c (conj d (conj eq_refl (conj eq_refl e)))))))). Qed.
Print Assumptions C88_step_refuted.
Theorem C88_reversed_refuted (N : Num) (x : T N) (xs ys : list (T N)) : List.length ys = List.length xs -> (2 <= List.length xs)%nat ->
  py_interpol_poly x (reversed xs) (reversed ys) = Undefined OOB.
Proof. exact (helper_reversed x xs ys). Qed.
Print Assumptions C88_reversed_refuted.
Theorem C88_empty_refuted (N : Num) (x : T N) : py_interpol_poly x (fresh []) (fresh []) = Undefined OOB.
Proof. exact (helper_empty x). Qed.
Print Assumptions C88_empty_refuted.
(** Only the first and the last elements count; steps are no obstacle, and the lengths of the two arrays may differ. *)
Theorem C88_interpol_lin (x : R) (tabx taby : view RNum) : inside tabx -> inside taby -> 1 <= v_len tabx -> 1 <= v_len taby ->
  let x0 := at_ (items tabx) 0 in let x1 := at_ (items tabx) (List.length (items tabx) - 1) in
  let y0 := at_ (items taby) 0 in let y1 := at_ (items taby) (List.length (items taby) - 1) in
  x0 <> x1 -> py_interpol_lin (N := RNum) x tabx taby = Returns (y0 + (y1 - y0) / (x1 - x0) * (x - x0))%R.
Proof. exact (helper_lin x tabx taby). Qed.
Print Assumptions C88_interpol_lin.
Theorem C88_interpol_lin_tabulated_refuted : exists tabx taby : view RNum, inside tabx /\ inside taby /\
  items tabx = [0; 1; 2]%R /\ items taby = [0; 1; 4]%R /\ py_interpol_lin (N := RNum) 1%R tabx taby = Returns 2%R.
Proof. exact lin_tabulated. Qed.
Print Assumptions C88_interpol_lin_tabulated_refuted.
Theorem C88_interpol_lin_empty (N : Num) (x : T N) (tabx taby : view N) : v_len tabx = 0 -> py_interpol_lin x tabx taby = Raises "IndexError".
Proof. exact (helper_lin_empty x tabx taby). Qed.
Print Assumptions C88_interpol_lin_empty.
(** [mem] is what np.empty finds in the memory; [fuel] bounds the Newton loops. *)
Theorem C88_nodes (N : Num) (fuel : nat) (mem mem' : Z -> list (T N) * list (T N)) (xmin xmax : T N) (n : Z) : 0 <= n < 2 ^ 62 ->
  (zlen (fst (mem n)) = n /\ zlen (snd (mem n)) = n) -> (zlen (fst (mem' n)) = n /\ zlen (snd (mem' n)) = n) ->
  py_nodes_weights fuel mem xmin xmax n = py_nodes_weights fuel mem' xmin xmax n /\
  (py_nodes_weights fuel mem xmin xmax n = Undefined NoFuel \/
   exists x w, py_nodes_weights fuel mem xmin xmax n = Returns (x, w) /\ zlen x = n /\ zlen w = n).
Proof. exact (helper_nodes fuel mem mem' xmin xmax n). Qed.
Print Assumptions C88_nodes.
Theorem C88_nodes_negative (N : Num) (fuel : nat) (mem : Z -> list (T N) * list (T N)) (xmin xmax : T N) (n : Z) : n < 0 ->
  py_nodes_weights fuel mem xmin xmax n = Raises "ValueError".
Proof. exact (helper_nodes_negative fuel mem xmin xmax n). Qed.
Print Assumptions C88_nodes_negative.
(** The hypotheses can be met: the points 0, 1, 4 of x^2 in the middle of larger buffers. *)
Example C88_ex : let tabx := mkView (N := RNum) [7; 0; 1; 2; 7]%R 1 1 3 true in let taby := mkView (N := RNum) [0; 1; 4]%R 0 1 3 true in
  inside tabx /\ inside taby /\ items tabx = [0; 1; 2]%R /\ items taby = [0; 1; 4]%R /\ distinct (items tabx).
Proof. exact poly_ex. Qed.
Example C88_nodes_ex (xmin xmax : R) (mem : Z -> list R * list R) a b : mem 1 = ([a], [b]) ->
  py_nodes_weights (N := RNum) 2 mem xmin xmax 1 = Returns ([((xmax + xmin) / 2)%R], [(xmax - xmin)%R]).
Proof. intros E. unfold py_nodes_weights. cbn [Z.ltb Z.compare]. change (T RNum) with R in *. rewrite E. rewrite (proj1 (gl_one 0 xmin xmax a b)). reflexivity. Qed.
