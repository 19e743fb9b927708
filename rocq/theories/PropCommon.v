(** PropCommon: the properties C01-C19 of src/common.c.  Model: Common.v.  Vocabulary: Spec.v,
    SpecQuad.v ([order_laws] of Order.v: what is assumed of [<]; it holds of the reals and of the
    doubles that are not NaN).  Every theorem is closed by a lemma proved elsewhere. *)
From Coq Require Import Reals Lra Floats.
From Coquelicot Require Import Coquelicot.
From Verif Require Import Base Num BaseFacts Common Spec SpecQuad Order.
From Verif Require Import ProofSearch ProofInterp ProofFindPk ProofFindPkR ProofSigma LegendreRoots LegendreSpec ProofGL ProofGL2 ProofCommon2 ProofCommon3.
Import ListNotations.
Local Open Scope R_scope.

(** ** C01 *)
Theorem C01_power (x : R) (n : Z) : (0 <= n)%Z -> power (N := RNum) x n = x ^ Z.to_nat n.
Proof. exact (power_R x n). Qed.
Print Assumptions C01_power.
Example C01_power_ex : power (N := RNum) 2 10 = 1024.
Proof. rewrite C01_power by lia. rn. change (Z.to_nat 10) with 10%nat. ring. Qed.

Theorem C01_powers (x : R) (tab : list R) (n : Z) : (2 <= n <= zlen tab)%Z ->
  exists tab', powers (N := RNum) x tab n = Ok tab' /\ length tab' = length tab /\
    (forall i, (0 <= i < n)%Z -> nth (Z.to_nat i) tab' 0 = x ^ Z.to_nat i) /\
    (forall i, (n <= i < zlen tab)%Z -> nth (Z.to_nat i) tab' 0 = nth (Z.to_nat i) tab 0).
Proof. exact (powers_final x tab n). Qed.
Print Assumptions C01_powers.
Example C01_powers_ex : (2 <= 3 <= zlen [7; 7; 7; 7])%Z /\ powers (N := RNum) 3 [7; 7; 7; 7] 3 = Ok [1; 3; 3 * 3; 7].
Proof. split; [cbn; lia|reflexivity]. Qed.

(** The minimal table size is two: with a smaller table the second store is out of bounds. *)
Theorem C01_powers_small_refuted (N : Num) (x : T N) (tab : list (T N)) (n : Z) : (zlen tab < 2)%Z -> powers x tab n = Err OOB.
Proof. exact (powers_short x tab n). Qed.
Print Assumptions C01_powers_small_refuted.

(** ** C02 *)
Theorem C02_lookup (N : Num) (G : T N -> Prop) (OL : order_laws N G) (d x : T N) (tab : list (T N)) (mn mx : Z) :
  G x -> (forall i, (0 <= i < zlen tab)%Z -> G (znth d tab i)) ->
  (forall i j, (mn <= i < j)%Z -> (j < mx)%Z -> nlt N (znth d tab i) (znth d tab j) = true) ->
  (0 <= mn < mx)%Z -> (mx <= zlen tab)%Z -> (zlen tab < 2 ^ 63)%Z ->
  nlt N x (znth d tab mn) = false ->
  exists i, get_dichotomy_index x tab mn mx = Ok i /\ (mn <= i < mx)%Z /\
    nlt N x (znth d tab i) = false /\ ((i = mx - 1)%Z \/ nlt N x (znth d tab (i + 1)) = true).
Proof. exact (dichotomy_bracket G OL d x tab mn mx). Qed.
Print Assumptions C02_lookup.

Theorem C02_lookup_real (x : R) (tab : list R) (mn mx : Z) :
  increasing tab -> (0 <= mn < mx)%Z -> (mx <= zlen tab)%Z -> (zlen tab < 2 ^ 63)%Z ->
  nth (Z.to_nat mn) tab 0 <= x ->
  exists i, get_dichotomy_index (N := RNum) x tab mn mx = Ok i /\ (mn <= i < mx)%Z /\
    nth (Z.to_nat i) tab 0 <= x /\ ((i = mx - 1)%Z \/ x < nth (Z.to_nat (i + 1)) tab 0).
Proof. exact (lookup_R x tab mn mx). Qed.
Print Assumptions C02_lookup_real.

Theorem C02_lookup_double (lm : libm) (x : float) (tab : list float) (mn mx : Z) :
  not_nan x -> (forall t, In t tab -> not_nan t) ->
  (forall i j, (i < j < length tab)%nat -> PrimFloat.ltb (nth i tab 0%float) (nth j tab 0%float) = true) ->
  (0 <= mn < mx)%Z -> (mx <= zlen tab)%Z -> (zlen tab < 2 ^ 63)%Z ->
  PrimFloat.ltb x (nth (Z.to_nat mn) tab 0%float) = false ->
  exists i, get_dichotomy_index (N := FNum lm) x tab mn mx = Ok i /\ (mn <= i < mx)%Z /\
    PrimFloat.ltb x (nth (Z.to_nat i) tab 0%float) = false /\
    ((i = mx - 1)%Z \/ PrimFloat.ltb x (nth (Z.to_nat (i + 1)) tab 0%float) = true).
Proof. exact (lookup_F lm x tab mn mx). Qed.
Print Assumptions C02_lookup_double.
Example C02_double_ex lm : get_dichotomy_index (N := FNum lm) 2.5%float [1; 2; 3; 4]%float 0 4 = Ok 1%Z.
Proof. reflexivity. Qed.

(** Only the window is read: two tables which agree on it give the same answer. *)
Theorem C02_window_only (N : Num) (x : T N) (tab tab' : list (T N)) (mn mx : Z) :
  (0 <= mn < mx)%Z -> (mx < 2 ^ 63)%Z -> (forall i, (mn <= i < mx)%Z -> rd tab i = rd tab' i) ->
  get_dichotomy_index x tab mn mx = get_dichotomy_index x tab' mn mx.
Proof. exact (lookup_window x tab tab' mn mx). Qed.
Print Assumptions C02_window_only.

(** ** C03 *)
Theorem C03_interpol_poly (x : R) (xs ys : list R) :
  xs <> [] -> length ys = length xs -> (zlen xs < 2 ^ 62)%Z -> distinct xs ->
  exists p : poly, (length p <= length xs)%nat /\ through p xs ys /\
    interpol_poly (N := RNum) x xs ys (zlen xs) = Ok (peval p x) /\
    (forall q : poly, (length q <= length xs)%nat -> through q xs ys -> forall z, peval q z = peval p z).
Proof. exact (interpol_poly_spec x xs ys). Qed.
Print Assumptions C03_interpol_poly.
Example C03_ex : distinct [3; 1; 2] /\ [3; 1; 2] <> [] /\ (zlen [3; 1; 2] < 2 ^ 62)%Z.
Proof. split; [|split; [discriminate|cbn; lia]]. intros [|[|[|i]]] [|[|[|j]]]; cbn; intros; try lia; try lra. Qed.

(** Whatever the numbers (in particular for doubles, with coinciding nodes, infinities or NaN)
    the wrap-around index never leads outside the arrays. *)
Theorem C03_interpol_poly_in_bounds (N : Num) (x : T N) (tabx taby : list (T N)) (n : Z) :
  (1 <= n)%Z -> (n <= zlen tabx)%Z -> (n <= zlen taby)%Z -> (zlen tabx < 2 ^ 62)%Z ->
  exists y, interpol_poly x tabx taby n = Ok y.
Proof. exact (interpol_poly_safe x tabx taby n). Qed.
Print Assumptions C03_interpol_poly_in_bounds.
Example C03_double_ex lm : interpol_poly (N := FNum lm) 2.5%float [1; 2; 3]%float [1; 4; 9]%float 3 = Ok 6.25%float.
Proof. reflexivity. Qed.

(** ** C04 *)
Theorem C04_interpol_lin (x0 x1 y0 y1 : R) : x0 <> x1 ->
  interpol_lin (N := RNum) x0 x0 x1 y0 y1 = y0 /\ interpol_lin (N := RNum) x1 x0 x1 y0 y1 = y1 /\
  (forall x, (interpol_lin (N := RNum) x x0 x1 y0 y1 - y0) * (x1 - x0) = (y1 - y0) * (x - x0)) /\
  (x0 < x1 -> forall x, x0 <= x <= x1 -> Rmin y0 y1 <= interpol_lin (N := RNum) x x0 x1 y0 y1 <= Rmax y0 y1) /\
  (x0 < x1 -> y0 <= y1 -> forall x x', x <= x' ->
     interpol_lin (N := RNum) x x0 x1 y0 y1 <= interpol_lin (N := RNum) x' x0 x1 y0 y1).
Proof. exact (interpol_lin_all x0 x1 y0 y1). Qed.
Print Assumptions C04_interpol_lin.
Example C04_ex : interpol_lin (N := RNum) 3 2 4 10 30 = 20.
Proof. rewrite interpol_lin_eq. lra. Qed.

(** ** C05 *)
Theorem C05_lookup_on_grid (K P : list R) (im : interpol) (is : list nat) :
  length P = length K -> (zlen K < 2 ^ 62)%Z -> increasing K -> (1 <= length K)%nat ->
  (forall i j, (i <= j < length is)%nat -> (nth i is 0 <= nth j is 0)%nat) ->
  (forall i, In i is -> match im with POLY => (i < length K)%nat | LIN => (S i < length K)%nat end) ->
  find_pk (N := RNum) (mk_table (N := RNum) K P) (map (at_ K) is) im = Ok (map (at_ P) is).
Proof. exact (fun HL HB HI => find_pk_grid K P HL HB HI im is). Qed.
Print Assumptions C05_lookup_on_grid.
Example C05_ex : find_pk (N := RNum) (mk_table (N := RNum) [1; 2; 4] [5; 7; 6]) [1; 4; 4] POLY = Ok [5; 6; 6].
Proof.
  apply (C05_lookup_on_grid [1; 2; 4] [5; 7; 6] POLY [0; 2; 2]%nat); try reflexivity; try (cbn; lia).
  - intros [|[|[|i]]] [|[|[|j]]]; cbn; intros; try lia; lra.
  - intros [|[|[|i]]] [|[|[|j]]]; cbn; intros; lia.
Qed.

(** ** C06 *)
Theorem C06_lookup_elementwise (N : Num) (G : T N -> Prop) (OL : order_laws N G) (K P : list (T N)) (d : T N) (im : interpol) (ks : list (T N)) :
  length P = length K -> (1 <= zlen K < 2 ^ 62)%Z ->
  (forall i, (0 <= i < zlen K)%Z -> G (znth d K i)) ->
  (forall i j, (0 <= i < j)%Z -> (j < zlen K)%Z -> nlt N (znth d K i) (znth d K j) = true) ->
  (forall i, (0 <= i < zlen ks)%Z -> G (znth d ks i)) ->
  (forall i j, (0 <= i < j)%Z -> (j < zlen ks)%Z -> nlt N (znth d ks j) (znth d ks i) = false) ->
  forall ps, find_pk (mk_table K P) ks im = Ok ps <->
             Forall2 (fun k p => find_pk (mk_table K P) [k] im = Ok [p]) ks ps.
Proof. exact (lookup_elementwise G OL K P d im ks). Qed.
Print Assumptions C06_lookup_elementwise.
Theorem C06_lookup_elementwise_real (K P : list R) (im : interpol) (ks : list R) :
  length P = length K -> (1 <= zlen K < 2 ^ 62)%Z -> increasing K -> ascending ks ->
  forall ps, find_pk (N := RNum) (mk_table (N := RNum) K P) ks im = Ok ps <->
             Forall2 (fun k p => find_pk (N := RNum) (mk_table (N := RNum) K P) [k] im = Ok [p]) ks ps.
Proof. exact (lookup_elementwise_R K P im ks). Qed.
Print Assumptions C06_lookup_elementwise_real.
Example C06_ex : increasing [1; 2; 4] /\ ascending [0.5; 1.5; 1.5; 7].
Proof. split; [intros [|[|[|i]]] [|[|[|j]]]|intros [|[|[|[|i]]]] [|[|[|[|j]]]]]; cbn; intros; try lia; lra. Qed.

Theorem C06_poly_in_bounds (N : Num) (K P : list (T N)) (ks : list (T N)) : length P = length K -> (2 <= zlen K < 2 ^ 62)%Z ->
  exists ps, find_pk (mk_table K P) ks POLY = Ok ps /\ length ps = length ks.
Proof. exact (poly_lookup_safe K P ks). Qed.
Print Assumptions C06_poly_in_bounds.
Example C06_double_ex lm : find_pk (N := FNum lm) (mk_table (N := FNum lm) [1; 2; 3]%float [1; 4; 9]%float) [1.5; 3; 2]%float POLY
  = Ok [2.25; 9; 4]%float.
Proof. reflexivity. Qed.
(** The bound 2 is needed: with one tabulated point, a query below it reads out of bounds. *)
Theorem C06_single_point_refuted (N : Num) (G : T N -> Prop) (OL : order_laws N G) (K0 P0 k : T N) (im : interpol) :
  G k -> G K0 -> nlt N k K0 = true -> find_pk (mk_table [K0] [P0]) [k] im = Err OOB.
Proof. exact (single_point_oob G OL K0 P0 k im). Qed.
Print Assumptions C06_single_point_refuted.

(** ** C07 *)
Theorem C07_lookup_any_order_refuted (lm : libm) :
  let K := [1; 2; 3]%float in let P := [1; 4; 9]%float in
  find_pk (N := FNum lm) (mk_table (N := FNum lm) K P) [1.5]%float LIN = Ok [2.5]%float /\
  find_pk (N := FNum lm) (mk_table (N := FNum lm) K P) [2.5; 1.5]%float LIN = Ok [6.5; 1.5]%float.
Proof. exact (find_pk_unordered lm). Qed.
Print Assumptions C07_lookup_any_order_refuted.

(** ** C08 *)
Theorem C08_lin_last_point_refuted (K P : list R) : length P = length K -> (1 <= zlen K < 2 ^ 62)%Z -> increasing K ->
  find_pk (N := RNum) (mk_table (N := RNum) K P) [at_ K (length K - 1)] LIN = Err OOB.
Proof. exact (lin_last_R K P). Qed.
Print Assumptions C08_lin_last_point_refuted.
Example C08_double_ex lm : find_pk (N := FNum lm) (mk_table (N := FNum lm) [1; 2; 3]%float [1; 4; 9]%float) [3]%float LIN = Err OOB.
Proof. reflexivity. Qed.

(** ** C09 *)
Theorem C09_power_law (K P : list R) (A n : R) (im : interpol) (k : R) :
  length P = length K -> (3 <= zlen K < 2 ^ 62)%Z -> increasing K ->
  0 < A -> (forall i, (i < length K)%nat -> 0 < at_ K i /\ at_ P i = A * Rpower (at_ K i) n) ->
  0 < k -> (k < at_ K 0 \/ at_ K (length K - 1) < k) ->
  find_pk (N := RNum) (mk_table (N := RNum) K P) [k] im = Ok [A * Rpower k n].
Proof. exact (power_law_final K P A n im k). Qed.
Print Assumptions C09_power_law.
Example C09_ex (n : R) : find_pk (N := RNum) (mk_table (N := RNum) [1; 2; 4] (map (fun k => 5 * Rpower k n) [1; 2; 4])) [8] POLY = Ok [5 * Rpower 8 n].
Proof.
  apply (C09_power_law [1; 2; 4] _ 5 n POLY 8); try reflexivity; try lra; try (cbn; lia); try (right; cbn; lra).
  - intros [|[|[|i]]] [|[|[|j]]]; cbn; intros; try lia; lra.
  - intros [|[|[|i]]] Hi; cbn in *; try lia; (split; [lra|reflexivity]).
Qed.

(** ** C10 *)
Theorem C10_extrapolation_positive (K P : list R) (im : interpol) (k : R) :
  length P = length K -> (3 <= zlen K < 2 ^ 62)%Z -> increasing K ->
  0 < at_ K 0 -> (forall i, (i < length K)%nat -> 0 < at_ P i) ->
  0 < k -> (k < at_ K 0 \/ at_ K (length K - 1) < k) ->
  exists p, find_pk (N := RNum) (mk_table (N := RNum) K P) [k] im = Ok [p] /\ 0 < p.
Proof. exact (extrapol_positive_final K P im k). Qed.
Print Assumptions C10_extrapolation_positive.
Theorem C10_low_zero (K P : list R) (im : interpol) (k : R) :
  length P = length K -> (4 <= zlen K < 2 ^ 62)%Z -> increasing K ->
  k < at_ K 0 -> (exists j, (j <= 15)%nat /\ (j < length K)%nat /\ at_ P j <= 0) ->
  find_pk (N := RNum) (mk_table (N := RNum) K P) [k] im = Ok [0].
Proof. exact (low_zero K P im k). Qed.
Print Assumptions C10_low_zero.
Theorem C10_high_zero (K P : list R) (im : interpol) (k : R) :
  length P = length K -> (4 <= zlen K < 2 ^ 62)%Z -> increasing K ->
  at_ K (length K - 1) < k -> (exists j, (length K <= j + 17)%nat /\ (j < length K)%nat /\ at_ P j <= 0) ->
  find_pk (N := RNum) (mk_table (N := RNum) K P) [k] im = Ok [0].
Proof. exact (high_zero K P im k). Qed.
Print Assumptions C10_high_zero.
Theorem C10_high_continuous (K P : list R) (im : interpol) :
  length P = length K -> (3 <= zlen K < 2 ^ 62)%Z -> increasing K ->
  0 < at_ K 0 -> (forall i, (i < length K)%nat -> 0 < at_ P i) ->
  forall eps, 0 < eps -> exists delta, 0 < delta /\
    forall k, at_ K (length K - 1) < k < at_ K (length K - 1) + delta ->
    exists p, find_pk (N := RNum) (mk_table (N := RNum) K P) [k] im = Ok [p] /\ Rabs (p - at_ P (length K - 1)) < eps.
Proof. exact (high_continuous_final K P im). Qed.
Print Assumptions C10_high_continuous.
Example C10_ex : find_pk (N := RNum) (mk_table (N := RNum) [1; 2; 3; 4] [1; 0; 1; 1]) [0.5] POLY = Ok [0].
Proof.
  apply C10_low_zero; try reflexivity; try (cbn; lia); [|cbn; lra|exists 1%nat; cbn; split; [lia|split; [lia|lra]]].
  intros [|[|[|[|i]]]] [|[|[|[|j]]]]; cbn; intros; try lia; lra.
Qed.

(** ** C11 *)
Theorem C11_low_continuous_refuted : exists K P : list R,
  length P = length K /\ (3 <= zlen K < 2 ^ 62)%Z /\ increasing K /\
  0 < at_ K 0 /\ (forall i, (i < length K)%nat -> 0 < at_ P i) /\
  exists gap, 0 < gap /\ forall im k p, 0 < k < at_ K 0 ->
    find_pk (N := RNum) (mk_table (N := RNum) K P) [k] im = Ok [p] -> gap <= Rabs (p - at_ P 0).
Proof. exact lowk_jump_final. Qed.
Print Assumptions C11_low_continuous_refuted.

(** ** C12 *)
Theorem C12_sigmad2_integral (K P : list R) (ks : list R) (uv : R) :
  length P = length K -> (1 <= zlen K < 2 ^ 62)%Z -> increasing K -> ascending ks -> 0 <= uv ->
  exists vs, calc_running_sigmad2 (N := RNum) (mk_table (N := RNum) K P) ks uv = Ok vs /\
    Forall2 (fun k v =>
      (k * uv < at_ K 0 -> v = 0) /\
      (at_ K 0 <= k * uv ->
        is_RInt (plin K P) (at_ K 0) (Rmin (k * uv) (at_ K (length K - 1))) (v * (6 * PI ^ 2)))) ks vs.
Proof. exact (sigmad2_final K P ks uv). Qed.
Print Assumptions C12_sigmad2_integral.
Theorem C12_sigmad2_elementwise (N : Num) (G : T N -> Prop) (OL : order_laws N G) (K P : list (T N)) (d uv : T N) (ks : list (T N)) :
  length P = length K -> (1 <= zlen K < 2 ^ 62)%Z ->
  (forall i, (0 <= i < zlen K)%Z -> G (znth d K i)) ->
  (forall i j, (0 <= i < j)%Z -> (j < zlen K)%Z -> nlt N (znth d K i) (znth d K j) = true) ->
  (forall i, (0 <= i < zlen ks)%Z -> G (nmul N (znth d ks i) uv)) ->
  (forall i j, (0 <= i < j)%Z -> (j < zlen ks)%Z -> nlt N (nmul N (znth d ks j) uv) (nmul N (znth d ks i) uv) = false) ->
  exists vs, calc_running_sigmad2 (mk_table K P) ks uv = Ok vs /\
    Forall2 (fun k v => calc_running_sigmad2 (mk_table K P) [k] uv = Ok [v]) ks vs.
Proof. exact (sigmad2_elementwise_final G OL K P d uv ks). Qed.
Print Assumptions C12_sigmad2_elementwise.

(** ** C13 *)
Theorem C13_sigmad2_nonneg_mono (K P : list R) (ks : list R) (uv : R) :
  length P = length K -> (1 <= zlen K < 2 ^ 62)%Z -> increasing K ->
  (forall i, (i < length K)%nat -> 0 <= at_ P i) -> ascending ks -> 0 <= uv ->
  forall vs, calc_running_sigmad2 (N := RNum) (mk_table (N := RNum) K P) ks uv = Ok vs ->
    (forall v, In v vs -> 0 <= v) /\ ascending vs.
Proof. exact (sigmad2_mono_final K P ks uv). Qed.
Print Assumptions C13_sigmad2_nonneg_mono.
(** The plateau is SpectrumLin.sigmav() squared (pyregpt.py:135-136: sqrt(1/6/pi^2 * trapz(pk, x=k))). *)
Theorem C13_sigmad2_saturates (K P : list R) (k uv : R) :
  length P = length K -> (1 <= zlen K < 2 ^ 62)%Z -> increasing K -> at_ K (length K - 1) <= k * uv ->
  calc_running_sigmad2 (N := RNum) (mk_table (N := RNum) K P) [k] uv = Ok [1 / 6 / PI ^ 2 * trapz K P].
Proof. exact (sigmad2_saturates_final K P k uv). Qed.
Print Assumptions C13_sigmad2_saturates.
Example C13_ex : calc_running_sigmad2 (N := RNum) (mk_table (N := RNum) [1; 2; 4] [3; 5; 1]) [10] (1 / 2) = Ok [1 / 6 / PI ^ 2 * 10].
Proof.
  rewrite C13_sigmad2_saturates; try reflexivity; try (cbn; lia); try (cbn; lra).
  - repeat f_equal. unfold trapz; cbn. field.
  - intros [|[|[|i]]] [|[|[|j]]]; cbn; intros; try lia; lra.
Qed.

(** ** C14 *)
Theorem C14_sigmad2_any_order_refuted (lm : libm) :
  let K := [1; 2; 3]%float in let P := [1; 4; 9]%float in
  exists v w r, calc_running_sigmad2 (N := FNum lm) (mk_table (N := FNum lm) K P) [1.5]%float 1%float = Ok [v] /\
    calc_running_sigmad2 (N := FNum lm) (mk_table (N := FNum lm) K P) [2.5; 1.5]%float 1%float = Ok [r; w] /\
    PrimFloat.ltb v w = true.
Proof. exact (sigmad2_unordered lm). Qed.
Print Assumptions C14_sigmad2_any_order_refuted.

(** ** C15 *)
(** [fuel] bounds the Newton loops; running out of it is the only way not to return. *)
Theorem C15_in_bounds (N : Num) (fuel : nat) (xmin xmax : T N) (x w : list (T N)) (n : Z) :
  (0 <= n < 2 ^ 62)%Z -> zlen x = n -> zlen w = n ->
  (exists x' w', nodes_weights_gauss_legendre fuel xmin xmax x w n = Ok (x', w') /\ zlen x' = n /\ zlen w' = n) \/
  nodes_weights_gauss_legendre fuel xmin xmax x w n = Err NoFuel.
Proof. exact (gl_safe fuel xmin xmax x w n). Qed.
Print Assumptions C15_in_bounds.
Theorem C15_mirror (fuel : nat) (xmin xmax : R) (x w : list R) (n : Z) :
  (1 <= n < 2 ^ 62)%Z -> zlen x = n -> zlen w = n ->
  forall x' w', nodes_weights_gauss_legendre (N := RNum) fuel xmin xmax x w n = Ok (x', w') ->
  forall i, (0 <= i < n - 1 - i)%Z ->
    znth 0 x' i + znth 0 x' (n - 1 - i) = xmin + xmax /\ znth 0 w' i = znth 0 w' (n - 1 - i).
Proof. exact (gl_mirror_R fuel xmin xmax x w n). Qed.
Print Assumptions C15_mirror.
Theorem C15_affine (fuel : nat) (xmin xmax : R) (x w x0 w0 : list R) (n : Z) :
  (1 <= n < 2 ^ 62)%Z -> zlen x = n -> zlen w = n -> zlen x0 = n -> zlen w0 = n ->
  forall x' w', nodes_weights_gauss_legendre (N := RNum) fuel xmin xmax x w n = Ok (x', w') ->
  exists u v, nodes_weights_gauss_legendre (N := RNum) fuel (-1) 1 x0 w0 n = Ok (u, v) /\
    zlen u = n /\ zlen v = n /\
    forall i, (0 <= i < n)%Z ->
      znth 0 x' i = (xmax + xmin) / 2 + (xmax - xmin) / 2 * znth 0 u i /\
      znth 0 w' i = (xmax - xmin) / 2 * znth 0 v i.
Proof. exact (gl_affine fuel xmin xmax x w x0 w0 n). Qed.
Print Assumptions C15_affine.
Example C15_ex (xmin xmax a b : R) : nodes_weights_gauss_legendre (N := RNum) 2 xmin xmax [a] [b] 1
  = Ok ([(xmax + xmin) / 2], [xmax - xmin]).
Proof. apply gl_one. Qed.

(** ** C16 *)
Theorem C16_recursion (n : nat) (Pn Pm : poly) (z : R) : is_legendre (S n) Pn -> is_legendre n Pm ->
  legendre_loop (N := RNum) (S n) 0 z 1 0 = (peval Pn z, peval Pm z).
Proof. exact (legendre_eval n Pn Pm z). Qed.
Print Assumptions C16_recursion.
Theorem C16_slope (n : nat) (Pn Pm : poly) (z : R) : is_legendre (S n) Pn -> is_legendre n Pm -> z * z <> 1 ->
  is_derive (peval Pn) z (gl_pp (N := RNum) (Z.of_nat (S n)) z (peval Pn z) (peval Pm z)).
Proof. exact (legendre_slope n Pn Pm z). Qed.
Print Assumptions C16_slope.
Theorem C16_nodes (fuel : nat) (xmin xmax : R) (x w : list R) (n : Z) (P : poly) :
  (1 <= n < 2 ^ 62)%Z -> zlen x = n -> zlen w = n -> is_legendre (Z.to_nat n) P ->
  forall x' w', nodes_weights_gauss_legendre (N := RNum) fuel xmin xmax x w n = Ok (x', w') ->
  forall i, (0 <= i < n)%Z -> exists z y slope s, (s = 1 \/ s = -1) /\
    znth 0 x' i = (xmax + xmin) / 2 + s * (xmax - xmin) / 2 * z /\
    znth 0 w' i = (xmax - xmin) / ((1 - z * z) * slope * slope) /\
    is_derive (peval P) y slope /\ slope <> 0 /\
    Rabs (z - y) <= 3 / 10 ^ 14 /\ z = y - peval P y / slope /\
    Rabs (peval P y) <= 3 / 10 ^ 14 * Rabs slope /\
    exists r, -1 < r < 1 /\ peval P r = 0 /\
         Rabs (znth 0 x' i - ((xmax + xmin) / 2 + (xmax - xmin) / 2 * r)) <=
           Rabs ((xmax - xmin) / 2) * ((IZR n + 1) * (3 / 10 ^ 14)).
Proof. exact (gl_nodes_all fuel xmin xmax x w n P). Qed.
Print Assumptions C16_nodes.
Example C16_legendre_exists (n : nat) : exists P, is_legendre n P.
Proof. apply legendre_exists. Qed.
Example C16_ex : exists x' w', nodes_weights_gauss_legendre (N := RNum) 2 (-1) 1 [0] [0] 1 = Ok (x', w').
Proof. do 2 eexists. apply gl_one. Qed.

(** ** C17 *)
(** The weight formula of C16 at exact roots (z = y = r) integrates degree <= 2n-1 exactly. *)
Theorem C17_exactness (n : nat) (P : poly) (zs ds : list R) (xmin xmax : R) (f : poly) :
  (1 <= n)%nat -> is_legendre n P -> NoDup zs -> length zs = n -> length ds = n ->
  (forall i, (i < n)%nat -> peval P (at_ zs i) = 0 /\ is_derive (peval P) (at_ zs i) (at_ ds i)) ->
  (length f <= 2 * n)%nat ->
  is_RInt (peval f) xmin xmax
    (rsum n (fun i => (xmax - xmin) / ((1 - at_ zs i * at_ zs i) * at_ ds i * at_ ds i)
                      * peval f ((xmax + xmin) / 2 + (xmax - xmin) / 2 * at_ zs i))).
Proof. exact (gauss_rule n P zs ds xmin xmax f). Qed.
Print Assumptions C17_exactness.
(** The n roots exist, for every n, and the Newton loop started on a root stays there. *)
Theorem C17_roots (n : nat) (P : poly) : is_legendre n P ->
  exists zs ds, NoDup zs /\ length zs = n /\ length ds = n /\
    forall i, (i < n)%nat -> -1 < at_ zs i < 1 /\ peval P (at_ zs i) = 0 /\ is_derive (peval P) (at_ zs i) (at_ ds i).
Proof. exact (legendre_roots n P). Qed.
Print Assumptions C17_roots.
Theorem C17_newton_fixed (fuel : nat) (n : Z) (P : poly) (r z1 pp : R) : (1 <= n)%Z -> is_legendre (Z.to_nat n) P ->
  -1 < r < 1 -> peval P r = 0 -> 3 / 10 ^ 14 < Rabs (r - z1) ->
  exists s, newton (N := RNum) (S (S fuel)) n r z1 pp = Ok (r, s) /\ is_derive (peval P) r s.
Proof. exact (newton_fixed_final fuel n P r z1 pp). Qed.
Print Assumptions C17_newton_fixed.

(** ** C18 *)
Theorem C18_range (N : Num) (p : precision N) (K P : list (T N)) (d : T N) : (1 <= zlen K < 2 ^ 62)%Z ->
  q_range p (mk_table K P) =
    Ok (if nle N (pr_min p) (nZ N 0) || nle N (pr_max p) (nZ N 0)
        then (nth 0 K d, nth (length K - 1) K d) else (pr_min p, pr_max p)).
Proof. exact (q_range_val p K P d). Qed.
Print Assumptions C18_range.
Theorem C18_init_q (fuel : nat) (p : precision RNum) (K P : list R) (g : glq RNum) :
  (1 <= zlen K < 2 ^ 62)%Z -> (1 <= pr_n p < 2 ^ 62)%Z ->
  init_gauss_legendre_q (N := RNum) fuel p (mk_table (N := RNum) K P) = Ok g ->
  exists qmin qmax : R,
    (0 < pr_min p -> 0 < pr_max p -> qmin = pr_min p /\ qmax = pr_max p) /\
    (pr_min p <= 0 \/ pr_max p <= 0 -> qmin = at_ K 0 /\ qmax = at_ K (length K - 1)) /\
    gq_nq g = pr_n p /\ zlen (gq_q g) = pr_n p /\ zlen (gq_w g) = pr_n p /\
    gq_x g = gq_q g /\ find_pk (N := RNum) (mk_table (N := RNum) K P) (gq_q g) (pr_interpol p) = Ok (gq_pk g) /\
    (0 < qmin < qmax -> forall i, (0 <= i < pr_n p)%Z -> qmin < znth 0 (gq_q g) i < qmax).
Proof. exact (init_q_final fuel p K P g). Qed.
Print Assumptions C18_init_q.
Theorem C18_update_q (g : glq RNum) (k : R) : (0 <= gq_nq g)%Z -> zlen (gq_q g) = gq_nq g -> zlen (gq_x g) = gq_nq g ->
  exists g', update_gauss_legendre_q (N := RNum) g k = Ok g' /\ gq_k g' = k /\ gq_nq g' = gq_nq g /\ gq_q g' = gq_q g /\
    gq_w g' = gq_w g /\ gq_pk g' = gq_pk g /\ zlen (gq_x g') = gq_nq g /\
    forall i, (0 <= i < gq_nq g)%Z -> znth 0 (gq_x g') i = znth 0 (gq_q g) i / k.
Proof. exact (update_q_final g k). Qed.
Print Assumptions C18_update_q.
Theorem C18_mu (fuel : nat) (p : precision RNum) (g : glmu RNum) (mumin mumax : R) :
  (1 <= pr_n p < 2 ^ 62)%Z ->
  init_gauss_legendre_mu (N := RNum) fuel p = Ok g -> mumin <= mumax ->
  exists g', update_gauss_legendre_mu (N := RNum) g mumin mumax = Ok g' /\ gm_nmu g' = pr_n p /\
    zlen (gm_mu g') = pr_n p /\ zlen (gm_w g') = pr_n p /\
    forall i, (0 <= i < pr_n p)%Z ->
      -1 < znth 0 (gm_muref g) i < 1 /\
      znth 0 (gm_mu g') i = (mumax + mumin) / 2 + (mumax - mumin) / 2 * znth 0 (gm_muref g) i /\
      mumin <= znth 0 (gm_mu g') i <= mumax /\
      znth 0 (gm_w g') i = (mumax - mumin) / 2 * znth 0 (gm_wref g) i.
Proof. exact (update_mu_final fuel p g mumin mumax). Qed.
Print Assumptions C18_mu.
Example C18_ex : exists g, init_gauss_legendre_mu (N := RNum) 2 (mkPrec (N := RNum) 1 (-1) 1 POLY) = Ok g.
Proof. exact init_mu_one. Qed.

(** ** C19 *)
Theorem C19_set_precision (N : Num) (p : precision N) (n : Z) (mn mx : T N) (s : istr) (dflt p' : precision N) (c : bool) :
  set_precision p n mn mx s dflt = (p', c) ->
  (c = true <-> ((0 < n)%Z \/ nle N mn mx = true \/ s = s_poly \/ s = s_lin)) /\
  (c = false -> p' = dflt) /\
  (c = true ->
     pr_n p' = (if (0 <? n)%Z then n else pr_n p) /\
     pr_min p' = (if nle N mn mx then mn else pr_min p) /\
     pr_max p' = (if nle N mn mx then mx else pr_max p) /\
     pr_interpol p' = match s with s_poly => POLY | s_lin => LIN | s_other => pr_interpol p end) /\
  set_precision p' n mn mx s dflt = (p', c).
Proof. exact (set_precision_effect p n mn mx s dflt p' c). Qed.
Print Assumptions C19_set_precision.
Example C19_ex lm : set_precision (N := FNum lm) (mkPrec (N := FNum lm) 600 0.5%float 10%float POLY) 0 1%float 2%float s_other
    (mkPrec (N := FNum lm) 500 0%float 1%float LIN)
  = (mkPrec (N := FNum lm) 600 1%float 2%float POLY, true).
Proof. reflexivity. Qed.

(** ** C61 *)
Theorem C61_lin_value (K P : list R) (k : R) : length P = length K -> (2 <= zlen K < 2 ^ 62)%Z -> increasing K ->
  at_ K 0 <= k < at_ K (length K - 1) ->
  find_pk (N := RNum) (mk_table (N := RNum) K P) [k] LIN = Ok [plin K P k].
Proof. exact (lin_value K P k). Qed.
Print Assumptions C61_lin_value.
Theorem C61_poly_value (K P : list R) (k : R) : length P = length K -> (2 <= zlen K < 2 ^ 62)%Z -> increasing K ->
  at_ K 0 <= k <= at_ K (length K - 1) ->
  exists i (p : poly), (i < length K)%nat /\ at_ K i <= k /\ ((S i < length K)%nat -> k < at_ K (S i)) /\
    let a := (i - 2)%nat in let b := Nat.min (i + 2) (length K - 1) in
    (length p <= b - a + 1)%nat /\
    (forall j, (a <= j <= b)%nat -> peval p (at_ K j) = at_ P j) /\
    find_pk (N := RNum) (mk_table (N := RNum) K P) [k] POLY = Ok [peval p k].
Proof. exact (poly_value K P k). Qed.
Print Assumptions C61_poly_value.
Example C61_ex : find_pk (N := RNum) (mk_table (N := RNum) [1; 2; 4] [3; 5; 1]) [3] LIN = Ok [3].
Proof.
  rewrite C61_lin_value; try reflexivity; try (cbn; lia); try (cbn; lra).
  - repeat f_equal. cbn. destruct (Rle_dec 3 2); [lra|]. destruct (Rle_dec 3 4); [field|lra].
  - intros [|[|[|i]]] [|[|[|j]]]; cbn; intros; try lia; lra.
Qed.
