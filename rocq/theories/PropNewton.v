(** PropNewton: the Gauss-Legendre rules, for every number of nodes (C93). *)
From Coq Require Import ZArith Reals Lra Lia List String.
From Coquelicot Require Import Coquelicot.
From Verif Require Import Base Num BaseFacts Common Integrals Registry Threads Spec SpecQuad SpecThreads SpecScratch SpecDefined LegendreSpec ProofThreads8 ProofNewton5 ProofNewton6 ProofNewton7 ProofNewton8.
Import ListNotations.
Local Open Scope R_scope.

(** Every rule is made: six Newton steps, and the seventh look at the tolerance, are enough for every number of nodes. *)
Theorem C93_ends fuel xmin xmax (x w : list R) n : (1 <= n < 2 ^ 62)%Z -> (7 <= fuel)%nat -> zlen x = n -> zlen w = n ->
  exists x' w', nodes_weights_gauss_legendre (N := RNum) fuel xmin xmax x w n = Ok (x', w').
Proof. exact (gl_ends fuel xmin xmax x w n). Qed.
Print Assumptions C93_ends.

(** Nothing on the way divides by zero: computed with numbers which may have no value, the rule has only values. *)
Theorem C93_defined fuel xmin xmax (x w : list R) n : (1 <= n < 2 ^ 62)%Z -> (7 <= fuel)%nat -> zlen x = n -> zlen w = n ->
  exists x' w', nodes_weights_gauss_legendre (N := ONum) fuel (Some xmin) (Some xmax) (os x) (os w) n = Ok (os x', os w').
Proof. exact (gl_defined fuel xmin xmax x w n). Qed.
Print Assumptions C93_defined.

(** The nodes are the roots of the Legendre polynomial, each of them once and in order, and the weights those of C17. *)
Theorem C93_rule fuel (xmin xmax : R) (x w : list R) n (P : poly) : (1 <= n < 2 ^ 62)%Z -> zlen x = n -> zlen w = n -> is_legendre (Z.to_nat n) P ->
  forall x' w', nodes_weights_gauss_legendre (N := RNum) fuel xmin xmax x w n = Ok (x', w') ->
  exists zs ds, List.length zs = Z.to_nat n /\ List.length ds = Z.to_nat n /\ List.length x' = Z.to_nat n /\ List.length w' = Z.to_nat n /\ increasing zs /\
    forall i, (i < Z.to_nat n)%nat ->
      -1 < at_ zs i < 1 /\ peval P (at_ zs i) = 0 /\ is_derive (peval P) (at_ zs i) (at_ ds i) /\
      let h := (xmax - xmin) / 2 in
      let v := (xmax - xmin) / ((1 - at_ zs i * at_ zs i) * at_ ds i * at_ ds i) in
      let m := IZR n + 1 / 2 in
      Rabs (at_ x' i - ((xmax + xmin) / 2 + h * at_ zs i)) <= Rabs h * (2 / 9 * (3 / 10 ^ 14)) /\
      Rabs (at_ x' i - ((xmax + xmin) / 2 + h * at_ zs i)) <= Rabs h * (88 / 81 * m ^ 2 * (3 / 10 ^ 14) ^ 2) /\
      Rabs (at_ w' i - v) <= 2 * m ^ 2 * (3 / 10 ^ 14) * Rabs v.
Proof. exact (gl_rule fuel xmin xmax x w n P). Qed.
Print Assumptions C93_rule.

Theorem C93_order fuel (xmin xmax : R) (x w : list R) n : (1 <= n < 2 ^ 62)%Z -> zlen x = n -> zlen w = n -> xmin < xmax ->
  forall x' w', nodes_weights_gauss_legendre (N := RNum) fuel xmin xmax x w n = Ok (x', w') ->
  List.length x' = Z.to_nat n /\ List.length w' = Z.to_nat n /\ increasing x' /\
  forall i, (i < Z.to_nat n)%nat -> xmin < at_ x' i < xmax /\ 0 < at_ w' i.
Proof. exact (gl_order fuel xmin xmax x w n). Qed.
Print Assumptions C93_order.

(** The quadrature of a function close to a polynomial of degree below 2 n, in terms of how close and how steep it is. *)
Theorem C93_quadrature fuel (xmin xmax : R) (x w : list R) n (f : R -> R) (q : poly) (eta M lam I : R) :
  (1 <= n < 2 ^ 62)%Z -> zlen x = n -> zlen w = n -> xmin < xmax -> (List.length q <= 2 * Z.to_nat n)%nat ->
  (forall t, xmin <= t <= xmax -> Rabs (f t - peval q t) <= eta) ->
  (forall t, xmin <= t <= xmax -> Rabs (f t) <= M) ->
  (forall s t, xmin <= s <= xmax -> xmin <= t <= xmax -> Rabs (f s - f t) <= lam * Rabs (s - t)) ->
  is_RInt f xmin xmax I ->
  forall x' w', nodes_weights_gauss_legendre (N := RNum) fuel xmin xmax x w n = Ok (x', w') ->
  Rabs (rsum (List.length x') (fun i => at_ w' i * f (at_ x' i)) - I) <=
    (xmax - xmin) * (2 * eta + 2 * (IZR n + 1 / 2) ^ 2 * (3 / 10 ^ 14) * M + lam * ((xmax - xmin) / 9 * (3 / 10 ^ 14))).
Proof. exact (gl_quadrature fuel xmin xmax x w n f q eta M lam I). Qed.
Print Assumptions C93_quadrature.

(** A rule of any number of nodes, and a function which meets the bounds *)
Example C93_ex n : (1 <= n < 2 ^ 62)%Z -> exists x' w', nodes_weights_gauss_legendre (N := RNum) 7 0 1 (repeat 0 (Z.to_nat n)) (repeat 0 (Z.to_nat n)) n = Ok (x', w').
Proof. intros Hn. apply C93_ends; [exact Hn|lia|apply zlen_repeat; lia|apply zlen_repeat; lia]. Qed.
Example C93_function_ex : let f t := t * t in let q := [0; 0; 1] in (List.length q <= 2 * 2)%nat /\
  (forall t, 0 <= t <= 1 -> Rabs (f t - peval q t) <= 0) /\ (forall t, 0 <= t <= 1 -> Rabs (f t) <= 1) /\
  (forall s t, 0 <= s <= 1 -> 0 <= t <= 1 -> Rabs (f s - f t) <= 2 * Rabs (s - t)) /\ is_RInt f 0 1 (1 / 3).
Proof. exact square_ex. Qed.

(** * C94: every run ends and leaves its columns *)
(** Whatever the numbers of nodes, the ranges, the wavenumbers, the number of threads and the interleaving. *)
Theorem C94_run fuel (st : settings RNum) suave1 suave12 d h pkl dt ptt ks parts : (7 <= fuel)%nat -> all_cubic st -> suave_ok suave1 suave12 -> lin_table pkl ->
  (forall x, In x (tables_of d) -> rule_ok (s_prec st x)) ->
  machine h pkl ks (out_cells (cells_of d) (zlen ks)) (tables_of d) (List.length parts) -> distributes parts (zlen ks) ->
  (d = D_B -> lin_table dt /\ lin_table ptt /\ parts <> [] /\ h (Glob "pk_dt") = Some (VPk dt) /\ h (Glob "pk_tt") = Some (VPk ptt) /\ forall l, statics_B l -> h l <> None) ->
  exists ps ss vals, computes fuel st suave1 suave12 d pkl dt ptt ks ps ss vals /\
    completes (call_of fuel st suave1 suave12 d (zlen ks) parts) h (shared_by d)
      (fun h' => leaves h h' (cells_of d) ps ss vals (zlen ks) (tables_of d) (List.length parts) (shared_by d)).
Proof. exact (run_total fuel st suave1 suave12 d h pkl dt ptt ks parts). Qed.
Print Assumptions C94_run.
Theorem C94_tables fuel (p : precision RNum) pkl : (1 <= pr_n p < 2 ^ 62)%Z -> (7 <= fuel)%nat ->
  (pr_interpol p = POLY -> lin_table pkl -> exists g, init_gauss_legendre_q (N := RNum) fuel p pkl = Ok g) /\ exists m, init_gauss_legendre_mu (N := RNum) fuel p = Ok m.
Proof. exact (fun Hn Hf => conj (init_q_total fuel p pkl Hn Hf) (init_mu_total fuel p Hn Hf)). Qed.
Print Assumptions C94_tables.
Example C94_ex n d : (1 <= n < 2 ^ 62)%Z -> all_cubic (st_n n) /\ suave_ok (N := RNum) suave1_ex suave12_ex /\ lin_table pk_ex /\ (forall x, rule_ok (s_prec (st_n n) x)) /\
  machine h_ex pk_ex ks_ex (out_cells (cells_of d) (zlen ks_ex)) (tables_of d) 2 /\ distributes [[0; 1]; [2]]%Z (zlen ks_ex) /\
  (d = D_B -> h_ex (Glob "pk_dt") = Some (VPk pk_ex) /\ h_ex (Glob "pk_tt") = Some (VPk pk_ex) /\ forall l, statics_B l -> h_ex l <> None).
Proof. exact (total_ex n d). Qed.
