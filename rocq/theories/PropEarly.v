(** PropEarly: C117, pk_interp of the A and B terms between set_terms and run_terms. *)
From Coq Require Import Reals ZArith List String Lia Lra Bool.
From Verif Require Import Base Num Common Registry PyTerms PyEarly Spec SpecPy ProofPy ProofPy4 ProofPy7 ProofPy8 ProofEarly.
Import ListNotations.
Local Open Scope R_scope.

(** After set_terms all terms are zero, and so is pk_interp at every wavenumber, for A2Loop, B1Loop and B2Loop. *)
Theorem C117_zero cl (c : columns RNum) (K : list R) (k mu2 beta D : R) : cl = CA2 \/ cl = CB1 \/ cl = CB2 -> (forall x, In x (map fst c) -> In x (fields cl)) -> K <> [] -> increasing K ->
  exists c', zeros (N := RNum) cl c K = (c', Done) /\ pk_interp_now (N := RNum) cl (shaped_by_set_terms cl) c' k mu2 beta D 0 0 = Ok 0.
Proof. intros H. replace (shaped_by_set_terms cl) with true by (destruct H as [-> | [-> | ->]]; reflexivity). apply early_zero. destruct H as [-> | [-> | ->]]; reflexivity. Qed.
Print Assumptions C117_zero.
(** For A1Loop it raises, in every arithmetic, *)
Theorem C117_A1 N (c c' : columns N) K k mu2 beta D left right : (forall x, In x (map fst c) -> In x (fields CA1)) -> zeros CA1 c K = (c', Done) -> K <> [] ->
  pk_interp_now CA1 (shaped_by_set_terms CA1) c' k mu2 beta D left right = Err (PyExc ValueError).
Proof. intros Hc E HK. apply (early_raises CA1 c' (List.length K)); [reflexivity|apply (zeros_complete CA1 c c' K Hc E)|destruct K; [congruence|cbn; lia]]. Qed.
Print Assumptions C117_A1.
(** so the classes differ. *)
Theorem C117_refuted : ~ (forall cl (K : list R) (k mu2 beta D : R), one_dim cl = false -> K <> [] -> increasing K ->
  exists c', zeros (N := RNum) cl [] K = (c', Done) /\ pk_interp_now (N := RNum) cl (shaped_by_set_terms cl) c' k mu2 beta D 0 0 = Ok 0).
Proof.
  intros H. destruct (H CA1 [1; 2] 1 1 1 1 eq_refl ltac:(discriminate) ltac:(intros [|[|i]] [|[|j]] Hij; cbn in *; try lia; lra)) as (c' & E & V).
  rewrite (C117_A1 RNum [] c' [1; 2] 1 1 1 1 0 0 ltac:(intros x []) E ltac:(discriminate)) in V. discriminate.
Qed.
Print Assumptions C117_refuted.
(** After run_terms it combines the interpolated components for A1Loop as for the other three. *)
Theorem C117_after cl (c : columns RNum) n (k mu2 beta D left right : R) : one_dim cl = false -> complete cl c n -> (1 <= n)%nat -> (forall kk, getitem c "k" = Ok kk -> increasing kk) ->
  let '(m, powers, l, r) := match cl with CA1 | CA2 => (5%nat, A_powers, left, right) | _ => (9%nat, B_powers, 0, 0) end in
  exists f : nat -> R -> R, (forall j, (j < m)%nat -> interpolates (entry c "k") (fun i => D ^ 4 * entry c "pk" (i * m + j)) n l r (f j)) /\
    pk_interp_now (N := RNum) cl (shaped_by_run_terms cl (shaped_by_set_terms cl)) c k mu2 beta D left right = Ok (combine_components powers mu2 beta (fun j => f j k)).
Proof.
  intros H HC Hn HI. destruct cl; try discriminate.
  - exact (pk_interp_A_val c n k mu2 beta D left right CA1 (or_introl eq_refl) HC Hn HI).
  - exact (pk_interp_A_val c n k mu2 beta D left right CA2 (or_intror eq_refl) HC Hn HI).
  - exact (pk_interp_B_val c n k mu2 beta D left right CB1 (or_introl eq_refl) HC Hn HI).
  - exact (pk_interp_B_val c n k mu2 beta D left right CB2 (or_intror eq_refl) HC Hn HI).
Qed.
Print Assumptions C117_after.
Example C117_ex : exists c', zeros (N := RNum) CB2 [] [1; 2; 5] = (c', Done) /\ pk_interp_now (N := RNum) CB2 true c' 3 (1 / 2) 1 1 0 0 = Ok 0.
Proof. apply (C117_zero CB2 [] [1; 2; 5]); [tauto|intros x []|discriminate|]. intros [|[|[|i]]] [|[|[|j]]] Hij; cbn in *; try lia; lra. Qed.
