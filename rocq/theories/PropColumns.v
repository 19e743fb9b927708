(** PropColumns: what the columns of the terms contain.  Notions: SpecColumns.v (A terms, contents of a row), SpecIntegrals.v and
    SpecBispectrum.v (integrands), SpecThreads.v ([computes]: the arrays of a call of run_terms).  Exact arithmetic. *)
From Coq Require Import ZArith Reals Lra Lia List Bool String.
From Verif Require Import Base Num BaseFacts Common Kernels Gamma2 Integrals Registry Threads Spec SpecPT SpecIntegrals SpecLoops SpecScratch SpecBispectrum SpecBisp2 SpecThreads SpecDefined SpecColumns
  ProofKernels ProofThreads8 ProofDefined12 ProofColumns ProofColumns2 ProofColumns3 ProofColumns4.
Import ListNotations.
Local Open Scope R_scope.

(** ** C84: the A terms *)
(** The 1-loop term (C28) and the 2-loop term are the same five combinations of weights and bispectra, with the tree-level bispectrum
    of perturbation theory there ... *)
Theorem C84_tree wA wtA c k x mu pk pq pkq : (c < 5)%nat ->
  let q := qvec k x mu in let kq := kqvec k x mu in let mk := vopp (kvec k) in
  A_tree wA wtA c k x mu pk pq pkq =
  A_five (A_part wA wtA (fun b d => tree_bispectrum true b d q kq mk pq pkq pk) (fun b d => tree_bispectrum true b d kq q mk pkq pq pk)) c.
Proof. exact (five_tree wA wtA c k x mu pk pq pkq). Qed.
Print Assumptions C84_tree.
(** ... the regularised bispectrum in the first part ([outputs_I], C56) ... *)
Theorem C84_first_part pkl im uv g1 gd gt P S G1 G2 (g : glq RNum) (m : glmu RNum) k : (forall k, find1 (N := RNum) pkl im k = Ok (P k)) ->
  (forall k, sigmad2_1 (N := RNum) pkl uv k = Ok (S k)) -> q_ok g1 -> propagator_is g1 G1 -> one_loop_is gd gt G2 ->
  q_table P g -> mu_rule m -> 0 < k ->
  exists g' m', calc_pk_A_2loop_I (N := RNum) pkl im uv g m g1 gd gt k =
    Ok (comps 12 (fun c => k * k * k / (2 * PI * PI) *
         itquad true (xs_of g k) (fun i => at_ (xs_of g k) i * at_ (gq_w g) i) (gm_muref m) (gm_wref m)
           (fun i mu => A_first P S G1 G2 k (at_ (xs_of g k) i) mu c)), g', m').
Proof. exact (calc_A_I_val pkl im uv g1 gd gt P S G1 G2 g m k). Qed.
Print Assumptions C84_first_part.
(** ... and the loop terms B_222 and B_321 in the second: integrand at a point of the unit cube. *)
Theorem C84_second_part pkl im uv P S lmin lmax k xx0 xx1 xx2 xx3 xx4 : (forall k, find1 (N := RNum) pkl im k = Ok (P k)) ->
  (forall k, sigmad2_1 (N := RNum) pkl uv k = Ok (S k)) -> 0 < k -> 0 <= xx1 <= 1 ->
  kernel_A_tA_2loop_II_III (N := RNum) pkl im uv lmin lmax k [xx0; xx1; xx2; xx3; xx4] =
    Ok (comps 12 (fun c => A_second P S k (A_outer lmin lmax xx0 xx1) (A_loop lmin lmax xx2 xx3 xx4) c * A_volume lmin lmax xx2 xx3)).
Proof. exact (A_second_kernel pkl im uv P S lmin lmax k xx0 xx1 xx2 xx3 xx4). Qed.
Print Assumptions C84_second_part.
(** Both tables meet the hypotheses. *)
Example C84_ex : exists P S G1 G2 g1 gd gt g m, (forall k, find1 (N := RNum) pk_three POLY k = Ok (P k)) /\ (forall k, sigmad2_1 (N := RNum) pk_three 1 k = Ok (S k)) /\
  q_ok g1 /\ propagator_is g1 G1 /\ one_loop_is gd gt G2 /\ q_table P g /\ mu_rule m.
Proof. exact A_setting. Qed.

(** ** C85: every column of every run *)
Theorem C85_contents fuel (st : settings RNum) suave1 suave12 d pkl dt ptt ks ps ss vals : two_points pkl -> (d = D_B -> two_points dt /\ two_points ptt) ->
  regular_run st pkl d -> computes fuel st suave1 suave12 d pkl dt ptt ks ps ss vals ->
  forall ik, (0 <= ik < zlen ks)%Z -> 0 < k_ (N := RNum) ks ik -> contents fuel st suave1 suave12 pkl dt ptt (k_ (N := RNum) ks ik) d (vals ik).
Proof. exact (run_contents fuel st suave1 suave12 d pkl dt ptt ks ps ss vals). Qed.
Print Assumptions C85_contents.
(** The 1-loop propagators are those of perturbation theory within the accuracy of the expansions of C30. *)
Theorem C85_propagator P (g : glq RNum) k t : 0 < k -> (forall q, In q (gq_q g) -> 0 < q) ->
  Rabs (single_sum P g k (prop_kernel t) - single_sum P g k (prop_exact t)) <=
  k ^ 3 / (2 * PI ^ 2) * rsum (List.length (gq_q g)) (fun i => Rabs (at_ (gq_w g) i * P (at_ (gq_q g) i)) * prop_tolerance (at_ (gq_q g) i / k)).
Proof. exact (single_close P g k t). Qed.
Print Assumptions C85_propagator.
Example C85_ex d : two_points pk_three /\ regular_run st_ex pk_three d /\ (forall x, In x (q_tables_of d) -> exists g, new_q 2 st_ex pk_three x = Ok g) /\
  (forall k, In k ks_ex -> 0 < k) /\ exists ps ss vals, computes 2 st_ex suave1_ex suave12_ex d pk_three pk_three pk_three ks_ex ps ss vals.
Proof. exact (columns_ex d). Qed.
