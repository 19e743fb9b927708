(** PropPositive: spectra of one field with itself are not negative (C79), and the spectra of two fields satisfy the
    inequality of Cauchy and Schwarz (C80).  Notions: SpecPositive.v; [computes] of SpecThreads.v: the arrays of a call of
    run_terms_*; [assembled] of SpecSym.v: pk() of the Python class on these arrays. *)
From Coq Require Import ZArith Lia List Bool Reals Lra String Floats.
From Verif Require Import Base Num BaseFacts Common Kernels Gamma2 Integrals Registry Threads PyTerms Spec SpecThreads SpecScale SpecSym SpecPositive SpecLoops
  ProofGL ProofCommon2 ProofThreads7 ProofThreads8 ProofScratch3 ProofPositive ProofPositive2.
Import ListNotations.
Local Open Scope R_scope.
Local Open Scope string_scope.

(** * C79: P_aa is not negative *)
(** For every growth factor, every damping (None: that of the run), every tables, wherever the lookups are not negative. *)
Theorem C79_1loop fuel st suave1 suave12 pkl dt ptt a ks ps ss vals D sg out : positive_setup st pkl -> ascending ks -> Forall (fun k => 0 < k) ks ->
  computes fuel st suave1 suave12 (D_1loop a a) pkl dt ptt ks ps ss vals ->
  assembled (D_1loop a a) (columns_of (D_1loop a a) ks ps ss vals) D sg = Ok out -> nonneg out.
Proof. exact (fun H => run_nonneg fuel st pkl dt ptt suave1 suave12 H a _ ks ps ss vals D sg out (or_introl eq_refl)). Qed.
Print Assumptions C79_1loop.
Theorem C79_2loop fuel st suave1 suave12 pkl dt ptt a ks ps ss vals D sg out : positive_setup st pkl -> sizes st q_tables_2loop -> suave_nonneg suave1 ->
  ascending ks -> Forall (fun k => 0 < k) ks ->
  computes fuel st suave1 suave12 (D_2loop a a) pkl dt ptt ks ps ss vals ->
  assembled (D_2loop a a) (columns_of (D_2loop a a) ks ps ss vals) D sg = Ok out -> nonneg out.
Proof. exact (fun H Hn Hs => run_nonneg fuel st pkl dt ptt suave1 suave12 H a _ ks ps ss vals D sg out (or_intror (conj eq_refl (conj Hn Hs)))). Qed.
Print Assumptions C79_2loop.
(** The lookups are not negative with linear interpolation (and extrapolation by power laws) of a table without negative values ... *)
Theorem C79_lookup_lin (K P : list R) : List.length P = List.length K -> (1 <= zlen K < 2 ^ 62)%Z -> increasing K -> (forall x, In x K -> 0 < x) -> nonneg P ->
  nonneg_lookup (mk_table (N := RNum) K P) LIN.
Proof. exact (lin_nonneg K P). Qed.
Print Assumptions C79_lookup_lin.
(** ... but with the polynomials, the default, they can be, in real numbers and in doubles; *)
Theorem C79_lookup_poly_refuted : find_pk (N := RNum) (mk_table (N := RNum) [1; 2; 3] [1; 1; 100]) [3 / 2] POLY = Ok [- (91 / 8)] /\
  forall lm, find_pk (N := FNum lm) (mk_table (N := FNum lm) [1; 2; 3]%float [1; 1; 100]%float) [1.5%float] POLY = Ok [(-11.375)%float].
Proof. exact (conj poly3 (fun lm => eq_refl)). Qed.
Print Assumptions C79_lookup_poly_refuted.
(** and then some growth factor makes the spectrum negative. *)
Theorem C79_poly fuel (st : settings RNum) suave1 suave12 pkl dt ptt a b ks ps ss vals i : (i < List.length ks)%nat ->
  computes fuel st suave1 suave12 (D_1loop a b) pkl dt ptt ks ps ss vals -> at_ ps i < 0 ->
  exists D out, 0 < D /\ assembled (D_1loop a b) (columns_of (D_1loop a b) ks ps ss vals) D None = Ok out /\ at_ out i < 0.
Proof. exact (negative_run fuel st suave1 suave12 pkl dt ptt a b ks ps ss vals i). Qed.
Print Assumptions C79_poly.
(** Such a run: the table 1, 1, 100 at k = 1, 2, 3. *)
Theorem C79_poly_refuted : exists a ps ss vals D out, computes 2 st_ex suave1_ex suave12_ex (D_1loop a a) pk3 pk3 pk3 [3 / 2] ps ss vals /\ 0 < D /\
  assembled (D_1loop a a) (columns_of (D_1loop a a) [3 / 2] ps ss vals) D None = Ok out /\ at_ out 0 < 0.
Proof. exact negative_ex. Qed.
Print Assumptions C79_poly_refuted.
(** The weights of the Gauss-Legendre rule are positive, for every number of nodes and every interval. *)
Theorem C79_weights fuel (xmin xmax : R) (x w x' w' : list R) n : (1 <= n < 2 ^ 62)%Z -> zlen x = n -> zlen w = n -> xmin < xmax ->
  nodes_weights_gauss_legendre (N := RNum) fuel xmin xmax x w n = Ok (x', w') -> Forall (fun v => 0 < v) w'.
Proof. exact (fun Hn Hx Hw HX => gl_weights fuel xmin xmax x w n Hn Hx Hw HX x' w'). Qed.
Print Assumptions C79_weights.

(** * C80: (P_ab)^2 <= P_aa P_bb *)
(** [gram x y z]: x and z are not negative and y^2 <= x z. *)
Theorem C80_1loop fuel st suave1 suave12 pkl dt ptt a b ks ps ss va vab vb D sg oa oab ob : positive_setup st pkl -> ascending ks -> Forall (fun k => 0 < k) ks ->
  computes fuel st suave1 suave12 (D_1loop a a) pkl dt ptt ks ps ss va -> computes fuel st suave1 suave12 (D_1loop a b) pkl dt ptt ks ps ss vab ->
  computes fuel st suave1 suave12 (D_1loop b b) pkl dt ptt ks ps ss vb ->
  assembled (D_1loop a a) (columns_of (D_1loop a a) ks ps ss va) D sg = Ok oa -> assembled (D_1loop a b) (columns_of (D_1loop a b) ks ps ss vab) D sg = Ok oab ->
  assembled (D_1loop b b) (columns_of (D_1loop b b) ks ps ss vb) D sg = Ok ob ->
  forall i, (i < List.length ks)%nat -> gram (at_ oa i) (at_ oab i) (at_ ob i).
Proof. exact (fun H => runs_1loop fuel st pkl dt ptt suave1 suave12 H a b ks ps ss va vab vb D sg oa oab ob). Qed.
Print Assumptions C80_1loop.
(** At 2 loops: whenever the integrals returned by Suave, the eighth value of each row, do. *)
Theorem C80_2loop fuel st suave1 suave12 pkl dt ptt a b ks ps ss va vab vb D sg oa oab ob : positive_setup st pkl -> sizes st q_tables_2loop -> ascending ks -> Forall (fun k => 0 < k) ks ->
  computes fuel st suave1 suave12 (D_2loop a a) pkl dt ptt ks ps ss va -> computes fuel st suave1 suave12 (D_2loop a b) pkl dt ptt ks ps ss vab ->
  computes fuel st suave1 suave12 (D_2loop b b) pkl dt ptt ks ps ss vb ->
  assembled (D_2loop a a) (columns_of (D_2loop a a) ks ps ss va) D sg = Ok oa -> assembled (D_2loop a b) (columns_of (D_2loop a b) ks ps ss vab) D sg = Ok oab ->
  assembled (D_2loop b b) (columns_of (D_2loop b b) ks ps ss vb) D sg = Ok ob ->
  (forall i, (i < List.length ks)%nat -> gram (at_ (va (Z.of_nat i)) 7) (at_ (vab (Z.of_nat i)) 7) (at_ (vb (Z.of_nat i)) 7)) ->
  forall i, (i < List.length ks)%nat -> gram (at_ oa i) (at_ oab i) (at_ ob i).
Proof. exact (fun H => runs_2loop fuel st pkl dt ptt suave1 suave12 H a b ks ps ss va vab vb D sg oa oab ob). Qed.
Print Assumptions C80_2loop.

(** * A run to which all this applies *)
Example C79_ex a b : positive_setup st_ex pk_ex /\ sizes st_ex q_tables_2loop /\ suave_nonneg suave1_ex /\ ascending ks_ex /\ Forall (fun k => 0 < k) ks_ex /\
  (exists ps ss vals out, computes 2 st_ex suave1_ex suave12_ex (D_1loop a b) pk_ex pk_ex pk_ex ks_ex ps ss vals /\ assembled (D_1loop a b) (columns_of (D_1loop a b) ks_ex ps ss vals) (1 / 2) None = Ok out) /\
  (exists ps ss vals out, computes 2 st_ex suave1_ex suave12_ex (D_2loop a b) pk_ex pk_ex pk_ex ks_ex ps ss vals /\ assembled (D_2loop a b) (columns_of (D_2loop a b) ks_ex ps ss vals) (1 / 2) None = Ok out).
Proof. exact (setup_all a b). Qed.
Example C80_ex a b : exists ps ss va vab vb oa oab ob, let c x y := computes 2 st_ex suave1_ex suave12_ex (D_2loop x y) pk_ex pk_ex pk_ex ks_ex ps ss in
  let p x y v := assembled (D_2loop x y) (columns_of (D_2loop x y) ks_ex ps ss v) (1 / 2) None in
  c a a va /\ c a b vab /\ c b b vb /\ p a a va = Ok oa /\ p a b vab = Ok oab /\ p b b vb = Ok ob /\
  forall i, (i < 3)%nat -> gram (at_ (va (Z.of_nat i)) 7) (at_ (vab (Z.of_nat i)) 7) (at_ (vb (Z.of_nat i)) 7).
Proof. exact (gram_ex a b). Qed.
Example C80_gram_ex : gram 4 (-2) 1 /\ ~ gram 4 3 1.
Proof. unfold gram. lra. Qed.
