(** SpecLoops: the tables and lookups under which the mode-coupling integrals are run, and the model's
    functions by the name of the term they compute. *)
From Coq Require Import Reals List.
From Verif Require Import Base Num BaseFacts Common Kernels Gamma2 Integrals Spec SpecPT SpecIntegrals.
Import ListNotations.
Local Open Scope R_scope.

(** Lengths of an angular table; the reference rule is left alone. *)
Definition mu_ok {N} (m : glmu N) : Prop :=
  (0 <= gm_nmu m)%Z /\ zlen (gm_muref m) = gm_nmu m /\ zlen (gm_wref m) = gm_nmu m /\ zlen (gm_mu m) = gm_nmu m /\ zlen (gm_w m) = gm_nmu m.
Definition same_rule {N} (m m' : glmu N) : Prop :=
  mu_ok m' /\ gm_nmu m' = gm_nmu m /\ gm_muref m' = gm_muref m /\ gm_wref m' = gm_wref m.
(** A list of nc components. *)
Definition comps {A} (nc : nat) (f : nat -> A) : list A := map f (seq 0 nc).
(** Ends of the nodes in units of k. *)
Definition xmin_of (g : glq RNum) : R := znth 0 (gq_x g) 0.
Definition xmax_of (g : glq RNum) : R := znth 0 (gq_x g) (gq_nq g - 1).
Definition nodes_in (g : glq RNum) : Prop :=
  0 < xmin_of g /\ forall i, (0 <= i < gq_nq g)%Z -> xmin_of g <= znth 0 (gq_x g) i <= xmax_of g.
(** Tables as the integrals meet them: the nodes q are positive, the first is the smallest and the last
    the largest, and the power spectrum at the nodes is P. *)
Definition q_table (P : R -> R) (g : glq RNum) : Prop :=
  (1 <= gq_nq g < 2 ^ 62)%Z /\ zlen (gq_q g) = gq_nq g /\ zlen (gq_x g) = gq_nq g /\ zlen (gq_w g) = gq_nq g /\ zlen (gq_pk g) = gq_nq g /\
  0 < znth 0 (gq_q g) 0 /\
  forall i, (0 <= i < gq_nq g)%Z -> znth 0 (gq_q g) 0 <= znth 0 (gq_q g) i <= znth 0 (gq_q g) (gq_nq g - 1) /\
    znth 0 (gq_pk g) i = P (znth 0 (gq_q g) i).
(** The reference nodes lie in [-1,1]. *)
Definition mu_rule (m : glmu RNum) : Prop := mu_ok m /\ forall u, In u (gm_muref m) -> -1 <= u <= 1.
(** The nodes in units of k. *)
Definition xs_of (g : glq RNum) (k : R) : list R := map (fun q => q / k) (gq_q g).
(** Interpolation of the table [pkl] defines P on the positive wavenumbers. *)
Definition lookup_is (pkl : Pk RNum) (im : interpol) (P : R -> R) : Prop := forall k, 0 < k -> find1 pkl im k = Ok (P k).
(** The 1-loop second-order integrals on the tables of gamma2d and gamma2t define G. *)
Definition one_loop_is (gd gt : glq RNum) (G : bool -> R -> R -> R -> R) : Prop :=
  forall k1 k2 k3, gamma2_1loop gd DELTA k1 k2 k3 = Ok (G false k1 k2 k3) /\ gamma2_1loop gt THETA k1 k2 k3 = Ok (G true k1 k2 k3).
(** The function of the code for each bias term. *)
Definition bias_fun (t : bias_term) : bias_kernel (N := RNum) :=
  match t with BiasB2 => kernel_b2 | BiasBS2 => kernel_bs2 | BiasB22 => kernel_b22 | BiasB2S2 => kernel_b2s2 | BiasBS22 => kernel_bs22
  | BiasSigma3 => kernel_sigma3sq end.
(** The weights of calc_pkcorr_from_A_2loop_I.c. *)
Definition wA (x mu : R) (n : nat) : R := nth n (fst (kernel_projection_A_tA (N := RNum) x mu)) 0.
Definition wtA (x mu : R) (n : nat) : R := nth n (snd (kernel_projection_A_tA (N := RNum) x mu)) 0.
(** The power spectrum defined by a table: the value of a lookup. *)
Definition lookup_of (pkl : Pk RNum) (im : interpol) (k : R) : R := match find1 pkl im k with Ok p => p | Err _ => 0 end.
(** The reference rule moved to [lo,hi]. *)
Definition moved_to (lo hi : R) (m m' : glmu RNum) : Prop :=
  same_rule m m' /\ forall j, (0 <= j < gm_nmu m)%Z ->
    znth 0 (gm_mu m') j = lo + (hi - lo) / 2 * (znth 0 (gm_muref m) j + 1) /\ znth 0 (gm_w m') j = (hi - lo) / 2 * znth 0 (gm_wref m) j.
