(** PropIntegrals: properties of the mode-coupling integrals of src/calc_pkcorr_from_gamma2.c,
    _bias_1loop.c, _A_1loop.c and _B.c, computed exactly.  Model: Integrals.v.  Notions: SpecIntegrals.v
    (momenta, integrands), SpecLoops.v (tables).  q_table, mu_rule and lookup_is say what tables and lookups
    the functions are run with; C26_tables, C26_mu_table and C26_lookup show that the initialisation makes them. *)
From Coq Require Import Reals Lra Lia List.
From Coquelicot Require Import Coquelicot.
From Verif Require Import Base Num BaseFacts Common Kernels Gamma2 Integrals Spec SpecPT SpecIntegrals SpecLoops SpecTable ProofKernels ProofGL ProofIntegrals ProofIntegrals2 ProofIntegrals8 ProofIntegrals9 ProofIntegrals10.
Import ListNotations.
Local Open Scope R_scope.

(** ** C24: the tree-level second order kernel of the three side lengths is the kernel of the momenta. *)
Theorem C24_tree a p q : p <> vzero -> q <> vzero ->
  gamma2_tree (N := RNum) a (norm p) (norm q) (norm (vplus p q)) = pt2 (is_theta a) p q.
Proof. exact (gamma2_tree_triangle a p q). Qed.
Print Assumptions C24_tree.
Example C24_tree_ex : ((1, 0, 0) : vector) <> vzero.
Proof. intros E. injection E. lra. Qed.

(** ** C26: the angular range is the set of allowed angles. *)
Theorem C26_range half (g : glq RNum) (m : glmu RNum) (x : R) : mu_rule m -> (1 <= gq_nq g < 2 ^ 62)%Z -> zlen (gq_x g) = gq_nq g ->
  0 < xmin_of g -> xmin_of g <= x <= xmax_of g ->
  (set_mu_range half g m x = Ok None /\
     forall mu mu', allowed half (xmin_of g) (xmax_of g) x mu -> allowed half (xmin_of g) (xmax_of g) x mu' -> mu = mu') \/
  (exists m' lo hi, set_mu_range half g m x = Ok (Some m') /\ lo <= hi /\ moved_to lo hi m m' /\
     (forall mu, allowed half (xmin_of g) (xmax_of g) x mu <-> lo <= mu <= hi) /\
     (exists mu mu', mu <> mu' /\ allowed false (xmin_of g) (xmax_of g) x mu /\ allowed false (xmin_of g) (xmax_of g) x mu') /\
     forall mu, In mu (gm_mu m') -> allowed half (xmin_of g) (xmax_of g) x mu).
Proof. exact (range_spec half g m x). Qed.
Print Assumptions C26_range.
(** The tables the integrals run with are those the initialisation makes. *)
Theorem C26_tables fuel (p : precision RNum) K Pv im P (g : glq RNum) (qmin qmax : R) : (1 <= pr_n p < 2 ^ 62)%Z -> pr_interpol p = im ->
  init_gauss_legendre_q (N := RNum) fuel p (mk_table (N := RNum) K Pv) = Ok g ->
  length Pv = length K -> (1 <= zlen K < 2 ^ 62)%Z -> increasing K ->
  lookup_is (mk_table (N := RNum) K Pv) im P -> q_range (N := RNum) p (mk_table (N := RNum) K Pv) = Ok (qmin, qmax) -> 0 < qmin < qmax -> q_table P g.
Proof. exact (tables_init fuel p K Pv im P g qmin qmax). Qed.
Print Assumptions C26_tables.
Theorem C26_mu_table fuel (p : precision RNum) (m : glmu RNum) : (1 <= pr_n p < 2 ^ 62)%Z ->
  init_gauss_legendre_mu (N := RNum) fuel p = Ok m -> mu_rule m.
Proof. exact (mu_init fuel p m). Qed.
Print Assumptions C26_mu_table.
Theorem C26_lookup K P : length P = length K -> (2 <= zlen K < 2 ^ 62)%Z ->
  lookup_is (mk_table (N := RNum) K P) POLY (lookup_of (mk_table (N := RNum) K P) POLY).
Proof. exact (lookup_poly K P). Qed.
Print Assumptions C26_lookup.
Example C26_ex : let L := lookup_of (mk_table (N := RNum) [1; 2; 3] [5; 6; 4]) POLY in
  lookup_is (mk_table (N := RNum) [1; 2; 3] [5; 6; 4]) POLY L /\
  q_table L (mkGlq (N := RNum) 1 2 [1; 2] [1; 2] [1; 1] [L 1; L 2]) /\ mu_rule (mkGlmu (N := RNum) 1 [0] [2] [0] [2]).
Proof. exact (conj lookup_ex (conj (q_table_ex _) mu_rule_ex)). Qed.

(** ** C27: exchange of q and k - q. *)
(** It maps the region of integration to itself and one half of it to the other ... *)
Theorem C27_region x mu xmin xmax : 0 < xmin -> xmin <= x <= xmax -> allowed false xmin xmax x mu ->
  let s := sep x mu in let nu := mirror_mu x mu in
  (xmin <= s <= xmax /\ allowed false xmin xmax s nu /\ sep s nu = x /\ mirror_mu s nu = mu) /\
  (allowed true xmin xmax x mu <-> x <= s) /\ (allowed true xmin xmax s nu <-> s <= x).
Proof. exact (mirror_region x mu xmin xmax). Qed.
Print Assumptions C27_region.
(** ... and leaves the volume x^2 dx dmu unchanged, ... *)
Theorem C27_volume x mu : 0 < x -> -1 < mu < 1 -> exists sx sm nx nm : R,
  is_derive (fun u => sep u mu) x sx /\ is_derive (fun u => sep x u) mu sm /\
  is_derive (fun u => mirror_mu u mu) x nx /\ is_derive (fun u => mirror_mu x u) mu nm /\
  sep x mu ^ 2 * Rabs (sx * nm - sm * nx) = x ^ 2.
Proof. exact (mirror_volume x mu). Qed.
Print Assumptions C27_volume.
(** ... and the integrands (the values of the integrals are in C66) are invariant. *)
Theorem C27_gamma2_tree P a b k x mu : 0 < k -> 0 < x -> -1 <= mu <= 1 -> 0 < sep x mu ->
  gamma2_integrand P a b k (sep x mu) (mirror_mu x mu) = gamma2_integrand P a b k x mu.
Proof. exact (fun Hk Hx Hm Hs => gamma2_mirror P a b k x mu _ _ Hk (mirror_coords x mu Hx Hm Hs)). Qed.
Print Assumptions C27_gamma2_tree.
Theorem C27_gamma2_1loop P G a b c k x mu : 0 < k -> 0 < x -> -1 <= mu <= 1 -> 0 < sep x mu ->
  (forall t, G t (k * x) (k * sep x mu) k = G t (k * sep x mu) (k * x) k) ->
  gamma2_1loop_integrand P G a b c k (sep x mu) (mirror_mu x mu) = gamma2_1loop_integrand P G a b c k x mu.
Proof. exact (fun Hk Hx Hm Hs => gamma2_1loop_mirror P G a b c k x mu _ _ Hk (mirror_coords x mu Hx Hm Hs)). Qed.
Print Assumptions C27_gamma2_1loop.
Theorem C27_bias t P a k x mu : 0 < k -> 0 < x -> -1 <= mu <= 1 -> 0 < sep x mu -> t = BiasB2 \/ t = BiasBS2 ->
  bias_integrand t P a k (sep x mu) (mirror_mu x mu) = bias_integrand t P a k x mu.
Proof. exact (fun Hk Hx Hm Hs => bias_mirror t P a k x mu _ _ Hk (mirror_coords x mu Hx Hm Hs)). Qed.
Print Assumptions C27_bias.
(** The terms the code integrates over the whole region are not. *)
Theorem C27_bias_whole : exists P k x mu, 0 < k /\ 0 < x /\ -1 <= mu <= 1 /\ 0 < sep x mu /\
  bias_integrand BiasB22 P false k (sep x mu) (mirror_mu x mu) <> bias_integrand BiasB22 P false k x mu.
Proof. exact bias_b22_mirror. Qed.
Print Assumptions C27_bias_whole.
(** Weights of the redshift-space A terms: those of A and tA are exchanged. *)
Theorem C27_A n x mu : 0 < x -> -1 <= mu <= 1 -> 0 < sep x mu ->
  wtA (sep x mu) (mirror_mu x mu) n / sep x mu ^ 2 = wA x mu n / x ^ 2.
Proof. exact (fun Hx Hm Hs => wA_mirror n x mu _ _ (mirror_coords x mu Hx Hm Hs)). Qed.
Print Assumptions C27_A.
Example C27_ex : 0 < 1 / 2 /\ sep (1 / 2) (-1) = 3 / 2 /\ mirror_mu (1 / 2) (-1) = 1 /\ allowed false (1 / 10) 2 (1 / 2) (-1).
Proof. exact mirror_concrete. Qed.

(** ** C28: the 1-loop A terms are the tree-level bispectrum contracted with the weights. *)
(** The kernel of the angular sum holds the terms with P(|k-q|); those without it are integrated over the
    angle beforehand, in closed form (C63). *)
Theorem C28_kernel pkl im P (g0 g : glq RNum) k pk i mu :
  lookup_is pkl im P -> q_table P g0 -> 0 < k -> update_gauss_legendre_q g0 k = Ok g -> (0 <= i < gq_nq g)%Z ->
  let x := at_ (xs_of g0 k) (Z.to_nat i) in
  -1 <= mu <= 1 -> 0 < sep x mu ->
  kernel_A_tA_1loop pkl im g pk i mu = Ok (comps 5 (fun c =>
    A_tree (wA x mu) (wtA x mu) c k x mu pk (P (k * x)) (P (k * sep x mu)) - A_tree (wA x mu) (wtA x mu) c k x mu pk (P (k * x)) 0)).
Proof. exact (A_kernel pkl im P g0 g k pk i mu). Qed.
Print Assumptions C28_kernel.
(** ** C63: accuracy of the closed forms. *)
Theorem C63_closed_form P (g0 g : glq RNum) k pk i :
  q_table P g0 -> 0 < k -> update_gauss_legendre_q g0 k = Ok g -> (0 <= i < gq_nq g)%Z ->
  let x := at_ (xs_of g0 k) (Z.to_nat i) in
  exists v, kernel_a_1loop g i pk = Ok v /\ length v = 5%nat /\
    forall c, (c < 5)%nat -> exists J, is_RInt (fun mu => A_tree (wA x mu) (wtA x mu) c k x mu pk (P (k * x)) 0) (-1) 1 J /\
      Rabs (nth c v 0 - J) <= Rabs (pk * P (k * x)) * series_tolerance x.
Proof. exact (a_kernel_err P g0 g k pk i). Qed.
Print Assumptions C63_closed_form.
(** The complete term. *)
Theorem C28_integral pkl imq im P Pk0 (g : glq RNum) (m : glmu RNum) k :
  lookup_is pkl im P -> find1 pkl imq k = Ok Pk0 -> q_table P g -> mu_rule m -> 0 < k ->
  exists g' m' err, calc_pk_A_1loop pkl imq im g m k =
    Ok (comps 5 (fun c => k * k * k / (4 * PI * PI) *
      rsum (length (xs_of g k)) (fun i => let x := at_ (xs_of g k) i in
        let lo := mu_lo (at_ (xs_of g k) (length (xs_of g k) - 1)) x in let hi := mu_hi false (at_ (xs_of g k) 0) x in
        let A mu pkq := A_tree (wA x mu) (wtA x mu) c k x mu Pk0 (P (k * x)) pkq in
        if Rlt_dec lo hi then x * at_ (gq_w g) i *
          (muquad (gm_muref m) (gm_wref m) lo hi (fun mu => A mu (P (k * sep x mu)) - A mu 0) + (RInt (fun mu => A mu 0) (-1) 1 + err c i)) else 0)), g', m') /\
    forall c i, (c < 5)%nat -> (i < length (xs_of g k))%nat -> let x := at_ (xs_of g k) i in Rabs (err c i) <= Rabs (Pk0 * P (k * x)) * series_tolerance x.
Proof. exact (calc_A_spec pkl imq im P Pk0 g m k). Qed.
Print Assumptions C28_integral.
(** q may be k: the node 2 of this table, at k = 2 *)
Example C28_ex : let L := lookup_of (mk_table (N := RNum) [1; 2; 3] [5; 6; 4]) POLY in
  lookup_is (mk_table (N := RNum) [1; 2; 3] [5; 6; 4]) POLY L /\ find1 (mk_table (N := RNum) [1; 2; 3] [5; 6; 4]) POLY 2 = Ok (L 2) /\
  q_table L (mkGlq (N := RNum) 1 2 [1; 2] [1; 2] [1; 1] [L 1; L 2]) /\ mu_rule (mkGlmu (N := RNum) 1 [0] [2] [0] [2]).
Proof. exact (conj lookup_ex (conj (lookup_ex 2 ltac:(lra)) (conj (q_table_ex _) mu_rule_ex))). Qed.

(** ** C66: the integrals are the quadratures of the integrands of perturbation theory. *)
Theorem C66_gamma2_tree pkl im P (g : glq RNum) (m : glmu RNum) a b k :
  lookup_is pkl im P -> q_table P g -> mu_rule m -> 0 < k ->
  exists g' m', calc_pk_gamma2_tree pkl im g m a b k =
    Ok ([k * k * k / (2 * PI * PI) *
         itquad true (xs_of g k) (fun i => at_ (xs_of g k) i ^ 3 * at_ (gq_w g) i) (gm_muref m) (gm_wref m)
           (fun i mu => gamma2_integrand P (is_theta a) (is_theta b) k (at_ (xs_of g k) i) mu)], g', m').
Proof. exact (calc_gamma2_tree_val pkl im P g m a b k). Qed.
Print Assumptions C66_gamma2_tree.
Theorem C66_gamma2_1loop pkl im P gd gt G (g : glq RNum) (m : glmu RNum) a b k :
  lookup_is pkl im P -> one_loop_is gd gt G -> q_table P g -> mu_rule m -> 0 < k ->
  exists g' m', calc_pk_gamma2_1loop pkl im g m gd gt a b k =
    Ok (comps 3 (fun c => k * k * k / (2 * PI * PI) *
         itquad true (xs_of g k) (fun i => at_ (xs_of g k) i ^ 3 * at_ (gq_w g) i) (gm_muref m) (gm_wref m)
           (fun i mu => gamma2_1loop_integrand P G (is_theta a) (is_theta b) c k (at_ (xs_of g k) i) mu)), g', m').
Proof. exact (calc_gamma2_1loop_val pkl im P gd gt G g m a b k). Qed.
Print Assumptions C66_gamma2_1loop.
Theorem C66_bias pkl im P (g : glq RNum) (m : glmu RNum) a t half k :
  lookup_is pkl im P -> q_table P g -> mu_rule m -> 0 < k ->
  exists g' m', calc_pk_bias_1loop pkl im g m a k (bias_fun t) half =
    Ok (k * k * k / (4 * PI * PI) *
         itquad half (xs_of g k) (fun i => (if half then 2 else 1) * at_ (xs_of g k) i ^ 3 * at_ (gq_w g) i) (gm_muref m) (gm_wref m)
           (fun i mu => bias_integrand t P (is_theta a) k (at_ (xs_of g k) i) mu), g', m').
Proof. exact (calc_bias_val pkl im P g m a t half k). Qed.
Print Assumptions C66_bias.
(** Redshift-space B terms: integrands K whose combinations are the azimuthal averages, and whose mirror
    images are integrands of the same list (C27). *)
Theorem C66_B : exists K : nat -> R -> R -> R -> R -> R -> R -> R,
  (forall pk_dt pk_tt im Pd Pt P (g : glq RNum) (m : glmu RNum) k,
    lookup_is pk_dt im Pd -> lookup_is pk_tt im Pt -> q_table P g -> mu_rule m -> 0 < k ->
    exists g' m', calc_pk_B pk_dt pk_tt im g m k =
      Ok (comps 12 (fun c => k * k * k / (2 * PI * PI) *
         itquad true (xs_of g k) (fun i => at_ (xs_of g k) i * at_ (gq_w g) i) (gm_muref m) (gm_wref m)
           (fun i mu => let x := at_ (xs_of g k) i in K c (Pd (k * x)) (Pd (k * sep x mu)) (Pt (k * x)) (Pt (k * sep x mu)) x mu)), g', m')) /\
  (forall Pd Pt k x mu nu, 0 < k -> 0 < x -> -1 <= mu <= 1 -> -1 <= nu <= 1 -> 0 < sep x mu ->
    B_averaged Pd Pt (fun c => K c (Pd (k * x)) (Pd (k * sep x mu)) (Pt (k * x)) (Pt (k * sep x mu)) x mu) k x mu nu) /\
  (forall c dq dkq tq tkq x mu, (c < 12)%nat -> 0 < x -> -1 <= mu <= 1 -> 0 < sep x mu ->
    let s := sep x mu in let nu := mirror_mu x mu in
    K (B_mirror c) dkq dq tkq tq s nu / s ^ 2 = K c dq dkq tq tkq x mu / x ^ 2).
Proof. exact B_spec. Qed.
Print Assumptions C66_B.
(** The weights of the A terms are azimuthal averages too. *)
Theorem C66_A_weights k x mu nu : 0 < k -> 0 < x -> -1 <= mu <= 1 -> -1 <= nu <= 1 -> 0 < sep x mu ->
  let q := qphi k x mu in let kq := kqphi k x mu in let n := los nu in
  azimuth_average (fun t => k * nu * x ^ 2 * coup1 (q t) n) (nu ^ 2 * wA x mu 0) /\
  azimuth_average (fun t => k * nu * x ^ 2 * coup1 (kq t) n) (nu ^ 2 * wtA x mu 0) /\
  azimuth_average (fun t => k * nu * x ^ 2 * (coup1 (q t) n * (dot (kq t) n ^ 2 / dot (kq t) (kq t)))) (nu ^ 2 * wA x mu 1 + nu ^ 4 * wA x mu 2) /\
  azimuth_average (fun t => k * nu * x ^ 2 * (coup1 (kq t) n * (dot (q t) n ^ 2 / dot (q t) (q t)))) (nu ^ 2 * wtA x mu 1 + nu ^ 4 * wtA x mu 2).
Proof. exact (A_weights k x mu nu). Qed.
Print Assumptions C66_A_weights.
