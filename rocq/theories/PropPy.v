(** PropPy: the Python classes that hold and combine the terms (C43-C46, C48, C49, C51-C55, C68, C69).  Notions: SpecPy.v.
    [columns] is the table of columns of an object; [complete cl c n] says it holds the declared columns of its class. *)
From Coq Require Import Reals ZArith List String Bool Lia Lra.
From Verif Require Import Base Num Common Registry PyTerms Spec SpecPy ProofPy ProofPy2 ProofPy4 ProofPy5 ProofPy6 ProofPy7.
Import ListNotations.
Local Open Scope R_scope.

(** ** C43: after rescale(D), everything reads with growth factor E as before with D*E *)
Theorem C43_reads cl (c : columns RNum) n (D : R) : complete cl c n ->
  exists c', rescale (N := RNum) cl c D = (c', Done) /\ complete cl c' n /\
    forall o (E : R), o <> O_sigma3sq -> read_off (N := RNum) cl o c' E = read_off (N := RNum) cl o c (D * E).
Proof. exact (rescale_reads cl c n D). Qed.
Print Assumptions C43_reads.
Theorem C43_compose cl (c c1 c2 : columns RNum) (D E : R) : rescale (N := RNum) cl c D = (c1, Done) -> rescale (N := RNum) cl c1 E = (c2, Done) ->
  rescale (N := RNum) cl c (D * E) = (c2, Done).
Proof. exact (rescale_compose cl c c1 c2 D E). Qed.
Print Assumptions C43_compose.
Theorem C43_identity cl (c : columns RNum) n : complete cl c n -> rescale (N := RNum) cl c (1 : R) = (c, Done).
Proof. exact (rescale_one cl c n). Qed.
Print Assumptions C43_identity.
Example C43_ex cl n : complete cl (filled cl n ramp) n.
Proof. exact (filled_complete cl n ramp). Qed.

(** ** C44: pk_sigma3sq after rescale(D) is D^2 times what it should be *)
Theorem C44_excess (c c' : columns RNum) (D E : R) n : complete CBias c n -> rescale (N := RNum) CBias c D = (c', Done) ->
  exists v, pk_sigma3sq (N := RNum) c (D * E) = Ok v /\ List.length v = n /\ pk_sigma3sq (N := RNum) c' E = Ok (map (Rmult (D^2)) v).
Proof. exact (sigma3sq_rescaled c c' D E n). Qed.
Print Assumptions C44_excess.
Theorem C44_refuted : ~ (forall (c c' : columns RNum) n (D : R), complete CBias c n -> rescale (N := RNum) CBias c D = (c', Done) ->
  pk_sigma3sq (N := RNum) c' (1 : R) = pk_sigma3sq (N := RNum) c D).
Proof. exact sigma3sq_refuted. Qed.
Print Assumptions C44_refuted.

(** ** C45: both assemblies are the published formulas, and the C one is the Python one without growth factor *)
Theorem C45_value_1loop (c : columns RNum) n (D : R) : complete C1Loop c n ->
  pk_1loop (N := RNum) c D None = Ok (map (fun i => regpt_1loop D (entry c "k" i) (entry c "sigmad2" i) (entry c "gamma1a_1loop" i) (entry c "gamma1b_1loop" i)
                                     (entry c "pk_lin" i) (entry c "pk_gamma2_tree_tree" i)) (seq 0 n)).
Proof. exact (pk_1loop_val c n D). Qed.
Print Assumptions C45_value_1loop.
Theorem C45_value_2loop (c : columns RNum) n (D : R) : complete C2Loop c n ->
  pk_2loop (N := RNum) c D None = Ok (map (fun i => regpt_2loop D (entry c "k" i) (entry c "sigmad2" i) (entry c "gamma1a_1loop" i) (entry c "gamma1a_2loop" i)
                                     (entry c "gamma1b_1loop" i) (entry c "gamma1b_2loop" i) (entry c "pk_lin" i) (entry c "pk_gamma2_tree_tree" i)
                                     (entry c "pk_gamma2_tree_1loop" i) (entry c "pk_gamma2_1loop_1loop" i) (entry c "pk_gamma3_tree" i)) (seq 0 n)).
Proof. exact (pk_2loop_val c n D). Qed.
Print Assumptions C45_value_2loop.
Theorem C45_1loop (c : columns RNum) n k s ga gb P t out : complete C1Loop c n ->
  getitem c "k" = Ok k -> getitem c "sigmad2" = Ok s -> getitem c "gamma1a_1loop" = Ok ga -> getitem c "gamma1b_1loop" = Ok gb ->
  getitem c "pk_lin" = Ok P -> getitem c "pk_gamma2_tree_tree" = Ok t -> List.length out = n ->
  c_spectrum_1loop (N := RNum) k s ga gb P t (Z.of_nat n) out = pk_1loop (N := RNum) c (1 : R) None.
Proof. exact (c_python_1loop c n k s ga gb P t out). Qed.
Print Assumptions C45_1loop.
Theorem C45_2loop (c : columns RNum) n k s ga ga2 gb gb2 P t t1 oo g3 out : complete C2Loop c n ->
  getitem c "k" = Ok k -> getitem c "sigmad2" = Ok s -> getitem c "gamma1a_1loop" = Ok ga -> getitem c "gamma1a_2loop" = Ok ga2 -> getitem c "gamma1b_1loop" = Ok gb ->
  getitem c "gamma1b_2loop" = Ok gb2 -> getitem c "pk_lin" = Ok P -> getitem c "pk_gamma2_tree_tree" = Ok t -> getitem c "pk_gamma2_tree_1loop" = Ok t1 ->
  getitem c "pk_gamma2_1loop_1loop" = Ok oo -> getitem c "pk_gamma3_tree" = Ok g3 -> List.length out = n ->
  c_spectrum_2loop (N := RNum) k s ga ga2 gb gb2 P t t1 oo g3 (Z.of_nat n) out = pk_2loop (N := RNum) c (1 : R) None.
Proof. exact (c_python_2loop c n k s ga ga2 gb gb2 P t t1 oo g3 out). Qed.
Print Assumptions C45_2loop.
Example C45_ex : complete C2Loop (filled C2Loop 3 ramp) 3 /\ getitem (filled C2Loop 3 ramp) "gamma1b_2loop" = Ok [INR 0 + 1; INR 1 + 1; INR 2 + 1].
Proof. split; [exact (filled_complete C2Loop 3 ramp)|reflexivity]. Qed.

(** ** C46: for a small growth factor, standard perturbation theory *)
Theorem C46_1loop (c : columns RNum) n i : complete C1Loop c n -> (i < n)%nat ->
  exists C d, 0 < d /\ forall D : R, Rabs D <= d -> exists v, pk_1loop (N := RNum) c D None = Ok v /\
    Rabs (nth i v 0 - spt_1loop D (entry c "pk_lin" i) (entry c "gamma1a_1loop" i) (entry c "gamma1b_1loop" i) (entry c "pk_gamma2_tree_tree" i)) <= C * Rabs D ^ 6.
Proof. exact (limit_1loop c n i). Qed.
Print Assumptions C46_1loop.
Theorem C46_2loop (c : columns RNum) n i : complete C2Loop c n -> (i < n)%nat ->
  exists C d, 0 < d /\ forall D : R, Rabs D <= d -> exists v, pk_2loop (N := RNum) c D None = Ok v /\
    Rabs (nth i v 0 - spt_2loop D (entry c "pk_lin" i) (entry c "gamma1a_1loop" i) (entry c "gamma1a_2loop" i) (entry c "gamma1b_1loop" i) (entry c "gamma1b_2loop" i)
                        (entry c "pk_gamma2_tree_tree" i) (entry c "pk_gamma2_tree_1loop" i) (entry c "pk_gamma3_tree" i)) <= C * Rabs D ^ 8.
Proof. exact (limit_2loop c n i). Qed.
Print Assumptions C46_2loop.
Example C46_ex : complete C1Loop (filled C1Loop 2 ramp) 2 /\ (1 < 2)%nat.
Proof. split; [exact (filled_complete C1Loop 2 ramp)|exact (Nat.lt_succ_diag_r 1)]. Qed.

(** ** C48: pad_k, the old wavenumbers surrounded by those of [k] outside their range *)
Theorem C48_extends cl b (c : columns RNum) n (kk k : list R) (x : R) : one_dim cl = true -> complete cl c n -> getitem c "k" = Ok kk -> (1 <= n)%nat ->
  ascending k -> (exists v, In v k /\ nth (n - 1) kk 0 < v) ->
  let below := filter (fun v => Rltb v (nth 0 kk 0)) k in let above := filter (fun v => Rltb (nth (n - 1) kk 0) v) k in
  exists c', pad_k (N := RNum) cl b c k x = (c', Done) /\ complete cl c' (List.length below + n + List.length above) /\
    getitem c' "k" = Ok (below ++ kk ++ above) /\
    forall y v, y <> "k"%string -> getitem c y = Ok v -> getitem c' y = Ok (repeat x (List.length below) ++ v ++ repeat x (List.length above)).
Proof. exact (pad_k_extends cl b c n kk k x). Qed.
Print Assumptions C48_extends.
(** Nothing to append: the whole array is overwritten when the lengths agree, and otherwise the call raises. *)
Theorem C48_nothing_appended cl b (c : columns RNum) n (kk k : list R) (x : R) : one_dim cl = true -> complete cl c n -> getitem c "k" = Ok kk -> (1 <= n)%nat ->
  (forall v, In v k -> v <= nth (n - 1) kk 0) -> List.length k <> 1%nat ->
  let below := filter (fun v => Rltb v (nth 0 kk 0)) k in
  exists c', (List.length k = (List.length below + n)%nat -> pad_k (N := RNum) cl b c k x = (c', Done) /\ getitem c' "k" = Ok k) /\
             (List.length k <> (List.length below + n)%nat -> pad_k (N := RNum) cl b c k x = (c', Raised ValueError)).
Proof. exact (pad_k_nothing cl b c n kk k x). Qed.
Print Assumptions C48_nothing_appended.
Theorem C48_refuted : ~ (forall (c : columns RNum) n (kk k : list R) (x : R), complete CLin c n -> (1 <= n)%nat -> getitem c "k" = Ok kk -> increasing kk -> ascending k ->
  exists c', pad_k (N := RNum) CLin false c k x = (c', Done) /\
    getitem c' "k" = Ok (filter (fun v => Rltb v (nth 0 kk 0)) k ++ kk ++ filter (fun v => Rltb (nth (n - 1) kk 0) v) k)).
Proof. exact pad_refuted. Qed.
Print Assumptions C48_refuted.
(** The objects with two-dimensional columns always raise, and are left with columns of different lengths. *)
Theorem C48_two_dimensional cl (c : columns RNum) n (kk k : list R) (x : R) : one_dim cl = false -> complete cl c n -> (1 <= n)%nat -> getitem c "k" = Ok kk ->
  let below := filter (fun v => Rltb v (nth 0 kk 0)) k in let above := filter (fun v => Rltb (nth (n - 1) kk 0) v) k in
  exists c', pad_k (N := RNum) cl true c k x = (c', Raised ValueError) /\
    (forall v, getitem c "pk" = Ok v -> getitem c' "pk" = Ok v) /\
    forall v, getitem c' "k" = Ok v -> List.length v = (List.length below + n + List.length above)%nat.
Proof. exact (pad_k_shaped cl c n kk k x). Qed.
Print Assumptions C48_two_dimensional.
Example C48_ex : one_dim CBias = true /\ complete CBias (filled CBias 2 ramp) 2 /\ getitem (filled CBias 2 ramp) "k" = Ok [INR 0 + 1; INR 1 + 1] /\
  ascending [/2; 5] /\ (exists v, In v [/2; 5] /\ nth 1 [INR 0 + 1; INR 1 + 1] 0 < v) /\ one_dim CB2 = false.
Proof.
  split; [reflexivity|]. split; [exact (filled_complete CBias 2 ramp)|]. split; [reflexivity|].
  split; [intros i j H; cbn in H; destruct i as [|[|i]], j as [|[|j]]; cbn; lra || lia|].
  split; [|reflexivity]. exists 5. split; [right; left; reflexivity|cbn; lra].
Qed.

(** ** C49: for every arithmetic; an entry is not NaN when it equals itself *)
Theorem C49_effect {N} cl (c : columns N) n : complete cl c n ->
  exists c', nan_to_zero cl c = (c', Done) /\ map fst c' = map fst c /\
    forall x v, getitem c x = Ok v -> exists v', getitem c' x = Ok v' /\ List.length v' = List.length v /\
      forall i d, (i < List.length v)%nat -> nth i v' d = if neqb N (nth i v d) (nth i v d) then nth i v d else nZ N 0.
Proof. exact (nan_effect cl c n). Qed.
Print Assumptions C49_effect.
Theorem C49_nan_free lm cl (c c' : columns (FNum lm)) n : complete cl c n -> nan_to_zero cl c = (c', Done) ->
  forall x v, getitem c' x = Ok v -> forall e, In e v -> neqb (FNum lm) e e = true.
Proof. exact (nan_free cl c c' n eq_refl). Qed.
Print Assumptions C49_nan_free.
Theorem C49_idempotent lm cl (c c' : columns (FNum lm)) n : complete cl c n -> nan_to_zero cl c = (c', Done) -> nan_to_zero cl c' = (c', Done).
Proof. exact (nan_twice cl c c' n eq_refl). Qed.
Print Assumptions C49_idempotent.
(** A declared column is missing: KeyError; the columns declared before it have been treated, all others are as they were. *)
Theorem C49_missing {N} cl (c : columns N) before x after : fields cl = (before ++ x :: after)%list -> (forall y, In y before -> In y (map fst c)) -> ~ In x (map fst c) ->
  exists c', nan_to_zero cl c = (c', Raised KeyError) /\ map fst c' = map fst c /\
    (forall y, ~ In y before -> getitem c' y = getitem c y) /\
    forall y v, In y before -> getitem c y = Ok v -> exists v', getitem c' y = Ok v' /\ List.length v' = List.length v /\
      forall i d, (i < List.length v)%nat -> nth i v' d = if neqb N (nth i v d) (nth i v d) then nth i v d else nZ N 0.
Proof. exact (nan_missing_effect cl c before x after). Qed.
Print Assumptions C49_missing.
Example C49_missing_ex lm : let nan := ndiv (FNum lm) (nZ (FNum lm) 0) (nZ (FNum lm) 0) in
  fields C1Loop = (["k"%string; "pk_lin"%string] ++ "sigmad2"%string :: ["gamma1a_1loop"; "gamma1b_1loop"; "pk_gamma2_tree_tree"]%string)%list /\
  nan_to_zero (N := FNum lm) C1Loop [("k", [nan]); ("pk_lin", [nan]); ("gamma1a_1loop", [nan])]%string
  = ([("k", [nZ (FNum lm) 0]); ("pk_lin", [nZ (FNum lm) 0]); ("gamma1a_1loop", [nan])]%string, Raised KeyError).
Proof. split; reflexivity. Qed.
Example C49_ex lm : let nan := ndiv (FNum lm) (nZ (FNum lm) 0) (nZ (FNum lm) 0) in
  nan_to_zero (N := FNum lm) CLin [("k", [nZ (FNum lm) 1; nan]); ("pk", [nan; nan])]%string
  = ([("k", [nZ (FNum lm) 1; nZ (FNum lm) 0]); ("pk", [nZ (FNum lm) 0; nZ (FNum lm) 0])]%string, Done).
Proof. reflexivity. Qed.

(** ** C51: pk_interp of the A and B terms *)
Theorem C51_A cl (c : columns RNum) n (k mu2 beta D left right : R) : (cl = CA1 \/ cl = CA2) -> complete cl c n -> (1 <= n)%nat -> (forall kk, getitem c "k" = Ok kk -> increasing kk) ->
  exists f : nat -> R -> R,
    (forall j, (j < 5)%nat -> interpolates (entry c "k") (fun i => D^4 * entry c "pk" (i * 5 + j)) n left right (f j)) /\
    pk_interp_A (N := RNum) c k mu2 beta D left right = Ok (combine_components A_powers mu2 beta (fun j => f j k)).
Proof. exact (pk_interp_A_val c n k mu2 beta D left right cl). Qed.
Print Assumptions C51_A.
Theorem C51_B cl (c : columns RNum) n (k mu2 beta D left right : R) : (cl = CB1 \/ cl = CB2) -> complete cl c n -> (1 <= n)%nat -> (forall kk, getitem c "k" = Ok kk -> increasing kk) ->
  exists f : nat -> R -> R,
    (forall j, (j < 9)%nat -> interpolates (entry c "k") (fun i => D^4 * entry c "pk" (i * 9 + j)) n 0 0 (f j)) /\
    pk_interp_B (N := RNum) c k mu2 beta D left right = Ok (combine_components B_powers mu2 beta (fun j => f j k)).
Proof. exact (pk_interp_B_val c n k mu2 beta D left right cl). Qed.
Print Assumptions C51_B.
(** The position ik*m + j of component j at wavenumber ik names every cell of the array, and each once. *)
Theorem C51_layout (m n : nat) : (0 < m)%nat ->
  (forall i j i' j', (j < m)%nat -> (j' < m)%nat -> (i * m + j = i' * m + j')%nat -> i = i' /\ j = j') /\
  (forall p, (p < n * m)%nat -> exists i j, (i < n)%nat /\ (j < m)%nat /\ p = (i * m + j)%nat).
Proof. exact (layout m n). Qed.
Print Assumptions C51_layout.
Theorem C51_component {N} (m n : nat) (v : list (T N)) (j : nat) d : List.length v = (n * m)%nat -> (j < m)%nat ->
  component (Z.of_nat m) n v (Z.of_nat j) = Ok (map (fun i => nth (i * m + j) v d) (seq 0 n)).
Proof. exact (component_val m n v j d). Qed.
Print Assumptions C51_component.
Example C51_ex : complete CB2 (filled CB2 4 ramp) 4 /\ complete CA1 (filled CA1 4 ramp) 4 /\ (forall kk, getitem (filled CB2 4 ramp) "k" = Ok kk -> increasing kk).
Proof. split; [exact (filled_complete CB2 4 ramp)|]. split; [exact (filled_complete CA1 4 ramp)|exact (ramp_grid CB2 4)]. Qed.

(** ** C52: outside the range A uses [left] and [right], B always 0 *)
Theorem C52_A cl (c : columns RNum) n (k mu2 beta D left right : R) : (cl = CA1 \/ cl = CA2) -> complete cl c n -> (1 <= n)%nat -> (forall kk, getitem c "k" = Ok kk -> increasing kk) ->
  (k < entry c "k" 0 -> pk_interp_A (N := RNum) c k mu2 beta D left right = Ok (left * combine_components A_powers mu2 beta (fun _ => 1))) /\
  (entry c "k" (pred n) < k -> pk_interp_A (N := RNum) c k mu2 beta D left right = Ok (right * combine_components A_powers mu2 beta (fun _ => 1))).
Proof. exact (A_outside cl c n k mu2 beta D left right). Qed.
Print Assumptions C52_A.
Theorem C52_B_zero cl (c : columns RNum) n (k mu2 beta D left right : R) : (cl = CB1 \/ cl = CB2) -> complete cl c n -> (1 <= n)%nat -> (forall kk, getitem c "k" = Ok kk -> increasing kk) ->
  k < entry c "k" 0 \/ entry c "k" (pred n) < k -> pk_interp_B (N := RNum) c k mu2 beta D left right = Ok 0.
Proof. exact (B_outside cl c n k mu2 beta D left right). Qed.
Print Assumptions C52_B_zero.
Theorem C52_refuted : ~ (forall (c : columns RNum) n (k mu2 beta D left right : R), complete CB1 c n -> (1 <= n)%nat -> (forall kk, getitem c "k" = Ok kk -> increasing kk) ->
  k < entry c "k" 0 -> pk_interp_B (N := RNum) c k mu2 beta D left right = Ok (left * combine_components B_powers mu2 beta (fun _ => 1))).
Proof. exact B_refuted. Qed.
Print Assumptions C52_refuted.
Example C52_ex : 0 < entry (filled CA2 2 ramp) "k" 0.
Proof. unfold entry, ramp. cbn. lra. Qed.

(** ** C53 *)
Theorem C53_value (c : columns RNum) kk kmin kmax : getitem c "k" = Ok kk -> 0 < kmin <= kmax -> (forall k, In k kk -> 0 < k) ->
  shotnoise (N := RNum) c kmin kmax = Ok (map (window kmin kmax) kk).
Proof. exact (shotnoise_val c kk kmin kmax). Qed.
Print Assumptions C53_value.
Theorem C53_window kmin kmax : 0 < kmin <= kmax ->
  (forall k, kmin <= k <= kmax -> window kmin kmax k = 1) /\
  (forall k, 0 < k -> 0 < window kmin kmax k <= 1) /\
  (forall k k', kmax <= k <= k' -> window kmin kmax k' <= window kmin kmax k) /\
  (forall k k', 0 < k <= k' -> k' <= kmin -> window kmin kmax k <= window kmin kmax k') /\
  (forall k, 0 < k -> continuity_pt (window kmin kmax) k).
Proof. exact (window_facts kmin kmax). Qed.
Print Assumptions C53_window.
Example C53_ex : getitem (filled CBias 2 ramp) "k" = Ok [INR 0 + 1; INR 1 + 1] /\ forall k, In k [INR 0 + 1; INR 1 + 1] -> 0 < k.
Proof. split; [reflexivity|]. intros k [<-|[<-|[]]]; cbn; lra. Qed.

(** ** C54 *)
Theorem C54_range h omega_b omega_m T_cmb k : 0 < h -> 45 / 1000 <= omega_m <= 1 -> 0 <= omega_b <= omega_m / 3 -> 0 <= k ->
  0 < transfer_row (N := RNum) h omega_b omega_m T_cmb k <= 1.
Proof. exact (transfer_bounded h omega_b omega_m T_cmb k). Qed.
Print Assumptions C54_range.
Theorem C54_zero h omega_b omega_m T_cmb : transfer_row (N := RNum) h omega_b omega_m T_cmb (0 : R) = 1.
Proof. exact (transfer_zero h omega_b omega_m T_cmb). Qed.
Print Assumptions C54_zero.
Theorem C54_normalised (c c' : columns RNum) (pk kk : list R) n_s h omega_b omega_m T_cmb :
  getitem c "k" = Ok kk -> pk <> [] -> (forall k, In k kk -> 0 < k) -> (forall k, 0 < gamma_eff (N := RNum) h omega_b omega_m k) ->
  run_terms_nowiggle (N := RNum) c (Some pk) None n_s h omega_b omega_m T_cmb = Ok c' ->
  exists v, getitem c' "pk" = Ok v /\ List.length v = List.length kk /\ nth 0 v 0 = nth 0 pk 0 /\ kk <> [] /\
    exists A, forall i, (i < List.length kk)%nat ->
      nth i v 0 = A * (Rpow (nth i kk 0) n_s * (transfer_row (N := RNum) h omega_b omega_m T_cmb (nth i kk 0))^2).
Proof. exact (nowiggle_normalised c c' pk kk n_s h omega_b omega_m T_cmb). Qed.
Print Assumptions C54_normalised.
Example C54_ex : 45 / 1000 <= 3 / 10 <= 1 /\ 0 <= 5 / 100 <= (3 / 10) / 3 /\ forall k, 0 < gamma_eff (N := RNum) (7 / 10) (5 / 100) (3 / 10) k.
Proof. split; [lra|]. split; [lra|]. intros k. apply gamma_eff_positive; [lra|lra|apply alpha_positive; lra]. Qed.

(** ** C55: set_terms raises for every argument and leaves only the k column *)
Theorem C55_refuted {N} (c : columns N) k : set_terms_nowiggle c k = (setitem c "k" k, Raised AttributeError).
Proof. exact (nowiggle_set_terms c k). Qed.
Print Assumptions C55_refuted.

(** ** C68: rescale with a column that is not declared raises, after scaling the columns before it *)
Theorem C68_raises cl (c : columns RNum) (D : R) : (exists x, In x (map fst c) /\ assoc (scales cl) x = None) -> exists c', rescale (N := RNum) cl c D = (c', Raised KeyError).
Proof. exact (rescale_raises cl c D). Qed.
Print Assumptions C68_raises.
Theorem C68_refuted : ~ (forall (c c' : columns RNum) (D : R) e, rescale (N := RNum) CLin c D = (c', Raised e) -> c' = c).
Proof. exact rescale_extra. Qed.
Print Assumptions C68_refuted.
Example C68_ex : exists x, In x (map fst [("k", [1]); ("extra", [1])]%string) /\ assoc (scales CLin) x = None.
Proof. exists "extra"%string. split; [right; left; reflexivity|reflexivity]. Qed.

(** ** C69: sigmar is the r.m.s. in spheres, and is linear in the growth factor *)
Theorem C69_growth (c : columns RNum) n (r D : R) : complete CLin c n -> (forall kk, getitem c "k" = Ok kk -> increasing kk) -> (forall i, 0 <= entry c "pk" i) ->
  sigmar (N := RNum) c r (accessor (N := RNum) CLin "pk" c D) = Ok (Rabs D * sqrt (variance (entry c "k") (entry c "pk") n r)).
Proof. exact (sigmar_growth c n r D). Qed.
Print Assumptions C69_growth.
Example C69_ex : complete CLin (filled CLin 3 ramp) 3 /\ forall kk, getitem (filled CLin 3 ramp) "k" = Ok kk -> increasing kk.
Proof. split; [exact (filled_complete CLin 3 ramp)|exact (ramp_grid CLin 3)]. Qed.
