(** ProofPy7: the statements of PropPy.v that combine several lemmas, and their witnesses. *)
From Coq Require Import Reals ZArith List String Lia Lra Bool.
From Verif Require Import Base Num BaseFacts Common Registry PyTerms Spec SpecPy Sums ProofPy ProofPy2 ProofPy3 ProofPy4 ProofPy5 ProofPy6.
Import ListNotations.
Local Open Scope R_scope.

(** ** Witnesses *)
Definition filled (cl : pyclass) (n : nat) (f : string -> nat -> R) : columns RNum :=
  map (fun x => (x, map (f x) (seq 0 (n * match ncomp cl x with Some m => Z.to_nat m | None => 1 end)%nat))) (fields cl).
Lemma filled_get cl n f x : In x (fields cl) ->
  getitem (filled cl n f) x = Ok (map (f x) (seq 0 (n * match ncomp cl x with Some m => Z.to_nat m | None => 1 end)%nat)).
Proof.
  intros H. apply (proj2 (getitem_assoc (N := RNum) _ _ _)). unfold filled. induction (fields cl) as [|y l IH]; [contradiction|]. cbn [map assoc].
  destruct (String.eqb_spec x y) as [->|Ne]; [reflexivity|]. apply IH. destruct H as [H|H]; [congruence|exact H].
Qed.
Lemma filled_complete cl n f : complete cl (filled cl n f) n.
Proof.
  split.
  - intros x. unfold filled. rewrite map_map. cbn [fst]. rewrite map_id. tauto.
  - intros x v H. assert (In x (fields cl)) as Hx.
    { apply getitem_assoc in H. assert (In x (map fst (filled cl n f))) as Q by (apply assoc_In; eauto). unfold filled in Q. rewrite map_map in Q. cbn [fst] in Q. rewrite map_id in Q. exact Q. }
    rewrite filled_get in H by exact Hx. injection H as <-. rewrite map_length, seq_length. reflexivity.
Qed.
Lemma filled_entry cl n f x i : In x (fields cl) -> (i < n * match ncomp cl x with Some m => Z.to_nat m | None => 1 end)%nat -> entry (filled cl n f) x i = f x i.
Proof.
  intros H Hi. unfold entry. rewrite filled_get by exact H. rewrite (nth_indep _ 0 (f x 0%nat)) by (rewrite map_length, seq_length; exact Hi).
  rewrite map_nth, seq_nth by exact Hi. reflexivity.
Qed.

(** ** C44 *)
Lemma sigma3sq_refuted : ~ (forall (c c' : columns RNum) n (D : R), complete CBias c n -> rescale (N := RNum) CBias c D = (c', Done) ->
  pk_sigma3sq (N := RNum) c' 1 = pk_sigma3sq (N := RNum) c D).
Proof.
  intros H. pose proof (filled_complete CBias 1 (fun _ _ => 1)) as HC. set (c := filled CBias 1 (fun _ _ => 1)) in *.
  destruct (rescale_reads CBias c 1 2 HC) as (c' & HR & _ & _). specialize (H c c' 1%nat 2 HC HR).
  destruct (sigma3sq_rescaled c c' 2 1 1 HC HR) as (v & E & L & E2). rewrite E2 in H.
  replace (2 * 1) with 2 in E by ring. change (pk_sigma3sq (N := RNum) c 2) with (pk_sigma3sq (N := RNum) c (2 : R)) in H. rewrite E in H. injection H as H.
  assert (V : v = [16]).
  { assert (E3 : pk_sigma3sq (N := RNum) c (2 : R) = Ok [Rpow 2 4 * (1 * 1)]) by reflexivity. rewrite E in E3. injection E3 as ->. f_equal. rewrite pow4. ring. }
  subst v. cbn [map] in H. injection H as H. lra.
Qed.

(** ** C45 *)
Lemma c_python_1loop (c : columns RNum) n k s ga gb P t out : complete C1Loop c n ->
  getitem c "k" = Ok k -> getitem c "sigmad2" = Ok s -> getitem c "gamma1a_1loop" = Ok ga -> getitem c "gamma1b_1loop" = Ok gb ->
  getitem c "pk_lin" = Ok P -> getitem c "pk_gamma2_tree_tree" = Ok t -> List.length out = n ->
  c_spectrum_1loop (N := RNum) k s ga gb P t (Z.of_nat n) out = pk_1loop (N := RNum) c 1 None.
Proof.
  intros HC H1 H2 H3 H4 H5 H6 H7. pose proof HC as [_ HL].
  pose proof (HL _ _ H1) as L1. pose proof (HL _ _ H2) as L2. pose proof (HL _ _ H3) as L3. pose proof (HL _ _ H4) as L4. pose proof (HL _ _ H5) as L5. pose proof (HL _ _ H6) as L6.
  cbn [ncomp] in L1, L2, L3, L4, L5, L6. rewrite Nat.mul_1_r in L1, L2, L3, L4, L5, L6.
  rewrite (pk_1loop_val c n) by exact HC. rewrite (c_1loop_val k s ga gb P t out n) by assumption. f_equal. apply map_ext. intros i.
  rewrite (getitem_entry _ _ _ H1), (getitem_entry _ _ _ H2), (getitem_entry _ _ _ H3), (getitem_entry _ _ _ H4), (getitem_entry _ _ _ H5), (getitem_entry _ _ _ H6). reflexivity.
Qed.
Lemma c_python_2loop (c : columns RNum) n k s ga ga2 gb gb2 P t t1 oo g3 out : complete C2Loop c n ->
  getitem c "k" = Ok k -> getitem c "sigmad2" = Ok s -> getitem c "gamma1a_1loop" = Ok ga -> getitem c "gamma1a_2loop" = Ok ga2 -> getitem c "gamma1b_1loop" = Ok gb ->
  getitem c "gamma1b_2loop" = Ok gb2 -> getitem c "pk_lin" = Ok P -> getitem c "pk_gamma2_tree_tree" = Ok t -> getitem c "pk_gamma2_tree_1loop" = Ok t1 ->
  getitem c "pk_gamma2_1loop_1loop" = Ok oo -> getitem c "pk_gamma3_tree" = Ok g3 -> List.length out = n ->
  c_spectrum_2loop (N := RNum) k s ga ga2 gb gb2 P t t1 oo g3 (Z.of_nat n) out = pk_2loop (N := RNum) c 1 None.
Proof.
  intros HC H1 H2 H3 H4 H5 H6 H7 H8 H9 HA HB HO. pose proof HC as [_ HL].
  pose proof (HL _ _ H1) as L1. pose proof (HL _ _ H2) as L2. pose proof (HL _ _ H3) as L3. pose proof (HL _ _ H4) as L4. pose proof (HL _ _ H5) as L5. pose proof (HL _ _ H6) as L6.
  pose proof (HL _ _ H7) as L7. pose proof (HL _ _ H8) as L8. pose proof (HL _ _ H9) as L9. pose proof (HL _ _ HA) as LA. pose proof (HL _ _ HB) as LB.
  cbn [ncomp] in L1, L2, L3, L4, L5, L6, L7, L8, L9, LA, LB. rewrite Nat.mul_1_r in L1, L2, L3, L4, L5, L6, L7, L8, L9, LA, LB.
  rewrite (pk_2loop_val c n) by exact HC. rewrite (c_2loop_val k s ga ga2 gb gb2 P t t1 oo g3 out n) by assumption. f_equal. apply map_ext. intros i.
  rewrite (getitem_entry _ _ _ H1), (getitem_entry _ _ _ H2), (getitem_entry _ _ _ H3), (getitem_entry _ _ _ H4), (getitem_entry _ _ _ H5), (getitem_entry _ _ _ H6),
    (getitem_entry _ _ _ H7), (getitem_entry _ _ _ H8), (getitem_entry _ _ _ H9), (getitem_entry _ _ _ HA), (getitem_entry _ _ _ HB). reflexivity.
Qed.

(** ** C46 *)
Lemma nth_map_seq (f : nat -> R) n i : (i < n)%nat -> nth i (map f (seq 0 n)) 0 = f i.
Proof. intros H. rewrite (nth_indep _ 0 (f 0%nat)) by (rewrite map_length, seq_length; exact H). rewrite map_nth, seq_nth by exact H. reflexivity. Qed.
Lemma limit_1loop (c : columns RNum) n i : complete C1Loop c n -> (i < n)%nat ->
  exists C d, 0 < d /\ forall D : R, Rabs D <= d -> exists v, pk_1loop (N := RNum) c D None = Ok v /\
    Rabs (nth i v 0 - spt_1loop D (entry c "pk_lin" i) (entry c "gamma1a_1loop" i) (entry c "gamma1b_1loop" i) (entry c "pk_gamma2_tree_tree" i)) <= C * Rabs D ^ 6.
Proof.
  intros HC Hi. destruct (spt_1loop_limit (entry c "k" i) (entry c "sigmad2" i) (entry c "gamma1a_1loop" i) (entry c "gamma1b_1loop" i)
                                     (entry c "pk_lin" i) (entry c "pk_gamma2_tree_tree" i)) as (C & d & _ & Hd & H).
  exists C, d. split; [lra|]. intros D HD. eexists. split; [apply pk_1loop_val, HC|]. rewrite nth_map_seq by exact Hi. apply H, HD.
Qed.
Lemma limit_2loop (c : columns RNum) n i : complete C2Loop c n -> (i < n)%nat ->
  exists C d, 0 < d /\ forall D : R, Rabs D <= d -> exists v, pk_2loop (N := RNum) c D None = Ok v /\
    Rabs (nth i v 0 - spt_2loop D (entry c "pk_lin" i) (entry c "gamma1a_1loop" i) (entry c "gamma1a_2loop" i) (entry c "gamma1b_1loop" i) (entry c "gamma1b_2loop" i)
                        (entry c "pk_gamma2_tree_tree" i) (entry c "pk_gamma2_tree_1loop" i) (entry c "pk_gamma3_tree" i)) <= C * Rabs D ^ 8.
Proof.
  intros HC Hi. destruct (spt_2loop_limit (entry c "k" i) (entry c "sigmad2" i) (entry c "gamma1a_1loop" i) (entry c "gamma1a_2loop" i) (entry c "gamma1b_1loop" i) (entry c "gamma1b_2loop" i)
                     (entry c "pk_lin" i) (entry c "pk_gamma2_tree_tree" i) (entry c "pk_gamma2_tree_1loop" i) (entry c "pk_gamma2_1loop_1loop" i) (entry c "pk_gamma3_tree" i)) as (C & d & _ & Hd & H).
  exists C, d. split; [lra|]. intros D HD. eexists. split; [apply pk_2loop_val, HC|]. rewrite nth_map_seq by exact Hi. apply H, HD.
Qed.

(** ** C48 *)
Lemma pad_refuted : ~ (forall (c : columns RNum) n (kk k : list R) (x : R), complete CLin c n -> (1 <= n)%nat -> getitem c "k" = Ok kk -> increasing kk -> ascending k ->
  exists c', pad_k (N := RNum) CLin false c k x = (c', Done) /\
    getitem c' "k" = Ok (filter (fun v => Rltb v (nth 0 kk 0)) k ++ kk ++ filter (fun v => Rltb (nth (n - 1) kk 0) v) k)).
Proof.
  intros H. set (f := fun (_ : string) i => INR i). pose proof (filled_complete CLin 2 f) as HC. set (c := filled CLin 2 f) in *.
  assert (HK : getitem c "k" = Ok [0; 1]) by reflexivity.
  assert (HI : increasing [0; 1]).
  { intros i j Hij. cbn in Hij. assert (i = 0 /\ j = 1)%nat as [-> ->] by lia. cbn. lra. }
  assert (HA : ascending [/2; /2; /2]).
  { intros i j Hij. cbn in Hij. destruct i as [|[|[|i]]], j as [|[|[|j]]]; cbn; lra || lia. }
  destruct (H c 2%nat [0; 1] [/2; /2; /2] 0 HC) as (c' & E & _); [lia|exact HK|exact HI|exact HA|].
  destruct (pad_k_nothing CLin false c 2 [0; 1] [/2; /2; /2] 0 eq_refl HC HK) as (c2 & _ & E2); [lia| |cbn; lia|].
  { intros v Hv. change (nth (2 - 1) [0; 1] 0) with 1. cbn in Hv. lra. }
  rewrite E2 in E; [discriminate|]. change (nth 0 [0; 1] 0) with 0. rewrite filter_none; [cbn; lia|].
  intros y Hy. apply Rltb_false. cbn in Hy. lra.
Qed.

(** ** C49 *)
Lemma each_field_stopped {N : Num} (f : columns N -> string -> columns N * outcome) l c e : e <> Done ->
  fold_left (fun o key => match o with (c, Done) => f c key | _ => o end) l (c, e) = (c, e).
Proof. intros H. induction l as [|x l IH]; [reflexivity|]. cbn [fold_left]. destruct e; [contradiction|exact IH|exact IH]. Qed.
Lemma nan_missing {N} cl (c : columns N) before x after : fields cl = (before ++ x :: after)%list -> (forall y, In y before -> In y (map fst c)) -> ~ In x (map fst c) ->
  exists c', nan_to_zero cl c = (c', Raised KeyError) /\ map fst c' = map fst c /\
    forall y, getitem c' y = if existsb (String.eqb y) before then match getitem c y with Ok v => Ok (nan_to_zero_column v) | Err e => Err e end else getitem c y.
Proof.
  intros E HB Hx. pose proof (fields_NoDup cl) as ND. rewrite E in ND.
  assert (ND1 : NoDup before).
  { clear - ND. induction before as [|a l IH]; [constructor|]. inversion ND as [|? ? H1 H2]; subst. constructor; [intros H; apply H1, in_or_app; left; exact H|apply IH, H2]. }
  unfold nan_to_zero. rewrite E. unfold each_field. rewrite fold_left_app.
  destruct (each_field_done (fun c key => match getitem c key with Ok v => (setitem c key (nan_to_zero_column v), Done) | Err _ => (c, Raised KeyError) end)
    (fun _ v => nan_to_zero_column v) before c) as (c' & F & K & G).
  - intros c0 y v _ Hv. rewrite Hv. reflexivity.
  - exact ND1.
  - exact HB.
  - unfold each_field in F. rewrite F. cbn [fold_left].
    assert (M : exists e, getitem c' x = Err e).
    { destruct (getitem c' x) as [v|e] eqn:Ev; [|exists e; reflexivity]. exfalso. apply Hx. rewrite <- K. apply assoc_In. exists v. apply getitem_assoc, Ev. }
    destruct M as (e & ->). exists c'. split; [apply each_field_stopped; discriminate|]. split; [exact K|exact G].
Qed.
Lemma nan_effect {N} cl (c : columns N) n : complete cl c n ->
  exists c', nan_to_zero cl c = (c', Done) /\ map fst c' = map fst c /\
    forall x v, getitem c x = Ok v -> exists v', getitem c' x = Ok v' /\ List.length v' = List.length v /\
      forall i d, (i < List.length v)%nat -> nth i v' d = if neqb N (nth i v d) (nth i v d) then nth i v d else nZ N 0.
Proof.
  intros [H1 H2]. destruct (nan_val cl c) as (c' & E & K & G); [intros x Hx; apply H1, Hx|]. exists c'. split; [exact E|]. split; [exact K|].
  intros x v Hv. assert (Hx : In x (fields cl)). { apply H1, assoc_In. apply getitem_assoc in Hv. eauto. }
  exists (nan_to_zero_column v). rewrite G, (proj2 (existsb_field x _) Hx), Hv. split; [reflexivity|]. unfold nan_to_zero_column. rewrite map_length. split; [reflexivity|].
  intros i d Hi. set (g := fun a => if isnan a then nZ N 0 else a). rewrite (nth_indep _ d (g d)) by (rewrite map_length; exact Hi). rewrite (map_nth g). unfold g, isnan.
  destruct (neqb N (nth i v d) (nth i v d)); reflexivity.
Qed.
Lemma nan_missing_effect {N} cl (c : columns N) before x after : fields cl = (before ++ x :: after)%list -> (forall y, In y before -> In y (map fst c)) -> ~ In x (map fst c) ->
  exists c', nan_to_zero cl c = (c', Raised KeyError) /\ map fst c' = map fst c /\
    (forall y, ~ In y before -> getitem c' y = getitem c y) /\
    forall y v, In y before -> getitem c y = Ok v -> exists v', getitem c' y = Ok v' /\ List.length v' = List.length v /\
      forall i d, (i < List.length v)%nat -> nth i v' d = if neqb N (nth i v d) (nth i v d) then nth i v d else nZ N 0.
Proof.
  intros E HB Hx. destruct (nan_missing cl c before x after E HB Hx) as (c' & F & K & G). exists c'. split; [exact F|]. split; [exact K|]. split.
  - intros y Hy. rewrite G. destruct (existsb (String.eqb y) before) eqn:X; [apply existsb_field in X; contradiction|reflexivity].
  - intros y v Hy Hv. exists (nan_to_zero_column v). rewrite G, (proj2 (existsb_field y _) Hy), Hv. split; [reflexivity|]. unfold nan_to_zero_column. rewrite map_length. split; [reflexivity|].
    intros i d Hi. set (g := fun a => if isnan a then nZ N 0 else a). rewrite (nth_indep _ d (g d)) by (rewrite map_length; exact Hi). rewrite (map_nth g). unfold g, isnan.
    destruct (neqb N (nth i v d) (nth i v d)); reflexivity.
Qed.
Lemma nan_twice {N} cl (c c' : columns N) n : neqb N (nZ N 0) (nZ N 0) = true -> complete cl c n -> nan_to_zero cl c = (c', Done) -> nan_to_zero cl c' = (c', Done).
Proof. intros Hz [H1 _] H. apply (nan_idem cl c c' Hz H). intros x Hx. apply H1, Hx. Qed.

(** ** C52 *)
Lemma combine_const l mu2 beta a : combine_components l mu2 beta (fun _ => a) = a * combine_components l mu2 beta (fun _ => 1).
Proof. unfold combine_components. rewrite <- rsum_scal. apply rsum_ext. intros. ring. Qed.
Lemma combine_ext l mu2 beta f g : (forall j, (j < List.length l)%nat -> f j = g j) -> combine_components l mu2 beta f = combine_components l mu2 beta g.
Proof. intros H. unfold combine_components. apply rsum_ext. intros i Hi. rewrite H by exact Hi. reflexivity. Qed.
Lemma A_outside cl (c : columns RNum) n k mu2 beta D left right : (cl = CA1 \/ cl = CA2) -> complete cl c n -> (1 <= n)%nat -> (forall kk, getitem c "k" = Ok kk -> increasing kk) ->
  (k < entry c "k" 0 -> pk_interp_A (N := RNum) c k mu2 beta D left right = Ok (left * combine_components A_powers mu2 beta (fun _ => 1))) /\
  (entry c "k" (pred n) < k -> pk_interp_A (N := RNum) c k mu2 beta D left right = Ok (right * combine_components A_powers mu2 beta (fun _ => 1))).
Proof.
  intros Hcl HC Hn HI. destruct (pk_interp_A_val c n k mu2 beta D left right cl Hcl HC Hn HI) as (f & Hf & ->).
  split; intros Hk; f_equal; rewrite <- combine_const; apply combine_ext; intros j Hj; destruct (Hf j Hj) as (A & B & _); [apply A, Hk|apply B, Hk].
Qed.
Lemma B_outside cl (c : columns RNum) n k mu2 beta D left right : (cl = CB1 \/ cl = CB2) -> complete cl c n -> (1 <= n)%nat -> (forall kk, getitem c "k" = Ok kk -> increasing kk) ->
  k < entry c "k" 0 \/ entry c "k" (pred n) < k -> pk_interp_B (N := RNum) c k mu2 beta D left right = Ok 0.
Proof.
  intros Hcl HC Hn HI Hk. destruct (pk_interp_B_val c n k mu2 beta D left right cl Hcl HC Hn HI) as (f & Hf & ->).
  f_equal. etransitivity; [apply (combine_ext B_powers mu2 beta _ (fun _ => 0))|rewrite combine_const; ring].
  intros j Hj; destruct (Hf j Hj) as (A & B & _); destruct Hk as [Hk|Hk]; [apply A, Hk|apply B, Hk].
Qed.
Definition grid2 (x : string) (i : nat) : R := INR i + 1.
Lemma grid2_inc cl : In "k"%string (fields cl) -> ncomp cl "k" = None -> forall kk, getitem (filled cl 2 grid2) "k" = Ok kk -> increasing kk.
Proof.
  intros Hk Hn kk H. rewrite filled_get in H by exact Hk. rewrite Hn in H. injection H as <-. intros i j Hij. 
  cbn in Hij. assert (i = 0 /\ j = 1)%nat as [-> ->] by lia. change (INR 0 + 1 < INR 1 + 1). cbn. lra.
Qed.
Lemma B_refuted : ~ (forall (c : columns RNum) n (k mu2 beta D left right : R), complete CB1 c n -> (1 <= n)%nat -> (forall kk, getitem c "k" = Ok kk -> increasing kk) ->
  k < entry c "k" 0 -> pk_interp_B (N := RNum) c k mu2 beta D left right = Ok (left * combine_components B_powers mu2 beta (fun _ => 1))).
Proof.
  intros H. pose proof (filled_complete CB1 2 grid2) as HC. pose proof (grid2_inc CB1 (k_field _) eq_refl) as HI.
  assert (K : 0 < entry (filled CB1 2 grid2) "k" 0) by (rewrite filled_entry by (cbn; auto); unfold grid2; cbn; lra).
  specialize (H _ 2%nat 0 1 1 1 1 0 HC ltac:(lia) HI K). rewrite (B_outside CB1 _ 2 0 1 1 1 1 0 (or_introl eq_refl) HC ltac:(lia) HI (or_introl K)) in H.
  injection H as H. revert H. unfold combine_components, B_powers, weight. cbn. lra.
Qed.

(** ** C54 *)
Lemma transfer_bounded h omega_b omega_m T_cmb k : 0 < h -> 45 / 1000 <= omega_m <= 1 -> 0 <= omega_b <= omega_m / 3 -> 0 <= k ->
  0 < transfer_row (N := RNum) h omega_b omega_m T_cmb k <= 1.
Proof. intros Hh Hm Hb Hk. apply transfer_range; [|exact Hk]. apply gamma_eff_positive; [exact Hh|lra|apply alpha_positive; assumption]. Qed.

(** ** C55 *)
Lemma nowiggle_set_terms {N} (c : columns N) k : set_terms_nowiggle c k = (setitem c "k" k, Raised AttributeError).
Proof. reflexivity. Qed.

(** ** C68 *)
Lemma rescale_extra : ~ (forall (c c' : columns RNum) (D : R) e, rescale (N := RNum) CLin c D = (c', Raised e) -> c' = c).
Proof.
  intros H. specialize (H [("k", [1]); ("pk", [1]); ("extra", [1])]%string _ 2 KeyError eq_refl). injection H as H1 H2.
  revert H2. rn. change (IZR (2 * 1)) with 2. rewrite pow2. lra.
Qed.
Lemma rescale_raises cl (c : columns RNum) (D : R) : (exists x, In x (map fst c) /\ assoc (scales cl) x = None) -> exists c', rescale (N := RNum) cl c D = (c', Raised KeyError).
Proof.
  induction c as [|[x v] c IH]; intros (y & Hy & A); [contradiction|]. cbn [rescale]. destruct (assoc (scales cl) x) as [s|] eqn:S; [|eexists; reflexivity].
  destruct IH as (c' & E); [|rewrite E; eexists; reflexivity]. destruct Hy as [Hy|Hy]; [cbn in Hy; congruence|]. exists y. tauto.
Qed.
(** ** C69 *)
Lemma sigmar_growth (c : columns RNum) n (r D : R) : complete CLin c n -> (forall kk, getitem c "k" = Ok kk -> increasing kk) -> (forall i, 0 <= entry c "pk" i) ->
  sigmar (N := RNum) c r (accessor (N := RNum) CLin "pk" c D) = Ok (Rabs D * sqrt (variance (entry c "k") (entry c "pk") n r)).
Proof.
  intros HC HI HP. rewrite (sigmar_val c r D n HC). f_equal. unfold variance. unfold Rdiv at 1. rewrite Rmult_assoc. apply sqrt_scale.
  apply Rmult_le_pos; [|apply Rlt_le, Rinv_0_lt_compat; pose proof PI_RGT_0; apply Rmult_lt_0_compat; [lra|apply pow_lt; lra]].
  fetch HC "k"%string. specialize (HI _ A). apply trapz_nonneg.
  - replace (map (entry c "k") (seq 0 n)) with (v : list R); [exact HI|].
    apply (nth_ext _ _ 0 0); [rewrite map_length, seq_length; assumption|]. intros i Hi. change (T RNum) with R in *. rewrite B in Hi. rewrite nth_map_seq by exact Hi. apply getitem_entry, A.
  - intros i. unfold at_. destruct (Nat.lt_ge_cases i n) as [L|L]; [rewrite nth_map_seq by exact L; apply Rmult_le_pos; [apply HP|apply pow2_ge_0]|].
    rewrite nth_overflow by (rewrite map_length, seq_length; exact L). apply Rle_refl.
Qed.

(** ** C49: no NaN remains *)
Lemma nan_free {N} cl (c c' : columns N) n : neqb N (nZ N 0) (nZ N 0) = true -> complete cl c n -> nan_to_zero cl c = (c', Done) ->
  forall x v, getitem c' x = Ok v -> forall e, In e v -> neqb N e e = true.
Proof.
  intros Hz HC E x v Hv e He. destruct (nan_effect cl c n HC) as (c2 & E2 & K & G). rewrite E in E2. injection E2 as <-.
  assert (exists w, getitem c x = Ok w) as (w & Hw).
  { apply getitem_assoc in Hv. assert (In x (map fst c)) as Q by (rewrite <- K; apply assoc_In; eauto). apply assoc_In in Q as (w & Q). exists w. apply getitem_assoc, Q. }
  destruct (G x w Hw) as (v' & Hv' & L & V). rewrite Hv in Hv'. injection Hv' as <-.
  destruct (In_nth v e (nZ N 0) He) as (i & Hi & <-). rewrite V by (rewrite <- L; exact Hi).
  destruct (neqb N (nth i w (nZ N 0)) (nth i w (nZ N 0))) eqn:Q; [exact Q|exact Hz].
Qed.

(** ** C51 *)
Lemma layout (m n : nat) : (0 < m)%nat ->
  (forall i j i' j', (j < m)%nat -> (j' < m)%nat -> (i * m + j = i' * m + j')%nat -> i = i' /\ j = j') /\
  (forall p, (p < n * m)%nat -> exists i j, (i < n)%nat /\ (j < m)%nat /\ p = (i * m + j)%nat).
Proof.
  intros Hm. split.
  - intros i j i' j' Hj Hj' E. assert (i = i').
    { rewrite (Nat.div_unique (i * m + j) m i j) by lia. rewrite E. symmetry. apply (Nat.div_unique (i' * m + j') m i' j'); lia. }
    subst. lia.
  - intros p Hp. exists (p / m)%nat, (p mod m)%nat. split; [apply Nat.div_lt_upper_bound; lia|]. split; [apply Nat.mod_upper_bound; lia|].
    rewrite (Nat.div_mod p m) at 1 by lia. lia.
Qed.

(** ** Examples *)
Definition ramp (x : string) (i : nat) : R := INR i + 1.
Lemma ramp_grid cl n : forall kk, getitem (filled cl n ramp) "k" = Ok kk -> increasing kk.
Proof.
  intros kk H. rewrite filled_get in H by apply k_field. injection H as <-. set (m := (n * _)%nat). intros i j Hij. change (T RNum) with R in *. rewrite map_length, seq_length in Hij.
  unfold at_. rewrite !nth_map_seq by lia. unfold ramp. pose proof (lt_INR i j). lra || (assert (INR i < INR j) by (apply lt_INR; lia); lra).
Qed.
