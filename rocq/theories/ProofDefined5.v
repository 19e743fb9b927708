(** ProofDefined5: when the mode-coupling integrals have a value. *)
From Coq Require Import ZArith Lia List Reals Lra.
From Verif Require Import Base Num BaseFacts Spec Common Kernels GExpr Gamma2 Integrals SpecDefined ProofSearch ProofKernels ProofGL ProofGL2 ProofFindPkR ProofIntegrals4 ProofIntegrals7
  ProofDefined ProofDefined2 ProofDefined3 ProofDefined4.
Import ListNotations.
Local Open Scope R_scope.

Lemma zipw_os (f : R -> R -> R) g l : (forall a b, g (Some a) (Some b) = Some (f a b)) -> forall l', zipw g (os l) (os l') = os (zipw f l l').
Proof. intros H. induction l as [|a l IH]; intros [|b l']; try reflexivity. cbn. rewrite H. f_equal. apply IH. Qed.
Lemma map_os (f : R -> R) g l : (forall a, g (Some a) = Some (f a)) -> map g (os l) = os (map f l).
Proof. intros H. unfold os. rewrite !map_map. apply map_ext. exact H. Qed.
Ltac rdl x E := apply (bind_lift Some); [apply rd_os|]; intros x E.
Lemma rd_In l i (x : R) : rd l i = Ok x -> In x l.
Proof. intros E. apply (rd_inv 0) in E. destruct E as [H ->]. apply znth_In, H. Qed.
Lemma PI2 : 2 * PI * PI <> 0.
Proof. pose proof PI_RGT_0. assert (0 < PI * PI) by (apply Rmult_lt_0_compat; assumption). lra. Qed.
Lemma PI4 : 4 * PI * PI <> 0.
Proof. pose proof PI2. lra. Qed.
Lemma PI8 : 8 * PI * PI * PI <> 0.
Proof. pose proof PI_RGT_0. assert (0 < PI * PI) by (apply Rmult_lt_0_compat; assumption). assert (0 < PI * PI * PI) by (apply Rmult_lt_0_compat; assumption). lra. Qed.

(** A table of nodes; the same after an update with k. *)
Record posq (g : glq RNum) : Prop := { pq_n : (0 <= gq_nq g)%Z; pq_q : zlen (gq_q g) = gq_nq g; pq_x : zlen (gq_x g) = gq_nq g; pq_pos : forall q, In q (gq_q g) -> 0 < q }.
Record atk (g : glq RNum) (k : R) : Prop := { ak_pos : posq g; ak_k : gq_k g = k; ak_x : forall i x, rd (gq_x g) i = Ok x -> 0 < x /\ rd (gq_q g) i = Ok (x * k) }.
Lemma posq_rd g i q : posq g -> rd (gq_q g) i = Ok q -> 0 < q.
Proof. intros H E. apply (pq_pos g H), (rd_In _ _ _ E). Qed.
Lemma update_q_at g k g' : posq g -> 0 < k -> update_gauss_legendre_q (N := RNum) g k = Ok g' -> atk g' k.
Proof.
  intros [H1 H2 H3 H4] Hk E. destruct (update_q_val (N := RNum) g k 0 H1 H2 H3) as (g2 & E2 & A1 & A2 & A3 & A4 & A5 & A6 & A7).
  rewrite E2 in E. injection E as <-. split; [split; rewrite ?A2, ?A3; auto|exact A1|].
  intros i x Ex. apply (rd_inv 0) in Ex. destruct Ex as [Hi ->]. rn_in A6. rn_in A7. rn_in Hi. rewrite A7 by lia.
  change (T RNum) with R in *. assert (Q : 0 < znth 0 (gq_q g) i) by (apply H4, znth_In; lia). split; [apply Rdiv_lt_0_compat; assumption|].
  rewrite A3, (rd_ok 0) by lia. f_equal. rn. field. lra.
Qed.
Lemma gamma1_1loop_O g a k : posq g -> 0 < k ->
  gamma1_1loop (N := ONum) (oq g) a (Some k) = res_map (fun s => (Some (fst s), oq (snd s))) (gamma1_1loop (N := RNum) g a k).
Proof.
  intros Hg Hk. unfold gamma1_1loop. apply (bind_lift oq); [apply update_q_O; lra|]. intros g' E.
  pose proof (update_q_at g k g' Hg Hk E) as [_ _ AX]. cbn [oq gq_nq gq_x gq_w gq_pk].
  apply (bind_lift Some).
  - apply (for_lift0 Some); [reflexivity|]. intros j s _. rdl x Ex. apply AX in Ex. destruct Ex as [Hx _]. rdl pk Ep. rdl w Ew. on.
    destruct a; [rewrite kernel_ff_O by exact Hx|rewrite kernel_gg_O by exact Hx]; reflexivity.
  - intros s _. on. pose proof PI2. rewrite odiv_some by assumption. reflexivity.
Qed.
Lemma gamma1_1loop_tab g a k v g' : posq g -> 0 < k -> gamma1_1loop (N := RNum) g a k = Ok (v, g') -> posq g'.
Proof.
  intros Hg Hk. unfold gamma1_1loop. destruct (update_gauss_legendre_q _ _) as [g1|] eqn:E; cbn [bind]; [|discriminate].
  match goal with |- bind ?x _ = _ -> _ => destruct x; cbn [bind]; [|discriminate] end. intros [= _ <-]. apply (update_q_at g k g1 Hg Hk E).
Qed.
Lemma gamma1_2loop_O g a k : posq g -> 0 < k ->
  gamma1_2loop (N := ONum) (oq g) a (Some k) = res_map (fun s => (Some (fst s), oq (snd s))) (gamma1_2loop (N := RNum) g a k).
Proof.
  intros Hg Hk. unfold gamma1_2loop. apply (bind_lift oq); [apply update_q_O; lra|]. intros g' E.
  pose proof (update_q_at g k g' Hg Hk E) as [AP AK AX]. cbn [oq gq_nq gq_x gq_w gq_pk gq_q gq_k].
  apply (bind_lift Some).
  - apply (for_lift0 Some); [reflexivity|]. intros j s _. rdl q1 Eq1. apply (posq_rd _ _ _ AP) in Eq1.
    apply (bind_lift Some).
    + apply (for_lift0 Some); [reflexivity|]. intros j2 s2 _. rdl q2 Eq2. apply (posq_rd _ _ _ AP) in Eq2. rdl w2 Ew. rdl p2 Ep. on.
      rewrite AK, integ_gamma1_2loop_O by assumption. reflexivity.
    + intros i2 _. rdl w1 Ew. rdl p1 Ep. reflexivity.
  - intros s _. on. pose proof PI_RGT_0 as HP. rewrite power_O. on. rewrite odiv_some; [reflexivity|].
    rewrite power4. apply Rmult_integral_contrapositive_currified; [lra|]. apply pow_nonzero. lra.
Qed.
Lemma gamma1_2loop_tab g a k v g' : posq g -> 0 < k -> gamma1_2loop (N := RNum) g a k = Ok (v, g') -> posq g'.
Proof.
  intros Hg Hk. unfold gamma1_2loop. destruct (update_gauss_legendre_q _ _) as [g1|] eqn:E; cbn [bind]; [|discriminate].
  match goal with |- bind ?x _ = _ -> _ => destruct x; cbn [bind]; [|discriminate] end. intros [= _ <-]. apply (update_q_at g k g1 Hg Hk E).
Qed.
Definition o4 (s : R * R * R * R * glq RNum * glq RNum) : option R * option R * option R * option R * glq ONum * glq ONum :=
  let '(a, b, c, d, g, h) := s in (Some a, Some b, Some c, Some d, oq g, oq h).
Lemma calc_pk_gamma1_2loop_O g1 g2 a b k : posq g1 -> posq g2 -> 0 < k ->
  calc_pk_gamma1_2loop (N := ONum) (oq g1) (oq g2) a b (Some k) = res_map o4 (calc_pk_gamma1_2loop (N := RNum) g1 g2 a b k).
Proof.
  intros H1 H2 Hk. unfold calc_pk_gamma1_2loop. destruct (flag_eqb a b).
  - apply (bind_lift (fun s => (Some (fst s), oq (snd s)))); [apply gamma1_1loop_O; assumption|]. intros [a1 h1] E1. cbn [fst snd].
    apply (bind_lift (fun s => (Some (fst s), oq (snd s)))); [apply gamma1_2loop_O; assumption|]. intros [a2 h2] E2. cbn [fst snd]. ovn. reflexivity.
  - apply (bind_lift (fun s => (Some (fst s), oq (snd s)))); [apply gamma1_1loop_O; assumption|]. intros [a1 h1] E1. cbn [fst snd]. apply gamma1_1loop_tab in E1; try assumption.
    apply (bind_lift (fun s => (Some (fst s), oq (snd s)))); [apply gamma1_2loop_O; assumption|]. intros [a2 h2] E2. cbn [fst snd]. apply gamma1_2loop_tab in E2; try assumption.
    apply (bind_lift (fun s => (Some (fst s), oq (snd s)))); [apply gamma1_1loop_O; assumption|]. intros [b1 h3] E3. cbn [fst snd].
    apply (bind_lift (fun s => (Some (fst s), oq (snd s)))); [apply gamma1_2loop_O; assumption|]. intros [b2 h4] E4. cbn [fst snd]. ovn. reflexivity.
Qed.
Lemma gamma2_tree_O a k1 k2 k3 : k1 <> 0 -> k2 <> 0 -> gamma2_tree (N := ONum) a (Some k1) (Some k2) (Some k3) = Some (gamma2_tree (N := RNum) a k1 k2 k3).
Proof.
  intros H1 H2. unfold gamma2_tree. on. rewrite odiv_some by (apply not_0_IZR; lia).
  apply F2_sym_fast_O; apply Rmult_integral_contrapositive_currified; assumption.
Qed.
Lemma gamma2_1loop_O g a k1 k2 k3 : posq g -> 0 < k1 -> 0 < k2 -> 0 < k3 -> strict k1 k2 k3 ->
  gamma2_1loop (N := ONum) (oq g) a (Some k1) (Some k2) (Some k3) = res_map Some (gamma2_1loop (N := RNum) g a k1 k2 k3).
Proof.
  intros Hg H1 H2 H3 HS. unfold gamma2_1loop. cbn [oq gq_nq gq_q gq_w gq_pk]. apply (bind_lift Some).
  - apply (for_lift0 Some); [reflexivity|]. intros j s _. rdl q Eq1. apply (posq_rd _ _ _ Hg) in Eq1. rdl w Ew.
    apply (bind_lift Some); [apply kernel_gamma2_O; assumption|]. intros kern _. rdl pk Ep. reflexivity.
  - intros s _. on. pose proof PI8. rewrite odiv_some by assumption. reflexivity.
Qed.

(** ** The angular tables *)
Record inmu (m : glmu RNum) : Prop := { im_n : (0 <= gm_nmu m)%Z; im_mr : zlen (gm_muref m) = gm_nmu m; im_wr : zlen (gm_wref m) = gm_nmu m; im_mu : zlen (gm_mu m) = gm_nmu m;
  im_w : zlen (gm_w m) = gm_nmu m; im_in : forall i, (0 <= i < gm_nmu m)%Z -> -1 < znth 0 (gm_muref m) i < 1 }.
Lemma update_mu_in m a b m' : inmu m -> -1 <= a < 1 -> -1 < b <= 1 -> update_gauss_legendre_mu (N := RNum) m a b = Ok m' ->
  inmu m' /\ forall i mu, rd (gm_mu m') i = Ok mu -> -1 < mu < 1.
Proof.
  intros [H1 H2 H3 H4 H5 H6] Ha Hb E. destruct (update_mu_val (N := RNum) m a b 0 H1 H2 H3 H4 H5) as (g & E2 & A1 & A2 & A3 & A4 & A5 & A6).
  rewrite E2 in E. injection E as <-. split; [split; rewrite ?A1, ?A2, ?A3; auto|].
  intros i mu Ex. apply (rd_inv 0) in Ex. destruct Ex as [Hi ->]. rn_in A4. rn_in Hi. rn_in A6. destruct (A6 i ltac:(lia)) as [-> _]. specialize (H6 i ltac:(lia)).
  set (t := znth 0 (gm_muref m) i) in *. nra.
Qed.
Lemma xmu_pos x mu : -1 < mu < 1 -> 0 < 1 + x * x - 2 * mu * x.
Proof. intros H. replace (1 + x * x - 2 * mu * x) with ((x - mu) * (x - mu) + (1 - mu) * (1 + mu)) by ring. assert (0 < (1 - mu) * (1 + mu)) by (apply Rmult_lt_0_compat; lra). pose proof (Rle_0_sqr (x - mu)) as Q. unfold Rsqr in Q. lra. Qed.
Lemma set_mu_range_O half g m x : 0 < x ->
  set_mu_range (N := ONum) half (oq g) (om m) (Some x) = res_map (option_map om) (set_mu_range (N := RNum) half g m x).
Proof.
  intros Hx. unfold set_mu_range. cbn [oq gq_x gq_nq]. rdl a Ea. rdl b Eb. on.
  rewrite !odiv_some by nz. rewrite !nmax_O, !nmin_O. on. destruct (_ || _)%bool; [reflexivity|]. lits.
  apply (bind_lift om); [|reflexivity].
  destruct (half && Rleb (5 / 10) x)%bool; apply update_mu_O.
Qed.
Lemma set_mu_range_in half g m x m' : 0 < x -> inmu m -> set_mu_range (N := RNum) half g m x = Ok (Some m') ->
  inmu m' /\ forall i mu, rd (gm_mu m') i = Ok mu -> -1 < mu < 1.
Proof.
  intros Hx Hm. unfold set_mu_range. destruct (rd _ 0) as [a|]; cbn [bind]; [|discriminate]. destruct (rd _ (u64 _)) as [b|]; cbn [bind]; [|discriminate].
  set (mn := nmax (N := RNum) _ _). set (mx := nmin (N := RNum) _ _).
  assert (L1 : -1 <= mn). { unfold mn, nmax. rn. match goal with |- context [Rltb ?u ?v] => destruct (Rltb_spec u v) end; lra. }
  assert (L2 : mx <= 1). { unfold mx, nmin. rn. match goal with |- context [Rltb ?u ?v] => destruct (Rltb_spec u v) end; lra. }
  clearbody mn mx. rn. lits. destruct (Rleb_spec 1 mn) as [|C1]; [discriminate|]. destruct (Rleb_spec mx (- (1))) as [|C2]; [discriminate|].
  destruct (Rleb_spec mx mn) as [|C3]; [discriminate|]. cbn [orb].
  destruct (update_gauss_legendre_mu _ _ _) as [m1|] eqn:E; cbn [bind]; [|discriminate]. intros [= <-].
  apply (update_mu_in m) in E; [exact E|exact Hm|split; lra|]. destruct half; cbn [andb]; [|split; lra].
  destruct (Rleb_spec (5 / 10) x) as [Q|Q]; [|split; lra].
  assert (0 < 5 / 10 / x) by (apply Rdiv_lt_0_compat; lra). assert (5 / 10 / x * x = 5 / 10) by (field; lra). split; [lra|]. nra.
Qed.
Lemma mu_loop_O m nc kern kern' : (forall i mu, rd (gm_mu m) i = Ok mu -> kern' (Some mu) = res_map os (kern mu)) ->
  mu_loop (N := ONum) (om m) nc kern' = res_map os (mu_loop (N := RNum) m nc kern).
Proof.
  intros H. unfold mu_loop. cbn [om gm_nmu gm_mu gm_w]. apply (for_lift0 os); [apply repeat_os|].
  intros j s _. rdl mu Em. apply (bind_lift os); [apply (H _ _ Em)|]. intros kv _. rdl w Ew. cbn [res_map]. f_equal. apply zipw_os. reflexivity.
Qed.
Lemma q_loop_O half g m k nc kern kern' add add' : atk g k -> inmu m ->
  (forall iq x mu, rd (gq_x g) iq = Ok x -> -1 < mu < 1 -> kern' iq (Some mu) = res_map os (kern iq mu)) ->
  (forall iq x l, rd (gq_x g) iq = Ok x -> add' iq (Some x) (os l) = res_map os (add iq x l)) ->
  q_loop (N := ONum) half (oq g) (om m) nc kern' add' = res_map (fun s => (os (fst s), om (snd s))) (q_loop (N := RNum) half g m nc kern add).
Proof.
  intros AT IM HK HA. unfold q_loop. cbn [oq gq_nq gq_x].
  apply (for_lift (fun s : list R * glmu RNum => (os (fst s), om (snd s))) (fun _ s => inmu (snd s))); [cbn [fst snd]; rewrite repeat_os; reflexivity|exact IM|].
  intros j [acc m1] _ Hm. cbn [fst snd] in *. split.
  - rdl x Ex. pose proof (ak_x g k AT j x Ex) as [Hx _].
    apply (bind_lift (option_map om)); [apply (set_mu_range_O half g m1 x Hx)|]. intros [m2|] Em; cbn [option_map]; [|reflexivity].
    destruct (set_mu_range_in half g m1 x m2 Hx Hm Em) as [_ HI].
    apply (bind_lift os); [apply mu_loop_O; intros i mu Emu; apply (HK _ _ _ Ex), (HI _ _ Emu)|]. intros integ _.
    apply (bind_lift os); [apply (HA _ _ _ Ex)|]. intros c _. cbn [res_map fst snd]. f_equal. f_equal. apply zipw_os. reflexivity.
  - intros [acc' m'] E. destruct (rd (gq_x g) j) as [x|] eqn:Ex; cbn [bind] in E; [|discriminate]. pose proof (ak_x g k AT j x Ex) as [Hx _].
    destruct (set_mu_range half g m1 x) as [[m2|]|] eqn:Em; cbn [bind] in E; [| |discriminate].
    + destruct (set_mu_range_in half g m1 x m2 Hx Hm Em) as [HI _].
      destruct (mu_loop _ _ _) as [integ|]; cbn [bind] in E; [|discriminate]. destruct (add j x integ) as [c|]; cbn [bind] in E; [|discriminate].
      injection E as _ <-. exact HI.
    + injection E as _ <-. exact Hm.
Qed.
Lemma add_x3w_O g two iq x l : add_x3w (N := ONum) (oq g) two iq (Some x) (os l) = res_map os (add_x3w (N := RNum) g two iq x l).
Proof. unfold add_x3w. cbn [oq gq_w]. rdl w Ew. cbn [res_map]. f_equal. destruct two; apply map_os; reflexivity. Qed.
