(** ProofDefined7: when the mode-coupling integrals have a value (end). *)
From Coq Require Import ZArith Lia List Reals Lra.
From Verif Require Import Base Num BaseFacts Spec Common Kernels GExpr Gamma2 Integrals SpecDefined ProofSearch ProofKernels ProofGL ProofGL2 ProofFindPkR ProofIntegrals4 ProofIntegrals7
  ProofDefined ProofDefined2 ProofDefined3 ProofDefined4 ProofDefined5 ProofDefined6.
Import ListNotations.
Local Open Scope R_scope.

Definition oqm (s : list R * glq RNum * glmu RNum) : list (option R) * glq ONum * glmu ONum := let '(l, g, m) := s in (os l, oq g, om m).
Lemma calc_pk_gamma2_1loop_O pkl im g m gd gt a b k : good_table pkl -> posq g -> inmu m -> posq gd -> posq gt -> 0 < k ->
  calc_pk_gamma2_1loop (N := ONum) (opk pkl) im (oq g) (om m) (oq gd) (oq gt) a b (Some k) = res_map oqm (calc_pk_gamma2_1loop (N := RNum) pkl im g m gd gt a b k).
Proof.
  intros Hp Hg Hm Hd Ht Hk. unfold calc_pk_gamma2_1loop. apply (bind_lift oq); [apply update_q_O; lra|]. intros g' E. pose proof (update_q_at g k g' Hg Hk E) as AT.
  apply (bind_lift (fun s : list R * glmu RNum => (os (fst s), om (snd s)))).
  - apply (q_loop_O true g' m k); [exact AT|exact Hm| |].
    + intros iq x mu Ex Hmu. apply (kernel_gamma2_1loop_O g' k Hk AT pkl im gd gt a b iq x mu); assumption.
    + intros. apply add_x3w_O.
  - intros [s m'] _. cbn [fst snd]. on. rewrite odiv_some by apply PI2. cbn [res_map oqm]. rewrite (map_os (fun v => v * (k * k * k / (2 * PI * PI)))) by reflexivity. reflexivity.
Qed.
Lemma calc_pk_gamma2_tree_O pkl im g m a b k : good_table pkl -> posq g -> inmu m -> 0 < k ->
  calc_pk_gamma2_tree (N := ONum) (opk pkl) im (oq g) (om m) a b (Some k) = res_map oqm (calc_pk_gamma2_tree (N := RNum) pkl im g m a b k).
Proof.
  intros Hp Hg Hm Hk. unfold calc_pk_gamma2_tree. apply (bind_lift oq); [apply update_q_O; lra|]. intros g' E. pose proof (update_q_at g k g' Hg Hk E) as AT.
  apply (bind_lift (fun s : list R * glmu RNum => (os (fst s), om (snd s)))).
  - apply (q_loop_O true g' m k); [exact AT|exact Hm| |].
    + intros iq x mu Ex Hmu. apply (kernel_gamma2_tree_O g' k Hk AT pkl im a b iq x mu); assumption.
    + intros. apply add_x3w_O.
  - intros [s m'] _. cbn [fst snd]. on. rewrite odiv_some by apply PI2. cbn [res_map oqm]. rewrite (map_os (fun v => v * (k * k * k / (2 * PI * PI)))) by reflexivity. reflexivity.
Qed.
Definition oqm1 (s : R * glq RNum * glmu RNum) : option R * glq ONum * glmu ONum := let '(l, g, m) := s in (Some l, oq g, om m).
Lemma calc_pk_bias_1loop_O pkl im g m a k kernel kernel' half : good_table pkl -> posq g -> inmu m -> lifts kernel kernel' -> 0 < k ->
  calc_pk_bias_1loop (N := ONum) (opk pkl) im (oq g) (om m) a (Some k) kernel' half = res_map oqm1 (calc_pk_bias_1loop (N := RNum) pkl im g m a k kernel half).
Proof.
  intros Hp Hg Hm HL Hk. unfold calc_pk_bias_1loop. apply (bind_lift oq); [apply update_q_O; lra|]. intros g' E. pose proof (update_q_at g k g' Hg Hk E) as AT.
  apply (bind_lift (fun s : list R * glmu RNum => (os (fst s), om (snd s)))).
  - apply (q_loop_O half g' m k); [exact AT|exact Hm| |].
    + intros iq x mu Ex Hmu. apply (kernel_bias_O g' k Hk AT pkl im a kernel kernel' iq x mu); assumption.
    + intros. apply add_x3w_O.
  - intros [s m'] _. cbn [fst snd]. rdl v Ev. on. rewrite odiv_some by apply PI4. reflexivity.
Qed.
Lemma kernel_a_O (g : glq RNum) iq pk_k : (forall x, rd (gq_x g) iq = Ok x -> 0 < x) ->
  kernel_a_1loop (N := ONum) (oq g) iq (Some pk_k) = res_map os (kernel_a_1loop (N := RNum) g iq pk_k).
Proof.
  intros HX. unfold kernel_a_1loop. cbn [oq gq_x gq_pk]. rdl x Ex. apply HX in Ex. rdl pq Ep. pws (powers9 x). do 6 rdc.
  rewrite EPS_O, EPS_R. on. lits.
  assert (N2 : x * x <> 0) by (apply Rmult_integral_contrapositive_currified; lra).
  assert (N3 : x * x * x <> 0) by (apply Rmult_integral_contrapositive_currified; lra).
  assert (N4 : x * x * x * x <> 0) by (apply Rmult_integral_contrapositive_currified; lra).
  assert (N5 : x * x * x * x * x <> 0) by (apply Rmult_integral_contrapositive_currified; lra).
  assert (N6 : x * x * x * x * x * x <> 0) by (apply Rmult_integral_contrapositive_currified; lra).
  assert (N7 : x * x * x * x * x * x * x <> 0) by (apply Rmult_integral_contrapositive_currified; lra).
  assert (N8 : x * x * x * x * x * x * x * x <> 0) by (apply Rmult_integral_contrapositive_currified; lra).
  destruct (Rltb x (1 / 10000)); [ovn; reflexivity|]. destruct (Rltb 100 x).
  - ov ltac:(first [assumption|apply Rmult_integral_contrapositive_currified; [lra|assumption]|nz]). reflexivity.
  - destruct (Rltb_spec epsR (Rabs (x - 1))) as [L|L].
    + assert (D : x - 1 <> 0) by (intro Q; rewrite Q, Rabs_R0 in L; pose proof epsR_pos; lra).
      rewrite (odiv_some (x + 1) (x - 1) D). on.
      rewrite olog_some. 2:{ apply Rabs_pos_lt. apply Rmult_integral_contrapositive_currified; [lra|apply Rinv_neq_0_compat, D]. }
      rewrite !power_O. ov ltac:(first [assumption|nz]). reflexivity.
    + rewrite !power_O. ov ltac:(first [assumption|nz]). reflexivity.
Qed.
Lemma calc_pk_A_1loop_O pkl imq im g m k : good_table pkl -> posq g -> inmu m -> 0 < k ->
  calc_pk_A_1loop (N := ONum) (opk pkl) imq im (oq g) (om m) (Some k) = res_map oqm (calc_pk_A_1loop (N := RNum) pkl imq im g m k).
Proof.
  intros Hp Hg Hm Hk. unfold calc_pk_A_1loop. apply (bind_lift oq); [apply update_q_O; lra|]. intros g' E. pose proof (update_q_at g k g' Hg Hk E) as AT.
  fnd pkk. apply (bind_lift (fun s : list R * glmu RNum => (os (fst s), om (snd s)))).
  - apply (q_loop_O false g' m k); [exact AT|exact Hm| |].
    + intros iq x mu Ex Hmu. apply (kernel_A_O g' k Hk AT pkl im pkk iq x mu); assumption.
    + intros iq x l Ex. apply (bind_lift os); [apply kernel_a_O; intros y Ey; apply (ak_x g' k AT iq y Ey)|]. intros ia _. cbn [oq gq_w]. rdl w Ew. cbn [res_map]. f_equal. apply zipw_os. reflexivity.
  - intros [s m'] _. cbn [fst snd]. on. rewrite odiv_some by apply PI4. cbn [res_map oqm]. rewrite (map_os (fun v => v * (k * k * k / (4 * PI * PI)))) by reflexivity. reflexivity.
Qed.
Lemma kernel_B_O dt ptt im g k iq x mu : 0 < k -> atk g k -> good_table dt -> good_table ptt -> rd (gq_x g) iq = Ok x -> -1 < mu < 1 ->
  kernel_B (N := ONum) (opk dt) (opk ptt) im (oq g) iq (Some mu) = res_map os (kernel_B (N := RNum) dt ptt im g iq mu).
Proof.
  intros Hk AT Hd Ht Ex Hmu. unfold kernel_B. cbn [oq gq_x gq_q gq_pk gq_k]. rdv Ex. destruct (ak_x g k AT iq x Ex) as [Hx Eq]. rewrite (ak_k g k AT).
  pws (powers5 x). pws (powers5 mu). do 7 rdc. rdv Eq. assert (0 < x * k) by (apply Rmult_lt_0_compat; lra).
  on. rewrite osqrt_some by (apply Rlt_le, xmu_pos, Hmu). on. fold (third k x mu). pose proof (third_pos k x mu Hk Hmu).
  pose proof (xmu_pos x mu Hmu) as HX. assert (HXX : 1 + x * x - 2 * mu * x <> 0) by lra.
  do 4 (apply (bind_lift Some); [apply find1_O; assumption|]; intros ? _). rewrite !power_O. cbn [res_map]. f_equal.
  set (X := 1 + x * x - 2 * mu * x) in *. clearbody X. rewrite <- (map_os (fun v => v / X) (fun v => odiv v (Some X))) by (intros; apply odiv_some, HXX).
  on. f_equal. ov ltac:(first [exact HXX|nz]). reflexivity.
Qed.
Lemma calc_pk_B_O dt ptt im g m k : good_table dt -> good_table ptt -> posq g -> inmu m -> 0 < k ->
  calc_pk_B (N := ONum) (opk dt) (opk ptt) im (oq g) (om m) (Some k) = res_map oqm (calc_pk_B (N := RNum) dt ptt im g m k).
Proof.
  intros Hd Ht Hg Hm Hk. unfold calc_pk_B. apply (bind_lift oq); [apply update_q_O; lra|]. intros g' E. pose proof (update_q_at g k g' Hg Hk E) as AT.
  apply (bind_lift (fun s : list R * glmu RNum => (os (fst s), om (snd s)))).
  - apply (q_loop_O true g' m k); [exact AT|exact Hm| |].
    + intros iq x mu Ex Hmu. apply (kernel_B_O dt ptt im g' k iq x mu); assumption.
    + intros iq x l Ex. cbn [oq gq_w]. rdl w Ew. cbn [res_map]. f_equal. apply map_os. reflexivity.
  - intros [s m'] _. cbn [fst snd]. on. rewrite odiv_some by apply PI2. cbn [res_map oqm]. rewrite (map_os (fun v => v * (k * k * k / (2 * PI * PI)))) by reflexivity. reflexivity.
Qed.
