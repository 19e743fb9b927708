(** ProofDefined6: when the mode-coupling integrals have a value (continued). *)
From Coq Require Import ZArith Lia List Reals Lra.
From Verif Require Import Base Num BaseFacts Spec Common Kernels GExpr Gamma2 Integrals SpecDefined ProofSearch ProofKernels ProofGL ProofGL2 ProofFindPkR ProofIntegrals4 ProofIntegrals7
  ProofDefined ProofDefined2 ProofDefined3 ProofDefined4 ProofDefined5.
Import ListNotations.
Local Open Scope R_scope.

(** Tables in which a lookup makes sense *)
Lemma find1_O pk im k : good_table pk -> 0 < k -> find1 (N := ONum) (opk pk) im (Some k) = res_map Some (find1 (N := RNum) pk im k).
Proof.
  intros [(K & P & -> & H1 & H2 & H3 & H4)] Hk. unfold find1. change [Some k] with (os [k]).
  apply (bind_lift os); [apply find_pk_O; auto; intros x [<-|[]]; exact Hk|]. intros l _. apply rd_os.
Qed.
Lemma sigmad2_1_O pk uv k : good_table pk -> sigmad2_1 (N := ONum) (opk pk) (Some uv) (Some k) = res_map Some (sigmad2_1 (N := RNum) pk uv k).
Proof.
  intros [(K & P & -> & H1 & H2 & H3 & H4)]. unfold sigmad2_1. change [Some k] with (os [k]).
  apply (bind_lift os); [apply calc_running_sigmad2_O; auto|]. intros l _. apply rd_os.
Qed.
Ltac rdv Ex := apply (bind_lift Some); [apply rd_os|]; let y := fresh "y" in let F := fresh "F" in let G := fresh "G" in intros y F;
  pose proof (eq_trans (eq_sym F) Ex) as G; injection G as ->; clear F.
Ltac pws Hp := apply (bind_lift os); [rewrite repeat_os; apply powers_O|]; let l := fresh "l" in let F := fresh "F" in let G := fresh "G" in intros l F;
  pose proof (eq_trans (eq_sym F) Hp) as G; injection G as ->; clear F.
Ltac rdc := apply (bind_lift Some); [apply rd_os|]; let y := fresh "y" in let F := fresh "F" in intros y F;
  match type of F with rd ?l ?i = Ok y => let n := eval compute in (Z.to_nat i) in let v := eval cbn [nth] in (nth n l 0) in
    assert (G : Ok v = Ok y) by exact F; injection G as <-; clear F end.
Ltac fnd v := apply (bind_lift Some); [apply find1_O; assumption|]; intros v _.

(** The third side of the triangle *)
Definition third (k x mu : R) : R := k * sqrt (1 + x * x - 2 * mu * x).
Lemma third_pos k x mu : 0 < k -> -1 < mu < 1 -> 0 < third k x mu.
Proof. intros Hk H. apply Rmult_lt_0_compat; [exact Hk|]. apply sqrt_lt_R0, xmu_pos, H. Qed.
Lemma third_sq k x mu : -1 < mu < 1 -> third k x mu * third k x mu = k * k * (1 + x * x - 2 * mu * x).
Proof.
  intros H. unfold third. pose proof (sqrt_sqrt _ (Rlt_le _ _ (xmu_pos x mu H))) as Q. set (s := sqrt _) in *. nra.
Qed.
Lemma third_strict k x mu : 0 < k -> 0 < x -> -1 < mu < 1 -> strict (third k x mu) (x * k) k.
Proof.
  intros Hk Hx H. pose proof (third_pos k x mu Hk H) as HT. pose proof (third_sq k x mu H) as HS. set (t := third k x mu) in *. clearbody t.
  assert (Hxk : 0 < x * k) by (apply Rmult_lt_0_compat; lra). assert (Hkk : 0 < k * (x * k)) by (apply Rmult_lt_0_compat; lra).
  assert (A1 : k * (x * k) * mu < k * (x * k) * 1) by (apply Rmult_lt_compat_l; lra).
  assert (A2 : k * (x * k) * -1 < k * (x * k) * mu) by (apply Rmult_lt_compat_l; lra).
  unfold strict. repeat split; apply Rnot_le_lt; intro C.
  - assert ((x * k + k) * (x * k + k) <= t * t) by (apply Rmult_le_compat; lra). lra.
  - assert (t + k <= x * k) by lra. assert (t <= x * k - k) by lra. assert (t * t <= (x * k - k) * (x * k - k)) by (apply Rmult_le_compat; lra). lra.
  - assert (t <= k - x * k) by lra. assert (t * t <= (k - x * k) * (k - x * k)) by (apply Rmult_le_compat; lra). lra.
Qed.
Lemma gamma2_stdPT_O gd gt a n k1 k2 k3 : posq gd -> posq gt -> 0 < k1 -> 0 < k2 -> 0 < k3 -> strict k1 k2 k3 ->
  gamma2_stdPT (N := ONum) (oq gd) (oq gt) a n (Some k1) (Some k2) (Some k3) = res_map Some (gamma2_stdPT (N := RNum) gd gt a n k1 k2 k3).
Proof.
  intros Hd Ht H1 H2 H3 HS. unfold gamma2_stdPT. destruct (n =? 0)%Z; [rewrite gamma2_tree_O by lra; reflexivity|].
  destruct (n =? 1)%Z; [destruct a; apply gamma2_1loop_O; assumption|reflexivity].
Qed.
Section At.
Variables (g : glq RNum) (k : R).
Hypothesis Hk : 0 < k.
Hypothesis AT : atk g k.
Lemma kernel_gamma2_1loop_O pkl im gd gt a b iq x mu : good_table pkl -> posq gd -> posq gt -> rd (gq_x g) iq = Ok x -> -1 < mu < 1 ->
  kernel_pk_gamma2_1loop (N := ONum) (opk pkl) im (oq g) (oq gd) (oq gt) a b iq (Some mu) = res_map os (kernel_pk_gamma2_1loop (N := RNum) pkl im g gd gt a b iq mu).
Proof.
  intros Hp Hd Ht Ex Hmu. unfold kernel_pk_gamma2_1loop. cbn [oq gq_x gq_q gq_pk gq_k]. rdv Ex.
  destruct (ak_x g k AT iq x Ex) as [Hx Eq]. rdv Eq. rewrite (ak_k g k AT).
  on. rewrite osqrt_some by (apply Rlt_le, xmu_pos, Hmu). on. fold (third k x mu). pose proof (third_pos k x mu Hk Hmu). pose proof (third_strict k x mu Hk Hx Hmu).
  assert (0 < x * k) by (apply Rmult_lt_0_compat; lra).
  rdl pq Epq. fnd pkq.
  apply (bind_lift (fun s : R * R * R * R => let '(a, b, c, d) := s in (Some a, Some b, Some c, Some d))).
  - destruct (flag_eqb a b).
    + apply (bind_lift Some); [apply gamma2_stdPT_O; assumption|]. intros u1 _. apply (bind_lift Some); [apply gamma2_stdPT_O; assumption|]. intros u2 _. reflexivity.
    + apply (bind_lift Some); [apply gamma2_stdPT_O; assumption|]. intros u1 _. apply (bind_lift Some); [apply gamma2_stdPT_O; assumption|]. intros u2 _.
      apply (bind_lift Some); [apply gamma2_stdPT_O; assumption|]. intros u3 _. apply (bind_lift Some); [apply gamma2_stdPT_O; assumption|]. intros u4 _. reflexivity.
  - intros [[[u1 u2] u3] u4] _. reflexivity.
Qed.
Lemma kernel_gamma2_tree_O pkl im a b iq x mu : good_table pkl -> rd (gq_x g) iq = Ok x -> -1 < mu < 1 ->
  kernel_pk_gamma2_tree (N := ONum) (opk pkl) im (oq g) a b iq (Some mu) = res_map os (kernel_pk_gamma2_tree (N := RNum) pkl im g a b iq mu).
Proof.
  intros Hp Ex Hmu. unfold kernel_pk_gamma2_tree. cbn [oq gq_x gq_q gq_pk gq_k]. rdv Ex.
  destruct (ak_x g k AT iq x Ex) as [Hx Eq]. rdv Eq. rewrite (ak_k g k AT).
  on. rewrite osqrt_some by (apply Rlt_le, xmu_pos, Hmu). on. fold (third k x mu). pose proof (third_pos k x mu Hk Hmu).
  assert (0 < x * k) by (apply Rmult_lt_0_compat; lra).
  rdl pq Epq. fnd pkq. rewrite !gamma2_tree_O by lra. destruct (flag_eqb a b); reflexivity.
Qed.
(** The kernels of the bias terms *)
Definition lifts (kernel : bias_kernel (N := RNum)) (kernel' : bias_kernel (N := ONum)) : Prop :=
  forall a q kq mu muqkq pk_q pk_kq, 0 < q -> 0 < kq ->
  kernel' a (Some q) (Some kq) (Some mu) (Some muqkq) (Some pk_q) (Some pk_kq) = Some (kernel a q kq mu muqkq pk_q pk_kq).
Lemma lifts_b2 : lifts kernel_b2 kernel_b2.
Proof. intros a q kq mu mm p p' Hq Hkq. unfold kernel_b2. on. rewrite F2_sym_fast_O by (apply Rmult_integral_contrapositive_currified; lra). reflexivity. Qed.
Lemma lifts_bs2 : lifts kernel_bs2 kernel_bs2.
Proof. intros a q kq mu mm p p' Hq Hkq. unfold kernel_bs2. on. rewrite S2_O, F2_sym_fast_O by (apply Rmult_integral_contrapositive_currified; lra). reflexivity. Qed.
Lemma lifts_b22 : lifts kernel_b22 kernel_b22.
Proof. intros a q kq mu mm p p' Hq Hkq. reflexivity. Qed.
Lemma lifts_b2s2 : lifts kernel_b2s2 kernel_b2s2.
Proof. intros a q kq mu mm p p' Hq Hkq. unfold kernel_b2s2. rewrite S2_O. ovn. reflexivity. Qed.
Lemma lifts_bs22 : lifts kernel_bs22 kernel_bs22.
Proof. intros a q kq mu mm p p' Hq Hkq. unfold kernel_bs22. rewrite S2_O. ovn. reflexivity. Qed.
Lemma lifts_sigma3sq : lifts kernel_sigma3sq kernel_sigma3sq.
Proof. intros a q kq mu mm p p' Hq Hkq. unfold kernel_sigma3sq. rewrite S2_O, D2_O. ovn. reflexivity. Qed.
Lemma kernel_bias_O pkl im a kernel kernel' iq x mu : good_table pkl -> lifts kernel kernel' -> rd (gq_x g) iq = Ok x -> -1 < mu < 1 ->
  kernel_pk_bias_1loop (N := ONum) (opk pkl) im (oq g) a kernel' iq (Some mu) = res_map os (kernel_pk_bias_1loop (N := RNum) pkl im g a kernel iq mu).
Proof.
  intros Hp HL Ex Hmu. unfold kernel_pk_bias_1loop. cbn [oq gq_x gq_q gq_pk gq_k]. rdv Ex.
  destruct (ak_x g k AT iq x Ex) as [Hx Eq]. rdv Eq. rewrite (ak_k g k AT).
  on. rewrite osqrt_some by (apply Rlt_le, xmu_pos, Hmu). on. fold (third k x mu). pose proof (third_pos k x mu Hk Hmu).
  assert (0 < x * k) by (apply Rmult_lt_0_compat; lra).
  rdl pq Epq. fnd pkq. cbn [res_map]. ov ltac:(lra). rewrite HL by assumption. reflexivity.
Qed.
Lemma kernel_A_O pkl im pk_k iq x mu : good_table pkl -> rd (gq_x g) iq = Ok x -> -1 < mu < 1 ->
  kernel_A_tA_1loop (N := ONum) (opk pkl) im (oq g) (Some pk_k) iq (Some mu) = res_map os (kernel_A_tA_1loop (N := RNum) pkl im g pk_k iq mu).
Proof.
  intros Hp Ex Hmu. unfold kernel_A_tA_1loop. cbn [oq gq_x gq_q gq_pk gq_k]. rdv Ex.
  destruct (ak_x g k AT iq x Ex) as [Hx Eq]. rewrite (ak_k g k AT).
  pws (powers5 x). pws (powers5 mu). do 8 rdc.
  on. rewrite osqrt_some by (apply Rlt_le, xmu_pos, Hmu). on. fold (third k x mu). pose proof (third_pos k x mu Hk Hmu).
  rdl pq Epq. fnd pkq. cbn [res_map]. pose proof (xmu_pos x mu Hmu) as HX.
  assert (HXX : (1 + x * x - 2 * mu * x) * (1 + x * x - 2 * mu * x) <> 0) by (apply Rmult_integral_contrapositive_currified; lra).
  rewrite (odiv_some _ _ HXX). ovn. reflexivity.
Qed.
End At.
