(** ProofDefined10: when the columns and rows of a run have a value. *)
From Coq Require Import ZArith Lia List Reals Lra String.
From Verif Require Import Base Num BaseFacts Spec Common Kernels GExpr Gamma2 Integrals Registry Threads SpecDefined SpecThreads ProofSearch ProofKernels ProofGL ProofGL2 ProofFindPkR ProofIntegrals4 ProofIntegrals7
  ProofDefined ProofDefined2 ProofDefined3 ProofDefined4 ProofDefined5 ProofDefined6 ProofDefined7 ProofDefined8 ProofDefined9.
Import ListNotations.
Local Open Scope R_scope.

Lemma scale_norm (u : vec RNum) d : 0 < d -> dot3 (N := RNum) u u = d -> 0 < norm3 (N := RNum) u.
Proof. intros H E. unfold norm3. rewrite E. rn. apply sqrt_lt_R0, H. Qed.
Lemma kernel_A_II_III_O pkl im uv l1 l2 k xx : good_table pkl -> 0 < k -> (forall x, In x xx -> 0 <= x <= 1) ->
  kernel_A_tA_2loop_II_III (N := ONum) (opk pkl) im (Some uv) (Some l1) (Some l2) (Some k) (os xx)
  = res_map os (kernel_A_tA_2loop_II_III (N := RNum) pkl im uv l1 l2 k xx).
Proof.
  intros Hp Hk HX. unfold kernel_A_tA_2loop_II_III. rdl x0 Ex0. rdl x1 Ex1. rdl x2 Ex2. rdl x3 Ex3. rdl x4 Ex4.
  apply rd_In, HX in Ex1. clear Ex0 Ex2 Ex3 Ex4. on. lits.
  set (p := exp (l1 + (l2 - l1) * x0)). set (q := exp (l1 + (l2 - l1) * x2)). set (mu := - (1) + 2 * x1).
  assert (P0 : 0 < p) by apply exp_pos. assert (Q0 : 0 < q) by apply exp_pos. assert (Hmu : -1 <= mu <= 1) by (unfold mu; lra). clearbody p q mu.
  rewrite !(odiv_some p k) by lra. assert (X0 : 0 < p / k) by (apply Rdiv_lt_0_compat; assumption). assert (Epx : p = p / k * k) by (field; lra). set (x := p / k) in *. clearbody x.
  rewrite !(odiv_some (5 / 10) x) by lra. on. destruct (Rltb_spec (5 / 10 / x) mu) as [C|C]; [rewrite repeat_os; reflexivity|]. apply Rnot_lt_le in C.
  assert (C2 : mu * x <= 5 / 10). { apply (Rmult_le_compat_r x) in C; [|lra]. replace (5 / 10 / x * x) with (5 / 10) in C by (field; lra). exact C. }
  assert (HT : 0 < 1 + x * x - 2 * x * mu) by nra.
  rewrite !(osqrt_some (1 - mu * mu)) by nra. rewrite !(osqrt_some (1 + x * x - 2 * x * mu)) by lra. on. cbn [v0 v1 v2]. on.
  set (pp := mkV (N := RNum) (p * sqrt (1 - mu * mu)) 0 (p * mu)).
  set (qq := mkV (N := RNum) (q * sin (x3 * PI) * cos (x4 * 2 * PI)) (q * sin (x3 * PI) * sin (x4 * 2 * PI)) (q * cos (x3 * PI))).
  set (okk := mkV (N := RNum) 0 0 (- k)).
  set (kkpp := mkV (N := RNum) (- 0 - p * sqrt (1 - mu * mu)) (- 0 - 0) (- - k - p * mu)).
  change (mkV (N := ONum) (Some (p * sqrt (1 - mu * mu))) (Some 0) (Some (p * mu))) with (ovec pp).
  change (mkV (N := ONum) (Some (q * sin (x3 * PI) * cos (x4 * 2 * PI))) (Some (q * sin (x3 * PI) * sin (x4 * 2 * PI))) (Some (q * cos (x3 * PI)))) with (ovec qq).
  change (mkV (N := ONum) (Some 0) (Some 0) (Some (- k))) with (ovec okk).
  change (mkV (N := ONum) (Some (- 0 - p * sqrt (1 - mu * mu))) (Some (- 0 - 0)) (Some (- - k - p * mu))) with (ovec kkpp).
  assert (S2 : sqrt (1 - mu * mu) * sqrt (1 - mu * mu) = 1 - mu * mu) by (apply sqrt_sqrt; nra).
  assert (N1 : 0 < norm3 (N := RNum) pp).
  { apply (scale_norm _ (p * p)); [apply Rmult_lt_0_compat; lra|]. unfold dot3, pp. cbn [v0 v1 v2]. rn. set (s := sqrt (1 - mu * mu)) in *.
    replace (p * s * (p * s) + 0 * 0 + p * mu * (p * mu)) with (p * p * (s * s + mu * mu)) by ring. rewrite S2. ring. }
  assert (N2 : 0 < norm3 (N := RNum) qq).
  { apply (scale_norm _ (q * q)); [apply Rmult_lt_0_compat; lra|]. unfold dot3, qq. cbn [v0 v1 v2]. rn. apply sph_norm; [apply sc1|apply cs1]. }
  assert (N3 : 0 < norm3 (N := RNum) okk).
  { apply (scale_norm _ (k * k)); [apply Rmult_lt_0_compat; lra|]. unfold dot3, okk. cbn [v0 v1 v2]. rn. ring. }
  assert (N4 : 0 < norm3 (N := RNum) kkpp).
  { apply (scale_norm _ (k * k * (1 + x * x - 2 * x * mu))); [repeat apply Rmult_lt_0_compat; lra|]. unfold dot3, kkpp. cbn [v0 v1 v2]. rn. set (s := sqrt (1 - mu * mu)) in *.
    replace ((- 0 - p * s) * (- 0 - p * s) + (- 0 - 0) * (- 0 - 0) + (- - k - p * mu) * (- - k - p * mu)) with (p * p * (s * s) + (k - p * mu) * (k - p * mu)) by ring. rewrite S2, Epx. ring. }
  clearbody pp qq okk kkpp.
  sg s1. sg s2. sg s3. on. rewrite !odiv_some by (apply not_0_IZR; lia). on. destruct (Rleb _ _); [rewrite repeat_os; reflexivity|].
  do 8 (apply (bind_lift op); [apply bispectrum_II_III_O; assumption|]; intros [? ?] _; unfold op; cbn [fst snd]).
  rewrite projection_O by lra. destruct (kernel_projection_A_tA (N := RNum) x mu) as [pA ptA]. cbn [opair fst snd]. on.
  match goal with |- A_components (N := ONum) ?l (map _ (os ?u)) (map _ (os ?v)) = res_map os (A_components (N := RNum) ?l' (map ?f ?u) (map ?f ?v)) =>
    change l with (os l'); rewrite (map_os f) by reflexivity; rewrite (map_os f) by reflexivity end.
  apply A_components_O.
Qed.
