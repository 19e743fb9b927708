(** ProofIntegrals4: the kernels of the 1-loop A and B terms. *)
From Coq Require Import Reals Lra Lia List.
From Coquelicot Require Import Coquelicot.
From Verif Require Import Base Num BaseFacts Common Kernels Gamma2 Integrals Spec SpecPT SpecIntegrals SpecLoops SpecTable Sums ProofSearch ProofKernels ProofGL2 ProofIntegrals ProofIntegrals2 ProofIntegrals3.
Import ListNotations.
Local Open Scope R_scope.

Lemma powers5 (x : R) : powers (N := RNum) x (repeat (nZ RNum 0) 5) 5 = Ok [1; x; x * x; x * x * x; x * x * x * x].
Proof. reflexivity. Qed.
Lemma power2 (x : R) : power (N := RNum) x 2 = x ^ 2.
Proof. exact (power_R x 2 ltac:(lia)). Qed.
Lemma power3 (x : R) : power (N := RNum) x 3 = x ^ 3.
Proof. exact (power_R x 3 ltac:(lia)). Qed.
Lemma power4 (x : R) : power (N := RNum) x 4 = x ^ 4.
Proof. exact (power_R x 4 ltac:(lia)). Qed.

Ltac rd5 := repeat match goal with
  | |- context [@rd ?A [?a; ?b; ?c; ?d; ?e] 1] => change (@rd A [a; b; c; d; e] 1) with (@Ok A b); cbn [bind]
  | |- context [@rd ?A [?a; ?b; ?c; ?d; ?e] 2] => change (@rd A [a; b; c; d; e] 2) with (@Ok A c); cbn [bind]
  | |- context [@rd ?A [?a; ?b; ?c; ?d; ?e] 3] => change (@rd A [a; b; c; d; e] 3) with (@Ok A d); cbn [bind]
  | |- context [@rd ?A [?a; ?b; ?c; ?d; ?e] 4] => change (@rd A [a; b; c; d; e] 4) with (@Ok A e); cbn [bind] end.

(** ** B *)
Definition kB (c : nat) (dq dkq tq tkq x mu : R) : R :=
  let X := 1 + x * x - 2 * mu * x in
  nth c
  [ x ^ 2 * (mu ^ 2 - 1) / 2 / X * (dkq * dq);
    3 * x ^ 2 * (mu ^ 2 - 1) ^ 2 / 8 / X * (dkq * tq);
    3 * x ^ 4 * (mu ^ 2 - 1) ^ 2 / X / 8 / X * (tkq * dq);
    5 * x ^ 4 * (mu ^ 2 - 1) ^ 3 / X / 16 / X * (tkq * tq);
    x * (x + 2 * mu - 3 * x * mu ^ 2) / 2 / X * (dkq * dq);
    - 3 * x * (mu ^ 2 - 1) * (- x - 2 * mu + 5 * x * mu ^ 2) / 4 / X * (dkq * tq);
    3 * x ^ 2 * (mu ^ 2 - 1) * (- 2 + x ^ 2 + 6 * x * mu - 5 * x ^ 2 * mu ^ 2) / X / 4 / X * (tkq * dq);
    - 3 * x ^ 2 * (mu ^ 2 - 1) ^ 2 * (6 - 5 * x ^ 2 - 30 * x * mu + 35 * x ^ 2 * mu ^ 2) / X / 16 / X * (tkq * tq);
    x * (4 * mu * (3 - 5 * mu ^ 2) + x * (3 - 30 * mu ^ 2 + 35 * mu ^ 4)) / 8 / X * (dkq * tq);
    x * ((-8) * mu + x * (-12 + 36 * mu ^ 2 + 12 * x * mu * (3 - 5 * mu ^ 2) + x ^ 2 * (3 - 30 * mu ^ 2 + 35 * mu ^ 4))) / X / 8 / X * (tkq * dq);
    3 * x * (mu ^ 2 - 1) * (- 8 * mu + x * (- 12 + 60 * mu ^ 2 + 20 * x * mu * (3 - 7 * mu ^ 2) + 5 * x ^ 2 * (1 - 14 * mu ^ 2 + 21 * mu ^ 4))) / X / 16 / X * (tkq * tq);
    x * (8 * mu * (- 3 + 5 * mu ^ 2) - 6 * x * (3 - 30 * mu ^ 2 + 35 * mu ^ 4) + 6 * x ^ 2 * mu * (15 - 70 * mu ^ 2 + 63 * mu ^ 4)
        + x ^ 3 * (5 - 21 * mu ^ 2 * (5 - 15 * mu ^ 2 + 11 * mu ^ 4))) / X / 16 / X * (tkq * tq) ] 0.
Lemma kernel_B_val pk_dt pk_tt im Pd Pt P (g0 g : glq RNum) k i mu :
  lookup_is pk_dt im Pd -> lookup_is pk_tt im Pt -> q_table P g0 -> 0 < k -> update_gauss_legendre_q g0 k = Ok g -> (0 <= i < gq_nq g)%Z ->
  -1 <= mu <= 1 -> 0 < sep (znth 0 (gq_x g) i) mu ->
  kernel_B pk_dt pk_tt im g i mu = Ok (comps 12 (fun c => let x := at_ (xs_of g0 k) (Z.to_nat i) in
    kB c (Pd (k * x)) (Pd (k * sep x mu)) (Pt (k * x)) (Pt (k * sep x mu)) x mu)).
Proof.
  intros HD HT Hg Hk E Hi Hm Hs. destruct (q_updated P g0 k Hg Hk) as [g' [E' [A1 [A2 [A3 [A4 [A5 [A6 [A7 [A8 [A9 A10]]]]]]]]]]].
  rewrite E in E'. injection E' as <-. destruct (A10 i Hi) as [R1 [R2 [R3 [R4 [R5 R6]]]]].
  unfold kernel_B. rewrite R1. cbn [bind]. rewrite <- R3. rewrite !powers5. cbn [bind].
  set (x := znth 0 (gq_x g) i) in *.
  rd5.
  rewrite R4, A1. cbn [bind]. rn. fold (sep x mu).
  assert (Hkx : 0 < k * x) by (apply Rmult_lt_0_compat; assumption).
  assert (Hks : 0 < k * sep x mu) by (apply Rmult_lt_0_compat; assumption).
  pose proof (X_pos x mu R2 Hm Hs) as HX. cbn zeta in HX.
  rewrite !HD, !HT by assumption. cbn [bind]. apply f_equal. unfold comps, kB. cbn [map seq nth].
  rewrite !power2, !power3.
  set (X := 1 + x * x - 2 * mu * x) in *. clearbody X.
  rn. repeat (apply f_equal2; [field; lra|]). reflexivity.
Qed.
Lemma avg_scal f v c : azimuth_average f v -> azimuth_average (fun t => c * f t) (c * v).
Proof.
  intros H. unfold azimuth_average in *. replace (2 * PI * (c * v)) with (c * (2 * PI * v)) by ring.
  exact (is_RInt_scal (V := R_NormedModule) f 0 (2 * PI) c _ H).
Qed.
Lemma kB_averaged Pd Pt k x mu nu : 0 < k -> 0 < x -> -1 <= mu <= 1 -> -1 <= nu <= 1 -> 0 < sep x mu ->
  B_averaged Pd Pt (fun c => kB c (Pd (k * x)) (Pd (k * sep x mu)) (Pt (k * x)) (Pt (k * sep x mu)) x mu) k x mu nu.
Proof.
  intros Hk Hx Hm Hn Hs. destruct (B_averages k x mu nu _ Hk Hx Hm Hn Hs eq_refl) as [H1 [H2 [H3 H4]]].
  pose proof (X_pos x mu Hx Hm Hs) as HX. cbn zeta in HX.
  unfold B_averaged, kB. cbn [nth]. cbn zeta in *.
  set (dq := Pd (k * x)). set (dkq := Pd (k * sep x mu)). set (tq := Pt (k * x)). set (tkq := Pt (k * sep x mu)).
  set (X := 1 + x * x - 2 * mu * x) in *. clearbody X dq dkq tq tkq.
  split; [|split; [|split]].
  - refine (avg_ext _ _ _ _ _ _ (avg_scal _ _ (dkq * dq) H1)); [intros; ring|]. field. lra.
  - refine (avg_ext _ _ _ _ _ _ (avg_scal _ _ (dkq * tq) H2)); [intros; ring|]. field. lra.
  - refine (avg_ext _ _ _ _ _ _ (avg_scal _ _ (tkq * dq) H3)); [intros; ring|]. field. lra.
  - refine (avg_ext _ _ _ _ _ _ (avg_scal _ _ (tkq * tq) H4)); [intros; ring|]. field. lra.
Qed.
Lemma calc_B_val pk_dt pk_tt im Pd Pt P (g : glq RNum) (m : glmu RNum) k :
  lookup_is pk_dt im Pd -> lookup_is pk_tt im Pt -> q_table P g -> mu_rule m -> 0 < k ->
  exists g' m', calc_pk_B pk_dt pk_tt im g m k =
    Ok (comps 12 (fun c => k * k * k / (2 * PI * PI) *
         itquad true (xs_of g k) (fun i => at_ (xs_of g k) i * at_ (gq_w g) i) (gm_muref m) (gm_wref m)
           (fun i mu => let x := at_ (xs_of g k) i in kB c (Pd (k * x)) (Pd (k * sep x mu)) (Pt (k * x)) (Pt (k * sep x mu)) x mu)), g', m').
Proof.
  intros HD HT Hg Hm Hk. unfold calc_pk_B.
  destruct (q_updated P g k Hg Hk) as [g' [E [A1 [A2 [A3 [A4 [A5 [A6 [A7 [A8 [A9 A10]]]]]]]]]]].
  rewrite E. cbn [bind].
  match goal with |- context [q_loop true g' m 12 ?kern ?add] =>
  destruct (q_loop_itquad true P g g' m 12 kern add
    (fun c i mu => let x := at_ (xs_of g k) i in kB c (Pd (k * x)) (Pd (k * sep x mu)) (Pt (k * x)) (Pt (k * sep x mu)) x mu)
    (fun i => at_ (xs_of g k) i * at_ (gq_w g) i) k Hm Hg Hk E) as [m' [EQ _]] end.
  - intros i mu Hi Ha. destruct A9 as [A9 _]. destruct (allowed_sep _ _ _ _ _ A9 Ha) as [Hmu Hs].
    exact (kernel_B_val pk_dt pk_tt im Pd Pt P g g' k i mu HD HT Hg Hk E Hi Hmu Hs).
  - intros i f Hi. destruct (A10 i Hi) as [R1 [R2 [R3 [R4 [R5 R6]]]]]. rewrite R6. cbn [bind].
    rewrite <- R3. unfold comps. rewrite map_map. apply f_equal. apply map_ext. intros c. rn. ring.
  - exists g', m'. change (T RNum) with R in *. rewrite EQ. cbn [bind]. apply f_equal. do 2 (apply f_equal2; [|reflexivity]).
    unfold comps. rewrite map_map. apply map_ext. intros c. rn. ring.
Qed.
