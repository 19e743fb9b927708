(** ProofIntegrals3: the redshift-space kernels are azimuthal averages of the couplings to the line of sight. *)
From Coq Require Import Reals Lra Lia List.
From Coquelicot Require Import Coquelicot.
From Verif Require Import Base Num BaseFacts Common Kernels Gamma2 Integrals Spec SpecPT SpecIntegrals SpecLoops SpecTable Sums ProofSearch ProofKernels ProofGL2 ProofIntegrals ProofIntegrals2.
Import ListNotations.
Local Open Scope R_scope.

(** ** Averages of polynomials of degree 6 in cos phi *)
Definition cpoly (a0 a1 a2 a3 a4 a5 a6 c : R) : R :=
  a0 + a1 * c + a2 * c ^ 2 + a3 * c ^ 3 + a4 * c ^ 4 + a5 * c ^ 5 + a6 * c ^ 6.
Definition cprim (a0 a1 a2 a3 a4 a5 a6 t : R) : R :=
  (a0 + a2 / 2 + 3 / 8 * a4 + 5 / 16 * a6) * t + a1 * sin t + a2 / 2 * (sin t * cos t)
  + a3 * (sin t - sin t ^ 3 / 3) + a4 * (3 / 8 * (sin t * cos t) + sin t * cos t ^ 3 / 4)
  + a5 * (sin t - 2 / 3 * sin t ^ 3 + sin t ^ 5 / 5)
  + a6 * (sin t * cos t * (5 / 16 + 5 / 24 * cos t ^ 2 + cos t ^ 4 / 6)).
Lemma cprim_derive a0 a1 a2 a3 a4 a5 a6 t :
  is_derive (cprim a0 a1 a2 a3 a4 a5 a6) t (cpoly a0 a1 a2 a3 a4 a5 a6 (cos t)).
Proof.
  unfold cprim, cpoly. auto_derive; [exact I|].
  assert (E : sin t ^ 2 = 1 - cos t ^ 2) by (pose proof (sin2_cos2 t) as H; unfold Rsqr in H; nra).
  set (s := sin t) in *. set (c := cos t) in *. simpl pred.
  replace (s ^ 4) with ((s ^ 2) ^ 2) by ring. rewrite ?E.
  ring_simplify. replace (s ^ 4) with ((s ^ 2) ^ 2) by ring. rewrite ?E. field.
Qed.
Lemma average_cpoly (f : R -> R) a0 a1 a2 a3 a4 a5 a6 : (forall t, f t = cpoly a0 a1 a2 a3 a4 a5 a6 (cos t)) ->
  azimuth_average f (a0 + a2 / 2 + 3 / 8 * a4 + 5 / 16 * a6).
Proof.
  intros Hf. unfold azimuth_average.
  apply (is_RInt_ext (fun t => cpoly a0 a1 a2 a3 a4 a5 a6 (cos t))); [intros; symmetry; apply Hf|].
  replace (2 * PI * (a0 + a2 / 2 + 3 / 8 * a4 + 5 / 16 * a6))
    with (minus (G := R_AbelianGroup) (cprim a0 a1 a2 a3 a4 a5 a6 (2 * PI)) (cprim a0 a1 a2 a3 a4 a5 a6 0)).
  2:{ match goal with |- @eq _ (minus ?u ?v) ?a => change (@eq R (u - v) a) end. unfold cprim. rewrite sin_2PI, cos_2PI, sin_0, cos_0. field. }
  apply (is_RInt_derive (V := R_CompleteNormedModule)).
  - intros; apply cprim_derive.
  - intros t _. apply (ex_derive_continuous (fun u => cpoly a0 a1 a2 a3 a4 a5 a6 (cos u))).
    eexists. unfold cpoly. auto_derive; [exact I|reflexivity].
Qed.

(** ** Components along the line of sight *)
Section Geometry.
Context (k x mu nu : R) (Hk : 0 < k) (Hx : 0 < x) (Hmu : -1 <= mu <= 1) (Hnu : -1 <= nu <= 1) (Hs : 0 < sep x mu).
Let B := sqrt (1 - mu * mu) * sqrt (1 - nu * nu).
Let X := 1 + x * x - 2 * mu * x.
Lemma dot_qphi_los phi : dot (qphi k x mu phi) (los nu) = k * x * (mu * nu + B * cos phi).
Proof. unfold qphi, los, dot, B. ring. Qed.
Lemma dot_kqphi_los phi : dot (kqphi k x mu phi) (los nu) = k * (nu - x * (mu * nu + B * cos phi)).
Proof. unfold kqphi. rewrite dot_plus_l, dot_opp_l, dot_qphi_los. unfold kvec, los, dot. ring. Qed.
Lemma dot_qphi phi : dot (qphi k x mu phi) (qphi k x mu phi) = (k * x) ^ 2.
Proof.
  unfold qphi, dot. pose proof (sqrt_sqrt _ (one_mu2 mu Hmu)) as E. pose proof (sin2_cos2 phi) as F. unfold Rsqr in F.
  set (s := sqrt (1 - mu * mu)) in *. set (c := cos phi) in *. set (d := sin phi) in *.
  replace (k * x * s * c * (k * x * s * c) + k * x * s * d * (k * x * s * d) + k * x * mu * (k * x * mu))
    with ((k * x) ^ 2 * ((s * s) * (d * d + c * c) + mu * mu)) by ring.
  rewrite E, F. ring.
Qed.
Lemma dot_kqphi phi : dot (kqphi k x mu phi) (kqphi k x mu phi) = k ^ 2 * X.
Proof.
  unfold kqphi. rewrite !dot_plus_l, !dot_plus_r, !dot_opp_l, !dot_opp_r, dot_qphi. unfold kvec, qphi, dot, X. ring.
Qed.
Lemma B2 : B * B = (1 - mu * mu) * (1 - nu * nu).
Proof.
  unfold B. replace (sqrt (1 - mu * mu) * sqrt (1 - nu * nu) * (sqrt (1 - mu * mu) * sqrt (1 - nu * nu)))
    with ((sqrt (1 - mu * mu) * sqrt (1 - mu * mu)) * (sqrt (1 - nu * nu) * sqrt (1 - nu * nu))) by ring.
  rewrite !sqrt_sqrt by (apply one_mu2; assumption). reflexivity.
Qed.
Lemma X_pos : 0 < X.
Proof. unfold X. rewrite <- sep_sq by lra. apply Rmult_lt_0_compat; exact Hs. Qed.
End Geometry.

(** Averages of z^i w^j for z = A + b cos phi, w = D - x b cos phi. *)
Lemma avg_10 (A b D x b2 C : R) : b * b = b2 ->
  azimuth_average (fun t => C * ((A + b * cos t) ^ 1))
    (C * (((1) * A ^ 1))).
Proof.
  intros E. 
  pose proof (average_cpoly (fun t => C * ((A + b * cos t) ^ 1))
    (C * ((1) * A ^ 1)) (C * ((1) * b)) (C * (0)) (C * (0)) (C * (0)) (C * (0)) (C * (0))) as H.
  match type of H with _ -> azimuth_average _ ?v => match goal with |- azimuth_average _ ?u => replace u with v by (field; lra) end end.
  apply H. intros t. unfold cpoly. rewrite <- ?E. ring.
Qed.
Lemma avg_01 (A b D x b2 C : R) : b * b = b2 ->
  azimuth_average (fun t => C * ((D - x * b * cos t) ^ 1))
    (C * (((1) * D ^ 1))).
Proof.
  intros E. 
  pose proof (average_cpoly (fun t => C * ((D - x * b * cos t) ^ 1))
    (C * ((1) * D ^ 1)) (C * ((-1) * x ^ 1 * b)) (C * (0)) (C * (0)) (C * (0)) (C * (0)) (C * (0))) as H.
  match type of H with _ -> azimuth_average _ ?v => match goal with |- azimuth_average _ ?u => replace u with v by (field; lra) end end.
  apply H. intros t. unfold cpoly. rewrite <- ?E. ring.
Qed.
Lemma avg_11 (A b D x b2 C : R) : b * b = b2 ->
  azimuth_average (fun t => C * ((A + b * cos t) ^ 1 * (D - x * b * cos t) ^ 1))
    (C * (((1) * A ^ 1 * D ^ 1) + ((-1) * x ^ 1 * b2 ^ 1) / 2)).
Proof.
  intros E. 
  pose proof (average_cpoly (fun t => C * ((A + b * cos t) ^ 1 * (D - x * b * cos t) ^ 1))
    (C * ((1) * A ^ 1 * D ^ 1)) (C * ((-1) * A ^ 1 * x ^ 1 * b + (1) * D ^ 1 * b)) (C * ((-1) * x ^ 1 * b2 ^ 1)) (C * (0)) (C * (0)) (C * (0)) (C * (0))) as H.
  match type of H with _ -> azimuth_average _ ?v => match goal with |- azimuth_average _ ?u => replace u with v by (field; lra) end end.
  apply H. intros t. unfold cpoly. rewrite <- ?E. ring.
Qed.
Lemma avg_12 (A b D x b2 C : R) : b * b = b2 ->
  azimuth_average (fun t => C * ((A + b * cos t) ^ 1 * (D - x * b * cos t) ^ 2))
    (C * (((1) * A ^ 1 * D ^ 2) + ((1) * A ^ 1 * x ^ 2 * b2 ^ 1 + (-2) * D ^ 1 * x ^ 1 * b2 ^ 1) / 2)).
Proof.
  intros E. 
  pose proof (average_cpoly (fun t => C * ((A + b * cos t) ^ 1 * (D - x * b * cos t) ^ 2))
    (C * ((1) * A ^ 1 * D ^ 2)) (C * ((-2) * A ^ 1 * D ^ 1 * x ^ 1 * b + (1) * D ^ 2 * b)) (C * ((1) * A ^ 1 * x ^ 2 * b2 ^ 1 + (-2) * D ^ 1 * x ^ 1 * b2 ^ 1)) (C * ((1) * x ^ 2 * b * b2 ^ 1)) (C * (0)) (C * (0)) (C * (0))) as H.
  match type of H with _ -> azimuth_average _ ?v => match goal with |- azimuth_average _ ?u => replace u with v by (field; lra) end end.
  apply H. intros t. unfold cpoly. rewrite <- ?E. ring.
Qed.
Lemma avg_21 (A b D x b2 C : R) : b * b = b2 ->
  azimuth_average (fun t => C * ((A + b * cos t) ^ 2 * (D - x * b * cos t) ^ 1))
    (C * (((1) * A ^ 2 * D ^ 1) + ((-2) * A ^ 1 * x ^ 1 * b2 ^ 1 + (1) * D ^ 1 * b2 ^ 1) / 2)).
Proof.
  intros E. 
  pose proof (average_cpoly (fun t => C * ((A + b * cos t) ^ 2 * (D - x * b * cos t) ^ 1))
    (C * ((1) * A ^ 2 * D ^ 1)) (C * ((-1) * A ^ 2 * x ^ 1 * b + (2) * A ^ 1 * D ^ 1 * b)) (C * ((-2) * A ^ 1 * x ^ 1 * b2 ^ 1 + (1) * D ^ 1 * b2 ^ 1)) (C * ((-1) * x ^ 1 * b * b2 ^ 1)) (C * (0)) (C * (0)) (C * (0))) as H.
  match type of H with _ -> azimuth_average _ ?v => match goal with |- azimuth_average _ ?u => replace u with v by (field; lra) end end.
  apply H. intros t. unfold cpoly. rewrite <- ?E. ring.
Qed.
Lemma avg_31 (A b D x b2 C : R) : b * b = b2 ->
  azimuth_average (fun t => C * ((A + b * cos t) ^ 3 * (D - x * b * cos t) ^ 1))
    (C * (((1) * A ^ 3 * D ^ 1) + ((-3) * A ^ 2 * x ^ 1 * b2 ^ 1 + (3) * A ^ 1 * D ^ 1 * b2 ^ 1) / 2 + 3 / 8 * ((-1) * x ^ 1 * b2 ^ 2))).
Proof.
  intros E. 
  pose proof (average_cpoly (fun t => C * ((A + b * cos t) ^ 3 * (D - x * b * cos t) ^ 1))
    (C * ((1) * A ^ 3 * D ^ 1)) (C * ((-1) * A ^ 3 * x ^ 1 * b + (3) * A ^ 2 * D ^ 1 * b)) (C * ((-3) * A ^ 2 * x ^ 1 * b2 ^ 1 + (3) * A ^ 1 * D ^ 1 * b2 ^ 1)) (C * ((-3) * A ^ 1 * x ^ 1 * b * b2 ^ 1 + (1) * D ^ 1 * b * b2 ^ 1)) (C * ((-1) * x ^ 1 * b2 ^ 2)) (C * (0)) (C * (0))) as H.
  match type of H with _ -> azimuth_average _ ?v => match goal with |- azimuth_average _ ?u => replace u with v by (field; lra) end end.
  apply H. intros t. unfold cpoly. rewrite <- ?E. ring.
Qed.
Lemma avg_13 (A b D x b2 C : R) : b * b = b2 ->
  azimuth_average (fun t => C * ((A + b * cos t) ^ 1 * (D - x * b * cos t) ^ 3))
    (C * (((1) * A ^ 1 * D ^ 3) + ((3) * A ^ 1 * D ^ 1 * x ^ 2 * b2 ^ 1 + (-3) * D ^ 2 * x ^ 1 * b2 ^ 1) / 2 + 3 / 8 * ((-1) * x ^ 3 * b2 ^ 2))).
Proof.
  intros E. 
  pose proof (average_cpoly (fun t => C * ((A + b * cos t) ^ 1 * (D - x * b * cos t) ^ 3))
    (C * ((1) * A ^ 1 * D ^ 3)) (C * ((-3) * A ^ 1 * D ^ 2 * x ^ 1 * b + (1) * D ^ 3 * b)) (C * ((3) * A ^ 1 * D ^ 1 * x ^ 2 * b2 ^ 1 + (-3) * D ^ 2 * x ^ 1 * b2 ^ 1)) (C * ((-1) * A ^ 1 * x ^ 3 * b * b2 ^ 1 + (3) * D ^ 1 * x ^ 2 * b * b2 ^ 1)) (C * ((-1) * x ^ 3 * b2 ^ 2)) (C * (0)) (C * (0))) as H.
  match type of H with _ -> azimuth_average _ ?v => match goal with |- azimuth_average _ ?u => replace u with v by (field; lra) end end.
  apply H. intros t. unfold cpoly. rewrite <- ?E. ring.
Qed.
Lemma avg_33 (A b D x b2 C : R) : b * b = b2 ->
  azimuth_average (fun t => C * ((A + b * cos t) ^ 3 * (D - x * b * cos t) ^ 3))
    (C * (((1) * A ^ 3 * D ^ 3) + ((3) * A ^ 3 * D ^ 1 * x ^ 2 * b2 ^ 1 + (-9) * A ^ 2 * D ^ 2 * x ^ 1 * b2 ^ 1 + (3) * A ^ 1 * D ^ 3 * b2 ^ 1) / 2 + 3 / 8 * ((-3) * A ^ 2 * x ^ 3 * b2 ^ 2 + (9) * A ^ 1 * D ^ 1 * x ^ 2 * b2 ^ 2 + (-3) * D ^ 2 * x ^ 1 * b2 ^ 2) + 5 / 16 * ((-1) * x ^ 3 * b2 ^ 3))).
Proof.
  intros E. 
  pose proof (average_cpoly (fun t => C * ((A + b * cos t) ^ 3 * (D - x * b * cos t) ^ 3))
    (C * ((1) * A ^ 3 * D ^ 3)) (C * ((-3) * A ^ 3 * D ^ 2 * x ^ 1 * b + (3) * A ^ 2 * D ^ 3 * b)) (C * ((3) * A ^ 3 * D ^ 1 * x ^ 2 * b2 ^ 1 + (-9) * A ^ 2 * D ^ 2 * x ^ 1 * b2 ^ 1 + (3) * A ^ 1 * D ^ 3 * b2 ^ 1)) (C * ((-1) * A ^ 3 * x ^ 3 * b * b2 ^ 1 + (9) * A ^ 2 * D ^ 1 * x ^ 2 * b * b2 ^ 1 + (-9) * A ^ 1 * D ^ 2 * x ^ 1 * b * b2 ^ 1 + (1) * D ^ 3 * b * b2 ^ 1)) (C * ((-3) * A ^ 2 * x ^ 3 * b2 ^ 2 + (9) * A ^ 1 * D ^ 1 * x ^ 2 * b2 ^ 2 + (-3) * D ^ 2 * x ^ 1 * b2 ^ 2)) (C * ((-3) * A ^ 1 * x ^ 3 * b * b2 ^ 2 + (3) * D ^ 1 * x ^ 2 * b * b2 ^ 2)) (C * ((-1) * x ^ 3 * b2 ^ 3))) as H.
  match type of H with _ -> azimuth_average _ ?v => match goal with |- azimuth_average _ ?u => replace u with v by (field; lra) end end.
  apply H. intros t. unfold cpoly. rewrite <- ?E. ring.
Qed.

(** ** The B kernels *)
Lemma avg_ext f g v v' : (forall t, f t = g t) -> v = v' -> azimuth_average g v' -> azimuth_average f v.
Proof. intros H -> HA. unfold azimuth_average in *. apply (is_RInt_ext g); [intros; symmetry; apply H|exact HA]. Qed.
Lemma B_averages (k x mu nu X : R) : 0 < k -> 0 < x -> -1 <= mu <= 1 -> -1 <= nu <= 1 -> 0 < sep x mu -> X = 1 + x * x - 2 * mu * x ->
  let q := qphi k x mu in let kq := kqphi k x mu in let n := los nu in
  azimuth_average (fun t => (k * nu) ^ 2 * x ^ 2 * (coup1 (q t) n * coup1 (kq t) n))
    (nu ^ 2 * (x ^ 2 * (mu ^ 2 - 1) / 2 / X) + nu ^ 4 * (x * (x + 2 * mu - 3 * x * mu ^ 2) / 2 / X)) /\
  azimuth_average (fun t => (k * nu) ^ 2 * x ^ 2 * (coup3 (q t) n * coup1 (kq t) n))
    (- (nu ^ 2 * (3 * x ^ 2 * (mu ^ 2 - 1) ^ 2 / 8 / X) + nu ^ 4 * (- 3 * x * (mu ^ 2 - 1) * (- x - 2 * mu + 5 * x * mu ^ 2) / 4 / X)
        + nu ^ 6 * (x * (4 * mu * (3 - 5 * mu ^ 2) + x * (3 - 30 * mu ^ 2 + 35 * mu ^ 4)) / 8 / X))) /\
  azimuth_average (fun t => (k * nu) ^ 2 * x ^ 2 * (coup1 (q t) n * coup3 (kq t) n))
    (- (nu ^ 2 * (3 * x ^ 4 * (mu ^ 2 - 1) ^ 2 / X / 8 / X) + nu ^ 4 * (3 * x ^ 2 * (mu ^ 2 - 1) * (- 2 + x ^ 2 + 6 * x * mu - 5 * x ^ 2 * mu ^ 2) / X / 4 / X)
        + nu ^ 6 * (x * ((-8) * mu + x * (-12 + 36 * mu ^ 2 + 12 * x * mu * (3 - 5 * mu ^ 2) + x ^ 2 * (3 - 30 * mu ^ 2 + 35 * mu ^ 4))) / X / 8 / X))) /\
  azimuth_average (fun t => (k * nu) ^ 2 * x ^ 2 * (coup3 (q t) n * coup3 (kq t) n))
    (nu ^ 2 * (5 * x ^ 4 * (mu ^ 2 - 1) ^ 3 / X / 16 / X)
     + nu ^ 4 * (- 3 * x ^ 2 * (mu ^ 2 - 1) ^ 2 * (6 - 5 * x ^ 2 - 30 * x * mu + 35 * x ^ 2 * mu ^ 2) / X / 16 / X)
     + nu ^ 6 * (3 * x * (mu ^ 2 - 1) * (- 8 * mu + x * (- 12 + 60 * mu ^ 2 + 20 * x * mu * (3 - 7 * mu ^ 2) + 5 * x ^ 2 * (1 - 14 * mu ^ 2 + 21 * mu ^ 4))) / X / 16 / X)
     + nu ^ 8 * (x * (8 * mu * (- 3 + 5 * mu ^ 2) - 6 * x * (3 - 30 * mu ^ 2 + 35 * mu ^ 4) + 6 * x ^ 2 * mu * (15 - 70 * mu ^ 2 + 63 * mu ^ 4)
        + x ^ 3 * (5 - 21 * mu ^ 2 * (5 - 15 * mu ^ 2 + 11 * mu ^ 4))) / X / 16 / X)).
Proof.
  intros Hk Hx Hmu Hnu Hs EX q kq n.
  pose proof (X_pos x mu Hx Hmu Hs) as HX. cbn zeta in HX. rewrite <- EX in HX.
  pose proof (B2 mu nu Hmu Hnu) as HB. cbn zeta in HB.
  set (b := sqrt (1 - mu * mu) * sqrt (1 - nu * nu)) in *.
  assert (D1 : forall t, dot (q t) n = k * x * (mu * nu + b * cos t)) by (intros; apply dot_qphi_los).
  assert (D2 : forall t, dot (kq t) n = k * (nu - x * (mu * nu + b * cos t))) by (intros; apply dot_kqphi_los).
  assert (D3 : forall t, dot (q t) (q t) = (k * x) ^ 2) by (intros; apply dot_qphi; assumption).
  assert (D4 : forall t, dot (kq t) (kq t) = k ^ 2 * X) by (intros; rewrite EX; apply dot_kqphi; assumption).
  clearbody b q kq n. unfold coup1, coup3.
  split; [|split; [|split]].
  - refine (avg_ext _ _ _ _ _ _ (avg_11 (mu * nu) b (nu - x * (mu * nu)) x _ (nu ^ 2 * x / X) HB)).
    + intros t. rewrite D1, D2, D3, D4. field. lra.
    + field. lra.
  - refine (avg_ext _ _ _ _ _ _ (avg_31 (mu * nu) b (nu - x * (mu * nu)) x _ (nu ^ 2 * x / X) HB)).
    + intros t. rewrite D1, D2, D3, D4. field. lra.
    + field. lra.
  - refine (avg_ext _ _ _ _ _ _ (avg_13 (mu * nu) b (nu - x * (mu * nu)) x _ (nu ^ 2 * x / X ^ 2) HB)).
    + intros t. rewrite D1, D2, D3, D4. field. lra.
    + field. lra.
  - refine (avg_ext _ _ _ _ _ _ (avg_33 (mu * nu) b (nu - x * (mu * nu)) x _ (nu ^ 2 * x / X ^ 2) HB)).
    + intros t. rewrite D1, D2, D3, D4. field. lra.
    + field. lra.
Qed.
Lemma A_averages (k x mu nu X : R) : 0 < k -> 0 < x -> -1 <= mu <= 1 -> -1 <= nu <= 1 -> 0 < sep x mu -> X = 1 + x * x - 2 * mu * x ->
  let q := qphi k x mu in let kq := kqphi k x mu in let n := los nu in
  azimuth_average (fun t => k * nu * x ^ 2 * coup1 (q t) n) (nu ^ 2 * (x * mu)) /\
  azimuth_average (fun t => k * nu * x ^ 2 * coup1 (kq t) n) (nu ^ 2 * (- x ^ 2 * (x * mu - 1) / X)) /\
  azimuth_average (fun t => k * nu * x ^ 2 * (coup1 (q t) n * (dot (kq t) n ^ 2 / dot (kq t) (kq t))))
    (nu ^ 2 * (- x ^ 2 * (3 * x * mu - 2) * (mu ^ 2 - 1) / X / 2)
     + nu ^ 4 * (x * (2 * mu + x * (2 - 6 * mu ^ 2) + x ^ 2 * mu * (- 3 + 5 * mu ^ 2)) / X / 2)) /\
  azimuth_average (fun t => k * nu * x ^ 2 * (coup1 (kq t) n * (dot (q t) n ^ 2 / dot (q t) (q t))))
    (nu ^ 2 * (x ^ 2 * (3 * x * mu - 1) * (mu ^ 2 - 1) / X / 2)
     + nu ^ 4 * (x ^ 2 * (- 1 + 3 * x * mu + 3 * mu ^ 2 - 5 * x * mu ^ 3) / X / 2)).
Proof.
  intros Hk Hx Hmu Hnu Hs EX q kq n.
  pose proof (X_pos x mu Hx Hmu Hs) as HX. cbn zeta in HX. rewrite <- EX in HX.
  pose proof (B2 mu nu Hmu Hnu) as HB. cbn zeta in HB.
  set (b := sqrt (1 - mu * mu) * sqrt (1 - nu * nu)) in *.
  assert (D1 : forall t, dot (q t) n = k * x * (mu * nu + b * cos t)) by (intros; apply dot_qphi_los).
  assert (D2 : forall t, dot (kq t) n = k * (nu - x * (mu * nu + b * cos t))) by (intros; apply dot_kqphi_los).
  assert (D3 : forall t, dot (q t) (q t) = (k * x) ^ 2) by (intros; apply dot_qphi; assumption).
  assert (D4 : forall t, dot (kq t) (kq t) = k ^ 2 * X) by (intros; rewrite EX; apply dot_kqphi; assumption).
  clearbody b q kq n. unfold coup1.
  split; [|split; [|split]].
  - refine (avg_ext _ _ _ _ _ _ (avg_10 (mu * nu) b (nu - x * (mu * nu)) x _ (nu * x) HB)).
    + intros t. rewrite D1, D3. field. lra.
    + field.
  - refine (avg_ext _ _ _ _ _ _ (avg_01 (mu * nu) b (nu - x * (mu * nu)) x _ (nu * x ^ 2 / X) HB)).
    + intros t. rewrite D2, D4. field. lra.
    + field. lra.
  - refine (avg_ext _ _ _ _ _ _ (avg_12 (mu * nu) b (nu - x * (mu * nu)) x _ (nu * x / X) HB)).
    + intros t. rewrite D1, D2, D3, D4. field. lra.
    + field. lra.
  - refine (avg_ext _ _ _ _ _ _ (avg_21 (mu * nu) b (nu - x * (mu * nu)) x _ (nu * x ^ 2 / X) HB)).
    + intros t. rewrite D1, D2, D3, D4. field. lra.
    + field. lra.
Qed.
