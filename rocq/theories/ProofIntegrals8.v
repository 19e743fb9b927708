(** ProofIntegrals8: exchange of q and k - q. *)
From Coq Require Import Reals Lra Lia List.
From Coquelicot Require Import Coquelicot.
From Verif Require Import Base Num BaseFacts Common Kernels Gamma2 Integrals Spec SpecPT SpecIntegrals SpecLoops SpecTable Sums ProofSearch ProofKernels ProofGL2 ProofIntegrals ProofIntegrals2 ProofIntegrals3 ProofIntegrals4 ProofIntegrals5.
Import ListNotations.
Local Open Scope R_scope.

(** [s], [nu]: the coordinates of k - q. *)
Definition mirrored (x mu s nu : R) : Prop := 0 < x /\ -1 <= mu <= 1 /\ 0 < s /\ -1 <= nu <= 1 /\
  mu = (1 + x * x - s * s) / (2 * x) /\ nu = (1 + s * s - x * x) / (2 * s).
Lemma mirror_coords x mu : 0 < x -> -1 <= mu <= 1 -> 0 < sep x mu -> mirrored x mu (sep x mu) (mirror_mu x mu).
Proof.
  intros Hx Hm Hs. pose proof (sep_sq x mu ltac:(lra) ltac:(lra)) as E. unfold mirror_mu. set (s := sep x mu) in *.
  assert (Em : mu = (1 + x * x - s * s) / (2 * x)) by (rewrite E; field; lra).
  assert (En : (1 - x * mu) / s = (1 + s * s - x * x) / (2 * s)) by (rewrite Em; field; lra).
  assert (HQ : (1 - x * mu) * (1 - x * mu) <= s * s).
  { assert (0 <= (x * x) * (1 - mu * mu)) by (apply Rmult_le_pos; nra). rewrite E. lra. }
  repeat split; try lra; auto.
  - apply (Rmult_le_reg_r s); [lra|]. unfold Rdiv. rewrite Rmult_assoc, Rinv_l, Rmult_1_r by lra.
    apply Ropp_le_cancel. apply Rsqr_incr_0_var; [|lra]. unfold Rsqr. lra.
  - apply (Rmult_le_reg_r s); [lra|]. unfold Rdiv. rewrite Rmult_assoc, Rinv_l, Rmult_1_r by lra.
    apply Rsqr_incr_0_var; [|lra]. unfold Rsqr. lra.
Qed.
Lemma mirrored_sym x mu s nu : mirrored x mu s nu -> mirrored s nu x mu.
Proof. unfold mirrored. tauto. Qed.
Lemma mirrored_sep x mu s nu : mirrored x mu s nu -> sep x mu = s.
Proof.
  intros [Hx [_ [Hs [_ [Em _]]]]]. unfold sep. replace (1 + x * x - 2 * mu * x) with (s * s) by (rewrite Em; field; lra).
  apply sqrt_square. lra.
Qed.
Lemma mirrored_mirror x mu s nu : mirrored x mu s nu -> mirror_mu x mu = nu.
Proof.
  intros H. unfold mirror_mu. rewrite (mirrored_sep _ _ _ _ H). destruct H as [Hx [_ [Hs [_ [Em En]]]]].
  rewrite Em, En. field. lra.
Qed.
(** An involution that maps the region of the full integrals onto itself and exchanges its two halves. *)
Lemma mirror_region x mu xmin xmax : 0 < xmin -> xmin <= x <= xmax -> allowed false xmin xmax x mu ->
  let s := sep x mu in let nu := mirror_mu x mu in
  (xmin <= s <= xmax /\ allowed false xmin xmax s nu /\ sep s nu = x /\ mirror_mu s nu = mu) /\
  (allowed true xmin xmax x mu <-> x <= s) /\ (allowed true xmin xmax s nu <-> s <= x).
Proof.
  intros H0 Hx [Hm [Hs Ht]] s nu. fold s in Hs. pose proof (mirror_coords x mu ltac:(lra) Hm ltac:(fold s; lra)) as HM.
  fold s in HM. fold nu in HM. pose proof (mirrored_sym _ _ _ _ HM) as HM'.
  pose proof (mirrored_sep _ _ _ _ HM') as E1. pose proof (mirrored_mirror _ _ _ _ HM') as E2.
  pose proof HM as [_ [_ [_ [Hn _]]]]. unfold allowed. rewrite E1. fold s. repeat split; auto; try lra; try tauto; intros; lra.
Qed.
(** The volume element x^2 dx dmu is invariant. *)
Lemma mirror_volume x mu : 0 < x -> -1 < mu < 1 -> exists sx sm nx nm : R,
  is_derive (fun u => sep u mu) x sx /\ is_derive (fun u => sep x u) mu sm /\
  is_derive (fun u => mirror_mu u mu) x nx /\ is_derive (fun u => mirror_mu x u) mu nm /\
  sep x mu ^ 2 * Rabs (sx * nm - sm * nx) = x ^ 2.
Proof.
  intros Hx Hm. assert (HX : 0 < 1 + x * x - 2 * mu * x).
  { assert (0 < (1 - mu) * x) by (apply Rmult_lt_0_compat; lra). pose proof (Rle_0_sqr (1 - x)) as HQ. unfold Rsqr in HQ. lra. }
  assert (Hs : 0 < sep x mu) by (apply sqrt_lt_R0; exact HX).
  pose proof (sep_sq x mu ltac:(lra) ltac:(lra)) as E. set (s := sep x mu) in *.
  exists ((x - mu) / s), (- x / s), ((- mu * s - (1 - x * mu) * ((x - mu) / s)) / (s * s)), ((- x * s - (1 - x * mu) * (- x / s)) / (s * s)).
  assert (EX : 1 + x * x + - (2 * mu * x) = 1 + x * x - 2 * mu * x) by ring.
  split; [|split; [|split; [|split]]].
  - unfold sep. auto_derive; [rewrite ?EX; exact HX|]. rewrite ?EX. fold (sep x mu). fold s. field. lra.
  - unfold sep. auto_derive; [rewrite ?EX; exact HX|]. rewrite ?EX. fold (sep x mu). fold s. field. lra.
  - unfold mirror_mu, sep. auto_derive; [|].
    + rewrite ?EX. fold (sep x mu). fold s. repeat split; try exact HX; lra.
    + rewrite ?EX. fold (sep x mu). fold s. field. lra.
  - unfold mirror_mu, sep. auto_derive; [|].
    + rewrite ?EX. fold (sep x mu). fold s. repeat split; try exact HX; lra.
    + rewrite ?EX. fold (sep x mu). fold s. field. lra.
  - assert (Em : mu = (1 + x * x - s * s) / (2 * x)) by (rewrite E; field; lra). clearbody s.
    match goal with |- _ * Rabs ?d = _ => replace d with (- (x * x / (s * s))) by (rewrite Em; field; lra) end.
    rewrite Rabs_Ropp, Rabs_pos_eq; [field; lra|]. apply Rlt_le, Rdiv_lt_0_compat; apply Rmult_lt_0_compat; assumption.
Qed.
(** ** Integrands *)
Lemma f2v_sym t a b c : f2v t a b c = f2v t b a c.
Proof. unfold f2v, Rdiv. ring. Qed.
Lemma pt2_mirror t k x mu s nu : 0 < k -> mirrored x mu s nu ->
  pt2 t (kqvec k s nu) (qvec k s nu) = pt2 t (kqvec k x mu) (qvec k x mu).
Proof.
  intros Hk H. pose proof (mirrored_sym _ _ _ _ H) as H'. pose proof (mirrored_sep _ _ _ _ H) as E1. pose proof (mirrored_sep _ _ _ _ H') as E2.
  destruct H as [Hx [Hm [Hs [Hn [Em En]]]]].
  rewrite !pt2_kq_q by (try rewrite E1; try rewrite E2; assumption). rewrite f2v_sym.
  f_equal; rewrite ?Em, ?En; field; lra.
Qed.
Lemma gamma2_mirror P a b k x mu s nu : 0 < k -> mirrored x mu s nu ->
  gamma2_integrand P a b k s nu = gamma2_integrand P a b k x mu.
Proof.
  intros Hk H. unfold gamma2_integrand. rewrite !(pt2_mirror _ k x mu s nu Hk H).
  rewrite (mirrored_sep _ _ _ _ H), (mirrored_sep _ _ _ _ (mirrored_sym _ _ _ _ H)). ring.
Qed.
Lemma gamma2_1loop_mirror P G a b c k x mu s nu : 0 < k -> mirrored x mu s nu ->
  (forall t, G t (k * x) (k * s) k = G t (k * s) (k * x) k) ->
  gamma2_1loop_integrand P G a b c k s nu = gamma2_1loop_integrand P G a b c k x mu.
Proof.
  intros Hk H HG. unfold gamma2_1loop_integrand. rewrite !(pt2_mirror _ k x mu s nu Hk H).
  rewrite (mirrored_sep _ _ _ _ H), (mirrored_sep _ _ _ _ (mirrored_sym _ _ _ _ H)). rewrite !HG.
  destruct c as [|[|c]]; ring.
Qed.
Lemma bias_mirror t P a k x mu s nu : 0 < k -> mirrored x mu s nu -> t = BiasB2 \/ t = BiasBS2 ->
  bias_integrand t P a k s nu = bias_integrand t P a k x mu.
Proof.
  intros Hk H Ht. pose proof (mirrored_sym _ _ _ _ H) as H'. pose proof (mirrored_sep _ _ _ _ H) as E1. pose proof (mirrored_sep _ _ _ _ H') as E2.
  pose proof (pt2_mirror a k x mu s nu Hk H) as EP. destruct H as [Hx [Hm [Hs [Hn [Em En]]]]].
  unfold bias_integrand. rewrite !cosine_q_kq, !norm_q, !norm_kq, (pt2_comm a (qvec k s nu)), EP, (pt2_comm a (qvec k x mu)) by (try rewrite E1; try rewrite E2; lra).
  rewrite E1, E2. destruct Ht; subst t.
  - ring.
  - replace ((k * k - k * x * (k * x) - k * s * (k * s)) / 2 / (k * s) / (k * x)) with ((k * k - k * s * (k * s) - k * x * (k * x)) / 2 / (k * x) / (k * s)) by (field; lra). ring.
Qed.
(** The full-range terms do not have the symmetry: P constant on neither side. *)
Lemma mirror_ex : mirrored (1 / 2) (- 1) (3 / 2) 1.
Proof. unfold mirrored. repeat split; lra. Qed.
Lemma bias_b22_not : exists P k x mu s nu, 0 < k /\ mirrored x mu s nu /\ bias_integrand BiasB22 P false k s nu <> bias_integrand BiasB22 P false k x mu.
Proof.
  exists (fun k => k), 1, (1 / 2), (- 1), (3 / 2), 1. split; [lra|]. pose proof mirror_ex as H. split; [exact H|].
  pose proof (mirrored_sep _ _ _ _ H) as E1. pose proof (mirrored_sep _ _ _ _ (mirrored_sym _ _ _ _ H)) as E2.
  unfold bias_integrand. rewrite !norm_q, !norm_kq by lra. rewrite E1, E2. lra.
Qed.
(** B. *)
Lemma kB_mirror c dq dkq tq tkq x mu s nu : (c < 12)%nat -> mirrored x mu s nu ->
  kB (B_mirror c) dkq dq tkq tq s nu / s ^ 2 = kB c dq dkq tq tkq x mu / x ^ 2.
Proof.
  intros Hc [Hx [_ [Hs [_ [-> ->]]]]]. unfold kB.
  replace (1 + s * s - 2 * ((1 + s * s - x * x) / (2 * s)) * s) with (x * x) by (field; lra).
  replace (1 + x * x - 2 * ((1 + x * x - s * s) / (2 * x)) * x) with (s * s) by (field; lra). cbn zeta.
  do 12 (destruct c as [|c]; [cbn [B_mirror nth]; field; lra|]). lia.
Qed.
(** A: the weights. *)
Lemma wA_mirror n x mu s nu : mirrored x mu s nu -> wtA s nu n / s ^ 2 = wA x mu n / x ^ 2.
Proof.
  intros [Hx [_ [Hs [_ [-> ->]]]]]. unfold wA, wtA, kernel_projection_A_tA. cbn [fst snd]. cbn zeta. rn.
  replace (1 + s * s - 2 * ((1 + s * s - x * x) / (2 * s)) * s) with (x * x) by (field; lra).
  replace (1 + x * x - 2 * ((1 + x * x - s * s) / (2 * x)) * x) with (s * s) by (field; lra).
  do 6 (destruct n as [|n]; [cbn [nth]; field; lra|]). destruct n; cbn [nth]; field; lra.
Qed.
