(** LegendreSpec: [L n] is the Legendre polynomial in the sense of SpecQuad, and the only one. *)
From Coq Require Import Reals Lra Lia List.
From Coquelicot Require Import Coquelicot.
From Verif Require Import Spec SpecQuad Poly Legendre.
Import ListNotations.
Local Open Scope R_scope.

Lemma polyfun_peval p : polyfun (length p) (peval p).
Proof. exists p; split; [lia|reflexivity]. Qed.
Lemma I11_zero_is d f : polyfun d f -> (I11 f = 0 <-> is_RInt f (-1) 1 0).
Proof.
  intros H. split.
  - intros E. rewrite <- E. apply (RInt_correct (V := R_CompleteNormedModule)). apply (polyfun_ex_RInt d); exact H.
  - intros E. apply is_RInt_unique; exact E.
Qed.

(** Norm. *)
Lemma norm_rec n : (2 * INR n + 3) * I11 (fun x => L (S n) x * L (S n) x) = (2 * INR n + 1) * I11 (fun x => L n x * L n x).
Proof.
  pose proof (pos_INR n) as Hn.
  (* I(x L_n L_{n+1}) two ways *)
  assert (PL : forall m, polyfun (S m) (L m)) by apply polyfun_L.
  set (X := I11 (fun x => x * L n x * L (S n) x)).
  assert (E1 : (2 * INR n + 1) * X = (INR n + 1) * I11 (fun x => L (S n) x * L (S n) x)).
  { destruct n as [|n].
    - unfold X. rewrite (I11_ext _ (fun x => L 1 x * L 1 x)); [cbn [INR]; ring|].
      intros x; rewrite L_0, L_1; ring.
    - unfold X.
      assert (E : forall x, x * L (S n) x * L (S (S n)) x =
        / (2 * INR (S n) + 1) * (INR (S (S n)) * (L (S (S n)) x * L (S (S n)) x) + INR (S n) * (L n x * L (S (S n)) x))).
      { intros x. pose proof (bonnet n x) as HB.
        assert (x * L (S n) x = / (2 * INR (S n) + 1) * (INR (S (S n)) * L (S (S n)) x + INR (S n) * L n x)).
        { rewrite HB. field. lra. }
        rewrite H. ring. }
      rewrite (I11_ext _ _ E).
      set (dd := (S (S (S n)) + S (S (S n)))%nat).
      assert (Q1 : polyfun dd (fun x => L (S (S n)) x * L (S (S n)) x)) by (apply polyfun_mult; apply PL).
      assert (Q2 : polyfun dd (fun x => L n x * L (S (S n)) x)).
      { apply (polyfun_weaken (S n + S (S (S n)))); [unfold dd; lia|]. apply polyfun_mult; apply PL. }
      rewrite (I11_scal dd) by (apply polyfun_plus; apply polyfun_scal; assumption).
      rewrite (I11_plus dd) by (apply polyfun_scal; assumption).
      rewrite !(I11_scal dd) by assumption.
      rewrite (L_orthogonal (S (S n)) (L n)) by (apply (polyfun_weaken (S n)); [lia|apply PL]).
      rewrite (S_INR (S n)). field. lra. }
  assert (E2 : (2 * INR n + 3) * X = (INR n + 1) * I11 (fun x => L n x * L n x)).
  { unfold X.
    assert (E : forall x, x * L n x * L (S n) x =
        / (2 * INR (S n) + 1) * (INR (S (S n)) * (L n x * L (S (S n)) x) + INR (S n) * (L n x * L n x))).
    { intros x. pose proof (bonnet n x) as HB. pose proof (pos_INR (S n)) as Hs.
      assert (x * L (S n) x = / (2 * INR (S n) + 1) * (INR (S (S n)) * L (S (S n)) x + INR (S n) * L n x)).
      { rewrite HB. field. lra. }
      replace (x * L n x * L (S n) x) with (L n x * (x * L (S n) x)) by ring. rewrite H. ring. }
    rewrite (I11_ext _ _ E).
    set (dd := (S n + S (S (S n)))%nat).
    assert (Q1 : polyfun dd (fun x => L n x * L n x)).
    { apply (polyfun_weaken (S n + S n)); [unfold dd; lia|]. apply polyfun_mult; apply PL. }
    assert (Q2 : polyfun dd (fun x => L n x * L (S (S n)) x)) by (apply polyfun_mult; apply PL).
    rewrite (I11_scal dd) by (apply polyfun_plus; apply polyfun_scal; assumption).
    rewrite (I11_plus dd) by (apply polyfun_scal; assumption).
    rewrite !(I11_scal dd) by assumption.
    rewrite (L_orthogonal (S (S n)) (L n)) by (apply (polyfun_weaken (S n)); [lia|apply PL]).
    rewrite !(S_INR n). field. lra. }
  apply (Rmult_eq_reg_l (INR n + 1)); [|lra].
  replace ((INR n + 1) * ((2 * INR n + 3) * I11 (fun x => L (S n) x * L (S n) x)))
    with ((2 * INR n + 3) * ((INR n + 1) * I11 (fun x => L (S n) x * L (S n) x))) by ring.
  rewrite <- E1.
  replace ((INR n + 1) * ((2 * INR n + 1) * I11 (fun x => L n x * L n x)))
    with ((2 * INR n + 1) * ((INR n + 1) * I11 (fun x => L n x * L n x))) by ring.
  rewrite <- E2. ring.
Qed.
Lemma norm_val n : I11 (fun x => L n x * L n x) = 2 / (2 * INR n + 1).
Proof.
  induction n as [|n IH].
  - rewrite (I11_ext _ (fun _ => 1)) by (intros; rewrite L_0; ring). rewrite I11_1. cbn [INR]. field.
  - pose proof (norm_rec n) as H. rewrite IH in H. pose proof (pos_INR n). rewrite S_INR.
    apply (Rmult_eq_reg_l (2 * INR n + 3)); [|lra]. rewrite H. field. lra.
Qed.

(** Leading coefficient. *)
Lemma L_lead n : exists k, 0 < k /\ polyfun n (fun x => L n x - k * x ^ n).
Proof.
  revert n; apply pair_ind.
  - exists 1. split; [lra|]. exists []; split; [cbn; lia|]. intros x; rewrite L_0; cbn; ring.
  - exists 1. split; [lra|]. exists []; split; [cbn; lia|]. intros x; rewrite L_1; cbn; ring.
  - intros n [k0 [Hk0 H0]] [k1 [Hk1 H1]]. pose proof (INR1 (S n)) as Hp. pose proof (pos_INR (S n)) as Hp'.
    exists ((2 * INR (S n) + 1) / (INR (S n) + 1) * k1). split.
    { apply Rmult_lt_0_compat; [apply Rdiv_lt_0_compat; lra|exact Hk1]. }
    apply (polyfun_ext _ (fun x => (2 * INR (S n) + 1) / (INR (S n) + 1) * (x * (L (S n) x - k1 * x ^ S n)) +
                                   (- (INR (S n)) / (INR (S n) + 1)) * L n x)).
    { intros x. rewrite L_SS. cbn [pow]. field. lra. }
    apply polyfun_plus; apply polyfun_scal.
    + apply polyfun_X; exact H1.
    + apply (polyfun_weaken (S n)); [lia|apply polyfun_L].
Qed.
Lemma poly_top n (p : poly) : (length p <= S n)%nat -> exists a, polyfun n (fun x => peval p x - a * x ^ n).
Proof.
  revert p; induction n as [|n IH]; intros p Hl.
  - destruct p as [|a [|b p]]; cbn in Hl; try lia.
    + exists 0. exists []; split; [cbn; lia|]. intros; cbn; ring.
    + exists a. exists []; split; [cbn; lia|]. intros; cbn; ring.
  - destruct p as [|a p].
    + exists 0. exists []; split; [cbn; lia|]. intros; cbn; ring.
    + destruct (IH p ltac:(cbn in Hl; lia)) as [b [q [Hq1 Hq2]]]. exists b.
      exists (a :: q); split; [cbn; lia|]. intros x. cbn. rewrite <- Hq2. ring.
Qed.
Lemma L_split n f : polyfun (S n) f -> exists c, polyfun n (fun x => f x - c * L n x).
Proof.
  intros [p [Hl Hp]]. destruct (poly_top n p Hl) as [a Ha]. destruct (L_lead n) as [k [Hk H]].
  exists (a / k). apply (polyfun_ext _ (fun x => (peval p x - a * x ^ n) + (- (a / k)) * (L n x - k * x ^ n))).
  { intros x. rewrite Hp. field. lra. }
  apply polyfun_plus; [exact Ha|]. apply polyfun_scal; exact H.
Qed.

(** A polynomial of degree < n orthogonal to all of them is zero. *)
Lemma orth_zero n : forall m f, (m <= n)%nat -> polyfun m f ->
  (forall q, polyfun n q -> I11 (fun x => q x * f x) = 0) -> forall x, f x = 0.
Proof.
  induction m as [|m IH]; intros f Hm Hf Ho.
  - destruct Hf as [[|a p] [Hl Hp]]; cbn in Hl; [|lia]. intros x; rewrite Hp; reflexivity.
  - destruct (L_split m f Hf) as [c Hc].
    assert (Ec : c = 0).
    { pose proof (Ho (L m) ltac:(apply (polyfun_weaken (S m)); [lia|apply polyfun_L])) as E.
      rewrite (I11_ext _ (fun x => (f x - c * L m x) * L m x + c * (L m x * L m x))) in E by (intros; ring).
      assert (Q1 : polyfun (S m + S m) (fun x => (f x - c * L m x) * L m x)).
      { apply (polyfun_weaken (m + S m)); [lia|]. apply (polyfun_mult m (S m)); [exact Hc|apply polyfun_L]. }
      assert (Q2 : polyfun (S m + S m) (fun x => L m x * L m x)) by (apply polyfun_mult; apply polyfun_L).
      rewrite (I11_plus (S m + S m)) in E by (try apply polyfun_scal; assumption).
      rewrite (I11_scal (S m + S m)) in E by exact Q2.
      rewrite (L_orthogonal m _ Hc), norm_val in E. pose proof (pos_INR m).
      assert (0 < 2 / (2 * INR m + 1)) by (apply Rdiv_lt_0_compat; lra). nra. }
    apply IH; [lia| |exact Ho]. apply (polyfun_ext _ (fun x => f x - c * L m x)); [|exact Hc].
    intros x; rewrite Ec; ring.
Qed.

Lemma L_is_legendre n : exists p, is_legendre n p /\ forall x, peval p x = L n x.
Proof.
  destruct (polyfun_L n) as [p [Hl Hp]]. exists p. split; [|intros; symmetry; apply Hp].
  split; [exact Hl|]. split; [rewrite <- Hp; apply L_at_1|].
  intros q Hq. apply (is_RInt_ext (fun x => peval q x * L n x)); [intros; rewrite Hp; reflexivity|].
  apply (I11_zero_is (n + S n)).
  - apply polyfun_mult; [exists q; split; [exact Hq|reflexivity]|apply polyfun_L].
  - apply L_orthogonal. exists q; split; [exact Hq|reflexivity].
Qed.
Lemma legendre_unique n p : is_legendre n p -> forall x, peval p x = L n x.
Proof.
  intros [Hl [H1 Ho]].
  destruct (L_split n (peval p)) as [c Hc]; [exists p; split; [exact Hl|reflexivity]|].
  assert (Hz : forall x, peval p x - c * L n x = 0).
  { apply (orth_zero n n); [lia|exact Hc|]. intros q Hq.
    rewrite (I11_ext _ (fun x => q x * peval p x + (- c) * (q x * L n x))) by (intros; ring).
    assert (Q1 : polyfun (n + S n) (fun x => q x * peval p x)).
    { apply polyfun_mult; [exact Hq|exists p; split; [exact Hl|reflexivity]]. }
    assert (Q2 : polyfun (n + S n) (fun x => q x * L n x)) by (apply polyfun_mult; [exact Hq|apply polyfun_L]).
    rewrite (I11_plus (n + S n)) by (try apply polyfun_scal; assumption).
    rewrite (I11_scal (n + S n)) by exact Q2. rewrite (L_orthogonal n q Hq).
    destruct Hq as [q' [Hq1 Hq2]].
    assert (E : I11 (fun x => q x * peval p x) = 0).
    { rewrite (I11_ext _ (fun x => peval q' x * peval p x)) by (intros; rewrite Hq2; reflexivity).
      apply is_RInt_unique. apply Ho; exact Hq1. }
    rewrite E. ring. }
  assert (c = 1). { pose proof (Hz 1) as E. rewrite H1, L_at_1 in E. lra. }
  subst c. intros x. pose proof (Hz x). lra.
Qed.
