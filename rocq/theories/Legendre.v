(** Legendre: Legendre polynomials and Gauss quadrature, independently of the code. *)
From Coq Require Import Reals Lra Lia List.
From Coquelicot Require Import Coquelicot.
From Verif Require Import Spec Poly.
Import ListNotations.
Local Open Scope R_scope.

(** Bonnet's recursion; [LL n x = (P_n x, P_(n+1) x)]. *)
Fixpoint LL (n : nat) (x : R) : R * R :=
  match n with
  | O => (1, x)
  | S m => let '(a, b) := LL m x in (b, ((2 * INR (S m) + 1) * x * b - INR (S m) * a) / (INR (S m) + 1))
  end.
Definition L (n : nat) (x : R) : R := fst (LL n x).
Lemma LL_L n x : LL n x = (L n x, L (S n) x).
Proof. unfold L. cbn [LL]. destruct (LL n x); reflexivity. Qed.
Lemma L_0 x : L 0 x = 1. Proof. reflexivity. Qed.
Lemma L_1 x : L 1 x = x. Proof. reflexivity. Qed.
Lemma L_SS n x : L (S (S n)) x = ((2 * INR (S n) + 1) * x * L (S n) x - INR (S n) * L n x) / (INR (S n) + 1).
Proof.
  unfold L at 1. change (LL (S (S n)) x) with
    (let '(a, b) := LL (S n) x in (b, ((2 * INR (S (S n)) + 1) * x * b - INR (S (S n)) * a) / (INR (S (S n)) + 1))).
  rewrite (LL_L (S n) x). cbn [fst].
  assert (E : LL (S n) x = (L (S n) x, ((2 * INR (S n) + 1) * x * L (S n) x - INR (S n) * L n x) / (INR (S n) + 1))).
  { cbn [LL]. rewrite (LL_L n x). reflexivity. }
  rewrite LL_L in E. injection E as E. exact E.
Qed.
Lemma INR1 n : 0 < INR n + 1.
Proof. pose proof (pos_INR n); lra. Qed.
Lemma bonnet n x : INR (S (S n)) * L (S (S n)) x = (2 * INR (S n) + 1) * x * L (S n) x - INR (S n) * L n x.
Proof. rewrite L_SS, (S_INR (S n)). pose proof (INR1 (S n)). field. lra. Qed.
Lemma pair_ind (Q : nat -> Prop) : Q 0%nat -> Q 1%nat -> (forall n, Q n -> Q (S n) -> Q (S (S n))) -> forall n, Q n.
Proof.
  intros H0 H1 HS n. assert (Q n /\ Q (S n)) as [H _]; [|exact H].
  induction n as [|n [IH1 IH2]]; split; auto.
Qed.

Lemma is_derive_idR (x : R) : is_derive (fun t : R => t) x 1.
Proof. exact (is_derive_id (K := R_AbsRing) x). Qed.
Lemma is_derive_xmul (f : R -> R) (x l : R) : is_derive f x l -> is_derive (fun t => t * f t) x (1 * f x + x * l).
Proof.
  intros H. exact (is_derive_mult (fun t : R => t) f x 1 l (is_derive_idR x) H Rmult_comm).
Qed.

(** Derivative. *)
Fixpoint DLL (n : nat) (x : R) : R * R :=
  match n with
  | O => (0, 1)
  | S m => let '(a, b) := DLL m x in
           (b, ((2 * INR (S m) + 1) * (L (S m) x + x * b) - INR (S m) * a) / (INR (S m) + 1))
  end.
Definition DL (n : nat) (x : R) : R := fst (DLL n x).
Lemma DLL_DL n x : DLL n x = (DL n x, DL (S n) x).
Proof. unfold DL. cbn [DLL]. destruct (DLL n x); reflexivity. Qed.
Lemma DL_SS n x : DL (S (S n)) x = ((2 * INR (S n) + 1) * (L (S n) x + x * DL (S n) x) - INR (S n) * DL n x) / (INR (S n) + 1).
Proof.
  unfold DL at 1. change (DLL (S (S n)) x) with
    (let '(a, b) := DLL (S n) x in
     (b, ((2 * INR (S (S n)) + 1) * (L (S (S n)) x + x * b) - INR (S (S n)) * a) / (INR (S (S n)) + 1))).
  rewrite (DLL_DL (S n) x). cbn [fst].
  assert (E : DLL (S n) x = (DL (S n) x, ((2 * INR (S n) + 1) * (L (S n) x + x * DL (S n) x) - INR (S n) * DL n x) / (INR (S n) + 1))).
  { cbn [DLL]. rewrite (DLL_DL n x). reflexivity. }
  rewrite DLL_DL in E. injection E as E. exact E.
Qed.
Lemma is_derive_L n x : is_derive (L n) x (DL n x).
Proof.
  revert n; apply pair_ind.
  - apply (is_derive_ext (fun _ => 1)); [intros; reflexivity|]. apply (is_derive_const (1 : R) x).
  - apply (is_derive_ext (fun t => t)); [intros; reflexivity|]. apply (is_derive_id x).
  - intros n IH0 IH1. rewrite DL_SS.
    apply (is_derive_ext (fun t => ((2 * INR (S n) + 1) * t * L (S n) t - INR (S n) * L n t) / (INR (S n) + 1))).
    { intros t; symmetry; apply L_SS. }
    assert (D0 : is_derive (fun t => t * L (S n) t) x (1 * L (S n) x + x * DL (S n) x)).
    { apply is_derive_xmul; exact IH1. }
    pose proof (is_derive_scal _ _ (2 * INR (S n) + 1) _ D0) as D1.
    pose proof (is_derive_scal _ _ (INR (S n)) _ IH0) as D2.
    pose proof (is_derive_minus _ _ _ _ _ D1 D2) as D3.
    pose proof (is_derive_scal _ _ (/ (INR (S n) + 1)) _ D3) as D4.
    match type of D4 with is_derive _ _ ?v => match goal with |- is_derive _ _ ?w => replace w with v end end.
    + eapply is_derive_ext; [|exact D4]. intros t. cbn beta. unfold minus, plus, opp; cbn. unfold Rdiv. ring.
    + unfold minus, plus, opp; cbn. unfold Rdiv. ring.
Qed.

(** Classical identities. *)
Lemma leg_AB n x :
  x * DL (S n) x - DL n x = INR (S n) * L (S n) x /\ DL (S n) x - x * DL n x = INR (S n) * L n x.
Proof.
  induction n as [|n [IA IB]].
  - change (DL 1 x) with 1. change (DL 0 x) with 0. rewrite L_1, L_0. cbn [INR]. lra.
  - pose proof (bonnet n x) as HB. pose proof (DL_SS n x) as HD.
    pose proof (pos_INR n) as Hn. pose proof (INR1 (S n)) as Hp. rewrite (S_INR (S n)) in *.
    set (a := INR (S n)) in *.
    assert (HD' : (a + 1) * DL (S (S n)) x = (2 * a + 1) * (L (S n) x + x * DL (S n) x) - a * DL n x)
      by (rewrite HD; field; lra).
    assert (EB : DL (S (S n)) x - x * DL (S n) x = (a + 1) * L (S n) x).
    { apply (Rmult_eq_reg_l (a + 1)); [|lra].
      replace (DL n x) with (x * DL (S n) x - a * L (S n) x) in HD' by lra.
      rewrite Rmult_minus_distr_l, HD'. ring. }
    split; [|exact EB].
    replace (DL (S (S n)) x) with (x * DL (S n) x + (a + 1) * L (S n) x) by lra.
    rewrite HB.
    assert (EX : (x * x - 1) * DL (S n) x = a * (x * L (S n) x - L n x)).
    { replace (x * x * DL (S n) x) with (x * (x * DL (S n) x)) by ring.
      replace ((x * x - 1) * DL (S n) x) with (x * (x * DL (S n) x - DL n x) - (DL (S n) x - x * DL n x)) by ring.
      rewrite IA, IB. ring. }
    replace (x * (x * DL (S n) x + (a + 1) * L (S n) x) - DL (S n) x)
      with ((x * x - 1) * DL (S n) x + (a + 1) * x * L (S n) x) by ring.
    rewrite EX. ring.
Qed.
Lemma leg_slope n x : (x * x - 1) * DL (S n) x = INR (S n) * (x * L (S n) x - L n x).
Proof.
  destruct (leg_AB n x) as [IA IB].
  replace ((x * x - 1) * DL (S n) x) with (x * (x * DL (S n) x - DL n x) - (DL (S n) x - x * DL n x)) by ring.
  rewrite IA, IB. ring.
Qed.
Lemma L_at_1 n : L n 1 = 1.
Proof.
  revert n; apply pair_ind; [reflexivity|reflexivity|]. intros n H0 H1.
  rewrite L_SS, H0, H1. pose proof (INR1 (S n)). field. lra.
Qed.
Lemma L_parity n x : L n (- x) = (-1) ^ n * L n x.
Proof.
  revert n; apply pair_ind.
  - rewrite !L_0; cbn; ring.
  - rewrite !L_1; cbn; ring.
  - intros n H0 H1. rewrite !L_SS, H0, H1. pose proof (INR1 (S n)). cbn [pow]. field. lra.
Qed.

(** L n is a polynomial with n+1 coefficients. *)
Definition polyfun (d : nat) (f : R -> R) : Prop := exists p : poly, (length p <= d)%nat /\ forall x, f x = peval p x.
Lemma polyfun_weaken d e f : (d <= e)%nat -> polyfun d f -> polyfun e f.
Proof. intros H [p [Hl Hp]]; exists p; split; [lia|exact Hp]. Qed.
Lemma polyfun_ext d f g : (forall x, f x = g x) -> polyfun d f -> polyfun d g.
Proof. intros H [p [Hl Hp]]; exists p; split; [exact Hl|]; intros x; rewrite <- H; apply Hp. Qed.
Lemma polyfun_plus d f g : polyfun d f -> polyfun d g -> polyfun d (fun x => f x + g x).
Proof.
  intros [p [Hl Hp]] [q [Hm Hq]]; exists (padd p q); split; [rewrite length_padd; lia|].
  intros x; rewrite peval_padd, Hp, Hq; reflexivity.
Qed.
Lemma polyfun_scal d c f : polyfun d f -> polyfun d (fun x => c * f x).
Proof.
  intros [p [Hl Hp]]; exists (pscale c p); split; [rewrite length_pscale; lia|].
  intros x; rewrite peval_pscale, Hp; reflexivity.
Qed.
Lemma polyfun_X d f : polyfun d f -> polyfun (S d) (fun x => x * f x).
Proof.
  intros [p [Hl Hp]]; exists (0 :: p); split; [cbn; lia|]. intros x; cbn; rewrite Hp; ring.
Qed.
Lemma polyfun_mult d e f g : polyfun d f -> polyfun e g -> polyfun (d + e) (fun x => f x * g x).
Proof.
  intros [p [Hl Hp]] [q [Hm Hq]]; exists (pmul p q); split; [pose proof (length_pmul p q); lia|].
  intros x; rewrite peval_pmul, Hp, Hq; reflexivity.
Qed.
Lemma polyfun_const d c : (1 <= d)%nat -> polyfun d (fun _ => c).
Proof. intros H; exists [c]; split; [cbn; lia|]. intros x; cbn; ring. Qed.
Lemma polyfun_pow k : polyfun (S k) (fun x => x ^ k).
Proof.
  induction k as [|k IHk]; [exists [1]; split; [cbn; lia|intros x; cbn; ring]|].
  apply (polyfun_ext _ (fun x => x * x ^ k)); [reflexivity|]. apply polyfun_X; exact IHk.
Qed.
Lemma polyfun_L n : polyfun (S n) (L n).
Proof.
  revert n; apply pair_ind.
  - exists [1]; split; [cbn; lia|]. intros; rewrite L_0; cbn; ring.
  - exists [0; 1]; split; [cbn; lia|]. intros; rewrite L_1; cbn; ring.
  - intros n H0 H1.
    apply (polyfun_ext _ (fun x => (2 * INR (S n) + 1) / (INR (S n) + 1) * (x * L (S n) x) + (- (INR (S n)) / (INR (S n) + 1)) * L n x)).
    { intros x; rewrite L_SS. pose proof (INR1 (S n)). field. lra. }
    apply polyfun_plus; apply polyfun_scal.
    + apply polyfun_X; exact H1.
    + apply (polyfun_weaken (S n)); [lia|exact H0].
Qed.

(** Integral over [-1,1]. *)
Lemma is_derive_peval p x : exists l, is_derive (peval p) x l.
Proof.
  induction p as [|a p [l IH]].
  - exists 0. apply (is_derive_ext (fun _ => 0)); [reflexivity|]. apply (is_derive_const (0 : R) x).
  - eexists. cbn [peval].
    apply (is_derive_plus (fun _ => a) (fun t => t * peval p t)); [apply (is_derive_const a x)|].
    apply is_derive_xmul, IH.
Qed.
Lemma polyfun_continuous d f x : polyfun d f -> continuous f x.
Proof.
  intros [p [_ Hp]]. apply (continuous_ext (peval p)); [intros; symmetry; apply Hp|].
  destruct (is_derive_peval p x) as [l Hl].
  exact (ex_derive_continuous (K := R_AbsRing) (V := R_NormedModule) (peval p) x (ex_intro _ l Hl)).
Qed.
Lemma polyfun_ex_RInt d f a b : polyfun d f -> ex_RInt f a b.
Proof. intros H. apply (ex_RInt_continuous (V := R_CompleteNormedModule)). intros x _. apply (polyfun_continuous d); exact H. Qed.

Definition I11 (f : R -> R) : R := RInt f (-1) 1.
Lemma I11_ext f g : (forall x, f x = g x) -> I11 f = I11 g.
Proof. intros H; apply RInt_ext; intros; apply H. Qed.
Lemma I11_plus d f g : polyfun d f -> polyfun d g -> I11 (fun x => f x + g x) = I11 f + I11 g.
Proof. intros Hf Hg. apply (RInt_plus f g); eapply polyfun_ex_RInt; eassumption. Qed.
Lemma I11_scal d c f : polyfun d f -> I11 (fun x => c * f x) = c * I11 f.
Proof. intros Hf. apply (RInt_scal f (-1) 1 c). eapply polyfun_ex_RInt; eassumption. Qed.

Lemma I11_L n : (1 <= n)%nat -> I11 (L n) = 0.
Proof.
  intros Hn. destruct n as [|n]; [lia|].
  set (F := fun x => / (INR (S n) + 1) * (x * L (S n) x - L n x)).
  assert (D : forall x, is_derive F x (L (S n) x)).
  { intros x. destruct (leg_AB n x) as [IA _].
    assert (D0 : is_derive (fun t => t * L (S n) t) x (1 * L (S n) x + x * DL (S n) x)).
    { apply is_derive_xmul, is_derive_L. }
    pose proof (is_derive_minus _ _ _ _ _ D0 (is_derive_L n x)) as D1.
    pose proof (is_derive_scal _ _ (/ (INR (S n) + 1)) _ D1) as D2.
    match type of D2 with is_derive _ _ ?v => replace (L (S n) x) with v; [exact D2|] end.
    unfold minus, plus, opp; cbn -[INR].
    replace (1 * L (S n) x + x * DL (S n) x + - DL n x) with ((INR (S n) + 1) * L (S n) x) by lra.
    pose proof (INR1 (S n)). field. lra. }
  unfold I11. apply is_RInt_unique.
  replace 0 with (minus (F 1) (F (-1))).
  - apply (is_RInt_derive F (L (S n))); intros x _; [apply D|].
    apply (polyfun_continuous (S (S n))), polyfun_L.
  - unfold F, minus, plus, opp; cbn -[INR L]. rewrite !L_at_1.
    replace (-1) with (- (1)) by ring. rewrite !L_parity, !L_at_1. cbn [pow]. ring.
Qed.
Lemma I11_1 : I11 (fun _ => 1) = 2.
Proof. unfold I11. rewrite RInt_const. unfold scal; cbn; unfold mult; cbn. ring. Qed.

Lemma I11_mono_L j : forall n, (j < n)%nat -> I11 (fun x => x ^ j * L n x) = 0.
Proof.
  induction j as [|j IH]; intros n Hj.
  - rewrite (I11_ext _ (L n)) by (intros; cbn; ring). apply I11_L; lia.
  - destruct n as [|n]; [lia|].
    pose proof (INR1 n) as Hn.
    pose proof polyfun_pow as Hpow.
    assert (Hpos : 0 < 2 * INR (S n) + 1) by (rewrite S_INR; lra).
    rewrite (I11_ext _ (fun x => (INR (S (S n)) / (2 * INR (S n) + 1)) * (x ^ j * L (S (S n)) x) +
                                 (INR (S n) / (2 * INR (S n) + 1)) * (x ^ j * L n x))).
    + set (dd := (S j + (S (S (S n))))%nat).
      assert (Q1 : polyfun dd (fun x => x ^ j * L (S (S n)) x)) by (apply polyfun_mult; [apply Hpow|apply polyfun_L]).
      assert (Q2 : polyfun dd (fun x => x ^ j * L n x)).
      { apply (polyfun_weaken (S j + S n)); [unfold dd; lia|]. apply polyfun_mult; [apply Hpow|apply polyfun_L]. }
      rewrite (I11_plus dd) by (apply polyfun_scal; assumption).
      rewrite (I11_scal dd), (I11_scal dd) by assumption. rewrite !IH by lia. ring.
    + intros x. pose proof (bonnet n x) as HB.
      assert (E : x * L (S n) x = (INR (S (S n)) * L (S (S n)) x + INR (S n) * L n x) / (2 * INR (S n) + 1)).
      { rewrite HB. field. lra. }
      cbn [pow]. replace (x * x ^ j * L (S n) x) with (x ^ j * (x * L (S n) x)) by ring. rewrite E. field. lra.
Qed.

(** Orthogonality to every polynomial of lower degree. *)
Lemma L_orthogonal n f : polyfun n f -> I11 (fun x => f x * L n x) = 0.
Proof.
  intros [p [Hl Hp]].
  rewrite (I11_ext _ (fun x => peval p x * L n x)) by (intros; rewrite Hp; reflexivity).
  clear f Hp.
  (* generalise: x^j * p with j + length p <= n *)
  assert (HG : forall p j, (j + length p <= n)%nat -> I11 (fun x => x ^ j * peval p x * L n x) = 0).
  { clear p Hl. induction p as [|a p IH]; intros j Hj.
    - rewrite (I11_ext _ (fun _ => 0)) by (intros; cbn; ring). unfold I11. rewrite RInt_const. unfold scal; cbn; unfold mult; cbn. ring.
    - pose proof polyfun_pow as Hpow.
      cbn [length] in Hj.
      rewrite (I11_ext _ (fun x => a * (x ^ j * L n x) + x ^ (S j) * peval p x * L n x)) by (intros; cbn; ring).
      set (dd := (S (S j) + length p + S n)%nat).
      assert (Q1 : polyfun dd (fun x => x ^ j * L n x)).
      { apply (polyfun_weaken (S j + S n)); [unfold dd; lia|]. apply polyfun_mult; [apply Hpow|apply polyfun_L]. }
      assert (Q2 : polyfun dd (fun x => x ^ S j * peval p x * L n x)).
      { apply polyfun_mult; [|apply polyfun_L]. apply (polyfun_mult (S (S j)) (length p)); [apply Hpow|].
        exists p; split; [lia|reflexivity]. }
      rewrite (I11_plus dd) by (try apply polyfun_scal; assumption).
      rewrite (I11_scal dd) by assumption. rewrite I11_mono_L by lia. rewrite IH by lia. ring. }
  rewrite (I11_ext _ (fun x => x ^ 0 * peval p x * L n x)) by (intros; cbn; ring). apply HG; lia.
Qed.

(** Christoffel-Darboux. *)
Fixpoint CD (n : nat) (z x : R) : R :=
  match n with O => 0 | S m => CD m z x + (2 * INR m + 1) * L m z * L m x end.
Lemma CD_formula n z x :
  (x - z) * CD (S n) z x = INR (S n) * (L (S n) x * L n z - L n x * L (S n) z).
Proof.
  induction n as [|n IH].
  - cbn [CD INR]. rewrite !L_0, !L_1. ring.
  - change (CD (S (S n)) z x) with (CD (S n) z x + (2 * INR (S n) + 1) * L (S n) z * L (S n) x).
    rewrite Rmult_plus_distr_l, IH. pose proof (bonnet n x) as Hx. pose proof (bonnet n z) as Hz.
    rewrite (Rmult_minus_distr_l (INR (S (S n)))), <- !Rmult_assoc, Hx.
    replace (INR (S (S n)) * L (S n) x * L (S (S n)) z) with (L (S n) x * (INR (S (S n)) * L (S (S n)) z)) by ring.
    rewrite Hz. ring.
Qed.
Lemma CD_confluent n z : CD (S n) z z = INR (S n) * (DL (S n) z * L n z - DL n z * L (S n) z).
Proof.
  induction n as [|n IH].
  - cbn [CD INR]. rewrite !L_0. change (DL 1 z) with 1. change (DL 0 z) with 0. ring.
  - change (CD (S (S n)) z z) with (CD (S n) z z + (2 * INR (S n) + 1) * L (S n) z * L (S n) z).
    rewrite IH. pose proof (bonnet n z) as Hz. pose proof (DL_SS n z) as HD.
    pose proof (INR1 (S n)) as Hp.
    assert (HD' : INR (S (S n)) * DL (S (S n)) z = (2 * INR (S n) + 1) * (L (S n) z + z * DL (S n) z) - INR (S n) * DL n z)
      by (rewrite HD, (S_INR (S n)); field; lra).
    rewrite (Rmult_minus_distr_l (INR (S (S n)))), <- !Rmult_assoc, HD'.
    replace (INR (S (S n)) * DL (S n) z * L (S (S n)) z) with (DL (S n) z * (INR (S (S n)) * L (S (S n)) z)) by ring.
    rewrite Hz. ring.
Qed.
Lemma CD_pos n z : 1 <= CD (S n) z z.
Proof.
  induction n as [|n IH].
  - cbn [CD INR]. rewrite !L_0. lra.
  - change (CD (S (S n)) z z) with (CD (S n) z z + (2 * INR (S n) + 1) * L (S n) z * L (S n) z).
    pose proof (pos_INR (S n)). assert (0 <= (2 * INR (S n) + 1) * (L (S n) z * L (S n) z)) by (apply Rmult_le_pos; [lra|nra]). lra.
Qed.
Lemma polyfun_CD n z : polyfun n (CD n z).
Proof.
  induction n as [|n IH]; [exists []; split; [cbn; lia|reflexivity]|].
  cbn [CD]. apply (polyfun_plus (S n) (CD n z) (fun x => (2 * INR n + 1) * L n z * L n x)).
  - apply (polyfun_weaken n); [lia|exact IH].
  - apply polyfun_scal, polyfun_L.
Qed.
Lemma I11_CD n z : I11 (CD (S n) z) = 2.
Proof.
  induction n as [|n IH].
  - rewrite (I11_ext _ (fun _ => 1)); [apply I11_1|]. intros x; cbn [CD INR]. rewrite !L_0. ring.
  - rewrite (I11_ext _ (fun x => CD (S n) z x + (2 * INR (S n) + 1) * L (S n) z * L (S n) x)) by reflexivity.
    rewrite (I11_plus (S (S n))).
    + rewrite (I11_scal (S (S n))) by apply polyfun_L. rewrite IH, I11_L by lia. ring.
    + apply (polyfun_weaken (S n)); [lia|]. apply polyfun_CD.
    + apply polyfun_scal, polyfun_L.
Qed.
(** At a root of P_(n+1) the weight denominator is (1-z^2) P'^2. *)
Lemma CD_root n z : L (S n) z = 0 -> CD (S n) z z = (1 - z * z) * DL (S n) z * DL (S n) z.
Proof.
  intros Hz. rewrite CD_confluent, Hz. pose proof (leg_slope n z) as HS. rewrite Hz in HS.
  replace (INR (S n) * (DL (S n) z * L n z - DL n z * 0)) with (DL (S n) z * (INR (S n) * L n z)) by ring.
  replace (INR (S n) * L n z) with ((1 - z * z) * DL (S n) z) by lra. ring.
Qed.

(** Dividing out roots. *)
Fixpoint prodr (zs : list R) (x : R) : R := match zs with [] => 1 | z :: zs => (x - z) * prodr zs x end.
Lemma divide_roots : forall zs (p : poly) d, NoDup zs -> (length p <= length zs + d)%nat ->
  (forall z, In z zs -> peval p z = 0) ->
  exists q : poly, (length q <= d)%nat /\ forall x, peval p x = prodr zs x * peval q x.
Proof.
  induction zs as [|z zs IH]; intros p d Hnd Hl Hz.
  - exists p; split; [cbn in Hl; lia|]. intros; cbn; ring.
  - inversion Hnd as [|? ? Hnin Hnd']; subst.
    destruct (IH (pdivr z p) d) as [q [Hq1 Hq2]]; auto.
    + rewrite length_pdivr. cbn in Hl. lia.
    + intros s Hs. assert (Hsz : s - z <> 0) by (intros E; apply Hnin; replace z with s by lra; exact Hs).
      pose proof (pdivr_spec z p s) as E. rewrite (Hz s), (Hz z) in E by (cbn; auto).
      rewrite Rplus_0_l in E. symmetry in E. apply Rmult_integral in E. destruct E; [contradiction|assumption].
    + exists q; split; [exact Hq1|]. intros x. rewrite (pdivr_spec z p x), (Hz z) by (cbn; auto).
      rewrite Hq2. cbn [prodr]. ring.
Qed.

Fixpoint lsum (zs : list R) (f : R -> R) : R := match zs with [] => 0 | z :: zs => f z + lsum zs f end.
Lemma lsum_ext zs f g : (forall z, In z zs -> f z = g z) -> lsum zs f = lsum zs g.
Proof. induction zs as [|z zs IH]; intros H; cbn; [reflexivity|]. rewrite H by (cbn; auto). rewrite IH; auto. intros; apply H; cbn; auto. Qed.

(** Interpolation on the roots by the Christoffel-Darboux kernels. *)
Definition cdi (n : nat) (zs : list R) (f : R -> R) (x : R) : R :=
  lsum zs (fun z => f z / CD n z z * CD n z x).
Lemma polyfun_cdi n zs f : polyfun n (cdi n zs f).
Proof.
  unfold cdi. induction zs as [|z zs IH]; cbn [lsum]; [exists []; split; [cbn; lia|reflexivity]|].
  apply (polyfun_plus n (fun x => f z / CD n z z * CD n z x) (fun x => lsum zs (fun z => f z / CD n z z * CD n z x))).
  - apply polyfun_scal, polyfun_CD.
  - exact IH.
Qed.
Lemma I11_cdi n zs f : I11 (cdi (S n) zs f) = lsum zs (fun z => f z / CD (S n) z z * 2).
Proof.
  unfold cdi. induction zs as [|z zs IH]; cbn [lsum].
  - unfold I11. rewrite RInt_const. unfold scal; cbn; unfold mult; cbn. ring.
  - rewrite (I11_plus (S n) (fun x => f z / CD (S n) z z * CD (S n) z x)).
    + rewrite (I11_scal (S n)) by apply polyfun_CD. rewrite I11_CD, IH. reflexivity.
    + apply polyfun_scal, polyfun_CD.
    + apply (polyfun_cdi (S n) zs f).
Qed.
Lemma CD_other n z y : L (S n) z = 0 -> L (S n) y = 0 -> z <> y -> CD (S n) z y = 0.
Proof.
  intros Hz Hy Hne. pose proof (CD_formula n z y) as E. rewrite Hz, Hy in E.
  replace (INR (S n) * (0 * L n z - L n y * 0)) with 0 in E by ring.
  apply Rmult_integral in E. destruct E; [lra|assumption].
Qed.
Lemma cdi_node n zs f y : NoDup zs -> (forall z, In z zs -> L (S n) z = 0) -> In y zs -> cdi (S n) zs f y = f y.
Proof.
  unfold cdi. intros Hnd Hr. induction zs as [|z zs IH]; intros Hy; [destruct Hy|].
  inversion Hnd as [|? ? Hnin Hnd']; subst. cbn [lsum].
  pose proof (CD_pos n z) as Hp. destruct Hy as [<-|Hy].
  - replace (lsum zs _) with 0.
    + field. lra.
    + symmetry. clear IH Hnd'. revert Hnin. assert (Hr' : forall w, In w zs -> L (S n) w = 0) by (intros; apply Hr; cbn; auto).
      clear Hnd. induction zs as [|w zs IHw]; intros Hnin; cbn [lsum]; [reflexivity|].
      rewrite (CD_other n w z); [|apply Hr'; cbn; auto|apply Hr; cbn; auto|intros ->; apply Hnin; cbn; auto].
      rewrite IHw; [ring|intros ? [->|?]; apply Hr; cbn; auto|intros; apply Hr'; cbn; auto|intros H; apply Hnin; cbn; auto].
  - rewrite (CD_other n z y); [|apply Hr; cbn; auto|apply Hr; cbn; auto|intros ->; contradiction].
    rewrite IH; auto. ring. intros; apply Hr; cbn; auto.
Qed.

(** Gauss quadrature on [-1,1]. *)
Lemma gauss_exact n zs (f : poly) :
  NoDup zs -> length zs = S n -> (forall z, In z zs -> L (S n) z = 0) -> (length f <= 2 * S n)%nat ->
  I11 (peval f) = lsum zs (fun z => 2 / ((1 - z * z) * DL (S n) z * DL (S n) z) * peval f z).
Proof.
  intros Hnd Hlen Hr Hf.
  set (r := cdi (S n) zs (peval f)).
  assert (Pr : polyfun (S n) r) by apply polyfun_cdi.
  destruct Pr as [pr [Lr Er]].
  (* L (S n) = c * prodr zs *)
  destruct (polyfun_L (S n)) as [pl [Ll El]].
  destruct (divide_roots zs pl 1 Hnd ltac:(lia)) as [c [Lc Ec]].
  { intros z Hz. rewrite <- El. apply Hr; exact Hz. }
  assert (Hc : exists c0, c0 <> 0 /\ forall x, L (S n) x = prodr zs x * c0).
  { destruct c as [|c0 [|c1 c]]; cbn in Lc; try lia.
    - exfalso. pose proof (L_at_1 (S n)) as H1. rewrite El, Ec in H1. cbn in H1. lra.
    - exists c0. assert (E : forall x, L (S n) x = prodr zs x * c0) by (intros x; rewrite El, Ec; cbn; ring).
      split; [|exact E]. intros ->. pose proof (L_at_1 (S n)) as H1. rewrite E in H1. lra. }
  destruct Hc as [c0 [Hc0 EL]].
  (* f - r vanishes on the roots *)
  destruct (divide_roots zs (padd f (pscale (-1) pr)) (S n) Hnd) as [q [Lq Eq]].
  { rewrite length_padd, length_pscale. lia. }
  { intros z Hz. rewrite peval_padd, peval_pscale, <- Er. unfold r. rewrite (cdi_node n) by assumption. ring. }
  rewrite (I11_ext (peval f) (fun x => r x + / c0 * (peval q x * L (S n) x))).
  2:{ intros x. rewrite EL. specialize (Eq x). rewrite peval_padd, peval_pscale in Eq. rewrite (Er x).
      replace (/ c0 * (peval q x * (prodr zs x * c0))) with (prodr zs x * peval q x) by (field; exact Hc0).
      rewrite <- Eq. ring. }
  set (dd := (S n + S (S n))%nat).
  assert (Q1 : polyfun dd (fun x => peval q x * L (S n) x)).
  { apply polyfun_mult; [exists q; split; [exact Lq|reflexivity]|apply polyfun_L]. }
  rewrite (I11_plus dd); [|apply (polyfun_weaken (S n)); [unfold dd; lia|exists pr; split; assumption]|apply polyfun_scal; exact Q1].
  rewrite (I11_scal dd) by exact Q1.
  rewrite (L_orthogonal (S n) (peval q)) by (exists q; split; [exact Lq|reflexivity]).
  unfold r. rewrite I11_cdi. rewrite Rmult_0_r, Rplus_0_r.
  apply lsum_ext. intros z Hz. rewrite <- CD_root by (apply Hr; exact Hz).
  pose proof (CD_pos n z). field. lra.
Qed.
