(** ProofQuad: polynomials close to a Lipschitz function (Bernstein), and what the Gauss-Legendre rules make of one. *)
From Coq Require Import Reals Lra Lia List.
From Coquelicot Require Import Coquelicot.
From Verif Require Import Base Num BaseFacts Common Spec SpecQuad Poly ProofGL ProofNewton6 ProofNewton7.
Import ListNotations.
Local Open Scope R_scope.

(** Mean of [g] over the number of successes in [n] trials of probability [u] *)
Fixpoint mean (n : nat) (u : R) (g : nat -> R) : R :=
  match n with O => g O | S m => (1 - u) * mean m u g + u * mean m u (fun k => g (S k)) end.
Lemma mean_ext n u : forall g h, (forall k, (k <= n)%nat -> g k = h k) -> mean n u g = mean n u h.
Proof. induction n as [|n IH]; intros g h H; cbn [mean]; [apply H; lia|]. rewrite (IH g h), (IH (fun k => g (S k)) (fun k => h (S k))); auto; intros; apply H; lia. Qed.
Lemma mean_le n u : 0 <= u <= 1 -> forall g h, (forall k, (k <= n)%nat -> g k <= h k) -> mean n u g <= mean n u h.
Proof.
  intros Hu. induction n as [|n IH]; intros g h H; cbn [mean]; [apply H; lia|].
  apply Rplus_le_compat; apply Rmult_le_compat_l; try lra; apply IH; intros; apply H; lia.
Qed.
Lemma mean_lin n u a b : forall g h, mean n u (fun k => a * g k + b * h k) = a * mean n u g + b * mean n u h.
Proof.
  induction n as [|n IH]; intros g h; cbn [mean]; [reflexivity|]. rewrite IH, (IH (fun k => g (S k)) (fun k => h (S k))). ring.
Qed.
Lemma mean_const n u c : mean n u (fun _ => c) = c.
Proof. induction n as [|n IH]; cbn [mean]; [reflexivity|]. rewrite IH. ring. Qed.
Lemma mean_id n u : mean n u INR = INR n * u.
Proof.
  induction n as [|n IH]; [cbn; ring|]. cbn [mean]. rewrite (mean_ext n u (fun k => INR (S k)) (fun k => 1 * INR k + 1 * 1)) by (intros; rewrite S_INR; ring).
  rewrite (mean_lin n u 1 1 INR (fun _ => 1)), mean_const, IH, S_INR. ring.
Qed.
Lemma mean_sq n u : mean n u (fun k => INR k ^ 2) = INR n * u * (1 - u) + (INR n * u) ^ 2.
Proof.
  induction n as [|n IH]; [cbn; ring|]. cbn [mean].
  rewrite (mean_ext n u (fun k => INR (S k) ^ 2) (fun k => 1 * INR k ^ 2 + 1 * (2 * INR k + 1 * 1))) by (intros; rewrite S_INR; ring).
  rewrite (mean_lin n u 1 1 (fun k => INR k ^ 2) (fun k => 2 * INR k + 1 * 1)), (mean_lin n u 2 1 INR (fun _ => 1)), mean_const, mean_id, IH, S_INR. ring.
Qed.
Lemma mean_var n u : mean n u (fun k => (INR k - INR n * u) ^ 2) = INR n * u * (1 - u).
Proof.
  rewrite (mean_ext n u _ (fun k => 1 * INR k ^ 2 + 1 * ((- 2 * (INR n * u)) * INR k + (INR n * u) ^ 2 * 1))) by (intros; ring).
  rewrite (mean_lin n u 1 1 (fun k => INR k ^ 2) (fun k => (- 2 * (INR n * u)) * INR k + (INR n * u) ^ 2 * 1)).
  rewrite (mean_lin n u (- 2 * (INR n * u)) ((INR n * u) ^ 2) INR (fun _ => 1)), mean_const, mean_id, mean_sq. ring.
Qed.
Lemma mean_dist n u g c : 0 <= u <= 1 -> Rabs (mean n u g - c) <= mean n u (fun k => Rabs (g k - c)).
Proof.
  intros Hu. assert (E : mean n u g - c = mean n u (fun k => 1 * g k + (-1) * c)) by (rewrite (mean_lin n u 1 (-1) g (fun _ => c)), mean_const; ring).
  rewrite E. apply Rabs_le. split.
  - replace (- mean n u (fun k => Rabs (g k - c))) with (mean n u (fun k => (-1) * Rabs (g k - c) + 0 * 0)) by (rewrite (mean_lin n u (-1) 0 (fun k => Rabs (g k - c)) (fun _ => 0)); ring).
    apply mean_le; [exact Hu|]. intros k _. pose proof (Rle_abs (- (g k - c))) as H. rewrite Rabs_Ropp in H. lra.
  - apply mean_le; [exact Hu|]. intros k _. pose proof (Rle_abs (g k - c)). lra.
Qed.
(** The same as a polynomial in t, for u = (t - a) / (b - a) *)
Fixpoint bern (a b : R) (n : nat) (g : nat -> R) : poly :=
  match n with
  | O => [g O]
  | S m => padd (pmul [b / (b - a); - / (b - a)] (bern a b m g)) (pmul [- a / (b - a); / (b - a)] (bern a b m (fun k => g (S k))))
  end.
Lemma bern_len a b n : forall g, length (bern a b n g) = S n.
Proof.
  induction n as [|n IH]; intros g; [reflexivity|]. cbn [bern]. rewrite length_padd, !length_pmul_cons, !IH; try discriminate.
  - cbn [length]. lia.
  - intros E. apply (f_equal (@length R)) in E. rewrite IH in E. discriminate.
  - intros E. apply (f_equal (@length R)) in E. rewrite IH in E. discriminate.
Qed.
Lemma bern_val a b n t : a <> b -> forall g, peval (bern a b n g) t = mean n ((t - a) / (b - a)) g.
Proof.
  intros Hab. induction n as [|n IH]; intros g; cbn [bern mean]; [cbn; ring|]. rewrite peval_padd, !peval_pmul, !IH. cbn [peval]. 
  set (A := mean n _ g). set (B := mean n _ _). field. lra.
Qed.
(** A polynomial of degree [n] within lam (b - a) / (2 sqrt n) of a Lipschitz function *)
Lemma lipschitz_poly a b f lam n : a < b -> 0 <= lam -> (1 <= n)%nat -> (forall s t, a <= s <= b -> a <= t <= b -> Rabs (f s - f t) <= lam * Rabs (s - t)) ->
  exists q : poly, length q = S n /\ forall t, a <= t <= b -> Rabs (f t - peval q t) <= lam * (b - a) / (2 * sqrt (INR n)).
Proof.
  intros Hab Hlam Hn Hf. set (node := fun k => a + (b - a) * (INR k / INR n)). exists (bern a b n (fun k => f (node k))). split; [apply bern_len|].
  intros t Ht. rewrite bern_val by lra. set (u := (t - a) / (b - a)).
  assert (Hu : 0 <= u <= 1). { unfold u. split; [apply Rcomplements.Rdiv_le_0_compat; lra|]. apply (Rmult_le_reg_r (b - a)); [lra|]. unfold Rdiv. rewrite Rmult_assoc, Rinv_l by lra. lra. }
  assert (HN : 1 <= INR n) by (change 1 with (INR 1); apply le_INR; exact Hn).
  set (r := sqrt (INR n)). assert (Hr : 0 < r) by (apply sqrt_lt_R0; lra). assert (Hrr : r * r = INR n) by (apply sqrt_sqrt; lra).
  rewrite Rabs_minus_sym. eapply Rle_trans; [apply mean_dist; exact Hu|].
  eapply Rle_trans; [apply (mean_le n u Hu _ (fun k => (lam * (b - a) * / (r * INR n)) * (INR k - INR n * u) ^ 2 + (lam * (b - a) / (4 * r)) * 1))|].
  - intros k Hk. assert (Hk' : 0 <= INR k / INR n <= 1).
    { pose proof (pos_INR k). apply le_INR in Hk. split; [apply Rcomplements.Rdiv_le_0_compat; lra|]. apply (Rmult_le_reg_r (INR n)); [lra|]. unfold Rdiv. rewrite Rmult_assoc, Rinv_l by lra. lra. }
    assert (Hb : a <= node k <= b) by (unfold node; nra).
    eapply Rle_trans; [apply (Hf _ _ Hb Ht)|]. unfold node.
    replace (a + (b - a) * (INR k / INR n) - t) with ((b - a) * (INR k - INR n * u) / INR n) by (unfold u; field; lra).
    set (d := INR k - INR n * u). unfold Rdiv at 1. rewrite !Rabs_mult, (Rabs_right (b - a)) by lra. rewrite (Rabs_right (/ INR n)) by (apply Rle_ge, Rlt_le, Rinv_0_lt_compat; lra).
    replace (lam * ((b - a) * Rabs d * / INR n)) with (lam * (b - a) * (Rabs d * / INR n)) by ring.
    replace (lam * (b - a) * / (r * INR n) * d ^ 2 + lam * (b - a) / (4 * r) * 1) with (lam * (b - a) * (Rabs d ^ 2 * / (r * INR n) + / (4 * r))) by (rewrite pow2_abs; field; lra).
    apply Rmult_le_compat_l; [apply Rmult_le_pos; lra|]. rewrite <- Hrr. set (e := Rabs d).
    assert (e ^ 2 * / (r * (r * r)) + / (4 * r) - e * / (r * r) = (e / r - 1 / 2) ^ 2 * / r) by (field; lra).
    assert (0 <= (e / r - 1 / 2) ^ 2 * / r) by (apply Rmult_le_pos; [apply pow2_ge_0|apply Rlt_le, Rinv_0_lt_compat; exact Hr]). lra.
  - rewrite (mean_lin n u (lam * (b - a) * / (r * INR n)) (lam * (b - a) / (4 * r)) (fun k => (INR k - INR n * u) ^ 2) (fun _ => 1)), mean_const, mean_var.
    replace (lam * (b - a) * / (r * INR n) * (INR n * u * (1 - u)) + lam * (b - a) / (4 * r) * 1) with (lam * (b - a) * / r * (u * (1 - u) + / 4)) by (field; lra).
    replace (lam * (b - a) / (2 * r)) with (lam * (b - a) * / r * (1 / 2)) by (field; lra). apply Rmult_le_compat_l; [|pose proof (pow2_ge_0 (u - 1 / 2)); lra].
    apply Rmult_le_pos; [apply Rmult_le_pos; lra|apply Rlt_le, Rinv_0_lt_compat; exact Hr].
Qed.
Definition lip_on (a b : R) (f : R -> R) (lam : R) : Prop := forall s t, a <= s <= b -> a <= t <= b -> Rabs (f s - f t) <= lam * Rabs (s - t).
(** A bounded Lipschitz function *)
Definition lip (a b : R) (f : R -> R) : Prop := exists lam M, 0 <= lam /\ (forall t, a <= t <= b -> Rabs (f t) <= M) /\ lip_on a b f lam.
Lemma lip_cont a b f lam t : a < t < b -> lip_on a b f lam -> continuous f t.
Proof.
  intros Ht H. apply (proj1 (continuity_pt_filterlim f t)). intros eps He.
  set (l := Rmax lam 1). assert (Hl : 1 <= l /\ lam <= l) by (unfold l; split; [apply Rmax_r|apply Rmax_l]).
  exists (Rmin (eps / l) (Rmin (t - a) (b - t))). split.
  - repeat apply Rmin_glb_lt; try lra. apply Rdiv_lt_0_compat; lra.
  - intros x [[_ Hx] Hd]. unfold R_dist in *. cbn in Hd. unfold R_dist in Hd.
    pose proof (Rmin_l (eps / l) (Rmin (t - a) (b - t))). pose proof (Rmin_r (eps / l) (Rmin (t - a) (b - t))). pose proof (Rmin_l (t - a) (b - t)). pose proof (Rmin_r (t - a) (b - t)).
    assert (Hab : a <= x <= b). { apply Rabs_def2 in Hd. lra. }
    cbn. unfold R_dist. eapply Rle_lt_trans; [apply H; [exact Hab|lra]|].
    apply (Rle_lt_trans _ (l * Rabs (x - t))); [apply Rmult_le_compat_r; [apply Rabs_pos|lra]|].
    apply (Rmult_lt_reg_l (/ l)); [apply Rinv_0_lt_compat; lra|]. rewrite <- Rmult_assoc, Rinv_l by lra. rewrite Rmult_1_l. unfold Rdiv in *. lra.
Qed.
(** Clamped to the interval, it is continuous everywhere; so it has an integral. *)
Lemma lip_int a b f lam : a < b -> 0 <= lam -> lip_on a b f lam -> ex_RInt f a b.
Proof.
  intros Hab Hl H. set (c := fun t => Rmax a (Rmin t b)).
  assert (Hc : forall t, a <= c t <= b). { intros t. unfold c. split; [apply Rmax_l|]. apply Rmax_lub; [lra|apply Rmin_r]. }
  assert (Hd : forall s t, Rabs (c s - c t) <= Rabs (s - t)).
  { intros s t. unfold c, Rmax, Rmin. repeat destruct (Rle_dec _ _); unfold Rabs; repeat destruct (Rcase_abs _); lra. }
  apply (ex_RInt_ext (fun t => f (c t))).
  - intros t Ht. rewrite Rmin_left, Rmax_right in Ht by lra. f_equal. unfold c. rewrite Rmin_left, Rmax_right; lra.
  - apply (ex_RInt_continuous (V := R_CompleteNormedModule)). intros t _. apply (lip_cont (t - 1) (t + 1) _ lam); [lra|].
    intros s u _ _. eapply Rle_trans; [apply H; apply Hc|]. apply Rmult_le_compat_l; [exact Hl|apply Hd].
Qed.
Lemma gl_lipschitz fuel (xmin xmax : R) (x w : list R) n (f : R -> R) (M lam : R) :
  (1 <= n < 2 ^ 62)%Z -> zlen x = n -> zlen w = n -> xmin < xmax -> 0 <= lam ->
  (forall t, xmin <= t <= xmax -> Rabs (f t) <= M) -> lip_on xmin xmax f lam ->
  forall x' w', nodes_weights_gauss_legendre (N := RNum) fuel xmin xmax x w n = Ok (x', w') ->
  ex_RInt f xmin xmax /\
  Rabs (rsum (length x') (fun i => at_ w' i * f (at_ x' i)) - RInt f xmin xmax) <=
    (xmax - xmin) * (lam * (xmax - xmin) / sqrt (2 * IZR n - 1) + 2 * (IZR n + 1 / 2) ^ 2 * (3 / 10 ^ 14) * M + lam * ((xmax - xmin) / 9 * (3 / 10 ^ 14))).
Proof.
  intros Hn Hx Hw HX Hl HM HL x' w' E. pose proof (lip_int xmin xmax f lam HX Hl HL) as HI. split; [exact HI|].
  destruct (lipschitz_poly xmin xmax f lam (2 * Z.to_nat n - 1) HX Hl ltac:(lia) HL) as (q & Lq & Hq).
  assert (EN : INR (2 * Z.to_nat n - 1) = 2 * IZR n - 1).
  { rewrite minus_INR by lia. rewrite mult_INR, (INR_IZR_INZ (Z.to_nat n)), Z2Nat.id by lia. cbn. ring. }
  rewrite EN in Hq. replace (lam * (xmax - xmin) / sqrt (2 * IZR n - 1)) with (2 * (lam * (xmax - xmin) / (2 * sqrt (2 * IZR n - 1)))).
  2:{ field. apply Rgt_not_eq, sqrt_lt_R0. assert (1 <= IZR n) by (apply (IZR_le 1); lia). lra. }
  exact (gl_quadrature fuel xmin xmax x w n f q _ M lam (RInt f xmin xmax) Hn Hx Hw HX ltac:(lia) Hq HM HL (RInt_correct f xmin xmax HI) x' w' E).
Qed.
