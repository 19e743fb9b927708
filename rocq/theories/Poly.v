(** Poly: elementary facts about polynomials given by coefficient lists. *)
From Coq Require Import Reals List Lra Lia.
From Verif Require Import Spec.
Import ListNotations.
Local Open Scope R_scope.

Fixpoint padd (p q : poly) : poly :=
  match p, q with
  | [], _ => q
  | _, [] => p
  | a :: p', b :: q' => (a + b) :: padd p' q'
  end.
Definition pscale (c : R) (p : poly) : poly := map (Rmult c) p.
Fixpoint pmul (p q : poly) : poly :=
  match p with [] => [] | a :: p' => padd (pscale a q) (0 :: pmul p' q) end.

Lemma peval_padd p q x : peval (padd p q) x = peval p x + peval q x.
Proof.
  revert q; induction p as [|a p IH]; intros [|b q]; cbn; try lra. rewrite IH; lra.
Qed.
Lemma peval_pscale c p x : peval (pscale c p) x = c * peval p x.
Proof. induction p as [|a p IH]; cbn; [lra|]. unfold pscale in IH; rewrite IH; lra. Qed.
Lemma peval_pmul p q x : peval (pmul p q) x = peval p x * peval q x.
Proof.
  induction p as [|a p IH]; [cbn; lra|]. cbn [pmul]. rewrite peval_padd, peval_pscale. cbn [peval].
  rewrite IH; lra.
Qed.
Lemma length_padd p q : length (padd p q) = Nat.max (length p) (length q).
Proof. revert q; induction p as [|a p IH]; intros [|b q]; cbn; auto. Qed.
Lemma length_pscale c p : length (pscale c p) = length p.
Proof. apply map_length. Qed.
Lemma length_pmul p q : (length (pmul p q) <= length p + length q)%nat.
Proof.
  induction p as [|a p IH]; cbn [pmul]; [cbn; lia|].
  rewrite length_padd, length_pscale; cbn [length]; lia.
Qed.
Lemma length_pmul_cons p q : p <> [] -> q <> [] -> length (pmul p q) = (length p + length q - 1)%nat.
Proof.
  intros Hp Hq. destruct q as [|b q]; [congruence|]. clear Hq.
  induction p as [|a p IH]; [congruence|]. clear Hp.
  destruct p as [|a' p].
  - cbn [pmul]. rewrite length_padd, length_pscale. cbn [length]; lia.
  - cbn [pmul] in *. rewrite length_padd, length_pscale. cbn [length] in *.
    rewrite IH by congruence. lia.
Qed.

(** Synthetic division by (X - r). *)
Fixpoint pdivr (r : R) (p : poly) : poly :=
  match p with
  | [] => []
  | a :: p' => match p' with [] => [] | _ => peval p' r :: pdivr r p' end
  end.
Lemma length_pdivr r p : length (pdivr r p) = pred (length p).
Proof.
  induction p as [|a p IH]; [reflexivity|]. destruct p as [|b p]; [reflexivity|].
  change (pdivr r (a :: b :: p)) with (peval (b :: p) r :: pdivr r (b :: p)).
  cbn [length] in *; lia.
Qed.
Lemma pdivr_spec r p x : peval p x = peval p r + (x - r) * peval (pdivr r p) x.
Proof.
  induction p as [|a p IH]; [cbn; lra|]. destruct p as [|b p]; [cbn; lra|].
  change (pdivr r (a :: b :: p)) with (peval (b :: p) r :: pdivr r (b :: p)).
  change (peval (a :: b :: p) x) with (a + x * peval (b :: p) x).
  change (peval (a :: b :: p) r) with (a + r * peval (b :: p) r).
  change (peval (peval (b :: p) r :: pdivr r (b :: p)) x)
    with (peval (b :: p) r + x * peval (pdivr r (b :: p)) x).
  rewrite IH at 1.
  replace (x * (peval (b :: p) r + (x - r) * peval (pdivr r (b :: p)) x))
    with (x * peval (b :: p) r + (x - r) * (x * peval (pdivr r (b :: p)) x)) by ring.
  ring.
Qed.

(** A polynomial with at least as many distinct roots as coefficients is zero. *)
Lemma poly_zero : forall (n : nat) (p : poly) (rs : list R),
  (length p <= length rs)%nat -> length rs = n -> NoDup rs -> (forall r, In r rs -> peval p r = 0) ->
  forall x, peval p x = 0.
Proof.
  induction n as [|n IH]; intros p rs Hlen Hn Hnd Hr x.
  - destruct p; cbn in *; [reflexivity|lia].
  - destruct rs as [|r rs]; [cbn in Hn; lia|].
    inversion Hnd as [|? ? Hnin Hnd']; subst.
    rewrite (pdivr_spec r p x). rewrite (Hr r (or_introl eq_refl)).
    assert (Hz : forall y, peval (pdivr r p) y = 0).
    { apply IH with (rs := rs).
      - rewrite length_pdivr; cbn in Hlen; lia.
      - cbn in Hn; lia.
      - exact Hnd'.
      - intros s Hs. assert (Hsr : s - r <> 0) by (intros E; apply Hnin; replace r with s by lra; exact Hs).
        pose proof (Hr s (or_intror Hs)) as H1. rewrite (pdivr_spec r p s), (Hr r (or_introl eq_refl)) in H1.
        rewrite Rplus_0_l in H1. apply Rmult_integral in H1. destruct H1; [contradiction|assumption]. }
    rewrite Hz; lra.
Qed.

Lemma distinct_NoDup l : distinct l -> NoDup l.
Proof.
  intros H. apply (NoDup_nth l 0). intros i j Hi Hj He.
  destruct (Nat.eq_dec i j) as [E|E]; [exact E|]. exfalso; apply (H i j); auto.
Qed.

Lemma interpolant_unique xs ys p q :
  distinct xs -> (length p <= length xs)%nat -> (length q <= length xs)%nat ->
  through p xs ys -> through q xs ys -> forall x, peval p x = peval q x.
Proof.
  intros Hd Hp Hq Tp Tq x.
  assert (Hz : peval (padd p (pscale (-1) q)) x = 0).
  { apply (poly_zero (length xs) _ xs).
    - rewrite length_padd, length_pscale; lia.
    - reflexivity.
    - apply distinct_NoDup; exact Hd.
    - intros r Hr. destruct (In_nth xs r 0 Hr) as [i [Hi He]].
      specialize (Tp i Hi); specialize (Tq i Hi). unfold at_ in Tp, Tq. rewrite He in Tp, Tq.
      rewrite peval_padd, peval_pscale, Tp, Tq; lra. }
  rewrite peval_padd, peval_pscale in Hz; lra.
Qed.
