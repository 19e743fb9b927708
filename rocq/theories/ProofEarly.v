(** ProofEarly: pk_interp before run_terms (C117). *)
From Coq Require Import Reals ZArith List String Lia Lra Bool.
From Verif Require Import Base Num Common Registry PyTerms PyEarly Spec SpecPy SpecDamped ProofPy ProofPy2 ProofPy4 ProofPy7 ProofPy8.
Import ListNotations.
Local Open Scope R_scope.

Lemma interpolates_zero (x y : nat -> R) n f : (1 <= n)%nat -> (forall i, y i = 0) -> interpolates x y n 0 0 f -> forall t, f t = 0.
Proof.
  intros H1 HY (A & B & C & F) t. assert (P : forall m, (m < n)%nat -> x 0%nat <= t -> t <= x m -> f t = 0).
  { induction m as [|m IH]; intros Hm L U; [replace t with (x 0%nat) by lra; rewrite C by exact Hm; apply HY|].
    destruct (Rle_dec t (x m)) as [Q|Q]; [apply IH; [lia|exact L|exact Q]|]. rewrite (F m t Hm) by lra. rewrite !HY. unfold Rdiv. ring. }
  destruct (Rlt_dec t (x 0%nat)) as [L|L]; [apply A, L|]. destruct (Rlt_dec (x (pred n)) t) as [U|U]; [apply B, U|]. apply (P (pred n)); [lia|lra|lra].
Qed.
Lemma nth_repeat0 m i : nth i (repeat (0 : R) m) 0 = 0.
Proof. revert i. induction m as [|m IH]; intros [|i]; cbn; try reflexivity. apply IH. Qed.
Lemma combine_zero l mu2 beta v : (forall j, (j < List.length l)%nat -> v j = 0) -> combine_components l mu2 beta v = 0.
Proof. intros H. unfold combine_components. generalize dependent (List.length l). induction n as [|n IH]; intros H; [reflexivity|]. cbn [rsum]. rewrite IH by (intros j Hj; apply H; lia). rewrite H by lia. ring. Qed.
Lemma early_zero cl (c : columns RNum) (K : list R) (k mu2 beta D : R) : one_dim cl = false -> (forall x, In x (map fst c) -> In x (fields cl)) -> K <> [] -> increasing K ->
  exists c', zeros (N := RNum) cl c K = (c', Done) /\ pk_interp_now (N := RNum) cl true c' k mu2 beta D 0 0 = Ok 0.
Proof.
  intros H1 Hc HK HI. assert (HT : has_ctype cl = true) by (destruct cl; try discriminate; reflexivity). destruct (zeros_effect (N := RNum) cl c K HT) as (c' & E & EK & EZ & _ & _). exists c'. split; [exact E|].
  pose proof (zeros_complete (N := RNum) cl c c' K Hc E) as HC. specialize (EZ "pk"%string ltac:(destruct cl; try discriminate; cbn; tauto) ltac:(discriminate)).
  assert (Z0 : forall i, entry c' "pk" i = 0) by (intros i; unfold entry; rewrite EZ; apply nth_repeat0). assert (Hn : (1 <= List.length K)%nat) by (destruct K; [congruence|cbn; lia]).
  assert (HI2 : forall kk, getitem c' "k" = Ok kk -> increasing kk) by (intros kk Hk; rewrite EK in Hk; injection Hk as <-; exact HI).
  unfold pk_interp_now. destruct cl; try discriminate.
  - destruct (pk_interp_A_val c' (List.length K) k mu2 beta D 0 0 CA1 (or_introl eq_refl) HC Hn HI2) as (f & I & V). rewrite V. apply (f_equal (@Ok R)). apply combine_zero. intros j Hj. refine (interpolates_zero _ _ _ _ Hn _ (I j Hj) k). intros i. cbv beta. rewrite Z0. ring.
  - destruct (pk_interp_A_val c' (List.length K) k mu2 beta D 0 0 CA2 (or_intror eq_refl) HC Hn HI2) as (f & I & V). rewrite V. apply (f_equal (@Ok R)). apply combine_zero. intros j Hj. refine (interpolates_zero _ _ _ _ Hn _ (I j Hj) k). intros i. cbv beta. rewrite Z0. ring.
  - destruct (pk_interp_B_val c' (List.length K) k mu2 beta D 0 0 CB1 (or_introl eq_refl) HC Hn HI2) as (f & I & V). rewrite V. apply (f_equal (@Ok R)). apply combine_zero. intros j Hj. refine (interpolates_zero _ _ _ _ Hn _ (I j Hj) k). intros i. cbv beta. rewrite Z0. ring.
  - destruct (pk_interp_B_val c' (List.length K) k mu2 beta D 0 0 CB2 (or_intror eq_refl) HC Hn HI2) as (f & I & V). rewrite V. apply (f_equal (@Ok R)). apply combine_zero. intros j Hj. refine (interpolates_zero _ _ _ _ Hn _ (I j Hj) k). intros i. cbv beta. rewrite Z0. ring.
Qed.
Lemma early_raises {N} cl (c : columns N) n k mu2 beta D left right : one_dim cl = false -> complete cl c n -> (1 <= n)%nat -> pk_interp_now cl false c k mu2 beta D left right = Err (PyExc ValueError).
Proof.
  intros H HC Hn. destruct (getitem_complete cl c n "pk" HC ltac:(destruct cl; try discriminate; cbn; tauto)) as (v & E & L). unfold pk_interp_now, accessor.
  replace (assoc (accessors cl) "pk") with (Some (2%Z, "pk"%string)) by (destruct cl; try discriminate; reflexivity). unfold scale_factor. rewrite E. cbn [bind].
  destruct v as [|a v]; [exfalso; cbn in L; destruct cl; try discriminate; cbn in L; lia|reflexivity].
Qed.
