(** ProofNewton5: the whole Gauss-Legendre rule, for every number of nodes. *)
From Coq Require Import Reals Lra Lia List.
From Coquelicot Require Import Coquelicot.
From Verif Require Import Base Num BaseFacts Common Spec SpecQuad Poly Legendre LegendreRoots LegendreSpec ProofGL ProofNewton ProofNewton2 ProofNewton3 ProofNewton4.
Import ListNotations.
Local Open Scope R_scope.

(** Finite choice *)
Lemma choose_list (P : nat -> R -> Prop) m : (forall i, (i < m)%nat -> exists t, P i t) ->
  exists l, length l = m /\ forall i, (i < m)%nat -> P i (nth i l 0).
Proof.
  induction m as [|m IH]; intros H; [exists nil; split; [reflexivity|intros; lia]|].
  destruct IH as [l [Hl Hp]]; [intros; apply H; lia|]. destruct (H m ltac:(lia)) as [t Ht].
  exists (l ++ [t]). split; [rewrite app_length; cbn; lia|]. intros i Hi. destruct (Nat.eq_dec i m) as [->|E].
  - rewrite app_nth2 by lia. rewrite Hl, Nat.sub_diag. exact Ht.
  - rewrite app_nth1 by lia. apply Hp. lia.
Qed.

(** The zeros the loops lead to, in decreasing order *)
Definition half_roots (n : nat) (rs : list R) : Prop :=
  length rs = ((n + 1) / 2)%nat /\ forall i, (2 * i + 1 <= n)%nat -> start n (nth i rs 0) (cos (phi n i)) /\
    (forall j, (j < i)%nat -> cos (phi n i) < nth j rs 0) /\ ((2 * i + 1)%nat = n -> nth i rs 0 = 0 /\ cos (phi n i) = 0) /\ ((2 * i + 1 < n)%nat -> 0 < nth i rs 0).

Lemma half_lt n i : (i < (n + 1) / 2 <-> 2 * i + 1 <= n)%nat.
Proof.
  pose proof (Nat.div_mod (n + 1) 2 ltac:(lia)) as E. pose proof (Nat.mod_upper_bound (n + 1) 2 ltac:(lia)). lia.
Qed.
Lemma phi_step n i : (1 <= n)%nat -> phi n (S i) = phi n i + PI / fr n.
Proof. intros Hn. pose proof (fr_ge n Hn). unfold phi. rewrite S_INR. field. lra. Qed.
Lemma phi_mono n i j : (1 <= n)%nat -> (i <= j)%nat -> phi n i <= phi n j.
Proof.
  intros Hn H. pose proof (fr_ge n Hn). pose proof PI_RGT_0. unfold phi. apply le_INR in H.
  apply Rmult_le_compat_r; [left; apply Rinv_0_lt_compat; lra|]. apply Rmult_le_compat_l; lra.
Qed.
Lemma half_roots_exist n : (1 <= n)%nat -> exists rs, half_roots n rs.
Proof.
  intros Hn. pose proof PI_RGT_0 as HP. pose proof (fr_ge n Hn) as Hf.
  destruct (choose_list (fun i t => phi n i <= t <= PI / 2 /\ t - phi n i <= / (4 * (fr n * fr n)) * (cos t / sin t) /\ start n (cos t) (cos (phi n i))) ((n + 1) / 2)) as [ts [Hl Ht]].
  { intros i Hi. apply half_lt in Hi. apply (start_guess n i Hi). }
  exists (map cos ts). split; [rewrite map_length; exact Hl|]. intros i Hi.
  assert (Hi' : (i < (n + 1) / 2)%nat) by (apply half_lt; exact Hi).
  assert (EN : forall k, (k < (n + 1) / 2)%nat -> nth k (map cos ts) 0 = cos (nth k ts 0)).
  { intros k Hk. rewrite (nth_indep _ 0 (cos 0)) by (rewrite map_length; lia). apply map_nth. }
  destruct (Ht i Hi') as [H1 [H2 H3]]. pose proof (phi_range n i Hi) as Hr.
  rewrite EN by exact Hi'. split; [exact H3|]. split; [|split].
  - intros j Hj. assert (Hj' : (2 * j + 1 <= n)%nat) by lia. assert (Hjh : (j < (n + 1) / 2)%nat) by (apply half_lt; exact Hj').
    destruct (Ht j Hjh) as [K1 [K2 K3]]. rewrite EN by exact Hjh. pose proof (phi_range n j Hj') as Krange. pose proof (phi_cot n j Hj') as Kc.
    assert (Hlt : nth j ts 0 < phi n i).
    { apply Rlt_le_trans with (phi n (S j)); [|apply phi_mono; lia]. rewrite phi_step by exact Hn.
      pose proof (cot_decr (phi n j) (nth j ts 0) ltac:(lra) ltac:(lra) ltac:(lra)) as Kd.
      assert (nth j ts 0 - phi n j <= / (4 * (fr n * fr n)) * (2 / 3 * fr n)).
      { eapply Rle_trans; [exact K2|]. apply Rmult_le_compat_l; [left; apply Rinv_0_lt_compat; nra|lra]. }
      replace (/ (4 * (fr n * fr n)) * (2 / 3 * fr n)) with (1 / 6 * / fr n) in H by (field; lra).
      assert (1 / 6 * / fr n < PI * / fr n); [|unfold Rdiv; lra]. apply Rmult_lt_compat_r; [apply Rinv_0_lt_compat; lra|]. pose proof PI2_3_2; lra. }
    apply cos_decreasing_1; lra.
  - intros E. assert (EP : phi n i = PI / 2).
    { pose proof (phi_fr n i Hn) as Ep. apply Rmult_eq_reg_l with (fr n); [|lra]. rewrite Ep. unfold fr. rewrite <- E, plus_INR, mult_INR. cbn [INR]. field. }
    assert (ET : nth i ts 0 = PI / 2) by lra. rewrite EP, ET, cos_PI2. auto.
  - intros Hlt. assert (EP : phi n i < PI / 2).
    { pose proof (phi_fr n i Hn) as Ep. apply Rmult_lt_reg_l with (fr n); [lra|]. rewrite Ep. unfold fr.
      apply lt_INR in Hlt. rewrite plus_INR, mult_INR in Hlt. cbn in Hlt. nra. }
    destruct H3 as [[Hr0 Hr1] [_ [_ [_ [H4 _]]]]].
    assert (0 < cos (phi n i)) by (apply cos_gt_0; lra).
    destruct (Rle_lt_or_eq_dec 0 _ Hr0) as [Hlt0|E0]; [exact Hlt0|exfalso].
    rewrite <- E0 in H4. assert (0 < 4 * (fr n * fr n) * (cos (phi n i) - 0)); [|lra]. apply Rmult_lt_0_compat; nra.
Qed.
(** All n of them, in increasing order *)
Definition full_roots (n : nat) (rs : list R) : list R :=
  map (fun i => if (2 * i + 1 <=? n)%nat then - nth i rs 0 else nth (n - 1 - i) rs 0) (seq 0 n).
Lemma full_len n rs : length (full_roots n rs) = n.
Proof. unfold full_roots. rewrite map_length, seq_length. reflexivity. Qed.
Lemma full_at n rs i : (i < n)%nat -> at_ (full_roots n rs) i = if (2 * i + 1 <=? n)%nat then - nth i rs 0 else nth (n - 1 - i) rs 0.
Proof.
  intros Hi. unfold at_, full_roots. set (g := fun i => _).
  rewrite (nth_indep _ 0 (g 0%nat)) by (rewrite map_length, seq_length; exact Hi).
  rewrite map_nth, seq_nth by exact Hi. reflexivity.
Qed.
Lemma full_root n rs i : (1 <= n)%nat -> half_roots n rs -> (i < n)%nat -> -1 < at_ (full_roots n rs) i < 1 /\ L n (at_ (full_roots n rs) i) = 0.
Proof.
  intros Hn [Hl HR] Hi. rewrite full_at by exact Hi. destruct (Nat.leb_spec (2 * i + 1) n) as [H|H].
  - destruct (HR i H) as [[H1 [H2 [H3 _]]] _]. split; [lra|]. rewrite L_parity, H3. ring.
  - destruct (HR (n - 1 - i)%nat ltac:(lia)) as [[H1 [H2 [H3 _]]] _]. split; [lra|exact H3].
Qed.
Lemma full_incr n rs i : (1 <= n)%nat -> half_roots n rs -> (S i < n)%nat -> at_ (full_roots n rs) i < at_ (full_roots n rs) (S i).
Proof.
  intros Hn [Hl HR] Hi. rewrite !full_at by lia.
  destruct (Nat.leb_spec (2 * i + 1) n) as [H|H]; destruct (Nat.leb_spec (2 * S i + 1) n) as [H'|H']; try lia.
  - destruct (HR (S i) H') as [[H1 _] [H2 _]]. specialize (H2 i ltac:(lia)). lra.
  - destruct (Nat.eq_dec (2 * i + 1) n) as [E|E].
    + destruct (HR i H) as [_ [H2 [H3 _]]]. destruct (H3 E) as [-> Ec].
      destruct (HR (n - 1 - S i)%nat ltac:(lia)) as [_ [_ [_ H4]]]. specialize (H4 ltac:(lia)). lra.
    + destruct (HR i H) as [_ [_ [_ H4]]]. specialize (H4 ltac:(lia)). destruct (HR (n - 1 - S i)%nat ltac:(lia)) as [[H5 _] _]. lra.
  - destruct (HR (n - 1 - i)%nat ltac:(lia)) as [[H1 _] [H2 _]]. specialize (H2 (n - 1 - S i)%nat ltac:(lia)). lra.
Qed.
Lemma full_nodup n rs : (1 <= n)%nat -> half_roots n rs -> NoDup (full_roots n rs).
Proof.
  intros Hn HR. assert (Hm : forall i j, (i < j)%nat -> (j < n)%nat -> at_ (full_roots n rs) i < at_ (full_roots n rs) j).
  { intros i j Hij. induction Hij as [|j Hij IH]; intros Hj; [apply full_incr; assumption|].
    apply Rlt_trans with (at_ (full_roots n rs) j); [apply IH; lia|apply full_incr; assumption]. }
  apply (NoDup_nth _ 0). rewrite full_len. intros i j Hi Hj E.
  destruct (lt_eq_lt_dec i j) as [[H|H]|H]; [|exact H|]; [specialize (Hm i j H Hj)|specialize (Hm j i H Hi)]; unfold at_ in Hm; lra.
Qed.

(** What the loops leave, node by node *)
Definition node_ok (n : nat) (r b : R) (zp : R * R) : Prop :=
  r <= fst zp <= b /\ fst zp - r <= 2 / 9 * epsR /\ fst zp - r <= 88 / 81 * (fr n * fr n) * (epsR * epsR) /\
  0 < (1 - fst zp * fst zp) * snd zp * snd zp /\
  Rabs ((1 - r * r) * DL n r * DL n r - (1 - fst zp * fst zp) * snd zp * snd zp) <= 2 * (fr n * fr n) * epsR * ((1 - fst zp * fst zp) * snd zp * snd zp).
Lemma gl_list_run fuel n rs : (1 <= n)%Z -> half_roots (Z.to_nat n) rs -> forall m ii pp zs, gl_list (N := RNum) fuel n m ii pp = Ok zs ->
  (0 <= ii)%Z -> (ii + Z.of_nat m <= (n + 1) / 2)%Z ->
  forall i, (0 <= i < zlen zs)%Z -> node_ok (Z.to_nat n) (nth (Z.to_nat (ii + i)) rs 0) (cos (phi (Z.to_nat n) (Z.to_nat (ii + i)))) (znth (0, 0) zs i).
Proof.
  intros Hn [Hl HR]. induction m as [|m IH]; intros ii pp zs; cbn [gl_list].
  - intros [= <-] _ _ i Hi. unfold zlen in Hi; cbn in Hi; lia.
  - rewrite EPS_R. destruct (newton _ _ _ _ _) as [[z pp1]|] eqn:E; cbn [bind]; [|discriminate].
    destruct (gl_list fuel n m (ii + 1) pp1) as [r|] eqn:E2; cbn [bind]; [|discriminate].
    intros [= <-] Hii Hm i Hi. destruct (Z.eq_dec i 0) as [->|Hne].
    + rewrite Z.add_0_r. change (znth (0, 0) ((z, pp1) :: r) 0) with (z, pp1).
      change (newton (N := RNum) fuel n (cos (PI * (IZR ii + 75 / 100) / (IZR n + 5 / 10))) (cos (PI * (IZR ii + 75 / 100) / (IZR n + 5 / 10)) + epsR + 1) pp = Ok (z, pp1)) in E.
      destruct (start_code n ii Hn ltac:(lia)) as [H1 H2]. rewrite H2 in E.
      destruct (HR _ H1) as [HS _]. apply (run_result n _ _ Hn HS fuel pp z pp1 E).
    + rewrite zlen_cons in Hi. rewrite znth_cons by lia. replace (ii + i)%Z with (ii + 1 + (i - 1))%Z by ring. apply (IH _ _ _ E2); lia.
Qed.
Lemma gl_list_ends fuel n : (1 <= n)%Z -> (7 <= fuel)%nat -> forall m ii pp,
  (0 <= ii)%Z -> (ii + Z.of_nat m <= (n + 1) / 2)%Z -> exists zs, gl_list (N := RNum) fuel n m ii pp = Ok zs.
Proof.
  intros Hn Hf. induction m as [|m IH]; intros ii pp Hii Hm; cbn [gl_list]; [eexists; reflexivity|].
  rewrite EPS_R. destruct (start_code n ii Hn ltac:(lia)) as [H1 H2].
  match goal with |- context [newton ?a ?b ?c ?d ?e] => change (newton a b c d e) with (newton (N := RNum) fuel n (cos (PI * (IZR ii + 75 / 100) / (IZR n + 5 / 10))) (cos (PI * (IZR ii + 75 / 100) / (IZR n + 5 / 10)) + epsR + 1) pp) end. rewrite H2.
  destruct (start_guess _ _ H1) as [t [_ [_ HS]]]. destruct (run_start n _ _ Hn HS fuel pp Hf) as [z [pp' E]]. rewrite E. cbn [bind].
  destruct (IH (ii + 1)%Z pp') as [zs E2]; [lia|lia|]. rewrite E2. cbn [bind]. eexists; reflexivity.
Qed.
Lemma gl_ends fuel xmin xmax (x w : list R) n : (1 <= n < 2 ^ 62)%Z -> (7 <= fuel)%nat -> zlen x = n -> zlen w = n ->
  exists x' w', nodes_weights_gauss_legendre (N := RNum) fuel xmin xmax x w n = Ok (x', w').
Proof.
  intros Hn Hf Hx Hw. pose proof (nodes_weights_struct (N := RNum) fuel xmin xmax x w n 0 Hn Hx Hw) as H. cbn zeta in H.
  assert (Hm : (0 <= (n + 1) / 2)%Z) by (apply Z.div_pos; lia).
  destruct (gl_list_ends fuel n ltac:(lia) Hf (Z.to_nat ((n + 1) / 2)) 0 0 ltac:(lia) ltac:(lia)) as [zs E].
  change (nZ RNum 0) with 0 in H. change (T RNum) with R in *. rewrite E in H. destruct H as [_ [x' [w' [H _]]]]. exists x', w'. exact H.
Qed.
