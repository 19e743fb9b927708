(** ProofShaped: sigmav and sigmar of the A and B terms (C115). *)
From Coq Require Import Reals ZArith List String Lia Lra Bool.
From Verif Require Import Base Num BaseFacts Common Registry PyTerms PyShaped Spec SpecPy SpecDamped SpecShaped Sums ProofPy ProofPy2 ProofPy6 ProofPy7 ProofDamped.
Import ListNotations.
Local Open Scope R_scope.

Lemma shaped_ncomp cl : one_dim cl = false -> ncomp cl "pk" = Some (Z.of_nat (components cl)) /\ (2 < components cl)%nat /\ In "pk"%string (fields cl) /\ In "pk"%string (named cl) /\ powers cl "pk" = 2%nat /\ ncomp cl "k" = None /\ In "k"%string (fields cl).
Proof. destruct cl; try discriminate; intros _; cbn; repeat split; try lia; tauto. Qed.
Section Raise.
Context {N : Num}.
Lemma accessor_shaped cl (c : columns N) n D : one_dim cl = false -> complete cl c n -> exists v, accessor cl "pk" c D = Ok v.
Proof.
  intros H HC. destruct (shaped_ncomp cl H) as (_ & _ & Hf & _). destruct (getitem_complete cl c n _ HC Hf) as (v & E & _).
  assert (A : assoc (accessors cl) "pk"%string = Some (2%Z, "pk"%string)) by (destruct cl; try discriminate; reflexivity).
  unfold accessor. rewrite A. unfold scale_factor. rewrite E. eexists. reflexivity.
Qed.
Lemma k_length cl (c : columns N) n : one_dim cl = false -> complete cl c n -> exists k, getitem c "k" = Ok k /\ List.length k = n.
Proof.
  intros H HC. destruct (shaped_ncomp cl H) as (_ & _ & _ & _ & _ & Hk & Hf). destruct (getitem_complete cl c n _ HC Hf) as (v & E & L). exists v. split; [exact E|]. rewrite L, Hk. lia.
Qed.
Lemma trapz_last_raises (y : list (list (T N))) m x : List.length x <> m -> List.length x <> 2%nat -> trapz_last y m x = Err (PyExc ValueError).
Proof. intros H1 H2. unfold trapz_last. rewrite (proj2 (Nat.eqb_neq _ _) H1). destruct x as [|a [|b [|]]]; try reflexivity. cbn in H2. lia. Qed.
Lemma sigmav_raises cl (c : columns N) n D : one_dim cl = false -> complete cl c n -> n <> 2%nat -> n <> components cl -> sigmav_shaped cl (components cl) c D = Err (PyExc ValueError).
Proof.
  intros H HC H2 Hm. destruct (accessor_shaped cl c n D H HC) as (v & Ev). destruct (k_length cl c n H HC) as (k & Ek & L). unfold sigmav_shaped. rewrite Ev, Ek. cbn [bind]. rewrite trapz_last_raises by congruence. reflexivity.
Qed.
Lemma sigmar_raises cl (c : columns N) n r D : one_dim cl = false -> complete cl c n -> n <> components cl -> sigmar_shaped cl (components cl) c r D = Err (PyExc ValueError).
Proof.
  intros H HC Hm. destruct (accessor_shaped cl c n D H HC) as (v & Ev). destruct (k_length cl c n H HC) as (k & Ek & L). unfold sigmar_shaped. rewrite Ev, Ek. cbn [bind].
  destruct (shaped_ncomp cl H) as (_ & C2 & _). destruct k as [|a [|b k]].
  - cbn [map List.length]. rewrite (proj2 (Nat.eqb_neq _ _)) by lia. reflexivity.
  - cbn [map bind]. rewrite trapz_last_raises by (cbn [List.length]; lia). reflexivity.
  - cbn [map]. rewrite (proj2 (Nat.eqb_neq _ _)); [reflexivity|]. cbn [List.length] in L |- *. rewrite map_length. lia.
Qed.
End Raise.

Lemma nth_seq_map (f : nat -> R) n i d : (i < n)%nat -> nth i (map f (seq 0 n)) d = f i.
Proof. intros H. rewrite (nth_indep _ d (f 0%nat)) by (rewrite map_length, seq_length; exact H). rewrite map_nth, seq_nth by exact H. reflexivity. Qed.
Lemma reshape_rows (f : nat -> R) n m : reshape (N := RNum) (map f (seq 0 (n * m))) n m = map (fun i => map (fun j => f (i * m + j)%nat) (seq 0 m)) (seq 0 n).
Proof.
  unfold reshape. apply map_ext_in. intros i Hi. apply in_seq in Hi. apply map_ext_in. intros j Hj. apply in_seq in Hj. apply nth_seq_map. nia.
Qed.
Lemma even_trapz_val (d : R) (y : list R) : even_trapz (N := RNum) d y = rsum (List.length y - 1) (fun j => d * (at_ y (S j) + at_ y j) / 2).
Proof.
  induction y as [|a [|b y] IH]; [reflexivity|reflexivity|].
  change (even_trapz (N := RNum) d (a :: b :: y)) with (d * (b + a) / 2 + even_trapz (N := RNum) d (b :: y)). rewrite IH. cbn [List.length Nat.sub]. rewrite Nat.sub_0_r.
  assert (RS : forall n f, rsum (S n) f = f 0%nat + rsum n (fun i => f (S i))).
  { induction n as [|n IHn]; intros f; [cbn; ring|]. change (rsum (S (S n)) f) with (rsum (S n) f + f (S n)). rewrite IHn. cbn [rsum]. ring. }
  rewrite RS. reflexivity.
Qed.
Lemma sigmav_rows cl (c : columns RNum) (D : R) K : one_dim cl = false -> complete cl c (components cl) -> getitem c "k" = Ok K ->
  sigmav_shaped (N := RNum) cl (components cl) c D =
  Ok (map (fun i => sqrt (trapz K (map (fun j => D ^ 4 * entry c "pk" (i * components cl + j)) (seq 0 (components cl))) / (6 * PI ^ 2))) (seq 0 (components cl))).
Proof.
  intros H HC HK. destruct (shaped_ncomp cl H) as (Hm & C2 & Hf & Hn & Hp & _ & _). destruct (k_length (N := RNum) cl c _ H HC) as (K' & EK & L). rewrite HK in EK. injection EK as <-.
  unfold sigmav_shaped. rewrite (named_val cl c (components cl) "pk" D HC Hn), HK, Hm, Hp, Nat2Z.id. cbn [bind]. unfold trapz_last. change (T RNum) with R in *. rewrite L, Nat.eqb_refl. cbn [bind].
  apply (f_equal (@Ok (list R))). change (2 * 2)%nat with 4%nat. rewrite (reshape_rows (fun i => D ^ 4 * entry c "pk" i)), !map_map. apply map_ext. intros i. rewrite np_trapz_val by (rewrite map_length, seq_length; symmetry; exact L).
  cbn [nsqrt nmul ndiv nZ npow npi RNum]. pows. f_equal. field. apply PI_neq0.
Qed.
Lemma sigmav_two cl (c : columns RNum) (D k0 k1 : R) : one_dim cl = false -> complete cl c 2 -> getitem c "k" = Ok [k0; k1] ->
  sigmav_shaped (N := RNum) cl (components cl) c D =
  Ok (map (fun i => sqrt ((k1 - k0) * rsum (components cl - 1) (fun j => D ^ 4 * (entry c "pk" (i * components cl + S j) + entry c "pk" (i * components cl + j)) / 2) / (6 * PI ^ 2))) (seq 0 2)).
Proof.
  intros H HC HK. destruct (shaped_ncomp cl H) as (Hm & C2 & Hf & Hn & Hp & _ & _). 
  unfold sigmav_shaped. rewrite (named_val cl c 2 "pk" D HC Hn), HK, Hm, Hp, Nat2Z.id. cbn [bind]. unfold trapz_last. cbn [List.length]. rewrite (proj2 (Nat.eqb_neq 2 (components cl))) by lia. cbn [bind].
  apply (f_equal (@Ok (list R))). change (2 * 2)%nat with 4%nat. rewrite (reshape_rows (fun i => D ^ 4 * entry c "pk" i)), !map_map. apply map_ext. intros i. rewrite even_trapz_val, map_length, seq_length.
  cbn [nsqrt nmul ndiv nZ npow npi RNum nsub]. pows. rewrite <- (rsum_scal _ (k1 - k0)). erewrite rsum_ext; [|intros j Hj; unfold at_; rewrite !nth_seq_map by lia; reflexivity].
  f_equal. match goal with |- _ * ?a = ?b / _ => replace a with b by (apply rsum_ext; intros j Hj; field) end. field. apply PI_neq0.
Qed.
Lemma combine_map_seq (f g : nat -> R) n : map (fun pf => fst pf * snd pf) (combine (map f (seq 0 n)) (map g (seq 0 n))) = map (fun j => f j * g j) (seq 0 n).
Proof. generalize 0%nat. induction n as [|n IH]; intros a; [reflexivity|]. cbn [seq map combine fst snd]. rewrite IH. reflexivity. Qed.
Lemma sigmar_rows cl (c : columns RNum) (r D : R) K : one_dim cl = false -> complete cl c (components cl) -> getitem c "k" = Ok K ->
  sigmar_shaped (N := RNum) cl (components cl) c r D =
  Ok (map (fun i => sqrt (trapz K (map (fun j => D ^ 4 * entry c "pk" (i * components cl + j) * (tophat (at_ K j * r) * at_ K j) ^ 2) (seq 0 (components cl))) / (2 * PI ^ 2))) (seq 0 (components cl))).
Proof.
  intros H HC HK. destruct (shaped_ncomp cl H) as (Hm & C2 & Hf & Hn & Hp & _ & _). destruct (k_length (N := RNum) cl c _ H HC) as (K' & EK & L). rewrite HK in EK. injection EK as <-.
  unfold sigmar_shaped. rewrite (named_val cl c (components cl) "pk" D HC Hn), HK, Hm, Hp, Nat2Z.id. cbn [bind]. set (f := map _ K).
  assert (Ef : f = map (fun j => (tophat (at_ K j * r) * at_ K j) ^ 2) (seq 0 (components cl))).
  { unfold f. transitivity (map (fun k : R => (tophat (k * r) * k) ^ 2) K).
    - apply map_ext. intros k. cbn [nmul ndiv nsub nsin ncos npow nZ RNum]. pows. unfold tophat. ring.
    - rewrite <- L. apply nth_ext with (d := 0) (d' := 0); [rewrite !map_length, seq_length; reflexivity|]. intros j Hj. rewrite map_length in Hj. rewrite nth_seq_map by exact Hj.
      rewrite (nth_indep _ 0 ((fun k : R => (tophat (k * r) * k) ^ 2) 0)) by (rewrite map_length; exact Hj). exact (map_nth (fun k : R => (tophat (k * r) * k) ^ 2) K 0 j). }
  assert (Lf : List.length f = components cl) by (rewrite Ef, map_length, seq_length; reflexivity).
  destruct f as [|f0 [|f1 f']] eqn:F0; [cbn in Lf; lia|cbn in Lf; lia|]. rewrite <- F0 in *. rewrite Lf, Nat.eqb_refl. cbn [bind]. unfold trapz_last. change (T RNum) with R in *. rewrite L, Nat.eqb_refl. cbn [bind].
  apply (f_equal (@Ok (list R))). change (2 * 2)%nat with 4%nat. rewrite (reshape_rows (fun i => D ^ 4 * entry c "pk" i)), !map_map. apply map_ext. intros i.
  cbn [nsqrt nmul ndiv nZ npow npi RNum]. rewrite Ef.
  rewrite (combine_map_seq (fun j => D ^ 4 * entry c "pk" (i * components cl + j)) (fun j => (tophat (at_ K j * r) * at_ K j) ^ 2)).
  rewrite np_trapz_val by (rewrite map_length, seq_length; symmetry; exact L). pows. f_equal. field. apply PI_neq0.
Qed.
Lemma sigmav_values : ~ (forall (c : columns RNum) (K : list R) (D : R), complete CA1 c 5 -> getitem c "k" = Ok K -> increasing K ->
  exists v, sigmav_shaped (N := RNum) CA1 5 c D = Ok v /\ forall j, (j < 5)%nat -> nth j v 0 = component_sigmav CA1 c K D j).
Proof.
  intros H. set (c := filled CA1 5 ramp). assert (HC : complete CA1 c 5) by apply filled_complete. set (K := map (fun i => INR i + 1) (seq 0 5)). assert (HK : getitem c "k" = Ok K) by reflexivity.
  destruct (H c K 1 HC HK (ramp_grid CA1 5 K HK)) as (v & E & V). pose proof (sigmav_rows CA1 c 1 K eq_refl HC HK) as E2. change (components CA1) with 5%nat in E2. rewrite E in E2. injection E2 as ->.
  specialize (V 0%nat ltac:(lia)). unfold component_sigmav in V. change (length K) with 5%nat in V. change (components CA1) with 5%nat in V. cbn [seq map nth Nat.mul Nat.add] in V.
  unfold c in V. rewrite !filled_entry in V by (cbn; lia || tauto). unfold trapz, K, ramp in V. cbn [length seq map Nat.sub rsum at_ nth INR] in V. unfold at_ in V. cbn [nth] in V.
  pose proof PI_RGT_0 as P. assert (Q : 0 < / (6 * PI ^ 2)) by (apply Rinv_0_lt_compat; nra).
  apply sqrt_inj in V; [|unfold Rdiv; apply Rmult_le_pos; [lra|left; exact Q]|unfold Rdiv; apply Rmult_le_pos; [lra|left; exact Q]].
  unfold Rdiv in V. apply Rmult_eq_reg_r in V; [|lra]. lra.
Qed.
