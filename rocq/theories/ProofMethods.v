(** ProofMethods: pk_interp, sigmav, sigmar and sigma8 of the classes (C116). *)
From Coq Require Import Reals ZArith List String Lia Lra Bool.
From Verif Require Import Base Num BaseFacts Common Registry PyTerms PyMethods Spec SpecPy SpecDamped SpecMethods Sums ProofPy ProofPy2 ProofPy4 ProofPy6 ProofPy7 ProofDamped ProofShaped ProofRounded13.
Import ListNotations.
Local Open Scope R_scope.

Lemma broadcast_val (g : sigmad2_arg R) (n : nat) : suits g n ->
  match broadcast (N := RNum) n g with None => g = Omitted | Some s => List.length s = n /\ forall (c : columns RNum) i, (i < n)%nat -> nth i s 0 = dispersion_of c g i end.
Proof.
  assert (RP : forall (x : R) m i, (i < m)%nat -> nth i (repeat x m) 0 = x) by (intros x m; induction m as [|m IH]; intros [|i] Hi; cbn; try lia; [reflexivity|apply IH; lia]).
  intros H. destruct g as [|x|[|x [|y v]]]; cbn in *; [reflexivity| | | |].
  - split; [apply repeat_length|]. intros c i Hi. apply RP, Hi.
  - split; [lia|]. intros c i Hi. lia.
  - split; [apply repeat_length|]. intros c i Hi. apply RP, Hi.
  - split; [lia|]. intros; reflexivity.
Qed.
Lemma pk_of_val cl (c : columns RNum) n (D : R) g : complete cl c n -> suits g n -> offers cl g -> pk_of (N := RNum) cl c D g = Ok (map (spectrum_of cl c D g) (seq 0 n)).
Proof.
  intros HC HS HO. pose proof (broadcast_val g n HS) as B. destruct cl; try contradiction.
  - cbn in HO. subst g. cbn [pk_of]. rewrite (named_val CLin c n "pk" D HC) by (cbn; tauto). cbn [ncomp powers]. rewrite !Nat.mul_1_r. reflexivity.
  - cbn in HO. subst g. cbn [pk_of]. rewrite (named_val CNoWiggle c n "pk" D HC) by (cbn; tauto). cbn [ncomp powers]. rewrite !Nat.mul_1_r. reflexivity.
  - destruct (getitem_complete _ _ _ "k"%string HC ltac:(cbn; tauto)) as (k & E & L). cbn [ncomp] in L. rewrite Nat.mul_1_r in L. cbn [pk_of]. rewrite E. cbn [bind]. rewrite L.
    destruct (broadcast (N := RNum) n g) as [s|].
    + destruct B as (Ls & B). etransitivity; [exact (given_1loop c n D s HC Ls)|]. apply (f_equal (@Ok (list R))). apply map_ext_in. intros i Hi. apply in_seq in Hi. cbn [spectrum_of]. change (T RNum) with R in *. rewrite (B c i) by lia. reflexivity.
    + subst g. exact (pk_1loop_val c n D HC).
  - destruct (getitem_complete _ _ _ "k"%string HC ltac:(cbn; tauto)) as (k & E & L). cbn [ncomp] in L. rewrite Nat.mul_1_r in L. cbn [pk_of]. rewrite E. cbn [bind]. rewrite L.
    destruct (broadcast (N := RNum) n g) as [s|].
    + destruct B as (Ls & B). etransitivity; [exact (given_2loop c n D s HC Ls)|]. apply (f_equal (@Ok (list R))). apply map_ext_in. intros i Hi. apply in_seq in Hi. cbn [spectrum_of]. change (T RNum) with R in *. rewrite (B c i) by lia. reflexivity.
    + subst g. exact (pk_2loop_val c n D HC).
Qed.
Lemma k_of cl (c : columns RNum) n g : complete cl c n -> offers cl g -> exists K, getitem c "k" = Ok K /\ List.length K = n /\ K = map (entry c "k") (seq 0 n).
Proof.
  intros HC HO. destruct (getitem_complete cl c n "k" HC ltac:(destruct cl; cbn; tauto)) as (K & E & L). exists K. split; [exact E|].
  assert (L' : List.length K = n) by (rewrite L; destruct cl; try contradiction; cbn; lia). split; [exact L'|]. change (T RNum) with R in *.
  apply (nth_ext _ _ 0 0); [rewrite map_length, seq_length; exact L'|]. intros i Hi. rewrite nth_seq_map by lia. apply (getitem_entry c _ _ E).
Qed.
Section Values.
Context (cl : pyclass) (c : columns RNum) (n : nat) (D : R) (g : sigmad2_arg R).
Hypothesis (HC : complete cl c n) (HS : suits g n) (HO : offers cl g).
Lemma sigmav_of_val : sigmav_of (N := RNum) cl c D g = Ok (sqrt (trapz (map (entry c "k") (seq 0 n)) (map (spectrum_of cl c D g) (seq 0 n)) / (6 * PI ^ 2))).
Proof.
  destruct (k_of cl c n g HC HO) as (K & E & L & EK). unfold sigmav_of. rewrite (pk_of_val cl c n D g HC HS HO). unfold sigmav. rewrite E. cbn [bind].
  change (T RNum) with R in *. rewrite map_length, seq_length, L, Nat.eqb_refl. rewrite np_trapz_val by (rewrite map_length, seq_length; symmetry; exact L).
  apply (f_equal (@Ok R)). rewrite <- EK. cbn [nsqrt nmul ndiv nZ npow npi RNum]. pows. f_equal. field. apply PI_neq0.
Qed.
Lemma sigmar_of_val r : sigmar_of (N := RNum) cl c r D g = Ok (sqrt (variance (entry c "k") (spectrum_of cl c D g) n r)).
Proof.
  destruct (k_of cl c n g HC HO) as (K & E & L & EK). unfold sigmar_of. rewrite (pk_of_val cl c n D g HC HS HO). unfold sigmar. rewrite E. cbn [bind].
  change (T RNum) with R in *. rewrite (elementwise_ok (N := RNum) _ _ n); [|discriminate|intros d [<-|[<-|[]]]; [change (T RNum) with R; rewrite map_length, seq_length; reflexivity|exact L]]. cbn [bind].
  rewrite np_trapz_val by (change (T RNum) with R; rewrite map_length, seq_length; symmetry; exact L).
  apply (f_equal (@Ok R)). unfold variance. rewrite <- EK. cbn [nsqrt nmul ndiv nZ npow npi RNum]. pows. f_equal.
  match goal with |- _ * trapz _ ?a = trapz _ ?b / _ => replace a with b end; [field; apply PI_neq0|].
  apply map_ext_in. intros i Hi. apply in_seq in Hi. cbn [map]. change (T RNum) with R in *. rewrite (nth_seq_map (spectrum_of cl c D g)) by lia. rewrite (getitem_entry c _ _ E).
  cbn [nmul ndiv nsub nsin ncos npow nZ RNum]. pows. unfold tophat. ring.
Qed.
Lemma interp_of_val left right : (1 <= n)%nat -> (forall K, getitem c "k" = Ok K -> increasing K) ->
  exists f, (forall k, pk_interp_of (N := RNum) cl c k left right D g = Ok (f k)) /\ interpolates (entry c "k") (spectrum_of cl c D g) n left right f.
Proof.
  intros H1 HI. destruct (k_of cl c n g HC HO) as (K & E & L & EK). specialize (HI _ E). set (v := map (spectrum_of cl c D g) (seq 0 n)).
  exists (fun t => interp (N := RNum) t K v left right). split.
  - intros k. unfold pk_interp_of. rewrite (pk_of_val cl c n D g HC HS HO). unfold pk_interp. rewrite E. cbn [bind]. change (T RNum) with R in *. fold v.
    replace (List.length v) with (List.length K) by (unfold v; rewrite map_length, seq_length; exact L). rewrite Nat.eqb_refl. reflexivity.
  - assert (LV : List.length v = List.length K) by (unfold v; rewrite map_length, seq_length; symmetry; exact L).
    destruct (interp_spec K v left right HI LV ltac:(change (T RNum) with R in *; lia)) as (A & B & C & F). change (T RNum) with R in *. rewrite L in B, C, F.
    assert (XK : forall i, at_ K i = entry c "k" i) by (intros i; apply (getitem_entry c _ _ E)). assert (XV : forall i, (i < n)%nat -> at_ v i = spectrum_of cl c D g i) by (intros i Hi; unfold v, at_; apply nth_seq_map, Hi).
    split; [|split; [|split]].
    + intros t Ht. apply A. rewrite XK. exact Ht.
    + intros t Ht. apply B. rewrite XK. exact Ht.
    + intros i Hi. rewrite <- XK, <- XV by exact Hi. apply C, Hi.
    + intros i t Hi Ht. rewrite <- !XV by lia. rewrite <- !XK. apply F; [exact Hi|]. rewrite !XK. exact Ht.
Qed.
(** The spectrum of one field is not negative, so the root is a root. *)
Lemma auto_spectrum : cl = C1Loop -> (forall i, (i < n)%nat -> entry c "gamma1a_1loop" i = entry c "gamma1b_1loop" i /\ 0 <= entry c "pk_lin" i /\ 0 <= entry c "pk_gamma2_tree_tree" i) ->
  forall i, (i < n)%nat -> 0 <= spectrum_of cl c D g i.
Proof.
  clear HC HS HO. intros -> H i Hi. destruct (H i Hi) as (G & P & Q). cbn [spectrum_of]. rewrite G. unfold regpt_1loop. cbv zeta. set (p := propagator_1loop _ _ _). set (x := exp _).
  assert (0 < x) by apply exp_pos. assert (0 <= D ^ 4) by (replace (D ^ 4) with ((D ^ 2) ^ 2) by ring; apply pow2_ge_0).
  apply Rplus_le_le_0_compat; [replace (D ^ 2 * _ * p * p) with (entry c "pk_lin" i * (D * p) ^ 2) by ring; apply Rmult_le_pos; [exact P|apply pow2_ge_0]|].
  apply Rmult_le_pos; [apply Rmult_le_pos; lra|exact Q].
Qed.
Lemma sigmav_square : (forall K, getitem c "k" = Ok K -> increasing K) -> (forall i, (i < n)%nat -> 0 <= spectrum_of cl c D g i) ->
  exists s, sigmav_of (N := RNum) cl c D g = Ok s /\ 0 <= s /\ s ^ 2 = trapz (map (entry c "k") (seq 0 n)) (map (spectrum_of cl c D g) (seq 0 n)) / (6 * PI ^ 2).
Proof.
  intros HI HP. destruct (k_of cl c n g HC HO) as (K & E & L & EK). specialize (HI _ E). rewrite sigmav_of_val. eexists. split; [reflexivity|]. split; [apply sqrt_pos|]. apply pow2_sqrt.
  rewrite <- EK. pose proof PI_RGT_0 as P. unfold Rdiv. apply Rmult_le_pos; [|left; apply Rinv_0_lt_compat; nra]. apply trapz_pos; [exact HI|]. change (T RNum) with R in *. intros i Hi. unfold at_. rewrite nth_seq_map by lia. apply HP. lia.
Qed.
Lemma sigmar_square r : (forall K, getitem c "k" = Ok K -> increasing K) -> (forall i, (i < n)%nat -> 0 <= spectrum_of cl c D g i) ->
  exists s, sigmar_of (N := RNum) cl c r D g = Ok s /\ 0 <= s /\ s ^ 2 = variance (entry c "k") (spectrum_of cl c D g) n r.
Proof.
  intros HI HP. destruct (k_of cl c n g HC HO) as (K & E & L & EK). specialize (HI _ E). rewrite sigmar_of_val. eexists. split; [reflexivity|]. split; [apply sqrt_pos|]. apply pow2_sqrt.
  unfold variance. rewrite <- EK. pose proof PI_RGT_0 as P. unfold Rdiv. apply Rmult_le_pos; [|left; apply Rinv_0_lt_compat; nra]. apply trapz_pos; [exact HI|]. change (T RNum) with R in *. intros i Hi. unfold at_. rewrite nth_seq_map by lia.
  apply Rmult_le_pos; [apply HP; lia|apply pow2_ge_0].
Qed.
End Values.
