(** ProofRounded18: rounding in rescale and in the spectra which are one column (C113). *)
From Coq Require Import ZArith Lia Reals Lra Psatz List Bool String.
From Verif Require Import Base Num BaseFacts Order Spec Common Registry PyTerms SpecPy SpecDamped SpecRounded SpecRounded2 ProofPy ProofDamped ProofRounded ProofRounded4 ProofRounded9.
Import ListNotations.
Local Open Scope R_scope.

Lemma close_sym u n a b : 0 <= u < 1 -> close u n a b -> close u n b a.
Proof.
  intros Hu (t & [H1 H2] & E). pose proof (pow_lt (1 - u) n ltac:(lra)) as P. assert (T : 0 < t) by lra. exists (/ t). split; [split|].
  - rewrite <- (Rinv_inv ((1 - u) ^ n)). apply Rinv_le_contravar; [exact T|exact H2].
  - apply Rinv_le_contravar; [exact P|exact H1].
  - rewrite E. field. lra.
Qed.

Section Rescale.
Context (F : R -> Prop) (rnd : R -> R) (lm : libmR) (u : R) (e : nat) (RD : rounding F rnd) (Hu : 0 <= u < 1) (HR : relative u rnd) (HA : accurate u e lm) (HI : integers F).
Local Notation Q := (QNum rnd lm).

Lemma scales_small cl x s : assoc (scales cl) x = Some s -> (0 <= s <= 4)%Z.
Proof. intros H. destruct cl; cbn in H; repeat (destruct (_ =? _)%string in H; [injection H as <-; lia|]); discriminate. Qed.
Lemma power_close (D : R) (s : nat) : (s <= 4)%nat -> close u e (q_pow lm D (rnd (IZR (2 * Z.of_nat s)))) (D ^ (2 * s)).
Proof. intros Hs. replace (2 * Z.of_nat s)%Z with (Z.of_nat (2 * s)) by lia. apply (pow_close_ F rnd lm u e RD HA HI D). lia. Qed.
Lemma scaled_entry (D x : R) (s : nat) : (s <= 4)%nat -> close u (e + 1) (rnd (x * q_pow lm D (rnd (IZR (2 * Z.of_nat s))))) (D ^ (2 * s) * x).
Proof.
  intros Hs. rewrite Nat.add_1_r. apply rnd_step; [exact Hu|exact HR|]. rewrite (Rmult_comm (D ^ (2 * s))). apply (close_mul u Hu 0 e); [apply close_refl, Hu|apply power_close, Hs].
Qed.
Lemma scaled_entry' (D x : R) (s : nat) : (s <= 4)%nat -> close u (e + 1) (rnd (q_pow lm D (rnd (IZR (2 * Z.of_nat s))) * x)) (D ^ (2 * s) * x).
Proof. intros Hs. rewrite (Rmult_comm (q_pow _ _ _)). apply scaled_entry, Hs. Qed.
Lemma nth_scaled (f : R -> R) (v : list R) i : (i < List.length v)%nat -> nth i (map f v) 0 = f (nth i v 0).
Proof. intros H. rewrite (nth_indep _ 0 (f 0)) by (rewrite map_length; exact H). apply map_nth. Qed.
Lemma close_map (f : R -> R) g (v : list R) n i : (forall a, close u n (f a) (g * a)) -> close u n (nth i (map f v) 0) (g * nth i v 0).
Proof.
  intros H. destruct (lt_dec i (List.length v)) as [Hi|Hi]; [rewrite nth_scaled by exact Hi; apply H|].
  rewrite !nth_overflow by (rewrite ?map_length; lia). rewrite Rmult_0_r. apply close_refl, Hu.
Qed.

Lemma rescale_rounded cl (c : columns RNum) n (D : R) : complete cl c n -> exists c', rescale (N := Q) cl c D = (c', Done) /\ complete (N := RNum) cl c' n /\
  (forall x s i, assoc (scales cl) x = Some (Z.of_nat s) -> close u (e + 1) (entry c' x i) (D ^ (2 * s) * entry c x i)) /\
  (forall K, q_pow lm D 0 = 1 -> getitem c "k" = Ok K -> Forall F K -> getitem (N := RNum) c' "k" = Ok K).
Proof.
  intros [H1 H2]. destruct (rescale_val (N := Q) cl c D) as (c' & E & K & G); [intros x; apply H1|]. exists c'. split; [exact E|].
  assert (GR : forall x, getitem (N := RNum) c' x = match getitem (N := RNum) c x with Ok v => Ok (map (fun a : R => rnd (a * q_pow lm D (rnd (IZR (2 * scale_of cl x))))) v) | Err b => Err b end) by exact G.
  split; [split|split].
  - intros x. change (In x (map fst c')) with (In x (@map (string * list R) string fst c')). rewrite <- H1. change (map fst c') with (@map (string * list R) string fst c') in K. rewrite K. reflexivity.
  - intros x v Hv. rewrite GR in Hv. destruct (getitem (N := RNum) c x) as [w|] eqn:W; [|discriminate]. injection Hv as <-. rewrite map_length. apply H2, W.
  - intros x s i Hs. assert (Hs4 : (s <= 4)%nat) by (apply scales_small in Hs; lia). unfold entry. rewrite GR. destruct (getitem (N := RNum) c x) as [w|]; [|rewrite Rmult_0_r; apply close_refl, Hu].
    unfold scale_of. rewrite Hs. apply (close_map (fun a => rnd (a * _))). intros a. apply scaled_entry, Hs4.
  - intros kk P0 HK FK. rewrite GR, HK. apply (f_equal (@Ok (list R))). replace (2 * scale_of cl "k")%Z with 0%Z by (destruct cl; reflexivity). rewrite (r_id _ _ RD 0) by apply (r_zero _ _ RD). rewrite P0.
    transitivity (map (fun a : R => a) kk); [|apply map_id]. apply map_ext_in. intros a Ha. rewrite Rmult_1_r. rewrite Forall_forall in FK. apply (r_id _ _ RD), FK, Ha.
Qed.
Lemma rescale_twice cl (c : columns RNum) n (D E : R) : complete cl c n -> exists c' c'', rescale (N := Q) cl c D = (c', Done) /\ rescale (N := Q) cl c' E = (c'', Done) /\ complete (N := RNum) cl c'' n /\
  forall x s i, assoc (scales cl) x = Some (Z.of_nat s) -> close u (2 * e + 2) (entry c'' x i) ((D * E) ^ (2 * s) * entry c x i).
Proof.
  intros HC. destruct (rescale_rounded cl c n D HC) as (c' & E1 & C1 & B1 & _). destruct (rescale_rounded cl c' n E C1) as (c'' & E2 & C2 & B2 & _).
  exists c', c''. split; [exact E1|]. split; [exact E2|]. split; [exact C2|]. intros x s i Hs. replace (2 * e + 2)%nat with ((e + 1) + (e + 1))%nat by lia.
  eapply close_trans; [exact Hu|apply B2, Hs|]. rewrite Rpow_mult_distr, (Rmult_comm (D ^ _)), Rmult_assoc. apply (close_mul u Hu 0 (e + 1)); [apply close_refl, Hu|apply B1, Hs].
Qed.
Lemma named_scale cl name : In name (named cl) -> assoc (accessors cl) name = Some (Z.of_nat (powers cl name), name) /\ assoc (scales cl) name = Some (Z.of_nat (powers cl name)) /\ In name (fields cl).
Proof. intros H. destruct cl; cbn in H; repeat (destruct H as [<-|H]; [repeat split; cbn; tauto|]); contradiction. Qed.
Lemma named_rounded cl (c : columns RNum) n name (D : R) : complete cl c n -> In name (named cl) ->
  exists v, accessor (N := Q) cl name c D = Ok v /\ List.length v = (n * match ncomp cl name with Some m => Z.to_nat m | None => 1 end)%nat /\
    forall i, close u (e + 1) (nth i v 0) (D ^ (2 * powers cl name) * entry c name i).
Proof.
  intros HC Hn. destruct (named_scale cl name Hn) as (A & S & Hf). destruct (getitem_complete (N := RNum) cl c n name HC Hf) as (w & W & L).
  exists (map (fun a : R => rnd (q_pow lm D (rnd (IZR (2 * Z.of_nat (powers cl name)))) * a)) w). split; [|split].
  - unfold accessor. rewrite A. unfold scale_factor. change (getitem (N := Q) c name) with (getitem (N := RNum) c name). rewrite W. reflexivity.
  - rewrite map_length. exact L.
  - intros i. unfold entry. rewrite W. assert (powers cl name <= 4)%nat by (apply scales_small in S; lia). apply (close_map (fun a => rnd (_ * a))). intros a. apply scaled_entry'. assumption.
Qed.
Lemma reads_rounded cl (c : columns RNum) n name (D E : R) : complete cl c n -> In name (named cl) ->
  exists c' v w, rescale (N := Q) cl c D = (c', Done) /\ accessor (N := Q) cl name c' E = Ok v /\ accessor (N := Q) cl name c (D * E) = Ok w /\ List.length v = List.length w /\
    forall i, close u (3 * e + 3) (nth i v 0) (nth i w 0).
Proof.
  intros HC Hn. destruct (rescale_rounded cl c n D HC) as (c' & E1 & C1 & B1 & _). destruct (named_rounded cl c' n name E C1 Hn) as (v & Ev & Lv & Bv). destruct (named_rounded cl c n name (D * E) HC Hn) as (w & Ew & Lw & Bw).
  destruct (named_scale cl name Hn) as (_ & S & _). exists c', v, w. split; [exact E1|]. split; [exact Ev|]. split; [exact Ew|]. split; [congruence|]. intros i.
  replace (3 * e + 3)%nat with ((e + 1) + ((e + 1) + (e + 1)))%nat by lia. eapply close_trans; [exact Hu|apply Bv|]. eapply close_trans; [exact Hu| |apply close_sym; [exact Hu|apply Bw]].
  rewrite Rpow_mult_distr, (Rmult_comm (D ^ _)), Rmult_assoc. apply (close_mul u Hu 0 (e + 1)); [apply close_refl, Hu|apply B1, S].
Qed.
End Rescale.
