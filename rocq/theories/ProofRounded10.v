(** ProofRounded10: the spectra returned by the objects and by the C library, in rounded arithmetic. *)
From Coq Require Import ZArith Lia Reals Lra Psatz List Bool String.
From Verif Require Import Base Num BaseFacts Order Spec Common Registry PyTerms SpecPy SpecDamped SpecRounded SpecRounded2 ProofRounded4 ProofRounded8 ProofRounded9 ProofPy ProofPy2 ProofDamped.
From Flocq Require Import Core.
Import ListNotations.
Local Open Scope R_scope.

Section Objects.
Context (rnd : R -> R) (lm : libmR).
Notation Q := (QNum rnd lm).
Lemma column_of (c : columns RNum) x v n : getitem (N := RNum) c x = Ok v -> List.length v = n -> forall i d, (i < n)%nat -> nth i v d = entry c x i.
Proof. intros H L i d Hi. unfold entry. rewrite H. apply nth_indep. change (T RNum) with R in *. lia. Qed.
Lemma given_column (c : columns RNum) cl n given : complete cl c n -> In "sigmad2"%string (fields cl) -> ncomp cl "sigmad2" = None -> sized given n ->
  exists s : list R, match given with None => getitem (N := RNum) c "sigmad2" | Some s => Ok s end = Ok s /\ List.length s = n /\ forall i d, (i < n)%nat -> nth i s d = dispersion c given i.
Proof.
  intros HC HI HN Hs. destruct given as [s|]; cbn in Hs |- *; [exists s; repeat split; auto; intros; apply nth_indep; lia|].
  destruct (getitem_complete _ _ _ "sigmad2"%string HC HI) as (v & A & B). rewrite HN, Nat.mul_1_r in B. exists v. repeat split; auto. intros. now apply (column_of c _ _ n).
Qed.
Ltac same c n := match goal with A : getitem c ?x = Ok ?v |- _ => rewrite !(column_of c x v n A ltac:(assumption)) by assumption; clear A end.
Lemma rows_1loop (c : columns RNum) n (D : R) (given : option (list R)) : complete C1Loop c n -> sized given n ->
  pk_1loop (N := Q) c D given = Ok (map (fun i => pk_1loop_row (N := Q) D [entry c "k" i; dispersion c given i; entry c "gamma1a_1loop" i; entry c "gamma1b_1loop" i;
                                     entry c "pk_lin" i; entry c "pk_gamma2_tree_tree" i]) (seq 0 n)).
Proof.
  intros HC Hs. destruct (given_column c C1Loop n given HC ltac:(cbn; tauto) eq_refl Hs) as (s & S1 & S2 & S3).
  fetch HC "k"%string. fetch HC "gamma1a_1loop"%string. fetch HC "gamma1b_1loop"%string. fetch HC "pk_lin"%string. fetch HC "pk_gamma2_tree_tree"%string.
  unfold pk_1loop. unfold column, columns in *. change (T Q) with R in *. change (T RNum) with R in *. change (getitem (N := Q)) with (getitem (N := RNum)). change (getitems (N := Q)) with (getitems (N := RNum)).
  rewrite S1. cbn [getitems bind]. rewrite A, A0, A1, A2, A3. cbn [bind].
  rewrite (elementwise_ok (N := Q) _ _ n); [|discriminate|intros d Hd; cbn in Hd; repeat (destruct Hd as [<-|Hd]; [assumption|]); contradiction].
  f_equal. apply map_ext_in. intros i Hi. apply in_seq in Hi. cbn [map]. assert (H : (i < n)%nat) by lia. change (T Q) with R.
  rewrite (S3 i _ H), (column_of c _ _ n A B i _ H), (column_of c _ _ n A0 B0 i _ H), (column_of c _ _ n A1 B1 i _ H), (column_of c _ _ n A2 B2 i _ H), (column_of c _ _ n A3 B3 i _ H). reflexivity.
Qed.
Lemma rows_2loop (c : columns RNum) n (D : R) (given : option (list R)) : complete C2Loop c n -> sized given n ->
  pk_2loop (N := Q) c D given = Ok (map (fun i => pk_2loop_row (N := Q) D [entry c "k" i; dispersion c given i; entry c "gamma1a_1loop" i; entry c "gamma1a_2loop" i;
     entry c "gamma1b_1loop" i; entry c "gamma1b_2loop" i; entry c "pk_lin" i; entry c "pk_gamma2_tree_tree" i; entry c "pk_gamma2_tree_1loop" i; entry c "pk_gamma2_1loop_1loop" i; entry c "pk_gamma3_tree" i]) (seq 0 n)).
Proof.
  intros HC Hs. destruct (given_column c C2Loop n given HC ltac:(cbn; tauto) eq_refl Hs) as (s & S1 & S2 & S3).
  fetch HC "k"%string. fetch HC "gamma1a_1loop"%string. fetch HC "gamma1a_2loop"%string. fetch HC "gamma1b_1loop"%string. fetch HC "gamma1b_2loop"%string. fetch HC "pk_lin"%string. fetch HC "pk_gamma2_tree_tree"%string.
  fetch HC "pk_gamma2_tree_1loop"%string. fetch HC "pk_gamma2_1loop_1loop"%string. fetch HC "pk_gamma3_tree"%string.
  unfold pk_2loop. unfold column, columns in *. change (T Q) with R in *. change (T RNum) with R in *. change (getitem (N := Q)) with (getitem (N := RNum)). change (getitems (N := Q)) with (getitems (N := RNum)).
  rewrite S1. cbn [getitems bind]. rewrite A, A0, A1, A2, A3, A4, A5, A6, A7, A8. cbn [bind].
  rewrite (elementwise_ok (N := Q) _ _ n); [|discriminate|intros d Hd; cbn in Hd; repeat (destruct Hd as [<-|Hd]; [assumption|]); contradiction].
  f_equal. apply map_ext_in. intros i Hi. apply in_seq in Hi. cbn [map]. assert (H : (i < n)%nat) by lia. change (T Q) with R.
  rewrite (S3 i _ H), (column_of c _ _ n A B i _ H), (column_of c _ _ n A0 B0 i _ H), (column_of c _ _ n A1 B1 i _ H), (column_of c _ _ n A2 B2 i _ H), (column_of c _ _ n A3 B3 i _ H),
   (column_of c _ _ n A4 B4 i _ H), (column_of c _ _ n A5 B5 i _ H), (column_of c _ _ n A6 B6 i _ H), (column_of c _ _ n A7 B7 i _ H), (column_of c _ _ n A8 B8 i _ H). reflexivity.
Qed.
Lemma rows_damped (c : columns RNum) n name (D : R) (given : option (list R)) : complete CBias c n -> In name one_loop_bias -> sized given n ->
  pk_damped (N := Q) name c D given = Ok (map (fun i => let fc := rnd (rnd (rnd (IZR 5 / IZR (10 ^ 1)) * rnd (rnd (entry c "k" i * D) * rnd (entry c "k" i * D))) * dispersion c given i) in
    rnd (rnd (q_pow lm D (rnd (IZR (Z.of_nat 4))) * rnd (q_exp lm (rnd (- rnd 2 * fc)) * q_pow lm (rnd (rnd 1 + fc)) (rnd 2))) * entry c name i)) (seq 0 n)).
Proof.
  intros HC Hx Hs. destruct (given_column c CBias n given HC ltac:(cbn; tauto) eq_refl Hs) as (s & S1 & S2 & S3). fetch HC "k"%string.
  assert (exists w, getitem c name = Ok w /\ List.length w = n) as (w & W1 & W2).
  { destruct Hx as [<-|[<-|[<-|[]]]]; [fetch HC "pk_b22"%string|fetch HC "pk_b2s2"%string|fetch HC "pk_bs22"%string]; eauto. }
  unfold pk_damped, damping_factor. unfold column, columns in *. change (T Q) with R in *. change (T RNum) with R in *. change (getitem (N := Q)) with (getitem (N := RNum)).
  rewrite A. cbn [bind]. rewrite S1. cbn [bind]. rewrite W1. cbn [bind].
  rewrite (elementwise_ok (N := Q) _ _ n); [|discriminate|intros d Hd; cbn in Hd; repeat (destruct Hd as [<-|Hd]; [assumption|]); contradiction].
  f_equal. apply map_ext_in. intros i Hi. apply in_seq in Hi. cbn [map]. assert (H : (i < n)%nat) by lia. change (T Q) with R.
  rewrite (S3 i _ H), (column_of c _ _ n A B i _ H), (column_of c _ _ n W1 W2 i _ H). reflexivity.
Qed.
End Objects.
Lemma at_map (f : nat -> R) n i : (i < n)%nat -> at_ (map f (seq 0 n)) i = f i.
Proof. intros H. unfold at_. rewrite (nth_indep _ 0 (f 0%nat)) by (rewrite map_length, seq_length; exact H). rewrite map_nth, seq_nth by exact H. reflexivity. Qed.

Section Results.
Context (F : R -> Prop) (rnd : R -> R) (lm : libmR) (u : R) (e m : nat).
Hypotheses (RD : rounding F rnd) (Hu : 0 <= u <= 1 / 100) (HR : relative u rnd) (HA : accurate u e lm) (HI : integers F).
Notation Q := (QNum rnd lm).
Lemma spectrum_1loop_error (c : columns RNum) n (D : R) given : complete C1Loop c n -> sized given n -> 0 <= D ->
  exists out, pk_1loop (N := Q) c D given = Ok out /\ List.length out = n /\ forall i, (i < n)%nat -> 0 <= dispersion c given i -> 16 * damping D (entry c "k" i) (dispersion c given i) <= INR m ->
    let formula g := regpt_1loop D (entry c "k" i) (dispersion c given i) (g (entry c "gamma1a_1loop" i)) (g (entry c "gamma1b_1loop" i)) (g (entry c "pk_lin" i)) (g (entry c "pk_gamma2_tree_tree" i)) in
    Rabs (at_ out i - formula id) <= units u (4 * e + 2 * m + 23) * formula Rabs.
Proof.
  intros HC Hs HD. eexists. split; [apply rows_1loop; eassumption|]. split; [rewrite map_length, seq_length; reflexivity|]. intros i Hi Hd Hm formula.
  unfold formula, id. rewrite (at_map (fun i => pk_1loop_row (N := Q) D _)) by exact Hi. apply (row_1loop_within F rnd lm u e m RD Hu HR HA HI D (entry c "k" i) (dispersion c given i) HD Hd Hm).
Qed.
Lemma spectrum_2loop_error (c : columns RNum) n (D : R) given : complete C2Loop c n -> sized given n -> 0 <= D ->
  exists out, pk_2loop (N := Q) c D given = Ok out /\ List.length out = n /\ forall i, (i < n)%nat -> 0 <= dispersion c given i -> 16 * damping D (entry c "k" i) (dispersion c given i) <= INR m ->
    let formula g := regpt_2loop D (entry c "k" i) (dispersion c given i) (g (entry c "gamma1a_1loop" i)) (g (entry c "gamma1a_2loop" i)) (g (entry c "gamma1b_1loop" i)) (g (entry c "gamma1b_2loop" i)) (g (entry c "pk_lin" i))
      (g (entry c "pk_gamma2_tree_tree" i)) (g (entry c "pk_gamma2_tree_1loop" i)) (g (entry c "pk_gamma2_1loop_1loop" i)) (g (entry c "pk_gamma3_tree" i)) in
    Rabs (at_ out i - formula id) <= units u (4 * e + 2 * m + 44) * formula Rabs.
Proof.
  intros HC Hs HD. eexists. split; [apply rows_2loop; eassumption|]. split; [rewrite map_length, seq_length; reflexivity|]. intros i Hi Hd Hm formula.
  unfold formula, id. rewrite (at_map (fun i => pk_2loop_row (N := Q) D _)) by exact Hi. apply (row_2loop_within F rnd lm u e m RD Hu HR HA HI D (entry c "k" i) (dispersion c given i) HD Hd Hm).
Qed.
Lemma damped_error (c : columns RNum) n name (D : R) given : complete CBias c n -> In name one_loop_bias -> sized given n -> 0 <= D ->
  exists out, pk_damped (N := Q) name c D given = Ok out /\ List.length out = n /\ forall i, (i < n)%nat -> 0 <= dispersion c given i -> 16 * damping D (entry c "k" i) (dispersion c given i) <= INR m ->
    close u (3 * e + m + 17) (at_ out i) (damped D (entry c "k" i) (dispersion c given i) (entry c name i)).
Proof.
  intros HC Hx Hs HD. eexists. split; [apply rows_damped; eassumption|]. split; [rewrite map_length, seq_length; reflexivity|]. intros i Hi Hd Hm.
  match goal with |- close _ _ (at_ (map ?f _) _) _ => rewrite (at_map f) by exact Hi end. cbv beta zeta.
  replace (damped D (entry c "k" i) (dispersion c given i) (entry c name i)) with
    (D ^ 4 * (exp (- (2 * damping D (entry c "k" i) (dispersion c given i))) * (1 + damping D (entry c "k" i) (dispersion c given i)) ^ 2) * entry c name i).
  - apply (damped_close F rnd lm u e m RD Hu HR HA HI D (entry c "k" i) (dispersion c given i) Hd Hm).
  - unfold damped. cbv zeta. set (f := damping _ _ _). replace (- (2 * f)) with (- f + - f) by ring. rewrite exp_plus. ring.
Qed.
Lemma c_1loop_error (k s ga gb P t out : list R) n : List.length k = n -> List.length s = n -> List.length ga = n -> List.length gb = n ->
  List.length P = n -> List.length t = n -> List.length out = n ->
  exists w, c_spectrum_1loop (N := Q) k s ga gb P t (Z.of_nat n) out = Ok w /\ List.length w = n /\ forall i, (i < n)%nat -> 0 <= at_ s i -> 16 * damping 1 (at_ k i) (at_ s i) <= INR m ->
    let formula g := regpt_1loop 1 (at_ k i) (at_ s i) (g (at_ ga i)) (g (at_ gb i)) (g (at_ P i)) (g (at_ t i)) in
    Rabs (at_ w i - formula id) <= units u (2 * e + 2 * m + 23) * formula Rabs.
Proof.
  intros L1 L2 L3 L4 L5 L6 L7. exists (map (fun i => c_spectrum_1loop_row (N := Q) (at_ k i) (at_ s i) (at_ ga i) (at_ gb i) (at_ P i) (at_ t i)) (seq 0 n)). split; [|split; [rewrite map_length, seq_length; reflexivity|]].
  - unfold c_spectrum_1loop. rewrite (for_ext _ _ _ (fun ik o => v <- (a <- rd k ik ;; b <- rd s ik ;; c <- rd ga ik ;; d <- rd gb ik ;; e <- rd P ik ;; f <- rd t ik ;;
       Ok (c_spectrum_1loop_row (N := Q) a b c d e f)) ;; wr o ik v)).
    + apply (fill_array (N := Q)); [assumption|]. intros i Hi.
      rewrite (rd_nth (0 : R) k n), (rd_nth (0 : R) s n), (rd_nth (0 : R) ga n), (rd_nth (0 : R) gb n), (rd_nth (0 : R) P n), (rd_nth (0 : R) t n) by assumption. reflexivity.
    + intros. change (T Q) with R. destruct (rd k i); [|reflexivity]. destruct (rd s i); [|reflexivity]. destruct (rd ga i); [|reflexivity].
      destruct (rd gb i); [|reflexivity]. destruct (rd P i); [|reflexivity]. destruct (rd t i); reflexivity.
  - intros i Hi Hd Hm formula. unfold formula, id. rewrite (at_map (fun i => c_spectrum_1loop_row (N := Q) _ _ _ _ _ _)) by exact Hi. apply (c_row_1loop_within F rnd lm u e m RD Hu HR HA _ _ Hd Hm).
Qed.
Lemma c_2loop_error (k s ga ga2 gb gb2 P t t1 oo g3 out : list R) n : List.length k = n -> List.length s = n -> List.length ga = n -> List.length ga2 = n ->
  List.length gb = n -> List.length gb2 = n -> List.length P = n -> List.length t = n -> List.length t1 = n -> List.length oo = n -> List.length g3 = n -> List.length out = n ->
  exists w, c_spectrum_2loop (N := Q) k s ga ga2 gb gb2 P t t1 oo g3 (Z.of_nat n) out = Ok w /\ List.length w = n /\ forall i, (i < n)%nat -> 0 <= at_ s i -> 16 * damping 1 (at_ k i) (at_ s i) <= INR m ->
    let formula g := regpt_2loop 1 (at_ k i) (at_ s i) (g (at_ ga i)) (g (at_ ga2 i)) (g (at_ gb i)) (g (at_ gb2 i)) (g (at_ P i)) (g (at_ t i)) (g (at_ t1 i)) (g (at_ oo i)) (g (at_ g3 i)) in
    Rabs (at_ w i - formula id) <= units u (2 * e + 2 * m + 44) * formula Rabs.
Proof.
  intros L1 L2 L3 L4 L5 L6 L7 L8 L9 L10 L11 L12.
  exists (map (fun i => c_spectrum_2loop_row (N := Q) (at_ k i) (at_ s i) (at_ ga i) (at_ ga2 i) (at_ gb i) (at_ gb2 i) (at_ P i) (at_ t i) (at_ t1 i) (at_ oo i) (at_ g3 i)) (seq 0 n)). split; [|split; [rewrite map_length, seq_length; reflexivity|]].
  - unfold c_spectrum_2loop. rewrite (for_ext _ _ _ (fun ik o => v <- (a <- rd k ik ;; b <- rd s ik ;; c <- rd ga ik ;; c2 <- rd ga2 ik ;; d <- rd gb ik ;; d2 <- rd gb2 ik ;; e <- rd P ik ;;
     f <- rd t ik ;; g <- rd t1 ik ;; h <- rd oo ik ;; u <- rd g3 ik ;; Ok (c_spectrum_2loop_row (N := Q) a b c c2 d d2 e f g h u)) ;; wr o ik v)).
    + apply (fill_array (N := Q)); [assumption|]. intros i Hi.
      rewrite (rd_nth (0 : R) k n), (rd_nth (0 : R) s n), (rd_nth (0 : R) ga n), (rd_nth (0 : R) ga2 n), (rd_nth (0 : R) gb n), (rd_nth (0 : R) gb2 n),
      (rd_nth (0 : R) P n), (rd_nth (0 : R) t n), (rd_nth (0 : R) t1 n), (rd_nth (0 : R) oo n), (rd_nth (0 : R) g3 n) by assumption. reflexivity.
    + intros. change (T Q) with R. destruct (rd k i); [|reflexivity]. destruct (rd s i); [|reflexivity]. destruct (rd ga i); [|reflexivity]. destruct (rd ga2 i); [|reflexivity].
      destruct (rd gb i); [|reflexivity]. destruct (rd gb2 i); [|reflexivity]. destruct (rd P i); [|reflexivity]. destruct (rd t i); [|reflexivity].
      destruct (rd t1 i); [|reflexivity]. destruct (rd oo i); [|reflexivity]. destruct (rd g3 i); reflexivity.
  - intros i Hi Hd Hm formula. unfold formula, id. rewrite (at_map (fun i => c_spectrum_2loop_row (N := Q) _ _ _ _ _ _ _ _ _ _ _)) by exact Hi. apply (c_row_2loop_within F rnd lm u e m RD Hu HR HA _ _ Hd Hm).
Qed.
End Results.

(** ** Sign of an auto-spectrum in any rounded arithmetic *)
Section Sign.
Context (F : R -> Prop) (rnd : R -> R) (lm : libmR).
Hypotheses (RD : rounding F rnd) (HE : forall x, 0 <= q_exp lm x).
Notation Q := (QNum rnd lm).
Lemma rnd_nonneg x : 0 <= x -> 0 <= rnd x.
Proof. intros H. rewrite <- (r_id _ _ RD 0 (r_zero _ _ RD)). apply (r_mono _ _ RD), H. Qed.
Lemma square_nonneg x : 0 <= rnd (x * x).
Proof. apply rnd_nonneg, Rle_0_sqr. Qed.
Ltac nn := repeat (apply square_nonneg || apply rnd_nonneg || apply Rmult_le_pos || apply Rplus_le_le_0_compat); auto.
Lemma auto_1loop (c : columns RNum) n (D : R) given : complete C1Loop c n -> sized given n -> 0 <= q_pow lm D (rnd 4) ->
  (forall i, (i < n)%nat -> entry c "gamma1a_1loop" i = entry c "gamma1b_1loop" i /\ 0 <= entry c "pk_lin" i /\ 0 <= entry c "pk_gamma2_tree_tree" i) ->
  exists out, pk_1loop (N := Q) c D given = Ok out /\ List.length out = n /\ forall i, (i < n)%nat -> 0 <= at_ out i.
Proof.
  intros HC Hs HP H. eexists. split; [apply rows_1loop; eassumption|]. split; [rewrite map_length, seq_length; reflexivity|]. intros i Hi. destruct (H i Hi) as (E & P1 & P2).
  rewrite (at_map (fun i => pk_1loop_row (N := Q) D _)) by exact Hi. rewrite E. cbn [pk_1loop_row]. cbn. nn.
Qed.
Lemma auto_c_1loop k s g P t : 0 <= P -> 0 <= t -> 0 <= c_spectrum_1loop_row (N := Q) k s g g P t.
Proof. intros HP Ht. unfold c_spectrum_1loop_row. cbn. nn. Qed.
Lemma auto_c_1loop_array (k s g P t out : list R) n : List.length k = n -> List.length s = n -> List.length g = n -> List.length P = n -> List.length t = n -> List.length out = n ->
  Forall (fun x => 0 <= x) P -> Forall (fun x => 0 <= x) t ->
  exists w, c_spectrum_1loop (N := Q) k s g g P t (Z.of_nat n) out = Ok w /\ List.length w = n /\ Forall (fun x => 0 <= x) w.
Proof.
  intros L1 L2 L3 L4 L5 L6 HP Ht. exists (map (fun i => c_spectrum_1loop_row (N := Q) (at_ k i) (at_ s i) (at_ g i) (at_ g i) (at_ P i) (at_ t i)) (seq 0 n)). split; [|split; [rewrite map_length, seq_length; reflexivity|]].
  - unfold c_spectrum_1loop. rewrite (for_ext _ _ _ (fun ik o => v <- (a <- rd k ik ;; b <- rd s ik ;; c <- rd g ik ;; d <- rd g ik ;; e <- rd P ik ;; f <- rd t ik ;;
       Ok (c_spectrum_1loop_row (N := Q) a b c d e f)) ;; wr o ik v)).
    + apply (fill_array (N := Q)); [assumption|]. intros i Hi.
      rewrite (rd_nth (0 : R) k n), (rd_nth (0 : R) s n), (rd_nth (0 : R) g n), (rd_nth (0 : R) P n), (rd_nth (0 : R) t n) by assumption. reflexivity.
    + intros. change (T Q) with R. destruct (rd k i); [|reflexivity]. destruct (rd s i); [|reflexivity]. destruct (rd g i); [|reflexivity].
      cbn [bind]. destruct (rd P i); [|reflexivity]. destruct (rd t i); reflexivity.
  - apply Forall_forall. intros x Hx. apply in_map_iff in Hx. destruct Hx as (i & <- & Hi). apply in_seq in Hi. apply auto_c_1loop; unfold at_.
    + eapply (proj1 (Forall_nth _ _) HP). lia.
    + eapply (proj1 (Forall_nth _ _) Ht). lia.
Qed.
End Sign.

Lemma units_figure (n : nat) : (n <= 5017)%nat -> units (/ 2 ^ 53) n <= 1 / 10 ^ 12.
Proof.
  intros H. set (u := / 2 ^ 53).
  assert (Hu : 0 < u <= 1 / 2). { unfold u. split; [apply Rinv_0_lt_compat, pow_lt; lra|]. replace (1 / 2) with (/ 2) by lra. apply Rinv_le; [lra|]. apply Rle_trans with (2 ^ 1); [lra|apply Rle_pow; [lra|lia]]. }
  assert (P : 0 < (1 - u) ^ n <= 1). { split; [apply pow_lt; lra|]. apply Rle_trans with (1 ^ n); [apply pow_incr; lra|rewrite pow1; lra]. }
  assert (I : 1 <= / (1 - u) ^ n) by (apply Rle_trans with (/ 1); [lra|apply Rinv_le; lra]).
  pose proof (close_figure n (/ (1 - u) ^ n) 1 H ltac:(lra)) as B. unfold units. rewrite Rmult_1_r in B.
  eapply Rle_trans; [apply Rle_abs|]. apply B. exists (/ (1 - u) ^ n). fold u. split; [lra|ring].
Qed.
(** the exact functions *)
Definition exact_libm : libmR := mkLibmR ln exp cos sin (fun x y => Rpow x y).
Lemma exact_accurate u : 0 <= u < 1 -> accurate u 0 exact_libm.
Proof.
  intros Hu. split.
  - intros x. apply close_refl; assumption.
  - intros x n. cbn [exact_libm q_pow]. rewrite INR_IZR_INZ, Rpow_nat. apply close_refl; assumption.
Qed.
Lemma wide_integers : integers wide.
Proof. intros n H. rewrite INR_IZR_INZ. apply wide_small. lia. Qed.
Lemma u53 : 0 <= / 2 ^ 53 <= 1 / 100.
Proof. split; [apply Rlt_le, Rinv_0_lt_compat, pow_lt; lra|]. replace (1 / 100) with (/ 100) by lra. apply Rinv_le; [lra|]. rewrite <- (Rmult_1_r 100). simpl. lra. Qed.
