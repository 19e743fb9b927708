(** ProofPy2: the sigma3sq term, the two assemblies of the spectra, their small-growth limit and nan_to_zero. *)
From Coq Require Import Reals ZArith List String Lia Lra Bool.
From Coquelicot Require Import Coquelicot.
From Verif Require Import Base Num BaseFacts Common Registry PyTerms Spec SpecPy Sums ProofPy.
Import ListNotations.
Local Open Scope R_scope.

(** ** sigma3sq *)
Lemma sigma3sq_rescaled (c c' : columns RNum) (D E : R) n : complete CBias c n -> rescale (N := RNum) CBias c D = (c', Done) ->
  exists v, pk_sigma3sq (N := RNum) c (D * E) = Ok v /\ List.length v = n /\ pk_sigma3sq (N := RNum) c' E = Ok (map (Rmult (D^2)) v).
Proof.
  intros HC HR. pose proof HC as [H1 H2]. destruct (rescale_val (N := RNum) CBias c D) as (c2 & R1 & R2 & R3); [intros x; apply H1|].
  rewrite HR in R1. injection R1 as <-. pose proof (getitem_scaled CBias c c' D R3) as G. clear R3.
  destruct (getitem_complete _ _ _ "pk_lin" HC) as (p & P1 & P2); [cbn; tauto|].
  destruct (getitem_complete _ _ _ "sigma3sq" HC) as (s & S1 & S2); [cbn; tauto|].
  cbn [ncomp] in P2, S2. rewrite Nat.mul_1_r in P2, S2.
  unfold pk_sigma3sq, scale_factor. cbn [getitems bind]. rewrite !G, P1, S1. cbn [bind].
  rewrite !(elementwise_ok _ _ n); cbn [bind]; try discriminate; try (intros d [<-|[<-|[]]]; rewrite ?map_length; assumption).
  eexists. split; [reflexivity|]. split; [rewrite !map_length, seq_length; reflexivity|]. f_equal. rewrite !map_map. apply map_ext. intros i. rn. cbn [map].
    change (Z.to_nat (2 * scale_of CBias "pk_lin")) with 2%nat. change (Z.to_nat (2 * scale_of CBias "sigma3sq")) with 4%nat.
    assert (M : forall (l : list R) q, nth i (map (fun e => e * q) l) 0 = nth i l 0 * q).
    { intros l q. replace 0 with (0 * q) at 1 by ring. apply (map_nth (fun e => e * q)). }
    rewrite !M. pows. rewrite Rpow_mult_distr. ring.
Qed.

(** ** The value of the spectra *)
Lemma row_1loop_val D k s ga gb P t : pk_1loop_row (N := RNum) D [k; s; ga; gb; P; t] = regpt_1loop D k s ga gb P t.
Proof.
  unfold pk_1loop_row, regpt_1loop, propagator_1loop, damping. rn. pows.
  replace (5 / IZR (10 ^ 1) * (k * D * (k * D)) * s) with (D^2 * k^2 * s / 2) by (change (10 ^ 1)%Z with 10%Z; field).
  set (f := D^2 * k^2 * s / 2). replace (- (2) * f) with (- (2 * f)) by ring. ring.
Qed.
Lemma row_2loop_val D k s ga ga2 gb gb2 P t t1 oo g3 :
  pk_2loop_row (N := RNum) D [k; s; ga; ga2; gb; gb2; P; t; t1; oo; g3] = regpt_2loop D k s ga ga2 gb gb2 P t t1 oo g3.
Proof.
  unfold pk_2loop_row, regpt_2loop, propagator_2loop, damping. rn. pows.
  replace (5 / IZR (10 ^ 1) * (k * D * (k * D)) * s) with (D^2 * k^2 * s / 2) by (change (10 ^ 1)%Z with 10%Z; field).
  set (f := D^2 * k^2 * s / 2). replace (- (2) * f) with (- (2 * f)) by ring.
  replace (5 / IZR (10 ^ 1)) with (/ 2) by (change (10 ^ 1)%Z with 10%Z; field). unfold Rdiv.
  ring.
Qed.
Lemma getitem_entry (c : columns RNum) x v : getitem c x = Ok v -> forall i, nth i v 0 = entry c x i.
Proof. intros H i. unfold entry. rewrite H. reflexivity. Qed.
Ltac fetch HC x := let v := fresh "v" in let A := fresh "A" in let B := fresh "B" in
  destruct (getitem_complete _ _ _ x HC) as (v & A & B); [cbn; tauto|]; cbn [ncomp] in B; rewrite Nat.mul_1_r in B.
Lemma pk_1loop_val (c : columns RNum) n D : complete C1Loop c n ->
  pk_1loop (N := RNum) c D None = Ok (map (fun i => regpt_1loop D (entry c "k" i) (entry c "sigmad2" i) (entry c "gamma1a_1loop" i) (entry c "gamma1b_1loop" i)
                                     (entry c "pk_lin" i) (entry c "pk_gamma2_tree_tree" i)) (seq 0 n)).
Proof.
  intros HC. fetch HC "k"%string. fetch HC "sigmad2"%string. fetch HC "gamma1a_1loop"%string. fetch HC "gamma1b_1loop"%string.
  fetch HC "pk_lin"%string. fetch HC "pk_gamma2_tree_tree"%string.
  unfold pk_1loop. cbn [getitems bind]. rewrite A, A0, A1, A2, A3, A4. cbn [bind].
  rewrite (elementwise_ok _ _ n); [|discriminate|intros d Hd; cbn in Hd; repeat (destruct Hd as [<-|Hd]; [assumption|]); contradiction].
  f_equal. apply map_ext. intros i. cbn [map]. etransitivity; [apply row_1loop_val|].
  erewrite !getitem_entry; try eassumption. reflexivity.
Qed.
Lemma pk_2loop_val (c : columns RNum) n D : complete C2Loop c n ->
  pk_2loop (N := RNum) c D None = Ok (map (fun i => regpt_2loop D (entry c "k" i) (entry c "sigmad2" i) (entry c "gamma1a_1loop" i) (entry c "gamma1a_2loop" i)
                                     (entry c "gamma1b_1loop" i) (entry c "gamma1b_2loop" i) (entry c "pk_lin" i) (entry c "pk_gamma2_tree_tree" i)
                                     (entry c "pk_gamma2_tree_1loop" i) (entry c "pk_gamma2_1loop_1loop" i) (entry c "pk_gamma3_tree" i)) (seq 0 n)).
Proof.
  intros HC. fetch HC "k"%string. fetch HC "sigmad2"%string. fetch HC "gamma1a_1loop"%string. fetch HC "gamma1a_2loop"%string. fetch HC "gamma1b_1loop"%string.
  fetch HC "gamma1b_2loop"%string. fetch HC "pk_lin"%string. fetch HC "pk_gamma2_tree_tree"%string. fetch HC "pk_gamma2_tree_1loop"%string.
  fetch HC "pk_gamma2_1loop_1loop"%string. fetch HC "pk_gamma3_tree"%string.
  unfold pk_2loop. cbn [getitems bind]. rewrite A, A0, A1, A2, A3, A4, A5, A6, A7, A8, A9. cbn [bind].
  rewrite (elementwise_ok _ _ n); [|discriminate|intros d Hd; cbn in Hd; repeat (destruct Hd as [<-|Hd]; [assumption|]); contradiction].
  f_equal. apply map_ext. intros i. cbn [map]. etransitivity; [apply row_2loop_val|].
  erewrite !getitem_entry; try eassumption. reflexivity.
Qed.

(** ** The C assembly *)
Lemma fill_array {N : Num} (n : nat) (g : Z -> res (T N)) (val : nat -> T N) (out : list (T N)) : List.length out = n ->
  (forall i, (i < n)%nat -> g (Z.of_nat i) = Ok (val i)) ->
  for_ 0 (Z.of_nat n) (fun ik o => v <- g ik ;; wr o ik v) out = Ok (map val (seq 0 n)).
Proof.
  intros L H. set (d := nZ N 0).
  destruct (for_inv (fun hi (o : list (T N)) => List.length o = n /\ forall i, (Z.of_nat i < hi)%Z -> nth i o d = val i) 0 (Z.of_nat n)
      (fun ik o => v <- g ik ;; wr o ik v) out) as (o & E & Lo & Ho).
  - lia.
  - split; [exact L|intros; lia].
  - intros j o Hj [Lo Ho]. rewrite <- (Z2Nat.id j) by lia. rewrite H by lia. cbn [bind]. rewrite wr_ok by (unfold zlen; lia).
    eexists. split; [reflexivity|]. rewrite upd_length. split; [exact Lo|]. intros i Hi. rewrite upd_nth by lia.
    destruct (Nat.eqb_spec i (Z.to_nat (Z.of_nat (Z.to_nat j)))) as [->|Ne]; [f_equal; lia|apply Ho; lia].
  - rewrite E. f_equal. apply (nth_ext _ _ d d); [rewrite map_length, seq_length; exact Lo|]. intros i Hi. rewrite Ho by lia.
    rewrite (nth_indep _ d (val 0%nat)) by (rewrite map_length, seq_length; lia). rewrite map_nth, seq_nth by lia. reflexivity.
Qed.
Lemma rd_nth {A} (d : A) (l : list A) (n i : nat) : List.length l = n -> (i < n)%nat -> rd l (Z.of_nat i) = Ok (nth i l d).
Proof. intros L H. rewrite (rd_ok d) by (unfold zlen; lia). unfold znth. rewrite Nat2Z.id. reflexivity. Qed.
Lemma c_1loop_val (k s ga gb P t out : list R) n : List.length k = n -> List.length s = n -> List.length ga = n -> List.length gb = n ->
  List.length P = n -> List.length t = n -> List.length out = n ->
  c_spectrum_1loop (N := RNum) k s ga gb P t (Z.of_nat n) out =
  Ok (map (fun i => regpt_1loop 1 (nth i k 0) (nth i s 0) (nth i ga 0) (nth i gb 0) (nth i P 0) (nth i t 0)) (seq 0 n)).
Proof.
  intros. unfold c_spectrum_1loop.
  rewrite (for_ext _ _ _ (fun ik o => v <- (a <- rd k ik ;; b <- rd s ik ;; c <- rd ga ik ;; d <- rd gb ik ;; e <- rd P ik ;; f <- rd t ik ;;
     Ok (c_spectrum_1loop_row (N := RNum) a b c d e f)) ;; wr o ik v)).
  - apply (fill_array (N := RNum)); [assumption|]. intros i Hi.
    rewrite (rd_nth (0 : R) k n), (rd_nth (0 : R) s n), (rd_nth (0 : R) ga n), (rd_nth (0 : R) gb n), (rd_nth (0 : R) P n), (rd_nth (0 : R) t n) by assumption.
    cbn [bind]. f_equal. unfold c_spectrum_1loop_row, regpt_1loop, propagator_1loop, damping. rn.
    match goal with |- context [exp (- ?a)] => set (A := a) end.
    match goal with |- _ = ?r => match r with context [exp (- ?b)] => set (B := b) end end.
    assert (A = B) as -> by (unfold A, B; change (10 ^ 1)%Z with 10%Z; field).
    replace (- (2 * B)) with (- B + - B) by ring. rewrite exp_plus. ring.
  - intros. change (T RNum) with R. destruct (rd k i); [|reflexivity]. destruct (rd s i); [|reflexivity]. destruct (rd ga i); [|reflexivity].
    destruct (rd gb i); [|reflexivity]. destruct (rd P i); [|reflexivity]. destruct (rd t i); reflexivity.
Qed.
Lemma c_2loop_val (k s ga ga2 gb gb2 P t t1 oo g3 out : list R) n : List.length k = n -> List.length s = n -> List.length ga = n -> List.length ga2 = n ->
  List.length gb = n -> List.length gb2 = n -> List.length P = n -> List.length t = n -> List.length t1 = n -> List.length oo = n -> List.length g3 = n -> List.length out = n ->
  c_spectrum_2loop (N := RNum) k s ga ga2 gb gb2 P t t1 oo g3 (Z.of_nat n) out =
  Ok (map (fun i => regpt_2loop 1 (nth i k 0) (nth i s 0) (nth i ga 0) (nth i ga2 0) (nth i gb 0) (nth i gb2 0) (nth i P 0) (nth i t 0)
             (nth i t1 0) (nth i oo 0) (nth i g3 0)) (seq 0 n)).
Proof.
  intros. unfold c_spectrum_2loop.
  rewrite (for_ext _ _ _ (fun ik o => v <- (a <- rd k ik ;; b <- rd s ik ;; c <- rd ga ik ;; c2 <- rd ga2 ik ;; d <- rd gb ik ;; d2 <- rd gb2 ik ;; e <- rd P ik ;;
     f <- rd t ik ;; g <- rd t1 ik ;; h <- rd oo ik ;; u <- rd g3 ik ;;
     Ok (c_spectrum_2loop_row (N := RNum) a b c c2 d d2 e f g h u)) ;; wr o ik v)).
  - apply (fill_array (N := RNum)); [assumption|]. intros i Hi.
    rewrite (rd_nth (0 : R) k n), (rd_nth (0 : R) s n), (rd_nth (0 : R) ga n), (rd_nth (0 : R) ga2 n), (rd_nth (0 : R) gb n), (rd_nth (0 : R) gb2 n),
      (rd_nth (0 : R) P n), (rd_nth (0 : R) t n), (rd_nth (0 : R) t1 n), (rd_nth (0 : R) oo n), (rd_nth (0 : R) g3 n) by assumption.
    cbn [bind]. f_equal. unfold c_spectrum_2loop_row, regpt_2loop, propagator_2loop, damping. rn.
    match goal with |- context [exp (- ?a)] => set (A := a) end.
    match goal with |- _ = ?r => match r with context [exp (- ?b)] => set (B := b) end end.
    assert (A = B) as -> by (unfold A, B; change (10 ^ 1)%Z with 10%Z; field).
    replace (- (2 * B)) with (- B + - B) by ring. rewrite exp_plus.
    replace (5 / IZR (10 ^ 1)) with (/ 2) by (change (10 ^ 1)%Z with 10%Z; field). unfold Rdiv. ring.
  - intros. change (T RNum) with R. destruct (rd k i); [|reflexivity]. destruct (rd s i); [|reflexivity]. destruct (rd ga i); [|reflexivity]. destruct (rd ga2 i); [|reflexivity].
    destruct (rd gb i); [|reflexivity]. destruct (rd gb2 i); [|reflexivity]. destruct (rd P i); [|reflexivity]. destruct (rd t i); [|reflexivity].
    destruct (rd t1 i); [|reflexivity]. destruct (rd oo i); [|reflexivity]. destruct (rd g3 i); reflexivity.
Qed.
