(** ProofDamped: the accessors of one spectrum, with and without damping. *)
From Coq Require Import Reals ZArith List String Lia Lra Bool.
From Coquelicot Require Import Coquelicot.
From Verif Require Import Base Num BaseFacts Common Registry PyTerms Spec SpecPy SpecDamped Sums ProofPy ProofPy2 ProofPy7.
Import ListNotations.
Local Open Scope R_scope.

Lemma named_val cl (c : columns RNum) n x (D : R) : complete cl c n -> In x (named cl) ->
  accessor (N := RNum) cl x c D =
    Ok (map (fun i => D ^ (2 * powers cl x) * entry c x i) (seq 0 (n * match ncomp cl x with Some m => Z.to_nat m | None => 1 end)%nat)).
Proof.
  intros HC E. assert (In x (fields cl) /\ assoc (accessors cl) x = Some (Z.of_nat (powers cl x), x)) as [Hx HA].
  { destruct cl; cbn in E; repeat (destruct E as [<-|E]; [split; [cbn; tauto|reflexivity]|]); contradiction. }
  unfold accessor. rewrite HA. unfold scale_factor.
  destruct (getitem_complete _ _ _ x HC Hx) as (v & A & B). rewrite A. cbn [bind]. f_equal.
  assert (M : v = map (fun i => entry c x i) (seq 0 (n * match ncomp cl x with Some m => Z.to_nat m | None => 1 end)%nat)).
  { rewrite <- B. apply nth_ext with (d := 0) (d' := 0); [rewrite map_length, seq_length; reflexivity|]. intros i Hi.
    rewrite nth_map_seq by exact Hi. apply getitem_entry, A. }
  rewrite M at 1. rewrite map_map. apply map_ext. intros i. cbn [npow RNum nmul nZ].
  replace (2 * Z.of_nat (powers cl x))%Z with (Z.of_nat (2 * powers cl x)) by lia. rewrite Rpow_nat. reflexivity.
Qed.
Lemma sigma3sq_val (c : columns RNum) n (D : R) : complete CBias c n ->
  pk_sigma3sq (N := RNum) c D = Ok (map (fun i => D^4 * (entry c "pk_lin" i * entry c "sigma3sq" i)) (seq 0 n)).
Proof.
  intros HC. fetch HC "pk_lin"%string. fetch HC "sigma3sq"%string. unfold pk_sigma3sq, scale_factor. cbn [getitems bind]. rewrite A, A0. cbn [bind].
  rewrite (elementwise_ok _ _ n); [|discriminate|intros d Hd; cbn in Hd; repeat (destruct Hd as [<-|Hd]; [assumption|]); contradiction].
  cbn [bind]. f_equal. rewrite map_map. apply map_ext. intros i. cbn [map].
  rewrite <- (getitem_entry c _ _ A i), <- (getitem_entry c _ _ A0 i). cbn [nmul RNum nZ Z.mul Pos.mul]. pows. reflexivity.
Qed.
Definition one_loop_bias : list string := ["pk_b22"; "pk_b2s2"; "pk_bs22"]%string.
Lemma damped_row (D k s e : R) : 
  (let kD := k * D in let factor := 5 / IZR (10 ^ 1) * (kD * kD) * s in
   Rpow D 4 * (exp (- (2) * factor) * Rpow (1 + factor) 2) * e) = damped D k s e.
Proof.
  cbv zeta. unfold damped, damping. pows. replace (5 / IZR (10 ^ 1) * (k * D * (k * D)) * s) with (D^2 * k^2 * s / 2) by (change (10 ^ 1)%Z with 10%Z; field).
  set (f := D^2 * k^2 * s / 2). replace (- (2) * f) with (- f + - f) by ring. rewrite exp_plus. ring.
Qed.
Lemma damped_val (c : columns RNum) n name (D : R) (given : option (list R)) : complete CBias c n -> In name one_loop_bias -> sized given n ->
  pk_damped (N := RNum) name c D given = Ok (map (fun i => damped D (entry c "k" i) (dispersion c given i) (entry c name i)) (seq 0 n)).
Proof.
  intros HC Hx Hs. fetch HC "k"%string.
  assert (exists w, getitem c name = Ok w /\ List.length w = n) as (w & W1 & W2).
  { destruct Hx as [<-|[<-|[<-|[]]]]; [fetch HC "pk_b22"%string|fetch HC "pk_b2s2"%string|fetch HC "pk_bs22"%string]; eauto. }
  assert (exists s : list R, match given with None => getitem c "sigmad2" | Some s => Ok s end = Ok s /\ List.length s = n /\ forall i, nth i s 0 = dispersion c given i) as (s & S1 & S2 & S3).
  { destruct given as [s|]; cbn in Hs |- *; [exists s; auto|]. fetch HC "sigmad2"%string. exists v0. split; [exact A0|]. split; [exact B0|]. intros i. apply getitem_entry, A0. }
  unfold pk_damped, damping_factor. rewrite A. cbn [bind]. unfold column in *. change (T RNum) with R in *. rewrite S1. cbn [bind]. rewrite W1. cbn [bind].
  rewrite (elementwise_ok (N := RNum) _ _ n); [|discriminate|intros d Hd; cbn in Hd; repeat (destruct Hd as [<-|Hd]; [assumption|]); contradiction].
  f_equal. apply map_ext. intros i. cbn [map]. etransitivity; [|erewrite <- damped_row; reflexivity].
  rewrite <- (getitem_entry c _ _ A i), <- (getitem_entry c _ _ W1 i), <- (S3 i). cbn. reflexivity.
Qed.
Lemma given_1loop (c : columns RNum) n (D : R) (s : list R) : complete C1Loop c n -> List.length s = n ->
  pk_1loop (N := RNum) c D (Some s) = Ok (map (fun i => regpt_1loop D (entry c "k" i) (nth i s 0) (entry c "gamma1a_1loop" i) (entry c "gamma1b_1loop" i)
                                     (entry c "pk_lin" i) (entry c "pk_gamma2_tree_tree" i)) (seq 0 n)).
Proof.
  intros HC Hs. fetch HC "k"%string. fetch HC "gamma1a_1loop"%string. fetch HC "gamma1b_1loop"%string.
  fetch HC "pk_lin"%string. fetch HC "pk_gamma2_tree_tree"%string.
  unfold pk_1loop. cbn [getitems bind]. rewrite A, A0, A1, A2, A3. cbn [bind].
  rewrite (elementwise_ok _ _ n); [|discriminate|intros d Hd; cbn in Hd; repeat (destruct Hd as [<-|Hd]; [assumption|]); contradiction].
  f_equal. apply map_ext. intros i. cbn [map]. etransitivity; [apply row_1loop_val|].
  rewrite <- (getitem_entry c _ _ A i), <- (getitem_entry c _ _ A0 i), <- (getitem_entry c _ _ A1 i), <- (getitem_entry c _ _ A2 i), <- (getitem_entry c _ _ A3 i). reflexivity.
Qed.
Lemma given_2loop (c : columns RNum) n (D : R) (s : list R) : complete C2Loop c n -> List.length s = n ->
  pk_2loop (N := RNum) c D (Some s) = Ok (map (fun i => regpt_2loop D (entry c "k" i) (nth i s 0) (entry c "gamma1a_1loop" i) (entry c "gamma1a_2loop" i)
                                     (entry c "gamma1b_1loop" i) (entry c "gamma1b_2loop" i) (entry c "pk_lin" i) (entry c "pk_gamma2_tree_tree" i)
                                     (entry c "pk_gamma2_tree_1loop" i) (entry c "pk_gamma2_1loop_1loop" i) (entry c "pk_gamma3_tree" i)) (seq 0 n)).
Proof.
  intros HC Hs. fetch HC "k"%string. fetch HC "gamma1a_1loop"%string. fetch HC "gamma1a_2loop"%string. fetch HC "gamma1b_1loop"%string.
  fetch HC "gamma1b_2loop"%string. fetch HC "pk_lin"%string. fetch HC "pk_gamma2_tree_tree"%string. fetch HC "pk_gamma2_tree_1loop"%string.
  fetch HC "pk_gamma2_1loop_1loop"%string. fetch HC "pk_gamma3_tree"%string.
  unfold pk_2loop. cbn [getitems bind]. rewrite A, A0, A1, A2, A3, A4, A5, A6, A7, A8. cbn [bind].
  rewrite (elementwise_ok _ _ n); [|discriminate|intros d Hd; cbn in Hd; repeat (destruct Hd as [<-|Hd]; [assumption|]); contradiction].
  f_equal. apply map_ext. intros i. cbn [map]. etransitivity; [apply row_2loop_val|].
  rewrite <- (getitem_entry c _ _ A i), <- (getitem_entry c _ _ A0 i), <- (getitem_entry c _ _ A1 i), <- (getitem_entry c _ _ A2 i), <- (getitem_entry c _ _ A3 i), <- (getitem_entry c _ _ A4 i), <- (getitem_entry c _ _ A5 i), <- (getitem_entry c _ _ A6 i), <- (getitem_entry c _ _ A7 i), <- (getitem_entry c _ _ A8 i). reflexivity.
Qed.

(** ** The size of the damping *)
Lemma damp_decreasing f g : 0 <= f -> f <= g -> 0 <= exp (- g) * (1 + g) <= exp (- f) * (1 + f).
Proof.
  intros H0 H. pose proof (exp_pos (- g)). pose proof (exp_pos (- f)). split; [apply Rmult_le_pos; lra|].
  replace (exp (- f)) with (exp (- g) * exp (g - f)) by (rewrite <- exp_plus; f_equal; ring).
  rewrite Rmult_assoc. apply Rmult_le_compat_l; [lra|]. pose proof (exp_ineq1_le (g - f)) as E.
  apply Rle_trans with ((1 + (g - f)) * (1 + f)); [|apply Rmult_le_compat_r; lra].
  assert (0 <= (g - f) * f) by (apply Rmult_le_pos; lra). lra.
Qed.
Lemma damp_range f : 0 <= f -> 0 <= exp (- f) * (1 + f) <= 1.
Proof. intros H. pose proof (damp_decreasing 0 f (Rle_refl 0) H) as [A B]. rewrite Ropp_0, exp_0 in B. lra. Qed.
Lemma damp_close f : 0 <= f -> 1 - 2 * f^2 <= (exp (- f) * (1 + f))^2 <= 1.
Proof.
  intros H. pose proof (damp_range f H) as [A B]. pose proof (exp_ineq1_le (- f)) as E. set (q := exp (- f) * (1 + f)) in *.
  assert (L : 1 - f^2 <= q). { apply Rle_trans with ((1 + - f) * (1 + f)); [right; ring|apply Rmult_le_compat_r; lra]. }
  pose proof (pow2_ge_0 f) as F. pose proof (pow2_ge_0 q) as Q. split; [|assert (q * q <= 1 * 1) by (apply Rmult_le_compat; lra); replace (q^2) with (q * q) by ring; lra].
  destruct (Rle_lt_dec (f^2) 1) as [S|S].
  - assert ((1 - f^2) * (1 - f^2) <= q * q) by (apply Rmult_le_compat; lra). pose proof (Rmult_le_pos _ _ F F) as FF. replace (q^2) with (q * q) by ring.
    replace ((1 - f^2) * (1 - f^2)) with (1 - 2 * f^2 + f^2 * f^2) in * by ring. lra.
  - lra.
Qed.
Lemma damping_nonneg D k s : 0 <= s -> 0 <= damping D k s.
Proof. intros H. unfold damping. pose proof (pow2_ge_0 D). pose proof (pow2_ge_0 k). assert (0 <= D^2 * k^2 * s) by (apply Rmult_le_pos; [apply Rmult_le_pos|]; assumption). lra. Qed.
Lemma damped_decreasing D k s s' P : 0 <= s -> s <= s' -> Rabs (damped D k s' P) <= Rabs (damped D k s P).
Proof.
  intros H0 H. unfold damped. cbv zeta. rewrite !Rabs_mult. apply Rmult_le_compat_r; [apply Rabs_pos|]. apply Rmult_le_compat_l; [apply Rabs_pos|].
  assert (G : damping D k s <= damping D k s').
  { unfold damping. assert (0 <= D^2 * k^2) by (apply Rmult_le_pos; apply pow2_ge_0). assert (D^2 * k^2 * s <= D^2 * k^2 * s') by (apply Rmult_le_compat_l; lra). lra. }
  destruct (damp_decreasing _ _ (damping_nonneg D k s H0) G) as [A B]. rewrite !(Rabs_pos_eq (_ ^ 2)) by apply pow2_ge_0.
  apply pow_incr. split; assumption.
Qed.
Lemma damped_bounds D k s P : 0 <= s -> Rabs (damped D k s P) <= D^4 * Rabs P /\ 0 <= damped D k s P * P /\ Rabs (damped D k s P - D^4 * P) <= 2 * (damping D k s)^2 * (D^4 * Rabs P).
Proof.
  intros H. pose proof (damp_close _ (damping_nonneg D k s H)) as [A B]. unfold damped. cbv zeta. set (f := damping D k s) in *.
  set (q := (exp (- f) * (1 + f))^2) in *. assert (Q0 : 0 <= q) by apply pow2_ge_0. assert (D0 : 0 <= D^4) by (replace (D^4) with ((D^2)^2) by ring; apply pow2_ge_0).
  clearbody q f. pose proof (Rabs_pos P) as P0. assert (DP : 0 <= D^4 * Rabs P) by (apply Rmult_le_pos; assumption). split; [|split].
  - rewrite !Rabs_mult, (Rabs_pos_eq (D^4)), (Rabs_pos_eq q) by assumption. replace (D^4 * q * Rabs P) with (q * (D^4 * Rabs P)) by ring.
    assert (q * (D^4 * Rabs P) <= 1 * (D^4 * Rabs P)) by (apply Rmult_le_compat_r; assumption). lra.
  - replace (D^4 * q * P * P) with (D^4 * q * P^2) by ring. apply Rmult_le_pos; [apply Rmult_le_pos; assumption|apply pow2_ge_0].
  - replace (D^4 * q * P - D^4 * P) with (- (1 - q) * (D^4 * P)) by ring. rewrite Rabs_mult, Rabs_Ropp, (Rabs_pos_eq (1 - q)) by lra.
    rewrite Rabs_mult, (Rabs_pos_eq (D^4)) by assumption. apply Rmult_le_compat_r; [assumption|]. lra.
Qed.

(** ** At the interface *)
Lemma damped_against (c : columns RNum) n name (D : R) (given : option (list R)) : complete CBias c n -> In name one_loop_bias -> sized given n ->
  exists v u, pk_damped (N := RNum) name c D given = Ok v /\ accessor (N := RNum) CBias name c D = Ok u /\ List.length v = n /\ List.length u = n /\
    forall i, (i < n)%nat -> 0 <= dispersion c given i ->
      Rabs (nth i v 0) <= Rabs (nth i u 0) /\ 0 <= nth i v 0 * nth i u 0 /\
      Rabs (nth i v 0 - nth i u 0) <= 2 * (D^2 * (entry c "k" i)^2 * dispersion c given i / 2)^2 * Rabs (nth i u 0).
Proof.
  intros HC Hx Hs. assert (Hn : In name (named CBias) /\ ncomp CBias name = None /\ powers CBias name = 2%nat) by (destruct Hx as [<-|[<-|[<-|[]]]]; cbn; tauto).
  destruct Hn as (Hn & Hc & Hp). eexists. eexists. split; [apply (damped_val c n); assumption|]. split; [apply (named_val CBias c n); assumption|].
  rewrite Hc, Hp, Nat.mul_1_r. split; [rewrite map_length, seq_length; reflexivity|]. split; [rewrite map_length, seq_length; reflexivity|].
  intros i Hi H. rewrite !nth_map_seq by exact Hi. change (2 * 2)%nat with 4%nat.
  destruct (damped_bounds D (entry c "k" i) (dispersion c given i) (entry c name i) H) as (A & B & C).
  assert (D0 : 0 <= D^4) by (replace (D^4) with ((D^2)^2) by ring; apply pow2_ge_0).
  rewrite Rabs_mult, (Rabs_pos_eq (D^4)) by exact D0. split; [exact A|]. split; [|exact C].
  replace (damped D (entry c "k" i) (dispersion c given i) (entry c name i) * (D^4 * entry c name i))
    with (D^4 * (damped D (entry c "k" i) (dispersion c given i) (entry c name i) * entry c name i)) by ring. apply Rmult_le_pos; assumption.
Qed.
Lemma damped_more (c : columns RNum) n name (D : R) (s s' : list R) : complete CBias c n -> In name one_loop_bias -> List.length s = n -> List.length s' = n ->
  exists v v', pk_damped (N := RNum) name c D (Some s) = Ok v /\ pk_damped (N := RNum) name c D (Some s') = Ok v' /\
    forall i, (i < n)%nat -> 0 <= nth i s 0 <= nth i s' 0 -> Rabs (nth i v' 0) <= Rabs (nth i v 0).
Proof.
  intros HC Hx Hs Hs'. eexists. eexists. split; [apply (damped_val c n); assumption|]. split; [apply (damped_val c n); assumption|].
  intros i Hi [H H']. rewrite !nth_map_seq by exact Hi. apply damped_decreasing; assumption.
Qed.
