(** ProofDefined: when the functions of the C code have a value. *)
From Coq Require Import ZArith Lia List Reals Lra.
From Verif Require Import Base Num BaseFacts Common Kernels GExpr Gamma2 Integrals SpecDefined ProofSearch ProofKernels.
Import ListNotations.
Local Open Scope R_scope.

#[global] Arguments lift1 f !x /.
#[global] Arguments lift2 f !x !y /.
#[global] Arguments test f !x !y /.
Lemma odiv_some a b : b <> 0 -> odiv (Some a) (Some b) = Some (a / b).
Proof. intros H. cbn. destruct (Req_EM_T b 0); [contradiction|reflexivity]. Qed.
Lemma osqrt_some a : 0 <= a -> osqrt (Some a) = Some (sqrt a).
Proof. intros H. cbn. destruct (Rle_dec 0 a); [reflexivity|contradiction]. Qed.
Lemma olog_some a : 0 < a -> olog (Some a) = Some (ln a).
Proof. intros H. cbn. destruct (Rlt_dec 0 a); [reflexivity|contradiction]. Qed.
Lemma opow_pos a b : 0 < a -> opow (Some a) (Some b) = Some (Rpow a b).
Proof. intros H. cbn. destruct (Rlt_dec 0 a); [reflexivity|contradiction]. Qed.
Lemma opow_nat a n : (0 <= n)%Z -> opow (Some a) (Some (IZR n)) = Some (Rpow a (IZR n)).
Proof.
  intros H. cbn. destruct (Rlt_dec 0 a); [reflexivity|]. destruct (Req_EM_T a 0) as [->|].
  - destruct (Rle_dec 0 (IZR n)) as [|Q]; [reflexivity|]. exfalso. apply Q. apply IZR_le in H. exact H.
  - destruct (Req_EM_T (IZR n) (IZR (Int_part (IZR n)))) as [|Q]; [reflexivity|]. exfalso. apply Q.
    f_equal. symmetry. apply Int_part_IZR.
Qed.
Lemma opow_0 b : 0 <= b -> opow (Some 0) (Some b) = Some (Rpow 0 b).
Proof.
  intros H. cbn. destruct (Rlt_dec 0 0); [reflexivity|]. destruct (Req_EM_T 0 0) as [_|]; [|contradiction].
  destruct (Rle_dec 0 b); [reflexivity|contradiction].
Qed.

Ltac on := cbn [ONum RNum T nadd nsub nmul ndiv nopp nabs nsqrt nlog nexp ncos nsin npow nlt nle neqb nZ nlit npi lift1 lift2 test].
Ltac nz := solve [assumption | apply not_0_IZR; discriminate | apply not_0_IZR; lia | lra | auto with real].
(** Give each division, root, logarithm its value: the domain conditions are discharged by [t] or left. *)
Ltac ov_div t := match goal with |- context [odiv (Some ?a) (Some ?b)] => rewrite (odiv_some a b); [|try solve [t]] end.
Ltac ov_sqrt t := match goal with |- context [osqrt (Some ?a)] => rewrite (osqrt_some a); [|try solve [t]] end.
Ltac ov_log t := match goal with |- context [olog (Some ?a)] => rewrite (olog_some a); [|try solve [t]] end.
Ltac ov t := on; repeat (first [ov_div t | ov_sqrt t | ov_log t]; on).
Ltac ovn := ov ltac:(nz).

(** ** Results *)
Lemma bind_map {A B C} (L : A -> B) x (g : B -> res C) : bind (res_map L x) g = bind x (fun a => g (L a)).
Proof. destruct x; reflexivity. Qed.
Lemma map_bind {A B C} (L : B -> C) (x : res A) (f : A -> res B) : res_map L (bind x f) = bind x (fun a => res_map L (f a)).
Proof. destruct x; reflexivity. Qed.
Lemma bind_congr {A B} (x : res A) (f g : A -> res B) : (forall a, x = Ok a -> f a = g a) -> bind x f = bind x g.
Proof. destruct x; cbn; auto. Qed.
(** The usual step: the first computation lifts, and so does the rest. *)
Lemma bind_lift {A B C D} (L : A -> B) (K : C -> D) (x : res A) (y : res B) (f : A -> res C) (g : B -> res D) :
  y = res_map L x -> (forall a, x = Ok a -> g (L a) = res_map K (f a)) -> bind y g = res_map K (bind x f).
Proof. intros -> H. rewrite bind_map, map_bind. apply bind_congr. exact H. Qed.
Lemma bind_same_lift {A C D} (K : C -> D) (x : res A) (f : A -> res C) (g : A -> res D) :
  (forall a, x = Ok a -> g a = res_map K (f a)) -> bind x g = res_map K (bind x f).
Proof. intros H. rewrite map_bind. apply bind_congr. exact H. Qed.
Lemma loop_lift {A B} (L : A -> B) (P : Z -> A -> Prop) n : forall i (f : Z -> A -> res A) (g : Z -> B -> res B) s, P i s ->
  (forall j s, (i <= j < i + Z.of_nat n)%Z -> P j s -> g j (L s) = res_map L (f j s) /\ forall s', f j s = Ok s' -> P (j + 1)%Z s') ->
  loop n i g (L s) = res_map L (loop n i f s).
Proof.
  induction n as [|n IH]; intros i f g s Hs H; [reflexivity|]. cbn [loop].
  destruct (H i s) as [E1 E2]; [lia|exact Hs|]. apply (bind_lift L); [exact E1|]. intros s' Es.
  apply (IH (i + 1)%Z); [apply E2, Es|]. intros j t Hj. apply H. lia.
Qed.
Lemma for_lift {A B} (L : A -> B) (P : Z -> A -> Prop) lo hi (f : Z -> A -> res A) (g : Z -> B -> res B) s t : t = L s -> P lo s ->
  (forall j s, (lo <= j < hi)%Z -> P j s -> g j (L s) = res_map L (f j s) /\ forall s', f j s = Ok s' -> P (j + 1)%Z s') ->
  for_ lo hi g t = res_map L (for_ lo hi f s).
Proof. intros -> Hs H. apply (loop_lift L P); [exact Hs|]. intros. apply H; [lia|assumption]. Qed.
(** A loop which needs no invariant. *)
Lemma for_lift0 {A B} (L : A -> B) lo hi (f : Z -> A -> res A) (g : Z -> B -> res B) s t : t = L s ->
  (forall j s, (lo <= j < hi)%Z -> g j (L s) = res_map L (f j s)) -> for_ lo hi g t = res_map L (for_ lo hi f s).
Proof. intros E H. apply (for_lift L (fun _ _ => True)); [exact E|exact I|]. intros. split; [apply H; assumption|auto]. Qed.

(** ** Arrays *)
Lemma zlen_os l : zlen (os l) = zlen l.
Proof. unfold zlen, os. rewrite map_length. reflexivity. Qed.
Lemma nth_error_os l n : nth_error (os l) n = option_map Some (nth_error l n).
Proof. unfold os. rewrite nth_error_map. reflexivity. Qed.
Lemma rd_os l i : rd (os l) i = res_map Some (rd l i).
Proof. unfold rd. rewrite nth_error_os, zlen_os. destruct ((0 <=? i)%Z && (i <? zlen l)%Z); [|reflexivity]. destruct (nth_error l (Z.to_nat i)); reflexivity. Qed.
Lemma upd_os l : forall n v, upd (os l) n (Some v) = os (upd l n v).
Proof. induction l as [|x l IH]; intros [|n] v; cbn; try reflexivity. f_equal. apply IH. Qed.
Lemma wr_os l i v : wr (os l) i (Some v) = res_map os (wr l i v).
Proof. unfold wr. rewrite zlen_os. destruct ((0 <=? i)%Z && (i <? zlen l)%Z); cbn [res_map]; [rewrite upd_os|]; reflexivity. Qed.
Lemma repeat_os n : repeat (nZ ONum 0) n = os (repeat (nZ RNum 0) n).
Proof. induction n; cbn; [reflexivity|]. f_equal. exact IHn. Qed.
Lemma skipn_os n l : skipn n (os l) = os (skipn n l).
Proof. revert l. induction n; intros [|x l]; cbn; try reflexivity. apply IHn. Qed.

(** ** Powers and kernels *)
Lemma power_loop_O e : forall b r, power_loop (N := ONum) (Some b) (Some r) e = Some (power_loop (N := RNum) b r e).
Proof. induction e; intros b r; cbn [power_loop]; on; try apply IHe; reflexivity. Qed.
Lemma power_O x e : power (N := ONum) (Some x) e = Some (power (N := RNum) x e).
Proof. destruct e; [reflexivity|apply power_loop_O|reflexivity]. Qed.
Lemma powers_O x tab n : powers (N := ONum) (Some x) (os tab) n = res_map os (powers (N := RNum) x tab n).
Proof.
  unfold powers. apply (bind_lift os); [on; apply wr_os|]. intros t1 _. apply (bind_lift os); [apply wr_os|]. intros t2 _.
  apply for_lift0; [reflexivity|]. intros j s _. apply (bind_lift Some); [apply rd_os|]. intros t _. on. apply wr_os.
Qed.
Lemma F2_sym_fast_O a p2 q2 pq : p2 <> 0 -> q2 <> 0 ->
  F2_sym_fast (N := ONum) a (Some p2) (Some q2) (Some pq) = Some (F2_sym_fast (N := RNum) a p2 q2 pq).
Proof. intros H1 H2. unfold F2_sym_fast. destruct a; ovn; reflexivity. Qed.
Lemma F2_sym_O a p q mu : p <> 0 -> q <> 0 -> F2_sym (N := ONum) a (Some p) (Some q) (Some mu) = Some (F2_sym (N := RNum) a p q mu).
Proof. intros H1 H2. unfold F2_sym. destruct a; ovn; reflexivity. Qed.
Lemma S2_O mu : S2 (N := ONum) (Some mu) = Some (S2 (N := RNum) mu).
Proof. unfold S2. ovn. reflexivity. Qed.
Lemma D2_O mu : D2 (N := ONum) (Some mu) = Some (D2 (N := RNum) mu).
Proof. unfold D2. rewrite S2_O. ovn. reflexivity. Qed.
Lemma LFunc_O k q : 0 < k -> 0 < q -> k <> q -> LFunc (N := ONum) (Some k) (Some q) = Some (LFunc (N := RNum) k q).
Proof.
  intros H1 H2 H3. unfold LFunc. ovn; [reflexivity|].
  apply Rabs_pos_lt. apply Rmult_integral_contrapositive. split; [lra|]. apply Rinv_neq_0_compat. lra.
Qed.
(** WFunc with y = sqrt(radical): aa - bb = -2 (y + a)^2 and aa + bb = -2 (y - a)^2. *)
Lemma WFunc_O k1 k2 k3 q : 0 < k1 -> 0 < k2 -> 0 < k3 -> 0 < q -> k1 <> q -> k2 <> q ->
  0 <= (k1 * k1 - q * q) * (k2 * k2 - q * q) + k3 * q * (k3 * q) ->
  WFunc (N := ONum) (Some k1) (Some k2) (Some k3) (Some q) = Some (WFunc (N := RNum) k1 k2 k3 q).
Proof.
  intros P1 P2 P3 P4 N1 N2 Hr. unfold WFunc. cbv zeta. on.
  set (r := k1 * k1 * (k2 * k2) + (- (k1 * k1) - k2 * k2 + k3 * k3) * (q * q) + q * q * (q * q)).
  assert (Er : r = (k1 * k1 - q * q) * (k2 * k2 - q * q) + k3 * q * (k3 * q)) by (unfold r; ring).
  assert (Hr' : 0 <= r) by (rewrite Er; exact Hr). pose proof (sqrt_sqrt r Hr') as Hs. pose proof (sqrt_pos r) as Hp.
  ovn; try (fold r; try exact Hr'); fold r; set (y := sqrt r) in *.
  - reflexivity.
  - set (A := - (4) * (k3 * k3) * (q * q) - 2 * (k1 * k1 - q * q) * (k2 * k2 - q * q)). set (B := 4 * k3 * q * y).
    assert (EA : A = - 2 * (y * y) - 2 * (k3 * q * (k3 * q))) by (unfold A; rewrite Hs, Er; ring).
    assert (E1 : A - B = - 2 * ((y + k3 * q) * (y + k3 * q))) by (rewrite EA; unfold B; ring).
    assert (E2 : A + B = - 2 * ((y - k3 * q) * (y - k3 * q))) by (rewrite EA; unfold B; ring).
    assert (Hy : y - k3 * q <> 0).
    { intros E. assert (Ey : y = k3 * q) by lra. rewrite Ey, Er in Hs.
      assert (Z : (k1 * k1 - q * q) * (k2 * k2 - q * q) = 0) by lra. apply Rmult_integral in Z.
      destruct Z as [Z|Z]; [apply N1|apply N2]; nra. }
    assert (Ha : 0 < k3 * q) by (apply Rmult_lt_0_compat; assumption).
    rewrite E1, E2. replace (- 2 * ((y + k3 * q) * (y + k3 * q)) / (- 2 * ((y - k3 * q) * (y - k3 * q)))) with
      (((y + k3 * q) / (y - k3 * q)) * ((y + k3 * q) / (y - k3 * q))) by (field; exact Hy).
    apply Rlt_0_sqr. apply Rmult_integral_contrapositive. split; [lra|]. apply Rinv_neq_0_compat, Hy.
  - set (A := - (4) * (k3 * k3) * (q * q) - 2 * (k1 * k1 - q * q) * (k2 * k2 - q * q)).
    assert (EA : A = - 2 * (y * y) - 2 * (k3 * q * (k3 * q))) by (unfold A; rewrite Hs, Er; ring).
    assert (E2 : A + 4 * k3 * q * y = - 2 * ((y - k3 * q) * (y - k3 * q))) by (rewrite EA; ring).
    rewrite E2. intros Z. assert (Z2 : (y - k3 * q) * (y - k3 * q) = 0) by lra. apply Rmult_integral in Z2.
    assert (Ey : y = k3 * q) by (destruct Z2; lra). rewrite Ey, Er in Hs.
    assert (Z3 : (k1 * k1 - q * q) * (k2 * k2 - q * q) = 0) by lra. apply Rmult_integral in Z3.
    destruct Z3 as [Z3|Z3]; [apply N1|apply N2]; nra.
Qed.
Lemma betafunc_O a z : (0 < a)%Z -> z < 1 -> betafunc (N := ONum) a (Some z) = Some (betafunc (N := RNum) a z).
Proof.
  intros Ha Hz. apply IZR_lt in Ha. unfold betafunc. cbv zeta. on. lits.
  destruct (Rleb_spec z (1 / 10)) as [H|H].
  - rewrite power_O. ov ltac:(lra). reflexivity.
  - assert (z <> 0) by lra.
    assert (z * z <> 0) by (apply Rmult_integral_contrapositive; split; assumption).
    assert (z * z * z <> 0) by (apply Rmult_integral_contrapositive; split; assumption).
    assert (z * z * z * z <> 0) by (apply Rmult_integral_contrapositive; split; assumption).
    assert (z * z * z * z * z <> 0) by (apply Rmult_integral_contrapositive; split; assumption).
    assert (z * z * z * z * z * z <> 0) by (apply Rmult_integral_contrapositive; split; assumption).
    destruct (a =? 2)%Z; [ovn; reflexivity|]. destruct (a =? 4)%Z.
    + ov ltac:(first [nz|apply Rmult_integral_contrapositive; split; nz]). reflexivity.
    + destruct (a =? 6)%Z; [|reflexivity]. ov ltac:(first [nz|apply Rmult_integral_contrapositive; split; nz]). reflexivity.
Qed.
Lemma small_beta_O k q : 0 < k -> 0 < q -> small_beta (N := ONum) (Some k) (Some q) = Some (small_beta (N := RNum) k q).
Proof.
  intros H1 H2. unfold small_beta. cbv zeta. ovn. lits. set (y := (k - q) / (k + q)).
  destruct (Rleb_spec (Rabs y) (1 / 1000000)) as [H|H]; [reflexivity|].
  rewrite betafunc_O; [reflexivity|lia|]. assert (y <> 0) by (intros E; rewrite E, Rabs_R0 in H; lra).
  pose proof (Rlt_0_sqr y H0). unfold Rsqr in *. lra.
Qed.
Lemma big_beta_O k1 k2 k3 q : 0 < k3 -> 0 < q -> 0 < (k1 * k1 - q * q) * (k2 * k2 - q * q) + k3 * q * (k3 * q) ->
  big_beta (N := ONum) (Some k1) (Some k2) (Some k3) (Some q) = Some (big_beta (N := RNum) k1 k2 k3 q).
Proof.
  intros H1 H2 Hr. unfold big_beta. cbv zeta. pose proof (Rmult_lt_0_compat _ _ H1 H2) as Ha.
  on. rewrite osqrt_some by lra. rewrite (odiv_some (sqrt _)) by lra. on. lits. set (a := k3 * q) in *. set (x := (k1 * k1 - q * q) * (k2 * k2 - q * q)) in *.
  set (y := sqrt (x + a * a) / a). pose proof (sqrt_lt_R0 _ Hr) as Hs.
  assert (Hy : 0 < y) by (apply Rdiv_lt_0_compat; assumption).
  set (y1 := Rabs (y - 1)). pose proof (Rabs_pos (y - 1)) as Hy1. fold y1 in Hy1.
  destruct (Rleb_spec y1 (1 / 100000)) as [|N1]; [reflexivity|]. destruct (Rleb_spec y1 (1 / 100)) as [|N2].
  - ov ltac:(lra). reflexivity.
  - assert (Hay : 0 < a * y) by (apply Rmult_lt_0_compat; assumption). ov ltac:(lra). rewrite betafunc_O.
    + ov ltac:(lra). reflexivity.
    + lia.
    + assert (0 < y1 * y1 / (1 + y) / (1 + y)); [|lra].
      apply Rdiv_lt_0_compat; [|lra]. apply Rdiv_lt_0_compat; [|lra]. apply Rmult_lt_0_compat; lra.
Qed.
Lemma sigmaab_O a b : sigmaab (N := ONum) 3 a b = Some (sigmaab (N := RNum) 3 a b).
Proof. unfold sigmaab. cbv zeta. on. destruct ((a =? 1)%Z && (b =? 1)%Z); [|destruct ((a =? 1)%Z && (b =? 2)%Z); [|destruct ((a =? 2)%Z && (b =? 1)%Z); [|destruct ((a =? 2)%Z && (b =? 2)%Z)]]]; ov ltac:(lra); reflexivity. Qed.
(** ** src/gamma1_1loop.c and src/gamma1_2loop.c *)
Lemma kernel_ff_O x : 0 < x -> kernel_ff (N := ONum) (Some x) = Some (kernel_ff (N := RNum) x).
Proof.
  intros H. unfold kernel_ff. cbv zeta. on. lits.
  assert (Hx2 : 0 < x * x) by (apply Rmult_lt_0_compat; exact H).
  destruct (Rltb_spec (Rabs (x - 1)) (1 / 100)) as [|N1]; [ovn; reflexivity|].
  destruct (Rltb_spec 10 x); [ov ltac:(lra); reflexivity|].
  assert (x - 1 <> 0) by (intros E; rewrite E, Rabs_R0 in N1; lra).
  assert (HL : 0 < Rabs ((x - 1) / (1 + x))).
  { apply Rabs_pos_lt, Rmult_integral_contrapositive. split; [assumption|]. apply Rinv_neq_0_compat. lra. }
  ov ltac:(first [exact HL|lra]). rewrite power_O. ov ltac:(first [exact HL|lra]). reflexivity.
Qed.
Lemma kernel_gg_O x : 0 < x -> kernel_gg (N := ONum) (Some x) = Some (kernel_gg (N := RNum) x).
Proof.
  intros H. unfold kernel_gg. cbv zeta. on. lits.
  assert (Hx2 : 0 < x * x) by (apply Rmult_lt_0_compat; exact H).
  destruct (Rltb_spec (Rabs (x - 1)) (1 / 100)) as [|N1]; [ovn; reflexivity|].
  destruct (Rltb_spec 10 x); [ov ltac:(lra); reflexivity|].
  assert (x - 1 <> 0) by (intros E; rewrite E, Rabs_R0 in N1; lra).
  assert (HL : 0 < Rabs ((x - 1) / (1 + x))).
  { apply Rabs_pos_lt, Rmult_integral_contrapositive. split; [assumption|]. apply Rinv_neq_0_compat. lra. }
  ov ltac:(first [exact HL|lra]). rewrite power_O. ov ltac:(first [exact HL|lra]). reflexivity.
Qed.
Lemma beta_O a q1 q2 : 0 < q1 -> 0 < q2 -> beta (N := ONum) a (Some q1) (Some q2) = Some (beta (N := RNum) a q1 q2).
Proof.
  intros H1 H2. unfold beta. cbv zeta. on. rewrite (odiv_some (q1 - q2)) by lra. on. lits. set (y := Rabs ((q1 - q2) / (q1 + q2))).
  pose proof (Rabs_pos ((q1 - q2) / (q1 + q2))) as Hy. fold y in Hy.
  destruct a; (destruct (Rltb_spec (Rabs (1 - y)) (5 / 100)) as [|N1]; [ovn; reflexivity|]);
    (destruct (Rltb_spec y (1 / 100)) as [|N2]; [ovn; reflexivity|]);
    rewrite power_O; on; rewrite olog_some by lra; on; (rewrite odiv_some; [reflexivity|]);
    (apply Rmult_integral_contrapositive; split; [lra|]); rewrite power_R by lia; apply pow_nonzero; intros E;
    assert (Ey : y = 1) by nra; rewrite Ey in N1; rewrite Rminus_diag_eq in N1 by reflexivity; rewrite Rabs_R0 in N1; lra.
Qed.
Lemma cc_O a qs : 0 <= qs -> cc (N := ONum) a (Some qs) = Some (cc (N := RNum) a qs).
Proof.
  intros H. assert (H2 : 0 <= qs * qs) by (apply Rmult_le_pos; assumption).
  assert (H3 : 0 <= qs * (qs * qs)) by (apply Rmult_le_pos; assumption).
  assert (H4 : 0 <= qs * (qs * (qs * qs))) by (apply Rmult_le_pos; assumption).
  assert (H6 : 0 <= qs * qs * (qs * (qs * (qs * qs)))) by (apply Rmult_le_pos; assumption).
  assert (H8 : 0 <= qs * (qs * (qs * qs)) * (qs * (qs * (qs * qs)))) by (apply Rmult_le_pos; assumption).
  unfold cc. cbv zeta. on. lits. destruct a; ov ltac:(lra); reflexivity.
Qed.
Lemma dd_O a qr : 0 <= qr -> dd (N := ONum) a (Some qr) = Some (dd (N := RNum) a qr).
Proof.
  intros H. assert (H2 : 0 <= qr * qr) by (apply Rmult_le_pos; assumption).
  assert (H4 : 0 <= qr * qr * (qr * qr)) by (apply Rmult_le_pos; assumption).
  assert (H10 : 0 <= qr * qr * (qr * qr * (qr * qr)) * (qr * qr * (qr * qr))) by (apply Rmult_le_pos; [apply Rmult_le_pos|]; assumption).
  assert (H5 : 0 <= qr * (qr * qr) * (qr * qr)) by (repeat apply Rmult_le_pos; assumption).
  unfold dd. cbv zeta. on. lits. destruct a; ov ltac:(lra); reflexivity.
Qed.
Lemma delta_O a qs : 0 <= qs -> delta (N := ONum) a (Some qs) = Some (delta (N := RNum) a qs).
Proof.
  intros H. unfold delta. cbv zeta. on. rewrite osqrt_some by lra. on. set (t := qs * sqrt 2).
  assert (Ht : 0 <= t) by (apply Rmult_le_pos; [assumption|apply sqrt_pos]).
  assert (H2 : 0 <= t * t) by (apply Rmult_le_pos; assumption).
  assert (H4 : 0 <= t * t * (t * t)) by (apply Rmult_le_pos; assumption).
  lits. destruct a; ov ltac:(lra); reflexivity.
Qed.
Lemma alpha_O a q1 q2 : 0 < q1 -> 0 < q2 -> alpha (N := ONum) a (Some q1) (Some q2) = Some (alpha (N := RNum) a q1 q2).
Proof.
  intros H1 H2. unfold alpha. cbv zeta. on.
  pose proof (Rmult_lt_0_compat _ _ H1 H1). pose proof (Rmult_lt_0_compat _ _ H2 H2). pose proof (Rmult_lt_0_compat _ _ H1 H2).
  pose proof (sqrt_lt_R0 (q1 * q1 + q2 * q2) ltac:(lra)) as Hs. ov ltac:(lra).
  assert (0 < q1 * q2 / sqrt (q1 * q1 + q2 * q2)) by (apply Rdiv_lt_0_compat; assumption).
  rewrite beta_O, cc_O, dd_O, delta_O by lra. reflexivity.
Qed.
Lemma integ_gamma1_2loop_O a k q1 q2 : 0 < k -> 0 < q1 -> 0 < q2 ->
  integ_gamma1_2loop (N := ONum) a (Some k) (Some q1) (Some q2) = Some (integ_gamma1_2loop (N := RNum) a k q1 q2).
Proof.
  intros H H1 H2. unfold integ_gamma1_2loop. cbv zeta. on. rewrite (odiv_some q1), (odiv_some q2) by lra.
  assert (P1 : 0 < q1 / k) by (apply Rdiv_lt_0_compat; assumption). assert (P2 : 0 < q2 / k) by (apply Rdiv_lt_0_compat; assumption).
  rewrite alpha_O by assumption. pose proof (Rmult_lt_0_compat _ _ P1 P1). pose proof (Rmult_lt_0_compat _ _ P2 P2).
  ov ltac:(lra). reflexivity.
Qed.
