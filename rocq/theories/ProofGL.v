(** ProofGL: nodes_weights_gauss_legendre, init/update of the quadrature tables. *)
From Coq Require Import Reals Lra.
From Verif Require Import Base Num BaseFacts Common.
Local Open Scope Z_scope.

(** ** Structure, for every Num *)
Section Struct.
Context {N : Num}.
Local Notation T := (T N).
Local Open Scope num_scope.

(** The (z, pp) pairs left by the Newton loops ii, ii+1, ..., which do not depend on the
    interval. *)
Fixpoint gl_list (fuel : nat) (n : Z) (m : nat) (ii : Z) (pp : T) : res (list (T * T)) :=
  match m with
  | O => Ok []
  | S m' =>
    let z := ncos (npi * (#ii + 75 //10^ 2) / (#n + 5 //10^ 1)) in
    let z1 := z + EPS + #1 in
    '(z, pp) <- newton fuel n z z1 pp ;;
    r <- gl_list fuel n m' (ii + 1)%Z pp ;;
    Ok ((z, pp) :: r)
  end.
Definition gl_wt (xl : T) (zp : T * T) : T := #2 * xl / ((#1 - fst zp * fst zp) * snd zp * snd zp).

Definition gl_body fuel (n : Z) (xmid xl : T) (ii : Z) (s : list T * list T * T) : res (list T * list T * T) :=
    let '(x, w, pp) := s in
    let z := ncos (npi * (#ii + 75 //10^ 2) / (#n + 5 //10^ 1)) in
    let z1 := z + EPS + #1 in
    '(z, pp) <- newton fuel n z z1 pp ;;
    x <- wr x ii (xmid - xl * z) ;;
    x <- wr x (u64 (n - ii - 1)) (xmid + xl * z) ;;
    w <- wr w ii (#2 * xl / ((#1 - z * z) * pp * pp)) ;;
    wi <- rd w ii ;;
    w <- wr w (u64 (n - ii - 1)) wi ;;
    Ok (x, w, pp).

Lemma gl_body_eq fuel n xmid xl ii x w pp : gl_body fuel n xmid xl ii (x, w, pp) =
    ('(z, pp) <- newton fuel n (ncos (npi * (#ii + 75 //10^ 2) / (#n + 5 //10^ 1)))
       (ncos (npi * (#ii + 75 //10^ 2) / (#n + 5 //10^ 1)) + EPS + #1) pp ;;
    x <- wr x ii (xmid - xl * z) ;;
    x <- wr x (u64 (n - ii - 1)) (xmid + xl * z) ;;
    w <- wr w ii (#2 * xl / ((#1 - z * z) * pp * pp)) ;;
    wi <- rd w ii ;;
    w <- wr w (u64 (n - ii - 1)) wi ;;
    Ok (x, w, pp)).
Proof. reflexivity. Qed.
Lemma gl_loop_struct fuel n xmid xl d : 1 <= n < 2 ^ 62 ->
  forall m ii (x w : list T) pp, 0 <= ii -> (ii + Z.of_nat m = (n + 1) / 2)%Z -> zlen x = n -> zlen w = n ->
  match gl_list fuel n m ii pp with
  | Err e => for_ ii ((n + 1) / 2) (gl_body fuel n xmid xl) (x, w, pp) = Err e
  | Ok zs => length zs = m /\ exists x' w' pp',
      for_ ii ((n + 1) / 2) (gl_body fuel n xmid xl) (x, w, pp) = Ok (x', w', pp') /\ zlen x' = n /\ zlen w' = n /\
      (forall i, (0 <= i < ii \/ n - 1 - ii < i < n)%Z -> znth d x' i = znth d x i /\ znth d w' i = znth d w i) /\
      (forall i, (ii <= i < (n + 1) / 2)%Z ->
         let zp := znth (d, d) zs (i - ii) in
         znth d w' i = gl_wt xl zp /\ znth d w' (n - 1 - i)%Z = gl_wt xl zp /\
         znth d x' (n - 1 - i)%Z = xmid + xl * fst zp /\ ((i < n - 1 - i)%Z -> znth d x' i = xmid - xl * fst zp))
  end.
Proof.
  intros Hn. assert (Hmid : (2 * ((n + 1) / 2) <= n + 1)%Z) by (apply Z.mul_div_le; lia).
  induction m as [|m IH]; intros ii x w pp Hii Hm Hx Hw.
  - cbn [gl_list]. split; [reflexivity|]. rewrite for_empty by lia. exists x, w, pp. repeat split; auto; intros; lia.
  - cbn [gl_list]. rewrite for_step by lia. rewrite gl_body_eq.
    destruct (newton fuel n _ _ pp) as [[z pp1]|e] eqn:EN; cbn [bind]; [|reflexivity].
    rewrite (u64_small (n - ii - 1)) by (unfold SIZE_T; lia).
    rewrite (wr_ok x ii) by lia. cbn [bind]. rewrite wr_ok by (rewrite zlen_upd; lia). cbn [bind].
    rewrite (wr_ok w ii) by lia. cbn [bind]. rewrite (rd_ok d) by (rewrite zlen_upd; lia). cbn [bind].
    rewrite wr_ok by (rewrite zlen_upd; lia). cbn [bind].
    rewrite (znth_upd d w ii ii) by lia. rewrite Z.eqb_refl.
    set (x1 := upd _ _ (xmid + xl * z)). set (w1 := upd (upd w _ _) _ _).
    assert (Hx1 : zlen x1 = n) by (unfold x1; rewrite !zlen_upd; exact Hx).
    assert (Hw1 : zlen w1 = n) by (unfold w1; rewrite !zlen_upd; exact Hw).
    specialize (IH (ii + 1)%Z x1 w1 pp1 ltac:(lia) ltac:(lia) Hx1 Hw1).
    destruct (gl_list fuel n m (ii + 1) pp1) as [zs|e]; cbn [bind]; [|exact IH].
    destruct IH as [Hlen [x' [w' [pp' [E [Hx' [Hw' [HO HI]]]]]]]]. split; [cbn; lia|].
    exists x', w', pp'. split; [exact E|]. split; [exact Hx'|]. split; [exact Hw'|]. split.
    + intros i Hi. destruct (HO i ltac:(lia)) as [-> ->]. unfold x1, w1.
      rewrite !znth_upd by (rewrite ?zlen_upd; lia).
      destruct (Z.eqb_spec i (n - ii - 1)); [lia|]. destruct (Z.eqb_spec i ii); [lia|]. auto.
    + intros i Hi. set (zp := znth (d, d) ((z, pp1) :: zs) (i - ii)). destruct (Z.eq_dec i ii) as [->|Hne].
      * unfold zp. replace (ii - ii)%Z with 0%Z by ring. change (znth (d, d) ((z, pp1) :: zs) 0) with (z, pp1). cbn [fst].
        assert (HA : znth d x' ii = znth d x1 ii /\ znth d w' ii = znth d w1 ii).
        { apply HO. lia. }
        assert (HB : znth d x' (n - 1 - ii)%Z = znth d x1 (n - 1 - ii)%Z /\ znth d w' (n - 1 - ii)%Z = znth d w1 (n - 1 - ii)%Z).
        { apply HO. lia. }
        destruct HA as [-> ->]. destruct HB as [-> ->]. unfold x1, w1.
        rewrite !znth_upd by (rewrite ?zlen_upd; lia).
        replace (n - 1 - ii)%Z with (n - ii - 1)%Z by ring. rewrite !Z.eqb_refl.
        repeat split; auto.
        -- destruct (ii =? n - ii - 1)%Z; reflexivity.
        -- intros Hlt. destruct (Z.eqb_spec ii (n - ii - 1)); [lia|reflexivity].
      * assert (Ez : zp = znth (d, d) zs (i - (ii + 1))).
        { unfold zp. rewrite znth_cons by lia. f_equal; lia. }
        rewrite Ez. apply HI. lia.
Qed.

(** The whole routine. *)
Lemma nodes_weights_struct fuel xmin xmax (x w : list T) n d :
  1 <= n < 2 ^ 62 -> zlen x = n -> zlen w = n ->
  let xmid := (xmax + xmin) / #2 in
  let xl := (xmax - xmin) / #2 in
  match gl_list fuel n (Z.to_nat ((n + 1) / 2)) 0 #0 with
  | Err e => nodes_weights_gauss_legendre fuel xmin xmax x w n = Err e
  | Ok zs => zlen zs = ((n + 1) / 2)%Z /\ exists x' w',
      nodes_weights_gauss_legendre fuel xmin xmax x w n = Ok (x', w') /\ zlen x' = n /\ zlen w' = n /\
      (forall i, (0 <= i < (n + 1) / 2)%Z ->
         let zp := znth (d, d) zs i in
         znth d w' i = gl_wt xl zp /\ znth d w' (n - 1 - i)%Z = gl_wt xl zp /\
         znth d x' (n - 1 - i)%Z = xmid + xl * fst zp /\ ((i < n - 1 - i)%Z -> znth d x' i = xmid - xl * fst zp))
  end.
Proof.
  intros Hn Hx Hw xmid xl.
  assert (Hmid : (0 <= (n + 1) / 2)%Z) by (apply Z.div_pos; lia).
  pose proof (gl_loop_struct fuel n xmid xl d Hn (Z.to_nat ((n + 1) / 2)) 0 x w #0 ltac:(lia) ltac:(lia) Hx Hw) as H.
  unfold nodes_weights_gauss_legendre. rewrite (u64_small (n + 1)) by (unfold SIZE_T; lia).
  fold xmid. fold xl. change (for_ 0 ((n + 1) / 2) _ _) with (for_ 0 ((n + 1) / 2) (gl_body fuel n xmid xl) (x, w, #0)).
  destruct (gl_list _ _ _ _ _) as [zs|e].
  - destruct H as [Hl [x' [w' [pp' [E [Hx' [Hw' [_ HI]]]]]]]]. split; [unfold zlen; lia|].
    exists x', w'. rewrite E. cbn [bind]. split; [reflexivity|]. split; [exact Hx'|]. split; [exact Hw'|].
    intros i Hi. specialize (HI i Hi). replace (i - 0)%Z with i in HI by ring. exact HI.
  - rewrite H. reflexivity.
Qed.

(** Running out of fuel is the only way to fail. *)
Lemma newton_err fuel n : forall (z z1 pp : T) e, newton fuel n z z1 pp = Err e -> e = NoFuel.
Proof.
  induction fuel as [|f IH]; intros z z1 pp e; cbn [newton]; [congruence|].
  destruct (EPS <? nabs (z - z1)); [|congruence]. destruct (legendre_loop _ _ _ _ _); apply IH.
Qed.
Lemma gl_list_err fuel n m : forall ii (pp : T) e, gl_list fuel n m ii pp = Err e -> e = NoFuel.
Proof.
  induction m as [|m IH]; intros ii pp e; cbn [gl_list]; [congruence|].
  destruct (newton _ _ _ _ _) as [[z pp1]|u] eqn:E; cbn [bind].
  - destruct (gl_list fuel n m (ii + 1) pp1) eqn:E2; cbn [bind]; [congruence|]. intros [= <-]. apply (IH _ _ _ E2).
  - intros [= <-]. apply (newton_err _ _ _ _ _ _ E).
Qed.

(** The last Newton step. *)
Definition leg (n : Z) (y : T) : T * T := legendre_loop (Z.to_nat n) 0 y #1 #0.
Definition leg_pp (n : Z) (y : T) : T := gl_pp n y (fst (leg n y)) (snd (leg n y)).
Lemma newton_last fuel n : forall (z z1 pp0 z' pp' : T), newton fuel n z z1 pp0 = Ok (z', pp') ->
  (EPS <? nabs (z - z1)) = true ->
  exists y, pp' = leg_pp n y /\ z' = y - fst (leg n y) / pp' /\ (EPS <? nabs (z' - y)) = false.
Proof.
  induction fuel as [|f IH]; intros z z1 pp0 z' pp'; cbn [newton]; [discriminate|].
  intros H Hc. rewrite Hc in H.
  fold (leg n z) in H. destruct (leg n z) as [p1 p2] eqn:El.
  destruct f as [|f]; [discriminate|].
  destruct (EPS <? nabs (z - p1 / gl_pp n z p1 p2 - z)) eqn:Ec.
  - apply (IH _ _ _ _ _ H Ec).
  - cbn [newton] in H. rewrite Ec in H. injection H as <- <-. exists z.
    unfold leg_pp. rewrite El. cbn [fst snd]. auto.
Qed.
End Struct.

(** ** Reals *)
From Coquelicot Require Import Coquelicot.
From Verif Require Import Spec SpecQuad Poly Legendre LegendreRoots LegendreSpec.
Import ListNotations.
Local Open Scope R_scope.

Lemma legendre_loop_R (z : R) m : forall j, 
  legendre_loop (N := RNum) m (Z.of_nat (S j)) z (L (S j) z) (L j z) = (L (S j + m) z, L (j + m) z).
Proof.
  induction m as [|m IH]; intros j; cbn [legendre_loop]; rn.
  - rewrite !Nat.add_0_r. reflexivity.
  - replace (Z.of_nat (S j) + 1)%Z with (Z.of_nat (S (S j))) by lia.
    replace ((((2 * IZR (Z.of_nat (S j)) + 1) * z * L (S j) z) - IZR (Z.of_nat (S j)) * L j z) / (IZR (Z.of_nat (S j)) + 1))
      with (L (S (S j)) z) by (rewrite L_SS, INR_IZR_INZ; reflexivity).
    rewrite IH. f_equal; f_equal; lia.
Qed.
Lemma leg_R (n : Z) (z : R) : (1 <= n)%Z -> leg (N := RNum) n z = (L (Z.to_nat n) z, L (Z.to_nat n - 1) z).
Proof.
  intros Hn. unfold leg. destruct (Z.to_nat n) as [|m] eqn:E; [lia|]. cbn [legendre_loop]. rn.
  replace ((((2 * 0 + 1) * z * 1) - 0 * 0) / (0 + 1)) with (L 1 z) by (rewrite L_1; field).
  change 1 with (L 0 z). change (0 + 1)%Z with (Z.of_nat 1). rewrite legendre_loop_R.
  f_equal; f_equal; lia.
Qed.
Lemma leg_pp_R (n : Z) (z : R) : (1 <= n)%Z -> z * z <> 1 -> leg_pp (N := RNum) n z = DL (Z.to_nat n) z.
Proof.
  intros Hn Hz. unfold leg_pp. rewrite leg_R by exact Hn. cbn [fst snd]. unfold gl_pp. rn.
  destruct (Z.to_nat n) as [|m] eqn:E; [lia|]. rewrite Nat.sub_succ, Nat.sub_0_r.
  replace (IZR n) with (INR (S m)) by (rewrite INR_IZR_INZ; f_equal; lia).
  rewrite <- leg_slope. field. lra.
Qed.

Definition epsR : R := 3 / 10 ^ 14.
Lemma EPS_R : EPS (N := RNum) = epsR.
Proof. unfold EPS, epsR. rn. f_equal. rewrite pow_IZR. reflexivity. Qed.
Lemma epsR_pos : 0 < epsR.
Proof. unfold epsR. apply Rdiv_lt_0_compat; [lra|]. apply pow_lt; lra. Qed.

(** The run of a Newton loop from [z] never divides by zero: no iterate is +1 or -1 (line 295
    divides by z*z-1) and no slope vanishes (line 297 divides by pp). *)
Fixpoint newton_regular (fuel : nat) (n : Z) (z z1 : R) : Prop :=
  match fuel with
  | O => True
  | S f =>
    if Rlt_dec epsR (Rabs (z - z1)) then
      z * z <> 1 /\ leg_pp (N := RNum) n z <> 0 /\
      newton_regular f n (z - fst (leg (N := RNum) n z) / leg_pp (N := RNum) n z) z
    else True
  end.
(** The same for all the Newton loops of nodes_weights_gauss_legendre. *)
Definition gl_regular (fuel : nat) (n : Z) : Prop :=
  forall ii, (0 <= ii < (n + 1) / 2)%Z ->
  let z0 := cos (PI * (IZR ii + 75 / 100) / (IZR n + 5 / 10)) in newton_regular fuel n z0 (z0 + epsR + 1).

(** What one node tells about the Legendre roots. *)
Definition node_near (n : nat) (z slope : R) : Prop :=
  exists y, Rabs (z - y) <= epsR /\ slope = leg_pp (N := RNum) (Z.of_nat n) y /\
    z = y - L n y / slope /\ y * y <> 1 /\ slope <> 0.

Lemma newton_last_R fuel n : forall (z z1 pp0 z' pp' : R), newton (N := RNum) fuel n z z1 pp0 = Ok (z', pp') ->
  newton_regular fuel n z z1 -> epsR < Rabs (z - z1) ->
  exists y, pp' = leg_pp (N := RNum) n y /\ z' = y - fst (leg (N := RNum) n y) / pp' /\ Rabs (z' - y) <= epsR /\
    y * y <> 1 /\ pp' <> 0.
Proof.
  induction fuel as [|f IH]; intros z z1 pp0 z' pp'; cbn [newton newton_regular]; [discriminate|].
  rewrite EPS_R. rn. intros H HR Hc.
  destruct (Rlt_dec epsR (Rabs (z - z1))) as [_|]; [|contradiction]. destruct HR as [HR1 [HR2 HR3]].
  assert (Rltb epsR (Rabs (z - z1)) = true) as HT by (apply Rltb_true; exact Hc). rewrite HT in H.
  change (legendre_loop (N := RNum) (Z.to_nat n) 0 z 1 0) with (leg (N := RNum) n z) in H.
  assert (Ep : leg_pp (N := RNum) n z = gl_pp (N := RNum) n z (fst (leg (N := RNum) n z)) (snd (leg (N := RNum) n z))) by reflexivity.
  destruct (leg (N := RNum) n z) as [p1 p2] eqn:El. cbn [fst snd] in *. rewrite <- Ep in H.
  destruct (Rlt_le_dec epsR (Rabs (z - p1 / leg_pp (N := RNum) n z - z))) as [Hlt|Hge].
  - apply (IH _ _ _ _ _ H HR3 Hlt).
  - destruct f as [|f]; [discriminate|]. cbn [newton] in H. rewrite EPS_R in H. rn_in H.
    assert (Rltb epsR (Rabs (z - p1 / leg_pp (N := RNum) n z - z)) = false) as HF by (apply Rltb_false; exact Hge).
    rewrite HF in H. injection H as Hz Hpp. exists z. rewrite El. cbn [fst].
    assert (Hpp' : pp' = leg_pp (N := RNum) n z) by (rewrite Ep, <- Hpp, El; unfold gl_pp; rn; reflexivity).
    assert (Hz' : z' = z - p1 / leg_pp (N := RNum) n z) by (rewrite Ep, <- Hz, El; unfold gl_pp; rn; reflexivity).
    rewrite Hz', Hpp'. split; [reflexivity|]. split; [reflexivity|]. split; [exact Hge|]. split; assumption.
Qed.
Lemma newton_R fuel n (z pp0 : R) z' pp' : (1 <= n)%Z ->
  newton (N := RNum) fuel n z (z + epsR + 1) pp0 = Ok (z', pp') ->
  newton_regular fuel n z (z + epsR + 1) ->
  node_near (Z.to_nat n) z' pp'.
Proof.
  intros Hn E HR. destruct (newton_last_R fuel n z (z + epsR + 1) pp0 z' pp' E HR) as [y [H1 [H2 [H3 [H4 H5]]]]].
  - pose proof epsR_pos.
    replace (z - (z + epsR + 1)) with (- (epsR + 1)) by ring. rewrite Rabs_Ropp, Rabs_right; lra.
  - exists y. rewrite Z2Nat.id by lia.
    split; [exact H3|]. split; [exact H1|]. split; [|auto]. rewrite leg_R in H2 by exact Hn. exact H2.
Qed.

Lemma gl_list_near fuel n : (1 <= n)%Z -> gl_regular fuel n -> forall m ii pp zs, gl_list (N := RNum) fuel n m ii pp = Ok zs ->
  (0 <= ii)%Z -> (ii + Z.of_nat m <= (n + 1) / 2)%Z ->
  forall i, (0 <= i < zlen zs)%Z -> node_near (Z.to_nat n) (fst (znth (0, 0) zs i)) (snd (znth (0, 0) zs i)).
Proof.
  intros Hn HR. induction m as [|m IH]; intros ii pp zs; cbn [gl_list].
  - intros [= <-] _ _ i Hi. unfold zlen in Hi; cbn in Hi; lia.
  - rewrite EPS_R. destruct (newton _ _ _ _ _) as [[z pp1]|] eqn:E; cbn [bind]; [|discriminate].
    destruct (gl_list fuel n m (ii + 1) pp1) as [r|] eqn:E2; cbn [bind]; [|discriminate].
    intros [= <-] Hii Hm i Hi. destruct (Z.eq_dec i 0) as [->|Hne].
    + cbn. rn_in E. apply (newton_R _ _ _ _ _ _ Hn E). apply (HR ii). lia.
    + rewrite zlen_cons in Hi. rewrite znth_cons by lia. apply (IH _ _ _ E2); lia.
Qed.

(** A node is within (n+1) EPS of an exact root. *)
Lemma near_is_root n z slope : (1 <= n)%nat -> node_near n z slope ->
  exists y, Rabs (z - y) <= epsR /\ z = y - L n y / slope /\
    slope = DL n y /\ slope <> 0 /\ Rabs (L n y) <= epsR * Rabs slope /\
    exists r, -1 < r < 1 /\ L n r = 0 /\ Rabs (z - r) <= (INR n + 1) * epsR.
Proof.
  intros Hn [y [H1 [H2 [H3 [Hy Hs]]]]]. exists y. split; [exact H1|]. split; [exact H3|].
  assert (HS : slope = DL n y).
  { rewrite H2, leg_pp_R by (try lia; exact Hy). rewrite Nat2Z.id. reflexivity. }
  split; [exact HS|]. split; [exact Hs|].
  assert (HB : Rabs (L n y) <= epsR * Rabs slope).
  { replace (L n y) with (slope * (y - z)).
    - rewrite Rabs_mult, Rmult_comm. apply Rmult_le_compat_r; [apply Rabs_pos|]. rewrite Rabs_minus_sym. exact H1.
    - rewrite H3. field. exact Hs. }
  split; [exact HB|].
  destruct (near_root n y epsR Hn) as [r [Hr1 [Hr2 Hr3]]].
  - pose proof epsR_pos; lra.
  - rewrite <- HS; assumption.
  - rewrite <- HS by assumption. exact HB.
  - exists r. split; [exact Hr1|]. split; [exact Hr2|].
    replace (z - r) with ((z - y) + (y - r)) by ring. eapply Rle_trans; [apply Rabs_triang|]. lra.
Qed.

(** ** Exactness with exact roots *)
Definition rsum_lsum (zs : list R) (g : R -> R) : rsum (length zs) (fun i => g (at_ zs i)) = lsum zs g.
Proof.
  assert (G : forall f k, rsum k (fun i => f (S i)) + f 0%nat = rsum (S k) f).
  { intros f; induction k as [|k IHk]; cbn [rsum] in *; lra. }
  induction zs as [|z zs IH]; [reflexivity|]. cbn [length lsum].
  rewrite <- G. cbn [at_ nth]. rewrite Rplus_comm. f_equal. rewrite <- IH. reflexivity.
Qed.

(** Composition with an affine map. *)
Lemma polyfun_aff a b : forall p, polyfun (length p) (fun x => peval p (a + b * x)).
Proof.
  induction p as [|c q IH]; [exists []; split; [cbn; lia|reflexivity]|].
  cbn [length peval].
  apply (polyfun_ext _ (fun x => (a * peval q (a + b * x) + b * (x * peval q (a + b * x))) + c)); [intros; ring|].
  apply polyfun_plus; [apply polyfun_plus; apply polyfun_scal|].
  - apply (polyfun_weaken (length q)); [lia|exact IH].
  - apply polyfun_X; exact IH.
  - exists (c :: nil); split; [cbn; lia|]. intros; cbn; ring.
Qed.

Lemma I11_affine (f : poly) xmin xmax :
  is_RInt (peval f) xmin xmax ((xmax - xmin) / 2 * I11 (fun z => peval f ((xmax + xmin) / 2 + (xmax - xmin) / 2 * z))).
Proof.
  set (xm := (xmax + xmin) / 2). set (xl := (xmax - xmin) / 2).
  assert (Hc : ex_RInt (peval f) xmin xmax) by (apply (polyfun_ex_RInt (length f)), polyfun_peval).
  destruct Hc as [v Hv].
  assert (HI : is_RInt (peval f) (xl * -1 + xm) (xl * 1 + xm) v).
  { replace (xl * -1 + xm) with xmin by (unfold xl, xm; field). replace (xl * 1 + xm) with xmax by (unfold xl, xm; field). exact Hv. }
  pose proof (is_RInt_comp_lin (peval f) xl xm (-1) 1 v HI) as HJ.
  assert (HK : RInt (fun z => scal xl (peval f (xl * z + xm))) (-1) 1 = v) by (apply is_RInt_unique; exact HJ).
  replace (xl * I11 (fun z => peval f (xm + xl * z))) with v; [exact Hv|].
  rewrite <- HK. symmetry. rewrite <- (I11_scal (length f)) by apply polyfun_aff.
  apply I11_ext. intros x. unfold scal; cbn; unfold mult; cbn. rewrite (Rplus_comm xm). reflexivity.
Qed.

(** The code's weight at an exact root. *)
Definition gl_weight (n : Z) (xmin xmax z : R) : R :=
  gl_wt (N := RNum) ((xmax - xmin) / 2) (z, leg_pp (N := RNum) n z).

Lemma at_map (g : R -> R) zs i : (i < length zs)%nat -> at_ (map g zs) i = g (at_ zs i).
Proof.
  intros Hi. unfold at_. rewrite (nth_indep (map g zs) 0 (g 0)) by (rewrite map_length; exact Hi). apply map_nth.
Qed.
Lemma gauss_code (n : nat) (zs : list R) (xmin xmax : R) (f : poly) :
  (1 <= n)%nat -> NoDup zs -> length zs = n -> (forall z, In z zs -> -1 < z < 1 /\ L n z = 0) -> (length f <= 2 * n)%nat ->
  is_RInt (peval f) xmin xmax
    (quad (map (fun z => (xmax + xmin) / 2 + (xmax - xmin) / 2 * z) zs)
          (map (gl_weight (Z.of_nat n) xmin xmax) zs) (peval f)).
Proof.
  intros Hn Hnd Hlen Hr Hf.
  set (xm := (xmax + xmin) / 2). set (xl := (xmax - xmin) / 2).
  destruct (polyfun_aff xm xl f) as [g [Hg1 Hg2]].
  pose proof (I11_affine f xmin xmax) as HI. fold xm xl in HI.
  match goal with |- is_RInt _ _ _ ?v => replace v with (xl * I11 (fun z => peval f (xm + xl * z))); [exact HI|] end.
  rewrite (I11_ext _ (peval g)) by exact Hg2.
  destruct n as [|n]; [lia|].
  rewrite (gauss_exact n zs g Hnd Hlen); [|intros z Hz; apply Hr; exact Hz|lia].
  unfold quad. rewrite map_length.
  rewrite <- (rsum_lsum zs).
  assert (HS : forall k u v (c : R), (forall i, (i < k)%nat -> c * u i = v i) -> c * rsum k u = rsum k v).
  { induction k as [|k IHk]; intros u v c Huv; cbn [rsum]; [ring|].
    rewrite Rmult_plus_distr_l, (IHk u v), Huv; auto. }
  apply HS. intros i Hi.
  assert (Hin : In (at_ zs i) zs) by (apply nth_In; exact Hi).
  replace (at_ (map (fun z => xm + xl * z) zs) i) with (xm + xl * at_ zs i).
  2:{ rewrite (at_map (fun z => xm + xl * z)) by exact Hi. reflexivity. }
  replace (at_ (map (gl_weight (Z.of_nat (S n)) xmin xmax) zs) i) with (gl_weight (Z.of_nat (S n)) xmin xmax (at_ zs i)).
  2:{ rewrite (at_map (gl_weight (Z.of_nat (S n)) xmin xmax)) by exact Hi. reflexivity. }
  rewrite <- Hg2. unfold gl_weight, gl_wt. cbn [fst snd]. rn. fold xl.
  set (z := at_ zs i) in *. destruct (Hr z Hin) as [Hz1 Hz2].
  assert (Hzz : z * z <> 1) by nra.
  rewrite leg_pp_R by (try lia; exact Hzz). rewrite Nat2Z.id.
  pose proof (CD_pos n z) as HC. rewrite CD_root in HC by exact Hz2.
  assert (DL (S n) z <> 0) by (intros E; rewrite E in HC; lra).
  field. split; [assumption|]. lra.
Qed.

(** Started on a root, the Newton loop stays there. *)
Lemma newton_fixed fuel (n : Z) (r z1 pp : R) : (1 <= n)%Z -> -1 < r < 1 -> L (Z.to_nat n) r = 0 ->
  epsR < Rabs (r - z1) ->
  newton (N := RNum) (S (S fuel)) n r z1 pp = Ok (r, leg_pp (N := RNum) n r).
Proof.
  intros Hn Hr H0 Hc. cbn [newton]. rewrite !EPS_R. rn.
  assert (Rltb epsR (Rabs (r - z1)) = true) as -> by (apply Rltb_true; exact Hc).
  change (legendre_loop (N := RNum) (Z.to_nat n) 0 r 1 0) with (leg (N := RNum) n r).
  assert (Ep : leg_pp (N := RNum) n r = gl_pp (N := RNum) n r (fst (leg (N := RNum) n r)) (snd (leg (N := RNum) n r))) by reflexivity.
  destruct (leg (N := RNum) n r) as [p1 p2] eqn:E. cbn [fst snd] in Ep.
  rewrite leg_R in E by exact Hn. injection E as E1 E2. rewrite H0 in E1. rewrite <- Ep.
  assert (Hz : r - p1 / leg_pp (N := RNum) n r = r) by (rewrite <- E1; unfold Rdiv; ring).
  rewrite Hz. replace (r - r) with 0 by ring. rewrite Rabs_R0.
  assert (Rltb epsR 0 = false) as -> by (apply Rltb_false; pose proof epsR_pos; lra). reflexivity.
Qed.

(** ** Affine covariance *)

Lemma gl_cases n i : (1 <= n)%Z -> (0 <= i < n)%Z ->
  ((0 <= i < (n + 1) / 2)%Z /\ (i < n - 1 - i)%Z) \/ (exists j, i = (n - 1 - j)%Z /\ (0 <= j < (n + 1) / 2)%Z).
Proof.
  intros Hn Hi. pose proof (Z.div_mod (n + 1) 2 ltac:(lia)). pose proof (Z.mod_pos_bound (n + 1) 2 ltac:(lia)).
  destruct (Z.lt_ge_cases i (n - 1 - i)); [left; lia|]. right. exists (n - 1 - i)%Z. lia.
Qed.

Lemma gl_affine fuel (xmin xmax : R) (x w x0 w0 : list R) n : (1 <= n < 2 ^ 62)%Z ->
  zlen x = n -> zlen w = n -> zlen x0 = n -> zlen w0 = n ->
  forall x' w', nodes_weights_gauss_legendre (N := RNum) fuel xmin xmax x w n = Ok (x', w') ->
  exists u v, nodes_weights_gauss_legendre (N := RNum) fuel (-1) 1 x0 w0 n = Ok (u, v) /\
    zlen u = n /\ zlen v = n /\
    forall i, (0 <= i < n)%Z ->
      znth 0 x' i = (xmax + xmin) / 2 + (xmax - xmin) / 2 * znth 0 u i /\
      znth 0 w' i = (xmax - xmin) / 2 * znth 0 v i.
Proof.
  intros Hn Hx Hw Hx0 Hw0 x' w' E.
  pose proof (nodes_weights_struct (N := RNum) fuel xmin xmax x w n 0 Hn Hx Hw) as H1.
  pose proof (nodes_weights_struct (N := RNum) fuel (-1) 1 x0 w0 n 0 Hn Hx0 Hw0) as H2.
  cbn zeta in H1, H2. rn_in H1. rn_in H2.
  destruct (gl_list fuel n _ 0 _) as [zs|e]; [|rewrite E in H1; discriminate].
  destruct H1 as [Hzs [x1 [w1 [E1 [Hx1 [Hw1 H1]]]]]]. rn_in E1. rewrite E in E1. injection E1 as <- <-.
  destruct H2 as [_ [u [v [E2 [Hu [Hv H2]]]]]]. rn_in E2.
  exists u, v. split; [exact E2|]. split; [exact Hu|]. split; [exact Hv|].
  intros i Hi. unfold gl_wt in *. rn_in H1. rn_in H2.
  assert (EW : forall z p : R, 2 * ((xmax - xmin) / 2) / ((1 - z * z) * p * p) = (xmax - xmin) / 2 * (2 * ((1 - -1) / 2) / ((1 - z * z) * p * p))).
  { intros z p. unfold Rdiv. generalize (/ ((1 - z * z) * p * p)). intros. field. }
  destruct (gl_cases n i ltac:(lia) Hi) as [[Hm Hlt]|[j [-> Hj]]].
  - destruct (H1 i Hm) as [A1 [_ [_ A2]]]. destruct (H2 i Hm) as [B1 [_ [_ B2]]].
    rewrite (A2 Hlt), (B2 Hlt), A1, B1. split; [field|apply EW].
  - destruct (H1 j Hj) as [_ [A1 [A2 _]]]. destruct (H2 j Hj) as [_ [B1 [B2 _]]].
    rewrite A1, A2, B1, B2. split; [field|apply EW].
Qed.

(** Mirror symmetry; for odd n the middle node is its own mirror only if it is the midpoint, which
    holds up to the accuracy of its root. *)
Lemma gl_mirror {N : Num} fuel (xmin xmax : T N) (x w : list (T N)) n d : (1 <= n < 2 ^ 62)%Z ->
  zlen x = n -> zlen w = n ->
  forall x' w', nodes_weights_gauss_legendre fuel xmin xmax x w n = Ok (x', w') ->
  zlen x' = n /\ zlen w' = n /\
  forall i, (0 <= i < n - 1 - i)%Z -> exists z,
    znth d x' i = nsub N (ndiv N (nadd N xmax xmin) (nZ N 2)) (nmul N (ndiv N (nsub N xmax xmin) (nZ N 2)) z) /\
    znth d x' (n - 1 - i) = nadd N (ndiv N (nadd N xmax xmin) (nZ N 2)) (nmul N (ndiv N (nsub N xmax xmin) (nZ N 2)) z) /\
    znth d w' i = znth d w' (n - 1 - i).
Proof.
  intros Hn Hx Hw x' w' E.
  pose proof (nodes_weights_struct fuel xmin xmax x w n d Hn Hx Hw) as H1. cbn zeta in H1.
  destruct (gl_list fuel n _ 0 _) as [zs|e]; [|rewrite E in H1; discriminate].
  destruct H1 as [Hzs [x1 [w1 [E1 [Hx1 [Hw1 H1]]]]]]. rewrite E in E1. injection E1 as <- <-.
  split; [exact Hx1|]. split; [exact Hw1|]. intros i Hi.
  pose proof (Z.div_mod (n + 1) 2 ltac:(lia)). pose proof (Z.mod_pos_bound (n + 1) 2 ltac:(lia)).
  destruct (H1 i ltac:(lia)) as [A1 [A2 [A3 A4]]]. exists (fst (znth (d, d) zs i)).
  rewrite A1, A2, A3, A4 by lia. auto.
Qed.

(** Never out of bounds. *)
Lemma gl_safe {N : Num} fuel (xmin xmax : T N) (x w : list (T N)) n : (0 <= n < 2 ^ 62)%Z ->
  zlen x = n -> zlen w = n ->
  (exists x' w', nodes_weights_gauss_legendre fuel xmin xmax x w n = Ok (x', w') /\ zlen x' = n /\ zlen w' = n) \/
  nodes_weights_gauss_legendre fuel xmin xmax x w n = Err NoFuel.
Proof.
  intros Hn Hx Hw. destruct (Z.eq_dec n 0) as [->|Hne].
  - left. exists x, w. split; [reflexivity|]. auto.
  - pose proof (nodes_weights_struct fuel xmin xmax x w n (nZ N 0) ltac:(lia) Hx Hw) as H1. cbn zeta in H1.
    destruct (gl_list fuel n _ 0 _) as [zs|e] eqn:E.
    + left. destruct H1 as [_ [x' [w' [E1 [H2 [H3 _]]]]]]. eauto.
    + right. rewrite H1. f_equal. apply (gl_list_err _ _ _ _ _ _ E).
Qed.

(** Every node is near a root. *)
Lemma gl_nodes fuel (xmin xmax : R) (x w : list R) n (P : poly) : (1 <= n < 2 ^ 62)%Z -> zlen x = n -> zlen w = n ->
  is_legendre (Z.to_nat n) P -> gl_regular fuel n ->
  forall x' w', nodes_weights_gauss_legendre (N := RNum) fuel xmin xmax x w n = Ok (x', w') ->
  forall i, (0 <= i < n)%Z -> exists z y slope s, (s = 1 \/ s = -1) /\
    znth 0 x' i = (xmax + xmin) / 2 + s * (xmax - xmin) / 2 * z /\
    znth 0 w' i = (xmax - xmin) / ((1 - z * z) * slope * slope) /\
    is_derive (peval P) y slope /\ slope <> 0 /\
    Rabs (z - y) <= 3 / 10 ^ 14 /\ z = y - peval P y / slope /\
    Rabs (peval P y) <= 3 / 10 ^ 14 * Rabs slope /\
    exists r, -1 < r < 1 /\ peval P r = 0 /\
         Rabs (znth 0 x' i - ((xmax + xmin) / 2 + (xmax - xmin) / 2 * r)) <=
           Rabs ((xmax - xmin) / 2) * ((IZR n + 1) * (3 / 10 ^ 14)).
Proof.
  intros Hn Hx Hw HP HR x' w' E i Hi.
  pose proof (legendre_unique _ _ HP) as HL.
  pose proof (nodes_weights_struct (N := RNum) fuel xmin xmax x w n 0 Hn Hx Hw) as H1. cbn zeta in H1. rn_in H1.
  destruct (gl_list fuel n _ 0 _) as [zs|e] eqn:EL; [|rewrite E in H1; discriminate].
  destruct H1 as [Hzs [x1 [w1 [E1 [Hx1 [Hw1 H1]]]]]]. rn_in E1. rewrite E in E1. injection E1 as <- <-.
  assert (HN : exists j s, (0 <= j < zlen zs)%Z /\ (s = 1 \/ s = -1) /\
     znth 0 x' i = (xmax + xmin) / 2 + s * (xmax - xmin) / 2 * fst (znth (0, 0) zs j) /\
     znth 0 w' i = gl_wt (N := RNum) ((xmax - xmin) / 2) (znth (0, 0) zs j)).
  { destruct (gl_cases n i ltac:(lia) Hi) as [[Hm Hlt]|[j [-> Hj]]].
    - destruct (H1 i Hm) as [A1 [_ [_ A2]]]. exists i, (-1). split; [rn; rn_in Hzs; lia|]. split; [auto|].
      rewrite (A2 Hlt), A1. split; [field|reflexivity].
    - destruct (H1 j Hj) as [_ [A1 [A2 _]]]. exists j, 1. split; [rn; rn_in Hzs; lia|]. split; [auto|].
      rewrite A1, A2. split; [field|reflexivity]. }
  destruct HN as [j [s [Hj [Hs [Ex Ew]]]]].
  assert (Hm0 : (0 <= (n + 1) / 2)%Z) by (apply Z.div_pos; lia).
  pose proof (gl_list_near fuel n ltac:(lia) HR _ _ _ _ EL ltac:(lia) ltac:(lia) j Hj) as HNear.
  destruct (znth (0, 0) zs j) as [z slope]. cbn [fst snd] in *.
  destruct (near_is_root (Z.to_nat n) z slope ltac:(lia) HNear) as [y [B1 [B2 [B3 [B4 [B5 [r [Hr1 [Hr2 Hr3]]]]]]]]].
  exists z, y, slope, s. split; [exact Hs|]. split; [exact Ex|]. split.
  { rewrite Ew. unfold gl_wt. cbn [fst snd]. rn. f_equal. field. }
  split.
  { rewrite B3. apply (is_derive_ext (L (Z.to_nat n))); [intros; symmetry; apply HL|apply is_derive_L]. }
  split; [exact B4|]. split; [exact B1|]. split; [rewrite HL; exact B2|]. split; [rewrite HL; exact B5|].
  exists (s * r). split; [destruct Hs as [-> | ->]; lra|]. split.
  { rewrite HL. destruct Hs as [-> | ->].
    - rewrite Rmult_1_l. exact Hr2.
    - replace (-1 * r) with (- r) by ring. rewrite L_parity, Hr2. ring. }
  rewrite Ex.
  replace ((xmax + xmin) / 2 + s * (xmax - xmin) / 2 * z - ((xmax + xmin) / 2 + (xmax - xmin) / 2 * (s * r)))
    with ((xmax - xmin) / 2 * (s * (z - r))) by field.
  rewrite Rabs_mult. apply Rmult_le_compat_l; [apply Rabs_pos|].
  rewrite Rabs_mult. replace (Rabs s) with 1.
  - rewrite Rmult_1_l. replace (IZR n) with (INR (Z.to_nat n)); [exact Hr3|].
    rewrite INR_IZR_INZ. f_equal; lia.
  - destruct Hs as [-> | ->]; [rewrite Rabs_R1; reflexivity|].
    replace (-1) with (- (1)) by ring. rewrite Rabs_Ropp, Rabs_R1. reflexivity.
Qed.
