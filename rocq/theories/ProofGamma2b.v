(** ProofGamma2b: degree of the second-order 1-loop kernels. *)
From Coq Require Import Reals Lra Lia List.
From Verif Require Import Base Num BaseFacts Common Kernels GExpr Gamma2dSrc Gamma2tSrc Gamma2 ProofSearch ProofKernels ProofGamma2.
Import ListNotations.
Local Open Scope R_scope.

(** Degree of an expression when the wavenumbers are multiplied by a factor; [eps] is a ratio. *)
Fixpoint gdeg (x : gexpr) : option Z :=
  match x with
  | GLit _ _ | GPi => Some 0%Z
  | GIdx v n => match v with geps => Some 0%Z | _ => if (0 <=? n)%Z then Some n else None end
  | GNeg a | GAbs a => gdeg a
  | GAdd a b | GSub a b =>
    match gdeg a, gdeg b with Some i, Some j => if (i =? j)%Z then Some i else None | _, _ => None end
  | GMul a b => match gdeg a, gdeg b with Some i, Some j => Some (i + j)%Z | _, _ => None end
  | GDiv a b => match gdeg a, gdeg b with Some i, Some j => Some (i - j)%Z | _, _ => None end
  | GSqrt a => match gdeg a with Some i => if Z.even i then Some (i / 2)%Z else None | _ => None end
  | GLog a => match gdeg a with Some 0%Z => Some 0%Z | _ => None end
  | GPow a b =>
    match b, gdeg a with
    | GLit 15 1, Some i => if Z.even i then Some (i / 2 * 3)%Z else None
    | GLit 4 0, Some i => Some (i * 4)%Z
    | _, _ => None end
  | GPower a n => match gdeg a with Some i => if (0 <=? n)%Z then Some (i * n)%Z else None | _ => None end
  | GLFunc a b | GSmallBeta a b =>
    match gdeg a, gdeg b with Some i, Some j => if (i =? j)%Z then Some 0%Z else None | _, _ => None end
  | GWFunc a b c d =>
    match gdeg a, gdeg b, gdeg c, gdeg d with
    | Some i, Some j, Some k, Some l => if ((i =? j) && (i =? k) && (i =? l))%Z then Some 0%Z else None
    | _, _, _, _ => None end
  | GBigBeta a b c d =>
    match gdeg a, gdeg b, gdeg c, gdeg d with
    | Some i, Some j, Some k, Some l => if ((i =? j) && (i =? k) && (i =? l))%Z then Some (2 * i)%Z else None
    | _, _, _, _ => None end
  end.
(** Bases of the powers with a fractional exponent. *)
Fixpoint gbases (x : gexpr) : list gexpr :=
  match x with
  | GLit _ _ | GPi | GIdx _ _ => []
  | GNeg a | GSqrt a | GLog a | GAbs a | GPower a _ => gbases a
  | GPow a (GLit 4 0) => gbases a
  | GPow a b => a :: gbases a ++ gbases b
  | GAdd a b | GSub a b | GMul a b | GDiv a b | GLFunc a b | GSmallBeta a b => gbases a ++ gbases b
  | GWFunc a b c d | GBigBeta a b c d => gbases a ++ gbases b ++ gbases c ++ gbases d
  end.

Lemma div_cancel c a b : c <> 0 -> (c * a) / (c * b) = a / b.
Proof.
  intros H. unfold Rdiv. rewrite Rinv_mult. replace (c * a * (/ c * / b)) with (a * / b * (c * / c)) by ring.
  rewrite Rinv_r by exact H. ring.
Qed.
Lemma LFunc_scale c k q : c <> 0 -> LFunc (N := RNum) (c * k) (c * q) = LFunc (N := RNum) k q.
Proof.
  intros H. unfold LFunc. rn. rewrite <- Rmult_plus_distr_l, <- Rmult_minus_distr_l, div_cancel by exact H. reflexivity.
Qed.
Lemma sqrt_scale c a : 0 < c -> R_sqrt.sqrt (c * c * a) = c * R_sqrt.sqrt a.
Proof. intros H. rewrite sqrt_mult_alt by nra. rewrite sqrt_square by lra. reflexivity. Qed.
Lemma WFunc_scale c k1 k2 k3 q : 0 < c ->
  WFunc (N := RNum) (c * k1) (c * k2) (c * k3) (c * q) = WFunc (N := RNum) k1 k2 k3 q.
Proof.
  intros H. unfold WFunc. rn.
  replace (c * k1 * (c * k1) * (c * k2 * (c * k2)) +
     (- (c * k1 * (c * k1)) - c * k2 * (c * k2) + c * k3 * (c * k3)) * (c * q * (c * q)) + c * q * (c * q) * (c * q * (c * q)))
    with ((c * c) * (c * c) * (k1 * k1 * (k2 * k2) + (- (k1 * k1) - k2 * k2 + k3 * k3) * (q * q) + q * q * (q * q))) by ring.
  rewrite (sqrt_scale (c * c)) by nra. set (S := R_sqrt.sqrt _).
  f_equal.
  match goal with |- ?n / ?d = ?n' / ?d' =>
    replace n with ((c * c * (c * c)) * n') by ring; replace d with ((c * c * (c * c)) * d') by ring end.
  apply div_cancel. pose proof (Rmult_lt_0_compat c c H H). nra.
Qed.
Lemma small_beta_scale c k q : c <> 0 -> small_beta (N := RNum) (c * k) (c * q) = small_beta (N := RNum) k q.
Proof.
  intros H. unfold small_beta. rn. rewrite <- Rmult_plus_distr_l, <- Rmult_minus_distr_l, div_cancel by exact H. reflexivity.
Qed.
Lemma big_beta_scale c k1 k2 k3 q : 0 < c ->
  big_beta (N := RNum) (c * k1) (c * k2) (c * k3) (c * q) = c * c * big_beta (N := RNum) k1 k2 k3 q.
Proof.
  intros H. assert (Hc : 0 < c * c) by nra. unfold big_beta. rn.
  replace ((c * k1 * (c * k1) - c * q * (c * q)) * (c * k2 * (c * k2) - c * q * (c * q)))
    with ((c * c) * (c * c) * ((k1 * k1 - q * q) * (k2 * k2 - q * q))) by ring.
  replace (c * k3 * (c * q)) with (c * c * (k3 * q)) by ring.
  set (x := (k1 * k1 - q * q) * (k2 * k2 - q * q)). set (a := k3 * q).
  replace (c * c * (c * c) * x + c * c * a * (c * c * a)) with (c * c * (c * c) * (x + a * a)) by ring.
  rewrite (sqrt_scale (c * c)) by exact Hc. rewrite div_cancel by lra. set (y := R_sqrt.sqrt _ / a).
  destruct (Rleb _ _); [ring|]. destruct (Rleb _ _); [ring|].
  replace (c * c * (c * c) * x * betafunc (N := RNum) 2 (1 - Rabs (y - 1) * Rabs (y - 1) / (1 + y) / (1 + y)))
    with (c * c * (c * c * (x * betafunc (N := RNum) 2 (1 - Rabs (y - 1) * Rabs (y - 1) / (1 + y) / (1 + y))))) by (rn; ring).
  replace (c * c * a * y) with (c * c * (a * y)) by ring. rewrite div_cancel by lra. unfold Rdiv. ring.
Qed.
Lemma Rpower_scale c a : 0 < c -> 0 < a -> Rpower (c * c * a) (3 / 2) = c * c * c * Rpower a (3 / 2).
Proof.
  intros H Ha. rewrite <- Rpower_mult_distr by nra. f_equal.
  rewrite <- Rpower_mult_distr by lra. rewrite <- Rpower_plus.
  replace (3 / 2 + 3 / 2) with (INR 3) by (cbn; lra). rewrite Rpower_pow by exact H. cbn. ring.
Qed.

Section Scale.
Variables (s : R) (ev ev' : gvar -> R).
Hypothesis Hs : 0 < s.
Hypothesis Hev : forall v, ev' v = match v with geps => ev v | _ => s * ev v end.
Local Notation sp := (powerRZ s).
Lemma sp_pos d : 0 < sp d.
Proof. apply powerRZ_lt, Hs. Qed.
Lemma sp_add i j : sp (i + j) = sp i * sp j.
Proof. apply powerRZ_add. lra. Qed.
Lemma sp_even i : Z.even i = true -> sp i = sp (i / 2) * sp (i / 2).
Proof.
  intros H. rewrite <- sp_add. f_equal. apply Z.even_spec in H. destruct H as [m ->].
  rewrite (Z.mul_comm 2 m), Z.div_mul by lia. lia.
Qed.
Lemma sp_sub i j : sp (i - j) = sp i / sp j.
Proof.
  unfold Z.sub. rewrite sp_add. rewrite powerRZ_neg' . reflexivity.
Qed.
Lemma sp_pow i n : sp i ^ n = sp (i * Z.of_nat n).
Proof.
  induction n as [|n IH]; [rewrite Z.mul_0_r; reflexivity|].
  cbn [pow]. rewrite IH, <- sp_add. f_equal. lia.
Qed.

Lemma gdeg_ok x : forall d, gdeg x = Some d -> (forall a, In a (gbases x) -> 0 < gden ev a) ->
  gden ev' x = sp d * gden ev x.
Proof.
  induction x; cbn [gdeg gbases]; intros dd H HB;
  repeat match goal with
  | H : match gdeg ?a with _ => _ end = Some _ |- _ => destruct (gdeg a) eqn:?; [|discriminate H]
  end.
  - injection H as <-. cbn [gden]. rewrite Rmult_1_l. reflexivity.
  - injection H as <-. cbn [gden]. rewrite Rmult_1_l. reflexivity.
  - cbn [gden]. rewrite Hev. destruct v; try (destruct (Z.leb_spec 0 n) as [Hn|Hn]; [|discriminate]; injection H as <-;
      rewrite Rpow_mult_distr; f_equal; rewrite pow_powerRZ, Z2Nat.id by exact Hn; reflexivity).
    injection H as <-. rewrite Rmult_1_l. reflexivity.
  - cbn [gden]. rewrite (IHx dd) by assumption. ring.
  - destruct (Z.eqb_spec z z0) as [->|]; [|discriminate]. injection H as <-. cbn [gden].
    rewrite (IHx1 z0), (IHx2 z0) by (auto; intros; apply HB, in_or_app; auto). ring.
  - destruct (Z.eqb_spec z z0) as [->|]; [|discriminate]. injection H as <-. cbn [gden].
    rewrite (IHx1 z0), (IHx2 z0) by (auto; intros; apply HB, in_or_app; auto). ring.
  - injection H as <-. cbn [gden].
    rewrite (IHx1 z), (IHx2 z0) by (auto; intros; apply HB, in_or_app; auto). rewrite sp_add. ring.
  - injection H as <-. cbn [gden].
    rewrite (IHx1 z), (IHx2 z0) by (auto; intros; apply HB, in_or_app; auto). rewrite sp_sub.
    unfold Rdiv. rewrite Rinv_mult. ring.
  - destruct (Z.even z) eqn:Ez; [|discriminate]. injection H as <-. cbn [gden].
    rewrite (IHx z) by auto. rewrite (sp_even z Ez). rewrite sqrt_scale by apply sp_pos. reflexivity.
  - destruct z; try discriminate. injection H as <-. cbn [gden]. rewrite (IHx 0%Z) by auto.
    rewrite !Rmult_1_l. reflexivity.
  - cbn [gden]. rewrite (IHx dd) by assumption. rewrite Rabs_mult, (Rabs_pos_eq (sp dd)) by apply Rlt_le, sp_pos. reflexivity.
  - destruct x2; try discriminate.
    destruct (Z.eq_dec m 4) as [->|Hm]; [destruct (Z.eq_dec e 0) as [->|He]|].
    + destruct (gdeg x1) as [i|]; [|discriminate]. injection H as <-. cbn [gden Z.eqb].
      rewrite (IHx1 i) by (auto; intros; apply HB; assumption).
      change (IZR 4) with (IZR (Z.of_nat 4)). rewrite !Rpow_nat, Rpow_mult_distr, sp_pow. reflexivity.
    + exfalso. destruct e; [congruence|destruct (gdeg x1); discriminate..].
    + assert (H15 : m = 15%Z /\ e = 1%Z).
      { destruct m as [|[[[[]|[]|]|[[]|[]|]|]|[[[]|[]|]|[[]|[]|]|]|]|]; try discriminate; try congruence;
        destruct e as [|[]|]; try discriminate; auto. }
      destruct H15 as [-> ->]. destruct (gdeg x1) as [i|]; [|discriminate].
      destruct (Z.even i) eqn:Ei; [|discriminate]. injection H as <-. cbn [gden Z.eqb].
      rewrite (IHx1 i) by (auto; intros; apply HB; right; apply in_or_app; auto).
      assert (Hp : 0 < gden ev x1) by (apply HB; left; reflexivity).
      change (10 ^ 1)%Z with 10%Z. replace (15 / 10) with (3 / 2) by lra.
      rewrite (sp_even i Ei). pose proof (sp_pos (i / 2)) as Hsp. rewrite !Rpow_pos by (try exact Hp; repeat apply Rmult_lt_0_compat; assumption).
      rewrite Rpower_scale by (try exact Hp; apply sp_pos).
      f_equal. rewrite <- !sp_add. f_equal. lia.
  - destruct (Z.leb_spec 0 n) as [Hn|]; [|discriminate]. injection H as <-. cbn [gden]. rewrite (IHx z) by auto.
    rewrite Rpow_mult_distr, sp_pow, Z2Nat.id by exact Hn. reflexivity.
  - destruct (Z.eqb_spec z z0) as [->|]; [|discriminate]. injection H as <-. cbn [gden].
    rewrite (IHx1 z0), (IHx2 z0) by (auto; intros; apply HB, in_or_app; auto).
    rewrite LFunc_scale by (pose proof (sp_pos z0); lra). cbn [powerRZ]. symmetry. apply Rmult_1_l.
  - destruct (Z.eqb_spec z z0) as [->|]; [|discriminate]. destruct (Z.eqb_spec z0 z1) as [->|]; [|discriminate].
    destruct (Z.eqb_spec z1 z2) as [->|]; [|discriminate]. injection H as <-. cbn [gden].
    rewrite (IHx1 z2), (IHx2 z2), (IHx3 z2), (IHx4 z2) by (auto; intros; apply HB; rewrite !in_app_iff; auto).
    rewrite WFunc_scale by apply sp_pos. cbn [powerRZ]. symmetry. apply Rmult_1_l.
  - destruct (Z.eqb_spec z z0) as [->|]; [|discriminate]. injection H as <-. cbn [gden].
    rewrite (IHx1 z0), (IHx2 z0) by (auto; intros; apply HB, in_or_app; auto).
    rewrite small_beta_scale by (pose proof (sp_pos z0); lra). cbn [powerRZ]. symmetry. apply Rmult_1_l.
  - destruct (Z.eqb_spec z z0) as [->|]; [|discriminate]. destruct (Z.eqb_spec z0 z1) as [->|]; [|discriminate].
    destruct (Z.eqb_spec z1 z2) as [->|]; [|discriminate]. assert (E2 : (2 * z2)%Z = dd) by (cbn [andb] in H; congruence). clear H. rewrite <- E2. cbn [gden].
    rewrite (IHx1 z2), (IHx2 z2), (IHx3 z2), (IHx4 z2) by (auto; intros; apply HB; rewrite !in_app_iff; auto).
    rewrite big_beta_scale by apply sp_pos. 
    replace (2 * z2)%Z with (z2 + z2)%Z by lia. rewrite sp_add. reflexivity.
Qed.
End Scale.

Definition deg0 (x : gexpr) : bool := match gdeg x with Some 0%Z => true | _ => false end.
Definition degs (d : Z) (l : list gexpr) : bool := forallb (fun x => match gdeg x with Some e => Z.eqb e d | None => false end) l.
Definition src_deg (s : g2src) : bool :=
  deg0 (s_exact s) && deg0 (s_highk s) && deg0 (s_lowk s) && deg0 (s_elongate s) && deg0 (s_coll s)
  && degs 28 (s_polys s) && degs 0 (s_betas s) && match gdeg (s_den s) with Some 28%Z => true | _ => false end.
Lemma src_deg_all a : src_deg (g2_of a) = true.
Proof. destruct a; vm_compute; reflexivity. Qed.
