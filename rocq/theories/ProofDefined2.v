(** ProofDefined2: when the kernels of gamma2d_1loop.c and gamma2t_1loop.c have a value. *)
From Coq Require Import ZArith Lia List Reals Lra.
From Verif Require Import Base Num BaseFacts Common Kernels GExpr Gamma2dSrc Gamma2tSrc Gamma2 SpecGamma2 SpecDefined ProofSearch ProofKernels ProofGamma2
  ProofGamma2f ProofDefined.
Import ListNotations.
Local Open Scope R_scope.

(** ** The domain conditions met when an expression is evaluated *)
Inductive gcond := CNz (a : gexpr) | CSqrt (a : gexpr) | CLog (a : gexpr) | CPow (a b : gexpr) | CL (a b : gexpr) | CW (a b c d : gexpr)
  | CSmall (a b : gexpr) | CBig (a b c d : gexpr).
Fixpoint gconds (x : gexpr) : list gcond :=
  match x with
  | GLit _ _ | GPi | GIdx _ _ => []
  | GNeg a | GAbs a => gconds a
  | GSqrt a => CSqrt a :: gconds a
  | GLog a => CLog a :: gconds a
  | GPower a _ => gconds a
  | GAdd a b | GSub a b | GMul a b => gconds a ++ gconds b
  | GDiv a b => CNz b :: gconds a ++ gconds b
  | GPow a b => CPow a b :: gconds a ++ gconds b
  | GLFunc a b => CL a b :: gconds a ++ gconds b
  | GSmallBeta a b => CSmall a b :: gconds a ++ gconds b
  | GWFunc a b c e => CW a b c e :: gconds a ++ gconds b ++ gconds c ++ gconds e
  | GBigBeta a b c e => CBig a b c e :: gconds a ++ gconds b ++ gconds c ++ gconds e
  end.
Definition rad (k1 k2 k3 q : R) : R := (k1 * k1 - q * q) * (k2 * k2 - q * q) + k3 * q * (k3 * q).
Definition chold (ev : gvar -> R) (c : gcond) : Prop :=
  match c with
  | CNz a => gden ev a <> 0
  | CSqrt a => 0 <= gden ev a
  | CLog a => 0 < gden ev a
  | CPow a b => 0 < gden ev a \/ exists n, (0 <= n)%Z /\ b = GLit n 0
  | CL a b => 0 < gden ev a /\ 0 < gden ev b /\ gden ev a <> gden ev b
  | CSmall a b => 0 < gden ev a /\ 0 < gden ev b
  | CW a b c d => 0 < gden ev a /\ 0 < gden ev b /\ 0 < gden ev c /\ 0 < gden ev d /\ gden ev a <> gden ev d /\ gden ev b <> gden ev d
      /\ 0 <= rad (gden ev a) (gden ev b) (gden ev c) (gden ev d)
  | CBig a b c d => 0 < gden ev c /\ 0 < gden ev d /\ 0 < rad (gden ev a) (gden ev b) (gden ev c) (gden ev d)
  end.
(** The arrays declared in [d] hold the powers of the values [ev]. *)
Definition env_isO (d : gvar -> bool) (ev : gvar -> R) (env : gvar -> list (option R)) : Prop :=
  forall v n, d v = true -> (0 <= n < NPOWERS)%Z -> rd (env v) n = Ok (Some (ev v ^ Z.to_nat n)).
Lemma Forall_app_inv {A} (P : A -> Prop) l l' : Forall P (l ++ l') -> Forall P l /\ Forall P l'.
Proof. apply Forall_app. Qed.
Lemma geval_O d ev env x : env_isO d ev env -> gok d x = true -> Forall (chold ev) (gconds x) ->
  geval (N := ONum) env x = Ok (Some (gden ev x)).
Proof.
  intros Hd. induction x; cbn [gok geval gden gconds]; intros H HC;
    repeat match goal with H : _ && _ = true |- _ => apply andb_prop in H; destruct H end;
    repeat match goal with
    | H : Forall _ (_ :: _) |- _ => apply Forall_cons_iff in H; destruct H as [? H]
    | H : Forall _ (_ ++ _) |- _ => apply Forall_app_inv in H; destruct H end;
    repeat match goal with IH : ?A -> ?B -> _ = Ok _, H : ?A, H' : ?B |- _ => rewrite (IH H H'); clear IH end;
    cbn [bind chold] in *; try (on; reflexivity).
  - on. destruct (e =? 0)%Z; reflexivity.
  - apply Hd; [assumption|]. apply Z.leb_le in H1. apply Z.ltb_lt in H0. lia.
  - on. rewrite odiv_some by assumption. reflexivity.
  - on. rewrite osqrt_some by assumption. reflexivity.
  - on. rewrite olog_some by assumption. reflexivity.
  - on. match goal with H : _ \/ _ |- _ => destruct H as [Hp|[n [Hn E]]] end; [rewrite opow_pos by exact Hp; reflexivity|].
    rewrite E. cbn [gden]. rewrite Z.eqb_refl. rewrite opow_nat by exact Hn. reflexivity.
  - rewrite power_O, power_R; [reflexivity|]. apply Z.leb_le. assumption.
  - rewrite LFunc_O by tauto. reflexivity.
  - rewrite WFunc_O by (unfold rad in *; tauto). reflexivity.
  - rewrite small_beta_O by tauto. reflexivity.
  - rewrite big_beta_O by (unfold rad in *; tauto). reflexivity.
Qed.

(** ** Conditions without repetition *)
Definition veqb (v w : gvar) : bool :=
  match v, w with gk1, gk1 | gk2, gk2 | gk3, gk3 | gq, gq | gk, gk | geps, geps => true | _, _ => false end.
Fixpoint geqb (x y : gexpr) : bool :=
  match x, y with
  | GLit m e, GLit m' e' => ((m =? m') && (e =? e'))%Z
  | GPi, GPi => true
  | GIdx v n, GIdx v' n' => veqb v v' && (n =? n')%Z
  | GNeg a, GNeg a' | GSqrt a, GSqrt a' | GLog a, GLog a' | GAbs a, GAbs a' => geqb a a'
  | GPower a n, GPower a' n' => (n =? n')%Z && geqb a a'
  | GAdd a b, GAdd a' b' | GSub a b, GSub a' b' | GMul a b, GMul a' b' | GDiv a b, GDiv a' b' | GPow a b, GPow a' b'
  | GLFunc a b, GLFunc a' b' | GSmallBeta a b, GSmallBeta a' b' => geqb a a' && geqb b b'
  | GWFunc a b c d, GWFunc a' b' c' d' | GBigBeta a b c d, GBigBeta a' b' c' d' => geqb a a' && geqb b b' && geqb c c' && geqb d d'
  | _, _ => false
  end.
Lemma veqb_eq v w : veqb v w = true -> v = w.
Proof. destruct v, w; cbn; congruence. Qed.
Lemma geqb_eq x : forall y, geqb x y = true -> x = y.
Proof.
  induction x; intros []; cbn [geqb]; try discriminate; intros H;
    repeat match goal with H : _ && _ = true |- _ => apply andb_prop in H; destruct H end;
    repeat match goal with H : (_ =? _)%Z = true |- _ => apply Z.eqb_eq in H; subst | H : veqb _ _ = true |- _ => apply veqb_eq in H; subst end;
    repeat match goal with IH : forall y, geqb ?x y = true -> _, H : geqb ?x _ = true |- _ => apply IH in H; subst end; reflexivity.
Qed.
Definition ceqb (x y : gcond) : bool :=
  match x, y with
  | CNz a, CNz a' | CSqrt a, CSqrt a' | CLog a, CLog a' => geqb a a'
  | CPow a b, CPow a' b' | CL a b, CL a' b' | CSmall a b, CSmall a' b' => geqb a a' && geqb b b'
  | CW a b c d, CW a' b' c' d' | CBig a b c d, CBig a' b' c' d' => geqb a a' && geqb b b' && geqb c c' && geqb d d'
  | _, _ => false
  end.
Lemma ceqb_eq x y : ceqb x y = true -> x = y.
Proof.
  destruct x, y; cbn [ceqb]; try discriminate; intros H;
    repeat match goal with H : _ && _ = true |- _ => apply andb_prop in H; destruct H end;
    repeat match goal with H : geqb _ _ = true |- _ => apply geqb_eq in H; subst end; reflexivity.
Qed.
Fixpoint dedup (l : list gcond) : list gcond :=
  match l with [] => [] | c :: l => let r := dedup l in if existsb (ceqb c) r then r else c :: r end.
Lemma conds_short ev s l : forallb (fun c => existsb (ceqb c) s) l = true -> Forall (chold ev) s -> Forall (chold ev) l.
Proof.
  intros H Hs. apply Forall_forall. intros c Hc. eapply forallb_forall in H; [|exact Hc].
  apply existsb_exists in H. destruct H as [c' [Hi E]]. apply ceqb_eq in E. subst. eapply Forall_forall in Hs; eassumption.
Qed.

(** ** The triangle *)
Lemma rad_eq k1 k2 k3 q : rad k1 k2 k3 q = (k1 * k2 - q * q) * (k1 * k2 - q * q) + q * q * ((k3 - (k1 - k2)) * (k3 + (k1 - k2))).
Proof. unfold rad. ring. Qed.
Lemma rad_pos k1 k2 k3 q : strict k1 k2 k3 -> 0 < q -> 0 < rad k1 k2 k3 q.
Proof.
  intros [H1 [H2 H3]] Hq. rewrite rad_eq. apply Rplus_le_lt_0_compat; [apply Rle_0_sqr|].
  repeat apply Rmult_lt_0_compat; lra.
Qed.
Lemma strict_12 a b c : strict a b c -> strict b a c.
Proof. unfold strict. lra. Qed.
Lemma strict_23 a b c : strict a b c -> strict a c b.
Proof. unfold strict. lra. Qed.
Lemma strict_triangle a b c : strict a b c -> triangle a b c.
Proof. unfold strict, triangle. lra. Qed.
(** 2 a^2 q - b^2 q + q^3 -+ 2 a sqrt(q^2 (a^2 - b^2 + q^2)) = q (a -+ r)^2 with r^2 = a^2 - b^2 + q^2 *)
Lemma square_root a b q : 0 < q -> 0 < a ^ 2 - b ^ 2 + q ^ 2 ->
  sqrt (q ^ 2 * (a ^ 2 - b ^ 2 + q ^ 2)) = q * sqrt (a ^ 2 - b ^ 2 + q ^ 2).
Proof. intros Hq H. rewrite sqrt_mult by nra. rewrite sqrt_pow2 by lra. reflexivity. Qed.
Lemma elong a b q : 0 < a -> 0 < b -> 0 < q -> b <> q -> 0 < a ^ 2 - b ^ 2 + q ^ 2 ->
  let s := sqrt (q ^ 2 * (a ^ 2 - b ^ 2 + q ^ 2)) in
  0 < 2 * a ^ 2 * q - b ^ 2 * q + q ^ 3 + 2 * a * s /\ 0 < 2 * a ^ 2 * q - b ^ 2 * q + q ^ 3 - 2 * a * s.
Proof.
  intros Ha Hb Hq N H. cbv zeta. rewrite square_root by assumption. pose proof (sqrt_sqrt _ (Rlt_le _ _ H)) as Hs.
  pose proof (sqrt_lt_R0 _ H) as Hr. set (r := sqrt (a ^ 2 - b ^ 2 + q ^ 2)) in *.
  assert (E : 2 * a ^ 2 * q - b ^ 2 * q + q ^ 3 = q * (a * a + r * r)) by (rewrite Hs; ring).
  rewrite E. split.
  - replace (q * (a * a + r * r) + 2 * a * (q * r)) with (q * ((a + r) * (a + r))) by ring. apply Rmult_lt_0_compat; [exact Hq|]. nra.
  - replace (q * (a * a + r * r) - 2 * a * (q * r)) with (q * ((a - r) * (a - r))) by ring. apply Rmult_lt_0_compat; [exact Hq|].
    apply Rlt_0_sqr. intros Z. assert (Er : r = a) by lra. rewrite Er in Hs. assert (q ^ 2 = b ^ 2) by lra. apply N. nra.
Qed.

(** ** The arrays of powers *)
Lemma pows_O (x : R) : exists l, pows (N := ONum) (Some x) = Ok l /\
  forall n, (0 <= n < NPOWERS)%Z -> rd l n = Ok (Some (x ^ Z.to_nat n)).
Proof.
  destruct (pows_R x) as [l [E H]]. exists (os l). split.
  - unfold pows in *. rewrite repeat_os, powers_O, E. reflexivity.
  - intros n Hn. rewrite rd_os, H by exact Hn. reflexivity.
Qed.
Lemma env4_O k1 k2 k3 q : exists env, env4 (N := ONum) (Some k1) (Some k2) (Some k3) (Some q) = Ok env /\ env_isO d4 (ev4 k1 k2 k3 q) env.
Proof.
  unfold env4. destruct (pows_O k1) as [a [-> Ha]], (pows_O k2) as [b [-> Hb]], (pows_O k3) as [c [-> Hc]],
    (pows_O q) as [d [-> Hd]]. cbn [bind]. eexists. split; [reflexivity|].
  intros [] n H Hn; try discriminate; cbn [ev4]; auto.
Qed.
Lemma env_elongate_O ge k1 k2 k3 q : 0 < k1 -> 0 < k2 ->
  exists env, env_elongate (N := ONum) ge (Some k1) (Some k2) (Some k3) (Some q) = Ok env /\ env_isO d6 (evE k1 k2 k3 q) env.
Proof.
  intros H1 H2. unfold env_elongate. ov ltac:(lra).
  assert (E : (if if ge then Rleb k2 k1 else Rltb k2 k1 then (Some k1, Some (k2 / k1)) else (Some k2, Some (k1 / k2))) =
              (Some (Rmax k1 k2), Some (Rmin k1 k2 / Rmax k1 k2))).
  { destruct ge; [destruct (Rleb_spec k2 k1)|destruct (Rltb_spec k2 k1)].
    - rewrite Rmax_left, Rmin_right by lra. reflexivity.
    - rewrite Rmax_right, Rmin_left by lra. reflexivity.
    - rewrite Rmax_left, Rmin_right by lra. reflexivity.
    - rewrite Rmax_right, Rmin_left by lra. reflexivity. }
  match goal with |- context [match ?e with (_, _) => _ end] =>
    change e with (if if ge then Rleb k2 k1 else Rltb k2 k1 then (Some k1, Some (k2 / k1)) else (Some k2, Some (k1 / k2))) end.
  rewrite E.
  destruct (pows_O k1) as [a [-> Ha]], (pows_O k2) as [b [-> Hb]], (pows_O k3) as [c [-> Hc]],
    (pows_O q) as [d [-> Hd]], (pows_O (Rmax k1 k2)) as [e [-> He]], (pows_O (Rmin k1 k2 / Rmax k1 k2)) as [f [-> Hf]].
  cbn [bind]. eexists. split; [reflexivity|]. intros [] n H Hn; cbn [evE]; auto.
Qed.
Lemma env_coll_O k1 k2 k3 q : 0 < k2 ->
  exists env, env_coll (N := ONum) (Some k1) (Some k2) (Some k3) (Some q) = Ok env /\ env_isO dc (evC k1 k2 k3 q) env.
Proof.
  intros H2. unfold env_coll. ov ltac:(lra). destruct (pows_O k1) as [a [-> Ha]], (pows_O k2) as [b [-> Hb]],
    (pows_O q) as [d [-> Hd]], (pows_O (k3 / k2)) as [e [-> He]].
  cbn [bind]. eexists. split; [reflexivity|]. intros [] n H Hn; try discriminate; cbn [evC]; auto.
Qed.
Lemma apart k q : 0 < q -> ~ Rabs (k / q - 1) < 1 / 1000 -> k <> q.
Proof.
  intros H Hk E. apply Hk. rewrite E. replace (q / q - 1) with 0 by (field; lra). rewrite Rabs_R0. lra.
Qed.
(** Only the regularised form is used near q = k1, k2, k3. *)
Lemma branch_apart k1 k2 k3 q : 0 < q -> g2_branch (N := RNum) k1 k2 k3 q <> BReg3rd -> k1 <> q /\ k2 <> q /\ k3 <> q.
Proof.
  intros Hq. unfold g2_branch. rnl.
  destruct (Rltb_spec (Rabs (k1 / q - 1)) (1 / 1000)) as [|N1]; [contradiction|].
  destruct (Rltb_spec (Rabs (k2 / q - 1)) (1 / 1000)) as [|N2]; [contradiction|].
  destruct (Rltb_spec (Rabs (k3 / q - 1)) (1 / 1000)) as [|N3]; [contradiction|]. intros _.
  split; [|split]; apply apart; assumption.
Qed.
Lemma nmax_O a b : nmax (N := ONum) (Some a) (Some b) = Some (nmax (N := RNum) a b).
Proof. unfold nmax. on. destruct (Rltb b a); reflexivity. Qed.
Lemma nmin_O a b : nmin (N := ONum) (Some a) (Some b) = Some (nmin (N := RNum) a b).
Proof. unfold nmin. on. destruct (Rltb a b); reflexivity. Qed.
Lemma branch_O k1 k2 k3 q : 0 < k1 -> 0 < q ->
  g2_branch (N := ONum) (Some k1) (Some k2) (Some k3) (Some q) = g2_branch (N := RNum) k1 k2 k3 q.
Proof.
  intros H1 Hq. unfold g2_branch, nmax3, nmin3. rewrite !nmax_O, !nmin_O. ov ltac:(lra). reflexivity.
Qed.

(** ** The conditions hold *)
Ltac gx := cbv [chold gden ev4 evC evE Z.to_nat Pos.to_nat Pos.iter_op Nat.add Z.eqb].
Ltac short X := let s := eval vm_compute in (dedup X) in apply (conds_short _ s X); [vm_compute; reflexivity|].
Ltac isrd := match goal with
  | R : 0 < rad ?a ?b ?c ?q |- 0 < ?e => replace e with (rad a b c q) by (unfold rad; ring); exact R end.
Ltac ps := first [assumption | lra |
  lazymatch goal with
  | |- 0 < _ ^ _ => apply pow_lt; ps
  | |- 0 < _ * _ => first [apply Rmult_lt_0_compat; ps | isrd]
  | |- 0 < _ / _ => apply Rdiv_lt_0_compat; ps
  | |- 0 < sqrt _ => apply sqrt_lt_R0; ps
  | |- 0 < _ + _ => first [isrd | apply Rplus_lt_0_compat; ps]
  | |- 0 < rad _ _ _ _ => isrd end].
Ltac cs := rewrite ?pow_1; match goal with
  | |- _ /\ _ => split; cs
  | |- ?a <> ?b => first [assumption | apply Rgt_not_eq, Rlt_gt; ps]
  | |- 0 <= _ => apply Rlt_le; ps
  | |- 0 < _ => ps end.
Lemma conds_exact a k1 k2 k3 q : 0 < k1 -> 0 < k2 -> 0 < k3 -> 0 < q -> strict k1 k2 k3 -> k1 <> q -> k2 <> q -> k3 <> q ->
  Forall (chold (ev4 k1 k2 k3 q)) (gconds (s_exact (g2_of a))).
Proof.
  intros P1 P2 P3 Pq H N1 N2 N3. pose proof (rad_pos _ _ _ q H Pq) as R12. pose proof (rad_pos _ _ _ q (strict_23 _ _ _ H) Pq) as R13.
  pose proof (rad_pos _ _ _ q (strict_23 _ _ _ (strict_12 _ _ _ H)) Pq) as R23.
  destruct a; [short (gconds (s_exact g2d_src))|short (gconds (s_exact g2t_src))];
    repeat apply Forall_cons; try apply Forall_nil; gx; cs.
Qed.
Lemma conds_highk a k1 k2 k3 q : 0 < k1 -> 0 < k2 -> 0 < k3 -> 0 < q -> Forall (chold (ev4 k1 k2 k3 q)) (gconds (s_highk (g2_of a))).
Proof.
  intros P1 P2 P3 Pq. destruct a; [short (gconds (s_highk g2d_src))|short (gconds (s_highk g2t_src))];
    repeat apply Forall_cons; try apply Forall_nil; gx; try cs.
  right. exists 4%Z. split; [lia|reflexivity].
Qed.
Lemma conds_lowk a k1 k2 k3 q : 0 < k1 -> 0 < k2 -> 0 < k3 -> 0 < q -> Forall (chold (ev4 k1 k2 k3 q)) (gconds (s_lowk (g2_of a))).
Proof.
  intros P1 P2 P3 Pq. destruct a; [short (gconds (s_lowk g2d_src))|short (gconds (s_lowk g2t_src))];
    repeat apply Forall_cons; try apply Forall_nil; gx; cs.
Qed.
Lemma conds_betas a k1 k2 k3 q : 0 < k1 -> 0 < k2 -> 0 < k3 -> 0 < q -> strict k1 k2 k3 ->
  Forall (chold (ev4 k1 k2 k3 q)) (flat_map gconds (s_betas (g2_of a))).
Proof.
  intros P1 P2 P3 Pq H. pose proof (rad_pos _ _ _ q H Pq) as R12. pose proof (rad_pos _ _ _ q (strict_23 _ _ _ H) Pq) as R13.
  pose proof (rad_pos _ _ _ q (strict_23 _ _ _ (strict_12 _ _ _ H)) Pq) as R23.
  destruct a; [short (flat_map gconds (s_betas g2d_src))|short (flat_map gconds (s_betas g2t_src))];
    repeat apply Forall_cons; try apply Forall_nil; gx; cs.
Qed.
Lemma conds_polys a ev : Forall (chold ev) (flat_map gconds (s_polys (g2_of a))).
Proof. destruct a; [short (flat_map gconds (s_polys g2d_src))|short (flat_map gconds (s_polys g2t_src))]; apply Forall_nil. Qed.
Lemma conds_den a k1 k2 k3 q : 0 < k1 -> 0 < k2 -> 0 < k3 -> 0 < q -> gden (ev4 k1 k2 k3 q) (s_den (g2_of a)) <> 0 /\ gconds (s_den (g2_of a)) = [].
Proof. intros P1 P2 P3 Pq. destruct a; (split; [|reflexivity]); cbn [s_den g2_of g2d_src g2t_src g2_reg3rd_den]; unfold g2_reg3rd_den; gx; cs. Qed.
(** The two logarithms of the elongated and of the collapsed forms *)
Lemma conds_el a ev : 0 < ev gk -> 0 < ev gk3 -> 0 < ev gq -> 0 < ev geps -> Rabs (ev gk * ev gk - ev gk3 * ev gk3) < ev gq * ev gq ->
  ev gk <> ev gq -> ev gk3 <> ev gq -> Forall (chold ev) (gconds (s_elongate (g2_of a))).
Proof.
  set (K := ev gk). set (B := ev gk3). set (q := ev gq). set (e := ev geps). intros PK PB Pq Pe H NK NB. apply Rabs_def2 in H.
  assert (H1 : 0 < K ^ 2 - B ^ 2 + q ^ 2) by lra. assert (H2 : 0 < - K ^ 2 + B ^ 2 + q ^ 2) by lra.
  assert (NKq : K - q <> 0) by lra. assert (NBq : B - q <> 0) by lra.
  assert (LK : 0 < Rabs ((K + q) / (K - q))) by (apply Rabs_pos_lt, Rmult_integral_contrapositive; split; [lra|apply Rinv_neq_0_compat, NKq]).
  assert (LB : 0 < Rabs ((B + q) / (B - q))) by (apply Rabs_pos_lt, Rmult_integral_contrapositive; split; [lra|apply Rinv_neq_0_compat, NBq]).
  destruct (elong K B q PK PB Pq NB H1) as [E1 E2].
  assert (H2' : 0 < B ^ 2 - K ^ 2 + q ^ 2) by lra. destruct (elong B K q PB PK Pq NK H2') as [E3 E4].
  replace (B ^ 2 - K ^ 2 + q ^ 2) with (- K ^ 2 + B ^ 2 + q ^ 2) in E3, E4 by ring.
  set (s1 := sqrt (q ^ 2 * (K ^ 2 - B ^ 2 + q ^ 2))) in *. set (s2 := sqrt (q ^ 2 * (- K ^ 2 + B ^ 2 + q ^ 2))) in *.
  assert (S1 : 0 < s1) by (unfold s1; ps). assert (S2 : 0 < s2) by (unfold s2; ps).
  assert (D2 : K ^ 2 * q - 2 * B ^ 2 * q - q ^ 3 + 2 * B * s2 < 0) by lra.
  assert (L2 : 0 < - ((- (K ^ 2 * q) + 2 * B ^ 2 * q + q ^ 3 + 2 * B * s2) / (K ^ 2 * q - 2 * B ^ 2 * q - q ^ 3 + 2 * B * s2))).
  { replace (- ((- (K ^ 2 * q) + 2 * B ^ 2 * q + q ^ 3 + 2 * B * s2) / (K ^ 2 * q - 2 * B ^ 2 * q - q ^ 3 + 2 * B * s2)))
      with ((- (K ^ 2 * q) + 2 * B ^ 2 * q + q ^ 3 + 2 * B * s2) / - (K ^ 2 * q - 2 * B ^ 2 * q - q ^ 3 + 2 * B * s2)) by (field; lra).
    apply Rdiv_lt_0_compat; lra. }
  assert (LP : forall x, 0 < x -> 0 < Rpow x (15 / 10)) by (intros x Hx; unfold Rpow; destruct (Rlt_dec 0 x); [apply exp_pos|contradiction]).
  destruct a; [short (gconds (s_elongate g2d_src))|short (gconds (s_elongate g2t_src))];
    repeat apply Forall_cons; try apply Forall_nil; gx; lits; fold K B q e; fold s1 s2; rewrite ?pow_1;
    try solve [cs | left; ps | apply Rgt_not_eq, Rlt_gt, LP; ps | lra].
Qed.
Lemma conds_coll a ev : 0 < ev gk1 -> 0 < ev gk2 -> 0 < ev gq -> Rabs (ev gk1 * ev gk1 - ev gk2 * ev gk2) < ev gq * ev gq ->
  ev gk1 <> ev gq -> ev gk2 <> ev gq -> Forall (chold ev) (gconds (s_coll (g2_of a))).
Proof.
  set (K := ev gk1). set (B := ev gk2). set (q := ev gq). intros PK PB Pq H NK NB. apply Rabs_def2 in H.
  assert (H1 : 0 < K ^ 2 - B ^ 2 + q ^ 2) by lra. assert (H2 : 0 < - K ^ 2 + B ^ 2 + q ^ 2) by lra.
  assert (NKq : K - q <> 0) by lra. assert (NBq : B - q <> 0) by lra.
  assert (LK : 0 < Rabs ((K + q) / (K - q))) by (apply Rabs_pos_lt, Rmult_integral_contrapositive; split; [lra|apply Rinv_neq_0_compat, NKq]).
  assert (LB : 0 < Rabs ((B + q) / (B - q))) by (apply Rabs_pos_lt, Rmult_integral_contrapositive; split; [lra|apply Rinv_neq_0_compat, NBq]).
  destruct (elong K B q PK PB Pq NB H1) as [E1 E2].
  assert (H2' : 0 < B ^ 2 - K ^ 2 + q ^ 2) by lra. destruct (elong B K q PB PK Pq NK H2') as [E3 E4].
  replace (B ^ 2 - K ^ 2 + q ^ 2) with (- K ^ 2 + B ^ 2 + q ^ 2) in E3, E4 by ring.
  set (s1 := sqrt (q ^ 2 * (K ^ 2 - B ^ 2 + q ^ 2))) in *. set (s2 := sqrt (q ^ 2 * (- K ^ 2 + B ^ 2 + q ^ 2))) in *.
  assert (S1 : 0 < s1) by (unfold s1; ps). assert (S2 : 0 < s2) by (unfold s2; ps).
  assert (D2 : K ^ 2 * q - 2 * B ^ 2 * q - q ^ 3 + 2 * B * s2 < 0) by lra.
  assert (L2 : 0 < - ((- (K ^ 2 * q) + 2 * B ^ 2 * q + q ^ 3 + 2 * B * s2) / (K ^ 2 * q - 2 * B ^ 2 * q - q ^ 3 + 2 * B * s2))).
  { replace (- ((- (K ^ 2 * q) + 2 * B ^ 2 * q + q ^ 3 + 2 * B * s2) / (K ^ 2 * q - 2 * B ^ 2 * q - q ^ 3 + 2 * B * s2)))
      with ((- (K ^ 2 * q) + 2 * B ^ 2 * q + q ^ 3 + 2 * B * s2) / - (K ^ 2 * q - 2 * B ^ 2 * q - q ^ 3 + 2 * B * s2)) by (field; lra).
    apply Rdiv_lt_0_compat; lra. }
  assert (NB3 : - (B ^ 2 * q) + q ^ 3 <> 0).
  { replace (- (B ^ 2 * q) + q ^ 3) with ((q - B) * ((q + B) * q)) by ring. apply Rmult_integral_contrapositive; split; [lra|].
    apply Rgt_not_eq, Rlt_gt; ps. }
  assert (NK3 : - (K ^ 2 * q) + q ^ 3 <> 0).
  { replace (- (K ^ 2 * q) + q ^ 3) with ((q - K) * ((q + K) * q)) by ring. apply Rmult_integral_contrapositive; split; [lra|].
    apply Rgt_not_eq, Rlt_gt; ps. }
  assert (LP : forall x, 0 < x -> 0 < Rpow x (15 / 10)) by (intros x Hx; unfold Rpow; destruct (Rlt_dec 0 x); [apply exp_pos|contradiction]).
  destruct a; [short (gconds (s_coll g2d_src))|short (gconds (s_coll g2t_src))];
    repeat apply Forall_cons; try apply Forall_nil; gx; lits; fold K B q; fold s1 s2; rewrite ?pow_1;
    try solve [cs | left; ps | apply Rgt_not_eq, Rlt_gt, LP; ps | lra
      | apply Rmult_integral_contrapositive; split; apply pow_nonzero; [apply Rgt_not_eq, Rlt_gt; ps|assumption]].
Qed.

(** ** The kernels *)
Lemma gsum_O d ev env l : env_isO d ev env -> forallb (gok d) l = true -> Forall (chold ev) (flat_map gconds l) ->
  forall acc : R, gsum (N := ONum) (geval (N := ONum) env) l (Some acc) = Ok (Some (acc + gdsum ev l)).
Proof.
  intros Hd. induction l as [|x l IH]; cbn [forallb gsum gdsum flat_map]; intros H HC acc; [rewrite Rplus_0_r; reflexivity|].
  apply andb_prop in H. destruct H as [H1 H2]. apply Forall_app_inv in HC. destruct HC as [C1 C2].
  rewrite (geval_O d ev) by assumption. cbn [bind]. on.
  rewrite IH by assumption. apply (f_equal (@Ok (option R))), (f_equal Some). ring.
Qed.
Lemma gsum_O_div d ev env den l : env_isO d ev env -> gok d den = true -> gden ev den <> 0 -> gconds den = [] -> forallb (gok d) l = true ->
  Forall (chold ev) (flat_map gconds l) -> forall acc : R,
  gsum (N := ONum) (fun x => geval (N := ONum) env (GDiv x den)) l (Some acc) = Ok (Some (acc + gdsum ev l / gden ev den)).
Proof.
  intros Hd Hden Hz Hc. induction l as [|x l IH]; cbn [forallb gsum gdsum flat_map]; intros H HC acc;
    [apply (f_equal (@Ok (option R))), (f_equal Some); unfold Rdiv; ring|].
  apply andb_prop in H. destruct H as [H1 H2]. apply Forall_app_inv in HC. destruct HC as [C1 C2].
  rewrite (geval_O d ev); [|exact Hd|cbn [gok]; rewrite H1; exact Hden|cbn [gconds]; rewrite Hc, app_nil_r; apply Forall_cons; assumption].
  cbn [bind gden]. on. rewrite IH by assumption. apply (f_equal (@Ok (option R))), (f_equal Some). unfold Rdiv. ring.
Qed.
Lemma kernel_gamma2_O a k1 k2 k3 q : 0 < k1 -> 0 < k2 -> 0 < k3 -> 0 < q -> strict k1 k2 k3 ->
  kernel_gamma2 (N := ONum) a (Some k1) (Some k2) (Some k3) (Some q) = res_map Some (kernel_gamma2 (N := RNum) a k1 k2 k3 q).
Proof.
  intros P1 P2 P3 Pq Ht. unfold kernel_gamma2. rewrite branch_O by assumption. rewrite g2_call_val by lra. cbn [res_map].
  pose proof (src_ok_all a) as H. unfold src_ok in H.
  repeat match goal with H : _ && _ = true |- _ => apply andb_prop in H; destruct H end.
  destruct (env4_O k1 k2 k3 q) as [e4 [E4 L4]].
  destruct (g2_branch (N := RNum) k1 k2 k3 q) eqn:B; cbn [g2_call g2_val]; unfold kernel_plain, kernel_reg3rd, kernel_elongate, kernel_coll;
    try (assert (AP : k1 <> q /\ k2 <> q /\ k3 <> q) by (apply branch_apart; [exact Pq|rewrite B; discriminate]); destruct AP as [N1 [N2 N3]]).
  - rewrite E4. cbn [bind]. apply (geval_O d4); [assumption|assumption|]. apply conds_exact; assumption.
  - rewrite E4. cbn [bind]. destruct (conds_den a k1 k2 k3 q P1 P2 P3 Pq) as [Dz Dc]. on.
    erewrite gsum_O_div; [|eassumption..|apply conds_polys]. cbn [bind].
    erewrite gsum_O; [|eassumption..|apply conds_betas; assumption]. cbn [bind]. apply (f_equal (@Ok (option R))). on. apply (f_equal Some). ring.
  - rewrite E4. cbn [bind]. apply (geval_O d4); [assumption|assumption|]. apply conds_highk; assumption.
  - rewrite E4. cbn [bind]. apply (geval_O d4); [assumption|assumption|]. apply conds_lowk; assumption.
  - destruct (env_elongate_O (s_ge (g2_of a)) k1 k2 k3 q P1 P2) as [e [-> L]]. cbn [bind]. apply (geval_O d6); [assumption|assumption|].
    pose proof (branch_elongate k1 k2 k3 q P1 P2 P3 Pq (strict_triangle _ _ _ Ht) B) as Hb.
    assert (Hm : 0 < Rmax k1 k2 /\ Rmax k1 k2 <> q /\ 0 < Rmin k1 k2).
    { unfold Rmax, Rmin. destruct (Rle_dec k1 k2); repeat split; assumption. }
    destruct Hm as [M1 [M2 M3]]. apply conds_el; cbn [evE]; try assumption. apply Rdiv_lt_0_compat; assumption.
  - destruct (env_coll_O k1 k2 k3 q P2) as [e [-> L]]. cbn [bind]. apply (geval_O dc); [assumption|assumption|].
    pose proof (branch_coll k1 k2 k3 q P1 P2 P3 Pq (strict_triangle _ _ _ Ht) B) as [_ [_ Hb]]. apply conds_coll; cbn [evC]; assumption.
Qed.
