(** ProofGamma2: the second-order 1-loop kernels of gamma2d_1loop.c and gamma2t_1loop.c. *)
From Coq Require Import Reals Lra Lia.
From Verif Require Import Base Num BaseFacts Common Kernels GExpr Gamma2dSrc Gamma2tSrc Gamma2 ProofSearch ProofKernels.
Local Open Scope Z_scope.

(** ** No read outside the arrays, in any arithmetic *)
Section Safe.
Context {N : Num}.
Lemma pows_len (x : T N) : exists l, pows x = Ok l /\ zlen l = NPOWERS.
Proof.
  unfold pows, powers. set (t := repeat _ _). assert (Ht : zlen t = NPOWERS) by reflexivity. clearbody t.
  rewrite wr_ok by (rewrite Ht; unfold NPOWERS; lia). cbn [bind].
  rewrite wr_ok by (rewrite zlen_upd, Ht; unfold NPOWERS; lia). cbn [bind].
  pose (P := fun (_ : Z) (l : list (T N)) => zlen l = NPOWERS).
  destruct (for_inv P 2 NPOWERS (fun i tab => t <- rd tab (i - 1)%Z ;; wr tab i (nmul N t x))
    (upd (upd t (Z.to_nat 0) (nZ N 1)) (Z.to_nat 1) x)) as [l [E H]].
  - unfold NPOWERS; lia.
  - unfold P. rewrite !zlen_upd. exact Ht.
  - intros j s Hj Hs. unfold P in *. rewrite (rd_ok (nZ N 0)) by lia. cbn [bind].
    rewrite wr_ok by lia. eexists. split; [reflexivity|]. rewrite zlen_upd. exact Hs.
  - exists l. split; [exact E|exact H].
Qed.

(** Indices inside the arrays, and only declared arrays. *)
Fixpoint gok (d : gvar -> bool) (x : gexpr) : bool :=
  match x with
  | GLit _ _ | GPi => true
  | GIdx v n => d v && (0 <=? n) && (n <? NPOWERS)
  | GNeg a | GSqrt a | GLog a | GAbs a => gok d a
  | GPower a n => gok d a && (0 <=? n)
  | GAdd a b | GSub a b | GMul a b | GDiv a b | GPow a b | GLFunc a b | GSmallBeta a b => gok d a && gok d b
  | GWFunc a b c e | GBigBeta a b c e => gok d a && gok d b && gok d c && gok d e
  end.
Lemma geval_ok (d : gvar -> bool) (env : gvar -> list (T N)) x :
  (forall v, d v = true -> zlen (env v) = NPOWERS) -> gok d x = true -> exists r, geval env x = Ok r.
Proof.
  intros Hd. induction x; cbn [gok geval]; intros H;
    repeat match goal with H : _ && _ = true |- _ => apply andb_prop in H; destruct H end;
    repeat match goal with IH : ?A -> exists r, _ = Ok r, H : ?A |- _ => destruct (IH H) as [? ?]; clear IH end;
    repeat match goal with E : geval env _ = Ok _ |- _ => rewrite E; clear E end;
    cbn [bind]; try (eexists; reflexivity).
  apply Hd in H. apply Z.leb_le in H1. apply Z.ltb_lt in H0.
  rewrite (rd_ok (nZ N 0)) by lia. eexists; reflexivity.
Qed.
Lemma gsum_ok f l : (forall x, In x l -> exists r, f x = Ok r) -> forall acc : T N, exists r, gsum f l acc = Ok r.
Proof.
  induction l as [|x l IH]; intros H acc; cbn [gsum]; [eexists; reflexivity|].
  destruct (H x (or_introl eq_refl)) as [r E]. rewrite E. cbn [bind]. apply IH. intros y Hy. apply H. right; exact Hy.
Qed.

Definition d4 (v : gvar) : bool := match v with gk | geps => false | _ => true end.
Definition d6 (v : gvar) : bool := true.
Definition dc (v : gvar) : bool := match v with gk | gk3 => false | _ => true end.
Definition src_ok (s : g2src) : bool :=
  gok d4 (s_exact s) && gok d4 (s_highk s) && gok d4 (s_lowk s) && gok d6 (s_elongate s) && gok dc (s_coll s)
  && forallb (gok d4) (s_polys s) && forallb (gok d4) (s_betas s) && gok d4 (s_den s).
Lemma src_ok_all a : src_ok (g2_of a) = true.
Proof. destruct a; vm_compute; reflexivity. Qed.

Lemma env4_ok (k1 k2 k3 q : T N) : exists env, env4 k1 k2 k3 q = Ok env /\
  forall v, d4 v = true -> zlen (env v) = NPOWERS.
Proof.
  unfold env4. destruct (pows_len k1) as [a [-> Ha]], (pows_len k2) as [b [-> Hb]], (pows_len k3) as [c [-> Hc]],
    (pows_len q) as [d [-> Hd]]. cbn [bind]. eexists. split; [reflexivity|]. intros [] H; try discriminate; assumption.
Qed.
Lemma env_elongate_ok ge (k1 k2 k3 q : T N) : exists env, env_elongate ge k1 k2 k3 q = Ok env /\
  forall v, d6 v = true -> zlen (env v) = NPOWERS.
Proof.
  unfold env_elongate. match goal with |- context [match ?e with (_, _) => _ end] => destruct e as [k eps] end.
  destruct (pows_len k1) as [a [-> Ha]], (pows_len k2) as [b [-> Hb]], (pows_len k3) as [c [-> Hc]],
    (pows_len q) as [d [-> Hd]], (pows_len k) as [e [-> He]], (pows_len eps) as [f [-> Hf]].
  cbn [bind]. eexists. split; [reflexivity|]. intros [] H; assumption.
Qed.
Lemma env_coll_ok (k1 k2 k3 q : T N) : exists env, env_coll k1 k2 k3 q = Ok env /\
  forall v, dc v = true -> zlen (env v) = NPOWERS.
Proof.
  unfold env_coll. destruct (pows_len k1) as [a [-> Ha]], (pows_len k2) as [b [-> Hb]],
    (pows_len q) as [d [-> Hd]], (pows_len (ndiv N k3 k2)) as [e [-> He]].
  cbn [bind]. eexists. split; [reflexivity|]. intros [] H; try discriminate; assumption.
Qed.

Lemma g2_call_ok a b (k1 k2 k3 q : T N) : exists r, g2_call (g2_of a) b k1 k2 k3 q = Ok r.
Proof.
  pose proof (src_ok_all a) as H. unfold src_ok in H. revert H. generalize (g2_of a) as s. intros s H.
  repeat match goal with H : _ && _ = true |- _ => apply andb_prop in H; destruct H end.
  destruct (env4_ok k1 k2 k3 q) as [e4 [E4 L4]].
  destruct b; cbn [g2_call]; unfold kernel_plain, kernel_reg3rd, kernel_elongate, kernel_coll.
  - rewrite E4. apply (geval_ok d4); assumption.
  - rewrite E4. cbn [bind].
    destruct (gsum_ok (fun x => geval e4 (GDiv x (s_den s))) (s_polys s)) with (acc := nZ N 0) as [r1 E1].
    + intros x Hx. apply (geval_ok d4); [exact L4|]. cbn [gok]. rewrite H0, andb_true_r.
      eapply forallb_forall in H2; eassumption.
    + rewrite E1. cbn [bind].
      destruct (gsum_ok (geval e4) (s_betas s)) with (acc := nZ N 0) as [r2 E2].
      * intros x Hx. apply (geval_ok d4); [exact L4|]. eapply forallb_forall in H1; eassumption.
      * rewrite E2. eexists; reflexivity.
  - rewrite E4. apply (geval_ok d4); assumption.
  - rewrite E4. apply (geval_ok d4); assumption.
  - destruct (env_elongate_ok (s_ge s) k1 k2 k3 q) as [e [-> L]]. apply (geval_ok d6); assumption.
  - destruct (env_coll_ok k1 k2 k3 q) as [e [-> L]]. apply (geval_ok dc); assumption.
Qed.
Lemma kernel_gamma2_ok a (k1 k2 k3 q : T N) : exists r, kernel_gamma2 a k1 k2 k3 q = Ok r.
Proof. apply g2_call_ok. Qed.
End Safe.

(** ** Meaning in exact arithmetic *)
Local Open Scope R_scope.
Fixpoint gden (ev : gvar -> R) (x : gexpr) : R :=
  match x with
  | GLit m e => if (e =? 0)%Z then IZR m else IZR m / IZR (10 ^ e)
  | GPi => PI
  | GIdx v n => ev v ^ Z.to_nat n
  | GNeg a => - gden ev a
  | GAdd a b => gden ev a + gden ev b
  | GSub a b => gden ev a - gden ev b
  | GMul a b => gden ev a * gden ev b
  | GDiv a b => gden ev a / gden ev b
  | GSqrt a => R_sqrt.sqrt (gden ev a)
  | GLog a => ln (gden ev a)
  | GAbs a => Rabs (gden ev a)
  | GPow a b => Rpow (gden ev a) (gden ev b)
  | GPower a n => gden ev a ^ Z.to_nat n
  | GLFunc a b => LFunc (N := RNum) (gden ev a) (gden ev b)
  | GWFunc a b c d => WFunc (N := RNum) (gden ev a) (gden ev b) (gden ev c) (gden ev d)
  | GSmallBeta a b => small_beta (N := RNum) (gden ev a) (gden ev b)
  | GBigBeta a b c d => big_beta (N := RNum) (gden ev a) (gden ev b) (gden ev c) (gden ev d)
  end.
(** The arrays declared in [d] hold the powers of the values [ev]. *)
Definition env_is (d : gvar -> bool) (ev : gvar -> R) (env : gvar -> list R) : Prop :=
  forall v n, d v = true -> (0 <= n < NPOWERS)%Z -> rd (env v) n = Ok (ev v ^ Z.to_nat n).
Lemma pows_R (x : R) : exists l, pows (N := RNum) x = Ok l /\
  forall n, (0 <= n < NPOWERS)%Z -> rd l n = Ok (x ^ Z.to_nat n).
Proof.
  unfold pows. destruct (powers_R x (repeat (nZ RNum 0) (Z.to_nat NPOWERS)) NPOWERS) as [l [E [Hl [H _]]]].
  { rewrite zlen_repeat; unfold NPOWERS; lia. }
  exists l. split; [exact E|]. intros n Hn. rewrite zlen_repeat in Hl by (unfold NPOWERS; lia).
  rn_in Hl. rewrite (rd_ok 0) by (rewrite Hl; exact Hn). rewrite H by exact Hn. reflexivity.
Qed.
Lemma geval_den d ev env x : env_is d ev env -> gok d x = true -> geval (N := RNum) env x = Ok (gden ev x).
Proof.
  intros Hd. induction x; cbn [gok geval gden]; intros H;
    repeat match goal with H : _ && _ = true |- _ => apply andb_prop in H; destruct H end;
    repeat match goal with IH : ?A -> _ = Ok _, H : ?A |- _ => rewrite (IH H); clear IH end;
    cbn [bind]; try reflexivity.
  - apply Hd; [assumption|]. apply Z.leb_le in H1. apply Z.ltb_lt in H0. lia.
  - rewrite power_R; [reflexivity|]. apply Z.leb_le. assumption.
Qed.
Definition ev4 (k1 k2 k3 q : R) (v : gvar) : R :=
  match v with gk1 => k1 | gk2 => k2 | gk3 => k3 | gq => q | gk | geps => 0 end.
Definition evE (k1 k2 k3 q : R) (v : gvar) : R :=
  match v with gk1 => k1 | gk2 => k2 | gk3 => k3 | gq => q | gk => Rmax k1 k2 | geps => Rmin k1 k2 / Rmax k1 k2 end.
Definition evC (k1 k2 k3 q : R) (v : gvar) : R :=
  match v with gk1 => k1 | gk2 => k2 | gk3 => k3 | gq => q | geps => k3 / k2 | gk => 0 end.
Lemma env4_R k1 k2 k3 q : exists env, env4 (N := RNum) k1 k2 k3 q = Ok env /\ env_is d4 (ev4 k1 k2 k3 q) env.
Proof.
  unfold env4. destruct (pows_R k1) as [a [-> Ha]], (pows_R k2) as [b [-> Hb]], (pows_R k3) as [c [-> Hc]],
    (pows_R q) as [d [-> Hd]]. cbn [bind]. eexists. split; [reflexivity|].
  intros [] n H Hn; try discriminate; cbn [ev4]; auto.
Qed.
Lemma env_elongate_R ge k1 k2 k3 q : k1 <> 0 -> exists env, env_elongate (N := RNum) ge k1 k2 k3 q = Ok env /\
  env_is d6 (evE k1 k2 k3 q) env.
Proof.
  intros Hk. unfold env_elongate. rn.
  assert (E : (if if ge then Rleb k2 k1 else Rltb k2 k1 then (k1, k2 / k1) else (k2, k1 / k2)) =
              (Rmax k1 k2, Rmin k1 k2 / Rmax k1 k2)).
  { destruct ge; [destruct (Rleb_spec k2 k1)|destruct (Rltb_spec k2 k1)].
    - rewrite Rmax_left, Rmin_right by lra. reflexivity.
    - rewrite Rmax_right, Rmin_left by lra. reflexivity.
    - rewrite Rmax_left, Rmin_right by lra. reflexivity.
    - rewrite Rmax_right, Rmin_left by lra. reflexivity. }
  match goal with |- context [match ?e with (_, _) => _ end] =>
    change e with (if if ge then Rleb k2 k1 else Rltb k2 k1 then (k1, k2 / k1) else (k2, k1 / k2)) end.
  rewrite E.
  destruct (pows_R k1) as [a [-> Ha]], (pows_R k2) as [b [-> Hb]], (pows_R k3) as [c [-> Hc]],
    (pows_R q) as [d [-> Hd]], (pows_R (Rmax k1 k2)) as [e [-> He]], (pows_R (Rmin k1 k2 / Rmax k1 k2)) as [f [-> Hf]].
  cbn [bind]. eexists. split; [reflexivity|]. intros [] n H Hn; cbn [evE]; auto.
Qed.
Lemma env_coll_R k1 k2 k3 q : exists env, env_coll (N := RNum) k1 k2 k3 q = Ok env /\ env_is dc (evC k1 k2 k3 q) env.
Proof.
  unfold env_coll. rn. destruct (pows_R k1) as [a [-> Ha]], (pows_R k2) as [b [-> Hb]],
    (pows_R q) as [d [-> Hd]], (pows_R (k3 / k2)) as [e [-> He]].
  cbn [bind]. eexists. split; [reflexivity|]. intros [] n H Hn; try discriminate; cbn [evC]; auto.
Qed.
Fixpoint gdsum (ev : gvar -> R) (l : list gexpr) : R :=
  match l with nil => 0 | cons x l => gden ev x + gdsum ev l end.
Lemma gsum_den d ev env l : env_is d ev env -> forallb (gok d) l = true ->
  forall acc : R, gsum (N := RNum) (geval (N := RNum) env) l acc = Ok (acc + gdsum ev l).
Proof.
  intros Hd. induction l as [|x l IH]; cbn [forallb gsum gdsum]; intros H acc; [apply (f_equal (@Ok R)); ring|].
  apply andb_prop in H. destruct H as [H1 H2]. rewrite (geval_den d ev) by assumption. cbn [bind].
  rewrite IH by assumption. apply (f_equal (@Ok R)). rn. ring.
Qed.
Lemma gsum_den_div d ev env den l : env_is d ev env -> gok d den = true -> forallb (gok d) l = true ->
  forall acc : R, gsum (N := RNum) (fun x => geval (N := RNum) env (GDiv x den)) l acc = Ok (acc + gdsum ev l / gden ev den).
Proof.
  intros Hd Hden. induction l as [|x l IH]; cbn [forallb gsum gdsum]; intros H acc; [apply (f_equal (@Ok R)); unfold Rdiv; ring|].
  apply andb_prop in H. destruct H as [H1 H2]. rewrite (geval_den d ev) by (try assumption; cbn [gok]; rewrite H1; exact Hden).
  cbn [bind gden]. rewrite IH by assumption. apply (f_equal (@Ok R)). rn. unfold Rdiv. ring.
Qed.
(** The value of each function of the C file. *)
Definition g2_val (s : g2src) (b : g2branch) (k1 k2 k3 q : R) : R :=
  match b with
  | BExact => gden (ev4 k1 k2 k3 q) (s_exact s)
  | BReg3rd => 4 * (gdsum (ev4 k1 k2 k3 q) (s_polys s) / gden (ev4 k1 k2 k3 q) (s_den s)
                    + gdsum (ev4 k1 k2 k3 q) (s_betas s))
  | BHighk => gden (ev4 k1 k2 k3 q) (s_highk s)
  | BLowk => gden (ev4 k1 k2 k3 q) (s_lowk s)
  | BElongate => gden (evE k1 k2 k3 q) (s_elongate s)
  | BColl => gden (evC k1 k2 k3 q) (s_coll s)
  end.
Lemma g2_call_val a b k1 k2 k3 q : k1 <> 0 -> g2_call (N := RNum) (g2_of a) b k1 k2 k3 q = Ok (g2_val (g2_of a) b k1 k2 k3 q).
Proof.
  intros Hk. pose proof (src_ok_all a) as H. unfold src_ok in H. revert H. generalize (g2_of a) as s. intros s H.
  repeat match goal with H : _ && _ = true |- _ => apply andb_prop in H; destruct H end.
  destruct (env4_R k1 k2 k3 q) as [e4 [E4 L4]].
  destruct b; cbn [g2_call g2_val]; unfold kernel_plain, kernel_reg3rd, kernel_elongate, kernel_coll.
  - rewrite E4. apply (geval_den d4); assumption.
  - rewrite E4. cbn [bind]. erewrite gsum_den_div by eassumption. cbn [bind]. erewrite gsum_den by eassumption.
    cbn [bind]. apply (f_equal (@Ok R)). rn. ring.
  - rewrite E4. apply (geval_den d4); assumption.
  - rewrite E4. apply (geval_den d4); assumption.
  - destruct (env_elongate_R (s_ge s) k1 k2 k3 q Hk) as [e [-> L]]. apply (geval_den d6); assumption.
  - destruct (env_coll_R k1 k2 k3 q) as [e [-> L]]. apply (geval_den dc); assumption.
Qed.
