(** ProofSearch: power, powers, get_dichotomy_index, interpol_lin. *)
From Coq Require Import Reals Lra.
From Verif Require Import Base Num BaseFacts Order Spec Common.
Local Open Scope Z_scope.

(** ** power *)
Lemma power_loop_R (x r : R) (e : positive) :
  power_loop (N := RNum) x r e = (r * x ^ Pos.to_nat e)%R.
Proof.
  revert x r; induction e as [e IH|e IH|]; intros x r; cbn [power_loop]; rn.
  - rewrite IH, Pos2Nat.inj_xI. rn.
    rewrite <- tech_pow_Rmult, pow_mult. cbn [pow]. rewrite Rmult_1_r. ring.
  - rewrite IH, Pos2Nat.inj_xO. rn. rewrite pow_mult. cbn [pow]. rewrite Rmult_1_r. ring.
  - rewrite Pos2Nat.inj_1. cbn [pow]. ring.
Qed.
Lemma power_R (x : R) (n : Z) : 0 <= n -> power (N := RNum) x n = (x ^ Z.to_nat n)%R.
Proof.
  intros H; destruct n as [|p|p]; [reflexivity| |lia].
  cbn [power]. rewrite power_loop_R. rn. cbn [Z.to_nat]. ring.
Qed.

(** ** powers *)
Lemma powers_R (x : R) (tab : list R) (n : Z) :
  2 <= n <= zlen tab ->
  exists tab', powers (N := RNum) x tab n = Ok tab' /\ zlen tab' = zlen tab /\
    (forall i, 0 <= i < n -> znth 0%R tab' i = (x ^ Z.to_nat i)%R) /\
    (forall i, n <= i < zlen tab -> znth 0%R tab' i = znth 0%R tab i).
Proof.
  intros Hn. unfold powers. rn.
  rewrite wr_ok by lia. cbn [bind]. rewrite wr_ok by (rewrite zlen_upd; lia). cbn [bind].
  set (t0 := upd (upd tab (Z.to_nat 0) 1%R) (Z.to_nat 1) x).
  pose (P := fun (j : Z) (t : list R) => zlen t = zlen tab /\
    (forall i, 0 <= i < j -> znth 0%R t i = (x ^ Z.to_nat i)%R) /\
    (forall i, j <= i < zlen tab -> znth 0%R t i = znth 0%R tab i)).
  destruct (for_inv P 2 n (fun i tab0 => t <- rd tab0 (i - 1) ;; wr tab0 i (t * x)%R) t0)
    as [t' [E [H1 [H2 H3]]]].
  - lia.
  - unfold P, t0. split; [now rewrite !zlen_upd|]. split.
    + intros i Hi. rewrite znth_upd by (rewrite ?zlen_upd; lia).
      destruct (Z.eqb_spec i 1) as [->|]; [cbn [Z.to_nat]; rewrite pow_1; reflexivity|].
      rewrite znth_upd by lia. destruct (Z.eqb_spec i 0) as [->|]; [reflexivity|lia].
    + intros i Hi. rewrite znth_upd by (rewrite ?zlen_upd; lia).
      destruct (Z.eqb_spec i 1); [lia|]. rewrite znth_upd by lia.
      destruct (Z.eqb_spec i 0); [lia|reflexivity].
  - intros j t Hj [L [A B]]. rewrite (rd_ok 0%R) by lia. cbn [bind].
    rewrite wr_ok by lia. eexists; split; [reflexivity|]. unfold P. rewrite zlen_upd.
    split; [exact L|]. split.
    + intros i Hi. rewrite znth_upd by lia. destruct (Z.eqb_spec i j) as [->|]; [|apply A; lia].
      rewrite A by lia. replace (Z.to_nat j) with (S (Z.to_nat (j - 1))) by lia. cbn [pow]. ring.
    + intros i Hi. rewrite znth_upd by lia. destruct (Z.eqb_spec i j); [lia|apply B; lia].
  - exists t'. split; [exact E|]. split; [exact H1|]. split; assumption.
Qed.
Lemma powers_short {N : Num} (x : T N) tab n : zlen tab < 2 -> powers x tab n = Err OOB.
Proof.
  intros H. unfold powers.
  destruct (Z.eq_dec (zlen tab) 0) as [E|E].
  - rewrite wr_oob by lia. reflexivity.
  - pose proof (zlen_nonneg tab). rewrite wr_ok by lia. cbn [bind]. rewrite wr_oob by (rewrite zlen_upd; lia).
    reflexivity.
Qed.

(** ** get_dichotomy_index *)
Section Dicho.
Context {N : Num}.

(** Reads stay inside the window and the search returns, whatever the contents (NaN included). *)
Lemma dicho_safe (x : T N) tab fuel mn mx :
  0 <= mn < mx -> mx <= zlen tab -> zlen tab < 2 ^ 63 -> mx - mn <= Z.of_nat fuel ->
  exists i, dicho fuel x tab mn mx = Ok i /\ mn <= i < mx.
Proof.
  revert mn mx; induction fuel as [|f IH]; intros mn mx Hm Hl Hz Hf; [lia|].
  cbn [dicho]. rewrite (u64_small (mx - 1)) by (unfold SIZE_T; lia).
  destruct (Z.eqb_spec mn (mx - 1)) as [E|E]; [exists mn; split; [reflexivity|lia]|].
  rewrite (u64_small (mn + mx)) by (unfold SIZE_T; lia).
  assert (Hi : mn < (mn + mx) / 2 < mx) by (pose proof (Z.div_mod (mn + mx) 2 ltac:(lia)); pose proof (Z.mod_pos_bound (mn + mx) 2 ltac:(lia)); lia).
  destruct (nth_error tab (Z.to_nat ((mn + mx) / 2))) as [t|] eqn:Ht.
  2:{ apply nth_error_None in Ht. unfold zlen in Hl; lia. }
  rewrite (rd_ok t) by lia. cbn [bind].
  destruct (nlt N x _).
  - destruct (IH mn ((mn + mx) / 2)) as [i [E1 E2]]; try lia. exists i; split; [exact E1|lia].
  - destruct (nlt N _ x).
    + destruct (IH ((mn + mx) / 2) mx) as [i [E1 E2]]; try lia. exists i; split; [exact E1|lia].
    + exists ((mn + mx) / 2). split; [reflexivity|lia].
Qed.

Context (G : T N -> Prop) (OL : order_laws N G) (d : T N).

Lemma dicho_bracket (x : T N) tab fuel mn mx top :
  G x -> (forall i, 0 <= i < zlen tab -> G (znth d tab i)) ->
  (forall i j, mn <= i < j -> j < top -> nlt N (znth d tab i) (znth d tab j) = true) ->
  0 <= mn < mx -> mx <= top -> top <= zlen tab -> zlen tab < 2 ^ 63 -> mx - mn <= Z.of_nat fuel ->
  nlt N x (znth d tab mn) = false ->
  (mx = top \/ nlt N x (znth d tab mx) = true) ->
  exists i, dicho fuel x tab mn mx = Ok i /\ mn <= i < mx /\
    nlt N x (znth d tab i) = false /\ (i = top - 1 \/ nlt N x (znth d tab (i + 1)) = true).
Proof.
  intros Gx Gt. revert mn mx; induction fuel as [|f IH]; intros mn mx Hs Hm Hmt Hl Hz Hf H1 H2; [lia|].
  cbn [dicho]. rewrite (u64_small (mx - 1)) by (unfold SIZE_T; lia).
  destruct (Z.eqb_spec mn (mx - 1)) as [E|E].
  { exists mn; split; [reflexivity|]. split; [lia|]. split; [exact H1|].
    destruct H2 as [->|H2]; [left; lia|right]. replace (mn + 1) with mx by lia. exact H2. }
  rewrite (u64_small (mn + mx)) by (unfold SIZE_T; lia).
  assert (Hi : mn < (mn + mx) / 2 < mx) by (pose proof (Z.div_mod (mn + mx) 2 ltac:(lia)); pose proof (Z.mod_pos_bound (mn + mx) 2 ltac:(lia)); lia).
  set (ind := (mn + mx) / 2) in *.
  rewrite (rd_ok d) by lia. cbn [bind].
  destruct (nlt N x (znth d tab ind)) eqn:Hlt.
  - destruct (IH mn ind) as [i [E1 E2]]; try lia; auto. exists i; split; [exact E1|].
    destruct E2 as [E2 [E3 E4]]. split; [lia|]. split; [exact E3|exact E4].
  - destruct (nlt N (znth d tab ind) x) eqn:Hgt.
    + destruct (IH ind mx) as [i [E1 E2]]; try lia; auto. { intros; apply Hs; lia. }
      exists i; split; [exact E1|].
      destruct E2 as [E2 [E3 E4]]. split; [lia|]. split; [exact E3|exact E4].
    + exists ind. split; [reflexivity|]. split; [lia|]. split; [exact Hlt|].
      destruct (Z.eq_dec ind (top - 1)) as [Et|Et]; [left; exact Et|right].
      apply (ol_le_lt N G OL x (znth d tab ind)); auto; try (apply Gt; lia). apply Hs; lia.
Qed.

Lemma dichotomy_bracket (x : T N) tab mn mx :
  G x -> (forall i, 0 <= i < zlen tab -> G (znth d tab i)) ->
  (forall i j, mn <= i < j -> j < mx -> nlt N (znth d tab i) (znth d tab j) = true) ->
  0 <= mn < mx -> mx <= zlen tab -> zlen tab < 2 ^ 63 ->
  nlt N x (znth d tab mn) = false ->
  exists i, get_dichotomy_index x tab mn mx = Ok i /\ mn <= i < mx /\
    nlt N x (znth d tab i) = false /\ (i = mx - 1 \/ nlt N x (znth d tab (i + 1)) = true).
Proof.
  intros. apply dicho_bracket; auto; lia.
Qed.

(** The bracket is unique. *)
Lemma bracket_unique (x : T N) tab lo1 lo2 top i j :
  G x -> (forall i, 0 <= i < zlen tab -> G (znth d tab i)) -> top <= zlen tab -> 0 <= lo1 -> 0 <= lo2 ->
  (forall i j, 0 <= i < j -> j < top -> nlt N (znth d tab i) (znth d tab j) = true) ->
  lo1 <= i < top -> nlt N x (znth d tab i) = false -> (i = top - 1 \/ nlt N x (znth d tab (i + 1)) = true) ->
  lo2 <= j < top -> nlt N x (znth d tab j) = false -> (j = top - 1 \/ nlt N x (znth d tab (j + 1)) = true) ->
  i = j.
Proof.
  intros Gx Gt Ht L1 L2 Hs Hi Hi1 Hi2 Hj Hj1 Hj2.
  assert (Hmono : forall a b, 0 <= a <= b -> b < top -> nlt N x (znth d tab a) = true -> nlt N x (znth d tab b) = true).
  { intros a b Hab Hb Ha. destruct (Z.eq_dec a b) as [->|Hne]; [exact Ha|].
    apply (ol_lt_le N G OL x (znth d tab a)); auto; try (apply Gt; lia).
    apply (ol_asym N G OL); try (apply Gt; lia). apply Hs; lia. }
  destruct (Z.lt_trichotomy i j) as [L|[E|L]]; [|exact E|].
  - destruct Hi2 as [->|Hi2]; [lia|]. rewrite (Hmono (i + 1) j) in Hj1 by (auto; lia). discriminate.
  - destruct Hj2 as [->|Hj2]; [lia|]. rewrite (Hmono (j + 1) i) in Hi1 by (auto; lia). discriminate.
Qed.
End Dicho.

(** ** interpol_lin *)
Local Open Scope R_scope.
Lemma interpol_lin_eq (x xmin xmax ymin ymax : R) :
  interpol_lin (N := RNum) x xmin xmax ymin ymax = (x - xmin) / (xmax - xmin) * (ymax - ymin) + ymin.
Proof. reflexivity. Qed.
Lemma interpol_lin_left x0 x1 y0 y1 : x0 <> x1 -> interpol_lin (N := RNum) x0 x0 x1 y0 y1 = y0.
Proof. intros H; rewrite interpol_lin_eq; rn; field. lra. Qed.
Lemma interpol_lin_right x0 x1 y0 y1 : x0 <> x1 -> interpol_lin (N := RNum) x1 x0 x1 y0 y1 = y1.
Proof. intros H; rewrite interpol_lin_eq; rn; field. lra. Qed.
Lemma interpol_lin_chord x x0 x1 y0 y1 : x0 <> x1 ->
  (interpol_lin (N := RNum) x x0 x1 y0 y1 - y0) * (x1 - x0) = (y1 - y0) * (x - x0).
Proof. intros H; rewrite interpol_lin_eq; rn; field. lra. Qed.
Lemma interpol_lin_between x x0 x1 y0 y1 : x0 < x1 -> x0 <= x <= x1 ->
  Rmin y0 y1 <= interpol_lin (N := RNum) x x0 x1 y0 y1 <= Rmax y0 y1.
Proof.
  intros H Hx. rewrite interpol_lin_eq.
  set (t := (x - x0) / (x1 - x0)).
  assert (Ht : 0 <= t <= 1).
  { unfold t; split; [apply Rmult_le_pos; [lra|left; apply Rinv_0_lt_compat; lra]|].
    apply (Rmult_le_reg_r (x1 - x0)); [lra|]. unfold Rdiv; rewrite Rmult_assoc, Rinv_l by lra. lra. }
  unfold Rmin, Rmax; destruct (Rle_dec y0 y1); split; nra.
Qed.
Lemma interpol_lin_mono x x' x0 x1 y0 y1 : x0 < x1 -> y0 <= y1 -> x <= x' ->
  interpol_lin (N := RNum) x x0 x1 y0 y1 <= interpol_lin (N := RNum) x' x0 x1 y0 y1.
Proof.
  intros H Hy Hx. rewrite !interpol_lin_eq.
  assert (Hi : 0 < / (x1 - x0)) by (apply Rinv_0_lt_compat; lra).
  unfold Rdiv. apply Rplus_le_compat_r, Rmult_le_compat_r; [lra|].
  apply Rmult_le_compat_r; lra.
Qed.
