(** ProofGamma2d: exchange symmetry of the elongated and collinear expansions. *)
From Coq Require Import Reals Lra Lia List.
From Verif Require Import Base Num BaseFacts Common Kernels GExpr Gamma2dSrc Gamma2tSrc Gamma2 ProofSearch ProofKernels ProofGamma2 ProofGamma2b ProofGamma2c.
Import ListNotations.
Local Open Scope R_scope.

(** An expression that does not use the arrays k1 and k2 does not depend on them. *)
Fixpoint gno12 (x : gexpr) : bool :=
  match x with
  | GLit _ _ | GPi => true
  | GIdx v n => match v with gk1 | gk2 => false | _ => true end
  | GNeg a | GSqrt a | GLog a | GAbs a | GPower a _ => gno12 a
  | GAdd a b | GSub a b | GMul a b | GDiv a b | GPow a b | GLFunc a b | GSmallBeta a b => gno12 a && gno12 b
  | GWFunc a b c e | GBigBeta a b c e => gno12 a && gno12 b && gno12 c && gno12 e
  end.
Lemma gden_no12 ev ev' x : gno12 x = true -> (forall v, v <> gk1 -> v <> gk2 -> ev v = ev' v) -> gden ev x = gden ev' x.
Proof.
  intros H HE. induction x; cbn [gno12 gden] in *;
    repeat match goal with H : _ && _ = true |- _ => apply andb_prop in H; destruct H end;
    repeat match goal with IH : ?A -> gden ev _ = _, H : ?A |- _ => rewrite (IH H); clear IH end; try reflexivity.
  destruct v; try discriminate; rewrite HE by discriminate; reflexivity.
Qed.
Lemma elongate_sym a k1 k2 k3 q : gden (evE k1 k2 k3 q) (s_elongate (g2_of a)) = gden (evE k2 k1 k3 q) (s_elongate (g2_of a)).
Proof.
  apply gden_no12; [destruct a; vm_compute; reflexivity|].
  intros [] N1 N2; cbn [evE]; try reflexivity; try congruence; rewrite (Rmax_comm k1), ?(Rmin_comm k1); reflexivity.
Qed.

Section Coll.
Variables k1 k2 k3 q : R.
Hypotheses (P1 : 0 < k1) (P2 : 0 < k2) (P3 : 0 < k3) (Pq : 0 < q).
Let A := q * q * (k1 * k1 - k2 * k2 + q * q).
Let B := q * q * (k2 * k2 - k1 * k1 + q * q).
Let sa := R_sqrt.sqrt A.
Let sb := R_sqrt.sqrt B.
Let la := ln ((2 * (k1 * k1) * q - k2 * k2 * q + q * q * q + 2 * k1 * sa) / (2 * (k1 * k1) * q - k2 * k2 * q + q * q * q - 2 * k1 * sa)).
Let lb := ln ((2 * (k2 * k2) * q - k1 * k1 * q + q * q * q + 2 * k2 * sb) / (2 * (k2 * k2) * q - k1 * k1 * q + q * q * q - 2 * k2 * sb)).
Ltac roots :=
  repeat match goal with
  | |- context [R_sqrt.sqrt ?b] =>
    first [ replace (R_sqrt.sqrt b) with sa by (unfold sa, A; f_equal; ring)
          | replace (R_sqrt.sqrt b) with sb by (unfold sb, B; f_equal; ring) ]
  end.
Lemma opp_div n d d' : d' = - d -> - (n / d) = n / d'.
Proof. intros ->. unfold Rdiv. rewrite Rinv_opp. ring. Qed.
Ltac logs :=
  repeat match goal with
  | |- context [ln (- (?n / ?d))] =>
    first [ replace (ln (- (n / d))) with la by (unfold la; rewrite (opp_div n d (- d)) by reflexivity; f_equal; f_equal; [ring|f_equal; ring])
          | replace (ln (- (n / d))) with lb by (unfold lb; rewrite (opp_div n d (- d)) by reflexivity; f_equal; f_equal; [ring|f_equal; ring]) ]
  | |- context [ln (?n / ?d)] =>
    first [ replace (ln (n / d)) with la by (unfold la; f_equal; f_equal; [ring|f_equal; ring])
          | replace (ln (n / d)) with lb by (unfold lb; f_equal; f_equal; [ring|f_equal; ring]) ]
  end.
Let pa := Rpow A (15 / 10).
Let pb := Rpow B (15 / 10).
Ltac rpows :=
  change (10 ^ 1)%Z with 10%Z;
  repeat match goal with |- context [Rpow ?a (15 / 10)] =>
    first [ replace (Rpow a (15 / 10)) with pa by (unfold pa, A; f_equal; ring)
          | replace (Rpow a (15 / 10)) with pb by (unfold pb, B; f_equal; ring) ] end.
Hypotheses (N1 : k1 <> q) (N2 : k2 <> q) (Hab : Rabs (k1 * k1 - k2 * k2) < q * q).
Let HA : 0 < k1 * k1 - k2 * k2 + q * q.
Proof. apply Rabs_def2 in Hab. lra. Qed.
Let HB : 0 < k2 * k2 - k1 * k1 + q * q.
Proof. apply Rabs_def2 in Hab. lra. Qed.
Let Hsa : 0 < sa.
Proof. apply sqrt_lt_R0. unfold A. apply Rmult_lt_0_compat; nra. Qed.
Let Hsb : 0 < sb.
Proof. apply sqrt_lt_R0. unfold B. apply Rmult_lt_0_compat; nra. Qed.
Let Hpa : 0 < pa.
Proof. unfold pa. rewrite Rpow_pos; [apply exp_pos|]. unfold A. apply Rmult_lt_0_compat; nra. Qed.
Let Hpb : 0 < pb.
Proof. unfold pb. rewrite Rpow_pos; [apply exp_pos|]. unfold B. apply Rmult_lt_0_compat; nra. Qed.
Let HD1 : q * q - k1 * k1 <> 0.
Proof. intros E. apply N1. nra. Qed.
Let HD2 : q * q - k2 * k2 <> 0.
Proof. intros E. apply N2. nra. Qed.
Ltac sidesC := repeat split; try lra;
  match goal with |- ?e <> 0 =>
    first [ replace e with (k1 * k1 - k2 * k2 + q * q) by ring; lra
          | replace e with (k2 * k2 - k1 * k1 + q * q) by ring; lra
          | replace e with (q * (q * q - k1 * k1)) by ring; apply Rmult_integral_contrapositive_currified; [lra|assumption]
          | replace e with (q * (q * q - k2 * k2)) by ring; apply Rmult_integral_contrapositive_currified; [lra|assumption]
          | replace e with (q * q - k1 * k1) by ring; assumption
          | replace e with (q * q - k2 * k2) by ring; assumption
          | replace e with (- (q * q - k1 * k1)) by ring; apply Ropp_neq_0_compat; assumption
          | replace e with (- (q * q - k2 * k2)) by ring; apply Ropp_neq_0_compat; assumption ] end.
(** The expansions are sums of a rational part and of pairs of terms that are exchanged.  Each is compared
    alone, which keeps the terms that the kernel has to normalise small. *)
Lemma lin6 c D c' D' t1 t2 t3 t4 t5 t6 t1' t2' t3' t4' t5' t6' :
  c * t1 / D = c' * t1' / D' -> c * t2 / D = c' * t2' / D' -> c * t3 / D = c' * t4' / D' -> c * t4 / D = c' * t3' / D' ->
  c * t5 / D = c' * t6' / D' -> c * t6 / D = c' * t5' / D' ->
  c * (t1 + t2 + t3 + t4 + t5 + t6) / D = c' * (t1' + t2' + t3' + t4' + t5' + t6') / D'.
Proof. unfold Rdiv. rewrite !Rmult_plus_distr_l, !Rmult_plus_distr_r. intros -> -> -> -> -> ->. ring. Qed.
Lemma lin7 c D c' D' t0 t1 t2 t3 t4 t5 t6 t0' t1' t2' t3' t4' t5' t6' :
  c * (t0 + t1 + t2) / D = c' * (t0' + t1' + t2') / D' -> c * t3 / D = c' * t4' / D' -> c * t4 / D = c' * t3' / D' ->
  c * t5 / D = c' * t6' / D' -> c * t6 / D = c' * t5' / D' ->
  c * (t0 + t1 + t2 + t3 + t4 + t5 + t6) / D = c' * (t0' + t1' + t2' + t3' + t4' + t5' + t6') / D'.
Proof.
  unfold Rdiv. intros E3 E4 E5 E6 E7.
  transitivity (c * (t0 + t1 + t2) * / D + c * t3 * / D + c * t4 * / D + c * t5 * / D + c * t6 * / D); [ring|].
  rewrite E3, E4, E5, E6, E7. ring.
Qed.
Ltac coll :=
  gexp; roots; logs; rpows; clearbody sa sb la lb pa pb; unfold Rminus;
  apply f_equal2; [apply f_equal2; [apply lin6|apply lin6]|apply lin7]; field; sidesC.
Lemma d_coll_sym : gden (evC k1 k2 k3 q) g2d_coll = gden (evC k2 k1 k3 q) g2d_coll.
Proof. unfold g2d_coll. coll. Qed.
Lemma t_coll_sym : gden (evC k1 k2 k3 q) g2t_coll = gden (evC k2 k1 k3 q) g2t_coll.
Proof. unfold g2t_coll. coll. Qed.
End Coll.

(** The value of every function of the files is symmetric. *)
Lemma g2_val_sym a b k1 k2 k3 q : 0 < k1 -> 0 < k2 -> 0 < k3 -> 0 < q ->
  (b = BColl -> k1 <> q /\ k2 <> q /\ Rabs (k1 * k1 - k2 * k2) < q * q) ->
  g2_val (g2_of a) b k1 k2 k3 q = g2_val (g2_of a) b k2 k1 k3 q.
Proof.
  intros P1 P2 P3 Pq HC. destruct b; cbn [g2_val].
  - destruct a; [apply d_exact_sym|apply t_exact_sym]; assumption.
  - destruct a; cbn [g2_of g2d_src g2t_src s_polys s_betas s_den]; rewrite den_sym by assumption.
    + rewrite d_polys_sym, d_betas_sym by assumption. reflexivity.
    + rewrite t_polys_sym, t_betas_sym by assumption. reflexivity.
  - destruct a; [apply d_highk_sym|apply t_highk_sym]; assumption.
  - destruct a; [apply d_lowk_sym|apply t_lowk_sym]; assumption.
  - apply elongate_sym.
  - destruct (HC eq_refl) as [N1 [N2 Hab]]. destruct a; [apply d_coll_sym|apply t_coll_sym]; assumption.
Qed.
