(** Order: the order properties of [<] used by the table search, for reals and for doubles that
    are not NaN. *)
From Coq Require Import Reals Lra Floats.
From Verif Require Import Base Num BaseFacts.
Local Open Scope Z_scope.

(** [<] is a strict weak order on the values satisfying [G]. *)
Record order_laws (N : Num) (G : T N -> Prop) : Prop := {
  ol_asym : forall x y, G x -> G y -> nlt N x y = true -> nlt N y x = false;
  ol_le_lt : forall x y z, G x -> G y -> G z -> nlt N y x = false -> nlt N y z = true -> nlt N x z = true;
  ol_lt_le : forall x y z, G x -> G y -> G z -> nlt N x y = true -> nlt N z y = false -> nlt N x z = true }.

Lemma R_order : order_laws RNum (fun _ => True).
Proof.
  split; rn; intros *; rewrite ?Rltb_true, ?Rltb_false; intros; lra.
Qed.

(** Doubles: not NaN. *)
Definition not_nan (x : float) : Prop := PrimFloat.eqb x x = true.

Definition sf_lt (x y : spec_float) : bool :=
  match SFcompare x y with Some Lt => true | _ => false end.
Lemma flt_sf x y : PrimFloat.ltb x y = sf_lt (Prim2SF x) (Prim2SF y).
Proof. rewrite FloatAxioms.ltb_spec. unfold SFltb, sf_lt. reflexivity. Qed.
Lemma not_nan_sf x : not_nan x -> Prim2SF x <> S754_nan.
Proof. unfold not_nan; rewrite FloatAxioms.eqb_spec; intros H E; rewrite E in H; discriminate H. Qed.

(** An order embedding of spec floats (other than NaN) in triples of integers compared
    lexicographically. *)
Definition sf_key (x : spec_float) : Z * Z * Z :=
  match x with
  | S754_nan => (0, 0, 0)
  | S754_zero _ => (0, 0, 0)
  | S754_infinity s => if s then (-2, 0, 0) else (2, 0, 0)
  | S754_finite s m e => if s then (-1, -e, - Z.pos m) else (1, e, Z.pos m)
  end.
Definition lex (a b : Z * Z * Z) : Prop :=
  let '(a1, a2, a3) := a in let '(b1, b2, b3) := b in
  a1 < b1 \/ (a1 = b1 /\ (a2 < b2 \/ (a2 = b2 /\ a3 < b3))).
Lemma sf_lt_key x y : x <> S754_nan -> y <> S754_nan ->
  (sf_lt x y = true <-> lex (sf_key x) (sf_key y)).
Proof.
  intros Hx Hy. unfold sf_lt, sf_key, lex, SFcompare.
  destruct x as [sx|sx| |sx mx ex]; destruct y as [sy|sy| |sy my ey]; try congruence;
    try destruct sx; try destruct sy; cbn; try (split; intros; try discriminate; try lia; reflexivity).
  - destruct (Z.compare_spec ex ey) as [E|E|E].
    + change (Pos.compare_cont Eq mx my) with (Pos.compare mx my).
      destruct (Pos.compare_spec mx my); cbn; split; intros; try discriminate; try lia; reflexivity.
    + cbn; split; intros; try discriminate; lia.
    + cbn; split; intros; try discriminate; try lia; reflexivity.
  - destruct (Z.compare_spec ex ey) as [E|E|E].
    + change (Pos.compare_cont Eq mx my) with (Pos.compare mx my).
      destruct (Pos.compare_spec mx my); cbn; split; intros; try discriminate; try lia; reflexivity.
    + cbn; split; intros; try discriminate; try lia; reflexivity.
    + cbn; split; intros; try discriminate; lia.
Qed.
Lemma lex_asym a b : lex a b -> ~ lex b a.
Proof. destruct a as [[a1 a2] a3], b as [[b1 b2] b3]; unfold lex; lia. Qed.
Lemma lex_le_lt a b c : ~ lex b a -> lex b c -> lex a c.
Proof. destruct a as [[a1 a2] a3], b as [[b1 b2] b3], c as [[c1 c2] c3]; unfold lex; lia. Qed.
Lemma lex_lt_le a b c : lex a b -> ~ lex c b -> lex a c.
Proof. destruct a as [[a1 a2] a3], b as [[b1 b2] b3], c as [[c1 c2] c3]; unfold lex; lia. Qed.

Lemma bool_false_not b P : (b = true <-> P) -> (b = false <-> ~ P).
Proof.
  intros [H1 H2]; destruct b; split; intros H; try discriminate.
  - destruct (H (H1 eq_refl)).
  - intros HP; specialize (H2 HP); discriminate.
  - reflexivity.
Qed.

Lemma F_order lm : order_laws (FNum lm) not_nan.
Proof.
  split; cbn [FNum nlt T]; intros *; rewrite !flt_sf.
  - intros Hx Hy. apply not_nan_sf in Hx, Hy.
    pose proof (sf_lt_key _ _ Hx Hy) as Hxy. pose proof (bool_false_not _ _ (sf_lt_key _ _ Hy Hx)) as Hyx.
    rewrite Hxy, Hyx. apply lex_asym.
  - intros Hx Hy Hz. apply not_nan_sf in Hx, Hy, Hz.
    rewrite (bool_false_not _ _ (sf_lt_key _ _ Hy Hx)), (sf_lt_key _ _ Hy Hz), (sf_lt_key _ _ Hx Hz).
    apply lex_le_lt.
  - intros Hx Hy Hz. apply not_nan_sf in Hx, Hy, Hz.
    rewrite (sf_lt_key _ _ Hx Hy), (bool_false_not _ _ (sf_lt_key _ _ Hz Hy)), (sf_lt_key _ _ Hx Hz).
    apply lex_lt_le.
Qed.
