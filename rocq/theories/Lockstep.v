(** Lockstep: two runs side by side. *)
From Coq Require Import ZArith Lia List.
From Verif Require Import Base BaseFacts.
Import ListNotations.
Local Open Scope Z_scope.

(** Both succeed with related results, or both stop with the same error. *)
Definition res_rel {A B} (R : A -> B -> Prop) (x : res A) (y : res B) : Prop :=
  match x, y with Ok a, Ok b => R a b | Err e, Err e' => e = e' | _, _ => False end.
Lemma bind_rel {A B C D} (R : A -> B -> Prop) (S : C -> D -> Prop) x y (f : A -> res C) (g : B -> res D) :
  res_rel R x y -> (forall a b, R a b -> res_rel S (f a) (g b)) -> res_rel S (bind x f) (bind y g).
Proof. destruct x, y; cbn; auto; contradiction. Qed.
Lemma rel_refl {A} (R : A -> A -> Prop) x : (forall a, x = Ok a -> R a a) -> res_rel R x x.
Proof. destruct x; cbn; auto. Qed.
Lemma rel_eq {A} (x y : res A) : res_rel eq x y <-> x = y.
Proof. destruct x, y; cbn; split; try congruence; contradiction. Qed.
Lemma rel_imp {A B} (R S : A -> B -> Prop) x y : (forall a b, R a b -> S a b) -> res_rel R x y -> res_rel S x y.
Proof. intros H. destruct x, y; cbn; auto. Qed.
(** The same error-prone computation on both sides. *)
Lemma bind_same {A C D} (S : C -> D -> Prop) (x : res A) (f : A -> res C) (g : A -> res D) :
  (forall a, x = Ok a -> res_rel S (f a) (g a)) -> res_rel S (bind x f) (bind x g).
Proof. destruct x; cbn; auto. Qed.
Lemma loop_rel {A B} (R : A -> B -> Prop) n : forall i (f : Z -> A -> res A) (g : Z -> B -> res B) a b,
  R a b -> (forall j a b, i <= j < i + Z.of_nat n -> R a b -> res_rel R (f j a) (g j b)) -> res_rel R (loop n i f a) (loop n i g b).
Proof.
  induction n as [|n IH]; intros i f g a b H Hs; [exact H|]. cbn [loop].
  apply (bind_rel R); [apply Hs; [lia|exact H]|]. intros a' b' H'. apply IH; [exact H'|]. intros. apply Hs; [lia|assumption].
Qed.
Lemma for_rel {A B} (R : A -> B -> Prop) lo hi (f : Z -> A -> res A) (g : Z -> B -> res B) a b :
  R a b -> (forall j a b, lo <= j < hi -> R a b -> res_rel R (f j a) (g j b)) -> res_rel R (for_ lo hi f a) (for_ lo hi g b).
Proof. intros H Hs. apply loop_rel; [exact H|]. intros. apply Hs; [lia|assumption]. Qed.
