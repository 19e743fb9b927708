(** ProofPy8: Terms.zeros (C108). *)
From Coq Require Import Reals ZArith List String Lia Lra Bool.
From Verif Require Import Base Num BaseFacts Common Registry PyTerms Spec SpecPy SpecDamped Sums ProofPy ProofPy2 ProofPy4 ProofPy5 ProofPy7 ProofDamped.
Import ListNotations.
Local Open Scope R_scope.

Lemma keys_setitem {N} (c : columns N) x v y : In y (map fst (setitem c x v)) <-> y = x \/ In y (map fst c).
Proof.
  rewrite !assoc_In. assert (G : forall (d : columns N) z, (exists w, assoc d z = Some w) <-> (exists w, getitem d z = Ok w)).
  { intros d z. split; intros (w & H); exists w; apply getitem_assoc, H. }
  rewrite !G. setoid_rewrite (getitem_set c x v y). destruct (String.eqb_spec x y) as [->|E]; [split; [intros _; left; reflexivity|intros _; eauto]|].
  split; [intros H; right; exact H|intros [H|H]; [congruence|exact H]].
Qed.
Lemma each_field_sets {N : Num} (f : columns N -> string -> columns N * outcome) (w : string -> list (T N)) l : (forall c x, f c x = if String.eqb x "k" then (c, Done) else (setitem c x (w x), Done)) -> forall c,
  exists c', each_field f c l = (c', Done) /\ (forall y, In y l -> y <> "k"%string -> getitem c' y = Ok (w y)) /\ (forall y, ~ In y l \/ y = "k"%string -> getitem c' y = getitem c y) /\
    (forall y, In y (map fst c') <-> In y (map fst c) \/ (In y l /\ y <> "k"%string)).
Proof.
  intros Hf. induction l as [|x l IH] using rev_ind; intros c.
  - exists c. split; [reflexivity|]. split; [intros y []|]. split; [reflexivity|]. intros y. cbn. tauto.
  - destruct (IH c) as (c' & E & A & B & C). unfold each_field in *. rewrite fold_left_app, E. cbn [fold_left]. rewrite Hf. destruct (String.eqb_spec x "k") as [->|Hx].
    + exists c'. split; [reflexivity|]. split; [intros y Hy Hk; apply in_app_or in Hy as [Hy|[Hy|[]]]; [apply A; assumption|congruence]|].
      split; [intros y Hy; apply B; rewrite in_app_iff in Hy; tauto|]. intros y. rewrite C, in_app_iff. cbn. intuition congruence.
    + exists (setitem c' x (w x)). split; [reflexivity|]. split; [|split].
      * intros y Hy Hk. rewrite getitem_set. destruct (String.eqb_spec x y) as [->|Ne]; [reflexivity|]. apply in_app_or in Hy as [Hy|[Hy|[]]]; [apply A; assumption|congruence].
      * intros y Hy. rewrite getitem_set. rewrite in_app_iff in Hy. cbn in Hy. destruct (String.eqb_spec x y) as [->|Ne]; [exfalso; tauto|]. apply B. tauto.
      * intros y. rewrite keys_setitem, C, in_app_iff. cbn. intuition congruence.
Qed.
Definition comps (cl : pyclass) (x : string) : nat := match ncomp cl x with Some m => Z.to_nat m | None => 1 end.
Lemma comps_len {N : Num} cl x (k : list (T N)) : match ncomp cl x with Some m => Z.to_nat (zlen k * m) | None => List.length k end = (List.length k * comps cl x)%nat.
Proof. unfold comps, zlen. destruct cl; cbn; try (destruct (x =? "pk")%string); lia. Qed.
Lemma zeros_effect {N} cl (c : columns N) k : has_ctype cl = true ->
  exists c', zeros cl c k = (c', Done) /\ getitem c' "k" = Ok k /\
    (forall x, In x (fields cl) -> x <> "k"%string -> getitem c' x = Ok (repeat (nZ N 0) (List.length k * match ncomp cl x with Some m => Z.to_nat m | None => 1 end))) /\
    (forall x, ~ In x (fields cl) -> getitem c' x = getitem c x) /\ (forall x, In x (map fst c') <-> In x (map fst c) \/ In x (fields cl)).
Proof.
  intros H. unfold zeros. rewrite H.
  destruct (each_field_sets (fun c key => if String.eqb key "k" then (c, Done) else (setitem c key (repeat (nZ N 0) match ncomp cl key with Some m => Z.to_nat (zlen k * m) | None => List.length k end), Done))
    (fun key => repeat (nZ N 0) match ncomp cl key with Some m => Z.to_nat (zlen k * m) | None => List.length k end) (fields cl) (fun _ _ => eq_refl) (setitem c "k" k)) as (c' & E & A & B & C).
  exists c'. split; [exact E|]. split; [rewrite B by (right; reflexivity); rewrite getitem_set; reflexivity|]. split; [|split].
  - intros x Hx Hk. rewrite (A x Hx Hk), comps_len. reflexivity.
  - intros x Hx. rewrite B by (left; exact Hx). rewrite getitem_set. destruct (String.eqb_spec "k" x) as [<-|]; [exfalso; apply Hx, k_field|reflexivity].
  - intros x. rewrite C, keys_setitem. destruct (string_dec x "k") as [->|Ne]; [|tauto]. pose proof (k_field cl). tauto.
Qed.
Lemma zeros_complete {N} cl (c c' : columns N) k : (forall x, In x (map fst c) -> In x (fields cl)) -> zeros cl c k = (c', Done) -> complete cl c' (List.length k).
Proof.
  intros Hc E. assert (H : has_ctype cl = true) by (destruct cl; try reflexivity; discriminate E).
  destruct (zeros_effect cl c k H) as (c2 & E2 & A & B & C & D). rewrite E in E2. injection E2 as <-.
  assert (K : forall x, In x (map fst c') <-> In x (fields cl)) by (intros x; rewrite D; split; [intros [Hx|Hx]; [apply Hc, Hx|exact Hx]|tauto]).
  split; [exact K|]. intros x v Hv. assert (Hx : In x (fields cl)) by (apply K, assoc_In; exists v; apply getitem_assoc, Hv).
  destruct (string_dec x "k") as [->|Ne].
  - rewrite A in Hv. injection Hv as <-. destruct cl; cbn; lia.
  - rewrite (B x Hx Ne) in Hv. injection Hv as <-. apply repeat_length.
Qed.
(** Nothing of the declared columns survives *)
Lemma zeros_forgets {N} cl (c d c' d' : columns N) k : zeros cl c k = (c', Done) -> zeros cl d k = (d', Done) -> forall x, In x (fields cl) -> getitem c' x = getitem d' x.
Proof.
  intros E E' x Hx. assert (H : has_ctype cl = true) by (destruct cl; try reflexivity; discriminate E).
  destruct (zeros_effect cl c k H) as (c2 & E2 & A & B & _). rewrite E in E2. injection E2 as <-. destruct (zeros_effect cl d k H) as (d2 & E3 & A' & B' & _). rewrite E' in E3. injection E3 as <-.
  destruct (string_dec x "k") as [->|Ne]; [congruence|]. rewrite (B x Hx Ne), (B' x Hx Ne). reflexivity.
Qed.
Lemma entry_repeat (c : columns RNum) x n i : getitem c x = Ok (repeat (0 : R) n) -> entry c x i = 0.
Proof. intros H. unfold entry. rewrite H. destruct (Nat.lt_ge_cases i n) as [L|L]; [apply (repeat_spec n), nth_In; rewrite repeat_length; exact L|apply nth_overflow; rewrite repeat_length; exact L]. Qed.
Lemma map_zeros (f : nat -> R) n : (forall i, f i = 0) -> map f (seq 0 n) = repeat 0 n.
Proof. intros H. assert (G : forall m a, map f (seq a m) = repeat 0 m) by (induction m as [|m IH]; intros a; cbn; [reflexivity|rewrite H, IH; reflexivity]). apply G. Qed.
Lemma zeros_spectra cl (c c' : columns RNum) k : (forall x, In x (map fst c) -> In x (fields cl)) -> zeros (N := RNum) cl c k = (c', Done) ->
  (forall x D, In x (named cl) -> accessor (N := RNum) cl x c' D = Ok (repeat 0 (List.length k * match ncomp cl x with Some m => Z.to_nat m | None => 1 end))) /\
  (forall D, cl = C1Loop -> pk_1loop (N := RNum) c' D None = Ok (repeat 0 (List.length k))) /\ (forall D, cl = C2Loop -> pk_2loop (N := RNum) c' D None = Ok (repeat 0 (List.length k))) /\
  (forall D, cl = CBias -> pk_sigma3sq (N := RNum) c' D = Ok (repeat 0 (List.length k)) /\ forall x, In x one_loop_bias -> pk_damped (N := RNum) x c' D None = Ok (repeat 0 (List.length k))).
Proof.
  intros Hc E. pose proof (zeros_complete cl c c' k Hc E) as HC. assert (H : has_ctype cl = true) by (destruct cl; try reflexivity; discriminate E).
  destruct (zeros_effect cl c k H) as (c2 & E2 & A & B & _). rewrite E in E2. injection E2 as <-.
  assert (Z : forall x i, In x (fields cl) -> x <> "k"%string -> entry c' x i = 0) by (intros x i Hx Ne; exact (entry_repeat _ _ _ _ (B x Hx Ne))).
  split; [|split; [|split]].
  - intros x D Hx. rewrite (named_val cl c' _ x D HC Hx). f_equal. apply map_zeros. intros i. rewrite Z; [apply Rmult_0_r| |]; destruct cl; cbn in Hx |- *; intuition (subst; auto; discriminate).
  - intros D ->. rewrite (pk_1loop_val c' _ D HC). f_equal. apply map_zeros. intros i. rewrite (Z "pk_lin"%string), (Z "pk_gamma2_tree_tree"%string); try (cbn; tauto); try discriminate. unfold regpt_1loop. ring.
  - intros D ->. rewrite (pk_2loop_val c' _ D HC). f_equal. apply map_zeros. intros i.
    rewrite (Z "pk_lin"%string), (Z "pk_gamma2_tree_tree"%string), (Z "pk_gamma2_tree_1loop"%string), (Z "pk_gamma2_1loop_1loop"%string), (Z "pk_gamma3_tree"%string); try (cbn; tauto); try discriminate. unfold regpt_2loop. ring.
  - intros D ->. split.
    + rewrite (sigma3sq_val c' _ D HC). f_equal. apply map_zeros. intros i. rewrite (Z "pk_lin"%string); [ring|cbn; tauto|discriminate].
    + intros x Hx. etransitivity; [exact (damped_val c' _ x D None HC Hx I)|]. f_equal. apply map_zeros. intros i. rewrite (Z x); [unfold damped; ring| |]; cbn in Hx |- *; intuition (subst; auto; discriminate).
Qed.
Lemma zeros_lin {N} (c : columns N) k : zeros CLin c k = (setitem c "k" k, Raised AttributeError).
Proof. reflexivity. Qed.
