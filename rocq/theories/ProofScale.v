(** ProofScale: lookups and running variances of a table whose wavenumbers are multiplied by [s] and whose values by [u]. *)
From Coq Require Import ZArith Lia List Bool Reals Lra.
From Verif Require Import Base Num BaseFacts Lockstep Common.
Import ListNotations.
Local Open Scope R_scope.

Definition tm (c x y : R) : Prop := y = c * x.
Definition tms (c : R) (l l' : list R) : Prop := l' = map (Rmult c) l.
Lemma rd_tms c l l' i : tms c l l' -> res_rel (tm c) (rd l i) (rd l' i).
Proof. intros ->. unfold rd, zlen. rewrite map_length. destruct (_ && _); [|reflexivity]. rewrite nth_error_map. destruct (nth_error l (Z.to_nat i)); reflexivity. Qed.
Lemma upd_map {A B} (f : A -> B) l n a : upd (map f l) n (f a) = map f (upd l n a).
Proof. revert n. induction l as [|x l IH]; intros [|n]; cbn; auto. rewrite IH. reflexivity. Qed.
Lemma wr_tms c l l' i v v' : tms c l l' -> tm c v v' -> res_rel (tms c) (wr l i v) (wr l' i v').
Proof. intros -> ->. unfold wr, zlen. rewrite map_length. destruct (_ && _); [|reflexivity]. apply upd_map. Qed.
Lemma ratio s a b : s <> 0 -> s * a / (s * b) = a / b.
Proof. intros H. unfold Rdiv. rewrite Rinv_mult. replace (s * a * (/ s * / b)) with (s * / s * (a * / b)) by ring. rewrite Rinv_r by exact H. ring. Qed.
Lemma times_ltb s x y : 0 < s -> Rltb (s * x) (s * y) = Rltb x y.
Proof. intros H. destruct (Rltb_spec x y) as [L|L]; [apply Rltb_true, Rmult_lt_compat_l; auto|apply Rltb_false, Rmult_le_compat_l; lra]. Qed.
Lemma times_leb s x y : 0 < s -> Rleb (s * x) (s * y) = Rleb x y.
Proof. intros H. destruct (Rleb_spec x y) as [L|L]; [apply Rleb_true, Rmult_le_compat_l; lra|apply Rleb_false, Rmult_lt_compat_l; lra]. Qed.
Lemma times_le0 s x : 0 < s -> Rleb (s * x) 0 = Rleb x 0.
Proof. intros H. rewrite <- (times_leb s x 0 H). rewrite Rmult_0_r. reflexivity. Qed.
Lemma times_abs s x : 0 < s -> Rabs (s * x) = s * Rabs x.
Proof. intros H. rewrite Rabs_mult, (Rabs_right s) by lra. reflexivity. Qed.

Section Scale.
Variables (s u : R).
Hypotheses (Hs : 0 < s) (Hu : 0 < u).
Let s0 : s <> 0. Proof. lra. Qed.
Let u0 : u <> 0. Proof. lra. Qed.
Local Notation "x ~s y" := (tm s x y) (at level 70).
Definition stretched (p p' : Pk RNum) : Prop := pk_n p' = pk_n p /\ tms s (pk_k p) (pk_k p') /\ tms u (pk_p p) (pk_p p').

Lemma dicho_s n : forall x (tab tab' : list R) mn mx, tms s tab tab' -> res_rel eq (dicho (N := RNum) n x tab mn mx) (dicho (N := RNum) n (s * x) tab' mn mx).
Proof.
  induction n as [|n IH]; intros x tab tab' mn mx Ht; [reflexivity|]. cbn [dicho]. destruct (_ =? _)%Z; [reflexivity|].
  eapply bind_rel; [apply rd_tms; exact Ht|]. intros t t' E. red in E. subst t'. rn. rewrite !times_ltb by exact Hs. destruct (Rltb x t); [apply IH, Ht|]. destruct (Rltb t x); [apply IH, Ht|reflexivity].
Qed.
Lemma lin_s x a b y z : interpol_lin (N := RNum) (s * x) (s * a) (s * b) (u * y) (u * z) = u * interpol_lin (N := RNum) x a b y z.
Proof. unfold interpol_lin. rn. rewrite <- !Rmult_minus_distr_l, ratio by exact s0. ring. Qed.
Lemma scan_s x tabx tabx' taby taby' n d d' c c' e e' : tms s tabx tabx' -> tms u taby taby' -> tm s d d' -> tms u c c' -> tms u e e' ->
  res_rel (fun a b => fst (fst (fst a)) = fst (fst (fst b)) /\ tm s (snd (fst (fst a))) (snd (fst (fst b))) /\ tms u (snd (fst a)) (snd (fst b)) /\ tms u (snd a) (snd b))
    (ip_scan (N := RNum) x tabx taby n d c e) (ip_scan (N := RNum) (s * x) tabx' taby' n d' c' e').
Proof.
  intros Hx Hy Hd Hc He. unfold ip_scan. apply for_rel; [cbn; auto|]. intros j [[[i a] b] f] [[[i' a'] b'] f'] _ (E & A & B & F). cbn [fst snd] in *. subst i'.
  eapply bind_rel; [apply rd_tms; exact Hx|]. intros t t' Ht. red in Ht, A. subst t' a'. rn. rewrite <- Rmult_minus_distr_l, (times_abs s) by exact Hs. rewrite times_ltb by exact Hs.
  assert (X : exists i1 a1, (if Rltb (Rabs (x - t)) a then (j, Rabs (x - t)) else (i, a)) = (i1, a1) /\ (if Rltb (Rabs (x - t)) a then (j, s * Rabs (x - t)) else (i, s * a)) = (i1, s * a1)) by (destruct (Rltb _ a); eauto).
  destruct X as (i1 & a1 & -> & ->). eapply bind_rel; [apply rd_tms; exact Hy|]. intros y y' Y. eapply bind_rel; [apply wr_tms; eassumption|]. intros c1 c1' C1. eapply bind_rel; [apply wr_tms; eassumption|]. intros d1 d1' D1. cbn. repeat split; auto.
Qed.
Lemma column_s x tabx tabx' n j c c' d d' : tms s tabx tabx' -> tms u c c' -> tms u d d' ->
  res_rel (fun a b => tms u (fst a) (fst b) /\ tms u (snd a) (snd b)) (ip_column (N := RNum) x tabx n j c d) (ip_column (N := RNum) (s * x) tabx' n j c' d').
Proof.
  intros Hx Hc Hd. unfold ip_column. apply for_rel; [cbn; auto|]. intros i [a b] [a' b'] _ (A & B). cbn [fst snd] in *.
  eapply bind_rel; [apply rd_tms; exact A|]. intros c1 c1' C1. eapply bind_rel; [apply rd_tms; exact B|]. intros d1 d1' D1. eapply bind_rel; [apply rd_tms; exact Hx|]. intros x0 x0' X0. eapply bind_rel; [apply rd_tms; exact Hx|]. intros xj xj' XJ.
  red in C1, D1, X0, XJ. subst. rn. rewrite <- !Rmult_minus_distr_l. assert (E : u * (c1 - d1) / (s * (x0 - xj)) = u / s * ((c1 - d1) / (x0 - xj))) by (unfold Rdiv; rewrite Rinv_mult; ring). rewrite E.
  clear E. set (r := (c1 - d1) / (x0 - xj)). clearbody r. assert (Q : forall y, tm u (y * r) (s * y * (u / s * r))) by (intros y; red; field; exact s0).
  eapply bind_rel; [apply wr_tms; [exact A|apply Q]|]. intros e e' E1. eapply bind_rel; [apply wr_tms; [exact B|apply Q]|]. intros f f' F. cbn. auto.
Qed.
Lemma repeat_tms c n : tms c (repeat 0 n) (repeat 0 n).
Proof. red. induction n as [|n IH]; cbn; [reflexivity|]. rewrite Rmult_0_r. congruence. Qed.
Lemma poly_s x tabx tabx' taby taby' n : tms s tabx tabx' -> tms u taby taby' -> res_rel (tm u) (interpol_poly (N := RNum) x tabx taby n) (interpol_poly (N := RNum) (s * x) tabx' taby' n).
Proof.
  intros Hx Hy. unfold interpol_poly. eapply bind_rel; [apply rd_tms; exact Hx|]. intros t t' E. red in E. subst t'.
  eapply bind_rel; [eapply scan_s; [exact Hx|exact Hy| |apply repeat_tms..]; rn; rewrite <- Rmult_minus_distr_l; apply times_abs, Hs|]. intros [[[i d] c] e] [[[i' d'] c'] e'] (E & D & C & F). cbn [fst snd] in *. subst i'.
  eapply bind_rel; [apply rd_tms; exact Hy|]. intros y y' Y.
  eapply bind_rel; [eapply (for_rel (fun a b => fst (fst (fst a)) = fst (fst (fst b)) /\ tms u (snd (fst (fst a))) (snd (fst (fst b))) /\ tms u (snd (fst a)) (snd (fst b)) /\ tm u (snd a) (snd b))); [cbn; auto|]|].
  - clear - Hx Hs Hu s0. intros j [[[i c] d] y] [[[i' c'] d'] y'] _ (E & C & D & Y). cbn [fst snd] in *. subst i'. eapply bind_rel; [eapply column_s; eassumption|]. intros [c1 d1] [c1' d1'] (C1 & D1). cbn [fst snd] in *.
    red in Y. subst y'. destruct (_ <? _)%Z; (eapply bind_rel; [apply rd_tms; eassumption|]); intros v v' V; red in V; subst v'; cbn [res_rel fst snd]; rn; repeat split; auto; red; ring.
  - intros [[[i1 c1] d1] y1] [[[i1' c1'] d1'] y1'] (_ & _ & _ & Y1). exact Y1.
Qed.
Lemma loop_brk_rel {A B X Y} (R : A -> B -> Prop) (Q : X -> Y -> Prop) n : forall i (f : Z -> A -> res (A + X)) (g : Z -> B -> res (B + Y)) a b,
  R a b -> (forall j a b, R a b -> res_rel (fun o o' => match o, o' with inl a, inl b => R a b | inr x, inr y => Q x y | _, _ => False end) (f j a) (g j b)) ->
  res_rel (fun o o' => match o, o' with inl a, inl b => R a b | inr x, inr y => Q x y | _, _ => False end) (loop_brk n i f a) (loop_brk n i g b).
Proof.
  induction n as [|n IH]; intros i f g a b H Hf; [exact H|]. cbn [loop_brk]. eapply bind_rel; [apply Hf, H|]. intros [a1|x] [b1|y]; try contradiction; [|exact (fun H => H)]. intros H1. apply IH; assumption.
Qed.
Lemma slopes_s p p' a b : stretched p p' -> res_rel (fun o o' => match o, o' with inl x, inl y => x = y | inr x, inr y => x = 0 /\ y = 0 | _, _ => False end) (sum_slopes (N := RNum) p a b) (sum_slopes (N := RNum) p' a b).
Proof.
  intros (_ & Hk & Hp). unfold sum_slopes, for_brk. apply (loop_brk_rel (fun x y : R => x = y) (fun x y : R => x = 0 /\ y = 0)); [reflexivity|]. intros j x y <-.
  eapply bind_rel; [apply rd_tms; exact Hp|]. intros pu pu' E1. eapply bind_rel; [apply rd_tms; exact Hp|]. intros pl pl' E2. red in E1, E2. subst. rn. rewrite !times_le0 by exact Hu. destruct (_ || _); [split; reflexivity|].
  eapply bind_rel; [apply rd_tms; exact Hk|]. intros ku ku' E1. eapply bind_rel; [apply rd_tms; exact Hk|]. intros kl kl' E2. red in E1, E2. subst. cbn [res_rel]. rewrite !ratio by assumption. reflexivity.
Qed.
Lemma low_s p p' k : stretched p p' -> res_rel (tm u) (extrapol_pk_lowk (N := RNum) p k) (extrapol_pk_lowk (N := RNum) p' (s * k)).
Proof.
  intros S. pose proof S as (En & Hk & Hp). unfold extrapol_pk_lowk. rewrite En. eapply bind_rel; [apply slopes_s, S|]. intros [x|x] [y|y] E; try contradiction.
  - subst y. eapply bind_rel; [apply rd_tms; exact Hp|]. intros q q' Q. eapply bind_rel; [apply rd_tms; exact Hk|]. intros k0 k0' K0. red in Q, K0. subst. cbn [res_rel]. red. rn. rewrite ratio by exact s0. ring.
  - destruct E as (-> & ->). cbn. red. ring.
Qed.
Lemma high_s p p' k : stretched p p' -> res_rel (tm u) (extrapol_pk_highk (N := RNum) p k) (extrapol_pk_highk (N := RNum) p' (s * k)).
Proof.
  intros S. pose proof S as (En & Hk & Hp). unfold extrapol_pk_highk. rewrite En. eapply bind_rel; [apply slopes_s, S|]. intros [x|x] [y|y] E; try contradiction.
  - subst y. eapply bind_rel; [apply rd_tms; exact Hp|]. intros q q' Q. eapply bind_rel; [apply rd_tms; exact Hk|]. intros k0 k0' K0. red in Q, K0. subst. cbn [res_rel]. red. rn. rewrite ratio by exact s0. ring.
  - destruct E as (-> & ->). cbn. red. ring.
Qed.
Lemma skipn_tms c n l l' : tms c l l' -> tms c (skipn n l) (skipn n l').
Proof. intros ->. red. apply skipn_map. Qed.
Lemma lookup_s p p' im en a b i k : stretched p p' -> res_rel (fun x y => tm u (fst x) (fst y) /\ snd x = snd y) (find_pk_step (N := RNum) p im en a b i k) (find_pk_step (N := RNum) p' im en (s * a) (s * b) i (s * k)).
Proof.
  intros S. pose proof S as (En & Hk & Hp). unfold find_pk_step. rn. rewrite !times_ltb by exact Hs. destruct (Rltb b k); [eapply bind_rel; [apply high_s, S|]; intros x y E; cbn; auto|].
  destruct (Rltb k a); [eapply bind_rel; [apply low_s, S|]; intros x y E; cbn; auto|]. unfold get_dichotomy_index. eapply bind_rel; [apply dicho_s, Hk|]. intros ind ind' <-. destruct im.
  - eapply bind_rel; [apply poly_s; apply skipn_tms; eassumption|]. intros x y E. cbn. auto.
  - eapply bind_rel; [apply rd_tms; exact Hk|]. intros k0 k0' K0. eapply bind_rel; [apply rd_tms; exact Hk|]. intros k1 k1' K1. eapply bind_rel; [apply rd_tms; exact Hp|]. intros p0 p0' P0. eapply bind_rel; [apply rd_tms; exact Hp|]. intros p1 p1' P1.
    red in K0, K1, P0, P1. subst. split; [apply lin_s|reflexivity].
Qed.
Lemma find_pk_s p p' ks ks' im : stretched p p' -> tms s ks ks' -> res_rel (tms u) (find_pk (N := RNum) p ks im) (find_pk (N := RNum) p' ks' im).
Proof.
  intros S ->. pose proof S as (En & Hk & _). unfold find_pk. rewrite En. eapply bind_rel; [apply rd_tms; exact Hk|]. intros a a' A. eapply bind_rel; [apply rd_tms; exact Hk|]. intros b b' B. red in A, B. subst. generalize 0%Z.
  induction ks as [|k ks IH]; intros i; [reflexivity|]. cbn [map find_pk_loop]. eapply bind_rel; [apply lookup_s, S|]. intros [v j] [v' j'] (V & J). cbn [fst snd] in *. subst j'. eapply bind_rel; [apply IH|]. intros l l' ->. red in V. subst v'. reflexivity.
Qed.
Lemma sig_inner_s n p p' : stretched p p' -> forall kmax i acc, res_rel (fun x y => fst (fst x) = fst (fst y) /\ tm (s * u) (snd (fst x)) (snd (fst y)) /\ match snd x, snd y with Some a, Some b => tm (s * u) a b | None, None => True | _, _ => False end)
  (sig_inner (N := RNum) n p kmax i acc) (sig_inner (N := RNum) n p' (s * kmax) i (s * u * acc)).
Proof.
  intros S. pose proof S as (En & Hk & Hp). induction n as [|n IH]; intros kmax i acc; [cbn; repeat split|]. cbn [sig_inner].
  eapply bind_rel; [apply rd_tms; exact Hk|]. intros k1 k1' K1. eapply bind_rel; [apply rd_tms; exact Hk|]. intros k0 k0' K0. eapply bind_rel; [apply rd_tms; exact Hp|]. intros p0 p0' P0. eapply bind_rel; [apply rd_tms; exact Hp|]. intros p1 p1' P1.
  red in K0, K1, P0, P1. subst. rn. rewrite times_ltb by exact Hs. destruct (Rltb kmax k1).
  - rewrite lin_s. cbn. repeat split; red; unfold Rdiv; ring.
  - replace (s * u * acc + (u * p1 + u * p0) * (s * k1 - s * k0)) with (s * u * (acc + (p1 + p0) * (k1 - k0))) by ring. apply IH.
Qed.
Lemma sigmad2_s p p' ks ks' uv : stretched p p' -> tms s ks ks' -> res_rel (tms (s * u)) (calc_running_sigmad2 (N := RNum) p ks uv) (calc_running_sigmad2 (N := RNum) p' ks' uv).
Proof.
  intros S ->. pose proof S as (En & Hk & _). unfold calc_running_sigmad2. cut (forall i acc, res_rel (tms (s * u)) (sig_loop (N := RNum) p uv i acc ks) (sig_loop (N := RNum) p' uv i (s * u * acc) (map (Rmult s) ks))); [intros H; specialize (H 0%Z 0); rewrite Rmult_0_r in H; exact H|].
  induction ks as [|k ks IH]; intros i acc; [reflexivity|]. cbn [map sig_loop]. eapply bind_rel; [apply rd_tms; exact Hk|]. intros a a' A. red in A. subst a'. rn. replace (s * k * uv) with (s * (k * uv)) by ring. rewrite times_ltb by exact Hs.
  destruct (Rltb (k * uv) a); [eapply bind_rel; [apply IH|]; intros l l' ->; cbn; red; cbn; f_equal; ring|]. rewrite En. eapply bind_rel; [apply sig_inner_s, S|]. intros [[j x] o] [[j' x'] o'] (J & X & O). cbn [fst snd] in *. red in X. subst j' x'.
  eapply bind_rel; [apply IH|]. intros l l' ->. destruct o as [v|], o' as [v'|]; try contradiction; [red in O; subst v'; reflexivity|]. cbn. red. cbn. f_equal. unfold Rdiv. ring.
Qed.
End Scale.
