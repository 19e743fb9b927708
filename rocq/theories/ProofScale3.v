(** ProofScale3: the integrals, for a rescaled spectrum. *)
From Coq Require Import ZArith Lia List Bool Reals Lra.
From Verif Require Import Base Num BaseFacts Lockstep Common Kernels Gamma2 Integrals SpecLoops SpecScratch SpecTable ProofGL2 ProofScratch ProofScratch2 ProofScratch3 ProofScale ProofScale2.
Import ListNotations.
Local Open Scope R_scope.

(** ** Components, each multiplied by a factor of its own *)
Definition tml (fs l l' : list R) : Prop := length l = length fs /\ l' = zipw Rmult fs l.
Lemma tml_zip fs f f' l l' m m' : (forall c a b, f' (c * a) (c * b) = c * f a b) -> tml fs l l' -> tml fs m m' -> tml fs (zipw f l m) (zipw f' l' m').
Proof.
  intros Hf (L & ->) (M & ->). split; [rewrite zipw_len by congruence; exact L|]. revert l m L M. induction fs as [|c fs IH]; intros [|x l] [|y m] L M; try discriminate; cbn; auto. injection L as L. injection M as M. rewrite Hf. f_equal. apply IH; assumption.
Qed.
Lemma zipw_map {A B C D} (f : A -> B -> C) (g : D -> B) (h : list A) l : zipw f h (map g l) = zipw (fun a d => f a (g d)) h l.
Proof. revert l. induction h as [|a h IH]; intros [|d l]; cbn; auto. rewrite IH. reflexivity. Qed.
Lemma map_zipw {A B C D} (f : A -> B -> C) (g : C -> D) (h : list A) l : map g (zipw f h l) = zipw (fun a b => g (f a b)) h l.
Proof. revert l. induction h as [|a h IH]; intros [|d l]; cbn; auto. rewrite IH. reflexivity. Qed.
Lemma zipw_ext {A B C} (f g : A -> B -> C) h l : (forall a b, f a b = g a b) -> zipw f h l = zipw g h l.
Proof. intros E. revert l. induction h as [|a h IH]; intros [|d l]; cbn; auto. rewrite IH, E. reflexivity. Qed.
Lemma tml_map fs f f' l l' : (forall c a, f' (c * a) = c * f a) -> tml fs l l' -> tml fs (map f l) (map f' l').
Proof. intros Hf (L & ->). split; [rewrite map_length; exact L|]. rewrite zipw_map, map_zipw. apply zipw_ext. intros; apply Hf. Qed.
(** A common factor on top *)
Lemma tml_scale fs v f f' l l' : (forall c a, f' (c * a) = v * c * f a) -> tml fs l l' -> tml (map (Rmult v) fs) (map f l) (map f' l').
Proof.
  intros Hf (L & ->). split; [rewrite !map_length; exact L|]. revert l L. induction fs as [|c fs IH]; intros [|x l] L; try discriminate; cbn; auto. rewrite Hf. f_equal. apply IH. injection L as L. exact L.
Qed.
Lemma zero_tml fs : tml fs (repeat 0 (length fs)) (repeat 0 (length fs)).
Proof. split; [apply repeat_length|]. induction fs as [|c fs IH]; cbn; [reflexivity|]. rewrite Rmult_0_r. congruence. Qed.
Lemma tml_const v l l' : tms v l l' <-> tml (repeat v (length l)) l l'.
Proof.
  unfold tml, tms. rewrite repeat_length. assert (E : map (Rmult v) l = zipw Rmult (repeat v (length l)) l) by (induction l as [|x l IH]; cbn; auto; rewrite <- IH; reflexivity). rewrite E. tauto.
Qed.
Lemma mu_loop_s (m : glmu RNum) fs kern kern' : (forall mu, In mu (gm_mu m) -> res_rel (tml fs) (kern mu) (kern' mu)) ->
  res_rel (tml fs) (mu_loop (N := RNum) m (length fs) kern) (mu_loop (N := RNum) m (length fs) kern').
Proof.
  intros H. unfold mu_loop. apply for_rel; [apply zero_tml|]. intros j a b _ A. apply bind_same. intros mu Em. eapply bind_rel; [apply H|].
  - unfold rd in Em. destruct (_ && _); [|discriminate]. destruct (nth_error _ _) eqn:E; [|discriminate]. injection Em as <-. eapply nth_error_In, E.
  - intros v v' V. apply bind_same. intros w _. cbn. apply tml_zip; auto. intros. rn. ring.
Qed.
(** [I]: what is known of the table of angles; [V]: of the angles. *)
Lemma q_loop_s half (g g' : glq RNum) (I : glmu RNum -> Prop) (V : R -> Prop) m fs kern kern' add add' : gq_x g' = gq_x g -> gq_nq g' = gq_nq g -> I m ->
  (forall m x m', I m -> set_mu_range half g m x = Ok (Some m') -> I m' /\ Forall V (gm_mu m')) ->
  (forall iq mu, V mu -> res_rel (tml fs) (kern iq mu) (kern' iq mu)) ->
  (forall iq x l l', tml fs l l' -> res_rel (tml fs) (add iq x l) (add' iq x l')) ->
  res_rel (fun a b => tml fs (fst a) (fst b) /\ snd b = snd a) (q_loop (N := RNum) half g m (length fs) kern add) (q_loop (N := RNum) half g' m (length fs) kern' add').
Proof.
  intros Ex En H0 HI Hk Ha. unfold q_loop. rewrite En.
  eapply rel_imp; [|apply (for_rel (fun a b => tml fs (fst a) (fst b) /\ snd b = snd a /\ I (snd a)))].
  - intros a b (A & B & _). auto.
  - cbn. repeat split; auto; apply zero_tml.
  - intros j [a ma] [b mb] _ (A & B & Im). cbn [fst snd] in *. subst mb. rewrite Ex. apply bind_same. intros x _.
    replace (set_mu_range half g' ma x) with (set_mu_range half g ma x) by (unfold set_mu_range; rewrite Ex, En; reflexivity).
    apply bind_same. intros [m1|] E1; [|cbn; auto]. destruct (HI ma x m1 Im E1) as (I1 & V1). eapply bind_rel; [apply mu_loop_s|].
    + intros mu Hm. apply Hk. rewrite Forall_forall in V1. apply V1, Hm.
    + intros l l' L. eapply bind_rel; [apply Ha, L|]. intros c c' C. cbn. split; [|auto]. apply tml_zip; auto. intros. rn. ring.
Qed.
Definition any {A} (x : A) : Prop := True.
Lemma any_I half (g : glq RNum) : forall m x m', any m -> set_mu_range half g m x = Ok (Some m') -> any m' /\ Forall (any (A := R)) (gm_mu m').
Proof. intros. split; [exact I|]. apply Forall_forall. intros; exact I. Qed.

Section Scale.
Variables (s u : R).
Hypotheses (Hs : 0 < s) (Hu : 0 < u).
Let s0 : s <> 0 := Rgt_not_eq s 0 Hs.
Let u0 : u <> 0 := Rgt_not_eq u 0 Hu.
Local Notation stretched := (stretched s u).
Local Notation tab := (tab s u).
Local Notation tab_at := (tab_at s u).
Lemma tab_q g g' i : tab g g' -> res_rel (tm s) (rd (gq_q g) i) (rd (gq_q g') i).
Proof. intros T. apply rd_tms, T. Qed.
Lemma tab_pk g g' i : tab g g' -> res_rel (tm u) (rd (gq_pk g) i) (rd (gq_pk g') i).
Proof. intros T. apply rd_tms, T. Qed.
Lemma tab_w g g' : tab g g' -> gq_w g' = gq_w g. Proof. intros T. apply T. Qed.
Lemma tab_n g g' : tab g g' -> gq_nq g' = gq_nq g. Proof. intros T. apply T. Qed.

(** gamma1_1loop *)
Lemma gamma1_1loop_s g g' a k : tab g g' -> res_rel (fun p q => tm (s * s * s * u) (fst p) (fst q) /\ tab (snd p) (snd q)) (gamma1_1loop (N := RNum) g a k) (gamma1_1loop (N := RNum) g' a (s * k)).
Proof.
  intros G. unfold gamma1_1loop. eapply bind_rel; [apply update_s; eassumption|]. intros h h' (H & X & _ & _). rewrite X, (tab_w _ _ H), (tab_n _ _ H).
  eapply bind_rel with (R := tm u).
  - apply for_rel; [red; rn; ring|]. intros j p q _ P. apply bind_same. intros x _. eapply bind_rel; [apply tab_pk, H|]. intros y y' Y. apply bind_same. intros w _. cbn. red in P, Y |- *. subst. rn. ring.
  - intros p q P. cbn. split; [|exact H]. red in P |- *. subst. rn. unfold Rdiv. ring.
Qed.
(** gamma1_2loop *)
Lemma integ2_s a k q1 q2 : integ_gamma1_2loop (N := RNum) a (s * k) (s * q1) (s * q2) = integ_gamma1_2loop (N := RNum) a k q1 q2.
Proof. unfold integ_gamma1_2loop. rn. rewrite !ratio by exact s0. reflexivity. Qed.
Lemma gamma1_2loop_s g g' a k : tab g g' -> res_rel (fun p q => tm (s * s * s * u * (s * s * s * u)) (fst p) (fst q) /\ tab (snd p) (snd q)) (gamma1_2loop (N := RNum) g a k) (gamma1_2loop (N := RNum) g' a (s * k)).
Proof.
  intros G. unfold gamma1_2loop. eapply bind_rel; [apply update_s; eassumption|]. intros h h' (H & _ & K & K'). rewrite K, K', (tab_w _ _ H), (tab_n _ _ H). clear K K'.
  eapply bind_rel with (R := tm (s * s * s * u * (s * s * s * u))).
  - apply for_rel; [red; rn; ring|]. intros j p q _ P. eapply bind_rel; [apply tab_q, H|]. intros q1 q1' Q1. eapply bind_rel with (R := tm (s * s * s * u * (s * s * s))).
    + apply for_rel; [red; rn; ring|]. intros i c d _ C. eapply bind_rel; [apply tab_q, H|]. intros q2 q2' Q2. apply bind_same. intros w _. eapply bind_rel; [apply tab_pk, H|]. intros y y' Y. cbn [res_rel]. red in C, Q1, Q2, Y |- *. subst. rewrite integ2_s. rn. ring.
    + intros i2 i2' I2. apply bind_same. intros w _. eapply bind_rel; [apply tab_pk, H|]. intros y y' Y. cbn [res_rel]. red in P, I2, Y |- *. subst. rn. ring.
  - intros p q P. cbn [res_rel fst snd]. split; [|exact H]. red in P |- *. subst. rn. unfold Rdiv. ring.
Qed.
Lemma gamma1_terms_s g1 g1' g2 g2' a b k : tab g1 g1' -> tab g2 g2' ->
  res_rel (fun p q => let '(a1, a2, b1, b2, _, _) := p in let '(a1', a2', b1', b2', _, _) := q in let v := s * s * s * u in tm v a1 a1' /\ tm (v * v) a2 a2' /\ tm v b1 b1' /\ tm (v * v) b2 b2')
    (calc_pk_gamma1_2loop (N := RNum) g1 g2 a b k) (calc_pk_gamma1_2loop (N := RNum) g1' g2' a b (s * k)).
Proof.
  intros G1 G2. unfold calc_pk_gamma1_2loop. assert (Q : forall x y x' y', tm (s * s * s * u) x x' -> tm (s * s * s * u * (s * s * s * u)) y y' -> tm (s * s * s * u * (s * s * s * u)) (y + x * x / 2) (y' + x' * x' / 2)) by (intros ? ? ? ? -> ->; red; field).
  destruct (flag_eqb a b); (eapply bind_rel; [apply gamma1_1loop_s; eassumption|]; intros [a1 h1] [a1' h1'] (A1 & H1); cbn [fst snd] in *; eapply bind_rel; [apply gamma1_2loop_s; eassumption|]; intros [a2 h2] [a2' h2'] (A2 & H2); cbn [fst snd] in *).
  - cbn. repeat split; auto; apply Q; auto.
  - eapply bind_rel; [apply gamma1_1loop_s; eassumption|]; intros [b1 h3] [b1' h3'] (B1 & _); cbn [fst snd] in *; eapply bind_rel; [apply gamma1_2loop_s; eassumption|]; intros [b2 h4] [b2' h4'] (B2 & _); cbn [fst snd] in *.
    cbn. repeat split; auto; apply Q; auto.
Qed.

(** gamma2 at tree level *)
Lemma F2_s a c p q pq : c <> 0 -> F2_sym_fast (N := RNum) a (c * p) (c * q) (c * pq) = F2_sym_fast (N := RNum) a p q pq.
Proof.
  intros H.
  unfold F2_sym_fast. rn. change (10 ^ 1)%Z with 10%Z. destruct a; unfold Rdiv; rewrite !Rinv_mult;
  generalize (/ p) (/ q); intros ip iq; field; exact H.
Qed.
Lemma tree_s a x y z : gamma2_tree (N := RNum) a (s * x) (s * y) (s * z) = gamma2_tree (N := RNum) a x y z.
Proof.
  unfold gamma2_tree. rn. rewrite <- (F2_s a (s * s) (x * x)) by (apply Rmult_integral_contrapositive_currified; exact s0). f_equal; unfold Rdiv; ring.
Qed.
Lemma kernel_tree_s pkl pkl' im k g g' a b iq mu : stretched pkl pkl' -> tab_at k g g' ->
  res_rel (tml [u * u]) (kernel_pk_gamma2_tree (N := RNum) pkl im g a b iq mu) (kernel_pk_gamma2_tree (N := RNum) pkl' im g' a b iq mu).
Proof.
  intros S (G & X & K & K'). unfold kernel_pk_gamma2_tree. rewrite X, K, K'. apply bind_same. intros x _. eapply bind_rel; [apply tab_q, G|]. intros q q' Q. eapply bind_rel; [apply tab_pk, G|]. intros p p' P.
  rn. rewrite (Rmult_assoc s k). eapply bind_rel; [apply find1_s; eassumption|]. intros y y' Y. red in Q, P, Y. subst q' p' y'.
  set (kq := k * _). clearbody kq. rewrite !tree_s. destruct (flag_eqb a b); cbn; (split; [reflexivity|]; apply (f_equal (fun z : R => [z])); ring).
Qed.
Lemma add_x3w_s g g' two iq x fs l l' : tab g g' -> tml fs l l' -> res_rel (tml fs) (add_x3w (N := RNum) g two iq x l) (add_x3w (N := RNum) g' two iq x l').
Proof. intros G L. unfold add_x3w. rewrite (tab_w _ _ G). apply bind_same. intros w _. cbn [res_rel]. apply tml_map; [|exact L]. intros. rn. ring. Qed.
Lemma gamma2_tree_s pkl pkl' im g g' m a b k : stretched pkl pkl' -> tab g g' ->
  res_rel (fun p q => tml [s * s * s * (u * u)] (fst (fst p)) (fst (fst q))) (calc_pk_gamma2_tree (N := RNum) pkl im g m a b k) (calc_pk_gamma2_tree (N := RNum) pkl' im g' m a b (s * k)).
Proof.
  intros S G. unfold calc_pk_gamma2_tree. eapply bind_rel; [apply update_s; eassumption|]. intros h h' H. pose proof H as (T & X & _ & _).
  eapply bind_rel; [apply (q_loop_s true h h' any any m [u * u]); [exact X|apply tab_n, T|exact I|apply any_I| |]|].
  - intros iq mu _. eapply kernel_tree_s; eassumption.
  - intros iq x l l' L. apply add_x3w_s; assumption.
  - intros [l n] [l' n'] (L & _). cbn [fst snd res_rel] in *. apply (tml_scale [u * u] (s * s * s)); [|exact L]. intros. rn. unfold Rdiv. ring.
Qed.

(** bias *)
Lemma kernel_bias_s pkl pkl' im k g g' a (kern : bias_kernel (N := RNum)) v iq mu : stretched pkl pkl' -> tab_at k g g' ->
  (forall q kq mu c p p', kern a (s * q) (s * kq) mu c (u * p) (u * p') = v * kern a q kq mu c p p') ->
  res_rel (tml [v]) (kernel_pk_bias_1loop (N := RNum) pkl im g a kern iq mu) (kernel_pk_bias_1loop (N := RNum) pkl' im g' a kern iq mu).
Proof.
  intros S (G & X & K & K') HK. unfold kernel_pk_bias_1loop. rewrite X, K, K'. apply bind_same. intros x _. eapply bind_rel; [apply tab_q, G|]. intros q q' Q. eapply bind_rel; [apply tab_pk, G|]. intros p p' P.
  rn. rewrite (Rmult_assoc s k). eapply bind_rel; [apply find1_s; eassumption|]. intros y y' Y. red in Q, P, Y. subst q' p' y'.
  set (kq := k * _). clearbody kq. assert (E : (s * k * (s * k) - s * kq * (s * kq) - s * q * (s * q)) / 2 / (s * q) / (s * kq) = (k * k - kq * kq - q * q) / 2 / q / kq).
  { unfold Rdiv. rewrite !Rinv_mult. generalize (/ q) (/ kq). intros; field; exact s0. }
  rewrite E. cbn [res_rel]. split; [reflexivity|]. rewrite HK. reflexivity.
Qed.
Lemma bias_s pkl pkl' im g g' m a k (kern : bias_kernel (N := RNum)) half v : stretched pkl pkl' -> tab g g' ->
  (forall q kq mu c p p', kern a (s * q) (s * kq) mu c (u * p) (u * p') = v * kern a q kq mu c p p') ->
  res_rel (fun p q => tm (s * s * s * v) (fst (fst p)) (fst (fst q))) (calc_pk_bias_1loop (N := RNum) pkl im g m a k kern half) (calc_pk_bias_1loop (N := RNum) pkl' im g' m a (s * k) kern half).
Proof.
  intros S G HK. unfold calc_pk_bias_1loop. eapply bind_rel; [apply update_s; eassumption|]. intros h h' H. pose proof H as (T & X & _ & _).
  eapply bind_rel; [apply (q_loop_s half h h' any any m [v]); [exact X|apply tab_n, T|exact I|apply any_I| |]|].
  - intros iq mu _. eapply kernel_bias_s; eassumption.
  - intros iq x l l' L. apply add_x3w_s; assumption.
  - intros [l n] [l' n'] ((L & E) & _). cbn [fst snd] in *. subst l'. destruct l as [|b [|]]; try discriminate. cbn. red. rn. unfold Rdiv. ring.
Qed.
Lemma b2_s a q kq mu c p p' : kernel_b2 (N := RNum) a (s * q) (s * kq) mu c (u * p) (u * p') = u * u * kernel_b2 (N := RNum) a q kq mu c p p'.
Proof.
  unfold kernel_b2. rn. rewrite <- (F2_s a (s * s) (q * q)) by (apply Rmult_integral_contrapositive_currified; exact s0).
  replace (s * q * (s * q)) with (s * s * (q * q)) by ring. replace (s * kq * (s * kq)) with (s * s * (kq * kq)) by ring. replace (c * (s * q) * (s * kq)) with (s * s * (c * q * kq)) by ring. ring.
Qed.
Lemma bs2_s a q kq mu c p p' : kernel_bs2 (N := RNum) a (s * q) (s * kq) mu c (u * p) (u * p') = u * u * kernel_bs2 (N := RNum) a q kq mu c p p'.
Proof. pose proof (b2_s a q kq mu c p p') as E. unfold kernel_b2 in E. unfold kernel_bs2. rn_in E. rn. rewrite E. ring. Qed.
Lemma b22_s a q kq mu c p p' : kernel_b22 (N := RNum) a (s * q) (s * kq) mu c (u * p) (u * p') = u * u * kernel_b22 (N := RNum) a q kq mu c p p'.
Proof. unfold kernel_b22. rn. ring. Qed.
Lemma b2s2_s a q kq mu c p p' : kernel_b2s2 (N := RNum) a (s * q) (s * kq) mu c (u * p) (u * p') = u * u * kernel_b2s2 (N := RNum) a q kq mu c p p'.
Proof. unfold kernel_b2s2. rn. ring. Qed.
Lemma bs22_s a q kq mu c p p' : kernel_bs22 (N := RNum) a (s * q) (s * kq) mu c (u * p) (u * p') = u * u * kernel_bs22 (N := RNum) a q kq mu c p p'.
Proof. unfold kernel_bs22. rn. ring. Qed.
Lemma sigma3_s a q kq mu c p p' : kernel_sigma3sq (N := RNum) a (s * q) (s * kq) mu c (u * p) (u * p') = u * kernel_sigma3sq (N := RNum) a q kq mu c p p'.
Proof. unfold kernel_sigma3sq. rn. ring. Qed.
End Scale.
