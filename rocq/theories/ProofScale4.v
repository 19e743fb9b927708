(** ProofScale4: the A and B terms, the second-order 1-loop terms and the third order, for a rescaled spectrum. *)
From Coq Require Import ZArith Lia List Bool Reals Lra.
From Verif Require Import Base Num BaseFacts Lockstep Common Kernels Gamma2 Integrals Threads SpecLoops SpecScratch SpecTable SpecGamma2 ProofGL2 ProofScratch ProofScratch2 ProofScratch3 ProofGamma2f ProofScale ProofScale2 ProofScale3.
Import ListNotations.
Local Open Scope R_scope.

(** Tables of angles strictly inside. *)
Definition inner (m : glmu RNum) : Prop := mu_ok m /\ forall i, (0 <= i < gm_nmu m)%Z -> -1 < znth 0 (gm_muref m) i < 1.
Definition inside (mu : R) : Prop := -1 < mu < 1.
Lemma inner_range half (g : glq RNum) m x m' : inner m -> set_mu_range half g m x = Ok (Some m') -> inner m' /\ Forall inside (gm_mu m').
Proof.
  intros ((H0 & H1 & H2 & H3 & H4) & Hin). unfold set_mu_range. destruct (rd (gq_x g) 0) as [x0|]; [|discriminate]. cbn [bind]. destruct (rd (gq_x g) _) as [x1|]; [|discriminate]. cbn [bind]. rn.
  set (lo := nmax _ _). set (hi := nmin _ _). assert (L0 : -1 <= lo) by (unfold lo, nmax; rn; match goal with |- context [Rltb ?a ?b] => destruct (Rltb_spec a b) end; lra). assert (L1 : hi <= 1) by (unfold hi, nmin; rn; match goal with |- context [Rltb ?a ?b] => destruct (Rltb_spec a b) end; lra). clearbody lo hi. destruct (Rleb 1 lo) eqn:C1; [discriminate|]. destruct (Rleb hi _) eqn:C2; [discriminate|]. cbn [orb]. destruct (Rleb hi lo); [discriminate|].
  set (top := if half && Rleb (5 / IZR (10 ^ 1)) x then 5 / IZR (10 ^ 1) / x else hi).
  assert (Lo : -1 <= lo < 1). { split; [exact L0|]. destruct (Rleb_spec 1 lo); [discriminate|lra]. }
  assert (Hi : -1 < hi <= 1). { split; [|exact L1]. destruct (Rleb_spec hi (- (1))); [discriminate|lra]. }
  assert (Top : -1 < top <= 1).
  { unfold top. destruct half; [|exact Hi]. cbn [andb]. destruct (Rleb_spec (5 / IZR (10 ^ 1)) x) as [L|]; [|exact Hi]. change (IZR (10 ^ 1)) with 10 in *. assert (0 < x) by lra. assert (0 < 5 / 10 / x) by (apply Rdiv_lt_0_compat; lra). split; [lra|]. apply (Rmult_le_reg_r x); [lra|]. unfold Rdiv at 1. rewrite Rmult_assoc, Rinv_l by lra. lra. }
  clearbody top. destruct (update_mu_val m lo top 0 H0 H1 H2 H3 H4) as (u & E & A1 & A2 & A3 & A4 & A5 & A6). rewrite E. cbn [bind]. intros [= <-].
  split; [split|].
  - unfold mu_ok. rewrite A1, A2, A3. auto.
  - rewrite A1, A2. exact Hin.
  - apply Forall_forall. intros mu Hmu. destruct (In_nth _ _ 0 Hmu) as (i & Li & <-). assert (Hi' : (0 <= Z.of_nat i < gm_nmu m)%Z) by (rewrite <- A4; unfold zlen; split; [lia|apply inj_lt; exact Li]). destruct (A6 (Z.of_nat i) Hi') as (E1 & _). unfold znth in E1 at 1. rewrite Nat2Z.id in E1. refine (eq_ind_r inside _ E1). rn. specialize (Hin _ Hi'). red. nra.
Qed.

Lemma zip_lin {A B} n v (f f' : A -> B -> R) l m : length l = n -> length m = n -> (forall a b, f' a b = v * f a b) -> tml (repeat v n) (zipw f l m) (zipw f' l m).
Proof.
  intros <- M H. split; [rewrite zipw_len by congruence; rewrite repeat_length; reflexivity|]. revert m M. induction l as [|a l IH]; intros [|b m] M; try discriminate; [reflexivity|]. cbn. rewrite H, IH by (injection M; auto). reflexivity.
Qed.
Lemma map_lin {A} n v (f f' : A -> R) l : length l = n -> (forall a, f' a = v * f a) -> tml (repeat v n) (map f l) (map f' l).
Proof. intros <- H. split; [rewrite map_length, repeat_length; reflexivity|]. induction l as [|a l IH]; [reflexivity|]. cbn. rewrite H, IH. reflexivity. Qed.

Section Scale.
Variables (s u : R).
Hypotheses (Hs : 0 < s) (Hu : 0 < u).
Let s0 : s <> 0 := Rgt_not_eq s 0 Hs.
Local Notation stretched := (stretched s u).
Local Notation tab := (tab s u).
Local Notation tab_at := (tab_at s u).

(** The A terms *)
Lemma kernel_A_s pkl pkl' im k g g' p p' iq mu : stretched pkl pkl' -> tab_at k g g' -> tm u p p' ->
  res_rel (tml (repeat (u * u) 5)) (kernel_A_tA_1loop (N := RNum) pkl im g p iq mu) (kernel_A_tA_1loop (N := RNum) pkl' im g' p' iq mu).
Proof.
  intros S (G & X & K & K') Pk. unfold kernel_A_tA_1loop. rewrite X, K, K'. do 11 (apply bind_same; intros ? _). eapply bind_rel; [eapply tab_pk, G|]. intros y y' Y.
  rn. rewrite (Rmult_assoc s k). eapply bind_rel; [apply find1_s; eassumption|]. intros z z' Z. cbn [res_rel]. red in Pk, Y, Z. subst p' y' z'.
  apply zip_lin; [reflexivity|reflexivity|]. intros. unfold Rdiv. ring.
Qed.
Lemma kernel_a_s g g' p p' iq : tab g g' -> gq_x g' = gq_x g -> tm u p p' -> res_rel (tml (repeat (u * u) 5)) (kernel_a_1loop (N := RNum) g iq p) (kernel_a_1loop (N := RNum) g' iq p').
Proof.
  intros G X Pk. unfold kernel_a_1loop. rewrite X. apply bind_same. intros x _. eapply bind_rel; [eapply tab_pk, G|]. intros y y' Y. do 7 (apply bind_same; intros ? _).
  match goal with |- res_rel _ (match ?E with (_, _) => _ end) _ => destruct E as [[[k0 k1] k2] k4] end. cbn [res_rel]. red in Pk, Y. subst p' y'. apply map_lin; [reflexivity|]. intros. rn. ring.
Qed.
Lemma A_1loop_s pkl pkl' imq im g g' m k : stretched pkl pkl' -> tab g g' ->
  res_rel (fun p q => tml (repeat (s * s * s * (u * u)) 5) (fst (fst p)) (fst (fst q))) (calc_pk_A_1loop (N := RNum) pkl imq im g m k) (calc_pk_A_1loop (N := RNum) pkl' imq im g' m (s * k)).
Proof.
  intros S G. unfold calc_pk_A_1loop. eapply bind_rel; [apply update_s; eassumption|]. intros h h' H. pose proof H as (T & X & _ & _). eapply bind_rel; [apply find1_s; eassumption|]. intros p p' P.
  eapply bind_rel; [apply (q_loop_s false h h' any any m (repeat (u * u) 5)); [exact X|eapply tab_n, T|exact I|apply any_I| |]|].
  - intros iq mu _. eapply kernel_A_s; eassumption.
  - intros iq x l l' L. eapply bind_rel; [eapply kernel_a_s; eassumption|]. intros a a' A. rewrite (tab_w s u _ _ T). apply bind_same. intros w _. cbn [res_rel]. apply tml_zip; auto. intros. rn. ring.
  - intros [l n] [l' n'] (L & _). cbn [fst snd res_rel] in *. apply (tml_scale (repeat (u * u) 5) (s * s * s)); [|exact L]. intros. rn. unfold Rdiv. ring.
Qed.
(** The B terms *)
Lemma kernel_B_s dt dt' ptt ptt' im k g g' iq mu : stretched dt dt' -> stretched ptt ptt' -> tab_at k g g' ->
  res_rel (tml (repeat (u * u) 12)) (kernel_B (N := RNum) dt ptt im g iq mu) (kernel_B (N := RNum) dt' ptt' im g' iq mu).
Proof.
  intros S1 S2 (G & X & K & K'). unfold kernel_B. rewrite X, K, K'. do 10 (apply bind_same; intros ? _). eapply bind_rel; [eapply tab_q, G|]. intros q q' Q. red in Q. subst q'.
  rn. rewrite (Rmult_assoc s k).
  eapply bind_rel; [apply find1_s; eassumption|]. intros y1 z1 Z1. eapply bind_rel; [apply find1_s; eassumption|]. intros y2 z2 Z2.
  eapply bind_rel; [apply find1_s; eassumption|]. intros y3 z3 Z3. eapply bind_rel; [apply find1_s; eassumption|]. intros y4 z4 Z4. red in Z1, Z2, Z3, Z4. subst z1 z2 z3 z4.
  cbn [res_rel]. split; [reflexivity|]. cbn [map repeat zipw]. assert (E : forall c y z, c * (u * y) * (u * z) = u * u * (c * y * z)) by (intros; ring). rewrite !E. assert (F : forall c d, u * u * c / d = u * u * (c / d)) by (intros; unfold Rdiv; ring). rewrite !F. reflexivity.
Qed.
Lemma B_s dt dt' ptt ptt' im g g' m k : stretched dt dt' -> stretched ptt ptt' -> tab g g' ->
  res_rel (fun p q => tml (repeat (s * s * s * (u * u)) 12) (fst (fst p)) (fst (fst q))) (calc_pk_B (N := RNum) dt ptt im g m k) (calc_pk_B (N := RNum) dt' ptt' im g' m (s * k)).
Proof.
  intros S1 S2 G. unfold calc_pk_B. eapply bind_rel; [apply update_s; eassumption|]. intros h h' H. pose proof H as (T & X & _ & _).
  eapply bind_rel; [apply (q_loop_s true h h' any any m (repeat (u * u) 12)); [exact X|eapply tab_n, T|exact I|apply any_I| |]|].
  - intros iq mu _. eapply kernel_B_s; eassumption.
  - intros iq x l l' L. rewrite (tab_w s u _ _ T). apply bind_same. intros w _. cbn [res_rel]. apply tml_map; auto. intros. rn. ring.
  - intros [l n] [l' n'] (L & _). cbn [fst snd res_rel] in *. apply (tml_scale (repeat (u * u) 12) (s * s * s)); [|exact L]. intros. rn. unfold Rdiv. ring.
Qed.

(** The second-order 1-loop terms *)
Definition sides (k1 k2 k3 : R) : Prop := s = 1 \/ 0 < k1 /\ 0 < k2 /\ 0 < k3 /\ triangle k1 k2 k3.
Definition pos_q (g : glq RNum) : Prop := forall q, In q (gq_q g) -> 0 < q.
Lemma gamma2_1loop_s g g' a k1 k2 k3 : tab g g' -> pos_q g -> sides k1 k2 k3 ->
  res_rel (tm (s * s * s * u)) (gamma2_1loop (N := RNum) g a k1 k2 k3) (gamma2_1loop (N := RNum) g' a (s * k1) (s * k2) (s * k3)).
Proof.
  intros G Pg Sd. unfold gamma2_1loop. rewrite (tab_n s u _ _ G), (tab_w s u _ _ G). eapply bind_rel with (R := tm (s * s * s * u)).
  - apply for_rel; [red; rn; ring|]. intros j p q _ P. pose proof (tab_q s u _ _ j G) as Q. destruct (rd (gq_q g) j) as [x|] eqn:Ex, (rd (gq_q g') j) as [x'|]; try contradiction; [|exact Q]. cbn [res_rel] in Q. red in Q. subst x'. cbn [bind]. apply bind_same. intros w _.
    assert (Px : 0 < x) by (apply Pg; unfold rd in Ex; destruct (_ && _); [|discriminate]; destruct (nth_error _ _) eqn:E; [|discriminate]; injection Ex as <-; eapply nth_error_In, E).
    assert (E : kernel_gamma2 (N := RNum) a (s * k1) (s * k2) (s * k3) (s * x) = kernel_gamma2 (N := RNum) a k1 k2 k3 x).
    { destruct Sd as [->|(P1 & P2 & P3 & Tr)]; [rewrite !Rmult_1_l; reflexivity|]. apply kernel_scale; assumption. }
    rewrite E. apply bind_same. intros v _. eapply bind_rel; [eapply tab_pk, G|]. intros y y' Y. cbn [res_rel]. red in P, Y |- *. subst. rn. ring.
  - intros p q P. cbn [res_rel]. red in P |- *. subst. rn. unfold Rdiv. ring.
Qed.
Lemma stdPT_s gd gd' gt gt' a n k1 k2 k3 : tab gd gd' -> tab gt gt' -> pos_q gd -> pos_q gt -> sides k1 k2 k3 ->
  res_rel (tm (if (n =? 0)%Z then 1 else s * s * s * u)) (gamma2_stdPT (N := RNum) gd gt a n k1 k2 k3) (gamma2_stdPT (N := RNum) gd' gt' a n (s * k1) (s * k2) (s * k3)).
Proof.
  intros Gd Gt Pd Pt Sd. unfold gamma2_stdPT. destruct (n =? 0)%Z; [rewrite (tree_s s Hs); red; symmetry; apply Rmult_1_l|]. destruct (n =? 1)%Z; [|cbn; red; rn; ring]. destruct a; apply gamma2_1loop_s; assumption.
Qed.
Definition fs3 : list R := let v := s * s * s * u in [u * u; u * u * v; u * u * (v * v)].
Lemma kq_sides k x mu : 0 < k -> 0 < x -> -1 < mu < 1 -> 0 < k * sqrt (1 + x * x - 2 * mu * x) /\ triangle (k * sqrt (1 + x * x - 2 * mu * x)) (k * x) k.
Proof.
  intros Pk Px Hm. assert (A : 0 < x * (1 + mu)) by (apply Rmult_lt_0_compat; lra). assert (B : 0 < x * (1 - mu)) by (apply Rmult_lt_0_compat; lra).
  assert (P : 0 < 1 + x * x - 2 * mu * x) by (pose proof (Rle_0_sqr (1 - x)) as Q; unfold Rsqr in Q; lra). pose proof (sqrt_lt_R0 _ P) as Q. pose proof (sqrt_sqrt _ (Rlt_le _ _ P)) as E. set (y := sqrt _) in *. clearbody y. split; [apply Rmult_lt_0_compat; lra|].
  assert (y < 1 + x) by (apply Rnot_le_lt; intros L; assert (0 <= (y - (1 + x)) * (y + (1 + x))) by (apply Rmult_le_pos; lra); nra).
  assert (x < 1 + y) by (apply Rnot_le_lt; intros L; assert (0 <= (x - 1 - y) * (x - 1 + y)) by (apply Rmult_le_pos; lra); nra).
  assert (1 < x + y) by (apply Rnot_le_lt; intros L; assert (0 <= (1 - x - y) * (1 - x + y)) by (apply Rmult_le_pos; lra); nra).
  clear A B E P. unfold triangle. repeat split; nra.
Qed.
Lemma kernel_gamma2_s pkl pkl' im k g g' gd gd' gt gt' a b iq mu : stretched pkl pkl' -> tab_at k g g' -> tab gd gd' -> tab gt gt' -> pos_q gd -> pos_q gt ->
  (s = 1 \/ 0 < k /\ pos_q g /\ (forall i x, rd (gq_x g) i = Ok x -> exists q, rd (gq_q g) i = Ok q /\ x = q / k) /\ inside mu) ->
  res_rel (tml fs3) (kernel_pk_gamma2_1loop (N := RNum) pkl im g gd gt a b iq mu) (kernel_pk_gamma2_1loop (N := RNum) pkl' im g' gd' gt' a b iq mu).
Proof.
  intros S (G & X & K & K') Gd Gt Pd Pt Hx. unfold kernel_pk_gamma2_1loop. rewrite X, K, K'. apply bind_same. intros x Ex. pose proof (tab_q s u _ _ iq G) as Q. destruct (rd (gq_q g) iq) as [q|] eqn:Eq, (rd (gq_q g') iq) as [q'|]; try contradiction; [|exact Q]. cbn [res_rel] in Q. red in Q. subst q'. cbn [bind].
  assert (Sd : sides (k * sqrt (1 + x * x - 2 * mu * x)) q k).
  { destruct Hx as [E0|(Pk & Pq & Hq & Hm)]; [left; exact E0|right]. destruct (Hq iq x Ex) as (q1 & E1 & E2). rewrite Eq in E1. injection E1 as <-. assert (P : 0 < q) by (apply Pq; unfold rd in Eq; destruct (_ && _); [|discriminate]; destruct (nth_error _ _) eqn:E; [|discriminate]; injection Eq as <-; eapply nth_error_In, E).
    assert (Px : 0 < x) by (rewrite E2; apply Rdiv_lt_0_compat; assumption). destruct (kq_sides k x mu Pk Px Hm) as (A & B). assert (Eqx : k * x = q) by (rewrite E2; field; lra). rewrite Eqx in B. auto. }
  eapply bind_rel; [eapply tab_pk, G|]. intros p p' P. rn. rewrite (Rmult_assoc s k). eapply bind_rel; [apply find1_s; eassumption|]. intros y y' Y. red in P, Y. subst p' y'.
  set (kq := k * _) in *. clearbody kq.
  eapply bind_rel with (R := fun p q => let '(a0, a1, b0, b1) := p in let '(a0', a1', b0', b1') := q in tm 1 a0 a0' /\ tm (s * s * s * u) a1 a1' /\ tm 1 b0 b0' /\ tm (s * s * s * u) b1 b1').
  - pose proof (fun a n => stdPT_s gd gd' gt gt' a n kq q k Gd Gt Pd Pt Sd) as St.
    destruct (flag_eqb a b); (eapply bind_rel; [apply St|]); intros u0 u0' A0; (eapply bind_rel; [apply St|]); intros u1 u1' A1.
    + cbn in *; auto.
    + eapply bind_rel; [apply St|]. intros b0 b0' B0. eapply bind_rel; [apply St|]. intros b1 b1' B1. cbn in *; auto.
  - intros [[[a0 a1] b0] b1] [[[a0' a1'] b0'] b1'] (A0 & A1 & B0 & B1). red in A0, A1, B0, B1. subst. cbn [res_rel]. split; [reflexivity|]. unfold fs3. cbn [zipw]. f_equal; [ring|]. f_equal; [ring|]. f_equal; ring.
Qed.
End Scale.
