(** ProofScale5: the rows of a run, for a rescaled spectrum. *)
From Coq Require Import ZArith Lia List Bool Reals Lra String.
From Verif Require Import Base Num BaseFacts Lockstep Common Kernels Gamma2 Integrals Registry Threads SpecLoops SpecScratch SpecTable SpecGamma2 SpecThreads SpecScale ProofGL2 ProofScratch ProofScratch2 ProofScratch3 ProofGamma2f ProofScale ProofScale2 ProofScale3 ProofScale4.
Import ListNotations.
Local Open Scope R_scope.
Local Open Scope string_scope.

Section Scale.
Variables (s u : R).
Hypotheses (Hs : 0 < s) (Hu : 0 < u).
Let s0 : s <> 0 := Rgt_not_eq s 0 Hs.
Local Notation stretched := (stretched s u).
Local Notation tab := (tab s u).
Local Notation tab_at := (tab_at s u).

(** What the second-order 1-loop terms need when the unit changes *)
Definition good_q (k : R) (g : glq RNum) : Prop := s = 1 \/ 0 < k /\ pos_q g.
Definition good_mu (m : glmu RNum) : Prop := s = 1 \/ inner m.
Lemma update_x (g h : glq RNum) k : q_ok g -> update_gauss_legendre_q (N := RNum) g k = Ok h ->
  gq_q h = gq_q g /\ forall i x, rd (gq_x h) i = Ok x -> exists q, rd (gq_q h) i = Ok q /\ x = q / k.
Proof.
  intros OK E. destruct (update_q_val g k 0 ltac:(apply OK) ltac:(apply OK) ltac:(apply OK)) as (v & E' & A1 & A2 & A3 & A4 & A5 & A6 & A7). rewrite E in E'. injection E' as <-. split; [exact A3|].
  intros i x Ei. assert (Hi : (0 <= i < gq_nq g)%Z).
  { rewrite <- A6. unfold rd in Ei. destruct (_ && _) eqn:C; [|discriminate]. apply andb_prop in C. destruct C as (C1 & C2). apply Z.leb_le in C1. apply Z.ltb_lt in C2. auto. }
  rewrite (rd_ok (A := T RNum) 0) in Ei by (rewrite A6; exact Hi). injection Ei as <-. exists (znth 0 (gq_q h) i). rewrite A3. split; [apply (rd_ok (A := T RNum)); destruct OK as (_ & L & _); rewrite L; exact Hi|]. rewrite A7 by exact Hi. reflexivity.
Qed.
Lemma gamma2_terms_s pkl pkl' im g g' m gd gd' gt gt' a b k : stretched pkl pkl' -> tab g g' -> tab gd gd' -> tab gt gt' -> pos_q gd -> pos_q gt -> good_q k g -> good_mu m ->
  res_rel (fun p q => tml (map (Rmult (s * s * s)) (fs3 s u)) (fst (fst p)) (fst (fst q))) (calc_pk_gamma2_1loop (N := RNum) pkl im g m gd gt a b k) (calc_pk_gamma2_1loop (N := RNum) pkl' im g' m gd' gt' a b (s * k)).
Proof.
  intros S G Gd Gt Pd Pt Gk Gm. unfold calc_pk_gamma2_1loop. pose proof (update_s s u Hs g g' k G) as U. destruct (update_gauss_legendre_q g k) as [h|e] eqn:Eh, (update_gauss_legendre_q g' (s * k)) as [h'|e']; try contradiction; [|exact U]. cbn [res_rel bind] in *. pose proof U as (T & X & _ & _).
  eapply bind_rel; [apply (q_loop_s true h h' good_mu (fun mu => s = 1 \/ inside mu) m (fs3 s u)); [exact X|eapply tab_n, T|exact Gm| | |]|].
  - intros m1 x m2 [E1|In1] R2; [split; [left; exact E1|]; apply Forall_forall; intros; left; exact E1|]. destruct (inner_range true h m1 x m2 In1 R2) as (A & B). split; [right; exact A|]. eapply Forall_impl; [|exact B]. intros; right; assumption.
  - intros iq mu Hmu. eapply kernel_gamma2_s; try eassumption. destruct Gk as [E1|(Pk & Pg)]; [left; exact E1|]. destruct Hmu as [E1|Hmu]; [left; exact E1|]. right. destruct (update_x g h k (proj1 G) Eh) as (E1 & E2). split; [exact Pk|]. split; [|split; [exact E2|exact Hmu]]. unfold pos_q. rewrite E1. exact Pg.
  - intros iq x l l' L. eapply add_x3w_s; eassumption.
  - intros [l n] [l' n'] (L & _). cbn [fst snd res_rel] in *. apply tml_scale; [|exact L]. intros. rn. unfold Rdiv. ring.
Qed.
Lemma rel_inv {A B} (R : A -> B -> Prop) x y a : res_rel R x y -> x = Ok a -> exists b, y = Ok b /\ R a b.
Proof. intros H ->. destruct y; cbn in H; [eauto|contradiction]. Qed.
Lemma init_pos fuel p pkl g : (0 <= pr_n p < 2 ^ 62)%Z -> init_gauss_legendre_q (N := RNum) fuel p pkl = Ok g -> pos_q g.
Proof.
  intros Hn E. destruct (init_q_inv fuel p pkl g 0 Hn E) as (qmin & qmax & x & _ & _ & _ & _ & _ & L & _ & _ & H & _). intros q Hq. destruct (In_nth _ _ 0 Hq) as (i & Li & <-). unfold zlen in L. specialize (H (Z.of_nat i)). unfold znth in H. rewrite Nat2Z.id in H. refine (eq_ind_r (fun y => 0 < y) _ (H _)); [apply exp_pos|]. split; [lia|]. rewrite <- L. apply inj_lt. exact Li.
Qed.
Lemma take_s fs n l l' : length fs = n -> tml fs l l' -> res_rel (tml fs) (take (N := RNum) n l) (take (N := RNum) n l').
Proof.
  intros F (L & E). assert (L' : length l' = n) by (rewrite E, zipw_len by (symmetry; exact L); exact F).
  unfold take. assert (X' : List.length (A := T RNum) l' = n) by exact L'. assert (X : List.length (A := T RNum) l = n) by (etransitivity; [exact L|exact F]). rewrite X, X', Nat.leb_refl. cbn [res_rel]. rewrite !firstn_all2 by lia. split; assumption.
Qed.

(** ** The rows *)
Section Rows.
Variables (fuel : nat) (st st' : settings RNum) (qs : list string) (pkl pkl' : Pk RNum).
Hypotheses (HS : stretched pkl pkl') (HT : rescaled_settings s qs st st').
Hypothesis (HN : sizes st qs).
Hypothesis (HR : forall x, In x qs -> range_ok s (s_prec st x) pkl).
Lemma new_q_s x : In x qs -> res_rel (fun g g' => tab g g' /\ pos_q g) (new_q fuel st pkl x) (new_q fuel st' pkl' x).
Proof.
  intros Hx. unfold new_q. pose proof (init_q_s s u Hs Hu fuel (s_prec st x) (s_prec st' x) pkl pkl' (HN x Hx)) as H.
  assert (P : prec_s s (s_prec st x) (s_prec st' x)) by (destruct HT as (A & B & _); destruct (A x), (B x Hx); repeat split; assumption).
  specialize (H P HS (HR x Hx)). pose proof (init_pos fuel (s_prec st x) pkl) as Q. destruct (init_gauss_legendre_q fuel (s_prec st x) pkl) as [g|e], (init_gauss_legendre_q fuel (s_prec st' x) pkl') as [g'|e']; cbn in *; auto.
Qed.
Lemma new_mu_s x : new_mu fuel st' x = new_mu fuel st x.
Proof. unfold new_mu, init_gauss_legendre_mu. rewrite (proj1 (proj1 HT x)). reflexivity. Qed.
Lemma im_s x : im_of st' x = im_of st x.
Proof. unfold im_of. apply (proj1 HT x). Qed.
Let v := s * s * s * u.
Lemma cons_tml c fs x x' l l' : tm c x x' -> tml fs l l' -> tml (c :: fs) (x :: l) (x' :: l').
Proof. intros -> (L & ->). split; [cbn; congruence|reflexivity]. Qed.
Lemma nil_tml : tml [] [] []. Proof. split; reflexivity. Qed.
Lemma value_1loop_s a b k : incl q_tables_1loop qs -> res_rel (tml [v; v; s * s * s * (u * u)]) (value_1loop fuel st pkl a b k) (value_1loop fuel st' pkl' a b (s * k)).
Proof.
  intros Hq. unfold value_1loop. rewrite new_mu_s, im_s.
  eapply bind_rel; [apply new_q_s, Hq; cbn; auto|]. intros g1 g1' (G1 & _). eapply bind_rel; [apply new_q_s, Hq; cbn; auto|]. intros g g' (G & _). apply bind_same. intros m _.
  eapply bind_rel; [apply (gamma1_1loop_s s u Hs); eassumption|]. intros [x h1] [x' h1'] (X & _). cbn [fst snd] in *. eapply bind_rel; [apply (gamma1_1loop_s s u Hs); eassumption|]. intros [y h2] [y' h2'] (Y & _). cbn [fst snd] in *.
  eapply bind_rel; [apply (gamma2_tree_s s u Hs Hu); eassumption|]. intros [[p h3] n3] [[p' h3'] n3'] P. cbn [fst snd] in *.
  eapply bind_rel; [eapply take_s; [|exact P]; reflexivity|]. intros z z' Z. cbn [res_rel]. apply cons_tml; [exact X|]. apply cons_tml; [exact Y|exact Z].
Qed.
Lemma value_2loop_s a b k : incl q_tables_2loop qs -> (s = 1 \/ 0 < k) -> (forall m, new_mu fuel st "gamma2_tree_mu" = Ok m -> good_mu m) ->
  res_rel (tml (v :: v * v :: v :: v * v :: map (Rmult (s * s * s)) (fs3 s u))) (value_2loop fuel st pkl a b k) (value_2loop fuel st' pkl' a b (s * k)).
Proof.
  intros Hq Hk Hm. unfold value_2loop. rewrite new_mu_s, im_s.
  eapply bind_rel; [apply new_q_s, Hq; cbn; auto|]. intros g1 g1' (G1 & _). eapply bind_rel; [apply new_q_s, Hq; cbn; auto|]. intros g2 g2' (G2 & _). eapply bind_rel; [apply new_q_s, Hq; cbn; auto|]. intros g g' (G & Pg). apply bind_same. intros m Em.
  eapply bind_rel; [apply new_q_s, Hq; cbn; auto|]. intros gd gd' (Gd & Pd). eapply bind_rel; [apply new_q_s, Hq; cbn; auto 10|]. intros gt gt' (Gt & Pt).
  eapply bind_rel; [apply (gamma1_terms_s s u Hs); eassumption|]. intros [[[[[a1 a2] b1] b2] h1] h2] [[[[[a1' a2'] b1'] b2'] h1'] h2'] (A1 & A2 & B1 & B2).
  eapply bind_rel; [apply gamma2_terms_s; try eassumption|]. { destruct Hk as [E|Pk]; [left; exact E|right; auto]. } { apply Hm, Em. }
  intros [[p h3] n3] [[p' h3'] n3'] P. cbn [fst snd] in *.
  eapply bind_rel; [eapply take_s; [|exact P]; reflexivity|]. intros z z' Z. cbn [res_rel]. repeat apply cons_tml; assumption.
Qed.
Lemma value_bias_s k : incl q_tables_bias qs -> let w := s * s * s * (u * u) in res_rel (tml [w; w; w; w; w; w; w; v]) (value_bias fuel st pkl k) (value_bias fuel st' pkl' (s * k)).
Proof.
  intros Hq w. unfold value_bias. rewrite new_mu_s, im_s. eapply bind_rel; [apply new_q_s, Hq; cbn; auto|]. intros g g' (G & _). apply bind_same. intros m _.
  assert (St : forall a kern half c, (forall q kq mu c' p p', kern a (s * q) (s * kq) mu c' (u * p) (u * p') = c * kern a q kq mu c' p p') ->
    res_rel (tm (s * s * s * c)) (' (v, _, _) <- calc_pk_bias_1loop (N := RNum) pkl (im_of st "bias_1loop_mu") g m a k kern half ;; Ok v) (' (v, _, _) <- calc_pk_bias_1loop (N := RNum) pkl' (im_of st "bias_1loop_mu") g' m a (s * k) kern half ;; Ok v)).
  { intros a kern half c HK. eapply bind_rel; [apply (bias_s s u Hs Hu) with (v := c); eassumption|]. intros [[p ?] ?] [[p' ?] ?] P. exact P. }
  eapply bind_rel; [apply St; intros; apply b2_s; exact Hs|]. intros b1 c1 C1. eapply bind_rel; [apply St; intros; apply bs2_s; exact Hs|]. intros b2 c2 C2.
  eapply bind_rel; [apply St; intros; apply b2_s; exact Hs|]. intros b3 c3 C3. eapply bind_rel; [apply St; intros; apply bs2_s; exact Hs|]. intros b4 c4 C4.
  eapply bind_rel; [apply St; intros; apply b22_s|]. intros b5 c5 C5. eapply bind_rel; [apply St; intros; apply b2s2_s|]. intros b6 c6 C6. eapply bind_rel; [apply St; intros; apply bs22_s|]. intros b7 c7 C7. eapply bind_rel; [apply St; intros; apply sigma3_s|]. intros b8 c8 C8.
  cbn [res_rel]. repeat (apply cons_tml; [assumption|]). apply nil_tml.
Qed.
Lemma value_A_s k : incl q_tables_A_1loop qs -> res_rel (tml (repeat (s * s * s * (u * u)) 5)) (value_A_1loop fuel st pkl k) (value_A_1loop fuel st' pkl' (s * k)).
Proof.
  intros Hq. unfold value_A_1loop. rewrite new_mu_s, !im_s. eapply bind_rel; [apply new_q_s, Hq; cbn; auto|]. intros g g' (G & _). apply bind_same. intros m _.
  eapply bind_rel; [apply (A_1loop_s s u Hs Hu); eassumption|]. intros [[p h3] n3] [[p' h3'] n3'] P. cbn [fst snd] in *. eapply take_s; [|exact P]; reflexivity.
Qed.
Lemma rd_tml c n l l' i : tml (repeat c n) l l' -> res_rel (tm c) (rd l i) (rd l' i).
Proof. intros (L & E). apply rd_tms. rewrite repeat_length in L. apply tml_const. rewrite L. split; [rewrite repeat_length; exact L|exact E]. Qed.
Lemma sum_B_s c n l l' : tml (repeat c n) l l' -> res_rel (tml (repeat c 9)) (sum_B (N := RNum) l) (sum_B (N := RNum) l').
Proof.
  intros L. unfold sum_B. do 12 (eapply bind_rel; [eapply rd_tml; exact L|]; intros ? ? ?). cbn [res_rel]. rn. cbn [repeat].
  repeat match goal with H : tm _ _ _ |- _ => red in H; subst end. repeat (apply cons_tml; [red; ring|]). apply nil_tml.
Qed.
Lemma value_B_s dt dt' ptt ptt' k : incl q_tables_B qs -> stretched dt dt' -> stretched ptt ptt' -> res_rel (tml (repeat (s * s * s * (u * u)) 9)) (value_B fuel st pkl dt ptt k) (value_B fuel st' pkl' dt' ptt' (s * k)).
Proof.
  intros Hq S1 S2. unfold value_B. rewrite new_mu_s, !im_s. eapply bind_rel; [apply new_q_s, Hq; cbn; auto|]. intros g g' (G & _). apply bind_same. intros m _.
  eapply bind_rel; [apply (B_s s u Hs Hu); eassumption|]. intros [[p h3] n3] [[p' h3'] n3'] P. cbn [fst snd] in *. eapply sum_B_s. exact P.
Qed.
End Rows.
End Scale.

(** ** The third order: the spectrum is multiplied, the unit is the same. *)
Lemma kernel_gamma3_u u pkl pkl' im a1 a2 a3 a4 k a b xx : 0 < u -> stretched 1 u pkl pkl' ->
  res_rel (tm (u * u * u)) (kernel_pk_gamma3_tree (N := RNum) pkl im a1 a2 a3 a4 k a b xx) (kernel_pk_gamma3_tree (N := RNum) pkl' im a1 a2 a3 a4 k a b xx).
Proof.
  intros Hu S. unfold kernel_pk_gamma3_tree. do 5 (apply bind_same; intros ? _). match goal with |- res_rel _ (if ?c then _ else _) _ => destruct c end; [|cbn [res_rel]; red; rn; ring].
  assert (F : forall q, res_rel (tm u) (find1 (N := RNum) pkl im q) (find1 (N := RNum) pkl' im q)) by (intros q; pose proof (find1_s 1 u Rlt_0_1 Hu pkl pkl' im q S) as H; rewrite Rmult_1_l in H; exact H).
  eapply bind_rel; [apply F|]. intros p p' P. eapply bind_rel; [apply F|]. intros q q' Q. eapply bind_rel; [apply F|]. intros r r' R'. red in P, Q, R'. subst. cbn [res_rel]. red. rn. ring.
Qed.
Lemma times_rel c x y : res_rel (tm c) x y <-> y = times_res c x.
Proof. destruct x, y; cbn; unfold tm; split; try congruence; try contradiction. Qed.
Lemma value_gamma3_u u st pkl pkl' suave1 a b k : 0 < u -> stretched 1 u pkl pkl' -> suave_scales (u * u * u) suave1 ->
  res_rel (tml [u * u * u]) (value_gamma3 st pkl suave1 a b k) (value_gamma3 st pkl' suave1 a b k).
Proof.
  intros Hu S Hv. unfold value_gamma3. assert (Q : q_range (s_prec st "gamma3_tree_q") pkl' = q_range (s_prec st "gamma3_tree_q") pkl).
  { destruct S as (En & Ek & _). unfold q_range. rewrite En, Ek. replace (map (Rmult 1) (pk_k pkl)) with (pk_k pkl); [reflexivity|]. symmetry. etransitivity; [|apply map_id]. apply map_ext. intros; apply Rmult_1_l. }
  rewrite Q. apply bind_same. intros [a1 a2] _. eapply bind_rel with (R := tm (u * u * u)).
  - unfold calc_pk_gamma3_tree. eapply bind_rel with (R := tm (u * u * u)).
    + apply times_rel. apply Hv. intros xx. apply times_rel. apply kernel_gamma3_u; assumption.
    + intros x y E. red in E. subst y. cbn [res_rel]. red. rn. unfold Rdiv. ring.
  - intros x y E. red in E. subst y. split; reflexivity.
Qed.
