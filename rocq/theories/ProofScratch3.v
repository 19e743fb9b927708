(** ProofScratch3: histories of calls. *)
From Coq Require Import ZArith Lia List Bool.
From Verif Require Import Base Num BaseFacts Lockstep Common Kernels Gamma2 Integrals SpecLoops SpecScratch SpecTable ProofGL2 ProofIntegrals ProofScratch ProofScratch2.
Import ListNotations.
Local Open Scope Z_scope.

Section Scratch3.
Context {N : Num}.
Local Notation T := (T N).

Lemma q_loop_tab half (g : glq N) (m m' : glmu N) nc kern add s : mu_ok m -> q_loop half g m nc kern add = Ok (s, m') -> same_rule m m'.
Proof.
  intros Hm E. enough (H : res_rel (fun s s' : list T * glmu N => s = s' /\ same_rule m (snd s)) (q_loop half g m nc kern add) (q_loop half g m nc kern add)).
  { rewrite E in H. apply H. }
  clear E. unfold q_loop. apply for_rel; [cbn; split; [reflexivity|apply same_rule_refl, Hm]|].
  intros j [acc u] [acc' u'] Hj [E S]. injection E as <- <-. cbn [snd] in *.
  apply bind_same. intros x _. apply bind_same. intros om Eo. destruct om as [v|]; [|cbn; auto].
  apply bind_same. intros integ _. apply bind_same. intros c _. cbn. split; [reflexivity|].
  unfold set_mu_range in Eo. repeat (match type of Eo with bind ?y _ = _ => destruct y; cbn [bind] in Eo; [|discriminate] end).
  destruct (_ || _); [discriminate|]. match type of Eo with bind ?y _ = _ => destruct y eqn:Eu; cbn [bind] in Eo; [|discriminate] end.
  injection Eo as <-. match type of Eu with update_gauss_legendre_mu _ ?a ?b = _ => destruct (update_mu_ok u a b (proj1 S)) as [w [Ew Sw]] end.
  rewrite Eu in Ew. injection Ew as ->. eapply same_rule_trans; eassumption.
Qed.
(** A call is transparent when its outcome does not depend on the scratch columns and it modifies nothing else. *)
Definition transparent {A} (f : tcall N A) : Prop :=
  (forall g g' m m', q_ok g -> same_q g g' -> mu_ok m -> same_rule m m' -> same_result (f g m) (f g' m')) /\
  (forall g m v g' m', q_ok g -> mu_ok m -> f g m = Ok (v, g', m') -> same_q g g' /\ same_rule m m').
Lemma history_tab {A} (calls : tcall N A -> Prop) g m g' m' : (forall f, calls f -> transparent f) -> history calls g m g' m' ->
  q_ok g -> mu_ok m -> same_q g g' /\ same_rule m m'.
Proof.
  intros HT H. induction H as [g m|f g m v g1 m1 g2 m2 Hf E _ IH]; intros Hg Hm.
  - split; [apply same_q_refl, Hg|apply same_rule_refl, Hm].
  - destruct (proj2 (HT f Hf) g m v g1 m1 Hg Hm E) as [S1 S2]. destruct (IH (proj1 S1) (proj1 S2)) as [S3 S4].
    split; [eapply same_q_trans; eassumption|eapply same_rule_trans; eassumption].
Qed.
Lemma history_same {A} (calls : tcall N A -> Prop) f g m g' m' : (forall f, calls f -> transparent f) -> calls f -> history calls g m g' m' ->
  q_ok g -> mu_ok m -> same_result (f g m) (f g' m').
Proof. intros HT Hf H Hg Hm. destruct (history_tab calls g m g' m' HT H Hg Hm). apply HT; assumption. Qed.
Ltac tabs Hg Hm E := repeat (let X := fresh "X" in match type of E with
  | bind (update_gauss_legendre_q _ _) _ = _ => destruct (update_gauss_legendre_q _ _) as [?|] eqn:X; [|discriminate]; apply (update_inv _ _ _ Hg) in X; cbn [bind] in E
  | bind (q_loop _ _ _ _ _ _) _ = _ => destruct (q_loop _ _ _ _ _ _) as [[? ?]|] eqn:X; [|discriminate]; apply (q_loop_tab _ _ _ _ _ _ _ _ Hm) in X; cbn [bind] in E
  | bind ?y _ = _ => destruct y; [|discriminate]; cbn [bind] in E end); injection E as _ <- <-; auto.
Lemma gamma2_transparent f : gamma2_calls (N := N) f -> transparent f.
Proof.
  intros [[pkl [im [a [b [k ->]]]]]|[pkl [im [gd [gt [a [b [k ->]]]]]]]]; (split; intros g ?; intros).
  - apply calc_gamma2_tree_same; assumption.
  - unfold calc_pk_gamma2_tree in *. tabs H H0 H1.
  - apply calc_gamma2_1loop_same; assumption.
  - unfold calc_pk_gamma2_1loop in *. tabs H H0 H1.
Qed.
Lemma bias_transparent f : bias_calls (N := N) f -> transparent f.
Proof.
  intros [pkl [im [a [k [kernel [half ->]]]]]]. split; intros g ?; intros.
  - apply calc_bias_same; assumption.
  - unfold calc_pk_bias_1loop in *. tabs H H0 H1.
Qed.
Lemma A_1loop_transparent f : A_1loop_calls (N := N) f -> transparent f.
Proof.
  intros [pkl [imq [im [k ->]]]]. split; intros g ?; intros.
  - apply calc_A_1loop_same; assumption.
  - unfold calc_pk_A_1loop in *. tabs H H0 H1.
Qed.
Lemma B_transparent f : B_calls (N := N) f -> transparent f.
Proof.
  intros [pdt [ptt [im [k ->]]]]. split; intros g ?; intros.
  - apply calc_B_same; assumption.
  - unfold calc_pk_B in *. tabs H H0 H1.
Qed.
Lemma A_2loop_I_transparent f : A_2loop_I_calls (N := N) f -> transparent f.
Proof.
  intros [pkl [im [uv [g1 [gd [gt [k [H1 ->]]]]]]]]. split; intros g ?; intros.
  - apply calc_A_2loop_I_same; try assumption. apply same_q_refl, H1.
  - unfold calc_pk_A_2loop_I in *. tabs H H0 H2.
Qed.
Lemma gamma1_hist two (g g' : glq N) : gamma1_history two g g' -> q_ok g -> same_q g g'.
Proof.
  induction 1 as [g|g a k v g1 g2 E _ IH]; intros Hg; [apply same_q_refl, Hg|].
  assert (S : same_q g g1) by (destruct two; [eapply gamma1_2loop_tab|eapply gamma1_1loop_tab]; eassumption).
  eapply same_q_trans; [exact S|]. apply IH, S.
Qed.
Lemma find_pk_length (p : Pk N) ks im ps : find_pk p ks im = Ok ps -> length ps = length ks.
Proof.
  unfold find_pk. destruct (rd (pk_k p) 0) as [k0|]; [|discriminate]. destruct (rd (pk_k p) _) as [k1|]; [|discriminate]. cbn [bind].
  generalize 0 at 1 as st. revert ps. induction ks as [|k ks IH]; intros ps st E; cbn [find_pk_loop] in E; [injection E as <-; reflexivity|].
  destruct (find_pk_step _ _ _ _ _ _ _) as [[v s']|]; [|discriminate]. cbn [bind] in E.
  destruct (find_pk_loop _ _ _ _ _ s' ks) as [l|] eqn:El; [|discriminate]. cbn [bind] in E. injection E as <-. cbn. f_equal. eapply IH. exact El.
Qed.
Lemma init_q_tables fuel (p : precision N) (pkl : Pk N) g : 0 <= pr_n p < 2 ^ 62 -> init_gauss_legendre_q fuel p pkl = Ok g -> q_ok g /\ table_ok g.
Proof.
  intros Hn E. destruct (init_q_inv fuel p pkl g (nZ N 0) Hn E) as [qmin [qmax [x H]]].
  destruct H as [_ [_ [A1 [A2 [A3 [A4 [A5 [A6 [_ A7]]]]]]]]]. apply find_pk_length in A7.
  assert (A8 : zlen (gq_pk g) = pr_n p) by (unfold zlen in *; lia).
  unfold q_ok, table_ok. rewrite A1, A3. repeat split; try assumption; lia.
Qed.
Lemma init_mu_tables fuel (p : precision N) g : 0 <= pr_n p < 2 ^ 62 -> init_gauss_legendre_mu fuel p = Ok g -> mu_ok g.
Proof.
  intros Hn E. destruct (init_mu_inv fuel p g Hn E) as [_ [A1 [A2 [A3 [A4 A5]]]]]. unfold mu_ok. rewrite A1, A2, A3. repeat split; try assumption; lia.
Qed.
Lemma bisp_I_tab (pkl : Pk N) im uv (g1 : glq N) gd gt k p kp out v u : q_ok g1 -> bispectrum_1loop_I pkl im uv g1 gd gt k p kp out = Ok (v, u) -> same_q g1 u.
Proof.
  intros H E. unfold bispectrum_1loop_I in E.
  do 3 (match type of E with bind ?y _ = _ => destruct y; [|discriminate]; cbn [bind] in E end).
  do 4 (match type of E with bind ?y _ = _ => destruct y; [|discriminate]; cbn [bind] in E end).
  match type of E with bind (gamma1_reg_1loop g1 k p kp ?x ?y ?z) _ = _ => destruct (reg1_ok g1 k p kp x y z H) as [? [? [? [? [? [? [w [E' S]]]]]]]] end. rewrite E' in E. cbn [bind] in E.
  match type of E with bind ?y _ = _ => destruct y as [[[[[[? ?] ?] ?] ?] ?]|]; [|discriminate]; cbn [bind] in E end.
  do 8 (match type of E with bind ?y _ = _ => destruct y; [|discriminate]; cbn [bind] in E end). injection E as _ <-. exact S.
Qed.
End Scratch3.
