(** ProofScratch: no result depends on the columns each call overwrites, and no access is out of bounds. *)
From Coq Require Import ZArith Lia List Bool.
From Verif Require Import Base Num BaseFacts Lockstep Common Kernels Gamma2 Integrals SpecLoops SpecScratch SpecTable Sums ProofGL2 ProofCommon2 ProofGamma2g ProofIntegrals.
Import ListNotations.
Local Open Scope Z_scope.

Section Scratch.
Context {N : Num}.
Local Notation T := (T N).

Lemma same_q_refl (g : glq N) : q_ok g -> same_q g g.
Proof. unfold same_q. auto. Qed.
Lemma same_q_trans (g g' g'' : glq N) : same_q g g' -> same_q g' g'' -> same_q g g''.
Proof. unfold same_q. intros [_ [A [B [C D]]]] [H [A' [B' [C' D']]]]. repeat split; try congruence; apply H. Qed.
Lemma same_rule_refl (m : glmu N) : mu_ok m -> same_rule m m.
Proof. unfold same_rule. auto. Qed.
Lemma same_rule_trans (m m' m'' : glmu N) : same_rule m m' -> same_rule m' m'' -> same_rule m m''.
Proof. unfold same_rule. intros [_ [A [B C]]] [H [A' [B' C']]]. repeat split; try congruence; apply H. Qed.
Lemma same_rule_sym (m m' : glmu N) : mu_ok m -> same_rule m m' -> same_rule m' m.
Proof. unfold same_rule. intros H [_ [A [B C]]]. auto. Qed.

Lemma glq_ext (g g' : glq N) : gq_k g = gq_k g' -> gq_nq g = gq_nq g' -> gq_x g = gq_x g' -> gq_q g = gq_q g' -> gq_w g = gq_w g' -> gq_pk g = gq_pk g' -> g = g'.
Proof. destruct g, g'; cbn; congruence. Qed.
Lemma glmu_ext (g g' : glmu N) : gm_nmu g = gm_nmu g' -> gm_muref g = gm_muref g' -> gm_wref g = gm_wref g' -> gm_mu g = gm_mu g' -> gm_w g = gm_w g' -> g = g'.
Proof. destruct g, g'; cbn; congruence. Qed.

Lemma update_q_ok (g : glq N) k : q_ok g -> exists g', update_gauss_legendre_q g k = Ok g' /\ same_q g g'.
Proof.
  intros [H0 [H1 [H2 [H3 H4]]]]. destruct (update_q_val g k k ltac:(lia) H1 H2) as [g' [E [A1 [A2 [A3 [A4 [A5 [A6 _]]]]]]]].
  exists g'. split; [exact E|]. unfold same_q, q_ok. rewrite A2, A3, A4, A5. auto 10.
Qed.
Lemma update_q_same (g g' : glq N) k : q_ok g -> same_q g g' -> update_gauss_legendre_q g k = update_gauss_legendre_q g' k.
Proof.
  intros [H0 [H1 [H2 [H3 H4]]]] [[_ [B1 [B2 [B3 B4]]]] [S1 [S2 [S3 S4]]]].
  destruct (update_q_val g k k ltac:(lia) H1 H2) as [u [E [A1 [A2 [A3 [A4 [A5 [A6 A7]]]]]]]].
  destruct (update_q_val g' k k ltac:(lia) B1 B2) as [u' [E' [A1' [A2' [A3' [A4' [A5' [A6' A7']]]]]]]].
  rewrite E, E'. f_equal. apply glq_ext; try congruence.
  apply (znth_ext k); [congruence|]. intros i Hi. rewrite A7, A7' by lia. congruence.
Qed.
Lemma update_mu_same (m m' : glmu N) a b : mu_ok m -> same_rule m m' -> update_gauss_legendre_mu m a b = update_gauss_legendre_mu m' a b.
Proof.
  intros [H0 [H1 [H2 [H3 H4]]]] [[_ [B1 [B2 [B3 B4]]]] [S1 [S2 S3]]].
  destruct (update_mu_val m a b a H0 H1 H2 H3 H4) as [u [E [A1 [A2 [A3 [A4 [A5 A6]]]]]]].
  destruct (update_mu_val m' a b a ltac:(lia) B1 B2 B3 B4) as [u' [E' [A1' [A2' [A3' [A4' [A5' A6']]]]]]].
  rewrite E, E'. f_equal. apply glmu_ext; try congruence.
  - apply (znth_ext a); [congruence|]. intros i Hi. destruct (A6 i) as [-> _]; [lia|]. destruct (A6' i) as [-> _]; [lia|]. congruence.
  - apply (znth_ext a); [congruence|]. intros i Hi. destruct (A6 i) as [_ ->]; [lia|]. destruct (A6' i) as [_ ->]; [lia|]. congruence.
Qed.
Lemma set_mu_range_same half (g : glq N) (m m' : glmu N) x : mu_ok m -> same_rule m m' -> set_mu_range half g m x = set_mu_range half g m' x.
Proof. intros H S. unfold set_mu_range. repeat (match goal with |- bind ?y _ = bind ?y _ => destruct y; cbn [bind]; [|reflexivity] end).
  destruct (_ || _); [reflexivity|]. rewrite (update_mu_same m m') by assumption. reflexivity. Qed.

(** ** The two loops *)
Lemma q_loop_same half (g : glq N) (m m' : glmu N) nc kern add : mu_ok m -> same_rule m m' ->
  res_rel (fun s s' => fst s = fst s' /\ same_rule (snd s) (snd s')) (q_loop half g m nc kern add) (q_loop half g m' nc kern add).
Proof.
  intros Hm HS. unfold q_loop.
  apply (rel_imp (fun s s' => fst s = fst s' /\ mu_ok (snd s) /\ same_rule (snd s) (snd s'))); [tauto|].
  apply for_rel; [cbn; auto|]. intros j [acc u] [acc' u'] Hj [E [U S]]. cbn [fst snd] in *. subst acc'.
  apply bind_same. intros x _. rewrite (set_mu_range_same half g u u' x U S). apply bind_same. intros om Eo.
  destruct om as [v|]; [|cbn; auto]. apply bind_same. intros integ _. apply bind_same. intros c _. cbn.
  assert (V : mu_ok v).
  { unfold set_mu_range in Eo. repeat (match type of Eo with bind ?y _ = _ => destruct y; cbn [bind] in Eo; [|discriminate] end).
    destruct (_ || _); [discriminate|]. match type of Eo with bind ?y _ = _ => destruct y eqn:Eu; cbn [bind] in Eo; [|discriminate] end.
    injection Eo as <-. match type of Eu with update_gauss_legendre_mu _ ?a ?b = _ => destruct (update_mu_ok u' a b (proj1 S)) as [w [Ew Sw]] end.
    rewrite Eu in Ew. injection Ew as ->. apply Sw. }
  split; [reflexivity|]. split; [exact V|]. apply same_rule_refl, V.
Qed.
Lemma calc_same {A} half nc kern add (post : glq N -> list T -> res A) (g g' : glq N) (m m' : glmu N) k :
  q_ok g -> same_q g g' -> mu_ok m -> same_rule m m' ->
  let calc g m := (g <- update_gauss_legendre_q g k ;; '(s, m) <- q_loop half g m nc (kern g) (add g) ;; v <- post g s ;; Ok (v, g, m)) in
  same_result (calc g m) (calc g' m').
Proof.
  intros Hg Sg Hm Sm calc. unfold calc. rewrite <- (update_q_same g g' k Hg Sg).
  destruct (update_q_ok g k Hg) as [u [E Su]]. rewrite E. cbn [bind].
  pose proof (q_loop_same half u m m' nc (kern u) (add u) Hm Sm) as H.
  destruct (q_loop half u m nc (kern u) (add u)) as [[s v]|], (q_loop half u m' nc (kern u) (add u)) as [[s' v']|]; cbn in H; try contradiction; [|exact H].
  destruct H as [<- H]. cbn [bind]. destruct (post u s); [|reflexivity]. cbn. split; [reflexivity|]. split; [apply same_q_refl, Su|exact H].
Qed.

(** Totality of the loops. *)
Lemma zipw_len {A B C} (f : A -> B -> C) l : forall l', length l = length l' -> length (zipw f l l') = length l.
Proof. induction l as [|a l IH]; intros [|b l'] H; cbn in *; auto; try discriminate. Qed.
Lemma mu_loop_ok (m : glmu N) nc kern : mu_ok m -> (forall mu, exists v, kern mu = Ok v /\ length v = nc) ->
  exists v, mu_loop m nc kern = Ok v /\ length v = nc.
Proof.
  intros [H0 [H1 [H2 [H3 H4]]]] Hk. unfold mu_loop. set (d := nZ N 0).
  destruct (for_inv (fun _ v => length v = nc) 0 (gm_nmu m) (fun imu integ => mu <- rd (gm_mu m) imu ;; kernel <- kern mu ;; w <- rd (gm_w m) imu ;; Ok (zipw (fun a v => nadd N a (nmul N v w)) integ kernel)) (repeat d nc)) as [v [E L]].
  - exact H0.
  - apply repeat_length.
  - intros j s Hj L. rewrite (rd_ok d) by lia. cbn [bind]. destruct (Hk (znth d (gm_mu m) j)) as [v [-> Lv]]. cbn [bind]. rewrite (rd_ok d) by lia. cbn [bind].
    eexists. split; [reflexivity|]. rewrite zipw_len; congruence.
  - exists v. split; [exact E|exact L].
Qed.
Lemma q_loop_ok half (g : glq N) (m : glmu N) nc kern add : q_ok g -> mu_ok m ->
  (forall iq mu, 0 <= iq < gq_nq g -> exists v, kern iq mu = Ok v /\ length v = nc) ->
  (forall iq x l, 0 <= iq < gq_nq g -> length l = nc -> exists v, add iq x l = Ok v /\ length v = nc) ->
  exists v m', q_loop half g m nc kern add = Ok (v, m') /\ length v = nc /\ same_rule m m'.
Proof.
  intros [H0 [H1 [H2 [H3 H4]]]] Hm Hk Ha. unfold q_loop.
  match goal with |- context [for_ 0 (gq_nq g) ?b ?s0] => destruct (for_inv (fun _ s => length (fst s) = nc /\ same_rule m (snd s)) 0 (gq_nq g) b s0) as [[v m'] [E [L S]]] end.
  - lia.
  - cbn. split; [apply repeat_length|apply same_rule_refl, Hm].
  - intros j [acc u] Hj [L S]. cbn [fst snd] in *. rewrite (rd_ok (nZ N 0)) by lia. cbn [bind].
    destruct (set_mu_range_ok half g u (znth (nZ N 0) (gq_x g) j) (proj1 S) ltac:(lia) H2) as [->|[v [-> Sv]]]; cbn [bind].
    + eexists. split; [reflexivity|]. auto.
    + destruct (mu_loop_ok v nc (kern j) (proj1 Sv) (fun mu => Hk j mu Hj)) as [integ [-> Li]]. cbn [bind].
      destruct (Ha j (znth (nZ N 0) (gq_x g) j) integ Hj Li) as [c [-> Lc]]. cbn [bind]. eexists. split; [reflexivity|]. cbn [fst snd].
      split; [rewrite zipw_len; congruence|]. eapply same_rule_trans; eassumption.
  - exists v, m'. cbn in *. auto.
Qed.
End Scratch.
