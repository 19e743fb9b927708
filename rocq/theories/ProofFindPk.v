(** ProofFindPk: table lookup and extrapolation (find_pk, extrapol_pk_lowk, extrapol_pk_highk). *)
From Coq Require Import Reals Lra.
From Verif Require Import Base Num BaseFacts Order Spec Poly Common ProofSearch ProofInterp.
Local Open Scope Z_scope.

(** A table as the Python binding passes it: both arrays have nk elements. *)
Definition wf_pk {N : Num} (p : Pk N) : Prop :=
  pk_n p = zlen (pk_k p) /\ zlen (pk_p p) = zlen (pk_k p) /\ zlen (pk_k p) < 2 ^ 62.

(** ** Safety for every [Num] *)
Section Safe.
Context {N : Num} (pkin : Pk N).
Hypothesis WF : wf_pk pkin.
Let nk := zlen (pk_k pkin).
Let d := nZ N 0.

Lemma sum_slopes_safe start en : 1 <= start <= en -> en <= nk - 1 ->
  exists o, sum_slopes pkin start en = Ok o.
Proof.
  destruct WF as [W1 [W2 W3]]. intros H1 H2. unfold sum_slopes.
  match goal with |- context [for_brk ?lo ?hi ?b ?s] =>
    destruct (for_brk_inv (fun _ _ => True) (fun _ => True) lo hi b s) as [[s' [E _]]|[x [E _]]] end.
  - lia.
  - exact I.
  - intros j s Hj _. fold nk in W2, W3.
    rewrite (u64_small (j - 1)) by (unfold SIZE_T; lia).
    rewrite (rd_ok d) by lia; cbn [bind]. rewrite (rd_ok d) by lia; cbn [bind].
    destruct (_ || _)%bool; [right; eexists; split; [reflexivity|exact I]|].
    left. rewrite (rd_ok d) by (fold nk; lia); cbn [bind]. rewrite (rd_ok d) by (fold nk; lia); cbn [bind].
    eexists; split; [reflexivity|exact I].
  - exists (inl s'); exact E.
  - exists (inr x); exact E.
Qed.
Lemma lowk_safe k : 2 <= nk -> exists p, extrapol_pk_lowk pkin k = Ok p.
Proof.
  intros Hn. pose proof WF as [W1 [W2 W3]]. fold nk in W1, W2, W3. unfold extrapol_pk_lowk. rewrite W1.
  assert (Hen : 1 <= zmin 15 (nk - 1) <= nk - 1) by (unfold zmin; destruct (Z.ltb_spec 15 (nk - 1)); lia).
  rewrite (u64_small (zmin 15 (nk - 1))) by (unfold SIZE_T; lia).
  destruct (sum_slopes_safe 1 (zmin 15 (nk - 1))) as [o E]; try lia. rewrite E; cbn [bind].
  destruct o as [s|r]; [|eauto].
  rewrite (rd_ok d) by lia; cbn [bind]. rewrite (rd_ok d) by (fold nk; lia); cbn [bind]. eauto.
Qed.
Lemma highk_safe k : 2 <= nk -> exists p, extrapol_pk_highk pkin k = Ok p.
Proof.
  intros Hn. pose proof WF as [W1 [W2 W3]]. fold nk in W1, W2, W3. unfold extrapol_pk_highk. rewrite W1.
  rewrite (u64_small (nk - 1)) by (unfold SIZE_T; lia).
  assert (Hst : 1 <= zmax 1 (nk - 1 - 15) <= nk - 1) by (unfold zmax; destruct (Z.gtb_spec 1 (nk - 1 - 15)); lia).
  destruct (sum_slopes_safe (zmax 1 (nk - 1 - 15)) (nk - 1)) as [o E]; try lia. rewrite E; cbn [bind].
  destruct o as [s|r]; [|eauto].
  rewrite (rd_ok d) by lia; cbn [bind]. rewrite (rd_ok d) by (fold nk; lia); cbn [bind]. eauto.
Qed.

Lemma window_bounds ind : 0 <= ind < nk ->
  0 <= zmax 0 (ind - 2) <= ind /\ ind <= zmin (nk - 1) (ind + 2) <= nk - 1.
Proof.
  intros H; unfold zmax, zmin. destruct (Z.gtb_spec 0 (ind - 2)), (Z.ltb_spec (nk - 1) (ind + 2)); lia.
Qed.

Lemma step_poly_safe kstart kend start k : 2 <= nk -> 0 <= start < nk ->
  exists p s, find_pk_step pkin POLY (nk - 1) kstart kend start k = Ok (p, s) /\ 0 <= s < nk.
Proof.
  intros Hn Hs. pose proof WF as [W1 [W2 W3]]. fold nk in W1, W2, W3. unfold find_pk_step.
  destruct (nlt N kend k).
  { destruct (highk_safe k Hn) as [p E]. rewrite E; cbn [bind]. eauto. }
  destruct (nlt N k kstart).
  { destruct (lowk_safe k Hn) as [p E]. rewrite E; cbn [bind]. eauto. }
  rewrite (u64_small (nk - 1 + 1)) by (unfold SIZE_T; lia).
  destruct (dicho_safe k (pk_k pkin) (Z.to_nat (nk - 1 + 1 - start)) start (nk - 1 + 1)) as [ind [E Hi]];
    try lia; try (fold nk; lia).
  unfold get_dichotomy_index. rewrite E; cbn [bind].
  destruct (window_bounds ind) as [B1 B2]; [lia|].
  destruct (interpol_poly_safe k (skipn (Z.to_nat (zmax 0 (ind - 2))) (pk_k pkin))
     (skipn (Z.to_nat (zmax 0 (ind - 2))) (pk_p pkin)) (zmin (nk - 1) (ind + 2) - zmax 0 (ind - 2) + 1)) as [y Ey];
    rewrite ?zlen_skipn by (fold nk; lia); try (fold nk; lia).
  rewrite Ey; cbn [bind]. exists y, ind. split; [reflexivity|lia].
Qed.
Lemma loop_poly_safe kstart kend start ks : 2 <= nk -> 0 <= start < nk ->
  exists ps, find_pk_loop pkin POLY (nk - 1) kstart kend start ks = Ok ps /\ length ps = length ks.
Proof.
  intros Hn. revert start; induction ks as [|k ks IH]; intros start Hs; cbn [find_pk_loop]; [eauto|].
  destruct (step_poly_safe kstart kend start k Hn Hs) as [p [s [E Hs']]]. rewrite E; cbn [bind].
  destruct (IH s Hs') as [ps [E2 L]]. rewrite E2; cbn [bind].
  exists (p :: ps). split; [reflexivity|cbn; lia].
Qed.
Lemma find_pk_poly_safe ks : 2 <= nk -> exists ps, find_pk pkin ks POLY = Ok ps /\ length ps = length ks.
Proof.
  intros Hn. pose proof WF as [W1 [W2 W3]]. fold nk in W1, W2, W3. unfold find_pk. rewrite W1.
  rewrite (u64_small (nk - 1)) by (unfold SIZE_T; lia).
  rewrite !(rd_ok d) by (fold nk; lia); cbn [bind]. apply loop_poly_safe; lia.
Qed.
End Safe.

(** ** Element-wise on ascending queries *)
Section Elementwise.
Context {N : Num} (G : T N -> Prop) (OL : order_laws N G) (pkin : Pk N).
Hypothesis WF : wf_pk pkin.
Let nk := zlen (pk_k pkin).
Context (d : T N).
Hypothesis Hnk : 1 <= nk.
Hypothesis GT : forall i, 0 <= i < nk -> G (znth d (pk_k pkin) i).
Hypothesis Hsort : forall i j, 0 <= i < j -> j < nk -> nlt N (znth d (pk_k pkin) i) (znth d (pk_k pkin) j) = true.
Let K i := znth d (pk_k pkin) i.

Lemma dicho_from start k : G k -> 0 <= start < nk -> nlt N k (K start) = false ->
  exists i, get_dichotomy_index k (pk_k pkin) start nk = Ok i /\ start <= i < nk /\
    nlt N k (K i) = false /\ (i = nk - 1 \/ nlt N k (K (i + 1)) = true).
Proof.
  intros Gk Hs H. pose proof WF as [W1 [W2 W3]].
  apply (dichotomy_bracket G OL d k (pk_k pkin) start nk); auto; try lia.
  intros; apply Hsort; lia.
Qed.
Lemma dicho_same start k : G k -> 0 <= start < nk -> nlt N k (K start) = false -> nlt N k (K 0) = false ->
  get_dichotomy_index k (pk_k pkin) start nk = get_dichotomy_index k (pk_k pkin) 0 nk.
Proof.
  intros Gk Hs H H0.
  destruct (dicho_from start k Gk Hs H) as [i [E [Hi [Hi1 Hi2]]]].
  destruct (dicho_from 0 k Gk ltac:(lia) H0) as [j [E' [Hj [Hj1 Hj2]]]].
  rewrite E, E'. f_equal.
  apply (bracket_unique G OL d k (pk_k pkin) start 0 nk i j); auto; fold nk; lia.
Qed.

Definition carried (start : Z) (k : T N) : Prop := nlt N k (K 0) = false -> nlt N k (K start) = false.

Lemma step_same im start k : G k -> 0 <= start < nk -> carried start k ->
  (r <- find_pk_step pkin im (nk - 1) (K 0) (K (nk - 1)) start k ;; Ok (fst r)) =
  (r <- find_pk_step pkin im (nk - 1) (K 0) (K (nk - 1)) 0 k ;; Ok (fst r)).
Proof.
  intros Gk Hs HC. pose proof WF as [W1 [W2 W3]]. fold nk in W3. unfold find_pk_step.
  destruct (nlt N (K (nk - 1)) k).
  { destruct (extrapol_pk_highk pkin k); reflexivity. }
  destruct (nlt N k (K 0)) eqn:E0.
  { destruct (extrapol_pk_lowk pkin k); reflexivity. }
  rewrite (u64_small (nk - 1 + 1)) by (unfold SIZE_T; lia). replace (nk - 1 + 1) with nk by lia.
  rewrite (dicho_same start k Gk Hs (HC E0) E0). reflexivity.
Qed.

Lemma step_carries im start k p s : G k -> 0 <= start < nk -> carried start k ->
  find_pk_step pkin im (nk - 1) (K 0) (K (nk - 1)) start k = Ok (p, s) ->
  0 <= s < nk /\ (s = start \/ nlt N k (K s) = false).
Proof.
  intros Gk Hs HC. pose proof WF as [W1 [W2 W3]]. fold nk in W3. unfold find_pk_step.
  destruct (nlt N (K (nk - 1)) k).
  { intros H. apply bind_ok in H. destruct H as [a [_ E]]. injection E as <- <-. split; [lia|left; reflexivity]. }
  destruct (nlt N k (K 0)) eqn:E0.
  { intros H. apply bind_ok in H. destruct H as [a [_ E]]. injection E as <- <-. split; [lia|left; reflexivity]. }
  rewrite (u64_small (nk - 1 + 1)) by (unfold SIZE_T; lia). replace (nk - 1 + 1) with nk by lia.
  destruct (dicho_from start k Gk Hs (HC E0)) as [i [E [Hi [Hi1 Hi2]]]]. rewrite E; cbn [bind].
  destruct im; intros H.
  - apply bind_ok in H. destruct H as [y [_ Ey]]. injection Ey as <- <-. split; [lia|right; exact Hi1].
  - repeat (apply bind_ok in H; destruct H as [? [_ H]]). injection H as <- <-. split; [lia|right; exact Hi1].
Qed.

Lemma carried_next s k k' : G k -> G k' -> 0 <= s < nk -> nlt N k (K s) = false -> nlt N k' k = false -> carried s k'.
Proof.
  intros Gk Gk' Hs H H' _. destruct (nlt N k' (K s)) eqn:E; [|reflexivity].
  rewrite (ol_lt_le N G OL k' (K s) k) in H'; auto; try discriminate; apply GT; lia.
Qed.

Lemma step_single im k p :
  find_pk pkin [k] im = Ok [p] <-> exists s, find_pk_step pkin im (nk - 1) (K 0) (K (nk - 1)) 0 k = Ok (p, s).
Proof.
  pose proof WF as [W1 [W2 W3]]. fold nk in W1, W2, W3. unfold find_pk. rewrite W1.
  rewrite (u64_small (nk - 1)) by (unfold SIZE_T; lia).
  rewrite !(rd_ok d) by (fold nk; lia); cbn [bind find_pk_loop].
  fold (K 0) (K (nk - 1)).
  destruct (find_pk_step pkin im (nk - 1) (K 0) (K (nk - 1)) 0 k) as [[p' s]|u]; cbn [bind].
  - split; [intros H; injection H as ->; eauto|intros [s' H]; injection H as -> _; reflexivity].
  - split; [discriminate|intros [s' H]; discriminate].
Qed.

Lemma loop_elementwise im ks : forall start,
  (forall i, 0 <= i < zlen ks -> G (znth d ks i)) ->
  (forall i j, 0 <= i < j -> j < zlen ks -> nlt N (znth d ks j) (znth d ks i) = false) ->
  0 <= start < nk -> (forall i, 0 <= i < zlen ks -> carried start (znth d ks i)) ->
  forall ps, find_pk_loop pkin im (nk - 1) (K 0) (K (nk - 1)) start ks = Ok ps <->
             Forall2 (fun k p => find_pk pkin [k] im = Ok [p]) ks ps.
Proof.
  induction ks as [|k ks IH]; intros start HG Hasc Hs HC ps; cbn [find_pk_loop].
  - split; [intros H; injection H as <-; constructor|intros H; inversion H; reflexivity].
  - rewrite zlen_cons in *. pose proof (zlen_nonneg ks) as Hlk.
    assert (Gk : G k) by (apply (HG 0); lia).
    assert (Ck : carried start k) by (apply (HC 0); lia).
    assert (Htl : forall i, 0 <= i < zlen ks -> znth d (k :: ks) (i + 1) = znth d ks i)
      by (intros i Hi; rewrite znth_cons by lia; f_equal; lia).
    pose proof (step_same im start k Gk Hs Ck) as HS.
    destruct (find_pk_step pkin im (nk - 1) (K 0) (K (nk - 1)) start k) as [[p s]|u] eqn:E; cbn [bind fst] in *.
    + destruct (step_carries im start k p s Gk Hs Ck E) as [Hs' Hor].
      assert (E1 : find_pk pkin [k] im = Ok [p]).
      { apply step_single. destruct (find_pk_step pkin im (nk - 1) (K 0) (K (nk - 1)) 0 k) as [[p' s']|u]; cbn in HS;
          [injection HS as <-; eauto|discriminate]. }
      specialize (IH s).
      assert (IH' : forall ps, find_pk_loop pkin im (nk - 1) (K 0) (K (nk - 1)) s ks = Ok ps <->
             Forall2 (fun k p => find_pk pkin [k] im = Ok [p]) ks ps).
      { apply IH; auto.
        - intros i Hi. rewrite <- Htl by lia. apply HG; lia.
        - intros i j Hi Hj. rewrite <- !Htl by lia. apply Hasc; lia.
        - intros i Hi. destruct Hor as [->|Hor].
          + rewrite <- Htl by lia. apply HC; lia.
          + apply (carried_next s k); auto.
            * rewrite <- Htl by lia. apply HG; lia.
            * rewrite <- Htl by lia. apply (Hasc 0 (i + 1)); lia. }
      destruct (find_pk_loop pkin im (nk - 1) (K 0) (K (nk - 1)) s ks) as [ps'|u'] eqn:El; cbn [bind].
      * split.
        -- intros H; injection H as <-. constructor; [exact E1|apply IH'; reflexivity].
        -- intros H; inversion H as [|? ? ? ? H1 H2]; subst. rewrite H1 in E1; injection E1 as ->.
           apply IH' in H2. injection H2 as ->. reflexivity.
      * split; [discriminate|]. intros H; inversion H as [|? ? ? ? H1 H2]; subst. apply IH' in H2. discriminate.
    + split; [discriminate|]. intros H; inversion H as [|? ? ? ? H1 H2]; subst.
      apply step_single in H1. destruct H1 as [s' H1]. rewrite H1 in HS. discriminate.
Qed.

Lemma find_pk_elementwise im ks :
  (forall i, 0 <= i < zlen ks -> G (znth d ks i)) ->
  (forall i j, 0 <= i < j -> j < zlen ks -> nlt N (znth d ks j) (znth d ks i) = false) ->
  forall ps, find_pk pkin ks im = Ok ps <-> Forall2 (fun k p => find_pk pkin [k] im = Ok [p]) ks ps.
Proof.
  intros HG Hasc ps. pose proof WF as [W1 [W2 W3]]. fold nk in W1, W2, W3. unfold find_pk at 1. rewrite W1.
  rewrite (u64_small (nk - 1)) by (unfold SIZE_T; lia).
  rewrite !(rd_ok d) by (fold nk; lia); cbn [bind]. fold (K 0) (K (nk - 1)).
  apply loop_elementwise; auto; try lia. intros i Hi H. exact H.
Qed.

(** 'lin' lookup of the last tabulated k reads past the end. *)
Lemma find_pk_lin_last : find_pk pkin [K (nk - 1)] LIN = Err OOB.
Proof.
  pose proof WF as [W1 [W2 W3]]. fold nk in W1, W2, W3. unfold find_pk. rewrite W1.
  rewrite (u64_small (nk - 1)) by (unfold SIZE_T; lia).
  rewrite !(rd_ok d) by (fold nk; lia); cbn [bind find_pk_loop]. fold (K 0) (K (nk - 1)).
  assert (Hirr : forall i, 0 <= i < nk -> nlt N (K i) (K i) = false).
  { intros i Hi. destruct (nlt N (K i) (K i)) eqn:E; [|reflexivity].
    rewrite (ol_asym N G OL (K i) (K i)) in E; auto; apply GT; lia. }
  assert (Hlt : nlt N (K (nk - 1)) (K 0) = false).
  { destruct (Z.eq_dec nk 1) as [E1|E1].
    - replace (nk - 1) with 0 by lia. apply Hirr; lia.
    - apply (ol_asym N G OL); try (apply GT; lia). apply Hsort; lia. }
  unfold find_pk_step. rewrite Hirr, Hlt by lia.
  rewrite (u64_small (nk - 1 + 1)) by (unfold SIZE_T; lia). replace (nk - 1 + 1) with nk by lia.
  destruct (dicho_from 0 (K (nk - 1))) as [i [E [Hi [Hi1 Hi2]]]]; try lia; auto; try (apply GT; lia).
  rewrite E; cbn [bind].
  assert (i = nk - 1).
  { destruct Hi2 as [->|Hi2]; [lia|].
    destruct (Z.eq_dec i (nk - 1)) as [->|Hne]; [reflexivity|].
    destruct (Z.eq_dec (i + 1) (nk - 1)) as [E1|E1].
    - rewrite E1, Hirr in Hi2 by lia. discriminate.
    - rewrite (ol_asym N G OL (K (i + 1)) (K (nk - 1))) in Hi2; try (apply GT; lia); try discriminate.
      apply Hsort; lia. }
  subst i. rewrite (rd_ok d) by (fold nk; lia); cbn [bind].
  rewrite rd_oob by (fold nk; lia). reflexivity.
Qed.
End Elementwise.
