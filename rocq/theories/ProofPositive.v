(** ProofPositive: Cauchy-Schwarz for the gamma2 integrals, three runs side by side. *)
From Coq Require Import ZArith Lia List Bool Reals Lra Psatz String.
From Verif Require Import Base Num BaseFacts Lockstep Common Kernels Gamma2 Integrals Registry Threads PyTerms Spec SpecIntegrals SpecLoops SpecThreads SpecSym SpecPositive
  ProofGL ProofNewton6 ProofGL2 ProofIntegrals ProofIntegrals9 ProofScratch ProofScratch3 ProofSym.
Import ListNotations.
Local Open Scope R_scope.

(** ** The relation *)
Lemma gram_0 : gram 0 0 0.
Proof. unfold gram. lra. Qed.
Lemma gram_add x y z x' y' z' : gram x y z -> gram x' y' z' -> gram (x + x') (y + y') (z + z').
Proof.
  intros (A & B & C) (A' & B' & C'). unfold gram. split; [lra|]. split; [lra|].
  assert (D : 2 * (y * y') <= x * z' + x' * z).
  { assert (0 <= x * z') by nra. assert (0 <= x' * z) by nra.
    destruct (Rle_dec (y * y') 0); [lra|]. apply Rnot_le_lt in n. 
    apply Rsqr_incr_0_var; [|lra]. unfold Rsqr.
    assert (E : (y * y') * (y * y') <= (x * z) * (x' * z')).
    { replace (y * y' * (y * y')) with (y ^ 2 * y' ^ 2) by ring. apply Rmult_le_compat; try exact C; try exact C'; apply pow2_ge_0. }
    pose proof (pow2_ge_0 (x * z' - x' * z)). nra. }
  nra.
Qed.
Lemma gram_scale w x y z : 0 <= w -> gram x y z -> gram (w * x) (w * y) (w * z).
Proof.
  intros H (A & B & C). unfold gram. split; [nra|]. split; [nra|].
  replace ((w * y) ^ 2) with (w ^ 2 * y ^ 2) by ring. replace (w * x * (w * z)) with (w ^ 2 * (x * z)) by ring. apply Rmult_le_compat_l; [apply pow2_ge_0|exact C].
Qed.
Lemma gram_prod w u v : 0 <= w -> gram (w * (u * u)) (w * (u * v)) (w * (v * v)).
Proof. intros H. apply gram_scale; [exact H|]. unfold gram. split; [nra|]. split; [nra|]. apply Req_le. ring. Qed.

(** ** Three runs *)
Definition ok3 {A B C} (R : A -> B -> C -> Prop) (x : res A) (y : res B) (z : res C) : Prop :=
  forall a b c, x = Ok a -> y = Ok b -> z = Ok c -> R a b c.
Lemma ok3_ret {A B C} (R : A -> B -> C -> Prop) a b c : R a b c -> ok3 R (Ok a) (Ok b) (Ok c).
Proof. intros H a' b' c' [= <-] [= <-] [= <-]. exact H. Qed.
Lemma bind3 {A B C A' B' C'} (R : A -> B -> C -> Prop) (S : A' -> B' -> C' -> Prop) x y z f g h :
  ok3 R x y z -> (forall a b c, R a b c -> ok3 S (f a) (g b) (h c)) -> ok3 S (bind x f) (bind y g) (bind z h).
Proof.
  intros H K a' b' c' Ea Eb Ec. destruct x as [a|]; [|discriminate Ea]. destruct y as [b|]; [|discriminate Eb]. destruct z as [c|]; [|discriminate Ec].
  exact (K a b c (H a b c eq_refl eq_refl eq_refl) a' b' c' Ea Eb Ec).
Qed.
Lemma same3 {A A' B' C'} (S : A' -> B' -> C' -> Prop) (x : res A) f g h : (forall a, x = Ok a -> ok3 S (f a) (g a) (h a)) -> ok3 S (bind x f) (bind x g) (bind x h).
Proof. intros K a' b' c' Ea Eb Ec. destruct x as [a|]; [|discriminate Ea]. exact (K a eq_refl a' b' c' Ea Eb Ec). Qed.
Lemma loop3 {A B C} (R : A -> B -> C -> Prop) n : forall i f g h a b c, R a b c ->
  (forall j a b c, (i <= j < i + Z.of_nat n)%Z -> R a b c -> ok3 R (f j a) (g j b) (h j c)) -> ok3 R (loop n i f a) (loop n i g b) (loop n i h c).
Proof.
  induction n as [|n IH]; intros i f g h a b c H Hs; cbn [loop]; [apply ok3_ret, H|].
  apply (bind3 R); [apply Hs; [lia|exact H]|]. intros a' b' c' H'. apply IH; [exact H'|]. intros. apply Hs; [lia|assumption].
Qed.
Lemma for3 {A B C} (R : A -> B -> C -> Prop) lo hi f g h a b c : R a b c ->
  (forall j a b c, (lo <= j < hi)%Z -> R a b c -> ok3 R (f j a) (g j b) (h j c)) -> ok3 R (for_ lo hi f a) (for_ lo hi g b) (for_ lo hi h c).
Proof. intros H Hs. apply loop3; [exact H|]. intros. apply Hs; [lia|assumption]. Qed.

(** The components as a quadratic form in the tree and 1-loop kernels *)
Definition qf (s t : R) (l : list R) : R := s * s * nth 0 l 0 + s * t * nth 1 l 0 + t * t * nth 2 l 0.
Definition RL (nc : nat) (l1 l2 l3 : list R) : Prop :=
  List.length l1 = nc /\ List.length l2 = nc /\ List.length l3 = nc /\ forall s t, gram (qf s t l1) (qf s t l2) (qf s t l3).
Lemma length_zipw {A B C} (f : A -> B -> C) : forall l l', List.length l = List.length l' -> List.length (zipw f l l') = List.length l.
Proof. induction l as [|a l IH]; intros [|b l'] H; cbn in *; try lia. f_equal. apply IH. lia. Qed.
Lemma nth_zipw (f : R -> R -> R) : f 0 0 = 0 -> forall l l' i, List.length l = List.length l' -> nth i (zipw f l l') 0 = f (nth i l 0) (nth i l' 0).
Proof.
  intros F. induction l as [|a l IH]; intros [|b l'] i H; cbn [List.length] in H; try lia.
  - destruct i; symmetry; exact F.
  - destruct i as [|i]; cbn [zipw nth]; [reflexivity|]. apply IH. lia.
Qed.
Lemma qf_zipw s t (f : R -> R -> R) w l l' : (forall a b, f a b = a + w * b) -> List.length l = List.length l' -> qf s t (zipw f l l') = qf s t l + w * qf s t l'.
Proof. intros F H. assert (F0 : f 0 0 = 0) by (rewrite F; ring). unfold qf. rewrite !(nth_zipw f F0) by exact H. rewrite !F. ring. Qed.
Lemma qf_map s t (f : R -> R) w l : (forall a, f a = w * a) -> qf s t (map f l) = w * qf s t l.
Proof.
  intros F. unfold qf. assert (E : forall i, nth i (map f l) 0 = w * nth i l 0).
  { intros i. replace 0 with (f 0) at 1 by (rewrite F; ring). rewrite map_nth. apply F. }
  rewrite !E. ring.
Qed.
Lemma nth_zeros nc i : nth i (repeat 0 nc) 0 = 0.
Proof. revert i. induction nc as [|n IH]; intros [|i]; cbn; auto. Qed.
Lemma RL_zeros nc : RL nc (repeat 0 nc) (repeat 0 nc) (repeat 0 nc).
Proof.
  unfold RL. rewrite repeat_length. split; [reflexivity|]. split; [reflexivity|]. split; [reflexivity|]. intros s t.
  replace (qf s t (repeat 0 nc)) with 0 by (unfold qf; rewrite !nth_zeros; ring). apply gram_0.
Qed.
Lemma RL_zipw nc f w l1 l2 l3 v1 v2 v3 : (forall a b, f a b = a + w * b) -> 0 <= w -> RL nc l1 l2 l3 -> RL nc v1 v2 v3 -> RL nc (zipw f l1 v1) (zipw f l2 v2) (zipw f l3 v3).
Proof.
  intros F W (A1 & A2 & A3 & A) (B1 & B2 & B3 & B). unfold RL. rewrite !length_zipw by lia. split; [exact A1|]. split; [exact A2|]. split; [exact A3|].
  intros s t. rewrite !(qf_zipw s t f w) by (exact F || lia). apply gram_add; [apply A|]. apply gram_scale; [exact W|apply B].
Qed.
Lemma RL_map nc (f : R -> R) w l1 l2 l3 : (forall a, f a = w * a) -> 0 <= w -> RL nc l1 l2 l3 -> RL nc (map f l1) (map f l2) (map f l3).
Proof.
  intros F W (A1 & A2 & A3 & A). unfold RL. rewrite !map_length. split; [exact A1|]. split; [exact A2|]. split; [exact A3|].
  intros s t. rewrite !(qf_map s t f w) by exact F. apply gram_scale; [exact W|apply A].
Qed.

(** ** The loops *)
Lemma nonneg_rd l i v : nonneg l -> rd l i = Ok v -> 0 <= v.
Proof. intros H E. apply (rd_inv 0) in E as (Hi & ->). apply (proj1 (Forall_forall _ _) H). apply znth_In, Hi. Qed.
Lemma mu_loop3 (m : glmu RNum) nc k1 k2 k3 : nonneg (gm_w m) -> (forall mu, ok3 (RL nc) (k1 mu) (k2 mu) (k3 mu)) ->
  ok3 (RL nc) (mu_loop (N := RNum) m nc k1) (mu_loop (N := RNum) m nc k2) (mu_loop (N := RNum) m nc k3).
Proof.
  intros W K. unfold mu_loop. apply for3; [apply RL_zeros|]. intros j a b c _ H. apply same3. intros mu _. apply (bind3 (RL nc)); [apply K|].
  intros v1 v2 v3 V. apply same3. intros w Ew. apply ok3_ret. apply (RL_zipw nc _ w); [intros; rn; ring|exact (nonneg_rd _ _ _ W Ew)|exact H|exact V].
Qed.
Lemma update_mu_weights (m m' : glmu RNum) lo hi : mu_ok m -> nonneg (gm_wref m) -> lo <= hi -> update_gauss_legendre_mu (N := RNum) m lo hi = Ok m' -> nonneg (gm_w m') /\ same_rule m m'.
Proof.
  intros Hm W L E. destruct Hm as (H0 & H1 & H2 & H3 & H4).
  destruct (update_mu_val m lo hi 0 H0 H1 H2 H3 H4) as [x [E' [A1 [A2 [A3 [A4 [A5 A6]]]]]]]. change (T RNum) with R in *. rewrite E in E'. injection E' as <-. split.
  - apply Forall_forall. intros v Hv. apply (In_znth 0) in Hv as (i & Hi & <-). destruct (A6 i ltac:(lia)) as (_ & Ei). rn_in Ei. rewrite Ei.
    apply Rmult_le_pos; [|lra]. apply (proj1 (Forall_forall _ _) W). apply znth_In. lia.
  - unfold same_rule, mu_ok. rewrite A1, A2, A3. change (T RNum) with R. auto 10.
Qed.
Lemma range_weights half (g : glq RNum) (m m' : glmu RNum) x : mu_ok m -> nonneg (gm_wref m) -> (1 <= gq_nq g < 2 ^ 62)%Z -> zlen (gq_x g) = gq_nq g ->
  0 < xmin_of g -> xmin_of g <= x <= xmax_of g -> set_mu_range half g m x = Ok (Some m') -> nonneg (gm_w m') /\ same_rule m m'.
Proof.
  intros Hm W Hn Hx H0 Hxx E. destruct (set_mu_range_val half g m x Hm Hn Hx H0 Hxx) as [[_ F]|(_ & L & m1 & F & U)]; rewrite E in F; [discriminate F|].
  injection F as <-. exact (update_mu_weights m m' _ _ Hm W L U).
Qed.
Lemma q_loop3 half (g : glq RNum) (m : glmu RNum) nc k1 k2 k3 two : mu_ok m -> nonneg (gm_wref m) -> (1 <= gq_nq g < 2 ^ 62)%Z -> zlen (gq_x g) = gq_nq g -> nodes_in g -> nonneg (gq_w g) ->
  (forall iq mu, ok3 (RL nc) (k1 iq mu) (k2 iq mu) (k3 iq mu)) ->
  ok3 (fun a b c => RL nc (fst a) (fst b) (fst c)) (q_loop (N := RNum) half g m nc k1 (add_x3w g two)) (q_loop (N := RNum) half g m nc k2 (add_x3w g two)) (q_loop (N := RNum) half g m nc k3 (add_x3w g two)).
Proof.
  intros Hm W Hn Hx (H0 & Hin) Wq K. unfold q_loop.
  assert (P : ok3 (fun a b c : list R * glmu RNum => RL nc (fst a) (fst b) (fst c) /\ snd a = snd b /\ snd a = snd c /\ same_rule m (snd a))
    (q_loop (N := RNum) half g m nc k1 (add_x3w g two)) (q_loop (N := RNum) half g m nc k2 (add_x3w g two)) (q_loop (N := RNum) half g m nc k3 (add_x3w g two))).
  { unfold q_loop. apply for3; [cbn [fst snd]; split; [apply RL_zeros|auto using same_rule_refl]|].
    intros j [a ma] [b mb] [c mc] Hj (HR & E1 & E2 & S). cbn [fst snd] in *. subst mb mc. apply same3. intros x Ex. apply (rd_inv 0) in Ex as (Hjj & ->).
    change (T RNum) with R in *. specialize (Hin j Hj).
    apply same3. intros [m'|] Em; [|apply ok3_ret; cbn [fst snd]; auto].
    assert (S' : nonneg (gm_w m') /\ same_rule ma m').
    { apply (range_weights half g ma m' _ (proj1 S)) in Em; auto. destruct S as (_ & _ & _ & ->). exact W. }
    destruct S' as (Wm & S'). apply (bind3 (RL nc)); [apply mu_loop3; [exact Wm|apply K]|]. intros v1 v2 v3 V.
    unfold add_x3w. apply (bind3 (RL nc)).
    - apply same3. intros w Ew. apply ok3_ret. pose proof (nonneg_rd _ _ _ Wq Ew) as Hw. set (x := znth 0 (gq_x g) j) in *.
      assert (X : 0 <= x * x * x * w) by (repeat apply Rmult_le_pos; lra).
      destruct two; rn; [apply (RL_map nc _ (x * x * x * w * 2)); [intros; ring|lra|exact V]|apply (RL_map nc _ (x * x * x * w)); [intros; ring|lra|exact V]].
    - intros c1 c2 c3 HC. apply ok3_ret. cbn [fst snd]. split; [|split; [reflexivity|split; [reflexivity|eapply same_rule_trans; eassumption]]].
      apply (RL_zipw nc _ 1); [intros; rn; ring|lra|exact HR|exact HC]. }
  intros x y z Ex Ey Ez. exact (proj1 (P x y z Ex Ey Ez)).
Qed.

(** ** The gamma2 integrals *)
Section Integrals.
Variables (pkl : Pk RNum) (im : interpol) (HP : nonneg_lookup pkl im).
Lemma find1_nonneg k p : 0 <= k -> find1 (N := RNum) pkl im k = Ok p -> 0 <= p.
Proof.
  intros Hk E. unfold find1 in E. match type of E with bind ?x _ = _ => destruct x as [l|] eqn:F end; [|discriminate E]. cbn [bind] in E.
  apply (HP [k]) in F; [exact (nonneg_rd _ _ _ F E)| |constructor; [exact Hk|constructor]].
  intros i j H. cbn in H. replace j with 0%nat by lia. replace i with 0%nat by lia. lra.
Qed.
Lemma both_tree3 (g : glq RNum) a b iq mu : 0 <= gq_k g -> nonneg (gq_pk g) ->
  ok3 (RL 1) (both_tree (N := RNum) pkl im g a a iq mu) (both_tree (N := RNum) pkl im g a b iq mu) (both_tree (N := RNum) pkl im g b b iq mu).
Proof.
  intros Hk Hp. unfold both_tree. apply same3. intros x _. apply same3. intros q _. apply same3. intros pq Ep. apply same3. intros pkq Eq. apply ok3_ret.
  assert (H1 : 0 <= pq) by exact (nonneg_rd _ _ _ Hp Ep).
  assert (H2 : 0 <= pkq). { eapply find1_nonneg; [|exact Eq]. rn. apply Rmult_le_pos; [exact Hk|apply sqrt_pos]. }
  unfold RL. split; [reflexivity|]. split; [reflexivity|]. split; [reflexivity|]. intros s t. unfold qf. cbn [nth]. rn.
  set (Fa := gamma2_tree (N := RNum) a _ _ _). set (Fb := gamma2_tree (N := RNum) b _ _ _).
  assert (W : 0 <= 2 * pq * pkq * (s * s)) by (apply Rmult_le_pos; [repeat apply Rmult_le_pos; lra|apply Rle_0_sqr]).
  pose proof (gram_prod _ Fa Fb W) as G.
  replace (s * s * (2 * pq * pkq * Fa * Fa) + s * t * 0 + t * t * 0) with (2 * pq * pkq * (s * s) * (Fa * Fa)) by ring.
  replace (s * s * (2 * pq * pkq * Fa * Fb) + s * t * 0 + t * t * 0) with (2 * pq * pkq * (s * s) * (Fa * Fb)) by ring.
  replace (s * s * (2 * pq * pkq * Fb * Fb) + s * t * 0 + t * t * 0) with (2 * pq * pkq * (s * s) * (Fb * Fb)) by ring. exact G.
Qed.
Lemma both_one_loop3 (g gd gt : glq RNum) a b iq mu : 0 <= gq_k g -> nonneg (gq_pk g) ->
  ok3 (RL 3) (both_one_loop (N := RNum) pkl im g gd gt a a iq mu) (both_one_loop (N := RNum) pkl im g gd gt a b iq mu) (both_one_loop (N := RNum) pkl im g gd gt b b iq mu).
Proof.
  intros Hk Hp. unfold both_one_loop. apply same3. intros x _. apply same3. intros q _. apply same3. intros pq Ep. apply same3. intros pkq Eq. cbn zeta.
  assert (H1 : 0 <= pq) by exact (nonneg_rd _ _ _ Hp Ep).
  assert (H2 : 0 <= pkq). { eapply find1_nonneg; [|exact Eq]. rn. apply Rmult_le_pos; [exact Hk|apply sqrt_pos]. }
  destruct (gamma2_1loop _ a _ _ _) as [la|]; [|intros ? ? ? E; cbn [bind] in E; discriminate E]. cbn [bind].
  destruct (gamma2_1loop _ b _ _ _) as [lb|]; [|intros ? ? ? _ E; cbn [bind] in E; discriminate E]. cbn [bind]. apply ok3_ret.
  unfold RL. split; [reflexivity|]. split; [reflexivity|]. split; [reflexivity|]. intros s t. unfold qf. cbn [nth]. rn.
  set (Fa := gamma2_tree (N := RNum) a _ _ _). set (Fb := gamma2_tree (N := RNum) b _ _ _).
  assert (W : 0 <= 2 * pq * pkq) by (repeat apply Rmult_le_pos; lra).
  pose proof (gram_prod _ (s * Fa + t * la) (s * Fb + t * lb) W) as G. unfold gram in *. destruct G as (G1 & G2 & G3).
  match goal with |- 0 <= ?x /\ 0 <= ?z /\ ?y ^ 2 <= _ =>
    replace x with (2 * pq * pkq * ((s * Fa + t * la) * (s * Fa + t * la))) by ring;
    replace z with (2 * pq * pkq * ((s * Fb + t * lb) * (s * Fb + t * lb))) by ring;
    replace y with (2 * pq * pkq * ((s * Fa + t * la) * (s * Fb + t * lb))) by ring end. auto.
Qed.
Lemma update_nodes (g g' : glq RNum) k : positive_table g -> 0 < k -> update_gauss_legendre_q (N := RNum) g k = Ok g' ->
  (1 <= gq_nq g' < 2 ^ 62)%Z /\ zlen (gq_x g') = gq_nq g' /\ nodes_in g' /\ nonneg (gq_w g') /\ nonneg (gq_pk g') /\ 0 <= gq_k g'.
Proof.
  intros (Hn & L1 & L2 & L3 & L4 & H0 & Hin & W & HPk) Hk E.
  destruct (update_q_val g k 0 ltac:(lia) L1 L2) as (g1 & E1 & A1 & A2 & A3 & A4 & A5 & A6 & A7).
  change (T RNum) with R in *. rewrite E in E1. injection E1 as <-. rewrite A2, A4, A5, A1. split; [exact Hn|]. split; [exact A6|].
  split; [|split; [exact W|split; [exact HPk|lra]]].
  unfold nodes_in, xmin_of, xmax_of. change (T RNum) with R. rewrite A2.
  assert (F : forall i, (0 <= i < gq_nq g)%Z -> znth 0 (gq_x g') i = znth 0 (gq_q g) i / k) by (intros i Hi; exact (A7 i Hi)).
  rewrite !F by lia. split; [apply Rdiv_lt_0_compat; assumption|]. intros i Hi. rewrite F by lia. destruct (Hin i Hi). unfold Rdiv. pose proof (Rinv_0_lt_compat k Hk). split; apply Rmult_le_compat_r; lra.
Qed.
Lemma integrate3 (g : glq RNum) (m : glmu RNum) n k1 k2 k3 k : positive_table g -> positive_rule m -> 0 < k ->
  (forall g' : glq RNum, 0 <= gq_k g' -> nonneg (gq_pk g') -> forall iq mu, ok3 (RL n) (k1 g' iq mu) (k2 g' iq mu) (k3 g' iq mu)) ->
  ok3 (RL n) (integrate (N := RNum) g m n k1 k) (integrate (N := RNum) g m n k2 k) (integrate (N := RNum) g m n k3 k).
Proof.
  intros Hg ((Hm & _) & W) Hk K. unfold integrate. apply same3. intros g' E. destruct (update_nodes g g' k Hg Hk E) as (Hn & Lx & Hin & Wq & HPk & Hk').
  eapply bind3; [apply q_loop3; auto; apply K; assumption|].
  intros [s1 x1] [s2 x2] [s3 x3] H. cbn [fst] in H. apply ok3_ret. apply (RL_map n _ (k * k * k / (2 * PI * PI))); [intros; rn; ring| |exact H].
  pose proof PI_RGT_0. apply Rlt_le, Rdiv_lt_0_compat; [repeat apply Rmult_lt_0_compat; lra|]. apply Rmult_lt_0_compat; [|exact PI_RGT_0]. lra.
Qed.
End Integrals.

(** ** Positive weights *)
Lemma gl_weights fuel (xmin xmax : R) (x w : list R) n : (1 <= n < 2 ^ 62)%Z -> zlen x = n -> zlen w = n -> xmin < xmax ->
  forall x' w', nodes_weights_gauss_legendre (N := RNum) fuel xmin xmax x w n = Ok (x', w') -> Forall (fun v => 0 < v) w'.
Proof.
  intros Hn Hx Hw HX x' w' E. destruct (gl_order fuel xmin xmax x w n Hn Hx Hw HX x' w' E) as (_ & Lw & _ & HV).
  apply Forall_forall. intros v Hv. apply (In_znth 0) in Hv as (i & Hi & <-). unfold zlen in Hi. change (T RNum) with R in *. apply HV. lia.
Qed.
Lemma Forall_weaken (l : list R) : Forall (fun v => 0 < v) l -> nonneg l.
Proof. apply Forall_impl. intros; lra. Qed.
Lemma new_table fuel (p : precision RNum) pkl g qmin qmax : (1 <= pr_n p < 2 ^ 62)%Z -> init_gauss_legendre_q (N := RNum) fuel p pkl = Ok g ->
  q_range (N := RNum) p pkl = Ok (qmin, qmax) -> 0 < qmin < qmax -> nonneg_lookup pkl (pr_interpol p) -> positive_table g.
Proof.
  intros Hn HI ER Hq HL. pose proof (incr_asc _ (init_q_incr fuel p _ g qmin qmax Hn HI ER Hq)) as HA. destruct (init_q_inv fuel p pkl g (nZ RNum 0) ltac:(lia) HI) as [qm [qM [x [E [EN [A1 [A2 [A3 [A4 [A5 [A6 [A7 A8]]]]]]]]]]]].
  change (T RNum) with R in *. rewrite ER in E. injection E as <- <-.
  destruct (init_q_R fuel p pkl g Hn HI) as (qm & qM & E & _ & _ & _ & _ & _ & Hins). change (T RNum) with R in *. rewrite ER in E. injection E as <- <-. specialize (Hins Hq).
  assert (L8 : zlen (gq_pk g) = pr_n p) by (apply (find_pk_length (N := RNum)) in A8; unfold zlen in *; change (T RNum) with R in *; lia).
  assert (W : nonneg (gq_w g)).
  { apply Forall_weaken. rn_in EN. set (z := repeat (0 : R) (Z.to_nat (pr_n p))) in EN. assert (Hz : zlen z = pr_n p) by (unfold z; apply zlen_repeat; lia).
    apply (gl_weights fuel (ln qmin) (ln qmax) z z (pr_n p) Hn Hz Hz) in EN; [exact EN|]. apply ln_increasing; lra. }
  assert (Q : nonneg (gq_q g)). { apply Forall_forall. intros v Hv. apply (In_znth 0) in Hv as (i & Hi & <-). specialize (Hins i ltac:(lia)). change (T RNum) with R in *. lra. }
  unfold positive_table. change (T RNum) with R in *. rewrite A1, A3. repeat split; try assumption; try lia.
  - specialize (Hins 0%Z ltac:(lia)). lra.
  - unfold znth. change (nth 0 (gq_q g) 0) with (at_ (gq_q g) 0). apply (HA 0%nat (Z.to_nat i)). unfold zlen in A4. change (T RNum) with R in *. lia.
  - unfold znth. apply (HA (Z.to_nat i) (Z.to_nat (pr_n p - 1))). unfold zlen in A4. change (T RNum) with R in *. lia.
  - apply (HL (gq_q g)); assumption.
Qed.
Lemma new_rule fuel (p : precision RNum) m : (1 <= pr_n p < 2 ^ 62)%Z -> init_gauss_legendre_mu (N := RNum) fuel p = Ok m ->
  positive_rule m /\ Forall (fun v => 0 < v) (gm_wref m).
Proof.
  intros Hn HI. assert (W : Forall (fun v => 0 < v) (gm_wref m)).
  { destruct (init_mu_inv fuel p m ltac:(lia) HI) as [E _]. rn_in E. set (z := repeat 0 (Z.to_nat (pr_n p))) in E. assert (Hz : zlen z = pr_n p) by (unfold z; apply zlen_repeat; lia).
    apply (gl_weights fuel (- (1)) 1 z z (pr_n p) Hn Hz Hz) in E; [exact E|lra]. }
  split; [|exact W]. split; [exact (mu_init fuel p m Hn HI)|apply Forall_weaken, W].
Qed.
