(** ProofThreads5: the parallel region of each call. *)
From Coq Require Import ZArith List String Bool Lia Permutation.
From Verif Require Import Base Num Common Kernels Integrals Registry Threads SpecThreads ProofThreads SpecLoops SpecScratch ProofScratch ProofScratch2 ProofScratch3 ProofThreads2 ProofThreads3 ProofThreads4.
Import ListNotations.
Local Open Scope string_scope.

Ltac inl_ := repeat (first [left; reflexivity|right]).
Ltac nin_ := let H := fresh in intro H; cbn [In] in H; intuition discriminate.
Ltac like_ := first [reflexivity | eexists; split; [reflexivity|first [apply same_q_refl|apply same_rule_refl]; assumption]].
Ltac look := repeat (rewrite hupd_same || rewrite hupd_other by discriminate).
(** Re-association of [start], the rows and [stop]. *)
Ltac reassoc1 H := lazymatch goal with |- wp _ _ _ _ (pbind _ _) _ _ => repeat apply wp_assoc in H; apply wp_bind; apply wp_bind_inv in H; revert H; apply wp_mono; intros ? ? H; cbn beta in H |- * end.
Ltac reassoc H := repeat (exact H || reassoc1 H).
Ltac start1 E := first [eapply start_q | eapply start_mu]; [eassumption..|inl_| |eassumption|exact E|like_|intros ? ?]; [nin_|].
Ltac stop1 := first [eapply stop_q; [eassumption..|inl_|exact I| |eassumption|intros ? ?] | eapply stop_mu; [eassumption..|inl_| |eassumption|intros ? ?]]; [nin_|].
Ltac made := let x := fresh in let T := fresh in let Hx := fresh in intros x T Hx; cbn in Hx |- *; intuition congruence.
Ltac arr_cells Hc := cbn in Hc; repeat destruct Hc as [<-|Hc]; try (eexists _, _; split; [reflexivity|discriminate]); destruct Hc.
Lemma block_A ik : block "A" 5 ik = cells_A ik.
Proof. unfold block, cells_A. cbn [seq map]. change (Z.of_nat 5) with 5%Z. repeat (f_equal; try lia). Qed.
Lemma block_B ik : block "B" 9 ik = cells_B ik.
Proof. unfold block, cells_B. cbn [seq map]. change (Z.of_nat 9) with 9%Z. repeat (f_equal; try lia). Qed.
Lemma gives_gamma1_2 {N} (g1 g1' g2 g2' : glq N) a b k v u1 u2 : q_ok g1 -> same_q g1 g1' -> q_ok g2 -> same_q g2 g2' -> calc_pk_gamma1_2loop g1 g2 a b k = Ok (v, u1, u2) ->
  calc_pk_gamma1_2loop g1' g2' a b k = Ok (v, u1, u2) /\ same_q g1 u1 /\ same_q g2 u2.
Proof.
  intros H1 S1 H2 S2 E. rewrite <- (calc_gamma1_same g1 g1' g2 g2' a b k H1 S1 H2 S2). split; [exact E|].
  destruct (calc_gamma1_ok g1 g2 a b k H1 H2) as (v' & w1 & w2 & E' & S). rewrite E in E'. injection E' as _ <- <-. exact S.
Qed.
Section Regions.
Context {N : Num}.
Variables (fuel : nat) (st : settings N).
Notation none := (fun _ : loc => False).
Definition cv0 (l : loc) : value N := VNull.
Definition region_spec (h1 : heap N) pkl ks cells vals (tabs : list (string * table N)) (common : loc -> Prop) cv thread parts : Prop :=
  machine h1 pkl ks (out_cells cells (zlen ks)) (map fst tabs) (List.length parts) ->
    exists bound, forall n g, reaches n (h1, team thread parts) g ->
      (n <= bound)%nat /\ ~ faulty g /\ (forall l, race_on l g -> common l) /\ (finished g \/ can_step g) /\
      (finished g -> region_post parts (zlen ks) cells vals tabs common cv h1 (fst g)).

(** *** 1 loop *)
Definition tabs_1loop (g1 g : glq N) (m : glmu N) : list (string * table N) := [("gamma1_1loop_q", TQ g1); ("gamma2_tree_q", TQ g); ("gamma2_tree_mu", TMu m)].
Lemma region_1loop a b pkl ks parts vals g1 g m h1 :
  distributes parts (zlen ks) -> q_ok g1 -> q_ok g -> mu_ok m ->
  new_q fuel st pkl "gamma1_1loop_q" = Ok g1 -> new_q fuel st pkl "gamma2_tree_q" = Ok g -> new_mu fuel st "gamma2_tree_mu" = Ok m ->
  (forall ik, (0 <= ik < zlen ks)%Z -> value_1loop fuel st pkl a b (nth (Z.to_nat ik) ks (nZ N 0)) = Ok (vals ik)) ->
  region_spec h1 pkl ks cells_1loop vals (tabs_1loop g1 g m) none cv0 (thread_1loop fuel st a b) parts.
Proof.
  intros D O1 O2 O3 E1 E2 E3 HV M. set (tabs := tabs_1loop g1 g m) in *.
  assert (CA : forall ik c, In c (cells_1loop ik) -> exists x i, c = Arr x i /\ x <> "k").
  { intros ik c Hc. cbn in Hc. repeat destruct Hc as [<-|Hc]; try (eexists _, _; split; [reflexivity|discriminate]). destruct Hc. }
  assert (CD : forall ik jk c, In c (cells_1loop ik) -> In c (cells_1loop jk) -> ik = jk).
  { intros ik jk c H1 H2. cbn in H1, H2. intuition congruence. }
  assert (DN : NoDup (map fst tabs)) by (cbn; repeat constructor; cbn; intuition discriminate).
  pose proof no_common as CG.
  apply (region_ok parts (zlen ks) cells_1loop vals tabs none cv0 h1 D CA CD CG) with (row := fun t => row_1loop st t a b)
    (start := fun t => pbind (p_init_q fuel st t "gamma1_1loop_q") (fun _ => pbind (p_init_q fuel st t "gamma2_tree_q") (fun _ => p_init_mu fuel st t "gamma2_tree_mu")))
    (stop := fun t => pbind (p_free_q t "gamma1_1loop_q") (fun _ => pbind (p_free_q t "gamma2_tree_q") (fun _ => p_free_mu t "gamma2_tree_mu"))).
  - intros t ik h Hik R P. destruct (in_part parts (zlen ks) D t ik Hik) as [L Hi]. specialize (HV ik Hi).
    unfold value_1loop in HV. rewrite E1, E2, E3 in HV. cbn [bind] in HV.
    destruct (gamma1_1loop g1 a _) as [[ga u1]|] eqn:Ga; [|discriminate]. cbn [bind] in HV.
    destruct (gamma1_1loop g1 b _) as [[gb u2]|] eqn:Gb; [|discriminate]. cbn [bind] in HV.
    destruct (calc_pk_gamma2_tree _ _ _ _ _ _ _) as [[[p ?] ?]|] eqn:Gp; [|discriminate]. cbn [bind] in HV.
    destruct (take 1 p) as [p1|] eqn:Tp; [|discriminate]. cbn [bind] in HV. injection HV as HV.
    assert (A : amid parts cells_1loop tabs none cv0 h1 t ik h h) by (apply amid_start, R).
    unfold row_1loop. apply wp_bind. eapply row_k; [eassumption..|].
    apply wp_bind. eapply row_gamma1; [eassumption..|inl_|exact O1|exact Ga|eassumption|cbv zeta; intro].
    apply wp_bind. eapply row_store; [eassumption..|inl_|look; apply P; inl_|eassumption|cbv zeta; intro].
    assert (Mid : forall h' (Q : unit -> heap N -> Prop), amid parts cells_1loop tabs none cv0 h1 t ik h h' -> h' (Arr "gamma1a_1loop" ik) = Some (VNum ga) -> h' (Arr "gamma1b_1loop" ik) <> None -> h' (Arr "pk_gamma2_tree_tree" ik) <> None ->
      (forall h2, amid parts cells_1loop tabs none cv0 h1 t ik h h2 -> h2 (Arr "gamma1a_1loop" ik) = Some (VNum ga) -> h2 (Arr "gamma1b_1loop" ik) = Some (VNum gb) -> h2 (Arr "pk_gamma2_tree_tree" ik) <> None -> Q tt h2) ->
      wp (own parts cells_1loop tabs) none cv0 t (if flag_eqb b a then pbind (load_num (Arr "gamma1a_1loop" ik)) (fun v => store (Arr "gamma1b_1loop" ik) (VNum v))
        else pbind (p_gamma1_1loop t b (nth (Z.to_nat ik) ks (nZ N 0))) (fun v => store (Arr "gamma1b_1loop" ik) (VNum v))) h' Q).
    { intros h' Q A' Q1 Q2 Q3 K. destruct (flag_eqb b a) eqn:Eb.
      - assert (Eab : gb = ga) by (destruct a, b; try discriminate; congruence). apply wp_bind. eapply wp_load_num; [left; apply (own_cell _ _ _ t ik); [exact Hik|inl_]|exact Q1|].
        eapply row_store; [eassumption..|inl_|exact Q2|exact A'|intro]. apply K; [assumption|look; assumption|look; congruence|look; assumption].
      - apply wp_bind. eapply row_gamma1; [eassumption..|inl_|exact O1|exact Gb|exact A'|cbv zeta; intro].
        eapply row_store; [eassumption..|inl_|look; exact Q2|eassumption|intro]. apply K; [assumption|look; assumption|look; reflexivity|look; assumption]. }
    apply wp_bind. apply Mid; [assumption|look; reflexivity|look; apply P; inl_|look; apply P; inl_|]. intros h2 A2 L1 L2 L3.
    apply wp_bind. eapply row_tables; [eassumption..|discriminate|inl_|inl_| |exact A2|cbv zeta; intros g' m' A3].
    { eapply transparent_gives; [|exact O2|exact O3|exact Gp]. apply gamma2_transparent. left. repeat eexists. }
    eapply row_store_all; [eassumption..| | | |exact A3|intros A4].
    + intros c Hc. cbn in Hc |- *. tauto.
    + intros c [<-|[]]. look. exact L3.
    + exact Tp.
    + rewrite <- HV. destruct A4 as [R4 F4]. split; [exact R4|]. split; [|exact F4].
      pose proof (take_Ok _ _ _ Tp) as Lp. destruct p1 as [|v [|? ?]]; try discriminate. unfold stored. cbn [map cells_1loop put_all]. look. congruence.
  - intros ik c Hi Hc. exact (machine_cell _ _ _ _ _ _ _ _ M Hi Hc).
  - intros t rows h Q H. unfold thread_1loop. reassoc H.
  - intros t L. assert (A : making tabs none cv0 h1 t [] h1) by (split; [intros; reflexivity|split; [reflexivity|intros ? []]]).
    apply wp_bind. start1 E1. apply wp_bind. start1 E2. start1 E3. apply (making_ready parts cells_1loop) in H1; [exact H1|exact L|].
    intros x T Hx. cbn in Hx |- *. intuition congruence.
  - intros t h L R. pose proof (freeing_start _ _ _ _ _ _ _ _ R) as F.
    apply wp_bind. stop1.
    apply wp_bind. stop1.
    stop1.
    eapply freeing_end; [|eassumption]. intros x T Hx. cbn in Hx |- *. intuition congruence.
Qed.

(** *** 2loop *)
Definition tabs_2loop (g1 g2 g gd gt : glq N) (m : glmu N) : list (string * table N) := [("gamma1_1loop_q", TQ g1); ("gamma1_2loop_q", TQ g2); ("gamma2_tree_q", TQ g); ("gamma2d_1loop_q", TFix gd); ("gamma2t_1loop_q", TFix gt); ("gamma2_tree_mu", TMu m)].
Lemma region_2loop a b pkl ks parts vals g1 g2 g m gd gt h1 :
  distributes parts (zlen ks) -> q_ok g1 -> q_ok g2 -> q_ok g -> mu_ok m ->
  new_q fuel st pkl "gamma1_1loop_q" = Ok g1 -> new_q fuel st pkl "gamma1_2loop_q" = Ok g2 -> new_q fuel st pkl "gamma2_tree_q" = Ok g -> new_mu fuel st "gamma2_tree_mu" = Ok m -> new_q fuel st pkl "gamma2d_1loop_q" = Ok gd -> new_q fuel st pkl "gamma2t_1loop_q" = Ok gt ->
  (forall ik, (0 <= ik < zlen ks)%Z -> value_2loop fuel st pkl a b (nth (Z.to_nat ik) ks (nZ N 0)) = Ok (vals ik)) ->
  region_spec h1 pkl ks cells_2loop vals (tabs_2loop g1 g2 g gd gt m) none cv0 (thread_2loop fuel st a b) parts.
Proof.
  intros D O0 O1 O2 O3 E0 E1 E2 E3 E4 E5 HV M. set (tabs := tabs_2loop g1 g2 g gd gt m) in *.
  assert (CA : forall ik c, In c (cells_2loop ik) -> exists x i, c = Arr x i /\ x <> "k") by (intros ik c Hc; arr_cells Hc).
  assert (CD : forall ik jk c, In c (cells_2loop ik) -> In c (cells_2loop jk) -> ik = jk).
  { intros ik jk c H1 H2. cbn in H1, H2. intuition congruence. }
  assert (DN : NoDup (map fst tabs)) by (cbn; repeat constructor; cbn; intuition discriminate).
  pose proof no_common as CG.
  apply (region_ok parts (zlen ks) cells_2loop vals tabs none cv0 h1 D CA CD CG) with (row := fun t => row_2loop st t a b)
    (start := fun t => pbind (p_init_q fuel st t "gamma1_1loop_q") (fun _ => pbind (p_init_q fuel st t "gamma1_2loop_q") (fun _ => pbind (p_init_q fuel st t "gamma2_tree_q") (fun _ => pbind (p_init_mu fuel st t "gamma2_tree_mu") (fun _ => pbind (p_init_q fuel st t "gamma2d_1loop_q") (fun _ => p_init_q fuel st t "gamma2t_1loop_q"))))))
    (stop := fun t => pbind (p_free_q t "gamma1_1loop_q") (fun _ => pbind (p_free_q t "gamma1_2loop_q") (fun _ => pbind (p_free_q t "gamma2_tree_q") (fun _ => pbind (p_free_mu t "gamma2_tree_mu") (fun _ => pbind (p_free_q t "gamma2d_1loop_q") (fun _ => p_free_q t "gamma2t_1loop_q")))))).
  - intros t ik h Hik R P. destruct (in_part parts (zlen ks) D t ik Hik) as [L Hi]. specialize (HV ik Hi).
    unfold value_2loop in HV. rewrite E0, E1, E2, E3, E4, E5 in HV. cbn [bind] in HV.
    assert (A : amid parts cells_2loop tabs none cv0 h1 t ik h h) by (apply amid_start, R).
    destruct (calc_pk_gamma1_2loop g1 g2 a b _) as [[[[[[a1 a2] b1] b2] u1] u2]|] eqn:Ga; [|discriminate]. cbn [bind] in HV.
    destruct (calc_pk_gamma2_1loop _ _ _ _ _ _ _ _ _) as [[[p ?] ?]|] eqn:Gp; [|discriminate]. cbn [bind] in HV.
    destruct (take 3 p) as [p1|] eqn:Tp; [|discriminate]. cbn [bind] in HV. injection HV as HV.
    unfold row_2loop. apply wp_bind. eapply row_k; [eassumption..|].
    apply wp_bind. eapply row_q; [eassumption..|inl_|eassumption|intros g1' S1].
    apply wp_bind. eapply row_q; [eassumption..|inl_|eassumption|intros g2' S2].
    destruct (gives_gamma1_2 g1 g1' g2 g2' a b _ _ u1 u2 O0 S1 O1 S2 Ga) as (Ga' & S1' & S2').
    apply wp_bind, (wp_attempt _ _ _ t h _ (a1, a2, b1, b2, u1, u2)); [exact Ga'|]. cbv beta iota.
    apply wp_bind. eapply row_set_q; [eassumption..|inl_|exact S1'|eassumption|intros A1].
    apply wp_bind. eapply row_set_q; [eassumption..|inl_|exact S2'|eassumption|intros A2].
    apply wp_bind. eapply row_store_all; [eassumption..| | |exact (take_all [a1; a2; b1; b2])|eassumption|intros A3].
    { intros c Hc. cbn in Hc |- *. tauto. }
    { intros c Hc. assert (Hc' : In c (cells_2loop ik)) by (cbn in Hc |- *; tauto). repeat destruct Hc as [<-|Hc]; try (look; apply P, Hc'). destruct Hc. }
    apply wp_bind. eapply row_fix; [eassumption..|inl_|eassumption|].
    apply wp_bind. eapply row_fix; [eassumption..|inl_|eassumption|].
    apply wp_bind. eapply row_tables; [eassumption..|discriminate|inl_|inl_| |eassumption|cbv zeta; intros g' m' A4].
    { eapply transparent_gives; [|exact O2|exact O3|exact Gp]. apply gamma2_transparent. right. repeat eexists. }
    cbn [put_all]. eapply row_store_all; [eassumption..| | | |exact A4|intros A5].
    + intros c Hc. cbn in Hc |- *. tauto.
    + intros c Hc. assert (Hc' : In c (cells_2loop ik)) by (cbn in Hc |- *; tauto). cbn [put_all]. repeat destruct Hc as [<-|Hc]; try (look; apply P, Hc'). destruct Hc.
    + exact Tp.
    + rewrite <- HV. destruct A5 as [R5 F5]. split; [exact R5|]. split; [|exact F5].
      pose proof (take_Ok _ _ _ Tp) as Lp. destruct p1 as [|v [|v' [|v'' [|? ?]]]]; try discriminate. unfold stored. cbn [map cells_2loop put_all]. look. reflexivity.
  - intros ik c Hi Hc. exact (machine_cell _ _ _ _ _ _ _ _ M Hi Hc).
  - intros t rows h Q H. unfold thread_2loop. reassoc H.
  - intros t L. assert (A : making tabs none cv0 h1 t [] h1) by (split; [intros; reflexivity|split; [reflexivity|intros ? []]]).
    apply wp_bind. start1 E0. apply wp_bind. start1 E1. apply wp_bind. start1 E2. apply wp_bind. start1 E3. apply wp_bind. start1 E4. start1 E5. match goal with X : making _ _ _ _ _ (_ :: _) ?hh |- context [?hh] => apply (making_ready parts cells_2loop) in X; [exact X|exact L|made] end.
  - intros t h L R. pose proof (freeing_start _ _ _ _ _ _ _ _ R) as F.
    apply wp_bind. stop1. apply wp_bind. stop1. apply wp_bind. stop1. apply wp_bind. stop1. apply wp_bind. stop1. stop1. eapply freeing_end; [|eassumption]. made.
Qed.

(** *** bias *)
Definition tabs_bias (g : glq N) (m : glmu N) : list (string * table N) := [("bias_1loop_q", TQ g); ("bias_1loop_mu", TMu m)].
Lemma region_bias  pkl ks parts vals g m h1 :
  distributes parts (zlen ks) -> q_ok g -> mu_ok m ->
  new_q fuel st pkl "bias_1loop_q" = Ok g -> new_mu fuel st "bias_1loop_mu" = Ok m ->
  (forall ik, (0 <= ik < zlen ks)%Z -> value_bias fuel st pkl (nth (Z.to_nat ik) ks (nZ N 0)) = Ok (vals ik)) ->
  region_spec h1 pkl ks cells_bias vals (tabs_bias g m) none cv0 (thread_bias fuel st) parts.
Proof.
  intros D O0 O1 E0 E1 HV M. set (tabs := tabs_bias g m) in *.
  assert (CA : forall ik c, In c (cells_bias ik) -> exists x i, c = Arr x i /\ x <> "k") by (intros ik c Hc; arr_cells Hc).
  assert (CD : forall ik jk c, In c (cells_bias ik) -> In c (cells_bias jk) -> ik = jk).
  { intros ik jk c H1 H2. cbn in H1, H2. intuition congruence. }
  assert (DN : NoDup (map fst tabs)) by (cbn; repeat constructor; cbn; intuition discriminate).
  pose proof no_common as CG.
  apply (region_ok parts (zlen ks) cells_bias vals tabs none cv0 h1 D CA CD CG) with (row := fun t => row_bias st t)
    (start := fun t => pbind (p_init_q fuel st t "bias_1loop_q") (fun _ => p_init_mu fuel st t "bias_1loop_mu"))
    (stop := fun t => pbind (p_free_q t "bias_1loop_q") (fun _ => p_free_mu t "bias_1loop_mu")).
  - intros t ik h Hik R P. destruct (in_part parts (zlen ks) D t ik Hik) as [L Hi]. specialize (HV ik Hi).
    unfold value_bias in HV. rewrite E0, E1 in HV. cbn [bind] in HV.
    assert (A : amid parts cells_bias tabs none cv0 h1 t ik h h) by (apply amid_start, R).
    cbv zeta in HV. do 8 (match type of HV with context [calc_pk_bias_1loop ?p ?i ?g ?m ?a ?k ?ke ?h] => let X := fresh "X" in destruct (calc_pk_bias_1loop p i g m a k ke h) as [[[? ?] ?]|] eqn:X; [|discriminate HV]; cbn [bind] in HV end).
    injection HV as HV. unfold row_bias. cbv zeta.
    apply wp_bind. apply wp_bind. eapply row_k; [eassumption..|]. apply wp_bind. eapply row_tables; [eassumption..|discriminate|inl_|inl_| |eassumption|cbv zeta; intros ? ? ?].
    { eapply transparent_gives; [|exact O0|exact O1|eassumption]. apply bias_transparent. repeat eexists. }
    eapply row_store; [eassumption..|inl_|look; apply P; inl_|eassumption|intro].
    apply wp_bind. apply wp_bind. eapply row_k; [eassumption..|]. apply wp_bind. eapply row_tables; [eassumption..|discriminate|inl_|inl_| |eassumption|cbv zeta; intros ? ? ?].
    { eapply transparent_gives; [|exact O0|exact O1|eassumption]. apply bias_transparent. repeat eexists. }
    eapply row_store; [eassumption..|inl_|look; apply P; inl_|eassumption|intro].
    apply wp_bind. apply wp_bind. eapply row_k; [eassumption..|]. apply wp_bind. eapply row_tables; [eassumption..|discriminate|inl_|inl_| |eassumption|cbv zeta; intros ? ? ?].
    { eapply transparent_gives; [|exact O0|exact O1|eassumption]. apply bias_transparent. repeat eexists. }
    eapply row_store; [eassumption..|inl_|look; apply P; inl_|eassumption|intro].
    apply wp_bind. apply wp_bind. eapply row_k; [eassumption..|]. apply wp_bind. eapply row_tables; [eassumption..|discriminate|inl_|inl_| |eassumption|cbv zeta; intros ? ? ?].
    { eapply transparent_gives; [|exact O0|exact O1|eassumption]. apply bias_transparent. repeat eexists. }
    eapply row_store; [eassumption..|inl_|look; apply P; inl_|eassumption|intro].
    apply wp_bind. apply wp_bind. eapply row_k; [eassumption..|]. apply wp_bind. eapply row_tables; [eassumption..|discriminate|inl_|inl_| |eassumption|cbv zeta; intros ? ? ?].
    { eapply transparent_gives; [|exact O0|exact O1|eassumption]. apply bias_transparent. repeat eexists. }
    eapply row_store; [eassumption..|inl_|look; apply P; inl_|eassumption|intro].
    apply wp_bind. apply wp_bind. eapply row_k; [eassumption..|]. apply wp_bind. eapply row_tables; [eassumption..|discriminate|inl_|inl_| |eassumption|cbv zeta; intros ? ? ?].
    { eapply transparent_gives; [|exact O0|exact O1|eassumption]. apply bias_transparent. repeat eexists. }
    eapply row_store; [eassumption..|inl_|look; apply P; inl_|eassumption|intro].
    apply wp_bind. apply wp_bind. eapply row_k; [eassumption..|]. apply wp_bind. eapply row_tables; [eassumption..|discriminate|inl_|inl_| |eassumption|cbv zeta; intros ? ? ?].
    { eapply transparent_gives; [|exact O0|exact O1|eassumption]. apply bias_transparent. repeat eexists. }
    eapply row_store; [eassumption..|inl_|look; apply P; inl_|eassumption|intro].
    apply wp_bind. eapply row_k; [eassumption..|]. apply wp_bind. eapply row_tables; [eassumption..|discriminate|inl_|inl_| |eassumption|cbv zeta; intros ? ? ?].
    { eapply transparent_gives; [|exact O0|exact O1|eassumption]. apply bias_transparent. repeat eexists. }
    eapply row_store; [eassumption..|inl_|look; apply P; inl_|eassumption|intro].
    match goal with X : amid _ _ _ _ _ _ _ _ _ ?h' |- context [ready _ _ _ _ _ _ _ ?h'] => destruct X as [R5 F5] end. rewrite <- HV. split; [exact R5|]. split; [|exact F5].
    unfold stored. cbn [map cells_bias]. look. reflexivity.
  - intros ik c Hi Hc. exact (machine_cell _ _ _ _ _ _ _ _ M Hi Hc).
  - intros t rows h Q H. unfold thread_bias. reassoc H.
  - intros t L. assert (A : making tabs none cv0 h1 t [] h1) by (split; [intros; reflexivity|split; [reflexivity|intros ? []]]).
    apply wp_bind. start1 E0. start1 E1. match goal with X : making _ _ _ _ _ (_ :: _) ?hh |- context [?hh] => apply (making_ready parts cells_bias) in X; [exact X|exact L|made] end.
  - intros t h L R. pose proof (freeing_start _ _ _ _ _ _ _ _ R) as F.
    apply wp_bind. stop1. stop1. eapply freeing_end; [|eassumption]. made.
Qed.

(** *** A_1loop *)
Definition tabs_A_1loop (g : glq N) (m : glmu N) : list (string * table N) := [("A_1loop_q", TQ g); ("A_1loop_mu", TMu m)].
Lemma region_A_1loop  pkl ks parts vals g m h1 :
  distributes parts (zlen ks) -> q_ok g -> mu_ok m ->
  new_q fuel st pkl "A_1loop_q" = Ok g -> new_mu fuel st "A_1loop_mu" = Ok m ->
  (forall ik, (0 <= ik < zlen ks)%Z -> value_A_1loop fuel st pkl (nth (Z.to_nat ik) ks (nZ N 0)) = Ok (vals ik)) ->
  region_spec h1 pkl ks cells_A vals (tabs_A_1loop g m) none cv0 (thread_A_1loop fuel st) parts.
Proof.
  intros D O0 O1 E0 E1 HV M. set (tabs := tabs_A_1loop g m) in *.
  assert (CA : forall ik c, In c (cells_A ik) -> exists x i, c = Arr x i /\ x <> "k") by (intros ik c Hc; arr_cells Hc).
  assert (CD : forall ik jk c, In c (cells_A ik) -> In c (cells_A jk) -> ik = jk).
  { intros ik jk c H1 H2. apply in_map_iff in H1 as (c1 & <- & I1). apply in_map_iff in H2 as (c2 & E & I2). assert (5 * jk + c2 = 5 * ik + c1)%Z by congruence. cbn in I1, I2. lia. }
  assert (DN : NoDup (map fst tabs)) by (cbn; repeat constructor; cbn; intuition discriminate).
  pose proof no_common as CG.
  apply (region_ok parts (zlen ks) cells_A vals tabs none cv0 h1 D CA CD CG) with (row := fun t => row_A_1loop st t)
    (start := fun t => pbind (p_init_q fuel st t "A_1loop_q") (fun _ => p_init_mu fuel st t "A_1loop_mu"))
    (stop := fun t => pbind (p_free_q t "A_1loop_q") (fun _ => p_free_mu t "A_1loop_mu")).
  - intros t ik h Hik R P. destruct (in_part parts (zlen ks) D t ik Hik) as [L Hi]. specialize (HV ik Hi).
    unfold value_A_1loop in HV. rewrite E0, E1 in HV. cbn [bind] in HV.
    assert (A : amid parts cells_A tabs none cv0 h1 t ik h h) by (apply amid_start, R).
    destruct (calc_pk_A_1loop _ _ _ _ _ _) as [[[p ?] ?]|] eqn:Gp; [|discriminate]. cbn [bind] in HV.
    unfold row_A_1loop. apply wp_bind. eapply row_k; [eassumption..|].
    apply wp_bind. eapply row_tables; [eassumption..|discriminate|inl_|inl_| |eassumption|cbv zeta; intros g' m' A1].
    { eapply transparent_gives; [|exact O0|exact O1|exact Gp]. apply A_1loop_transparent. repeat eexists. }
    rewrite block_A. eapply row_store_all; [eassumption..| | | |eassumption|intros A5].
    + apply incl_refl.
    + intros c Hc. assert (Hc' := Hc). repeat destruct Hc as [<-|Hc]; try (look; apply P, Hc'). destruct Hc.
    + exact HV.
    + destruct A5 as [R5 F5]. split; [exact R5|]. split; [|exact F5]. apply put_all_stored; [|exact (take_Ok _ _ _ HV)].
      cbn. repeat constructor; cbn; intros Hc; repeat (destruct Hc as [Hc|Hc]; [injection Hc; lia|]); destruct Hc.
  - intros ik c Hi Hc. exact (machine_cell _ _ _ _ _ _ _ _ M Hi Hc).
  - intros t rows h Q H. unfold thread_A_1loop. reassoc H.
  - intros t L. assert (A : making tabs none cv0 h1 t [] h1) by (split; [intros; reflexivity|split; [reflexivity|intros ? []]]).
    apply wp_bind. start1 E0. start1 E1. match goal with X : making _ _ _ _ _ (_ :: _) ?hh |- context [?hh] => apply (making_ready parts cells_A) in X; [exact X|exact L|made] end.
  - intros t h L R. pose proof (freeing_start _ _ _ _ _ _ _ _ R) as F.
    apply wp_bind. stop1. stop1. eapply freeing_end; [|eassumption]. made.
Qed.

(** *** A_2loop *)
Definition tabs_A_2loop (g g1 gd gt : glq N) (m : glmu N) : list (string * table N) := [("A_2loop_I_q", TQ g); ("gamma1_1loop_q", TQ g1); ("gamma2d_1loop_q", TFix gd); ("gamma2t_1loop_q", TFix gt); ("A_2loop_I_mu", TMu m)].
Lemma region_A_2loop  pkl ks parts vals g m g1 gd gt h1 :
  distributes parts (zlen ks) -> q_ok g -> mu_ok m -> q_ok g1 ->
  new_q fuel st pkl "A_2loop_I_q" = Ok g -> new_mu fuel st "A_2loop_I_mu" = Ok m -> new_q fuel st pkl "gamma1_1loop_q" = Ok g1 -> new_q fuel st pkl "gamma2d_1loop_q" = Ok gd -> new_q fuel st pkl "gamma2t_1loop_q" = Ok gt ->
  (forall ik, (0 <= ik < zlen ks)%Z -> value_A_2loop fuel st pkl (nth (Z.to_nat ik) ks (nZ N 0)) = Ok (vals ik)) ->
  region_spec h1 pkl ks cells_A vals (tabs_A_2loop g g1 gd gt m) none cv0 (thread_A_2loop fuel st) parts.
Proof.
  intros D O0 O1 O2 E0 E1 E2 E3 E4 HV M. set (tabs := tabs_A_2loop g g1 gd gt m) in *.
  assert (CA : forall ik c, In c (cells_A ik) -> exists x i, c = Arr x i /\ x <> "k") by (intros ik c Hc; arr_cells Hc).
  assert (CD : forall ik jk c, In c (cells_A ik) -> In c (cells_A jk) -> ik = jk).
  { intros ik jk c H1 H2. apply in_map_iff in H1 as (c1 & <- & I1). apply in_map_iff in H2 as (c2 & E & I2). assert (5 * jk + c2 = 5 * ik + c1)%Z by congruence. cbn in I1, I2. lia. }
  assert (DN : NoDup (map fst tabs)) by (cbn; repeat constructor; cbn; intuition discriminate).
  pose proof no_common as CG.
  apply (region_ok parts (zlen ks) cells_A vals tabs none cv0 h1 D CA CD CG) with (row := fun t => row_A_2loop st t)
    (start := fun t => pbind (p_init_q fuel st t "A_2loop_I_q") (fun _ => pbind (p_init_mu fuel st t "A_2loop_I_mu") (fun _ => pbind (p_init_q fuel st t "gamma1_1loop_q") (fun _ => pbind (p_init_q fuel st t "gamma2d_1loop_q") (fun _ => p_init_q fuel st t "gamma2t_1loop_q")))))
    (stop := fun t => pbind (p_free_q t "A_2loop_I_q") (fun _ => pbind (p_free_mu t "A_2loop_I_mu") (fun _ => pbind (p_free_q t "gamma1_1loop_q") (fun _ => pbind (p_free_q t "gamma2d_1loop_q") (fun _ => p_free_q t "gamma2t_1loop_q"))))).
  - intros t ik h Hik R P. destruct (in_part parts (zlen ks) D t ik Hik) as [L Hi]. specialize (HV ik Hi).
    unfold value_A_2loop in HV. rewrite E0, E1, E2, E3, E4 in HV. cbn [bind] in HV.
    assert (A : amid parts cells_A tabs none cv0 h1 t ik h h) by (apply amid_start, R).
    destruct (calc_pk_A_2loop_I _ _ _ _ _ _ _ _ _) as [[[p ?] ?]|] eqn:Gp; [|discriminate]. cbn [bind] in HV.
    unfold row_A_2loop. apply wp_bind. eapply row_k; [eassumption..|].
    apply wp_bind. eapply row_q; [eassumption..|inl_|eassumption|intros g1' S1].
    apply wp_bind. eapply row_fix; [eassumption..|inl_|eassumption|].
    apply wp_bind. eapply row_fix; [eassumption..|inl_|eassumption|].
    apply wp_bind. eapply row_tables; [eassumption..|discriminate|inl_|inl_| |eassumption|cbv zeta; intros g' m' A1].
    { intros q' w' Sq Sw. pose proof (calc_A_2loop_I_same pkl (s_interpol st "bispectrum_1loop_pk_lin") (s_cutoff st "set_running_uvcutoff_bispectrum_1loop") g q' m w' g1 g1' gd gt (nth (Z.to_nat ik) ks (nZ N 0)) O0 Sq O1 Sw O2 S1) as X.
      rewrite Gp in X. unfold same_result in X. destruct (calc_pk_A_2loop_I _ _ _ q' w' _ _ _ _) as [[[p' q''] w'']|] eqn:Gp'; [|contradiction]. destruct X as (<- & _ & _).
      assert (TR : transparent (fun q w => calc_pk_A_2loop_I pkl (s_interpol st "bispectrum_1loop_pk_lin") (s_cutoff st "set_running_uvcutoff_bispectrum_1loop") q w g1' gd gt (nth (Z.to_nat ik) ks (nZ N 0)))).
      { apply A_2loop_I_transparent. repeat eexists; exact (proj1 S1) || apply S1. }
      destruct (proj2 TR q' w' _ _ _ (proj1 Sq) (proj1 Sw) Gp') as [Y1 Y2]. exists q'', w''. split; [reflexivity|]. split; [eapply same_q_trans; eassumption|eapply same_rule_trans; eassumption]. }
    apply wp_bind. eapply row_set_q; [eassumption..|inl_|exact S1|eassumption|intros A2].
    apply wp_bind, (wp_attempt _ _ _ _ _ _ (vals ik)); [exact HV|].
    assert (Lv : List.length (vals ik) = 5%nat) by (unfold sum_A in HV; repeat (match type of HV with context [rd ?l ?i] => destruct (rd l i); [|discriminate HV]; cbn [bind] in HV end); injection HV as HV; rewrite <- HV; reflexivity).
    rewrite block_A. eapply row_store_all; [eassumption..| | | |eassumption|intros A5].
    + apply incl_refl.
    + intros c Hc. assert (Hc' := Hc). repeat destruct Hc as [<-|Hc]; try (look; apply P, Hc'). destruct Hc.
    + rewrite <- (take_all (vals ik)), Lv. reflexivity.
    + destruct A5 as [R5 F5]. split; [exact R5|]. split; [|exact F5]. apply put_all_stored; [|exact Lv].
      cbn. repeat constructor; cbn; intros Hc; repeat (destruct Hc as [Hc|Hc]; [injection Hc; lia|]); destruct Hc.
  - intros ik c Hi Hc. exact (machine_cell _ _ _ _ _ _ _ _ M Hi Hc).
  - intros t rows h Q H. unfold thread_A_2loop. reassoc H.
  - intros t L. assert (A : making tabs none cv0 h1 t [] h1) by (split; [intros; reflexivity|split; [reflexivity|intros ? []]]).
    apply wp_bind. start1 E0. apply wp_bind. start1 E1. apply wp_bind. start1 E2. apply wp_bind. start1 E3. start1 E4. match goal with X : making _ _ _ _ _ (_ :: _) ?hh |- context [?hh] => apply (making_ready parts cells_A) in X; [exact X|exact L|made] end.
  - intros t h L R. pose proof (freeing_start _ _ _ _ _ _ _ _ R) as F.
    apply wp_bind. stop1. apply wp_bind. stop1. apply wp_bind. stop1. apply wp_bind. stop1. stop1. eapply freeing_end; [|eassumption]. made.
Qed.

Notation shared_B := statics_B.
Definition cv_B (dt ptt : Pk N) (l : loc) : value N := if loc_eqb l (Glob "calc_B.pk_dt") then VPk dt else VPk ptt.

(** *** B *)
Definition tabs_B (g : glq N) (m : glmu N) : list (string * table N) := [("B_q", TQ g); ("B_mu", TMu m)].
Lemma region_B dt ptt pkl ks parts vals g m h1 :
  distributes parts (zlen ks) -> q_ok g -> mu_ok m ->
  new_q fuel st pkl "B_q" = Ok g -> new_mu fuel st "B_mu" = Ok m ->
  (forall ik, (0 <= ik < zlen ks)%Z -> value_B fuel st pkl dt ptt (nth (Z.to_nat ik) ks (nZ N 0)) = Ok (vals ik)) ->
  h1 (Glob "pk_dt") = Some (VPk dt) -> h1 (Glob "pk_tt") = Some (VPk ptt) -> h1 (Glob "calc_B.pk_dt") <> None -> h1 (Glob "calc_B.pk_tt") <> None ->
  region_spec h1 pkl ks cells_B vals (tabs_B g m) shared_B (cv_B dt ptt) (thread_B fuel st) parts.
Proof.
  intros D O0 O1 E0 E1 HV Hd Ht Pd Pt M. set (tabs := tabs_B g m) in *.
  assert (CA : forall ik c, In c (cells_B ik) -> exists x i, c = Arr x i /\ x <> "k") by (intros ik c Hc; arr_cells Hc).
  assert (CD : forall ik jk c, In c (cells_B ik) -> In c (cells_B jk) -> ik = jk).
  { intros ik jk c H1 H2. apply in_map_iff in H1 as (c1 & <- & I1). apply in_map_iff in H2 as (c2 & E & I2). assert (9 * jk + c2 = 9 * ik + c1)%Z by congruence. cbn in I1, I2. lia. }
  assert (DN : NoDup (map fst tabs)) by (cbn; repeat constructor; cbn; intuition discriminate).
  assert (CG : forall l, shared_B l -> exists x, l = Glob x /\ x <> "pk_lin") by (intros l [->| ->]; eexists; (split; [reflexivity|discriminate])).
  apply (region_ok parts (zlen ks) cells_B vals tabs shared_B (cv_B dt ptt) h1 D CA CD CG) with (row := fun t => row_B st t)
    (start := fun t => pbind (load_pk (Glob "pk_dt")) (fun dt => pbind (load_pk (Glob "pk_tt")) (fun ptt => pbind (store (Glob "calc_B.pk_dt") (VPk dt)) (fun _ => pbind (store (Glob "calc_B.pk_tt") (VPk ptt)) (fun _ => pbind (p_init_q fuel st t "B_q") (fun _ => p_init_mu fuel st t "B_mu"))))))
    (stop := fun t => pbind (p_free_q t "B_q") (fun _ => p_free_mu t "B_mu")).
  - intros t ik h Hik R P. destruct (in_part parts (zlen ks) D t ik Hik) as [L Hi]. specialize (HV ik Hi).
    unfold value_B in HV. rewrite E0, E1 in HV. cbn [bind] in HV.
    assert (A : amid parts cells_B tabs shared_B (cv_B dt ptt) h1 t ik h h) by (apply amid_start, R).
    destruct (calc_pk_B _ _ _ _ _ _) as [[[p ?] ?]|] eqn:Gp; [|discriminate]. cbn [bind] in HV.
    unfold row_B. apply wp_bind. eapply row_k; [eassumption..|].
    assert (C1 : h (Glob "calc_B.pk_dt") = Some (cv_B dt ptt (Glob "calc_B.pk_dt"))) by (apply (amid_common _ _ _ _ _ _ _ _ _ _ _ (or_introl eq_refl) A)).
    assert (C2 : h (Glob "calc_B.pk_tt") = Some (cv_B dt ptt (Glob "calc_B.pk_tt"))) by (apply (amid_common _ _ _ _ _ _ _ _ _ _ _ (or_intror eq_refl) A)).
    apply wp_bind. eapply wp_load_pk; [right; right; split; [left; reflexivity|exact C1]|exact C1|].
    apply wp_bind. eapply wp_load_pk; [right; right; split; [right; reflexivity|exact C2]|exact C2|].
    apply wp_bind. eapply row_tables; [eassumption..|discriminate|inl_|inl_| |eassumption|cbv zeta; intros g' m' A1].
    { eapply transparent_gives; [|exact O0|exact O1|exact Gp]. apply B_transparent. repeat eexists. }
    apply wp_bind, (wp_attempt _ _ _ _ _ _ (vals ik)); [exact HV|].
    assert (Lv : List.length (vals ik) = 9%nat) by (unfold sum_B in HV; repeat (match type of HV with context [rd ?l ?i] => destruct (rd l i); [|discriminate HV]; cbn [bind] in HV end); injection HV as HV; rewrite <- HV; reflexivity).
    rewrite block_B. eapply row_store_all; [eassumption..| | | |eassumption|intros A5].
    + apply incl_refl.
    + intros c Hc. assert (Hc' := Hc). repeat destruct Hc as [<-|Hc]; try (look; apply P, Hc'). destruct Hc.
    + rewrite <- (take_all (vals ik)), Lv. reflexivity.
    + destruct A5 as [R5 F5]. split; [exact R5|]. split; [|exact F5]. apply put_all_stored; [|exact Lv].
      cbn. repeat constructor; cbn; intros Hc; repeat (destruct Hc as [Hc|Hc]; [injection Hc; lia|]); destruct Hc.
  - intros ik c Hi Hc. exact (machine_cell _ _ _ _ _ _ _ _ M Hi Hc).
  - intros t rows h Q H. unfold thread_B. reassoc H.
  - intros t L. 
    assert (RO : forall x, x <> "calc_B.pk_dt" -> x <> "calc_B.pk_tt" -> readonly (own parts cells_B tabs) shared_B (Glob x)).
    { intros x X1 X2. apply (readonly_glob parts cells_B tabs shared_B CA). intros [C|C]; congruence. }
    apply wp_bind. apply (wp_load_pk _ _ _ t h1 _ dt); [right; left; apply RO; discriminate|exact Hd|].
    apply wp_bind. apply (wp_load_pk _ _ _ t h1 _ ptt); [right; left; apply RO; discriminate|exact Ht|].
    apply wp_bind. apply (wp_store_common _ _ (cv_B dt ptt) t h1 (Glob "calc_B.pk_dt")); [left; reflexivity|exact Pd|].
    apply wp_bind. apply (wp_store_common _ _ (cv_B dt ptt) t _ (Glob "calc_B.pk_tt")); [right; reflexivity|look; exact Pt|].
    match goal with |- context [wp _ _ _ _ _ ?hh _] => assert (A : making tabs shared_B (cv_B dt ptt) h1 t [] hh) end.
    { split; [intros x T Hx; look; reflexivity|split].
      - intros l H1 H2. rewrite !hupd_other; [reflexivity| |]; intros <-; apply H2; [left|right]; reflexivity.
      - intros l [->| ->]; look; reflexivity. }
    apply wp_bind. start1 E0. start1 E1. match goal with X : making _ _ _ _ _ (_ :: _) ?hh |- context [?hh] => apply (making_ready parts cells_B) in X; [exact X|exact L|made] end.
  - intros t h L R. pose proof (freeing_start _ _ _ _ _ _ _ _ R) as F.
    apply wp_bind. stop1. stop1. eapply freeing_end; [|eassumption]. made.
Qed.
End Regions.
