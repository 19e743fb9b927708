(** ProofScale2: the tables of nodes and the integrals, for a rescaled spectrum. *)
From Coq Require Import ZArith Lia List Bool Reals Lra.
From Verif Require Import Base Num BaseFacts Lockstep Common Kernels Gamma2 Integrals SpecLoops SpecScratch SpecTable ProofGL2 ProofScratch ProofScratch3 ProofScale.
Import ListNotations.
Local Open Scope R_scope.

(** ** Nodes on a shifted range *)
Lemma nodes_shift fuel a b d n : (0 <= n < 2 ^ 62)%Z ->
  res_rel (fun p q => fst q = map (fun x => x + d) (fst p) /\ snd q = snd p /\ zlen (fst p) = n)
    (nodes_weights_gauss_legendre (N := RNum) fuel a b (repeat 0 (Z.to_nat n)) (repeat 0 (Z.to_nat n)) n)
    (nodes_weights_gauss_legendre (N := RNum) fuel (a + d) (b + d) (repeat 0 (Z.to_nat n)) (repeat 0 (Z.to_nat n)) n).
Proof.
  intros Hn. unfold nodes_weights_gauss_legendre. rn. rewrite (u64_small (n + 1)) by (unfold SIZE_T; lia).
  set (z := repeat 0 (Z.to_nat n)). assert (Lz : zlen (A := R) z = n) by (apply zlen_repeat; lia). clearbody z.
  eapply bind_rel with (R := fun p q => snd (fst q) = snd (fst p) /\ fst (fst q) = map (fun x => x + d) (fst (fst p)) /\ zlen (fst (fst p)) = n).
  2: { intros [[x w] pp] [[x' w'] pp'] (W & X & L). cbn [fst snd] in *. subst. cbn. auto. }
  set (P := fun (i : Z) (p q : list R * list R * R) => snd q = snd p /\ snd (fst q) = snd (fst p) /\ zlen (fst (fst p)) = n /\ zlen (fst (fst q)) = n /\
    forall j, (0 <= j < i \/ n - i <= j < n)%Z -> znth 0 (fst (fst q)) j = znth 0 (fst (fst p)) j + d).
  assert (L : forall m i f g p q, (0 <= i)%Z -> (i + Z.of_nat m <= (n + 1) / 2)%Z -> P i p q -> (forall j p q, (0 <= j < (n + 1) / 2)%Z -> P j p q -> res_rel (P (j + 1)%Z) (f j p) (g j q)) -> res_rel (P (i + Z.of_nat m)%Z) (loop m i f p) (loop m i g q)).
  { induction m as [|m IH]; intros i f g p q Hi Hm H Hf; [rewrite Z.add_0_r; exact H|]. cbn [loop]. eapply bind_rel; [apply Hf; [lia|exact H]|]. intros p1 q1 H1. replace (i + Z.of_nat (S m))%Z with (i + 1 + Z.of_nat m)%Z by lia. apply IH; auto; lia. }
  assert (Hm : (0 <= (n + 1) / 2)%Z) by (apply Z.div_pos; lia).
  unfold for_. rewrite Z.sub_0_r. eapply rel_imp; [|apply (L (Z.to_nat ((n + 1) / 2)) 0%Z); [lia|lia| |]].
  - intros [[x w] pp] [[x' w'] pp'] (_ & W & L1 & L2 & E). cbn [fst snd] in *. split; [exact W|]. split; [|exact L1]. apply (znth_ext 0); [unfold zlen in *; rewrite map_length; lia|]. intros j Hj. rewrite E.
    + unfold znth. symmetry. rewrite (nth_indep (map (fun x => x + d) x) 0 (0 + d)) by (rewrite map_length; unfold zlen in *; lia). apply (map_nth (fun x => x + d)).
    + rewrite Z2Nat.id by lia. pose proof (Z.div_mod (n + 1) 2 ltac:(lia)). pose proof (Z.mod_pos_bound (n + 1) 2 ltac:(lia)). lia.
  - cbn. repeat split; auto. intros j Hj. lia.
  - clear L. intros j [[x w] pp] [[x' w'] pp'] Hj (Pp & W & L1 & L2 & E). cbn [fst snd] in *. subst pp' w'.
    assert (B : (j < n)%Z). { pose proof (Z.div_mod (n + 1) 2 ltac:(lia)). pose proof (Z.mod_pos_bound (n + 1) 2 ltac:(lia)). lia. }
    apply bind_same. intros [y pq] _. rewrite (u64_small (n - j - 1)) by (unfold SIZE_T; lia). replace ((b + d - (a + d)) / 2) with ((b - a) / 2) by field. replace ((b + d + (a + d)) / 2) with ((b + a) / 2 + d) by field.
    rewrite (wr_ok x), (wr_ok x') by lia. cbn [bind]. rewrite (wr_ok (upd x _ _)) by (rewrite zlen_upd; lia). rewrite (wr_ok (upd x' _ _)) by (rewrite zlen_upd; lia). cbn [bind]. apply bind_same. intros w1 _. apply bind_same. intros wi _. apply bind_same. intros w2 _. cbn [res_rel]. unfold P. cbn [fst snd]. rewrite !zlen_upd. do 4 (split; [auto|]).
    intros i Hi. rewrite !znth_upd by (rewrite ?zlen_upd; lia). destruct (Z.eqb_spec i (n - j - 1)) as [->|N1]; [rewrite ?Z.eqb_refl; ring|].
    repeat match goal with |- context [if ?c then _ else _] => let e := fresh in destruct c eqn:e end; try lia; try ring. apply E. lia.
Qed.
Lemma for_rel_i {A B} (P : Z -> A -> B -> Prop) n (f : Z -> A -> res A) (g : Z -> B -> res B) a b : (0 <= n)%Z ->
  P 0%Z a b -> (forall j a b, (0 <= j < n)%Z -> P j a b -> res_rel (P (j + 1)%Z) (f j a) (g j b)) -> res_rel (P n) (for_ 0 n f a) (for_ 0 n g b).
Proof.
  intros Hn H0 Hs. unfold for_. rewrite Z.sub_0_r.
  assert (L : forall m i a b, (0 <= i)%Z -> (i + Z.of_nat m <= n)%Z -> P i a b -> res_rel (P (i + Z.of_nat m)%Z) (loop m i f a) (loop m i g b)).
  { induction m as [|m IH]; intros i x y Hi Hm H; [rewrite Z.add_0_r; exact H|]. cbn [loop]. eapply bind_rel; [apply Hs; [lia|exact H]|]. intros x1 y1 H1. replace (i + Z.of_nat (S m))%Z with (i + 1 + Z.of_nat m)%Z by lia. apply IH; auto; lia. }
  specialize (L (Z.to_nat n) 0%Z a b ltac:(lia) ltac:(lia) H0). rewrite Z2Nat.id in L by lia. exact L.
Qed.

Section Scale.
Variables (s u : R).
Hypotheses (Hs : 0 < s) (Hu : 0 < u).
Let s0 : s <> 0 := Rgt_not_eq s 0 Hs.
Let u0 : u <> 0 := Rgt_not_eq u 0 Hu.
Local Notation stretched := (stretched s u).
Lemma find1_s p p' im k : stretched p p' -> res_rel (tm u) (find1 (N := RNum) p im k) (find1 (N := RNum) p' im (s * k)).
Proof. intros S. unfold find1. eapply bind_rel; [apply (find_pk_s s u Hs Hu _ _ [k] [s * k]); [exact S|reflexivity]|]. intros l l' L. apply rd_tms, L. Qed.

(** The same settings, with the range in the new unit *)
Definition prec_s (p p' : precision RNum) : Prop := pr_n p' = pr_n p /\ pr_interpol p' = pr_interpol p /\ pr_min p' = s * pr_min p /\ pr_max p' = s * pr_max p.
Definition range_ok (p : precision RNum) (pkl : Pk RNum) : Prop := forall a b, q_range p pkl = Ok (a, b) -> s = 1 \/ 0 < a /\ 0 < b.
(** Tables made from the two spectra; and after the update for k and s k. *)
Definition tab (g g' : glq RNum) : Prop := q_ok g /\ q_ok g' /\ gq_nq g' = gq_nq g /\ gq_w g' = gq_w g /\ tms s (gq_q g) (gq_q g') /\ tms u (gq_pk g) (gq_pk g').
Definition tab_at (k : R) (g g' : glq RNum) : Prop := tab g g' /\ gq_x g' = gq_x g /\ gq_k g = k /\ gq_k g' = s * k.
Lemma q_range_s p p' pkl pkl' : prec_s p p' -> stretched pkl pkl' -> res_rel (fun a b => tm s (fst a) (fst b) /\ tm s (snd a) (snd b)) (q_range (N := RNum) p pkl) (q_range (N := RNum) p' pkl').
Proof.
  intros (_ & _ & E1 & E2) (En & Hk & _). unfold q_range. rewrite E1, E2, En. rn. rewrite !times_le0 by exact Hs. destruct (_ || _); [|cbn; split; reflexivity].
  eapply bind_rel; [apply rd_tms; exact Hk|]. intros a a' A. eapply bind_rel; [apply rd_tms; exact Hk|]. intros b b' B. cbn. auto.
Qed.
Lemma ln_s a : s = 1 \/ 0 < a -> ln (s * a) = ln a + ln s.
Proof. intros [->|H]; [rewrite ln_1, Rmult_1_l; ring|rewrite ln_mult by assumption; ring]. Qed.
Lemma exp_s a : exp (a + ln s) = s * exp a.
Proof. rewrite exp_plus, exp_ln by exact Hs. ring. Qed.
Lemma init_q_s fuel p p' pkl pkl' : (0 <= pr_n p < 2 ^ 62)%Z -> prec_s p p' -> stretched pkl pkl' -> range_ok p pkl ->
  res_rel tab (init_gauss_legendre_q (N := RNum) fuel p pkl) (init_gauss_legendre_q (N := RNum) fuel p' pkl').
Proof.
  intros Hn Hp S Hr. assert (OK : forall g, init_gauss_legendre_q (N := RNum) fuel p pkl = Ok g -> q_ok g) by (intros g E; exact (proj1 (init_q_tables fuel p pkl g Hn E))).
  assert (OK' : forall g, init_gauss_legendre_q (N := RNum) fuel p' pkl' = Ok g -> q_ok g) by (intros g E; refine (proj1 (init_q_tables fuel p' pkl' g _ E)); rewrite (proj1 Hp); exact Hn).
  cut (res_rel (fun g g' : glq RNum => gq_nq g' = gq_nq g /\ gq_w g' = gq_w g /\ tms s (gq_q g) (gq_q g') /\ tms u (gq_pk g) (gq_pk g')) (init_gauss_legendre_q (N := RNum) fuel p pkl) (init_gauss_legendre_q (N := RNum) fuel p' pkl')).
  { destruct (init_gauss_legendre_q fuel p pkl) as [g|e], (init_gauss_legendre_q fuel p' pkl') as [g'|e']; auto. cbn. unfold tab. intros H. split; [apply OK; reflexivity|]. split; [apply OK'; reflexivity|]. exact H. }
  clear OK OK'. unfold init_gauss_legendre_q. pose proof (q_range_s p p' pkl pkl' Hp S) as Q. unfold range_ok in Hr. destruct (q_range p pkl) as [[a b]|e], (q_range p' pkl') as [[a' b']|e']; try contradiction; [|exact Q]. cbn in Q. destruct Q as (A & B). red in A, B. subst a' b'. cbn [bind].
  destruct Hp as (En & Ei & _ & _). rewrite En, Ei. rn. rewrite !ln_s by (destruct (Hr a b eq_refl); tauto).
  eapply bind_rel; [apply nodes_shift; exact Hn|]. intros [x w] [x' w'] (X & W & L). cbn [fst snd] in *. subst x' w'. set (n := pr_n p) in *. set (z := repeat 0 (Z.to_nat n)). assert (Lz : zlen (A := R) z = n) by (apply zlen_repeat; lia).
  eapply bind_rel with (R := fun a b => tms s (snd a) (snd b)).
  - eapply rel_imp; [|apply (for_rel_i (fun i (a b : list R * list R) => zlen (fst a) = n /\ zlen (fst b) = n /\ zlen (snd a) = n /\ tms s (snd a) (snd b) /\ forall j, (i <= j < n)%Z -> znth 0 (fst b) j = znth 0 (fst a) j + ln s)); [lia| |]].
    + intros c d (_ & _ & _ & H & _). exact H.
    + cbn [fst snd]. split; [exact L|]. split; [unfold zlen in *; rewrite map_length; exact L|]. split; [exact Lz|]. split; [apply repeat_tms|]. intros j Hj. unfold znth. rewrite (nth_indep _ 0 (0 + ln s)) by (rewrite map_length; unfold zlen in L; lia). apply (map_nth (fun x => x + ln s)).
    + intros j [x1 q1] [x2 q2] Hj (L1 & L2 & L3 & Q & E). cbn [fst snd] in *. rewrite (rd_ok 0 x1), (rd_ok 0 x2) by lia. cbn [bind]. rewrite E by lia. rewrite exp_s.
      set (e := exp (znth 0 x1 j)). clearbody e. eapply bind_rel with (R := fun c d => tms s c d /\ zlen c = n).
      { pose proof (wr_tms s q1 q2 j e (s * e) Q eq_refl) as H. rewrite (wr_ok q1) in * by lia. destruct (wr q2 j (s * e)); cbn in *; [|contradiction]. split; [exact H|]. rewrite zlen_upd. exact L3. }
      intros c d (C & Lc). eapply bind_rel; [apply rd_tms; exact C|]. intros v v' V. rewrite (wr_ok x1), (wr_ok x2) by lia. cbn [bind res_rel fst snd]. rewrite !zlen_upd. do 4 (split; [assumption|]). intros i Hi. rewrite !znth_upd by lia. destruct (Z.eqb_spec i j); [lia|]. apply E. lia.
  - intros [x1 q] [x1' q'] Q. cbn [snd] in Q. eapply bind_rel; [apply (find_pk_s s u Hs Hu); [exact S|exact Q]|]. intros pk pk' P. cbn. auto.
Qed.
Lemma update_s g g' k : tab g g' -> res_rel (tab_at k) (update_gauss_legendre_q (N := RNum) g k) (update_gauss_legendre_q (N := RNum) g' (s * k)).
Proof.
  intros (OK & OK' & En & Ew & Q & P).
  destruct (update_q_val g k 0 ltac:(apply OK) ltac:(apply OK) ltac:(apply OK)) as (v & E & A1 & A2 & A3 & A4 & A5 & A6 & A7).
  destruct (update_q_val g' (s * k) 0 ltac:(apply OK') ltac:(apply OK') ltac:(apply OK')) as (v' & E' & B1 & B2 & B3 & B4 & B5 & B6 & B7).
  destruct (update_q_ok g k OK) as (w & Ew' & S1). destruct (update_q_ok g' (s * k) OK') as (w' & Ew'' & S2). rewrite E in Ew'. injection Ew' as <-. rewrite E' in Ew''. injection Ew'' as <-.
  rewrite E, E'. cbn [res_rel]. unfold tab_at, tab. destruct S1 as (K & S1). destruct S2 as (K' & S2). split; [split; [exact K|split; [exact K'|]]|].
  - rewrite A2, A3, A4, A5, B2, B3, B4, B5. auto.
  - split; [|auto]. apply (znth_ext (A := T RNum) 0); [exact (eq_trans B6 (eq_trans En (eq_sym A6)))|]. intros i Hi. rewrite B6, En in Hi. rewrite A7, B7 by lia. rewrite Q. unfold znth. rn. assert (L : (Z.to_nat i < length (gq_q g))%nat) by (destruct OK as (_ & L & _); unfold zlen in L; lia). rewrite (nth_indep _ 0 (s * 0)) by (rewrite map_length; exact L). rewrite (map_nth (Rmult s)). apply ratio, s0.
Qed.
End Scale.
