(** ProofScale6: runs on a rescaled spectrum. *)
From Coq Require Import ZArith Lia List Bool Reals Lra String.
From Verif Require Import Base Num BaseFacts Lockstep Common Kernels Gamma2 Integrals Registry Threads PyTerms SpecLoops SpecScratch SpecTable SpecGamma2 SpecThreads SpecScale Spec ProofGL ProofGL2 ProofScratch3 ProofPy ProofScale ProofScale2 ProofScale3 ProofScale4 ProofScale5.
Import ListNotations.
Local Open Scope R_scope.
Local Open Scope string_scope.

Lemma raise_zip c ns l : raise c ns l = zipw Rmult (map (fun n => c ^ n) ns) l.
Proof. unfold raise. revert l. induction ns as [|n ns IH]; intros [|x l]; cbn; auto. rewrite IH. reflexivity. Qed.
Lemma unit_zip s vs l : in_unit s vs l = zipw Rmult (map (fun b : bool => if b then / (s * s * s) else 1) vs) l.
Proof. unfold in_unit. revert l. induction vs as [|b vs IH]; intros [|x l]; cbn; auto. rewrite IH. destruct b; f_equal; unfold Rdiv; ring. Qed.
Lemma tml_ok fs gs (n : nat) x y a : res_rel (tml fs) x y -> length gs = n -> fs = gs -> x = Ok a -> y = Ok (zipw Rmult gs a) /\ length a = n.
Proof. intros H <- <- ->. destruct y as [b|]; cbn in H; [|contradiction]. destruct H as (L & ->). split; [reflexivity|exact L]. Qed.
Lemma rs_1 qs st : rescaled_settings 1 qs st st.
Proof. repeat split; symmetry; apply Rmult_1_l. Qed.
Lemma range_1 (p : precision RNum) pkl : range_ok 1 p pkl.
Proof. intros a b _. left. reflexivity. Qed.
Lemma good_1 m : good_mu 1 m. Proof. left. reflexivity. Qed.
Lemma times_1 l : times 1 l = l.
Proof. unfold times. rewrite <- (map_id l) at 2. apply map_ext. intros; apply Rmult_1_l. Qed.

Section C47.
Variables (fuel : nat) (st : settings RNum) (suave1 : (list R -> res R) -> res R) (suave12 : (list R -> res (list R)) -> res (list R)).
Variables (c : R) (pkl pkl' dt dt' ptt ptt' : Pk RNum).
Hypotheses (Hc : 0 < c) (HP : rescaled_pk 1 c pkl pkl').
Lemma row_c d k v : sizes st (q_tables_of d) -> d <> D_A_2loop -> (d = D_B -> rescaled_pk 1 c dt dt' /\ rescaled_pk 1 c ptt ptt') -> ((exists a b, d = D_2loop a b) -> suave_scales (c * c * c) suave1) ->
  value_of fuel st suave1 suave12 d pkl dt ptt k = Ok v -> value_of fuel st suave1 suave12 d pkl' dt' ptt' k = Ok (raise c (degrees d) v) /\ length v = length (degrees d).
Proof.
  intros Hn Hd HB Hv E. rewrite raise_zip. pose proof (fun qs Hq => value_1loop_s 1 c Rlt_0_1 Hc fuel st st qs pkl pkl' HP (rs_1 qs st) Hq (fun x _ => range_1 (s_prec st x) pkl)) as V1.
  pose proof (fun qs Hq => value_2loop_s 1 c Rlt_0_1 Hc fuel st st qs pkl pkl' HP (rs_1 qs st) Hq (fun x _ => range_1 (s_prec st x) pkl)) as V2.
  pose proof (fun qs Hq => value_bias_s 1 c Rlt_0_1 Hc fuel st st qs pkl pkl' HP (rs_1 qs st) Hq (fun x _ => range_1 (s_prec st x) pkl)) as V3.
  pose proof (fun qs Hq => value_A_s 1 c Rlt_0_1 Hc fuel st st qs pkl pkl' HP (rs_1 qs st) Hq (fun x _ => range_1 (s_prec st x) pkl)) as V4.
  pose proof (fun qs Hq => value_B_s 1 c Rlt_0_1 Hc fuel st st qs pkl pkl' HP (rs_1 qs st) Hq (fun x _ => range_1 (s_prec st x) pkl)) as V5.
  destruct d as [a b|a b| | | | ]; cbn [SpecThreads.value_of] in E |- *.
  - specialize (V1 _ Hn a b k (incl_refl _)). rewrite (Rmult_1_l k) in V1. eapply tml_ok; [exact V1|reflexivity| |exact E]. cbn. repeat (apply f_equal2; [ring|]). reflexivity.
  - specialize (V2 _ Hn a b k (incl_refl _) (or_introl eq_refl) (fun m _ => good_1 m)). rewrite (Rmult_1_l k) in V2.
    pose proof (value_gamma3_u c st pkl pkl' suave1 a b k Hc HP (Hv (ex_intro _ a (ex_intro _ b eq_refl)))) as V6.
    destruct (value_2loop fuel st pkl a b k) as [x|]; [|discriminate]. destruct (value_2loop fuel st pkl' a b k) as [x'|]; [|contradiction]. cbn [bind] in *.
    destruct (value_gamma3 st pkl suave1 a b k) as [y|]; [|discriminate]. destruct (value_gamma3 st pkl' suave1 a b k) as [y'|]; [|contradiction]. cbn [bind res_rel] in *. injection E as <-. destruct V2 as (L & ->), V6 as (L' & ->). split; [|rewrite app_length, L, L'; reflexivity]. f_equal.
    destruct x as [|x1 [|x2 [|x3 [|x4 [|x5 [|x6 [|x7 [|]]]]]]]]; try discriminate. destruct y as [|y1 [|]]; try discriminate. unfold fs3. cbn. repeat (apply f_equal2; [ring|]). reflexivity.
  - specialize (V3 _ Hn k (incl_refl _)). rewrite (Rmult_1_l k) in V3. eapply tml_ok; [exact V3|reflexivity| |exact E]. cbn. repeat (apply f_equal2; [ring|]). reflexivity.
  - specialize (V4 _ Hn k (incl_refl _)). rewrite (Rmult_1_l k) in V4. eapply tml_ok; [exact V4|reflexivity| |exact E]. cbn. repeat (apply f_equal2; [ring|]). reflexivity.
  - contradiction.
  - destruct (HB eq_refl) as (B1 & B2). specialize (V5 _ Hn dt dt' ptt ptt' k (incl_refl _) B1 B2). rewrite (Rmult_1_l k) in V5. eapply tml_ok; [exact V5|reflexivity| |exact E]. cbn. repeat (apply f_equal2; [ring|]). reflexivity.
Qed.
Lemma run_c d ks ps ss vals : sizes st (q_tables_of d) -> d <> D_A_2loop -> (d = D_B -> rescaled_pk 1 c dt dt' /\ rescaled_pk 1 c ptt ptt') -> ((exists a b, d = D_2loop a b) -> suave_scales (c * c * c) suave1) ->
  computes fuel st suave1 suave12 d pkl dt ptt ks ps ss vals -> computes fuel st suave1 suave12 d pkl' dt' ptt' ks (times c ps) (times c ss) (fun ik => raise c (degrees d) (vals ik)).
Proof.
  intros Hn Hd HB Hv (E1 & E2 & E3). split; [|split].
  - pose proof (find_pk_s 1 c Rlt_0_1 Hc pkl pkl' ks ks (s_interpol st (interpol_of d)) HP (eq_sym (times_1 ks))) as H. rewrite E1 in H. match goal with |- ?x = _ => destruct x as [y|]; [|contradiction] end. cbn in H. rewrite H. reflexivity.
  - pose proof (sigmad2_s 1 c Rlt_0_1 pkl pkl' ks ks (s_cutoff st (cutoff_of d)) HP (eq_sym (times_1 ks))) as H. rewrite E2 in H. match goal with |- ?x = _ => destruct x as [y|]; [|contradiction] end. cbn in H. rewrite H, Rmult_1_l. reflexivity.
  - intros ik Hi. apply row_c; auto.
Qed.
Lemma run_full d ks ps ss vals : sizes st (q_tables_of d) -> d <> D_A_2loop -> (d = D_B -> rescaled_pk 1 c dt dt' /\ rescaled_pk 1 c ptt ptt') -> ((exists a b, d = D_2loop a b) -> suave_scales (c * c * c) suave1) ->
  computes fuel st suave1 suave12 d pkl dt ptt ks ps ss vals -> forall ik, (0 <= ik < zlen ks)%Z -> length (vals ik) = length (degrees d).
Proof. intros Hn Hd HB Hv (_ & _ & E3) ik Hi. eapply row_c; eauto. Qed.
End C47.

(** ** Terms.rescale *)
Lemma pow_D (D : R) (n : nat) : npow (n := RNum) D (nZ RNum (2 * Z.of_nat n)) = (D * D) ^ n.
Proof. rn. replace (2 * Z.of_nat n)%Z with (Z.of_nat (2 * n)) by lia. rewrite Rpow_nat, pow_mult. replace (D ^ 2) with (D * D) by ring. reflexivity. Qed.
Lemma col_times (D : R) (n : nat) (l : list R) : map (fun e : T RNum => nmul RNum e (npow (n := RNum) D (nZ RNum (2 * Z.of_nat n)))) l = times ((D * D) ^ n) l.
Proof. unfold times. apply map_ext. intros e. rewrite pow_D. rn. ring. Qed.
Lemma rescale_cons cl x (n : nat) v t t' D : assoc (scales cl) x = Some (Z.of_nat n) -> rescale (N := RNum) cl t D = (t', Done) -> rescale (N := RNum) cl ((x, v) :: t) D = ((x, times ((D * D) ^ n) v) :: t', Done).
Proof. intros E1 E2. cbn [rescale]. rewrite E1, E2, col_times. reflexivity. Qed.
Lemma times_0 l : times 1 l = l. Proof. apply times_1. Qed.
Lemma raise_nth c ns v j : length v = length ns -> (j < length ns)%nat -> nth j (raise c ns v) 0 = c ^ nth j ns 0%nat * nth j v 0.
Proof.
  unfold raise. revert v j. induction ns as [|n ns IH]; intros [|x v] j L Hj; cbn in *; try lia; try discriminate. destruct j as [|j]; [reflexivity|]. apply IH; lia.
Qed.
Definition full (d : driver) (ks : list R) (vals : Z -> list R) : Prop := forall ik, (0 <= ik < zlen ks)%Z -> length (vals ik) = length (degrees d).
Lemma col_raise d ks vals c j : full d ks vals -> (j < length (degrees d))%nat ->
  map (fun v => nth j v 0) (rows (length ks) (fun ik => raise c (degrees d) (vals ik))) = times (c ^ nth j (degrees d) 0%nat) (map (fun v => nth j v 0) (rows (length ks) vals)).
Proof.
  intros F Hj. unfold rows, times. rewrite !map_map. apply map_ext_in. intros i Hi. apply in_seq in Hi. apply raise_nth; [|exact Hj]. apply F. unfold zlen. lia.
Qed.
Lemma raise_const c n m v : length v = m -> raise c (repeat n m) v = times (c ^ n) v.
Proof. intros <-. unfold raise, times. induction v as [|x v IH]; cbn; [reflexivity|]. rewrite IH. reflexivity. Qed.
Lemma concat_raise d n m ks vals c : degrees d = repeat n m -> full d ks vals ->
  List.concat (rows (length ks) (fun ik => raise c (degrees d) (vals ik))) = times (c ^ n) (List.concat (rows (length ks) vals)).
Proof.
  intros E F. unfold times. rewrite concat_map. unfold rows. rewrite map_map. f_equal. apply map_ext_in. intros i Hi. apply in_seq in Hi. rewrite E. apply raise_const. rewrite F by (unfold zlen; lia). rewrite E. apply repeat_length.
Qed.
Lemma raise_full c d ks vals : full d ks vals -> full d ks (fun ik => raise c (degrees d) (vals ik)).
Proof. intros F ik Hi. unfold raise. rewrite map_length, combine_length, F by exact Hi. lia. Qed.
Lemma rescale_nil cl D : rescale (N := RNum) cl [] D = ([], Done). Proof. reflexivity. Qed.
Lemma rescale_head cl (D : R) ks ps ss t t' : (cl = C1Loop \/ cl = C2Loop \/ cl = CBias \/ cl = CA1 \/ cl = CA2 \/ cl = CB1 \/ cl = CB2) -> rescale (N := RNum) cl t D = (t', Done) ->
  rescale (N := RNum) cl (("k", ks) :: ("pk_lin", ps) :: ("sigmad2", ss) :: t) D = (("k", ks) :: ("pk_lin", times (D * D) ps) :: ("sigmad2", times (D * D) ss) :: t', Done).
Proof.
  intros C H. rewrite <- (times_0 ks) at 2. rewrite <- (pow_1 (D * D)). change 1 with ((D * D) ^ 0) at 1.
  decompose [or] C; subst cl; (do 3 (eapply rescale_cons; [reflexivity|]); exact H).
Qed.
Lemma rescale_one cl (D : R) x (n : nat) v : assoc (scales cl) x = Some (Z.of_nat n) -> rescale (N := RNum) cl [(x, v)] D = ([(x, times ((D * D) ^ n) v)], Done).
Proof. intros E. eapply rescale_cons; [exact E|reflexivity]. Qed.
Lemma rescale_columns d cl (D : R) ks ps ss vals : class_of d cl -> d <> D_bias -> full d ks vals ->
  rescale (N := RNum) cl (columns_of d ks ps ss vals) D = (columns_of d ks (times (D * D) ps) (times (D * D) ss) (fun ik => raise (D * D) (degrees d) (vals ik)), Done).
Proof.
  intros C Hb F. inversion C; subst; try congruence; unfold columns_of; apply rescale_head; auto 10.
  - cbn [names_of length combine seq map fst snd]. rewrite !(fun j => col_raise _ _ _ (D * D) j F) by (cbn; lia). cbn [nth degrees].
    do 3 (apply rescale_cons; [reflexivity|]). reflexivity.
  - cbn [names_of length combine seq map fst snd]. rewrite !(fun j => col_raise _ _ _ (D * D) j F) by (cbn; lia). cbn [nth degrees].
    do 8 (apply rescale_cons; [reflexivity|]). reflexivity.
  - rewrite (concat_raise D_A_1loop 2 5 _ _ (D * D) eq_refl F). apply rescale_one. reflexivity.
  - rewrite (concat_raise D_A_2loop 2 5 _ _ (D * D) eq_refl F). apply rescale_one. reflexivity.
  - rewrite (concat_raise D_B 2 9 _ _ (D * D) eq_refl F). apply rescale_one. reflexivity.
  - rewrite (concat_raise D_B 2 9 _ _ (D * D) eq_refl F). apply rescale_one. reflexivity.
Qed.

(** C47: rescale agrees with a run on the rescaled spectrum *)
Lemma C47_run fuel st suave1 suave12 (D : R) d cl pkl pkl' dt dt' ptt ptt' ks ps ss vals :
  D <> 0 -> class_of d cl -> d <> D_bias -> d <> D_A_2loop -> sizes st (q_tables_of d) ->
  rescaled_pk 1 (D * D) pkl pkl' -> (d = D_B -> rescaled_pk 1 (D * D) dt dt' /\ rescaled_pk 1 (D * D) ptt ptt') ->
  ((exists a b, d = D_2loop a b) -> suave_scales (D * D * (D * D) * (D * D)) suave1) ->
  computes fuel st suave1 suave12 d pkl dt ptt ks ps ss vals ->
  exists ps' ss' vals', computes fuel st suave1 suave12 d pkl' dt' ptt' ks ps' ss' vals' /\
    rescale cl (columns_of d ks ps ss vals) D = (columns_of d ks ps' ss' vals', Done).
Proof.
  intros HD C Hb Ha Hn HP HB Hv E. assert (Hc : 0 < D * D) by nra.
  exists (times (D * D) ps), (times (D * D) ss), (fun ik => raise (D * D) (degrees d) (vals ik)). split.
  - exact (run_c fuel st suave1 suave12 (D * D) pkl pkl' dt dt' ptt ptt' Hc HP d ks ps ss vals Hn Ha HB Hv E).
  - apply rescale_columns; [exact C|exact Hb|]. exact (run_full fuel st suave1 suave12 (D * D) pkl pkl' dt dt' ptt ptt' Hc HP d ks ps ss vals Hn Ha HB Hv E).
Qed.
Lemma C47_bias fuel st suave1 suave12 (D : R) pkl pkl' dt ptt ks ps ss vals :
  D <> 0 -> sizes st (q_tables_of D_bias) -> rescaled_pk 1 (D * D) pkl pkl' ->
  computes fuel st suave1 suave12 D_bias pkl dt ptt ks ps ss vals ->
  exists ps' ss' vals' c' s3, computes fuel st suave1 suave12 D_bias pkl' dt ptt ks ps' ss' vals' /\
    rescale CBias (columns_of D_bias ks ps ss vals) D = (c', Done) /\
    (forall x, x <> "sigma3sq" -> getitem c' x = getitem (columns_of D_bias ks ps' ss' vals') x) /\
    getitem (columns_of D_bias ks ps ss vals) "sigma3sq" = Ok s3 /\
    getitem c' "sigma3sq" = Ok (times (D ^ 4) s3) /\ getitem (columns_of D_bias ks ps' ss' vals') "sigma3sq" = Ok (times (D ^ 2) s3).
Proof.
  intros HD Hn HP E. assert (Hc : 0 < D * D) by nra.
  assert (HB : D_bias = D_B -> rescaled_pk 1 (D * D) dt dt /\ rescaled_pk 1 (D * D) ptt ptt) by discriminate.
  assert (HS : (exists a b, D_bias = D_2loop a b) -> suave_scales (D * D * (D * D) * (D * D)) suave1) by (intros (a & b & Q); discriminate).
  pose proof (run_full fuel st suave1 suave12 (D * D) pkl pkl' dt dt ptt ptt Hc HP D_bias ks ps ss vals Hn ltac:(discriminate) HB HS E) as F.
  exists (times (D * D) ps), (times (D * D) ss), (fun ik => raise (D * D) (degrees D_bias) (vals ik)).
  do 2 eexists. split; [|split; [|split; [|split; [|split]]]].
  - exact (run_c fuel st suave1 suave12 (D * D) pkl pkl' dt dt ptt ptt Hc HP D_bias ks ps ss vals Hn ltac:(discriminate) HB HS E).
  - unfold columns_of. apply rescale_head; [auto 10|]. cbn [names_of length combine seq map fst snd]. do 8 (eapply (rescale_cons CBias _ 2); [reflexivity|]). reflexivity.
  - intros x Hx. unfold columns_of. cbn [names_of length combine seq map fst snd]. rewrite !(fun j => col_raise D_bias ks vals (D * D) j F) by (cbn; lia). cbn [nth degrees].
    unfold getitem. cbn [assoc]. repeat (match goal with |- context [String.eqb ?a ?b] => destruct (String.eqb_spec a b); [solve [reflexivity|congruence]|] end). reflexivity.
  - reflexivity.
  - unfold getitem. cbn [assoc String.eqb Ascii.eqb Bool.eqb]. replace (D ^ 4) with ((D * D) ^ 2) by ring. reflexivity.
  - unfold columns_of. cbn [names_of length combine seq map fst snd]. rewrite !(fun j => col_raise D_bias ks vals (D * D) j F) by (cbn; lia). cbn [nth degrees].
    unfold getitem. cbn [assoc String.eqb Ascii.eqb Bool.eqb]. replace (D ^ 2) with ((D * D) ^ 1) by ring. reflexivity.
Qed.

(** C65: a run in another unit of length *)
Lemma range_pos s (p : precision RNum) pkl : positive_k pkl -> range_ok s p pkl.
Proof.
  intros P a b E. right. unfold q_range in E. rn_in E.
  assert (Q : forall i x, rd (pk_k pkl) i = Ok x -> 0 < x).
  { intros i x H. apply (rd_inv (0 : T RNum)) in H. destruct H as (Hi & ->). unfold positive_k in P. rewrite Forall_forall in P. apply P. exact (znth_In (0 : T RNum) (pk_k pkl) i Hi). }
  match type of E with (if ?c then _ else _) = _ => destruct c eqn:C end.
  - match type of E with bind ?c _ = _ => destruct c as [x|] eqn:E1; cbn [bind] in E; [|discriminate E] end. match type of E with bind ?c _ = _ => destruct c as [y|] eqn:E2; cbn [bind] in E; [|discriminate E] end. injection E as <- <-. split; eapply Q; eassumption.
  - injection E as <- <-. apply orb_false_iff in C. destruct C as [C1 C2]. split; [destruct (Rleb_spec (pr_min p) 0)|destruct (Rleb_spec (pr_max p) 0)]; try discriminate; lra.
Qed.
Section C65.
Variables (fuel : nat) (st st' : settings RNum) (suave1 : (list R -> res R) -> res R) (suave12 : (list R -> res (list R)) -> res (list R)).
Variables (s : R) (pkl pkl' dt dt' ptt ptt' : Pk RNum).
Hypothesis (Hs : 0 < s).
Let u := / (s * s * s).
Let s0 : s <> 0 := Rgt_not_eq s 0 Hs.
Let Hu : 0 < u. Proof. unfold u. apply Rinv_0_lt_compat. repeat apply Rmult_lt_0_compat; assumption. Qed.
Let W : s * s * s * (u * u) = u. Proof. unfold u. field. exact s0. Qed.
Let V : s * s * s * u = 1. Proof. unfold u. field. exact s0. Qed.
Hypotheses (HP : rescaled_pk s u pkl pkl') (HK : positive_k pkl).
Lemma row_u d k v : rescaled_settings s (q_tables_of d) st st' -> sizes st (q_tables_of d) -> d <> D_A_2loop -> (forall a b, d <> D_2loop a b) -> (d = D_B -> rescaled_pk s u dt dt' /\ rescaled_pk s u ptt ptt') ->
  value_of fuel st suave1 suave12 d pkl dt ptt k = Ok v -> value_of fuel st' suave1 suave12 d pkl' dt' ptt' (s * k) = Ok (in_unit s (volumes d) v).
Proof.
  intros HS Hn Hd H2 HB E. rewrite unit_zip.
  pose proof (fun qs HS Hq => value_1loop_s s u Hs Hu fuel st st' qs pkl pkl' HP HS Hq (fun x _ => range_pos s (s_prec st x) pkl HK)) as V1.
  pose proof (fun qs HS Hq => value_bias_s s u Hs Hu fuel st st' qs pkl pkl' HP HS Hq (fun x _ => range_pos s (s_prec st x) pkl HK)) as V3.
  pose proof (fun qs HS Hq => value_A_s s u Hs Hu fuel st st' qs pkl pkl' HP HS Hq (fun x _ => range_pos s (s_prec st x) pkl HK)) as V4.
  pose proof (fun qs HS Hq => value_B_s s u Hs Hu fuel st st' qs pkl pkl' HP HS Hq (fun x _ => range_pos s (s_prec st x) pkl HK)) as V5.
  rewrite V, W in V1. cbn zeta in V3. rewrite V, W in V3. rewrite W in V4, V5.
  destruct d as [a b|a b| | | | ]; cbn [SpecThreads.value_of] in E |- *.
  - eapply tml_ok; [exact (V1 _ HS Hn a b k (incl_refl _))|reflexivity|reflexivity|exact E].
  - exfalso. exact (H2 a b eq_refl).
  - eapply tml_ok; [exact (V3 _ HS Hn k (incl_refl _))|reflexivity|reflexivity|exact E].
  - eapply tml_ok; [exact (V4 _ HS Hn k (incl_refl _))|reflexivity|reflexivity|exact E].
  - contradiction.
  - destruct (HB eq_refl) as (B1 & B2). eapply tml_ok; [exact (V5 _ HS Hn dt dt' ptt ptt' k (incl_refl _) B1 B2)|reflexivity|reflexivity|exact E].
Qed.
Lemma row_2loop a b k v : rescaled_settings s q_tables_2loop st st' -> sizes st q_tables_2loop -> 0 < k ->
  (1 <= pr_n (s_prec st "gamma2_tree_mu") < 2 ^ 62)%Z ->
  value_2loop fuel st pkl a b k = Ok v -> value_2loop fuel st' pkl' a b (s * k) = Ok (in_unit s [false; false; false; false; true; true; true] v).
Proof.
  intros HS Hn Hk Hm E. rewrite unit_zip.
  assert (M : forall m, new_mu fuel st "gamma2_tree_mu" = Ok m -> good_mu s m).
  { intros m Em. right. unfold new_mu in Em. assert (Hm2 : (0 <= pr_n (s_prec st "gamma2_tree_mu") < 2 ^ 62)%Z) by lia. destruct (init_mu_inv fuel (s_prec st "gamma2_tree_mu") m Hm2 Em) as (_ & B1 & B2 & B3 & B4 & B5). split.
    - unfold mu_ok. rewrite B2, B3, B1. repeat split; try lia; assumption.
    - intros i Hi. apply (init_mu_R fuel (s_prec st "gamma2_tree_mu") m Hm Em). rewrite <- B1. exact Hi. }
  pose proof (value_2loop_s s u Hs Hu fuel st st' q_tables_2loop pkl pkl' HP HS Hn (fun x _ => range_pos s (s_prec st x) pkl HK) a b k (incl_refl _) (or_intror Hk) M) as V2.
  cbv zeta delta [fs3] in V2. cbn [map] in V2. rewrite V in V2.
  eapply tml_ok; [exact V2|reflexivity| |exact E]. cbn. fold u. rewrite !Rmult_1_r, W. reflexivity.
Qed.
Lemma run_u d ks ps ss vals : rescaled_settings s (q_tables_of d) st st' -> sizes st (q_tables_of d) -> d <> D_A_2loop -> (forall a b, d <> D_2loop a b) -> (d = D_B -> rescaled_pk s u dt dt' /\ rescaled_pk s u ptt ptt') ->
  computes fuel st suave1 suave12 d pkl dt ptt ks ps ss vals ->
  computes fuel st' suave1 suave12 d pkl' dt' ptt' (times s ks) (times u ps) (times (/ (s * s)) ss) (fun ik => in_unit s (volumes d) (vals ik)).
Proof.
  intros HS Hn Hd H2 HB (E1 & E2 & E3). destruct HS as (HS1 & HS2 & HS3 & HS4). split; [|split].
  - rewrite HS3. pose proof (find_pk_s s u Hs Hu pkl pkl' ks (times s ks) (s_interpol st (interpol_of d)) HP eq_refl) as H. rewrite E1 in H. match goal with |- ?x = _ => destruct x as [y|]; [|contradiction] end. cbn in H. rewrite H. reflexivity.
  - rewrite HS4. pose proof (sigmad2_s s u Hs pkl pkl' ks (times s ks) (s_cutoff st (cutoff_of d)) HP eq_refl) as H. rewrite E2 in H. match goal with |- ?x = _ => destruct x as [y|]; [|contradiction] end. cbn in H. rewrite H.
    replace (s * u) with (/ (s * s)) by (unfold u; field; exact s0). reflexivity.
  - intros ik Hi. assert (L : (0 <= ik < zlen ks)%Z) by (unfold zlen, times in *; rewrite map_length in Hi; exact Hi).
    assert (Q : k_ (N := RNum) (times s ks) ik = s * k_ ks ik).
    { unfold k_, times. transitivity (nth (Z.to_nat ik) (map (fun x => s * x) ks) (s * 0)); [rn; rewrite Rmult_0_r; reflexivity|]. apply (map_nth (fun x => s * x)). }
    rewrite Q. apply row_u; auto. repeat split; auto; first [apply HS1|apply HS2]; auto.
Qed.
End C65.
