(** ProofProcess13: B2Loop.run_terms. *)
From Coq Require Import ZArith List String Bool Lia PeanoNat.
From Verif Require Import Base Num Common Kernels Integrals Registry PyTerms Threads SpecThreads Process SpecProcess ProofThreads2 ProofThreads3 ProofScratch3 ProofPy ProofProcess ProofProcess2 ProofProcess3 ProofProcess4 ProofProcess5 ProofProcess6 ProofProcess7 ProofProcess8 ProofProcess9 ProofProcess10 ProofProcess11 ProofProcess12.
Import ListNotations.
Local Open Scope string_scope.
Local Open Scope nat_scope.

Section FillB2.
Context {N : Num}.
Notation T := (T N).
Notation state := (state N).
Implicit Types (s : state) (o l : nat).
Variables (fuel : nat) (suave1 : (list T -> res T) -> res T) (suave12 : (list T -> res (list T)) -> res (list T)).

Record attaches (f : nat -> object -> object) : Prop := {
  at_class : forall x ob, o_class (f x ob) = o_class ob;
  at_dict : forall x ob, o_dict (f x ob) = o_dict ob;
  at_lin : forall x ob, o_lin (f x ob) = o_lin ob;
  at_new : forall x ob, o_dt (f x ob) = Some x \/ o_tt (f x ob) = Some x;
  at_old : forall x ob y, o_dt (f x ob) = Some y \/ o_tt (f x ob) = Some y -> y = x \/ o_dt ob = Some y \/ o_tt ob = Some y }.
(** Old arrays and columns are as before, but for the attributes of [o] *)
Record grown s s' o : Prop := {
  gr_wf : wf s';
  gr_blocks : forall b, b < List.length (blocks s) -> nth_error (blocks s') b = nth_error (blocks s) b;
  gr_len : List.length (blocks s) <= List.length (blocks s');
  gr_dict : forall x, x < List.length (objects s) -> dict_of s' x = dict_of s x;
  gr_obj : forall x, x < List.length (objects s) -> x <> o -> nth_error (objects s') x = nth_error (objects s) x;
  gr_objects : List.length (objects s) <= List.length (objects s');
  gr_class : class_of s' o = class_of s o;
  gr_lin_of : lin_of s' o = lin_of s o;
  gr_vars : vars s' = vars s;
  gr_terms : forall sl, sl <> S_1loop -> g_terms s' sl = g_terms s sl;
  gr_lin : g_lin s' = g_lin s;
  gr_conf : g_conf s' = g_conf s }.
Lemma grown_trans a b c o : o < List.length (objects a) -> grown a b o -> grown b c o -> grown a c o.
Proof.
  intros Lo [] []. constructor; auto; try congruence; try lia.
  - intros x Hx. rewrite gr_blocks1, gr_blocks0 by lia. reflexivity.
  - intros x Hx. rewrite gr_dict1, gr_dict0 by lia. reflexivity.
  - intros x Hx Ne. rewrite gr_obj1, gr_obj0 by lia. reflexivity.
  - intros sl Ne. rewrite gr_terms1, gr_terms0 by exact Ne. reflexivity.
Qed.
Lemma grown_column s s' o x y : wf s -> grown s s' o -> x < List.length (objects s) -> column_of s' x y = column_of s x y.
Proof.
  intros W G Hx. unfold column_of. rewrite (gr_dict _ _ _ G x Hx). destruct (assoc (dict_of s x) y) as [a|] eqn:E; [|reflexivity]. cbn. unfold elements, contents. rewrite (gr_blocks _ _ _ G); [reflexivity|]. eapply dict_block; [exact W|apply assoc_In, E].
Qed.
Lemma grown_hand s s' o l : wf s -> grown s s' o -> at_hand s l -> at_hand s' l.
Proof.
  intros W G [H|(x & Hx & E)]; [left|right; exists x]; rewrite (gr_vars _ _ _ G); auto. split; [exact Hx|]. destruct (Nat.eq_dec x o) as [->|Ne]; [rewrite (gr_lin_of _ _ _ G); exact E|].
  unfold lin_of in *. rewrite (gr_obj _ _ _ G); auto. apply (wf_vars _ W _ Hx).
Qed.
Lemma grown_bound s s' o c sl l K P ks : wf s -> grown s s' o -> sl <> S_1loop -> o < List.length (objects s) -> l < List.length (objects s) -> bound_to s o c sl l K P ks -> bound_to s' o c sl l K P ks.
Proof.
  intros W G Ns Lo Ll B. apply (bound_keep s); auto.
  - intros x a [H|H]; apply (gr_blocks _ _ _ G); eapply dict_block; eauto.
  - apply (gr_dict _ _ _ G), Lo.
  - apply (gr_dict _ _ _ G), Ll.
  - apply (gr_class _ _ _ G).
  - apply (gr_terms _ _ _ G), Ns.
  - apply (gr_lin _ _ _ G).
  - eapply grown_hand; eauto. apply (i_hand _ _ _ _ (b_lin _ _ _ _ _ _ _ _ B)).
Qed.
Lemma hand_lt s l : wf s -> at_hand s l -> l < List.length (objects s).
Proof. intros W [H|(x & Hx & E)]; [apply (wf_vars _ W _ H)|]. unfold lin_of in E. destruct (nth_error (objects s) x) as [ox|] eqn:Ex; [|discriminate]. eapply (wf_link _ W); eauto. Qed.

Lemma grown_lin s s' o l K P : wf s -> grown s s' o -> lin_is s l K P -> lin_is s' l K P.
Proof.
  intros W G L0. pose proof (hand_lt _ _ W (i_hand _ _ _ _ L0)) as Ll. pose proof (gr_dict _ _ _ G l Ll) as D. destruct L0.
  assert (Fa : forall x a p, assoc (dict_of s l) x = Some a -> faces s a p -> faces s' a p).
  { intros x a p Ha. unfold faces. rewrite (gr_blocks _ _ _ G); auto. eapply dict_block; [exact W|apply assoc_In, Ha]. }
  constructor; rewrite ?(grown_column s s' o), ?(gr_lin _ _ _ G), ?D by assumption; auto.
  - eapply grown_hand; eauto.
  - intros a Ha. destruct (i_kptr a Ha). eauto.
  - intros a Ha. destruct (i_pptr a Ha). eauto.
Qed.
(** ** A sub-object *)
Lemma sub_ok s o ob l K P f a b ps ss vals : attaches f -> wf s -> In o (vars s) -> nth_error (objects s) o = Some ob -> lin_is s l K P -> K <> [] -> (zlen K < SIZE_T)%Z ->
  computes fuel (g_conf s) suave1 suave12 (D_1loop (set_flag a) (set_flag b)) (mk_table K P) (mk_table K P) (mk_table K P) K ps ss vals ->
  let x := List.length (objects s) in
  exists s', py_sub_1loop fuel suave1 suave12 l (fun x => set_obj o (f x)) a b s = Fine s' x /\ grown s s' o /\ lin_is s' l K P /\ nth_error (objects s') o = Some (f x ob) /\ terms_are s' x C1Loop S_1loop K /\
    filled s' x (D_1loop (set_flag a) (set_flag b)) K ps ss vals /\ temps s' = temps s /\ List.length (objects s') = S x /\ g_verbose s' = INFO.
Proof.
  intros At W Ho Eo L0 Nk Sz Cm x. pose proof (nth_error_lt _ _ _ Eo) as Lo. pose proof (i_hand _ _ _ _ L0) as Hh. pose proof (hand_lt _ _ W Hh) as Ll.
  set (ox := mkObj C1Loop (List.length (dicts s)) None None None (Some "info")).
  set (s1 := with_verbose (with_objects (with_dicts s (dicts s ++ [[]])) (objects s ++ [ox])) INFO).
  assert (E1 : @new_object N C1Loop [] s = Fine s1 x) by reflexivity.
  assert (W1 : wf s1) by (eapply wp0; [|exact E1]; apply wp_new_object; [apply inv0, W|intros ? ? []|constructor|intros _ []]).
  assert (Eo1 : nth_error (objects s1) o = Some ob) by (apply nth_error_old, Eo).
  set (s2 := with_attr s1 o (f x ob)).
  assert (E2 : set_obj o (f x) s1 = Fine s2 tt) by (unfold set_obj, modify; rewrite Eo1; reflexivity).
  assert (W2 : wf s2).
  { eapply wp0; [|exact E2]. apply wp_set_obj; [apply inv0, W1|intros []|intros; rewrite (at_class _ At), (at_dict _ At); auto|].
    intros ob' y E' H. rewrite E' in Eo1. injection Eo1 as ->. rewrite (at_lin _ At) in H. assert (Lx : x < List.length (objects s1)) by (cbn; rewrite app_length; cbn; unfold x; lia).
    destruct H as [H|H]; [eapply (wf_link _ W1); eauto|]. destruct (at_old _ At _ _ _ H) as [->|H']; [exact Lx|eapply (wf_link _ W1); eauto]. }
  assert (D1 : forall y, y < x -> dict_of s1 y = dict_of s y).
  { intros y Hy. unfold dict_of. cbn. rewrite nth_error_snoc, (proj2 (Nat.eqb_neq _ _)) by (fold x; lia). destruct (nth_error (objects s) y) as [oy|] eqn:Ey; [|reflexivity]. rewrite app_nth1; [reflexivity|]. apply (wf_dict _ W _ _ Ey). }
  assert (D2 : forall y, dict_of s2 y = dict_of s1 y) by (intros y; apply (attr_dict _ _ ob); auto using at_dict; apply (at_dict _ At)).
  assert (Eo2 : nth_error (objects s2) o = Some (f x ob)) by (cbn [objects s2 with_attr with_objects]; rewrite nth_error_upd, Nat.eqb_refl, Eo1; reflexivity).
  assert (Nox : o <> x) by (unfold x; lia).
  assert (Ex2 : nth_error (objects s2) x = Some ox) by (cbn [objects s2 with_attr with_objects]; rewrite nth_error_upd, (proj2 (Nat.eqb_neq o x) Nox); cbn; rewrite nth_error_snoc; unfold x; rewrite Nat.eqb_refl; reflexivity).
  assert (Ey2 : forall y, y < x -> y <> o -> nth_error (objects s2) y = nth_error (objects s) y).
  { intros y Hy Ne. cbn [objects s2 with_attr with_objects]. rewrite nth_error_upd, (proj2 (Nat.eqb_neq o y)) by congruence. cbn. rewrite nth_error_snoc, (proj2 (Nat.eqb_neq y _)) by (fold x; lia). reflexivity. }
  assert (Len2 : List.length (objects s2) = S x) by (cbn; rewrite upd_length, app_length; cbn; unfold x; lia).
  assert (Rx2 : In x (reachable s2)).
  { apply (reach_link s2 o); [lia|exact Ho|]. unfold links. rewrite Eo2. rewrite !in_app_iff. right. destruct (at_new _ At x ob) as [->| ->]; cbn; auto. }
  assert (G2 : grown s s2 o).
  { constructor; auto; try reflexivity.
    - intros y Hy. rewrite D2. apply D1, Hy.
    - rewrite Len2. unfold x. lia.
    - unfold class_of. rewrite Eo2, Eo. cbn. rewrite (at_class _ At). reflexivity.
    - unfold lin_of. rewrite Eo2, Eo. apply (at_lin _ At). }
  assert (L2 : lin_is s2 l K P) by (exact (grown_lin s s2 o l K P W G2 L0)).
  assert (Lk : exists lk, assoc (dict_of s2 l) "k" = Some lk) by (pose proof (i_k _ _ _ _ L2) as X; unfold column_of in X; destruct (assoc (dict_of s2 l) "k"); [eauto|discriminate]). destruct Lk as (lk & Elk).
  assert (Ek : np_get lk s2 = Fine s2 K).
  { pose proof (i_k _ _ _ _ L2) as X. rewrite (column_faces _ _ _ _ Elk) in X. injection X as <-. apply assoc_In in Elk. apply np_get_ok; [exact (sound_dict s2 l "k" lk W2 Elk)|apply (alive_dict s2 l "k" lk W2); [|exact Elk]]. apply reach_hand; [exact W2|apply (i_hand _ _ _ _ L2)]. }
  destruct (set_terms_ok s2 x ox S_1loop K W2 Rx2 Ex2 eq_refl) as (s3 & E3 & T3 & C3 & N3 & B3 & Q3 & G3 & O3 & Dl3 & V3 & Tm3 & Li3 & Cf3 & Vb3); [split; [exact Sz|auto]|]. cbn [o_class ox] in *.
  assert (W3 : wf s3) by (eapply wp0; [|exact E3]; apply wp_set_terms_py; [apply inv0, W2|unfold exists_obj; lia|apply free0|intros ? ? []]).
  assert (Q3' : forall y, y < x -> dict_of s3 y = dict_of s2 y).
  { intros y Hy. assert (Oy : exists oy, nth_error (objects s2) y = Some oy) by (destruct (nth_error (objects s2) y) eqn:X; [eauto|apply nth_error_None in X; lia]). destruct Oy as (oy & Ey). apply (Q3 y oy Ey). cbn.
    destruct (Nat.eq_dec y o) as [->|Ne].
    - rewrite Eo2 in Ey. injection Ey as <-. rewrite (at_dict _ At). pose proof (wf_dict _ W _ _ Eo). lia.
    - rewrite (Ey2 y Hy Ne) in Ey. pose proof (wf_dict _ W _ _ Ey). lia. }
  assert (Lb3 : List.length (blocks s2) <= List.length (blocks s3)).
  { destruct (Nat.le_gt_cases (List.length (blocks s2)) (List.length (blocks s3))) as [|H]; [assumption|]. exfalso. pose proof (B3 (List.length (blocks s3)) H) as X. rewrite (proj2 (nth_error_None _ _) (le_n _)) in X. symmetry in X. apply nth_error_None in X. lia. }
  assert (G3g : grown s s3 o).
  { constructor; auto.
    - intros y Hy. rewrite Q3' by exact Hy. apply (gr_dict _ _ _ G2), Hy.
    - intros y Hy Ne. rewrite O3. apply Ey2; assumption.
    - rewrite O3. lia.
    - unfold class_of. rewrite O3. apply (gr_class _ _ _ G2).
    - unfold lin_of. rewrite O3. apply (gr_lin_of _ _ _ G2). }
  assert (L3 : lin_is s3 l K P) by (eapply grown_lin; [exact W|exact G3g|exact L0]).
  assert (Ap3 : apart s3 x C1Loop l).
  { intros y z a0 b0 Hy _ Ea Eb _. specialize (N3 y a0 Hy Ea). rewrite (gr_dict _ _ _ G3g l Ll) in Eb. apply assoc_In in Eb. pose proof (dict_block _ _ _ _ W Eb) as X. change (blocks s2) with (blocks s) in N3. lia. }
  assert (Rx3 : In x (reachable s3)) by (rewrite (reachable_ext s2 s3); assumption).
  assert (Ex3 : nth_error (objects s3) x = Some ox) by (rewrite O3; exact Ex2).
  assert (Cm3 : computes fuel (g_conf s3) suave1 suave12 (D_1loop (set_flag a) (set_flag b)) (mk_table K P) (mk_table K P) (mk_table K P) K ps ss vals) by (rewrite (gr_conf _ _ _ G3g); exact Cm).
  destruct (run_ok fuel suave1 suave12 s3 x ox C1Loop S_1loop l K P K a b _ ps ss vals W3 Rx3 Ex3 eq_refl (Build_bound_to _ _ _ _ _ _ _ _ T3 L3 Ap3) Nk eq_refl ltac:(discriminate) Cm3)
    as (s4 & E4 & B4 & F4 & O4 & V4 & Tm4 & Lb4 & Bl4 & D4 & Dl4 & G4 & Li4 & Cf4 & Vb4).
  assert (E4' : c_run_terms fuel suave1 suave12 (D_1loop (set_flag a) (set_flag b)) s3 = Fine s4 tt) by exact E4.
  assert (W4 : wf s4) by (eapply wp0; [|exact E4']; apply wp_run_terms; [apply inv0, W3|exact I]).
  exists s4. split.
  { unfold py_sub_1loop. rewrite (bind_Fine _ _ _ _ _ E1). rewrite (bind_Fine _ _ _ _ _ E2). rewrite (bind_Fine _ _ _ _ _ (getitem_ok _ _ _ _ Elk)). rewrite (bind_Fine _ _ _ _ _ Ek). rewrite (bind_Fine _ _ _ _ _ E3). rewrite (bind_Fine _ _ _ _ _ E4'). reflexivity. }
  split; [|split; [apply (b_lin _ _ _ _ _ _ _ _ B4)|split; [rewrite O4, O3; exact Eo2|split; [apply (b_terms _ _ _ _ _ _ _ _ B4)|split; [exact F4|split; [rewrite Tm4, Tm3; reflexivity|split; [rewrite O4, O3; exact Len2|rewrite Vb4, Vb3; reflexivity]]]]]]].
  constructor; auto.
  - intros b0 Hb. rewrite Bl4; [apply (gr_blocks _ _ _ G3g), Hb|]. intros Hout. destruct (output_array _ _ _ _ _ _ T3 Hout) as (y & a0 & Hy & _ & Ea & <-). specialize (N3 y a0 Hy Ea). change (blocks s2) with (blocks s) in N3. lia.
  - rewrite Lb4. exact Lb3.
  - intros y Hy. assert (Oy : exists oy, nth_error (objects s3) y = Some oy) by (destruct (nth_error (objects s3) y) eqn:X; [eauto|apply nth_error_None in X; rewrite O3 in X; lia]). destruct Oy as (oy & Ey).
    rewrite (D4 y oy Ey) by (right; discriminate). apply (gr_dict _ _ _ G3g), Hy.
  - intros y Hy Ne. rewrite O4. apply (gr_obj _ _ _ G3g); assumption.
  - rewrite O4. apply (gr_objects _ _ _ G3g).
  - unfold class_of. rewrite O4. apply (gr_class _ _ _ G3g).
  - unfold lin_of. rewrite O4. apply (gr_lin_of _ _ _ G3g).
  - rewrite V4. apply (gr_vars _ _ _ G3g).
  - intros sl Ns. rewrite G4. apply (gr_terms _ _ _ G3g), Ns.
  - rewrite Li4. apply (gr_lin _ _ _ G3g).
  - rewrite Cf4. apply (gr_conf _ _ _ G3g).
Qed.
End FillB2.
