(** ProofProcess22: objects of one class share what the library works on; verbosity. *)
From Coq Require Import ZArith List String Bool Lia PeanoNat.
From Verif Require Import Base Num Common Kernels Integrals Registry PyTerms Threads SpecThreads Process SpecProcess ProofThreads2 ProofThreads3 ProofScratch3 ProofPy ProofProcess ProofProcess2 ProofProcess3 ProofProcess4 ProofProcess5 ProofProcess6 ProofProcess7 ProofProcess8 ProofProcess9 ProofProcess10 ProofProcess11 ProofProcess12 ProofProcess13 ProofProcess14 ProofProcess15 ProofProcess16 ProofProcess17 ProofProcess18.
Import ListNotations.
Local Open Scope string_scope.
Local Open Scope nat_scope.

Section Shared.
Context {N : Num}.
Notation T := (T N).
Notation state := (state N).
Implicit Types (s : state) (o l : nat).
Variables (fuel : nat) (suave1 : (list T -> res T) -> res T) (suave12 : (list T -> res (list T)) -> res (list T)).
Notation step := (step fuel suave1 suave12).
Notation execute := (execute fuel suave1 suave12).

(** ** Two objects of one class *)
Definition self_free (c : pyclass) : bool := match c with C1Loop | C2Loop | CBias | CA2 => true | _ => false end.
Lemma run_same s o x c a b : self_free c = true -> In o (vars s) -> In x (vars s) -> class_of s o = Some c -> class_of s x = Some c -> step (Run_terms x a b) s = step (Run_terms o a b) s.
Proof.
  intros Sf Ho Hx Co Cx. destruct (class_obj _ _ _ Co) as (ob & Eo & Ko). destruct (class_obj _ _ _ Cx) as (ox & Ex & Kx). unfold Process.step. cbn [statement]. f_equal.
  assert (Ct : has_ctype c = true) by (destruct c; try discriminate; reflexivity).
  unfold nothing, mbind at 1 3. rewrite (bind_Fine _ _ _ _ _ (regpt_ok s o ob (reach_var _ _ Ho) Eo ltac:(rewrite Ko; exact Ct))). rewrite (bind_Fine _ _ _ _ _ (regpt_ok s x ox (reach_var _ _ Hx) Ex ltac:(rewrite Kx; exact Ct))).
  unfold py_run_terms. rewrite Ko, Kx. destruct c; try discriminate Sf; reflexivity.
Qed.
Lemma run_other s o x c K P ks a b d ps ss vals : wf s -> set_up s o K P ks -> In x (vars s) -> class_of s o = Some c -> class_of s x = Some c -> self_free c = true ->
  (forall y r, In (y, r) (dict_of s x) -> ~ used_by s [o] (a_buf r)) ->
  driver_of c (set_flag a) (set_flag b) = Some d -> ks <> [] -> computes fuel (g_conf s) suave1 suave12 d (mk_table K P) (mk_table K P) (mk_table K P) ks ps ss vals ->
  exists s', step (Run_terms x a b) s = Fine s' [] /\ filled s' o d ks ps ss vals /\ forall y, column_of s' x y = column_of s x y.
Proof.
  intros W Su Hx Co Cx Sf Ap D Nk Cm. pose proof Su as ((Ho & _) & _). rewrite (run_same s o x c a b Sf Ho Hx Co Cx).
  destruct (bound_of s o K P ks Su) as (c' & sl & l & C' & El & B). rewrite Co in C'. injection C' as <-. destruct (class_obj _ _ _ Co) as (ob & Eo & Ko). destruct (class_obj _ _ _ Cx) as (ox & Ex & Kx).
  pose proof (t_slot _ _ _ _ _ (b_terms _ _ _ _ _ _ _ _ B)) as Sl.
  assert (Nd : d <> D_B) by (destruct c; try discriminate Sf; injection D as <-; discriminate).
  destruct (run_ok fuel suave1 suave12 s o ob c sl l K P ks a b d ps ss vals W (reach_var _ _ Ho) Eo Ko B Nk D Nd Cm) as (s' & E' & B' & F' & O' & V' & _ & _ & Bl & Dd & _ & _ & _ & Cf' & _).
  exists (with_temps s' []). split.
  { apply step_Fine. cbn [statement]. apply nothing_ok. rewrite (bind_Fine _ _ _ _ _ (regpt_ok s o ob (reach_var _ _ Ho) Eo ltac:(rewrite Ko; eapply slot_ctype, Sl))). exact E'. }
  split; [apply (filled_ext s'); [reflexivity|exact F']|]. intros y. change (column_of s' x y = column_of s x y). unfold column_of. rewrite (Dd x ox Ex) by (right; intros ->; discriminate Sf).
  destruct (assoc (dict_of s x) y) as [r|] eqn:Er; [|reflexivity]. cbn. f_equal. unfold elements, contents. rewrite Bl; [reflexivity|]. intros Ou. destruct (output_array _ _ _ _ _ _ (b_terms _ _ _ _ _ _ _ _ B) Ou) as (z & r' & _ & _ & Ez & Bz).
  apply (Ap y r (assoc_In _ _ _ Er)). exists o, z, r'. split; [left; reflexivity|]. split; [apply assoc_In, Ez|exact Bz].
Qed.
(** ** The last linear spectrum wins *)
Lemma last_wins s o x c cx K P ks a b d ps ss vals : wf s -> has_terms s o ks -> class_of s o = Some c -> In x (vars s) -> class_of s x = Some cx -> has_ctype cx = true -> List.length P = List.length K -> printable s K ->
  driver_of c (set_flag a) (set_flag b) = Some d -> d <> D_B -> ks <> [] -> computes fuel (g_conf s) suave1 suave12 d (mk_table K P) (mk_table K P) (mk_table K P) ks ps ss vals ->
  exists s1 s2, step (Set_pk_lin x K P) s = Fine s1 [] /\ step (Run_terms o a b) s1 = Fine s2 [] /\ filled s2 o d ks ps ss vals.
Proof.
  intros W (Ho & c' & sl & T0) Co Hx Cx Ct Ln Pr D Nd Nk Cm. assert (c' = c) as -> by (pose proof (t_class _ _ _ _ _ T0); congruence).
  destruct (class_obj _ _ _ Cx) as (ox & Ex & Kx). destruct (class_obj _ _ _ Co) as (ob & Eo & Ko). pose proof (nth_error_lt _ _ _ Eo) as Lo.
  destruct (set_pk_lin_ok s x ox K P W Hx Ex Ln Pr) as (s1 & l & E1 & L1 & Lo1 & Hl & Bl1 & D1 & Nw & G1 & V1 & Cf1 & Vb1 & Cl1).
  assert (St : step (Set_pk_lin x K P) s = Fine (with_temps s1 []) []).
  { apply step_Fine. cbn [statement]. apply nothing_ok. rewrite (bind_Fine _ _ _ _ _ (regpt_ok s x ox (reach_var _ _ Hx) Ex ltac:(rewrite Kx; exact Ct))). exact E1. }
  assert (W1 : wf (with_temps s1 [])) by (pose proof (step_wf fuel suave1 suave12 s (Set_pk_lin x K P) W) as X; rewrite St in X; apply X).
  assert (T1 : terms_are (with_temps s1 []) o c sl ks).
  { apply terms_temps. destruct T0. constructor; auto.
    - rewrite Cl1; assumption.
    - rewrite G1. assumption.
    - intros y Hy. destruct (t_col y Hy) as (r & Ea & Fa & La). exists r. rewrite (D1 o Lo), G1. split; [exact Ea|]. split; [|exact La]. unfold faces in *. rewrite Bl1; [exact Fa|]. eapply dict_block; [exact W|apply assoc_In, Ea].
    - unfold column_of. rewrite (D1 o Lo). rewrite <- t_k. unfold column_of. destruct (assoc (dict_of s o) "k") as [r|] eqn:Ea; [|reflexivity]. cbn. unfold elements, contents. rewrite Bl1; [reflexivity|]. eapply dict_block; [exact W|apply assoc_In, Ea].
    - rewrite (D1 o Lo). assumption.
    - rewrite (D1 o Lo). assumption. }
  assert (Ap : apart (with_temps s1 []) o c l).
  { intros y z r r' Hy Ny Er Er' _. change (assoc (dict_of s1 o) y = Some r) in Er. change (assoc (dict_of s1 l) z = Some r') in Er'. rewrite (D1 o Lo) in Er. apply assoc_In in Er. apply assoc_In in Er'. pose proof (dict_block _ _ _ _ W Er). specialize (Nw _ _ Er'). lia. }
  assert (C1 : class_of (with_temps s1 []) o = Some c) by (change (class_of s1 o = Some c); rewrite Cl1; assumption). destruct (class_obj _ _ _ C1) as (ob1 & Eo1 & Ko1).
  assert (Ho1 : In o (vars (with_temps s1 []))) by (cbn; rewrite V1; exact Ho).
  assert (B : bound_to (with_temps s1 []) o c sl l K P ks) by (constructor; [exact T1|apply lin_temps, L1|exact Ap]).
  assert (Cm1 : computes fuel (g_conf (with_temps s1 [])) suave1 suave12 d (mk_table K P) (mk_table K P) (mk_table K P) ks ps ss vals) by (cbn; rewrite Cf1; exact Cm).
  destruct (run_ok fuel suave1 suave12 (with_temps s1 []) o ob1 c sl l K P ks a b d ps ss vals W1 (reach_var _ _ Ho1) Eo1 Ko1 B Nk D Nd Cm1) as (s' & E' & B' & F' & _).
  exists (with_temps s1 []), (with_temps s' []). split; [exact St|]. split; [|apply (filled_ext s'); [reflexivity|exact F']].
  apply step_Fine. cbn [statement]. apply nothing_ok. rewrite (bind_Fine _ _ _ _ _ (regpt_ok _ o ob1 (reach_var _ _ Ho1) Eo1 ltac:(rewrite Ko1; eapply slot_ctype, (t_slot _ _ _ _ _ T1)))). exact E'.
Qed.
(** ** Verbosity *)
Definition Fv : frame := mkFrame (fun _ => False) (fun _ => False) (fun _ => False) (fun _ => True) False (fun _ => False) (fun _ => False) False True.
Lemma inv_v s : wf s -> inv Fv s.
Proof. intros W. constructor; cbn; auto; tauto. Qed.
Lemma free_v s o : free_dict Fv s o.
Proof. intros ob E H. exact H. Qed.
Lemma verb_frame s p : wf s -> allowed Fv s p -> after (step p s) (fun s' => g_verbose s' = g_verbose s).
Proof.
  intros W A. pose proof (step_frame fuel suave1 suave12 Fv s p (inv_v s W) ltac:(intros x []) A) as X. revert X. unfold Process.step. destruct (statement _ _ _ p s); cbn; auto; intros (_ & K); apply (kp_verb _ _ _ K I).
Qed.
Lemma wf_verbose s v : wf s -> wf (with_verbose s v).
Proof. intros []. constructor; auto. Qed.
Lemma obj_verbose s o v ob : @obj N o s = Fine s ob -> @obj N o (with_verbose s v) = Fine (with_verbose s v) ob.
Proof. unfold obj. rewrite (reachable_ext s (with_verbose s v)) by reflexivity. cbn [objects with_verbose]. destruct (mem o (reachable s)); [|discriminate]. destruct (nth_error (objects s) o); [|discriminate]. intros [= ->]. reflexivity. Qed.
Lemma obj_cases s o : (exists ob, @obj N o s = Fine s ob /\ nth_error (objects s) o = Some ob) \/ @obj N o s = Beyond.
Proof. unfold obj. destruct (mem o (reachable s)); [|auto]. destruct (nth_error (objects s) o) eqn:E; eauto. Qed.
Lemma new_verbose s v c d : has_ctype c = true -> @new_object N c d (with_verbose s v) = @new_object N c d s.
Proof. intros H. unfold new_object. rewrite H. reflexivity. Qed.
Lemma deep_verbose depth s o v ob : nth_error (objects s) o = Some ob -> has_ctype (o_class ob) = true -> py_deepcopy depth o (with_verbose s v) = py_deepcopy depth o s.
Proof.
  intros E H.
  assert (X : forall A (f : nat -> M N A), mbind (new_object (o_class ob) []) f (with_verbose s v) = mbind (new_object (o_class ob) []) f s) by (intros; unfold mbind; rewrite new_verbose by exact H; reflexivity).
  assert (Y : forall u : state, nth_error (objects u) o = Some ob -> (fun s => match nth_error (objects s) o with Some ob => Fine s ob | None => Beyond end) u = Fine u ob) by (intros u ->; reflexivity).
  destruct depth; cbn [py_deepcopy]; rewrite (bind_Fine _ _ _ _ _ (Y s E)); rewrite (bind_Fine _ _ _ _ _ (Y (with_verbose s v) E)); apply X.
Qed.
Lemma deep_plain depth s o ob : nth_error (objects s) o = Some ob -> has_ctype (o_class ob) = false -> wf s -> wp Fv s (py_deepcopy depth o) (fun n _ => True).
Proof.
  intros E H W. pose proof (inv_v s W) as I0.
  destruct depth; cbn [py_deepcopy].
  all: eapply wp_bind with (P := fun ob' s' => s' = s /\ ob' = ob); [unfold ProofProcess.wp; rewrite E; auto using keep_refl|]; intros ? s1 _ _ (-> & ->).
  all: eapply wp_bind; [apply wp_new_object; [exact I0|intros x a []|constructor|rewrite H; discriminate]|]; intros n s1 I1 K1 (En & F1 & L1 & D1 & C1 & B1 & T1 & G1 & _).
  all: eapply wp_bind; [apply wp_get with (Q := fun a s' => s' = s1 /\ a = s1); auto|]; intros ? ? _ _ (-> & ->).
  all: eapply wp_bind with (P := fun _ s' => exists_obj s' n /\ True);
    [apply (wp_do_all_with Fv (fun s' => exists_obj s' n /\ True)); auto; intros s2 xa I2 (L2 & _) _; eapply wp_bind; [apply wp_pure; [exact I2|apply pure_np_get]|]; intros v s3 _ _ (-> & _);
     eapply wp_bind; [apply wp_np_new, I2|]; intros a s3 I3 K3 (_ & _ & _ & Sa);
     (eapply wp_weaken; [apply wp_setitem; [exact I3|apply free_v|exact Sa]|]); intros _ s6 I6 K6 _; (split; [eapply exists_keep; [exact K6|]; eapply exists_keep; eauto|auto])|].
  all: intros [] s2 I2 K2 _; rewrite H; apply wp_ret; auto.
Qed.
Definition verb_ok s p : Prop := match step p s with Fine s' _ => g_verbose s' = verbosity_after s p | Throws _ s' => g_verbose s' = g_verbose s \/ g_verbose s' = verbosity_after s p | _ => True end.
Lemma verb_same s p : wf s -> allowed Fv s p -> verbosity_after s p = g_verbose s -> verb_ok s p.
Proof. intros W A Ev. unfold verb_ok. rewrite Ev. pose proof (verb_frame s p W A) as X. destruct (step p s); cbn in X; auto. Qed.
Lemma verb_info s p : wf s -> step p s = step p (with_verbose s INFO) -> allowed Fv (with_verbose s INFO) p -> verbosity_after s p = INFO -> verb_ok s p.
Proof. intros W E A Ev. unfold verb_ok. rewrite E, Ev. pose proof (verb_frame (with_verbose s INFO) p (wf_verbose _ _ W) A) as X. destruct (step p (with_verbose s INFO)); cbn in X; auto. Qed.
Lemma info_v s : info_kept Fv (with_verbose s INFO).
Proof. intros _. reflexivity. Qed.
Lemma step_obj s (f : object -> M N unit) o : (forall ob, nth_error (objects s) o = Some ob -> f ob (with_verbose s INFO) = f ob s) -> nothing (mbind (obj o) f) (with_verbose s INFO) = nothing (mbind (obj o) f) s \/ nothing (mbind (obj o) f) s = Beyond.
Proof.
  intros H. destruct (obj_cases s o) as [(ob & E & En)|E].
  - left. unfold nothing, mbind. rewrite E, (obj_verbose _ _ INFO _ E), (H ob En). reflexivity.
  - right. unfold nothing, mbind. rewrite E. reflexivity.
Qed.
Lemma beyond_ok s p : statement fuel suave1 suave12 p s = Beyond -> verb_ok s p.
Proof. unfold verb_ok, Process.step. intros ->. exact I. Qed.
Lemma class_at s o ob : nth_error (objects s) o = Some ob -> class_of s o = Some (o_class ob).
Proof. unfold class_of. intros ->. reflexivity. Qed.
Lemma verb_slice s o st sp len : wf s -> verb_ok s (Slice o st sp len).
Proof.
  intros W. destruct (obj_cases s o) as [(ob & E & En)|E]; [|apply beyond_ok; cbn [statement]; unfold nothing, mbind; rewrite E; reflexivity].
  unfold verb_ok, Process.step. cbn [statement]. unfold nothing, mbind. rewrite E. unfold get, py_slice, mbind. destruct (beyond_unless _ s) as [s1 []| | |] eqn:Eb; try exact I; unfold beyond_unless in Eb; destruct (forallb _ _); inversion Eb; subst s1.
  unfold new_object, hold, modify, ret. unfold verbosity_after, creates. rewrite (class_at _ _ _ En). destruct (has_ctype (o_class ob)); reflexivity.
Qed.
Lemma verb_copy s o : wf s -> verb_ok s (Copy o).
Proof.
  intros W. destruct (obj_cases s o) as [(ob & E & En)|E]; [|apply beyond_ok; cbn [statement]; unfold nothing, mbind; rewrite E; reflexivity].
  unfold verb_ok, Process.step. cbn [statement]. unfold nothing, mbind. rewrite E. unfold py_copy, mbind, new_object, hold, set_obj, modify, ret. unfold verbosity_after, creates. rewrite (class_at _ _ _ En).
  destruct (has_ctype (o_class ob)); cbn; destruct (nth_error (objects s ++ _) _); reflexivity.
Qed.
Lemma verb_deep s o : wf s -> verb_ok s (Deepcopy o).
Proof.
  intros W. destruct (obj_cases s o) as [(ob & E & En)|E]; [|apply beyond_ok; cbn [statement]; unfold nothing, mbind; rewrite E; reflexivity].
  destruct (has_ctype (o_class ob)) eqn:H.
  - apply verb_info; [exact W| |cbn; apply info_v|unfold verbosity_after, creates; rewrite (class_at _ _ _ En), H; reflexivity].
    unfold Process.step. cbn [statement]. unfold nothing, mbind. rewrite E, (obj_verbose _ _ INFO _ E). unfold get. cbn [objects with_verbose].
    pose proof (deep_verbose (List.length (objects s)) s o INFO ob En H) as X. unfold with_verbose in X at 1. cbn in X. unfold with_verbose. rewrite X. reflexivity.
  - unfold verb_ok, verbosity_after, creates. rewrite (class_at _ _ _ En), H. unfold Process.step. cbn [statement]. unfold nothing, mbind. rewrite E. unfold get.
    pose proof (deep_plain (List.length (objects s)) s o ob En H W) as X. unfold ProofProcess.wp in X. destruct (py_deepcopy (List.length (objects s)) o s); auto.
    + destruct X as (_ & X & _). cbn. apply (kp_verb _ _ _ X I).
    + destruct X as (_ & X). left. cbn. apply (kp_verb _ _ _ X I).
Qed.
Lemma verb_run s o a b : wf s -> verb_ok s (Run_terms o a b).
Proof.
  intros W. destruct (obj_cases s o) as [(ob & E & En)|E]; [|apply beyond_ok; cbn [statement]; unfold nothing, regpt, mbind; rewrite E; reflexivity].
  destruct (match o_class ob with CB2 => true | _ => false end) eqn:H.
  - assert (Hc : o_class ob = CB2) by (destruct (o_class ob); try discriminate; reflexivity).
    destruct (o_lin ob) as [l|] eqn:El; [|unfold verb_ok, Process.step; cbn [statement]; unfold nothing, regpt, mbind; rewrite E, Hc; cbn [has_ctype]; unfold ret, py_run_terms, mbind; rewrite Hc, El; left; reflexivity].
    apply verb_info; [exact W| | |unfold verbosity_after, creates; rewrite (class_at _ _ _ En), Hc; reflexivity].
    + unfold Process.step. cbn [statement]. unfold nothing, regpt, mbind. rewrite E, (obj_verbose _ _ INFO _ E), Hc. cbn [has_ctype]. unfold ret. unfold py_run_terms. rewrite Hc, El. cbn [attribute].
      rewrite (bind_Fine _ _ s s l) by reflexivity. rewrite (bind_Fine _ _ (with_verbose s INFO) (with_verbose s INFO) l) by reflexivity.
      set (k := fun d : nat => _). assert (X : forall f, py_sub_1loop fuel suave1 suave12 l f "delta" "theta" (with_verbose s INFO) = py_sub_1loop fuel suave1 suave12 l f "delta" "theta" s)
        by (intros f; unfold py_sub_1loop, mbind at 1 7; unfold mbind at 1; rewrite new_verbose by reflexivity; reflexivity).
      unfold mbind. rewrite X. reflexivity.
    + cbn. intros ob' E'. cbn [objects with_verbose] in E'. rewrite En in E'. injection E' as <-. rewrite Hc. repeat split; auto; discriminate.
  - apply verb_same; [exact W| |unfold verbosity_after, creates; rewrite (class_at _ _ _ En); destruct (o_class ob); try reflexivity; discriminate].
    cbn. intros ob' E'. rewrite En in E'. injection E' as <-. split; [auto|]. split; [auto|]. split; [intros _; apply free_v|]. intros X. rewrite X in H. discriminate.
Qed.
Lemma verb_conf s (f : settings N -> settings N * outcome) s' v : configure f s = Fine s' v -> g_verbose s' = g_verbose s.
Proof. unfold configure. destruct (f (g_conf s)) as [c []]; intros [= <- _]; reflexivity. Qed.
Lemma verbosity_step s p : wf s -> verb_ok s p.
Proof.
  intros W. destruct p.
  - unfold verb_ok. destruct (has_ctype c) eqn:H; unfold Process.step, verbosity_after, creates; rewrite H; cbn [statement]; unfold nothing, mbind, new_object, hold, modify, ret; rewrite H; reflexivity.
  - apply verb_same; [exact W|cbn; tauto|reflexivity].
  - apply verb_same; [exact W|cbn; tauto|reflexivity].
  - apply verb_same; [exact W|apply free_v|reflexivity].
  - apply verb_same; [exact W|cbn; tauto|reflexivity].
  - apply verb_slice, W.
  - apply verb_copy, W.
  - apply verb_deep, W.
  - apply verb_same; [exact W|cbn; tauto|reflexivity].
  - apply verb_same; [exact W|cbn; tauto|reflexivity].
  - apply verb_same; [exact W|split; [apply free_v|intros ob _ sl _ []]|reflexivity].
  - apply verb_run, W.
  - apply verb_same; [exact W|apply free_v|reflexivity].
  - apply verb_same; [exact W|cbn; tauto|reflexivity].
  - apply verb_same; [exact W|cbn; tauto|reflexivity].
  - apply verb_same; [exact W|cbn; tauto|reflexivity].
  - apply verb_same; [exact W|cbn; tauto|reflexivity].
  - unfold verb_ok, Process.step. cbn [statement]. unfold nothing, regpt, mbind. destruct (obj_cases s o) as [(ob & E & En)|E]; rewrite E; [|exact I]. destruct (has_ctype (o_class ob)); [|left; reflexivity]. unfold ret at 1.
    unfold configure. destruct (py_clear 5 (g_conf s)) as [c' []]; [|left; reflexivity|exact I]. unfold set_verbosity, mbind, set_obj, modify, ret. cbn. destruct (nth_error (objects s) o); reflexivity.
  - unfold verb_ok, Process.step. cbn [statement]. unfold nothing, regpt, mbind. destruct (obj_cases s o) as [(ob & E & En)|E]; rewrite E; [|exact I]. destruct (has_ctype (o_class ob)); [|left; reflexivity]. unfold ret at 1.
    unfold set_verbosity, mbind, set_obj, modify, ret. cbn. rewrite En. reflexivity.
  - apply verb_same; [exact W|cbn; tauto|reflexivity].
  - apply verb_same; [exact W|cbn; tauto|reflexivity].
Qed.
End Shared.
