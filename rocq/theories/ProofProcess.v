(** ProofProcess: what statements leave unchanged. *)
From Coq Require Import ZArith List String Bool Lia PeanoNat.
From Verif Require Import Base Num Common Kernels Integrals Registry PyTerms Threads SpecThreads Process SpecProcess ProofThreads2.
Import ListNotations.
Local Open Scope string_scope.
Local Open Scope nat_scope.

Lemma nth_error_upd {A} (l : list A) i j a : nth_error (upd l i a) j = if Nat.eqb i j then match nth_error l j with Some _ => Some a | None => None end else nth_error l j.
Proof.
  revert i j. induction l as [|h t IH]; intros i j; cbn.
  - destruct j; destruct (Nat.eqb i _); reflexivity.
  - destruct i, j; cbn; try reflexivity. apply IH.
Qed.
Lemma upd_length {A} (l : list A) i a : List.length (upd l i a) = List.length l.
Proof. revert i. induction l; intros [|i]; cbn; auto. Qed.
Lemma mem_In n l : mem n l = true <-> In n l.
Proof. unfold mem. rewrite existsb_exists. split; [intros (x & H & E); apply Nat.eqb_eq in E; subst; exact H|intros H; exists n; split; [exact H|apply Nat.eqb_refl]]. Qed.

Section Frames.
Context {N : Num}.
Notation T := (T N).
Notation state := (state N).
Lemma latched_refl (st : settings N) : latched st st.
Proof. repeat split. Qed.
Lemma latched_trans (a b c : settings N) : latched a b -> latched b c -> latched a c.
Proof.
  intros (A1 & A2 & A3 & A4) (B1 & B2 & B3 & B4). split; [congruence|]. split; [congruence|]. split.
  - intros x. destruct (A3 x), (B3 x). split; congruence.
  - intros x H. rewrite <- (A4 x H). apply B4. destruct H as [H|H]; [left; rewrite (A4 x) by auto; exact H|right; exact H].
Qed.

(** What must not change: dicts, blocks, terms structs, the linear spectrum, objects, variables, settings, verbosity; and
    the terms structs whose arrays may be written. *)
Record frame := mkFrame { fd : nat -> Prop; fb : nat -> Prop; fs : slot -> Prop; fw : slot -> Prop; fl : Prop; fo : nat -> Prop; fv : nat -> Prop; fc : Prop; fe : Prop }.
Record keep (F : frame) (s s' : state) : Prop := {
  kp_dict : forall i, fd F i -> nth_error (dicts s') i = nth_error (dicts s) i;
  kp_block : forall b, fb F b -> nth_error (blocks s') b = nth_error (blocks s) b;
  kp_numpy : forall b xs, nth_error (blocks s) b = Some (Numpy, xs) -> exists ys, nth_error (blocks s') b = Some (Numpy, ys) /\ List.length ys = List.length xs;
  kp_blocks : List.length (blocks s) <= List.length (blocks s');
  kp_dicts : List.length (dicts s) <= List.length (dicts s');
  kp_objects : List.length (objects s) <= List.length (objects s');
  kp_slot : forall sl, fs F sl -> g_terms s' sl = g_terms s sl;
  kp_lin : fl F -> g_lin s' = g_lin s;
  kp_obj : forall o ob, nth_error (objects s) o = Some ob -> exists ob', nth_error (objects s') o = Some ob' /\ o_class ob' = o_class ob /\ o_dict ob' = o_dict ob /\ (fo F o -> ob' = ob);
  kp_vars : forall o, fv F o -> In o (vars s) -> In o (vars s');
  kp_conf : fc F -> latched (g_conf s) (g_conf s');
  kp_verb : fe F -> g_verbose s' = g_verbose s }.
Record inv (F : frame) (s : state) : Prop := {
  in_wf : wf s;
  in_write : forall sl y b i, fw F sl -> In y (tl (c_fields sl)) -> ct_ptr (g_terms s sl) y = Some (b, i) -> ~ fb F b;
  in_block : forall b, fb F b -> exists xs, nth_error (blocks s) b = Some (Numpy, xs);
  in_dict : forall i, fd F i -> i < List.length (dicts s) }.
Lemma keep_refl F s : keep F s s.
Proof. constructor; auto using latched_refl; eauto. Qed.
Lemma keep_trans F a b c : keep F a b -> keep F b c -> keep F a c.
Proof.
  intros [] []. constructor; auto; try lia.
  - intros. rewrite <- kp_dict0 by auto. auto.
  - intros. rewrite <- kp_block0 by auto. auto.
  - intros x xs H. destruct (kp_numpy0 _ _ H) as (ys & H1 & L1). destruct (kp_numpy1 _ _ H1) as (zs & H2 & L2). exists zs. split; [exact H2|congruence].
  - intros sl H. rewrite kp_slot1, kp_slot0; auto.
  - intros H. rewrite kp_lin1, kp_lin0; auto.
  - intros o ob H. destruct (kp_obj0 _ _ H) as (o1 & H1 & C1 & D1 & E1). destruct (kp_obj1 _ _ H1) as (o2 & H2 & C2 & D2 & E2).
    exists o2. split; [exact H2|]. split; [congruence|]. split; [congruence|]. intros X. rewrite (E2 X), (E1 X). reflexivity.
  - intros H. eapply latched_trans; [apply kp_conf0, H|apply kp_conf1, H].
  - intros H. rewrite kp_verb1, kp_verb0; auto.
Qed.

Definition wp {A} (F : frame) (s : state) (m : M N A) (Q : A -> state -> Prop) : Prop :=
  match m s with Fine s' a => inv F s' /\ keep F s s' /\ Q a s' | Throws _ s' => inv F s' /\ keep F s s' | Crash _ | Beyond => True end.
Lemma wp_bind {A B} F s (m : M N A) (f : A -> M N B) P Q :
  wp F s m P -> (forall a s1, inv F s1 -> keep F s s1 -> P a s1 -> wp F s1 (f a) Q) -> wp F s (mbind m f) Q.
Proof.
  unfold wp, mbind. intros Hm Hf. destruct (m s) as [s1 a|e s1| |]; auto. destruct Hm as (I & K & P1). specialize (Hf a s1 I K P1).
  destruct (f a s1) as [s2 b|e s2| |]; auto. destruct Hf as (I2 & K2 & Q2). split; [exact I2|]. split; [eapply keep_trans; eauto|exact Q2]. destruct Hf as (I2 & K2). split; [exact I2|eapply keep_trans; eauto].
Qed.
Lemma wp_weaken {A} F s (m : M N A) (P Q : A -> state -> Prop) : wp F s m P -> (forall a s1, inv F s1 -> keep F s s1 -> P a s1 -> Q a s1) -> wp F s m Q.
Proof. unfold wp. destruct (m s); auto. intros (I & K & H) X. auto. Qed.
(** Functions which only read *)
Definition pure {A} (m : M N A) : Prop := forall s, match m s with Fine s' _ | Throws _ s' => s' = s | _ => True end.
Lemma wp_pure {A} F s (m : M N A) : inv F s -> pure m -> wp F s m (fun a s' => s' = s /\ m s = Fine s a).
Proof. intros I P. unfold wp. specialize (P s). destruct (m s); auto; subst; auto using keep_refl. Qed.
Lemma pure_ret {A} (a : A) : pure (@ret N A a). Proof. intros s. reflexivity. Qed.
Lemma pure_get : pure (@get N). Proof. intros s. reflexivity. Qed.
Lemma pure_throw {A} e : pure (@throw N A e). Proof. intros s. reflexivity. Qed.
Lemma pure_bind {A B} (m : M N A) (f : A -> M N B) : pure m -> (forall a, pure (f a)) -> pure (mbind m f).
Proof. intros Hm Hf s. unfold mbind. specialize (Hm s). destruct (m s) as [s1 a|e s1| |]; auto. subst. apply Hf. Qed.
Lemma pure_lift {A} (r : res A) : pure (@lift N A r). Proof. intros s. unfold lift. destruct r as [|[]]; reflexivity || exact I. Qed.
Lemma pure_c_lift {A} (r : res A) : pure (@c_lift N A r). Proof. intros s. destruct r; reflexivity || exact I. Qed.
Lemma pure_beyond b : pure (@beyond_unless N b). Proof. intros s. unfold beyond_unless. destruct b; reflexivity || exact I. Qed.
Lemma pure_each {A B} (f : A -> M N B) l : (forall a, pure (f a)) -> pure (each_ f l).
Proof. intros H. induction l as [|x t IH]; cbn [each_]; [apply pure_ret|]. apply pure_bind; [apply H|]. intros y. apply pure_bind; [exact IH|]. intros. apply pure_ret. Qed.
Lemma pure_do_all {A} (f : A -> M N unit) l : (forall a, pure (f a)) -> pure (do_all f l).
Proof. intros H. apply pure_bind; [apply pure_each, H|]. intros. apply pure_ret. Qed.
Lemma pure_place p : pure (@place N p). Proof. destruct p as [q|]; [apply pure_ret|]. intros s. exact I. Qed.
Lemma pure_block b : pure (@block N b).
Proof. intros s. unfold block. destruct (alive s b); [|exact I]. destruct (nth_error (blocks s) b) as [[]|]; reflexivity || exact I. Qed.
Lemma pure_read p i : pure (@c_read N p i).
Proof. apply pure_bind; [apply pure_place|]. intros [b o]. apply pure_bind; [apply pure_block|]. intros. apply pure_c_lift. Qed.
Lemma pure_read_n p n : pure (@c_read_n N p n). Proof. apply pure_each. intros. apply pure_read. Qed.
Lemma pure_table c : pure (@c_table N c).
Proof. apply pure_bind; [apply pure_place|]. intros. apply pure_bind; [apply pure_read_n|]. intros. apply pure_bind; [apply pure_read_n|]. intros. apply pure_ret. Qed.
Lemma pure_print k n : pure (@c_print N k n).
Proof. apply pure_bind; [apply pure_read|]. intros. apply pure_bind; [apply pure_read|]. intros. apply pure_ret. Qed.
Lemma pure_when_info m : pure m -> pure (@when_info N m).
Proof. intros H. apply pure_bind; [apply pure_get|]. intros s. destruct (g_verbose s); auto using pure_ret. Qed.
Lemma pure_overlap sl l : pure (@no_overlap N sl l). Proof. apply pure_bind; [apply pure_get|]. intros. apply pure_beyond. Qed.
Lemma pure_np_get a : pure (@np_get N a).
Proof. apply pure_bind; [apply pure_block|]. intros. apply pure_each. intros. apply pure_lift. Qed.
Lemma pure_pointer n a : pure (@np_pointer N n a). Proof. unfold np_pointer. destruct (_ && _); [apply pure_ret|apply pure_throw]. Qed.
Lemma pure_obj o : pure (@obj N o).
Proof. intros s. unfold obj. destruct (mem _ _); [|exact I]. destruct (nth_error _ _); reflexivity || exact I. Qed.
Lemma pure_getitem o x : pure (@py_getitem N o x).
Proof. apply pure_bind; [apply pure_get|]. intros s. destruct (assoc _ _); [apply pure_ret|apply pure_throw]. Qed.
Lemma pure_size o : pure (@py_size N o).
Proof. apply pure_bind; [apply pure_getitem|]. intros a. apply pure_bind; [apply pure_beyond|]. intros. apply pure_ret. Qed.
Lemma pure_columns o : pure (@py_columns N o).
Proof. apply pure_bind; [apply pure_get|]. intros s. apply pure_each. intros xa. apply pure_bind; [apply pure_np_get|]. intros. apply pure_ret. Qed.
Lemma pure_attribute {A} (x : option A) : pure (@attribute N A x). Proof. destruct x; [apply pure_ret|apply pure_throw]. Qed.
Lemma pure_find k im : pure (@py_find_pk_lin N k im).
Proof. apply pure_bind; [apply pure_get|]. intros s. apply pure_bind; [apply pure_table|]. intros. apply pure_c_lift. Qed.
Lemma pure_sigmad2 k uv : pure (@py_sigmad2 N k uv).
Proof. apply pure_bind; [apply pure_get|]. intros s. apply pure_bind; [apply pure_table|]. intros. apply pure_c_lift. Qed.
Lemma pure_regpt o : pure (@regpt N o).
Proof. apply pure_bind; [apply pure_obj|]. intros ob. destruct (has_ctype _); [apply pure_ret|apply pure_throw]. Qed.

(** ** Elementary changes *)
Lemma sound_keep F s s' a : keep F s s' -> sound s a -> sound s' a.
Proof. intros K (L & xs & H & B). split; [exact L|]. destruct (kp_numpy _ _ _ K _ _ H) as (ys & H' & E). exists ys. split; [exact H'|]. unfold zlen in *. rewrite E. exact B. Qed.
Lemma wp_modify F s g (Q : unit -> state -> Prop) : inv F (g s) -> keep F s (g s) -> Q tt (g s) -> wp F s (modify g) Q.
Proof. intros I K H. unfold wp, modify. auto. Qed.
(** Only a static variable of the library changes *)
Lemma keep_static F (s s' : state) : dicts s' = dicts s -> blocks s' = blocks s -> objects s' = objects s -> vars s' = vars s -> (forall sl, fs F sl -> g_terms s' sl = g_terms s sl) ->
  (fl F -> g_lin s' = g_lin s) -> (fc F -> latched (g_conf s) (g_conf s')) -> (fe F -> g_verbose s' = g_verbose s) -> keep F s s'.
Proof. intros D B O V S L C E. constructor; auto; rewrite ?D, ?B, ?O, ?V; eauto. Qed.
Lemma wf_static (s s' : state) : dicts s' = dicts s -> blocks s' = blocks s -> objects s' = objects s -> vars s' = vars s -> 
  (forall b i, cp_p (g_1loop s') = Some (b, i) -> exists w xs, nth_error (blocks s) b = Some (w, xs) /\ w <> Numpy) -> wf s -> wf s'.
Proof. intros D B O V L []. constructor; unfold sound in *; rewrite ?D, ?B, ?O, ?V; auto. Qed.
Lemma inv_static F (s s' : state) : dicts s' = dicts s -> blocks s' = blocks s -> objects s' = objects s -> vars s' = vars s -> 
  (forall b i, cp_p (g_1loop s') = Some (b, i) -> exists w xs, nth_error (blocks s) b = Some (w, xs) /\ w <> Numpy) ->
  (forall sl y b i, fw F sl -> In y (tl (c_fields sl)) -> ct_ptr (g_terms s' sl) y = Some (b, i) -> ~ fb F b) -> inv F s -> inv F s'.
Proof. intros D B O V L W []. constructor; rewrite ?D, ?B; auto. eapply wf_static; eauto. Qed.
Lemma wp_temps F s f (Q : unit -> state -> Prop) : inv F s -> Q tt (with_temps s (f s)) -> wp F s (modify (fun s => with_temps s (f s))) Q.
Proof.
  intros I H. apply wp_modify; auto.
  - apply (inv_static F s); auto. apply (wf_1loop _ (in_wf _ _ I)). apply (in_write _ _ I).
  - apply keep_static; auto using latched_refl.
Qed.
Lemma wp_lin F s c (Q : unit -> state -> Prop) : inv F s -> ~ fl F -> Q tt (with_lin s c) -> wp F s (modify (fun s => with_lin s c)) Q.
Proof.
  intros I L H. apply wp_modify; auto.
  - apply (inv_static F s); auto. apply (wf_1loop _ (in_wf _ _ I)). apply (in_write _ _ I).
  - apply keep_static; auto using latched_refl. tauto.
Qed.
Lemma wp_dt F s (f : state -> cpk) (Q : unit -> state -> Prop) : inv F s -> Q tt (with_dt s (f s)) -> wp F s (modify (fun s => with_dt s (f s))) Q.
Proof.
  intros I H. apply wp_modify; auto.
  - apply (inv_static F s); auto. apply (wf_1loop _ (in_wf _ _ I)). apply (in_write _ _ I).
  - apply keep_static; auto using latched_refl.
Qed.
Lemma wp_tt F s (f : state -> cpk) (Q : unit -> state -> Prop) : inv F s -> Q tt (with_tt s (f s)) -> wp F s (modify (fun s => with_tt s (f s))) Q.
Proof.
  intros I H. apply wp_modify; auto.
  - apply (inv_static F s); auto. apply (wf_1loop _ (in_wf _ _ I)). apply (in_write _ _ I).
  - apply keep_static; auto using latched_refl.
Qed.
Lemma wp_1loop F s n k p (Q : unit -> state -> Prop) : inv F s -> (forall b i, p = Some (b, i) -> exists w xs, nth_error (blocks s) b = Some (w, xs) /\ w <> Numpy) ->
  Q tt (with_1loop s (mkCpk n k p)) -> wp F s (c_set_spectrum_1loop n k p) Q.
Proof.
  intros I L H. apply wp_modify; auto.
  - apply (inv_static F s); auto. apply (in_write _ _ I).
  - apply keep_static; auto using latched_refl.
Qed.
Lemma wp_conf F s f (Q : unit -> state -> Prop) : inv F s -> (fc F -> latched (g_conf s) (f (g_conf s))) -> Q tt (with_conf s (f (g_conf s))) -> wp F s (modify (fun s => with_conf s (f (g_conf s)))) Q.
Proof.
  intros I L H. apply wp_modify; auto.
  - apply (inv_static F s); auto. apply (wf_1loop _ (in_wf _ _ I)). apply (in_write _ _ I).
  - apply keep_static; auto.
Qed.
Lemma wp_verbose F s f (Q : unit -> state -> Prop) : inv F s -> (fe F -> f (g_verbose s) = g_verbose s) -> Q tt (with_verbose s (f (g_verbose s))) -> wp F s (modify (fun s => with_verbose s (f (g_verbose s)))) Q.
Proof.
  intros I L H. apply wp_modify; auto.
  - apply (inv_static F s); auto. apply (wf_1loop _ (in_wf _ _ I)). apply (in_write _ _ I).
  - apply keep_static; auto using latched_refl.
Qed.
Lemma slot_eqb_eq a b : slot_eqb a b = true <-> a = b.
Proof. destruct a, b; cbn; split; congruence. Qed.
Lemma slot_eqb_refl a : slot_eqb a a = true. Proof. apply slot_eqb_eq. reflexivity. Qed.
Lemma wp_terms F s sl ct (Q : unit -> state -> Prop) : inv F s -> ~ fs F sl -> (fw F sl -> forall y b i, In y (tl (c_fields sl)) -> ct_ptr ct y = Some (b, i) -> ~ fb F b) ->
  Q tt (with_terms s (fun sl' => if slot_eqb sl sl' then ct else g_terms s sl')) -> wp F s (modify (fun s => with_terms s (fun sl' => if slot_eqb sl sl' then ct else g_terms s sl'))) Q.
Proof.
  intros I L W H. apply wp_modify; auto.
  - apply (inv_static F s); auto. apply (wf_1loop _ (in_wf _ _ I)). cbn. intros sl' y b i Hw Hy. destruct (slot_eqb sl sl') eqn:E.
    + apply slot_eqb_eq in E. subst sl'. apply W; auto.
    + apply (in_write _ _ I); auto.
  - apply keep_static; auto using latched_refl. cbn. intros sl' H'. destruct (slot_eqb sl sl') eqn:E; [apply slot_eqb_eq in E; subst; tauto|reflexivity].
Qed.

(** Blocks *)
Lemma nth_error_snoc {A} (l : list A) a i : nth_error (l ++ [a]) i = if Nat.eqb i (List.length l) then Some a else nth_error l i.
Proof.
  destruct (Nat.eqb_spec i (List.length l)) as [->|E].
  - rewrite nth_error_app2, Nat.sub_diag by lia. reflexivity.
  - destruct (Nat.lt_ge_cases i (List.length l)); [apply nth_error_app1; assumption|]. rewrite (proj2 (nth_error_None (l ++ [a]) i)), (proj2 (nth_error_None l i)); auto. rewrite app_length. cbn. lia.
Qed.
Lemma nth_error_lt {A} (l : list A) i a : nth_error l i = Some a -> i < List.length l.
Proof. intros H. apply nth_error_Some. congruence. Qed.
Lemma nth_error_old {A} (l m : list A) i a : nth_error l i = Some a -> nth_error (l ++ m) i = Some a.
Proof. intros H. rewrite nth_error_app1; [exact H|eapply nth_error_lt, H]. Qed.
Lemma sound_more (s : state) w xs a : sound s a -> sound (with_blocks s (blocks s ++ [(w, xs)])) a.
Proof. intros (L & ys & H & B). split; [exact L|]. exists ys. split; [cbn; apply nth_error_old, H|exact B]. Qed.
Lemma wp_new_block F s w xs : inv F s -> wp F s (new_block w xs) (fun b s' => b = List.length (blocks s) /\ s' = with_blocks s (blocks s ++ [(w, xs)]) /\ ~ fb F b).
Proof.
  intros I. unfold wp, new_block. split; [|split].
  - destruct I as [[] W B D]. constructor; auto.
    + constructor; auto.
      * intros d x a Hd Ha. apply sound_more. eauto.
      * intros b i H. destruct (wf_1loop _ _ H) as (w' & ys & H1 & H2). exists w', ys. cbn. split; [apply nth_error_old, H1|exact H2].
    + intros b Hb. destruct (B b Hb) as (ys & H). exists ys. cbn. apply nth_error_old, H.
  - constructor; auto using latched_refl; cbn; eauto; try (rewrite app_length; cbn; lia).
    + intros b Hb. destruct (in_block _ _ I b Hb) as (ys & H). rewrite H. apply nth_error_old, H.
    + intros b ys H. exists ys. split; [apply nth_error_old, H|reflexivity].
  - split; [reflexivity|]. split; [reflexivity|]. intros H. destruct (in_block _ _ I _ H) as (ys & E). apply nth_error_lt in E. lia.
Qed.
Lemma wp_put F s b xs ys (Q : unit -> state -> Prop) : inv F s -> ~ fb F b -> (exists w, nth_error (blocks s) b = Some (w, xs)) -> List.length ys = List.length xs ->
  Q tt (put_block s b ys) -> wp F s (modify (fun s => put_block s b ys)) Q.
Proof.
  intros I Nb (w & E) L H. assert (P : put_block s b ys = with_blocks s (upd (blocks s) b (w, ys))) by (unfold put_block; rewrite E; reflexivity).
  assert (X : forall c w' zs, nth_error (blocks s) c = Some (w', zs) -> exists zs', nth_error (upd (blocks s) b (w, ys)) c = Some (w', zs') /\ List.length zs' = List.length zs).
  { intros c w' zs Hc. rewrite nth_error_upd, Hc. destruct (Nat.eqb_spec b c) as [->|]; [|eauto]. exists ys. assert (w = w' /\ xs = zs) as [-> ->] by (split; congruence). auto. }
  apply wp_modify; auto; rewrite P.
  - destruct I as [[] W B D]. constructor; auto.
    + constructor; auto.
      * intros d x a Hd Ha. destruct (wf_array d x a Hd Ha) as (La & zs & Hz & Bz). split; [exact La|]. destruct (X _ _ _ Hz) as (zs' & Hz' & Lz). exists zs'. split; [exact Hz'|]. unfold zlen in *. rewrite Lz. exact Bz.
      * intros c i Hc. destruct (wf_1loop c i Hc) as (w' & zs & Hz & Nz). destruct (X _ _ _ Hz) as (zs' & Hz' & _). eauto.
    + intros c Hc. destruct (B c Hc) as (zs & Hz). destruct (X _ _ _ Hz) as (zs' & Hz' & _). eauto.
  - constructor; auto using latched_refl; cbn; eauto.
    + intros c Hc. rewrite nth_error_upd. destruct (Nat.eqb_spec b c); [subst; tauto|reflexivity].
    + rewrite upd_length. lia.
Qed.
Lemma block_Fine s s1 b xs : @block N b s = Fine s1 xs -> alive s b = true /\ s1 = s /\ exists w, nth_error (blocks s) b = Some (w, xs).
Proof. unfold block. destruct (alive s b); [|discriminate]. destruct (nth_error (blocks s) b) as [[w ys]|]; [|discriminate]. intros [= <- <-]. eauto. Qed.
Lemma wr_length {A} (l : list A) i a l' : wr l i a = Ok l' -> List.length l' = List.length l.
Proof. unfold wr. destruct (_ && _); [|discriminate]. intros [= <-]. apply upd_length. Qed.
Lemma wp_write F s p i x : inv F s -> (forall b o, p = Some (b, o) -> ~ fb F b) -> wp F s (c_write p i x) (fun _ _ => True).
Proof.
  intros I Np. unfold c_write. eapply wp_bind; [apply wp_pure; [exact I|apply pure_place]|]. intros [b o] s1 I1 K1 (-> & E).
  assert (P : p = Some (b, o)) by (destruct p; cbn in E; [injection E as <-; reflexivity|discriminate]).
  eapply wp_bind; [apply wp_pure; [exact I1|apply pure_block]|]. intros xs s2 I2 K2 (-> & E2). apply block_Fine in E2 as (_ & _ & Ew).
  eapply wp_bind; [apply wp_pure; [exact I2|apply pure_c_lift]|]. intros ys s3 I3 K3 (-> & E3).
  assert (L : List.length ys = List.length xs). { unfold c_lift in E3. destruct (wr xs (o + i) x) as [zs|] eqn:W; try discriminate. injection E3 as <-. eapply wr_length, W. }
  eapply wp_put; eauto. 
Qed.
Lemma wp_each {A B} F (f : A -> M N B) l : (forall s a, inv F s -> In a l -> wp F s (f a) (fun _ _ => True)) -> forall s, inv F s -> wp F s (each_ f l) (fun _ _ => True).
Proof.
  induction l as [|x t IH]; intros H s I; cbn [each_].
  - eapply wp_weaken; [apply wp_pure; [exact I|apply pure_ret]|auto].
  - eapply wp_bind; [apply H; [exact I|left; reflexivity]|]. intros y s1 I1 K1 _. eapply wp_bind; [apply IH; [|exact I1]|].
    + intros s' a I' Ha. apply H; [exact I'|right; exact Ha].
    + intros ys s2 I2 K2 _. eapply wp_weaken; [apply wp_pure; [exact I2|apply pure_ret]|auto].
Qed.
Lemma wp_ret {A} F s (a : A) (Q : A -> state -> Prop) : inv F s -> Q a s -> wp F s (ret a) Q.
Proof. intros I H. unfold wp, ret. auto using keep_refl. Qed.
Lemma wp_get F s (Q : state -> state -> Prop) : inv F s -> Q s s -> wp F s get Q.
Proof. intros I H. unfold wp, get. auto using keep_refl. Qed.
Lemma wp_throw {A} F s e (Q : A -> state -> Prop) : inv F s -> wp F s (throw e) Q.
Proof. intros I. unfold wp, throw. auto using keep_refl. Qed.
Lemma wp_do_all {A} F (f : A -> M N unit) l : (forall s a, inv F s -> In a l -> wp F s (f a) (fun _ _ => True)) -> forall s, inv F s -> wp F s (do_all f l) (fun _ _ => True).
Proof. intros H s I. unfold do_all. eapply wp_bind; [apply wp_each; assumption|]. intros ? s1 I1 K1 _. apply wp_ret; auto. Qed.
(** With a property of the states that lasts *)
Lemma wp_do_all_with {A} F (J : state -> Prop) (f : A -> M N unit) l : (forall s a, inv F s -> J s -> In a l -> wp F s (f a) (fun _ s' => J s')) ->
  forall s, inv F s -> J s -> wp F s (do_all f l) (fun _ s' => J s').
Proof.
  intros H s I Js. unfold do_all. eapply wp_bind with (P := fun _ s' => J s'); [|intros ? s1 I1 K1 J1; apply wp_ret; auto]. revert s I Js. induction l as [|x t IH]; intros s I Js; cbn [each_].
  - apply wp_ret; auto.
  - eapply wp_bind; [apply H; [exact I|exact Js|left; reflexivity]|]. intros [] s1 I1 K1 J1. eapply wp_bind; [apply IH; [|exact I1|exact J1]|].
    + intros s' a I' J' Ha. apply H; auto. right; exact Ha.
    + intros ys s2 I2 K2 J2. apply wp_ret; auto.
Qed.
Lemma wp_calloc F s n : inv F s -> wp F s (c_calloc n) (fun p s' => exists b xs, p = Some (b, 0%Z) /\ nth_error (blocks s') b = Some (Calloc, xs) /\ ~ fb F b /\ b = List.length (blocks s) /\
  g_terms s' = g_terms s /\ g_1loop s' = g_1loop s).
Proof.
  intros I. unfold c_calloc. eapply wp_bind; [apply wp_new_block, I|]. intros b s1 I1 K1 (E & -> & Nb). apply wp_ret; auto. exists b, (repeat (nZ N 0) (Z.to_nat n)). repeat split; auto.
  cbn. subst b. rewrite nth_error_app2, Nat.sub_diag by lia. reflexivity.
Qed.
Lemma wp_free F s p : inv F s -> wp F s (c_free p) (fun _ _ => True).
Proof.
  intros I. unfold wp, c_free. destruct p as [[b o]|]; [|auto using keep_refl]. destruct (nth_error (blocks s) b) as [[[] xs]|] eqn:E; auto. destruct (o =? 0)%Z; auto.
  assert (X : forall c ys, nth_error (blocks s) c = Some (Numpy, ys) -> nth_error (upd (blocks s) b (Freed, xs)) c = Some (Numpy, ys)).
  { intros c ys Hc. rewrite nth_error_upd. destruct (Nat.eqb_spec b c); [congruence|exact Hc]. }
  split; [|split; [|exact Logic.I]].
  - destruct I as [[] W B D]. constructor; auto.
    + constructor; auto.
      * intros d x a Hd Ha. destruct (wf_array d x a Hd Ha) as (La & zs & Hz & Bz). split; [exact La|]. exists zs. split; [apply X, Hz|exact Bz].
      * intros c i Hc. destruct (wf_1loop c i Hc) as (w' & zs & Hz & Nz). cbn. rewrite nth_error_upd, Hz. destruct (Nat.eqb_spec b c); eexists _, _; split; try reflexivity; auto. discriminate.
    + intros c Hc. destruct (B c Hc) as (zs & Hz). exists zs. apply X, Hz.
  - constructor; auto using latched_refl; cbn; eauto.
    + intros c Hc. destruct (in_block _ _ I c Hc) as (zs & Hz). rewrite Hz. apply X, Hz.
    + rewrite upd_length. lia.
Qed.
End Frames.
Arguments frame : clear implicits.
