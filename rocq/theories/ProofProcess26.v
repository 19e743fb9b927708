(** ProofProcess26: run_terms after the wavenumbers of the object have been replaced. *)
From Coq Require Import ZArith List String Bool Lia PeanoNat.
From Verif Require Import Base Num Common Kernels Integrals Registry PyTerms Threads SpecThreads Process SpecProcess ProofThreads2 ProofThreads3 ProofScratch3 ProofPy ProofProcess ProofProcess2 ProofProcess3 ProofProcess4 ProofProcess5 ProofProcess6 ProofProcess7 ProofProcess8 ProofProcess9 ProofProcess10 ProofProcess11 ProofProcess12 ProofProcess13 ProofProcess14 ProofProcess15 ProofProcess16 ProofProcess17 ProofProcess22 ProofProcess23 ProofProcess25.
Import ListNotations.
Local Open Scope string_scope.
Local Open Scope nat_scope.

Lemma dict_set_In' d x a y b : NoDup (map fst d) -> In (y, b) (dict_set d x a) -> b = a \/ In (y, b) d /\ y <> x.
Proof.
  induction d as [|[z c] t IH]; cbn; intros Nd.
  - intros [[= <- <-]|[]]; auto.
  - inversion Nd as [|? ? N1 N2]. subst. destruct (String.eqb_spec z x) as [->|Ne]; cbn; intros [H|H]; auto.
    + injection H as <- <-. auto.
    + right. split; [auto|]. intros ->. apply N1. apply in_map_iff. exists (x, b). auto.
    + injection H as <- <-. auto.
    + destruct (IH N2 H) as [|[]]; auto.
Qed.

Section Replaced.
Context {N : Num}.
Notation T := (T N).
Notation state := (state N).
Implicit Types (s : state) (o l : nat).
Variables (fuel : nat) (suave1 : (list T -> res T) -> res T) (suave12 : (list T -> res (list T)) -> res (list T)).
Notation step := (step fuel suave1 suave12).

Section NoBlock.
Variable b : nat.
(** No column is in the block [b]. *)
Record nob s : Prop := { nb_lt : b < List.length (blocks s); nb_dict : forall o ob, nth_error (objects s) o = Some ob -> o_dict ob < List.length (dicts s); nb_no : forall o x a, In (x, a) (dict_of s o) -> a_buf a <> b }.
Definition clean {A} (m : M N A) : Prop := forall s, nob s -> match m s with Fine s' _ => nob s' | _ => True end.
Lemma clean_pure {A} (m : M N A) : pure m -> clean m.
Proof. intros P s H. specialize (P s). destruct (m s); auto. subst. exact H. Qed.
Lemma clean_bind {A B} (m : M N A) (f : A -> M N B) : clean m -> (forall a, clean (f a)) -> clean (mbind m f).
Proof. intros Hm Hf s H. unfold mbind. specialize (Hm s H). destruct (m s) as [s1 a| | |]; auto. apply Hf, Hm. Qed.
Lemma clean_each {A B} (f : A -> M N B) (t : list A) : (forall x, clean (f x)) -> clean (each_ f t).
Proof. intros H. induction t as [|x t IH]; cbn; [apply clean_pure, pure_ret|]. apply clean_bind; [apply H|]. intros. apply clean_bind; [apply IH|]. intros. apply clean_pure, pure_ret. Qed.
Lemma clean_do_all {A} (f : A -> M N unit) (t : list A) : (forall x, clean (f x)) -> clean (do_all f t).
Proof. intros H. apply clean_bind; [apply clean_each, H|]. intros. apply clean_pure, pure_ret. Qed.
Lemma item_eq o x xs s : mbind (np_new xs) (fun a => py_setitem o x a) s = Fine (item s o x xs) tt.
Proof. reflexivity. Qed.
Lemma item_shape o x xs s : blocks (item s o x xs) = (blocks s ++ [(Numpy, xs)])%list /\ objects (item s o x xs) = objects s /\ List.length (dicts (item s o x xs)) = List.length (dicts s).
Proof. unfold item, set_item. cbn. destruct (nth_error (objects s) o); cbn; rewrite ?upd_length; auto. Qed.
Lemma item_In o x xs s y z a : (forall o ob, nth_error (objects s) o = Some ob -> o_dict ob < List.length (dicts s)) -> In (z, a) (dict_of (item s o x xs) y) -> In (z, a) (dict_of s y) \/ a_buf a = List.length (blocks s).
Proof.
  intros D. unfold item. destruct (nth_error (objects s) o) as [ob|] eqn:E.
  - rewrite (set_item_dict _ _ _ _ _ ob) by (exact E || exact (D _ _ E)). change (dict_of (with_blocks _ _) y) with (dict_of s y). cbn [objects with_blocks]. destruct (nth_error (objects s) y); [|intros []]. destruct (Nat.eqb _ _); [|auto]. intros H. apply dict_set_In in H as [H| ->]; auto.
  - unfold set_item. cbn. rewrite E. auto.
Qed.
Lemma clean_item o x xs : clean (mbind (np_new xs) (fun a => py_setitem o x a)).
Proof.
  intros s []. rewrite item_eq. destruct (item_shape o x xs s) as (B & O & D). constructor.
  - rewrite B, app_length. lia.
  - rewrite O, D. exact nb_dict0.
  - intros y z a H. apply item_In in H as [H|H]; [eauto|rewrite H; lia|exact nb_dict0].
Qed.
Lemma clean_np_set a i x : clean (@np_set N a i x).
Proof.
  unfold np_set. destruct (_ && _)%bool; [|apply clean_pure, pure_throw]. apply clean_bind; [apply clean_pure, pure_block|]. intros xs. apply clean_bind; [apply clean_pure, pure_lift|]. intros ys s H. unfold modify, put_block.
  destruct (nth_error (blocks s) (a_buf a)) as [[w zs]|]; [|exact H]. destruct H. constructor; cbn; [rewrite upd_length; exact nb_lt0|exact nb_dict0|exact nb_no0].
Qed.
Lemma clean_np_put a xs : clean (@np_put N a xs). Proof. apply clean_do_all. intros. apply clean_np_set. Qed.
End NoBlock.
Lemma item_nob s o ob x xs b : wf s -> nth_error (objects s) o = Some ob -> b < List.length (blocks s) -> only_at s o x b -> nob b (item s o x xs).
Proof.
  intros W E L Oa. destruct (item_shape o x xs s) as (B & O & D). constructor.
  - rewrite B, app_length. lia.
  - rewrite O, D. apply (wf_dict _ W).
  - intros y z a H Eb. assert (H' := H). unfold item in H. rewrite (set_item_dict _ _ _ _ _ ob) in H by (exact E || exact (wf_dict _ W _ _ E)). change (dict_of (with_blocks _ _) y) with (dict_of s y) in H. cbn [objects with_blocks] in H.
    destruct (nth_error (objects s) y) as [oy|] eqn:Ey; [|destruct H]. destruct (Nat.eqb_spec (o_dict ob) (o_dict oy)) as [Ed|Nd].
    + apply dict_set_In' in H as [->|(H & Nz)]; [cbn in Eb; lia| |apply dict_names, W]. destruct (Oa y z a H Eb) as (X & _). contradiction.
    + destruct (Oa y z a H Eb) as (_ & o' & ob' & oy' & [<-|[]] & E1 & E2 & D2). congruence.
Qed.
Lemma nob_lost s b : nob b s -> lost s b. Proof. intros H o x a _ Ha. apply (nb_no _ _ H o x a Ha). Qed.
Lemma pure_find k im : pure (@py_find_pk_lin N k im).
Proof. apply pure_bind; [apply pure_get|]. intros. apply pure_bind; [apply pure_table|]. intros. apply pure_c_lift. Qed.
Lemma pure_sig k uv : pure (@py_sigmad2 N k uv).
Proof. apply pure_bind; [apply pure_get|]. intros. apply pure_bind; [apply pure_table|]. intros. apply pure_c_lift. Qed.
Lemma pad_nob s o ob k x im b s' : wf s -> nth_error (objects s) o = Some ob -> b < List.length (blocks s) -> only_at s o "k" b -> py_pad_k o (o_class ob) k x im s = Fine s' tt -> nob b s'.
Proof.
  intros W E L Oa. unfold py_pad_k.
  assert (Pb : forall A B (m : M N A) (f : A -> M N B) Q, pure m -> (forall a, match f a s with Fine s' v => Q s' | _ => True end) -> forall s' (v : B), mbind m f s = Fine s' v -> Q s').
  { intros A B m f Q Pm Hf s1 v. unfold mbind. specialize (Pm s). destruct (m s) as [s2 a| | |]; try discriminate. subst s2. intros X. specialize (Hf a). rewrite X in Hf. exact Hf. }
  intros H. revert H. apply Pb; [apply pure_getitem|]. intros ka. destruct (mbind _ _ s) as [s1 v| | |] eqn:X; auto. revert X. apply Pb; [apply pure_np_get|]. intros kk. destruct (mbind _ _ s) as [s2 v2| | |] eqn:X; auto. revert X.
  apply Pb; [apply pure_lift|]. intros k0. destruct (mbind _ _ s) as [s3 v3| | |] eqn:X; auto. revert X. apply Pb; [apply pure_lift|]. intros k1. cbv zeta.
  set (sn := List.length (filter _ k)). set (en := List.length (filter _ k)).
  destruct (mbind _ _ s) as [s4 v4| | |] eqn:X; auto. unfold mbind at 1 in X.
  set (pad1 := fun key => _) in X. assert (Cp : forall key, clean b (pad1 key)).
  { intros key. unfold pad1. apply clean_bind; [apply clean_pure, pure_getitem|]. intros a. destruct (a_2d a); [apply clean_pure, pure_throw|]. apply clean_bind; [apply clean_pure, pure_np_get|]. intros. apply clean_item. }
  assert (Fk : exists t, fields (o_class ob) = "k" :: t) by (destruct (o_class ob); cbn; eauto). destruct Fk as (t & Fk). rewrite Fk in X.
  assert (L1 : forall s5, do_all pad1 ("k" :: t) s = Fine s5 tt -> nob b s5).
  { intros s5 H. apply do_all_inv in H as (s6 & H1 & H2). assert (N6 : nob b s6).
    { revert H1. unfold pad1. apply Pb; [apply pure_getitem|]. intros a. destruct (a_2d a); [exact I|]. destruct (mbind _ _ s) as [s7 v7| | |] eqn:Y; auto. revert Y. apply Pb; [apply pure_np_get|]. intros vv. rewrite item_eq. eapply item_nob; eauto. }
    pose proof (clean_do_all b pad1 t Cp s6 N6) as H. rewrite H2 in H. exact H. }
  destruct (do_all pad1 ("k" :: t) s) as [s5 []| | |] eqn:Y; try discriminate X. specialize (L1 s5 eq_refl). revert X. set (rest := mbind _ _). assert (Cr : clean b rest).
  { unfold rest. clear rest. apply clean_bind; [apply clean_pure, pure_getitem|]. intros. apply clean_bind; [apply clean_pure, pure_np_get|]. intros. apply clean_bind; [apply clean_pure, pure_lift|]. intros. apply clean_bind; [apply clean_np_put|]. intros.
    apply clean_bind; [apply clean_pure, pure_lift|]. intros. apply clean_bind; [apply clean_np_put|]. intros. apply clean_bind.
    - destruct (_ && _)%bool; [|apply clean_pure, pure_ret]. apply clean_bind; [apply clean_pure, pure_find|]. intros. apply clean_item.
    - intros. destruct (_ && _)%bool; [|apply clean_pure, pure_ret]. apply clean_bind; [apply clean_pure, pure_sig|]. intros. apply clean_item. }
  intros X. specialize (Cr s5 L1). rewrite X in Cr. exact Cr.
Qed.
(** ** The run *)
Lemma overlap_ext s s' sl inputs : g_terms s' sl = g_terms s sl -> no_overlap sl inputs s = Fine s tt -> no_overlap sl inputs s' = Fine s' tt.
Proof. intros G. unfold no_overlap, mbind, get, beyond_unless. rewrite G. destruct (_ && _)%bool; [reflexivity|discriminate]. Qed.
Lemma columns_stale s d K P b i : let ct := g_terms s (slot_of_driver d) in
  no_overlap (slot_of_driver d) (buf_of (ct_ptr ct "k") ++ buf_of (cp_k (g_lin s)) ++ buf_of (cp_p (g_lin s))) s = Fine s tt ->
  cp_n (g_lin s) = zlen K -> List.length P = List.length K -> reads s (cp_k (g_lin s)) K -> reads s (cp_p (g_lin s)) P ->
  ct_ptr ct "k" = Some (b, i) -> alive s b = false -> (0 < ct_n ct)%Z -> c_columns d s = Crash UseAfterFree.
Proof.
  intros ct Ov En L Rk Rp Ek A H. unfold c_columns, get. unfold mbind at 1. fold ct. rewrite (bind_Fine _ _ _ _ _ Ov). rewrite (bind_Fine _ _ _ _ _ (table_ok _ _ _ _ En L Rk Rp)). unfold mbind at 1. rewrite Ek, (read_n_dead s b i _ A H). reflexivity.
Qed.
Lemma stale_terms s o c K P ks p s2 v x y d : wf s -> temps s = [] -> set_up s o K P ks -> class_of s o = Some c -> ks <> [] -> driver_of c (set_flag x) (set_flag y) = Some d -> d <> D_B ->
  (forall a, assoc (dict_of s o) "k" = Some a -> only_at s o "k" (a_buf a)) -> replaces_k o p -> step p s = Fine s2 v -> step (Run_terms o x y) s2 = Crash UseAfterFree.
Proof.
  intros W Tm S C Ne Dr Nb Oa Rp St. destruct (bound_of _ _ _ _ _ S) as (c' & sl & l & C' & El & [T0 L0 Ap]). rewrite C in C'. injection C' as <-. destruct S as ((Ho & l' & El' & _ & Dt) & _ & _). rewrite El in El'. injection El' as <-.
  destruct (class_obj _ _ _ C) as (ob & E & Co). pose proof (nth_error_lt _ _ _ E) as Lo. pose proof (i_hand _ _ _ _ L0) as Hl. pose proof (reach_hand _ _ W Hl) as Rl.
  pose proof (armed_of s o c sl l K P ks W (reach_var _ _ Ho) Rl T0 L0 Ap) as Ar.
  assert (Ll : l < List.length (objects s)) by (unfold lin_of in El; rewrite E in El; apply (wf_link _ W _ _ _ E); auto).
  destruct (t_col _ _ _ _ _ T0 "k" (k_field c)) as (ka & Ea & Fa & La). specialize (Oa ka Ea). rewrite k_name in Fa. destruct Fa as (Ek & _ & _ & _ & xs & Eb & _).
  set (F := around s [l] (fun _ => True) True [o] (fun _ => True) False False).
  assert (Al : allowed F s p).
  { assert (Fd : free_dict F s o). { intros ob' E' (z & oz & [<-|[]] & Ez & D). exact (Dt _ _ E' Ez (eq_sym D)). }
    destruct p; try contradiction; cbn in Rp |- *; [|subst; exact Fd]. revert Rp. repeat (match goal with |- match ?z with _ => _ end -> _ => destruct z end; try (intros []; fail)). intros <-. exact Fd. }
  pose proof (step_frame fuel suave1 suave12 F s p (around_inv _ _ _ _ _ _ _ _ W) ltac:(intros z [<-|[]]; exact Lo) Al) as Kp. pose proof (step_wf fuel suave1 suave12 s p W) as W2. rewrite St in Kp, W2. destruct Kp as (_ & Kp). destruct W2 as (W2 & Tm2).
  assert (Nob : nob (a_buf ka) s2).
  { assert (Lb : a_buf ka < List.length (blocks s)) by (eapply nth_error_lt, Eb). unfold Process.step in St. destruct p; try contradiction; cbn [replaces_k] in Rp.
    - assert (Rp' : x0 = "k" /\ o0 = o /\ exists xs, v0 = Values xs). { revert Rp. repeat (match goal with |- match ?z with _ => _ end -> _ => destruct z end; try (intros []; fail)). eauto. }
      destruct Rp' as (-> & -> & ys & ->). cbn [statement] in St. unfold nothing in St. unfold mbind at 1 in St. rewrite (bind_Fine _ _ _ _ _ (obj_ok _ _ _ (reach_var _ _ Ho) E)) in St. rewrite item_eq in St. cbn in St. injection St as <- _.
      destruct (item_nob s o ob "k" ys (a_buf ka) W E Lb Oa). constructor; [exact nb_lt0|exact nb_dict0|exact nb_no0].
    - subst o0. cbn [statement] in St. unfold nothing in St. unfold mbind at 1 in St. rewrite (bind_Fine _ _ _ _ _ (obj_ok _ _ _ (reach_var _ _ Ho) E)) in St. destruct (py_pad_k o (o_class ob) k x0 im s) as [s3 []| | |] eqn:X; try discriminate St. cbn in St. injection St as <- _.
      destruct (pad_nob s o ob k x0 im (a_buf ka) s3 W E Lb Oa X). constructor; [exact nb_lt0|exact nb_dict0|exact nb_no0]. }
  destruct (kp_obj _ _ _ Kp _ _ E) as (ob2 & E2 & C2 & _ & Ob). specialize (Ob (or_introl eq_refl)). subst ob2. destruct (kp_numpy _ _ _ Kp _ _ Eb) as (zs & Eb2 & _). pose proof (lost_dead s2 _ zs Tm2 (nob_lost _ _ Nob) Eb2) as Dead.
  pose proof (kp_vars _ _ _ Kp o I Ho) as Ho2.
  assert (Hl2 : at_hand s2 l) by (right; exists o; split; [exact Ho2|]; unfold lin_of in *; rewrite E2; rewrite E in El; exact El).
  pose proof (kept_lin_is _ _ _ _ _ _ _ _ _ Kp l K P (or_introl eq_refl) I Hl2 Ll L0) as L2. pose proof (reach_hand _ _ W2 Hl2) as Rl2.
  pose proof (kp_slot _ _ _ Kp sl I) as G. pose proof (kp_lin _ _ _ Kp I) as Gl.
  assert (Lk : exists lk, assoc (dict_of s2 l) "k" = Some lk) by (pose proof (i_k _ _ _ _ L2) as X; unfold column_of in X; destruct (assoc (dict_of s2 l) "k"); [eauto|discriminate]). destruct Lk as (lk & Elk).
  assert (Lp : exists lp, assoc (dict_of s2 l) "pk" = Some lp) by (pose proof (i_p _ _ _ _ L2) as X; unfold column_of in X; destruct (assoc (dict_of s2 l) "pk"); [eauto|discriminate]). destruct Lp as (lp & Elp).
  pose proof (i_k _ _ _ _ L2) as Xk. rewrite (column_faces _ _ _ _ Elk) in Xk. injection Xk as Xk. pose proof (i_p _ _ _ _ L2) as Xp. rewrite (column_faces _ _ _ _ Elp) in Xp. injection Xp as Xp.
  pose proof (faces_reads s2 l "k" lk _ K Rl2 Elk (proj1 (i_kptr _ _ _ _ L2 _ Elk)) Xk) as Rk. pose proof (faces_reads s2 l "pk" lp _ P Rl2 Elp (proj1 (i_pptr _ _ _ _ L2 _ Elp)) Xp) as Rpp.
  assert (Sl : slot_of_driver d = sl). { pose proof (t_slot _ _ _ _ _ T0) as X. destruct c; try discriminate; cbn in Dr, X; injection Dr as <-; injection X as <-; reflexivity. }
  assert (Cs : c_columns d s2 = Crash UseAfterFree).
  { apply (columns_stale s2 d K P (a_buf ka) (a_off ka)); rewrite ?Sl, ?G, ?Gl.
    - apply (overlap_ext s s2 sl); [exact G|]. apply (overlap_ok suave1 suave12 s sl (size_of (zlen ks))); [exact (ar_out _ _ _ _ _ Ar)|exact (ar_apart _ _ _ _ _ Ar)].
    - apply (ar_lin _ _ _ _ _ Ar).
    - apply (ar_len _ _ _ _ _ Ar).
    - rewrite <- Gl. exact Rk.
    - rewrite <- Gl. exact Rpp.
    - exact Ek.
    - exact Dead.
    - rewrite (t_n _ _ _ _ _ T0). apply zlen_pos, Ne. }
  assert (Ct : has_ctype (o_class ob) = true) by (pose proof (t_slot _ _ _ _ _ T0) as X; rewrite <- Co in X; destruct (o_class ob); try discriminate X; reflexivity).
  unfold Process.step. cbn [statement]. unfold nothing. unfold mbind at 1. rewrite (bind_Fine _ _ _ _ _ (regpt_ok s2 o ob (reach_var _ _ Ho2) E2 Ct)). unfold py_run_terms. subst c.
  destruct (o_class ob) eqn:Ec; try discriminate Dr; cbn in Dr; injection Dr as <-; try (exfalso; apply Nb; reflexivity); unfold c_run_terms, mbind; rewrite Cs; reflexivity.
Qed.
End Replaced.
