(** ProofProcess23: copy() and deepcopy(). *)
From Coq Require Import ZArith List String Bool Lia PeanoNat.
From Verif Require Import Base Num Common Kernels Integrals Registry PyTerms Threads SpecThreads Process SpecProcess ProofThreads2 ProofThreads3 ProofScratch3 ProofPy ProofProcess ProofProcess2 ProofProcess3 ProofProcess4 ProofProcess5 ProofProcess6 ProofProcess7 ProofProcess8 ProofProcess9 ProofProcess10 ProofProcess11 ProofProcess12 ProofProcess13 ProofProcess14 ProofProcess15 ProofProcess16 ProofProcess17 ProofProcess18 ProofProcess22.
Import ListNotations.
Local Open Scope string_scope.
Local Open Scope nat_scope.

Section Copies.
Context {N : Num}.
Notation T := (T N).
Notation state := (state N).
Implicit Types (s : state) (o l : nat).
Variables (fuel : nat) (suave1 : (list T -> res T) -> res T) (suave12 : (list T -> res (list T)) -> res (list T)).
Notation step := (step fuel suave1 suave12).
Notation execute := (execute fuel suave1 suave12).

(** ** copy() *)
Lemma step_table s p o ob : wf s -> nth_error (objects s) o = Some ob -> after (step p s) (fun s' => exists ob', nth_error (objects s') o = Some ob' /\ o_class ob' = o_class ob /\ o_dict ob' = o_dict ob).
Proof.
  intros W E. assert (A : after (step p s) (fun s' => inv F0 s' /\ keep F0 s s')).
  { apply step_frame; [apply inv0, W|intros x []|]. destruct p; cbn; unfold info_kept, verb_kept, is_class; cbn; try tauto; try apply free0.
    - split; [apply free0|]. intros ob' _ sl _ [].
    - intros ob' _. repeat split; auto; [intros _; apply free0|intros X; destruct X]. }
  destruct (step p s); cbn in *; auto; destruct A as (_ & A); destruct (kp_obj _ _ _ A _ _ E) as (ob' & E' & C & D & _); eauto.
Qed.
Lemma execute_table ps : forall s s2 o ob, wf s -> nth_error (objects s) o = Some ob -> execute ps s = Some s2 -> exists ob', nth_error (objects s2) o = Some ob' /\ o_class ob' = o_class ob /\ o_dict ob' = o_dict ob.
Proof.
  induction ps as [|p ps IH]; intros s s2 o ob W E X; cbn in X; [injection X as <-; eauto|].
  pose proof (step_wf fuel suave1 suave12 s p W) as W'. pose proof (step_table s p o ob W E) as A. destruct (step p s); try discriminate X; cbn in *.
  all: destruct A as (ob1 & E1 & C1 & D1); destruct (IH _ _ _ _ (proj1 W') E1 X) as (ob2 & E2 & C2 & D2); exists ob2; repeat split; congruence.
Qed.
Lemma copy_step s o ob : In o (vars s) -> nth_error (objects s) o = Some ob ->
  let n := List.length (objects s) in exists s', step (Copy o) s = Fine s' [] /\ vars s' = n :: vars s /\ nth_error (objects s') n = Some ob /\ nth_error (objects s') o = Some ob.
Proof.
  intros Ho E n. unfold Process.step. cbn [statement]. unfold nothing, mbind. rewrite (obj_ok _ _ _ (reach_var _ _ Ho) E). unfold py_copy, mbind, new_object, set_obj, hold, modify, ret.
  eexists. split; [reflexivity|]. pose proof (nth_error_lt _ _ _ E) as L.
  assert (X : forall ob0, upd (objects s ++ [ob0]) n ob = (objects s ++ [ob])%list).
  { intros ob0. unfold n. clear. induction (objects s) as [|h t IH]; cbn; [reflexivity|]. f_equal. exact IH. }
  destruct (has_ctype (o_class ob)); cbn; rewrite nth_error_app2, Nat.sub_diag by lia; cbn; (split; [reflexivity|]); fold n; rewrite X; (split; [rewrite nth_error_app2, Nat.sub_diag by (unfold n; lia); reflexivity|rewrite nth_error_app1 by lia; exact E]).
Qed.
Lemma copy_shares s o c : wf s -> In o (vars s) -> class_of s o = Some c ->
  let n := List.length (objects s) in exists s', step (Copy o) s = Fine s' [] /\ vars s' = n :: vars s /\ class_of s' n = Some c /\ lin_of s' n = lin_of s o /\ forall ps s2 x, execute ps s' = Some s2 -> column_of s2 n x = column_of s2 o x.
Proof.
  intros W Ho C n. destruct (class_obj _ _ _ C) as (ob & E & Co). destruct (copy_step s o ob Ho E) as (s' & St & V & En & Eo). exists s'. split; [exact St|]. split; [exact V|].
  split; [unfold class_of; fold n in En; rewrite En; cbn; congruence|]. split; [unfold lin_of; fold n in En; rewrite En, E; reflexivity|].
  intros ps s2 x X. pose proof (step_wf fuel suave1 suave12 s (Copy o) W) as W'. rewrite St in W'. destruct W' as (W' & _).
  destruct (execute_table ps s' s2 _ _ W' En X) as (o1 & E1 & _ & D1). destruct (execute_table ps s' s2 _ _ W' Eo X) as (o2 & E2 & _ & D2). unfold column_of, dict_of. fold n in E1. rewrite E1, E2, D1, D2. reflexivity.
Qed.

(** ** deepcopy() *)
Fixpoint copies (nb : nat) (d : list (string * array)) : list (string * array) :=
  match d with [] => [] | (x, a) :: t => (x, mkArray nb 0 1 (a_len a) (a_2d a)) :: copies (S nb) t end.
Lemma dict_set_new (d : list (string * array)) x a : ~ In x (map fst d) -> dict_set d x a = (d ++ [(x, a)])%list.
Proof. induction d as [|[y b] t IH]; cbn; [reflexivity|]. intros H. destruct (String.eqb_spec y x); [tauto|]. rewrite IH by tauto. reflexivity. Qed.
Lemma np_get_inv s a s' v : sound s a -> np_get a s = Fine s' v -> s' = s /\ v = elements s a.
Proof.
  intros S E. destruct (alive s (a_buf a)) eqn:A; [rewrite (np_get_ok s a S A) in E; injection E as <- <-; auto|]. unfold np_get, mbind, block in E. rewrite A in E. discriminate.
Qed.
Lemma sound_more s s' a : (forall b x, nth_error (blocks s) b = Some x -> nth_error (blocks s') b = Some x) -> sound s a -> sound s' a /\ elements s' a = elements s a.
Proof. intros H (L & xs & E & B). split; [split; [exact L|]; exists xs; auto|]. unfold elements, contents. rewrite E, (H _ _ E). reflexivity. Qed.
Lemma do_all_inv {A} (f : A -> M N unit) x (t : list A) s s2 : do_all f (x :: t) s = Fine s2 tt -> exists s1, f x s = Fine s1 tt /\ do_all f t s1 = Fine s2 tt.
Proof.
  unfold do_all. cbn [each_]. unfold mbind, ret. destruct (f x s) as [s1 []| | |]; try discriminate. intros H. exists s1. split; [reflexivity|]. destruct (each_ f t s1); try discriminate H. exact H.
Qed.
Definition copy_item (n : nat) (xa : string * array) : M N unit :=
  mbind (np_get (snd xa)) (fun v => mbind (np_new v) (fun a => py_setitem n (fst xa) (mkArray (a_buf a) (a_off a) (a_step a) (a_len a) (a_2d (snd xa))))).
Lemma copy_loop n ob ds (d : list (string * array)) : forall s acc s2, nth_error (objects s) n = Some ob -> o_dict ob = List.length ds -> dicts s = (ds ++ [acc])%list -> NoDup (map fst (acc ++ d)) -> (forall xa, In xa d -> sound s (snd xa)) ->
  do_all (copy_item n) d s = Fine s2 tt ->
  s2 = with_dicts (with_blocks s (blocks s ++ map (fun xa => (Numpy, elements s (snd xa))) d)) (ds ++ [(acc ++ copies (List.length (blocks s)) d)%list]).
Proof.
  induction d as [|[x a] t IH]; intros s acc s2 E D Ds Nd S X.
  - cbn in X. injection X as <-. cbn. rewrite !app_nil_r. destruct s; cbn in *. subst. reflexivity.
  - apply do_all_inv in X as (s1 & X1 & X2). unfold copy_item in X1. cbn [fst snd] in X1. unfold mbind at 1 in X1. destruct (np_get a s) as [s' v| | |] eqn:G; try discriminate X1.
    destruct (np_get_inv s a s' v (S (x, a) (or_introl eq_refl)) G) as (-> & ->). unfold np_new, mbind, new_block, ret in X1. cbn [a_buf a_off a_step a_len] in X1. unfold py_setitem, modify in X1. cbn [objects with_blocks dicts] in X1. rewrite E in X1.
    injection X1 as <-. rewrite D, Ds, app_nth2, Nat.sub_diag in X2 by lia. cbn [nth] in X2.
    assert (Nx : ~ In x (map fst acc)) by (rewrite map_app in Nd; cbn in Nd; apply NoDup_remove_2 in Nd; rewrite in_app_iff in Nd; tauto). rewrite dict_set_new in X2 by exact Nx.
    assert (U : upd (ds ++ [acc]) (List.length ds) (acc ++ [(x, mkArray (List.length (blocks s)) 0 1 (zlen (elements s a)) (a_2d a))])%list = (ds ++ [(acc ++ [(x, mkArray (List.length (blocks s)) 0 1 (zlen (elements s a)) (a_2d a))])])%list).
    { clear. induction ds as [|h u IHu]; cbn; [reflexivity|]. f_equal. exact IHu. }
    rewrite U in X2. clear U. set (a' := mkArray _ _ _ _ _) in X2. set (s1 := with_dicts _ _) in X2.
    assert (Bm : forall b y, nth_error (blocks s) b = Some y -> nth_error (blocks s1) b = Some y) by (intros b y Hb; cbn; rewrite nth_error_app1; [exact Hb|eapply nth_error_lt, Hb]).
    assert (La : zlen (elements s a) = a_len a) by (apply elements_length, (S (x, a) (or_introl eq_refl))).
    assert (S1 : forall xa, In xa t -> sound s1 (snd xa)) by (intros xa Hx; apply (sound_more s s1 _ Bm), S; right; exact Hx).
    assert (Nd' : NoDup (map fst ((acc ++ [(x, a')]) ++ t)%list)) by (rewrite !map_app in *; rewrite <- app_assoc; exact Nd).
    specialize (IH s1 (acc ++ [(x, a')])%list s2 E D eq_refl Nd' S1 X2). rewrite IH. cbn [blocks with_dicts with_blocks s1]. rewrite app_length. cbn [List.length]. rewrite Nat.add_1_r.
    assert (El : map (fun xa : string * array => (Numpy, elements s1 (snd xa))) t = map (fun xa => (Numpy, elements s (snd xa))) t).
    { apply map_ext_in. intros xa Hx. f_equal. apply (sound_more s s1 _ Bm), S. right. exact Hx. }
    rewrite El. cbn [map copies snd]. rewrite <- !app_assoc. cbn [List.app]. unfold a'. rewrite La. reflexivity.
Qed.
(** More blocks, dicts and objects, the old ones unchanged *)
Record extends s s' : Prop := {
  ex_block : forall b x, nth_error (blocks s) b = Some x -> nth_error (blocks s') b = Some x;
  ex_dict : forall i x, nth_error (dicts s) i = Some x -> nth_error (dicts s') i = Some x;
  ex_obj : forall o x, nth_error (objects s) o = Some x -> nth_error (objects s') o = Some x;
  ex_blocks : List.length (blocks s) <= List.length (blocks s');
  ex_dicts : List.length (dicts s) <= List.length (dicts s');
  ex_objects : List.length (objects s) <= List.length (objects s');
  ex_vars : vars s' = vars s;
  ex_lin : g_lin s' = g_lin s;
  ex_terms : g_terms s' = g_terms s;
  ex_conf : g_conf s' = g_conf s }.
Lemma extends_refl s : extends s s. Proof. constructor; auto. Qed.
Lemma extends_trans (a b c : state) : extends a b -> extends b c -> extends a c.
Proof. intros [] []. constructor; eauto; try lia; congruence. Qed.
Lemma nth_mono {A} (l m : list A) i d : (forall x, nth_error l i = Some x -> nth_error m i = Some x) -> i < List.length l -> nth i m d = nth i l d.
Proof. intros H L. destruct (nth_error l i) as [x|] eqn:E; [|apply nth_error_None in E; lia]. rewrite (nth_error_nth _ _ _ E), (nth_error_nth _ _ _ (H x eq_refl)). reflexivity. Qed.
Record readable (m : nat) s : Prop := {
  rb_len : m <= List.length (objects s);
  rb_dict : forall o ob, o < m -> nth_error (objects s) o = Some ob -> o_dict ob < List.length (dicts s);
  rb_lin : forall o ob l, o < m -> nth_error (objects s) o = Some ob -> o_lin ob = Some l -> l < m;
  rb_sound : forall o xa, o < m -> In xa (dict_of s o) -> sound s (snd xa);
  rb_names : forall o, o < m -> NoDup (map fst (dict_of s o)) }.
Lemma ex_dict_of s s' m o : extends s s' -> readable m s -> o < m -> dict_of s' o = dict_of s o.
Proof.
  intros X R L. unfold dict_of. pose proof (rb_len _ _ R). destruct (nth_error (objects s) o) as [ob|] eqn:E; [|apply nth_error_None in E; lia]. rewrite (ex_obj _ _ X _ _ E).
  apply nth_mono; [intros; eapply ex_dict; eauto|eapply rb_dict; eauto].
Qed.
Lemma ex_elements s s' a : extends s s' -> sound s a -> elements s' a = elements s a.
Proof. intros X S. apply (sound_more s s' a (ex_block _ _ X) S). Qed.
Lemma ex_column s s' m o x : extends s s' -> readable m s -> o < m -> column_of s' o x = column_of s o x.
Proof.
  intros X R L. unfold column_of. rewrite (ex_dict_of s s' m) by assumption. destruct (assoc (dict_of s o) x) as [a|] eqn:E; [|reflexivity]. cbn. f_equal. apply ex_elements; [exact X|]. apply (rb_sound _ _ R o (x, a) L). apply assoc_In, E.
Qed.
Lemma ex_readable s s' m : extends s s' -> readable m s -> readable m s'.
Proof.
  intros X R. pose proof (rb_len _ _ R) as Lm. assert (O : forall o, o < m -> nth_error (objects s') o = nth_error (objects s) o).
  { intros o L. destruct (nth_error (objects s) o) as [ob|] eqn:E; [apply (ex_obj _ _ X _ _ E)|apply nth_error_None in E; lia]. }
  constructor.
  - pose proof (ex_objects _ _ X). lia.
  - intros o ob L E. rewrite O in E by exact L. pose proof (rb_dict _ _ R _ _ L E). pose proof (ex_dicts _ _ X). lia.
  - intros o ob l L E. rewrite O in E by exact L. apply (rb_lin _ _ R _ _ _ L E).
  - intros o xa L H. rewrite (ex_dict_of s s' m) in H by assumption. apply (sound_more s s' _ (ex_block _ _ X)), (rb_sound _ _ R o xa L H).
  - intros o L. rewrite (ex_dict_of s s' m) by assumption. apply (rb_names _ _ R o L).
Qed.
Lemma readable_wf s : wf s -> readable (List.length (objects s)) s.
Proof.
  intros W. constructor; auto.
  - intros o ob _ E. apply (wf_dict _ W _ _ E).
  - intros o ob l _ E El. apply (wf_link _ W _ _ _ E). auto.
  - intros o [x a] _ H. eapply sound_dict; eauto.
  - intros o _. apply dict_names, W.
Qed.
(** [n], in [s'], has columns of its own which equal those of [o] in [s]. *)
Record fresh_copy s s' o n : Prop := {
  fc_class : class_of s' n = class_of s o;
  fc_table : forall obn, nth_error (objects s') n = Some obn -> List.length (dicts s) <= o_dict obn < List.length (dicts s');
  fc_column : forall x, column_of s' n x = column_of s o x;
  fc_block : forall x a, In (x, a) (dict_of s' n) -> List.length (blocks s) <= a_buf a /\ sound s' a }.
Lemma copies_In d : forall nb x a, In (x, a) (copies nb d) -> nb <= a_buf a.
Proof. induction d as [|[y b] t IH]; cbn; [tauto|]. intros nb x a [[= <- <-]|H]; [cbn; lia|]. apply IH in H. lia. Qed.
Lemma copies_assoc (f : array -> list T) (bl : list (owner * list T)) d : forall pre x, (forall xa, In xa d -> zlen (f (snd xa)) = a_len (snd xa)) -> bl = (pre ++ map (fun xa => (Numpy, f (snd xa))) d)%list ->
  match assoc (copies (List.length pre) d) x with
  | Some a' => exists a, assoc d x = Some a /\ a_off a' = 0%Z /\ a_step a' = 1%Z /\ a_len a' = a_len a /\ nth_error bl (a_buf a') = Some (Numpy, f a)
  | None => assoc d x = None end.
Proof.
  induction d as [|[y b] t IH]; intros pre x Ln ->; cbn [copies assoc]; [reflexivity|]. destruct (String.eqb_spec x y) as [->|Ne].
  - exists b. repeat split; auto. cbn [a_buf map snd]. rewrite nth_error_app2, Nat.sub_diag by lia. reflexivity.
  - specialize (IH (pre ++ [(Numpy, f b)])%list x). rewrite app_length in IH. cbn [List.length] in IH. rewrite Nat.add_1_r in IH. apply IH; [intros; apply Ln; right; assumption|]. rewrite <- app_assoc. reflexivity.
Qed.
Lemma new_object_eq s c : exists s1, new_object c [] s = Fine s1 (List.length (objects s)) /\ blocks s1 = blocks s /\ dicts s1 = (dicts s ++ [[]])%list /\
  objects s1 = (objects s ++ [mkObj c (List.length (dicts s)) None None None (if has_ctype c then Some "info" else None)])%list /\ vars s1 = vars s /\ g_lin s1 = g_lin s /\ g_terms s1 = g_terms s /\ g_conf s1 = g_conf s.
Proof. unfold new_object. eexists. split; [reflexivity|]. destruct (has_ctype c); repeat split. Qed.
Lemma copied s o ob s2 : nth_error (objects s) o = Some ob -> (forall xa, In xa (dict_of s o) -> sound s (snd xa)) -> NoDup (map fst (dict_of s o)) -> o_dict ob < List.length (dicts s) ->
  mbind (new_object (o_class ob) []) (fun n => mbind get (fun s => mbind (do_all (copy_item n) (dict_of s o)) (fun _ => ret n))) s = Fine s2 (List.length (objects s)) ->
  extends s s2 /\ fresh_copy s s2 o (List.length (objects s)) /\ lin_of s2 (List.length (objects s)) = None /\ List.length (objects s2) = S (List.length (objects s)).
Proof.
  intros E Sd Nd Ld X. set (n := List.length (objects s)) in *. destruct (new_object_eq s (o_class ob)) as (s1 & E1 & B1 & D1 & O1 & V1 & L1 & T1 & C1). rewrite (bind_Fine _ _ _ _ _ E1) in X. unfold mbind, get, ret in X. fold n in E1, O1.
  assert (Do : dict_of s1 o = dict_of s o).
  { unfold dict_of. rewrite O1, nth_error_app1, E by (eapply nth_error_lt, E). rewrite D1. rewrite app_nth1 by exact Ld. reflexivity. }
  rewrite Do in X. fold n in X. destruct (do_all (copy_item n) (dict_of s o) s1) as [s3 []| | |] eqn:Lp; try discriminate X. injection X as <-.
  set (obn := mkObj _ _ _ _ _ _) in O1. assert (En : nth_error (objects s1) n = Some obn) by (rewrite O1, nth_error_app2, Nat.sub_diag by (unfold n; lia); reflexivity).
  assert (S1 : forall xa, In xa (dict_of s o) -> sound s1 (snd xa)) by (intros xa H; unfold sound; rewrite B1; apply Sd, H).
  pose proof (copy_loop n obn (dicts s) (dict_of s o) s1 [] s3 En eq_refl D1 Nd S1 Lp) as ->. cbn [List.app].
  assert (El : forall a, elements s1 a = elements s a) by (intros a; unfold elements, contents; rewrite B1; reflexivity).
  set (s3 := with_dicts _ _) in *. assert (B3 : blocks s3 = (blocks s ++ map (fun xa => (Numpy, elements s (snd xa))) (dict_of s o))%list).
  { cbn. rewrite B1. f_equal. apply map_ext. intros xa. rewrite El. reflexivity. }
  assert (D3 : dicts s3 = (dicts s ++ [copies (List.length (blocks s)) (dict_of s o)])%list) by (cbn; rewrite B1; reflexivity).
  assert (O3 : objects s3 = (objects s ++ [obn])%list) by exact O1.
  assert (Dn : dict_of s3 n = copies (List.length (blocks s)) (dict_of s o)).
  { unfold dict_of at 1. rewrite O3, nth_error_app2, Nat.sub_diag by (unfold n; lia). cbn [nth_error o_dict obn]. rewrite D3, app_nth2, Nat.sub_diag by lia. reflexivity. }
  assert (Ex : extends s s3).
  { assert (Mono : forall A (l m : list A) i x, nth_error l i = Some x -> nth_error (l ++ m) i = Some x) by (intros; rewrite nth_error_app1; [assumption|eapply nth_error_lt; eassumption]).
    constructor; [rewrite B3; auto|rewrite D3; auto|rewrite O3; auto|rewrite B3, app_length; lia|rewrite D3, app_length; lia|rewrite O3, app_length; lia|assumption..]. }
  assert (Lz : forall xa, In xa (dict_of s o) -> zlen (elements s (snd xa)) = a_len (snd xa)) by (intros xa H; apply elements_length, (Sd xa H)).
  split; [exact Ex|]. split; [|split; [unfold lin_of; rewrite O3, nth_error_app2, Nat.sub_diag by (unfold n; lia); reflexivity|rewrite O3, app_length; cbn; unfold n; lia]].
  constructor.
  - unfold class_of. rewrite O3, nth_error_app2, Nat.sub_diag by (unfold n; lia). rewrite E. reflexivity.
  - intros ob' E'. rewrite O3, nth_error_app2, Nat.sub_diag in E' by (unfold n; lia). injection E' as <-. cbn [o_dict obn]. rewrite D3, app_length. cbn. lia.
  - intros x. unfold column_of. rewrite Dn. pose proof (copies_assoc (elements s) (blocks s3) (dict_of s o) (blocks s) x Lz B3) as A. destruct (assoc (copies _ _) x) as [a'|]; [|rewrite A; reflexivity].
    destruct A as (a & -> & O0 & St & La & Bl). cbn [option_map]. f_equal. unfold elements at 1, contents. rewrite Bl, O0, St, La.
    transitivity (map (fun i => nth (Z.to_nat i) (elements s a) (nZ N 0)) (indices (a_len a))); [apply map_ext; intros i; f_equal; lia|]. unfold elements at 2. apply map_ext_in. intros i Hi. apply In_indices in Hi.
    pose proof (elements_nth s a i Hi) as Y. apply (nth_error_nth _ _ (nZ N 0)) in Y. exact Y.
  - intros x a' H. rewrite Dn in H. split; [eapply copies_In, H|].
    assert (Nd' : NoDup (map fst (copies (List.length (blocks s)) (dict_of s o)))).
    { clear -Nd. generalize (List.length (blocks s)). induction (dict_of s o) as [|[y b] t IH]; cbn; intros k; [constructor|]. cbn in Nd. inversion Nd as [|u v H1 H2]; subst. constructor; [|apply IH, H2].
      intros H. apply H1. revert H. clear. generalize (S k). induction t as [|[z c] t IH]; cbn; [tauto|]. intros m [H|H]; [left; exact H|right; eapply IH, H]. }
    assert (As : assoc (copies (List.length (blocks s)) (dict_of s o)) x = Some a').
    { revert H Nd'. generalize (copies (List.length (blocks s)) (dict_of s o)). clear. intros d. induction d as [|[y b] t IH]; cbn; [tauto|]. intros [[= -> ->]|H] Nd; [rewrite String.eqb_refl; reflexivity|]. inversion Nd as [|u v H1 H2]; subst.
      destruct (String.eqb_spec x y) as [->|]; [|auto]. destruct H1. apply (in_map fst) in H. exact H. }
    pose proof (copies_assoc (elements s) (blocks s3) (dict_of s o) (blocks s) x Lz B3) as A. rewrite As in A. destruct A as (a & Ea & O0 & St & La & Bl). assert (Sa := Sd (x, a) (assoc_In _ _ _ Ea)). cbn in Sa.
    unfold sound. rewrite La, O0, St. split; [apply Sa|]. exists (elements s a). split; [exact Bl|]. intros i Hi. rewrite (elements_length s a) by apply Sa. lia.
Qed.
Definition front o (c : pyclass) : M N nat := mbind (new_object c []) (fun n => mbind get (fun s => mbind (do_all (copy_item n) (dict_of s o)) (fun _ => ret n))).
Lemma front_assoc {A} o c (k : nat -> M N A) s : mbind (new_object c []) (fun n => mbind get (fun s => mbind (do_all (copy_item n) (dict_of s o)) (fun _ => k n))) s = mbind (front o c) k s.
Proof. unfold front, mbind, get, ret. destruct (new_object c [] s) as [s1 n| | |]; try reflexivity. destruct (do_all _ _ s1); reflexivity. Qed.
Lemma front_n o c s s2 n : front o c s = Fine s2 n -> n = List.length (objects s).
Proof.
  unfold front. destruct (new_object_eq s c) as (s1 & E1 & _). rewrite (bind_Fine _ _ _ _ _ E1). unfold mbind, get, ret. destruct (do_all _ _ s1); try discriminate. intros [= _ <-]. reflexivity.
Qed.
Lemma deep_eq depth s o ob : nth_error (objects s) o = Some ob -> py_deepcopy depth o s = mbind (front o (o_class ob)) (fun n => if has_ctype (o_class ob) then mbind (attribute (o_lin ob)) (fun l => match depth with O => fun _ => Beyond | S depth =>
    mbind (py_deepcopy depth l) (fun l' => mbind (set_obj n (fun ob => mkObj (o_class ob) (o_dict ob) (Some l') (o_dt ob) (o_tt ob) (o_verbose ob))) (fun _ => ret n)) end) else ret n) s.
Proof.
  intros E. rewrite <- front_assoc. destruct depth; cbn [py_deepcopy]; rewrite (bind_Fine _ _ s s ob) by (rewrite E; reflexivity); reflexivity.
Qed.
Lemma fresh_column s s' o n x a : fresh_copy s s' o n -> In (x, a) (dict_of s' n) -> sound s' a. Proof. intros F H. apply (fc_block _ _ _ _ F _ _ H). Qed.
Lemma deep_ok depth : forall s o m s' n, readable m s -> o < m -> py_deepcopy depth o s = Fine s' n ->
  extends s s' /\ n = List.length (objects s) /\ n < List.length (objects s') /\ fresh_copy s s' o n /\
  match class_of s o with
  | Some c => if has_ctype c then exists l l', lin_of s o = Some l /\ lin_of s' n = Some l' /\ fresh_copy s s' l l' /\ n < l' < List.length (objects s') else lin_of s' n = None
  | None => False
  end.
Proof.
  induction depth as [|depth IH]; intros s o m s' n R L X.
  all: pose proof (rb_len _ _ R) as Lm; destruct (nth_error (objects s) o) as [ob|] eqn:E; [|apply nth_error_None in E; lia].
  all: rewrite (deep_eq _ _ _ _ E) in X; unfold mbind at 1 in X; destruct (front o (o_class ob) s) as [s2 n2| | |] eqn:Fr; try discriminate X; pose proof (front_n _ _ _ _ _ Fr) as ->.
  all: destruct (copied s o ob s2 E (fun xa => rb_sound _ _ R o xa L) (rb_names _ _ R o L) (rb_dict _ _ R _ _ L E) Fr) as (Ex & Fc & Ln & Lo); rewrite (class_at _ _ _ E).
  all: destruct (has_ctype (o_class ob)) eqn:H.
  2, 4: injection X as <- <-; repeat (split; [assumption || reflexivity || lia|]); exact Ln.
  - unfold mbind, attribute in X. destruct (o_lin ob); discriminate X.
  - unfold mbind, attribute in X. destruct (o_lin ob) as [l|] eqn:El; [|discriminate X]. unfold ret at 1 in X. destruct (py_deepcopy depth l s2) as [s3 l'| | |] eqn:Dp; try discriminate X.
    pose proof (rb_lin _ _ R _ _ _ L E El) as Ll. pose proof (ex_readable _ _ _ Ex R) as R2. destruct (IH s2 l m s3 l' R2 Ll Dp) as (Ex3 & -> & Lt & Fc3 & _). rewrite Lo in *.
    set (n0 := List.length (objects s)) in *. destruct (nth_error (objects s2) n0) as [obn|] eqn:En; [|apply nth_error_None in En; lia].
    pose proof (ex_obj _ _ Ex3 _ _ En) as En3. unfold set_obj, modify, ret in X. rewrite En3 in X. injection X as <- <-.
    set (s4 := with_objects _ _). set (on := mkObj _ _ _ _ _ _) in s4.
    assert (O4 : forall i, nth_error (objects s4) i = if Nat.eqb n0 i then Some on else nth_error (objects s3) i).
    { intros i. cbn. rewrite nth_error_upd. destruct (Nat.eqb_spec n0 i) as [<-|]; [rewrite En3|]; reflexivity. }
    assert (Dc : forall i, dict_of s4 i = dict_of s3 i).
    { intros i. unfold dict_of. rewrite O4. destruct (Nat.eqb_spec n0 i) as [<-|]; [rewrite En3|]; reflexivity. }
    assert (Ex4 : extends s s4).
    { pose proof (extends_trans _ _ _ Ex Ex3) as X. destruct X. constructor; auto.
      - intros i x Hi. rewrite O4. destruct (Nat.eqb_spec n0 i) as [<-|]; [apply nth_error_lt in Hi; unfold n0 in Hi; lia|auto].
      - cbn. rewrite upd_length. assumption. }
    assert (Dn : dict_of s3 n0 = dict_of s2 n0).
    { unfold dict_of. rewrite En3, En. apply nth_mono; [intros x Hx; apply (ex_dict _ _ Ex3 _ _ Hx)|apply (fc_table _ _ _ _ Fc), En]. }
    split; [exact Ex4|]. split; [reflexivity|]. split; [cbn; rewrite upd_length; lia|]. split.
    + constructor.
      * rewrite <- (fc_class _ _ _ _ Fc). unfold class_of. rewrite O4, Nat.eqb_refl, En. reflexivity.
      * intros ob' E'. rewrite O4, Nat.eqb_refl in E'. injection E' as <-. cbn. pose proof (fc_table _ _ _ _ Fc _ En). pose proof (ex_dicts _ _ Ex3). lia.
      * intros x. rewrite <- (fc_column _ _ _ _ Fc). unfold column_of. rewrite Dc, Dn. destruct (assoc (dict_of s2 n0) x) as [a|] eqn:Ea; [|reflexivity]. cbn [option_map]. f_equal.
        change (elements s4 a) with (elements s3 a). apply ex_elements; [exact Ex3|]. eapply fresh_column; [exact Fc|apply assoc_In, Ea].
      * intros x a Ha. rewrite Dc, Dn in Ha. destruct (fc_block _ _ _ _ Fc _ _ Ha) as (Lb & Sa). split; [exact Lb|]. destruct (sound_more s2 s3 a (ex_block _ _ Ex3) Sa) as (X & _). exact X.
    + exists l, (S n0). split; [unfold lin_of; rewrite E; exact El|]. split; [unfold lin_of; rewrite O4, Nat.eqb_refl; reflexivity|]. split; [|cbn; rewrite upd_length; lia].
      assert (Ne : Nat.eqb n0 (S n0) = false) by (apply Nat.eqb_neq; lia). constructor.
      * unfold class_of at 1. rewrite O4, Ne. fold (class_of s3 (S n0)). rewrite (fc_class _ _ _ _ Fc3). unfold class_of. destruct (nth_error (objects s) l) as [ol|] eqn:Eol; [rewrite (ex_obj _ _ Ex _ _ Eol); reflexivity|apply nth_error_None in Eol; unfold n0 in *; lia].
      * intros ob' E'. rewrite O4, Ne in E'. pose proof (fc_table _ _ _ _ Fc3 _ E'). pose proof (ex_dicts _ _ Ex). cbn. lia.
      * intros x. transitivity (column_of s3 (S n0) x); [unfold column_of; rewrite Dc; reflexivity|]. rewrite (fc_column _ _ _ _ Fc3). eapply ex_column; eauto.
      * intros x a Ha. rewrite Dc in Ha. destruct (fc_block _ _ _ _ Fc3 _ _ Ha) as (Lb & Sa). pose proof (ex_blocks _ _ Ex). split; [lia|exact Sa].
Qed.
End Copies.
