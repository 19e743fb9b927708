(** ProofProcess9: set_pk_lin and set_terms make the library work on the arrays of an object. *)
From Coq Require Import ZArith List String Bool Lia PeanoNat.
From Verif Require Import Base Num Common Kernels Integrals Registry PyTerms Threads SpecThreads Process SpecProcess ProofThreads2 ProofProcess ProofProcess2 ProofProcess3 ProofProcess4 ProofProcess5 ProofProcess6 ProofProcess7 ProofProcess8.
Import ListNotations.
Local Open Scope string_scope.
Local Open Scope nat_scope.

Section Exact.
Context {N : Num}.
Notation T := (T N).
Notation state := (state N).
Implicit Types (s : state) (o l : nat).

Lemma obj_ok s o ob : In o (reachable s) -> nth_error (objects s) o = Some ob -> @obj N o s = Fine s ob.
Proof. intros H E. unfold obj. rewrite (proj2 (mem_In _ _) H), E. reflexivity. Qed.
Lemma regpt_ok s o ob : In o (reachable s) -> nth_error (objects s) o = Some ob -> has_ctype (o_class ob) = true -> @regpt N o s = Fine s ob.
Proof. intros H E C. unfold regpt. rewrite (bind_Fine _ _ _ _ _ (obj_ok _ _ _ H E)), C. reflexivity. Qed.
Lemma getitem_ok s o x a : assoc (dict_of s o) x = Some a -> @py_getitem N o x s = Fine s a.
Proof. intros E. unfold py_getitem, mbind, get. rewrite E. reflexivity. Qed.
Lemma size_ok s o a : assoc (dict_of s o) "k" = Some a -> a_2d a = false -> @py_size N o s = Fine s (a_len a).
Proof. intros E D. unfold py_size. rewrite (bind_Fine _ _ _ _ _ (getitem_ok _ _ _ _ E)). unfold mbind, beyond_unless. rewrite D. reflexivity. Qed.
Lemma pointer_ok s n a : a_len a = n -> a_2d a = false -> @np_pointer N n a s = Fine s (Some (a_buf a, a_off a)).
Proof. intros <- D. unfold np_pointer. rewrite Z.eqb_refl, D. reflexivity. Qed.
Lemma nothing_ok s s' m : m s = Fine s' tt -> @nothing N m s = Fine s' [].
Proof. intros E. unfold nothing. rewrite (bind_Fine _ _ _ _ _ E). reflexivity. Qed.
Lemma print_ok s p xs : reads s p xs -> printable s xs -> when_info (c_print p (zlen xs)) s = Fine s tt.
Proof.
  intros R [B Ne]. unfold when_info, mbind, get. destruct (g_verbose s) eqn:V; try reflexivity. specialize (Ne eq_refl).
  assert (L : (0 < zlen xs)%Z) by (destruct xs; [congruence|unfold zlen; cbn; lia]). change (c_print p (zlen xs) s = Fine s tt). unfold c_print.
  rewrite (bind_Fine _ _ _ _ _ (read_ok _ _ _ 0%Z R ltac:(lia))). rewrite (bind_Fine _ _ _ _ _ (read_ok _ _ _ (u64 (zlen xs - 1)) R ltac:(unfold u64; rewrite Z.mod_small by lia; lia))). reflexivity.
Qed.
Lemma printable_ext s s' xs : g_verbose s' = g_verbose s -> printable s xs -> printable s' xs. Proof. unfold printable. intros ->. auto. Qed.

(** ** The linear spectrum *)
Definition with_attr s o ob : state := with_objects s (upd (objects s) o ob).
Definition lin_attr ob l := mkObj (o_class ob) (o_dict ob) (Some l) (o_dt ob) (o_tt ob) (o_verbose ob).
Definition whole a : ptr := Some (a_buf a, a_off a).
Lemma attr_dict s o ob ob' x : nth_error (objects s) o = Some ob -> o_dict ob' = o_dict ob -> dict_of (with_attr s o ob') x = dict_of s x.
Proof. intros E D. unfold dict_of, with_attr. cbn. rewrite nth_error_upd. destruct (Nat.eqb_spec o x) as [<-|]; [|reflexivity]. rewrite E, D. reflexivity. Qed.
Lemma set_spectrum_lin_ok s o ob l ka pa K P : In o (vars s) -> nth_error (objects s) o = Some ob -> assoc (dict_of s l) "k" = Some ka -> assoc (dict_of s l) "pk" = Some pa ->
  a_2d ka = false -> a_2d pa = false -> faces s ka (whole ka) -> faces s pa (whole pa) -> elements s ka = K -> elements s pa = P -> List.length P = List.length K -> printable s K ->
  let s' := with_lin (with_attr s o (lin_attr ob l)) (mkCpk (zlen K) (whole ka) (whole pa)) in
  py_set_spectrum_lin o l s = Fine s' tt /\ lin_is s' l K P /\ lin_of s' o = Some l.
Proof.
  intros Ho Eo Ek Ep Dk Dp Fk Fp <- <- L Pr s'. set (s1 := with_attr s o (lin_attr ob l)).
  assert (Lk : zlen (elements s ka) = a_len ka) by (apply elements_length; destruct Fk as (_ & _ & _ & X & _); exact X).
  assert (Lp : a_len pa = a_len ka). { rewrite <- Lk. rewrite <- (elements_length s pa) by (destruct Fp as (_ & _ & _ & X & _); exact X). unfold zlen. lia. }
  assert (D1 : forall x, dict_of s1 x = dict_of s x) by (intros x; apply (attr_dict _ _ ob); auto).
  assert (D2 : forall x, dict_of s' x = dict_of s x) by exact D1.
  assert (Eo' : nth_error (objects s') o = Some (lin_attr ob l)) by (cbn; rewrite nth_error_upd, Nat.eqb_refl, Eo; reflexivity).
  assert (Lo : lin_of s' o = Some l) by (unfold lin_of; rewrite Eo'; reflexivity).
  split; [|split; [|exact Lo]].
  - unfold py_set_spectrum_lin. rewrite (bind_Fine _ _ s s1 tt) by (unfold set_obj, modify; rewrite Eo; reflexivity).
    rewrite (bind_Fine _ _ s1 s1 (a_len ka)) by (apply size_ok; [rewrite D1|]; assumption).
    rewrite (bind_Fine _ _ s1 s1 ka) by (apply getitem_ok; rewrite D1; assumption). rewrite (bind_Fine _ _ s1 s1 pa) by (apply getitem_ok; rewrite D1; assumption).
    rewrite (bind_Fine _ _ _ _ _ (pointer_ok s1 (a_len ka) ka eq_refl Dk)). rewrite (bind_Fine _ _ _ _ _ (pointer_ok s1 (a_len ka) pa Lp Dp)).
    unfold c_set_pk_lin. unfold modify, mbind. fold (whole ka) (whole pa). rewrite <- Lk.
    apply (print_ok s' (whole ka) (elements s ka)); [|exact Pr]. apply (faces_reads s' l "k" ka); [|rewrite D2; exact Ek|exact Fk|reflexivity].
    apply (reach_link s' o); [eapply nth_error_lt, Eo'|exact Ho|apply lin_link, Lo].
  - constructor; auto.
    + right. exists o. auto.
    + unfold column_of. rewrite D2, Ek. reflexivity.
    + unfold column_of. rewrite D2, Ep. reflexivity.
    + intros a. rewrite D2, Ek. intros [= <-]. auto.
    + intros a. rewrite D2, Ep. intros [= <-]. auto.
Qed.
(** A new array of numpy *)
Lemma new_faces bs xs s : blocks s = bs -> forall b, nth_error bs b = Some (Numpy, xs) -> let a := mkArray b 0 1 (zlen xs) false in faces s a (whole a) /\ elements s a = xs.
Proof.
  intros <- b E a. split.
  - repeat split; cbn; try (unfold zlen; lia). exists xs. split; [exact E|]. lia.
  - unfold elements, contents. cbn [a a_buf a_off a_step a_len]. rewrite E. rewrite <- (nth_indices xs (nZ N 0)) at 2. apply map_ext. intros i. f_equal. lia.
Qed.
Lemma set_pk_lin_ok s o ob K P : wf s -> In o (vars s) -> nth_error (objects s) o = Some ob -> List.length P = List.length K -> printable s K ->
  exists s' l, py_set_pk_lin o K P s = Fine s' tt /\ lin_is s' l K P /\ lin_of s' o = Some l /\ l = List.length (objects s) /\
    (forall b, b < List.length (blocks s) -> nth_error (blocks s') b = nth_error (blocks s) b) /\
    (forall x, x < List.length (objects s) -> dict_of s' x = dict_of s x) /\
    (forall x a, In (x, a) (dict_of s' l) -> List.length (blocks s) <= a_buf a) /\
    g_terms s' = g_terms s /\ vars s' = vars s /\ g_conf s' = g_conf s /\ g_verbose s' = g_verbose s /\ (forall x, x < List.length (objects s) -> class_of s' x = class_of s x).
Proof.
  intros W Ho Eo L Pr. pose proof (nth_error_lt _ _ _ Eo) as Lo. set (n := List.length (blocks s)). set (ka := mkArray n 0 1 (zlen K) false). set (pa := mkArray (S n) 0 1 (zlen P) false).
  set (l := List.length (objects s)). set (d := [("k", ka); ("pk", pa)]).
  set (s2 := with_blocks s ((blocks s ++ [(Numpy, K)]) ++ [(Numpy, P)])). set (s3 := with_objects (with_dicts s2 (dicts s ++ [d])) (objects s ++ [mkObj CLin (List.length (dicts s)) None None None None])).
  assert (Dl : dict_of s3 l = d) by (unfold dict_of; cbn; rewrite nth_error_snoc, Nat.eqb_refl; cbn; rewrite app_nth2, Nat.sub_diag by lia; reflexivity).
  assert (Do : forall x, x < l -> dict_of s3 x = dict_of s x).
  { intros x Hx. unfold dict_of. cbn. rewrite nth_error_snoc, (proj2 (Nat.eqb_neq _ _)) by (fold l; lia). destruct (nth_error (objects s) x) as [ox|] eqn:Ex; [|reflexivity]. rewrite app_nth1; [reflexivity|]. apply (wf_dict _ W _ _ Ex). }
  assert (Eo3 : nth_error (objects s3) o = Some ob) by (cbn; apply nth_error_old, Eo).
  assert (Bk : nth_error (blocks s3) n = Some (Numpy, K)). { cbn. apply nth_error_old. rewrite nth_error_app2, Nat.sub_diag by (unfold n; lia). reflexivity. }
  assert (Bp : nth_error (blocks s3) (S n) = Some (Numpy, P)). { change (blocks s3) with ((blocks s ++ [(Numpy, K)]) ++ [(Numpy, P)])%list. rewrite nth_error_app2 by (rewrite app_length; cbn; unfold n; lia). rewrite app_length. cbn [List.length]. replace (S n - (List.length (blocks s) + 1)) with 0 by (unfold n; lia). reflexivity. }
  destruct (new_faces _ _ _ eq_refl _ Bk) as [Fk Xk]. destruct (new_faces _ _ _ eq_refl _ Bp) as [Fp Xp]. fold ka in Fk, Xk. fold pa in Fp, Xp.
  destruct (set_spectrum_lin_ok s3 o ob l ka pa K P) as (E & Li & Lf); auto; try (rewrite Dl; reflexivity).
  eexists _, l. split; [|split; [exact Li|split; [exact Lf|]]].
  - unfold py_set_pk_lin. unfold mbind at 1. rewrite np_new_eq. unfold mbind at 1. rewrite np_new_eq. unfold mbind, new_object. cbn [has_ctype]. cbn -[py_set_spectrum_lin].
    replace (List.length (blocks s ++ [(Numpy, K)])) with (S n) by (rewrite app_length; cbn; unfold n; lia). exact E.
  - repeat split; auto.
    + intros b Hb. cbn. rewrite nth_error_app1 by (rewrite app_length; lia). apply nth_error_app1, Hb.
    + intros x Hx. change (dict_of (with_attr s3 o (lin_attr ob l)) x = dict_of s x). rewrite (attr_dict _ _ ob) by auto. apply Do, Hx.
    + intros x a. change (dict_of (with_lin _ _) l) with (dict_of (with_attr s3 o (lin_attr ob l)) l). rewrite (attr_dict _ _ ob), Dl by auto. intros [[= _ <-]|[[= _ <-]|[]]]; cbn; unfold n; lia.
    + intros x Hx. unfold class_of. cbn [objects with_lin with_attr with_objects]. rewrite nth_error_upd. destruct (Nat.eqb_spec o x) as [<-|]; [change (objects s ++ _)%list with (objects s3); rewrite Eo3, Eo; reflexivity|]. cbn. rewrite nth_error_app1 by exact Hx. reflexivity.
Qed.
End Exact.
