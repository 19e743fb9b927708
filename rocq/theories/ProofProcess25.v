(** ProofProcess25: pointers of the library to arrays which are gone. *)
From Coq Require Import ZArith List String Bool Lia PeanoNat.
From Verif Require Import Base Num Common Kernels Integrals Registry PyTerms Threads SpecThreads Process SpecProcess ProofThreads2 ProofThreads3 ProofScratch3 ProofPy ProofProcess ProofProcess2 ProofProcess3 ProofProcess4 ProofProcess5 ProofProcess6 ProofProcess7 ProofProcess8 ProofProcess9 ProofProcess10 ProofProcess11 ProofProcess12 ProofProcess13 ProofProcess14 ProofProcess15 ProofProcess16 ProofProcess17 ProofProcess22 ProofProcess23.
Import ListNotations.
Local Open Scope string_scope.
Local Open Scope nat_scope.

Section Gone.
Context {N : Num}.
Notation T := (T N).
Notation state := (state N).
Implicit Types (s : state) (o l : nat).
Variables (fuel : nat) (suave1 : (list T -> res T) -> res T) (suave12 : (list T -> res (list T)) -> res (list T)).
Notation step := (step fuel suave1 suave12).
Notation execute := (execute fuel suave1 suave12).

Lemma reached_temps s : reached fuel suave1 suave12 s -> temps s = [].
Proof.
  intros (ps & E). revert E. assert (H : forall s0, temps s0 = [] -> execute ps s0 = Some s -> temps s = []); [|apply H; reflexivity].
  induction ps as [|p ps IH]; cbn [Process.execute]; intros s0 H0 E; [injection E as <-; exact H0|].
  unfold Process.step in E. destruct (statement _ _ _ p s0) as [s1 v|e s1| |]; try discriminate; eapply IH; [|exact E| |exact E]; reflexivity.
Qed.
(** A block no reachable object has an array in is not allocated. *)
Lemma lost_dead s b xs : temps s = [] -> lost s b -> nth_error (blocks s) b = Some (Numpy, xs) -> alive s b = false.
Proof.
  intros Tm L E. unfold alive. rewrite E. destruct (mem b (held s)) eqn:M; [|reflexivity]. apply mem_In in M. unfold held in M. rewrite Tm in M. cbn in M. apply in_flat_map in M as (o & Ho & M). apply in_map_iff in M as ([x a] & <- & Ha). exfalso. exact (L o x a Ho Ha eq_refl).
Qed.
Lemma read_dead s b i j : alive s b = false -> c_read (Some (b, i)) j s = Crash UseAfterFree.
Proof. intros A. unfold c_read, mbind, place, ret, block. rewrite A. reflexivity. Qed.
Lemma indices_pos n : (0 < n)%Z -> exists t, indices n = 0%Z :: t.
Proof. intros H. unfold indices. destruct (Z.to_nat n) eqn:E; [lia|]. cbn. eauto. Qed.
Lemma read_n_dead s b i n : alive s b = false -> (0 < n)%Z -> c_read_n (Some (b, i)) n s = Crash UseAfterFree.
Proof. intros A H. unfold c_read_n. destruct (indices_pos n H) as (t & ->). cbn [each_]. unfold mbind at 1. rewrite (read_dead s b i 0 A). reflexivity. Qed.
Lemma table_dead s b i : cp_k (g_lin s) = Some (b, i) -> alive s b = false -> (0 < cp_n (g_lin s))%Z -> c_table (g_lin s) s = Crash UseAfterFree.
Proof. intros E A H. unfold c_table. rewrite E. unfold place. unfold mbind at 1, ret at 1. unfold mbind at 1. rewrite (read_n_dead s b i _ A H). reflexivity. Qed.
Lemma stale_lin s b i xs x c : temps s = [] -> cp_k (g_lin s) = Some (b, i) -> (0 < cp_n (g_lin s))%Z -> nth_error (blocks s) b = Some (Numpy, xs) -> lost s b -> In x (vars s) -> class_of s x = Some c -> has_ctype c = true ->
  (forall k im, step (Find_pk_lin x k im) s = Crash UseAfterFree) /\ (forall k uv, step (Sigmad2 x k uv) s = Crash UseAfterFree).
Proof.
  intros Tm E H B L Hx C Ct. pose proof (lost_dead s b xs Tm L B) as A. destruct (class_obj _ _ _ C) as (ox & Ex & <-).
  split; intros; unfold Process.step; cbn [statement]; rewrite (bind_Fine _ _ _ _ _ (regpt_ok _ _ _ (reach_var _ _ Hx) Ex Ct)); [unfold py_find_pk_lin|unfold py_sigmad2]; unfold mbind, get; rewrite (table_dead s b i E A H); reflexivity.
Qed.
(** ** The linear spectrum *)
Definition new_lin s (K P : list T) : state :=
  let n := List.length (blocks s) in
  with_objects (with_dicts (with_blocks s ((blocks s ++ [(Numpy, K)]) ++ [(Numpy, P)])) (dicts s ++ [[("k", mkArray n 0 1 (zlen K) false); ("pk", mkArray (S n) 0 1 (zlen P) false)]])) (objects s ++ [mkObj CLin (List.length (dicts s)) None None None None]).
Lemma set_pk_lin_eq s o K P : py_set_pk_lin o K P s = py_set_spectrum_lin o (List.length (objects s)) (new_lin s K P).
Proof.
  unfold py_set_pk_lin. unfold mbind at 1. rewrite np_new_eq. unfold mbind at 1. rewrite np_new_eq. unfold mbind, new_object. cbn [has_ctype]. cbn -[py_set_spectrum_lin]. unfold new_lin.
  replace (List.length (blocks s ++ [(Numpy, K)])) with (S (List.length (blocks s))) by (rewrite app_length; cbn; lia). reflexivity.
Qed.
Section NewLin.
Variables (s : state) (K P : list T).
Hypothesis W : wf s.
Notation n := (List.length (blocks s)).
Notation l := (List.length (objects s)).
Lemma nl_dict_new : dict_of (new_lin s K P) l = [("k", mkArray n 0 1 (zlen K) false); ("pk", mkArray (S n) 0 1 (zlen P) false)].
Proof. unfold dict_of, new_lin. cbn. rewrite nth_error_snoc, Nat.eqb_refl. cbn. rewrite app_nth2, Nat.sub_diag by lia. reflexivity. Qed.
Lemma nl_dict x : x < l -> dict_of (new_lin s K P) x = dict_of s x.
Proof.
  intros Hx. unfold dict_of. cbn. rewrite nth_error_snoc, (proj2 (Nat.eqb_neq _ _)) by lia. destruct (nth_error (objects s) x) as [ox|] eqn:Ex; [|reflexivity]. rewrite app_nth1; [reflexivity|]. apply (wf_dict _ W _ _ Ex).
Qed.
Lemma nl_obj x ob : nth_error (objects s) x = Some ob -> nth_error (objects (new_lin s K P)) x = Some ob.
Proof. intros E. cbn. apply nth_error_old, E. Qed.
Lemma nl_k : nth_error (blocks (new_lin s K P)) n = Some (Numpy, K).
Proof. cbn. apply nth_error_old. rewrite nth_error_app2, Nat.sub_diag by lia. reflexivity. Qed.
Lemma nl_p : nth_error (blocks (new_lin s K P)) (S n) = Some (Numpy, P).
Proof. change (blocks (new_lin s K P)) with ((blocks s ++ [(Numpy, K)]) ++ [(Numpy, P)])%list. rewrite nth_error_app2 by (rewrite app_length; cbn; lia). rewrite app_length. cbn [List.length]. replace (S n - (n + 1)) with 0 by lia. reflexivity. Qed.
Lemma nl_old b : b < n -> nth_error (blocks (new_lin s K P)) b = nth_error (blocks s) b.
Proof. intros H. cbn. rewrite nth_error_app1 by (rewrite app_length; lia). apply nth_error_app1, H. Qed.
(** In which objects an array of a block can be *)
Lemma nl_used o ob ob' x y a : nth_error (objects s) o = Some ob -> o_dict ob' = o_dict ob -> In (y, a) (dict_of (with_attr (new_lin s K P) o ob') x) -> n <= a_buf a -> x = l.
Proof.
  intros E D H L. rewrite (attr_dict _ _ ob) in H by (apply nl_obj || exact D; exact E). destruct (Nat.lt_trichotomy x l) as [Hx|[Hx|Hx]]; [|exact Hx|].
  - rewrite nl_dict in H by exact Hx. pose proof (dict_block _ _ _ _ W H). lia.
  - unfold dict_of in H. cbn in H. rewrite nth_error_snoc, (proj2 (Nat.eqb_neq _ _)) in H by lia. rewrite (proj2 (nth_error_None _ _)) in H by lia. destruct H.
Qed.
(** Which objects lead to the new one *)
Lemma nl_links o ob y : nth_error (objects s) o = Some ob -> In l (links (with_attr (new_lin s K P) o (lin_attr ob l)) y) -> y = o.
Proof.
  intros E H. destruct (Nat.eq_dec o y) as [|Ne]; [congruence|]. exfalso. unfold links in H. cbn [objects with_attr with_objects new_lin] in H. rewrite nth_error_upd, (proj2 (Nat.eqb_neq _ _) Ne), nth_error_snoc in H.
  destruct (Nat.eqb_spec y l); [cbn in H; destruct H|]. destruct (nth_error (objects s) y) as [oy|] eqn:Ey; [|destruct H].
  assert (X : l < l); [|lia]. apply (wf_link _ W y oy l Ey). rewrite !in_app_iff in H. destruct (o_lin oy), (o_dt oy), (o_tt oy); cbn in H; intuition (subst; auto).
Qed.
End NewLin.
Lemma closure_inv s : forall n m x, In x (closure s n m) -> In x m \/ exists y, In y (closure s n m) /\ In x (links s y).
Proof.
  induction n as [|n IH]; intros m x H; cbn in *; [auto|]. apply IH in H as [H|(y & Hy & H)]; [|right; eauto]. apply in_app_or in H as [H|H]; [auto|]. apply in_flat_map in H as (y & Hy & H). right. exists y. split; [|exact H]. apply closure_incl, in_or_app. auto.
Qed.
Lemma reach_inv s x : In x (reachable s) -> In x (vars s) \/ exists y, In y (reachable s) /\ In x (links s y).
Proof. apply closure_inv. Qed.
(** set_pk_lin: the new state *)
Definition lin_state s o ob K P : state := with_lin (with_attr (new_lin s K P) o (lin_attr ob (List.length (objects s)))) (mkCpk (zlen K) (Some (List.length (blocks s), 0%Z)) (Some (S (List.length (blocks s)), 0%Z))).
Lemma set_pk_lin_state s o ob K P : wf s -> In o (vars s) -> nth_error (objects s) o = Some ob -> List.length P = List.length K -> printable s K -> py_set_pk_lin o K P s = Fine (lin_state s o ob K P) tt.
Proof.
  intros W Ho E L Pr. rewrite set_pk_lin_eq. set (l := List.length (objects s)). destruct (new_faces _ _ _ eq_refl _ (nl_k s K P)) as [Fk Xk]. destruct (new_faces _ _ _ eq_refl _ (nl_p s K P)) as [Fp Xp].
  destruct (set_spectrum_lin_ok (new_lin s K P) o ob l _ _ K P Ho (nl_obj s K P o ob E) ltac:(unfold l; rewrite nl_dict_new; reflexivity) ltac:(unfold l; rewrite nl_dict_new; reflexivity) eq_refl eq_refl Fk Fp Xk Xp L Pr) as (R & _). exact R.
Qed.
Lemma set_pk_lin_throws s o ob K P : wf s -> nth_error (objects s) o = Some ob -> List.length P <> List.length K -> py_set_pk_lin o K P s = Throws ArgumentError (with_attr (new_lin s K P) o (lin_attr ob (List.length (objects s)))).
Proof.
  intros W E L. rewrite set_pk_lin_eq. set (l := List.length (objects s)). set (s3 := new_lin s K P). set (s4 := with_attr _ _ _). assert (E3 : nth_error (objects s3) o = Some ob) by apply nl_obj, E.
  assert (D4 : dict_of s4 l = [("k", mkArray (List.length (blocks s)) 0 1 (zlen K) false); ("pk", mkArray (S (List.length (blocks s))) 0 1 (zlen P) false)]) by (unfold s4; rewrite (attr_dict _ _ ob) by auto; apply nl_dict_new).
  unfold py_set_spectrum_lin. rewrite (bind_Fine _ _ s3 s4 tt) by (unfold set_obj, modify; rewrite E3; reflexivity).
  rewrite (bind_Fine _ _ _ _ _ (size_ok s4 l _ ltac:(rewrite D4; reflexivity) eq_refl)). cbn [a_len].
  rewrite (bind_Fine _ _ _ _ _ (getitem_ok s4 l "k" _ ltac:(rewrite D4; reflexivity))). rewrite (bind_Fine _ _ _ _ _ (getitem_ok s4 l "pk" _ ltac:(rewrite D4; reflexivity))).
  rewrite (bind_Fine _ _ _ _ _ (pointer_ok s4 (zlen K) (mkArray (List.length (blocks s)) 0 1 (zlen K) false) eq_refl eq_refl)). unfold mbind at 1, np_pointer. cbn [a_len a_2d]. rewrite (proj2 (Z.eqb_neq _ _)) by (unfold zlen; lia). reflexivity.
Qed.
Lemma zlen_pos (K : list T) : K <> [] -> (0 < zlen K)%Z. Proof. destruct K; [congruence|]. intros _. unfold zlen. cbn. lia. Qed.
(** The object whose spectrum the library uses is dropped. *)
Lemma drop_dangles s o c x cx K P : wf s -> temps s = [] -> In o (vars s) -> class_of s o = Some c -> has_ctype c = true -> List.length P = List.length K -> printable s K -> K <> [] ->
  exists s1 s2, step (Set_pk_lin o K P) s = Fine s1 [] /\ step (Drop o) s1 = Fine s2 [] /\
    (~ In o (reachable s2) -> In x (vars s2) -> class_of s2 x = Some cx -> has_ctype cx = true -> (forall k im, step (Find_pk_lin x k im) s2 = Crash UseAfterFree) /\ (forall k uv, step (Sigmad2 x k uv) s2 = Crash UseAfterFree)).
Proof.
  intros W Tm Ho C Ct L Pr Ne. destruct (class_obj _ _ _ C) as (ob & E & Co). subst c. eexists _, _. split; [unfold Process.step; cbn [statement]; rewrite (nothing_ok s (lin_state s o ob K P)); [reflexivity|]|split; [reflexivity|]].
  { rewrite (bind_Fine _ _ _ _ _ (regpt_ok _ _ _ (reach_var _ _ Ho) E Ct)). apply set_pk_lin_state; assumption. }
  set (s2 := with_temps _ _). intros Nr Hx Cx Ctx. set (l := List.length (objects s)). assert (Nl : ~ In l (reachable s2)).
  { intros H. apply reach_inv in H as [H|(y & Hy & H)].
    - cbn in H. assert (X : In l (vars s)) by (revert H; clear; induction (vars s) as [|v t IH]; cbn; [auto|]; destruct (Nat.eqb v o); cbn; tauto). pose proof (wf_vars _ W _ X). unfold l in *. lia.
    - apply (nl_links s K P W o ob y E) in H. subst y. exact (Nr Hy). }
  apply (stale_lin s2 (List.length (blocks s)) 0 K x cx); auto.
  - cbn. apply zlen_pos, Ne.
  - apply (nl_k s K P).
  - intros y z a Hy Ha Eb. apply (nl_used s K P W o ob (lin_attr ob l) y z a E eq_refl) in Ha; [|lia]. subst y. exact (Nl Hy).
Qed.
(** set_pk_lin fails after it has replaced the linear spectrum of the object. *)
Lemma failed_dangles s o c K P K' P' : wf s -> temps s = [] -> In o (vars s) -> class_of s o = Some c -> has_ctype c = true -> List.length P = List.length K -> printable s K -> K <> [] -> List.length P' <> List.length K' ->
  exists s1 s2, step (Set_pk_lin o K P) s = Fine s1 [] /\ step (Set_pk_lin o K' P') s1 = Throws ArgumentError s2 /\
    (exists l, lin_of s2 o = Some l /\ column_of s2 l "k" = Some K' /\ column_of s2 l "pk" = Some P') /\ (forall k im, step (Find_pk_lin o k im) s2 = Crash UseAfterFree) /\ (forall k uv, step (Sigmad2 o k uv) s2 = Crash UseAfterFree).
Proof.
  intros W Tm Ho C Ct L Pr Ne L'. destruct (class_obj _ _ _ C) as (ob & E & Co). subst c. set (l := List.length (objects s)).
  assert (S1 : step (Set_pk_lin o K P) s = Fine (with_temps (lin_state s o ob K P) []) []).
  { unfold Process.step. cbn [statement]. rewrite (nothing_ok s (lin_state s o ob K P)); [reflexivity|]. rewrite (bind_Fine _ _ _ _ _ (regpt_ok _ _ _ (reach_var _ _ Ho) E Ct)). apply set_pk_lin_state; assumption. }
  set (s1 := with_temps _ _) in S1. pose proof (step_wf fuel suave1 suave12 s (Set_pk_lin o K P) W) as W1. rewrite S1 in W1. destruct W1 as (W1 & _).
  assert (E1 : nth_error (objects s1) o = Some (lin_attr ob l)) by (cbn; rewrite nth_error_upd, Nat.eqb_refl, (nth_error_old _ _ _ _ E); reflexivity).
  set (l' := List.length (objects s1)). assert (Ll : l' = S l) by (unfold l'; cbn; rewrite upd_length, app_length; cbn; fold l; lia).
  set (ob2 := lin_attr (lin_attr ob l) l'). set (s2 := with_attr (new_lin s1 K' P') o ob2).
  exists s1, (with_temps s2 []). split; [exact S1|]. split.
  { unfold Process.step. cbn [statement]. unfold nothing, mbind at 1. rewrite (bind_Fine _ _ _ _ _ (regpt_ok s1 o _ (reach_var s1 _ Ho) E1 Ct)). rewrite (set_pk_lin_throws s1 o _ K' P' W1 E1 L'). reflexivity. }
  assert (E2 : nth_error (objects s2) o = Some ob2) by (unfold s2; cbn [objects with_attr with_objects]; rewrite nth_error_upd, Nat.eqb_refl, (nl_obj s1 K' P' _ _ E1); reflexivity).
  assert (D2 : dict_of s2 l' = [("k", mkArray (List.length (blocks s1)) 0 1 (zlen K') false); ("pk", mkArray (S (List.length (blocks s1))) 0 1 (zlen P') false)]).
  { unfold s2. rewrite (attr_dict _ _ (lin_attr ob l)) by (apply nl_obj, E1 || reflexivity). apply nl_dict_new. }
  split.
  { exists l'. split; [change (lin_of s2 o = Some l'); unfold lin_of; rewrite E2; reflexivity|]. destruct (new_faces _ _ _ eq_refl _ (nl_k s1 K' P')) as [_ Xk]. destruct (new_faces _ _ _ eq_refl _ (nl_p s1 K' P')) as [_ Xp].
    split; [change (column_of s2 l' "k" = Some K')|change (column_of s2 l' "pk" = Some P')]; unfold column_of; rewrite D2; [exact (f_equal Some Xk)|exact (f_equal Some Xp)]. }
  assert (Nl : ~ In l (reachable (with_temps s2 []))).
  { intros H. apply reach_inv in H as [H|(y & Hy & H)].
    - pose proof (wf_vars _ W _ H). unfold l in *. lia.
    - change (In l (links s2 y)) in H. destruct (Nat.eq_dec o y) as [<-|Nye].
      + unfold links in H. rewrite E2 in H. cbn [ob2 lin_attr o_lin o_dt o_tt] in H. assert (X : l < l); [|lia]. apply (wf_link _ W o ob l E). rewrite !in_app_iff in H. destruct H as [[H|[]]|[H|H]]; [lia|destruct (o_dt ob) as [z|]; [|destruct H]; destruct H as [<-|[]]; auto|destruct (o_tt ob) as [z|]; [|destruct H]; destruct H as [<-|[]]; auto].
      + assert (X : In l (links s1 y)).
        { unfold links in H |- *. unfold s2 in H. cbn [objects with_attr with_objects new_lin] in H. rewrite nth_error_upd, (proj2 (Nat.eqb_neq _ _) Nye), nth_error_snoc in H. fold l' in H. destruct (Nat.eqb_spec y l'); [cbn in H; destruct H|]. exact H. }
        apply (nl_links s K P W o ob y E) in X. congruence. }
  assert (C2 : class_of (with_temps s2 []) o = Some (o_class ob)) by (unfold class_of; change (objects (with_temps s2 [])) with (objects s2); rewrite E2; reflexivity).
  assert (Bs : List.length (blocks s1) = S (S (List.length (blocks s)))) by (cbn; rewrite !app_length; cbn; lia).
  apply (stale_lin (with_temps s2 []) (List.length (blocks s)) 0 K o (o_class ob)); auto.
  - cbn. apply zlen_pos, Ne.
  - change (nth_error (blocks (new_lin s1 K' P')) (List.length (blocks s)) = Some (Numpy, K)). rewrite (nl_old s1 K' P') by (rewrite Bs; lia). apply (nl_k s K P).
  - intros y z a Hy Ha Eb. change (In (z, a) (dict_of s2 y)) in Ha. destruct (Nat.lt_trichotomy y l') as [Hy'|[->|Hy']].
    + unfold s2 in Ha. rewrite (attr_dict _ _ (lin_attr ob l)) in Ha by (apply nl_obj, E1 || reflexivity). rewrite (nl_dict s1 K' P' W1 y Hy') in Ha. apply (nl_used s K P W o ob (lin_attr ob l) y z a E eq_refl) in Ha; [|lia]. subst y. exact (Nl Hy).
    + rewrite D2 in Ha. destruct Ha as [Ha|[Ha|[]]]; apply (f_equal (fun z => a_buf (snd z))) in Ha; cbn [snd a_buf] in Ha; rewrite Bs in Ha; lia.
    + unfold dict_of in Ha. unfold s2 in Ha. cbn [objects with_attr with_objects new_lin] in Ha. rewrite (proj2 (nth_error_None _ _)) in Ha by (rewrite upd_length, app_length; cbn [List.length]; fold l'; lia). destruct Ha.
Qed.
End Gone.
