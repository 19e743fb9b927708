(** ProofProcess3: what the methods of the objects leave unchanged. *)
From Coq Require Import ZArith List String Bool Lia PeanoNat.
From Verif Require Import Base Num Common Kernels Integrals Registry PyTerms Threads SpecThreads Process SpecProcess ProofThreads2 ProofProcess ProofProcess2.
Import ListNotations.
Local Open Scope string_scope.
Local Open Scope nat_scope.

Lemma assoc_In {A} (l : list (string * A)) x a : assoc l x = Some a -> In (x, a) l.
Proof. induction l as [|[y b] t IH]; cbn; [discriminate|]. destruct (String.eqb_spec x y); [intros [= ->]; left; subst; reflexivity|auto]. Qed.
Lemma assoc_dict_set d x a y : assoc (dict_set d x a) y = if (y =? x)%string then Some a else assoc d y.
Proof.
  induction d as [|[z b] t IH]; cbn.
  - destruct (y =? x)%string; reflexivity.
  - destruct (String.eqb_spec z x) as [->|Nz]; cbn.
    + destruct (y =? x)%string; reflexivity.
    + destruct (String.eqb_spec y z) as [->|]; [rewrite (proj2 (String.eqb_neq z x) Nz); reflexivity|exact IH].
Qed.
Lemma dict_set_names d x a : map fst (dict_set d x a) = if in_dec string_dec x (map fst d) then map fst d else (map fst d ++ [x])%list.
Proof.
  induction d as [|[y b] t IH]; [reflexivity|]. cbn [dict_set map fst]. destruct (String.eqb_spec y x) as [->|Ne].
  - destruct (in_dec string_dec x (x :: map fst t)) as [_|Hn]; [reflexivity|]. destruct Hn. now left.
  - cbn [map fst]. rewrite IH. destruct (in_dec string_dec x (map fst t)) as [Hi|Hn], (in_dec string_dec x (y :: map fst t)) as [Hi'|Hn']; try reflexivity; exfalso.
    + apply Hn'. now right.
    + destruct Hi' as [->|Hi']; tauto.
Qed.
Lemma dict_set_NoDup d x a : NoDup (map fst d) -> NoDup (map fst (dict_set d x a)).
Proof.
  intros H. rewrite dict_set_names. destruct (in_dec _ _ _) as [_|Hn]; [exact H|]. apply NoDup_rev in H. rewrite <- (rev_involutive (_ ++ _)). apply NoDup_rev. rewrite rev_app_distr. cbn.
  constructor; [rewrite <- in_rev; exact Hn|exact H].
Qed.
Lemma dict_set_In d x a y b : In (y, b) (dict_set d x a) -> In (y, b) d \/ b = a.
Proof.
  induction d as [|[z c] t IH]; cbn.
  - intros [[= <- <-]|[]]; auto.
  - destruct (z =? x)%string; cbn; intros [H|H]; auto; [injection H as <- <-; auto|]. destruct (IH H); auto.
Qed.

Section Alloc.
Context {N : Num}.
Notation T := (T N).
Notation state := (state N).
Definition set_item (s : state) o x a : state :=
  match nth_error (objects s) o with Some ob => with_dicts s (upd (dicts s) (o_dict ob) (dict_set (nth (o_dict ob) (dicts s) []) x a)) | None => s end.
Lemma setitem_eq o x a (s : state) : py_setitem o x a s = Fine (set_item s o x a) tt. Proof. reflexivity. Qed.
Definition item (s : state) o x xs : state := set_item (with_blocks s (blocks s ++ [(Numpy, xs)])) o x (mkArray (List.length (blocks s)) 0 1 (zlen xs) false).
Fixpoint alloc (o : nat) (items : list (string * list T)) (s : state) : state := match items with [] => s | (x, xs) :: t => alloc o t (item s o x xs) end.
Definition zero_of (c : pyclass) (ks : list T) (x : string) : list T := repeat (nZ N 0) (Z.to_nat (match ncomp c x with Some m => (zlen ks * m)%Z | None => zlen ks end)).
Definition zero_items (c : pyclass) (ks : list T) : list (string * list T) := ("k", ks) :: flat_map (fun x => if (x =? "k")%string then [] else [(x, zero_of c ks x)]) (fields c).
Lemma zeros_eq o c ks (s : state) : py_zeros o c ks s = Fine (alloc o (zero_items c ks) s) tt.
Proof.
  unfold py_zeros, zero_items. cbn [alloc]. unfold mbind at 1. cbn [np_new new_block mbind ret]. unfold mbind at 1. rewrite setitem_eq. fold (item s o "k" ks).
  generalize (item s o "k" ks). clear s. intros s. unfold do_all, mbind at 1.
  set (f := fun x : string => _). enough (H : forall l s, exists r, each_ f l s = Fine (alloc o (flat_map (fun x => if (x =? "k")%string then [] else [(x, zero_of c ks x)]) l) s) r).
  { destruct (H (fields c) s) as (r & ->). reflexivity. }
  clear s. induction l as [|x t IH]; intros s; cbn [each_ flat_map alloc]; [eexists; reflexivity|].
  assert (E : exists u, f x s = Fine (alloc o (if (x =? "k")%string then [] else [(x, zero_of c ks x)]) s) u).
  { unfold f. destruct (x =? "k")%string; eexists; reflexivity. }
  destruct E as (u & E). unfold mbind at 1. rewrite E. destruct (IH (alloc o (if (x =? "k")%string then [] else [(x, zero_of c ks x)]) s)) as (r & E2). unfold mbind. rewrite E2. eexists.
  replace (alloc o ((if (x =? "k")%string then [] else [(x, zero_of c ks x)]) ++ flat_map (fun x => if (x =? "k")%string then [] else [(x, zero_of c ks x)]) t) s)
    with (alloc o (flat_map (fun x => if (x =? "k")%string then [] else [(x, zero_of c ks x)]) t) (alloc o (if (x =? "k")%string then [] else [(x, zero_of c ks x)]) s)); [reflexivity|].
  destruct (x =? "k")%string; reflexivity.
Qed.
(** All but dicts and blocks *)
Record same_rest (s s' : state) : Prop := { sr_objects : objects s' = objects s; sr_vars : vars s' = vars s; sr_temps : temps s' = temps s; sr_lin : g_lin s' = g_lin s; sr_terms : g_terms s' = g_terms s;
  sr_dt : g_dt s' = g_dt s; sr_tt : g_tt s' = g_tt s; sr_1loop : g_1loop s' = g_1loop s; sr_conf : g_conf s' = g_conf s; sr_verbose : g_verbose s' = g_verbose s }.
Lemma same_rest_refl s : same_rest s s. Proof. constructor; reflexivity. Qed.
Lemma same_rest_trans a b c : same_rest a b -> same_rest b c -> same_rest a c. Proof. intros [] []. constructor; congruence. Qed.
Lemma set_item_rest s o x a : same_rest s (set_item s o x a). Proof. unfold set_item. destruct (nth_error (objects s) o); constructor; reflexivity. Qed.
Lemma set_item_blocks (s : state) o x a : blocks (set_item s o x a) = blocks s. Proof. unfold set_item. destruct (nth_error (objects s) o); reflexivity. Qed.
Lemma item_rest s o x xs : same_rest s (item s o x xs).
Proof. eapply same_rest_trans; [|apply set_item_rest]. constructor; reflexivity. Qed.
Lemma item_blocks s o x xs : blocks (item s o x xs) = (blocks s ++ [(Numpy, xs)])%list. Proof. unfold item. rewrite set_item_blocks. reflexivity. Qed.
Lemma alloc_rest o items : forall s, same_rest s (alloc o items s).
Proof. induction items as [|[x xs] t IH]; intros s; cbn; [apply same_rest_refl|]. eapply same_rest_trans; [apply item_rest|apply IH]. Qed.
Lemma alloc_blocks o items : forall s, blocks (alloc o items s) = (blocks s ++ map (fun it => (Numpy, snd it)) items)%list.
Proof. induction items as [|[x xs] t IH]; intros s; cbn; [rewrite app_nil_r; reflexivity|]. rewrite IH, item_blocks, <- app_assoc. reflexivity. Qed.
Lemma nth_upd {A} (l : list A) i j a d : i < List.length l -> nth j (upd l i a) d = if Nat.eqb i j then a else nth j l d.
Proof.
  intros L. destruct (Nat.eqb_spec i j) as [->|E].
  - apply nth_error_nth. rewrite nth_error_upd, Nat.eqb_refl. destruct (nth_error l j) eqn:X; [reflexivity|]. apply nth_error_None in X. lia.
  - revert i j L E. induction l as [|h t IH]; intros i j L E; cbn in *; [lia|]. destruct i, j; cbn; try reflexivity; try lia. apply IH; lia.
Qed.
Lemma set_item_dict (s : state) o x a o' ob : nth_error (objects s) o = Some ob -> o_dict ob < List.length (dicts s) ->
  dict_of (set_item s o x a) o' = match nth_error (objects s) o' with Some ob' => if Nat.eqb (o_dict ob) (o_dict ob') then dict_set (dict_of s o') x a else dict_of s o' | None => [] end.
Proof.
  intros E L. unfold set_item. rewrite E. unfold dict_of. cbn. destruct (nth_error (objects s) o') as [ob'|]; [|reflexivity]. rewrite nth_upd by exact L.
  destruct (Nat.eqb_spec (o_dict ob) (o_dict ob')) as [->|]; reflexivity.
Qed.
Lemma set_item_dicts (s : state) o x a : List.length (dicts (set_item s o x a)) = List.length (dicts s).
Proof. unfold set_item. destruct (nth_error (objects s) o); cbn; rewrite ?upd_length; reflexivity. Qed.
Lemma alloc_dicts o items : forall s, List.length (dicts (alloc o items s)) = List.length (dicts s).
Proof. induction items as [|[x xs] t IH]; intros s; cbn; [reflexivity|]. rewrite IH. unfold item. rewrite set_item_dicts. reflexivity. Qed.
Lemma alloc_other o items o' ob ob' : forall s, nth_error (objects s) o = Some ob -> o_dict ob < List.length (dicts s) -> nth_error (objects s) o' = Some ob' -> o_dict ob' <> o_dict ob ->
  dict_of (alloc o items s) o' = dict_of s o'.
Proof.
  induction items as [|[x xs] t IH]; intros s E L E' D; cbn; [reflexivity|]. rewrite IH.
  - unfold item. rewrite (set_item_dict _ _ _ _ _ ob) by assumption. cbn. rewrite E'. rewrite (proj2 (Nat.eqb_neq _ _)) by congruence. reflexivity.
  - rewrite (sr_objects _ _ (item_rest s o x xs)). exact E.
  - unfold item. rewrite set_item_dicts. exact L.
  - rewrite (sr_objects _ _ (item_rest s o x xs)). exact E'.
  - exact D.
Qed.
Lemma alloc_absent o items ob y : forall s, nth_error (objects s) o = Some ob -> o_dict ob < List.length (dicts s) -> ~ In y (map fst items) -> assoc (dict_of (alloc o items s) o) y = assoc (dict_of s o) y.
Proof.
  induction items as [|[x xs] t IH]; intros s E L H; cbn in *; [reflexivity|]. rewrite IH.
  - unfold item. rewrite (set_item_dict _ _ _ _ _ ob) by assumption. cbn. rewrite E, Nat.eqb_refl. rewrite assoc_dict_set. rewrite (proj2 (String.eqb_neq y x)) by (intros ->; tauto). reflexivity.
  - rewrite (sr_objects _ _ (item_rest s o x xs)). exact E.
  - unfold item. rewrite set_item_dicts. exact L.
  - tauto.
Qed.
Lemma alloc_at o items ob : forall s i x xs, nth_error (objects s) o = Some ob -> o_dict ob < List.length (dicts s) -> NoDup (map fst items) -> nth_error items i = Some (x, xs) ->
  assoc (dict_of (alloc o items s) o) x = Some (mkArray (List.length (blocks s) + i) 0 1 (zlen xs) false).
Proof.
  induction items as [|[y ys] t IH]; intros s i x xs E L ND Hi; cbn in *; [destruct i; discriminate|]. apply NoDup_cons_iff in ND as [Ny ND].
  assert (E' : nth_error (objects (item s o y ys)) o = Some ob) by (rewrite (sr_objects _ _ (item_rest s o y ys)); exact E).
  assert (L' : o_dict ob < List.length (dicts (item s o y ys))) by (unfold item; rewrite set_item_dicts; exact L).
  destruct i as [|i]; cbn in Hi.
  - injection Hi as -> ->. rewrite (alloc_absent _ _ ob) by assumption. unfold item. rewrite (set_item_dict _ _ _ _ _ ob) by assumption. cbn. rewrite E, Nat.eqb_refl, assoc_dict_set, String.eqb_refl, Nat.add_0_r. reflexivity.
  - rewrite (IH _ i x xs E' L' ND Hi). rewrite item_blocks, app_length. cbn. f_equal. f_equal. lia.
Qed.
Lemma zero_names c ks : map fst (zero_items c ks) = if has_ctype c then fields c else fields c.
Proof. destruct c; reflexivity. Qed.
Lemma zero_names' c ks : map fst (zero_items c ks) = fields c. Proof. destruct c; reflexivity. Qed.
Lemma fields_NoDup c : NoDup (fields c).
Proof. destruct c; cbn; repeat constructor; cbn; intuition discriminate. Qed.
Lemma zero_item c ks x : In x (fields c) -> exists i, nth_error (zero_items c ks) i = Some (x, if (x =? "k")%string then ks else zero_of c ks x) /\ nth_error (fields c) i = Some x.
Proof.
  intros H. apply In_nth_error in H as (i & H). exists i. split; [|exact H]. rewrite <- (zero_names' c ks) in H. rewrite nth_error_map in H. unfold zero_items in *.
  destruct i as [|i]; cbn in *; [injection H as <-; reflexivity|]. destruct (nth_error (flat_map _ _) i) as [[y ys]|] eqn:E; [|discriminate]. injection H as <-. cbn.
  apply nth_error_In in E. apply in_flat_map in E as (z & _ & Hz). destruct (z =? "k")%string eqn:Z; [destruct Hz|]. destruct Hz as [[= <- <-]|[]]. rewrite Z. reflexivity.
Qed.
End Alloc.

Section Frames3.
Context {N : Num}.
Notation T := (T N).
Notation state := (state N).
Variables (fuel : nat) (suave1 : (list T -> res T) -> res T) (suave12 : (list T -> res (list T)) -> res (list T)).
Variable F : frame.
Notation wp := (ProofProcess.wp (N := N) F).
Notation inv := (ProofProcess.inv (N := N) F).
Ltac pb H := eapply wp_bind; [apply wp_pure; [eassumption|H]|].
Definition free_dict (s : state) o : Prop := forall ob, nth_error (objects s) o = Some ob -> ~ fd F (o_dict ob).
Definition exists_obj (s : state) o : Prop := o < List.length (objects s).
Lemma exists_keep s s' o : keep F s s' -> exists_obj s o -> exists_obj s' o.
Proof. intros K H. pose proof (kp_objects _ _ _ K). unfold exists_obj in *. lia. Qed.
Lemma free_keep s s' o : keep F s s' -> exists_obj s o -> free_dict s o -> free_dict s' o.
Proof.
  intros K L H ob' E. unfold exists_obj in L. apply nth_error_Some in L. destruct (nth_error (objects s) o) as [ob|] eqn:E1; [|congruence].
  destruct (kp_obj _ _ _ K _ _ E1) as (ob2 & E2 & _ & D & _). rewrite E in E2. injection E2 as <-. rewrite D. apply H, E1.
Qed.
Lemma wp_eq {A} s (m : M N A) s' a : wp s m (fun _ _ => True) -> m s = Fine s' a -> wp s m (fun b t => t = s' /\ b = a).
Proof. unfold ProofProcess.wp. intros W E. rewrite E in *. tauto. Qed.
Lemma obj_exists s s' o ob : @obj N o s = Fine s' ob -> exists_obj s o /\ nth_error (objects s) o = Some ob /\ In o (reachable s).
Proof. unfold obj. destruct (mem o (reachable s)) eqn:Mm; [|discriminate]. destruct (nth_error (objects s) o) eqn:E; [|discriminate]. intros [= <- <-]. split; [eapply nth_error_lt, E|]. split; [reflexivity|apply mem_In, Mm]. Qed.
Lemma regpt_exists s s' o ob : @regpt N o s = Fine s' ob -> exists_obj s o /\ nth_error (objects s) o = Some ob /\ has_ctype (o_class ob) = true /\ In o (reachable s).
Proof.
  unfold regpt, mbind. destruct (obj o s) as [s1 ob1| | |] eqn:E; try discriminate. destruct (obj_exists _ _ _ _ E) as (X & Y & Z). destruct (has_ctype (o_class ob1)) eqn:C; [|discriminate].
  intros [= <- <-]. auto.
Qed.
Lemma np_new_eq (xs : list T) s : np_new xs s = Fine (with_blocks s (blocks s ++ [(Numpy, xs)])) (mkArray (List.length (blocks s)) 0 1 (zlen xs) false).
Proof. reflexivity. Qed.
Lemma wp_np_new s (xs : list T) : inv s -> wp s (np_new xs) (fun a s' => a = mkArray (List.length (blocks s)) 0 1 (zlen xs) false /\ s' = with_blocks s (blocks s ++ [(Numpy, xs)]) /\ ~ fb F (a_buf a) /\ sound s' a).
Proof.
  intros I. unfold np_new. eapply wp_bind; [apply wp_new_block, I|]. intros b s1 I1 K1 (-> & -> & Nb). apply wp_ret; [exact I1|]. repeat split; auto; cbn.
  - unfold zlen. lia.
  - exists xs. split; [rewrite nth_error_app2, Nat.sub_diag by lia; reflexivity|]. intros i Hi. lia.
Qed.
Lemma wp_setitem s o x a : inv s -> free_dict s o -> sound s a -> wp s (py_setitem o x a) (fun _ s' => s' = set_item s o x a).
Proof.
  intros I Fd Sa. unfold py_setitem. apply wp_modify; auto; fold (set_item s o x a); unfold set_item; destruct (nth_error (objects s) o) as [ob|] eqn:E; auto using keep_refl.
  - pose proof (wf_dict _ (in_wf _ _ I) _ _ E) as L. destruct I as [[] W B D]. constructor; auto.
    + constructor; cbn; auto; try (intros; rewrite upd_length; eauto; fail).
      2: { intros d Hd. apply In_nth_error in Hd as (i & Hi). rewrite nth_error_upd in Hi. destruct (Nat.eqb_spec (o_dict ob) i) as [Ei|]; [|eapply wf_names, nth_error_In, Hi].
        subst i. destruct (nth_error (dicts s) (o_dict ob)) as [d0|] eqn:E0; [|discriminate]. injection Hi as <-. rewrite (nth_error_nth _ _ _ E0). eapply dict_set_NoDup, wf_names, nth_error_In, E0. }
      intros d y b Hd Hb. apply In_nth_error in Hd as (i & Hi). rewrite nth_error_upd in Hi. destruct (Nat.eqb_spec (o_dict ob) i) as [Ei|].
      * subst i. destruct (nth_error (dicts s) (o_dict ob)) as [d0|] eqn:E0; [|discriminate]. injection Hi as <-. rewrite (nth_error_nth _ _ _ E0) in Hb. apply dict_set_In in Hb as [Hb| ->]; [|exact Sa].
        eapply wf_array; eauto. eapply nth_error_In, E0.
      * eapply wf_array; eauto. eapply nth_error_In, Hi.
    + cbn. intros i Hi. rewrite upd_length. auto.
  - constructor; auto using latched_refl; cbn; eauto; try (rewrite upd_length; lia).
    intros i Hi. rewrite nth_error_upd. destruct (Nat.eqb_spec (o_dict ob) i); [subst; destruct (Fd _ E Hi)|reflexivity].
Qed.
Lemma wp_new_object s c d : inv s -> (forall x a, In (x, a) d -> sound s a) -> NoDup (map fst d) -> (has_ctype c = true -> fe F -> c_set_verbosity (g_verbose s) "info" = g_verbose s) ->
  wp s (new_object c d) (fun o s' => o = List.length (objects s) /\ free_dict s' o /\ exists_obj s' o /\ dict_of s' o = d /\ class_of s' o = Some c /\
    blocks s' = blocks s /\ g_terms s' = g_terms s /\ g_lin s' = g_lin s /\ vars s' = vars s /\ lin_of s' o = None).
Proof.
  intros I Sd Nd V. unfold wp, new_object. set (ob := mkObj _ _ _ _ _ _). set (s2 := with_objects _ _).
  assert (I2 : inv s2).
  { destruct I as [[] W B D]. constructor; auto.
    - constructor; cbn; auto.
      + intros o ob'. rewrite nth_error_snoc. destruct (Nat.eqb o _); [intros [= <-]; cbn; rewrite app_length; cbn; lia|]. intros H. rewrite app_length. cbn. pose proof (wf_dict _ _ H). lia.
      + intros o ob' l. rewrite nth_error_snoc, app_length. cbn. destruct (Nat.eqb o _); [intros [= <-]; cbn; intros [X|[X|X]]; discriminate|]. intros H Hl. pose proof (wf_link _ _ _ H Hl). lia.
      + intros o H. rewrite app_length. cbn. pose proof (wf_vars _ H). lia.
      + intros d' x a Hd Ha. apply in_app_iff in Hd as [Hd|[<-|[]]]; [apply (wf_array _ _ _ Hd Ha)|apply (Sd _ _ Ha)].
      + intros d' Hd. apply in_app_iff in Hd as [Hd|[<-|[]]]; auto.
    - cbn. intros i Hi. rewrite app_length. cbn. specialize (D i Hi). lia. }
  assert (K2 : keep F s s2).
  { constructor; auto using latched_refl; cbn; eauto; try (rewrite app_length; cbn; lia).
    - intros i Hi. rewrite nth_error_snoc. pose proof (in_dict _ _ I _ Hi). rewrite (proj2 (Nat.eqb_neq _ _)) by lia. reflexivity.
    - intros o ob' H. exists ob'. rewrite (nth_error_old _ _ _ _ H). auto. }
  assert (Q2 : List.length (objects s) = List.length (objects s) /\ free_dict s2 (List.length (objects s)) /\ exists_obj s2 (List.length (objects s)) /\ dict_of s2 (List.length (objects s)) = d /\ class_of s2 (List.length (objects s)) = Some c /\
    blocks s2 = blocks s /\ g_terms s2 = g_terms s /\ g_lin s2 = g_lin s /\ vars s2 = vars s /\ lin_of s2 (List.length (objects s)) = None).
  { split; [reflexivity|]. split; [|split; [|split; [|split]]].
    - intros ob' E H. cbn in E. rewrite nth_error_snoc, Nat.eqb_refl in E. injection E as <-. cbn in H. pose proof (in_dict _ _ I _ H). lia.
    - unfold exists_obj. cbn. rewrite app_length. cbn. lia.
    - unfold dict_of. cbn. rewrite nth_error_snoc, Nat.eqb_refl. cbn. rewrite app_nth2, Nat.sub_diag by lia. reflexivity.
    - unfold class_of. cbn. rewrite nth_error_snoc, Nat.eqb_refl. reflexivity.
    - repeat split. unfold lin_of. cbn. rewrite nth_error_snoc, Nat.eqb_refl. reflexivity. }
  destruct (has_ctype c) eqn:Hc; [|auto]. split; [|split].
  - apply (inv_static F s2); auto; [apply (wf_1loop _ (in_wf _ _ I2))|apply (in_write _ _ I2)].
  - eapply keep_trans; [exact K2|]. apply keep_static; auto using latched_refl; exact (V eq_refl).
  - exact Q2.
Qed.
Lemma wp_set_obj s o f : inv s -> ~ fo F o -> (forall ob, o_class (f ob) = o_class ob /\ o_dict (f ob) = o_dict ob) ->
  (forall ob l, nth_error (objects s) o = Some ob -> o_lin (f ob) = Some l \/ o_dt (f ob) = Some l \/ o_tt (f ob) = Some l -> l < List.length (objects s)) ->
  wp s (set_obj o f) (fun _ s' => dicts s' = dicts s /\ blocks s' = blocks s /\ g_terms s' = g_terms s /\ List.length (objects s') = List.length (objects s)).
Proof.
  intros I Fo Hf Hl. unfold set_obj. apply wp_modify; destruct (nth_error (objects s) o) as [ob|] eqn:E; auto using keep_refl.
  - destruct I as [[] W B D]. constructor; auto. constructor; cbn; auto; try (intros; rewrite upd_length; eauto; fail).
    + intros o' ob' H. rewrite nth_error_upd in H. destruct (Nat.eqb_spec o o') as [<-|]; [rewrite E in H; injection H as <-; rewrite (proj2 (Hf ob)); eauto|eauto].
    + intros o' ob' l H Hl'. rewrite nth_error_upd in H. rewrite upd_length. destruct (Nat.eqb_spec o o') as [<-|]; [rewrite E in H; injection H as <-; eauto|eauto].
  - constructor; auto using latched_refl; cbn; eauto; try (rewrite upd_length; lia). intros o' ob' H. rewrite nth_error_upd, H. destruct (Nat.eqb_spec o o') as [<-|].
    + rewrite E in H. injection H as <-. exists (f ob). destruct (Hf ob). repeat split; auto. tauto.
    + eauto.
  - cbn. rewrite upd_length. auto.
Qed.
Lemma wp_hold s o : inv s -> exists_obj s o -> wp s (hold o) (fun _ _ => True).
Proof.
  intros I L. unfold hold. apply wp_modify; auto.
  - destruct I as [[] W B D]. constructor; auto. constructor; cbn; auto. intros o' [<-|H]; auto.
  - constructor; auto using latched_refl; cbn; eauto.
Qed.
Lemma wp_zeros s o c ks : inv s -> exists_obj s o -> free_dict s o -> wp s (py_zeros o c ks) (fun _ s' => s' = alloc o (zero_items c ks) s).
Proof.
  intros I L Fd. eapply wp_weaken; [apply wp_eq; [|apply zeros_eq]|cbn; tauto]. unfold py_zeros. eapply wp_bind; [apply wp_np_new, I|]. intros a s1 I1 K1 (-> & -> & _ & Sa).
  eapply wp_bind; [apply wp_setitem; auto; eapply free_keep; eauto|].
  intros [] s2 I2 K2 ->. eapply wp_weaken; [apply (wp_do_all_with F (fun s' => exists_obj s' o /\ free_dict s' o)); auto|auto].
  - intros s' x I' (L' & F') _. destruct (x =? "k")%string; [apply wp_ret; auto|]. eapply wp_bind; [apply wp_np_new, I'|]. intros a s3 I3 K3 (-> & -> & _ & Sa'). eapply wp_weaken; [apply wp_setitem; auto; eapply free_keep; eauto|].
    intros _ s4 I4 K4 _. split; [eapply exists_keep; [exact K4|exact L']|eapply free_keep; [exact K4|exact L'|exact F']].
  - split; [eapply exists_keep; [|exact L]|eapply free_keep; [|exact L|exact Fd]]; eapply keep_trans; eassumption.
Qed.
Lemma getitem_Fine s s' o x a : @py_getitem N o x s = Fine s' a -> s' = s /\ assoc (dict_of s o) x = Some a.
Proof. unfold py_getitem, mbind, get. destruct (assoc (dict_of s o) x); [intros [= <- <-]; auto|discriminate]. Qed.
Lemma sound_get s o x a : inv s -> assoc (dict_of s o) x = Some a -> sound s a.
Proof.
  intros I H. apply assoc_In in H. unfold dict_of in H. destruct (nth_error (objects s) o) as [ob|] eqn:E; [|destruct H].
  pose proof (wf_dict _ (in_wf _ _ I) _ _ E) as L. eapply (wf_array _ (in_wf _ _ I)); [|exact H]. apply nth_In, L.
Qed.
Lemma wp_reshape s o c : inv s -> exists_obj s o -> free_dict s o -> wp s (py_reshape o c) (fun _ _ => True).
Proof.
  intros I L Fd. unfold py_reshape. eapply wp_weaken; [apply (wp_do_all_with F (fun s' => exists_obj s' o /\ free_dict s' o)); auto|auto].
  intros s1 x I1 (L1 & F1) _. destruct (ncomp c x); [|apply wp_ret; auto]. pb ltac:(apply pure_getitem). intros a s2 _ _ (-> & E). apply getitem_Fine in E as (_ & E).
  pb ltac:(apply pure_size). intros n s2 _ _ (-> & _). destruct (_ =? _)%Z; [|apply wp_throw; auto]. eapply wp_weaken; [apply wp_setitem; auto|].
  - pose proof (sound_get _ _ _ _ I1 E) as (X & xs & Y & Z). split; [exact X|]. exists xs. auto.
  - intros _ s4 I4 K4 _. split; [eapply exists_keep; eauto|eapply free_keep; eauto].
Qed.
Lemma each_getitem s o l : forall s' r, each_ (@py_getitem N o) l s = Fine s' r -> s' = s /\ List.length r = List.length l /\ forall x a, In (x, a) (combine l r) -> assoc (dict_of s o) x = Some a.
Proof.
  induction l as [|x t IH]; intros s' r; cbn [each_].
  - intros [= <- <-]. split; [reflexivity|]. split; [reflexivity|]. intros x a [].
  - unfold mbind at 1. destruct (py_getitem o x s) as [s1 a| | |] eqn:E; try discriminate. apply getitem_Fine in E as (-> & E). unfold mbind. destruct (each_ (py_getitem o) t s) as [s2 r2| | |] eqn:E2; try discriminate.
    destruct (IH _ _ eq_refl) as (-> & L & H). intros [= <- <-]. split; [reflexivity|]. cbn. split; [congruence|]. intros y b [[= <- <-]|Hb]; auto.
Qed.
Lemma pointer_Fine n a (s s' : state) p : np_pointer n a s = Fine s' p -> s' = s /\ p = Some (a_buf a, a_off a) /\ a_len a = n /\ a_2d a = false.
Proof. unfold np_pointer. destruct (Z.eqb_spec (a_len a) n); cbn; [|discriminate]. destruct (a_2d a); cbn; [discriminate|]. intros [= <- <-]. auto. Qed.
Lemma each_pointer {A} (f : A -> Z) (g : A -> array) l : forall (s s' : state) r, each_ (fun xa => mbind (ret (g xa)) (fun a => np_pointer (f xa) a)) l s = Fine s' r -> s' = s /\ r = map (fun xa => Some (a_buf (g xa), a_off (g xa))) l.
Proof.
  induction l as [|x t IH]; intros s s' r; cbn [each_].
  - intros [= <- <-]. auto.
  - unfold mbind at 1. unfold mbind at 1. cbn [ret]. destruct (np_pointer (f x) (g x) s) as [s1 p| | |] eqn:E; try discriminate. apply pointer_Fine in E as (-> & -> & _). unfold mbind at 1.
    destruct (each_ _ t s) as [s2 r2| | |] eqn:E2; try discriminate. destruct (IH _ _ _ E2) as (-> & ->). intros [= <- <-]. auto.
Qed.
Lemma assoc_combine_map {A B} (l : list string) (m : list A) (h : A -> B) x b : assoc (combine l (map h m)) x = Some b -> exists a, In (x, a) (combine l m) /\ b = h a.
Proof. revert m. induction l as [|y t IH]; intros [|a m]; cbn; try discriminate. destruct (String.eqb_spec x y); [intros [= <-]; exists a; subst; auto|]. intros H. destruct (IH _ H) as (a' & Ha & E). eauto. Qed.
(** The pointers set_terms passes lead to the arrays it has just made. *)
Lemma wp_set_terms_py s o c ks : inv s -> exists_obj s o -> free_dict s o -> (forall sl, slot_of c = Some sl -> ~ fs F sl) ->
  wp s (py_set_terms o c ks) (fun _ s' => exists_obj s' o).
Proof.
  intros I L Fd S. unfold py_set_terms. destruct (slot_of c) as [sl|] eqn:Esl; [|apply wp_throw; auto]. specialize (S sl eq_refl).
  eapply wp_bind; [apply wp_zeros; auto|]. intros [] s1 I1 K1 E1. pb ltac:(apply pure_size). intros n s2 _ _ (-> & _).
  pb ltac:(apply pure_each; intros; apply pure_getitem). intros arrays s2 _ _ (-> & Ea). apply each_getitem in Ea as (_ & La & Ha).
  eapply wp_bind; [apply wp_pure; [exact I1|apply pure_each; intros; apply pure_bind; [apply pure_ret|intros; apply pure_pointer]]|]. intros ps s2 _ _ (-> & Ep).
  apply (each_pointer (fun xa => match ncomp c (fst xa) with Some _ => a_len (snd xa) | None => n end) snd) in Ep as (_ & ->).
  assert (L1 : exists_obj s1 o) by (eapply exists_keep; eauto). assert (F1 : free_dict s1 o) by (eapply free_keep; eauto).
  eapply wp_bind; [apply wp_set_terms; auto|].
  { intros _ y b i _ A. apply assoc_combine_map in A as ([x a] & Hin & [= -> ->]). cbn. apply in_combine_r in Hin. pose proof (in_combine_l _ _ _ _ Hin) as Hx. apply Ha in Hin.
    unfold exists_obj in L. apply nth_error_Some in L. destruct (nth_error (objects s) o) as [ob|] eqn:Eo; [|congruence]. pose proof (wf_dict _ (in_wf _ _ I) _ _ Eo) as Ld.
    destruct (zero_item c ks x Hx) as (j & Hj & _). rewrite E1 in Hin. erewrite alloc_at in Hin; [|exact Eo|exact Ld|rewrite zero_names'; apply fields_NoDup|exact Hj]. injection Hin as <-. cbn.
    intros Hb. destruct (in_block _ _ I _ Hb) as (xs & Hxs). apply nth_error_lt in Hxs. lia. }
  intros [] s2 I2 K2 _. assert (L2 : exists_obj s2 o) by (eapply exists_keep; eauto). assert (F2 : free_dict s2 o) by (eapply free_keep; eauto).
  destruct c; try (apply wp_ret; auto); (eapply wp_weaken; [apply wp_reshape; auto|intros _ s3 _ K3 _; eapply exists_keep; eauto]).
Qed.
Lemma wp_set_spectrum_lin s o l : inv s -> ~ fo F o -> ~ fl F -> exists_obj s l -> wp s (py_set_spectrum_lin o l) (fun _ _ => True).
Proof.
  intros I Fo Fl Ll. unfold py_set_spectrum_lin. eapply wp_bind; [apply wp_set_obj; auto|].
  { intros ob l' E [H|H]; cbn in H; [injection H as <-; exact Ll|eapply (wf_link _ (in_wf _ _ I)); eauto]. }
  intros [] s1 I1 K1 _. pb ltac:(apply pure_size). intros n s2 _ _ (-> & _). pb ltac:(apply pure_getitem). intros ? ? _ _ (-> & _). pb ltac:(apply pure_getitem). intros ? ? _ _ (-> & _).
  pb ltac:(apply pure_pointer). intros ? ? _ _ (-> & _). pb ltac:(apply pure_pointer). intros ? ? _ _ (-> & _). unfold c_set_pk_lin.
  eapply wp_bind; [apply (wp_lin F s1 _ (fun _ _ => True)); auto|]. intros [] s2 I2 K2 _. eapply wp_weaken; [apply wp_pure; [exact I2|apply pure_when_info, pure_print]|auto].
Qed.
Lemma wp_set_pk_lin s o K P : inv s -> ~ fo F o -> ~ fl F -> wp s (py_set_pk_lin o K P) (fun _ _ => True).
Proof.
  intros I Fo Fl. unfold py_set_pk_lin. eapply wp_bind; [apply wp_np_new, I|]. intros k s1 I1 K1 (_ & _ & _ & S1). eapply wp_bind; [apply wp_np_new, I1|]. intros p s2 I2 K2 (_ & _ & _ & S2).
  eapply wp_bind; [apply wp_new_object; auto|]. { intros x a [[= _ <-]|[[= _ <-]|[]]]; [eapply sound_keep; eauto|exact S2]. } { repeat constructor; cbn; intuition discriminate. } { discriminate. }
  intros l s3 I3 K3 (_ & _ & L3 & _). apply wp_set_spectrum_lin; auto.
Qed.
Lemma wp_spectra_B s l dt ptt : inv s -> wp s (py_spectra_B l dt ptt) (fun _ _ => True).
Proof.
  intros I. unfold py_spectra_B. pb ltac:(apply pure_size). intros n s2 _ _ (-> & _). pb ltac:(apply pure_getitem). intros ? ? _ _ (-> & _). pb ltac:(apply pure_pointer). intros ? ? _ _ (-> & _).
  pb ltac:(apply pure_pointer). intros ? ? _ _ (-> & _). eapply wp_bind; [apply wp_set_spectra_B, I|]. intros [] s1 I1 K1 _. pb ltac:(apply pure_pointer). intros ? ? _ _ (-> & _). apply wp_set_spectra_B, I1.
Qed.
Lemma wp_sub_1loop s l attach a b : inv s -> ~ fs F S_1loop -> fw F S_1loop -> (fe F -> c_set_verbosity (g_verbose s) "info" = g_verbose s) ->
  (forall x s1, inv s1 -> keep F s s1 -> exists_obj s1 x -> wp s1 (attach x) (fun _ _ => True)) -> wp s (py_sub_1loop fuel suave1 suave12 l attach a b) (fun _ _ => True).
Proof.
  intros I S W V A. unfold py_sub_1loop. eapply wp_bind; [apply wp_new_object; auto; [intros x y []|constructor]|]. intros o s1 I1 K1 (_ & F1 & L1 & _).
  eapply wp_bind; [apply A; auto|]. intros [] s2 I2 K2 _. pb ltac:(apply pure_getitem). intros k s3 _ _ (-> & _). pb ltac:(apply pure_np_get). intros ks s3 _ _ (-> & _).
  eapply wp_bind; [apply wp_set_terms_py; auto|]. { eapply exists_keep; eauto. } { eapply free_keep; eauto. } { intros sl [= <-]. exact S. }
  intros [] s3 I3 K3 _. eapply wp_bind; [apply wp_run_terms; auto|]. intros [] s4 I4 K4 _. apply wp_ret; auto.
Qed.
Lemma wp_pk_1loop s o : inv s -> wp s (py_pk_1loop o) (fun _ _ => True).
Proof.
  intros I. unfold py_pk_1loop. pb ltac:(apply pure_columns). intros c s1 _ _ (-> & _). pb ltac:(apply pure_lift). intros v s1 _ _ (-> & _). eapply wp_bind; [apply wp_np_new, I|]. intros a s1 I1 K1 _.
  eapply wp_bind; [apply (wp_temps F s1 (fun s => a_buf a :: temps s) (fun _ _ => True)); auto|]. intros [] s2 I2 K2 _. apply wp_ret; auto.
Qed.
(** The slots a run may write into *)
Definition runs_of (c : pyclass) : list slot := match c with CLin | CNoWiggle => [] | C1Loop => [S_1loop] | C2Loop => [S_2loop] | CBias => [S_bias] | CA1 => [S_A1] | CA2 => [S_A2] | CB1 | CB2 => [S_B; S_1loop] end.
Definition resets_1loop (c : pyclass) : bool := match c with CB1 | CB2 => true | _ => false end.
Lemma wp_py_run_terms s o ob a b : inv s -> nth_error (objects s) o = Some ob -> (forall sl, In sl (runs_of (o_class ob)) -> fw F sl) -> (resets_1loop (o_class ob) = true -> ~ fs F S_1loop) ->
  (o_class ob = CA1 -> free_dict s o) -> (o_class ob = CB2 -> ~ fo F o /\ (fe F -> c_set_verbosity (g_verbose s) "info" = g_verbose s)) -> wp s (py_run_terms fuel suave1 suave12 o ob a b) (fun _ _ => True).
Proof.
  intros I E W S Fd F2. assert (L : exists_obj s o) by (eapply nth_error_lt, E). unfold py_run_terms. destruct (o_class ob) eqn:C; try (apply wp_throw; assumption).
  - eapply wp_weaken; [apply wp_run_terms; auto; apply W; cbn; auto|auto].
  - eapply wp_weaken; [apply wp_run_terms; auto; apply W; cbn; auto|auto].
  - eapply wp_weaken; [apply wp_run_terms; auto; apply W; cbn; auto|auto].
  - eapply wp_bind; [apply wp_run_terms; auto; apply W; cbn; auto|]. intros [] s1 I1 K1 _. apply wp_reshape; auto; [eapply exists_keep; eauto|eapply free_keep; eauto].
  - eapply wp_weaken; [apply wp_run_terms; auto; apply W; cbn; auto|auto].
  - pb ltac:(apply pure_attribute). intros l s1 _ _ (-> & _). pb ltac:(apply pure_getitem). intros p s1 _ _ (-> & _). eapply wp_bind; [apply wp_spectra_B, I|]. intros [] s1 I1 K1 _.
    apply wp_run_terms_B; auto; apply W; cbn; auto.
  - destruct (F2 eq_refl) as [Fo Fe]. pb ltac:(apply pure_attribute). intros l s1 _ _ (-> & _).
    assert (At : forall s1 f, inv s1 -> (forall ob0, o_class (f ob0) = o_class ob0 /\ o_dict (f ob0) = o_dict ob0) ->
      (forall ob0 l0, nth_error (objects s1) o = Some ob0 -> o_lin (f ob0) = Some l0 \/ o_dt (f ob0) = Some l0 \/ o_tt (f ob0) = Some l0 -> exists_obj s1 l0) -> wp s1 (set_obj o f) (fun _ _ => True)).
    { intros s1 f I1 Hf Hl. eapply wp_weaken; [apply wp_set_obj; auto|auto]. }
    eapply wp_bind; [apply wp_sub_1loop; auto; [apply W; cbn; auto|]|].
    { intros x s1 I1 K1 L1. apply At; [exact I1|intros; split; reflexivity|]. intros ob0 l0 E0 [H|[H|H]]; cbn in H; try (injection H as <-; exact L1); eapply (wf_link _ (in_wf _ _ I1)); eauto. }
    intros d s1 I1 K1 _. eapply wp_bind; [apply wp_sub_1loop; auto; [apply W; cbn; auto|intros X; rewrite (kp_verb _ _ _ K1 X); exact (Fe X)|]|].
    { intros x s2 I2 K2 L2. apply At; [exact I2|intros; split; reflexivity|]. intros ob0 l0 E0 [H|[H|H]]; cbn in H; try (injection H as <-; exact L2); eapply (wf_link _ (in_wf _ _ I2)); eauto. }
    intros t s2 I2 K2 _. eapply wp_bind; [apply wp_pk_1loop, I2|]. intros dt s3 I3 K3 _. eapply wp_bind; [apply wp_pk_1loop, I3|]. intros ptt s4 I4 K4 _.
    eapply wp_bind; [apply wp_spectra_B, I4|]. intros [] s5 I5 K5 _. apply wp_run_terms_B; auto; apply W; cbn; auto.
Qed.
End Frames3.
