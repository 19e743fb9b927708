(** ProofProcess10: set_terms makes the library work on new columns of an object. *)
From Coq Require Import ZArith List String Bool Lia PeanoNat.
From Verif Require Import Base Num Common Kernels Integrals Registry PyTerms Threads SpecThreads Process SpecProcess ProofThreads2 ProofProcess ProofProcess2 ProofProcess3 ProofProcess4 ProofProcess5 ProofProcess6 ProofProcess7 ProofProcess8 ProofProcess9.
Import ListNotations.
Local Open Scope string_scope.
Local Open Scope nat_scope.

Lemma combine_map_self {A B} (f : A -> B) l x b : In (x, b) (combine l (map f l)) -> In x l /\ b = f x.
Proof. induction l as [|y t IH]; cbn; [tauto|]. intros [[= <- <-]|H]; auto. destruct (IH H). auto. Qed.
Lemma map_combine_self {A B C} (f : A -> B) (g : B -> C) l : map (fun xa => g (snd xa)) (combine l (map f l)) = map (fun x => g (f x)) l.
Proof. induction l as [|y t IH]; cbn; [reflexivity|]. rewrite IH. reflexivity. Qed.
Lemma assoc_map_inj {A B} (f : A -> string) (g : A -> B) l x : In x l -> (forall y, In y l -> f y = f x -> y = x) -> assoc (combine (map f l) (map g l)) (f x) = Some (g x).
Proof.
  induction l as [|y t IH]; cbn; [tauto|]. intros Hx Hf. destruct (String.eqb_spec (f x) (f y)) as [E|E].
  - rewrite (Hf y) by auto. reflexivity.
  - destruct Hx as [<-|Hx]; [congruence|]. apply IH; auto.
Qed.
Lemma slot_eqb_eq a b : slot_eqb a b = true <-> a = b.
Proof. destruct a, b; cbn; split; congruence. Qed.
Lemma slot_eqb_refl a : slot_eqb a a = true. Proof. destruct a; reflexivity. Qed.

Section Exact2.
Context {N : Num}.
Notation T := (T N).
Notation state := (state N).
Implicit Types (s : state) (o l : nat).

(** ** Assigning the shape *)
Definition flat a := mkArray (a_buf a) (a_off a) (a_step a) (a_len a) false.
Record shaped s s' o : Prop := {
  sh_rest : same_rest s s';
  sh_blocks : blocks s' = blocks s;
  sh_dicts : List.length (dicts s') = List.length (dicts s);
  sh_other : forall x ob ox, nth_error (objects s) o = Some ob -> nth_error (objects s) x = Some ox -> o_dict ox <> o_dict ob -> dict_of s' x = dict_of s x;
  sh_assoc : forall x y, option_map flat (assoc (dict_of s' x) y) = option_map flat (assoc (dict_of s x) y) }.
Lemma shaped_refl s o : shaped s s o. Proof. constructor; auto using same_rest_refl. Qed.
Lemma shaped_trans s1 s2 s3 o : shaped s1 s2 o -> shaped s2 s3 o -> shaped s1 s3 o.
Proof.
  intros [R1 B1 D1 O1 A1] [R2 B2 D2 O2 A2]. constructor; [eapply same_rest_trans; eauto|congruence|congruence| |intros; rewrite A2; apply A1].
  intros x ob ox E Ex Ne. rewrite (O2 x ob ox), (O1 x ob ox); auto; rewrite (sr_objects _ _ R1); assumption.
Qed.
Lemma elements_flat s s' a b : blocks s' = blocks s -> flat a = flat b -> elements s' a = elements s b.
Proof. unfold flat, elements, contents. intros -> [= -> -> -> ->]. reflexivity. Qed.
Lemma shaped_column s s' o x y : shaped s s' o -> column_of s' x y = column_of s x y.
Proof.
  intros H. pose proof (sh_assoc _ _ _ H x y) as E. unfold column_of. destruct (assoc (dict_of s' x) y), (assoc (dict_of s x) y); try discriminate; [|reflexivity]. cbn in *. f_equal. injection E as E1 E2 E3 E4.
  apply elements_flat; [apply (sh_blocks _ _ _ H)|]. unfold flat. congruence.
Qed.
Lemma faces_flat s s' a b p : blocks s' = blocks s -> flat a = flat b -> faces s b p -> faces s' a p.
Proof. unfold flat, faces. intros -> [= -> -> -> ->]. auto. Qed.
Lemma shaped_terms s s' o c sl ks : shaped s s' o -> (forall a, assoc (dict_of s' o) "k" = Some a -> a_2d a = false) -> terms_are s o c sl ks -> terms_are s' o c sl ks.
Proof.
  intros H Fl []. pose proof (sh_rest _ _ _ H) as R. pose proof (sh_assoc _ _ _ H o) as A. constructor; auto.
  - unfold class_of. rewrite (sr_objects _ _ R). exact t_class.
  - rewrite (sr_terms _ _ R). exact t_n.
  - intros x Hx. destruct (t_col x Hx) as (a & Ea & Fa & La). specialize (A x). rewrite Ea in A. destruct (assoc (dict_of s' o) x) as [a'|]; [|discriminate]. injection A as E1 E2 E3 E4. exists a'.
    split; [reflexivity|]. rewrite (sr_terms _ _ R). split; [|congruence]. eapply faces_flat; [apply (sh_blocks _ _ _ H)| |exact Fa]. unfold flat. congruence.
  - rewrite (shaped_column _ _ _ _ _ H). exact t_k.
  - intros x y a b Hx Hy Ne Ea Eb. pose proof (A x) as Ax. pose proof (A y) as Ay. rewrite Ea in Ax. rewrite Eb in Ay.
    destruct (assoc (dict_of s o) x) as [a0|] eqn:Ea0; [|discriminate]. destruct (assoc (dict_of s o) y) as [b0|] eqn:Eb0; [|discriminate]. injection Ax as -> _ _ _. injection Ay as -> _ _ _. eauto.
Qed.
Lemma set_item_shaped s o ob x a : nth_error (objects s) o = Some ob -> o_dict ob < List.length (dicts s) -> assoc (dict_of s o) x = Some a -> shaped s (set_item s o x (mkArray (a_buf a) (a_off a) (a_step a) (a_len a) true)) o.
Proof.
  intros E L Ea. constructor; auto using set_item_rest, set_item_blocks, set_item_dicts.
  - intros y ob' oy E' Ey Ne. rewrite (set_item_dict _ _ _ _ _ ob) by assumption. rewrite Ey. rewrite (proj2 (Nat.eqb_neq _ _)) by congruence. reflexivity.
  - intros y z. rewrite (set_item_dict _ _ _ _ _ ob) by assumption. destruct (nth_error (objects s) y) as [oy|] eqn:Ey; [|unfold dict_of; rewrite Ey; reflexivity].
    destruct (Nat.eqb_spec (o_dict ob) (o_dict oy)) as [D|]; [|reflexivity]. rewrite assoc_dict_set. destruct (String.eqb_spec z x) as [->|]; [|reflexivity].
    replace (dict_of s y) with (dict_of s o) by (unfold dict_of; rewrite E, Ey, D; reflexivity). rewrite Ea. reflexivity.
Qed.
Lemma reshape_ok s o ob c sl ks : nth_error (objects s) o = Some ob -> o_dict ob < List.length (dicts s) -> terms_are s o c sl ks ->
  exists s', py_reshape o c s = Fine s' tt /\ shaped s s' o /\ terms_are s' o c sl ks.
Proof.
  intros E L T0. unfold py_reshape. set (f := fun x : string => _).
  enough (H : forall xs s, (forall x, In x xs -> In x (fields c)) -> nth_error (objects s) o = Some ob -> o_dict ob < List.length (dicts s) -> terms_are s o c sl ks -> exists s', do_all f xs s = Fine s' tt /\ shaped s s' o /\ terms_are s' o c sl ks) by (apply H; auto).
  clear s E L T0. induction xs as [|x xs IH]; intros s Hin E L T0.
  - exists s. rewrite do_all_nil. auto using shaped_refl.
  - assert (X : exists s1, f x s = Fine s1 tt /\ shaped s s1 o /\ terms_are s1 o c sl ks).
    { unfold f. destruct (ncomp c x) as [m|] eqn:Em; [|exists s; auto using shaped_refl]. pose proof T0 as []. destruct (t_col x (Hin x (or_introl eq_refl))) as (a & Ea & Fa & La).
      destruct (t_col "k" (k_field c)) as (ka & Eka & Fka & Lka). rewrite (bind_Fine _ _ _ _ _ (getitem_ok _ _ _ _ Ea)). rewrite (bind_Fine _ _ _ _ _ (size_ok _ _ _ Eka (t_flat _ Eka))).
      assert (Lk : a_len ka = zlen ks) by (rewrite Lka; replace (comps c "k") with 1%Z by (destruct c; reflexivity); lia).
      rewrite Lk, La. replace (comps c x) with m by (unfold comps; rewrite Em; reflexivity). rewrite Z.eqb_refl.
      assert (Sh := set_item_shaped s o ob x a E L Ea). replace (zlen ks * m)%Z with (a_len a) by (rewrite La; unfold comps; rewrite Em; reflexivity).
      eexists. split; [apply setitem_eq|]. split; [exact Sh|]. eapply shaped_terms; [exact Sh| |exact T0]. intros a' Ea'. rewrite (set_item_dict _ _ _ _ _ ob) in Ea' by assumption. rewrite E, Nat.eqb_refl, assoc_dict_set in Ea'.
      replace ("k" =? x)%string with false in Ea'; [apply t_flat, Ea'|]. destruct c; cbn in Em; try discriminate; destruct (String.eqb_spec x "pk"); try discriminate; subst; reflexivity. }
    destruct X as (s1 & E1 & S1 & T1). destruct (IH s1) as (s2 & E2 & S2 & T2); auto.
    + intros y Hy. apply Hin. right. exact Hy.
    + rewrite (sr_objects _ _ (sh_rest _ _ _ S1)). exact E.
    + rewrite (sh_dicts _ _ _ S1). exact L.
    + exists s2. rewrite (do_all_cons _ _ _ _ _ E1). split; [exact E2|]. split; [eapply shaped_trans; eauto|exact T2].
Qed.

(** ** New columns *)
Lemma zero_col s o ob c ks x : nth_error (objects s) o = Some ob -> o_dict ob < List.length (dicts s) -> In x (fields c) -> let s1 := alloc o (zero_items c ks) s in
  exists i a, nth_error (fields c) i = Some x /\ assoc (dict_of s1 o) x = Some a /\ a_buf a = List.length (blocks s) + i /\ faces s1 a (whole a) /\ elements s1 a = (if (x =? "k")%string then ks else zero_of c ks x) /\ a_2d a = false /\ a_len a = (zlen ks * comps c x)%Z.
Proof.
  intros E L Hx s1. destruct (zero_item c ks x Hx) as (i & Hi & Hf). set (xs := if (x =? "k")%string then ks else zero_of c ks x) in *. exists i. eexists. split; [exact Hf|].
  split; [apply (alloc_at o _ ob); auto; [rewrite zero_names'; apply fields_NoDup|exact Hi]|]. split; [reflexivity|].
  assert (B : nth_error (blocks s1) (List.length (blocks s) + i) = Some (Numpy, xs)).
  { unfold s1. rewrite alloc_blocks. rewrite nth_error_app2 by lia. replace (List.length (blocks s) + i - List.length (blocks s)) with i by lia. rewrite nth_error_map, Hi. reflexivity. }
  destruct (new_faces _ _ s1 eq_refl _ B) as [Fa Ea]. split; [exact Fa|]. split; [exact Ea|]. split; [reflexivity|]. cbn [a_len]. unfold xs, comps. destruct (String.eqb_spec x "k") as [->|].
  - destruct c; cbn [ncomp]; change ("k" =? "pk")%string with false; cbv iota; lia.
  - unfold zero_of, zlen. rewrite repeat_length. assert (M : forall m, ncomp c x = Some m -> (0 <= m)%Z). { intros m. destruct c; cbn; try discriminate; destruct (x =? "pk")%string; intros [= <-]; lia. }
    destruct (ncomp c x) as [m|]; [specialize (M m eq_refl); nia|lia].
Qed.
Definition column_after (c : pyclass) (ks : list T) x := if (x =? "k")%string then ks else repeat (nZ N 0) (Z.to_nat (zlen ks * comps c x)).
Lemma set_terms_ok s o ob sl ks : wf s -> In o (reachable s) -> nth_error (objects s) o = Some ob -> slot_of (o_class ob) = Some sl -> printable s ks ->
  let c := o_class ob in
  exists s', py_set_terms o c ks s = Fine s' tt /\ terms_are s' o c sl ks /\ (forall x, In x (fields c) -> column_of s' o x = Some (column_after c ks x)) /\
    (forall x a, In x (fields c) -> assoc (dict_of s' o) x = Some a -> List.length (blocks s) <= a_buf a) /\
    (forall b, b < List.length (blocks s) -> nth_error (blocks s') b = nth_error (blocks s) b) /\
    (forall x ox, nth_error (objects s) x = Some ox -> o_dict ox <> o_dict ob -> dict_of s' x = dict_of s x) /\
    (forall sl', sl' <> sl -> g_terms s' sl' = g_terms s sl') /\ objects s' = objects s /\ List.length (dicts s') = List.length (dicts s) /\
    vars s' = vars s /\ temps s' = temps s /\ g_lin s' = g_lin s /\ g_conf s' = g_conf s /\ g_verbose s' = g_verbose s.
Proof.
  intros W Ho E Sl Pr c. pose proof (wf_dict _ W _ _ E) as L. set (s1 := alloc o (zero_items c ks) s).
  pose proof (fun x Hx => zero_col s o ob c ks x E L Hx) as Zc. fold s1 in Zc. pose proof (alloc_rest o (zero_items c ks) s) as R1. fold s1 in R1.
  set (arr x := match assoc (dict_of s1 o) x with Some a => a | None => mkArray 0 0 0 0 false end).
  assert (Arr : forall x, In x (fields c) -> assoc (dict_of s1 o) x = Some (arr x)) by (intros x Hx; destruct (Zc x Hx) as (i & a & _ & Ea & _); unfold arr; rewrite Ea; reflexivity).
  set (bound := combine (map (c_name c) (fields c)) (map (fun x => whole (arr x)) (fields c))).
  assert (Bd : forall x, In x (fields c) -> assoc bound (c_name c x) = Some (whole (arr x))) by (intros x Hx; apply (assoc_map_inj (c_name c) (fun x => whole (arr x)) (fields c) x Hx); intros y Hy; apply c_name_inj; assumption).
  assert (Kl : a_len (arr "k") = zlen ks /\ a_2d (arr "k") = false /\ faces s1 (arr "k") (whole (arr "k")) /\ elements s1 (arr "k") = ks).
  { destruct (Zc "k" (k_field c)) as (i & a & _ & Ea & _ & Fa & El & D & La). rewrite (Arr _ (k_field c)) in Ea. injection Ea as ->. split; [|auto]. rewrite La. unfold comps. destruct c; cbn [ncomp]; change ("k" =? "pk")%string with false; cbv iota; lia. }
  destruct Kl as (Kl & Kd & Kf & Ke).
  set (s2 := with_terms s1 (fun sl' => if slot_eqb sl sl' then mkCterms (zlen ks) (fun x => match assoc bound x with Some p => p | None => None end) else g_terms s1 sl')).
  assert (G2 : g_terms s2 sl = mkCterms (zlen ks) (fun x => match assoc bound x with Some p => p | None => None end)) by (cbn; rewrite slot_eqb_refl; reflexivity).
  assert (O2 : objects s2 = objects s) by exact (sr_objects _ _ R1).
  assert (T2 : terms_are s2 o c sl ks).
  { constructor; auto.
    - unfold class_of. rewrite O2, E. reflexivity.
    - rewrite G2. reflexivity.
    - intros x Hx. destruct (Zc x Hx) as (i & a & _ & Ea & _ & Fa & El & D & La). exists a. split; [exact Ea|]. rewrite G2. cbn [ct_ptr]. rewrite (Bd x Hx). rewrite (Arr x Hx) in Ea. injection Ea as ->. auto.
    - unfold column_of. change (dict_of s2 o) with (dict_of s1 o). rewrite (Arr _ (k_field c)). cbn [option_map]. f_equal. exact Ke.
    - intros a. change (dict_of s2 o) with (dict_of s1 o). rewrite (Arr _ (k_field c)). intros [= <-]. exact Kd.
    - intros x y a b Hx Hy Ne Ea Eb. destruct (Zc x Hx) as (i & a' & Hi & Ea' & Ba & _). destruct (Zc y Hy) as (j & b' & Hj & Eb' & Bb & _). change (dict_of s2 o) with (dict_of s1 o) in *. rewrite Ea in Ea'. injection Ea' as <-. rewrite Eb in Eb'. injection Eb' as <-.
      rewrite Ba, Bb. intros Hij. assert (i = j) by lia. subst j. congruence. }
  assert (E2 : py_set_terms o c ks s = match c with CA2 | CB1 | CB2 => py_reshape o c s2 | _ => Fine s2 tt end).
  { unfold py_set_terms. change (slot_of c) with (slot_of (o_class ob)). rewrite Sl. rewrite (bind_Fine _ _ _ _ _ (zeros_eq o c ks s)). fold s1. rewrite (bind_Fine _ _ _ _ _ (size_ok _ _ _ (Arr _ (k_field c)) Kd)).
    rewrite (bind_Fine _ _ s1 s1 (map arr (fields c))) by (apply each_all; intros x Hx; apply getitem_ok, Arr, Hx).
    rewrite (bind_Fine _ _ s1 s1 (map (fun xa => whole (snd xa)) (combine (fields c) (map arr (fields c))))).
    2: { apply each_all. intros [x a] Hxa. apply combine_map_self in Hxa as [Hx ->]. cbn [fst snd]. unfold mbind, ret. destruct (Zc x Hx) as (i & a & _ & Ea & _ & _ & _ & D & La). rewrite (Arr x Hx) in Ea. injection Ea as ->. apply pointer_ok; [|exact D].
         destruct (ncomp c x) eqn:Em; [reflexivity|]. rewrite La, Kl. unfold comps. rewrite Em. lia. }
    rewrite map_combine_self. unfold c_set_terms. rewrite (c_fields_names c sl Sl). fold bound. unfold mbind at 1. unfold mbind at 1. unfold modify at 1. rewrite Kl. fold s2.
    assert (Pt : match assoc bound "k" with Some p => p | None => None end = whole (arr "k")) by (rewrite <- (k_name c) at 1; rewrite (Bd _ (k_field c)); reflexivity). rewrite Pt.
    rewrite (print_ok s2 (whole (arr "k")) ks).
    - destruct c; reflexivity.
    - apply (faces_reads s2 o "k" (arr "k")); [|apply (Arr _ (k_field c))|exact Kf|exact Ke]. rewrite (reachable_ext s s2); [exact Ho|apply (sr_objects _ _ R1)|apply (sr_vars _ _ R1)].
    - eapply printable_ext; [|exact Pr]. apply (sr_verbose _ _ R1). }
  assert (X : exists s', py_set_terms o c ks s = Fine s' tt /\ shaped s2 s' o /\ terms_are s' o c sl ks).
  { rewrite E2. assert (E3 : nth_error (objects s2) o = Some ob) by (rewrite O2; exact E). assert (L3 : o_dict ob < List.length (dicts s2)) by (change (dicts s2) with (dicts s1); unfold s1; rewrite alloc_dicts; exact L).
    destruct (reshape_ok s2 o ob c sl ks E3 L3 T2) as (s' & Er & Sh & T3). clearbody c. destruct c; try (exists s2; auto using shaped_refl; fail); exists s'; auto. }
  destruct X as (s' & E' & Sh & T'). exists s'. pose proof (sh_rest _ _ _ Sh) as R2. split; [exact E'|]. split; [exact T'|].
  assert (As : forall y, option_map flat (assoc (dict_of s' o) y) = option_map flat (assoc (dict_of s1 o) y)) by (intros y; apply (sh_assoc _ _ _ Sh)).
  repeat split.
  - intros x Hx. rewrite (shaped_column _ _ _ _ _ Sh). unfold column_of. change (dict_of s2 o) with (dict_of s1 o). destruct (Zc x Hx) as (i & a & _ & Ea & _ & _ & El & D & La). rewrite Ea. cbn [option_map]. f_equal. change (elements s2 a) with (elements s1 a). rewrite El.
    unfold column_after, zero_of, comps. destruct (x =? "k")%string; [reflexivity|]. destruct (ncomp c x); [reflexivity|]. f_equal. f_equal. lia.
  - intros x a Hx Ea. specialize (As x). rewrite Ea in As. destruct (Zc x Hx) as (i & a' & _ & Ea' & Ba & _). rewrite Ea' in As. injection As as -> _ _ _. lia.
  - intros b Hb. rewrite (sh_blocks _ _ _ Sh). change (blocks s2) with (blocks s1). unfold s1. rewrite alloc_blocks. apply nth_error_app1, Hb.
  - intros x ox Ex Ne. rewrite (sh_other _ _ _ Sh x ob ox); auto; [|rewrite O2; assumption|rewrite O2; assumption]. change (dict_of s2 x) with (dict_of s1 x). unfold s1. eapply alloc_other; eauto.
  - intros sl' Ne. rewrite (sr_terms _ _ R2). unfold s2. cbn [g_terms with_terms]. destruct (slot_eqb sl sl') eqn:Es; [apply slot_eqb_eq in Es; congruence|]. rewrite (sr_terms _ _ R1). reflexivity.
  - rewrite (sr_objects _ _ R2). apply (sr_objects _ _ R1).
  - rewrite (sh_dicts _ _ _ Sh). change (dicts s2) with (dicts s1). unfold s1. apply alloc_dicts.
  - rewrite (sr_vars _ _ R2). apply (sr_vars _ _ R1).
  - rewrite (sr_temps _ _ R2). apply (sr_temps _ _ R1).
  - rewrite (sr_lin _ _ R2). apply (sr_lin _ _ R1).
  - rewrite (sr_conf _ _ R2). apply (sr_conf _ _ R1).
  - rewrite (sr_verbose _ _ R2). apply (sr_verbose _ _ R1).
Qed.
End Exact2.
