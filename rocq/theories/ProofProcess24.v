(** ProofProcess24: copy() and deepcopy(), continued: writes to an object and to its copy. *)
From Coq Require Import ZArith List String Bool Lia PeanoNat.
From Verif Require Import Base Num Common Kernels Integrals Registry PyTerms Threads SpecThreads Process SpecProcess ProofThreads2 ProofThreads3 ProofScratch3 ProofPy ProofProcess ProofProcess2 ProofProcess3 ProofProcess4 ProofProcess5 ProofProcess6 ProofProcess7 ProofProcess8 ProofProcess9 ProofProcess10 ProofProcess11 ProofProcess12 ProofProcess13 ProofProcess14 ProofProcess15 ProofProcess16 ProofProcess17 ProofProcess18 ProofProcess22 ProofProcess23.
Import ListNotations.
Local Open Scope string_scope.
Local Open Scope nat_scope.

Section Isolated.
Context {N : Num}.
Notation T := (T N).
Notation state := (state N).
Implicit Types (s : state) (o l : nat).
Variables (fuel : nat) (suave1 : (list T -> res T) -> res T) (suave12 : (list T -> res (list T)) -> res (list T)).
Notation step := (step fuel suave1 suave12).
Notation execute := (execute fuel suave1 suave12).

Lemma sep_sym s A B : sep s A B -> sep s B A.
Proof.
  intros [L Tb U]. constructor.
  - intros o H. apply L. tauto.
  - intros o Ho (y & ob & ox & Hy & Ey & Ex & D). apply (Tb y Hy). exists o, ox, ob. auto.
  - intros b H H'. apply (U b H' H).
Qed.
Lemma write_dicts s o x i y s' : (exists v, step (Write o x i y) s = Fine s' v) \/ (exists e, step (Write o x i y) s = Throws e s') -> dicts s' = dicts s /\ objects s' = objects s.
Proof.
  unfold Process.step. cbn [statement]. unfold nothing, mbind. destruct (obj_cases s o) as [(ob & E & _)|E]; rewrite E; [|intros [(v & X)|(e & X)]; discriminate]. unfold py_getitem, mbind, get. destruct (assoc (dict_of s o) x) as [a|]; unfold ret, throw.
  2: { intros [(v & X)|(e & X)]; [discriminate|injection X as <- <-; auto]. }
  unfold np_set. destruct (_ && _)%bool; unfold throw; [|intros [(v & X)|(e & X)]; [discriminate|injection X as <- <-; auto]].
  unfold mbind, block. destruct (alive s (a_buf a)); [|intros [(v & X)|(e & X)]; discriminate]. destruct (nth_error (blocks s) (a_buf a)) as [[w xs]|] eqn:Eb; [|intros [(v & X)|(e & X)]; discriminate].
  unfold lift. destruct (wr xs _ y) as [ys|[]]; try (intros [(v & X)|(e' & X)]; try discriminate; injection X as <- <-; auto).
  - unfold modify, ret, put_block. rewrite Eb. cbn. auto.
Qed.
Lemma item_used s A o ob x xs b : wf s -> nth_error (objects s) o = Some ob -> used_by (item s o x xs) A b -> used_by s A b \/ List.length (blocks s) <= b.
Proof.
  intros W E (z & y & a & Hz & Ha & <-). unfold item in Ha. rewrite (set_item_dict _ _ _ _ _ ob) in Ha by (exact E || exact (wf_dict _ W _ _ E)). change (dict_of (with_blocks _ _) z) with (dict_of s z) in Ha. cbn [objects with_blocks] in Ha.
  destruct (nth_error (objects s) z) as [oz|] eqn:Ez; [|destruct Ha]. destruct (Nat.eqb _ _); [|left; exists z, y, a; auto]. apply dict_set_In in Ha as [Ha| ->]; [left; exists z, y, a; auto|right; cbn; lia].
Qed.
Lemma write_used s s' : dicts s' = dicts s -> objects s' = objects s -> forall A b, used_by s' A b <-> used_by s A b.
Proof. intros D O A b. unfold used_by. setoid_rewrite (fun z => dict_of_ext s s' z O D). reflexivity. Qed.
(** One write *)
Lemma sep_step s A B p : wf s -> sep s A B -> writes_to A p -> after (step p s) (fun s' => sep s' A B /\ forall o x, In o B -> column_of s' o x = column_of s o x).
Proof.
  intros W S Wt. set (F := around s B (fun _ => False) False [] (fun _ => False) False False).
  assert (Al : allowed F s p).
  { destruct p; try destruct Wt; cbn [writes_to] in Wt.
    - destruct v; [|destruct Wt]. cbn. intros ob E (y & oy & Hy & Ey & D). apply (sp_table _ _ _ S o Wt). exists y, oy, ob. auto.
    - cbn. intros a Ea (z & x' & a' & Hz & Ha & Eb). apply (sp_used _ _ _ S (a_buf a)); [exists o, x, a; split; [exact Wt|]; split; [apply assoc_In, Ea|reflexivity]|exists z, x', a'; auto]. }
  pose proof (step_frame fuel suave1 suave12 F s p (around_inv _ _ _ _ _ _ _ _ W) ltac:(intros x []) Al) as K.
  assert (Us : forall s', (exists v, step p s = Fine s' v) \/ (exists e, step p s = Throws e s') -> objects s' = objects s /\ forall b, used_by s' A b -> used_by s A b \/ List.length (blocks s) <= b).
  { intros s' X. destruct p; try destruct Wt; cbn [writes_to] in Wt.
    - destruct v as [xs|]; [|destruct Wt]. destruct (obj_cases s o) as [(ob & E & En)|E]; revert X; unfold Process.step; cbn [statement]; unfold nothing, mbind; rewrite E; [|intros [(v & X)|(e & X)]; discriminate].
      unfold np_new, mbind, new_block, ret. rewrite setitem_eq. intros [(v & X)|(e & X)]; [|discriminate]. injection X as <- _. split.
      + cbn. unfold set_item. cbn. rewrite En. reflexivity.
      + intros b Hb. apply (item_used s A o ob x xs b W En). exact Hb.
    - destruct (write_dicts s o x i y s' X) as (D & O). split; [exact O|]. intros b Hb. left. revert Hb. apply write_used; auto. }
  assert (Q : forall s', objects s' = objects s -> (forall b, used_by s' A b -> used_by s A b \/ List.length (blocks s) <= b) -> keep F s s' -> sep s' A B /\ forall o x, In o B -> column_of s' o x = column_of s o x).
  { intros s' O U Kp. assert (Lt : forall o, In o B -> o < List.length (objects s)) by (intros; apply (sp_lt _ _ _ S); auto).
    assert (Ub : forall b, used_by s' B b -> used_by s B b).
    { intros b (z & x & a & Hz & Ha & Eb). rewrite (kept_dict _ _ _ _ _ _ _ _ _ Kp z Hz (Lt z Hz)) in Ha. exists z, x, a. auto. }
    split; [|intros o x Ho; eapply kept_column; eauto]. constructor.
    - intros o H. rewrite O. apply (sp_lt _ _ _ S), H.
    - intros o Ho (y & ob & ox & H). rewrite O in H. apply (sp_table _ _ _ S o Ho). exists y, ob, ox. exact H.
    - intros b Ha Hb. apply Ub in Hb. destruct (U b Ha) as [Ha'|Lb]; [apply (sp_used _ _ _ S b Ha' Hb)|]. destruct Hb as (z & x & a & Hz & Hin & <-). pose proof (dict_block _ _ _ _ W Hin). lia. }
  destruct (step p s) as [s' v|e s'| |] eqn:St; cbn in *; auto; destruct (Us s' ltac:(eauto)) as (O & U); apply Q; auto; apply K.
Qed.
Lemma sep_writing A B s s2 : wf s -> sep s A B -> writing fuel suave1 suave12 (A ++ B)%list s s2 -> wf s2 /\ sep s2 A B.
Proof.
  intros W S X. induction X as [s|s p s1 v s2 Wt St X IH|s p s1 e s2 Wt St X IH]; [auto|..].
  all: pose proof (step_wf fuel suave1 suave12 s p W) as W1; rewrite St in W1; apply IH; [apply W1|].
  all: assert (O : writes_to A p \/ writes_to B p) by (destruct p; try destruct Wt; cbn [writes_to] in *; try (match goal with y : source N |- _ => destruct y; [|destruct Wt] end); apply in_app_iff, Wt).
  all: destruct O as [O|O]; [pose proof (sep_step s A B p W S O) as Y|pose proof (sep_step s B A p W (sep_sym _ _ _ S) O) as Y]; rewrite St in Y; cbn in Y; destruct Y as (Y & _); auto using sep_sym.
Qed.
Lemma deepcopy_step s o c s1 v : wf s -> In o (vars s) -> class_of s o = Some c -> step (Deepcopy o) s = Fine s1 v ->
  let n := List.length (objects s) in
  vars s1 = n :: vars s /\ class_of s1 n = Some c /\ (forall x, column_of s1 n x = column_of s o x) /\ (forall x y, x < n -> column_of s1 x y = column_of s x y) /\ lin_of s1 o = lin_of s o /\
  (if has_ctype c then exists l l', lin_of s o = Some l /\ lin_of s1 n = Some l' /\ forall x, column_of s1 l' x = column_of s l x else lin_of s1 n = None) /\
  sep s1 (family s1 o) (family s1 n).
Proof.
  intros W Ho C St n. destruct (class_obj _ _ _ C) as (ob & E & Co). pose proof (nth_error_lt _ _ _ E) as L. unfold Process.step in St. cbn [statement] in St. unfold nothing, mbind in St. rewrite (obj_ok _ _ _ (reach_var _ _ Ho) E) in St. unfold get in St.
  destruct (py_deepcopy (List.length (objects s)) o s) as [s2 n2| | |] eqn:D; try discriminate St. injection St as <- _. pose proof (readable_wf s W) as R.
  destruct (deep_ok _ s o _ s2 n2 R L D) as (Ex & -> & Ln & Fc & Li). fold n in Ln, Fc, Li. rewrite C in Li. cbn [vars with_vars with_temps].
  set (s1 := with_temps _ _). assert (Cl : forall x y, column_of s1 x y = column_of s2 x y) by reflexivity.
  assert (Lo : lin_of s2 o = lin_of s o) by (unfold lin_of; rewrite E, (ex_obj _ _ Ex _ _ E); reflexivity).
  split; [rewrite (ex_vars _ _ Ex); reflexivity|]. split; [rewrite <- C; apply (fc_class _ _ _ _ Fc)|]. split; [apply (fc_column _ _ _ _ Fc)|].
  split; [intros x y Hx; rewrite Cl; apply (ex_column s s2 n); auto|]. split; [exact Lo|]. split.
  { destruct (has_ctype c); [|exact Li]. destruct Li as (l & l' & El & El' & Fl & _). exists l, l'. split; [exact El|]. split; [exact El'|]. apply (fc_column _ _ _ _ Fl). }
  change (sep s1 (family s2 o) (family s2 n)). assert (Old : forall x, In x (family s2 o) -> x < n).
  { intros x [<-|H]; [exact L|]. rewrite Lo in H. destruct (lin_of s o) as [l|] eqn:El; [|destruct H]. destruct H as [<-|[]]. unfold lin_of in El. rewrite E in El. apply (wf_link _ W _ _ _ E). auto. }
  assert (New : forall x, In x (family s2 n) -> x < List.length (objects s2) /\ exists z, fresh_copy s s2 z x).
  { intros x [<-|H]; [eauto|]. destruct (has_ctype c); [|rewrite Li in H; destruct H]. destruct Li as (l & l' & _ & El' & Fl & Ll). rewrite El' in H. destruct H as [<-|[]]. split; [lia|eauto]. }
  pose proof (ex_objects _ _ Ex) as Lx. constructor.
  - intros x [H|H]; [apply Old in H; cbn; lia|apply New in H; apply H].
  - intros x Hx (y & oy & ox & Hy & Ey & Eox & Dd). destruct (New y Hy) as (_ & z & Fy). apply Old in Hx. cbn in Ey, Eox. pose proof (fc_table _ _ _ _ Fy _ Ey) as Td.
    destruct (nth_error (objects s) x) as [ox'|] eqn:Ex'; [|apply nth_error_None in Ex'; unfold n in *; lia]. rewrite (ex_obj _ _ Ex _ _ Ex') in Eox. injection Eox as ->. pose proof (wf_dict _ W _ _ Ex'). lia.
  - intros b (x & y & a & Hx & Ha & Eb) (x' & y' & a' & Hx' & Ha' & Eb'). destruct (New x' Hx') as (_ & z & Fy). change (In (y', a') (dict_of s2 x')) in Ha'. destruct (fc_block _ _ _ _ Fy _ _ Ha') as (Lb & _).
    change (In (y, a) (dict_of s2 x)) in Ha. rewrite (ex_dict_of s s2 n) in Ha by auto. pose proof (dict_block _ _ _ _ W Ha). lia.
Qed.
(** A deep copy is made whenever the linear spectrum, if the class has one, is an object of the class SpectrumLin. *)
Lemma do_all_Fine {A} (f : A -> M N unit) (J : state -> Prop) (t : list A) : forall s, J s -> (forall x s, In x t -> J s -> exists s', f x s = Fine s' tt /\ J s') -> exists s', do_all f t s = Fine s' tt /\ J s'.
Proof.
  induction t as [|x t IH]; intros s Hs H; [exists s; split; [reflexivity|exact Hs]|]. destruct (H x s (or_introl eq_refl) Hs) as (s1 & E1 & J1). destruct (IH s1 J1 (fun y s Hy => H y s (or_intror Hy))) as (s2 & E2 & J2).
  exists s2. split; [|exact J2]. rewrite (do_all_cons f x t s s1 E1). exact E2.
Qed.
Lemma front_fine s o ob m : readable m s -> o < m -> nth_error (objects s) o = Some ob -> (forall s', extends s s' -> In o (reachable s')) -> exists s2, front o (o_class ob) s = Fine s2 (List.length (objects s)).
Proof.
  intros R L E Hr. unfold front. destruct (new_object_eq s (o_class ob)) as (s1 & E1 & B1 & D1 & O1 & V1 & L1 & T1 & C1). rewrite (bind_Fine _ _ _ _ _ E1). set (n := List.length (objects s)) in *. unfold mbind, get, ret. set (obn := mkObj _ _ _ _ _ _) in O1.
  assert (Mono : forall A (l m : list A) i x, nth_error l i = Some x -> nth_error (l ++ m) i = Some x) by (intros; rewrite nth_error_app1; [assumption|eapply nth_error_lt; eassumption]).
  assert (X1 : extends s s1) by (constructor; [rewrite B1; auto|rewrite D1; auto|rewrite O1; auto|rewrite B1; lia|rewrite D1, app_length; lia|rewrite O1, app_length; lia|assumption..]).
  pose proof (do_all_Fine (copy_item n) (fun s' => extends s s' /\ nth_error (objects s') n = Some obn) (dict_of s1 o) s1) as Lp. destruct Lp as (s2 & -> & _); [|intros [x a] s' H [X' N']|eauto].
  { split; [exact X1|]. rewrite O1, nth_error_app2, Nat.sub_diag by (unfold n; lia). reflexivity. }
  rewrite (ex_dict_of s s1 m) in H by assumption. pose proof (rb_sound _ _ R o _ L H) as Sa. apply (sound_more s s' a (ex_block _ _ X')) in Sa as (Sa & _).
  assert (Al : alive s' (a_buf a) = true).
  { destruct Sa as (_ & xs & Eb & _). apply (alive_held _ _ _ Eb), (held_array s' o x a); [apply Hr, X'|]. rewrite (ex_dict_of s s' m) by assumption. exact H. }
  unfold copy_item. cbn [fst snd]. rewrite (bind_Fine _ _ _ _ _ (np_get_ok s' a Sa Al)). unfold np_new, mbind, new_block, ret, py_setitem, modify. cbn [objects with_blocks a_buf a_off a_step a_len]. rewrite N'. eexists. split; [reflexivity|]. split; [|exact N'].
  constructor; cbn.
  - intros b y Hb. apply Mono, (ex_block _ _ X'), Hb.
  - intros i y Hi. rewrite nth_error_upd, (ex_dict _ _ X' _ _ Hi), (proj2 (Nat.eqb_neq _ _)); [reflexivity|]. apply nth_error_lt in Hi. lia.
  - apply (ex_obj _ _ X').
  - rewrite app_length. pose proof (ex_blocks _ _ X'). lia.
  - rewrite upd_length. apply (ex_dicts _ _ X').
  - apply (ex_objects _ _ X').
  - apply (ex_vars _ _ X').
  - apply (ex_lin _ _ X').
  - apply (ex_terms _ _ X').
  - apply (ex_conf _ _ X').
Qed.
Lemma deepcopy_fine s o c : wf s -> In o (vars s) -> class_of s o = Some c -> (has_ctype c = true -> exists l cl, lin_of s o = Some l /\ class_of s l = Some cl /\ has_ctype cl = false) -> exists s1, step (Deepcopy o) s = Fine s1 [].
Proof.
  intros W Ho C Hl. destruct (class_obj _ _ _ C) as (ob & E & Co). pose proof (nth_error_lt _ _ _ E) as L. pose proof (readable_wf s W) as R. set (m := List.length (objects s)) in *. unfold Process.step. cbn [statement]. unfold nothing, mbind. rewrite (obj_ok _ _ _ (reach_var _ _ Ho) E). unfold get. fold m.
  assert (Ex : exists s2 n, py_deepcopy m o s = Fine s2 n); [|destruct Ex as (s2 & n & ->); eexists; reflexivity]. rewrite (deep_eq _ _ _ _ E). subst c.
  destruct (front_fine s o ob m R L E) as (s2 & Fr). { intros s' X. apply reach_var. rewrite (ex_vars _ _ X). exact Ho. }
  rewrite (bind_Fine _ _ _ _ _ Fr). destruct (has_ctype (o_class ob)) eqn:Hc; [|eexists _, _; reflexivity]. destruct (Hl eq_refl) as (l & cl & El & Cl & Hcl). unfold lin_of in El. rewrite E in El. rewrite El. unfold attribute, mbind at 1, ret at 1.
  destruct (copied s o ob s2 E (fun xa => rb_sound _ _ R o xa L) (rb_names _ _ R o L) (rb_dict _ _ R _ _ L E) Fr) as (X2 & _ & _ & L2). destruct (class_obj _ _ _ Cl) as (ol & Eol & Col). pose proof (nth_error_lt _ _ _ Eol) as Ll. pose proof (ex_readable _ _ _ X2 R) as R2.
  assert (Hm : exists d, m = S d) by (exists (pred m); unfold m; lia). destruct Hm as (d & Hm). rewrite Hm. assert (Eol2 := ex_obj _ _ X2 _ _ Eol).
  destruct (front_fine s2 l ol m R2 Ll Eol2) as (s3 & Fr3).
  { intros s' X. pose proof (extends_trans _ _ _ X2 X) as X3. apply (reach_link s' o l); [pose proof (ex_objects _ _ X3); lia|rewrite (ex_vars _ _ X3); exact Ho|]. apply lin_link. unfold lin_of. rewrite (ex_obj _ _ X3 _ _ E). exact El. }
  unfold mbind at 1. rewrite (deep_eq _ _ _ _ Eol2), (bind_Fine _ _ _ _ _ Fr3), Col, Hcl. unfold ret at 1. unfold mbind, set_obj, modify, ret. eexists _, _. reflexivity.
Qed.
End Isolated.
