(** ProofProcess4: what every statement leaves unchanged. *)
From Coq Require Import ZArith List String Bool Lia PeanoNat.
From Verif Require Import Base Num Common Kernels Integrals Registry PyTerms Threads SpecThreads Process SpecProcess ProofThreads2 ProofProcess ProofProcess2 ProofProcess3.
Import ListNotations.
Local Open Scope string_scope.
Local Open Scope nat_scope.

Section Frames4.
Context {N : Num}.
Notation T := (T N).
Notation state := (state N).
Variables (fuel : nat) (suave1 : (list T -> res T) -> res T) (suave12 : (list T -> res (list T)) -> res (list T)).
Variable F : frame.
Notation wp := (ProofProcess.wp (N := N) F).
Notation inv := (ProofProcess.inv (N := N) F).
Notation free_dict := (ProofProcess3.free_dict (N := N) F).
Ltac pb H := eapply wp_bind; [apply wp_pure; [eassumption|H]|].
Lemma wp_np_set s a i x : inv s -> ~ fb F (a_buf a) -> wp s (np_set a i x) (fun _ s' => dicts s' = dicts s /\ objects s' = objects s).
Proof.
  intros I Nb. unfold np_set. destruct (_ && _); [|apply wp_throw, I]. pb ltac:(apply pure_block). intros xs s1 _ _ (-> & E). apply block_Fine in E as (_ & _ & E).
  pb ltac:(apply pure_lift). intros ys s1 _ _ (-> & E3).
  assert (L : List.length ys = List.length xs). { unfold lift in E3. destruct (wr xs (np_cell a i) x) as [zs|[]] eqn:W; try discriminate. injection E3 as <-. eapply wr_length, W. }
  eapply wp_put; eauto. unfold put_block. destruct (nth_error (blocks s) (a_buf a)) as [[]|]; auto.
Qed.
Lemma wp_np_put s a xs : inv s -> ~ fb F (a_buf a) -> wp s (np_put a xs) (fun _ s' => dicts s' = dicts s /\ objects s' = objects s).
Proof.
  intros I Nb. unfold np_put. apply (wp_do_all_with F (fun s' => dicts s' = dicts s /\ objects s' = objects s)); auto. intros s1 iv I1 (D & O) _.
  eapply wp_weaken; [apply wp_np_set; auto|]. cbv beta. intros _ s2 _ _ (D2 & O2). split; congruence.
Qed.
Lemma wp_pad_k s o c k x im : inv s -> exists_obj s o -> free_dict s o -> wp s (py_pad_k o c k x im) (fun _ _ => True).
Proof.
  intros I L Fd. unfold py_pad_k. pb ltac:(apply pure_getitem). intros ka s1 _ _ (-> & _). pb ltac:(apply pure_np_get). intros kk s1 _ _ (-> & _).
  pb ltac:(apply pure_lift). intros k0 s1 _ _ (-> & _). pb ltac:(apply pure_lift). intros k1 s1 _ _ (-> & _). set (st := List.length (filter _ _)). set (en := List.length (filter _ _)).
  eapply wp_bind with (P := fun _ s' => exists_obj s' o /\ free_dict s' o /\ forall a, assoc (dict_of s' o) "k" = Some a -> ~ fb F (a_buf a)).
  { assert (Hd : exists t, fields c = "k" :: t) by (destruct c; eexists; reflexivity). destruct Hd as (t & Et). rewrite Et.
    set (f := fun key : string => _). 
    assert (Hf : forall s1 key, inv s1 -> exists_obj s1 o /\ free_dict s1 o -> wp s1 (f key) (fun _ s' => (exists_obj s' o /\ free_dict s' o) /\ forall y, y = key \/ (forall a, assoc (dict_of s1 o) y = Some a -> ~ fb F (a_buf a)) -> forall a, assoc (dict_of s' o) y = Some a -> ~ fb F (a_buf a))).
    { intros s1 key I1 (L1 & F1). unfold f. pb ltac:(apply pure_getitem). intros a s2 _ _ (-> & _). destruct (a_2d a); [apply wp_throw; auto|]. pb ltac:(apply pure_np_get). intros v s2 _ _ (-> & _).
      eapply wp_bind; [apply wp_np_new, I1|]. intros b s2 I2 K2 (Eb & E2 & Nb & Sb). assert (L2 : exists_obj s2 o) by (eapply exists_keep; eauto). assert (F2 : free_dict s2 o) by (eapply free_keep; eauto).
      eapply wp_weaken; [apply wp_setitem; auto|]. intros _ s3 I3 K3 ->. split; [split; [eapply exists_keep; eauto|eapply free_keep; eauto]|]. intros y Hy a' Ha'.
      unfold exists_obj in L2. apply nth_error_Some in L2. destruct (nth_error (objects s2) o) as [ob|] eqn:Eo; [|congruence]. pose proof (wf_dict _ (in_wf _ _ I2) _ _ Eo) as Ld.
      rewrite (set_item_dict _ _ _ _ _ ob) in Ha' by assumption. rewrite Eo, Nat.eqb_refl, assoc_dict_set in Ha'. destruct (String.eqb_spec y key); [injection Ha' as <-; exact Nb|].
      destruct Hy as [Hy|Hy]; [congruence|]. apply Hy. rewrite E2 in Ha'. exact Ha'. }
    unfold do_all. cbn [each_]. eapply wp_bind with (P := fun _ s' => (exists_obj s' o /\ free_dict s' o) /\ forall a, assoc (dict_of s' o) "k" = Some a -> ~ fb F (a_buf a)).
    2: { intros ? s1 I1 K1 H1. apply wp_ret; tauto. }
    eapply wp_bind; [apply Hf; auto|]. intros [] s1 I1 K1 (J1 & H1). assert (H1' : forall a, assoc (dict_of s1 o) "k" = Some a -> ~ fb F (a_buf a)) by (apply H1; auto). clear H1.
    eapply wp_bind with (P := fun _ s' => (exists_obj s' o /\ free_dict s' o) /\ forall a, assoc (dict_of s' o) "k" = Some a -> ~ fb F (a_buf a)).
    2: { intros ? s2 I2 K2 H2. apply wp_ret; tauto. }
    clear Et K1. revert s1 I1 J1 H1'. induction t as [|y t IH]; intros s1 I1 J1 H1'; cbn [each_]; [apply wp_ret; auto|].
    eapply wp_bind; [apply Hf; auto|]. intros [] s2 I2 K2 (J2 & H2). eapply wp_bind; [apply IH; [exact I2|exact J2|apply H2; right; exact H1']|]. intros ? s3 I3 K3 H3. apply wp_ret; tauto. }
  intros [] s1 I1 K1 (L1 & F1 & N1). pb ltac:(apply pure_getitem). intros ka' s2 _ _ (-> & Eka). apply getitem_Fine in Eka as (_ & Eka). specialize (N1 _ Eka). pb ltac:(apply pure_np_get). intros kk' s2 _ _ (-> & Ekk).
  pb ltac:(apply pure_lift). intros kk2 s2 _ _ (-> & Ek2). eapply wp_bind; [apply wp_np_put; auto|]. intros [] s2 I2 K2 _. assert (L2 : exists_obj s2 o) by (eapply exists_keep; eauto). assert (F2 : free_dict s2 o) by (eapply free_keep; eauto).
  pb ltac:(apply pure_lift). intros kk3 s3 _ _ (-> & _). eapply wp_bind; [apply wp_np_put; auto|]. intros [] s3 I3 K3 _. assert (L3 : exists_obj s3 o) by (eapply exists_keep; eauto). assert (F3 : free_dict s3 o) by (eapply free_keep; eauto).
  assert (X : forall s4 y v, inv s4 -> exists_obj s4 o -> free_dict s4 o -> wp s4 (mbind (np_new v) (fun a => py_setitem o y a)) (fun _ s' => exists_obj s' o /\ free_dict s' o)).
  { intros s4 y v I4 L4 F4. eapply wp_bind; [apply wp_np_new, I4|]. intros a s5 I5 K5 (_ & _ & _ & Sa). assert (L5 : exists_obj s5 o) by (eapply exists_keep; eauto). assert (F5 : free_dict s5 o) by (eapply free_keep; eauto).
    eapply wp_weaken; [apply wp_setitem; auto|]. intros _ s6 I6 K6 _. split; [eapply exists_keep; eauto|eapply free_keep; eauto]. }
  eapply wp_bind with (P := fun _ s' => exists_obj s' o /\ free_dict s' o).
  { destruct (_ && _); [|apply wp_ret; auto]. pb ltac:(apply pure_find). intros v s4 _ _ (-> & _). apply X; auto. }
  intros [] s4 I4 K4 (L4 & F4). destruct (_ && _); [|apply wp_ret; auto]. pb ltac:(apply pure_sigmad2). intros v s5 _ _ (-> & _). eapply wp_weaken; [apply X; auto|auto].
Qed.

Definition old_objects (s : state) : Prop := forall o, fo F o -> exists_obj s o.
Definition info_kept (s : state) : Prop := fe F -> c_set_verbosity (g_verbose s) "info" = g_verbose s.
Lemma old_keep s s' : keep F s s' -> old_objects s -> old_objects s'.
Proof. intros K H o Ho. eapply exists_keep; eauto. Qed.
Lemma info_keep s s' : keep F s s' -> info_kept s -> info_kept s'.
Proof. intros K H Hv. rewrite (kp_verb _ _ _ K Hv). apply H, Hv. Qed.
Lemma sound_2d (s : state) a b : sound s a -> sound s (mkArray (a_buf a) (a_off a) (a_step a) (a_len a) b).
Proof. intros H. exact H. Qed.
Lemma wp_deepcopy depth : forall s o, inv s -> old_objects s -> info_kept s -> wp s (py_deepcopy depth o) (fun n s' => exists_obj s' n).
Proof.
  induction depth as [|depth IH]; intros s o I O V; cbn [py_deepcopy].
  all: eapply wp_bind with (P := fun ob s' => s' = s /\ nth_error (objects s) o = Some ob); [unfold ProofProcess.wp; destruct (nth_error (objects s) o); auto using keep_refl|]; intros ob s1 _ _ (-> & E).
  all: eapply wp_bind; [apply wp_new_object; [exact I|intros x a []|constructor|intros _; exact V]|]; intros n s1 I1 K1 (En & F1 & L1 & D1 & C1 & B1 & T1 & G1 & _).
  all: assert (Hn : ~ fo F n) by (intros Hn; apply O in Hn; unfold exists_obj in Hn; lia).
  all: eapply wp_bind; [apply wp_get with (Q := fun a s' => s' = s1 /\ a = s1); auto|]; intros ? ? _ _ (-> & ->).
  all: eapply wp_bind with (P := fun _ s' => exists_obj s' n /\ free_dict s' n);
    [apply (wp_do_all_with F (fun s' => exists_obj s' n /\ free_dict s' n)); auto; intros s2 xa I2 (L2 & F2) _; pb ltac:(apply pure_np_get); intros v s3 _ _ (-> & _);
     eapply wp_bind; [apply wp_np_new, I2|]; intros a s3 I3 K3 (_ & _ & _ & Sa);
     assert (L3 : exists_obj s3 n) by (eapply exists_keep; eauto); assert (F3 : free_dict s3 n) by (eapply free_keep; eauto);
     (eapply wp_weaken; [apply wp_setitem; auto|]); intros _ s6 I6 K6 _; (split; [eapply exists_keep; eauto|eapply free_keep; eauto])|].
  all: intros [] s2 I2 K2 (L2 & F2); destruct (has_ctype (o_class ob)); [|apply wp_ret; auto]; pb ltac:(apply pure_attribute); intros l s3 _ _ (-> & _).
  - unfold ProofProcess.wp. exact Logic.I.
  - assert (O2 : old_objects s2) by (eapply old_keep; [|exact O]; eapply keep_trans; eauto). assert (V2 : info_kept s2) by (eapply info_keep; [|exact V]; eapply keep_trans; eauto).
    eapply wp_bind; [apply IH; auto|]. intros l' s3 I3 K3 L3. assert (L4 : exists_obj s3 n) by (eapply exists_keep; eauto).
    eapply wp_bind; [apply wp_set_obj; auto|].
    { intros ob0 l0 E0 [H|H]; cbn in H; [injection H as <-; exact L3|eapply (wf_link _ (in_wf _ _ I3)); eauto]. }
    intros [] s4 I4 K4 _. apply wp_ret; auto. eapply exists_keep; eauto.
Qed.
Lemma wp_copy s o ob : inv s -> old_objects s -> info_kept s -> nth_error (objects s) o = Some ob -> wp s (py_copy o ob) (fun n s' => exists_obj s' n).
Proof.
  intros I O V E. unfold ProofProcess.wp, py_copy, mbind, new_object.
  set (s1 := with_objects (with_dicts s (dicts s ++ [[]])) (objects s ++ [ob])).
  assert (I1 : inv s1).
  { destruct I as [[] W B D]. constructor; auto.
    - constructor; cbn; auto.
      + intros o' ob'. rewrite nth_error_snoc, app_length. cbn. destruct (Nat.eqb o' _); [intros [= <-]; pose proof (wf_dict _ _ E); lia|]. intros H. pose proof (wf_dict _ _ H). lia.
      + intros o' ob' l. rewrite nth_error_snoc, app_length. cbn. destruct (Nat.eqb o' _); [intros [= <-] Hl; pose proof (wf_link _ _ _ E Hl); lia|]. intros H Hl. pose proof (wf_link _ _ _ H Hl). lia.
      + intros o' H. rewrite app_length. cbn. pose proof (wf_vars _ H). lia.
      + intros d x a Hd Ha. apply in_app_iff in Hd as [Hd|[<-|[]]]; [apply (wf_array _ _ _ Hd Ha)|destruct Ha].
      + intros d Hd. apply in_app_iff in Hd as [Hd|[<-|[]]]; [auto|constructor].
    - cbn. intros i Hi. rewrite app_length. cbn. specialize (D i Hi). lia. }
  assert (K1 : keep F s s1).
  { constructor; auto using latched_refl; cbn; eauto; try (rewrite app_length; cbn; lia).
    - intros i Hi. rewrite nth_error_snoc. pose proof (in_dict _ _ I _ Hi). rewrite (proj2 (Nat.eqb_neq _ _)) by lia. reflexivity.
    - intros o' ob' H. exists ob'. rewrite (nth_error_old _ _ _ _ H). auto. }
  assert (U : forall x, upd (objects s ++ [x]) (List.length (objects s)) ob = (objects s ++ [ob])%list).
  { intros x. clear. induction (objects s) as [|y t IH]; cbn; [reflexivity|]. rewrite IH. reflexivity. }
  assert (X : exists_obj s1 (List.length (objects s))) by (unfold exists_obj; cbn; rewrite app_length; cbn; lia).
  destruct (has_ctype (o_class ob)) eqn:Hc; unfold set_obj, modify; cbn [objects with_objects with_dicts with_verbose]; rewrite nth_error_snoc, Nat.eqb_refl; cbn [ret]; unfold with_objects at 1; cbn; rewrite U.
  - split; [|split]; [| |exact X].
    + match goal with |- ProofProcess.inv _ ?t => apply (inv_static F s1 t); auto end; [apply (wf_1loop _ (in_wf _ _ I1))|apply (in_write _ _ I1)].
    + eapply keep_trans; [exact K1|]. apply keep_static; auto using latched_refl.
  - split; [|split]; [exact I1|exact K1|exact X].
Qed.
Lemma slice_sound (s : state) a start sp len : sound s a -> (len =? 0)%Z || ((0 <=? start) && (start <? a_len a) && (0 <=? start + (len - 1) * sp) && (start + (len - 1) * sp <? a_len a))%Z = true -> (0 <=? len)%Z = true ->
  sound s (mkArray (a_buf a) (np_cell a start) (a_step a * sp) len false).
Proof.
  intros (L & xs & E & B) H Hl. apply Z.leb_le in Hl. split; [exact Hl|]. exists xs. split; [exact E|]. cbn. intros i Hi. unfold np_cell.
  replace (a_off a + start * a_step a + i * (a_step a * sp))%Z with (a_off a + (start + i * sp) * a_step a)%Z by ring. apply B.
  apply orb_true_iff in H as [H|H]; [apply Z.eqb_eq in H; lia|]. rewrite !andb_true_iff, !Z.leb_le, !Z.ltb_lt in H. destruct (Z.le_ge_cases 0 sp); nia.
Qed.
Lemma dict_names (s : state) o : wf s -> NoDup (map fst (dict_of s o)).
Proof.
  intros W. unfold dict_of. destruct (nth_error (objects s) o) as [ob|] eqn:E; [|constructor]. apply (wf_names _ W), nth_In, (wf_dict _ W _ _ E).
Qed.
Lemma dict_sound s o x a : inv s -> In (x, a) (dict_of s o) -> sound s a.
Proof.
  intros I H. unfold dict_of in H. destruct (nth_error (objects s) o) as [ob|] eqn:E; [|destruct H].
  pose proof (wf_dict _ (in_wf _ _ I) _ _ E) as L. eapply (wf_array _ (in_wf _ _ I)); [|exact H]. apply nth_In, L.
Qed.
Lemma wp_slice s o ob start sp len : inv s -> info_kept s -> wp s (py_slice ob (dict_of s o) start sp len) (fun n s' => exists_obj s' n).
Proof.
  intros I V. unfold py_slice. pb ltac:(apply pure_beyond). intros [] s1 _ _ (-> & E). unfold beyond_unless in E. destruct (forallb _ _) eqn:Fa; [|discriminate].
  rewrite forallb_forall in Fa. eapply wp_weaken; [apply wp_new_object; auto|].
  - intros x a H. apply in_map_iff in H as ([y b] & [= _ <-] & Hb). specialize (Fa _ Hb). apply andb_true_iff in Fa as (Fa & Hl). apply andb_true_iff in Fa as (_ & Fa). cbn [snd] in *.
    apply slice_sound; auto. eapply dict_sound; eauto.
  - rewrite map_map. cbn [fst]. apply dict_names, in_wf with (1 := I).
  - cbv beta. tauto.
Qed.
End Frames4.
