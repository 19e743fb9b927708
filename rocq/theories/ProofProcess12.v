(** ProofProcess12: run_terms of the two classes of the B term. *)
From Coq Require Import ZArith List String Bool Lia PeanoNat.
From Verif Require Import Base Num Common Kernels Integrals Registry PyTerms Threads SpecThreads Process SpecProcess ProofThreads2 ProofThreads3 ProofScratch3 ProofPy ProofProcess ProofProcess2 ProofProcess3 ProofProcess4 ProofProcess5 ProofProcess6 ProofProcess7 ProofProcess8 ProofProcess9 ProofProcess10 ProofProcess11.
Import ListNotations.
Local Open Scope string_scope.
Local Open Scope nat_scope.

Section FillB.
Context {N : Num}.
Notation T := (T N).
Notation state := (state N).
Implicit Types (s : state) (o l : nat).
Variables (fuel : nat) (suave1 : (list T -> res T) -> res T) (suave12 : (list T -> res (list T)) -> res (list T)).

(** A frame which protects nothing: [inv F0] is [wf]. *)
Definition F0 : frame := mkFrame (fun _ => False) (fun _ => False) (fun _ => False) (fun _ => True) False (fun _ => False) (fun _ => False) False False.
Lemma inv0 s : wf s -> inv F0 s.
Proof. intros W. constructor; cbn; auto; tauto. Qed.
Lemma wp0 {A} s (m : M N A) Q s' a : wp F0 s m Q -> m s = Fine s' a -> wf s'.
Proof. unfold wp. intros H E. rewrite E in H. apply (in_wf _ _ (proj1 H)). Qed.
Lemma free0 s o : free_dict F0 s o. Proof. intros ob _ []. Qed.

Lemma bound_keep s s' o c sl l K P ks : (forall x a, In (x, a) (dict_of s o) \/ In (x, a) (dict_of s l) -> nth_error (blocks s') (a_buf a) = nth_error (blocks s) (a_buf a)) ->
  dict_of s' o = dict_of s o -> dict_of s' l = dict_of s l -> class_of s' o = class_of s o -> g_terms s' sl = g_terms s sl -> g_lin s' = g_lin s -> at_hand s' l -> bound_to s o c sl l K P ks -> bound_to s' o c sl l K P ks.
Proof.
  intros B Do Dl C G L H [T0 L0 A].
  assert (El : forall x a, In (x, a) (dict_of s o) \/ In (x, a) (dict_of s l) -> elements s' a = elements s a) by (intros x a Ha; unfold elements, contents; rewrite (B x a Ha); reflexivity).
  assert (Fa : forall x a p, In (x, a) (dict_of s o) \/ In (x, a) (dict_of s l) -> faces s a p -> faces s' a p) by (intros x a p Ha; unfold faces; rewrite (B x a Ha); auto).
  assert (Co : forall y, column_of s' o y = column_of s o y) by (intros y; unfold column_of; rewrite Do; destruct (assoc (dict_of s o) y) eqn:E; [cbn; rewrite (El y a) by (left; apply assoc_In, E)|]; reflexivity).
  assert (Cl : forall y, column_of s' l y = column_of s l y) by (intros y; unfold column_of; rewrite Dl; destruct (assoc (dict_of s l) y) eqn:E; [cbn; rewrite (El y a) by (right; apply assoc_In, E)|]; reflexivity).
  constructor.
  - destruct T0. constructor; rewrite ?Do, ?Co, ?G, ?C; auto. intros x Hx. destruct (t_col x Hx) as (a & H1 & H2 & H3). exists a. split; [exact H1|]. split; [|exact H3]. eapply (Fa x); [left; apply assoc_In, H1|exact H2].
  - destruct L0. constructor; rewrite ?Dl, ?Cl, ?L; auto.
    + intros a Ha. destruct (i_kptr a Ha). split; [|assumption]. eapply (Fa "k"); [right; apply assoc_In, Ha|assumption].
    + intros a Ha. destruct (i_pptr a Ha). split; [|assumption]. eapply (Fa "pk"); [right; apply assoc_In, Ha|assumption].
  - unfold apart. rewrite Do, Dl. exact A.
Qed.
Lemma dict_block s o x a : wf s -> In (x, a) (dict_of s o) -> a_buf a < List.length (blocks s).
Proof.
  intros W H. unfold dict_of in H. destruct (nth_error (objects s) o) as [ob|] eqn:E; [|destruct H]. destruct (wf_array _ W (nth (o_dict ob) (dicts s) []) x a) as (_ & xs & X & _); [apply nth_In, (wf_dict _ W _ _ E)|exact H|]. eapply nth_error_lt, X.
Qed.
Lemma rd_nth (xs : list T) i : (0 <= i < zlen xs)%Z -> rd xs i = Ok (nth (Z.to_nat i) xs (nZ N 0)).
Proof. intros H. unfold rd. rewrite (proj2 (Z.leb_le _ _)), (proj2 (Z.ltb_lt _ _)) by lia. cbn. rewrite (nth_error_nth' _ (nZ N 0)); [reflexivity|]. unfold zlen in H. lia. Qed.
Lemma np_get_ok s a : sound s a -> alive s (a_buf a) = true -> np_get a s = Fine s (elements s a).
Proof.
  intros (L & xs & E & B) A. unfold np_get. rewrite (bind_Fine _ _ _ _ _ (alive_block _ _ A)). unfold elements. apply each_all. intros i Hi. apply In_indices in Hi. unfold lift.
  rewrite rd_nth; [reflexivity|]. unfold np_cell, contents. rewrite E. apply B, Hi.
Qed.
Lemma sound_dict s o x a : wf s -> In (x, a) (dict_of s o) -> sound s a.
Proof. intros W H. unfold dict_of in H. destruct (nth_error (objects s) o) as [ob|] eqn:E; [|destruct H]. eapply (wf_array _ W); [apply nth_In, (wf_dict _ W _ _ E)|exact H]. Qed.
Lemma alive_dict s o x a : wf s -> In o (reachable s) -> In (x, a) (dict_of s o) -> alive s (a_buf a) = true.
Proof. intros W Ho H. destruct (sound_dict _ _ _ _ W H) as (_ & xs & E & _). eapply alive_held; [exact E|]. eapply held_array; eauto. Qed.
Lemma columns_eq s o : wf s -> In o (reachable s) -> py_columns o s = Fine s (map (fun xa => (fst xa, elements s (snd xa))) (dict_of s o)).
Proof.
  intros W Ho. unfold py_columns, get. unfold mbind at 1. apply each_all. intros [x a] H. rewrite (bind_Fine _ _ _ _ _ (np_get_ok s a (sound_dict _ _ _ _ W H) (alive_dict _ _ _ _ W Ho H))). reflexivity.
Qed.
Lemma assoc_map {A B} (f : A -> B) (l : list (string * A)) x : assoc (map (fun xa => (fst xa, f (snd xa))) l) x = option_map f (assoc l x).
Proof. induction l as [|[y a] t IH]; cbn; [reflexivity|]. destruct (x =? y)%string; [reflexivity|exact IH]. Qed.
Lemma getitem_column s o x : getitem (map (fun xa => (fst xa, elements s (snd xa))) (dict_of s o)) x = match column_of s o x with Some v => Ok v | None => Err (PyExc KeyError) end.
Proof. unfold getitem, column_of. rewrite assoc_map. reflexivity. Qed.
Lemma row_column s o c sl ks fa fb vals x i : terms_are s o c sl ks -> filled s o (D_1loop fa fb) ks (match column_of s o "pk_lin" with Some v => v | None => [] end) (match column_of s o "sigmad2" with Some v => v | None => [] end) vals -> c = C1Loop ->
  nth_error ["gamma1a_1loop"; "gamma1b_1loop"; "pk_gamma2_tree_tree"] i = Some x -> column_of s o x = Some (map (fun ik => nth i (vals ik) (nZ N 0)) (indices (zlen ks))).
Proof.
  intros T0 [_ _ _ Fr] -> Hx. destruct T0. assert (Hf : In x (fields C1Loop)) by (destruct i as [|[|[|i]]]; cbn in Hx; [injection Hx as <-; cbn; tauto..|destruct i; discriminate]).
  destruct (t_col x Hf) as (a & Ea & Fa & La). unfold column_of. rewrite Ea. cbn [option_map]. f_equal. unfold elements. replace (a_len a) with (zlen ks) by (rewrite La; unfold comps; cbn; lia).
  apply map_ext_in. intros ik Hi. apply In_indices in Hi. specialize (Fr ik Hi). change (cells_of (D_1loop fa fb) ik) with (cells_1loop ik) in Fr. unfold cells_1loop in Fr.
  assert (Nv : nth_error (map (element_of s o) [Arr "gamma1a_1loop" ik; Arr "gamma1b_1loop" ik; Arr "pk_gamma2_tree_tree" ik]) i = Some (element_of s o (Arr x ik))) by (destruct i as [|[|[|i]]]; cbn in Hx; [injection Hx as <-; reflexivity..|destruct i; discriminate]).
  rewrite Fr, nth_error_map in Nv. assert (Pn : py_name x = x) by (destruct i as [|[|[|i]]]; cbn in Hx; [injection Hx as <-; reflexivity..|destruct i; discriminate]).
  cbn [element_of] in Nv. rewrite Pn in Nv. unfold column_of in Nv. rewrite Ea in Nv. cbn [option_map] in Nv.
  rewrite elements_nth in Nv by (rewrite La; unfold comps; cbn; lia). destruct (nth_error (vals ik) i) as [v|] eqn:Ev; [|discriminate]. cbn in Nv. injection Nv as Nv. rewrite (nth_error_nth _ _ _ Ev). symmetry. exact Nv.
Qed.

(** ** The two spectra are given *)
Lemma spectra_B_ok s o ob l K P ks dt ptt Pd Pt ps ss vals : wf s -> In o (reachable s) -> nth_error (objects s) o = Some ob -> slot_of (o_class ob) = Some S_B -> bound_to s o (o_class ob) S_B l K P ks -> K <> [] ->
  a_2d dt = false -> a_2d ptt = false -> a_len dt = zlen K -> a_len ptt = zlen K -> reads s (whole dt) Pd -> reads s (whole ptt) Pt -> List.length Pd = List.length K -> List.length Pt = List.length K ->
  ~ outputs s S_B (a_buf dt) -> ~ outputs s S_B (a_buf ptt) ->
  computes fuel (g_conf s) suave1 suave12 D_B (mk_table K P) (mk_table K Pd) (mk_table K Pt) ks ps ss vals ->
  exists s', mbind (py_spectra_B l dt ptt) (fun _ => c_run_terms_B fuel suave1 suave12) s = Fine s' tt /\ bound_to s' o (o_class ob) S_B l K P ks /\ filled s' o D_B ks ps ss vals /\
    objects s' = objects s /\ vars s' = vars s /\ temps s' = temps s /\ dicts s' = dicts s /\ List.length (blocks s') = List.length (blocks s) /\ (forall b, ~ outputs s S_B b -> nth_error (blocks s') b = nth_error (blocks s) b) /\
    g_terms s' = g_terms s /\ g_lin s' = g_lin s /\ g_conf s' = g_conf s /\ g_verbose s' = g_verbose s.
Proof.
  intros W Ho E Sl B Nk D1 D2 L1 L2 R1 R2 Ld Lt O1 O2 Cm. pose proof B as [T0 L0 A0].
  assert (Lk : exists lk, assoc (dict_of s l) "k" = Some lk) by (pose proof (i_k _ _ _ _ L0) as X; unfold column_of in X; destruct (assoc (dict_of s l) "k"); [eauto|discriminate]). destruct Lk as (lk & Elk).
  destruct (i_kptr _ _ _ _ L0 _ Elk) as [Flk Dlk]. assert (El : elements s lk = K) by (pose proof (i_k _ _ _ _ L0) as X; rewrite (column_faces _ _ _ _ Elk) in X; injection X as ->; reflexivity).
  assert (Ll : a_len lk = zlen K) by (rewrite <- El; symmetry; apply elements_length; destruct Flk as (_ & _ & _ & X & _); exact X).
  assert (Hl : In l (reachable s)) by (apply reach_hand; [exact W|apply (i_hand _ _ _ _ L0)]).
  assert (Fw : faces s lk (whole lk)) by (destruct Flk as (_ & X); split; [reflexivity|exact X]).
  assert (Rk : reads s (whole lk) K) by (apply (faces_reads s l "k" lk); auto).
  set (s1 := with_tt (with_dt s (mkCpk (zlen K) (whole lk) (whole dt))) (mkCpk (zlen K) (whole lk) (whole ptt))).
  assert (E1 : py_spectra_B l dt ptt s = Fine s1 tt).
  { unfold py_spectra_B. rewrite (bind_Fine _ _ _ _ _ (size_ok _ _ _ Elk Dlk)). rewrite (bind_Fine _ _ _ _ _ (getitem_ok _ _ _ _ Elk)). rewrite Ll. rewrite (bind_Fine _ _ _ _ _ (pointer_ok s (zlen K) lk Ll Dlk)).
    rewrite (bind_Fine _ _ _ _ _ (pointer_ok s (zlen K) dt L1 D1)). rewrite (bind_Fine _ _ s (with_dt s (mkCpk (zlen K) (whole lk) (whole dt))) tt) by reflexivity.
    rewrite (bind_Fine _ _ _ _ _ (pointer_ok (with_dt s (mkCpk (zlen K) (whole lk) (whole dt))) (zlen K) ptt L2 D2)). reflexivity. }
  rewrite (bind_Fine _ _ _ _ _ E1).
  assert (Hd : held s1 = held s) by (apply held_ext; reflexivity).
  assert (Ar : armed s S_B K P ks) by (apply (armed_of s o (o_class ob) S_B l); auto).
  assert (A1 : armed s1 S_B K P ks) by (apply (armed_ext s); auto).
  assert (Rx : forall p xs, reads s p xs -> reads s1 p xs) by (intros p xs; apply reads_ext; [reflexivity|exact Hd]).
  destruct (run_terms_B_ok fuel suave1 suave12 s1 K P ks K Pd K Pt ps ss vals) as (s' & E' & R' & V1 & V2 & V3); auto.
  { change (outputs s1 S_B) with (outputs s S_B). cbn. intros b Hb [X|[X|[X|[X|[]]]]]; subst; try tauto; destruct (output_array _ _ _ _ _ _ T0 Hb) as (x & a & Hx & Nk' & Ea & Ba); apply (A0 x "k" a lk Hx Nk' Ea Elk); cbn; auto. }
  exists s'. split; [exact E'|].
  assert (B1 : bound_to s1 o (o_class ob) S_B l K P ks) by (apply (bound_ext s); auto).
  assert (B' : bound_to s' o (o_class ob) S_B l K P ks) by (eapply bound_rw; [exact R'|exact B1]).
  split; [exact B'|]. split.
  { apply (filled_of s' o (o_class ob) S_B ks DELTA DELTA); [apply (b_terms _ _ _ _ _ _ _ _ B')|destruct (o_class ob); discriminate Sl || reflexivity|..]; rewrite (rw_terms _ _ _ R'); assumption. }
  pose proof (rw_eq _ _ _ R') as Eq. repeat split; try (rewrite Eq; reflexivity).
  - apply (rw_none _ _ _ R').
  - intros b Hb. apply (rw_same _ _ _ R'), Hb.
Qed.
Lemma table_nonempty K P ks im ps : find_pk (N := N) (mk_table K P) ks im = Ok ps -> K <> [].
Proof. intros E ->. discriminate E. Qed.
Lemma run_B1_ok s o ob l K P ks a b ps ss vals : wf s -> In o (reachable s) -> nth_error (objects s) o = Some ob -> o_class ob = CB1 -> o_lin ob = Some l -> bound_to s o CB1 S_B l K P ks ->
  computes fuel (g_conf s) suave1 suave12 D_B (mk_table K P) (mk_table K P) (mk_table K P) ks ps ss vals ->
  exists s', py_run_terms fuel suave1 suave12 o ob a b s = Fine s' tt /\ bound_to s' o CB1 S_B l K P ks /\ filled s' o D_B ks ps ss vals /\
    objects s' = objects s /\ vars s' = vars s /\ temps s' = temps s /\ dicts s' = dicts s /\ List.length (blocks s') = List.length (blocks s) /\ (forall b, ~ outputs s S_B b -> nth_error (blocks s') b = nth_error (blocks s) b) /\
    g_terms s' = g_terms s /\ g_lin s' = g_lin s /\ g_conf s' = g_conf s /\ g_verbose s' = g_verbose s.
Proof.
  intros W Ho E C El B Cm. pose proof B as [T0 L0 A0]. pose proof (table_nonempty _ _ _ _ _ (proj1 Cm)) as Nk. unfold py_run_terms. rewrite C, El. unfold attribute. rewrite (bind_Fine _ _ s s l) by reflexivity.
  assert (Lp : exists lp, assoc (dict_of s l) "pk" = Some lp) by (pose proof (i_p _ _ _ _ L0) as X; unfold column_of in X; destruct (assoc (dict_of s l) "pk"); [eauto|discriminate]). destruct Lp as (lp & Elp).
  destruct (i_pptr _ _ _ _ L0 _ Elp) as [Flp Dlp]. assert (Ee : elements s lp = P) by (pose proof (i_p _ _ _ _ L0) as X; rewrite (column_faces _ _ _ _ Elp) in X; injection X as ->; reflexivity).
  assert (Ll : a_len lp = zlen K). { rewrite <- (elements_length s lp) by (destruct Flp as (_ & _ & _ & X & _); exact X). rewrite Ee. unfold zlen. rewrite (i_len _ _ _ _ L0). reflexivity. }
  rewrite (bind_Fine _ _ _ _ _ (getitem_ok _ _ _ _ Elp)).
  assert (Fw : faces s lp (whole lp)) by (destruct Flp as (_ & X); split; [reflexivity|exact X]).
  assert (Hl : In l (reachable s)) by (apply reach_hand; [exact W|apply (i_hand _ _ _ _ L0)]).
  assert (No : ~ outputs s S_B (a_buf lp)). { intros H. destruct (output_array _ _ _ _ _ _ T0 H) as (x & y & Hx & Nx & Ex & Bx). apply (A0 x "pk" y lp Hx Nx Ex Elp); cbn; auto. }
  rewrite <- C in *. apply (spectra_B_ok s o ob l K P ks lp lp P P); auto; try (rewrite C; reflexivity); try apply (faces_reads s l "pk" lp); auto; apply (i_len _ _ _ _ L0).
Qed.
End FillB.
