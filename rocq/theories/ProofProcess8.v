(** ProofProcess8: from the columns of the objects to the pointers of the library and back. *)
From Coq Require Import ZArith List String Bool Lia PeanoNat.
From Verif Require Import Base Num Common Kernels Integrals Registry PyTerms Threads SpecThreads Process SpecProcess ProofThreads2 ProofProcess ProofProcess2 ProofProcess3 ProofProcess4 ProofProcess5 ProofScratch3 ProofThreads3 ProofThreads4 ProofProcess6 ProofProcess7.
Import ListNotations.
Local Open Scope string_scope.
Local Open Scope nat_scope.

(** ** Names *)
Lemma c_fields_names c sl : slot_of c = Some sl -> c_fields sl = map (c_name c) (fields c).
Proof. destruct c; intros [= <-]; reflexivity. Qed.
Lemma c_name_inj c x y : In x (fields c) -> In y (fields c) -> c_name c x = c_name c y -> x = y.
Proof. destruct c; cbn [fields In]; intros Hx Hy; repeat (destruct Hx as [<-|Hx]; [repeat (destruct Hy as [<-|Hy]; [cbn; congruence|]); destruct Hy|]); destruct Hx. Qed.
Lemma comp_name c sl x : slot_of c = Some sl -> In x (fields c) -> comp_of (c_name c x) = comps c x.
Proof. destruct c; cbn [fields In slot_of]; intros [=] Hx; repeat (destruct Hx as [<-|Hx]; [reflexivity|]); destruct Hx. Qed.
Lemma out_name c sl y : slot_of c = Some sl -> In y (tl (c_fields sl)) -> exists x, In x (fields c) /\ x <> "k" /\ y = c_name c x /\ py_name y = x.
Proof.
  destruct c; cbn [slot_of]; intros [= <-] Hy; cbn [c_fields tl In] in Hy;
  repeat (destruct Hy as [<-|Hy]; [match goal with |- context [py_name ?z] => exists (py_name z) end; split; [cbn; tauto|]; split; [cbn; discriminate|]; split; reflexivity|]); destruct Hy.
Qed.
Lemma k_field c : In "k" (fields c). Proof. destruct c; cbn; auto. Qed.
Lemma k_name c : c_name c "k" = "k". Proof. reflexivity. Qed.
Lemma lin_field c sl : slot_of c = Some sl -> In "pk_lin" (fields c) /\ In "sigmad2" (fields c). Proof. destruct c; intros [= <-]; cbn; tauto. Qed.

Section Bridge.
Context {N : Num}.
Notation T := (T N).
Notation state := (state N).
Implicit Types (s : state) (o l : nat).

(** ** What the program holds *)
Lemma closure_incl s : forall n m x, In x m -> In x (closure s n m).
Proof. induction n as [|n IH]; intros m x H; cbn; [exact H|]. apply IH, in_or_app. auto. Qed.
Lemma closure_S s : forall n m x y, In x (closure s n m) -> In y (links s x) -> In y (closure s (S n) m).
Proof.
  induction n as [|n IH]; intros m x y Hx Hy; cbn in *.
  - apply in_or_app. right. apply in_flat_map. eauto.
  - eapply IH; eauto.
Qed.
Lemma reach_var s o : In o (vars s) -> In o (reachable s).
Proof. apply closure_incl. Qed.
Lemma reach_link s o x : o < List.length (objects s) -> In o (vars s) -> In x (links s o) -> In x (reachable s).
Proof.
  intros L Ho Hx. unfold reachable. destruct (List.length (objects s)) as [|n]; [lia|]. cbn. apply closure_incl, in_or_app. right. apply in_flat_map. eauto.
Qed.
Lemma lin_link s o l : lin_of s o = Some l -> In l (links s o).
Proof. unfold lin_of, links. destruct (nth_error (objects s) o) as [ob|]; [|discriminate]. intros ->. left. reflexivity. Qed.
Lemma reach_hand s l : wf s -> at_hand s l -> In l (reachable s).
Proof. intros W [H|(o & H & E)]; [apply reach_var, H|]. eapply reach_link; eauto using wf_vars. apply lin_link, E. Qed.
Lemma held_array s o x a : In o (reachable s) -> In (x, a) (dict_of s o) -> In (a_buf a) (held s).
Proof. intros Ho Ha. unfold held. apply in_or_app. right. apply in_flat_map. exists o. split; [exact Ho|]. apply in_map_iff. exists (x, a). auto. Qed.
Lemma alive_held s b xs : nth_error (blocks s) b = Some (Numpy, xs) -> In b (held s) -> alive s b = true.
Proof. intros E H. unfold alive. rewrite E. apply mem_In, H. Qed.
Lemma alive_array s o x a xs : In o (reachable s) -> assoc (dict_of s o) x = Some a -> nth_error (blocks s) (a_buf a) = Some (Numpy, xs) -> alive s (a_buf a) = true.
Proof. intros Ho Ha E. eapply alive_held; [exact E|]. eapply held_array; [exact Ho|]. apply assoc_In, Ha. Qed.

(** ** Arrays seen from C *)
Lemma elements_nth s a i : (0 <= i < a_len a)%Z -> nth_error (elements s a) (Z.to_nat i) = Some (nth (Z.to_nat (a_off a + i * a_step a)) (contents s (a_buf a)) (nZ N 0)).
Proof.
  intros H. unfold elements. rewrite nth_error_map. unfold indices. rewrite nth_error_map. rewrite (nth_error_nth' _ 0) by (rewrite seq_length; lia). rewrite seq_nth by lia. cbn. rewrite Z2Nat.id by lia. reflexivity.
Qed.
Lemma elements_length s a : (0 <= a_len a)%Z -> zlen (elements s a) = a_len a.
Proof. intros H. unfold elements, zlen. rewrite map_length, indices_length. lia. Qed.
Lemma faces_at s a p i : faces s a p -> (0 <= i < a_len a)%Z -> at_ptr s p i = nth_error (elements s a) (Z.to_nat i).
Proof.
  intros (-> & St & Of & Ln & xs & E & B) Hi. rewrite elements_nth by exact Hi. rewrite St. cbn. rewrite (proj2 (Z.leb_le _ _)) by lia. rewrite Z.mul_1_r. apply nth_error_nth'. unfold contents. rewrite E. unfold zlen in B. lia.
Qed.
Lemma faces_reads s o x a p xs : In o (reachable s) -> assoc (dict_of s o) x = Some a -> faces s a p -> elements s a = xs -> reads s p xs.
Proof.
  intros Ho Ha Fa Ex. pose proof Fa as (Ep & St & Of & Ln & ys & E & B). exists (a_buf a), (a_off a). split; [exact Ep|]. split; [exact (alive_array s o x a ys Ho Ha E)|].
  intros i Hi. assert (Lx : zlen xs = a_len a) by (rewrite <- Ex; apply elements_length, Ln). rewrite Lx in Hi. pose proof (elements_nth s a i Hi) as X. rewrite Ex, St, Z.mul_1_r in X.
  rewrite (nth_error_nth _ _ _ X). unfold rd, contents. rewrite E. rewrite (proj2 (Z.leb_le _ _)), (proj2 (Z.ltb_lt _ _)) by lia. cbn. rewrite (nth_error_nth' _ (nZ N 0)); [reflexivity|]. unfold zlen in B. lia.
Qed.
Lemma column_faces s o x a : assoc (dict_of s o) x = Some a -> column_of s o x = Some (elements s a).
Proof. intros E. unfold column_of. rewrite E. reflexivity. Qed.
Lemma armed_of s o c sl l K P ks : wf s -> In o (reachable s) -> In l (reachable s) -> terms_are s o c sl ks -> lin_is s l K P -> apart s o c l -> armed s sl K P ks.
Proof.
  intros W Ho Hl [] [] Ap.
  assert (Pk : forall y, In y (tl (c_fields sl)) -> exists x a, In x (fields c) /\ x <> "k" /\ y = c_name c x /\ assoc (dict_of s o) x = Some a /\ faces s a (ct_ptr (g_terms s sl) y) /\ a_len a = size_of (zlen ks) y).
  { intros y Hy. destruct (out_name c sl y t_slot Hy) as (x & Hx & Nk & -> & _). destruct (t_col x Hx) as (a & Ea & Fa & La). exists x, a. repeat (split; [assumption || reflexivity|]). rewrite La. unfold size_of. rewrite (comp_name c sl) by assumption. reflexivity. }
  destruct (t_col "k" (k_field c)) as (ak & Eak & Fak & Lak). rewrite k_name in Fak. rewrite (column_faces _ _ _ _ Eak) in t_k. injection t_k as Ek.
  assert (Lk : exists lk, assoc (dict_of s l) "k" = Some lk) by (unfold column_of in i_k; destruct (assoc (dict_of s l) "k"); [eauto|discriminate]). destruct Lk as (lk & Elk).
  assert (Lp : exists lp, assoc (dict_of s l) "pk" = Some lp) by (unfold column_of in i_p; destruct (assoc (dict_of s l) "pk"); [eauto|discriminate]). destruct Lp as (lp & Elp).
  destruct (i_kptr _ Elk) as [Flk _]. destruct (i_pptr _ Elp) as [Flp _]. rewrite (column_faces _ _ _ _ Elk) in i_k. injection i_k as Elk'. rewrite (column_faces _ _ _ _ Elp) in i_p. injection i_p as Elp'.
  constructor; auto.
  - exact (faces_reads s o "k" ak _ ks Ho Eak Fak Ek).
  - constructor.
    + intros y Hy. destruct (Pk y Hy) as (x & a & Hx & Nk & -> & Ea & Fa & La). pose proof Fa as (Ep & St & Of & Ln & xs & E & B). exists (a_buf a), (a_off a). split; [exact Ep|]. split; [exact Of|].
      split; [exact (alive_array s o x a xs Ho Ea E)|]. rewrite <- La. unfold contents. rewrite E. exact B.
    + intros y z b i b' i' Hy Hz Ne E E'. destruct (Pk y Hy) as (x & a & Hx & _ & -> & Ea & Fa & _). destruct (Pk z Hz) as (x' & a' & Hx' & _ & -> & Ea' & Fa' & _).
      destruct Fa as (Ep & _). destruct Fa' as (Ep' & _). rewrite E in Ep. rewrite E' in Ep'. injection Ep as -> _. injection Ep' as -> _. eapply (t_apart x x'); eauto. congruence.
  - exact (faces_reads s l "k" lk _ K Hl Elk Flk Elk').
  - exact (faces_reads s l "pk" lp _ P Hl Elp Flp Elp').
  - intros b (y & i & Hy & E) H. destruct (Pk y Hy) as (x & a & Hx & Nk & -> & Ea & Fa & _). destruct Fa as (Ep & _). rewrite E in Ep. injection Ep as -> _.
    destruct Fak as (Ekp & _). destruct Flk as (Elkp & _). destruct Flp as (Elpp & _). rewrite Ekp, Elkp, Elpp in H. cbn in H. destruct H as [H|[H|[H|[]]]].
    + eapply (t_apart "k" x); eauto using k_field.
    + eapply (Ap x "k"); eauto. cbn; auto.
    + eapply (Ap x "pk"); eauto. cbn; auto.
Qed.

(** ** Frames around objects *)
Definition around s (objs : list nat) (sls : slot -> Prop) (lin : Prop) (att : list nat) (vs : nat -> Prop) (conf info : Prop) : frame :=
  let fb b := exists o x a, In o objs /\ In (x, a) (dict_of s o) /\ a_buf a = b in
  mkFrame (fun i => exists o ob, In o objs /\ nth_error (objects s) o = Some ob /\ o_dict ob = i) fb sls
    (fun sl => forall y b i, In y (tl (c_fields sl)) -> ct_ptr (g_terms s sl) y = Some (b, i) -> ~ fb b) lin (fun o => In o att) vs conf info.
Lemma around_inv s objs sls lin att vs conf info : wf s -> inv (around s objs sls lin att vs conf info) s.
Proof.
  intros W. constructor; cbn; auto.
  - intros sl y b i H. apply H.
  - intros b (o & x & a & Ho & Ha & <-). unfold dict_of in Ha. destruct (nth_error (objects s) o) as [ob|] eqn:E; [|destruct Ha].
    destruct (wf_array _ W (nth (o_dict ob) (dicts s) []) x a) as (_ & xs & X & _); [apply nth_In, (wf_dict _ W _ _ E)|exact Ha|]. eauto.
  - intros i (o & ob & _ & E & <-). apply (wf_dict _ W _ _ E).
Qed.
Section Kept.
Variables (s s' : state) (objs : list nat) (sls : slot -> Prop) (lin : Prop) (att : list nat) (vs : nat -> Prop) (conf info : Prop).
Hypothesis (K : keep (around s objs sls lin att vs conf info) s s').
Lemma kept_class o : o < List.length (objects s) -> class_of s' o = class_of s o.
Proof. intros L. apply nth_error_Some in L. unfold class_of. destruct (nth_error (objects s) o) as [ob|] eqn:E; [|congruence]. destruct (kp_obj _ _ _ K _ _ E) as (ob' & -> & C & _). cbn. congruence. Qed.
Lemma kept_dict o : In o objs -> o < List.length (objects s) -> dict_of s' o = dict_of s o.
Proof.
  intros Ho L. apply nth_error_Some in L. unfold dict_of. destruct (nth_error (objects s) o) as [ob|] eqn:E; [|congruence]. destruct (kp_obj _ _ _ K _ _ E) as (ob' & -> & _ & D & _). rewrite D.
  assert (X : nth_error (dicts s') (o_dict ob) = nth_error (dicts s) (o_dict ob)) by (apply (kp_dict _ _ _ K); cbn; eauto).
  destruct (nth_error (dicts s) (o_dict ob)) as [d|] eqn:Ed; [rewrite (nth_error_nth _ _ _ Ed), (nth_error_nth _ _ _ X); reflexivity|].
  apply nth_error_None in Ed. apply nth_error_None in X. rewrite !nth_overflow by assumption. reflexivity.
Qed.
Lemma kept_block o x a : In o objs -> In (x, a) (dict_of s o) -> nth_error (blocks s') (a_buf a) = nth_error (blocks s) (a_buf a).
Proof. intros Ho Ha. apply (kp_block _ _ _ K). cbn. eauto 6. Qed.
Lemma kept_elements o x a : In o objs -> In (x, a) (dict_of s o) -> elements s' a = elements s a.
Proof. intros Ho Ha. unfold elements, contents. rewrite (kept_block o x a Ho Ha). reflexivity. Qed.
Lemma kept_column o x : In o objs -> o < List.length (objects s) -> column_of s' o x = column_of s o x.
Proof. intros Ho L. unfold column_of. rewrite (kept_dict o Ho L). destruct (assoc (dict_of s o) x) as [a|] eqn:E; [|reflexivity]. cbn. f_equal. eapply kept_elements; [exact Ho|apply assoc_In, E]. Qed.
Lemma kept_faces o x a p : In o objs -> assoc (dict_of s o) x = Some a -> faces s a p -> faces s' a p.
Proof. intros Ho Ha (E & St & Of & Ln & xs & B & L). repeat (split; [assumption|]). exists xs. rewrite (kept_block o x a Ho (assoc_In _ _ _ Ha)). auto. Qed.
Lemma kept_lin_of o : In o att -> o < List.length (objects s) -> lin_of s' o = lin_of s o.
Proof. intros Ho L. apply nth_error_Some in L. unfold lin_of. destruct (nth_error (objects s) o) as [ob|] eqn:E; [|congruence]. destruct (kp_obj _ _ _ K _ _ E) as (ob' & -> & _ & _ & X). rewrite (X Ho). reflexivity. Qed.
Lemma class_lt o c : class_of s o = Some c -> o < List.length (objects s).
Proof. unfold class_of. destruct (nth_error (objects s) o) eqn:E; [|discriminate]. intros _. eapply nth_error_lt, E. Qed.
Lemma kept_terms o c sl ks : In o objs -> sls sl -> terms_are s o c sl ks -> terms_are s' o c sl ks.
Proof.
  intros Ho Hs []. pose proof (class_lt _ _ t_class) as L. pose proof (kept_dict o Ho L) as D. pose proof (kp_slot _ _ _ K sl Hs) as G. constructor; auto.
  - rewrite kept_class; assumption.
  - rewrite G. assumption.
  - intros x Hx. destruct (t_col x Hx) as (a & Ea & Fa & La). exists a. rewrite D, G. split; [exact Ea|]. split; [eapply kept_faces; eauto|exact La].
  - rewrite kept_column; assumption.
  - rewrite D. exact t_flat.
  - rewrite D. exact t_apart.
Qed.
Lemma kept_lin_is l K0 P : In l objs -> lin -> at_hand s' l -> l < List.length (objects s) -> lin_is s l K0 P -> lin_is s' l K0 P.
Proof.
  intros Hl Hlin Hh L []. pose proof (kept_dict l Hl L) as D. pose proof (kp_lin _ _ _ K Hlin) as G. constructor; auto; rewrite ?kept_column, ?G by assumption; auto.
  - rewrite D. intros a Ea. destruct (i_kptr a Ea) as [Fa X]. split; [eapply kept_faces; eauto|exact X].
  - rewrite D. intros a Ea. destruct (i_pptr a Ea) as [Fa X]. split; [eapply kept_faces; eauto|exact X].
Qed.
Lemma kept_apart o c l : In o objs -> In l objs -> o < List.length (objects s) -> l < List.length (objects s) -> apart s o c l -> apart s' o c l.
Proof. intros Ho Hl Lo Ll A. unfold apart. rewrite (kept_dict o Ho Lo), (kept_dict l Hl Ll). exact A. Qed.
End Kept.
End Bridge.
