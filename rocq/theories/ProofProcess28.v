(** ProofProcess28: no linear spectrum, empty arrays, strided arrays. *)
From Coq Require Import ZArith List String Bool Lia PeanoNat.
From Verif Require Import Base Num Common Kernels Integrals Registry PyTerms Threads SpecThreads Process SpecProcess ProofThreads2 ProofThreads3 ProofScratch3 ProofPy ProofProcess ProofProcess2 ProofProcess3 ProofProcess4 ProofProcess5 ProofProcess6 ProofProcess7 ProofProcess8 ProofProcess9 ProofProcess10 ProofProcess11 ProofProcess12 ProofProcess13 ProofProcess14 ProofProcess15 ProofProcess16 ProofProcess17 ProofProcess22 ProofProcess23 ProofProcess24 ProofProcess25 ProofProcess26 ProofProcess27.
Import ListNotations.
Local Open Scope string_scope.
Local Open Scope nat_scope.

Section Strided.
Context {N : Num}.
Notation T := (T N).
Notation state := (state N).
Implicit Types (s : state) (o l : nat).
Variables (fuel : nat) (suave1 : (list T -> res T) -> res T) (suave12 : (list T -> res (list T)) -> res (list T)).
Notation step := (step fuel suave1 suave12).
Notation execute := (execute fuel suave1 suave12).

(** ** No linear spectrum *)
Lemma lin_kept s p : wf s -> sets_lin p = false -> after (step p s) (fun s' => g_lin s' = g_lin s).
Proof.
  intros W Hp. set (F := mkFrame (fun _ => False) (fun _ => False) (fun _ => False) (fun _ => True) True (fun _ => False) (fun _ => False) False False).
  assert (A : after (step p s) (fun s' => inv F s' /\ keep F s s')).
  { apply step_frame; [constructor; cbn; auto; tauto|intros x []|]. destruct p; try discriminate Hp; cbn; unfold info_kept, verb_kept, is_class, free_dict; cbn; try tauto. }
  destruct (step p s); cbn in *; auto; apply (kp_lin _ _ _ (proj2 A)); exact I.
Qed.
Lemma no_lin ps s : execute ps (fresh_process N) = Some s -> forallb (fun p => negb (sets_lin p)) ps = true -> g_lin s = no_pk.
Proof.
  intros E H. assert (X : forall s0, wf s0 -> execute ps s0 = Some s -> g_lin s = g_lin s0); [|apply (X (fresh_process N)); [apply (reached_wf fuel suave1 suave12); exists []; reflexivity|exact E]].
  clear E. induction ps as [|p ps IH]; cbn [Process.execute forallb] in *; intros s0 W E; [injection E as ->; reflexivity|]. apply andb_prop in H as (Hp & H). apply negb_true_iff in Hp.
  pose proof (lin_kept s0 p W Hp) as K. pose proof (step_wf fuel suave1 suave12 s0 p W) as W'. destruct (step p s0) as [s1 v|e s1| |]; cbn in K, W'; try discriminate E; rewrite <- K; apply IH; tauto.
Qed.
Lemma null_lin s x c : g_lin s = no_pk -> In x (vars s) -> class_of s x = Some c -> has_ctype c = true ->
  (forall k im, step (Find_pk_lin x k im) s = Crash NullDeref) /\ (forall k uv, step (Sigmad2 x k uv) s = Crash NullDeref).
Proof.
  intros G Hx C Ct. destruct (class_obj _ _ _ C) as (ox & Ex & <-).
  split; intros; unfold Process.step; cbn [statement]; rewrite (bind_Fine _ _ _ _ _ (regpt_ok _ _ _ (reach_var _ _ Hx) Ex Ct)); [unfold py_find_pk_lin|unfold py_sigmad2]; unfold mbind, get; rewrite G; reflexivity.
Qed.
Lemma target_of s o c sl ks : wf s -> In o (reachable s) -> terms_are s o c sl ks -> target s (g_terms s sl) (tl (c_fields sl)) (size_of (zlen ks)) /\ (forall b, out_of (g_terms s sl) (tl (c_fields sl)) b -> ~ In b (buf_of (ct_ptr (g_terms s sl) "k"))).
Proof.
  intros W Ho [].
  assert (Pk : forall y, In y (tl (c_fields sl)) -> exists x a, In x (fields c) /\ x <> "k" /\ y = c_name c x /\ assoc (dict_of s o) x = Some a /\ faces s a (ct_ptr (g_terms s sl) y) /\ a_len a = size_of (zlen ks) y).
  { intros y Hy. destruct (out_name c sl y t_slot Hy) as (x & Hx & Nk & -> & _). destruct (t_col x Hx) as (a & Ea & Fa & La). exists x, a. repeat (split; [assumption || reflexivity|]). rewrite La. unfold size_of. rewrite (comp_name c sl) by assumption. reflexivity. }
  destruct (t_col "k" (k_field c)) as (ak & Eak & Fak & Lak). rewrite k_name in Fak. split; [constructor|].
  - intros y Hy. destruct (Pk y Hy) as (x & a & Hx & Nk & -> & Ea & Fa & La). pose proof Fa as (Ep & St & Of & Ln & xs & E & B). exists (a_buf a), (a_off a). split; [exact Ep|]. split; [exact Of|].
    split; [exact (alive_array s o x a xs Ho Ea E)|]. rewrite <- La. unfold contents. rewrite E. exact B.
  - intros y z b i b' i' Hy Hz Ne E E'. destruct (Pk y Hy) as (x & a & Hx & _ & -> & Ea & Fa & _). destruct (Pk z Hz) as (x' & a' & Hx' & _ & -> & Ea' & Fa' & _).
    destruct Fa as (Ep & _). destruct Fa' as (Ep' & _). rewrite E in Ep. rewrite E' in Ep'. injection Ep as -> _. injection Ep' as -> _. eapply (t_apart x x'); eauto. congruence.
  - intros b (y & i & Hy & E) H. destruct (Pk y Hy) as (x & a & Hx & Nk & -> & Ea & Fa & _). destruct Fa as (Ep & _). rewrite E in Ep. injection Ep as -> _.
    destruct Fak as (Ekp & _). rewrite Ekp in H. cbn in H. destruct H as [H|[]]. eapply (t_apart "k" x); eauto using k_field.
Qed.
Lemma null_run s o c ks x y d : wf s -> g_lin s = no_pk -> has_terms s o ks -> class_of s o = Some c -> driver_of c (set_flag x) (set_flag y) = Some d -> d <> D_B -> step (Run_terms o x y) s = Crash NullDeref.
Proof.
  intros W G (Ho & c' & sl & T0) C Dr Nb. pose proof (t_class _ _ _ _ _ T0) as C'. rewrite C in C'. injection C' as <-. destruct (class_obj _ _ _ C) as (ob & E & Co).
  assert (Ct : has_ctype (o_class ob) = true) by (pose proof (t_slot _ _ _ _ _ T0) as X; rewrite <- Co in X; destruct (o_class ob); try discriminate X; reflexivity).
  assert (Sl : slot_of_driver d = sl). { pose proof (t_slot _ _ _ _ _ T0) as X. destruct c; try discriminate; cbn in Dr, X; injection Dr as <-; injection X as <-; reflexivity. }
  destruct (target_of s o c sl ks W (reach_var _ _ Ho) T0) as (Ta & Ap).
  assert (Cs : c_columns d s = Crash NullDeref).
  { unfold c_columns, get. unfold mbind at 1. rewrite Sl. rewrite (bind_Fine _ _ s s tt); [unfold c_table; rewrite G; reflexivity|]. apply (overlap_ok suave1 suave12 s sl (size_of (zlen ks))); [exact Ta|]. rewrite G. cbn [cp_k cp_p no_pk buf_of app]. rewrite app_nil_r. exact Ap. }
  unfold Process.step. cbn [statement]. unfold nothing. unfold mbind at 1. rewrite (bind_Fine _ _ _ _ _ (regpt_ok s o ob (reach_var _ _ Ho) E Ct)). unfold py_run_terms. subst c.
  destruct (o_class ob) eqn:Ec; try discriminate Dr; cbn in Dr; injection Dr as <-; try (exfalso; apply Nb; reflexivity); unfold c_run_terms, mbind; rewrite Cs; reflexivity.
Qed.
(** ** No wavenumbers, with the verbosity 'info' *)
Lemma print_empty s b i : g_verbose s = INFO -> alive s b = true -> contents s b = [] -> when_info (c_print (Some (b, i)) 0) s = Crash OOB.
Proof. intros V A C. unfold when_info, mbind, get. rewrite V. unfold c_print, mbind, c_read, place, mbind, ret. rewrite (alive_block _ _ A), C. unfold c_lift, rd. change (zlen (@nil T)) with 0%Z. destruct (0 <=? i + 0)%Z eqn:X; [|reflexivity]. rewrite (proj2 (Z.ltb_ge _ _)) by (apply Z.leb_le in X; lia). reflexivity. Qed.
Lemma empty_pk_lin s o c : wf s -> In o (vars s) -> class_of s o = Some c -> has_ctype c = true -> g_verbose s = INFO -> step (Set_pk_lin o [] []) s = Crash OOB.
Proof.
  intros W Ho C Ct V. destruct (class_obj _ _ _ C) as (ob & E & Co). subst c. unfold Process.step. cbn [statement]. unfold nothing. unfold mbind at 1. rewrite (bind_Fine _ _ _ _ _ (regpt_ok _ _ _ (reach_var _ _ Ho) E Ct)). rewrite set_pk_lin_eq.
  set (l := List.length (objects s)). set (s3 := new_lin s [] []). set (s4 := with_attr s3 o (lin_attr ob l)). assert (E3 : nth_error (objects s3) o = Some ob) by apply nl_obj, E.
  set (ka := mkArray (List.length (blocks s)) 0 1 (zlen (@nil T)) false). set (pa := mkArray (S (List.length (blocks s))) 0 1 (zlen (@nil T)) false).
  assert (D4 : dict_of s4 l = [("k", ka); ("pk", pa)]) by (unfold s4; rewrite (attr_dict _ _ ob) by auto; apply nl_dict_new).
  unfold py_set_spectrum_lin. rewrite (bind_Fine _ _ s3 s4 tt) by (unfold set_obj, modify; rewrite E3; reflexivity).
  rewrite (bind_Fine _ _ _ _ _ (size_ok s4 l _ ltac:(rewrite D4; reflexivity) eq_refl)).
  rewrite (bind_Fine _ _ _ _ _ (getitem_ok s4 l "k" _ ltac:(rewrite D4; reflexivity))). rewrite (bind_Fine _ _ _ _ _ (getitem_ok s4 l "pk" _ ltac:(rewrite D4; reflexivity))).
  rewrite (bind_Fine _ _ _ _ _ (pointer_ok s4 0 ka eq_refl eq_refl)). rewrite (bind_Fine _ _ _ _ _ (pointer_ok s4 0 pa eq_refl eq_refl)). unfold c_set_pk_lin. unfold modify, mbind. change (a_len ka) with 0%Z.
  rewrite print_empty; [reflexivity|exact V| |].
  - set (s5 := with_lin _ _). apply (alive_array s5 l "k" ka []); [|exact (eq_trans (f_equal (fun d => assoc d "k") D4) eq_refl)|apply (nl_k s [] [])].
    assert (E5 : nth_error (objects s5) o = Some (lin_attr ob l)) by (cbn [s5 objects with_lin s4 with_attr with_objects]; rewrite nth_error_upd, Nat.eqb_refl, E3; reflexivity).
    apply (reach_link s5 o); [eapply nth_error_lt, E5|exact Ho|]. apply lin_link. unfold lin_of. rewrite E5. reflexivity.
  - unfold contents. cbn [a_buf ka]. change (blocks (with_lin _ _)) with (blocks s3). unfold s3. rewrite (nl_k s [] []). reflexivity.
Qed.
Lemma empty_terms s o c sl : wf s -> In o (vars s) -> class_of s o = Some c -> slot_of c = Some sl -> g_verbose s = INFO -> step (Set_terms o []) s = Crash OOB.
Proof.
  intros W Ho C Sl V. destruct (class_obj _ _ _ C) as (ob & E & Co). subst c. assert (Ct : has_ctype (o_class ob) = true) by (destruct (o_class ob); try discriminate Sl; reflexivity).
  unfold Process.step. cbn [statement]. unfold nothing. unfold mbind at 1. rewrite (bind_Fine _ _ _ _ _ (regpt_ok _ _ _ (reach_var _ _ Ho) E Ct)).
  set (c := o_class ob) in *. set (ks := @nil T). pose proof (wf_dict _ W _ _ E) as L. set (s1 := alloc o (zero_items c ks) s).
  pose proof (fun x Hx => zero_col s o ob c ks x E L Hx) as Zc. fold s1 in Zc. pose proof (alloc_rest o (zero_items c ks) s) as R1. fold s1 in R1.
  set (arr x := match assoc (dict_of s1 o) x with Some a => a | None => mkArray 0 0 0 0 false end).
  assert (Arr : forall x, In x (fields c) -> assoc (dict_of s1 o) x = Some (arr x)) by (intros x Hx; destruct (Zc x Hx) as (i & a & _ & Ea & _); unfold arr; rewrite Ea; reflexivity).
  set (bound := combine (map (c_name c) (fields c)) (map (fun x => whole (arr x)) (fields c))).
  assert (Bd : forall x, In x (fields c) -> assoc bound (c_name c x) = Some (whole (arr x))) by (intros x Hx; apply (assoc_map_inj (c_name c) (fun x => whole (arr x)) (fields c) x Hx); intros y Hy; apply c_name_inj; assumption).
  assert (Kl : a_len (arr "k") = zlen ks /\ a_2d (arr "k") = false /\ nth_error (blocks s1) (a_buf (arr "k")) = Some (Numpy, [])).
  { assert (Lc : a_len (arr "k") = zlen ks /\ a_2d (arr "k") = false /\ faces s1 (arr "k") (whole (arr "k")) /\ elements s1 (arr "k") = ks).
    { destruct (Zc "k" (k_field c)) as (i & a & _ & Ea & _ & Fa & El & D & La). rewrite (Arr _ (k_field c)) in Ea. injection Ea as ->. split; [|auto]. rewrite La. unfold comps. destruct c; cbn [ncomp]; change ("k" =? "pk")%string with false; cbv iota; lia. }
    destruct Lc as (A & B & _). split; [exact A|]. split; [exact B|]. destruct (zero_item c ks "k" (k_field c)) as (i & Hi & Hf). cbn in Hi.
    assert (X : assoc (dict_of s1 o) "k" = Some (mkArray (List.length (blocks s) + i) 0 1 (zlen ks) false)) by (apply (alloc_at o _ ob); auto; rewrite zero_names'; apply fields_NoDup).
    rewrite (Arr _ (k_field c)) in X. injection X as ->. cbn [a_buf]. unfold s1. rewrite alloc_blocks. rewrite nth_error_app2 by lia. replace (List.length (blocks s) + i - List.length (blocks s)) with i by lia. rewrite nth_error_map, Hi. reflexivity. }
  destruct Kl as (Kl & Kd & Kb).
  unfold py_set_terms. rewrite Sl. rewrite (bind_Fine _ _ _ _ _ (zeros_eq o c ks s)). fold s1. rewrite (bind_Fine _ _ _ _ _ (size_ok _ _ _ (Arr _ (k_field c)) Kd)).
  rewrite (bind_Fine _ _ s1 s1 (map arr (fields c))) by (apply each_all; intros x Hx; apply getitem_ok, Arr, Hx).
  rewrite (bind_Fine _ _ s1 s1 (map (fun xa => whole (snd xa)) (combine (fields c) (map arr (fields c))))).
  2: { apply each_all. intros [x a] Hxa. apply combine_map_self in Hxa as [Hx ->]. cbn [fst snd]. unfold mbind, ret. destruct (Zc x Hx) as (i & a & _ & Ea & _ & _ & _ & D & La). rewrite (Arr x Hx) in Ea. injection Ea as ->. apply pointer_ok; [|exact D].
       destruct (ncomp c x) eqn:Em; [reflexivity|]. rewrite La, Kl. unfold comps. rewrite Em. lia. }
  rewrite map_combine_self. unfold c_set_terms. rewrite (c_fields_names c sl Sl). fold bound. unfold mbind at 1. unfold mbind at 1. unfold modify at 1. rewrite Kl.
  assert (Pt : match assoc bound "k" with Some p => p | None => None end = whole (arr "k")) by (rewrite <- (k_name c) at 1; rewrite (Bd _ (k_field c)); reflexivity). rewrite Pt.
  unfold whole. change (zlen ks) with 0%Z. rewrite print_empty; [reflexivity|change (g_verbose (with_terms _ _)) with (g_verbose s1); rewrite (sr_verbose _ _ R1); exact V| |].
  - set (s2 := with_terms _ _). apply (alive_array s2 o "k" (arr "k") []); [|exact (Arr _ (k_field c))|exact Kb]. rewrite (reachable_ext s s2); [apply reach_var, Ho|apply (sr_objects _ _ R1)|apply (sr_vars _ _ R1)].
  - unfold contents. change (blocks (with_terms _ _)) with (blocks s1). rewrite Kb. reflexivity.
Qed.
(** ** Strided arrays *)
Lemma window_length s a : sound s a -> fits s a -> zlen (window s a) = a_len a.
Proof.
  intros (L & xs & E & B) I. unfold fits, window, contents in *. rewrite E in *. unfold zlen in *. rewrite firstn_length, skipn_length. destruct (Z.eq_dec (a_len a) 0) as [Z0|]; [rewrite Z0; cbn; lia|].
  specialize (B 0%Z). lia.
Qed.
Lemma window_nth (xs : list T) n m i d : i < n -> nth i (firstn n (skipn m xs)) d = nth (m + i) xs d.
Proof.
  revert n i. induction m as [|m IH]; intros n i Hi; cbn [skipn].
  - revert xs i Hi. induction n as [|n IH]; intros xs i Hi; [lia|]. destruct xs, i; cbn; auto. apply IH. lia.
  - revert IH. destruct xs as [|x xs]; intros IH; [destruct n, i; reflexivity|]. cbn. clear IH. revert xs n i Hi. clear x. induction m as [|m IH]; intros xs n i Hi; cbn [skipn Nat.add].
    + revert xs i Hi. induction n as [|n IH]; intros xs i Hi; [lia|]. destruct xs, i; cbn; auto. apply IH. lia.
    + destruct xs as [|x xs]; [destruct n, i; reflexivity|]. cbn. apply IH, Hi.
Qed.
Lemma window_reads s l x a : wf s -> In l (reachable s) -> assoc (dict_of s l) x = Some a -> fits s a -> reads s (whole a) (window s a).
Proof.
  intros W Hl Ea I. pose proof (sound_dict _ _ _ _ W (assoc_In _ _ _ Ea)) as Sd. pose proof (window_length _ _ Sd I) as Lw. pose proof Sd as (L & xs & E & B). exists (a_buf a), (a_off a). split; [reflexivity|]. split; [eapply alive_dict; eauto; eapply assoc_In, Ea|].
  rewrite Lw. intros i Hi. specialize (B 0%Z ltac:(lia)). unfold fits, window, contents in *. rewrite E in *. unfold rd. rewrite (proj2 (Z.leb_le _ _)), (proj2 (Z.ltb_lt _ _)) by lia. cbn [andb]. unfold zlen in I.
  rewrite (nth_error_nth' _ (nZ N 0)) by lia. f_equal. rewrite window_nth by lia. f_equal. lia.
Qed.
Lemma read_n_oob s b i n : alive s b = true -> (0 <= i)%Z -> (zlen (contents s b) < i + n)%Z -> (0 < n)%Z -> c_read_n (Some (b, i)) n s = Crash OOB.
Proof.
  intros A Hi Hn Hp. unfold c_read_n, indices. replace n with (Z.of_nat (Z.to_nat n)) in Hn by lia. assert (Hp' : 0 < Z.to_nat n) by lia. clear Hp. revert Hn Hp'. generalize (Z.to_nat n) as m. intros m.
  enough (H : forall m j, (zlen (contents s b) < i + Z.of_nat (j + m))%Z -> 0 < m -> each_ (c_read (Some (b, i))) (map Z.of_nat (seq j m)) s = Crash OOB) by (intros; apply H; auto).
  clear m. induction m as [|m IH]; intros j Hj Hm; [lia|]. cbn [seq map each_]. unfold mbind at 1. unfold c_read at 1, place, mbind at 1, ret. unfold mbind. rewrite (alive_block _ _ A). unfold c_lift, rd.
  rewrite (proj2 (Z.leb_le 0 (i + Z.of_nat j))) by lia. cbn [andb]. destruct (i + Z.of_nat j <? zlen (contents s b))%Z eqn:X; [|reflexivity]. apply Z.ltb_lt in X. assert (m <> 0) by (intros ->; rewrite Nat.add_1_r in Hj; lia).
  destruct (nth_error _ _) as [v|]; [|reflexivity]. rewrite (IH (S j)); [reflexivity| |lia]. replace (S j + m) with (j + S m) by lia. exact Hj.
Qed.
Lemma strided_lin s o c l ka pa : wf s -> temps s = [] -> In o (vars s) -> class_of s o = Some c -> has_ctype c = true -> In l (reachable s) ->
  assoc (dict_of s l) "k" = Some ka -> assoc (dict_of s l) "pk" = Some pa -> a_2d ka = false -> a_2d pa = false -> a_len pa = a_len ka -> g_verbose s <> INFO ->
  exists s1, step (Set_spectrum_lin o l) s = Fine s1 [] /\ lin_of s1 o = Some l /\ (forall x y, column_of s1 x y = column_of s x y) /\
    (fits s ka -> fits s pa -> let pkl := mk_table (window s ka) (window s pa) in
      (forall k im, step (Find_pk_lin o k im) s1 = match find_pk pkl k (if (im =? "poly")%string then POLY else LIN) with Ok v => Fine s1 v | Err u => Crash u end) /\
      (forall k uv, step (Sigmad2 o k uv) s1 = match calc_running_sigmad2 pkl k uv with Ok v => Fine s1 v | Err u => Crash u end)) /\
    ((0 < a_len ka)%Z -> ~ fits s ka -> forall k im, k <> [] -> step (Find_pk_lin o k im) s1 = Crash OOB).
Proof.
  intros W Tm Ho C Ct Hl Ek Ep Dk Dp Le V. destruct (class_obj _ _ _ C) as (ob & E & Co). subst c. assert (Hlo : exists ol, nth_error (objects s) l = Some ol) by (unfold dict_of in Ek; destruct (nth_error (objects s) l); [eauto|discriminate]). destruct Hlo as (ol & El).
  set (s0 := with_attr s o (lin_attr ob l)). set (s1 := with_lin s0 (mkCpk (a_len ka) (whole ka) (whole pa))).
  assert (D1 : forall x, dict_of s1 x = dict_of s x) by (intros x; apply (attr_dict s o ob (lin_attr ob l) x); auto).
  assert (E1 : nth_error (objects s1) o = Some (lin_attr ob l)) by (cbn; rewrite nth_error_upd, Nat.eqb_refl, E; reflexivity).
  assert (R1 : In l (reachable s1)). { apply (reach_link s1 o); [eapply nth_error_lt, E1|exact Ho|]. apply lin_link. unfold lin_of. rewrite E1. reflexivity. }
  assert (St : step (Set_spectrum_lin o l) s = Fine (with_temps s1 []) []).
  { unfold Process.step. cbn [statement]. rewrite (nothing_ok s s1); [reflexivity|]. rewrite (bind_Fine _ _ _ _ _ (regpt_ok _ _ _ (reach_var _ _ Ho) E Ct)). rewrite (bind_Fine _ _ _ _ _ (obj_ok _ _ _ Hl El)).
    unfold py_set_spectrum_lin. rewrite (bind_Fine _ _ s s0 tt) by (unfold set_obj, modify; rewrite E; reflexivity).
    rewrite (bind_Fine _ _ _ _ _ (size_ok s0 l ka (eq_trans (f_equal (fun d => assoc d "k") (D1 l)) Ek) Dk)). rewrite (bind_Fine _ _ _ _ _ (getitem_ok s0 l "k" ka (eq_trans (f_equal (fun d => assoc d "k") (D1 l)) Ek))). rewrite (bind_Fine _ _ _ _ _ (getitem_ok s0 l "pk" pa (eq_trans (f_equal (fun d => assoc d "pk") (D1 l)) Ep))).
    rewrite (bind_Fine _ _ _ _ _ (pointer_ok s0 (a_len ka) ka eq_refl Dk)). rewrite (bind_Fine _ _ _ _ _ (pointer_ok s0 (a_len ka) pa Le Dp)). unfold c_set_pk_lin, modify. unfold mbind at 1. unfold when_info, mbind, get. change (g_verbose (with_lin _ _)) with (g_verbose s). destruct (g_verbose s); congruence || reflexivity. }
  assert (Q : with_temps s1 [] = s1) by (unfold s1, s0; destruct s; cbn in Tm; subst; reflexivity). rewrite Q in St. exists s1. split; [exact St|]. split; [unfold lin_of; rewrite E1; reflexivity|]. split; [intros x y; unfold column_of; rewrite D1; reflexivity|].
  pose proof (step_wf fuel suave1 suave12 s (Set_spectrum_lin o l) W) as W1. rewrite St in W1. destruct W1 as (W1 & _).
  assert (Ek1 : assoc (dict_of s1 l) "k" = Some ka) by (rewrite D1; exact Ek). assert (Ep1 : assoc (dict_of s1 l) "pk" = Some pa) by (rewrite D1; exact Ep).
  pose proof (sound_dict _ _ _ _ W (assoc_In _ _ _ Ek)) as Sk. pose proof (sound_dict _ _ _ _ W (assoc_In _ _ _ Ep)) as Sp.
  assert (Rg : regpt o s1 = Fine s1 (lin_attr ob l)) by (apply (regpt_ok s1 o _ (reach_var s1 _ Ho) E1 Ct)).
  split.
  - intros Ik Ip pkl. pose proof (window_reads s1 l "k" ka W1 R1 Ek1 Ik) as Rk. pose proof (window_reads s1 l "pk" pa W1 R1 Ep1 Ip) as Rp.
    assert (Tb : c_table (g_lin s1) s1 = Fine s1 pkl). { apply table_ok; [cbn; symmetry; apply window_length; assumption| |exact Rk|exact Rp]. pose proof (window_length s ka Sk Ik). pose proof (window_length s pa Sp Ip). unfold zlen in *. lia. }
    split; intros k w; unfold Process.step; cbn [statement]; rewrite (bind_Fine _ _ _ _ _ Rg); [unfold py_find_pk_lin|unfold py_sigmad2]; unfold mbind, get; rewrite Tb; unfold c_lift.
    + destruct (find_pk pkl k _); [rewrite Q|]; reflexivity.
    + destruct (calc_running_sigmad2 pkl k w); [rewrite Q|]; reflexivity.
  - intros Lp Nk k im _. unfold Process.step. cbn [statement]. rewrite (bind_Fine _ _ _ _ _ Rg). unfold py_find_pk_lin, mbind, get. unfold c_table. change (cp_k (g_lin s1)) with (Some (a_buf ka, a_off ka)). change (cp_n (g_lin s1)) with (a_len ka).
    unfold place, mbind at 1, ret at 1. unfold mbind at 1. destruct Sk as (Lk & xs & Eb & Bd). unfold fits in Nk.
    rewrite read_n_oob; [reflexivity| | | |exact Lp].
    + eapply alive_dict; [exact W1|exact R1|apply assoc_In, Ek1].
    + specialize (Bd 0%Z ltac:(lia)). lia.
    + change (contents s1 (a_buf ka)) with (contents s (a_buf ka)). lia.
Qed.
End Strided.
