(** ProofProcess11: run_terms fills the columns of an object. *)
From Coq Require Import ZArith List String Bool Lia PeanoNat.
From Verif Require Import Base Num Common Kernels Integrals Registry PyTerms Threads SpecThreads Process SpecProcess ProofThreads2 ProofThreads3 ProofScratch3 ProofProcess ProofProcess2 ProofProcess3 ProofProcess4 ProofProcess5 ProofProcess6 ProofProcess7 ProofProcess8 ProofProcess9 ProofProcess10.
Import ListNotations.
Local Open Scope string_scope.
Local Open Scope nat_scope.

Lemma map_Some_inj {A} : forall l m : list A, map Some l = map Some m -> l = m.
Proof. induction l as [|x l IH]; intros [|y m]; cbn; try discriminate; [reflexivity|]. intros [= -> E]. f_equal. apply IH, E. Qed.
Lemma driver_slot c fa fb d sl : driver_of c fa fb = Some d -> slot_of c = Some sl -> slot_of_driver d = sl.
Proof. destruct c; cbn; try discriminate; intros [= <-] [= <-]; reflexivity. Qed.

Section Fill.
Context {N : Num}.
Notation T := (T N).
Notation state := (state N).
Implicit Types (s : state) (o l : nat).
Variables (fuel : nat) (suave1 : (list T -> res T) -> res T) (suave12 : (list T -> res (list T)) -> res (list T)).

Record bound_to s o c sl l (K P ks : list T) : Prop := { b_terms : terms_are s o c sl ks; b_lin : lin_is s l K P; b_apart : apart s o c l }.
Lemma bound_ext s s' o c sl l K P ks : blocks s' = blocks s -> dicts s' = dicts s -> objects s' = objects s -> vars s' = vars s -> g_terms s' sl = g_terms s sl -> g_lin s' = g_lin s -> bound_to s o c sl l K P ks -> bound_to s' o c sl l K P ks.
Proof.
  intros B D O V G L [T0 L0 A]. assert (Dx : forall x, dict_of s' x = dict_of s x) by (intros; apply dict_of_ext; assumption).
  assert (El : forall a, elements s' a = elements s a) by (intros; unfold elements, contents; rewrite B; reflexivity).
  assert (Cl : forall x y, column_of s' x y = column_of s x y) by (intros; unfold column_of; rewrite Dx; destruct (assoc _ _); [cbn; rewrite El|]; reflexivity).
  assert (Fa : forall a p, faces s a p -> faces s' a p) by (intros a p; unfold faces; rewrite B; auto).
  constructor.
  - destruct T0. constructor; rewrite ?Dx, ?Cl, ?G; auto; [unfold class_of; rewrite O; auto|]. intros x Hx. destruct (t_col x Hx) as (a & H1 & H2 & H3). exists a. auto.
  - destruct L0. constructor; rewrite ?Dx, ?Cl, ?L; auto.
    + unfold at_hand, lin_of in *. rewrite O, V. exact i_hand.
    + intros a Ha. destruct (i_kptr a Ha). auto.
    + intros a Ha. destruct (i_pptr a Ha). auto.
  - unfold apart. rewrite !Dx. exact A.
Qed.
Lemma faces_rw t s s' a p : rewritten t s s' -> faces s a p -> faces s' a p.
Proof. intros R (E & St & Of & Ln & xs & B & L). repeat (split; [assumption|]). destruct (rw_shape _ _ _ R _ _ _ B) as (ys & B' & L'). exists ys. split; [exact B'|]. unfold zlen in *. rewrite L'. exact L. Qed.
Lemma elements_rw t s s' a : rewritten t s s' -> ~ t (a_buf a) -> elements s' a = elements s a.
Proof. intros R H. unfold elements. rewrite (rw_contents _ _ _ _ R H). reflexivity. Qed.
Lemma rw_dict t s s' o : rewritten t s s' -> dict_of s' o = dict_of s o.
Proof. intros R. rewrite (rw_eq _ _ _ R). reflexivity. Qed.
Definition outputs s sl := out_of (g_terms s sl) (tl (c_fields sl)).
Lemma output_array s o c sl ks b : terms_are s o c sl ks -> outputs s sl b -> exists x a, In x (fields c) /\ x <> "k" /\ assoc (dict_of s o) x = Some a /\ a_buf a = b.
Proof.
  intros [] (y & i & Hy & E). destruct (out_name c sl y t_slot Hy) as (x & Hx & Nk & -> & _). destruct (t_col x Hx) as (a & Ea & (Fp & _) & _). rewrite E in Fp. injection Fp as -> ->. eauto 6.
Qed.
Lemma bound_rw s s' o c sl l K P ks : rewritten (outputs s sl) s s' -> bound_to s o c sl l K P ks -> bound_to s' o c sl l K P ks.
Proof.
  intros R [T0 L0 A]. assert (Dx : forall x, dict_of s' x = dict_of s x) by (intros; eapply rw_dict; eauto).
  assert (Kc : forall a, assoc (dict_of s o) "k" = Some a -> ~ outputs s sl (a_buf a)).
  { intros a Ea Ho. destruct (output_array _ _ _ _ _ _ T0 Ho) as (x & b & Hx & Nk & Eb & Bb). apply (t_apart _ _ _ _ _ T0 x "k" b a Hx (k_field c) Nk Eb Ea Bb). }
  assert (Lc : forall y a, In y ["k"; "pk"] -> assoc (dict_of s l) y = Some a -> ~ outputs s sl (a_buf a)).
  { intros y a Hy Ea Ho. destruct (output_array _ _ _ _ _ _ T0 Ho) as (x & b & Hx & Nk & Eb & Bb). apply (A x y b a Hx Nk Eb Ea Hy Bb). }
  constructor.
  - destruct T0. constructor; rewrite ?Dx, ?(rw_terms _ _ _ R); auto.
    + unfold class_of. rewrite (rw_eq _ _ _ R). exact t_class.
    + intros x Hx. destruct (t_col x Hx) as (a & H1 & H2 & H3). exists a. split; [exact H1|]. split; [eapply faces_rw; eauto|exact H3].
    + unfold column_of in *. rewrite Dx. destruct (assoc (dict_of s o) "k") as [a|] eqn:Ea; [|discriminate]. cbn [option_map] in *. rewrite (elements_rw _ _ _ _ R) by auto. exact t_k.
  - destruct L0. constructor; rewrite ?Dx, ?(rw_lin _ _ _ R); auto.
    + unfold at_hand, lin_of in *. rewrite (rw_eq _ _ _ R). exact i_hand.
    + unfold column_of in *. rewrite Dx. destruct (assoc (dict_of s l) "k") as [a|] eqn:Ea; [|discriminate]. cbn [option_map] in *. rewrite (elements_rw _ _ _ _ R) by (apply (Lc "k" a); cbn; auto). exact i_k.
    + unfold column_of in *. rewrite Dx. destruct (assoc (dict_of s l) "pk") as [a|] eqn:Ea; [|discriminate]. cbn [option_map] in *. rewrite (elements_rw _ _ _ _ R) by (apply (Lc "pk" a); cbn; auto). exact i_p.
    + intros a Ha. destruct (i_kptr a Ha). split; [eapply faces_rw; eauto|assumption].
    + intros a Ha. destruct (i_pptr a Ha). split; [eapply faces_rw; eauto|assumption].
  - unfold apart. rewrite !Dx. exact A.
Qed.
Lemma element_view s o c sl ks x : terms_are s o c sl ks -> in_size (tl (c_fields sl)) (size_of (zlen ks)) x -> element_of s o x = view s (g_terms s sl) x.
Proof.
  intros [] H. assert (X : exists y i, x = Arr y i) by (destruct x; [eauto|destruct H..]). destruct X as (y & i & ->). destruct H as [Hy Hi]. destruct (out_name c sl y t_slot Hy) as (x & Hx & Nk & -> & Py). cbn [element_of view]. rewrite Py.
  destruct (t_col x Hx) as (a & Ea & Fa & La). unfold column_of. rewrite Ea. cbn [option_map]. symmetry. apply faces_at; [exact Fa|]. rewrite La. unfold size_of in Hi. rewrite (comp_name c sl) in Hi by assumption. exact Hi.
Qed.
Lemma column_holds s o c sl ks x ps : terms_are s o c sl ks -> In x (fields c) -> In x (tl (c_fields sl)) -> c_name c x = x -> comps c x = 1%Z -> holds s (g_terms s sl) (column x (zlen ks)) ps -> column_of s o x = Some ps.
Proof.
  intros [] Hx Ht Nx Cx H. destruct (t_col x Hx) as (a & Ea & Fa & La). rewrite Nx in Fa. unfold column_of. rewrite Ea. cbn [option_map]. f_equal. apply map_Some_inj. rewrite <- H. rewrite Cx, Z.mul_1_r in La.
  unfold column. rewrite map_map. unfold elements. rewrite map_map, La. apply map_ext_in. intros i Hi. apply In_indices in Hi. cbn [view]. rewrite (faces_at _ _ _ _ Fa) by lia. symmetry. apply elements_nth. lia.
Qed.
Lemma filled_of s o c sl ks fa fb d ps ss vals : terms_are s o c sl ks -> driver_of c fa fb = Some d -> holds s (g_terms s sl) (column "pk_lin" (zlen ks)) ps -> holds s (g_terms s sl) (column "sigmad2" (zlen ks)) ss ->
  (forall ik, (0 <= ik < zlen ks)%Z -> holds s (g_terms s sl) (cells_of d ik) (vals ik)) -> filled s o d ks ps ss vals.
Proof.
  intros T0 D Hp Hs Hv. pose proof (t_slot _ _ _ _ _ T0) as Sl. destruct (lin_field c sl Sl) as [Fp Fs]. constructor.
  - apply (t_k _ _ _ _ _ T0).
  - eapply column_holds; eauto; [destruct c; try discriminate Sl; injection Sl as <-; cbn; tauto|destruct c; try discriminate Sl; reflexivity].
  - eapply column_holds; eauto; [destruct c; try discriminate Sl; injection Sl as <-; cbn; tauto|destruct c; try discriminate Sl; reflexivity].
  - intros ik Hi. rewrite <- (Hv ik Hi). apply map_ext_in. intros x Hx. eapply element_view; [exact T0|]. rewrite <- (driver_slot _ _ _ _ _ D Sl). eapply cells_in_size; eauto.
Qed.
Lemma shaped_bound s s' o ob c sl l K P ks : shaped s s' o -> nth_error (objects s) o = Some ob -> In "pk" (fields c) -> terms_are s' o c sl ks -> bound_to s o c sl l K P ks -> bound_to s' o c sl l K P ks.
Proof.
  intros Sh E Pk T' [T0 L0 A]. pose proof (sh_rest _ _ _ Sh) as R.
  destruct (t_col _ _ _ _ _ T0 "pk" Pk) as (a & Ea & _).
  assert (Lp : exists b, assoc (dict_of s l) "pk" = Some b) by (pose proof (i_p _ _ _ _ L0) as X; unfold column_of in X; destruct (assoc (dict_of s l) "pk"); [eauto|discriminate]). destruct Lp as (b & Eb).
  assert (Dl : dict_of s' l = dict_of s l).
  { assert (Nd : nth_error (objects s) l <> None) by (unfold dict_of in Eb; destruct (nth_error (objects s) l); [discriminate|discriminate Eb]). destruct (nth_error (objects s) l) as [ol|] eqn:El; [|congruence].
    apply (sh_other _ _ _ Sh l ob ol); auto. intros D. assert (dict_of s l = dict_of s o) by (unfold dict_of; rewrite E, El, D; reflexivity). rewrite H, Ea in Eb. injection Eb as ->.
    apply (A "pk" "pk" b b); auto; [discriminate|rewrite H; exact Ea|cbn; auto]. }
  assert (El : forall a, elements s' a = elements s a) by (intros; unfold elements, contents; rewrite (sh_blocks _ _ _ Sh); reflexivity).
  assert (Fa : forall a p, faces s a p -> faces s' a p) by (intros a0 p; unfold faces; rewrite (sh_blocks _ _ _ Sh); auto).
  constructor; auto.
  - destruct L0. constructor; rewrite ?(sr_lin _ _ R), ?Dl, ?(shaped_column _ _ _ _ _ Sh); auto.
    + unfold at_hand, lin_of in *. rewrite (sr_objects _ _ R), (sr_vars _ _ R). exact i_hand.
    + intros a0 Ha. destruct (i_kptr a0 Ha). auto.
    + intros a0 Ha. destruct (i_pptr a0 Ha). auto.
  - intros x y a0 b0 Hx Nk Ea0 Eb0 Hy. pose proof (sh_assoc _ _ _ Sh o x) as Ax. rewrite Ea0 in Ax. destruct (assoc (dict_of s o) x) as [a1|] eqn:Ea1; [|discriminate]. injection Ax as -> _ _ _. rewrite Dl in Eb0. eapply A; eauto.
Qed.
Lemma shaped_filled s s' o d ks ps ss vals : shaped s s' o -> filled s o d ks ps ss vals -> filled s' o d ks ps ss vals.
Proof.
  intros Sh []. pose proof (fun y => shaped_column _ _ _ o y Sh) as C. constructor; rewrite ?C; auto. intros ik Hi. rewrite <- (f_rows ik Hi). apply map_ext. intros []; cbn [element_of]; rewrite ?C; reflexivity.
Qed.
Lemma filled_ext s s' o d ks ps ss vals : (forall y, column_of s' o y = column_of s o y) -> filled s o d ks ps ss vals -> filled s' o d ks ps ss vals.
Proof. intros C []. constructor; rewrite ?C; auto. intros ik Hi. rewrite <- (f_rows ik Hi). apply map_ext. intros []; cbn [element_of]; rewrite ?C; reflexivity. Qed.

(** ** All classes but B *)
Lemma computes_latch st d d' pkl dt ptt ks ps ss vals : latch_of d = latch_of d' \/ latch_of d = None -> computes fuel st suave1 suave12 d pkl dt ptt ks ps ss vals -> computes fuel (latch st d' pkl) suave1 suave12 d pkl dt ptt ks ps ss vals.
Proof.
  intros H (A & B & C). assert (L : s_interpol (latch st d' pkl) = s_interpol st /\ s_cutoff (latch st d' pkl) = s_cutoff st).
  { unfold latch. destruct d'; cbn; auto; (destruct (_ || _); [|auto]; destruct (q_range _ _); auto). }
  destruct L as [-> ->] || (destruct L as [L1 L2]; unfold computes; rewrite L1, L2). split; [exact A|]. split; [exact B|]. intros ik Hi. rewrite value_latched by exact H. apply C, Hi.
Qed.
Lemma run_ok s o ob c sl l K P ks a b d ps ss vals : wf s -> In o (reachable s) -> nth_error (objects s) o = Some ob -> o_class ob = c -> bound_to s o c sl l K P ks -> ks <> [] ->
  driver_of c (set_flag a) (set_flag b) = Some d -> d <> D_B -> computes fuel (g_conf s) suave1 suave12 d (mk_table K P) (mk_table K P) (mk_table K P) ks ps ss vals ->
  exists s', py_run_terms fuel suave1 suave12 o ob a b s = Fine s' tt /\ bound_to s' o c sl l K P ks /\ filled s' o d ks ps ss vals /\
    objects s' = objects s /\ vars s' = vars s /\ temps s' = temps s /\ List.length (blocks s') = List.length (blocks s) /\ (forall b, ~ outputs s sl b -> nth_error (blocks s') b = nth_error (blocks s) b) /\
    (forall x ox, nth_error (objects s) x = Some ox -> o_dict ox <> o_dict ob \/ c <> CA1 -> dict_of s' x = dict_of s x) /\ List.length (dicts s') = List.length (dicts s) /\
    g_terms s' = g_terms s /\ g_lin s' = g_lin s /\ g_conf s' = latch (g_conf s) d (mk_table K P) /\ g_verbose s' = g_verbose s.
Proof.
  intros W Ho E C B Nk D Nd Cm. pose proof (t_slot _ _ _ _ _ (b_terms _ _ _ _ _ _ _ _ B)) as Sl. pose proof (driver_slot _ _ _ _ _ D Sl) as Ds.
  assert (Ar : armed s (slot_of_driver d) K P ks). { rewrite Ds. destruct B as [B1 B2 B3]. apply (armed_of s o c sl l); auto. apply reach_hand; [exact W|]. apply (i_hand _ _ _ _ B2). }
  destruct (run_terms_ok fuel suave1 suave12 s d K P ks ps ss vals Nd Ar Nk Cm) as (s1 & E1 & R1 & V1 & V2 & V3). rewrite Ds in *. set (cf := latch _ _ _) in *.
  assert (B1 : bound_to (with_conf s1 cf) o c sl l K P ks). { apply (bound_ext s1); try reflexivity. eapply bound_rw; eauto. }
  assert (F1 : filled (with_conf s1 cf) o d ks ps ss vals).
  { eapply (filled_of _ _ c sl); [apply (b_terms _ _ _ _ _ _ _ _ B1)|exact D|..]; change (g_terms (with_conf s1 cf)) with (g_terms s1); rewrite (rw_terms _ _ _ R1); [exact V1|exact V2|exact V3]. }
  assert (Eq : s1 = with_blocks s (blocks s1)) by apply (rw_eq _ _ _ R1).
  assert (Gen : py_run_terms fuel suave1 suave12 o ob a b s = match c with CA1 => py_reshape o CA1 (with_conf s1 cf) | _ => Fine (with_conf s1 cf) tt end).
  { unfold py_run_terms. rewrite C. destruct c; cbn in D; try discriminate; injection D as <-; try congruence; try exact E1. rewrite (bind_Fine _ _ _ _ _ E1). reflexivity. }
  assert (O1 : objects (with_conf s1 cf) = objects s) by (rewrite Eq; reflexivity).
  assert (X : exists s', py_run_terms fuel suave1 suave12 o ob a b s = Fine s' tt /\ bound_to s' o c sl l K P ks /\ filled s' o d ks ps ss vals /\ shaped (with_conf s1 cf) s' o /\ (c <> CA1 -> s' = with_conf s1 cf)).
  { rewrite Gen. destruct (reshape_ok (with_conf s1 cf) o ob c sl ks) as (s2 & E2 & Sh & T2); [rewrite O1; exact E|rewrite Eq; apply (wf_dict _ W _ _ E)|apply (b_terms _ _ _ _ _ _ _ _ B1)|].
    assert (Sn : forall c', c' <> CA1 -> exists s', Fine (with_conf s1 cf) tt = Fine s' tt /\ bound_to s' o c sl l K P ks /\ filled s' o d ks ps ss vals /\ shaped (with_conf s1 cf) s' o /\ (c' <> CA1 -> s' = with_conf s1 cf)) by (intros c' _; exists (with_conf s1 cf); auto using shaped_refl).
    destruct c; try (apply Sn; discriminate). exists s2. split; [exact E2|]. split; [|split; [|split; [exact Sh|congruence]]].
    - eapply shaped_bound; eauto; [rewrite O1; exact E|cbn; auto].
    - eapply shaped_filled; eauto. }
  destruct X as (s' & E' & B' & F' & Sh & Same). pose proof (sh_rest _ _ _ Sh) as R. exists s'. split; [exact E'|]. split; [exact B'|]. split; [exact F'|].
  repeat split.
  - rewrite (sr_objects _ _ R). exact O1.
  - rewrite (sr_vars _ _ R), Eq. reflexivity.
  - rewrite (sr_temps _ _ R), Eq. reflexivity.
  - rewrite (sh_blocks _ _ _ Sh). apply (rw_none _ _ _ R1).
  - intros bb Hb. rewrite (sh_blocks _ _ _ Sh). apply (rw_same _ _ _ R1), Hb.
  - intros x ox Ex [H|H].
    + rewrite (sh_other _ _ _ Sh x ob ox); auto; try (rewrite O1; assumption). change (dict_of s1 x = dict_of s x). eapply rw_dict; eauto.
    + rewrite (Same H). change (dict_of s1 x = dict_of s x). eapply rw_dict; eauto.
  - rewrite (sh_dicts _ _ _ Sh). cbn. rewrite Eq. reflexivity.
  - rewrite (sr_terms _ _ R). apply (rw_terms _ _ _ R1).
  - rewrite (sr_lin _ _ R). apply (rw_lin _ _ _ R1).
  - rewrite (sr_conf _ _ R). reflexivity.
  - rewrite (sr_verbose _ _ R). cbn. rewrite Eq. reflexivity.
Qed.

(** ** The B term on two given spectra *)
Lemma run_terms_B_ok s K P ks Kd Pd Kt Pt ps ss vals : armed s S_B K P ks -> Kd <> [] -> Kt <> [] -> List.length Pd = List.length Kd -> List.length Pt = List.length Kt ->
  cp_n (g_dt s) = zlen Kd -> cp_n (g_tt s) = zlen Kt -> reads s (cp_k (g_dt s)) Kd -> reads s (cp_p (g_dt s)) Pd -> reads s (cp_k (g_tt s)) Kt -> reads s (cp_p (g_tt s)) Pt ->
  (forall b, outputs s S_B b -> ~ In b (buf_of (cp_k (g_dt s)) ++ buf_of (cp_p (g_dt s)) ++ buf_of (cp_k (g_tt s)) ++ buf_of (cp_p (g_tt s)))%list) ->
  computes fuel (g_conf s) suave1 suave12 D_B (mk_table K P) (mk_table Kd Pd) (mk_table Kt Pt) ks ps ss vals ->
  let ct := g_terms s S_B in
  exists s', c_run_terms_B fuel suave1 suave12 s = Fine s' tt /\ rewritten (outputs s S_B) s s' /\
    holds s' ct (column "pk_lin" (zlen ks)) ps /\ holds s' ct (column "sigmad2" (zlen ks)) ss /\ forall ik, (0 <= ik < zlen ks)%Z -> holds s' ct (cells_of D_B ik) (vals ik).
Proof.
  intros A Nd Nt Ld Lt Cd Ct Rdk Rdp Rtk Rtp Ap (Ep & Es & Hv) ct. destruct (columns_ok suave1 suave12 s D_B K P ks ps ss A Ep Es) as (s1 & E1 & R1 & V1 & V2). unfold c_run_terms_B. rewrite (bind_Fine _ _ _ _ _ E1).
  assert (Gd : g_dt s1 = g_dt s) by (rewrite (rw_eq _ _ _ R1); reflexivity). assert (Gt : g_tt s1 = g_tt s) by (rewrite (rw_eq _ _ _ R1); reflexivity).
  unfold get. unfold mbind at 1. rewrite Gd, Gt, Cd, Ct.
  assert (Z0 : ((zlen Kd =? 0) || (zlen Kt =? 0))%Z = false) by (destruct Kd; [congruence|]; destruct Kt; [congruence|]; reflexivity). rewrite Z0. cbv zeta.
  rewrite (bind_Fine _ _ s1 s1 tt) by reflexivity. unfold mbind at 1. rewrite Gd, Gt. cbn [slot_of_driver] in *. assert (A1 : armed s1 S_B K P ks) by (eapply armed_rw; eauto).
  rewrite (bind_Fine _ _ s1 s1 tt). 2: { apply (overlap_ok suave1 suave12 s1 S_B (size_of (zlen ks))); [apply (ar_out _ _ _ _ _ A1)|]. rewrite (rw_terms _ _ _ R1). exact Ap. }
  rewrite (bind_Fine _ _ s1 s1 (mk_table Kd Pd)). 2: { apply table_ok; auto; eapply reads_rw; eauto; intros b Hb Ho; apply (Ap b Ho); rewrite !in_app_iff; auto. }
  rewrite (bind_Fine _ _ s1 s1 (mk_table Kt Pt)). 2: { apply table_ok; auto; eapply reads_rw; eauto; intros b Hb Ho; apply (Ap b Ho); rewrite !in_app_iff; auto. }
  destruct (rows_ok fuel suave1 suave12 s1 D_B K P ks (mk_table K P) (mk_table Kd Pd) (mk_table Kt Pt) vals ps ss A1) as (s3 & E3 & R3 & V3 & V4 & V5).
  - intros ik Hi. rewrite (rw_conf _ _ _ R1). apply Hv, Hi.
  - rewrite (rw_terms _ _ _ R1). exact V1.
  - rewrite (rw_terms _ _ _ R1). exact V2.
  - rewrite (rw_terms _ _ _ R1) in *. exists s3. rewrite (bind_Fine _ _ _ _ _ E3). split; [reflexivity|]. split; [eapply rw_trans; eauto|auto].
Qed.
End Fill.
