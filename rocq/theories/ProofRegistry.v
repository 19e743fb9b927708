(** ProofRegistry: lemmas about the settings. *)
From Coq Require Import ZArith List String Bool Lia Reals Lra Floats.
From Verif Require Import Base Num BaseFacts Common Registry SpecRegistry ProofCommon2.
Import ListNotations.
Local Open Scope string_scope.

Section R.
Context {N : Num}.
Ltac fuels H := match type of H with (?k <= ?f)%nat => do 5 (destruct f as [|f]; [lia|]) end.

Lemma eqb_put {A} (f : string -> A) x a y : put f x a y = if (y =? x)%string then a else f y.
Proof. reflexivity. Qed.
Lemma once_twice x n mn mx s (p : precision N) : once x n mn mx s (once x n mn mx s p) = once x n mn mx s p.
Proof.
  unfold once. set (n' := if is_range x then _ else _). set (a := if is_angular x then _ else mn). set (b := if is_angular x then _ else mx).
  destruct (set_precision p n' a b (interpol_string s) (default_precision x)) as [p' c] eqn:E. cbn [fst].
  destruct (set_precision_effect _ _ _ _ _ _ _ _ E) as [_ [_ [_ H]]]. rewrite H. reflexivity.
Qed.

Lemma call_leaf x n mn mx s (st : settings N) : In x all_settings ->
  call_setter x n mn mx s st = (put_prec st x (once x n mn mx s (s_prec st x)), Done).
Proof. cbn. intros H. repeat (destruct H as [<-|H]; [reflexivity|]). contradiction. Qed.
Lemma leaf_call fuel x n mn mx s (st : settings N) : (1 <= fuel)%nat -> In x all_settings ->
  py_set_precision fuel x n mn mx s st = (put_prec st x (once x n mn mx s (s_prec st x)), Done).
Proof.
  intros Hf H. destruct fuel as [|f]; [lia|]. rewrite <- (call_leaf x n mn mx s st H).
  cbn in H. repeat (destruct H as [<-|H]; [reflexivity|]). contradiction.
Qed.
Lemma each_leaves fuel n mn mx s xs : (1 <= fuel)%nat -> (forall x, In x xs -> In x all_settings) -> forall st : settings N,
  each (fun c => py_set_precision fuel c n mn mx s) xs st =
  (fold_left (fun st x => put_prec st x (once x n mn mx s (s_prec st x))) xs st, Done).
Proof.
  intros Hf. unfold each. induction xs as [|x xs IH]; intros Hx st; [reflexivity|].
  cbn [fold_left andthen]. rewrite leaf_call by (try assumption; apply Hx; left; reflexivity). apply IH. intros y Hy. apply Hx. right. exact Hy.
Qed.
(** Setting a list of settings one after the other. *)
Definition apply_all n mn mx s xs (st : settings N) := fold_left (fun st x => put_prec st x (once x n mn mx s (s_prec st x))) xs st.
Lemma apply_all_val n mn mx s xs : forall st : settings N,
  (forall x, s_prec (apply_all n mn mx s xs st) x = if existsb (String.eqb x) xs then once x n mn mx s (s_prec st x) else s_prec st x) /\
  (forall x, s_interpol (apply_all n mn mx s xs st) x = s_interpol st x) /\ (forall x, s_cutoff (apply_all n mn mx s xs st) x = s_cutoff st x).
Proof.
  induction xs as [|y xs IH]; intros st; [cbn; auto|]. unfold apply_all in *. cbn [fold_left].
  destruct (IH (put_prec st y (once y n mn mx s (s_prec st y)))) as [H1 [H2 H3]]. split; [|split; [exact H2|exact H3]].
  intros x. rewrite H1. cbn [put_prec s_prec existsb]. unfold put. destruct (String.eqb_spec x y) as [->|E]; cbn [orb]; [|reflexivity].
  destruct (existsb (String.eqb y) xs); [apply once_twice|reflexivity].
Qed.
Lemma apply_all_app n mn mx s xs ys (st : settings N) : apply_all n mn mx s (xs ++ ys) st = apply_all n mn mx s ys (apply_all n mn mx s xs st).
Proof. apply fold_left_app. Qed.
Lemma each_cons f c cs (st : settings N) : each f (c :: cs) st = andthen (f c st) (each f cs).
Proof.
  unfold each. cbn [fold_left andthen]. destruct (f c st) as [st' r]. destruct r; [reflexivity|..]; induction cs as [|d cs IH]; cbn; auto.
Qed.
Lemma each_nil f (st : settings N) : each f [] st = (st, Done).
Proof. reflexivity. Qed.

Ltac leaves := intros ? HH; cbn in HH |- *; repeat (destruct HH as [<-|HH]; [tauto|]); contradiction.
Section Groups.
Variables (n : Z) (mn mx : T N) (s : string).
Lemma gamma2_1loop_call fuel st : (2 <= fuel)%nat -> py_set_precision fuel "gamma2_1loop_q" n mn mx s st = (apply_all n mn mx s ["gamma2d_1loop_q"; "gamma2t_1loop_q"] st, Done).
Proof. intros H. destruct fuel as [|f]; [lia|]. apply (each_leaves f n mn mx s); [lia|leaves]. Qed.
Lemma A_2loop_call fuel st : (2 <= fuel)%nat -> py_set_precision fuel "A_2loop_q" n mn mx s st = (apply_all n mn mx s ["A_2loop_I_q"; "A_2loop_II_III_q"] st, Done).
Proof. intros H. destruct fuel as [|f]; [lia|]. apply (each_leaves f n mn mx s); [lia|leaves]. Qed.
Lemma all_mu_call fuel st : (2 <= fuel)%nat -> py_set_precision fuel "all_mu" n mn mx s st = (apply_all n mn mx s angular st, Done).
Proof. intros H. destruct fuel as [|f]; [lia|]. apply (each_leaves f n mn mx s); [lia|leaves]. Qed.
Lemma call_1loop fuel st : (2 <= fuel)%nat -> py_set_precision fuel "spectrum_1loop_q" n mn mx s st = (apply_all n mn mx s (radial_1loop ++ ["gamma2_tree_q"]) st, Done).
Proof.
  intros H. destruct fuel as [|f]; [lia|].
  change (py_set_precision (S f) "spectrum_1loop_q" n mn mx s st) with
    (andthen (each (fun c => py_set_precision f c n mn mx s) ["gamma1_1loop_q"; "gamma2_tree_q"] st) (call_setter "gamma2_tree_q" n mn mx s)).
  rewrite each_leaves by (try lia; leaves). cbn [andthen]. rewrite call_leaf by (cbn; tauto). rewrite apply_all_app. reflexivity.
Qed.
Lemma each_groups f : forall cs ms, Forall2 (fun c m => forall st, f c st = (apply_all n mn mx s m st, Done)) cs ms -> forall st,
  each f cs st = (apply_all n mn mx s (concat ms) st, Done).
Proof.
  induction cs as [|c cs IH]; intros ms H st; inversion H as [|? m ? ms' Hc Hr]; subst; [reflexivity|].
  rewrite each_cons, Hc. cbn [andthen concat]. rewrite apply_all_app. apply IH. exact Hr.
Qed.
Lemma leaf_all fuel x : (1 <= fuel)%nat -> In x all_settings -> forall st, py_set_precision fuel x n mn mx s st = (apply_all n mn mx s [x] st, Done).
Proof. intros. apply leaf_call; assumption. Qed.
Lemma call_2loop fuel st : (3 <= fuel)%nat -> py_set_precision fuel "spectrum_2loop_q" n mn mx s st = (apply_all n mn mx s radial_2loop st, Done).
Proof.
  intros H. destruct fuel as [|f]; [lia|].
  refine (each_groups (fun c => py_set_precision f c n mn mx s) _ [["gamma1_1loop_q"]; ["gamma1_2loop_q"]; ["gamma2_tree_q"]; ["gamma2d_1loop_q"; "gamma2t_1loop_q"]; ["gamma3_tree_q"]] _ st).
  repeat (constructor; [first [intros; apply gamma2_1loop_call; lia|apply leaf_all; [lia|cbn; tauto]]|]). constructor.
Qed.
Lemma all_q_call fuel st : (4 <= fuel)%nat -> py_set_precision fuel "all_q" n mn mx s st = (apply_all n mn mx s radial st, Done).
Proof.
  intros H. destruct fuel as [|f]; [lia|].
  refine (each_groups (fun c => py_set_precision f c n mn mx s) _ [radial_2loop; ["bias_1loop_q"]; ["A_2loop_I_q"; "A_2loop_II_III_q"]; ["B_q"]] _ st).
  constructor; [intros; apply call_2loop; lia|]. constructor; [apply leaf_all; [lia|cbn; tauto]|]. constructor; [intros; apply A_2loop_call; lia|].
  constructor; [apply leaf_all; [lia|cbn; tauto]|]. constructor.
Qed.
Lemma all_call fuel st : (5 <= fuel)%nat -> py_set_precision fuel "all" n mn mx s st = (apply_all n mn mx s (radial ++ angular) st, Done).
Proof.
  intros H. destruct fuel as [|f]; [lia|].
  refine (each_groups (fun c => py_set_precision f c n mn mx s) _ [radial; angular] _ st).
  constructor; [intros; apply all_q_call; lia|]. constructor; [intros; apply all_mu_call; lia|]. constructor.
Qed.
Lemma exactly st r ms : r = (apply_all n mn mx s ms st, Done) -> sets_exactly ms n mn mx s st r.
Proof. intros ->. split; [reflexivity|]. cbn [fst]. apply apply_all_val. Qed.
Lemma group_call fuel g ms st : (5 <= fuel)%nat -> In (g, ms) groups -> sets_exactly ms n mn mx s st (py_set_precision fuel g n mn mx s st).
Proof.
  intros Hf H. cbn in H. repeat (destruct H as [H|H]; [injection H as <- <-|]); [..|contradiction].
  - apply exactly, all_call, Hf.
  - apply exactly, all_q_call. lia.
  - apply exactly, all_mu_call. lia.
  - rewrite call_1loop by lia. destruct (apply_all_val n mn mx s (radial_1loop ++ ["gamma2_tree_q"]) st) as [H1 H2].
    split; [reflexivity|]. cbn [fst]. split; [|exact H2]. intros x. rewrite H1. cbn [radial_1loop app existsb]. rewrite !orb_false_r.
    destruct (x =? "gamma2_tree_q"); [rewrite !orb_true_r; reflexivity|rewrite !orb_false_r; reflexivity].
  - apply exactly, call_2loop. lia.
  - apply exactly, gamma2_1loop_call. lia.
  - apply exactly, A_2loop_call. lia.
Qed.
Lemma leaf_exactly fuel x st : (1 <= fuel)%nat -> In x all_settings -> sets_exactly [x] n mn mx s st (py_set_precision fuel x n mn mx s st).
Proof. intros Hf Hx. apply exactly, leaf_all; assumption. Qed.
Lemma unknown_call fuel c st : (1 <= fuel)%nat -> ~ In c group_names -> assoc exported_precision c = None ->
  py_set_precision fuel c n mn mx s st = (st, Raised AttributeError).
Proof.
  intros Hf Hg Hx. destruct fuel as [|f]; [lia|]. cbn [py_set_precision]. unfold set_precision_rest, call_setter. rewrite Hx.
  repeat match goal with |- context [(c =? ?g)%string] => destruct (String.eqb_spec c g) as [E|_]; [exfalso; apply Hg; rewrite E; cbn; tauto|] end. reflexivity.
Qed.
Lemma interpolation_call fuel x st : (1 <= fuel)%nat -> In x interpolations ->
  py_set_precision fuel x n mn mx s st = (put_interpol st x (fst (set_interpol (s_interpol st x) (interpol_string s))), Done).
Proof. intros Hf H. destruct fuel as [|f]; [lia|]. cbn in H. repeat (destruct H as [<-|H]; [reflexivity|]). contradiction. Qed.
Lemma sigmad2_call fuel x st : (1 <= fuel)%nat -> In x ["A_1loop_sigmad2"; "A_2loop_sigmad2"] -> py_set_precision fuel x n mn mx s st = (st, BadCall).
Proof. intros Hf H. destruct fuel as [|f]; [lia|]. cbn in H. repeat (destruct H as [<-|H]; [reflexivity|]). contradiction. Qed.
(** all_pklin: the first two are set, the third does not exist. *)
Lemma all_pklin_call fuel st : (2 <= fuel)%nat ->
  let new x := fst (set_interpol (s_interpol st x) (interpol_string s)) in
  py_set_precision fuel "all_pklin" n mn mx s st =
  (put_interpol (put_interpol st "spectrum_1loop_pk_lin" (new "spectrum_1loop_pk_lin")) "spectrum_2loop_pk_lin" (new "spectrum_2loop_pk_lin"), Raised AttributeError).
Proof. intros Hf. destruct fuel as [|[|f]]; [lia..|]. reflexivity. Qed.
End Groups.

(** Cutoffs *)
Lemma cutoff_call fuel c u (st : settings N) : (1 <= fuel)%nat -> c <> "all" -> py_set_cutoff fuel c u st =
  if existsb (String.eqb c) exported_cutoff then (put_cutoff st ("set_running_uvcutoff_" ++ c) u, Done) else (st, Raised AttributeError).
Proof. intros Hf H. destruct fuel as [|f]; [lia|]. cbn [py_set_cutoff]. destruct (String.eqb_spec c "all"); [contradiction|reflexivity]. Qed.
Lemma cutoff_all fuel u (st : settings N) : (2 <= fuel)%nat -> exists st', py_set_cutoff fuel "all" u st = (st', Done) /\
  s_prec st' = s_prec st /\ s_interpol st' = s_interpol st /\
  forall x, s_cutoff st' x = if existsb (String.eqb x) (map (append "set_running_uvcutoff_") ["spectrum_1loop"; "spectrum_2loop"; "bispectrum_1loop"; "bias_1loop"]) then u else s_cutoff st x.
Proof.
  intros Hf. destruct fuel as [|[|f]]; [lia..|]. eexists. split; [reflexivity|]. split; [reflexivity|]. split; [reflexivity|]. intros x.
  cbn [s_cutoff put_cutoff map existsb append]. unfold put.
  repeat (match goal with |- context [(x =? ?g)%string] => destruct (x =? g)%string end; cbn [orb]); reflexivity.
Qed.
(** clear *)
Lemma reset_once x (p : precision N) : one_above (N := N) -> once x 0 (nZ N 1) (nopp N (nZ N 1)) "test" p = default_precision x.
Proof.
  intros H. unfold once. destruct (set_precision p _ _ _ _ _) as [p' c] eqn:E. cbn [fst]. destruct (set_precision_effect _ _ _ _ _ _ _ _ E) as [Hc [Hd _]].
  destruct c; [|apply Hd; reflexivity]. destruct (proj1 Hc eq_refl) as [Hn|[Hm|[Hs|Hs]]]; try discriminate Hs.
  - destruct (is_range x); unfold u64 in Hn; cbn in Hn; lia.
  - exfalso. destruct (is_angular x); unfold one_above in H; congruence.
Qed.
Definition cleared_cutoffs := map (append "set_running_uvcutoff_") ["spectrum_1loop"; "spectrum_2loop"; "bispectrum_1loop"; "bias_1loop"].
Lemma clear_effect fuel (st : settings N) : one_above (N := N) -> (5 <= fuel)%nat -> exists st', py_clear fuel st = (st', Done) /\
  (forall x, s_prec st' x = if existsb (String.eqb x) (radial ++ angular) then default_precision x else s_prec st x) /\
  (forall x, s_interpol st' x = s_interpol st x) /\
  (forall x, s_cutoff st' x = if existsb (String.eqb x) cleared_cutoffs then nlit N 5 1 else s_cutoff st x).
Proof.
  intros H1 Hf. unfold py_clear. rewrite all_call by exact Hf. cbn [andthen].
  destruct (cutoff_all fuel (nlit N 5 1) (apply_all 0 (nZ N 1) (nopp N (nZ N 1)) "test" (radial ++ angular) st)) as [st' [E [E1 [E2 E3]]]]; [lia|].
  destruct (apply_all_val 0 (nZ N 1) (nopp N (nZ N 1)) "test" (radial ++ angular) st) as [A1 [A2 A3]].
  exists st'. split; [exact E|]. split; [|split].
  - intros x. rewrite E1, A1. destruct (existsb _ _); [apply reset_once, H1|reflexivity].
  - intros x. rewrite E2. apply A2.
  - intros x. rewrite E3. rewrite A3. reflexivity.
Qed.
(** Angular settings keep the range -1..1 *)
Definition full_angle (p : precision N) : Prop := pr_min p = nopp N (nZ N 1) /\ pr_max p = nZ N 1.
Definition angles_ok (st : settings N) : Prop := forall x, In x (angular ++ ["A_1loop_mu"]) -> full_angle (s_prec st x).
Lemma once_angle x n mn mx s p : one_above (N := N) -> In x (angular ++ ["A_1loop_mu"]) -> full_angle p -> full_angle (once x n mn mx s p).
Proof.
  intros H1 Hx [Pm PM]. assert (Ha : is_angular x = true) by (unfold is_angular; apply existsb_exists; exists x; split; [exact Hx|apply String.eqb_refl]).
  assert (Hd : full_angle (default_precision x)) by (cbn in Hx; repeat (destruct Hx as [<-|Hx]; [split; reflexivity|]); contradiction).
  unfold once. rewrite Ha. destruct (set_precision p _ _ _ _ _) as [p' c] eqn:E. cbn [fst]. destruct (set_precision_effect _ _ _ _ _ _ _ _ E) as [_ [H0 [H2 _]]].
  destruct c; [|rewrite (H0 eq_refl); exact Hd]. destruct (H2 eq_refl) as [_ [Em [EM _]]]. unfold one_above in H1. rewrite H1 in Em, EM. split; congruence.
Qed.
Lemma apply_all_angles n mn mx s xs st : one_above (N := N) -> angles_ok st -> angles_ok (apply_all n mn mx s xs st).
Proof.
  intros H1 Hs x Hx. rewrite (proj1 (apply_all_val n mn mx s xs st)). destruct (existsb _ _); [apply once_angle; auto|auto].
Qed.
Lemma precision_angles fuel c n mn mx s st : one_above (N := N) -> (5 <= fuel)%nat -> angles_ok st -> angles_ok (fst (py_set_precision fuel c n mn mx s st)).
Proof.
  intros H1 Hf Hs.
  destruct (in_dec string_dec c (map fst groups)) as [Hg|Hg].
  { apply in_map_iff in Hg. destruct Hg as [[g ms] [<- Hg]]. destruct (group_call n mn mx s fuel g ms st Hf Hg) as [_ [Hp _]].
    intros x Hx. cbn [fst]. rewrite Hp. destruct (existsb _ _); [apply once_angle; auto|auto]. }
  destruct (in_dec string_dec c ["all_pklin"]) as [[<-|[]]|Hp]; [rewrite all_pklin_call by lia; exact Hs|].
  destruct (assoc exported_precision c) as [sg|] eqn:Es.
  2: { rewrite unknown_call; [exact Hs|lia| |exact Es]. unfold group_names. intros H. apply in_app_or in H. tauto. }
  assert (H : In c all_settings \/ In c interpolations \/ In c ["A_1loop_sigmad2"; "A_2loop_sigmad2"]).
  { clear - Es. cbn in Es. repeat match type of Es with (if (c =? ?g)%string then _ else _) = _ => destruct (String.eqb_spec c g) as [->|_]; [cbn; tauto|] end. discriminate. }
  destruct H as [H|[H|H]].
  - rewrite leaf_all by (assumption || lia). apply apply_all_angles; assumption.
  - rewrite interpolation_call by (assumption || lia). exact Hs.
  - rewrite sigmad2_call by (assumption || lia). exact Hs.
Qed.
Lemma cutoff_angles fuel c u st : angles_ok st -> (2 <= fuel)%nat -> angles_ok (fst (py_set_cutoff fuel c u st)).
Proof.
  intros Hs Hf. destruct (string_dec c "all") as [->|Hc].
  - destruct (cutoff_all fuel u st Hf) as [st' [-> [E _]]]. intros x Hx. cbn [fst]. rewrite E. apply Hs, Hx.
  - rewrite cutoff_call by (assumption || lia). destruct (existsb _ _); exact Hs.
Qed.
Lemma op_angles fuel o st : one_above (N := N) -> (5 <= fuel)%nat -> angles_ok st -> angles_ok (fst (apply_op fuel o st)).
Proof.
  intros H1 Hf Hs. destruct o; cbn [apply_op].
  - apply precision_angles; assumption.
  - apply cutoff_angles; [assumption|lia].
  - destruct (clear_effect fuel st H1 Hf) as [st' [-> [E _]]]. intros x Hx. cbn [fst]. rewrite E. destruct (existsb _ _); [|apply Hs, Hx].
    cbn in Hx. repeat (destruct Hx as [<-|Hx]; [split; reflexivity|]). contradiction.
Qed.
Lemma history_angles fuel ops : one_above (N := N) -> (5 <= fuel)%nat -> forall st, angles_ok st -> angles_ok (after fuel ops st).
Proof. intros H1 Hf. induction ops as [|o ops IH]; intros st Hs; [exact Hs|]. apply IH, op_angles; assumption. Qed.
Lemma fresh_angles : angles_ok (fresh_settings N).
Proof. intros x Hx. cbn in Hx. repeat (destruct Hx as [<-|Hx]; [split; reflexivity|]). contradiction. Qed.
End R.
Lemma one_above_R : one_above (N := RNum).
Proof. unfold one_above. cbn. unfold Rleb. destruct (Rle_dec _ _); [lra|reflexivity]. Qed.
Lemma one_above_F lm : one_above (N := FNum lm).
Proof. reflexivity. Qed.
Lemma cutoff_single {N} fuel c u (st : settings N) : (1 <= fuel)%nat -> In c exported_cutoff -> exists st', py_set_cutoff fuel c u st = (st', Done) /\
  (forall x, s_cutoff st' x = if (x =? "set_running_uvcutoff_" ++ c)%string then u else s_cutoff st x) /\
  (forall x, s_prec st' x = s_prec st x) /\ (forall x, s_interpol st' x = s_interpol st x).
Proof.
  intros Hf Hc. destruct fuel as [|f]; [lia|]. exists (put_cutoff st ("set_running_uvcutoff_" ++ c) u).
  split; [cbn in Hc; repeat (destruct Hc as [<-|Hc]; [reflexivity|]); contradiction|]. repeat split.
Qed.
Lemma cutoff_all_misses {N} fuel u (st : settings N) : (2 <= fuel)%nat -> exists st', py_set_cutoff fuel "all" u st = (st', Done) /\
  s_cutoff st' "set_running_uvcutoff_B" = s_cutoff st "set_running_uvcutoff_B" /\
  (forall n mn mx s, py_set_precision fuel "A_1loop_sigmad2" n mn mx s st = (st, BadCall)) /\
  (forall n mn mx s, py_set_precision fuel "A_2loop_sigmad2" n mn mx s st = (st, BadCall)).
Proof.
  intros Hf. destruct (cutoff_all fuel u st Hf) as [st' [E [_ [_ H]]]]. exists st'. split; [exact E|]. split; [rewrite H; reflexivity|].
  split; intros; apply sigmad2_call; try lia; cbn; tauto.
Qed.
