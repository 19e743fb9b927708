(** ProofProcess7: run_terms of the library, exactly. *)
From Coq Require Import ZArith List String Bool Lia PeanoNat.
From Verif Require Import Base Num Common Kernels Integrals Registry PyTerms Threads SpecThreads Process SpecProcess ProofThreads2 ProofProcess ProofProcess2 ProofScratch3 ProofThreads3 ProofThreads4 ProofProcess6.
Import ListNotations.
Local Open Scope string_scope.
Local Open Scope nat_scope.

Definition comp_of (y : string) : Z := if (y =? "A")%string then 5%Z else if (y =? "B")%string then 9%Z else 1%Z.
Definition size_of (nk : Z) (y : string) : Z := (nk * comp_of y)%Z.
Lemma cells_in_size d nk ik l : (0 <= ik < nk)%Z -> In l (cells_of d ik) -> in_size (tl (c_fields (slot_of_driver d))) (size_of nk) l.
Proof.
  intros H Hl. unfold size_of. destruct d; cbn [cells_of cells_1loop cells_2loop_all cells_2loop cells_bias cells_A cells_B map app In] in Hl; repeat (destruct Hl as [<-|Hl]; [split; [cbn; tauto|change (comp_of "A") with 5%Z || change (comp_of "B") with 9%Z || (match goal with |- context [comp_of ?y] => change (comp_of y) with 1%Z end); lia]|]); destruct Hl.
Qed.
Lemma column_in_size x sl nk l : In x (tl (c_fields sl)) -> comp_of x = 1%Z -> In l (column x nk) -> in_size (tl (c_fields sl)) (size_of nk) l.
Proof. intros Hx C H. apply in_map_iff in H as (i & <- & Hi). apply In_indices in Hi. cbn. split; [exact Hx|]. unfold size_of. rewrite C. lia. Qed.
Lemma column_NoDup x nk : NoDup (column x nk).
Proof. apply FinFun.Injective_map_NoDup; [intros a b; congruence|apply NoDup_indices]. Qed.
Lemma cells_NoDup d ik : NoDup (cells_of d ik).
Proof.
  destruct d; try (repeat constructor; cbn; intuition discriminate).
  1,2: unfold cells_of, cells_A; apply FinFun.Injective_map_NoDup; [intros x y X; assert (5 * ik + x = 5 * ik + y)%Z by congruence; lia|]; repeat constructor; cbn; intuition discriminate.
  unfold cells_of, cells_B; apply FinFun.Injective_map_NoDup; [intros x y X; assert (9 * ik + x = 9 * ik + y)%Z by congruence; lia|]; repeat constructor; cbn; intuition discriminate.
Qed.
(** The row a cell belongs to *)
Definition row_of (l : loc) : Z := match l with Arr y i => (i / comp_of y)%Z | _ => 0%Z end.
Lemma cells_row d ik l : In l (cells_of d ik) -> row_of l = ik.
Proof.
  intros H. destruct d; cbn [cells_of cells_1loop cells_2loop_all cells_2loop cells_bias cells_A cells_B map app In] in H; unfold row_of;
    repeat (destruct H as [<-|H]; [first [change (comp_of "A") with 5%Z; rewrite Z.mul_comm, Z.div_add_l by lia; cbn; lia | change (comp_of "B") with 9%Z; rewrite Z.mul_comm, Z.div_add_l by lia; cbn; lia | match goal with |- context [comp_of ?y] => change (comp_of y) with 1%Z end; apply Z.div_1_r]|]); destruct H.
Qed.
Lemma NoDup_app {A} (l m : list A) : NoDup l -> NoDup m -> (forall x, In x l -> ~ In x m) -> NoDup (l ++ m).
Proof. intros L M H. induction L as [|x l Hx L IH]; cbn; [exact M|]. constructor; [rewrite in_app_iff; intros [X|X]; [tauto|exact (H x (or_introl eq_refl) X)]|]. apply IH. intros y Hy. apply H. right. exact Hy. Qed.
Lemma rows_NoDup d iks : NoDup iks -> NoDup (flat_map (cells_of d) iks).
Proof.
  induction 1 as [|ik iks H ND IH]; cbn; [constructor|]. apply NoDup_app; [apply cells_NoDup|exact IH|]. intros l H1 H2. apply in_flat_map in H2 as (jk & Hj & H2). apply cells_row in H1. apply cells_row in H2. congruence.
Qed.
Lemma rows_names d iks y i : In (Arr y i) (flat_map (cells_of d) iks) -> y <> "pk_lin" /\ y <> "sigmad2".
Proof. intros H. apply in_flat_map in H as (ik & _ & H). destruct d; cbn in H; repeat (destruct H as [[= <- _]|H]; [split; discriminate|]); destruct H. Qed.

Section Run.
Context {N : Num}.
Notation T := (T N).
Notation state := (state N).
Implicit Types (s : state).
Variables (fuel : nat) (suave1 : (list T -> res T) -> res T) (suave12 : (list T -> res (list T)) -> res (list T)).
Lemma value_length st d pkl dt ptt k v ik : value_of (N := N) fuel st suave1 suave12 d pkl dt ptt k = Ok v -> List.length v = List.length (cells_of d ik).
Proof.
  assert (SA : forall (p r : list T), sum_A p = Ok r -> List.length r = 5). { intros p r. unfold sum_A. repeat (destruct (rd p _); [|discriminate]; cbn [bind]). intros [= <-]. reflexivity. }
  assert (SB : forall (p r : list T), sum_B p = Ok r -> List.length r = 9). { intros p r. unfold sum_B. repeat (destruct (rd p _); [|discriminate]; cbn [bind]). intros [= <-]. reflexivity. }
  destruct d; cbn [value_of cells_of].
  - unfold value_1loop. repeat (match goal with |- (bind ?m _ = _) -> _ => destruct m eqn:?E; [cbn [bind]|discriminate] | |- ((let (_, _) := ?x in _) = _) -> _ => destruct x end).
    intros [= <-]; match goal with H : take _ _ = Ok _ |- _ => apply take_Ok in H; cbn [List.length]; rewrite H end; reflexivity.
  - destruct (value_2loop _ _ _ _ _ _) as [v1|] eqn:E; [cbn [bind]|discriminate]. assert (L1 : List.length v1 = 7).
    { revert E. unfold value_2loop. repeat (match goal with |- (bind ?m _ = _) -> _ => destruct m eqn:?E; [cbn [bind]|discriminate] | |- ((let (_, _) := ?x in _) = _) -> _ => destruct x end).
      intros [= <-]; match goal with H : take _ _ = Ok _ |- _ => apply take_Ok in H; cbn [List.length]; rewrite H end; reflexivity. }
    destruct (value_gamma3 _ _ _ _ _ _) as [v2|] eqn:E2; [cbn [bind]|discriminate]. intros [= <-]. rewrite app_length, L1. revert E2. unfold value_gamma3. destruct (q_range _ _) as [[]|]; [cbn [bind]|discriminate].
    destruct (calc_pk_gamma3_tree _ _ _ _ _ _ _ _ _ _); [cbn [bind]|discriminate]. intros [= <-]. reflexivity.
  - unfold value_bias. destruct (new_q _ _ _ _); [cbn [bind]|discriminate]. destruct (new_mu _ _ _); [cbn [bind]|discriminate]. cbv beta zeta. 
    repeat (match goal with |- (bind ?m _ = _) -> _ => destruct m eqn:?E; [cbn [bind]|discriminate] | |- ((let (_, _) := ?x in _) = _) -> _ => destruct x end). intros [= <-]. reflexivity.
  - unfold value_A_1loop. repeat (match goal with |- (bind ?m _ = _) -> _ => destruct m eqn:?E; [cbn [bind]|discriminate] | |- ((let (_, _) := ?x in _) = _) -> _ => destruct x end). intros X. apply take_Ok in X. exact X.
  - destruct (value_A_2loop _ _ _ _) as [v1|] eqn:E; [cbn [bind]|discriminate]. assert (L1 : List.length v1 = 5).
    { revert E. unfold value_A_2loop. repeat (match goal with |- (bind ?m _ = _) -> _ => destruct m eqn:?E; [cbn [bind]|discriminate] | |- ((let (_, _) := ?x in _) = _) -> _ => destruct x end). apply SA. }
    destruct (value_A_II_III _ _ _ _) as [v2|] eqn:E2; [cbn [bind]|discriminate]. assert (L2 : List.length v2 = 5).
    { revert E2. unfold value_A_II_III. destruct (q_range _ _) as [[]|]; [cbn [bind]|discriminate]. destruct (calc_pk_A_2loop_II_III _ _ _ _ _ _ _); [cbn [bind]|discriminate]. apply SA. }
    intros [= <-]. change (List.length (cells_A ik)) with 5. clear - L1 L2. do 6 (destruct v1 as [|? v1]; try discriminate). do 6 (destruct v2 as [|? v2]; try discriminate). reflexivity.
  - unfold value_B. repeat (match goal with |- (bind ?m _ = _) -> _ => destruct m eqn:?E; [cbn [bind]|discriminate] | |- ((let (_, _) := ?x in _) = _) -> _ => destruct x end). apply SB.
Qed.

(** The pointers of the library lead to arrays of the right sizes, which do not overlap. *)
Record armed s (sl : slot) (K P ks : list T) : Prop := {
  ar_n : ct_n (g_terms s sl) = zlen ks;
  ar_k : reads s (ct_ptr (g_terms s sl) "k") ks;
  ar_out : target s (g_terms s sl) (tl (c_fields sl)) (size_of (zlen ks));
  ar_lin : cp_n (g_lin s) = zlen K;
  ar_len : List.length P = List.length K;
  ar_lk : reads s (cp_k (g_lin s)) K;
  ar_lp : reads s (cp_p (g_lin s)) P;
  ar_apart : forall b, out_of (g_terms s sl) (tl (c_fields sl)) b -> ~ In b (buf_of (ct_ptr (g_terms s sl) "k") ++ buf_of (cp_k (g_lin s)) ++ buf_of (cp_p (g_lin s)))%list }.
Lemma rw_terms t s s' : rewritten (N := N) t s s' -> g_terms s' = g_terms s. Proof. intros R. rewrite (rw_eq _ _ _ R). reflexivity. Qed.
Lemma rw_lin t s s' : rewritten (N := N) t s s' -> g_lin s' = g_lin s. Proof. intros R. rewrite (rw_eq _ _ _ R). reflexivity. Qed.
Lemma rw_conf t s s' : rewritten (N := N) t s s' -> g_conf s' = g_conf s. Proof. intros R. rewrite (rw_eq _ _ _ R). reflexivity. Qed.
Lemma armed_rw s s' sl K P ks : rewritten (out_of (g_terms s sl) (tl (c_fields sl))) s s' -> armed s sl K P ks -> armed s' sl K P ks.
Proof.
  intros R []. constructor; rewrite ?(rw_terms _ _ _ R), ?(rw_lin _ _ _ R); auto.
  - eapply reads_rw; [exact R| |exact ar_k0]. intros b Hb Ho. eapply ar_apart0; [exact Ho|]. rewrite !in_app_iff. auto.
  - eapply target_rw; eauto.
  - eapply reads_rw; [exact R| |exact ar_lk0]. intros b Hb Ho. eapply ar_apart0; [exact Ho|]. rewrite !in_app_iff. auto.
  - eapply reads_rw; [exact R| |exact ar_lp0]. intros b Hb Ho. eapply ar_apart0; [exact Ho|]. rewrite !in_app_iff. auto.
Qed.
Lemma armed_ext s s' sl K P ks : blocks s' = blocks s -> held s' = held s -> g_terms s' sl = g_terms s sl -> g_lin s' = g_lin s -> armed s sl K P ks -> armed s' sl K P ks.
Proof. intros B H G L []. constructor; rewrite ?G, ?L; auto; try (eapply reads_ext; eauto; fail). eapply target_ext; eauto. Qed.
Lemma disjoint_true l m : (forall b, In b l -> ~ In b m) -> disjoint l m = true.
Proof. induction l as [|x t IH]; intros H; cbn; [reflexivity|]. destruct (mem x m) eqn:E; [apply mem_In in E; destruct (H x (or_introl eq_refl) E)|]. apply IH. intros b Hb. apply H. right. exact Hb. Qed.
Lemma distinct_true l : NoDup l -> distinct l = true.
Proof. induction 1 as [|x t H ND IH]; cbn; [reflexivity|]. destruct (mem x t) eqn:E; [apply mem_In in E; tauto|exact IH]. Qed.
Lemma overlap_ok s sl size inputs : target s (g_terms s sl) (tl (c_fields sl)) size -> (forall b, out_of (g_terms s sl) (tl (c_fields sl)) b -> ~ In b inputs) -> no_overlap sl inputs s = Fine s tt.
Proof.
  intros [P A] H. unfold no_overlap, get, mbind, beyond_unless.
  assert (ND : NoDup (tl (c_fields sl))) by (destruct sl; repeat constructor; cbn; intuition discriminate).
  set (ct := g_terms s sl) in *. set (l := tl (c_fields sl)) in *. rewrite distinct_true, disjoint_true; [reflexivity|..].
  - intros b Hb. apply H. apply in_flat_map in Hb as (y & Hy & Hb). destruct (ct_ptr ct y) as [[b' o]|] eqn:E; [|destruct Hb]. destruct Hb as [<-|[]]. exists y, o. auto.
  - clear H. clearbody l. revert P A ND. induction l as [|y l IH]; intros P A ND; cbn; [constructor|]. inversion ND as [|? ? N1 N2]. subst. apply NoDup_app.
    + destruct (ct_ptr ct y) as [[]|]; cbn; repeat constructor; auto.
    + apply IH; auto. { intros z Hz. apply P. right. exact Hz. } intros z z' b o b' o' Hz Hz'. apply A; right; assumption.
    + intros b Hb Hb'. destruct (ct_ptr ct y) as [[b0 o]|] eqn:E; [|destruct Hb]. destruct Hb as [->|[]]. apply in_flat_map in Hb' as (z & Hz & Hb'). destruct (ct_ptr ct z) as [[b1 o1]|] eqn:E1; [|destruct Hb']. destruct Hb' as [->|[]].
      refine (A y z b o b o1 _ _ _ E E1 eq_refl); [left; reflexivity|right; exact Hz|]. intros ->. tauto.
Qed.
Lemma columns_ok s d K P ks ps ss : armed s (slot_of_driver d) K P ks -> find_pk (mk_table K P) ks (s_interpol (g_conf s) (interpol_of d)) = Ok ps ->
  calc_running_sigmad2 (mk_table K P) ks (s_cutoff (g_conf s) (cutoff_of d)) = Ok ss ->
  let ct := g_terms s (slot_of_driver d) in
  exists s', c_columns d s = Fine s' (mk_table K P, ks) /\ rewritten (out_of ct (tl (c_fields (slot_of_driver d)))) s s' /\ holds s' ct (column "pk_lin" (zlen ks)) ps /\ holds s' ct (column "sigmad2" (zlen ks)) ss.
Proof.
  intros A Ep Es ct. pose proof A as []. unfold c_columns, get. unfold mbind at 1. fold ct. assert (En : ct_n ct = zlen ks) by exact ar_n0. rewrite En.
  rewrite (bind_Fine _ _ _ _ _ (overlap_ok _ _ _ _ ar_out0 ar_apart0)). rewrite (bind_Fine _ _ _ _ _ (table_ok _ _ _ _ ar_lin0 ar_len0 ar_lk0 ar_lp0)). rewrite (bind_Fine _ _ _ _ _ (read_n_ok _ _ _ ar_k0)).
  unfold mbind at 1. unfold c_lift at 1. rewrite Ep. assert (Lp : List.length ps = List.length (column "pk_lin" (zlen ks))). { rewrite column_length. unfold zlen. rewrite Nat2Z.id. eapply find_pk_length; eauto. }
  assert (Ls : List.length ss = List.length (column "sigmad2" (zlen ks))). { rewrite column_length. unfold zlen. rewrite Nat2Z.id. eapply sig_loop_length; eauto. }
  destruct (list_stores_ok s ct _ _ _ _ ar_out0 (column_NoDup "pk_lin" (zlen ks)) (fun l => column_in_size "pk_lin" _ _ l (tl_pk_lin _) eq_refl) Lp) as (s1 & E1 & R1 & V1 & U1).
  rewrite (bind_Fine _ _ _ _ _ E1). unfold mbind at 1. unfold c_lift at 1. rewrite Es.
  destruct (list_stores_ok s1 ct _ _ _ _ (target_rw _ _ _ _ _ _ R1 ar_out0) (column_NoDup "sigmad2" (zlen ks)) (fun l => column_in_size "sigmad2" _ _ l (tl_sigmad2 _) eq_refl) Ls) as (s2 & E2 & R2 & V2 & U2).
  rewrite (bind_Fine _ _ _ _ _ E2). exists s2. split; [reflexivity|]. split; [eapply rw_trans; eauto|]. split; [|exact V2]. eapply holds_ext; [|exact V1]. intros l Hl. apply U2.
  - eapply column_in_size; [apply tl_pk_lin|reflexivity|exact Hl].
  - intros Hl'. apply in_map_iff in Hl as (i & <- & _). apply in_map_iff in Hl' as (j & X & _). discriminate.
Qed.
Lemma rows_ok s d K P ks pkl dt ptt vals ps ss : armed s (slot_of_driver d) K P ks ->
  (forall ik, (0 <= ik < zlen ks)%Z -> value_of fuel (g_conf s) suave1 suave12 d pkl dt ptt (k_ ks ik) = Ok (vals ik)) ->
  let ct := g_terms s (slot_of_driver d) in
  holds s ct (column "pk_lin" (zlen ks)) ps -> holds s ct (column "sigmad2" (zlen ks)) ss ->
  exists s', c_rows fuel suave1 suave12 d pkl ks dt ptt s = Fine s' tt /\ rewritten (out_of ct (tl (c_fields (slot_of_driver d)))) s s' /\ holds s' ct (column "pk_lin" (zlen ks)) ps /\ holds s' ct (column "sigmad2" (zlen ks)) ss /\
    forall ik, (0 <= ik < zlen ks)%Z -> holds s' ct (cells_of d ik) (vals ik).
Proof.
  intros A Hv ct Hp Hs. pose proof A as []. unfold c_rows, get. unfold mbind at 1. fold ct. assert (En : ct_n ct = zlen ks) by exact ar_n0. rewrite En.
  assert (In_ : forall l, In l (flat_map (cells_of d) (indices (zlen ks))) -> in_size (tl (c_fields (slot_of_driver d))) (size_of (zlen ks)) l).
  { intros l Hl. apply in_flat_map in Hl as (ik & Hi & Hl). apply In_indices in Hi. eapply cells_in_size; eauto. }
  destruct (rows_stores_ok ct _ _ (cells_of d) vals (indices (zlen ks)) s ar_out0 (rows_NoDup d _ (NoDup_indices _)) In_) as (s' & E & R & V & U).
  { intros ik Hi. apply In_indices in Hi. eapply value_length. apply Hv, Hi. }
  exists s'. split; [|split; [exact R|split; [|split]]].
  - rewrite <- E. apply do_all_ext. intros s0 ik Hi. apply In_indices in Hi. unfold mbind at 1. unfold c_lift. rewrite (Hv ik Hi). reflexivity.
  - eapply holds_ext; [|exact Hp]. intros l Hl. apply U; [eapply column_in_size; [apply tl_pk_lin|reflexivity|exact Hl]|]. intros X. apply in_map_iff in Hl as (i & <- & _). apply rows_names in X. tauto.
  - eapply holds_ext; [|exact Hs]. intros l Hl. apply U; [eapply column_in_size; [apply tl_sigmad2|reflexivity|exact Hl]|]. intros X. apply in_map_iff in Hl as (i & <- & _). apply rows_names in X. tauto.
  - intros ik Hi. apply V, In_indices, Hi.
Qed.

(** *** The ranges which are set during a run *)
Lemma put_same (f : string -> precision N) x p : put f x p x = p.
Proof. unfold put. rewrite String.eqb_refl. reflexivity. Qed.
Lemma put_other (f : string -> precision N) x y p : x <> y -> put f x p y = f y.
Proof. intros H. unfold put. destruct (String.eqb_spec y x); [congruence|reflexivity]. Qed.
Lemma latch_settings (st : settings N) d pkl : latched st (latch st d pkl).
Proof.
  unfold latch. destruct (latch_of d) as [x|] eqn:E; [|apply latched_refl]. cbv zeta. destruct (_ || _) eqn:C; [|apply latched_refl]. destruct (q_range _ _) as [r|]; [|apply latched_refl].
  apply latch_latched; [|exact C]. destruct d; try discriminate; injection E as <-; auto.
Qed.
Lemma latch_range (st : settings N) d pkl x : latch_of d = Some x -> q_range (s_prec (latch st d pkl) x) pkl = q_range (s_prec st x) pkl.
Proof.
  intros E. unfold latch. rewrite E. cbv zeta. destruct (_ || _) eqn:C; [|reflexivity]. destruct (q_range (s_prec st x) pkl) as [r|] eqn:Q; [|exact Q]. cbn [put_prec s_prec].
  replace (put _ _ _ x) with (mkPrec (pr_n (s_prec st x)) (fst r) (snd r) (pr_interpol (s_prec st x))) by (rewrite put_same; reflexivity).
  unfold q_range in Q. rewrite C in Q. unfold q_range. cbn [pr_min pr_max]. match goal with |- (if ?c then _ else _) = _ => destruct c end; [exact Q|destruct r; reflexivity].
Qed.
Lemma value_latched (st : settings N) d d' pkl dt ptt k : latch_of d = latch_of d' \/ latch_of d = None ->
  value_of fuel (latch st d' pkl) suave1 suave12 d pkl dt ptt k = value_of fuel st suave1 suave12 d pkl dt ptt k.
Proof.
  intros H. assert (L : s_interpol (latch st d' pkl) = s_interpol st /\ s_cutoff (latch st d' pkl) = s_cutoff st /\ forall x, x <> "gamma3_tree_q" -> x <> "A_2loop_II_III_q" -> s_prec (latch st d' pkl) x = s_prec st x).
  { unfold latch. destruct d'; cbn; auto; (destruct (_ || _); [|auto]; destruct (q_range _ _); [|auto]; repeat split; intros; apply put_other; congruence). }
  destruct L as (L1 & L2 & L3).
  destruct d; cbn [value_of].
  - unfold value_1loop, new_q, new_mu, im_of. rewrite !L3 by discriminate. reflexivity.
  - unfold value_2loop, value_gamma3, new_q, new_mu, im_of. destruct H as [H|H]; [|discriminate]. rewrite latch_range by (symmetry; exact H). pose proof (latch_settings st d' pkl) as (_ & _ & X & _). destruct (X "gamma3_tree_q") as (_ & ->). rewrite !L3 by discriminate. reflexivity.
  - unfold value_bias, new_q, new_mu, im_of. rewrite !L3 by discriminate. reflexivity.
  - unfold value_A_1loop, new_q, new_mu, im_of. rewrite !L3 by discriminate. reflexivity.
  - unfold value_A_2loop, value_A_II_III, new_q, new_mu, im_of. destruct H as [H|H]; [|discriminate]. rewrite latch_range by (symmetry; exact H). rewrite L1, L2, !L3 by discriminate. reflexivity.
  - unfold value_B, new_q, new_mu, im_of. rewrite !L3 by discriminate. reflexivity.
Qed.
Lemma latch_ok s d pkl : (forall x, latch_of d = Some x -> exists r, q_range (s_prec (g_conf s) x) pkl = Ok r) ->
  match d with D_2loop _ _ => c_latch "gamma3_tree_q" pkl | D_A_2loop => c_latch "A_2loop_II_III_q" pkl | _ => ret tt end s = Fine (with_conf s (latch (g_conf s) d pkl)) tt.
Proof.
  assert (X : forall s : state, with_conf s (g_conf s) = s) by (intros []; reflexivity).
  intros H. unfold latch. destruct d; cbn [latch_of] in *; unfold ret; rewrite ?X; try reflexivity.
  all: unfold c_latch, get, mbind; cbv zeta; destruct (_ || _); unfold ret; rewrite ?X; try reflexivity; destruct (H _ eq_refl) as (r & ->); reflexivity.
Qed.
(** *** run_terms *)
Lemma run_terms_ok s d K P ks ps ss vals : d <> D_B -> armed s (slot_of_driver d) K P ks -> ks <> [] -> computes fuel (g_conf s) suave1 suave12 d (mk_table K P) (mk_table K P) (mk_table K P) ks ps ss vals ->
  let ct := g_terms s (slot_of_driver d) in
  exists s', c_run_terms fuel suave1 suave12 d s = Fine (with_conf s' (latch (g_conf s) d (mk_table K P))) tt /\ rewritten (out_of ct (tl (c_fields (slot_of_driver d)))) s s' /\
    holds s' ct (column "pk_lin" (zlen ks)) ps /\ holds s' ct (column "sigmad2" (zlen ks)) ss /\ forall ik, (0 <= ik < zlen ks)%Z -> holds s' ct (cells_of d ik) (vals ik).
Proof.
  intros ND A Nk (Ep & Es & Hv) ct. destruct (columns_ok s d K P ks ps ss A Ep Es) as (s1 & E1 & R1 & V1 & V2). unfold c_run_terms. rewrite (bind_Fine _ _ _ _ _ E1).
  assert (Hr : forall x, latch_of d = Some x -> exists r, q_range (s_prec (g_conf s1) x) (mk_table K P) = Ok r).
  { intros x Hx. rewrite (rw_conf _ _ _ R1). specialize (Hv 0%Z). assert (H0 : (0 <= 0 < zlen ks)%Z) by (destruct ks; [congruence|unfold zlen; cbn; lia]). specialize (Hv H0). destruct d; try discriminate; injection Hx as <-; cbn [value_of] in Hv.
    - destruct (value_2loop _ _ _ _ _ _); [cbn [bind] in Hv|discriminate]. unfold value_gamma3 in Hv. destruct (q_range _ _); [eauto|discriminate].
    - destruct (value_A_2loop _ _ _ _); [cbn [bind] in Hv|discriminate]. unfold value_A_II_III in Hv. destruct (q_range _ _); [eauto|discriminate]. }
  rewrite (bind_Fine _ _ _ _ _ (latch_ok s1 d (mk_table K P) Hr)). set (s2 := with_conf s1 _).
  assert (A2 : armed s2 (slot_of_driver d) K P ks). { apply (armed_ext s1); try reflexivity; [apply held_ext; reflexivity|]. apply (armed_rw s); auto. }
  assert (T2 : g_terms s2 = g_terms s) by exact (rw_terms _ _ _ R1).
  destruct (rows_ok s2 d K P ks (mk_table K P) (mk_table K P) (mk_table K P) vals ps ss A2) as (s3 & E3 & R3 & V3 & V4 & V5).
  - intros ik Hi. cbn [g_conf s2 with_conf]. rewrite value_latched by auto. rewrite (rw_conf _ _ _ R1). apply Hv, Hi.
  - rewrite T2. exact V1.
  - rewrite T2. exact V2.
  - rewrite T2 in *. exists (with_conf s3 (g_conf s)). split; [|split; [|split; [exact V3|split; [exact V4|exact V5]]]].
    + rewrite E3. f_equal. rewrite (rw_eq _ _ _ R3). cbn. unfold s2. rewrite (rw_conf _ _ _ R1). rewrite (rw_eq _ _ _ R1). reflexivity.
    + destruct R1 as [Q1 Q2 Q3 Q4]. destruct R3 as [Q5 Q6 Q7 Q8]. constructor; cbn.
      * rewrite Q5. unfold s2. rewrite Q1. destruct s; reflexivity.
      * intros b w xs H. destruct (Q2 _ _ _ H) as (ys & H1 & L1). destruct (Q6 b w ys H1) as (zs & H2 & L2). exists zs. split; [exact H2|congruence].
      * rewrite Q7. exact Q3.
      * intros b Hb. rewrite Q8 by exact Hb. apply Q4, Hb.
Qed.
End Run.
