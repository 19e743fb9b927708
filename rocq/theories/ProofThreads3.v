(** ProofThreads3: the serial parts, and a whole call. *)
From Coq Require Import ZArith List String Bool Lia Permutation.
From Verif Require Import Base Num Common Kernels Integrals Registry Threads SpecThreads ProofThreads SpecLoops SpecScratch ProofScratch ProofScratch2 ProofScratch3 ProofThreads2.
Import ListNotations.
Local Open Scope string_scope.

Section Serial.
Context {N : Num}.
Lemma run_load_all (h : heap N) ls : forall xs, stored h ls xs -> run (load_all ls) h = inl (xs, h).
Proof.
  induction ls as [|l ls IH]; intros [|x xs] S; unfold stored in S; cbn [map] in S; try discriminate; [reflexivity|]. injection S as E S.
  cbn [load_all]. rewrite run_bind. cbn [load_num run]. rewrite E. cbn [run]. rewrite run_bind, (IH xs S). reflexivity.
Qed.
Lemma run_store_all ls : forall (xs : list (T N)) h, List.length xs = List.length ls -> (forall l, In l ls -> h l <> None) -> run (store_all ls xs) h = inl (tt, put_all ls xs h).
Proof.
  induction ls as [|l ls IH]; intros [|x xs] h L P; cbn [List.length] in L; try discriminate; [reflexivity|].
  cbn [store_all put_all]. rewrite run_bind. cbn [store run]. destruct (h l) eqn:E; [|destruct (P l (or_introl eq_refl) E)]. apply IH; [congruence|].
  intros l' Hl. destruct (loc_eqb_spec l l') as [->|Ne]; [rewrite hupd_same; discriminate|rewrite hupd_other by exact Ne; apply P; right; exact Hl].
Qed.
Lemma In_column x nk l : In l (column x nk) <-> exists i, (0 <= i < nk)%Z /\ l = Arr x i.
Proof. unfold column. rewrite in_map_iff. split; intros (i & H1 & H2); exists i; [rewrite In_indices in H2|rewrite In_indices]; auto. Qed.
Lemma column_NoDup x nk : NoDup (column x nk).
Proof. unfold column. apply FinFun.Injective_map_NoDup; [intros a b E; congruence|apply NoDup_indices]. Qed.
Lemma column_length x nk : List.length (column x nk) = Z.to_nat nk.
Proof. unfold column. rewrite map_length. apply indices_length. Qed.
Lemma sig_loop_length (pkl : Pk N) uv ks : forall i acc ss, sig_loop pkl uv i acc ks = Ok ss -> List.length ss = List.length ks.
Proof.
  induction ks as [|k ks IH]; intros i acc ss E; cbn [sig_loop] in E; [injection E as <-; reflexivity|].
  destruct (rd (pk_k pkl) 0) as [kf|]; [|discriminate]. cbn [bind] in E. match type of E with (if ?b then _ else _) = _ => destruct b end.
  - destruct (sig_loop pkl uv i acc ks) as [r|] eqn:Er; [|discriminate]. cbn [bind] in E. injection E as <-. cbn. f_equal. eapply IH. exact Er.
  - destruct (sig_inner _ pkl _ i acc) as [[[j acc'] o]|]; [|discriminate]. cbn [bind] in E.
    destruct (sig_loop pkl uv j acc' ks) as [r|] eqn:Er; [|discriminate]. cbn [bind] in E. injection E as <-. cbn. f_equal. eapply IH. exact Er.
Qed.
Definition after_serial (nk : Z) (ps ss : list (T N)) (h : heap N) : heap N := put_all (column "sigmad2" nk) ss (put_all (column "pk_lin" nk) ps h).
Lemma serial_frame nk ps ss h l : ~ In l (column "pk_lin" nk) -> ~ In l (column "sigmad2" nk) -> after_serial nk ps ss h l = h l.
Proof. intros H1 H2. unfold after_serial. rewrite !put_all_other by assumption. reflexivity. Qed.
Lemma serial_ok st im uv (h : heap N) pkl ks cells tables nT ps ss : machine h pkl ks (out_cells cells (zlen ks)) tables nT ->
  find_pk pkl ks (s_interpol st im) = Ok ps -> calc_running_sigmad2 pkl ks (s_cutoff st uv) = Ok ss ->
  let h1 := after_serial (zlen ks) ps ss h in
  run (p_serial st im uv (zlen ks)) h = inl (tt, h1) /\ machine h1 pkl ks (out_cells cells (zlen ks)) tables nT /\
  stored h1 (column "pk_lin" (zlen ks)) ps /\ stored h1 (column "sigmad2" (zlen ks)) ss.
Proof.
  intros M Ep Es h1. pose proof (find_pk_length _ _ _ _ Ep) as Lp. pose proof (sig_loop_length _ _ _ _ _ _ Es) as Ls.
  assert (Lk : Z.to_nat (zlen ks) = List.length ks) by (unfold zlen; lia).
  assert (Hout : forall l, In l (column "pk_lin" (zlen ks)) \/ In l (column "sigmad2" (zlen ks)) -> h l <> None).
  { intros l Hl. apply (m_out _ _ _ _ _ _ M). unfold out_cells. rewrite !in_app_iff. tauto. }
  split; [|split; [|split]].
  - unfold p_serial. cbv zeta. rewrite run_bind. fold (column "k" (zlen ks)). rewrite (run_load_all h _ ks (m_k _ _ _ _ _ _ M)).
    rewrite run_bind. cbn [load_pk run]. rewrite (m_lin _ _ _ _ _ _ M). cbn [run].
    rewrite run_bind, Ep. cbn [attempt run]. rewrite run_bind. fold (column "pk_lin" (zlen ks)). rewrite run_store_all.
    + rewrite run_bind, Es. cbn [attempt run]. fold (column "sigmad2" (zlen ks)). apply run_store_all; [rewrite column_length; lia|].
      intros l Hl. apply put_all_present, Hout. right. exact Hl.
    + rewrite column_length. lia.
    + intros l Hl. apply Hout. left. exact Hl.
  - assert (F : forall l, (forall i, l <> Arr "pk_lin" i /\ l <> Arr "sigmad2" i) -> h1 l = h l).
    { intros l Hl. apply serial_frame; rewrite In_column; intros (i & _ & E); apply (Hl i) in E; exact E. }
    destruct M as [M1 M2 M3 M4]. constructor.
    + rewrite F; [exact M1|]. intros i. split; discriminate.
    + apply (stored_ext h); [|exact M2]. intros l Hl. apply F. apply In_column in Hl as (j & _ & ->). intros i. split; discriminate.
    + intros l Hl. unfold h1, after_serial. apply put_all_present, put_all_present, M3, Hl.
    + intros t x L Hx. rewrite F; [apply M4; assumption|]. intros i. split; discriminate.
  - unfold h1, after_serial. apply (stored_ext (put_all (column "pk_lin" (zlen ks)) ps h)).
    + intros l Hl. apply put_all_other. intros Hl2. apply In_column in Hl as (i & _ & ->). apply In_column in Hl2 as (j & _ & E). discriminate.
    + apply put_all_stored; [apply column_NoDup|rewrite column_length; lia].
  - unfold h1, after_serial. apply put_all_stored; [apply column_NoDup|rewrite column_length; lia].
Qed.
End Serial.

(** ** A whole call *)
Section Call.
Context {N : Num}.
Lemma call_ok (st : settings N) im uv (h : heap N) pkl ks cells vals (tabs : list (string * table N)) (common : loc -> Prop) cv thread parts ps ss :
  machine h pkl ks (out_cells cells (zlen ks)) (map fst tabs) (List.length parts) ->
  find_pk pkl ks (s_interpol st im) = Ok ps -> calc_running_sigmad2 pkl ks (s_cutoff st uv) = Ok ss ->
  (forall ik c, In c (cells ik) -> exists x i, c = Arr x i /\ x <> "k" /\ x <> "pk_lin" /\ x <> "sigmad2") ->
  (forall l, common l -> exists x, l = Glob x /\ x <> "pk_lin") ->
  (forall h1, machine h1 pkl ks (out_cells cells (zlen ks)) (map fst tabs) (List.length parts) -> (forall x, h1 (Glob x) = h (Glob x)) ->
    exists bound, forall n g, reaches n (h1, team thread parts) g ->
      (n <= bound)%nat /\ ~ faulty g /\ (forall l, race_on l g -> common l) /\ (finished g \/ can_step g) /\
      (finished g -> region_post parts (zlen ks) cells vals tabs common cv h1 (fst g))) ->
  completes (mkCall (p_serial st im uv (zlen ks)) (team thread parts) (Ret tt)) h common
    (fun h' => leaves h h' cells ps ss vals (zlen ks) (map fst tabs) (List.length parts) common /\ (forall l, common l -> parts <> [] -> h' l = Some (cv l)) /\ (forall l, common l -> h' l = h l \/ h' l = Some (cv l))).
Proof.
  intros M Ep Es CA CG R. destruct (serial_ok st im uv h pkl ks cells _ _ ps ss M Ep Es) as (E & M1 & S1 & S2). set (h1 := after_serial (zlen ks) ps ss h) in *.
  assert (G : forall x, h1 (Glob x) = h (Glob x)).
  { intros x. apply serial_frame; rewrite In_column; intros (i & _ & X); discriminate. }
  destruct (R h1 M1 G) as (bound & B). exists h1, bound. split; [exact E|]. cbn [threads after]. intros n g Hr.
  destruct (B n g Hr) as (B1 & B2 & B3 & B4 & B5). repeat (split; [assumption|]). intros F. specialize (B5 F). destruct B5 as [P1 P2 P3 P3' P4].
  exists (fst g). split; [reflexivity|]. split; [|split; [exact P3|intros l Hl; destruct (CG l Hl) as (x & -> & _); rewrite <- G; apply P3', Hl]].
  assert (Col : forall x l, x = "pk_lin" \/ x = "sigmad2" -> In l (column x (zlen ks)) -> fst g l = h1 l).
  { intros x l Hx Hl. apply In_column in Hl as (i & _ & ->). apply P4.
    - intros t _ (y & T & _ & X). discriminate.
    - intros ik _ Hc. destruct (CA ik _ Hc) as (y & j & X & Y1 & Y2 & Y3). destruct Hx; congruence.
    - intros C. destruct (CG _ C) as (y & X & _). discriminate. }
  constructor.
  - apply (stored_ext h1); [|exact S1]. intros l. apply Col. left; reflexivity.
  - apply (stored_ext h1); [|exact S2]. intros l. apply Col. right; reflexivity.
  - exact P2.
  - intros t x L Hx. apply in_map_iff in Hx as ([y T] & <- & Hx). exact (P1 t y T L Hx).
  - intros l H1 H2 H3. unfold out_cells in H1. rewrite !in_app_iff in H1. rewrite P4.
    + apply serial_frame; tauto.
    + intros t L (x & T & Hx & ->). apply (H2 t x L); [|reflexivity]. apply (in_map fst) in Hx. exact Hx.
    + intros ik Hi Hc. apply H1. right. right. apply in_flat_map. exists ik. split; [apply In_indices, Hi|exact Hc].
    + exact H3.
Qed.
Lemma completes_mono (c : call N) h sh (post post' : heap N -> Prop) : (forall h', post h' -> post' h') -> completes c h sh post -> completes c h sh post'.
Proof.
  intros P (h1 & b & E & R). exists h1, b. split; [exact E|]. intros n g Hr. destruct (R n g Hr) as (A1 & A2 & A3 & A4 & A5). repeat (split; [assumption|]).
  intros F. destruct (A5 F) as (h3 & E3 & H3). eauto.
Qed.
Lemma completes_then (b : prog N unit) ts p h sh (post post' : heap N -> Prop) : (forall h', post h' -> exists h3, run p h' = inl (tt, h3) /\ post' h3) ->
  completes (mkCall b ts (Ret tt)) h sh post -> completes (mkCall b ts p) h sh post'.
Proof.
  intros P (h1 & bd & E & R). exists h1, bd. split; [exact E|]. intros n g Hr. destruct (R n g Hr) as (A1 & A2 & A3 & A4 & A5). repeat (split; [assumption|]).
  intros F. destruct (A5 F) as (h3 & E3 & H3). cbn in E3. injection E3 as <-. exact (P _ H3).
Qed.
Lemma machine_k (h : heap N) pkl ks out tabs n ik : machine h pkl ks out tabs n -> (0 <= ik < zlen ks)%Z -> h (Arr "k" ik) = Some (VNum (nth (Z.to_nat ik) ks (nZ N 0))).
Proof.
  intros M Hi. assert (E : nth_error (column "k" (zlen ks)) (Z.to_nat ik) = Some (Arr "k" ik)).
  { unfold column. apply map_nth_error. unfold indices. assert (E : nth_error (seq 0 (Z.to_nat (zlen ks))) (Z.to_nat ik) = Some (Z.to_nat ik)).
    { rewrite (nth_error_nth' _ 0%nat) by (rewrite seq_length; lia). rewrite seq_nth by lia. reflexivity. }
    apply (map_nth_error Z.of_nat) in E. rewrite Z2Nat.id in E by lia. exact E. }
  destruct (stored_nth h _ _ _ _ (m_k _ _ _ _ _ _ M) E) as (x & Ex & Eh). rewrite Eh. do 2 f_equal. symmetry. apply (nth_error_nth _ _ (nZ N 0)), Ex.
Qed.
Lemma machine_cell (h : heap N) pkl ks cells tabs n ik c : machine h pkl ks (out_cells cells (zlen ks)) tabs n -> (0 <= ik < zlen ks)%Z -> In c (cells ik) -> h c <> None.
Proof. intros M Hi Hc. apply (m_out _ _ _ _ _ _ M). unfold out_cells. rewrite !in_app_iff. right. right. apply in_flat_map. exists ik. split; [apply In_indices, Hi|exact Hc]. Qed.
End Call.
