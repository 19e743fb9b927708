(** ProofThreads7: consequences. *)
From Coq Require Import ZArith List String Bool Lia Permutation.
From Verif Require Import Base Num Common Kernels Integrals Registry Threads SpecThreads ProofThreads SpecLoops SpecScratch SpecTable ProofFindPk ProofCommon2 ProofScratch ProofScratch2 ProofScratch3 ProofThreads2 ProofThreads3 ProofThreads4 ProofThreads5 ProofThreads6.
Import ListNotations.
Local Open Scope string_scope.

Section Drivers.
Context {N : Num}.
Variables (fuel : nat) (st : settings N) (suave1 : (list (T N) -> res (T N)) -> res (T N)) (suave12 : (list (T N) -> res (list (T N))) -> res (list (T N))).
Notation call_of := (call_of fuel st suave1 suave12).
Notation value_of := (value_of fuel st suave1 suave12).
Notation starts := (starts fuel st).
Notation computes := (computes fuel st suave1 suave12).
Lemma split_values {A B} (f : Z -> res A) (g : Z -> res B) {C} (op : A -> B -> C) (vals : Z -> C) n (da : A) (db : B) :
  (forall ik, (0 <= ik < n)%Z -> (v <- f ik ;; w <- g ik ;; Ok (op v w)) = Ok (vals ik)) ->
  exists va vb, (forall ik, (0 <= ik < n)%Z -> f ik = Ok (va ik)) /\ (forall ik, (0 <= ik < n)%Z -> g ik = Ok (vb ik)) /\ (forall ik, (0 <= ik < n)%Z -> op (va ik) (vb ik) = vals ik).
Proof.
  intros H. exists (fun ik => match f ik with Ok v => v | _ => da end), (fun ik => match g ik with Ok v => v | _ => db end).
  repeat split; intros ik Hi; specialize (H ik Hi); destruct (f ik); cbn [bind] in H; try discriminate; destruct (g ik); cbn [bind] in H; try discriminate; congruence.
Qed.
Lemma leaves_vals (h h' : heap N) cells ps ss v v' nk tabs n ex : (forall ik, (0 <= ik < nk)%Z -> v ik = v' ik) -> leaves h h' cells ps ss v nk tabs n ex -> leaves h h' cells ps ss v' nk tabs n ex.
Proof. intros E [L1 L2 L3 L4 L5]. constructor; try assumption. intros ik Hi. rewrite <- E by exact Hi. apply L3, Hi. Qed.
Theorem run_ok d h pkl dt ptt ks parts ps ss vals : starts d h pkl dt ptt ks parts -> computes d pkl dt ptt ks ps ss vals ->
  completes (call_of d (zlen ks) parts) h (shared_by d)
    (fun h' => leaves h h' (cells_of d) ps ss vals (zlen ks) (tables_of d) (List.length parts) (shared_by d) /\
      match d with D_B => parts <> [] -> h' (Glob "calc_B.pk_dt") = Some (VPk dt) /\ h' (Glob "calc_B.pk_tt") = Some (VPk ptt) | _ => True end).
Proof.
  intros [S X] (C1 & C2 & C3). destruct d as [a b|a b| | | | ]; cbn [SpecThreads.call_of shared_by cells_of q_tables_of mu_tables_of interpol_of cutoff_of SpecThreads.value_of] in *.
  - eapply completes_mono; [|exact (call_1loop fuel st a b h pkl ks parts ps ss vals S C1 C2 C3)]. cbv beta. auto.
  - destruct X as [r Er]. destruct (split_values _ _ _ vals (zlen ks) [] [] C3) as (va & vb & Ha & Hb & Hab).
    eapply completes_mono; [|exact (call_2loop fuel st suave1 a b h pkl ks parts ps ss va vb r S C1 C2 Ha Er Hb)]. cbv beta. intros h' L. split; [|exact I]. exact (leaves_vals _ _ _ _ _ _ _ _ _ _ _ Hab L).
  - eapply completes_mono; [|exact (call_bias fuel st h pkl ks parts ps ss vals S C1 C2 C3)]. cbv beta. auto.
  - eapply completes_mono; [|exact (call_A_1loop fuel st h pkl ks parts ps ss vals S C1 C2 C3)]. cbv beta. auto.
  - destruct X as [r Er]. destruct (split_values _ _ _ vals (zlen ks) [] [] C3) as (va & vb & Ha & Hb & Hab).
    eapply completes_mono; [|exact (call_A_2loop fuel st suave12 h pkl ks parts ps ss va vb r S C1 C2 Ha Er Hb)]. cbv beta. intros h' L. split; [|exact I]. exact (leaves_vals _ _ _ _ _ _ _ _ _ _ _ Hab L).
  - destruct X as (_ & X1 & X2 & X3). eapply completes_mono; [|exact (call_B fuel st dt ptt h pkl ks parts ps ss vals S X1 X2 X3 C1 C2 C3)]. cbv beta. auto.
Qed.
Lemma completes_ends (c : call N) h sh post h' : completes c h sh post -> ends c h h' -> post h'.
Proof.
  intros (h1 & b & E & R) [n g1 g2 ps g3 E1 R1 F E3]. rewrite E1 in E. injection E as ->. destruct (R n _ R1) as (_ & _ & _ & _ & P). destruct (P F) as (h3 & E3' & P3). cbn [fst] in E3'. congruence.
Qed.
Lemma completes_exists (c : call N) h sh post : completes c h sh post -> exists h', ends c h h'.
Proof.
  intros (h1 & b & E & R). assert (X : forall k n g, reaches n (h1, threads c) g -> (b - n <= k)%nat -> exists m g', reaches m (h1, threads c) g' /\ finished g').
  { assert (ST : forall n (c0 c1 : config N) t p p' h2, reaches n c0 c1 -> nth_error (snd c1) t = Some p -> tstep p (fst c1) = Some (p', h2) -> reaches (S n) c0 (h2, upd (snd c1) t p')).
    { clear. intros n c0 c1 t p p' h2 R Hp Hs. induction R as [c1|n h ps u q q' g c1 Hq Hqs Hr IH]; [destruct c1 as [h ps]; eapply r_step; [exact Hp|exact Hs|constructor]|eapply r_step; [exact Hq|exact Hqs|apply IH; assumption]]. }
    induction k as [|k IH]; intros n g Rg Hk; destruct (R n g Rg) as (B & _ & _ & [F|(t & p & p' & h2 & Hp & Hs)] & _); eauto.
    - exfalso. pose proof (R _ _ (ST _ _ _ _ _ _ _ Rg Hp Hs)) as (B' & _). lia.
    - apply (IH _ _ (ST _ _ _ _ _ _ _ Rg Hp Hs)). lia. }
  destruct (X b 0%nat _ (r_refl _)) as (m & [g ps] & Rg & F); [lia|]. destruct (R m _ Rg) as (_ & _ & _ & _ & P). destruct (P F) as (h3 & E3 & _). exists h3. econstructor; eassumption.
Qed.
Lemma leaves_same (h h1 h2 : heap N) cells ps ss vals nk tabs n n' (ex : loc -> Prop) : (forall l, ex l -> exists x, l = Glob x) ->
  leaves h h1 cells ps ss vals nk tabs n ex -> leaves h h2 cells ps ss vals nk tabs n' ex -> forall x i, h1 (Arr x i) = h2 (Arr x i).
Proof.
  intros EX [A1 A2 A3 A4 A5] [B1 B2 B3 B4 B5] x i. 
  assert (J : forall ls xs l, stored h1 ls xs -> stored h2 ls xs -> In l ls -> h1 l = h2 l).
  { intros ls xs l S1 S2 Hl. apply In_nth_error in Hl as (j & Hj). destruct (stored_nth _ _ _ _ _ S1 Hj) as (v & V1 & ->). destruct (stored_nth _ _ _ _ _ S2 Hj) as (v' & V2 & ->). congruence. }
  assert (DEC : forall l l' : loc, {l = l'} + {l <> l'}) by (repeat decide equality).
  destruct (in_dec DEC (Arr x i) (out_cells cells nk)) as [I|I].
  - assert (I' := I). unfold out_cells in I'. rewrite !in_app_iff, in_flat_map in I'. destruct I' as [I'|[I'|(ik & I1 & I2)]]; [exact (J _ _ _ A1 B1 I')|exact (J _ _ _ A2 B2 I')|].
    apply In_indices in I1. exact (J _ _ _ (A3 ik I1) (B3 ik I1) I2).
  - assert (E : ~ ex (Arr x i)) by (intros E; destruct (EX _ E); discriminate). rewrite A5, B5; [reflexivity|exact I|intros; discriminate|exact E|exact I|intros; discriminate|exact E].
Qed.
Theorem same_arrays d h pkl dt ptt ks parts parts' ps ss vals h1 h2 : computes d pkl dt ptt ks ps ss vals ->
  starts d h pkl dt ptt ks parts -> starts d h pkl dt ptt ks parts' ->
  ends (call_of d (zlen ks) parts) h h1 -> ends (call_of d (zlen ks) parts') h h2 -> forall x i, h1 (Arr x i) = h2 (Arr x i).
Proof.
  intros C S1 S2 E1 E2. destruct (completes_ends _ _ _ _ _ (run_ok d h pkl dt ptt ks parts ps ss vals S1 C) E1) as [L1 _].
  destruct (completes_ends _ _ _ _ _ (run_ok d h pkl dt ptt ks parts' ps ss vals S2 C) E2) as [L2 _]. refine (leaves_same _ _ _ _ _ _ _ _ _ _ _ _ _ L1 L2).
  intros l Hl. destruct d; try contradiction. destruct Hl as [->| ->]; eauto.
Qed.
Lemma cells_of_arr d ik c : In c (cells_of d ik) -> exists x i, c = Arr x i /\ x <> "k".
Proof. intros Hc. destruct d; cbn in Hc; repeat destruct Hc as [<-|Hc]; try (eexists _, _; split; [reflexivity|discriminate]); destruct Hc. Qed.
Theorem again d h pkl dt ptt ks parts ps ss vals : starts d h pkl dt ptt ks parts -> computes d pkl dt ptt ks ps ss vals ->
  completes (call_of d (zlen ks) parts) h (shared_by d) (fun h' =>
    (forall t x, (t < List.length parts)%nat -> In x (tables_of d) -> h' (Priv t x) = Some VFreed) /\
    (forall t x, idle h (Priv t x) -> idle h' (Priv t x)) /\
    (forall parts', starts d h pkl dt ptt ks parts' -> starts d h' pkl dt ptt ks parts')).
Proof.
  intros S C. eapply completes_mono; [|exact (run_ok d h pkl dt ptt ks parts ps ss vals S C)]. intros h' [L XB]. cbv beta.
  assert (Id : forall t x, idle h (Priv t x) -> idle h' (Priv t x)).
  { intros t x Hi. destruct (Nat.lt_ge_cases t (List.length parts)) as [Lt|Lt]; [destruct (in_dec string_dec x (tables_of d)) as [Hx|Hx]|].
    - exists VFreed. split; [exact (l_tab _ _ _ _ _ _ _ _ _ _ L t x Lt Hx)|intros []].
    - unfold idle. rewrite (l_frame _ _ _ _ _ _ _ _ _ _ L); [exact Hi| |intros u y _ Hy E; congruence|destruct d; cbn; try (intros []; fail); intros [E|E]; discriminate].
      unfold out_cells. rewrite !in_app_iff, !In_column, in_flat_map. intros [(j & _ & E)|[(j & _ & E)|(ik & _ & Hc)]]; try discriminate. destruct (cells_of_arr d ik _ Hc) as (y & j & E & _). discriminate.
    - unfold idle. rewrite (l_frame _ _ _ _ _ _ _ _ _ _ L); [exact Hi| |intros u y Lu Hy E; injection E as -> ->; lia|destruct d; cbn; try (intros []; fail); intros [E|E]; discriminate].
      unfold out_cells. rewrite !in_app_iff, !In_column, in_flat_map. intros [(j & _ & E)|[(j & _ & E)|(ik & _ & Hc)]]; try discriminate. destruct (cells_of_arr d ik _ Hc) as (y & j & E & _). discriminate. }
  split; [exact (l_tab _ _ _ _ _ _ _ _ _ _ L)|]. split; [exact Id|].
  assert (Gl : forall x, ~ shared_by d (Glob x) -> h' (Glob x) = h (Glob x)).
  { intros x Hx. apply (l_frame _ _ _ _ _ _ _ _ _ _ L); [|intros; discriminate|exact Hx].
    unfold out_cells. rewrite !in_app_iff, !In_column, in_flat_map. intros [(j & _ & E)|[(j & _ & E)|(ik & _ & Hc)]]; try discriminate. destruct (cells_of_arr d ik _ Hc) as (y & j & E & _). discriminate. }
  intros parts' [(M & D & MK) X]. split; [split; [|split; [exact D|exact MK]]|].
  - destruct M as [M1 M2 M3 M4]. constructor.
    + unfold pk_lin. rewrite Gl; [exact M1|]. destruct d; cbn; try (intros []; fail); intros [E|E]; discriminate.
    + apply (stored_ext h); [|exact M2]. intros l Hl. apply In_column in Hl as (j & Hj & ->). apply (l_frame _ _ _ _ _ _ _ _ _ _ L); [|intros; discriminate|destruct d; cbn; try (intros []; fail); intros [E|E]; discriminate].
      unfold out_cells. rewrite !in_app_iff, !In_column, in_flat_map. intros [(i & _ & E)|[(i & _ & E)|(ik & _ & Hc)]]; try discriminate. destruct (cells_of_arr d ik _ Hc) as (y & i & E & Ny). congruence.
    + intros l Hl. unfold out_cells in Hl. rewrite !in_app_iff, in_flat_map in Hl. destruct Hl as [Hl|[Hl|(ik & H1 & H2)]].
      * exact (stored_present _ _ _ _ (l_lin _ _ _ _ _ _ _ _ _ _ L) Hl).
      * exact (stored_present _ _ _ _ (l_sig _ _ _ _ _ _ _ _ _ _ L) Hl).
      * apply In_indices in H1. exact (stored_present _ _ _ _ (l_rows _ _ _ _ _ _ _ _ _ _ L ik H1) H2).
    + intros t x Lt Hx. apply Id. exact (M4 t x Lt Hx).
  - destruct d; try exact X. destruct X as (X0 & X1 & X2 & X3). rewrite !Gl by (intros [E|E]; discriminate). split; [exact X0|]. split; [exact X1|]. split; [exact X2|].
    destruct S as (_ & P0 & _). destruct (XB P0) as [B1 B2]. intros l [->| ->]; congruence.
Qed.
(** With cubic interpolation every value exists. *)
Lemma take_ok (l : list (T N)) n : List.length l = n -> exists v, take n l = Ok v.
Proof. intros <-. unfold take. rewrite Nat.leb_refl. eauto. Qed.
Lemma sum_A_ok (l : list (T N)) : List.length l = 12%nat -> exists v, sum_A l = Ok v /\ List.length v = 5%nat.
Proof. intros H. do 12 (destruct l as [|? l]; [discriminate|]). destruct l; [|discriminate]. eexists. split; reflexivity. Qed.
Lemma sum_B_ok (l : list (T N)) : List.length l = 12%nat -> exists v, sum_B l = Ok v.
Proof. intros H. do 12 (destruct l as [|? l]; [discriminate|]). destruct l; [|discriminate]. eexists. reflexivity. Qed.
Lemma value_exists d h pkl dt ptt ks parts k : all_cubic st -> suave_ok suave1 suave12 -> lin_table pkl -> (d = D_B -> lin_table dt /\ lin_table ptt) ->
  starts d h pkl dt ptt ks parts -> exists v, value_of d pkl dt ptt k = Ok v.
Proof.
  intros [Q1 Q2] [Su1 Su2] HT HB [(_ & _ & MQ & MM) X].
  assert (TQ : forall x, In x (q_tables_of d) -> exists g, new_q fuel st pkl x = Ok g /\ q_ok g /\ table_ok g).
  { intros x Hx. destruct (MQ x Hx) as (R & g & E). exists g. split; [exact E|]. exact (init_q_tables fuel _ pkl g R E). }
  assert (TM : forall x, In x (mu_tables_of d) -> exists m, new_mu fuel st x = Ok m /\ mu_ok m).
  { intros x Hx. destruct (MM x Hx) as (R & m & E). exists m. split; [exact E|]. exact (init_mu_tables fuel _ m R E). }
  clear MQ MM. destruct d as [a b|a b| | | | ]; cbn [SpecThreads.value_of q_tables_of mu_tables_of] in *.
  - destruct (TQ "gamma1_1loop_q") as (g1 & E1 & G1 & _); [cbn; auto|]. destruct (TQ "gamma2_tree_q") as (g & E & G & _); [cbn; auto|]. destruct (TM "gamma2_tree_mu") as (m & Em & M); [cbn; auto|].
    unfold value_1loop, im_of. rewrite E1, E, Em, Q1. cbn [bind]. destruct (gamma1_1loop_ok g1 a k G1) as (va & ua & -> & _). cbn [bind]. destruct (gamma1_1loop_ok g1 b k G1) as (vb & ub & -> & _). cbn [bind].
    destruct (calc_gamma2_tree_ok pkl g m a b k HT G M) as (v & u & w & -> & L & _). cbn [bind]. destruct (take_ok v 1 L) as (v' & ->). cbn [bind]. eauto.
  - destruct (TQ "gamma1_1loop_q") as (g1 & E1 & G1 & _); [cbn; auto|]. destruct (TQ "gamma1_2loop_q") as (g2 & E2 & G2 & _); [cbn; auto|]. destruct (TQ "gamma2_tree_q") as (g & E & G & _); [cbn; auto|]. destruct (TM "gamma2_tree_mu") as (m & Em & M); [cbn; auto|].
    destruct (TQ "gamma2d_1loop_q") as (gd & Ed & _ & Gd); [cbn; auto|]. destruct (TQ "gamma2t_1loop_q") as (gth & Et & _ & Gt); [cbn; tauto|].
    unfold value_2loop, value_gamma3, im_of. rewrite E1, E2, E, Em, Ed, Et, !Q1. cbn [bind]. destruct (calc_gamma1_ok g1 g2 a b k G1 G2) as ([[[v1 v2] v3] v4] & u1 & u2 & -> & _). cbn [bind].
    destruct (calc_gamma2_1loop_ok pkl g m gd gth a b k HT G M Gd Gt) as (v & u & w & -> & L & _). cbn [bind]. destruct (take_ok v 3 L) as (v' & ->). cbn [bind].
    destruct X as [[qmin qmax] ->]. cbn [bind]. unfold calc_pk_gamma3_tree.
    destruct (Su1 (kernel_pk_gamma3_tree pkl POLY qmin qmax (nlog qmin) (nlog qmax) k a b)) as (i & ->); [|cbn [bind]; eauto]. intros xx Hx. exact (gamma3_ok pkl _ _ _ _ k a b xx HT Hx).
  - destruct (TQ "bias_1loop_q") as (g & E & G & _); [cbn; auto|]. destruct (TM "bias_1loop_mu") as (m & Em & M); [cbn; auto|].
    unfold value_bias, im_of. rewrite E, Em, Q1. cbn [bind].
    do 8 (match goal with |- context[calc_pk_bias_1loop ?p ?i ?g ?m ?a ?k ?kr ?h] => let v := fresh in destruct (calc_bias_ok p g m a k kr h HT G M) as (v & ? & ? & -> & _) end; cbn [bind]). eauto.
  - destruct (TQ "A_1loop_q") as (g & E & G & _); [cbn; auto|]. destruct (TM "A_1loop_mu") as (m & Em & M); [cbn; auto|].
    unfold value_A_1loop, im_of. rewrite E, Em, !Q1. cbn [bind]. destruct (calc_A_1loop_ok pkl g m k HT G M) as (v & u & w & -> & L & _). cbn [bind]. exact (take_ok v 5 L).
  - destruct (TQ "A_2loop_I_q") as (g & E & G & _); [cbn; auto|]. destruct (TM "A_2loop_I_mu") as (m & Em & M); [cbn; auto|]. destruct (TQ "gamma1_1loop_q") as (g1 & E1 & G1 & _); [cbn; auto|].
    destruct (TQ "gamma2d_1loop_q") as (gd & Ed & _ & Gd); [cbn; auto|]. destruct (TQ "gamma2t_1loop_q") as (gth & Et & _ & Gt); [cbn; tauto|].
    unfold value_A_2loop, value_A_II_III. rewrite E, Em, E1, Ed, Et, !Q2. cbn [bind].
    destruct (calc_A_2loop_I_ok pkl (s_cutoff st "set_running_uvcutoff_bispectrum_1loop") g m g1 gd gth k HT G M G1 Gd Gt) as (v & u & w & -> & L & _). cbn [bind].
    destruct (sum_A_ok v L) as (v' & -> & _). cbn [bind]. destruct X as [[qmin qmax] ->]. cbn [bind]. unfold calc_pk_A_2loop_II_III.
    match goal with |- context[suave12 ?f] => destruct (Su2 f) as (i & -> & Li) end; [intros xx Hx; exact (A_II_III_ok pkl _ _ _ k xx HT Hx)|]. cbn [bind].
    match goal with |- context[sum_A ?l] => destruct (sum_A_ok l) as (v2 & -> & _); [rewrite map_length; exact Li|] end. cbn [bind]. eauto.
  - destruct (HB eq_refl) as [H1 H2]. destruct (TQ "B_q") as (g & E & G & _); [cbn; auto|]. destruct (TM "B_mu") as (m & Em & M); [cbn; auto|].
    unfold value_B, im_of. rewrite E, Em, Q1. cbn [bind]. destruct (calc_B_ok dt ptt g m k H1 H2 G M) as (v & u & w & -> & L & _). cbn [bind]. exact (sum_B_ok v L).
Qed.
Theorem computes_exists d h pkl dt ptt ks parts : all_cubic st -> suave_ok suave1 suave12 -> lin_table pkl -> (d = D_B -> lin_table dt /\ lin_table ptt) ->
  starts d h pkl dt ptt ks parts -> exists ps ss vals, computes d pkl dt ptt ks ps ss vals.
Proof.
  intros Q Su HT HB S. destruct HT as (T1 & T2 & T3).
  assert (F : exists ps, find_pk pkl ks POLY = Ok ps).
  { destruct pkl as [n K P]. cbn [pk_k pk_p pk_n] in *. subst n. destruct (poly_lookup_safe K P ks T1 T2) as (ps & E & _). eauto. }
  destruct F as [ps F]. destruct (sig_loop_ok pkl (s_cutoff st (cutoff_of d)) ks (conj T1 (conj T2 T3)) 0%Z (nZ N 0)) as (ss & E & _); [lia|].
  exists ps, ss, (fun ik => match value_of d pkl dt ptt (k_ ks ik) with Ok v => v | _ => [] end). split; [|split].
  - rewrite (proj2 Q). exact F.
  - exact E.
  - intros ik _. destruct (value_exists d h pkl dt ptt ks parts (k_ ks ik) Q Su (conj T1 (conj T2 T3)) HB S) as (v & ->). reflexivity.
Qed.
End Drivers.
