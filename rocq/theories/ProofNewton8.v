(** ProofNewton8: tables are made and runs end, whatever the settings. *)
From Coq Require Import ZArith Reals Lra Lia List Bool String.
From Verif Require Import Base Num BaseFacts Common Kernels Gamma2 Integrals Registry Threads Spec SpecScratch SpecThreads SpecDefined
  ProofSearch ProofFindPk ProofGL ProofGL2 ProofCommon2 ProofCommon3 ProofNewton5 ProofDefined4 ProofThreads7 ProofThreads8.
Import ListNotations.
Local Open Scope R_scope.

Lemma gl_defined fuel xmin xmax (x w : list R) n : (1 <= n < 2 ^ 62)%Z -> (7 <= fuel)%nat -> zlen x = n -> zlen w = n ->
  exists x' w', nodes_weights_gauss_legendre (N := ONum) fuel (Some xmin) (Some xmax) (os x) (os w) n = Ok (os x', os w').
Proof.
  intros Hn Hf Hx Hw. destruct (gl_ends fuel xmin xmax x w n Hn Hf Hx Hw) as (x' & w' & E). exists x', w'.
  rewrite gl_O by exact Hn. rewrite E. reflexivity.
Qed.
Lemma table_eta (pkl : Pk RNum) : lin_table pkl -> exists K P : list R, pkl = mk_table (N := RNum) K P /\ List.length P = List.length K /\ (2 <= zlen K < 2 ^ 62)%Z.
Proof. intros (H1 & H2 & H3). exists (pk_k pkl), (pk_p pkl). split; [|split; assumption]. destruct pkl as [n K P]. cbn in *. subst. reflexivity. Qed.
Lemma range_total (p : precision RNum) pkl : lin_table pkl -> exists r, q_range (N := RNum) p pkl = Ok r.
Proof. intros H. destruct (table_eta pkl H) as (K & P & -> & _ & B). rewrite (q_range_val p K P (nZ RNum 0)) by (change (T RNum) with R; lia). eexists. reflexivity. Qed.
Lemma init_q_total fuel (p : precision RNum) pkl : (1 <= pr_n p < 2 ^ 62)%Z -> (7 <= fuel)%nat -> pr_interpol p = POLY -> lin_table pkl ->
  exists g, init_gauss_legendre_q (N := RNum) fuel p pkl = Ok g.
Proof.
  intros Hn Hf Hi HT. unfold init_gauss_legendre_q. destruct (range_total p pkl HT) as ([qmin qmax] & ->). cbn [bind].
  set (z := repeat (nZ RNum 0) (Z.to_nat (pr_n p))). assert (Hz : zlen z = pr_n p) by (unfold z; apply zlen_repeat; lia).
  destruct (gl_ends fuel (ln qmin) (ln qmax) z z (pr_n p) Hn Hf Hz Hz) as (x & w & E).
  destruct (gl_safe (N := RNum) fuel (ln qmin) (ln qmax) z z (pr_n p) ltac:(lia) Hz Hz) as [(x1 & w1 & E1 & Hx & Hw)|E1]; [|rewrite E in E1; discriminate].
  change (nlog (n := RNum)) with ln. rewrite E1. cbn [bind].
  pose (P := fun (j : Z) (s : list R * list R) => zlen (fst s) = pr_n p /\ zlen (snd s) = pr_n p).
  for_with P; [lia| | |destruct HF as [[x' q] [E' _]]].
  - split; assumption.
  - intros j [a q] Hj [H1 H2]. cbn [fst snd] in *. change (T RNum) with R in *. rewrite (rd_ok (A := R) 0) by lia. cbn [bind]. rewrite wr_ok by lia. cbn [bind].
    rewrite (rd_ok (A := R) 0) by (rewrite zlen_upd; lia). cbn [bind]. rewrite wr_ok by lia. eexists; split; [reflexivity|]. unfold P. cbn [fst snd]. rewrite !zlen_upd. split; assumption.
  - rewrite E'. cbn [bind]. rewrite Hi. destruct (table_eta pkl HT) as (K & Pv & -> & L & B).
    destruct (poly_lookup_safe (N := RNum) K Pv q L B) as (v & -> & _). cbn [bind]. eexists. reflexivity.
Qed.
Lemma init_mu_total fuel (p : precision RNum) : (1 <= pr_n p < 2 ^ 62)%Z -> (7 <= fuel)%nat -> exists m, init_gauss_legendre_mu (N := RNum) fuel p = Ok m.
Proof.
  intros Hn Hf. unfold init_gauss_legendre_mu.
  set (z := repeat (nZ RNum 0) (Z.to_nat (pr_n p))). assert (Hz : zlen z = pr_n p) by (unfold z; apply zlen_repeat; lia).
  destruct (gl_ends fuel (- (1)) 1 z z (pr_n p) Hn Hf Hz Hz) as (x & w & E).
  destruct (gl_safe (N := RNum) fuel (- (1)) 1 z z (pr_n p) ltac:(lia) Hz Hz) as [(x1 & w1 & E1 & Hx & Hw)|E1]; [|rewrite E in E1; discriminate].
  change (nopp RNum (nZ RNum 1)) with (- (1)). change (nZ RNum 1) with 1. rewrite E1. cbn [bind].
  pose (P := fun (j : Z) (s : list R * list R) => zlen (fst s) = pr_n p /\ zlen (snd s) = pr_n p).
  for_with P; [lia| | |destruct HF as [[x' q] [E' _]]].
  - split; assumption.
  - intros j [a q] Hj [H1 H2]. cbn [fst snd] in *. change (T RNum) with R in *. rewrite (rd_ok (A := R) 0) by lia. cbn [bind]. rewrite wr_ok by lia. cbn [bind].
    rewrite (rd_ok (A := R) 0) by lia. cbn [bind]. rewrite wr_ok by lia. eexists; split; [reflexivity|]. unfold P. cbn [fst snd]. rewrite !zlen_upd. split; assumption.
  - rewrite E'. cbn [bind]. eexists. reflexivity.
Qed.
Lemma makes_all fuel (st : settings RNum) pkl qs mus : (7 <= fuel)%nat -> all_cubic st -> lin_table pkl ->
  (forall x, In x (qs ++ mus) -> rule_ok (s_prec st x)) -> makes fuel st pkl qs mus.
Proof.
  intros Hf [HC _] HT HN. split; intros x Hx; assert (H : rule_ok (s_prec st x)) by (apply HN, in_or_app; auto); unfold rule_ok in H; (split; [lia|]).
  - apply init_q_total; auto.
  - apply init_mu_total; auto.
Qed.
(** The memory a run needs, besides the tables *)
Lemma starts_all fuel (st : settings RNum) d h pkl dt ptt ks parts : (7 <= fuel)%nat -> all_cubic st -> lin_table pkl ->
  (forall x, In x (tables_of d) -> rule_ok (s_prec st x)) ->
  machine h pkl ks (out_cells (cells_of d) (zlen ks)) (tables_of d) (List.length parts) -> distributes parts (zlen ks) ->
  (d = D_B -> parts <> [] /\ h (Glob "pk_dt") = Some (VPk dt) /\ h (Glob "pk_tt") = Some (VPk ptt) /\ forall l, statics_B l -> h l <> None) ->
  starts fuel st d h pkl dt ptt ks parts.
Proof.
  intros Hf HC HT HN HM HD HB. split.
  - split; [exact HM|]. split; [exact HD|]. apply makes_all; assumption.
  - destruct d; try exact I; try (apply range_total; exact HT). exact (HB eq_refl).
Qed.
Lemma run_total fuel (st : settings RNum) suave1 suave12 d h pkl dt ptt ks parts : (7 <= fuel)%nat -> all_cubic st -> suave_ok suave1 suave12 -> lin_table pkl ->
  (forall x, In x (tables_of d) -> rule_ok (s_prec st x)) ->
  machine h pkl ks (out_cells (cells_of d) (zlen ks)) (tables_of d) (List.length parts) -> distributes parts (zlen ks) ->
  (d = D_B -> lin_table dt /\ lin_table ptt /\ parts <> [] /\ h (Glob "pk_dt") = Some (VPk dt) /\ h (Glob "pk_tt") = Some (VPk ptt) /\ forall l, statics_B l -> h l <> None) ->
  exists ps ss vals, computes fuel st suave1 suave12 d pkl dt ptt ks ps ss vals /\
    completes (call_of fuel st suave1 suave12 d (zlen ks) parts) h (shared_by d)
      (fun h' => leaves h h' (cells_of d) ps ss vals (zlen ks) (tables_of d) (List.length parts) (shared_by d)).
Proof.
  intros Hf HC HS HT HN HM HD HB. assert (ST : starts fuel st d h pkl dt ptt ks parts) by (apply starts_all; auto; intros Hd; destruct (HB Hd); tauto).
  destruct (computes_exists fuel st suave1 suave12 d h pkl dt ptt ks parts HC HS HT ltac:(intros Hd; destruct (HB Hd); tauto) ST) as (ps & ss & vals & C).
  exists ps, ss, vals. split; [exact C|]. destruct (run_ok fuel st suave1 suave12 d h pkl dt ptt ks parts ps ss vals ST C) as (h1 & bound & E & H).
  exists h1, bound. split; [exact E|]. intros n g Hg. destruct (H n g Hg) as (A1 & A2 & A3 & A4 & A5). repeat (split; [assumption|]).
  intros Hfin. destruct (A5 Hfin) as (h3 & R1 & R2 & _). exists h3. split; assumption.
Qed.
(** Settings with [n] nodes in every table *)
Definition st_n (n : Z) : settings RNum := mkSet (fun _ => mkPrec (N := RNum) n 1 2 POLY) (fun _ => POLY) (fun _ => 1).
Lemma total_ex n d : (1 <= n < 2 ^ 62)%Z -> all_cubic (st_n n) /\ suave_ok (N := RNum) suave1_ex suave12_ex /\ lin_table pk_ex /\ (forall x, rule_ok (s_prec (st_n n) x)) /\
  machine h_ex pk_ex ks_ex (out_cells (cells_of d) (zlen ks_ex)) (tables_of d) 2 /\ distributes [[0; 1]; [2]]%Z (zlen ks_ex) /\
  (d = D_B -> h_ex (Glob "pk_dt") = Some (VPk pk_ex) /\ h_ex (Glob "pk_tt") = Some (VPk pk_ex) /\ forall l, statics_B l -> h_ex l <> None).
Proof.
  intros Hn. split; [split; reflexivity|]. split; [exact suave_ex|]. split; [repeat split; cbn; lia|]. split; [intros x; exact Hn|].
  destruct (starts_ex d) as [(M & D & _) X]. split; [exact M|]. split; [exact D|]. intros ->. exact (proj2 X).
Qed.
