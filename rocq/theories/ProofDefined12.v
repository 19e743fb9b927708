(** ProofDefined12: where the numbers of the code have no value; examples. *)
From Coq Require Import ZArith Lia List Reals Lra String Bool.
From Verif Require Import Base Num BaseFacts Spec Common Kernels GExpr Gamma2dSrc Gamma2tSrc Gamma2 Integrals Registry Threads SpecDefined SpecThreads SpecLoops SpecScratch ProofSearch ProofKernels ProofGamma2 ProofGL ProofGL2
  ProofFindPkR ProofCommon2 ProofThreads8 ProofProcess30 ProofDefined ProofDefined2 ProofDefined3 ProofDefined4 ProofDefined5 ProofDefined6 ProofDefined11.
Import ListNotations.
Local Open Scope R_scope.

(** ** A division by zero in a sum of products has no value *)
Fixpoint divides_by (den x : gexpr) : bool :=
  match x with
  | GNeg a => divides_by den a
  | GAdd a b | GSub a b | GMul a b => divides_by den a || divides_by den b
  | GDiv a b => geqb b den || divides_by den a
  | _ => false
  end.
Lemma divides_O d ev env den x : env_isO d ev env -> (forall v, d v = true -> zlen (env v) = NPOWERS) ->
  gok d den = true -> Forall (chold ev) (gconds den) -> gden ev den = 0 ->
  gok d x = true -> divides_by den x = true -> geval (N := ONum) env x = Ok None.
Proof.
  intros Hd Hz Gd Cd Zd. induction x; cbn [gok divides_by geval]; intros G H; try discriminate.
  - rewrite (IHx G H). reflexivity.
  - apply andb_prop in G. destruct G as [G1 G2]. destruct (geval_ok (N := ONum) d env x1 Hz G1) as [r1 E1], (geval_ok (N := ONum) d env x2 Hz G2) as [r2 E2].
    apply orb_prop in H. destruct H as [H|H]; [rewrite (IHx1 G1 H), E2; reflexivity|rewrite E1, (IHx2 G2 H); cbn [bind]; destruct r1; reflexivity].
  - apply andb_prop in G. destruct G as [G1 G2]. destruct (geval_ok (N := ONum) d env x1 Hz G1) as [r1 E1], (geval_ok (N := ONum) d env x2 Hz G2) as [r2 E2].
    apply orb_prop in H. destruct H as [H|H]; [rewrite (IHx1 G1 H), E2; reflexivity|rewrite E1, (IHx2 G2 H); cbn [bind]; destruct r1; reflexivity].
  - apply andb_prop in G. destruct G as [G1 G2]. destruct (geval_ok (N := ONum) d env x1 Hz G1) as [r1 E1], (geval_ok (N := ONum) d env x2 Hz G2) as [r2 E2].
    apply orb_prop in H. destruct H as [H|H]; [rewrite (IHx1 G1 H), E2; reflexivity|rewrite E1, (IHx2 G2 H); cbn [bind]; destruct r1; reflexivity].
  - apply andb_prop in G. destruct G as [G1 G2]. destruct (geval_ok (N := ONum) d env x1 Hz G1) as [r1 E1], (geval_ok (N := ONum) d env x2 Hz G2) as [r2 E2].
    apply orb_prop in H. destruct H as [H|H]; [|rewrite (IHx1 G1 H), E2; reflexivity].
    apply geqb_eq in H. subst x2. rewrite E1, (geval_O d ev env den Hd Gd Cd), Zd. cbn [bind]. on. unfold odiv. destruct r1; [|reflexivity]. destruct (Req_EM_T 0 0); [reflexivity|lra].
Qed.
(** ** Collinear wavenumbers *)
Lemma branch_1432 : g2_branch (N := RNum) 1 4 3 2 = BExact.
Proof.
  unfold g2_branch, nmin3, nmax3, nmin, nmax. rn. lits.
  replace (1 / 2 - 1) with (- (1 / 2)) by lra. replace (4 / 2 - 1) with 1 by lra. replace (3 / 2 - 1) with (1 / 2) by lra. replace (4 / 1 - 1) with 3 by lra.
  rewrite Rabs_Ropp. rewrite !(Rabs_pos_eq (1 / 2)) by lra. rewrite !(Rabs_pos_eq 1) by lra. rewrite !(Rabs_pos_eq 3) by lra.
  repeat (match goal with |- context[Rltb ?a ?b] => lazymatch a with context[Rltb] => fail | _ => lazymatch b with context[Rltb] => fail | _ => destruct (Rltb_spec a b); try (exfalso; lra) end end end; cbn [orb andb]); try reflexivity.
Qed.
Definition den_sqrt (m : Z) : gexpr :=
  (GMul (GMul (GMul (GMul (GLit m 0) (GIdx gk1 2)) (GIdx gk2 2)) (GIdx gq 5))
    (GSqrt (GAdd (GSub (GMul (GIdx gk1 2) (GIdx gk2 2)) (GMul (GSub (GAdd (GIdx gk1 2) (GIdx gk2 2)) (GIdx gk3 2)) (GIdx gq 2))) (GIdx gq 4)))).
Lemma den_1432 m : gden (ev4 1 4 3 2) (den_sqrt m) = 0 /\ Forall (chold (ev4 1 4 3 2)) (gconds (den_sqrt m)).
Proof.
  assert (E : gden (ev4 1 4 3 2) (GAdd (GSub (GMul (GIdx gk1 2) (GIdx gk2 2)) (GMul (GSub (GAdd (GIdx gk1 2) (GIdx gk2 2)) (GIdx gk3 2)) (GIdx gq 2))) (GIdx gq 4)) = 0).
  { cbn [gden ev4]. change (Z.to_nat 2) with 2%nat. change (Z.to_nat 4) with 4%nat. lra. }
  unfold den_sqrt. split; [cbn [gden] in *; rewrite E, sqrt_0; ring|]. apply Forall_cons; [cbn [chold]; rewrite E; lra|apply Forall_nil].
Qed.
Lemma env_lengths k1 k2 k3 q env : env4 (N := ONum) k1 k2 k3 q = Ok env -> forall v, d4 v = true -> zlen (env v) = NPOWERS.
Proof.
  unfold env4. intros E v Hv. destruct (env4_ok (N := ONum) k1 k2 k3 q) as (e & E' & HE). unfold env4 in E'. rewrite E in E'. injection E' as <-. apply HE, Hv.
Qed.
Lemma collinear_none a : kernel_gamma2 (N := ONum) a (Some 1) (Some 4) (Some 3) (Some 2) = Ok None.
Proof.
  unfold kernel_gamma2. rewrite branch_O by lra. rewrite branch_1432. cbn [g2_call]. unfold kernel_plain.
  destruct (env4_O 1 4 3 2) as (env & E & HE). rewrite E. cbn [bind].
  apply (divides_O d4 (ev4 1 4 3 2) env (den_sqrt (match a with DELTA => 4312 | THETA => 1078 end))); try apply den_1432; try assumption.
  - apply (env_lengths _ _ _ _ _ E).
  - destruct a; vm_compute; reflexivity.
  - destruct a; vm_compute; reflexivity.
  - destruct a; vm_compute; reflexivity.
Qed.
(** ** Two points: the slope is 0 / 0 *)
Lemma two_none k0 k1 p0 p1 k im : k < k0 < k1 \/ k0 < k1 < k -> find_pk (N := ONum) (opk (mk_table (N := RNum) [k0; k1] [p0; p1])) [Some k] im = Ok [None].
Proof.
  intros H. set (tb := opk _). change (bind (find_pk_step (N := ONum) tb im 1 (Some k0) (Some k1) 0 (Some k)) (fun r => let '(p, _) := r in Ok [p]) = Ok [None]).
  unfold find_pk_step. on. assert (Z0 : forall z, odiv z (Some 0) = None). { intros [z|]; [|reflexivity]. unfold odiv. destruct (Req_EM_T 0 0); [reflexivity|lra]. }
  assert (PN : forall z, opow z None = None) by (intros [z|]; reflexivity). assert (MN : forall z, lift2 Rmult z None = None) by (intros [z|]; reflexivity).
  destruct H as [H|H].
  - rewrite (proj2 (Rltb_false _ _)) by lra. rewrite (proj2 (Rltb_true _ _)) by lra.
    assert (E : extrapol_pk_lowk (N := ONum) tb (Some k) = Ok None).
    { change (extrapol_pk_lowk (N := ONum) tb (Some k)) with (Ok (lift2 Rmult (Some p1) (opow (odiv (Some k) (Some k1)) (odiv (Some 0) (Some 0))))). rewrite Z0, PN, MN. reflexivity. }
    rewrite E. reflexivity.
  - rewrite (proj2 (Rltb_true _ _)) by lra.
    assert (E : extrapol_pk_highk (N := ONum) tb (Some k) = Ok None).
    { change (extrapol_pk_highk (N := ONum) tb (Some k)) with (Ok (lift2 Rmult (Some p1) (opow (odiv (Some k) (Some k1)) (odiv (Some 0) (Some 0))))). rewrite Z0, PN, MN. reflexivity. }
    rewrite E. reflexivity.
Qed.
(** ** Examples *)
Definition pk_three : Pk RNum := mk_table (N := RNum) [1; 2; 3] [5; 6; 4].
Lemma three_good : good_table pk_three.
Proof.
  split. exists [1; 2; 3], [5; 6; 4]. split; [reflexivity|]. split; [reflexivity|]. split; [cbn; lia|]. split.
  - intros i j Hij. cbn [List.length] in Hij. destruct i as [|[|[|i]]], j as [|[|[|j]]]; try lia; cbn; lra.
  - intros x [<-|[<-|[<-|[]]]]; lra.
Qed.
Lemma st_rule x : rule_ok (s_prec st_ex x).
Proof. unfold rule_ok. cbn. lia. Qed.
Definition osuave1_ex (f : list (option R) -> res (option R)) : res (option R) := f [Some 0; Some 0; Some 0; Some 0; Some 0].
Definition osuave12_ex (f : list (option R) -> res (list (option R))) : res (list (option R)) := f [Some 0; Some 0; Some 0; Some 0; Some 0].
Lemma cube_0 : cube [0; 0; 0; 0; 0].
Proof. intros x Hx. cbn in Hx. assert (x = 0) by intuition congruence. subst. lra. Qed.
Lemma suave1_lifts_ex : suave1_lifts suave1_ex osuave1_ex.
Proof. intros f f' H. apply (H [0; 0; 0; 0; 0] cube_0). Qed.
Lemma suave12_lifts_ex : suave12_lifts suave12_ex osuave12_ex.
Proof. intros f f' H. apply (H [0; 0; 0; 0; 0] cube_0). Qed.
Lemma three_computes d : exists ps ss vals, computes 2 st_ex suave1_ex suave12_ex d pk_three pk_three pk_three ks_ex ps ss vals.
Proof.
  assert (L : lin_table pk_three) by (repeat split; cbn; lia).
  apply (values_at st_ex [1; 2; 3] [5; 6; 4] L); [|intros _; split; exact L].
  split; [split; reflexivity|intros; reflexivity|intros; reflexivity].
Qed.
Lemma kernel_gamma2_val a k1 k2 k3 q : 0 < k1 -> 0 < k2 -> 0 < k3 -> 0 < q -> strict k1 k2 k3 ->
  exists v, kernel_gamma2 (N := ONum) a (Some k1) (Some k2) (Some k3) (Some q) = Ok (Some v) /\ kernel_gamma2 (N := RNum) a k1 k2 k3 q = Ok v.
Proof.
  intros P1 P2 P3 Pq Ht. rewrite kernel_gamma2_O by assumption. unfold kernel_gamma2 at 1 2. rewrite g2_call_val by lra. eexists. split; reflexivity.
Qed.
Lemma lookup_defined pk ks im : good_table pk -> (forall k, In k ks -> 0 < k) -> find_pk (N := ONum) (opk pk) (os ks) im = res_map os (find_pk (N := RNum) pk ks im).
Proof. intros [(K & P & -> & HL & HN & HI & HK)] H. apply find_pk_O; assumption. Qed.
Lemma variance_defined pk ks uvcutoff : good_table pk -> calc_running_sigmad2 (N := ONum) (opk pk) (os ks) (Some uvcutoff) = res_map os (calc_running_sigmad2 (N := RNum) pk ks uvcutoff).
Proof. intros [(K & P & -> & HL & HN & HI & HK)]. apply calc_running_sigmad2_O; assumption. Qed.
Lemma lookup_three : exists ps, find_pk (N := ONum) (opk pk_three) (os [1 / 2; 3 / 2; 5]) POLY = Ok (os ps).
Proof.
  rewrite lookup_defined; [|exact three_good|intros k [<-|[<-|[<-|[]]]]; lra].
  destruct (poly_lookup_safe (N := RNum) [1; 2; 3] [5; 6; 4] [1 / 2; 3 / 2; 5]) as (v & E & _); [reflexivity|cbn; lia|]. unfold pk_three. rewrite E. exists v. reflexivity.
Qed.
Lemma runs_defined fuel st suave1 suave1' suave12 suave12' d pkl dt ptt ks ps ss vals :
  good_table pkl -> good_table dt -> good_table ptt -> (forall k, In k ks -> 0 < k) ->
  (forall x, In x (tables_of d) -> rule_ok (s_prec st x)) -> suave1_lifts suave1 suave1' -> suave12_lifts suave12 suave12' ->
  computes (N := RNum) fuel st suave1 suave12 d pkl dt ptt ks ps ss vals ->
  computes (N := ONum) fuel (oset st) suave1' suave12' d (opk pkl) (opk dt) (opk ptt) (os ks) (os ps) (os ss) (fun ik => os (vals ik)).
Proof. intros. eapply computes_O; eassumption. Qed.
Lemma runs_three d : exists ps ss vals, computes (N := ONum) 2 (oset st_ex) osuave1_ex osuave12_ex d (opk pk_three) (opk pk_three) (opk pk_three) (os ks_ex) (os ps) (os ss) (fun ik => os (vals ik)).
Proof.
  destruct (three_computes d) as (ps & ss & vals & C). exists ps, ss, vals. apply (runs_defined 2 st_ex suave1_ex osuave1_ex suave12_ex osuave12_ex d); try exact three_good; try assumption.
  - intros k [<-|[<-|[<-|[]]]]; lra.
  - intros x _. apply st_rule.
  - exact suave1_lifts_ex.
  - exact suave12_lifts_ex.
Qed.
Lemma ln_pos4 : 0 < ln (4 / 1).
Proof. rewrite <- ln_1. apply ln_increasing; lra. Qed.
Lemma zero_none im : find_pk (N := ONum) (opk (mk_table (N := RNum) [1; 2; 4] [4; 2; 1])) [Some 0] im = Ok [None].
Proof.
  set (tb := opk _). change (bind (find_pk_step (N := ONum) tb im 2 (Some 1) (Some 4) 0 (Some 0)) (fun r => let '(p, _) := r in Ok [p]) = Ok [None]).
  unfold find_pk_step. on. rewrite (proj2 (Rltb_false _ _)) by lra. rewrite (proj2 (Rltb_true _ _)) by lra.
  assert (E : extrapol_pk_lowk (N := ONum) tb (Some 0) = Ok None); [|rewrite E; reflexivity].
  unfold extrapol_pk_lowk. change (u64 (zmin 15 (pk_n tb - 1))) with 2%Z. 
  assert (S : sum_slopes (N := ONum) tb 1 2 = Ok (inl (Some (ln (1 / 4) / ln (4 / 1))))).
  { unfold sum_slopes, for_brk. change (Z.to_nat (2 - 1)) with 1%nat. cbn [loop_brk].
    change (rd (pk_p tb) (1 + 1)) with (@Ok (option R) (Some 1)). change (rd (pk_p tb) (u64 (1 - 1))) with (@Ok (option R) (Some 4)).
    change (rd (pk_k tb) (1 + 1)) with (@Ok (option R) (Some 4)). change (rd (pk_k tb) (u64 (1 - 1))) with (@Ok (option R) (Some 1)). cbn [bind]. on.
    rewrite !(proj2 (Rleb_false _ _)) by lra. cbn [orb]. rewrite !odiv_some by lra. rewrite !olog_some by lra.
    rewrite odiv_some by (apply Rgt_not_eq, ln_pos4). on. rewrite Rplus_0_l. reflexivity. }
  rewrite S. cbn [bind]. change (rd (pk_p tb) 1) with (@Ok (option R) (Some 2)). change (rd (pk_k tb) 1) with (@Ok (option R) (Some 2)). cbn [bind]. on.
  change (IZR (u64 (2 - 1))) with 1. rewrite !odiv_some by lra. unfold opow. replace (0 / 2) with 0 by lra.
  destruct (Rlt_dec 0 0) as [H|_]; [lra|]. destruct (Req_EM_T 0 0) as [_|H]; [|lra].
  assert (H : ln (1 / 4) / ln (4 / 1) / 1 < 0).
  { pose proof ln_pos4. replace (1 / 4) with (/ (4 / 1)) by field. rewrite ln_Rinv by lra. replace (- ln (4 / 1) / ln (4 / 1) / 1) with (-1) by (field; lra). lra. }
  destruct (Rle_dec 0 _) as [H'|_]; [lra|]. reflexivity.
Qed.
