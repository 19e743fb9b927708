(** ProofColumns4: runs, and settings which meet the hypotheses. *)
From Coq Require Import ZArith Reals Lra Lia List Bool String.
From Verif Require Import Base Num BaseFacts Common Kernels Gamma2 Integrals Registry Threads Spec SpecPT SpecIntegrals SpecLoops SpecScratch SpecBispectrum SpecBisp2 SpecTable SpecThreads SpecDefined SpecColumns
  ProofKernels ProofGL ProofGL2 ProofIntegrals9 ProofScratch2 ProofScratch3 ProofThreads8 ProofDefined12 ProofColumns ProofColumns2 ProofColumns3.
Import ListNotations.
Local Open Scope R_scope.

Lemma run_contents fuel (st : settings RNum) suave1 suave12 d pkl dt ptt ks ps ss vals : two_points pkl -> (d = D_B -> two_points dt /\ two_points ptt) ->
  regular_run st pkl d -> computes fuel st suave1 suave12 d pkl dt ptt ks ps ss vals ->
  forall ik, (0 <= ik < zlen ks)%Z -> 0 < k_ (N := RNum) ks ik -> contents fuel st suave1 suave12 pkl dt ptt (k_ (N := RNum) ks ik) d (vals ik).
Proof. intros HT HB HR (_ & _ & HV) ik Hi Hk. exact (row_contents fuel st suave1 suave12 pkl dt ptt _ d (vals ik) HT HB HR Hk (HV ik Hi)). Qed.
Lemma three_points : two_points pk_three.
Proof.
  exists [1; 2; 3], [5; 6; 4]. split; [reflexivity|]. split; [reflexivity|]. split; [cbn; lia|].
  intros i j Hij. cbn [List.length] in Hij. destruct i as [|[|[|i]]], j as [|[|[|j]]]; try lia; cbn; lra.
Qed.
Lemma three_range x : q_range (N := RNum) (s_prec st_ex x) pk_three = Ok (1, 2).
Proof. unfold q_range. cbn [st_ex s_prec pr_min pr_max]. rn. rewrite !(proj2 (Rleb_false _ _)) by lra. reflexivity. Qed.
Lemma three_regular d : regular_run st_ex pk_three d.
Proof.
  split; [split; reflexivity| |intros x _; apply st_rule]. intros x _. split; [cbn; lia|]. exists 1, 2. split; [apply three_range|lra].
Qed.
Lemma three_q x : exists g, new_q 2 st_ex pk_three x = Ok g.
Proof.
  destruct (three_computes (D_1loop DELTA DELTA)) as (ps & ss & vals & (_ & _ & V)). specialize (V 0%Z ltac:(cbn; lia)). cbn [value_of] in V. unfold value_1loop in V.
  apply bind_inv in V. destruct V as (g & E & _). exists g. exact E.
Qed.
Lemma three_mu x : exists m, new_mu 2 st_ex x = Ok m.
Proof.
  destruct (three_computes (D_1loop DELTA DELTA)) as (ps & ss & vals & (_ & _ & V)). specialize (V 0%Z ltac:(cbn; lia)). cbn [value_of] in V. unfold value_1loop in V.
  apply bind_inv in V. destruct V as (g & _ & V). apply bind_inv in V. destruct V as (g' & _ & V). apply bind_inv in V. destruct V as (m & E & _). exists m. exact E.
Qed.
Lemma columns_ex d : two_points pk_three /\ regular_run st_ex pk_three d /\ (forall x, In x (q_tables_of d) -> exists g, new_q 2 st_ex pk_three x = Ok g) /\
  (forall k, In k ks_ex -> 0 < k) /\ exists ps ss vals, computes 2 st_ex suave1_ex suave12_ex d pk_three pk_three pk_three ks_ex ps ss vals.
Proof.
  split; [exact three_points|]. split; [apply three_regular|]. split; [intros x _; apply three_q|]. split; [|apply three_computes].
  intros k Hk. cbn in Hk. repeat (destruct Hk as [<-|Hk]; [lra|]). contradiction.
Qed.
Lemma A_setting : exists P S G1 G2 g1 gd gt g m, (forall k, find1 (N := RNum) pk_three POLY k = Ok (P k)) /\ (forall k, sigmad2_1 (N := RNum) pk_three 1 k = Ok (S k)) /\
  q_ok g1 /\ propagator_is g1 G1 /\ one_loop_is gd gt G2 /\ q_table P g /\ mu_rule m.
Proof.
  pose proof (three_regular D_A_2loop) as HR. pose proof three_points as HT.
  destruct (three_q "gamma1_1loop_q") as [g1 E1]. destruct (three_q "gamma2d_1loop_q") as [gd E2]. destruct (three_q "gamma2t_1loop_q") as [gt E3].
  destruct (three_q "A_2loop_I_q") as [g E4]. destruct (three_mu "A_2loop_I_mu") as [m E5].
  exists (the_P pk_three), (fun k => match sigmad2_1 (N := RNum) pk_three 1 k with Ok v => v | Err _ => 0 end), (prop1 2 st_ex pk_three), (vertex 2 st_ex pk_three), g1, gd, gt, g, m.
  split; [exact (two_lookup _ HT)|]. split.
  { intros k. destruct (sigmad2_ok pk_three (1 : T RNum) k (two_lin _ HT)) as [v E]. change (T RNum) with R in *. rewrite E. reflexivity. }
  split; [exact (proj1 (proj2 (run_q 2 st_ex pk_three D_A_2loop HT HR _ _ ltac:(cbn; tauto) E1)))|].
  split; [exact (run_prop1 2 st_ex pk_three D_A_2loop HT HR g1 ltac:(cbn; tauto) E1)|].
  split; [exact (run_vertex 2 st_ex pk_three D_A_2loop HT HR gd gt ltac:(cbn; tauto) ltac:(cbn; tauto) E2 E3)|].
  split; [exact (proj1 (run_q 2 st_ex pk_three D_A_2loop HT HR _ _ ltac:(cbn; tauto) E4))|].
  exact (run_mu 2 st_ex pk_three D_A_2loop HR _ _ ltac:(cbn; tauto) E5).
Qed.
