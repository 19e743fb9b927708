(** ProofDefined11: the rows of the results have a value. *)
From Coq Require Import ZArith Lia List Reals Lra String.
From Verif Require Import Base Num BaseFacts Spec Common Kernels GExpr Gamma2 Integrals Registry Threads SpecDefined SpecThreads ProofSearch ProofKernels ProofGL ProofGL2 ProofFindPkR
  ProofDefined ProofDefined2 ProofDefined3 ProofDefined4 ProofDefined5 ProofDefined6 ProofDefined7 ProofDefined8 ProofDefined9 ProofDefined10.
Import ListNotations.
Local Open Scope R_scope.


Lemma take_O n l : take (N := ONum) n (os l) = res_map os (take (N := RNum) n l).
Proof.
  unfold take, os. change (T ONum) with (option R). change (T RNum) with R. rewrite map_length. destruct (n <=? List.length l)%nat; [|reflexivity]. cbn [res_map]. f_equal. apply firstn_map.
Qed.
Lemma sum_A_O p : sum_A (N := ONum) (os p) = res_map os (sum_A (N := RNum) p).
Proof. unfold sum_A. rdl p0 Q0. rdl p1 Q1. rdl p2 Q2. rdl p3 Q3. rdl p4 Q4. rdl p5 Q5. rdl p6 Q6. rdl p7 Q7. rdl p8 Q8. rdl p9 Q9. rdl p10 Q10. rdl p11 Q11. reflexivity. Qed.
Lemma sum_B_O p : sum_B (N := ONum) (os p) = res_map os (sum_B (N := RNum) p).
Proof. unfold sum_B. rdl p0 Q0. rdl p1 Q1. rdl p2 Q2. rdl p3 Q3. rdl p4 Q4. rdl p5 Q5. rdl p6 Q6. rdl p7 Q7. rdl p8 Q8. rdl p9 Q9. rdl p10 Q10. rdl p11 Q11. reflexivity. Qed.

Section Rows.
Variables (fuel : nat) (st : settings RNum) (pkl : Pk RNum).
Hypothesis Hp : good_table pkl.
Lemma new_q_O x : rule_ok (s_prec st x) -> new_q (N := ONum) fuel (oset st) (opk pkl) x = res_map oq (new_q (N := RNum) fuel st pkl x).
Proof. intros Hn. destruct Hp as [(K & P & -> & HL & HN & HI & HK)]. unfold new_q. cbn [oset s_prec]. apply init_q_O; assumption. Qed.
Lemma new_q_pos x g : rule_ok (s_prec st x) -> new_q (N := RNum) fuel st pkl x = Ok g -> posq g.
Proof.
  intros Hn E. unfold new_q in E. destruct (init_q_inv (N := RNum) fuel (s_prec st x) pkl g 0 ltac:(unfold rule_ok in Hn; lia) E) as (q1 & q2 & xs & _ & _ & A1 & _ & A3 & A4 & _ & _ & A7 & _).
  unfold rule_ok in Hn. split; [lia|congruence|rewrite A3; congruence|]. intros q Hq. destruct (In_nth _ _ 0 Hq) as (i & Hi & <-).
  specialize (A7 (Z.of_nat i)). unfold znth in A7. rewrite Nat2Z.id in A7. unfold zlen in A4. change (T RNum) with R in *. specialize (A7 ltac:(lia)). unfold zlen in *. change (T RNum) with R in *. match type of A7 with ?u = _ => match goal with |- 0 < ?v => change (0 < u) end end. rewrite A7. apply exp_pos.
Qed.
Lemma new_mu_O x : rule_ok (s_prec st x) -> new_mu (N := ONum) fuel (oset st) x = res_map om (new_mu (N := RNum) fuel st x).
Proof. intros Hn. unfold new_mu. cbn [oset s_prec]. apply init_mu_O; assumption. Qed.
Lemma new_mu_in x m : rule_ok (s_prec st x) -> new_mu (N := RNum) fuel st x = Ok m -> inmu m.
Proof.
  intros Hn E. unfold new_mu in E. destruct (init_mu_inv (N := RNum) fuel (s_prec st x) m ltac:(unfold rule_ok in Hn; lia) E) as (_ & A1 & A2 & A3 & A4 & A5).
  unfold rule_ok in Hn. split; [lia|congruence|congruence|rewrite A2; congruence|rewrite A3; congruence|]. rewrite A1. apply (init_mu_R fuel (s_prec st x) m Hn E).
Qed.
Variable k : R.
Hypothesis Hk : 0 < k.
Lemma value_1loop_O a b : (forall x, In x ["gamma1_1loop_q"; "gamma2_tree_q"; "gamma2_tree_mu"]%string -> rule_ok (s_prec st x)) ->
  value_1loop (N := ONum) fuel (oset st) (opk pkl) a b (Some k) = res_map os (value_1loop (N := RNum) fuel st pkl a b k).
Proof.
  intros H.  unfold value_1loop.
  apply (bind_lift oq); [apply new_q_O, H; cbn; tauto|]. intros g1 Eg1. apply new_q_pos in Eg1; [|apply H; cbn; tauto].
  apply (bind_lift oq); [apply new_q_O, H; cbn; tauto|]. intros g Eg. apply new_q_pos in Eg; [|apply H; cbn; tauto].
  apply (bind_lift om); [apply new_mu_O, H; cbn; tauto|]. intros m Em. apply new_mu_in in Em; [|apply H; cbn; tauto].
  apply (bind_lift (fun s => (Some (fst s), oq (snd s)))); [apply gamma1_1loop_O; assumption|]. intros [v1 g'] _. cbn [fst snd].
  apply (bind_lift (fun s => (Some (fst s), oq (snd s)))); [apply gamma1_1loop_O; assumption|]. intros [v2 g''] _. cbn [fst snd].
  apply (bind_lift oqm); [apply calc_pk_gamma2_tree_O; assumption|]. intros [[p h1] h2] _. cbn [oqm].
  apply (bind_lift os); [apply take_O|]. intros p' _. reflexivity.
Qed.
Lemma value_2loop_O a b : (forall x, In x ["gamma1_1loop_q"; "gamma1_2loop_q"; "gamma2_tree_q"; "gamma2d_1loop_q"; "gamma2t_1loop_q"; "gamma2_tree_mu"]%string -> rule_ok (s_prec st x)) ->
  value_2loop (N := ONum) fuel (oset st) (opk pkl) a b (Some k) = res_map os (value_2loop (N := RNum) fuel st pkl a b k).
Proof.
  intros H. unfold value_2loop.
  apply (bind_lift oq); [apply new_q_O, H; cbn; tauto|]. intros g1 Eg1. apply new_q_pos in Eg1; [|apply H; cbn; tauto].
  apply (bind_lift oq); [apply new_q_O, H; cbn; tauto|]. intros g2 Eg2. apply new_q_pos in Eg2; [|apply H; cbn; tauto].
  apply (bind_lift oq); [apply new_q_O, H; cbn; tauto|]. intros g Eg. apply new_q_pos in Eg; [|apply H; cbn; tauto].
  apply (bind_lift om); [apply new_mu_O, H; cbn; tauto|]. intros m Em. apply new_mu_in in Em; [|apply H; cbn; tauto].
  apply (bind_lift oq); [apply new_q_O, H; cbn; tauto|]. intros gd Egd. apply new_q_pos in Egd; [|apply H; cbn; tauto].
  apply (bind_lift oq); [apply new_q_O, H; cbn; tauto|]. intros gt Egt. apply new_q_pos in Egt; [|apply H; cbn; tauto].
  apply (bind_lift o4); [apply calc_pk_gamma1_2loop_O; assumption|]. intros [[[[[a1 a2] b1] b2] h1] h2] _. cbn [o4].
  apply (bind_lift oqm); [apply calc_pk_gamma2_1loop_O; assumption|]. intros [[p h3] h4] _. cbn [oqm].
  apply (bind_lift os); [apply take_O|]. intros p' _. reflexivity.
Qed.
Lemma value_bias_O : (forall x, In x ["bias_1loop_q"; "bias_1loop_mu"]%string -> rule_ok (s_prec st x)) ->
  value_bias (N := ONum) fuel (oset st) (opk pkl) (Some k) = res_map os (value_bias (N := RNum) fuel st pkl k).
Proof.
  intros H. unfold value_bias.
  apply (bind_lift oq); [apply new_q_O, H; cbn; tauto|]. intros g Eg. apply new_q_pos in Eg; [|apply H; cbn; tauto].
  apply (bind_lift om); [apply new_mu_O, H; cbn; tauto|]. intros m Em. apply new_mu_in in Em; [|apply H; cbn; tauto]. cbv zeta.
  Ltac tm L v := apply (bind_lift Some); [apply (bind_lift oqm1); [apply calc_pk_bias_1loop_O; auto using L|]; intros [[? ?] ?] _; reflexivity|]; intros v _.
  tm lifts_b2 t1. tm lifts_bs2 t2. tm lifts_b2 t3. tm lifts_bs2 t4. tm lifts_b22 t5. tm lifts_b2s2 t6. tm lifts_bs22 t7. tm lifts_sigma3sq t8. reflexivity.
Qed.
Lemma value_A_1loop_O : (forall x, In x ["A_1loop_q"; "A_1loop_mu"]%string -> rule_ok (s_prec st x)) ->
  value_A_1loop (N := ONum) fuel (oset st) (opk pkl) (Some k) = res_map os (value_A_1loop (N := RNum) fuel st pkl k).
Proof.
  intros H. unfold value_A_1loop.
  apply (bind_lift oq); [apply new_q_O, H; cbn; tauto|]. intros g Eg. apply new_q_pos in Eg; [|apply H; cbn; tauto].
  apply (bind_lift om); [apply new_mu_O, H; cbn; tauto|]. intros m Em. apply new_mu_in in Em; [|apply H; cbn; tauto].
  apply (bind_lift oqm); [apply calc_pk_A_1loop_O; assumption|]. intros [[p h1] h2] _. cbn [oqm]. apply take_O.
Qed.
Lemma value_A_2loop_O : (forall x, In x ["A_2loop_I_q"; "gamma1_1loop_q"; "gamma2d_1loop_q"; "gamma2t_1loop_q"; "A_2loop_I_mu"]%string -> rule_ok (s_prec st x)) ->
  value_A_2loop (N := ONum) fuel (oset st) (opk pkl) (Some k) = res_map os (value_A_2loop (N := RNum) fuel st pkl k).
Proof.
  intros H. unfold value_A_2loop.
  apply (bind_lift oq); [apply new_q_O, H; cbn; tauto|]. intros g Eg. apply new_q_pos in Eg; [|apply H; cbn; tauto].
  apply (bind_lift om); [apply new_mu_O, H; cbn; tauto|]. intros m Em. apply new_mu_in in Em; [|apply H; cbn; tauto].
  apply (bind_lift oq); [apply new_q_O, H; cbn; tauto|]. intros g1 Eg1. apply new_q_pos in Eg1; [|apply H; cbn; tauto].
  apply (bind_lift oq); [apply new_q_O, H; cbn; tauto|]. intros gd Egd. apply new_q_pos in Egd; [|apply H; cbn; tauto].
  apply (bind_lift oq); [apply new_q_O, H; cbn; tauto|]. intros gt Egt. apply new_q_pos in Egt; [|apply H; cbn; tauto].
  apply (bind_lift oqm); [apply calc_pk_A_2loop_I_O; assumption|]. intros [[p h1] h2] _. cbn [oqm]. apply sum_A_O.
Qed.
Lemma value_B_O dt ptt : good_table dt -> good_table ptt -> (forall x, In x ["B_q"; "B_mu"]%string -> rule_ok (s_prec st x)) ->
  value_B (N := ONum) fuel (oset st) (opk pkl) (opk dt) (opk ptt) (Some k) = res_map os (value_B (N := RNum) fuel st pkl dt ptt k).
Proof.
  intros Hd Ht H. unfold value_B.
  apply (bind_lift oq); [apply new_q_O, H; cbn; tauto|]. intros g Eg. apply new_q_pos in Eg; [|apply H; cbn; tauto].
  apply (bind_lift om); [apply new_mu_O, H; cbn; tauto|]. intros m Em. apply new_mu_in in Em; [|apply H; cbn; tauto].
  apply (bind_lift oqm); [apply calc_pk_B_O; assumption|]. intros [[p h1] h2] _. cbn [oqm]. apply sum_B_O.
Qed.
Lemma range_O x : q_range (N := ONum) (s_prec (oset st) x) (opk pkl) = res_map op2 (q_range (N := RNum) (s_prec st x) pkl).
Proof. cbn [oset s_prec]. apply q_range_O. Qed.
Lemma range_pos x q1 q2 : q_range (N := RNum) (s_prec st x) pkl = Ok (q1, q2) -> 0 < q1 /\ 0 < q2.
Proof. destruct Hp as [(K & P & -> & HL & HN & HI & HK)]. apply q_range_pos, HK. Qed.
Lemma value_gamma3_O suave suave' a b : suave1_lifts suave suave' ->
  value_gamma3 (N := ONum) (oset st) (opk pkl) suave' a b (Some k) = res_map os (value_gamma3 (N := RNum) st pkl suave a b k).
Proof.
  intros HS. unfold value_gamma3. apply (bind_lift op2); [apply range_O|]. intros [q1 q2] E. apply range_pos in E. destruct E as [Q1 Q2]. unfold op2. cbn [fst snd].
  apply (bind_lift Some); [|reflexivity]. unfold calc_pk_gamma3_tree. on. rewrite !olog_some by assumption.
  apply (bind_lift Some); [apply HS; intros xx _; apply kernel_gamma3_O; assumption|]. intros v _. on. rewrite power_O. rewrite odiv_some by apply power6_pi. reflexivity.
Qed.
Lemma value_A_II_III_O suave suave' : suave12_lifts suave suave' ->
  value_A_II_III (N := ONum) (oset st) (opk pkl) suave' (Some k) = res_map os (value_A_II_III (N := RNum) st pkl suave k).
Proof.
  intros HS. unfold value_A_II_III. apply (bind_lift op2); [apply range_O|]. intros [q1 q2] E. apply range_pos in E. destruct E as [Q1 Q2]. unfold op2. cbn [fst snd].
  apply (bind_lift os); [|intros v _; apply sum_A_O]. unfold calc_pk_A_2loop_II_III. on. rewrite !olog_some by assumption.
  apply (bind_lift os); [apply HS; intros xx Hx; cbn [oset s_cutoff s_interpol]; apply kernel_A_II_III_O; assumption|]. intros v _. on. rewrite odiv_some by apply PI2.
  cbn [res_map]. rewrite (map_os (fun v => v * (k * k * k / (2 * PI * PI)))) by reflexivity. reflexivity.
Qed.
End Rows.
Lemma value_O fuel st suave1 suave1' suave12 suave12' d pkl dt ptt k : good_table pkl -> good_table dt -> good_table ptt ->
  suave1_lifts suave1 suave1' -> suave12_lifts suave12 suave12' -> (forall x, In x (tables_of d) -> rule_ok (s_prec st x)) -> 0 < k ->
  value_of (N := ONum) fuel (oset st) suave1' suave12' d (opk pkl) (opk dt) (opk ptt) (Some k) = res_map os (value_of (N := RNum) fuel st suave1 suave12 d pkl dt ptt k).
Proof.
  intros Hp Hd Ht S1 S2 HR Hk. destruct d; cbn [value_of tables_of q_tables_of mu_tables_of] in *.
  - apply value_1loop_O; auto.
  - apply (bind_lift os); [apply value_2loop_O; auto|]. intros v _. apply (bind_lift os); [apply value_gamma3_O; auto|]. intros w _. cbn [res_map]. f_equal. unfold os. symmetry. apply map_app.
  - apply value_bias_O; auto.
  - apply value_A_1loop_O; auto.
  - apply (bind_lift os); [apply value_A_2loop_O; auto|]. intros v _. apply (bind_lift os); [apply value_A_II_III_O; auto|]. intros w _. cbn [res_map]. f_equal. apply zipw_os. reflexivity.
  - apply value_B_O; auto.
Qed.
Lemma k_os ks ik : k_ (N := ONum) (os ks) ik = Some (k_ (N := RNum) ks ik).
Proof. unfold k_. on. unfold os. apply map_nth. Qed.
Lemma computes_O fuel st suave1 suave1' suave12 suave12' d pkl dt ptt ks ps ss vals : good_table pkl -> good_table dt -> good_table ptt ->
  suave1_lifts suave1 suave1' -> suave12_lifts suave12 suave12' -> (forall x, In x (tables_of d) -> rule_ok (s_prec st x)) -> (forall k, In k ks -> 0 < k) ->
  computes (N := RNum) fuel st suave1 suave12 d pkl dt ptt ks ps ss vals ->
  computes (N := ONum) fuel (oset st) suave1' suave12' d (opk pkl) (opk dt) (opk ptt) (os ks) (os ps) (os ss) (fun ik => os (vals ik)).
Proof.
  intros Hp Hd Ht S1 S2 HR Hk (C1 & C2 & C3). pose proof Hp as [(K & P & -> & HL & HN & HI & HK)]. repeat split.
  - cbn [oset s_interpol]. rewrite find_pk_O by assumption. rewrite C1. reflexivity.
  - cbn [oset s_cutoff]. rewrite calc_running_sigmad2_O by assumption. rewrite C2. reflexivity.
  - intros ik Hi. rewrite zlen_os in Hi. rewrite k_os. rewrite (value_O fuel st suave1 suave1' suave12 suave12'); try assumption; [rewrite C3 by assumption; reflexivity|].
    apply Hk. unfold k_. apply nth_In. unfold zlen in Hi. change (T RNum) with R in *. lia.
Qed.
