(** PropScratch: the tables each thread mutates (C34) and the memory accesses of the integrals (C64).
    Everything holds for every arithmetic [N]: exact reals, doubles with any libm, NaN and infinities included.
    Notions: SpecScratch.v. *)
From Coq Require Import Reals Lra ZArith List.
From Verif Require Import Base Num BaseFacts Common Kernels Gamma2 Integrals SpecLoops SpecScratch SpecTable ProofScratch ProofScratch2 ProofScratch3 ProofIntegrals10.
Import ListNotations.
Local Open Scope Z_scope.

(** ** C34: after any history of calls, a call gives what it gives on the tables the history started from. *)
Theorem C34_gamma2 {N} f (g g' : glq N) m m' : q_ok g -> mu_ok m -> history gamma2_calls g m g' m' -> gamma2_calls f -> same_result (f g m) (f g' m').
Proof. exact (fun Hg Hm H Hf => history_same gamma2_calls f g m g' m' gamma2_transparent Hf H Hg Hm). Qed.
Print Assumptions C34_gamma2.
Theorem C34_bias {N} f (g g' : glq N) m m' : q_ok g -> mu_ok m -> history bias_calls g m g' m' -> bias_calls f -> same_result (f g m) (f g' m').
Proof. exact (fun Hg Hm H Hf => history_same bias_calls f g m g' m' bias_transparent Hf H Hg Hm). Qed.
Print Assumptions C34_bias.
Theorem C34_A_1loop {N} f (g g' : glq N) m m' : q_ok g -> mu_ok m -> history A_1loop_calls g m g' m' -> A_1loop_calls f -> same_result (f g m) (f g' m').
Proof. exact (fun Hg Hm H Hf => history_same A_1loop_calls f g m g' m' A_1loop_transparent Hf H Hg Hm). Qed.
Print Assumptions C34_A_1loop.
Theorem C34_B {N} f (g g' : glq N) m m' : q_ok g -> mu_ok m -> history B_calls g m g' m' -> B_calls f -> same_result (f g m) (f g' m').
Proof. exact (fun Hg Hm H Hf => history_same B_calls f g m g' m' B_transparent Hf H Hg Hm). Qed.
Print Assumptions C34_B.
Theorem C34_A_2loop_I {N} f (g g' : glq N) m m' : q_ok g -> mu_ok m -> history A_2loop_I_calls g m g' m' -> A_2loop_I_calls f -> same_result (f g m) (f g' m').
Proof. exact (fun Hg Hm H Hf => history_same A_2loop_I_calls f g m g' m' A_2loop_I_transparent Hf H Hg Hm). Qed.
Print Assumptions C34_A_2loop_I.
(** The propagators: the same value and the same final table. *)
Theorem C34_gamma1_1loop {N} (g g' : glq N) a k : q_ok g -> gamma1_history false g g' -> gamma1_1loop g a k = gamma1_1loop g' a k.
Proof. exact (fun Hg H => gamma1_1loop_same g g' a k Hg (gamma1_hist false g g' H Hg)). Qed.
Print Assumptions C34_gamma1_1loop.
Theorem C34_gamma1_2loop {N} (g g' : glq N) a k : q_ok g -> gamma1_history true g g' -> gamma1_2loop g a k = gamma1_2loop g' a k.
Proof. exact (fun Hg H => gamma1_2loop_same g g' a k Hg (gamma1_hist true g g' H Hg)). Qed.
Print Assumptions C34_gamma1_2loop.
Theorem C34_gamma1_terms {N} (g1 g1' g2 g2' : glq N) a b k : q_ok g1 -> q_ok g2 -> gamma1_history false g1 g1' -> gamma1_history true g2 g2' ->
  calc_pk_gamma1_2loop g1 g2 a b k = calc_pk_gamma1_2loop g1' g2' a b k.
Proof. exact (fun H1 H2 K1 K2 => calc_gamma1_same g1 g1' g2 g2' a b k H1 (gamma1_hist false g1 g1' K1 H1) H2 (gamma1_hist true g2 g2' K2 H2)). Qed.
Print Assumptions C34_gamma1_terms.
(** The bispectrum calls gamma1_1loop on that file's table: its value does not depend on the calls made
    before, and it leaves the table as any such call does.  So the 2-loop A term may be computed with the
    table as it was at the beginning, which is how kernel_A_tA_2loop_I is modelled. *)
Theorem C34_bispectrum {N} (pkl : Pk N) im uv (g1 g1' gd gt : glq N) k p kp out : q_ok g1 -> gamma1_history false g1 g1' ->
  same_bisp (bispectrum_1loop_I pkl im uv g1 gd gt k p kp out) (bispectrum_1loop_I pkl im uv g1' gd gt k p kp out).
Proof. exact (fun H K => bisp_I_same pkl im uv g1 g1' gd gt k p kp out H (gamma1_hist false g1 g1' K H)). Qed.
Print Assumptions C34_bispectrum.
Theorem C34_bispectrum_table {N} (pkl : Pk N) im uv (g1 gd gt : glq N) k p kp out v g1' : q_ok g1 ->
  bispectrum_1loop_I pkl im uv g1 gd gt k p kp out = Ok (v, g1') -> same_q g1 g1'.
Proof. exact (bisp_I_tab pkl im uv g1 gd gt k p kp out v g1'). Qed.
Print Assumptions C34_bispectrum_table.
Theorem C34_A_2loop_gamma1_table {N} (pkl : Pk N) im uv (g g1 g1' gd gt : glq N) m k : q_ok g -> mu_ok m -> q_ok g1 -> same_q g1 g1' ->
  same_result (calc_pk_A_2loop_I pkl im uv g m g1 gd gt k) (calc_pk_A_2loop_I pkl im uv g m g1' gd gt k).
Proof. exact (fun Hg Hm H1 S => calc_A_2loop_I_same pkl im uv g g m m g1 g1' gd gt k Hg (same_q_refl g Hg) Hm (same_rule_refl m Hm) H1 S). Qed.
Print Assumptions C34_A_2loop_gamma1_table.
(** The tables the initialisation makes meet the hypotheses. *)
Theorem C34_tables {N} fuel (p : precision N) (pkl : Pk N) g : 0 <= pr_n p < 2 ^ 62 -> init_gauss_legendre_q fuel p pkl = Ok g -> q_ok g /\ table_ok g.
Proof. exact (init_q_tables fuel p pkl g). Qed.
Print Assumptions C34_tables.
Theorem C34_mu_tables {N} fuel (p : precision N) g : 0 <= pr_n p < 2 ^ 62 -> init_gauss_legendre_mu fuel p = Ok g -> mu_ok g.
Proof. exact (init_mu_tables fuel p g). Qed.
Print Assumptions C34_mu_tables.
(** A call does modify the table it is run on. *)
Definition g_ex : glq RNum := mkGlq (N := RNum) 1%R 2 [1%R; 2%R] [1%R; 2%R] [1%R; 1%R] [3%R; 4%R].
Example C34_ex : q_ok g_ex /\ exists g', gamma1_history false g_ex g' /\ g' <> g_ex.
Proof.
  split; [repeat split; discriminate|]. destruct (gamma1_1loop g_ex DELTA 2%R) as [[v u]|] eqn:E; [|discriminate].
  exists u. split; [exact (g1_call false g_ex DELTA 2%R v u u E (g1_nil false u))|].
  assert (K : gq_k u = 2%R) by (apply (f_equal (fun r => match r with Ok (_, w) => gq_k w | Err _ => gq_k u end)) in E; symmetry; exact E).
  intros ->. unfold g_ex in K. cbn in K. lra.
Qed.

(** ** C64: no access is outside an array, for every table of at least two points. *)
Theorem C64_gamma1 {N} (g1 g2 : glq N) a b k : q_ok g1 -> q_ok g2 ->
  exists v g1' g2', calc_pk_gamma1_2loop g1 g2 a b k = Ok (v, g1', g2') /\ same_q g1 g1' /\ same_q g2 g2'.
Proof. exact (calc_gamma1_ok g1 g2 a b k). Qed.
Print Assumptions C64_gamma1.
Theorem C64_gamma2_tree {N} (pkl : Pk N) g m a b k : lin_table pkl -> q_ok g -> mu_ok m ->
  ends_with (fun v => length v = 1%nat) g m (calc_pk_gamma2_tree pkl POLY g m a b k).
Proof. exact (calc_gamma2_tree_ok pkl g m a b k). Qed.
Print Assumptions C64_gamma2_tree.
Theorem C64_gamma2_1loop {N} (pkl : Pk N) g m gd gt a b k : lin_table pkl -> q_ok g -> mu_ok m -> table_ok gd -> table_ok gt ->
  ends_with (fun v => length v = 3%nat) g m (calc_pk_gamma2_1loop pkl POLY g m gd gt a b k).
Proof. exact (calc_gamma2_1loop_ok pkl g m gd gt a b k). Qed.
Print Assumptions C64_gamma2_1loop.
Theorem C64_bias {N} (pkl : Pk N) g m a k kernel half : lin_table pkl -> q_ok g -> mu_ok m ->
  ends_with (fun _ => True) g m (calc_pk_bias_1loop pkl POLY g m a k kernel half).
Proof. exact (calc_bias_ok pkl g m a k kernel half). Qed.
Print Assumptions C64_bias.
Theorem C64_A_1loop {N} (pkl : Pk N) g m k : lin_table pkl -> q_ok g -> mu_ok m ->
  ends_with (fun v => length v = 5%nat) g m (calc_pk_A_1loop pkl POLY POLY g m k).
Proof. exact (calc_A_1loop_ok pkl g m k). Qed.
Print Assumptions C64_A_1loop.
Theorem C64_B {N} (pk_dt pk_tt : Pk N) g m k : lin_table pk_dt -> lin_table pk_tt -> q_ok g -> mu_ok m ->
  ends_with (fun v => length v = 12%nat) g m (calc_pk_B pk_dt pk_tt POLY g m k).
Proof. exact (calc_B_ok pk_dt pk_tt g m k). Qed.
Print Assumptions C64_B.
Theorem C64_A_2loop_I {N} (pkl : Pk N) uv g m g1 gd gt k : lin_table pkl -> q_ok g -> mu_ok m -> q_ok g1 -> table_ok gd -> table_ok gt ->
  ends_with (fun v => length v = 12%nat) g m (calc_pk_A_2loop_I pkl POLY uv g m g1 gd gt k).
Proof. exact (calc_A_2loop_I_ok pkl uv g m g1 gd gt k). Qed.
Print Assumptions C64_A_2loop_I.
(** The integrands Suave evaluates, at every point of dimension at least five. *)
Theorem C64_gamma3 {N} (pkl : Pk N) qmin qmax logqmin logqmax k a b xx : lin_table pkl -> 5 <= zlen xx ->
  exists v, kernel_pk_gamma3_tree pkl POLY qmin qmax logqmin logqmax k a b xx = Ok v.
Proof. exact (gamma3_ok pkl qmin qmax logqmin logqmax k a b xx). Qed.
Print Assumptions C64_gamma3.
Theorem C64_A_2loop_II_III {N} (pkl : Pk N) uv logqmin logqmax k xx : lin_table pkl -> 5 <= zlen xx ->
  exists v, kernel_A_tA_2loop_II_III pkl POLY uv logqmin logqmax k xx = Ok v /\ length v = 12%nat.
Proof. exact (A_II_III_ok pkl uv logqmin logqmax k xx). Qed.
Print Assumptions C64_A_2loop_II_III.
Example C64_ex : lin_table (mk_table (N := RNum) [1%R; 2%R] [5%R; 6%R]) /\ q_ok g_ex /\ table_ok g_ex /\ mu_ok (mkGlmu (N := RNum) 1 [0%R] [2%R] [0%R] [2%R]).
Proof. unfold lin_table, q_ok, table_ok, mu_ok. cbn. repeat split; discriminate. Qed.
