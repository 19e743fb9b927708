(** ProofThreads8: the race of run_terms_B, the progress messages, and an example. *)
From Coq Require Import ZArith List String Bool Lia Permutation Reals Lra.
From Verif Require Import Base Num BaseFacts Common Kernels Integrals Registry Threads SpecThreads SpecLoops SpecScratch SpecTable ProofCommon2 ProofScratch2 ProofScratch3 ProofThreads ProofThreads2 ProofThreads3 ProofThreads4 ProofThreads5 ProofThreads6 ProofThreads7.
Import ListNotations.
Local Open Scope string_scope.

Theorem race_B {N} fuel (st : settings N) h pkl dt ptt ks p0 p1 rest ps ss :
  starts fuel st D_B h pkl dt ptt ks (p0 :: p1 :: rest) ->
  find_pk pkl ks (s_interpol st "B_pk_lin") = Ok ps -> calc_running_sigmad2 pkl ks (s_cutoff st "set_running_uvcutoff_B") = Ok ss ->
  exists h1 n g, run (before (run_terms_B fuel st (zlen ks) (p0 :: p1 :: rest))) h = inl (tt, h1) /\
    reaches n (h1, threads (run_terms_B fuel st (zlen ks) (p0 :: p1 :: rest))) g /\ race_on (Glob "calc_B.pk_dt") g.
Proof.
  intros [(M & D & MK) (_ & X1 & X2 & X3)] C1 C2.
  destruct (serial_ok st _ _ h pkl ks _ _ _ ps ss M C1 C2) as (E & _). set (h1 := after_serial (zlen ks) ps ss h) in *.
  assert (G : forall x, h1 (Glob x) = h (Glob x)).
  { intros x. unfold h1, after_serial. rewrite !put_all_other; [reflexivity| |]; rewrite In_column; intros (j & _ & E0); discriminate. }
  exists h1, 4%nat. eexists. split; [exact E|]. split.
  - cbn [run_terms_B threads]. unfold team. cbn [List.length seq combine map fst snd].
    eapply (r_step _ _ _ 0); [reflexivity|unfold thread_B; cbn [load_pk pbind tstep]; rewrite G, X1; reflexivity|]. cbn [upd pbind].
    eapply (r_step _ _ _ 0); [reflexivity|cbn [load_pk pbind tstep]; rewrite G, X2; reflexivity|]. cbn [upd pbind].
    eapply (r_step _ _ _ 1); [reflexivity|unfold thread_B; cbn [load_pk pbind tstep]; rewrite G, X1; reflexivity|]. cbn [upd pbind].
    eapply (r_step _ _ _ 1); [reflexivity|cbn [load_pk pbind tstep]; rewrite G, X2; reflexivity|]. cbn [upd pbind]. apply r_refl.
  - exists 0%nat, 1%nat. do 2 eexists. exists true, true. split; [discriminate|]. split; [reflexivity|]. split; [reflexivity|]. split; [reflexivity|]. split; [reflexivity|]. left; reflexivity.
Qed.

(** ** Progress *)
Local Open Scope Z_scope.
Lemma step_nk nk : 0 <= nk * 10 < SIZE_T -> step_verbose nk = Z.max (nk / 10) 1.
Proof. intros H. unfold step_verbose. rewrite u64_small by exact H. replace 100 with (10 * 10) by reflexivity. rewrite Z.div_mul_cancel_r by lia. reflexivity. Qed.
Lemma progress_eq nk ik p : 0 <= ik < nk -> nk * 10 < SIZE_T -> progress nk ik = Some p <-> exists j, 0 <= j /\ ik = Z.max (nk / 10) 1 * j /\ p = 10 * j.
Proof.
  intros Hi Hn. unfold progress. rewrite step_nk by lia. set (s := Z.max (nk / 10) 1). assert (1 <= s) by lia. rewrite u64_small by lia. destruct (Z.eqb_spec (ik mod s) 0) as [E|E].
  - apply Z.mod_divide in E; [|lia]. destruct E as [j ->]. replace (j * s * 10) with (10 * j * s) by ring. rewrite Z.div_mul by lia. split.
    + intros [= <-]. exists j. split; [nia|split; [ring|reflexivity]].
    + intros (j' & _ & E & ->). f_equal. nia.
  - split; [discriminate|]. intros (j & _ & -> & _). exfalso. apply E. rewrite Z.mul_comm. apply Z.mod_mul. lia.
Qed.
Theorem progress_exact nk ik p : nk mod 10 = 0 -> 0 <= ik < nk -> nk * 10 < SIZE_T -> progress nk ik = Some p -> p * nk = 100 * ik /\ 0 <= p < 100.
Proof.
  intros Hm Hi Hn E. apply (progress_eq nk ik p Hi Hn) in E as (j & Hj & -> & ->). apply Z.mod_divide in Hm as [m ->]; [|lia]. rewrite Z.div_mul in * by lia. rewrite Z.max_l in * by lia. split; [ring|nia].
Qed.
Theorem progress_bound nk ik p : 0 <= ik < nk -> nk * 10 < SIZE_T -> progress nk ik = Some p -> 0 <= p <= 180.
Proof.
  intros Hi Hn E. apply (progress_eq nk ik p Hi Hn) in E as (j & Hj & -> & ->). split; [lia|].
  pose proof (Z.div_mod nk 10 ltac:(lia)). pose proof (Z.mod_pos_bound nk 10 ltac:(lia)). destruct (Z_lt_ge_dec (nk / 10) 1); [rewrite Z.max_r in * by lia; lia|rewrite Z.max_l in * by lia; nia].
Qed.
Theorem progress_over nk : 0 < nk -> nk * 10 < SIZE_T -> (exists ik p, 0 <= ik < nk /\ progress nk ik = Some p /\ p > 100) <-> 10 <= nk /\ nk / 10 < nk mod 10.
Proof.
  intros H0 Hn. pose proof (Z.div_mod nk 10 ltac:(lia)). pose proof (Z.mod_pos_bound nk 10 ltac:(lia)). split.
  - intros (ik & p & Hi & E & Hp). apply (progress_eq nk ik p Hi Hn) in E as (j & Hj & -> & ->). destruct (Z_lt_ge_dec (nk / 10) 1); [rewrite Z.max_r in * by lia; lia|rewrite Z.max_l in * by lia]. split; [lia|nia].
  - intros [Ht Hr]. exists (nk / 10 * 11), 110. split; [lia|]. split; [|lia]. apply progress_eq; [lia|exact Hn|]. exists 11. rewrite Z.max_l by lia. lia.
Qed.

(** ** An example: two threads, three wavenumbers *)
Definition st_ex : settings RNum := mkSet (fun _ => mkPrec (N := RNum) 1 1%R 2%R POLY) (fun _ => POLY) (fun _ => 1%R).
Definition pk_ex : Pk RNum := mk_table (N := RNum) [1%R; 2%R] [5%R; 6%R].
Definition ks_ex : list R := [1%R; 2%R; 3%R].
Definition h_ex : heap RNum := fun l => match l with
  | Arr x i => if (x =? "k")%string then option_map (VNum (N := RNum)) (nth_error ks_ex (Z.to_nat i)) else Some (VNum (N := RNum) 0%R)
  | Priv _ _ => Some VNull
  | Glob x => if (x =? "pk_lin")%string || (x =? "pk_dt")%string || (x =? "pk_tt")%string then Some (VPk pk_ex) else Some VNull end.
Definition suave1_ex (f : list R -> res R) : res R := f [0; 0; 0; 0; 0]%R.
Definition suave12_ex (f : list R -> res (list R)) : res (list R) := f [0; 0; 0; 0; 0]%R.
Lemma suave_ex : suave_ok (N := RNum) suave1_ex suave12_ex.
Proof. split; intros f H; apply H; cbn; lia. Qed.
Lemma pk_ex_table : lin_table pk_ex.
Proof. repeat split; cbn; lia. Qed.
Lemma range_ex x : q_range (s_prec st_ex x) pk_ex = Ok (1, 2)%R.
Proof. unfold q_range. cbn [st_ex s_prec pr_min pr_max]. rn. rewrite !(proj2 (Rleb_false _ _)) by lra. reflexivity. Qed.
Lemma makes_ex qs mus : makes 2 st_ex pk_ex qs mus.
Proof.
  split; intros x _; (split; [cbn; lia|]).
  - unfold new_q, init_gauss_legendre_q. rewrite range_ex. cbn [bind]. cbn [st_ex s_prec pr_n pr_interpol]. change (repeat (nZ RNum 0) (Z.to_nat 1)) with [0%R].
    rewrite (proj1 (gl_one 0 _ _ 0 0)). cbn [bind]. rewrite for_step by lia. cbn -[Rdiv ln exp find_pk]. 
    match goal with |- context[find_pk _ ?q _] => destruct (poly_lookup_safe (N := RNum) [1%R; 2%R] [5%R; 6%R] q) as (v & E & _); [reflexivity|cbn; lia|] end.
    unfold pk_ex. rewrite E. cbn [bind]. eauto.
  - unfold new_mu, init_gauss_legendre_mu. cbn [st_ex s_prec pr_n]. change (repeat (nZ RNum 0) (Z.to_nat 1)) with [0%R].
    rewrite (proj1 (gl_one 0 _ _ 0 0)). eexists. cbn [bind]. rewrite for_step by lia. reflexivity.
Qed.
Lemma starts_ex d : starts 2 st_ex d h_ex pk_ex pk_ex pk_ex ks_ex [[0; 1]; [2]].
Proof.
  split.
  - split; [|split; [apply Permutation_refl|apply makes_ex]]. constructor; try reflexivity.
    + intros l Hl. unfold out_cells in Hl. rewrite !in_app_iff, !In_column, in_flat_map in Hl. destruct Hl as [(j & _ & ->)|[(j & _ & ->)|(ik & _ & Hc)]]; try discriminate.
      destruct (cells_of_arr d ik _ Hc) as (y & j & -> & Ny). cbn. rewrite (proj2 (String.eqb_neq y "k") Ny). discriminate.
    + intros t x _ _. exists VNull. split; [reflexivity|intros []].
  - destruct d; try exact I; try (eexists; apply range_ex). split; [discriminate|]. split; [reflexivity|]. split; [reflexivity|]. intros l [->| ->]; discriminate.
Qed.
Lemma example d : exists ps ss vals h', computes 2 st_ex suave1_ex suave12_ex d pk_ex pk_ex pk_ex ks_ex ps ss vals /\
  ends (call_of 2 st_ex suave1_ex suave12_ex d 3 [[0; 1]; [2]]) h_ex h'.
Proof.
  destruct (computes_exists 2 st_ex suave1_ex suave12_ex d h_ex pk_ex pk_ex pk_ex ks_ex [[0; 1]; [2]]) as (ps & ss & vals & C).
  - split; reflexivity.
  - exact suave_ex.
  - exact pk_ex_table.
  - intros _. split; exact pk_ex_table.
  - apply starts_ex.
  - destruct (completes_exists _ _ _ _ (run_ok 2 st_ex suave1_ex suave12_ex d h_ex pk_ex pk_ex pk_ex ks_ex [[0; 1]; [2]] ps ss vals (starts_ex d) C)) as (h' & E). exists ps, ss, vals, h'. split; [exact C|exact E].
Qed.
Lemma starts_ex_serial d : starts 2 st_ex d h_ex pk_ex pk_ex pk_ex ks_ex [[2; 0; 1]].
Proof.
  destruct (starts_ex d) as [(M & _ & K) X]. split.
  - split; [|split; [|exact K]]. 2: { change (Permutation [2; 0; 1] [0; 1; 2]). apply (Permutation_cons_append [0; 1] 2). }
    destruct M as [M1 M2 M3 M4]. constructor; try assumption. intros t x Lt Hx. cbn in Lt. apply M4; [cbn; lia|exact Hx].
  - destruct d; try exact X. destruct X as (_ & X). split; [discriminate|exact X].
Qed.
Lemma progress_19 : exists nk ik p, 0 <= ik < nk /\ progress nk ik = Some p /\ p > 100.
Proof. exists 19, 18, 180. repeat split; lia. Qed.
