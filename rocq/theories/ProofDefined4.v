(** ProofDefined4: when the Gauss-Legendre tables have a value. *)
From Coq Require Import ZArith Lia List Reals Lra.
From Verif Require Import Base Num BaseFacts Spec Common Kernels Integrals SpecDefined ProofSearch ProofKernels ProofGL ProofGL2 ProofNewton3 ProofNewton4 ProofDefined ProofDefined3.
Import ListNotations.
Local Open Scope R_scope.

Definition op2 (x : R * R) : option R * option R := (Some (fst x), Some (snd x)).
Lemma EPS_O : EPS (N := ONum) = Some (EPS (N := RNum)).
Proof. reflexivity. Qed.
Lemma legendre_loop_O m : forall jj (z p1 p2 : R), (0 <= jj)%Z ->
  legendre_loop (N := ONum) m jj (Some z) (Some p1) (Some p2) = op2 (legendre_loop (N := RNum) m jj z p1 p2).
Proof.
  induction m as [|m IH]; intros jj z p1 p2 Hj; [reflexivity|]. cbn [legendre_loop]. on.
  rewrite odiv_some by (rewrite <- plus_IZR; apply not_0_IZR; lia). apply IH. lia.
Qed.
Lemma leg_O n (z : R) : leg (N := ONum) n (Some z) = op2 (leg (N := RNum) n z).
Proof. apply legendre_loop_O. lia. Qed.
Lemma newton_O fuel n : forall z z1 pp, newton_regular fuel n z z1 ->
  newton (N := ONum) fuel n (Some z) (Some z1) (Some pp) = res_map op2 (newton (N := RNum) fuel n z z1 pp).
Proof.
  induction fuel as [|f IH]; intros z z1 pp H; [reflexivity|]. cbn [newton newton_regular] in *. rewrite EPS_O, EPS_R. on.
  destruct (Rltb_spec epsR (Rabs (z - z1))) as [L|L]; [|reflexivity].
  destruct (Rlt_dec epsR (Rabs (z - z1))) as [_|]; [|contradiction]. destruct H as [H1 [H2 H3]].
  match goal with |- context [legendre_loop (N := ONum) ?a ?b ?c ?d ?e] => change (legendre_loop (N := ONum) a b c d e) with (leg (N := ONum) n (Some z)) end.
  match goal with |- context [legendre_loop (N := RNum) ?a ?b ?c ?d ?e] => change (legendre_loop (N := RNum) a b c d e) with (leg (N := RNum) n z) end.
  rewrite leg_O. unfold leg_pp in H2, H3. destruct (leg (N := RNum) n z) as [p1 p2]. unfold op2 at 1. cbn [fst snd] in *.
  assert (Epp : gl_pp (N := ONum) n (Some z) (Some p1) (Some p2) = Some (gl_pp (N := RNum) n z p1 p2)).
  { unfold gl_pp. on. rewrite odiv_some; [reflexivity|]. intro Q. apply H1. lra. }
  match goal with |- context [gl_pp (N := ONum) n ?a ?b ?c] => change (gl_pp (N := ONum) n a b c) with (gl_pp (N := ONum) n (Some z) (Some p1) (Some p2)) end.
  rewrite Epp. on. rewrite odiv_some by exact H2. apply IH, H3.
Qed.
Definition ogl (s : list R * list R * R) : list (option R) * list (option R) * option R := let '(x, w, p) := s in (os x, os w, Some p).
Lemma gl_body_O fuel n xmid xl ii s : (1 <= n < 2 ^ 62)%Z -> (0 <= ii < (n + 1) / 2)%Z ->
  gl_body (N := ONum) fuel n (Some xmid) (Some xl) ii (ogl s) = res_map ogl (gl_body (N := RNum) fuel n xmid xl ii s).
Proof.
  intros Hn Hi. pose proof (all_regular fuel n ltac:(lia)) as HR. destruct s as [[x w] pp]. unfold gl_body. cbn [ogl]. rewrite EPS_O, EPS_R. on.
  assert (Hd : IZR n + IZR 5 / IZR (10 ^ 1) <> 0) by (change (10 ^ 1)%Z with 10%Z; assert (IZR 1 <= IZR n) by (apply IZR_le; lia); lra).
  rewrite (odiv_some _ _ Hd). on. change (10 ^ 2)%Z with 100%Z in *. change (10 ^ 1)%Z with 10%Z in *.
  specialize (HR ii Hi). cbv zeta in HR.
  set (z0 := cos (PI * (IZR ii + 75 / 100) / (IZR n + 5 / 10))) in *.
  apply (bind_lift op2); [apply newton_O, HR|]. intros [z p] E. unfold op2. cbn [fst snd].
  pose proof (newton_R fuel n z0 pp z p ltac:(lia) E HR) as HNear.
  assert (HU : -1 < z < 1).
  { destruct (start_code n ii ltac:(lia) Hi) as [Q1 Q2]. destruct (start_guess _ _ Q1) as (t & _ & _ & HS).
    fold z0 in Q2. rewrite Q2 in E. destruct (run_result n _ _ ltac:(lia) HS fuel pp z p E) as (Q3 & _). destruct HS as (Q4 & Q5 & _). lra. }
  assert (Hp : p <> 0) by (destruct HNear as [y' [_ [_ [_ [_ Q]]]]]; exact Q).
  apply (bind_lift os); [apply wr_os|]. intros x1 _. apply (bind_lift os); [apply wr_os|]. intros x2 _.
  on. rewrite odiv_some. 2:{ apply Rmult_integral_contrapositive_currified; [apply Rmult_integral_contrapositive_currified|]; [nra|exact Hp|exact Hp]. }
  apply (bind_lift os); [apply wr_os|]. intros w1 _. apply (bind_lift Some); [apply rd_os|]. intros wi _.
  apply (bind_lift os); [apply wr_os|]. intros w2 _. reflexivity.
Qed.
Lemma gl_O fuel n xmin xmax x w : (1 <= n < 2 ^ 62)%Z ->
  nodes_weights_gauss_legendre (N := ONum) fuel (Some xmin) (Some xmax) (os x) (os w) n
  = res_map opair (nodes_weights_gauss_legendre (N := RNum) fuel xmin xmax x w n).
Proof.
  intros Hn. unfold nodes_weights_gauss_legendre. on. rewrite !odiv_some by (apply not_0_IZR; lia).
  rewrite (u64_small (n + 1)) by (unfold SIZE_T; lia).
  apply (bind_lift ogl).
  - apply (for_lift0 ogl); [reflexivity|]. intros ii s Hi. apply (gl_body_O fuel n ((xmax + xmin) / 2) ((xmax - xmin) / 2) ii s Hn Hi).
  - intros [[x1 w1] p1] _. reflexivity.
Qed.

(** ** The tables *)
Definition oq (g : glq RNum) : glq ONum := mkGlq (N := ONum) (Some (gq_k g)) (gq_nq g) (os (gq_x g)) (os (gq_q g)) (os (gq_w g)) (os (gq_pk g)).
Definition om (g : glmu RNum) : glmu ONum := mkGlmu (N := ONum) (gm_nmu g) (os (gm_muref g)) (os (gm_wref g)) (os (gm_mu g)) (os (gm_w g)).
Lemma q_range_O p pkl : q_range (N := ONum) (oprec p) (opk pkl) = res_map op2 (q_range (N := RNum) p pkl).
Proof.
  unfold q_range. on. cbn [oprec pr_min pr_max opk pk_k pk_n test]. destruct (Rleb (pr_min p) 0 || Rleb (pr_max p) 0)%bool; [|reflexivity].
  apply (bind_lift Some); [apply rd_os|]. intros a _. apply (bind_lift Some); [apply rd_os|]. intros b _. reflexivity.
Qed.
Lemma q_range_pos p (K P : list R) a b : (forall x, In x K -> 0 < x) -> q_range (N := RNum) p (mk_table (N := RNum) K P) = Ok (a, b) -> 0 < a /\ 0 < b.
Proof.
  intros HK. unfold q_range. rn. destruct (Rleb_spec (pr_min p) 0) as [A|A]; [|destruct (Rleb_spec (pr_max p) 0) as [B|B]]; cbn [orb].
  3:{ intros [= <- <-]. split; apply Rnot_le_lt; assumption. }
  all: destruct (rd _ 0) as [u|] eqn:E1; cbn [bind]; [|discriminate]; destruct (rd _ (u64 _)) as [v|] eqn:E2; cbn [bind]; [|discriminate];
    intros [= <- <-]; split; [apply (rd_inv 0) in E1; destruct E1 as [H ->]|apply (rd_inv 0) in E2; destruct E2 as [H ->]]; apply HK, znth_In, H.
Qed.
Lemma update_q_O g k : k <> 0 -> update_gauss_legendre_q (N := ONum) (oq g) (Some k) = res_map oq (update_gauss_legendre_q (N := RNum) g k).
Proof.
  intros Hk. unfold update_gauss_legendre_q. cbn [oq gq_nq gq_q gq_x gq_w gq_pk]. apply (bind_lift os); [|reflexivity].
  apply (for_lift0 os); [reflexivity|]. intros j s _. apply (bind_lift Some); [apply rd_os|]. intros q _. on. rewrite odiv_some by exact Hk. apply wr_os.
Qed.
Lemma update_mu_O g a b : update_gauss_legendre_mu (N := ONum) (om g) (Some a) (Some b) = res_map om (update_gauss_legendre_mu (N := RNum) g a b).
Proof.
  unfold update_gauss_legendre_mu. cbn [om gm_nmu gm_muref gm_wref gm_mu gm_w]. on. rewrite odiv_some by (apply not_0_IZR; lia).
  apply (bind_lift opair); [|intros [x y] _; reflexivity].
  apply (for_lift0 opair); [reflexivity|]. intros j [x y] _. cbn [opair fst snd]. apply (bind_lift Some); [apply rd_os|]. intros q _. on.
  apply (bind_lift os); [apply wr_os|]. intros x1 _. apply (bind_lift Some); [apply rd_os|]. intros v _. on.
  apply (bind_lift os); [apply wr_os|]. intros y1 _. reflexivity.
Qed.
Lemma init_mu_O fuel p : (1 <= pr_n p < 2 ^ 62)%Z ->
  init_gauss_legendre_mu (N := ONum) fuel (oprec p) = res_map om (init_gauss_legendre_mu (N := RNum) fuel p).
Proof.
  intros Hn. unfold init_gauss_legendre_mu. cbn [oprec pr_n]. on. rewrite !repeat_os.
  apply (bind_lift opair); [apply gl_O; assumption|]. intros [mr wr_] _. cbn [opair fst snd].
  apply (bind_lift opair); [|intros [x y] _; reflexivity].
  apply (for_lift0 opair); [reflexivity|]. intros j [x y] _. cbn [opair fst snd]. apply (bind_lift Some); [apply rd_os|]. intros q _.
  apply (bind_lift os); [apply wr_os|]. intros x1 _. apply (bind_lift Some); [apply rd_os|]. intros v _.
  apply (bind_lift os); [apply wr_os|]. intros y1 _. reflexivity.
Qed.
Section Table.
Variables (K P : list R).
Hypothesis HL : length P = length K.
Hypothesis HN : (3 <= zlen K < 2 ^ 62)%Z.
Hypothesis HI : increasing K.
Hypothesis HK : forall x, In x K -> 0 < x.
Let tb := mk_table (N := RNum) K P.
Lemma init_q_O fuel p : (1 <= pr_n p < 2 ^ 62)%Z ->
  init_gauss_legendre_q (N := ONum) fuel (oprec p) (opk tb) = res_map oq (init_gauss_legendre_q (N := RNum) fuel p tb).
Proof.
  intros Hn. unfold init_gauss_legendre_q. cbn [oprec pr_n pr_interpol]. on. rewrite !repeat_os.
  apply (bind_lift op2); [apply q_range_O|]. intros [a b] E. unfold op2. cbn [fst snd].
  destruct (q_range_pos p K P a b HK E) as [Ha Hb]. rewrite !olog_some by assumption.
  apply (bind_lift opair); [apply gl_O; assumption|]. intros [x w] EG. cbn [opair fst snd].
  assert (Hx : zlen x = pr_n p).
  { pose proof (gl_safe (N := RNum) fuel (ln a) (ln b) (repeat 0 (Z.to_nat (pr_n p))) (repeat 0 (Z.to_nat (pr_n p))) (pr_n p) ltac:(lia) ltac:(apply zlen_repeat; lia) ltac:(apply zlen_repeat; lia)) as Q.
    rn_in Q. rn_in EG. destruct Q as [[x' [w' [Q1 [Q2 _]]]]|Q1]; rewrite Q1 in EG; [injection EG as <- <-; exact Q2|discriminate]. }
  apply (bind_lift opair).
  - apply (for_lift0 opair); [reflexivity|]. intros j [x1 q1] _. cbn [opair fst snd]. apply (bind_lift Some); [apply rd_os|]. intros xi _. on.
    apply (bind_lift os); [apply wr_os|]. intros q2 _. apply (bind_lift Some); [apply rd_os|]. intros qi _.
    apply (bind_lift os); [apply wr_os|]. reflexivity.
  - intros [x1 q1] EF. cbn [opair fst snd]. apply (bind_lift os); [|reflexivity]. apply find_pk_O; try assumption.
    (* every node is an exponential *)
    set (z := repeat 0 (Z.to_nat (pr_n p))) in *. assert (Hz : zlen z = pr_n p) by (unfold z; apply zlen_repeat; lia).
    assert (I : zlen q1 = pr_n p /\ forall i, (0 <= i < pr_n p)%Z -> 0 < znth 0 q1 i).
    { match type of EF with for_ ?lo ?hi ?f ?s0 = _ =>
        destruct (for_inv (fun (j : Z) (s : list R * list R) => zlen (fst s) = pr_n p /\ zlen (snd s) = pr_n p /\ forall i, (0 <= i < j)%Z -> 0 < znth 0 (snd s) i) lo hi f s0) as [[x2 q2] [E2 Q]] end.
      - lia.
      - cbn [fst snd]. split; [exact Hx|]. split; [exact Hz|]. intros i Hi. lia.
      - intros j [x2 q2] Hj [A1 [A2 A3]]. cbn [fst snd] in *. rewrite (rd_ok 0) by lia. cbn [bind]. rewrite wr_ok by lia. cbn [bind].
        rewrite (rd_ok 0) by (rewrite zlen_upd; lia). cbn [bind]. rewrite wr_ok by lia. eexists; split; [reflexivity|]. cbn [fst snd]. rewrite !zlen_upd.
        split; [exact A1|]. split; [exact A2|]. intros i Hi. rewrite znth_upd by lia. destruct (Z.eqb_spec i j) as [->|]; [apply exp_pos|apply A3; lia].
      - rewrite E2 in EF. injection EF as <- <-. split; apply Q. }
    intros k Hk. apply (In_nth _ _ 0) in Hk. destruct Hk as [i [Hi <-]]. pose proof (proj2 I (Z.of_nat i)) as Q. unfold znth in Q. rewrite Nat2Z.id in Q. apply Q. unfold zlen in *. lia.
Qed.
End Table.
