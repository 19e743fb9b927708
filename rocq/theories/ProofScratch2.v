(** ProofScratch2: the same for each function. *)
From Coq Require Import ZArith Lia List Bool.
From Verif Require Import Base Num BaseFacts Lockstep Common Kernels Gamma2 Integrals SpecLoops SpecScratch SpecTable Sums ProofGL2 ProofSearch ProofFindPk ProofCommon2 ProofGamma2g ProofIntegrals ProofScratch.
Import ListNotations.
Local Open Scope Z_scope.

Section Scratch2.
Context {N : Num}.
Local Notation T := (T N).

(** ** Independence of the scratch columns *)
Lemma gamma1_1loop_same (g g' : glq N) a k : q_ok g -> same_q g g' -> gamma1_1loop g a k = gamma1_1loop g' a k.
Proof. intros Hg S. unfold gamma1_1loop. rewrite (update_q_same g g' k Hg S). reflexivity. Qed.
Lemma gamma1_2loop_same (g g' : glq N) a k : q_ok g -> same_q g g' -> gamma1_2loop g a k = gamma1_2loop g' a k.
Proof. intros Hg S. unfold gamma1_2loop. rewrite (update_q_same g g' k Hg S). reflexivity. Qed.
Lemma update_inv (g u : glq N) k : q_ok g -> update_gauss_legendre_q g k = Ok u -> same_q g u.
Proof. intros Hg E. destruct (update_q_ok g k Hg) as [v [E' S]]. rewrite E in E'. injection E' as ->. exact S. Qed.
Lemma gamma1_1loop_tab (g u : glq N) a k v : q_ok g -> gamma1_1loop g a k = Ok (v, u) -> same_q g u.
Proof.
  intros Hg E. unfold gamma1_1loop in E. destruct (update_gauss_legendre_q g k) as [w|] eqn:Ew; [|discriminate]. cbn [bind] in E.
  match type of E with bind ?y _ = _ => destruct y; [|discriminate] end. cbn [bind] in E. injection E as _ <-. eapply update_inv; eassumption.
Qed.
Lemma gamma1_2loop_tab (g u : glq N) a k v : q_ok g -> gamma1_2loop g a k = Ok (v, u) -> same_q g u.
Proof.
  intros Hg E. unfold gamma1_2loop in E. destruct (update_gauss_legendre_q g k) as [w|] eqn:Ew; [|discriminate]. cbn [bind] in E.
  match type of E with bind ?y _ = _ => destruct y; [|discriminate] end. cbn [bind] in E. injection E as _ <-. eapply update_inv; eassumption.
Qed.
Lemma calc_gamma1_same (g1 g1' g2 g2' : glq N) a b k : q_ok g1 -> same_q g1 g1' -> q_ok g2 -> same_q g2 g2' ->
  calc_pk_gamma1_2loop g1 g2 a b k = calc_pk_gamma1_2loop g1' g2' a b k.
Proof.
  intros H1 S1 H2 S2. unfold calc_pk_gamma1_2loop. rewrite (gamma1_1loop_same g1 g1' a k), (gamma1_2loop_same g2 g2' a k) by assumption. reflexivity.
Qed.
Lemma calc_gamma2_tree_same pkl im (g g' : glq N) (m m' : glmu N) a b k : q_ok g -> same_q g g' -> mu_ok m -> same_rule m m' ->
  same_result (calc_pk_gamma2_tree pkl im g m a b k) (calc_pk_gamma2_tree pkl im g' m' a b k).
Proof.
  intros Hg Sg Hm Sm. exact (calc_same true 1 (fun g => kernel_pk_gamma2_tree pkl im g a b) (fun g => add_x3w g false)
    (fun _ s => Ok (map (fun v => nmul N v (ndiv N (nmul N (nmul N k k) k) (nmul N (nmul N (nZ N 2) npi) npi))) s)) g g' m m' k Hg Sg Hm Sm).
Qed.
Lemma calc_gamma2_1loop_same pkl im (g g' : glq N) (m m' : glmu N) gd gt a b k : q_ok g -> same_q g g' -> mu_ok m -> same_rule m m' ->
  same_result (calc_pk_gamma2_1loop pkl im g m gd gt a b k) (calc_pk_gamma2_1loop pkl im g' m' gd gt a b k).
Proof.
  intros Hg Sg Hm Sm. exact (calc_same true 3 (fun g => kernel_pk_gamma2_1loop pkl im g gd gt a b) (fun g => add_x3w g false)
    (fun _ s => Ok (map (fun v => nmul N v (ndiv N (nmul N (nmul N k k) k) (nmul N (nmul N (nZ N 2) npi) npi))) s)) g g' m m' k Hg Sg Hm Sm).
Qed.
Lemma calc_B_same pdt ptt im (g g' : glq N) (m m' : glmu N) k : q_ok g -> same_q g g' -> mu_ok m -> same_rule m m' ->
  same_result (calc_pk_B pdt ptt im g m k) (calc_pk_B pdt ptt im g' m' k).
Proof.
  intros Hg Sg Hm Sm. exact (calc_same true 12 (fun g => kernel_B pdt ptt im g) (fun g iq x integ_B => w <- rd (gq_w g) iq ;; let xw := nmul N x w in Ok (map (fun v => nmul N v xw) integ_B))
    (fun _ s => Ok (map (fun v => nmul N v (ndiv N (nmul N (nmul N k k) k) (nmul N (nmul N (nZ N 2) npi) npi))) s)) g g' m m' k Hg Sg Hm Sm).
Qed.
Lemma calc_bias_same pkl im (g g' : glq N) (m m' : glmu N) a k kernel half : q_ok g -> same_q g g' -> mu_ok m -> same_rule m m' ->
  same_result (calc_pk_bias_1loop pkl im g m a k kernel half) (calc_pk_bias_1loop pkl im g' m' a k kernel half).
Proof.
  intros Hg Sg Hm Sm. pose proof (calc_same half 1 (fun g => kernel_pk_bias_1loop pkl im g a kernel) (fun g => add_x3w g half)
    (fun _ s => bias <- rd s 0 ;; Ok (nmul N (ndiv N (nmul N (nmul N k k) k) (nmul N (nmul N (nZ N 4) npi) npi)) bias)) g g' m m' k Hg Sg Hm Sm) as H.
  cbn zeta in H. revert H. unfold calc_pk_bias_1loop.
  destruct (update_gauss_legendre_q g k) as [u|], (update_gauss_legendre_q g' k) as [u'|]; cbn [bind]; try (intro H; exact H);
    repeat (match goal with |- context [q_loop ?h ?u ?m ?n ?kk ?ad] => destruct (q_loop h u m n kk ad) as [[? ?]|]; cbn [bind] end); try (intro H; exact H);
    repeat (match goal with |- context [rd ?s 0] => destruct (rd s 0); cbn [bind] end); intro H; exact H.
Qed.
Lemma calc_A_1loop_same pkl imq im (g g' : glq N) (m m' : glmu N) k : q_ok g -> same_q g g' -> mu_ok m -> same_rule m m' ->
  same_result (calc_pk_A_1loop pkl imq im g m k) (calc_pk_A_1loop pkl imq im g' m' k).
Proof.
  intros Hg Sg Hm Sm. unfold calc_pk_A_1loop. rewrite <- (update_q_same g g' k Hg Sg).
  destruct (update_q_ok g k Hg) as [u [E Su]]. rewrite E. cbn [bind]. destruct (find1 pkl imq k) as [pk|]; [|reflexivity]. cbn [bind].
  match goal with |- context [q_loop false u m 5 ?kk ?ad] => pose proof (q_loop_same false u m m' 5 kk ad Hm Sm) as H end.
  repeat (match type of H with context [q_loop ?h ?u ?m ?n ?kk ?ad] => destruct (q_loop h u m n kk ad) as [[? ?]|]; cbn [bind res_rel fst snd] in * end); try exact H; try contradiction.
  destruct H as [-> H]. cbn. split; [reflexivity|]. split; [apply same_q_refl, Su|exact H].
Qed.

(** The bispectrum reads the table of gamma1_1loop.c. *)
Lemma reg_pair_same (g g' : glq N) c k s : q_ok g -> same_q g g' ->
  same_bisp (gamma1_reg_pair g c k s) (gamma1_reg_pair g' c k s).
Proof.
  intros Hg S. unfold gamma1_reg_pair. destruct c; [|cbn; auto]. rewrite <- (gamma1_1loop_same g g') by assumption.
  destruct (gamma1_1loop g DELTA k) as [[d u]|] eqn:E; [|reflexivity]. cbn [bind]. destruct (gamma1_1loop u THETA k) as [[t v]|] eqn:E2; [|reflexivity]. cbn.
  split; [reflexivity|]. apply same_q_refl. pose proof (gamma1_1loop_tab g u _ _ _ Hg E) as S1. exact (proj1 (gamma1_1loop_tab u v _ _ _ (proj1 S1) E2)).
Qed.
Lemma reg_pair_tab (g u : glq N) c k s v : q_ok g -> gamma1_reg_pair g c k s = Ok (v, u) -> same_q g u.
Proof.
  intros Hg E. unfold gamma1_reg_pair in E. destruct c; [|injection E as _ <-; apply same_q_refl, Hg].
  destruct (gamma1_1loop g DELTA k) as [[d w]|] eqn:E1; [|discriminate]. cbn [bind] in E. destruct (gamma1_1loop w THETA k) as [[t z]|] eqn:E2; [|discriminate]. cbn [bind] in E.
  injection E as _ <-. pose proof (gamma1_1loop_tab g w _ _ _ Hg E1) as S1. eapply same_q_trans; [exact S1|]. eapply gamma1_1loop_tab; [apply S1|exact E2].
Qed.
Lemma reg1_same (g g' : glq N) k p kp sk sp skp : q_ok g -> same_q g g' ->
  same_bisp (gamma1_reg_1loop g k p kp sk sp skp) (gamma1_reg_1loop g' k p kp sk sp skp).
Proof.
  intros Hg S. unfold gamma1_reg_1loop.
  match goal with |- context [gamma1_reg_pair g ?c k sk] => pose proof (reg_pair_same g g' c k sk Hg S) as H; destruct (gamma1_reg_pair g c k sk) as [[[d1 t1] u]|] eqn:E, (gamma1_reg_pair g' c k sk) as [[[d1' t1'] u']|] eqn:E' end;
    cbn [same_bisp] in H; try contradiction; [|exact H]. destruct H as [[= <- <-] Su]. cbn [bind]. pose proof (proj1 (reg_pair_tab _ _ _ _ _ _ Hg E)) as Hu.
  match goal with |- context [gamma1_reg_pair u ?c p sp] => pose proof (reg_pair_same u u' c p sp Hu Su) as H; destruct (gamma1_reg_pair u c p sp) as [[[d2 t2] v]|] eqn:E2, (gamma1_reg_pair u' c p sp) as [[[d2' t2'] v']|] eqn:E2' end;
    cbn [same_bisp] in H; try contradiction; [|exact H]. destruct H as [[= <- <-] Sv]. cbn [bind]. pose proof (proj1 (reg_pair_tab _ _ _ _ _ _ Hu E2)) as Hv.
  match goal with |- context [gamma1_reg_pair v ?c kp skp] => pose proof (reg_pair_same v v' c kp skp Hv Sv) as H; destruct (gamma1_reg_pair v c kp skp) as [[[d3 t3] w]|] eqn:E3, (gamma1_reg_pair v' c kp skp) as [[[d3' t3'] w']|] eqn:E3' end;
    cbn [same_bisp] in H; try contradiction; [|exact H]. destruct H as [[= <- <-] Sw]. cbn. auto.
Qed.
Lemma bisp_I_same pkl im uv (g g' : glq N) gd gt k p kp out : q_ok g -> same_q g g' ->
  same_bisp (bispectrum_1loop_I pkl im uv g gd gt k p kp out) (bispectrum_1loop_I pkl im uv g' gd gt k p kp out).
Proof.
  intros Hg S. unfold bispectrum_1loop_I.
  do 3 (match goal with |- context [bind (sigmad2_1 pkl uv ?q) _] => destruct (sigmad2_1 pkl uv q); cbn [bind]; [|reflexivity] end).
  match goal with |- context [bind (if ?c then ?x else ?y) _] => destruct (if c then x else y) as [out1|]; cbn [bind]; [|reflexivity] end.
  do 3 (match goal with |- context [bind (find1 pkl im ?q) _] => destruct (find1 pkl im q); cbn [bind]; [|reflexivity] end).
  match goal with |- context [gamma1_reg_1loop g k p kp ?a ?b ?c] => pose proof (reg1_same g g' k p kp a b c Hg S) as H;
    destruct (gamma1_reg_1loop g k p kp a b c) as [[[[[[[x1 x2] x3] x4] x5] x6] u]|], (gamma1_reg_1loop g' k p kp a b c) as [[[[[[[y1 y2] y3] y4] y5] y6] u']|] end;
    cbn [same_bisp] in H; try contradiction; [|exact H]. destruct H as [[= <- <- <- <- <- <-] Su]. cbn [bind].
  match goal with |- context [gamma2_reg_1loop ?a ?b ?c ?d ?e ?f ?g0 ?h] => destruct (gamma2_reg_1loop a b c d e f g0 h) as [[[[[[? ?] ?] ?] ?] ?]|]; cbn [bind]; [|reflexivity] end.
  do 8 (match goal with |- context [bind (wr ?o ?i ?v) _] => destruct (wr o i v); cbn [bind]; [|reflexivity] end).
  cbn. auto.
Qed.
Lemma calc_A_2loop_I_same pkl im uv (g g' : glq N) (m m' : glmu N) (g1 g1' : glq N) gd gt k : q_ok g -> same_q g g' -> mu_ok m -> same_rule m m' -> q_ok g1 -> same_q g1 g1' ->
  same_result (calc_pk_A_2loop_I pkl im uv g m g1 gd gt k) (calc_pk_A_2loop_I pkl im uv g' m' g1' gd gt k).
Proof.
  intros Hg Sg Hm Sm H1 S1.
  assert (HK : forall u iq mu, kernel_A_tA_2loop_I pkl im uv u g1 gd gt iq mu = kernel_A_tA_2loop_I pkl im uv u g1' gd gt iq mu).
  { intros u iq mu. unfold kernel_A_tA_2loop_I. do 2 (match goal with |- context [bind (rd ?l iq) _] => destruct (rd l iq); cbn [bind]; [|reflexivity] end).
    destruct (kernel_projection_A_tA _ _) as [pA ptA]. 
    match goal with |- context [bispectrum_1loop_I pkl im uv g1 gd gt ?a ?b ?c ?d] => pose proof (bisp_I_same pkl im uv g1 g1' gd gt a b c d H1 S1) as H;
      destruct (bispectrum_1loop_I pkl im uv g1 gd gt a b c d) as [[x y]|], (bispectrum_1loop_I pkl im uv g1' gd gt a b c d) as [[x' y']|] end; cbn in H; try contradiction; [|cbn; congruence].
    destruct H as [<- _]. reflexivity. }
  pose proof (calc_same true 12 (fun g => kernel_A_tA_2loop_I pkl im uv g g1 gd gt) (fun g iq x integ => w <- rd (gq_w g) iq ;; Ok (map (fun v => nmul N v w) integ))
    (fun _ s => Ok (map (fun v => nmul N v (ndiv N (nmul N (nmul N k k) k) (nmul N (nmul N (nZ N 2) npi) npi))) s)) g g' m m' k Hg Sg Hm Sm) as H. cbn beta zeta in H.
  unfold calc_pk_A_2loop_I. cbn zeta.
  assert (HQ : forall u w ad, q_loop true u w 12 (kernel_A_tA_2loop_I pkl im uv u g1' gd gt) ad = q_loop true u w 12 (kernel_A_tA_2loop_I pkl im uv u g1 gd gt) ad).
  { intros u w ad. unfold q_loop. apply for_ext. intros i [acc z] Hi. destruct (rd (gq_x u) i) as [x|]; cbn [bind]; [|reflexivity].
    destruct (set_mu_range true u z x) as [[z'|]|]; cbn [bind]; try reflexivity.
    replace (mu_loop z' 12 (kernel_A_tA_2loop_I pkl im uv u g1' gd gt i)) with (mu_loop z' 12 (kernel_A_tA_2loop_I pkl im uv u g1 gd gt i)); [reflexivity|].
    unfold mu_loop. apply for_ext. intros j s Hj. destruct (rd (gm_mu z') j); cbn [bind]; [|reflexivity]. rewrite HK. reflexivity. }
  destruct (update_q_ok g' k (proj1 Sg)) as [u' [E' _]]. rewrite E' in H |- *. cbn [bind] in H |- *. rewrite HQ. exact H.
Qed.

(** ** No access is out of bounds *)
Lemma find1_ok (p : Pk N) k : lin_table p -> exists v, find1 p POLY k = Ok v.
Proof.
  intros [L [B E]]. unfold find1. destruct (poly_lookup_safe (N := N) (pk_k p) (pk_p p) [k] L B) as [ps [F Lp]].
  replace (mk_table (pk_k p) (pk_p p)) with p in F by (destruct p; unfold mk_table; cbn in *; congruence).
  rewrite F. cbn [bind]. destruct ps as [|x [|]]; try discriminate. exists x. reflexivity.
Qed.
Lemma sig_inner_ok (p : Pk N) kmax n : lin_table p -> forall i acc, 0 <= i -> i + Z.of_nat n <= zlen (pk_k p) - 1 ->
  exists i' acc' o, sig_inner n p kmax i acc = Ok (i', acc', o) /\ 0 <= i' <= zlen (pk_k p) - 1.
Proof.
  intros [L [B E]]. set (d := nZ N 0). assert (LP : zlen (pk_p p) = zlen (pk_k p)) by (unfold zlen; lia).
  induction n as [|n IH]; intros i acc Hi Hn; cbn [sig_inner]; [eexists _, _, _; split; [reflexivity|lia]|].
  rewrite !(rd_ok d) by lia. cbn [bind]. destruct (nlt N kmax _); [eexists _, _, _; split; [reflexivity|lia]|]. apply IH; lia.
Qed.
Lemma sig_loop_ok (p : Pk N) uv ks : lin_table p -> forall i acc, 0 <= i <= zlen (pk_k p) - 1 ->
  exists l, sig_loop p uv i acc ks = Ok l /\ length l = length ks.
Proof.
  intros H. assert (H' := H). destruct H' as [L [B E]]. induction ks as [|k ks IH]; intros i acc Hi; cbn [sig_loop]; [exists []; auto|].
  rewrite (rd_ok (nZ N 0)) by lia. cbn [bind]. destruct (nlt N _ _).
  - destruct (IH i acc Hi) as [l [-> Ll]]. cbn [bind]. eexists. split; [reflexivity|]. cbn. congruence.
  - rewrite E, u64_small by (unfold SIZE_T; lia). destruct (sig_inner_ok p (nmul N k uv) (Z.to_nat (zlen (pk_k p) - 1 - i)) H i acc) as [i' [acc' [o [-> Hi']]]]; try lia. cbn [bind].
    destruct (IH i' acc' Hi') as [l [-> Ll]]. cbn [bind]. eexists. split; [reflexivity|]. cbn. congruence.
Qed.
Lemma sigmad2_ok (p : Pk N) uv k : lin_table p -> exists v, sigmad2_1 p uv k = Ok v.
Proof.
  intros H. unfold sigmad2_1, calc_running_sigmad2. destruct (sig_loop_ok p uv [k] H 0 (nZ N 0)) as [l [-> Ll]]; [destruct H; lia|].
  cbn [bind]. destruct l as [|x [|]]; try discriminate. exists x. reflexivity.
Qed.
Lemma gamma1_1loop_ok (g : glq N) a k : q_ok g -> exists v u, gamma1_1loop g a k = Ok (v, u) /\ same_q g u.
Proof.
  intros Hg. unfold gamma1_1loop. destruct (update_q_ok g k Hg) as [u [-> S]]. cbn [bind]. destruct (proj1 S) as [H0 [H1 [H2 [H3 H4]]]].
  match goal with |- context [for_ 0 (gq_nq u) ?b ?s] => destruct (for_total (gq_nq u) b (fun _ => True) s) as [x [E _]] end; [lia|exact I| |].
  - intros i s Hi _. rewrite !(rd_ok s) by lia. cbn [bind]. eauto.
  - rewrite E. cbn [bind]. eauto.
Qed.
Lemma gamma1_2loop_ok (g : glq N) a k : q_ok g -> exists v u, gamma1_2loop g a k = Ok (v, u) /\ same_q g u.
Proof.
  intros Hg. unfold gamma1_2loop. destruct (update_q_ok g k Hg) as [u [-> S]]. cbn [bind]. destruct (proj1 S) as [H0 [H1 [H2 [H3 H4]]]].
  match goal with |- context [for_ 0 (gq_nq u) ?b ?s] => destruct (for_total (gq_nq u) b (fun _ => True) s) as [x [E _]] end; [lia|exact I| |].
  - intros i s Hi _. rewrite !(rd_ok s) by lia. cbn [bind].
    match goal with |- context [for_ 0 (gq_nq u) ?b ?s0] => destruct (for_total (gq_nq u) b (fun _ => True) s0) as [x [E _]] end; [lia|exact I| |].
    + intros j t Hj _. rewrite !(rd_ok t) by lia. cbn [bind]. eauto.
    + rewrite E. cbn [bind]. eauto.
  - rewrite E. cbn [bind]. eauto.
Qed.
Lemma calc_gamma1_ok (g1 g2 : glq N) a b k : q_ok g1 -> q_ok g2 ->
  exists v u1 u2, calc_pk_gamma1_2loop g1 g2 a b k = Ok (v, u1, u2) /\ same_q g1 u1 /\ same_q g2 u2.
Proof.
  intros H1 H2. unfold calc_pk_gamma1_2loop.
  destruct (gamma1_1loop_ok g1 a k H1) as [a1 [u1 [-> S1]]]. destruct (gamma1_2loop_ok g2 a k H2) as [a2 [u2 [-> S2]]]. cbn [bind].
  destruct (flag_eqb a b); [eexists _, _, _; split; [reflexivity|auto]|].
  destruct (gamma1_1loop_ok u1 b k (proj1 S1)) as [b1 [w1 [-> S3]]]. destruct (gamma1_2loop_ok u2 b k (proj1 S2)) as [b2 [w2 [-> S4]]]. cbn [bind].
  eexists _, _, _. split; [reflexivity|]. split; eapply same_q_trans; eassumption.
Qed.
Lemma calc_ok {A} half nc kern add (post : glq N -> list T -> res A) (len : A -> Prop) (g : glq N) (m : glmu N) k :
  q_ok g -> mu_ok m ->
  (forall u, same_q g u -> forall iq mu, 0 <= iq < gq_nq u -> exists v, kern u iq mu = Ok v /\ length v = nc) ->
  (forall u, same_q g u -> forall iq x l, 0 <= iq < gq_nq u -> length l = nc -> exists v, add u iq x l = Ok v /\ length v = nc) ->
  (forall u s, length s = nc -> exists v, post u s = Ok v /\ len v) ->
  ends_with len g m (g <- update_gauss_legendre_q g k ;; '(s, m) <- q_loop half g m nc (kern g) (add g) ;; v <- post g s ;; Ok (v, g, m)).
Proof.
  intros Hg Hm HK HA HP. destruct (update_q_ok g k Hg) as [u [-> S]]. cbn [bind].
  destruct (q_loop_ok half u m nc (kern u) (add u) (proj1 S) Hm (HK u S) (HA u S)) as [s [w [-> [Ls Sm]]]]. cbn [bind].
  destruct (HP u s Ls) as [v [-> Lv]]. cbn [bind]. exists v, u, w. auto.
Qed.
Lemma add_x3w_ok (u : glq N) two nc iq x l : q_ok u -> 0 <= iq < gq_nq u -> length l = nc -> exists v, add_x3w u two iq x l = Ok v /\ length v = nc.
Proof. intros [H0 [H1 [H2 [H3 H4]]]] Hi L. unfold add_x3w. rewrite (rd_ok x) by lia. cbn [bind]. eexists. split; [reflexivity|]. rewrite map_length. exact L. Qed.
Ltac start u S := let Hq := fresh "Hq" in destruct (proj1 S) as [? [? [? [? ?]]]];
  set (d := nZ N 0); repeat (rewrite !(rd_ok d) by lia; cbn [bind]).
Lemma calc_gamma2_tree_ok (pkl : Pk N) (g : glq N) (m : glmu N) a b k : lin_table pkl -> q_ok g -> mu_ok m ->
  ends_with (fun v => length v = 1%nat) g m (calc_pk_gamma2_tree pkl POLY g m a b k).
Proof.
  intros HT Hg Hm. apply (calc_ok true 1 (fun g => kernel_pk_gamma2_tree pkl POLY g a b) (fun g => add_x3w g false)
    (fun _ s => Ok (map (fun v => nmul N v (ndiv N (nmul N (nmul N k k) k) (nmul N (nmul N (nZ N 2) npi) npi))) s))); auto.
  - intros u S iq mu Hi. unfold kernel_pk_gamma2_tree. start u S.
    match goal with |- context [find1 pkl POLY ?q] => destruct (find1_ok pkl q HT) as [v ->] end. cbn [bind]. destruct (if flag_eqb a b then _ else _). eauto.
  - intros u S iq x l. apply add_x3w_ok, S.
  - intros u s L. eexists. split; [reflexivity|]. rewrite map_length. exact L.
Qed.
Lemma stdPT_ok (gd gt : glq N) a n k1 k2 k3 : table_ok gd -> table_ok gt -> exists v, gamma2_stdPT gd gt a n k1 k2 k3 = Ok v.
Proof. intros H1 H2. unfold gamma2_stdPT. destruct (n =? 0); [eauto|]. destruct (n =? 1); [|eauto]. destruct a; apply gamma2_total; assumption. Qed.
Lemma calc_gamma2_1loop_ok (pkl : Pk N) (g : glq N) (m : glmu N) gd gt a b k : lin_table pkl -> q_ok g -> mu_ok m -> table_ok gd -> table_ok gt ->
  ends_with (fun v => length v = 3%nat) g m (calc_pk_gamma2_1loop pkl POLY g m gd gt a b k).
Proof.
  intros HT Hg Hm Hd Ht. apply (calc_ok true 3 (fun g => kernel_pk_gamma2_1loop pkl POLY g gd gt a b) (fun g => add_x3w g false)
    (fun _ s => Ok (map (fun v => nmul N v (ndiv N (nmul N (nmul N k k) k) (nmul N (nmul N (nZ N 2) npi) npi))) s))); auto.
  - intros u S iq mu Hi. unfold kernel_pk_gamma2_1loop. start u S.
    match goal with |- context [find1 pkl POLY ?q] => destruct (find1_ok pkl q HT) as [v ->] end. cbn [bind].
    destruct (flag_eqb a b); repeat (match goal with |- context [gamma2_stdPT gd gt ?f ?n ?x ?y ?z] =>
      let w := fresh in destruct (stdPT_ok gd gt f n x y z Hd Ht) as [w ->]; cbn [bind] end); eauto.
  - intros u S iq x l. apply add_x3w_ok, S.
  - intros u s L. eexists. split; [reflexivity|]. rewrite map_length. exact L.
Qed.
Lemma calc_bias_ok (pkl : Pk N) (g : glq N) (m : glmu N) a k kernel half : lin_table pkl -> q_ok g -> mu_ok m ->
  ends_with (fun _ => True) g m (calc_pk_bias_1loop pkl POLY g m a k kernel half).
Proof.
  intros HT Hg Hm. pose proof (calc_ok half 1 (fun g => kernel_pk_bias_1loop pkl POLY g a kernel) (fun g => add_x3w g half) (fun _ s => Ok s)
    (fun v => length v = 1%nat) g m k Hg Hm) as H.
  destruct H as [v [u [w [E [Lv [S1 S2]]]]]].
  - intros u S iq mu Hi. unfold kernel_pk_bias_1loop. start u S.
    match goal with |- context [find1 pkl POLY ?q] => destruct (find1_ok pkl q HT) as [v ->] end. cbn [bind]. eauto.
  - intros u S iq x l. apply add_x3w_ok, S.
  - eauto.
  - unfold calc_pk_bias_1loop. destruct (update_gauss_legendre_q g k) as [u'|]; [|discriminate]. cbn [bind] in *.
    destruct (q_loop half u' m 1 _ _) as [[s w']|]; [|discriminate]. cbn [bind] in *. injection E as -> -> ->.
    rewrite (rd_ok k) by (unfold zlen; lia). cbn [bind]. exists (nmul N (ndiv N (nmul N (nmul N k k) k) (nmul N (nmul N (nZ N 4) npi) npi)) (znth k v 0)), u, w. auto.
Qed.
Lemma powers_ok (x : T) n : 2 <= n -> exists l, powers x (repeat (nZ N 0) (Z.to_nat n)) n = Ok l /\ zlen l = n.
Proof.
  intros H. unfold powers. assert (Z0 : zlen (repeat (nZ N 0) (Z.to_nat n)) = n) by (unfold zlen; rewrite repeat_length; lia).
  rewrite wr_ok by lia. cbn [bind]. rewrite wr_ok by (rewrite zlen_upd; lia). cbn [bind].
  match goal with |- context [for_ 2 n ?b ?s0] => destruct (for_inv (fun _ s => zlen s = n) 2 n b s0) as [l [E L]] end; [lia|rewrite !zlen_upd; lia| |eauto].
  intros j s Hj L. rewrite (rd_ok x) by lia. cbn [bind]. rewrite wr_ok by lia. eexists. split; [reflexivity|]. rewrite zlen_upd. exact L.
Qed.
Lemma kernel_a_ok (u : glq N) iq pk : q_ok u -> 0 <= iq < gq_nq u -> exists v, kernel_a_1loop u iq pk = Ok v /\ length v = 5%nat.
Proof.
  intros [H0 [H1 [H2 [H3 H4]]]] Hi. unfold kernel_a_1loop. rewrite !(rd_ok pk) by lia. cbn [bind].
  destruct (powers_ok (znth pk (gq_x u) iq) 9 ltac:(lia)) as [l [E L]]. change (Z.to_nat 9) with 9%nat in E. rewrite E. cbn [bind].
  rewrite !(rd_ok pk) by lia. cbn [bind]. match goal with |- context [if ?c then (?x, ?y, ?z, ?t) else ?e] => destruct (if c then (x, y, z, t) else e) as [[[? ?] ?] ?] end. eexists. split; reflexivity.
Qed.
Lemma calc_A_1loop_ok (pkl : Pk N) (g : glq N) (m : glmu N) k : lin_table pkl -> q_ok g -> mu_ok m ->
  ends_with (fun v => length v = 5%nat) g m (calc_pk_A_1loop pkl POLY POLY g m k).
Proof.
  intros HT Hg Hm. unfold calc_pk_A_1loop. destruct (update_q_ok g k Hg) as [u [-> S]]. cbn [bind].
  destruct (find1_ok pkl k HT) as [pk ->]. cbn [bind].
  match goal with |- context [q_loop false u m 5 ?kk ?ad] => destruct (q_loop_ok false u m 5 kk ad (proj1 S) Hm) as [s [w [E [Ls Sm]]]] end.
  - intros iq mu Hi. unfold kernel_A_tA_1loop. destruct (proj1 S) as [H0 [H1 [H2 [H3 H4]]]]. rewrite (rd_ok pk) by lia. cbn [bind].
    destruct (powers_ok (znth pk (gq_x u) iq) 5 ltac:(lia)) as [l [E L]]. change (Z.to_nat 5) with 5%nat in E. rewrite E. cbn [bind].
    destruct (powers_ok mu 5 ltac:(lia)) as [l' [E' L']]. change (Z.to_nat 5) with 5%nat in E'. rewrite E'. cbn [bind].
    rewrite !(rd_ok pk) by lia. cbn [bind]. match goal with |- context [find1 pkl POLY ?q] => destruct (find1_ok pkl q HT) as [v ->] end. cbn [bind].
    eexists. split; reflexivity.
  - intros iq x l Hi Ll. destruct (kernel_a_ok u iq pk (proj1 S) Hi) as [v [-> Lv]]. cbn [bind]. destruct (proj1 S) as [H0 [H1 [H2 [H3 H4]]]].
    rewrite (rd_ok pk) by lia. cbn [bind]. eexists. split; [reflexivity|]. rewrite zipw_len; congruence.
  - rewrite E. cbn [bind]. eexists _, u, w. split; [reflexivity|]. rewrite map_length. auto.
Qed.
Lemma calc_B_ok pdt ptt (g : glq N) (m : glmu N) k : lin_table pdt -> lin_table ptt -> q_ok g -> mu_ok m ->
  ends_with (fun v => length v = 12%nat) g m (calc_pk_B pdt ptt POLY g m k).
Proof.
  intros HT HT2 Hg Hm. apply (calc_ok true 12 (fun g => kernel_B pdt ptt POLY g) (fun g iq x integ_B => w <- rd (gq_w g) iq ;; let xw := nmul N x w in Ok (map (fun v => nmul N v xw) integ_B))
    (fun _ s => Ok (map (fun v => nmul N v (ndiv N (nmul N (nmul N k k) k) (nmul N (nmul N (nZ N 2) npi) npi))) s))); auto.
  - intros u S iq mu Hi. unfold kernel_B. destruct (proj1 S) as [H0 [H1 [H2 [H3 H4]]]]. rewrite (rd_ok k) by lia. cbn [bind].
    destruct (powers_ok (znth k (gq_x u) iq) 5 ltac:(lia)) as [l [E L]]. change (Z.to_nat 5) with 5%nat in E. rewrite E. cbn [bind].
    destruct (powers_ok mu 5 ltac:(lia)) as [l' [E' L']]. change (Z.to_nat 5) with 5%nat in E'. rewrite E'. cbn [bind].
    rewrite !(rd_ok k) by lia. cbn [bind].
    repeat match goal with |- context [find1 ?p POLY ?q] => let v := fresh in destruct (find1_ok p q ltac:(assumption)) as [v ->]; cbn [bind] end.
    eexists. split; reflexivity.
  - intros u S iq x l Hi Ll. destruct (proj1 S) as [H0 [H1 [H2 [H3 H4]]]]. rewrite (rd_ok k) by lia. cbn [bind]. eexists. split; [reflexivity|]. rewrite map_length. exact Ll.
  - intros u s L. eexists. split; [reflexivity|]. rewrite map_length. exact L.
Qed.
Lemma reg_pair_ok (g : glq N) c k s : q_ok g -> exists v u, gamma1_reg_pair g c k s = Ok (v, u) /\ same_q g u.
Proof.
  intros Hg. unfold gamma1_reg_pair. destruct c; [|eexists _, _; split; [reflexivity|apply same_q_refl, Hg]].
  destruct (gamma1_1loop_ok g DELTA k Hg) as [d [u [-> S]]]. cbn [bind]. destruct (gamma1_1loop_ok u THETA k (proj1 S)) as [t [w [-> S2]]]. cbn [bind].
  eexists _, _. split; [reflexivity|]. eapply same_q_trans; eassumption.
Qed.
Lemma reg1_ok (g : glq N) k p kp sk sp skp : q_ok g -> exists a b c d e f u, gamma1_reg_1loop g k p kp sk sp skp = Ok (a, b, c, d, e, f, u) /\ same_q g u.
Proof.
  intros Hg. unfold gamma1_reg_1loop.
  match goal with |- context [gamma1_reg_pair g ?c k sk] => destruct (reg_pair_ok g c k sk Hg) as [[a b] [u [-> S]]] end. cbn [bind].
  match goal with |- context [gamma1_reg_pair u ?c p sp] => destruct (reg_pair_ok u c p sp (proj1 S)) as [[c0 d] [v [-> S2]]] end. cbn [bind].
  match goal with |- context [gamma1_reg_pair v ?c kp skp] => destruct (reg_pair_ok v c kp skp (proj1 S2)) as [[e f] [w [-> S3]]] end. cbn [bind].
  exists a, b, c0, d, e, f, w. split; [reflexivity|]. eapply same_q_trans; [eassumption|]. eapply same_q_trans; eassumption.
Qed.
Lemma reg2_ok (gd gt : glq N) k p kp sk sp skp : table_ok gd -> table_ok gt -> exists a b c d e f, gamma2_reg_1loop gd gt k p kp sk sp skp = Ok (a, b, c, d, e, f).
Proof.
  intros Hd Ht. unfold gamma2_reg_1loop. destruct (_ && _); [|eauto 10].
  repeat match goal with |- context [gamma2_1loop gd DELTA ?x ?y ?z] => let v := fresh in destruct (gamma2_total gd DELTA x y z Hd) as [v ->]; cbn [bind]
    | |- context [gamma2_1loop gt THETA ?x ?y ?z] => let v := fresh in destruct (gamma2_total gt THETA x y z Ht) as [v ->]; cbn [bind] end.
  eauto 10.
Qed.
Lemma bisp_I_ok (pkl : Pk N) uv (g1 : glq N) gd gt k p kp out : lin_table pkl -> q_ok g1 -> table_ok gd -> table_ok gt -> zlen out = 8 ->
  exists b u, bispectrum_1loop_I pkl POLY uv g1 gd gt k p kp out = Ok (b, u) /\ zlen b = 8 /\ same_q g1 u.
Proof.
  intros HT H1 Hd Ht HO. unfold bispectrum_1loop_I.
  destruct (sigmad2_ok pkl uv k HT) as [sk ->], (sigmad2_ok pkl uv p HT) as [sp ->], (sigmad2_ok pkl uv kp HT) as [skp ->]. cbn [bind].
  assert (HZ : forall c : bool, exists o, (if c then for_ 0 8 (fun i out => wr out i (nZ N 0)) out else Ok out) = Ok o /\ zlen o = 8).
  { intros [|]; [|eauto]. match goal with |- context [for_ 0 8 ?b ?s0] => destruct (for_inv (fun _ s => zlen s = 8) 0 8 b s0) as [l [E L]] end; [lia|exact HO| |eauto].
    intros j s Hj L. rewrite wr_ok by lia. eexists. split; [reflexivity|]. rewrite zlen_upd. exact L. }
  match goal with |- context [if ?c then for_ 0 8 _ _ else _] => destruct (HZ c) as [o [-> Lo]] end. cbn [bind].
  destruct (find1_ok pkl k HT) as [pk ->], (find1_ok pkl p HT) as [pp ->], (find1_ok pkl kp HT) as [pkp ->]. cbn [bind].
  destruct (reg1_ok g1 k p kp sk sp skp H1) as [? [? [? [? [? [? [u [-> Su]]]]]]]]. cbn [bind].
  destruct (reg2_ok gd gt k p kp sk sp skp Hd Ht) as [? [? [? [? [? [? ->]]]]]]. cbn [bind].
  do 8 (rewrite wr_ok by (rewrite ?zlen_upd; lia); cbn [bind]). eexists _, u. split; [reflexivity|]. rewrite !zlen_upd. auto.
Qed.
Lemma components_ok (b pA ptA : list T) : zlen b = 8 -> length pA = 6%nat -> length ptA = 6%nat -> exists c, A_components b pA ptA = Ok c /\ length c = 12%nat.
Proof.
  intros L LA Lt. unfold A_components. set (d := nZ N 0). rewrite !(rd_ok d) by lia. cbn [bind]. eexists. split; [reflexivity|].
  rewrite zipw_len; rewrite app_length, LA, Lt; reflexivity.
Qed.
Lemma calc_A_2loop_I_ok (pkl : Pk N) uv (g : glq N) (m : glmu N) (g1 gd gt : glq N) k : lin_table pkl -> q_ok g -> mu_ok m -> q_ok g1 -> table_ok gd -> table_ok gt ->
  ends_with (fun v => length v = 12%nat) g m (calc_pk_A_2loop_I pkl POLY uv g m g1 gd gt k).
Proof.
  intros HT Hg Hm H1 Hd Ht. apply (calc_ok true 12 (fun g => kernel_A_tA_2loop_I pkl POLY uv g g1 gd gt) (fun g iq x integ => w <- rd (gq_w g) iq ;; Ok (map (fun v => nmul N v w) integ))
    (fun _ s => Ok (map (fun v => nmul N v (ndiv N (nmul N (nmul N k k) k) (nmul N (nmul N (nZ N 2) npi) npi))) s))); auto.
  - intros u S iq mu Hi. unfold kernel_A_tA_2loop_I. destruct (proj1 S) as [H0 [H1' [H2 [H3 H4]]]]. rewrite !(rd_ok k) by lia. cbn [bind].
    unfold kernel_projection_A_tA. match goal with |- context [bispectrum_1loop_I pkl POLY uv g1 gd gt ?a ?b ?c ?o] => destruct (bisp_I_ok pkl uv g1 gd gt a b c o HT H1 Hd Ht eq_refl) as [bb [w [-> [Lb _]]]] end.
    cbn [bind]. match goal with |- context [A_components bb ?x ?y] => destruct (components_ok bb x y Lb eq_refl eq_refl) as [c [-> Lc]] end. cbn [bind].
    eexists. split; [reflexivity|]. rewrite map_length. exact Lc.
  - intros u S iq x l Hi Ll. destruct (proj1 S) as [H0 [H1' [H2 [H3 H4]]]]. rewrite (rd_ok k) by lia. cbn [bind]. eexists. split; [reflexivity|]. rewrite map_length. exact Ll.
  - intros u s L. eexists. split; [reflexivity|]. rewrite map_length. exact L.
Qed.
(** The integrands handed to Suave. *)
Lemma bisp_II_ok (pkl : Pk N) kk0 kk1 kk2 qq a b c : lin_table pkl -> exists v w, bispectrum_1loop_II_III pkl POLY kk0 kk1 kk2 qq a b c = Ok (v, w).
Proof.
  intros HT. unfold bispectrum_1loop_II_III.
  do 10 (match goal with |- context [bind (find1 pkl POLY ?q) _] => let v := fresh in destruct (find1_ok pkl q HT) as [v ->]; cbn [bind] end). eauto.
Qed.
Lemma gamma3_ok (pkl : Pk N) qmin qmax lmin lmax k a b xx : lin_table pkl -> 5 <= zlen xx -> exists v, kernel_pk_gamma3_tree pkl POLY qmin qmax lmin lmax k a b xx = Ok v.
Proof.
  intros HT Hx. unfold kernel_pk_gamma3_tree. rewrite !(rd_ok k) by lia. cbn [bind]. destruct (_ && _); [|eauto].
  do 3 (match goal with |- context [bind (find1 pkl POLY ?q) _] => let v := fresh in destruct (find1_ok pkl q HT) as [v ->]; cbn [bind] end). eauto.
Qed.
Lemma A_II_III_ok (pkl : Pk N) uv lmin lmax k xx : lin_table pkl -> 5 <= zlen xx ->
  exists v, kernel_A_tA_2loop_II_III pkl POLY uv lmin lmax k xx = Ok v /\ length v = 12%nat.
Proof.
  intros HT Hx. unfold kernel_A_tA_2loop_II_III. rewrite !(rd_ok k) by lia. cbn [bind]. destruct (nlt N _ _); [eexists; split; reflexivity|].
  do 3 (match goal with |- context [bind (sigmad2_1 pkl uv ?q) _] => let v := fresh in destruct (sigmad2_ok pkl uv q HT) as [v ->]; cbn [bind] end).
  destruct (nle N _ _); [eexists; split; reflexivity|].
  do 8 (match goal with |- context [bind (bispectrum_1loop_II_III pkl POLY ?x ?y ?z ?t ?f1 ?f2 ?f3) _] => let v := fresh in let w := fresh in destruct (bisp_II_ok pkl x y z t f1 f2 f3 HT) as [v [w ->]]; cbn [bind] end).
  unfold kernel_projection_A_tA. apply components_ok; reflexivity.
Qed.
End Scratch2.
