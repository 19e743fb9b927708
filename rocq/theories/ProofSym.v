(** ProofSym: exchange of the two fields and the shortcut for equal fields (C35). *)
From Coq Require Import ZArith Lia List Bool Reals Lra String FunctionalExtensionality.
From Verif Require Import Base Num BaseFacts Lockstep Common Kernels Gamma2 Integrals Registry Threads PyTerms SpecLoops SpecScratch SpecThreads SpecScale SpecSym ProofScratch ProofScratch2 ProofScratch3.
Import ListNotations.
Local Open Scope string_scope.

Ltac step := match goal with |- bind ?x _ = bind ?x _ => let v := fresh "v" in destruct x as [v|]; cbn [bind]; [|reflexivity] end.
Section Both.
Context {N : Num}.
Variables (fuel : nat) (st : settings N) (pkl : Pk N).
Lemma q_loop_ext half (g : glq N) m nc kern kern' add : (forall iq mu, kern iq mu = kern' iq mu) -> q_loop half g m nc kern add = q_loop half g m nc kern' add.
Proof.
  intros H. unfold q_loop. apply for_ext. intros i [acc z] Hi. destruct (rd (gq_x g) i) as [x|]; cbn [bind]; [|reflexivity].
  destruct (set_mu_range half g z x) as [[z'|]|]; cbn [bind]; try reflexivity.
  replace (mu_loop z' nc (kern' i)) with (mu_loop z' nc (kern i)); [reflexivity|].
  unfold mu_loop. apply for_ext. intros j s Hj. destruct (rd (gm_mu z') j); cbn [bind]; [|reflexivity]. rewrite H. reflexivity.
Qed.
Lemma both_tree_eq im g a b iq mu : kernel_pk_gamma2_tree pkl im g a b iq mu = both_tree pkl im g a b iq mu.
Proof.
  unfold kernel_pk_gamma2_tree, both_tree. repeat (step; cbn zeta).
  destruct a, b; reflexivity.
Qed.
Lemma both_one_loop_eq im g gd gt a b iq mu : kernel_pk_gamma2_1loop pkl im g gd gt a b iq mu = both_one_loop pkl im g gd gt a b iq mu.
Proof.
  unfold kernel_pk_gamma2_1loop, both_one_loop. do 4 (step; cbn zeta).
  unfold gamma2_stdPT. cbn [Z.eqb Pos.eqb].
  destruct a, b; cbn [flag_eqb]; cbn [bind];
  repeat match goal with |- context [bind ?x _] => match x with bind _ _ => fail 1 | _ => destruct x end; cbn [bind] end; reflexivity.
Qed.
Lemma tree_eq im g m a b k : (' (p, _, _) <- calc_pk_gamma2_tree pkl im g m a b k ;; Ok p) = integrate g m 1 (fun g => both_tree pkl im g a b) k.
Proof.
  unfold calc_pk_gamma2_tree, integrate. destruct (update_gauss_legendre_q g k) as [u|]; cbn [bind]; [|reflexivity].
  rewrite (q_loop_ext true u m 1 _ _ _ (fun iq mu => both_tree_eq im u a b iq mu)). destruct (q_loop _ _ _ _ _ _) as [[s z]|]; reflexivity.
Qed.
Lemma one_loop_eq im g m gd gt a b k : (' (p, _, _) <- calc_pk_gamma2_1loop pkl im g m gd gt a b k ;; Ok p) = integrate g m 3 (fun g => both_one_loop pkl im g gd gt a b) k.
Proof.
  unfold calc_pk_gamma2_1loop, integrate. destruct (update_gauss_legendre_q g k) as [u|]; cbn [bind]; [|reflexivity].
  rewrite (q_loop_ext true u m 3 _ _ _ (fun iq mu => both_one_loop_eq im u gd gt a b iq mu)). destruct (q_loop _ _ _ _ _ _) as [[s z]|]; reflexivity.
Qed.
Lemma both_1loop_eq a b k : value_1loop fuel st pkl a b k = both_1loop fuel st pkl a b k.
Proof.
  unfold value_1loop, both_1loop. do 3 step. step. destruct v2 as [ga ?]. step. destruct v2 as [gb ?]. rewrite <- tree_eq.
  destruct (calc_pk_gamma2_tree _ _ _ _ _ _ _) as [[[p ?] ?]|]; reflexivity.
Qed.
Lemma both_2loop_eq a b k : (forall x, In x ["gamma1_1loop_q"; "gamma1_2loop_q"] -> (0 <= pr_n (s_prec st x) < 2 ^ 62)%Z) -> value_2loop fuel st pkl a b k = both_2loop fuel st pkl a b k.
Proof.
  intros Hn. unfold value_2loop, both_2loop. 
  destruct (new_q fuel st pkl "gamma1_1loop_q") as [g1|] eqn:E1; cbn [bind]; [|reflexivity]. destruct (new_q fuel st pkl "gamma1_2loop_q") as [g2|] eqn:E2; cbn [bind]; [|reflexivity]. do 4 step.
  destruct (init_q_tables fuel _ pkl g1 (Hn _ (or_introl eq_refl)) E1) as (Q1 & _). destruct (init_q_tables fuel _ pkl g2 (Hn _ (or_intror (or_introl eq_refl))) E2) as (Q2 & _).
  unfold calc_pk_gamma1_2loop.
  destruct (gamma1_1loop_ok g1 a k Q1) as (a1 & u1 & F1 & S1). destruct (gamma1_2loop_ok g2 a k Q2) as (a2 & u2 & F2 & S2). rewrite F1, F2. cbn [bind].
  rewrite <- one_loop_eq. destruct (flag_eqb a b) eqn:EF.
  - assert (a = b) as <- by (destruct a, b; try discriminate; reflexivity). rewrite F1, F2. cbn [bind]. destruct (calc_pk_gamma2_1loop _ _ _ _ _ _ _ _ _) as [[[p ?] ?]|]; reflexivity.
  - rewrite <- (gamma1_1loop_same g1 u1 b k Q1 S1), <- (gamma1_2loop_same g2 u2 b k Q2 S2).
    destruct (gamma1_1loop g1 b k) as [[b1 ?]|]; cbn [bind]; [|reflexivity]. destruct (gamma1_2loop g2 b k) as [[b2 ?]|]; cbn [bind]; [|reflexivity]. destruct (calc_pk_gamma2_1loop _ _ _ _ _ _ _ _ _) as [[[p ?] ?]|]; reflexivity.
Qed.
End Both.

(** ** Exchange *)
Local Open Scope R_scope.
Definition le {A} (x y : res A) : Prop := forall v, x = Ok v -> y = Ok v.
Lemma le_refl {A} (x : res A) : le x x. Proof. intros v H. exact H. Qed.
Lemma bind_le {A B} (x y : res A) (f g : A -> res B) : le x y -> (forall a, le (f a) (g a)) -> le (bind x f) (bind y g).
Proof. intros H K v E. destruct x as [a|]; [|discriminate]. rewrite (H a eq_refl). cbn [bind] in *. apply K, E. Qed.
Lemma loop_le {S} n : forall i (f g : Z -> S -> res S) s, (forall i s, le (f i s) (g i s)) -> le (loop n i f s) (loop n i g s).
Proof. induction n as [|n IH]; intros i f g s H; cbn [loop]; [apply le_refl|]. apply bind_le; [apply H|]. intros a. apply IH, H. Qed.
Lemma q_loop_le half (g : glq RNum) m nc kern kern' add : (forall iq mu, le (kern iq mu) (kern' iq mu)) -> le (q_loop half g m nc kern add) (q_loop half g m nc kern' add).
Proof.
  intros H. unfold q_loop, for_. apply loop_le. intros i [acc z]. apply bind_le; [apply le_refl|]. intros x. apply bind_le; [apply le_refl|]. intros [z'|]; [|apply le_refl].
  apply bind_le; [|intros l; apply le_refl]. unfold mu_loop, for_. apply loop_le. intros j s. apply bind_le; [apply le_refl|]. intros y. apply bind_le; [apply H|]. intros w. apply le_refl.
Qed.
Section Exchange.
Variables (fuel : nat) (st : settings RNum) (pkl : Pk RNum).
Lemma tree_swap im g a b iq mu : le (both_tree (N := RNum) pkl im g a b iq mu) (both_tree pkl im g b a iq mu).
Proof. unfold both_tree. do 4 (apply bind_le; [apply le_refl|intros ?]). intros v <-. rn. apply (f_equal (fun z : R => Ok [z])). ring. Qed.
Lemma one_loop_swap im g gd gt a b iq mu : le (both_one_loop (N := RNum) pkl im g gd gt a b iq mu) (both_one_loop pkl im g gd gt b a iq mu).
Proof.
  unfold both_one_loop. do 4 (apply bind_le; [apply le_refl|intros ?]). cbn zeta. intros v E.
  destruct (gamma2_1loop _ a _ _ _) as [la|]; [|discriminate]. destruct (gamma2_1loop _ b _ _ _) as [lb|]; [|discriminate]. cbn [bind] in *. rewrite <- E. rn. f_equal. repeat (apply f_equal2; [ring|]). reflexivity.
Qed.
Lemma integrate_le (g : glq RNum) m n kern kern' k : (forall g iq mu, le (kern g iq mu) (kern' g iq mu)) -> le (integrate g m n kern k) (integrate g m n kern' k).
Proof. intros H. unfold integrate. apply bind_le; [apply le_refl|]. intros u. apply bind_le; [apply q_loop_le, H|]. intros s. apply le_refl. Qed.
Lemma swap_1loop a b k v : value_1loop fuel st pkl a b k = Ok v -> value_1loop fuel st pkl b a k = Ok (exchanged (D_1loop a b) v) /\ List.length v = 3%nat.
Proof.
  rewrite !both_1loop_eq. unfold both_1loop. intros E.
  destruct (new_q fuel st pkl "gamma1_1loop_q") as [g1|]; [|discriminate E]. cbn [bind] in *. destruct (new_q fuel st pkl "gamma2_tree_q") as [g|]; [|discriminate E]. cbn [bind] in *.
  destruct (new_mu fuel st "gamma2_tree_mu") as [m|]; [|discriminate E]. cbn [bind] in *.
  destruct (gamma1_1loop g1 a k) as [[ga ?]|]; [|discriminate E]. cbn [bind] in *. destruct (gamma1_1loop g1 b k) as [[gb ?]|]; [|discriminate E]. cbn [bind] in *.
  match type of E with bind ?x _ = _ => destruct x as [p|] eqn:F end; [|discriminate E]. cbn [bind] in *.
  rewrite (integrate_le g m 1 (fun g => both_tree pkl (im_of st "gamma2_tree_mu") g a b) (fun g => both_tree pkl (im_of st "gamma2_tree_mu") g b a) k (fun g iq mu => tree_swap (im_of st "gamma2_tree_mu") g a b iq mu) p F). cbn [bind].
  destruct p as [|p pr]; [discriminate E|]. cbn in E |- *. injection E as <-. split; reflexivity.
Qed.
Lemma swap_2loop a b k v : sizes st q_tables_2loop -> value_2loop fuel st pkl a b k = Ok v -> value_2loop fuel st pkl b a k = Ok (exchanged (D_2loop a b) v) /\ List.length v = 7%nat.
Proof.
  intros Hn. rewrite !both_2loop_eq by (intros x Hx; apply Hn; cbn in *; tauto). unfold both_2loop. intros E.
  destruct (new_q fuel st pkl "gamma1_1loop_q") as [h1|]; [|discriminate E]. cbn [bind] in *.
  destruct (new_q fuel st pkl "gamma1_2loop_q") as [h2|]; [|discriminate E]. cbn [bind] in *.
  destruct (new_q fuel st pkl "gamma2_tree_q") as [h3|]; [|discriminate E]. cbn [bind] in *.
  destruct (new_mu fuel st "gamma2_tree_mu") as [m|]; [|discriminate E]. cbn [bind] in *.
  destruct (new_q fuel st pkl "gamma2d_1loop_q") as [h4|]; [|discriminate E]. cbn [bind] in *.
  destruct (new_q fuel st pkl "gamma2t_1loop_q") as [h5|]; [|discriminate E]. cbn [bind] in *.
  destruct (gamma1_1loop h1 a k) as [[a1 ?]|]; [|discriminate E]. cbn [bind] in *. destruct (gamma1_2loop h2 a k) as [[a2' ?]|]; [|discriminate E]. cbn [bind] in *.
  destruct (gamma1_1loop h1 b k) as [[b1 ?]|]; [|discriminate E]. cbn [bind] in *. destruct (gamma1_2loop h2 b k) as [[b2' ?]|]; [|discriminate E]. cbn [bind] in *.
  match type of E with bind ?x _ = _ => destruct x as [p|] eqn:F end; [|discriminate E]. cbn [bind] in *.
  rewrite (integrate_le h3 m 3 (fun g => both_one_loop pkl (im_of st "gamma2_tree_mu") g h4 h5 a b) (fun g => both_one_loop pkl (im_of st "gamma2_tree_mu") g h4 h5 b a) k (fun g iq mu => one_loop_swap (im_of st "gamma2_tree_mu") g h4 h5 a b iq mu) p F). cbn [bind].
  destruct p as [|p1 [|p2 [|p3 pr]]]; try discriminate E. cbn in E |- *. injection E as <-. split; reflexivity.
Qed.
Lemma swap_gamma3 suave1 a b k : value_gamma3 st pkl suave1 a b k = value_gamma3 st pkl suave1 b a k.
Proof.
  unfold value_gamma3, calc_pk_gamma3_tree. destruct (q_range _ pkl) as [[qmin qmax]|]; cbn [bind]; [|reflexivity].
  replace (kernel_pk_gamma3_tree pkl (im_of st "gamma3_tree_q") qmin qmax (nlog qmin) (nlog qmax) k b a) with (kernel_pk_gamma3_tree pkl (im_of st "gamma3_tree_q") qmin qmax (nlog qmin) (nlog qmax) k a b); [reflexivity|].
  extensionality xx. unfold kernel_pk_gamma3_tree. do 5 step. cbn zeta. match goal with |- (if ?c then _ else _) = _ => destruct c end; [|reflexivity]. do 3 step. cbn zeta. rn. apply (f_equal (fun z : R => Ok z)). ring.
Qed.
Lemma swap_row suave1 suave12 d dt ptt k v : sizes st (q_tables_of d) -> (exists a b, d = D_1loop a b \/ d = D_2loop a b) ->
  value_of fuel st suave1 suave12 d pkl dt ptt k = Ok v -> value_of fuel st suave1 suave12 (exchange d) pkl dt ptt k = Ok (exchanged d v) /\ List.length v = List.length (degrees d).
Proof.
  intros Hn (a & b & [-> | ->]) E; cbn [exchange SpecThreads.value_of] in *.
  - exact (swap_1loop a b k v E).
  - rewrite (swap_gamma3 suave1 b a). destruct (value_2loop fuel st pkl a b k) as [x|] eqn:F; [|discriminate E]. destruct (swap_2loop a b k x Hn F) as (-> & L). cbn [bind] in *.
    destruct (value_gamma3 st pkl suave1 a b k) as [y|] eqn:G; [|discriminate E]. cbn [bind] in *. injection E as <-.
    assert (L' : List.length y = 1%nat). { unfold value_gamma3 in G. destruct (q_range _ pkl) as [[? ?]|]; [|discriminate G]. cbn [bind] in G. match type of G with bind ?x _ = _ => destruct x; [|discriminate G] end. injection G as <-. reflexivity. }
    destruct x as [|x1 [|x2 [|x3 [|x4 x]]]]; try discriminate L. split; [reflexivity|]. cbn [app List.length]. rewrite app_length. cbn in L |- *. change (T RNum) with R in *. lia.
Qed.
Lemma swap_run suave1 suave12 d dt ptt ks ps ss vals : sizes st (q_tables_of d) -> (exists a b, d = D_1loop a b \/ d = D_2loop a b) ->
  computes fuel st suave1 suave12 d pkl dt ptt ks ps ss vals -> computes fuel st suave1 suave12 (exchange d) pkl dt ptt ks ps ss (fun ik => exchanged d (vals ik)).
Proof.
  intros Hn Hd (E1 & E2 & E3). split; [|split].
  - destruct Hd as (a & b & [-> | ->]); exact E1.
  - destruct Hd as (a & b & [-> | ->]); exact E2.
  - intros ik Hi. apply swap_row; auto.
Qed.
End Exchange.
(** The assembled spectrum *)
Lemma map_exchanged d nk vals (f h : list R -> R) : (forall ik, (0 <= ik < Z.of_nat nk)%Z -> f (exchanged d (vals ik)) = h (vals ik)) -> map f (rows nk (fun ik => exchanged d (vals ik))) = map h (rows nk vals).
Proof. intros H. unfold rows. rewrite !map_map. apply map_ext_in. intros i Hi. apply in_seq in Hi. apply H. lia. Qed.
Lemma elementwise_swap (f f' : list R -> R) cs cs' n (HF : forall i, f (map (fun d => nth i d 0) cs) = f' (map (fun d => nth i d 0) cs')) :
  hd [] cs = hd [] cs' -> (forall d, In d cs <-> In d cs') -> n = List.length cs -> n = List.length cs' -> n <> 0%nat -> elementwise (N := RNum) f cs = elementwise (N := RNum) f' cs'.
Proof.
  intros H1 H2 -> L Hn. unfold elementwise. destruct cs as [|c cs]; [cbn in Hn; lia|]. destruct cs' as [|c' cs']; [cbn in L; lia|]. cbn in H1. subst c'.
  assert (B : forallb (fun d : list R => Nat.eqb (List.length d) (List.length c)) (c :: cs) = forallb (fun d : list R => Nat.eqb (List.length d) (List.length c)) (c :: cs')).
  { apply eq_true_iff_eq. rewrite !forallb_forall. split; intros H d Hd; apply H, H2, Hd. }
  unfold PyTerms.column. change (T RNum) with R. rewrite B. match goal with |- (if ?x then _ else _) = _ => destruct x end; [|reflexivity]. f_equal. apply map_ext. intros i. apply HF.
Qed.
Lemma assembled_1 ks ps ss (l1 l2 l3 : list R) (D : R) sg :
  pk_1loop (N := RNum) [("k", ks); ("pk_lin", ps); ("sigmad2", ss); ("gamma1a_1loop", l2); ("gamma1b_1loop", l1); ("pk_gamma2_tree_tree", l3)] D sg =
  pk_1loop (N := RNum) [("k", ks); ("pk_lin", ps); ("sigmad2", ss); ("gamma1a_1loop", l1); ("gamma1b_1loop", l2); ("pk_gamma2_tree_tree", l3)] D sg.
Proof.
  unfold pk_1loop, getitems, getitem. cbn [assoc String.eqb Ascii.eqb Bool.eqb bind]. 
  destruct sg as [s|]; cbn [bind]; (apply (elementwise_swap _ _ _ _ 6); [|reflexivity|cbn; tauto|reflexivity|reflexivity|discriminate]); intros i; cbn [map pk_1loop_row]; rn; ring.
Qed.
Lemma assembled_2 ks ps ss (l1 l2 l3 l4 l5 l6 l7 l8 : list R) (D : R) sg :
  pk_2loop (N := RNum) [("k", ks); ("pk_lin", ps); ("sigmad2", ss); ("gamma1a_1loop", l3); ("gamma1a_2loop", l4); ("gamma1b_1loop", l1); ("gamma1b_2loop", l2); ("pk_gamma2_tree_tree", l5); ("pk_gamma2_tree_1loop", l6); ("pk_gamma2_1loop_1loop", l7); ("pk_gamma3_tree", l8)] D sg =
  pk_2loop (N := RNum) [("k", ks); ("pk_lin", ps); ("sigmad2", ss); ("gamma1a_1loop", l1); ("gamma1a_2loop", l2); ("gamma1b_1loop", l3); ("gamma1b_2loop", l4); ("pk_gamma2_tree_tree", l5); ("pk_gamma2_tree_1loop", l6); ("pk_gamma2_1loop_1loop", l7); ("pk_gamma3_tree", l8)] D sg.
Proof.
  unfold pk_2loop, getitems, getitem. cbn [assoc String.eqb Ascii.eqb Bool.eqb bind]. 
  destruct sg as [s|]; cbn [bind]; (apply (elementwise_swap _ _ _ _ 11); [|reflexivity|cbn; tauto|reflexivity|reflexivity|discriminate]); intros i; cbn [map pk_2loop_row]; rn; ring.
Qed.
Lemma assembled_swap d ks ps ss vals (D : R) sg : (exists a b, d = D_1loop a b \/ d = D_2loop a b) -> (forall ik, (0 <= ik < zlen ks)%Z -> List.length (vals ik) = List.length (degrees d)) ->
  assembled d (columns_of (exchange d) ks ps ss (fun ik => exchanged d (vals ik))) D sg = assembled d (columns_of d ks ps ss vals) D sg.
Proof.
  intros Hd HL. assert (M : forall f h : list R -> R, (forall v, List.length v = List.length (degrees d) -> f (exchanged d v) = h v) -> map f (rows (List.length ks) (fun ik => exchanged d (vals ik))) = map h (rows (List.length ks) vals)).
  { intros f h H. apply map_exchanged. intros ik Hi. apply H, HL. unfold zlen. exact Hi. }
  assert (J : forall i j, (forall v : list R, List.length v = List.length (degrees d) -> nth i (exchanged d v) 0 = nth j v 0) -> map (fun v => nth i v 0) (rows (List.length ks) (fun ik => exchanged d (vals ik))) = map (fun v => nth j v 0) (rows (List.length ks) vals)).
  { intros i j H. apply M, H. }
  destruct Hd as (a & b & [-> | ->]); unfold columns_of; cbn [exchange names_of List.length combine seq map fst snd assembled].
  - rewrite (J 0%nat 1%nat), (J 1%nat 0%nat), (J 2%nat 2%nat) by (intros [|? [|? [|? [|]]]] L; try discriminate L; reflexivity). apply assembled_1.
  - rewrite (J 0%nat 2%nat), (J 1%nat 3%nat), (J 2%nat 0%nat), (J 3%nat 1%nat), (J 4%nat 4%nat), (J 5%nat 5%nat), (J 6%nat 6%nat), (J 7%nat 7%nat) by (intros [|? [|? [|? [|? [|? [|? [|? [|? [|]]]]]]]]] L; try discriminate L; reflexivity). apply assembled_2.
Qed.
Lemma symmetric_run fuel st suave1 suave12 d pkl dt ptt ks ps ss vals : sizes st (q_tables_of d) -> (exists a b, d = D_1loop a b \/ d = D_2loop a b) ->
  computes fuel st suave1 suave12 d pkl dt ptt ks ps ss vals ->
  exists vals', computes fuel st suave1 suave12 (exchange d) pkl dt ptt ks ps ss vals' /\
    forall D sg, assembled (exchange d) (columns_of (exchange d) ks ps ss vals') D sg = assembled d (columns_of d ks ps ss vals) D sg.
Proof.
  intros Hn Hd E. exists (fun ik => exchanged d (vals ik)). split; [apply swap_run; assumption|]. intros D sg.
  rewrite <- (assembled_swap d ks ps ss vals D sg Hd). { destruct Hd as (a & b & [-> | ->]); reflexivity. }
  intros ik Hi. destruct E as (_ & _ & E). eapply swap_row; eauto.
Qed.
