(** ProofPad2: what an object holds after pad_k, and the spectra at the new wavenumbers. *)
From Coq Require Import Reals ZArith List String Lia Lra Bool.
From Coquelicot Require Import Coquelicot.
From Verif Require Import Base Num BaseFacts Common Registry PyTerms PyPad Spec SpecPy SpecPad Sums Order ProofCommon2 ProofCommon3  ProofCommon3 ProofPy ProofPy2 ProofPy5 ProofPy7 ProofPad.
Import ListNotations.
Local Open Scope R_scope.

Lemma Forall2_det {A B} (Q : A -> B -> Prop) l m m' : (forall a b b', Q a b -> Q a b' -> b = b') -> Forall2 Q l m -> Forall2 Q l m' -> m = m'.
Proof. intros H F. revert m'. induction F as [|a b l m Hab F IH]; intros m' F'; inversion F'; subst; [reflexivity|]. f_equal; [eapply H; eassumption|auto]. Qed.
Lemma Forall2_middle {A B} (Q : A -> B -> Prop) a l b m v : (forall x y y', Q x y -> Q x y' -> y = y') -> Forall2 Q (a ++ l ++ b) m -> Forall2 Q l v ->
  exists p q, m = p ++ v ++ q /\ Forall2 Q a p /\ Forall2 Q b q.
Proof.
  intros H F Fv. apply Forall2_app_inv_l in F as (p & r & Fp & Fr & ->). apply Forall2_app_inv_l in Fr as (w & q & Fw & Fq & ->).
  rewrite (Forall2_det Q l v w H Fv Fw). exists p, q. auto.
Qed.
Lemma Forall2_len {A B} (Q : A -> B -> Prop) l m : Forall2 Q l m -> List.length l = List.length m.
Proof. induction 1; cbn; auto. Qed.
Lemma looks_up_det K P k p p' : looks_up K P k p -> looks_up K P k p' -> p = p'.
Proof. unfold looks_up. intros A B. rewrite A in B. injection B as B. exact B. Qed.
Lemma disperses_det K P uv k p p' : disperses K P uv k p -> disperses K P uv k p' -> p = p'.
Proof. unfold disperses. intros A B. rewrite A in B. injection B as B. exact B. Qed.
Section Pad.
Variables (cl : pyclass) (b : bool) (c : columns RNum) (kk k : list R) (x : R) (K P : list R).
Hypotheses (H1 : one_dim cl = true) (Hct : has_ctype cl = true) (HC : complete cl c (List.length kk)) (Hk : getitem c "k" = Ok kk) (Hn : kk <> []).
Hypotheses (HA : ascending k) (HE : exists v, In v k /\ nth (List.length kk - 1) kk 0 < v) (Hkk : ascending kk).
Hypotheses (HL : List.length P = List.length K) (HB : (2 <= zlen K < 2 ^ 62)%Z) (HI : increasing K).
Lemma pad_poly : exists c' ps ss, regpt_pad_k (N := RNum) cl b c (mk_table (N := RNum) K P) k x "poly" = (c', Done) /\ complete cl c' (List.length (extended kk k)) /\
    getitem c' "k" = Ok (extended kk k) /\ getitem c' "pk_lin" = Ok ps /\ getitem c' "sigmad2" = Ok ss /\
    Forall2 (looks_up K P) (extended kk k) ps /\ Forall2 (disperses K P (1 / 2)) (extended kk k) ss /\
    forall y v, ~ In y ["k"; "pk_lin"; "sigmad2"]%string -> getitem c y = Ok v -> getitem c' y = Ok (repeat x (List.length (below kk k)) ++ v ++ repeat x (List.length (above kk k))).
Proof.
  pose proof (asc_extended kk k Hn Hkk HA) as AE. assert (HB1 : (1 <= zlen K < 2 ^ 62)%Z) by lia.
  destruct (poly_lookup_safe (N := RNum) K P (extended kk k) HL HB) as (ps & Ep & Lp).
  assert (Fp : Forall2 (looks_up K P) (extended kk k) ps) by (apply (lookup_elementwise_R K P POLY (extended kk k)); assumption).
  destruct (sigmad2_elementwise_final (N := RNum) (fun _ => True) R_order K P 0 (1 / 2) (extended kk k) HL HB1) as (ss & Es & Fs); auto.
  - intros i j Hi Hj. apply Rltb_true. unfold znth. apply (HI (Z.to_nat i) (Z.to_nat j)). unfold zlen in Hj. change (T RNum) with R in *. lia.
  - intros i j Hi Hj. apply Rltb_false. unfold znth. cbn [nmul RNum]. unfold zlen in Hj. change (T RNum) with R in *. pose proof (AE (Z.to_nat i) (Z.to_nat j) ltac:(lia)) as Q. unfold at_ in Q. lra.
  - destruct (regpt_padded cl b c kk k x H1 HC Hk Hn HA HE (mk_table (N := RNum) K P) "poly" ps ss Hct Ep Es Lp) as (c' & E & C & K1 & K2 & K3 & V).
    + symmetry. eapply Forall2_len, Fs.
    + exists c', ps, ss. auto 8.
Qed.
(** The rows which were there are kept if they were computed with this interpolation and this cutoff. *)
Lemma pad_keeps pl sg : getitem c "pk_lin" = Ok pl -> getitem c "sigmad2" = Ok sg -> Forall2 (looks_up K P) kk pl -> Forall2 (disperses K P (1 / 2)) kk sg ->
  exists c' p q s t, regpt_pad_k (N := RNum) cl b c (mk_table (N := RNum) K P) k x "poly" = (c', Done) /\
    getitem c' "pk_lin" = Ok (p ++ pl ++ q) /\ getitem c' "sigmad2" = Ok (s ++ sg ++ t) /\ List.length p = List.length (below kk k) /\ List.length s = List.length (below kk k).
Proof.
  intros Gp Gs Fp Fs. destruct pad_poly as (c' & ps & ss & E & _ & _ & K2 & K3 & F2 & F3 & _).
  destruct (Forall2_middle _ _ _ _ _ pl (looks_up_det K P) F2 Fp) as (p & q & -> & Q1 & _).
  destruct (Forall2_middle _ _ _ _ _ sg (disperses_det K P (1 / 2)) F3 Fs) as (s & t & -> & Q2 & _).
  exists c', p, q, s, t. split; [exact E|]. split; [exact K2|]. split; [exact K3|]. split; symmetry; eapply Forall2_len; eassumption.
Qed.
End Pad.
(** ** The spectra at the new wavenumbers *)
Lemma no_loops_1loop D k s P : regpt_1loop D k s 0 0 P 0 = damped_1loop D k s P.
Proof. unfold regpt_1loop, damped_1loop, propagator_1loop, damping. cbv zeta. ring. Qed.
Lemma no_loops_2loop D k s P : regpt_2loop D k s 0 0 0 0 P 0 0 0 0 = damped_2loop D k s P.
Proof. unfold regpt_2loop, damped_2loop, propagator_2loop, damping. cbv zeta. ring. Qed.
Lemma outside_zero (v : list R) a e i : (i < a \/ a + List.length v <= i)%nat -> nth i (repeat 0 a ++ v ++ repeat 0 e) 0 = 0.
Proof.
  intros H. assert (Z : forall m j, nth j (repeat 0 m) 0 = 0) by (intros m; induction m as [|m IH]; intros [|j]; cbn; auto).
  destruct H as [H|H].
  - rewrite app_nth1 by (rewrite repeat_length; exact H). apply Z.
  - rewrite app_nth2 by (rewrite repeat_length; lia). rewrite repeat_length. rewrite app_nth2 by lia. apply Z.
Qed.
Section Spectra.
Variables (b : bool) (c : columns RNum) (kk k : list R) (pkl : Pk RNum) (im : string) (ps ss : list R) (D : R) (i : nat).
Hypotheses (Hk : getitem c "k" = Ok kk) (Hn : kk <> []).
Hypotheses (HA : ascending k) (HE : exists v, In v k /\ nth (List.length kk - 1) kk 0 < v).
Hypotheses (Ep : find_pk (N := RNum) pkl (extended kk k) (if (im =? "poly")%string then POLY else LIN) = Ok ps) (Es : calc_running_sigmad2 (N := RNum) pkl (extended kk k) (1 / 2) = Ok ss).
Hypotheses (Lp : List.length ps = List.length (extended kk k)) (Ls : List.length ss = List.length (extended kk k)).
Hypotheses (Hi : (i < List.length (extended kk k))%nat) (New : (i < List.length (below kk k) \/ List.length (below kk k) + List.length kk <= i)%nat).
Lemma new_1loop : complete C1Loop c (List.length kk) -> exists c' v, regpt_pad_k (N := RNum) C1Loop b c pkl k (0 : R) im = (c', Done) /\ pk_1loop (N := RNum) c' D None = Ok v /\
  nth i v 0 = damped_1loop D (nth i (extended kk k) 0) (nth i ss 0) (nth i ps 0).
Proof.
  intros HC. destruct (regpt_padded C1Loop b c kk k 0 eq_refl HC Hk Hn HA HE pkl im ps ss eq_refl Ep Es Lp Ls) as (c' & E & C & K1 & K2 & K3 & V).
  assert (Z : forall y, In y ["gamma1a_1loop"; "gamma1b_1loop"; "pk_gamma2_tree_tree"]%string -> entry c' y i = 0).
  { intros y Hy. assert (In y (fields C1Loop) /\ ~ In y ["k"; "pk_lin"; "sigmad2"]%string) as [F Ny] by (destruct Hy as [<-|[<-|[<-|[]]]]; (split; [cbn; tauto|intros Q; cbn in Q; repeat (destruct Q as [Q|Q]; [discriminate Q|]); exact Q])).
    destruct (getitem_complete _ _ _ y HC F) as (w & G & Lw). rewrite Nat.mul_1_r in Lw. unfold entry. rewrite (V y w Ny G). apply outside_zero. change (T RNum) with R in *. rewrite Lw. exact New. }
  exists c'. eexists. split; [exact E|]. split; [apply pk_1loop_val, C|]. rewrite nth_map_seq by exact Hi.
  rewrite (Z "gamma1a_1loop"%string), (Z "gamma1b_1loop"%string), (Z "pk_gamma2_tree_tree"%string) by (cbn; tauto). rewrite no_loops_1loop. unfold entry. rewrite K1, K2, K3. reflexivity.
Qed.
Lemma new_2loop : complete C2Loop c (List.length kk) -> exists c' v, regpt_pad_k (N := RNum) C2Loop b c pkl k (0 : R) im = (c', Done) /\ pk_2loop (N := RNum) c' D None = Ok v /\
  nth i v 0 = damped_2loop D (nth i (extended kk k) 0) (nth i ss 0) (nth i ps 0).
Proof.
  intros HC. destruct (regpt_padded C2Loop b c kk k 0 eq_refl HC Hk Hn HA HE pkl im ps ss eq_refl Ep Es Lp Ls) as (c' & E & C & K1 & K2 & K3 & V).
  assert (Z : forall y, In y ["gamma1a_1loop"; "gamma1a_2loop"; "gamma1b_1loop"; "gamma1b_2loop"; "pk_gamma2_tree_tree"; "pk_gamma2_tree_1loop"; "pk_gamma2_1loop_1loop"; "pk_gamma3_tree"]%string -> entry c' y i = 0).
  { intros y Hy. assert (In y (fields C2Loop) /\ ~ In y ["k"; "pk_lin"; "sigmad2"]%string) as [F Ny].
    { cbn in Hy. repeat (destruct Hy as [<-|Hy]; [split; [cbn; tauto|intros Q; cbn in Q; repeat (destruct Q as [Q|Q]; [discriminate Q|]); exact Q]|]). destruct Hy. }
    destruct (getitem_complete _ _ _ y HC F) as (w & G & Lw). rewrite Nat.mul_1_r in Lw. unfold entry. rewrite (V y w Ny G). apply outside_zero. change (T RNum) with R in *. rewrite Lw. exact New. }
  exists c'. eexists. split; [exact E|]. split; [apply pk_2loop_val, C|]. rewrite nth_map_seq by exact Hi.
  rewrite (Z "gamma1a_1loop"%string), (Z "gamma1a_2loop"%string), (Z "gamma1b_1loop"%string), (Z "gamma1b_2loop"%string), (Z "pk_gamma2_tree_tree"%string), (Z "pk_gamma2_tree_1loop"%string), (Z "pk_gamma2_1loop_1loop"%string), (Z "pk_gamma3_tree"%string) by (cbn; tauto). rewrite no_loops_2loop. unfold entry. rewrite K1, K2, K3. reflexivity.
Qed.
End Spectra.
