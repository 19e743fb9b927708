(** ProofProcess30: examples for the claims about processes. *)
From Coq Require Import ZArith List String Bool Lia Permutation Reals Lra.
From Verif Require Import Base Num BaseFacts Common Kernels Integrals Registry SpecRegistry ProofRegistry Threads SpecThreads SpecLoops SpecScratch SpecTable ProofCommon2 ProofScratch2 ProofScratch3
  ProofThreads ProofThreads2 ProofThreads3 ProofThreads4 ProofThreads7 ProofThreads8 PyTerms Process SpecProcess
  ProofProcess ProofProcess6 ProofProcess8 ProofProcess14 ProofProcess15 ProofProcess16 ProofProcess17 ProofProcess21 ProofProcess25 ProofProcess29.
Import ListNotations.
Local Open Scope string_scope.

Definition k_ex : list R := [1; 2]%R.
Definition p_ex : list R := [5; 6]%R.
Lemma ex_table : lin_table (mk_table (N := RNum) k_ex p_ex).
Proof. exact pk_ex_table. Qed.

(** ** Values exist for small tables *)
Record settled (st : settings RNum) : Prop := {
  se_cubic : all_cubic st;
  se_q : forall x, In x radial_only -> s_prec st x = mkPrec (N := RNum) 1 1%R 2%R POLY;
  se_mu : forall x, In x (angular ++ ["A_1loop_mu"])%list -> pr_n (s_prec st x) = 1%Z }.
Section Values.
Variables (st : settings RNum) (K P : list R).
Hypothesis (HT : lin_table (mk_table (N := RNum) K P)).
Lemma any_range p : exists r, q_range (N := RNum) p (mk_table (N := RNum) K P) = Ok r.
Proof.
  destruct HT as (_ & L & _). cbn [mk_table pk_k] in L. assert (L' : (2 <= zlen K < 2 ^ 62)%Z) by exact L. unfold q_range. destruct (_ || _); [|eauto]. cbn [mk_table pk_k pk_n].
  rewrite (rd_ok (A := T RNum) 0%R K 0) by (change (zlen (A := T RNum) K) with (zlen K); lia). cbn [bind]. unfold u64. change (zlen (A := T RNum) K) with (zlen K). rewrite Z.mod_small by (unfold SIZE_T; lia).
  rewrite (rd_ok (A := T RNum) 0%R K (zlen K - 1)) by (change (zlen (A := T RNum) K) with (zlen K); lia). cbn [bind]. eauto.
Qed.
Lemma makes_at qs mus : settled st -> incl qs radial_only -> incl mus (angular ++ ["A_1loop_mu"])%list -> makes 2 st (mk_table (N := RNum) K P) qs mus.
Proof.
  intros S Hq Hm. split; intros x Hx.
  - rewrite (se_q _ S x (Hq _ Hx)). split; [cbn; lia|]. unfold new_q, init_gauss_legendre_q. rewrite (se_q _ S x (Hq _ Hx)). destruct (any_range (mkPrec (N := RNum) 1 1%R 2%R POLY)) as ((a & b) & ->). cbn [bind]. cbn [pr_n pr_interpol]. change (repeat (nZ RNum 0) (Z.to_nat 1)) with [0%R].
    rewrite (proj1 (gl_one 0 _ _ 0 0)). cbn [bind]. rewrite for_step by lia. cbn -[Rdiv ln exp find_pk].
    match goal with |- context[find_pk _ ?q _] => destruct (poly_lookup_safe (N := RNum) K P q) as (v & E & _); [apply HT|apply HT|] end.
    rewrite E. cbn [bind]. eauto.
  - rewrite (se_mu _ S x (Hm _ Hx)). split; [lia|]. unfold new_mu, init_gauss_legendre_mu. rewrite (se_mu _ S x (Hm _ Hx)). change (repeat (nZ RNum 0) (Z.to_nat 1)) with [0%R].
    rewrite (proj1 (gl_one 0 _ _ 0 0)). eexists. cbn [bind]. rewrite for_step by lia. reflexivity.
Qed.
Variables (dt ptt : Pk RNum) (ks : list R).
Definition heap_at : heap RNum := fun l => match l with
  | Arr x i => if (x =? "k")%string then option_map (VNum (N := RNum)) (nth_error ks (Z.to_nat i)) else Some (VNum (N := RNum) 0%R)
  | Priv _ _ => Some VNull
  | Glob x => if (x =? "pk_lin")%string then Some (VPk (mk_table (N := RNum) K P)) else if (x =? "pk_dt")%string then Some (VPk dt) else if (x =? "pk_tt")%string then Some (VPk ptt) else Some VNull end.
Lemma starts_at d : settled st -> starts 2 st d heap_at (mk_table (N := RNum) K P) dt ptt ks [indices (zlen ks)].
Proof.
  intros S. split.
  - split; [|split; [unfold distributes; cbn; rewrite app_nil_r; apply Permutation_refl|apply makes_at; [exact S| |]]].
    + constructor; try reflexivity.
      * unfold stored, SpecThreads.column. rewrite map_map. cbn. unfold indices. rewrite map_map. apply nth_ext with (d := None) (d' := None); rewrite !map_length, seq_length; unfold zlen; [lia|]. intros n Hn.
        rewrite (nth_indep _ None (option_map (VNum (N := RNum)) (nth_error ks (Z.to_nat (Z.of_nat 0))))) by (rewrite map_length, seq_length; lia). rewrite (map_nth (fun x => option_map (VNum (N := RNum)) (nth_error ks (Z.to_nat (Z.of_nat x))))). rewrite seq_nth by lia. cbn. rewrite Nat2Z.id.
        rewrite (nth_error_nth' _ 0%R) by lia. rewrite (nth_indep _ None (Some (VNum (N := RNum) 0%R))) by (rewrite map_length; lia). rewrite (map_nth (fun x => Some (VNum (N := RNum) x))). reflexivity.
      * intros l Hl. unfold out_cells in Hl. rewrite !in_app_iff, !In_column, in_flat_map in Hl. destruct Hl as [(j & _ & ->)|[(j & _ & ->)|(ik & _ & Hc)]]; try discriminate.
        destruct (cells_of_arr d ik _ Hc) as (y & j & -> & Ny). cbn. rewrite (proj2 (String.eqb_neq y "k") Ny). discriminate.
      * intros t x _ _. exists VNull. split; [reflexivity|intros []].
    + destruct d; intros x Hx; cbn in Hx |- *; intuition (subst; auto 20).
    + destruct d; intros x Hx; cbn in Hx |- *; intuition (subst; auto 20).
  - destruct d; try exact I; try apply any_range. split; [discriminate|]. split; [reflexivity|]. split; [reflexivity|]. intros l [->| ->]; discriminate.
Qed.
Lemma values_at d : settled st -> (d = D_B -> lin_table dt /\ lin_table ptt) -> exists ps ss vals, computes 2 st suave1_ex suave12_ex d (mk_table (N := RNum) K P) dt ptt ks ps ss vals.
Proof. intros S HB. exact (computes_exists 2 st suave1_ex suave12_ex d heap_at (mk_table (N := RNum) K P) dt ptt ks _ (se_cubic _ S) suave_ex HT HB (starts_at d S)). Qed.
End Values.
(** ** Small settings *)
Lemma default_cubic x : pr_interpol (default_precision (N := RNum) x) = POLY.
Proof. unfold default_precision. cbn [assoc]. repeat (match goal with |- context [(?a =? ?b)%string] => destruct (a =? b)%string; [reflexivity|] end). reflexivity. Qed.
Lemma once_cubic x n mn mx p : pr_interpol p = POLY -> pr_interpol (once (N := RNum) x n mn mx "poly" p) = POLY.
Proof.
  intros E. unfold once, set_precision. destruct (0 <? _)%Z; destruct (nle _ _ _); cbn; rewrite ?E; cbn; rewrite ?E; try reflexivity; apply default_cubic.
Qed.
Lemma once_q x p : In x radial_only -> once (N := RNum) x 1 1%R 2%R "poly" p = mkPrec (N := RNum) 1 1%R 2%R POLY.
Proof.
  intros H. assert (A : is_angular x = false /\ is_range x = false) by (cbn in H; intuition (subst; reflexivity)). destruct A as (A1 & A2). unfold once. rewrite A1, A2. unfold set_precision. change (u64 1) with 1%Z. cbn [Z.ltb Z.compare]. rn. rewrite (proj2 (Rleb_true _ _)) by lra. cbn.
  destruct (pr_interpol p); reflexivity.
Qed.
Lemma once_mu x p : In x (angular ++ ["A_1loop_mu"])%list -> pr_n (once (N := RNum) x 1 1%R 2%R "poly" p) = 1%Z.
Proof.
  intros H. assert (A2 : is_range x = false) by (cbn in H; intuition (subst; reflexivity)). unfold once. rewrite A2. unfold set_precision. change (u64 1) with 1%Z. cbn [Z.ltb Z.compare]. destruct (nle _ _ _); cbn; destruct (pr_interpol p); reflexivity.
Qed.

Local Notation reached := (reached (N := RNum) 2 suave1_ex suave12_ex).
Local Notation step := (step (N := RNum) 2 suave1_ex suave12_ex).
Local Notation state := (state RNum).
Lemma with_conf2 (s : state) a b : with_conf (with_conf s a) b = with_conf s b.
Proof. destruct s. reflexivity. Qed.
Lemma settle (s : state) o c : reached s -> In o (vars s) -> class_of s o = Some c -> has_ctype c = true -> g_conf s = fresh_settings RNum -> exists st, settled st /\ reached (with_conf s st).
Proof.
  intros R Ho C Ct G. assert (A : forall g ms st, In (g, ms) groups \/ In g all_settings /\ ms = [g] -> reached (with_conf s st) -> exists st', sets_exactly (N := RNum) ms 1 1%R 2%R "poly" st (st', Done) /\ reached (with_conf s st')).
  { intros g ms st Hg Rs. destruct (proj1 (change_settings (N := RNum) 2 suave1_ex suave12_ex (with_conf s st) o c Rs Ho C Ct) g ms 1%Z 1%R 2%R "poly" Hg) as (st' & E & X). exists st'. split; [exact X|]. rewrite with_conf2 in E. eapply reached_Fine; eauto. }
  assert (R0 : reached (with_conf s (fresh_settings RNum))) by (replace (with_conf s (fresh_settings RNum)) with s; [exact R|rewrite <- G; destruct s; reflexivity]).
  destruct (A "all" (radial ++ angular)%list _ (or_introl (or_introl eq_refl)) R0) as (st1 & (_ & P1 & I1 & _) & R1).
  destruct (A "A_1loop_q" ["A_1loop_q"] st1 ltac:(right; split; [cbn; tauto|reflexivity]) R1) as (st2 & (_ & P2 & I2 & _) & R2).
  destruct (A "A_1loop_mu" ["A_1loop_mu"] st2 ltac:(right; split; [cbn; tauto|reflexivity]) R2) as (st3 & (_ & P3 & I3 & _) & R3).
  exists st3. split; [|exact R3]. cbn [fst] in *. constructor.
  - split; [|intros x; rewrite I3, I2, I1; reflexivity]. assert (Q1 : forall x, pr_interpol (s_prec st1 x) = POLY) by (intros x; rewrite P1; destruct (existsb _ _); [apply once_cubic|]; apply default_cubic).
    assert (Q2 : forall x, pr_interpol (s_prec st2 x) = POLY) by (intros x; rewrite P2; destruct (existsb _ _); [apply once_cubic|]; apply Q1).
    intros x; rewrite P3; destruct (existsb _ _); [apply once_cubic|]; apply Q2.
  - intros x Hx. pose proof (once_q x) as O. rewrite P3, P2, P1. cbn in Hx. repeat (destruct Hx as [<-|Hx]; [cbn [existsb radial angular app String.eqb Ascii.eqb Bool.eqb orb]; rewrite ?O by (cbn; tauto); try apply O; cbn; tauto|]). contradiction.
  - intros x Hx. pose proof (once_mu x) as O. rewrite P3, P2, P1. cbn in Hx. repeat (destruct Hx as [<-|Hx]; [cbn [existsb radial angular app String.eqb Ascii.eqb Bool.eqb orb]; apply O; cbn; tauto|]). contradiction.
Qed.
(** ** An object of each class *)
Lemma new_ex c : has_ctype c = true -> exists s : state, reached s /\ vars s = [0%nat] /\ class_of s 0 = Some c /\ lin_of s 0 = None /\ settled (g_conf s) /\ g_dt s = no_pk /\ g_tt s = no_pk /\ List.length (objects s) = 1%nat.
Proof.
  intros Ct. assert (X : exists s0, execute (N := RNum) 2 suave1_ex suave12_ex [New c] (fresh_process RNum) = Some s0 /\ vars s0 = [0%nat] /\ class_of s0 0 = Some c /\ lin_of s0 0 = None /\ g_conf s0 = fresh_settings RNum /\ g_dt s0 = no_pk /\ g_tt s0 = no_pk /\ List.length (objects s0) = 1%nat)
    by (destruct c; try discriminate Ct; eexists; (split; [reflexivity|]); repeat split).
  destruct X as (s0 & E & V & C & L & G & D & T0 & Ln). destruct (settle s0 0 c) as (st & S & R); [exists [New c]; exact E|rewrite V; left; reflexivity|exact C|exact Ct|exact G|].
  exists (with_conf s0 st). repeat (split; [assumption|]). exact Ln.
Qed.
Lemma short_ex (s : state) xs : xs <> [] -> (zlen xs < 1000)%Z -> printable s xs.
Proof. intros H L. split; [unfold SIZE_T; lia|auto]. Qed.
Lemma ks_short (s : state) : printable s ks_ex. Proof. apply short_ex; [discriminate|cbn; lia]. Qed.
Lemma k_short (s : state) : printable s k_ex. Proof. apply short_ex; [discriminate|cbn; lia]. Qed.
Lemma ex_new c sl : slot_of c = Some sl -> exists s, reached s /\ In 0%nat (vars s) /\ class_of s 0 = Some c /\ printable s ks_ex /\ printable s k_ex.
Proof. intros Sl. destruct (new_ex c (slot_ctype _ _ Sl)) as (s & R & V & C & _). exists s. rewrite V. cbn. auto 10 using ks_short, k_short. Qed.
Lemma ex_bare c sl : slot_of c = Some sl -> exists s, reached s /\ In 0%nat (vars s) /\ class_of s 0 = Some c /\ lin_of s 0 = None.
Proof. intros Sl. destruct (new_ex c (slot_ctype _ _ Sl)) as (s & R & V & C & L & _). exists s. rewrite V. cbn. auto. Qed.
