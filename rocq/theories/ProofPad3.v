(** ProofPad3: pad_k forgets the cutoff of the run. *)
From Coq Require Import Reals ZArith List String Lia Lra Bool.
From Coquelicot Require Import Coquelicot.
From Verif Require Import Base Num BaseFacts Common Registry PyTerms PyPad Spec SpecPy SpecPad Sums ProofCommon2 ProofCommon3 ProofPy ProofPy2 ProofPy5 ProofPy7 ProofPad ProofPad2.
Import ListNotations.
Local Open Scope R_scope.

Lemma flat_at uv : 0 <= uv -> exists v, disperses [2; 4] [1; 1] uv 3 v /\ (3 * uv < 2 -> v = 0) /\ (2 <= 3 * uv -> v * (6 * PI^2) = Rmin (3 * uv) 4 - 2).
Proof.
  intros Hu. destruct (sigmad2_final [2; 4] [1; 1] [3] uv eq_refl ltac:(cbn; lia)) as (vs & E & F); [| |exact Hu|].
  - intros [|[|i]] [|[|j]] Hij; cbn in *; try lia. unfold at_. cbn. lra.
  - intros i j Hij. cbn in Hij. assert (i = 0 /\ j = 0)%nat as [-> ->] by lia. unfold at_. cbn. lra.
  - inversion F as [|a v l m Hv Fm]; subst. inversion Fm; subst. exists v. split; [exact E|]. destruct Hv as [A B]. unfold at_ in A, B. cbn [nth List.length Nat.sub] in A, B. split; [exact A|].
    intros H. specialize (B H).
    assert (C : is_RInt (fun _ : R => 1) 2 (Rmin (3 * uv) 4) (v * (6 * PI^2))).
    { eapply is_RInt_ext; [|exact B]. intros t _. change (plin [2; 4] [1; 1] t = 1). cbn [plin]. destruct (Rle_dec t 4); [|reflexivity]. unfold Rdiv. ring. }
    pose proof (is_RInt_unique _ _ _ _ C) as U. rewrite RInt_const in U. rewrite <- U. unfold scal. cbn. unfold mult. cbn. ring.
Qed.
Definition flat_object (sg : R) : columns RNum := filled C1Loop 1 (fun x _ => if (x =? "k")%string then 3 else if (x =? "sigmad2")%string then sg else if (x =? "pk_lin")%string then 1 else 0).
Lemma pad_cutoff : ~ (forall (c : columns RNum) (kk k K P : list R) (uv : R) sg, complete C1Loop c (List.length kk) -> getitem c "k" = Ok kk -> kk <> [] ->
  ascending k -> (exists v, In v k /\ nth (List.length kk - 1) kk 0 < v) -> ascending kk -> List.length P = List.length K -> (2 <= zlen K < 2 ^ 62)%Z -> increasing K -> 0 < uv ->
  getitem c "sigmad2" = Ok sg -> Forall2 (disperses K P uv) kk sg ->
  exists c' s t, regpt_pad_k (N := RNum) C1Loop false c (mk_table (N := RNum) K P) k (0 : R) "poly" = (c', Done) /\ getitem c' "sigmad2" = Ok (s ++ sg ++ t) /\ List.length s = List.length (below kk k)).
Proof.
  intros H. destruct (flat_at 1 ltac:(lra)) as (v & Dv & _ & Vv). destruct (flat_at (1 / 2) ltac:(lra)) as (w & Dw & Vw & _).
  specialize (Vv ltac:(lra)). specialize (Vw ltac:(lra)). rewrite Rmin_left in Vv by lra.
  assert (A1 : forall l : R, ascending [l]) by (intros l i j Hij; cbn in Hij; assert (i = 0 /\ j = 0)%nat as [-> ->] by lia; lra).
  assert (HI : increasing [2; 4]) by (intros [|[|i]] [|[|j]] Hij; cbn in *; try lia; unfold at_; cbn; lra).
  assert (HE : exists u : R, In u [5] /\ nth (List.length [3] - 1) [3] 0 < u) by (exists 5; split; [left; reflexivity|cbn; lra]).
  assert (HC : complete C1Loop (flat_object v) (List.length [3])) by apply filled_complete.
  destruct (H (flat_object v) [3] [5] [2; 4] [1; 1] 1 [v] HC eq_refl ltac:(discriminate) (A1 5) HE (A1 3) eq_refl ltac:(cbn; lia) HI ltac:(lra) eq_refl) as (c' & s & t & E & G & Ls).
  - constructor; [exact Dv|constructor].
  - destruct (pad_poly C1Loop false (flat_object v) [3] [5] 0 [2; 4] [1; 1] eq_refl eq_refl HC eq_refl ltac:(discriminate) (A1 5) HE (A1 3) eq_refl ltac:(cbn; lia) HI) as (c2 & ps & ss & E2 & _ & _ & _ & G2 & _ & F & _).
    rewrite E in E2. injection E2 as <-. unfold column in *. change (T RNum) with R in *. rewrite G in G2. injection G2 as <-.
    destruct (Forall2_middle _ (below [3] [5]) [3] (above [3] [5]) _ [w] (disperses_det [2; 4] [1; 1] (1 / 2)) F) as (p & q & Q & Fp & _); [constructor; [exact Dw|constructor]|].
    apply Forall2_len in Fp. assert (L : List.length s = List.length p) by congruence.
    assert (v = w).
    { assert (N1 : nth (List.length s) (s ++ [v] ++ t) 0 = v) by (rewrite app_nth2, Nat.sub_diag by lia; reflexivity). 
      assert (N2 : nth (List.length s) (p ++ [w] ++ q) 0 = w) by (rewrite L, app_nth2, Nat.sub_diag by lia; reflexivity).
      exact (eq_trans (eq_sym N1) (eq_trans (f_equal (fun l => nth (List.length s) l 0) Q) N2)). }
    assert (v * (6 * PI^2) = 0) by (replace v with 0 by congruence; ring). lra.
Qed.

(** ** A witness *)
Lemma pad_example : let c := filled C1Loop 2 ramp in let kk := [INR 0 + 1; INR 1 + 1] in let k := [/2; 5] in exists ps ss,
  complete C1Loop c (List.length kk) /\ getitem c "k" = Ok kk /\ ascending k /\ ascending kk /\ (exists v, In v k /\ nth (List.length kk - 1) kk 0 < v) /\ increasing [2; 4] /\
  find_pk (N := RNum) (mk_table (N := RNum) [2; 4] [1; 1]) (extended kk k) POLY = Ok ps /\ calc_running_sigmad2 (N := RNum) (mk_table (N := RNum) [2; 4] [1; 1]) (extended kk k) (1 / 2) = Ok ss /\
  List.length ps = List.length (extended kk k) /\ List.length ss = List.length (extended kk k) /\ List.length (below kk k) = 1%nat /\ List.length (extended kk k) = 4%nat.
Proof.
  intros c kk k.
  assert (Ak : ascending k) by (intros [|[|i]] [|[|j]] Hij; cbn in *; try lia; unfold at_; cbn; lra).
  assert (Akk : ascending kk) by (intros [|[|i]] [|[|j]] Hij; cbn in *; try lia; unfold at_; cbn; lra).
  assert (HI : increasing [2; 4]) by (intros [|[|i]] [|[|j]] Hij; cbn in *; try lia; unfold at_; cbn; lra).
  assert (AE : ascending (extended kk k)) by (apply asc_extended; [discriminate|exact Akk|exact Ak]).
  assert (B : below kk k = [/2]).
  { unfold below, k, kk. cbn [filter nth]. replace (Rltb (/2) (INR 0 + 1)) with true by (symmetry; apply Rltb_true; cbn; lra). replace (Rltb 5 (INR 0 + 1)) with false by (symmetry; apply Rltb_false; cbn; lra). reflexivity. }
  assert (A : above kk k = [5]).
  { unfold above, k, kk. cbn [filter nth List.length Nat.sub]. replace (Rltb (INR 1 + 1) (/2)) with false by (symmetry; apply Rltb_false; cbn; lra). replace (Rltb (INR 1 + 1) 5) with true by (symmetry; apply Rltb_true; cbn; lra). reflexivity. }
  destruct (poly_lookup_safe (N := RNum) [2; 4] [1; 1] (extended kk k) eq_refl ltac:(cbn; lia)) as (ps & Ep & Lp).
  destruct (sigmad2_final [2; 4] [1; 1] (extended kk k) (1 / 2) eq_refl ltac:(cbn; lia) HI AE ltac:(lra)) as (ss & Es & Fs).
  exists ps, ss. split; [apply filled_complete|]. split; [reflexivity|]. split; [exact Ak|]. split; [exact Akk|]. split; [exists 5; split; [right; left; reflexivity|cbn; lra]|].
  split; [exact HI|]. split; [exact Ep|]. split; [exact Es|]. split; [exact Lp|]. split; [symmetry; eapply Forall2_len, Fs|]. split; [rewrite B; reflexivity|]. unfold extended. rewrite A, B. reflexivity.
Qed.
