(** ProofPad: pad_k with keyword columns and with a linear spectrum. *)
From Coq Require Import Reals ZArith List String Lia Lra Bool.
From Verif Require Import Base Num BaseFacts Common Registry PyTerms PyPad Spec SpecPy SpecPad Sums ProofCommon3 ProofPy ProofPy2 ProofPy5 ProofPy7.
Import ListNotations.
Local Open Scope R_scope.

(** ** Rows chosen by their wavenumber *)
Lemma prefix_with (a : R) (k w : list R) : ascending k -> List.length w = List.length k ->
  firstn (List.length (filter (fun v => Rltb v a) k)) w = map snd (filter (fun p => Rltb (fst p) a) (combine k w)).
Proof.
  revert w. induction k as [|x k IH]; intros [|y w] H L; try discriminate L; [reflexivity|]. destruct (asc_cons x k H) as [H1 H2]. injection L as L.
  cbn [filter combine fst]. destruct (Rltb_spec x a) as [Q|Q].
  - cbn [List.length firstn map snd]. rewrite IH by assumption. reflexivity.
  - rewrite filter_none by (intros z Hz; apply Rltb_false; specialize (H2 z Hz); lra). cbn [List.length firstn].
    rewrite <- IH by assumption. rewrite filter_none by (intros z Hz; apply Rltb_false; specialize (H2 z Hz); lra). reflexivity.
Qed.
Lemma suffix_with (b : R) (k w : list R) : ascending k -> List.length w = List.length k ->
  skipn (List.length w - List.length (filter (fun v => Rltb b v) k)) w = map snd (filter (fun p => Rltb b (fst p)) (combine k w)).
Proof.
  revert w. induction k as [|x k IH]; intros [|y w] H L; try discriminate L; [reflexivity|]. destruct (asc_cons x k H) as [H1 H2]. injection L as L.
  cbn [filter combine fst]. specialize (IH w H1 L). destruct (Rltb_spec b x) as [Q|Q].
  - rewrite filter_all in * by (intros z Hz; apply Rltb_true; specialize (H2 z Hz); lra). cbn [List.length map snd]. rewrite L in *. rewrite Nat.sub_diag in *. cbn [skipn] in *. f_equal. exact IH.
  - pose proof (filter_len (fun v => Rltb b v) k). cbn [List.length]. rewrite Nat.sub_succ_l by lia. cbn [skipn]. exact IH.
Qed.
Lemma asc_nth l i j : ascending l -> (i <= j < List.length l)%nat -> nth i l 0 <= nth j l 0.
Proof. intros H Hij. destruct (Nat.eq_dec i j) as [->|Ne]; [lra|]. apply (H i j). lia. Qed.
Lemma asc_app l m : ascending l -> ascending m -> (forall x y, In x l -> In y m -> x <= y) -> ascending (l ++ m).
Proof.
  intros Hl Hm HX i j Hij. unfold ascending, at_ in *. rewrite app_length in Hij. destruct (Nat.lt_ge_cases j (List.length l)) as [J|J].
  - rewrite !app_nth1 by lia. apply Hl. lia.
  - rewrite (app_nth2 l m 0 J). destruct (Nat.lt_ge_cases i (List.length l)) as [I|I].
    + rewrite app_nth1 by exact I. apply HX; apply nth_In; lia.
    + rewrite app_nth2 by exact I. apply Hm. lia.
Qed.
Lemma asc_filter f l : ascending l -> ascending (filter f l).
Proof.
  induction l as [|x l IH]; intros H; [exact H|]. destruct (asc_cons x l H) as [H1 H2]. cbn [filter]. destruct (f x); [|apply IH, H1].
  change (x :: filter f l) with ([x] ++ filter f l). apply asc_app; [|apply IH, H1|].
  - intros i j Hij. cbn in Hij. assert (i = 0 /\ j = 0)%nat as [-> ->] by lia. lra.
  - intros a y [<-|[]] Hy. apply filter_In in Hy. apply H2, Hy.
Qed.
Lemma asc_extended kk k : kk <> [] -> ascending kk -> ascending k -> ascending (extended kk k).
Proof.
  intros Hn Hkk Hk. assert (L : (0 < List.length kk)%nat) by (destruct kk; cbn; [congruence|lia]).
  assert (B : forall y, In y kk -> nth 0 kk 0 <= y <= nth (List.length kk - 1) kk 0).
  { intros y Hy. destruct (In_nth kk y 0 Hy) as (i & Hi & <-). split; apply asc_nth; try assumption; lia. }
  unfold extended, below, above. apply asc_app; [apply asc_filter, Hk|apply asc_app; [exact Hkk|apply asc_filter, Hk|]|].
  - intros x y Hx Hy. apply filter_In in Hy as [_ Hy]. apply Rltb_true in Hy. specialize (B x Hx). lra.
  - intros x y Hx Hy. apply filter_In in Hx as [_ Hx]. apply Rltb_true in Hx. apply in_app_or in Hy as [Hy|Hy].
    + specialize (B y Hy). lra.
    + apply filter_In in Hy as [_ Hy]. apply Rltb_true in Hy. specialize (B (nth 0 kk 0) (nth_In kk 0 L)). lra.
Qed.

(** ** Keyword columns *)
Lemma pad_keywords_val (kw : list (string * list R)) (c : columns RNum) (old : string -> list R) s e (x : R) : (0 < e)%nat -> NoDup (map fst kw) ->
  (forall y w, In (y, w) kw -> getitem c y = Ok (pad (N := RNum) (old y) s e x)) -> (forall y w, In (y, w) kw -> (s <= List.length w /\ e <= List.length w)%nat) ->
  exists c', pad_keywords (N := RNum) c s e kw = (c', Done) /\ map fst c' = map fst c /\
    (forall y w, In (y, w) kw -> getitem c' y = Ok (firstn s w ++ old y ++ skipn (List.length w - e) w)) /\
    (forall y, ~ In y (map fst kw) -> getitem c' y = getitem c y).
Proof.
  intros He. revert c. induction kw as [|[z w] kw IH]; intros c ND HG HL.
  - exists c. repeat split; [intros y w []].
  - cbn [map fst] in ND. apply NoDup_cons_iff in ND as [Nz ND]. cbn [pad_keywords]. pose proof (HG z w (or_introl eq_refl)) as Gz. destruct (HL z w (or_introl eq_refl)) as [L1 L2].
    unfold column in *. change (T RNum) with R in *. rewrite Gz. cbn [lift].
    rewrite (assign_first_val (N := RNum)) by (rewrite firstn_length; change (T RNum) with R; lia). cbn [lift].
    assert (Lw : List.length (last_slice w e) = e) by (unfold last_slice; destruct e; [lia|]; rewrite skipn_length; lia).
    change (T RNum) with R. rewrite app_assoc, (assign_last_val (N := RNum)) by (exact He || exact Lw). cbn [lift].
    set (c1 := setitem (N := RNum) c z _). set (v := (firstn s w ++ old z) ++ last_slice w e).
    assert (Kz : In z (map fst c)) by (apply (proj1 (getitem_assoc (N := RNum) _ _ _)) in Gz; apply assoc_In; eauto).
    assert (K1 : map fst c1 = map fst c) by (apply keys_set, Kz).
    destruct (IH (setitem (N := RNum) c1 z v) ND) as (c' & E & K & V & O).
    + intros y u Hy. rewrite !getitem_set. unfold c1. rewrite getitem_set.
      destruct (String.eqb_spec z y) as [->|Ne]; [exfalso; apply Nz; apply (in_map fst) in Hy; exact Hy|]. apply (HG y u). right. exact Hy.
    + intros y u Hy. apply (HL y u). right. exact Hy.
    + exists c'. split; [exact E|]. split; [etransitivity; [exact K|]; etransitivity; [apply (keys_set (N := RNum)); rewrite K1; exact Kz|exact K1]|]. split.
      * intros y u [[= -> ->]|Hy]; [|apply V, Hy]. rewrite O by exact Nz. rewrite getitem_set, String.eqb_refl. unfold v, last_slice. destruct e; [lia|]. rewrite <- app_assoc. reflexivity.
      * intros y Hy. cbn [map fst] in Hy. rewrite O by (intros Q; apply Hy; right; exact Q). rewrite getitem_set.
        destruct (String.eqb_spec z y) as [->|Ne]; [exfalso; apply Hy; left; reflexivity|]. unfold c1. rewrite getitem_set.
        destruct (String.eqb_spec z y) as [->|_]; [contradiction|reflexivity].
Qed.
Section Pad.
Variables (cl : pyclass) (b : bool) (c : columns RNum) (kk k : list R) (x : R).
Hypotheses (H1 : one_dim cl = true) (HC : complete cl c (List.length kk)) (Hk : getitem c "k" = Ok kk) (Hn : kk <> []).
Hypotheses (HA : ascending k) (HE : exists v, In v k /\ nth (List.length kk - 1) kk 0 < v).
Lemma len_pos : (1 <= List.length kk)%nat. Proof. destruct kk; cbn; [congruence|lia]. Qed.
Lemma padded : exists c', pad_k (N := RNum) cl b c k x = (c', Done) /\ complete cl c' (List.length (extended kk k)) /\ getitem c' "k" = Ok (extended kk k) /\
  forall y v, y <> "k"%string -> getitem c y = Ok v -> getitem c' y = Ok (repeat x (List.length (below kk k)) ++ v ++ repeat x (List.length (above kk k))).
Proof.
  destruct (pad_k_extends cl b c (List.length kk) kk k x H1 HC Hk len_pos HA HE) as (c' & E & C & K & V). exists c'. split; [exact E|].
  split; [|split; [exact K|exact V]]. unfold extended. rewrite !app_length, Nat.add_assoc. exact C.
Qed.
Lemma pad_with (kw : list (string * list R)) : NoDup (map fst kw) -> (forall y w, In (y, w) kw -> In y (fields cl) /\ y <> "k"%string /\ List.length w = List.length k) ->
  exists c', pad_k_with (N := RNum) cl b c k x kw = (c', Done) /\ complete cl c' (List.length (extended kk k)) /\ getitem c' "k" = Ok (extended kk k) /\
    (forall y v w, getitem c y = Ok v -> In (y, w) kw -> getitem c' y = Ok (below_with kk k w ++ v ++ above_with kk k w)) /\
    forall y v, y <> "k"%string -> getitem c y = Ok v -> ~ In y (map fst kw) -> getitem c' y = Ok (repeat x (List.length (below kk k)) ++ v ++ repeat x (List.length (above kk k))).
Proof.
  intros ND HW. destruct padded as (c1 & E & C & K & V). pose proof len_pos as L.
  assert (E0 : element (N := RNum) kk 0 = Ok (nth 0 kk 0)) by (apply (element_ok (N := RNum) kk 0 0); exact L).
  assert (E1 : element (N := RNum) kk (zlen (A := T RNum) kk - 1) = Ok (nth (List.length kk - 1) kk 0)).
  { replace (zlen (A := T RNum) kk - 1)%Z with (Z.of_nat (List.length kk - 1)) by (unfold zlen; change (T RNum) with R; lia). apply (element_ok (N := RNum) kk 0). change (T RNum) with R. lia. }
  unfold pad_k_with. rewrite Hk. cbn [lift]. rewrite E0. cbn [lift]. rewrite E1. cbn [lift].
  assert (He : (0 < List.length (above kk k))%nat).
  { destruct HE as (v & Hv & Hv1). assert (In v (above kk k)) as Q by (apply filter_In; split; [exact Hv|apply Rltb_true, Hv1]). destruct (above kk k); [destruct Q|cbn; lia]. }
  set (old := fun y => match getitem c y with Ok v => v | Err _ => [] end).
  destruct (pad_keywords_val kw c1 old (List.length (below kk k)) (List.length (above kk k)) x He ND) as (c2 & E2 & K2 & V2 & O2).
  - intros y w Hy. destruct (HW y w Hy) as (F & Ny & _). destruct (getitem_complete _ _ _ y HC F) as (v & G & _). unfold pad. rewrite (V y v Ny G). unfold old. rewrite G. reflexivity.
  - intros y w Hy. destruct (HW y w Hy) as (_ & _ & Lw). unfold below, above. rewrite Lw. split; apply filter_len.
  - exists c2. split; [rewrite E; exact E2|].
    assert (W : forall y v w, getitem c y = Ok v -> In (y, w) kw -> getitem c2 y = Ok (below_with kk k w ++ v ++ above_with kk k w)).
    { intros y v w G Hy. rewrite (V2 y w Hy). unfold old. rewrite G. destruct (HW y w Hy) as (_ & _ & Lw). unfold below_with, above_with.
      rewrite <- prefix_with, <- suffix_with by assumption. reflexivity. }
    assert (Nk : ~ In "k"%string (map fst kw)) by (intros Q; apply in_map_iff in Q as ((y & w) & Ey & Hy); cbn in Ey; subst y; destruct (HW _ _ Hy) as (_ & Q & _); congruence).
    split; [split|split; [|split]].
    + intros y. rewrite K2. apply C.
    + intros y v Gv. destruct (in_dec string_dec y (map fst kw)) as [I|I].
      * apply in_map_iff in I as ((y' & w) & Ey & Hy). cbn in Ey. subst y'. destruct (HW y w Hy) as (F & _ & Lw). destruct (getitem_complete _ _ _ y HC F) as (u & G & Lu).
        rewrite (W y u w G Hy) in Gv. injection Gv as <-. rewrite one_dim_ncomp, Nat.mul_1_r in * by exact H1. unfold extended. rewrite !app_length.
        unfold below_with, above_with. rewrite <- prefix_with, <- suffix_with by assumption. rewrite firstn_length, skipn_length, Lw.
        pose proof (filter_len (fun v => Rltb v (nth 0 kk 0)) k). pose proof (filter_len (fun v => Rltb (nth (List.length kk - 1) kk 0) v) k). unfold below, above. change (T RNum) with R in *. lia.
      * rewrite O2 in Gv by exact I. apply (proj2 C y v Gv).
    + rewrite O2 by exact Nk. exact K.
    + exact W.
    + intros y v Ny G I. rewrite O2 by exact I. apply V; assumption.
Qed.
(** ** With the linear spectrum *)
Lemma regpt_padded (pkl : Pk RNum) (im : string) (ps ss : list R) : has_ctype cl = true ->
  find_pk (N := RNum) pkl (extended kk k) (if (im =? "poly")%string then POLY else LIN) = Ok ps -> calc_running_sigmad2 (N := RNum) pkl (extended kk k) (1 / 2) = Ok ss ->
  List.length ps = List.length (extended kk k) -> List.length ss = List.length (extended kk k) ->
  exists c', regpt_pad_k (N := RNum) cl b c pkl k x im = (c', Done) /\ complete cl c' (List.length (extended kk k)) /\ getitem c' "k" = Ok (extended kk k) /\
    getitem c' "pk_lin" = Ok ps /\ getitem c' "sigmad2" = Ok ss /\
    forall y v, ~ In y ["k"; "pk_lin"; "sigmad2"]%string -> getitem c y = Ok v -> getitem c' y = Ok (repeat x (List.length (below kk k)) ++ v ++ repeat x (List.length (above kk k))).
Proof.
  intros Hct Ep Es Lp Ls. destruct padded as (c1 & E & C & K & V). unfold regpt_pad_k. rewrite E.
  assert (Fp : In "pk_lin"%string (fields cl) /\ In "sigmad2"%string (fields cl)) by (destruct cl; try discriminate Hct; try discriminate H1; cbn; tauto). destruct Fp as [Fp Fs].
  assert (X : forall y, In y (fields cl) -> existsb (String.eqb y) (fields cl) = true) by (intros y Hy; apply existsb_exists; exists y; split; [exact Hy|apply String.eqb_refl]).
  cbv zeta. rewrite (X _ Fp), (X _ Fs). unfold column in *. change (T RNum) with R in *. rewrite K. cbn [lift]. rewrite Ep. cbn [lift]. rewrite getitem_set. cbn [String.eqb Ascii.eqb Bool.eqb]. rewrite K. cbn [lift].
  replace (nlit RNum 5 1) with (1 / 2) by (cbn; lra). rewrite Es. cbn [lift]. eexists. split; [reflexivity|].
  assert (Kp : In "pk_lin"%string (map fst c1)) by (apply C, Fp). assert (Ks : In "sigmad2"%string (map fst c1)) by (apply C, Fs).
  split; [split|].
  - intros y. rewrite !keys_set by (rewrite ?keys_set; assumption). apply C.
  - intros y v. rewrite !getitem_set. rewrite one_dim_ncomp, Nat.mul_1_r by exact H1. destruct (String.eqb "sigmad2" y); [intros [= <-]; exact Ls|]. destruct (String.eqb "pk_lin" y); [intros [= <-]; exact Lp|].
    intros G. destruct C as [_ C]. apply C in G. rewrite one_dim_ncomp, Nat.mul_1_r in G by exact H1. exact G.
  - rewrite !getitem_set. cbn [String.eqb Ascii.eqb Bool.eqb]. split; [exact K|]. split; [reflexivity|]. split; [reflexivity|].
    intros y v Hy G. rewrite !getitem_set. destruct (String.eqb_spec "sigmad2" y) as [<-|_]; [exfalso; apply Hy; cbn; tauto|].
    destruct (String.eqb_spec "pk_lin" y) as [<-|_]; [exfalso; apply Hy; cbn; tauto|]. apply V; [|exact G]. intros ->. apply Hy. cbn. tauto.
Qed.
End Pad.
