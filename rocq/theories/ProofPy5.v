(** ProofPy5: pad_k. *)
From Coq Require Import Reals ZArith List String Lia Lra Bool.
From Verif Require Import Base Num BaseFacts Common Registry PyTerms Spec SpecPy Sums ProofPy ProofPy2 ProofPy4.
Import ListNotations.
Local Open Scope R_scope.

Lemma asc_cons x l : ascending (x :: l) -> ascending l /\ forall y, In y l -> x <= y.
Proof.
  intros H. split; [intros i j Hij; apply (H (S i) (S j)); cbn in Hij |- *; lia|].
  intros y Hy. destruct (In_nth l y 0 Hy) as (i & Hi & E). rewrite <- E. apply (H 0%nat (S i)). cbn. lia.
Qed.
Lemma filter_all (f : R -> bool) l : (forall y, In y l -> f y = true) -> filter f l = l.
Proof. induction l as [|y l IH]; intros H; [reflexivity|]. cbn. rewrite H by (left; reflexivity). f_equal. apply IH. intros z Hz. apply H. right. exact Hz. Qed.
Lemma filter_none (f : R -> bool) l : (forall y, In y l -> f y = false) -> filter f l = [].
Proof. induction l as [|y l IH]; intros H; [reflexivity|]. cbn. rewrite H by (left; reflexivity). apply IH. intros z Hz. apply H. right. exact Hz. Qed.
Lemma filter_len {A} (f : A -> bool) l : (List.length (filter f l) <= List.length l)%nat.
Proof. induction l as [|y l IH]; cbn; [lia|]. destruct (f y); cbn; lia. Qed.
Lemma prefix_lt (a : R) k : ascending k -> firstn (List.length (filter (fun v => Rltb v a) k)) k = filter (fun v => Rltb v a) k.
Proof.
  induction k as [|x k IH]; intros H; [reflexivity|]. destruct (asc_cons x k H) as [H1 H2]. cbn [filter]. destruct (Rltb_spec x a) as [L|L].
  - cbn [List.length firstn]. rewrite IH by exact H1. reflexivity.
  - rewrite filter_none; [reflexivity|]. intros y Hy. apply Rltb_false. specialize (H2 y Hy). lra.
Qed.
Lemma suffix_gt (b : R) k : ascending k -> skipn (List.length k - List.length (filter (fun v => Rltb b v) k)) k = filter (fun v => Rltb b v) k.
Proof.
  induction k as [|x k IH]; intros H; [reflexivity|]. destruct (asc_cons x k H) as [H1 H2]. cbn [filter]. destruct (Rltb_spec b x) as [L|L].
  - rewrite filter_all by (intros y Hy; apply Rltb_true; specialize (H2 y Hy); lra). rewrite Nat.sub_diag. reflexivity.
  - pose proof (filter_len (fun v => Rltb b v) k). cbn [List.length]. rewrite Nat.sub_succ_l by assumption. cbn [skipn]. apply IH, H1.
Qed.

Lemma firstn_repeat_app {A} (x : A) s l : firstn s (repeat x s ++ l) = repeat x s.
Proof. rewrite firstn_app, repeat_length, Nat.sub_diag, firstn_O, app_nil_r. rewrite <- (repeat_length x s) at 1. apply firstn_all. Qed.
Lemma skipn_repeat_app {A} (x : A) s l : skipn s (repeat x s ++ l) = l.
Proof. rewrite skipn_app, repeat_length, Nat.sub_diag. rewrite skipn_all2 by (rewrite repeat_length; lia). reflexivity. Qed.
Lemma assign_ok {N : Num} (v w : list (T N)) : List.length w = List.length v -> assign v w = Ok w.
Proof. intros H. unfold assign. rewrite H, Nat.eqb_refl. reflexivity. Qed.
Lemma assign_first_val {N : Num} (x : T N) s e (v w : list (T N)) : List.length w = s -> assign_first (pad v s e x) s w = Ok (w ++ v ++ repeat x e).
Proof.
  intros H. unfold assign_first, pad. rewrite firstn_repeat_app, assign_ok by (rewrite repeat_length; exact H). cbn [bind]. rewrite skipn_repeat_app. reflexivity.
Qed.
Lemma assign_last_val {N : Num} (x : T N) e (v w : list (T N)) : (0 < e)%nat -> List.length w = e -> assign_last (v ++ repeat x e) e w = Ok (v ++ w).
Proof.
  intros He H. unfold assign_last. destruct e as [|e]; [lia|]. rewrite app_length, repeat_length. replace (_ + S e - S e)%nat with (List.length v) by lia.
  rewrite skipn_app, skipn_all, Nat.sub_diag. cbn [app skipn]. rewrite assign_ok by (rewrite repeat_length; exact H). cbn [bind].
  rewrite firstn_app, firstn_all, Nat.sub_diag. cbn [firstn]. rewrite app_nil_r. reflexivity.
Qed.
Lemma one_dim_ncomp cl x : one_dim cl = true -> ncomp cl x = None.
Proof. destruct cl; intros H; try discriminate; reflexivity. Qed.
Lemma k_field cl : In "k"%string (fields cl). Proof. destruct cl; cbn; auto. Qed.
Lemma element_ok {N : Num} (l : list (T N)) (d : T N) (i : nat) : (i < List.length l)%nat -> element l (Z.of_nat i) = Ok (nth i l d).
Proof. intros H. unfold element. rewrite (rd_nth d l _ i eq_refl H). reflexivity. Qed.

Section Pad.
Variables (cl : pyclass) (b : bool) (c : columns RNum) (n : nat) (kk k : list R) (x : R).
Hypotheses (H1 : one_dim cl = true) (HC : complete cl c n) (Hk : getitem c "k" = Ok kk) (Hn : (1 <= n)%nat).
Let k0 := nth 0 kk 0. Let k1 := nth (n - 1) kk 0.
Let s := List.length (filter (fun v => Rltb v k0) k).
Let e := List.length (filter (fun v => Rltb k1 v) k).
Lemma kk_len : List.length kk = n.
Proof. destruct HC as [_ H]. specialize (H _ _ Hk). rewrite one_dim_ncomp in H by exact H1. rewrite Nat.mul_1_r in H. exact H. Qed.
Lemma pad_loop : exists c1, pad_k (N := RNum) cl b c k x =
    lift c1 (assign_first (N := RNum) (pad (N := RNum) kk s e x) s (firstn s k)) (fun kk =>
    lift (setitem (N := RNum) c1 "k" kk) (assign_last (N := RNum) kk e (last_slice k e)) (fun kk' => (setitem (N := RNum) (setitem (N := RNum) c1 "k" kk) "k" kk', Done))) /\
  map fst c1 = map fst c /\
  forall y, getitem c1 y = match getitem c y with Ok v => Ok (pad (N := RNum) v s e x) | Err r => Err r end.
Proof.
  assert (E0 : element (N := RNum) kk 0 = Ok k0) by (apply (element_ok (N := RNum) kk 0 0); pose proof kk_len as L; rewrite <- L in Hn; exact Hn).
  assert (E1 : element (N := RNum) kk (zlen (A := T RNum) kk - 1) = Ok k1).
  { change (zlen (A := T RNum) kk) with (zlen kk). replace (zlen kk - 1)%Z with (Z.of_nat (n - 1)) by (unfold zlen; rewrite kk_len; lia). apply (element_ok (N := RNum) kk 0 (n - 1)).
    apply Nat.lt_le_trans with n; [lia|apply Nat.eq_le_incl; symmetry; exact kk_len]. }
  destruct (each_field_done (N := RNum) (fun c key => lift c (getitem c key) (fun v =>
          match ncomp cl key with
          | Some _ => if b then (c, Raised ValueError) else (setitem c key (pad (N := RNum) v s e x), Done)
          | None => (setitem c key (pad (N := RNum) v s e x), Done)
          end)) (fun _ v => pad (N := RNum) v s e x) (fields cl) c) as (c1 & L1 & L2 & L3).
  - intros c0 y v _ Hv. rewrite Hv. cbn [lift]. rewrite one_dim_ncomp by exact H1. reflexivity.
  - apply fields_NoDup.
  - intros y. apply HC.
  - assert (L4 : forall y, getitem c1 y = match getitem c y with Ok v => Ok (pad (N := RNum) v s e x) | Err r => Err r end).
    { intros y. rewrite L3. destruct (existsb _ _) eqn:X; [reflexivity|]. destruct (getitem c y) as [v|r] eqn:Y; [|reflexivity]. exfalso.
      apply getitem_assoc in Y. assert (In y (map fst c)) as Q by (apply assoc_In; eauto). apply HC in Q. apply existsb_field in Q. congruence. }
    exists c1. split; [|split; [exact L2|exact L4]].
    unfold pad_k. rewrite Hk. cbn [lift]. rewrite E0. cbn [lift]. rewrite E1. cbn [lift].
    cbv zeta. match goal with |- context [each_field ?f c (fields cl)] => replace (each_field f c (fields cl)) with (c1, Done) by (symmetry; exact L1) end.
    cbv iota. rewrite L4, Hk. reflexivity.
Qed.
Lemma s_len : List.length (firstn s k) = s.
Proof. rewrite firstn_length. pose proof (filter_len (fun v => Rltb v k0) k). unfold s. lia. Qed.
Lemma pad_k_extends : ascending k -> (exists v, In v k /\ k1 < v) ->
  exists c', pad_k (N := RNum) cl b c k x = (c', Done) /\ complete cl c' (s + n + e) /\
    getitem c' "k" = Ok (filter (fun v => Rltb v k0) k ++ kk ++ filter (fun v => Rltb k1 v) k) /\
    forall y v, y <> "k"%string -> getitem c y = Ok v -> getitem c' y = Ok (repeat x s ++ v ++ repeat x e).
Proof.
  intros HA (v & Hv & Hv1).
  assert (He : (0 < e)%nat).
  { unfold e. assert (In v (filter (fun v => Rltb k1 v) k)) as Q by (apply filter_In; split; [exact Hv|apply Rltb_true, Hv1]). apply Nat.neq_0_lt_0. intros Z. apply length_zero_iff_nil in Z. rewrite Z in Q. contradiction. }
  destruct pad_loop as (c1 & -> & K & G). rewrite (assign_first_val (N := RNum)) by exact s_len. cbn [lift].
  assert (Lk : List.length (last_slice k e) = e).
  { unfold last_slice. destruct e as [|e'] eqn:Ee; [lia|]. rewrite skipn_length. pose proof (filter_len (fun v => Rltb k1 v) k) as Q. fold e in Q. lia. }
  rewrite app_assoc, (assign_last_val (N := RNum)) by (exact He || exact Lk). cbn [lift]. eexists. split; [reflexivity|].
  assert (Kk : In "k"%string (map fst c1)) by (rewrite K; apply HC, k_field).
  assert (F1 : firstn s k = filter (fun v => Rltb v k0) k) by (apply prefix_lt, HA).
  assert (F2 : last_slice k e = filter (fun v => Rltb k1 v) k).
  { unfold last_slice. destruct e as [|e'] eqn:Ee; [lia|]. rewrite <- Ee. apply suffix_gt, HA. }
  split; [split|split].
  - intros y. rewrite !keys_set by (rewrite ?keys_set; exact Kk). rewrite K. apply HC.
  - intros y w. rewrite one_dim_ncomp, Nat.mul_1_r by exact H1. rewrite !getitem_set. destruct (String.eqb "k" y) eqn:Y.
    + intros [= <-]. rewrite !app_length, s_len, Lk. pose proof kk_len. change (T RNum) with R. lia.
    + rewrite G. destruct (getitem c y) as [u|] eqn:U; [|discriminate]. intros [= <-]. unfold pad. rewrite !app_length, !repeat_length.
      destruct HC as [_ Q]. apply Q in U. rewrite one_dim_ncomp, Nat.mul_1_r in U by exact H1. change (T RNum) with R in U |- *. lia.
  - rewrite getitem_set, String.eqb_refl, F1, F2. rewrite app_assoc. reflexivity.
  - intros y w Hy Hw. rewrite !getitem_set. replace (String.eqb "k" y) with false by (symmetry; apply String.eqb_neq; congruence). rewrite G, Hw. reflexivity.
Qed.
(** Nothing to append: the slice [-0:] is the whole array. *)
Lemma pad_k_nothing : (forall v, In v k -> v <= k1) -> List.length k <> 1%nat ->
  exists c', (List.length k = (s + n)%nat -> pad_k (N := RNum) cl b c k x = (c', Done) /\ getitem c' "k" = Ok k) /\
             (List.length k <> (s + n)%nat -> pad_k (N := RNum) cl b c k x = (c', Raised ValueError)).
Proof.
  intros HA Hk1. assert (He : e = 0%nat).
  { unfold e. rewrite filter_none; [reflexivity|]. intros y Hy. apply Rltb_false, HA, Hy. }
  destruct pad_loop as (c1 & P & K & G). rewrite (assign_first_val (N := RNum)) in P by exact s_len. cbn [lift] in P.
  rewrite He in P. cbn [repeat] in P. rewrite app_nil_r in P. unfold assign_last, last_slice in P. cbn [skipn firstn] in P.
  assert (L : List.length (firstn s k ++ kk) = (s + n)%nat) by (rewrite app_length, s_len, kk_len; reflexivity).
  unfold assign in P. change (T RNum) with R in P. set (kk1 := firstn s k ++ kk) in *.
  destruct (Nat.eqb_spec (List.length k) (List.length kk1)) as [E|E].
  - eexists. split; [|intros C; exfalso; apply C; congruence]. intros _.
    replace (List.length k =? List.length kk1)%nat with true in P by (symmetry; apply Nat.eqb_eq, E).
    rewrite P. cbn [bind lift app]. split; [reflexivity|]. rewrite getitem_set, String.eqb_refl. reflexivity.
  - eexists. split; [intros C; exfalso; apply E; congruence|]. intros _.
    replace (List.length k =? List.length kk1)%nat with false in P by (symmetry; apply Nat.eqb_neq, E).
    rewrite P. destruct k as [|y [|z k']]; cbn [bind lift]; try reflexivity. cbn in Hk1. congruence.
Qed.
End Pad.
(** Two-dimensional columns: the call raises after padding the other columns. *)
Lemma pad_k_shaped cl (c : columns RNum) n (kk k : list R) (x : R) : one_dim cl = false -> complete cl c n -> (1 <= n)%nat -> getitem c "k" = Ok kk ->
  exists c', pad_k (N := RNum) cl true c k x = (c', Raised ValueError) /\
    (forall v, getitem c "pk" = Ok v -> getitem c' "pk" = Ok v) /\
    forall v, getitem c' "k" = Ok v -> List.length v = (List.length (filter (fun y => Rltb y (nth 0 kk 0%R)) k) + n + List.length (filter (fun y => Rltb (nth (n - 1) kk 0%R) y) k))%nat.
Proof.
  intros H1 HC Hn Hk. assert (KL : List.length kk = n).
  { destruct HC as [_ H]. specialize (H _ _ Hk). rewrite <- (Nat.mul_1_r n). destruct cl; try discriminate; exact H. }
  assert (E0 : element (N := RNum) kk 0 = Ok (nth 0 kk 0)) by (apply (element_ok (N := RNum) kk 0 0); rewrite <- KL in Hn; exact Hn).
  assert (E1 : element (N := RNum) kk (zlen (A := T RNum) kk - 1) = Ok (nth (n - 1) kk 0)).
  { change (zlen (A := T RNum) kk) with (zlen kk). replace (zlen kk - 1)%Z with (Z.of_nat (n - 1)) by (unfold zlen; rewrite KL; lia). apply (element_ok (N := RNum) kk 0 (n - 1)).
    apply Nat.lt_le_trans with n; [lia|apply Nat.eq_le_incl; symmetry; exact KL]. }
  unfold pad_k. rewrite Hk. cbn [lift]. rewrite E0. cbn [lift]. rewrite E1. cbn [lift].
  change (nlt RNum) with Rltb. set (s := List.length (filter (fun y => Rltb y (nth 0 kk 0)) k)). set (e := List.length (filter (fun y => Rltb (nth (n - 1) kk 0) y) k)).
  assert (F : fields cl = ["k"; "pk_lin"; "sigmad2"; "pk"]%string) by (destruct cl; try discriminate; reflexivity).
  destruct (getitem_complete _ _ _ "pk_lin" HC) as (v2 & V2 & _); [rewrite F; cbn; tauto|].
  destruct (getitem_complete _ _ _ "sigmad2" HC) as (v3 & V3 & _); [rewrite F; cbn; tauto|].
  destruct (getitem_complete _ _ _ "pk" HC) as (v4 & V4 & _); [rewrite F; cbn; tauto|].
  assert (NC : forall y, y <> "pk"%string -> ncomp cl y = None).
  { intros y Hy. destruct cl; try discriminate; cbn; apply String.eqb_neq in Hy; rewrite Hy; reflexivity. }
  assert (NP : exists m, ncomp cl "pk" = Some m) by (destruct cl; try discriminate; eexists; reflexivity). destruct NP as (m & NP).
  rewrite F. unfold each_field. cbn [fold_left]. rewrite Hk. cbn [lift]. rewrite (NC "k"%string) by discriminate.
  rewrite getitem_set. change (String.eqb "k" "pk_lin") with false. cbv iota. rewrite V2. cbn [lift]. rewrite (NC "pk_lin"%string) by discriminate.
  rewrite !getitem_set. change (String.eqb "k" "sigmad2") with false. change (String.eqb "pk_lin" "sigmad2") with false. cbv iota. rewrite V3. cbn [lift]. rewrite (NC "sigmad2"%string) by discriminate.
  rewrite !getitem_set. change (String.eqb "k" "pk") with false. change (String.eqb "pk_lin" "pk") with false. change (String.eqb "sigmad2" "pk") with false. cbv iota. rewrite V4. cbn [lift]. rewrite NP.
  eexists. split; [reflexivity|]. split.
  - intros v Hv. rewrite !getitem_set. change (String.eqb "k" "pk") with false. change (String.eqb "pk_lin" "pk") with false. change (String.eqb "sigmad2" "pk") with false. cbv iota. first [exact Hv | rewrite V4; exact Hv].
  - intros v. rewrite !getitem_set. change (String.eqb "sigmad2" "k") with false. change (String.eqb "pk_lin" "k") with false. rewrite String.eqb_refl. cbv iota.
    intros [= <-]. unfold pad. rewrite !app_length, !repeat_length. change (T RNum) with R. rewrite KL. unfold s, e. lia.
Qed.
