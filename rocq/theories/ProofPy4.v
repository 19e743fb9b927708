(** ProofPy4: nan_to_zero, pad_k, zeros, and the interpolation of the A and B terms. *)
From Coq Require Import Reals ZArith List String Lia Lra Bool.
From Verif Require Import Base Num BaseFacts Common Registry PyTerms Spec SpecPy Sums ProofPy ProofPy2.
Import ListNotations.
Local Open Scope R_scope.

(** ** Loops over the declared columns *)
Lemma each_field_done {N : Num} (f : columns N -> string -> columns N * outcome) (g : string -> list (T N) -> list (T N)) l (c : columns N) :
  (forall c x v, In x l -> getitem c x = Ok v -> f c x = (setitem c x (g x v), Done)) ->
  NoDup l -> (forall x, In x l -> In x (map fst c)) ->
  exists c', each_field f c l = (c', Done) /\ map fst c' = map fst c /\
    forall x, getitem c' x = if existsb (String.eqb x) l then match getitem c x with Ok v => Ok (g x v) | Err e => Err e end else getitem c x.
Proof.
  intros Hf. revert c. induction l as [|y l IH]; intros c ND Hk.
  - exists c. repeat split.
  - inversion ND as [|? ? Ny ND']; subst. destruct (proj1 (assoc_In c y)) as (v & Hv); [apply Hk; left; reflexivity|].
    apply getitem_assoc in Hv. unfold each_field. cbn [fold_left]. rewrite (Hf c y v (or_introl eq_refl) Hv).
    pose proof (keys_set c y (g y v) (Hk y (or_introl eq_refl))) as K.
    destruct (IH (fun c x v H => Hf c x v (or_intror H)) (setitem c y (g y v)) ND') as (c' & E & K' & G).
    { intros x Hx. rewrite K. apply Hk. right. exact Hx. }
    exists c'. split; [exact E|]. split; [congruence|]. intros x. rewrite G, getitem_set. cbn [existsb].
    destruct (String.eqb_spec y x) as [->|Ne].
    + rewrite String.eqb_refl. cbn [orb]. rewrite Hv.
      assert (X : existsb (String.eqb x) l = false).
      { apply not_true_is_false. intros X. apply existsb_exists in X as (z & Hz & Ez). apply String.eqb_eq in Ez. subst z. contradiction. }
      rewrite X. reflexivity.
    + replace (x =? y)%string with false by (symmetry; apply String.eqb_neq; congruence). reflexivity.
Qed.
Lemma fields_NoDup cl : NoDup (fields cl).
Proof. destruct cl; cbn; repeat constructor; cbn; intuition discriminate. Qed.
Lemma existsb_field x l : existsb (String.eqb x) l = true <-> In x l.
Proof.
  rewrite existsb_exists. split; [intros (y & H & E); apply String.eqb_eq in E; subst; exact H|intros H; exists x; split; [exact H|apply String.eqb_refl]].
Qed.

(** ** nan_to_zero *)
Lemma nan_val {N : Num} cl (c : columns N) : (forall x, In x (fields cl) -> In x (map fst c)) ->
  exists c', nan_to_zero cl c = (c', Done) /\ map fst c' = map fst c /\
    forall x, getitem c' x = if existsb (String.eqb x) (fields cl) then match getitem c x with Ok v => Ok (nan_to_zero_column v) | Err e => Err e end else getitem c x.
Proof.
  intros H. apply (each_field_done _ (fun _ v => nan_to_zero_column v)); [|apply fields_NoDup|exact H].
  intros c0 x v _ Hv. rewrite Hv. reflexivity.
Qed.
Lemma nan_col_idem {N : Num} (v : list (T N)) : neqb N (nZ N 0) (nZ N 0) = true -> nan_to_zero_column (nan_to_zero_column v) = nan_to_zero_column v.
Proof.
  intros H. unfold nan_to_zero_column. rewrite map_map. apply map_ext. intros a. unfold isnan. destruct (neqb N a a) eqn:E; cbn [negb].
  - rewrite E. reflexivity.
  - rewrite H. reflexivity.
Qed.
Lemma set_same {N : Num} (c : columns N) x v : getitem c x = Ok v -> setitem c x v = c.
Proof.
  unfold getitem. induction c as [|[y w] c IH]; cbn; [discriminate|]. rewrite String.eqb_sym. destruct (String.eqb_spec y x) as [->|Ne].
  - intros [= ->]. reflexivity.
  - intros H. rewrite IH by exact H. reflexivity.
Qed.
Lemma nan_idem {N : Num} cl (c c' : columns N) : neqb N (nZ N 0) (nZ N 0) = true -> nan_to_zero cl c = (c', Done) ->
  (forall x, In x (fields cl) -> In x (map fst c)) -> nan_to_zero cl c' = (c', Done).
Proof.
  intros Hz H K. destruct (nan_val cl c K) as (c2 & E & K2 & G). rewrite H in E. injection E as <-.
  assert (C : forall x, In x (fields cl) -> exists v, getitem c' x = Ok v /\ nan_to_zero_column v = v).
  { intros x Hx. destruct (proj1 (assoc_In c x) (K x Hx)) as (v & Hv). apply getitem_assoc in Hv. exists (nan_to_zero_column v).
    rewrite G, (proj2 (existsb_field x _) Hx), Hv. split; [reflexivity|apply nan_col_idem, Hz]. }
  unfold nan_to_zero, each_field. clear - C. induction (fields cl) as [|x l IH]; [reflexivity|]. cbn [fold_left].
  destruct (C x (or_introl eq_refl)) as (v & Hv & Ev). rewrite Hv, Ev, set_same by exact Hv. apply IH. intros y Hy. apply C. right. exact Hy.
Qed.

(** ** Components and interpolation *)
Lemma component_val {N : Num} (m : nat) n (v : list (T N)) (j : nat) d : List.length v = (n * m)%nat -> (j < m)%nat ->
  component (Z.of_nat m) n v (Z.of_nat j) = Ok (map (fun i => nth (i * m + j) v d) (seq 0 n)).
Proof.
  intros L Hj. unfold component.
  assert (G : forall s n0, (s + n0 <= n)%nat -> fold_right (fun i r => l <- r ;; e <- rd v (Z.of_nat i * Z.of_nat m + Z.of_nat j) ;; Ok (e :: l)) (Ok []) (seq s n0)
     = Ok (map (fun i => nth (i * m + j) v d) (seq s n0))); [|apply G; lia].
  intros s n0; revert s; induction n0 as [|n0 IH]; intros s Hs; [reflexivity|]. cbn [seq fold_right map]. rewrite IH by lia. cbn [bind].
  replace (Z.of_nat s * Z.of_nat m + Z.of_nat j)%Z with (Z.of_nat (s * m + j)) by lia.
  rewrite (rd_nth d v (n * m)); [reflexivity|exact L|]. nia.
Qed.

Ltac req := match goal with |- @eq _ ?a ?b => change (@eq R a b) end.
Lemma interp_in_spec (xp fp : list R) right : increasing xp -> List.length fp = List.length xp -> (1 <= List.length xp)%nat ->
  (forall t, at_ xp (pred (List.length xp)) < t -> interp_in (N := RNum) t xp fp right = right) /\
  (forall i, (i < List.length xp)%nat -> interp_in (N := RNum) (at_ xp i) xp fp right = at_ fp i) /\
  (forall i t, (S i < List.length xp)%nat -> at_ xp i <= t <= at_ xp (S i) ->
     interp_in (N := RNum) t xp fp right = at_ fp i + (at_ fp (S i) - at_ fp i) * ((t - at_ xp i) / (at_ xp (S i) - at_ xp i))).
Proof.
  revert fp. induction xp as [|x0 xp IH]; intros fp HI HL H1; [cbn in H1; lia|]. destruct fp as [|f0 fp]; [discriminate|].
  destruct xp as [|x1 xp].
  - destruct fp; [|discriminate]. repeat split.
    + intros t Ht. cbn [at_ nth pred List.length] in Ht. cbn [interp_in]. rn. unfold Reqbool. destruct (Req_EM_T t x0); [subst; exfalso; revert Ht; apply Rlt_irrefl|reflexivity].
    + intros i Hi. cbn in Hi. assert (i = 0)%nat as -> by lia. cbn. unfold Reqbool. destruct (Req_EM_T x0 x0); [reflexivity|contradiction].
    + intros i t Hi. cbn in Hi. lia.
  - destruct fp as [|f1 fp]; [discriminate|].
    assert (HI' : increasing (x1 :: xp)) by (intros i j Hij; apply (HI (S i) (S j)); cbn in Hij |- *; lia).
    destruct (IH (f1 :: fp) HI') as (A & B & C); [cbn in HL |- *; lia|cbn; lia|].
    assert (X01 : x0 < x1) by (apply (HI 0%nat 1%nat); cbn; lia).
    assert (X1 : forall i, (i < List.length (x1 :: xp))%nat -> x1 <= at_ (x1 :: xp) i).
    { intros [|i] Hi; [cbn; apply Rle_refl|]. apply Rlt_le, (HI' 0%nat (S i)). lia. }
    assert (step : forall t, interp_in (N := RNum) t (x0 :: x1 :: xp) (f0 :: f1 :: fp) right =
       if Rltb t x1 then (f1 - f0) / (x1 - x0) * (t - x0) + f0 else interp_in (N := RNum) t (x1 :: xp) (f1 :: fp) right) by reflexivity.
    repeat split.
    + intros t Ht. change (at_ (x0 :: x1 :: xp) (pred (List.length (x0 :: x1 :: xp)))) with (at_ (x1 :: xp) (pred (List.length (x1 :: xp)))) in Ht.
      rewrite step. destruct (Rltb_spec t x1) as [L|L]; [|apply A, Ht]. exfalso. pose proof (X1 (pred (List.length (x1 :: xp)))) as Q. cbn [List.length] in Q. specialize (Q ltac:(lia)). cbn [List.length] in Ht. lra.
    + intros [|i] Hi; rewrite step.
      * change (at_ (x0 :: x1 :: xp) 0) with x0. change (at_ (f0 :: f1 :: fp) 0) with f0. destruct (Rltb_spec x0 x1); [|lra]. req. field. lra.
      * change (at_ (x0 :: x1 :: xp) (S i)) with (at_ (x1 :: xp) i). change (at_ (f0 :: f1 :: fp) (S i)) with (at_ (f1 :: fp) i).
        destruct (Rltb_spec (at_ (x1 :: xp) i) x1) as [L|L]; [pose proof (X1 i ltac:(cbn in Hi |- *; lia)); lra|]. apply B. cbn in Hi |- *; lia.
    + intros [|i] t Hi Ht; rewrite step.
      * change (at_ (x0 :: x1 :: xp) 0) with x0 in *. change (at_ (x0 :: x1 :: xp) 1) with x1 in *. change (at_ (f0 :: f1 :: fp) 0) with f0. change (at_ (f0 :: f1 :: fp) 1) with f1.
        destruct (Rltb_spec t x1) as [L|L]; [req; field; lra|]. assert (t = x1) as -> by lra.
        etransitivity; [apply (B 0%nat); cbn; lia|]. change (at_ (f1 :: fp) 0) with f1. req. field. lra.
      * change (at_ (x0 :: x1 :: xp) (S i)) with (at_ (x1 :: xp) i) in *. change (at_ (x0 :: x1 :: xp) (S (S i))) with (at_ (x1 :: xp) (S i)) in *.
        change (at_ (f0 :: f1 :: fp) (S i)) with (at_ (f1 :: fp) i). change (at_ (f0 :: f1 :: fp) (S (S i))) with (at_ (f1 :: fp) (S i)).
        destruct (Rltb_spec t x1) as [L|L]; [pose proof (X1 i ltac:(cbn in Hi |- *; lia)); lra|]. apply C; [cbn in Hi |- *; lia|exact Ht].
Qed.
Lemma interp_spec (xp fp : list R) left right : increasing xp -> List.length fp = List.length xp -> (1 <= List.length xp)%nat ->
  interpolates (at_ xp) (at_ fp) (List.length xp) left right (fun t => interp (N := RNum) t xp fp left right).
Proof.
  intros HI HL H1. destruct (interp_in_spec xp fp right HI HL H1) as (A & B & C).
  assert (X0 : forall i, (i < List.length xp)%nat -> at_ xp 0 <= at_ xp i).
  { intros [|i] Hi; [apply Rle_refl|]. apply Rlt_le, HI. lia. }
  assert (step : forall t, interp (N := RNum) t xp fp left right = if Rltb t (at_ xp 0) then left else interp_in (N := RNum) t xp fp right).
  { intros t. destruct xp; [cbn in H1; lia|reflexivity]. }
  repeat split.
  - intros t Ht. rewrite step. destruct (Rltb_spec t (at_ xp 0)); [reflexivity|lra].
  - intros t Ht. rewrite step. pose proof (X0 (pred (List.length xp)) ltac:(lia)). destruct (Rltb_spec t (at_ xp 0)); [lra|apply A, Ht].
  - intros i Hi. rewrite step. pose proof (X0 i Hi). destruct (Rltb_spec (at_ xp i) (at_ xp 0)); [lra|apply B, Hi].
  - intros i t Hi Ht. rewrite step. pose proof (X0 i ltac:(lia)). destruct (Rltb_spec t (at_ xp 0)); [lra|apply C; assumption].
Qed.

Section Combine.
Variables (c : columns RNum) (n : nat) (k mu2 beta D left right : R).
Lemma pk_interp_A_val cl : (cl = CA1 \/ cl = CA2) -> complete cl c n -> (1 <= n)%nat -> (forall kk, getitem c "k" = Ok kk -> increasing kk) ->
  exists f : nat -> R -> R,
    (forall j, (j < 5)%nat -> interpolates (entry c "k") (fun i => D^4 * entry c "pk" (i * 5 + j)) n left right (f j)) /\
    pk_interp_A (N := RNum) c k mu2 beta D left right = Ok (combine_components A_powers mu2 beta (fun j => f j k)).
Proof.
  intros Hcl HC Hn HI. destruct (getitem_complete _ _ _ "k" HC) as (kk & K1 & K2); [destruct Hcl as [-> | ->]; cbn; tauto|].
  destruct (getitem_complete _ _ _ "pk" HC) as (v & V1 & V2); [destruct Hcl as [-> | ->]; cbn; tauto|].
  assert (K2' : List.length kk = n) by (rewrite <- (Nat.mul_1_r n); destruct Hcl as [-> | ->]; exact K2). assert (V2' : List.length v = (n * 5)%nat) by (destruct Hcl as [-> | ->]; exact V2).
  clear K2 V2. specialize (HI _ K1).
  set (w := map (fun e => D^4 * e) v). set (comp := fun j => map (fun i => nth (i * 5 + j) w 0) (seq 0 n)).
  exists (fun j t => interp (N := RNum) t kk (comp j) left right). split.
  - intros j Hj. destruct (interp_spec kk (comp j) left right HI) as (A & B & C & E).
    { unfold comp. rewrite map_length, seq_length. symmetry. exact K2'. } { eapply Nat.le_trans; [exact Hn|apply Nat.eq_le_incl; symmetry; exact K2']. }
    assert (EK : forall i, entry c "k" i = at_ kk i) by (intros i; unfold entry; rewrite K1; reflexivity).
    assert (EC : forall i, (i < n)%nat -> at_ (comp j) i = D^4 * entry c "pk" (i * 5 + j)).
    { intros i Hi. unfold at_, comp, entry. rewrite V1. rewrite (nth_indep _ 0 (nth (0 * 5 + j) w 0)) by (rewrite map_length, seq_length; exact Hi).
      rewrite (map_nth (fun i => nth (i * 5 + j) w 0)), seq_nth by exact Hi. unfold w. replace 0 with (D^4 * 0) at 1 by ring.
      rewrite (map_nth (fun e => D^4 * e)). reflexivity. }
    pose proof (K2' : @List.length R kk = n) as K3. rewrite K3 in B, C, E. repeat split.
    + intros t Ht. apply A. rewrite <- EK. exact Ht.
    + intros t Ht. apply B. rewrite <- EK. exact Ht.
    + intros i Hi. rewrite EK, <- EC by exact Hi. apply C, Hi.
    + intros i t Hi Ht. rewrite !EK in *. rewrite <- !EC by lia. apply E; [exact Hi|exact Ht].
  - unfold pk_interp_A, accessor. change (assoc (accessors CA1) "pk") with (Some (2%Z, "pk"%string)). cbv iota.
    unfold scale_factor. rewrite V1, K1. cbn [bind]. rewrite K2'.
    replace (map (fun e => nmul RNum (npow (n := RNum) D (nZ RNum (2 * 2))) e) v) with w
      by (unfold w; apply map_ext; intros a; rn; change (IZR (2 * 2)) with 4; rewrite pow4; reflexivity).
    assert (W : List.length w = (n * 5)%nat) by (unfold w; rewrite map_length; exact V2').
    pose proof (fun j H => component_val (N := RNum) 5 n w j 0 W H) as CV.
    assert (C0 : component (N := RNum) 5 n w 0 = Ok (comp 0%nat)) by exact (CV 0%nat ltac:(lia)).
    assert (C1 : component (N := RNum) 5 n w 1 = Ok (comp 1%nat)) by exact (CV 1%nat ltac:(lia)).
    assert (C2 : component (N := RNum) 5 n w 2 = Ok (comp 2%nat)) by exact (CV 2%nat ltac:(lia)).
    assert (C3 : component (N := RNum) 5 n w 3 = Ok (comp 3%nat)) by exact (CV 3%nat ltac:(lia)).
    assert (C4 : component (N := RNum) 5 n w 4 = Ok (comp 4%nat)) by exact (CV 4%nat ltac:(lia)).
    rewrite C0, C1, C2, C3, C4. cbn [bind]. f_equal.
    unfold combine_components, A_powers, weight. cbn [List.length rsum nth fst snd]. rn. pows.
    ring.
Qed.
Lemma pk_interp_B_val cl : (cl = CB1 \/ cl = CB2) -> complete cl c n -> (1 <= n)%nat -> (forall kk, getitem c "k" = Ok kk -> increasing kk) ->
  exists f : nat -> R -> R,
    (forall j, (j < 9)%nat -> interpolates (entry c "k") (fun i => D^4 * entry c "pk" (i * 9 + j)) n 0 0 (f j)) /\
    pk_interp_B (N := RNum) c k mu2 beta D left right = Ok (combine_components B_powers mu2 beta (fun j => f j k)).
Proof.
  intros Hcl HC Hn HI. destruct (getitem_complete _ _ _ "k" HC) as (kk & K1 & K2); [destruct Hcl as [-> | ->]; cbn; tauto|].
  destruct (getitem_complete _ _ _ "pk" HC) as (v & V1 & V2); [destruct Hcl as [-> | ->]; cbn; tauto|].
  assert (K2' : List.length kk = n) by (rewrite <- (Nat.mul_1_r n); destruct Hcl as [-> | ->]; exact K2). assert (V2' : List.length v = (n * 9)%nat) by (destruct Hcl as [-> | ->]; exact V2).
  clear K2 V2. specialize (HI _ K1).
  set (w := map (fun e => D^4 * e) v). set (comp := fun j => map (fun i => nth (i * 9 + j) w 0) (seq 0 n)).
  exists (fun j t => interp (N := RNum) t kk (comp j) 0 0). split.
  - intros j Hj. destruct (interp_spec kk (comp j) 0 0 HI) as (A & B & C & E).
    { unfold comp. rewrite map_length, seq_length. symmetry. exact K2'. } { eapply Nat.le_trans; [exact Hn|apply Nat.eq_le_incl; symmetry; exact K2']. }
    assert (EK : forall i, entry c "k" i = at_ kk i) by (intros i; unfold entry; rewrite K1; reflexivity).
    assert (EC : forall i, (i < n)%nat -> at_ (comp j) i = D^4 * entry c "pk" (i * 9 + j)).
    { intros i Hi. unfold at_, comp, entry. rewrite V1. rewrite (nth_indep _ 0 (nth (0 * 9 + j) w 0)) by (rewrite map_length, seq_length; exact Hi).
      rewrite (map_nth (fun i => nth (i * 9 + j) w 0)), seq_nth by exact Hi. unfold w. replace 0 with (D^4 * 0) at 1 by ring.
      rewrite (map_nth (fun e => D^4 * e)). reflexivity. }
    pose proof (K2' : @List.length R kk = n) as K3. rewrite K3 in B, C, E. repeat split.
    + intros t Ht. apply A. rewrite <- EK. exact Ht.
    + intros t Ht. apply B. rewrite <- EK. exact Ht.
    + intros i Hi. rewrite EK, <- EC by exact Hi. apply C, Hi.
    + intros i t Hi Ht. rewrite !EK in *. rewrite <- !EC by lia. apply E; [exact Hi|exact Ht].
  - unfold pk_interp_B, accessor. change (assoc (accessors CB1) "pk") with (Some (2%Z, "pk"%string)). cbv iota.
    unfold scale_factor. rewrite V1, K1. cbn [bind]. rewrite K2'.
    replace (map (fun e => nmul RNum (npow (n := RNum) D (nZ RNum (2 * 2))) e) v) with w
      by (unfold w; apply map_ext; intros a; rn; change (IZR (2 * 2)) with 4; rewrite pow4; reflexivity).
    assert (W : List.length w = (n * 9)%nat) by (unfold w; rewrite map_length; exact V2').
    pose proof (fun j H => component_val (N := RNum) 9 n w j 0 W H) as CV.
    assert (C0 : component (N := RNum) 9 n w 0 = Ok (comp 0%nat)) by exact (CV 0%nat ltac:(lia)).
    assert (C1 : component (N := RNum) 9 n w 1 = Ok (comp 1%nat)) by exact (CV 1%nat ltac:(lia)).
    assert (C2 : component (N := RNum) 9 n w 2 = Ok (comp 2%nat)) by exact (CV 2%nat ltac:(lia)).
    assert (C3 : component (N := RNum) 9 n w 3 = Ok (comp 3%nat)) by exact (CV 3%nat ltac:(lia)).
    assert (C4 : component (N := RNum) 9 n w 4 = Ok (comp 4%nat)) by exact (CV 4%nat ltac:(lia)).
    assert (C5 : component (N := RNum) 9 n w 5 = Ok (comp 5%nat)) by exact (CV 5%nat ltac:(lia)).
    assert (C6 : component (N := RNum) 9 n w 6 = Ok (comp 6%nat)) by exact (CV 6%nat ltac:(lia)).
    assert (C7 : component (N := RNum) 9 n w 7 = Ok (comp 7%nat)) by exact (CV 7%nat ltac:(lia)).
    assert (C8 : component (N := RNum) 9 n w 8 = Ok (comp 8%nat)) by exact (CV 8%nat ltac:(lia)).
    rewrite C0, C1, C2, C3, C4, C5, C6, C7, C8. cbn [bind]. f_equal.
    unfold combine_components, B_powers, weight. cbn [List.length rsum nth fst snd]. rn. pows.
    ring.
Qed.
End Combine.
