(** ProofHelpers: the helper functions of the Python module. *)
From Coq Require Import Reals Lra Lia List ZArith String Bool.
From Verif Require Import Base Num BaseFacts Spec Poly Common ProofInterp ProofGL ProofCommon2 ProofCommon3 ProofSearch PyHelpers SpecHelpers.
Import ListNotations.
Local Open Scope Z_scope.

Lemma items_length v : List.length (items v) = Z.to_nat (v_len v).
Proof. unfold items. rewrite map_length, seq_length. reflexivity. Qed.
Lemma items_at v i : (i < Z.to_nat (v_len v))%nat -> at_ (items v) i = nth (Z.to_nat (v_off v + Z.of_nat i * v_step v)) (v_data v) 0%R.
Proof.
  intros H. unfold at_, items.
  rewrite (nth_indep _ 0%R (nth (Z.to_nat (v_off v + Z.of_nat 0 * v_step v)) (v_data v) 0%R)) by (rewrite map_length, seq_length; exact H).
  rewrite (map_nth (fun i => nth (Z.to_nat (v_off v + Z.of_nat i * v_step v)) (v_data v) 0%R)). rewrite seq_nth by exact H. reflexivity.
Qed.
Lemma pointer_ok {N} (v : view N) n : v_double v = true -> v_len v = n -> v_pointer v n = Returns (skipn (Z.to_nat (v_off v)) (v_data v)).
Proof. intros D E. unfold v_pointer. rewrite D, E, Z.eqb_refl. reflexivity. Qed.

Section Contiguous.
Context (v : view RNum) (I : inside v) (S1 : v_step v = 1) (L1 : 1 <= v_len v).
Local Notation K := (skipn (Z.to_nat (v_off v)) (v_data v)).
Lemma off_range : 0 <= v_off v /\ v_off v + v_len v <= zlen (v_data v).
Proof. destruct I as [_ H]. pose proof (H 0 ltac:(lia)). pose proof (H (v_len v - 1) ltac:(lia)). rewrite S1 in *. lia. Qed.
Lemma window_len : v_len v <= zlen K.
Proof. pose proof off_range. rewrite zlen_skipn by lia. lia. Qed.
Lemma window_at i : 0 <= i < v_len v -> znth 0%R K i = at_ (items v) (Z.to_nat i).
Proof.
  intros Hi. pose proof off_range. rewrite znth_skipn by lia. rewrite items_at by lia. rewrite S1, Z2Nat.id by lia.
  rewrite Z.mul_1_r. reflexivity.
Qed.
End Contiguous.

Lemma helper_poly (x : R) (tabx taby : view RNum) :
  inside tabx -> inside taby -> v_double tabx = true -> v_double taby = true -> v_step tabx = 1 -> v_step taby = 1 ->
  v_len taby = v_len tabx -> 1 <= v_len tabx -> zlen (v_data tabx) < 2 ^ 62 -> distinct (items tabx) ->
  exists p : poly, (List.length p <= List.length (items tabx))%nat /\ through p (items tabx) (items taby) /\
    py_interpol_poly (N := RNum) x tabx taby = Returns (peval p x) /\
    (forall q : poly, (List.length q <= List.length (items tabx))%nat -> through q (items tabx) (items taby) -> forall z, peval q z = peval p z).
Proof.
  intros Ix Iy Dx Dy Sx Sy EL L1 B HD.
  set (n := v_len tabx) in *.
  set (X := skipn (Z.to_nat (v_off tabx)) (v_data tabx)). set (Y := skipn (Z.to_nat (v_off taby)) (v_data taby)).
  assert (WX : n <= zlen X) by (apply window_len; auto).
  assert (WY : n <= zlen Y) by (rewrite <- EL; apply window_len; auto; lia).
  assert (BX : zlen X < 2 ^ 62). { unfold X, zlen. rewrite skipn_length. unfold zlen in B. lia. }
  assert (Hd' : forall i j, 0 <= i < n -> 0 <= j < n -> i <> j -> znth 0%R X i <> znth 0%R X j).
  { intros i j Hi Hj Hij. unfold X. rewrite !window_at by (auto; lia). apply HD; rewrite ?items_length; fold n; lia. }
  destruct (Nev_poly X Y (Z.to_nat (n - 1)) 0) as [p [Lp Ep]].
  assert (Lp' : (List.length p <= List.length (items tabx))%nat) by (rewrite items_length; fold n; lia).
  assert (Tp : through p (items tabx) (items taby)).
  { intros i Hi. rewrite items_length in Hi. fold n in Hi. rewrite Ep.
    pose proof (Nev_through X Y n Hd' (Z.to_nat (n - 1)) 0 ltac:(lia) ltac:(lia) (Z.of_nat i) ltac:(lia)) as HN.
    assert (EX : znth 0%R X (Z.of_nat i) = at_ (items tabx) i) by (unfold X; rewrite (window_at tabx Ix Sx L1) by (fold n; lia); rewrite Nat2Z.id; reflexivity).
    assert (EY : znth 0%R Y (Z.of_nat i) = at_ (items taby) i) by (unfold Y; rewrite (window_at taby Iy Sy) by lia; rewrite Nat2Z.id; reflexivity).
    change (T RNum) with R in *. cbv beta in HN. rewrite EX, EY in HN. exact HN. }
  exists p. split; [exact Lp'|]. split; [exact Tp|]. split.
  - unfold py_interpol_poly. fold n. rewrite EL. rewrite Z.eqb_refl. cbn [negb].
    rewrite (pointer_ok tabx n Dx eq_refl), (pointer_ok taby n Dy EL). cbn [then_]. fold X Y.
    rewrite (interpol_poly_neville x X Y n L1 WX WY BX Hd'). rewrite Ep. reflexivity.
  - intros q Lq Tq z. apply (interpolant_unique (items tabx) (items taby) q p HD Lq Lp' Tq Tp).
Qed.
Lemma helper_raises {N} (x : T N) (tabx taby : view N) :
  (v_len taby <> v_len tabx -> py_interpol_poly x tabx taby = Raises "AssertionError") /\
  (v_len taby = v_len tabx -> v_double tabx && v_double taby = false -> py_interpol_poly x tabx taby = Raises "ArgumentError").
Proof.
  unfold py_interpol_poly. split.
  - intros H. destruct (Z.eqb_spec (v_len tabx) (v_len taby)); [congruence|reflexivity].
  - intros H D. rewrite H, Z.eqb_refl. cbn [negb]. unfold v_pointer. rewrite H, Z.eqb_refl.
    destruct (v_double tabx), (v_double taby); cbn in *; (discriminate || reflexivity).
Qed.
(** The whole reversed array is read from its last element on, beyond the end. *)
Lemma helper_reversed {N} (x : T N) (xs ys : list (T N)) : List.length ys = List.length xs -> (2 <= List.length xs)%nat ->
  py_interpol_poly x (reversed xs) (reversed ys) = Undefined OOB.
Proof.
  intros EL L2. assert (Ez : zlen ys = zlen xs) by (unfold zlen; lia). assert (Lz : 2 <= zlen xs) by (unfold zlen; lia).
  unfold py_interpol_poly, reversed. cbn [v_len]. rewrite Ez, Z.eqb_refl. cbn [negb].
  rewrite !pointer_ok by reflexivity || (cbn; lia). cbn [then_ v_off v_data].
  set (X := skipn (Z.to_nat (zlen xs - 1)) xs). set (Y := skipn (Z.to_nat (zlen xs - 1)) ys).
  assert (HX : zlen X = 1) by (unfold X; rewrite zlen_skipn by lia; lia).
  assert (HY : zlen Y = 1) by (unfold Y; rewrite zlen_skipn by lia; lia).
  unfold interpol_poly. rewrite (rd_ok (nZ N 0)) by lia. cbn [bind].
  assert (E : forall d c1 d1, zlen c1 = zlen xs -> zlen d1 = zlen xs -> ip_scan x X Y (zlen xs) d c1 d1 = Err OOB).
  { intros d c1 d1 Hc Hd. unfold ip_scan. rewrite for_step by lia. rewrite (rd_ok (nZ N 0)) by lia. cbn [bind].
    match goal with |- context [if ?b then _ else _] => destruct b end;
      rewrite (rd_ok (nZ N 0)) by lia; cbn [bind]; rewrite wr_ok by lia; cbn [bind]; rewrite wr_ok by lia; cbn [bind];
      rewrite for_step by lia; rewrite rd_oob by lia; reflexivity. }
  rewrite E by (apply zlen_repeat; lia). reflexivity.
Qed.
Lemma helper_empty {N} (x : T N) : py_interpol_poly x (fresh []) (fresh []) = Undefined OOB.
Proof. reflexivity. Qed.

Lemma first_item v : inside v -> 1 <= v_len v -> v_item (N := RNum) v 0 = Returns (at_ (items v) 0).
Proof.
  intros [_ H] L. unfold v_item. replace (0 <? v_len v) with true by (symmetry; apply Z.ltb_lt; lia). cbn [Z.leb Z.compare andb].
  pose proof (H 0 ltac:(lia)). change (T RNum) with R in *. rewrite (rd_ok 0%R) by lia. rewrite items_at by lia. unfold znth. reflexivity.
Qed.
Lemma last_item v : inside v -> 1 <= v_len v -> v_item (N := RNum) v (-1) = Returns (at_ (items v) (List.length (items v) - 1)).
Proof.
  intros [_ H] L. unfold v_item. change (0 <=? -1) with false. cbn [andb].
  replace (- v_len v <=? -1) with true by (symmetry; apply Z.leb_le; lia). change (-1 <? 0) with true. cbn [andb].
  pose proof (H (v_len v - 1) ltac:(lia)). replace (v_len v + -1) with (v_len v - 1) by lia.
  change (T RNum) with R in *. rewrite (rd_ok 0%R) by lia. rewrite items_at by (rewrite items_length; lia). rewrite items_length. unfold znth.
  replace (Z.of_nat (Z.to_nat (v_len v) - 1)) with (v_len v - 1) by lia. reflexivity.
Qed.
Lemma helper_lin (x : R) (tabx taby : view RNum) : inside tabx -> inside taby -> 1 <= v_len tabx -> 1 <= v_len taby ->
  let x0 := at_ (items tabx) 0 in let x1 := at_ (items tabx) (List.length (items tabx) - 1) in
  let y0 := at_ (items taby) 0 in let y1 := at_ (items taby) (List.length (items taby) - 1) in
  x0 <> x1 -> py_interpol_lin (N := RNum) x tabx taby = Returns (y0 + (y1 - y0) / (x1 - x0) * (x - x0))%R.
Proof.
  intros Ix Iy Lx Ly x0 x1 y0 y1 Hne. unfold py_interpol_lin. rewrite !first_item, !last_item by assumption. cbn [then_].
  fold x0 x1 y0 y1. f_equal. rewrite interpol_lin_eq. change (T RNum) with R. field. lra.
Qed.
Lemma helper_lin_empty {N} (x : T N) (tabx taby : view N) : v_len tabx = 0 -> py_interpol_lin x tabx taby = Raises "IndexError".
Proof.
  intros E. unfold py_interpol_lin, v_item at 1. rewrite E. cbn. reflexivity.
Qed.

(** What np.empty found in the memory has no effect, with any kind of numbers. *)
Lemma helper_nodes {N} fuel (mem mem' : Z -> list (T N) * list (T N)) xmin xmax n : 0 <= n < 2 ^ 62 ->
  (zlen (fst (mem n)) = n /\ zlen (snd (mem n)) = n) -> (zlen (fst (mem' n)) = n /\ zlen (snd (mem' n)) = n) ->
  py_nodes_weights fuel mem xmin xmax n = py_nodes_weights fuel mem' xmin xmax n /\
  (py_nodes_weights fuel mem xmin xmax n = Undefined NoFuel \/
   exists x w, py_nodes_weights fuel mem xmin xmax n = Returns (x, w) /\ zlen x = n /\ zlen w = n).
Proof.
  intros Hn [H1 H2] [H3 H4]. unfold py_nodes_weights. replace (n <? 0) with false by (symmetry; apply Z.ltb_ge; lia).
  destruct (mem n) as [x w], (mem' n) as [x0 w0]. cbn [fst snd] in *. split.
  - f_equal. destruct (Z.eq_dec n 0) as [->|Hn0].
    + destruct x, w, x0, w0; cbn in H1, H2, H3, H4; try lia. reflexivity.
    + pose proof (nodes_weights_struct fuel xmin xmax x w n (nZ N 0) ltac:(lia) H1 H2) as A.
      pose proof (nodes_weights_struct fuel xmin xmax x0 w0 n (nZ N 0) ltac:(lia) H3 H4) as B. cbn zeta in A, B.
      destruct (gl_list fuel n _ 0 _) as [zs|e]; [|congruence].
      destruct A as [_ [x' [w' [-> [Hx' [Hw' A]]]]]]. destruct B as [_ [x1 [w1 [-> [Hx1 [Hw1 B]]]]]].
      pose proof (Z.div_mod (n + 1) 2 ltac:(lia)). pose proof (Z.mod_pos_bound (n + 1) 2 ltac:(lia)).
      assert (HA : forall i, 0 <= i < n -> znth (nZ N 0) x' i = znth (nZ N 0) x1 i /\ znth (nZ N 0) w' i = znth (nZ N 0) w1 i).
      { intros i Hi. destruct (Z_lt_le_dec i (n - 1 - i)).
        - destruct (A i ltac:(lia)) as [A1 [_ [_ A4]]]. destruct (B i ltac:(lia)) as [B1 [_ [_ B4]]].
          rewrite A1, B1, A4, B4 by lia. auto.
        - destruct (A (n - 1 - i) ltac:(lia)) as [_ [A2 [A3 _]]]. destruct (B (n - 1 - i) ltac:(lia)) as [_ [B2 [B3 _]]].
          replace (n - 1 - (n - 1 - i)) with i in * by lia. rewrite A2, A3, B2, B3. auto. }
      do 2 f_equal; apply (znth_ext (nZ N 0)); try congruence; intros i Hi; apply HA; lia.
  - destruct (gl_safe fuel xmin xmax x w n Hn H1 H2) as [[x' [w' [-> [A B]]]]| ->]; [right; exists x', w'; auto|left; reflexivity].
Qed.
Lemma helper_nodes_negative {N} fuel (mem : Z -> list (T N) * list (T N)) xmin xmax n : n < 0 -> py_nodes_weights fuel mem xmin xmax n = Raises "ValueError".
Proof. intros H. unfold py_nodes_weights. replace (n <? 0) with true by (symmetry; apply Z.ltb_lt; lia). reflexivity. Qed.

(** Examples *)
Lemma poly_strided : let tabx := mkView (N := RNum) [0; 9; 1; 9]%R 0 2 2 true in let taby := mkView (N := RNum) [0; 5; 1; 5]%R 0 2 2 true in
  inside tabx /\ inside taby /\ items tabx = [0; 1]%R /\ items taby = [0; 1]%R /\ py_interpol_poly (N := RNum) 1%R tabx taby = Returns (5 / 9)%R.
Proof.
  cbn zeta. split; [split; [cbn; lia|]; intros i Hi; cbn in Hi |- *; unfold zlen; cbn; lia|].
  split; [split; [cbn; lia|]; intros i Hi; cbn in Hi |- *; unfold zlen; cbn; lia|].
  split; [reflexivity|]. split; [reflexivity|].
  unfold py_interpol_poly. cbn [v_len]. rewrite Z.eqb_refl. cbn [negb].
  rewrite !pointer_ok by reflexivity. cbn [then_ v_off v_data Z.to_nat skipn].
  pose proof (interpol_poly_neville 1%R [0; 9; 1; 9]%R [0; 5; 1; 5]%R 2 ltac:(lia) ltac:(unfold zlen; cbn; lia) ltac:(unfold zlen; cbn; lia) ltac:(unfold zlen; cbn; lia)) as H.
  change (T RNum) with R in *. rewrite H.
  - cbn [called]. f_equal. change (Z.to_nat (2 - 1)) with 1%nat. cbn [Nev]. change (Z.of_nat 1) with 1. unfold znth. cbn [Z.add Z.to_nat Pos.to_nat Pos.iter_op Nat.add nth]. change (Pos.to_nat 1) with 1%nat. cbn iota. match goal with |- ?a = _ => change a with (((1 - 9) * 0 + (0 - 1) * 5) / (0 - 9))%R end. field.
  - intros i j Hi Hj Hij. assert (Ci : i = 0 \/ i = 1) by lia. assert (Cj : j = 0 \/ j = 1) by lia.
    destruct Ci as [-> | ->], Cj as [-> | ->]; try lia; cbv [znth Z.to_nat Pos.to_nat Pos.iter_op Nat.add nth]; lra.
Qed.
Lemma inside_fresh {N} (l : list (T N)) : inside (fresh l).
Proof. split; [apply zlen_nonneg|]. intros i Hi. cbn in *. lia. Qed.
Lemma items_fresh l : items (fresh l) = l.
Proof.
  apply (nth_ext _ _ 0%R 0%R).
  - rewrite items_length. cbn. unfold zlen. lia.
  - intros i Hi. rewrite items_length in Hi. pose proof (items_at (fresh l) i Hi) as E. unfold at_ in E. change (T RNum) with R in *. rewrite E. cbn [fresh v_off v_step v_data]. rewrite Z.mul_1_r, Z.add_0_l, Nat2Z.id. reflexivity.
Qed.
Lemma inside_check {N} (v : view N) : (0 <=? v_len v) = true ->
  forallb (fun i => (0 <=? v_off v + Z.of_nat i * v_step v) && (v_off v + Z.of_nat i * v_step v <? zlen (v_data v))) (seq 0 (Z.to_nat (v_len v))) = true -> inside v.
Proof.
  intros L H. apply Z.leb_le in L. split; [exact L|]. intros i Hi. rewrite forallb_forall in H.
  specialize (H (Z.to_nat i) ltac:(apply in_seq; lia)). rewrite Z2Nat.id in H by lia. apply andb_prop in H as [A B].
  apply Z.leb_le in A. apply Z.ltb_lt in B. lia.
Qed.
Lemma lin_tabulated : exists tabx taby : view RNum, inside tabx /\ inside taby /\
  items tabx = [0; 1; 2]%R /\ items taby = [0; 1; 4]%R /\ py_interpol_lin (N := RNum) 1%R tabx taby = Returns 2%R.
Proof.
  exists (fresh (N := RNum) [0; 1; 2]%R), (fresh (N := RNum) [0; 1; 4]%R).
  assert (E1 := items_fresh [0; 1; 2]%R). assert (E2 := items_fresh [0; 1; 4]%R). change (T RNum) with R in *.
  split; [apply (inside_fresh (N := RNum))|]. split; [apply (inside_fresh (N := RNum))|]. split; [exact E1|]. split; [exact E2|].
  pose proof (helper_lin 1%R (fresh (N := RNum) [0; 1; 2]%R) (fresh (N := RNum) [0; 1; 4]%R) (inside_fresh (N := RNum) _) (inside_fresh (N := RNum) _)) as H.
  cbv zeta in H. change (T RNum) with R in *. rewrite E1, E2 in H. cbn [List.length Nat.sub at_ nth] in H. rewrite H; cbv [at_ nth]; [f_equal; field|unfold zlen; cbn; lia..|lra].
Qed.
Lemma poly_ex : let tabx := mkView (N := RNum) [7; 0; 1; 2; 7]%R 1 1 3 true in let taby := mkView (N := RNum) [0; 1; 4]%R 0 1 3 true in
  inside tabx /\ inside taby /\ items tabx = [0; 1; 2]%R /\ items taby = [0; 1; 4]%R /\ distinct (items tabx).
Proof.
  cbv zeta. split; [apply inside_check; reflexivity|]. split; [apply inside_check; reflexivity|].
  split; [reflexivity|]. split; [reflexivity|].
  change (distinct [0; 1; 2]%R). intros i j Hi Hj Hij. destruct i as [|[|[|i]]], j as [|[|[|j]]]; cbn in *; try lia; cbv [at_ nth]; lra.
Qed.
