(** ProofInterp: interpol_poly (Neville's scheme) is memory safe for every [Num] and computes the
    unique interpolating polynomial over the reals. *)
From Coq Require Import Reals Lra.
From Verif Require Import Base Num BaseFacts Order Spec Poly Common.
Local Open Scope Z_scope.

(** ** Memory safety, for every kind of number *)
Section Safe.
Context {N : Num} (x : T N) (tabx taby : list (T N)) (n : Z).
Hypothesis Hn : 1 <= n.
Hypothesis Hx : n <= zlen tabx.
Hypothesis Hy : n <= zlen taby.
Hypothesis Hbig : zlen tabx < 2 ^ 62.

Lemma ip_scan_safe diff c d : zlen c = n -> zlen d = n ->
  exists i df c' d', ip_scan x tabx taby n diff c d = Ok (i, df, c', d') /\
    0 <= i < n /\ zlen c' = n /\ zlen d' = n.
Proof.
  intros Hc Hd. unfold ip_scan.
  pose (P := fun (j : Z) (s : Z * T N * list (T N) * list (T N)) =>
     let '(i, df, c, d) := s in 0 <= i < n /\ zlen c = n /\ zlen d = n).
  for_with P; [lia| | |destruct HF as [[[[i df] c'] d'] [E HP]]].
  - unfold P. cbn. lia.
  - intros j [[[i df] c1] d1] Hj [Hi [H1 H2]].
    rewrite (rd_ok (nZ N 0)) by lia. cbn [bind].
    match goal with |- context [if ?b then _ else _] =>
      exists (let '(i', df') := if b then (j, nabs (nsub N x (znth (nZ N 0) tabx j))) else (i, df) in
              (i', df', upd c1 (Z.to_nat j) (znth (nZ N 0) taby j), upd d1 (Z.to_nat j) (znth (nZ N 0) taby j)));
      destruct b end;
    rewrite (rd_ok (nZ N 0)) by lia; cbn [bind]; repeat (rewrite wr_ok by lia; cbn [bind]);
    (split; [reflexivity|]); unfold P; rewrite !zlen_upd; lia.
  - exists i, df, c', d'. split; [exact E|exact HP].
Qed.

Lemma ip_column_safe jx c d : 1 <= jx < n -> zlen c = n -> zlen d = n ->
  exists c' d', ip_column x tabx n jx c d = Ok (c', d') /\ zlen c' = n /\ zlen d' = n.
Proof.
  intros Hj Hc Hd. unfold ip_column. rewrite u64_small by (unfold SIZE_T; lia).
  pose (P := fun (j : Z) (s : list (T N) * list (T N)) => zlen (fst s) = n /\ zlen (snd s) = n).
  for_with P; [lia| | |destruct HF as [[c' d'] [E HP]]].
  - split; assumption.
  - intros j [c1 d1] Hj' [H1 H2]. cbn [fst snd] in *.
    do 4 (rewrite (rd_ok (nZ N 0)) by lia; cbn [bind]).
    rewrite wr_ok by lia; cbn [bind]. rewrite wr_ok by lia; cbn [bind].
    eexists; split; [reflexivity|]. unfold P; cbn [fst snd]; rewrite !zlen_upd; split; assumption.
  - exists c', d'. split; [exact E|exact HP].
Qed.

Lemma interpol_poly_safe : exists y, interpol_poly x tabx taby n = Ok y.
Proof.
  unfold interpol_poly. rewrite (rd_ok (nZ N 0)) by lia. cbn [bind].
  destruct (ip_scan_safe (nabs (nsub N x (znth (nZ N 0) tabx 0)))
              (repeat (nZ N 0) (Z.to_nat n)) (repeat (nZ N 0) (Z.to_nat n)))
    as [i [df [c [d [E [Hi [Hc Hd]]]]]]]; try (apply zlen_repeat; lia).
  rewrite E; cbn [bind]. rewrite (rd_ok (nZ N 0)) by lia. cbn [bind].
  pose (P := fun (j : Z) (s : Z * list (T N) * list (T N) * T N) =>
     let '(ic, c, d, y) := s in exists ns, ic = u64 (ns - 1) /\ 0 <= ns <= n - j /\ zlen c = n /\ zlen d = n).
  for_with P; [lia| | |destruct HF as [[[[ic c'] d'] y] [E' HP]]; rewrite E'; cbn [bind]; eauto].
  - exists i. split; [reflexivity|]. repeat split; auto; lia.
  - intros j [[[ic c1] d1] y1] Hj [ns [Hic [Hns [H1 H2]]]].
    destruct (ip_column_safe j c1 d1 Hj H1 H2) as [c2 [d2 [E2 [H3 H4]]]].
    rewrite E2; cbn [bind]. subst ic.
    assert (Hw : u64 (u64 (ns - 1) + 1) = ns).
    { unfold u64. rewrite Zplus_mod_idemp_l. replace (ns - 1 + 1) with ns by lia.
      apply Z.mod_small; unfold SIZE_T; lia. }
    rewrite Hw. rewrite (u64_small (2 * ns)) by (unfold SIZE_T; lia).
    rewrite (u64_small (n - j)) by (unfold SIZE_T; lia).
    destruct (Z.ltb_spec (2 * ns) (n - j)).
    + rewrite (rd_ok (nZ N 0)) by lia. cbn [bind]. eexists; split; [reflexivity|].
      exists ns. repeat split; auto; lia.
    + rewrite (u64_small (ns - 1)) by (unfold SIZE_T; lia).
      rewrite (rd_ok (nZ N 0)) by lia. cbn [bind]. eexists; split; [reflexivity|].
      exists (ns - 1). repeat split; auto; lia.
Qed.
End Safe.

(** ** Value over the reals *)
Local Open Scope R_scope.
Section Value.
Context (x : R) (tabx taby : list R) (n : Z).
Hypothesis Hn : (1 <= n)%Z.
Hypothesis Hx : (n <= zlen tabx)%Z.
Hypothesis Hy : (n <= zlen taby)%Z.
Hypothesis Hbig : (zlen tabx < 2 ^ 62)%Z.
Hypothesis Hdist : forall i j, (0 <= i < n)%Z -> (0 <= j < n)%Z -> i <> j -> znth 0 tabx i <> znth 0 tabx j.

Let X (i : Z) : R := znth 0 tabx i.
Let Y (i : Z) : R := znth 0 taby i.

(** Value at [z] of the polynomial through nodes i..i+m. *)
Fixpoint Nev (z : R) (m : nat) (i : Z) : R :=
  match m with
  | O => Y i
  | S m' => ((z - X (i + Z.of_nat m)%Z) * Nev z m' i + (X i - z) * Nev z m' (i + 1)%Z) / (X i - X (i + Z.of_nat m)%Z)
  end.
Definition CC (m : nat) (i : Z) : R := match m with O => Y i | S m' => Nev x m i - Nev x m' i end.
Definition DD (m : nat) (i : Z) : R := match m with O => Y i | S m' => Nev x m i - Nev x m' (i + 1)%Z end.

Lemma CD_step m i : X i - X (i + Z.of_nat (S m))%Z <> 0 ->
  CC (S m) i = (X i - x) * ((CC m (i + 1)%Z - DD m i) / (X i - X (i + Z.of_nat (S m))%Z)) /\
  DD (S m) i = (X (i + Z.of_nat (S m))%Z - x) * ((CC m (i + 1)%Z - DD m i) / (X i - X (i + Z.of_nat (S m))%Z)).
Proof.
  intros Hne. unfold CC, DD. cbn [Nev].
  assert (E : match m with O => Y (i + 1)%Z | S m' => Nev x m (i + 1)%Z - Nev x m' (i + 1)%Z end
            - match m with O => Y i | S m' => Nev x m i - Nev x m' (i + 1)%Z end
            = Nev x m (i + 1)%Z - Nev x m i) by (destruct m; cbn [Nev]; ring).
  rewrite E. split; field; exact Hne.
Qed.

Lemma ip_scan_val (diff : R) (c d : list R) : zlen c = n -> zlen d = n ->
  exists i df (c' d' : list R), ip_scan (N := RNum) x tabx taby n diff c d = Ok (i, df, c', d') /\
    (0 <= i < n)%Z /\ zlen c' = n /\ zlen d' = n /\
    (forall k, (0 <= k < n)%Z -> znth 0 c' k = Y k) /\ (forall k, (0 <= k < n)%Z -> znth 0 d' k = Y k).
Proof.
  intros Hc Hd. unfold ip_scan. rn.
  pose (P := fun (j : Z) (s : Z * R * list R * list R) =>
     let '(i, df, c, d) := s in (0 <= i < n)%Z /\ zlen c = n /\ zlen d = n /\
       (forall k, (0 <= k < j)%Z -> znth 0 c k = Y k) /\ (forall k, (0 <= k < j)%Z -> znth 0 d k = Y k)).
  for_with P; [lia| | |destruct HF as [[[[i df] c'] d'] [E HP]]].
  - unfold P. cbn. repeat split; auto; intros; lia.
  - intros j [[[i df] c1] d1] Hj [Hi [H1 [H2 [H3 H4]]]].
    rewrite (rd_ok 0) by lia. cbn [bind].
    match goal with |- context [if ?b then _ else _] =>
      exists (let '(i', df') := if b then (j, Rabs (x - znth 0 tabx j)) else (i, df) in
              (i', df', upd c1 (Z.to_nat j) (Y j), upd d1 (Z.to_nat j) (Y j)));
      destruct b end;
    rewrite (rd_ok 0) by lia; cbn [bind]; repeat (rewrite wr_ok by lia; cbn [bind]);
    (split; [reflexivity|]); unfold P; rewrite !zlen_upd; repeat split; auto; try lia; intros k Hk;
      rewrite znth_upd by lia; destruct (Z.eqb_spec k j) as [->|]; auto; [apply H3|apply H4|apply H3|apply H4]; lia.
  - exists i, df, c', d'. split; [exact E|exact HP].
Qed.

Lemma ip_column_val (m : nat) (c d : list R) : (1 <= Z.of_nat (S m) < n)%Z -> zlen c = n -> zlen d = n ->
  (forall k, (0 <= k < n - Z.of_nat m)%Z -> znth 0 c k = CC m k) ->
  (forall k, (0 <= k < n - Z.of_nat m)%Z -> znth 0 d k = DD m k) ->
  exists (c' d' : list R), ip_column (N := RNum) x tabx n (Z.of_nat (S m)) c d = Ok (c', d') /\ zlen c' = n /\ zlen d' = n /\
    (forall k, (0 <= k < n - Z.of_nat (S m))%Z -> znth 0 c' k = CC (S m) k) /\
    (forall k, (0 <= k < n - Z.of_nat (S m))%Z -> znth 0 d' k = DD (S m) k).
Proof.
  intros Hj Hc Hd HC HD. unfold ip_column. rn. rewrite u64_small by (unfold SIZE_T; lia).
  set (jx := Z.of_nat (S m)) in *.
  pose (P := fun (j : Z) (s : list R * list R) => zlen (fst s) = n /\ zlen (snd s) = n /\
     (forall k, (0 <= k < j)%Z -> znth 0 (fst s) k = CC (S m) k /\ znth 0 (snd s) k = DD (S m) k) /\
     (forall k, (j <= k < n - Z.of_nat m)%Z -> znth 0 (fst s) k = CC m k /\ znth 0 (snd s) k = DD m k)).
  for_with P; [lia| | |destruct HF as [[c' d'] [E HP]]].
  - repeat split; auto; cbn [fst snd]; intros; try lia; (first [apply HC|apply HD]; lia).
  - intros j [c1 d1] Hj' [H1 [H2 [H3 H4]]]. cbn [fst snd] in *.
    do 4 (rewrite (rd_ok 0) by lia; cbn [bind]).
    rewrite wr_ok by lia; cbn [bind]. rewrite wr_ok by lia; cbn [bind].
    eexists; split; [reflexivity|].
    destruct (CD_step m j) as [E1 E2].
    { fold jx. intros E. apply (Hdist j (j + jx)); try lia. unfold X in E. lra. }
    fold jx in E1, E2.
    unfold P; cbn [fst snd]; rewrite !zlen_upd. split; [exact H1|]. split; [exact H2|]. split.
    + intros k Hk. rewrite !znth_upd by lia. destruct (Z.eqb_spec k j) as [->|]; [|apply H3; lia].
      destruct (H4 (j + 1)%Z) as [Ec _]; [lia|]. destruct (H4 j) as [_ Ed]; [lia|].
      rewrite Ec, Ed. rewrite E1, E2. split; reflexivity.
    + intros k Hk. rewrite !znth_upd by lia. destruct (Z.eqb_spec k j) as [->|]; [lia|apply H4; lia].
  - exists c', d'. destruct HP as [H1 [H2 [H3 _]]]. cbn [fst snd] in *.
    repeat split; auto; intros k Hk; apply H3; lia.
Qed.

Lemma interpol_poly_neville : interpol_poly (N := RNum) x tabx taby n = Ok (Nev x (Z.to_nat (n - 1)) 0).
Proof.
  unfold interpol_poly. rn. rewrite (rd_ok 0) by lia. cbn [bind].
  destruct (ip_scan_val (Rabs (x - znth 0 tabx 0)) (repeat 0 (Z.to_nat n)) (repeat 0 (Z.to_nat n)))
    as [i [df [c [d [E [Hi [Hc [Hd [HC HD]]]]]]]]]; try (apply zlen_repeat; lia).
  rewrite E; cbn [bind]. rewrite (rd_ok 0) by lia. cbn [bind].
  pose (P := fun (j : Z) (s : Z * list R * list R * R) =>
     let '(ic, c, d, y) := s in exists ns, ic = u64 (ns - 1) /\ (0 <= ns <= n - j)%Z /\ zlen c = n /\ zlen d = n /\
       (forall k, (0 <= k < n - (j - 1))%Z -> znth 0 c k = CC (Z.to_nat (j - 1)) k) /\
       (forall k, (0 <= k < n - (j - 1))%Z -> znth 0 d k = DD (Z.to_nat (j - 1)) k) /\
       y = Nev x (Z.to_nat (j - 1)) ns).
  for_with P; [lia| | |destruct HF as [[[[ic c'] d'] y] [E' HP]]].
  - exists i. split; [reflexivity|]. repeat split; auto; try lia; intros; (first [apply HC|apply HD]; lia).
  - intros j [[[ic c1] d1] y1] Hj [ns [Hic [Hns [H1 [H2 [H3 [H4 H5]]]]]]].
    set (m := Z.to_nat (j - 1)) in *.
    assert (Hm : j = Z.of_nat (S m)) by lia.
    destruct (ip_column_val m c1 d1) as [c2 [d2 [E2 [K1 [K2 [K3 K4]]]]]]; try lia; auto;
      try (intros; first [apply H3|apply H4]; lia).
    rewrite <- Hm in E2, K3, K4. rewrite E2; cbn [bind]. subst ic.
    assert (Hw : u64 (u64 (ns - 1) + 1) = ns).
    { unfold u64. rewrite Zplus_mod_idemp_l. replace (ns - 1 + 1)%Z with ns by lia.
      apply Z.mod_small; unfold SIZE_T; lia. }
    rewrite Hw. rewrite (u64_small (2 * ns)) by (unfold SIZE_T; lia).
    rewrite (u64_small (n - j)) by (unfold SIZE_T; lia).
    assert (Em : Z.to_nat (j + 1 - 1) = S m) by lia.
    destruct (Z.ltb_spec (2 * ns) (n - j)).
    + rewrite (rd_ok 0) by lia. cbn [bind]. eexists; split; [reflexivity|].
      exists ns. rewrite Em. split; [reflexivity|]. split; [lia|]. split; [exact K1|]. split; [exact K2|].
      split; [intros; apply K3; lia|]. split; [intros; apply K4; lia|].
      rewrite K3 by lia. rewrite H5. unfold CC. ring.
    + rewrite (u64_small (ns - 1)) by (unfold SIZE_T; lia).
      rewrite (rd_ok 0) by lia. cbn [bind]. eexists; split; [reflexivity|].
      exists (ns - 1)%Z. rewrite Em. split; [reflexivity|]. split; [lia|]. split; [exact K1|]. split; [exact K2|].
      split; [intros; apply K3; lia|]. split; [intros; apply K4; lia|].
      rewrite K4 by lia. rewrite H5. unfold DD. replace (ns - 1 + 1)%Z with ns by lia. ring.
  - rewrite E'; cbn [bind]. destruct HP as [ns [_ [Hns [_ [_ [_ [_ ->]]]]]]].
    replace ns with 0%Z by lia. reflexivity.
Qed.

(** Nev is a polynomial of degree <= m through the nodes. *)
Lemma Nev_through m i : (0 <= i)%Z -> (i + Z.of_nat m < n)%Z ->
  forall k, (i <= k <= i + Z.of_nat m)%Z -> Nev (X k) m i = Y k.
Proof.
  revert i; induction m as [|m IH]; intros i Hi Hm k Hk.
  - cbn [Nev]. f_equal. lia.
  - cbn [Nev].
    assert (Hne : X i - X (i + Z.of_nat (S m))%Z <> 0).
    { intros E. apply (Hdist i (i + Z.of_nat (S m))); try lia. unfold X in E; lra. }
    destruct (Z.eq_dec k i) as [->|Hki].
    + rewrite (IH i) by lia. field. exact Hne.
    + destruct (Z.eq_dec k (i + Z.of_nat (S m))) as [->|Hkm].
      * rewrite (IH (i + 1)%Z) by lia. field. exact Hne.
      * rewrite (IH i), (IH (i + 1)%Z) by lia. field. exact Hne.
Qed.

Lemma Nev_poly m i : exists p : poly, (length p <= S m)%nat /\ forall z, peval p z = Nev z m i.
Proof.
  revert i; induction m as [|m IH]; intros i.
  - exists [Y i]. split; [cbn; lia|]. intros z; cbn; ring.
  - destruct (IH i) as [p [Lp Ep]], (IH (i + 1)%Z) as [q [Lq Eq]].
    set (b := X (i + Z.of_nat (S m))%Z). set (a := X i).
    exists (pscale (/ (a - b)) (padd (pmul [- b; 1] p) (pmul [a; -1] q))). split.
    + rewrite length_pscale, length_padd.
      assert (forall u v (w : poly), (length w <= S m)%nat -> (length (pmul [u; v] w) <= S (S m))%nat) as HL.
      { intros u v w Hw. cbn [pmul]. rewrite length_padd, length_pscale. cbn [length].
        rewrite length_padd, length_pscale. cbn [length]. lia. }
      pose proof (HL (- b) 1 p Lp). pose proof (HL a (-1) q Lq). lia.
    + intros z. rewrite peval_pscale, peval_padd, !peval_pmul, Ep, Eq. cbn [peval Nev].
      fold b. fold a. unfold Rdiv. ring.
Qed.
End Value.

(** Statement on exactly n points, in terms of the specification vocabulary. *)
Lemma interpol_poly_spec (x : R) (xs ys : list R) :
  xs <> [] -> length ys = length xs -> (zlen xs < 2 ^ 62)%Z -> distinct xs ->
  exists p : poly, (length p <= length xs)%nat /\ through p xs ys /\
    interpol_poly (N := RNum) x xs ys (zlen xs) = Ok (peval p x) /\
    (forall q : poly, (length q <= length xs)%nat -> through q xs ys -> forall z, peval q z = peval p z).
Proof.
  intros Hne Hl Hb Hd.
  assert (H1 : (1 <= zlen xs)%Z) by (destruct xs; [congruence|rewrite zlen_cons; pose proof (zlen_nonneg xs); lia]).
  assert (Hd' : forall i j, (0 <= i < zlen xs)%Z -> (0 <= j < zlen xs)%Z -> i <> j -> znth 0 xs i <> znth 0 xs j).
  { intros i j Hi Hj Hij. apply Hd; unfold zlen in *; lia. }
  assert (Hy : (zlen xs <= zlen ys)%Z) by (unfold zlen in *; lia).
  destruct (Nev_poly xs ys (Z.to_nat (zlen xs - 1)) 0) as [p [Lp Ep]].
  assert (Lp' : (length p <= length xs)%nat) by (unfold zlen in *; lia).
  assert (Tp : through p xs ys).
  { intros i Hi. rewrite Ep.
    pose proof (Nev_through xs ys (zlen xs) Hd' (Z.to_nat (zlen xs - 1)) 0 ltac:(lia) ltac:(lia) (Z.of_nat i)) as HN.
    unfold znth in HN. rewrite Nat2Z.id in HN. apply HN. unfold zlen in *; lia. }
  exists p. split; [exact Lp'|]. split; [exact Tp|]. split.
  - rewrite (interpol_poly_neville x xs ys (zlen xs) H1 ltac:(lia) Hy Hb Hd'). rewrite Ep. reflexivity.
  - intros q Lq Tq z. apply (interpolant_unique xs ys q p Hd Lq Lp' Tq Tp).
Qed.

(** On a prefix of longer arrays (as find_pk calls it): only the first n cells matter. *)
Lemma interpol_poly_node (tabx taby : list R) (n i : Z) :
  (1 <= n)%Z -> (n <= zlen tabx)%Z -> (n <= zlen taby)%Z -> (zlen tabx < 2 ^ 62)%Z ->
  (forall i j, (0 <= i < n)%Z -> (0 <= j < n)%Z -> i <> j -> znth 0 tabx i <> znth 0 tabx j) ->
  (0 <= i < n)%Z ->
  interpol_poly (N := RNum) (znth 0 tabx i) tabx taby n = Ok (znth 0 taby i).
Proof.
  intros H1 H2 H3 H4 H5 Hi. rewrite interpol_poly_neville by assumption.
  f_equal. apply (Nev_through tabx taby n); auto; lia.
Qed.
