(** ProofRsd2: A1Loop.pk_interp and B1Loop.pk_interp return the redshift-space corrections of the spectra behind the tables. *)
From Coq Require Import Reals Lra Lia List ZArith String.
From Coquelicot Require Import Coquelicot.
From Verif Require Import Base Num BaseFacts Common Kernels Integrals Registry Threads PyTerms Spec SpecPT SpecQuad SpecKernels SpecLoops SpecIntegrals SpecColumns SpecConv SpecConv2 SpecConv3 SpecPy SpecScale SpecSamples SpecThreads SpecScratch SpecDefined SpecRsd
  ProofKernels ProofThreads8 ProofDefined12 ProofColumns3 ProofColumns4 ProofConv6 ProofConv7 ProofPy4 ProofPy ProofScratch3 ProofPositive2 ProofRsd.
Import ListNotations.
Local Open Scope R_scope.
Local Open Scope string_scope.

Lemma concat_length {A} n m (r : nat -> list A) s : (forall i, (s <= i < s + n)%nat -> List.length (r i) = m) -> List.length (List.concat (map r (seq s n))) = (n * m)%nat.
Proof.
  revert s. induction n as [|n IH]; intros s H; [reflexivity|]. cbn [seq map concat]. rewrite app_length, H by lia. rewrite IH by (intros; apply H; lia). reflexivity.
Qed.
Lemma concat_entry {A} (d : A) n m (r : nat -> list A) s i j : (forall i, (s <= i < s + n)%nat -> List.length (r i) = m) -> (i < n)%nat -> (j < m)%nat ->
  nth (i * m + j) (List.concat (map r (seq s n))) d = nth j (r (s + i)%nat) d.
Proof.
  revert s i. induction n as [|n IH]; intros s i H Hi Hj; [lia|]. cbn [seq map concat]. destruct i as [|i].
  - rewrite app_nth1 by (rewrite H by lia; lia). rewrite Nat.add_0_r. reflexivity.
  - rewrite app_nth2 by (rewrite H by lia; lia). rewrite H by lia. replace (S i * m + j - m)%nat with (i * m + j)%nat by lia. rewrite IH by (try lia; intros; apply H; lia). f_equal. f_equal. lia.
Qed.
Section Columns.
Variables (d : driver) (m : nat) (cl : pyclass) (ks ps ss : list R) (vals : Z -> list R).
Hypotheses (Hd : d = D_A_1loop /\ cl = CA1 /\ m = 5%nat \/ d = D_B /\ cl = CB1 /\ m = 9%nat).
Hypotheses (Lp : List.length ps = List.length ks) (Ls : List.length ss = List.length ks) (Lv : forall ik, (0 <= ik < zlen ks)%Z -> List.length (vals ik) = m).
Let c := columns_of d ks ps ss vals.
Lemma lengths i : (0 <= i < 0 + List.length ks)%nat -> List.length (vals (Z.of_nat i)) = m.
Proof. intros Hi. apply Lv. unfold zlen. change (T RNum) with R. lia. Qed.
Lemma columns_complete : complete cl c (List.length ks).
Proof.
  pose proof (concat_length (List.length ks) m (fun i => vals (Z.of_nat i)) 0 lengths) as LC.
  split.
  - intros x. unfold c. destruct Hd as [(-> & -> & _)|(-> & -> & _)]; reflexivity.
  - intros x v E. unfold c, columns_of, getitem, rows in E.
    assert (R : (x = "k" /\ v = ks) \/ (x = "pk_lin" /\ v = ps) \/ (x = "sigmad2" /\ v = ss) \/ (x = "pk" /\ v = List.concat (map (fun i => vals (Z.of_nat i)) (seq 0 (List.length ks))))).
    { destruct Hd as [(D1 & _)|(D1 & _)]; rewrite D1 in E; cbn [assoc fst snd] in E;
      repeat (match type of E with context [(?a =? ?b)%string] => destruct (a =? b)%string eqn:Q; [apply String.eqb_eq in Q; injection E as <-; subst; tauto|clear Q] end); discriminate E. }
    clear E. destruct Hd as [(_ & -> & Hm)|(_ & -> & Hm)]; (destruct R as [(-> & Ev)|[(-> & Ev)|[(-> & Ev)|(-> & Ev)]]]; rewrite Ev; cbn [ncomp String.eqb Ascii.eqb Bool.eqb]; [rewrite Nat.mul_1_r; reflexivity|rewrite Nat.mul_1_r; exact Lp|rewrite Nat.mul_1_r; exact Ls|etransitivity; [exact LC|rewrite Hm; reflexivity]]).
Qed.
Lemma column_entries i j : (i < List.length ks)%nat -> (j < m)%nat -> entry c "k" i = nth i ks 0 /\ entry c "pk" (i * m + j) = at_ (vals (Z.of_nat i)) j.
Proof.
  intros Hi Hj. split; [destruct Hd as [(D1 & _)|(D1 & _)]; unfold entry, c, columns_of; rewrite D1; reflexivity|].
  transitivity (nth (i * m + j) (List.concat (rows (List.length ks) vals)) 0); [destruct Hd as [(D1 & _)|(D1 & _)]; unfold entry, c, columns_of; rewrite D1; reflexivity|].
  unfold rows. rewrite (concat_entry 0 (List.length ks) m (fun i => vals (Z.of_nat i)) 0 i j lengths Hi Hj). reflexivity.
Qed.
Lemma columns_k kk : getitem c "k" = Ok kk -> kk = ks.
Proof. unfold c, columns_of, getitem. cbn. intros E. injection E as <-. reflexivity. Qed.
End Columns.
Lemma A_length fuel st suave1 suave12 pkl dt ptt k v : value_of (N := RNum) fuel st suave1 suave12 D_A_1loop pkl dt ptt k = Ok v -> List.length v = 5%nat.
Proof.
  cbn [value_of]. unfold value_A_1loop. intros V. apply bind_inv in V as (g & _ & V). apply bind_inv in V as (mt & _ & V). apply bind_inv in V as (((w & a) & b) & _ & V).
  exact (ProofThreads4.take_Ok _ _ _ V).
Qed.
Lemma B_length fuel st suave1 suave12 pkl dt ptt k v : value_of (N := RNum) fuel st suave1 suave12 D_B pkl dt ptt k = Ok v -> List.length v = 9%nat.
Proof.
  cbn [value_of]. unfold value_B. intros V. apply bind_inv in V as (g & _ & V). apply bind_inv in V as (mt & _ & V). apply bind_inv in V as (((w & a) & b) & _ & V).
  unfold sum_B in V. repeat (match type of V with context [rd ?l ?i] => destruct (rd l i); [|discriminate V]; cbn [bind] in V end). injection V as V. rewrite <- V. reflexivity.
Qed.

Section EndToEnd.
Variables (fuel : nat) (st : settings RNum) (suave1 : (list R -> res R) -> res R) (suave12 : (list R -> res (list R)) -> res (list R)).
Variables (pkl dt ptt : Pk RNum) (ks ps ss : list R) (vals : Z -> list R) (ik : Z) (qmin qmax f nu D left right : R).
Hypotheses (Inc : increasing ks) (Hik : (0 <= ik < zlen ks)%Z) (Hnu : -1 <= nu <= 1) (Hq : 0 < qmin < qmax).
Let k := k_ (N := RNum) ks ik.
Lemma tabulated d m cl (powers : list (nat * nat)) (pk_interp : columns RNum -> R -> R -> R -> R -> R -> R -> res R) (l r : R) (I : nat -> R) (e : R) :
  d = D_A_1loop /\ cl = CA1 /\ m = 5%nat \/ d = D_B /\ cl = CB1 /\ m = 9%nat -> computes (N := RNum) fuel st suave1 suave12 d pkl dt ptt ks ps ss vals -> List.length powers = m ->
  (forall (c : columns RNum) n, complete cl c n -> (1 <= n)%nat -> (forall kk, getitem c "k" = Ok kk -> increasing kk) -> exists g : nat -> R -> R,
    (forall j, (j < m)%nat -> interpolates (entry c "k") (fun i => D ^ 4 * entry c "pk" (i * m + j)) n l r (g j)) /\ pk_interp c k (nu ^ 2) f D left right = Ok (combine_components powers (nu ^ 2) f (fun j => g j k))) ->
  (forall j, (j < m)%nat -> Rabs (at_ (vals ik) j - I j) <= e) ->
  exists v, pk_interp (columns_of d ks ps ss vals) k (nu ^ 2) f D left right = Ok v /\ Rabs (v - D ^ 4 * combine_components powers (nu ^ 2) f I) <= D ^ 4 * combine_components powers (nu ^ 2) (Rabs f) (fun _ => e).
Proof.
  intros Hd (C1 & C2 & C3) Lm HI He. change (T RNum) with R in *. set (i := Z.to_nat ik).
  assert (Hi : (i < List.length ks)%nat) by (unfold i, zlen in *; lia). assert (Ei : Z.of_nat i = ik) by (unfold i; lia).
  assert (Lp : List.length ps = List.length ks) by exact (find_pk_length (N := RNum) _ _ _ _ C1). assert (Ls : List.length ss = List.length ks) by exact (sigma_length (N := RNum) _ _ _ _ _ _ C2).
  assert (Lv : forall ik, (0 <= ik < zlen ks)%Z -> List.length (vals ik) = m).
  { intros j Hj. specialize (C3 j Hj). destruct Hd as [(-> & _ & ->)|(-> & _ & ->)]; [eapply A_length|eapply B_length]; exact C3. }
  destruct (HI _ _ (columns_complete d m cl ks ps ss vals Hd Lp Ls Lv) ltac:(lia)) as (g & G & E).
  { intros kk Ek. apply columns_k in Ek. rewrite Ek. exact Inc. }
  exists (combine_components powers (nu ^ 2) f (fun j => g j k)). split; [exact E|].
  rewrite <- (combine_scal powers (nu ^ 2) f (D ^ 4) I), <- (combine_scal powers (nu ^ 2) (Rabs f)). apply combine_error; [apply pow2_ge_0|]. intros j Hj. rewrite Lm in Hj.
  destruct (G j Hj) as (_ & _ & G3 & _). specialize (G3 i Hi). destruct (column_entries d m cl ks ps ss vals Hd Lp Ls Lv i j Hi Hj) as (K1 & K2). rewrite K1, K2, Ei in G3.
  assert (Ek : nth i ks 0 = k) by reflexivity. rewrite Ek in G3. rewrite G3. rewrite <- Rmult_minus_distr_l, Rabs_mult. assert (D4 : 0 <= D ^ 4) by (replace (D ^ 4) with ((D ^ 2) ^ 2) by ring; apply pow2_ge_0).
  rewrite (Rabs_right (D ^ 4)) by lra. apply Rmult_le_compat_l; [exact D4|apply He; exact Hj].
Qed.
Lemma A_returned lam M lam1 M1 MP F C C1 delta : two_points pkl -> regular_run st pkl D_A_1loop ->
  let n := pr_n (s_prec st "A_1loop_q") in let m := pr_n (s_prec st "A_1loop_mu") in
  q_range (N := RNum) (s_prec st "A_1loop_q") pkl = Ok (qmin, qmax) -> computes (N := RNum) fuel st suave1 suave12 D_A_1loop pkl dt ptt ks ps ss vals -> (2 <= n)%Z -> qmin <= k <= qmax -> k < qmin + qmax * exp (- end_gap n qmin qmax) ->
  0 <= lam -> 0 <= M -> 0 <= lam1 -> 0 <= C -> 0 <= C1 -> (forall c, (c < 5)%nat -> smooth false (qmin / k) (qmax / k) (A_with F c k) lam M /\ stable false k qmin qmax (fun Q => A_with Q c k) F C /\
    bounded_lipschitz (fun s => exp s / k * A_without F c k (exp s / k)) (ln qmin) (ln qmax) lam1 M1 /\ stable_without c k qmin qmax F C1) -> (forall q, qmin <= q <= qmax -> Rabs (F q) <= MP) ->
  0 <= delta <= 1 -> close_on qmin qmax (lookup_of pkl POLY) F delta ->
  exists v, pk_interp_A (N := RNum) (columns_of D_A_1loop ks ps ss vals) k (nu ^ 2) f D left right = Ok v /\
    Rabs (v - D ^ 4 * A_redshift F f nu k qmin qmax) <= D ^ 4 * combine_components A_powers (nu ^ 2) (Rabs f) (fun _ => A_bound n m k qmin qmax lam M lam1 M1 (MP + 1) (MP + 1) + A_change n m k qmin qmax C C1 delta).
Proof.
  intros HT HR n m ER HC Hn2 Hkr Hin Hlam HM Hlam1 HCC HC1 HS HP Hdl Hcl. assert (Hk : 0 < k) by (destruct Hkr; lra).
  rewrite (A_combination f nu k qmin qmax Hk Hq Hnu F lam M lam1 M1 Hlam HM Hlam1 (fun c Hc => proj1 (HS c Hc)) (fun c Hc => proj1 (proj2 (proj2 (HS c Hc))))).
  apply (tabulated D_A_1loop 5 CA1 A_powers (pk_interp_A (N := RNum)) left right); [left; auto|exact HC|reflexivity| |].
  - intros c n0 Hc Hn0 Hi. apply (pk_interp_A_val c n0 k (nu ^ 2) f D left right CA1); auto.
  - intros j Hj. destruct (HS j Hj) as (S1 & S2 & S3 & S4). apply (A_near_error fuel st suave1 suave12 pkl dt ptt ks ps ss vals ik qmin qmax lam M lam1 M1 MP j F C C1 delta); assumption.
Qed.
Lemma B_returned K lam M Pd Pt C delta : two_points pkl -> two_points dt -> two_points ptt -> regular_run st pkl D_B ->
  let n := pr_n (s_prec st "B_q") in let m := pr_n (s_prec st "B_mu") in
  q_range (N := RNum) (s_prec st "B_q") pkl = Ok (qmin, qmax) -> computes (N := RNum) fuel st suave1 suave12 D_B pkl dt ptt ks ps ss vals -> 0 < k -> 0 <= lam -> 0 <= M ->
  0 <= C -> 0 <= delta <= 1 -> close_on qmin qmax (lookup_of dt POLY) Pd delta -> close_on qmin qmax (lookup_of ptt POLY) Pt delta -> stable_B k qmin qmax Pd Pt K C ->
  (forall c, (c < 12)%nat -> smooth true (qmin / k) (qmax / k) (K c) lam M) -> (forall x mu, 0 < x -> -1 <= mu <= 1 -> 0 < sep x mu -> B_averaged Pd Pt (fun c => K c x mu) k x mu nu) ->
  exists v, pk_interp_B (N := RNum) (columns_of D_B ks ps ss vals) k (nu ^ 2) f D left right = Ok v /\
    Rabs (v - D ^ 4 * B_redshift Pd Pt f nu k qmin qmax) <=
      D ^ 4 * combine_components B_powers (nu ^ 2) (Rabs f) (fun _ => k ^ 3 / (2 * PI ^ 2) * (2 * (mode_bound n m 1 k qmin qmax lam M + mode_change_bound n m 1 k qmin qmax (C * delta)))).
Proof.
  intros HT HT1 HT2 HR n m ER HC Hk Hlam HM HCC Hdl Hd Ht HSt HS HA.
  rewrite (B_combination f nu k qmin qmax Hk Hq Pd Pt K lam M Hlam HM HS HA).
  apply (tabulated D_B 9 CB1 B_powers (pk_interp_B (N := RNum)) 0 0); [right; auto|exact HC|reflexivity| |].
  - intros c n0 Hc Hn0 Hi. apply (pk_interp_B_val c n0 k (nu ^ 2) f D left right CB1); auto.
  - intros j Hj. apply (B_near_error fuel st suave1 suave12 pkl dt ptt ks ps ss vals ik qmin qmax K lam M j Pd Pt C delta); assumption.
Qed.
End EndToEnd.
(** Constants that serve all five components *)
Lemma A_constants_all (F F' : R -> R) Dv k qmin qmax : 0 < qmin -> qmin <= qmax -> qmin <= k <= qmax -> (forall q, qmin <= q <= qmax -> is_derive F q (F' q) /\ Rabs (F' q) <= Dv) ->
  exists lam M lam1 M1 MP C C1, 0 <= lam /\ 0 <= M /\ 0 <= lam1 /\ 0 <= C /\ 0 <= C1 /\ (forall c, (c < 5)%nat -> smooth false (qmin / k) (qmax / k) (A_with F c k) lam M /\ stable false k qmin qmax (fun Q => A_with Q c k) F C /\
    bounded_lipschitz (fun s => exp s / k * A_without F c k (exp s / k)) (ln qmin) (ln qmax) lam1 M1 /\ stable_without c k qmin qmax F C1) /\ forall q, qmin <= q <= qmax -> Rabs (F q) <= MP.
Proof.
  intros Hq Hqq Hk HF.
  assert (G : forall n, (n <= 5)%nat -> exists lam M lam1 M1 MP C C1, 0 <= lam /\ 0 <= M /\ 0 <= lam1 /\ 0 <= C /\ 0 <= C1 /\ (forall c, (c < n)%nat -> smooth false (qmin / k) (qmax / k) (A_with F c k) lam M /\ stable false k qmin qmax (fun Q => A_with Q c k) F C /\
    bounded_lipschitz (fun s => exp s / k * A_without F c k (exp s / k)) (ln qmin) (ln qmax) lam1 M1 /\ stable_without c k qmin qmax F C1) /\ forall q, qmin <= q <= qmax -> Rabs (F q) <= MP).
  { assert (SM : forall c lam M lam' M', lam <= lam' -> M <= M' -> smooth false (qmin / k) (qmax / k) (A_with F c k) lam M -> smooth false (qmin / k) (qmax / k) (A_with F c k) lam' M').
    { intros c lam M lam' M' H1 H2 (S1 & S2). split; intros; [eapply Rle_trans; [apply S1; assumption|exact H2]|]. eapply Rle_trans; [apply S2; assumption|]. apply Rmult_le_compat_r; [|exact H1]. apply Rplus_le_le_0_compat; apply Rabs_pos. }
    assert (ST : forall c C C', C <= C' -> stable false k qmin qmax (fun Q => A_with Q c k) F C -> stable false k qmin qmax (fun Q => A_with Q c k) F C').
    { intros c C C' H S. unfold stable in *. intros; eapply Rle_trans; [eapply S; eassumption|]. apply Rmult_le_compat_r; [lra|exact H]. }
    assert (BL : forall g a b lam M lam' M', lam <= lam' -> M <= M' -> bounded_lipschitz g a b lam M -> bounded_lipschitz g a b lam' M').
    { intros g a b lam M lam' M' H1 H2 (S1 & S2). split; [intros; eapply Rle_trans; [apply S1; assumption|exact H2]|]. intros s t Hs Ht. eapply Rle_trans; [apply S2; assumption|]. apply Rmult_le_compat_r; [apply Rabs_pos|exact H1]. }
    assert (SW : forall c C C', C <= C' -> stable_without c k qmin qmax F C -> stable_without c k qmin qmax F C').
    { intros c C C' H S Q e q He Hc Hr. eapply Rle_trans; [apply (S Q e q); assumption|]. apply Rmult_le_compat_r; [lra|exact H]. }
    induction n as [|n IH]; intros Hn.
    - destruct (A_constants F F' Dv k qmin qmax 0 Hq Hqq Hk HF ltac:(lia)) as (lam & M & lam1 & M1 & MP & C & C1 & H1 & H2 & H3 & H4 & H5 & _ & _ & _ & _ & H6). exists lam, M, lam1, M1, MP, C, C1. repeat (split; [assumption|]). split; [intros c Hc; lia|exact H6].
    - destruct (IH ltac:(lia)) as (lam & M & lam1 & M1 & MP & C & C1 & H1 & H2 & H3 & H4 & H5 & HA & H6).
      destruct (A_constants F F' Dv k qmin qmax n Hq Hqq Hk HF ltac:(lia)) as (lam' & M' & lam1' & M1' & MP' & C' & C1' & G1 & G2 & G3 & G4 & G5 & G6 & G7 & G8 & G9 & _).
      exists (Rmax lam lam'), (Rmax M M'), (Rmax lam1 lam1'), (Rmax M1 M1'), MP, (Rmax C C'), (Rmax C1 C1').
      do 5 (split; [eapply Rle_trans; [|apply Rmax_l]; assumption|]). split; [|exact H6]. intros c Hc. destruct (Nat.eq_dec c n) as [->|Hne].
      + split; [exact (SM _ _ _ _ _ (Rmax_r _ _) (Rmax_r _ _) G6)|]. split; [exact (ST _ _ _ (Rmax_r _ _) G7)|]. split; [exact (BL _ _ _ _ _ _ _ (Rmax_r _ _) (Rmax_r _ _) G8)|exact (SW _ _ _ (Rmax_r _ _) G9)].
      + destruct (HA c ltac:(lia)) as (A1 & A2 & A3 & A4). split; [exact (SM _ _ _ _ _ (Rmax_l _ _) (Rmax_l _ _) A1)|]. split; [exact (ST _ _ _ (Rmax_l _ _) A2)|]. split; [exact (BL _ _ _ _ _ _ _ (Rmax_l _ _) (Rmax_l _ _) A3)|exact (SW _ _ _ (Rmax_l _ _) A4)]. }
  exact (G 5%nat ltac:(lia)).
Qed.
