(** ProofSamples: error of the interpolating polynomial of a smooth function. *)
From Coq Require Import Reals Lra Lia List ZArith Factorial.
From Coquelicot Require Import Coquelicot.
From Verif Require Import Spec Poly SpecSamples.
Import ListNotations.
Local Open Scope R_scope.

Lemma finite_choice (Q : nat -> R -> Prop) n : (forall i, (i < n)%nat -> exists c, Q i c) -> exists f, forall i, (i < n)%nat -> Q i (f i).
Proof.
  induction n as [|n IH]; intros H; [exists (fun _ => 0); intros i Hi; lia|]. destruct (IH (fun i Hi => H i ltac:(lia))) as (f & Hf). destruct (H n ltac:(lia)) as (c & Hc).
  exists (fun i => if Nat.eq_dec i n then c else f i). intros i Hi. destruct (Nat.eq_dec i n) as [->|]; [exact Hc|apply Hf; lia].
Qed.
Lemma rolle (f f' : R -> R) x y : x < y -> (forall t, x <= t <= y -> is_derive f t (f' t)) -> f x = 0 -> f y = 0 -> exists c, x < c < y /\ f' c = 0.
Proof.
  intros Hxy HD Hx Hy. destruct (MVT_cor2 f f' x y Hxy (fun c Hc => proj1 (is_derive_Reals _ _ _) (HD c Hc))) as (c & E & Hc).
  exists c. split; [exact Hc|]. rewrite Hx, Hy in E. assert (f' c * (y - x) = 0) as Z by lra. apply Rmult_integral in Z. destruct Z as [Z|Z]; [exact Z|lra].
Qed.
Lemma chain_le (z : nat -> R) n : (forall i, (i < n)%nat -> z i < z (S i)) -> forall i j, (i <= j <= n)%nat -> z i <= z j.
Proof. intros H i j Hij. induction j as [|j IH]; [replace i with 0%nat by lia; lra|]. destruct (Nat.eq_dec i (S j)) as [->|]; [lra|]. pose proof (IH ltac:(lia)). pose proof (H j ltac:(lia)). lra. Qed.
Lemma rolle_gen n : forall (D : nat -> R -> R) (z : nat -> R), (forall i, (i < n)%nat -> z i < z (S i)) -> (forall i, (i <= n)%nat -> D 0%nat (z i) = 0) ->
  derivatives D n (z 0%nat) (z n) -> exists c, z 0%nat <= c <= z n /\ D n c = 0.
Proof.
  induction n as [|n IH]; intros D z Hz H0 HD; [exists (z 0%nat); split; [lra|apply H0; lia]|].
  pose proof (chain_le z (S n) Hz) as HM.
  assert (HC : exists c, forall i, (i < S n)%nat -> z i < c i < z (S i) /\ D 1%nat (c i) = 0).
  { apply (finite_choice (fun i c => z i < c < z (S i) /\ D 1%nat c = 0)). intros i Hi. apply (rolle (D 0%nat) (D 1%nat)); [apply Hz; lia| |apply H0; lia|apply H0; lia].
    intros t Ht. apply HD; [lia|]. pose proof (HM 0%nat i ltac:(lia)). pose proof (HM (S i) (S n) ltac:(lia)). lra. }
  destruct HC as (c & Hc). destruct (IH (fun j => D (S j)) c) as (x & Hx & E).
  - intros i Hi. pose proof (Hc i ltac:(lia)). pose proof (Hc (S i) ltac:(lia)). lra.
  - intros i Hi. apply Hc. lia.
  - intros j t Hj Ht. apply HD; [lia|]. pose proof (Hc 0%nat ltac:(lia)). pose proof (Hc n ltac:(lia)). lra.
  - exists x. split; [|exact E]. pose proof (Hc 0%nat ltac:(lia)). pose proof (Hc n ltac:(lia)). lra.
Qed.

(** Derivatives of polynomials *)
Fixpoint pder (p : poly) : poly := match p with [] => [] | _ :: q => match q with [] => [] | _ => padd q (0 :: pder q) end end.
Lemma length_pder p : length (pder p) = (length p - 1)%nat.
Proof. induction p as [|a p IH]; [reflexivity|]. destruct p as [|b p]; [reflexivity|]. change (pder (a :: b :: p)) with (padd (b :: p) (0 :: pder (b :: p))). rewrite length_padd. cbn [length] in *. rewrite IH. lia. Qed.
Lemma is_derive_peval p x : is_derive (peval p) x (peval (pder p) x).
Proof.
  induction p as [|a p IH]; [apply (is_derive_ext (fun _ => 0)); [reflexivity|apply @is_derive_const]|]. assert (E : peval (pder (a :: p)) x = peval p x + x * peval (pder p) x).
  { destruct p as [|b p]; [cbn; ring|]. change (pder (a :: b :: p)) with (padd (b :: p) (0 :: pder (b :: p))). rewrite peval_padd. cbn [peval]. ring. }
  rewrite E.
  apply (is_derive_ext (fun t => a + t * peval p t)); [reflexivity|]. auto_derive; [exists (peval (pder p) x); exact IH|]. change (fun x0 : R => peval p x0) with (peval p). rewrite (is_derive_unique _ _ _ IH). ring.
Qed.
Definition pders (j : nat) (p : poly) : poly := Nat.iter j pder p.
Lemma pders_nil m p : (length p <= m)%nat -> pders m p = [].
Proof.
  intros H. assert (L : forall j, length (pders j p) = (length p - j)%nat) by (induction j as [|j IH]; [cbn; lia|change (pders (S j) p) with (pder (pders j p)); rewrite length_pder, IH; lia]).
  specialize (L m). destruct (pders m p); [reflexivity|cbn in L; lia].
Qed.
(** Derivatives of x^m *)
Definition pw (m j : nat) (x : R) : R := INR (fact m) / INR (fact (m - j)) * x ^ (m - j).
Lemma pw_der m j x : (j < m)%nat -> is_derive (pw m j) x (pw m (S j) x).
Proof.
  intros H. unfold pw. replace (m - j)%nat with (S (m - S j)) by lia. set (r := (m - S j)%nat).
  pose proof (INR_fact_lt_0 r) as F. pose proof (lt_0_INR (S r) ltac:(lia)) as Pr.
  assert (EF : INR (fact (S r)) = INR (S r) * INR (fact r)) by (rewrite fact_simpl, mult_INR; reflexivity). rewrite EF. set (u := INR (fact r)) in *. set (v := INR (fact m)).
  apply (is_derive_ext (fun t => scal (v / (INR (S r) * u)) (t ^ S r))); [reflexivity|]. replace (v / u * x ^ r) with (scal (v / (INR (S r) * u)) (INR (S r) * x ^ r)).
  - apply (is_derive_scal (fun t => t ^ S r)). apply is_derive_Reals. exact (derivable_pt_lim_pow x (S r)).
  - unfold scal. cbn -[INR]. unfold mult. cbn -[INR]. field. split; [exact (Rgt_not_eq _ _ F)|exact (Rgt_not_eq _ _ Pr)].
Qed.
Lemma pw_0 m x : pw m 0 x = x ^ m.
Proof. unfold pw. rewrite Nat.sub_0_r. pose proof (INR_fact_lt_0 m). field. lra. Qed.
Lemma pw_m m x : pw m m x = INR (fact m).
Proof. unfold pw. rewrite Nat.sub_diag. cbn. field. Qed.
(** Product of the distances to the nodes *)
Fixpoint prod (z : nat -> R) (m : nat) (x : R) : R := match m with O => 1 | S n => prod z n x * (x - z n) end.
Lemma prod_poly z m : exists lower, (length lower <= m)%nat /\ forall x, prod z m x = peval lower x + x ^ m.
Proof.
  induction m as [|m (l & L & E)]; [exists []; split; [cbn; lia|intros x; cbn; ring]|].
  assert (Ex : exists q, (length q <= S m)%nat /\ forall x, peval q x = x ^ m).
  { exists (repeat 0 m ++ [1]). split; [rewrite app_length, repeat_length; cbn; lia|]. intros x. clear. induction m as [|m IH]; cbn; [ring|rewrite IH; ring]. }
  destruct Ex as (q & Lq & Eq). exists (padd (0 :: l) (padd (pscale (- z m) l) (pscale (- z m) q))). split.
  - rewrite !length_padd, !length_pscale. cbn [length]. lia.
  - intros x. rewrite !peval_padd, !peval_pscale, Eq. cbn [prod peval pow]. rewrite E. ring.
Qed.
Lemma prod_node z m i : (i < m)%nat -> prod z m (z i) = 0.
Proof. intros H. induction m as [|m IH]; [lia|]. cbn. destruct (Nat.eq_dec i m) as [->|]; [ring|rewrite IH by lia; ring]. Qed.
Lemma prod_zero z m x : prod z m x = 0 -> exists i, (i < m)%nat /\ x = z i.
Proof. induction m as [|m IH]; cbn; intros H; [lra|]. apply Rmult_integral in H. destruct H as [H|H]; [destruct (IH H) as (i & Hi & E); exists i; split; [lia|exact E]|exists m; split; [lia|lra]]. Qed.

Lemma interpolation_error (D : nat -> R -> R) m (z : nat -> R) p x a b : (1 <= m)%nat -> (forall i, (S i < m)%nat -> z i < z (S i)) -> a <= z 0%nat -> z (m - 1)%nat <= b -> derivatives D m a b ->
  (length p <= m)%nat -> (forall i, (i < m)%nat -> peval p (z i) = D 0%nat (z i)) -> z 0%nat <= x <= z (m - 1)%nat ->
  exists c, a <= c <= b /\ D 0%nat x - peval p x = D m c / INR (fact m) * prod z m x.
Proof.
  intros Hm Hz Ha Hb HD Lp Hp Hx. destruct (Req_dec (prod z m x) 0) as [E0|Ne].
  - exists x. split; [lra|]. destruct (prod_zero _ _ _ E0) as (i & Hi & ->). rewrite E0, Hp by exact Hi. ring.
  - assert (HM : forall i j, (i <= j <= m - 1)%nat -> z i <= z j) by (apply (chain_le z (m - 1)); intros i Hi; apply Hz; lia).
    assert (NE : forall i, (i < m)%nat -> x <> z i) by (intros i Hi ->; apply Ne, prod_node, Hi).
    assert (HS : exists s, (S s < m)%nat /\ z s < x < z (S s)).
    { assert (G : forall r, (r < m)%nat -> x < z r -> exists s, (S s < m)%nat /\ z s < x < z (S s)).
      { induction r as [|r IH]; intros Hr Lr; [lra|]. destruct (Rlt_dec x (z r)); [apply IH; [lia|assumption]|]. exists r. split; [exact Hr|]. pose proof (NE r ltac:(lia)). lra. }
      apply (G (m - 1)%nat); [lia|]. pose proof (NE (m - 1)%nat ltac:(lia)). lra. }
    destruct HS as (s & Hs & Hsx). destruct (prod_poly z m) as (lo & Ll & El).
    set (c := (D 0%nat x - peval p x) / prod z m x).
    set (G := fun j t => D j t - peval (pders j p) t - c * (peval (pders j lo) t + pw m j t)).
    set (y := fun j => if le_dec j s then z j else if Nat.eq_dec j (S s) then x else z (j - 1)%nat).
    assert (Y0 : y 0%nat = z 0%nat) by (unfold y; destruct (le_dec 0 s); [reflexivity|lia]).
    assert (Ym : y m = z (m - 1)%nat) by (unfold y; destruct (le_dec m s); [lia|]; destruct (Nat.eq_dec m (S s)); [lia|reflexivity]).
    assert (GE : forall t, G 0%nat t = D 0%nat t - peval p t - c * prod z m t) by (intros t; unfold G; cbn [pders Nat.iter]; rewrite pw_0, El; reflexivity).
    destruct (rolle_gen m G y) as (xi & Hxi & E).
    + intros i Hi. unfold y. destruct (le_dec i s) as [A|A], (le_dec (S i) s) as [B|B]; try lia.
      * apply Hz. lia.
      * destruct (Nat.eq_dec (S i) (S s)); [|lia]. replace i with s by lia. lra.
      * destruct (Nat.eq_dec (S i) (S s)); [lia|]. destruct (Nat.eq_dec i (S s)) as [->|].
        -- replace (S (S s) - 1)%nat with (S s) by lia. lra.
        -- replace (S i - 1)%nat with (S (i - 1)) by lia. apply Hz. lia.
    + intros i Hi. rewrite GE. unfold y. destruct (le_dec i s) as [A|A].
      * rewrite prod_node, Hp by lia. ring.
      * destruct (Nat.eq_dec i (S s)) as [->|].
        -- unfold c. field. exact Ne.
        -- rewrite prod_node, Hp by lia. ring.
    + rewrite Y0, Ym. intros j t Hj Ht. unfold G. cbn [pders Nat.iter]. fold (pders j p) (pders j lo).
      apply @is_derive_minus; [apply @is_derive_minus; [apply HD; [exact Hj|lra]|apply is_derive_peval]|].
      apply (is_derive_ext (fun t0 => scal c (peval (pders j lo) t0 + pw m j t0))); [reflexivity|].
      apply (is_derive_scal (fun t0 => peval (pders j lo) t0 + pw m j t0)). apply @is_derive_plus; [apply is_derive_peval|apply pw_der, Hj].
    + rewrite Y0, Ym in Hxi. exists xi. split; [lra|]. unfold G in E. rewrite (pders_nil m p Lp), (pders_nil m lo Ll), pw_m in E. cbn [peval] in E.
      pose proof (INR_fact_lt_0 m). replace (D m xi) with (c * INR (fact m)) by lra. unfold c. field. split; first [lra|exact Ne].
Qed.
