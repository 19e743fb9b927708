(** ProofIntegrals7: the 1-loop A terms. *)
From Coq Require Import Reals Lra Lia List.
From Coquelicot Require Import Coquelicot.
From Verif Require Import Base Num BaseFacts Common Kernels Gamma2 Integrals Spec SpecPT SpecIntegrals SpecLoops SpecTable Sums ProofSearch ProofKernels ProofGL2 ProofIntegrals ProofIntegrals2 ProofIntegrals3 ProofIntegrals4 ProofIntegrals5 ProofIntegrals6.
Import ListNotations.
Local Open Scope R_scope.

Lemma powers9 (x : R) : powers (N := RNum) x (repeat (nZ RNum 0) 9) 9 =
  Ok [1; x; x * x; x * x * x; x * x * x * x; x * x * x * x * x; x * x * x * x * x * x; x * x * x * x * x * x * x; x * x * x * x * x * x * x * x].
Proof. reflexivity. Qed.
(** What the code uses for the P(k)P(q) part. *)
Definition a_code (c : nat) (x : R) : R :=
  if Rlt_dec x (1 / 10000) then a_small c x else if Rlt_dec 100 x then a_large c x
  else a_int c x (if Rlt_dec (3 / 10 ^ 14) (Rabs (x - 1)) then logx x else 0).
Lemma lit4 : nlit RNum 1 4 = 1 / 10000.
Proof. rnl. reflexivity. Qed.
Lemma kernel_a_val P (g0 g : glq RNum) k pk i :
  q_table P g0 -> 0 < k -> update_gauss_legendre_q g0 k = Ok g -> (0 <= i < gq_nq g)%Z ->
  kernel_a_1loop g i pk = Ok (comps 5 (fun c => let x := at_ (xs_of g0 k) (Z.to_nat i) in pk * P (k * x) * a_code c x)).
Proof.
  intros Hg Hk E Hi. destruct (q_updated P g0 k Hg Hk) as [g' [E' [A1 [A2 [A3 [A4 [A5 [A6 [A7 [A8 [A9 A10]]]]]]]]]]].
  rewrite E in E'. injection E' as <-. destruct (A10 i Hi) as [R1 [R2 [R3 [R4 [R5 R6]]]]].
  unfold kernel_a_1loop. rewrite R1. cbn [bind]. rewrite R5. cbn [bind]. rewrite <- R3, powers9. cbn [bind].
  set (x := znth 0 (gq_x g) i) in *. set (pq := P (k * x)). clearbody pq x.
  repeat match goal with |- context [@rd ?A [?a; ?b; ?c; ?d; ?e; ?f; ?h; ?o; ?p] ?j] =>
    match j with
    | 1%Z => change (@rd A [a; b; c; d; e; f; h; o; p] j) with (@Ok A b)
    | 2%Z => change (@rd A [a; b; c; d; e; f; h; o; p] j) with (@Ok A c)
    | 3%Z => change (@rd A [a; b; c; d; e; f; h; o; p] j) with (@Ok A d)
    | 4%Z => change (@rd A [a; b; c; d; e; f; h; o; p] j) with (@Ok A e)
    | 6%Z => change (@rd A [a; b; c; d; e; f; h; o; p] j) with (@Ok A h)
    | 8%Z => change (@rd A [a; b; c; d; e; f; h; o; p] j) with (@Ok A p)
    end; cbn [bind] end.
  rewrite !power3, !power4. rewrite EPS_val, lit4. rn. unfold a_code. cbn zeta.
  destruct (Rltb_spec x (1 / 10000)) as [H1|H1].
  { destruct (Rlt_dec x (1 / 10000)); [|contradiction]. apply f_equal. unfold comps. cbn [map seq a_small].
    repeat (apply f_equal2; [field|]). reflexivity. }
  destruct (Rlt_dec x (1 / 10000)); [contradiction|]. destruct (Rltb_spec 100 x) as [H2|H2].
  { destruct (Rlt_dec 100 x); [|contradiction]. apply f_equal. unfold comps. cbn [map seq a_large].
    repeat (apply f_equal2; [field; lra|]). reflexivity. }
  destruct (Rlt_dec 100 x); [contradiction|].
  set (L := if Rltb (3 / 10 ^ 14) (Rabs (x - 1)) then ln (Rabs ((x + 1) / (x - 1))) else 0).
  replace (if Rlt_dec (3 / 10 ^ 14) (Rabs (x - 1)) then logx x else 0) with L.
  { clearbody L. apply f_equal. unfold comps. cbn [map seq a_int].
    repeat (apply f_equal2; [field; lra|]). reflexivity. }
  unfold L, logx. destruct (Rltb_spec (3 / 10 ^ 14) (Rabs (x - 1))); destruct (Rlt_dec (3 / 10 ^ 14) (Rabs (x - 1))); (reflexivity || contradiction).
Qed.
Lemma a_code_err c x : (c < 5)%nat -> 0 < x -> Rabs (a_code c x - a_int c x (logx x)) <= series_tolerance x.
Proof.
  intros Hc Hx. unfold a_code, series_tolerance. rewrite Rabs_minus_sym. destruct (Req_dec x 1) as [->|H1].
  { destruct (Rlt_dec 1 (1 / 10000)); [lra|]. destruct (Rlt_dec 100 1); [lra|]. rewrite Rminus_eq_0, Rabs_R0. destruct (Rlt_dec (3 / 10 ^ 14) 0) as [B|_]; [lra|].
    replace (a_int c 1 (logx 1) - a_int c 1 0) with 0; [rewrite Rabs_R0; lra|]. do 4 (destruct c as [|c]; [unfold a_int; field|]). unfold a_int. field. }
  destruct (Rlt_dec x (1 / 10000)); [apply a_small_err; [assumption|lra]|].
  destruct (Rlt_dec 100 x); [apply a_large_err; assumption|].
  destruct (Rlt_dec (3 / 10 ^ 14) (Rabs (x - 1))) as [H|H]; [rewrite Rminus_diag_eq, Rabs_R0 by reflexivity; lra|].
  apply a_one_err; [assumption|]. split; [apply Rabs_pos_lt; lra|lra].
Qed.
(** The integral over mu. *)
Lemma a_integral c x : (c < 5)%nat -> 0 < x -> x <> 1 -> is_RInt (a_coef c x) (-1) 1 (a_int c x (logx x)).
Proof.
  intros Hc Hx H1.
  assert (G : forall gm g0 g1 g2 g3, (forall mu, -1 <= mu <= 1 -> a_coef c x mu = XLaurent gm g0 g1 g2 g3 (1 + x * x - 2 * mu * x)) ->
     XLint gm g0 g1 g2 g3 x (logx x) = a_int c x (logx x) -> is_RInt (a_coef c x) (-1) 1 (a_int c x (logx x))).
  { intros gm g0 g1 g2 g3 HA HB. rewrite <- HB. eapply is_RInt_ext; [|apply XLaurent_int; assumption].
    intros mu Hm. rewrite Rmin_left, Rmax_right in Hm by lra. symmetry. apply HA. lra. }
  destruct c as [|[|[|[|[|c]]]]]; [| | | | |lia].
  - eapply G; [intros mu Hm; apply a_coef_0; [exact Hx|apply X_pos_ne; assumption|reflexivity]|].
    rewrite a_exact_0 by exact Hx. unfold a_int. field. lra.
  - eapply G; [intros mu Hm; apply a_coef_1; [exact Hx|apply X_pos_ne; assumption|reflexivity]|].
    rewrite a_exact_1 by exact Hx. unfold a_int. field. lra.
  - eapply G; [intros mu Hm; apply a_coef_2; [exact Hx|apply X_pos_ne; assumption|reflexivity]|].
    rewrite a_exact_2 by exact Hx. unfold a_int. field. lra.
  - eapply G.
    + intros mu Hm. transitivity (a_coef 1 x mu); [|apply a_coef_1; [exact Hx|apply X_pos_ne; assumption|reflexivity]].
      pose proof (X_pos_ne x mu Hx H1 Hm) as HX. unfold a_coef. unA. field. split; lra.
    + rewrite a_exact_1 by exact Hx. unfold a_int. field. lra.
  - eapply G; [intros mu Hm; apply a_coef_4; [exact Hx|apply X_pos_ne; assumption|reflexivity]|].
    rewrite a_exact_4 by exact Hx. unfold a_int. field. lra.
Qed.
Lemma sep_ne x mu : 0 < x -> x <> 1 -> -1 <= mu <= 1 -> 0 < sep x mu.
Proof. intros. apply sqrt_lt_R0. apply X_pos_ne; assumption. Qed.
(** At q = k the logarithm has the factor zero. *)
Lemma poly_int g0 g1 g2 g3 L : is_RInt (fun mu => XLaurent 0 g0 g1 g2 g3 (1 + 1 * 1 - 2 * mu * 1)) (-1) 1 (XLint 0 g0 g1 g2 g3 1 L).
Proof.
  pose (F := fun mu => let X := 2 - 2 * mu in - (1 / 2) * (g0 * X + g1 / 2 * X ^ 2 + g2 / 3 * X ^ 3 + g3 / 4 * X ^ 4)).
  apply is_RInt_ext with (fun mu => g0 + g1 * (2 - 2 * mu) + g2 * (2 - 2 * mu) ^ 2 + g3 * (2 - 2 * mu) ^ 3).
  { intros mu _. unfold XLaurent. replace (1 + 1 * 1 - 2 * mu * 1) with (2 - 2 * mu) by ring. unfold Rdiv. match goal with |- @eq _ ?u ?v => change (@eq R u v) end. ring. }
  replace (XLint 0 g0 g1 g2 g3 1 L) with (minus (G := R_AbelianGroup) (F 1) (F (-1))).
  - apply (is_RInt_derive (V := R_CompleteNormedModule) F).
    + intros mu _. unfold F. auto_derive; [exact I|]. field.
    + intros mu _. apply (ex_derive_continuous (fun u => g0 + g1 * (2 - 2 * u) + g2 * (2 - 2 * u) ^ 2 + g3 * (2 - 2 * u) ^ 3)). eexists. auto_derive; [exact I|reflexivity].
  - match goal with |- @eq _ (minus ?u ?v) ?a => change (@eq R (u - v) a) end. unfold F, XLint. cbn zeta. field.
Qed.
Lemma a_integral_one c L : (c < 5)%nat -> is_RInt (a_coef c 1) (-1) 1 (a_int c 1 L).
Proof.
  intros Hc.
  assert (G : forall gm g0 g1 g2 g3, gm = 0 -> (forall mu, -1 < mu < 1 -> a_coef c 1 mu = XLaurent gm g0 g1 g2 g3 (1 + 1 * 1 - 2 * mu * 1)) ->
     XLint gm g0 g1 g2 g3 1 L = a_int c 1 L -> is_RInt (a_coef c 1) (-1) 1 (a_int c 1 L)).
  { intros gm g0 g1 g2 g3 -> HA HB. rewrite <- HB. eapply is_RInt_ext; [|apply poly_int].
    intros mu Hm. rewrite Rmin_left, Rmax_right in Hm by lra. symmetry. apply HA. lra. }
  destruct c as [|[|[|[|[|c]]]]]; [| | | | |lia].
  - eapply G; [|intros mu Hm; apply a_coef_0; [lra| |reflexivity]; lra|rewrite a_exact_0 by lra; unfold a_int; field]; field.
  - eapply G; [|intros mu Hm; apply a_coef_1; [lra| |reflexivity]; lra|rewrite a_exact_1 by lra; unfold a_int; field]; field.
  - eapply G; [|intros mu Hm; apply a_coef_2; [lra| |reflexivity]; lra|rewrite a_exact_2 by lra; unfold a_int; field]; field.
  - eapply G; [| |rewrite a_exact_1 by lra; unfold a_int; field]; [field|].
    intros mu Hm. transitivity (a_coef 1 1 mu); [|apply a_coef_1; [lra| |reflexivity]; lra]. unfold a_coef. unA. field. lra.
  - eapply G; [|intros mu Hm; apply a_coef_4; [lra| |reflexivity]; lra|rewrite a_exact_4 by lra; unfold a_int; field]; field.
Qed.
Lemma sep_open x mu : 0 < x -> -1 < mu < 1 -> 0 < sep x mu.
Proof. intros Hx Hm. apply sqrt_lt_R0. assert (mu * x < 1 * x) by (apply Rmult_lt_compat_r; lra). pose proof (pow2_ge_0 (1 - x)). nra. Qed.
Lemma A_tree_integral c k x pk pq : (c < 5)%nat -> 0 < k -> 0 < x ->
  is_RInt (fun mu => A_tree (wA x mu) (wtA x mu) c k x mu pk pq 0) (-1) 1 (pk * pq * a_int c x (logx x)).
Proof.
  intros Hc Hk Hx. apply is_RInt_ext with (fun mu => scal (V := R_NormedModule) (pk * pq) (a_coef c x mu)).
  - intros mu Hm. rewrite Rmin_left, Rmax_right in Hm by lra. rewrite A_tree_val by (try apply sep_open; lra). symmetry. apply At_kq0.
  - apply (is_RInt_scal (V := R_NormedModule)). destruct (Req_dec x 1) as [->|H1]; [apply a_integral_one; exact Hc|apply a_integral; assumption].
Qed.
Lemma calc_A_1loop_val pkl imq im P Pk0 (g : glq RNum) (m : glmu RNum) k :
  lookup_is pkl im P -> find1 pkl imq k = Ok Pk0 -> q_table P g -> mu_rule m -> 0 < k ->
  exists g' m', calc_pk_A_1loop pkl imq im g m k =
    Ok (comps 5 (fun c => k * k * k / (4 * PI * PI) *
      rsum (length (xs_of g k)) (fun i => let x := at_ (xs_of g k) i in
        let lo := mu_lo (at_ (xs_of g k) (length (xs_of g k) - 1)) x in let hi := mu_hi false (at_ (xs_of g k) 0) x in
        if Rlt_dec lo hi then x * at_ (gq_w g) i *
          (muquad (gm_muref m) (gm_wref m) lo hi (fun mu => At_kq c x mu Pk0 (P (k * x)) (P (k * sep x mu))) + Pk0 * P (k * x) * a_code c x) else 0)), g', m').
Proof.
  intros HL HPk Hg Hm Hk. unfold calc_pk_A_1loop.
  destruct (q_updated P g k Hg Hk) as [g' [E [A1 [A2 [A3 [A4 [A5 [A6 [A7 [A8 [A9 A10]]]]]]]]]]].
  rewrite E. cbn [bind]. rewrite HPk. cbn [bind].
  match goal with |- context [q_loop false g' m 5 ?kern ?add] =>
  destruct (q_loop_spec false g' m 5 kern add
    (fun c i mu => let x := at_ (xs_of g k) (Z.to_nat i) in At_kq c x mu Pk0 (P (k * x)) (P (k * sep x mu)))
    (fun c i v => let x := at_ (xs_of g k) (Z.to_nat i) in (v + Pk0 * P (k * x) * a_code c x) * (x * at_ (gq_w g) (Z.to_nat i))) Hm A8 A7 A9) as [m' [EQ _]] end.
  - intros i mu Hi Ha. destruct A9 as [A9 _]. destruct (allowed_sep _ _ _ _ _ A9 Ha) as [Hmu Hs].
    exact (kernel_A_tA_val pkl im P g g' k Pk0 i mu HL Hg Hk E Hi Hmu Hs).
  - intros i f Hi. rewrite (kernel_a_val P g g' k Pk0 i Hg Hk E Hi). cbn [bind].
    destruct (A10 i Hi) as [R1 [R2 [R3 [R4 [R5 R6]]]]]. rewrite R6. cbn [bind].
    rewrite <- R3. unfold comps. rewrite zipw_map. apply f_equal. apply map_ext. intros c. rn. ring.
  - discriminate.
  - exists g', m'. change (T RNum) with R in *. rewrite EQ. cbn [bind]. apply f_equal. do 2 (apply f_equal2; [|reflexivity]).
    unfold comps. rewrite map_map. apply map_ext. intros c. rn.
    assert (EL : length (xs_of g k) = Z.to_nat (gq_nq g')) by (rewrite <- A3, <- A7; unfold zlen; symmetry; apply Nat2Z.id).
    assert (E1 : xmin_of g' = at_ (xs_of g k) 0) by (unfold xmin_of; rewrite A3; reflexivity).
    assert (E2 : xmax_of g' = at_ (xs_of g k) (Z.to_nat (gq_nq g') - 1)).
    { unfold xmax_of. rewrite A3. unfold znth, at_. f_equal. lia. }
    rewrite EL, Rmult_comm. apply f_equal. apply rsum_ext. intros i Hi. cbn zeta. rewrite !Nat2Z.id, <- E1, <- E2, A3.
    destruct (Rlt_dec _ _); [|reflexivity]. apply Rmult_comm.
Qed.
