(** ProofNewton6: accuracy of the rule of nodes_weights_gauss_legendre. *)
From Coq Require Import Reals Lra Lia List.
From Coquelicot Require Import Coquelicot.
From Verif Require Import Base Num BaseFacts Common Spec SpecQuad Poly Legendre LegendreRoots LegendreSpec ProofGL ProofNewton ProofNewton2 ProofNewton3 ProofNewton4 ProofNewton5.
Import ListNotations.
Local Open Scope R_scope.

Lemma gl_rule_L fuel (xmin xmax : R) (x w : list R) n rs : (1 <= n < 2 ^ 62)%Z -> zlen x = n -> zlen w = n -> half_roots (Z.to_nat n) rs ->
  forall x' w', nodes_weights_gauss_legendre (N := RNum) fuel xmin xmax x w n = Ok (x', w') ->
  length x' = Z.to_nat n /\ length w' = Z.to_nat n /\
  forall i, (i < Z.to_nat n)%nat -> exists z slope s j, (s = 1 \/ s = -1) /\ (2 * j + 1 <= Z.to_nat n)%nat /\
    (i = j /\ s = -1 /\ (2 * j + 1 < Z.to_nat n)%nat \/ i = (Z.to_nat n - 1 - j)%nat /\ s = 1) /\
    at_ (full_roots (Z.to_nat n) rs) i = s * nth j rs 0 /\
    at_ x' i = (xmax + xmin) / 2 + (xmax - xmin) / 2 * (s * z) /\
    at_ w' i = (xmax - xmin) / ((1 - z * z) * slope * slope) /\
    node_ok (Z.to_nat n) (nth j rs 0) (cos (phi (Z.to_nat n) j)) (z, slope).
Proof.
  intros Hn Hx Hw HR x' w' E.
  pose proof (nodes_weights_struct (N := RNum) fuel xmin xmax x w n 0 Hn Hx Hw) as H1. cbn zeta in H1. rn_in H1.
  destruct (gl_list fuel n _ 0 _) as [zs|e] eqn:EL; [|rewrite E in H1; discriminate].
  destruct H1 as [Hzs [x1 [w1 [E1 [Hx1 [Hw1 H1]]]]]]. rn_in E1. rewrite E in E1. injection E1 as <- <-.
  change (T RNum) with R in *.
  unfold zlen in Hx1, Hw1. split; [lia|]. split; [lia|]. intros i Hi.
  assert (Hm0 : (0 <= (n + 1) / 2)%Z) by (apply Z.div_pos; lia).
  assert (EZ : forall l : list R, at_ l i = znth 0 l (Z.of_nat i)) by (intros l; unfold at_, znth; rewrite Nat2Z.id; reflexivity).
  pose proof (Z.mul_div_le (n + 1) 2 ltac:(lia)) as Hmid.
  assert (HN : exists j s, (0 <= j < zlen zs)%Z /\ (s = 1 \/ s = -1) /\
     (Z.of_nat i = j /\ s = -1 /\ (2 * j + 1 < n)%Z \/ Z.of_nat i = (n - 1 - j)%Z /\ s = 1) /\
     znth 0 x' (Z.of_nat i) = (xmax + xmin) / 2 + (xmax - xmin) / 2 * (s * fst (znth (0, 0) zs j)) /\
     znth 0 w' (Z.of_nat i) = gl_wt (N := RNum) ((xmax - xmin) / 2) (znth (0, 0) zs j)).
  { destruct (gl_cases n (Z.of_nat i) ltac:(lia) ltac:(lia)) as [[Hm Hlt]|[j [Ej Hj]]].
    - destruct (H1 _ Hm) as [A1 [_ [_ A2]]]. exists (Z.of_nat i), (-1). split; [lia|]. split; [auto|]. split; [left; split; [reflexivity|split; [reflexivity|lia]]|].
      rewrite (A2 Hlt), A1. split; [field|reflexivity].
    - destruct (H1 j Hj) as [_ [A1 [A2 _]]]. exists j, 1. split; [lia|]. split; [auto|]. split; [right; split; [exact Ej|reflexivity]|].
      rewrite Ej, A1, A2. split; [field|reflexivity]. }
  destruct HN as [j [s [Hj [Hs [Hij [Ex Ew]]]]]].
  pose proof (gl_list_run fuel n rs ltac:(lia) HR _ _ _ _ EL ltac:(lia) ltac:(lia) j Hj) as HNode. rewrite Z.add_0_l in HNode.
  change (T RNum) with R in *.
  destruct (znth (0, 0) zs j) as [z slope]. cbn [fst snd] in *.
  exists z, slope, s, (Z.to_nat j). split; [exact Hs|]. split; [lia|]. split; [destruct Hij as [[? [? ?]]|[? ?]]; [left|right]; repeat split; try assumption; lia|].
  split; [|split; [rewrite EZ; exact Ex|split; [|exact HNode]]].
  - rewrite full_at by exact Hi. destruct Hij as [[Ei [-> Hl]]|[Ei ->]].
    + destruct (Nat.leb_spec (2 * i + 1) (Z.to_nat n)); [|lia]. replace (Z.to_nat j) with i by lia. ring.
    + destruct (Nat.leb_spec (2 * i + 1) (Z.to_nat n)) as [Hle|Hgt].
      * assert (E2 : i = Z.to_nat j) by lia. assert (E3 : (2 * i + 1)%nat = Z.to_nat n) by lia.
        destruct HR as [_ HR]. destruct (HR i ltac:(lia)) as [_ [_ [H3 _]]]. destruct (H3 E3) as [H4 _]. rewrite <- E2, H4. ring.
      * replace (Z.to_nat n - 1 - i)%nat with (Z.to_nat j) by lia. ring.
  - rewrite EZ, Ew. unfold gl_wt. cbn [fst snd]. rn. f_equal. field.
Qed.

Lemma weight_rel (h C D e : R) : 0 < C -> Rabs (D - C) <= e * C -> 0 < D -> Rabs (h / C - h / D) <= e * Rabs (h / D).
Proof.
  intros HC HE HD. replace (h / C - h / D) with (h / D * ((D - C) / C)) by (field; split; lra).
  rewrite Rabs_mult, Rmult_comm. apply Rmult_le_compat_r; [apply Rabs_pos|].
  unfold Rdiv. rewrite Rabs_mult, (Rabs_right (/ C)) by (left; apply Rinv_0_lt_compat; exact HC).
  apply Rmult_le_reg_r with C; [exact HC|]. rewrite Rmult_assoc, Rinv_l by lra. lra.
Qed.
Lemma D_pos n r : (1 <= n)%nat -> L n r = 0 -> 0 < (1 - r * r) * DL n r * DL n r.
Proof. intros Hn Hr. destruct n as [|j]; [lia|]. rewrite <- (CD_root j r Hr). pose proof (CD_pos j r). lra. Qed.

(** Every node and weight, against the true rule *)
Lemma gl_rule fuel (xmin xmax : R) (x w : list R) n (P : poly) : (1 <= n < 2 ^ 62)%Z -> zlen x = n -> zlen w = n -> is_legendre (Z.to_nat n) P ->
  forall x' w', nodes_weights_gauss_legendre (N := RNum) fuel xmin xmax x w n = Ok (x', w') ->
  exists zs ds, length zs = Z.to_nat n /\ length ds = Z.to_nat n /\ length x' = Z.to_nat n /\ length w' = Z.to_nat n /\ increasing zs /\
    forall i, (i < Z.to_nat n)%nat ->
      -1 < at_ zs i < 1 /\ peval P (at_ zs i) = 0 /\ is_derive (peval P) (at_ zs i) (at_ ds i) /\
      let h := (xmax - xmin) / 2 in
      let v := (xmax - xmin) / ((1 - at_ zs i * at_ zs i) * at_ ds i * at_ ds i) in
      let m := IZR n + 1 / 2 in
      Rabs (at_ x' i - ((xmax + xmin) / 2 + h * at_ zs i)) <= Rabs h * (2 / 9 * (3 / 10 ^ 14)) /\
      Rabs (at_ x' i - ((xmax + xmin) / 2 + h * at_ zs i)) <= Rabs h * (88 / 81 * m ^ 2 * (3 / 10 ^ 14) ^ 2) /\
      Rabs (at_ w' i - v) <= 2 * m ^ 2 * (3 / 10 ^ 14) * Rabs v.
Proof.
  intros Hn Hx Hw HP x' w' E. pose proof (legendre_unique _ _ HP) as HL. set (N := Z.to_nat n) in *. assert (HN : (1 <= N)%nat) by (unfold N; lia).
  destruct (half_roots_exist N HN) as [rs HR]. destruct (gl_rule_L fuel xmin xmax x w n rs Hn Hx Hw HR x' w' E) as [H1 [H2 H3]]. fold N in H1, H2, H3.
  exists (full_roots N rs), (map (DL N) (full_roots N rs)).
  split; [apply full_len|]. split; [rewrite map_length; apply full_len|]. split; [exact H1|]. split; [exact H2|]. split.
  { intros i j [Hij Hj]. rewrite full_len in Hj. induction Hij as [|j Hij IH]; [apply full_incr; assumption|].
    apply Rlt_trans with (at_ (full_roots N rs) j); [apply IH; lia|apply full_incr; assumption]. }
  intros i Hi. destruct (full_root N rs i HN HR Hi) as [K1 K2]. split; [exact K1|]. split; [rewrite HL; exact K2|].
  rewrite at_map by (rewrite full_len; exact Hi). split.
  { apply (is_derive_ext (L N)); [intros; symmetry; apply HL|apply is_derive_L]. }
  cbn zeta. destruct (H3 i Hi) as [z [slope [s [j [Hs [Hj [_ [Er [Ex [Ew HO]]]]]]]]]].
  assert (EM : IZR n + 1 / 2 = fr N) by (unfold fr, N; rewrite INR_IZR_INZ, Z2Nat.id by lia; reflexivity). rewrite EM. fold epsR.
  destruct HR as [_ HR]. destruct (HR j Hj) as [HS _]. destruct HS as [S1 [S2 [S3 _]]].
  destruct HO as [O1 [O2 [O3 [O4 O5]]]]. cbn [fst snd] in *.
  set (q := nth j rs 0) in *. rewrite Er in *.
  assert (Ess : s * s = 1) by (destruct Hs as [-> | ->]; ring).
  assert (Ed : at_ x' i - ((xmax + xmin) / 2 + (xmax - xmin) / 2 * (s * q)) = (xmax - xmin) / 2 * (s * (z - q))) by (rewrite Ex; ring).
  assert (EA : Rabs (at_ x' i - ((xmax + xmin) / 2 + (xmax - xmin) / 2 * (s * q))) = Rabs ((xmax - xmin) / 2) * (z - q)).
  { rewrite Ed, Rabs_mult. f_equal. rewrite Rabs_mult, (Rabs_right (z - q)) by lra.
    destruct Hs as [-> | ->]; [rewrite Rabs_R1; ring|]. replace (-1) with (- (1)) by ring. rewrite Rabs_Ropp, Rabs_R1. ring. }
  rewrite EA. split; [apply Rmult_le_compat_l; [apply Rabs_pos|exact O2]|]. split.
  { apply Rmult_le_compat_l; [apply Rabs_pos|]. eapply Rle_trans; [exact O3|]. right. ring. }
  assert (ES : (1 - s * q * (s * q)) * DL N (s * q) * DL N (s * q) = (1 - q * q) * DL N q * DL N q).
  { replace (s * q * (s * q)) with (s * s * (q * q)) by ring. rewrite Ess, Rmult_1_l, !Rmult_assoc. f_equal.
    destruct Hs as [-> | ->]; [rewrite Rmult_1_l; reflexivity|]. replace (-1 * q) with (- q) by ring. rewrite DL_parity.
    replace (- (-1) ^ N * DL N q * (- (-1) ^ N * DL N q)) with ((-1) ^ N * (-1) ^ N * (DL N q * DL N q)) by ring.
    rewrite <- Rpow_mult_distr. replace (-1 * -1) with 1 by ring. rewrite pow1. ring. }
  rewrite ES, Ew. replace (2 * fr N ^ 2 * epsR) with (2 * (fr N * fr N) * epsR) by ring.
  apply weight_rel; [exact O4|exact O5|apply D_pos; assumption].
Qed.

(** Order, interior, sign *)
Lemma gl_order fuel (xmin xmax : R) (x w : list R) n : (1 <= n < 2 ^ 62)%Z -> zlen x = n -> zlen w = n -> xmin < xmax ->
  forall x' w', nodes_weights_gauss_legendre (N := RNum) fuel xmin xmax x w n = Ok (x', w') ->
  length x' = Z.to_nat n /\ length w' = Z.to_nat n /\ increasing x' /\
  forall i, (i < Z.to_nat n)%nat -> xmin < at_ x' i < xmax /\ 0 < at_ w' i.
Proof.
  intros Hn Hx Hw HX x' w' E. set (N := Z.to_nat n) in *. assert (HN : (1 <= N)%nat) by (unfold N; lia).
  destruct (half_roots_exist N HN) as [rs HR]. destruct (gl_rule_L fuel xmin xmax x w n rs Hn Hx Hw HR x' w' E) as [H1 [H2 H3]]. fold N in H1, H2, H3.
  destruct HR as [_ HR]. split; [exact H1|]. split; [exact H2|].
  assert (HI : forall i, (S i < N)%nat -> at_ x' i < at_ x' (S i)).
  { intros i Hi. destruct (H3 i ltac:(lia)) as [z [d1 [s [j [Hs [Hj [Hij [_ [Ex [_ [O _]]]]]]]]]]].
    destruct (H3 (S i) Hi) as [z' [d2 [s' [j' [Hs' [Hj' [Hij' [_ [Ex' [_ [O' _]]]]]]]]]]]. cbn [fst] in O, O'.
    rewrite Ex, Ex'. apply Rplus_lt_compat_l, Rmult_lt_compat_l; [lra|].
    destruct (HR j Hj) as [S1 [S2 [S3 S4]]]. destruct (HR j' Hj') as [S1' [S2' [S3' S4']]]. destruct S1 as [S1 _]. destruct S1' as [S1' _].
    destruct Hij as [[Ei [-> Hl]]|[Ei ->]]; destruct Hij' as [[Ei' [-> Hl']]|[Ei' ->]].
    - specialize (S2' j ltac:(lia)). lra.
    - specialize (S4 Hl). lra.
    - lia.
    - specialize (S2 j' ltac:(lia)). lra. }
  split.
  - intros i j [Hij Hj']. assert (Hj : (j < N)%nat) by (rewrite <- H1; exact Hj'). clear Hj'. induction Hij as [|j Hij IH]; [apply HI; exact Hj|].
    apply Rlt_trans with (at_ x' j); [apply IH; lia|apply HI; exact Hj].
  - intros i Hi. destruct (H3 i Hi) as [z [d1 [s [j [Hs [Hj [_ [_ [Ex [Ew HO]]]]]]]]]]. destruct HO as [O1 [_ [_ [O4 _]]]]. cbn [fst snd] in *.
    destruct (HR j Hj) as [[S1 [S2 _]] _]. split.
    + rewrite Ex. assert (-1 < s * z < 1) by (destruct Hs as [-> | ->]; lra).
      assert (0 < (xmax - xmin) / 2 * (1 - s * z)) by (apply Rmult_lt_0_compat; lra).
      assert (0 < (xmax - xmin) / 2 * (1 + s * z)) by (apply Rmult_lt_0_compat; lra). lra.
    + rewrite Ew. apply Rdiv_lt_0_compat; lra.
Qed.
