(** PropRounded5: C111, rounding in pk_interp.  Arithmetic and notions: SpecRounded.v, SpecRounded2.v; [plin K P]: the piecewise linear function through the points (K, P) (Spec.v).
    [pk_interp c k left right (Ok v)] is o.pk_interp(k, left, right) of an object with the columns [c] whose pk() returns [v]. *)
From Coq Require Import ZArith Reals Lra Lia List String Floats.
From Verif Require Import Base Num Order Sums Spec Common Registry PyTerms SpecPy SpecRounded SpecRounded2 ProofPy ProofPy7 ProofRounded ProofRounded4 ProofRounded6 ProofRounded8 ProofRounded9 ProofRounded10 ProofRounded15 ProofRounded16.
Import ListNotations.
Local Open Scope R_scope.

(** At a tabulated wavenumber the spectrum itself, bit for bit, whatever the rounding; *)
Theorem C111_tabulated F rnd lm (c : columns RNum) (K v : list R) left right i : rounding F rnd -> getitem c "k" = Ok K -> increasing K -> length v = length K -> Forall F v -> (i < length K)%nat ->
  pk_interp (N := QNum rnd lm) c (at_ K i) left right (Ok v) = Ok (at_ v i).
Proof. exact (fun RD HG HK HL FV Hi => pk_node rnd lm c K v HG HK HL F left right i RD FV Hi). Qed.
Print Assumptions C111_tabulated.
(** outside the table the values asked for; *)
Theorem C111_outside rnd lm (c : columns RNum) (K v : list R) k left right : getitem c "k" = Ok K -> increasing K -> length v = length K -> (1 <= length K)%nat ->
  (k < at_ K 0 -> pk_interp (N := QNum rnd lm) c k left right (Ok v) = Ok left) /\ (at_ K (length K - 1) < k -> pk_interp (N := QNum rnd lm) c k left right (Ok v) = Ok right).
Proof. exact (fun HG HK HL H1 => pk_outside rnd lm c K v HG HK HL H1 k left right). Qed.
Print Assumptions C111_outside.
(** between, the chord up to six roundings of three times the largest value. *)
Theorem C111_error F rnd lm u (c : columns RNum) (K v : list R) left right k M : rounding F rnd -> 0 <= u < 1 -> relative u rnd -> getitem c "k" = Ok K -> increasing K -> length v = length K -> Forall F v ->
  (2 <= length K)%nat -> at_ K 0 <= k <= at_ K (length K - 1) -> (forall j, (j < length K)%nat -> Rabs (at_ v j) <= M) ->
  exists y, pk_interp (N := QNum rnd lm) c k left right (Ok v) = Ok y /\ Rabs (y - plin K v k) <= units u 6 * (3 * M).
Proof. exact (fun RD Hu HR HG HK HL FV H2 Hx HM => pk_error rnd lm c K v HG HK HL F u left right k M RD Hu HR FV H2 Hx HM). Qed.
Print Assumptions C111_error.
(** Unlike the lookups of the library (C77), it can be negative although the spectrum is not. *)
Theorem C111_negative_refuted lm : exists y,
  pk_interp (N := FNum lm) [("k", [0.07; 0.8]%float)]%string 0x1.9999999999999p-1%float 0%float 0%float (Ok [3; 0]%float) = Ok y /\
  PrimFloat.ltb 0.07 0x1.9999999999999p-1 = true /\ PrimFloat.ltb 0x1.9999999999999p-1 0.8 = true /\ PrimFloat.ltb y 0 = true.
Proof. exact (ex_intro _ _ (conj eq_refl (conj eq_refl (conj eq_refl eq_refl)))). Qed.
Print Assumptions C111_negative_refuted.
(** The sums of A1Loop, A2Loop (5 components) and B1Loop, B2Loop (9 components): errors relative to the same sums of sizes. *)
Theorem C111_A F rnd lm u e cl (c : columns RNum) n (K : list R) (k mu2 beta D left right : R) (M : nat -> R) : rounding F rnd -> 0 <= u < 1 -> relative u rnd -> accurate u e lm -> integers F ->
  (cl = CA1 \/ cl = CA2) -> complete cl c n -> (2 <= n)%nat -> getitem c "k" = Ok K -> increasing K -> at_ K 0 <= k <= at_ K (n - 1) ->
  (forall i j, (i < n)%nat -> (j < 5)%nat -> Rabs (entry c "pk" (i * 5 + j)) <= M j) ->
  exists y, pk_interp_A (N := QNum rnd lm) c k mu2 beta D left right = Ok y /\
    Rabs (y - combine_components A_powers mu2 beta (fun j => plin K (map (fun i => D ^ 4 * entry c "pk" (i * 5 + j)) (seq 0 n)) k)) <=
      units u (2 * e + 16) * combine_components A_powers (Rabs mu2) (Rabs beta) (fun j => 3 * (D ^ 4 * M j)).
Proof. exact (fun RD Hu HR HA HI => A_error F rnd lm u e RD Hu HR HA HI cl c n K k mu2 beta D left right M). Qed.
Print Assumptions C111_A.
Theorem C111_B F rnd lm u e cl (c : columns RNum) n (K : list R) (k mu2 beta D left right : R) (M : nat -> R) : rounding F rnd -> 0 <= u < 1 -> relative u rnd -> accurate u e lm -> integers F ->
  (cl = CB1 \/ cl = CB2) -> complete cl c n -> (2 <= n)%nat -> getitem c "k" = Ok K -> increasing K -> at_ K 0 <= k <= at_ K (n - 1) ->
  (forall i j, (i < n)%nat -> (j < 9)%nat -> Rabs (entry c "pk" (i * 9 + j)) <= M j) ->
  exists y, pk_interp_B (N := QNum rnd lm) c k mu2 beta D left right = Ok y /\
    Rabs (y - combine_components B_powers mu2 beta (fun j => plin K (map (fun i => D ^ 4 * entry c "pk" (i * 9 + j)) (seq 0 n)) k)) <=
      units u (3 * e + 21) * combine_components B_powers (Rabs mu2) (Rabs beta) (fun j => 3 * (D ^ 4 * M j)).
Proof. exact (fun RD Hu HR HA HI => B_error F rnd lm u e RD Hu HR HA HI cl c n K k mu2 beta D left right M). Qed.
Print Assumptions C111_B.
(** (The sum over the reals is the value of pk_interp over the reals: C51.) *)
Lemma ones n (l : list R) : l = repeat 1 n -> Forall wide l.
Proof. intros ->. apply Forall_forall. intros x Hx. apply repeat_spec in Hx. subst. exact (wide_integers 1%nat ltac:(lia)). Qed.
Example C111_ex : let c := [("k", [1; 2; 4]); ("pk", [1; 1; 1])]%string in
  (exists y, pk_interp (N := QNum to_wide exact_libm) c 3 0 0 (Ok [1; 1; 1]) = Ok y /\ Rabs (y - plin [1; 2; 4] [1; 1; 1] 3) <= 3 / 10 ^ 12) /\
  pk_interp (N := QNum to_wide exact_libm) c 4 0 0 (Ok [1; 1; 1]) = Ok 1 /\ pk_interp (N := QNum to_wide exact_libm) c 5 0 7 (Ok [1; 1; 1]) = Ok 7.
Proof.
  intros c. destruct precision53 as [H1 H2]. pose proof u53 as H3. assert (HK : increasing [1; 2; 4]) by (intros [|[|[|i]]] [|[|[|j]]] H; cbn in *; lra || lia). pose proof (ones 3 [1; 1; 1] eq_refl) as FV. split; [|split].
  - destruct (C111_error wide to_wide exact_libm (/ 2 ^ 53) c [1; 2; 4] [1; 1; 1] 0 0 3 1 H1 ltac:(lra) H2 eq_refl HK eq_refl FV) as (y & E & B); [cbn; lia|cbn; lra|intros [|[|[|j]]] Hj; cbn in *; try lia; rewrite Rabs_R1; lra|].
    exists y. split; [exact E|]. eapply Rle_trans; [exact B|]. pose proof (units_figure 6 ltac:(apply Nat.leb_le; reflexivity)). lra.
  - exact (C111_tabulated wide to_wide exact_libm c [1; 2; 4] [1; 1; 1] 0 0 2 H1 eq_refl HK eq_refl FV ltac:(cbn; lia)).
  - apply (C111_outside to_wide exact_libm c [1; 2; 4] [1; 1; 1] 5 0 7 eq_refl HK eq_refl); cbn; lia || lra.
Qed.
Lemma ramp_bound cl m : In "pk"%string (fields cl) -> ncomp cl "pk" = Some (Z.of_nat m) -> (m <= 9)%nat -> forall i j, (i < 2)%nat -> (j < m)%nat -> Rabs (entry (filled cl 2 ramp) "pk" (i * m + j)) <= 18.
Proof.
  intros Hin Hm H9 i j Hi Hj. rewrite filled_entry; [|exact Hin|rewrite Hm, Nat2Z.id; nia]. unfold ramp. assert (A : (i * m + j <= 17)%nat) by nia. apply le_INR in A. pose proof (pos_INR (i * m + j)). rewrite Rabs_right by lra.
  replace (INR 17) with 17 in A by (cbn; ring). lra.
Qed.
Example C111_AB_ex : exists y z, pk_interp_A (N := QNum to_wide exact_libm) (filled CA1 2 ramp) (3 / 2) (1 / 4) (1 / 2) 1 0 0 = Ok y /\ pk_interp_B (N := QNum to_wide exact_libm) (filled CB2 2 ramp) (3 / 2) (1 / 4) (1 / 2) 1 0 0 = Ok z.
Proof.
  destruct precision53 as [H1 H2]. pose proof u53 as H3. assert (HA : accurate (/ 2 ^ 53) 0 exact_libm) by (apply exact_accurate; lra). pose proof (ramp_grid CA1 2 _ eq_refl) as KA. pose proof (ramp_grid CB2 2 _ eq_refl) as KB.
  destruct (C111_A wide to_wide exact_libm (/ 2 ^ 53) 0 CA1 (filled CA1 2 ramp) 2 _ (3 / 2) (1 / 4) (1 / 2) 1 0 0 (fun _ => 18) H1 ltac:(lra) H2 HA wide_integers (or_introl eq_refl) (filled_complete CA1 2 ramp) ltac:(lia) eq_refl KA) as (y & E & _); [unfold at_, ramp; cbn [nth Nat.sub seq map INR]; simpl; unfold ramp; simpl; lra|apply (ramp_bound CA1 5); [cbn; tauto|reflexivity|lia]|].
  destruct (C111_B wide to_wide exact_libm (/ 2 ^ 53) 0 CB2 (filled CB2 2 ramp) 2 _ (3 / 2) (1 / 4) (1 / 2) 1 0 0 (fun _ => 18) H1 ltac:(lra) H2 HA wide_integers (or_intror eq_refl) (filled_complete CB2 2 ramp) ltac:(lia) eq_refl KB) as (z & E' & _); [unfold at_, ramp; cbn [nth Nat.sub seq map INR]; simpl; unfold ramp; simpl; lra|apply (ramp_bound CB2 9); [cbn; tauto|reflexivity|lia]|].
  exists y, z. split; assumption.
Qed.
