(** PropRounded7: C113, rounding in rescale and in the spectra which are one column.  Arithmetic and notions: SpecRounded.v, SpecRounded2.v, SpecPy.v, SpecDamped.v. *)
From Coq Require Import ZArith Reals Lra Lia List String Floats.
From Verif Require Import Base Num Order Spec Common Registry PyTerms SpecPy SpecDamped SpecRounded SpecRounded2 ProofPy ProofPy7 ProofRounded ProofRounded4 ProofRounded8 ProofRounded9 ProofRounded10 ProofRounded18.
Import ListNotations.
Local Open Scope R_scope.

(** rescale(D): every element is multiplied by D to twice the declared power, up to one rounding and the errors of pow; the wavenumbers stay as they are, bit for bit (pow(D, 0) is 1 in C). *)
Theorem C113_rescale F rnd lm u e cl (c : columns RNum) n (D : R) : rounding F rnd -> 0 <= u < 1 -> relative u rnd -> accurate u e lm -> integers F -> complete cl c n ->
  exists c', rescale (N := QNum rnd lm) cl c D = (c', Done) /\ complete (N := RNum) cl c' n /\
    (forall x s i, assoc (scales cl) x = Some (Z.of_nat s) -> close u (e + 1) (entry c' x i) (D ^ (2 * s) * entry c x i)) /\
    (forall K, q_pow lm D 0 = 1 -> getitem c "k" = Ok K -> Forall F K -> getitem (N := RNum) c' "k" = Ok K).
Proof. exact (fun RD Hu HR HA HI => rescale_rounded F rnd lm u e RD Hu HR HA HI cl c n D). Qed.
Print Assumptions C113_rescale.
(** rescale(D) and rescale(E) are rescale(D E), twice as inaccurate: with E = 1 / D the object is back. *)
Theorem C113_compose F rnd lm u e cl (c : columns RNum) n (D E : R) : rounding F rnd -> 0 <= u < 1 -> relative u rnd -> accurate u e lm -> integers F -> complete cl c n ->
  exists c' c'', rescale (N := QNum rnd lm) cl c D = (c', Done) /\ rescale (N := QNum rnd lm) cl c' E = (c'', Done) /\ complete (N := RNum) cl c'' n /\
    forall x s i, assoc (scales cl) x = Some (Z.of_nat s) -> close u (2 * e + 2) (entry c'' x i) ((D * E) ^ (2 * s) * entry c x i).
Proof. exact (fun RD Hu HR HA HI => rescale_twice F rnd lm u e RD Hu HR HA HI cl c n D E). Qed.
Print Assumptions C113_compose.
(** But not bit for bit: a spectrum of 1, rescaled by 10 and by 1/10. *)
Theorem C113_undo_refuted lm : (forall x, lm_pow lm x 2%float = PrimFloat.mul x x) -> (forall x, lm_pow lm x 0%float = 1%float) ->
  exists c' c'' p, rescale (N := FNum lm) CLin [("k", [1%float]); ("pk", [1%float])]%string 10%float = (c', Done) /\ rescale (N := FNum lm) CLin c' (PrimFloat.div 1 10) = (c'', Done) /\
    getitem (N := FNum lm) c'' "k" = Ok [1%float] /\ getitem (N := FNum lm) c'' "pk" = Ok [p] /\ PrimFloat.eqb p 1 = false.
Proof.
  intros P2 P0. do 3 eexists. split; [reflexivity|]. split; [reflexivity|].
  change (fZ (2 * 0)) with 0%float. change (fZ (2 * 1)) with 2%float. cbn [getitem assoc String.eqb Ascii.eqb Bool.eqb map nmul npow nZ FNum].
  change (fZ 2) with 2%float. change (fZ 0) with 0%float. rewrite !P2, !P0. split; [reflexivity|]. split; reflexivity.
Qed.
Print Assumptions C113_undo_refuted.
(** The spectra which are one column *)
Theorem C113_named F rnd lm u e cl (c : columns RNum) n name (D : R) : rounding F rnd -> 0 <= u < 1 -> relative u rnd -> accurate u e lm -> integers F -> complete cl c n -> In name (named cl) ->
  exists v, accessor (N := QNum rnd lm) cl name c D = Ok v /\ length v = (n * match ncomp cl name with Some m => Z.to_nat m | None => 1 end)%nat /\
    forall i, close u (e + 1) (nth i v 0) (D ^ (2 * powers cl name) * entry c name i).
Proof. exact (fun RD Hu HR HA HI => named_rounded F rnd lm u e RD Hu HR HA HI cl c n name D). Qed.
Print Assumptions C113_named.
(** Reading with Dgrowth = E after rescale(D), and reading with Dgrowth = D E *)
Theorem C113_reads F rnd lm u e cl (c : columns RNum) n name (D E : R) : rounding F rnd -> 0 <= u < 1 -> relative u rnd -> accurate u e lm -> integers F -> complete cl c n -> In name (named cl) ->
  exists c' v w, rescale (N := QNum rnd lm) cl c D = (c', Done) /\ accessor (N := QNum rnd lm) cl name c' E = Ok v /\ accessor (N := QNum rnd lm) cl name c (D * E) = Ok w /\ length v = length w /\
    forall i, close u (3 * e + 3) (nth i v 0) (nth i w 0).
Proof. exact (fun RD Hu HR HA HI => reads_rounded F rnd lm u e RD Hu HR HA HI cl c n name D E). Qed.
Print Assumptions C113_reads.

Example C113_ex : exists c' v, rescale (N := QNum to_wide exact_libm) CBias (filled CBias 2 ramp) 3 = (c', Done) /\ close (/ 2 ^ 53) 1 (entry c' "pk_b22" 1) (81 * 2) /\
  accessor (N := QNum to_wide exact_libm) CBias "pk_b22" c' 1 = Ok v /\ close (/ 2 ^ 53) 2 (nth 1 v 0) (81 * 2).
Proof.
  destruct precision53 as [H1 H2]. pose proof u53 as H3. assert (Hu : 0 <= / 2 ^ 53 < 1) by lra. assert (HA : accurate (/ 2 ^ 53) 0 exact_libm) by (apply exact_accurate; lra).
  destruct (C113_rescale wide to_wide exact_libm (/ 2 ^ 53) 0 CBias (filled CBias 2 ramp) 2 3 H1 Hu H2 HA wide_integers (filled_complete CBias 2 ramp)) as (c' & E & C & B & _).
  destruct (C113_named wide to_wide exact_libm (/ 2 ^ 53) 0 CBias c' 2 "pk_b22" 1 H1 Hu H2 HA wide_integers C) as (v & Ev & _ & Bv); [cbn; tauto|].
  specialize (B "pk_b22"%string 2%nat 1%nat eq_refl). specialize (Bv 1%nat). rewrite filled_entry in B; [|cbn; tauto|cbn; lia]. replace (3 ^ (2 * 2) * ramp "pk_b22" 1) with (81 * 2) in B by (unfold ramp; cbn; lra).
  exists c', v. split; [exact E|]. split; [exact B|]. split; [exact Ev|]. rewrite pow1, Rmult_1_l in Bv. apply (close_trans _ Hu 1 1) with (entry c' "pk_b22" 1); assumption.
Qed.
