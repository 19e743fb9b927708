(** PropDamped: what the accessors of one spectrum return (C91).  Notions: SpecDamped.v.
    [accessor cl name c D] is o.<name>(Dgrowth=D), [pk_damped "pk_b22" c D given] is o.pk_b22_damp(Dgrowth=D, sigmad2=given). *)
From Coq Require Import Reals ZArith List String Bool Lra Lia.
From Verif Require Import Base Num Common Registry PyTerms Spec SpecPy SpecDamped ProofPy ProofPy7 ProofDamped.
Import ListNotations.
Local Open Scope R_scope.

(** ** C91: a named spectrum is the column of the object times D^2 per linear spectrum, and damping only ever reduces it *)
Theorem C91_named cl (c : columns RNum) n name (D : R) : complete cl c n -> In name (named cl) ->
  accessor (N := RNum) cl name c D =
    Ok (map (fun i => D ^ (2 * powers cl name) * entry c name i) (seq 0 (n * match ncomp cl name with Some m => Z.to_nat m | None => 1 end)%nat)).
Proof. exact (named_val cl c n name D). Qed.
Print Assumptions C91_named.
Theorem C91_sigma3sq (c : columns RNum) n (D : R) : complete CBias c n ->
  pk_sigma3sq (N := RNum) c D = Ok (map (fun i => D^4 * (entry c "pk_lin" i * entry c "sigma3sq" i)) (seq 0 n)).
Proof. exact (sigma3sq_val c n D). Qed.
Print Assumptions C91_sigma3sq.
Theorem C91_damped (c : columns RNum) n name (D : R) (given : option (list R)) : complete CBias c n -> In name ["pk_b22"; "pk_b2s2"; "pk_bs22"]%string -> sized given n ->
  pk_damped (N := RNum) name c D given = Ok (map (fun i => damped D (entry c "k" i) (dispersion c given i) (entry c name i)) (seq 0 n)).
Proof. exact (damped_val c n name D given). Qed.
Print Assumptions C91_damped.
(** A dispersion given by the caller is used in place of the column of the object, and nowhere else *)
Theorem C91_given_1loop (c : columns RNum) n (D : R) (s : list R) : complete C1Loop c n -> List.length s = n ->
  pk_1loop (N := RNum) c D (Some s) = Ok (map (fun i => regpt_1loop D (entry c "k" i) (nth i s 0) (entry c "gamma1a_1loop" i) (entry c "gamma1b_1loop" i)
                                     (entry c "pk_lin" i) (entry c "pk_gamma2_tree_tree" i)) (seq 0 n)).
Proof. exact (given_1loop c n D s). Qed.
Print Assumptions C91_given_1loop.
Theorem C91_given_2loop (c : columns RNum) n (D : R) (s : list R) : complete C2Loop c n -> List.length s = n ->
  pk_2loop (N := RNum) c D (Some s) = Ok (map (fun i => regpt_2loop D (entry c "k" i) (nth i s 0) (entry c "gamma1a_1loop" i) (entry c "gamma1a_2loop" i)
                                     (entry c "gamma1b_1loop" i) (entry c "gamma1b_2loop" i) (entry c "pk_lin" i) (entry c "pk_gamma2_tree_tree" i)
                                     (entry c "pk_gamma2_tree_1loop" i) (entry c "pk_gamma2_1loop_1loop" i) (entry c "pk_gamma3_tree" i)) (seq 0 n)).
Proof. exact (given_2loop c n D s). Qed.
Print Assumptions C91_given_2loop.
(** The damped spectrum has the sign of the undamped one, is never larger, and differs from it by the square of the damping exponent *)
Theorem C91_bounds (c : columns RNum) n name (D : R) (given : option (list R)) : complete CBias c n -> In name ["pk_b22"; "pk_b2s2"; "pk_bs22"]%string -> sized given n ->
  exists v u, pk_damped (N := RNum) name c D given = Ok v /\ accessor (N := RNum) CBias name c D = Ok u /\ List.length v = n /\ List.length u = n /\
    forall i, (i < n)%nat -> 0 <= dispersion c given i ->
      Rabs (nth i v 0) <= Rabs (nth i u 0) /\ 0 <= nth i v 0 * nth i u 0 /\
      Rabs (nth i v 0 - nth i u 0) <= 2 * (D^2 * (entry c "k" i)^2 * dispersion c given i / 2)^2 * Rabs (nth i u 0).
Proof. exact (damped_against c n name D given). Qed.
Print Assumptions C91_bounds.
(** A larger dispersion damps more *)
Theorem C91_decreasing (c : columns RNum) n name (D : R) (s s' : list R) : complete CBias c n -> In name ["pk_b22"; "pk_b2s2"; "pk_bs22"]%string ->
  List.length s = n -> List.length s' = n ->
  exists v v', pk_damped (N := RNum) name c D (Some s) = Ok v /\ pk_damped (N := RNum) name c D (Some s') = Ok v' /\
    forall i, (i < n)%nat -> 0 <= nth i s 0 <= nth i s' 0 -> Rabs (nth i v' 0) <= Rabs (nth i v 0).
Proof. exact (damped_more c n name D s s'). Qed.
Print Assumptions C91_decreasing.
Example C91_ex : complete CBias (filled CBias 2 ramp) 2 /\ sized (Some [1; 2]) 2 /\ sized None 2 /\ (forall i, (i < 2)%nat -> 0 <= dispersion (filled CBias 2 ramp) (Some [1; 2]) i)
  /\ In "pk"%string (named CA1) /\ complete CA1 (filled CA1 2 ramp) 2 /\ complete C1Loop (filled C1Loop 2 ramp) 2 /\ complete C2Loop (filled C2Loop 2 ramp) 2.
Proof.
  repeat (split; [first [apply filled_complete|reflexivity|exact I|cbn; tauto|intros [|[|i]] H; [cbn; lra|cbn; lra|exfalso; lia]]|]). apply filled_complete.
Qed.
