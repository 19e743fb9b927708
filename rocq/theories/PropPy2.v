(** PropPy2: C108, what Terms.zeros leaves.  [zeros cl c k] is o.zeros(k) for an object o of class [cl] with the columns [c]: the columns afterwards and how the call ended. *)
From Coq Require Import Reals ZArith List String Bool Lra Lia.
From Verif Require Import Base Num Common Registry PyTerms Spec SpecPy SpecDamped ProofPy ProofPy7 ProofDamped ProofPy8.
Import ListNotations.
Local Open Scope R_scope.

(** The classes of the terms of the library (all but the linear spectra): k is the array given, every other declared column holds zeros, one per wavenumber and component; other columns are kept. *)
Theorem C108_effect {N} cl (c : columns N) k : cl <> CLin -> cl <> CNoWiggle ->
  exists c', zeros cl c k = (c', Done) /\ getitem c' "k" = Ok k /\
    (forall x, In x (fields cl) -> x <> "k"%string -> getitem c' x = Ok (repeat (nZ N 0) (List.length k * match ncomp cl x with Some m => Z.to_nat m | None => 1 end))) /\
    (forall x, ~ In x (fields cl) -> getitem c' x = getitem c x) /\ (forall x, In x (map fst c') <-> In x (map fst c) \/ In x (fields cl)).
Proof. intros H1 H2. apply zeros_effect. destruct cl; try reflexivity; congruence. Qed.
Print Assumptions C108_effect.
(** With no other columns the object is complete: every method of C43-C46, C48, C49, C51, C91 applies. *)
Theorem C108_complete {N} cl (c c' : columns N) k : (forall x, In x (map fst c) -> In x (fields cl)) -> zeros cl c k = (c', Done) -> complete cl c' (List.length k).
Proof. exact (zeros_complete cl c c' k). Qed.
Print Assumptions C108_complete.
(** Whatever the object held before, the declared columns are the same. *)
Theorem C108_forgets {N} cl (c d c' d' : columns N) k : zeros cl c k = (c', Done) -> zeros cl d k = (d', Done) -> forall x, In x (fields cl) -> getitem c' x = getitem d' x.
Proof. exact (zeros_forgets cl c d c' d' k). Qed.
Print Assumptions C108_forgets.
(** Every spectrum read from it is zero, of the right length, for every growth factor. *)
Theorem C108_spectra cl (c c' : columns RNum) k : (forall x, In x (map fst c) -> In x (fields cl)) -> zeros (N := RNum) cl c k = (c', Done) ->
  (forall x D, In x (named cl) -> accessor (N := RNum) cl x c' D = Ok (repeat 0 (List.length k * match ncomp cl x with Some m => Z.to_nat m | None => 1 end))) /\
  (forall D, cl = C1Loop -> pk_1loop (N := RNum) c' D None = Ok (repeat 0 (List.length k))) /\ (forall D, cl = C2Loop -> pk_2loop (N := RNum) c' D None = Ok (repeat 0 (List.length k))) /\
  (forall D, cl = CBias -> pk_sigma3sq (N := RNum) c' D = Ok (repeat 0 (List.length k)) /\
     forall x, In x ["pk_b22"; "pk_b2s2"; "pk_bs22"]%string -> pk_damped (N := RNum) x c' D None = Ok (repeat 0 (List.length k))).
Proof. exact (zeros_spectra cl c c' k). Qed.
Print Assumptions C108_spectra.
(** SpectrumLin has no C_TYPE: its zeros raises AttributeError, having replaced k; the other columns keep their old length. *)
Theorem C108_lin_refuted {N} : ~ (forall (c : columns N) k, exists c', zeros CLin c k = (c', Done)) /\ forall (c : columns N) k, zeros CLin c k = (setitem c "k" k, Raised AttributeError).
Proof. split; [intros H; destruct (H [] []) as (c' & E); rewrite zeros_lin in E; discriminate E|exact zeros_lin]. Qed.
Print Assumptions C108_lin_refuted.
Example C108_ex : (forall x, In x (map fst [("pk", [3; 4]); ("k", [1])]%string) -> In x (fields CA1)) /\
  zeros (N := RNum) CA1 [("pk", [3; 4]); ("k", [1])]%string [7; 8] = ([("pk", repeat 0 10); ("k", [7; 8]); ("pk_lin", [0; 0]); ("sigmad2", [0; 0])]%string, Done).
Proof. split; [intros x [<-|[<-|[]]]; cbn; tauto|reflexivity]. Qed.
