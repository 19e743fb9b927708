(** PropDefined: claims C81 to C83.  ONum is real arithmetic in which a quotient by zero, the logarithm of a number which is not
    positive, the root of a negative number and a power outside its domain have no value (None), and in which what is computed
    from such a thing has none either (SpecDefined).  The theorems say that the code run with these numbers returns Some of what
    it returns with real numbers, for which such operations have arbitrary values: none of them is ever met. *)
From Coq Require Import ZArith List Reals Lra String.
From Verif Require Import Base Num Spec Common Kernels Gamma2 Registry Threads SpecThreads SpecDefined ProofGL ProofThreads8 ProofDefined2 ProofDefined3 ProofDefined4 ProofDefined6 ProofDefined11 ProofDefined12.
Import ListNotations.
Local Open Scope R_scope.

(** ** C81 *)
Theorem C81_kernel a k1 k2 k3 q : 0 < k1 -> 0 < k2 -> 0 < k3 -> 0 < q -> strict k1 k2 k3 ->
  exists v, kernel_gamma2 (N := ONum) a (Some k1) (Some k2) (Some k3) (Some q) = Ok (Some v) /\ kernel_gamma2 (N := RNum) a k1 k2 k3 q = Ok v.
Proof. exact (kernel_gamma2_val a k1 k2 k3 q). Qed.
Print Assumptions C81_kernel.
(** Next to q = k1, where the exact form divides by zero *)
Example C81_ex : strict 1 (3 / 2) 2 /\ exists v, kernel_gamma2 (N := ONum) DELTA (Some 1) (Some (3 / 2)) (Some 2) (Some 1) = Ok (Some v).
Proof. assert (H : strict 1 (3 / 2) 2) by (unfold strict; lra). split; [exact H|]. destruct (C81_kernel DELTA 1 (3 / 2) 2 1) as (v & E & _); try lra; [exact H|]. exists v. exact E. Qed.
(** For three wavenumbers on a line the kernel is 0 / 0, although its integral converges. *)
Theorem C81_collinear_refuted a : kernel_gamma2 (N := ONum) a (Some 1) (Some 4) (Some 3) (Some 2) = Ok None.
Proof. exact (collinear_none a). Qed.
Print Assumptions C81_collinear_refuted.

(** ** C82 *)
Theorem C82_lookup pk ks im : good_table pk -> (forall k, In k ks -> 0 < k) ->
  find_pk (N := ONum) (opk pk) (os ks) im = res_map os (find_pk (N := RNum) pk ks im).
Proof. exact (lookup_defined pk ks im). Qed.
Print Assumptions C82_lookup.
Theorem C82_variance pk ks uvcutoff : good_table pk ->
  calc_running_sigmad2 (N := ONum) (opk pk) (os ks) (Some uvcutoff) = res_map os (calc_running_sigmad2 (N := RNum) pk ks uvcutoff).
Proof. exact (variance_defined pk ks uvcutoff). Qed.
Print Assumptions C82_variance.
Example C82_ex : good_table pk_three /\ exists ps, find_pk (N := ONum) (opk pk_three) (os [1 / 2; 3 / 2; 5]) POLY = Ok (os ps).
Proof. exact (conj three_good lookup_three). Qed.
(** Outside a table of two points the logarithmic slope is 0 / 0. *)
Theorem C82_two_points_refuted k0 k1 p0 p1 k im : k < k0 < k1 \/ k0 < k1 < k ->
  find_pk (N := ONum) (opk (mk_table (N := RNum) [k0; k1] [p0; p1])) [Some k] im = Ok [None].
Proof. exact (two_none k0 k1 p0 p1 k im). Qed.
Print Assumptions C82_two_points_refuted.
(** A wavenumber zero has no value when the spectrum decreases there. *)
Theorem C82_zero_refuted im : find_pk (N := ONum) (opk (mk_table (N := RNum) [1; 2; 4] [4; 2; 1])) [Some 0] im = Ok [None].
Proof. exact (zero_none im). Qed.
Print Assumptions C82_zero_refuted.

(** ** C83 *)
Theorem C83_runs fuel st suave1 suave1' suave12 suave12' d pkl dt ptt ks ps ss vals :
  good_table pkl -> good_table dt -> good_table ptt -> (forall k, In k ks -> 0 < k) ->
  (forall x, In x (tables_of d) -> rule_ok (s_prec st x)) -> suave1_lifts suave1 suave1' -> suave12_lifts suave12 suave12' ->
  computes (N := RNum) fuel st suave1 suave12 d pkl dt ptt ks ps ss vals ->
  computes (N := ONum) fuel (oset st) suave1' suave12' d (opk pkl) (opk dt) (opk ptt) (os ks) (os ps) (os ss) (fun ik => os (vals ik)).
Proof. exact (runs_defined fuel st suave1 suave1' suave12 suave12' d pkl dt ptt ks ps ss vals). Qed.
Print Assumptions C83_runs.
Example C83_ex d : exists ps ss vals, computes (N := ONum) 2 (oset st_ex) osuave1_ex osuave12_ex d (opk pk_three) (opk pk_three) (opk pk_three) (os ks_ex) (os ps) (os ss) (fun ik => os (vals ik)).
Proof. exact (runs_three d). Qed.
