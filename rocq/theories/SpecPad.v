(** SpecPad: an array extended on both sides. *)
From Coq Require Import Reals List.
From Verif Require Import Base Num Common Spec.
Import ListNotations.
Local Open Scope R_scope.

(** The members of [k] below the first and above the last of [kk], in their order *)
Definition below (kk k : list R) : list R := filter (fun v => Rltb v (nth 0 kk 0)) k.
Definition above (kk k : list R) : list R := filter (fun v => Rltb (nth (List.length kk - 1) kk 0) v) k.
Definition extended (kk k : list R) : list R := below kk k ++ kk ++ above kk k.
(** The members of the second list whose partner in the first is below or above [kk] *)
Definition below_with (kk k w : list R) : list R := map snd (filter (fun p => Rltb (fst p) (nth 0 kk 0)) (combine k w)).
Definition above_with (kk k w : list R) : list R := map snd (filter (fun p => Rltb (nth (List.length kk - 1) kk 0) (fst p)) (combine k w)).
(** find_pk_lin([k]) and calc_running_sigmad2([k], uvcutoff=uv) on the table (K, P) return [p] and [v] *)
Definition looks_up K P (k p : R) : Prop := find_pk (N := RNum) (mk_table (N := RNum) K P) [k] POLY = Ok [p].
Definition disperses K P (uv k v : R) : Prop := calc_running_sigmad2 (N := RNum) (mk_table (N := RNum) K P) [k] uv = Ok [v].
(** Linear theory, damped: what remains of the regularised spectra without loop corrections *)
Definition damped_1loop (D k s P : R) : R := let f := D^2 * k^2 * s / 2 in D^2 * (exp (- f) * (1 + f))^2 * P.
Definition damped_2loop (D k s P : R) : R := let f := D^2 * k^2 * s / 2 in D^2 * (exp (- f) * (1 + f + f^2 / 2))^2 * P.
