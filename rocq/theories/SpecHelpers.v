(** SpecHelpers: the elements of a numpy array, to state what the helper functions compute. *)
From Coq Require Import Reals List ZArith.
From Verif Require Import Base Num PyHelpers.
Import ListNotations.
Local Open Scope Z_scope.

(** The array lies in its buffer. *)
Definition inside {N} (v : view N) : Prop := 0 <= v_len v /\ forall i, 0 <= i < v_len v -> 0 <= v_off v + i * v_step v < zlen (v_data v).
(** The elements of the array, in order. *)
Definition items (v : view RNum) : list R := map (fun i => nth (Z.to_nat (v_off v + Z.of_nat i * v_step v)) (v_data v) 0%R) (seq 0 (Z.to_nat (v_len v))).
(** An array of n cells of its own, and the same with its order reversed: numpy's a[::-1] *)
Definition fresh {N} (l : list (T N)) : view N := mkView l 0 1 (zlen l) true.
Definition reversed {N} (l : list (T N)) : view N := mkView l (zlen l - 1) (-1) (zlen l) true.
