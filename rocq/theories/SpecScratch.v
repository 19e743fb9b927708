(** SpecScratch: tables equal but for the columns each call overwrites. *)
From Coq Require Import ZArith List.
From Verif Require Import Base Num Common Kernels Gamma2 Integrals SpecLoops.

(** All columns have the announced length. *)
Definition q_ok {N} (g : glq N) : Prop :=
  (0 <= gq_nq g < 2 ^ 62)%Z /\ zlen (gq_q g) = gq_nq g /\ zlen (gq_x g) = gq_nq g /\ zlen (gq_w g) = gq_nq g /\ zlen (gq_pk g) = gq_nq g.
(** The same nodes, weights and power spectrum; k and x = q/k may differ. *)
Definition same_q {N} (g g' : glq N) : Prop :=
  q_ok g' /\ gq_nq g' = gq_nq g /\ gq_q g' = gq_q g /\ gq_w g' = gq_w g /\ gq_pk g' = gq_pk g.
(** Same outcome and tables equal but for those columns.  [same_rule] (SpecLoops) is the same for the angles. *)
Definition same_result {N A} (r r' : res (A * glq N * glmu N)) : Prop :=
  match r, r' with
  | Ok (v, g, m), Ok (v', g', m') => v = v' /\ same_q g g' /\ same_rule m m'
  | Err e, Err e' => e = e'
  | _, _ => False
  end.
(** A successful outcome which leaves the tables as they were but for those columns. *)
Definition ends_with {N A} (len : A -> Prop) (g : glq N) (m : glmu N) (r : res (A * glq N * glmu N)) : Prop :=
  exists v g' m', r = Ok (v, g', m') /\ len v /\ same_q g g' /\ same_rule m m'.
(** One call on a thread's tables, and a history of successful calls among [calls]. *)
Definition tcall (N : Num) (A : Type) : Type := glq N -> glmu N -> res (A * glq N * glmu N).
Inductive history {N A} (calls : tcall N A -> Prop) : glq N -> glmu N -> glq N -> glmu N -> Prop :=
| hist_nil g m : history calls g m g m
| hist_call f g m v g1 m1 g2 m2 : calls f -> f g m = Ok (v, g1, m1) -> history calls g1 m1 g2 m2 -> history calls g m g2 m2.
(** The calls each file makes on its own tables; the linear spectrum, the interpolation and the flags may change between calls. *)
Definition gamma2_calls {N} (f : tcall N (list (T N))) : Prop :=
  (exists pkl im a b k, f = fun g m => calc_pk_gamma2_tree pkl im g m a b k) \/
  (exists pkl im gd gt a b k, f = fun g m => calc_pk_gamma2_1loop pkl im g m gd gt a b k).
Definition bias_calls {N} (f : tcall N (T N)) : Prop :=
  exists pkl im a k kernel half, f = fun g m => calc_pk_bias_1loop pkl im g m a k kernel half.
Definition A_1loop_calls {N} (f : tcall N (list (T N))) : Prop :=
  exists pkl imq im k, f = fun g m => calc_pk_A_1loop pkl imq im g m k.
Definition B_calls {N} (f : tcall N (list (T N))) : Prop :=
  exists pdt ptt im k, f = fun g m => calc_pk_B pdt ptt im g m k.
Definition A_2loop_I_calls {N} (f : tcall N (list (T N))) : Prop :=
  exists pkl im uv g1 gd gt k, q_ok g1 /\ f = fun g m => calc_pk_A_2loop_I pkl im uv g m g1 gd gt k.
(** Histories of gamma1_1loop (one table, [two] = false) or gamma1_2loop ([two] = true). *)
Inductive gamma1_history {N} (two : bool) : glq N -> glq N -> Prop :=
| g1_nil g : gamma1_history two g g
| g1_call g a k v g1 g2 : (if two then gamma1_2loop g a k else gamma1_1loop g a k) = Ok (v, g1) -> gamma1_history two g1 g2 -> gamma1_history two g g2.
(** A table of at least two points. *)
Definition lin_table {N} (p : Pk N) : Prop := length (pk_p p) = length (pk_k p) /\ (2 <= zlen (pk_k p) < 2 ^ 62)%Z /\ pk_n p = zlen (pk_k p).
(** The bispectrum: value and table of gamma1_1loop.c. *)
Definition same_bisp {N A} (r r' : res (A * glq N)) : Prop :=
  match r, r' with Ok (v, g), Ok (v', g') => v = v' /\ same_q g g' | Err e, Err e' => e = e' | _, _ => False end.
