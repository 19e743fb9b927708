(** PropRounded: what rounding can do to the lookups and to the running variance (C76 to C78).  Notions: SpecRounded.v.
    [QNum rnd lm]: every operation is rounded by [rnd], without overflow; [FNum lm]: IEEE doubles; [lm]: any C library. *)
From Coq Require Import ZArith Lia List Bool Reals Lra Floats.
From Coquelicot Require Import Coquelicot.
From Verif Require Import Base Num BaseFacts Order Spec Common SpecRounded
  ProofRounded ProofRounded2 ProofRounded3 ProofRounded4 ProofRounded5 ProofRounded6 ProofRounded7 ProofRounded8.
From Flocq Require Import Core.
Import ListNotations.
Local Open Scope R_scope.

(** * C76: the tabulated spectrum is reproduced exactly *)
(** Doubles are such an arithmetic, *)
Theorem C76_rounding : rounding double to_double.
Proof. exact double_rounding. Qed.
Print Assumptions C76_rounding.
(** which is what the operations on doubles do when the result is finite. *)
Theorem C76_operations (x y : PrimFloat.float) : PrimFloat.is_finite x = true -> PrimFloat.is_finite y = true ->
  double (val x) /\ PrimFloat.ltb x y = Rltb (val x) (val y) /\
  (PrimFloat.is_finite (x + y)%float = true -> val (x + y)%float = to_double (val x + val y)) /\
  (PrimFloat.is_finite (x - y)%float = true -> val (x - y)%float = to_double (val x - val y)) /\
  (PrimFloat.is_finite (x * y)%float = true -> val (x * y)%float = to_double (val x * val y)) /\
  (PrimFloat.is_finite (x / y)%float = true -> val y <> 0 /\ val (x / y)%float = to_double (val x / val y)) /\
  val (PrimFloat.sqrt x) = to_double (R_sqrt.sqrt (val x)).
Proof. exact (fun Hx Hy => conj (op_double x) (conj (op_lt x y Hx Hy) (conj (op_add x y Hx Hy) (conj (op_sub x y Hx Hy) (conj (op_mul x y) (conj (op_div x y Hx Hy) (op_sqrt x))))))). Qed.
Print Assumptions C76_operations.
(** With any rounding: one tabulated wavenumber, every mode of interpolation ('lin': all but the last, which is C08), *)
Theorem C76_tabulated F rnd lm (K P : list R) im i : rounding F rnd -> length P = length K -> (zlen K < 2 ^ 62)%Z -> increasing K -> Forall F K -> Forall F P ->
  (i < length K)%nat -> (im = LIN -> (S i < length K)%nat) ->
  find_pk (N := QNum rnd lm) (mk_table (N := QNum rnd lm) K P) [at_ K i] im = Ok [at_ P i].
Proof. exact (fun RD HL HB HI FK FP => node_at F rnd lm RD K P HL HB HI FK FP im i). Qed.
Print Assumptions C76_tabulated.
(** any ascending choice of them, and the whole table. *)
Theorem C76_selection F rnd lm (K P : list R) im (sel : list nat) : rounding F rnd -> length P = length K -> (zlen K < 2 ^ 62)%Z -> increasing K -> Forall F K -> Forall F P ->
  sel <> [] -> Forall (fun i => (i < length K)%nat /\ (im = LIN -> (S i < length K)%nat)) sel -> ascending (map (at_ K) sel) ->
  find_pk (N := QNum rnd lm) (mk_table (N := QNum rnd lm) K P) (map (at_ K) sel) im = Ok (map (at_ P) sel).
Proof. exact (fun RD HL HB HI FK FP => nodes_all F rnd lm RD K P HL HB HI FK FP im sel). Qed.
Print Assumptions C76_selection.
Theorem C76_table F rnd lm (K P : list R) : rounding F rnd -> length P = length K -> (zlen K < 2 ^ 62)%Z -> increasing K -> Forall F K -> Forall F P -> K <> [] ->
  find_pk (N := QNum rnd lm) (mk_table (N := QNum rnd lm) K P) K POLY = Ok P.
Proof. exact (fun RD HL HB HI FK FP => table_all F rnd lm RD K P HL HB HI FK FP). Qed.
Print Assumptions C76_table.
(** In doubles, whatever overflows: the tabulated value or NaN, for finite wavenumbers and any values. *)
Theorem C76_doubles lm (K P : list PrimFloat.float) im i : length P = length K -> (zlen K < 2 ^ 62)%Z -> (forall k, In k K -> PrimFloat.is_finite k = true) ->
  (forall i j, (i < j < length K)%nat -> PrimFloat.ltb (nth i K PrimFloat.zero) (nth j K PrimFloat.zero) = true) ->
  (i < length K)%nat -> (im = LIN -> (S i < length K)%nat) ->
  exists r, find_pk (N := FNum lm) (mk_table (N := FNum lm) K P) [nth i K PrimFloat.zero] im = Ok [r] /\ same_nan (nth i P PrimFloat.zero) r.
Proof. exact (fun HL HB FK HI => node_nth lm K P HL HB FK HI im i). Qed.
Print Assumptions C76_doubles.
Theorem C76_doubles_table lm (K P : list PrimFloat.float) : length P = length K -> (zlen K < 2 ^ 62)%Z -> (forall k, In k K -> PrimFloat.is_finite k = true) ->
  (forall i j, (i < j < length K)%nat -> PrimFloat.ltb (nth i K PrimFloat.zero) (nth j K PrimFloat.zero) = true) -> K <> [] ->
  exists out, find_pk (N := FNum lm) (mk_table (N := FNum lm) K P) K POLY = Ok out /\ Forall2 same_nan P out.
Proof. exact (fun HL HB FK HI => table_allF lm K P HL HB FK HI). Qed.
Print Assumptions C76_doubles_table.
(** NaN does occur: two wavenumbers next to each other whose slope overflows. *)
Theorem C76_overflow_refuted lm : exists r,
  find_pk (N := FNum lm) (mk_table (N := FNum lm) [1; 0x1.0000000000001p0; 2]%float [1; 1e300; 1]%float) [1%float] POLY = Ok [r] /\ PrimFloat.is_nan r = true.
Proof. exact (ex_intro _ nan (conj eq_refl eq_refl)). Qed.
Print Assumptions C76_overflow_refuted.
Lemma double_small z : (Z.abs z < 2 ^ 53)%Z -> double (IZR z).
Proof.
  intros H. apply generic_format_FLT. exists (Float radix2 z 0); cbn [Fnum Fexp]; [|exact H|lia]. unfold F2R. cbn [Fnum Fexp bpow]. ring.
Qed.
Lemma inc_ex : increasing [1; 2; 4].
Proof. intros [|[|[|i]]] [|[|[|j]]] H; cbn in *; lra || lia. Qed.
Example C76_ex lm : find_pk (N := QNum to_double lm) (mk_table (N := QNum to_double lm) [1; 2; 4] [3; 5; 1]) [1; 2; 4] POLY = Ok [3; 5; 1].
Proof.
  apply (C76_table double); try reflexivity; try discriminate; try exact C76_rounding; try exact inc_ex.
  - repeat constructor; apply double_small; reflexivity.
  - repeat constructor; apply double_small; reflexivity.
Qed.
Example C76_doubles_ex lm : exists out, find_pk (N := FNum lm) (mk_table (N := FNum lm) [0.1; 0.2; 0.7]%float [3; 5; 0.3]%float) [0.1; 0.2; 0.7]%float POLY = Ok out /\
  Forall2 same_nan [3; 5; 0.3]%float out.
Proof.
  apply C76_doubles_table; try reflexivity; try discriminate.
  - intros k [<-|[<-|[<-|[]]]]; reflexivity.
  - intros [|[|[|i]]] [|[|[|j]]] H; cbn in *; try lia; reflexivity.
Qed.

(** * C77: rounding makes neither a lookup nor a variance negative *)
(** Linear interpolation between two values which are not negative is not negative; *)
Theorem C77_lin_nonneg F rnd lm (x x0 x1 p0 p1 : R) : rounding F rnd -> F p0 -> x0 <= x <= x1 -> 0 <= p0 -> 0 <= p1 ->
  0 <= interpol_lin (N := QNum rnd lm) x x0 x1 p0 p1.
Proof. exact (fun RD => lin_nonnegQ F rnd lm RD x x0 x1 p0 p1). Qed.
Print Assumptions C77_lin_nonneg.
(** it rises with x where the values rise, falls where they fall, starting from the left value, *)
Theorem C77_lin_order F rnd lm (x x' x0 x1 p0 p1 : R) : rounding F rnd -> F p0 -> x0 <= x <= x' -> x' <= x1 ->
  (p0 <= p1 -> p0 <= interpol_lin (N := QNum rnd lm) x x0 x1 p0 p1 <= interpol_lin (N := QNum rnd lm) x' x0 x1 p0 p1) /\
  (p1 <= p0 -> interpol_lin (N := QNum rnd lm) x' x0 x1 p0 p1 <= interpol_lin (N := QNum rnd lm) x x0 x1 p0 p1 <= p0).
Proof. exact (lin_order F rnd lm x x' x0 x1 p0 p1). Qed.
Print Assumptions C77_lin_order.
(** but it can pass the right value: by one unit in the last place, here. *)
Theorem C77_lin_between_refuted lm :
  find_pk (N := FNum lm) (mk_table (N := FNum lm) [0x1p-53; 0x1.0000000000003p0; 2]%float [0x1.8p-52; 0x1.0000000000003p0; 1]%float) [0x1.0000000000002p0%float] LIN
  = Ok [0x1.0000000000004p0%float].
Proof. exact eq_refl. Qed.
Print Assumptions C77_lin_between_refuted.
(** Lookups with 'lin' (extrapolation included) in a table without negative values, if pow is not negative; *)
Theorem C77_lookup F rnd lm (K P ks ps : list R) : rounding F rnd -> length P = length K -> (1 <= zlen K < 2 ^ 62)%Z -> increasing K -> Forall F P -> Forall (fun p => 0 <= p) P ->
  Forall (fun k => 0 < k) K -> (forall x y, 0 <= x -> 0 <= q_pow lm x y) -> ascending ks -> Forall (fun k => 0 <= k) ks ->
  find_pk (N := QNum rnd lm) (mk_table (N := QNum rnd lm) K P) ks LIN = Ok ps -> Forall (fun v => 0 <= v) ps.
Proof. exact (fun RD HL HB HI FP HP HK Hpow => find_sign F rnd lm RD K P HL HB HI FP HP HK Hpow ks ps). Qed.
Print Assumptions C77_lookup.
(** the running variance. *)
Theorem C77_variance F rnd lm (K P ks : list R) uv : rounding F rnd -> length P = length K -> (1 <= zlen K < 2 ^ 62)%Z -> increasing K -> Forall F P -> Forall (fun p => 0 <= p) P ->
  ascending ks -> 0 <= uv ->
  exists vs, calc_running_sigmad2 (N := QNum rnd lm) (mk_table (N := QNum rnd lm) K P) ks uv = Ok vs /\ length vs = length ks /\ Forall (fun v => 0 <= v) vs.
Proof. exact (fun RD HL HB HI FP HP => variance_nonneg F rnd lm RD K P HL HB HI FP HP ks uv). Qed.
Print Assumptions C77_variance.
(** In exact arithmetic it rises with the cutoff (C13); in doubles it can fall. *)
Theorem C77_variance_order_refuted lm :
  PrimFloat.ltb 0x1.8404f8941fddap+2 0x1.8404f8941fddbp+2 = true /\
  exists v1 v2, calc_running_sigmad2 (N := FNum lm) (mk_table (N := FNum lm) [2; 7]%float [69; 3]%float) [0x1.8404f8941fddap+2; 0x1.8404f8941fddbp+2]%float 1%float = Ok [v1; v2] /\
    PrimFloat.ltb v2 v1 = true.
Proof. exact (conj eq_refl (ex_intro _ _ (ex_intro _ _ (conj eq_refl eq_refl)))). Qed.
Print Assumptions C77_variance_order_refuted.
Example C77_ex lm : exists vs, calc_running_sigmad2 (N := QNum to_double lm) (mk_table (N := QNum to_double lm) [1; 2; 4] [3; 5; 1]) [2; 3; 10] (1 / 2) = Ok vs /\ length vs = 3%nat /\ Forall (fun v => 0 <= v) vs.
Proof.
  apply (C77_variance double); try exact C76_rounding; try exact inc_ex; try reflexivity; try (split; reflexivity || discriminate).
  - repeat constructor; apply double_small; reflexivity.
  - repeat constructor; lra.
  - intros [|[|[|i]]] [|[|[|j]]] H; cbn in *; lra || lia.
  - lra.
Qed.

(** * C78: bounds on the rounding errors *)
(** [relative u rnd]: one operation has a relative error of at most u; 53 bits without bound on the exponent: u = 2^-53. *)
Theorem C78_precision : rounding wide to_wide /\ relative (/ 2 ^ 53) to_wide.
Proof. exact precision53. Qed.
Print Assumptions C78_precision.
(** [power x n] has the error of n operations; *)
Theorem C78_power F rnd lm u (x : R) (n : nat) : rounding F rnd -> 0 <= u < 1 -> relative u rnd ->
  close u n (power (N := QNum rnd lm) x (Z.of_nat n)) (x ^ n).
Proof. exact (power_close F rnd lm u x n). Qed.
Print Assumptions C78_power.
(** the sum of the linear interpolation and of the left value that of 7; *)
Theorem C78_lin F rnd lm u (x x0 x1 p0 p1 : R) : rounding F rnd -> 0 <= u <= 1 / 100 -> relative u rnd -> F p0 -> x0 <= x <= x1 -> x0 < x1 -> 0 <= p0 -> 0 <= p1 ->
  close u 7 (interpol_lin (N := QNum rnd lm) x x0 x1 p0 p1 + p0) (p0 + (p1 - p0) * (x - x0) / (x1 - x0) + p0).
Proof. exact (lin_error F rnd lm u x x0 x1 p0 p1). Qed.
Print Assumptions C78_lin.
(** the running variance that of n + 17 for a table of n points: relative to the integral up to the cutoff as rounded. *)
Theorem C78_variance F rnd lm u (K P ks : list R) uv : rounding F rnd -> 0 <= u <= 1 / 100 -> relative u rnd ->
  length P = length K -> (1 <= zlen K < 2 ^ 62)%Z -> increasing K -> Forall F P -> Forall (fun p => 0 <= p) P -> ascending ks -> 0 <= uv ->
  exists vs, calc_running_sigmad2 (N := QNum rnd lm) (mk_table (N := QNum rnd lm) K P) ks uv = Ok vs /\
    Forall2 (fun k v => exists e, variance_of K P (rnd (k * uv)) e /\ close u (length K + 17) v e) ks vs.
Proof. exact (fun RD => variance_all F rnd lm RD u K P ks uv). Qed.
Print Assumptions C78_variance.
(** So the error relative to the result is less than 1e-12 for tables up to 5000 points. *)
Theorem C78_figure (n : nat) a b : (n <= 5017)%nat -> 0 <= b -> close (/ 2 ^ 53) n a b -> Rabs (a - b) <= 1 / 10 ^ 12 * b.
Proof. exact (close_figure n a b). Qed.
Print Assumptions C78_figure.
Example C78_ex lm : exists vs, calc_running_sigmad2 (N := QNum to_wide lm) (mk_table (N := QNum to_wide lm) [1; 2; 4] [3; 5; 1]) [2; 3; 10] (1 / 2) = Ok vs /\
    Forall2 (fun k v => exists e, variance_of [1; 2; 4] [3; 5; 1] (to_wide (k * (1 / 2))) e /\ close (/ 2 ^ 53) 20 v e) [2; 3; 10] vs.
Proof.
  destruct C78_precision as [H1 H2].
  apply (C78_variance wide to_wide lm (/ 2 ^ 53) [1; 2; 4] [3; 5; 1]); try assumption; try exact inc_ex; try reflexivity; try (split; reflexivity || discriminate).
  - split; [apply Rlt_le, Rinv_0_lt_compat, pow_lt; lra|]. replace (1 / 100) with (/ 100) by lra. apply Rinv_le; [lra|]. rewrite <- (Rmult_1_r 100). simpl. lra.
  - repeat constructor; apply wide_small; reflexivity.
  - repeat constructor; lra.
  - intros [|[|[|i]]] [|[|[|j]]] H; cbn in *; lra || lia.
  - lra.
Qed.
