(** SpecPT: vocabulary of standard perturbation theory, used to state what the second and third
    order kernels are.  Nothing here refers to the model of the code. *)
From Coq Require Import Reals List.
From Verif Require Import Spec.
Import ListNotations.
Local Open Scope R_scope.

(** Vectors of R^3. *)
Definition vector := (R * R * R)%type.
Definition vplus (p q : vector) : vector :=
  let '(p0, p1, p2) := p in let '(q0, q1, q2) := q in (p0 + q0, p1 + q1, p2 + q2).
Definition vscal (s : R) (p : vector) : vector := let '(p0, p1, p2) := p in (s * p0, s * p1, s * p2).
Definition vopp (p : vector) : vector := let '(p0, p1, p2) := p in (- p0, - p1, - p2).
Definition vzero : vector := (0, 0, 0).
Definition dot (p q : vector) : R :=
  let '(p0, p1, p2) := p in let '(q0, q1, q2) := q in p0 * q0 + p1 * q1 + p2 * q2.
Definition norm (p : vector) : R := sqrt (dot p p).
Definition vsum (l : list vector) : vector := fold_right vplus vzero l.

(** A rotation or reflection: additive and preserving scalar products. *)
Definition isometry (f : vector -> vector) : Prop :=
  (forall p q, f (vplus p q) = vplus (f p) (f q)) /\ forall p q, dot (f p) (f q) = dot p q.

(** Mode coupling functions alpha and beta of the continuity and Euler equations. *)
Definition mc_alpha (k1 k2 : vector) : R := dot (vplus k1 k2) k1 / dot k1 k1.
Definition mc_beta (k1 k2 : vector) : R :=
  dot (vplus k1 k2) (vplus k1 k2) * dot k1 k2 / (2 * dot k1 k1 * dot k2 k2).

(** The (unsymmetrised) kernels F_n ([theta = false]) and G_n ([theta = true]) of standard
    perturbation theory by their usual recursion, for the list of the n momenta:
    F_n = sum_{m=1}^{n-1} G_m / ((2n+3)(n-1)) ((2n+1) alpha F_{n-m} + 2 beta G_{n-m}),
    G_n = sum_{m=1}^{n-1} G_m / ((2n+3)(n-1)) (3 alpha F_{n-m} + 2n beta G_{n-m}). *)
Fixpoint pt_kernel (fuel : nat) (theta : bool) (l : list vector) : R :=
  match fuel with
  | O => 0
  | S f =>
    let n := length l in
    if Nat.eqb n 1 then 1
    else rsum (n - 1) (fun j =>
      let m := S j in
      let l1 := firstn m l in
      let l2 := skipn m l in
      let a := mc_alpha (vsum l1) (vsum l2) in
      let b := mc_beta (vsum l1) (vsum l2) in
      pt_kernel f true l1 / ((2 * INR n + 3) * (INR n - 1))
      * (if theta then 3 * a * pt_kernel f false l2 + 2 * INR n * b * pt_kernel f true l2
         else (2 * INR n + 1) * a * pt_kernel f false l2 + 2 * b * pt_kernel f true l2))
  end.
Definition pt_kernel_n (theta : bool) (l : list vector) : R := pt_kernel (length l) theta l.

(** Symmetrised second and third order kernels: average over the orderings of the momenta. *)
Definition pt2 (theta : bool) (p q : vector) : R :=
  (pt_kernel_n theta [p; q] + pt_kernel_n theta [q; p]) / 2.
Definition pt3 (theta : bool) (p q r : vector) : R :=
  (pt_kernel_n theta [p; q; r] + pt_kernel_n theta [p; r; q] + pt_kernel_n theta [q; p; r]
   + pt_kernel_n theta [q; r; p] + pt_kernel_n theta [r; p; q] + pt_kernel_n theta [r; q; p]) / 6.
