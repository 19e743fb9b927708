(** SpecPy: what the Python layer is expected to compute, in real arithmetic and without reference to the code. *)
From Coq Require Import Reals ZArith List String.
From Verif Require Import Base Num Common Registry PyTerms Spec.
Import ListNotations.
Local Open Scope R_scope.

(** The object of class [cl] holds its declared columns and only them, one entry per wavenumber and component. *)
Definition complete {N} (cl : pyclass) (c : columns N) (n : nat) : Prop :=
  (forall x, In x (map fst c) <-> In x (fields cl)) /\
  forall x v, getitem c x = Ok v -> List.length v = (n * match ncomp cl x with Some m => Z.to_nat m | None => 1 end)%nat.
(** The objects all of whose columns have one dimension *)
Definition one_dim (cl : pyclass) : bool := match cl with CA1 | CA2 | CB1 | CB2 => false | _ => true end.
(** entry [i] of the column [x] *)
Definition entry (c : columns RNum) (x : string) (i : nat) : R := match getitem c x with Ok v => nth i v 0 | Err _ => 0 end.

(** What a user reads from an object; every one takes the growth factor. *)
Inductive observation := O_named (name : string) | O_spectrum | O_damped (name : string) | O_sigma3sq.
Definition read_off {N} (cl : pyclass) (o : observation) (c : columns N) (D : T N) : res (list (T N)) :=
  match o, cl with
  | O_named x, _ => accessor cl x c D
  | O_spectrum, C1Loop => pk_1loop c D None
  | O_spectrum, C2Loop => pk_2loop c D None
  | O_damped x, CBias => if existsb (String.eqb x) ["pk_b22"; "pk_b2s2"; "pk_bs22"]%string then pk_damped x c D None else Err (PyExc AttributeError)
  | O_sigma3sq, CBias => pk_sigma3sq c D
  | _, _ => Err (PyExc AttributeError)
  end.

(** Eqs. (23), (24) of Taruya et al. 2012, with the growth factor D: D^2 per linear spectrum *)
Definition damping (D k s : R) : R := D^2 * k^2 * s / 2.
Definition propagator_1loop (D f g : R) : R := exp (- f) * (1 + f + D^2 * g).
Definition propagator_2loop (D f g g2 : R) : R := exp (- f) * (1 + f + f^2 / 2 + D^2 * g * (1 + f) + D^4 * g2).
Definition regpt_1loop (D k s ga gb P p22 : R) : R :=
  let f := damping D k s in
  D^2 * P * propagator_1loop D f ga * propagator_1loop D f gb + D^4 * exp (- (2 * f)) * p22.
Definition regpt_2loop (D k s ga ga2 gb gb2 P tree2 tree1 loop2 gamma3 : R) : R :=
  let f := damping D k s in
  D^2 * P * propagator_2loop D f ga ga2 * propagator_2loop D f gb gb2
  + D^4 * exp (- (2 * f)) * (tree2 * (1 + f)^2 + D^2 * tree1 * (1 + f) + D^4 * loop2)
  + D^6 * exp (- (2 * f)) * gamma3.
(** Standard perturbation theory to one and two loops *)
Definition spt_1loop (D P ga gb p22 : R) : R := D^2 * P + D^4 * (P * (ga + gb) + p22).
Definition spt_2loop (D P ga ga2 gb gb2 tree2 tree1 gamma3 : R) : R :=
  spt_1loop D P ga gb tree2 + D^6 * (P * (ga2 + gb2 + ga * gb) + tree1 + gamma3).

(** Powers of mu^2 and of beta of the components of A and of B (Taruya et al. 2010, eqs. A3, A4) *)
Definition A_powers : list (nat * nat) := [(1, 1); (1, 2); (2, 2); (2, 3); (3, 3)]%nat.
Definition B_powers : list (nat * nat) := [(1, 2); (1, 3); (1, 4); (2, 2); (2, 3); (2, 4); (3, 3); (3, 4); (4, 4)]%nat.
Definition weight (mu2 beta : R) (p : nat * nat) : R := mu2 ^ fst p * beta ^ snd p.
(** the sum over the components of their weight times a value *)
Definition combine_components (powers : list (nat * nat)) (mu2 beta : R) (value : nat -> R) : R :=
  rsum (List.length powers) (fun j => weight mu2 beta (nth j powers (0, 0)%nat) * value j).

(** The value of the piecewise linear function through the points (x, y), and given constants outside *)
Definition interpolates (x y : nat -> R) (n : nat) (left right : R) (f : R -> R) : Prop :=
  (forall t, t < x O -> f t = left) /\ (forall t, x (pred n) < t -> f t = right) /\
  (forall i, (i < n)%nat -> f (x i) = y i) /\
  (forall i t, (S i < n)%nat -> x i <= t <= x (S i) -> f t = y i + (y (S i) - y i) * ((t - x i) / (x (S i) - x i))).

(** The window of Bias1Loop.shotnoise *)
Definition window (kmin kmax k : R) : R := exp (- (Rmax (k / kmax) 1 - 1)^2) * exp (- (Rmax (kmin / k) 1 - 1)^2).

(** The Fourier transform of a sphere of radius 1, and the variance of the field smoothed over spheres of radius r,
    integrated by the trapezoidal rule *)
Definition tophat (x : R) : R := 3 * (sin x - x * cos x) / x^3.
Definition variance (k p : nat -> R) (n : nat) (r : R) : R :=
  trapz (map k (seq 0 n)) (map (fun i => p i * (tophat (k i * r) * k i)^2) (seq 0 n)) / (2 * PI^2).
