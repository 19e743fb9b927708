(** SpecDefined: real arithmetic in which an operation outside its domain has no value. *)
From Coq Require Import ZArith List Reals.
From Verif Require Import Base Num Spec Common Registry ProofGL.
Local Open Scope R_scope.

Definition lift1 (f : R -> R) (x : option R) : option R := match x with Some a => Some (f a) | None => None end.
Definition lift2 (f : R -> R -> R) (x y : option R) : option R := match x, y with Some a, Some b => Some (f a b) | _, _ => None end.
Definition test (f : R -> R -> bool) (x y : option R) : bool := match x, y with Some a, Some b => f a b | _, _ => false end.
(** a / b: b <> 0 *)
Definition odiv (x y : option R) : option R := match x, y with Some a, Some b => if Req_EM_T b 0 then None else Some (a / b) | _, _ => None end.
(** sqrt a: a >= 0 *)
Definition osqrt (x : option R) : option R := match x with Some a => if Rle_dec 0 a then Some (sqrt a) else None | None => None end.
(** log a: a > 0 *)
Definition olog (x : option R) : option R := match x with Some a => if Rlt_dec 0 a then Some (ln a) else None | None => None end.
(** pow(a, b): a > 0, or a = 0 and b >= 0, or a < 0 and b an integer *)
Definition opow (x y : option R) : option R :=
  match x, y with
  | Some a, Some b =>
    if Rlt_dec 0 a then Some (Rpow a b)
    else if Req_EM_T a 0 then if Rle_dec 0 b then Some (Rpow a b) else None
    else if Req_EM_T b (IZR (Int_part b)) then Some (Rpow a b) else None
  | _, _ => None
  end.
(** Comparisons with what has no value are false, as with NaN. *)
Definition ONum : Num :=
  mkNum (option R) (lift2 Rplus) (lift2 Rminus) (lift2 Rmult) odiv (lift1 Ropp) (lift1 Rabs) osqrt olog (lift1 exp) (lift1 cos) (lift1 sin) opow
    (test Rltb) (test Rleb) (test Reqbool) (fun z => Some (IZR z)) (fun m e => Some (IZR m / IZR (10 ^ e))) (Some PI).
(** Results which all have a value *)
Definition res_map {A B} (f : A -> B) (x : res A) : res B := match x with Ok a => Ok (f a) | Err e => Err e end.

(** The same inputs, as numbers which have a value *)
Definition os : list R -> list (option R) := map Some.
Definition opk (p : Pk RNum) : Pk ONum := mkPk (N := ONum) (pk_n p) (os (pk_k p)) (os (pk_p p)).
Definition oprec (p : precision RNum) : precision ONum := mkPrec (N := ONum) (pr_n p) (Some (pr_min p)) (Some (pr_max p)) (pr_interpol p).
Definition oset (st : settings RNum) : settings ONum := mkSet (N := ONum) (fun x => oprec (s_prec st x)) (s_interpol st) (fun x => Some (s_cutoff st x)).

(** A spectrum of at least three increasing positive wavenumbers *)
Record good_table (pk : Pk RNum) : Prop :=
  { gd_eq : exists K P : list R, pk = mk_table (N := RNum) K P /\ length P = length K /\ (3 <= zlen K < 2 ^ 62)%Z /\ increasing K /\ forall x, In x K -> 0 < x }.
(** Three lengths which form a triangle, not a segment *)
Definition strict (a b c : R) : Prop := a < b + c /\ b < a + c /\ c < a + b.
(** A quadrature rule of a size the library accepts *)
Definition rule_ok (p : precision RNum) : Prop := (1 <= pr_n p < 2 ^ 62)%Z.

(** The external integrator Suave: its result has a value, the same, if those of the integrand in the unit cube do. *)
Definition cube (xx : list R) : Prop := forall x, In x xx -> 0 <= x <= 1.
Definition suave1_lifts (s : (list R -> res R) -> res R) (s' : (list (option R) -> res (option R)) -> res (option R)) : Prop :=
  forall f f', (forall xx, cube xx -> f' (os xx) = res_map Some (f xx)) -> s' f' = res_map Some (s f).
Definition suave12_lifts (s : (list R -> res (list R)) -> res (list R)) (s' : (list (option R) -> res (list (option R))) -> res (list (option R))) : Prop :=
  forall f f', (forall xx, cube xx -> f' (os xx) = res_map os (f xx)) -> s' f' = res_map os (s f).
