(** Num: the numbers the C code computes with ([histo_t] = double, src/define.h), abstracted to a
    record so that each C function is transcribed once and read both in exact real arithmetic
    ([RNum]) and in IEEE binary64 ([FNum]). *)
From Verif Require Import Base.
From Coq Require Import Reals Floats Uint63.

Record Num := mkNum {
  T : Type;
  nadd : T -> T -> T;
  nsub : T -> T -> T;
  nmul : T -> T -> T;
  ndiv : T -> T -> T;
  nopp : T -> T;
  nabs : T -> T;
  nsqrt : T -> T;
  nlog : T -> T;
  nexp : T -> T;
  ncos : T -> T;
  nsin : T -> T;
  npow : T -> T -> T;
  nlt : T -> T -> bool;
  nle : T -> T -> bool;
  neqb : T -> T -> bool;
  nZ : Z -> T;             (* integer converted to double *)
  nlit : Z -> Z -> T;      (* decimal literal: numerator over a power of ten *)
  npi : T                  (* M_PI *)
}.

Declare Scope num_scope.
Delimit Scope num_scope with num.
Notation "x + y" := (nadd _ x y) : num_scope.
Notation "x - y" := (nsub _ x y) : num_scope.
Notation "x * y" := (nmul _ x y) : num_scope.
Notation "x / y" := (ndiv _ x y) : num_scope.
Notation "- x" := (nopp _ x) : num_scope.
Notation "x <? y" := (nlt _ x y) : num_scope.
Notation "x <=? y" := (nle _ x y) : num_scope.
Notation "x >? y" := (nlt _ y x) : num_scope.
Notation "x >=? y" := (nle _ y x) : num_scope.
Notation "x =? y" := (neqb _ x y) : num_scope.
Notation "# z" := (nZ _ z) (at level 1, format "# z") : num_scope.
Notation "a //10^ b" := (nlit _ a b) (at level 1) : num_scope.

Arguments nabs {n} _.
Arguments nsqrt {n} _.
Arguments nlog {n} _.
Arguments nexp {n} _.
Arguments ncos {n} _.
Arguments nsin {n} _.
Arguments npow {n} _ _.
Arguments npi {n}.

(** C macros of src/define.h:4-8 on doubles. *)
Definition nmax {N : Num} (a b : T N) : T N := if nlt N b a then a else b.
Definition nmin {N : Num} (a b : T N) : T N := if nlt N a b then a else b.
Definition nmax3 {N : Num} (a b c : T N) : T N := nmax (nmax a b) (nmax b c).
Definition nmin3 {N : Num} (a b c : T N) : T N := nmin (nmin a b) (nmin b c).

(** Exact real arithmetic. *)
Definition Rltb (x y : R) : bool := if Rlt_dec x y then true else false.
Definition Rleb (x y : R) : bool := if Rle_dec x y then true else false.
Definition Reqbool (x y : R) : bool := if Req_EM_T x y then true else false.
(** C99 pow (annex F.9.4.4) on finite arguments: integer powers of any base, real powers of positive
    ones; the cases where pow gives NaN or infinity give 0. *)
Definition Rpow (x y : R) : R :=
  if Rlt_dec 0 x then Rpower x y
  else if Req_EM_T y (IZR (Int_part y)) then powerRZ x (Int_part y) else 0%R.
Definition RNum : Num :=
  mkNum R Rplus Rminus Rmult Rdiv Ropp Rabs R_sqrt.sqrt ln exp cos sin Rpow Rltb Rleb Reqbool
    IZR (fun m e => (IZR m / IZR (10 ^ e))%R) PI.

(** IEEE binary64 with round to nearest even (what C's double is on the supported targets).
    libm functions are not modelled: they are parameters of the instance. *)
Record libm := mkLibm {
  lm_log : float -> float; lm_exp : float -> float; lm_cos : float -> float;
  lm_sin : float -> float; lm_pow : float -> float -> float }.
Definition fZ (z : Z) : float :=
  match z with
  | Z0 => PrimFloat.zero
  | Zpos _ => PrimFloat.of_uint63 (Uint63.of_Z z)
  | Zneg p => PrimFloat.opp (PrimFloat.of_uint63 (Uint63.of_Z (Zpos p)))
  end.
Definition FNum (lm : libm) : Num :=
  mkNum float PrimFloat.add PrimFloat.sub PrimFloat.mul PrimFloat.div PrimFloat.opp PrimFloat.abs
    PrimFloat.sqrt (lm_log lm) (lm_exp lm) (lm_cos lm) (lm_sin lm) (lm_pow lm)
    PrimFloat.ltb PrimFloat.leb PrimFloat.eqb
    fZ (fun m e => PrimFloat.div (fZ m) (fZ (10 ^ e)))
    0x1.921fb54442d18p+1%float.
