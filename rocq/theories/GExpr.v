(** GExpr: abstract syntax of the C expressions of src/gamma2d_1loop.c and src/gamma2t_1loop.c and
    their meaning.  The expressions themselves are in Gamma2dSrc.v and Gamma2tSrc.v, written by
    tools/gen_gamma2.py from the C text. *)
From Verif Require Import Base Num Common Kernels.
Local Open Scope Z_scope.

(** The arrays of powers the C functions declare: k1, k2, k3, q, k, eps. *)
Inductive gvar := gk1 | gk2 | gk3 | gq | gk | geps.
(** C expressions.  [GLit m e] is the literal m 10^-e, [GIdx v n] is v[n]. *)
Inductive gexpr :=
| GLit (m e : Z) | GPi | GIdx (v : gvar) (n : Z)
| GNeg (a : gexpr) | GAdd (a b : gexpr) | GSub (a b : gexpr) | GMul (a b : gexpr) | GDiv (a b : gexpr)
| GSqrt (a : gexpr) | GLog (a : gexpr) | GAbs (a : gexpr) | GPow (a b : gexpr) | GPower (a : gexpr) (n : Z)
| GLFunc (a b : gexpr) | GWFunc (a b c d : gexpr) | GSmallBeta (a b : gexpr) | GBigBeta (a b c d : gexpr).

(** Notations making the transcription read as the C text. *)
Declare Scope gexpr_scope.
Delimit Scope gexpr_scope with ge.
Bind Scope gexpr_scope with gexpr.
Infix "+" := GAdd : gexpr_scope.
Infix "-" := GSub : gexpr_scope.
Infix "*" := GMul : gexpr_scope.
Infix "/" := GDiv : gexpr_scope.
Notation "- a" := (GNeg a) : gexpr_scope.
Notation "k1 @[ n ]" := (GIdx k1 n%Z) (at level 1, format "k1 @[ n ]") : gexpr_scope.
Definition glit_of_Z (z : Z) : gexpr := GLit z 0.
Definition glit_to_Z (e : gexpr) : option Z := match e with GLit z 0 => Some z | _ => None end.
Number Notation gexpr glit_of_Z glit_to_Z : gexpr_scope.

Section Eval.
Context {N : Num}.
Local Notation T := (T N).
Local Open Scope num_scope.

(** Meaning of an expression in an environment giving the arrays: reads are checked. *)
Fixpoint geval (env : gvar -> list T) (x : gexpr) : res T :=
  match x with
  | GLit m e => Ok (if (e =? 0)%Z then #m else m //10^ e)
  | GPi => Ok npi
  | GIdx v n => rd (env v) n
  | GNeg a => a <- geval env a ;; Ok (- a)
  | GAdd a b => a <- geval env a ;; b <- geval env b ;; Ok (a + b)
  | GSub a b => a <- geval env a ;; b <- geval env b ;; Ok (a - b)
  | GMul a b => a <- geval env a ;; b <- geval env b ;; Ok (a * b)
  | GDiv a b => a <- geval env a ;; b <- geval env b ;; Ok (a / b)
  | GSqrt a => a <- geval env a ;; Ok (nsqrt a)
  | GLog a => a <- geval env a ;; Ok (nlog a)
  | GAbs a => a <- geval env a ;; Ok (nabs a)
  | GPow a b => a <- geval env a ;; b <- geval env b ;; Ok (npow a b)
  | GPower a n => a <- geval env a ;; Ok (power a n)
  | GLFunc a b => a <- geval env a ;; b <- geval env b ;; Ok (LFunc a b)
  | GWFunc a b c d =>
    a <- geval env a ;; b <- geval env b ;; c <- geval env c ;; d <- geval env d ;; Ok (WFunc a b c d)
  | GSmallBeta a b => a <- geval env a ;; b <- geval env b ;; Ok (small_beta a b)
  | GBigBeta a b c d =>
    a <- geval env a ;; b <- geval env b ;; c <- geval env c ;; d <- geval env d ;; Ok (big_beta a b c d)
  end.
End Eval.
