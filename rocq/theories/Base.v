(** Base: outcomes, checked arrays and loops.  Nothing here is specific to pyregpt; it is the
    vocabulary in which the C and Python functions are transcribed. *)
From Coq Require Export ZArith List Bool Lia.
Export ListNotations.
Open Scope Z_scope.

(** Ways in which a run can go wrong.  [OOB], [NullDeref], [UseAfterFree], [DoubleFree] are C
    undefined behaviour; [NoFuel] is a recursion or loop that has not returned within the fuel
    given to the model; [PyExc] is a Python exception. *)
Inductive exc := AttributeError | TypeError | ValueError | IndexError | KeyError | ArgumentError.
Inductive ub := OOB | NullDeref | UseAfterFree | DoubleFree | NoFuel | PyExc (e : exc).

Inductive res (A : Type) : Type :=
| Ok (a : A)
| Err (u : ub).
Arguments Ok {A} a.
Arguments Err {A} u.

Definition bind {A B} (m : res A) (f : A -> res B) : res B :=
  match m with Ok a => f a | Err u => Err u end.
Notation "x <- m ;; f" := (bind m (fun x => f)) (at level 61, m at next level, right associativity).
Notation "' p <- m ;; f" := (bind m (fun p => f)) (at level 61, p pattern, m at next level, right associativity).

(** size_t arithmetic wraps modulo 2^64. *)
Definition SIZE_T : Z := 2 ^ 64.
Definition u64 (z : Z) : Z := z mod SIZE_T.

Definition zlen {A} (l : list A) : Z := Z.of_nat (length l).

(** Checked read and write of a C array represented by its list of elements. *)
Definition rd {A} (l : list A) (i : Z) : res A :=
  if (0 <=? i) && (i <? zlen l)
  then match nth_error l (Z.to_nat i) with Some a => Ok a | None => Err OOB end
  else Err OOB.

Fixpoint upd {A} (l : list A) (n : nat) (a : A) : list A :=
  match l, n with
  | [], _ => []
  | _ :: t, O => a :: t
  | h :: t, S m => h :: upd t m a
  end.

Definition wr {A} (l : list A) (i : Z) (a : A) : res (list A) :=
  if (0 <=? i) && (i <? zlen l) then Ok (upd l (Z.to_nat i) a) else Err OOB.

(** [for (i = lo; i < lo + n; i++) s = body(i, s)] *)
Fixpoint loop {S} (n : nat) (i : Z) (body : Z -> S -> res S) (s : S) : res S :=
  match n with
  | O => Ok s
  | Datatypes.S m => s' <- body i s ;; loop m (i + 1) body s'
  end.
Definition for_ {S} (lo hi : Z) (body : Z -> S -> res S) (s : S) : res S :=
  loop (Z.to_nat (hi - lo)) lo body s.

(** The same with [break]/[return]: [inr x] leaves the loop at once with [x]. *)
Fixpoint loop_brk {S X} (n : nat) (i : Z) (body : Z -> S -> res (S + X)) (s : S) : res (S + X) :=
  match n with
  | O => Ok (inl s)
  | Datatypes.S m =>
    o <- body i s ;;
    match o with
    | inl s' => loop_brk m (i + 1) body s'
    | inr x => Ok (inr x)
    end
  end.
Definition for_brk {S X} (lo hi : Z) (body : Z -> S -> res (S + X)) (s : S) : res (S + X) :=
  loop_brk (Z.to_nat (hi - lo)) lo body s.

(** C macros MAX and MIN, src/define.h:4-5, on integers. *)
Definition zmax (a b : Z) : Z := if a >? b then a else b.
Definition zmin (a b : Z) : Z := if a <? b then a else b.
