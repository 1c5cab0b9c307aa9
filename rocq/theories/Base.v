(** Common imports and result types of the model.  No code of /repo is modelled here except
    the way Go signals failure. *)
From Coq Require Export ZArith List Bool Lia.
From Coq Require Export ZifyBool.
Export ListNotations.
Global Open Scope Z_scope.

(** Outcome of a Go computation that may panic.  [Overflow] is a panic whose value
    [utils.IsOverflow] (/repo/types/utils.go:237-244) recognises (a string containing
    "overflow" or ending with "out of bound"), [Panic] is any other panic. *)
Inductive res (A : Type) : Type :=
| Ok (a : A)
| Overflow
| Panic.
Arguments Ok {A} _.
Arguments Overflow {A}.
Arguments Panic {A}.

(** Sequencing: a panic aborts the computation. *)
Definition rbind {A B} (r : res A) (f : A -> res B) : res B :=
  match r with Ok a => f a | Overflow => Overflow | Panic => Panic end.
Notation "'let!' x ':=' r 'in' k" := (rbind r (fun x => k))
  (at level 200, x pattern, r at level 100, k at level 200).

Definition is_ok {A} (r : res A) : bool := match r with Ok _ => true | _ => false end.

(** [utils.SafeMath f onOverflow] (/repo/types/utils.go:223-234): runs [f]; an overflow panic
    is replaced by [onOverflow]; any other panic is rethrown. *)
Definition safe_math {A} (f : res A) (on_overflow : A) : res A :=
  match f with Ok a => Ok a | Overflow => Ok on_overflow | Panic => Panic end.

(** Sum of a list of integers; a specification helper. *)
Definition sumZ (l : list Z) : Z := fold_right Z.add 0 l.
