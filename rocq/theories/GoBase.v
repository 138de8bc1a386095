(** * Byte strings, outcomes and the few library functions of Go that xcore uses. *)
From Coq Require Export ZArith Ascii String.
From stdpp Require Export prelude gmap strings sorting.
Export List.ListNotations.

(** A Go string is a sequence of bytes. *)
Definition bytes := list ascii.
Definition B (s : string) : bytes := list_ascii_of_string s.
Coercion B : string >-> bytes.
Bind Scope list_scope with bytes.

(** Outcome of a Go call: a normal return, a run time panic, or (for functions that
    follow pointers or references recursively) exhaustion of the recursion budget of
    the model.  [NoFuel] is never a result of the program: a program that has [NoFuel]
    for every budget is one that does not terminate. *)
Inductive outcome (A : Type) :=
| Ok (a : A)
| Panic
| NoFuel.
Arguments Ok {A} a.
Arguments Panic {A}.
Arguments NoFuel {A}.

Definition obind {A C} (x : outcome A) (f : A -> outcome C) : outcome C :=
  match x with Ok a => f a | Panic => Panic | NoFuel => NoFuel end.
Notation "x <-! e ; f" := (obind e (fun x => f))
  (at level 100, e at next level, f at level 200, right associativity).
Notation "' x <-! e ; f" := (obind e (fun '(x) => f))
  (at level 100, x pattern, e at next level, f at level 200, right associativity).
