(** Exceptions as values. *)

From Coq Require Import List.
Import ListNotations.

(** The Python exceptions that the modelled code can raise. *)
Inductive exn : Type :=
| AssertionError
| IndexError
| ValueError
| TypeError
| KeyError
| AttributeError
| UnboundLocalError
| OSError
| CalledProcessError
| ImportError
| NameError.

Inductive res (A : Type) : Type :=
| Ok (a : A)
| Err (e : exn).
Arguments Ok {A} _.
Arguments Err {A} _.

Definition bind {A B} (m : res A) (f : A -> res B) : res B :=
  match m with Ok a => f a | Err e => Err e end.

Notation "'let*' x ':=' m 'in' k" := (bind m (fun x => k))
  (at level 200, x pattern, right associativity).
