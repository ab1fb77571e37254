(** Vocabulary for what the parameters of the population model mean. *)

From Coq Require Import Reals.
Local Open Scope R_scope.

(** [f] passes in one direction from the value [a] far below [m] to the value [b]
    far above [m].  It is half-way at [m], and has covered one tenth of the way at
    [m - w] and nine tenths at [m + w]. *)
Definition gradual (f : R -> R) (a b m w : R) : Prop :=
  (a <= b -> forall x y, x <= y -> f x <= f y) /\
  (b <= a -> forall x y, x <= y -> f y <= f x) /\
  (forall eps, 0 < eps -> exists M, forall x, x <= M -> Rabs (f x - a) < eps) /\
  (forall eps, 0 < eps -> exists M, forall x, M <= x -> Rabs (f x - b) < eps) /\
  f m = (a + b) / 2 /\ f (m - w) = a + (b - a) / 10 /\ f (m + w) = a + 9 * (b - a) / 10.

(** The nearest number to [x] that is not below [lo] and not above [hi]. *)
Definition confined (lo hi x : R) : R := Rmin (Rmax x lo) hi.
