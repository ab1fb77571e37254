(** Specification vocabulary for the utility functions. *)

From Coq Require Import Reals List Arith Permutation Sorted.
From Verif Require Import Model_Num.
Import ListNotations.
Local Open Scope R_scope.

Definition Rsum (l : list R) : R := fold_right Rplus 0 l.

(** [v] is the [q]-quantile (0 <= q <= 1) of [x] by linear interpolation between
    order statistics: the definition documented by numpy and jax. *)
Definition is_quantile (x : list R) (q v : R) : Prop :=
  exists s i w,
    Permutation x s /\ StronglySorted Rle s /\
    q * INR (length x - 1) = INR i + w /\
    ((w = 0 /\ nth_error s i = Some v) \/
     (0 < w < 1 /\ exists a b, nth_error s i = Some a /\ nth_error s (i + 1) = Some b /\
        v = (1 - w) * a + w * b)).

(** Entries strictly between two thresholds, in order. *)
Definition strictly_inside (lo hi : R) (x : list R) : list R :=
  filter (fun z => if Rlt_dec lo z then if Rlt_dec z hi then true else false else false) x.

Definition mean (l : list R) : R := Rsum l / INR (length l).

(** Unbiased sample variance. *)
Definition sample_variance (l : list R) : R :=
  Rsum (map (fun z => (z - mean l) * (z - mean l)) l) / (INR (length l) - 1).

(** Finite-dimensional vectors and matrices: functions restricted to indices < n. *)
Definition sum_below (n : nat) (f : nat -> R) : R := Rsum (map f (seq 0 n)).

(** Quadratic form v^T M v. *)
Definition quad_form (n : nat) (M : nat -> nat -> R) (v : nat -> R) : R :=
  sum_below n (fun i => sum_below n (fun j => v i * M i j * v j)).

Definition psd (n : nat) (M : nat -> nat -> R) : Prop := forall v, 0 <= quad_form n M v.

Definition posdef (n : nat) (M : nat -> nat -> R) : Prop :=
  forall v, (exists i, (i < n)%nat /\ v i <> 0) -> 0 < quad_form n M v.
