(** Specification vocabulary for the data loaders and target measurements. *)

From Coq Require Import Reals String Ascii List ZArith Bool Arith Permutation Sorted.
From Verif Require Import Model_Num Spec_Utils.
Import ListNotations.
Local Open Scope R_scope.

(** [parts] cuts [l] into [k] consecutive pieces whose sizes differ by at most
    one. *)
Definition balanced_partition {A} (l : list A) (k : nat) (parts : list (list A)) : Prop :=
  length parts = k /\ List.concat parts = l /\
  forall a b, In a parts -> In b parts -> (length a <= length b + 1)%nat.

(** Order of floats; nothing is below or above NaN. *)
Definition xle (x y : xr) : Prop :=
  match x, y with
  | Fin a, Fin b => a <= b
  | MInf, Fin _ | MInf, MInf | MInf, PInf | Fin _, PInf | PInf, PInf => True
  | _, _ => False
  end.

(** [y] is the greatest of the values [l], or NaN if one of them is NaN. *)
Definition greatest (l : list xr) (y : xr) : Prop :=
  (In NaN l /\ y = NaN) \/ (~ In NaN l /\ In y l /\ forall x, In x l -> xle x y).

Definition nondecreasing (l : list R) : Prop :=
  forall i j x y, (i <= j)%nat -> nth_error l i = Some x -> nth_error l j = Some y -> x <= y.

(** A table with [n] columns. *)
Definition rectangular {A} (n : nat) (t : list (list A)) : Prop := forall r, In r t -> length r = n.

(** Standard deviation (of a population, not of a sample). *)
Definition deviation_of (l : list R) : R := sqrt (mean (map (fun x => (x - mean l) * (x - mean l)) l)).

(** [kept] is what is left of [l] when the fraction [lim] of its smallest and of
    its largest values is cut off (rounded down). *)
Definition trimmed (lim : R) (l kept : list R) : Prop :=
  exists k lo hi, INR k <= lim * INR (length l) < INR k + 1 /\
    length lo = k /\ length hi = k /\
    Permutation l (lo ++ kept ++ hi) /\ StronglySorted Rle (lo ++ kept ++ hi).

(** Log-masses at time index [j] after shifting each history so that it ends at
    [logmp]. *)
Definition shifted_column (t : list (list R)) (logmp : R) (j : nat) : list R :=
  map (fun r => nth j r 0 - last r 0 + logmp) t.

(** Column [j] of [a] when every row is multiplied so that the history in [m]
    ends at 10^logmp. *)
Definition scaled_column (m a : list (list R)) (logmp : R) (j : nat) : list R :=
  map (fun mr => pow10 logmp * nth j (snd mr) 0 / last (fst mr) 0) (combine m a).

(** [peak] is the cumulative peak of the history [raw]. *)
Definition cumulative_peak (raw peak : list xr) : Prop :=
  length peak = length raw /\
  forall j y, nth_error peak j = Some y -> greatest (firstn (S j) raw) y.

(** ** Tables in HDF5 files *)

Definition no_slash (s : string) : Prop := s <> EmptyString /\ ~ In "/"%char (list_ascii_of_string s).

(** A table with distinct column names. *)
Definition flat_table {V} (t : list (string * list V)) : Prop :=
  NoDup (map fst t) /\ forall k l, In (k, l) t -> no_slash k.

(** Rows number [i] to [j - 1] of a column. *)
Definition rows_between {V} (i j : nat) (l : list V) : list V :=
  map snd (filter (fun nx => (i <=? fst nx)%nat && (fst nx <? j)%nat)%bool (combine (seq 0 (length l)) l)).

(** Halo [i] is within [z] trimmed deviations of the trimmed mean at time index
    [it]. *)
Definition inlier (t : list (list R)) (logmp lim z : R) (i it : nat) : Prop :=
  exists x kept, nth_error (shifted_column t logmp it) i = Some x /\
    trimmed lim (shifted_column t logmp it) kept /\
    0 < deviation_of kept /\ Rabs (x - mean kept) < z * deviation_of kept.

Definition strictly_increasing (l : list R) : Prop :=
  forall i j x y, (i < j)%nat -> nth_error l i = Some x -> nth_error l j = Some y -> x < y.

(** A quantity averaged in log: lost when it is negative. *)
Definition logged (x : R) (y : xr) : Prop := (0 <= x -> y = Fin x) /\ (x < 0 -> y = NaN).

Definition variance_of (l : list R) : R := mean (map (fun x => (x - mean l) * (x - mean l)) l).
