(** Vocabulary for the conversions between bounded and unbounded parameters in
    machine arithmetic. *)

From Coq Require Import Reals ZArith.
From Flocq Require Import Core.
From Verif Require Import Model_Num Model_Kernels Model_Float Spec_Float.
Local Open Scope R_scope.

(** The two public conversions on machine numbers. *)
Definition fl_bounded (F : arith) (v : DiffmahUParams R) : DiffmahParams R :=
  @get_bounded_mah_params R (Num_fl F) v.

Definition fl_unbounded (F : arith) (p : DiffmahParams R) : DiffmahUParams R :=
  @get_unbounded_mah_params R (Num_fl F) p.

(** A library logarithm good to four units of rounding. *)
Definition accurate_log (prec : Z) (F : arith) : Prop := forall x, 0 < x ->
  Rabs (lib_log F x - ln x) <= 4 * bpow radix2 (- prec) * Rmax 1 (Rabs (ln x)).

(** At least one part in 500 of the interval away from both ends. *)
Definition well_inside (lo x hi : R) : Prop :=
  lo + (hi - lo) / 500 <= x <= hi - (hi - lo) / 500.

(** Every unbounded parameter is at most [b] in size. *)
Definition moderate (b : R) (v : DiffmahUParams R) : Prop :=
  Rabs (u_logm0 v) <= b /\ Rabs (u_logtc v) <= b /\ Rabs (u_early_index v) <= b /\
  Rabs (u_late_index v) <= b /\ Rabs (u_t_peak v) <= b.

(** Every parameter is well inside its published bounds. *)
Definition well_legal (p : DiffmahParams R) : Prop :=
  well_inside 0 (logm0 p) 17 /\ well_inside (-1) (logtc p) 1 /\
  well_inside (1 / 10) (late_index p) 5 /\ well_inside (late_index p) (early_index p) 10 /\
  well_inside (5 / 100) (t_peak p) 20.

(** Two sets of parameters that agree to [e] in every field. *)
Definition u_agree (e : R) (v w : DiffmahUParams R) : Prop :=
  Rabs (u_logm0 w - u_logm0 v) <= e /\ Rabs (u_logtc w - u_logtc v) <= e /\
  Rabs (u_early_index w - u_early_index v) <= e /\ Rabs (u_late_index w - u_late_index v) <= e /\
  Rabs (u_t_peak w - u_t_peak v) <= e.

Definition agree (e : R) (p q : DiffmahParams R) : Prop :=
  Rabs (logm0 q - logm0 p) <= e /\ Rabs (logtc q - logtc p) <= e /\
  Rabs (early_index q - early_index p) <= e /\ Rabs (late_index q - late_index p) <= e /\
  Rabs (t_peak q - t_peak p) <= e.
