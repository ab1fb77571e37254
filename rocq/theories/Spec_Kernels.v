(** Specification vocabulary for the halo-growth properties.  Nothing here
    refers to the internals of the kernels. *)

From Coq Require Import Reals List.
From Verif Require Import Model_Num Model_Kernels.
Import ListNotations.
Local Open Scope R_scope.

(** The documented parameter domain (diffmah_kernels.py:22-29 with the extra
    constraint late < early enforced by the bounding functions). *)
Definition legal (p : DiffmahParams R) : Prop :=
  0 < logm0 p < 17 /\
  -1 < logtc p < 1 /\
  1 / 10 < late_index p < 5 /\
  late_index p < early_index p < 10 /\
  5 / 100 < t_peak p < 20.

(** Halo mass in Msun at time [t], as a function of time. *)
Definition mass (p : DiffmahParams R) (lgt0 t : R) : R :=
  exp (logmh_at_t_obs p t lgt0 * ln 10).

(** Accretion rate reported by mah_singlehalo for the one-element time array [t]. *)
Definition rate (p : DiffmahParams R) (lgt0 t : R) : R :=
  match fst (mah_singlehalo p [t] lgt0) with d :: _ => d | [] => 0 end.

(** One-sided derivatives, by difference quotients. *)
Definition left_derivative (f : R -> R) (x l : R) : Prop :=
  forall eps, 0 < eps -> exists delta, 0 < delta /\
    forall h, - delta < h < 0 -> Rabs ((f (x + h) - f x) / h - l) < eps.

Definition right_derivative (f : R -> R) (x l : R) : Prop :=
  forall eps, 0 < eps -> exists delta, 0 < delta /\
    forall h, 0 < h < delta -> Rabs ((f (x + h) - f x) / h - l) < eps.

(** Extended-real vocabulary. *)
Definition finite (x : xr) : Prop := exists r, x = Fin r.

Definition inject (p : DiffmahParams R) : DiffmahParams xr :=
  mkParams (Fin (logm0 p)) (Fin (logtc p)) (Fin (early_index p)) (Fin (late_index p))
    (Fin (t_peak p)).

Definition inject_u (u : DiffmahUParams R) : DiffmahUParams xr :=
  mkUParams (Fin (u_logm0 u)) (Fin (u_logtc u)) (Fin (u_early_index u))
    (Fin (u_late_index u)) (Fin (u_t_peak u)).

Definition all_finite_u (u : DiffmahUParams xr) : Prop :=
  finite (u_logm0 u) /\ finite (u_logtc u) /\ finite (u_early_index u) /\
  finite (u_late_index u) /\ finite (u_t_peak u).

(** Straight line through [u] with direction [v], and its dual seed. *)
Definition uline (u v : DiffmahUParams R) (h : R) : DiffmahUParams R :=
  mkUParams (u_logm0 u + h * u_logm0 v) (u_logtc u + h * u_logtc v)
    (u_early_index u + h * u_early_index v) (u_late_index u + h * u_late_index v)
    (u_t_peak u + h * u_t_peak v).

Definition useed (u v : DiffmahUParams R) : DiffmahUParams (Dual R) :=
  mkUParams (mkDual (u_logm0 u) (u_logm0 v)) (mkDual (u_logtc u) (u_logtc v))
    (mkDual (u_early_index u) (u_early_index v)) (mkDual (u_late_index u) (u_late_index v))
    (mkDual (u_t_peak u) (u_t_peak v)).

(** A pair of finite numbers. *)
Definition dfin (d : Dual R) : Dual xr := mkDual (Fin (dval d)) (Fin (dder d)).

Definition dfin_uparams (p : DiffmahUParams (Dual R)) : DiffmahUParams (Dual xr) :=
  mkUParams (dfin (u_logm0 p)) (dfin (u_logtc p)) (dfin (u_early_index p))
    (dfin (u_late_index p)) (dfin (u_t_peak p)).
