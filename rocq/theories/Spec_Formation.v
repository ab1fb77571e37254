(** Formation times of halos. *)

From Coq Require Import Reals.
From Verif Require Import Model_Num Model_Kernels Spec_Kernels.
Local Open Scope R_scope.

(** Up to [t] the halo has assembled the fraction [f] of the mass it has at [t0]; [t0] is
    also the reference time of the kernels. *)
Definition has_fraction (p : DiffmahParams R) (t0 f t : R) : Prop :=
  mass p (log10 t0) t = f * mass p (log10 t0) t0.
