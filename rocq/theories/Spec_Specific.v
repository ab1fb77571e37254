(** Specific accretion rates. *)

From Coq Require Import Reals.
From Verif Require Import Model_Num Model_Kernels Spec_Kernels.
Local Open Scope R_scope.

(** The accretion rate (in Msun per year) relative to the mass, per Gyr. *)
Definition specific_rate (p : DiffmahParams R) (lgt0 t : R) : R :=
  1000000000 * rate p lgt0 t / mass p lgt0 t.
