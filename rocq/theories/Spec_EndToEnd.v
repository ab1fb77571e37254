(** What a row of a table of fits says about its halo. *)

From Coq Require Import Reals ZArith List Ascii String.
From Verif Require Import Model_Num Model_Kernels Model_Outline Spec_Kernels Spec_Fitter.
Import ListNotations.
Local Open Scope R_scope.

(** Row [i] of the column [name] holds this number. *)
Definition cell (h : hdf) (name : string) (i : nat) (x : xr) : Prop :=
  exists l, In (lit name, FloatCol l) h /\ nth_error l i = Some x.
Definition int_cell (h : hdf) (name : string) (i : nat) (x : Z) : Prop :=
  exists l, In (lit name, IntCol l) h /\ nth_error l i = Some x.

(** Row [i] holds these five parameters. *)
Definition holds_params (h : hdf) (i : nat) (q : DiffmahParams R) : Prop :=
  cell h "logm0" i (Fin (logm0 q)) /\ cell h "logtc" i (Fin (logtc q)) /\
  cell h "early_index" i (Fin (early_index q)) /\ cell h "late_index" i (Fin (late_index q)) /\
  cell h "t_peak" i (Fin (t_peak q)).

(** Row [i] marks a halo without a fit. *)
Definition marked_unfitted (h : hdf) (i : nat) : Prop :=
  cell h "logm0" i (Fin (-99)) /\ cell h "logtc" i (Fin (-99)) /\ cell h "early_index" i (Fin (-99)) /\
  cell h "late_index" i (Fin (-99)) /\ cell h "t_peak" i (Fin (-99)) /\ cell h "loss" i (Fin (-99)) /\
  int_cell h "fit_algo" i (-1).

(** The same history at all times from 0.001 to 20 Gyr, to 0.0007 dex. *)
Definition same_history (p q : DiffmahParams R) : Prop :=
  forall t lgt0, 1 / 1000 <= t <= 20 -> -1 <= lgt0 <= 14 / 10 ->
  Rabs (logmh_at_t_obs p t lgt0 - logmh_at_t_obs q t lgt0) <= 7 / 10000.

(** Row [i] describes the halo with masses [m] at times [t].  [l0] is its final log-mass,
    [pts] are the times and log-masses to be fitted, [r] their running maximum, [n] of
    which lie below its last entry.  With fewer than three of these the row marks the halo
    as without a fit.  Otherwise it is the result of one of the two minimisers and, if the
    final mass is in the range of the model and was attained first at a time [tp] in the
    range of the model, it holds, to the six digits of the text files, a legal halo with
    this peak time and its mean squared residual. *)
Definition describes (c : R -> R) (lgm_min : option R) (t m : list R) (h : hdf) (i : nat) : Prop :=
  exists l0 pts r n, last_is (floored lgm_min m) l0 /\
    subsequence_of (fit_point l0 (25 / 10) lgm_min 1) (combine t (floored lgm_min m)) pts /\
    running_max (map snd pts) r /\ count_below_last Rlt r n /\
    int_cell h "n_points_per_fit" i (Z.of_nat n) /\
    ((n < 3)%nat -> marked_unfitted h i) /\
    ((3 <= n)%nat -> (int_cell h "fit_algo" i 0 \/ int_cell h "fit_algo" i 1) /\
      forall tp tlast, last_is t tlast -> 0 < c l0 < 17 ->
        first_attained c t (floored lgm_min m) l0 tp -> 5 / 100 < c tp < 20 ->
        exists p q x, legal p /\ t_peak p = c tp /\ holds_params h i q /\ same_history p q /\
          cell h "loss" i (Fin x) /\
          let e := mean_sq_residual p (c (log10 tlast)) (combine (map c (map fst pts)) (map c r)) in
          Rabs (e - x) <= 5 / 1000000 * Rabs e).
