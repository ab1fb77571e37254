(** Vocabulary for the bounding of population parameters in machine arithmetic. *)

From Coq Require Import Reals String List.
From Verif Require Import Model_Num Model_Base Model_Kernels Model_PopBase Model_PopData Model_PopParams Model_PopMC Model_Float
  Spec_Kernels Spec_Pop Spec_PopMC Spec_Float.
Import ListNotations.
Local Open Scope R_scope.
Local Open Scope string_scope.

(** Every public bounding function, read on machine numbers, with the component
    whose names and bounds it uses. *)
Definition machine_bounders (F : arith) (big : R) : list (component * (rec xr -> res (rec xr))) :=
  let X := Num_xfl F big in
  map (fun c => (c, @get_bounded_params xr X c))
    [ TPCENS_FLEX; TP_SATS; UTP; TPCENS;
      LGM0_C0_EARLY; LGM0_C1_EARLY; LGM0_C0_LATE; LGM0_C1_LATE;
      LGM0_C0_EARLY_SATS; LGM0_C1_EARLY_SATS; LGM0_C0_LATE_SATS; LGM0_C1_LATE_SATS;
      LOGTC_EARLY; LOGTC_LATE; EARLY_INDEX_ALPHA; EARLY_INDEX_BETA; EARLY_INDEX_POP;
      LATE_INDEX_ALPHA; LATE_INDEX_BETA; FEC; FTPT0; COV ]
  ++ [ (LGM0_EARLY, @get_bounded_pair xr X LGM0_EARLY LGM0_C0_EARLY LGM0_C1_EARLY);
       (LGM0_LATE, @get_bounded_pair xr X LGM0_LATE LGM0_C0_LATE LGM0_C1_LATE);
       (LGM0_EARLY_SATS, @get_bounded_pair xr X LGM0_EARLY_SATS LGM0_C0_EARLY_SATS LGM0_C1_EARLY_SATS);
       (LGM0_LATE_SATS, @get_bounded_pair xr X LGM0_LATE_SATS LGM0_C0_LATE_SATS LGM0_C1_LATE_SATS);
       (LGM0_BIMOD, @get_bounded_m0pop_params xr X);
       (LGM0_BIMOD_SATS, @get_bounded_m0pop_params_sats xr X);
       (LOGTC_BIMOD, @get_bounded_logtc_params xr X);
       (EARLY_INDEX_BIMOD, @get_bounded_early_index_params xr X);
       (LATE_INDEX_BIMOD, @get_bounded_late_index_params xr X) ]%list.

(** No value of the tuple is NaN. *)
Definition nan_free (u : list (string * xr)) : Prop := forall k v, has u k v -> v <> NaN.

(** Every field with a published interval holds a finite machine number that is not
    below the machine value of the lower bound, and not above the machine value of
    the upper bound; fields in [over] may exceed it by [slack]. *)
Definition in_machine_bounds (F : arith) (over : list string) (slack : R)
  (bounds : list (string * (R * R))) (p : list (string * xr)) : Prop :=
  forall k lo hi, In (k, (lo, hi)) bounds ->
    exists r, has p k (Fin r) /\ machine F r /\ rnd F lo <= r /\
      (r <= rnd F hi \/ In k over /\ r <= rnd F hi + slack).

(** The parameters that can exceed their upper bound in single precision, and in
    double precision. *)
Definition overshooting32 : list string :=
  flat_map (fun s => ["lgm0pop_c0_ylo" ++ s; "lgm0pop_c0_clip_c1" ++ s; "lgm0pop_c1_ylo" ++ s])
    four_populations.
Definition overshooting64 : list string :=
  map (fun s => "lgm0pop_c0_clip_c1" ++ s) four_populations.

(** A population parameter set of finite machine numbers, each within [tol] of its
    published interval. *)
Definition near_bounds (F : arith) (tol : R) (bounds : list (string * (R * R)))
  (p : list (string * xr)) : Prop :=
  forall k lo hi, In (k, (lo, hi)) bounds ->
    exists r, has p k (Fin r) /\ machine F r /\ lo - tol <= r <= hi + tol.
Definition near_legal_pop (F : arith) (tol : R) (p : list (string * xr)) : Prop :=
  shaped (map fst pop_bounds) p /\ near_bounds F tol pop_bounds p.

(** Halo parameters that are machine numbers within the closed published bounds;
    [rnd F (1/10)] and [rnd F (5/100)] are the machine constants written 0.1 and 0.05
    in the source. *)
Definition machine_legal (F : arith) (q : DiffmahParams R) : Prop :=
  within 0 (logm0 q) 17 /\ within (-1) (logtc q) 1 /\
  within (rnd F (1 / 10)) (late_index q) 5 /\
  within (late_index q) (early_index q) 10 /\
  within (rnd F (5 / 100)) (t_peak q) 20 /\ machine_params F q.

(** The random numbers are finite. *)
Definition finite_draws (G : rng xr) : Prop :=
  (forall k, exists r, uniform G k = Fin r) /\ (forall k c, all_finite (deviation G k c)).

(** Finite machine numbers between [lo] and [hi]. *)
Definition machine_values (F : arith) (lo hi : R) (xs : list xr) : Prop :=
  forall x, In x xs -> exists r, x = Fin r /\ machine F r /\ lo <= r <= hi.

(** A row of a table of accretion rates and a row of a table of log-masses, at the
    times [ss]: finite, and up to [t0] the mass never decreases and the rate is never
    negative. *)
Definition tame_history (ss : list R) (t0 : R) (dmhdt log_mah : list xr) : Prop :=
  exists ds ms, dmhdt = map Fin ds /\ log_mah = map Fin ms /\
    List.length ds = List.length ss /\ List.length ms = List.length ss /\
    (forall a b s s' m m', nth_error ss a = Some s -> nth_error ss b = Some s' -> s <= s' -> s' <= t0 ->
      nth_error ms a = Some m -> nth_error ms b = Some m' -> m <= m') /\
    (forall a s d, nth_error ss a = Some s -> s <= t0 -> nth_error ds a = Some d -> 0 <= d).

(** Every row of the table is a halo with legal machine parameters. *)
Definition legal_rows (F : arith) (n : nat) (P : DiffmahParams (list xr)) : Prop :=
  n_rows P n /\ forall i, (i < n)%nat -> exists q, row_is P i (inject q) /\ machine_legal F q.

(** What is asked of the cumulative truncated normal distribution of the library on
    finite numbers: finite values between 0 and 1 that do not decrease with [x]. *)
Definition machine_cdf (Tn : xr -> xr -> xr -> xr -> xr -> xr) : Prop :=
  forall a b loc scale, a < b -> 0 < scale ->
  exists f : R -> R, (forall x, Tn (Fin x) (Fin a) (Fin b) (Fin loc) (Fin scale) = Fin (f x)) /\
    (forall x, 0 <= f x <= 1) /\ (forall x y, x <= y -> f x <= f y).
