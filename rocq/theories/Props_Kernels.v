(** Properties C01-C14 and C58-C62: halo parameters and mass histories.
    Real arithmetic unless the statement mentions [xr]. *)

From Coq Require Import Reals Lra Lia List.
From Coquelicot Require Import Coquelicot.
From Verif Require Import Model_Num RealAux Model_Kernels Spec_Kernels Proofs_Kernels
  Proofs_Kernels2 Proofs_Kernels3 Proofs_XKernels Proofs_AD Proofs_XAD.
Import ListNotations.
Local Open Scope R_scope.

(** The default parameters of the package meet every hypothesis used below. *)
Example default_legal : legal DEFAULT_MAH_PARAMS.
Proof. unfold legal, DEFAULT_MAH_PARAMS; cbn; lra. Qed.

Example default_t_peak_early : t_peak DEFAULT_MAH_PARAMS <= pow10 (22 / 63) * pow10 1.
Proof. rewrite pow10_1. cbn. pose proof pow10_22_63_bound. lra. Qed.

(** C01 *)
Theorem C01_bounded_params_legal : forall u : DiffmahUParams R,
  let p := get_bounded_mah_params u in
  0 < logm0 p < 17 /\ -1 < logtc p < 1 /\ 1 / 10 < late_index p < 5 /\
  late_index p < early_index p < 10 /\ 5 / 100 < t_peak p < 20.
Proof. exact bounded_legal. Qed.
Print Assumptions C01_bounded_params_legal.

(** C02 *)
Theorem C02_bounding_bijection :
  (forall p : DiffmahParams R, legal p ->
     get_bounded_mah_params (get_unbounded_mah_params p) = p) /\
  (forall u : DiffmahUParams R,
     get_unbounded_mah_params (get_bounded_mah_params u) = u).
Proof. exact (conj bounded_unbounded unbounded_bounded). Qed.
Print Assumptions C02_bounding_bijection.

(** C03 *)
Theorem C03_unbounded_finite_iff_legal : forall p : DiffmahParams xr,
  all_finite_u (get_unbounded_mah_params p) <-> exists q, p = inject q /\ legal q.
Proof. exact x_unbounded_finite_iff. Qed.
Print Assumptions C03_unbounded_finite_iff_legal.

(** C03, what each out-of-domain value turns into.  logm0, logtc, late_index
    and t_peak are unbounded independently of the other parameters. *)
Theorem C03_unbounded_special_values : forall p : DiffmahParams xr,
  let u := get_unbounded_mah_params p in
  let col y (uy : xr) lo hi :=
    (y = Fin lo -> uy = MInf) /\ (y = Fin hi -> uy = PInf) /\
    (forall r, y = Fin r -> r < lo \/ hi < r -> uy = NaN) /\
    (y = PInf \/ y = MInf \/ y = NaN -> uy = NaN) in
  col (logm0 p) (u_logm0 u) 0 17 /\ col (logtc p) (u_logtc u) (-1) 1 /\
  col (late_index p) (u_late_index u) (1 / 10) 5 /\
  col (t_peak p) (u_t_peak u) (5 / 100) 20 /\
  (forall l, late_index p = Fin l -> l < 10 -> col (early_index p) (u_early_index u) l 10).
Proof.
  intros p. cbv zeta beta.
  refine (conj _ (conj _ (conj _ (conj _ _)))).
  - exact (proj2 (x_unbounded_param (logm0 p) 0 17 ltac:(lra))).
  - exact (proj2 (x_unbounded_param (logtc p) (-1) 1 ltac:(lra))).
  - exact (proj2 (x_unbounded_param (late_index p) (1 / 10) 5 ltac:(lra))).
  - exact (proj2 (x_unbounded_param (t_peak p) (5 / 100) 20 ltac:(lra))).
  - exact (x_u_early p).
Qed.
Print Assumptions C03_unbounded_special_values.

(** C04 *)
Theorem C04_mass_nondecreasing : forall p lgt0 ts i j t1 t2 m1 m2,
  legal p ->
  t_peak p <= pow10 (22 / 63) * pow10 lgt0 ->
  nth_error ts i = Some t1 -> nth_error ts j = Some t2 -> 0 < t1 -> t1 <= t2 ->
  nth_error (snd (mah_singlehalo p ts lgt0)) i = Some m1 ->
  nth_error (snd (mah_singlehalo p ts lgt0)) j = Some m2 ->
  m1 <= m2 /\ (t1 < t2 -> t1 < t_peak p -> m1 < m2).
Proof.
  intros p lgt0 ts i j t1 t2 m1 m2 HL HT Hi Hj H0 H12 H1 H2.
  rewrite mah_singlehalo_map in H1, H2. cbn [snd] in H1, H2.
  rewrite (map_nth_error _ i ts Hi) in H1. rewrite (map_nth_error _ j ts Hj) in H2.
  injection H1 as <-. injection H2 as <-.
  now apply logmh_monotone.
Qed.
Print Assumptions C04_mass_nondecreasing.

(** C04 for present-day epochs: no condition on t_peak is left for t0 >= 8.96 Gyr. *)
Theorem C04_mass_nondecreasing_late_t0 : forall p lgt0 t1 t2,
  legal p -> 896 / 100 <= pow10 lgt0 -> 0 < t1 -> t1 <= t2 ->
  logmh_at_t_obs p t1 lgt0 <= logmh_at_t_obs p t2 lgt0.
Proof.
  intros p lgt0 t1 t2 HL H0 Ht H12. apply logmh_monotone; auto.
  pose proof pow10_22_63_bound. destruct HL as (_ & _ & _ & _ & HP). nra.
Qed.
Print Assumptions C04_mass_nondecreasing_late_t0.

(** C04, the condition on t_peak is exact: for a peak time [T] it holds exactly when
    no legal halo peaking at [T] ever loses mass. *)
Theorem C04_threshold_exact : forall T lgt0, 1 / 2 <= T < 20 ->
  ((forall p, legal p -> t_peak p = T -> forall t1 t2, 0 < t1 -> t1 <= t2 ->
      logmh_at_t_obs p t1 lgt0 <= logmh_at_t_obs p t2 lgt0)
   <-> T <= pow10 (22 / 63) * pow10 lgt0).
Proof.
  intros T lgt0 HT. split.
  - intros H. destruct (Rle_lt_dec T (pow10 (22 / 63) * pow10 lgt0)) as [|HX]; auto. exfalso.
    destruct (falling_halo_exists T lgt0 HT HX) as (p & HL & HP & HR). rewrite <- HP in HR.
    destruct (falling_before_peak p lgt0 ltac:(lra) HR) as (t & Ht & HM).
    pose proof (H p HL HP t (t_peak p) ltac:(lra) ltac:(lra)). lra.
  - intros H p HL HP t1 t2 H1 H2. apply logmh_monotone; auto. lra.
Qed.
Print Assumptions C04_threshold_exact.

(** C04, the epochs at which no legal halo of any kind loses mass (from about 8.95 Gyr). *)
Theorem C04_epochs_exact : forall lgt0,
  (forall p, legal p -> forall t1 t2, 0 < t1 -> t1 <= t2 ->
      logmh_at_t_obs p t1 lgt0 <= logmh_at_t_obs p t2 lgt0)
  <-> 20 <= pow10 (22 / 63) * pow10 lgt0.
Proof.
  intros lgt0. split.
  - intros H. destruct (Rle_lt_dec 20 (pow10 (22 / 63) * pow10 lgt0)) as [|HX]; auto. exfalso.
    set (thr := pow10 (22 / 63) * pow10 lgt0) in *.
    set (T := Rmax 1 ((thr + 20) / 2)).
    assert (HT : 1 / 2 <= T < 20 /\ thr < T).
    { unfold T. pose proof (Rmax_l 1 ((thr + 20) / 2)). pose proof (Rmax_r 1 ((thr + 20) / 2)).
      split; [split|]; try lra. apply Rmax_lub_lt; lra. }
    assert (HE : T <= thr); [|lra].
    apply (proj1 (C04_threshold_exact T lgt0 (proj1 HT))). intros p HL _. now apply H.
  - intros H p HL t1 t2 H1 H2. apply logmh_monotone; auto. destruct HL as (_ & _ & _ & _ & HP). lra.
Qed.
Print Assumptions C04_epochs_exact.

(** C04 without the condition on t_peak is false: a legal halo loses mass. *)
Theorem C04_unrestricted_refuted :
  exists p lgt0 t1 t2, legal p /\ 0 < t1 /\ t1 < t2 /\ t2 < t_peak p /\
    logmh_at_t_obs p t2 lgt0 < logmh_at_t_obs p t1 lgt0.
Proof.
  exists decreasing_halo, (-1), 1, 10.
  split; [exact decreasing_halo_legal|]. split; [lra|]. split; [lra|].
  split; [cbn; lra | exact decreasing_halo_decreases].
Qed.
Print Assumptions C04_unrestricted_refuted.

(** C05 *)
Theorem C05_rate_sign : forall p lgt0 ts i t d,
  nth_error ts i = Some t ->
  nth_error (fst (mah_singlehalo p ts lgt0)) i = Some d ->
  (t_peak p < t -> d = 0) /\
  (legal p -> t_peak p <= pow10 (22 / 63) * pow10 lgt0 -> 0 < t -> t <= t_peak p -> 0 < d).
Proof.
  intros p lgt0 ts i t d Hi Hd.
  rewrite mah_singlehalo_map in Hd. cbn [fst] in Hd.
  rewrite (map_nth_error _ i ts Hi) in Hd. injection Hd as <-.
  split; [apply rate_after | intros; now apply rate_pos].
Qed.
Print Assumptions C05_rate_sign.

(** C05, the condition on t_peak is exact. *)
Theorem C05_threshold_exact : forall T lgt0, 1 / 2 <= T < 20 ->
  ((forall p, legal p -> t_peak p = T -> forall t, 0 < t -> t <= T -> 0 < rate p lgt0 t)
   <-> T <= pow10 (22 / 63) * pow10 lgt0).
Proof.
  intros T lgt0 HT. split.
  - intros H. destruct (Rle_lt_dec T (pow10 (22 / 63) * pow10 lgt0)) as [|HX]; auto. exfalso.
    destruct (falling_halo_exists T lgt0 HT HX) as (p & HL & HP & HR).
    pose proof (H p HL HP T ltac:(lra) ltac:(lra)). lra.
  - intros H p HL HP t H1 H2. apply rate_pos; auto; lra.
Qed.
Print Assumptions C05_threshold_exact.

(** Both sides occur: a peak at 2 Gyr is safe for an epoch at 1 Gyr, one at 3 Gyr is not. *)
Example C05_threshold_example :
  2 <= pow10 (22 / 63) * pow10 0 /\ ~ 3 <= pow10 (22 / 63) * pow10 0.
Proof.
  rewrite pow10_0. pose proof pow10_22_63_bound. split; [lra|].
  assert (HB : pow10 (22 / 63) <= pow10 (42 / 100)) by (apply pow10_le; lra).
  assert (HE : pow10 (42 / 100) ^ 50 = 10 ^ 21).
  { rewrite <- pow10_1, !pow10_INR_pow. f_equal. rewrite !INR_IZR_INZ. cbn -[IZR]. lra. }
  intros HX. assert (HL : 3 ^ 50 <= pow10 (42 / 100) ^ 50) by (apply pow_incr; lra).
  rewrite HE in HL. lra.
Qed.

(** C06.  [is_derive] is Coquelicot's derivative of a real function. *)
Theorem C06_rate_is_derivative : forall p lgt0 ts i t d,
  nth_error ts i = Some t -> 0 < t ->
  nth_error (fst (mah_singlehalo p ts lgt0)) i = Some d ->
  let M := fun t' => exp (logmh_at_t_obs p t' lgt0 * ln 10) in
  (t <> t_peak p -> is_derive M t (1000000000 * d)) /\
  (t = t_peak p -> left_derivative M t (1000000000 * d) /\ right_derivative M t 0).
Proof.
  intros p lgt0 ts i t d Hi Ht Hd.
  rewrite mah_singlehalo_map in Hd. cbn [fst] in Hd.
  rewrite (map_nth_error _ i ts Hi) in Hd. injection Hd as <-.
  split; [now apply rate_is_derivative|].
  intros ->. split; [now apply rate_left_derivative | apply mass_right_derivative].
Qed.
Print Assumptions C06_rate_is_derivative.

(** C07.  [is_RInt] is the Riemann integral. *)
Theorem C07_mass_is_integral_of_rate : forall p lgt0 t1 t2,
  legal p -> 0 < t1 -> t1 <= t2 ->
  is_RInt (fun t => rate p lgt0 t * 1000000000) t1 t2
    (exp (logmh_at_t_obs p t2 lgt0 * ln 10) - exp (logmh_at_t_obs p t1 lgt0 * ln 10)).
Proof.
  intros p lgt0 t1 t2 (_ & _ & _ & _ & HP) H1 H2. apply mass_is_integral; lra.
Qed.
Print Assumptions C07_mass_is_integral_of_rate.

(** [rate] above is the entry reported in any time array. *)
Theorem C07_rate_meaning : forall p lgt0 ts i t,
  nth_error ts i = Some t ->
  nth_error (fst (mah_singlehalo p ts lgt0)) i = Some (rate p lgt0 t).
Proof.
  intros p lgt0 ts i t Hi. rewrite mah_singlehalo_map. now apply map_nth_error.
Qed.
Print Assumptions C07_rate_meaning.

(** C08 *)
Theorem C08_logm0_is_mass_at_t0 : forall p lgt0, legal p ->
  (logmh_at_t_obs p (pow10 lgt0) lgt0 = logm0 p <-> pow10 lgt0 <= t_peak p) /\
  (t_peak p < pow10 lgt0 -> logmh_at_t_obs p (pow10 lgt0) lgt0 < logm0 p).
Proof. exact norm_at_t0. Qed.
Print Assumptions C08_logm0_is_mass_at_t0.

(** C09 *)
Theorem C09_frozen_and_bounded : forall p lgt0 t,
  (t_peak p <= t -> logmh_at_t_obs p t lgt0 = logmh_at_t_obs p (t_peak p) lgt0) /\
  (legal p -> 0 < t -> t <= pow10 lgt0 -> logmh_at_t_obs p t lgt0 <= logm0 p).
Proof. intros p lgt0 t. split; [apply frozen_after_peak | apply below_logm0]. Qed.
Print Assumptions C09_frozen_and_bounded.

(** C10, for any number semantics (reals, IEEE special values, duals). *)
Theorem C10_halopop_rowwise : forall (A : Type) (N : Num A)
  (p : DiffmahParams (list A)) ts lgt0,
  ((exists out, mah_halopop p ts lgt0 = Some out) <->
   (length (logtc p) = length (logm0 p) /\ length (early_index p) = length (logm0 p) /\
    length (late_index p) = length (logm0 p) /\ length (t_peak p) = length (logm0 p))) /\
  (forall dm lm, mah_halopop p ts lgt0 = Some (dm, lm) ->
    length dm = length (logm0 p) /\ length lm = length (logm0 p) /\
    forall i m c e l tp,
      nth_error (logm0 p) i = Some m -> nth_error (logtc p) i = Some c ->
      nth_error (early_index p) i = Some e -> nth_error (late_index p) i = Some l ->
      nth_error (t_peak p) i = Some tp ->
      nth_error dm i = Some (fst (mah_singlehalo (mkParams m c e l tp) ts lgt0)) /\
      nth_error lm i = Some (snd (mah_singlehalo (mkParams m c e l tp) ts lgt0))).
Proof. exact halopop_rowwise. Qed.
Print Assumptions C10_halopop_rowwise.

Example C10_two_halos : exists out,
  mah_halopop (mkParams [12; 13] [0; 0] [2; 3] [1; 1] [14; 5]) [1; 2; 13] 1 = Some out.
Proof. eexists. reflexivity. Qed.

(** C11 *)
Theorem C11_logmh_at_t_obs_agrees : forall (A : Type) (N : Num A) (p : DiffmahParams A) ts lgt0,
  length (snd (mah_singlehalo p ts lgt0)) = length ts /\
  length (fst (mah_singlehalo p ts lgt0)) = length ts /\
  forall i t, nth_error ts i = Some t ->
    nth_error (snd (mah_singlehalo p ts lgt0)) i = Some (logmh_at_t_obs p t lgt0).
Proof. exact logmh_at_t_obs_agrees. Qed.
Print Assumptions C11_logmh_at_t_obs_agrees.

Theorem C11_logmh_at_t_obs_pop : forall (A : Type) (N : Num A)
  (p : DiffmahParams (list A)) tobs lgt0 out,
  logmh_at_t_obs_pop p tobs lgt0 = Some out ->
  length out = length (logm0 p) /\ length tobs = length (logm0 p) /\
  forall i m c e l tp t,
    nth_error (logm0 p) i = Some m -> nth_error (logtc p) i = Some c ->
    nth_error (early_index p) i = Some e -> nth_error (late_index p) i = Some l ->
    nth_error (t_peak p) i = Some tp -> nth_error tobs i = Some t ->
    nth_error out i = Some (logmh_at_t_obs (mkParams m c e l tp) t lgt0).
Proof. exact logmh_at_t_obs_pop_spec. Qed.
Print Assumptions C11_logmh_at_t_obs_pop.

(** C12 *)
Theorem C12_power_law_envelope : forall p lgt0 t,
  legal p -> 0 < t -> t < pow10 lgt0 -> t < t_peak p ->
  logm0 p + early_index p * (log10 t - lgt0) < logmh_at_t_obs p t lgt0 /\
  logmh_at_t_obs p t lgt0 < logm0 p + late_index p * (log10 t - lgt0).
Proof. exact envelope. Qed.
Print Assumptions C12_power_law_envelope.

(** The effective slope (log_mah - logm0)/(log10 t - lgt0) lies strictly between
    the two indices and strictly decreases with time, on both sides of t0. *)
Theorem C12_effective_slope : forall p lgt0 t,
  legal p -> 0 < t -> t < t_peak p -> t <> pow10 lgt0 ->
  let slope t := (logmh_at_t_obs p t lgt0 - logm0 p) / (log10 t - lgt0) in
  late_index p < slope t < early_index p /\
  (forall t', t < t' -> t' < t_peak p -> t' <> pow10 lgt0 -> slope t' < slope t).
Proof. exact effective_slope. Qed.
Print Assumptions C12_effective_slope.

Example C12_hypotheses : 0 < 1 /\ 1 < pow10 1 /\ 1 < t_peak DEFAULT_MAH_PARAMS.
Proof. rewrite pow10_1. cbn. lra. Qed.

(** C13 *)
Theorem C13_special_times : forall p lgt0, legal p ->
  let out t := diffmah_kern_scalar (inject p) t (Fin lgt0) in
  out (Fin 0) = (NaN, MInf) /\
  mah_kern (inject p) (Fin 0) (Fin lgt0) = Fin 0 /\
  (forall t, t < 0 -> out (Fin t) = (NaN, NaN)) /\
  (forall t, 0 < t -> out (Fin t) = (Fin (rate p lgt0 t), Fin (logmh_at_t_obs p t lgt0))) /\
  out PInf = (Fin 0, Fin (logmh_at_t_obs p (t_peak p) lgt0)) /\
  out NaN = (NaN, Fin (logmh_at_t_obs p (t_peak p) lgt0)).
Proof. exact special_times. Qed.
Print Assumptions C13_special_times.

Theorem C13_nan_parameter : forall (p : DiffmahParams xr) t lgt0,
  logm0 p = NaN \/ logtc p = NaN \/ early_index p = NaN \/ late_index p = NaN \/ t_peak p = NaN ->
  logmh_at_t_obs p t lgt0 = NaN.
Proof. exact x_log_mah_nan_params. Qed.
Print Assumptions C13_nan_parameter.

(** C14.  The derivative computed by differentiating the kernel source along any
    direction [v] of unbounded-parameter space is the true directional
    derivative; the value part is the function itself. *)
Theorem C14_fit_gradient_correct : forall (u v : DiffmahUParams R) t lgt0,
  0 < t -> t <> t_peak (get_bounded_mah_params u) ->
  let ad := log_mah_kern_u_params (useed u v) (dlift t) (dlift lgt0) in
  dval ad = log_mah_kern_u_params u t lgt0 /\
  is_derive (fun h => log_mah_kern_u_params (uline u v h) t lgt0) 0 (dder ad).
Proof. exact ad_u_params. Qed.
Print Assumptions C14_fit_gradient_correct.

(** C14 with t_peak held fixed, as the fitter does: also at t = t_peak. *)
Theorem C14_fit_gradient_correct_fixed_t_peak : forall (u v : DiffmahUParams R) t lgt0,
  0 < t -> u_t_peak v = 0 ->
  let ad := log_mah_kern_u_params (useed u v) (dlift t) (dlift lgt0) in
  dval ad = log_mah_kern_u_params u t lgt0 /\
  is_derive (fun h => log_mah_kern_u_params (uline u v h) t lgt0) 0 (dder ad).
Proof. exact ad_u_params_fixed. Qed.
Print Assumptions C14_fit_gradient_correct_fixed_t_peak.

(** C14: with special values the gradient is never NaN or infinite. *)
Theorem C14_fit_gradient_finite : forall (u v : DiffmahUParams R) t lgt0,
  0 < t ->
  exists y d, log_mah_kern_u_params (dfin_uparams (useed u v)) (dlift (Fin t)) (dlift (Fin lgt0))
    = mkDual (Fin y) (Fin d) /\
  d = dder (log_mah_kern_u_params (useed u v) (dlift t) (dlift lgt0)).
Proof.
  intros u v t lgt0 Ht. rewrite x_gradient_finite by auto. unfold dfin. eauto.
Qed.
Print Assumptions C14_fit_gradient_finite.

(** C58: the normalisation is free.  Adding d dex to logm0 adds d dex at all
    times and multiplies the rate by 10^d. *)
Theorem C58_logm0_shift : forall p d lgt0 t, 0 < t ->
  let p' := mkParams (logm0 p + d) (logtc p) (early_index p) (late_index p) (t_peak p) in
  logmh_at_t_obs p' t lgt0 = logmh_at_t_obs p t lgt0 + d /\
  rate p' lgt0 t = pow10 d * rate p lgt0 t.
Proof. intros p d lgt0 t Ht. split; [apply shift_logm0 | now apply rate_shift]. Qed.
Print Assumptions C58_logm0_shift.

(** C59: the history does not depend on the unit of time. *)
Theorem C59_time_unit_invariance : forall p c lgt0 t,
  0 < c -> 0 < t -> 0 < t_peak p ->
  logmh_at_t_obs
    (mkParams (logm0 p) (logtc p + log10 c) (early_index p) (late_index p) (c * t_peak p))
    (c * t) (lgt0 + log10 c)
  = logmh_at_t_obs p t lgt0.
Proof. exact time_unit_invariance. Qed.
Print Assumptions C59_time_unit_invariance.

(** C60: the history is continuous in time, also across t_peak. *)
Theorem C60_history_continuous : forall p lgt0 t,
  0 < t -> 0 < t_peak p -> continuous (fun t => logmh_at_t_obs p t lgt0) t.
Proof. exact mass_continuous. Qed.
Print Assumptions C60_history_continuous.
