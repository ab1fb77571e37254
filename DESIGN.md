# Formal model of diffmah: design

## What is modelled

The subject is the Python package in `/repo` (diffmah). The model is a shallow
embedding in Gallina: one definition per Python function, branch by branch, each
with a comment citing file and lines. Files `Model_*.v` contain definitions only,
`Proofs_*.v` the proofs, `Props_*.v` the property theorems, each followed by
`Print Assumptions` and by examples showing that the hypotheses are satisfiable.

### Numbers

* The numerical kernels are written once over a small class of operations
  (`Num`: + - * / exp log log10 10^ logistic, constants and comparison).
  The same source is instantiated at
  1. `R`, Coq's real numbers: the idealised meaning (no rounding, no overflow);
  2. `xr`, finite real / +inf / -inf / NaN with the IEEE-754 rules for special
     values (no rounding, no overflow, zero is always +0);
  3. dual numbers over `R`: the meaning of `jax.grad` (forward mode; jax uses
     reverse mode, which computes the same derivative).
  4. rounded arithmetic (`Num_fl`, `Num_xfl` in `Model_Float.v`): every operation
     rounded, with an arbitrary order-preserving rounding or Flocq's IEEE round to
     nearest, with or without overflow, infinities and NaN (C67-C70).
* Rounding is not modelled outside C67-C70, except where a property is about it (the
  float32 cast of the fitter is an arbitrary monotone idempotent function).
* Theorems over `R` carry hypotheses that keep every division and logarithm inside
  its mathematical domain, or are stated at `xr`, so Coq's total `/0` and `ln` of a
  non-positive number never make a theorem true.

### Arrays, control flow, outside world

* 1-D arrays are lists, shapes are list lengths; ragged input is an error value.
* Exceptions are values (`option` or a small error type).
* scipy's L-BFGS-B, jax's Adam state, truncnorm and the PRNG are oracles: arbitrary
  functions (Section variables, generalised on closing the section), with the few
  assumed facts written as explicit hypotheses of the theorems that need them.
* Random keys are terms of a free algebra of `PRNGKey` and `split`.
* The MPI scripts are interleaving small-step systems over a map of files.
* Text output is modelled at the level of character lists.

### Not modelled

XLA compilation and `jit` (treated as identity), dtype promotion, float rounding
(except as above), plotting, downloading of data, performance.

## Trusted base

Coq 8.16.1's kernel; the axioms reported by `Print Assumptions` beside each theorem,
all from the standard library (the classical real numbers); the faithfulness of the
hand-written model to the cited Python lines; the oracle assumptions listed below.
The final section lists axioms per theorem file.

## Plan per property

### C01 Bounding always yields legal halo parameters

Model the sigmoid and the bounding maps over a numeric class (real-number instance). Prove strict bounds of the sigmoid from 0<1/(1+exp(-x))<1.

### C02 Bounded and unbounded halo parameters are in exact bijection

Algebra of the logistic function and its inverse over the reals; early index depends on late, so the two-dimensional map is inverted in order.

### C03 Unbounding is finite exactly on the legal domain

Same Gallina source instantiated at an extended-real type Fin/+inf/-inf/NaN with idealised IEEE operations (no rounding, zero taken as +0).

### C04 Halo mass never decreases with time

Sign analysis of the derivative late+(early-late)s(1-k(1-s)d): with early < 100*late it is positive up to k*d = 11/9 because the quadratic in s becomes a square there; mean value theorem over the reals. Beyond the limit a family of legal halos with indices close to their bounds is shown to fall just before the peak, which gives the two if-and-only-if statements.

### C05 Mass accretion rate is positive before t_peak and zero after it

Closed form of the derivative obtained by dual-number differentiation of the same kernel source, positivity as in C04.

### C06 dmhdt is the exact derivative of the mass history, in Msun/yr

jax.grad is modelled as forward-mode dual numbers run on the same kernel source; prove the dual result is the Coquelicot derivative (is_derive) and relate it to the clipped kernel on each side of t_peak.

### C07 Mass gained equals the time integral of the accretion rate

Fundamental theorem of calculus (Coquelicot RInt) on each side of t_peak plus Chasles.

### C08 logm0 is the mass at t0 exactly when the halo is still growing

Direct computation; strictness from positivity of the rolling index.

### C09 Mass history is frozen after t_peak and bounded by logm0 up to t0

Case analysis on t<t_peak with positivity of the index.

### C10 Population calls are halo-by-halo single-halo calls

vmap modelled as gathering the i-th entry of every parameter column (a struct of arrays); columns of unequal length are an error value. Induction on the population.

### C11 logmh_at_t_obs agrees with the full history

Pointwise equality of list maps.

### C12 Mass history is squeezed between two power laws

Bounds of the sigmoid and sign of log10 t - lgt0.

### C13 Special times: zero, negative and non-finite inputs

Extended-real instance of the kernel source.

### C14 The mass history is differentiable in every fit parameter

Dual-number instance of the kernel source; soundness theorem relating dual numbers to is_derive.

### C15 get_dt_array partitions time

Loop modelled as a fold with mutable dt; invariant over the loop index.

### C16 Cholesky parameter layout is a bijection

Model the cumsum construction literally on matrices of naturals; prove the closed form ndim+i(i-1)/2+j and that the index map is injective and onto.

### C17 Trimmed mean is the mean of the strictly interior points

Linear-interpolation percentile on a sorted copy; weights as in the source; 0/0 handled in the extended-real/option model.

### C18 Trimmed variance is the unbiased sample variance of the kept points

As C17.

### C19 Correlation and covariance conversions are inverse

Matrices as nat->nat->R on index ranges with real dot products as finite sums.

### C20 get_1d_arrays broadcasts or refuses

Arguments as scalar-or-list values; result as option.

### C21 _sig_slope pivots exactly and its secant slope stays between lo and hi

Algebra over sigmoid bounds.

### C22 Halos with too little data are skipped, with a uniform sentinel

Fitter control flow modelled with the optimiser (scipy minimize, jax Adam) as an arbitrary oracle.

### C23 Fit target is exactly the masked, monotonised history

Boolean mask and maximum.accumulate on lists; induction.

### C24 t_peak is the first time the final mass is attained

argmax of a boolean array as first-true search; rounding to float32 as an arbitrary monotone function on the values.

### C25 The fitted t_peak is the requested or simulated t_peak

u_t_peak bypasses the optimiser; apply C02 to the cast value.

### C26 Fitted parameters are always legal

C01 applied to the oracle's output.

### C27 The fitting loss is the mean squared log-mass residual

Finite sums of squares.

### C28 Adam returns the best visited point

Loop over an abstract optimiser state (opt_init/opt_update/get_params as arbitrary functions) and extended-real losses; loop invariant.

### C29 The warm-up can never make the main burn start from NaN, and its status codes

Compose C28; exceptions as values.

### C30 BFGS result is used exactly when it succeeded with a finite positive loss

Oracle model; the discard of a zero-loss fit is stated as a theorem.

### C31 Outline lines parse back to the written fit

Character-level model of '{:.5e}' formatting of a rational with rounding, split on whitespace and decimal parsing.

### C32 Lines written with a halo id do not parse back

Same string model; int() of a string containing '.' fails.

### C33 Collated columns keep their names

Table as list of rows of strings, file as association list.

### C34 Sub-threshold masses and the lgm_min selection

Real and extended-real instance of the clip; interplay with the mask.

### C35 Every population component has an exact bounded/unbounded bijection

Generic name-indexed vector bounding with the bounds tables of every component transcribed; proof by the generic sigmoid bijection and lo<hi of each transcribed bound.

### C36 Full population parameter round trip

Name-indexed records; prove the exact characterisation (identity except alpha<-beta) and a refutation of the full identity.

### C37 Component routing is a partition of the parameter names

Names as strings; computation for the partition, induction for exclusion.

### C38 Population covariance matrices are always valid

Sigmoid bounds give |rho|<0.3; diagonal dominance 3*0.3<1 gives a positive quadratic form.

### C39 Fraction of early-forming halos is a probability

Convexity of sigmoid outputs.

### C40 Probability of still growing is a monotone probability

Monotone composition of clips.

### C41 Monte Carlo t_peak of centrals lies in [0.05*t0, t0]

jnp.interp modelled over lists; range and monotonicity of interpolation in sorted tables; the draw inverts the published curve up to the table spacing.

### C42 Monte Carlo t_peak of satellites lies in [0.1001,0.9999]*t_obs

As C41, with the truncated normal defined by integrals of the Gaussian.

### C43 Mean population parameters are legal diffmah shape parameters

Bounds of each component and clip arithmetic.

### C44 Early and late realisations of a halo share their t_peak

Key algebra (free split trees) and oracle draws.

### C45 Random keys are not consumed twice

Key-consumption trace in the free key algebra; refutation plus positive theorem for draws of different halos.

### C46 Population sampling selects whole halos

Lists of halos with oracle draws.

### C47 Predicted population moments are weighted moments

Finite weighted sums.

### C48 Predicted z=0 mass exceeds the observed mass

Signs of c0 and c1 from the bounds tables; explicit legal parameter sets outside the limits, with hand-made bounds on exp.

### C49 Row scattering is a partition with balanced sizes

np.array_split arithmetic on lists; a small-step semantics of ranks with message channels, buffered or synchronous sends; a diamond lemma for race-free programs, so that one run decides all.

### C50 Flat table writing and reading are inverse

HDF5 file as a tree of named groups and columns, Python slices on integers, path splitting on strings; induction over the keys. The nested-group failure is a general theorem and a refutation.

### C51 Parallel fitting gives the same table under every schedule

Small-step interleaving semantics of ranks with messages, barriers and a shared file system; each rank's file footprint between two barriers is shown to be its own, which makes all runs agree with one; that one is computed by induction over halos, files and chunks.

### C52 Unchunking never loses fits on a crash

Small-step file system model; invariant over every reachable state of every run in any sequence of runs.

### C53 Loaded mass histories are non-decreasing

Running maximum on lists of extended reals; induction. Counterexamples for the two conditional loaders.

### C54 Clean-sample mask only narrows and ignores the final time

Loop invariant; the trimmed sample is specified as the middle of the sorted sample, independent of the sorting code.

### C55 Measured targets are normalised to the sample mass

np.interp at the right end point and algebra of the rescaling.

### C56 Central t_peak distribution kernel

truncnorm cdf and pdf defined by integrals of the Gaussian (Coquelicot); values at the ends, monotonicity, and integral of the density.

### C57 Population loss is zero exactly on a perfect prediction

Finite sums of squares over bins with the predictor as an oracle.

### C58 The normalisation of a history is free

Algebra of the kernel over R; rate by the derivative.

### C59 Histories do not depend on the unit of time

Algebra of log10 over R.

### C60 Mass histories are continuous in time

The switched formula equals the smooth formula at min(t,t_peak).

### C61 Gradients handed to the optimisers are exact and finite

Dual numbers over R tracked against is_derive, and over the extended reals.

### C62 The reported loss is the loss of the returned parameters

Best-of-visited invariant of Adam composed with the bounded transform.

### C63 Every generated halo is legal

The bounded transform is applied last, so the bounds follow for any deviation.

### C64 A generated halo is the population mean plus the drawn deviation

Inversion of the generator and the bounding round trip.

### C65 Generated halos are finite for ordinary masses and NaN for extreme ones

Transfer of the kernels from R to the extended reals and interval bounds on the mean logm0.

### C66 A fitting run that stops anywhere loses no fit it has written

Rely-guarantee reasoning over the phases between barriers: which files each rank owns in each phase, what it guarantees at its end, and a family of facts every file operation preserves.

### C67 Rounding never makes a computed history decrease

The kernels instantiated at rounded arithmetic; monotonicity of rounding composed operation by operation, also through the dual numbers of the rate.

### C68 Bounding stays inside the closed bounds in floating point

Flocq: a rounded ramp lo+(hi-lo)*s overshoots its top by at most half a unit, and ties go to the even top.

### C69 No overflow on bounded parameters

A size bound 2^k carried through every intermediate of the kernel and of its derivative.

### C70 Computed log-masses are accurate

Forward error analysis with Flocq's relative error bound; the branch on t_peak is exact.

### C71 Samples of a mass and time bin hold exactly the halos of that bin

Boolean masks as index lists. The bins are equally spaced with step s; disjoint iff s >= 0.3 and covering iff s < 0.3.

### C72 Collating subvolume samples loses no halo at any moment

A run as the list of disks after each change; a weakest precondition with an invariant over that list. File names are parsed exactly.

### C73 The target pipeline never returns targets it did not measure

Calls carry their number of arguments; the runs are evaluated up to the failing call.

### C74 Component fits report the distance of what they return

Parameters are arrays or named tuples; reading a field of an array is an error. Columns of data are reduced to points; densities are compared with the integral definition of a truncated normal. The fits are instances of the fallback optimiser of C28-C30.

### C75 Population peak times are one independent draw per halo

Random functions return the list of keys they consume. vmap is a map over rows that needs equal lengths; broadcasting of numbers is explicit.

### C76 Simulation loaders return the rows asked for

HDF5 files as trees; the script on a file is shown to be the same program as the one of C51 on the halos of the file. haccytrees and dsps are arbitrary functions.

### C77 Test runs of the fitting scripts

The scripts with the switch as a parameter, on the MPI model of C51; each test run is shown to be the same program on a smaller sample, and the sections of the ranks are specified by their sizes.

### C78 Diagnostic figures compare each table row with its own prediction

A figure is the list of curves and bands passed to matplotlib; predictions are those of C47.

### C79 Gradients of the population losses

The loss of C43 run on dual numbers, with the multivariate normal sample as Cholesky factor times standard normals.

### C80 Gradients of the component losses

The losses of C74 run on dual numbers, with the rules of C79; the gradient at a perfect fit from the loss being nowhere negative.

### C81 Bounding of population parameters in machine arithmetic

The generic bounding code run on the rounded numbers of C68. The bounds lie between -128 and 128, so nothing overflows and the sigmoid ramp is monotone in its rounded value; the largest value lo + (hi - lo) is computed exactly for all 128 published intervals by a rounding of fractions proved equal to the IEEE one.

### C82 Masses below the threshold in double precision

The clip and the selection over a numeric class, at correctly rounded binary64 (Flocq): half a unit in the last place of 2^30 exceeds 1e-7; powers of ten up to 10^22 are machine numbers; log10 of the rounded 1e-7 rounds to -7.

### C83 Generated halos in machine arithmetic

The same generic population code at the instance of rounded reals with infinities and NaN: each kernel is enclosed in an interval that leaves room for the rounding errors; the bounded set of C81 lies within 1e-4 of its intervals; the histories follow from C67 and C69.

### C84 Population parameters mean what their names say

The kernels over the reals; a small specification of a gradual passage (monotone, its two limits, its mid-point and its ten and ninety per cent points), shown of the logistic curve once and of each kernel by reading its fields.

### C85 Computed accretion rates are accurate

The generic kernels at rounded reals, with the derivative as the dual-number program run in rounded arithmetic: error terms are propagated on the scale of 1/t for the slope, then relative errors through the power of ten and the products.

### C86 Conversions between bounded and unbounded parameters nearly invert each other in machine arithmetic

The generic conversions at rounded reals. Error terms are followed through sigmoid, quotient and logarithm; the flatness 1/(s(1-s)) of the sigmoid cancels on the way back in.

### C87 Rounding the parameters hardly moves the history

Lipschitz bounds of the sigmoid (slope at most a quarter) and of the logarithm, a convex combination for the two indices, and C26, C31 and C86 for the size of the parameter errors.

### C88 A history belongs to one set of parameters only

The limit of the history at early times in log-time gives the early index and the normalisation with an error of order 1/y; the remaining sigmoid terms are affine in an exponential, of which two values decide. Equal rates integrate (C07) to masses that differ by a constant, which vanishes early.

### C89 Formation times are well defined and ordered

Intermediate values and strict growth of the power law in log-time; the rolling index is strictly monotone in each of the three shape parameters.

### C90 The specific accretion rate always declines

Second derivative of the rolling power law in log-time, bounded by means of y/(1+exp(ky)) <= 1/k; mean value theorem.

### C91 Each parameter moves the history in one direction

Strict monotonicity of the rolling index in each shape parameter, at every log-time; strict growth between the peaks.

### C92 From simulated histories to the table of fits

Composition of C22, C23, C26, C62, C31, C87 and C51.

### C93 The choice of today is part of a fit

The difference of two such histories is the rolling index times the logarithm of the ratio of the ages, up to a constant; the index falls strictly with time and lies between its limits. For any parameters: early histories approach a straight line in log-time, and the leading correction to it carries today.

## Axioms per theorem

All axioms that `Print Assumptions` lists for any theorem, all of the standard library:

* `ClassicalDedekindReals.sig_forall_dec`
* `ClassicalDedekindReals.sig_not_dec`
* `Classical_Prop.classic`
* `FunctionalExtensionality.functional_extensionality_dep`

**Props_CompFit.v**

* `classic`, `functional_extensionality_dep`, `sig_forall_dec`, `sig_not_dec`: C74_component_loss, C74_true_parameters_fit, C74_number_is_constant_column, C74_global_loss, C74_global_fit_raises, C74_global_fit_returns_refuted, C74_multimass_loss, C74_single_sigmoid_loss, C74_tpeak_fit_legal, C74_tpeak_cens_fit_legal, C74_tpeak_reported_loss, C74_tpeak_cens_reported_loss, C74_tpeak_default_start

**Props_CompGrad.v**

* `classic`, `functional_extensionality_dep`, `sig_forall_dec`, `sig_not_dec`: C80_index_loss_gradient, C80_perfect_fit_is_stationary, C80_mass_loss_gradient, C80_multimass_loss_gradient, C80_curve_loss_gradient, C80_density_loss_gradient, C80_central_density_loss_gradient

**Props_Data.v**

* none (closed under the global context): C49_split_partition, C49_split_sizes, C49_select_by_number, C50_namedtuple_roundtrip, C50_flat_rows, C50_flat_whole, C50_flat_last, C50_flat_keys, C50_chunks_join, C50_nested_group_collapses, C50_nested_group_refuted
* `functional_extensionality_dep`, `sig_forall_dec`: C53_cumulative_peak, C53_hacc, C54_trimmed_unique, C55_rescaled_histories
* `functional_extensionality_dep`, `sig_forall_dec`, `sig_not_dec`: C54_keeps_inliers, C54_later_start_keeps_more, C54_normalisation_irrelevant, C54_no_spread_removes_all, C54_identical_halos_refuted, C54_negative_start
* `classic`, `functional_extensionality_dep`, `sig_forall_dec`, `sig_not_dec`: C53_bpl, C53_tng, C53_tng_refuted, C53_pub, C53_pub_refuted, C55_at_table_times, C55_last_time, C55_between_table_times

**Props_EndToEnd.v**

* `classic`, `functional_extensionality_dep`, `sig_forall_dec`, `sig_not_dec`: C92_tng, C92_bolshoi, C92_lastjourney, C92_galacticus

**Props_FitFloat.v**

* `classic`, `functional_extensionality_dep`, `sig_forall_dec`, `sig_not_dec`: C82_offset_lost, C82_floor_is_threshold, C82_points_below_removed, C82_zero_mass

**Props_Fitter.v**

* none (closed under the global context): C28_zero_steps_raise
* `functional_extensionality_dep`, `sig_forall_dec`: C24_first_index_at_final_mass, C24_non_decreasing_history, C24_index_of_maximum_refuted, C28_best_of_all_steps, C28_nan_after_first_step, C28_nan_at_first_step, C28_tolerance_reached, C28_cases_exhaustive, C29_start_of_main_burn, C29_never_worse_than_start, C29_flag_without_tolerance, C29_unbound_results, C30_bfgs_used_iff_success_with_positive_loss, C29_flag_documentation_refuted, C30_perfect_fit_kept_refuted
* `classic`, `functional_extensionality_dep`, `sig_forall_dec`, `sig_not_dec`: C22_skip_iff_too_little_data, C22_sentinel_iff_skipped, C22_never_raises, C23_target_is_masked_running_maximum, C25_fitted_t_peak, C26_within_bounds_or_nan, C26_fitted_parameters_legal, C27_loss_is_mean_squared_residual, C27_loss_zero_iff_reproduced, C27_loss_ignores_order, C61_gradient_exact, C61_loss_and_gradient_finite, C34_floor_passes_cut, C34_cut_without_effect, C34_zero_mass_without_floor, C62_reported_loss

**Props_Float.v**

* `functional_extensionality_dep`, `sig_forall_dec`: C67_landmarks_rounded
* `classic`, `functional_extensionality_dep`, `sig_forall_dec`, `sig_not_dec`: C67_mass_nondecreasing_rounded, C67_rate_sign_rounded, C68_bounding_rounded, C68_strict_bounds_refuted, C69_no_overflow, C70_log_mass_accuracy, C70_single_precision

**Props_Float2.v**

* `classic`, `functional_extensionality_dep`, `sig_forall_dec`, `sig_not_dec`: C85_rate_accuracy, C85_single_and_double

**Props_Float3.v**

* `classic`, `functional_extensionality_dep`, `sig_forall_dec`, `sig_not_dec`: C86_unbounded_round_trip, C86_bounded_round_trip, C86_single_and_double

**Props_Formation.v**

* `classic`, `functional_extensionality_dep`, `sig_forall_dec`, `sig_not_dec`: C89_formation_time, C89_order, C89_mass_immaterial, C89_early_index, C89_late_index, C89_critical_time, C89_peak_time, C89_late_index_stopped_refuted, C89_critical_time_stopped_refuted

**Props_Grad.v**

* `classic`, `functional_extensionality_dep`, `sig_forall_dec`, `sig_not_dec`: C79_satellite_loss_gradient, C79_central_u_loss_gradient, C79_censat_loss_gradient, C79_censat_u_loss_gradient, C79_cholesky_factor, C79_zero_correlation_halved, C79_zero_correlation_refuted

**Props_Identify.v**

* `classic`, `functional_extensionality_dep`, `sig_forall_dec`, `sig_not_dec`: C88_early_history, C88_early_rates, C88_history, C88_future_peak_refuted

**Props_Kernels.v**

* `functional_extensionality_dep`, `sig_forall_dec`: C11_logmh_at_t_obs_pop
* `classic`, `functional_extensionality_dep`, `sig_forall_dec`, `sig_not_dec`: C01_bounded_params_legal, C02_bounding_bijection, C03_unbounded_finite_iff_legal, C03_unbounded_special_values, C04_mass_nondecreasing, C04_mass_nondecreasing_late_t0, C04_threshold_exact, C04_epochs_exact, C04_unrestricted_refuted, C05_rate_sign, C05_threshold_exact, C06_rate_is_derivative, C07_mass_is_integral_of_rate, C07_rate_meaning, C08_logm0_is_mass_at_t0, C09_frozen_and_bounded, C10_halopop_rowwise, C11_logmh_at_t_obs_agrees, C12_power_law_envelope, C12_effective_slope, C13_special_times, C13_nan_parameter, C14_fit_gradient_correct, C14_fit_gradient_correct_fixed_t_peak, C14_fit_gradient_finite, C58_logm0_shift, C59_time_unit_invariance, C60_history_continuous

**Props_MPI.v**

* none (closed under the global context): C51_lastjourney_subvolumes
* `functional_extensionality_dep`: C49_scatter, C49_load_per_rank, C49_load_failure
* `functional_extensionality_dep`, `sig_forall_dec`: C52_no_fit_lost, C52_run, C52_extra_columns_refuted
* `classic`, `functional_extensionality_dep`, `sig_forall_dec`, `sig_not_dec`: C51_tng, C51_tng_few_halos, C51_tng_failing_fit, C51_refuted, C51_bolshoi, C51_bolshoi_few_halos, C51_bolshoi_failing_fit, C51_galacticus, C51_galacticus_few_halos, C51_galacticus_more_ranks, C51_galacticus_failing_fit, C51_lastjourney, C51_lastjourney_few_halos, C51_lastjourney_failing_fit, C51_lastjourney_default_refuted, C51_discovery_refuted, C52_fit_then_merge, C66_tng, C66_bolshoi, C66_galacticus, C66_lastjourney, C66_tng_other_files, C66_bolshoi_other_files, C66_galacticus_other_files, C66_lastjourney_other_files, C66_second_run_refuted

**Props_Outline.v**

* none (closed under the global context): C33_headers
* `functional_extensionality_dep`, `sig_forall_dec`: C33_eight_columns, C33_nine_columns, C33_nothing_written
* `classic`, `functional_extensionality_dep`, `sig_forall_dec`, `sig_not_dec`: C31_round_trip, C31_precision, C31_line_shape, C31_skipped_line, C32_halo_id_line_does_not_parse, C33_fits_collate, C33_fits_with_ids_collate

**Props_Plots.v**

* `classic`, `functional_extensionality_dep`, `sig_forall_dec`, `sig_not_dec`: C78_single_panel, C78_single_panel_total, C78_no_such_epoch, C78_residuals, C78_residuals_total, C78_residuals_grid, C78_panel_time_refuted, C78_files

**Props_Pop.v**

* none (closed under the global context): C37_exclusion
* `functional_extensionality_dep`, `sig_forall_dec`: C37_partition, C37_partition_unbounded, C39_population_provides
* `classic`, `functional_extensionality_dep`, `sig_forall_dec`, `sig_not_dec`: C35_bijection, C35_fieldwise_monotone, C35_late_index_refuted, C35_late_index_exact, C35_late_index_exact_unbounded, C36_round_trip_fields, C36_identity_iff, C36_round_trip_refuted, C36_from_unbounded, C36_defaults_legal, C38_covariance, C38_unbounded, C39_probability, C40_probability, C40_monotone, C41_range, C41_monotone, C41_inverts_curve, C42_range, C42_monotone, C42_inverts_cdf, C43_legal_means, C43_logtc_monotone, C48_above_observed, C48_increasing, C48_low_mass_refuted, C48_late_time_refuted, C48_published_dwarf_refuted, C56_scaled_is_cdf, C56_kernel_cdf_refuted, C56_density, C56_density_integrates_to_one, C56_draw_range

**Props_PopFloat.v**

* `classic`, `functional_extensionality_dep`, `sig_forall_dec`, `sig_not_dec`: C81_bounded_single_precision, C81_bounded_double_precision, C81_population_bounded, C81_overshoot, C81_upper_bound_refuted, C81_accuracy

**Props_PopFloat2.v**

* `classic`, `functional_extensionality_dep`, `sig_forall_dec`, `sig_not_dec`: C83_total, C83_generated_halo, C83_peak_time, C83_population, C83_given_peak_times, C83_from_unbounded, C83_massive_halos

**Props_PopLimits.v**

* `classic`, `functional_extensionality_dep`, `sig_forall_dec`, `sig_not_dec`: C84_fraction_early, C84_late_index, C84_early_index, C84_critical_time, C84_mass_today, C84_still_growing, C84_central_peak, C84_satellite_peak, C84_central_width

**Props_PopMC.v**

* `functional_extensionality_dep`, `sig_forall_dec`: C44_shared_t_peak, C45_given_t_peak_fresh, C45_halos_independent_params, C46_whole_halos_params
* `classic`, `functional_extensionality_dep`, `sig_forall_dec`, `sig_not_dec`: C44_given_t_peak, C44_drawn_t_peak, C45_keys_refuted, C45_halos_independent, C46_whole_halos, C46_total, C46_lengths, C47_weighted_moments, C47_total, C47_frac_peaked_constant, C57_singlebin, C57_multibin, C57_censat, C57_u_params, C57_total, C63_legal_halos, C63_legal_population, C64_mean_plus_deviation, C64_no_scatter, C65_ordinary_halos_finite, C65_massive_halos_nan, C65_finite_refuted, C65_dividing_line, C65_published_finite

**Props_Response.v**

* `classic`, `functional_extensionality_dep`, `sig_forall_dec`, `sig_not_dec`: C91_early_index, C91_late_index, C91_critical_time, C91_peak_time

**Props_SimLoad.v**

* none (closed under the global context): C76_galacticus_rows, C76_galacticus_whole, C76_galacticus_ranges_join
* `functional_extensionality_dep`, `sig_forall_dec`: C76_hacc_load, C76_hacc_times_agree, C76_hacc_config_times_refuted, C76_hacc_chunks_join, C76_hacc_packages
* `classic`, `functional_extensionality_dep`, `sig_forall_dec`, `sig_not_dec`: C76_galacticus_script_reads_file, C76_galacticus_file_to_table, C76_test_False_refuted

**Props_Specific.v**

* `classic`, `functional_extensionality_dep`, `sig_forall_dec`, `sig_not_dec`: C90_declines, C90_growth_slows, C90_range, C90_early_index_bound_refuted, C90_index_falls, C90_rate_declines

**Props_Stability.v**

* `classic`, `functional_extensionality_dep`, `sig_forall_dec`, `sig_not_dec`: C87_stability, C87_text, C87_conversion, C87_single_and_double, C87_fit_to_text

**Props_Tab.v**

* none (closed under the global context): C71_sample_rows
* `functional_extensionality_dep`, `sig_forall_dec`: C71_failed_fits_dropped, C71_bin_selection, C71_grid, C71_late_bins_disjoint, C71_early_bins_cover, C71_late_bins_cover_refuted, C71_early_bins_disjoint_refuted, C72_names, C72_collate, C72_other_files_untouched, C72_no_halo_lost, C72_failure_keeps_files, C72_existing_output_refused, C72_only_collated_removed_refuted
* `classic`, `functional_extensionality_dep`, `sig_forall_dec`, `sig_not_dec`: C73_measurement_always_raises, C73_measurement_type_error, C73_tables_empty, C73_written_tables_refused, C73_loader_returns_no_row, C73_complete_directory_loaded_refuted, C73_counts_from_given_directory_refuted

**Props_TestRuns.v**

* none (closed under the global context): C77_sections
* `classic`, `functional_extensionality_dep`, `sig_forall_dec`, `sig_not_dec`: C77_full_runs, C77_tng_all_halos, C77_bolshoi, C77_bolshoi_failing_fit, C77_bolshoi_few_halos, C77_refuted, C77_galacticus, C77_galacticus_small_file, C77_galacticus_failing_fit, C77_lastjourney, C77_nothing_to_test, C77_discovery_refuted

**Props_Today.v**

* `classic`, `functional_extensionality_dep`, `sig_forall_dec`, `sig_not_dec`: C93_offset, C93_shape, C93_today, C93_early_history, C93_early_rates

**Props_TpeakPop.v**

* none (closed under the global context): C75_distinct_streams, C75_halos_do_not_interact
* `classic`, `functional_extensionality_dep`, `sig_forall_dec`, `sig_not_dec`: C75_sats_one_draw_per_halo, C75_cens_one_draw_per_halo, C75_cenpop_one_draw_per_halo, C75_sats_range, C75_cens_range, C75_cenpop_range, C75_number_is_constant_column, C75_cenpop_accepts_number_refuted, C75_raises

**Props_Utils.v**

* none (closed under the global context): C16_every_parameter_used_once
* `sig_forall_dec`: C16_surplus_ignored
* `functional_extensionality_dep`, `sig_forall_dec`: C15_cells_tile_an_interval, C15_cell_widths, C15_positive_on_increasing_times, C15_uniform_grid, C15_too_short_raises, C16_cholesky_entries, C16_cholesky_injective, C17_trimmed_mean, C17_quantiles_exist, C17_constant_array_is_nan, C17_p_zero_is_plain_mean_refuted, C18_trimmed_variance, C18_order_of_points_irrelevant, C19_definiteness_preserved, C20_get_1d_arrays
* `functional_extensionality_dep`, `sig_forall_dec`, `sig_not_dec`: C19_correlation_roundtrip, C19_covariance_roundtrip
* `classic`, `functional_extensionality_dep`, `sig_forall_dec`, `sig_not_dec`: C21_sig_slope

## Parts of the repository that are not modelled

* `scripts/fitting_scripts/history_fitting_script.py`: imports modules that this
  version no longer has (its docstring says it runs on diffmah<=0.6.2 only).
* `docs/`, `setup.py`: documentation, packaging.  Of the figures of
  `diffmah/diffmahpop_kernels/diagnostics/` the appearance (colours, axes, legend, zero
  line); the curves and bands are modelled (C78).
* Tests.
* argparse (but for the value of `-test`, C76), timing and printing in the scripts, and
  the creation of output directories.
* The decoding of simulation files by `haccytrees`, `h5py`, `np.load`, `umachine_pyio`:
  the loaders are modelled from the trees and arrays these libraries return.
