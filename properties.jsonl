{"id": "C01", "title": "Bounding always yields legal halo parameters", "statement": "get_bounded_mah_params sends every choice of five real unbounded parameters to a legal parameter set: 0<logm0<17, -1<logtc<1, 0.1<late_index<5, late_index<early_index<10 and 0.05<t_peak<20.", "quantifier": "every five-tuple of real unbounded parameters", "why_tests_cant": "the optimisers may visit any point of R^5; a test visits a handful of points and cannot exclude an illegal image, in particular early_index<=late_index", "anchors": ["diffmah/diffmah_kernels.py:get_bounded_mah_params", "diffmah/diffmah_kernels.py:_get_early_late", "diffmah/diffmah_kernels.py:MAH_PBDICT"]}
{"id": "C02", "title": "Bounded and unbounded halo parameters are in exact bijection", "statement": "get_unbounded_mah_params and get_bounded_mah_params are mutually inverse: bounding after unbounding returns the same legal parameters, and unbounding after bounding returns the same unbounded parameters, for all five parameters simultaneously.", "quantifier": "every legal parameter set and every real unbounded parameter set", "why_tests_cant": "tests compare a few random draws up to a float tolerance; injectivity and surjectivity concern all of R^5", "anchors": ["diffmah/diffmah_kernels.py:get_bounded_mah_params", "diffmah/diffmah_kernels.py:get_unbounded_mah_params", "diffmah/diffmah_kernels.py:_get_u_early_late"]}
{"id": "C03", "title": "Unbounding is finite exactly on the legal domain", "statement": "In IEEE special-value arithmetic get_unbounded_mah_params returns five finite numbers if and only if the input parameters are strictly legal; a parameter sitting on its lower (upper) bound gives -inf (+inf) and one outside the bounds gives NaN.", "quantifier": "every extended-real (finite, infinite or NaN) parameter set", "why_tests_cant": "the default-parameter tests never touch the edges of the domain or the outside of it", "anchors": ["diffmah/diffmah_kernels.py:_inverse_sigmoid", "diffmah/diffmah_kernels.py:get_unbounded_mah_params"]}
{"id": "C04", "title": "Halo mass never decreases with time", "statement": "For legal parameters with t_peak <= 10^(22/63)*t0 (about 2.23*t0; in particular for all t_peak<=t0) the log_mah returned by mah_singlehalo is non-decreasing in time over all positive times and strictly increasing before t_peak. The limit is exact: for every peak time T from 0.5 to 20 Gyr, no legal halo peaking at T ever loses mass if and only if T <= 10^(22/63)*t0, and no legal halo at all loses mass if and only if 20 Gyr <= 10^(22/63)*t0 (t0 from about 8.95 Gyr).", "quantifier": "every legal parameter set, every lgt0, every pair of positive times", "why_tests_cant": "monotonicity is a statement about a continuum of times and a 5-dimensional continuum of parameters", "anchors": ["diffmah/diffmah_kernels.py:mah_singlehalo", "diffmah/diffmah_kernels.py:_log_mah_kern", "diffmah/diffmah_kernels.py:_rolling_plaw_vs_logt"]}
{"id": "C05", "title": "Mass accretion rate is positive before t_peak and zero after it", "statement": "mah_singlehalo returns dmhdt>0 at every positive time up to and including t_peak (t_peak <= 10^(22/63)*t0, the exact limit for peak times from 0.5 Gyr) and exactly 0 at every time after t_peak.", "quantifier": "every legal parameter set, every lgt0, every positive time", "why_tests_cant": "sign of a derivative over a continuum; a sampled grid cannot exclude a negative patch", "anchors": ["diffmah/diffmah_kernels.py:_dmhdt_kern", "diffmah/diffmah_kernels.py:mah_singlehalo"]}
{"id": "C06", "title": "dmhdt is the exact derivative of the mass history, in Msun/yr", "statement": "At every positive time other than t_peak the returned dmhdt equals 1e-9 times the derivative of 10**log_mah with respect to time in Gyr; at t_peak it equals 1e-9 times the left derivative, while the right derivative is zero.", "quantifier": "every parameter set, lgt0 and positive time", "why_tests_cant": "the tests compare finite differences with a tolerance on a time grid", "anchors": ["diffmah/diffmah_kernels.py:_mah_noq_kern", "diffmah/diffmah_kernels.py:_dmhdt_noq_kern_scalar", "diffmah/diffmah_kernels.py:_dmhdt_kern", "diffmah/diffmah_kernels.py:_mah_kern"]}
{"id": "C07", "title": "Mass gained equals the time integral of the accretion rate", "statement": "For 0<t1<=t2, 10**log_mah(t2) - 10**log_mah(t1) equals the integral from t1 to t2 of dmhdt*1e9, including intervals that straddle t_peak.", "quantifier": "every legal parameter set, lgt0 and every pair of positive times", "why_tests_cant": "an integral identity over arbitrary intervals, with a jump of the integrand at t_peak", "anchors": ["diffmah/diffmah_kernels.py:mah_singlehalo", "diffmah/diffmah_kernels.py:_diffmah_kern"]}
{"id": "C08", "title": "logm0 is the mass at t0 exactly when the halo is still growing", "statement": "logmh_at_t_obs(params, 10**lgt0, lgt0)=logm0 if and only if t_peak>=10**lgt0; for legal parameters with t_peak<10**lgt0 the mass at t0 is strictly below logm0.", "quantifier": "every legal parameter set and lgt0", "why_tests_cant": "an equivalence over all parameters; tests only use t_peak around 14 Gyr", "anchors": ["diffmah/diffmah_kernels.py:logmh_at_t_obs", "diffmah/diffmah_kernels.py:_log_mah_kern"]}
{"id": "C09", "title": "Mass history is frozen after t_peak and bounded by logm0 up to t0", "statement": "For all t>=t_peak, log_mah(t)=log_mah(t_peak); for legal parameters and every positive t<=t0, log_mah(t)<=logm0 whatever the value of t_peak.", "quantifier": "every legal parameter set, lgt0, time", "why_tests_cant": "continuum of times and parameters", "anchors": ["diffmah/diffmah_kernels.py:_log_mah_kern", "diffmah/diffmah_kernels.py:mah_singlehalo"]}
{"id": "C10", "title": "Population calls are halo-by-halo single-halo calls", "statement": "mah_halopop on n halos and m times returns two n-by-m tables whose i-th rows are exactly mah_singlehalo of the i-th halo's parameters; no halo's output depends on another halo.", "quantifier": "every population size, parameter columns and time array", "why_tests_cant": "arbitrary sizes; cross-talk between rows cannot be excluded by example", "anchors": ["diffmah/diffmah_kernels.py:mah_halopop", "diffmah/diffmah_kernels.py:_diffmah_kern_vmap"]}
{"id": "C11", "title": "logmh_at_t_obs agrees with the full history", "statement": "For every halo and every time array, logmh_at_t_obs at tarr[i] equals the i-th entry of log_mah returned by mah_singlehalo; on populations it pairs halo i with t_obs[i].", "quantifier": "every parameter set, time array, index", "why_tests_cant": "arbitrary arrays", "anchors": ["diffmah/diffmah_kernels.py:logmh_at_t_obs", "diffmah/diffmah_kernels.py:mah_singlehalo"]}
{"id": "C12", "title": "Mass history is squeezed between two power laws", "statement": "For legal parameters and 0<t<t0, t<t_peak: logm0+early_index*(log10 t - lgt0) < log_mah(t) < logm0+late_index*(log10 t - lgt0); the local power-law index always lies strictly between late_index and early_index and decreases with time.", "quantifier": "every legal parameter set, lgt0, time", "why_tests_cant": "inequality over a continuum", "anchors": ["diffmah/diffmah_kernels.py:_power_law_index_vs_logt", "diffmah/diffmah_kernels.py:_rolling_plaw_vs_logt"]}
{"id": "C13", "title": "Special times: zero, negative and non-finite inputs", "statement": "With IEEE special values and finite legal parameters: at t=0 log_mah is -inf (mass 0) and dmhdt is NaN; at t<0 both are NaN; at t=+inf dmhdt is 0 and log_mah is the frozen peak mass; at t=NaN dmhdt is NaN but log_mah is silently the frozen peak mass; at every positive t both are finite. NaN in any parameter gives NaN log_mah at every time.", "quantifier": "every finite legal parameter set and extended-real time", "why_tests_cant": "tests use strictly positive times only", "anchors": ["diffmah/diffmah_kernels.py:_log_mah_kern", "diffmah/diffmah_kernels.py:_rolling_plaw_vs_t"]}
{"id": "C14", "title": "The mass history is differentiable in every fit parameter", "statement": "For every time other than t_peak, log_mah is differentiable with respect to each of the five unbounded parameters at every point of R^5, and the forward-mode derivative of the kernel source is the true derivative (so no NaN gradient can arise inside the parameter domain).", "quantifier": "every unbounded parameter vector, direction, positive time different from t_peak", "why_tests_cant": "gradient correctness over all of R^5", "anchors": ["diffmah/diffmah_kernels.py:_log_mah_kern_u_params", "diffmah/diffmah_kernels.py:get_bounded_mah_params"]}
{"id": "C15", "title": "get_dt_array partitions time", "statement": "For an array t of n>=2 times: dt[i]=(t[i+1]-t[i-1])/2 in the interior; the cells tile one interval without gap or overlap (cell i ends where cell i+1 starts, starting at t[0]-(t[1]-t[0])/2); every dt is positive when t is strictly increasing; on a uniform grid every dt equals the spacing. For n<2 the call raises IndexError.", "quantifier": "every length and every real array", "why_tests_cant": "arbitrary length", "anchors": ["diffmah/utils.py:get_dt_array"]}
{"id": "C16", "title": "Cholesky parameter layout is a bijection", "statement": "get_cholesky_from_params on ndim*(ndim+1)/2 parameters returns an ndim x ndim lower triangular matrix with the first ndim parameters on the diagonal and the others filling the strict lower triangle row by row; every parameter is used exactly once.", "quantifier": "every ndim and every real parameter array of triangular length", "why_tests_cant": "holds for all dimensions; tests fix ndim=3 and 4", "anchors": ["diffmah/utils.py:get_cholesky_from_params"]}
{"id": "C17", "title": "Trimmed mean is the mean of the strictly interior points", "statement": "trimmed_mean(x,p) is the arithmetic mean of the entries strictly between the p and 1-p percentiles; it lies strictly between those percentiles; when no entry is strictly inside (for instance for a constant array) it is NaN. With p=0 the minimum and maximum are excluded, so it is not in general the plain mean.", "quantifier": "every non-empty array and every p in [0,1/2)", "why_tests_cant": "arbitrary arrays including ties", "anchors": ["diffmah/utils.py:trimmed_mean", "diffmah/utils.py:trimmed_mean_and_variance"]}
{"id": "C18", "title": "Trimmed variance is the unbiased sample variance of the kept points", "statement": "trimmed_mean_and_variance returns the same mean as trimmed_mean and the variance sum((x-mu)^2)/(n_kept-1) of the kept points, which is non-negative, zero iff all kept points coincide, and NaN when fewer than two points are kept.", "quantifier": "every array and p", "why_tests_cant": "arbitrary arrays", "anchors": ["diffmah/utils.py:trimmed_mean_and_variance"]}
{"id": "C19", "title": "Correlation and covariance conversions are inverse", "statement": "For symmetric corr with unit diagonal and positive sigmas, correlation_from_covariance(covariance_from_correlation(corr,sig)) = corr, the diagonal of the covariance is sig^2, symmetry is preserved, and for a covariance with positive diagonal the opposite round trip holds too.", "quantifier": "every dimension, every matrix", "why_tests_cant": "all dimensions", "anchors": ["diffmah/utils.py:covariance_from_correlation", "diffmah/utils.py:correlation_from_covariance"]}
{"id": "C20", "title": "get_1d_arrays broadcasts or refuses", "statement": "get_1d_arrays returns arrays all of the common length npts=max size, with array arguments unchanged and scalars repeated, and raises AssertionError exactly when some argument has a size other than 1 or npts.", "quantifier": "every list of arguments", "why_tests_cant": "arbitrary argument lists", "anchors": ["diffmah/utils.py:get_1d_arrays"]}
{"id": "C21", "title": "_sig_slope pivots exactly and its secant slope stays between lo and hi", "statement": "_sig_slope(xtp,...)=ytp, and for x<>xtp the secant slope through the pivot lies strictly between lo and hi when lo<>hi.", "quantifier": "every real argument", "why_tests_cant": "continuum", "anchors": ["diffmah/utils.py:_sig_slope"]}
{"id": "C22", "title": "Halos with too little data are skipped, with a uniform sentinel", "statement": "diffmah_fitter skips a halo if and only if force_skip_fit is set or the selected target has fewer than 3 points strictly below its final mass; a skipped halo returns -99 for all five parameters and the loss, fit_terminates False and code_used -1; otherwise code_used is 0 or 1 and no sentinel is introduced.", "quantifier": "every simulated history, option setting and optimiser behaviour", "why_tests_cant": "all inputs and all optimiser outcomes", "anchors": ["diffmah/fitting_helpers/diffmah_fitter_helpers.py:diffmah_fitter", "diffmah/fitting_helpers/diffmah_fitter_helpers.py:get_loss_data"]}
{"id": "C23", "title": "Fit target is exactly the masked, monotonised history", "statement": "The target times and masses handed to the optimiser are the simulated points, in order, with log-mass above max(lgm_min, final-dlogm_cut) and time >= t_fit_min; the masses are replaced by their running maximum, hence non-decreasing, and never below the simulated value.", "quantifier": "every history and option setting", "why_tests_cant": "arbitrary arrays", "anchors": ["diffmah/fitting_helpers/diffmah_fitter_helpers.py:_get_target_data", "diffmah/fitting_helpers/diffmah_fitter_helpers.py:get_loss_data"]}
{"id": "C24", "title": "t_peak is the first time the final mass is attained", "statement": "compute_indx_t_peak_singlehalo returns the smallest index whose log-mass equals the last one, which always exists; for a non-decreasing history all later entries are equal to the final mass and earlier ones are strictly smaller. For a history that declines after its maximum the returned time is not the time of the maximum.", "quantifier": "every non-empty history, for any monotone rounding applied by the float32 conversion", "why_tests_cant": "arbitrary arrays", "anchors": ["diffmah/fitting_helpers/diffmah_fitter_helpers.py:compute_indx_t_peak_singlehalo", "diffmah/fitting_helpers/diffmah_fitter_helpers.py:compute_indx_t_peak_halopop"]}
{"id": "C25", "title": "The fitted t_peak is the requested or simulated t_peak", "statement": "Whenever the fit is not skipped and 0.05<t_peak<20, the t_peak of the returned parameters equals tpeak_fixed if given, else the first time at which the final mass is attained, up to the single-precision cast of that number; whatever the optimiser does.", "quantifier": "every history, every optimiser behaviour", "why_tests_cant": "quantifies over all optimiser behaviours", "anchors": ["diffmah/fitting_helpers/diffmah_fitter_helpers.py:get_loss_data", "diffmah/fitting_helpers/diffmah_fitter_helpers.py:diffmah_fitter"]}
{"id": "C26", "title": "Fitted parameters are always legal", "statement": "For every optimiser outcome with finite unbounded parameters, the parameters returned by a non-skipped diffmah_fitter satisfy the legal bounds and late_index<early_index.", "quantifier": "every optimiser outcome", "why_tests_cant": "quantifies over all optimiser behaviours", "anchors": ["diffmah/fitting_helpers/diffmah_fitter_helpers.py:diffmah_fitter", "diffmah/diffmah_kernels.py:get_bounded_mah_params"]}
{"id": "C27", "title": "The fitting loss is the mean squared log-mass residual", "statement": "log_mah_loss_uparams is non-negative and is zero if and only if the model reproduces every target point; it is unchanged by reordering target points together with their times.", "quantifier": "every parameter vector and non-empty target", "why_tests_cant": "arbitrary targets", "anchors": ["diffmah/fitting_helpers/diffmah_fitter_helpers.py:log_mah_loss_uparams", "diffmah/fitting_helpers/diffmah_fitter_helpers.py:_mse"]}
{"id": "C28", "title": "Adam returns the best visited point", "statement": "When no NaN or inf is met and the tolerance is not reached, _jax_adam_wrapper returns the visited parameters with the smallest loss over all n_step steps (first such on ties); when NaN/inf is met at step s>0 it returns the best among the first s steps with arrays truncated to s; when met at step 0 it returns the input parameters and loss 999.99 with empty arrays; when a loss drops below tol it returns that point.", "quantifier": "every loss function, starting point, number of steps and step size", "why_tests_cant": "arbitrary loss landscapes and step counts", "anchors": ["diffmah/fitting_helpers/fit_utils.py:_jax_adam_wrapper"]}
{"id": "C29", "title": "The warm-up can never make the main burn start from NaN, and its status codes", "statement": "jax_adam_wrapper starts its main burn from the warm-up's best parameters when they are all finite and otherwise from the user's initial parameters; with finite initial parameters and loss its returned loss is never larger than the initial loss, provided the optimiser's first iterate is its input; fit_terminates is 1 exactly when the last burn evaluated at least n_step losses. (Reaching tol early is reported as 0; a skipped main burn with no warm-up raises.)", "quantifier": "every loss function, warm-up count and step count", "why_tests_cant": "arbitrary loss landscapes", "anchors": ["diffmah/fitting_helpers/fit_utils.py:jax_adam_wrapper"]}
{"id": "C30", "title": "BFGS result is used exactly when it succeeded with a finite positive loss", "statement": "bfgs_adam_fallback returns the L-BFGS result with code 0 iff the minimiser reports success with finite, strictly positive loss; otherwise it returns the Adam result with code 1. Consequently a perfect BFGS fit with loss 0 is discarded.", "quantifier": "every optimiser behaviour", "why_tests_cant": "quantifies over optimiser behaviours", "anchors": ["diffmah/fitting_helpers/bfgs_wrapper.py:bfgs_adam_fallback", "diffmah/fitting_helpers/bfgs_wrapper.py:scipy_lbfgs_wrapper"]}
{"id": "C31", "title": "Outline lines parse back to the written fit", "statement": "_parse_outline(get_outline(fit)) returns the six numbers rounded to 6 significant digits, and the point count and code exactly, for every fit; written lines have 8 whitespace-separated fields and end in newline.", "quantifier": "every fit result whose numbers are finite", "why_tests_cant": "all numbers and lengths", "anchors": ["diffmah/fitting_helpers/diffmah_fitter_helpers.py:get_outline", "diffmah/fitting_helpers/diffmah_fitter_helpers.py:_parse_outline"]}
{"id": "C32", "title": "Lines written with a halo id do not parse back", "statement": "For every fit and integer halo id, _parse_outline applied to get_outline(fit, halo_id=id) does not return the fit: it raises ValueError because the loss field is read as an integer.", "quantifier": "every fit and id", "why_tests_cant": "all numbers", "anchors": ["diffmah/fitting_helpers/diffmah_fitter_helpers.py:get_outline", "diffmah/fitting_helpers/diffmah_fitter_helpers.py:_parse_outline"]}
{"id": "C33", "title": "Collated columns keep their names", "statement": "write_collated_data writes, for an n x 8 (n x 9) table of strings, exactly 8 (9) datasets of length n, each column under its header name and in header order; for any other column count it writes nothing.", "quantifier": "every table", "why_tests_cant": "arbitrary size", "anchors": ["diffmah/fitting_helpers/diffmah_fitter_helpers.py:write_collated_data", "diffmah/fitting_helpers/diffmah_fitter_helpers.py:HEADER"]}
{"id": "C34", "title": "Sub-threshold masses and the lgm_min selection", "statement": "With a finite lgm_min, in exact arithmetic a simulated mass at or below 10**lgm_min is replaced by a value strictly above 10**lgm_min and therefore passes the lgm_min cut, so that the cut removes no point at all; with lgm_min=-inf a zero mass becomes log-mass -7.", "quantifier": "every mass history and lgm_min", "why_tests_cant": "continuum of values", "anchors": ["diffmah/fitting_helpers/diffmah_fitter_helpers.py:_get_clipped_log_mah", "diffmah/fitting_helpers/diffmah_fitter_helpers.py:_get_target_data"]}
{"id": "C35", "title": "Every population component has an exact bounded/unbounded bijection", "statement": "For each DiffmahPop component (t_peak of centrals and satellites, logm0 early/late for centrals and satellites, logtc, early index, late index alpha and beta, early fraction, covariance, frac of unpeaked centrals, utp) the bounded parameters always lie strictly in the published bounds and the two maps are mutually inverse. One of the 31 public pairs breaks this: the pair of late_index_bimod stays in the bounds but returns its beta parameters in place of the alpha ones, so it restores exactly the parameter sets whose alpha and beta values agree.", "quantifier": "every component, every real parameter vector", "why_tests_cant": "tests use a few random draws", "anchors": ["diffmah/diffmahpop_kernels/covariance_kernels.py", "diffmah/diffmahpop_kernels/early_index_alpha.py", "diffmah/diffmahpop_kernels/logtc_early.py", "diffmah/diffmahpop_kernels/frac_early_cens.py", "diffmah/diffmahpop_kernels/t_peak_kernels/tp_pdf_cens_flex.py", "diffmah/diffmahpop_kernels/t_peak_kernels/tp_pdf_sats.py"]}
{"id": "C36", "title": "Full population parameter round trip", "statement": "get_diffmahpop_params_from_u_params(get_diffmahpop_u_params_from_params(p)) = p for legal p. This holds for every field except late_index_x0_alpha, late_index_ylo_alpha, late_index_yhi_alpha, which come back as the corresponding beta fields; so the full identity is false.", "quantifier": "every legal population parameter set", "why_tests_cant": "the shipped tests use defaults where alpha equals beta, so they pass", "anchors": ["diffmah/diffmahpop_kernels/bimod_censat_params.py", "diffmah/diffmahpop_kernels/late_index_bimod.py"]}
{"id": "C37", "title": "Component routing is a partition of the parameter names", "statement": "The component parameter name lists are pairwise disjoint and together give exactly the fields of DiffmahPop_Params, so get_component_model_params routes each parameter to exactly one component; get_varied_params_by_exclusion followed by _get_all_diffmahpop_params_from_varied restores the varied fields and leaves the excluded ones at their defaults.", "quantifier": "every parameter set and every exclusion list", "why_tests_cant": "all exclusion lists", "anchors": ["diffmah/diffmahpop_kernels/bimod_censat_params.py"]}
{"id": "C38", "title": "Population covariance matrices are always valid", "statement": "For every real unbounded covariance parameter set and every mass, the covariance used for the Monte Carlo draws is symmetric, has the squared standard deviations on its diagonal and is positive definite.", "quantifier": "every unbounded parameter set and mass", "why_tests_cant": "positive definiteness over a continuum of matrices", "anchors": ["diffmah/diffmahpop_kernels/covariance_kernels.py:_get_diffmahpop_cov", "diffmah/diffmahpop_kernels/covariance_kernels.py:get_bounded_cov_params"]}
{"id": "C39", "title": "Fraction of early-forming halos is a probability", "statement": "frac_early_cens lies strictly in (1/4,3/4) for every legal parameter set, mass and time.", "quantifier": "every legal parameter set, mass, time", "why_tests_cant": "continuum", "anchors": ["diffmah/diffmahpop_kernels/frac_early_cens.py:_frac_early_cens_kern"]}
{"id": "C40", "title": "Probability of still growing is a monotone probability", "statement": "_ftpt0_kernel lies in [0.01,0.99] and is non-decreasing in mass and in t_obs for legal parameters.", "quantifier": "every legal parameter set, mass, time", "why_tests_cant": "continuum", "anchors": ["diffmah/diffmahpop_kernels/ftpt0_cens.py:_ftpt0_kernel"]}
{"id": "C41", "title": "Monte Carlo t_peak of centrals lies in [0.05*t0, t0]", "statement": "mc_tpeak_singlecen returns t_peak between 0.05*t0 and t0 for every random draw, and the inverse-CDF map is non-decreasing in the uniform draw.", "quantifier": "every draw, mass, time, parameter set", "why_tests_cant": "all random draws", "anchors": ["diffmah/diffmahpop_kernels/t_peak_kernels/tp_pdf_cens_flex.py:mc_tpeak_singlecen", "diffmah/diffmahpop_kernels/t_peak_kernels/tp_pdf_cens_flex.py:mc_utp_singlecen"]}
{"id": "C42", "title": "Monte Carlo t_peak of satellites lies in [0.1001,0.9999]*t_obs", "statement": "mc_tpeak_singlesat returns t_peak between 0.1001*t_obs and 0.9999*t_obs for every draw and legal parameters.", "quantifier": "every draw, mass, time, parameter set", "why_tests_cant": "all random draws", "anchors": ["diffmah/diffmahpop_kernels/t_peak_kernels/tp_pdf_sats.py:mc_tpeak_singlesat", "diffmah/diffmahpop_kernels/t_peak_kernels/utp_pdf_kernels.py:mc_tp_pdf_singlesat"]}
{"id": "C43", "title": "Mean population parameters are legal diffmah shape parameters", "statement": "For every legal population parameter set, mass and times, the mean early index, late index and logtc of both the early and the late populations are inside their legal bounds with mean early index above mean late index, so unbounding them never yields NaN.", "quantifier": "every legal population parameter set, mass, times", "why_tests_cant": "continuum; clips and sigmoids compose", "anchors": ["diffmah/diffmahpop_kernels/mc_bimod_cens.py:_mean_diffmah_params", "diffmah/diffmahpop_kernels/early_index_bimod.py", "diffmah/diffmahpop_kernels/late_index_bimod.py", "diffmah/diffmahpop_kernels/logtc_bimod.py"]}
{"id": "C44", "title": "Early and late realisations of a halo share their t_peak", "statement": "In mc_diffmah_params_singlecen (and the satellite version) the early-type and late-type parameter draws of one halo have the same t_peak, and the fixed-t_peak variants return exactly the t_peak they are given (up to the bounding round trip).", "quantifier": "every key, mass, time", "why_tests_cant": "all random keys", "anchors": ["diffmah/diffmahpop_kernels/mc_bimod_cens.py:mc_diffmah_params_singlecen", "diffmah/diffmahpop_kernels/mc_bimod_sats.py"]}
{"id": "C45", "title": "Random keys are not consumed twice", "statement": "Within one call of the Monte Carlo generators, distinct random draws use distinct keys. This is false when t_peak is drawn: its key equals the key used for the early-type scatter draw of the same halo. It holds when t_peak is given, and draws belonging to different halos never share a key.", "quantifier": "every input key", "why_tests_cant": "depends on key flow, invisible in output statistics of small tests", "anchors": ["diffmah/diffmahpop_kernels/mc_bimod_cens.py:_mc_diffmah_singlecen_early", "diffmah/diffmahpop_kernels/mc_bimod_cens.py:mc_diffmah_params_singlecen"]}
{"id": "C46", "title": "Population sampling selects whole halos", "statement": "mc_cenpop/mc_satpop return for each halo either the complete early-type realisation (parameters and history) or the complete late-type one, choosing early exactly when the halo's uniform draw is below its early fraction.", "quantifier": "every population size and every draw", "why_tests_cant": "all draws and sizes", "anchors": ["diffmah/diffmahpop_kernels/mc_bimod_cens.py:mc_cenpop", "diffmah/diffmahpop_kernels/param_utils.py:mc_select_diffmah_params"]}
{"id": "C47", "title": "Predicted population moments are weighted moments", "statement": "predict_mah_moments_singlebin returns, at each time, a mean lying between the smallest and largest simulated log-mass and a non-negative standard deviation, computed with weights that are non-negative and sum to one for every legal parameter set.", "quantifier": "every parameter set, sample and time", "why_tests_cant": "all samples", "anchors": ["diffmah/diffmahpop_kernels/mc_bimod_cens.py:predict_mah_moments_singlebin"]}
{"id": "C48", "title": "Predicted z=0 mass exceeds the observed mass", "statement": "For legal parameters, t_obs<=15 Gyr and lgm_obs>=12 the predicted logm0 is strictly above lgm_obs, and predicted logm0 is strictly increasing in lgm_obs, for early and late populations of centrals and satellites. Both limits are needed: at every mass up to 10^11.9, and at 10^12 after 15 Gyr, some legal parameters predict a mass at z=0 below the observed one, and the published parameters do so for an early-forming central of 10^9 seen today.", "quantifier": "every legal parameter set, mass, times", "why_tests_cant": "continuum", "anchors": ["diffmah/diffmahpop_kernels/bimod_logm0_kernels/logm0_pop_early.py", "diffmah/diffmahpop_kernels/bimod_logm0_kernels/logm0_c0_early.py", "diffmah/diffmahpop_kernels/bimod_logm0_kernels/logm0_c1_early.py"]}
{"id": "C49", "title": "Row scattering is a partition with balanced sizes", "statement": "_scatter_nd / array_split distribute every row to exactly one rank, in order, with chunk sizes differing by at most one, for every number of rows and ranks (including more ranks than rows), every root and every order of messages; load_mahs_per_rank gives every rank the same times and its own rows, no message is left over and no rank waits for ever. If rank 0 cannot load the data, no rank ever returns.", "quantifier": "every number of rows and ranks, every root, every schedule of sends and receives, buffered or not", "why_tests_cant": "arbitrary sizes and unbounded interleavings", "anchors": ["diffmah/data_loaders/load_hacc_mahs.py:_scatter_nd", "diffmah/data_loaders/load_hacc_mahs.py:load_mahs_per_rank"]}
{"id": "C50", "title": "Flat table writing and reading are inverse", "statement": "load_namedtuple_from_hdf5 after write_namedtuple_to_hdf5 returns the same fields in the same values for every namedtuple; no other file changes. load_flat_hdf5 returns every requested column under its own name with exactly the requested rows, from the top level or from one named group, and consecutive chunks join to the whole. For a group inside a group the columns overwrite each other: at most one is returned.", "quantifier": "every table with distinct keys", "why_tests_cant": "arbitrary tables", "anchors": ["diffmah/data_loaders/io_utils.py"]}
{"id": "C51", "title": "Parallel fitting gives the same table under every schedule", "statement": "In the MPI fitting scripts (TNG, Bolshoi-Planck, Galacticus, Last Journey), for every number of ranks with at least two halos each and every interleaving, every run ends, and the collated table has exactly one row per halo, in halo order, equal to the row a serial run would write; the temporary files are gone and no other file changes. With fewer than two halos per rank all halos are fitted, yet rank 0 raises and no table is written. One failing fit means that no rank returns and no table is written. With its default arguments the Last Journey script leaves out the last subvolume. The Discovery script always stops with AttributeError before the first fit.", "quantifier": "every schedule, number of ranks, number of halos, fitter and initial directory contents", "why_tests_cant": "interleavings are unbounded", "anchors": ["scripts/fitting_scripts/tng_diffmah_fitter_script.py", "scripts/fitting_scripts/bolshoi_planck_fitting_script.py", "scripts/fitting_scripts/galacticus_diffmah_fitter_script.py", "scripts/fitting_scripts/hacc_lastjourney_diffmah_fitter_script.py", "scripts/fitting_scripts/hacc_discovery_sims_diffmah_fitter_script.py", "diffmah/fitting_helpers/diffmah_fitter_helpers.py:write_collated_data"]}
{"id": "C52", "title": "Unchunking never loses fits on a crash", "statement": "After any number of runs of the unchunk script, over any subvolumes and each killed at any point, a subvolume has either all its chunk tables unchanged or one merged table with all their rows in order; no other file changes. A run that is not killed ends: it merges every chosen subvolume and removes its chunk tables, or it raises because some chunk table or column is missing, and then removes nothing. After Last Journey has been fitted, the merged table has one row per halo. Columns that the first chunk lacks are lost.", "quantifier": "every history of crashed and completed runs, every subvolume range, all file contents", "why_tests_cant": "all crash points and histories", "anchors": ["scripts/fitting_scripts/unchunk_last_journey_script.py"]}
{"id": "C53", "title": "Loaded mass histories are non-decreasing", "statement": "The mass histories returned by the loaders are the cumulative peaks of the raw histories: non-decreasing in time, dominating the raw history, equal to it when it never decreases, unchanged by accumulating twice, and NaN from the first NaN on. load_mahs divides them by h, load_bpl_mah_data lifts them to at least 1 Msun. load_tng_data keeps the order only for non-negative log-masses, and the published-data loaders only for masses that are 0 or at least 1.", "quantifier": "every history", "why_tests_cant": "arbitrary arrays", "anchors": ["diffmah/data_loaders/load_hacc_mahs.py:load_mahs", "diffmah/data_loaders/load_bpl_um_data.py", "diffmah/data_loaders/load_tng_mahs.py", "diffmah/data_loaders/load_diffmah_pub_data.py"]}
{"id": "C54", "title": "Clean-sample mask only narrows and ignores the final time", "statement": "get_clean_sample_mask keeps a halo iff its rescaled log-mass is within z_cut trimmed standard deviations of the trimmed mean at every time index from it_min to n_t-2; enlarging it_min never removes a halo, and neither logmp_sample nor the mass scale of a halo matters. When all halos agree at a used time every halo is removed, in exact arithmetic.", "quantifier": "every sample and it_min", "why_tests_cant": "arbitrary arrays", "anchors": ["diffmah/fitting_helpers/measure_mahs.py:get_clean_sample_mask"]}
{"id": "C55", "title": "Measured targets are normalised to the sample mass", "statement": "measure_target_data returns, at every target time in the table, the mean mass, mean and variance of log-mass, and mean and variance of the accretion rate of the sample scaled to end at 10**logmp_sample (negative means become NaN); at and after the last time the mean mass is 10**logmp_sample and the log-mass variance is zero; between table times the mean mass is interpolated linearly in log-log. rescale_target_log_mahs makes each history end at lgm_obs and keeps its differences.", "quantifier": "every sample of positive masses", "why_tests_cant": "arbitrary samples", "anchors": ["diffmah/fitting_helpers/measure_mahs.py:measure_target_data", "diffmah/diffmahpop_kernels/load_diffmahpop_fitdata.py:rescale_target_log_mahs"]}
{"id": "C56", "title": "Central t_peak distribution kernel", "statement": "The single-halo t_peak CDF of tp_pdf_cens.py, scaled by t_0, is a distribution function in t_peak: non-decreasing from 0 to 1. This fails for the published kernel since its value at t_peak>=t_0 is 1/t_0.", "quantifier": "every legal parameter set and t_0", "why_tests_cant": "continuum", "anchors": ["diffmah/diffmahpop_kernels/t_peak_kernels/tp_pdf_cens.py:_t_peak_cens_cdf_kern"]}
{"id": "C57", "title": "Population loss is zero exactly on a perfect prediction", "statement": "The multi-bin population losses are sums of mean-square errors: non-negative and zero iff all predicted means and scatters equal the targets.", "quantifier": "every prediction and target", "why_tests_cant": "arbitrary bins", "anchors": ["diffmah/diffmahpop_kernels/bimod_cens_fithelp.py", "diffmah/diffmahpop_kernels/bimod_sats_fithelp.py", "diffmah/diffmahpop_kernels/bimod_censat_fithelp.py"]}
{"id": "C58", "title": "The normalisation of a history is free", "statement": "Adding d dex to logm0 adds exactly d dex to log_mah at every time and multiplies dmhdt by 10**d.", "quantifier": "every parameter set, shift, lgt0 and positive time", "why_tests_cant": "continuum of inputs", "anchors": ["diffmah/diffmah_kernels.py:mah_singlehalo", "diffmah/diffmah_kernels.py:logmh_at_t_obs"]}
{"id": "C59", "title": "Histories do not depend on the unit of time", "statement": "Multiplying t, t_peak and t0 by the same factor c and shifting logtc by log10(c) leaves log_mah unchanged.", "quantifier": "every parameter set, positive factor and positive time", "why_tests_cant": "continuum of inputs", "anchors": ["diffmah/diffmah_kernels.py:logmh_at_t_obs"]}
{"id": "C60", "title": "Mass histories are continuous in time", "statement": "log_mah is a continuous function of time at every positive time, including at t_peak where the formula switches branch.", "quantifier": "every parameter set with positive t_peak and every positive time", "why_tests_cant": "continuity is a statement about every neighbourhood", "anchors": ["diffmah/diffmah_kernels.py:logmh_at_t_obs"]}
{"id": "C61", "title": "Gradients handed to the optimisers are exact and finite", "statement": "The gradient returned by loss_and_grads_kern is the exact vector of partial derivatives of the mean-square loss, and loss and gradient are finite for all finite unbounded parameters and positive target times.", "quantifier": "every finite parameter vector, non-empty target and t_peak", "why_tests_cant": "continuum of inputs; a finite-difference test cannot show exactness or the absence of NaN", "anchors": ["diffmah/fitting_helpers/diffmah_fitter_helpers.py:loss_and_grads_kern", "diffmah/fitting_helpers/diffmah_fitter_helpers.py:log_mah_loss_uparams"]}
{"id": "C62", "title": "The reported loss is the loss of the returned parameters", "statement": "For a non-skipped halo the returned loss is the mean squared log-mass residual of the returned parameters on the target data; when the fit came from Adam it is no larger than that of the starting parameters (defaults with the halo's final mass and t_peak).", "quantifier": "every history and optimiser behaviour (for L-BFGS-B: when it reports its own objective)", "why_tests_cant": "all optimiser trajectories", "anchors": ["diffmah/fitting_helpers/diffmah_fitter_helpers.py:diffmah_fitter", "diffmah/fitting_helpers/bfgs_wrapper.py:bfgs_adam_fallback"]}
{"id": "C63", "title": "Every generated halo is legal", "statement": "Whatever the random draws, every halo returned by the central and satellite Monte Carlo generators has parameters inside the published diffmah bounds with late_index<early_index, and an early fraction strictly between 0 and 1; this includes each halo picked for mc_cenpop and mc_satpop.", "quantifier": "every legal or illegal population parameter set on which the call succeeds, every key, mass, time and draw", "why_tests_cant": "all draws", "anchors": ["diffmah/diffmahpop_kernels/mc_bimod_cens.py", "diffmah/diffmahpop_kernels/mc_bimod_sats.py"]}
{"id": "C64", "title": "A generated halo is the population mean plus the drawn deviation", "statement": "In unbounded parameter space each realisation equals the mean of its population at the halo's peak time plus the drawn deviation, with t_peak not displaced; with zero deviation the realisation is the mean itself for ordinary halos.", "quantifier": "every parameter set, key, mass, time and draw", "why_tests_cant": "all draws", "anchors": ["diffmah/diffmahpop_kernels/mc_bimod_cens.py:mc_diffmah_params_singlecen", "diffmah/diffmahpop_kernels/mc_bimod_sats.py"]}
{"id": "C65", "title": "Generated halos are finite for ordinary masses and NaN for extreme ones", "statement": "With IEEE special values: for legal parameters, t_obs<=15 Gyr, lgm_obs in [10,13.4] and peak time in (0.05,20) every finite deviation gives finite parameters and histories. For lgm_obs>=16.99 every realisation silently has logm0=NaN and a NaN history, so finiteness for all inputs is false. The dividing line is the mean mass predicted for the halo: inside (0,17) every realisation is finite, above 17 every one is NaN; the published parameters stay finite for lgm_obs in [10,15] and t_obs in [3,15].", "quantifier": "every legal parameter set, key, finite draw and time", "why_tests_cant": "continuum of inputs; NaN appears only beyond a mass no test uses", "anchors": ["diffmah/diffmahpop_kernels/mc_bimod_cens.py:mc_diffmah_params_singlecen", "diffmah/diffmahpop_kernels/mc_bimod_sats.py", "diffmah/diffmah_kernels.py:get_unbounded_mah_params"]}
{"id": "C66", "title": "A fitting run that stops anywhere loses no fit it has written", "statement": "Let a rank's temporary text file of a fitting run hold some text at any moment. At every later moment of the run, whether it goes on, fails in a fit or in the collation, or is killed, the file still begins with that text or the HDF5 table holds the fits of every line begun in it; and no file but the temporary files and the tables has changed. A second run over the same directory gives no such guarantee: it truncates the files left behind.", "quantifier": "every number of ranks, schedule, fitter (succeeding or failing), input, pair of moments of a run", "why_tests_cant": "all interleavings and all crash points", "anchors": ["scripts/fitting_scripts/tng_diffmah_fitter_script.py", "scripts/fitting_scripts/bolshoi_planck_fitting_script.py", "scripts/fitting_scripts/galacticus_diffmah_fitter_script.py", "scripts/fitting_scripts/hacc_lastjourney_diffmah_fitter_script.py"]}
{"id": "C67", "title": "Rounding never makes a computed history decrease", "statement": "In floating point with any rounding and any mathematical library that preserve order (IEEE single and double precision among them), for machine-number parameters with 0<=late_index<=early_index and lgt0 the library's log10 of t0: the log-masses returned by mah_singlehalo never decrease with time up to t0 (or over all times if t_peak<=t0), the returned rate is never negative up to t0 and exactly zero after t_peak, the mass is frozen to the last bit after t_peak, equals logm0 exactly at t0<=t_peak, and never exceeds logm0 up to t0.", "quantifier": "every order-preserving arithmetic, parameter set, t0, list of times and pair of positions", "why_tests_cant": "rounding errors at every one of about 2^160 single-precision inputs; tests use tolerances", "anchors": ["diffmah/diffmah_kernels.py:mah_singlehalo", "diffmah/diffmah_kernels.py:_log_mah_kern", "diffmah/diffmah_kernels.py:_dmhdt_kern"]}
{"id": "C68", "title": "Bounding stays inside the closed bounds in floating point", "statement": "With rounding to nearest, overflow, infinities and NaN: get_bounded_mah_params maps every input without NaN, infinite ones included, to finite machine numbers with logm0 in [0,17], logtc in [-1,1], late_index in [0.1,5], late_index<=early_index<=10 and t_peak in [0.05,20]. The strict bounds and the exact round trip do not survive: in single precision a finite logm0 input is mapped to 17 itself and back to infinity.", "quantifier": "every round-to-nearest format of at least 20 bits, faithful library and parameter vector without NaN", "why_tests_cant": "all float inputs including infinities", "anchors": ["diffmah/diffmah_kernels.py:get_bounded_mah_params", "diffmah/diffmah_kernels.py:_get_bounded_diffmah_param", "diffmah/diffmah_kernels.py:get_unbounded_mah_params"]}
{"id": "C69", "title": "No overflow on bounded parameters", "statement": "With rounding, overflow, infinities and NaN: for parameters in the closed bounds, times from 1 Myr on and t0 between 0.1 and 25 Gyr, the log-mass is a finite number at every time; the accretion rate is finite up to t0, and at every time when t0>=10 Gyr.", "quantifier": "every round-to-nearest format with largest number at least 2^120 (float32, float64), parameter set in the bounds and time", "why_tests_cant": "overflow in an intermediate of the derivative shows only at extreme corners", "anchors": ["diffmah/diffmah_kernels.py:_diffmah_kern_scalar", "diffmah/diffmah_kernels.py:logmh_at_t_obs"]}
{"id": "C70", "title": "Computed log-masses are accurate", "statement": "For parameters in the closed bounds, times between 0.001 and 20 Gyr and lgt0 in [-1,1.4], the log-mass computed with rounding to nearest and a library accurate to four units differs from the exact one by at most 2000 units of rounding: 1.2e-4 dex in single precision and 3e-13 dex in double precision.", "quantifier": "every such format, library, parameter set, time and t0", "why_tests_cant": "worst case over a continuum", "anchors": ["diffmah/diffmah_kernels.py:_log_mah_kern", "diffmah/diffmah_kernels.py:logmh_at_t_obs"]}
{"id": "C71", "title": "Samples of a mass and time bin hold exactly the halos of that bin", "statement": "A subvolume loses exactly the halos whose fit failed (loss -1). The sample of a bin holds exactly the halos whose final log-mass is within 0.15 of the tabulated mass, in catalogue order; parameters, peak times and host identifiers stay aligned. The table written has one row per selected halo, at most the first 34. The tabulated times and masses are equally spaced from 2 Gyr to t0 and from 11 to 15+0.075(t-15). With the default twelve masses no halo is in two bins from 17/3 Gyr on and no halo in range is missed before that. That the bins partition the masses at any time is false.", "quantifier": "every subvolume, history table, tabulated mass and time, and mass", "why_tests_cant": "the bins depend on a continuous time and the gaps between them are narrow; alignment must hold for every mask", "anchors": ["scripts/diffmahpop_tabulation/smdpl_diffmahpop_utils.py:load_diffmah_subvolume", "scripts/diffmahpop_tabulation/smdpl_diffmahpop_utils.py:get_target_mah_params", "scripts/diffmahpop_tabulation/smdpl_diffmahpop_utils.py:smdpl_diffmahpop_subvolume_loop", "scripts/diffmahpop_tabulation/smdpl_diffmahpop_utils.py:lgmarr_table_from_t_obs_kern", "scripts/diffmahpop_tabulation/smdpl_diffmahpop_utils.py:get_t_obs_table"]}
{"id": "C72", "title": "Collating subvolume samples loses no halo at any moment", "statement": "Collating a directory that holds the samples of a grid succeeds, writes for every bin one file with all rows of all its subvolumes and no other file, and then removes the samples. If the process is killed at any moment, every measured halo is in its sample or in the complete bin file, and other files are unchanged. A collation that raises, on any disk, has changed nothing outside its output directory. An existing output directory is refused before any change. That only collated files are removed is false: any file named subvol_<digit>... is removed, for instance a fit table.", "quantifier": "every grid, every set of samples and subvolume numbers, every directory order, every moment of the run; any disk for the failure case", "why_tests_cant": "a kill can fall between any two file operations, and files are matched by name patterns", "anchors": ["scripts/diffmahpop_tabulation/smdpl_diffmahpop_utils.py:collate_subvolume_samples", "scripts/diffmahpop_tabulation/smdpl_diffmahpop_utils.py:get_subvol_bnpat", "scripts/diffmahpop_tabulation/smdpl_diffmahpop_utils.py:get_output_drn"]}
{"id": "C73", "title": "The target pipeline never returns targets it did not measure", "statement": "As the code stands, the measurement script raises on every subvolume (TypeError on well-formed input) before it writes anything. A tabulation of means and variances that returns has found no sample above the threshold and its tables are empty; the loader refuses them. The loader itself never returns a row. That a complete directory of targets is loaded is false, and so is that the sample counts come from the directory given.", "quantifier": "every disk, directory, input catalogue, grid, cut and random choice", "why_tests_cant": "the claim is about every input; the repository has no data to run these functions on", "anchors": ["scripts/diffmahpop_tabulation/smdpl_diffmahpop_utils.py:smdpl_diffmahpop_subvolume_loop", "scripts/diffmahpop_tabulation/smdpl_diffmahpop_utils.py:get_log_mah_tables_for_t_obs", "scripts/diffmahpop_tabulation/smdpl_diffmahpop_utils.py:tabulate_target_means_vars", "scripts/diffmahpop_tabulation/smdpl_diffmahpop_utils.py:write_mean_variance_to_disk", "diffmah/diffmahpop_kernels/load_diffmahpop_fitdata.py:load_diffmahpop_targets"]}
{"id": "C74", "title": "Component fits report the distance of what they return", "statement": "The loss of each population component (early index, critical time, z=0 mass slope and offset, peak-time density and fraction) is the mean squared (for the peaked fraction: absolute) difference between targets and the predictions of the legal parameters its arguments stand for, is never negative, and is zero exactly when every target is predicted; in particular the parameters that generated the data have loss zero. The two peak-time fitters always return parameters strictly inside the published bounds, report the loss of the returned parameters when scipy does, and after a fall-back to Adam are not worse than the start. The eight global z=0 mass fitters raise AttributeError on every non-empty list of data sets, also on data that the starting point reproduces.", "quantifier": "every parameter array, data set, optimiser behaviour, gradient and starting point", "why_tests_cant": "optimisers and data are unbounded; the global fitters have no tests at all", "anchors": ["diffmah/diffmahpop_kernels/bimod_logm0_kernels/logm0_c0_early.py:global_loss_kern", "diffmah/diffmahpop_kernels/bimod_logm0_kernels/logm0_c0_early.py:fit_global_c0_model", "diffmah/diffmahpop_kernels/bimod_logm0_sats/logm0_c1_late.py:fit_global_c1_model", "diffmah/diffmahpop_kernels/early_index_alpha.py:_loss_kern", "diffmah/diffmahpop_kernels/logtc_early.py:_loss_kern", "diffmah/diffmahpop_kernels/t_peak_kernels/utp_pdf_kernels.py:t_peak_fitter", "diffmah/diffmahpop_kernels/t_peak_kernels/tp_pdf_cens.py:t_peak_cens_fitter", "diffmah/diffmahpop_kernels/t_peak_kernels/tp_pdf_cens_flex.py:loss_multimass"]}
{"id": "C75", "title": "Population peak times are one independent draw per halo", "statement": "The functions that draw peak times for arrays of halos give every halo exactly the peak time the single-halo function draws for its own mass and observation time, using its own piece of the random key; the pieces are pairwise different and differ from the key passed in, so a halo's peak time does not depend on the other halos. Satellites peak between 0.1001 and 0.9999 of the observation time, centrals of the truncated model between 0.1001 t0 and 0.9999 t0 and of the flexible model between 0.05 t0 and t0. Two of the three functions accept one number for all halos and treat it as a constant column; that the third does too is false. Two numbers, or columns of different lengths, raise without drawing.", "quantifier": "every generator, key, parameter set and population", "why_tests_cant": "populations have any size and the generator is arbitrary; the tests check sample means", "anchors": ["diffmah/diffmahpop_kernels/t_peak_kernels/tp_pdf_sats.py:mc_tpeak_sats", "diffmah/diffmahpop_kernels/t_peak_kernels/tp_pdf_sats.py:mc_utp_pdf", "diffmah/diffmahpop_kernels/t_peak_kernels/tp_pdf_cens.py:mc_tpeak_cens", "diffmah/diffmahpop_kernels/t_peak_kernels/tp_pdf_cens_flex.py:mc_t_peak_cenpop", "diffmah/diffmahpop_kernels/t_peak_kernels/utp_pdf_kernels.py:mc_tp_pdf_satpop"]}
{"id": "C76", "title": "Simulation loaders return the rows asked for", "statement": "The Galacticus loader returns exactly when the file has its four columns, and then the requested rows of each; consecutive ranges join to the range they cover, the default arguments give the whole file, and a fitting run on a file writes one table row per halo of the file in file order. The HACC loader returns exactly when its packages, the simulation (known by name or by configuration file) and the mass column are there, with the ages of the outputs; loading all chunks gives every halo once. Its times are those of get_cosmic_time_hacc whenever that returns. That get_cosmic_time_hacc works for every simulation whose histories load is false, and so is that -test False requests a full Galacticus run.", "quantifier": "every file content, range, number of ranks and chunks, schedule, and installed set of packages", "why_tests_cant": "files are arbitrary and the reference data are not in the repository; the loaders have no tests of the ranges", "anchors": ["diffmah/data_loaders/load_galacticus_eps_mahs.py:get_nhalos_tot", "diffmah/data_loaders/load_galacticus_eps_mahs.py:extract_galacticus_mah_tables", "scripts/fitting_scripts/galacticus_diffmah_fitter_script.py", "diffmah/data_loaders/load_hacc_mahs.py:_load_forest", "diffmah/data_loaders/load_hacc_mahs.py:get_cosmic_time_hacc", "diffmah/data_loaders/load_hacc_mahs.py:load_mahs"]}
{"id": "C77", "title": "Test runs of the fitting scripts", "statement": "A test run (-test) of the Bolshoi-Planck script writes the table of the first five halos per rank, of the Galacticus script the first 50 halos of each rank's section (the whole table of a full run if no rank has more), of the Last Journey script the tables of chunks 0, 1 and 2 of subvolume 0; each leaves no temporary file and touches nothing else, and halos outside the sample need not be fittable. A halo of the sample that cannot be fitted stops the run before any table is written. A TNG test run fits every halo like a full run. That a test run works whenever a full run does is false: the Bolshoi-Planck script raises IndexError with fewer than five halos per rank. Without the switch the scripts are those of C51.", "quantifier": "every number of ranks, schedule, message timing, halo list, input file, option values, and fitter including one that raises", "why_tests_cant": "a test run is itself what is used as a check; what it leaves out depends on the number of ranks and halos", "anchors": ["scripts/fitting_scripts/tng_diffmah_fitter_script.py", "scripts/fitting_scripts/bolshoi_planck_fitting_script.py", "scripts/fitting_scripts/galacticus_diffmah_fitter_script.py", "scripts/fitting_scripts/hacc_lastjourney_diffmah_fitter_script.py", "scripts/fitting_scripts/hacc_discovery_sims_diffmah_fitter_script.py"]}
{"id": "C78", "title": "Diagnostic figures compare each table row with its own prediction", "statement": "A single-panel figure shows, for each of its three masses, the table row of the right epoch (t_obs > 13.5, or within 0.5 Gyr of 3) with the nearest mass: its mean with a one-sigma band, and the mean and one-sigma lines predicted for that row's own mass, observation time and time table. It is drawn whenever the table has such a row and otherwise raises ValueError. A residual figure has four panels of fifteen curves; each curve is the predicted minus the tabulated mean of the row nearest in |time difference| + |mass difference|, and vanishes exactly when the row is reproduced. On a grid of times and masses that row has the time nearest to the panel's title and the mass nearest to the curve's. That a panel shows rows of its own time whenever there are some is false in general. The six figures go to six different files.", "quantifier": "every table, legal parameter set and random generator, centrals and satellites", "why_tests_cant": "the figures are only looked at by eye; the choice of rows depends on the whole table", "anchors": ["diffmah/diffmahpop_kernels/diagnostics/plot_bestfit_cen_mahs.py:plot_singlepanel_mahs_centrals_z0", "diffmah/diffmahpop_kernels/diagnostics/plot_bestfit_cen_mahs.py:plot_singlepanel_mahs_centrals_z2", "diffmah/diffmahpop_kernels/diagnostics/plot_bestfit_cen_mahs.py:plot_cen_mah_4panel_residuals", "diffmah/diffmahpop_kernels/diagnostics/plot_bestfit_sat_mahs.py:plot_singlepanel_mahs_satellites_z0", "diffmah/diffmahpop_kernels/diagnostics/plot_bestfit_sat_mahs.py:plot_sat_mah_4panel_residuals"]}
{"id": "C79", "title": "Gradients of the population losses", "statement": "The loss-and-gradient functions of the population fits (centrals, satellites, both together, in bounded and in unbounded parameters) return the loss itself together with a namedtuple of the same fields whose entries are the exact partial derivatives of that loss, with the random numbers held fixed. This holds wherever the parameters are legal, no correlation is exactly zero and no halo sits exactly on a clip, on an entry of its look-up table or on a tabulated time equal to its peak time. At a correlation that is exactly zero it is false: the derivative of the drawn scatter comes out as half its value.", "quantifier": "every such parameter set, every subset of varied parameters, every list of bins, every source of uniform and normal numbers", "why_tests_cant": "a finite-difference test samples a few parameters at a few points; the loss runs through 200 halos, look-up tables, a Cholesky factor and clips", "anchors": ["diffmah/diffmahpop_kernels/bimod_cens_fithelp.py:loss_and_grads_mah_moments_multibin", "diffmah/diffmahpop_kernels/bimod_sats_fithelp.py:loss_and_grads_mah_moments_multibin", "diffmah/diffmahpop_kernels/bimod_censat_fithelp.py:loss_and_grads_mah_moments_multibin_censat", "diffmah/diffmahpop_kernels/bimod_censat_fithelp.py:loss_and_grads_mah_moments_multibin_censat_u_params", "diffmah/diffmahpop_kernels/covariance_kernels.py:_get_diffmahpop_cov"]}
{"id": "C80", "title": "Gradients of the component losses", "statement": "The loss-and-gradient functions of the single-component fits (early index, critical time, z=0 mass, central peak-time fractions, peak-time densities) return the loss itself together with its exact partial derivatives, one per parameter, in an array or namedtuple of the shape they were called with, and the loss can be evaluated at every displaced parameter. This holds for every parameter array of the right length (legal namedtuples for the z=0 mass and the fractions) and every non-empty data set, wherever no prediction is exactly at a clip (critical time, z=0 mass), no absolute difference is exactly zero (fractions) and the data lie inside the support (densities); the early-index losses and the loss of a single curve need no such condition. At parameters that predict every target of an index or critical-time loss the gradient is exactly zero.", "quantifier": "every such parameter set and data set, every parameter", "why_tests_cant": "finite differences sample a few points; the fitters only see the gradient through an optimiser that also ends when it is wrong", "anchors": ["diffmah/diffmahpop_kernels/early_index_alpha.py:loss_and_grads_kern", "diffmah/diffmahpop_kernels/early_index_beta.py:loss_and_grads_kern", "diffmah/diffmahpop_kernels/early_index_pop.py:loss_and_grads_kern", "diffmah/diffmahpop_kernels/logtc_early.py:loss_and_grads_kern", "diffmah/diffmahpop_kernels/logtc_late.py:loss_and_grads_kern", "diffmah/diffmahpop_kernels/bimod_logm0_kernels/logm0_c0_early.py:global_loss_and_grads_kern", "diffmah/diffmahpop_kernels/bimod_logm0_kernels/logm0_c1_early.py:global_loss_and_grads_kern", "diffmah/diffmahpop_kernels/bimod_logm0_sats/logm0_c0_early.py:global_loss_and_grads_kern", "diffmah/diffmahpop_kernels/bimod_logm0_sats/logm0_c1_early.py:global_loss_and_grads_kern", "diffmah/diffmahpop_kernels/t_peak_kernels/utp_pdf_kernels.py:loss_and_grads_kern", "diffmah/diffmahpop_kernels/t_peak_kernels/tp_pdf_cens.py:loss_and_grads_kern", "diffmah/diffmahpop_kernels/t_peak_kernels/tp_pdf_cens_flex.py:loss_and_grad_multimass", "diffmah/diffmahpop_kernels/t_peak_kernels/tp_pdf_cens_flex.py:loss_and_grad"]}
{"id": "C81", "title": "Bounding of population parameters in machine arithmetic", "statement": "In float32 and in float64, every function that turns unbounded population parameters into bounded ones (each component, the merged tuples and the whole parameter set) maps every tuple without NaN, infinite and huge values included, to finite numbers inside the closed published bounds, up to a known excess: twelve z=0-mass parameters in float32 can come out above their upper bound by at most 2^-28, and four in float64 by at most 2^-57. The excess does occur for unbounded values of 2000 or more, and converting such a result back gives infinity. For unbounded values up to 100 in size the result is within 200 rounding units, on the scale of the bounds, of the exact one.", "quantifier": "every unbounded parameter tuple in machine numbers, every bounding function, both precisions; every faithful arithmetic of at least 20 bits for the accuracy", "why_tests_cant": "tests convert a few hundred random tuples of order one; they do not reach saturation, and a bound exceeded in the last bit looks equal under allclose", "anchors": ["diffmah/diffmahpop_kernels/bimod_censat_params.py:get_diffmahpop_params_from_u_params", "diffmah/diffmahpop_kernels/bimod_logm0_kernels/logm0_c0_early.py:get_bounded_c0_params", "diffmah/diffmahpop_kernels/bimod_logm0_kernels/logm0_pop_bimod.py:get_bounded_m0pop_params", "diffmah/diffmahpop_kernels/logtc_bimod.py:get_bounded_logtc_params", "diffmah/diffmahpop_kernels/early_index_bimod.py:get_bounded_early_index_params", "diffmah/diffmahpop_kernels/late_index_bimod.py:get_bounded_late_index_params", "diffmah/diffmahpop_kernels/frac_early_cens.py:get_bounded_fec_params", "diffmah/diffmahpop_kernels/covariance_kernels.py:get_bounded_cov_params", "diffmah/diffmahpop_kernels/t_peak_kernels/tp_pdf_cens_flex.py:get_bounded_tp_cens_params"]}
{"id": "C82", "title": "Masses below the threshold in double precision", "statement": "In float64 the offset of 1e-7 that the fitter adds to 10**lgm_min is lost in rounding whenever 10**lgm_min is at least 2**30: every mass at or below the threshold gets the rounded log10 of the threshold and every mass above it its own rounded log10. For a whole lgm_min from 10 to 22 that value is lgm_min exactly, so every point handed to the fit has a mass strictly above 10**lgm_min, as documented - unlike in exact arithmetic, where the cut removes nothing (C34). Without a threshold a zero mass has log-mass exactly -7.", "quantifier": "every mass history in double precision, every lgm_min of that range, every time array, mass cut and earliest time", "why_tests_cant": "a test compares a few histories; that the documented cut works only because of rounding is invisible to it", "anchors": ["diffmah/fitting_helpers/diffmah_fitter_helpers.py:_get_clipped_log_mah", "diffmah/fitting_helpers/diffmah_fitter_helpers.py:_get_target_data"]}
{"id": "C83", "title": "Generated halos in machine arithmetic", "statement": "With rounding, overflow, infinities and NaN in play: the Monte Carlo generators never raise on any numbers. In float32 and float64, every NaN-free set of unbounded population parameters, infinite ones included, combined with any finite random numbers, log-masses from 6 to 13.4 and observation times up to 15 Gyr (from 0.6 Gyr for satellites) gives halos whose diffmah parameters are finite and within the published (closed) bounds, whose early fraction is between 0.24 and 0.76, and whose tabulated histories contain no NaN or infinity, never lose mass and never have a negative rate up to today. The same holds of the parameters when the peak times are given. A log-mass from 17.2 to 20 always gives NaN.", "quantifier": "every parameter set, every generator of finite numbers, every population size, every table of times, every rounding error within the stated accuracy", "why_tests_cant": "a test draws a few populations at the default parameters; saturated parameters and extreme draws do not occur in it", "anchors": ["diffmah/diffmahpop_kernels/mc_bimod_cens.py:mc_cenpop,mc_diffmah_cenpop,mc_diffmah_params_singlecen", "diffmah/diffmahpop_kernels/mc_bimod_sats.py:mc_diffmah_satpop,mc_diffmah_params_singlesat", "diffmah/diffmahpop_kernels/bimod_censat_params.py:get_diffmahpop_params_from_u_params"]}
{"id": "C84", "title": "Population parameters mean what their names say", "statement": "For every set of population parameters, legal or not: each ylo/yhi (early/late) pair of parameters gives the values between which its quantity passes, in one direction, far below and far above the parameter named x0 (t0), where it is half-way; the width of the passage is the published constant. The fraction of early formers passes between its light and heavy values with mass, each passing between its early and late parameter with the time of observation; the early index of light halos passes with the peak time and that of heavy halos with the time of observation; the late index passes with mass only; the median of the peak-time curve of centrals and the location and scale of satellites likewise. logtc equals its pivot parameters at 10^12 and a peak time of 10 Gyr and is linear in log-mass with slope logtc_lgm_c1; the growth of logm0 at 10^12 equals lgm0pop_c0_ytp at 15 Gyr and its slope lgm0pop_c1_ytp at 10 Gyr unless the floors set by the peak time are higher. Where the code clips, the values are these confined to the clipping interval.", "quantifier": "every parameter set, mass, time of observation and peak time", "why_tests_cant": "a test can evaluate the kernels at some points; that exchanged arguments or parameters go unnoticed there is the typical case, since all values stay in range", "anchors": ["diffmah/diffmahpop_kernels/frac_early_cens.py:_frac_early_cens_kern", "diffmah/diffmahpop_kernels/early_index_alpha.py:_pred_early_index_kern", "diffmah/diffmahpop_kernels/late_index_alpha.py:_pred_late_index_kern", "diffmah/diffmahpop_kernels/logtc_early.py:_pred_logtc_kern", "diffmah/diffmahpop_kernels/bimod_logm0_kernels/logm0_pop_early.py:_pred_logm0_kern", "diffmah/diffmahpop_kernels/ftpt0_cens.py:_ftpt0_kernel", "diffmah/diffmahpop_kernels/t_peak_kernels/tp_pdf_cens_flex.py:_frac_peaked_vs_lgm", "diffmah/diffmahpop_kernels/t_peak_kernels/tp_pdf_sats.py:_get_utp_loc,_get_utp_scale", "diffmah/diffmahpop_kernels/t_peak_kernels/tp_pdf_cens.py:_get_singlepdf_params"]}
{"id": "C85", "title": "Computed accretion rates are accurate", "statement": "For every halo with parameters in the published closed bounds and a late index of at least 0.1, every time from 0.001 to 20 Gyr up to today and a mass then of at least one solar mass, the accretion rate dM/dt returned in float32 differs from the exact one by less than 0.63 per cent and in float64 by less than 1.2e-11 relatively; in any faithful arithmetic of at least 24 bits the relative error is at most 104000 rounding units. The rate is a product of a mass, an automatic derivative and a power of ten, in which the error of a log-mass is amplified by the exponential.", "quantifier": "every legal halo, every table of times, every position in it, every rounding behaviour within the stated accuracy", "why_tests_cant": "tests compare the rate with a finite difference of the mass to a per cent at a few points, where they cannot tell rounding error from a wrong term", "anchors": ["diffmah/diffmah_kernels.py:mah_singlehalo,_dmhdt_kern,_dmhdt_kern_scalar,_dmhdt_noq_kern_scalar"]}
{"id": "C86", "title": "Conversions between bounded and unbounded parameters nearly invert each other in machine arithmetic", "statement": "get_unbounded_mah_params(get_bounded_mah_params(u)) returns u up to 1110 exp(|u - middle|/10) rounding units in each of the five parameters, for unbounded values up to 60 in size; for values up to 30 this is less than 0.006 in float32 and less than 1.1e-11 in float64. get_bounded_mah_params(get_unbounded_mah_params(p)) returns p up to at most 1300 rounding units, less than 8e-5 in float32 and less than 1.5e-13 in float64, for every p at least one part in 500 of its interval away from the bounds - the early index included, whose lower bound is the late index and is itself recomputed on the way back.", "quantifier": "every parameter set in the stated ranges, every arithmetic of at least 24 bits with a faithful library", "why_tests_cant": "tests convert random sets back and forth and compare with a tolerance; how the error grows towards the bounds, where the sigmoid is flat, needs an argument for all values", "anchors": ["diffmah/diffmah_kernels.py:get_bounded_mah_params,get_unbounded_mah_params,_get_early_late,_get_u_early_late,_sigmoid,_inverse_sigmoid"]}
{"id": "C87", "title": "Rounding the parameters hardly moves the history", "statement": "For any two parameter sets, one of them with indices between 0 and 10, and any time, the two log-masses differ by at most the difference of the z=0 log-masses, plus D times the larger difference of the indices, plus 8.75 D times the difference of logtc, plus (10 + 8.75 D) times the difference of the logarithms of the peak times, D being the distance in dex from today. Hence the parameters of a fit, written to the text output with six digits and read back, give at all times from 0.001 to 20 Gyr the history of the fit to better than 0.0007 dex; and parameters converted to unbounded ones and back, with a peak at 1 Gyr or later, give it to better than 0.002 dex in float32 and 4e-12 dex in float64.", "quantifier": "every pair of parameter sets, every time, every choice of today; every successful fit of every history; every arithmetic with a faithful library", "why_tests_cant": "tests check that parameters read back are close; how closeness of parameters carries over to histories at all times and for all halos is not a matter of examples", "anchors": ["diffmah/diffmah_kernels.py:logmh_at_t_obs,get_bounded_mah_params,get_unbounded_mah_params", "diffmah/fitting_helpers/diffmah_fitter_helpers.py:get_outline,_parse_outline,diffmah_fitter"]}
{"id": "C88", "title": "A history belongs to one set of parameters only", "statement": "Two halos with legal parameters whose log-masses - or whose accretion rates - agree on an initial stretch of time, however short, have the same logm0, logtc, early and late index. If their histories agree up to today and one of them stopped growing before today, they have the same peak time as well, hence are the same. A peak time later than today leaves no trace in the history up to today.", "quantifier": "every pair of legal halos, every choice of today, every initial interval", "why_tests_cant": "tests recover the parameters of a few simulated halos; that no two of the infinitely many halos share a history cannot be tried out", "anchors": ["diffmah/diffmah_kernels.py:mah_singlehalo,logmh_at_t_obs"]}
{"id": "C89", "title": "Formation times are well defined and ordered", "statement": "A halo with legal parameters reached every fraction of today's mass at exactly one time up to today, before its peak, and larger fractions later. Today's mass has no influence on these times. Of two halos that differ only in the early index, the one with the larger value reaches every fraction later; the same holds for the peak time unless both still grow today, and for the late index and logtc if both still grow today. For halos that stopped growing before today a larger late index or logtc can mean earlier formation.", "quantifier": "every legal halo, every choice of today, every fraction between 0 and 1, every pair of halos differing in one parameter", "why_tests_cant": "tests look at histories on time grids; existence and uniqueness of a crossing time, and its order for all pairs of halos, are statements about the continuum", "anchors": ["diffmah/diffmah_kernels.py:logmh_at_t_obs,_log_mah_kern,_log_mah_noq_kern,_power_law_index_vs_logt"]}
{"id": "C90", "title": "The specific accretion rate always declines", "statement": "For every halo with legal parameters the accretion rate divided by the mass declines strictly with time up to today, and the factor by which the mass grows in a span of fixed length is smaller the later the span. The logarithmic growth rate stays above the late index and below the late index plus 3.75 times the difference of the indices; the early index itself is not an upper bound. Once it is down to the early index it falls for good, and once it is also down to 1 the accretion rate itself falls for good.", "quantifier": "every legal halo, every choice of today up to 100 Gyr, every pair of times, every span before the peak", "why_tests_cant": "tests evaluate rates on time grids of a few halos; strict decline between any two times of any halo is not reached that way", "anchors": ["diffmah/diffmah_kernels.py:mah_singlehalo,_dmhdt_kern,_log_mah_noq_kern,_power_law_index_vs_logt"]}
{"id": "C91", "title": "Each parameter moves the history in one direction", "statement": "Of two legal halos that differ in the early index, the late index or logtc only, the one with the larger value has the lower mass at every time before today, the same mass today and, while it still grows, the higher mass after today; their histories never cross before today. Of two halos that differ in the peak time only and peak by today, the histories are equal up to the earlier peak, and from then on the one that peaks later is strictly more massive.", "quantifier": "every pair of legal halos that differ in one parameter, every choice of today, every time", "why_tests_cant": "tests compare a few histories on time grids; that no pair of halos crosses at any time is a statement about all of them", "anchors": ["diffmah/diffmah_kernels.py:logmh_at_t_obs,_log_mah_kern,_log_mah_noq_kern,_power_law_index_vs_logt"]}
{"id": "C92", "title": "From simulated histories to the table of fits", "statement": "However the ranks of the TNG, Bolshoi, Galacticus or Last Journey fitting script are scheduled, with at least two halos per rank, every rank returns and the table has for every halo, in order, a row that describes it: the number of points to be fitted that lie below the last one; if there are fewer than three, the marks of a halo without a fit; otherwise the result of one of the two minimisers and, if final mass and peak time are in the range of the model, parameters whose history is, to 0.0007 dex at all times from 0.001 to 20 Gyr, that of a legal halo with the simulated peak time, and to six digits the mean squared residual of that halo. Galacticus halos that end early are described as continued at their last mass, and those that cover too short a span are marked as without a fit.", "quantifier": "every schedule and number of ranks, every set of finite histories, every optimiser that starts at its input and every minimiser that reports its own loss, every previous content of the output directory", "why_tests_cant": "a test runs one schedule on a few histories and one optimiser; the chain from loader to table over all of them cannot be run", "anchors": ["scripts/fitting_scripts/tng_diffmah_fitter_script.py", "scripts/fitting_scripts/bolshoi_planck_fitting_script.py", "scripts/fitting_scripts/hacc_lastjourney_diffmah_fitter_script.py", "scripts/fitting_scripts/galacticus_diffmah_fitter_script.py", "diffmah/fitting_helpers/diffmah_fitter_helpers.py:diffmah_fitter,get_outline,get_loss_data"]}
{"id": "C93", "title": "The choice of today is part of a fit", "statement": "With the same legal parameters a later today (lgt0) gives a lower mass at every time, by between the late and the early index times the logarithm of the ratio of the two ages. No other value of logm0 makes up for the change: up to the peak the history with the later today strictly gains on the other, by less than the difference of the indices times that logarithm. So two histories with the same shape parameters that agree at two times up to the peak have the same today and the same logm0. Two legal halos with any parameters whose masses, or accretion rates, agree on an initial stretch of time, however short, have the same today and the same parameters, the peak time aside.", "quantifier": "every pair of legal halos, every pair of values of today, every pair of times, every initial stretch of time", "why_tests_cant": "tests use one or two values of lgt0; that no renormalisation can undo a change of it is a statement about all pairs of values and times", "anchors": ["diffmah/diffmah_kernels.py:logmh_at_t_obs,_log_mah_kern,_log_mah_noq_kern,_rolling_plaw_vs_logt"]}
