(** Model of the population kernels of diffmah/diffmahpop_kernels: the mean
    parameters, the fraction of early formers, the covariance and the
    distribution of the peak time.

    The files that exist in several copies with different field-name suffixes
    (alpha and beta, early and late, with and without sats) are modelled once
    with the suffix as an argument.  Kernels are modelled for scalar arguments;
    [jjit] is the identity and [vmap] applies a kernel entry by entry. *)

From Coq Require Import Reals String List Bool Arith ZArith.
From Verif Require Import Model_Num Model_Base Model_Kernels Model_Utils Model_PopBase Model_PopData.
Import ListNotations.
Local Open Scope string_scope.

Section Kernels.
  Context {A : Type} {N : Num A}.
  Local Open Scope num_scope.

  (** ** Early index *)

  (** early_index_alpha.py:13-17 (and _beta, _pop) *)
  Definition EPS_INDEX : A := #(1 / 1000).
  Definition EARLY_INDEX_K : A := #1.
  Definition EARLY_INDEX_YHI_K : A := #(1 / 2).
  Definition EARLY_INDEX_YLO_K : A := #1.

  (** early_index_alpha.py:70-81 *)
  Definition get_early_index_ylo (ylo_x0 ylo_ylo ylo_yhi t_peak : A) : A :=
    sigmoid t_peak ylo_x0 EARLY_INDEX_YLO_K ylo_ylo ylo_yhi.

  (** early_index_alpha.py:84-95 *)
  Definition get_early_index_yhi (yhi_x0 yhi_ylo yhi_yhi t_obs : A) : A :=
    sigmoid t_obs yhi_x0 EARLY_INDEX_YHI_K yhi_ylo yhi_yhi.

  (** early_index_alpha.py:44-67 ([sfx] = "_alpha"), early_index_beta.py:44-67
      ("_beta"), early_index_pop.py:44-67 ("") *)
  Definition pred_early_index_kern (sfx : string) (params : rec A) (lgm_obs t_obs t_peak : A)
    : res A :=
    let* ylo_x0 := getattr params ("early_index_ylo_x0" ++ sfx) in
    let* ylo_ylo := getattr params ("early_index_ylo_ylo" ++ sfx) in
    let* ylo_yhi := getattr params ("early_index_ylo_yhi" ++ sfx) in
    let ylo := get_early_index_ylo ylo_x0 ylo_ylo ylo_yhi t_peak in
    let* yhi_x0 := getattr params ("early_index_yhi_x0" ++ sfx) in
    let* yhi_ylo := getattr params ("early_index_yhi_ylo" ++ sfx) in
    let* yhi_yhi := getattr params ("early_index_yhi_yhi" ++ sfx) in
    let yhi := get_early_index_yhi yhi_x0 yhi_ylo yhi_yhi t_obs in
    let* lgm_x0 := getattr params ("early_index_lgm_x0" ++ sfx) in
    let early := sigmoid lgm_obs lgm_x0 EARLY_INDEX_K ylo yhi in
    let (lo, hi) := early_index MAH_PBOUNDS in
    Ok (clip early (lo + EPS_INDEX) (hi - EPS_INDEX)).

  (** ** Late index *)

  (** late_index_alpha.py:14 *)
  Definition LATE_INDEX_K : A := #1.

  (** late_index_alpha.py:33-44 ("_alpha"), late_index_beta.py:33-44 ("_beta") *)
  Definition pred_late_index_kern (sfx : string) (params : rec A) (lgm_obs : A) : res A :=
    let* x0 := getattr params ("late_index_x0" ++ sfx) in
    let* ylo := getattr params ("late_index_ylo" ++ sfx) in
    let* yhi := getattr params ("late_index_yhi" ++ sfx) in
    let late := sigmoid lgm_obs x0 LATE_INDEX_K ylo yhi in
    let (lo, hi) := late_index MAH_PBOUNDS in
    Ok (clip late (lo + EPS_INDEX) (hi - EPS_INDEX)).

  (** ** logtc *)

  (** logtc_early.py:36-38 *)
  Definition TAUC_LGMP : A := #12.
  Definition C0_SS_XTP : A := #10.
  Definition C0_SS_K : A := #(1 / 2).

  (** logtc_early.py:50-60 ("_early"), logtc_late.py:50-60 ("_late") *)
  Definition get_c0 (sfx : string) (params : rec A) (t_peak t_obs : A) : res A :=
    let* ytp_c0 := getattr params ("logtc_lgm_c0_tp_ytp_tobs_c0" ++ sfx) in
    let* ytp_c1 := getattr params ("logtc_lgm_c0_tp_ytp_tobs_c1" ++ sfx) in
    let ytp := ytp_c0 + ytp_c1 * t_obs in
    let* ylo := getattr params ("logtc_lgm_c0_tp_ylo" ++ sfx) in
    let* yhi := getattr params ("logtc_lgm_c0_tp_yhi" ++ sfx) in
    let* x0 := getattr params ("logtc_c0_ss_x0" ++ sfx) in
    Ok (sig_slope t_peak C0_SS_XTP ytp x0 C0_SS_K ylo yhi).

  (** logtc_early.py:41-47, logtc_late.py:41-47 *)
  Definition pred_logtc_kern (sfx : string) (params : rec A) (lgm_obs t_obs t_peak : A) : res A :=
    let* lgm_c0 := get_c0 sfx params t_peak t_obs in
    let* lgm_c1 := getattr params ("logtc_lgm_c1" ++ sfx) in
    let ltc := lgm_c0 + lgm_c1 * (lgm_obs - TAUC_LGMP) in
    let (lo, hi) := logtc MAH_PBOUNDS in
    Ok (clip ltc (lo + EPS_INDEX) (hi - EPS_INDEX)).

  (** ** logm0 *)

  (** bimod_logm0_kernels/logm0_c0_early.py:35-36, logm0_c1_early.py:38-40,
      logm0_pop_early.py:25 *)
  Definition LGM0_C0_XTP : A := #15.
  Definition LGM0_C1_XTP : A := #10.
  Definition LGM0_GLOBAL_K : A := #(1 / 4).
  Definition LGM0_CLIP_TP_K : A := #1.
  Definition TP_LGMP : A := #12.

  (** bimod_logm0_kernels/logm0_c0_early.py:40-53 ("_early"), logm0_c0_late.py
      ("_late"), bimod_logm0_sats/logm0_c0_early.py:40-56 ("_early_sats") and
      logm0_c0_late.py ("_late_sats") *)
  Definition pred_c0_kern (sfx : string) (params : rec A) (t_obs t_peak : A) : res A :=
    let* ytp := getattr params ("lgm0pop_c0_ytp" ++ sfx) in
    let* x0 := getattr params ("lgm0pop_c0_t_obs_x0" ++ sfx) in
    let* ylo := getattr params ("lgm0pop_c0_ylo" ++ sfx) in
    let pred_c0 := sig_slope t_obs LGM0_C0_XTP ytp x0 LGM0_GLOBAL_K ylo #0 in
    let* clip_c0 := getattr params ("lgm0pop_c0_clip_c0" ++ sfx) in
    let* clip_c1 := getattr params ("lgm0pop_c0_clip_c1" ++ sfx) in
    Ok (clip_min pred_c0 (clip_c0 + clip_c1 * t_peak)).

  (** bimod_logm0_kernels/logm0_c1_early.py:44-64 and its copies *)
  Definition pred_c1_kern (sfx : string) (params : rec A) (t_obs t_peak : A) : res A :=
    let* ytp := getattr params ("lgm0pop_c1_ytp" ++ sfx) in
    let* x0 := getattr params ("lgm0pop_c1_t_obs_x0" ++ sfx) in
    let* ylo := getattr params ("lgm0pop_c1_ylo" ++ sfx) in
    let pred_c1 := sig_slope t_obs LGM0_C1_XTP ytp x0 LGM0_GLOBAL_K ylo #0 in
    let* clip_x0 := getattr params ("lgm0pop_c1_clip_x0" ++ sfx) in
    let* clip_ylo := getattr params ("lgm0pop_c1_clip_ylo" ++ sfx) in
    let* clip_yhi := getattr params ("lgm0pop_c1_clip_yhi" ++ sfx) in
    Ok (clip_min pred_c1 (sigmoid t_peak clip_x0 LGM0_CLIP_TP_K clip_ylo clip_yhi)).

  (** bimod_logm0_kernels/logm0_pop_early.py:28-33 and its copies *)
  Definition pred_logm0_kern (sfx : string) (params : rec A) (lgm_obs t_obs t_peak : A) : res A :=
    let* c0 := pred_c0_kern sfx params t_obs t_peak in
    let* c1 := pred_c1_kern sfx params t_obs t_peak in
    let delta_lgm := c0 + c1 * (lgm_obs - TP_LGMP) in
    Ok (lgm_obs + delta_lgm).

  (** ** Fractions *)

  (** frac_early_cens.py:12-13 *)
  Definition FEC_LGM_K : A := #4.
  Definition FEC_T_K : A := #1.

  (** frac_early_cens.py:39-59 *)
  Definition frac_early_cens_kern (params : rec A) (lgm_obs t_obs : A) : res A :=
    let* t_x0 := getattr params "fec_t_obs_x0" in
    let* ylo_early := getattr params "fec_lgm_ylo_early" in
    let* ylo_late := getattr params "fec_lgm_ylo_late" in
    let ylo := sigmoid t_obs t_x0 FEC_T_K ylo_early ylo_late in
    let* yhi_early := getattr params "fec_lgm_yhi_early" in
    let* yhi_late := getattr params "fec_lgm_yhi_late" in
    let yhi := sigmoid t_obs t_x0 FEC_T_K yhi_early yhi_late in
    let* lgm_x0 := getattr params "fec_lgm_x0" in
    Ok (sigmoid lgm_obs lgm_x0 FEC_LGM_K ylo yhi).

  (** ftpt0_cens.py:13-14, 19 *)
  Definition T0_C0 : A := #10.
  Definition LGM0_FTPT0 : A := #12.
  Definition FTPT0_LO : A := #(1 / 100).
  Definition FTPT0_HI : A := #(99 / 100).

  (** ftpt0_cens.py:34-41 *)
  Definition ftpt0_kernel (params : rec A) (lgm_obs t_obs : A) : res A :=
    let* c0_c0 := getattr params "ftpt0_c0_c0" in
    let* c0_c1 := getattr params "ftpt0_c0_c1" in
    let c0 := c0_c0 + c0_c1 * (t_obs - T0_C0) in
    let c0 := clip c0 FTPT0_LO FTPT0_HI in
    let* c1 := getattr params "ftpt0_c1" in
    let ftpt0 := c0 + c1 * (lgm_obs - LGM0_FTPT0) in
    Ok (clip ftpt0 FTPT0_LO FTPT0_HI).

  (** ** Covariance of the unbounded parameters *)

  (** covariance_kernels.py:17 *)
  Definition COV_LGM_K : A := #2.

  (** ["rho_" == key[:4]] *)
  Definition is_rho (key : string) : bool := String.eqb "rho_" (substring 0 4 key).

  (** One of the four sigmoids of covariance_kernels.py:87-114 *)
  Definition cov_std (params : rec A) (lgm_obs : A) (q : string) : res A :=
    let* x0 := getattr params ("cov_lgm_x0_" ++ q) in
    let* ylo := getattr params ("std_u_" ++ q ++ "_ylo") in
    let* yhi := getattr params ("std_u_" ++ q ++ "_yhi") in
    Ok (sigmoid lgm_obs x0 COV_LGM_K ylo yhi).

  (** covariance_kernels.py:85-121 *)
  Definition get_cov_params (params : rec A) (lgm_obs : A) : res (list A * list A) :=
    let* std_u_logm0 := cov_std params lgm_obs "logm0" in
    let* std_u_logtc := cov_std params lgm_obs "logtc" in
    let* std_u_early := cov_std params lgm_obs "early" in
    let* std_u_late := cov_std params lgm_obs "late" in
    let diags := [std_u_logm0; std_u_logtc; std_u_early; std_u_late] in
    let* off_diags := getattrs params (filter is_rho (fields params)) in
    Ok (diags, off_diags).

  (** Square matrices: entries by row and column. *)
  Definition nmat := nat -> nat -> A.

  (** utils.py:110-138, get_cholesky_from_params over any numeric type (the
      indices are those of [chol_indx] in Model_Utils); entry of row i, column
      j.  jax clamps an index past the end. *)
  Definition cholesky_from_params (x : list A) : nat * nmat :=
    let ndim := chol_ndim (List.length x) in
    (ndim, fun i j =>
      let k := Z.to_nat (nth (i * ndim + j) (chol_indx ndim) 0%Z) in
      let v := nth (Nat.min k (List.length x - 1)) x #0 in
      v * (if Nat.leb j i then #1 else #0)).

  (** [sum over k < n] for matrix products *)
  Definition nsumn (n : nat) (f : nat -> A) : A := fold_right nadd #0 (map f (seq 0 n)).
  Definition nmdot (n : nat) (a b : nmat) : nmat :=
    fun i j => nsumn n (fun k => a i k * b k j).

  (** utils.py:203-222, covariance_from_correlation over any numeric type *)
  Definition cov_from_corr (n : nat) (corr : nmat) (evals : list A) : nmat :=
    let D : nmat := fun i j => if Nat.eqb i j then nth i evals #0 else #0 in
    nmdot n (nmdot n D corr) D.

  (** covariance_kernels.py:71-79 *)
  Definition get_diffmahpop_cov (params : rec A) (lgm : A) : res (nat * nmat) :=
    let* (diags, off_diags) := get_cov_params params lgm in
    let ones := map (fun _ => #1) diags in
    let x := (ones ++ off_diags)%list in
    let (ndim, M) := cholesky_from_params x in
    let corr : nmat := fun i j => jwhere (neqb (M i j) #0) (M j i) (M i j) in
    Ok (ndim, cov_from_corr ndim corr diags).

  (** ** Peak time of centrals *)

  (** t_peak_kernels/tp_pdf_cens_flex.py:14-22 *)
  Definition TPC_YLO : A := #0.
  Definition TPC_YHI : A := #1.
  Definition TPC_K : A := #5.
  Definition UTP_LGM_X0_K : A := #1.
  Definition UTP_T_OBS_X0_K : A := #2.
  Definition UTP_MIN : A := #(5 / 100).

  (** tp_pdf_cens_flex.py:50 *)
  Definition UTP_TABLE : list A := linspace #0 #1 200.

  (** tp_pdf_cens_flex.py:83-102 *)
  Definition get_utp_x0_from_lgm (params : rec A) (lgm t_obs : A) : res A :=
    let* lgm_x0 := getattr params "cen_tp_lgm_x0_x0" in
    let* ylo_early := getattr params "cen_tp_x0_ylo_early" in
    let* yhi_early := getattr params "cen_tp_x0_yhi_early" in
    let utp_x0_early := sigmoid lgm lgm_x0 UTP_LGM_X0_K ylo_early yhi_early in
    let* ylo_late := getattr params "cen_tp_x0_ylo_late" in
    let* yhi_late := getattr params "cen_tp_x0_yhi_late" in
    let utp_x0_late := sigmoid lgm lgm_x0 UTP_LGM_X0_K ylo_late yhi_late in
    let* t_x0 := getattr params "cen_tp_t_obs_x0_x0" in
    Ok (sigmoid t_obs t_x0 UTP_T_OBS_X0_K utp_x0_early utp_x0_late).

  (** tp_pdf_cens_flex.py:105-108, for an array of [utp] *)
  Definition frac_peaked_vs_lgm (params : rec A) (utp : list A) (lgm t_obs : A) : res (list A) :=
    let* utp_x0 := get_utp_x0_from_lgm params lgm t_obs in
    Ok (map (fun u => sigmoid u utp_x0 TPC_K TPC_YLO TPC_YHI) utp).

  (** tp_pdf_cens_flex.py:69-75 after the draw: [uran] is the uniform number. *)
  Definition utp_of_uran (params : rec A) (lgm_obs t_obs uran : A) : res A :=
    let* fp_table := frac_peaked_vs_lgm params UTP_TABLE lgm_obs t_obs in
    let utp := interp uran fp_table UTP_TABLE in
    Ok (clip_min utp UTP_MIN).

  (** tp_pdf_cens_flex.py:53-56 after the draw *)
  Definition tpeak_cen_of_uran (params : rec A) (lgm_obs t_obs t_0 uran : A) : res A :=
    let* utp := utp_of_uran params lgm_obs t_obs uran in
    Ok (utp * t_0).

  (** ** Peak time of satellites *)

  (** t_peak_kernels/utp_pdf_kernels.py:16-18 *)
  Definition X_MIN : A := #(1 / 10).
  Definition X_MAX : A := #1.
  Definition NPTS_CDF_TABLE : nat := 50.
  Definition UTP_EPS : A := #(1 / 10000).

  (** The cumulative distribution of jax.scipy.stats.truncnorm (external),
      arguments [x a b loc scale]. *)
  Context (truncnorm_cdf : A -> A -> A -> A -> A -> A).

  (** utp_pdf_kernels.py:66-71 *)
  Definition get_a_b_loc_scale (params : A * A) (x_min x_max : A) : A * A * A * A :=
    let (loc, scale) := params in
    let a := (x_min - loc) / scale in
    let b := (x_max - loc) / scale in
    (a, b, loc, scale).

  (** utp_pdf_kernels.py:74-78 *)
  Definition tp_cdf_kern (x : A) (params : A * A) : A :=
    let '(a, b, loc, scale) := get_a_b_loc_scale params X_MIN X_MAX in
    truncnorm_cdf x a b loc scale.

  (** utp_pdf_kernels.py:44-53 after the draw *)
  Definition utp_sat_of_uran (params : A * A) (u_ran : A) : A :=
    let (loc, scale) := params in
    let x_min := nmaximum (loc - #4 * scale) (X_MIN + UTP_EPS) in
    let x_max := nminimum (loc + #4 * scale) (X_MAX - UTP_EPS) in
    let x_cdf_table := linspace x_min x_max NPTS_CDF_TABLE in
    let cdf_table := map (fun x => tp_cdf_kern x params) x_cdf_table in
    interp u_ran cdf_table x_cdf_table.

  (** tp_pdf_sats.py:13-19 *)
  Definition UTP_LOC_LGM_YHI : A := #(95 / 100).
  Definition UTP_LOC_LGM_K : A := #(15 / 10).
  Definition UTP_LOC_TOBS_K : A := #(4 / 10).
  Definition UTP_SCALE_LGM_X0 : A := #12.
  Definition UTP_SCALE_LGM_K : A := #1.
  Definition UTP_SCALE_TOBS_K : A := #1.
  Definition UTP_SCALE_LGM_YHI : A := #(16 / 100).

  (** tp_pdf_sats.py:84-93 *)
  Definition get_utp_loc_lgm_ylo (params : rec A) (t_obs : A) : res A :=
    let* t0 := getattr params "utp_loc_lgm_ylo_t0" in
    let* early := getattr params "utp_loc_lgm_ylo_early" in
    let* late := getattr params "utp_loc_lgm_ylo_late" in
    Ok (sigmoid t_obs t0 UTP_LOC_TOBS_K early late).

  (** tp_pdf_sats.py:75-81 *)
  Definition get_utp_loc (params : rec A) (lgm_obs t_obs : A) : res A :=
    let* ylo := get_utp_loc_lgm_ylo params t_obs in
    let* x0 := getattr params "utp_loc_lgm_x0" in
    Ok (sigmoid lgm_obs x0 UTP_LOC_LGM_K ylo UTP_LOC_LGM_YHI).

  (** tp_pdf_sats.py:109-118 *)
  Definition get_utp_scale_lgm_ylo (params : rec A) (t_obs : A) : res A :=
    let* t0 := getattr params "utp_scale_lgm_ylo_t0" in
    let* early := getattr params "utp_scale_lgm_ylo_early" in
    let* late := getattr params "utp_scale_lgm_ylo_late" in
    Ok (sigmoid t_obs t0 UTP_SCALE_TOBS_K early late).

  (** tp_pdf_sats.py:96-106 *)
  Definition get_utp_scale (params : rec A) (lgm_obs t_obs : A) : res A :=
    let* ylo := get_utp_scale_lgm_ylo params t_obs in
    Ok (sigmoid lgm_obs UTP_SCALE_LGM_X0 UTP_SCALE_LGM_K ylo UTP_SCALE_LGM_YHI).

  (** tp_pdf_sats.py:65-72 after the draw *)
  Definition tpeak_sat_of_uran (params : rec A) (lgm_obs t_obs u_ran : A) : res A :=
    let* utp_loc := get_utp_loc params lgm_obs t_obs in
    let* utp_scale := get_utp_scale params lgm_obs t_obs in
    let utp := utp_sat_of_uran (utp_loc, utp_scale) u_ran in
    Ok (utp * t_obs).

  (** ** Peak time of centrals, truncated-normal version (tp_pdf_cens.py) *)

  (** tp_pdf_cens.py:14, 28-29 *)
  Definition LOC_T_OBS_K : A := #1.
  Definition TPCK_LGM0 : A := #(125 / 10).
  Definition TPCK_K : A := #2.
  Definition DEFAULT_TRUNCNORM_LOC : A := #(95 / 100).

  (** tp_pdf_cens.py:42-46 *)
  Definition get_truncnorm_scale_boost (params : rec A) (t_obs t_0 : A) : res A :=
    let loc_t_crit := t_0 / #2 in
    let* boost_early := getattr params "tpck_scale_boost_early" in
    Ok (sigmoid t_obs loc_t_crit LOC_T_OBS_K boost_early #0).

  (** tp_pdf_cens.py:49-54 *)
  Definition get_truncnorm_scale (params : rec A) (lgm : A) : res A :=
    let* lo := getattr params "tpck_scale_mh_lo" in
    let* hi := getattr params "tpck_scale_mh_hi" in
    Ok (sigmoid lgm TPCK_LGM0 TPCK_K lo hi).

  (** tp_pdf_cens.py:75-81 *)
  Definition get_singlepdf_params (params : rec A) (lgm_obs t_obs t_0 : A) : res (A * A) :=
    let* scale_t0 := get_truncnorm_scale params lgm_obs in
    let* boost := get_truncnorm_scale_boost params t_obs t_0 in
    let scale := scale_t0 + boost in
    let loc := #0 * scale + DEFAULT_TRUNCNORM_LOC in
    Ok (loc, scale).

  (** tp_pdf_cens.py:66-72 after the draw *)
  Definition tpeak_cen_trunc_of_uran (params : rec A) (lgm_obs t_obs t_0 u_ran : A) : res A :=
    let* p := get_singlepdf_params params lgm_obs t_obs t_0 in
    let utp := utp_sat_of_uran p u_ran in
    Ok (utp * t_0).

  (** tp_pdf_cens.py:125-129 *)
  Definition t_peak_cens_cdf_kern (params : A * A) (t_peak t_0 : A) : A :=
    tp_cdf_kern (t_peak / t_0) params / t_0.

  (** tp_pdf_cens.py:94-101 *)
  Definition t_peak_cen_cdf_singlehalo_kern (params : rec A) (lgm_obs t_obs t_peak t_0 : A) : res A :=
    let loc := DEFAULT_TRUNCNORM_LOC in
    let* scale_t0 := get_truncnorm_scale params lgm_obs in
    let* boost := get_truncnorm_scale_boost params t_obs t_0 in
    let scale := scale_t0 + boost in
    Ok (t_peak_cens_cdf_kern (loc, scale) t_peak t_0).

  (** The density of jax.scipy.stats.truncnorm (external). *)
  Context (truncnorm_pdf : A -> A -> A -> A -> A -> A).

  (** utp_pdf_kernels.py:81-85 *)
  Definition tp_pdf_kern (x : A) (params : A * A) : A :=
    let '(a, b, loc, scale) := get_a_b_loc_scale params X_MIN X_MAX in
    truncnorm_pdf x a b loc scale.

  (** tp_pdf_cens.py:118-122 *)
  Definition t_peak_cens_pdf_kern (params : A * A) (t_peak t_0 : A) : A :=
    tp_pdf_kern (t_peak / t_0) params / t_0.

  (** tp_pdf_cens.py:84-91 *)
  Definition t_peak_cen_pdf_singlehalo_kern (params : rec A) (lgm_obs t_obs t_peak t_0 : A) : res A :=
    let loc := DEFAULT_TRUNCNORM_LOC in
    let* scale_t0 := get_truncnorm_scale params lgm_obs in
    let* boost := get_truncnorm_scale_boost params t_obs t_0 in
    let scale := scale_t0 + boost in
    Ok (t_peak_cens_pdf_kern (loc, scale) t_peak t_0).
End Kernels.

(** jnp.mean((y - x)**2), e.g. early_index_alpha.py:98-101 *)
Definition pop_mse {A} {N : Num A} (x y : list A) : A :=
  nmean (map (fun xy => let d := (snd xy - fst xy)%num in (d * d)%num) (combine x y)).
