(** Properties C35-C43, C48 and C56: components of the population model. *)

From Coq Require Import Reals String List Bool Arith Lia Lra.
From Coquelicot Require Import Coquelicot.
From Verif Require Import Model_Num RealAux Model_Base Model_Kernels Model_Utils Model_PopBase Model_PopData
  Model_PopParams Model_PopKernels Spec_Utils Spec_Pop Spec_TruncNorm Proofs_PopBase Proofs_PopParams
  Proofs_PopAll Proofs_PopInterp Proofs_PopKernels Proofs_PopCov Proofs_PopTpeak
  Proofs_PopProps Proofs_PopMass.
Import ListNotations.
Local Open Scope R_scope.
Local Open Scope string_scope.

(** ** C35 *)

(** For every public pair of maps: from any reals the bounded tuple is legal
    and is mapped back, and every legal tuple is mapped to reals and back. *)
Theorem C35_bijection : forall c b ub, In (c, b, ub) bounding_pairs ->
  (forall u, unbounded_for c u -> exists p, b u = Ok p /\ legal_for c p /\ ub p = Ok u) /\
  (forall p, legal_for c p -> exists u, ub p = Ok u /\ unbounded_for c u /\ b u = Ok p).
Proof. intros c b ub H. destruct (bounding_pairs_act c b ub H). now apply acts_bijection. Qed.
Print Assumptions C35_bijection.

(** The maps act field by field and preserve order: the bounded values of
    field [k] compare as the unbounded values of [u_k]. *)
Theorem C35_fieldwise_monotone : forall c b ub u v p q k x y a d,
  In (c, b, ub) bounding_pairs -> unbounded_for c u -> unbounded_for c v -> b u = Ok p -> b v = Ok q ->
  has u ("u_" ++ k) x -> has v ("u_" ++ k) y -> has p k a -> has q k d ->
  (x <= y <-> a <= d).
Proof.
  intros c b ub u v p q k x y a d H. destruct (bounding_pairs_act c b ub H) as [W Ac].
  exact (acts_fieldwise c b ub u v p q k x y a d W Ac).
Qed.
Print Assumptions C35_fieldwise_monotone.

Example C35_example : legal_for EARLY_INDEX_BETA (c_pdict EARLY_INDEX_BETA) /\
  In (EARLY_INDEX_BETA, get_bounded_params EARLY_INDEX_BETA, get_unbounded_params EARLY_INDEX_BETA) bounding_pairs.
Proof.
  split.
  - split; [reflexivity|]. intros k lo hi H. cbn [In c_bdict EARLY_INDEX_BETA] in H.
    repeat (destruct H as [H|H]; [injection H as <- <- <-; eexists; split; [unfold has; cbn [In c_pdict EARLY_INDEX_BETA]; tauto|lra]|]).
    contradiction.
  - unfold bounding_pairs. apply in_or_app. left. apply (in_map (fun c => (c, get_bounded_params c, get_unbounded_params c))).
    cbn [In]. tauto.
Qed.

(** The late-index pair of late_index_bimod.py does not have the property: a
    legal tuple is not restored. *)
Theorem C35_late_index_refuted : exists p, legal_for LATE_INDEX_BIMOD p /\
  exists u p', get_unbounded_late_index_params p = Ok u /\ get_bounded_late_index_params u = Ok p' /\ p' <> p.
Proof. exact late_bimod_refuted. Qed.
Print Assumptions C35_late_index_refuted.

(** Exactly what it does: both maps always succeed and stay in the legal domain,
    the beta fields come back, the alpha fields come back as the beta fields, and
    so a tuple is restored exactly when its alpha and beta fields agree. *)
Theorem C35_late_index_exact : forall p, legal_for LATE_INDEX_BIMOD p ->
  exists u p', get_unbounded_late_index_params p = Ok u /\ unbounded_for LATE_INDEX_BIMOD u /\
    get_bounded_late_index_params u = Ok p' /\ legal_for LATE_INDEX_BIMOD p' /\
    (forall q v, In q late_quantities -> has p (q ++ "_beta") v -> has p' (q ++ "_beta") v /\ has p' (q ++ "_alpha") v) /\
    (p' = p <-> forall q v, In q late_quantities -> has p (q ++ "_beta") v -> has p (q ++ "_alpha") v).
Proof. exact late_bimod_iff. Qed.
Print Assumptions C35_late_index_exact.

Theorem C35_late_index_exact_unbounded : forall u, unbounded_for LATE_INDEX_BIMOD u ->
  exists p u', get_bounded_late_index_params u = Ok p /\ legal_for LATE_INDEX_BIMOD p /\
    get_unbounded_late_index_params p = Ok u' /\
    (forall q v, In q late_quantities -> has u ("u_" ++ q ++ "_beta") v ->
       has u' ("u_" ++ q ++ "_beta") v /\ has u' ("u_" ++ q ++ "_alpha") v) /\
    (u' = u <-> forall q v, In q late_quantities -> has u ("u_" ++ q ++ "_beta") v -> has u ("u_" ++ q ++ "_alpha") v).
Proof. exact late_bimod_u_iff. Qed.
Print Assumptions C35_late_index_exact_unbounded.

(** ** C36 *)

(** The round trip through unbounded parameters keeps every field except the
    three alpha late-index fields, which come back as the beta ones. *)
Theorem C36_round_trip_fields : forall p, legal_pop p ->
  exists u p', get_diffmahpop_u_params_from_params p = Ok u /\ unbounded_pop u /\
    get_diffmahpop_params_from_u_params u = Ok p' /\ legal_pop p' /\
    (forall k v, (forall q, In q late_quantities -> k <> q ++ "_alpha") -> has p k v -> has p' k v) /\
    (forall q v, In q late_quantities -> has p (q ++ "_beta") v -> has p' (q ++ "_alpha") v).
Proof. exact pop_round_trip_fields. Qed.
Print Assumptions C36_round_trip_fields.

(** The identity holds exactly when the alpha and beta fields agree. *)
Theorem C36_identity_iff : forall p, legal_pop p ->
  (exists u, get_diffmahpop_u_params_from_params p = Ok u /\ get_diffmahpop_params_from_u_params u = Ok p) <->
  (forall q v, In q late_quantities -> has p (q ++ "_beta") v -> has p (q ++ "_alpha") v).
Proof. exact pop_round_trip_iff. Qed.
Print Assumptions C36_identity_iff.

Theorem C36_round_trip_refuted : exists p, legal_pop p /\
  exists u p', get_diffmahpop_u_params_from_params p = Ok u /\
    get_diffmahpop_params_from_u_params u = Ok p' /\ p' <> p.
Proof. exact pop_round_trip_refuted. Qed.
Print Assumptions C36_round_trip_refuted.

(** From any real unbounded parameters the result is legal, and the way back
    has the same defect. *)
Theorem C36_from_unbounded : forall u, unbounded_pop u ->
  exists p u', get_diffmahpop_params_from_u_params u = Ok p /\ legal_pop p /\
    get_diffmahpop_u_params_from_params p = Ok u' /\
    (forall k v, (forall q, In q late_quantities -> k <> "u_" ++ q ++ "_alpha") -> has u k v -> has u' k v) /\
    (forall q v, In q late_quantities -> has u ("u_" ++ q ++ "_beta") v -> has u' ("u_" ++ q ++ "_alpha") v).
Proof. exact pop_u_round_trip_fields. Qed.
Print Assumptions C36_from_unbounded.

(** The published defaults are legal. *)
Theorem C36_defaults_legal : exists d : rec R, DEFAULT_DIFFMAHPOP_PARAMS = Ok d /\ legal_pop d.
Proof. exact default_legal. Qed.
Print Assumptions C36_defaults_legal.

(** ** C37 *)

(** The nine component tuples are the parameter set cut in consecutive
    pieces, each with exactly the names of its component, and every field is
    in exactly one of them. *)
Theorem C37_partition : forall (p : rec R), shaped (map fst pop_bounds) p ->
  exists ps, get_component_model_params p = Ok ps /\ concat ps = p /\
    Forall2 (fun c q => shaped (map fst (c_pdict c)) q) pop_components ps /\
    (forall k v, has p k v -> exists! i, exists q, nth_error ps i = Some q /\ has q k v).
Proof. exact partition. Qed.
Print Assumptions C37_partition.

Theorem C37_partition_unbounded : forall (u : rec R), unbounded_pop u ->
  exists us, get_component_model_u_params u = Ok us /\ concat us = u /\
    Forall2 (fun c q => unbounded_for c q) pop_components us /\
    (forall k v, has u k v -> exists! i, exists q, nth_error us i = Some q /\ has q k v).
Proof. exact partition_u. Qed.
Print Assumptions C37_partition_unbounded.

(** Excluding fields and restoring: the varied tuple has exactly the fields
    not excluded; merged into defaults it gives the varied values for those
    and the defaults for the others. *)
Theorem C37_exclusion : forall (all dflt : rec R) excl, NoDup (map fst all) -> map fst dflt = map fst all ->
  exists varied r, get_varied_params_by_exclusion all excl = Ok varied /\
    get_all_diffmahpop_params_from_varied varied dflt = Ok r /\
    (forall k v, has varied k v <-> has all k v /\ ~ In k excl) /\
    map fst r = map fst all /\
    (forall k v, In k excl -> has dflt k v -> has r k v) /\
    (forall k v, ~ In k excl -> has all k v -> has r k v).
Proof. exact varied_spec. Qed.
Print Assumptions C37_exclusion.

Example C37_example : exists d : rec R, DEFAULT_DIFFMAHPOP_PARAMS = Ok d /\ shaped (map fst pop_bounds) d /\ NoDup (map fst d).
Proof.
  destruct default_legal as (d & E & L). exists d. split; [exact E|]. split; [apply L|]. now apply legal_pop_nodup.
Qed.

(** ** C38 *)

(** The covariance matrix is symmetric and positive definite, has the squared
    standard deviations (a sigmoid of mass between two fields) on the diagonal, and the correlation fields
    [rho_<row>_<column>] below the diagonal. *)
Theorem C38_covariance : forall p lgm, legal_pop p \/ legal_for COV p ->
  exists M s, get_diffmahpop_cov p lgm = Ok (4%nat, M) /\
    (forall i j, (i < 4)%nat -> (j < 4)%nat -> M i j = M j i) /\
    (forall i q, nth_error cov_quantities i = Some q -> exists x0 lo hi,
       has p ("cov_lgm_x0_" ++ q) x0 /\ has p ("std_u_" ++ q ++ "_ylo") lo /\ has p ("std_u_" ++ q ++ "_yhi") hi /\
       s i = lo + (hi - lo) / (1 + exp (- (2 * (lgm - x0)))) /\ 1/100 < s i < 100) /\
    (forall i, (i < 4)%nat -> M i i = s i * s i) /\
    (forall i j q r, (j < i < 4)%nat -> nth_error cov_quantities i = Some q -> nth_error cov_quantities j = Some r ->
       exists rho, has p ("rho_" ++ q ++ "_" ++ r) rho /\ M i j = rho * s i * s j) /\
    posdef 4 M.
Proof. exact covariance. Qed.
Print Assumptions C38_covariance.

(** In particular for every real unbounded parameter set. *)
Theorem C38_unbounded : forall u lgm, unbounded_for COV u ->
  exists p M, get_bounded_params COV u = Ok p /\ get_diffmahpop_cov p lgm = Ok (4%nat, M) /\
    (forall i j, (i < 4)%nat -> (j < 4)%nat -> M i j = M j i) /\ posdef 4 M.
Proof. exact covariance_u. Qed.
Print Assumptions C38_unbounded.

Example C38_example : (exists d : rec R, DEFAULT_DIFFMAHPOP_PARAMS = Ok d /\ legal_pop d) /\
  unbounded_for COV (map (fun kv => ("u_" ++ fst kv, 3)%string) (c_pdict COV)).
Proof. split; [exact default_legal|]. unfold unbounded_for, shaped. rewrite !map_map. reflexivity. Qed.

(** ** C39 *)

Theorem C39_probability : forall p lgm t, provides FEC p ->
  exists f, frac_early_cens_kern p lgm t = Ok f /\ 1/4 < f < 3/4.
Proof. exact frac_early_range. Qed.
Print Assumptions C39_probability.

(** A legal population parameter set provides every component. *)
Theorem C39_population_provides : forall c p, In c pop_components -> legal_pop p -> provides c p.
Proof. exact pop_components_provided. Qed.
Print Assumptions C39_population_provides.

Example C39_example : exists d : rec R, DEFAULT_DIFFMAHPOP_PARAMS = Ok d /\ provides FEC d.
Proof.
  destruct default_legal as (d & E & L). exists d. split; [exact E|].
  apply pop_components_provided; [cbn [In pop_components]; tauto|exact L].
Qed.

(** ** C40 *)

Theorem C40_probability : forall p lgm t, provides FTPT0 p ->
  exists f, ftpt0_kernel p lgm t = Ok f /\ 1/100 <= f <= 99/100.
Proof. exact ftpt0_range. Qed.
Print Assumptions C40_probability.

Theorem C40_monotone : forall p lgm lgm' t t' f f', provides FTPT0 p -> lgm <= lgm' -> t <= t' ->
  ftpt0_kernel p lgm t = Ok f -> ftpt0_kernel p lgm' t' = Ok f' -> f <= f'.
Proof. exact ftpt0_mono. Qed.
Print Assumptions C40_monotone.

Example C40_example : provides FTPT0 (c_pdict FTPT0).
Proof. exact ftpt0_defaults. Qed.

(** ** C41 *)

Theorem C41_range : forall p lgm t t0 uran, provides TPCENS_FLEX p -> 0 <= t0 ->
  exists tp, tpeak_cen_of_uran p lgm t t0 uran = Ok tp /\ 5/100 * t0 <= tp <= t0.
Proof. exact cen_tpeak_range. Qed.
Print Assumptions C41_range.

Theorem C41_monotone : forall p lgm t t0 u v tp tp', provides TPCENS_FLEX p -> 0 <= t0 -> u <= v ->
  tpeak_cen_of_uran p lgm t t0 u = Ok tp -> tpeak_cen_of_uran p lgm t t0 v = Ok tp' -> tp <= tp'.
Proof. exact cen_tpeak_mono. Qed.
Print Assumptions C41_monotone.

(** The draw inverts the published cumulative curve: feeding it the value of
    the curve at [x] gives back [x] (or 0.05) times t0, up to the spacing of
    the table. *)
Theorem C41_inverts_curve : forall p lgm t t0 x u, provides TPCENS_FLEX p -> 0 <= t0 -> 0 <= x <= 1 ->
  frac_peaked_vs_lgm p [x] lgm t = Ok [u] ->
  exists tp, tpeak_cen_of_uran p lgm t t0 u = Ok tp /\ Rabs (tp - Rmax x (5/100) * t0) <= t0 / 199.
Proof. exact cen_tpeak_inverts. Qed.
Print Assumptions C41_inverts_curve.

Example C41_example : exists d : rec R, DEFAULT_DIFFMAHPOP_PARAMS = Ok d /\ provides TPCENS_FLEX d /\ provides TP_SATS d.
Proof.
  destruct default_legal as (d & E & L). exists d. split; [exact E|].
  split; apply pop_components_provided; try exact L; cbn [In pop_components]; tauto.
Qed.

(** ** C42 *)

Theorem C42_range : forall p lgm t u, provides TP_SATS p -> 0 <= t ->
  exists tp, tpeak_sat_of_uran truncnorm_cdf_R p lgm t u = Ok tp /\ 1001/10000 * t <= tp <= 9999/10000 * t.
Proof. exact sat_tpeak_range. Qed.
Print Assumptions C42_range.

Theorem C42_monotone : forall p lgm t u v tp tp', provides TP_SATS p -> 0 <= t -> u <= v ->
  tpeak_sat_of_uran truncnorm_cdf_R p lgm t u = Ok tp -> tpeak_sat_of_uran truncnorm_cdf_R p lgm t v = Ok tp' -> tp <= tp'.
Proof. exact sat_tpeak_mono. Qed.
Print Assumptions C42_monotone.

(** The draw inverts the truncated normal on [0.1, 1] with the location and
    scale of the satellite: for [x] within four scales of the location and
    inside the support, the draw at the cumulative probability of [x] is [x]
    times t_obs, up to the spacing of the table. *)
Theorem C42_inverts_cdf : forall p lgm t, provides TP_SATS p -> 0 <= t ->
  exists loc scale, get_utp_loc p lgm t = Ok loc /\ get_utp_scale p lgm t = Ok scale /\
    15/100 < loc < 95/100 /\ 1/10 < scale < 6/10 /\
    forall x, 1001/10000 <= x <= 9999/10000 -> loc - 4 * scale <= x <= loc + 4 * scale ->
      exists tp, tpeak_sat_of_uran truncnorm_cdf_R p lgm t
          (truncnorm_cdf_R x ((1/10 - loc) / scale) ((1 - loc) / scale) loc scale) = Ok tp /\
        Rabs (tp - x * t) <= 19/1000 * t.
Proof. exact sat_tpeak_inverts. Qed.
Print Assumptions C42_inverts_cdf.

(** The published parameters meet the hypothesis, and x = loc is in the range of
    the last theorem. *)
Example C42_example : exists d : rec R, DEFAULT_DIFFMAHPOP_PARAMS = Ok d /\ provides TP_SATS d /\
  exists loc scale, get_utp_loc d 12 10 = Ok loc /\ get_utp_scale d 12 10 = Ok scale /\
    1001/10000 <= loc <= 9999/10000 /\ loc - 4 * scale <= loc <= loc + 4 * scale.
Proof.
  destruct default_legal as (d & E & L). exists d. split; [exact E|].
  assert (P : provides TP_SATS d) by (apply pop_components_provided; [cbn [In pop_components]; tauto|exact L]).
  split; [exact P|]. destruct (C42_inverts_cdf d 12 10 P ltac:(lra)) as (loc & scale & H1 & H2 & H3 & H4 & _).
  exists loc, scale. split; [exact H1|]. split; [exact H2|]. lra.
Qed.

(** ** C43 *)

Theorem C43_legal_means : forall p lgm t tp a b, legal_pop p -> In (a, b) two_populations ->
  exists e l c, pred_early_index_kern a p lgm t tp = Ok e /\ pred_late_index_kern a p lgm = Ok l /\
    pred_logtc_kern b p lgm t tp = Ok c /\
    1/10 < l < 2/10 /\ 5/10 < e < 4 /\ l < e /\ -1 < c < 1.
Proof. exact legal_means. Qed.
Print Assumptions C43_legal_means.

(** The critical time does not decrease with mass. *)
Theorem C43_logtc_monotone : forall p lgm lgm' t tp b v v', legal_pop p -> In b ["_early"; "_late"] -> lgm <= lgm' ->
  pred_logtc_kern b p lgm t tp = Ok v -> pred_logtc_kern b p lgm' t tp = Ok v' -> v <= v'.
Proof. exact logtc_monotone. Qed.
Print Assumptions C43_logtc_monotone.

Example C43_example : exists d : rec R, DEFAULT_DIFFMAHPOP_PARAMS = Ok d /\ legal_pop d.
Proof. exact default_legal. Qed.

(** ** C48 *)

Theorem C48_above_observed : forall p lgm t tp s, legal_pop p -> In s four_populations -> t <= 15 -> 12 <= lgm ->
  exists v, pred_logm0_kern s p lgm t tp = Ok v /\ lgm + 1/100 < v.
Proof. exact logm0_above. Qed.
Print Assumptions C48_above_observed.

Theorem C48_increasing : forall p lgm lgm' t tp s, legal_pop p -> In s four_populations -> lgm < lgm' ->
  exists v v', pred_logm0_kern s p lgm t tp = Ok v /\ pred_logm0_kern s p lgm' t tp = Ok v' /\ v < v'.
Proof. exact logm0_incr. Qed.
Print Assumptions C48_increasing.

(** Both limits are needed.  At every mass up to 10^11.9 some legal parameter
    set predicts a mass at z=0 below the observed one, still at t_obs <= 15. *)
Theorem C48_low_mass_refuted : forall lgm, lgm <= 119/10 ->
  exists p t tp v, legal_pop p /\ t <= 15 /\ 0 < tp <= t /\ pred_logm0_kern "_early" p lgm t tp = Ok v /\ v < lgm.
Proof.
  intros lgm H. destruct (edge_mass lgm H) as (v & E & L).
  exists EDGE_PDICT, 15, 6, v. refine (conj edge_legal (conj _ (conj _ (conj E L)))); lra.
Qed.
Print Assumptions C48_low_mass_refuted.

(** After 15 Gyr the same happens at the pivot mass. *)
Theorem C48_late_time_refuted :
  exists p t tp v, legal_pop p /\ 0 < tp <= t /\ pred_logm0_kern "_early" p 12 t tp = Ok v /\ v < 12.
Proof.
  destruct edge_time as (v & E & L).
  exists EDGE_PDICT, 18, 6, v. refine (conj edge_legal (conj _ (conj E L))); lra.
Qed.
Print Assumptions C48_late_time_refuted.

(** The published parameters do it for an early-forming central of 10^9 seen
    today with t_peak = 9.7 Gyr. *)
Theorem C48_published_dwarf_refuted : exists d : rec R, DEFAULT_DIFFMAHPOP_PARAMS = Ok d /\ legal_pop d /\
  exists v, pred_logm0_kern "_early" d 9 (138/10) (97/10) = Ok v /\ v < 9.
Proof. exact default_dwarf. Qed.
Print Assumptions C48_published_dwarf_refuted.

Example C48_example : exists d : rec R, DEFAULT_DIFFMAHPOP_PARAMS = Ok d /\
  exists v, pred_logm0_kern "_late_sats" d 13 (138/10) 5 = Ok v /\ 13 + 1/100 < v.
Proof.
  destruct default_legal as (d & E & L). exists d. split; [exact E|].
  apply C48_above_observed; [exact L|right; right; right; left; reflexivity|lra|lra].
Qed.

(** ** C56 *)

(** t_0 times the published kernel is a distribution function of t_peak: 0 up
    to t_0/10, non-decreasing, 1 from t_0 on. *)
Theorem C56_scaled_is_cdf : forall p lgm t t0, provides TPCENS p -> 0 < t0 ->
  exists F, (forall tp, t_peak_cen_cdf_singlehalo_kern truncnorm_cdf_R p lgm t tp t0 = Ok (F tp)) /\
    (forall tp, tp <= t0 / 10 -> t0 * F tp = 0) /\
    (forall tp tp', tp <= tp' -> t0 * F tp <= t0 * F tp') /\
    (forall tp, t0 <= tp -> t0 * F tp = 1).
Proof. exact cen_scaled_cdf. Qed.
Print Assumptions C56_scaled_is_cdf.

(** The kernel itself is not: it ends at 1/t_0. *)
Theorem C56_kernel_cdf_refuted : exists p lgm t t0, legal_for TPCENS p /\ 0 < t0 /\
  forall tp, t0 <= tp -> exists v, t_peak_cen_cdf_singlehalo_kern truncnorm_cdf_R p lgm t tp t0 = Ok v /\ v < 1/10.
Proof. exact cen_cdf_refuted. Qed.
Print Assumptions C56_kernel_cdf_refuted.

(** The density kernel is the density of that distribution. *)
Theorem C56_density : forall p lgm t t0 tp, provides TPCENS p -> 0 < t0 -> t0 / 10 <= tp <= t0 ->
  exists cdf pdf, t_peak_cen_cdf_singlehalo_kern truncnorm_cdf_R p lgm t tp t0 = Ok cdf /\
    (forall s, t_peak_cen_pdf_singlehalo_kern truncnorm_pdf_R p lgm t s t0 = Ok (pdf s)) /\
    is_RInt pdf (t0 / 10) tp (t0 * cdf).
Proof. exact cen_pdf_integral. Qed.
Print Assumptions C56_density.

Theorem C56_density_integrates_to_one : forall p lgm t t0, provides TPCENS p -> 0 < t0 ->
  exists pdf, (forall s, t_peak_cen_pdf_singlehalo_kern truncnorm_pdf_R p lgm t s t0 = Ok (pdf s)) /\
    is_RInt pdf (t0 / 10) t0 1.
Proof. exact cen_pdf_one. Qed.
Print Assumptions C56_density_integrates_to_one.

Theorem C56_draw_range : forall p lgm t t0 u, provides TPCENS p -> 0 <= t0 ->
  exists tp, tpeak_cen_trunc_of_uran truncnorm_cdf_R p lgm t t0 u = Ok tp /\ 1001/10000 * t0 <= tp <= 9999/10000 * t0.
Proof. exact cen_trunc_range. Qed.
Print Assumptions C56_draw_range.

Example C56_example : provides TPCENS (c_pdict TPCENS).
Proof. exact tpcens_defaults. Qed.
