(** Theorem for C84: the parameters of the population model mean what their names say. *)

From Coq Require Import Reals String List Lra.
From Verif Require Import Model_Num Model_Base Model_Kernels Model_PopBase Model_PopData Model_PopParams Model_PopKernels
  Spec_Pop Spec_PopLimits Proofs_PopBase Proofs_PopParams Proofs_PopAll Proofs_PopKernels Proofs_PopLimits.
Import ListNotations.
Local Open Scope R_scope.
Local Open Scope string_scope.

(** ** C84 *)

(** Nothing is assumed of the values: [p] is any tuple with distinct field names that
    has the fields named. *)

(** The fraction of early formers passes with mass from a value of light halos to a
    value of heavy halos, and both pass with the time of observation from the
    parameter named "early" to the one named "late". *)
Theorem C84_fraction_early : forall (p : rec R) tx0 lx0 le ll he hl, NoDup (map fst p) ->
  has p "fec_t_obs_x0" tx0 -> has p "fec_lgm_x0" lx0 ->
  has p "fec_lgm_ylo_early" le -> has p "fec_lgm_ylo_late" ll ->
  has p "fec_lgm_yhi_early" he -> has p "fec_lgm_yhi_late" hl ->
  exists light heavy : R -> R, exists f : R -> R -> R,
    (forall lgm t, frac_early_cens_kern p lgm t = Ok (f lgm t)) /\
    gradual light le ll tx0 (ln 9) /\ gradual heavy he hl tx0 (ln 9) /\
    forall t, gradual (fun lgm => f lgm t) (light t) (heavy t) lx0 (ln 9 / 4).
Proof. exact fraction_meaning. Qed.
Print Assumptions C84_fraction_early.

(** The late index passes with mass from its low to its high value (and is confined
    to the bounds of the fit parameter). *)
Theorem C84_late_index : forall (p : rec R) s x0 lo hi, NoDup (map fst p) ->
  has p ("late_index_x0" ++ s) x0 -> has p ("late_index_ylo" ++ s) lo -> has p ("late_index_yhi" ++ s) hi ->
  exists f, (forall lgm, pred_late_index_kern s p lgm = Ok (confined (101/1000) (4999/1000) (f lgm))) /\
    gradual f lo hi x0 (ln 9).
Proof. exact late_meaning. Qed.
Print Assumptions C84_late_index.

(** The early index of light halos depends on the peak time, that of heavy halos on the
    time of observation. *)
Theorem C84_early_index : forall (p : rec R) s lx0 px0 pe pl tx0 te tl, NoDup (map fst p) ->
  has p ("early_index_lgm_x0" ++ s) lx0 ->
  has p ("early_index_ylo_x0" ++ s) px0 -> has p ("early_index_ylo_ylo" ++ s) pe -> has p ("early_index_ylo_yhi" ++ s) pl ->
  has p ("early_index_yhi_x0" ++ s) tx0 -> has p ("early_index_yhi_ylo" ++ s) te -> has p ("early_index_yhi_yhi" ++ s) tl ->
  exists light heavy : R -> R, exists f : R -> R -> R -> R,
    (forall lgm t tp, pred_early_index_kern s p lgm t tp = Ok (confined (101/1000) (9999/1000) (f lgm t tp))) /\
    gradual light pe pl px0 (ln 9) /\ gradual heavy te tl tx0 (2 * ln 9) /\
    forall t tp, gradual (fun lgm => f lgm t tp) (light tp) (heavy t) lx0 (ln 9).
Proof. exact early_meaning. Qed.
Print Assumptions C84_early_index.

(** The critical time is linear in the mass and in the time of observation, with its
    pivots at 10^12 and at a peak time of 10 Gyr; the slope with the peak time passes
    from one parameter to the other. *)
Theorem C84_critical_time : forall (p : rec R) s a0 a1 lo hi x0 c1, NoDup (map fst p) ->
  has p ("logtc_lgm_c0_tp_ytp_tobs_c0" ++ s) a0 -> has p ("logtc_lgm_c0_tp_ytp_tobs_c1" ++ s) a1 ->
  has p ("logtc_lgm_c0_tp_ylo" ++ s) lo -> has p ("logtc_lgm_c0_tp_yhi" ++ s) hi ->
  has p ("logtc_c0_ss_x0" ++ s) x0 -> has p ("logtc_lgm_c1" ++ s) c1 ->
  exists slope, gradual slope lo hi x0 (2 * ln 9) /\
    forall lgm t tp, pred_logtc_kern s p lgm t tp =
      Ok (confined (-(999/1000)) (999/1000) (a0 + a1 * t + slope tp * (tp - 10) + c1 * (lgm - 12))).
Proof. exact logtc_meaning. Qed.
Print Assumptions C84_critical_time.

(** The growth since the observation is a constant plus a slope times the mass above
    10^12.  Each passes through its parameter at a fixed time (15 and 10 Gyr), and is
    held above a floor set by the peak time. *)
Theorem C84_mass_today : forall (p : rec R) s y0 lo0 x0 k0 k1 y1 lo1 x1 cx clo chi, NoDup (map fst p) ->
  has p ("lgm0pop_c0_ytp" ++ s) y0 -> has p ("lgm0pop_c0_ylo" ++ s) lo0 -> has p ("lgm0pop_c0_t_obs_x0" ++ s) x0 ->
  has p ("lgm0pop_c0_clip_c0" ++ s) k0 -> has p ("lgm0pop_c0_clip_c1" ++ s) k1 ->
  has p ("lgm0pop_c1_ytp" ++ s) y1 -> has p ("lgm0pop_c1_ylo" ++ s) lo1 -> has p ("lgm0pop_c1_t_obs_x0" ++ s) x1 ->
  has p ("lgm0pop_c1_clip_x0" ++ s) cx -> has p ("lgm0pop_c1_clip_ylo" ++ s) clo -> has p ("lgm0pop_c1_clip_yhi" ++ s) chi ->
  exists slope0 slope1 floor1, gradual slope0 lo0 0 x0 (4 * ln 9) /\ gradual slope1 lo1 0 x1 (4 * ln 9) /\
    gradual floor1 clo chi cx (ln 9) /\
    forall lgm t tp, pred_logm0_kern s p lgm t tp =
      Ok (lgm + (Rmax (y0 + slope0 t * (t - 15)) (k0 + k1 * tp) +
                 Rmax (y1 + slope1 t * (t - 10)) (floor1 tp) * (lgm - 12))).
Proof. exact logm0_meaning. Qed.
Print Assumptions C84_mass_today.

(** The probability of still growing. *)
Theorem C84_still_growing : forall (p : rec R) a0 a1 c1, NoDup (map fst p) ->
  has p "ftpt0_c0_c0" a0 -> has p "ftpt0_c0_c1" a1 -> has p "ftpt0_c1" c1 ->
  forall lgm t, ftpt0_kernel p lgm t =
    Ok (confined (1/100) (99/100) (confined (1/100) (99/100) (a0 + a1 * (t - 10)) + c1 * (lgm - 12))).
Proof. exact ftpt0_meaning. Qed.
Print Assumptions C84_still_growing.

(** The published curve of the fraction of centrals that have peaked rises from 0 to 1;
    its median passes with the time of observation between two values, each of which
    passes between two parameters with mass. *)
Theorem C84_central_peak : forall (p : rec R) lx0 tx0 le he ll hl, NoDup (map fst p) ->
  has p "cen_tp_lgm_x0_x0" lx0 -> has p "cen_tp_t_obs_x0_x0" tx0 ->
  has p "cen_tp_x0_ylo_early" le -> has p "cen_tp_x0_yhi_early" he ->
  has p "cen_tp_x0_ylo_late" ll -> has p "cen_tp_x0_yhi_late" hl ->
  exists early late : R -> R, exists median : R -> R -> R, exists f : R -> R -> R -> R,
    (forall us lgm t, frac_peaked_vs_lgm p us lgm t = Ok (map (fun u => f u lgm t) us)) /\
    (forall lgm t, gradual (fun u => f u lgm t) 0 1 (median lgm t) (ln 9 / 5)) /\
    (forall lgm, gradual (fun t => median lgm t) (early lgm) (late lgm) tx0 (ln 9 / 2)) /\
    gradual early le he lx0 (ln 9) /\ gradual late ll hl lx0 (ln 9).
Proof. exact cen_peak_meaning. Qed.
Print Assumptions C84_central_peak.

(** Location and scale of the peak times of satellites: fixed values for heavy halos,
    parameters of the time of observation for light ones. *)
Theorem C84_satellite_peak : forall (p : rec R) lx0 lt0 le ll st0 se sl, NoDup (map fst p) ->
  has p "utp_loc_lgm_x0" lx0 -> has p "utp_loc_lgm_ylo_t0" lt0 ->
  has p "utp_loc_lgm_ylo_early" le -> has p "utp_loc_lgm_ylo_late" ll ->
  has p "utp_scale_lgm_ylo_t0" st0 -> has p "utp_scale_lgm_ylo_early" se -> has p "utp_scale_lgm_ylo_late" sl ->
  exists light_loc light_scale : R -> R, exists loc scale : R -> R -> R,
    (forall lgm t, get_utp_loc p lgm t = Ok (loc lgm t)) /\
    (forall lgm t, get_utp_scale p lgm t = Ok (scale lgm t)) /\
    (forall t, gradual (fun lgm => loc lgm t) (light_loc t) (95/100) lx0 (2 / 3 * ln 9)) /\
    gradual light_loc le ll lt0 (5 / 2 * ln 9) /\
    (forall t, gradual (fun lgm => scale lgm t) (light_scale t) (16/100) 12 (ln 9)) /\
    gradual light_scale se sl st0 (ln 9).
Proof. exact sat_peak_meaning. Qed.
Print Assumptions C84_satellite_peak.

(** The width of the truncated normal of centrals: a value of the mass plus a boost that
    fades over half of the age of the universe. *)
Theorem C84_central_width : forall (p : rec R) b lo hi t0, NoDup (map fst p) ->
  has p "tpck_scale_boost_early" b -> has p "tpck_scale_mh_lo" lo -> has p "tpck_scale_mh_hi" hi ->
  exists today boost, gradual today lo hi (125/10) (ln 9 / 2) /\ gradual boost b 0 (t0 / 2) (ln 9) /\
    forall lgm t, get_singlepdf_params p lgm t t0 = Ok (95/100, today lgm + boost t).
Proof. exact cen_width_meaning. Qed.
Print Assumptions C84_central_width.

(** The published parameters have every field the theorems ask for, those of the two
    standalone kernels in their own tuples. *)
Example C84_fields : exists d : rec R, DEFAULT_DIFFMAHPOP_PARAMS = Ok d /\ NoDup (map fst d) /\
  (forall k, In k (["fec_t_obs_x0"; "fec_lgm_x0"; "fec_lgm_ylo_early"; "fec_lgm_ylo_late"; "fec_lgm_yhi_early";
      "fec_lgm_yhi_late"; "cen_tp_lgm_x0_x0"; "cen_tp_t_obs_x0_x0"; "cen_tp_x0_ylo_early"; "cen_tp_x0_yhi_early";
      "cen_tp_x0_ylo_late"; "cen_tp_x0_yhi_late"; "utp_loc_lgm_x0"; "utp_loc_lgm_ylo_t0"; "utp_loc_lgm_ylo_early";
      "utp_loc_lgm_ylo_late"; "utp_scale_lgm_ylo_t0"; "utp_scale_lgm_ylo_early"; "utp_scale_lgm_ylo_late"] ++
    flat_map (fun s => map (fun k => (k ++ s)%string) ["late_index_x0"; "late_index_ylo"; "late_index_yhi"; "early_index_lgm_x0";
      "early_index_ylo_x0"; "early_index_ylo_ylo"; "early_index_ylo_yhi"; "early_index_yhi_x0"; "early_index_yhi_ylo";
      "early_index_yhi_yhi"]) ["_alpha"; "_beta"] ++
    flat_map (fun s => map (fun k => (k ++ s)%string) ["logtc_lgm_c0_tp_ytp_tobs_c0"; "logtc_lgm_c0_tp_ytp_tobs_c1";
      "logtc_lgm_c0_tp_ylo"; "logtc_lgm_c0_tp_yhi"; "logtc_c0_ss_x0"; "logtc_lgm_c1"]) ["_early"; "_late"] ++
    flat_map (fun s => map (fun k => (k ++ s)%string) ["lgm0pop_c0_ytp"; "lgm0pop_c0_ylo"; "lgm0pop_c0_t_obs_x0";
      "lgm0pop_c0_clip_c0"; "lgm0pop_c0_clip_c1"; "lgm0pop_c1_ytp"; "lgm0pop_c1_ylo"; "lgm0pop_c1_t_obs_x0";
      "lgm0pop_c1_clip_x0"; "lgm0pop_c1_clip_ylo"; "lgm0pop_c1_clip_yhi"]) four_populations)%list ->
    exists v, has d k v) /\
  map fst (c_pdict FTPT0) = ["ftpt0_c0_c0"; "ftpt0_c0_c1"; "ftpt0_c1"] /\
  map fst (c_pdict TPCENS) = ["tpck_scale_boost_early"; "tpck_scale_mh_lo"; "tpck_scale_mh_hi"].
Proof.
  destruct default_legal as (d & E & L). exists d. split; [exact E|]. split; [now apply legal_pop_nodup|].
  split; [|split; reflexivity]. intros k Hk. destruct L as [S _]. unfold shaped in S.
  assert (I : In k (map fst d)).
  { rewrite S. match type of Hk with In _ ?l => set (names := l) in Hk end.
    assert (B : forallb (fun k => existsb (String.eqb k) (map fst pop_bounds)) names = true) by (vm_compute; reflexivity).
    rewrite forallb_forall in B. specialize (B k Hk). apply existsb_exists in B. destruct B as (k' & I' & Ek).
    apply String.eqb_eq in Ek. now subst k'. }
  apply in_map_iff in I. destruct I as ((k', v) & <- & I). now exists v.
Qed.

(** With the published parameters 42 per cent of the halos of 10^12.51 are early formers
    at 5.485 Gyr. *)
Example C84_example : exists f, frac_early_cens_kern (c_pdict FEC) (1251/100) (5485/1000) = Ok f /\ f = 42/100.
Proof.
  destruct (C84_fraction_early (c_pdict FEC) (5485/1000) (1251/100) (546/1000) (421/1000) (415/1000) (298/1000))
    as (l & h & f & E & (_ & _ & _ & _ & L & _) & (_ & _ & _ & _ & H & _) & G).
  1: (cbn; repeat constructor; cbn; intuition discriminate).
  1-6: unfold has; in_list.
  exists (f (1251/100) (5485/1000)). split; [apply E|]. destruct (G (5485/1000)) as (_ & _ & _ & _ & M & _).
  rewrite M, L, H. lra.
Qed.
