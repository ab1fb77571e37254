(** Properties of the kernels in machine arithmetic (C67-C70). *)

From Coq Require Import Reals ZArith Lra Lia List.
From Flocq Require Import Core.
From Verif Require Import Model_Num Model_Kernels Model_Float Spec_Kernels Spec_Float RealAux
  Proofs_Kernels3 Proofs_Float Proofs_Float2 Proofs_Float3 Proofs_Float4 Proofs_Float5.
Import ListNotations.
Local Open Scope R_scope.

(** The setting of C67 is met by IEEE single and double precision. *)
Example C67_binary32_ordered : ordered_arith binary32.
Proof. exact (fa_ordered _ _ _ binary32_faithful). Qed.

Example C67_binary64_ordered : ordered_arith binary64.
Proof. exact (fa_ordered _ _ _ binary64_faithful). Qed.

(** C67.  The table of log-masses, computed with rounding, never decreases with
    time up to today [t0].  [lgt0] is the library's log10 of [t0]. *)
Theorem C67_mass_nondecreasing_rounded : forall F, ordered_arith F ->
  forall p t0 ts i j t1 t2 m1 m2,
  machine_params F p -> 0 <= late_index p <= early_index p -> 0 < t_peak p ->
  nth_error ts i = Some t1 -> nth_error ts j = Some t2 -> 0 < t1 -> t1 <= t2 ->
  t2 <= t0 \/ t_peak p <= t0 ->
  nth_error (snd (fl_singlehalo F p ts (lib_log10 F t0))) i = Some m1 ->
  nth_error (snd (fl_singlehalo F p ts (lib_log10 F t0))) j = Some m2 ->
  m1 <= m2.
Proof.
  intros F HF p t0 ts i j t1 t2 m1 m2 HM HI HP Hi Hj H0 H12 HT H1 H2.
  unfold fl_singlehalo in H1, H2. rewrite mah_singlehalo_map_gen in H1, H2.
  cbn [snd] in H1, H2.
  rewrite (map_nth_error _ i ts Hi) in H1. rewrite (map_nth_error _ j ts Hj) in H2.
  injection H1 as <-. injection H2 as <-.
  apply (fl_log_mah_mono F HF); auto; [apply HM|].
  apply (oa_log10_mono F HF).
  - apply Rmin_glb_lt; lra.
  - destruct HT as [HT | HT];
      [apply Rle_trans with t2; [apply Rmin_l | exact HT]
      | apply Rle_trans with (t_peak p); [apply Rmin_r | exact HT]].
Qed.
Print Assumptions C67_mass_nondecreasing_rounded.

(** The computed accretion rate is zero after [t_peak] and never negative up to [t0]. *)
Theorem C67_rate_sign_rounded : forall F, ordered_arith F ->
  forall p t0 ts i t d,
  nth_error ts i = Some t ->
  nth_error (fst (fl_singlehalo F p ts (lib_log10 F t0))) i = Some d ->
  (t_peak p < t -> d = 0) /\
  (machine_params F p -> 0 <= late_index p <= early_index p -> 0 < t -> t <= t0 -> 0 <= d).
Proof.
  intros F HF p t0 ts i t d Hi Hd.
  unfold fl_singlehalo in Hd. rewrite mah_singlehalo_map_gen in Hd. cbn [fst] in Hd.
  rewrite (map_nth_error _ i ts Hi) in Hd. injection Hd as <-.
  split; [apply (fl_rate_after F HF)|].
  intros HM HI H0 HT. apply (fl_rate_nonneg F HF); auto; [apply HM|].
  now apply (oa_log10_mono F HF).
Qed.
Print Assumptions C67_rate_sign_rounded.

(** No rounding spoils the landmarks of the history: frozen after [t_peak] to the
    last bit, equal to logm0 at [t0] while growing, and never above logm0. *)
Theorem C67_landmarks_rounded : forall F, ordered_arith F -> forall p t0,
  machine_params F p -> 0 < t0 ->
  let log_mah t := fl_log_mah F p t (lib_log10 F t0) in
  (forall t, t_peak p <= t -> log_mah t = log_mah (t_peak p)) /\
  (t0 <= t_peak p -> log_mah t0 = logm0 p) /\
  (0 <= late_index p <= early_index p -> 0 < t_peak p ->
   forall t, 0 < t -> t <= t0 \/ t_peak p <= t0 -> log_mah t <= logm0 p).
Proof.
  intros F HF p t0 HM H0 log_mah. split; [|split].
  - intros t Ht. now apply (fl_frozen F).
  - intros Ht. apply (fl_at_t0 F HF); auto. apply HM.
  - intros HI HP t Ht HT. unfold log_mah. rewrite fl_log_mah_eq.
    destruct HM as (Mm & _ & Me & _).
    destruct (Rltb_spec t (t_peak p)) as [[-> H1] | [-> H1]];
      apply (fl_noq_below F HF); auto; apply (oa_log10_mono F HF); lra.
Qed.
Print Assumptions C67_landmarks_rounded.

(** Machine parameters exist. *)
Example C67_hypotheses :
  let p := mkParams 12 0 3 1 14 in
  machine_params binary32 p /\ 0 <= late_index p <= early_index p /\ 0 < t_peak p.
Proof.
  cbv zeta. unfold machine_params. cbn [logm0 logtc early_index late_index t_peak].
  split; [|split; lra].
  split; [exact (rd32_int 12 ltac:(lia))|]. split; [exact (rd32_int 0 ltac:(lia))|].
  split; [exact (rd32_int 3 ltac:(lia))|]. split; [exact (rd32_int 1 ltac:(lia))|].
  exact (rd32_int 14 ltac:(lia)).
Qed.

(** C68.  Bounding, with rounding, infinities and overflow: every input without NaN,
    infinite ones included, gives finite machine numbers within the closed bounds.
    [rnd F (1/10)] is the machine constant written 0.1 in the source. *)
Theorem C68_bounding_rounded : forall emin prec F big,
  (20 <= prec)%Z -> (emin <= - prec - 100)%Z -> faithful emin prec F ->
  bpow radix2 120 <= big ->
  forall v : DiffmahUParams xr,
  u_logm0 v <> NaN -> u_logtc v <> NaN -> u_early_index v <> NaN -> u_late_index v <> NaN ->
  u_t_peak v <> NaN ->
  exists p, @get_bounded_mah_params xr (Num_xfl F big) v = inject p /\
    within 0 (logm0 p) 17 /\ within (-1) (logtc p) 1 /\
    within (rnd F (1 / 10)) (late_index p) 5 /\
    within (late_index p) (early_index p) 10 /\
    within (rnd F (5 / 100)) (t_peak p) 20 /\ machine_params F p.
Proof.
  intros emin prec F big Hp He HA HB v. now apply (faithful_bounded emin prec).
Qed.
Print Assumptions C68_bounding_rounded.

Example C68_single_precision :
  faithful (-149) 24 binary32 /\ bpow radix2 120 <= big32 /\
  faithful (-1074) 53 binary64 /\ bpow radix2 120 <= big64.
Proof.
  split; [exact binary32_faithful|]. split; [exact big32_large|].
  split; [exact binary64_faithful | exact big64_large].
Qed.

(** The strict bounds of C01 do not survive rounding: in single precision a finite
    unbounded logm0 is mapped to 17 itself, and mapping back gives infinity, so the
    round trip of C02 is lost as well. *)
Theorem C68_strict_bounds_refuted :
  exists v, rnd binary32 v = v /\
    let X := Num_xfl binary32 big32 in
    @get_bounded_diffmah_param xr X (Fin v) (@logm0 _ (@MAH_PBOUNDS xr X)) = Fin 17 /\
    @get_unbounded_diffmah_param xr X
      (@get_bounded_diffmah_param xr X (Fin v) (@logm0 _ (@MAH_PBOUNDS xr X)))
      (@logm0 _ (@MAH_PBOUNDS xr X)) = PInf.
Proof.
  exists (1617 / 2). split.
  - replace (1617 / 2) with (IZR 1617 * bpow radix2 (-1))
      by (change (bpow radix2 (-1)) with (/ 2); lra).
    apply (rne_id (-149) 24). apply format_F2R; cbn; lia.
  - cbv zeta. unfold MAH_PBOUNDS. cbn [logm0 nconst Num_xfl].
    rewrite (x32_fin 0 (rd32_int 0 ltac:(lia))) by (apply size120; lra).
    rewrite (x32_fin 17 (rd32_int 17 ltac:(lia))) by (apply size120; lra).
    rewrite saturates_17. split; [reflexivity | exact unbound_17].
Qed.
Print Assumptions C68_strict_bounds_refuted.

(** C69.  On parameters within the bounds nothing overflows and no NaN appears:
    with infinities, NaN and overflow in play, the results are the finite numbers of
    C67.  The log-mass at every time from a Myr on; the rate up to [t0], and at all
    these times when [t0] is at least 10 Gyr. *)
Theorem C69_no_overflow : forall emin prec F big,
  (20 <= prec)%Z -> (emin <= - prec - 100)%Z -> faithful emin prec F ->
  bpow radix2 120 <= big ->
  forall p t lgt0, closed_legal p -> 1 / 1000 <= t -> -1 <= lgt0 <= 14 / 10 ->
  @logmh_at_t_obs xr (Num_xfl F big) (inject p) (Fin t) (Fin lgt0)
    = Fin (fl_log_mah F p t lgt0) /\
  (log10 t <= lgt0 \/ 1 <= lgt0 ->
   @diffmah_kern_scalar xr (Num_xfl F big) (inject p) (Fin t) (Fin lgt0)
   = (Fin (@dmhdt_kern_scalar R (Num_fl F) p t lgt0), Fin (fl_log_mah F p t lgt0))).
Proof.
  intros emin prec F big Hp He HA HB p t lgt0 HL Ht H0.
  pose proof (finite_log_mah emin prec Hp He F HA big HB p t lgt0 HL Ht H0) as HM.
  split; [exact HM|]. intros HD. unfold diffmah_kern_scalar. f_equal.
  - now apply (finite_rate emin prec).
  - exact HM.
Qed.
Print Assumptions C69_no_overflow.

(** Bounded parameters qualify (C68 gives the rest). *)
Example C69_hypotheses : closed_legal (mkParams 12 0 3 1 14) /\ closed_legal DEFAULT_MAH_PARAMS.
Proof.
  unfold closed_legal, within, DEFAULT_MAH_PARAMS.
  cbn [logm0 logtc early_index late_index t_peak nconst Num_R]. lra.
Qed.

(** C70.  The computed log-mass is within 2000 units of rounding of the exact one:
    1.2e-4 dex in single precision, 2.3e-13 dex in double precision. *)
Theorem C70_log_mass_accuracy : forall emin prec F,
  (20 <= prec)%Z -> (emin <= - prec - 100)%Z -> faithful emin prec F ->
  forall p t lgt0, closed_legal p -> 1 / 1000 <= t <= 20 -> -1 <= lgt0 <= 14 / 10 ->
  Rabs (fl_log_mah F p t lgt0 - logmh_at_t_obs p t lgt0) <= 2000 * bpow radix2 (- prec).
Proof. intros emin prec F Hp He HA. exact (log_mah_error emin prec Hp He F HA). Qed.
Print Assumptions C70_log_mass_accuracy.

Theorem C70_single_precision : forall p t lgt0,
  closed_legal p -> 1 / 1000 <= t <= 20 -> -1 <= lgt0 <= 14 / 10 ->
  Rabs (fl_log_mah binary32 p t lgt0 - logmh_at_t_obs p t lgt0) <= 12 / 100000 /\
  Rabs (fl_log_mah binary64 p t lgt0 - logmh_at_t_obs p t lgt0) <= 3 / 10000000000000.
Proof.
  intros p t lgt0 HL Ht H0.
  pose proof (C70_log_mass_accuracy (-149) 24 binary32 ltac:(lia) ltac:(lia) binary32_faithful
    p t lgt0 HL Ht H0) as H1.
  pose proof (C70_log_mass_accuracy (-1074) 53 binary64 ltac:(lia) ltac:(lia) binary64_faithful
    p t lgt0 HL Ht H0) as H2.
  change (bpow radix2 (Z.opp 24)) with (/ 16777216) in H1.
  change (bpow radix2 (Z.opp 53)) with (/ 9007199254740992) in H2. lra.
Qed.
Print Assumptions C70_single_precision.
