(** Small changes of the parameters make small changes of the history (C87). *)

From Coq Require Import Reals ZArith Lra Lia List Ascii String.
From Flocq Require Import Core.
From Verif Require Import Model_Num RealAux Model_Base Model_Kernels Model_Float Model_Fitter Model_Outline
  Spec_Kernels Spec_Fitter Spec_Outline Spec_Float Spec_Trip
  Proofs_Fitter Proofs_Fitter2 Proofs_Outline Proofs_Outline2
  Proofs_Float3 Proofs_Float4 Proofs_Float5 Proofs_Float7 Props_Outline Props_Fitter Props_Float3 Proofs_Stability.
Import ListNotations.
Local Open Scope R_scope.

(** ** C87 *)

(** Two sets of parameters, one of them with indices between 0 and 10, at any time.  [D]
    bounds the distance, in dex, between today and the time in question, [d] the
    difference of the two indices. *)
Theorem C87_stability : forall p q t lgt0 D d,
  0 <= early_index p <= 10 -> 0 <= late_index p <= 10 -> 0 < t -> 0 < t_peak p -> 0 < t_peak q ->
  Rabs (log10 (Rmin t (t_peak p)) - lgt0) <= D -> Rabs (log10 (Rmin t (t_peak q)) - lgt0) <= D ->
  Rabs (early_index p - early_index q) <= d -> Rabs (late_index p - late_index q) <= d ->
  Rabs (logmh_at_t_obs p t lgt0 - logmh_at_t_obs q t lgt0) <=
    Rabs (logm0 p - logm0 q) + D * d + 35 / 4 * D * Rabs (logtc p - logtc q) +
    (10 + 35 / 4 * D) * Rabs (log10 (t_peak p) - log10 (t_peak q)).
Proof. exact history_stable. Qed.
Print Assumptions C87_stability.

Lemma text_close p x1 x2 x3 x4 x5 : legal p ->
  reads_back (Fin (logm0 p)) x1 -> reads_back (Fin (logtc p)) x2 -> reads_back (Fin (early_index p)) x3 ->
  reads_back (Fin (late_index p)) x4 -> reads_back (Fin (t_peak p)) x5 ->
  exists q, x1 = Fin (logm0 q) /\ x2 = Fin (logtc q) /\ x3 = Fin (early_index q) /\
    x4 = Fin (late_index q) /\ x5 = Fin (t_peak q) /\
    forall t lgt0, 1 / 1000 <= t <= 20 -> -1 <= lgt0 <= 14 / 10 ->
    Rabs (logmh_at_t_obs p t lgt0 - logmh_at_t_obs q t lgt0) <= 7 / 10000.
Proof.
  intros HL R1 R2 R3 R4 R5.
  destruct R1 as (m & -> & N1). destruct R2 as (tc & -> & N2). destruct R3 as (e & -> & N3).
  destruct R4 as (l & -> & N4). destruct R5 as (tp & -> & N5).
  apply nearest_rel in N1. apply nearest_rel in N2. apply nearest_rel in N3. apply nearest_rel in N4. apply nearest_rel in N5.
  exists (mkParams m tc e l tp). cbn [logm0 logtc early_index late_index t_peak].
  split; [reflexivity|]. split; [reflexivity|]. split; [reflexivity|]. split; [reflexivity|]. split; [reflexivity|].
  intros t lgt0 Ht H0. destruct HL as (L1 & L2 & L3 & L4 & L5 & L6). 
  rewrite (Rabs_right (logm0 p)) in N1 by lra. rewrite (Rabs_right (early_index p)) in N3 by lra.
  rewrite (Rabs_right (late_index p)) in N4 by lra. rewrite (Rabs_right (t_peak p)) in N5 by lra.
  assert (A2 : Rabs (logtc p) <= 1) by (apply Rabs_le; lra).
  destruct (log10_rel (t_peak p) tp (5 / 1000000) ltac:(lra) ltac:(lra) N5) as (Ptp & N5').
  assert (D1 : forall a, 4 / 100 <= a -> Rabs (log10 (Rmin t a) - lgt0) <= 44 / 10).
  { intros a Ha. assert (1 / 1000 <= Rmin t a <= 20).
    { split; [apply Rmin_glb; lra|]. eapply Rle_trans; [apply Rmin_l|lra]. }
    pose proof (Proofs_Float4.log10_range (Rmin t a) H). apply Rabs_le. lra. }
  pose proof (Rabs_le_inv _ _ N5) as B5.
  pose proof (history_stable p (mkParams m tc e l tp) t lgt0 (44 / 10) (5 / 100000)) as S.
  cbn [logm0 logtc early_index late_index t_peak] in S.
  eapply Rle_trans; [apply S; try lra; apply D1; lra|]. lra.
Qed.

(** A fit written to a line of text and read back: the history of the parameters read
    back is that of the fit to 0.0007 dex, at all times from 0.001 to 20 Gyr. *)
Theorem C87_text : forall fr p d, p_best fr = inject p -> legal p ->
  parse_outline (get_outline fr None) = Ok d ->
  exists q, fd_logm0 d = Fin (logm0 q) /\ fd_logtc d = Fin (logtc q) /\ fd_early d = Fin (early_index q) /\
    fd_late d = Fin (late_index q) /\ fd_t_peak d = Fin (t_peak q) /\
    forall t lgt0, 1 / 1000 <= t <= 20 -> -1 <= lgt0 <= 14 / 10 ->
    Rabs (logmh_at_t_obs p t lgt0 - logmh_at_t_obs q t lgt0) <= 7 / 10000.
Proof.
  intros fr p d Hfr HL Hd.
  destruct (round_trip fr) as (d' & H & R1 & R2 & R3 & R4 & R5 & _).
  rewrite Hd in H. injection H as <-. rewrite Hfr in R1, R2, R3, R4, R5.
  unfold inject in R1, R2, R3, R4, R5. cbn [logm0 logtc early_index late_index t_peak] in R1, R2, R3, R4, R5.
  apply (text_close p _ _ _ _ _ HL R1 R2 R3 R4 R5).
Qed.
Print Assumptions C87_text.

(** Parameters converted to unbounded ones and back in machine arithmetic. *)
Theorem C87_conversion : forall emin prec F,
  (24 <= prec)%Z -> (emin <= - prec - 100)%Z -> faithful emin prec F -> accurate_log prec F ->
  forall p t lgt0, well_legal p -> 1 <= t_peak p -> 1 / 1000 <= t <= 20 -> -1 <= lgt0 <= 14 / 10 ->
  Rabs (logmh_at_t_obs p t lgt0 - logmh_at_t_obs (fl_bounded F (fl_unbounded F p)) t lgt0)
    <= 32000 * bpow radix2 (- prec).
Proof.
  intros emin prec F Hp He HA HLn p t lgt0 HW H1 Ht H0.
  destruct (C86_bounded_round_trip emin prec F Hp He HA HLn p HW) as (E1 & E2 & E3 & E4 & E5).
  cbv beta in E1, E2, E3, E4, E5.
  set (q := fl_bounded F (fl_unbounded F p)) in *. set (u := bpow radix2 (- prec)) in *.
  assert (Hu : 0 < u <= / 16777216) by apply (Proofs_Float6.u24 prec Hp).
  destruct HW as (_ & _ & W3 & W4 & W5). unfold well_inside in W3, W4, W5.
  rewrite Rabs_minus_sym in E1, E2, E3, E4, E5.
  destruct (log10_rel (t_peak p) (t_peak q) (878 * u) ltac:(lra) ltac:(lra)) as (Ptp & E5').
  { eapply Rle_trans; [exact E5|]. nra. }
  assert (D1 : forall a, 4 / 100 <= a -> Rabs (log10 (Rmin t a) - lgt0) <= 44 / 10).
  { intros a Ha. assert (1 / 1000 <= Rmin t a <= 20).
    { split; [apply Rmin_glb; lra|]. eapply Rle_trans; [apply Rmin_l|lra]. }
    pose proof (Proofs_Float4.log10_range (Rmin t a) H). apply Rabs_le. lra. }
  pose proof (Rabs_le_inv _ _ E5) as B5.
  eapply Rle_trans; [apply (history_stable p q t lgt0 (44 / 10) (1300 * u)); try lra; apply D1; lra|]. lra.
Qed.
Print Assumptions C87_conversion.

(** In single precision the history moves by less than 0.002 dex. *)
Theorem C87_single_and_double : forall p t lgt0,
  well_legal p -> 1 <= t_peak p -> 1 / 1000 <= t <= 20 -> -1 <= lgt0 <= 14 / 10 ->
  Rabs (logmh_at_t_obs p t lgt0 - logmh_at_t_obs (fl_bounded binary32 (fl_unbounded binary32 p)) t lgt0) <= 2 / 1000 /\
  Rabs (logmh_at_t_obs p t lgt0 - logmh_at_t_obs (fl_bounded binary64 (fl_unbounded binary64 p)) t lgt0)
    <= 4 / 1000000000000.
Proof.
  assert (L32 : accurate_log 24 binary32) by (intros x; now apply (ieee_log (-149) 24)).
  assert (L64 : accurate_log 53 binary64) by (intros x; now apply (ieee_log (-1074) 53)).
  intros p t lgt0 HW H1 Ht H0.
  pose proof (C87_conversion (-149) 24 binary32 ltac:(lia) ltac:(lia) binary32_faithful L32 p t lgt0 HW H1 Ht H0) as A.
  pose proof (C87_conversion (-1074) 53 binary64 ltac:(lia) ltac:(lia) binary64_faithful L64 p t lgt0 HW H1 Ht H0) as B.
  change (bpow radix2 (Z.opp 24)) with (/ 16777216) in A.
  change (bpow radix2 (Z.opp 53)) with (/ 9007199254740992) in B. lra.
Qed.
Print Assumptions C87_single_and_double.

(** The fitter, its line of text and the reader in one: the history read back is that of
    the fit. *)
Theorem C87_fit_to_text :
  forall St f4 (adam : Adam St) (mini : Minimizer) c t m lgm_min cut tmin nstep nwarm tpf force fr l0 tp,
  rounding f4 c -> starts_at_input adam -> honest_minimizer mini ->
  (0 < nstep)%nat -> (forall x, In x t -> 0 < x) ->
  last_is (floored lgm_min m) l0 -> 0 < c l0 < 17 ->
  wanted_t_peak c t (floored lgm_min m) l0 tpf tp -> 5 / 100 < c tp < 20 ->
  diffmah_fitter f4 adam mini (map Fin t) (map Fin m) (lgm_arg lgm_min) (Fin cut) (Fin tmin)
    nstep nwarm (option_map Fin tpf) force = Ok fr ->
  skip_fit fr = false ->
  exists p d q, p_best fr = inject p /\ parse_outline (get_outline fr None) = Ok d /\
    fd_logm0 d = Fin (logm0 q) /\ fd_logtc d = Fin (logtc q) /\ fd_early d = Fin (early_index q) /\
    fd_late d = Fin (late_index q) /\ fd_t_peak d = Fin (t_peak q) /\
    forall t' lgt0, 1 / 1000 <= t' <= 20 -> -1 <= lgt0 <= 14 / 10 ->
    Rabs (logmh_at_t_obs p t' lgt0 - logmh_at_t_obs q t' lgt0) <= 7 / 10000.
Proof.
  intros St f4 adam mini c t m g cut tmin ns nw tpf force fr l0 tp HR HA HM Hn Hp HL Hl Hw Ht H HS.
  destruct (C26_fitted_parameters_legal St f4 adam mini c t m g cut tmin ns nw tpf force fr l0 tp
    HR HA HM Hn Hp HL Hl Hw Ht H HS) as (p & E & HLp & _).
  destruct (round_trip fr) as (d & Hd & _).
  destruct (C87_text fr p d E HLp Hd) as (q & Q). exists p, d, q. auto.
Qed.
Print Assumptions C87_fit_to_text.

(** The published halo meets the hypotheses; so does a fit that returns it. *)
Example C87_example : legal DEFAULT_MAH_PARAMS /\ well_legal DEFAULT_MAH_PARAMS /\
  1 <= t_peak (@DEFAULT_MAH_PARAMS R Num_R) /\
  exists fr d, p_best fr = inject DEFAULT_MAH_PARAMS /\ parse_outline (get_outline fr None) = Ok d.
Proof.
  split; [unfold legal; cbn; lra|]. split; [unfold well_legal, well_inside; cbn; lra|]. split; [cbn; lra|].
  exists (mkFitResult (inject DEFAULT_MAH_PARAMS) (Fin (1 / 100)) false true 0
    (mkLossData [Fin 1; Fin 2] [Fin 11; Fin 12] (Fin 0) (Fin 1))).
  destruct (round_trip (mkFitResult (inject DEFAULT_MAH_PARAMS) (Fin (1 / 100)) false true 0
    (mkLossData [Fin 1; Fin 2] [Fin 11; Fin 12] (Fin 0) (Fin 1)))) as (d & Hd & _).
  exists d. split; [reflexivity|exact Hd].
Qed.
