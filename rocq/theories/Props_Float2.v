(** Accuracy of the accretion rates in machine arithmetic (C85). *)

From Coq Require Import Reals ZArith Lra Lia List.
From Flocq Require Import Core.
From Verif Require Import Model_Num Model_Kernels Model_Float Spec_Kernels Spec_Float RealAux
  Proofs_Kernels3 Proofs_Float Proofs_Float2 Proofs_Float3 Proofs_Float4 Proofs_Float5 Proofs_Float6.
Import ListNotations.
Local Open Scope R_scope.

(** ** C85 *)

(** In every faithful arithmetic of at least 24 bits whose powers of ten are good to four
    units of rounding, the accretion rate of a halo of at least one solar mass, up to
    today, has a relative error of at most 104000 units of rounding.  After the peak both
    rates are zero. *)
Theorem C85_rate_accuracy : forall emin prec F,
  (24 <= prec)%Z -> (emin <= - prec - 100)%Z -> faithful emin prec F ->
  (forall x, -30 <= x <= 30 -> Rabs (lib_pow10 F x - pow10 x) <= 4 * bpow radix2 (- prec) * pow10 x) ->
  forall p ts lgt0 i t m d d', closed_legal p -> 1 / 10 <= late_index p -> -1 <= lgt0 <= 14 / 10 ->
  nth_error ts i = Some t -> 1 / 1000 <= t <= 20 -> log10 t <= lgt0 ->
  nth_error (snd (mah_singlehalo p ts lgt0)) i = Some m -> 0 <= m ->
  nth_error (fst (mah_singlehalo p ts lgt0)) i = Some d ->
  nth_error (fst (fl_singlehalo F p ts lgt0)) i = Some d' ->
  Rabs (d' - d) <= 104000 * bpow radix2 (- prec) * d.
Proof.
  intros emin prec F Hp He HA HP p ts lgt0 i t m d d' HL Hl H0 Ht Ht2 HT Hm Hm0 Hd Hd'.
  unfold fl_singlehalo in Hd'. rewrite mah_singlehalo_map_gen in Hm, Hd. rewrite mah_singlehalo_map_gen in Hd'. cbn [fst snd] in Hm, Hd, Hd'.
  rewrite (map_nth_error _ i ts Ht) in Hm. rewrite (map_nth_error _ i ts Ht) in Hd. rewrite (map_nth_error _ i ts Ht) in Hd'. injection Hm as <-. injection Hd as <-. injection Hd' as <-.
  apply (rate_error emin prec Hp He F HA HP); auto. lra.
Qed.
Print Assumptions C85_rate_accuracy.

(** In single precision the rates are good to 0.63 per cent, in double precision to
    1.2e-11, with correctly rounded library functions. *)
Theorem C85_single_and_double : forall p ts lgt0 i t m d d32 d64,
  closed_legal p -> 1 / 10 <= late_index p -> -1 <= lgt0 <= 14 / 10 ->
  nth_error ts i = Some t -> 1 / 1000 <= t <= 20 -> log10 t <= lgt0 ->
  nth_error (snd (mah_singlehalo p ts lgt0)) i = Some m -> 0 <= m ->
  nth_error (fst (mah_singlehalo p ts lgt0)) i = Some d ->
  nth_error (fst (fl_singlehalo binary32 p ts lgt0)) i = Some d32 ->
  nth_error (fst (fl_singlehalo binary64 p ts lgt0)) i = Some d64 ->
  Rabs (d32 - d) <= 63 / 10000 * d /\ Rabs (d64 - d) <= 12 / 1000000000000 * d.
Proof.
  intros p ts lgt0 i t m d d32 d64 HL Hl H0 Ht Ht2 HT Hm Hm0 Hd H32 H64.
  pose proof (C85_rate_accuracy (-149) 24 binary32 ltac:(lia) ltac:(lia) binary32_faithful
    (fun x => ieee_pow10 (-149) 24 x ltac:(lia) ltac:(lia))
    p ts lgt0 i t m d d32 HL Hl H0 Ht Ht2 HT Hm Hm0 Hd H32) as H1.
  pose proof (C85_rate_accuracy (-1074) 53 binary64 ltac:(lia) ltac:(lia) binary64_faithful
    (fun x => ieee_pow10 (-1074) 53 x ltac:(lia) ltac:(lia))
    p ts lgt0 i t m d d64 HL Hl H0 Ht Ht2 HT Hm Hm0 Hd H64) as H2.
  change (bpow radix2 (Z.opp 24)) with (/ 16777216) in H1.
  change (bpow radix2 (Z.opp 53)) with (/ 9007199254740992) in H2.
  pose proof (Rabs_pos (d32 - d)). assert (0 <= d) by lra. lra.
Qed.
Print Assumptions C85_single_and_double.

(** The published halo, whose log-mass at 5 Gyr is at least 9. *)
Example C85_example : closed_legal DEFAULT_MAH_PARAMS /\ 1 / 10 <= late_index (@DEFAULT_MAH_PARAMS R Num_R) /\
  log10 5 <= 114 / 100 /\
  exists m, nth_error (snd (mah_singlehalo DEFAULT_MAH_PARAMS [5] (114 / 100))) 0 = Some m /\ 9 <= m.
Proof.
  assert (L : 0 <= log10 5 <= 1).
  { split; [apply log10_ge_pow10; rewrite pow10_0; lra|apply log10_le_pow10; [lra|]; rewrite pow10_1; lra]. }
  split; [unfold closed_legal, within; cbn; lra|]. split; [cbn; lra|]. split; [lra|].
  rewrite mah_singlehalo_map_gen. cbn [snd map nth_error]. eexists. split; [reflexivity|].
  unfold logmh_at_t_obs, log_mah_kern, jwhere. cbn [nltb Num_R].
  destruct (Rltb_spec 5 (t_peak (@DEFAULT_MAH_PARAMS R Num_R))) as [[-> _]|[_ H]]; [|cbn in H; lra].
  change (@log_mah_noq_kern R Num_R DEFAULT_MAH_PARAMS 5 (114 / 100)) with
    ((26137643 / 10000000 + (12692805 / 100000000 - 26137643 / 10000000) * logistic (35 / 10 * (log10 5 - 5 / 100)))
     * (log10 5 - 114 / 100) + 12).
  pose proof (logistic_bounds (35 / 10 * (log10 5 - 5 / 100))) as Hs. set (s := logistic _) in *.
  assert (0 <= 26137643 / 10000000 + (12692805 / 100000000 - 26137643 / 10000000) * s <= 262 / 100) by lra. nra.
Qed.
