(** Conversions between bounded and unbounded parameters in machine arithmetic (C86). *)

From Coq Require Import Reals ZArith Lra Lia List.
From Flocq Require Import Core.
From Verif Require Import Model_Num Model_Kernels Model_Float Spec_Kernels Spec_Float Spec_Trip RealAux
  Proofs_Float Proofs_Float2 Proofs_Float3 Proofs_Float4 Proofs_Float5 Proofs_Float6 Proofs_Float7.
Local Open Scope R_scope.

(** ** C86 *)

(** From unbounded parameters to bounded ones and back: the error grows like the
    flatness of the sigmoid, exponentially in the distance from the middle, with a scale
    of ten. *)
Theorem C86_unbounded_round_trip : forall emin prec F,
  (24 <= prec)%Z -> (emin <= - prec - 100)%Z -> faithful emin prec F -> accurate_log prec F ->
  forall v, moderate 60 v ->
  let w := fl_unbounded F (fl_bounded F v) in
  let error x middle := 1110 * exp (Rabs (x - middle) / 10) * bpow radix2 (- prec) in
  Rabs (u_logm0 w - u_logm0 v) <= error (u_logm0 v) (17 / 2) /\
  Rabs (u_logtc w - u_logtc v) <= error (u_logtc v) 0 /\
  Rabs (u_early_index w - u_early_index v) <= error (u_early_index v) 0 /\
  Rabs (u_late_index w - u_late_index v) <= error (u_late_index v) (255 / 100) /\
  Rabs (u_t_peak w - u_t_peak v) <= error (u_t_peak v) (10025 / 1000).
Proof.
  intros emin prec F Hp He HA HL v (H1 & H2 & H3 & H4 & H5). cbv beta zeta. rewrite !Rminus_0_r.
  exact (all_out emin prec Hp He F HA HL v H1 H2 H3 H4 H5).
Qed.
Print Assumptions C86_unbounded_round_trip.

(** From bounded parameters to unbounded ones and back: wherever the parameters are well
    inside their bounds the error is a fixed number of units of rounding. *)
Theorem C86_bounded_round_trip : forall emin prec F,
  (24 <= prec)%Z -> (emin <= - prec - 100)%Z -> faithful emin prec F -> accurate_log prec F ->
  forall p, well_legal p ->
  let q := fl_bounded F (fl_unbounded F p) in
  let error n := n * bpow radix2 (- prec) in
  Rabs (logm0 q - logm0 p) <= error 748 /\ Rabs (logtc q - logtc p) <= error 88 /\
  Rabs (early_index q - early_index p) <= error 1300 /\ Rabs (late_index q - late_index p) <= error 216 /\
  Rabs (t_peak q - t_peak p) <= error 878.
Proof.
  intros emin prec F Hp He HA HL p (H1 & H2 & H3 & H4 & H5). unfold well_inside in *. cbv beta zeta.
  apply (all_in emin prec Hp He F HA HL p); lra.
Qed.
Print Assumptions C86_bounded_round_trip.

(** The sizes in single and in double precision, with correctly rounded library functions. *)
Theorem C86_single_and_double :
  (forall v, moderate 30 v ->
     u_agree (6 / 1000) v (fl_unbounded binary32 (fl_bounded binary32 v)) /\
     u_agree (11 / 1000000000000) v (fl_unbounded binary64 (fl_bounded binary64 v))) /\
  (forall p, well_legal p ->
     agree (8 / 100000) p (fl_bounded binary32 (fl_unbounded binary32 p)) /\
     agree (15 / 100000000000000) p (fl_bounded binary64 (fl_unbounded binary64 p))).
Proof.
  assert (L32 : accurate_log 24 binary32) by (intros x; now apply (ieee_log (-149) 24)).
  assert (L64 : accurate_log 53 binary64) by (intros x; now apply (ieee_log (-1074) 53)).
  split.
  - intros v Hv.
    assert (Hv' : moderate 60 v) by (unfold moderate in *; lra).
    pose proof (C86_unbounded_round_trip (-149) 24 binary32 ltac:(lia) ltac:(lia) binary32_faithful L32 v Hv') as H1.
    pose proof (C86_unbounded_round_trip (-1074) 53 binary64 ltac:(lia) ltac:(lia) binary64_faithful L64 v Hv') as H2.
    cbv beta zeta in H1, H2.
    change (bpow radix2 (Z.opp 24)) with (/ 16777216) in H1.
    change (bpow radix2 (Z.opp 53)) with (/ 9007199254740992) in H2.
    assert (E : forall x m, Rabs x <= 30 -> 0 <= m <= 10025 / 1000 -> exp (Rabs (x - m) / 10) <= 82).
    { intros x m Hx Hm. apply exp_upto. apply Rabs_le_inv in Hx.
      assert (Rabs (x - m) <= 40025 / 1000) by (apply Rabs_le; lra). lra. }
    destruct Hv as (V1 & V2 & V3 & V4 & V5).
    pose proof (E _ (17 / 2) V1 ltac:(lra)). pose proof (E _ 0 V2 ltac:(lra)). pose proof (E _ 0 V3 ltac:(lra)).
    pose proof (E _ (255 / 100) V4 ltac:(lra)). pose proof (E _ (10025 / 1000) V5 ltac:(lra)).
    unfold u_agree. lra.
  - intros p Hp.
    pose proof (C86_bounded_round_trip (-149) 24 binary32 ltac:(lia) ltac:(lia) binary32_faithful L32 p Hp) as H1.
    pose proof (C86_bounded_round_trip (-1074) 53 binary64 ltac:(lia) ltac:(lia) binary64_faithful L64 p Hp) as H2.
    cbv beta zeta in H1, H2.
    change (bpow radix2 (Z.opp 24)) with (/ 16777216) in H1.
    change (bpow radix2 (Z.opp 53)) with (/ 9007199254740992) in H2.
    unfold agree. lra.
Qed.
Print Assumptions C86_single_and_double.

(** The published halo is well inside the bounds, and ordinary unbounded parameters are
    moderate. *)
Example C86_example : well_legal DEFAULT_MAH_PARAMS /\ moderate 30 (mkUParams 12 (-3) 25 7 (-29)).
Proof.
  split.
  - unfold well_legal, well_inside. cbn. lra.
  - unfold moderate. cbn [u_logm0 u_logtc u_early_index u_late_index u_t_peak].
    repeat match goal with |- _ /\ _ => split end; apply Rabs_le; lra.
Qed.
