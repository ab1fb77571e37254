(** Specific accretion rates (C90). *)

From Coq Require Import Reals Lra List.
From Verif Require Import Model_Num Model_Kernels Spec_Kernels Spec_Specific RealAux Proofs_Kernels Proofs_Kernels2 Proofs_Specific Proofs_Specific2.
Local Open Scope R_scope.

(** ** C90 *)

(** The accretion rate per unit mass declines at all times up to today. *)
Theorem C90_declines : forall p t0 t s, legal p -> 0 < t0 <= 100 -> 0 < t -> t < s -> s <= t0 -> t <= t_peak p ->
  specific_rate p (log10 t0) s < specific_rate p (log10 t0) t.
Proof. exact specific_declines. Qed.
Print Assumptions C90_declines.

(** So the factor by which the mass grows during a fixed span is smaller the later the span. *)
Theorem C90_growth_slows : forall p t0 t s d, legal p -> 0 < t0 <= 100 ->
  0 < t -> t < s -> 0 < d -> s + d <= t0 -> s + d <= t_peak p ->
  mass p (log10 t0) (s + d) / mass p (log10 t0) s < mass p (log10 t0) (t + d) / mass p (log10 t0) t.
Proof. exact growth_slows. Qed.
Print Assumptions C90_growth_slows.

(** In units of the age of the universe it stays above the late index and within a fixed
    range of it. *)
Theorem C90_range : forall p t0 t, legal p -> 0 < t0 <= 100 -> 0 < t -> t <= t0 -> t <= t_peak p ->
  late_index p < t * specific_rate p (log10 t0) t < late_index p + 15 / 4 * (early_index p - late_index p).
Proof.
  intros p t0 t H H0 P L L'. pose proof (reach p t0 H H0). rewrite specific_before by assumption.
  replace (t * (dplaw (log10 t0) (logtc p) (early_index p) (late_index p) (log10 t) / t)) with
    (dplaw (log10 t0) (logtc p) (early_index p) (late_index p) (log10 t)) by (field; lra).
  unfold legal in H. assert (log10 t <= log10 t0) by (apply log10_le; lra).
  split; [apply dplaw_above|apply dplaw_below]; lra.
Qed.
Print Assumptions C90_range.

(** It can exceed the early index, however: the early index does not bound the logarithmic
    growth rate. *)
Theorem C90_early_index_bound_refuted : exists p t0 t, legal p /\ 0 < t0 <= 100 /\ 0 < t /\ t <= t0 /\ t <= t_peak p /\
  early_index p < t * specific_rate p (log10 t0) t.
Proof.
  exists (mkParams 12 0 2 1 14), 10, 1.
  split; [unfold legal; cbn; lra|]. split; [lra|]. split; [lra|]. split; [lra|]. split; [cbn; lra|].
  rewrite specific_before by (cbn; lra). cbn [logtc early_index late_index]. unfold dplaw.
  rewrite log10_1. replace (35 / 10 * (0 - 0)) with 0 by ring. rewrite logistic_0.
  assert (E : log10 10 = 1) by (unfold log10; pose proof ln10_pos; field; lra).
  rewrite E. lra.
Qed.
Print Assumptions C90_early_index_bound_refuted.

(** Once the logarithmic growth rate is down to the early index it falls for good, *)
Theorem C90_index_falls : forall p t0 t s, legal p -> 0 < t0 -> 0 < t -> t < s -> s <= t0 -> s <= t_peak p ->
  t * specific_rate p (log10 t0) t <= early_index p ->
  s * specific_rate p (log10 t0) s < t * specific_rate p (log10 t0) t.
Proof. exact growth_index_falls. Qed.
Print Assumptions C90_index_falls.

(** and once it is also down to 1 the accretion rate itself falls for good. *)
Theorem C90_rate_declines : forall p t0 t s, legal p -> 0 < t0 -> 0 < t -> t < s -> s <= t0 -> t <= t_peak p ->
  t * specific_rate p (log10 t0) t <= early_index p -> t * specific_rate p (log10 t0) t <= 1 ->
  rate p (log10 t0) s < rate p (log10 t0) t.
Proof. exact rate_declines. Qed.
Print Assumptions C90_rate_declines.

Example C90_example :
  specific_rate (mkParams 12 (5 / 100) (26 / 10) (2 / 10) 14) (log10 13) 10 <
  specific_rate (mkParams 12 (5 / 100) (26 / 10) (2 / 10) 14) (log10 13) 2.
Proof. apply C90_declines; try lra; [unfold legal|]; cbn; lra. Qed.

(** A halo of low indices: from 1 Gyr on its accretion rate falls. *)
Example C90_example_rate :
  rate (mkParams 12 0 (9 / 10) (2 / 10) 14) (log10 2) (3 / 2) < rate (mkParams 12 0 (9 / 10) (2 / 10) 14) (log10 2) 1.
Proof.
  assert (L : log10 2 <= 1 / 2).
  { assert (E : log10 4 = 2 * log10 2).
    { unfold log10. replace 4 with (2 * 2) by lra. rewrite ln_mult by lra. pose proof ln10_pos. field. lra. }
    assert (T : log10 10 = 1) by (unfold log10; pose proof ln10_pos; field; lra).
    assert (log10 4 <= log10 10) by (apply log10_le; lra). lra. }
  assert (A : 1 * specific_rate (mkParams 12 0 (9 / 10) (2 / 10) 14) (log10 2) 1 <= 9 / 10).
  { rewrite growth_index by (cbn; lra). cbn [logtc early_index late_index]. unfold dplaw. rewrite log10_1.
    replace (35 / 10 * (0 - 0)) with 0 by ring. rewrite logistic_0. lra. }
  apply C90_rate_declines; cbn [early_index t_peak]; try lra. unfold legal; cbn; lra.
Qed.
